(** * Property C100, continued: the interactive calibration leaves a waiting state only when the angular rate really was steady. *)
From Coq Require Import Reals List Arith Lia Lra Bool.
From Verif Require Import HostTime Ferraris PropFerraris PropCalib.
Import ListNotations.
Local Open Scope R_scope.

(** ** Specification *)

(** [part l m]: [l] is [m] with some readings left out *)
Inductive part {A} : list A -> list A -> Prop :=
| part_nil : part [] []
| part_skip x l m : part l m -> part l (x :: m)
| part_take x l m : part l m -> part (x :: l) (x :: m).

(** neighbours are more than 100 ms apart *)
Fixpoint spaced (l : list reading) : Prop :=
  match l with a :: ((b :: _) as t) => 100 < rd_time b - rd_time a /\ spaced t | _ => True end.

(** the sum of the angular accelerations between neighbours, per second, about one axis *)
Fixpoint accelerations (axis : vec -> R) (l : list reading) : R :=
  match l with
  | a :: ((b :: _) as t) => (axis (rd_gyro b) - axis (rd_gyro a)) / ((rd_time b - rd_time a) / 1000) + accelerations axis t
  | _ => 0
  end.

(** ** Proofs *)
Lemma part_app {A} (l m n : list A) : part l m -> part l (m ++ n).
Proof. intro P. induction P; cbn [app]; [|constructor; assumption|constructor; assumption]. induction n; constructor; assumption. Qed.
Lemma part_snoc {A} (l m : list A) x : part l m -> part (l ++ [x]) (m ++ [x]).
Proof. intro P. induction P; cbn [app]; [apply part_take, part_nil|apply part_skip; assumption|apply part_take; assumption]. Qed.
Lemma part_tail {A} (x : A) l m : part (x :: l) m -> part l m.
Proof.
  intro P. remember (x :: l) as k eqn:E. revert x l E. induction P as [|y k m P IH|y k m P IH]; intros x l E; [discriminate| |].
  - apply part_skip. exact (IH _ _ E).
  - injection E as -> ->. apply part_skip. exact P.
Qed.
Lemma part_none {A} (m : list A) : part [] m. Proof. induction m; constructor; assumption. Qed.

Lemma spaced_snoc l a b : spaced (l ++ [a]) -> 100 < rd_time b - rd_time a -> spaced ((l ++ [a]) ++ [b]).
Proof.
  intros S H. induction l as [|x l IH]; [cbn; tauto|]. destruct l as [|y l]; cbn [app spaced] in *; [tauto|]. destruct S as [S1 S2]. split; [exact S1|]. exact (IH S2).
Qed.
Lemma spaced_tail x l : spaced (x :: l) -> spaced l. Proof. destruct l; cbn [spaced]; tauto. Qed.
Lemma accelerations_snoc axis l a b : accelerations axis ((l ++ [a]) ++ [b])
  = accelerations axis (l ++ [a]) + (axis (rd_gyro b) - axis (rd_gyro a)) / ((rd_time b - rd_time a) / 1000).
Proof.
  induction l as [|x l IH]; [cbn [app accelerations]; ring|]. destruct l as [|y l]; cbn [app accelerations] in *; [ring|]. rewrite IH. ring.
Qed.

(** newest first *)
Fixpoint quot (ch : list reading) : list vec :=
  match ch with b :: ((a :: _) as t) => vdiv (vsub (rd_gyro b) (rd_gyro a)) ((rd_time b - rd_time a) / 1000) :: quot t | _ => [] end.
Lemma quot_length ch : length (quot ch) = (length ch - 1)%nat.
Proof. induction ch as [|b [|a t] IH]; [reflexivity..|]. change (length (quot (b :: a :: t))) with (S (length (quot (a :: t)))). rewrite IH. cbn [length]. lia. Qed.
Lemma quot_removelast ch : (2 <= length ch)%nat -> quot (removelast ch) = removelast (quot ch).
Proof.
  induction ch as [|c [|b t] IH]; cbn [length]; intro L; [lia|lia|]. destruct t as [|a t]; [reflexivity|].
  change (removelast (c :: b :: a :: t)) with (c :: b :: removelast (a :: t)).
  change (quot (c :: b :: removelast (a :: t))) with (vdiv (vsub (rd_gyro c) (rd_gyro b)) ((rd_time c - rd_time b) / 1000) :: quot (removelast (b :: a :: t))).
  rewrite IH by (cbn [length]; lia). reflexivity.
Qed.
Lemma quot_sum axis ch : (axis = v1 \/ axis = v2 \/ axis = v3) -> axis (vsum (quot ch)) = accelerations axis (rev ch).
Proof.
  intro X. assert (A : forall b a k s, axis (vadd (vdiv (vsub b a) k) s) = axis s + (axis b - axis a) / k).
  { intros b a k s. destruct X as [->|[->| ->]]; cbn; lra. }
  induction ch as [|b [|a t] IH].
  - destruct X as [->|[->| ->]]; reflexivity.
  - destruct X as [->|[->| ->]]; reflexivity.
  - change (quot (b :: a :: t)) with (vdiv (vsub (rd_gyro b) (rd_gyro a)) ((rd_time b - rd_time a) / 1000) :: quot (a :: t)).
    cbn [vsum]. rewrite A, IH. cbn [rev]. rewrite accelerations_snoc. reflexivity.
Qed.

(** the readings behind the window *)
Definition chain (seen : list reading) (last : option reading) (w : ssma vec) : Prop :=
  wf_window w /\ exists ch, part (rev ch) seen /\ spaced (rev ch) /\ last = hd_error ch /\ ss_samples w = quot ch.
Definition slow (threshold : R) (seen : list reading) (r : reading) : Prop :=
  exists samples, part (samples ++ [r]) seen /\ length samples = 50%nat /\ spaced (samples ++ [r])
    /\ let mean axis := accelerations axis (samples ++ [r]) / 50 in
       mean v1 * mean v1 + mean v2 * mean v2 + mean v3 * mean v3 < threshold * threshold.

Lemma chain_more seen last w r : chain seen last w -> chain (seen ++ [r]) last w.
Proof. intros (W & ch & P & S & L & Q). split; [exact W|]. exists ch. split; [apply part_app; exact P|]. tauto. Qed.
Lemma hd_tail {A} (x : A) ch : Some x = hd_error ch -> exists t, ch = x :: t.
Proof. destruct ch as [|y t]; cbn; [discriminate|]. intro E. injection E as ->. exists t. reflexivity. Qed.
Lemma rev_removelast {A} (l : list A) : rev (removelast l) = tl (rev l).
Proof.
  destruct l as [|x l] using rev_ind; [reflexivity|]. rewrite removelast_last, rev_app_distr. reflexivity.
Qed.

Lemma wait_chain seen last w threshold r still last' w' : chain seen last w -> last <> None ->
  wait_still last w (threshold * threshold) r = (still, last', w') ->
  chain (seen ++ [r]) last' w' /\ (still = true -> slow threshold (seen ++ [r]) r).
Proof.
  intros C N E. unfold wait_still in E. destruct last as [x|]; [|congruence].
  destruct (Rlt_dec 100 (rd_time r - rd_time x)) as [D|D].
  2: { injection E as <- <- <-. split; [apply chain_more; exact C|discriminate]. }
  destruct C as (W & ch & P & S & L & Q). apply hd_tail in L. destruct L as [t ->].
  assert (P1 : part (rev (r :: x :: t)) (seen ++ [r])) by (apply (part_snoc (rev (x :: t))); exact P).
  assert (S1 : spaced (rev (r :: x :: t))) by (cbn [rev] in *; apply spaced_snoc; assumption).
  match type of E with context [ssma_add vadd vsub vzero 50 w ?y] => set (w1 := ssma_add vadd vsub vzero 50 w y) in * end.
  assert (W1 : wf_window w1) by (apply wf_add; exact W).
  assert (K : exists t', part (rev (r :: t')) (seen ++ [r]) /\ spaced (rev (r :: t')) /\ ss_samples w1 = quot (r :: t')).
  { unfold w1, ssma_add. cbn [Nat.eqb]. destruct (length (ss_samples w) =? 50)%nat eqn:F; cbn [ss_samples].
    - apply Nat.eqb_eq in F. exists (removelast (x :: t)). assert (LQ : length (quot (x :: t)) = 50%nat) by (rewrite <- Q; exact F).
      rewrite quot_length in LQ. cbn [length] in LQ.
      assert (RV : rev (r :: removelast (x :: t)) = tl (rev (r :: x :: t))).
      { rewrite <- rev_removelast. destruct t; [cbn in LQ; lia|]. reflexivity. }
      rewrite RV. destruct (rev (r :: x :: t)) as [|z zs] eqn:RE; [cbn in RE; destruct (rev t); discriminate|]. cbn [tl].
      split; [exact (part_tail _ _ _ P1)|]. split; [exact (spaced_tail _ _ S1)|].
      rewrite Q, <- quot_removelast by (cbn [length]; lia). destruct t as [|a t]; [cbn in LQ; lia|].
      change (removelast (x :: a :: t)) with (x :: removelast (a :: t)). reflexivity.
    - exists (x :: t). split; [exact P1|]. split; [exact S1|]. rewrite Q. reflexivity. }
  destruct K as (t' & P2 & S2 & Q2).
  assert (C2 : chain (seen ++ [r]) (Some r) w1) by (split; [exact W1|]; exists (r :: t'); tauto).
  destruct (ssma_is_full 50 w1 && _) eqn:T in E; injection E as <- <- <-; [|split; [exact C2|discriminate]].
  split.
  - split; [apply wf_clear|]. exists [r]. split; [|split; [exact I|split; reflexivity]]. apply (part_snoc []). apply part_none.
  - intros _. apply andb_prop in T. destruct T as [F T]. unfold ssma_is_full in F. apply Nat.eqb_eq in F.
    exists (rev t'). cbn [rev] in P2, S2. split; [exact P2|]. split; [rewrite rev_length; rewrite Q2, quot_length in F; cbn [length] in F; lia|].
    split; [exact S2|]. cbv zeta. destruct (Rlt_dec _ (threshold * threshold)) as [Lt|]; [|discriminate].
    unfold ssma_average in Lt. rewrite F in Lt. cbn [Nat.eqb] in Lt. destruct W1 as (_ & S0). rewrite S0, Q2 in Lt.
    assert (F50 : INR 50 = 50) by (rewrite INR_IZR_INZ; reflexivity). rewrite F50 in Lt.
    unfold norm_squared, vdiv in Lt. cbn [v1 v2 v3] in Lt.
    rewrite !(quot_sum v1), !(quot_sum v2), !(quot_sum v3) in Lt by tauto. exact Lt.
Qed.

Record keeps (threshold : R) (seen : list reading) (c : icalibrator) : Prop := Keeps {
  k_chain : chain seen (ic_last c) (ic_window c);
  k_some : ic_state c <> Idle -> ic_last c <> None;
  k_idle : ic_state c = Idle -> ss_samples (ic_window c) = [];
  k_thr : ic_threshold_sq c = threshold * threshold }.

Lemma keeps_wait threshold seen nxt c i r c' o : keeps threshold seen c -> ic_state c <> Idle -> nxt <> Idle -> arm_wait nxt c i r = (c', o) ->
  keeps threshold (seen ++ [r]) c' /\ (o <> None -> slow threshold (seen ++ [r]) r).
Proof.
  intros K Q NN E. unfold arm_wait in E. destruct (wait_still (ic_last c) (ic_window c) (ic_threshold_sq c) r) as [[still last] w] eqn:Ew.
  rewrite (k_thr _ _ _ K) in Ew. destruct (wait_chain _ _ _ _ _ _ _ _ (k_chain _ _ _ K) (k_some _ _ _ K Q) Ew) as [C S].
  assert (LN : last <> None).
  { unfold wait_still in Ew. destruct (ic_last c) as [x|] eqn:X; [|exfalso; exact (k_some _ _ _ K Q X)].
    destruct (Rlt_dec 100 _); [destruct (_ && _) in Ew|]; injection Ew as <- <- <-; discriminate. }
  destruct still; injection E as <- <-; (split; [split; cbn [ic_last ic_window ic_state ic_threshold_sq]|]).
  - exact C.
  - intros _. exact LN.
  - intro Z. contradiction.
  - exact (k_thr _ _ _ K).
  - intros _. exact (S eq_refl).
  - exact C.
  - intros _. exact LN.
  - intro Z. contradiction.
  - exact (k_thr _ _ _ K).
  - intro Z. congruence.
Qed.
Lemma keeps_process threshold seen c r c' o : keeps threshold seen c -> process c r = Some (c', o) ->
  keeps threshold (seen ++ [r]) c' /\ (waiting (ic_state c) = true -> o <> None -> slow threshold (seen ++ [r]) r).
Proof.
  intros K E. unfold process in E. destruct (ic_inner c) as [i|]; [|discriminate].
  assert (AP : forall f count nxt, waiting (ic_state c) = false -> ic_state c <> Idle -> nxt <> Idle -> arm_process f count nxt c i r = (c', o) ->
    keeps threshold (seen ++ [r]) c' /\ (waiting (ic_state c) = true -> o <> None -> slow threshold (seen ++ [r]) r)).
  { intros f count nxt WF Q NN A. split; [|rewrite WF; discriminate]. unfold arm_process in A. cbv zeta in A.
    destruct (_ && _) in A; injection A as <- <-; split; cbn [ic_last ic_window ic_state ic_threshold_sq];
      first [exact (chain_more _ _ _ _ (k_chain _ _ _ K))|exact (fun _ => k_some _ _ _ K Q)|exact (k_thr _ _ _ K)|intro Z; contradiction]. }
  assert (AW : forall j nxt, ic_state c <> Idle -> nxt <> Idle -> arm_wait nxt c j r = (c', o) ->
    keeps threshold (seen ++ [r]) c' /\ (waiting (ic_state c) = true -> o <> None -> slow threshold (seen ++ [r]) r)).
  { intros j nxt Q NN A. destruct (keeps_wait _ _ _ _ _ _ _ _ K Q NN A) as [K' S]. split; [exact K'|]. intros _. exact S. }
  destruct (ic_state c) as [| |a [] []| |] eqn:Z; try discriminate E;
    try (destruct a; try discriminate E; injection E as E;
         first [refine (AP _ _ _ _ _ _ E); [reflexivity|discriminate|discriminate]|refine (AW _ _ _ _ E); discriminate]).
  - apply sp in E. destruct E as [<- <-]. split; [|discriminate]. split; cbn [ic_last ic_window ic_state ic_threshold_sq].
    + destruct (k_chain _ _ _ K) as (W & _). split; [exact W|]. exists [r]. split; [apply (part_snoc []); apply part_none|].
      split; [exact I|]. split; [reflexivity|]. exact (k_idle _ _ _ K Z).
    + discriminate.
    + discriminate.
    + exact (k_thr _ _ _ K).
  - injection E as E. refine (AW _ _ _ _ E); discriminate.
  - destruct a; try (injection E as E; refine (AW _ _ _ _ E); discriminate).
    cbv zeta in E. assert (Q : ic_state c <> Idle) by (rewrite Z; discriminate).
    destruct (wait_still (ic_last c) (ic_window c) (ic_threshold_sq c) r) as [[still last] w] eqn:Ew.
    rewrite (k_thr _ _ _ K) in Ew. destruct (wait_chain _ _ _ _ _ _ _ _ (k_chain _ _ _ K) (k_some _ _ _ K Q) Ew) as [C S].
    assert (LN : last <> None).
    { unfold wait_still in Ew. destruct (ic_last c) as [x|] eqn:X; [|exfalso; exact (k_some _ _ _ K Q X)].
      destruct (Rlt_dec 100 _); [destruct (_ && _) in Ew|]; injection Ew as <- <- <-; discriminate. }
    destruct still; apply sp in E; destruct E as [<- <-].
    + split; [|intros _ _; exact (S eq_refl)]. split; cbn [ic_last ic_window ic_state ic_threshold_sq];
        [exact C|intros _; exact LN| |exact (k_thr _ _ _ K)]. destruct (calculate _); discriminate.
    + split; [|intros _ H; congruence]. split; cbn [ic_last ic_window ic_state ic_threshold_sq];
        [exact C|intros _; exact LN| |exact (k_thr _ _ _ K)]. congruence.
Qed.
Lemma keeps_run threshold : forall rs seen c c' l, keeps threshold seen c -> run c rs = Some (c', l) -> keeps threshold (seen ++ rs) c'.
Proof.
  induction rs as [|r rs IH]; intros seen c c' l A E; cbn [run] in E.
  - injection E as <- <-. rewrite app_nil_r. exact A.
  - apply bind_some in E. destruct E as ([c1 o] & E1 & E). apply bind_some in E. destruct E as ([c2 l2] & E2 & E). injection E as <- <-.
    replace (seen ++ r :: rs) with ((seen ++ [r]) ++ rs) by (rewrite <- app_assoc; reflexivity). apply (IH _ c1 _ l2); [|exact E2].
    exact (proj1 (keeps_process _ _ _ _ _ _ A E1)).
Qed.

(** C100 (continued). When the calibration reports a new state out of a state in which it waits for the device to be still, then
    the 50 latest angular accelerations between readings more than 100 ms apart, of which the latest reading is the one just
    given, were on average smaller than the threshold: the length of their mean is below it.  (This does not make the device
    still, see C100_moves_on: turning at a constant rate is enough.) *)
Theorem C100_moves_on_only_when_steady : forall threshold g angle rs c l r c' next,
  run (icalibrator_new threshold g angle) rs = Some (c, l) -> waiting (ic_state c) = true -> process c r = Some (c', Some next) ->
  exists samples, part (samples ++ [r]) (rs ++ [r]) /\ length samples = 50%nat /\ spaced (samples ++ [r])
    /\ let mean axis := accelerations axis (samples ++ [r]) / 50 in
       mean v1 * mean v1 + mean v2 * mean v2 + mean v3 * mean v3 < threshold * threshold.
Proof.
  intros threshold g angle rs c l r c' next E W P.
  assert (K0 : keeps threshold [] (icalibrator_new threshold g angle)).
  { split; cbn; try reflexivity; [|congruence]. split; [split; cbn; [lia|reflexivity]|]. exists []. split; [constructor|]. split; [exact I|]. split; reflexivity. }
  pose proof (keeps_run threshold rs [] _ c l K0 E) as K. cbn [app] in K.
  exact (proj2 (keeps_process threshold rs c r c' (Some next) K P) W ltac:(discriminate)).
Qed.
(** such runs exist, for every threshold but 0 *)
Lemma first_report : forall rs c c' l, run c rs = Some (c', l) -> l <> [] ->
  exists rs1 r c1 c2 next, run c rs1 = Some (c1, []) /\ process c1 r = Some (c2, Some next).
Proof.
  induction rs as [|r rs IH]; intros c c' l E N; cbn [run] in E.
  - injection E as <- <-. congruence.
  - apply bind_some in E. destruct E as ([c1 o] & E1 & E). apply bind_some in E. destruct E as ([c2 l2] & E2 & E). injection E as <- <-.
    destruct o as [next|].
    + exists [], r, c, c1, next. split; [reflexivity|exact E1].
    + destruct (IH c1 c2 l2 E2 N) as (rs1 & r1 & c3 & c4 & next & R & P). exists (r :: rs1), r1, c3, c4, next.
      split; [cbn [run]; rewrite E1; cbn [bind]; rewrite R; reflexivity|exact P].
Qed.
Theorem C100_moves_on_only_when_steady_instance : forall threshold g angle, threshold <> 0 -> exists rs c l r c' next,
  run (icalibrator_new threshold g angle) rs = Some (c, l) /\ waiting (ic_state c) = true /\ process c r = Some (c', Some next).
Proof.
  intros threshold g angle T0. set (r0 := Reading 0 vzero vzero).
  destruct (run (icalibrator_new threshold g angle) [r0]) as [[c0 l0]|] eqn:E0; [|discriminate E0].
  assert (Z : ic_state c0 = WaitingStill) by (cbn in E0; injection E0 as <- <-; reflexivity).
  destruct (C100_end_reachable threshold g angle [r0] c0 l0 T0 E0) as (rs & c' & l & R & Fin & _).
  rewrite run_app, E0 in R. cbn [bind] in R. destruct (run c0 rs) as [[c1 l1]|] eqn:R1; [|discriminate R]. cbn [bind] in R. injection R as <- <-.
  assert (N : l1 <> []). { intros ->. destruct (silent_state _ _ _ R1) as (S1 & _). rewrite S1, Z in Fin. destruct Fin; discriminate. }
  destruct (first_report rs c0 c1 l1 R1 N) as (rs1 & r & c2 & c3 & next & R2 & P).
  exists ([r0] ++ rs1), c2, (l0 ++ []), r, c3, next. split; [rewrite run_app, E0; cbn [bind]; rewrite R2; reflexivity|]. split; [|exact P].
  destruct (silent_state _ _ _ R2) as (S1 & _). rewrite S1, Z. reflexivity.
Qed.
Print Assumptions C100_moves_on_only_when_steady_instance.
Print Assumptions C100_moves_on_only_when_steady.

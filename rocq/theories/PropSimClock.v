(** * C115: simulated delays end on time, and no sleeper is forgotten. *)
From Coq Require Import Permutation.
From Verif Require Import Base SimClock.
Local Open Scope nat_scope.

Section Spec.
Context {T : Type} (le : T -> T -> bool).
Hypothesis le_refl : forall a, le a a = true.
Hypothesis le_trans : forall a b c, le a b = true -> le b c = true -> le a c = true.
Hypothesis le_total : forall a b, le a b = true \/ le b a = true.

(** the time the simulation last set *)
Fixpoint now (t0 : T) (es : list event) : T :=
  match es with [] => t0 | EUpdate t :: l => now t l | _ :: l => now t0 l end.

Lemma now_snoc es : forall t0 e, now t0 (es ++ [e]) = match e with EUpdate t => t | _ => now t0 es end.
Proof. induction es as [|x es IH]; intros t0 e; [destruct e; reflexivity|]. destruct x as [i d|i b|t]; cbn [app now]; apply IH. Qed.

Lemma drain_time t l ts l2 ts2 : drain le t l ts l2 ts2 -> (forall w, In w l2 -> le (fst w) t = false) /\
  (forall i s2, ts2 i = Some s2 -> exists s, ts i = Some s /\ deadline s = deadline s2 /\
     (ready s = true -> ready s2 = true) /\ (forall d, In (d, i) l -> ready s2 = true \/ In (d, i) l2)) /\
  (forall i, ts2 i = None -> ts i = None).
Proof.
  induction 1 as [ts|l w l' ts Ht Hl|l w l' ts l2 ts2 Ht Hl Hd IH].
  - split; [intros w []|]. split; [|auto]. intros i s2 E. exists s2. split; [exact E|]. split; [reflexivity|]. split; [auto|intros d []].
  - split.
    + intros x Hx. destruct Ht as [l1 w l2 Hm]. apply in_app_or in Hx. destruct Hx as [Hx|[<-|Hx]]; [|exact Hl|].
      * destruct (le (fst x) t) eqn:E; [|reflexivity]. rewrite (le_trans _ _ _ (Hm x (in_or_app _ _ _ (or_introl Hx))) E) in Hl. discriminate.
      * destruct (le (fst x) t) eqn:E; [|reflexivity]. rewrite (le_trans _ _ _ (Hm x (in_or_app _ _ _ (or_intror Hx))) E) in Hl. discriminate.
    + split; [|auto]. intros i s2 E. exists s2. split; [exact E|]. split; [reflexivity|]. split; [auto|]. intros d Hin. right. exact Hin.
  - destruct IH as (A & B & C). split; [exact A|]. split.
    + intros i s2 E. destruct (B i s2 E) as (s & Es & Ed & Er & Hin). unfold wake in Es. destruct w as [wt wi]. cbn [fst snd] in *.
      assert (Hcase : exists s0, ts i = Some s0 /\ deadline s0 = deadline s /\ (ready s0 = true -> ready s = true) /\ (i = wi -> ready s = true)).
      { destruct (ts wi) as [sw|] eqn:Ew.
        - unfold set_task in Es. destruct (Nat.eqb_spec i wi) as [->|Hne].
          + injection Es as <-. exists sw. cbn [deadline ready]. auto.
          + exists s. split; [exact Es|]. split; [reflexivity|]. split; [auto|intros X; contradiction].
        - exists s. split; [exact Es|]. split; [reflexivity|]. split; [auto|]. intros ->. rewrite Ew in Es. discriminate. }
      destruct Hcase as (s0 & E0 & Ed0 & Er0 & Ewi). exists s0. split; [exact E0|]. split; [congruence|]. split; [auto|].
      intros d Hd0. inversion Ht as [l1 w0 l3 Hm E1 E2 E3]. subst w0 l l'. apply in_app_or in Hd0. destruct Hd0 as [Hd0|[Hd0|Hd0]].
      * apply Hin. apply in_or_app. auto.
      * left. apply Er, Ewi. congruence.
      * apply Hin. apply in_or_app. auto.
    + intros i E. apply C in E. unfold wake in E. destruct (ts (snd w)) as [sw|] eqn:Ew; [|exact E].
      unfold set_task in E. destruct (Nat.eqb i (snd w)); [discriminate|exact E].
Qed.

Definition inv (w : world) : Prop :=
  (forall x, In x (wakers (clk w)) -> le (fst x) (time (clk w)) = false) /\
  (forall i s, slp w i = Some s -> ready s = true \/ In (deadline s, i) (wakers (clk w))).

Lemma inv_step w e w' : inv w -> step le w e w' -> inv w'.
Proof.
  intros [A B] St. destruct St as [w i d Hn|w i s Es Hl|w i s Es Hl|w t l ts Hd]; split; cbn [clk slp time wakers].
  - exact A.
  - intros j s. unfold set_task. destruct (Nat.eqb_spec j i) as [->|_]; [intros E; injection E as <-; left; reflexivity|apply B].
  - exact A.
  - intros j s'. unfold set_task. destruct (Nat.eqb_spec j i) as [->|_]; [discriminate|apply B].
  - intros x [<-|Hx]; [exact Hl|apply A; exact Hx].
  - intros j s'. unfold set_task. destruct (Nat.eqb_spec j i) as [->|_]; [intros E; injection E as <-; right; left; reflexivity|].
    intros E. destruct (B j s' E) as [R|R]; [auto|right; right; exact R].
  - apply (drain_time _ _ _ _ _ Hd).
  - intros i s2 E. destruct (drain_time _ _ _ _ _ Hd) as (_ & K & _). destruct (K i s2 E) as (s & Es & Ed & Er & Hin).
    destruct (B i s Es) as [R|R]; [left; auto|]. rewrite Ed in R. apply Hin. exact R.
Qed.
Lemma run_inv t0 es w : run le t0 es w -> inv w /\ time (clk w) = now t0 es.
Proof.
  induction 1 as [|es w e w' H IH St]; [split; [split; [intros x []|intros i s E; discriminate]|reflexivity]|].
  destruct IH as [I E]. split; [eapply inv_step; eauto|]. rewrite now_snoc. destruct St; cbn [clk time]; auto.
Qed.

(** ** C115 *)
(** A delay never returns before its deadline: when a poll completes the delay that the task started with deadline [d], the time the
    simulation last set is at least [d]. *)
Definition of_task (i : nat) (e : @event T) : bool :=
  match e with EStart j _ => Nat.eqb i j | EPoll j true => Nat.eqb i j | _ => false end.

Lemma sleeping t0 i d es2 : forall es1 w, run le t0 (es1 ++ [EStart i d] ++ es2) w -> Forall (fun e => of_task i e = false) es2 ->
  exists r, slp w i = Some (Slp d r).
Proof.
  induction es2 as [|e es2 IH] using rev_ind; intros es1 w R F.
  - cbn [app] in R. inversion R as [E|es w0 e w' R0 St E]; [destruct es1; discriminate|]. apply app_inj_tail in E. destruct E as [-> ->].
    inversion St; subst. cbn [slp]. exists true. unfold set_task. rewrite Nat.eqb_refl. reflexivity.
  - rewrite !app_assoc in R. inversion R as [E|es w0 e0 w' R0 St E]; [destruct (es1 ++ [EStart i d]); destruct es2; discriminate|].
    apply app_inj_tail in E. destruct E as [-> ->]. apply Forall_app in F. destruct F as [F1 F2]. inversion F2 as [|x l Fe _]; subst.
    rewrite <- app_assoc in R0. destruct (IH es1 w0 R0 F1) as (r & Er).
    inversion St as [w1 j dj Hn|w1 j s Es Hl|w1 j s Es Hl|w1 t l ts Hd]; subst; cbn [slp clk] in *; unfold set_task.
    + cbn [of_task] in Fe. rewrite Fe. eauto.
    + cbn [of_task] in Fe. rewrite Fe. eauto.
    + destruct (Nat.eqb_spec i j) as [->|_]; [|eauto]. rewrite Er in Es. injection Es as <-. cbn [deadline]. eauto.
    + destruct (drain_time _ _ _ _ _ Hd) as (_ & K & K2). destruct (ts i) as [s2|] eqn:E2.
      * destruct (K i s2 E2) as (s & Es & Ed & _). rewrite Er in Es. injection Es as <-. cbn [deadline] in Ed. destruct s2 as [d2 r2]. cbn [deadline] in Ed. subst. eauto.
      * rewrite (K2 i E2) in Er. discriminate.
Qed.

Theorem C115_never_early t0 es1 i d es2 w : run le t0 ((es1 ++ [EStart i d] ++ es2) ++ [EPoll i true]) w ->
  Forall (fun e => of_task i e = false) es2 -> le d (now t0 (es1 ++ [EStart i d] ++ es2)) = true.
Proof.
  intros R F. inversion R as [E|es w0 e w' R0 St E]; [symmetry in E; apply app_eq_nil in E; destruct E; discriminate|].
  apply app_inj_tail in E. destruct E as [-> ->]. destruct (sleeping t0 i d es2 es1 w0 R0 F) as (r & Er). destruct (run_inv _ _ _ R0) as [_ Et].
  cbn [app]. rewrite <- Et. clear R R0 Et F. inversion St; subst. match goal with H : slp w0 i = Some ?s |- _ => rewrite Er in H; injection H as <- end. assumption.
Qed.

(** No sleeper is forgotten: whenever the time has reached its deadline, the executor has been told to poll it; and the poll then
    completes the delay. *)
Theorem C115_woken_in_time t0 es1 i d es2 w : run le t0 (es1 ++ [EStart i d] ++ es2) w -> Forall (fun e => of_task i e = false) es2 ->
  le d (now t0 (es1 ++ [EStart i d] ++ es2)) = true ->
  (exists s, slp w i = Some s /\ ready s = true) /\ (exists w', step le w (EPoll i true) w') /\ ~ (exists w', step le w (EPoll i false) w').
Proof.
  intros R F L. destruct (run_inv _ _ _ R) as [[A B] Et]. destruct (sleeping t0 i d es2 es1 w R F) as (r & Er).
  split; [|split].
  - exists (Slp d r). split; [exact Er|]. destruct (B i _ Er) as [X|X]; [exact X|]. apply A in X. cbn [fst deadline] in X. rewrite Et, L in X. discriminate.
  - eexists. apply (st_done le w i (Slp d r) Er). cbn [deadline]. rewrite Et. exact L.
  - intros (w' & St). rewrite <- Et in L. clear - St Er L. inversion St; subst. match goal with H : slp w i = Some ?s |- _ => rewrite Er in H; injection H as <- end. cbn [deadline] in *. congruence.
Qed.

(** Setting the time always returns, whatever order the heap keeps equal deadlines in, and takes out exactly the wakers that are due *)
Lemma top_exists (l : list (T * nat)) : l <> [] -> exists w l', top le l w l'.
Proof.
  induction l as [|x l IH]; intros H; [contradiction|]. destruct l as [|y l].
  - exists x, []. apply (top_at le [] x []). intros z [].
  - destruct IH as (w & l' & Ht); [discriminate|]. inversion Ht as [l1 w0 l2 Hm E1 E2 E3]. subst w0 l'.
    destruct (le_total (fst x) (fst w)) as [L|L].
    + exists x, (l1 ++ w :: l2). apply (top_at le [] x). intros z Hz. cbn [app] in Hz. apply in_app_or in Hz. destruct Hz as [Hz|[<-|Hz]].
      * apply (le_trans _ _ _ L), Hm, in_or_app. auto.
      * exact L.
      * apply (le_trans _ _ _ L), Hm, in_or_app. auto.
    + exists w, (x :: l1 ++ l2). apply (top_at le (x :: l1) w l2). intros z [<-|Hz]; [exact L|apply Hm; exact Hz].
Qed.
Theorem C115_update_returns t : forall l ts, exists l2 ts2, drain le t l ts l2 ts2.
Proof.
  intros l. remember (length l) as n eqn:En. revert l En. induction n as [|n IH]; intros l En ts.
  - destruct l; [|discriminate]. exists [], ts. constructor.
  - destruct (top_exists l) as (w & l' & Ht); [intros ->; discriminate|]. destruct (le (fst w) t) eqn:E.
    + assert (L : n = length l'). { destruct Ht as [l1 w l2 _]. rewrite app_length in *. cbn [length] in En. lia. }
      destruct (IH l' L (wake ts (snd w))) as (l2 & ts2 & Hd). exists l2, ts2. eapply dr_wake; eauto.
    + exists l, ts. eapply dr_stop; eauto.
Qed.
Lemma top_filter (p : T * nat -> bool) l w l' : top le l w l' -> Permutation (filter p l) ((if p w then [w] else []) ++ filter p l').
Proof.
  intros [l1 w0 l2 _]. rewrite !filter_app. cbn [filter]. destruct (p w0); [|reflexivity]. cbn [app]. rewrite <- Permutation_middle. reflexivity.
Qed.
Theorem C115_update_takes_the_due t l ts l2 ts2 : drain le t l ts l2 ts2 ->
  Permutation l2 (filter (fun w => negb (le (fst w) t)) l) /\
  forall i s, ts i = Some s -> exists s2, ts2 i = Some s2 /\ deadline s2 = deadline s /\
    ready s2 = (ready s || existsb (fun w => Nat.eqb (snd w) i && le (fst w) t) l)%bool.
Proof.
  induction 1 as [ts|l w l' ts Ht Hl|l w l' ts l2 ts2 Ht Hl Hd IH].
  - split; [reflexivity|]. intros i s E. exists s. cbn [existsb]. rewrite Bool.orb_false_r. auto.
  - destruct (drain_time t l ts l ts (dr_stop le t l w l' ts Ht Hl)) as (A & _). split.
    + clear Ht. induction l as [|x l IHl]; [reflexivity|]. cbn [filter]. rewrite (A x (or_introl eq_refl)). cbn [negb]. constructor. apply IHl. intros y Hy. apply A. right. exact Hy.
    + intros i s E. exists s. split; [exact E|]. split; [reflexivity|].
      replace (existsb (fun w0 => Nat.eqb (snd w0) i && le (fst w0) t)%bool l) with false; [rewrite Bool.orb_false_r; reflexivity|]. symmetry.
      destruct (existsb _ l) eqn:X; [|reflexivity]. apply existsb_exists in X. destruct X as (x & Hx & Ex). apply andb_prop in Ex. rewrite (A x Hx) in Ex. destruct Ex; discriminate.
  - destruct IH as [P K]. split.
    + rewrite P. rewrite (top_filter (fun w0 => negb (le (fst w0) t)) l w l' Ht). rewrite Hl. reflexivity.
    + intros i s E.
      assert (Hex : existsb (fun w0 => Nat.eqb (snd w0) i && le (fst w0) t)%bool l = (Nat.eqb (snd w) i || existsb (fun w0 => Nat.eqb (snd w0) i && le (fst w0) t)%bool l')%bool).
      { destruct Ht as [l1 w l3 _]. rewrite !existsb_app. cbn [existsb]. rewrite Hl, Bool.andb_true_r.
        destruct (existsb _ l1); destruct (Nat.eqb (snd w) i); destruct (existsb _ l3); reflexivity. }
      rewrite Hex. unfold wake in K. destruct (ts (snd w)) as [sw|] eqn:Ew.
      * destruct (Nat.eqb_spec (snd w) i) as [Ei|Hne].
        -- destruct (K i (Slp (deadline sw) true)) as (s2 & E2 & Ed & Er); [unfold set_task; rewrite Ei, Nat.eqb_refl; reflexivity|].
           exists s2. split; [exact E2|]. cbn [deadline ready] in *. rewrite Ei, E in Ew. injection Ew as ->. split; [exact Ed|]. rewrite Er. destruct (ready sw); reflexivity.
        -- destruct (K i s) as (s2 & E2 & Ed & Er); [unfold set_task; destruct (Nat.eqb_spec i (snd w)) as [X|_]; [congruence|exact E]|].
           exists s2. auto.
      * destruct (Nat.eqb_spec (snd w) i) as [Ei|Hne]; [congruence|]. destruct (K i s E) as (s2 & E2 & Ed & Er). exists s2. auto.
Qed.
End Spec.

(** concrete case: two sleepers; the clock jumps past the first deadline *)
Example ex_C115 : exists w s2, run N.leb 0%N ([EStart 0 5%N] ++ [EStart 1 9%N; EPoll 0 false; EPoll 1 false; EUpdate 7%N]) w /\
  now 0%N ([EStart 0 5%N] ++ [EStart 1 9%N; EPoll 0 false; EPoll 1 false; EUpdate 7%N]) = 7%N /\
  slp w 0 = Some (Slp 5%N true) /\ slp w 1 = Some s2 /\ ready s2 = false.
Proof.
  eexists _, _. split; [|split; [reflexivity|]].
  - change ([EStart 0 5%N] ++ [EStart 1 9%N; EPoll 0 false; EPoll 1 false; EUpdate 7%N]) with (((((@nil event ++ [EStart 0 5%N]) ++ [EStart 1 9%N]) ++ [EPoll 0 false]) ++ [EPoll 1 false]) ++ [EUpdate 7%N]).
    eapply run_step; [eapply run_step; [eapply run_step; [eapply run_step; [eapply run_step; [apply run_nil|]|]|]|]|].
    + apply st_start. reflexivity.
    + apply st_start. reflexivity.
    + eapply st_pend; reflexivity.
    + eapply st_pend; reflexivity.
    + apply st_update. cbn [clk wakers start_world slp]. eapply (dr_wake N.leb 7%N _ (5%N, 0) [(9%N, 1)]).
      * apply (top_at N.leb [(9%N, 1)] (5%N, 0) []). intros x [<-|[]]. reflexivity.
      * reflexivity.
      * eapply (dr_stop N.leb 7%N _ (9%N, 1) []); [apply (top_at N.leb [] (9%N, 1) []); intros x []|reflexivity].
  - split; [reflexivity|]. split; reflexivity.
Qed.

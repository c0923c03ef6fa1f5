(** * Properties C129 and C130: the flight recorder on a flash that fills up, and when it changes files. *)
From Verif Require Import Base PubSub HostTime Storage.
From Coq Require Import QArith Lia Lqa.
Local Open Scope Z_scope.

(** ** C129 *)
Section Recorder.
Context {A B G : Type}.
Notation rec := (rec A B G).
Notation event := (event A B G).

Definition MiB : Z := 1048576.

(** *** Specification *)

(** the readings the sensors deliver (the task pauses in low power) *)
Definition sensed (l : list event) : list (A * B) := flat_map (fun e => match e with Sensors false a b => [(a, b)] | _ => [] end) l.
Definition located (l : list event) : list G := flat_map (fun e => match e with Fix g => [g] | _ => [] end) l.

Definition no_check (l : list event) : Prop := ~ In Check l.

(** readings that arrived since the last check, counting the IMU's and the barometer's as two *)
Definition arrived1 (n : Z) (e : event) : Z :=
  match e with Check => 0 | Sensors false _ _ => n + 2 | Fix _ => n + 1 | _ => n end.
Definition arrived (l : list event) : Z := fold_left arrived1 l 0.

(** bytes claimed by anybody else *)
Definition claimed (l : list event) : Z :=
  fold_right (fun e n => match e with Other d => Z.max 0 (- d) + n | _ => n end) 0 l.

Definition cost_within (c : Z) (e : event) : Prop :=
  match e with WriteImu x | WriteBaro x | WriteGps x => 0 <= x <= c | _ => True end.

(** *** Proofs *)
Lemma run_app (s : rec) l1 l2 : run s (l1 ++ l2) = run (run s l1) l2.
Proof. apply fold_left_app. Qed.

Lemma run_snoc (s : rec) l e : run s (l ++ [e]) = step (run s l) e.
Proof. apply run_app. Qed.

(** C129. The flight core, the telemetry's temperature and its position get every reading, in order, however full the
    flash is. *)
Theorem C129_flight_unaffected space (l : list event) :
  let s := run (boot space) l in
  flown s = rev (sensed l) /\ temps s = rev (map snd (sensed l)) /\ fixes s = rev (located l).
Proof.
  cbv zeta. induction l as [|e l IH] using rev_ind; [repeat split; reflexivity|].
  destruct IH as (F & T & X). rewrite run_snoc.
  unfold sensed, located. rewrite !flat_map_app. fold (sensed l) (located l). rewrite map_app, !rev_app_distr.
  rewrite <- F, <- T, <- X. clear F T X.
  destruct (run (boot space) l) as [fl fr iq bq gq fo te fx gi gb gg].
  destruct e as [|[|] a b|g|c|c|c|d]; cbn [step flat_map app rev map snd flown temps fixes]; try (repeat split; reflexivity);
    destruct fl; repeat split; reflexivity.
Qed.

Lemma check_is_last space (p1 p2 : list event) :
  no_check p2 -> full (run (boot space) (p1 ++ Check :: p2)) = (free (run (boot space) p1) <? MiB).
Proof.
  intro N. rewrite run_app. change (Check :: p2) with ([Check] ++ p2). rewrite run_app.
  change (run (run (boot space) p1) [Check]) with (step (run (boot space) p1) Check).
  assert (K : full (step (run (boot space) p1) Check) = (free (run (boot space) p1) <? MiB)).
  { now destruct (run (boot space) p1). }
  rewrite <- K. generalize (step (run (boot space) p1) (Check)). clear K.
  induction p2 as [|e p2 IH]; intro s; [reflexivity|].
  cbn [run fold_left]. fold (run (step s e) p2). rewrite IH by (intro X; apply N; now right).
  destruct s as [fl fr iq bq gq fo te fx gi gb gg].
  destruct e as [|[|] a b|g|c|c|c|d]; cbn [step]; try reflexivity; try (destruct fl; reflexivity).
  exfalso. apply N. now left.
Qed.

(** C129. A reading is handed to the recorder unless the last check found less than 1 MiB free; ... *)
Theorem C129_recorded_unless_full space (p1 p2 : list event) a b g :
  no_check p2 ->
  let l := p1 ++ Check :: p2 in
  let s := run (boot space) l in
  let s' := run (boot space) (l ++ [Sensors false a b]) in
  let s'' := run (boot space) (l ++ [Fix g]) in
  (free (run (boot space) p1) < MiB -> given_imu s' = given_imu s /\ given_baro s' = given_baro s /\ given_gps s'' = given_gps s
     /\ imu_q s' = imu_q s /\ baro_q s' = baro_q s /\ gps_q s'' = gps_q s)
  /\ (MiB <= free (run (boot space) p1) ->
     given_imu s' = a :: given_imu s /\ given_baro s' = b :: given_baro s /\ given_gps s'' = g :: given_gps s
     /\ In a (imu_q s') /\ In b (baro_q s') /\ In g (gps_q s'')).
Proof.
  intro N. cbv zeta. rewrite !run_snoc. pose proof (check_is_last space p1 p2 N) as F.
  destruct (run (boot space) (p1 ++ Check :: p2)) as [fl fr iq bq gq fo te fx gi gb gg].
  cbn [full] in F. subst fl. split; intro H.
  - rewrite (proj2 (Z.ltb_lt _ _) H). cbn [step given_imu given_baro given_gps imu_q baro_q gps_q]. repeat split; reflexivity.
  - rewrite (proj2 (Z.ltb_ge _ _) H). cbn [step given_imu given_baro given_gps imu_q baro_q gps_q].
    split; [reflexivity|]. split; [reflexivity|]. split; [reflexivity|].
    unfold publish. cbn [orb]. rewrite !in_app_iff. cbn [In]. tauto.
Qed.

(** ... and until the first check (a second after the start) every reading is, even on a full flash. *)
Theorem C129_recorded_before_first_check space (l : list event) a b g :
  no_check l ->
  let s := run (boot space) l in
  given_imu (run (boot space) (l ++ [Sensors false a b])) = a :: given_imu s
  /\ given_baro (run (boot space) (l ++ [Sensors false a b])) = b :: given_baro s
  /\ given_gps (run (boot space) (l ++ [Fix g])) = g :: given_gps s.
Proof.
  intro N. cbv zeta. rewrite !run_snoc.
  assert (F : full (run (boot space) l) = false).
  { induction l as [|e l IH] using rev_ind; [reflexivity|]. rewrite run_snoc.
    assert (N' : no_check l) by (intro X; apply N, in_or_app; now left). specialize (IH N').
    destruct (run (boot space) l) as [fl fr iq bq gq fo te fx gi gb gg]. cbn [full] in IH. subst fl.
    destruct e as [|[|] a0 b0|g0|c|c|c|d]; try reflexivity. exfalso. apply N, in_or_app. right. now left. }
  destruct (run (boot space) l) as [fl fr iq bq gq fo te fx gi gb gg]. cbn [full] in F. subst fl. repeat split; reflexivity.
Qed.

Lemma publish_len {T} cap (m : T) q : (length q <= cap)%nat -> (0 < cap)%nat ->
  (length (publish cap true m q) <= cap)%nat /\ (length (publish cap true m q) <= S (length q))%nat.
Proof.
  intros H C. unfold publish. destruct (Nat.eqb_spec (length q) cap) as [E|E]; rewrite app_length; cbn [length].
  - destruct q as [|x q]; cbn [tl length] in *; lia.
  - lia.
Qed.

Lemma drop_len {T} (q : list T) c x : 0 <= x <= c ->
  0 <= cost_of q x /\ c * Z.of_nat (length (drop_one q)) + cost_of q x <= c * Z.of_nat (length q) /\ (length (drop_one q) <= length q)%nat.
Proof. intros H. destruct q as [|y q]; cbn [cost_of drop_one length]; [lia|]. rewrite Nat2Z.inj_succ. nia. Qed.

Definition queued (s : rec) : Z := Z.of_nat (length (imu_q s)) + Z.of_nat (length (baro_q s)) + Z.of_nat (length (gps_q s)).

Lemma claimed_app l1 l2 : claimed (l1 ++ l2) = claimed l1 + claimed l2.
Proof. induction l1 as [|e l1 IH]; [reflexivity|]. cbn [app claimed fold_right]. fold (claimed (l1 ++ l2)) (claimed l1). rewrite IH. destruct e; lia. Qed.

Lemma arrived_snoc l e : arrived (l ++ [e]) = arrived1 (arrived l) e.
Proof. unfold arrived. now rewrite fold_left_app. Qed.

Lemma claimed_nonneg l : 0 <= claimed l.
Proof. induction l as [|e l IH]; cbn [claimed fold_right]; [lia|]. fold (claimed l). destruct e; lia. Qed.

Lemma reserve_inv space c n (l : list event) :
  0 <= c -> (forall e, In e l -> cost_within c e) -> (forall p q, l = p ++ q -> 0 <= arrived p <= n) ->
  let s := run (boot space) l in
  (length (imu_q s) <= 40 /\ length (baro_q s) <= 40 /\ length (gps_q s) <= 10)%nat
  /\ Z.min space MiB - c * (90 + (if full s then n else arrived l) - queued s) - claimed l <= free s.
Proof.
  intros C W N. cbv zeta. induction l as [|e l IH] using rev_ind.
  - cbn [run fold_left boot imu_q baro_q gps_q full free length]. split; [lia|]. unfold queued, arrived, boot. cbn [imu_q baro_q gps_q length fold_left claimed fold_right]. lia.
  - assert (IH' := IH (fun x X => W x (in_or_app _ _ _ (or_introl X))) (fun p q E => N p (q ++ [e]) ltac:(now rewrite E, app_assoc))).
    assert (Nl := N l [e] eq_refl). assert (Ne := N (l ++ [e]) [] ltac:(now rewrite app_nil_r)).
    assert (We : cost_within c e) by (apply W, in_or_app; right; now left).
    clear IH N W. rewrite run_snoc, arrived_snoc in *. rewrite claimed_app.
    pose proof (claimed_nonneg l) as CN. revert IH' Nl Ne CN. generalize (claimed l) (arrived l). intros k u IH Nl Ne CN.
    destruct (run (boot space) l) as [fl fr iq bq gq fo te fx gi gb gg].
    unfold queued in *. cbn [imu_q baro_q gps_q full free] in IH. destruct IH as ((Q1 & Q2 & Q3) & I).
    destruct e as [|[|] a b|g|x|x|x|d]; cbn [step arrived1] in *; cbn [claimed fold_right]; change MiB with 1048576 in *;
      try change (1024 * 1024) with 1048576 in *.
    + cbn [imu_q baro_q gps_q full free]. split; [lia|]. destruct (Z.ltb_spec fr 1048576) as [H|H].
      * destruct fl; nia.
      * nia.
    + cbn [imu_q baro_q gps_q full free]. split; [lia|]. destruct fl; lia.
    + destruct fl; cbn [imu_q baro_q gps_q full free]; [split; [lia|lia]|].
      destruct (publish_len 40 a iq Q1 ltac:(lia)) as [P1 P2]. destruct (publish_len 40 b bq Q2 ltac:(lia)) as [P3 P4].
      split; [lia|]. nia.
    + destruct fl; cbn [imu_q baro_q gps_q full free]; [split; [lia|lia]|].
      destruct (publish_len 10 g gq Q3 ltac:(lia)) as [P1 P2]. split; [lia|]. nia.
    + cbn [imu_q baro_q gps_q full free]. destruct (drop_len iq c x We) as (D1 & D2 & D3). split; [lia|]. destruct fl; nia.
    + cbn [imu_q baro_q gps_q full free]. destruct (drop_len bq c x We) as (D1 & D2 & D3). split; [lia|]. destruct fl; nia.
    + cbn [imu_q baro_q gps_q full free]. destruct (drop_len gq c x We) as (D1 & D2 & D3). split; [lia|]. destruct fl; nia.
    + cbn [imu_q baro_q gps_q full free]. split; [lia|]. destruct fl; lia.
Qed.

(** C129. The recorder leaves a reserve: if a reading takes at most [c] bytes and at most [n] of them arrive between two
    checks, then the free space never falls further below 1 MiB (or what there was at the start) than [n] readings and the
    90 that fit in the buffers take, and what others claim. *)
Theorem C129_reserve space c n (l : list event) :
  0 <= c -> (forall e, In e l -> cost_within c e) -> (forall p q, l = p ++ q -> arrived p <= n) ->
  Z.min space MiB - c * (90 + n) - claimed l <= free (run (boot space) l).
Proof.
  intros C W N.
  assert (P : forall p, 0 <= arrived p).
  { induction p as [|e p IH] using rev_ind; [cbn; lia|]. rewrite arrived_snoc. destruct e as [|[|]| | | | |]; cbn [arrived1]; lia. }
  assert (N' : forall p q, l = p ++ q -> 0 <= arrived p <= n) by (intros p q E; split; [apply P|exact (N p q E)]).
  destruct (reserve_inv space c n l C W N') as [_ I].
  assert (Q0 : 0 <= queued (run (boot space) l)) by (unfold queued; lia).
  assert (Nl := N l [] ltac:(now rewrite app_nil_r)).
  destruct (full (run (boot space) l)); nia.
Qed.
End Recorder.

(** *** Instance: recording, then a check on a full flash, then space is released and recording resumes. *)
Definition story : list (event nat nat nat) :=
  [Sensors false 1 11; Check; Sensors false 2 12; WriteImu 4096; WriteBaro 4096; Fix 7; Check; Sensors false 3 13; Fix 8; WriteImu 4096;
   Other 100000; Check; Sensors true 4 14; Sensors false 5 15]%nat.
Lemma C129_instance :
  let s := run (boot 1050000) story in
  given_imu s = [5; 2; 1]%nat /\ given_gps s = [7]%nat /\ flown s = [(5, 15); (3, 13); (2, 12); (1, 11)]%nat /\ free s = 1137712 /\ full s = false
  /\ (forall e, In e story -> cost_within 4096 e) /\ arrived story = 2 /\ claimed story = 0.
Proof.
  cbv zeta. split; [vm_compute; reflexivity|]. split; [vm_compute; reflexivity|]. split; [vm_compute; reflexivity|].
  split; [vm_compute; reflexivity|]. split; [vm_compute; reflexivity|]. split; [|split; reflexivity].
  unfold story. cbn [In]. intros e H. repeat (destruct H as [<-|H]; [cbn [cost_within]; lia|]). contradiction.
Qed.

(** ** C130 *)
Local Open Scope Q_scope.

Definition steady (L D : Q) (x : Q * Q) : Prop := 0 <= fst x <= L /\ 0 <= snd x <= D.

Lemma later_bounds L D P h : forall t now k b e,
  tk_interval t == P -> L + D <= P -> now <= tk_start t + (tk_i t + 1) * P -> Forall (steady L D) h ->
  nth_error (later t now h) k = Some (b, e) ->
  tk_start t + (tk_i t + 1 + inject_Z (Z.of_nat k)) * P <= b <= tk_start t + (tk_i t + 1 + inject_Z (Z.of_nat k)) * P + L
  /\ b <= e <= b + D.
Proof.
  induction h as [|[late takes] h IH]; intros t now k b e T LD NOW S E; [destruct k; discriminate|].
  inversion S as [|x y [[SL1 SL2] [SD1 SD2]] S' EX]; subst. cbn [fst snd] in *.
  cbn [later] in E. unfold next in E. cbv zeta beta iota in E.
  assert (TT : (tk_i t + 1) * tk_interval t == (tk_i t + 1) * P) by (rewrite T; reflexivity).
  remember (tk_start t + (tk_i t + 1) * tk_interval t) as wait eqn:EW.
  assert (W : wait == tk_start t + (tk_i t + 1) * P) by (rewrite EW, TT; reflexivity). clear EW.
  remember (if Qle_bool wait now then now else now + (wait - now) + late) as at_ eqn:EA.
  assert (AT : tk_start t + (tk_i t + 1) * P <= at_ <= tk_start t + (tk_i t + 1) * P + L).
  { rewrite EA. destruct (Qle_bool wait now) eqn:B.
    - apply Qle_bool_iff in B. split; lra.
    - split; lra. }
  clear EA. destruct k as [|k]; cbn [nth_error] in E.
  - injection E as <- <-. change (inject_Z (Z.of_nat 0)) with 0. split; [|split; lra]. split; lra.
  - apply IH in E; cbn [tk_interval tk_start tk_i] in *; [|exact T|exact LD| |exact S'].
    + rewrite Nat2Z.inj_succ, <- Z.add_1_r, inject_Z_plus. change (inject_Z 1) with 1.
      destruct E as [[E1 E2] E3]. split; [|exact E3]. split; [clear E2|clear E1]; lra.
    + lra.
Qed.

(** C130. The k-th change of file (from 0) begins no earlier than planned and at most the duration of the first one and two
    wake-up delays late: the plan does not drift. *)
Theorem C130_on_schedule first seg start L D late takes h k b e :
  0 <= late <= L -> 0 <= takes <= D -> Forall (steady L D) h -> L + D <= seg * 1000 ->
  nth_error (changes first seg start late takes h) k = Some (b, e) ->
  start + (first + inject_Z (Z.of_nat k) * seg) * 1000 <= b <= start + (first + inject_Z (Z.of_nat k) * seg) * 1000 + D + 2 * L
  /\ b <= e <= b + D.
Proof.
  intros HL HD HS LD E. unfold changes in E. cbv zeta in E. destruct k as [|k]; cbn [nth_error] in E.
  - injection E as <- <-. change (inject_Z (Z.of_nat 0)) with 0. split; split; lra.
  - apply (later_bounds L D (seg * 1000)) in E; [|reflexivity|exact LD| |exact HS].
    + unfold every in E. cbn [tk_start tk_i] in E.
      rewrite Nat2Z.inj_succ, <- Z.add_1_r, inject_Z_plus. change (inject_Z 1) with 1.
      destruct E as [[E1 E2] E3]. split; [|exact E3]. split; [clear E2|clear E1]; lra.
    + unfold every. cbn [tk_start tk_i]. lra.
Qed.

(** The plan itself: two different recorders are never due within 25 seconds of each other. *)
Lemma C130_plan i j f1 p1 f2 p2 (k1 k2 : nat) :
  i <> j -> nth_error recorders i = Some (f1, p1) -> nth_error recorders j = Some (f2, p2) ->
  (25 <= Z.abs (f1 + Z.of_nat k1 * p1 - (f2 + Z.of_nat k2 * p2)))%Z.
Proof.
  intros N H1 H2. unfold recorders in *.
  destruct i as [|[|[|[|[|[|i]]]]]]; cbn [nth_error] in H1; try (destruct i; discriminate);
  destruct j as [|[|[|[|[|[|j]]]]]]; cbn [nth_error] in H2; try (destruct j; discriminate); try (exfalso; apply N; reflexivity);
  injection H1 as <- <-; injection H2 as <- <-; lia.
Qed.

(** C130. No two recorders change files at the same time, if wake-ups are at most [L] late, a change takes at most [D], and
    the recorders start within [B] of each other with 2L + 2D + B < 25 s: the intervals during which they do are disjoint. *)
Theorem C130_one_at_a_time i j f1 p1 f2 p2 s1 s2 L D B late1 takes1 h1 late2 takes2 h2 b1 e1 b2 e2 :
  i <> j -> nth_error recorders i = Some (f1, p1) -> nth_error recorders j = Some (f2, p2) ->
  - B <= s1 - s2 <= B -> 2 * L + 2 * D + B < 25000 ->
  0 <= late1 <= L -> 0 <= takes1 <= D -> Forall (steady L D) h1 ->
  0 <= late2 <= L -> 0 <= takes2 <= D -> Forall (steady L D) h2 ->
  In (b1, e1) (changes (inject_Z f1) (inject_Z p1) s1 late1 takes1 h1) ->
  In (b2, e2) (changes (inject_Z f2) (inject_Z p2) s2 late2 takes2 h2) ->
  e1 < b2 \/ e2 < b1.
Proof.
  intros N H1 H2 HB HS A1 A2 A3 C1 C2 C3 I1 I2.
  apply In_nth_error in I1. destruct I1 as [k1 I1]. apply In_nth_error in I2. destruct I2 as [k2 I2].
  pose proof (C130_plan i j f1 p1 f2 p2 k1 k2 N H1 H2) as P.
  assert (M : forall i f p, nth_error recorders i = Some (f, p) -> (300 <= p)%Z).
  { intros n f p X. apply nth_error_In in X. unfold recorders in X. cbn [In] in X.
    repeat (destruct X as [X|X]; [injection X as <- <-; lia|]). contradiction. }
  assert (P1 := M _ _ _ H1). assert (P2 := M _ _ _ H2). clear M.
  rewrite Zle_Qle in P1, P2. change (inject_Z 300) with 300 in P1, P2.
  apply (C130_on_schedule _ _ _ L D) in I1; [|assumption|assumption|assumption|lra].
  apply (C130_on_schedule _ _ _ L D) in I2; [|assumption|assumption|assumption|lra].
  rewrite <- inject_Z_mult, <- inject_Z_plus in I1, I2.
  set (x1 := (f1 + Z.of_nat k1 * p1)%Z) in *. set (x2 := (f2 + Z.of_nat k2 * p2)%Z) in *.
  destruct (Z.le_gt_cases x1 x2) as [O|O].
  - left. assert (Q : (x1 + 25 <= x2)%Z) by lia. rewrite Zle_Qle, inject_Z_plus in Q. change (inject_Z 25) with 25 in Q. lra.
  - right. assert (Q : (x2 + 25 <= x1)%Z) by lia. rewrite Zle_Qle, inject_Z_plus in Q. change (inject_Z 25) with 25 in Q. lra.
Qed.

(** *** Instance: two recorders, changes of 8 and 9 s, wake-ups 3 ms late; 4 changes and 1. *)
Lemma C130_instance :
  map (fun x => (Qred (fst x), Qred (snd x))) (changes 75 300 1000 3 8000 [(3, 9000); (0, 8000); (3, 1)])
    = [(76003, 84003); (384006, 393006); (684003, 692003); (984006, 984007)]
  /\ map (fun x => (Qred (fst x), Qred (snd x))) (changes 100 1800 1001 3 9000 []) = [(101004, 110004)]
  /\ nth_error recorders 2 = Some (75, 300)%Z /\ nth_error recorders 3 = Some (100, 1800)%Z
  /\ 2 * 3 + 2 * 9000 + 1 < 25000 /\ Forall (steady 3 9000) [(3, 9000); (0, 8000); (3, 1)].
Proof.
  split; [vm_compute; reflexivity|]. split; [vm_compute; reflexivity|]. split; [reflexivity|]. split; [reflexivity|].
  split; [reflexivity|]. repeat constructor; cbn [fst snd]; unfold Qle; cbn; lia.
Qed.

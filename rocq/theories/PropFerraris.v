(** * C99: IMU calibration recovers the sensor; C100: the interactive calibration. *)
From Coq Require Import Reals List Bool Arith Lia Lra.
From Verif Require Import HostTime Ferraris.
Import ListNotations.
Local Open Scope R_scope.

(** ** Linear algebra *)
Lemma vec_eq a b : v1 a = v1 b -> v2 a = v2 b -> v3 a = v3 b -> a = b.
Proof. destruct a, b; cbn; intros; subst; reflexivity. Qed.
Lemma mat_eq a b : m11 a = m11 b -> m12 a = m12 b -> m13 a = m13 b -> m21 a = m21 b -> m22 a = m22 b -> m23 a = m23 b ->
  m31 a = m31 b -> m32 a = m32 b -> m33 a = m33 b -> a = b.
Proof. destruct a, b; cbn; intros; subst; reflexivity. Qed.
Ltac mat_ring := apply mat_eq; cbn; ring.
Ltac vec_ring := apply vec_eq; cbn; ring.

Lemma mmul_assoc a b c : mmul (mmul a b) c = mmul a (mmul b c). Proof. mat_ring. Qed.
Lemma mmul_id_l a : mmul identity a = a. Proof. mat_ring. Qed.
Lemma mmul_id_r a : mmul a identity = a. Proof. mat_ring. Qed.
Lemma mvmul_id a : mvmul identity a = a. Proof. vec_ring. Qed.
Lemma mvmul_mul a b x : mvmul (mmul a b) x = mvmul a (mvmul b x). Proof. vec_ring. Qed.
Lemma det_mul a b : det (mmul a b) = det a * det b. Proof. destruct a, b; cbn. unfold det; cbn. ring. Qed.
Lemma det_id : det identity = 1. Proof. unfold det; cbn. ring. Qed.

Lemma inverse_some m m' : try_inverse m = Some m' -> mmul m m' = identity /\ mmul m' m = identity /\ det m <> 0.
Proof.
  unfold try_inverse. destruct (Req_EM_T (det m) 0) as [E|E]; intros H; [discriminate|]. injection H as <-.
  destruct m as [a b c d e f g h i]. unfold det in *. cbn in *. split; [|split; [|exact E]]; apply mat_eq; cbn; field; exact E.
Qed.
Lemma inverse_exists m : det m <> 0 -> exists m', try_inverse m = Some m'.
Proof. intros H. unfold try_inverse. destruct (Req_EM_T (det m) 0); [contradiction|]. eexists. reflexivity. Qed.
Lemma inverse_det m m' : try_inverse m = Some m' -> det m' <> 0.
Proof. intros H. apply inverse_some in H. destruct H as (H & _). intros Z. assert (E : det (mmul m m') = 1) by (rewrite H; apply det_id). rewrite det_mul, Z in E. lra. Qed.

(** a row of an invertible matrix is not zero *)
Definition row_norms (m : mat) : vec :=
  Vec (m11 m * m11 m + m12 m * m12 m + m13 m * m13 m) (m21 m * m21 m + m22 m * m22 m + m23 m * m23 m) (m31 m * m31 m + m32 m * m32 m + m33 m * m33 m).
Lemma square_sum_pos a b c : ~ (a = 0 /\ b = 0 /\ c = 0) -> 0 < a * a + b * b + c * c.
Proof.
  intros H. pose proof (Rle_0_sqr a) as A. pose proof (Rle_0_sqr b) as B. pose proof (Rle_0_sqr c) as C. unfold Rsqr in *.
  destruct (Req_dec a 0) as [->|Na]; [|pose proof (Rsqr_pos_lt a Na) as X; unfold Rsqr in X; lra].
  destruct (Req_dec b 0) as [->|Nb]; [|pose proof (Rsqr_pos_lt b Nb) as X; unfold Rsqr in X; lra].
  destruct (Req_dec c 0) as [->|Nc]; [|pose proof (Rsqr_pos_lt c Nc) as X; unfold Rsqr in X; lra].
  exfalso. apply H. tauto.
Qed.
Lemma rows_pos m : det m <> 0 -> 0 < v1 (row_norms m) /\ 0 < v2 (row_norms m) /\ 0 < v3 (row_norms m).
Proof.
  destruct m as [a b c d e f g h i]. unfold det, row_norms. cbn. intros D.
  split; [|split]; apply square_sum_pos; intros (-> & -> & ->); apply D; ring.
Qed.

(** scaling a matrix by the inverse norms of its rows, and undoing it *)
Lemma factor m : det m <> 0 -> exists k' r',
  try_inverse (from_diagonal (vmap sqrt (row_norms m))) = Some k' /\ try_inverse (mmul k' m) = Some r' /\
  mmul (mmul r' k') m = identity.
Proof.
  intros D. destruct (rows_pos m D) as (P1 & P2 & P3).
  assert (DK : det (from_diagonal (vmap sqrt (row_norms m))) <> 0).
  { replace (det (from_diagonal (vmap sqrt (row_norms m)))) with (sqrt (v1 (row_norms m)) * sqrt (v2 (row_norms m)) * sqrt (v3 (row_norms m))) by (unfold det; cbn; ring).
    apply sqrt_lt_R0 in P1, P2, P3. apply Rgt_not_eq. apply Rmult_lt_0_compat; [apply Rmult_lt_0_compat|]; assumption. }
  destruct (inverse_exists _ DK) as (k' & Hk). destruct (inverse_exists (mmul k' m)) as (r' & Hr).
  { rewrite det_mul. apply Rmult_integral_contrapositive_currified; [apply (inverse_det _ _ Hk)|exact D]. }
  exists k', r'. split; [exact Hk|]. split; [exact Hr|]. apply inverse_some in Hr. destruct Hr as (_ & Hr & _).
  rewrite mmul_assoc. exact Hr.
Qed.

(** ** The specification *)
(** a sensor: acceleration and angular rate are distorted linearly, the
    acceleration leaks into the gyroscope, and both have an offset *)
Record sensor := Sensor { sA : mat; oA : vec; sG : mat; leak : mat; oG : vec }.
Definition measured_acc (s : sensor) (a : vec) : vec := vadd (mvmul (sA s) a) (oA s).
Definition measured_gyro (s : sensor) (a w : vec) : vec := vadd (vadd (mvmul (sG s) w) (mvmul (leak s) a)) (oG s).
Definition measure (s : sensor) (t : R) (a w : vec) : reading := Reading t (measured_acc s a) (measured_gyro s a w).
Definition unit (a : axis) : vec := match a with AX => Vec 1 0 0 | AY => Vec 0 1 0 | AZ => Vec 0 0 1 end.
Definition signed (s : sign) (k : R) : R := match s with Pos => k | Neg => - k end.

(** means over a list of readings *)
Definition total (f : reading -> vec) (l : list reading) : vec := fold_left (fun v r => vadd v (f r)) l vzero.
Definition mean (f : reading -> vec) (l : list reading) : vec := vdiv (total f l) (INR (length l)).
Definition duration (l : list reading) : R := match l with [] => 0 | r :: _ => rd_time (last l r) - rd_time r end.

(** the session is done right: in each static phase gravity lies along the axis and,
    on average, the device does not turn; in each rotation the mean angular rate over its duration
    gives the expected angle about the axis *)
Record proper (s : sensor) (g angle : R) (d : session) : Prop := Proper {
  p_static : forall a sg, static_readings d a sg <> [] /\
     mean rd_acc (static_readings d a sg) = measured_acc s (vscale (signed sg g) (unit a)) /\
     mean rd_gyro (static_readings d a sg) = measured_gyro s (vscale (signed sg g) (unit a)) vzero;
  p_rotation : forall a, rotation_readings d a <> [] /\ exists acc rate,
     mean rd_acc (rotation_readings d a) = measured_acc s acc /\
     mean rd_gyro (rotation_readings d a) = measured_gyro s acc rate /\
     vscale (duration (rotation_readings d a) / 1000) rate = vscale angle (unit a)
}.

(** ** What the accumulators hold *)
Lemma fold_static a s l : forall i, let x := static_of i a s in
  let i' := fold_left (process_static a s) l i in
  static_of i' a s = Static (st_count x + length l) (fold_left (fun v r => vadd v (rd_acc r)) l (st_acc x)) (fold_left (fun v r => vadd v (rd_gyro r)) l (st_gyro x)) (st_vcount x) (st_vacc x) (st_vgyro x) /\
  (forall a' s', axis_eqb a a' && sign_eqb s s' = false -> static_of i' a' s' = static_of i a' s') /\
  (forall a', rotation_of i' a' = rotation_of i a') /\ gravity i' = gravity i /\ expected_angle i' = expected_angle i.
Proof.
  induction l as [|r l IH]; intros i x i'.
  - cbn in i'. unfold i', x. rewrite Nat.add_0_r. cbn [fold_left]. destruct (static_of i a s); cbn. tauto.
  - cbn [fold_left] in i'. specialize (IH (process_static a s i r)). cbv zeta in IH. fold i' in IH.
    destruct IH as (H1 & H2 & H3 & H4 & H5).
    assert (E : static_of (process_static a s i r) a s = Static (S (st_count x)) (vadd (st_acc x) (rd_acc r)) (vadd (st_gyro x) (rd_gyro r)) (st_vcount x) (st_vacc x) (st_vgyro x)).
    { unfold process_static, set_static. cbn [static_of]. destruct a, s; reflexivity. }
    rewrite E in H1. cbn [st_count st_acc st_gyro st_vcount st_vacc st_vgyro] in H1. split; [|split; [|split; [|split]]].
    + rewrite H1. cbn [fold_left length]. f_equal. lia.
    + intros a' s' N. rewrite (H2 a' s' N). unfold process_static, set_static. cbn [static_of]. rewrite N. reflexivity.
    + intros a'. rewrite H3. reflexivity.
    + rewrite H4. reflexivity.
    + rewrite H5. reflexivity.
Qed.

Lemma fold_variance a s l : forall i, let x := static_of i a s in
  let i' := fold_left (process_variance a s) l i in
  (st_count (static_of i' a s) = st_count x /\ st_acc (static_of i' a s) = st_acc x /\ st_gyro (static_of i' a s) = st_gyro x) /\
  (forall a' s', axis_eqb a a' && sign_eqb s s' = false -> static_of i' a' s' = static_of i a' s') /\
  (forall a', rotation_of i' a' = rotation_of i a') /\ gravity i' = gravity i /\ expected_angle i' = expected_angle i.
Proof.
  induction l as [|r l IH]; intros i x i'.
  - cbn in i'. unfold i', x. tauto.
  - cbn [fold_left] in i'. specialize (IH (process_variance a s i r)). cbv zeta in IH. fold i' in IH.
    destruct IH as ((H1 & H1' & H1'') & H2 & H3 & H4 & H5).
    assert (E : st_count (static_of (process_variance a s i r) a s) = st_count x /\ st_acc (static_of (process_variance a s i r) a s) = st_acc x /\ st_gyro (static_of (process_variance a s i r) a s) = st_gyro x).
    { unfold process_variance, set_static. cbn [static_of]. destruct a, s; cbn; tauto. }
    destruct E as (E1 & E2 & E3). rewrite E1 in H1. rewrite E2 in H1'. rewrite E3 in H1''. split; [|split; [|split; [|split]]].
    + tauto.
    + intros a' s' N. rewrite (H2 a' s' N). unfold process_variance, set_static. cbn [static_of]. rewrite N. reflexivity.
    + intros a'. rewrite H3. reflexivity.
    + rewrite H4. reflexivity.
    + rewrite H5. reflexivity.
Qed.

Lemma last_indep {A} (l : list A) : forall x d d', last (x :: l) d = last (x :: l) d'.
Proof. induction l as [|y l IH]; intros x d d'; [reflexivity|]. change (last (y :: l) d = last (y :: l) d'). apply IH. Qed.

Lemma fold_rotation a l : forall i, let x := rotation_of i a in
  let i' := fold_left (process_rotation a) l i in
  rotation_of i' a = Rotation (ro_count x + length l)
    (if (ro_count x =? 0)%nat then match l with [] => ro_start x | r :: _ => rd_time r end else ro_start x)
    (match l with [] => ro_end x | r :: _ => rd_time (last l r) end)
    (fold_left (fun v r => vadd v (rd_acc r)) l (ro_acc x)) (fold_left (fun v r => vadd v (rd_gyro r)) l (ro_gyro x)) /\
  (forall a', axis_eqb a a' = false -> rotation_of i' a' = rotation_of i a') /\
  (forall a' s', static_of i' a' s' = static_of i a' s') /\ gravity i' = gravity i /\ expected_angle i' = expected_angle i.
Proof.
  induction l as [|r l IH]; intros i x i'.
  - cbn in i'. unfold i', x. rewrite Nat.add_0_r. cbn [fold_left]. destruct (rotation_of i a) as [n ? ? ? ?]; cbn. destruct n; cbn; tauto.
  - cbn [fold_left] in i'. specialize (IH (process_rotation a i r)). cbv zeta in IH. fold i' in IH.
    destruct IH as (H1 & H2 & H3 & H4 & H5).
    assert (E : rotation_of (process_rotation a i r) a = Rotation (S (ro_count x)) (if (ro_count x =? 0)%nat then rd_time r else ro_start x) (rd_time r) (vadd (ro_acc x) (rd_acc r)) (vadd (ro_gyro x) (rd_gyro r))).
    { unfold process_rotation, set_rotation. cbn [rotation_of]. destruct a; reflexivity. }
    rewrite E in H1. cbn [ro_count ro_start ro_end ro_acc ro_gyro Nat.eqb] in H1. split; [|split; [|split; [|split]]].
    + rewrite H1. cbn [fold_left length]. f_equal; [lia|]. destruct l as [|r' l]; [reflexivity|].
      change (last (r :: r' :: l) r) with (last (r' :: l) r). f_equal. apply last_indep.
    + intros a' N. rewrite (H2 a' N). unfold process_rotation, set_rotation. cbn [rotation_of]. rewrite N. reflexivity.
    + intros a' s'. rewrite H3. reflexivity.
    + rewrite H4. reflexivity.
    + rewrite H5. reflexivity.
Qed.

Lemma phase_spec d a s i : let i' := phase d a s i in
  (st_count (static_of i' a s) = (st_count (static_of i a s) + length (static_readings d a s))%nat /\
   st_acc (static_of i' a s) = fold_left (fun v r => vadd v (rd_acc r)) (static_readings d a s) (st_acc (static_of i a s)) /\
   st_gyro (static_of i' a s) = fold_left (fun v r => vadd v (rd_gyro r)) (static_readings d a s) (st_gyro (static_of i a s))) /\
  (forall a' s', axis_eqb a a' && sign_eqb s s' = false -> static_of i' a' s' = static_of i a' s') /\
  (forall a', rotation_of i' a' = rotation_of i a') /\ gravity i' = gravity i /\ expected_angle i' = expected_angle i.
Proof.
  cbv zeta. unfold phase.
  destruct (fold_static a s (static_readings d a s) i) as (A1 & A2 & A3 & A4 & A5). cbv zeta in *.
  destruct (fold_variance a s (variance_readings d a s) (fold_left (process_static a s) (static_readings d a s) i)) as ((B1 & B1' & B1'') & B2 & B3 & B4 & B5).
  rewrite B1, B1', B1'', A1. cbn [st_count st_acc st_gyro]. split; [tauto|]. split; [intros a' s' N; rewrite B2, A2 by exact N; reflexivity|].
  split; [intros a'; rewrite B3, A3; reflexivity|]. split; [rewrite B4, A4; reflexivity|rewrite B5, A5; reflexivity].
Qed.

Definition holds (i : inner) (a : axis) (s : sign) (l : list reading) : Prop :=
  st_count (static_of i a s) = length l /\ st_acc (static_of i a s) = total rd_acc l /\ st_gyro (static_of i a s) = total rd_gyro l.
Definition turned (i : inner) (a : axis) (l : list reading) : Prop :=
  ro_count (rotation_of i a) = length l /\ ro_acc (rotation_of i a) = total rd_acc l /\ ro_gyro (rotation_of i a) = total rd_gyro l /\
  (l <> [] -> ro_end (rotation_of i a) - ro_start (rotation_of i a) = duration l).

Lemma accumulate_spec d g angle : let i := accumulate d g angle in
  (forall a s, holds i a s (static_readings d a s)) /\ (forall a, turned i a (rotation_readings d a)) /\ gravity i = g /\ expected_angle i = angle.
Proof.
  cbv zeta. unfold accumulate.
  set (i0 := inner_new g angle).
  destruct (phase_spec d AX Pos i0) as (C1 & O1 & R1 & G1 & E1). set (i1 := phase d AX Pos i0) in *.
  destruct (phase_spec d AX Neg i1) as (C2 & O2 & R2 & G2 & E2). set (i2 := phase d AX Neg i1) in *.
  destruct (phase_spec d AY Pos i2) as (C3 & O3 & R3 & G3 & E3). set (i3 := phase d AY Pos i2) in *.
  destruct (phase_spec d AY Neg i3) as (C4 & O4 & R4 & G4 & E4). set (i4 := phase d AY Neg i3) in *.
  destruct (phase_spec d AZ Pos i4) as (C5 & O5 & R5 & G5 & E5). set (i5 := phase d AZ Pos i4) in *.
  destruct (phase_spec d AZ Neg i5) as (C6 & O6 & R6 & G6 & E6). set (i6 := phase d AZ Neg i5) in *.
  destruct (fold_rotation AX (rotation_readings d AX) i6) as (C7 & O7 & S7 & G7 & E7). set (i7 := fold_left (process_rotation AX) (rotation_readings d AX) i6) in *.
  destruct (fold_rotation AY (rotation_readings d AY) i7) as (C8 & O8 & S8 & G8 & E8). set (i8 := fold_left (process_rotation AY) (rotation_readings d AY) i7) in *.
  destruct (fold_rotation AZ (rotation_readings d AZ) i8) as (C9 & O9 & S9 & G9 & E9). set (i9 := fold_left (process_rotation AZ) (rotation_readings d AZ) i8) in *.
  clearbody i1 i2 i3 i4 i5 i6 i7 i8 i9.
  assert (SS : forall a s, static_of i9 a s = static_of i6 a s) by (intros a s; rewrite S9, S8, S7; reflexivity).
  assert (Z : forall a s, static_of i0 a s = Static 0 vzero vzero 0 vzero vzero) by reflexivity.
  split; [|split; [|split]].
  - intros a s. unfold holds. rewrite SS. unfold total. destruct a, s.
    + rewrite O6, O5, O4, O3, O2 by reflexivity. rewrite Z in C1. exact C1.
    + rewrite O6, O5, O4, O3 by reflexivity. rewrite O1, Z in C2 by reflexivity. exact C2.
    + rewrite O6, O5, O4 by reflexivity. rewrite O2, O1, Z in C3 by reflexivity. exact C3.
    + rewrite O6, O5 by reflexivity. rewrite O3, O2, O1, Z in C4 by reflexivity. exact C4.
    + rewrite O6 by reflexivity. rewrite O4, O3, O2, O1, Z in C5 by reflexivity. exact C5.
    + rewrite O5, O4, O3, O2, O1, Z in C6 by reflexivity. exact C6.
  - assert (RR : forall a, rotation_of i6 a = Rotation 0 0 0 vzero vzero) by (intros a; rewrite R6, R5, R4, R3, R2, R1; reflexivity).
    assert (FIN : forall a i l, rotation_of i a = Rotation (0 + length l) (match l with [] => 0 | r :: _ => rd_time r end) (match l with [] => 0 | r :: _ => rd_time (last l r) end)
        (fold_left (fun v r => vadd v (rd_acc r)) l vzero) (fold_left (fun v r => vadd v (rd_gyro r)) l vzero) -> turned i a l).
    { intros a i l H. unfold turned. rewrite H. cbn [ro_count ro_acc ro_gyro ro_end ro_start Nat.add]. split; [reflexivity|]. split; [reflexivity|]. split; [reflexivity|].
      intros NE. destruct l; [contradiction|]. reflexivity. }
    intros a. apply FIN. destruct a.
    + rewrite O9, O8 by reflexivity. rewrite RR in C7. cbn [ro_count ro_start ro_end ro_acc ro_gyro Nat.eqb] in C7. exact C7.
    + rewrite O9 by reflexivity. rewrite O7, RR in C8 by reflexivity. cbn [ro_count ro_start ro_end ro_acc ro_gyro Nat.eqb] in C8. exact C8.
    + rewrite O8, O7, RR in C9 by reflexivity. cbn [ro_count ro_start ro_end ro_acc ro_gyro Nat.eqb] in C9. exact C9.
  - rewrite G9, G8, G7, G6, G5, G4, G3, G2, G1. reflexivity.
  - rewrite E9, E8, E7, E6, E5, E4, E3, E2, E1. reflexivity.
Qed.

(** ** C99 *)
Lemma bind_some {A B} (o : option A) (k : A -> option B) c : bind o k = Some c -> exists a, o = Some a /\ k a = Some c.
Proof. destruct o as [a|]; cbn [bind]; intros H; [exists a; tauto|discriminate]. Qed.
Lemma from_raw_offsets K_a R_a ba K_g R_g Kga bg va vg c : from_raw K_a R_a ba K_g R_g Kga bg va vg = Some c -> b_a c = ba /\ b_g c = bg /\ K_ga c = Kga.
Proof.
  unfold from_raw. intros H. apply bind_some in H. destruct H as (x1 & _ & H). apply bind_some in H. destruct H as (x2 & _ & H).
  apply bind_some in H. destruct H as (x3 & _ & H). apply bind_some in H. destruct H as (x4 & _ & H). injection H as <-. repeat split.
Qed.
Lemma calculate_offsets i c : calculate i = Some c -> b_a c = c_b_a i /\ b_g c = c_b_g i /\ K_ga c = c_K_ga i.
Proof.
  unfold calculate. intros H. apply bind_some in H. destruct H as (x1 & _ & H). apply bind_some in H. destruct H as (x2 & _ & H).
  apply bind_some in H. destruct H as (x3 & _ & H). apply bind_some in H. destruct H as (x4 & _ & H). apply bind_some in H. destruct H as (x5 & _ & H).
  apply from_raw_offsets in H. exact H.
Qed.

Section Recover.
Variables (s : sensor) (g angle : R) (d : session).
Hypothesis Hp : proper s g angle d.
Let i := accumulate d g angle.

Lemma acc_means a sg : mean_acc i a sg = measured_acc s (vscale (signed sg g) (unit a)).
Proof.
  destruct (accumulate_spec d g angle) as (H & _). destruct (H a sg) as (H1 & H2 & _). fold i in H1, H2.
  unfold mean_acc. rewrite H1, H2. apply (p_static _ _ _ _ Hp a sg).
Qed.
Lemma gyro_means a sg : mean_gyro i a sg = measured_gyro s (vscale (signed sg g) (unit a)) vzero.
Proof.
  destruct (accumulate_spec d g angle) as (H & _). destruct (H a sg) as (H1 & _ & H2). fold i in H1, H2.
  unfold mean_gyro. rewrite H1, H2. apply (p_static _ _ _ _ Hp a sg).
Qed.
Lemma grav : gravity i = g. Proof. apply (accumulate_spec d g angle). Qed.
Lemma ang : expected_angle i = angle. Proof. apply (accumulate_spec d g angle). Qed.

Lemma ba_ok : c_b_a i = oA s.
Proof.
  unfold c_b_a, U_a_p, U_a_n, stack. rewrite !acc_means. destruct s as [A o G l oo]. unfold measured_acc. cbn [sA oA signed]. apply vec_eq; cbn; field.
Qed.
Lemma ud_ok : U_a_d i = mscale (2 * g) (sA s).
Proof.
  unfold U_a_d, U_a_p, U_a_n, stack. rewrite !acc_means. destruct s as [A o G l oo]. unfold measured_acc. cbn [sA oA signed]. mat_ring.
Qed.
(** the gyroscope offset is the mean over all static readings: it is contaminated
    by the leak unless the two directions of each axis have as many readings *)
Definition count_of (a : axis) (sg : sign) : R := INR (length (static_readings d a sg)).
Definition imbalance : vec :=
  vdiv (Vec (count_of AX Pos - count_of AX Neg) (count_of AY Pos - count_of AY Neg) (count_of AZ Pos - count_of AZ Neg))
       (count_of AX Pos + count_of AY Pos + count_of AZ Pos + count_of AX Neg + count_of AY Neg + count_of AZ Neg).
Lemma count_pos a sg : 0 < count_of a sg.
Proof. unfold count_of. destruct (p_static _ _ _ _ Hp a sg) as (NE & _). apply lt_0_INR. destruct (static_readings d a sg); [contradiction|cbn; lia]. Qed.
Lemma total_of a sg : st_gyro (static_of i a sg) = vscale (count_of a sg) (measured_gyro s (vscale (signed sg g) (unit a)) vzero).
Proof.
  destruct (accumulate_spec d g angle) as (H & _). destruct (H a sg) as (_ & _ & H2). fold i in H2. rewrite H2.
  destruct (p_static _ _ _ _ Hp a sg) as (NE & _ & M). rewrite <- M. unfold mean, count_of. pose proof (count_pos a sg) as P. unfold count_of in P.
  apply vec_eq; cbn; field; lra.
Qed.
Lemma bg_formula : c_b_g i = vadd (oG s) (mvmul (leak s) (vscale g imbalance)).
Proof.
  unfold c_b_g, sum6, count6. rewrite !total_of.
  destruct (accumulate_spec d g angle) as (H & _). fold i in H.
  rewrite (proj1 (H AX Pos)), (proj1 (H AY Pos)), (proj1 (H AZ Pos)), (proj1 (H AX Neg)), (proj1 (H AY Neg)), (proj1 (H AZ Neg)).
  rewrite !plus_INR. fold (count_of AX Pos) (count_of AY Pos) (count_of AZ Pos) (count_of AX Neg) (count_of AY Neg) (count_of AZ Neg).
  pose proof (count_pos AX Pos). pose proof (count_pos AY Pos). pose proof (count_pos AZ Pos). pose proof (count_pos AX Neg). pose proof (count_pos AY Neg). pose proof (count_pos AZ Neg).
  unfold imbalance, measured_gyro. destruct s as [A o G l oo]. cbn [sG oG leak signed]. apply vec_eq; cbn; field; lra.
Qed.

Hypothesis Hg : g <> 0.
Lemma ka_ok : K_a i = from_diagonal (vmap sqrt (row_norms (sA s))).
Proof.
  unfold K_a, k_a_sq. rewrite ud_ok, grav. f_equal. f_equal. destruct (sA s) as [a b c e f h j k l]. unfold row_norms. apply vec_eq; cbn; field; exact Hg.
Qed.
Lemma kga_ok : c_K_ga i = leak s.
Proof.
  unfold c_K_ga, stack. rewrite !gyro_means, grav. destruct s as [A o G l oo]. unfold measured_gyro. cbn [sG oG leak signed]. destruct l. apply mat_eq; cbn; field; exact Hg.
Qed.

(** the error of the gyroscope offset *)
Definition bias_error : vec := mvmul (leak s) (vscale g imbalance).

Hypothesis Hang : angle <> 0.
Lemma rotated amat a : mmul amat (sA s) = identity ->
  integrated i amat a = vsub (vscale angle (mvmul (sG s) (unit a))) (vscale (duration (rotation_readings d a) / 1000) bias_error).
Proof.
  intros Hm. destruct (accumulate_spec d g angle) as (_ & H & _). destruct (H a) as (C & A & G & D). fold i in C, A, G, D.
  destruct (p_rotation _ _ _ _ Hp a) as (NE & acc & rate & MA & MG & W). specialize (D NE).
  unfold integrated. rewrite ba_ok, kga_ok, bg_formula, C, A, G, D. fold bias_error. generalize bias_error. intros err.
  set (l := rotation_readings d a) in *. set (n := INR (length l)). assert (n0 : 0 < n) by (unfold n; apply lt_0_INR; destruct l; [contradiction|cbn; lia]).
  assert (TA : total rd_acc l = vscale n (measured_acc s acc)) by (rewrite <- MA; unfold mean; fold n; apply vec_eq; cbn; field; lra).
  assert (TG : total rd_gyro l = vscale n (measured_gyro s acc rate)) by (rewrite <- MG; unfold mean; fold n; apply vec_eq; cbn; field; lra).
  rewrite TA, TG.
  assert (E1 : mvmul amat (vsub (vscale n (measured_acc s acc)) (vscale n (oA s))) = vscale n acc).
  { replace (vsub (vscale n (measured_acc s acc)) (vscale n (oA s))) with (mvmul (sA s) (vscale n acc)) by (unfold measured_acc; vec_ring).
    rewrite <- mvmul_mul, Hm, mvmul_id. reflexivity. }
  rewrite E1.
  assert (D0 : duration l <> 0).
  { intros Z. rewrite Z in W. destruct rate as [x y z]. unfold Rdiv in W. rewrite Rmult_0_l in W. destruct a; cbn in W; injection W; intros; lra. }
  assert (E2 : vsub (vsub (vscale n (measured_gyro s acc rate)) (mvmul (leak s) (vscale n acc))) (vscale n (vadd (oG s) err)) = vscale n (vsub (mvmul (sG s) rate) err)) by (unfold measured_gyro; vec_ring).
  rewrite E2.
  replace (vscale angle (mvmul (sG s) (unit a))) with (mvmul (sG s) (vscale angle (unit a))) by vec_ring. rewrite <- W.
  apply vec_eq; cbn; field; lra.
Qed.

Hypothesis HA : det (sA s) <> 0.
(** what the calculation comes to *)
Lemma outcome : exists amat e, mmul amat (sA s) = identity /\ try_inverse (mscale angle identity) = Some e /\
  let M := mmul (stack (integrated i amat)) e in
  (det M <> 0 -> exists c, calibrate d g angle = Some c) /\
  forall c, calibrate d g angle = Some c -> acc_mat c = amat /\ mmul (gyro_mat c) M = identity.
Proof.
  destruct (factor (sA s) HA) as (ka & ra & K1 & R1 & P1).
  assert (E1 : mdiv (U_a_d i) (2 * gravity i) = sA s) by (rewrite ud_ok, grav; destruct (sA s); apply mat_eq; cbn; field; exact Hg).
  assert (DE : det (mscale angle identity) <> 0).
  { replace (det (mscale angle identity)) with (angle * angle * angle) by (unfold det; cbn; ring).
    apply Rmult_integral_contrapositive_currified; [apply Rmult_integral_contrapositive_currified|]; exact Hang. }
  destruct (inverse_exists _ DE) as (e & He).
  exists (mmul ra ka), e. split; [exact P1|]. split; [exact He|]. cbv zeta.
  set (M := mmul (stack (integrated i (mmul ra ka))) e).
  assert (E3 : diagonal (mmul M (transpose M)) = row_norms M) by (destruct M; apply vec_eq; cbn; ring).
  split.
  - intros DM. destruct (factor M DM) as (kg & rg & K2 & R2 & P2).
    unfold calibrate. fold i. unfold calculate. rewrite ka_ok, K1. cbn [bind]. rewrite E1, R1. cbn [bind]. rewrite ang, He. cbn [bind]. fold M.
    rewrite E3, K2. cbn [bind]. unfold from_raw. rewrite R1, K1, R2, K2. cbn [bind]. eexists. reflexivity.
  - intros c H. unfold calibrate in H. fold i in H. unfold calculate in H. rewrite ka_ok, K1 in H. cbn [bind] in H. rewrite E1, R1 in H. cbn [bind] in H. rewrite ang, He in H. cbn [bind] in H. fold M in H.
    rewrite E3 in H. apply bind_some in H. destruct H as (kg & K2 & H). apply bind_some in H. destruct H as (c' & _ & H).
    unfold from_raw in H. rewrite R1, K1, K2 in H. cbn [bind] in H. apply bind_some in H. destruct H as (rg & R2 & H). injection H as <-.
    cbn [acc_mat gyro_mat]. split; [reflexivity|]. apply inverse_some in R2. destruct R2 as (_ & R2 & _). rewrite mmul_assoc. exact R2.
Qed.

(** a device at rest, whatever gravity, reads a rate that is zero only if the offset is right *)
Lemma at_rest : forall c t a, calibrate d g angle = Some c -> rd_gyro (apply_calibration c (measure s t a vzero)) = mvmul (gyro_mat c) (vscale (-1) bias_error) /\ det (gyro_mat c) <> 0.
Proof.
  intros c t a H. pose proof (calculate_offsets _ _ H) as (B1 & B2 & B3). fold i in B1, B2, B3. rewrite ba_ok in B1. rewrite bg_formula in B2. rewrite kga_ok in B3. fold bias_error in B2.
  destruct outcome as (amat & e & P & _ & _ & O). cbv zeta in O. destruct (O c H) as (O1 & O2). split.
  - unfold apply_calibration, measure, calibrate_acc, calibrate_gyr. cbn [rd_time rd_acc rd_gyro]. rewrite B1, B2, B3, O1.
    assert (A : mvmul amat (vsub (measured_acc s a) (oA s)) = a).
    { replace (vsub (measured_acc s a) (oA s)) with (mvmul (sA s) a) by (unfold measured_acc; vec_ring). rewrite <- mvmul_mul, P. apply mvmul_id. }
    rewrite A. f_equal. generalize bias_error. intros err. unfold measured_gyro. vec_ring.
  - intros Z. pose proof (det_mul (gyro_mat c) (mmul (stack (integrated i amat)) e)) as D. rewrite O2, det_id, Z in D. lra.
Qed.

Hypothesis HG : det (sG s) <> 0.
Hypothesis Hbal : forall a, length (static_readings d a Pos) = length (static_readings d a Neg).
Lemma bg_ok : c_b_g i = oG s.
Proof.
  rewrite bg_formula. unfold imbalance, count_of. rewrite !Hbal. apply vec_eq; cbn; unfold Rminus, Rdiv; rewrite ?Rplus_opp_r; ring.
Qed.

Lemma no_error : bias_error = vzero.
Proof. unfold bias_error, imbalance, count_of. rewrite !Hbal. apply vec_eq; cbn; unfold Rminus, Rdiv; rewrite ?Rplus_opp_r; ring. Qed.

Lemma recovered : exists c, calibrate d g angle = Some c /\ b_a c = oA s /\ b_g c = oG s /\ K_ga c = leak s /\
  mmul (acc_mat c) (sA s) = identity /\ mmul (gyro_mat c) (sG s) = identity.
Proof.
  destruct outcome as (amat & e & P & He & S1 & S2). cbv zeta in S1, S2.
  assert (E2 : mmul (stack (integrated i amat)) e = sG s).
  { unfold stack. rewrite !(rotated _ _ P), no_error. apply inverse_some in He. destruct He as (He & _).
    match goal with |- mmul (from_columns ?x ?y ?z) e = _ => replace (from_columns x y z) with (mmul (sG s) (mscale angle identity)) by mat_ring end.
    rewrite mmul_assoc, He. apply mmul_id_r. }
  rewrite E2 in S1, S2. destruct (S1 HG) as (c & H). exists c. split; [exact H|]. destruct (S2 c H) as (Q1 & Q2).
  pose proof (calculate_offsets _ _ H) as (B1 & B2 & B3). fold i in B1, B2, B3. rewrite ba_ok in B1. rewrite bg_ok in B2. rewrite kga_ok in B3.
  rewrite Q1. tauto.
Qed.
End Recover.

(** C99.  For every sensor whose scaling matrices are invertible, every gravity and
    turning angle other than zero, and every session done right in which the two
    directions of each axis have as many readings: the calibration succeeds, and
    applying it to ANY reading of that sensor gives back the true acceleration and
    the true angular rate.  (Exact arithmetic.) *)
Theorem C99_calibration_inverts_sensor_partial : forall s g angle d, det (sA s) <> 0 -> det (sG s) <> 0 -> g <> 0 -> angle <> 0 ->
  proper s g angle d -> (forall a, length (static_readings d a Pos) = length (static_readings d a Neg)) ->
  exists c, calibrate d g angle = Some c /\
    forall t a w, apply_calibration c (measure s t a w) = Reading t a w.
Proof.
  intros s g angle d HA HG Hg Hang Hp Hb. destruct (recovered s g angle d Hp Hg Hang HA HG Hb) as (c & E & B1 & B2 & B3 & M1 & M2).
  exists c. split; [exact E|]. intros t a w. unfold apply_calibration, measure, calibrate_acc, calibrate_gyr. cbn [rd_time rd_acc rd_gyro]. rewrite B1, B2, B3.
  assert (A : mvmul (acc_mat c) (vsub (measured_acc s a) (oA s)) = a).
  { replace (vsub (measured_acc s a) (oA s)) with (mvmul (sA s) a) by (unfold measured_acc; vec_ring). rewrite <- mvmul_mul, M1. apply mvmul_id. }
  rewrite A. f_equal.
  replace (vsub (vsub (measured_gyro s a w) (mvmul (leak s) a)) (oG s)) with (mvmul (sG s) w) by (unfold measured_gyro; vec_ring).
  rewrite <- mvmul_mul, M2. apply mvmul_id.
Qed.

Lemma mvmul_zero m v : det m <> 0 -> mvmul m v = vzero -> v = vzero.
Proof.
  intros D H. destruct (inverse_exists m D) as (m' & I'). apply inverse_some in I'. destruct I' as (_ & I' & _).
  rewrite <- (mvmul_id v), <- I', mvmul_mul, H. vec_ring.
Qed.

(** Finding: without balanced counts (the interactive calibration stops each phase on
    its own clock) the calibration, even when it succeeds, makes EVERY device at rest
    read a turn, if the unbalanced gravity leaks into the gyroscope at all *)
Theorem C99_refuted_unbalanced : forall s g angle d c, det (sA s) <> 0 -> g <> 0 -> angle <> 0 ->
  proper s g angle d -> calibrate d g angle = Some c -> mvmul (leak s) (imbalance d) <> vzero ->
  forall t a, rd_gyro (apply_calibration c (measure s t a vzero)) <> vzero.
Proof.
  intros s g angle d c HA Hg Hang Hp H NZ t a E. destruct (at_rest s g angle d Hp Hg Hang HA c t a H) as (R & D).
  rewrite R in E. apply (mvmul_zero _ _ D) in E. apply NZ. unfold bias_error in E.
  replace (vscale (-1) (mvmul (leak s) (vscale g (imbalance d)))) with (vscale (- g) (mvmul (leak s) (imbalance d))) in E by vec_ring.
  destruct (mvmul (leak s) (imbalance d)) as [x y z]. unfold vscale in E. cbn in E. injection E as E1 E2 E3.
  apply vec_eq; cbn; match goal with H : - g * ?x = 0 |- ?x = 0 => apply Rmult_integral in H; destruct H; [exfalso; lra|assumption] end.
Qed.

(** ** Instances *)
(** a textbook session: [k a sg] readings in each static phase, and each turn done in
    one second, seen by two readings *)
Definition textbook (s : sensor) (g angle : R) (k : axis -> sign -> nat) : session :=
  Session (fun a sg => repeat (measure s 0 (vscale (signed sg g) (unit a)) vzero) (k a sg)) (fun a sg => repeat (measure s 0 (vscale (signed sg g) (unit a)) vzero) (k a sg))
    (fun a => [measure s 0 vzero (vscale angle (unit a)); measure s 1000 vzero (vscale angle (unit a))]).
Lemma total_repeat (f : reading -> vec) r n : forall v, fold_left (fun v r => vadd v (f r)) (repeat r n) v = vadd v (vscale (INR n) (f r)).
Proof.
  induction n as [|n IH]; intros v; cbn [repeat fold_left]; [vec_ring|]. rewrite IH, S_INR. vec_ring.
Qed.
Lemma textbook_proper s g angle k : (forall a sg, (0 < k a sg)%nat) -> proper s g angle (textbook s g angle k).
Proof.
  intros K. split.
  - intros a sg. cbn [static_readings textbook]. specialize (K a sg). split; [destruct (k a sg); [lia|discriminate]|].
    assert (0 < INR (k a sg)) by (apply lt_0_INR; exact K).
    unfold mean, total. rewrite !total_repeat, repeat_length. split; apply vec_eq; cbn; field; lra.
  - intros a. cbn [rotation_readings textbook]. split; [discriminate|]. exists vzero, (vscale angle (unit a)).
    split; [apply vec_eq; cbn; field|]. split; [apply vec_eq; cbn; field|]. cbn. apply vec_eq; cbn; field.
Qed.

(** a distorted, biased, leaking sensor is recovered from a textbook session *)
Definition a_sensor : sensor := Sensor (Mat 2 1 0 0 1 0 0 0 3) (Vec 1 2 3) (Mat 1 0 0 4 1 0 0 0 1) identity (Vec 5 0 7).
Theorem C99_instance : exists c, calibrate (textbook a_sensor 10 360 (fun _ _ => 4%nat)) 10 360 = Some c /\
  apply_calibration c (Reading 17 (Vec 12 7 30) (Vec 9 16 20)) = Reading 17 (Vec 3 5 9) (Vec 1 7 4).
Proof.
  destruct (C99_calibration_inverts_sensor_partial a_sensor 10 360 (textbook a_sensor 10 360 (fun _ _ => 4%nat))) as (c & E & H).
  - unfold det. cbn. lra.
  - unfold det. cbn. lra.
  - lra.
  - lra.
  - apply textbook_proper. intros. lia.
  - intros a. cbn [static_readings textbook]. rewrite !repeat_length. reflexivity.
  - exists c. split; [exact E|]. rewrite <- (H 17 (Vec 3 5 9) (Vec 1 7 4)). f_equal. unfold measure. f_equal; apply vec_eq; cbn; ring.
Qed.

(** one reading more with the X axis up than down: the calibration succeeds and is wrong *)
Theorem C99_refuted_instance : exists d c, proper a_sensor 10 360 d /\ calibrate d 10 360 = Some c /\
  forall t a, rd_gyro (apply_calibration c (measure a_sensor t a vzero)) <> vzero.
Proof.
  set (k := fun a sg => match a, sg with AX, Pos => 2%nat | _, _ => 1%nat end).
  set (d := textbook a_sensor 10 360 k).
  assert (P : proper a_sensor 10 360 d) by (apply textbook_proper; intros [] []; cbn; lia).
  assert (HA : det (sA a_sensor) <> 0) by (unfold det; cbn; lra).
  assert (Hg : 10 <> 0) by lra. assert (Hang : 360 <> 0) by lra.
  assert (I : imbalance d = Vec (1 / 7) 0 0).
  { unfold imbalance, count_of, d. cbn [static_readings textbook]. rewrite !repeat_length. cbn [k INR]. apply vec_eq; cbn; field. }
  assert (exists c, calibrate d 10 360 = Some c) as (c & H).
  { destruct (outcome a_sensor 10 360 d P Hg Hang HA) as (amat & e & Pm & He & S1 & _). cbv zeta in S1. apply S1. rewrite det_mul.
    apply Rmult_integral_contrapositive_currified; [|apply (inverse_det _ _ He)].
    unfold stack. rewrite !(rotated a_sensor 10 360 d P Hg Hang _ _ Pm). unfold bias_error. rewrite I. unfold det, duration. cbn. lra. }
  exists d, c. split; [exact P|]. split; [exact H|]. apply (C99_refuted_unbalanced a_sensor 10 360 d c HA Hg Hang P H).
  rewrite I. intros E. apply (f_equal v1) in E. cbn in E. lra.
Qed.

(** * C61, monotone across the recorded points, with every rounding. *)
From Coq Require Import ZArith List Arith Bool Reals Lra Lia Permutation Sorted.
From Flocq Require Import Core Relative Plus_error Sterbenz BinarySingleNaN.
From Verif Require Import FloatFixed FloatErr FloatLut PropLut.
Import ListNotations.
Local Open Scope R_scope.

Section Ends.
Variable prec emax : Z.
Context (Hprec : Prec_gt_0 prec) (Hemax : Prec_lt_emax prec emax).
Notation float := (binary_float prec emax).
Notation fexp := (SpecFloat.fexp prec emax).
Notation rnd := (round radix2 fexp ZnearestE).
Notation u := (uro prec).
Notation eta := (eta prec emax).
Hypothesis Hu : u <= / 1000.
Variable M : R.
Hypothesis HM : 1 <= M.
Hypothesis HMbig : 20 * (M * M) <= bpow radix2 (emax - 1).
Hypothesis Heta : eta <= / 1000 * u.
#[local] Instance vf : Valid_exp fexp. Proof. apply fexp_correct. exact Hprec. Qed.
#[local] Instance mf : Monotone_exp fexp. Proof. apply fexp_monotone. Qed.
Notation okf := (okf prec emax M).
Notation interp := (interp prec emax Hprec Hemax).

Lemma eta1000 : eta <= / 1000.
Proof. pose proof (uro_pos prec). lra. Qed.
Lemma interp_eq q a b c d : okf q -> okf a -> okf b -> okf c -> okf d -> 1 <= B2R b - B2R a ->
  B2R (interp q a b c d) = rnd (rnd (rnd (rnd (B2R q - B2R a) * rnd (B2R d - B2R c)) / rnd (B2R b - B2R a)) + B2R c).
Proof. intros O1 O2 O3 O4 O5 G. exact (proj1 (proj2 (interp_err prec emax Hprec Hemax Hu M HM HMbig eta1000 q a b c d O1 O2 O3 O4 O5 G))). Qed.
Lemma one_le z : 1 <= z -> 1 <= rnd z.
Proof.
  intros G. rewrite <- (rnd_int prec emax Hprec Hemax 1); [apply (rnd_le prec emax Hprec), G|].
  change (Z.abs 1) with (2 ^ 0)%Z. apply Z.pow_le_mono_r; [lia|]. unfold Prec_gt_0 in Hprec. lia.
Qed.
Lemma nonneg x : 0 <= x -> 0 <= rnd x.
Proof. intros H. rewrite <- (rnd_0 prec emax). apply (rnd_le prec emax Hprec), H. Qed.
Lemma nonpos x : x <= 0 -> rnd x <= 0.
Proof. intros H. rewrite <- (rnd_0 prec emax). apply (rnd_le prec emax Hprec), H. Qed.

(** at the left end: on the right side of it *)
Lemma left_above q a b c d : okf q -> okf a -> okf b -> okf c -> okf d -> 1 <= B2R b - B2R a -> B2R c <= B2R d -> B2R a <= B2R q ->
  B2R c <= B2R (interp q a b c d).
Proof.
  intros O1 O2 O3 O4 O5 G U L. rewrite (interp_eq q a b c d) by assumption. rewrite <- (rnd_id prec emax (B2R c)) at 1 by apply B2R_format.
  apply (rnd_le prec emax Hprec). assert (0 <= rnd (rnd (rnd (B2R q - B2R a) * rnd (B2R d - B2R c)) / rnd (B2R b - B2R a))); [|lra].
  apply nonneg. apply Rmult_le_pos; [apply nonneg, Rmult_le_pos; apply nonneg; lra|]. apply Rlt_le, Rinv_0_lt_compat. pose proof (one_le _ G). lra.
Qed.
Lemma left_below q a b c d : okf q -> okf a -> okf b -> okf c -> okf d -> 1 <= B2R b - B2R a -> B2R c <= B2R d -> B2R q <= B2R a ->
  B2R (interp q a b c d) <= B2R c.
Proof.
  intros O1 O2 O3 O4 O5 G U L. rewrite (interp_eq q a b c d) by assumption. rewrite <- (rnd_id prec emax (B2R c)) at 3 by apply B2R_format.
  apply (rnd_le prec emax Hprec). assert (rnd (rnd (rnd (B2R q - B2R a) * rnd (B2R d - B2R c)) / rnd (B2R b - B2R a)) <= 0); [|lra].
  apply nonpos. assert (I : 0 < / rnd (B2R b - B2R a)) by (apply Rinv_0_lt_compat; pose proof (one_le _ G); lra).
  assert (P : rnd (rnd (B2R q - B2R a) * rnd (B2R d - B2R c)) <= 0).
  { apply nonpos. assert (X : rnd (B2R q - B2R a) <= 0) by (apply nonpos; lra). assert (Y : 0 <= rnd (B2R d - B2R c)) by (apply nonneg; lra).
    replace 0 with (0 * rnd (B2R d - B2R c)) by ring. apply Rmult_le_compat_r; assumption. }
  unfold Rdiv. replace 0 with (0 * / rnd (B2R b - B2R a)) by ring. apply Rmult_le_compat_r; lra.
Qed.

(** the quotient of a product, rounded twice, is the factor up to two roundings *)
Lemma quotient z y : 1 <= z -> 0 <= y -> Rabs (rnd (rnd (z * y) / z) - y) <= u * (201 / 100 * y) + 201 / 100 * eta.
Proof.
  intros Z Y. pose proof (uro_pos prec) as U0. pose proof (eta_pos prec emax) as E0.
  pose proof (rnd_err prec emax Hprec (z * y)) as E1. rewrite (Rabs_pos_eq (z * y)) in E1 by (apply Rmult_le_pos; lra).
  set (p := rnd (z * y)) in *. pose proof (rnd_err prec emax Hprec (p / z)) as E2. set (w := rnd (p / z)) in *.
  assert (I : 0 < / z) by (apply Rinv_0_lt_compat; lra). assert (I1 : / z <= 1) by (rewrite <- Rinv_1; apply Rinv_le; lra).
  assert (A : Rabs (p / z - y) <= u * y + eta).
  { replace (p / z - y) with ((p - z * y) * / z) by (field; lra). rewrite Rabs_mult, (Rabs_pos_eq (/ z)) by lra.
    apply Rle_trans with ((u * (z * y) + eta) * / z); [apply Rmult_le_compat_r; lra|].
    replace ((u * (z * y) + eta) * / z) with (u * y + eta * / z) by (field; lra).
    assert (eta * / z <= eta * 1) by (apply Rmult_le_compat_l; lra). lra. }
  assert (B : Rabs (p / z) <= y + u * y + eta).
  { replace (p / z) with (p / z - y + y) by ring. eapply Rle_trans; [apply Rabs_triang|]. rewrite (Rabs_pos_eq y) by lra. lra. }
  assert (C : u * Rabs (p / z) <= u * (y + u * y + eta)) by (apply Rmult_le_compat_l; lra).
  assert (D1 : u * (u * y) <= / 1000 * (u * y)) by (apply Rmult_le_compat_r; [apply Rmult_le_pos; lra|lra]).
  assert (D2 : u * eta <= / 1000 * eta) by (apply Rmult_le_compat_r; lra).
  replace (w - y) with (w - p / z + (p / z - y)) by ring. eapply Rle_trans; [apply Rabs_triang|].
  replace (u * (y + u * y + eta)) with (u * y + u * (u * y) + u * eta) in C by ring.
  assert (0 <= u * y) by (apply Rmult_le_pos; lra). lra.
Qed.

Lemma ulp_lower x : 1 <= x -> u * x <= ulp radix2 fexp x.
Proof.
  intros H. rewrite ulp_neq_0 by lra. unfold cexp, SpecFloat.fexp. rewrite uro_eq.
  apply Rle_trans with (bpow radix2 (mag radix2 x - prec)).
  - unfold Zminus. rewrite bpow_plus, Rmult_comm. apply Rmult_le_compat_r; [apply bpow_ge_0|].
    pose proof (bpow_mag_gt radix2 x) as K. rewrite Rabs_pos_eq in K by lra. lra.
  - apply bpow_le. lia.
Qed.

(** the difference of nearby numbers is exact *)
Lemma rise_exact (c d : float) : 0 <= B2R c -> B2R c <= B2R d <= 2 * B2R c -> rnd (B2R d - B2R c) = B2R d - B2R c.
Proof.
  intros P H. apply (rnd_id prec emax). apply sterbenz; [exact vf|exact mf|apply B2R_format|apply B2R_format|lra].
Qed.

(** at the right end, if the rise is at most a sixteenth of the value *)
Lemma right_below q a b c d : okf q -> okf a -> okf b -> okf c -> okf d -> 1 <= B2R b - B2R a -> 1 <= B2R c -> B2R c <= B2R d <= 17 / 16 * B2R c ->
  B2R q <= B2R b -> B2R (interp q a b c d) <= B2R d.
Proof.
  intros O1 O2 O3 O4 O5 G C1 CD L. rewrite (interp_eq q a b c d) by assumption. rewrite (rise_exact c d) by lra.
  pose proof (one_le _ G) as Z1. pose proof (uro_pos prec) as U0. pose proof (eta_pos prec emax) as E0.
  set (z := rnd (B2R b - B2R a)) in *. set (y := B2R d - B2R c).
  assert (Y0 : 0 <= y) by (unfold y; lra). pose proof (quotient z y Z1 Y0) as Q.
  assert (W : rnd (rnd (rnd (B2R q - B2R a) * y) / z) <= rnd (rnd (z * y) / z)).
  { apply (rnd_le prec emax Hprec). apply Rmult_le_compat_r; [apply Rlt_le, Rinv_0_lt_compat; lra|]. apply (rnd_le prec emax Hprec).
    apply Rmult_le_compat_r; [exact Y0|]. apply (rnd_le prec emax Hprec). lra. }
  apply Rabs_le_inv in Q. destruct Q as [_ Q].
  apply round_N_le_midp; [exact vf|apply B2R_format|]. rewrite succ_eq_pos by lra.
  pose proof (ulp_lower (B2R d) ltac:(lra)) as K.
  assert (Y1 : u * y <= u * (/ 17 * B2R d)) by (apply Rmult_le_compat_l; [lra|unfold y; lra]).
  assert (K1 : u <= u * B2R d) by (rewrite <- (Rmult_1_r u) at 1; apply Rmult_le_compat_l; lra).
  replace (u * (201 / 100 * y)) with (201 / 100 * (u * y)) in Q by ring. replace (u * (/ 17 * B2R d)) with (/ 17 * (u * B2R d)) in Y1 by ring.
  unfold y in Q at 2. set (D := u * B2R d) in *.
  assert (S : rnd (rnd (z * y) / z) + B2R c <= B2R d + 201 / 100 * (/ 17 * D) + 201 / 100 * (/ 1000 * D)) by lra.
  lra.
Qed.
Lemma right_above q a b c d : okf q -> okf a -> okf b -> okf c -> okf d -> 1 <= B2R b - B2R a -> 1 <= B2R c -> B2R c <= B2R d <= 17 / 16 * B2R c ->
  B2R b <= B2R q -> B2R d <= B2R (interp q a b c d).
Proof.
  intros O1 O2 O3 O4 O5 G C1 CD L. rewrite (interp_eq q a b c d) by assumption. rewrite (rise_exact c d) by lra.
  pose proof (one_le _ G) as Z1. pose proof (uro_pos prec) as U0. pose proof (eta_pos prec emax) as E0.
  set (z := rnd (B2R b - B2R a)) in *. set (y := B2R d - B2R c).
  assert (Y0 : 0 <= y) by (unfold y; lra). pose proof (quotient z y Z1 Y0) as Q.
  assert (W : rnd (rnd (z * y) / z) <= rnd (rnd (rnd (B2R q - B2R a) * y) / z)).
  { apply (rnd_le prec emax Hprec). apply Rmult_le_compat_r; [apply Rlt_le, Rinv_0_lt_compat; lra|]. apply (rnd_le prec emax Hprec).
    apply Rmult_le_compat_r; [exact Y0|]. apply (rnd_le prec emax Hprec). lra. }
  destruct (Rle_lt_or_eq_dec (B2R c) (B2R d) (proj1 CD)) as [Lt|Eq].
  - apply Rabs_le_inv in Q. destruct Q as [Q _].
    assert (Fc : generic_format radix2 fexp (B2R c)) by apply B2R_format. assert (Fd : generic_format radix2 fexp (B2R d)) by apply B2R_format.
    apply round_N_ge_midp; [exact vf|exact Fd|].
    pose proof (pred_ge_gt radix2 fexp (B2R c) (B2R d) Fc Fd Lt) as Pg. pose proof (pred_plus_ulp radix2 fexp (B2R d) ltac:(lra) Fd) as Pp.
    set (pd := pred radix2 fexp (B2R d)) in *.
    pose proof (ulp_lower pd ltac:(lra)) as K.
    assert (Y1 : u * y <= u * (/ 16 * B2R c)) by (apply Rmult_le_compat_l; [lra|unfold y; lra]).
    assert (K1 : u <= u * B2R c) by (rewrite <- (Rmult_1_r u) at 1; apply Rmult_le_compat_l; lra).
    assert (K2 : u * B2R c <= u * pd) by (apply Rmult_le_compat_l; lra).
    replace (u * (201 / 100 * y)) with (201 / 100 * (u * y)) in Q by ring. replace (u * (/ 16 * B2R c)) with (/ 16 * (u * B2R c)) in Y1 by ring.
    unfold y in Q at 3. set (C := u * B2R c) in *.
    assert (S : B2R d - 201 / 100 * (/ 16 * C) - 201 / 100 * (/ 1000 * C) <= rnd (rnd (z * y) / z) + B2R c) by lra.
    lra.
  - assert (y = 0) by (unfold y; lra). rewrite <- Eq. rewrite <- (rnd_id prec emax (B2R c)) at 1 by apply B2R_format. apply (rnd_le prec emax Hprec).
    assert (0 <= rnd (rnd (z * y) / z)); [|lra]. rewrite H, Rmult_0_r, (rnd_0 prec emax). unfold Rdiv. rewrite Rmult_0_l, (rnd_0 prec emax). lra.
Qed.
End Ends.

(** ** The table *)
(** away from the recorded points the answer is the interpolation between the neighbours *)
Lemma lookup_between recorded q r : usable_points recorded -> (2 <= length recorded)%nat -> is_finite q = true ->
  (forall p, In p recorded -> key p <> B2R q) -> flookup recorded q r ->
  exists a b, r = Gives (Some (map_range_f q (fst a) (fst b) (snd a) (snd b))) /\ neighbours recorded (B2R q) a b.
Proof.
  revert recorded q r.
  intros l q r HU L2 Fq HN HL. unfold flookup in HL. rewrite (sort_usable l HU L2) in HL.
  pose proof (usable_finite l HU) as Fl. pose proof (fsort_sorted l Fl (usable_distinct l HU)) as Hs. pose proof (fsort_perm l) as P.
  assert (Fs : finite_keys (fsort l)) by (unfold finite_keys in *; rewrite Forall_forall in Fl |- *; intros x Hx; apply Fl, (Permutation_in _ (Permutation_sym P)), Hx).
  assert (back : forall p, In p (fsort l) -> In p l) by (intros p I; apply (Permutation_in _ (Permutation_sym P)), I).
  assert (forth : forall p, In p l -> In p (fsort l)) by (intros p I; apply (Permutation_in _ P), I).
  destruct HL as [H|H N|i b u H N E|i b0 u0 b1 u1 H NQ FA I N0 N1].
  - rewrite <- (Permutation_length P) in H. lia.
  - destruct q; discriminate.
  - exfalso. apply nth_error_In in N. pose proof N as N'. apply back in N'. apply (HN _ N').
    unfold finite_keys in Fs. rewrite Forall_forall in Fs. specialize (Fs _ N). cbn [fst] in Fs. rewrite (Beqb_correct _ _ _ _ Fs Fq) in E. destruct (Req_bool_spec (B2R b) (B2R q)) as [X|X]; [exact X|discriminate].
  - set (k := length (filter (fun p => Bltb (fst p) q) (fsort l))) in *.
    pose proof (below_prefix q Fq (fsort l) Fs Hs) as PRE. fold k in PRE.
    assert (LT : key (b0, u0) < key (b1, u1)) by (apply (sorted_nth _ Hs (i - 1) i); [lia|exact N0|exact N1]).
    assert (I0 : In (b0, u0) l) by (apply back, (nth_error_In _ _ N0)).
    assert (I1 : In (b1, u1) l) by (apply back, (nth_error_In _ _ N1)).
    assert (mono : forall i j p p', (i <= j)%nat -> nth_error (fsort l) i = Some p -> nth_error (fsort l) j = Some p' -> key p <= key p').
    { intros i' j' p p' LE A B. destruct (Nat.eq_dec i' j') as [->|NE]; [rewrite A in B; injection B as <-; lra|].
      apply Rlt_le, (sorted_nth _ Hs i' j'); [lia|exact A|exact B]. }
    exists (b0, u0), (b1, u1). split; [reflexivity|]. split; [exact I0|]. split; [exact I1|]. split; [exact LT|]. split; [|split].
    + intros p Ip. apply forth, In_nth_error in Ip. destruct Ip as (j & J). destruct (Nat.le_gt_cases j (i - 1)) as [Q|Q].
      * left. apply (mono j (i - 1)%nat); assumption.
      * right. apply (mono i j); [lia|assumption|assumption].
    + destruct (Nat.lt_ge_cases (i - 1) k) as [Q|Q]; [left; apply Rlt_le, (PRE _ _ N0), Q|].
        right. intros p Ip. apply forth, In_nth_error in Ip. destruct Ip as (j & J). apply (mono (i - 1)%nat j); [lia|assumption|assumption].
    + destruct (Nat.lt_ge_cases i k) as [Q|Q].
      * right. intros p Ip. apply forth, In_nth_error in Ip. destruct Ip as (j & J). pose proof (nth_error_Some (fsort l) j) as S1. rewrite J in S1. assert (j < length (fsort l))%nat by (apply S1; discriminate). apply (mono j i); [lia|assumption|assumption].
      * left. destruct (Rle_lt_dec (B2R q) (key (b1, u1))) as [X|X]; [exact X|]. apply (PRE _ _ N1) in X. lia.
Qed.
Lemma same_key l : usable_points l -> forall p p', In p l -> In p' l -> key p = key p' -> p = p'.
Proof.
  intros [_ H] p p' I I' E. induction H as [|x l Hx Hl IH]; [destruct I|]. rewrite Forall_forall in Hx.
  destruct I as [->|I], I' as [->|I']; [reflexivity| | |apply IH; assumption].
  - specialize (Hx p' I'). rewrite E in Hx. replace (key p' - key p') with 0 in Hx by ring. rewrite Rabs_R0 in Hx. lra.
  - specialize (Hx p I). rewrite E in Hx. replace (key p' - key p') with 0 in Hx by ring. rewrite Rabs_R0 in Hx. lra.
Qed.
Lemma key_dec (l : list fpoint) (q : R) : (exists p, In p l /\ key p = q) \/ (forall p, In p l -> key p <> q).
Proof.
  induction l as [|x l IH]; [right; intros p []|]. destruct (Req_dec (key x) q) as [E|E]; [left; exists x; split; [left; reflexivity|exact E]|].
  destruct IH as [(p & I & P)|N]; [left; exists p; split; [right; exact I|exact P]|]. right. intros p [<-|I]; [exact E|exact (N p I)].
Qed.

(** clock readings: unix times of at least a millisecond, not decreasing with the boot time, all within a sixteenth of each other *)
Definition clock_points (recorded : list fpoint) : Prop :=
  forall p p', In p recorded -> In p' recorded -> key p <= key p' -> 1 <= B2R (snd p) /\ B2R (snd p) <= B2R (snd p') <= 17 / 16 * B2R (snd p).

Lemma eta_u : eta 53 1024 <= / 1000 * uro 53.
Proof.
  rewrite uro_eq. unfold eta. change (/ 2) with (bpow radix2 (-1)). rewrite <- bpow_plus.
  apply Rle_trans with (bpow radix2 (-10) * bpow radix2 (- (53))); [rewrite <- bpow_plus; apply bpow_le; vm_compute; discriminate|].
  apply Rmult_le_compat_r; [apply bpow_ge_0|]. cbn. lra.
Qed.

(** The date of a later boot time is never earlier, across any number of recorded points, inside and outside their range. *)
Theorem C61_ieee_monotone : forall recorded q q' y y', usable_points recorded -> clock_points recorded -> (2 <= length recorded)%nat ->
  small q -> small q' -> B2R q <= B2R q' -> flookup recorded q (Gives (Some y)) -> flookup recorded q' (Gives (Some y')) -> B2R y <= B2R y'.
Proof.
  intros l q q' y y' HU HC L2 Sq Sq' L H H'.
  assert (M1 : 1 <= bpow radix2 500) by (change 1 with (bpow radix2 0); apply bpow_le; lia).
  assert (Sm : forall p, In p l -> small (fst p) /\ small (snd p)) by (intros p I; destruct HU as [H1 _]; rewrite Forall_forall in H1; exact (H1 p I)).
  assert (Gap : forall p p', In p l -> In p' l -> key p < key p' -> 1 <= B2R (fst p') - B2R (fst p)) by (intros p p' I I' K; exact (usable_gap l HU p p' I I' K)).
  (* the four ends *)
  assert (LA : forall a b x, In a l -> In b l -> key a < key b -> small x -> key a <= B2R x -> B2R (snd a) <= B2R (map_range_f x (fst a) (fst b) (snd a) (snd b))).
  { intros a b x Ia Ib K Sx Lx. destruct (Sm a Ia) as [A1 A2]. destruct (Sm b Ib) as [B1 B2]. destruct (HC a b Ia Ib (Rlt_le _ _ K)) as (C1 & C2 & C3).
    exact (left_above 53 1024 prec53 emax53 uro_small _ M1 room eta_u x _ _ _ _ Sx A1 B1 A2 B2 (Gap a b Ia Ib K) C2 Lx). }
  assert (LB : forall a b x, In a l -> In b l -> key a < key b -> small x -> B2R x <= key a -> B2R (map_range_f x (fst a) (fst b) (snd a) (snd b)) <= B2R (snd a)).
  { intros a b x Ia Ib K Sx Lx. destruct (Sm a Ia) as [A1 A2]. destruct (Sm b Ib) as [B1 B2]. destruct (HC a b Ia Ib (Rlt_le _ _ K)) as (C1 & C2 & C3).
    exact (left_below 53 1024 prec53 emax53 uro_small _ M1 room eta_u x _ _ _ _ Sx A1 B1 A2 B2 (Gap a b Ia Ib K) C2 Lx). }
  assert (RB : forall a b x, In a l -> In b l -> key a < key b -> small x -> B2R x <= key b -> B2R (map_range_f x (fst a) (fst b) (snd a) (snd b)) <= B2R (snd b)).
  { intros a b x Ia Ib K Sx Lx. destruct (Sm a Ia) as [A1 A2]. destruct (Sm b Ib) as [B1 B2]. destruct (HC a b Ia Ib (Rlt_le _ _ K)) as (C1 & C2 & C3).
    exact (right_below 53 1024 prec53 emax53 uro_small _ M1 room eta_u x _ _ _ _ Sx A1 B1 A2 B2 (Gap a b Ia Ib K) C1 (conj C2 C3) Lx). }
  assert (RA : forall a b x, In a l -> In b l -> key a < key b -> small x -> key b <= B2R x -> B2R (snd b) <= B2R (map_range_f x (fst a) (fst b) (snd a) (snd b))).
  { intros a b x Ia Ib K Sx Lx. destruct (Sm a Ia) as [A1 A2]. destruct (Sm b Ib) as [B1 B2]. destruct (HC a b Ia Ib (Rlt_le _ _ K)) as (C1 & C2 & C3).
    exact (right_above 53 1024 prec53 emax53 uro_small _ M1 room eta_u x _ _ _ _ Sx A1 B1 A2 B2 (Gap a b Ia Ib K) C1 (conj C2 C3) Lx). }
  assert (Up : forall p p', In p l -> In p' l -> key p <= key p' -> B2R (snd p) <= B2R (snd p')) by (intros p p' I I' K; apply (HC p p' I I' K)).
  destruct Sq as [Fq Bq]. destruct Sq' as [Fq' Bq'].
  destruct (key_dec l (B2R q)) as [([pb pu] & Ip & Ep)|N].
  - pose proof (C61_ieee_exact_at_points l q pb pu _ HU L2 Fq Ip Ep H) as E. injection E as ->.
    destruct (key_dec l (B2R q')) as [([pb' pu'] & Ip' & Ep')|N'].
    + pose proof (C61_ieee_exact_at_points l q' pb' pu' _ HU L2 Fq' Ip' Ep' H') as E'. injection E' as ->.
      apply (Up (pb, pu) (pb', pu') Ip Ip'). lra.
    + destruct (lookup_between l q' _ HU L2 Fq' N' H') as (a & b & E' & Ia & Ib & K & Adj & La & Lb). injection E' as ->.
      destruct (Adj _ Ip) as [Q|Q].
      * apply Rle_trans with (B2R (snd a)); [exact (Up (pb, pu) a Ip Ia Q)|]. apply LA; [exact Ia|exact Ib|exact K|split; assumption|].
        destruct La as [La|La]; [exact La|]. specialize (La _ Ip). lra.
      * apply Rle_trans with (B2R (snd b)); [|apply RA; [exact Ia|exact Ib|exact K|split; assumption|lra]].
        destruct Lb as [Lb|Lb]; [|exact (Up (pb, pu) b Ip Ib (Lb _ Ip))]. exfalso. apply (N' _ Ip). lra.
  - destruct (lookup_between l q _ HU L2 Fq N H) as (a & b & E & Ia & Ib & K & Adj & La & Lb). injection E as ->.
    destruct (key_dec l (B2R q')) as [([pb' pu'] & Ip' & Ep')|N'].
    + pose proof (C61_ieee_exact_at_points l q' pb' pu' _ HU L2 Fq' Ip' Ep' H') as E'. injection E' as ->.
      destruct (Adj _ Ip') as [Q|Q].
      * apply Rle_trans with (B2R (snd a)); [apply LB; [exact Ia|exact Ib|exact K|split; assumption|lra]|].
        destruct La as [La|La]; [|exact (Up a (pb', pu') Ia Ip' (La _ Ip'))]. exfalso. apply (N _ Ia). lra.
      * apply Rle_trans with (B2R (snd b)); [|exact (Up b (pb', pu') Ib Ip' Q)]. apply RB; [exact Ia|exact Ib|exact K|split; assumption|].
        destruct Lb as [Lb|Lb]; [exact Lb|]. specialize (Lb _ Ip'). lra.
    + destruct (lookup_between l q' _ HU L2 Fq' N' H') as (a' & b' & E' & Ia' & Ib' & K' & Adj' & La' & Lb'). injection E' as ->.
      destruct (Adj a' Ia') as [Q|Q]; [destruct (Adj' a Ia) as [Q'|Q']|].
      * assert (Ea : a = a') by (apply (same_key l HU a a' Ia Ia'); lra). subst a'.
        assert (Eb : b = b').
        { apply (same_key l HU b b' Ib Ib'). destruct (Adj b' Ib') as [X|X]; [lra|]. destruct (Adj' b Ib) as [X'|X']; lra. }
        subst b'. destruct (Sm a Ia) as [A1 A2]. destruct (Sm b Ib) as [B1 B2].
        exact (C61_ieee_monotone_between_points a b q q' A1 A2 B1 B2 (conj Fq Bq) (conj Fq' Bq') (Gap a b Ia Ib K) (Up a b Ia Ib (Rlt_le _ _ K)) L).
      * exfalso. apply (N _ Ia). destruct Lb' as [Lb'|Lb']; [|specialize (Lb' b Ib); lra]. destruct La as [La|La]; [lra|]. specialize (La a' Ia'). lra.
      * apply Rle_trans with (B2R (snd b)).
        -- apply RB; [exact Ia|exact Ib|exact K|split; assumption|]. destruct Lb as [Lb|Lb]; [exact Lb|]. specialize (Lb b' Ib'). lra.
        -- apply Rle_trans with (B2R (snd a')); [exact (Up b a' Ib Ia' Q)|]. apply LA; [exact Ia'|exact Ib'|exact K'|split; assumption|].
           destruct La' as [La'|La']; [exact La'|]. specialize (La' a Ia). lra.
Qed.

(** the hypotheses are met: three clock readings in 2023, in milliseconds *)
Lemma three_points (x0 x1 x2 y0 y1 y2 : f64) : small x0 -> small x1 -> small x2 -> small y0 -> small y1 -> small y2 ->
  B2R x0 = 0 -> B2R x1 = 10 -> B2R x2 = 20 -> B2R y0 = 1700000001000 -> B2R y1 = 1700000001012 -> B2R y2 = 1700000001020 ->
  usable_points [(x2, y2); (x0, y0); (x1, y1)] /\ clock_points [(x2, y2); (x0, y0); (x1, y1)].
Proof.
  intros A0 A1 A2 B0 B1 B2 X0 X1 X2 Y0 Y1 Y2. split; [split|].
  - constructor; [exact (conj A2 B2)|constructor; [exact (conj A0 B0)|constructor; [exact (conj A1 B1)|constructor]]].
  - unfold key. constructor; [constructor; [|constructor; [|constructor]]|constructor; [constructor; [|constructor]|constructor; [constructor|constructor]]];
      cbn [fst]; rewrite ?X0, ?X1, ?X2.
    + rewrite Rabs_pos_eq by lra. lra.
    + rewrite Rabs_pos_eq by lra. lra.
    + rewrite Rabs_left by lra. lra.
  - intros p p' I I' Kk. unfold key in Kk.
    destruct I as [<-|[<-|[<-|[]]]], I' as [<-|[<-|[<-|[]]]]; cbn [fst snd] in *; rewrite ?X0, ?X1, ?X2, ?Y0, ?Y1, ?Y2 in *; lra.
Qed.
Lemma int64_upto n : (0 <=? n)%Z && (n <=? 9007199254740992)%Z = true -> small (int64 n) /\ B2R (int64 n) = IZR n.
Proof. intros H. apply andb_prop in H. destruct H as [H1 H2]. apply int64_ok. split; [apply Z.leb_le, H1|]. apply Z.leb_le in H2. exact H2. Qed.
Theorem C61_ieee_monotone_instance :
  let recorded := [(int64 20, int64 1700000001020); (int64 0, int64 1700000001000); (int64 10, int64 1700000001012)] in
  usable_points recorded /\ clock_points recorded.
Proof.
  cbv zeta.
  destruct (int64_upto 20 eq_refl) as [S20 V20]. destruct (int64_upto 0 eq_refl) as [S0 V0]. destruct (int64_upto 10 eq_refl) as [S10 V10].
  destruct (int64_upto 1700000001020 eq_refl) as [T20 W20]. destruct (int64_upto 1700000001000 eq_refl) as [T0 W0]. destruct (int64_upto 1700000001012 eq_refl) as [T10 W10].
  exact (three_points _ _ _ _ _ _ S0 S10 S20 T0 T10 T20 V0 V10 V20 W0 W10 W20).
Qed.

(** Without the condition on the clock it is false: with two points of usable, increasing times a boot time just before the second point
    is given a later date than the second point itself. *)
Definition fl (m e : Z) : f64 := binary_normalize 53 1024 prec53 emax53 mode_NE m e false.
Definition xa := fl 5340851036308098 (-54).
Definition ya := fl 7950490449812803 (-53).
Definition xb := fl 8338779297553845 (-52).
Definition yb := fl 8524321846569341 (-49).
Definition xq := fl 8338779297553844 (-52).
Lemma two_lookup (a b c d q : f64) : is_nan a = false -> is_nan b = false -> is_nan q = false -> Bleb a b = true -> Beqb a q = false -> Beqb b q = false ->
  Beqb b b = true -> flookup [(a, c); (b, d)] q (Gives (Some (map_range_f q a b c d))) /\ flookup [(a, c); (b, d)] b (Gives (Some d)).
Proof.
  intros Na Nb Nq L Ea Eb Ebb. unfold flookup, sort_timestamps_f. cbn [length Nat.ltb Nat.leb existsb fst]. rewrite Na, Nb. cbn [orb fsort finsert fst]. rewrite L. split.
  - refine (flut_miss _ _ 1 _ _ _ _ _ Nq _ _ _ _); [cbn [length]; apply Nat.leb_le; reflexivity| | |reflexivity|reflexivity].
    + constructor; [exact Ea|constructor; [exact Eb|constructor]].
    + cbn [filter fst length]. destruct (Bltb a q), (Bltb b q); reflexivity.
  - apply (flut_hit _ _ 1 b d); [|reflexivity|exact Ebb]. cbn [length]. apply Nat.leb_le. reflexivity.
Qed.
Theorem C61_ieee_refuted_monotone : exists q q' y y',
  Bltb q q' = true /\ flookup [(xa, ya); (xb, yb)] q (Gives (Some y)) /\ flookup [(xa, ya); (xb, yb)] q' (Gives (Some y')) /\ Bltb y' y = true /\
  Bltb xa xb = true /\ Bltb ya yb = true.
Proof.
  assert (H1 : is_nan xa = false) by (vm_compute; reflexivity). assert (H2 : is_nan xb = false) by (vm_compute; reflexivity).
  assert (H3 : is_nan xq = false) by (vm_compute; reflexivity). assert (H4 : Bleb xa xb = true) by (vm_compute; reflexivity).
  assert (H5 : Beqb xa xq = false) by (vm_compute; reflexivity). assert (H6 : Beqb xb xq = false) by (vm_compute; reflexivity).
  assert (H7 : Beqb xb xb = true) by (vm_compute; reflexivity).
  destruct (two_lookup xa xb ya yb xq H1 H2 H3 H4 H5 H6 H7) as [K1 K2].
  exists xq, xb, (map_range_f xq xa xb ya yb), yb.
  split; [vm_compute; reflexivity|]. split; [exact K1|]. split; [exact K2|]. split; [vm_compute; reflexivity|split; vm_compute; reflexivity].
Qed.
Print Assumptions C61_ieee_monotone.

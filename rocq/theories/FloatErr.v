(** Rounding-error facts used for the IEEE model (proofs only, no model). *)
From Coq Require Import ZArith Reals Lra Lia Psatz.
From Flocq Require Import Core Relative BinarySingleNaN.
From Verif Require Import FloatFixed.
Local Open Scope R_scope.

Section Err.
Variable prec emax : Z.
Context (Hprec : Prec_gt_0 prec) (Hemax : Prec_lt_emax prec emax).
Notation fexp := (SpecFloat.fexp prec emax).
Notation rnd := (round radix2 fexp ZnearestE).

(** unit roundoff and half the smallest subnormal *)
Definition uro : R := / 2 * bpow radix2 (1 - prec).
Definition eta : R := / 2 * bpow radix2 (SpecFloat.emin prec emax).

Lemma uro_eq : uro = bpow radix2 (- prec).
Proof. unfold uro. change (/ 2) with (bpow radix2 (-1)). rewrite <- bpow_plus. f_equal. lia. Qed.
Lemma eta_pos : 0 < eta.
Proof. unfold eta. pose proof (bpow_gt_0 radix2 (SpecFloat.emin prec emax)). lra. Qed.
Lemma uro_pos : 0 < uro.
Proof. rewrite uro_eq. apply bpow_gt_0. Qed.

#[local] Instance valid_fexp_ : Valid_exp fexp.
Proof. apply fexp_correct. exact Hprec. Qed.
#[local] Instance mono_fexp : Monotone_exp fexp.
Proof. apply fexp_monotone. Qed.

Lemma rnd_err x : Rabs (rnd x - x) <= uro * Rabs x + eta.
Proof.
  destruct (error_N_FLT radix2 (SpecFloat.emin prec emax) prec Hprec (fun z => negb (Z.even z)) x) as (eps & et & H1 & H2 & H3 & H4).
  change (round radix2 fexp ZnearestE x) with (round radix2 (FLT_exp (SpecFloat.emin prec emax) prec) (Znearest (fun z => negb (Z.even z))) x).
  rewrite H4. replace (x * (1 + eps) + et - x) with (x * eps + et) by ring.
  eapply Rle_trans; [apply Rabs_triang|]. rewrite Rabs_mult. unfold uro, eta.
  assert (Rabs x * Rabs eps <= / 2 * bpow radix2 (1 - prec) * Rabs x).
  { rewrite Rmult_comm. apply Rmult_le_compat_r; [apply Rabs_pos|].
    eapply Rle_trans; [exact H1|]. unfold u_ro. replace (- prec + 1)%Z with (1 - prec)%Z by lia. lra. }
  lra.
Qed.

Notation float := (binary_float prec emax).
Notation big := (bpow radix2 (emax - 1)).

Lemma big_lt : big < bpow radix2 emax.
Proof. apply bpow_lt. lia. Qed.

Lemma emax_pos : (2 <= emax)%Z.
Proof. unfold Prec_gt_0 in Hprec. unfold Prec_lt_emax in Hemax. lia. Qed.

Lemma rnd_small x : Rabs x <= big -> Rabs (rnd x) < bpow radix2 emax.
Proof.
  intros H. eapply Rle_lt_trans; [|apply big_lt].
  apply abs_round_le_generic; [apply valid_fexp_|apply valid_rnd_N| |exact H].
  apply generic_format_bpow. unfold SpecFloat.fexp, SpecFloat.emin.
  pose proof emax_pos. unfold Prec_gt_0 in Hprec. unfold Prec_lt_emax in Hemax. lia.
Qed.

Lemma minus_ok (x y : float) : is_finite x = true -> is_finite y = true -> Rabs (B2R x - B2R y) <= big ->
  is_finite (Bminus mode_NE x y) = true /\ B2R (Bminus mode_NE x y) = rnd (B2R x - B2R y).
Proof.
  intros Fx Fy H. pose proof (Bminus_correct prec emax Hprec Hemax mode_NE x y Fx Fy) as C. cbn [round_mode] in C.
  rewrite (Rlt_bool_true _ _ (rnd_small _ H)) in C. tauto.
Qed.

Lemma plus_ok (x y : float) : is_finite x = true -> is_finite y = true -> Rabs (B2R x + B2R y) <= big ->
  is_finite (Bplus mode_NE x y) = true /\ B2R (Bplus mode_NE x y) = rnd (B2R x + B2R y).
Proof.
  intros Fx Fy H. pose proof (Bplus_correct prec emax Hprec Hemax mode_NE x y Fx Fy) as C. cbn [round_mode] in C.
  rewrite (Rlt_bool_true _ _ (rnd_small _ H)) in C. tauto.
Qed.

Lemma mult_ok (x y : float) : is_finite x = true -> is_finite y = true -> Rabs (B2R x * B2R y) <= big ->
  is_finite (Bmult mode_NE x y) = true /\ B2R (Bmult mode_NE x y) = rnd (B2R x * B2R y).
Proof.
  intros Fx Fy H. pose proof (Bmult_correct prec emax Hprec Hemax mode_NE x y) as C. cbn [round_mode] in C.
  rewrite (Rlt_bool_true _ _ (rnd_small _ H)) in C. destruct C as (C1 & C2 & _). rewrite Fx, Fy in C2. split; [exact C2|exact C1].
Qed.

Lemma div_ok (x y : float) : is_finite x = true -> B2R y <> 0 -> Rabs (B2R x / B2R y) <= big ->
  is_finite (Bdiv mode_NE x y) = true /\ B2R (Bdiv mode_NE x y) = rnd (B2R x / B2R y).
Proof.
  intros Fx Fy H. pose proof (Bdiv_correct prec emax Hprec Hemax mode_NE x y Fy) as C. cbn [round_mode] in C.
  rewrite (Rlt_bool_true _ _ (rnd_small _ H)) in C. destruct C as (C1 & C2 & _). rewrite Fx in C2. split; [exact C2|exact C1].
Qed.

Lemma int_format n : (Z.abs n <= 2 ^ prec)%Z -> generic_format radix2 fexp (IZR n).
Proof.
  intros H. unfold Prec_gt_0 in Hprec. unfold Prec_lt_emax in Hemax.
  destruct (Z.eq_dec (Z.abs n) (2 ^ prec)) as [E|E].
  - assert (G : generic_format radix2 fexp (IZR (2 ^ prec))).
    { replace (IZR (2 ^ prec)) with (bpow radix2 prec).
      - apply generic_format_bpow. unfold SpecFloat.fexp, SpecFloat.emin. lia.
      - symmetry. apply (IZR_Zpower radix2). lia. }
    destruct (Z.abs_eq_or_opp n) as [A|A]; rewrite A in E; [rewrite E; exact G|].
    replace n with (- (2 ^ prec))%Z by lia. rewrite opp_IZR. apply generic_format_opp. exact G.
  - apply (generic_format_FLT radix2 (SpecFloat.emin prec emax) prec).
    apply (FLT_spec _ _ _ _ (Float radix2 n 0)); cbn [Fnum Fexp].
    + unfold F2R. cbn. ring.
    + change (Z.pow_pos 2) with (fun p => 2 ^ Zpos p)%Z. change (radix_val radix2) with 2%Z. lia.
    + unfold SpecFloat.emin. lia.
Qed.

Lemma of_int_ok n : (Z.abs n <= 2 ^ prec)%Z ->
  is_finite (@of_int prec emax Hprec Hemax n) = true /\ B2R (@of_int prec emax Hprec Hemax n) = IZR n.
Proof.
  intros H. unfold of_int. pose proof (binary_normalize_correct prec emax Hprec Hemax mode_NE n 0 false) as C.
  cbv zeta in C. cbn [round_mode] in C. replace (F2R (Float radix2 n 0)) with (IZR n) in C by (unfold F2R; cbn; ring).
  rewrite (round_generic _ _ _ _ (int_format n H)) in C. rewrite Rlt_bool_true in C.
  - tauto.
  - unfold Prec_gt_0 in Hprec. unfold Prec_lt_emax in Hemax.
    rewrite <- abs_IZR. eapply Rle_lt_trans; [apply IZR_le, H|].
    change 2%Z with (radix_val radix2). rewrite (IZR_Zpower radix2) by lia. apply bpow_lt. lia.
Qed.

Lemma rnd_le x y : x <= y -> rnd x <= rnd y.
Proof. apply round_le; [apply valid_fexp_|apply valid_rnd_N]. Qed.
Lemma rnd_id x : generic_format radix2 fexp x -> rnd x = x.
Proof. apply round_generic. apply valid_rnd_N. Qed.
Lemma rnd_0 : rnd 0 = 0.
Proof. apply round_0. apply valid_rnd_N. Qed.
Lemma rnd_int n : (Z.abs n <= 2 ^ prec)%Z -> rnd (IZR n) = IZR n.
Proof. intros H. apply rnd_id, int_format, H. Qed.
Lemma B2R_format (x : float) : generic_format radix2 fexp (B2R x).
Proof. apply generic_format_B2R. Qed.

(** the rounding of libm::round on a finite float *)
Lemma nearbyint_ok (x : float) : is_finite x = true ->
  is_finite (Bnearbyint mode_NA x) = true /\ Btrunc (Bnearbyint mode_NA x) = Znearest (Zle_bool 0) (B2R x).
Proof.
  intros H. pose proof (Bnearbyint_correct prec emax Hemax mode_NA x) as (C1 & C2 & _). split; [congruence|].
  apply eq_IZR. rewrite Btrunc_correct by exact Hemax. rewrite C1. cbn [round_mode].
  assert (R0 : forall (f : R -> Z) y, round radix2 (FIX_exp 0) f y = IZR (f y)).
  { intros f y. unfold round, scaled_mantissa, F2R, cexp, FIX_exp. cbn [Fnum Fexp Z.opp bpow]. rewrite !Rmult_1_r. reflexivity. }
  rewrite !R0, Ztrunc_IZR. reflexivity.
Qed.
End Err.

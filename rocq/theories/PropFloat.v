(** * C34 in IEEE-754 arithmetic: fixed-point quantisation honours its
    declared error on the machine's own floats. *)
From Coq Require Import ZArith Reals Lra Lia Psatz Bool.
From Flocq Require Import Core Relative Plus_error BinarySingleNaN.
From Verif Require Import FloatFixed FloatErr.
Local Open Scope R_scope.

(** ** Specification: a factory declared for the error [e].
    The bounds are finite and ordered; the number of bits covers the range with
    steps of [e] (the macro computes ceil(log2(range / e)) in f32, so up to a
    relative 2^-10); the format resolves the range: at least six bits are left
    and an ulp of the bounds is well below [e]; nothing overflows or underflows. *)
Record declared {prec emax} (f : fx prec emax) (e : R) : Prop := Declared {
  dc_min : is_finite (fx_min f) = true;
  dc_max : is_finite (fx_max f) = true;
  dc_lt : B2R (fx_min f) < B2R (fx_max f);
  dc_bits : (2 <= fx_bits f <= 32)%Z;
  dc_prec : (fx_bits f + 6 <= prec)%Z;
  dc_cover : B2R (fx_max f) - B2R (fx_min f) <= (1 + / 1024) * IZR (2 ^ fx_bits f) * e;
  dc_ulp_min : Rabs (B2R (fx_min f)) <= bpow radix2 (prec - 4) * e;
  dc_ulp_max : Rabs (B2R (fx_max f)) <= bpow radix2 (prec - 4) * e;
  dc_big_min : Rabs (B2R (fx_min f)) <= bpow radix2 (emax - 4);
  dc_big_max : Rabs (B2R (fx_max f)) <= bpow radix2 (emax - 4);
  dc_tiny : bpow radix2 (3 - emax - prec) <= / 1024 * e
}.

Section Fmt.
Variable prec emax : Z.
Context (Hprec : Prec_gt_0 prec) (Hemax : Prec_lt_emax prec emax).
Notation float := (binary_float prec emax).
Notation fexp := (SpecFloat.fexp prec emax).
Notation rnd := (round radix2 fexp ZnearestE).
Notation u := (uro prec).
Notation et := (eta prec emax).

Lemma top_eq (f : fx prec emax) : (1 <= fx_bits f <= 32)%Z -> fx_top f = (2 ^ fx_bits f - 1)%Z.
Proof.
  intros H. unfold fx_top, base_width. cbv zeta.
  assert (P : forall w, (fx_bits f < w)%Z -> ((2 ^ fx_bits f - 1) mod 2 ^ w = 2 ^ fx_bits f - 1)%Z).
  { intros w Hw. apply Z.mod_small. pose proof (Z.pow_le_mono_r 2 (fx_bits f) w ltac:(lia) ltac:(lia)).
    pose proof (Z.pow_pos_nonneg 2 (fx_bits f) ltac:(lia) ltac:(lia)). lia. }
  destruct (Z.leb_spec (fx_bits f) 8); [|destruct (Z.leb_spec (fx_bits f) 16)].
  - destruct (Z.ltb_spec (fx_bits f) 8); [apply P; lia|]. replace (fx_bits f) with 8%Z by lia. reflexivity.
  - destruct (Z.ltb_spec (fx_bits f) 16); [apply P; lia|]. replace (fx_bits f) with 16%Z by lia. reflexivity.
  - destruct (Z.ltb_spec (fx_bits f) 32); [apply P; lia|]. replace (fx_bits f) with 32%Z by lia. reflexivity.
Qed.

Lemma nearest_half x : Rabs (IZR (Znearest (Zle_bool 0) x) - x) <= / 2.
Proof. rewrite Rabs_minus_sym. apply Znearest_half. Qed.

Lemma nearest_mono x y : x <= y -> (Znearest (Zle_bool 0) x <= Znearest (Zle_bool 0) y)%Z.
Proof. apply (@Zrnd_le _ (valid_rnd_N (Zle_bool 0))). Qed.
Lemma nearest_int n : Znearest (Zle_bool 0) (IZR n) = n.
Proof. apply (@Zrnd_IZR _ (valid_rnd_N (Zle_bool 0))). Qed.

(** the whole computation on one value, over the reals *)
Lemma core (u et B t D d a q p n q' v1 v2 mn v M e : R) :
  0 < u -> 0 < et -> et <= u -> 4 <= B -> t = B - 1 -> u * B <= / 64 -> et <= / 2048 * e -> 0 < e ->
  0 < D -> D <= (1 + / 1024) * B * e -> 0 < d -> Rabs (d - D) <= u * Rabs D + et ->
  0 <= v - mn -> v - mn <= D -> Rabs (a - (v - mn)) <= u * Rabs (v - mn) + et -> 0 <= a -> a <= d ->
  Rabs (q - a / d) <= u * Rabs (a / d) + et -> 0 <= q -> q <= 1 ->
  Rabs (p - q * t) <= u * Rabs (q * t) + et -> 0 <= p -> p <= t ->
  Rabs (n - p) <= / 2 -> 0 <= n -> n <= t ->
  Rabs (q' - n / t) <= u * Rabs (n / t) + et -> 0 <= q' -> q' <= 1 ->
  Rabs (v1 - q' * d) <= u * Rabs (q' * d) + et -> 0 <= v1 -> v1 <= d ->
  Rabs (v2 - (v1 + mn)) <= u * Rabs (v1 + mn) + et ->
  Rabs v <= M -> u * M <= / 16 * e -> Rabs (v2 - v) <= e.
Proof.
  intros Hu He Heu HB Ht HuB Hee Hepos HD HDe Hd EdD Hv0 HvD Ea Ha0 Had Eq Hq0 Hq1 Ep Hp0 Hpt En Hn0 Hnt Eq' Hq'0 Hq'1 E1 H10 H1d E2 HM HuM.
  assert (T : 0 < t) by lra.
  set (X := a / d) in *. assert (X0 : 0 <= X) by (unfold X; apply Rmult_le_pos; [lra|]; left; apply Rinv_0_lt_compat; lra).
  assert (Xd : X * d = a) by (unfold X; field; lra).
  assert (X1 : X <= 1) by (apply Rmult_le_reg_r with d; lra).
  set (Y := n / t) in *. assert (Yt : Y * t = n) by (unfold Y; field; lra).
  assert (Y0 : 0 <= Y) by (unfold Y; apply Rmult_le_pos; [lra|]; left; apply Rinv_0_lt_compat; lra).
  assert (Y1 : Y <= 1) by (apply Rmult_le_reg_r with t; lra).
  rewrite (Rabs_pos_eq X X0) in Eq. rewrite (Rabs_pos_eq Y Y0) in Eq'.
  rewrite (Rabs_pos_eq (q * t)) in Ep by (apply Rmult_le_pos; lra). rewrite (Rabs_pos_eq (q' * d)) in E1 by (apply Rmult_le_pos; lra).
  rewrite (Rabs_pos_eq D) in EdD by lra. rewrite (Rabs_pos_eq (v - mn)) in Ea by lra.
  assert (MUL : forall r s k, 0 <= k -> r <= s -> k * r <= k * s) by (intros r s k K1 K2; apply Rmult_le_compat_l; assumption).
  assert (Q1 : Rabs (q - X) <= u + et) by (pose proof (MUL X 1 u ltac:(lra) X1); lra).
  assert (P1 : Rabs (p - q * t) <= (u + et) * t).
  { pose proof (MUL q 1 (u * t) ltac:(apply Rmult_le_pos; lra) Hq1). pose proof (MUL 1 t et ltac:(lra) ltac:(lra)). lra. }
  (* Y is near X *)
  assert (YX : Rabs ((Y - X) * t) <= / 2 + 2 * (u + et) * t).
  { replace ((Y - X) * t) with ((n - p) + (p - q * t) + (q - X) * t) by (rewrite <- Yt; ring).
    eapply Rle_trans; [apply Rabs_triang|]. pose proof (Rabs_triang (n - p) (p - q * t)) as A.
    rewrite (Rabs_mult (q - X) t), (Rabs_pos_eq t) by lra. pose proof (MUL _ _ t ltac:(lra) Q1). lra. }
  rewrite Rabs_mult, (Rabs_pos_eq t) in YX by lra.
  set (h := / (2 * t)). assert (Hh : h * t = / 2) by (unfold h; field; lra). assert (h0 : 0 < h) by (unfold h; apply Rinv_0_lt_compat; lra).
  assert (YX' : Rabs (Y - X) <= h + 2 * (u + et)) by (apply Rmult_le_reg_r with t; [lra|]; rewrite Rmult_plus_distr_r, Hh; lra).
  assert (QX : Rabs (q' - X) <= h + 3 * (u + et)).
  { replace (q' - X) with ((q' - Y) + (Y - X)) by ring. eapply Rle_trans; [apply Rabs_triang|]. pose proof (MUL Y 1 u ltac:(lra) Y1). lra. }
  assert (QA : Rabs (q' * d - a) <= (h + 3 * (u + et)) * d).
  { replace (q' * d - a) with ((q' - X) * d) by (rewrite <- Xd; ring). rewrite Rabs_mult, (Rabs_pos_eq d) by lra. apply Rmult_le_compat_r; lra. }
  assert (V1 : Rabs (v1 - (v - mn)) <= (h + 3 * (u + et)) * d + (u * d + et) + (u * D + et)).
  { replace (v1 - (v - mn)) with ((v1 - q' * d) + (q' * d - a) + (a - (v - mn))) by ring.
    eapply Rle_trans; [apply Rabs_triang|]. pose proof (Rabs_triang (v1 - q' * d) (q' * d - a)) as A.
    pose proof (MUL (q' * d) d u ltac:(lra)) as A1. pose proof (MUL q' 1 d ltac:(lra) Hq'1). pose proof (MUL (v - mn) D u ltac:(lra) HvD).
    assert (u * (q' * d) <= u * d) by (apply A1; lra). lra. }
  (* bounds in units of e *)
  set (x := d / B). assert (xB : x * B = d) by (unfold x; field; lra).
  set (y := D / B). assert (yB : y * B = D) by (unfold y; field; lra).
  assert (IB : 0 < / B) by (apply Rinv_0_lt_compat; lra). assert (y0 : 0 < y) by (apply Rmult_lt_0_compat; lra). assert (x0 : 0 < x) by (apply Rmult_lt_0_compat; lra).
  assert (ye : y <= (1 + / 1024) * e) by (apply Rmult_le_reg_r with B; lra).
  apply Rabs_le_inv in EdD.
  assert (uu : u <= / 256) by (pose proof (MUL 4 B u ltac:(lra) HB); lra).
  assert (xe : x <= (1 + / 256) * y + / 8192 * e).
  { apply Rmult_le_reg_r with B; [lra|]. rewrite xB. assert (u * D <= / 256 * D) by (apply Rmult_le_compat_r; lra). assert (e * 4 <= e * B) by (apply MUL; lra). rewrite Rmult_plus_distr_r, Rmult_assoc, yB. lra. }
  assert (ud : u * d <= / 64 * x) by (rewrite <- xB; pose proof (MUL _ _ x ltac:(lra) HuB); lra).
  assert (uD : u * D <= / 64 * y) by (rewrite <- yB; pose proof (MUL _ _ y ltac:(lra) HuB); lra).
  assert (hd : h * d <= 2 / 3 * x).
  { rewrite <- xB. assert (A : h * B <= 2 / 3) by (pose proof (MUL 4 B h ltac:(lra) HB); replace B with (t + 1) in * by lra; rewrite Rmult_plus_distr_l, Hh in *; lra). pose proof (MUL _ _ x ltac:(lra) A). lra. }
  assert (ed : et * d <= u * d) by (apply Rmult_le_compat_r; lra).
  set (err := Rabs (v1 - (v - mn))) in *.
  assert (Hx : x <= 1006 / 1000 * e) by lra.
  assert (Herr : err <= 80 / 100 * e).
  { eapply Rle_trans; [exact V1|]. replace ((h + 3 * (u + et)) * d) with (h * d + 3 * (u * d) + 3 * (et * d)) by ring. lra. }
  assert (V2 : Rabs (v1 + mn) <= M + err).
  { replace (v1 + mn) with (v + (v1 - (v - mn))) by ring. eapply Rle_trans; [apply Rabs_triang|]. fold err. lra. }
  replace (v2 - v) with ((v2 - (v1 + mn)) + (v1 - (v - mn))) by ring.
  eapply Rle_trans; [apply Rabs_triang|]. fold err.
  assert (E0 : 0 <= err) by apply Rabs_pos.
  pose proof (MUL _ _ u ltac:(lra) V2).
  assert (u * err <= / 256 * err) by (apply Rmult_le_compat_r; lra). lra.
Qed.

Lemma bltb_false (x y : float) : is_finite x = true -> is_finite y = true -> B2R y <= B2R x -> Bltb x y = false.
Proof. intros Fx Fy H. rewrite Bltb_correct by assumption. apply Rlt_bool_false, H. Qed.
Lemma bltb_true (x y : float) : is_finite x = true -> is_finite y = true -> B2R x < B2R y -> Bltb x y = true.
Proof. intros Fx Fy H. rewrite Bltb_correct by assumption. apply Rlt_bool_true, H. Qed.

Lemma declared_pos (f : fx prec emax) e : declared f e -> 0 < e.
Proof. intros Dc. pose proof (dc_tiny f e Dc). pose proof (bpow_gt_0 radix2 (3 - emax - prec)). lra. Qed.

(** a code of the range is decoded without overflow, to between the bounds of
    the range up to one rounding *)
Lemma width_ok (f : fx prec emax) e : declared f e ->
  let d := Bminus mode_NE (fx_max f) (fx_min f) in
  is_finite d = true /\ B2R d = rnd (B2R (fx_max f) - B2R (fx_min f)) /\ 0 < B2R d /\ B2R d <= bpow radix2 (emax - 3) /\
  B2R (fx_max f) - B2R (fx_min f) <= bpow radix2 (emax - 3).
Proof.
  intros Dc. cbv zeta. destruct Dc as [Fm FM Hlt Hb Hp Hc Hum HuM Hbm HbM Ht].
  assert (B3 : bpow radix2 (emax - 3) = 2 * bpow radix2 (emax - 4)).
  { replace (emax - 3)%Z with (1 + (emax - 4))%Z by lia. rewrite bpow_plus. reflexivity. }
  assert (B1 : bpow radix2 (emax - 1) = 4 * bpow radix2 (emax - 3)).
  { replace (emax - 1)%Z with (2 + (emax - 3))%Z by lia. rewrite bpow_plus. reflexivity. }
  pose proof (bpow_gt_0 radix2 (emax - 4)).
  apply Rabs_le_inv in Hbm, HbM.
  assert (DD : B2R (fx_max f) - B2R (fx_min f) <= bpow radix2 (emax - 3)) by lra.
  destruct (minus_ok prec emax Hprec Hemax (fx_max f) (fx_min f) FM Fm) as (F1 & E1); [apply Rabs_le; lra|].
  split; [exact F1|]. split; [exact E1|]. rewrite E1. split; [|split; [|exact DD]].
  - assert (G : 0 <= rnd (B2R (fx_max f) - B2R (fx_min f))) by (rewrite <- (rnd_0 prec emax); apply rnd_le; [assumption|lra]).
    destruct (Rle_lt_or_eq_dec _ _ G) as [|Z]; [assumption|]. exfalso. symmetry in Z. revert Z.
    apply (round_plus_neq_0 radix2 fexp ZnearestE).
    + apply B2R_format.
    + apply generic_format_opp, B2R_format.
    + lra.
  - rewrite <- (rnd_id prec emax (bpow radix2 (emax - 3))); [apply rnd_le; assumption|].
    apply generic_format_bpow. unfold Prec_gt_0 in Hprec. unfold Prec_lt_emax in Hemax. unfold SpecFloat.fexp, SpecFloat.emin. lia.
Qed.

Lemma encode_decode (f : fx prec emax) e (v : float) : declared f e -> is_finite v = true ->
  B2R (fx_min f) <= B2R v <= B2R (fx_max f) ->
  exists n, fx_encode f v = FxCode n /\ (0 <= n < 2 ^ fx_bits f)%Z /\
    is_finite (fx_decode f n) = true /\ Rabs (B2R (fx_decode f n) - B2R v) <= e.
Proof.
  intros Dc Fv [Hv1 Hv2]. pose proof (declared_pos f e Dc) as E0. pose proof (width_ok f e Dc) as W. cbv zeta in W. destruct W as (Fd & Ed & d0 & dB & DB).
  pose proof Dc as Dc'. destruct Dc' as [Fm FM Hlt Hb Hp Hc Hum HuM Hbm HbM Ht].
  set (t := (2 ^ fx_bits f - 1)%Z). assert (TE : fx_top f = t) by (apply top_eq; lia).
  assert (PB : (4 <= 2 ^ fx_bits f)%Z) by (change 4%Z with (2 ^ 2)%Z; apply Z.pow_le_mono_r; lia).
  assert (PP : (2 ^ fx_bits f * 64 <= 2 ^ prec)%Z).
  { change 64%Z with (2 ^ 6)%Z. rewrite <- Z.pow_add_r by lia. apply Z.pow_le_mono_r; lia. }
  assert (EM : (8 <= prec < emax)%Z) by (unfold Prec_lt_emax in Hemax; lia).
  assert (B3 : bpow radix2 (emax - 3) = 2 * bpow radix2 (emax - 4)).
  { replace (emax - 3)%Z with (1 + (emax - 4))%Z by lia. rewrite bpow_plus. reflexivity. }
  assert (B1 : bpow radix2 (emax - 1) = 4 * bpow radix2 (emax - 3)).
  { replace (emax - 1)%Z with (2 + (emax - 3))%Z by lia. rewrite bpow_plus. reflexivity. }
  assert (B4 : 1 <= bpow radix2 (emax - 4)) by (change 1 with (bpow radix2 0); apply bpow_le; lia).
  set (d := Bminus mode_NE (fx_max f) (fx_min f)) in *.
  apply Rabs_le_inv in Hbm, HbM.
  (* subtraction *)
  destruct (minus_ok prec emax Hprec Hemax v (fx_min f) Fv Fm) as (Fa & Ea); [apply Rabs_le; lra|].
  set (a := Bminus mode_NE v (fx_min f)) in *.
  assert (a0 : 0 <= B2R a) by (rewrite Ea, <- (rnd_0 prec emax); apply rnd_le; [assumption|lra]).
  assert (ad : B2R a <= B2R d) by (rewrite Ea, Ed; apply rnd_le; [assumption|lra]).
  assert (Id : 0 < / B2R d) by (apply Rinv_0_lt_compat; lra).
  assert (X0 : 0 <= B2R a / B2R d) by (apply Rmult_le_pos; lra).
  assert (X1 : B2R a / B2R d <= 1).
  { apply Rmult_le_reg_r with (B2R d); [exact d0|]. unfold Rdiv. rewrite Rmult_assoc, Rinv_l by lra. lra. }
  (* division *)
  destruct (div_ok prec emax Hprec Hemax a d Fa) as (Fq & Eq); [lra|apply Rabs_le; lra|].
  set (q := Bdiv mode_NE a d) in *.
  assert (R1 : rnd 1 = 1) by (apply (rnd_int prec emax Hprec Hemax 1); change (Z.abs 1) with 1%Z; lia).
  assert (q0 : 0 <= B2R q) by (rewrite Eq, <- (rnd_0 prec emax); apply rnd_le; [assumption|lra]).
  assert (q1 : B2R q <= 1) by (rewrite Eq, <- R1; apply rnd_le; [assumption|lra]).
  (* product with the top code *)
  assert (Ht' : (Z.abs t <= 2 ^ prec)%Z) by (unfold t; lia).
  assert (FE : is_finite (@of_int prec emax Hprec Hemax (fx_top f)) = true /\ B2R (@of_int prec emax Hprec Hemax (fx_top f)) = IZR t).
  { rewrite TE. apply of_int_ok, Ht'. } destruct FE as (Ft & Et).
  assert (T0 : 3 <= IZR t) by (apply IZR_le; unfold t; lia).
  assert (TB : IZR t <= bpow radix2 (emax - 1)).
  { eapply Rle_trans; [apply (IZR_le t (2 ^ prec)); unfold t; lia|]. change 2%Z with (radix_val radix2). rewrite (IZR_Zpower radix2) by lia. apply bpow_le. lia. }
  assert (P0 : 0 <= B2R q * IZR t) by (apply Rmult_le_pos; lra).
  assert (P1 : B2R q * IZR t <= IZR t) by (rewrite <- (Rmult_1_l (IZR t)) at 2; apply Rmult_le_compat_r; lra).
  destruct (mult_ok prec emax Hprec Hemax q (of_int (fx_top f)) Fq Ft) as (Fp & Ep); [rewrite Et; apply Rabs_le; lra|]. rewrite Et in Ep.
  set (p := Bmult mode_NE q (of_int (fx_top f))) in *.
  assert (p0 : 0 <= B2R p) by (rewrite Ep, <- (rnd_0 prec emax); apply rnd_le; [assumption|lra]).
  assert (pt : B2R p <= IZR t) by (rewrite Ep; eapply Rle_trans; [apply rnd_le; [assumption|exact P1]|right; apply rnd_int; assumption]).
  (* rounding to an integer *)
  destruct (nearbyint_ok prec emax Hemax p Fp) as (Fn & En).
  set (n := Znearest (Zle_bool 0) (B2R p)) in *.
  assert (n0 : (0 <= n)%Z) by (rewrite <- (nearest_int 0); apply nearest_mono; exact p0).
  assert (nt : (n <= t)%Z) by (rewrite <- (nearest_int t); apply nearest_mono; exact pt).
  exists n. split; [|split; [split; [exact n0|unfold t in nt; lia]|]].
  { unfold fx_encode. rewrite (bltb_false v (fx_min f)), (bltb_false (fx_max f) v) by assumption. cbn [orb]. fold d a q p.
    unfold cast_base. rewrite Fn, En.
    assert (W : (n < 2 ^ base_width (fx_bits f))%Z).
    { apply Z.le_lt_trans with t; [exact nt|]. unfold t. assert (2 ^ fx_bits f <= 2 ^ base_width (fx_bits f))%Z; [|lia].
      apply Z.pow_le_mono_r; [lia|]. unfold base_width. destruct (Z.leb_spec (fx_bits f) 8); [lia|]. destruct (Z.leb_spec (fx_bits f) 16); lia. }
    destruct (Z.leb_spec 0 n); [|lia]. destruct (Z.ltb_spec n (2 ^ base_width (fx_bits f))); [|lia]. reflexivity. }
  (* decoding *)
  assert (Hn' : (Z.abs n <= 2 ^ prec)%Z) by (unfold t in *; lia).
  destruct (of_int_ok prec emax Hprec Hemax n Hn') as (Fn' & En').
  assert (n0R : 0 <= IZR n) by (apply IZR_le; exact n0).
  assert (ntR : IZR n <= IZR t) by (apply IZR_le; exact nt).
  assert (It : 0 < / IZR t) by (apply Rinv_0_lt_compat; lra).
  assert (Y0 : 0 <= IZR n / IZR t) by (apply Rmult_le_pos; lra).
  assert (Y1 : IZR n / IZR t <= 1).
  { apply Rmult_le_reg_r with (IZR t); [lra|]. unfold Rdiv. rewrite Rmult_assoc, Rinv_l by lra. lra. }
  destruct (div_ok prec emax Hprec Hemax (of_int n) (of_int (fx_top f)) Fn') as (Fq' & Eq'); [rewrite Et; lra|rewrite Et, En'; apply Rabs_le; lra|]. rewrite Et, En' in Eq'.
  set (q' := Bdiv mode_NE (of_int n) (of_int (fx_top f))) in *.
  assert (q0' : 0 <= B2R q') by (rewrite Eq', <- (rnd_0 prec emax); apply rnd_le; [assumption|lra]).
  assert (q1' : B2R q' <= 1) by (rewrite Eq', <- R1; apply rnd_le; [assumption|lra]).
  assert (W0 : 0 <= B2R q' * B2R d) by (apply Rmult_le_pos; lra).
  assert (W1 : B2R q' * B2R d <= B2R d) by (rewrite <- (Rmult_1_l (B2R d)) at 2; apply Rmult_le_compat_r; lra).
  destruct (mult_ok prec emax Hprec Hemax q' d Fq' Fd) as (F1 & E1); [apply Rabs_le; lra|].
  set (w := Bmult mode_NE q' d) in *.
  assert (w0 : 0 <= B2R w) by (rewrite E1, <- (rnd_0 prec emax); apply rnd_le; [assumption|lra]).
  assert (wd : B2R w <= B2R d) by (rewrite E1; eapply Rle_trans; [apply rnd_le; [assumption|exact W1]|right; apply rnd_id, B2R_format]).
  destruct (plus_ok prec emax Hprec Hemax w (fx_min f) F1 Fm) as (F2 & E2); [apply Rabs_le; lra|].
  unfold fx_decode. fold d q' w. split; [exact F2|].
  (* the error *)
  set (M := bpow radix2 (prec - 4) * e).
  assert (Uu : u = bpow radix2 (- prec)) by apply uro_eq.
  refine (core u et (IZR (2 ^ fx_bits f)) (IZR t) (B2R (fx_max f) - B2R (fx_min f)) (B2R d) (B2R a) (B2R q) (B2R p) (IZR n) (B2R q') (B2R w) _ (B2R (fx_min f)) (B2R v) M e
    (uro_pos prec) (eta_pos prec emax) _ _ _ _ _ E0 _ Hc d0 _ _ _ _ a0 ad _ q0 q1 _ p0 pt _ n0R ntR _ q0' q1' _ w0 wd _ _ _).
  - rewrite Uu. unfold eta, SpecFloat.emin. change (/ 2) with (bpow radix2 (-1)). rewrite <- bpow_plus. apply bpow_le. lia.
  - apply (IZR_le 4). exact PB.
  - unfold t. rewrite minus_IZR. reflexivity.
  - rewrite Uu. change 2%Z with (radix_val radix2). rewrite (IZR_Zpower radix2) by lia. rewrite <- bpow_plus.
    change (/ 64) with (bpow radix2 (-6)). apply bpow_le. lia.
  - unfold eta, SpecFloat.emin. lra.
  - lra.
  - rewrite Ed. apply rnd_err; assumption.
  - lra.
  - lra.
  - rewrite Ea. apply rnd_err; assumption.
  - rewrite Eq. apply rnd_err; assumption.
  - rewrite Ep. apply rnd_err; assumption.
  - apply nearest_half.
  - rewrite Eq'. apply rnd_err; assumption.
  - rewrite E1. apply rnd_err; assumption.
  - rewrite E2. apply rnd_err; assumption.
  - fold M in Hum, HuM. apply Rabs_le_inv in Hum, HuM. apply Rabs_le. lra.
  - unfold M. rewrite Uu, <- Rmult_assoc, <- bpow_plus. replace (- prec + (prec - 4))%Z with (-4)%Z by lia. change (bpow radix2 (-4)) with (/ 16). lra.
Qed.
End Fmt.

(** ** C34 (IEEE).  For every format, every declared factory and every float:
    a value in the range gets a code of the declared number of bits and decodes
    to within the declared error; a value outside (including the infinities) is
    rejected; the capped variant encodes the nearest value of the range. *)
Theorem C34_quantisation_ieee_partial : forall prec emax (Hp : Prec_gt_0 prec) (He : Prec_lt_emax prec emax) (f : fx prec emax) (e : R),
  declared f e ->
  (forall v, is_finite v = true -> B2R (fx_min f) <= B2R v <= B2R (fx_max f) ->
     exists n, fx_encode f v = FxCode n /\ (0 <= n < 2 ^ fx_bits f)%Z /\
       is_finite (fx_decode f n) = true /\ Rabs (B2R (fx_decode f n) - B2R v) <= e) /\
  (forall v, is_finite v = true -> B2R v < B2R (fx_min f) \/ B2R (fx_max f) < B2R v -> fx_encode f v = FxRejected) /\
  (forall s, fx_encode f (B754_infinity s) = FxRejected) /\
  (forall v, is_finite v = true ->
     exists n, fx_encode_capped f v = FxCode n /\ is_finite (fx_decode f n) = true /\
       Rabs (B2R (fx_decode f n) - Rmax (B2R (fx_min f)) (Rmin (B2R (fx_max f)) (B2R v))) <= e) /\
  (forall s, exists n, fx_encode_capped f (B754_infinity s) = FxCode n /\ is_finite (fx_decode f n) = true /\
       Rabs (B2R (fx_decode f n) - B2R (if s then fx_min f else fx_max f)) <= e).
Proof.
  intros prec emax Hp He f e Dc.
  pose proof (fun v => encode_decode prec emax Hp He f e v Dc) as IN.
  assert (INF : forall s, fx_encode_capped f (B754_infinity s) = fx_encode_capped f (if s then fx_min f else fx_max f) /\ fx_encode f (B754_infinity s) = FxRejected).
  { intros s. pose proof (dc_min f e Dc) as Fm. pose proof (dc_max f e Dc) as FM. pose proof (dc_lt f e Dc) as L.
    assert (L1 : Bltb (fx_min f) (fx_min f) = false) by (apply bltb_false; [assumption|assumption|lra]).
    assert (L2 : Bltb (fx_max f) (fx_max f) = false) by (apply bltb_false; [assumption|assumption|lra]).
    assert (L3 : Bltb (fx_max f) (fx_min f) = false) by (apply bltb_false; [assumption|assumption|lra]).
    unfold fx_encode_capped, fx_encode. destruct s.
    - rewrite L1, L3. assert (A : Bltb (B754_infinity true) (fx_min f) = true) by (destruct (fx_min f); try discriminate Fm; reflexivity).
      rewrite A. rewrite L1, L3. split; reflexivity.
    - rewrite L2, L3. assert (A : Bltb (fx_max f) (B754_infinity false) = true) by (destruct (fx_max f) as [| | |[]]; try discriminate FM; reflexivity).
      assert (A2 : Bltb (B754_infinity false) (fx_min f) = false) by (destruct (fx_min f) as [| | |[]]; try discriminate Fm; reflexivity).
      rewrite A, A2. rewrite L2, L3. split; reflexivity. }
  assert (CAP : forall v, is_finite v = true ->
     exists n, fx_encode_capped f v = FxCode n /\ is_finite (fx_decode f n) = true /\
       Rabs (B2R (fx_decode f n) - Rmax (B2R (fx_min f)) (Rmin (B2R (fx_max f)) (B2R v))) <= e).
  { intros v Fv. pose proof (dc_min f e Dc) as Fm. pose proof (dc_max f e Dc) as FM. pose proof (dc_lt f e Dc) as L.
    unfold fx_encode_capped. cbv zeta. rewrite !Bltb_correct by assumption.
    destruct (Rlt_bool_spec (B2R v) (B2R (fx_min f))) as [A|A]; [|destruct (Rlt_bool_spec (B2R (fx_max f)) (B2R v)) as [B|B]].
    - destruct (IN (fx_min f) Fm) as (n & C & _ & F & G); [lra|]. rewrite C. exists n. split; [reflexivity|split; [exact F|]].
      rewrite Rmin_right, Rmax_left by lra. exact G.
    - destruct (IN (fx_max f) FM) as (n & C & _ & F & G); [lra|]. rewrite C. exists n. split; [reflexivity|split; [exact F|]].
      rewrite Rmin_left, Rmax_right by lra. exact G.
    - destruct (IN v Fv) as (n & C & _ & F & G); [lra|]. rewrite C. exists n. split; [reflexivity|split; [exact F|]].
      rewrite Rmin_right, Rmax_right by lra. exact G. }
  split; [exact IN|]. split; [|split; [intros s; apply INF|split; [exact CAP|]]].
  - intros v Fv [H|H]; unfold fx_encode.
    + rewrite (bltb_true _ _ v (fx_min f) Fv (dc_min f e Dc) H). reflexivity.
    + rewrite (bltb_true _ _ (fx_max f) v (dc_max f e Dc) Fv H), orb_true_r. reflexivity.
  - intros s. rewrite (proj1 (INF s)). pose proof (dc_lt f e Dc) as L. destruct s.
    + destruct (CAP (fx_min f) (dc_min f e Dc)) as (n & C & F & G). exists n. split; [exact C|split; [exact F|]].
      rewrite Rmin_right, Rmax_left in G by lra. exact G.
    + destruct (CAP (fx_max f) (dc_max f e Dc)) as (n & C & F & G). exists n. split; [exact C|split; [exact F|]].
      rewrite Rmin_left, Rmax_right in G by lra. exact G.
Qed.

(** What is missing of the English claim: NaN passes both comparisons and
    panics, in every factory. *)
Theorem C34_refuted_nan_ieee : forall prec emax (Hp : Prec_gt_0 prec) (He : Prec_lt_emax prec emax) (f : fx prec emax),
  is_finite (fx_min f) = true -> is_finite (fx_max f) = true ->
  fx_encode f B754_nan = FxPanic /\ fx_encode_capped f B754_nan = FxPanic.
Proof.
  intros prec emax Hp He f Fm FM.
  assert (A1 : Bltb B754_nan (fx_min f) = false) by reflexivity.
  assert (A2 : Bltb (fx_max f) B754_nan = false) by (destruct (fx_max f) as [| | |[]]; reflexivity).
  assert (E : fx_encode f B754_nan = FxPanic).
  { unfold fx_encode. rewrite A1, A2. cbn [orb].
    assert (N1 : Bminus mode_NE B754_nan (fx_min f) = B754_nan) by reflexivity. rewrite N1.
    assert (N2 : forall y, Bdiv (prec_gt_0_ := Hp) (prec_lt_emax_ := He) mode_NE B754_nan y = B754_nan) by reflexivity. rewrite N2.
    assert (N3 : forall y, Bmult (prec_gt_0_ := Hp) (prec_lt_emax_ := He) mode_NE B754_nan y = B754_nan) by reflexivity. rewrite N3.
    reflexivity. }
  split; [exact E|]. unfold fx_encode_capped. rewrite A1, A2, E. reflexivity.
Qed.

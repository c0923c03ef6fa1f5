(** * C34 for the macros: every factory of the repository is declared. *)
From Coq Require Import ZArith Reals Lra Lia Psatz Bool List.
From Flocq Require Import Core Relative Plus_error BinarySingleNaN.
From Verif Require Import FloatFixed FloatErr PropFloat.
Local Open Scope R_scope.

Notation fexp32 := (SpecFloat.fexp 24 128).
Notation rnd32 := (round radix2 fexp32 ZnearestE).

(** widening to f64 is exact *)
Lemma widen_ok (x : f32) : is_finite x = true -> is_finite (widen x) = true /\ B2R (widen x) = B2R x.
Proof.
  destruct x as [s|s| |s m ex B]; try discriminate; intros _; [split; reflexivity|].
  cbn [widen]. set (x := B754_finite s m ex B). pose proof (B2R_format 24 128 x) as G.
  assert (L : Rabs (B2R x) < bpow radix2 128) by apply abs_B2R_lt_emax.
  assert (G64 : generic_format radix2 (SpecFloat.fexp 53 1024) (B2R x)).
  { apply (FLT_format_generic radix2 (SpecFloat.emin 24 128) 24) in G. destruct G as [fl H1 H2 H3].
    apply (generic_format_FLT radix2 (SpecFloat.emin 53 1024) 53). apply (FLT_spec _ _ _ _ fl).
    - exact H1.
    - eapply Z.lt_trans; [exact H2|]. reflexivity.
    - eapply Z.le_trans; [|exact H3]. vm_compute. discriminate. }
  pose proof (binary_normalize_correct 53 1024 prec53 emax53 mode_NE (cond_Zopp s (Zpos m)) ex s) as C. cbv zeta in C.
  change (F2R (Float radix2 (cond_Zopp s (Zpos m)) ex)) with (B2R x) in C. cbn [round_mode] in C.
  rewrite (round_generic _ _ _ _ G64) in C. rewrite Rlt_bool_true in C.
  - tauto.
  - eapply Rlt_trans; [exact L|]. apply bpow_lt. lia.
Qed.

(** the number of bits covers the range, whichever way the range was rounded *)
Lemma bits_cover (range er : f32) (D : R) : is_finite range = true -> is_finite er = true ->
  bpow radix2 (-120) <= B2R er -> B2R er <= D -> D <= bpow radix2 32 * B2R er -> D <= bpow radix2 122 ->
  Rabs (B2R range - D) <= uro 24 * Rabs D + eta 24 128 ->
  D <= (1 + / 4096) * IZR (2 ^ required_bits range er) * B2R er.
Proof.
  intros Fr Fe He HeD HD HDb Hr.
  assert (U : uro 24 = / 16777216) by (rewrite uro_eq; reflexivity).
  assert (T : eta 24 128 <= / 1048576 * bpow radix2 (-120)).
  { unfold eta. change (SpecFloat.emin 24 128) with (-149)%Z. change (/ 2) with (bpow radix2 (-1)). change (/ 1048576) with (bpow radix2 (-20)).
    rewrite <- !bpow_plus. apply bpow_le. lia. }
  pose proof (eta_pos 24 128) as T0. pose proof (bpow_gt_0 radix2 (-120)) as P120.
  set (E := B2R er) in *. assert (E0 : 0 < E) by lra.
  rewrite (Rabs_pos_eq D) in Hr by lra. rewrite U in Hr. apply Rabs_le_inv in Hr.
  set (k := B2R range / E). assert (kE : k * E = B2R range) by (unfold k; field; lra).
  assert (k0 : 0 < k) by (apply Rmult_lt_reg_r with E; lra).
  assert (kb : k <= 2 * bpow radix2 32) by (apply Rmult_le_reg_r with E; [exact E0|rewrite kE; lra]).
  assert (B127 : 4 * bpow radix2 32 <= bpow radix2 127).
  { change 4 with (bpow radix2 2). rewrite <- bpow_plus. apply bpow_le. lia. }
  destruct (div_ok 24 128 prec24 emax24 range er Fr) as (Fq & Eq); [fold E; lra|change (128 - 1)%Z with 127%Z; fold E k; apply Rabs_le; lra|].
  fold E k in Eq. unfold required_bits. set (q := Bdiv mode_NE range er) in *.
  pose proof (Bnearbyint_correct 24 128 emax24 mode_UP q) as (C1 & C2 & _). cbn [round_mode] in C1.
  assert (R0 : forall (f : R -> Z) y, round radix2 (FIX_exp 0) f y = IZR (f y)).
  { intros f y. unfold round, scaled_mantissa, F2R, cexp, FIX_exp. cbn [Fnum Fexp Z.opp bpow]. rewrite !Rmult_1_r. reflexivity. }
  assert (N : Btrunc (Bnearbyint mode_UP q) = Zceil (B2R q)).
  { apply eq_IZR. rewrite Btrunc_correct by exact emax24. rewrite C1, !R0, Ztrunc_IZR. reflexivity. }
  rewrite N. set (n := Zceil (B2R q)). assert (Hn : B2R q <= IZR n) by apply Zceil_ub.
  pose proof (rnd_err 24 128 prec24 k) as Er. rewrite <- Eq, U, (Rabs_pos_eq k) in Er by lra. apply Rabs_le_inv in Er.
  assert (Tk : eta 24 128 <= / 1048576).
  { eapply Rle_trans; [exact T|]. assert (bpow radix2 (-120) <= bpow radix2 0) by (apply bpow_le; lia). change (bpow radix2 0) with 1 in *. lra. }
  assert (k9 : 9 / 10 <= k) by (apply Rmult_le_reg_r with E; [exact E0|]; rewrite kE; lra).
  assert (n1 : (1 <= n)%Z) by (assert (0 < n)%Z; [apply lt_IZR; lra|lia]).
  assert (n2 : (n <= 2 ^ Z.log2_up n)%Z) by ((destruct (Z.eq_dec n 1) as [->|]; [vm_compute; discriminate|apply Z.log2_up_spec; lia])).
  apply IZR_le in n2.
  assert (KN : (1 - / 65536) * k <= IZR (2 ^ Z.log2_up n)) by lra.
  set (P := IZR (2 ^ Z.log2_up n)) in *.
  assert (KE : (1 - / 65536) * B2R range <= P * E).
  { rewrite <- kE, <- Rmult_assoc. apply Rmult_le_compat_r; lra. }
  assert (P0 : 0 < P * E) by (apply Rmult_lt_0_compat; lra).
  rewrite Rmult_assoc. lra.
Qed.

(** ** Specification of acceptable macro parameters: f32 literals [mn < mx] and
    an error literal [er] that is the declared error [e] up to its own rounding;
    the range holds at least one step; the bounds are below 2^20 steps and
    nothing is near the ends of the f32 range. *)
Record params (mn mx er : f32) (e : R) : Prop := Params {
  pm_min : is_finite mn = true;
  pm_max : is_finite mx = true;
  pm_err : is_finite er = true;
  pm_e : Rabs (B2R er - e) <= / 4096 * e;
  pm_range : e * (1 + / 4096) <= B2R mx - B2R mn;
  pm_ulp_min : Rabs (B2R mn) <= bpow radix2 20 * e;
  pm_ulp_max : Rabs (B2R mx) <= bpow radix2 20 * e;
  pm_big_min : Rabs (B2R mn) <= bpow radix2 120;
  pm_big_max : Rabs (B2R mx) <= bpow radix2 120;
  pm_tiny : bpow radix2 (-119) <= e
}.

Lemma params_cover mn mx er e range : params mn mx er e -> is_finite range = true ->
  Rabs (B2R range - (B2R mx - B2R mn)) <= uro 24 * Rabs (B2R mx - B2R mn) + eta 24 128 ->
  B2R mx - B2R mn <= (1 + / 1024) * IZR (2 ^ required_bits range er) * e.
Proof.
  intros [F1 F2 F3 He Hr Hu1 Hu2 Hb1 Hb2 Ht] Fr H.
  assert (E0 : 0 < e) by (pose proof (bpow_gt_0 radix2 (-119)); lra).
  apply Rabs_le_inv in He, Hu1, Hu2, Hb1, Hb2.
  assert (B119 : bpow radix2 (-119) = 2 * bpow radix2 (-120)) by (change 2 with (bpow radix2 1); rewrite <- bpow_plus; f_equal).
  assert (B122 : bpow radix2 122 = 4 * bpow radix2 120) by (change 4 with (bpow radix2 2); rewrite <- bpow_plus; f_equal).
  assert (B20 : bpow radix2 20 = 1048576) by (vm_compute; lra).
  assert (B32 : bpow radix2 32 = 4294967296) by (vm_compute; lra).
  pose proof (bpow_gt_0 radix2 (-120)) as P. pose proof (bpow_gt_0 radix2 120) as P2. rewrite B20 in *.
  pose proof (bits_cover range er (B2R mx - B2R mn) Fr F3) as C.
  assert (C' : B2R mx - B2R mn <= (1 + / 4096) * IZR (2 ^ required_bits range er) * B2R er).
  { apply C; [lra|lra|rewrite B32; lra|lra|exact H]. }
  set (Q := IZR (2 ^ required_bits range er)) in *.
  assert (Q0 : 0 <= Q) by (apply (IZR_le 0), Z.pow_nonneg; lia).
  eapply Rle_trans; [exact C'|].
  assert (A : Q * B2R er <= Q * ((1 + / 4096) * e)) by (apply Rmult_le_compat_l; lra).
  assert (A0 : 0 <= Q * e) by (apply Rmult_le_pos; lra).
  rewrite !Rmult_assoc. lra.
Qed.

Lemma minmax_cover mn mx er e : params mn mx er e ->
  B2R mn < B2R mx /\ B2R mx - B2R mn <= (1 + / 1024) * IZR (2 ^ required_bits (Bminus mode_NE mx mn) er) * e.
Proof.
  intros P. pose proof P as [F1 F2 F3 He Hr Hu1 Hu2 Hb1 Hb2 Ht].
  assert (E0 : 0 < e) by (pose proof (bpow_gt_0 radix2 (-119)); lra). split; [lra|].
  assert (B127 : bpow radix2 127 = 128 * bpow radix2 120) by (change 128 with (bpow radix2 7); rewrite <- bpow_plus; f_equal).
  pose proof (bpow_gt_0 radix2 120) as P2.
  destruct (minus_ok 24 128 prec24 emax24 mx mn F2 F1) as (G1 & G2).
  { change (128 - 1)%Z with 127%Z. apply Rabs_le_inv in Hb1, Hb2. apply Rabs_le. lra. }
  apply (params_cover mn mx er e _ P G1). rewrite G2. apply rnd_err. exact prec24.
Qed.

Theorem C34_minmax32_declared : forall mn mx er e, params mn mx er e ->
  (2 <= fx_bits (minmax32 mn mx er) <= 18)%Z -> declared (minmax32 mn mx er) e.
Proof.
  intros mn mx er e P Hb. destruct (minmax_cover mn mx er e P) as (L & C). destruct P as [F1 F2 F3 He Hr Hu1 Hu2 Hb1 Hb2 Ht].
  assert (B4 : bpow radix2 120 <= bpow radix2 (128 - 4)) by (apply bpow_le; lia).
  constructor; cbn [fx_min fx_max fx_bits minmax32] in *; try assumption; try lia.
  - lra.
  - lra.
  - change (/ 1024) with (bpow radix2 (-10)). assert (bpow radix2 (3 - 128 - 24) <= bpow radix2 (-10) * bpow radix2 (-119)).
    { rewrite <- bpow_plus. apply bpow_le. lia. }
    pose proof (bpow_gt_0 radix2 (-10)). eapply Rle_trans; [eassumption|]. apply Rmult_le_compat_l; lra.
Qed.

Theorem C34_minmax64_declared : forall mn mx er e, params mn mx er e ->
  (2 <= fx_bits (minmax64 mn mx er) <= 32)%Z -> declared (minmax64 mn mx er) e.
Proof.
  intros mn mx er e P Hb. destruct (minmax_cover mn mx er e P) as (L & C). destruct P as [F1 F2 F3 He Hr Hu1 Hu2 Hb1 Hb2 Ht].
  destruct (widen_ok mn F1) as (W1 & W2). destruct (widen_ok mx F2) as (W3 & W4).
  assert (E0 : 0 < e) by (pose proof (bpow_gt_0 radix2 (-119)); lra).
  assert (B4 : bpow radix2 120 <= bpow radix2 (1024 - 4)) by (apply bpow_le; lia).
  assert (B5 : bpow radix2 20 * e <= bpow radix2 (53 - 4) * e) by (apply Rmult_le_compat_r; [lra|apply bpow_le; lia]).
  constructor; cbn [fx_min fx_max fx_bits minmax64] in *; rewrite ?W2, ?W4; try assumption; try lia; try lra.
  change (/ 1024) with (bpow radix2 (-10)). assert (bpow radix2 (3 - 1024 - 53) <= bpow radix2 (-10) * bpow radix2 (-119)).
  { rewrite <- bpow_plus. apply bpow_le. lia. }
  pose proof (bpow_gt_0 radix2 (-10)). eapply Rle_trans; [eassumption|]. apply Rmult_le_compat_l; lra.
Qed.

(** slope mode: the bounds are exactly opposite *)
Lemma slope_bounds (s t : f32) : is_finite s = true -> is_finite t = true -> Rabs (B2R s * B2R t) <= bpow radix2 120 ->
  is_finite (slope_max s t) = true /\ is_finite (slope_min s t) = true /\ B2R (slope_min s t) = - B2R (slope_max s t) /\
  is_finite (Bmult mode_NE (slope_max s t) (of_int 2)) = true /\
  B2R (Bmult mode_NE (slope_max s t) (of_int 2)) = 2 * B2R (slope_max s t) /\ Rabs (B2R (slope_max s t)) <= bpow radix2 120.
Proof.
  intros Fs Ft H. unfold slope_max, slope_min.
  assert (B127 : bpow radix2 127 = 128 * bpow radix2 120) by (change 128 with (bpow radix2 7); rewrite <- bpow_plus; f_equal).
  pose proof (bpow_gt_0 radix2 120) as P.
  assert (G120 : generic_format radix2 fexp32 (bpow radix2 120)) by (apply generic_format_bpow; vm_compute; discriminate).
  destruct (of_int_ok 24 128 prec24 emax24 1000) as (F1000 & E1000); [vm_compute; discriminate|].
  destruct (of_int_ok 24 128 prec24 emax24 2) as (F2 & E2); [vm_compute; discriminate|].
  destruct (mult_ok 24 128 prec24 emax24 s t Fs Ft) as (M1 & M2); [change (128 - 1)%Z with 127%Z; lra|].
  assert (Fs' : is_finite (Bopp s) = true) by (rewrite is_finite_Bopp; exact Fs).
  assert (Hopp : Rabs (B2R (Bopp s) * B2R t) <= bpow radix2 120) by (rewrite B2R_Bopp, <- Ropp_mult_distr_l, Rabs_Ropp; exact H).
  destruct (mult_ok 24 128 prec24 emax24 (Bopp s) t Fs' Ft) as (O1 & O2); [change (128 - 1)%Z with 127%Z; lra|].
  assert (OE : B2R (Bmult mode_NE (Bopp s) t) = - B2R (Bmult mode_NE s t)).
  { rewrite O2, M2, B2R_Bopp, <- Ropp_mult_distr_l. apply round_NE_opp. }
  assert (RB : Rabs (B2R (Bmult mode_NE s t)) <= bpow radix2 120).
  { rewrite M2. apply abs_round_le_generic; [apply (fexp_correct 24 128 prec24)|apply valid_rnd_N|exact G120|exact H]. }
  set (p := Bmult mode_NE s t) in *. set (p' := Bmult mode_NE (Bopp s) t) in *.
  assert (DB : Rabs (B2R p / 1000) <= bpow radix2 120).
  { unfold Rdiv. rewrite Rabs_mult, (Rabs_pos_eq (/ 1000)) by lra. pose proof (Rabs_pos (B2R p)). lra. }
  destruct (div_ok 24 128 prec24 emax24 p (of_int 1000) M1) as (D1 & D2); [rewrite E1000; lra|rewrite E1000; change (128 - 1)%Z with 127%Z; lra|].
  destruct (div_ok 24 128 prec24 emax24 p' (of_int 1000) O1) as (D3 & D4); [rewrite E1000; lra| |].
  { rewrite E1000, OE. unfold Rdiv. rewrite <- Ropp_mult_distr_l, Rabs_Ropp. change (128 - 1)%Z with 127%Z. unfold Rdiv in DB. lra. }
  rewrite E1000 in D2, D4. rewrite OE in D4. unfold Rdiv in D4. rewrite <- Ropp_mult_distr_l, round_NE_opp in D4. fold (B2R p / 1000) in D4. rewrite <- D2 in D4.
  set (m := Bdiv mode_NE p (of_int 1000)) in *.
  assert (MB : Rabs (B2R m) <= bpow radix2 120).
  { rewrite D2. apply abs_round_le_generic; [apply (fexp_correct 24 128 prec24)|apply valid_rnd_N|exact G120|exact DB]. }
  destruct (mult_ok 24 128 prec24 emax24 m (of_int 2) D1 F2) as (X1 & X2).
  { rewrite E2, Rabs_mult, (Rabs_pos_eq 2) by lra. change (128 - 1)%Z with 127%Z. lra. }
  rewrite E2 in X2.
  assert (DBL : generic_format radix2 fexp32 (B2R m * 2)).
  { pose proof (B2R_format 24 128 m) as G. apply (FLT_format_generic radix2 (SpecFloat.emin 24 128) 24) in G. destruct G as [fl H1 H2 H3].
    apply (generic_format_FLT radix2 (SpecFloat.emin 24 128) 24). apply (FLT_spec _ _ _ _ (Float radix2 (Fnum fl) (Fexp fl + 1))); cbn [Fnum Fexp].
    - rewrite H1. unfold F2R. cbn [Fnum Fexp]. rewrite bpow_plus. change (bpow radix2 1) with 2. ring.
    - exact H2.
    - lia. }
  rewrite (round_generic _ _ _ _ DBL) in X2.
  split; [exact D1|]. split; [exact D3|]. split; [exact D4|]. split; [exact X1|]. split; [rewrite X2; ring|exact MB].
Qed.

Theorem C34_slope32_declared : forall s t er e, is_finite s = true -> is_finite t = true ->
  Rabs (B2R s * B2R t) <= bpow radix2 120 -> params (slope_min s t) (slope_max s t) er e ->
  (2 <= fx_bits (slope32 s t er) <= 18)%Z -> declared (slope32 s t er) e.
Proof.
  intros s t er e Fs Ft Hst P Hb. destruct (slope_bounds s t Fs Ft Hst) as (S1 & S2 & S3 & S4 & S5 & S6).
  assert (C : B2R (slope_max s t) - B2R (slope_min s t) <= (1 + / 1024) * IZR (2 ^ required_bits (Bmult mode_NE (slope_max s t) (of_int 2)) er) * e).
  { apply (params_cover _ _ _ _ _ P S4). rewrite S5, S3. replace (2 * B2R (slope_max s t) - (B2R (slope_max s t) - - B2R (slope_max s t))) with 0 by ring.
    rewrite Rabs_R0. pose proof (uro_pos 24). pose proof (eta_pos 24 128). pose proof (Rabs_pos (B2R (slope_max s t) - - B2R (slope_max s t))).
    assert (0 <= uro 24 * Rabs (B2R (slope_max s t) - - B2R (slope_max s t))) by (apply Rmult_le_pos; lra). lra. }
  destruct P as [F1 F2 F3 He Hr Hu1 Hu2 Hb1 Hb2 Ht].
  assert (E0 : 0 < e) by (pose proof (bpow_gt_0 radix2 (-119)); lra).
  assert (B4 : bpow radix2 120 <= bpow radix2 (128 - 4)) by (apply bpow_le; lia).
  constructor; cbn [fx_min fx_max fx_bits slope32] in *; try assumption; try lia; try lra.
  change (/ 1024) with (bpow radix2 (-10)). assert (bpow radix2 (3 - 128 - 24) <= bpow radix2 (-10) * bpow radix2 (-119)).
  { rewrite <- bpow_plus. apply bpow_le. lia. }
  pose proof (bpow_gt_0 radix2 (-10)). eapply Rle_trans; [eassumption|]. apply Rmult_le_compat_l; lra.
Qed.

(** ** The factories of the repository *)
Definition lit (m k : Z) : f32 := literal m k.

Lemma sf_finite (x : f32) s m e : B2SF x = SpecFloat.S754_finite s m e ->
  is_finite x = true /\ B2R x = IZR (cond_Zopp s (Zpos m)) * bpow radix2 e.
Proof. destruct x; cbn; intros H; try discriminate. injection H as -> -> ->. split; reflexivity. Qed.
Lemma sf_zero (x : f32) s : B2SF x = SpecFloat.S754_zero s -> is_finite x = true /\ B2R x = 0.
Proof. destruct x; cbn; intros H; try discriminate. split; reflexivity. Qed.

Ltac value x :=
  let v := eval vm_compute in (B2SF x) in
  let H := fresh in let F := fresh "F" in let E := fresh "E" in
  assert (H : B2SF x = v) by (vm_compute; reflexivity);
  (first [destruct (sf_finite x _ _ _ H) as (F & E) | destruct (sf_zero x _ H) as (F & E)]);
  cbn [cond_Zopp] in E; clear H.

Lemma bpow_neg k : bpow radix2 (Zneg k) = / IZR (2 ^ Zpos k).
Proof. cbn [bpow]. change (Z.pow_pos radix2 k) with (2 ^ Zpos k)%Z. reflexivity. Qed.
Lemma bpow_pos k : bpow radix2 (Zpos k) = IZR (2 ^ Zpos k).
Proof. reflexivity. Qed.

Ltac numbers :=
  repeat match goal with E : B2R _ = _ |- _ => rewrite ?E; clear E end;
  rewrite ?bpow_neg, ?bpow_pos; cbn [Z.pow Z.pow_pos Pos.iter Z.mul Pos.mul bpow Z.opp];
  try (apply Rabs_le); lra.
Ltac param mn mx er := value mn; value mx; value er; constructor; try assumption; numbers.

(** vlp/telemetry_packet.rs:13 *)
Definition battery_v_fac := minmax32 (lit 6 0) (lit 9 0) (lit 1 3).
Lemma battery_v_declared : declared battery_v_fac (1 / 1000) /\ fx_bits battery_v_fac = 12%Z.
Proof.
  assert (B : fx_bits battery_v_fac = 12%Z) by (vm_compute; reflexivity). split; [|exact B].
  apply C34_minmax32_declared; [param (lit 6 0) (lit 9 0) (lit 1 3)|fold battery_v_fac; rewrite B; lia].
Qed.
(** vlp/telemetry_packet.rs:14 *)
Definition temperature_fac := minmax32 (lit (-30) 0) (lit 85 0) (lit 1 1).
Lemma temperature_declared : declared temperature_fac (1 / 10) /\ fx_bits temperature_fac = 11%Z.
Proof.
  assert (B : fx_bits temperature_fac = 11%Z) by (vm_compute; reflexivity). split; [|exact B].
  apply C34_minmax32_declared; [param (lit (-30) 0) (lit 85 0) (lit 1 1)|fold temperature_fac; rewrite B; lia].
Qed.
(** vlp/telemetry_packet.rs:15 *)
Definition free_space_fac := minmax32 (lit 0 0) (lit 67108864 0) (lit 40960 0).
Lemma free_space_declared : declared free_space_fac (40960) /\ fx_bits free_space_fac = 11%Z.
Proof.
  assert (B : fx_bits free_space_fac = 11%Z) by (vm_compute; reflexivity). split; [|exact B].
  apply C34_minmax32_declared; [param (lit 0 0) (lit 67108864 0) (lit 40960 0)|fold free_space_fac; rewrite B; lia].
Qed.
(** vlp/telemetry_packet.rs:16 *)
Definition altitude_fac := minmax32 (lit (-100) 0) (lit 5000 0) (lit 5 0).
Lemma altitude_declared : declared altitude_fac (5) /\ fx_bits altitude_fac = 10%Z.
Proof.
  assert (B : fx_bits altitude_fac = 10%Z) by (vm_compute; reflexivity). split; [|exact B].
  apply C34_minmax32_declared; [param (lit (-100) 0) (lit 5000 0) (lit 5 0)|fold altitude_fac; rewrite B; lia].
Qed.
(** vlp/telemetry_packet.rs:17 *)
Definition air_speed_fac := minmax32 (lit (-400) 0) (lit 400 0) (lit 2 0).
Lemma air_speed_declared : declared air_speed_fac (2) /\ fx_bits air_speed_fac = 9%Z.
Proof.
  assert (B : fx_bits air_speed_fac = 9%Z) by (vm_compute; reflexivity). split; [|exact B].
  apply C34_minmax32_declared; [param (lit (-400) 0) (lit 400 0) (lit 2 0)|fold air_speed_fac; rewrite B; lia].
Qed.
(** driver/gps.rs:94 *)
Definition dop_fac := minmax32 (lit 0 0) (lit 1 0) (lit 1 1).
Lemma dop_declared : declared dop_fac (1 / 10) /\ fx_bits dop_fac = 4%Z.
Proof.
  assert (B : fx_bits dop_fac = 4%Z) by (vm_compute; reflexivity). split; [|exact B].
  apply C34_minmax32_declared; [param (lit 0 0) (lit 1 0) (lit 1 1)|fold dop_fac; rewrite B; lia].
Qed.
(** avionics/mod.rs:130 *)
Definition sensors_ff1_fac := minmax64 (lit 49 1) (lit 7 0) (lit 5 2).
Lemma sensors_ff1_declared : declared sensors_ff1_fac (5 / 100) /\ fx_bits sensors_ff1_fac = 6%Z.
Proof.
  assert (B : fx_bits sensors_ff1_fac = 6%Z) by (vm_compute; reflexivity). split; [|exact B].
  apply C34_minmax64_declared; [param (lit 49 1) (lit 7 0) (lit 5 2)|fold sensors_ff1_fac; rewrite B; lia].
Qed.
(** avionics/mod.rs:131 *)
Definition sensors_ff2_fac := minmax64 (lit 199 0) (lit 210 0) (lit 5 1).
Lemma sensors_ff2_declared : declared sensors_ff2_fac (1 / 2) /\ fx_bits sensors_ff2_fac = 5%Z.
Proof.
  assert (B : fx_bits sensors_ff2_fac = 5%Z) by (vm_compute; reflexivity). split; [|exact B].
  apply C34_minmax64_declared; [param (lit 199 0) (lit 210 0) (lit 5 1)|fold sensors_ff2_fac; rewrite B; lia].
Qed.
(** avionics/mod.rs:183 *)
Definition gps_ff1_fac := minmax64 (lit 99 0) (lit 110 0) (lit 5 1).
Lemma gps_ff1_declared : declared gps_ff1_fac (1 / 2) /\ fx_bits gps_ff1_fac = 5%Z.
Proof.
  assert (B : fx_bits gps_ff1_fac = 5%Z) by (vm_compute; reflexivity). split; [|exact B].
  apply C34_minmax64_declared; [param (lit 99 0) (lit 110 0) (lit 5 1)|fold gps_ff1_fac; rewrite B; lia].
Qed.
(** avionics/mod.rs:184, strain_gauges/mid_prio.rs:48 *)
Definition gps_ff2_fac := minmax64 (lit 4999 0) (lit 5010 0) (lit 5 1).
Lemma gps_ff2_declared : declared gps_ff2_fac (1 / 2) /\ fx_bits gps_ff2_fac = 5%Z.
Proof.
  assert (B : fx_bits gps_ff2_fac = 5%Z) by (vm_compute; reflexivity). split; [|exact B].
  apply C34_minmax64_declared; [param (lit 4999 0) (lit 5010 0) (lit 5 1)|fold gps_ff2_fac; rewrite B; lia].
Qed.
(** vacuum_test/mod.rs:35 *)
Definition vacuum_ff1_fac := minmax64 (lit 4 0) (lit 7 0) (lit 5 2).
Lemma vacuum_ff1_declared : declared vacuum_ff1_fac (5 / 100) /\ fx_bits vacuum_ff1_fac = 6%Z.
Proof.
  assert (B : fx_bits vacuum_ff1_fac = 6%Z) by (vm_compute; reflexivity). split; [|exact B].
  apply C34_minmax64_declared; [param (lit 4 0) (lit 7 0) (lit 5 2)|fold vacuum_ff1_fac; rewrite B; lia].
Qed.
(** driver/gps.rs:92 *)
Definition lat_lon_fac := slope32 (lit 1 2) (lit 100 0) (lit 5 6).
Lemma lat_lon_declared : declared lat_lon_fac (5 / 1000000) /\ fx_bits lat_lon_fac = 9%Z.
Proof.
  assert (B : fx_bits lat_lon_fac = 9%Z) by (vm_compute; reflexivity). split; [|exact B].
  apply C34_slope32_declared.
  - value (lit 1 2). assumption.
  - value (lit 100 0). assumption.
  - value (lit 1 2). value (lit 100 0). numbers.
  - param (slope_min (prec := 24) (emax := 128) (lit 1 2) (lit 100 0)) (slope_max (prec := 24) (emax := 128) (lit 1 2) (lit 100 0)) (lit 5 6).
  - fold lat_lon_fac. rewrite B. lia.
Qed.
(** driver/gps.rs:93 *)
Definition gps_altitude_fac := slope32 (lit 400 0) (lit 100 0) (lit 5 1).
Lemma gps_altitude_declared : declared gps_altitude_fac (1 / 2) /\ fx_bits gps_altitude_fac = 8%Z.
Proof.
  assert (B : fx_bits gps_altitude_fac = 8%Z) by (vm_compute; reflexivity). split; [|exact B].
  apply C34_slope32_declared.
  - value (lit 400 0). assumption.
  - value (lit 100 0). assumption.
  - value (lit 400 0). value (lit 100 0). numbers.
  - param (slope_min (prec := 24) (emax := 128) (lit 400 0) (lit 100 0)) (slope_max (prec := 24) (emax := 128) (lit 400 0) (lit 100 0)) (lit 5 1).
  - fold gps_altitude_fac. rewrite B. lia.
Qed.
(** driver/imu.rs:41-42 *)
Definition acc_gyro_fac := slope32 (lit 100 0) (lit 5 0) (lit 1 2).
Lemma acc_gyro_declared : declared acc_gyro_fac (1 / 100) /\ fx_bits acc_gyro_fac = 7%Z.
Proof.
  assert (B : fx_bits acc_gyro_fac = 7%Z) by (vm_compute; reflexivity). split; [|exact B].
  apply C34_slope32_declared.
  - value (lit 100 0). assumption.
  - value (lit 5 0). assumption.
  - value (lit 100 0). value (lit 5 0). numbers.
  - param (slope_min (prec := 24) (emax := 128) (lit 100 0) (lit 5 0)) (slope_max (prec := 24) (emax := 128) (lit 100 0) (lit 5 0)) (lit 1 2).
  - fold acc_gyro_fac. rewrite B. lia.
Qed.
(** driver/adc.rs:53 *)
Definition adc_fac := slope32 (lit 2 1) (lit 500 0) (lit 2 3).
Lemma adc_declared : declared adc_fac (2 / 1000) /\ fx_bits adc_fac = 7%Z.
Proof.
  assert (B : fx_bits adc_fac = 7%Z) by (vm_compute; reflexivity). split; [|exact B].
  apply C34_slope32_declared.
  - value (lit 2 1). assumption.
  - value (lit 500 0). assumption.
  - value (lit 2 1). value (lit 500 0). numbers.
  - param (slope_min (prec := 24) (emax := 128) (lit 2 1) (lit 500 0)) (slope_max (prec := 24) (emax := 128) (lit 2 1) (lit 500 0)) (lit 2 3).
  - fold adc_fac. rewrite B. lia.
Qed.
(** driver/barometer.rs:38 *)
Definition baro_temperature_fac := slope32 (lit 20 0) (lit 5 0) (lit 5 2).
Lemma baro_temperature_declared : declared baro_temperature_fac (5 / 100) /\ fx_bits baro_temperature_fac = 2%Z.
Proof.
  assert (B : fx_bits baro_temperature_fac = 2%Z) by (vm_compute; reflexivity). split; [|exact B].
  apply C34_slope32_declared.
  - value (lit 20 0). assumption.
  - value (lit 5 0). assumption.
  - value (lit 20 0). value (lit 5 0). numbers.
  - param (slope_min (prec := 24) (emax := 128) (lit 20 0) (lit 5 0)) (slope_max (prec := 24) (emax := 128) (lit 20 0) (lit 5 0)) (lit 5 2).
  - fold baro_temperature_fac. rewrite B. lia.
Qed.
(** driver/barometer.rs:39 *)
Definition pressure_fac := slope32 (lit 4000 0) (lit 5 0) (lit 1 0).
Lemma pressure_declared : declared pressure_fac (1) /\ fx_bits pressure_fac = 6%Z.
Proof.
  assert (B : fx_bits pressure_fac = 6%Z) by (vm_compute; reflexivity). split; [|exact B].
  apply C34_slope32_declared.
  - value (lit 4000 0). assumption.
  - value (lit 5 0). assumption.
  - value (lit 4000 0). value (lit 5 0). numbers.
  - param (slope_min (prec := 24) (emax := 128) (lit 4000 0) (lit 5 0)) (slope_max (prec := 24) (emax := 128) (lit 4000 0) (lit 5 0)) (lit 1 0).
  - fold pressure_fac. rewrite B. lia.
Qed.
(** driver/mag.rs:37 *)
Definition mag_fac := slope32 (lit 5 1) (lit 5 0) (lit 1 4).
Lemma mag_declared : declared mag_fac (1 / 10000) /\ fx_bits mag_fac = 6%Z.
Proof.
  assert (B : fx_bits mag_fac = 6%Z) by (vm_compute; reflexivity). split; [|exact B].
  apply C34_slope32_declared.
  - value (lit 5 1). assumption.
  - value (lit 5 0). assumption.
  - value (lit 5 1). value (lit 5 0). numbers.
  - param (slope_min (prec := 24) (emax := 128) (lit 5 1) (lit 5 0)) (slope_max (prec := 24) (emax := 128) (lit 5 1) (lit 5 0)) (lit 1 4).
  - fold mag_fac. rewrite B. lia.
Qed.

(** ** C34 for the repository: every factory it declares meets the hypotheses
    of [C34_quantisation_ieee_partial], with the number of bits the macro computes. *)
Theorem C34_repo_factories :
  (declared battery_v_fac (1 / 1000) /\ fx_bits battery_v_fac = 12%Z) /\
  (declared temperature_fac (1 / 10) /\ fx_bits temperature_fac = 11%Z) /\
  (declared free_space_fac (40960) /\ fx_bits free_space_fac = 11%Z) /\
  (declared altitude_fac (5) /\ fx_bits altitude_fac = 10%Z) /\
  (declared air_speed_fac (2) /\ fx_bits air_speed_fac = 9%Z) /\
  (declared dop_fac (1 / 10) /\ fx_bits dop_fac = 4%Z) /\
  (declared sensors_ff1_fac (5 / 100) /\ fx_bits sensors_ff1_fac = 6%Z) /\
  (declared sensors_ff2_fac (1 / 2) /\ fx_bits sensors_ff2_fac = 5%Z) /\
  (declared gps_ff1_fac (1 / 2) /\ fx_bits gps_ff1_fac = 5%Z) /\
  (declared gps_ff2_fac (1 / 2) /\ fx_bits gps_ff2_fac = 5%Z) /\
  (declared vacuum_ff1_fac (5 / 100) /\ fx_bits vacuum_ff1_fac = 6%Z) /\
  (declared lat_lon_fac (5 / 1000000) /\ fx_bits lat_lon_fac = 9%Z) /\
  (declared gps_altitude_fac (1 / 2) /\ fx_bits gps_altitude_fac = 8%Z) /\
  (declared acc_gyro_fac (1 / 100) /\ fx_bits acc_gyro_fac = 7%Z) /\
  (declared adc_fac (2 / 1000) /\ fx_bits adc_fac = 7%Z) /\
  (declared baro_temperature_fac (5 / 100) /\ fx_bits baro_temperature_fac = 2%Z) /\
  (declared pressure_fac (1) /\ fx_bits pressure_fac = 6%Z) /\
  (declared mag_fac (1 / 10000) /\ fx_bits mag_fac = 6%Z).
Proof.
  split; [exact battery_v_declared|].
  split; [exact temperature_declared|].
  split; [exact free_space_declared|].
  split; [exact altitude_declared|].
  split; [exact air_speed_declared|].
  split; [exact dop_declared|].
  split; [exact sensors_ff1_declared|].
  split; [exact sensors_ff2_declared|].
  split; [exact gps_ff1_declared|].
  split; [exact gps_ff2_declared|].
  split; [exact vacuum_ff1_declared|].
  split; [exact lat_lon_declared|].
  split; [exact gps_altitude_declared|].
  split; [exact acc_gyro_declared|].
  split; [exact adc_declared|].
  split; [exact baro_temperature_declared|].
  split; [exact pressure_declared|].
  exact mag_declared.
Qed.

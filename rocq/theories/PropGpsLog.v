(** * C97: the GPS delta log. *)
From Coq Require Import ZArith Reals Lra Lia Psatz Bool List.
From Flocq Require Import Core Relative Plus_error BinarySingleNaN.
From Verif Require Import FloatFixed FloatErr PropFloat PropFactory SensorDelta PropSensors.
Import ListNotations.
Local Open Scope R_scope.

(** [x as f32] *)
Lemma narrow_finite (x : f64) : is_finite (narrow x) = true -> is_finite x = true /\ B2R (narrow x) = rnd32 (B2R x).
Proof.
  destruct x as [s|s| |s m ex B]; try discriminate.
  - intros _. split; [reflexivity|]. cbn. symmetry. apply round_0. apply valid_rnd_N.
  - cbn [narrow]. intros F. split; [reflexivity|].
    pose proof (binary_normalize_correct 24 128 prec24 emax24 mode_NE (cond_Zopp s (Zpos m)) ex s) as C. cbv zeta in C. cbn [round_mode] in C.
    destruct (Rlt_bool _ _); [exact (proj1 C)|].
    destruct (binary_normalize 24 128 prec24 emax24 mode_NE (cond_Zopp s (Zpos m)) ex s); try discriminate F; cbn in C; discriminate C.
Qed.

Lemma narrow_not_nan (x : f64) : is_nan x = false -> is_nan (narrow x) = false.
Proof.
  destruct x as [s|s| |s m ex B]; try discriminate; try reflexivity. intros _. cbn [narrow].
  pose proof (binary_normalize_correct 24 128 prec24 emax24 mode_NE (cond_Zopp s (Zpos m)) ex s) as C. cbv zeta in C. cbn [round_mode] in C.
  destruct (Rlt_bool _ _).
  - destruct C as (_ & C & _). destruct (binary_normalize _ _ _ _ _ _ _ _); try discriminate C; reflexivity.
  - destruct (binary_normalize 24 128 prec24 emax24 mode_NE (cond_Zopp s (Zpos m)) ex s); try reflexivity; cbn in C; discriminate C.
Qed.

(** one step of a latitude or longitude: the difference is taken in f64, coded
    in f32, and added back in f64 *)
Lemma latlon_step (f : fx 24 128) e (v l : f64) n : declared f e -> e <= bpow radix2 124 ->
  fx_encode f (narrow (Bminus mode_NE v l)) = FxCode n -> Rabs (B2R v) <= bpow radix2 1000 ->
  is_finite (Bplus mode_NE l (widen (fx_decode f n))) = true /\
  Rabs (B2R (Bplus mode_NE l (widen (fx_decode f n))) - B2R v) <=
    e + bpow radix2 (-24) * (e + 3 * reach 24 128 f) + bpow radix2 (-53) * Rabs (B2R v) + 2 * bpow radix2 (-149).
Proof.
  intros Dc He H Hv. destruct (encode_code 24 128 prec24 emax24 f e _ n Dc H) as (Fw & Hw).
  destruct (narrow_finite _ Fw) as (Fd & Ew). destruct (minus_finite 53 1024 prec53 emax53 v l Fd) as (Fv & Fl).
  pose proof (minus_value 53 1024 prec53 emax53 v l Fd) as Ed.
  pose proof (C34_quantisation_ieee_partial 24 128 prec24 emax24 f e Dc) as (IN & _).
  destruct (IN _ Fw Hw) as (n' & E & _ & Fdec & G). rewrite H in E. injection E as <-.
  set (w := narrow (Bminus mode_NE v l)) in *. set (d64 := Bminus mode_NE v l) in *. set (dec := fx_decode f n) in *.
  destruct (widen_ok dec Fdec) as (Fwd & Ewd).
  pose proof (declared_pos _ _ f e Dc) as E0.
  set (W := reach 24 128 f). assert (W0 : 0 <= W) by apply reach_pos. assert (Ww : Rabs (B2R w) <= W).
  { unfold W, reach. apply Rabs_le. pose proof (Rmax_l (Rabs (B2R (fx_min f))) (Rabs (B2R (fx_max f)))). pose proof (Rmax_r (Rabs (B2R (fx_min f))) (Rabs (B2R (fx_max f)))).
    pose proof (Rle_abs (B2R (fx_max f))). pose proof (Rle_abs (- B2R (fx_min f))) as A. rewrite Rabs_Ropp in A. lra. }
  assert (WB : W <= bpow radix2 124) by (unfold W, reach; apply Rmax_lub; [apply (dc_big_min f e Dc)|apply (dc_big_max f e Dc)]).
  assert (U32 : bpow radix2 (-24) = / 16777216) by reflexivity. assert (U64 : uro 53 = bpow radix2 (-53)) by apply uro_eq.
  assert (U64' : bpow radix2 (-53) <= / 1000000000 * / 1000).
  { change (bpow radix2 (-53)) with (/ 9007199254740992). lra. }
  pose proof (bpow_gt_0 radix2 (-53)) as U0.
  set (h := eta 24 128). set (h6 := eta 53 1024).
  assert (N1 : 2 * bpow radix2 (-149) = 4 * h) by (unfold h, eta; change (SpecFloat.emin 24 128) with (-149)%Z; field).
  assert (h0 : 0 < h) by apply eta_pos. assert (h60 : 0 < h6) by apply eta_pos.
  assert (hh : h6 <= / 1000 * h).
  { unfold h, h6, eta. change (SpecFloat.emin 24 128) with (-149)%Z. change (SpecFloat.emin 53 1024) with (-1074)%Z.
    assert (bpow radix2 (-1074) <= bpow radix2 (-10) * bpow radix2 (-149)) by (rewrite <- bpow_plus; apply bpow_le; lia).
    change (bpow radix2 (-10)) with (/ 1024) in H0. pose proof (bpow_gt_0 radix2 (-149)). lra. }
  assert (hB : h <= 1).
  { unfold h, eta. assert (bpow radix2 (SpecFloat.emin 24 128) <= bpow radix2 0) by (apply bpow_le; vm_compute; discriminate). change (bpow radix2 0) with 1 in *. lra. }
  set (D := B2R v - B2R l) in *.
  pose proof (rnd_err 24 128 prec24 (B2R d64)) as R1. rewrite <- Ew in R1. change (uro 24) with (/ 2 * bpow radix2 (1 - 24)) in R1.
  replace (/ 2 * bpow radix2 (1 - 24)) with (/ 16777216) in R1 by (change (bpow radix2 (1 - 24)) with (/ 8388608); lra). fold h in R1.
  pose proof (rnd_err 53 1024 prec53 D) as R2. rewrite <- Ed, U64 in R2. fold h6 in R2.
  assert (DW : Rabs (B2R d64) <= 3 / 2 * W + 3 / 2 * h).
  { pose proof (Rabs_triang_inv (B2R d64) (B2R d64 - B2R w)) as T. replace (B2R d64 - (B2R d64 - B2R w)) with (B2R w) in T by ring. rewrite (Rabs_minus_sym (B2R d64) (B2R w)) in T. lra. }
  assert (DD : Rabs D <= 2 * W + 3 * h).
  { pose proof (Rabs_triang_inv D (D - B2R d64)) as T. replace (D - (D - B2R d64)) with (B2R d64) in T by ring. rewrite (Rabs_minus_sym D (B2R d64)) in T.
    assert (bpow radix2 (-53) * Rabs D <= / 1000000000 * / 1000 * Rabs D) by (apply Rmult_le_compat_r; [apply Rabs_pos|exact U64']). lra. }
  assert (uD : bpow radix2 (-53) * Rabs D <= / 1000000000 * / 1000 * (2 * W + 3 * h)).
  { apply Rmult_le_compat; [lra|apply Rabs_pos|exact U64'|exact DD]. }
  pose (k := e + / 16777216 * (2 * W) + 2 * h).
  assert (K : Rabs (B2R l + B2R (widen dec) - B2R v) <= k).
  { rewrite Ewd. replace (B2R l + B2R dec - B2R v) with ((B2R dec - B2R w) + (B2R w - B2R d64) + (B2R d64 - D)) by (unfold D; ring).
    eapply Rle_trans; [apply Rabs_triang|]. pose proof (Rabs_triang (B2R dec - B2R w) (B2R w - B2R d64)). unfold k. lra. }
  assert (B124 : bpow radix2 124 <= bpow radix2 1000) by (apply bpow_le; lia).
  assert (B1023 : bpow radix2 (1024 - 1) = 8388608 * bpow radix2 1000) by (change 8388608 with (bpow radix2 23); rewrite <- bpow_plus; reflexivity).
  assert (B1000 : 1 <= bpow radix2 1000) by (change 1 with (bpow radix2 0); apply bpow_le; lia).
  destruct (add_step 53 1024 prec53 emax53 l (widen dec) (B2R v) k Fl Fwd K) as (F1 & E1).
  { rewrite B1023. unfold k. lra. }
  split; [exact F1|]. eapply Rle_trans; [exact E1|]. fold h6. rewrite U64, N1, U32. fold W.
  rewrite Rmult_plus_distr_l.
  assert (uk : bpow radix2 (-53) * k <= / 1000000000 * / 1000 * k) by (apply Rmult_le_compat_r; [unfold k; lra|exact U64']).
  unfold k in *. lra.
Qed.

(** ** Specification of usable GPS readings and of a faithful decoded reading *)
Definition usable64 (v : f64) : Prop := is_finite v = true /\ Rabs (B2R v) <= bpow radix2 1000.
Definition within64 (f : fx 24 128) (e : R) (v r : f64) : Prop :=
  is_finite r = true /\
  Rabs (B2R r - B2R v) <= e + bpow radix2 (-24) * (e + 3 * reach 24 128 f) + bpow radix2 (-53) * Rabs (B2R v) + 2 * bpow radix2 (-149).
Definition ifsome {A} (P : A -> Prop) (o : option A) : Prop := match o with Some a => P a | None => True end.
Definition both {A} (P : A -> A -> Prop) (o o' : option A) : Prop :=
  match o, o' with Some a, Some b => P a b | None, None => True | _, _ => False end.

Definition gps_usable (g : gps) : Prop :=
  ifsome (fun t => - 2 ^ 62 <= t < 2 ^ 62)%Z (g_time g) /\ (0 <= g_sats g < 128)%Z /\
  ifsome (fun p => usable64 (fst p) /\ usable64 (snd p)) (g_latlon g) /\
  ifsome usable (g_alt g) /\ ifsome usable (g_hdop g) /\ ifsome usable (g_vdop g) /\ ifsome usable (g_pdop g).

(** the GPS clock does not run backwards *)
Definition time_forward (p v : gps) : Prop := match g_time p, g_time v with Some a, Some b => (a <= b)%Z | _, _ => True end.

Definition gps_near (v r : gps) : Prop :=
  g_time r = g_time v /\ g_sats r = g_sats v /\
  both (fun p q => within64 lat_lon_fac (5 / 1000000) (fst p) (fst q) /\ within64 lat_lon_fac (5 / 1000000) (snd p) (snd q)) (g_latlon v) (g_latlon r) /\
  both (within gps_altitude_fac (1 / 2)) (g_alt v) (g_alt r) /\
  both (within dop_fac (1 / 10)) (g_hdop v) (g_hdop r) /\ both (within dop_fac (1 / 10)) (g_vdop v) (g_vdop r) /\
  both (within dop_fac (1 / 10)) (g_pdop v) (g_pdop r).

Definition gps_log : deltableR gps gps_delta := gpsD lat_lon_fac gps_altitude_fac dop_fac.

Lemma within_refl f e v : 0 <= e -> is_finite v = true -> within f e v v.
Proof.
  intros E0 F. split; [exact F|]. replace (B2R v - B2R v) with 0 by ring. rewrite Rabs_R0.
  pose proof (bpow_gt_0 radix2 (-24)) as P. pose proof (bpow_gt_0 radix2 (-149)). pose proof (Rabs_pos (B2R v)). pose proof (reach_pos f).
  assert (0 <= bpow radix2 (-24) * (Rabs (B2R v) + e + 3 * reach 24 128 f)) by (apply Rmult_le_pos; lra). lra.
Qed.
Lemma within64_refl f e v : 0 <= e -> is_finite v = true -> within64 f e v v.
Proof.
  intros E0 F. split; [exact F|]. replace (B2R v - B2R v) with 0 by ring. rewrite Rabs_R0.
  pose proof (bpow_gt_0 radix2 (-24)) as P. pose proof (bpow_gt_0 radix2 (-53)). pose proof (bpow_gt_0 radix2 (-149)). pose proof (Rabs_pos (B2R v)). pose proof (reach_pos f).
  assert (0 <= bpow radix2 (-24) * (e + 3 * reach 24 128 f)) by (apply Rmult_le_pos; lra).
  assert (0 <= bpow radix2 (-53) * Rabs (B2R v)) by (apply Rmult_le_pos; lra). lra.
Qed.

Lemma enc_case (f : fx 24 128) e w : declared f e -> is_nan w = false ->
  enc f w = RNone \/ exists n, enc f w = RSome n /\ fx_encode f w = FxCode n.
Proof.
  intros Dc N. pose proof (encode_no_panic 24 128 prec24 emax24 f e w Dc N) as P. unfold enc.
  destruct (fx_encode f w) as [|n|]; [left; reflexivity|right; exists n; split; reflexivity|congruence].
Qed.

Lemma scalar_field f e v l : declared f e -> e <= bpow radix2 124 -> usable v -> is_finite l = true ->
  enc f (Bminus mode_NE v l) = RNone \/
  exists n, enc f (Bminus mode_NE v l) = RSome n /\ within f e v (Bplus mode_NE l (fx_decode f n)).
Proof.
  intros Dc He [Fv Bv] Fl. destruct (enc_case f e (Bminus mode_NE v l) Dc (minus_not_nan 24 128 prec24 emax24 v l Fv Fl)) as [A|(n & A & B)]; [left; exact A|right].
  exists n. split; [exact A|]. destruct (step_near 24 128 prec24 emax24 f e v l n Dc He B Bv) as (_ & _ & F & G). split; assumption.
Qed.
Lemma latlon_field f e v l : declared f e -> e <= bpow radix2 124 -> usable64 v -> is_finite l = true ->
  enc f (narrow (Bminus mode_NE v l)) = RNone \/
  exists n, enc f (narrow (Bminus mode_NE v l)) = RSome n /\ within64 f e v (Bplus mode_NE l (widen (fx_decode f n))).
Proof.
  intros Dc He [Fv Bv] Fl.
  destruct (enc_case f e (narrow (Bminus mode_NE v l)) Dc (narrow_not_nan _ (minus_not_nan 53 1024 prec53 emax53 v l Fv Fl))) as [A|(n & A & B)]; [left; exact A|right].
  exists n. split; [exact A|]. destruct (latlon_step f e v l n Dc He B Bv) as (F & G). split; assumption.
Qed.

(** one step: either the delta is refused (and the full reading is stored), or
    the reading is rebuilt *)
Lemma gps_step p l v : gps_usable p -> gps_near p l -> gps_usable v -> time_forward p v ->
  gps_sub lat_lon_fac gps_altitude_fac dop_fac v l = RNone \/
  exists x r, gps_sub lat_lon_fac gps_altitude_fac dop_fac v l = RSome x /\ gps_add lat_lon_fac gps_altitude_fac dop_fac l x = RSome r /\ gps_near v r.
Proof.
  intros (PT & PS & _ & _) (LT & LS & LL & LA & LH & LV & LP) (VT & VS & VL & VA & VH & VV & VP) TF.
  assert (BIG : forall x, x <= 1 -> x <= bpow radix2 124).
  { intros x Hx. eapply Rle_trans; [exact Hx|]. change 1 with (bpow radix2 0). apply bpow_le. lia. }
  assert (D1 := proj1 lat_lon_declared). assert (D2 := proj1 gps_altitude_declared). assert (D3 := proj1 dop_declared).
  destruct p as [pt pll pal psat ph pv pp]. destruct l as [lt lll lal lsat lh lv lp]. destruct v as [vt vll val vsat vh vv vp].
  unfold time_forward in TF. cbn [g_time g_latlon g_alt g_sats g_hdop g_vdop g_pdop] in *. subst lt lsat.
  unfold gps_sub, gps_add. cbn [g_time g_latlon g_alt g_sats g_hdop g_vdop g_pdop].
  destruct vt as [tv|]; [|left; reflexivity]. destruct pt as [tl|]; [|left; reflexivity]. cbn [optR bindR ifsome] in *.
  assert (I1 : i64 (tv - tl) = RSome (tv - tl)%Z).
  { unfold i64. destruct (Z.leb_spec (- 2 ^ 63) (tv - tl)); [|lia]. destruct (Z.ltb_spec (tv - tl) (2 ^ 63)); [reflexivity|lia]. }
  rewrite I1. cbn [bindR]. destruct (Z.ltb_spec 255 (tv - tl)) as [|T255]; [left; reflexivity|].
  assert (AS : forall z, (0 <= z < 128)%Z -> as_i8 z = z) by (intros z Hz; unfold as_i8; destruct (Z.ltb_spec z 128); [reflexivity|lia]).
  rewrite (AS vsat VS), (AS psat PS).
  assert (I2 : i8 (vsat - psat) = RSome (vsat - psat)%Z).
  { unfold i8. destruct (Z.leb_spec (-128) (vsat - psat)); [|lia]. destruct (Z.ltb_spec (vsat - psat) 128); [reflexivity|lia]. }
  rewrite I2. cbn [bindR].
  (* the satellite code, and what it adds back *)
  assert (SAT : (if (vsat - psat =? 0)%Z then RSome 0%Z else if (vsat - psat =? 1)%Z then RSome 1%Z else if (vsat - psat =? -1)%Z then RSome 2%Z else if (vsat - psat =? -2)%Z then RSome 3%Z else RNone) = RNone \/
    exists c, (if (vsat - psat =? 0)%Z then RSome 0%Z else if (vsat - psat =? 1)%Z then RSome 1%Z else if (vsat - psat =? -1)%Z then RSome 2%Z else if (vsat - psat =? -2)%Z then RSome 3%Z else RNone) = RSome c /\
      (if (c =? 0)%Z then RSome psat else if (c =? 1)%Z then u8 (psat + 1) else if (c =? 2)%Z then RSome (if (1 <=? psat)%Z then (psat - 1)%Z else 0%Z)
       else if (c =? 3)%Z then RSome (if (2 <=? psat)%Z then (psat - 2)%Z else 0%Z) else RPanic) = RSome vsat).
  { destruct (Z.eqb_spec (vsat - psat) 0); [right; exists 0%Z; split; [reflexivity|cbn [Z.eqb]; f_equal; lia]|].
    destruct (Z.eqb_spec (vsat - psat) 1); [right; exists 1%Z; split; [reflexivity|cbn [Z.eqb Pos.eqb]; unfold u8; destruct (Z.leb_spec 0 (psat + 1)); [|lia]; destruct (Z.ltb_spec (psat + 1) 256); [|lia]; cbn [andb]; f_equal; lia]|].
    destruct (Z.eqb_spec (vsat - psat) (-1)); [right; exists 2%Z; split; [reflexivity|cbn [Z.eqb Pos.eqb]; destruct (Z.leb_spec 1 psat); [|lia]; f_equal; lia]|].
    destruct (Z.eqb_spec (vsat - psat) (-2)); [right; exists 3%Z; split; [reflexivity|cbn [Z.eqb Pos.eqb]; destruct (Z.leb_spec 2 psat); [|lia]; f_equal; lia]|].
    left. reflexivity. }
  destruct SAT as [SAT|(c & SAT & SADD)]; rewrite SAT; [left; reflexivity|]. cbn [bindR].
  destruct vll as [[vla vlo]|]; [|left; reflexivity]. destruct pll as [[pla plo]|]; destruct lll as [[lla llo]|]; try contradiction; [|left; reflexivity].
  cbn [optR bindR ifsome both fst snd] in *. destruct VL as [VLa VLo]. destruct LL as [[FLa _] [FLo _]].
  destruct (latlon_field lat_lon_fac (5 / 1000000) vla lla D1 (BIG (5 / 1000000) ltac:(lra)) VLa FLa) as [E|(nla & E & Wla)]; rewrite E; [left; reflexivity|]. cbn [bindR].
  destruct (latlon_field lat_lon_fac (5 / 1000000) vlo llo D1 (BIG (5 / 1000000) ltac:(lra)) VLo FLo) as [E1|(nlo & E1 & Wlo)]; rewrite E1; [left; reflexivity|]. cbn [bindR].
  destruct val as [va|]; [|left; reflexivity]. destruct pal as [pa|]; destruct lal as [la|]; try contradiction; [|left; reflexivity]. cbn [optR bindR ifsome both] in *.
  destruct (scalar_field gps_altitude_fac (1 / 2) va la D2 (BIG (1 / 2) ltac:(lra)) VA (proj1 LA)) as [E2|(na & E2 & Wa)]; rewrite E2; [left; reflexivity|]. cbn [bindR].
  destruct vh as [va1|]; [|left; reflexivity]. destruct ph as [pa1|]; destruct lh as [la1|]; try contradiction; [|left; reflexivity]. cbn [optR bindR ifsome both] in *.
  destruct (scalar_field dop_fac (1 / 10) va1 la1 D3 (BIG (1 / 10) ltac:(lra)) VH (proj1 LH)) as [E3|(n1 & E3 & W1)]; rewrite E3; [left; reflexivity|]. cbn [bindR].
  destruct vv as [va2|]; [|left; reflexivity]. destruct pv as [pa2|]; destruct lv as [la2|]; try contradiction; [|left; reflexivity]. cbn [optR bindR ifsome both] in *.
  destruct (scalar_field dop_fac (1 / 10) va2 la2 D3 (BIG (1 / 10) ltac:(lra)) VV (proj1 LV)) as [E4|(n2 & E4 & W2)]; rewrite E4; [left; reflexivity|]. cbn [bindR].
  destruct vp as [va3|]; [|left; reflexivity]. destruct pp as [pa3|]; destruct lp as [la3|]; try contradiction; [|left; reflexivity]. cbn [optR bindR ifsome both] in *.
  destruct (scalar_field dop_fac (1 / 10) va3 la3 D3 (BIG (1 / 10) ltac:(lra)) VP (proj1 LP)) as [E5|(n3 & E5 & W3)]; rewrite E5; [left; reflexivity|]. cbn [bindR].
  right. eexists. eexists. split; [reflexivity|]. cbn [gd_time gd_lat gd_lon gd_alt gd_sats gd_hdop gd_vdop gd_pdop fst snd].
  rewrite SADD. cbn [bindR].
  assert (TM : ((tv - tl) mod 256 = tv - tl)%Z) by (apply Z.mod_small; lia). rewrite TM.
  assert (I3 : i64 (tl + (tv - tl)) = RSome tv).
  { unfold i64. destruct (Z.leb_spec (- 2 ^ 63) (tl + (tv - tl))); [|lia]. destruct (Z.ltb_spec (tl + (tv - tl)) (2 ^ 63)); [cbn [andb]; f_equal; lia|lia]. }
  rewrite I3. cbn [bindR]. split; [reflexivity|].
  unfold gps_near. cbn [g_time g_latlon g_alt g_sats g_hdop g_vdop g_pdop both fst snd].
  split; [reflexivity|]. split; [reflexivity|]. split; [split; assumption|]. split; [assumption|]. split; [assumption|]. split; assumption.
Qed.

Lemma gps_refl v : gps_usable v -> gps_near v v.
Proof.
  intros (VT & VS & VL & VA & VH & VV & VP). unfold gps_near.
  split; [reflexivity|]. split; [reflexivity|].
  split; [destruct (g_latlon v) as [[a b]|]; cbn in *; [split; apply within64_refl; try lra; apply VL|trivial]|].
  split; [destruct (g_alt v); cbn in *; [apply within_refl; [lra|apply VA]|trivial]|].
  split; [destruct (g_hdop v); cbn in *; [apply within_refl; [lra|apply VH]|trivial]|].
  split; [destruct (g_vdop v); cbn in *; [apply within_refl; [lra|apply VV]|trivial]|].
  destruct (g_pdop v); cbn in *; [apply within_refl; [lra|apply VP]|trivial].
Qed.

(** ** C97.  For every sequence of usable GPS readings whose clock does not run
    backwards: the log is written without a panic and decodes to as many
    readings, with the same timestamps, satellite counts and missing fields, and
    every number within its declared error.  (Missing from the English claim:
    clocks that step backwards, see below.) *)
Theorem C97_gps_log_partial : forall vs, Forall gps_usable vs -> consecutive time_forward vs -> faithful gps_log gps_near vs.
Proof.
  intros vs Hok Hc. refine (log_all gps_log gps_usable time_forward gps_near _ vs Hok Hc). constructor.
  - exact gps_refl.
  - intros p l v Hp Hl Hv Ha. cbn [sub gps_log gpsD].
    destruct (gps_step p l v Hp Hl Hv Ha) as [E|(x & r & E & _)]; rewrite E; discriminate.
  - intros p l v x Hp Hl Hv Ha. cbn [sub add gps_log gpsD]. intros H.
    destruct (gps_step p l v Hp Hl Hv Ha) as [E|(x' & r & E & E2 & N)]; rewrite E in H; [discriminate|]. injection H as <-. exists r. split; assumption.
Qed.

(** A clock that steps back is recorded wrong: whenever such a delta is stored,
    the decoded timestamp is ahead of the logged one, by a multiple of 256 s. *)
Theorem C97_refuted_backwards : forall l v x r tl tv, g_time l = Some tl -> g_time v = Some tv -> (tv < tl)%Z ->
  sub gps_log v l = RSome x -> add gps_log l x = RSome r ->
  exists t k, g_time r = Some t /\ (t = tv + 256 * k)%Z /\ (1 <= k)%Z.
Proof.
  intros l v x r tl tv Hl Hv Hlt. cbn [sub add gps_log gpsD]. unfold gps_sub, gps_add. rewrite Hl, Hv. cbn [optR bindR].
  intros H1 H2. unfold i64 in H1 at 1. destruct ((- 2 ^ 63 <=? tv - tl)%Z && (tv - tl <? 2 ^ 63)%Z); [|discriminate]. cbn [bindR] in H1.
  destruct (255 <? tv - tl)%Z; [discriminate|].
  assert (TX : gd_time x = ((tv - tl) mod 256)%Z).
  { revert H1. repeat (match goal with |- bindR ?a _ = _ -> _ => destruct a; cbn [bindR]; try discriminate end). intros H. injection H as <-. reflexivity. }
  revert H2. rewrite TX. match goal with |- bindR ?a _ = _ -> _ => destruct a; cbn [bindR]; try discriminate end.
  unfold i64. destruct ((- 2 ^ 63 <=? tl + (tv - tl) mod 256)%Z && (tl + (tv - tl) mod 256 <? 2 ^ 63)%Z); cbn [bindR]; [|discriminate].
  repeat (match goal with |- bindR ?a _ = _ -> _ => destruct a; cbn [bindR]; try discriminate end). intros H. injection H as <-. cbn [g_time].
  exists (tl + (tv - tl) mod 256)%Z, (- ((tv - tl) / 256))%Z. split; [reflexivity|].
  pose proof (Z.div_mod (tv - tl) 256 ltac:(lia)) as DM. assert ((tv - tl) / 256 <= -1)%Z by (assert ((tv - tl) / 256 < 0)%Z by (apply Z.div_lt_upper_bound; lia); lia). lia.
Qed.

(** such a delta is stored: the clock steps back by five seconds, nothing else
    changes, and the log says 251 seconds later *)
Definition a_fix (t : Z) : gps :=
  Gps (Some t) (Some (widen (lit 4326 2), widen (lit (-7992) 2))) (Some (lit 95 0)) 9 (Some (lit 12 1)) (Some (lit 2 0)) (Some (lit 23 1)).
Definition time_code (x : res gps_delta) : option Z := match x with RSome d => Some (gd_time d) | _ => None end.
Definition time_of (x : res gps) : option Z := match x with RSome g => g_time g | _ => None end.
Theorem C97_backwards_instance :
  time_code (sub gps_log (a_fix 1700000000) (a_fix 1700000005)) = Some 251%Z /\
  time_of (bindR (sub gps_log (a_fix 1700000000) (a_fix 1700000005)) (add gps_log (a_fix 1700000005))) = Some 1700000256%Z.
Proof. split; vm_compute; reflexivity. Qed.

Lemma B125 : 100000 <= bpow radix2 125.
Proof. eapply Rle_trans; [|apply (bpow_le radix2 17 125); lia]. rewrite bpow_pos. cbn [Z.pow Z.pow_pos Pos.iter Z.mul Pos.mul]. lra. Qed.
Ltac is_usable x := value x; split; [assumption|eapply Rle_trans; [|apply B125]; numbers].

(** the hypotheses of C96 and C97 hold of ordinary readings, and deltas are used *)
Definition kinds {A X} (o : option (list (A + X))) : option (list (option X)) :=
  option_map (map (fun e => match e with inr x => Some x | inl _ => None end)) o.
Theorem C96_instance :
  Forall usable [lit 20 0; lit 2005 2; lit 30 0] /\
  kinds (push_all (adcD adc_fac) None [lit 20 0; lit 2005 2; lit 30 0]) = Some [None; Some 95%Z; None].
Proof.
  split; [|vm_compute; reflexivity].
  constructor; [is_usable (lit 20 0)|]. constructor; [is_usable (lit 2005 2)|]. constructor; [is_usable (lit 30 0)|constructor].
Qed.

Lemma widen_usable x : usable x -> usable64 (widen x).
Proof.
  intros [F B]. destruct (widen_ok x F) as (F' & E). split; [exact F'|]. rewrite E. eapply Rle_trans; [exact B|]. apply bpow_le. lia.
Qed.

Theorem C97_instance : Forall gps_usable [a_fix 1700000000; a_fix 1700000001] /\ consecutive time_forward [a_fix 1700000000; a_fix 1700000001] /\
  option_map (map (option_map gd_time)) (kinds (push_all gps_log None [a_fix 1700000000; a_fix 1700000001])) = Some [None; Some 1%Z].
Proof.
  assert (U : forall t, (- 2 ^ 62 <= t < 2 ^ 62)%Z -> gps_usable (a_fix t)).
  { intros t Ht. split; [exact Ht|]. split; [cbn; lia|].
    split; [split; apply widen_usable; [is_usable (lit 4326 2)|is_usable (lit (-7992) 2)]|].
    split; [cbn [a_fix g_alt ifsome]; is_usable (lit 95 0)|]. split; [cbn [a_fix g_hdop ifsome]; is_usable (lit 12 1)|].
    split; [cbn [a_fix g_vdop ifsome]; is_usable (lit 2 0)|cbn [a_fix g_pdop ifsome]; is_usable (lit 23 1)]. }
  split; [constructor; [apply U; lia|constructor; [apply U; lia|constructor]]|].
  split; [split; [cbn; lia|split; exact Logic.I]|]. vm_compute. reflexivity.
Qed.

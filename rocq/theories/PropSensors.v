(** * C33 in IEEE arithmetic: what the delta logs of the actual sensors decode to. *)
From Coq Require Import ZArith Reals Lra Lia Psatz Bool List.
From Flocq Require Import Core Relative Plus_error BinarySingleNaN.
From Verif Require Import FloatFixed FloatErr PropFloat PropFactory SensorDelta.
Import ListNotations.
Local Open Scope R_scope.

Section Step.
Variable prec emax : Z.
Context (Hprec : Prec_gt_0 prec) (Hemax : Prec_lt_emax prec emax).
Notation float := (binary_float prec emax).
Notation fexp := (SpecFloat.fexp prec emax).
Notation rnd := (round radix2 fexp ZnearestE).

(** the largest bound of the range *)
Definition reach (f : fx prec emax) : R := Rmax (Rabs (B2R (fx_min f))) (Rabs (B2R (fx_max f))).

(** a code is given only to finite values of the range *)
Lemma encode_code (f : fx prec emax) e (w : float) n : declared f e -> fx_encode f w = FxCode n ->
  is_finite w = true /\ B2R (fx_min f) <= B2R w <= B2R (fx_max f).
Proof.
  intros Dc H.
  pose proof (C34_quantisation_ieee_partial prec emax Hprec Hemax f e Dc) as (_ & OUT & INF & _).
  destruct w as [s|s| |s m ex B] eqn:E.
  - rewrite <- E in *. assert (F : is_finite w = true) by (rewrite E; reflexivity). split; [exact F|].
    destruct (Rle_or_lt (B2R (fx_min f)) (B2R w)) as [A|A]; [|rewrite (OUT w F (or_introl A)) in H; discriminate].
    destruct (Rle_or_lt (B2R w) (B2R (fx_max f))) as [C|C]; [|rewrite (OUT w F (or_intror C)) in H; discriminate]. split; assumption.
  - rewrite INF in H. discriminate.
  - rewrite (proj1 (C34_refuted_nan_ieee prec emax Hprec Hemax f (dc_min f e Dc) (dc_max f e Dc))) in H. discriminate.
  - rewrite <- E in *. assert (F : is_finite w = true) by (rewrite E; reflexivity). split; [exact F|].
    destruct (Rle_or_lt (B2R (fx_min f)) (B2R w)) as [A|A]; [|rewrite (OUT w F (or_introl A)) in H; discriminate].
    destruct (Rle_or_lt (B2R w) (B2R (fx_max f))) as [C|C]; [|rewrite (OUT w F (or_intror C)) in H; discriminate]. split; assumption.
Qed.

Lemma encode_no_panic (f : fx prec emax) e (w : float) : declared f e -> is_nan w = false -> fx_encode f w <> FxPanic.
Proof.
  intros Dc H. pose proof (C34_quantisation_ieee_partial prec emax Hprec Hemax f e Dc) as (IN & OUT & INF & _).
  destruct (is_finite w) eqn:F.
  - destruct (Rle_or_lt (B2R (fx_min f)) (B2R w)) as [A|A]; [|rewrite (OUT w F (or_introl A)); discriminate].
    destruct (Rle_or_lt (B2R w) (B2R (fx_max f))) as [C|C]; [|rewrite (OUT w F (or_intror C)); discriminate].
    destruct (IN w F (conj A C)) as (n & E & _). rewrite E. discriminate.
  - destruct w; try discriminate. rewrite INF. discriminate.
Qed.

Lemma minus_finite (v l : float) : is_finite (Bminus mode_NE v l) = true -> is_finite v = true /\ is_finite l = true.
Proof. destruct v as [[]|[]| |[]], l as [[]|[]| |[]]; intros H; try discriminate H; split; reflexivity. Qed.

Lemma minus_not_nan (v l : float) : is_finite v = true -> is_finite l = true -> is_nan (Bminus mode_NE v l) = false.
Proof.
  intros Fv Fl. pose proof (Bminus_correct prec emax Hprec Hemax mode_NE v l Fv Fl) as C.
  destruct (Rlt_bool _ _).
  - destruct C as (_ & C & _). destruct (Bminus mode_NE v l); try discriminate; reflexivity.
  - destruct C as (C & _). destruct (Bminus mode_NE v l); try reflexivity. cbn in C. discriminate C.
Qed.

(** a finite difference is the rounded difference *)
Lemma minus_value (v l : float) : is_finite (Bminus mode_NE v l) = true -> B2R (Bminus mode_NE v l) = rnd (B2R v - B2R l).
Proof.
  intros F. destruct (minus_finite v l F) as (Fv & Fl). pose proof (Bminus_correct prec emax Hprec Hemax mode_NE v l Fv Fl) as C.
  destruct (Rlt_bool _ _); [tauto|]. destruct C as (C & _). destruct (Bminus mode_NE v l); try discriminate F; cbn in C; discriminate C.
Qed.

(** the reconstructed value, from a difference [w] of the format, known up to [k] *)
Lemma add_step (l dec : float) (v k : R) : is_finite l = true -> is_finite dec = true ->
  Rabs (B2R l + B2R dec - v) <= k -> Rabs v + k <= bpow radix2 (emax - 1) ->
  is_finite (Bplus mode_NE l dec) = true /\
  Rabs (B2R (Bplus mode_NE l dec) - v) <= k + uro prec * (Rabs v + k) + eta prec emax.
Proof.
  intros Fl Fd H B.
  assert (A : Rabs (B2R l + B2R dec) <= Rabs v + k).
  { replace (B2R l + B2R dec) with (v + (B2R l + B2R dec - v)) by ring. eapply Rle_trans; [apply Rabs_triang|]. lra. }
  destruct (plus_ok prec emax Hprec Hemax l dec Fl Fd) as (F1 & E1); [lra|]. split; [exact F1|]. rewrite E1.
  replace (rnd (B2R l + B2R dec) - v) with ((rnd (B2R l + B2R dec) - (B2R l + B2R dec)) + (B2R l + B2R dec - v)) by ring.
  eapply Rle_trans; [apply Rabs_triang|]. pose proof (rnd_err prec emax Hprec (B2R l + B2R dec)) as R.
  pose proof (uro_pos prec) as U. assert (uro prec * Rabs (B2R l + B2R dec) <= uro prec * (Rabs v + k)) by (apply Rmult_le_compat_l; lra). lra.
Qed.

(** ** One step of one field: the error is the declared one plus one rounding of
    the value itself and of the range, whatever the base [l]. *)
Lemma step_near (f : fx prec emax) e (v l : float) n : declared f e -> e <= bpow radix2 (emax - 4) ->
  fx_encode f (Bminus mode_NE v l) = FxCode n -> Rabs (B2R v) <= bpow radix2 (emax - 3) ->
  is_finite v = true /\ is_finite l = true /\ is_finite (Bplus mode_NE l (fx_decode f n)) = true /\
  Rabs (B2R (Bplus mode_NE l (fx_decode f n)) - B2R v) <= e + bpow radix2 (- prec) * (Rabs (B2R v) + e + 3 * reach f) + 2 * bpow radix2 (3 - emax - prec).
Proof.
  intros Dc He H Hv. destruct (encode_code f e _ n Dc H) as (Fw & Hw). destruct (minus_finite v l Fw) as (Fv & Fl).
  pose proof (minus_value v l Fw) as Ew. set (w := Bminus mode_NE v l) in *.
  pose proof (C34_quantisation_ieee_partial prec emax Hprec Hemax f e Dc) as (IN & _).
  destruct (IN w Fw Hw) as (n' & E & _ & Fd & G). rewrite H in E. injection E as <-.
  set (dec := fx_decode f n) in *. split; [exact Fv|split; [exact Fl|]].
  assert (E0 : 0 < e) by (eapply declared_pos; exact Dc).
  set (W := reach f). assert (Ww : Rabs (B2R w) <= W).
  { unfold W, reach. apply Rabs_le. pose proof (Rmax_l (Rabs (B2R (fx_min f))) (Rabs (B2R (fx_max f)))). pose proof (Rmax_r (Rabs (B2R (fx_min f))) (Rabs (B2R (fx_max f)))).
    pose proof (Rle_abs (B2R (fx_max f))). pose proof (Rle_abs (- B2R (fx_min f))) as A. rewrite Rabs_Ropp in A. lra. }
  assert (W0 : 0 <= W) by (eapply Rle_trans; [apply Rabs_pos|exact Ww]).
  assert (WB : W <= bpow radix2 (emax - 4)) by (unfold W, reach; apply Rmax_lub; [apply (dc_big_min f e Dc)|apply (dc_big_max f e Dc)]).
  assert (WU : W <= bpow radix2 (prec - 4) * e) by (unfold W, reach; apply Rmax_lub; [apply (dc_ulp_min f e Dc)|apply (dc_ulp_max f e Dc)]).
  pose proof (dc_prec f e Dc) as HP. pose proof (dc_bits f e Dc) as HB.
  assert (U1 : uro prec = bpow radix2 (- prec)) by apply uro_eq.
  assert (U2 : uro prec <= / 256) by (rewrite U1; change (/ 256) with (bpow radix2 (-8)); apply bpow_le; lia).
  pose proof (uro_pos prec) as U0. pose proof (eta_pos prec emax) as N0.
  assert (N1 : eta prec emax = / 2 * bpow radix2 (3 - emax - prec)) by reflexivity.
  pose proof (dc_tiny f e Dc) as Ht.
  set (u := uro prec) in *. set (h := eta prec emax) in *. rewrite <- U1.
  set (D := B2R v - B2R l) in *. pose proof (rnd_err prec emax Hprec D) as R. rewrite <- Ew in R. fold u h in R.
  assert (DW : Rabs D <= 2 * W + 2 * h).
  { pose proof (Rabs_triang_inv D (D - B2R w)) as T. replace (D - (D - B2R w)) with (B2R w) in T by ring. rewrite (Rabs_minus_sym D (B2R w)) in T.
    assert (u * Rabs D <= / 256 * Rabs D) by (apply Rmult_le_compat_r; [apply Rabs_pos|lra]). lra. }
  assert (uD : u * Rabs D <= u * (2 * W + 2 * h)) by (apply Rmult_le_compat_l; lra).
  assert (uh : u * h <= / 256 * h) by (apply Rmult_le_compat_r; lra).
  pose (k := e + 2 * (u * W) + 2 * h).
  assert (K : Rabs (B2R l + B2R dec - B2R v) <= k).
  { replace (B2R l + B2R dec - B2R v) with ((B2R dec - B2R w) + (B2R w - D)) by (unfold D; ring). eapply Rle_trans; [apply Rabs_triang|]. unfold k. lra. }
  assert (uW : u * W <= / 256 * W) by (apply Rmult_le_compat_r; lra).
  assert (B3 : bpow radix2 (emax - 3) = 2 * bpow radix2 (emax - 4)) by (replace (emax - 3)%Z with (1 + (emax - 4))%Z by lia; rewrite bpow_plus; reflexivity).
  assert (B1 : bpow radix2 (emax - 1) = 8 * bpow radix2 (emax - 4)) by (replace (emax - 1)%Z with (3 + (emax - 4))%Z by lia; rewrite bpow_plus; reflexivity).
  destruct (add_step l dec (B2R v) k Fl Fd K) as (F1 & E1); [unfold k; lra|]. split; [exact F1|].
  eapply Rle_trans; [exact E1|]. fold u h. assert (uk : u * k = u * e + 2 * (u * (u * W)) + 2 * (u * h)) by (unfold k; ring).
  assert (uuW : u * (u * W) <= / 256 * (u * W)) by (apply Rmult_le_compat_r; [apply Rmult_le_pos; lra|lra]).
  assert (uW0 : 0 <= u * W) by (apply Rmult_le_pos; lra).
  rewrite Rmult_plus_distr_l, uk. replace (u * (Rabs (B2R v) + e + 3 * W)) with (u * Rabs (B2R v) + u * e + 3 * (u * W)) by ring.
  rewrite <- (Rmult_1_l (bpow radix2 (3 - emax - prec))). replace (2 * (1 * bpow radix2 (3 - emax - prec))) with (4 * h) by (rewrite N1; field). unfold k. lra.
Qed.
End Step.

(** ** A whole log: encoded then decoded *)

(** [sound d ok adj near]: one step of [d], from any last value [l] near the
    previous reading [p], does not panic and rebuilds a value near the reading. *)
Record sound {A X} (d : deltableR A X) (ok : A -> Prop) (adj near : A -> A -> Prop) : Prop := Sound {
  s_refl : forall v, ok v -> near v v;
  s_nopanic : forall p l v, ok p -> near p l -> ok v -> adj p v -> sub d v l <> RPanic;
  s_step : forall p l v x, ok p -> near p l -> ok v -> adj p v -> sub d v l = RSome x -> exists r, add d l x = RSome r /\ near v r
}.

(** each reading is related to the next *)
Fixpoint consecutive {A} (adj : A -> A -> Prop) (vs : list A) : Prop :=
  match vs with
  | [] => True
  | v :: rest => match rest with [] => True | w :: _ => adj v w end /\ consecutive adj rest
  end.

Section Log.
Context {A X : Type} (d : deltableR A X) (ok : A -> Prop) (adj near : A -> A -> Prop) (Hs : sound d ok adj near).

Lemma log_from : forall vs p l, ok p -> near p l -> Forall ok vs -> consecutive adj (p :: vs) ->
  exists es rs, push_all d (Some l) vs = Some es /\ unpush_all d (Some l) es = Some (map Some rs) /\ Forall2 near vs rs.
Proof.
  induction vs as [|v vs IH]; intros p l Hp Hl Hok Hc; [exists [], []; split; [reflexivity|split; [reflexivity|constructor]]|].
  inversion Hok as [|? ? Ov Os]; subst. destruct Hc as [Ha Hc].
  cbn [push_all push]. destruct (sub d v l) as [| |x] eqn:E.
  - exfalso. exact (s_nopanic _ _ _ _ Hs p l v Hp Hl Ov Ha E).
  - destruct (IH v v Ov (s_refl _ _ _ _ Hs v Ov) Os Hc) as (es & rs & H1 & H2 & H3). rewrite H1. cbn [option_map].
    exists (inl v :: es), (v :: rs). split; [reflexivity|]. cbn [unpush_all unpush]. rewrite H2. split; [reflexivity|].
    constructor; [exact (s_refl _ _ _ _ Hs v Ov)|exact H3].
  - destruct (s_step _ _ _ _ Hs p l v x Hp Hl Ov Ha E) as (r & Ea & Hn). rewrite Ea.
    destruct (IH v r Ov Hn Os Hc) as (es & rs & H1 & H2 & H3). rewrite H1. cbn [option_map].
    exists (inr x :: es), (r :: rs). split; [reflexivity|]. cbn [unpush_all unpush]. rewrite Ea, H2. split; [reflexivity|].
    constructor; assumption.
Qed.

(** for every sequence of readings the log is written without a panic, decodes
    completely, and every decoded reading is near the one logged *)
Lemma log_all vs : Forall ok vs -> consecutive adj vs ->
  exists es rs, push_all d None vs = Some es /\ unpush_all d None es = Some (map Some rs) /\ Forall2 near vs rs.
Proof.
  destruct vs as [|v vs]; intros Hok Hc; [exists [], []; split; [reflexivity|split; [reflexivity|constructor]]|].
  inversion Hok as [|? ? Ov Os]; subst. cbn [push_all push].
  destruct (log_from vs v v Ov (s_refl _ _ _ _ Hs v Ov) Os Hc) as (es & rs & H1 & H2 & H3). rewrite H1. cbn [option_map].
  exists (inl v :: es), (v :: rs). split; [reflexivity|]. cbn [unpush_all unpush]. rewrite H2. split; [reflexivity|].
  constructor; [exact (s_refl _ _ _ _ Hs v Ov)|exact H3].
Qed.
End Log.

(** ** Fields *)

(** a usable reading: finite, and not within a factor 8 of overflow *)
Definition usable (v : f32) : Prop := is_finite v = true /\ Rabs (B2R v) <= bpow radix2 125.
(** the decoded field is finite and within the declared error plus one rounding
    (of the value, of the error and of the range) *)
Definition within (f : fx 24 128) (e : R) (v r : f32) : Prop :=
  is_finite r = true /\
  Rabs (B2R r - B2R v) <= e + bpow radix2 (- 24) * (Rabs (B2R v) + e + 3 * reach 24 128 f) + 2 * bpow radix2 (-149).
Definition any {A} : A -> A -> Prop := fun _ _ => True.

Lemma reach_pos {prec emax} (f : fx prec emax) : 0 <= reach prec emax f.
Proof. unfold reach. eapply Rle_trans; [apply Rabs_pos|apply Rmax_l]. Qed.

Lemma scalar_sound f e : declared f e -> e <= bpow radix2 124 -> sound (scalarD f) usable any (within f e).
Proof.
  intros Dc He. pose proof (declared_pos _ _ f e Dc) as E0. constructor.
  - intros v [F B]. split; [exact F|]. replace (B2R v - B2R v) with 0 by ring. rewrite Rabs_R0.
    pose proof (bpow_gt_0 radix2 (-24)) as P. pose proof (bpow_gt_0 radix2 (-149)). pose proof (Rabs_pos (B2R v)). pose proof (reach_pos f).
    assert (0 <= bpow radix2 (-24) * (Rabs (B2R v) + e + 3 * reach 24 128 f)) by (apply Rmult_le_pos; lra). lra.
  - intros p l v _ [Fl _] [Fv _] _. cbn [sub scalarD enc]. unfold enc.
    pose proof (encode_no_panic 24 128 prec24 emax24 f e _ Dc (minus_not_nan 24 128 prec24 emax24 v l Fv Fl)) as N.
    destruct (fx_encode f _); [discriminate|discriminate|]. exfalso. apply N. reflexivity.
  - intros p l v x _ [Fl _] [Fv Bv] _. cbn [sub add scalarD]. unfold enc.
    destruct (fx_encode f (Bminus mode_NE v l)) as [|n|] eqn:E; intros H; try discriminate. injection H as <-.
    eexists. split; [reflexivity|]. destruct (step_near 24 128 prec24 emax24 f e v l n Dc He E Bv) as (_ & _ & F & G). split; [exact F|exact G].
Qed.

Lemma pair_sound {A B X Y} (d1 : deltableR A X) (d2 : deltableR B Y) ok1 ok2 near1 near2 :
  sound d1 ok1 any near1 -> sound d2 ok2 any near2 ->
  sound (pairD d1 d2) (fun v => ok1 (fst v) /\ ok2 (snd v)) any (fun v r => near1 (fst v) (fst r) /\ near2 (snd v) (snd r)).
Proof.
  intros [R1 N1 S1] [R2 N2 S2]. constructor.
  - intros v [H1 H2]. split; auto.
  - intros p l v [P1 P2] [L1 L2] [V1 V2] _. cbn [sub pairD]. unfold bindR.
    pose proof (N1 _ _ _ P1 L1 V1 Logic.I) as M1. pose proof (N2 _ _ _ P2 L2 V2 Logic.I) as M2.
    destruct (sub d1 (fst v) (fst l)); [congruence|discriminate|]. destruct (sub d2 (snd v) (snd l)); [congruence|discriminate|discriminate].
  - intros p l v x [P1 P2] [L1 L2] [V1 V2] _. cbn [sub add pairD]. unfold bindR.
    destruct (sub d1 (fst v) (fst l)) as [| |x1] eqn:E1; try discriminate. destruct (sub d2 (snd v) (snd l)) as [| |x2] eqn:E2; try discriminate.
    intros H. injection H as <-. cbn [fst snd].
    destruct (S1 _ _ _ _ P1 L1 V1 Logic.I E1) as (r1 & A1 & B1). destruct (S2 _ _ _ _ P2 L2 V2 Logic.I E2) as (r2 & A2 & B2).
    rewrite A1, A2. eexists. split; [reflexivity|]. split; assumption.
Qed.

(** ** C96.  For every sequence of usable readings of the ADC, the barometer,
    the IMU and the magnetometer, with the factories the firmware declares:
    encoding never panics, the log decodes to as many readings, and every field
    of every decoded reading is finite and within its declared error (plus one
    f32 rounding of that same reading), no matter how many deltas precede it. *)
Definition all3 {A} (P : A -> Prop) (v : A * (A * A)) := P (fst v) /\ P (fst (snd v)) /\ P (snd (snd v)).
Definition all3r {A} (P : A -> A -> Prop) (v r : A * (A * A)) := P (fst v) (fst r) /\ P (fst (snd v)) (fst (snd r)) /\ P (snd (snd v)) (snd (snd r)).

Definition faithful {A X} (d : deltableR A X) (near : A -> A -> Prop) (vs : list A) : Prop :=
  exists entries decoded, push_all d None vs = Some entries /\ unpush_all d None entries = Some (map Some decoded) /\ Forall2 near vs decoded.

Lemma consecutive_any {A} (vs : list A) : consecutive any vs.
Proof. induction vs as [|v vs IH]; [exact Logic.I|]. split; [destruct vs; exact Logic.I|exact IH]. Qed.

Theorem C96_sensor_logs :
  (forall vs, Forall usable vs -> faithful (adcD adc_fac) (within adc_fac (2 / 1000)) vs) /\
  (forall vs, Forall (fun v => usable (fst v) /\ usable (snd v)) vs ->
     faithful (baroD baro_temperature_fac pressure_fac)
       (fun v r => within baro_temperature_fac (5 / 100) (fst v) (fst r) /\ within pressure_fac 1 (snd v) (snd r)) vs) /\
  (forall vs, Forall (fun v => all3 usable (fst v) /\ all3 usable (snd v)) vs ->
     faithful (imuD acc_gyro_fac acc_gyro_fac)
       (fun v r => all3r (within acc_gyro_fac (1 / 100)) (fst v) (fst r) /\ all3r (within acc_gyro_fac (1 / 100)) (snd v) (snd r)) vs) /\
  (forall vs, Forall (all3 usable) vs -> faithful (magD mag_fac) (all3r (within mag_fac (1 / 10000))) vs).
Proof.
  assert (BIG : forall x, x <= 1 -> x <= bpow radix2 124).
  { intros x Hx. eapply Rle_trans; [exact Hx|]. change 1 with (bpow radix2 0). apply bpow_le. lia. }
  assert (S1 : sound (scalarD adc_fac) usable any (within adc_fac (2 / 1000))) by (apply scalar_sound; [apply adc_declared|apply BIG; lra]).
  assert (S2 : sound (scalarD baro_temperature_fac) usable any (within baro_temperature_fac (5 / 100))) by (apply scalar_sound; [apply baro_temperature_declared|apply BIG; lra]).
  assert (S3 : sound (scalarD pressure_fac) usable any (within pressure_fac 1)) by (apply scalar_sound; [apply pressure_declared|apply BIG; lra]).
  assert (S4 : sound (scalarD acc_gyro_fac) usable any (within acc_gyro_fac (1 / 100))) by (apply scalar_sound; [apply acc_gyro_declared|apply BIG; lra]).
  assert (S5 : sound (scalarD mag_fac) usable any (within mag_fac (1 / 10000))) by (apply scalar_sound; [apply mag_declared|apply BIG; lra]).
  split; [|split; [|split]]; intros vs H.
  - exact (log_all _ _ _ _ S1 vs H (consecutive_any vs)).
  - exact (log_all _ _ _ _ (pair_sound _ _ _ _ _ _ S2 S3) vs H (consecutive_any vs)).
  - exact (log_all _ _ _ _ (pair_sound _ _ _ _ _ _ (pair_sound _ _ _ _ _ _ S4 (pair_sound _ _ _ _ _ _ S4 S4)) (pair_sound _ _ _ _ _ _ S4 (pair_sound _ _ _ _ _ _ S4 S4))) vs H (consecutive_any vs)).
  - exact (log_all _ _ _ _ (pair_sound _ _ _ _ _ _ S5 (pair_sound _ _ _ _ _ _ S5 S5)) vs H (consecutive_any vs)).
Qed.

(** the same with any factories, each field held to the error of its own factory *)
Theorem C96_any_factories : forall f1 e1 f2 e2, declared f1 e1 -> declared f2 e2 -> e1 <= bpow radix2 124 -> e2 <= bpow radix2 124 ->
  (forall vs, Forall usable vs -> faithful (adcD f1) (within f1 e1) vs) /\
  (forall vs, Forall (fun v => usable (fst v) /\ usable (snd v)) vs ->
     faithful (baroD f1 f2) (fun v r => within f1 e1 (fst v) (fst r) /\ within f2 e2 (snd v) (snd r)) vs) /\
  (forall vs, Forall (fun v => all3 usable (fst v) /\ all3 usable (snd v)) vs ->
     faithful (imuD f1 f2) (fun v r => all3r (within f1 e1) (fst v) (fst r) /\ all3r (within f2 e2) (snd v) (snd r)) vs) /\
  (forall vs, Forall (all3 usable) vs -> faithful (magD f1) (all3r (within f1 e1)) vs).
Proof.
  intros f1 e1 f2 e2 D1 D2 H1 H2.
  pose proof (scalar_sound f1 e1 D1 H1) as S1. pose proof (scalar_sound f2 e2 D2 H2) as S2.
  pose proof (pair_sound _ _ _ _ _ _ S1 (pair_sound _ _ _ _ _ _ S1 S1)) as T1.
  pose proof (pair_sound _ _ _ _ _ _ S2 (pair_sound _ _ _ _ _ _ S2 S2)) as T2.
  split; [|split; [|split]]; intros vs H.
  - exact (log_all _ _ _ _ S1 vs H (consecutive_any vs)).
  - exact (log_all _ _ _ _ (pair_sound _ _ _ _ _ _ S1 S2) vs H (consecutive_any vs)).
  - exact (log_all _ _ _ _ (pair_sound _ _ _ _ _ _ T1 T2) vs H (consecutive_any vs)).
  - exact (log_all _ _ _ _ T1 vs H (consecutive_any vs)).
Qed.

(** a log whose head was lost: the deltas before the first full reading decode to
    nothing, one by one, and the rest decodes as if they had not been there *)
Theorem C96_orphan_deltas_skipped : forall {A X} (d : deltableR A X) (orphans : list X) entries,
  unpush_all d None (map inr orphans ++ entries) = option_map (app (repeat None (length orphans))) (unpush_all d None entries).
Proof.
  intros A X d orphans entries. induction orphans as [|x xs IH]; cbn [map app unpush_all unpush length repeat].
  - destruct (unpush_all d None entries); reflexivity.
  - rewrite IH. destruct (unpush_all d None entries); reflexivity.
Qed.

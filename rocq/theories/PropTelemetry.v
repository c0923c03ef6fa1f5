(** * C81: the maxima in the telemetry are the maxima of the flight. *)
From Coq Require Import List Bool QArith Qabs NArith ZArith Lqa.
From Verif Require Import FixedPoint VLP PropVLP Telemetry.
Import ListNotations.
Local Open Scope Q_scope.
Local Open Scope list_scope.

(** ** Specification: the order of the floats that are numbers *)
Definition fle (a b : fval) : Prop :=
  match a, b with
  | NaN, _ | _, NaN => False
  | NInf, _ => True
  | _, PInf => True
  | Num p, Num q => p <= q
  | _, _ => False
  end.

(** the public fields after each update, in order *)
Fixpoint seen (p : fields) (fs : list (fields -> fields)) : list fields :=
  match fs with [] => [] | f :: fs => f p :: seen (f p) fs end.

(** [m] is the greatest of 0 and the numbers in [l] *)
Definition greatest (l : list fval) (m : fval) : Prop :=
  m <> NaN /\ fle zero m /\ (m = zero \/ In m l) /\ forall v, In v l -> v <> NaN -> fle v m.

(** ** Facts *)
Lemma fle_refl a : a <> NaN -> fle a a.
Proof. destruct a; cbn; try congruence; intros; auto. apply Qle_refl. Qed.
Lemma fle_trans a b c : fle a b -> fle b c -> fle a c.
Proof. destruct a, b, c; cbn; try tauto. apply Qle_trans. Qed.

Lemma fmax_spec a b : b <> NaN -> fmax a b <> NaN /\ fle b (fmax a b) /\ (a <> NaN -> fle a (fmax a b)) /\ (fmax a b = a \/ fmax a b = b).
Proof.
  intros B. destruct a as [p| | |], b as [q| | |]; cbn; try congruence;
    try (split; [congruence|]; split; [auto using Qle_refl|]; split; [intros; auto using Qle_refl | auto]; congruence).
  destruct (Qle_bool p q) eqn:E; cbn.
  - apply Qle_bool_iff in E. split; [congruence|]. split; [apply Qle_refl|]. split; [intros; exact E | auto].
  - assert (q <= p). { apply Qlt_le_weak, Qnot_le_lt. intros L. apply Qle_bool_iff in L. congruence. }
    split; [congruence|]. split; [assumption|]. split; [intros; apply Qle_refl | auto].
Qed.

(** folding fmax over values *)
Lemma fold_greatest : forall l m0, m0 <> NaN ->
  let m := fold_left (fun m v => fmax v m) l m0 in
  m <> NaN /\ fle m0 m /\ (m = m0 \/ In m l) /\ forall v, In v l -> v <> NaN -> fle v m.
Proof.
  induction l as [|x l IH]; intros m0 N; cbn [fold_left]; cbn zeta.
  - split; [exact N|]. split; [apply fle_refl, N|]. split; [left; reflexivity|]. intros v [].
  - destruct (fmax_spec x m0 N) as (N1 & L1 & L2 & C). destruct (IH (fmax x m0) N1) as (A & B & D & F). cbn zeta in *.
    split; [exact A|]. split; [exact (fle_trans _ _ _ L1 B)|]. split.
    + destruct D as [D | D]; [|right; right; exact D]. destruct C as [C | C].
      * right. left. rewrite D. symmetry. exact C.
      * left. rewrite D. exact C.
    + intros v [<- | I] V; [exact (fle_trans _ _ _ (L2 V) B) | apply F; assumption].
Qed.

Lemma updates_pub : forall fs s, pub (updates fs s) = last (pub s :: seen (pub s) fs) (pub s).
Proof.
  unfold updates. induction fs as [|f fs IH]; intros s; [reflexivity|]. cbn [fold_left seen]. rewrite IH. cbn [pub update].
  destruct (seen (f (pub s)) fs) as [|p l] eqn:E; [reflexivity|]. clear. cbn [last].
  revert p. induction l as [|q l IH]; intros p; [reflexivity | apply IH].
Qed.

Lemma updates_max (get : fields -> fval) (mx : tstate -> fval) (H : forall f s, mx (update f s) = fmax (get (f (pub s))) (mx s)) :
  forall fs s, mx (updates fs s) = fold_left (fun m v => fmax v m) (map get (seen (pub s) fs)) (mx s).
Proof.
  unfold updates. induction fs as [|f fs IH]; intros s; [reflexivity|]. cbn [fold_left seen map]. rewrite IH, H. reflexivity.
Qed.

(** ** C81 *)
(** After any updates, each of the four maxima is the greatest of 0 and the values
    its field had after the updates, NaN readings apart. *)
Theorem C81_maxima : forall fs, let s := updates fs telemetry_start in let h := seen (pub telemetry_start) fs in
  greatest (map altitude h) (max_altitude s) /\ greatest (map backup_altitude h) (backup_max_altitude s) /\
  greatest (map air_speed h) (max_air_speed s) /\ greatest (map backup_air_speed h) (backup_max_air_speed s).
Proof.
  intros fs. cbn zeta.
  assert (Z : zero <> NaN) by discriminate.
  assert (G : forall l m, m = fold_left (fun m v => fmax v m) l zero -> greatest l m).
  { intros l m ->. exact (fold_greatest l zero Z). }
  split; [|split; [|split]]; apply G.
  - exact (updates_max altitude max_altitude (fun _ _ => eq_refl) fs telemetry_start).
  - exact (updates_max backup_altitude backup_max_altitude (fun _ _ => eq_refl) fs telemetry_start).
  - exact (updates_max air_speed max_air_speed (fun _ _ => eq_refl) fs telemetry_start).
  - exact (updates_max backup_air_speed backup_max_air_speed (fun _ _ => eq_refl) fs telemetry_start).
Qed.

(** They never decrease. *)
Theorem C81_never_decrease : forall fs gs, let s := updates fs telemetry_start in let s' := updates (fs ++ gs) telemetry_start in
  fle (max_altitude s) (max_altitude s') /\ fle (backup_max_altitude s) (backup_max_altitude s') /\
  fle (max_air_speed s) (max_air_speed s') /\ fle (backup_max_air_speed s) (backup_max_air_speed s').
Proof.
  intros fs gs. cbn zeta. destruct (C81_maxima fs) as ((A & _) & (B & _) & (C & _) & (D & _)). cbn zeta in *.
  unfold updates at 2 4 6 8. rewrite !fold_left_app. fold (updates fs telemetry_start). fold (updates gs (updates fs telemetry_start)).
  set (s := updates fs telemetry_start) in *. clearbody s.
  split; [|split; [|split]].
  - rewrite (updates_max altitude max_altitude (fun _ _ => eq_refl) gs s). exact (proj1 (proj2 (fold_greatest _ _ A))).
  - rewrite (updates_max backup_altitude backup_max_altitude (fun _ _ => eq_refl) gs s). exact (proj1 (proj2 (fold_greatest _ _ B))).
  - rewrite (updates_max air_speed max_air_speed (fun _ _ => eq_refl) gs s). exact (proj1 (proj2 (fold_greatest _ _ C))).
  - rewrite (updates_max backup_air_speed backup_max_air_speed (fun _ _ => eq_refl) gs s). exact (proj1 (proj2 (fold_greatest _ _ D))).
Qed.

(** the value a factory transmits for a float *)
Definition clampf (f : factory) (v : fval) : Q :=
  match v with NaN => 0 | PInf => f_max f | NInf => f_min f | Num q => clamp f q end.

Lemma finite_clamp f v q : f_min f < f_max f -> finite f v = Some q -> clamp f q == clampf f v.
Proof.
  intros L. destruct v; cbn; intros [= <-]; unfold clamp.
  - reflexivity.
  - assert (X : qlt (f_max f) (f_min f) = false) by (apply qlt_false; lra). rewrite X.
    assert (Y : qlt (f_max f) (f_max f) = false) by (apply qlt_false; lra). rewrite Y. reflexivity.
  - assert (Y : qlt (f_min f) (f_min f) = false) by (apply qlt_false; lra). rewrite Y.
    assert (X : qlt (f_max f) (f_min f) = false) by (apply qlt_false; lra). rewrite X. reflexivity.
Qed.

Lemma finite_none f v : finite f v = None <-> v = NaN.
Proof. destruct v; cbn; split; congruence. Qed.

(** Making a packet panics exactly when the battery voltage, the temperature, the
    altitude or the air speed is NaN at that moment; NaN never comes from a maximum
    or from the backup core. *)
Theorem C81_packet_panics_iff_nan : forall fs ready now, let s := updates fs telemetry_start in
  create_packet ready now s = None <->
  battery_v (pub s) = NaN \/ temperature (pub s) = NaN \/ altitude (pub s) = NaN \/ air_speed (pub s) = NaN.
Proof.
  intros fs ready now. cbn zeta. destruct (C81_maxima fs) as ((A & _) & (B & _) & (C & _) & (D & _)). cbn zeta in *.
  set (s := updates fs telemetry_start) in *. clearbody s. unfold create_packet.
  pose proof (finite_none AltitudeFac (max_altitude s)) as FA. pose proof (finite_none AltitudeFac (backup_max_altitude s)) as FB.
  pose proof (finite_none AirSpeedFac (max_air_speed s)) as FC. pose proof (finite_none AirSpeedFac (backup_max_air_speed s)) as FD.
  pose proof (finite_none BatteryVFac (battery_v (pub s))) as F1. pose proof (finite_none TemperatureFac (temperature (pub s))) as F2.
  pose proof (finite_none AltitudeFac (altitude (pub s))) as F3. pose proof (finite_none AirSpeedFac (air_speed (pub s))) as F4.
  destruct (finite AltitudeFac (max_altitude s)); [|destruct (A (proj1 FA eq_refl))].
  destruct (finite AltitudeFac (backup_max_altitude s)); [|destruct (B (proj1 FB eq_refl))].
  destruct (finite AirSpeedFac (max_air_speed s)); [|destruct (C (proj1 FC eq_refl))].
  destruct (finite AirSpeedFac (backup_max_air_speed s)); [|destruct (D (proj1 FD eq_refl))].
  clear A B C D FA FB FC FD.
  destruct (finite BatteryVFac _); [|split; [intros _; left; apply F1; reflexivity | reflexivity]].
  destruct (finite TemperatureFac _); [|split; [intros _; right; left; apply F2; reflexivity | reflexivity]].
  destruct (finite AltitudeFac _); [|split; [intros _; right; right; left; apply F3; reflexivity | reflexivity]].
  destruct (finite AirSpeedFac _); [|split; [intros _; right; right; right; apply F4; reflexivity | reflexivity]].
  split; [discriminate|]. intros [H | [H | [H | H]]].
  - apply F1 in H. discriminate H.
  - apply F2 in H. discriminate H.
  - apply F3 in H. discriminate H.
  - apply F4 in H. discriminate H.
Qed.

(** Before anything has been reported the packet says: no fix, nothing measured, nothing armed, connected or deployed, both cores
    disarmed, and no maxima yet. *)
Theorem C81_first_packet : forall ready now, create_packet ready now telemetry_start =
  Some (Readings ready now 0%N None 0 0 false false 0%N false false 0 0 0 0 0 0 DisArmed DisArmed false false).
Proof. reflexivity. Qed.

(** What the ground station reads from a packet made at any moment and received
    intact: the fields as last set, and the greatest values so far, within the
    declared error of the values clamped to the declared range. *)
Theorem C81_ground_reads : forall ks key now1 st1 fs ready now i, let s := updates fs telemetry_start in
  builder_ok st1 -> create_packet ready now s = Some i ->
  (forall n a b, gps_location (pub s) = Some (n, Some (a, b)) -> (a < 2 ^ 64)%N /\ (b < 2 ^ 64)%N) ->
  exists bytes st1', serialize_downlink ks key now1 st1 (TelemetryP (telemetry_new i)) = Ok (bytes, st1') /\
  forall now2 air st2, builder_ok st2 ->
  exists t, fst (deserialize_downlink ks key now2 air st2 bytes) = Ok (TelemetryP t) /\
    t_clock_ready t = ready /\ t_hw_armed t = hardware_armed (pub s) /\ t_sw_armed t = software_armed (pub s) /\
    t_pyro_main t = pyro_main_continuity (pub s) /\ t_pyro_drogue t = pyro_drogue_continuity (pub s) /\
    t_drogue_deployed t = drogue_deployed (pub s) /\ t_main_deployed t = main_deployed (pub s) /\
    state_of_code (t_state t) = flight_core_state (pub s) /\ state_of_code (t_backup_state t) = backup_flight_core_state (pub s) /\
    (Qabs (to_float AltitudeFac (Z.of_N (t_alt t)) - clampf AltitudeFac (altitude (pub s))) <= 5) /\
    (Qabs (to_float AirSpeedFac (Z.of_N (t_speed t)) - clampf AirSpeedFac (air_speed (pub s))) <= 2) /\
    exists ma bma mv bmv,
      greatest (map altitude (seen (pub telemetry_start) fs)) ma /\ greatest (map backup_altitude (seen (pub telemetry_start) fs)) bma /\
      greatest (map air_speed (seen (pub telemetry_start) fs)) mv /\ greatest (map backup_air_speed (seen (pub telemetry_start) fs)) bmv /\
      (Qabs (to_float AltitudeFac (Z.of_N (t_max_alt t)) - clampf AltitudeFac ma) <= 5) /\
      (Qabs (to_float AltitudeFac (Z.of_N (t_backup_max_alt t)) - clampf AltitudeFac bma) <= 5) /\
      (Qabs (to_float AirSpeedFac (Z.of_N (t_max_speed t)) - clampf AirSpeedFac mv) <= 2) /\
      (Qabs (to_float AirSpeedFac (Z.of_N (t_backup_max_speed t)) - clampf AirSpeedFac bmv) <= 2).
Proof.
  intros ks key now1 st1 fs ready now i s K1 CP G.
  destruct (C81_maxima fs) as (MA & MB & MC & MD). cbn zeta in *. fold s in MA, MB, MC, MD. clearbody s.
  unfold create_packet in CP.
  destruct (finite BatteryVFac (battery_v (pub s))) as [b|]; [|discriminate CP].
  destruct (finite TemperatureFac (temperature (pub s))) as [tt|]; [|discriminate CP].
  destruct (finite AltitudeFac (altitude (pub s))) as [a|] eqn:Ea; [|discriminate CP].
  destruct (finite AltitudeFac (max_altitude s)) as [ma|] eqn:Ema; [|discriminate CP].
  destruct (finite AltitudeFac (backup_max_altitude s)) as [bma|] eqn:Ebma; [|discriminate CP].
  destruct (finite AirSpeedFac (air_speed (pub s))) as [v|] eqn:Ev; [|discriminate CP].
  destruct (finite AirSpeedFac (max_air_speed s)) as [mv|] eqn:Emv; [|discriminate CP].
  destruct (finite AirSpeedFac (backup_max_air_speed s)) as [bmv|] eqn:Ebmv; [|discriminate CP].
  match type of CP with Some ?x = _ => assert (CPi : i = x) by (injection CP; intros E; symmetry; exact E) end.
  clear CP.
  assert (R : readings_ok i).
  { rewrite CPi. unfold readings_ok. cbn [i_lat_lon]. destruct (gps_location (pub s)) as [[n [[x y]|]]|]; [|exact Logic.I|exact Logic.I]. exact (G n x y eq_refl). }
  destruct (C38_telemetry_values ks key now1 st1 i K1 R) as (bytes & st1' & E & RT). exists bytes, st1'. split; [exact E|].
  intros now2 air st2 K2. destruct (RT now2 air st2 K2) as (t & E2 & H). exists t. split; [exact E2|]. clear RT E E2.
  rewrite CPi in H.
  cbn [i_clock_ready i_hw i_sw i_pm i_pd i_drogue i_main i_state i_backup_state i_satellites i_timestamp i_lat_lon i_battery i_temperature i_free i_alt i_max_alt i_backup_max_alt i_speed i_max_speed i_backup_max_speed] in H.
  destruct H as (H1 & H2 & H3 & H4 & H5 & H6 & H7 & H8 & H9 & _ & _ & _ & _ & _ & _ & _ & HA & HMA & HBMA & HV & HMV & HBMV).
  assert (LA : f_min AltitudeFac < f_max AltitudeFac) by reflexivity. assert (LS : f_min AirSpeedFac < f_max AirSpeedFac) by reflexivity.
  rewrite (finite_clamp _ _ _ LA Ea) in HA. rewrite (finite_clamp _ _ _ LA Ema) in HMA. rewrite (finite_clamp _ _ _ LA Ebma) in HBMA.
  rewrite (finite_clamp _ _ _ LS Ev) in HV. rewrite (finite_clamp _ _ _ LS Emv) in HMV. rewrite (finite_clamp _ _ _ LS Ebmv) in HBMV.
  split; [exact H1|]. split; [exact H2|]. split; [exact H3|]. split; [exact H4|]. split; [exact H5|]. split; [exact H6|]. split; [exact H7|].
  split; [exact H8|]. split; [exact H9|]. split; [exact HA|]. split; [exact HV|].
  exists (max_altitude s), (backup_max_altitude s), (max_air_speed s), (backup_max_air_speed s).
  split; [exact MA|]. split; [exact MB|]. split; [exact MC|]. split; [exact MD|]. split; [exact HMA|]. split; [exact HBMA|]. split; [exact HMV | exact HBMV].
Qed.

(** ... and the rest of the packet: the number of satellites (up to 31), the time, the position (with or without one), the battery, the
    temperature and the free space. *)
Theorem C81_ground_reads_rest : forall ks key now1 st1 fs ready now i, let s := updates fs telemetry_start in
  builder_ok st1 -> create_packet ready now s = Some i ->
  (forall n a b, gps_location (pub s) = Some (n, Some (a, b)) -> (a < 2 ^ 64)%N /\ (b < 2 ^ 64)%N) ->
  exists bytes st1', serialize_downlink ks key now1 st1 (TelemetryP (telemetry_new i)) = Ok (bytes, st1') /\
  forall now2 air st2, builder_ok st2 ->
  exists t, fst (deserialize_downlink ks key now2 air st2 bytes) = Ok (TelemetryP t) /\
    (gps_location (pub s) = None -> t_satellites t = 0%N /\ get_lat_lon t = None) /\
    (forall n p, gps_location (pub s) = Some (n, p) -> (n < 32)%N -> t_satellites t = n) /\
    (forall n, gps_location (pub s) = Some (n, None) -> get_lat_lon t = None) /\
    (forall n a b, gps_location (pub s) = Some (n, Some (a, b)) ->
       get_lat_lon t = if is_zero_f64 a && is_zero_f64 b then None else Some (a, b)) /\
    (0 <= now < 4294967295000 -> inject_Z (Z.of_N (get_timestamp t)) <= now < inject_Z (Z.of_N (get_timestamp t)) + 1000) /\
    (Qabs (to_float BatteryVFac (Z.of_N (t_battery t)) - clampf BatteryVFac (battery_v (pub s))) <= 1 # 1000) /\
    (Qabs (to_float TemperatureFac (Z.of_N (t_temperature t)) - clampf TemperatureFac (temperature (pub s))) <= 1 # 10) /\
    (Qabs (to_float FreeSpaceFac (Z.of_N (t_free t)) - clamp FreeSpaceFac (inject_Z (Z.of_N (disk_free_space (pub s))))) <= 40960).
Proof.
  intros ks key now1 st1 fs ready now i s K1 CP G. clearbody s. unfold create_packet in CP.
  destruct (finite BatteryVFac (battery_v (pub s))) as [b|] eqn:Eb; [|discriminate CP].
  destruct (finite TemperatureFac (temperature (pub s))) as [tt|] eqn:Et; [|discriminate CP].
  destruct (finite AltitudeFac (altitude (pub s))) as [a|]; [|discriminate CP].
  destruct (finite AltitudeFac (max_altitude s)) as [ma|]; [|discriminate CP].
  destruct (finite AltitudeFac (backup_max_altitude s)) as [bma|]; [|discriminate CP].
  destruct (finite AirSpeedFac (air_speed (pub s))) as [v|]; [|discriminate CP].
  destruct (finite AirSpeedFac (max_air_speed s)) as [mv|]; [|discriminate CP].
  destruct (finite AirSpeedFac (backup_max_air_speed s)) as [bmv|]; [|discriminate CP].
  match type of CP with Some ?x = _ => assert (CPi : i = x) by (injection CP; intros E; symmetry; exact E) end.
  clear CP.
  assert (R : readings_ok i).
  { rewrite CPi. unfold readings_ok. cbn [i_lat_lon]. destruct (gps_location (pub s)) as [[n [[x y]|]]|]; [|exact Logic.I|exact Logic.I]. exact (G n x y eq_refl). }
  destruct (C38_telemetry_values ks key now1 st1 i K1 R) as (bytes & st1' & E & RT). exists bytes, st1'. split; [exact E|].
  intros now2 air st2 K2. destruct (RT now2 air st2 K2) as (t & E2 & H). exists t. split; [exact E2|]. clear RT E E2.
  rewrite CPi in H.
  cbn [i_clock_ready i_hw i_sw i_pm i_pd i_drogue i_main i_state i_backup_state i_satellites i_timestamp i_lat_lon i_battery i_temperature i_free i_alt i_max_alt i_backup_max_alt i_speed i_max_speed i_backup_max_speed] in H.
  destruct H as (_ & _ & _ & _ & _ & _ & _ & _ & _ & HS & HT & HN & HL & HB & HTe & HF & _).
  assert (LB : f_min BatteryVFac < f_max BatteryVFac) by reflexivity. assert (LT : f_min TemperatureFac < f_max TemperatureFac) by reflexivity.
  rewrite (finite_clamp _ _ _ LB Eb) in HB. rewrite (finite_clamp _ _ _ LT Et) in HTe.
  split; [intros Z; rewrite Z in HS, HN; split; [apply HS; reflexivity|apply HN; reflexivity]|].
  split; [intros n p Z L; rewrite Z in HS; apply HS; exact L|].
  split; [intros n Z; rewrite Z in HN; apply HN; reflexivity|].
  split; [intros n x y Z; rewrite Z in HL; apply HL; reflexivity|].
  split; [exact HT|]. split; [exact HB|]. split; [exact HTe|exact HF].
Qed.

Definition set_altitude (v : fval) (p : fields) : fields :=
  Fields (gps_location p) (battery_v p) (temperature p) v (backup_altitude p) (air_speed p) (backup_air_speed p) (hardware_armed p) (software_armed p)
    (pyro_main_continuity p) (pyro_drogue_continuity p) (flight_core_state p) (backup_flight_core_state p) (disk_free_space p) (drogue_deployed p) (main_deployed p).

(** a climb to 3000 m with one NaN reading in between: the maximum survives; a packet made right at the NaN panics *)
Theorem C81_instance :
  max_altitude (updates [set_altitude (Num 100); set_altitude (Num 3000); set_altitude NaN; set_altitude (Num 20)] telemetry_start) = Num 3000 /\
  create_packet true 0 (updates [set_altitude (Num 100); set_altitude (Num 3000); set_altitude NaN; set_altitude (Num 20)] telemetry_start) <> None /\
  create_packet true 0 (updates [set_altitude (Num 100); set_altitude NaN] telemetry_start) = None.
Proof. split; [reflexivity|]. split; [cbn; discriminate | reflexivity]. Qed.
Print Assumptions C81_ground_reads_rest.

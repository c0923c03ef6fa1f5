(** * Properties C38 to C41 and C68: radio packets. *)
From Coq Require Import QArith Qround Qabs.
From Verif Require Import Base BitSlice PropBits FixedPoint PropFixed ReedSolomon VLP.
Import ListNotations.
Local Open Scope nat_scope.
Local Open Scope list_scope.

(** ** Specification *)

(** a packet made of Rust values: timestamps are 64-bit patterns, packed
    fields fit their declared width *)
Definition uplink_ok (p : uplink) : Prop :=
  match p with
  | VerticalCalibration t | SoftArm t _ | LowPowerMode t _ | Reset t | DeleteLogs t | GroundTestDeploy t _
  | ManualTriggerDeployment t => (t < 2 ^ 64)%N
  end.
Definition telemetry_ok (t : telemetry) : Prop :=
  (t_timestamp t < 2 ^ 32)%N /\ (t_satellites t < 2 ^ 5)%N /\ (t_lat t < 2 ^ 64)%N /\ (t_lon t < 2 ^ 64)%N /\
  (t_battery t < 2 ^ 12)%N /\ (t_temperature t < 2 ^ 11)%N /\ (t_free t < 2 ^ 11)%N /\
  (t_alt t < 2 ^ 10)%N /\ (t_max_alt t < 2 ^ 10)%N /\ (t_backup_max_alt t < 2 ^ 10)%N /\
  (t_speed t < 2 ^ 9)%N /\ (t_max_speed t < 2 ^ 9)%N /\ (t_backup_max_speed t < 2 ^ 9)%N /\
  (t_state t < 2 ^ 3)%N /\ (t_backup_state t < 2 ^ 3)%N.
Definition downlink_ok (p : downlink) : Prop := match p with Ack t => (t < 2 ^ 64)%N | TelemetryP t => telemetry_ok t end.

(** any state the builder's buffers can be in (whatever was sent or received before) *)
Definition builder_ok (st : builder) : Prop := bw_ok (b_w st) MAX_VLP_PACKET_SIZE /\ br_ok (b_r st) MAX_VLP_PACKET_SIZE.

(** ** Bit widths *)
Lemma battery_bits : f_bits BatteryVFac = 12. Proof. vm_compute. reflexivity. Qed.
Lemma temperature_bits : f_bits TemperatureFac = 11. Proof. vm_compute. reflexivity. Qed.
Lemma free_bits : f_bits FreeSpaceFac = 11. Proof. vm_compute. reflexivity. Qed.
Lemma altitude_bits : f_bits AltitudeFac = 10. Proof. vm_compute. reflexivity. Qed.
Lemma speed_bits : f_bits AirSpeedFac = 9. Proof. vm_compute. reflexivity. Qed.

Definition total (l : list prim) : nat := fold_right (fun p n => plen p + n) 0 l.

Lemma uplink_schema_fields p : uplink_schema (uplink_code p) = Some (map fst (uplink_fields p)).
Proof. destruct p; reflexivity. Qed.
Lemma uplink_build_fields p : uplink_build (uplink_code p) (map snd (uplink_fields p)) = Some p.
Proof. destruct p as [| | | | |t q|]; try reflexivity. destruct q; reflexivity. Qed.
Lemma downlink_schema_fields p : downlink_schema (downlink_code p) = Some (map fst (downlink_fields p)).
Proof. destruct p; reflexivity. Qed.
Lemma downlink_build_fields p : downlink_build (downlink_code p) (map snd (downlink_fields p)) = Some p.
Proof. destruct p as [|[]]; reflexivity. Qed.

Lemma uplink_typed p : uplink_ok p -> well_typed (uplink_fields p).
Proof.
  intros H. unfold well_typed. destruct p; cbn [uplink_ok uplink_fields] in *; repeat (constructor; [split; cbn [fst snd wf_prim has_type]; try exact I; try exact H|]); try constructor.
  destruct p; reflexivity.
Qed.
Lemma downlink_typed p : downlink_ok p -> well_typed (downlink_fields p).
Proof.
  intros H. unfold well_typed. destruct p as [t|t]; cbn [downlink_ok downlink_fields] in *.
  - constructor; [split; cbn [fst snd wf_prim has_type]; [exact I|exact H]|constructor].
  - unfold telemetry_fields. rewrite battery_bits, temperature_bits, free_bits, altitude_bits, speed_bits.
    destruct H as (H1 & H2 & H3 & H4 & H5 & H6 & H7 & H8 & H9 & H10 & H11 & H12 & H13 & H14 & H15).
    repeat match goal with |- Forall _ (_ :: _) => constructor end; try constructor; cbn [fst snd wf_prim has_type plen]; try exact I; try assumption; try (split; [reflexivity|exact I]); try (split; assumption).
Qed.

Lemma uplink_total p : 4 + total (map fst (uplink_fields p)) <= 76.
Proof. destruct p; cbn; lia. Qed.
Lemma telemetry_total : total telemetry_schema = 269.
Proof. unfold telemetry_schema. rewrite battery_bits, temperature_bits, free_bits, altitude_bits, speed_bits. reflexivity. Qed.
Lemma downlink_total p : total (map fst (downlink_fields p)) = match p with Ack _ => 64 | TelemetryP _ => 269 end.
Proof. destruct p; [reflexivity|]. change (map fst (downlink_fields (TelemetryP t))) with telemetry_schema. apply telemetry_total. Qed.

(** ** Writing and reading the fields *)
Lemma write_all_spec n : forall l w, bw_ok w n -> well_typed l -> bw_len w + total (map fst l) <= 8 * n ->
  exists w', write_all w l = Some w' /\ bw_ok w' n /\ bw_bits w' = bw_bits w ++ enc_all l /\ bw_len w' = bw_len w + total (map fst l).
Proof.
  induction l as [|[p v] l IH]; intros w K T L; cbn [write_all map fst total fold_right enc_all flat_map] in *.
  - exists w. split; [reflexivity|]. split; [exact K|]. split; [symmetry; apply app_nil_r|]. rewrite Nat.add_0_r. reflexivity.
  - inversion T as [|x l0 [Hw Ht] T' E]; subst x l0. cbn [fst snd] in *. unfold bw_write. pose proof (enc_length p v Hw Ht) as EL. rewrite <- EL in *.
    fold (total (map fst l)) in *.
    destruct (bw_put_fits w n (enc p v) K ltac:(lia)) as (w1 & E1). rewrite E1.
    destruct (bw_put_spec w n (enc p v) w1 K E1) as (K1 & B1 & L1).
    destruct (IH w1 K1 T' ltac:(lia)) as (w2 & E2 & K2 & B2 & L2). exists w2. split; [exact E2|]. split; [exact K2|]. split.
    + rewrite B2, B1, <- app_assoc. reflexivity.
    + lia.
Qed.

Lemma read_all_spec n : forall l r pad, br_ok r n -> well_typed l -> br_bits r = enc_all l ++ pad ->
  exists r', read_all r (map fst l) = (Some (map snd l), r') /\ br_ok r' n.
Proof.
  induction l as [|[p v] l IH]; intros r pad K T B; cbn [read_all map fst snd enc_all flat_map] in *.
  - exists r. split; [reflexivity|exact K].
  - inversion T as [|x l0 [Hw Ht] T' E]; subst x l0. cbn [fst snd] in *. pose proof (enc_length p v Hw Ht) as EL.
    assert (PL : plen p <= br_len r).
    { rewrite <- (br_bits_length r n K), B, !app_length, EL. lia. }
    destruct (br_read_spec r n p K PL) as (r1 & E1 & K1 & B1 & L1). rewrite E1.
    rewrite B, <- app_assoc in B1. rewrite <- EL in B1 at 1. rewrite skipn_app, Nat.sub_diag, skipn_all in B1. cbn [skipn app] in B1.
    destruct (IH r1 pad K1 T' B1) as (r2 & E2 & K2). rewrite E2. exists r2. split; [|exact K2].
    rewrite B, <- app_assoc, (dec_enc p v _ Hw Ht). reflexivity.
Qed.

(** reading never disturbs the buffers, whatever is read *)
Lemma read_all_ok n : forall l r vs r', br_ok r n -> read_all r l = (vs, r') -> br_ok r' n.
Proof.
  induction l as [|p l IH]; intros r vs r' K H; cbn [read_all] in H.
  - injection H as <- <-. exact K.
  - destruct (Nat.le_gt_cases (plen p) (br_len r)) as [L|L].
    + destruct (br_read_spec r n p K L) as (r1 & E1 & K1 & _). rewrite E1 in H. destruct (read_all r1 l) as [[vs1|] r2] eqn:E2; injection H as <- <-; apply (IH _ _ _ K1 E2).
    + rewrite (br_read_none r p L) in H. injection H as <- <-. exact K.
Qed.

Lemma bytes_of_bits_ok : forall n l, length l = 8 * n -> bytes_ok (bytes_of_bits l) /\ length (bytes_of_bits l) = n.
Proof.
  intros n l H. pose proof (bytes_of_bits_spec n l H) as (A & B & C). split; assumption.
Qed.

Lemma code_typed w code : (code < 2 ^ N.of_nat w)%N -> has_type (TInt w) (VN code).
Proof. intros H. exact H. Qed.

Lemma body_spec st w code fields : builder_ok st -> well_typed fields -> (code < 2 ^ N.of_nat w)%N ->
  w + total (map fst fields) <= 8 * MAX_VLP_PACKET_SIZE ->
  exists data st' pad, body st w code fields = Some (data, st') /\ builder_ok st' /\ bytes_ok data /\
    length data = (w + total (map fst fields) + 7) / 8 /\ bits_of_bytes data = le_bits w code ++ enc_all fields ++ pad.
Proof.
  intros [KW KR] T C L. unfold body.
  destruct (bw_clear_spec (b_w st) _ KW) as (K0 & B0 & L0).
  destruct (write_all_spec MAX_VLP_PACKET_SIZE ((TInt w, VN code) :: fields) (bw_clear (b_w st)) K0) as (w' & E & K' & B' & L').
  { constructor; [split; [exact I|exact C]|exact T]. }
  { rewrite L0. exact L. }
  rewrite E. destruct (bw_all_bits w' _ K') as (pad & BA & _ & _).
  exists (bw_all w'), (Builder w' (b_r st)), pad. split; [reflexivity|]. split; [split; assumption|].
  rewrite L0 in L'. cbn [map fst total fold_right plen] in L'. fold (total (map fst fields)) in L'.
  assert (LF : length (firstn (8 * ((bw_len w' + 7) / 8)) (bw_data w')) = 8 * ((bw_len w' + 7) / 8)).
  { rewrite firstn_length. destruct K' as [K1 K2]. pose proof (Nat.div_mod_eq (bw_len w' + 7) 8). lia. }
  destruct (bytes_of_bits_ok _ _ LF) as [BO BL]. split; [exact BO|]. split; [rewrite <- L' at 1; exact BL|].
  rewrite BA, B', B0. cbn [app enc_all flat_map enc fst snd]. rewrite <- app_assoc. reflexivity.
Qed.

Lemma parse_spec {P} st w code fields pad data (schema : N -> option (list prim)) (build : N -> list val -> option P) p :
  builder_ok st -> well_typed fields -> (code < 2 ^ N.of_nat w)%N -> length data <= MAX_VLP_PACKET_SIZE ->
  bits_of_bytes data = le_bits w code ++ enc_all fields ++ pad ->
  schema code = Some (map fst fields) -> build code (map snd fields) = Some p ->
  exists st', parse st w schema build data = (Some (Ok p), st') /\ builder_ok st'.
Proof.
  intros [KW KR] T C L B Sc Bu. unfold parse.
  assert (K0 : br_ok (BR (br_buf (b_r st)) 0 0) MAX_VLP_PACKET_SIZE).
  { destruct KR as (H & _). split; [exact H|]. cbn [br_start br_end]. split; [lia|]. split; [lia|reflexivity]. }
  assert (E : exists r, br_replenish (BR (br_buf (b_r st)) 0 0) data = Some r /\ br_ok r MAX_VLP_PACKET_SIZE /\ br_bits r = bits_of_bytes data).
  { unfold br_replenish. destruct (br_shift_spec _ _ K0) as (r1 & E1 & K1 & B1 & L1 & X1). rewrite E1.
    assert (X2 : br_end r1 = 0).
    { unfold br_shift in E1. cbn [br_len br_end br_start br_buf] in E1. change (0 - 0) with 0 in E1. change ((8 - 0 mod 8) mod 8 + 0) with 0 in E1.
      change (0 <=? length (br_buf (b_r st))) with true in E1. injection E1 as <-. reflexivity. }
    destruct (br_append_spec r1 _ data K1 ltac:(lia)) as (r2 & E2 & K2 & B2 & L2). exists r2. split; [exact E2|]. split; [exact K2|].
    rewrite B2, B1. unfold br_bits. cbn [br_buf br_start br_end]. reflexivity. }
  destruct E as (r & E & K & Br). rewrite E, <- app_nil_l in *. cbn [app] in *.
  destruct (read_all_spec MAX_VLP_PACKET_SIZE ((TInt w, VN code) :: fields) r pad K) as (r' & ER & KR').
  { constructor; [split; [exact I|exact C]|exact T]. }
  { rewrite Br, B. cbn [enc_all flat_map enc fst snd]. rewrite <- app_assoc. reflexivity. }
  cbn [read_all map fst snd] in ER. destruct (br_read r (TInt w)) as [[v|] r1] eqn:E1; [|discriminate ER].
  destruct (read_all r1 (map fst fields)) as [[vs|] r2] eqn:E2; [|discriminate ER].
  assert (v = VN code /\ vs = map snd fields /\ r2 = r') as (-> & -> & ->) by (injection ER; auto).
  rewrite Sc, E2, Bu. eexists. split; [reflexivity|]. split; assumption.
Qed.

(** whatever it is given, parse leaves the buffers usable *)
Lemma parse_ok {P} st w (schema : N -> option (list prim)) (build : N -> list val -> option P) data r st' :
  builder_ok st -> length data <= MAX_VLP_PACKET_SIZE -> parse st w schema build data = (r, st') -> builder_ok st'.
Proof.
  intros [KW KR] L H. unfold parse in H.
  assert (K0 : br_ok (BR (br_buf (b_r st)) 0 0) MAX_VLP_PACKET_SIZE).
  { destruct KR as (H1 & _). split; [exact H1|]. cbn [br_start br_end]. split; [lia|]. split; [lia|reflexivity]. }
  destruct (br_replenish (BR (br_buf (b_r st)) 0 0) data) as [r0|] eqn:E.
  2:{ injection H as <- <-. split; assumption. }
  assert (K : br_ok r0 MAX_VLP_PACKET_SIZE).
  { unfold br_replenish in E. destruct (br_shift_spec _ _ K0) as (r1 & E1 & K1 & _). rewrite E1 in E. apply (append_ok _ _ _ _ K1 E). }
  assert (K1 : br_ok (snd (br_read r0 (TInt w))) MAX_VLP_PACKET_SIZE).
  { destruct (Nat.le_gt_cases (plen (TInt w)) (br_len r0)) as [G|G].
    - destruct (br_read_spec r0 _ (TInt w) K G) as (r1 & E1 & K1 & _). rewrite E1. exact K1.
    - rewrite (br_read_none _ _ G). exact K. }
  destruct (br_read r0 (TInt w)) as [[v|] r1]; cbn [snd] in K1.
  2:{ injection H as <- <-. split; assumption. }
  destruct v as [b|code|z|a b|l|o]; try (injection H as <- <-; split; assumption).
  destruct (schema code) as [l|]; [|injection H as <- <-; split; assumption].
  destruct (read_all r1 l) as [[vs|] r2] eqn:E2; injection H as <- <-; (split; [exact KW|apply (read_all_ok _ _ _ _ _ K1 E2)]).
Qed.

(** ** C39: the framing arithmetic *)
(** For every payload length the parity length derived by the receiver from
    the total length is the sender's. *)
Theorem C39_split_recovered : forall n, ecc_from_total (n + ecc_from_data n) = ecc_from_data n.
Proof.
  intros n. unfold ecc_from_total, ecc_from_data. pose proof (Nat.div_mod_eq n 4). pose proof (Nat.mod_upper_bound n 4 ltac:(lia)).
  symmetry. apply (Nat.div_unique _ 5 _ (n mod 4)); lia.
Qed.

(** ** Framing, parity and encryption *)
Lemma crc8_ok l : byte_ok (crc8 l).
Proof. unfold crc8, byte_ok. apply N.mod_lt. discriminate. Qed.

Lemma xor_stream_length s : forall l i, length (xor_stream s i l) = length l.
Proof. induction l as [|b l IH]; intros i; cbn [xor_stream length]; [reflexivity|]. rewrite IH. reflexivity. Qed.
Lemma xor_stream_twice s : forall l i, xor_stream s i (xor_stream s i l) = l.
Proof.
  induction l as [|b l IH]; intros i; cbn [xor_stream]; [reflexivity|]. rewrite IH, N.lxor_assoc, N.lxor_nilpotent, N.lxor_0_r. reflexivity.
Qed.
Lemma xor_stream_distance s : forall a b i, distance (xor_stream s i a) (xor_stream s i b) = distance a b.
Proof.
  induction a as [|x a IH]; intros [|y b] i; cbn [xor_stream distance]; try reflexivity. rewrite IH. f_equal.
  destruct (N.eqb_spec x y) as [->|E]; [rewrite N.eqb_refl; reflexivity|].
  destruct (N.eqb_spec (N.lxor x (s i mod 256)) (N.lxor y (s i mod 256))) as [F|F]; [|reflexivity].
  exfalso. apply E. apply (f_equal (fun z => N.lxor z (s i mod 256)%N)) in F. rewrite !N.lxor_assoc, N.lxor_nilpotent, !N.lxor_0_r in F. exact F.
Qed.
Lemma xor_stream_ok s : forall l i, bytes_ok l -> bytes_ok (xor_stream s i l).
Proof.
  induction l as [|b l IH]; intros i H; cbn [xor_stream]; [constructor|]. inversion H as [|x l0 Hb Hl]; subst. constructor; [|apply IH, Hl].
  apply lxor_ok; [exact Hb|]. unfold byte_ok. apply N.mod_lt. discriminate.
Qed.

Lemma frame_spec data crc : bytes_ok data -> byte_ok crc -> length data + 1 + (length data + 1) / 4 <= MAX_VLP_PACKET_SIZE ->
  exists b, frame data crc = Some b /\ b = (data ++ [crc]) ++ rs_ecc ((length data + 1) / 4) (data ++ [crc]) /\
    length b = length data + 1 + (length data + 1) / 4.
Proof.
  intros B C L. unfold frame, ecc_from_data. cbv zeta. rewrite !app_length, rs_ecc_length. cbn [length].
  destruct (Nat.leb_spec (length data + 1 + (length data + 1) / 4) MAX_VLP_PACKET_SIZE); [|lia]. eexists. split; [reflexivity|]. split; [reflexivity|].
  rewrite !app_length, rs_ecc_length. reflexivity.
Qed.

(** decoding one received word *)
Lemma try_first {P} st e received clear crc w (schema : N -> option (list prim)) (build : N -> list val -> option P) nonce nonces data r st' :
  rs_correct e (clear nonce received) = Some (data ++ [crc nonce data]) ->
  parse st w schema build data = (Some r, st') ->
  try_nonces st e received clear crc w schema build (nonce :: nonces) = (r, st').
Proof.
  intros R Pa. cbn [try_nonces]. rewrite R, rev_app_distr. cbn [rev app]. rewrite rev_involutive, N.eqb_refl, Pa. reflexivity.
Qed.

(** ** C68 and C38, uplink.  A packet built by the ground station in any
    builder state, received with at most ecc/2 wrong bytes (one byte, for
    these packets) by a rocket in any builder state with the same key, gives
    exactly the packet sent.  This holds for every keystream function. *)
Theorem C68_uplink_survives_byte_errors : forall ks key now1 st1 p, builder_ok st1 -> uplink_ok p ->
  exists bytes st1', serialize_uplink ks key now1 st1 p = Ok (bytes, st1') /\ builder_ok st1' /\
    length bytes <= MAX_VLP_PACKET_SIZE /\
    forall now2 air st2 received, builder_ok st2 -> length received = length bytes ->
      distance bytes received <= length bytes / 5 / 2 ->
      exists st2', deserialize_uplink ks key now2 air st2 received = (Ok p, st2') /\ builder_ok st2'.
Proof.
  intros ks key now1 st1 p K1 O. unfold serialize_uplink.
  pose proof (uplink_total p) as UT.
  assert (UL : 68 <= 4 + total (map fst (uplink_fields p))) by (destruct p; cbn; lia).
  destruct (body_spec st1 4 (uplink_code p) (uplink_fields p) K1 (uplink_typed p O)) as (data & st1' & pad & E & K1' & BO & BL & BB).
  { destruct p; reflexivity. }
  { unfold MAX_VLP_PACKET_SIZE. lia. }
  rewrite E.
  assert (DL : 9 <= length data <= 10).
  { rewrite BL. pose proof (Nat.div_mod_eq (4 + total (map fst (uplink_fields p)) + 7) 8). pose proof (Nat.mod_upper_bound (4 + total (map fst (uplink_fields p)) + 7) 8 ltac:(lia)). lia. }
  assert (EL : (length data + 1) / 4 = 2).
  { symmetry. apply (Nat.div_unique _ 4 2 (length data + 1 - 8)); lia. }
  destruct (frame_spec data (crc8 data) BO (crc8_ok data)) as (b & F & Eb & Lb); [unfold MAX_VLP_PACKET_SIZE; lia|]. rewrite F.
  eexists. exists st1'. split; [reflexivity|]. split; [exact K1'|]. unfold process. rewrite xor_stream_length, Lb. split; [unfold MAX_VLP_PACKET_SIZE; lia|].
  intros now2 air st2 received K2 RL RD.
  assert (TE : (length data + 1 + (length data + 1) / 4) / 5 = (length data + 1) / 4) by apply (C39_split_recovered (length data + 1)).
  rewrite TE in RD. unfold deserialize_uplink, ecc_from_total. rewrite RL. destruct (Nat.leb_spec (length data + 1 + (length data + 1) / 4) 8); [lia|].
  rewrite TE. unfold get_past_nonce, get_nonce in *. cbn [TIME_BASED_NONCE_ENABLED] in *.
  assert (RC : rs_correct ((length data + 1) / 4) (process ks key (repeat 105%N 8) received) = Some (data ++ [crc8 data])).
  { apply rs_corrects.
    - apply Forall_app. split; [exact BO|constructor; [apply crc8_ok|constructor]].
    - unfold process. rewrite xor_stream_length, app_length. cbn [length]. lia.
    - unfold process. rewrite xor_stream_length. lia.
    - rewrite <- Eb. unfold process. rewrite <- (xor_stream_twice (ks key (repeat 105%N 8)) b 0), xor_stream_distance. exact RD. }
  destruct (parse_spec st2 4 (uplink_code p) (uplink_fields p) pad data uplink_schema uplink_build p K2 (uplink_typed p O)) as (st2' & Pa & K2').
  { destruct p; reflexivity. }
  { unfold MAX_VLP_PACKET_SIZE. lia. }
  { exact BB. }
  { apply uplink_schema_fields. }
  { apply uplink_build_fields. }
  exists st2'. split; [|exact K2'].
  apply (try_first st2 _ received (fun nonce l => process ks key nonce l) (fun _ d => crc8 d) 4 uplink_schema uplink_build (repeat 105%N 8) [] data (Ok p) st2' RC Pa).
Qed.

Theorem C38_uplink_round_trip : forall ks key now1 st1 p, builder_ok st1 -> uplink_ok p ->
  exists bytes st1', serialize_uplink ks key now1 st1 p = Ok (bytes, st1') /\ builder_ok st1' /\
    length bytes <= MAX_VLP_PACKET_SIZE /\
    forall now2 air st2, builder_ok st2 ->
      exists st2', deserialize_uplink ks key now2 air st2 bytes = (Ok p, st2') /\ builder_ok st2'.
Proof.
  intros ks key now1 st1 p K1 O. destruct (C68_uplink_survives_byte_errors ks key now1 st1 p K1 O) as (b & st1' & E & K & L & R).
  exists b, st1'. split; [exact E|]. split; [exact K|]. split; [exact L|]. intros now2 air st2 K2. apply R; [exact K2|reflexivity|rewrite distance_refl; lia].
Qed.

(** ** Downlink: acknowledgements (one wrong byte) and telemetry (four). *)
Theorem C68_downlink_survives_byte_errors : forall ks key now1 st1 p, builder_ok st1 -> downlink_ok p ->
  exists bytes st1', serialize_downlink ks key now1 st1 p = Ok (bytes, st1') /\ builder_ok st1' /\
    length bytes = match p with Ack _ => 12 | TelemetryP _ => 43 end /\
    forall now2 air st2 received, builder_ok st2 -> length received = length bytes ->
      distance bytes received <= match p with Ack _ => 1 | TelemetryP _ => 4 end ->
      exists st2', deserialize_downlink ks key now2 air st2 received = (Ok p, st2') /\ builder_ok st2'.
Proof.
  intros ks key now1 st1 p K1 O. unfold serialize_downlink.
  pose proof (downlink_total p) as UT.
  destruct (body_spec st1 1 (downlink_code p) (downlink_fields p) K1 (downlink_typed p O)) as (data & st1' & pad & E & K1' & BO & BL & BB).
  { destruct p; reflexivity. }
  { rewrite UT. unfold MAX_VLP_PACKET_SIZE. destruct p; lia. }
  rewrite E.
  assert (DL : length data = match p with Ack _ => 9 | TelemetryP _ => 34 end) by (rewrite BL, UT; destruct p; reflexivity).
  set (c := crc8 (data ++ downlink_key ks key ++ get_nonce now1)).
  destruct (frame_spec data c BO (crc8_ok _)) as (b & F & Eb & Lb); [rewrite DL; unfold MAX_VLP_PACKET_SIZE; destruct p; cbn; lia|]. rewrite F.
  exists b, st1'. split; [reflexivity|]. split; [exact K1'|]. split; [rewrite Lb, DL; destruct p; reflexivity|].
  intros now2 air st2 received K2 RL RD. rewrite Lb in RL.
  assert (TE : (length data + 1 + (length data + 1) / 4) / 5 = (length data + 1) / 4) by apply (C39_split_recovered (length data + 1)).
  unfold deserialize_downlink, ecc_from_total. rewrite RL. destruct (Nat.leb_spec (length data + 1 + (length data + 1) / 4) 8) as [W|W]; [exfalso; rewrite DL in W; destruct p; cbn in W; lia|].
  rewrite TE. unfold get_past_nonce. cbn [TIME_BASED_NONCE_ENABLED].
  assert (RC : rs_correct ((length data + 1) / 4) received = Some (data ++ [crc8 (data ++ downlink_key ks key ++ repeat 105%N 8)])).
  { change (crc8 (data ++ downlink_key ks key ++ repeat 105%N 8)) with c. apply rs_corrects.
    - apply Forall_app. split; [exact BO|constructor; [apply crc8_ok|constructor]].
    - rewrite app_length. cbn [length]. lia.
    - rewrite RL, DL. destruct p; cbn; lia.
    - rewrite <- Eb. rewrite DL. destruct p; exact RD. }
  destruct (parse_spec st2 1 (downlink_code p) (downlink_fields p) pad data downlink_schema downlink_build p K2 (downlink_typed p O)) as (st2' & Pa & K2').
  { destruct p; reflexivity. }
  { rewrite DL. unfold MAX_VLP_PACKET_SIZE. destruct p; lia. }
  { exact BB. }
  { apply downlink_schema_fields. }
  { apply downlink_build_fields. }
  exists st2'. split; [|exact K2'].
  apply (try_first st2 _ received (fun _ l => l) (fun nonce d => crc8 (d ++ downlink_key ks key ++ nonce)) 1 downlink_schema downlink_build (repeat 105%N 8) [] data (Ok p) st2' RC Pa).
Qed.

Theorem C38_downlink_round_trip : forall ks key now1 st1 p, builder_ok st1 -> downlink_ok p ->
  exists bytes st1', serialize_downlink ks key now1 st1 p = Ok (bytes, st1') /\ builder_ok st1' /\
    length bytes <= MAX_VLP_PACKET_SIZE /\
    forall now2 air st2, builder_ok st2 ->
      exists st2', deserialize_downlink ks key now2 air st2 bytes = (Ok p, st2') /\ builder_ok st2'.
Proof.
  intros ks key now1 st1 p K1 O. destruct (C68_downlink_survives_byte_errors ks key now1 st1 p K1 O) as (b & st1' & E & K & L & R).
  exists b, st1'. split; [exact E|]. split; [exact K|]. split; [rewrite L; unfold MAX_VLP_PACKET_SIZE; destruct p; lia|].
  intros now2 air st2 K2. apply R; [exact K2|reflexivity|rewrite distance_refl; lia].
Qed.

(** ** C41 is refuted: with the constant nonce, bytes recorded off the air are
    accepted again at any later time and in any later state of the rocket. *)
Theorem C41_refuted_replay : forall ks key now1 st1 p, builder_ok st1 -> uplink_ok p ->
  exists bytes st1', serialize_uplink ks key now1 st1 p = Ok (bytes, st1') /\
    forall now2 air2 st2 now3 air3 st3, builder_ok st2 -> builder_ok st3 ->
      fst (deserialize_uplink ks key now2 air2 st2 bytes) = Ok p /\ fst (deserialize_uplink ks key now3 air3 st3 bytes) = Ok p.
Proof.
  intros ks key now1 st1 p K1 O. destruct (C38_uplink_round_trip ks key now1 st1 p K1 O) as (b & st1' & E & K & L & R).
  exists b, st1'. split; [exact E|]. intros now2 air2 st2 now3 air3 st3 K2 K3.
  destruct (R now2 air2 st2 K2) as (x & -> & _). destruct (R now3 air3 st3 K3) as (y & -> & _). split; reflexivity.
Qed.

(** ** C40: what the receiver accepts, and when it panics *)
Fixpoint dec_all (l : list prim) (s : list bool) : list val :=
  match l with [] => [] | p :: l => dec p s :: dec_all l (skipn (plen p) s) end.

Lemma read_all_exact n : forall l r, br_ok r n ->
  fst (read_all r l) = if total l <=? br_len r then Some (dec_all l (br_bits r)) else None.
Proof.
  induction l as [|p l IH]; intros r K; cbn [read_all total fold_right dec_all]; [reflexivity|]. fold (total l).
  destruct (Nat.le_gt_cases (plen p) (br_len r)) as [L|L].
  - destruct (br_read_spec r n p K L) as (r1 & E1 & K1 & B1 & L1). rewrite E1. specialize (IH r1 K1). rewrite B1, L1 in IH.
    destruct (read_all r1 l) as [[vs|] r2]; cbn [fst] in *; destruct (Nat.leb_spec (total l) (br_len r - plen p)); destruct (Nat.leb_spec (plen p + total l) (br_len r)); try lia; try discriminate IH.
    + injection IH as ->. reflexivity.
    + reflexivity.
  - rewrite (br_read_none r p L). cbn [fst]. destruct (Nat.leb_spec (plen p + total l) (br_len r)); [lia|reflexivity].
Qed.

(** the type code at the front of a body *)
Definition code_at (w : nat) (data : list byte) : N := bits_val (firstn w (bits_of_bytes data)).
Definition fields_at (w : nat) (l : list prim) (data : list byte) : list val := dec_all l (skipn w (bits_of_bytes data)).

Lemma parse_exact {P} st w (schema : N -> option (list prim)) (build : N -> list val -> option P) data :
  builder_ok st -> length data <= MAX_VLP_PACKET_SIZE -> w <= 8 * length data ->
  fst (parse st w schema build data) =
    match schema (code_at w data) with
    | None => None
    | Some l => Some (if w + total l <=? 8 * length data
                      then match build (code_at w data) (fields_at w l data) with Some p => Ok p | None => Panicked end
                      else Panicked)
    end.
Proof.
  intros [KW KR] L W. unfold parse, code_at, fields_at.
  assert (K0 : br_ok (BR (br_buf (b_r st)) 0 0) MAX_VLP_PACKET_SIZE).
  { destruct KR as (H & _). split; [exact H|]. cbn [br_start br_end]. split; [lia|]. split; [lia|reflexivity]. }
  assert (E : exists r, br_replenish (BR (br_buf (b_r st)) 0 0) data = Some r /\ br_ok r MAX_VLP_PACKET_SIZE /\ br_bits r = bits_of_bytes data).
  { unfold br_replenish. destruct (br_shift_spec _ _ K0) as (r1 & E1 & K1 & B1 & L1 & X1). rewrite E1.
    assert (X2 : br_end r1 = 0).
    { unfold br_shift in E1. cbn [br_len br_end br_start br_buf] in E1. change (0 - 0) with 0 in E1. change ((8 - 0 mod 8) mod 8 + 0) with 0 in E1.
      change (0 <=? length (br_buf (b_r st))) with true in E1. injection E1 as <-. reflexivity. }
    destruct (br_append_spec r1 _ data K1 ltac:(lia)) as (r2 & E2 & K2 & B2 & L2). exists r2. split; [exact E2|]. split; [exact K2|].
    rewrite B2, B1. unfold br_bits. cbn [br_buf br_start br_end]. reflexivity. }
  destruct E as (r & -> & K & Br).
  assert (BL : br_len r = 8 * length data) by (rewrite <- (br_bits_length r _ K), Br; apply bits_of_bytes_length).
  destruct (br_read_spec r _ (TInt w) K) as (r1 & E1 & K1 & B1 & L1); [cbn [plen]; lia|]. rewrite E1. cbn [dec plen] in *. rewrite Br in *.
  destruct (schema (bits_val (firstn w (bits_of_bytes data)))) as [l|]; [|reflexivity].
  pose proof (read_all_exact _ l r1 K1) as RE. rewrite B1, L1, BL in RE.
  destruct (read_all r1 l) as [[vs|] r2]; cbn [fst] in *; destruct (Nat.leb_spec (total l) (8 * length data - w)); destruct (Nat.leb_spec (w + total l) (8 * length data)); try lia; try discriminate RE.
  - injection RE as ->. reflexivity.
  - reflexivity.
Qed.

(** decoding and encoding again gives the bits back, for the field types used *)
Fixpoint flat (p : prim) : Prop := match p with TBool | TInt _ => True | TPair p => flat p | _ => False end.
Lemma le_bits_val : forall l, le_bits (length l) (bits_val l) = l.
Proof.
  induction l as [|b l IH]; [reflexivity|]. cbn [length le_bits bits_val]. f_equal.
  - rewrite N.add_comm, N.odd_add, N.odd_mul. change (N.odd 2) with false. cbn [andb xorb]. destruct b; reflexivity.
  - assert (E : N.div2 ((if b then 1 else 0) + 2 * bits_val l) = bits_val l).
    { rewrite N.div2_div. destruct b; [symmetry; apply (N.div_unique _ 2 _ 1)|symmetry; apply (N.div_unique _ 2 _ 0)]; lia. }
    rewrite E. exact IH.
Qed.
Lemma enc_dec : forall p s, flat p -> wf_prim p -> plen p <= length s -> enc p (dec p s) = firstn (plen p) s.
Proof.
  induction p as [|w| |p IH|n p IH|p IH]; intros s F W L; cbn [flat wf_prim plen] in *; try contradiction.
  - destruct s as [|b s]; [cbn in L; lia|reflexivity].
  - cbn [dec enc]. rewrite <- (firstn_length_le s L) at 1. apply le_bits_val.
  - cbn [dec enc]. destruct W as [W1 W2]. rewrite !IH by (try assumption; rewrite ?skipn_length; lia). rewrite W1.
    rewrite <- (firstn_skipn 64 (firstn 128 s)). rewrite firstn_firstn. f_equal. rewrite skipn_firstn_comm. reflexivity.
Qed.
Lemma enc_dec_all : forall l s, Forall (fun p => flat p /\ wf_prim p) l -> total l <= length s ->
  enc_all (combine l (dec_all l s)) = firstn (total l) s.
Proof.
  induction l as [|p l IH]; intros s F L; cbn [total fold_right dec_all combine enc_all flat_map fst snd] in *; [reflexivity|]. fold (total l) in *.
  inversion F as [|x l0 [F1 F2] F3]; subst. fold (enc_all (combine l (dec_all l (skipn (plen p) s)))). rewrite IH by (try assumption; rewrite skipn_length; lia).
  rewrite enc_dec by (try assumption; lia). rewrite <- (firstn_skipn (plen p) (firstn (plen p + total l) s)), firstn_firstn. f_equal.
  - f_equal. lia.
  - rewrite skipn_firstn_comm. f_equal. lia.
Qed.

Lemma pyro_code_of n p : pyro_of_code n = Some p -> n = pyro_code p.
Proof.
  unfold pyro_of_code. destruct (N.eqb_spec n 1); [intros H; injection H as <-; assumption|].
  destruct (N.eqb_spec n 2); [intros H; injection H as <-; assumption|]. destruct (N.eqb_spec n 3); [intros H; injection H as <-; assumption|discriminate].
Qed.

Lemma uplink_schema_cases code l : uplink_schema code = Some l ->
  Forall (fun p => flat p /\ wf_prim p) l /\
  (l = [TInt 64] /\ (code = 0 \/ code = 3 \/ code = 4 \/ code = 6)%N \/ l = [TInt 64; TBool] /\ (code = 1 \/ code = 2)%N \/ l = [TInt 64; TInt 8] /\ code = 5%N).
Proof.
  intros H.
  assert (C : (l = [TInt 64] /\ (code = 0 \/ code = 3 \/ code = 4 \/ code = 6)%N \/ l = [TInt 64; TBool] /\ (code = 1 \/ code = 2)%N \/ l = [TInt 64; TInt 8] /\ code = 5%N)).
  { unfold uplink_schema in H. destruct code as [|c]; [injection H as <-; left; tauto|].
    destruct c as [c|c|]; [destruct c as [c|c|]|destruct c as [c|c|]|]; try discriminate H;
      try (destruct c as [c|c|]); try discriminate H; injection H as <-; tauto. }
  split; [|exact C]. destruct C as [[-> _]|[[-> _]|[-> _]]]; repeat (constructor; [split; exact I|]); constructor.
Qed.

Lemma uplink_build_inv code l s p : uplink_schema code = Some l -> uplink_build code (dec_all l s) = Some p ->
  uplink_code p = code /\ combine l (dec_all l s) = uplink_fields p.
Proof.
  intros H B. destruct (uplink_schema_cases code l H) as [_ [[-> C]|[[-> C]|[-> C]]]]; cbn [dec_all dec combine] in *.
  - destruct C as [->|[->|[->| ->]]]; cbn [uplink_build] in B; injection B as <-; split; reflexivity.
  - destruct C as [->| ->]; cbn [uplink_build] in B; injection B as <-; split; reflexivity.
  - subst code. cbn [uplink_build] in B. destruct (pyro_of_code _) as [q|] eqn:Q; [|discriminate B]. injection B as <-. split; [reflexivity|].
    cbn [uplink_fields]. rewrite (pyro_code_of _ _ Q). reflexivity.
Qed.

(** the nonce the code uses, whatever the time *)
Definition the_nonce : list byte := repeat 105%N 8.

Lemma deserialize_uplink_unfold ks key now air st received : 8 < length received -> length received <= MAX_VLP_PACKET_SIZE ->
  fst (deserialize_uplink ks key now air st received) =
  match rs_correct (length received / 5) (process ks key the_nonce received) with
  | None => Err
  | Some b => match rev b with
              | [] => Panicked
              | c :: rdata => if (crc8 (rev rdata) =? c)%N
                              then match fst (parse st 4 uplink_schema uplink_build (rev rdata)) with Some r => r | None => Err end
                              else Err
              end
  end.
Proof.
  intros L _. unfold deserialize_uplink, ecc_from_total. destruct (Nat.leb_spec (length received) 8); [lia|].
  unfold get_past_nonce. cbn [TIME_BASED_NONCE_ENABLED try_nonces]. fold the_nonce.
  destruct (rs_correct (length received / 5) (process ks key the_nonce received)) as [b|]; [|reflexivity].
  destruct (rev b) as [|c rdata]; [reflexivity|]. destruct (crc8 (rev rdata) =? c)%N; [|reflexivity].
  destruct (parse st 4 uplink_schema uplink_build (rev rdata)) as [[r|] st']; reflexivity.
Qed.
Lemma deserialize_downlink_unfold ks key now air st received : 8 < length received -> length received <= MAX_VLP_PACKET_SIZE ->
  fst (deserialize_downlink ks key now air st received) =
  match rs_correct (length received / 5) received with
  | None => Err
  | Some b => match rev b with
              | [] => Panicked
              | c :: rdata => if (crc8 (rev rdata ++ downlink_key ks key ++ the_nonce) =? c)%N
                              then match fst (parse st 1 downlink_schema downlink_build (rev rdata)) with Some r => r | None => Err end
                              else Err
              end
  end.
Proof.
  intros L _. unfold deserialize_downlink, ecc_from_total. destruct (Nat.leb_spec (length received) 8); [lia|].
  unfold get_past_nonce. cbn [TIME_BASED_NONCE_ENABLED try_nonces]. fold the_nonce.
  destruct (rs_correct (length received / 5) received) as [b|]; [|reflexivity].
  destruct (rev b) as [|c rdata]; [reflexivity|]. destruct (crc8 (rev rdata ++ downlink_key ks key ++ the_nonce) =? c)%N; [|reflexivity].
  destruct (parse st 1 downlink_schema downlink_build (rev rdata)) as [[r|] st']; reflexivity.
Qed.

Lemma rev_split {A} (b : list A) c rdata : rev b = c :: rdata -> b = rev rdata ++ [c].
Proof. intros H. rewrite <- (rev_involutive b), H. reflexivity. Qed.

(** [framed e word body check]: [word] is, up to [e/2] wrong bytes, the
    codeword of [body] followed by its checksum *)
Definition framed (e : nat) (word data : list byte) (check : byte) : Prop :=
  distance ((data ++ [check]) ++ rs_ecc e (data ++ [check])) word <= e / 2.

(** Whatever bytes arrive, in whatever state: if a packet comes out, then the
    decrypted bytes are (up to the correctable errors) the codeword of a body
    with a right checksum, and the body starts with exactly that packet's type
    and fields. *)
Theorem C40_uplink_accepts_only_framed : forall ks key now air st received p,
  builder_ok st -> length received <= MAX_VLP_PACKET_SIZE ->
  fst (deserialize_uplink ks key now air st received) = Ok p ->
  exists data pad, framed (length received / 5) (process ks key the_nonce received) data (crc8 data) /\
    bits_of_bytes data = le_bits 4 (uplink_code p) ++ enc_all (uplink_fields p) ++ pad.
Proof.
  intros ks key now air st received p K L H. destruct (Nat.le_gt_cases (length received) 8) as [S|S].
  - unfold deserialize_uplink in H. destruct (Nat.leb_spec (length received) 8); [discriminate H|lia].
  - rewrite (deserialize_uplink_unfold ks key now air st received S L) in H.
    destruct (rs_correct (length received / 5) (process ks key the_nonce received)) as [b|] eqn:R; [|discriminate H].
    destruct (rs_accepts_only_near_codewords _ _ _ R) as (BO & BL & BD).
    destruct (rev b) as [|c rdata] eqn:Rv; [discriminate H|]. apply rev_split in Rv. set (data := rev rdata) in *. subst b.
    destruct (N.eqb_spec (crc8 data) c) as [C|C]; [|discriminate H]. subst c.
    unfold process in BL. rewrite xor_stream_length, app_length in BL. cbn [length] in BL.
    assert (DL : 7 <= length data <= MAX_VLP_PACKET_SIZE).
    { pose proof (Nat.div_mod_eq (length received) 5). pose proof (Nat.mod_upper_bound (length received) 5 ltac:(lia)). lia. }
    rewrite (parse_exact st 4 uplink_schema uplink_build data K) in H by lia.
    destruct (uplink_schema (code_at 4 data)) as [l|] eqn:Sc; [|discriminate H].
    destruct (Nat.leb_spec (4 + total l) (8 * length data)) as [T|T]; [|discriminate H].
    destruct (uplink_build (code_at 4 data) (fields_at 4 l data)) as [p'|] eqn:B; [|discriminate H]. injection H as ->.
    destruct (uplink_build_inv _ _ _ _ Sc B) as [E1 E2].
    exists data, (skipn (total l) (skipn 4 (bits_of_bytes data))). split; [exact BD|].
    rewrite <- E2, E1. rewrite (enc_dec_all l (skipn 4 (bits_of_bytes data))).
    + rewrite firstn_skipn. unfold code_at.
      assert (L4 : length (firstn 4 (bits_of_bytes data)) = 4) by (rewrite firstn_length, bits_of_bytes_length; lia).
      rewrite <- L4 at 1. rewrite le_bits_val. symmetry. apply firstn_skipn.
    + apply (proj1 (uplink_schema_cases _ _ Sc)).
    + rewrite skipn_length, bits_of_bytes_length. lia.
Qed.

Lemma downlink_schema_cases code l : downlink_schema code = Some l ->
  l = [TInt 64] /\ code = 0%N \/ l = telemetry_schema /\ code = 1%N.
Proof.
  unfold downlink_schema. destruct code as [|c]; [intros H; injection H as <-; left; split; reflexivity|].
  destruct c; intros H; try discriminate H. injection H as <-. right. split; reflexivity.
Qed.

Theorem C40_downlink_accepts_only_framed : forall ks key now air st received p,
  builder_ok st -> length received <= MAX_VLP_PACKET_SIZE ->
  fst (deserialize_downlink ks key now air st received) = Ok p ->
  exists data pad, framed (length received / 5) received data (crc8 (data ++ downlink_key ks key ++ the_nonce)) /\
    bits_of_bytes data = le_bits 1 (downlink_code p) ++ enc_all (downlink_fields p) ++ pad.
Proof.
  intros ks key now air st received p K L H. destruct (Nat.le_gt_cases (length received) 8) as [S|S].
  - unfold deserialize_downlink in H. destruct (Nat.leb_spec (length received) 8); [discriminate H|lia].
  - rewrite (deserialize_downlink_unfold ks key now air st received S L) in H.
    destruct (rs_correct (length received / 5) received) as [b|] eqn:R; [|discriminate H].
    destruct (rs_accepts_only_near_codewords _ _ _ R) as (BO & BL & BD).
    destruct (rev b) as [|c rdata] eqn:Rv; [discriminate H|]. apply rev_split in Rv. set (data := rev rdata) in *. subst b.
    destruct (N.eqb_spec (crc8 (data ++ downlink_key ks key ++ the_nonce)) c) as [C|C]; [|discriminate H]. subst c.
    rewrite app_length in BL. cbn [length] in BL.
    assert (DL : 7 <= length data <= MAX_VLP_PACKET_SIZE).
    { pose proof (Nat.div_mod_eq (length received) 5). pose proof (Nat.mod_upper_bound (length received) 5 ltac:(lia)). lia. }
    rewrite (parse_exact st 1 downlink_schema downlink_build data K) in H by lia.
    destruct (downlink_schema (code_at 1 data)) as [l|] eqn:Sc; [|discriminate H].
    destruct (Nat.leb_spec (1 + total l) (8 * length data)) as [T|T]; [|discriminate H].
    destruct (downlink_build (code_at 1 data) (fields_at 1 l data)) as [p'|] eqn:B; [|discriminate H]. injection H as ->.
    assert (E : downlink_code p = code_at 1 data /\ combine l (fields_at 1 l data) = downlink_fields p /\ Forall (fun p => flat p /\ wf_prim p) l).
    { unfold fields_at in *. set (s := skipn 1 (bits_of_bytes data)) in *. destruct (downlink_schema_cases _ _ Sc) as [[-> E]|[-> E]]; rewrite E in *.
      - cbn [dec_all dec] in B. cbn [downlink_build] in B. injection B as <-. split; [reflexivity|]. split; [reflexivity|]. constructor; [split; exact I|constructor].
      - unfold telemetry_schema in *. cbn [dec_all dec downlink_build] in B. injection B as <-. split; [reflexivity|]. split; [reflexivity|].
        repeat match goal with |- Forall _ (_ :: _) => constructor end; try constructor; cbn [flat wf_prim plen]; try exact I. split; [reflexivity|exact I]. }
    destruct E as (E1 & E2 & E3).
    exists data, (skipn (total l) (skipn 1 (bits_of_bytes data))). split; [exact BD|].
    rewrite <- E2, E1. unfold fields_at. rewrite (enc_dec_all l (skipn 1 (bits_of_bytes data)) E3).
    + rewrite firstn_skipn. unfold code_at.
      assert (L4 : length (firstn 1 (bits_of_bytes data)) = 1) by (rewrite firstn_length, bits_of_bytes_length; lia).
      rewrite <- L4 at 1. rewrite le_bits_val. symmetry. apply firstn_skipn.
    + rewrite skipn_length, bits_of_bytes_length. lia.
Qed.

(** With at least 13 bytes (the length of the longest uplink packet), the only
    way to make the rocket panic is a ground-test packet, validly framed, that
    names a pyro channel other than 1, 2, 3. *)
Theorem C40_uplink_panics_only_on_bad_pyro_partial : forall ks key now air st received,
  builder_ok st -> 13 <= length received -> length received <= MAX_VLP_PACKET_SIZE ->
  fst (deserialize_uplink ks key now air st received) = Panicked ->
  exists data, framed (length received / 5) (process ks key the_nonce received) data (crc8 data) /\
    code_at 4 data = 5%N /\ exists ts n, fields_at 4 [TInt 64; TInt 8] data = [VN ts; VN n] /\ n <> 1%N /\ n <> 2%N /\ n <> 3%N.
Proof.
  intros ks key now air st received K S L H.
  rewrite (deserialize_uplink_unfold ks key now air st received ltac:(lia) L) in H.
  destruct (rs_correct (length received / 5) (process ks key the_nonce received)) as [b|] eqn:R; [|discriminate H].
  destruct (rs_accepts_only_near_codewords _ _ _ R) as (BO & BL & BD). unfold process in BL. rewrite xor_stream_length in BL.
  assert (DL0 : 11 <= length b <= MAX_VLP_PACKET_SIZE).
  { pose proof (Nat.div_mod_eq (length received) 5). pose proof (Nat.mod_upper_bound (length received) 5 ltac:(lia)). lia. }
  destruct (rev b) as [|c rdata] eqn:Rv; [apply (f_equal (@length _)) in Rv; rewrite rev_length in Rv; cbn in Rv; lia|].
  apply rev_split in Rv. set (data := rev rdata) in *. subst b. rewrite app_length in DL0. cbn [length] in DL0.
  destruct (N.eqb_spec (crc8 data) c) as [C|C]; [|discriminate H]. subst c.
  rewrite (parse_exact st 4 uplink_schema uplink_build data K) in H by lia.
  destruct (uplink_schema (code_at 4 data)) as [l|] eqn:Sc; [|discriminate H].
  exists data. split; [exact BD|]. destruct (uplink_schema_cases _ _ Sc) as [_ [[-> E]|[[-> E]|[-> E]]]].
  - exfalso. destruct (Nat.leb_spec (4 + total [TInt 64]) (8 * length data)) as [T|T]; [|cbn in T; lia].
    unfold fields_at in H. cbn [dec_all dec] in H. destruct E as [E|[E|[E|E]]]; rewrite E in H; discriminate H.
  - exfalso. destruct (Nat.leb_spec (4 + total [TInt 64; TBool]) (8 * length data)) as [T|T]; [|cbn in T; lia].
    unfold fields_at in H. cbn [dec_all dec] in H. destruct E as [E|E]; rewrite E in H; discriminate H.
  - split; [exact E|]. destruct (Nat.leb_spec (4 + total [TInt 64; TInt 8]) (8 * length data)) as [T|T]; [|cbn in T; lia].
    unfold fields_at in *. cbn [dec_all dec] in *. eexists. eexists. split; [reflexivity|]. rewrite E in H. cbn [uplink_build] in H.
    set (n := bits_val (firstn 8 (skipn (plen (TInt 64)) (skipn 4 (bits_of_bytes data))))) in *.
    destruct (pyro_of_code n) as [q|] eqn:Q; [discriminate H|]. unfold pyro_of_code in Q.
    destruct (N.eqb_spec n 1); [discriminate|]. destruct (N.eqb_spec n 2); [discriminate|]. destruct (N.eqb_spec n 3); [discriminate|]. split; [assumption|]. split; assumption.
Qed.

(** The same for the ground station: with at least 43 bytes it never panics. *)
Theorem C40_downlink_never_panics_partial : forall ks key now air st received,
  builder_ok st -> 43 <= length received -> length received <= MAX_VLP_PACKET_SIZE ->
  fst (deserialize_downlink ks key now air st received) <> Panicked.
Proof.
  intros ks key now air st received K S L H.
  rewrite (deserialize_downlink_unfold ks key now air st received ltac:(lia) L) in H.
  destruct (rs_correct (length received / 5) received) as [b|] eqn:R; [|discriminate H].
  destruct (rs_accepts_only_near_codewords _ _ _ R) as (BO & BL & BD).
  assert (DL0 : 35 <= length b <= MAX_VLP_PACKET_SIZE).
  { pose proof (Nat.div_mod_eq (length received) 5). pose proof (Nat.mod_upper_bound (length received) 5 ltac:(lia)). lia. }
  destruct (rev b) as [|c rdata] eqn:Rv; [apply (f_equal (@length _)) in Rv; rewrite rev_length in Rv; cbn in Rv; lia|].
  apply rev_split in Rv. set (data := rev rdata) in *. subst b. rewrite app_length in DL0. cbn [length] in DL0.
  destruct (crc8 (data ++ downlink_key ks key ++ the_nonce) =? c)%N; [|discriminate H].
  rewrite (parse_exact st 1 downlink_schema downlink_build data K) in H by lia.
  destruct (downlink_schema (code_at 1 data)) as [l|] eqn:Sc; [|discriminate H].
  destruct (downlink_schema_cases _ _ Sc) as [[-> E]|[-> E]].
  - destruct (Nat.leb_spec (1 + total [TInt 64]) (8 * length data)) as [T|T]; [|cbn in T; lia].
    unfold fields_at in H. cbn [dec_all dec] in H. rewrite E in H. discriminate H.
  - rewrite telemetry_total in H. destruct (Nat.leb_spec (1 + 269) (8 * length data)) as [T|T]; [|lia].
    unfold fields_at, telemetry_schema in H. cbn [dec_all dec] in H. rewrite E in H. discriminate H.
Qed.

(** C40 is refuted in general.  For every key and every state of the rocket
    there are 11 bytes that make it panic: a validly framed body too short for
    its fields. *)
Lemma deliver ks key now air st data : builder_ok st -> bytes_ok data -> 8 <= length data -> length data + 1 + (length data + 1) / 4 <= MAX_VLP_PACKET_SIZE ->
  let word := (data ++ [crc8 data]) ++ rs_ecc ((length data + 1) / 4) (data ++ [crc8 data]) in
  length (process ks key the_nonce word) = length data + 1 + (length data + 1) / 4 /\
  bytes_ok (process ks key the_nonce word) /\
  fst (deserialize_uplink ks key now air st (process ks key the_nonce word)) =
  match fst (parse st 4 uplink_schema uplink_build data) with Some r => r | None => Err end.
Proof.
  intros K B L1 L2. cbv zeta. set (word := (data ++ [crc8 data]) ++ rs_ecc ((length data + 1) / 4) (data ++ [crc8 data])).
  assert (BB : bytes_ok (data ++ [crc8 data])) by (apply Forall_app; split; [exact B|constructor; [apply crc8_ok|constructor]]).
  assert (WL : length word = length data + 1 + (length data + 1) / 4) by (unfold word; rewrite !app_length, rs_ecc_length; reflexivity).
  assert (PL : length (process ks key the_nonce word) = length data + 1 + (length data + 1) / 4) by (unfold process; rewrite xor_stream_length; exact WL).
  split; [exact PL|]. split; [unfold process; apply xor_stream_ok; unfold word; apply Forall_app; split; [exact BB|apply rs_ecc_ok, BB]|].
  rewrite deserialize_uplink_unfold by lia.
  assert (TE : (length data + 1 + (length data + 1) / 4) / 5 = (length data + 1) / 4) by apply (C39_split_recovered (length data + 1)).
  rewrite PL, TE. unfold process. rewrite xor_stream_twice.
  rewrite (rs_corrects _ (data ++ [crc8 data])).
  - rewrite rev_app_distr. cbn [rev app]. rewrite rev_involutive, N.eqb_refl. reflexivity.
  - exact BB.
  - rewrite WL, app_length. cbn [length]. lia.
  - rewrite WL. unfold MAX_VLP_PACKET_SIZE in *. lia.
  - fold word. rewrite distance_refl. lia.
Qed.

Theorem C40_refuted_short_packet : forall ks key now air st, builder_ok st ->
  exists received, bytes_ok received /\ length received = 11 /\ fst (deserialize_uplink ks key now air st received) = Panicked.
Proof.
  intros ks key now air st K.
  assert (B : bytes_ok (repeat 0%N 8)) by (repeat (constructor; [reflexivity|]); constructor).
  destruct (deliver ks key now air st (repeat 0%N 8) K B) as (L & O & E); [cbn; lia|cbn; unfold MAX_VLP_PACKET_SIZE; lia|].
  eexists. split; [exact O|]. split; [exact L|]. rewrite E, (parse_exact st 4 uplink_schema uplink_build (repeat 0%N 8) K); [reflexivity|cbn; unfold MAX_VLP_PACKET_SIZE; lia|cbn; lia].
Qed.
Theorem C40_refuted_bad_pyro : forall ks key now air st, builder_ok st ->
  exists received, bytes_ok received /\ length received = 13 /\ fst (deserialize_uplink ks key now air st received) = Panicked.
Proof.
  intros ks key now air st K.
  assert (B : bytes_ok (5%N :: repeat 0%N 9)) by (repeat (constructor; [reflexivity|]); constructor).
  destruct (deliver ks key now air st (5%N :: repeat 0%N 9) K B) as (L & O & E); [cbn; lia|cbn; unfold MAX_VLP_PACKET_SIZE; lia|].
  eexists. split; [exact O|]. split; [exact L|]. rewrite E, (parse_exact st 4 uplink_schema uplink_build (5%N :: repeat 0%N 9) K); [reflexivity|cbn; unfold MAX_VLP_PACKET_SIZE; lia|cbn; lia].
Qed.
(** and 12 bytes, not even encrypted, for the ground station *)
Theorem C40_refuted_short_telemetry : forall ks key now air st, builder_ok st ->
  exists received, length received = 12 /\ fst (deserialize_downlink ks key now air st received) = Panicked.
Proof.
  intros ks key now air st K. set (data := 1%N :: repeat 0%N 8). set (b := data ++ [crc8 (data ++ downlink_key ks key ++ the_nonce)]).
  assert (BB : bytes_ok b).
  { apply Forall_app. split; [repeat (constructor; [reflexivity|]); constructor|constructor; [apply crc8_ok|constructor]]. }
  exists (b ++ rs_ecc 2 b). assert (WL : length (b ++ rs_ecc 2 b) = 12) by (rewrite app_length, rs_ecc_length; reflexivity). split; [exact WL|].
  rewrite deserialize_downlink_unfold by (rewrite WL; unfold MAX_VLP_PACKET_SIZE; lia). rewrite WL. change (12 / 5) with 2.
  rewrite (rs_corrects 2 b); [|exact BB|rewrite WL; reflexivity|rewrite WL; lia|rewrite distance_refl; lia].
  unfold b at 1. rewrite rev_app_distr. cbn [rev app]. rewrite rev_involutive, N.eqb_refl.
  rewrite (parse_exact st 1 downlink_schema downlink_build data K); [|cbn; unfold MAX_VLP_PACKET_SIZE; lia|cbn; lia].
  change (code_at 1 data) with 1%N. cbn [downlink_schema]. rewrite telemetry_total. reflexivity.
Qed.

(** ** C39, size: every packet either side can build fits the radio buffer *)
Theorem C39_packets_fit : forall ks key now st,
  builder_ok st ->
  (forall p, uplink_ok p -> exists bytes st', serialize_uplink ks key now st p = Ok (bytes, st') /\ length bytes <= MAX_VLP_PACKET_SIZE) /\
  (forall p, downlink_ok p -> exists bytes st', serialize_downlink ks key now st p = Ok (bytes, st') /\ length bytes <= MAX_VLP_PACKET_SIZE).
Proof.
  intros ks key now st K. split; intros p O.
  - destruct (C38_uplink_round_trip ks key now st p K O) as (b & st' & E & _ & L & _). exists b, st'. split; assumption.
  - destruct (C38_downlink_round_trip ks key now st p K O) as (b & st' & E & _ & L & _). exists b, st'. split; assumption.
Qed.

Theorem builder_new_ok : builder_ok builder_new.
Proof. split; [apply bw_new_ok|apply br_new_ok]. Qed.

(** ** C38, telemetry values *)

(** the nearest representable value of a range *)
Definition clamp (f : factory) (q : Q) : Q := if qlt q (f_min f) then f_min f else if qlt (f_max f) q then f_max f else q.

Lemma clamp_in f q : (f_min f < f_max f)%Q -> (f_min f <= clamp f q <= f_max f)%Q.
Proof.
  intros H. unfold clamp. destruct (qlt q (f_min f)) eqn:A; [split; [apply Qle_refl|apply Qlt_le_weak, H]|].
  destruct (qlt (f_max f) q) eqn:B; [split; [apply Qlt_le_weak, H|apply Qle_refl]|]. apply qlt_false in A, B. split; assumption.
Qed.
Lemma capped_spec f e q : declared f e ->
  (capped f q < 2 ^ N.of_nat (f_bits f))%N /\ (Qabs (to_float f (Z.of_N (capped f q)) - clamp f q) <= e)%Q.
Proof.
  intros D. destruct (declared_range f e D) as (Hm & Hb & _). pose proof (clamp_in f q Hm) as CI.
  destruct (C34_quantisation_partial f e D) as (IN & _). destruct (IN _ CI) as (n & C & R & A).
  assert (E : to_fixed_point_capped f (Num q) = Code n).
  { unfold to_fixed_point_capped. unfold clamp in C. destruct (qlt q (f_min f)); [rewrite C; reflexivity|]. destruct (qlt (f_max f) q); rewrite C; reflexivity. }
  unfold capped. rewrite E. cbn [code_of]. split.
  - apply N2Z.inj_lt. rewrite Z2N.id by apply R. rewrite N2Z.inj_pow. rewrite nat_N_Z. apply R.
  - rewrite Z2N.id by apply R. exact A.
Qed.

Ltac declare := left; split; [reflexivity|]; split; [reflexivity|]; split; [|eexists; eexists; reflexivity].
Lemma battery_declared : declared BatteryVFac (1 # 1000). Proof. declare. rewrite battery_bits. lia. Qed.
Lemma temperature_declared : declared TemperatureFac (1 # 10). Proof. declare. rewrite temperature_bits. lia. Qed.
Lemma free_declared : declared FreeSpaceFac 40960. Proof. declare. rewrite free_bits. lia. Qed.
Lemma altitude_declared : declared AltitudeFac 5. Proof. declare. rewrite altitude_bits. lia. Qed.
Lemma speed_declared : declared AirSpeedFac 2. Proof. declare. rewrite speed_bits. lia. Qed.

(** what a Rust caller can pass: f64 patterns and a u8 *)
Definition readings_ok (i : readings) : Prop :=
  match i_lat_lon i with Some (a, b) => (a < 2 ^ 64)%N /\ (b < 2 ^ 64)%N | None => True end.

Lemma as_u32_lt q : (as_u32 q < 2 ^ 32)%N.
Proof. unfold as_u32. apply N2Z.inj_lt. rewrite Z2N.id by lia. change (Z.of_N (2 ^ 32)) with (2 ^ 32)%Z. lia. Qed.

Lemma telemetry_new_ok i : readings_ok i -> telemetry_ok (telemetry_new i).
Proof.
  intros R. unfold telemetry_ok, telemetry_new. cbn [t_timestamp t_satellites t_lat t_lon t_battery t_temperature t_free t_alt t_max_alt t_backup_max_alt t_speed t_max_speed t_backup_max_speed t_state t_backup_state].
  pose proof (fun q => proj1 (capped_spec _ _ q battery_declared)) as HB. pose proof (fun q => proj1 (capped_spec _ _ q temperature_declared)) as HT.
  pose proof (fun q => proj1 (capped_spec _ _ q free_declared)) as HF. pose proof (fun q => proj1 (capped_spec _ _ q altitude_declared)) as HA.
  pose proof (fun q => proj1 (capped_spec _ _ q speed_declared)) as HS.
  rewrite battery_bits in HB. rewrite temperature_bits in HT. rewrite free_bits in HF. rewrite altitude_bits in HA. rewrite speed_bits in HS.
  split; [apply as_u32_lt|]. split; [apply N.mod_lt; discriminate|].
  split; [unfold readings_ok in R; destruct (i_lat_lon i) as [[a b]|]; [apply R|reflexivity]|].
  split; [unfold readings_ok in R; destruct (i_lat_lon i) as [[a b]|]; [apply R|reflexivity]|].
  split; [apply HB|]. split; [apply HT|]. split; [apply HF|]. split; [apply HA|]. split; [apply HA|]. split; [apply HA|].
  split; [apply HS|]. split; [apply HS|]. split; [apply HS|]. split; [destruct (i_state i); reflexivity|destruct (i_backup_state i); reflexivity].
Qed.

Lemma state_code_of s : state_of_code (state_code s) = s.
Proof. destruct s; reflexivity. Qed.

(** What the ground station's accessors report, after the packet made from the
    rocket's readings went through the radio: flags and states exactly, other
    values within the declared error of the value clamped to the declared
    range, the time to the second (rounded down). *)
Theorem C38_telemetry_values : forall ks key now1 st1 i, builder_ok st1 -> readings_ok i ->
  exists bytes st1', serialize_downlink ks key now1 st1 (TelemetryP (telemetry_new i)) = Ok (bytes, st1') /\
  forall now2 air st2, builder_ok st2 ->
  exists t, fst (deserialize_downlink ks key now2 air st2 bytes) = Ok (TelemetryP t) /\
    t_clock_ready t = i_clock_ready i /\ t_hw_armed t = i_hw i /\ t_sw_armed t = i_sw i /\
    t_pyro_main t = i_pm i /\ t_pyro_drogue t = i_pd i /\ t_drogue_deployed t = i_drogue i /\ t_main_deployed t = i_main i /\
    state_of_code (t_state t) = i_state i /\ state_of_code (t_backup_state t) = i_backup_state i /\
    ((i_satellites i < 32)%N -> t_satellites t = i_satellites i) /\
    ((0 <= i_timestamp i < 4294967295000)%Q -> (inject_Z (Z.of_N (get_timestamp t)) <= i_timestamp i < inject_Z (Z.of_N (get_timestamp t)) + 1000)%Q) /\
    (i_lat_lon i = None -> get_lat_lon t = None) /\
    (forall a b, i_lat_lon i = Some (a, b) -> get_lat_lon t = if is_zero_f64 a && is_zero_f64 b then None else Some (a, b)) /\
    (Qabs (to_float BatteryVFac (Z.of_N (t_battery t)) - clamp BatteryVFac (i_battery i)) <= 1 # 1000)%Q /\
    (Qabs (to_float TemperatureFac (Z.of_N (t_temperature t)) - clamp TemperatureFac (i_temperature i)) <= 1 # 10)%Q /\
    (Qabs (to_float FreeSpaceFac (Z.of_N (t_free t)) - clamp FreeSpaceFac (inject_Z (Z.of_N (i_free i)))) <= 40960)%Q /\
    (Qabs (to_float AltitudeFac (Z.of_N (t_alt t)) - clamp AltitudeFac (i_alt i)) <= 5)%Q /\
    (Qabs (to_float AltitudeFac (Z.of_N (t_max_alt t)) - clamp AltitudeFac (i_max_alt i)) <= 5)%Q /\
    (Qabs (to_float AltitudeFac (Z.of_N (t_backup_max_alt t)) - clamp AltitudeFac (i_backup_max_alt i)) <= 5)%Q /\
    (Qabs (to_float AirSpeedFac (Z.of_N (t_speed t)) - clamp AirSpeedFac (i_speed i)) <= 2)%Q /\
    (Qabs (to_float AirSpeedFac (Z.of_N (t_max_speed t)) - clamp AirSpeedFac (i_max_speed i)) <= 2)%Q /\
    (Qabs (to_float AirSpeedFac (Z.of_N (t_backup_max_speed t)) - clamp AirSpeedFac (i_backup_max_speed i)) <= 2)%Q.
Proof.
  intros ks key now1 st1 i K1 R.
  destruct (C38_downlink_round_trip ks key now1 st1 (TelemetryP (telemetry_new i)) K1 (telemetry_new_ok i R)) as (b & st1' & E & _ & _ & RT).
  exists b, st1'. split; [exact E|]. intros now2 air st2 K2. destruct (RT now2 air st2 K2) as (st2' & E2 & _). exists (telemetry_new i).
  split; [rewrite E2; reflexivity|]. clear E RT E2.
  split; [reflexivity|]. split; [reflexivity|]. split; [reflexivity|]. split; [reflexivity|]. split; [reflexivity|]. split; [reflexivity|]. split; [reflexivity|].
  split; [apply state_code_of|]. split; [apply state_code_of|].
  split; [intros H; unfold telemetry_new; cbn [t_satellites]; apply N.mod_small, H|].
  split.
  { intros [T1 T2]. unfold get_timestamp, telemetry_new. cbn [t_timestamp]. unfold as_u32.
    set (q := (i_timestamp i / 1000)%Q).
    assert (Q0 : (0 <= q)%Q) by (unfold q; apply Qle_shift_div_l; [reflexivity|rewrite Qmult_0_l; exact T1]).
    assert (Q1 : (q < 4294967295)%Q) by (unfold q; apply Qlt_shift_div_r; [reflexivity|exact T2]).
    assert (F0 : (0 <= Qfloor q)%Z) by (change 0%Z with (Qfloor 0); apply Qfloor_resp_le, Q0).
    assert (F1 : (Qfloor q <= 4294967295)%Z) by (change 4294967295%Z with (Qfloor 4294967295); apply Qfloor_resp_le, Qlt_le_weak, Q1).
    rewrite Z.max_r by lia. rewrite Z.min_r by (change (2 ^ 32 - 1)%Z with 4294967295%Z; lia).
    assert (EQ : (i_timestamp i == q * 1000)%Q) by (unfold q; field).
    rewrite N2Z.inj_mul, Z2N.id by exact F0. change (Z.of_N 1000) with 1000%Z. rewrite inject_Z_mult. change (inject_Z 1000) with 1000%Q.
    pose proof (Qfloor_le q) as L1. pose proof (Qlt_floor q) as L2. rewrite inject_Z_plus in L2. change (inject_Z 1) with 1%Q in L2.
    rewrite EQ. split; [apply Qmult_le_compat_r; [exact L1|discriminate]|].
    setoid_replace (inject_Z (Qfloor q) * 1000 + 1000)%Q with ((inject_Z (Qfloor q) + 1) * 1000)%Q by ring.
    apply Qmult_lt_compat_r; [reflexivity|exact L2]. }
  split; [intros H; unfold get_lat_lon, telemetry_new; cbn [t_lat t_lon]; rewrite H; reflexivity|].
  split; [intros a b0 H; unfold get_lat_lon, telemetry_new; cbn [t_lat t_lon]; rewrite H; reflexivity|].
  unfold telemetry_new. cbn [t_battery t_temperature t_free t_alt t_max_alt t_backup_max_alt t_speed t_max_speed t_backup_max_speed].
  split; [apply (capped_spec _ _ _ battery_declared)|]. split; [apply (capped_spec _ _ _ temperature_declared)|].
  split; [apply (capped_spec _ _ _ free_declared)|]. split; [apply (capped_spec _ _ _ altitude_declared)|]. split; [apply (capped_spec _ _ _ altitude_declared)|].
  split; [apply (capped_spec _ _ _ altitude_declared)|]. split; [apply (capped_spec _ _ _ speed_declared)|]. split; [apply (capped_spec _ _ _ speed_declared)|].
  apply (capped_spec _ _ _ speed_declared).
Qed.

(** More than 31 satellites are reported modulo 32. *)
Theorem C38_refuted_many_satellites : exists i, i_satellites i = 33%N /\ t_satellites (telemetry_new i) = 1%N.
Proof.
  exists (Readings true 0 33 None 7 20 true true 0 true true 0 0 0 0 0 0 Armed Armed false false). split; reflexivity.
Qed.

(** CRC check value of the catalogue, and a concrete packet and state *)
Example crc8_check : crc8 [49; 50; 51; 52; 53; 54; 55; 56; 57]%N = 244%N.
Proof. vm_compute. reflexivity. Qed.
Example vlp_example : uplink_ok (SoftArm 4668012723080132289 true) /\ builder_ok builder_new.
Proof. split; [reflexivity|apply builder_new_ok]. Qed.

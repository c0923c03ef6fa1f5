(** * Property theorems C55 (CAN identifiers and messages) and C74 (recording on the strain-gauge node).  Model: Can.v *)
From Verif Require Import Base Can.
Local Open Scope N_scope.

Definition id_ok (i : can_id) : Prop := priority i < 8 /\ message_type i < 256 /\ node_type i < 64 /\ node_id i < 4096.

Lemma id_fits i : id_ok i -> fits (id_fields i).
Proof. intros (A & B & C & D). unfold fits, id_fields. repeat (apply Forall_cons; [cbn [fst snd]; first [exact A|exact B|exact C|exact D|reflexivity]|]). apply Forall_nil. Qed.
Lemma raw_value i : id_ok i -> raw_id i = priority i * 67108864 + message_type i * 262144 + node_type i * 4096 + node_id i.
Proof.
  intros H. unfold raw_id. rewrite pack_number by (try apply id_fits; auto; vm_compute; discriminate).
  change (8 * N.of_nat 4 - width (id_fields i)) with 0. cbn [value id_fields].
  change (2 ^ width [(3, priority i); (8, message_type i); (6, node_type i); (12, node_id i)]) with 536870912.
  change (2 ^ width [(8, message_type i); (6, node_type i); (12, node_id i)]) with 67108864.
  change (2 ^ width [(6, node_type i); (12, node_id i)]) with 262144. change (2 ^ width [(12, node_id i)]) with 4096. change (2 ^ width []) with 1. change (2 ^ 0) with 1. lia.
Qed.

(** ** C55 *)
(** every identifier fits the 29 bits of an extended CAN identifier, and the fields come back *)
Theorem C55_id_round_trip : forall i, id_ok i -> from_raw (raw_id i) = i /\ raw_id i < 2 ^ 29.
Proof.
  intros i H. split.
  - unfold from_raw, raw_id. replace (be_bytes 4 (of_be (pack 4 (id_fields i)))) with (pack 4 (id_fields i)).
    + change [3; 3; 8; 6; 12] with (map fst (id_fields i)). rewrite unpack_pack; [destruct i; reflexivity|apply id_fits; exact H|vm_compute; discriminate].
    + symmetry. rewrite <- (pack_length 4 (id_fields i)) at 1. apply be_bytes_of_be. apply be_bytes_ok.
  - rewrite raw_value by exact H. destruct H as (A & B & C & D). change (2 ^ 29) with 536870912. lia.
Qed.
Print Assumptions C55_id_round_trip.

(** every 29-bit identifier is the identifier of the fields read from it *)
Theorem C55_raw_round_trip : forall raw, raw < 2 ^ 29 -> id_ok (from_raw raw) /\ raw_id (from_raw raw) = raw.
Proof.
  intros raw H. assert (E : from_raw raw = mkId ((raw / 67108864) mod 8) ((raw / 262144) mod 256) ((raw / 4096) mod 64) (raw mod 4096)).
  { unfold from_raw, unpack. rewrite of_be_be_bytes_id by (change (256 ^ N.of_nat 4) with 4294967296; change (2 ^ 29) with 536870912 in H; lia).
    cbn [split_at fold_right]. change (8 * N.of_nat 4 - (3 + (3 + (8 + (6 + (12 + 0)))))) with 0. change (2 ^ 0) with 1. rewrite !N.div_1_r. reflexivity. }
  assert (Ok : id_ok (from_raw raw)). { rewrite E. unfold id_ok. cbn [priority message_type node_type node_id]. repeat split; apply N.mod_lt; lia. }
  split; [exact Ok|]. rewrite raw_value by exact Ok. rewrite E. cbn [priority message_type node_type node_id]. change (2 ^ 29) with 536870912 in H.
  assert (Q : raw / 67108864 < 8) by (apply N.div_lt_upper_bound; lia). rewrite (N.mod_small (raw / 67108864)) by exact Q.
  pose proof (N.div_mod raw 4096 ltac:(lia)). pose proof (N.div_mod (raw / 4096) 64 ltac:(lia)). pose proof (N.div_mod (raw / 262144) 256 ltac:(lia)).
  rewrite !N.div_div in * by lia. change (4096 * 64) with 262144 in *. change (262144 * 256) with 67108864 in *. lia.
Qed.
Print Assumptions C55_raw_round_trip.

(** identifiers are ordered by priority first, then message type, node type, node id *)
Inductive id_before (i j : can_id) : Prop :=
| ib_priority : priority i < priority j -> id_before i j
| ib_type : priority i = priority j -> message_type i < message_type j -> id_before i j
| ib_node : priority i = priority j -> message_type i = message_type j -> node_type i < node_type j -> id_before i j
| ib_id : priority i = priority j -> message_type i = message_type j -> node_type i = node_type j -> node_id i < node_id j -> id_before i j.
Theorem C55_bus_order : forall i j, id_ok i -> id_ok j -> (raw_id i < raw_id j <-> id_before i j).
Proof.
  intros i j Hi Hj. rewrite !raw_value by assumption. destruct Hi as (A & B & C & D), Hj as (A' & B' & C' & D'). split.
  - intros H. destruct (N.lt_trichotomy (priority i) (priority j)) as [P|[P|P]]; [apply ib_priority; exact P| |lia].
    destruct (N.lt_trichotomy (message_type i) (message_type j)) as [Q|[Q|Q]]; [apply ib_type; assumption| |lia].
    destruct (N.lt_trichotomy (node_type i) (node_type j)) as [R|[R|R]]; [apply ib_node; assumption|apply ib_id; lia|lia].
  - intros [P|P Q|P Q R|P Q R T]; lia.
Qed.
Print Assumptions C55_bus_order.

(** CAN arbitration is won by the smaller identifier (0 is the dominant level), so the frame with the larger priority number loses,
    although driver/can_bus.rs:33 documents 7 as the highest priority *)
Definition wins_arbitration (a b : N) : Prop := a < b.
Theorem C55_documented_priority_refuted : forall i j, id_ok i -> id_ok j -> priority i < priority j -> wins_arbitration (raw_id i) (raw_id j).
Proof. intros i j Hi Hj H. apply C55_bus_order; auto. apply ib_priority. exact H. Qed.
Print Assumptions C55_documented_priority_refuted.

Definition msg_ok (m : can_msg) : Prop := match m with UnixTime ms | FlightEventMsg ms _ => ms < 2 ^ 48 | _ => True end.
Theorem C55_message_round_trip : forall m, msg_ok m -> from_data (msg_type m) (to_data m) = Some m /\ (length (to_data m) <= 8)%nat.
Proof.
  assert (F : forall size fs, fits fs -> width fs <= 8 * N.of_nat size -> unpack size (map fst fs) (pack size fs) = map snd fs) by exact unpack_pack.
  intros m H. unfold from_data. assert (L : length (to_data m) = msg_size (msg_type m)) by (destruct m; apply pack_length). rewrite L, Nat.eqb_refl.
  split; [|destruct m; cbn [msg_type msg_size]; lia].
  destruct m as [ms|lp a|ms e|h|]; cbn [msg_type to_data msg_ok] in *.
  - change [48] with (map fst [(48, ms)]). rewrite F; [reflexivity|apply Forall_cons; [exact H|apply Forall_nil]|vm_compute; discriminate].
  - change [1; 1] with (map fst [(1, bit lp); (1, bit a)]). rewrite F; [destruct lp, a; reflexivity| |vm_compute; discriminate].
    destruct lp, a; repeat apply Forall_cons; try apply Forall_nil; reflexivity.
  - change [48; 3] with (map fst [(48, ms); (3, event_code e)]). rewrite F; [destruct e; reflexivity| |vm_compute; discriminate].
    apply Forall_cons; [exact H|]. apply Forall_cons; [destruct e; reflexivity|apply Forall_nil].
  - change [2] with (map fst [(2, health_code h)]). rewrite F; [destruct h; reflexivity| |vm_compute; discriminate].
    apply Forall_cons; [destruct h; reflexivity|apply Forall_nil].
  - reflexivity.
Qed.
Print Assumptions C55_message_round_trip.

(** data that is not an encoded message makes the receiver panic: wrong length, or an undefined event or health code *)
Theorem C55_malformed_data_panics : from_data 1 [] = None /\ from_data 2 [0; 0; 0; 0; 0; 0; 128] = None /\ from_data 3 [255] = None.
Proof. repeat split; reflexivity. Qed.
Print Assumptions C55_malformed_data_panics.

(** node ids computed from serial numbers fit their field *)
Theorem C55_node_id_fits : forall crc16 serial, node_id_from_serial crc16 serial < 4096.
Proof.
  intros crc16 serial. unfold node_id_from_serial. change 4095 with (N.ones 12). rewrite N.land_ones. apply N.mod_lt. discriminate.
Qed.
Print Assumptions C55_node_id_fits.

(** ** C74: the strain-gauge node records exactly while the last status said "armed" and the last flight event was not a landing *)
(** a well-formed frame carrying message [m] from some node, or a remote request *)
Inductive carries : frame -> option can_msg -> Prop :=
| ca_data i m : id_ok i -> message_type i = msg_type m -> msg_ok m -> carries (mkFrame (raw_id i) false (to_data m)) (Some m)
| ca_remote i d : carries (mkFrame i true d) None.
(** the messages of a reception, oldest first; no reset among them *)
Definition last_armed (ms : list (option can_msg)) : bool :=
  fold_left (fun a m => match m with Some (AvionicsStatus _ x) => x | _ => a end) ms false.
Definition last_landed (ms : list (option can_msg)) : bool :=
  fold_left (fun a m => match m with Some (FlightEventMsg _ Landed) => true | Some (FlightEventMsg _ _) => false | _ => a end) ms false.
Definition last_time (ms : list (option can_msg)) : option N :=
  fold_left (fun a m => match m with Some (UnixTime t) => Some t | _ => a end) ms None.
Definition sg_start : sg := mkSg false false false None.

Lemma one_frame f m s : carries f m -> m <> Some Reset ->
  exists s', sg_frame s f = SgGo s' /\
   g_armed s' = match m with Some (AvionicsStatus _ x) => x | _ => g_armed s end /\
   g_landed s' = match m with Some (FlightEventMsg _ Landed) => true | Some (FlightEventMsg _ _) => false | _ => g_landed s end /\
   g_time s' = match m with Some (UnixTime t) => Some t | _ => g_time s end /\
   (g_adc s = g_armed s && negb (g_landed s) -> g_adc s' = g_armed s' && negb (g_landed s')).
Proof.
  intros [i m0 Hi Ht Hm|i d] Hr.
  - unfold sg_frame. cbn [fr_rtr fr_id fr_data]. destruct (C55_id_round_trip i Hi) as [-> _]. rewrite Ht. destruct (C55_message_round_trip m0 Hm) as [E _].
    destruct m0 as [ms|lp a|ms e|h|]; cbn [msg_type] in *; cbn [N.eqb Pos.eqb]; try rewrite E; try (eexists; repeat split; cbn; auto; fail).
    + destruct e; eexists; repeat split; cbn; auto.
    + congruence.
  - exists s. unfold sg_frame. cbn [fr_rtr]. auto 6.
Qed.

Theorem C74_recording_follows_messages : forall fs ms, Forall2 carries fs ms -> ~ In (Some Reset) ms ->
  exists s, sg_frames sg_start fs = SgGo s /\ g_adc s = last_armed ms && negb (last_landed ms) /\ g_time s = last_time ms.
Proof.
  intros fs ms HF Hr. unfold last_armed, last_landed, last_time.
  assert (G : forall s, g_adc s = g_armed s && negb (g_landed s) -> exists s', sg_frames s fs = SgGo s' /\
     g_armed s' = fold_left (fun a m => match m with Some (AvionicsStatus _ x) => x | _ => a end) ms (g_armed s) /\
     g_landed s' = fold_left (fun a m => match m with Some (FlightEventMsg _ Landed) => true | Some (FlightEventMsg _ _) => false | _ => a end) ms (g_landed s) /\
     g_time s' = fold_left (fun a m => match m with Some (UnixTime t) => Some t | _ => a end) ms (g_time s) /\
     g_adc s' = g_armed s' && negb (g_landed s')).
  { induction HF as [|f m fs ms Hc HF IH]; intros s Hs; [exists s; auto|]. cbn [sg_frames fold_left].
    destruct (one_frame f m s Hc) as (s1 & E & A & B & C & D); [intros ->; apply Hr; left; reflexivity|]. rewrite E, <- A, <- B, <- C. apply IH; [|apply D; exact Hs].
    intros Hi. apply Hr. right. exact Hi. }
  destruct (G sg_start eq_refl) as (s & E & A & B & C & D). exists s. split; [exact E|]. rewrite D, A, B, C. auto.
Qed.
Print Assumptions C74_recording_follows_messages.

(** a reset message resets the node, whatever came before *)
Theorem C74_reset : forall fs ms f i, Forall2 carries fs ms -> ~ In (Some Reset) ms -> id_ok i -> message_type i = 4 -> fr_id f = raw_id i -> fr_rtr f = false ->
  sg_frames sg_start (fs ++ [f]) = SgReset.
Proof.
  intros fs ms f i HF Hr Hi Ht Ef Er. destruct (C74_recording_follows_messages fs ms HF Hr) as (s & E & _).
  assert (G : forall l s0, sg_frames s0 l = SgGo s -> sg_frames s0 (l ++ [f]) = sg_frames s [f]).
  { induction l as [|a l IH]; intros s0 H; cbn [sg_frames app] in *; [injection H as ->; reflexivity|]. destruct (sg_frame s0 a); [apply IH; exact H|discriminate|discriminate]. }
  rewrite (G fs _ E). cbn [sg_frames]. unfold sg_frame. rewrite Er, Ef. destruct (C55_id_round_trip i Hi) as [-> _]. rewrite Ht. reflexivity.
Qed.
Print Assumptions C74_reset.

Example C55_example : id_ok (mkId 3 2 40 3210) /\ raw_id (mkId 3 2 40 3210) = 202017930 /\ msg_ok (FlightEventMsg 1700000000000 Apogee) /\
  to_data (FlightEventMsg 1700000000000 Apogee) = [1; 139; 207; 229; 104; 0; 64].
Proof. repeat split; reflexivity. Qed.
Example C74_example : let n := mkId 2 1 40 77 in let e := mkId 2 2 40 77 in
  Forall2 carries [mkFrame (raw_id n) false (to_data (AvionicsStatus false true)); mkFrame 5 true []; mkFrame (raw_id e) false (to_data (FlightEventMsg 12 Landed))]
    [Some (AvionicsStatus false true); None; Some (FlightEventMsg 12 Landed)] /\
  last_armed [Some (AvionicsStatus false true); None; Some (FlightEventMsg 12 Landed)] = true /\
  last_landed [Some (AvionicsStatus false true); None; Some (FlightEventMsg 12 Landed)] = true.
Proof.
  split; [|split; reflexivity]. repeat apply Forall2_cons; try apply Forall2_nil.
  - apply (ca_data (mkId 2 1 40 77)); [repeat split; reflexivity|reflexivity|exact I].
  - apply ca_remote.
  - apply (ca_data (mkId 2 2 40 77)); [repeat split; reflexivity|reflexivity|reflexivity].
Qed.

(** * CAN identifiers and messages (firmware-common/src/common/can_bus) and the strain-gauge node's CAN receiver
    (firmware-common/src/strain_gauges/mid_prio.rs:112-180) *)
From Verif Require Import Base.
Local Open Scope N_scope.

(** ** packed_struct with "msb" endianness: the fields (width, value) one after the other, most significant first, then zero bits up
    to the declared size.  (The derive macro itself is not modelled; every value fits its width.) *)
Definition fields := list (N * N).
Definition width (fs : fields) : N := fold_right (fun f a => fst f + a) 0 fs.
Fixpoint value (fs : fields) : N :=
  match fs with
  | [] => 0
  | (w, v) :: t => v * 2 ^ width t + value t
  end.
Definition pack (size : nat) (fs : fields) : list byte := be_bytes size (value fs * 2 ^ (8 * N.of_nat size - width fs)).
(** the inverse: field by field *)
Fixpoint split_at (ws : list N) (x : N) : list N :=
  match ws with
  | [] => []
  | w :: t => (x / 2 ^ fold_right N.add 0 t) mod 2 ^ w :: split_at t x
  end.
Definition unpack (size : nat) (ws : list N) (b : list byte) : list N :=
  split_at ws (of_be b / 2 ^ (8 * N.of_nat size - fold_right N.add 0 ws)).

(** ** Identifiers: common/can_bus/id.rs *)
Record can_id := mkId { priority : N; message_type : N; node_type : N; node_id : N }.
(** id.rs:4-12: 3 reserved, 3 priority, 8 message type, 6 node type, 12 node id bits *)
Definition id_fields (i : can_id) : fields := [(3, 0); (3, priority i); (8, message_type i); (6, node_type i); (12, node_id i)].
(** id.rs:33-38 [Into<u32>] *)
Definition raw_id (i : can_id) : N := of_be (pack 4 (id_fields i)).
(** id.rs:25-30 [from_raw]; the reserved bits are ignored *)
Definition from_raw (raw : N) : can_id :=
  match unpack 4 [3; 3; 8; 6; 12] (be_bytes 4 raw) with
  | [_; p; m; n; d] => mkId p m n d
  | _ => mkId 0 0 0 0
  end.

(** driver/can_bus.rs:49-52: the node id, the checksum being a parameter *)
Definition node_id_from_serial (crc16 : list byte -> N) (serial : list byte) : N := N.land (crc16 serial) 4095.

(** ** Messages: common/can_bus/messages.rs *)
Inductive flight_event := Ignition | Coast | Apogee | Landed.
Inductive health := Healthy | Degraded | UnHealthy.
Inductive can_msg :=
| UnixTime (ms : N)
| AvionicsStatus (low_power armed : bool)
| FlightEventMsg (ms : N) (e : flight_event)
| Health (h : health)
| Reset.
Definition msg_type (m : can_msg) : N :=
  match m with UnixTime _ => 0 | AvionicsStatus _ _ => 1 | FlightEventMsg _ _ => 2 | Health _ => 3 | Reset => 4 end.
Definition event_code (e : flight_event) : N := match e with Ignition => 0 | Coast => 1 | Apogee => 2 | Landed => 3 end.
Definition health_code (h : health) : N := match h with Healthy => 0 | Degraded => 1 | UnHealthy => 2 end.
Definition bit (b : bool) : N := if b then 1 else 0.
Definition msg_size (t : N) : nat := match t with 0 => 6 | 2 => 7 | _ => 1 end.
(** message.rs:13-16 [to_data] *)
Definition to_data (m : can_msg) : list byte :=
  match m with
  | UnixTime ms => pack 6 [(48, ms)]
  | AvionicsStatus lp a => pack 1 [(1, bit lp); (1, bit a)]
  | FlightEventMsg ms e => pack 7 [(48, ms); (3, event_code e)]
  | Health h => pack 1 [(2, health_code h)]
  | Reset => pack 1 []
  end.
(** [data.try_into().unwrap()] followed by [from_data] (message.rs:18-20) at the type [t]; [None]: panic *)
Definition from_data (t : N) (b : list byte) : option can_msg :=
  if Nat.eqb (length b) (msg_size t) then
    match t with
    | 0 => match unpack 6 [48] b with [ms] => Some (UnixTime ms) | _ => None end
    | 1 => match unpack 1 [1; 1] b with [lp; a] => Some (AvionicsStatus (lp =? 1) (a =? 1)) | _ => None end
    | 2 => match unpack 7 [48; 3] b with
           | [ms; 0] => Some (FlightEventMsg ms Ignition)
           | [ms; 1] => Some (FlightEventMsg ms Coast)
           | [ms; 2] => Some (FlightEventMsg ms Apogee)
           | [ms; 3] => Some (FlightEventMsg ms Landed)
           | _ => None
           end
    | 3 => match unpack 1 [2] b with
           | [0] => Some (Health Healthy)
           | [1] => Some (Health Degraded)
           | [2] => Some (Health UnHealthy)
           | _ => None
           end
    | 4 => Some Reset
    | _ => None
    end
  else None.

(** ** The receiver of the strain-gauge node, mid_prio.rs:112-180 (present in the source; its task is commented out of the final join,
    mid_prio.rs:378-384).  A frame carries its identifier, the remote flag and its data; reception errors only set a flag. *)
Record frame := mkFrame { fr_id : N; fr_rtr : bool; fr_data : list byte }.
Record sg := mkSg { g_armed : bool; g_landed : bool; g_adc : bool; g_time : option N }.
Inductive sg_out := SgGo (s : sg) | SgReset | SgPanic.
Definition sg_frame (s : sg) (f : frame) : sg_out :=
  if fr_rtr f then SgGo s
  else
    let t := message_type (from_raw (fr_id f)) in
    let set armed landed time := SgGo (mkSg armed landed (armed && negb landed) time) in
    if t =? 1 then
      match from_data 1 (fr_data f) with Some (AvionicsStatus _ a) => set a (g_landed s) (g_time s) | _ => SgPanic end
    else if t =? 2 then
      match from_data 2 (fr_data f) with
      | Some (FlightEventMsg _ Landed) => set (g_armed s) true (g_time s)
      | Some (FlightEventMsg _ _) => set (g_armed s) false (g_time s)
      | _ => SgPanic
      end
    else if t =? 0 then
      match from_data 0 (fr_data f) with Some (UnixTime ms) => set (g_armed s) (g_landed s) (Some ms) | _ => SgPanic end
    else if t =? 4 then SgReset
    else set (g_armed s) (g_landed s) (g_time s).
Fixpoint sg_frames (s : sg) (fs : list frame) : sg_out :=
  match fs with
  | [] => SgGo s
  | f :: t => match sg_frame s f with SgGo s' => sg_frames s' t | o => o end
  end.

(** ** Lemmas *)
Definition fits (fs : fields) : Prop := Forall (fun f => snd f < 2 ^ fst f) fs.
Lemma pow_pos w : 0 < 2 ^ w. Proof. pose proof (N.pow_nonzero 2 w ltac:(lia)). lia. Qed.
Lemma value_bound fs : fits fs -> value fs < 2 ^ width fs.
Proof.
  induction 1 as [|[w v] t H _ IH]; [cbn; lia|]. cbn [value]. unfold width. cbn [fold_right fst snd] in *. fold (width t) in *.
  rewrite N.pow_add_r. nia.
Qed.
Lemma width_map fs : width fs = fold_right N.add 0 (map fst fs).
Proof. induction fs as [|[w v] t IH]; [reflexivity|]. unfold width in *. cbn [fold_right map fst]. rewrite IH. reflexivity. Qed.

Lemma split_skip ws w x y : x mod 2 ^ fold_right N.add 0 (w :: ws) = y mod 2 ^ fold_right N.add 0 (w :: ws) ->
  (x / 2 ^ fold_right N.add 0 ws) mod 2 ^ w = (y / 2 ^ fold_right N.add 0 ws) mod 2 ^ w.
Proof.
  cbn [fold_right]. set (q := fold_right N.add 0 ws). rewrite (N.add_comm w q), N.pow_add_r. intros H.
  pose proof (pow_pos w). pose proof (pow_pos q). rewrite !N.mod_mul_r in H by lia.
  assert (E : x mod 2 ^ q = y mod 2 ^ q).
  { apply (f_equal (fun z => z mod 2 ^ q)) in H. rewrite !(N.mul_comm (2 ^ q)), !N.mod_add, !N.mod_mod in H by lia. exact H. }
  nia.
Qed.
Lemma split_low ws : forall x y, x mod 2 ^ fold_right N.add 0 ws = y mod 2 ^ fold_right N.add 0 ws -> split_at ws x = split_at ws y.
Proof.
  induction ws as [|w ws IH]; intros x y H; [reflexivity|]. cbn [split_at]. f_equal; [apply split_skip; exact H|]. apply IH.
  cbn [fold_right] in H. set (q := fold_right N.add 0 ws) in *. rewrite (N.add_comm w q), N.pow_add_r in H. pose proof (pow_pos w). pose proof (pow_pos q).
  rewrite !N.mod_mul_r in H by lia. apply (f_equal (fun z => z mod 2 ^ q)) in H. rewrite !(N.mul_comm (2 ^ q)), !N.mod_add, !N.mod_mod in H by lia. exact H.
Qed.
Lemma split_value fs : fits fs -> split_at (map fst fs) (value fs) = map snd fs.
Proof.
  induction 1 as [|[w v] t H Ht IH]; [reflexivity|]. cbn [value map split_at fst snd] in *. rewrite <- width_map. pose proof (value_bound t Ht) as B. pose proof (pow_pos (width t)). f_equal.
  - rewrite N.div_add_l by lia. rewrite N.div_small by exact B. rewrite N.add_0_r. apply N.mod_small. exact H.
  - rewrite <- IH. apply split_low. rewrite <- width_map. rewrite N.add_comm, N.mod_add by lia. reflexivity.
Qed.

Lemma pack_number size fs : fits fs -> width fs <= 8 * N.of_nat size -> of_be (pack size fs) = value fs * 2 ^ (8 * N.of_nat size - width fs).
Proof.
  intros F W. unfold pack. apply of_be_be_bytes_id. pose proof (value_bound fs F) as B. change 256 with (2 ^ 8). rewrite <- N.pow_mul_r.
  replace (8 * N.of_nat size) with (width fs + (8 * N.of_nat size - width fs)) at 2 by lia. rewrite N.pow_add_r. pose proof (pow_pos (8 * N.of_nat size - width fs)). nia.
Qed.
Theorem unpack_pack size fs : fits fs -> width fs <= 8 * N.of_nat size -> unpack size (map fst fs) (pack size fs) = map snd fs.
Proof.
  intros F W. unfold unpack. rewrite pack_number by assumption. rewrite <- width_map. rewrite N.div_mul by (pose proof (pow_pos (8 * N.of_nat size - width fs)); lia).
  apply split_value. exact F.
Qed.
Lemma pack_length size fs : length (pack size fs) = size.
Proof. apply be_bytes_length. Qed.

(** * Radio packets (VLP): serialisation, framing, parity, encryption.

    Models firmware-common/src/common/vlp/packet.rs, packet_builder.rs and the
    serialised part of telemetry_packet.rs.  ChaCha20 (crate cryptoxide) is a
    parameter: any function from key, nonce and position to a keystream byte;
    process_mut xors it in.  The Reed-Solomon crate is modelled in
    ReedSolomon.v.  f64 values are their 64-bit patterns. *)
From Coq Require Import QArith.
From Verif Require Import Base BitSlice FixedPoint ReedSolomon.
Import ListNotations.
Local Open Scope nat_scope.
Local Open Scope list_scope.

(** packet_builder.rs:17-19 *)
Definition MAX_VLP_PACKET_SIZE : nat := 49.
Definition TIME_BASED_NONCE_ENABLED : bool := false.

(** avionics/flight_profile.rs:5-10 *)
Inductive pyro := Pyro1 | Pyro2 | Pyro3.
Definition pyro_code (p : pyro) : N := match p with Pyro1 => 1 | Pyro2 => 2 | Pyro3 => 3 end.
Definition pyro_of_code (n : N) : option pyro :=
  if (n =? 1)%N then Some Pyro1 else if (n =? 2)%N then Some Pyro2 else if (n =? 3)%N then Some Pyro3 else None.

(** packet.rs:7-165 *)
Inductive uplink :=
| VerticalCalibration (timestamp : N)
| SoftArm (timestamp : N) (armed : bool)
| LowPowerMode (timestamp : N) (enabled : bool)
| Reset (timestamp : N)
| DeleteLogs (timestamp : N)
| GroundTestDeploy (timestamp : N) (p : pyro)
| ManualTriggerDeployment (timestamp : N).

(** telemetry_packet.rs:21-76, the packed fields *)
Record telemetry := Telemetry {
  t_clock_ready : bool; t_timestamp : N; t_satellites : N; t_lat : N; t_lon : N;
  t_battery : N; t_temperature : N; t_hw_armed : bool; t_sw_armed : bool; t_free : N;
  t_pyro_main : bool; t_pyro_drogue : bool; t_alt : N; t_max_alt : N; t_backup_max_alt : N;
  t_speed : N; t_max_speed : N; t_backup_max_speed : N; t_state : N; t_backup_state : N;
  t_drogue_deployed : bool; t_main_deployed : bool }.

(** packet.rs:222-251 *)
Inductive downlink := Ack (timestamp : N) | TelemetryP (t : telemetry).

(** the declared factories (telemetry_packet.rs:13-17) *)
Definition BatteryVFac : factory := minmax 6 9 (1 # 1000).
Definition TemperatureFac : factory := minmax (-30) 85 (1 # 10).
Definition FreeSpaceFac : factory := minmax 0 67108864 40960.
Definition AltitudeFac : factory := minmax (-100) 5000 5.
Definition AirSpeedFac : factory := minmax (-400) 400 2.

(** ** BitArraySerializable::serialize *)

(** packet_builder.rs:103-111 *)
Definition uplink_code (p : uplink) : N :=
  match p with
  | VerticalCalibration _ => 0 | SoftArm _ _ => 1 | LowPowerMode _ _ => 2 | Reset _ => 3
  | DeleteLogs _ => 4 | GroundTestDeploy _ _ => 5 | ManualTriggerDeployment _ => 6
  end.
(** packet.rs, the seven serialize functions *)
Definition uplink_fields (p : uplink) : list (prim * val) :=
  match p with
  | VerticalCalibration t => [(TInt 64, VN t)]
  | SoftArm t b => [(TInt 64, VN t); (TBool, VB b)]
  | LowPowerMode t b => [(TInt 64, VN t); (TBool, VB b)]
  | Reset t => [(TInt 64, VN t)]
  | DeleteLogs t => [(TInt 64, VN t)]
  | GroundTestDeploy t p => [(TInt 64, VN t); (TInt 8, VN (pyro_code p))]
  | ManualTriggerDeployment t => [(TInt 64, VN t)]
  end.
(** packet_builder.rs:239-242 *)
Definition downlink_code (p : downlink) : N := match p with Ack _ => 0 | TelemetryP _ => 1 end.
(** telemetry_packet.rs:230-252 *)
Definition telemetry_fields (t : telemetry) : list (prim * val) :=
  [(TBool, VB (t_clock_ready t)); (TInt 32, VN (t_timestamp t)); (TInt 5, VN (t_satellites t));
   (TPair (TInt 64), VP (VN (t_lat t)) (VN (t_lon t)));
   (TInt (f_bits BatteryVFac), VN (t_battery t)); (TInt (f_bits TemperatureFac), VN (t_temperature t));
   (TBool, VB (t_hw_armed t)); (TBool, VB (t_sw_armed t)); (TInt (f_bits FreeSpaceFac), VN (t_free t));
   (TBool, VB (t_pyro_main t)); (TBool, VB (t_pyro_drogue t));
   (TInt (f_bits AltitudeFac), VN (t_alt t)); (TInt (f_bits AltitudeFac), VN (t_max_alt t));
   (TInt (f_bits AltitudeFac), VN (t_backup_max_alt t));
   (TInt (f_bits AirSpeedFac), VN (t_speed t)); (TInt (f_bits AirSpeedFac), VN (t_max_speed t));
   (TInt (f_bits AirSpeedFac), VN (t_backup_max_speed t));
   (TInt 3, VN (t_state t)); (TInt 3, VN (t_backup_state t));
   (TBool, VB (t_drogue_deployed t)); (TBool, VB (t_main_deployed t))].
Definition downlink_fields (p : downlink) : list (prim * val) :=
  match p with Ack t => [(TInt 64, VN t)] | TelemetryP t => telemetry_fields t end.

(** ** BitArraySerializable::deserialize: the types read, in order, and what is built *)
Definition uplink_schema (code : N) : option (list prim) :=
  match code with
  | 0%N | 3%N | 4%N | 6%N => Some [TInt 64]
  | 1%N | 2%N => Some [TInt 64; TBool]
  | 5%N => Some [TInt 64; TInt 8]
  | _ => None
  end.
(** [None]: PyroSelection::try_from(..).unwrap() panics (packet.rs:124) *)
Definition uplink_build (code : N) (vs : list val) : option uplink :=
  match code, vs with
  | 0%N, [VN t] => Some (VerticalCalibration t)
  | 1%N, [VN t; VB b] => Some (SoftArm t b)
  | 2%N, [VN t; VB b] => Some (LowPowerMode t b)
  | 3%N, [VN t] => Some (Reset t)
  | 4%N, [VN t] => Some (DeleteLogs t)
  | 5%N, [VN t; VN p] => match pyro_of_code p with Some p => Some (GroundTestDeploy t p) | None => None end
  | 6%N, [VN t] => Some (ManualTriggerDeployment t)
  | _, _ => None
  end.
Definition telemetry_schema : list prim :=
  [TBool; TInt 32; TInt 5; TPair (TInt 64); TInt (f_bits BatteryVFac); TInt (f_bits TemperatureFac); TBool; TBool;
   TInt (f_bits FreeSpaceFac); TBool; TBool; TInt (f_bits AltitudeFac); TInt (f_bits AltitudeFac); TInt (f_bits AltitudeFac);
   TInt (f_bits AirSpeedFac); TInt (f_bits AirSpeedFac); TInt (f_bits AirSpeedFac); TInt 3; TInt 3; TBool; TBool].
Definition downlink_schema (code : N) : option (list prim) :=
  match code with 0%N => Some [TInt 64] | 1%N => Some telemetry_schema | _ => None end.
Definition downlink_build (code : N) (vs : list val) : option downlink :=
  match code, vs with
  | 0%N, [VN t] => Some (Ack t)
  | 1%N, [VB a; VN b; VN c; VP (VN d) (VN e); VN f; VN g; VB h; VB i; VN j; VB k; VB l; VN m; VN n; VN o; VN p; VN q; VN r; VN s; VN t; VB u; VB v] =>
      Some (TelemetryP (Telemetry a b c d e f g h i j k l m n o p q r s t u v))
  | _, _ => None
  end.

(** writer.write / reader.read().unwrap() over the fields *)
Fixpoint write_all (w : bwriter) (l : list (prim * val)) : option bwriter :=
  match l with
  | [] => Some w
  | (p, v) :: l => match bw_write w p v with Some w => write_all w l | None => None end
  end.
Fixpoint read_all (r : breader) (l : list prim) : option (list val) * breader :=
  match l with
  | [] => (Some [], r)
  | p :: l => match br_read r p with
              | (Some v, r) => match read_all r l with (Some vs, r) => (Some (v :: vs), r) | (None, r) => (None, r) end
              | (None, r) => (None, r)
              end
  end.

(** ** CRC-8/SMBUS: poly 0x07, init 0 (crate crc) *)
Definition crc8_bit (c : N) : N := if N.testbit c 7 then N.lxor (N.land (N.shiftl c 1) 255) 7 else N.land (N.shiftl c 1) 255.
Definition crc8_byte (c b : N) : N := crc8_bit (crc8_bit (crc8_bit (crc8_bit (crc8_bit (crc8_bit (crc8_bit (crc8_bit (N.lxor c b)))))))).
Definition crc8 (l : list byte) : byte := (fold_left crc8_byte l 0 mod 256)%N.

(** packet_builder.rs:325-331 *)
Definition ecc_from_data (n : nat) : nat := n / 4.
Definition ecc_from_total (n : nat) : nat := n / 5.

Definition le_bytes8 (n : N) : list byte := map (fun i => (N.shiftr n (8 * N.of_nat i) mod 256)%N) (seq 0 8).

(** get_nonce (51-60): [now] is time as u64 *)
Definition time_nonce (now : N) : list byte := le_bytes8 (now - now mod 100)%N.
Definition get_nonce (now : N) : list byte :=
  if TIME_BASED_NONCE_ENABLED then time_nonce now else repeat 105%N 8.
(** get_past_nonce (62-96); [air] is the time on air in ms; the checked subtractions stop at 0 *)
Definition time_nonces (now air : N) : list (list byte) :=
  let sent := (now - air)%N in
  let start := (sent - sent mod 100 - 500)%N in
  map (fun i => le_bytes8 (start + N.of_nat i * 100)%N) (seq 0 10).
Definition get_past_nonce (now air : N) : list (list byte) :=
  if TIME_BASED_NONCE_ENABLED then time_nonces now air else [repeat 105%N 8].

Inductive result (A : Type) := Ok (a : A) | Err | Panicked.
Arguments Ok {A} a. Arguments Err {A}. Arguments Panicked {A}.

(** VLPPacketBuilder's own state: the two bit buffers, reused between packets (21-29) *)
Record builder := Builder { b_w : bwriter; b_r : breader }.
(** a fresh builder (new, 32-49) *)
Definition builder_new : builder := Builder (bw_new MAX_VLP_PACKET_SIZE) (br_new MAX_VLP_PACKET_SIZE).

Section Crypto.
(** ChaCha20::new(key, nonce) as a keystream *)
Variable ks : list byte -> list byte -> nat -> N.

Fixpoint xor_stream (s : nat -> N) (i : nat) (l : list byte) : list byte :=
  match l with [] => [] | b :: l => N.lxor b (s i mod 256)%N :: xor_stream s (S i) l end.
Definition process (key nonce : list byte) (l : list byte) : list byte := xor_stream (ks key nonce) 0 l.

(** downlink_key (37-39) *)
Definition downlink_key (key : list byte) : list byte := process key (repeat 0%N 8) (repeat 0%N 32).

(** fill the writer: clear, packet type, packet; view_all_data_slice (99-131, 236-253) *)
Definition body (st : builder) (w : nat) (code : N) (fields : list (prim * val)) : option (list byte * builder) :=
  match write_all (bw_clear (b_w st)) ((TInt w, VN code) :: fields) with
  | Some bw => Some (bw_all bw, Builder bw (b_r st))
  | None => None
  end.

(** append the parity, checking the capacity of the radio buffer (131-141, 253-262) *)
Definition frame (data : list byte) (crc : byte) : option (list byte) :=
  let b1 := data ++ [crc] in
  let b2 := b1 ++ rs_ecc (ecc_from_data (length b1)) b1 in
  if length b2 <=? MAX_VLP_PACKET_SIZE then Some b2 else None.

(** serialize_uplink (94-148) *)
Definition serialize_uplink (key : list byte) (now : N) (st : builder) (p : uplink) : result (list byte * builder) :=
  match body st 4 (uplink_code p) (uplink_fields p) with
  | None => Panicked
  | Some (data, st) =>
    match frame data (crc8 data) with
    | None => Err
    | Some b => Ok (process key (get_nonce now) b, st)
    end
  end.

(** serialize_downlink (227-264): the crc also covers the downlink key and the nonce; no encryption *)
Definition serialize_downlink (key : list byte) (now : N) (st : builder) (p : downlink) : result (list byte * builder) :=
  match body st 1 (downlink_code p) (downlink_fields p) with
  | None => Panicked
  | Some (data, st) =>
    match frame data (crc8 (data ++ downlink_key key ++ get_nonce now)) with
    | None => Err
    | Some b => Ok (b, st)
    end
  end.

(** reading the body of a packet whose crc matched: clear, replenish, packet
    type, fields; [None] continues with the next nonce (185-217, 299-316) *)
Definition parse {P} (st : builder) (w : nat) (schema : N -> option (list prim)) (build : N -> list val -> option P) (data : list byte)
  : option (result P) * builder :=
  match br_replenish (BR (br_buf (b_r st)) 0 0) data with
  | None => (Some Panicked, st)
  | Some r =>
    match br_read r (TInt w) with
    | (Some (VN code), r) =>
      match schema code with
      | None => (None, Builder (b_w st) r)
      | Some l => match read_all r l with
                  | (Some vs, r) => (Some (match build code vs with Some p => Ok p | None => Panicked end), Builder (b_w st) r)
                  | (None, r) => (Some Panicked, Builder (b_w st) r)
                  end
      end
    | (_, r) => (Some Panicked, Builder (b_w st) r)
    end
  end.

(** the loop of deserialize_uplink / deserialize_downlink over the nonces (163-224, 279-321);
    [clear] is the decryption, [crc] the checksum of the data *)
Fixpoint try_nonces {P} (st : builder) (e : nat) (received : list byte) (clear : list byte -> list byte -> list byte)
  (crc : list byte -> list byte -> byte) (w : nat) (schema : N -> option (list prim)) (build : N -> list val -> option P)
  (nonces : list (list byte)) : result P * builder :=
  match nonces with
  | [] => (Err, st)
  | nonce :: nonces =>
    match rs_correct e (clear nonce received) with
    | None => try_nonces st e received clear crc w schema build nonces
    | Some b =>
      match rev b with
      | [] => (Panicked, st)                     (* buffer.len() - 1 *)
      | c :: rdata =>
        let data := rev rdata in
        if (crc nonce data =? c)%N
        then match parse st w schema build data with
             | (Some r, st) => (r, st)
             | (None, st) => try_nonces st e received clear crc w schema build nonces
             end
        else try_nonces st e received clear crc w schema build nonces
      end
    end
  end.

(** deserialize_uplink (150-225) *)
Definition deserialize_uplink (key : list byte) (now air : N) (st : builder) (received : list byte) : result uplink * builder :=
  if length received <=? 8 then (Err, st)
  else try_nonces st (ecc_from_total (length received)) received (fun nonce l => process key nonce l) (fun _ data => crc8 data)
         4 uplink_schema uplink_build (get_past_nonce now air).

(** deserialize_downlink (266-322) *)
Definition deserialize_downlink (key : list byte) (now air : N) (st : builder) (received : list byte) : result downlink * builder :=
  if length received <=? 8 then (Err, st)
  else try_nonces st (ecc_from_total (length received)) received (fun _ l => l) (fun nonce data => crc8 (data ++ downlink_key key ++ nonce))
         1 downlink_schema downlink_build (get_past_nonce now air).

End Crypto.

(** ** TelemetryPacket::new and its accessors (telemetry_packet.rs:78-226) *)
Inductive core_state := DisArmed | Armed | PowerAscend | Coast | Descent | DrogueChuteDeployed | MainChuteDeployed | Landed.
Definition state_code (s : core_state) : N :=
  match s with DisArmed => 0 | Armed => 1 | PowerAscend => 2 | Coast => 3 | Descent => 4 | DrogueChuteDeployed => 5 | MainChuteDeployed => 6 | Landed => 7 end.
Definition state_of_code (n : N) : core_state :=
  match n with 1%N => Armed | 2%N => PowerAscend | 3%N => Coast | 4%N => Descent | 5%N => DrogueChuteDeployed | 6%N => MainChuteDeployed | 7%N => Landed | _ => DisArmed end.

(** the raw values handed to TelemetryPacket::new *)
Record readings := Readings {
  i_clock_ready : bool; i_timestamp : Q; i_satellites : N; i_lat_lon : option (N * N);
  i_battery : Q; i_temperature : Q; i_hw : bool; i_sw : bool; i_free : N; i_pm : bool; i_pd : bool;
  i_alt : Q; i_max_alt : Q; i_backup_max_alt : Q; i_speed : Q; i_max_speed : Q; i_backup_max_speed : Q;
  i_state : core_state; i_backup_state : core_state; i_drogue : bool; i_main : bool }.

(** f as u32: saturating truncation *)
Definition as_u32 (q : Q) : N := Z.to_N (Z.min (2 ^ 32 - 1) (Z.max 0 (Qround.Qfloor q))).
(** a u8 stored in Integer<u8, Bits<5>> keeps, on the wire, its low 5 bits *)
Definition code_of (o : outcome) : option N := match o with Code n => Some (Z.to_N n) | _ => None end.
Definition capped (f : factory) (q : Q) : N := match code_of (to_fixed_point_capped f (Num q)) with Some n => n | None => 0%N end.

(** TelemetryPacket::new (79-137).  The capped conversions of non-NaN values
    never fail (C34), so their unwrap is not a case here. *)
Definition telemetry_new (i : readings) : telemetry :=
  Telemetry (i_clock_ready i) (as_u32 (i_timestamp i / 1000)) (i_satellites i mod 32)
    (match i_lat_lon i with Some p => fst p | None => 0%N end) (match i_lat_lon i with Some p => snd p | None => 0%N end)
    (capped BatteryVFac (i_battery i)) (capped TemperatureFac (i_temperature i)) (i_hw i) (i_sw i)
    (capped FreeSpaceFac (inject_Z (Z.of_N (i_free i)))) (i_pm i) (i_pd i)
    (capped AltitudeFac (i_alt i)) (capped AltitudeFac (i_max_alt i)) (capped AltitudeFac (i_backup_max_alt i))
    (capped AirSpeedFac (i_speed i)) (capped AirSpeedFac (i_max_speed i)) (capped AirSpeedFac (i_backup_max_speed i))
    (state_code (i_state i)) (state_code (i_backup_state i)) (i_drogue i) (i_main i).

(** lat_lon (148-154): 0.0 == 0.0 and -0.0 == 0.0 *)
Definition is_zero_f64 (n : N) : bool := (n =? 0)%N || (n =? 2 ^ 63)%N.
Definition get_lat_lon (t : telemetry) : option (N * N) :=
  if is_zero_f64 (t_lat t) && is_zero_f64 (t_lon t) then None else Some (t_lat t, t_lon t).
(** timestamp (141-143), in ms *)
Definition get_timestamp (t : telemetry) : N := (t_timestamp t * 1000)%N.

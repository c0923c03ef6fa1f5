(** * From a JSON file on the laptop to the device: vl-host-lib/src/vl/device_config.rs, rkyv_structs.rs, device_config.rs, the use of the
    configuration by vl_main.rs, gcm/mod.rs, avionics/mod.rs, ground_test_avionics/mod.rs, and how `vl-cli detect` shows a device
    (vl-host-lib/src/common/probe_device_type.rs).  serde_json (a dependency) gives a [host_config]; strings are valid UTF-8. *)
From Verif Require Import Base Boot.
Local Open Scope N_scope.

(** ** UTF-8 (the standard library) *)
Definition scalar (c : N) : Prop := c < 1114112 /\ ~ (55296 <= c < 57344).
Definition encode_char (c : N) : list byte :=
  if c <? 128 then [c]
  else if c <? 2048 then [192 + c / 64; 128 + c mod 64]
  else if c <? 65536 then [224 + c / 4096; 128 + (c / 64) mod 64; 128 + c mod 64]
  else [240 + c / 262144; 128 + (c / 4096) mod 64; 128 + (c / 64) mod 64; 128 + c mod 64].
Definition text (s : list byte) : Prop := exists cs, Forall scalar cs /\ s = flat_map encode_char cs.

(** ** rkyv_structs.rs:6-30, 55-80, with N = 64 *)
Record rvec := mkVec { v_data : list byte; v_len : nat }.
(** RkyvVec::from_slice, lines 12-17 *)
Definition vec_from (s : list byte) : rvec := let len := Nat.min (length s) 64 in mkVec (firstn len s ++ repeat 0 (64 - len)) len.
(** RkyvVec::as_slice, lines 23-25 *)
Definition as_slice (v : rvec) : list byte := firstn (v_len v) (v_data v).
(** RkyvString::as_str, lines 77-79: from_utf8(..).unwrap(); [None] is the panic *)
Inductive as_str (v : rvec) : option (list byte) -> Prop :=
| as_text : text (as_slice v) -> as_str v (Some (as_slice v))
| as_panic : ~ text (as_slice v) -> as_str v None.

(** ** The two configurations *)
Inductive pyro_selection := Pyro1 | Pyro2 | Pyro3.
Inductive mode_config := CAvionics | CGcm | CGroundTest (drogue main : pyro_selection) | CVacuumTest.
(** device_config.rs:28-35; host device_config.rs:33-40 *)
Record lora_config := mkLora { l_frequency : N; l_sf : N; l_bw : N; l_cr : N; l_power : Z }.
(** vl-host-lib device_config.rs:10-16 *)
Record host_config := mkHost { h_name : list byte; h_mode : mode_config; h_lora : lora_config; h_key : list byte }.
(** device_config.rs:7-13 *)
Record device_config := mkDevice { c_name : rvec; c_mode : mode_config; c_lora : lora_config; c_key : list byte }.

(** vl-host-lib device_config.rs:42-79 and flight_profile.rs:43-51: every value is copied *)
Definition lora_into (l : lora_config) : lora_config := mkLora (l_frequency l) (l_sf l) (l_bw l) (l_cr l) (l_power l).
Definition pyro_into (p : pyro_selection) : pyro_selection := match p with Pyro1 => Pyro1 | Pyro2 => Pyro2 | Pyro3 => Pyro3 end.
Definition mode_into (m : mode_config) : mode_config :=
  match m with CAvionics => CAvionics | CGcm => CGcm | CGroundTest d m => CGroundTest (pyro_into d) (pyro_into m) | CVacuumTest => CVacuumTest end.
(** vl-host-lib device_config.rs:18-31 *)
Definition to_device (h : host_config) : device_config :=
  let name := if Nat.ltb 64 (length (h_name h)) then firstn 64 (h_name h) else h_name h in
  mkDevice (vec_from name) (mode_into (h_mode h)) (lora_into (h_lora h)) (h_key h).

(** the match of vl_main.rs:174-209 *)
Definition mode_of (c : device_config) : mode :=
  match c_mode c with CAvionics => MAvionics | CGcm => MGcm | CGroundTest _ _ => MGroundTest | CVacuumTest => MVacuumTest end.

(** ** LoraConfig's methods, device_config.rs:37-134 (the _phy ones are the same matches); [None] is a panic *)
Inductive spreading_factor := SF5 | SF6 | SF7 | SF8 | SF9 | SF10 | SF11 | SF12.
Inductive bandwidth := B7 | B10 | B15 | B20 | B31 | B41 | B62 | B125 | B250 | B500.
Inductive coding_rate := R5 | R6 | R7 | R8.
Definition sf_modulation (l : lora_config) : option spreading_factor :=
  match l_sf l with 5 => Some SF5 | 6 => Some SF6 | 7 => Some SF7 | 8 => Some SF8 | 9 => Some SF9 | 10 => Some SF10 | 11 => Some SF11 | 12 => Some SF12 | _ => None end.
Definition bw_table : list (N * bandwidth) :=
  [(7810, B7); (10420, B10); (15630, B15); (20830, B20); (31250, B31); (41670, B41); (62500, B62); (125000, B125); (250000, B250); (500000, B500)].
Definition bw_modulation (l : lora_config) : option bandwidth := option_map snd (find (fun e => fst e =? l_bw l) bw_table).
Definition cr_modulation (l : lora_config) : option coding_rate :=
  match l_cr l with 5 => Some R5 | 6 => Some R6 | 7 => Some R7 | 8 => Some R8 | _ => None end.
(** lines 126-134 *)
Definition modulation (l : lora_config) : option (spreading_factor * bandwidth * coding_rate) :=
  match sf_modulation l, bw_modulation l, cr_modulation l with Some s, Some b, Some c => Some (s, b, c) | _, _, _ => None end.

(** ** What becomes of a start *)
Inductive fate :=
| PanicsFirst     (* before the consoles are polled for the first time *)
| PanicsLater     (* once the tasks of the mode are started; the consoles are polled until then *)
| Fine.
(** [radio]: the device has a LoRa module (the device manager's [lora] is an Option).  join! polls main_fut before the consoles
    (vl_main.rs:212-221).  gcm_main reaches `lora.as_mut().unwrap()` and the radio client's first line, which converts the settings
    (downlink_client.rs:53), without waiting for anything (gcm/mod.rs:36-50, 71-74); avionics_main (mod.rs:437-448) and
    ground_test_avionics (mod.rs:207-218) start the radio client, if there is a radio, after the flight profile, the self test and the
    loggers.  The vacuum test does not use the radio.  Panics for other reasons are not in this model. *)
Definition fate_of (radio : bool) (r : running device_config) : fate :=
  let good c := match modulation (c_lora c) with Some _ => true | None => false end in
  match r with
  | Runs MGcm c => if radio && good c then Fine else PanicsFirst
  | Runs MAvionics c | Runs MGroundTest c => if radio && negb (good c) then PanicsLater else Fine
  | Runs MVacuumTest _ | NoConfig | StoppedForUsb => Fine
  end.

(** WhoAmI, vl_rpc.rs:60-65, and what probe_device_type prints for the name, lines 33-46 *)
Definition who_am_i (c : option device_config) : option rvec := option_map c_name c.
Inductive printed_name : option device_config -> option (list byte) -> Prop :=
| pn_none : printed_name None (Some [])
| pn_some c o : as_str (c_name c) o -> printed_name (Some c) o.

(** * The telemetry packet builder.

    Models firmware-common/src/common/vlp/telemetry_packet.rs:306-415
    (TelemetryPacketBuilderState, TelemetryPacketBuilder::{new, update,
    create_packet}).
    Simplification: f32 values are [fval] (FixedPoint.v): exact rationals,
    infinities and NaN; the two signed zeros are one value. *)
From Coq Require Import List Bool QArith NArith ZArith.
From Verif Require Import FixedPoint VLP.
Import ListNotations.
Local Open Scope Q_scope.
Local Open Scope list_scope.

(** f32::max: the other operand when one is NaN *)
Definition fmax (a b : fval) : fval :=
  match a, b with
  | NaN, b => b
  | a, NaN => a
  | PInf, _ | _, PInf => PInf
  | NInf, b => b
  | a, NInf => a
  | Num p, Num q => if Qle_bool p q then Num q else Num p
  end.

(** the public fields, which update closures write (308-332) *)
Record fields := Fields {
  gps_location : option (N * option (N * N));   (* satellites, latitude and longitude (f64 patterns) *)
  battery_v : fval; temperature : fval;
  altitude : fval; backup_altitude : fval; air_speed : fval; backup_air_speed : fval;
  hardware_armed : bool; software_armed : bool; pyro_main_continuity : bool; pyro_drogue_continuity : bool;
  flight_core_state : core_state; backup_flight_core_state : core_state;
  disk_free_space : N; drogue_deployed : bool; main_deployed : bool }.

(** the whole state: the four maxima are private *)
Record tstate := TState { pub : fields; max_altitude : fval; backup_max_altitude : fval; max_air_speed : fval; backup_max_air_speed : fval }.

Definition zero : fval := Num 0.

(** new (342-368) *)
Definition telemetry_start : tstate :=
  TState (Fields None zero zero zero zero zero zero false false false false DisArmed DisArmed 0%N false false) zero zero zero zero.

(** update (404-415): the closure, then the four maxima *)
Definition update (f : fields -> fields) (s : tstate) : tstate :=
  let p := f (pub s) in
  TState p (fmax (altitude p) (max_altitude s)) (fmax (backup_altitude p) (backup_max_altitude s))
           (fmax (air_speed p) (max_air_speed s)) (fmax (backup_air_speed p) (backup_max_air_speed s)).

Definition updates (fs : list (fields -> fields)) (s : tstate) : tstate := fold_left (fun s f => update f s) fs s.

(** a float handed to to_fixed_point_capped, which panics on NaN (fixed_point.rs:71-80) *)
Definition finite (f : factory) (v : fval) : option Q :=
  match v with NaN => None | PInf => Some (f_max f) | NInf => Some (f_min f) | Num q => Some q end.

(** create_packet (370-402): None is the panic inside TelemetryPacket::new.
    [ready] and [now] come from the unix clock. *)
Definition create_packet (ready : bool) (now : Q) (s : tstate) : option readings :=
  match finite BatteryVFac (battery_v (pub s)), finite TemperatureFac (temperature (pub s)),
        finite AltitudeFac (altitude (pub s)), finite AltitudeFac (max_altitude s), finite AltitudeFac (backup_max_altitude s),
        finite AirSpeedFac (air_speed (pub s)), finite AirSpeedFac (max_air_speed s), finite AirSpeedFac (backup_max_air_speed s) with
  | Some b, Some t, Some a, Some ma, Some bma, Some v, Some mv, Some bmv =>
    Some (Readings ready now
      (match gps_location (pub s) with Some (n, _) => n | None => 0%N end)
      (match gps_location (pub s) with Some (_, l) => l | None => None end)
      b t (hardware_armed (pub s)) (software_armed (pub s)) (disk_free_space (pub s))
      (pyro_main_continuity (pub s)) (pyro_drogue_continuity (pub s))
      a ma bma v mv bmv (flight_core_state (pub s)) (backup_flight_core_state (pub s)) (drogue_deployed (pub s)) (main_deployed (pub s)))
  | _, _, _, _, _, _, _, _ => None
  end.

(** the conversion [finite] stands for is the one in the code *)
Lemma finite_spec f v : to_fixed_point_capped f v =
  match finite f v with None => Panic | Some q => to_fixed_point_capped f (Num q) end.
Proof.
  destruct v; cbn [finite]; try reflexivity.
  - unfold to_fixed_point_capped. destruct (qlt (f_max f) (f_min f)) eqn:A.
    + cbn [to_fixed_point]. rewrite A, !orb_true_r. reflexivity.
    + destruct (qlt (f_max f) (f_max f)); reflexivity.
  - unfold to_fixed_point_capped. destruct (qlt (f_min f) (f_min f)) eqn:A; [reflexivity|].
    destruct (qlt (f_max f) (f_min f)) eqn:B; [|reflexivity].
    cbn [to_fixed_point]. rewrite B, orb_true_r. reflexivity.
Qed.

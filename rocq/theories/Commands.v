(** * What the radio commands do to the rocket in flight mode.
    firmware-common/src/avionics/mod.rs: vlp_rx_fut (342-436), low_power_mode (234, 345, 381-389, 293, 524), the reset of the
    device (390-397), around the tasks of Avionics.v.

    Simplified: the radio below is VlpLink.v and here delivers packets one by one; a sensor reading and the tick of the flight
    core it leads to are one event (imu_baro_fut signals flight_core_tick_fut); sending on the CAN bus takes no time; deleting
    the logs (C86) is only counted. *)
From Coq Require Import List Bool ZArith.
From Verif Require Import Numerics VLP FlightCore Avionics.
Import ListNotations.
Local Open Scope Z_scope.
Local Open Scope list_scope.

Section Commands.
Context {A : numerics}.

Record craft := Craft {
  c_sys : system A;
  c_low : bool;                  (** low_power_mode *)
  c_shown : bool;                (** telemetry's software_armed *)
  c_can : list Z;                (** the times at which the CAN reset message was sent, latest first *)
  c_deletions : nat;             (** remove_files calls *)
  c_reset_at : option Z }.       (** the reset task is waiting until then (mod.rs:395) *)

Definition power_on : craft := Craft boot_system false false [] 0 None.

Inductive cevent :=
| CPacket (u : uplink) (t : f64 A) (now : Z)   (** vlp.wait_receive returned; [t] is services.clock.now_ms() *)
| CHard (b : bool) (t : Z) | CPoll (t : Z)     (** the arming switch; the debounce task *)
| CSetup                                        (** setup_flight_core_fut *)
| CSense (r : reading A)                        (** imu_baro_fut's tick *)
| CTick (t : f64 A) | CMain (now : Z) | CDrogue (now : Z)
| CReset (now : Z).                             (** the 100 ms are over: services.reset(), and the device starts again *)

Definition with_sys (c : craft) (y : option (system A)) : option craft :=
  match y with Some y => Some (Craft y (c_low c) (c_shown c) (c_can c) (c_deletions c) (c_reset_at c)) | None => None end.

(** mod.rs:347-435, after line 345 has ended the low-power mode *)
Definition obey (p : profile A) (c : craft) (u : uplink) (t : f64 A) (now : Z) : option craft :=
  let '(Craft y low shown can dels rst) := c in
  match u with
  | VerticalCalibration _ => Some c                                                                    (** 348-374 *)
  | SoftArm _ armed => with_sys (Craft y low armed can dels rst) (ystep p y (YArm (ASoft armed)))      (** 375-380 *)
  | LowPowerMode _ enabled =>                                                                          (** 381-389 *)
      if enabled then Some (Craft y true shown can dels rst)
      else with_sys (Craft y false false can dels rst) (ystep p y (YArm (ASoft false)))
  | Reset _ => Some (Craft y low shown (now :: can) dels (Some (now + 100)))                           (** 390-397 *)
  | DeleteLogs _ => Some (Craft y low shown can (S dels) rst)                                          (** 398-422 *)
  | GroundTestDeploy _ _ => Some c                                                                     (** 423-425 *)
  | ManualTriggerDeployment _ => with_sys c (ystep p y (YTrigger t))                                   (** 426-434 *)
  end.

Definition awake (c : craft) : craft := Craft (c_sys c) false (c_shown c) (c_can c) (c_deletions c) (c_reset_at c).

(** [None]: not an execution (or a panic of the flight core, see FlightCore.v) *)
Definition cstep (p : profile A) (c : craft) (e : cevent) : option craft :=
  match e with
  | CPacket u t now => match c_reset_at c with None => obey p (awake c) u t now | Some _ => None end   (** 344-345 *)
  | CHard b t => with_sys c (ystep p (c_sys c) (YArm (AHard b t)))
  | CPoll t => with_sys c (ystep p (c_sys c) (YArm (APoll t)))
  | CSetup => with_sys c (ystep p (c_sys c) YSetup)
  | CSense r => if c_low c then Some c else with_sys c (ystep p (c_sys c) (YBaro r))                   (** 524-527 *)
  | CTick t => with_sys c (ystep p (c_sys c) (YTick t))
  | CMain now => with_sys c (ystep p (c_sys c) (YMain now))
  | CDrogue now => with_sys c (ystep p (c_sys c) (YDrogue now))
  | CReset now => match c_reset_at c with Some due => if due <=? now then Some power_on else None | None => None end
  end.
Fixpoint crun (p : profile A) (c : craft) (l : list cevent) : option craft :=
  match l with [] => Some c | e :: l => match cstep p c e with Some c' => crun p c' l | None => None end end.
End Commands.
Arguments craft : clear implicits.
Arguments cevent : clear implicits.

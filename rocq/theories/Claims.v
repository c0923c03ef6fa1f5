(** * Who holds which device of the flight computer.
    common/vl_device_manager.rs: claim_devices! (247-255: [try_lock().unwrap()], a panic if the device is held), used by vl_main.rs
    (35-45, 163, 173, 178-216), avionics/mod.rs (140, 266-277), avionics/self_test.rs (10), gcm/mod.rs (35),
    ground_test_avionics/mod.rs (50), vacuum_test/mod.rs (42) and, through pyro_macro.rs (4-35), by the pyro tasks of
    avionics/mod.rs (482-520, 760-822) and ground_test_avionics/mod.rs (163-259).  A guard is dropped at the end of its block.

    A task is the list of its claims and releases, in order; loops make it as long as one likes.  Simplified: everything
    else the tasks do is left out; the tasks of a mode that claim nothing are left out; [indicators.run] never returns (C89). *)
From Coq Require Import List Bool Arith.
From Verif Require Import VLP Pyro.
Import ListNotations.
Local Open Scope list_scope.

Inductive device :=
| Flash | CrcUnit | Usb | SerialPort | Buzzer | GpsUnit | GpsPps | SysReset
| Indicators | LowGImu | HighGImu | Barometer | Mag | ArmingSwitch | Lora | Camera | CanBus
| Cont (c : cont_device) | Ctrl (c : ctrl_device).
Inductive op := Claim (d : device) | Release (d : device).
Definition device_eq (a b : device) : {a = b} + {a <> b}. Proof. repeat decide equality. Defined.

(** [None]: panic.  try_lock().unwrap() (vl_device_manager.rs:251) *)
Definition op_step (held : list device) (o : op) : option (list device) :=
  match o with
  | Claim d => if in_dec device_eq d held then None else Some (d :: held)
  | Release d => Some (remove device_eq d held)
  end.
Fixpoint exec (held : list device) (l : list op) : option (list device) :=
  match l with [] => Some held | o :: l => match op_step held o with Some h => exec h l | None => None end end.

Fixpoint set_task (i : nat) (r : list op) (ts : list (list op)) : list (list op) :=
  match ts, i with
  | [], _ => []
  | _ :: ts, O => r :: ts
  | t :: ts, S i => t :: set_task i r ts
  end.
(** tasks of a join!, under a schedule that says who does its next operation *)
Fixpoint together (held : list device) (ts : list (list op)) (sched : list nat) : option (list device) :=
  match sched with
  | [] => Some held
  | i :: sched =>
      match nth_error ts i with
      | Some (o :: r) => match op_step held o with Some h => together h (set_task i r ts) sched | None => None end
      | _ => together held ts sched
      end
  end.

(** what a start of the device depends on *)
Inductive mode :=
| Avionics (profile : option (pyro * pyro)) (self_test_ok : bool)   (** main and drogue pyro *)
| Gcm
| GroundTest (main drogue : pyro) (fire : option pyro)              (** the pyro of the first packet, if it is a fire command *)
| VacuumTest.
Record start := Start { s_config : option mode; s_usb : bool }.

Definition claims : list device -> list op := map Claim.
Definition releases : list device -> list op := map Release.

(** vl_main.rs:35-45 *)
Definition base : list device := [Flash; CrcUnit; Usb; SerialPort; Buzzer; GpsUnit; GpsPps; SysReset].
(** self_test.rs:10; the guards go at the end of the function *)
Definition self_test : list op := claims [LowGImu; HighGImu; Barometer; Mag] ++ releases [Mag; Barometer; HighGImu; LowGImu].

(** vl_main.rs:159-216 up to the start of the mode's tasks; [true]: the tasks of the mode are started *)
Definition boot (s : start) : list op * bool :=
  match s_config s with
  | None => (claims [Indicators], false)                                                    (** 161-167 *)
  | Some Gcm => (claims [Lora; Indicators], true)                                           (** gcm/mod.rs:35 *)
  | Some m =>
      if s_usb s then (claims [Indicators], false)                                          (** 170-176 *)
      else
        match m with
        | Avionics None _ => (claims [Indicators], false)                                   (** avionics/mod.rs:140-154 *)
        | Avionics (Some _) false => (claims [Indicators] ++ self_test, false)              (** 156-182 *)
        | Avionics (Some _) true =>
            (claims [Indicators] ++ self_test ++ claims [ArmingSwitch; LowGImu; Barometer; Lora; Camera; CanBus], true)   (** 266-277 *)
        | GroundTest _ _ _ => (claims [Lora; Barometer; ArmingSwitch; Indicators; CanBus], true)
        | VacuumTest => (claims [Indicators; Barometer], true)
        | Gcm => ([], false)
        end
  end.

(** read_continuity, then wait_continuity_change for ever, each in its own block (avionics/mod.rs:482-518): [n] of them
    over and the next one under way *)
Fixpoint cont_task (p : pyro) (n : nat) : list op :=
  match n with O => [Claim (Cont (cont_of p))] | S n => Claim (Cont (cont_of p)) :: Release (Cont (cont_of p)) :: cont_task p n end.
(** a pulse: on, three seconds, off; two blocks (avionics/mod.rs:775-786, ground_test_avionics/mod.rs:175-186) *)
Definition pulse (p : pyro) : list op := [Claim (Ctrl (ctrl_of p)); Release (Ctrl (ctrl_of p)); Claim (Ctrl (ctrl_of p)); Release (Ctrl (ctrl_of p))].
(** the avionics tasks end after one pulse (787, 818); any number is allowed here *)
Fixpoint ctrl_task (p : pyro) (n : nat) : list op := match n with O => [] | S n => pulse p ++ ctrl_task p n end.

(** the tasks of the mode that claim devices; [n1 .. n4]: how often they go round *)
Definition tasks (m : mode) (n1 n2 n3 n4 : nat) : list (list op) :=
  match m with
  | Avionics (Some (main, drogue)) _ => [cont_task main n1; cont_task drogue n2; ctrl_task main n3; ctrl_task drogue n4]
  | GroundTest main drogue fire => [cont_task main n1; cont_task drogue n2; match fire with Some p => pulse p | None => [] end]
  | _ => []
  end.

(** the life of the device from its start *)
Definition life (s : start) (n1 n2 n3 n4 : nat) (sched : list nat) : option (list device) :=
  let '(b, go) := boot s in
  match exec [] (claims base ++ b) with
  | Some held => match s_config s with Some m => if go then together held (tasks m n1 n2 n3 n4) sched else Some held | None => Some held end
  | None => None
  end.

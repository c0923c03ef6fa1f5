(** * Pyro devices: continuity monitoring (pyro_macro.rs, avionics/mod.rs:482-518, the same code in
      ground_test_avionics/mod.rs:223-259) and the ground-test firing sequence
      (ground_test_avionics/mod.rs:135-206) *)
From Coq Require Import List Arith Lia Bool.
From Verif Require Import VLP.
Import ListNotations.
Local Open Scope nat_scope.

(** ** Continuity *)
(** the device the macro claims for a selection, pyro_macro.rs:4-17 (as written: Pyro3 gives pyro2_cont) *)
Inductive cont_device := pyro1_cont | pyro2_cont | pyro3_cont.
Definition cont_of (p : pyro) : cont_device :=
  match p with Pyro1 => pyro1_cont | Pyro2 => pyro2_cont | Pyro3 => pyro2_cont end.
(** the control output, pyro_macro.rs:20-33 *)
Inductive ctrl_device := pyro1_ctrl | pyro2_ctrl | pyro3_ctrl.
Definition ctrl_of (p : pyro) : ctrl_device :=
  match p with Pyro1 => pyro1_ctrl | Pyro2 => pyro2_ctrl | Pyro3 => pyro3_ctrl end.

Definition same_cont (a b : cont_device) : bool :=
  match a, b with pyro1_cont, pyro1_cont | pyro2_cont, pyro2_cont | pyro3_cont, pyro3_cont => true | _, _ => false end.

(** A monitoring task: not polled yet, or awaiting [read_continuity] / [wait_continuity_change] with the
    device's guard in hand (the guard lives in the block of the macro, across the await). *)
Inductive mon := MStart | MHolding.
Inductive who := MainTask | DrogueTask.

(** Both tasks, the two telemetry fields they write, and whether [try_lock().unwrap()]
    (vl_device_manager.rs:251) has panicked. *)
Record conts := Conts { mainm : mon; droguem : mon; main_field : bool; drogue_field : bool; panicked : bool }.
(** TelemetryPacketBuilder starts with both fields false *)
Definition conts_new : conts := Conts MStart MStart false false false.

Inductive cevent :=
| Poll (w : who)                 (* the task is polled; nothing it awaits is ready *)
| Answer (w : who) (v : bool).   (* what the task awaits completes with Ok(v), and the task is polled *)

Definition mon_of (w : who) (c : conts) : mon := match w with MainTask => mainm c | DrogueTask => droguem c end.
Definition other (w : who) : who := match w with MainTask => DrogueTask | DrogueTask => MainTask end.
Definition device (main drogue : pyro) (w : who) : cont_device :=
  cont_of (match w with MainTask => main | DrogueTask => drogue end).

(** [claim_devices!] by [w]: the other task's guard is the only thing that can be in the way *)
Definition claim (main drogue : pyro) (w : who) (c : conts) : conts :=
  match mon_of (other w) c with
  | MHolding =>
      if same_cont (device main drogue w) (device main drogue (other w))
      then Conts (mainm c) (droguem c) (main_field c) (drogue_field c) true
      else match w with
           | MainTask => Conts MHolding (droguem c) (main_field c) (drogue_field c) (panicked c)
           | DrogueTask => Conts (mainm c) MHolding (main_field c) (drogue_field c) (panicked c)
           end
  | MStart =>
      match w with
      | MainTask => Conts MHolding (droguem c) (main_field c) (drogue_field c) (panicked c)
      | DrogueTask => Conts (mainm c) MHolding (main_field c) (drogue_field c) (panicked c)
      end
  end.
Definition record (w : who) (v : bool) (c : conts) : conts :=
  match w with
  | MainTask => Conts (mainm c) (droguem c) v (drogue_field c) (panicked c)
  | DrogueTask => Conts (mainm c) (droguem c) (main_field c) v (panicked c)
  end.

Definition cont_step (main drogue : pyro) (c : conts) (e : cevent) : conts :=
  if panicked c then c else
  match e with
  | Poll w => match mon_of w c with MStart => claim main drogue w c | MHolding => c end
  | Answer w v =>
      match mon_of w c with
      | MStart => c                                     (* not waiting for anything *)
      | MHolding => claim main drogue w (record w v c)  (* guard dropped, field written, claimed again *)
      end
  end.
Definition cont_run (main drogue : pyro) (es : list cevent) : conts := fold_left (cont_step main drogue) es conts_new.

(** ** The ground-test firing sequence *)
(** ground_test_avionics/mod.rs:135-206.  Time in ms; [delay_ms] wakes up some time late.
    The radio task offers packets with their arrival times, in order. *)
Inductive gaction :=
| GPyro (d : ctrl_device) (on : bool)   (* set_enable *)
| GBeep (n : nat)
| GLogFire (time : nat).                (* the FireEvent record *)

(** lines 163-201: [l1..l4] are how late the four delays before and after the firing wake up *)
Definition fire_sequence (p : pyro) (t : nat) (l1 l2 l3 l4 : nat) : list (nat * gaction) :=
  let t1 := t + 1000 + l1 in
  let t2 := t1 + 1000 + l2 in
  let t3 := t2 + 1000 + l3 in
  let t4 := t3 + 3000 + l4 in
  [ (t, GBeep 3); (t1, GBeep 2); (t2, GBeep 1);
    (t3, GPyro (ctrl_of p) true); (t4, GPyro (ctrl_of p) false); (t4, GLogFire t3) ].

(** lines 135-206: [vlp_rx_fut] waits for one packet, handles it and ends: there is no loop.
    The argument [armed] is what the arming switch reads over time: it is not looked at. *)
Definition ground_test (armed : nat -> bool) (packets : list (nat * uplink)) (l1 l2 l3 l4 : nat) : list (nat * gaction) :=
  match packets with
  | (t, GroundTestDeploy _ p) :: _ => fire_sequence p t l1 l2 l3 l4
  | _ => []
  end.

(** * The time on the CAN bus.
    firmware-common/src/avionics/mod.rs: can_tx_unix_time_fut (305-317) on top of the GPS clock (common/unix_clock.rs, Clock.v), whose
    updates reach the task through PubSubChannel<_, f64, 1, 10, 1> (unix_clock.rs:26, 70, 117-119); the time message's use on the
    strain-gauge board, strain_gauges/mid_prio.rs:143-160.

    Simplified: times are exact rationals (milliseconds since the flight computer's boot); waiting for the transmitter's mutex
    and the transmission are one interval between [TTake] and [TSent]; the task has subscribed before the first update. *)
From Coq Require Import List Bool QArith Qround ZArith.
From Verif Require Import Base Numerics Clock Can PubSub StatusBus.
Import ListNotations.
Local Open Scope Q_scope.
Local Open Scope list_scope.

(** an update of the clock: the unix time it announces, and (a ghost) the moment of the pulse *)
Definition update : Type := Q * Q.
(** the task waits for an update (308), one being there since [ready], or has one and wants the bus since [since] (309-313);
    the two moments are ghosts *)
Inductive ttask := TIdle (ready : option Q) | THold (u : update) (since : Q).
Record tbus := TBus {
  t_now : Q;
  t_clock : uclock;
  t_queue : list update;                    (** the subscriber's queue, oldest first *)
  t_task : ttask;
  t_frames : list (update * Q) }.           (** the updates sent, and when the transmission ended, oldest first *)

Definition tbus_new : tbus := TBus 0 uclock_new [] (TIdle None) [].

Inductive tevent :=
| TClock (e : uevent)                       (** the tasks of the clock *)
| TTake (t : Q)                             (** next_message_pure().await returns (308) *)
| TSent (ok : bool) (t : Q).                (** can_tx.send(&message, 2).await.ok() (313) *)

Definition clock_time (now : Q) (e : uevent) : Q := match e with GpsTime t _ | Pulse t => t | Await _ => now end.

(** [None]: not an execution *)
Definition tstep (n : tbus) (e : tevent) : option tbus :=
  let '(TBus now clk queue task frames) := n in
  match e with
  | TClock c =>
      let t := clock_time now c in
      if Qle_bool now t then
        let '(clk', o) := ustep clk c in
        match o with
        | Published v _ =>
            Some (TBus t clk' (publish 1 true (v, t) queue) (match task with TIdle None => TIdle (Some t) | _ => task end) frames)
        | _ => Some (TBus t clk' queue task frames)
        end
      else None
  | TTake t =>
      match task, queue with
      | TIdle _, u :: q => if Qle_bool now t then Some (TBus t clk q (THold u t) frames) else None
      | _, _ => None
      end
  | TSent ok t =>
      match task with
      | THold u _ => if Qle_bool now t then Some (TBus t clk queue (TIdle (match queue with [] => None | _ => Some t end)) (if ok then frames ++ [(u, t)] else frames)) else None
      | TIdle _ => None
      end
  end.
Fixpoint truns (n : tbus) (l : list tevent) : option tbus :=
  match l with [] => Some n | e :: l => match tstep n e with Some n' => truns n' l | None => None end end.

(** the message of an update: [unix_timestamp as u64] truncates and saturates at 0 (310-312) *)
Definition time_msg (u : update) : can_msg := UnixTime (Z.to_N (Qfloor (fst u))).
(** its frame: priority 2 (313) *)
Definition time_frame (node : N) (u : update) : frame := frame_of node (fun _ => 2%N) (time_msg u).

(** the strain-gauge board takes down the message with its own boot time [b] at reception (mid_prio.rs:128-160) *)
Definition time_reference (f : frame) (b : Q) : option (Q * N) :=
  if fr_rtr f then None
  else if N.eqb (message_type (from_raw (fr_id f))) 0 then
    match from_data 0 (fr_data f) with Some (UnixTime ms) => Some (b, ms) | _ => None end
  else None.

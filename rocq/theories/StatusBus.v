(** * What the avionics computer puts on the CAN bus.
    firmware-common/src/avionics/mod.rs: can_tx_avionics_status_fut (289-303) and, beside it on the same transmitter (287),
    can_tx_unix_time_fut (305-317), the flight events (C123) and the reset message (391-394); common/ticker.rs:14-45.
    ground_test_avionics/mod.rs:90-103 is the same task with low_power fixed to false.

    Simplified: times are whole milliseconds (C63 is about the ticker's rational ones); waiting for the transmitter's mutex and the
    transmission itself are one interval between [BWake] and [BSent]; what the other tasks send is an event of its own. *)
From Coq Require Import List Bool ZArith.
From Verif Require Import Base Can.
Import ListNotations.
Local Open Scope Z_scope.
Local Open Scope list_scope.

(** where the status task is: waiting for the ticker (mod.rs:301), or, with its message made (292-295), for the bus (296-297) *)
Inductive btask := TWait (due : Z) | TSend (m : can_msg) (since : Z).
Record bus := Bus {
  s_now : Z;
  s_armed : bool; s_low : bool;       (** arming_state.is_armed(), low_power_mode *)
  s_start : Z; s_i : Z;               (** the ticker: start_timestamp, i *)
  s_task : btask;
  s_frames : list (can_msg * Z) }.    (** what went out on the bus and when, oldest first *)

(** the task starts with a message, before the first tick (mod.rs:291-297) *)
Definition bus_new (t0 : Z) : bus := Bus t0 false false t0 0 (TWait t0) [].

Inductive bevent :=
| BArm (b : bool) (t : Z) | BLow (b : bool) (t : Z)
| BWake (t : Z)                       (** the delay of the ticker is over; the message is made *)
| BSent (ok : bool) (t : Z)           (** can_tx.send(..).await.ok() returns *)
| BOther (m : can_msg) (t : Z)        (** another task's message *)
| BIdle (t : Z).

Definition STATUS_INTERVAL : Z := 2000.          (** mod.rs:290 *)
Definition is_status (m : can_msg) : bool := match m with AvionicsStatus _ _ => true | _ => false end.

(** [None]: not an execution *)
Definition bstep (n : bus) (e : bevent) : option bus :=
  let '(Bus now armed low start i task frames) := n in
  match e with
  | BArm b t => if now <=? t then Some (Bus t b low start i task frames) else None
  | BLow b t => if now <=? t then Some (Bus t armed b start i task frames) else None
  | BIdle t => if now <=? t then Some (Bus t armed low start i task frames) else None
  | BOther m t => if (now <=? t) && negb (is_status m) then Some (Bus t armed low start i task (frames ++ [(m, t)])) else None
  | BWake t =>
      match task with
      | TWait due => if (now <=? t) && (due <=? t) then Some (Bus t armed low start i (TSend (AvionicsStatus low armed) t) frames) else None
      | TSend _ _ => None
      end
  | BSent ok t =>
      match task with
      | TSend m _ =>
          if now <=? t then
            (* ticker.rs:35-44: at once when the time is past *)
            let until := start + (i + 1) * STATUS_INTERVAL in
            Some (Bus t armed low start (i + 1) (TWait (if until <=? t then t else until)) (if ok then frames ++ [(m, t)] else frames))
          else None
      | TWait _ => None
      end
  end.
Fixpoint bruns (n : bus) (l : list bevent) : option bus :=
  match l with [] => Some n | e :: l => match bstep n e with Some n' => bruns n' l | None => None end end.

(** the frame of a message: configure_self_node (mod.rs:281-285), priority 3 for the status (297), 2 for the time (313) *)
Definition VOID_LAKE_NODE_TYPE : N := 40.
Definition frame_of (node : N) (prio : can_msg -> N) (m : can_msg) : frame :=
  mkFrame (raw_id (mkId (prio m) (msg_type m) VOID_LAKE_NODE_TYPE node)) false (to_data m).

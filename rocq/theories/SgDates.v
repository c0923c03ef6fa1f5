(** * The unix times in the battery log of the strain-gauge board.
    firmware-common/src/strain_gauges/mid_prio.rs: store_battery_unix_time_fut (341-363), a ticker of five minutes (common/ticker.rs,
    HostTime.v), reading the time that the CAN receiver left in unix_timestamp_log_mutex (145-160).

    Simplified: exact rational milliseconds; the log is the list of what is handed to the logger, with the moment; the receiver is
    the one of the source, whose task is commented out of the final join (378-384): see C140_refuted_as_built. *)
From Coq Require Import List Bool QArith ZArith.
From Verif Require Import HostTime.
Import ListNotations.
Local Open Scope Q_scope.
Local Open Scope list_scope.

(** UnixTimestampLog: boot_timestamp, unix_timestamp *)
Definition stamp : Type := Q * Q.
(** derive(PartialEq), delta_logger.rs:67-71 *)
Definition same (x y : stamp) : bool := Qeq_bool (fst x) (fst y) && Qeq_bool (snd x) (snd y).

Record bat := Bat {
  b_now : Q;
  b_ticker : ticker; b_call : Q;            (** ticker.next() was called at [b_call] *)
  b_mutex : option stamp;
  b_last : option stamp;                    (** last_unix_time_log *)
  b_log : list (Q * stamp) }.               (** oldest first *)
Definition FIVE_MINUTES : Q := 5 * 60 * 1000.
(** 342-343: the task starts at [start] *)
Definition bat_new (start : Q) : bat := Bat start (every start FIVE_MINUTES) start None None [].

Inductive bevent :=
| BTime (t : Q) (x : stamp)                 (** a time message is received *)
| BTick (t : Q).                            (** ticker.next() returns, at [t] *)
(** [None]: not an execution *)
Definition bstep (n : bat) (e : bevent) : option bat :=
  let '(Bat now tk call mutex last log) := n in
  match e with
  | BTime t x => if Qle_bool now t then Some (Bat t tk call (Some x) last log) else None
  | BTick t =>
      let '(tk', due) := next tk call 0 in
      if Qle_bool now t && Qle_bool due t then
        match mutex with
        | None => Some (Bat t tk' t mutex last log)
        | Some x =>
            match last with
            | Some y => if same x y then Some (Bat t tk' t mutex last log)          (** 352 *)
                        else Some (Bat t tk' t mutex (Some x) (log ++ [(t, x)]))    (** 353-354 *)
            | None => Some (Bat t tk' t mutex (Some x) (log ++ [(t, x)]))           (** 357-358 *)
            end
        end
      else None
  end.
Fixpoint bruns (n : bat) (l : list bevent) : option bat :=
  match l with [] => Some n | e :: l => match bstep n e with Some n' => bruns n' l | None => None end end.

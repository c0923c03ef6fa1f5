(** * The unix times in the flight log.
    firmware-common/src/avionics/mod.rs: loggers_unix_time_log_fut (586-602): every update of the GPS clock is logged, with the boot
    time at which the task saw it, by the GPS, IMU and barometer loggers.

    Simplified: exact rational milliseconds; one list stands for what is handed to the loggers: of these times each file
    of each logger holds some (C32, C36, C89 and C106 say which). *)
From Coq Require Import List Bool QArith ZArith.
From Verif Require Import Numerics Clock PubSub TimeBus.
Import ListNotations.
Local Open Scope Q_scope.
Local Open Scope list_scope.

Record dlog := DLog {
  d_now : Q; d_clock : uclock;
  d_queue : list update;                  (** unix_clock.rs:26: one place *)
  d_refs : list (Q * Q) }.                (** UnixTimestampLog { boot_timestamp, unix_timestamp }, oldest first *)
Definition dlog_new : dlog := DLog 0 uclock_new [] [].

Inductive devent := DClock (e : uevent) | DTake (t : Q).
(** [None]: not an execution *)
Definition dstep (n : dlog) (e : devent) : option dlog :=
  let '(DLog now clk queue refs) := n in
  match e with
  | DClock c =>
      let t := clock_time now c in
      if Qle_bool now t then
        let '(clk', o) := ustep clk c in
        match o with
        | Published v _ => Some (DLog t clk' (publish 1 true (v, t) queue) refs)
        | _ => Some (DLog t clk' queue refs)
        end
      else None
  | DTake t =>
      match queue with
      | (v, _) :: q => if Qle_bool now t then Some (DLog t clk q (refs ++ [(t, v)])) else None    (** 589-600 *)
      | [] => None
      end
  end.
Fixpoint druns (n : dlog) (l : list devent) : option dlog :=
  match l with [] => Some n | e :: l => match dstep n e with Some n' => druns n' l | None => None end end.

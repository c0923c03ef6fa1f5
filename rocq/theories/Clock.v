(** * The GPS-disciplined clock and its waiters.

    Models firmware-common/src/common/multi_waker.rs (and its copy in
    vl8-ctrl-protocol/src/multi_waker.rs) and firmware-common/src/common/unix_clock.rs.
    Simplifications: a waker is the number of the task it wakes (will_wake is
    equality of tasks); f64 milliseconds are exact rationals; the two futures of
    UnixClockTask::run are one machine that takes their loop iterations in any
    order, each iteration being atomic (neither awaits while it holds the
    state). *)
From Coq Require Import List Bool Arith QArith ZArith.
From Verif Require Import Numerics.
Import ListNotations.
Local Open Scope Q_scope.
Local Open Scope list_scope.

(** ** MultiWakerRegistration<N> (multi_waker.rs:55-109) *)
Definition slots := list (option nat).
(** new (68-71) *)
Definition mw_new (n : nat) : slots := repeat None n.
(** the first empty slot takes the waker (88-95; WakerRegistration::register on an empty slot, 19-39) *)
Fixpoint mw_fill (w : nat) (s : slots) : option slots :=
  match s with
  | [] => None
  | None :: s => Some (Some w :: s)
  | Some x :: s => match mw_fill w s with Some s => Some (Some x :: s) | None => None end
  end.
Definition is_waker (w : nat) (o : option nat) : bool := match o with Some x => (x =? w)%nat | None => false end.
(** register (74-100): true is Ok *)
Definition mw_register (w : nat) (s : slots) : slots * bool :=
  if existsb (is_waker w) s then (s, true)
  else match mw_fill w s with Some s => (s, true) | None => (s, false) end.
(** wake (103-107; 42-46): the tasks woken, in slot order *)
Definition mw_wake (s : slots) : slots * list nat :=
  (map (fun _ => None) s, flat_map (fun o => match o with Some w => [w] | None => [] end) s).

(** ** UnixClockTask and UnixClock (unix_clock.rs) *)
Record uclock := UClock { u_offset : option Q; u_wakers : slots; u_latest : Q * Z }.

(** new (29-35), and the (0, 0) run starts with (48-49) *)
Definition uclock_new : uclock := UClock None (mw_new 10) (0, 0%Z).

Inductive uevent :=
  | GpsTime (at_ms : Q) (seconds : Z)   (** receive_gps_timestamp_fut gets a message (51-58) *)
  | Pulse (at_ms : Q)                   (** wait_for_pps_fut (60-78) *)
  | Await (task : nat).                 (** a poll of wait_until_ready (101-115) *)

Inductive uout :=
  | Nothing
  | Published (unix_ms : Q) (woken : list nat)
  | Ready | Pending
  | Panics.      (** register(..).unwrap() *)

Definition ustep (s : uclock) (e : uevent) : uclock * uout :=
  match e with
  | GpsTime t ts => (UClock (u_offset s) (u_wakers s) (t, ts), Nothing)
  | Pulse t =>
    if Qltb (t - fst (u_latest s)) 800
    then let now := inject_Z (snd (u_latest s) + 1) * 1000 in
         let '(ws, woken) := mw_wake (u_wakers s) in
         (UClock (Some (now - t)) ws (u_latest s), Published now woken)
    else (s, Nothing)
  | Await w =>
    match u_offset s with
    | Some _ => (s, Ready)
    | None => let '(ws, ok) := mw_register w (u_wakers s) in (UClock (u_offset s) ws (u_latest s), if ok then Pending else Panics)
    end
  end.

Fixpoint urun (s : uclock) (es : list uevent) : uclock * list uout :=
  match es with
  | [] => (s, [])
  | e :: es => let '(s, o) := ustep s e in let '(s, os) := urun s es in (s, o :: os)
  end.

(** ready (92-96) *)
Definition u_ready (s : uclock) : bool := match u_offset s with Some _ => true | None => false end.
(** convert_to_unix (121-128); now_ms (133-139) is this at the boot clock's time *)
Definition to_unix (s : uclock) (boot : Q) : Q := boot + match u_offset s with Some o => o | None => 0 end.

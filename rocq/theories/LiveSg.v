(** * Live strain-gauge samples on the console: [GetRealTime] of firmware-common/src/common/console/sg_rpc.rs:132-136, fed by
    firmware-common/src/strain_gauges/low_prio.rs:162-167 through the [PubSubChannel<_, [f32; 4], 4, 1, 1>] of global_states.rs:15 *)
From Coq Require Import List Arith.
Import ListNotations.
From Verif Require Import PubSub.
Local Open Scope nat_scope.

Section Live.
Context {T : Type}.   (* [f32; 4] *)

(** global_states.rs:15 *)
Definition LIVE_CAP : nat := 4.

Inductive levent :=
| LPlug             (* mid_prio.rs:101: the USB port is connected; run_rpc_server starts and subscribes, sg_rpc.rs:24 *)
| LSample (m : T)   (* low_prio.rs:162-167 [publish_immediate] *)
| LPoll             (* a GetRealTime request, sg_rpc.rs:132-136 [try_next_message_pure] *)
| LUnplug.          (* the line fails: run_rpc_server returns and the subscriber is dropped *)

(** whether a console session (and its subscriber) exists, the unread messages, and the answers given so far *)
Record live := Live { l_sub : bool; l_q : list T; l_answers : list (option T) }.
Definition live_new : live := Live false [] [].

(** [None] is a panic: [subscriber().unwrap()] with a subscriber still there.  A request without a session is not received at all. *)
Definition live_step (s : live) (e : levent) : option live :=
  match e with
  | LPlug => if l_sub s then None else Some (Live true [] (l_answers s))
  | LSample m => Some (Live (l_sub s) (publish LIVE_CAP (l_sub s) m (l_q s)) (l_answers s))
  | LPoll => if l_sub s then match l_q s with
                             | m :: t => Some (Live true t (l_answers s ++ [Some m]))
                             | [] => Some (Live true [] (l_answers s ++ [None]))
                             end
             else Some s
  | LUnplug => Some (Live false [] (l_answers s))
  end.
(** mid_prio.rs:99-112: the sessions are run one after the other in a loop, so a connection is noticed only when no session is running *)
Definition live_event (s : live) (e : levent) : option live :=
  match e with
  | LPlug => if l_sub s then Some s else live_step s e
  | _ => live_step s e
  end.
Definition live_run (s : live) (es : list levent) : option live :=
  fold_left (fun o e => match o with Some s => live_event s e | None => None end) es (Some s).
End Live.
Arguments levent : clear implicits.
Arguments live : clear implicits.

(** * Model of firmware-common/src/common/zerocopy_channel.rs and rpc_channel.rs *)
From Coq Require Import List Arith Lia Bool.
Import ListNotations.
Local Open Scope nat_scope.

(** ** ZeroCopyChannel (zerocopy_channel.rs)
    One sender, one receiver, [N] slots each behind its own mutex, and a publish/subscribe queue of
    slot indices with capacity [N].  [sent] and [got] are ghost logs of what the two users see: the
    value a send guard held when it was dropped, the value a receive guard gave access to. *)
Section Zero.
Context {T : Type}.

(** where the single receiver is: idle, inside [receive] with an index already taken from the queue but
    the slot still locked by the sender (zerocopy_channel.rs:119-120), or holding the slot's guard *)
Inductive rstate := RIdle | RWant (i : nat) | RHold (i : nat).

(** zerocopy_channel.rs:12-15, 42-45 *)
Record zc := ZC {
  vals : nat -> T;        (* the slots' contents *)
  ready : list nat;       (* ready_value_idx as the receiver sees it, oldest first *)
  curr : nat;             (* curr_ready_value *)
  sending : bool;         (* a send guard is alive; it locks slot [curr] *)
  rcv : rstate;
  sent : list T; got : list T }.

(** zerocopy_channel.rs:18-40: [T::default()] everywhere; sender and receiver both created before use
    (an index published while there is no subscriber is dropped by embassy, not modelled). *)
Definition zc_new (d : T) : zc := ZC (fun _ => d) [] 0 false RIdle [] [].

Definition put (m : nat -> T) (i : nat) (v : T) : nat -> T := fun j => if j =? i then v else m j.
Definition held_by_receiver (c : zc) (i : nat) : bool := match rcv c with RHold j => j =? i | _ => false end.

Inductive zevent :=
| StartSend        (* try_start_send, or one poll of start_send *)
| Fill (v : T)     (* the user writes through the guard *)
| FinishSend       (* the guard is dropped *)
| PollReceive      (* one poll of receive() *)
| CancelReceive    (* the receive() future is dropped *)
| Release.         (* the receive guard is dropped *)

(** zerocopy_channel.rs:119-121 once an index is known *)
Definition lock_slot (i : nat) (c : zc) : zc :=
  if sending c && (i =? curr c)
  then ZC (vals c) (ready c) (curr c) (sending c) (RWant i) (sent c) (got c)
  else ZC (vals c) (ready c) (curr c) (sending c) (RHold i) (sent c) (got c ++ [vals c i]).

(** embassy [publish_immediate] with one subscriber: a full queue loses its oldest message, and
    [next_message_pure] skips the gap. *)
Definition publish (n i : nat) (q : list nat) : list nat := (if length q =? n then tl q else q) ++ [i].

Definition zstep (n : nat) (c : zc) (e : zevent) : zc :=
  match e with
  | StartSend => (* lines 48-67 *)
      if sending c || held_by_receiver c (curr c) then c
      else ZC (vals c) (ready c) (curr c) true (rcv c) (sent c) (got c)
  | Fill v => (* lines 85-91 *)
      if sending c then ZC (put (vals c) (curr c) v) (ready c) (curr c) true (rcv c) (sent c) (got c) else c
  | FinishSend => (* lines 96-107 *)
      if sending c
      then ZC (vals c) (publish n (curr c) (ready c)) (if n <=? curr c + 1 then 0 else curr c + 1) false (rcv c)
              (sent c ++ [vals c (curr c)]) (got c)
      else c
  | PollReceive => (* lines 117-123 *)
      match rcv c with
      | RIdle => match ready c with
                 | [] => c
                 | i :: q => lock_slot i (ZC (vals c) q (curr c) (sending c) RIdle (sent c) (got c))
                 end
      | RWant i => lock_slot i c
      | RHold _ => c
      end
  | CancelReceive =>
      match rcv c with
      | RWant _ => ZC (vals c) (ready c) (curr c) (sending c) RIdle (sent c) (got c)
      | _ => c
      end
  | Release =>
      match rcv c with
      | RHold _ => ZC (vals c) (ready c) (curr c) (sending c) RIdle (sent c) (got c)
      | _ => c
      end
  end.

Definition zrun (n : nat) (c : zc) (es : list zevent) : zc := fold_left (zstep n) es c.

End Zero.
Arguments zc : clear implicits.
Arguments zevent : clear implicits.

(** ** RpcChannel (rpc_channel.rs): two embassy channels of capacity 1, one client, one server. *)
Section Rpc.
Context {Q P : Type}.

Inductive cstate := CIdle | CSending (q : Q) | CAwaiting (q : Q).
(** the server between [get_request] and [send_response]; the response is whatever it computes *)
Inductive sstate := SIdle | SWorking (q : Q) | SSending (q : Q) (p : P).

(** Each queued response carries, as ghost, the request the server was serving. *)
Record rpc := Rpc {
  req : option Q; resp : option (Q * P); cl : cstate; sv : sstate;
  results : list (Q * (Q * P)) (* ghost: (request of the call, (request served, response)) per finished call *) }.

Definition rpc_new : rpc := Rpc None None CIdle SIdle [].

Inductive revent :=
| Call (q : Q)          (* client.call(q) is created *)
| PollCall              (* one poll of the call *)
| CancelCall            (* the call future is dropped *)
| PollServer            (* one poll of get_request / send_response *)
| Respond (p : P).      (* the server has computed its answer and calls send_response *)

Definition rstep (c : rpc) (e : revent) : rpc :=
  match e with
  | Call q => match cl c with CIdle => Rpc (req c) (resp c) (CSending q) (sv c) (results c) | _ => c end
  | PollCall => (* rpc_channel.rs:32-35 *)
      match cl c with
      | CIdle => c
      | CSending q =>
          match req c with
          | Some _ => c
          | None => match resp c with
                    | Some (q0, p) => Rpc (Some q) None CIdle (sv c) (results c ++ [(q, (q0, p))])
                    | None => Rpc (Some q) None (CAwaiting q) (sv c) (results c)
                    end
          end
      | CAwaiting q =>
          match resp c with
          | Some (q0, p) => Rpc (req c) None CIdle (sv c) (results c ++ [(q, (q0, p))])
          | None => c
          end
      end
  | CancelCall => Rpc (req c) (resp c) CIdle (sv c) (results c)
  | PollServer => (* rpc_channel.rs:43-49 *)
      match sv c with
      | SIdle => match req c with Some q => Rpc None (resp c) (cl c) (SWorking q) (results c) | None => c end
      | SWorking _ => c
      | SSending q p => match resp c with
                        | None => Rpc (req c) (Some (q, p)) (cl c) SIdle (results c)
                        | Some _ => c
                        end
      end
  | Respond p => match sv c with SWorking q => Rpc (req c) (resp c) (cl c) (SSending q p) (results c) | _ => c end
  end.

Definition rrun (c : rpc) (es : list revent) : rpc := fold_left rstep es c.

End Rpc.
Arguments rpc : clear implicits.
Arguments revent : clear implicits.

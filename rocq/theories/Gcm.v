(** * The ground-station module: what the consoles see of the radio link.
    firmware-common/src/gcm/mod.rs, firmware-common/src/common/console/vl_rpc.rs:120-132 (rpc 7 and 8), firmware-common/src/vl_main.rs:128-153
    (two consoles, serial and USB, share one downlink channel and one RPC channel), firmware-common/src/common/rpc_channel.rs,
    downlink_client.rs:29-46.  The radio protocol itself is VlpLink.v; here a reception is an event, and so is the outcome of a transmission.
    A step that is not enabled changes nothing. *)
From Coq Require Import List Arith Lia Bool.
Import ListNotations.

Section Gcm.
Variables (P Q S : Type).     (* packets received (with their status), commands, status of a transmission *)

(** ** Downlink: radio -> [rx_signal] (one slot, overwritten) -> channel of capacity one ([try_send], dropped when full) -> consoles *)
Record mailbox := Mailbox { sig : option P; chan : option P; polled : list (nat * option P) }.

Definition mailbox_new : mailbox := Mailbox None None [].

Inductive mevent :=
| Heard (p : P)        (* downlink_client.rs:66: [rx_signal.signal] *)
| Relay                (* gcm/mod.rs:60-65: the receive task runs *)
| Poll (c : nat).      (* vl_rpc.rs:128-132: console [c] polls *)

Definition mstep (m : mailbox) (e : mevent) : mailbox :=
  match e with
  | Heard p => Mailbox (Some p) (chan m) (polled m)
  | Relay =>
    match sig m with
    | None => m
    | Some p => Mailbox None (match chan m with None => Some p | Some q => Some q end) (polled m)
    end
  | Poll c => Mailbox (sig m) None (polled m ++ [(c, chan m)])
  end.

Definition mrun (es : list mevent) : mailbox := fold_left mstep es mailbox_new.

(** ** Uplink: rpc 7 of any number of consoles over one RpcChannel, served by gcm/mod.rs:52-58 *)
Inductive cstate := Idle | Want (q : Q) | Wait (q : Q).
Inductive sstate := Ready | Busy (q : Q) | Done (p : S).

Record station := Station {
  req : option Q; resp : option S;          (* rpc_channel.rs:3-6: two channels of capacity one *)
  cl : nat -> cstate; sv : sstate;
  transmitted : list (Q * S);               (* commands handed to the radio, with the status of the transmission *)
  returned : list (nat * Q * S) }.          (* statuses returned to consoles: console, its command, the status it got *)

Definition station_new : station := Station None None (fun _ => Idle) Ready [] [].

Definition set_cl (f : nat -> cstate) (c : nat) (x : cstate) : nat -> cstate := fun i => if i =? c then x else f i.

Inductive event :=
| Call (c : nat) (q : Q)   (* console [c] receives a GCMSendUplinkPacket request *)
| Send (c : nat)           (* rpc_channel.rs:30: its request goes into the channel *)
| Take                     (* rpc_channel.rs:41: the GCM task takes the request *)
| Transmit (p : S)         (* gcm/mod.rs:55: [vlp_client.send] returns *)
| Respond                  (* rpc_channel.rs:45 *)
| Return (c : nat).        (* rpc_channel.rs:31: console [c] receives the response *)

(** [gcm]: the device runs in ground-station mode (otherwise nobody serves the channel, vl_main.rs:180-219). *)
Definition sstep (gcm : bool) (s : station) (e : event) : station :=
  match e with
  | Call c q => match cl s c with Idle => Station (req s) (resp s) (set_cl (cl s) c (Want q)) (sv s) (transmitted s) (returned s) | _ => s end
  | Send c =>
    match cl s c, req s with
    | Want q, None => Station (Some q) (resp s) (set_cl (cl s) c (Wait q)) (sv s) (transmitted s) (returned s)
    | _, _ => s
    end
  | Take =>
    match gcm, sv s, req s with
    | true, Ready, Some q => Station None (resp s) (cl s) (Busy q) (transmitted s) (returned s)
    | _, _, _ => s
    end
  | Transmit p => match sv s with Busy q => Station (req s) (resp s) (cl s) (Done p) (transmitted s ++ [(q, p)]) (returned s) | _ => s end
  | Respond =>
    match sv s, resp s with
    | Done p, None => Station (req s) (Some p) (cl s) Ready (transmitted s) (returned s)
    | _, _ => s
    end
  | Return c =>
    match cl s c, resp s with
    | Wait q, Some p => Station (req s) None (set_cl (cl s) c Idle) (sv s) (transmitted s) (returned s ++ [(c, q, p)])
    | _, _ => s
    end
  end.

Definition srun (gcm : bool) (es : list event) : station := fold_left (sstep gcm) es station_new.
End Gcm.
Arguments Mailbox {P}. Arguments sig {P}. Arguments chan {P}. Arguments polled {P}. Arguments mailbox_new {P}.
Arguments Heard {P}. Arguments Relay {P}. Arguments Poll {P}. Arguments mstep {P}. Arguments mrun {P}.
Arguments Idle {Q}. Arguments Want {Q}. Arguments Wait {Q}. Arguments Ready {Q S}. Arguments Busy {Q S}. Arguments Done {Q S}.
Arguments Station {Q S}. Arguments req {Q S}. Arguments resp {Q S}. Arguments cl {Q S}. Arguments sv {Q S}. Arguments transmitted {Q S}.
Arguments returned {Q S}. Arguments station_new {Q S}. Arguments set_cl {Q}. Arguments Call {Q S}. Arguments Send {Q S}. Arguments Take {Q S}.
Arguments Transmit {Q S}. Arguments Respond {Q S}. Arguments Return {Q S}. Arguments sstep {Q S}. Arguments srun {Q S}.

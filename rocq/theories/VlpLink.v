(** * The radio link: ground client and rocket client.

    Models firmware-common/src/common/vlp/downlink_client.rs (the ground
    station's client), uplink_client.rs (the rocket's client), lora_phy.rs as a
    half-duplex radio, and the sequential caller in gcm/mod.rs:46-52.

    The two clients are coroutines on two machines; a [label] is one radio
    operation, one call, or one wake-up, and [step] is a function, so a run is
    a list of labels in any order.  A transmission is heard only by a client
    that is listening at that moment; the label says whether it is heard and
    whether the radio reported success to the sender (a radio may report an
    error after the frame went out).  Frames are packets here: that a heard
    frame decodes to the packet that was sent is C38/C68, and a frame that does
    not decode is a [Noise] label (C40).  Packet status (rssi, snr) is dropped.
    [prepare_for_rx(..).unwrap()] (lora_phy.rs:67) is a panic on a radio error
    and is not modelled. *)
From Verif Require Import Base VLP.
Import ListNotations.
Local Open Scope nat_scope.
Local Open Scope list_scope.

(** downlink_client.rs:61-134, where the loop is waiting *)
Inductive gpc :=
| GListen                             (* line 63 *)
| GTx (p : uplink) (i : nat)          (* line 87, attempt i of 0..5 *)
| GAck (p : uplink) (i : nat)         (* line 89 *)
| GDelay.                             (* line 131 *)

(** uplink_client.rs:57-114 *)
Inductive rpc :=
| RWaitTx                             (* line 60 *)
| RSend (t : telemetry)               (* line 64 *)
| RListen                             (* line 76 *)
| RAck (p : uplink)                   (* line 97 *)
| RDelay.                             (* line 112 *)

(** What an observer of both machines sees, oldest first. *)
Inductive ev :=
| Sent (p : uplink)                   (* the ground operator calls send(p) *)
| Returned (p : uplink) (acked : bool)(* that call returns Some status / None *)
| Heard (p : uplink)                  (* the rocket's client decodes command p *)
| AckFailed (p : uplink)              (* the rocket's radio reports an error for the acknowledgement of p *)
| ToApp (p : uplink).                 (* p is handed to the rocket's application *)

(** The signals of downlink_client.rs:19-23 and uplink_client.rs:20-23 are
    single-slot mailboxes. *)
Record link := Link {
  g_pc : gpc; g_tx : option uplink; g_rx : option downlink; g_done : option bool; g_caller : option uplink;
  r_pc : rpc; r_tx : option telemetry; r_rx : option uplink; r_low : bool; history : list ev }.

Definition link_new : link := Link GListen None None None None RWaitTx None None false [].

Inductive label :=
| LSend (p : uplink)                  (* gcm/mod.rs:49, downlink_client.rs:36-39 *)
| LReturn
| LGTx (ok heard : bool)
| LGTimeout | LGNoise | LGError | LGWake
| LTelemetry (t : telemetry)          (* uplink_client.rs:33-35; the application sends telemetry only *)
| LTake                               (* uplink_client.rs:37-39 *)
| LRStart
| LRTx (ok heard : bool)
| LRTimeout | LRNoise | LRError | LRWake.

Definition MAX_ATTEMPTS : nat := 5.

Definition set_g (s : link) (pc : gpc) (tx : option uplink) (rx : option downlink) (dn : option bool) : link :=
  Link pc tx rx dn (g_caller s) (r_pc s) (r_tx s) (r_rx s) (r_low s) (history s).
Definition set_r (s : link) (pc : rpc) (tx : option telemetry) (rx : option uplink) (low : bool) : link :=
  Link (g_pc s) (g_tx s) (g_rx s) (g_done s) (g_caller s) pc tx rx low (history s).
Definition say (s : link) (e : ev) : link :=
  Link (g_pc s) (g_tx s) (g_rx s) (g_done s) (g_caller s) (r_pc s) (r_tx s) (r_rx s) (r_low s) (history s ++ [e]).

(** downlink_client.rs:77-79: after listening, look for a command to send *)
Definition g_check (s : link) : link :=
  match g_tx s with
  | Some p => set_g s (GTx p 0) None (g_rx s) (g_done s)
  | None => set_g s GListen None (g_rx s) (g_done s)
  end.
(** downlink_client.rs:82-127: the next attempt, or give up *)
Definition g_retry (s : link) (p : uplink) (i : nat) : link :=
  if S i <? MAX_ATTEMPTS then set_g s (GTx p (S i)) (g_tx s) (g_rx s) (g_done s)
  else set_g s GListen (g_tx s) (g_rx s) (Some false).
(** uplink_client.rs:58-65: the next iteration *)
Definition r_loop (low : bool) : rpc := if low then RListen else RWaitTx.
(** a frame reaches the ground station (downlink_client.rs:64-76, 90-118) *)
Definition g_hear (s : link) (d : downlink) : option link :=
  match g_pc s with
  | GListen => Some (g_check (set_g s GListen (g_tx s) (Some d) (g_done s)))
  | GAck p i => match d with
                | Ack _ => Some (set_g s GListen (g_tx s) (g_rx s) (Some true))
                | TelemetryP _ => Some (g_retry s p i)
                end
  | _ => None
  end.
(** a command reaches the rocket (uplink_client.rs:77-88) *)
Definition r_hear (s : link) (p : uplink) : option link :=
  match r_pc s with
  | RListen => Some (say (set_r s (RAck p) (r_tx s) (r_rx s) (match p with LowPowerMode _ e => e | _ => r_low s end)) (Heard p))
  | _ => None
  end.
(** A timestamp of the acknowledgement (uplink_client.rs:93); its value plays no part. *)
Definition ack : downlink := Ack 0.

Definition step (s : link) (l : label) : option link :=
  match l with
  | LSend p => match g_caller s with
               | None => Some (say (Link (g_pc s) (Some p) (g_rx s) (g_done s) (Some p) (r_pc s) (r_tx s) (r_rx s) (r_low s) (history s)) (Sent p))
               | Some _ => None
               end
  | LReturn => match g_caller s, g_done s with
               | Some p, Some a => Some (say (Link (g_pc s) (g_tx s) (g_rx s) None None (r_pc s) (r_tx s) (r_rx s) (r_low s) (history s)) (Returned p a))
               | _, _ => None
               end
  | LGTx ok heard =>
      match g_pc s with
      | GTx p i =>
          let s1 := set_g s (if ok then GAck p i else GDelay) (g_tx s) (g_rx s) (g_done s) in
          if heard then r_hear s1 p else Some s1
      | _ => None
      end
  | LGTimeout | LGNoise =>
      match g_pc s with
      | GListen => Some (g_check s)
      | GAck p i => Some (g_retry s p i)
      | _ => None
      end
  | LGError =>
      match g_pc s with
      | GListen | GAck _ _ => Some (set_g s GDelay (g_tx s) (g_rx s) (g_done s))
      | _ => None
      end
  | LGWake => match g_pc s with GDelay => Some (set_g s GListen (g_tx s) (g_rx s) (g_done s)) | _ => None end
  | LTelemetry t => Some (set_r s (r_pc s) (Some t) (r_rx s) (r_low s))
  | LTake => match r_rx s with Some _ => Some (set_r s (r_pc s) (r_tx s) None (r_low s)) | None => None end
  | LRStart => match r_pc s, r_tx s with RWaitTx, Some t => Some (set_r s (RSend t) None (r_rx s) (r_low s)) | _, _ => None end
  | LRTx ok heard =>
      match r_pc s with
      | RSend t =>
          let s1 := set_r s (if ok then RListen else RDelay) (r_tx s) (r_rx s) (r_low s) in
          if heard then g_hear s1 (TelemetryP t) else Some s1
      | RAck p =>
          let s1 := if ok then say (set_r s (r_loop (r_low s)) (r_tx s) (Some p) (r_low s)) (ToApp p)
                    else say (set_r s RDelay (r_tx s) (r_rx s) (r_low s)) (AckFailed p) in
          if heard then g_hear s1 ack else Some s1
      | _ => None
      end
  | LRTimeout | LRNoise =>
      match r_pc s with RListen => Some (set_r s (r_loop (r_low s)) (r_tx s) (r_rx s) (r_low s)) | _ => None end
  | LRError => match r_pc s with RListen => Some (set_r s RDelay (r_tx s) (r_rx s) (r_low s)) | _ => None end
  | LRWake => match r_pc s with RDelay => Some (set_r s (r_loop (r_low s)) (r_tx s) (r_rx s) (r_low s)) | _ => None end
  end.

Fixpoint run (s : link) (ls : list label) : option link :=
  match ls with [] => Some s | l :: ls => match step s l with Some s => run s ls | None => None end end.

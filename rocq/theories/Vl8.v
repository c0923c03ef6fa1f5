(** * The control protocol between flight computer and power board (vl8-ctrl-protocol/src) *)
From Verif Require Import Base.
Local Open Scope N_scope.

(** ** Packages: packages/*.rs; strings of 84 bytes and the device id are byte lists *)
Inductive event :=
| EvContinuity (channel : N) (continuity : bool)
| EvHardwareArming (armed : bool)
| EvNmea (sentence : list byte) (length : N).
Inductive package :=
| Ack
| PyroCtrl (channel : N) (enable : bool)
| GetDevice
| DeviceInfo (device : list byte) (model : N)
| PollEvent
| EventPackage (left : N) (e : option event)
| GetContinuity (channel : N)
| ContinuityInfo (continuity : bool)
| GetHardwareArming
| HardwareArmingInfo (armed : bool)
| CameraCtrl (is_recording : bool).
(** [Package::get_id] of each *)
Definition package_id (p : package) : N :=
  match p with
  | Ack => 0 | PyroCtrl _ _ => 1 | GetDevice => 2 | DeviceInfo _ _ => 3 | PollEvent => 4 | EventPackage _ _ => 5
  | GetContinuity _ => 6 | ContinuityInfo _ => 7 | GetHardwareArming => 8 | HardwareArmingInfo _ => 9 | CameraCtrl _ => 10
  end.

(** The memory layout rkyv gives an archived package is a parameter: its size for each package id, and the two directions. *)
Record layout := mkLayout { lay_size : N -> nat; lay_ser : package -> list byte; lay_de : N -> list byte -> package }.

Inductive decoded :=
| Decoded (p : package)
| LengthDoesNotMatch
| UnknownPackageId
| OutOfBounds.   (* [archived_root] on too few bytes reads in front of the buffer *)

(** codec.rs:19-30; the buffer has 128 bytes *)
Definition encode_package (l : layout) (p : package) : list byte :=
  N.of_nat (length (lay_ser l p)) mod 256 :: package_id p :: lay_ser l p.

(** codec.rs:54-122; [archived_root] looks at the last [lay_size] bytes *)
Definition decode_package (l : layout) (b : list byte) : decoded :=
  match b with
  | [] => LengthDoesNotMatch
  | n :: rest =>
    if negb (Nat.eqb (length b) (N.to_nat n + 2)) then LengthDoesNotMatch
    else match rest with
         | [] => LengthDoesNotMatch (* length 1 <> n + 2 *)
         | id :: body =>
           if id <=? 10 then
             if Nat.ltb (length body) (lay_size l id) then OutOfBounds
             else Decoded (lay_de l id (skipn (length body - lay_size l id) body))
           else UnknownPackageId
         end
  end.

(** ** The slave's event queue: slave.rs:30-40 [push_event] and the PollEvent branch of [next], slave.rs:57-76 *)
Definition push_event (q : list event) (e : event) : list event :=
  (if Nat.eqb (length q) 5 then tl q else q) ++ [e].
Definition poll_event (q : list event) : list event * package :=
  match q with
  | e :: q' => (q', EventPackage (N.of_nat (length q')) (Some e))
  | [] => ([], EventPackage 0 None)
  end.

(** ** The master's requests: master.rs:46-85.  An attempt sends the request and waits 30 ms for one response; the first response that
    waits in the serial line is taken, whichever request it answers.  What the line does to the attempt: *)
Inductive fate :=
| ReqLost      (* the request does not arrive (or arrives damaged) *)
| RespLost     (* it is executed, the response does not arrive, or arrives damaged and is discarded by the decoder *)
| InTime       (* the response arrives within 30 ms *)
| Late.        (* the response arrives after the timeout *)
(** the slave's state, the commands it has carried out, and the responses waiting to be read *)
Record link (S : Type) := mkLink { l_slave : S; l_done : list package; l_wire : list package }.
Arguments mkLink {S}. Arguments l_slave {S}. Arguments l_done {S}. Arguments l_wire {S}.

Section Master.
Context {S : Type}.
Variable slave : S -> package -> S * package.   (* carries out a request and answers it *)

Definition executes (k : link S) (c : package) : link S * package :=
  let (s, r) := slave (l_slave k) c in (mkLink s (l_done k ++ [c]) (l_wire k), r).
Definition take (k : link S) : link S * option package :=
  match l_wire k with
  | [] => (k, None)
  | r :: w => (mkLink (l_slave k) (l_done k) w, Some r)
  end.
Definition deliver (k : link S) (r : package) : link S := mkLink (l_slave k) (l_done k) (l_wire k ++ [r]).
(** master.rs:46-65 [request_once]; [None]: timeout or undecodable response *)
Definition request_once (k : link S) (c : package) (x : fate) : link S * option package :=
  match x with
  | ReqLost => take k
  | RespLost => take (fst (executes k c))
  | InTime => let (k1, r) := executes k c in take (deliver k1 r)
  | Late => let (k1, r) := executes k c in let (k2, o) := take k1 in (deliver k2 r, o)
  end.
(** master.rs:67-85 [request]: attempts 0..4; [x i] is the fate of attempt [i] *)
Fixpoint request_from (n : nat) (k : link S) (c : package) (x : nat -> fate) (i : nat) : link S * option package :=
  match request_once k c (x i) with
  | (k', Some r) => (k', Some r)
  | (k', None) => match n with O => (k', None) | Datatypes.S n' => request_from n' k' c x (Datatypes.S i) end
  end.
Definition request (k : link S) (c : package) (x : nat -> fate) : link S * option package := request_from 4 k c x 0.

(** master.rs:115-130, 132-141: [true] = Ok *)
Definition pyro_ctrl (k : link S) (channel : N) (enable : bool) (x : nat -> fate) : link S * bool :=
  match request k (PyroCtrl channel enable) x with (k', Some Ack) => (k', true) | (k', _) => (k', false) end.
Definition camera_ctrl (k : link S) (rec : bool) (x : nat -> fate) : link S * bool :=
  match request k (CameraCtrl rec) x with (k', Some Ack) => (k', true) | (k', _) => (k', false) end.
(** master.rs:87-105 [poll_event]: the event handed on, if any, and the reported number of events left; [None]: error *)
Definition master_poll (k : link S) (x : nat -> fate) : link S * option (option event * N) :=
  match request k PollEvent x with (k', Some (EventPackage n e)) => (k', Some (e, n)) | (k', _) => (k', None) end.
End Master.

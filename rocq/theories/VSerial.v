(** * The virtual devices of the simulators: serial lines, radio, switches and sensors. *)
From Verif Require Import Base.
Local Open Scope nat_scope.

(** ** vl-simulink-bridge/src/virtual_serial.rs: one direction of a line *)
(** the unbounded channel (a queue of chunks) and the receiving half's left-over bytes *)
Record line := Ln { queue : list (list byte); rest : list byte }.
(** virtual_serial.rs:14-28 *)
Definition line_new : line := Ln [] [].
(** virtual_serial.rs:52-57: a chunk is sent; all bytes are reported as written *)
Definition vwrite (l : line) (d : list byte) : line * nat := (Ln (queue l ++ [d]) (rest l), length d).
(** virtual_serial.rs:69-86; [None]: the call waits *)
Definition vread (l : line) (n : nat) : option (line * list byte) :=
  if (0 <? length (rest l))%nat then
    let len := Nat.min (length (rest l)) n in Some (Ln (queue l) (skipn len (rest l)), firstn len (rest l))
  else match queue l with
       | [] => None
       | d :: q => let len := Nat.min (length d) n in Some (Ln q (skipn len d), firstn len d)
       end.
(** virtual_serial.rs:34-47: [split] makes a new receiving half with an empty buffer *)
Definition vsplit (l : line) : line := Ln (queue l) [].

Inductive lop := LWrite (d : list byte) | LRead (n : nat) | LSplit.
(** the line after the operations, the bytes read, in order; [None]: a read waits *)
Fixpoint lrun (l : line) (ops : list lop) : option (line * list (list byte)) :=
  match ops with
  | [] => Some (l, [])
  | LWrite d :: t => lrun (fst (vwrite l d)) t
  | LRead n :: t => match vread l n with
                    | Some (l', d) => match lrun l' t with Some (l2, ds) => Some (l2, d :: ds) | None => None end
                    | None => None
                    end
  | LSplit :: t => lrun (vsplit l) t
  end.
Definition written (ops : list lop) : list byte := concat (map (fun o => match o with LWrite d => d | _ => [] end) ops).

(** launch-simulator/src/virt_drivers/serial.rs:39-49: the whole chunk is copied to the buffer; [Panic] if it does not fit *)
Inductive sres := SOk (q : list (list byte)) (d : list byte) | SWait | SPanic.
Definition sread (q : list (list byte)) (n : nat) : sres :=
  match q with [] => SWait | d :: t => if (length d <=? n)%nat then SOk t d else SPanic end.

(** ** vl-simulink-bridge/src/virtual_sensors.rs *)
(** embassy Signal: at most one value, a new one replaces it *)
(** a switch: the state, and the signal (virtual_sensors.rs:122-154 arming, 156-188 continuity) *)
Record switch := Sw { now_on : bool; sig : option bool }.
Definition switch_new : switch := Sw false None.
(** set_armed, set_continuity (:136-143, :170-177) *)
Definition set_switch (s : switch) (b : bool) : switch := if Bool.eqb (now_on s) b then s else Sw b (Some b).
(** wait_arming_change, wait_continuity_change; [None]: waits *)
Definition wait_change (s : switch) : option (switch * bool) := match sig s with Some b => Some (Sw (now_on s) None, b) | None => None end.
(** read_arming, read_continuity *)
Definition read_switch (s : switch) : bool := now_on s.

Inductive sop := SSet (b : bool) | SWaitChange (b : bool).
(** a run in which every completed wait returned the value named *)
Fixpoint srun (s : switch) (ops : list sop) : option switch :=
  match ops with
  | [] => Some s
  | SSet b :: t => srun (set_switch s b) t
  | SWaitChange b :: t => match wait_change s with Some (s', b') => if Bool.eqb b b' then srun s' t else None | None => None end
  end.

(** a sensor: the reading that was set and not yet taken (:18-120); reading without one panics ([expect]) *)
Definition sensor (R : Type) := option R.
Inductive rop (R : Type) := RSet (r : R) | RRead (r : R).
Arguments RSet {R}. Arguments RRead {R}.
(** a run without a panic in which each read returned the value named *)
Inductive rrun {R : Type} : sensor R -> list (rop R) -> sensor R -> Prop :=
| rr_nil s : rrun s [] s
| rr_set s r l s' : rrun (Some r) l s' -> rrun s (RSet r :: l) s'
| rr_read r l s' : rrun None l s' -> rrun (Some r) (RRead r :: l) s'.

(** ** launch-simulator/src/virt_drivers/vlp_phy.rs: the mock radio is a tokio watch channel: it holds the last packet *)
(** the last packet sent, and whether the receiver has seen it (:30-37, 44-52) *)
Record air := Air { packet : list byte; seen : bool }.
Definition air_new : air := Air [] true.
(** :44-47; packets over 222 bytes do not fit the buffer and panic *)
Definition air_tx (a : air) (d : list byte) : option air := if (length d <=? 222)%nat then Some (Air d false) else None.
(** :49-58; [None]: waits *)
Definition air_rx (a : air) : option (air * list byte) := if seen a then None else Some (Air (packet a) true, packet a).
Inductive aop := ATx (d : list byte) | ARx (d : list byte).
Inductive arun : air -> list aop -> air -> Prop :=
| ar_nil a : arun a [] a
| ar_tx a d a' l a2 : air_tx a d = Some a' -> arun a' l a2 -> arun a (ATx d :: l) a2
| ar_rx a d a' l a2 : air_rx a = Some (a', d) -> arun a' l a2 -> arun a (ARx d :: l) a2.

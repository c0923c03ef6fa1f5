(** * Logs of serialized enums, and the strain-gauge logger.

    Models firmware-common/src/common/serialized_enum.rs (the writer and reader
    create_serialized_enum! generates), vl-host-lib/src/common/parse_serialized_enums.rs,
    firmware-common/src/strain_gauges/mid_prio.rs:269-318 (the task that stores
    readings), firmware-common/src/common/delta_logger/ring_file_writer.rs:96-189
    (get_writer, create_new_segment, as seen by that task) and
    vl-host-lib/src/ozys/parse_sg_data.rs. *)
From Coq Require Import List Bool Arith QArith NArith.
From Verif Require Import HostTime.
Import ListNotations.
Local Open Scope list_scope.
Local Open Scope nat_scope.

Definition byte := N.

(** ** The codec.
    [size_of t] is the size of the archived form of the log type with number [t]
    (None: no such number); [archive] is rkyv's fixed-size serialization, which
    is not modelled further. *)
Record codec (V : Type) := Codec { tag : V -> byte; size_of : byte -> option nat; archive : V -> list byte; unarchive : byte -> list byte -> V }.
Arguments tag {V}. Arguments size_of {V}. Arguments archive {V}. Arguments unarchive {V}.

Section Enum.
Context {V : Type}.
Variable c : codec V.

(** write_to_buffer (34-50) and $writer::write (91-95) *)
Definition write_log (v : V) : list byte := tag c v :: archive c v.

(** A reader hands out its bytes in pieces of its own choosing: [pieces] says how
    many bytes (at least one) each call may return. *)
Record reader := Reader { left : list byte; pieces : list nat }.

(** one call of Read::read into a buffer of [n] bytes *)
Definition read (n : nat) (r : reader) : list byte * reader :=
  let k := match pieces r with [] => n | p :: _ => Nat.min n (S p) end in
  (firstn k (left r), Reader (skipn k (left r)) (tl (pieces r))).

(** embedded_io_async Read::read_exact: reads until the buffer is full; a read of 0
    bytes is UnexpectedEof (None) *)
Fixpoint read_exact (fuel n : nat) (acc : list byte) (r : reader) : option (list byte) * reader :=
  if n =? 0 then (Some acc, r)
  else match fuel with
       | O => (None, r)
       | S fuel =>
         let '(got, r) := read n r in
         if length got =? 0 then (None, r) else read_exact fuel (n - length got) (acc ++ got) r
       end.
Definition exactly (n : nat) (r : reader) : option (list byte) * reader := read_exact n n [] r.

(** read_next (112-145): both the end of the file and an unknown number give None *)
Definition read_next (r : reader) : option V * reader :=
  match exactly 1 r with
  | (Some [t], r) =>
    match size_of c t with
    | Some n => match exactly n r with
                | (Some b, r) => (Some (unarchive c t b), r)
                | (None, r) => (None, r)
                end
    | None => (None, r)
    end
  | (_, r) => (None, r)
  end.

(** parse_serialized_enums: read_next until None *)
Fixpoint parse (fuel : nat) (r : reader) : list V :=
  match fuel with
  | O => []
  | S fuel => match read_next r with (Some v, r) => v :: parse fuel r | (None, _) => [] end
  end.
(** the loop ends: every log takes at least one byte *)
Definition parse_all (r : reader) : list V := parse (S (length (left r))) r.

(** from_buffer (52-76); None for an empty buffer stands for the index panic *)
Definition from_buffer (b : list byte) : option V :=
  match b with
  | [] => None
  | t :: b => match size_of c t with
              | Some n => if length b <? n then None else Some (unarchive c t (firstn n b))
              | None => None
              end
  end.
End Enum.

(** ** The strain-gauge store *)
Section Store.
Context {R : Type}.

Inductive sglog := TimeLog (boot unix : Q) | Reading (r : R).

(** where create_new_segment is: not running, building the directory, or past the
    swap of the writer and awaiting the old file's close *)
Inductive phase := Idle | Building | Swapped.

Record sgstate := SG {
  closed : list (list sglog); current : list sglog;      (* the files of the ring, oldest first *)
  new_segment : bool; dirty : bool; ph : phase;           (* RingFileWriter *)
  unix_log : option ((Q * Q) * bool) }.                   (* unix_timestamp_log_mutex *)

(** RingFileWriter::new (81-91), mid_prio.rs:66-69 *)
Definition sg_start : sgstate := SG [] [] true false Idle None.

Inductive sgevent :=
  | Time (boot unix : Q)    (** UnixTimeMessage received (mid_prio.rs:145-160) *)
  | Log (r : R)             (** a processed reading is stored (287-318) *)
  | Begin                   (** the rotation timer fires: create_new_segment starts (143-147) *)
  | Swap                    (** directory committed, writer replaced (176-182) *)
  | Finish.                 (** old file closed, flags set (183-188) *)

(** None: the event cannot happen now *)
Definition sgstep (s : sgstate) (e : sgevent) : option sgstate :=
  match e with
  | Time b u => Some (SG (closed s) (current s) (new_segment s) (dirty s) (ph s) (Some ((b, u), true)))
  | Log r =>
    (* get_writer: dirty := true, new_segment := false *)
    let '(wr, ul) := match unix_log s with
                     | Some ((b, u), updated) => if new_segment s || updated then ([TimeLog b u], Some ((b, u), false)) else ([], unix_log s)
                     | None => ([], None)
                     end in
    Some (SG (closed s) (current s ++ wr ++ [Reading r]) false true (ph s) ul)
  | Begin => match ph s with
             | Idle => Some (if dirty s then SG (closed s) (current s) (new_segment s) (dirty s) Building (unix_log s) else s)
             | _ => None
             end
  | Swap => match ph s with
            | Building => Some (SG (closed s ++ [current s]) [] (new_segment s) (dirty s) Swapped (unix_log s))
            | _ => None
            end
  | Finish => match ph s with
              | Swapped => Some (SG (closed s) (current s) true false Idle (unix_log s))
              | _ => None
              end
  end.

Fixpoint sgrun (s : sgstate) (es : list sgevent) : option sgstate :=
  match es with [] => Some s | e :: es => match sgstep s e with Some s => sgrun s es | None => None end end.

(** parse_sg_data: the times of one file, then its readings with the date looked up *)
Definition times (f : list sglog) : list point := flat_map (fun l => match l with TimeLog b u => [(b, u)] | Reading _ => [] end) f.
Definition readings (f : list sglog) : list R := flat_map (fun l => match l with Reading r => [r] | TimeLog _ _ => [] end) f.
Definition dated (start_time : R -> Q) (f : list sglog) (out : list (R * option Q)) : Prop :=
  Forall2 (fun r o => fst o = r /\ get_unix_timestamp (sort_timestamps (times f)) (start_time r) (snd o)) (readings f) out.
End Store.
Arguments sglog R : clear implicits.
Arguments sgevent R : clear implicits.
Arguments sgstate R : clear implicits.

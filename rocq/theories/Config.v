(** * Configuration files (firmware-common/src/common/config_file.rs) and removal of one file (vlfs/src/fs/mod.rs:94-105) *)
From Verif Require Import Base Flash FS Sectors ATable FileIO FsSpec FsApi.
Local Open Scope N_scope.

(** iter.rs:78-84 [find_first_file], with FilesIterator::next iter.rs:118-146: the first entry accepted by the filter *)
Fixpoint first_from (fuel : nat) (f : flash) (a : at_t) (flt : entry -> bool) (i : N) : res (option entry) :=
  match fuel with
  | O => Panic
  | S k =>
    if a_count a <=? i then Ok None else
    match read_entry_at f (address_of_file_entry a i) with
    | None => Err CorruptedFileEntry
    | Some e => if flt e then Ok (Some e) else first_from k f a flt (i + 1)
    end
  end.
Definition find_first_file (s : fs) (flt : entry -> bool) : res (option entry) :=
  first_from (S (N.to_nat (a_count (atb s)))) (fl s) (atb s) flt 0.

Section Config.
Variable crc : list byte -> N.

(** embedded_io_async [Read::read_exact] over [FileReader::read] (reader.rs:302-313), which drops the status of read_slice: it asks
    again until the buffer is full or a read delivers nothing.  A read that delivers something consumes at least one byte, so the
    number of turns is at most the length. *)
Fixpoint read_exact_loop (fuel : nat) (f : flash) (r : reader) (len : nat) (acc : list byte) : option (list byte) :=
  match len with
  | O => Some acc
  | _ =>
    match fuel with
    | O => None
    | S k =>
      match read_slice crc f r len with
      | Ok (_, [], _) => None
      | Ok (r, d, _) => read_exact_loop k f r (len - length d) (acc ++ d)
      | _ => None
      end
    end
  end.
Definition read_exact (f : flash) (r : reader) (len : nat) : option (list byte) := read_exact_loop len f r len [].

(** config_file.rs:41-74 [read]: the bytes the configuration is decoded from ([n] = the size of the archived type); the decoding
    (rkyv) is not modelled.  The reader is closed again. *)
Definition config_read (t : N) (n : nat) (s : fs) : fs * option (list byte) :=
  match find_first_file s (fun e => e_typ e =? t) with
  | Ok (Some e) =>
    match open_file_for_read (e_id e) s with
    | (s', Ok r) => (fst (mark_file_closed (e_id e) s'), read_exact (fl s') r n)
    | (s', _) => (s', None)
    end
  | _ => (s, None)
  end.

(** the filter given by a file type, iter.rs:33-37 *)
Definition of_type (t : N) : call := Remove (fun _ ty => ty =? t).

(** config_file.rs:76-92 [write] of the serialised configuration [d]: the calls it makes, with the states it makes them in, and its
    outcome.  When extend_from_slice fails, the writer is dropped without being closed, which panics (writer.rs:385-398). *)
Definition config_run (t : N) (d : list byte) (y : sys) : list (sys * call) * (sys * reply) :=
  let k := length (sws y) in
  match perform crc (of_type t) y with
  | (y1, RCounts _ _) =>
    match perform crc (Create t) y1 with
    | (y2, RId id) =>
      match perform crc (OpenWrite id) y2 with
      | (y3, RDone) =>
        match perform crc (Append k d) y3 with
        | (y4, RDone) => ([(y, of_type t); (y1, Create t); (y2, OpenWrite id); (y3, Append k d); (y4, CloseWriter k)], perform crc (CloseWriter k) y4)
        | (y4, _) => ([(y, of_type t); (y1, Create t); (y2, OpenWrite id); (y3, Append k d)], (y4, RPanic))
        end
      | o => ([(y, of_type t); (y1, Create t); (y2, OpenWrite id)], o)
      end
    | o => ([(y, of_type t); (y1, Create t)], o)
    end
  | o => ([(y, of_type t)], o)
  end.
Definition config_write (t : N) (d : list byte) (y : sys) : sys * reply := snd (config_run t d y).
(** the flash after a power loss during [write]: during one of its calls (before its first or after its last operation included) *)
Definition config_lost (t : N) (d : list byte) (y : sys) (f : flash) : Prop :=
  exists yi c, In (yi, c) (fst (config_run t d y)) /\ power_lost crc c yi f.
End Config.

(** * Listing and pulling all files of a type: vl-host-lib/src/common/list_files.rs and pull_file.rs:63-83 over the handlers 5 and 6 of
    firmware-common/src/common/console/vl_rpc.rs:121-144.  The transport is C51/C52/C72; here a call runs its handler.
    While the host pulls, no other task of the device changes the file system. *)
From Verif Require Import Base Flash FS ATable DirOps FileIO Iter Console.
Local Open Scope N_scope.

(** vl_rpc.rs:121-124 with [Option<FileType>] as the filter of the iterator (iter.rs: [impl FilesFilter for Option<FileType>]) *)
Definition of_type (t : option N) (_ typ : N) : bool := match t with Some t => typ =? t | None => true end.

(** vl_rpc.rs:125-143 GetListedFile: the answer and the iterator's next state; an error is answered like the end of the list, and the
    iterator keeps its state.  [None] is a panic. *)
Definition get_listed_file (t : option N) (s : fs) (last : option (N * N)) : option (option N * option (N * N)) :=
  match concurrent_next (of_type t) s last with
  | Ok (Some e, last') => Some (Some (e_id e), last')
  | Ok (None, last') => Some (None, last')
  | Err _ => Some (None, last)
  | Panic => None
  end.

(** list_files.rs:5-22; [fuel] bounds the number of calls *)
Fixpoint list_loop (fuel : nat) (t : option N) (s : fs) (last : option (N * N)) : option (list N) :=
  match fuel with
  | O => None
  | S k =>
    match get_listed_file t s last with
    | Some (Some id, last') => match list_loop k t s last' with Some l => Some (id :: l) | None => None end
    | Some (None, _) => Some []
    | None => None
    end
  end.
Definition list_files (fuel : nat) (t : option N) (s : fs) : option (list N) := list_loop fuel t s None.

Section Pull.
Variable crc : list byte -> N.

(** pull_file.rs:17-61 once more, keeping the three outcomes apart: [Panicked], [Refused] ("Failed to open file"), [Saved] *)
Inductive pulled := Panicked | Refused (c : con) | Saved (c : con) (d : list byte).
Definition pull_one (fuel : nat) (id : N) (c : con) : pulled :=
  match con_open id c with
  | Some (c, Sucess) =>
    match pull_loop crc fuel c [] with
    | Some (c, d) => match con_close c with Some c => Saved c d | None => Panicked end
    | None => Panicked
    end
  | Some (c, _) => Refused c
  | None => Panicked
  end.

(** pull_file.rs:72-81: the files saved so far (the host's name of a file is its id), and whether the loop ended without error *)
Fixpoint pull_each (fuel : nat) (ids : list N) (c : con) : option (con * list (N * list byte) * bool) :=
  match ids with
  | [] => Some (c, [], true)
  | id :: ids =>
    match pull_one fuel id c with
    | Saved c d => match pull_each fuel ids c with Some (c, l, b) => Some (c, (id, d) :: l, b) | None => None end
    | Refused c => Some (c, [], false)
    | Panicked => None
    end
  end.

(** pull_file.rs:63-83 *)
Definition pull_files (fuel : nat) (t : N) (c : con) : option (con * list (N * list byte) * bool) :=
  match list_files fuel (Some t) (cfs c) with
  | Some ids => pull_each fuel ids c
  | None => None
  end.
End Pull.

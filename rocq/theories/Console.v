(** * Model of the serial console: firmware-common/src/common/console/create_rpc.rs (the macro),
    the file handlers of vl_rpc.rs, and the host's vl-host-lib/src/common/pull_file.rs.
    The layout rkyv gives to requests and responses is not modelled: a request is its argument bytes. *)
From Verif Require Import Base Flash FS Sectors ATable FileIO.
From Verif Require VLP.
Local Open Scope N_scope.

Definition crc8 : list byte -> byte := VLP.crc8.

(** ** The server loop (create_rpc.rs:87-184), one input item at a time *)
Section Server.
Context {H : Type}.                         (* everything the handlers can touch *)
Variable size : N -> option nat.            (* request size of each rpc id (the match arms) *)
Variable handler : N -> list byte -> H -> H * list byte.   (* $handler: argument bytes to response bytes *)

Inductive input := Byte (b : byte) | Eof.   (* [Eof]: read_exact reports UnexpectedEof *)
Inductive sstate := AtCommand | InRequest (id : N) (got : list byte).

(** [calls] and [sent] are the visible effects: handler runs, and the response frames written. *)
Record server := Server { st : sstate; hs : H; calls : list (N * list byte); sent : list (list byte) }.

Definition serve1 (s : server) (i : input) : server :=
  match i, st s with
  | Eof, _ => Server AtCommand (hs s) (calls s) (sent s)                     (* lines 120-123, 135-137: continue *)
  | Byte b, AtCommand =>
      match size b with
      | Some _ => Server (InRequest b []) (hs s) (calls s) (sent s)          (* lines 131-133 *)
      | None => if b =? 255
                then Server AtCommand (hs s) (calls s) (sent s ++ [[255; 105]])    (* lines 171-173 *)
                else s                                                             (* lines 174-176 *)
      end
  | Byte b, InRequest id got =>
      let got := got ++ [b] in
      match size id with
      | None => s
      | Some k =>
        if Nat.leb (length got) k then Server (InRequest id got) (hs s) (calls s) (sent s)
        else if crc8 (id :: firstn k got) =? b                                     (* lines 143-148 *)
             then let (h, r) := handler id (firstn k got) (hs s) in                (* lines 151-168 *)
                  Server AtCommand h (calls s ++ [(id, firstn k got)]) (sent s ++ [r ++ [crc8 r]])
             else Server AtCommand (hs s) (calls s) (sent s)
      end
  end.
Definition serve (s : server) (l : list input) : server := fold_left serve1 l s.
Definition server_new (h : H) : server := Server AtCommand h [] [].

(** ** The client (create_rpc.rs:192-308) *)
(** what a call writes: id, argument bytes, checksum (lines 252-269) *)
Definition request (id : N) (args : list byte) : list byte := id :: args ++ [crc8 (id :: args)].
(** reading the response: [n] bytes and a checksum (lines 271-300); the unread bytes stay in the link *)
Definition take_response (n : nat) (link : list byte) : option (list byte) * list byte :=
  if Nat.leb (S n) (length link)
  then (if crc8 (firstn n link) =? nth n link 0 then Some (firstn n link) else None, skipn (S n) link)
  else (None, link).   (* timeout *)

(** [reset] (lines 211-233): flush bytes, then everything the server has sent is thrown away
    (clear_read_buffer, assuming the server has caught up within its 100 ms), then one reset command. *)
Definition flush_bytes (max : nat) : list input := repeat (Byte 255) (max + 1).
End Server.
Arguments server : clear implicits.

(** ** File handlers (vl_rpc.rs:66-120) and the host loop (pull_file.rs:17-61) *)
Section Files.
Variable crc : list byte -> N.

Inductive open_status := Sucess | DoesNotExist | OpenError.
(** file system and [reader: Option<FileReader>] with the id of its file *)
Record con := Con { cfs : fs; crd : option (N * reader) }.

(** vl_rpc.rs:66-82; [None] is a panic *)
Definition con_open (id : N) (c : con) : option (con * open_status) :=
  match open_file_for_read id (cfs c) with
  | (s, Ok r) =>
      match crd c with
      | Some (old, _) => match mark_file_closed old s with
                         | (s, Ok _) => Some (Con s (Some (id, r)), Sucess)
                         | _ => None
                         end
      | None => Some (Con s (Some (id, r)), Sucess)
      end
  | (s, Err FileDoesNotExist) => Some (Con s (crd c), DoesNotExist)
  | (s, Err _) => Some (Con s (crd c), OpenError)
  | (_, Panic) => None
  end.

(** vl_rpc.rs:85: [let mut buffer = [0u8; 128]] *)
Definition CHUNK : nat := 128.
(** vl_rpc.rs:83-115: the bytes [data[..length]] and the corrupted flag; [None] is a panic *)
Definition con_read (c : con) : option (con * (list byte * bool)) :=
  match crd c with
  | None => Some (c, ([], false))
  | Some (id, r) =>
      match read_slice crc (fl (cfs c)) r CHUNK with
      | Ok (r, d, s) => Some (Con (cfs c) (Some (id, r)), (d, match s with StCorrupt _ => true | _ => false end))
      | Err _ => Some (c, ([], true))
      | Panic => None
      end
  end.

(** vl_rpc.rs:116-120 *)
Definition con_close (c : con) : option con :=
  match crd c with
  | None => Some c
  | Some (id, _) => match mark_file_closed id (cfs c) with (s, Ok _) => Some (Con s None) | _ => None end
  end.

(** pull_file.rs:35-48; [fuel] bounds the number of chunks *)
Fixpoint pull_loop (fuel : nat) (c : con) (acc : list byte) : option (con * list byte) :=
  match fuel with
  | O => None
  | S k => match con_read c with
           | None => None
           | Some (c, ([], _)) => Some (c, acc)
           | Some (c, (d, _)) => pull_loop k c (acc ++ d)
           end
  end.
(** pull_file.rs:17-61: the bytes written to the host file, or [None] ("Failed to open file", panics) *)
Definition pull_file (fuel : nat) (id : N) (c : con) : option (con * list byte) :=
  match con_open id c with
  | Some (c, Sucess) => match pull_loop fuel c [] with
                        | Some (c, d) => match con_close c with Some c => Some (c, d) | None => None end
                        | None => None
                        end
  | _ => None
  end.
End Files.

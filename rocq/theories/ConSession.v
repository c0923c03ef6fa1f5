(** * The device and its two consoles: sessions of firmware-common/src/common/console/create_rpc.rs:87-184 ([run_rpc_server]) as
    firmware-common/src/vl_main.rs:134-157 starts them, with the file handlers of vl_rpc.rs:66-120.
    Not modelled here: the other requests (listing files, configuration, radio), which leave the console's reader alone; what they do to the file
    system are calls like those of any other task, i.e. [Task] events.  The strain-gauge firmware (firmware-common/src/strain_gauges/mid_prio.rs)
    runs the same handlers. *)
From Verif Require Import Base Flash FS Sectors ATable FileIO FsSpec FsApi Console.
Local Open Scope N_scope.

(** the file requests (vl_rpc.rs:66, 83, 116) and their responses *)
Inductive req := ROpen (id : N) | RRead | RClose.
Inductive ans := AOpen (st : open_status) | AData (d : list byte) (bad : bool) | AClosed.

Section Device.
Variable crc : list byte -> N.

(** the handler of a request: new file system, new [reader] variable, response; [None] is a panic *)
Definition serve_req (q : req) (s : fs) (r : option (N * reader)) : option (fs * option (N * reader) * ans) :=
  match q with
  | ROpen id => match con_open id (Con s r) with Some (c, st) => Some (cfs c, crd c, AOpen st) | None => None end
  | RRead => match con_read crc (Con s r) with Some (c, (d, bad)) => Some (cfs c, crd c, AData d bad) | None => None end
  | RClose => match con_close (Con s r) with Some c => Some (cfs c, crd c, AClosed) | None => None end
  end.

(** the device: its file system with the handles held by all tasks, and for each console [None] when no server is running on it, or the [reader] of the
    running server.  The [reader] of a console is counted in [srs] too. *)
Record dev := Dev { dsys : sys; dcon : list (option (option (N * reader))) }.
Definition SERIAL : nat := 0.
Definition USB : nat := 1.
(** vl_main.rs:136-143: the server of the serial line starts at once; 144-157: the one of the USB port when it is connected *)
Definition dev_start (y : sys) : dev := Dev y [Some None; None].

(** bookkeeping of the readers held: one reader of [id] less *)
Definition forget (id : N) (l : list N) : list N := match find_index id l with Some j => without l j | None => l end.
Definition readers_after (q : req) (a : ans) (r : option (N * reader)) (l : list N) : list N :=
  match q, a with
  | ROpen id, AOpen Sucess => match r with Some (old, _) => forget old (l ++ [id]) | None => l ++ [id] end
  | RClose, _ => match r with Some (old, _) => forget old l | None => l end
  | _, _ => l
  end.

Inductive devent :=
| Task (c : call) (r : reply)      (* a call of another task *)
| Req (k : nat) (q : req) (a : ans)   (* a request on console [k] and its response *)
| Plug                             (* vl_main.rs:146 [wait_connection] returns *)
| Unplug (k : nat).                (* read or write on the line of console [k] fails with an error other than end of file: create_rpc.rs:124-126, 138-140, 167, 172 *)

Inductive dstep : dev -> devent -> dev -> Prop :=
| ds_task d c a y' : perform crc c (dsys d) = (y', a) -> a <> RPanic -> dstep d (Task c a) (Dev y' (dcon d))
| ds_req d k r q s' r' a : nth_error (dcon d) k = Some (Some r) -> serve_req q (sfs (dsys d)) r = Some (s', r', a) ->
    dstep d (Req k q a) (Dev (mkSys s' (sws (dsys d)) (readers_after q a r (srs (dsys d)))) (upd (dcon d) k (Some r')))
| ds_plug d : nth_error (dcon d) USB = Some None -> dstep d Plug (Dev (dsys d) (upd (dcon d) USB (Some None)))
| ds_unplug d k : nth_error (dcon d) k = Some (Some None) -> dstep d (Unplug k) (Dev (dsys d) (upd (dcon d) k None)).

(** the device panics: a handler does, or [run_rpc_server] returns (create_rpc.rs:180-183) with a reader that was not closed, whose [Drop] panics
    (vlfs/src/fs/reader.rs:315-327) *)
Definition panics (d : dev) (e : devent) : Prop :=
  match e with
  | Req k q _ => exists r, nth_error (dcon d) k = Some (Some r) /\ serve_req q (sfs (dsys d)) r = None
  | Unplug k => exists x, nth_error (dcon d) k = Some (Some (Some x))
  | _ => False
  end.
End Device.

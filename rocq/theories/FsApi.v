(** * The file system as a client drives it: calls with handles, power losses, restarts *)
From Verif Require Import Base Flash FS Sectors ATable FileIO FsSpec.
Local Open Scope N_scope.

(** the [VLFS] object (vlfs/src/fs/mod.rs:73-88), the [FileWriter]s (writer.rs:129-159) and (the file ids of) the [FileReader]s
    (reader.rs:52-88) its client holds *)
Record sys := mkSys { sfs : fs; sws : list writer; srs : list N }.

Section Api.
Variable crc : list byte -> N.

(** a call of the client returned [a], an error, or panicked: what its client holds then (a failed call hands out nothing) *)
Definition finish {A} (r : fs * res A) (good : fs -> A -> sys * reply) (y : sys) : sys * reply :=
  match r with
  | (s, Ok a) => good s a
  | (s, Err e) => (mkSys s (sws y) (srs y), RErr e)
  | (s, Panic) => (mkSys s (sws y) (srs y), RPanic)
  end.

(** One call of the client; [Append], [Flush] and [CloseWriter] act on the k-th writer it holds.  Create: allocation_table.rs:299-312;
    CreateOpen: 314-328; Remove: mod.rs:94-132 (remove_file, remove_files); OpenWrite: writer.rs:14-131; OpenRead: reader.rs:13-58;
    Append: writer.rs:301-374; Flush: 212-229; CloseWriter: 279-297; CloseReader: reader.rs:229-235. *)
Definition perform (c : call) (y : sys) : sys * reply :=
  match c with
  | Create t => finish (create_file t (sfs y)) (fun s e => (mkSys s (sws y) (srs y), RId (e_id e))) y
  | CreateOpen t => finish (create_file_and_open_for_write t (sfs y))
      (fun s ex => (mkSys s (sws y ++ [new_writer (snd ex) (e_id (fst ex))]) (srs y), RId (e_id (fst ex)))) y
  | Remove sel => finish (remove_files (fun e => sel (e_id e) (e_typ e)) (sfs y))
      (fun s n => (mkSys s (sws y) (srs y), RCounts (fst n) (snd n))) y
  | OpenWrite id => finish (open_file_for_write id (sfs y)) (fun s w => (mkSys s (sws y ++ [w]) (srs y), RDone)) y
  | OpenRead id => finish (open_file_for_read id (sfs y)) (fun s _ => (mkSys s (sws y) (srs y ++ [id]), RDone)) y
  | Append k d =>
      match nth_error (sws y) k with
      | None => (y, RPanic)
      | Some w => finish (extend_from_slice crc w d (sfs y))
                    (fun s wr => (mkSys s (upd (sws y) k (fst wr)) (srs y), match snd wr with None => RDone | Some e => RErr e end)) y
      end
  | Flush k =>
      match nth_error (sws y) k with
      | None => (y, RPanic)
      | Some w => finish (flush crc w (sfs y))
                    (fun s wr => (mkSys s (upd (sws y) k (fst wr)) (srs y), match snd wr with None => RDone | Some e => RErr e end)) y
      end
  | CloseWriter k =>
      match nth_error (sws y) k with
      | None => (y, RPanic)
      | Some w => finish (close_writer crc w (sfs y)) (fun s _ => (mkSys s (without (sws y) k) (srs y), RDone)) y
      end
  | CloseReader k =>
      match nth_error (srs y) k with
      | None => (y, RPanic)
      | Some id => finish (mark_file_closed id (sfs y)) (fun s _ => (mkSys s (sws y) (without (srs y) k), RDone)) y
      end
  end.

(** Calls during which an erase, too, may be interrupted half way (any subset of its 256-byte pages erased).  Everything except:
    - opening a file for appending (vlfs/src/fs/writer.rs:32-131), which erases the last sector of the file and writes it again;
    - a directory change when the table slot it is going to overwrite (allocation_table.rs:18-21) still holds the beginning of a table that an earlier
      power loss interrupted, recognisable by a sequence number that is not smaller than the current one.
    For these, erases are taken to be atomic. *)
Definition torn_erase_ok (c : call) (y : sys) : Prop :=
  match c with
  | Create _ | CreateOpen _ | Remove _ =>
      forall q, header_deserialize (rd (fl (sfs y)) ((a_pos (atb (sfs y)) + 1) mod TABLE_COUNT * 32768) 13) = Some q -> q < a_seq (atb (sfs y))
  | OpenWrite _ => False
  | _ => True
  end.

(** the flash after a power loss during the call: some of its operations have been carried out, the next one possibly in part
    ([crash_ae]: a page program may be cut short, erases are atomic; [crash]: erases may be cut short too) *)
Definition power_lost (c : call) (y : sys) (f : flash) : Prop :=
  exists ops, lg (sfs (fst (perform c y))) = lg (sfs y) ++ ops /\
    (crash_ae (fl (sfs y)) ops f \/ torn_erase_ok c y /\ crash (fl (sfs y)) ops f).

(** the flash operations of a call, as the log records them *)
Definition flash_ops (c : call) (y : sys) : list fop := skipn (length (lg (sfs y))) (lg (sfs (fst (perform c y)))).

(** ** Histories *)
(** the chip without power, or with the firmware running *)
Inductive machine :=
| Off (f : flash)
| On (y : sys).

(** init.rs:25-61 at a start; a call; a power loss during one or between two *)
Inductive step : machine -> aevent -> machine -> Prop :=
| step_boot f r s : boot f r = (s, Ok tt) -> step (Off f) ABoot (On (mkSys s [] []))
| step_boot_loss f r f' : crash f (lg (fst (boot f r))) f' -> step (Off f) ABootLoss (Off f')
| step_call y c y' r : perform c y = (y', r) -> r <> RPanic -> step (On y) (ACall c r) (On y')
| step_loss y c f : power_lost c y f -> step (On y) (ALoss c) (Off f)
| step_off y : step (On y) APowerOff (Off (fl (sfs y))).

(** the client's discipline, in terms of what it can see: see [allowed] *)
Definition legal (y : sys) (c : call) : Prop :=
  match c with
  | Create t | CreateOpen t => t < 65535 /\ forall es, files_iter (sfs y) (fun _ => true) = Ok es -> (length es < 2518)%nat
  | Remove sel => forall es e, files_iter (sfs y) (fun _ => true) = Ok es -> In e es -> In (e_id e) (map w_id (sws y)) ->
                    sel (e_id e) (e_typ e) = true -> is_opened (atb (sfs y)) (e_id e) = true
  | OpenWrite id => In id (map w_id (sws y)) -> is_opened (atb (sfs y)) id = true
  | OpenRead _ => True
  | Append k d => bytes_ok d /\ (k < length (sws y))%nat
  | Flush k | CloseWriter k => (k < length (sws y))%nat
  | CloseReader k => (k < length (srs y))%nat
  end.
Definition legal_event (m : machine) (e : aevent) : Prop :=
  match m, e with
  | On y, ACall c _ | On y, ALoss c => legal y c
  | _, _ => True
  end.

(** A chip that this file system has not been used on: whatever it holds, none of the four table slots begins with a header that
    vlfs/src/fs/allocation_table.rs:335-382 accepts.  An erased chip is one; so are the zeros that [MemoryFlash::new]
    (vlfs/src/flash/memory_flash.rs:15-21) starts with: see [blank_unused], [zeros_unused] in FsBoot.v. *)
Definition unused (f : flash) : Prop := (forall a, byte_ok (f a)) /\ forall q, q < 4 -> header_deserialize (rd f (q * 32768) 13) = None.
Definition blank : flash := fun _ => 255.

(** everything that can happen to a chip that starts out unused *)
Inductive history : list aevent -> machine -> Prop :=
| hi_new f : unused f -> history [] (Off f)
| hi_step es m e m' : history es m -> legal_event m e -> step m e m' -> history (es ++ [e]) m'.

(** ** Looking at a flash from the outside: start the file system, list the files, read each one to its end *)
Definition read_all (s : fs) (id : N) : option (list byte) :=
  match get_file_size id s with
  | (_, Ok (size, _)) =>
    match open_file_for_read id s with
    | (s', Ok r) =>
      match read_slice crc (fl s') r (S (N.to_nat size)) with
      | Ok (_, d, StEnd) => Some d
      | _ => None
      end
    | _ => None
    end
  | _ => None
  end.

Fixpoint read_each (s : fs) (es : list entry) : option (list file) :=
  match es with
  | [] => Some []
  | e :: t => match read_all s (e_id e), read_each s t with
              | Some d, Some l => Some ((e_id e, e_typ e, d) :: l)
              | _, _ => None
              end
  end.

Definition snapshot (f : flash) (r : nat -> N) : option (list file) :=
  match boot f r with
  | (s, Ok _) => match files_iter s (fun _ => true) with
                 | Ok es => read_each s es
                 | _ => None
                 end
  | _ => None
  end.
End Api.

(** * What the file system promises to its user: an abstract file store.
    This file refers to no definition of the implementation model except the error codes.  A file is a triple (id, type,
    durable content).  An open writer has accepted some bytes that are not durable yet (at most 4016). *)
From Verif Require Import Base FS.
Local Open Scope N_scope.

Definition file : Type := N * N * list byte.
Definition f_id (x : file) : N := fst (fst x).
Definition f_typ (x : file) : N := snd (fst x).
Definition f_data (x : file) : list byte := snd x.
Definition begins (a b : list byte) : Prop := exists t, b = a ++ t.

Record view := mkV {
  v_files : list file;            (* the directory, in the order it is listed *)
  v_wr : list (N * list byte);    (* open writers: file id and bytes accepted but not yet durable *)
  v_rd : list N;                  (* open readers: file ids *)
  v_open : list N;                (* ids of files marked as in use *)
  v_top : N;                      (* largest id handed out, as far as the store remembers *)
  v_gen : N }.                    (* number of directory changes so far *)

Inductive call :=
| Create (typ : N)
| CreateOpen (typ : N)                      (* create_file_and_open_for_write *)
| Remove (sel : N -> N -> bool)             (* remove_files: selected by id and type *)
| OpenWrite (id : N)
| OpenRead (id : N)
| Append (k : nat) (d : list byte)          (* the k-th open writer *)
| Flush (k : nat)
| CloseWriter (k : nat)
| CloseReader (k : nat).

Inductive reply :=
| RDone
| RId (id : N)
| RCounts (removed in_use : N)
| RErr (e : err)
| RPanic.

Definition next_id (v : view) : N := 1 + fold_right N.max (v_top v) (map f_id (v_files v)).
Definition lookup (v : view) (id : N) : option file := find (fun x => f_id x =? id) (v_files v).
Definition set_data (id : N) (d : list byte) (F : list file) : list file :=
  map (fun x => if f_id x =? id then (f_id x, f_typ x, d) else x) F.
Definition marked (v : view) (id : N) : bool := existsb (N.eqb id) (v_open v).
Definition without {A} (l : list A) (k : nat) : list A := firstn k l ++ skipn (S k) l.
Definition count {A} (P : A -> bool) (l : list A) : N := N.of_nat (length (filter P l)).
Definition limit64 : N := 2 ^ 64.

(** the files a removal takes away: selected and not in use *)
Definition goes (v : view) (sel : N -> N -> bool) (x : file) : bool := sel (f_id x) (f_typ x) && negb (marked v (f_id x)).
Definition stays (v : view) (sel : N -> N -> bool) (x : file) : bool := negb (goes v sel x).

(** ** One call that returns *)
Definition does (v : view) (c : call) (r : reply) (v' : view) : Prop :=
  match c with
  | Create t =>
      (r = RId (next_id v) /\
       v' = mkV (v_files v ++ [(next_id v, t, [])]) (v_wr v) (v_rd v) (v_open v) (next_id v) (v_gen v + 1)) \/
      (r = RPanic /\ (limit64 <= v_gen v + 1 \/ limit64 <= next_id v))
  | CreateOpen t =>
      (r = RId (next_id v) /\
       v' = mkV (v_files v ++ [(next_id v, t, [])]) (v_wr v ++ [(next_id v, [])]) (v_rd v) (v_open v) (next_id v) (v_gen v + 1)) \/
      r = RPanic
  | Remove sel =>
      (r = RCounts (count (goes v sel) (v_files v)) (count (fun x => sel (f_id x) (f_typ x) && marked v (f_id x)) (v_files v)) /\
       v' = mkV (filter (stays v sel) (v_files v)) (v_wr v) (v_rd v) (v_open v)
                (fold_right N.max (v_top v) (map f_id (filter (stays v sel) (v_files v)))) (v_gen v + 1)) \/
      (r = RPanic /\ limit64 <= v_gen v + 1)
  | OpenWrite id =>
      match lookup v id with
      | None => r = RErr FileDoesNotExist /\ v' = v
      | Some _ =>
        if marked v id then r = RErr FileInUse /\ v' = v
        else if (32 <=? length (v_open v))%nat then r = RErr TooManyFilesOpen /\ v' = v
        else
          (* the file stays marked although the call failed *)
          (r = RErr DeviceFull /\ v' = mkV (v_files v) (v_wr v) (v_rd v) (v_open v ++ [id]) (v_top v) (v_gen v)) \/
          (r = RPanic /\ limit64 <= v_gen v + 1) \/
          (r = RDone /\ exists top gen, v' = mkV (v_files v) (v_wr v ++ [(id, [])]) (v_rd v) (v_open v ++ [id]) top gen /\
             ((top = v_top v /\ gen = v_gen v) \/ (top = fold_right N.max (v_top v) (map f_id (v_files v)) /\ gen = v_gen v + 1)))
      end
  | OpenRead id =>
      match lookup v id with
      | None => r = RErr FileDoesNotExist /\ v' = v
      | Some _ =>
        if marked v id then r = RErr FileInUse /\ v' = v
        else if (32 <=? length (v_open v))%nat then r = RErr TooManyFilesOpen /\ v' = v
        else r = RDone /\ v' = mkV (v_files v) (v_wr v) (v_rd v ++ [id]) (v_open v ++ [id]) (v_top v) (v_gen v)
      end
  | Append k d =>
      match nth_error (v_wr v) k with
      | None => False
      | Some (id, pend) =>
        exists x data pend' n, lookup v id = Some x /\
          begins (f_data x) data /\ data ++ pend' = f_data x ++ pend ++ firstn n d /\ (length pend' <= 4016)%nat /\
          v' = mkV (set_data id data (v_files v)) (upd (v_wr v) k (id, pend')) (v_rd v) (v_open v) (v_top v) (v_gen v) /\
          ((r = RDone /\ n = length d) \/ r = RErr DeviceFull)
      end
  | Flush k =>
      match nth_error (v_wr v) k with
      | None => False
      | Some (id, pend) =>
        exists x, lookup v id = Some x /\
          ((r = RDone /\ v' = mkV (set_data id (f_data x ++ pend) (v_files v)) (upd (v_wr v) k (id, [])) (v_rd v) (v_open v) (v_top v) (v_gen v)) \/
           (r = RErr DeviceFull /\ v' = v))
      end
  | CloseWriter k =>
      match nth_error (v_wr v) k with
      | None => False
      | Some (id, pend) =>
        exists x, lookup v id = Some x /\ r = RDone /\
          v' = mkV (set_data id (f_data x ++ pend) (v_files v)) (without (v_wr v) k) (v_rd v) (remove N.eq_dec id (v_open v)) (v_top v) (v_gen v)
      end
  | CloseReader k =>
      match nth_error (v_rd v) k with
      | None => False
      | Some id => r = RDone /\ v' = mkV (v_files v) (v_wr v) (without (v_rd v) k) (remove N.eq_dec id (v_open v)) (v_top v) (v_gen v)
      end
  end.

(** ** One call interrupted by a power loss: the files found after the next start *)
Definition loses (v : view) (c : call) (F : list file) : Prop :=
  match c with
  | Create t | CreateOpen t => F = v_files v \/ F = v_files v ++ [(next_id v, t, [])]
  | Remove sel => F = v_files v \/ F = filter (stays v sel) (v_files v)
  | OpenWrite id =>
      match lookup v id with
      | None => F = v_files v
      | Some x => exists kept cut, f_data x = kept ++ cut /\ (length cut <= 4016)%nat /\ F = set_data id kept (v_files v)
      end
  | OpenRead _ | CloseReader _ => F = v_files v
  | Append k d =>
      match nth_error (v_wr v) k with
      | None => False
      | Some (id, pend) => exists x data, lookup v id = Some x /\ begins (f_data x) data /\ begins data (f_data x ++ pend ++ d) /\
                             F = set_data id data (v_files v)
      end
  | Flush k | CloseWriter k =>
      match nth_error (v_wr v) k with
      | None => False
      | Some (id, pend) => exists x data, lookup v id = Some x /\ begins (f_data x) data /\ begins data (f_data x ++ pend) /\
                             F = set_data id data (v_files v)
      end
  end.

(** calls that may rewrite the directory *)
Definition rewrites (c : call) : bool :=
  match c with Create _ | CreateOpen _ | Remove _ | OpenWrite _ => true | _ => false end.

(** ** Calls the promises cover *)
(** types below 65535 (65535 marks the end of the directory); at most 2518 files; no file is removed under an open writer or
    opened twice for writing (both can only happen for writers obtained from [CreateOpen], whose files are not marked as in
    use); data is made of bytes; handles exist *)
Definition allowed (v : view) (c : call) : Prop :=
  match c with
  | Create t | CreateOpen t => t < 65535 /\ (length (v_files v) < 2518)%nat
  | Remove sel => forall id pend x, In (id, pend) (v_wr v) -> lookup v id = Some x -> goes v sel x = false
  | OpenWrite id => marked v id = false -> ~ In id (map fst (v_wr v))
  | OpenRead _ => True
  | Append k d => bytes_ok d /\ (k < length (v_wr v))%nat
  | Flush k | CloseWriter k => (k < length (v_wr v))%nat
  | CloseReader k => (k < length (v_rd v))%nat
  end.

(** ** Histories of the abstract store *)
(** [AOff]: no power; [top = None] when the remembered largest id may have been damaged *)
Inductive astate :=
| AOff (F : list file) (top : option N) (gen : N)
| AOn (v : view).

Inductive aevent :=
| ABoot
| ABootLoss                      (* power lost while starting *)
| ACall (c : call) (r : reply)
| ALoss (c : call)               (* power lost during a call *)
| APowerOff.                     (* power lost between two calls *)

Inductive astep : astate -> aevent -> astate -> Prop :=
| as_boot F top gen t : (forall t0, top = Some t0 -> t = t0) -> astep (AOff F top gen) ABoot (AOn (mkV F [] [] [] t gen))
| as_boot_loss F top gen : astep (AOff F top gen) ABootLoss (AOff F top gen)
| as_call v c r v' : allowed v c -> does v c r v' -> r <> RPanic -> astep (AOn v) (ACall c r) (AOn v')
| as_loss v c F : allowed v c -> loses v c F -> astep (AOn v) (ALoss c) (AOff F (Some (v_top v)) (v_gen v))
| as_loss_dir v c F : allowed v c -> loses v c F -> rewrites c = true -> astep (AOn v) (ALoss c) (AOff F None (v_gen v + 1))
| as_off v : astep (AOn v) APowerOff (AOff (v_files v) (Some (v_top v)) (v_gen v)).

Inductive aruns : list aevent -> astate -> Prop :=
| ar_new : aruns [] (AOff [] None 1)
| ar_step es a e a' : aruns es a -> astep a e a' -> aruns (es ++ [e]) a'.

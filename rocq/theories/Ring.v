(** * Ring loggers: rotation of segment files.

    Models the directory manipulation of
    firmware-common/src/common/delta_logger/ring_delta_logger.rs:60-114, 223-275
    (RingDeltaLoggerState::new, create_new_segment) and of the identical code in
    ring_file_writer.rs:43-91, 142-189 (RingFileWriter, which also skips the
    rotation when nothing was written).
    The directory is the list of (id, type) entries in table order; a builder
    transaction replaces it atomically at commit (the properties of the
    allocation-table builder are C05..C10) and gives the new file a fresh id
    larger than all others.  File contents are not modelled here. *)
From Coq Require Import List Bool NArith Lia Arith.
Import ListNotations.
Local Open Scope nat_scope.

Record entry := Entry { e_id : nat; e_typ : nat }.
Record disk := DiskD { d_files : list entry; d_max : nat }.

(** the configured type and segments_per_ring *)
Record ring_config := RingConfig { rc_typ : nat; rc_segs : nat }.

Definition of_type (t : nat) (e : entry) : bool := e_typ e =? t.

(** files_iter(type).next() until None (ring_delta_logger.rs:66-71) *)
Definition count (t : nat) (l : list entry) : nat := length (filter (of_type t) l).

(** while let Some(entry) = builder.read_next(): drop the first [k] entries of
    the type, copy the others (ring_delta_logger.rs:88-95) *)
Fixpoint copy_dropping (t : nat) (k : nat) (l : list entry) : list entry :=
  match l with
  | [] => []
  | e :: l => if of_type t e && (0 <? k) then copy_dropping t (k - 1) l else e :: copy_dropping t k l
  end.

(** the first_segment_removed loop of create_new_segment (240-249) *)
Fixpoint copy_dropping_first (t : nat) (removed : bool) (l : list entry) : list entry :=
  match l with
  | [] => []
  | e :: l => if of_type t e && negb removed then copy_dropping_first t true l else e :: copy_dropping_first t removed l
  end.

(** write_new_file_and_open_for_write + commit (97-100) *)
Definition add_file (t : nat) (d : disk) (files : list entry) : disk :=
  DiskD (files ++ [Entry (S (d_max d)) t]) (S (d_max d)).

(** RingDeltaLoggerState::new (60-114): the new directory and
    current_ring_segments; [None] is the u32 underflow of segments_per_ring - 1 *)
Definition ring_new (c : ring_config) (d : disk) : option (disk * nat) :=
  if rc_segs c =? 0 then None
  else
    let n := count (rc_typ c) (d_files d) in
    let '(rm, cur) := if rc_segs c - 1 <? n then (n - rc_segs c + 1, rc_segs c) else (0, n + 1) in
    Some (add_file (rc_typ c) d (copy_dropping (rc_typ c) rm (d_files d)), cur).

(** create_new_segment (233-275), [cur] being current_ring_segments *)
Definition ring_rotate (c : ring_config) (d : disk) (cur : nat) : disk * nat :=
  if rc_segs c <=? cur
  then (add_file (rc_typ c) d (copy_dropping_first (rc_typ c) false (d_files d)), rc_segs c)
  else (add_file (rc_typ c) d (d_files d), cur + 1).

(** what other users of the file system may do meanwhile: create files of other
    types, remove any files *)
Inductive other := OCreate (t : nat) | ORemove (p : entry -> bool).
Definition do_other (o : other) (d : disk) : disk :=
  match o with
  | OCreate t => add_file t d (d_files d)
  | ORemove p => DiskD (filter (fun e => negb (p e)) (d_files d)) (d_max d)
  end.

(** the device's life: boots (the logger is created), segment rollovers,
    activity of others, and power losses.  A power loss inside a transaction
    leaves the directory before or after it ([committed]). *)
Inductive event :=
| EBoot | ERotate | EOther (o : other) | EPowerLoss
| EBootPowerLoss (committed : bool) | ERotatePowerLoss (committed : bool).

(** state: directory and, while the logger runs, current_ring_segments *)
Definition estep (c : ring_config) (s : disk * option nat) (e : event) : option (disk * option nat) :=
  let (d, r) := s in
  match e, r with
  | EBoot, None => match ring_new c d with Some (d', cur) => Some (d', Some cur) | None => None end
  | ERotate, Some cur => let (d', cur') := ring_rotate c d cur in Some (d', Some cur')
  | EOther o, _ => Some (do_other o d, r)
  | EPowerLoss, _ => Some (d, None)
  | EBootPowerLoss ok, None => match ring_new c d with Some (d', _) => Some (if ok then d' else d, None) | None => None end
  | ERotatePowerLoss ok, Some cur => let (d', _) := ring_rotate c d cur in Some (if ok then d' else d, None)
  | _, _ => None
  end.
Fixpoint eruns (c : ring_config) (s : disk * option nat) (es : list event) : option (disk * option nat) :=
  match es with
  | [] => Some s
  | e :: es => match estep c s e with Some s' => eruns c s' es | None => None end
  end.

(** ** Facts *)
Lemma count_app t a b : count t (a ++ b) = count t a + count t b.
Proof. unfold count. rewrite filter_app, app_length. reflexivity. Qed.

Lemma first_is_dropping t : forall l, copy_dropping_first t false l = copy_dropping t 1 l.
Proof.
  assert (H0 : forall l, copy_dropping_first t true l = l).
  { induction l as [|e l IH]; cbn; [reflexivity|]. rewrite andb_false_r, IH. reflexivity. }
  assert (H1 : forall l, copy_dropping t 0 l = l).
  { induction l as [|e l IH]; cbn; [reflexivity|]. rewrite andb_false_r, IH. reflexivity. }
  induction l as [|e l IH]; cbn; [reflexivity|]. destruct (of_type t e); cbn.
  - rewrite H0, H1. reflexivity.
  - rewrite IH. reflexivity.
Qed.

Lemma dropping_0 t l : copy_dropping t 0 l = l.
Proof. induction l as [|e l IH]; cbn; [reflexivity|]. rewrite andb_false_r, IH. reflexivity. Qed.

(** the copy keeps all entries of other types, and the suffix of the entries of the type *)
Lemma dropping_other t : forall l k, filter (fun e => negb (of_type t e)) (copy_dropping t k l) = filter (fun e => negb (of_type t e)) l.
Proof.
  induction l as [|e l IH]; intros k; cbn [copy_dropping filter]; [reflexivity|]. destruct (of_type t e) eqn:E; cbn [andb negb].
  - destruct (0 <? k); cbn [filter]; rewrite ?E; cbn [negb]; apply IH.
  - cbn [filter]. rewrite E. cbn [negb]. rewrite IH. reflexivity.
Qed.
Lemma dropping_own t : forall l k, filter (of_type t) (copy_dropping t k l) = skipn k (filter (of_type t) l).
Proof.
  induction l as [|e l IH]; intros k; cbn; [rewrite skipn_nil; reflexivity|]. destruct (of_type t e) eqn:E; cbn.
  - destruct k as [|k]; cbn.
    + rewrite E, IH. reflexivity.
    + rewrite Nat.sub_0_r. apply IH.
  - rewrite E. apply IH.
Qed.

Lemma count_dropping t k l : count t (copy_dropping t k l) = count t l - k.
Proof. unfold count. rewrite dropping_own, skipn_length. reflexivity. Qed.

Lemma count_removed t p l : count t (filter p l) <= count t l.
Proof.
  unfold count. induction l as [|e l IH]; cbn; [lia|]. destruct (p e); cbn; destruct (of_type t e); cbn; lia.
Qed.

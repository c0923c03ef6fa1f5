(** * State and effects of the VLFS model.
    One record holds the flash contents, the log of flash operations issued so far, and the RAM
    state of the [VLFS] struct (mod.rs:73-83).  Functions of the API are state transformers
    returning [Ok], [Err] (a [VLFSError], fs/error.rs) or [Panic] (the Rust code panics; the
    state is then irrelevant).  Locks are not part of this model (each call runs alone; see
    RwLock.v for locks); flash-driver errors are not modelled. *)
From Verif Require Import Base Flash.
Local Open Scope N_scope.

(** fs/error.rs:8-27; [FlashError] omitted. *)
Inductive err :=
| DeviceFull | FileDoesNotExist | FileInUse | TooManyFilesOpen
| CorruptedFileEntry | CorruptedFileSystem.

Inductive res (A : Type) := Ok (a : A) | Err (e : err) | Panic.
Arguments Ok {A}. Arguments Err {A}. Arguments Panic {A}.

(** allocation_table.rs:70-72, 110-113, 148-153: header sequence number, footer (file count,
    max file id), slot index and the ids of the opened files (a [Vec] of capacity 32). *)
Record at_t := mkAT { a_seq : N; a_count : N; a_max : N; a_pos : N; a_open : list N }.

(** sector_management.rs:10-15, 59-64.  Bitmaps are functions from (offset) index; [true] = used.
    The two [Vec<u16,16>] are kept with their last element (the one [pop] returns) first.
    The random generator is an arbitrary stream of values. *)
Record smng := mkSM {
  m4 : N -> bool; m32 : N -> bool; m64 : N -> bool; nfree : N;
  ahead : list N; aahead : list N; rng : nat -> N }.

Record fs := mkFS { fl : flash; lg : list fop; atb : at_t; sm : smng }.

Definition set_at (s : fs) (a : at_t) : fs := mkFS (fl s) (lg s) a (sm s).
Definition set_sm (s : fs) (m : smng) : fs := mkFS (fl s) (lg s) (atb s) m.
(** issue one flash operation *)
Definition emit (s : fs) (o : fop) : fs := mkFS (apply_op (fl s) o) (lg s ++ [o]) (atb s) (sm s).

Definition M (A : Type) := fs -> fs * res A.
Definition ret {A} (a : A) : M A := fun s => (s, Ok a).
Definition fail {A} (e : err) : M A := fun s => (s, Err e).
Definition panic {A} : M A := fun s => (s, Panic).
Definition bind {A B} (m : M A) (k : A -> M B) : M B := fun s =>
  match m s with
  | (s', Ok a) => k a s'
  | (s', Err e) => (s', Err e)
  | (s', Panic) => (s', Panic)
  end.
Definition get : M fs := fun s => (s, Ok s).
Definition modify (f : fs -> fs) : M unit := fun s => (f s, Ok tt).
Definition out (o : fop) : M unit := modify (fun s => emit s o).
Definition guard (b : bool) : M unit := if b then ret tt else panic.
Definition liftM {A} (r : res A) : M A := fun s => (s, r).

Declare Scope fs_scope.
Delimit Scope fs_scope with fs.
Notation "x <- m ;; k" := (bind m (fun x => k)) (at level 61, m at next level, right associativity) : fs_scope.
Notation "m ;;; k" := (bind m (fun _ => k)) (at level 61, right associativity) : fs_scope.

(** mod.rs:31-45 *)
Definition VLFS_VERSION : N := 19.
Definition SECTORS_COUNT : N := 16384.
Definition SECTOR_SIZE : N := 4096.
Definition PAGE_SIZE : N := 256.
Definition TABLE_COUNT : N := 4.
Definition TABLE_SIZE : N := 32 * 1024.
Definition MAX_FILES : N := (TABLE_SIZE - 26 - 4) / 13.
Definition MAX_SECTOR_DATA_SIZE : N := 4016.
Definition ALLOC_TABLES_SECTORS_USED : N := 32.
Definition DATA_REGION_SECTORS : N := 16352.

(** ** Monad laws used by the proofs *)
Lemma bind_ok {A B} (m : M A) (k : A -> M B) s s' a :
  m s = (s', Ok a) -> bind m k s = k a s'.
Proof. unfold bind. intros ->. reflexivity. Qed.

Lemma bind_inv {A B} (m : M A) (k : A -> M B) s s' (b : B) :
  bind m k s = (s', Ok b) -> exists s1 a, m s = (s1, Ok a) /\ k a s1 = (s', Ok b).
Proof.
  unfold bind. destruct (m s) as [s1 [a|e|]]; intros H; try discriminate. eauto.
Qed.

Lemma bind_assoc {A B C} (m : M A) (k : A -> M B) (k' : B -> M C) s :
  bind (bind m k) k' s = bind m (fun a => bind (k a) k') s.
Proof. unfold bind. destruct (m s) as [s1 [a|e|]]; reflexivity. Qed.

Lemma bind_get {B} (k : fs -> M B) s : bind get k s = k s s.
Proof. reflexivity. Qed.

Lemma bind_modify {B} f (k : unit -> M B) s : bind (modify f) k s = k tt (f s).
Proof. reflexivity. Qed.

Lemma bind_out {B} o (k : unit -> M B) s : bind (out o) k s = k tt (emit s o).
Proof. reflexivity. Qed.

Lemma bind_ret {A B} (a : A) (k : A -> M B) s : bind (ret a) k s = k a s.
Proof. reflexivity. Qed.

Lemma bind_err {A B} (m : M A) (k : A -> M B) s s' e :
  m s = (s', Err e) -> bind m k s = (s', Err e).
Proof. unfold bind. intros ->. reflexivity. Qed.

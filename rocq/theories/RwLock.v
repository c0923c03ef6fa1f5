(** * Model of the reader/writer lock, vlfs/src/utils/rwlock.rs, and of the FIFO mutex, vlfs/src/utils/fair_mutex.rs

    The lock is a pure state machine: every poll and every guard drop is one critical section of the blocking mutex
    (rwlock.rs:55-75, 90-108, 131-145, 176-185).  A task is a number; a task has at most one outstanding request and at most one guard.
    [wakers] is embassy-sync's MultiWakerRegistration (a dependency, modelled from its documented behaviour: registering a task twice
    is a no-op, registering into a full table first wakes and clears all of it, [wake] wakes and clears all).
    Not modelled: overflow of the reader counter at 2^64 simultaneous readers. *)
From Coq Require Import List Arith Lia Bool.
Import ListNotations.
Local Open Scope nat_scope.

(** rwlock.rs:11-22 *)
Inductive locked_state := Unlocked | ReadLocked (n : nat) | WriteLocked.
Record lock := mkLock { locked : locked_state; writer_pending : nat; wakers : list nat }.
(** rwlock.rs:37-46 *)
Definition new_lock : lock := mkLock Unlocked 0 [].

(** the capacity the file system uses, vlfs/src/fs/mod.rs:78-80 *)
Definition slots : nat := 10.
(** MultiWakerRegistration::register: new table, tasks woken *)
Definition register (t : nat) (ws : list nat) : list nat * list nat :=
  if existsb (Nat.eqb t) ws then (ws, [])
  else if slots <=? length ws then ([t], ws) else (ws ++ [t], []).

(** rwlock.rs:53-83, one poll of the future returned by read(): new lock, tasks woken, granted? *)
Definition poll_read (t : nat) (l : lock) : lock * list nat * bool :=
  if 0 <? writer_pending l then (l, [], false)
  else match locked l with
       | Unlocked => (mkLock (ReadLocked 1) (writer_pending l) (wakers l), [], true)
       | ReadLocked n => (mkLock (ReadLocked (n + 1)) (writer_pending l) (wakers l), [], true)
       | WriteLocked => let (ws, wk) := register t (wakers l) in (mkLock WriteLocked (writer_pending l) ws, wk, false)
       end.

(** rwlock.rs:85-89, the part of write() before its first poll *)
Definition start_write (l : lock) : lock := mkLock (locked l) (writer_pending l + 1) (wakers l).
(** rwlock.rs:90-115, one poll; [None] is the panic of the subtraction *)
Definition poll_write (t : nat) (l : lock) : option (lock * list nat * bool) :=
  match locked l with
  | Unlocked => match writer_pending l with
                | 0 => None
                | S k => Some (mkLock WriteLocked k (wakers l), [], true)
                end
  | _ => let (ws, wk) := register t (wakers l) in Some (mkLock (locked l) (writer_pending l) ws, wk, false)
  end.

(** rwlock.rs:130-147, RwLockReadGuard::drop *)
Definition drop_read (l : lock) : option (lock * list nat) :=
  match locked l with
  | ReadLocked n => if n =? 1 then Some (mkLock Unlocked (writer_pending l) [], wakers l)
                    else Some (mkLock (ReadLocked (n - 1)) (writer_pending l) [], wakers l)
  | _ => None
  end.
(** rwlock.rs:175-187, RwLockWriteGuard::drop *)
Definition drop_write (l : lock) : option (lock * list nat) :=
  match locked l with
  | WriteLocked => Some (mkLock Unlocked (writer_pending l) [], wakers l)
  | _ => None
  end.

(** ** The tasks around the lock *)
Inductive event :=
| Read (t : nat)      (* the task calls read() and polls it once *)
| Write (t : nat)     (* the task calls write() and polls it once *)
| Poll (t : nat)      (* the executor polls a waiting task, woken or not *)
| Cancel (t : nat)    (* the future of a waiting task is dropped *)
| Release (t : nat).  (* the task drops its guard *)

Record world := mkWorld {
  lk : lock;
  readers : list nat;      (* tasks holding a read guard *)
  writers : list nat;      (* tasks holding a write guard *)
  want_read : list nat;    (* tasks whose read() is pending *)
  want_write : list nat;   (* tasks whose write() is pending *)
  woken : list nat         (* tasks the executor has been told to poll *) }.
Definition start : world := mkWorld new_lock [] [] [] [] [].

Definition del (t : nat) (l : list nat) : list nat := filter (fun x => negb (x =? t)) l.
Definition has (t : nat) (l : list nat) : bool := existsb (Nat.eqb t) l.
Definition busy (t : nat) (w : world) : bool := has t (readers w) || has t (writers w) || has t (want_read w) || has t (want_write w).

Inductive outcome := Next (w : world) | Panic | Impossible.

(** one poll of a read request by task [t], which is not in any of the lists of [w] *)
Definition do_poll_read (t : nat) (w : world) : outcome :=
  match poll_read t (lk w) with
  | (l, wk, true) => Next (mkWorld l (t :: readers w) (writers w) (want_read w) (want_write w) (woken w ++ wk))
  | (l, wk, false) => Next (mkWorld l (readers w) (writers w) (t :: want_read w) (want_write w) (woken w ++ wk))
  end.
Definition do_poll_write (t : nat) (w : world) : outcome :=
  match poll_write t (lk w) with
  | None => Panic
  | Some (l, wk, true) => Next (mkWorld l (readers w) (t :: writers w) (want_read w) (want_write w) (woken w ++ wk))
  | Some (l, wk, false) => Next (mkWorld l (readers w) (writers w) (want_read w) (t :: want_write w) (woken w ++ wk))
  end.

Definition step (e : event) (w : world) : outcome :=
  match e with
  | Read t => if busy t w then Impossible else do_poll_read t w
  | Write t => if busy t w then Impossible else
      do_poll_write t (mkWorld (start_write (lk w)) (readers w) (writers w) (want_read w) (want_write w) (woken w))
  | Poll t =>
      if has t (want_read w) then do_poll_read t (mkWorld (lk w) (readers w) (writers w) (del t (want_read w)) (want_write w) (del t (woken w)))
      else if has t (want_write w) then do_poll_write t (mkWorld (lk w) (readers w) (writers w) (want_read w) (del t (want_write w)) (del t (woken w)))
      else Impossible
  | Cancel t =>
      if has t (want_read w) || has t (want_write w)
      then Next (mkWorld (lk w) (readers w) (writers w) (del t (want_read w)) (del t (want_write w)) (woken w))
      else Impossible
  | Release t =>
      if has t (readers w) then
        match drop_read (lk w) with
        | None => Panic
        | Some (l, wk) => Next (mkWorld l (del t (readers w)) (writers w) (want_read w) (want_write w) (woken w ++ wk))
        end
      else if has t (writers w) then
        match drop_write (lk w) with
        | None => Panic
        | Some (l, wk) => Next (mkWorld l (readers w) (del t (writers w)) (want_read w) (want_write w) (woken w ++ wk))
        end
      else Impossible
  end.

Fixpoint run (es : list event) (w : world) : outcome :=
  match es with
  | [] => Next w
  | e :: es => match step e w with Next w' => run es w' | o => o end
  end.

(** ** fair_mutex.rs *)
Record fmutex := mkFM { fm_locked : bool; fm_queue : list nat }.
(** fair_mutex.rs:44-63; the queue is a heapless::Deque of capacity [cap], a push into a full one is dropped *)
Definition fm_poll (cap t : nat) (m : fmutex) : fmutex * bool :=
  if fm_locked m then (mkFM true (if length (fm_queue m) <? cap then fm_queue m ++ [t] else fm_queue m), false)
  else (mkFM true (fm_queue m), true).
(** fair_mutex.rs:73-86 *)
Definition fm_drop (m : fmutex) : fmutex * list nat :=
  match fm_queue m with
  | [] => (mkFM false [], [])
  | t :: q => (mkFM false q, [t])
  end.

Inductive fevent := FLock (t : nat) | FPoll (t : nat) | FCancel (t : nat) | FRelease (t : nat).
Record fworld := mkFW { fm : fmutex; fholders : list nat; fwaiting : list nat; fwoken : list nat }.
Definition fstart : fworld := mkFW (mkFM false []) [] [] [].
Definition do_fpoll (cap t : nat) (w : fworld) : fworld :=
  match fm_poll cap t (fm w) with
  | (m, true) => mkFW m (t :: fholders w) (fwaiting w) (fwoken w)
  | (m, false) => mkFW m (fholders w) (t :: fwaiting w) (fwoken w)
  end.
Definition fstep (cap : nat) (e : fevent) (w : fworld) : option fworld :=
  match e with
  | FLock t => if has t (fholders w) || has t (fwaiting w) then None else Some (do_fpoll cap t w)
  | FPoll t => if has t (fwaiting w) then Some (do_fpoll cap t (mkFW (fm w) (fholders w) (del t (fwaiting w)) (del t (fwoken w)))) else None
  | FCancel t => if has t (fwaiting w) then Some (mkFW (fm w) (fholders w) (del t (fwaiting w)) (fwoken w)) else None
  | FRelease t => if has t (fholders w) then let (m, wk) := fm_drop (fm w) in Some (mkFW m (del t (fholders w)) (fwaiting w) (fwoken w ++ wk)) else None
  end.
Fixpoint frun (cap : nat) (es : list fevent) (w : fworld) : option fworld :=
  match es with [] => Some w | e :: es => match fstep cap e w with Some w' => frun cap es w' | None => None end end.

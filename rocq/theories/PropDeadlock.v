(** * Property C29: deadlocks between concurrent file-system operations. *)
From Coq Require Import List Arith Lia Bool.
From Verif Require Import RwLock PropLock Deadlock.
Import ListNotations.
Local Open Scope nat_scope.

(** what a task may be doing: any sequence of the given pieces *)
Definition does_only (pieces : list (list op)) (progs : nat -> list op) : Prop :=
  forall t, exists ps, progs t = concat ps /\ forall p, In p ps -> In p pieces.

(** the lock use of the calls: exists, get_file_size (also find_entry), open_file_for_read (find_entry, opened, mark), reading
    (page_read), closing (mark), appending and flushing (page_write, claim), free *)
Definition file_io : list (list op) := [find_entry; mark; opened; claim; page_write; page_read; free_space].
(** the lock use of the calls: create_file, remove_file(s), create_file_and_open_for_write (builder), files_iter and
    concurrent_files_iter (iterate), is_file_opened, closing (mark), reading pages, writing pages within a sector, free *)
Definition directory_work : list (list op) := [builder; open_sector; mark; opened; iterate; page_read; page_write; free_space].

Definition rank_io (l : lockname) : nat := match l with SM => 0 | FL => 1 | AT => 2 end.
Definition rank_dir (l : lockname) : nat := match l with AT => 0 | FL => 1 | SM => 2 end.

Lemma pieces_ordered rank pieces progs : does_only pieces progs -> (forall p, In p pieces -> ordered rank [] p) -> forall t, ordered rank [] (progs t).
Proof. intros H1 H2 t. destruct (H1 t) as (ps & -> & Hp). apply ordered_concat. intros p Hin. apply H2. apply Hp. exact Hin. Qed.

(** Any number of tasks, each doing any sequence of look-ups, opens for reading, reads, appends, flushes and closes: at every point of every
    schedule some unfinished task can be run to completion of its next lock operation. *)
Theorem C29_file_io_never_deadlocks_partial : forall progs, does_only file_io progs ->
  forall ts s, reaches ts (initial progs) s -> forall t, unfinished t s -> exists u, advances u s.
Proof.
  intros progs H. apply (ordered_progress rank_io). apply (pieces_ordered rank_io file_io progs H).
  intros p Hp. unfold file_io in Hp. cbn [In] in Hp. repeat (destruct Hp as [<-|Hp]); [..|destruct Hp].
  all: unfold find_entry, mark, opened, claim, page_write, page_read, free_space; cbn; intuition (subst; cbn; auto with arith; try lia).
Qed.
Print Assumptions C29_file_io_never_deadlocks_partial.

(** The same for any mix of creations, removals and iterations with page reads and writes. *)
Theorem C29_directory_work_never_deadlocks_partial : forall progs, does_only directory_work progs ->
  forall ts s, reaches ts (initial progs) s -> forall t, unfinished t s -> exists u, advances u s.
Proof.
  intros progs H. apply (ordered_progress rank_dir). apply (pieces_ordered rank_dir directory_work progs H).
  intros p Hp. unfold directory_work in Hp. cbn [In] in Hp. repeat (destruct Hp as [<-|Hp]); [..|destruct Hp].
  all: unfold builder, open_sector, mark, opened, iterate, page_write, page_read, free_space; cbn; intuition (subst; cbn; auto with arith; try lia).
Qed.
Print Assumptions C29_directory_work_never_deadlocks_partial.

(** ** The two groups deadlock each other *)
(** from [s] on, no schedule ever lets the tasks in [ts] finish their current operation *)
Definition deadlocked (ts : list nat) (s : system) : Prop :=
  ts <> [] /\ forall sched s', reaches sched s s' -> forall t, In t ts -> unfinished t s' /\ ~ advances t s'.


Definition blocked (o : op) (l : lockname) (t : nat) (w : world) : Prop :=
  (o = AcqR l \/ o = AcqW l) /\ step (Poll t) w = Next w /\ has t (readers w) = false /\ has t (writers w) = false.

Record Knot (oa ob : op) (la lb : lockname) (pa pb : list op) (wa wb : world) (s : system) : Prop := {
  k_a : tasks s 0 = mkTask (oa :: pa) true;
  k_b : tasks s 1 = mkTask (ob :: pb) true;
  k_o : forall t, 2 <= t -> prog (tasks s t) = [];
  k_la : locks s la = wa;
  k_lb : locks s lb = wb }.

Lemma blocked_tick o l t w p s : blocked o l t w -> tasks s t = mkTask (o :: p) true -> locks s l = w ->
  tick t s = Some (mkSys (updl (locks s) l w) (upd (tasks s) t (mkTask (o :: p) true))).
Proof.
  intros ([->| ->] & B2 & B3 & B4) Et El; unfold tick; rewrite Et; cbn [prog waiting]; rewrite El, B2; [rewrite B3|rewrite B4]; reflexivity.
Qed.

Lemma knot_step oa ob la lb pa pb wa wb : blocked oa la 0 wa -> blocked ob lb 1 wb ->
  forall s t s', Knot oa ob la lb pa pb wa wb s -> tick t s = Some s' -> Knot oa ob la lb pa pb wa wb s'.
Proof.
  intros Ba Bb s t s' [Ka Kb Ko Kla Klb] E.
  assert (Eu : forall l w, locks s l = w -> forall k, updl (locks s) l w k = locks s k).
  { intros l w El k. unfold updl. destruct (lockname_dec k l) as [->|]; auto. }
  destruct t as [|[|t]].
  - rewrite (blocked_tick oa la 0 wa pa s Ba Ka Kla) in E. injection E as <-. constructor; cbn [locks tasks]; rewrite ?(Eu la wa Kla); auto.
    intros t Ht. unfold upd. destruct (Nat.eqb_spec t 0); [lia|auto].
  - rewrite (blocked_tick ob lb 1 wb pb s Bb Kb Klb) in E. injection E as <-. constructor; cbn [locks tasks]; rewrite ?(Eu lb wb Klb); auto.
    intros t Ht. unfold upd. destruct (Nat.eqb_spec t 1); [lia|auto].
  - unfold tick in E. rewrite (Ko (S (S t))) in E by lia. discriminate.
Qed.

Lemma knot_deadlocked oa ob la lb pa pb wa wb s : blocked oa la 0 wa -> blocked ob lb 1 wb -> Knot oa ob la lb pa pb wa wb s -> deadlocked [0; 1] s.
Proof.
  intros Ba Bb K. split; [discriminate|]. intros sched s' R.
  assert (K' : Knot oa ob la lb pa pb wa wb s').
  { induction R as [s|t ts s s1 s2 E R IH]; [exact K|]. apply IH. exact (knot_step oa ob la lb pa pb wa wb Ba Bb s t s1 K E). }
  destruct K' as [Ka Kb Ko Kla Klb].
  intros t [<-|[<-|[]]]; unfold unfinished, advances.
  - rewrite Ka. split; [discriminate|]. intros (s2 & E & L). rewrite (blocked_tick oa la 0 wa pa s' Ba Ka Kla) in E. injection E as <-. cbn in L. lia.
  - rewrite Kb. split; [discriminate|]. intros (s2 & E & L). rewrite (blocked_tick ob lb 1 wb pb s' Bb Kb Klb) in E. injection E as <-. cbn in L. lia.
Qed.

Definition two (p q : list op) : nat -> list op := fun t => match t with 0 => p | 1 => q | _ => [] end.
Fixpoint ticks (ts : list nat) (s : system) : option system := match ts with [] => Some s | t :: ts => match tick t s with Some s' => ticks ts s' | None => None end end.
Lemma ticks_reach ts : forall s s', ticks ts s = Some s' -> reaches ts s s'.
Proof.
  induction ts as [|t ts IH]; intros s s' E; cbn [ticks] in E; [injection E as <-; constructor|].
  destruct (tick t s) as [s1|] eqn:Et; [|discriminate]. econstructor; eauto.
Qed.

Ltac knot sched := exists sched; eexists; split; [apply ticks_reach; vm_compute; reflexivity|];
  match goal with |- deadlocked _ ?s0 => set (s := s0) end.

(** appending (which needs a new sector) against create_file: one holds the sector map and wants the flash, the other holds the flash and
    wants the sector map *)
Theorem C29_refuted_append_create : exists sched s, reaches sched (initial (two (claim ++ page_write) builder)) s /\ deadlocked [0; 1] s.
Proof.
  knot [0; 1; 1; 0; 1].
  apply (knot_deadlocked (AcqW FL) (AcqW SM) FL SM [Rel FL; Rel SM; AcqW FL; Rel FL] [Rel AT; Rel FL; Rel SM] (locks s FL) (locks s SM)).
  - split; [right; reflexivity|]. split; [vm_compute; reflexivity|split; reflexivity].
  - split; [right; reflexivity|]. split; [vm_compute; reflexivity|split; reflexivity].
  - constructor; [reflexivity|reflexivity| |reflexivity|reflexivity]. intros [|[|t]] Ht; [lia|lia|reflexivity].
Qed.
Print Assumptions C29_refuted_append_create.

(** appending against opening another file for writing *)
Theorem C29_refuted_append_open : exists sched s, reaches sched (initial (two (claim ++ page_write) (find_entry ++ opened ++ mark ++ open_sector))) s /\ deadlocked [0; 1] s.
Proof.
  knot [1; 1; 1; 1; 1; 1; 1; 1; 0; 1; 0; 1].
  apply (knot_deadlocked (AcqW FL) (AcqW SM) FL SM [Rel FL; Rel SM; AcqW FL; Rel FL] [Rel FL; Rel SM] (locks s FL) (locks s SM)).
  - split; [right; reflexivity|]. split; [vm_compute; reflexivity|split; reflexivity].
  - split; [right; reflexivity|]. split; [vm_compute; reflexivity|split; reflexivity].
  - constructor; [reflexivity|reflexivity| |reflexivity|reflexivity]. intros [|[|t]] Ht; [lia|lia|reflexivity].
Qed.
Print Assumptions C29_refuted_append_open.

(** asking whether a file exists against create_file *)
Theorem C29_refuted_exists_create : exists sched s, reaches sched (initial (two find_entry builder)) s /\ deadlocked [0; 1] s.
Proof.
  knot [0; 1; 0; 1].
  apply (knot_deadlocked (AcqR AT) (AcqW FL) AT FL [Rel AT; Rel FL] [AcqW SM; Rel AT; Rel FL; Rel SM] (locks s AT) (locks s FL)).
  - split; [left; reflexivity|]. split; [vm_compute; reflexivity|split; reflexivity].
  - split; [right; reflexivity|]. split; [vm_compute; reflexivity|split; reflexivity].
  - constructor; [reflexivity|reflexivity| |reflexivity|reflexivity]. intros [|[|t]] Ht; [lia|lia|reflexivity].
Qed.
Print Assumptions C29_refuted_exists_create.

(** non-vacuity of the partial theorems: three tasks reading, appending and looking up; a reachable state in which two of them wait *)
Example ex_C29 : let progs := fun t => match t with 0 => claim ++ page_write | 1 => find_entry ++ page_read | 2 => free_space | _ => [] end in
  does_only file_io progs /\ exists s, reaches [1; 0; 0; 2; 1] (initial progs) s /\ waiting (tasks s 0) = true /\ waiting (tasks s 2) = true /\ unfinished 1 s.
Proof.
  split.
  - intros [|[|[|t]]]; [exists [claim; page_write]|exists [find_entry; page_read]|exists [free_space]|exists []]; (split; [reflexivity|]);
      intros p Hp; cbn in Hp; repeat (destruct Hp as [<-|Hp]; [cbn; auto 10|]); destruct Hp.
  - eexists. split; [apply ticks_reach; vm_compute; reflexivity|]. split; [reflexivity|]. split; [reflexivity|]. discriminate.
Qed.

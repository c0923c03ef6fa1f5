(** * Lock usage of the file-system operations, and what it implies for deadlocks (property C29)

    Every operation of vlfs is abstracted to the sequence of lock acquisitions and releases it performs on the three reader/writer locks
    of the file system (vlfs/src/fs/mod.rs:78-80).  The locks themselves are the model of RwLock.v.  The crc mutex is taken only while no
    other lock is requested (writer.rs:167-171 releases it before line 173, reader.rs:195-197), so it is left out.
    A task runs a list of lock operations; between two of them it may be suspended at any time; a task waiting for a lock may be polled
    again at any time.  Tasks are not cancelled here. *)
From Coq Require Import List Arith Lia Bool.
From Verif Require Import RwLock PropLock.
Import ListNotations.
Local Open Scope nat_scope.

Inductive lockname := AT | FL | SM.   (* allocation_table, flash, sectors_mng *)
Lemma lockname_dec (a b : lockname) : {a = b} + {a <> b}. Proof. decide equality. Defined.
Inductive op := AcqR (l : lockname) | AcqW (l : lockname) | Rel (l : lockname).

(** ** The lock sequences of the code *)
(** find_file_entry, allocation_table.rs:214-258; guards dropped in reverse order of declaration *)
Definition find_entry : list op := [AcqR FL; AcqR AT; Rel AT; Rel FL].
(** mark_file_opened / mark_file_closed, allocation_table.rs:188-212 *)
Definition mark : list op := [AcqW AT; Rel AT].
(** is_file_opened, allocation_table.rs:199-202 *)
Definition opened : list op := [AcqR AT; Rel AT].
(** ATBuilder::new .. drop, at_builder.rs:51-84, 25-31 (fields dropped in order of declaration): create_file, remove_files,
    create_file_and_open_for_write, set_file_first_sector_index *)
Definition builder : list op := [AcqW AT; AcqW FL; AcqW SM; Rel AT; Rel FL; Rel SM].
(** the middle of open_file_for_write, writer.rs:29-30, 116-117 *)
Definition open_sector : list op := [AcqW FL; AcqW SM; Rel FL; Rel SM].
(** claiming the next sector in FileWriter::flush, writer.rs:218-224, and in extend_from_slice, writer.rs:336-342 *)
Definition claim : list op := [AcqW SM; AcqW FL; Rel FL; Rel SM].
(** FileWriter::write_page, writer.rs:173-181 *)
Definition page_write : list op := [AcqW FL; Rel FL].
(** FileReader::read_next_page, reader.rs:105-188; the loop of get_file_size, mod.rs:144 *)
Definition page_read : list op := [AcqR FL; Rel FL].
(** free, mod.rs:192-199 *)
Definition free_space : list op := [AcqR SM; Rel SM].
(** FilesIterator::new .. drop, iter.rs:121-130, 107-116; ConcurrentFilesIterator::next, iter.rs:247-249 *)
Definition iterate : list op := [AcqR AT; AcqR FL; Rel AT; Rel FL].

(** ** Tasks *)
Record task := mkTask { prog : list op; waiting : bool }.
Record system := mkSys { locks : lockname -> world; tasks : nat -> task }.
Definition upd {A} (f : nat -> A) (t : nat) (a : A) : nat -> A := fun u => if u =? t then a else f u.
Definition updl (f : lockname -> world) (l : lockname) (w : world) : lockname -> world := fun k => if lockname_dec k l then w else f k.

(** the scheduler runs task [t] until its next lock operation has been tried; [None]: a panic, or nothing to run *)
Definition tick (t : nat) (s : system) : option system :=
  match prog (tasks s t) with
  | [] => None
  | AcqR l :: p =>
      match step (if waiting (tasks s t) then Poll t else Read t) (locks s l) with
      | Next w => Some (mkSys (updl (locks s) l w) (upd (tasks s) t (if has t (readers w) then mkTask p false else mkTask (AcqR l :: p) true)))
      | _ => None
      end
  | AcqW l :: p =>
      match step (if waiting (tasks s t) then Poll t else Write t) (locks s l) with
      | Next w => Some (mkSys (updl (locks s) l w) (upd (tasks s) t (if has t (writers w) then mkTask p false else mkTask (AcqW l :: p) true)))
      | _ => None
      end
  | Rel l :: p =>
      match step (Release t) (locks s l) with
      | Next w => Some (mkSys (updl (locks s) l w) (upd (tasks s) t (mkTask p false)))
      | _ => None
      end
  end.
(** a schedule; ticks of finished tasks are skipped by not appearing in it *)
Inductive reaches : list nat -> system -> system -> Prop :=
| re_nil s : reaches [] s s
| re_cons t ts s s1 s2 : tick t s = Some s1 -> reaches ts s1 s2 -> reaches (t :: ts) s s2.

(** all locks free, task [t] about to run [progs t] *)
Definition initial (progs : nat -> list op) : system := mkSys (fun _ => start) (fun t => mkTask (progs t) false).
(** the scheduler can make [t] complete its next lock operation *)
Definition advances (t : nat) (s : system) : Prop := exists s', tick t s = Some s' /\ length (prog (tasks s' t)) < length (prog (tasks s t)).
Definition unfinished (t : nat) (s : system) : Prop := prog (tasks s t) <> [].

(** ** Ordered programs *)
Fixpoint ordered (rank : lockname -> nat) (held : list lockname) (p : list op) : Prop :=
  match p with
  | [] => held = []
  | AcqR l :: p | AcqW l :: p => (forall h, In h held -> rank h < rank l) /\ ordered rank (l :: held) p
  | Rel l :: p => In l held /\ ordered rank (remove lockname_dec l held) p
  end.

(** ** What one event does to a lock *)
Definition read_event (wt : bool) (t : nat) : event := if wt then Poll t else Read t.
Definition write_event (wt : bool) (t : nat) : event := if wt then Poll t else Write t.

Lemma read_step wt t w : Inv w -> (wt = true -> In t (want_read w)) -> (wt = false -> busy t w = false) ->
  exists w', step (read_event wt t) w = Next w' /\ writers w' = writers w /\ want_write w' = want_write w /\
   ((readers w' = t :: readers w /\ want_read w' = del t (want_read w)) \/
    (readers w' = readers w /\ want_read w' = t :: del t (want_read w) /\ (0 < writer_pending (lk w) \/ writers w <> []))).
Proof.
  intros I H1 H2. assert (G : forall w0, readers w0 = readers w -> writers w0 = writers w -> want_read w0 = del t (want_read w) -> want_write w0 = want_write w ->
    lk w0 = lk w -> exists w', do_poll_read t w0 = Next w' /\ writers w' = writers w /\ want_write w' = want_write w /\
   ((readers w' = t :: readers w /\ want_read w' = del t (want_read w)) \/
    (readers w' = readers w /\ want_read w' = t :: del t (want_read w) /\ (0 < writer_pending (lk w) \/ writers w <> [])))).
  { intros w0 E1 E2 E3 E4 E5. unfold do_poll_read, poll_read. rewrite E5. destruct (Nat.ltb_spec 0 (writer_pending (lk w))) as [Hp|Hp].
    - eexists. split; [reflexivity|]. cbn. rewrite E1, E2, E3, E4. split; [reflexivity|]. split; [reflexivity|]. right. auto.
    - destruct (locked (lk w)) eqn:El.
      + eexists. split; [reflexivity|]. cbn. rewrite E1, E2, E3, E4. auto.
      + eexists. split; [reflexivity|]. cbn. rewrite E1, E2, E3, E4. auto.
      + destruct (register t (wakers (lk w))) as [ws wk]. eexists. split; [reflexivity|]. cbn. rewrite E1, E2, E3, E4.
        split; [reflexivity|]. split; [reflexivity|]. right. split; [reflexivity|]. split; [reflexivity|]. right.
        pose proof (i_locked w I) as K. rewrite El in K. destruct K as (_ & u & K). rewrite K. discriminate. }
  destruct wt; cbn [read_event step].
  - rewrite (proj2 (has_in t _) (H1 eq_refl)). apply G; reflexivity.
  - rewrite (H2 eq_refl). specialize (H2 eq_refl). unfold busy in H2. rewrite !orb_false_iff, !has_out in H2.
    apply G; auto. rewrite del_out; tauto.
Qed.

Lemma write_step wt t w : Inv w -> (wt = true -> In t (want_write w) /\ ~ In t (want_read w)) -> (wt = false -> busy t w = false) ->
  exists w', step (write_event wt t) w = Next w' /\ readers w' = readers w /\ want_read w' = want_read w /\
   ((writers w' = t :: writers w /\ want_write w' = del t (want_write w)) \/
    (writers w' = writers w /\ want_write w' = t :: del t (want_write w) /\ (readers w <> [] \/ writers w <> []))).
Proof.
  intros I H1 H2. pose proof (i_locked w I) as L.
  assert (G : forall w0, readers w0 = readers w -> writers w0 = writers w -> want_read w0 = want_read w -> want_write w0 = del t (want_write w) ->
    locked (lk w0) = locked (lk w) -> 0 < writer_pending (lk w0) ->
   exists w', do_poll_write t w0 = Next w' /\ readers w' = readers w /\ want_read w' = want_read w /\
   ((writers w' = t :: writers w /\ want_write w' = del t (want_write w)) \/
    (writers w' = writers w /\ want_write w' = t :: del t (want_write w) /\ (readers w <> [] \/ writers w <> [])))).
  { intros w0 E1 E2 E3 E4 E5 Hp. unfold do_poll_write, poll_write. rewrite E5. destruct (locked (lk w)) eqn:El.
    - destruct (writer_pending (lk w0)); [lia|]. eexists. split; [reflexivity|]. cbn. rewrite E1, E2, E3, E4. auto.
    - destruct (register t (wakers (lk w0))) as [ws wk]. eexists. split; [reflexivity|]. cbn. rewrite E1, E2, E3, E4.
      split; [reflexivity|]. split; [reflexivity|]. right. split; [reflexivity|]. split; [reflexivity|]. left. intros K. rewrite K in L. cbn in L. lia.
    - destruct (register t (wakers (lk w0))) as [ws wk]. eexists. split; [reflexivity|]. cbn. rewrite E1, E2, E3, E4.
      split; [reflexivity|]. split; [reflexivity|]. right. split; [reflexivity|]. split; [reflexivity|]. right. destruct L as (_ & u & K). rewrite K. discriminate. }
  destruct wt; cbn [write_event step].
  - destruct (H1 eq_refl) as [A B]. rewrite (proj2 (has_out t _) B), (proj2 (has_in t _) A). apply G; auto. cbn.
    pose proof (i_wp w I). destruct (want_write w); [destruct A|cbn in *; lia].
  - rewrite (H2 eq_refl). specialize (H2 eq_refl). unfold busy in H2. rewrite !orb_false_iff, !has_out in H2. apply G; auto; [|cbn; lia].
    cbn. rewrite del_out; tauto.
Qed.

Lemma release_step t w : Inv w -> In t (readers w) \/ In t (writers w) ->
  exists w', step (Release t) w = Next w' /\ want_read w' = want_read w /\ want_write w' = want_write w /\
   (forall u, (In u (readers w') \/ In u (writers w')) <-> (In u (readers w) \/ In u (writers w)) /\ u <> t).
Proof.
  intros I H. pose proof (i_locked w I) as L. cbn [step]. destruct (has t (readers w)) eqn:Hr.
  - apply has_in in Hr. unfold drop_read. destruct (locked (lk w)) as [|n|].
    + destruct L as (E & _). rewrite E in Hr. destruct Hr.
    + destruct L as (_ & _ & E). destruct (n =? 1); eexists; (split; [reflexivity|]); cbn; (split; [reflexivity|]); (split; [reflexivity|]);
        intros u; rewrite del_in, E; cbn; tauto.
    + destruct L as (E & _). rewrite E in Hr. destruct Hr.
  - apply has_out in Hr. destruct H as [H|H]; [contradiction|]. pose proof H as H'. apply has_in in H. rewrite H. unfold drop_write.
    destruct (locked (lk w)) as [|n|].
    + destruct L as (_ & E & _). rewrite E in H'. destruct H'.
    + destruct L as (_ & _ & E). rewrite E in H'. destruct H'.
    + destruct L as (E & _). eexists. split; [reflexivity|]. cbn. split; [reflexivity|]. split; [reflexivity|]. intros u. rewrite del_in, E. cbn. tauto.
Qed.

(** ** The invariant of the whole system *)
Section Order.
Variable rank : lockname -> nat.
Definition at_read (s : system) t l := waiting (tasks s t) = true /\ exists p, prog (tasks s t) = AcqR l :: p.
Definition at_write (s : system) t l := waiting (tasks s t) = true /\ exists p, prog (tasks s t) = AcqW l :: p.
Record SInv (s : system) (held : nat -> list lockname) : Prop := {
  si_inv : forall l, Inv (locks s l);
  si_wp : forall l, writer_pending (lk (locks s l)) = length (want_write (locks s l));
  si_held : forall l t, (In t (readers (locks s l)) \/ In t (writers (locks s l))) <-> In l (held t);
  si_r : forall l t, In t (want_read (locks s l)) <-> at_read s t l;
  si_w : forall l t, In t (want_write (locks s l)) <-> at_write s t l;
  si_ord : forall t, ordered rank (held t) (prog (tasks s t)) }.

Lemma no_event_cancel wt t : (forall u, read_event wt t <> Cancel u) /\ (forall u, write_event wt t <> Cancel u).
Proof. destruct wt; split; intros u; discriminate. Qed.
Lemma next_inv e w w' : Inv w -> step e w = Next w' -> Inv w'.
Proof. intros I E. pose proof (inv_step e w I) as K. rewrite E in K. exact K. Qed.

Lemma not_held_not_busy s held t l p : SInv s held -> waiting (tasks s t) = false -> (prog (tasks s t) = AcqR l :: p \/ prog (tasks s t) = AcqW l :: p) ->
  busy t (locks s l) = false.
Proof.
  intros S Hw Hp. assert (Hn : ~ In l (held t)).
  { intros K. pose proof (si_ord _ _ S t) as O. destruct Hp as [Hp|Hp]; rewrite Hp in O; cbn [ordered] in O; destruct O as [O _]; specialize (O l K); lia. }
  unfold busy. rewrite !orb_false_iff, !has_out.
  pose proof (si_held _ _ S l t) as Hh. pose proof (si_r _ _ S l t) as Hr. pose proof (si_w _ _ S l t) as Hq. unfold at_read, at_write in *. rewrite Hw in *.
  assert (false <> true) by discriminate. tauto.
Qed.

Definition grab (held : nat -> list lockname) t l := upd held t (l :: held t).

Ltac upds := unfold upd, updl in *; cbn [locks tasks prog waiting] in *.

Lemma tick_inv s held t : SInv s held -> prog (tasks s t) <> [] -> exists s' held', tick t s = Some s' /\ SInv s' held' /\
  (length (prog (tasks s' t)) < length (prog (tasks s t)) \/
   exists l p, waiting (tasks s' t) = true /\
    ((prog (tasks s t) = AcqR l :: p /\ (want_write (locks s l) <> [] \/ writers (locks s l) <> [])) \/
     (prog (tasks s t) = AcqW l :: p /\ (readers (locks s l) <> [] \/ writers (locks s l) <> [])))).
Proof.
  intros S Hne. unfold tick. destruct (prog (tasks s t)) as [|[l|l|l] p] eqn:Ep; [congruence| | |].
  - (* read *)
    assert (Hb : waiting (tasks s t) = false -> busy t (locks s l) = false) by (intros Hw; apply (not_held_not_busy s held t l p S Hw); auto).
    assert (Ha : waiting (tasks s t) = true -> In t (want_read (locks s l))) by (intros Hw; apply (si_r _ _ S); split; [exact Hw|eauto]).
    destruct (read_step (waiting (tasks s t)) t (locks s l) (si_inv _ _ S l) Ha Hb) as (w' & Es & Ew & Eq & C).
    change (if waiting (tasks s t) then Poll t else Read t) with (read_event (waiting (tasks s t)) t). rewrite Es.
    pose proof (next_inv _ _ _ (si_inv _ _ S l) Es) as I'.
    pose proof (pending_step _ _ _ Es (si_inv _ _ S l) (proj1 (no_event_cancel _ _)) (si_wp _ _ S l)) as Wp'.
    pose proof (si_ord _ _ S t) as O. rewrite Ep in O. cbn [ordered] in O. destruct O as [O1 O2].
    destruct C as [[C1 C2]|(C1 & C2 & C3)].
    + rewrite C1. cbn [has existsb]. rewrite Nat.eqb_refl. cbn [orb]. eexists. exists (grab held t l). split; [reflexivity|]. split.
      * constructor; upds.
        -- intros k. destruct (lockname_dec k l); [exact I'|apply (si_inv _ _ S)].
        -- intros k. destruct (lockname_dec k l); [exact Wp'|apply (si_wp _ _ S)].
        -- intros k u. unfold grab, upd. pose proof (si_held _ _ S k u) as Hh. destruct (lockname_dec k l) as [->|Hk].
           ++ rewrite C1, Ew. cbn [In]. destruct (Nat.eqb_spec u t) as [->|Hu]; cbn [In]; [tauto|]. assert (t <> u) by auto. tauto.
           ++ destruct (Nat.eqb_spec u t) as [->|Hu]; cbn [In]; [|tauto]. assert (l <> k) by auto. tauto.
        -- intros k u. unfold at_read. cbn [tasks]. pose proof (si_r _ _ S k u) as Hh. unfold at_read in Hh. destruct (Nat.eqb_spec u t) as [->|Hu]; cbn [waiting].
           ++ split; [|intros [K _]; discriminate]. intros K. exfalso. destruct (lockname_dec k l) as [->|Hk].
              ** rewrite C2, del_in in K. tauto.
              ** apply Hh in K. destruct K as [_ (p' & K)]. rewrite Ep in K. congruence.
           ++ destruct (lockname_dec k l) as [->|Hk]; [rewrite C2, del_in|]; tauto.
        -- intros k u. unfold at_write. cbn [tasks]. pose proof (si_w _ _ S k u) as Hh. unfold at_write in Hh. destruct (Nat.eqb_spec u t) as [->|Hu]; cbn [waiting].
           ++ split; [|intros [K _]; discriminate]. intros K. exfalso.
              assert (K' : In t (want_write (locks s k))) by (destruct (lockname_dec k l) as [->|Hk]; [rewrite Eq in K; exact K|exact K]).
              apply Hh in K'. destruct K' as [_ (p' & K')]. rewrite Ep in K'. congruence.
           ++ destruct (lockname_dec k l) as [->|Hk]; [rewrite Eq|]; tauto.
        -- intros u. unfold grab, upd. destruct (Nat.eqb_spec u t) as [->|Hu]; cbn [prog]; [exact O2|apply (si_ord _ _ S)].
      * left. upds. rewrite Nat.eqb_refl. cbn. lia.
    + assert (Hout : ~ In t (readers (locks s l))).
      { intros K. pose proof (proj1 (si_held _ _ S l t) (or_introl K)) as K2. specialize (O1 l K2). lia. }
      rewrite C1. rewrite (proj2 (has_out _ _) Hout). eexists. exists held. split; [reflexivity|]. split.
      * constructor; upds.
        -- intros k. destruct (lockname_dec k l); [exact I'|apply (si_inv _ _ S)].
        -- intros k. destruct (lockname_dec k l); [exact Wp'|apply (si_wp _ _ S)].
        -- intros k u. destruct (lockname_dec k l) as [->|Hk]; [rewrite C1, Ew|]; apply (si_held _ _ S).
        -- intros k u. unfold at_read. cbn [tasks]. pose proof (si_r _ _ S k u) as Hh. unfold at_read in Hh. destruct (Nat.eqb_spec u t) as [->|Hu]; cbn [waiting prog].
           ++ destruct (lockname_dec k l) as [->|Hk].
              ** rewrite C2. cbn [In]. split; [intros _; split; eauto|auto].
              ** rewrite Hh. split; [|intros [_ (p' & K)]; congruence]. intros [_ (p' & K)]. rewrite Ep in K. congruence.
           ++ destruct (lockname_dec k l) as [->|Hk]; [rewrite C2; cbn [In]; rewrite del_in|]; [|tauto]. assert (t <> u) by auto. tauto.
        -- intros k u. unfold at_write. cbn [tasks]. pose proof (si_w _ _ S k u) as Hh. unfold at_write in Hh.
           assert (K0 : In u (want_write (if lockname_dec k l then w' else locks s k)) <-> In u (want_write (locks s k))).
           { destruct (lockname_dec k l) as [->|Hk]; [rewrite Eq|]; tauto. }
           rewrite K0, Hh. destruct (Nat.eqb_spec u t) as [->|Hu]; cbn [waiting prog]; [|tauto]. rewrite Ep. split; intros [_ (p' & K)]; discriminate.
        -- intros u. destruct (Nat.eqb_spec u t) as [->|Hu]; cbn [prog]; [|apply (si_ord _ _ S)]. cbn [ordered]. auto.
      * right. exists l, p. upds. rewrite Nat.eqb_refl. cbn. split; [reflexivity|]. left. split; [reflexivity|].
        destruct C3 as [C3|C3]; [left|right; exact C3]. rewrite (si_wp _ _ S) in C3. intros K. rewrite K in C3. cbn in C3. lia.
  - (* write *)
    assert (Hb : waiting (tasks s t) = false -> busy t (locks s l) = false) by (intros Hw; apply (not_held_not_busy s held t l p S Hw); auto).
    assert (Ha : waiting (tasks s t) = true -> In t (want_write (locks s l)) /\ ~ In t (want_read (locks s l))).
    { intros Hw. split; [apply (si_w _ _ S); split; [exact Hw|eauto]|]. intros K. apply (si_r _ _ S) in K. destruct K as [_ (p' & K)]. rewrite Ep in K. discriminate. }
    destruct (write_step (waiting (tasks s t)) t (locks s l) (si_inv _ _ S l) Ha Hb) as (w' & Es & Ew & Eq & C).
    change (if waiting (tasks s t) then Poll t else Write t) with (write_event (waiting (tasks s t)) t). rewrite Es.
    pose proof (next_inv _ _ _ (si_inv _ _ S l) Es) as I'.
    pose proof (pending_step _ _ _ Es (si_inv _ _ S l) (proj2 (no_event_cancel _ _)) (si_wp _ _ S l)) as Wp'.
    pose proof (si_ord _ _ S t) as O. rewrite Ep in O. cbn [ordered] in O. destruct O as [O1 O2].
    destruct C as [[C1 C2]|(C1 & C2 & C3)].
    + rewrite C1. cbn [has existsb]. rewrite Nat.eqb_refl. cbn [orb]. eexists. exists (grab held t l). split; [reflexivity|]. split.
      * constructor; upds.
        -- intros k. destruct (lockname_dec k l); [exact I'|apply (si_inv _ _ S)].
        -- intros k. destruct (lockname_dec k l); [exact Wp'|apply (si_wp _ _ S)].
        -- intros k u. unfold grab, upd. pose proof (si_held _ _ S k u) as Hh. destruct (lockname_dec k l) as [->|Hk].
           ++ rewrite C1, Ew. cbn [In]. destruct (Nat.eqb_spec u t) as [->|Hu]; cbn [In]; [tauto|]. assert (t <> u) by auto. tauto.
           ++ destruct (Nat.eqb_spec u t) as [->|Hu]; cbn [In]; [|tauto]. assert (l <> k) by auto. tauto.
        -- intros k u. unfold at_read. cbn [tasks]. pose proof (si_r _ _ S k u) as Hh. unfold at_read in Hh. destruct (Nat.eqb_spec u t) as [->|Hu]; cbn [waiting].
           ++ split; [|intros [K _]; discriminate]. intros K. exfalso.
              assert (K' : In t (want_read (locks s k))) by (destruct (lockname_dec k l) as [->|Hk]; [rewrite Eq in K; exact K|exact K]).
              apply Hh in K'. destruct K' as [_ (p' & K')]. rewrite Ep in K'. congruence.
           ++ destruct (lockname_dec k l) as [->|Hk]; [rewrite Eq|]; tauto.
        -- intros k u. unfold at_write. cbn [tasks]. pose proof (si_w _ _ S k u) as Hh. unfold at_write in Hh. destruct (Nat.eqb_spec u t) as [->|Hu]; cbn [waiting].
           ++ split; [|intros [K _]; discriminate]. intros K. exfalso. destruct (lockname_dec k l) as [->|Hk].
              ** rewrite C2, del_in in K. tauto.
              ** apply Hh in K. destruct K as [_ (p' & K)]. rewrite Ep in K. congruence.
           ++ destruct (lockname_dec k l) as [->|Hk]; [rewrite C2, del_in|]; tauto.
        -- intros u. unfold grab, upd. destruct (Nat.eqb_spec u t) as [->|Hu]; cbn [prog]; [exact O2|apply (si_ord _ _ S)].
      * left. upds. rewrite Nat.eqb_refl. cbn. lia.
    + assert (Hout : ~ In t (writers (locks s l))).
      { intros K. pose proof (proj1 (si_held _ _ S l t) (or_intror K)) as K2. specialize (O1 l K2). lia. }
      rewrite C1. rewrite (proj2 (has_out _ _) Hout). eexists. exists held. split; [reflexivity|]. split.
      * constructor; upds.
        -- intros k. destruct (lockname_dec k l); [exact I'|apply (si_inv _ _ S)].
        -- intros k. destruct (lockname_dec k l); [exact Wp'|apply (si_wp _ _ S)].
        -- intros k u. destruct (lockname_dec k l) as [->|Hk]; [rewrite C1, Ew|]; apply (si_held _ _ S).
        -- intros k u. unfold at_read. cbn [tasks]. pose proof (si_r _ _ S k u) as Hh. unfold at_read in Hh.
           assert (K0 : In u (want_read (if lockname_dec k l then w' else locks s k)) <-> In u (want_read (locks s k))).
           { destruct (lockname_dec k l) as [->|Hk]; [rewrite Eq|]; tauto. }
           rewrite K0, Hh. destruct (Nat.eqb_spec u t) as [->|Hu]; cbn [waiting prog]; [|tauto]. rewrite Ep. split; intros [_ (p' & K)]; discriminate.
        -- intros k u. unfold at_write. cbn [tasks]. pose proof (si_w _ _ S k u) as Hh. unfold at_write in Hh. destruct (Nat.eqb_spec u t) as [->|Hu]; cbn [waiting prog].
           ++ destruct (lockname_dec k l) as [->|Hk].
              ** rewrite C2. cbn [In]. split; [intros _; split; eauto|auto].
              ** rewrite Hh. split; [|intros [_ (p' & K)]; congruence]. intros [_ (p' & K)]. rewrite Ep in K. congruence.
           ++ destruct (lockname_dec k l) as [->|Hk]; [rewrite C2; cbn [In]; rewrite del_in|]; [|tauto]. assert (t <> u) by auto. tauto.
        -- intros u. destruct (Nat.eqb_spec u t) as [->|Hu]; cbn [prog]; [|apply (si_ord _ _ S)]. cbn [ordered]. auto.
      * right. exists l, p. upds. rewrite Nat.eqb_refl. cbn. split; [reflexivity|]. right. split; [reflexivity|exact C3].
  - (* release *)
    pose proof (si_ord _ _ S t) as O. rewrite Ep in O. cbn [ordered] in O. destruct O as [O1 O2].
    destruct (release_step t (locks s l) (si_inv _ _ S l) (proj2 (si_held _ _ S l t) O1)) as (w' & Es & Er & Ew & Eh). rewrite Es.
    pose proof (next_inv _ _ _ (si_inv _ _ S l) Es) as I'.
    assert (Wp' : writer_pending (lk w') = length (want_write w')).
    { apply (pending_step _ _ _ Es (si_inv _ _ S l)); [discriminate|apply (si_wp _ _ S)]. }
    eexists. exists (upd held t (remove lockname_dec l (held t))). split; [reflexivity|]. split.
    * constructor; upds.
      -- intros k. destruct (lockname_dec k l); [exact I'|apply (si_inv _ _ S)].
      -- intros k. destruct (lockname_dec k l); [exact Wp'|apply (si_wp _ _ S)].
      -- intros k u. pose proof (si_held _ _ S k u) as Hh. destruct (lockname_dec k l) as [->|Hk].
         ++ rewrite Eh, Hh. destruct (Nat.eqb_spec u t) as [->|Hu]; [|tauto]. split; [tauto|]. intros K. exfalso. exact (remove_In lockname_dec (held t) l K).
         ++ rewrite Hh. destruct (Nat.eqb_spec u t) as [->|Hu]; [|tauto]. split; [intros K; apply in_in_remove; auto|intros K; apply in_remove in K; tauto].
      -- intros k u. unfold at_read. cbn [tasks]. pose proof (si_r _ _ S k u) as Hh. unfold at_read in Hh.
         assert (K0 : In u (want_read (if lockname_dec k l then w' else locks s k)) <-> In u (want_read (locks s k))).
         { destruct (lockname_dec k l) as [->|Hk]; [rewrite Er|]; tauto. }
         rewrite K0, Hh. destruct (Nat.eqb_spec u t) as [->|Hu]; cbn [waiting prog]; [|tauto]. rewrite Ep. split; [intros [_ (p' & K)]; discriminate|intros [K _]; discriminate].
      -- intros k u. unfold at_write. cbn [tasks]. pose proof (si_w _ _ S k u) as Hh. unfold at_write in Hh.
         assert (K0 : In u (want_write (if lockname_dec k l then w' else locks s k)) <-> In u (want_write (locks s k))).
         { destruct (lockname_dec k l) as [->|Hk]; [rewrite Ew|]; tauto. }
         rewrite K0, Hh. destruct (Nat.eqb_spec u t) as [->|Hu]; cbn [waiting prog]; [|tauto]. rewrite Ep. split; [intros [_ (p' & K)]; discriminate|intros [K _]; discriminate].
      -- intros u. destruct (Nat.eqb_spec u t) as [->|Hu]; cbn [prog]; [exact O2|apply (si_ord _ _ S)].
    * left. upds. rewrite Nat.eqb_refl. cbn. lia.
Qed.

Lemma initial_inv progs : (forall t, ordered rank [] (progs t)) -> SInv (initial progs) (fun _ => []).
Proof.
  intros H. constructor; cbn.
  - intros l. exact inv_start.
  - reflexivity.
  - intros l t. tauto.
  - intros l t. unfold at_read. cbn. split; [intros []|intros [K _]; discriminate].
  - intros l t. unfold at_write. cbn. split; [intros []|intros [K _]; discriminate].
  - exact H.
Qed.
Lemma reaches_inv ts : forall s s' held, SInv s held -> reaches ts s s' -> exists held', SInv s' held'.
Proof.
  induction ts as [|t ts IH]; intros s s' held S R; inversion R as [|t0 ts0 s0 s1 s2 Ht Hr]; subst; [eauto|].
  assert (Hne : prog (tasks s t) <> []). { intros K. unfold tick in Ht. rewrite K in Ht. discriminate. }
  destruct (tick_inv s held t S Hne) as (s1' & held' & E & S' & _). rewrite E in Ht. injection Ht as <-. eapply IH; eauto.
Qed.

Definition top : nat := rank AT + rank FL + rank SM.
Lemma rank_top l : rank l <= top. Proof. unfold top. destruct l; lia. Qed.

Lemma acq_progress s held : SInv s held -> forall d t l p, d = top - rank l -> (prog (tasks s t) = AcqR l :: p \/ prog (tasks s t) = AcqW l :: p) ->
  exists u, advances u s.
Proof.
  intros S. induction d as [d IH] using lt_wf_ind. intros t l p Hd Hp.
  assert (Hne : prog (tasks s t) <> []) by (destruct Hp as [K|K]; rewrite K; discriminate).
  (* a holder of [l] can run, or waits for a lock of higher rank *)
  assert (Hold : forall u, In l (held u) -> exists v, advances v s).
  { intros u Hu. pose proof (si_ord _ _ S u) as O. destruct (prog (tasks s u)) as [|[k|k|k] q] eqn:Eq; cbn [ordered] in O.
    - rewrite O in Hu. destruct Hu.
    - destruct O as [O _]. specialize (O l Hu). apply (IH (top - rank k)) with (t := u) (l := k) (p := q); [|reflexivity|auto]. pose proof (rank_top k). lia.
    - destruct O as [O _]. specialize (O l Hu). apply (IH (top - rank k)) with (t := u) (l := k) (p := q); [|reflexivity|auto]. pose proof (rank_top k). lia.
    - exists u. destruct (tick_inv s held u S) as (s' & h' & E & _ & [K|(k' & q' & _ & [[K _]|[K _]])]); [rewrite Eq; discriminate| | |].
      + exists s'. auto.
      + rewrite Eq in K. discriminate.
      + rewrite Eq in K. discriminate. }
  assert (Hany : readers (locks s l) <> [] \/ writers (locks s l) <> [] -> exists v, advances v s).
  { intros [K|K].
    - destruct (readers (locks s l)) as [|u r] eqn:E; [congruence|]. apply (Hold u). apply (si_held _ _ S). left. rewrite E. left. reflexivity.
    - destruct (writers (locks s l)) as [|u r] eqn:E; [congruence|]. apply (Hold u). apply (si_held _ _ S). right. rewrite E. left. reflexivity. }
  destruct (tick_inv s held t S Hne) as (s' & h' & E & _ & [K|(k & q & _ & [[K1 K2]|[K1 K2]])]).
  - exists t, s'. auto.
  - assert (k = l) by (destruct Hp as [K|K]; rewrite K in K1; congruence). subst k. destruct K2 as [K2|K2]; [|apply Hany; auto].
    destruct (want_write (locks s l)) as [|u r] eqn:Eu; [congruence|].
    assert (Hu : at_write s u l) by (apply (si_w _ _ S); rewrite Eu; left; reflexivity). destruct Hu as [_ (pu & Eu')].
    destruct (tick_inv s held u S) as (s2 & h2 & E2 & _ & [K|(k & q2 & _ & [[K3 K4]|[K3 K4]])]); [rewrite Eu'; discriminate| | |].
    + exists u, s2. auto.
    + rewrite Eu' in K3. discriminate.
    + assert (k = l) by (rewrite Eu' in K3; congruence). subst k. apply Hany. exact K4.
  - assert (k = l) by (destruct Hp as [K|K]; rewrite K in K1; congruence). subst k. apply Hany. exact K2.
Qed.

(** if every task takes the locks in increasing order, some task can always go on *)
Theorem ordered_progress progs : (forall t, ordered rank [] (progs t)) -> forall ts s, reaches ts (initial progs) s -> forall t, unfinished t s -> exists u, advances u s.
Proof.
  intros H ts s R t Ht. destruct (reaches_inv ts _ _ _ (initial_inv progs H) R) as (held & S). unfold unfinished in Ht.
  destruct (prog (tasks s t)) as [|[l|l|l] p] eqn:Ep; [congruence| | |].
  - apply (acq_progress s held S (top - rank l) t l p eq_refl). auto.
  - apply (acq_progress s held S (top - rank l) t l p eq_refl). auto.
  - exists t. destruct (tick_inv s held t S) as (s' & h' & E & _ & [K|(k & q & _ & [[K _]|[K _]])]); [rewrite Ep; discriminate| | |].
    + exists s'. auto.
    + rewrite Ep in K. discriminate.
    + rewrite Ep in K. discriminate.
Qed.
Lemma ordered_app p q : forall held, ordered rank held p -> ordered rank [] q -> ordered rank held (p ++ q).
Proof.
  induction p as [|[l|l|l] p IH]; intros held Hp Hq; cbn [ordered app] in *; [rewrite Hp; exact Hq| | |]; destruct Hp; split; auto.
Qed.
Lemma ordered_concat ps : (forall p, In p ps -> ordered rank [] p) -> ordered rank [] (concat ps).
Proof. induction ps as [|p ps IH]; intros H; cbn [concat]; [reflexivity|]. apply ordered_app; [apply H; left; reflexivity|apply IH; intros q Hq; apply H; right; exact Hq]. Qed.
End Order.

(** * Properties C27 and C28: the reader/writer lock; C66: the FIFO mutex. *)
From Coq Require Import List Arith Lia Bool.
From Verif Require Import RwLock.
Import ListNotations.
Local Open Scope nat_scope.

Lemma has_in t l : has t l = true <-> In t l.
Proof. unfold has. rewrite existsb_exists. split; [intros (x & H & E); apply Nat.eqb_eq in E; subst; auto|intros H; exists t; rewrite Nat.eqb_refl; auto]. Qed.
Lemma has_out t l : has t l = false <-> ~ In t l.
Proof. rewrite <- has_in. destruct (has t l); split; congruence. Qed.
Lemma del_in t x l : In x (del t l) <-> In x l /\ x <> t.
Proof. unfold del. rewrite filter_In, negb_true_iff, Nat.eqb_neq. tauto. Qed.
Lemma del_out t l : ~ In t l -> del t l = l.
Proof.
  unfold del. induction l as [|a l IH]; intros H; [reflexivity|]. cbn [filter]. destruct (Nat.eqb_spec a t) as [->|Hn]; cbn [negb].
  - exfalso. apply H. left. reflexivity.
  - rewrite IH; [reflexivity|]. intros K. apply H. right. exact K.
Qed.
Lemma del_length t l : NoDup l -> In t l -> S (length (del t l)) = length l.
Proof.
  induction 1 as [|a l Hn Hd IH]; intros Hi; [destruct Hi|]. cbn [del filter]. destruct (Nat.eqb_spec a t) as [->|Hne]; cbn [negb].
  - change (filter _ l) with (del t l). rewrite del_out by exact Hn. reflexivity.
  - cbn [length]. change (filter _ l) with (del t l). rewrite IH; [reflexivity|]. destruct Hi as [E|Hi]; [contradiction|exact Hi].
Qed.
Lemma del_le t l : length (del t l) <= length l.
Proof. unfold del. induction l as [|a l IH]; cbn; [lia|]. destruct (negb (a =? t)); cbn; lia. Qed.
Lemma del_nodup t l : NoDup l -> NoDup (del t l).
Proof. apply NoDup_filter. Qed.

Lemma register_in t ws ws' wk : register t ws = (ws', wk) -> In t ws' /\ forall x, In x ws -> In x ws' \/ In x wk.
Proof.
  unfold register. destruct (existsb (Nat.eqb t) ws) eqn:E; [|destruct (slots <=? length ws)]; intros H; injection H as <- <-.
  - split; [apply has_in; exact E|auto].
  - split; [left; reflexivity|auto].
  - split; [apply in_or_app; right; left; reflexivity|]. intros x Hx. left. apply in_or_app. auto.
Qed.

(** ** The invariant *)
Record Inv (w : world) : Prop := {
  i_locked : match locked (lk w) with
             | Unlocked => readers w = [] /\ writers w = [] /\ wakers (lk w) = []
             | ReadLocked n => length (readers w) = n /\ 1 <= n /\ writers w = []
             | WriteLocked => readers w = [] /\ exists t, writers w = [t]
             end;
  i_nodup_r : NoDup (readers w);
  i_nodup_w : NoDup (want_write w);
  i_disj : forall t, In t (want_read w) -> ~ In t (readers w) /\ ~ In t (want_write w);
  i_wp : length (want_write w) <= writer_pending (lk w);
  i_wk : forall t, In t (want_write w) -> In t (wakers (lk w)) \/ In t (woken w) }.

Definition ok (o : outcome) (P : world -> Prop) : Prop := match o with Next w => P w | Panic => False | Impossible => True end.

Lemma inv_poll_read t w : Inv w -> ~ In t (readers w) -> ~ In t (want_read w) -> ~ In t (want_write w) -> ok (do_poll_read t w) Inv.
Proof.
  intros [I1 I2 I3 I4 I5 I6] Hr Hq Hw. unfold do_poll_read, poll_read. destruct (0 <? writer_pending (lk w)).
  - cbn [ok]. constructor; cbn; [exact I1|exact I2|exact I3| |exact I5|].
    + intros x [<-|Hx]; auto.
    + intros x Hx. rewrite app_nil_r. auto.
  - destruct (locked (lk w)) as [|n|] eqn:El.
    + destruct I1 as (E1 & E2 & E3). cbn [ok]. constructor; cbn; [rewrite E1; auto|constructor; auto|exact I3| |exact I5|].
      * intros x Hx. destruct (I4 x Hx) as [A B]. split; [|exact B]. intros [<-|K]; auto.
      * intros x Hx. rewrite app_nil_r. auto.
    + destruct I1 as (E1 & E2 & E3). cbn [ok]. constructor; cbn; [split; [lia|split; [lia|exact E3]]|constructor; auto|exact I3| |exact I5|].
      * intros x Hx. destruct (I4 x Hx) as [A B]. split; [|exact B]. intros [<-|K]; auto.
      * intros x Hx. rewrite app_nil_r. auto.
    + destruct (register t (wakers (lk w))) as [ws wk] eqn:Er. destruct (register_in _ _ _ _ Er) as [R1 R2].
      cbn [ok]. constructor; cbn; [exact I1|exact I2|exact I3| |exact I5|].
      * intros x [<-|Hx]; auto.
      * intros x Hx. rewrite in_app_iff. destruct (I6 x Hx) as [K|K]; [|auto]. destruct (R2 x K); auto.
Qed.

Lemma inv_poll_write t w : Inv w -> ~ In t (want_read w) -> ~ In t (want_write w) -> length (want_write w) < writer_pending (lk w) ->
  ok (do_poll_write t w) Inv.
Proof.
  intros [I1 I2 I3 I4 I5 I6] Hq Hw Hp. unfold do_poll_write, poll_write. destruct (locked (lk w)) as [|n|] eqn:El.
  - destruct I1 as (E1 & E2 & E3). destruct (writer_pending (lk w)) as [|k] eqn:Ek; [lia|]. cbn [ok]. constructor; cbn;
      [rewrite E1, E2; split; [reflexivity|eauto]|exact I2|exact I3|exact I4|lia|].
    intros x Hx. rewrite app_nil_r. auto.
  - destruct (register t (wakers (lk w))) as [ws wk] eqn:Er. destruct (register_in _ _ _ _ Er) as [R1 R2].
    cbn [ok]. constructor; cbn; [exact I1|exact I2|constructor; auto| |lia|].
    + intros x Hx. destruct (I4 x Hx) as [A B]. split; [exact A|]. intros [<-|K]; auto.
    + intros x [<-|Hx]; [auto|]. rewrite in_app_iff. destruct (I6 x Hx) as [K|K]; [|auto]. destruct (R2 x K); auto.
  - destruct (register t (wakers (lk w))) as [ws wk] eqn:Er. destruct (register_in _ _ _ _ Er) as [R1 R2].
    cbn [ok]. constructor; cbn; [exact I1|exact I2|constructor; auto| |lia|].
    + intros x Hx. destruct (I4 x Hx) as [A B]. split; [exact A|]. intros [<-|K]; auto.
    + intros x [<-|Hx]; [auto|]. rewrite in_app_iff. destruct (I6 x Hx) as [K|K]; [|auto]. destruct (R2 x K); auto.
Qed.

Lemma inv_step e w : Inv w -> ok (step e w) Inv.
Proof.
  intros I. pose proof I as [I1 I2 I3 I4 I5 I6]. destruct e as [t|t|t|t|t]; cbn [step].
  - destruct (busy t w) eqn:B; [exact Logic.I|]. unfold busy in B. rewrite !orb_false_iff, !has_out in B. destruct B as [[[B1 B2] B3] B4].
    apply inv_poll_read; auto.
  - destruct (busy t w) eqn:B; [exact Logic.I|]. unfold busy in B. rewrite !orb_false_iff, !has_out in B. destruct B as [[[B1 B2] B3] B4].
    apply inv_poll_write; cbn; auto; [|lia]. constructor; cbn; auto. lia.
  - destruct (has t (want_read w)) eqn:H1; [|destruct (has t (want_write w)) eqn:H2; [|exact Logic.I]].
    + apply has_in in H1. destruct (I4 t H1) as [A B]. apply inv_poll_read; cbn; auto.
      * constructor; cbn; [exact I1|exact I2|exact I3| |exact I5|].
        -- intros x Hx. apply del_in in Hx. apply I4. tauto.
        -- intros x Hx. rewrite del_in. destruct (I6 x Hx) as [K|K]; [auto|]. right. split; [exact K|]. intros ->. auto.
      * rewrite del_in. tauto.
    + apply has_out in H1. apply has_in in H2. apply inv_poll_write; cbn; auto.
      * constructor; cbn; [exact I1|exact I2|apply del_nodup; exact I3| | |].
        -- intros x Hx. destruct (I4 x Hx) as [A B]. split; [exact A|]. rewrite del_in. tauto.
        -- pose proof (del_le t (want_write w)). lia.
        -- intros x Hx. rewrite del_in in *. destruct Hx as [Hx Hn]. destruct (I6 x Hx); auto.
      * rewrite del_in. tauto.
      * pose proof (del_length t (want_write w) I3 H2). lia.
  - destruct (has t (want_read w) || has t (want_write w)); [|exact Logic.I]. cbn [ok]. constructor; cbn; [exact I1|exact I2|apply del_nodup; exact I3| | |].
    + intros x Hx. rewrite del_in in *. destruct (I4 x (proj1 Hx)). tauto.
    + pose proof (del_le t (want_write w)). lia.
    + intros x Hx. rewrite del_in in *. apply I6. tauto.
  - destruct (has t (readers w)) eqn:H1; [|destruct (has t (writers w)) eqn:H2; [|exact Logic.I]].
    + apply has_in in H1. pose proof (del_length t (readers w) I2 H1) as L. unfold drop_read. destruct (locked (lk w)) as [|n|] eqn:El.
      * destruct I1 as (E & _). rewrite E in H1. destruct H1.
      * destruct I1 as (E1 & E2 & E3).
        assert (Hd : forall x, In x (want_read w) -> ~ In x (del t (readers w)) /\ ~ In x (want_write w)).
        { intros x Hx. destruct (I4 x Hx). rewrite del_in. tauto. }
        assert (Hk : forall x, In x (want_write w) -> In x [] \/ In x (woken w ++ wakers (lk w))).
        { intros x Hx. rewrite in_app_iff. destruct (I6 x Hx); auto. }
        destruct (Nat.eqb_spec n 1) as [->|Hn]; cbn [ok]; constructor; cbn [lk locked readers writers want_read want_write woken writer_pending wakers];
          [|apply del_nodup; exact I2|exact I3|exact Hd|exact I5|exact Hk| |apply del_nodup; exact I2|exact I3|exact Hd|exact I5|exact Hk].
        -- destruct (del t (readers w)); [auto|cbn in L; lia].
        -- split; [lia|split; [lia|exact E3]].
      * destruct I1 as (E & _). rewrite E in H1. destruct H1.
    + apply has_in in H2. unfold drop_write. destruct (locked (lk w)) as [|n|] eqn:El.
      * destruct I1 as (_ & E & _). rewrite E in H2. destruct H2.
      * destruct I1 as (_ & _ & E). rewrite E in H2. destruct H2.
      * destruct I1 as (E1 & u & E2). rewrite E2 in H2. destruct H2 as [->|[]]. cbn [ok]. constructor; cbn; [|exact I2|exact I3|exact I4|exact I5|].
        -- rewrite E2. cbn. rewrite Nat.eqb_refl. auto.
        -- intros x Hx. right. rewrite in_app_iff. destruct (I6 x Hx); auto.
Qed.

Lemma inv_run es : forall w, Inv w -> ok (run es w) Inv.
Proof.
  induction es as [|e es IH]; intros w I; [exact I|]. cbn [run]. pose proof (inv_step e w I) as S. destruct (step e w); cbn [ok] in *; auto.
Qed.
Lemma inv_start : Inv start.
Proof. constructor; cbn; [auto|constructor|constructor|intros t []|lia|intros t []]. Qed.

(** ** C27: after any sequence of requests, polls, cancellations and releases by any tasks, a writer is alone *)
Theorem C27_mutual_exclusion : forall es w, run es start = Next w ->
  forall t, In t (writers w) -> readers w = [] /\ writers w = [t].
Proof.
  intros es w E t Ht. pose proof (inv_run es start inv_start) as I. rewrite E in I. destruct I as [I1 _ _ _ _ _].
  destruct (locked (lk w)).
  - destruct I1 as (_ & K & _). rewrite K in Ht. destruct Ht.
  - destruct I1 as (_ & _ & K). rewrite K in Ht. destruct Ht.
  - destruct I1 as (K & u & Eu). rewrite Eu in *. destruct Ht as [->|[]]. auto.
Qed.
Print Assumptions C27_mutual_exclusion.

(** no schedule reaches the panics of the guards or the subtraction of the pending counter *)
Theorem C27_never_panics : forall es, run es start <> Panic.
Proof. intros es E. pose proof (inv_run es start inv_start) as I. rewrite E in I. exact I. Qed.
Print Assumptions C27_never_panics.

(** non-vacuity: two readers together, then a writer alone *)
Example ex_C27 : exists w1 w2, run [Read 1; Write 3; Read 2; Cancel 3; Release 1; Write 4] start = Next w1 /\ writers w1 = [4] /\ readers w1 = [] /\
  run [Read 1; Read 2; Write 3] start = Next w2 /\ readers w2 = [2; 1] /\ writers w2 = [] /\ want_write w2 = [3].
Proof. do 2 eexists. split; [vm_compute; reflexivity|]. split; [reflexivity|]. split; [reflexivity|]. split; [vm_compute; reflexivity|]. auto. Qed.

(** ** C28: wake-ups *)
(** the lock is free *)
Definition free (w : world) : Prop := readers w = [] /\ writers w = [].
(** polling the task gives it the lock *)
Definition granted_by_poll (t : nat) (w : world) : Prop := exists w', step (Poll t) w = Next w' /\ (In t (readers w') \/ In t (writers w')).

(** Writers never lose a wake-up: whenever the lock is free every waiting writer has been told to run, and running it gives it the lock;
    while the lock is held, every waiting writer is registered with the lock or told to run. *)
Theorem C28_writers_are_woken_partial : forall es w, run es start = Next w -> forall t, In t (want_write w) ->
  (In t (wakers (lk w)) \/ In t (woken w)) /\ (free w -> In t (woken w) /\ granted_by_poll t w).
Proof.
  intros es w E t Ht. pose proof (inv_run es start inv_start) as I. rewrite E in I. cbn [ok] in I. pose proof (inv_step (Poll t) w I) as S.
  destruct I as [I1 I2 I3 I4 I5 I6]. split; [apply I6; exact Ht|]. intros [F1 F2].
  assert (El : locked (lk w) = Unlocked /\ wakers (lk w) = []).
  { destruct (locked (lk w)) as [|n|].
    - tauto.
    - destruct I1 as (K & K2 & _). rewrite F1 in K. cbn in K. lia.
    - destruct I1 as (_ & u & K). rewrite F2 in K. discriminate. }
  destruct El as [El Ew]. split; [destruct (I6 t Ht) as [K|K]; [rewrite Ew in K; destruct K|exact K]|].
  unfold granted_by_poll. cbn [step] in *. destruct (has t (want_read w)) eqn:H1.
  { apply has_in in H1. destruct (I4 t H1). contradiction. }
  apply has_in in Ht. rewrite Ht in *. unfold do_poll_write, poll_write in *. cbn [lk] in *. rewrite El in *.
  destruct (writer_pending (lk w)); [destruct S|]. eexists. split; [reflexivity|]. right. left. reflexivity.
Qed.
Print Assumptions C28_writers_are_woken_partial.

(** A reader is refused only while a writer holds the lock, waits for it, or has cancelled its wait. *)
Definition no_cancel (es : list event) : Prop := forall t, ~ In (Cancel t) es.
Lemma pending_step e w w' : step e w = Next w' -> Inv w -> (forall t, e <> Cancel t) -> writer_pending (lk w) = length (want_write w) ->
  writer_pending (lk w') = length (want_write w').
Proof.
  intros S I Hc Hp. destruct e as [t|t|t|t|t]; cbn [step] in S.
  - destruct (busy t w); [discriminate|]. unfold do_poll_read, poll_read in S.
    destruct (0 <? writer_pending (lk w)); [injection S as <-; exact Hp|]. destruct (locked (lk w)); [injection S as <-; exact Hp|injection S as <-; exact Hp|].
    destruct (register t (wakers (lk w))). injection S as <-. exact Hp.
  - destruct (busy t w); [discriminate|]. unfold do_poll_write, poll_write in S. cbn [lk start_write locked writer_pending wakers] in S. rewrite Nat.add_1_r in S.
    destruct (locked (lk w)); [injection S as <-; exact Hp| |]; destruct (register t (wakers (lk w))); injection S as <-; cbn; lia.
  - destruct (has t (want_read w)) eqn:H1; [|destruct (has t (want_write w)) eqn:H2; [|discriminate]].
    + unfold do_poll_read, poll_read in S. cbn [lk] in S.
      destruct (0 <? writer_pending (lk w)); [injection S as <-; exact Hp|]. destruct (locked (lk w)); [injection S as <-; exact Hp|injection S as <-; exact Hp|].
      destruct (register t (wakers (lk w))). injection S as <-. exact Hp.
    + apply has_in in H2. pose proof (del_length t _ (i_nodup_w w I) H2) as L. unfold do_poll_write, poll_write in S. cbn [lk] in S.
      destruct (locked (lk w)).
      * destruct (writer_pending (lk w)); [discriminate|]. injection S as <-. cbn. lia.
      * destruct (register t (wakers (lk w))). injection S as <-. cbn. lia.
      * destruct (register t (wakers (lk w))). injection S as <-. cbn. lia.
  - exfalso. exact (Hc t eq_refl).
  - destruct (has t (readers w)); [|destruct (has t (writers w)); [|discriminate]].
    + unfold drop_read in S. destruct (locked (lk w)) as [|n|]; [discriminate| |discriminate]. destruct (n =? 1); injection S as <-; exact Hp.
    + unfold drop_write in S. destruct (locked (lk w)) as [|n|]; [discriminate|discriminate|]. injection S as <-; exact Hp.
Qed.
Lemma pending_run es : forall w w', run es w = Next w' -> Inv w -> no_cancel es -> writer_pending (lk w) = length (want_write w) ->
  writer_pending (lk w') = length (want_write w').
Proof.
  induction es as [|e es IH]; intros w w' R I Hc Hp; cbn [run] in R; [injection R as <-; exact Hp|].
  destruct (step e w) as [w1| |] eqn:S; try discriminate. apply (IH w1 w' R).
  - pose proof (inv_step e w I) as K. rewrite S in K. exact K.
  - intros t Ht. exact (Hc t (or_intror Ht)).
  - apply (pending_step e w w1 S I); [|exact Hp]. intros t ->. exact (Hc t (or_introl eq_refl)).
Qed.

Theorem C28_readers_are_admitted_partial : forall es w, no_cancel es -> run es start = Next w -> writers w = [] -> want_write w = [] ->
  (forall t, In t (want_read w) -> granted_by_poll t w) /\
  (forall t, busy t w = false -> exists w', step (Read t) w = Next w' /\ In t (readers w')).
Proof.
  intros es w Hc R Hw Hq. pose proof (pending_run es start w R inv_start Hc eq_refl) as Hp. rewrite Hq in Hp. cbn in Hp.
  pose proof (inv_run es start inv_start) as I. rewrite R in I. destruct I as [I1 _ _ _ _ _]. split.
  - intros t Ht. apply has_in in Ht. unfold granted_by_poll. cbn [step]. rewrite Ht. unfold do_poll_read, poll_read. cbn [lk]. rewrite Hp. cbn [Nat.ltb Nat.leb].
    destruct (locked (lk w)); [eexists; split; [reflexivity|left; left; reflexivity]|eexists; split; [reflexivity|left; left; reflexivity]|].
    destruct I1 as (_ & u & K). rewrite Hw in K. discriminate.
  - intros t Ht. cbn [step]. rewrite Ht. unfold do_poll_read, poll_read. rewrite Hp. cbn [Nat.ltb Nat.leb].
    destruct (locked (lk w)); [eexists; split; [reflexivity|left; reflexivity]|eexists; split; [reflexivity|left; reflexivity]|].
    destruct I1 as (_ & u & K). rewrite Hw in K. discriminate.
Qed.
Print Assumptions C28_readers_are_admitted_partial.

(** The full property is false in two ways.  First: a reader that polls while a writer is pending is not registered anywhere, so nothing
    ever wakes it, even though the lock is free and would be granted. *)
Theorem C28_refuted_lost_wakeup : exists es w t, run es start = Next w /\ free w /\ In t (want_read w) /\ want_write w = [] /\
  wakers (lk w) = [] /\ woken w = [] /\ granted_by_poll t w.
Proof.
  exists [Read 1; Write 2; Read 3; Release 1; Poll 2; Release 2].
  eexists. exists 3. split; [vm_compute; reflexivity|]. split; [split; reflexivity|]. split; [left; reflexivity|]. split; [reflexivity|].
  split; [reflexivity|]. split; [reflexivity|]. eexists. split; [vm_compute; reflexivity|]. left. left. reflexivity.
Qed.
Print Assumptions C28_refuted_lost_wakeup.

(** Second: dropping a pending write() leaves the pending counter raised, after which no read is ever granted again, whatever happens. *)
Definition stuck (w : world) : Prop := readers w = [] /\ length (want_write w) < writer_pending (lk w).
Lemma stuck_step e w w' : Inv w -> stuck w -> step e w = Next w' -> stuck w'.
Proof.
  intros I [Hr Hp] S. destruct e as [t|t|t|t|t]; cbn [step] in S.
  - destruct (busy t w); [discriminate|]. unfold do_poll_read, poll_read in S. destruct (Nat.ltb_spec 0 (writer_pending (lk w))); [|lia].
    injection S as <-. split; cbn; auto.
  - destruct (busy t w); [discriminate|]. unfold do_poll_write, poll_write in S. cbn [lk start_write locked writer_pending wakers] in S. rewrite Nat.add_1_r in S.
    destruct (locked (lk w)); [injection S as <-; split; cbn; auto| |]; destruct (register t (wakers (lk w))); injection S as <-; split; cbn; auto; lia.
  - destruct (has t (want_read w)) eqn:H1; [|destruct (has t (want_write w)) eqn:H2; [|discriminate]].
    + unfold do_poll_read, poll_read in S. cbn [lk] in S. destruct (Nat.ltb_spec 0 (writer_pending (lk w))); [|lia]. injection S as <-. split; cbn; auto.
    + apply has_in in H2. pose proof (del_length t _ (i_nodup_w w I) H2) as L. unfold do_poll_write, poll_write in S. cbn [lk] in S.
      destruct (locked (lk w)).
      * destruct (writer_pending (lk w)); [discriminate|]. injection S as <-. split; cbn; auto. lia.
      * destruct (register t (wakers (lk w))). injection S as <-. split; cbn; auto. lia.
      * destruct (register t (wakers (lk w))). injection S as <-. split; cbn; auto. lia.
  - destruct (has t (want_read w) || has t (want_write w)); [|discriminate]. injection S as <-. split; cbn; auto. pose proof (del_le t (want_write w)). lia.
  - rewrite Hr in S. cbn [has existsb] in S. destruct (has t (writers w)); [|discriminate].
    unfold drop_write in S. destruct (locked (lk w)) as [|n|]; [discriminate|discriminate|]. injection S as <-. split; cbn; auto.
Qed.
Theorem C28_refuted_cancelled_write : exists es, exists w, run es start = Next w /\ free w /\ want_write w = [] /\
  forall es2 w2, run es2 w = Next w2 -> readers w2 = [].
Proof.
  exists [Write 1; Write 2; Cancel 2; Release 1]. eexists. split; [vm_compute; reflexivity|]. split; [split; reflexivity|]. split; [reflexivity|].
  match goal with |- context [run _ ?w0 = _] => set (w := w0) end.
  assert (I : Inv w). { pose proof (inv_run [Write 1; Write 2; Cancel 2; Release 1] start inv_start) as K. exact K. }
  assert (St : stuck w) by (split; [reflexivity|cbn; lia]). clearbody w. intros es2. revert w I St.
  induction es2 as [|e es2 IH]; intros w I St w2 R; cbn [run] in R; [injection R as <-; exact (proj1 St)|].
  destruct (step e w) as [w1| |] eqn:S; try discriminate. apply (IH w1) in R; auto.
  - pose proof (inv_step e w I) as K. rewrite S in K. exact K.
  - exact (stuck_step e w w1 I St S).
Qed.
Print Assumptions C28_refuted_cancelled_write.

(** ** C66: the FIFO mutex *)
Record FInv (w : fworld) : Prop := {
  fi_l : if fm_locked (fm w) then exists t, fholders w = [t] else fholders w = [] }.
Lemma finv_poll cap t w : FInv w -> FInv (do_fpoll cap t w).
Proof.
  intros [F]. unfold do_fpoll, fm_poll. destruct (fm_locked (fm w)); constructor; cbn; auto. rewrite F. eauto.
Qed.
Lemma finv_step cap e w w' : FInv w -> fstep cap e w = Some w' -> FInv w'.
Proof.
  intros F S. destruct e as [t|t|t|t]; cbn [fstep] in S.
  - destruct (has t (fholders w) || has t (fwaiting w)); [discriminate|]. injection S as <-. apply finv_poll. exact F.
  - destruct (has t (fwaiting w)); [|discriminate]. injection S as <-. apply finv_poll. destruct F as [F]. constructor. exact F.
  - destruct (has t (fwaiting w)); [|discriminate]. injection S as <-. destruct F as [F]. constructor. exact F.
  - destruct (has t (fholders w)) eqn:H; [|discriminate]. apply has_in in H. destruct F as [F]. unfold fm_drop in S.
    destruct (fm_locked (fm w)); [|rewrite F in H; destruct H]. destruct F as (u & F). rewrite F in *. destruct H as [->|[]].
    destruct (fm_queue (fm w)); injection S as <-; constructor; cbn; rewrite Nat.eqb_refl; reflexivity.
Qed.
Theorem C66_mutex_exclusion_partial : forall cap es w, frun cap es fstart = Some w -> length (fholders w) <= 1.
Proof.
  intros cap es. assert (G : forall w0 w, FInv w0 -> frun cap es w0 = Some w -> FInv w).
  { induction es as [|e es IH]; intros w0 w F R; cbn [frun] in R; [injection R as <-; exact F|].
    destruct (fstep cap e w0) as [w1|] eqn:S; [|discriminate]. apply (IH w1); [exact (finv_step cap e w0 w1 F S)|exact R]. }
  intros w R. destruct (G fstart w) as [F]; [constructor; reflexivity|exact R|]. destruct (fm_locked (fm w)); [destruct F as (u & ->)|rewrite F]; cbn; lia.
Qed.
Print Assumptions C66_mutex_exclusion_partial.

(** False in full: the woken waiter may have been cancelled, and then nobody else is woken although the mutex is free. *)
Theorem C66_refuted_cancelled_waiter : exists es w t, frun 10 es fstart = Some w /\ fholders w = [] /\ fm_locked (fm w) = false /\
  In t (fwaiting w) /\ forall u, In u (fwoken w) -> ~ In u (fwaiting w).
Proof.
  exists [FLock 1; FLock 2; FLock 3; FCancel 2; FRelease 1]. eexists. exists 3. split; [vm_compute; reflexivity|].
  split; [reflexivity|]. split; [reflexivity|]. split; [left; reflexivity|]. intros u [<-|[]] [K|[]]. discriminate.
Qed.
Print Assumptions C66_refuted_cancelled_waiter.
(** ... and a waiter that finds the queue full is never woken, although everybody else finished and the mutex is free. *)
Theorem C66_refuted_full_queue : exists es w, frun 10 es fstart = Some w /\ fholders w = [] /\ fm_locked (fm w) = false /\
  fwaiting w = [11] /\ fm_queue (fm w) = [] /\ fwoken w = [].
Proof.
  exists (map FLock (seq 0 12) ++ [FRelease 0] ++ flat_map (fun t => [FPoll t; FRelease t]) (seq 1 10)). eexists.
  split; [vm_compute; reflexivity|]. repeat split; reflexivity.
Qed.
Print Assumptions C66_refuted_full_queue.

(** The wake-up half, proved where it does hold: nobody abandons a wait, a waiter is polled again only after it
    was woken, and no more tasks wait at once than the queue has slots.  Each condition is needed: the two
    refutations above, and the one below for a waiter polled without being woken (select and join do that). *)
Fixpoint patient (cap : nat) (es : list fevent) (w : fworld) : Prop :=
  match es with
  | [] => True
  | e :: es =>
      match e with FCancel _ => False | FPoll t => In t (fwoken w) | _ => True end /\
      match fstep cap e w with Some w' => length (fwaiting w') <= cap /\ patient cap es w' | None => True end
  end.
(** who waits and has not been told yet, the latest arrival first *)
Definition untold (w : fworld) : list nat := filter (fun t => negb (has t (fwoken w))) (fwaiting w).
Record PInv (w : fworld) : Prop := {
  pi_q : fm_queue (fm w) = rev (untold w);
  pi_nd : NoDup (fwaiting w);
  pi_in : forall t, In t (fwoken w) -> In t (fwaiting w);
  pi_free : fm_locked (fm w) = false -> fwaiting w = [] \/ fwoken w <> [] }.

Lemma untold_le w : length (untold w) <= length (fwaiting w).
Proof. unfold untold. induction (fwaiting w) as [|a l IH]; cbn [filter length]; [lia|]. destruct (negb _); cbn [length]; lia. Qed.

(** [x] registers: it waits for nothing yet and has not been told *)
Lemma pinv_poll cap x w : fm_queue (fm w) = rev (untold w) -> NoDup (fwaiting w) -> (forall t, In t (fwoken w) -> In t (fwaiting w)) ->
  ~ In x (fwaiting w) -> length (fwaiting (do_fpoll cap x w)) <= cap -> PInv (do_fpoll cap x w).
Proof.
  intros Q N I X L. unfold do_fpoll, fm_poll in *. destruct (fm_locked (fm w)).
  - cbn [fwaiting length] in L. pose proof (untold_le w) as U.
    assert (E : length (fm_queue (fm w)) <? cap = true) by (apply Nat.ltb_lt; rewrite Q, rev_length; lia).
    rewrite E. constructor; cbn [fm fm_queue fwaiting fwoken fm_locked].
    + unfold untold. cbn [fwaiting fwoken filter]. assert (H : has x (fwoken w) = false) by (apply has_out; intros K; apply X, I, K).
      rewrite H. cbn [negb rev]. rewrite Q. reflexivity.
    + constructor; assumption.
    + intros t Ht. right. apply I, Ht.
    + discriminate.
  - constructor; cbn [fm fm_queue fwaiting fwoken fm_locked]; auto. discriminate.
Qed.

Lemma untold_del x w : In x (fwoken w) ->
  filter (fun t => negb (has t (del x (fwoken w)))) (del x (fwaiting w)) = untold w.
Proof.
  intros H. unfold untold. generalize (fwaiting w) as l. induction l as [|a l IH]; [reflexivity|]. cbn [del filter]. unfold del in IH at 2.
  destruct (Nat.eqb_spec a x) as [->|Hn]; cbn [negb].
  - apply has_in in H. rewrite H. cbn [negb]. exact IH.
  - cbn [filter]. assert (E : has a (del x (fwoken w)) = has a (fwoken w)).
    { destruct (has a (fwoken w)) eqn:K.
      - apply has_in. apply del_in. split; [apply has_in; exact K|exact Hn].
      - apply has_out. rewrite del_in. apply has_out in K. tauto. }
    rewrite E. destruct (negb _); rewrite IH; reflexivity.
Qed.
Lemma filter_last (l : list nat) u wk : NoDup (l ++ [u]) -> (forall t, In t l -> has t wk = false) -> has u wk = false ->
  filter (fun t => negb (has t (wk ++ [u]))) (l ++ [u]) = l.
Proof.
  intros N H _. rewrite filter_app. cbn [filter].
  assert (U : has u (wk ++ [u]) = true) by (apply has_in, in_app_iff; right; left; reflexivity). rewrite U. cbn [negb]. rewrite app_nil_r.
  apply NoDup_remove_2 in N. rewrite app_nil_r in N. induction l as [|a l IH]; [reflexivity|]. cbn [filter].
  assert (A : has a (wk ++ [u]) = false).
  { apply has_out. rewrite in_app_iff. intros [K|[K|[]]]; [apply has_in in K; rewrite H in K; [discriminate|left; reflexivity]|]. apply N. left. symmetry. exact K. }
  rewrite A. cbn [negb]. f_equal. apply IH; [|intros t Ht; apply H; right; exact Ht]. intros K. apply N. right. exact K.
Qed.
Lemma filter_both (f g : nat -> bool) l : (forall t, g t = true -> f t = true) -> filter g (filter f l) = filter g l.
Proof.
  intros H. induction l as [|a l IH]; [reflexivity|]. cbn [filter]. destruct (f a) eqn:F; cbn [filter]; [rewrite IH; reflexivity|].
  destruct (g a) eqn:G; [rewrite (H a G) in F; discriminate|exact IH].
Qed.

Lemma pinv_step cap e w w' : PInv w -> match e with FCancel _ => False | FPoll t => In t (fwoken w) | _ => True end ->
  fstep cap e w = Some w' -> length (fwaiting w') <= cap -> PInv w'.
Proof.
  intros [Q N I F] P S L. destruct e as [t|t|t|t]; cbn [fstep] in S; [| |destruct P|].
  - destruct (has t (fholders w)); [discriminate|]. destruct (has t (fwaiting w)) eqn:W; [discriminate|]. cbn [orb] in S. injection S as <-.
    apply has_out in W. apply pinv_poll; assumption.
  - destruct (has t (fwaiting w)) eqn:W; [|discriminate]. injection S as <-. apply pinv_poll; cbn [fm fm_queue fwaiting fwoken].
    + unfold untold at 1. cbn [fwaiting fwoken]. rewrite untold_del; assumption.
    + apply NoDup_filter. exact N.
    + intros u Hu. apply del_in in Hu. apply del_in. split; [apply I; tauto|tauto].
    + rewrite del_in. tauto.
    + exact L.
  - destruct (has t (fholders w)); [|discriminate]. unfold fm_drop in S. destruct (fm_queue (fm w)) as [|u q] eqn:E.
    + injection S as <-. rewrite app_nil_r. constructor; cbn [fm fm_queue fwaiting fwoken fm_locked]; auto.
      intros _. destruct (fwaiting w) as [|a l] eqn:W; [left; reflexivity|right]. intros K.
      assert (Z : untold w = []) by (destruct (untold w) as [|b m] eqn:Z; [reflexivity|]; cbn [rev] in Q; destruct (rev m); discriminate).
      unfold untold in Z. rewrite K, W in Z. discriminate.
    + injection S as <-. assert (Z : untold w = rev q ++ [u]) by (rewrite <- (rev_involutive (untold w)), <- Q; reflexivity).
      assert (UI : In u (untold w)) by (rewrite Z, in_app_iff; right; left; reflexivity).
      assert (NT : forall x, In x (untold w) -> has x (fwoken w) = false) by (intros x Hx; unfold untold in Hx; apply filter_In in Hx; destruct Hx as [_ Hx]; destruct (has x (fwoken w)); [discriminate|reflexivity]).
      constructor; cbn [fm fm_queue fwaiting fwoken fm_locked].
      * unfold untold. cbn [fwaiting fwoken].
        assert (B : filter (fun t => negb (has t (fwoken w ++ [u]))) (untold w) = filter (fun t => negb (has t (fwoken w ++ [u]))) (fwaiting w)).
        { unfold untold. apply filter_both. intros x Hx. destruct (has x (fwoken w)) eqn:K; [|reflexivity]. apply has_in in K.
          assert (K2 : has x (fwoken w ++ [u]) = true) by (apply has_in, in_app_iff; left; exact K). rewrite K2 in Hx. discriminate. }
        rewrite <- B, Z. rewrite filter_last; [symmetry; apply rev_involutive| | |].
        -- rewrite <- Z. apply NoDup_filter. exact N.
        -- intros x Hx. apply NT. rewrite Z, in_app_iff. left. exact Hx.
        -- apply NT, UI.
      * exact N.
      * intros x Hx. apply in_app_iff in Hx. destruct Hx as [Hx|[<-|[]]]; [apply I, Hx|]. unfold untold in UI. apply filter_In in UI. tauto.
      * intros _. right. destruct (fwoken w); discriminate.
Qed.
Lemma pinv_run cap es : forall w w', PInv w -> patient cap es w -> frun cap es w = Some w' -> PInv w'.
Proof.
  induction es as [|e es IH]; intros w w' V P R; cbn [frun patient] in *; [injection R as <-; exact V|].
  destruct P as [P1 P2]. destruct (fstep cap e w) as [w1|] eqn:S; [|discriminate]. destruct P2 as [L P2].
  apply (IH w1); [exact (pinv_step cap e w w1 V P1 S L)|exact P2|exact R].
Qed.
Lemma pinv_start : PInv fstart.
Proof. constructor; cbn; auto. constructor. Qed.

(** When the mutex is free and somebody waits, a waiting task has been told to run. *)
Theorem C66_wakeup_partial : forall cap es w t, patient cap es fstart -> frun cap es fstart = Some w ->
  fholders w = [] -> In t (fwaiting w) -> exists u, In u (fwoken w) /\ In u (fwaiting w).
Proof.
  intros cap es w t P R H W. destruct (pinv_run cap es fstart w pinv_start P R) as [Q N I F].
  assert (U : fm_locked (fm w) = false).
  { assert (G : forall es w0 w, FInv w0 -> frun cap es w0 = Some w -> FInv w).
    { clear. intros es. induction es as [|e es IH]; intros w0 w F R; cbn [frun] in R; [injection R as <-; exact F|].
      destruct (fstep cap e w0) as [w1|] eqn:S; [|discriminate]. apply (IH w1); [exact (finv_step cap e w0 w1 F S)|exact R]. }
    destruct (G es fstart w) as [K]; [constructor; reflexivity|exact R|]. destruct (fm_locked (fm w)); [|reflexivity]. destruct K as (v & K). congruence. }
  destruct (F U) as [K|K]; [rewrite K in W; destruct W|]. destruct (fwoken w) as [|u l]; [congruence|]. exists u. split; [left; reflexivity|]. apply I. left. reflexivity.
Qed.
Print Assumptions C66_wakeup_partial.

(** It is handed on in order of arrival: a release tells the task that has waited longest among those not told yet. *)
Theorem C66_longest_waiting_is_told_partial : forall cap es w t w', patient cap es fstart -> frun cap es fstart = Some w ->
  fstep cap (FRelease t) w = Some w' ->
  match rev (filter (fun u => negb (has u (fwoken w))) (fwaiting w)) with
  | [] => fwoken w' = fwoken w
  | first :: _ => fwoken w' = fwoken w ++ [first]
  end /\ fwaiting w' = fwaiting w.
Proof.
  intros cap es w t w' P R S. destruct (pinv_run cap es fstart w pinv_start P R) as [Q N I F]. unfold untold in Q. rewrite <- Q.
  cbn [fstep] in S. destruct (has t (fholders w)); [|discriminate]. unfold fm_drop in S.
  destruct (fm_queue (fm w)) as [|u q]; injection S as <-; cbn [fwoken fwaiting]; [rewrite app_nil_r|]; auto.
Qed.
Print Assumptions C66_longest_waiting_is_told_partial.

Theorem C66_wakeup_instance : exists es w, patient 10 es fstart /\ frun 10 es fstart = Some w /\ fholders w = [] /\
  fwaiting w = [4; 3] /\ fwoken w = [3] /\ In (FPoll 2) es.
Proof.
  exists [FLock 1; FLock 2; FLock 3; FLock 4; FRelease 1; FPoll 2; FRelease 2]. eexists. cbn.
  split; [repeat split; auto; lia|]. repeat split; auto 10.
Qed.

(** ... and it is false if a waiter is polled without having been woken: it then stands in the queue twice, and its
    second place is called when it is gone. *)
Theorem C66_refuted_spurious_poll : exists es w, frun 10 es fstart = Some w /\ fholders w = [] /\ fm_locked (fm w) = false /\
  fwaiting w = [3] /\ fwoken w = [2] /\ (forall t, ~ In (FCancel t) es).
Proof.
  exists [FLock 1; FLock 2; FPoll 2; FLock 3; FRelease 1; FPoll 2; FRelease 2]. eexists. cbn. repeat split.
  intros t H. repeat (destruct H as [H|H]; [discriminate|]). exact H.
Qed.
Print Assumptions C66_refuted_spurious_poll.

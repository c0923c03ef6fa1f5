(** * C93: blink patterns *)
From Coq Require Import List Arith Lia Bool.
From Verif Require Import Indicator.
Import ListNotations.
Local Open Scope nat_scope.

(** ** Specification: is the light meant to be on [t] ms into a pattern? *)
Fixpoint should_be_on (pattern : list nat) (b : bool) (t : nat) : bool :=
  match pattern with
  | [] => b
  | d :: rest => if t <? d then b else should_be_on rest (negb b) (t - d)
  end.
Definition period (pattern : list nat) : nat := fold_right Nat.add 0 pattern.
(** the value commanded for time [t] by a list of calls *)
Definition commanded (ls : list lit) (t : nat) (b : bool) : Prop :=
  exists l, In l ls /\ from l <= t < until l /\ on l = b.

Lemma segment_acc pattern start en acc :
  fold_left segment pattern (start, en, acc) =
  let '(a, b, l) := fold_left segment pattern (start, en, []) in (a, b, acc ++ l).
Proof.
  revert start en acc. induction pattern as [|d p IH]; intros; cbn [fold_left].
  - rewrite app_nil_r. reflexivity.
  - cbn [segment]. destruct (d =? 0).
    + rewrite IH. reflexivity.
    + rewrite IH. rewrite (IH (start + d) (negb en) ([] ++ _)).
      destruct (fold_left segment p (start + d, negb en, [])) as [[a b] l]. rewrite app_assoc. reflexivity.
Qed.

(** Calls are adjacent: each starts where the one before ends. *)
Fixpoint adjacent (a : nat) (ls : list lit) (b : nat) : Prop :=
  match ls with [] => a = b | l :: ls => from l = a /\ from l < until l /\ adjacent (until l) ls b end.

Lemma adjacent_app a b c l1 l2 : adjacent a l1 b -> adjacent b l2 c -> adjacent a (l1 ++ l2) c.
Proof. revert a. induction l1 as [|x l IH]; cbn; intros a; [intros ->; auto|]. intros (A & B & C) D. repeat split; eauto. Qed.
Lemma adjacent_bounds a b ls l : adjacent a ls b -> In l ls -> a <= from l /\ until l <= b.
Proof.
  revert a. induction ls as [|x ls IH]; cbn; intros a; [tauto|]. intros (A & B & C) [-> | I].
  - split; [lia|]. clear - C. revert C. generalize (until l). induction ls as [|y ls IH]; cbn; intros n; [lia|].
    intros (A & B & C). specialize (IH _ C). lia.
  - specialize (IH _ C I). lia.
Qed.
Lemma adjacent_le a b ls : adjacent a ls b -> a <= b.
Proof. revert a. induction ls as [|x ls IH]; cbn; intros a; [lia|]. intros (A & B & C). specialize (IH _ C). lia. Qed.

Lemma pass_spec pattern : forall start en,
  exists b l, fold_left segment pattern (start, en, []) = (start + period pattern, b, l) /\
  adjacent start l (start + period pattern) /\
  (forall x, In x l -> forall t, from x <= t < until x -> on x = should_be_on pattern en (t - start)) /\
  (forall x, In x l -> In (until x - from x) pattern).
Proof.
  induction pattern as [|d p IH]; intros start en; cbn [fold_left period fold_right].
  - exists en, []. rewrite Nat.add_0_r. repeat split; try reflexivity; intros ? [].
  - cbn [segment]. destruct (Nat.eqb_spec d 0) as [-> |D].
    + destruct (IH start (negb en)) as (b & l & E & A & V & M). exists b, l. rewrite E. cbn [Nat.add]. fold (period p).
      split; [reflexivity|]. split; [exact A|]. split.
      * intros x I t H. cbn [should_be_on]. rewrite Nat.sub_0_r. destruct (Nat.ltb_spec (t - start) 0); [lia|]. auto.
      * intros x I. right. auto.
    + cbn [app]. rewrite segment_acc. destruct (IH (start + d) (negb en)) as (b & l & E & A & V & M). rewrite E. fold (period p).
      exists b, (Lit en start (start + d) :: l). rewrite Nat.add_assoc. split; [reflexivity|]. split.
      * cbn. repeat split; [lia|exact A].
      * split.
        -- intros x [<- | I] t H; cbn [from until on should_be_on] in *.
           ++ destruct (Nat.ltb_spec (t - start) d); [reflexivity|lia].
           ++ pose proof (adjacent_bounds _ _ _ _ A I). destruct (Nat.ltb_spec (t - start) d); [lia|].
              replace (t - start - d) with (t - (start + d)) by lia. auto.
        -- intros x [<- | I]; cbn [from until]; [left; lia|right; auto].
Qed.

Lemma run_single_spec pattern : pattern <> [] -> forall k start,
  adjacent start (run_single k pattern start) (start + k * period pattern) /\
  (forall x, In x (run_single k pattern start) -> forall t, from x <= t < until x ->
     on x = should_be_on pattern true ((t - start) mod (period pattern))) /\
  (forall x, In x (run_single k pattern start) -> In (until x - from x) pattern).
Proof.
  intros NE. induction k as [|k IH]; intros start.
  - destruct pattern as [|d p]; [contradiction|]. cbn [run_single Nat.mul]. rewrite Nat.add_0_r.
    split; [reflexivity|]. split; intros ? [].
  - assert (R : run_single (S k) pattern start = let '(start, acc) := pass pattern start in acc ++ run_single k pattern start).
    { destruct pattern; [contradiction|reflexivity]. }
    rewrite R. unfold pass. destruct (pass_spec pattern start true) as (b & l & E & A & V & M). rewrite E.
    destruct (IH (start + period pattern)) as (A2 & V2 & M2). split; [|split].
    + eapply adjacent_app; [exact A|]. replace (start + S k * period pattern) with (start + period pattern + k * period pattern) by lia. exact A2.
    + intros x I t H. apply in_app_iff in I. destruct I as [I|I].
      * pose proof (adjacent_bounds _ _ _ _ A I). rewrite Nat.mod_small by lia. auto.
      * rewrite (V2 x I t H). f_equal. pose proof (adjacent_bounds _ _ _ _ A2 I).
        replace (t - start) with (t - (start + period pattern) + 1 * period pattern) by lia.
        destruct (period pattern) as [|q]; [f_equal; lia|]. rewrite Nat.mod_add by lia. reflexivity.
    + intros x I. apply in_app_iff in I. destruct I; auto.
Qed.

Lemma adjacent_covers a b ls t : adjacent a ls b -> a <= t < b -> exists l, In l ls /\ from l <= t < until l.
Proof.
  revert a. induction ls as [|x ls IH]; cbn; intros a; [lia|]. intros (A & B & C) H.
  destruct (le_lt_dec (until x) t).
  - destruct (IH _ C ltac:(lia)) as (l' & I & G). exists l'. auto.
  - exists x. split; [auto|lia].
Qed.

(** C93.  In any number of repetitions, at every instant exactly one value is commanded, and it is the one
    the pattern prescribes; zero-length entries only flip the colour. *)
Theorem indicator_follows_pattern pattern k start t :
  pattern <> [] -> start <= t < start + k * period pattern ->
  (forall b, commanded (run_single k pattern start) t b <-> b = should_be_on pattern true ((t - start) mod (period pattern))).
Proof.
  intros NE H b. destruct (run_single_spec pattern NE k start) as (A & V & _). split.
  - intros (l & I & G & <-). apply V; assumption.
  - intros ->. destruct (adjacent_covers _ _ _ t A H) as (l & I & G). exists l. split; [exact I|]. split; [exact G|]. auto.
Qed.

(** Timer lateness does not add up: if every wake-up is at most [L] ms late and no (non-zero) segment is
    shorter than [L], every call happens within [L] ms of its schedule, after any number of segments. *)
Lemma real_times_bound L : forall ls a b now late, adjacent a ls b -> a <= now <= a + L ->
  (forall x, In x ls -> L <= until x - from x) -> (forall x, In x late -> x <= L) ->
  forall i l t, nth_error ls i = Some l -> nth_error (real_times now ls late) i = Some t -> from l <= t <= from l + L.
Proof.
  induction ls as [|x ls IH]; intros a b now late A N S LL i l t X Y; [destruct i; discriminate|].
  cbn in A. destruct A as (A1 & A2 & A3). destruct i as [|i].
  - injection X as <-. destruct late; cbn in Y; injection Y as <-; lia.
  - destruct late as [|y late]; cbn in X, Y; [destruct i; discriminate|].
    eapply IH; [exact A3| | | |exact X|exact Y].
    + pose proof (S x (or_introl eq_refl)). pose proof (LL y (or_introl eq_refl)). lia.
    + intros z I. apply S. right. exact I.
    + intros z I. apply LL. right. exact I.
Qed.

Theorem indicator_no_drift pattern k start late L :
  pattern <> [] -> (forall d, In d pattern -> d = 0 \/ L <= d) -> (forall x, In x late -> x <= L) ->
  forall i l t, nth_error (run_single k pattern start) i = Some l ->
  nth_error (real_times start (run_single k pattern start) late) i = Some t ->
  from l <= t <= from l + L.
Proof.
  intros NE D LL. destruct (run_single_spec pattern NE k start) as (A & _ & M).
  apply (real_times_bound L _ _ _ _ _ A); [lia| |exact LL].
  intros x I. destruct (D _ (M x I)) as [Z|Z]; [|exact Z]. exfalso.
  clear - A I Z. revert A. generalize start at 1. induction (run_single k pattern start) as [|y ls IH]; [destruct I|].
  cbn. intros a (A1 & A2 & A3). destruct I as [-> |I]; [lia|]. eapply IH; eauto.
Qed.

(** A pattern of zeros only never commands anything, and so never waits: the loop does not end. *)
Theorem indicator_zero_pattern_spins pattern k start :
  (forall d, In d pattern -> d = 0) -> run_single k pattern start = [].
Proof.
  intros Z. destruct pattern as [|d0 p0] eqn:P; [destruct k; reflexivity|]. rewrite <- P in *.
  assert (NE : pattern <> []) by (rewrite P; discriminate). clear P d0 p0.
  destruct (run_single_spec pattern NE k start) as (A & _ & M).
  destruct (run_single k pattern start) as [|x l]; [reflexivity|]. exfalso.
  cbn in A. destruct A as (_ & A & _). specialize (Z _ (M x (or_introl eq_refl))). lia.
Qed.

Example indicator_example : run_single 2 [0; 333; 333; 333] 1000 =
  [Lit false 1000 1333; Lit true 1333 1666; Lit false 1666 1999; Lit false 1999 2332; Lit true 2332 2665; Lit false 2665 2998].
Proof. reflexivity. Qed.
Example indicator_example_times :
  real_times 100 (run_single 1 [50; 200] 100) [7; 50] = [100; 157] /\ should_be_on [50; 200] true 49 = true.
Proof. split; reflexivity. Qed.

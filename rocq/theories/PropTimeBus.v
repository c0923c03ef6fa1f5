(** * Property C137: the time on the CAN bus. *)
From Coq Require Import List Bool QArith Qround ZArith Lqa Lia.
From Verif Require Import Base Numerics Clock PropClock Can PropCan PubSub StatusBus PropStatusBus TimeBus.
Import ListNotations.
Local Open Scope Q_scope.
Local Open Scope list_scope.

(** ** Specification *)
Definition clock_events (l : list tevent) : list uevent := flat_map (fun e => match e with TClock c => [c] | _ => [] end) l.
(** the updates of a clock: announced time and moment of the pulse *)
Fixpoint announcements (s : uclock) (es : list uevent) : list (Q * Q) :=
  match es with
  | [] => []
  | e :: es => (match snd (ustep s e), event_time e with Published v _, Some t => [(v, t)] | _, _ => [] end) ++ announcements (fst (ustep s e)) es
  end.
Definition announced (l : list tevent) : list (Q * Q) := announcements uclock_new (clock_events l).
(** some elements of a list, in order *)
Inductive sublist {X} : list X -> list X -> Prop :=
| sub_nil : sublist [] []
| sub_skip x a b : sublist a b -> sublist a (x :: b)
| sub_keep x a b : sublist a b -> sublist (x :: a) (x :: b).
Definition newest {X} (l : list X) : option X := match rev l with [] => None | x :: _ => Some x end.
(** the task is at most [A] late to take an update and at most [W] in sending it *)
Definition ttime (now : Q) (e : tevent) : Q := match e with TClock c => clock_time now c | TTake t | TSent _ t => t end.
Definition in_time (A W : Q) (n : tbus) (t : Q) : Prop :=
  match t_task n with THold _ k => t <= k + W | TIdle (Some r) => t <= r + A | TIdle None => True end.
Definition prompt (A W : Q) (l : list tevent) : Prop :=
  forall l1 e l2 n1, l = l1 ++ e :: l2 -> truns tbus_new l1 = Some n1 -> in_time A W n1 (ttime (t_now n1) e).
Definition none_lost (l : list tevent) : Prop := forall t, ~ In (TSent false t) l.

(** ** Proofs *)
Lemma truns_snoc : forall l n e n', truns n (l ++ [e]) = Some n' <-> exists n1, truns n l = Some n1 /\ tstep n1 e = Some n'.
Proof.
  induction l as [|x l IH]; intros n e n'; cbn [app truns].
  - split.
    + destruct (tstep n e) as [n1|] eqn:E; [|discriminate]. intro H. exists n. split; [reflexivity|]. now injection H as <-.
    + intros (n1 & H & H'). injection H as <-. now rewrite H'.
  - destruct (tstep n x) as [n1|]; [apply IH|]. split; [discriminate|]. intros (n2 & H & _). discriminate.
Qed.
Lemma clock_snoc l e : clock_events (l ++ [e]) = clock_events l ++ match e with TClock c => [c] | _ => [] end.
Proof. unfold clock_events. rewrite flat_map_app. cbn. now rewrite app_nil_r. Qed.
Lemma announcements_app : forall a b s, announcements s (a ++ b) = announcements s a ++ announcements (fst (urun s a)) b.
Proof.
  induction a as [|e a IH]; intros b s; cbn [app announcements urun]; [reflexivity|]. rewrite IH, app_assoc. f_equal. f_equal.
  destruct (ustep s e) as [s1 o]. cbn [fst]. now destruct (urun s1 a).
Qed.
Lemma announced_snoc l e : announced (l ++ [e]) = announced l ++
  match e with
  | TClock c => match snd (ustep (fst (urun uclock_new (clock_events l))) c), event_time c with Published v _, Some t => [(v, t)] | _, _ => [] end
  | _ => []
  end.
Proof.
  unfold announced. rewrite clock_snoc, announcements_app. f_equal. destruct e as [c|t|ok t]; [|reflexivity|reflexivity].
  cbn [announcements]. now rewrite app_nil_r.
Qed.

Lemma sub_all {X} (a : list X) : sublist a a.
Proof. induction a; [constructor|now apply sub_keep]. Qed.
Lemma sub_weaken {X} (a b c : list X) : sublist a b -> sublist a (b ++ c).
Proof.
  induction 1; cbn [app]; [|now apply sub_skip|now apply sub_keep]. induction c; [constructor|now apply sub_skip].
Qed.
Lemma sub_add {X} (a b : list X) x : sublist a b -> sublist (a ++ [x]) (b ++ [x]).
Proof. induction 1; cbn [app]; [apply sub_all|now apply sub_skip|now apply sub_keep]. Qed.
Lemma sub_out {X} : forall (b a1 a2 : list X) x, sublist (a1 ++ x :: a2) b -> sublist (a1 ++ a2) b.
Proof.
  induction b as [|y b IH]; intros a1 a2 x H.
  - inversion H. destruct a1; discriminate.
  - destruct a1 as [|z a1]; cbn [app] in *.
    + inversion H; subst; [apply sub_skip; exact (IH [] a2 x H2)|apply sub_skip; assumption].
    + inversion H; subst; [apply sub_skip; exact (IH (z :: a1) a2 x H2)|apply sub_keep; exact (IH a1 a2 x H1)].
Qed.
Lemma sub_in {X} (a b : list X) x : sublist a b -> In x a -> In x b.
Proof. induction 1; cbn; intuition. Qed.

Lemma newest_snoc {X} (l : list X) x : newest (l ++ [x]) = Some x.
Proof. unfold newest. now rewrite rev_app_distr. Qed.

Definition held (n : tbus) : list update := match t_task n with THold u _ => [u] | TIdle _ => [] end.
Definition on_the_way (n : tbus) : list update := map fst (t_frames n) ++ held n ++ t_queue n.

Definition plain (l : list tevent) (n : tbus) : Prop :=
  t_clock n = fst (urun uclock_new (clock_events l)) /\ (length (t_queue n) <= 1)%nat /\
  sublist (on_the_way n) (announced l) /\
  (none_lost l -> newest (on_the_way n) = newest (announced l)) /\
  (forall c t, In c (clock_events l) -> event_time c = Some t -> t <= t_now n) /\
  0 <= t_now n /\ in_order (clock_events l) /\
  (forall v p, In (v, p) (announced l) -> p <= t_now n) /\
  (forall u t, In (u, t) (t_frames n) -> snd u <= t <= t_now n) /\
  (forall u, In u (held n ++ t_queue n) -> snd u <= t_now n).

Lemma some_eq {X} (a b : X) : Some a = Some b -> a = b. Proof. now injection 1. Qed.
Lemma Qleb a b : Qle_bool a b = true -> a <= b. Proof. apply Qle_bool_iff. Qed.
Lemma ustep_published s c v ws : snd (ustep s c) = Published v ws -> exists t, c = Pulse t.
Proof.
  destruct c as [t ts|t|w]; cbn [ustep]; [discriminate| |].
  - intros _. now exists t.
  - destruct (u_offset s); [discriminate|]. destruct (mw_register w (u_wakers s)) as [ws' ok]. destruct ok; discriminate.
Qed.
Lemma in_order_snoc es c : in_order es -> (forall t u x, event_time c = Some u -> In x es -> event_time x = Some t -> t <= u) -> in_order (es ++ [c]).
Proof.
  intros H K a e b f d t u E Te Tf. destruct d as [|y d] using rev_ind.
  - assert (E1 : es ++ [c] = (a ++ e :: b) ++ [f]) by (rewrite E, <- app_assoc; reflexivity).
    apply app_inj_tail in E1. destruct E1 as [-> ->]. eapply K; [exact Tf| |exact Te]. apply in_or_app. right. left. reflexivity.
  - clear IHd. assert (E1 : es ++ [c] = (a ++ e :: b ++ f :: d) ++ [y]).
    { rewrite E. rewrite <- !app_assoc. cbn. rewrite <- app_assoc. reflexivity. }
    apply app_inj_tail in E1. destruct E1 as [-> ->]. exact (H a e b f d t u eq_refl Te Tf).
Qed.
Lemma none_lost_prefix a b : none_lost (a ++ b) -> none_lost a.
Proof. intros H t I. exact (H t (in_or_app _ _ _ (or_introl I))). Qed.

Lemma plain_holds : forall l n, truns tbus_new l = Some n -> plain l n.
Proof.
  induction l as [|e l IH] using rev_ind; intros n H.
  - injection H as <-. unfold plain, tbus_new, on_the_way, held. cbn [t_clock t_queue t_task t_frames t_now map app length].
    split; [reflexivity|]. split; [lia|]. split; [constructor|]. split; [reflexivity|]. split; [intros c t []|]. split; [lra|].
    split; [intros a e b f c t u E; destruct a; discriminate|]. split; [intros v p []|]. split; [intros u t []|intros u []].
  - apply truns_snoc in H. destruct H as (n1 & R & S). specialize (IH n1 R). destruct n1 as [now clk queue task frames].
    destruct IH as (C & Q1 & SB & NW & TM & POS & ORD & AN & FR & HQ). unfold on_the_way, held in *.
    cbn [t_now t_clock t_queue t_task t_frames] in *. unfold plain, on_the_way, held. destruct e as [c|t|ok t]; cbn [tstep] in S.
    + rewrite announced_snoc, clock_snoc, <- C. destruct (Qle_bool now (clock_time now c)) eqn:LE; [|discriminate]. apply Qleb in LE.
      destruct (ustep clk c) as [clk' o] eqn:U.
      assert (TMc : forall x t, In x (clock_events l ++ [c]) -> event_time x = Some t -> t <= clock_time now c).
      { intros x t I T. apply in_app_or in I. destruct I as [I|[<-|[]]]; [specialize (TM x t I T); lra|]. destruct c; cbn in T |- *; try discriminate; injection T as <-; lra. }
      assert (ORDc : in_order (clock_events l ++ [c])).
      { apply in_order_snoc; [exact ORD|]. intros t u x Tu I T. specialize (TM x t I T). assert (u = clock_time now c) by (destruct c; cbn in Tu |- *; try discriminate; injection Tu as <-; reflexivity). subst u. lra. }
      assert (CC : clk' = fst (urun uclock_new (clock_events l ++ [c]))) by (rewrite urun_snoc; cbn [fst]; rewrite <- C, U; reflexivity).
      destruct o as [|v ws| | |]; apply some_eq in S; subst n; cbn [t_now t_clock t_queue t_task t_frames snd];
        (split; [exact CC|]); try rewrite app_nil_r;
        try (split; [exact Q1|]; split; [exact SB|]; split; [intro NL; apply NW; exact (none_lost_prefix _ _ NL)|]; split; [exact TMc|];
             split; [lra|]; split; [exact ORDc|]; split; [intros v' p I; specialize (AN v' p I); lra|];
             split; [intros u t I; specialize (FR u t I); lra|intros u I; specialize (HQ u I); lra]).
      destruct (ustep_published clk c v ws ltac:(now rewrite U)) as [t ->]. cbn [event_time clock_time] in *.
      assert (HQ2 : forall q, (forall u, In u q -> snd u <= t) -> forall u, In u (q ++ [(v, t)]) -> snd u <= t).
      { intros q K u I. apply in_app_or in I. destruct I as [I|[<-|[]]]; [apply K, I|cbn; lra]. }
      assert (QQ : exists q, @publish (Q * Q) 1 true (v, t) queue = q ++ [(v, t)] /\ q = [] /\ (queue = [] \/ exists x, queue = [x])).
      { unfold publish. destruct queue as [|x [|y queue]]; cbn [length] in *; [| |lia]; cbn [Nat.eqb tl]; exists []; (split; [reflexivity|]); (split; [reflexivity|]); [left; reflexivity|right; now exists x]. }
      destruct QQ as (q & QE & -> & QQ). rewrite QE. cbn [app] in *.
      assert (TT : match match task with TIdle None => TIdle (Some t) | _ => task end with THold u _ => [u] | TIdle _ => [] end = match task with THold u _ => [u] | TIdle _ => [] end) by (destruct task as [[|]|]; reflexivity).
      rewrite TT.
      split; [cbn; lia|]. split.
      { rewrite !app_assoc. apply sub_add. destruct QQ as [->|[x ->]]; [rewrite app_nil_r in SB; exact SB|].
        pose proof (sub_out (announced l) (map fst frames ++ match task with THold u _ => [u] | TIdle _ => [] end) [] x) as Z. rewrite app_nil_r in Z. apply Z. rewrite <- app_assoc. exact SB. }
      split; [intros _; rewrite !app_assoc, !newest_snoc; reflexivity|]. split; [exact TMc|]. split; [lra|]. split; [exact ORDc|].
      split. { intros v' p I. apply in_app_or in I. destruct I as [I|[I|[]]]; [specialize (AN v' p I); lra|injection I as <- <-; lra]. }
      split; [intros u t' I; specialize (FR u t' I); lra|].
      apply HQ2. intros u I. specialize (HQ u (in_or_app _ _ _ (or_introl I))). lra.
    + rewrite announced_snoc, clock_snoc, !app_nil_r. destruct task as [s|u0 k]; [|discriminate]. destruct queue as [|u q]; [discriminate|].
      destruct (Qle_bool now t) eqn:LE; [|discriminate]. apply Qleb in LE. injection S as <-. cbn [t_now t_clock t_queue t_task t_frames app] in *.
      split; [exact C|]. split; [cbn in Q1; lia|]. split; [exact SB|]. split; [intro NL; apply NW; exact (none_lost_prefix _ _ NL)|].
      split; [intros x t' I T; specialize (TM x t' I T); lra|]. split; [lra|]. split; [exact ORD|]. split; [intros v p I; specialize (AN v p I); lra|].
      split; [intros u' t' I; specialize (FR u' t' I); lra|]. intros u' I. specialize (HQ u' I). lra.
    + rewrite announced_snoc, clock_snoc, !app_nil_r. destruct task as [s|u0 k]; [discriminate|].
      destruct (Qle_bool now t) eqn:LE; [|discriminate]. apply Qleb in LE. injection S as <-. cbn [t_now t_clock t_queue t_task t_frames app] in *.
      split; [exact C|]. split; [exact Q1|].
      split. { destruct ok; [rewrite map_app, <- app_assoc; exact SB|]. exact (sub_out (announced l) (map fst frames) queue u0 SB). }
      split. { intro NL. destruct ok; [|exfalso; apply (NL t); apply in_or_app; right; left; reflexivity]. rewrite map_app, <- app_assoc. apply NW. exact (none_lost_prefix _ _ NL). }
      split; [intros x t' I T; specialize (TM x t' I T); lra|]. split; [lra|]. split; [exact ORD|]. split; [intros v p I; specialize (AN v p I); lra|].
      split.
      { assert (H0 : snd u0 <= now) by (apply HQ; left; reflexivity). intros u' t' I. destruct ok; [apply in_app_or in I; destruct I as [I|[I|[]]]|].
        - specialize (FR u' t' I). lra.
        - injection I as <- <-. lra.
        - specialize (FR u' t' I). lra. }
      intros u' I. specialize (HQ u' (or_intror I)). lra.
Qed.

(** ** Nothing invented, in order, none twice; never a time that has been overtaken on the way out *)
(** The time messages are, in order and each at most once, times that the clock announced; and once the task has nothing more to do
    and no transmission failed, the last message is the last announcement. *)
Theorem C137_only_announced_times : forall l n, truns tbus_new l = Some n ->
  sublist (map fst (t_frames n)) (announced l) /\
  (none_lost l -> held n = [] -> t_queue n = [] -> newest (map fst (t_frames n)) = newest (announced l)).
Proof.
  intros l n H. destruct (plain_holds l n H) as (_ & _ & SB & NW & _). unfold on_the_way in *. split.
  - revert SB. generalize (held n ++ t_queue n) as r. generalize (map fst (t_frames n)) as a. intros a r. induction r as [|x r IH]; intro SB; [now rewrite app_nil_r in SB|].
    apply IH. exact (sub_out _ _ _ x SB).
  - intros NL HE QE. rewrite HE, QE, app_nil_r in NW. exact (NW NL).
Qed.

(** ** Freshness *)
Definition fresh (A W : Q) (l : list tevent) (n : tbus) : Prop :=
  (match t_task n with
   | TIdle None => t_queue n = []
   | TIdle (Some r) => r <= t_now n /\ t_queue n <> [] /\ forall u, In u (t_queue n) -> r <= snd u + W
   | THold u k => k <= t_now n /\ k <= snd u + W + A /\ forall u', In u' (t_queue n) -> k <= snd u'
   end) /\
  (forall u t, In (u, t) (t_frames n) -> t <= snd u + A + W + W) /\
  (none_lost l -> forall v p, In (v, p) (announced l) ->
     (exists u t, In (u, t) (t_frames n) /\ p <= snd u /\ t <= p + A + W + W) \/
     match t_task n with
     | TIdle None => False
     | TIdle (Some r) => r <= p + W /\ exists u, In u (t_queue n) /\ p <= snd u
     | THold u k => (p <= snd u /\ k <= p + W + A) \/ (k <= p /\ exists u', In u' (t_queue n) /\ p <= snd u')
     end).

Lemma prompt_prefix A W a b : prompt A W (a ++ b) -> prompt A W a.
Proof. intros H l1 e l2 n1 E R. apply (H l1 e (l2 ++ b) n1); [|exact R]. rewrite E, <- app_assoc. reflexivity. Qed.

Lemma fresh_holds A W : 0 <= A -> 0 <= W -> forall l n, truns tbus_new l = Some n -> prompt A W l -> fresh A W l n.
Proof.
  intros HA HW. induction l as [|e l IH] using rev_ind; intros n H P.
  - injection H as <-. split; [reflexivity|]. split; [intros u t []|intros _ v p []].
  - apply truns_snoc in H. destruct H as (n1 & R & S). pose proof (P l e [] n1 eq_refl R) as IT.
    specialize (IH n1 R (prompt_prefix _ _ _ _ P)). pose proof (plain_holds l n1 R) as (C & Q1 & _ & _ & _ & _ & _ & AN & FR & HQ).
    destruct n1 as [now clk queue task frames]. destruct IH as (T & F & N). unfold in_time, held in *. cbn [t_now t_clock t_queue t_task t_frames] in *.
    unfold fresh. rewrite announced_snoc. destruct e as [c|t|ok t]; cbn [tstep ttime] in *.
    + rewrite <- C. destruct (Qle_bool now (clock_time now c)) eqn:LE; [|discriminate]. apply Qleb in LE.
      destruct (ustep clk c) as [clk' o] eqn:U. cbn [snd].
      assert (Same : forall n', n' = TBus (clock_time now c) clk' queue task frames -> 
        match t_task n' with
        | TIdle None => t_queue n' = []
        | TIdle (Some r) => r <= t_now n' /\ t_queue n' <> [] /\ forall u, In u (t_queue n') -> r <= snd u + W
        | THold u k => k <= t_now n' /\ k <= snd u + W + A /\ forall u', In u' (t_queue n') -> k <= snd u'
        end).
      { intros n' ->. cbn [t_now t_queue t_task]. destruct task as [[r|]|u k]; [|exact T|]; (split; [lra|]; apply T). }
      assert (NL' : none_lost (l ++ [TClock c]) -> none_lost l) by apply none_lost_prefix.
      destruct o as [|v ws| | |]; apply some_eq in S; subst n;
        try (rewrite app_nil_r; split; [exact (Same _ eq_refl)|]; split; [exact F|]; intros NL; exact (N (NL' NL))).
      destruct (ustep_published clk c v ws ltac:(now rewrite U)) as [t ->]. cbn [event_time clock_time t_now t_clock t_queue t_task t_frames] in *.
      assert (QQ : @publish (Q * Q) 1 true (v, t) queue = [(v, t)]).
      { unfold publish. destruct queue as [|x [|y queue]]; cbn [length] in *; [reflexivity|reflexivity|lia]. }
      rewrite QQ. split; [|split; [exact F|]].
      * destruct task as [[r|]|u k].
        -- destruct T as (T1 & T2 & T3). split; [lra|]. split; [discriminate|]. intros u [<-|[]]. cbn. lra.
        -- split; [lra|]. split; [discriminate|]. intros u [<-|[]]. cbn. lra.
        -- destruct T as (T1 & T2 & T3). split; [lra|]. split; [exact T2|]. intros u' [<-|[]]. cbn. lra.
      * intros NL v' p I. apply in_app_or in I. destruct I as [I|[I|[]]].
        -- pose proof (AN v' p I) as Ip. destruct (N (NL' NL) v' p I) as [K|K]; [left; exact K|right].
           destruct task as [[r|]|u k]; [|destruct K|].
           ++ split; [apply K|]. exists (v, t). split; [left; reflexivity|cbn; lra].
           ++ destruct K as [K|[K _]]; [left; exact K|right]. split; [exact K|]. exists (v, t). split; [left; reflexivity|cbn; lra].
        -- injection I as <- <-. right. destruct task as [[r|]|u k].
           ++ split; [lra|]. exists (v, t). split; [left; reflexivity|cbn; lra].
           ++ split; [lra|]. exists (v, t). split; [left; reflexivity|cbn; lra].
           ++ right. split; [lra|]. exists (v, t). split; [left; reflexivity|cbn; lra].
    + rewrite app_nil_r. destruct task as [r0|u0 k]; [|discriminate]. destruct queue as [|u q]; [discriminate|].
      destruct (Qle_bool now t) eqn:LE; [|discriminate]. apply Qleb in LE. injection S as <-. cbn [t_now t_clock t_queue t_task t_frames app] in *.
      destruct q as [|y q]; [|cbn in Q1; lia]. destruct r0 as [r|]; [|discriminate T]. destruct T as (T1 & T2 & T3).
      pose proof (T3 u (or_introl eq_refl)) as T4. split; [|split; [exact F|]].
      * split; [lra|]. split; [lra|]. intros u' [].
      * intros NL v p I. destruct (N (none_lost_prefix _ _ NL) v p I) as [K|(K1 & u' & [<-|[]] & K2)]; [left; exact K|right; left].
        split; [exact K2|lra].
    + rewrite app_nil_r. destruct task as [r0|u0 k]; [discriminate|].
      destruct (Qle_bool now t) eqn:LE; [|discriminate]. apply Qleb in LE. injection S as <-. cbn [t_now t_clock t_queue t_task t_frames app] in *.
      destruct T as (T1 & T2 & T3). split; [|split].
      * destruct queue as [|x q]; [reflexivity|]. split; [lra|]. split; [discriminate|]. intros u I. specialize (T3 u I). lra.
      * intros u t' I. destruct ok; [apply in_app_or in I; destruct I as [I|[I|[]]]|]; try exact (F u t' I). injection I as <- <-. lra.
      * intros NL v p I. assert (ok = true) as -> by (destruct ok; [reflexivity|]; exfalso; apply (NL t); apply in_or_app; right; left; reflexivity).
        destruct (N (none_lost_prefix _ _ NL) v p I) as [(u & t' & K & K1)|[[K1 K2]|(K1 & u' & K2 & K3)]].
        -- left. exists u, t'. split; [apply in_or_app; left; exact K|exact K1].
        -- left. exists u0, t. split; [apply in_or_app; right; left; reflexivity|]. split; [exact K1|lra].
        -- right. destruct queue as [|x q]; [destruct K2|]. split; [lra|]. exists u'. split; assumption.
Qed.

(** A time message goes out at most [A + 2 W] after the pulse it tells of; and if no transmission fails, then [A + 2 W] after every
    announcement its time or a newer one has been sent. *)
Theorem C137_fresh : forall A W l n, 0 <= A -> 0 <= W -> truns tbus_new l = Some n -> prompt A W l ->
  (forall v p t, In ((v, p), t) (t_frames n) -> In (v, p) (announced l) /\ p <= t <= p + A + W + W) /\
  (none_lost l -> in_time A W n (t_now n) -> forall v p, In (v, p) (announced l) -> p + A + W + W < t_now n ->
     exists v' p' t, In ((v', p'), t) (t_frames n) /\ p <= p' /\ t <= p + A + W + W).
Proof.
  intros A W l n HA HW R P. destruct (fresh_holds A W HA HW l n R P) as (T & F & N).
  pose proof (plain_holds l n R) as (_ & _ & _ & _ & _ & _ & _ & _ & FR & _). destruct (C137_only_announced_times l n R) as [SB _]. split.
  - intros v p t I. specialize (F _ _ I). specialize (FR _ _ I). cbn [snd] in *. split; [|lra]. apply (sub_in _ _ _ SB). exact (in_map fst _ _ I).
  - intros NL IT v p I L. destruct (N NL v p I) as [((v' & p') & t & K & K1)|K]; [exists v', p', t; split; [exact K|exact K1]|exfalso].
    unfold in_time in IT. destruct (t_task n) as [[r|]|u k]; [|exact K|]; [lra|]. destruct K as [K|[K _]]; lra.
Qed.

(** ** The clocks of the other boards *)
Lemma published_true D L l v p : 0 <= L -> in_order (clock_events l) -> Forall (truthful D L) (clock_events l) -> late_pulses (clock_events l) ->
  In (v, p) (announced l) -> 800 <= p /\ exists k, v = inject_Z k * 1000 /\ v <= p + D /\ p + D <= v + L.
Proof.
  intros HL O T LP I. unfold announced in I. destruct (C82_right_time D L _ HL O T LP) as (_ & _ & PUB).
  assert (G : forall es s, In (v, p) (announcements s es) -> exists a b ws, es = a ++ Pulse p :: b /\ nth_error (snd (urun s es)) (length a) = Some (Published v ws)).
  { induction es as [|e es IH]; intros s J; [destruct J|]. cbn [announcements] in J. apply in_app_or in J. cbn [urun]. destruct J as [J|J].
    - exists [], es. destruct (ustep s e) as [s1 o] eqn:U. cbn [snd] in J. destruct o as [|v' ws| | |]; try (destruct J; fail).
      destruct (ustep_published s e v' ws ltac:(now rewrite U)) as [t ->]. cbn in J. destruct J as [J|[]]. injection J as -> ->. exists ws. split; [reflexivity|].
      destruct (urun s1 es). reflexivity.
    - destruct (ustep s e) as [s1 o] eqn:U. cbn [fst] in J. destruct (IH s1 J) as (a & b & ws & E & Nth). exists (e :: a), b, ws. split; [now rewrite E|].
      destruct (urun s1 es) as [s2 os]. exact Nth. }
  destruct (G _ _ I) as (a & b & ws & E & Nth). destruct (PUB a (Pulse p) b v ws E Nth) as (t & k & Et & Ek & B). injection Et as <-.
  split; [apply LP; rewrite E; apply in_or_app; right; left; reflexivity|]. exists k. split; [exact Ek|exact B].
Qed.

(** Every board that takes down a time message when it arrives, [X] or less after its transmission, knows the time from then on: a
    clock that runs from that reference is never fast, and slow by at most the stamping delay [L] of the GPS pulse, the delays
    [A + 2 W] of the sender and the transit [X].  ([D], [D'] are the unix times at which the flight computer and the board booted;
    the two run at the same rate.  What this delay is, the message does not say: the board's clock is late by all of it.) *)
Theorem C137_other_boards_know_the_time_partial : forall A W D L l n node v p t,
  0 <= A -> 0 <= W -> 0 <= L -> L <= D -> (node < 4096)%N ->
  truns tbus_new l = Some n -> prompt A W l -> Forall (truthful D L) (clock_events l) -> late_pulses (clock_events l) ->
  In ((v, p), t) (t_frames n) -> t + D < 281474976710656 ->
  forall D' X b, t + D <= b + D' <= t + D + X ->
  exists ms, time_reference (time_frame node (v, p)) b = Some (b, ms) /\
  forall now, (now + D') - (L + A + W + W + X) <= (now - b) + inject_Z (Z.of_N ms) <= now + D'.
Proof.
  intros A W D L l n node v p t HA HW HL HD HN R P TR LP I BIG D' X b B.
  destruct (C137_fresh A W l n HA HW R P) as [FRE _]. destruct (FRE v p t I) as [IA TM].
  pose proof (plain_holds l n R) as (_ & _ & _ & _ & _ & _ & ORD & _).
  destruct (published_true D L l v p HL ORD TR LP IA) as (P8 & k & -> & B1 & B2).
  assert (K0 : (0 <= k)%Z). { assert (Z : -1 < inject_Z k * 1000) by lra. assert (Z1 : inject_Z (-1) < inject_Z k) by (change (inject_Z (-1)) with (-1); lra). rewrite <- Zlt_Qlt in Z1. lia. }
  assert (FL : Qfloor (inject_Z k * 1000) = (k * 1000)%Z).
  { rewrite <- (Qfloor_Z (k * 1000)). apply Qfloor_comp. rewrite inject_Z_mult. reflexivity. }
  assert (KB : (k * 1000 < 281474976710656)%Z). { rewrite Zlt_Qlt, inject_Z_mult. change (inject_Z 1000) with 1000. change (inject_Z 281474976710656) with 281474976710656. lra. }
  exists (Z.to_N (k * 1000)). unfold time_reference, time_frame, frame_of, time_msg. cbn [fst]. rewrite FL. cbn [fr_rtr fr_id fr_data msg_type]. split.
  - assert (OK : id_ok (mkId 2 0 VOID_LAKE_NODE_TYPE node)) by (unfold id_ok, VOID_LAKE_NODE_TYPE; cbn [priority message_type node_type node_id]; repeat split; try lia; exact HN).
    destruct (C55_id_round_trip _ OK) as [-> _]. cbn [message_type]. change (N.eqb 0 0) with true. cbn iota.
    assert (MO : msg_ok (UnixTime (Z.to_N (k * 1000)))) by (cbn [msg_ok]; change (2 ^ 48)%N with 281474976710656%N; lia).
    destruct (C55_message_round_trip _ MO) as [E _]. cbn [msg_type] in E. rewrite E. reflexivity.
  - intro now. rewrite Z2N.id by lia. rewrite inject_Z_mult. change (inject_Z 1000) with 1000. split; lra.
Qed.
Print Assumptions C137_other_boards_know_the_time_partial.

(** ** Instances *)
Definition hist : list tevent :=
  [TClock (GpsTime 1000 1700000001); TClock (Await 3); TClock (Pulse 1702); TTake 1703; TClock (GpsTime 2000 1700000002); TSent true 2010;
   TClock (Pulse 2701); TTake 2702; TSent true 2705].
Definition boot_unix : Q := 1700000000300.
Lemma prompt_check A W : forall l2 l1 n, truns tbus_new l1 = Some n ->
  (fix ok (n : tbus) (l : list tevent) : Prop :=
     match l with [] => True | e :: l => in_time A W n (ttime (t_now n) e) /\ match tstep n e with Some n' => ok n' l | None => True end end) n l2 ->
  forall m e r n1, l2 = m ++ e :: r -> truns tbus_new (l1 ++ m) = Some n1 -> in_time A W n1 (ttime (t_now n1) e).
Proof.
  induction l2 as [|x l2 IH]; intros l1 n R H m e r n1 E R1; [destruct m; discriminate|]. destruct H as [H1 H2].
  destruct m as [|y m]; injection E as -> E.
  - rewrite app_nil_r, R in R1. injection R1 as <-. exact H1.
  - assert (X : l1 ++ y :: m = (l1 ++ [y]) ++ m) by (rewrite <- app_assoc; reflexivity). rewrite X in R1.
    destruct (tstep n y) as [n'|] eqn:S.
    + apply (IH (l1 ++ [y]) n' (proj2 (truns_snoc _ _ _ _) (ex_intro _ n (conj R S))) H2 m e r n1 E R1).
    + exfalso. assert (Z : truns tbus_new (l1 ++ [y]) = None).
      { destruct (truns tbus_new (l1 ++ [y])) as [n2|] eqn:K; [|reflexivity]. apply truns_snoc in K. destruct K as (n3 & K1 & K2). rewrite R in K1. injection K1 as <-. congruence. }
      clear - R1 Z. revert R1. generalize tbus_new, (l1 ++ [y]), Z. clear. intros n0 a. revert n0. induction a as [|z a IH]; intros n0 Z; [discriminate|].
      cbn [app truns] in *. destruct (tstep n0 z); [now apply IH|discriminate].
Qed.

(** the hypotheses are met: two seconds of an ordinary start; the second message makes another board's clock 4 ms late, on top of
    the millisecond of the pulse's stamp *)
Theorem C137_instance : exists n, truns tbus_new hist = Some n /\
  t_frames n = [((inject_Z 1700000002 * 1000, 1702), 2010); ((inject_Z 1700000003 * 1000, 2701), 2705)] /\
  prompt 5 310 hist /\ Forall (truthful boot_unix 5) (clock_events hist) /\ late_pulses (clock_events hist) /\ none_lost hist /\
  time_reference (time_frame 77 (inject_Z 1700000003 * 1000, 2701)) 500 = Some (500, 1700000003000%N).
Proof.
  eexists. split; [reflexivity|]. split; [reflexivity|]. split; [|split; [|split; [|split; [|reflexivity]]]].
  - intros l1 e l2 n1 E R1. refine (prompt_check 5 310 hist [] tbus_new eq_refl _ l1 e l2 n1 E R1).
    cbv [hist in_time tbus_new t_task t_now ttime clock_time].
    assert (Q2 : forall a b : Q, Qle_bool a b = true -> a <= b) by (intros a b H; apply Qle_bool_iff, H).
    repeat (split; [first [exact Logic.I|apply Q2; reflexivity]|cbn]). exact Logic.I.
  - assert (Q1 : forall a b : Q, Qltb a b = true -> a < b) by (intros a b H; apply Qltb_iff, H).
    assert (Q2 : forall a b : Q, Qle_bool a b = true -> a <= b) by (intros a b H; apply Qle_bool_iff, H).
    constructor; [split; apply Q1; reflexivity|]. constructor; [exact Logic.I|].
    constructor; [exists 1700000002%Z; split; apply Q2; reflexivity|].
    constructor; [split; apply Q1; reflexivity|]. constructor; [exists 1700000003%Z; split; apply Q2; reflexivity|]. constructor.
  - intros t H. cbn in H. destruct H as [H|[H|[H|[H|[H|[]]]]]]; try discriminate H; injection H as <-; lra.
  - intros t H. cbn in H. repeat (destruct H as [H|H]; [discriminate H|]). exact H.
Qed.

(** A busy bus: the message tells of the pulse at 1702 when it goes out 898 ms later, and nothing in it says so. *)
Theorem C137_refuted_delay_not_compensated : exists n,
  truns tbus_new [TClock (GpsTime 1000 1700000001); TClock (Pulse 1702); TTake 1703; TSent true 2600] = Some n /\
  t_frames n = [((inject_Z 1700000002 * 1000, 1702), 2600)] /\
  forall D' b, 2600 + boot_unix == b + D' ->
  exists ms, time_reference (time_frame 77 (inject_Z 1700000002 * 1000, 1702)) b = Some (b, ms) /\
  forall now, (now - b) + inject_Z (Z.of_N ms) == (now + D') - 900.
Proof.
  eexists. split; [reflexivity|]. split; [reflexivity|]. intros D' b B. exists 1700000002000%N. split; [reflexivity|].
  intro now. change (inject_Z (Z.of_N 1700000002000)) with 1700000002000. unfold boot_unix in B. lra.
Qed.
(** A transmission longer than a second: of the times announced meanwhile only the newest is sent. *)
Theorem C137_refuted_updates_skipped : exists n,
  truns tbus_new [TClock (GpsTime 1000 1); TClock (Pulse 1702); TTake 1703; TClock (GpsTime 2000 2); TClock (Pulse 2702);
                  TClock (GpsTime 3000 3); TClock (Pulse 3702); TSent true 3800; TTake 3801; TSent true 3805] = Some n /\
  map (fun f => fst (fst f)) (t_frames n) = [inject_Z 2 * 1000; inject_Z 4 * 1000] /\ t_queue n = [].
Proof. eexists. split; [reflexivity|]. split; reflexivity. Qed.

(** * C87-C90: the buffered logger, the buzzer queue and the merged logger *)
From Coq Require Import List Arith Lia Bool.
From Verif Require Import PubSub.
Import ListNotations.
Local Open Scope nat_scope.

(** ** Specification vocabulary *)
(** [subseq a b]: [a] is [b] with some elements left out, order kept. *)
Inductive subseq {T} : list T -> list T -> Prop :=
| ss_nil : subseq [] []
| ss_keep x a b : subseq a b -> subseq (x :: a) (x :: b)
| ss_skip x a b : subseq a b -> subseq a (x :: b).
(** the newest [n] elements *)
Definition newest {T} (n : nat) (l : list T) : list T := skipn (length l - n) l.
Definition ends_with {T} (l s : list T) : Prop := exists p, l = p ++ s.

Fixpoint messages {T} (es : list (bevent T)) : list T :=
  match es with [] => [] | Log m :: es => m :: messages es | _ :: es => messages es end.
Fixpoint delivered {T} (cs : list (icall T)) : list T :=
  match cs with [] => [] | ILog m :: cs => m :: delivered cs | IFlush :: cs => delivered cs end.
Fixpoint polls {T} (es : list (bevent T)) : nat :=
  match es with [] => 0 | PollRunner :: es => S (polls es) | _ :: es => polls es end.
Definition not_started {T} (es : list (bevent T)) : Prop := ~ In StartRunner es.
Definition not_closed {T} (es : list (bevent T)) : Prop := ~ In IntoInner es.

(** ** Lists *)
Lemma subseq_refl {T} (a : list T) : subseq a a.
Proof. induction a; constructor; assumption. Qed.
Lemma subseq_length {T} (a b : list T) : subseq a b -> length a <= length b.
Proof. induction 1; cbn; lia. Qed.
Lemma subseq_snoc {T} (a b : list T) m : subseq a b -> subseq (a ++ [m]) (b ++ [m]).
Proof. induction 1; cbn; [repeat constructor | constructor; assumption | constructor; assumption]. Qed.
Lemma subseq_snoc_skip {T} (a b : list T) m : subseq a b -> subseq a (b ++ [m]).
Proof. induction 1; cbn; repeat constructor; auto. Qed.
Lemma subseq_drop_mid {T} (a b c : list T) x : subseq (a ++ x :: b) c -> subseq (a ++ b) c.
Proof.
  intros H. remember (a ++ x :: b) as l eqn:E. revert a E. induction H as [|y l c H IH|y l c H IH]; intros a E.
  - destruct a; discriminate.
  - destruct a as [|z a]; cbn in E; injection E as -> ->.
    + cbn. apply ss_skip. exact H.
    + cbn. apply ss_keep. apply IH. reflexivity.
  - apply ss_skip. apply IH. exact E.
Qed.
Lemma newest_length {T} n (l : list T) : length (newest n l) = Nat.min n (length l).
Proof. unfold newest. rewrite skipn_length. lia. Qed.
Lemma newest_snoc {T} n (l : list T) m : newest (S n) (l ++ [m]) = newest n l ++ [m].
Proof.
  unfold newest. rewrite app_length. cbn [length].
  replace (length l + 1 - S n) with (length l - n) by lia.
  rewrite skipn_app. replace (length l - n - length l) with 0 by lia. reflexivity.
Qed.
Lemma newest_S {T} n (l : list T) : newest (S n) l = newest n l \/ exists x, newest (S n) l = x :: newest n l.
Proof.
  unfold newest. destruct (le_lt_dec (length l) n).
  - left. replace (length l - S n) with (length l - n) by lia. reflexivity.
  - right. set (k := length l - S n). replace (length l - n) with (S k) by (unfold k; lia).
    assert (k < length l) by (unfold k; lia). clearbody k. clear l0.
    revert k H. induction l as [|y l IH]; intros k H; cbn in H; [lia|].
    destruct k; cbn; [exists y; reflexivity|]. apply IH. lia.
Qed.
Lemma ends_same {T} (a b c d : list T) : a ++ b = c ++ d -> length b = length d -> b = d.
Proof.
  revert c. induction a as [|x a IH]; intros c E L; destruct c as [|y c]; cbn in E.
  - exact E.
  - subst b. cbn in L. rewrite app_length in L. lia.
  - subst d. cbn in L. rewrite app_length in L. lia.
  - injection E as _ E. exact (IH c E L).
Qed.

(** Publishing to a one-subscriber queue: what has been taken out or is waiting stays an ordered part of
    what was published, and the newest [cap] messages are always among it. *)
Definition queue_ok {T} (cap : nat) (out q sent : list T) : Prop :=
  length q <= cap /\ subseq (out ++ q) sent /\ ends_with (out ++ q) (newest cap sent).

Lemma queue_start {T} cap (out : list T) : out = [] -> queue_ok cap out [] [].
Proof. intros ->. split; [cbn; lia|]. split; [constructor|]. exists []. reflexivity. Qed.

Lemma queue_take {T} cap (out q : list T) m sent : queue_ok cap out (m :: q) sent -> queue_ok cap (out ++ [m]) q sent.
Proof.
  intros (L & S & E). unfold queue_ok. rewrite <- app_assoc. cbn [app]. cbn in L.
  split; [lia|]. split; assumption.
Qed.

Lemma queue_publish {T} cap (out q sent : list T) m : 1 <= cap -> queue_ok cap out q sent ->
  queue_ok cap out (publish cap true m q) (sent ++ [m]).
Proof.
  intros C (L & SS & p & E). unfold publish, queue_ok. destruct (Nat.eqb_spec (length q) cap) as [F|F].
  - destruct q as [|x q]; [cbn in F; lia|]. cbn [tl]. cbn [length] in L, F.
    split; [rewrite app_length; cbn; lia|]. split.
    + rewrite app_assoc. apply subseq_snoc. eapply subseq_drop_mid. exact SS.
    + destruct cap as [|c]; [lia|]. rewrite newest_snoc. exists out.
      f_equal. f_equal. assert (Q : x :: q = newest (S c) sent).
      { eapply ends_same; [exact E|]. rewrite newest_length. cbn [length]. apply subseq_length in SS.
        rewrite app_length in SS. cbn [length] in SS. lia. }
      destruct (newest_S c sent) as [W|[y W]]; rewrite W in Q.
      * exfalso. apply (f_equal (@length T)) in Q. rewrite newest_length in Q. cbn [length] in Q. lia.
      * injection Q as _ Q. exact Q.
  - split; [rewrite app_length; cbn; lia|]. split.
    + rewrite app_assoc. apply subseq_snoc. exact SS.
    + destruct cap as [|c]; [lia|]. rewrite newest_snoc. rewrite app_assoc, E.
      destruct (newest_S c sent) as [W|[y W]]; rewrite W.
      * exists p. rewrite app_assoc. reflexivity.
      * exists (p ++ [y]). repeat rewrite <- app_assoc. reflexivity.
Qed.

(** ** The buffered logger *)
Section B.
Context {T : Type}.
Implicit Types s : bl T.

Lemma brun_app cap s a b : brun cap s (a ++ b) = brun cap (brun cap s a) b.
Proof. apply fold_left_app. Qed.
Lemma delivered_app (a b : list (icall T)) : delivered (a ++ b) = delivered a ++ delivered b.
Proof. induction a as [|[m|] a IH]; cbn; [reflexivity| |]; rewrite IH; reflexivity. Qed.
Lemma messages_app (a b : list (bevent T)) : messages (a ++ b) = messages a ++ messages b.
Proof. induction a as [|[] a IH]; cbn; try exact IH; [reflexivity|]. rewrite IH. reflexivity. Qed.

Lemma before_start cap es : not_started es -> not_closed es ->
  let s := brun cap (@bl_new T) es in q s = [] /\ handed s = [] /\ runner s = RNotStarted /\ stop s = false /\ taker s = TNone.
Proof.
  cbv zeta. induction es as [|e es IH] using rev_ind; intros N C; [cbn; auto|].
  rewrite brun_app. unfold not_started, not_closed in *. rewrite in_app_iff in N, C. cbn in N, C.
  destruct IH as (Q & H & R & P & K); [tauto|tauto|].
  set (s := brun cap bl_new es) in *. cbn [brun fold_left].
  destruct e; cbn [bstep].
  - rewrite K. cbn. unfold subscribed. rewrite R. cbn. auto.
  - rewrite K. destruct (flusher s); try (cbn; auto); unfold send_request; destruct (request s); cbn; auto.
  - destruct (flusher s); try (cbn; auto); [unfold send_request; destruct (request s); cbn; auto|].
    destruct (response s); cbn; auto.
  - cbn; auto.
  - tauto.
  - unfold runner_step. rewrite R. auto.
  - tauto.
  - rewrite K. auto.
Qed.

Definition live s : Prop := subscribed s = true /\ stop s = false /\ taker s = TNone /\
  (runner s = RWaiting \/ runner s = RDraining false).

Lemma live_step cap s e sent : 1 <= cap -> e <> IntoInner -> live s -> queue_ok cap (delivered (handed s)) (q s) sent ->
  let s' := bstep cap s e in
  live s' /\ queue_ok cap (delivered (handed s')) (q s') (sent ++ messages [e]).
Proof.
  cbv zeta. intros C N (SB & ST & K & R) O. destruct e; cbn [bstep messages]; try rewrite app_nil_r.
  - rewrite K, SB. cbn [handed q]. split; [|apply queue_publish; assumption].
    unfold live, subscribed. cbn. destruct R as [-> | ->]; auto.
  - rewrite K. destruct (flusher s); unfold send_request; try destruct (request s); cbn [handed q]; (split; [|exact O]);
      unfold live, subscribed; cbn; destruct R as [-> | ->]; auto.
  - destruct (flusher s); unfold send_request; try destruct (request s); try destruct (response s); cbn [handed q]; (split; [|exact O]);
      unfold live, subscribed; cbn; destruct R as [-> | ->]; auto.
  - cbn [handed q]. split; [|exact O]. unfold live, subscribed; cbn; destruct R as [-> | ->]; auto.
  - destruct R as [R|R]; rewrite R; (split; [|exact O]); unfold live, subscribed; rewrite R; auto.
  - unfold runner_step. destruct R as [R|R]; rewrite R; destruct (q s) as [|m rest] eqn:Q.
    + destruct (request s).
      * cbn [handed q]. split; [|exact O]. unfold live, subscribed; cbn; auto.
      * rewrite ST. rewrite Q. split; [|exact O]. unfold live, subscribed; rewrite R; auto.
    + cbn [hand set_q handed q]. rewrite delivered_app. cbn [delivered]. split; [|apply queue_take; exact O].
      unfold live, subscribed; cbn; rewrite R; auto.
    + cbn [hand set_runner handed q]. rewrite delivered_app. cbn [delivered]. rewrite app_nil_r, Q. split; [|exact O].
      unfold live, subscribed; cbn; auto.
    + cbn [hand set_q handed q]. rewrite delivered_app. cbn [delivered]. split; [|apply queue_take; exact O].
      unfold live, subscribed; cbn; rewrite R; auto.
  - congruence.
  - rewrite K. split; [|exact O]. unfold live, subscribed; destruct R as [-> | ->]; auto.
Qed.

Lemma started cap pre : not_started pre -> not_closed pre ->
  let s := brun cap (@bl_new T) (pre ++ [StartRunner]) in live s /\ q s = [] /\ handed s = [].
Proof.
  intros N C. rewrite brun_app. destruct (before_start cap pre N C) as (Q & H & R & P & K).
  cbv zeta. set (s := brun cap bl_new pre) in *. cbn. rewrite R, K. unfold live, subscribed. cbn. auto 10.
Qed.

Lemma live_run cap pre es : 1 <= cap -> not_started pre -> not_closed pre -> not_closed es ->
  let s := brun cap bl_new (pre ++ StartRunner :: es) in
  live s /\ queue_ok cap (delivered (handed s)) (q s) (messages es).
Proof.
  intros C N1 C1. cbv zeta. induction es as [|e es IH] using rev_ind; intros C2.
  - destruct (started cap pre N1 C1) as (L & Q & H). split; [exact L|]. rewrite H, Q. apply queue_start. reflexivity.
  - unfold not_closed in C2. rewrite in_app_iff in C2. cbn in C2.
    replace (pre ++ StartRunner :: es ++ [e]) with ((pre ++ StartRunner :: es) ++ [e]) by (rewrite <- app_assoc; reflexivity).
    rewrite brun_app, messages_app. destruct IH as [L O]; [unfold not_closed; tauto|].
    cbn [brun fold_left]. apply live_step; auto; intros ->; tauto.
Qed.

(** C87.  Whatever the order of logs, runner steps and flushes: what the wrapped logger has received,
    followed by what still waits, is an ordered part of what was logged since the runner started; the
    newest [cap] readings are always in it; and if no reading arrived while [cap] others were waiting,
    nothing at all is missing.  Readings logged before the runner started are never delivered. *)
Theorem buffered_keeps_order_and_newest cap pre es :
  1 <= cap -> not_started pre -> not_closed pre -> not_closed es ->
  let s := brun cap (@bl_new T) (pre ++ StartRunner :: es) in
  subseq (delivered (handed s) ++ q s) (messages es) /\
  ends_with (delivered (handed s) ++ q s) (newest cap (messages es)) /\
  length (q s) <= cap.
Proof.
  intros C N1 C1 C2. cbv zeta. destruct (live_run cap pre es C N1 C1 C2) as (_ & L & S & E). auto.
Qed.

Theorem buffered_loses_nothing_unless_full cap pre es :
  1 <= cap -> not_started pre -> not_closed pre -> not_closed es ->
  (forall a m b, es = a ++ Log m :: b -> length (q (brun cap (@bl_new T) (pre ++ StartRunner :: a))) < cap) ->
  let s := brun cap (@bl_new T) (pre ++ StartRunner :: es) in
  delivered (handed s) ++ q s = messages es.
Proof.
  intros C N1 C1. cbv zeta. induction es as [|e es IH] using rev_ind; intros C2 F.
  - destruct (started cap pre N1 C1) as (L & Q & H). rewrite H, Q. reflexivity.
  - unfold not_closed in C2. rewrite in_app_iff in C2. cbn in C2.
    assert (C3 : not_closed es) by (unfold not_closed; tauto).
    destruct (live_run cap pre es C N1 C1 C3) as ((SB & ST & K & R) & _).
    assert (F' : forall m, e = Log m -> length (q (brun cap bl_new (pre ++ StartRunner :: es))) < cap).
    { intros m ->. exact (F es m [] eq_refl). }
    assert (I : delivered (handed (brun cap bl_new (pre ++ StartRunner :: es))) ++ q (brun cap bl_new (pre ++ StartRunner :: es)) = messages es).
    { apply IH; [exact C3|]. intros a m b ->. apply (F a m (b ++ [e])). rewrite <- app_assoc. reflexivity. }
    replace (pre ++ StartRunner :: es ++ [e]) with ((pre ++ StartRunner :: es) ++ [e]) by (rewrite <- app_assoc; reflexivity).
    rewrite brun_app, messages_app. set (s := brun cap bl_new (pre ++ StartRunner :: es)) in *.
    rewrite <- I. clear IH F. cbn [brun fold_left]. destruct e; cbn [bstep messages]; try rewrite app_nil_r.
    + rewrite K, SB. cbn [handed q]. unfold publish. specialize (F' m eq_refl).
      destruct (Nat.eqb_spec (length (q s)) cap); [lia|]. rewrite app_assoc. reflexivity.
    + rewrite K. destruct (flusher s); unfold send_request; try destruct (request s); reflexivity.
    + destruct (flusher s); unfold send_request; try destruct (request s); try destruct (response s); reflexivity.
    + reflexivity.
    + destruct R as [R|R]; rewrite R; reflexivity.
    + unfold runner_step. destruct R as [R|R]; rewrite R; destruct (q s) as [|m rest] eqn:Q.
      * destruct (request s); [rewrite <- Q; cbn [handed q]; rewrite Q; reflexivity|]. rewrite ST, Q. reflexivity.
      * cbn [hand set_q handed q]. rewrite delivered_app. cbn [delivered]. rewrite <- app_assoc. reflexivity.
      * cbn [hand set_runner handed q]. rewrite delivered_app. cbn [delivered]. rewrite app_nil_r, ?app_nil_r, Q, ?app_nil_r. reflexivity.
      * cbn [hand set_q handed q]. rewrite delivered_app. cbn [delivered]. rewrite <- app_assoc. reflexivity.
    + exfalso. tauto.
    + rewrite K. reflexivity.
Qed.

(** A burst of at most [cap] readings is never lost, however long the runner stalls. *)
Theorem buffered_burst cap pre es :
  1 <= cap -> not_started pre -> not_closed pre -> not_closed es -> length (messages es) <= cap ->
  let s := brun cap (@bl_new T) (pre ++ StartRunner :: es) in
  delivered (handed s) ++ q s = messages es.
Proof.
  intros C N1 C1 C2 L. apply buffered_loses_nothing_unless_full; auto.
  intros a m b ->. unfold not_closed in C2. rewrite in_app_iff in C2. cbn in C2.
  destruct (live_run cap pre a C N1 C1 ltac:(unfold not_closed; tauto)) as (_ & _ & SS & _).
  apply subseq_length in SS. rewrite app_length in SS. rewrite messages_app, app_length in L. cbn [messages length] in L. lia.
Qed.

(** Readings accepted before the runner starts are answered with success and go nowhere. *)
Theorem buffered_before_start_lost cap pre es m :
  1 <= cap -> not_started pre -> not_closed pre -> not_closed es -> ~ In m (messages es) ->
  let s := brun cap (@bl_new T) (pre ++ StartRunner :: es) in
  ~ In m (delivered (handed s) ++ q s).
Proof.
  intros C N1 C1 C2 M. cbv zeta. destruct (live_run cap pre es C N1 C1 C2) as (_ & _ & SS & _).
  intros I. apply M. clear -SS I. induction SS; cbn in *; [exact I | destruct I; auto | right; auto].
Qed.

(** C88.  [flush] never returns: the runner flushes but nobody sends the answer. *)
Lemma no_response cap es : response (brun cap (@bl_new T) es) = false /\ flushes (brun cap (@bl_new T) es) = 0.
Proof.
  induction es as [|e es [A B]] using rev_ind; [split; reflexivity|].
  rewrite brun_app. set (s := brun cap bl_new es) in *. cbn [brun fold_left]. destruct e; cbn [bstep].
  - destruct (taker s); auto.
  - destruct (taker s), (flusher s); auto; unfold send_request; destruct (request s); auto.
  - destruct (flusher s); auto; [unfold send_request; destruct (request s); auto|]. rewrite A. auto.
  - auto.
  - destruct (runner s); auto.
  - unfold runner_step. destruct (runner s); auto; destruct (q s); auto; destruct (request s); auto; destruct (stop s); auto.
  - destruct (taker s); auto.
  - destruct (taker s); auto.
Qed.
Theorem buffered_flush_never_returns cap es : flushes (brun cap (@bl_new T) es) = 0.
Proof. apply no_response. Qed.

Lemma drain_polls cap b s : runner s = RDraining b -> forall n,
  n = length (q s) ->
  brun cap s (repeat PollRunner n) =
  BL [] (request s) (response s) (stop s) (RDraining b) (flusher s) (taker s) (handed s ++ map ILog (q s)) (accepted s) (flushes s).
Proof.
  intros R n. revert s R. induction n as [|n IH]; intros s R L.
  - destruct s; cbn in *. subst. destruct q; [|discriminate]. rewrite app_nil_r. reflexivity.
  - cbn [repeat brun fold_left]. cbn [bstep]. unfold runner_step. rewrite R. destruct (q s) as [|m rest] eqn:Q; [discriminate|].
    unfold brun in IH. 
    rewrite IH; cbn; [|exact R|cbn in L; lia]. rewrite <- app_assoc. reflexivity.
Qed.
Lemma wait_polls cap s : runner s = RWaiting -> forall n,
  n = length (q s) ->
  brun cap s (repeat PollRunner n) =
  BL [] (request s) (response s) (stop s) RWaiting (flusher s) (taker s) (handed s ++ map ILog (q s)) (accepted s) (flushes s).
Proof.
  intros R n. revert s R. induction n as [|n IH]; intros s R L.
  - destruct s; cbn in *. subst. destruct q; [|discriminate]. rewrite app_nil_r. reflexivity.
  - cbn [repeat brun fold_left]. cbn [bstep]. unfold runner_step. rewrite R. destruct (q s) as [|m rest] eqn:Q; [discriminate|].
    unfold brun in IH. 
    rewrite IH; cbn; [|exact R|cbn in L; lia]. rewrite <- app_assoc. reflexivity.
Qed.

(** ...although the request itself does reach the wrapped logger, after everything that was waiting. *)
Theorem buffered_flush_reaches_logger cap s :
  runner s = RWaiting -> taker s = TNone -> request s = false -> flusher s = FNone ->
  let s' := brun cap s (CallFlush :: repeat PollRunner (length (q s) + 2)) in
  handed s' = handed s ++ map (@ILog T) (q s) ++ [IFlush] /\ q s' = [] /\ runner s' = RWaiting.
Proof.
  intros R K Q F. cbv zeta. rewrite repeat_app.
  change (brun cap s (CallFlush :: repeat PollRunner (length (q s)) ++ repeat PollRunner 2)) with
    (brun cap (bstep cap s CallFlush) (repeat PollRunner (length (q s)) ++ repeat PollRunner 2)).
  rewrite brun_app.
  assert (E : bstep cap s CallFlush = BL (q s) true (response s) (stop s) RWaiting FAwaiting TNone (handed s) (accepted s) (flushes s)).
  { cbn. rewrite K, F. unfold send_request. rewrite Q, R, K. reflexivity. }
  rewrite E. rewrite (wait_polls cap (BL (q s) true (response s) (stop s) RWaiting FAwaiting TNone (handed s) (accepted s) (flushes s)) eq_refl (length (q s)) eq_refl). cbn. rewrite <- app_assoc. auto.
Qed.

(** C89.  Closing: once [into_inner] is called, the runner hands over everything that was waiting, in
    order, then flushes, then ends, whatever else happens in between, after at most [waiting + 5] of
    its steps; [into_inner] then gets the logger back. *)
Definition closing s : Prop := taker s <> TNone /\ flusher s = FNone.

(** how many runner steps are left *)
Definition todo s : nat :=
  length (q s) +
  match runner s with
  | RWaiting => (if request s then 2 else 0) + 2
  | RDraining false => 1 + (if request s then 2 else 0) + 2
  | RDraining true => 1
  | _ => 0
  end.
Definition work_left s : Prop :=
  match runner s with RWaiting | RDraining false => stop s = true | RDraining true | RFinished => True | _ => False end.

Definition closed_well (want : list T) s : Prop :=
  closing s /\ work_left s /\ delivered (handed s) ++ q s = want /\
  (runner s = RFinished -> q s = [] /\ exists h, handed s = h ++ [IFlush]) /\
  (runner s = RFinished \/ taker s = TWaiting).

Lemma closing_step cap want s e : closed_well want s ->
  closed_well want (bstep cap s e) /\
  todo (bstep cap s e) + (match e with PollRunner => 1 | _ => 0 end) <= Nat.max (todo s) (match e with PollRunner => 1 | _ => 0 end).
Proof.
  intros H0. pose proof H0 as ((K & F) & W & D & E & T0). destruct e; cbn [bstep].
  - destruct (taker s); [congruence| |]; (split; [exact H0|lia]).
  - destruct (taker s); [congruence| |]; (split; [exact H0|lia]).
  - rewrite F. split; [exact H0|lia].
  - split; [|unfold todo; cbn; lia]. unfold closed_well, closing, work_left in *; cbn in *; auto.
  - unfold work_left in W. destruct (runner s) eqn:R; try contradiction; (split; [exact H0|lia]).
  - unfold runner_step. unfold work_left in W. destruct (runner s) as [| |[]| |] eqn:R; try contradiction.
    + destruct T0 as [T0|T0]; [discriminate|]. destruct (q s) as [|m rest] eqn:Q.
      * destruct (request s) eqn:RQ.
        -- split; [|unfold todo; cbn [q runner request]; rewrite R, RQ, Q; cbn [length]; lia].
           unfold closed_well, closing, work_left; cbn. rewrite app_nil_r in *. repeat split; auto; discriminate.
        -- rewrite W. split; [|unfold todo; cbn [q runner request]; rewrite R, RQ, Q; cbn [length]; lia].
           unfold closed_well, closing, work_left; cbn. rewrite app_nil_r in *. repeat split; auto; discriminate.
      * split; [|unfold todo; cbn [q runner request hand set_q]; rewrite R, Q; cbn [length]; lia].
        unfold closed_well, closing, work_left; cbn [q runner request hand set_q handed stop taker flusher]. rewrite R, delivered_app. cbn [delivered].
        rewrite <- app_assoc. repeat split; auto; discriminate.
    + destruct T0 as [T0|T0]; [discriminate|]. destruct (q s) as [|m rest] eqn:Q.
      * split; [|unfold todo; cbn [q runner request hand set_q set_runner]; rewrite R, Q; cbn [length]; lia].
        unfold closed_well, closing, work_left; cbn [q runner request hand set_q set_runner handed stop taker flusher].
        rewrite delivered_app. cbn [delivered]. rewrite app_nil_r, Q. repeat split; auto. exists (handed s). reflexivity.
      * split; [|unfold todo; cbn [q runner request hand set_q]; rewrite R, Q; cbn [length]; lia].
        unfold closed_well, closing, work_left; cbn [q runner request hand set_q handed stop taker flusher]. rewrite R, delivered_app. cbn [delivered].
        rewrite <- app_assoc. repeat split; auto; discriminate.
    + destruct T0 as [T0|T0]; [discriminate|]. destruct (q s) as [|m rest] eqn:Q.
      * split; [|unfold todo; cbn [q runner request hand set_q set_runner]; rewrite R, Q; cbn [length]; lia].
        unfold closed_well, closing, work_left; cbn [q runner request hand set_q set_runner handed stop taker flusher].
        rewrite delivered_app. cbn [delivered]. rewrite app_nil_r, Q. repeat split; auto; discriminate.
      * split; [|unfold todo; cbn [q runner request hand set_q]; rewrite R, Q; cbn [length]; lia].
        unfold closed_well, closing, work_left; cbn [q runner request hand set_q handed stop taker flusher]. rewrite R, delivered_app. cbn [delivered].
        rewrite <- app_assoc. repeat split; auto; discriminate.
    + destruct (E eq_refl) as (Q & h & H).
      split; [|unfold todo; rewrite R, Q; cbn [length]; lia]. unfold closed_well, closing, work_left. rewrite R. repeat split; auto.
      exists h. exact H.
  - destruct (taker s); [congruence| |]; (split; [exact H0|lia]).
  - destruct (taker s) eqn:KT; [congruence| |].
    + split; [|unfold todo; cbn; lia]. unfold closed_well, closing, work_left, locked, subscribed in *; cbn in *.
      destruct (runner s); try contradiction; cbn in *; (split; [split; [discriminate|exact F]|]); (split; [exact W|]);
        (split; [exact D|]); (split; [exact E|]); auto.
    + split; [exact H0|lia].
Qed.

Lemma closing_run cap want s es : closed_well want s ->
  closed_well want (brun cap s es) /\ (todo s <= polls es -> todo (brun cap s es) = 0).
Proof.
  revert s. induction es as [|e es IH]; intros s H; [cbn; split; [exact H|lia]|].
  destruct (closing_step cap want s e H) as [H1 M]. cbn [brun fold_left].
  change (fold_left (bstep cap) es (bstep cap s e)) with (brun cap (bstep cap s e) es).
  destruct (IH _ H1) as [H2 Z]. split; [exact H2|]. intros L. apply Z.
  destruct e; cbn [polls] in L; lia.
Qed.

Theorem buffered_close_drains cap pre es es2 :
  1 <= cap -> not_started pre -> not_closed pre -> not_closed es ->
  let s := brun cap (@bl_new T) (pre ++ StartRunner :: es) in
  let s' := brun cap s (IntoInner :: es2 ++ [PollInner]) in
  length (q s) + 5 <= polls es2 ->
  delivered (handed s') = delivered (handed s) ++ q s /\
  (exists h, handed s' = h ++ [IFlush]) /\ runner s' = RFinished /\ taker s' = TTaken.
Proof.
  intros C N1 C1 C2. cbv zeta. destruct (live_run cap pre es C N1 C1 C2) as ((SB & ST & K & R) & _).
  set (s := brun cap bl_new (pre ++ StartRunner :: es)) in *. intros L.
  change (IntoInner :: es2 ++ [PollInner]) with ([IntoInner] ++ (es2 ++ [PollInner])). rewrite !brun_app.
  set (s1 := brun cap s [IntoInner]).
  assert (E1 : s1 = BL (q s) (request s) (response s) true (runner s) FNone TWaiting (handed s) (accepted s) (flushes s)).
  { unfold s1. cbn. rewrite K. unfold locked. rewrite SB. reflexivity. }
  assert (H1 : closed_well (delivered (handed s) ++ q s) s1).
  { rewrite E1. unfold closed_well, closing, work_left; cbn. destruct R as [R|R]; rewrite R; repeat split; auto; discriminate. }
  destruct (closing_run cap _ s1 es2 H1) as [H2 Z].
  assert (L1 : todo s1 <= polls es2).
  { rewrite E1. unfold todo; cbn. destruct R as [R|R]; rewrite R; destruct (request s); lia. }
  specialize (Z L1). set (s2 := brun cap s1 es2) in *. clearbody s2. clear - H2 Z.
  destruct H2 as ((K & F) & W & D & E & T0). unfold todo in Z. unfold work_left in W.
  destruct (runner s2) as [| |[]| |] eqn:R; try contradiction; try lia.
  destruct (E eq_refl) as (Q & H). rewrite Q, app_nil_r in D. cbn. destruct (taker s2) eqn:KT; [congruence| |].
  - cbn. unfold locked, subscribed. rewrite R. auto.
  - rewrite KT. auto.
Qed.

(** Taking the logger back before the runner was started makes the runner panic. *)
Theorem buffered_taken_first_panics cap pre :
  not_started pre -> not_closed pre ->
  runner (brun cap (@bl_new T) (pre ++ [IntoInner; StartRunner])) = RPanicked.
Proof.
  intros N C. destruct (before_start cap pre N C) as (Q & H & R & P & K). rewrite brun_app.
  set (s := brun cap bl_new pre) in *. cbn. rewrite K. cbn. rewrite R. unfold locked, subscribed. rewrite R. reflexivity.
Qed.
End B.

(** The hypotheses are met, and the loss is real: capacity 2, one reading before the start, three after. *)
Example buffered_example :
  let s := brun 2 bl_new ([Log 0] ++ StartRunner :: [Log 1; PollRunner; Log 2; Log 3; Log 4]) in
  delivered (handed s) = [1] /\ q s = [3; 4] /\ accepted s = [0; 1; 2; 3; 4].
Proof. repeat split. Qed.
Example buffered_example_close :
  let s := brun 2 bl_new ([Log 0] ++ StartRunner :: [Log 1; PollRunner; Log 2; CallFlush; Log 3; Log 4]) in
  let s' := brun 2 s (IntoInner :: repeat PollRunner 8 ++ [PollInner]) in
  handed s' = [ILog 1; ILog 3; ILog 4; IFlush; IFlush] /\ taker s' = TTaken.
Proof. split; reflexivity. Qed.

(** ** The buzzer *)
Fixpoint requested (es : list bzevent) : list tone :=
  match es with [] => [] | Publish t :: es => t :: requested es | _ :: es => requested es end.
Lemma requested_app a b : requested (a ++ b) = requested a ++ requested b.
Proof. induction a as [|[] a IH]; cbn; try exact IH; [reflexivity|]. rewrite IH. reflexivity. Qed.
Lemma bzrun_app s a b : bzrun s (a ++ b) = bzrun (bzrun s a) b.
Proof. apply fold_left_app. Qed.

Definition buzzer_started (es : list bzevent) := exists now, In (StartBuzzer now) es.

Lemma buzzer_before es : (forall now, ~ In (StartBuzzer now) es) ->
  bq (bzrun bz_new es) = [] /\ played (bzrun bz_new es) = [] /\ running (bzrun bz_new es) = false.
Proof.
  induction es as [|e es IH] using rev_ind; intros N; [cbn; auto|].
  rewrite bzrun_app. destruct IH as (Q & P & R).
  { intros now I. apply (N now). apply in_or_app. left. exact I. }
  set (s := bzrun bz_new es) in *. cbn. destruct e; cbn.
  - rewrite R, Q. auto.
  - exfalso. apply (N now). apply in_or_app. right. left. reflexivity.
  - rewrite R. cbn. auto.
Qed.

(** C90.  Tones are played in the order asked, each whole and never two at once; at most the newest ten
    can wait, so only older ones are ever skipped. *)
Theorem buzzer_order pre now es : (forall n, ~ In (StartBuzzer n) pre) ->
  let s := bzrun bz_new (pre ++ StartBuzzer now :: es) in
  subseq (map snd (played s) ++ bq s) (requested es) /\
  ends_with (map snd (played s) ++ bq s) (newest 10 (requested es)) /\
  length (bq s) <= 10.
Proof.
  intros N. cbv zeta.
  assert (G : running (bzrun bz_new (pre ++ StartBuzzer now :: es)) = true /\
              queue_ok 10 (map snd (played (bzrun bz_new (pre ++ StartBuzzer now :: es)))) (bq (bzrun bz_new (pre ++ StartBuzzer now :: es))) (requested es)).
  { induction es as [|e es [R O]] using rev_ind.
    - rewrite bzrun_app. destruct (buzzer_before pre N) as (Q & P & R). set (s := bzrun bz_new pre) in *.
      cbn. rewrite R. cbn. split; [reflexivity|]. rewrite P, Q. apply queue_start. reflexivity.
    - replace (pre ++ StartBuzzer now :: es ++ [e]) with ((pre ++ StartBuzzer now :: es) ++ [e]) by (rewrite <- app_assoc; reflexivity).
      rewrite bzrun_app, requested_app. set (s := bzrun bz_new (pre ++ StartBuzzer now :: es)) in *.
      cbn [bzrun fold_left]. destruct e; cbn [bzstep requested]; try rewrite app_nil_r.
      + rewrite R. cbn [running played bq]. split; [reflexivity|]. apply queue_publish; [lia|exact O].
      + rewrite R. auto.
      + rewrite R. cbn [andb]. destruct (free_at s <=? now0); [|auto]. destruct (bq s) as [|t rest] eqn:Q; [rewrite Q; auto|].
        cbn [running played bq]. split; [reflexivity|]. rewrite map_app. cbn [map]. apply queue_take. exact O. }
  destruct G as (_ & L & S & E). auto.
Qed.

Theorem buzzer_no_overlap es :
  forall i j ti tj a b, i < j ->
  nth_error (played (bzrun bz_new es)) i = Some (ti, a) ->
  nth_error (played (bzrun bz_new es)) j = Some (tj, b) ->
  ti + dur a + silent a <= tj.
Proof.
  assert (G : let s := bzrun bz_new es in
    (running s = false -> played s = []) /\
    (forall i t a, nth_error (played s) i = Some (t, a) -> t + dur a + silent a <= free_at s) /\
    (forall i j ti tj a b, i < j -> nth_error (played s) i = Some (ti, a) -> nth_error (played s) j = Some (tj, b) -> ti + dur a + silent a <= tj)).
  { induction es as [|e es (A & B & C)] using rev_ind; cbv zeta.
    - cbn. split; [reflexivity|]. split; intros [|]; discriminate.
    - rewrite bzrun_app. set (s := bzrun bz_new es) in *. cbn [bzrun fold_left]. destruct e; cbn [bzstep].
      + cbn. auto.
      + destruct (running s) eqn:R; [rewrite R; auto|]. cbn [running played free_at]. rewrite (A eq_refl).
        split; [discriminate|]. split; intros [|]; discriminate.
      + destruct (running s) eqn:R; cbn [andb]; [|rewrite R; auto]. destruct (Nat.leb_spec (free_at s) now); [|rewrite R; auto].
        destruct (bq s) as [|t rest]; [rewrite R; auto|]. cbn [running played free_at]. split; [discriminate|]. split.
        * intros i t' a X. destruct (lt_dec i (length (played s))).
          -- rewrite nth_error_app1 in X by assumption. specialize (B _ _ _ X). lia.
          -- rewrite nth_error_app2 in X by lia. destruct (i - length (played s)) as [|k]; [|destruct k; discriminate].
             cbn in X. injection X as <- <-. lia.
        * intros i j ti tj a b IJ X Y. destruct (lt_dec j (length (played s))).
          -- rewrite nth_error_app1 in X by lia. rewrite nth_error_app1 in Y by assumption. eauto.
          -- rewrite nth_error_app2 in Y by lia. destruct (j - length (played s)) as [|k] eqn:J; [|destruct k; discriminate].
             cbn in Y. injection Y as <- <-. rewrite nth_error_app1 in X by lia. specialize (B _ _ _ X). lia. }
  exact (proj2 (proj2 G)).
Qed.

Example buzzer_example :
  played (bzrun bz_new (Publish (Tone 1 1 1) :: StartBuzzer 5 :: [Publish (Tone 3000 50 200); Publish (Tone 2000 700 300); PollBuzzer 10; PollBuzzer 100; PollBuzzer 260]))
  = [(10, Tone 3000 50 200); (260, Tone 2000 700 300)].
Proof. reflexivity. Qed.

(** ** The merged logger *)
(** C91.  Specification of the answer, given the two loggers' own answers. *)
Definition merged_answer {E1 E2} (r1 : res bool E1) (r2 : res bool E2) : res bool (merged_error E1 E2) :=
  match r1, r2 with
  | ROk a, ROk b => ROk (a || b)
  | RErr e, ROk _ => RErr (Logger1 e)
  | ROk _, RErr e => RErr (Logger2 e)
  | RErr e1, RErr e2 => RErr (Both e1 e2)
  end.

(** Each of the two loggers goes through exactly the calls it would have seen alone, whatever the other
    one answers, and the merged answers are those of the specification. *)
Theorem merged_both_get_everything {R U S1 S2 E1 E2} (l1 : logger R U S1 E1) (l2 : logger R U S2 E2) s1 s2 cs :
  lcalls (merged l1 l2) (s1, s2) cs =
  ((fst (lcalls l1 s1 cs), fst (lcalls l2 s2 cs)),
   map (fun p => merged_answer (fst p) (snd p)) (combine (snd (lcalls l1 s1 cs)) (snd (lcalls l2 s2 cs)))).
Proof.
  revert s1 s2. induction cs as [|c cs IH]; intros; [reflexivity|]. cbn [lcalls].
  assert (E : lcall_step (merged l1 l2) (s1, s2) c =
    ((fst (lcall_step l1 s1 c), fst (lcall_step l2 s2 c)), merged_answer (snd (lcall_step l1 s1 c)) (snd (lcall_step l2 s2 c)))).
  { destruct c; cbn.
    - destruct (l_log l1 r s1) as [? [|]], (l_log l2 r s2) as [? [|]]; reflexivity.
    - destruct (l_unix l1 u s1) as [? [|]], (l_unix l2 u s2) as [? [|]]; reflexivity.
    - destruct (l_flush l1 s1) as [? [|]], (l_flush l2 s2) as [? [|]]; reflexivity. }
  rewrite E. clear E. destruct (lcall_step l1 s1 c) as [t1 r1], (lcall_step l2 s2 c) as [t2 r2]. cbn [fst snd].
  rewrite IH. destruct (lcalls l1 t1 cs), (lcalls l2 t2 cs). reflexivity.
Qed.

(** in particular a flush reaches both *)
Theorem merged_flushes_both {R U S1 S2 E1 E2} (l1 : logger R U S1 E1) (l2 : logger R U S2 E2) s1 s2 :
  fst (lcall_step (merged l1 l2) (s1, s2) CFlush) = (fst (l_flush l1 s1), fst (l_flush l2 s2)).
Proof. cbn. destruct (l_flush l1 s1), (l_flush l2 s2). reflexivity. Qed.

Example merged_example :
  let l k := Logger (fun (r : nat) (s : list nat) => (s ++ [r], if r =? k then RErr r else ROk (Nat.even r)))
                    (fun (u : nat) s => (s, ROk tt)) (fun s => (s, ROk tt)) in
  lcalls (merged (l 1) (l 2)) ([], []) [CLog 1; CLog 2; CLog 3; CLog 4; CFlush] =
  (([1; 2; 3; 4], [1; 2; 3; 4]), [RErr (Logger1 1); RErr (Logger2 2); ROk false; ROk true; ROk false]).
Proof. reflexivity. Qed.

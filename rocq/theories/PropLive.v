(** * C120: live samples on the strain-gauge console *)
From Coq Require Import List Arith Lia Bool.
Import ListNotations.
From Verif Require Import PubSub LiveSg.
Local Open Scope nat_scope.

Section Live.
Context {T : Type}.

(** ** Specification, by counting: [fresh] the samples measured since the session began, [seen] how many of them have been answered or passed over.
    A poll is answered with the oldest sample not answered yet among the last four, and with nothing when there is none. *)
Fixpoint expected (on : bool) (fresh : list T) (seen : nat) (es : list (levent T)) : list (option T) :=
  match es with
  | [] => []
  | LPlug :: t => if on then expected true fresh seen t else expected true [] 0 t
  | LUnplug :: t => expected false [] 0 t
  | LSample m :: t => expected on (fresh ++ [m]) seen t
  | LPoll :: t => if on then let i := max seen (length fresh - 4) in nth_error fresh i :: expected on fresh (if i <? length fresh then S i else seen) t
                  else expected on fresh seen t
  end.

Lemma skipn_last (l : list T) m n : n <= length l -> skipn n (l ++ [m]) = skipn n l ++ [m].
Proof. intros H. rewrite skipn_app. replace (n - length l) with 0 by lia. reflexivity. Qed.
Lemma nth_split_skip (l : list T) i : skipn i l = match nth_error l i with Some m => m :: skipn (S i) l | None => [] end.
Proof. revert i. induction l as [|a l IH]; intros [|i]; cbn [skipn nth_error]; try reflexivity. apply IH. Qed.

Lemma run_none es : fold_left (fun o e => match o with Some s => @live_event T s e | None => None end) es None = None.
Proof. induction es as [|e es IH]; [reflexivity|exact IH]. Qed.

Lemma live_spec es : forall on fresh seen ans, seen <= length fresh ->
  exists on' q', live_run (Live on (if on then skipn (max seen (length fresh - 4)) fresh else []) ans) es = Some (Live on' q' (ans ++ expected on fresh seen es)).
Proof.
  unfold live_run. induction es as [|e es IH]; intros on fresh seen ans Hs.
  - cbn [fold_left expected]. rewrite app_nil_r. eauto.
  - destruct e as [|m| |]; cbn [fold_left live_event live_step l_sub l_q l_answers expected].
    + destruct on; [exact (IH true fresh seen ans Hs)|]. exact (IH true [] 0 ans (Nat.le_0_l _)).
    + assert (E : publish LIVE_CAP on m (if on then skipn (max seen (length fresh - 4)) fresh else []) = (if on then skipn (max seen (length (fresh ++ [m]) - 4)) (fresh ++ [m]) else [])).
      { destruct on; [|reflexivity]. unfold publish. rewrite skipn_length, app_length. cbn [length]. set (n := length fresh) in *. unfold LIVE_CAP.
        destruct (Nat.eqb_spec (n - max seen (n - 4)) 4) as [E|E].
        - assert (E1 : max seen (n - 4) = n - 4) by lia. rewrite E1. assert (E2 : max seen (n + 1 - 4) = S (n - 4)) by lia. rewrite E2.
          rewrite skipn_last by (fold n; lia). f_equal. rewrite (nth_split_skip fresh (n - 4)).
          destruct (nth_error fresh (n - 4)) eqn:En; [reflexivity|]. apply nth_error_None in En. fold n in En. lia.
        - assert (E2 : max seen (n + 1 - 4) = max seen (n - 4)) by lia. rewrite E2. rewrite skipn_last by (fold n; lia). reflexivity. }
      rewrite E. apply (IH on (fresh ++ [m]) seen ans). rewrite app_length. lia.
    + destruct on; [|exact (IH false fresh seen ans Hs)]. set (i := max seen (length fresh - 4)). rewrite (nth_split_skip fresh i).
      assert (Hi : i <= length fresh) by (unfold i; lia).
      destruct (nth_error fresh i) as [m|] eqn:En.
      * assert (Li : i < length fresh) by (apply nth_error_Some; congruence). rewrite (proj2 (Nat.ltb_lt _ _) Li).
        destruct (IH true fresh (S i) (ans ++ [Some m])) as (on' & q' & X); [lia|]. exists on', q'.
        replace (max (S i) (length fresh - 4)) with (S i) in X by (unfold i; lia). rewrite <- app_assoc in X. exact X.
      * assert (Li : length fresh <= i) by (apply nth_error_None; exact En). rewrite (proj2 (Nat.ltb_ge _ _) Li).
        destruct (IH true fresh seen (ans ++ [None])) as (on' & q' & X); [exact Hs|]. exists on', q'. fold i in X.
        rewrite (nth_split_skip fresh i), En in X. rewrite <- app_assoc in X. exact X.
    + exact (IH false [] 0 ans (Nat.le_0_l _)).
Qed.

(** ** The theorems *)
(** whatever the order of samples, polls, connections and failures of the line: nothing panics, and the answers are those of the specification *)
Theorem C120_live_answers : forall es : list (levent T), exists s, live_run live_new es = Some s /\ l_answers s = expected false [] 0 es.
Proof. intros es. destruct (live_spec es false [] 0 [] (Nat.le_0_l _)) as (on & q & E). exists (Live on q (expected false [] 0 es)). split; [exact E|reflexivity]. Qed.

(** the samples measured while a session is running, and the answers to its polls *)
Definition samples_of (es : list (levent T)) : list T := flat_map (fun e => match e with LSample m => [m] | _ => [] end) es.
Definition somes (l : list (option T)) : list T := flat_map (fun o => match o with Some m => [m] | None => [] end) l.
Definition within (e : levent T) : Prop := match e with LSample _ | LPoll => True | _ => False end.
Inductive sublist : list T -> list T -> Prop :=
| sub_nil l : sublist [] l
| sub_take x a l : sublist a l -> sublist (x :: a) (x :: l)
| sub_skip x a l : sublist a l -> sublist a (x :: l).

Lemma sub_app a l p : sublist a l -> sublist a (p ++ l).
Proof. intros H. induction p as [|x p IH]; [exact H|]. cbn [app]. apply sub_skip. exact IH. Qed.
Lemma skip_skip (l : list T) n m : skipn n (skipn m l) = skipn (m + n) l.
Proof. revert l. induction m as [|m IH]; intros [|a l]; cbn [skipn Nat.add]; [reflexivity|reflexivity|apply skipn_nil|apply IH]. Qed.
Lemma sub_skipn a l n m : n <= m -> sublist a (skipn m l) -> sublist a (skipn n l).
Proof.
  intros H S. replace m with (n + (m - n)) in S by lia. rewrite <- skip_skip in S. rewrite <- (firstn_skipn (m - n) (skipn n l)).
  apply sub_app. exact S.
Qed.

Lemma order_go es : Forall within es -> forall fresh seen, seen <= length fresh -> sublist (somes (expected true fresh seen es)) (skipn seen (fresh ++ samples_of es)).
Proof.
  induction 1 as [|e es W _ IH]; intros fresh seen Hs; [constructor|]. destruct e as [|m| |]; cbn [within] in W; try contradiction.
  - cbn [expected]. specialize (IH (fresh ++ [m]) seen). rewrite <- app_assoc in IH. apply IH. rewrite app_length. lia.
  - cbn [expected]. unfold somes. cbn [flat_map]. fold (somes (expected true fresh (if max seen (length fresh - 4) <? length fresh then S (max seen (length fresh - 4)) else seen) es)).
    set (i := max seen (length fresh - 4)). change (samples_of (LPoll :: es)) with (samples_of es). destruct (nth_error fresh i) as [m|] eqn:En.
    + assert (Li : i < length fresh) by (apply nth_error_Some; congruence). rewrite (proj2 (Nat.ltb_lt _ _) Li).
      apply (sub_skipn _ _ seen i); [unfold i; lia|]. rewrite nth_split_skip. rewrite nth_error_app1 by exact Li. rewrite En. cbn [app]. apply sub_take.
      apply IH. lia.
    + assert (Li : length fresh <= i) by (apply nth_error_None; exact En). rewrite (proj2 (Nat.ltb_ge _ _) Li). cbn [app]. apply IH. exact Hs.
Qed.

Lemma expected_plug pre es : l_sub (match live_run live_new pre with Some s => s | None => live_new end) = false ->
  expected false [] 0 (pre ++ LPlug :: es) = expected false [] 0 pre ++ expected true [] 0 es.
Proof.
  assert (G : forall pre on fresh seen q ans, l_sub (match live_run (Live on q ans) pre with Some s => s | None => live_new end) = false ->
    expected on fresh seen (pre ++ LPlug :: es) = expected on fresh seen pre ++ expected true [] 0 es).
  { clear pre. unfold live_run. induction pre as [|e pre IH]; intros on fresh seen q ans H.
    - cbn [fold_left l_sub] in H. subst on. reflexivity.
    - destruct e as [|m| |]; cbn [app expected fold_left live_event live_step l_sub l_q l_answers] in *.
      + destruct on; cbn [l_sub] in *; exact (IH _ _ _ _ _ H).
      + exact (IH _ _ _ _ _ H).
      + destruct on; [|exact (IH _ _ _ _ _ H)]. cbn [app]. f_equal. destruct q as [|x q]; exact (IH _ _ _ _ _ H).
      + exact (IH _ _ _ _ _ H). }
  apply G.
Qed.

(** within a session: the samples answered are samples of this session, in the order in which they were measured, none twice (the same
    value is answered again only if it was measured again); a poll is answered with nothing exactly when everything measured has been answered;
    and an answer is one of the last four samples *)
Theorem C120_session : forall pre es, l_sub (match live_run live_new pre with Some s => s | None => live_new end) = false -> Forall within es ->
  exists s answers, live_run live_new (pre ++ LPlug :: es) = Some s /\ l_answers s = expected false [] 0 pre ++ answers /\ sublist (somes answers) (samples_of es).
Proof.
  intros pre es H W. destruct (C120_live_answers (pre ++ LPlug :: es)) as (s & E & A). exists s, (expected true [] 0 es).
  split; [exact E|]. split; [rewrite A; apply expected_plug; exact H|]. exact (order_go es W [] 0 (Nat.le_0_l _)).
Qed.

(** the answer to the last poll of a session *)
Theorem C120_fresh : forall pre es m, l_sub (match live_run live_new pre with Some s => s | None => live_new end) = false -> Forall within es ->
  forall s, live_run live_new (pre ++ LPlug :: es ++ [LPoll]) = Some s -> last (l_answers s) None = Some m ->
  exists older newer, samples_of es = older ++ m :: newer /\ length newer <= 3.
Proof.
  intros pre es m H W s E L. destruct (C120_live_answers (pre ++ LPlug :: es ++ [LPoll])) as (s' & E' & A). rewrite E in E'. injection E' as <-.
  rewrite A, expected_plug in L by exact H.
  assert (G : forall es, Forall within es -> forall fresh seen, seen <= length fresh -> exists seen', expected true fresh seen (es ++ [LPoll]) =
     expected true fresh seen es ++ [nth_error (fresh ++ samples_of es) (max seen' (length (fresh ++ samples_of es) - 4))]).
  { clear. induction 1 as [|e es W _ IH]; intros fresh seen Hs.
    - exists seen. cbn [app expected]. rewrite app_nil_r. reflexivity.
    - destruct e as [|x| |]; cbn [within] in W; try contradiction.
      + cbn [app expected]. destruct (IH (fresh ++ [x]) seen) as (s' & X); [rewrite app_length; lia|]. exists s'. rewrite X. rewrite <- app_assoc. reflexivity.
      + cbn [app expected]. destruct (IH fresh (if max seen (length fresh - 4) <? length fresh then S (max seen (length fresh - 4)) else seen)) as (s' & X).
        { destruct (Nat.ltb_spec (max seen (length fresh - 4)) (length fresh)); lia. }
        exists s'. rewrite X. reflexivity. }
  destruct (G es W [] 0 (Nat.le_0_l _)) as (seen' & X). rewrite X in L. rewrite app_assoc, last_last in L. cbn [app] in L.
  set (i := max seen' (length (samples_of es) - 4)) in *. destruct (nth_error_split _ _ L) as (a & b & Es & La). exists a, b. split; [exact Es|].
  assert (length (samples_of es) = length a + S (length b)) by (rewrite Es, app_length; reflexivity). unfold i in La. lia.
Qed.

(** polled at least as often as samples are measured, the console misses none: each poll answers the sample just measured *)
Theorem C120_nothing_missed_when_polled : forall ms : list T, exists s,
  live_run live_new (LPlug :: flat_map (fun m => [LSample m; LPoll]) ms) = Some s /\ l_answers s = map Some ms.
Proof.
  intros ms. destruct (C120_live_answers (LPlug :: flat_map (fun m => [LSample m; LPoll]) ms)) as (s & E & A). exists s. split; [exact E|]. rewrite A. cbn [expected].
  assert (G : forall ms fresh, expected true fresh (length fresh) (flat_map (fun m => [LSample m; LPoll]) ms) = map Some ms).
  { clear. induction ms as [|m ms IH]; intros fresh; [reflexivity|]. cbn [flat_map app expected map]. rewrite app_length. cbn [length].
    replace (max (length fresh) (length fresh + 1 - 4)) with (length fresh) by lia. rewrite nth_error_app2 by lia. rewrite Nat.sub_diag. cbn [nth_error]. f_equal.
    assert (L : length fresh < length fresh + 1) by lia. rewrite (proj2 (Nat.ltb_lt _ _) L). specialize (IH (fresh ++ [m])). rewrite app_length in IH. cbn [length] in IH.
    rewrite Nat.add_1_r in IH. rewrite <- IH. reflexivity. }
  exact (G ms []).
Qed.
End Live.
Print Assumptions C120_live_answers.
Print Assumptions C120_session.
Print Assumptions C120_fresh.
Print Assumptions C120_nothing_missed_when_polled.

(** a poll need not get the newest sample: after six samples it gets the third; samples measured before the session are not seen *)
Theorem C120_refuted_newest : exists s, live_run live_new [LSample 9; LPlug; LSample 1; LSample 2; LSample 3; LSample 4; LSample 5; LSample 6; LPoll; LPoll] = Some s /\
  l_answers s = [Some 3; Some 4].
Proof. eexists. split; reflexivity. Qed.
Example ex_C120 : l_sub (match live_run (@live_new nat) [LSample 9] with Some s => s | None => live_new end) = false /\
  Forall within [LSample 1; LPoll; LPoll; LSample 2] /\
  exists s, live_run live_new ([LSample 9] ++ LPlug :: [LSample 1; LPoll; LPoll; LSample 2] ++ [LPoll]) = Some s /\ l_answers s = [Some 1; None; Some 2].
Proof. split; [reflexivity|]. split; [repeat constructor|]. eexists. split; reflexivity. Qed.

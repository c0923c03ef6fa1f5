(** * C108: the vacuum-chamber test records the deployments. *)
From Coq Require Import List Bool Arith Lia QArith.
From Verif Require Import PubSub PropBuffered Numerics VLP FlightCore PropFlight PropBackup Vacuum.
Import ListNotations.
Local Open Scope nat_scope.
Local Open Scope list_scope.

(** ** Specification *)
Section Spec.
Context {A : numerics}.
Implicit Types (s : vt A) (es : list (vevent A)) (p : profile A).

(** the barometer readings of a run *)
Definition fed es : list (reading A) := flat_map (fun e => match e with VTick r => [r] | _ => [] end) es.
(** the states the flight core announces for some readings *)
Definition announces (p : profile A) (l : list (reading A)) (sts : list core_state) : Prop :=
  exists b ess, brun p new_backup l = Some (b, ess) /\ changes (concat ess) = sts.
Definition last_of (l : list core_state) : option core_state := match rev l with [] => None | x :: _ => Some x end.
Definition in_progress s : list (vrecord A) := match v_pos s with VBusy r => [r] | _ => [] end.
Definition logged_states s : list core_state := map snd (v_logged s).
Definition count (f : core_state -> bool) (l : list core_state) : nat := length (filter f l).

(** the logging task keeps up: it is there, and has left at most one event waiting, whenever a reading comes in *)
Fixpoint keeps_up p s es : Prop :=
  match es with
  | [] => True
  | e :: t => match e with VTick _ => v_subscribed s = true /\ length (v_q s) <= 1 | _ => True end /\
              match vstep p s e with Some s' => keeps_up p s' t | None => True end
  end.

(** ** Proofs *)
Lemma vrun_app p es1 : forall s es2, vrun p s (es1 ++ es2) = match vrun p s es1 with Some s' => vrun p s' es2 | None => None end.
Proof. induction es1 as [|e es1 IH]; intros s es2; cbn [vrun app]; [reflexivity|]. destruct (vstep p s e); [apply IH|reflexivity]. Qed.
Lemma vrun_snoc p es e s0 s : vrun p s0 (es ++ [e]) = Some s -> exists s1, vrun p s0 es = Some s1 /\ vstep p s1 e = Some s.
Proof. rewrite vrun_app. destruct (vrun p s0 es) as [s1|]; [|discriminate]. cbn [vrun]. destruct (vstep p s1 e) as [s2|] eqn:E; [|discriminate]. intros [= <-]. eauto. Qed.

Lemma publish_newest {T} (m : T) q : length q <= 3 -> publish 3 true m q = newest 3 (q ++ [m]).
Proof.
  intros H. unfold publish, newest. rewrite app_length. cbn [length]. destruct (Nat.eqb_spec (length q) 3) as [E|E].
  - rewrite E. cbn [Nat.add Nat.sub]. destruct q; [discriminate E|reflexivity].
  - replace (length q + 1 - 3) with 0 by lia. reflexivity.
Qed.
Lemma newest_short {T} n (a b : list T) : n <= length b -> newest n (a ++ b) = newest n b.
Proof.
  intros H. unfold newest. rewrite app_length, skipn_app. rewrite skipn_all2 by lia. cbn [app]. f_equal. lia.
Qed.
Lemma newest_newest_app {T} (a b : list T) : newest 3 (newest 3 a ++ b) = newest 3 (a ++ b).
Proof.
  destruct (Nat.le_gt_cases (length a) 3) as [L|L].
  - unfold newest at 2. replace (length a - 3) with 0 by lia. reflexivity.
  - assert (E : a ++ b = firstn (length a - 3) a ++ (newest 3 a ++ b)) by (unfold newest; rewrite app_assoc, firstn_skipn; reflexivity).
    rewrite E. symmetry. apply newest_short. rewrite app_length, newest_length. lia.
Qed.
Lemma publish_all_on (es : list (event A)) : forall q : list (event A), length q <= 3 -> publish_all true es q = newest 3 (q ++ es).
Proof.
  induction es as [|e es IH]; intros q H; cbn [publish_all fold_left].
  - rewrite app_nil_r. unfold newest. replace (length q - 3) with 0 by lia. reflexivity.
  - change (publish_all true es (publish 3 true e q) = newest 3 (q ++ e :: es)). rewrite publish_newest by exact H.
    rewrite IH by (rewrite newest_length; lia). rewrite newest_newest_app, <- app_assoc. reflexivity.
Qed.
Lemma publish_all_off (es : list (event A)) : forall q : list (event A), publish_all false es q = q.
Proof. induction es as [|e es IH]; intros q; [reflexivity|]. cbn [publish_all fold_left publish]. apply IH. Qed.

Lemma subseq_changes (a b : list (event A)) : subseq a b -> subseq (changes a) (changes b).
Proof.
  induction 1 as [|x a b H IH|x a b H IH]; [constructor| |].
  - unfold changes. cbn [flat_map]. destruct x; cbn [app]; try exact IH. constructor. exact IH.
  - unfold changes. cbn [flat_map]. destruct x; cbn [app]; try exact IH. constructor. exact IH.
Qed.
Lemma subseq_app {T} (a b c d : list T) : subseq a b -> subseq c d -> subseq (a ++ c) (b ++ d).
Proof. induction 1; cbn [app]; auto; intros; constructor; auto. Qed.
Lemma subseq_none {T} (a : list T) : subseq [] a.
Proof. induction a; constructor; auto. Qed.
Lemma subseq_trans {T} (a b c : list T) : subseq a b -> subseq b c -> subseq a c.
Proof.
  intros H K. revert a H. induction K as [|x b c K IH|x b c K IH]; intros a H; [exact H| |constructor; apply IH; exact H].
  inversion H; subst; [constructor; apply IH; assumption|constructor; apply IH; assumption].
Qed.
Lemma newest_sub {T} n (l : list T) : subseq (newest n l) l.
Proof.
  unfold newest. generalize (length l - n). clear n. intros k. revert l. induction k as [|k IH]; intros [|x l]; cbn [skipn]; try apply subseq_refl. constructor. apply IH.
Qed.
Lemma subseq_In {T} (a b : list T) x : subseq a b -> In x a -> In x b.
Proof. induction 1; cbn; intuition. Qed.
Lemma subseq_app_l {T} (a b c : list T) : subseq (a ++ b) c -> subseq a c.
Proof. intros H. eapply subseq_trans; [|exact H]. rewrite <- (app_nil_r a) at 1. apply subseq_app; [apply subseq_refl|apply subseq_none]. Qed.
Lemma subseq_nodup {T} (a b : list T) : subseq a b -> NoDup b -> NoDup a.
Proof.
  induction 1 as [|x a b H IH|x a b H IH]; intros Nd; [constructor| |]; inversion Nd; subst; auto.
  constructor; auto. intros I. apply H2. eapply subseq_In; eauto.
Qed.

Record vinv p es s : Prop := {
  vi_core : exists ess, brun p new_backup (fed es) = Some (v_core s, ess) /\ v_published s = concat ess;
  vi_len : length (v_q s) <= 3;
  vi_sub : subseq (v_taken s ++ changes (v_q s)) (changes (v_published s));
  vi_off : v_pos s = VNotStarted -> v_q s = [] /\ v_taken s = [];
  vi_taken : v_taken s = logged_states s ++ map snd (in_progress s);
  vi_beeps : v_beeps s = count beeps (v_taken s);
  vi_show : match v_signal s with Some st => last_of (v_taken s) = Some st | None => v_shown s = last_of (v_taken s) end }.

Lemma changes_app (a b : list (event A)) : changes (a ++ b) = changes a ++ changes b.
Proof. unfold changes. apply flat_map_app. Qed.
Lemma last_snoc l x : last_of (l ++ [x]) = Some x.
Proof. unfold last_of. rewrite rev_app_distr. reflexivity. Qed.
Lemma fed_snoc es e : fed (es ++ [e]) = fed es ++ match e with VTick r => [r] | _ => [] end.
Proof. unfold fed. rewrite flat_map_app. cbn [flat_map]. rewrite app_nil_r. reflexivity. Qed.

Lemma vinv_run p es : forall s, vrun p v_new es = Some s -> vinv p es s.
Proof.
  induction es as [|e es IH] using rev_ind; intros s H.
  - injection H as <-. constructor; cbn; try reflexivity; try lia; auto. + exists []. split; reflexivity. + constructor.
  - destruct (vrun_snoc p es e _ s H) as (s1 & H1 & E). destruct (IH s1 H1) as [Co Le Su Of Ta Be Sh]. clear IH H.
    destruct e as [r| |now| |]; cbn [vstep] in E.
    + destruct (btick p (v_core s1) r) as [[b ev]|] eqn:Eb; [|discriminate]. injection E as <-.
      constructor; cbn [v_core v_q v_pos v_signal v_shown v_published v_taken v_beeps v_logged in_progress]; try assumption.
      * destruct Co as (ess & B & P). exists (ess ++ [ev]). rewrite fed_snoc. rewrite brun_snoc, B, Eb. split; [reflexivity|]. rewrite P, concat_app. cbn [concat]. rewrite app_nil_r. reflexivity.
      * destruct (v_subscribed s1); [rewrite publish_all_on by exact Le; rewrite newest_length; lia|rewrite publish_all_off; exact Le].
      * rewrite changes_app. destruct (v_subscribed s1); [|rewrite publish_all_off; rewrite <- (app_nil_r (v_taken s1 ++ _)); apply subseq_app; [exact Su|apply subseq_none]].
        rewrite publish_all_on by exact Le. eapply subseq_trans; [apply subseq_app; [apply subseq_refl|apply subseq_changes, newest_sub]|].
        rewrite changes_app, app_assoc. apply subseq_app; [exact Su|apply subseq_refl].
      * intros N. destruct (Of N) as [Q T]. split; [|exact T]. unfold v_subscribed. rewrite N, publish_all_off. exact Q.
    + destruct (v_pos s1) eqn:P; try discriminate. injection E as <-.
      constructor; cbn [v_core v_q v_pos v_signal v_shown v_published v_taken v_beeps v_logged]; rewrite ?fed_snoc, ?app_nil_r; try assumption; [discriminate|].
      unfold in_progress, logged_states in *. rewrite P in Ta. cbn [map v_logged v_pos] in *. rewrite ?app_nil_r in *. exact Ta.
    + destruct (v_pos s1) eqn:P; try discriminate. destruct (v_q s1) as [|ev q] eqn:Q; try discriminate.
      assert (Keep : forall s', s' = VT (v_core s1) q VWaiting (v_signal s1) (v_shown s1) (v_published s1) (v_taken s1) (v_beeps s1) (v_logged s1) ->
         changes (ev :: q) = changes q -> vinv p (es ++ [VTake now]) s').
      { intros s' -> Ec. constructor; cbn [v_core v_q v_pos v_signal v_shown v_published v_taken v_beeps v_logged]; rewrite ?fed_snoc, ?app_nil_r; try assumption.
        - cbn [length] in Le. lia.
        - rewrite <- Ec. exact Su.
        - discriminate.
        - unfold in_progress, logged_states in *. rewrite P in Ta. cbn [map v_logged v_pos] in *. rewrite ?app_nil_r in *. exact Ta. }
      destruct ev; try (injection E as <-; apply Keep; reflexivity). injection E as <-.
      constructor; cbn [v_core v_q v_pos v_signal v_shown v_published v_taken v_beeps v_logged]; rewrite ?fed_snoc, ?app_nil_r; try assumption.
      * cbn [length] in Le. lia.
      * rewrite <- app_assoc. exact Su.
      * discriminate.
      * unfold in_progress, logged_states in *. rewrite P in Ta. cbn [v_pos v_logged map snd]. cbn [map] in Ta. rewrite app_nil_r in Ta. rewrite Ta. reflexivity.
      * unfold count in *. rewrite filter_app, app_length. cbn [filter]. rewrite Be. match goal with |- context [beeps ?x] => destruct (beeps x) end; reflexivity.
      * apply last_snoc.
    + destruct (v_pos s1) as [| |r] eqn:P; try discriminate. injection E as <-.
      constructor; cbn [v_core v_q v_pos v_signal v_shown v_published v_taken v_beeps v_logged]; rewrite ?fed_snoc, ?app_nil_r; try assumption; [discriminate|].
      unfold in_progress, logged_states in *. rewrite P in Ta. cbn [v_pos v_logged map]. rewrite map_app. cbn [map]. rewrite ?app_nil_r. exact Ta.
    + destruct (v_signal s1) as [st|] eqn:Sg; try discriminate. injection E as <-.
      constructor; cbn [v_core v_q v_pos v_signal v_shown v_published v_taken v_beeps v_logged]; rewrite ?fed_snoc, ?app_nil_r; try assumption. symmetry. exact Sh.
Qed.

Lemma order_nodup : NoDup [Armed; DrogueChuteDeployed; MainChuteDeployed; Landed].
Proof. repeat constructor; cbn; intuition discriminate. Qed.
Lemma firstn_sub {T} n (l : list T) : subseq (firstn n l) l.
Proof. rewrite <- (firstn_skipn n l) at 2. rewrite <- (app_nil_r (firstn n l)) at 1. apply subseq_app; [apply subseq_refl|apply subseq_none]. Qed.
Lemma published_order p es s : vrun p v_new es = Some s -> announces p (fed es) (changes (v_published s)) /\ exists n, changes (v_published s) = firstn n [Armed; DrogueChuteDeployed; MainChuteDeployed; Landed].
Proof.
  intros H. destruct (vi_core p es s (vinv_run p es s H)) as (ess & B & P). rewrite P. split; [exists (v_core s), ess; auto|].
  destruct (C44_backup_deploys_in_order p (fed es)) as (b & ess' & B' & N & _). rewrite B in B'. injection B' as _ <-. exact N.
Qed.
Lemma published_nodup p es s : vrun p v_new es = Some s -> NoDup (changes (v_published s)).
Proof. intros H. destruct (proj2 (published_order p es s H)) as (n & ->). eapply subseq_nodup; [apply firstn_sub|exact order_nodup]. Qed.

(** For every schedule: the log holds announced states only, in the order of announcement, each at most once; there is
    one beep per deployment taken from the queue and no other; the indicator shows the state taken last, or is about to. *)
Theorem C108_log_in_order : forall p es s, vrun p v_new es = Some s -> exists sts, announces p (fed es) sts /\
  subseq (logged_states s) sts /\ subseq (logged_states s) [Armed; DrogueChuteDeployed; MainChuteDeployed; Landed] /\
  v_beeps s = count beeps (logged_states s ++ map snd (in_progress s)) /\ v_beeps s <= 2 /\
  (v_signal s = None -> v_shown s = last_of (logged_states s ++ map snd (in_progress s))).
Proof.
  intros p es s H. destruct (vinv_run p es s H) as [_ _ Su _ Ta Be Sh]. destruct (published_order p es s H) as (An & n & Or).
  exists (changes (v_published s)). split; [exact An|].
  assert (S1 : subseq (v_taken s) (changes (v_published s))) by (eapply subseq_app_l; exact Su).
  assert (S2 : subseq (logged_states s) (changes (v_published s))) by (rewrite Ta in S1; eapply subseq_app_l; exact S1).
  assert (S3 : subseq (changes (v_published s)) [Armed; DrogueChuteDeployed; MainChuteDeployed; Landed]) by (rewrite Or; apply firstn_sub).
  split; [exact S2|]. split; [eapply subseq_trans; eauto|]. rewrite <- Ta. split; [exact Be|]. split.
  - rewrite Be. assert (K : forall a b, subseq a b -> count beeps a <= count beeps b).
    { clear. unfold count. induction 1; cbn [filter]; [lia| |]; destruct (beeps x); cbn [length]; lia. }
    specialize (K _ _ (subseq_trans _ _ _ S1 S3)). exact K.
  - intros N. rewrite N in Sh. exact Sh.
Qed.

Lemma keeps_up_inv p es : forall s s', vrun p s es = Some s' -> keeps_up p s es -> length (v_q s) <= 3 -> v_taken s ++ changes (v_q s) = changes (v_published s) ->
  v_taken s' ++ changes (v_q s') = changes (v_published s').
Proof.
  induction es as [|e es IH]; intros s s' H K L E; [injection H as <-; exact E|]. cbn [vrun] in H. destruct (vstep p s e) as [s1|] eqn:Es; [|discriminate].
  cbn [keeps_up] in K. rewrite Es in K. destruct K as [K1 K2]. apply (IH s1 s' H K2); clear IH H K2.
  - destruct e as [r| |now| |]; cbn [vstep] in Es.
    + destruct (btick p (v_core s) r) as [[b ev]|]; [|discriminate]. injection Es as <-. cbn [v_q]. destruct K1 as [-> _]. rewrite publish_all_on by exact L. rewrite newest_length. lia.
    + destruct (v_pos s); try discriminate. injection Es as <-. exact L.
    + destruct (v_pos s); try discriminate. destruct (v_q s) as [|[] q]; try discriminate; injection Es as <-; cbn [v_q length] in *; lia.
    + destruct (v_pos s); try discriminate. injection Es as <-. exact L.
    + destruct (v_signal s); try discriminate. injection Es as <-. exact L.
  - destruct e as [r| |now| |]; cbn [vstep] in Es.
    + destruct (btick p (v_core s) r) as [[b ev]|] eqn:Eb; [|discriminate]. injection Es as <-. cbn [v_q v_taken v_published]. destruct K1 as [-> K1].
      assert (Le : length ev <= 2).
      { unfold btick in Eb. destruct (b_state (v_core s)); [| | | | |];
          repeat match type of Eb with context [if ?c then _ else _] => destruct c | context [match ?c with Some _ => _ | None => _ end] => destruct c end;
          try discriminate; injection Eb as _ <-; cbn; lia. }
      rewrite publish_all_on by exact L. unfold newest. rewrite app_length. replace (length (v_q s) + length ev - 3) with 0 by lia. cbn [skipn].
      rewrite !changes_app, app_assoc, E. reflexivity.
    + destruct (v_pos s); try discriminate. injection Es as <-. exact E.
    + destruct (v_pos s); try discriminate. destruct (v_q s) as [|[] q]; try discriminate; injection Es as <-; cbn [v_q v_taken v_published]; rewrite <- E; try reflexivity.
      rewrite <- app_assoc. reflexivity.
    + destruct (v_pos s); try discriminate. injection Es as <-. exact E.
    + destruct (v_signal s); try discriminate. injection Es as <-. exact E.
Qed.

(** If the logging task keeps up with the readings, nothing is lost: once it is idle, every announced state is in the log. *)
Theorem C108_log_complete_partial : forall p es s, vrun p v_new es = Some s -> keeps_up p v_new es -> v_q s = [] -> in_progress s = [] ->
  announces p (fed es) (logged_states s).
Proof.
  intros p es s H K Q I. pose proof (keeps_up_inv p es v_new s H K ltac:(cbn; lia) eq_refl) as E. destruct (vinv_run p es s H) as [_ _ _ _ Ta _ _].
  rewrite Q, Ta, I in E. cbn in E. rewrite !app_nil_r in E. rewrite E. exact (proj1 (published_order p es s H)).
Qed.

Lemma btick_some p s r s' : vstep p s (VTick r) = Some s' -> exists ev, v_published s' = v_published s ++ ev /\ 1 <= length ev /\ v_taken s' = v_taken s /\
  v_pos s' = v_pos s /\ (v_subscribed s = true -> length (v_q s) <= 3 -> v_q s' = newest 3 (v_q s ++ ev)).
Proof.
  cbn [vstep]. destruct (btick p (v_core s) r) as [[b ev]|] eqn:Eb; [|discriminate]. intros [= <-]. exists ev. cbn [v_published v_taken v_pos v_q]. split; [reflexivity|].
  split; [|split; [reflexivity|split; [reflexivity|intros -> L; apply publish_all_on; exact L]]].
  unfold btick in Eb. destruct (b_state (v_core s)); [| | | | |];
    repeat match type of Eb with context [if ?c then _ else _] => destruct c | context [match ?c with Some _ => _ | None => _ end] => destruct c end;
    try discriminate; injection Eb as _ <-; cbn; lia.
Qed.

Definition gone s st : Prop := In st (changes (v_published s)) /\ ~ In st (v_taken s ++ changes (v_q s)).
Lemma gone_step p es s e s' st : vrun p v_new es = Some s -> vstep p s e = Some s' -> gone s st -> gone s' st.
Proof.
  intros H E [G1 G2]. assert (H' : vrun p v_new (es ++ [e]) = Some s') by (rewrite vrun_app, H; cbn [vrun]; rewrite E; reflexivity).
  destruct (vinv_run p es s H) as [_ Le _ _ _ _ _].
  destruct e as [r| |now| |].
  - pose proof (published_nodup p _ s' H') as Nd. cbn [vstep] in E. destruct (btick p (v_core s) r) as [[b ev]|]; [|discriminate]. injection E as <-.
    unfold gone. cbn [v_published v_taken v_q] in *. rewrite changes_app in *. split; [apply in_or_app; left; exact G1|]. intros I. apply in_app_or in I.
    destruct I as [I|I]; [apply G2, in_or_app; left; exact I|].
    assert (I2 : In st (changes (v_q s) ++ changes ev)).
    { destruct (v_subscribed s); [|rewrite publish_all_off in I; apply in_or_app; left; exact I]. rewrite publish_all_on in I by exact Le. rewrite <- changes_app.
      eapply subseq_In; [apply subseq_changes, newest_sub|exact I]. }
    apply in_app_or in I2. destruct I2 as [I2|I2]; [apply G2, in_or_app; right; exact I2|].
    clear -Nd G1 I2. induction (changes (v_published s)) as [|x l IH]; [destruct G1|]. cbn [app] in Nd. inversion Nd; subst. destruct G1 as [->|G1]; [apply H1, in_or_app; right; exact I2|exact (IH G1 H2)].
  - cbn [vstep] in E. destruct (v_pos s); try discriminate. injection E as <-. split; assumption.
  - cbn [vstep] in E. destruct (v_pos s); try discriminate. destruct (v_q s) as [|[] q] eqn:Q; try discriminate; injection E as <-; (split; [exact G1|]); cbn [v_taken v_q]; try exact G2.
    rewrite <- app_assoc. exact G2.
  - cbn [vstep] in E. destruct (v_pos s); try discriminate. injection E as <-. split; assumption.
  - cbn [vstep] in E. destruct (v_signal s); try discriminate. injection E as <-. split; assumption.
Qed.
Lemma gone_run p es2 : forall es s s' st, vrun p v_new es = Some s -> vrun p s es2 = Some s' -> gone s st -> gone s' st.
Proof.
  induction es2 as [|e es2 IH]; intros es s s' st H H2 G; [injection H2 as <-; exact G|]. cbn [vrun] in H2. destruct (vstep p s e) as [s1|] eqn:E; [|discriminate].
  apply (IH (es ++ [e]) s1 s' st); [rewrite vrun_app, H; cbn [vrun]; rewrite E; reflexivity|exact H2|eapply gone_step; eauto].
Qed.

Lemma newest3_drop {T} (q a b c d : list T) : 1 <= length b -> 1 <= length c -> 1 <= length d ->
  newest 3 (newest 3 (newest 3 (newest 3 (q ++ a) ++ b) ++ c) ++ d) = newest 3 (b ++ c ++ d).
Proof.
  intros B C D. rewrite newest_newest_app, <- app_assoc, newest_newest_app, <- app_assoc, newest_newest_app. apply newest_short. rewrite !app_length. lia.
Qed.

(** The full claim - every deployment is logged - is false: a state announced while a record is being written is
    lost for good if three more readings come in before the write ends. *)
Theorem C108_slow_write_loses_state : forall p es s r r1 r2 r3 es2 s' st, vrun p v_new es = Some s -> in_progress s <> [] ->
  (* the reading [r] makes the flight core announce [st] *)
  ~ In st (changes (v_published s)) -> announces p (fed (es ++ [VTick r])) (changes (v_published s) ++ [st]) ->
  vrun p s ([VTick r; VTick r1; VTick r2; VTick r3] ++ es2) = Some s' ->
  (exists sts, announces p (fed (es ++ [VTick r; VTick r1; VTick r2; VTick r3] ++ es2)) sts /\ In st sts) /\ ~ In st (logged_states s').
Proof.
  intros p es s r r1 r2 r3 es2 s' st H I N An H2. destruct (vinv_run p es s H) as [_ Le Su _ _ _ _].
  assert (Sb : v_subscribed s = true) by (unfold v_subscribed, in_progress in *; destruct (v_pos s); congruence).
  rewrite vrun_app in H2. destruct (vrun p s [VTick r; VTick r1; VTick r2; VTick r3]) as [sd|] eqn:E4; [|discriminate].
  assert (Hd : vrun p v_new (es ++ [VTick r; VTick r1; VTick r2; VTick r3]) = Some sd) by (rewrite vrun_app, H; exact E4).
  cbn [vrun] in E4.
  destruct (vstep p s (VTick r)) as [sa|] eqn:Ea; [|discriminate]. destruct (vstep p sa (VTick r1)) as [sb|] eqn:Eb; [|discriminate].
  destruct (vstep p sb (VTick r2)) as [sc|] eqn:Ec; [|discriminate]. destruct (vstep p sc (VTick r3)) as [sd'|] eqn:Ed; [|discriminate]. injection E4 as <-.
  assert (Ha : vrun p v_new (es ++ [VTick r]) = Some sa) by (rewrite vrun_app, H; cbn [vrun]; rewrite Ea; reflexivity).
  destruct (btick_some p s r sa Ea) as (ea & Pa & La & Ta & Oa & Qa). destruct (btick_some p sa r1 sb Eb) as (eb & Pb & Lb & Tb & Ob & Qb).
  destruct (btick_some p sb r2 sc Ec) as (ec & Pc & Lc & Tc & Oc & Qc). destruct (btick_some p sc r3 sd' Ed) as (ed & Pd & Ld & Td & Od & Qd).
  assert (Sa : v_subscribed sa = true) by (unfold v_subscribed in *; rewrite Oa; exact Sb).
  assert (Sb' : v_subscribed sb = true) by (unfold v_subscribed in *; rewrite Ob; exact Sa).
  assert (Sc : v_subscribed sc = true) by (unfold v_subscribed in *; rewrite Oc; exact Sb').
  specialize (Qa Sb Le). assert (La3 : length (v_q sa) <= 3) by (rewrite Qa, newest_length; lia).
  specialize (Qb Sa La3). assert (Lb3 : length (v_q sb) <= 3) by (rewrite Qb, newest_length; lia).
  specialize (Qc Sb' Lb3). assert (Lc3 : length (v_q sc) <= 3) by (rewrite Qc, newest_length; lia).
  specialize (Qd Sc Lc3). rewrite Qc, Qb, Qa, newest3_drop in Qd by assumption.
  assert (Pst : In st (changes (v_published sa))).
  { destruct An as (b & ess & B & C). destruct (vi_core p _ sa (vinv_run p _ sa Ha)) as (ess' & B' & C'). rewrite B in B'. injection B' as _ <-. rewrite C', C. apply in_or_app. right. left. reflexivity. }
  assert (G : gone sd' st).
  { pose proof (published_nodup p _ sd' Hd) as Nd. unfold gone. rewrite Pd, Pc, Pb in *. rewrite <- !app_assoc in Nd. rewrite <- !app_assoc. rewrite changes_app in *.
    split; [apply in_or_app; left; exact Pst|]. intros J. apply in_app_or in J. destruct J as [J|J].
    - rewrite Td, Tc, Tb, Ta in J. apply N. eapply subseq_In; [exact Su|]. apply in_or_app. left. exact J.
    - rewrite Qd in J. assert (J2 : In st (changes (eb ++ ec ++ ed))) by (eapply subseq_In; [apply subseq_changes, newest_sub|exact J]).
      clear -Nd Pst J2. induction (changes (v_published sa)) as [|x l IH]; [destruct Pst|]. cbn [app] in Nd. inversion Nd; subst. destruct Pst as [->|P]; [apply H1, in_or_app; right; exact J2|exact (IH P H2)]. }
  pose proof (gone_run p es2 _ sd' s' st Hd H2 G) as [G1 G2].
  assert (He : vrun p v_new (es ++ [VTick r; VTick r1; VTick r2; VTick r3] ++ es2) = Some s') by (rewrite app_assoc, vrun_app, Hd; exact H2).
  split.
  - exists (changes (v_published s')). split; [exact (proj1 (published_order p _ s' He))|exact G1].
  - intros J. apply G2, in_or_app. left. rewrite (vi_taken p _ s' (vinv_run p _ s' He)). apply in_or_app. left. exact J.
Qed.
End Spec.

(** ** A chamber run on which both happen.  Readings every 5 ms or more (exact arithmetic): on the pad, falling, drogue, below the
    main altitude, main. *)
Definition vread (t alt v : Z) : reading exact := Reading (A := exact) (lit64 (inject_Z t)) (lit32 (inject_Z alt)) (lit32 (inject_Z v)).
Arguments vread (_ _ _)%Z.
Definition vtake (t : Z) : vevent exact := VTake (A := exact) (lit64 (inject_Z t)).
Arguments vtake _%Z.
Definition v_part1 : list (vevent exact) :=
  [VStart; VTick (vread 0 30 0); vtake 1; vtake 1; VFinish; VShow; VTick (vread 1000 2000 (-30)); vtake 1001; VTick (vread 3000 1900 (-30)); vtake 3001; vtake 3001; VFinish; VShow;
   VTick (vread 3005 300 (-20)); vtake 3006; VTick (vread 5000 280 (-20)); vtake 5001; vtake 5001].
Definition v_kept : list (vevent exact) := v_part1 ++ [VFinish; VShow; VTick (vread 5005 30 0); vtake 5006; vtake 5006; VFinish].
Definition v_lost : list (vevent exact) := v_part1 ++ [VTick (vread 5005 30 0); VTick (vread 5010 30 0); VTick (vread 5015 30 0); VTick (vread 5020 30 0); VFinish; vtake 5021; vtake 5021; vtake 5021].
Definition v_out (o : option (vt exact)) := option_map (fun s => (logged_states s, changes (v_published s), v_beeps s, length (v_q s), length (in_progress s))) o.

Fixpoint keeps_upb (p : profile exact) (s : vt exact) (es : list (vevent exact)) : bool :=
  match es with
  | [] => true
  | e :: t => match e with VTick _ => v_subscribed s && Nat.leb (length (v_q s)) 1 | _ => true end &&
              match vstep p s e with Some s' => keeps_upb p s' t | None => true end
  end.
Lemma keeps_upb_ok p es : forall s, keeps_upb p s es = true -> keeps_up p s es.
Proof.
  induction es as [|e es IH]; intros s H; [exact Logic.I|]. cbn [keeps_upb keeps_up] in *. apply andb_prop in H. destruct H as [H1 H2]. split.
  - destruct e; try exact Logic.I. apply andb_prop in H1. destruct H1 as [H1 H3]. split; [exact H1|apply Nat.leb_le; exact H3].
  - destruct (vstep p s e); [apply IH; exact H2|exact Logic.I].
Qed.
Lemma v_kept_out : v_out (vrun (demo_profile exact) v_new v_kept) = Some ([Armed; DrogueChuteDeployed; MainChuteDeployed; Landed], [Armed; DrogueChuteDeployed; MainChuteDeployed; Landed], 2, 0, 0).
Proof. vm_compute. reflexivity. Qed.
Lemma v_kept_up : keeps_upb (demo_profile exact) v_new v_kept = true.
Proof. vm_compute. reflexivity. Qed.
Lemma v_lost_out : v_out (vrun (demo_profile exact) v_new v_lost) = Some ([Armed; DrogueChuteDeployed; MainChuteDeployed], [Armed; DrogueChuteDeployed; MainChuteDeployed; Landed], 2, 0, 0).
Proof. vm_compute. reflexivity. Qed.
Lemma len0 {T} (l : list T) : length l = 0 -> l = [].
Proof. destruct l; [reflexivity|discriminate]. Qed.
Lemma v_out_inv o a b n k m : v_out o = Some (a, b, n, k, m) -> exists s, o = Some s /\ logged_states s = a /\ changes (v_published s) = b /\ v_beeps s = n /\ length (v_q s) = k /\ length (in_progress s) = m.
Proof. destruct o as [s|]; [|discriminate]. unfold v_out. cbn [option_map]. intros [= <- <- <- <- <-]. exists s. auto 7. Qed.

(** hypotheses of [C108_log_complete_partial] *)
Example ex_C108_kept : exists s, vrun (demo_profile exact) v_new v_kept = Some s /\ keeps_up (demo_profile exact) v_new v_kept /\ v_q s = [] /\ in_progress s = [] /\
  logged_states s = [Armed; DrogueChuteDeployed; MainChuteDeployed; Landed] /\ v_beeps s = 2.
Proof.
  destruct (v_out_inv _ _ _ _ _ _ v_kept_out) as (s & E & L & _ & B & Q & I). exists s. split; [exact E|]. split; [apply keeps_upb_ok; exact v_kept_up|].
  split; [apply len0; exact Q|]. split; [apply len0; exact I|]. split; [exact L|exact B].
Qed.
(** the landing is announced 5 ms after the main deployment; the main deployment is being written then, and for 15 ms more. Once everything is
    at rest the landing is not in the log *)
Theorem C108_refuted_every_state_is_logged : exists s, vrun (demo_profile exact) v_new v_lost = Some s /\ v_q s = [] /\ in_progress s = [] /\
  announces (demo_profile exact) (fed v_lost) [Armed; DrogueChuteDeployed; MainChuteDeployed; Landed] /\ logged_states s = [Armed; DrogueChuteDeployed; MainChuteDeployed].
Proof.
  destruct (v_out_inv _ _ _ _ _ _ v_lost_out) as (s & E & L & P & B & Q & I). exists s. split; [exact E|]. split; [apply len0; exact Q|]. split; [apply len0; exact I|].
  split; [|exact L]. rewrite <- P. exact (proj1 (published_order _ _ s E)).
Qed.

(** * Property C134: the avionics status on the CAN bus is regular and current. *)
From Coq Require Import List Bool ZArith Lia.
From Verif Require Import Base Can PropCan StatusBus.
Import ListNotations.
Local Open Scope Z_scope.
Local Open Scope list_scope.

(** ** Specification *)
Definition etime (e : bevent) : Z := match e with BArm _ t | BLow _ t | BWake t | BSent _ t | BOther _ t | BIdle t => t end.
(** the moment, the arming and the mode at the end of a history *)
Definition time_of (t0 : Z) (l : list bevent) : Z := fold_left (fun _ e => etime e) l t0.
Definition armed_of (l : list bevent) : bool := fold_left (fun a e => match e with BArm b _ => b | _ => a end) l false.
Definition low_of (l : list bevent) : bool := fold_left (fun a e => match e with BLow b _ => b | _ => a end) l false.
Definition changes (e : bevent) : bool := match e with BArm _ _ | BLow _ _ => true | _ => false end.
(** the status messages lost in a row, at the end of a history *)
Definition failures (l : list bevent) : Z := fold_left (fun k e => match e with BSent true _ => 0 | BSent false _ => k + 1 | _ => k end) l 0.
(** what the last status on the bus says: low power, armed *)
Definition last_status (fs : list (can_msg * Z)) : option (bool * bool) :=
  fold_left (fun o f => match fst f with AvionicsStatus lp a => Some (lp, a) | _ => o end) fs None.

(** the task is at most [L] late to be woken and [W] in sending, and at most [F] messages are lost in a row *)
Definition deadline (L W : Z) (n : bus) : Z := match s_task n with TWait due => due + L | TSend _ since => since + W end.
Definition timely (L W F t0 : Z) (l : list bevent) : Prop :=
  (forall l1 e l2 n1, l = l1 ++ e :: l2 -> bruns (bus_new t0) l1 = Some n1 -> etime e <= deadline L W n1) /\
  (forall l1 l2, l = l1 ++ l2 -> failures l1 <= F).
(** how old the newest status can be *)
Definition staleness (L W F : Z) : Z := (F + 1) * (Z.max W 2000 + L) + W.

(** ** Proofs *)
Lemma bruns_snoc : forall l n e n', bruns n (l ++ [e]) = Some n' <-> exists n1, bruns n l = Some n1 /\ bstep n1 e = Some n'.
Proof.
  induction l as [|x l IH]; intros n e n'; cbn [app bruns].
  - split.
    + destruct (bstep n e) as [n1|] eqn:E; [|discriminate]. intro H. exists n. split; [reflexivity|]. now injection H as <-.
    + intros (n1 & H & H'). injection H as <-. now rewrite H'.
  - destruct (bstep n x) as [n1|]; [apply IH|]. split; [discriminate|]. intros (n2 & H & _). discriminate.
Qed.
Lemma time_snoc t0 l e : time_of t0 (l ++ [e]) = etime e.
Proof. unfold time_of. now rewrite fold_left_app. Qed.
Lemma armed_snoc l e : armed_of (l ++ [e]) = match e with BArm b _ => b | _ => armed_of l end.
Proof. unfold armed_of. now rewrite fold_left_app. Qed.
Lemma low_snoc l e : low_of (l ++ [e]) = match e with BLow b _ => b | _ => low_of l end.
Proof. unfold low_of. now rewrite fold_left_app. Qed.
Lemma failures_snoc l e : failures (l ++ [e]) = match e with BSent true _ => 0 | BSent false _ => failures l + 1 | _ => failures l end.
Proof. unfold failures. now rewrite fold_left_app. Qed.
Lemma status_snoc fs m t : last_status (fs ++ [(m, t)]) = match m with AvionicsStatus lp a => Some (lp, a) | _ => last_status fs end.
Proof. unfold last_status. now rewrite fold_left_app. Qed.
Lemma failures_pos l : 0 <= failures l.
Proof. induction l as [|e l IH] using rev_ind; [reflexivity|]. rewrite failures_snoc. destruct e as [| | |[|]| |]; lia. Qed.

Definition made_at (t0 : Z) (l : list bevent) (m : can_msg) (lo hi : Z) : Prop :=
  exists l1 l2, l = l1 ++ l2 /\ m = AvionicsStatus (low_of l1) (armed_of l1) /\ lo <= time_of t0 l1 <= hi.
Lemma made_snoc t0 l m lo hi e : made_at t0 l m lo hi -> made_at t0 (l ++ [e]) m lo hi.
Proof. intros (l1 & l2 & -> & M & T). exists l1, (l2 ++ [e]). split; [now rewrite <- app_assoc|]. split; assumption. Qed.

Definition count_status (fs : list (can_msg * Z)) : Z := Z.of_nat (length (filter (fun f => is_status (fst f)) fs)).
Lemma count_snoc fs f : count_status (fs ++ [f]) = count_status fs + (if is_status (fst f) then 1 else 0).
Proof. unfold count_status. rewrite filter_app, app_length. cbn [filter]. destruct (is_status (fst f)); cbn [length]; lia. Qed.

(** what holds in every execution *)
Definition plain (t0 : Z) (l : list bevent) (n : bus) : Prop :=
  s_now n = time_of t0 l /\ s_armed n = armed_of l /\ s_low n = low_of l /\ s_start n = t0 /\ 0 <= s_i n /\ t0 <= s_now n /\
  match s_task n with
  | TWait due => t0 + s_i n * 2000 <= due /\ (0 < s_i n -> t0 + (s_i n - 1) * 2000 <= s_now n)
  | TSend m since => t0 + s_i n * 2000 <= since <= s_now n /\ made_at t0 l m since since
  end /\
  count_status (s_frames n) <= s_i n /\
  (forall m t, In (m, t) (s_frames n) -> is_status m = true -> made_at t0 l m t0 t).

Lemma plain_holds t0 : forall l n, bruns (bus_new t0) l = Some n -> plain t0 l n.
Proof.
  induction l as [|e l IH] using rev_ind; intros n H.
  - injection H as <-. unfold plain. cbn. split; [reflexivity|]. split; [reflexivity|]. split; [reflexivity|]. split; [reflexivity|].
    split; [lia|]. split; [lia|]. split; [lia|]. split; [reflexivity|]. intros m t [].
  - apply bruns_snoc in H. destruct H as (n1 & R & S). specialize (IH n1 R). destruct n1 as [now armed low start i task frames].
    destruct IH as (N & A & LO & ST & I & T0 & TK & CN & FR). cbn [s_now s_armed s_low s_start s_i s_task s_frames] in *. subst start.
    assert (FR' : forall m t, In (m, t) frames -> is_status m = true -> made_at t0 (l ++ [e]) m t0 t) by (intros m t X Y; apply made_snoc; exact (FR m t X Y)).
    assert (TK' : forall t', now <= t' -> match task with TWait due => t0 + i * 2000 <= due /\ (0 < i -> t0 + (i - 1) * 2000 <= t') | TSend m since => t0 + i * 2000 <= since <= t' /\ made_at t0 (l ++ [e]) m since since end).
    { intros t' Q. destruct task as [due|m since]; [destruct TK; split; [assumption|intro; lia]|]. destruct TK as [TK1 TK2]. split; [lia|now apply made_snoc]. }
    unfold plain. rewrite time_snoc, armed_snoc, low_snoc.
    destruct e as [b t|b t|t|ok t|m t|t]; cbn [bstep] in S; cbn [etime].
    + destruct (Z.leb_spec now t) as [Q|Q]; [|discriminate]. injection S as <-. cbn [s_now s_armed s_low s_start s_i s_task s_frames].
      split; [reflexivity|]. split; [reflexivity|]. split; [exact LO|]. split; [reflexivity|]. split; [exact I|]. split; [lia|]. split; [exact (TK' t Q)|]. split; [exact CN|exact FR'].
    + destruct (Z.leb_spec now t) as [Q|Q]; [|discriminate]. injection S as <-. cbn [s_now s_armed s_low s_start s_i s_task s_frames].
      split; [reflexivity|]. split; [exact A|]. split; [reflexivity|]. split; [reflexivity|]. split; [exact I|]. split; [lia|]. split; [exact (TK' t Q)|]. split; [exact CN|exact FR'].
    + destruct task as [due|]; [|discriminate]. destruct (Z.leb_spec now t) as [Q|Q]; [|discriminate]. destruct (Z.leb_spec due t) as [Q'|Q']; [|discriminate].
      injection S as <-. cbn [s_now s_armed s_low s_start s_i s_task s_frames].
      split; [reflexivity|]. split; [exact A|]. split; [exact LO|]. split; [reflexivity|]. split; [exact I|]. split; [lia|].
      split; [|split; [exact CN|exact FR']]. destruct TK as [TK1 TK2]. split; [lia|].
      exists (l ++ [BWake t]), []. split; [now rewrite app_nil_r|]. rewrite low_snoc, armed_snoc, time_snoc, LO, A. split; [reflexivity|]. cbn [etime]. lia.
    + destruct task as [|m since]; [discriminate|]. destruct (Z.leb_spec now t) as [Q|Q]; [|discriminate]. cbv zeta in S. injection S as <-.
      cbn [s_now s_armed s_low s_start s_i s_task s_frames]. destruct TK as [TK1 TK2]. unfold STATUS_INTERVAL.
      split; [reflexivity|]. split; [exact A|]. split; [exact LO|]. split; [reflexivity|]. split; [lia|]. split; [lia|]. split; [|split].
      * destruct (Z.leb_spec (t0 + (i + 1) * 2000) t); split; lia.
      * destruct ok; [|lia]. rewrite count_snoc. cbn [fst]. destruct (is_status m); lia.
      * destruct ok; [|exact FR']. intros m' t' X Y. apply in_app_or in X. destruct X as [X|[X|[]]]; [exact (FR' m' t' X Y)|]. injection X as <- <-.
        destruct TK2 as (l1 & l2 & -> & -> & TM). exists l1, (l2 ++ [BSent true t]). split; [now rewrite <- app_assoc|]. split; [reflexivity|]. lia.
    + destruct (Z.leb_spec now t) as [Q|Q]; [|discriminate]. destruct (is_status m) eqn:IS; [discriminate|]. injection S as <-. cbn [s_now s_armed s_low s_start s_i s_task s_frames].
      split; [reflexivity|]. split; [exact A|]. split; [exact LO|]. split; [reflexivity|]. split; [exact I|]. split; [lia|]. split; [exact (TK' t Q)|]. split.
      * rewrite count_snoc. cbn [fst]. rewrite IS. lia.
      * intros m' t' X Y. apply in_app_or in X. destruct X as [X|[X|[]]]; [exact (FR' m' t' X Y)|]. injection X as <- <-. rewrite Y in IS. discriminate.
    + destruct (Z.leb_spec now t) as [Q|Q]; [|discriminate]. injection S as <-. cbn [s_now s_armed s_low s_start s_i s_task s_frames].
      split; [reflexivity|]. split; [exact A|]. split; [exact LO|]. split; [reflexivity|]. split; [exact I|]. split; [lia|]. split; [exact (TK' t Q)|]. split; [exact CN|exact FR'].
Qed.

(** C134. Every status on the bus is the truth of the moment it was made, which is before it went out. *)
Theorem C134_every_status_was_true t0 l n lp a t : bruns (bus_new t0) l = Some n -> In (AvionicsStatus lp a, t) (s_frames n) ->
  exists l1 l2, l = l1 ++ l2 /\ lp = low_of l1 /\ a = armed_of l1 /\ t0 <= time_of t0 l1 <= t.
Proof.
  intros R I. destruct (plain_holds t0 l n R) as (_ & _ & _ & _ & _ & _ & _ & _ & FR). destruct (FR _ _ I eq_refl) as (l1 & l2 & E & M & T).
  exists l1, l2. injection M as -> ->. split; [exact E|]. split; [reflexivity|]. split; [reflexivity|exact T].
Qed.

(** C134. The first status is due at once: from the start on, until the task runs for the first time, it may run at any moment. *)
Theorem C134_first_at_once t0 : forall l n t, bruns (bus_new t0) l = Some n -> (forall t', ~ In (BWake t') l) -> s_now n <= t ->
  exists n', bstep n (BWake t) = Some n' /\ s_task n' = TSend (AvionicsStatus (low_of l) (armed_of l)) t.
Proof.
  intros l n t R NW LE. destruct (plain_holds t0 l n R) as (N & A & LO & _ & _ & T0 & _).
  assert (TK : s_task n = TWait t0).
  { clear LE N A LO T0 t. revert n R. induction l as [|e l IH] using rev_ind; intros n R; [injection R as <-; reflexivity|].
    apply bruns_snoc in R. destruct R as (n1 & R & S).
    assert (TK : s_task n1 = TWait t0) by (apply IH; [intros t' I; apply (NW t'); apply in_or_app; left; exact I|exact R]).
    destruct n1 as [now armed low start i task frames]. cbn [s_task] in TK. subst task.
    destruct e as [b t|b t|t|ok t|m t|t]; cbn [bstep] in S.
    - destruct (now <=? t); [|discriminate]. injection S as <-. reflexivity.
    - destruct (now <=? t); [|discriminate]. injection S as <-. reflexivity.
    - exfalso. apply (NW t). apply in_or_app. right. left. reflexivity.
    - discriminate.
    - destruct ((now <=? t) && negb (is_status m)); [|discriminate]. injection S as <-. reflexivity.
    - destruct (now <=? t); [|discriminate]. injection S as <-. reflexivity. }
  destruct n as [now armed low start i task frames]. cbn [s_task s_now s_armed s_low] in *. subst task armed low.
  cbn [bstep]. destruct (Z.leb_spec now t) as [Q|Q]; [|lia]. destruct (Z.leb_spec t0 t) as [Q'|Q']; [|lia]. cbn [andb].
  eexists. split; reflexivity.
Qed.

(** C134. The bus is not flooded: one status every two seconds on average, whatever the delays. *)
Theorem C134_rate t0 l n : bruns (bus_new t0) l = Some n -> (count_status (s_frames n) - 1) * 2000 <= s_now n - t0.
Proof.
  intros R. destruct (plain_holds t0 l n R) as (_ & _ & _ & _ & I & T0 & TK & CN & _). destruct (s_task n) as [due|m since].
  - destruct TK as [_ TK]. destruct (Z.eq_dec (s_i n) 0) as [E|E]; [lia|]. assert (0 < s_i n) by lia. specialize (TK ltac:(assumption)). nia.
  - destruct TK as [TK _]. nia.
Qed.

Section Timely.
Variables L W F t0 : Z.
Hypotheses (HL : 0 <= L) (HW : 0 <= W).
Let M := Z.max W 2000.

Lemma timely_prefix l e : timely L W F t0 (l ++ [e]) -> timely L W F t0 l.
Proof.
  intros [A B]. split.
  - intros l1 x l2 n1 E R. apply (A l1 x (l2 ++ [e]) n1); [|exact R]. rewrite E, <- app_assoc. reflexivity.
  - intros l1 l2 E. apply (B l1 (l2 ++ [e])). rewrite E, <- app_assoc. reflexivity.
Qed.

(** the moment the last status that got through was made, or the start *)
Definition newest (l : list bevent) (n : bus) (r : Z) : Prop :=
  (last_status (s_frames n) = None /\ r = t0) \/
  (exists l1 l2, l = l1 ++ l2 /\ last_status (s_frames n) = Some (low_of l1, armed_of l1) /\ r = time_of t0 l1).

Definition fresh (l : list bevent) (n : bus) : Prop := exists r, newest l n r /\ s_now n <= deadline L W n /\
  match s_task n with
  | TWait due => due <= r + M + failures l * (M + L)
  | TSend m since => since <= r + (failures l + 1) * (M + L)
  end.

Lemma newest_snoc l e r now armed low start i task frames now' armed' low' start' i' task' :
  newest l (Bus now armed low start i task frames) r -> newest (l ++ [e]) (Bus now' armed' low' start' i' task' frames) r.
Proof.
  intros [[A B]|(l1 & l2 & -> & A & B)]; [left; split; assumption|]. right. exists l1, (l2 ++ [e]). split; [now rewrite <- app_assoc|]. split; assumption.
Qed.

Lemma fresh_holds : forall l n, timely L W F t0 l -> bruns (bus_new t0) l = Some n -> fresh l n.
Proof.
  assert (HM : 2000 <= M /\ W <= M) by (unfold M; lia).
  induction l as [|e l IH] using rev_ind; intros n TM H.
  - injection H as <-. exists t0. split; [left; split; reflexivity|]. cbn. split; [lia|]. change (failures []) with 0. lia.
  - apply bruns_snoc in H. destruct H as (n1 & R & S). specialize (IH n1 (timely_prefix l e TM) R).
    pose proof (proj1 TM l e [] n1 eq_refl R) as DL. pose proof (failures_pos l) as FP.
    destruct (plain_holds t0 l n1 R) as (_ & _ & _ & ST & _ & _ & TK & _). destruct n1 as [now armed low start i task frames].
    destruct IH as (r & NW & D & B). unfold fresh. rewrite failures_snoc. unfold deadline in D, DL.
    cbn [s_now s_armed s_low s_start s_i s_task s_frames] in *. subst start.
    destruct e as [b t|b t|t|ok t|m t|t]; cbn [bstep etime] in *.
    + destruct (Z.leb_spec now t) as [Q|Q]; [|discriminate]. injection S as <-. exists r. split; [exact (newest_snoc _ _ _ _ _ _ _ _ _ _ _ _ _ _ _ _ NW)|]. split; [exact DL|exact B].
    + destruct (Z.leb_spec now t) as [Q|Q]; [|discriminate]. injection S as <-. exists r. split; [exact (newest_snoc _ _ _ _ _ _ _ _ _ _ _ _ _ _ _ _ NW)|]. split; [exact DL|exact B].
    + destruct task as [due|]; [|discriminate]. destruct (Z.leb_spec now t) as [Q|Q]; [|discriminate]. destruct (Z.leb_spec due t) as [Q'|Q']; [|discriminate].
      injection S as <-. exists r. split; [exact (newest_snoc _ _ _ _ _ _ _ _ _ _ _ _ _ _ _ _ NW)|]. unfold deadline. cbn [s_now s_task]. split; [lia|]. lia.
    + destruct task as [|m since]; [discriminate|]. destruct (Z.leb_spec now t) as [Q|Q]; [|discriminate]. cbv zeta in S. injection S as <-. unfold STATUS_INTERVAL.
      destruct TK as [TK1 (l1 & l2 & EL & EM & TL)]. assert (TS : time_of t0 l1 = since) by lia.
      assert (DUE : (if t0 + (i + 1) * 2000 <=? t then t else t0 + (i + 1) * 2000) <= since + M) by (destruct (Z.leb_spec (t0 + (i + 1) * 2000) t); lia).
      assert (DU2 : t <= (if t0 + (i + 1) * 2000 <=? t then t else t0 + (i + 1) * 2000)) by (destruct (Z.leb_spec (t0 + (i + 1) * 2000) t); lia).
      destruct ok.
      * exists since. split; [right; exists l1, (l2 ++ [BSent true t]); split; [rewrite EL, <- app_assoc; reflexivity|]; split; [|symmetry; exact TS]|].
        -- cbn [s_frames]. rewrite status_snoc, EM. reflexivity.
        -- cbn [s_now s_task deadline]. unfold deadline. cbn [s_task]. split; lia.
      * exists r. split; [exact (newest_snoc _ _ _ _ _ _ _ _ _ _ _ _ _ _ _ _ NW)|]. cbn [s_now s_task]. unfold deadline. cbn [s_task]. split; [lia|]. nia.
    + destruct (Z.leb_spec now t) as [Q|Q]; [|discriminate]. destruct (is_status m) eqn:IS; [discriminate|]. injection S as <-. exists r. split; [|split; [exact DL|exact B]].
      unfold newest. cbn [s_frames]. rewrite status_snoc. destruct m; try discriminate IS; exact (newest_snoc _ _ _ now armed low t0 i task frames now armed low t0 i task NW).
    + destruct (Z.leb_spec now t) as [Q|Q]; [|discriminate]. injection S as <-. exists r. split; [exact (newest_snoc _ _ _ _ _ _ _ _ _ _ _ _ _ _ _ _ NW)|]. split; [exact DL|exact B].
Qed.

(** C134. Once [staleness] has passed since the start there always is a status on the bus, and the newest was true no longer than that ago. *)
Theorem C134_status_is_fresh l n : timely L W F t0 l -> bruns (bus_new t0) l = Some n -> t0 + staleness L W F < s_now n ->
  exists l1 l2, l = l1 ++ l2 /\ last_status (s_frames n) = Some (low_of l1, armed_of l1) /\ s_now n - staleness L W F <= time_of t0 l1.
Proof.
  intros TM R LATE. destruct (fresh_holds l n TM R) as (r & NW & D & B). pose proof (proj2 TM l [] (eq_sym (app_nil_r l))) as FL. pose proof (failures_pos l) as FP.
  assert (K : s_now n - staleness L W F <= r).
  { unfold staleness in *. fold M in LATE |- *. assert (HM : 2000 <= M /\ W <= M) by (unfold M; lia). unfold deadline in D. destruct (s_task n) as [due|m since].
    - assert (failures l * (M + L) <= F * (M + L)) by nia. nia.
    - assert ((failures l + 1) * (M + L) <= (F + 1) * (M + L)) by nia. nia. }
  destruct NW as [[_ ->]|(l1 & l2 & E & LS & ->)]; [lia|]. exists l1, l2. split; [exact E|]. split; [exact LS|exact K].
Qed.
End Timely.

Lemma nothing_changed l2 : forall l1, (forall e, In e l2 -> changes e = false) -> armed_of (l1 ++ l2) = armed_of l1 /\ low_of (l1 ++ l2) = low_of l1.
Proof.
  induction l2 as [|e l2 IH]; intros l1 H; [now rewrite app_nil_r|]. change (e :: l2) with ([e] ++ l2). rewrite app_assoc.
  destruct (IH (l1 ++ [e])) as [A B]; [intros x X; apply H; now right|]. rewrite A, B, armed_snoc, low_snoc.
  assert (C := H e (or_introl eq_refl)). destruct e; try discriminate C; split; reflexivity.
Qed.
Lemma later_events t0 : forall l2 l1 n, bruns (bus_new t0) (l1 ++ l2) = Some n -> forall e, In e l2 -> time_of t0 l1 <= etime e.
Proof.
  induction l2 as [|x l2 IH]; intros l1 n R e I; [contradiction|].
  assert (X : time_of t0 l1 <= etime x).
  { change (x :: l2) with ([x] ++ l2) in R. rewrite app_assoc in R.
    assert (G : exists n1, bruns (bus_new t0) (l1 ++ [x]) = Some n1).
    { clear - R. revert R. generalize (bus_new t0). generalize (l1 ++ [x]). intros k. induction k as [|y k IHk]; intros b R; [exists b; reflexivity|].
      cbn [app bruns] in *. destruct (bstep b y) as [b1|]; [exact (IHk b1 R)|discriminate]. }
    destruct G as [n1 G]. pose proof (plain_holds t0 _ _ G) as P1. apply bruns_snoc in G. destruct G as (n0 & R0 & S). pose proof (plain_holds t0 _ _ R0) as P0.
    destruct P0 as (N0 & _). rewrite <- N0. clear - S. destruct n0 as [now armed low start i task frames]. cbn [s_now].
    destruct x as [b t|b t|t|ok t|m t|t]; cbn [bstep etime] in *.
    - destruct (Z.leb_spec now t); [assumption|discriminate].
    - destruct (Z.leb_spec now t); [assumption|discriminate].
    - destruct task; [|discriminate]. destruct (Z.leb_spec now t); [assumption|discriminate].
    - destruct task; [discriminate|]. destruct (Z.leb_spec now t); [assumption|discriminate].
    - destruct (Z.leb_spec now t); [assumption|discriminate].
    - destruct (Z.leb_spec now t); [assumption|discriminate]. }
  destruct I as [<-|I]; [exact X|]. change (x :: l2) with ([x] ++ l2) in R. rewrite app_assoc in R.
  pose proof (IH (l1 ++ [x]) n R e I) as Y. rewrite time_snoc in Y. lia.
Qed.

(** C134. So a change of the arming or of the mode is on the bus at the latest [staleness] after it was made. *)
Theorem C134_changes_are_announced L W F t0 l n : 0 <= L -> 0 <= W -> timely L W F t0 l -> bruns (bus_new t0) l = Some n ->
  t0 + staleness L W F < s_now n ->
  (forall e, In e l -> changes e = true -> etime e + staleness L W F < s_now n) ->
  last_status (s_frames n) = Some (low_of l, armed_of l).
Proof.
  intros HL HW TM R LATE OLD. destruct (C134_status_is_fresh L W F t0 HL HW l n TM R LATE) as (l1 & l2 & -> & LS & FR).
  destruct (nothing_changed l2 l1) as [-> ->]; [|exact LS]. intros e I. destruct (changes e) eqn:C; [|reflexivity]. exfalso.
  pose proof (later_events t0 l2 l1 n R e I) as Y. pose proof (OLD e (in_or_app _ _ _ (or_intror I)) C). lia.
Qed.

(** C134, at the strain-gauge board: its idea of the arming is the last status'. *)
Definition sendable (m : can_msg) : Prop := msg_ok m /\ m <> Reset.
Lemma carries_frame node prio m : (node < 4096)%N -> (forall x, (prio x < 8)%N) -> msg_ok m -> carries (frame_of node prio m) (Some m).
Proof.
  intros HN HP HM. unfold frame_of. apply ca_data with (m := m); [|reflexivity|exact HM]. unfold id_ok. cbn [priority message_type node_type node_id].
  split; [apply HP|]. split; [destruct m; reflexivity|]. split; [reflexivity|exact HN].
Qed.
Lemma last_armed_status fs : last_armed (map (fun f => Some (fst f)) fs) = match last_status fs with Some (_, a) => a | None => false end.
Proof.
  induction fs as [|[m t] fs IH] using rev_ind; [reflexivity|]. rewrite status_snoc. unfold last_armed in *. rewrite map_app, fold_left_app, IH. cbn [map fold_left fst].
  destruct m; reflexivity.
Qed.
Theorem C134_board_follows t0 l n node prio : bruns (bus_new t0) l = Some n -> (node < 4096)%N -> (forall x, (prio x < 8)%N) ->
  Forall (fun f => sendable (fst f)) (s_frames n) ->
  exists s, sg_frames sg_start (map (fun f => frame_of node prio (fst f)) (s_frames n)) = SgGo s /\
    g_adc s = match last_status (s_frames n) with Some (_, a) => a | None => false end && negb (last_landed (map (fun f => Some (fst f)) (s_frames n))).
Proof.
  intros R HN HP OK.
  destruct (C74_recording_follows_messages (map (fun f => frame_of node prio (fst f)) (s_frames n)) (map (fun f => Some (fst f)) (s_frames n))) as (s & E & A & _).
  - clear R. induction OK as [|f fs [H1 H2] _ IH]; [constructor|]. cbn [map]. constructor; [exact (carries_frame node prio _ HN HP H1)|exact IH].
  - intro I. apply in_map_iff in I. destruct I as ([m t] & E & I). cbn [fst] in E. injection E as ->. rewrite Forall_forall in OK. exact (proj2 (OK _ I) eq_refl).
  - exists s. split; [exact E|]. rewrite A, last_armed_status. reflexivity.
Qed.

(** C134 refuted: the board should record whenever the rocket is armed.  The only flight event ever sent is a landing (C123), which nothing
    takes back: after the first landing the board does not record again, however often the rocket is armed. *)
Theorem C134_refuted_one_flight_only t0 l n node prio t1 t2 : bruns (bus_new t0) l = Some n -> (node < 4096)%N -> (forall x, (prio x < 8)%N) ->
  Forall (fun f => sendable (fst f)) (s_frames n) ->
  In (FlightEventMsg t1 Landed, t2) (s_frames n) -> (forall t e t', In (FlightEventMsg t e, t') (s_frames n) -> e = Landed) ->
  exists s, sg_frames sg_start (map (fun f => frame_of node prio (fst f)) (s_frames n)) = SgGo s /\ g_adc s = false.
Proof.
  intros R HN HP OK I ONLY. destruct (C134_board_follows t0 l n node prio R HN HP OK) as (s & E & A). exists s. split; [exact E|]. rewrite A.
  assert (LL : last_landed (map (fun f => Some (fst f)) (s_frames n)) = true); [|rewrite LL; apply andb_false_r].
  clear - I ONLY. induction (s_frames n) as [|[m t] fs IH] using rev_ind; [contradiction|]. unfold last_landed in *. rewrite map_app, fold_left_app. cbn [map fold_left fst].
  assert (O' : forall t e t', In (FlightEventMsg t e, t') fs -> e = Landed) by (intros a e b X; apply (ONLY a e b); apply in_or_app; now left).
  apply in_app_or in I. destruct I as [I|[I|[]]].
  - specialize (IH I O'). rewrite IH. destruct m as [ | |ms e| | ]; try reflexivity. rewrite (ONLY ms e t); [reflexivity|]. apply in_or_app. right. now left.
  - injection I as -> _. reflexivity.
Qed.

(** ** Concrete case: a start, a lost status, arming in between, other traffic *)
Definition a_minute : list bevent :=
  [BWake 1000; BSent true 1003; BArm true 1500; BWake 3004; BSent false 3010; BOther (UnixTime 77) 3100; BWake 5001; BSent true 5040; BIdle 7000].
Theorem C134_instance : exists n, bruns (bus_new 1000) a_minute = Some n /\
  s_frames n = [(AvionicsStatus false false, 1003); (UnixTime 77, 3100); (AvionicsStatus false true, 5040)] /\
  timely 5 40 1 1000 a_minute /\ staleness 5 40 1 = 4050 /\ 1000 + 4050 < s_now n /\
  (forall e, In e a_minute -> changes e = true -> etime e + 4050 < s_now n).
Proof.
  eexists. split; [vm_compute; reflexivity|]. split; [reflexivity|]. split; [|split; [reflexivity|split; [reflexivity|]]].
  - split.
    + intros l1 e l2 n1 E R. unfold a_minute in E.
      repeat (destruct l1 as [|x l1]; [cbn [app] in E; injection E as <- _; vm_compute in R; injection R as <-; vm_compute; discriminate|
        cbn [app] in E; injection E as <- E]). destruct l1; discriminate.
    + intros l1 l2 E. unfold a_minute in E.
      repeat (destruct l1 as [|x l1]; [vm_compute; discriminate|cbn [app] in E; injection E as <- E]). destruct l1; [vm_compute; discriminate|discriminate].
  - intros e I C. unfold a_minute in I. cbn [In] in I.
    repeat (destruct I as [<-|I]; [try discriminate C; reflexivity|]). contradiction.
Qed.

Print Assumptions C134_every_status_was_true.
Print Assumptions C134_rate.
Print Assumptions C134_first_at_once.
Print Assumptions C134_status_is_fresh.
Print Assumptions C134_changes_are_announced.
Print Assumptions C134_board_follows.
Print Assumptions C134_refuted_one_flight_only.
Print Assumptions C134_instance.

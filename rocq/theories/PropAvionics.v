(** * Properties C47-C49, C69: arming, pyro channels, debouncing. *)
From Coq Require Import List Bool ZArith QArith Lia.
From Verif Require Import Numerics VLP FlightCore PropFlight PropBackup Avionics.
Import ListNotations.
Local Open Scope Z_scope.
Local Open Scope list_scope.
Notation length := List.length.

(** ** C49: specification *)
Section Debouncing.
Context {V : Type} (veq : V -> V -> bool) (veq_spec : forall a b, veq a b = true <-> a = b) (ms : Z).

(** a schedule in which the task runs as soon as the input changes, and at any
    other times *)
Inductive sample := Change (v : V) (t : Z) | Wake (t : Z).
Definition time_of (e : sample) : Z := match e with Change _ t => t | Wake t => t end.
Definition expand (e : sample) : list (devent V) := match e with Change v t => [DSignal v t; DPoll t] | Wake t => [DPoll t] end.
Definition quiet (l : list sample) : Prop := Forall (fun e => match e with Wake _ => True | Change _ _ => False end) l.
Definition debounce (l : list sample) : debouncer V * list (Z * V) := drun veq ms new_debouncer (flat_map expand l).
(** what event [e], after [l], publishes *)
Definition output (l : list sample) : list (Z * V) := snd (debounce l).

(** ** Proofs *)
Lemma drun_app d a b : drun veq ms d (a ++ b) =
  (fst (drun veq ms (fst (drun veq ms d a)) b), snd (drun veq ms d a) ++ snd (drun veq ms (fst (drun veq ms d a)) b)).
Proof.
  revert d. induction a as [|e a IH]; intros d; cbn [app drun].
  - cbn [fst snd app]. destruct (drun veq ms d b); reflexivity.
  - destruct (dstep veq ms d e) as [d1 o]. rewrite IH. destruct (drun veq ms d1 a) as [d2 os]. cbn [fst snd].
    destruct o, e; reflexivity.
Qed.

Lemma debounce_snoc l e : debounce (l ++ [e]) =
  (fst (drun veq ms (fst (debounce l)) (expand e)), output l ++ snd (drun veq ms (fst (debounce l)) (expand e))).
Proof. unfold debounce, output, debounce. rewrite flat_map_app, drun_app. cbn [flat_map]. rewrite app_nil_r. reflexivity. Qed.

Definition dinv (l : list sample) (d : debouncer V) (os : list (Z * V)) : Prop :=
  d_pending d = None /\
  match d_phase d with
  | WaitFirst => quiet l /\ os = []
  | WaitSecond st => (exists l1 t l2, l = l1 ++ Change st t :: l2 /\ quiet l1 /\ quiet l2) /\ exists t, os = [(t, st)]
  | Timing st nw dl => exists l1 t l2, l = l1 ++ Change nw t :: l2 /\ quiet l2 /\ ~ quiet l1 /\
      (nw = st \/ dl = t + ms) /\ exists os' t', os = os' ++ [(t', st)]
  end.

(** how an event adds to the outputs *)
Definition delta_ok (l : list sample) (e : sample) (new : list (Z * V)) : Prop :=
  new = [] \/ exists v, new = [(time_of e, v)] /\
    ((quiet l /\ e = Change v (time_of e)) \/
     exists l1 t l2, l = l1 ++ Change v t :: l2 /\ quiet l2 /\ t + ms <= time_of e).

Lemma quiet_app a b : quiet (a ++ b) <-> quiet a /\ quiet b.
Proof. apply Forall_app. Qed.

Lemma dinv_step l e d os : dinv l d os ->
  dinv (l ++ [e]) (fst (drun veq ms d (expand e))) (os ++ snd (drun veq ms d (expand e))) /\
  delta_ok l e (snd (drun veq ms d (expand e))).
Proof.
  intros [P I]. destruct d as [pd ph]. cbn in P. subst pd. cbn [d_phase] in I.
  destruct ph as [|st|st nw dl].
  - destruct I as [Q ->]. destruct e as [v t|t]; cbn.
    + split; [|right; exists v; split; [reflexivity|left; split; [exact Q|reflexivity]]]. split; [reflexivity|]. cbn.
      split; [exists l, t, []; split; [reflexivity|]; split; [exact Q|constructor]|]. exists t. reflexivity.
    + split; [|left; reflexivity]. split; [reflexivity|]. cbn. split; [|reflexivity]. apply quiet_app. split; [exact Q|]. constructor; [exact I|constructor].
  - destruct I as [[l1 [t0 [l2 [-> [Q1 Q2]]]]] [t1 ->]]. destruct e as [v t|t]; cbn.
    + split; [|left; reflexivity]. split; [reflexivity|]. cbn. exists (l1 ++ Change st t0 :: l2), t, []. split; [reflexivity|].
      split; [constructor|]. split. { intros H. apply quiet_app in H as [_ H]. inversion H; subst. assumption. }
      split; [right; reflexivity|]. exists [], t1. reflexivity.
    + split; [|left; reflexivity]. split; [reflexivity|]. cbn. split; [|exists t1; reflexivity]. exists l1, t0, (l2 ++ [Wake t]).
      split; [rewrite <- app_assoc; reflexivity|]. split; [exact Q1|]. apply quiet_app. split; [exact Q2|]. constructor; [exact I|constructor].
  - destruct I as [l1 [t0 [l2 [-> [Q2 [N [D [os' [t1 ->]]]]]]]]].
    assert (NQ : ~ quiet (l1 ++ Change nw t0 :: l2)). { intros H. apply quiet_app in H as [H _]. exact (N H). }
    destruct e as [v t|t]; cbn [expand drun dstep d_signal d_poll d_phase d_pending].
    + destruct (Z.leb_spec dl t) as [L|L].
      * destruct (veq nw st) eqn:E; cbn [fst snd fresh_select].
        -- split; [|left; reflexivity]. split; [reflexivity|]. cbn. exists (l1 ++ Change nw t0 :: l2), t, []. split; [reflexivity|].
           split; [constructor|]. split; [exact NQ|]. split; [right; reflexivity|]. exists os', t1. rewrite app_nil_r. reflexivity.
        -- assert (NE : nw <> st) by (intros H; apply veq_spec in H; congruence). destruct D as [D|D]; [contradiction|].
           split.
           ++ split; [reflexivity|]. cbn. exists (l1 ++ Change nw t0 :: l2), t, []. split; [reflexivity|].
              split; [constructor|]. split; [exact NQ|]. split; [right; reflexivity|]. exists (os' ++ [(t1, st)]), t. reflexivity.
           ++ right. exists nw. split; [reflexivity|]. right. exists l1, t0, l2. split; [reflexivity|]. split; [exact Q2|]. cbn. lia.
      * cbn. split; [|left; reflexivity]. split; [reflexivity|]. cbn. exists (l1 ++ Change nw t0 :: l2), t, []. split; [reflexivity|].
        split; [constructor|]. split; [exact NQ|]. split; [right; reflexivity|]. exists os', t1. rewrite app_nil_r. reflexivity.
    + assert (QW : quiet (l2 ++ [Wake t])) by (apply quiet_app; split; [exact Q2|]; constructor; [exact I|constructor]).
      assert (EL : (l1 ++ Change nw t0 :: l2) ++ [Wake t] = l1 ++ Change nw t0 :: l2 ++ [Wake t]) by (rewrite <- app_assoc; reflexivity).
      destruct (Z.leb_spec dl t) as [L|L].
      * destruct (veq nw st) eqn:E; cbn [fst snd fresh_select].
        -- apply veq_spec in E. split; [|left; reflexivity]. split; [reflexivity|]. cbn. exists l1, t0, (l2 ++ [Wake t]).
           split; [exact EL|]. split; [exact QW|]. split; [exact N|]. split; [left; exact E|]. exists os', t1. rewrite app_nil_r. reflexivity.
        -- assert (NE : nw <> st) by (intros H; apply veq_spec in H; congruence). destruct D as [D|D]; [contradiction|].
           split.
           ++ split; [reflexivity|]. cbn. exists l1, t0, (l2 ++ [Wake t]). split; [exact EL|]. split; [exact QW|]. split; [exact N|].
              split; [left; reflexivity|]. exists (os' ++ [(t1, st)]), t. reflexivity.
           ++ right. exists nw. split; [reflexivity|]. right. exists l1, t0, l2. split; [reflexivity|]. split; [exact Q2|]. cbn. lia.
      * cbn. split; [|left; reflexivity]. split; [reflexivity|]. cbn. exists l1, t0, (l2 ++ [Wake t]).
        split; [exact EL|]. split; [exact QW|]. split; [exact N|]. split; [exact D|]. exists os', t1. rewrite app_nil_r. reflexivity.
Qed.

Lemma dinv_run l : dinv l (fst (debounce l)) (output l).
Proof.
  induction l as [|e l IH] using rev_ind.
  - split; [reflexivity|]. cbn. split; [constructor|reflexivity].
  - unfold output. rewrite debounce_snoc. cbn [fst snd]. apply dinv_step. exact IH.
Qed.

(** C49: apart from the very first sample, a value is published only if the
    input changed to it at some time t, has not changed since, and t is at
    least the debounce interval ago *)
Theorem C49_held_for_the_interval_partial l e : exists new, output (l ++ [e]) = output l ++ new /\
  (new = [] \/ exists v, new = [(time_of e, v)] /\
    ((quiet l /\ e = Change v (time_of e)) \/
     exists l1 t l2, l = l1 ++ Change v t :: l2 /\ quiet l2 /\ t + ms <= time_of e)).
Proof.
  exists (snd (drun veq ms (fst (debounce l)) (expand e))). unfold output at 1. rewrite debounce_snoc. cbn [snd]. split; [reflexivity|].
  destruct (dinv_step l e _ _ (dinv_run l)) as [_ D]. exact D.
Qed.

(** and once the input has been still for the interval, the next time the task
    runs the published value is the input's *)
Theorem C49_settles l1 v t l2 t' : quiet l2 -> t + ms <= t' ->
  exists os tp, output (l1 ++ Change v t :: l2 ++ [Wake t']) = os ++ [(tp, v)].
Proof.
  intros Q L. set (l := l1 ++ Change v t :: l2). assert (E : l1 ++ Change v t :: l2 ++ [Wake t'] = l ++ [Wake t']) by (unfold l; rewrite <- app_assoc; reflexivity).
  rewrite E. pose proof (dinv_run l) as [P I]. pose proof (dinv_run (l ++ [Wake t'])) as [_ _].
  assert (UQ : forall a x b y, l = a ++ Change x b :: y -> quiet y -> x = v /\ b = t /\ y = l2).
  { intros a x b y H Hq. unfold l in H. clear - H Hq Q. revert l1 H. induction a as [|z a IH]; intros l1 H.
    - destruct l1 as [|w l1]; [injection H as <- <- <-; auto|]. injection H as _ H. subst y. apply Forall_app in Hq as [_ Hq].
      inversion Hq; subst. contradiction.
    - destruct l1 as [|w l1].
      + injection H as _ H. subst l2. apply Forall_app in Q as [_ Q]. inversion Q; subst. contradiction.
      + injection H as _ H. exact (IH l1 H). }
  unfold output. rewrite debounce_snoc. cbn [snd]. fold (output l). destruct (fst (debounce l)) as [pd ph]. cbn in P, I. subst pd.
  destruct ph as [|st|st nw dl].
  - destruct I as [Qa _]. exfalso. unfold l in Qa. apply Forall_app in Qa as [_ Qa]. inversion Qa; subst. contradiction.
  - destruct I as [[a [b [c [E1 [_ Qc]]]]] [t1 E2]]. destruct (UQ _ _ _ _ E1 Qc) as [-> _]. rewrite E2. exists [], t1. reflexivity.
  - destruct I as [a [b [c [E1 [Qc [_ [D [os' [t1 E2]]]]]]]]]. destruct (UQ _ _ _ _ E1 Qc) as [-> [-> ->]]. rewrite E2.
    cbn [expand drun dstep d_poll d_phase d_pending]. destruct (Z.leb_spec dl t') as [Ld|Ld].
    + destruct (veq v st) eqn:Ev; cbn [fst snd].
      * apply veq_spec in Ev. subst st. exists os', t1. rewrite app_nil_r. reflexivity.
      * exists (os' ++ [(t1, st)]), t'. reflexivity.
    + cbn [snd]. destruct D as [->|D]; [|lia]. exists os', t1. rewrite app_nil_r. reflexivity.
Qed.
End Debouncing.

(** C49 refuted for the first sample, published at once ... *)
Theorem C49_refuted_first_sample :
  output Bool.eqb 1000 [Change true 5; Change false 6; Wake 2000] = [(5, true); (2000, false)].
Proof. reflexivity. Qed.
(** ... and when the task runs late: the input went on at 10 and off again at
    500, but the task only ran at 1010; the 490 ms glitch is published *)
Theorem C49_refuted_late_poll :
  snd (drun Bool.eqb 1000 new_debouncer
    [DSignal false 0; DPoll 0; DSignal true 10; DPoll 10; DSignal false 500; DPoll 1010]) = [(0, false); (1010, true)].
Proof. reflexivity. Qed.
(** a glitch in a promptly run schedule is invisible, a held change is not *)
Example C49_case : output Bool.eqb 1000 [Change false 0; Change true 10; Change false 500; Wake 1010; Wake 1500; Change true 2000; Wake 2999; Wake 3000]
  = [(0, false); (3000, true)].
Proof. reflexivity. Qed.

(** ** C47 *)
Definition last_soft (l : list aevent) : bool := fold_left (fun b e => match e with ASoft x => x | _ => b end) l false.
(** the hardware input as the debouncer sees it *)
Definition hardware_schedule (l : list aevent) : list (devent bool) :=
  flat_map (fun e => match e with ASoft _ => [] | AHard b t => [DSignal b t] | APoll t => [DPoll t] end) l.
Definition last_value (os : list (Z * bool)) : bool := snd (last os (0, false)).
Definition last_debounced (l : list aevent) : bool := last_value (snd (drun Bool.eqb 1000 new_debouncer (hardware_schedule l))).

Lemma arun_inv l : let m := arun new_manager l in
  a_deb m = fst (drun Bool.eqb 1000 new_debouncer (hardware_schedule l)) /\
  a_state m = Arming (last_soft l) (last_debounced l) /\ (forall s, a_note m = Some s -> s = a_state m).
Proof.
  cbv zeta. induction l as [|e l IH] using rev_ind; [split; [reflexivity|]; split; [reflexivity|discriminate]|].
  unfold arun in *. rewrite fold_left_app. cbn [fold_left]. set (m := fold_left astep l new_manager) in *. destruct IH as [D [St N]].
  unfold last_debounced, last_soft, hardware_schedule in *. rewrite fold_left_app, flat_map_app. cbn [fold_left flat_map].
  destruct e as [b|b t|t]; cbn [astep]; rewrite ?app_nil_r.
  - cbn [a_deb a_state a_note]. split; [exact D|]. rewrite St. cbn. split; [reflexivity|]. intros s H. injection H as <-. reflexivity.
  - rewrite drun_app. cbn [a_deb a_state a_note]. cbn [app drun dstep fst snd]. rewrite <- D. split; [reflexivity|]. rewrite app_nil_r.
    split; [exact St|]. exact N.
  - rewrite drun_app. cbn [app drun dstep fst snd]. rewrite <- D. unfold ARM_DEBOUNCE. destruct (d_poll Bool.eqb 1000 t (a_deb m)) as [d o].
    destruct o as [h|]; cbn [a_deb a_state a_note fst snd].
    + split; [reflexivity|]. split; [|intros s H; injection H as <-; reflexivity]. rewrite St. cbn. unfold last_value. rewrite last_last. reflexivity.
    + split; [reflexivity|]. rewrite app_nil_r. split; [exact St|exact N].
Qed.

(** C47: armed exactly when the last software command was "arm" and the last
    debounced hardware value is on *)
Theorem C47_armed_iff_both l : is_armed (a_state (arun new_manager l)) = true <-> last_soft l = true /\ last_debounced l = true.
Proof. destruct (arun_inv l) as [_ [-> _]]. unfold is_armed. cbn. apply andb_true_iff. Qed.

(** what a subscriber reads is the current state *)
Theorem C47_notified_of_current_state l s : a_note (arun new_manager l) = Some s -> s = a_state (arun new_manager l).
Proof. apply arun_inv. Qed.

(** software disarm takes effect at once *)
Theorem C47_software_off l l' : Forall (fun e => match e with ASoft _ => False | _ => True end) l' ->
  is_armed (a_state (arun new_manager (l ++ ASoft false :: l'))) = false.
Proof.
  intros H. apply not_true_is_false. intros E. apply C47_armed_iff_both in E as [E _]. unfold last_soft in E. rewrite fold_left_app in E.
  cbn [fold_left] in E. revert E. induction H as [|e l'' He H IH]; cbn [fold_left]; [discriminate|]. destruct e; [contradiction|exact IH|exact IH].
Qed.

(** hardware off, held for a second, with the debounce task running promptly,
    disarms whatever the software says *)
Theorem C47_hardware_off l l1 t l2 t' : hardware_schedule l = flat_map expand (l1 ++ Change false t :: l2 ++ [Wake t']) ->
  quiet l2 -> t + 1000 <= t' -> is_armed (a_state (arun new_manager l)) = false.
Proof.
  intros E Q L. apply not_true_is_false. intros H. apply C47_armed_iff_both in H as [_ H]. unfold last_debounced in H. rewrite E in H.
  destruct (C49_settles Bool.eqb eqb_true_iff 1000 l1 false t l2 t' Q L) as [os [tp H2]]. unfold output, debounce in H2. rewrite H2 in H.
  unfold last_value in H. rewrite last_last in H. discriminate.
Qed.

Example C47_case : let l := [ASoft true; AHard false 0; APoll 0; AHard true 10; APoll 10; APoll 1010] in
  is_armed (a_state (arun new_manager l)) = true /\
  is_armed (a_state (arun new_manager (l ++ [AHard false 2000; APoll 2000; APoll 2999]))) = true /\
  is_armed (a_state (arun new_manager (l ++ [AHard false 2000; APoll 2000; APoll 3000]))) = false.
Proof. split; [reflexivity|split; reflexivity]. Qed.

(** ** C48: specification *)
Definition pyro_eqb (a b : pyro) : bool := (pyro_code a =? pyro_code b)%N.
(** the commands given to one output *)
Definition commands (x : pyro) (out : list (pyro * bool * Z)) : list (bool * Z) :=
  map (fun c => (snd (fst c), snd c)) (filter (fun c => pyro_eqb x (fst (fst c))) out).
(** never enabled, or enabled once and then disabled once, 3 s later or more *)
Definition single_pulse (cs : list (bool * Z)) : Prop :=
  cs = [] \/ (exists t, cs = [(true, t)]) \/ (exists t t', cs = [(true, t); (false, t')] /\ t + 3000 <= t').

Section System.
Context {A : numerics}.
(** everything the flight cores have published *)
Fixpoint published_events (p : profile A) (y : system A) (l : list (yevent A)) : list (event A) :=
  match l with
  | [] => []
  | e :: l => emitted p y e ++ match ystep p y e with Some y' => published_events p y' l | None => [] end
  end.
Definition arm_events (l : list (yevent A)) : list aevent := flat_map (fun e => match e with YArm a => [a] | _ => [] end) l.

(** ** Proofs *)
Lemma pyro_eqb_spec a b : pyro_eqb a b = true <-> a = b.
Proof. destruct a, b; cbn; split; intros; congruence || reflexivity || discriminate. Qed.

Lemma commands_app x a b : commands x (a ++ b) = commands x a ++ commands x b.
Proof. unfold commands. rewrite filter_app, map_app. reflexivity. Qed.
Lemma commands_one x z b t : commands x [(z, b, t)] = if pyro_eqb x z then [(b, t)] else [].
Proof. unfold commands. cbn. destruct (pyro_eqb x z); reflexivity. Qed.

Lemma yrun_app (p : profile A) a : forall y b, yrun p y (a ++ b) = match yrun p y a with Some y' => yrun p y' b | None => None end.
Proof. induction a as [|e a IH]; intros y b; cbn [app yrun]; [reflexivity|]. destruct (ystep p y e); [apply IH|reflexivity]. Qed.
Lemma published_app (p : profile A) a : forall y b y', yrun p y a = Some y' ->
  published_events p y (a ++ b) = published_events p y a ++ published_events p y' b.
Proof.
  induction a as [|e a IH]; intros y b y' H; cbn [app published_events yrun] in *; [injection H as <-; reflexivity|].
  destruct (ystep p y e) as [y1|]; [|discriminate]. rewrite (IH _ _ _ H), app_assoc. reflexivity.
Qed.

Lemma yrun_ind (p : profile A) (P : list (yevent A) -> system A -> Prop) : P [] boot_system ->
  (forall l y e y', yrun p boot_system l = Some y -> P l y -> ystep p y e = Some y' -> P (l ++ [e]) y') ->
  forall l y, yrun p boot_system l = Some y -> P l y.
Proof.
  intros H0 HS l. induction l as [|e l IH] using rev_ind; intros y H.
  - cbn in H. injection H as <-. exact H0.
  - rewrite yrun_app in H. destruct (yrun p boot_system l) as [y1|] eqn:R; [|discriminate]. cbn [yrun] in H.
    destruct (ystep p y1 e) as [y2|] eqn:S; [|discriminate]. injection H as <-. eapply HS; eauto.
Qed.

(** the steps leave the pyro tasks alone, except their own *)
Lemma ystep_pyro (p : profile A) y e y' : ystep p y e = Some y' ->
  match e with
  | YMain now => y_drogue y' = y_drogue y /\ y_main y' = fst (fst (p_poll is_main now (y_main y) (y_main_q y))) /\
      y_out y' = y_out y ++ match snd (p_poll is_main now (y_main y) (y_main_q y)) with Some b => [(main_pyro p, b, now)] | None => [] end
  | YDrogue now => y_main y' = y_main y /\ y_drogue y' = fst (fst (p_poll is_drogue now (y_drogue y) (y_drogue_q y))) /\
      y_out y' = y_out y ++ match snd (p_poll is_drogue now (y_drogue y) (y_drogue_q y)) with Some b => [(drogue_pyro p, b, now)] | None => [] end
  | _ => y_main y' = y_main y /\ y_drogue y' = y_drogue y /\ y_out y' = y_out y
  end.
Proof.
  destruct e as [a| |r|t|t|now|now]; cbn [ystep]; intros H.
  - injection H as <-. cbn. auto.
  - destruct (a_note (y_arm y)) as [s|]; [|injection H as <-; auto].
    destruct (is_armed s); destruct (y_cores (with_arm _ y)); injection H as <-; cbn; auto.
  - destruct (y_cores y) as [[b m]|]; [|injection H as <-; auto]. destruct (btick p b r) as [[b' es]|]; [|discriminate]. injection H as <-. cbn. auto.
  - destruct (y_cores y) as [[b m]|]; [|injection H as <-; auto]. destruct (mstep p m (MTick t)) as [m' es]. injection H as <-. cbn. auto.
  - destruct (y_cores y) as [[b m]|]; [|injection H as <-; auto]. destruct (mstep p m (MTrigger t)) as [m' es]. injection H as <-. cbn. auto.
  - destruct (p_poll is_main now (y_main y) (y_main_q y)) as [[t q] o]. injection H as <-. cbn. auto.
  - destruct (p_poll is_drogue now (y_drogue y) (y_drogue_q y)) as [[t q] o]. injection H as <-. cbn. auto.
Qed.

Definition task_commands (t : ptask) (cs : list (bool * Z)) : Prop :=
  match t with
  | PWaiting => cs = []
  | PFiring dl => cs = [(true, dl - 3000)]
  | PDone => exists t1 t2, cs = [(true, t1); (false, t2)] /\ t1 + 3000 <= t2
  end.
Lemma poll_commands {X} (f : X -> bool) now t q cs : task_commands t cs ->
  task_commands (fst (fst (p_poll f now t q))) (cs ++ match snd (p_poll f now t q) with Some b => [(b, now)] | None => [] end).
Proof.
  destruct t as [|dl| ]; cbn [task_commands p_poll].
  - intros ->. destruct (find_deploy f q); cbn; [|reflexivity]. unfold PULSE. do 2 f_equal. lia.
  - intros ->. destruct (Z.leb_spec dl now); cbn; [|reflexivity]. exists (dl - 3000), now. split; [reflexivity|lia].
  - intros [t1 [t2 [-> H]]]. cbn. exists t1, t2. split; [reflexivity|exact H].
Qed.

Lemma pyro_inv (p : profile A) : drogue_pyro p <> main_pyro p -> forall l y, yrun p boot_system l = Some y ->
  task_commands (y_main y) (commands (main_pyro p) (y_out y)) /\ task_commands (y_drogue y) (commands (drogue_pyro p) (y_out y)) /\
  forall x, x <> main_pyro p -> x <> drogue_pyro p -> commands x (y_out y) = [].
Proof.
  intros N. apply yrun_ind; [cbn; auto|]. intros l y e y' _ [I1 [I2 I3]] S. apply ystep_pyro in S.
  assert (M : pyro_eqb (main_pyro p) (main_pyro p) = true) by (apply pyro_eqb_spec; reflexivity).
  assert (D : pyro_eqb (drogue_pyro p) (drogue_pyro p) = true) by (apply pyro_eqb_spec; reflexivity).
  assert (NE : forall a b, a <> b -> pyro_eqb a b = false) by (intros a b H; apply not_true_is_false; intros E; apply pyro_eqb_spec in E; contradiction).
  destruct e as [a| |r|t|t|now|now]; cbv beta iota in S; try (destruct S as [-> [-> ->]]; solve [auto]).
  - destruct S as [-> [-> ->]]. split; [|split].
    + rewrite commands_app. pose proof (poll_commands is_main now _ (y_main_q y) _ I1) as H.
      destruct (snd (p_poll is_main now (y_main y) (y_main_q y))) as [b|]; [rewrite commands_one, M|]; exact H.
    + rewrite commands_app. destruct (snd (p_poll is_main now (y_main y) (y_main_q y))) as [b|]; [rewrite commands_one, NE by exact N|];
        cbn [commands filter map]; rewrite app_nil_r; exact I2.
    + intros x X1 X2. rewrite commands_app, (I3 x X1 X2). destruct (snd (p_poll is_main now (y_main y) (y_main_q y))) as [b|]; [|reflexivity].
      rewrite commands_one, NE by exact X1. reflexivity.
  - destruct S as [-> [-> ->]]. split; [|split].
    + rewrite commands_app. destruct (snd (p_poll is_drogue now (y_drogue y) (y_drogue_q y))) as [b|]; [rewrite commands_one, NE by (intros E; apply N; congruence)|];
        cbn [commands filter map]; rewrite app_nil_r; exact I1.
    + rewrite commands_app. pose proof (poll_commands is_drogue now _ (y_drogue_q y) _ I2) as H.
      destruct (snd (p_poll is_drogue now (y_drogue y) (y_drogue_q y))) as [b|]; [rewrite commands_one, D|]; exact H.
    + intros x X1 X2. rewrite commands_app, (I3 x X1 X2). destruct (snd (p_poll is_drogue now (y_drogue y) (y_drogue_q y))) as [b|]; [|reflexivity].
      rewrite commands_one, NE by exact X2. reflexivity.
Qed.

(** C48: with different channels selected for drogue and main, every output
    gets at most one pulse per boot, of at least 3 s *)
Theorem C48_single_pulse_partial (p : profile A) l y x : drogue_pyro p <> main_pyro p -> yrun p boot_system l = Some y ->
  single_pulse (commands x (y_out y)).
Proof.
  intros N H. destruct (pyro_inv p N l y H) as [I1 [I2 I3]].
  assert (G : forall t cs, task_commands t cs -> single_pulse cs).
  { intros [|dl| ] cs; cbn; [intros ->; left; reflexivity|intros ->; right; left; eexists; reflexivity|]. intros [t1 [t2 H2]]. right. right. eauto. }
  destruct (pyro_eqb x (main_pyro p)) eqn:E1; [apply pyro_eqb_spec in E1; subst x; eapply G; exact I1|].
  destruct (pyro_eqb x (drogue_pyro p)) eqn:E2; [apply pyro_eqb_spec in E2; subst x; eapply G; exact I2|].
  left. apply I3; intros E; apply pyro_eqb_spec in E; congruence.
Qed.

(** queues hold only published events (and the notice of disarming) *)
Lemma push_events_in {X} (xs : list X) : forall q x, In x (push_events xs q) -> In x xs \/ In x q.
Proof.
  induction xs as [|z xs IH]; intros q x; cbn [push_events fold_left]; [auto|]. intros H. apply IH in H as [H|H]; [left; right; exact H|].
  unfold push_event in H. apply in_app_iff in H as [H|[H|[]]]; [|left; left; exact H]. right. destruct (Nat.eqb (length q) CAP); [|exact H].
  destruct q; [destruct H|right; exact H].
Qed.
Lemma find_deploy_in {X} (f : X -> bool) q q' : find_deploy f q = Some q' -> (exists x, In x q /\ f x = true) /\ incl q' q.
Proof.
  induction q as [|x q IH]; cbn; [discriminate|]. destruct (f x) eqn:E.
  - intros H. injection H as <-. split; [exists x; auto|]. intros z Hz. right. exact Hz.
  - intros H. destruct (IH H) as [[z [H1 H2]] H3]. split; [exists z; auto|]. intros w Hw. right. apply H3, Hw.
Qed.

Definition known (ev : list (event A)) (x : event A) : Prop := In x ev \/ x = ChangeState DisArmed.
Lemma cause_inv (p : profile A) : forall l y, yrun p boot_system l = Some y ->
  let ev := published_events p boot_system l in
  (forall x, In x (y_main_q y) -> known ev x) /\ (forall x, In x (y_drogue_q y) -> known ev x) /\
  (y_main y <> PWaiting -> In (ChangeState MainChuteDeployed) ev) /\ (y_drogue y <> PWaiting -> In (ChangeState DrogueChuteDeployed) ev) /\
  (forall x t, In (x, true, t) (y_out y) -> (x = main_pyro p /\ In (ChangeState MainChuteDeployed) ev) \/
                                            (x = drogue_pyro p /\ In (ChangeState DrogueChuteDeployed) ev)).
Proof.
  cbv zeta. apply yrun_ind.
  { cbn. split; [intros x []|]. split; [intros x []|]. split; [congruence|]. split; [congruence|]. intros x t []. }
  intros l y e y' R [Q1 [Q2 [P1 [P2 O]]]] S. pose proof (ystep_pyro _ _ _ _ S) as SP.
  rewrite (published_app _ _ _ [e] _ R). cbn [published_events]. rewrite S, app_nil_r.
  set (ev := published_events p boot_system l) in *. set (ne := emitted p y e).
  assert (K : forall x, known ev x -> known (ev ++ ne) x) by (intros x [H|H]; [left; apply in_app_iff; auto|right; exact H]).
  assert (I : forall x, In x ev -> In x (ev ++ ne)) by (intros x H; apply in_app_iff; auto).
  assert (QQ : (forall x, In x (y_main_q y') -> known (ev ++ ne) x) /\ (forall x, In x (y_drogue_q y') -> known (ev ++ ne) x)).
  { assert (PU : forall es z, (forall x, In x es -> known (ev ++ ne) x) -> y_main_q z = y_main_q y -> y_drogue_q z = y_drogue_q y -> y' = publish es z ->
      (forall x, In x (y_main_q y') -> known (ev ++ ne) x) /\ (forall x, In x (y_drogue_q y') -> known (ev ++ ne) x)).
    { intros es z H E1 E2 ->. cbn [publish y_main_q y_drogue_q]. rewrite E1, E2. split; intros x Hx; apply push_events_in in Hx as [Hx|Hx]; auto. }
    assert (SM : y_main_q y' = y_main_q y -> y_drogue_q y' = y_drogue_q y ->
      (forall x, In x (y_main_q y') -> known (ev ++ ne) x) /\ (forall x, In x (y_drogue_q y') -> known (ev ++ ne) x)) by (intros -> ->; split; auto).
    assert (NE : forall x, In x ne -> known (ev ++ ne) x) by (intros x H; left; apply in_app_iff; auto).
    assert (EN : emitted p y e = ne) by reflexivity. clearbody ne. clear SP P1 P2 O.
    destruct e as [a| |r|t|t|now|now]; cbn [ystep emitted] in S, EN.
    - injection S as <-. apply SM; reflexivity.
    - destruct (a_note (y_arm y)) as [s|]; [|injection S as <-; apply SM; reflexivity].
      destruct (is_armed s); cbn [with_arm y_cores] in S; destruct (y_cores y) eqn:EC; injection S as S; try (apply SM; rewrite <- S; reflexivity).
      eapply (PU drop_core); [| | |symmetry; exact S]; try reflexivity. intros x [<-|[]]. right. reflexivity.
    - destruct (y_cores y) as [[b m]|]; [|injection S as <-; apply SM; reflexivity].
      destruct (btick p b r) as [[b' es]|]; [|discriminate]. injection S as S. eapply (PU es); [intros x Hx; apply NE; rewrite <- EN; exact Hx| | |symmetry; exact S]; reflexivity.
    - destruct (y_cores y) as [[b m]|]; [|injection S as <-; apply SM; reflexivity].
      destruct (mstep p m (MTick t)) as [m' es]. injection S as S. eapply (PU es); [intros x Hx; apply NE; rewrite <- EN; exact Hx| | |symmetry; exact S]; reflexivity.
    - destruct (y_cores y) as [[b m]|]; [|injection S as <-; apply SM; reflexivity].
      destruct (mstep p m (MTrigger t)) as [m' es]. injection S as S. eapply (PU es); [intros x Hx; apply NE; rewrite <- EN; exact Hx| | |symmetry; exact S]; reflexivity.
    - destruct (y_main y) as [|dl| ]; cbn [p_poll] in S.
      + destruct (find_deploy is_main (y_main_q y)) as [q'|] eqn:F; injection S as <-; cbn [y_main_q y_drogue_q].
        * apply find_deploy_in in F as [_ F]. split; auto.
        * split; [intros x []|auto].
      + destruct (dl <=? now); injection S as <-; apply SM; reflexivity.
      + injection S as <-; apply SM; reflexivity.
    - destruct (y_drogue y) as [|dl| ]; cbn [p_poll] in S.
      + destruct (find_deploy is_drogue (y_drogue_q y)) as [q'|] eqn:F; injection S as <-; cbn [y_main_q y_drogue_q].
        * apply find_deploy_in in F as [_ F]. split; auto.
        * split; [auto|intros x []].
      + destruct (dl <=? now); injection S as <-; apply SM; reflexivity.
      + injection S as <-; apply SM; reflexivity. }
  destruct QQ as [QQ1 QQ2]. split; [exact QQ1|]. split; [exact QQ2|]. clear QQ1 QQ2.
  assert (FM : forall q', find_deploy is_main (y_main_q y) = Some q' -> In (ChangeState MainChuteDeployed) ev).
  { intros q' F. apply find_deploy_in in F as [[x [H1 H2]] _]. destruct x as [| |s| | ]; try discriminate. destruct s; try discriminate.
    apply Q1 in H1 as [H1|H1]; [exact H1|discriminate]. }
  assert (FD : forall q', find_deploy is_drogue (y_drogue_q y) = Some q' -> In (ChangeState DrogueChuteDeployed) ev).
  { intros q' F. apply find_deploy_in in F as [[x [H1 H2]] _]. destruct x as [| |s| | ]; try discriminate. destruct s; try discriminate.
    apply Q2 in H1 as [H1|H1]; [exact H1|discriminate]. }
  assert (O' : forall x t, In (x, true, t) (y_out y) -> (x = main_pyro p /\ In (ChangeState MainChuteDeployed) (ev ++ ne)) \/
                                            (x = drogue_pyro p /\ In (ChangeState DrogueChuteDeployed) (ev ++ ne))).
  { intros x t H. destruct (O x t H) as [[H1 H2]|[H1 H2]]; auto. }
  destruct e as [a| |r|t|t|now|now]; cbv beta iota in SP; try (destruct SP as [-> [-> ->]]; solve [auto]).
  - destruct SP as [-> [-> ->]]. split; [|split; [auto|]].
    + intros H. apply I. destruct (y_main y) as [|dl| ]; cbn [p_poll fst] in H.
      * destruct (find_deploy is_main (y_main_q y)) as [q'|] eqn:F; [apply (FM q' eq_refl)|exfalso; apply H; reflexivity].
      * apply P1. discriminate.
      * apply P1. discriminate.
    + intros x t H. apply in_app_iff in H as [H|H]; [apply (O' x t H)|]. left.
      destruct (y_main y) as [|dl| ]; cbn [p_poll snd] in H.
      * destruct (find_deploy is_main (y_main_q y)) as [q'|] eqn:F; cbn in H; [|destruct H]. destruct H as [H|[]]. injection H as <- <-.
        split; [reflexivity|]. apply I, (FM q' eq_refl).
      * destruct (dl <=? now); cbn in H; [destruct H as [H|[]]; discriminate|destruct H].
      * destruct H.
  - destruct SP as [-> [-> ->]]. split; [auto|split].
    + intros H. apply I. destruct (y_drogue y) as [|dl| ]; cbn [p_poll fst] in H.
      * destruct (find_deploy is_drogue (y_drogue_q y)) as [q'|] eqn:F; [apply (FD q' eq_refl)|exfalso; apply H; reflexivity].
      * apply P2. discriminate.
      * apply P2. discriminate.
    + intros x t H. apply in_app_iff in H as [H|H]; [apply (O' x t H)|]. right.
      destruct (y_drogue y) as [|dl| ]; cbn [p_poll snd] in H.
      * destruct (find_deploy is_drogue (y_drogue_q y)) as [q'|] eqn:F; cbn in H; [|destruct H]. destruct H as [H|[]]. injection H as <- <-.
        split; [reflexivity|]. apply I, (FD q' eq_refl).
      * destruct (dl <=? now); cbn in H; [destruct H as [H|[]]; discriminate|destruct H].
      * destruct H.
Qed.

(** an output is enabled only after a core published the deployment it serves *)
Theorem C48_only_on_deployment (p : profile A) l y x t : yrun p boot_system l = Some y -> In (x, true, t) (y_out y) ->
  (x = main_pyro p /\ In (ChangeState MainChuteDeployed) (published_events p boot_system l)) \/
  (x = drogue_pyro p /\ In (ChangeState DrogueChuteDeployed) (published_events p boot_system l)).
Proof. intros H I. destruct (cause_inv p l y H) as [_ [_ [_ [_ O]]]]. exact (O x t I). Qed.

(** ** C69: no deployment unless armed *)
Definition armed_at (p : profile A) (l1 : list (yevent A)) : Prop := last_soft (arm_events l1) = true /\ last_debounced (arm_events l1) = true.

Lemma arm_inv (p : profile A) : forall l y, yrun p boot_system l = Some y ->
  a_deb (y_arm y) = a_deb (arun new_manager (arm_events l)) /\ a_state (y_arm y) = a_state (arun new_manager (arm_events l)) /\
  (forall s, a_note (y_arm y) = Some s -> s = a_state (y_arm y)).
Proof.
  apply yrun_ind; [split; [reflexivity|]; split; [reflexivity|discriminate]|]. intros l y e y' _ [I1 [I2 I3]] S.
  unfold arm_events, arun in *. rewrite flat_map_app, fold_left_app. cbn [flat_map]. rewrite app_nil_r.
  set (m := fold_left astep (flat_map (fun e0 => match e0 with YArm a => [a] | _ => [] end) l) new_manager) in *.
  assert (SAME : y_arm y' = y_arm y -> a_deb (y_arm y') = a_deb m /\ a_state (y_arm y') = a_state m /\ (forall s, a_note (y_arm y') = Some s -> s = a_state (y_arm y')))
    by (intros ->; auto).
  destruct e as [a| |r|t|t|now|now]; cbn [ystep fold_left] in *.
  - injection S as <-. cbn [with_arm y_arm]. destruct a as [b|b t|t]; cbn [astep].
    + cbn. rewrite I2. split; [exact I1|]. split; [reflexivity|]. intros s H. injection H as <-. reflexivity.
    + cbn. rewrite I1. split; [reflexivity|]. split; [exact I2|exact I3].
    + rewrite I1. destruct (d_poll Bool.eqb ARM_DEBOUNCE t (a_deb m)) as [d [h|]]; cbn.
      * rewrite I2. split; [reflexivity|]. split; [reflexivity|]. intros s H. injection H as <-. reflexivity.
      * split; [reflexivity|]. split; [exact I2|exact I3].
  - destruct (a_note (y_arm y)) as [s|]; [|injection S as <-; apply SAME; reflexivity].
    destruct (is_armed s); cbn [with_arm y_cores] in S; destruct (y_cores y); injection S as <-; cbn;
      (split; [exact I1|split; [exact I2|discriminate]]).
  - destruct (y_cores y) as [[b m0]|]; [destruct (btick p b r) as [[b' es]|]; [|discriminate]|]; injection S as <-; apply SAME; reflexivity.
  - destruct (y_cores y) as [[b m0]|]; [destruct (mstep p m0 (MTick t)) as [m' es]|]; injection S as <-; apply SAME; reflexivity.
  - destruct (y_cores y) as [[b m0]|]; [destruct (mstep p m0 (MTrigger t)) as [m' es]|]; injection S as <-; apply SAME; reflexivity.
  - destruct (p_poll is_main now (y_main y) (y_main_q y)) as [[t q] o]. injection S as <-. apply SAME; reflexivity.
  - destruct (p_poll is_drogue now (y_drogue y) (y_drogue_q y)) as [[t q] o]. injection S as <-. apply SAME; reflexivity.
Qed.

(** the cores exist now: since some moment at which the rocket was armed, and
    they have existed ever since *)
Definition since_armed (p : profile A) (l : list (yevent A)) : Prop :=
  exists l1 l2, l = l1 ++ YSetup :: l2 /\ last_soft (arm_events l1) = true /\ last_debounced (arm_events l1) = true /\
  (forall l3 l4 y, l2 = l3 ++ l4 -> yrun p boot_system (l1 ++ YSetup :: l3) = Some y -> y_cores y <> None).

Lemma cores_inv (p : profile A) : forall l y, yrun p boot_system l = Some y -> y_cores y <> None -> since_armed p l.
Proof.
  apply (yrun_ind p (fun l y => y_cores y <> None -> since_armed p l)); [cbn; congruence|].
  intros l y e y' R IH S H. pose proof (arm_inv p l y R) as [_ [I2 I3]].
  destruct (y_cores y) as [c|] eqn:E.
  - destruct IH as [l1 [l2 [E1 [A1 [A2 A3]]]]]; [discriminate|]. exists l1, (l2 ++ [e]). split; [rewrite E1, <- app_assoc; reflexivity|].
    split; [exact A1|]. split; [exact A2|]. intros l3 l4 y3 E3 R3. destruct l4 as [|z l4 _] using rev_ind.
    + rewrite app_nil_r in E3. subst l3. assert (R' : yrun p boot_system (l1 ++ YSetup :: l2 ++ [e]) = Some y').
      { change (l1 ++ YSetup :: l2 ++ [e]) with (l1 ++ (YSetup :: l2) ++ [e]). rewrite app_assoc, <- E1, yrun_app, R. cbn [yrun]. rewrite S. reflexivity. }
      rewrite R' in R3. injection R3 as <-. exact H.
    + rewrite app_assoc in E3. apply app_inj_tail in E3 as [E3 _]. exact (A3 l3 l4 y3 E3 R3).
  - assert (e = YSetup /\ exists s, a_note (y_arm y) = Some s /\ is_armed s = true) as [-> [s [N As]]].
    { destruct e as [a| |r|t|t|now|now]; cbn [ystep] in S.
      - injection S as <-. cbn in H. congruence.
      - split; [reflexivity|]. destruct (a_note (y_arm y)) as [s|]; [|injection S as <-; congruence]. exists s. split; [reflexivity|].
        destruct (is_armed s); [reflexivity|]. cbn [with_arm y_cores] in S. rewrite E in S. injection S as <-. cbn in H. congruence.
      - rewrite E in S. injection S as <-. congruence.
      - rewrite E in S. injection S as <-. congruence.
      - rewrite E in S. injection S as <-. congruence.
      - destruct (p_poll is_main now (y_main y) (y_main_q y)) as [[t q] o]. injection S as <-. cbn in H. congruence.
      - destruct (p_poll is_drogue now (y_drogue y) (y_drogue_q y)) as [[t q] o]. injection S as <-. cbn in H. congruence. }
    exists l, []. split; [reflexivity|]. apply I3 in N. subst s. rewrite I2 in As. apply C47_armed_iff_both in As as [A1 A2].
    split; [exact A1|]. split; [exact A2|]. intros l3 l4 y3 E3 R3. destruct l3; [|discriminate]. rewrite yrun_app, R in R3. cbn [yrun] in R3.
    rewrite S in R3. injection R3 as <-. exact H.
Qed.

(** C69: whatever a core publishes, it publishes while the cores exist, since
    a moment at which both switches were on *)
Theorem C69_no_deployment_unless_armed (p : profile A) l y e : yrun p boot_system l = Some y -> emitted p y e <> [] -> since_armed p l.
Proof.
  intros R H. apply (cores_inv p l y R). intros E. apply H. unfold emitted. rewrite E. destruct e; reflexivity.
Qed.

(** and a disarm that has been processed stops the cores until re-armed *)
Theorem C69_disarm_stops (p : profile A) l y s e : yrun p boot_system l = Some y -> a_note (y_arm y) = Some s -> is_armed s = false ->
  exists y', ystep p y YSetup = Some y' /\ y_cores y' = None /\ emitted p y' e = [].
Proof.
  intros R N As. cbn [ystep]. rewrite N, As. cbn [with_arm y_cores]. destruct (y_cores y) eqn:E.
  - eexists. split; [reflexivity|]. split; [reflexivity|]. unfold emitted. cbn. destruct e; reflexivity.
  - eexists. split; [reflexivity|]. cbn [with_arm y_cores]. split; [exact E|]. unfold emitted. cbn [with_arm y_cores]. rewrite E. destruct e; reflexivity.
Qed.

(** consequently: no output is ever enabled unless both switches were on at
    some earlier moment *)
Theorem C69_no_pyro_unless_armed (p : profile A) l y x t : yrun p boot_system l = Some y -> In (x, true, t) (y_out y) ->
  exists l1 l2, l = l1 ++ l2 /\ last_soft (arm_events l1) = true /\ last_debounced (arm_events l1) = true.
Proof.
  intros R I.
  assert (G : published_events p boot_system l <> []).
  { destruct (C48_only_on_deployment p l y x t R I) as [[_ H]|[_ H]]; intros E; rewrite E in H; destruct H. }
  assert (F : exists a e b y1, l = a ++ e :: b /\ yrun p boot_system a = Some y1 /\ emitted p y1 e <> []).
  { clear I x t. revert G R. generalize (@boot_system A). induction l as [|e l IH]; intros y0 G R; [contradiction|]. cbn [published_events yrun] in G, R.
    destruct (emitted p y0 e) as [|z zs] eqn:E.
    - destruct (ystep p y0 e) as [y1|] eqn:S; [|discriminate]. destruct (IH y1 G R) as [a [e' [b [y2 [H1 [H2 H3]]]]]].
      exists (e :: a), e', b, y2. split; [rewrite H1; reflexivity|]. split; [cbn [yrun]; rewrite S; exact H2|exact H3].
    - exists [], e, l, y0. split; [reflexivity|]. split; [reflexivity|]. rewrite E. discriminate. }
  destruct F as [a [e [b [y1 [-> [H2 H3]]]]]]. destruct (C69_no_deployment_unless_armed p a y1 e H2 H3) as [l1 [l2 [-> [A1 [A2 _]]]]].
  exists l1, (YSetup :: l2 ++ e :: b). split; [rewrite <- app_assoc; reflexivity|]. split; assumption.
Qed.

(** ** C70: a published deployment does fire its channel *)
Lemma push_events_keep {X} (xs : list X) : forall q x, In x q -> (length q + length xs <= 10)%nat -> In x (push_events xs q).
Proof.
  induction xs as [|z xs IH]; intros q x H L; cbn [push_events fold_left]; [exact H|]. cbn [length] in L. apply IH.
  - unfold push_event. destruct (Nat.eqb_spec (length q) CAP) as [E|E]; [unfold CAP in E; lia|]. apply in_app_iff. left. exact H.
  - unfold push_event. destruct (Nat.eqb_spec (length q) CAP) as [E|E]; [unfold CAP in E; lia|]. rewrite app_length. cbn. lia.
Qed.
Lemma find_deploy_some {X} (f : X -> bool) q x : In x q -> f x = true -> exists q', find_deploy f q = Some q'.
Proof.
  induction q as [|z q IH]; intros H F; [destruct H|]. cbn. destruct (f z) eqn:E; [eauto|]. destruct H as [->|H]; [congruence|]. apply IH; assumption.
Qed.

(** an event published with room in the task's queue, followed by few enough
    events that at most ten are unread, fires when the task next runs, unless
    the channel has been used; the pulse ends when the task runs 3 s later *)
Theorem C70_published_deployment_fires_partial (p : profile A) y now more : y_main y = PWaiting ->
  (length (y_main_q y) + 1 + length more <= 10)%nat ->
  let y1 := publish more (publish [ChangeState MainChuteDeployed] y) in
  exists y2, ystep p y1 (YMain now) = Some y2 /\ y_out y2 = y_out y1 ++ [(main_pyro p, true, now)] /\
  forall now' y3 y4, y_main y3 = y_main y2 -> now + 3000 <= now' -> ystep p y3 (YMain now') = Some y4 ->
    y_out y4 = y_out y3 ++ [(main_pyro p, false, now')] /\ y_main y4 = PDone.
Proof.
  intros W L. cbv zeta. set (y1 := publish more (publish [ChangeState MainChuteDeployed] y)).
  assert (I : In (ChangeState MainChuteDeployed) (y_main_q y1)).
  { unfold y1. cbn [publish y_main_q]. apply push_events_keep.
    - cbn [push_events fold_left]. unfold push_event. apply in_app_iff. right. left. reflexivity.
    - cbn [push_events fold_left]. unfold push_event. destruct (Nat.eqb_spec (length (y_main_q y)) CAP) as [E|E]; [unfold CAP in E; lia|].
      rewrite app_length. cbn. lia. }
  destruct (find_deploy_some is_main _ _ I eq_refl) as [q' F].
  assert (W1 : y_main y1 = PWaiting) by exact W.
  cbn [ystep]. rewrite W1. cbn [p_poll]. rewrite F. eexists. split; [reflexivity|]. split; [reflexivity|]. cbn [y_main].
  intros now' y3 y4 E L' S. rewrite E in S. cbn [p_poll] in S. unfold PULSE in S. destruct (Z.leb_spec (now + 3000) now') as [_|Z]; [|lia].
  injection S as <-. split; reflexivity.
Qed.

(** the same for the drogue *)
Theorem C70_drogue_fires_partial (p : profile A) y now more : y_drogue y = PWaiting ->
  (length (y_drogue_q y) + 1 + length more <= 10)%nat ->
  let y1 := publish more (publish [ChangeState DrogueChuteDeployed] y) in
  exists y2, ystep p y1 (YDrogue now) = Some y2 /\ y_out y2 = y_out y1 ++ [(drogue_pyro p, true, now)] /\
  forall now' y3 y4, y_drogue y3 = y_drogue y2 -> now + 3000 <= now' -> ystep p y3 (YDrogue now') = Some y4 ->
    y_out y4 = y_out y3 ++ [(drogue_pyro p, false, now')] /\ y_drogue y4 = PDone.
Proof.
  intros W L. cbv zeta. set (y1 := publish more (publish [ChangeState DrogueChuteDeployed] y)).
  assert (I : In (ChangeState DrogueChuteDeployed) (y_drogue_q y1)).
  { unfold y1. cbn [publish y_drogue_q]. apply push_events_keep.
    - cbn [push_events fold_left]. unfold push_event. apply in_app_iff. right. left. reflexivity.
    - cbn [push_events fold_left]. unfold push_event. destruct (Nat.eqb_spec (length (y_drogue_q y)) CAP) as [E|E]; [unfold CAP in E; lia|].
      rewrite app_length. cbn. lia. }
  destruct (find_deploy_some is_drogue _ _ I eq_refl) as [q' F].
  assert (W1 : y_drogue y1 = PWaiting) by exact W.
  cbn [ystep]. rewrite W1. cbn [p_poll]. rewrite F. eexists. split; [reflexivity|]. split; [reflexivity|]. cbn [y_drogue].
  intros now' y3 y4 E L' S. rewrite E in S. cbn [p_poll] in S. unfold PULSE in S. destruct (Z.leb_spec (now + 3000) now') as [_|Z]; [|lia].
  injection S as <-. split; reflexivity.
Qed.
End System.

(** and the event can be
    lost: ten further events before the task runs drop it (finding) *)
Theorem C70_refuted_when_lagging (A : numerics) (p : profile A) (x : f32 A) now :
  let y1 := publish (repeat (ChangeAirSpeed x) 10) (publish [ChangeState MainChuteDeployed] boot_system) in
  exists y2, ystep p y1 (YMain now) = Some y2 /\ y_out y2 = [].
Proof. cbv zeta. eexists. split; reflexivity. Qed.

(** ** C48 refuted when drogue and main share a channel: it is enabled twice,
    and the drogue's end cuts the main's pulse short *)
Definition shared_profile : profile exact := @Profile exact Pyro1 0%Q 0%Q 0%Q Pyro1 0%Q 0%Q 0%Q 0%Q.
Definition trigger_at (t : Q) : yevent exact := @YTrigger exact t.
Definition tick_at (t : Q) : yevent exact := @YTick exact t.
Definition arm_now : list (yevent exact) := map YArm [AHard true 0; APoll 0; ASoft true] ++ [YSetup].
Arguments trigger_at _%Q. Arguments tick_at _%Q.
Theorem C48_refuted_shared_channel : exists y, yrun shared_profile boot_system
    (arm_now ++ [trigger_at 0; YDrogue 0; tick_at 1000; YMain 1000; YDrogue 3000; YMain 4000]) = Some y /\
  commands Pyro1 (y_out y) = [(true, 0); (true, 1000); (false, 3000); (false, 4000)] /\ ~ single_pulse (commands Pyro1 (y_out y)).
Proof.
  eexists. split; [vm_compute; reflexivity|]. split; [reflexivity|]. intros [H|[[t H]|[t [t' [H _]]]]]; discriminate H.
Qed.

(** non-vacuity: a nominal sequence with separate channels *)
Example C48_case : exists y, yrun (demo_profile exact) boot_system
    (arm_now ++ [trigger_at 0; YDrogue 0; tick_at 5000; YDrogue 5000; YMain 5000; YMain 7999; YMain 8000; trigger_at 9000; YDrogue 9000]) = Some y /\
  y_out y = [(Pyro1, true, 0); (Pyro1, false, 5000); (Pyro2, true, 5000); (Pyro2, false, 8000)].
Proof. eexists. split; [vm_compute; reflexivity|]. reflexivity. Qed.

Print Assumptions C49_held_for_the_interval_partial.
Print Assumptions C49_settles.
Print Assumptions C47_armed_iff_both.
Print Assumptions C47_notified_of_current_state.
Print Assumptions C47_software_off.
Print Assumptions C47_hardware_off.
Print Assumptions C48_single_pulse_partial.
Print Assumptions C48_only_on_deployment.
Print Assumptions C48_refuted_shared_channel.
Print Assumptions C69_no_deployment_unless_armed.
Print Assumptions C69_disarm_stops.
Print Assumptions C69_no_pyro_unless_armed.
Print Assumptions C70_published_deployment_fires_partial.
Print Assumptions C70_drogue_fires_partial.
Print Assumptions C70_refuted_when_lagging.

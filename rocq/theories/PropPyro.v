(** * C92, C94: continuity monitoring and the ground-test firing *)
From Coq Require Import List Arith Lia Bool NArith.
From Verif Require Import VLP Pyro.
Import ListNotations.
Local Open Scope nat_scope.

(** ** C92 *)
(** Specification: the last answer a task got, false before the first. *)
Definition is_task (w w' : who) : bool := match w, w' with MainTask, MainTask | DrogueTask, DrogueTask => true | _, _ => false end.
Definition runs (w : who) (e : cevent) : bool := match e with Poll w' => is_task w w' | Answer _ _ => false end.
(** an answer counts only once the task has been polled and so waits for one *)
Fixpoint last_answer (w : who) (waiting : bool) (v : bool) (es : list cevent) : bool :=
  match es with
  | [] => v
  | Poll w' :: es => last_answer w (waiting || is_task w w') v es
  | Answer w' x :: es => last_answer w waiting (if waiting && is_task w w' then x else v) es
  end.

Definition collides (main drogue : pyro) : Prop := cont_of main = cont_of drogue.
Lemma same_cont_iff a b : same_cont a b = true <-> a = b.
Proof. destruct a, b; cbn; split; congruence. Qed.

Definition holding (m : mon) : bool := match m with MHolding => true | MStart => false end.

(** Different continuity inputs: nothing ever panics, and each telemetry field is the last value its
    input reported. *)
Theorem continuity_reported main drogue es : ~ collides main drogue ->
  let c := cont_run main drogue es in
  panicked c = false /\
  main_field c = last_answer MainTask false false es /\
  drogue_field c = last_answer DrogueTask false false es.
Proof.
  intros NC. cbv zeta.
  assert (NC1 : same_cont (cont_of main) (cont_of drogue) = false).
  { destruct (same_cont (cont_of main) (cont_of drogue)) eqn:E; [|reflexivity]. apply same_cont_iff in E. contradiction. }
  assert (NC2 : same_cont (cont_of drogue) (cont_of main) = false).
  { destruct (same_cont (cont_of drogue) (cont_of main)) eqn:E; [|reflexivity]. apply same_cont_iff in E. symmetry in E. contradiction. }
  unfold cont_run.
  assert (G : forall es c, panicked c = false ->
    let c' := fold_left (cont_step main drogue) es c in
    panicked c' = false /\ main_field c' = last_answer MainTask (holding (mainm c)) (main_field c) es /\
    drogue_field c' = last_answer DrogueTask (holding (droguem c)) (drogue_field c) es).
  { clear es. induction es as [|e es IH]; intros c P; cbv zeta; cbn [fold_left last_answer]; [auto|].
    destruct c as [mm dm mf df p]. cbn in P. subst p.
    destruct e as [[]|[] v], mm, dm; unfold cont_step, claim, record, device; cbn [panicked mon_of other mainm droguem main_field drogue_field holding is_task orb andb last_answer];
      rewrite ?NC1, ?NC2; cbn [panicked mon_of other mainm droguem main_field drogue_field];
      (refine (match IH _ _ with conj a b => conj a b end)); reflexivity. }
  apply (G es conts_new eq_refl).
Qed.

(** Colliding inputs: the firmware panics as soon as both monitoring tasks have run once. *)
Theorem continuity_collision_panics main drogue es : collides main drogue ->
  In (Poll MainTask) es -> In (Poll DrogueTask) es ->
  panicked (cont_run main drogue es) = true.
Proof.
  intros C. assert (S1 : same_cont (cont_of main) (cont_of drogue) = true) by (apply same_cont_iff; exact C).
  assert (S2 : same_cont (cont_of drogue) (cont_of main) = true) by (apply same_cont_iff; symmetry; exact C).
  assert (P : forall es c, panicked c = true -> panicked (fold_left (cont_step main drogue) es c) = true).
  { clear es. induction es as [|e es IH]; intros c H; cbn [fold_left]; [exact H|]. apply IH. unfold cont_step. rewrite H. exact H. }
  assert (G : forall es c, panicked c = true \/
     ((holding (mainm c) = true \/ In (Poll MainTask) es) /\ (holding (droguem c) = true \/ In (Poll DrogueTask) es) /\
      (holding (mainm c) && holding (droguem c) = false)) ->
     panicked (fold_left (cont_step main drogue) es c) = true).
  { clear es. induction es as [|e es IH]; intros c H.
    - destruct H as [H|(H1 & H2 & H3)]; [exact H|]. exfalso. cbn [In] in H1, H2. destruct H1 as [H1|[]], H2 as [H2|[]]. rewrite H1, H2 in H3. discriminate.
    - destruct H as [H|(H1 & H2 & H3)]; [apply P; exact H|]. cbn [fold_left]. apply IH.
      destruct c as [mm dm mf df p]. cbn in H1, H2, H3. destruct p; [left; reflexivity|].
      destruct e as [[]|[] v], mm, dm; cbn in H3; try discriminate;
        unfold cont_step, claim, record, device; cbn [panicked mon_of other mainm droguem main_field drogue_field holding];
        rewrite ?S1, ?S2; cbn [panicked mainm droguem holding andb];
        repeat match goal with H : _ \/ _ |- _ => destruct H end; try discriminate; auto 8. }
  intros M D. apply G. right. cbn. auto.
Qed.

(** Choosing different pyros for main and drogue is not enough: 2 and 3 share a continuity input. *)
Theorem continuity_distinct_pyros_refuted :
  exists main drogue, main <> drogue /\
  forall es, In (Poll MainTask) es -> In (Poll DrogueTask) es -> panicked (cont_run main drogue es) = true.
Proof.
  exists Pyro2, Pyro3. split; [discriminate|]. intros es. apply continuity_collision_panics. reflexivity.
Qed.

(** exactly which pairs work *)
Theorem continuity_safe_pairs main drogue :
  (forall es, panicked (cont_run main drogue es) = false) <->
  (main = Pyro1 /\ drogue <> Pyro1) \/ (drogue = Pyro1 /\ main <> Pyro1).
Proof.
  split.
  - intros H. destruct main, drogue; try (left; split; [reflexivity|discriminate]); try (right; split; [reflexivity|discriminate]); exfalso;
      specialize (H [Poll MainTask; Poll DrogueTask]); discriminate H.
  - intros H es. apply continuity_reported. unfold collides. destruct H as [[-> N]|[-> N]].
    + destruct drogue; [congruence| |]; discriminate.
    + destruct main; [congruence| |]; discriminate.
Qed.

(** *** In terms of the pyro channels *)
(** What happens on the board: a monitor is polled, or the continuity of a channel becomes [v].  A monitor that waits for a device is answered by this
    device alone; [read_continuity] answers with the state the channel has, which is a [Becomes] here. *)
Inductive board := HPoll (w : who) | Becomes (ch : cont_device) (v : bool).
Definition seen_by (main drogue : pyro) (w : who) (ch : cont_device) (v : bool) : list cevent :=
  if same_cont (device main drogue w) ch then [Answer w v] else [].
Definition on_board (main drogue : pyro) (h : board) : list cevent :=
  match h with HPoll w => [Poll w] | Becomes ch v => seen_by main drogue MainTask ch v ++ seen_by main drogue DrogueTask ch v end.
Definition board_run (main drogue : pyro) (hs : list board) : conts := cont_run main drogue (flat_map (on_board main drogue) hs).
(** specification: the channel of a pyro, and the last value of a channel *)
Definition channel_of (p : pyro) : cont_device := match p with Pyro1 => pyro1_cont | Pyro2 => pyro2_cont | Pyro3 => pyro3_cont end.
Fixpoint state_of (ch : cont_device) (v : bool) (hs : list board) : bool :=
  match hs with [] => v | HPoll _ :: hs => state_of ch v hs | Becomes ch' x :: hs => state_of ch (if same_cont ch' ch then x else v) hs end.

Lemma last_answer_board main drogue w hs : ~ collides main drogue -> forall v,
  last_answer w true v (flat_map (on_board main drogue) hs) = state_of (device main drogue w) v hs.
Proof.
  intros NC. induction hs as [|h hs IH]; intros v; cbn [flat_map state_of]; [reflexivity|]. destruct h as [w'|ch x]; cbn [on_board app].
  - cbn [last_answer orb]. apply IH.
  - assert (SY : forall a b, same_cont a b = same_cont b a) by (intros [] []; reflexivity).
    unfold seen_by. rewrite (SY ch). destruct (same_cont (device main drogue MainTask) ch) eqn:E1, (same_cont (device main drogue DrogueTask) ch) eqn:E2.
    + exfalso. apply same_cont_iff in E1, E2. apply NC. unfold collides. change (device main drogue MainTask = device main drogue DrogueTask). congruence.
    + cbn [app last_answer]. destruct w; cbn [is_task andb]; [rewrite E1|rewrite E2]; apply IH.
    + cbn [app last_answer]. destruct w; cbn [is_task andb]; [rewrite E1|rewrite E2]; apply IH.
    + cbn [app]. destruct w; [rewrite E1|rewrite E2]; apply IH.
Qed.

(** With pyros 1 and 2, in either role, each telemetry field is the continuity of its own channel from the moment the two monitors run. *)
Theorem C92_fields_are_the_channels : forall main drogue hs, main <> Pyro3 -> drogue <> Pyro3 -> main <> drogue ->
  let c := board_run main drogue (HPoll MainTask :: HPoll DrogueTask :: hs) in
  panicked c = false /\ main_field c = state_of (channel_of main) false hs /\ drogue_field c = state_of (channel_of drogue) false hs.
Proof.
  intros main drogue hs N1 N2 N3. cbv zeta. assert (NC : ~ collides main drogue) by (unfold collides; destruct main, drogue; cbn; congruence).
  unfold board_run. cbn [flat_map on_board app]. destruct (continuity_reported main drogue (Poll MainTask :: Poll DrogueTask :: flat_map (on_board main drogue) hs) NC) as (P & M & D).
  split; [exact P|]. rewrite M, D. cbn [last_answer is_task orb]. rewrite !(last_answer_board main drogue _ hs NC). unfold device.
  split; [destruct main; try reflexivity; destruct (N1 eq_refl)|destruct drogue; try reflexivity; destruct (N2 eq_refl)].
Qed.
(** With pyro 3 the field is the continuity of channel 2, whatever channel 3 does. *)
Theorem C92_refuted_pyro3_is_channel_2 : forall hs,
  let c := board_run Pyro1 Pyro3 (HPoll MainTask :: HPoll DrogueTask :: hs) in
  panicked c = false /\ drogue_field c = state_of (channel_of Pyro2) false hs.
Proof.
  intros hs. cbv zeta. assert (NC : ~ collides Pyro1 Pyro3) by (unfold collides; cbn; congruence).
  unfold board_run. cbn [flat_map on_board app]. destruct (continuity_reported Pyro1 Pyro3 (Poll MainTask :: Poll DrogueTask :: flat_map (on_board Pyro1 Pyro3) hs) NC) as (P & _ & D).
  split; [exact P|]. rewrite D. cbn [last_answer is_task orb]. rewrite (last_answer_board Pyro1 Pyro3 _ hs NC). reflexivity.
Qed.
Example ex_C92_channels : let hs := [Becomes pyro3_cont true; Becomes pyro1_cont true] in
  drogue_field (board_run Pyro1 Pyro3 (HPoll MainTask :: HPoll DrogueTask :: hs)) = false /\ state_of (channel_of Pyro3) false hs = true /\
  main_field (board_run Pyro1 Pyro2 (HPoll MainTask :: HPoll DrogueTask :: hs)) = true.
Proof. repeat split. Qed.

Example continuity_example :
  let c := cont_run Pyro1 Pyro3 [Poll MainTask; Poll DrogueTask; Answer MainTask true; Answer DrogueTask true; Answer MainTask false] in
  panicked c = false /\ main_field c = false /\ drogue_field c = true.
Proof. repeat split. Qed.

(** ** C94: ground test *)
Definition pyro_commands (out : list (nat * gaction)) : list (nat * ctrl_device * bool) :=
  flat_map (fun x => match snd x with GPyro d b => [(fst x, d, b)] | _ => [] end) out.

(** Whatever is received: at most one pyro is ever driven, the one named by the first packet, on no
    earlier than 3 s after the command and off no earlier than 3 s later; with exact timers, exactly then.
    It is switched off again, always. *)
Theorem ground_test_fires_once armed packets l1 l2 l3 l4 :
  pyro_commands (ground_test armed packets l1 l2 l3 l4) = [] \/
  exists t stamp p rest t_on t_off,
    packets = (t, GroundTestDeploy stamp p) :: rest /\
    pyro_commands (ground_test armed packets l1 l2 l3 l4) = [(t_on, ctrl_of p, true); (t_off, ctrl_of p, false)] /\
    t_on = t + 3000 + (l1 + l2 + l3) /\ t_off = t_on + 3000 + l4.
Proof.
  destruct packets as [|[t u] rest]; [left; reflexivity|]. destruct u; try (left; reflexivity). right.
  exists t, timestamp, p, rest, (t + 1000 + l1 + 1000 + l2 + 1000 + l3), (t + 1000 + l1 + 1000 + l2 + 1000 + l3 + 3000 + l4).
  split; [reflexivity|]. split; [reflexivity|]. lia.
Qed.

(** different selections drive different outputs *)
Theorem ctrl_selection_faithful p p' : ctrl_of p = ctrl_of p' -> p = p'.
Proof. destruct p, p'; cbn; congruence. Qed.

(** The fire record carries the time the pyro was switched on. *)
Theorem ground_test_log armed packets l1 l2 l3 l4 t0 d t1 time :
  let out := ground_test armed packets l1 l2 l3 l4 in
  In (t0, GPyro d true) out -> In (t1, GLogFire time) out -> time = t0.
Proof.
  cbv zeta. destruct packets as [|[t []] rest]; cbn [ground_test In]; try tauto. unfold fire_sequence. cbn [In].
  intuition congruence.
Qed.

(** Refuted: the arming state does not matter. *)
Theorem ground_test_ignores_arming armed armed' packets l1 l2 l3 l4 :
  ground_test armed packets l1 l2 l3 l4 = ground_test armed' packets l1 l2 l3 l4.
Proof. reflexivity. Qed.
Theorem ground_test_armed_refuted :
  ~ (forall armed packets l1 l2 l3 l4 t d, In (t, GPyro d true) (ground_test armed packets l1 l2 l3 l4) -> armed t = true).
Proof.
  intros H. specialize (H (fun _ => false) [(0, GroundTestDeploy 0 Pyro1)] 0 0 0 0 3000 pyro1_ctrl).
  discriminate H. right. right. right. left. reflexivity.
Qed.

(** Refuted: a firing command is obeyed.  Any other packet before it, even one that has no meaning in this
    mode, makes the rocket ignore it until it is restarted. *)
Theorem ground_test_deaf armed t u rest l1 l2 l3 l4 :
  (forall s p, u <> GroundTestDeploy s p) -> ground_test armed ((t, u) :: rest) l1 l2 l3 l4 = [].
Proof. intros H. destruct u; try reflexivity. exfalso. exact (H _ _ eq_refl). Qed.

Example ground_test_example :
  pyro_commands (ground_test (fun _ => true) [(5, GroundTestDeploy 1 Pyro3); (9, GroundTestDeploy 2 Pyro1)] 1 0 2 4)
  = [(5 + 3003, pyro3_ctrl, true); (5 + 3003 + 3004, pyro3_ctrl, false)].
Proof. reflexivity. Qed.

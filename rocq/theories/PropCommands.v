(** * Property C133: what the radio commands do to the rocket in flight mode. *)
From Coq Require Import List Bool ZArith Lia.
From Coq Require Import QArith.
From Verif Require Import Numerics VLP VlpLink PropLowPower FlightCore PropBackup Avionics PropAvionics Commands.
Local Close Scope Q_scope.
Import ListNotations.
Local Open Scope Z_scope.
Local Open Scope list_scope.

Section C133.
Context {A : numerics}.
Notation cevent := (cevent A).

(** ** Specification *)

(** the events since the device last started *)
Definition since_start (l : list cevent) : list cevent :=
  fold_left (fun acc e => match e with CReset _ => [] | _ => acc ++ [e] end) l [].

Definition packets (l : list cevent) : list uplink := flat_map (fun e => match e with CPacket u _ _ => [u] | _ => [] end) l.

(** the arming the packets ask for: soft-arm packets say, the end of low power disarms *)
Definition asked (l : list cevent) : bool :=
  fold_left (fun b u => match u with SoftArm _ x => x | LowPowerMode _ false => false | _ => b end) (packets l) false.

(** the mode the packets ask for: every packet but "low power on" ends it *)
Definition asked_low (l : list cevent) : bool :=
  fold_left (fun _ u => match u with LowPowerMode _ x => x | _ => false end) (packets l) false.

(** ** Proofs *)
Lemma since_snoc l e : since_start (l ++ [e]) = match e with CReset _ => [] | _ => since_start l ++ [e] end.
Proof. unfold since_start. now rewrite fold_left_app. Qed.

Lemma crun_snoc (p : profile A) : forall l c e c', crun p c (l ++ [e]) = Some c' <-> exists c1, crun p c l = Some c1 /\ cstep p c1 e = Some c'.
Proof.
  induction l as [|x l IH]; intros c e c'; cbn [app crun].
  - split.
    + destruct (cstep p c e) as [c1|] eqn:E; [|discriminate]. intro H. exists c. split; [reflexivity|]. now injection H as <-.
    + intros (c1 & H & H'). injection H as <-. now rewrite H'.
  - destruct (cstep p c x) as [c1|]; [apply IH|]. split; [discriminate|]. intros (c2 & H & _). discriminate.
Qed.

Lemma yrun_snoc (p : profile A) ly y0 y e y' : yrun p y0 ly = Some y -> ystep p y e = Some y' -> yrun p y0 (ly ++ [e]) = Some y'.
Proof.
  revert y0. induction ly as [|x ly IH]; intros y0 R S; cbn [app yrun] in *.
  - injection R as <-. now rewrite S.
  - destruct (ystep p y0 x) as [y1|]; [|discriminate]. apply IH; assumption.
Qed.

Lemma packets_snoc l e : packets (l ++ [e]) = packets l ++ match e with CPacket u _ _ => [u] | _ => [] end.
Proof. unfold packets. rewrite flat_map_app. cbn [flat_map]. now rewrite app_nil_r. Qed.

Lemma asked_snoc l e : asked (l ++ [e]) = match e with CPacket (SoftArm _ x) _ _ => x | CPacket (LowPowerMode _ false) _ _ => false | _ => asked l end.
Proof.
  unfold asked. rewrite packets_snoc, fold_left_app. destruct e as [u t now| | | | | | | |]; reflexivity.
Qed.
Lemma asked_low_snoc l e : asked_low (l ++ [e]) = match e with CPacket (LowPowerMode _ x) _ _ => x | CPacket _ _ _ => false | _ => asked_low l end.
Proof.
  unfold asked_low. rewrite packets_snoc, fold_left_app. destruct e as [u t now| | | | | | | |]; reflexivity.
Qed.

(** arming and the software switch are only touched by YArm *)
Lemma soft_same (p : profile A) y e y' : ystep p y e = Some y' -> (forall b, e <> YArm (ASoft b)) ->
  software_armed (a_state (y_arm y')) = software_armed (a_state (y_arm y)).
Proof.
  intros S N. destruct e as [a| |r|t|t|now|now]; cbn [ystep] in S.
  - injection S as <-. cbn [with_arm y_arm]. destruct a as [b|b t|t]; [exfalso; exact (N b eq_refl)|reflexivity|].
    cbn [astep]. destruct (d_poll Bool.eqb ARM_DEBOUNCE t (a_deb (y_arm y))) as [d [h|]]; reflexivity.
  - destruct (a_note (y_arm y)) as [s|]; [|injection S as <-; reflexivity].
    destruct (is_armed s); cbn [with_arm y_cores] in S; destruct (y_cores y); injection S as <-; reflexivity.
  - destruct (y_cores y) as [[b m0]|]; [destruct (btick p b r) as [[b' es]|]; [|discriminate]|]; injection S as <-; reflexivity.
  - destruct (y_cores y) as [[b m0]|]; [destruct (mstep p m0 (MTick t)) as [m' es]|]; injection S as <-; reflexivity.
  - destruct (y_cores y) as [[b m0]|]; [destruct (mstep p m0 (MTrigger t)) as [m' es]|]; injection S as <-; reflexivity.
  - destruct (p_poll is_main now (y_main y) (y_main_q y)) as [[t q] o]. injection S as <-. reflexivity.
  - destruct (p_poll is_drogue now (y_drogue y) (y_drogue_q y)) as [[t q] o]. injection S as <-. reflexivity.
Qed.

Definition inv (p : profile A) (l : list cevent) (c : craft A) : Prop :=
  (exists ly, yrun p boot_system ly = Some (c_sys c)
     /\ (In (ASoft true) (arm_events ly) -> exists k t now, In (CPacket (SoftArm k true) t now) (since_start l)))
  /\ software_armed (a_state (y_arm (c_sys c))) = asked (since_start l)
  /\ c_shown c = asked (since_start l)
  /\ c_low c = asked_low (since_start l)
  /\ (forall due, c_reset_at c = Some due -> exists l1 k t now l2, since_start l = l1 ++ CPacket (Reset k) t now :: l2 /\ due = now + 100 /\ In now (c_can c)).

Lemma inv_sys (p : profile A) l c e ye y' c' :
  inv p l c -> (forall n, e <> CReset n) -> (forall u t n, e <> CPacket u t n) -> (forall b, ye <> YArm (ASoft b)) ->
  ystep p (c_sys c) ye = Some y' ->
  c' = Craft y' (c_low c) (c_shown c) (c_can c) (c_deletions c) (c_reset_at c) -> inv p (l ++ [e]) c'.
Proof.
  intros (( ly & R & AS) & S & SH & LO & RS) NR NP NA Y ->. unfold inv. cbn [c_sys c_shown c_low c_reset_at c_can].
  assert (E : since_start (l ++ [e]) = since_start l ++ [e]) by (rewrite since_snoc; destruct e; try reflexivity; exfalso; exact (NR _ eq_refl)).
  rewrite E, asked_snoc, asked_low_snoc.
  assert (E1 : forall b b' : bool, match e with CPacket (SoftArm _ x) _ _ => x | CPacket (LowPowerMode _ false) _ _ => b | _ => b' end = b')
    by (intros b b'; destruct e; try reflexivity; exfalso; exact (NP _ _ _ eq_refl)).
  assert (E2 : forall b b' : bool, match e with CPacket (LowPowerMode _ x) _ _ => x | CPacket _ _ _ => b | _ => b' end = b')
    by (intros b b'; destruct e; try reflexivity; exfalso; exact (NP _ _ _ eq_refl)).
  split; [|split; [|split; [|split]]].
  - exists (ly ++ [ye]). split; [exact (yrun_snoc p ly _ _ _ _ R Y)|]. unfold arm_events. rewrite flat_map_app. fold (arm_events ly). intro H.
    apply in_app_or in H. destruct H as [H|H].
    + destruct (AS H) as (k & t & n & I). exists k, t, n. apply in_or_app. now left.
    + destruct ye as [[b|b t|t]| | | | | |]; cbn in H; try contradiction; try (destruct H as [H|[]]; discriminate). exfalso. exact (NA _ eq_refl).
  - rewrite E1. rewrite <- S. exact (soft_same p _ _ _ Y NA).
  - rewrite E1. exact SH.
  - rewrite E2. exact LO.
  - intros due H. destruct (RS due H) as (l1 & k & t & n & l2 & -> & D & I). exists l1, k, t, n, (l2 ++ [e]).
    split; [now rewrite <- app_assoc|]. split; assumption.
Qed.

Lemma inv_holds (p : profile A) : forall l c, crun p power_on l = Some c -> inv p l c.
Proof.
  induction l as [|e l IH] using rev_ind; intros c H.
  - injection H as <-. split; [exists []; split; [reflexivity|intros []]|]. split; [reflexivity|]. split; [reflexivity|]. split; [reflexivity|]. discriminate.
  - apply crun_snoc in H. destruct H as (c1 & R & S). specialize (IH c1 R).
    assert (K : forall ye, with_sys c1 (ystep p (c_sys c1) ye) = Some c -> exists y', ystep p (c_sys c1) ye = Some y' /\ c = Craft y' (c_low c1) (c_shown c1) (c_can c1) (c_deletions c1) (c_reset_at c1)).
    { intros ye H. destruct (ystep p (c_sys c1) ye) as [y'|]; cbn [with_sys] in H; [|discriminate]. exists y'. split; [reflexivity|]. now injection H as <-. }
    destruct e as [u t now|b t|t| |r|t|now|now|now]; cbn [cstep] in S.
    + destruct (c_reset_at c1) as [due|] eqn:RA; [discriminate|].
      destruct IH as ((ly & RY & AS) & SO & SH & LO & RS). destruct c1 as [y low shown can dels rst].
      cbn [c_sys c_low c_shown c_can c_deletions c_reset_at awake] in *. subst rst. unfold inv.
      rewrite since_snoc, asked_snoc, asked_low_snoc.
      assert (KEEP : forall x, (In (ASoft true) (arm_events ly) -> exists k t n, In (CPacket (SoftArm k true) t n) (since_start l ++ [x]))).
      { intros x H. destruct (AS H) as (k & t0 & n & I). exists k, t0, n. apply in_or_app. now left. }
      assert (NORST : forall x, forall due : Z, None = Some due -> exists l1 k t now l2, since_start l ++ [x] = l1 ++ CPacket (Reset k) t now :: l2 /\ due = now + 100 /\ In now can) by (intros x due H; discriminate).
      assert (AEV : forall b, In (ASoft true) (arm_events (ly ++ [YArm (ASoft b)])) -> In (ASoft true) (arm_events ly) \/ b = true).
      { intros b H. unfold arm_events in H. rewrite flat_map_app in H. apply in_app_or in H. destruct H as [H|H]; [now left|]. cbn in H. destruct H as [H|[]]. right. now injection H. }
      destruct u as [k|k armed|k enabled|k|k|k q|k]; cbn [obey] in S.
      * injection S as <-. cbn. split; [exists ly; split; [exact RY|apply KEEP]|]. split; [exact SO|]. split; [exact SH|]. split; [reflexivity|apply NORST].
      * cbn [ystep with_sys] in S. injection S as <-. cbn [c_sys c_low c_shown c_can c_reset_at].
        split; [exists (ly ++ [YArm (ASoft armed)]); split; [exact (yrun_snoc p ly _ _ (YArm (ASoft armed)) _ RY eq_refl)|]|].
        { intro H. apply AEV in H. destruct H as [H| ->]; [exact (KEEP _ H)|]. exists k, t, now. apply in_or_app. right. now left. }
        split; [reflexivity|]. split; [reflexivity|]. split; [reflexivity|apply NORST].
      * destruct enabled.
        -- injection S as <-. cbn. split; [exists ly; split; [exact RY|apply KEEP]|]. split; [exact SO|]. split; [exact SH|]. split; [reflexivity|apply NORST].
        -- cbn [ystep with_sys] in S. injection S as <-. cbn [c_sys c_low c_shown c_can c_reset_at].
           split; [exists (ly ++ [YArm (ASoft false)]); split; [exact (yrun_snoc p ly _ _ (YArm (ASoft false)) _ RY eq_refl)|]|].
           { intro H. apply AEV in H. destruct H as [H|H]; [exact (KEEP _ H)|discriminate]. }
           split; [reflexivity|]. split; [reflexivity|]. split; [reflexivity|apply NORST].
      * injection S as <-. cbn. split; [exists ly; split; [exact RY|apply KEEP]|]. split; [exact SO|]. split; [exact SH|]. split; [reflexivity|].
        intros due H. injection H as <-. exists (since_start l), k, t, now, []. split; [reflexivity|]. split; [reflexivity|now left].
      * injection S as <-. cbn. split; [exists ly; split; [exact RY|apply KEEP]|]. split; [exact SO|]. split; [exact SH|]. split; [reflexivity|apply NORST].
      * injection S as <-. cbn. split; [exists ly; split; [exact RY|apply KEEP]|]. split; [exact SO|]. split; [exact SH|]. split; [reflexivity|apply NORST].
      * change (with_sys (Craft y false shown can dels None) (ystep p y (YTrigger t)) = Some c) in S. destruct (ystep p y (YTrigger t)) as [y'|] eqn:Y; cbn [with_sys c_low c_shown c_can c_deletions c_reset_at] in S; [|discriminate]. injection S as <-. cbn [c_sys c_low c_shown c_can c_reset_at].
        split; [exists (ly ++ [YTrigger t]); split; [exact (yrun_snoc p ly _ _ _ _ RY Y)|]|].
        { intro H. unfold arm_events in H. rewrite flat_map_app in H. apply in_app_or in H. destruct H as [H|[]]. exact (KEEP _ H). }
        split; [rewrite <- SO; apply (soft_same p _ _ _ Y); intros b0 X; discriminate X|]. split; [exact SH|]. split; [reflexivity|apply NORST].
    + apply K in S. destruct S as (y' & Y & E). apply (inv_sys p l c1 _ (YArm (AHard b t)) y' c IH); [intros ? X; discriminate X|intros ? ? ? X; discriminate X|intros ? X; discriminate X|exact Y|exact E].
    + apply K in S. destruct S as (y' & Y & E). apply (inv_sys p l c1 _ (YArm (APoll t)) y' c IH); [intros ? X; discriminate X|intros ? ? ? X; discriminate X|intros ? X; discriminate X|exact Y|exact E].
    + apply K in S. destruct S as (y' & Y & E). apply (inv_sys p l c1 _ YSetup y' c IH); [intros ? X; discriminate X|intros ? ? ? X; discriminate X|intros ? X; discriminate X|exact Y|exact E].
    + destruct (c_low c1) eqn:LOW.
      * (* nothing read in low power *)
        injection S as <-. destruct IH as ((ly & RY & AS) & SO & SH & LO & RS). unfold inv. rewrite since_snoc, asked_snoc, asked_low_snoc.
        split; [exists ly; split; [exact RY|]|].
        { intro H. destruct (AS H) as (k & t0 & n & I). exists k, t0, n. apply in_or_app. now left. }
        split; [exact SO|]. split; [exact SH|]. split; [exact LO|].
        intros due H. destruct (RS due H) as (l1 & k & t & n & l2 & -> & D & I). exists l1, k, t, n, (l2 ++ [CSense r]).
        split; [now rewrite <- app_assoc|]. split; assumption.
      * apply K in S. destruct S as (y' & Y & E). rewrite <- LOW in E. apply (inv_sys p l c1 _ (YBaro r) y' c IH); [intros ? X; discriminate X|intros ? ? ? X; discriminate X|intros ? X; discriminate X|exact Y|].
        exact E.
    + apply K in S. destruct S as (y' & Y & E). apply (inv_sys p l c1 _ (YTick t) y' c IH); [intros ? X; discriminate X|intros ? ? ? X; discriminate X|intros ? X; discriminate X|exact Y|exact E].
    + apply K in S. destruct S as (y' & Y & E). apply (inv_sys p l c1 _ (YMain now) y' c IH); [intros ? X; discriminate X|intros ? ? ? X; discriminate X|intros ? X; discriminate X|exact Y|exact E].
    + apply K in S. destruct S as (y' & Y & E). apply (inv_sys p l c1 _ (YDrogue now) y' c IH); [intros ? X; discriminate X|intros ? ? ? X; discriminate X|intros ? X; discriminate X|exact Y|exact E].
    + destruct (c_reset_at c1) as [due|]; [|discriminate]. destruct (due <=? now); [|discriminate]. injection S as <-.
      unfold inv. rewrite since_snoc.
      split; [exists []; split; [reflexivity|intros []]|]. split; [reflexivity|]. split; [reflexivity|]. split; [reflexivity|]. discriminate.
Qed.

Lemma last_soft_in l : last_soft l = true -> In (ASoft true) l.
Proof.
  unfold last_soft. assert (G : forall b, fold_left (fun b e => match e with ASoft x => x | _ => b end) l b = true -> b = true \/ In (ASoft true) l).
  { induction l as [|e l IH]; intros b H; cbn [fold_left] in H; [now left|]. apply IH in H. destruct H as [H|H]; [|right; now right].
    destruct e as [x| |]; [|now left|now left]. subst x. right. now left. }
  intro H. apply G in H. destruct H as [H|H]; [discriminate|exact H].
Qed.

(** C133. Nothing fires unless a soft-arm command has been received since the device last started: whatever else is received --
    ground-test commands, manual triggers, resets -- and whatever the sensors and the arming switch say. *)
Theorem C133_nothing_fires_without_soft_arm (p : profile A) l c x t :
  crun p power_on l = Some c -> In (x, true, t) (y_out (c_sys c)) ->
  exists k t0 now, In (CPacket (SoftArm k true) t0 now) (since_start l).
Proof.
  intros R I. destruct (inv_holds p l c R) as ((ly & RY & AS) & _). apply AS.
  destruct (C69_no_pyro_unless_armed p ly (c_sys c) x t RY I) as (l1 & l2 & -> & LS & _).
  apply last_soft_in in LS. unfold arm_events. rewrite flat_map_app. apply in_or_app. now left.
Qed.

(** C133. The software arming is what the packets last asked for, and so is the one telemetry reports. *)
Theorem C133_arming_as_commanded (p : profile A) l c : crun p power_on l = Some c ->
  software_armed (a_state (y_arm (c_sys c))) = asked (since_start l) /\ c_shown c = asked (since_start l).
Proof. intro R. destruct (inv_holds p l c R) as (_ & S & SH & _). split; assumption. Qed.

(** C133. The sensors are off exactly when the last packet received since the start is "low power on". *)
Theorem C133_low_power_as_commanded (p : profile A) l c : crun p power_on l = Some c -> c_low c = asked_low (since_start l).
Proof. intro R. destruct (inv_holds p l c R) as (_ & _ & _ & LO & _). exact LO. Qed.

(** what the device passes on since it last started: the logs are deleted exactly once per "delete logs" packet, and the CAN
    reset message goes out exactly at the "reset" packets (the latest first) *)
Definition is_delete (u : uplink) : bool := match u with DeleteLogs _ => true | _ => false end.
Definition reset_times (l : list cevent) : list Z := flat_map (fun e => match e with CPacket (Reset _) _ now => [now] | _ => [] end) l.
Lemma passed_on_step (p : profile A) c e c' : cstep p c e = Some c' -> (forall n, e <> CReset n) ->
  c_deletions c' = (c_deletions c + length (filter is_delete (packets [e])))%nat /\ c_can c' = rev (reset_times [e]) ++ c_can c.
Proof.
  intros S NR. unfold packets, reset_times. cbn [flat_map app].
  assert (K : forall c0 o, with_sys c0 o = Some c' -> c_deletions c' = c_deletions c0 /\ c_can c' = c_can c0).
  { intros c0 o H. destruct o as [y|]; cbn [with_sys] in H; [|discriminate]. injection H as <-. split; reflexivity. }
  destruct e as [u t now|b t|t| |r|t|now|now|now]; cbn [cstep] in S; cbn [flat_map app filter length rev]; rewrite ?Nat.add_0_r;
    try exact (K _ _ S).
  - destruct (c_reset_at c); [discriminate|]. destruct c as [y low shown can dels rst].
    destruct u as [k|k x|k x|k|k|k x|k]; cbn [obey awake c_sys c_low c_shown c_can c_deletions c_reset_at is_delete app rev filter length flat_map] in *; rewrite ?Nat.add_0_r;
      try exact (K _ _ S); try (injection S as <-; cbn [c_deletions c_can]; split; lia || reflexivity).
    destruct x; [injection S as <-; split; reflexivity|exact (K _ _ S)].
  - destruct (c_low c); [injection S as <-; split; reflexivity|exact (K _ _ S)].
  - exfalso. exact (NR _ eq_refl).
Qed.
Theorem C133_passed_on (p : profile A) l c : crun p power_on l = Some c ->
  c_deletions c = length (filter is_delete (packets (since_start l))) /\ c_can c = rev (reset_times (since_start l)).
Proof.
  revert c. induction l as [|e l IH] using rev_ind; intros c H.
  - injection H as <-. split; reflexivity.
  - apply crun_snoc in H. destruct H as (c1 & R & S). destruct (IH c1 R) as [D N]. rewrite since_snoc.
    assert (NR : (forall n, e <> CReset n) -> c_deletions c = length (filter is_delete (packets (since_start l ++ [e]))) /\ c_can c = rev (reset_times (since_start l ++ [e]))).
    { intro X. destruct (passed_on_step p c1 e c S X) as [D' N']. unfold packets, reset_times in *.
      rewrite !flat_map_app, filter_app, app_length, rev_app_distr, D', N', D, N. split; reflexivity. }
    destruct e as [u t now|b t|t| |r|t|now|now|now]; try (apply NR; intros ? E; discriminate).
    cbn [cstep] in S. destruct (c_reset_at c1) as [due|]; [|discriminate]. destruct (due <=? now); [|discriminate]. injection S as <-. split; reflexivity.
Qed.

(** C133. A ground-test deployment or a vertical calibration does nothing in flight mode but end the low-power mode. *)
Theorem C133_ground_test_ignored (p : profile A) c c' u t now :
  (exists k q, u = GroundTestDeploy k q) \/ (exists k, u = VerticalCalibration k) ->
  cstep p c (CPacket u t now) = Some c' -> c' = awake c.
Proof.
  intros U S. cbn [cstep] in S. destruct (c_reset_at c); [discriminate|].
  destruct U as [(k & q & ->)|(k & ->)]; destruct c; cbn [obey awake] in S |- *; cbn in S; injection S as <-; reflexivity.
Qed.

(** C133. The device only restarts on a reset command, at least 100 ms after it sent the reset message to the other boards, and then
    has forgotten everything: it must be armed again. *)
Theorem C133_restart (p : profile A) l c c' now :
  crun p power_on l = Some c -> cstep p c (CReset now) = Some c' ->
  c' = power_on /\ exists l1 k t sent l2, since_start l = l1 ++ CPacket (Reset k) t sent :: l2 /\ In sent (c_can c) /\ sent + 100 <= now.
Proof.
  intros R S. destruct (inv_holds p l c R) as (_ & _ & _ & _ & RS). cbn [cstep] in S.
  destruct (c_reset_at c) as [due|]; [|discriminate]. destruct (Z.leb_spec due now) as [L|L]; [|discriminate]. injection S as <-.
  split; [reflexivity|]. destruct (RS due eq_refl) as (l1 & k & t & n & l2 & E & -> & I). exists l1, k, t, n, l2. split; [exact E|]. split; [exact I|exact L].
Qed.

(** ... so a reset in flight is the end of the deployments, unless the rocket is armed again by radio. *)
Theorem C133_reset_in_flight_disarms (p : profile A) l l' c x t now :
  crun p power_on (l ++ CReset now :: l') = Some c ->
  (forall k t0 n, ~ In (CPacket (SoftArm k true) t0 n) l') -> (forall n, ~ In (CReset n) l') ->
  ~ In (x, true, t) (y_out (c_sys c)).
Proof.
  intros R N NR I. destruct (C133_nothing_fires_without_soft_arm p _ c x t R I) as (k & t0 & n & H). apply (N k t0 n).
  assert (E : since_start (l ++ CReset now :: l') = l'); [|now rewrite E in H].
  clear - NR. unfold since_start. rewrite fold_left_app. cbn [fold_left].
  assert (G : forall acc, fold_left (fun acc e => match e with CReset _ => [] | _ => acc ++ [e] end) l' acc = acc ++ l').
  { induction l' as [|e l' IH]; intro acc; cbn [fold_left]; [now rewrite app_nil_r|].
    assert (NR' : forall n, ~ In (CReset n) l') by (intros n H; apply (NR n); now right). specialize (IH NR').
    destruct e; try (rewrite IH, <- app_assoc; reflexivity). exfalso. apply (NR now0). now left. }
  apply (G []).
Qed.

(** C133. In low power the backup flight core is blind: until the next packet nothing changes it but being dropped. *)
Definition backup_of (c : craft A) : option (backup A) := option_map fst (y_cores (c_sys c)).
Theorem C133_low_power_blinds (p : profile A) l : forall c c',
  c_low c = true -> (forall u t n, ~ In (CPacket u t n) l) -> ~ In CSetup l -> (forall n, ~ In (CReset n) l) ->
  crun p c l = Some c' -> backup_of c' = backup_of c /\ c_low c' = true.
Proof.
  induction l as [|e l IH]; intros c c' L NP NS NR R; [injection R as <-; split; [reflexivity|exact L]|].
  cbn [crun] in R. destruct (cstep p c e) as [c1|] eqn:S; [|discriminate].
  assert (K : backup_of c1 = backup_of c /\ c_low c1 = true).
  { clear IH R. destruct c as [y low shown can dels rst]. cbn [c_low] in L. subst low. unfold backup_of.
    destruct e as [u t now|b t|t| |r|t|now|now|now]; cbn [cstep c_sys c_low] in S.
    - exfalso. apply (NP u t now). now left.
    - cbn [ystep with_sys] in S. injection S as <-. split; reflexivity.
    - cbn [ystep with_sys] in S. injection S as <-. split; reflexivity.
    - exfalso. apply NS. now left.
    - injection S as <-. split; reflexivity.
    - cbn [ystep] in S. destruct (y_cores y) as [[b m]|] eqn:C.
      + destruct (mstep p m (MTick t)) as [m' es]. injection S as <-. cbn. rewrite C. split; reflexivity.
      + injection S as <-. cbn. rewrite C. split; reflexivity.
    - cbn [ystep] in S. destruct (p_poll is_main now (y_main y) (y_main_q y)) as [[t q] o]. injection S as <-. split; reflexivity.
    - cbn [ystep] in S. destruct (p_poll is_drogue now (y_drogue y) (y_drogue_q y)) as [[t q] o]. injection S as <-. split; reflexivity.
    - exfalso. apply (NR now). now left. }
  destruct K as [K1 K2].
  destruct (IH c1 c' K2) as [I1 I2]; [intros u t n H; apply (NP u t n); now right|intro H; apply NS; now right|intros n H; apply (NR n); now right|exact R|].
  split; [congruence|exact I2].
Qed.
End C133.

(** ** The application's low-power mode and the radio's are not the same.

    The application leaves it on any packet (mod.rs:345); the radio client only on a low-power packet.  After "low power on" and then,
    say, a soft-arm command, the rocket is armed and its sensors run, but it sends no telemetry: the operator does not see it. *)
Definition handed_over (h : list ev) : list uplink := flat_map (fun e => match e with ToApp u => [u] | _ => [] end) h.
Definition at_zero (l : list uplink) : list (cevent exact) := map (fun u => @CPacket exact u (0#1)%Q 0) l.

Theorem C133_refuted_awake_but_silent : forall (tm : telemetry) (k : N), exists ls s c,
  VlpLink.run link_new ls = Some s /\
  handed_over (history s) = [LowPowerMode k true; SoftArm k true] /\
  crun (demo_profile exact) power_on (at_zero (handed_over (history s))) = Some c /\
  c_low c = false /\ software_armed (a_state (y_arm (c_sys c))) = true /\
  low_power s = true /\ ~ sends_telemetry s /\ listening s.
Proof.
  intros tm k.
  exists [LTelemetry tm; LRStart; LSend (LowPowerMode k true); LRTx true true; LGTx true true; LRTx true true; LReturn; LTake;
          LSend (SoftArm k true); LGTimeout; LGTx true true; LRTx true true; LReturn; LTake; LTelemetry tm; LRTimeout].
  eexists. eexists. split; [vm_compute; reflexivity|]. split; [vm_compute; reflexivity|]. split; [vm_compute; reflexivity|].
  split; [vm_compute; reflexivity|]. split; [vm_compute; reflexivity|]. split; [vm_compute; reflexivity|]. split; [|vm_compute; reflexivity].
  intros (t & H). vm_compute in H. discriminate.
Qed.

(** ** A concrete case: low power, armed by radio and by switch, a manual trigger deploys the drogue and then the main; a reset, and
    another trigger does nothing. *)
Definition a_day : list (cevent exact) :=
  [@CPacket exact (LowPowerMode 1 true) (0#1)%Q 0; @CPacket exact (GroundTestDeploy 2 Pyro1) (0#1)%Q 5; @CHard exact true 10; @CPoll exact 10; @CPacket exact (SoftArm 3 true) (0#1)%Q 20; CSetup;
   @CPacket exact (ManualTriggerDeployment 4) (30#1)%Q 30; @CDrogue exact 30; @CTick exact (5030#1)%Q; @CDrogue exact 5030; @CMain exact 5030; @CMain exact 8030].
Definition reset_and_try : list (cevent exact) :=
  [@CPacket exact (Reset 5) (9000#1)%Q 9000; @CReset exact 9100; CSetup; @CPacket exact (ManualTriggerDeployment 6) (9200#1)%Q 9200; @CDrogue exact 9200].
Definition looks (o : option (craft exact)) : option (list (pyro * bool * Z) * bool * bool * list Z) :=
  match o with Some c => Some (y_out (c_sys c), c_low c, c_shown c, c_can c) | None => None end.
Theorem C133_instance :
  looks (crun (demo_profile exact) power_on (firstn 1 a_day)) = Some ([], true, false, []) /\
  looks (crun (demo_profile exact) power_on a_day) = Some ([(Pyro1, true, 30); (Pyro1, false, 5030); (Pyro2, true, 5030); (Pyro2, false, 8030)], false, true, []) /\
  looks (crun (demo_profile exact) power_on (a_day ++ firstn 1 reset_and_try)) = Some ([(Pyro1, true, 30); (Pyro1, false, 5030); (Pyro2, true, 5030); (Pyro2, false, 8030)], false, true, [9000]) /\
  looks (crun (demo_profile exact) power_on (a_day ++ reset_and_try)) = Some ([], false, false, []).
Proof. vm_compute. split; [reflexivity|]. split; [reflexivity|]. split; reflexivity. Qed.

Print Assumptions C133_nothing_fires_without_soft_arm.
Print Assumptions C133_arming_as_commanded.
Print Assumptions C133_low_power_as_commanded.
Print Assumptions C133_passed_on.
Print Assumptions C133_ground_test_ignored.
Print Assumptions C133_restart.
Print Assumptions C133_reset_in_flight_disarms.
Print Assumptions C133_low_power_blinds.
Print Assumptions C133_refuted_awake_but_silent.
Print Assumptions C133_instance.

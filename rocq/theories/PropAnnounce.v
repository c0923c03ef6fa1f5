(** * Properties C123-C126: flight events on CAN, the camera, the flight state
    in telemetry, the arming beeps. *)
From Coq Require Import List Bool ZArith QArith Lia.
From Verif Require Import Numerics VLP FlightCore PropFlight PropBackup Avionics PropAvionics Announce.
From Verif Require Can.
Import ListNotations.
Local Open Scope Z_scope.
Local Open Scope list_scope.
Notation length := List.length.

Section Announce.
Context {A : numerics}.

(** ** Specification *)
(** what one step publishes, and everything published in a run, in order *)
Definition says (p : profile A) (n : station A) (e : nevent A) : list (tagged A) :=
  match e with NSys e => published p (n_sys n) e | _ => [] end.
Fixpoint history (p : profile A) (n : station A) (l : list (nevent A)) : list (tagged A) :=
  match l with
  | [] => []
  | e :: l => says p n e ++ match nstep p n e with Some n' => history p n' l | None => [] end
  end.
(** a subscriber that never has more than ten unread messages *)
Fixpoint keeps_up (queue : station A -> list (tagged A)) (p : profile A) (n : station A) (l : list (nevent A)) : Prop :=
  match l with
  | [] => True
  | e :: l => (length (queue n) + length (says p n e) <= 10)%nat /\
              match nstep p n e with Some n' => keeps_up queue p n' l | None => True end
  end.
(** what the flight events mean on the bus *)
Definition meaning (x : tagged A) : option Can.flight_event :=
  match snd x with
  | ChangeState PowerAscend => Some Can.Ignition
  | ChangeState Coast => Some Can.Coast
  | ChangeState Descent => Some Can.Apogee
  | ChangeState Landed => Some Can.Landed
  | _ => None
  end.
Definition meanings (h : list (tagged A)) : list Can.flight_event :=
  flat_map (fun x => match meaning x with Some f => [f] | None => [] end) h.
Inductive sublist {X} : list X -> list X -> Prop :=
| sub_nil : sublist [] []
| sub_skip a b x : sublist a b -> sublist a (x :: b)
| sub_take a b x : sublist a b -> sublist (x :: a) (x :: b).

(** ** Runs *)
Lemma nrun_app (p : profile A) a : forall n b, nrun p n (a ++ b) = match nrun p n a with Some n' => nrun p n' b | None => None end.
Proof. induction a as [|e a IH]; intros n b; cbn [app nrun]; [reflexivity|]. destruct (nstep p n e); [apply IH|reflexivity]. Qed.
Lemma history_app (p : profile A) a : forall n b n', nrun p n a = Some n' -> history p n (a ++ b) = history p n a ++ history p n' b.
Proof.
  induction a as [|e a IH]; intros n b n' H; cbn [app history nrun] in *; [injection H as <-; reflexivity|].
  destruct (nstep p n e) as [n1|]; [|discriminate]. rewrite (IH _ _ _ H), app_assoc. reflexivity.
Qed.
Lemma history_one (p : profile A) n e : history p n [e] = says p n e.
Proof. cbn [history]. destruct (nstep p n e); apply app_nil_r. Qed.
Lemma keeps_up_app queue (p : profile A) a : forall n b n', nrun p n a = Some n' ->
  keeps_up queue p n (a ++ b) -> keeps_up queue p n a /\ keeps_up queue p n' b.
Proof.
  induction a as [|e a IH]; intros n b n' H K; cbn [app keeps_up nrun] in *; [injection H as <-; split; [exact Logic.I|exact K]|].
  destruct (nstep p n e) as [n1|]; [|discriminate]. destruct K as [K1 K2]. destruct (IH _ _ _ H K2) as [K3 K4]. split; [split; [exact K1|exact K3]|exact K4].
Qed.
Lemma nrun_ind (p : profile A) (P : list (nevent A) -> station A -> Prop) : P [] boot_station ->
  (forall l n e n', nrun p boot_station l = Some n -> P l n -> nstep p n e = Some n' -> P (l ++ [e]) n') ->
  forall l n, nrun p boot_station l = Some n -> P l n.
Proof.
  intros H0 HS l. induction l as [|e l IH] using rev_ind; intros n H.
  - cbn in H. injection H as <-. exact H0.
  - rewrite nrun_app in H. destruct (nrun p boot_station l) as [n1|] eqn:R; [|discriminate]. cbn [nrun] in H.
    destruct (nstep p n1 e) as [n2|] eqn:S; [|discriminate]. injection H as <-. exact (HS l n1 e n2 R (IH n1 eq_refl) S).
Qed.

(** the avionics model of C48 and C69 publishes the same things *)
Theorem C123_same_events (p : profile A) y e y' : ystep p y e = Some y' -> match e with YMain _ => True | _ => y_main_q y' = push_events (map snd (published p y e)) (y_main_q y) end.
Proof.
  destruct e as [a| |r|t|t|now|now]; cbn [ystep published emitted]; intros H; try exact Logic.I.
  - injection H as <-. reflexivity.
  - destruct (a_note (y_arm y)) as [s|]; [|injection H as <-; reflexivity].
    destruct (is_armed s); cbn [with_arm y_cores] in H; destruct (y_cores y) as [c|]; injection H as <-; reflexivity.
  - destruct (y_cores y) as [[b m]|]; [|injection H as <-; reflexivity]. destruct (btick p b r) as [[b' es]|]; [|discriminate].
    injection H as <-. rewrite map_map, map_id. reflexivity.
  - destruct (y_cores y) as [[b m]|]; [|injection H as <-; reflexivity]. destruct (mstep p m (MTick t)) as [m' es] eqn:E. injection H as <-.
    cbn [snd]. rewrite map_map, map_id. reflexivity.
  - destruct (y_cores y) as [[b m]|]; [|injection H as <-; reflexivity]. destruct (mstep p m (MTrigger t)) as [m' es] eqn:E. injection H as <-.
    cbn [snd]. rewrite map_map, map_id. reflexivity.
  - destruct (p_poll is_drogue now (y_drogue y) (y_drogue_q y)) as [[t q] o]. injection H as <-. reflexivity.
Qed.

(** what the cores that run can publish *)
Definition publishable (x : tagged A) : Prop :=
  match x with
  | (BackupR, ChangeAirSpeed _) => True
  | (BackupR, ChangeState s) => In s [Armed; DisArmed; DrogueChuteDeployed; MainChuteDeployed; Landed]
  | (BackupBackupR, ChangeState s) => In s [DrogueChuteDeployed; MainChuteDeployed; Landed]
  | _ => False
  end.
Lemma published_shape (p : profile A) y e : Forall publishable (published p y e).
Proof.
  destruct e as [a| |r|t|t|now|now]; cbn [published]; try constructor.
  - destruct (a_note (y_arm y)) as [s|]; [|constructor]. destruct (y_cores y); [|constructor]. destruct (is_armed s); [constructor|].
    cbn. constructor; [cbn; auto|constructor].
  - unfold emitted. destruct (y_cores y) as [[b m]|]; [|constructor]. unfold btick.
    destruct (b_state b) as [|d| |d| |]; [destruct (b_first b)|destruct (lt64 d (r_ts r))|destruct (b_pad b) as [pd|]; [destruct (lt32 (r_alt r) (add32 (main_alt p) pd))|]
      |destruct (lt64 d (r_ts r))|destruct (lt32 (abs32 (r_speed r)) (lit32 1))|]; cbn [app map];
      repeat (constructor; [cbn; auto 8|]); constructor.
  - unfold emitted. destruct (y_cores y) as [[b m]|]; [|constructor]. unfold mstep.
    destruct m as [|d|d|]; cbn [snd]; [constructor|destruct (le64 d t)|destruct (le64 d t)|constructor]; cbn [snd map]; repeat (constructor; [cbn; auto 8|]); constructor.
  - unfold emitted. destruct (y_cores y) as [[b m]|]; [|constructor]. unfold mstep.
    destruct m as [|d|d|]; cbn [snd map]; repeat (constructor; [cbn; auto 8|]); constructor.
Qed.

(** ** Queues *)
Lemma sub_refl {X} (l : list X) : sublist l l.
Proof. induction l; [constructor|apply sub_take; assumption]. Qed.
Lemma sub_nil_any {X} (l : list X) : sublist [] l.
Proof. induction l; [constructor|apply sub_skip; assumption]. Qed.
Lemma sub_app {X} (a b c d : list X) : sublist a b -> sublist c d -> sublist (a ++ c) (b ++ d).
Proof. intros H K. induction H; cbn [app]; [exact K|apply sub_skip; assumption|apply sub_take; assumption]. Qed.
Lemma sub_trans {X} (b c : list X) : sublist b c -> forall a, sublist a b -> sublist a c.
Proof.
  induction 1 as [|b c x H IH|b c x H IH]; intros a K.
  - exact K.
  - apply sub_skip. apply IH. exact K.
  - inversion K as [|a' b' x' K' E1 E2|a' b' x' K' E1 E2]; subst; [apply sub_skip; apply IH; exact K'|apply sub_take; apply IH; exact K'].
Qed.
Lemma sub_in {X} (a b : list X) : sublist a b -> forall x, In x a -> In x b.
Proof. induction 1; intros y H'; cbn in *; [exact H'|right; auto|destruct H' as [->|H']; auto]. Qed.
Lemma sub_flat {X Y} (f : X -> list Y) a b : sublist a b -> sublist (flat_map f a) (flat_map f b).
Proof.
  induction 1; cbn [flat_map]; [constructor| |apply sub_app; [apply sub_refl|assumption]].
  change (flat_map f a) with ([] ++ flat_map f a). apply sub_app; [apply sub_nil_any|assumption].
Qed.
Lemma push_sub {X} (xs : list X) : forall q, sublist (push_events xs q) (q ++ xs).
Proof.
  induction xs as [|x xs IH]; intros q; cbn [push_events fold_left]; [rewrite app_nil_r; apply sub_refl|].
  refine (sub_trans _ _ _ _ (IH _)). replace (q ++ x :: xs) with ((q ++ [x]) ++ xs) by (rewrite <- app_assoc; reflexivity).
  apply sub_app; [|apply sub_refl]. unfold push_event. apply sub_app; [|apply sub_refl].
  destruct (length q =? CAP)%nat; [|apply sub_refl]. destruct q; cbn [tl]; [constructor|apply sub_skip; apply sub_refl].
Qed.
Lemma push_all {X} (xs : list X) : forall q, (length q + length xs <= 10)%nat -> push_events xs q = q ++ xs.
Proof.
  induction xs as [|x xs IH]; intros q H; cbn [push_events fold_left length] in *; [rewrite app_nil_r; reflexivity|].
  assert (E : push_event x q = q ++ [x]). { unfold push_event. destruct (Nat.eqb_spec (length q) CAP) as [E|E]; [unfold CAP in E; lia|reflexivity]. }
  rewrite E. change (fold_left (fun q0 x0 => push_event x0 q0) xs (q ++ [x])) with (push_events xs (q ++ [x])). rewrite IH.
  - rewrite <- app_assoc. reflexivity.
  - rewrite app_length. cbn [length]. lia.
Qed.
Lemma notes_meanings q : flat_map (@can_note A) q = meanings q.
Proof.
  unfold meanings. induction q as [|x q IH]; cbn [flat_map]; [reflexivity|]. rewrite IH. f_equal. unfold can_note, meaning.
  destruct (snd x) as [| |s| |]; try reflexivity. destruct s; reflexivity.
Qed.
Lemma map_fst_now {X} (now : Z) (l : list X) : map fst (map (fun f => (f, now)) l) = l.
Proof. rewrite map_map. cbn. apply map_id. Qed.

(** ** C123 *)
(** whatever the schedule, the flight events sent on the bus are, in the same
    order, some of those the cores announced: none is invented, repeated or
    moved *)
Theorem C123_nothing_invented (p : profile A) l n : nrun p boot_station l = Some n ->
  sublist (map fst (n_can_sent n)) (meanings (history p boot_station l)).
Proof.
  intros R. assert (G : sublist (map fst (n_can_sent n) ++ meanings (n_can_q n)) (meanings (history p boot_station l))).
  { revert l n R. apply nrun_ind; [constructor|]. intros l n e n' R IH S.
    rewrite (history_app _ _ _ _ _ R), history_one. unfold meanings at 2. rewrite flat_map_app.
    change (sublist (map fst (n_can_sent n') ++ meanings (n_can_q n')) (meanings (history p boot_station l) ++ meanings (says p n e))).
    destruct e as [e|now|now|]; cbn [nstep says] in *.
    - destruct (ystep p (n_sys n) e) as [y|]; [|discriminate]. injection S as <-. cbn [n_can_sent n_can_q].
      refine (sub_trans ((map fst (n_can_sent n) ++ meanings (n_can_q n)) ++ meanings (published p (n_sys n) e)) _ _ _ _).
      + apply sub_app; [exact IH|apply sub_refl].
      + rewrite <- app_assoc. apply sub_app; [apply sub_refl|]. unfold meanings. rewrite <- flat_map_app. apply sub_flat. apply push_sub.
    - injection S as <-. cbn [n_can_sent n_can_q]. cbn [meanings flat_map]. rewrite !app_nil_r, map_app, map_fst_now, notes_meanings. exact IH.
    - destruct (cam_poll now (n_cam n) (n_cam_q n)) as [[t q] o]. injection S as <-. cbn [n_can_sent n_can_q meanings flat_map]. rewrite app_nil_r. exact IH.
    - injection S as <-. cbn [n_can_sent n_can_q meanings flat_map]. rewrite app_nil_r. exact IH. }
  refine (sub_trans _ _ G _ _). rewrite <- (app_nil_r (map fst (n_can_sent n))) at 1. apply sub_app; [apply sub_refl|apply sub_nil_any].
Qed.

(** and if the sending task keeps up, all of them, as soon as it has run *)
Theorem C123_all_sent_partial (p : profile A) l now n : nrun p boot_station (l ++ [NCan now]) = Some n -> keeps_up n_can_q p boot_station (l ++ [NCan now]) ->
  map fst (n_can_sent n) = meanings (history p boot_station l).
Proof.
  intros R K. rewrite nrun_app in R. destruct (nrun p boot_station l) as [n0|] eqn:R0; [|discriminate].
  destruct (keeps_up_app _ _ _ _ _ _ R0 K) as [K0 _]. cbn [nrun nstep] in R. injection R as <-. cbn [n_can_sent].
  rewrite map_app, map_fst_now, notes_meanings. clear K. revert l n0 R0 K0.
  apply (nrun_ind p (fun l n => keeps_up n_can_q p boot_station l -> map fst (n_can_sent n) ++ meanings (n_can_q n) = meanings (history p boot_station l))); [reflexivity|].
  intros l n e n' R IH S K. destruct (keeps_up_app _ _ _ _ _ _ R K) as [K0 [K1 _]]. specialize (IH K0).
  rewrite (history_app _ _ _ _ _ R), history_one. unfold meanings at 2. rewrite flat_map_app.
  change (map fst (n_can_sent n') ++ meanings (n_can_q n') = meanings (history p boot_station l) ++ meanings (says p n e)). rewrite <- IH.
  destruct e as [e|t0|t0|]; cbn [nstep says] in *.
  - destruct (ystep p (n_sys n) e) as [y|]; [|discriminate]. injection S as <-. cbn [n_can_sent n_can_q]. rewrite push_all by exact K1.
    unfold meanings. rewrite flat_map_app. rewrite app_assoc. reflexivity.
  - injection S as <-. cbn [n_can_sent n_can_q]. cbn [meanings flat_map]. rewrite !app_nil_r, map_app, map_fst_now, notes_meanings. reflexivity.
  - destruct (cam_poll t0 (n_cam n) (n_cam_q n)) as [[t q] o]. injection S as <-. cbn [n_can_sent n_can_q meanings flat_map]. rewrite app_nil_r. reflexivity.
  - injection S as <-. cbn [n_can_sent n_can_q meanings flat_map]. rewrite app_nil_r. reflexivity.
Qed.

Lemma history_shape (p : profile A) l : forall n, Forall publishable (history p n l).
Proof.
  induction l as [|e l IH]; intros n; cbn [history]; [constructor|]. apply Forall_app. split.
  - destruct e; cbn [says]; [apply published_shape|constructor|constructor|constructor].
  - destruct (nstep p n e); [apply IH|constructor].
Qed.

(** what the property asks and the code does not do: in no run whatever is
    ignition, coast or apogee announced on the bus - only landings are *)
Theorem C123_refuted_only_landings (p : profile A) l n f t : nrun p boot_station l = Some n -> In (f, t) (n_can_sent n) -> f = Can.Landed.
Proof.
  intros R I. pose proof (C123_nothing_invented p l n R) as S. pose proof (sub_in _ _ S f (in_map fst _ _ I)) as J.
  apply in_flat_map in J as [x [J1 J2]]. pose proof (proj1 (Forall_forall _ _) (history_shape p l boot_station) x J1) as P.
  destruct x as [r ev]. unfold meaning in J2. cbn [snd] in J2. destruct ev as [| |s| |]; try (destruct J2; fail).
  destruct s; cbn in J2; try (destruct J2; fail); try (destruct J2 as [J2|[]]; symmetry; exact J2 || idtac);
  destruct r; cbn in P; repeat (destruct P as [P|P]; try discriminate P); try (destruct P; fail); try (symmetry; exact J2).
Qed.

(** ** C124: specification *)
Definition switch (x : tagged A) : list bool :=
  match snd x with ChangeState Armed => [true] | ChangeState DisArmed => [false] | _ => [] end.
Definition switches (h : list (tagged A)) : list bool := flat_map switch h.
(** the state the camera was last told to be in; it starts off *)
Definition recording (n : station A) : bool := last (map fst (n_cam_did n)) false.
Definition landing (x : tagged A) : Prop := snd x = ChangeState Landed.
(** the rocket is armed and its flight core has seen a sensor reading *)
Definition armed_and_running (n : station A) : bool := match y_cores (n_sys n) with Some (b, _) => negb (b_first b) | None => false end.

(** ** Proofs *)
Lemma cam_read_spec now q : forall t q' o, cam_read now q = (t, q', o) ->
  incl q' q /\ (In true o -> exists x : tagged A, In x q /\ snd x = ChangeState Armed) /\
  (In false o -> exists x : tagged A, In x q /\ snd x = ChangeState DisArmed) /\
  (forall dl, t = CLingering dl -> dl = now + 60000 /\ exists x, In x q /\ landing x).
Proof.
  induction q as [|x q IH]; intros t q' o H; cbn [cam_read] in H.
  - injection H as <- <- <-. split; [apply incl_refl|]. split; [intros []|]. split; [intros []|]. discriminate.
  - assert (W : forall t q' o, cam_read now q = (t, q', o) -> incl q' (x :: q) /\ (In true o -> exists y : tagged A, In y (x :: q) /\ snd y = ChangeState Armed) /\
      (In false o -> exists y : tagged A, In y (x :: q) /\ snd y = ChangeState DisArmed) /\
      (forall dl, t = CLingering dl -> dl = now + 60000 /\ exists y, In y (x :: q) /\ landing y)).
    { intros t1 q1 o1 E. destruct (IH _ _ _ E) as [H1 [H2 [H3 H4]]]. split; [intros z Z; right; exact (H1 z Z)|].
      split; [intros B; destruct (H2 B) as [y [Y1 Y2]]; exists y; split; [right; exact Y1|exact Y2]|].
      split; [intros B; destruct (H3 B) as [y [Y1 Y2]]; exists y; split; [right; exact Y1|exact Y2]|].
      intros dl D. destruct (H4 dl D) as [E1 [y [Y1 Y2]]]. split; [exact E1|]. exists y. split; [right; exact Y1|exact Y2]. }
    destruct (cam_read now q) as [[t1 q1] o1] eqn:E. specialize (W _ _ _ eq_refl). destruct (snd x) as [| |s| |] eqn:X; try (injection H as <- <- <-; exact W).
    destruct s; try (injection H as <- <- <-; exact W).
    + injection H as <- <- <-. destruct W as [W1 [W2 [W3 W4]]]. split; [exact W1|]. split; [intros [B|B]; [discriminate B|exact (W2 B)]|].
      split; [intros _; exists x; split; [left; reflexivity|exact X]|exact W4].
    + injection H as <- <- <-. destruct W as [W1 [W2 [W3 W4]]]. split; [exact W1|]. split; [intros _; exists x; split; [left; reflexivity|exact X]|].
      split; [intros [B|B]; [discriminate B|exact (W3 B)]|exact W4].
    + injection H as <- <- <-. split; [intros z Z; right; exact Z|]. split; [intros []|]. split; [intros []|]. intros dl D. injection D as <-.
      split; [reflexivity|]. exists x. split; [left; reflexivity|exact X].
Qed.

Definition linger_cause (p : profile A) (l : list (nevent A)) (dl : Z) : Prop :=
  exists l1 t0 l2 x, l = l1 ++ NCam t0 :: l2 /\ dl = t0 + 60000 /\ In x (history p boot_station l1) /\ landing x.
Definition command_cause (p : profile A) (l : list (nevent A)) (b : bool) (t : Z) : Prop :=
  exists l1 l2, l = l1 ++ NCam t :: l2 /\
    if b then exists x, In x (history p boot_station l1) /\ snd x = ChangeState Armed
    else (exists x, In x (history p boot_station l1) /\ snd x = ChangeState DisArmed) \/
         exists dl, linger_cause p l1 dl /\ dl <= t.
Lemma linger_more (p : profile A) l e dl : linger_cause p l dl -> linger_cause p (l ++ [e]) dl.
Proof. intros [l1 [t0 [l2 [x [-> H]]]]]. exists l1, t0, (l2 ++ [e]), x. split; [rewrite <- app_assoc; reflexivity|exact H]. Qed.
Lemma command_more (p : profile A) l e b t : command_cause p l b t -> command_cause p (l ++ [e]) b t.
Proof. intros [l1 [l2 [-> H]]]. exists l1, (l2 ++ [e]). split; [rewrite <- app_assoc; reflexivity|exact H]. Qed.

Lemma push_incl {X} (xs q : list X) x : In x (push_events xs q) -> In x (q ++ xs).
Proof. intros H. apply (sub_in _ _ (push_sub xs q)). exact H. Qed.

(** C124: the camera is switched on only after an arming, and switched off only
    after a disarming or at least a minute after a landing was noticed *)
Theorem C124_every_switch_has_its_cause (p : profile A) l n b t : nrun p boot_station l = Some n -> In (b, t) (n_cam_did n) ->
  exists l1 l2, l = l1 ++ NCam t :: l2 /\
    if b then exists x, In x (history p boot_station l1) /\ snd x = ChangeState Armed
    else (exists x, In x (history p boot_station l1) /\ snd x = ChangeState DisArmed) \/
         exists l3 t0 l4 x, l1 = l3 ++ NCam t0 :: l4 /\ t0 + 60000 <= t /\ In x (history p boot_station l3) /\ snd x = ChangeState Landed.
Proof.
  intros R I. assert (G : incl (n_cam_q n) (history p boot_station l) /\ (forall dl, n_cam n = CLingering dl -> linger_cause p l dl) /\
    (forall b t, In (b, t) (n_cam_did n) -> command_cause p l b t)).
  { clear I b t. revert l n R. apply nrun_ind; [split; [intros x []|]; split; [discriminate|intros b t []]|].
    intros l n e n' R [I1 [I2 I3]] S. rewrite (history_app _ _ _ _ _ R), history_one.
    assert (SAME : n_cam_q n' = n_cam_q n -> n_cam n' = n_cam n -> n_cam_did n' = n_cam_did n -> says p n e = [] ->
      incl (n_cam_q n') (history p boot_station l ++ says p n e) /\ (forall dl, n_cam n' = CLingering dl -> linger_cause p (l ++ [e]) dl) /\
      (forall b t, In (b, t) (n_cam_did n') -> command_cause p (l ++ [e]) b t)).
    { intros -> -> -> ->. rewrite app_nil_r. split; [exact I1|]. split; [intros dl D; apply linger_more; exact (I2 dl D)|].
      intros b t H. apply command_more. exact (I3 b t H). }
    destruct e as [e|t0|t0|]; cbn [nstep] in S.
    - destruct (ystep p (n_sys n) e) as [y|]; [|discriminate]. injection S as <-. cbn [n_cam_q n_cam n_cam_did says].
      split; [|split; [intros dl D; apply linger_more; exact (I2 dl D)|intros b t H; apply command_more; exact (I3 b t H)]].
      intros x X. apply push_incl in X. apply in_app_iff in X as [X|X]; apply in_app_iff; [left; exact (I1 x X)|right; exact X].
    - injection S as <-. apply SAME; reflexivity.
    - destruct (cam_poll t0 (n_cam n) (n_cam_q n)) as [[t q] o] eqn:E. injection S as <-. cbn [n_cam_q n_cam n_cam_did says]. rewrite app_nil_r.
      unfold cam_poll in E.
      assert (MAIN : forall t q o, cam_read t0 (n_cam_q n) = (t, q, o) -> incl q (history p boot_station l) /\
         (forall dl, t = CLingering dl -> linger_cause p (l ++ [NCam t0]) dl) /\ (forall b, In b o -> command_cause p (l ++ [NCam t0]) b t0)).
      { intros t1 q1 o1 C. destruct (cam_read_spec _ _ _ _ _ C) as [C1 [C2 [C3 C4]]]. split; [intros z Z; exact (I1 z (C1 z Z))|].
        split; [intros dl D; destruct (C4 dl D) as [D1 [x [X1 X2]]]; exists l, t0, [], x; split; [reflexivity|]; split; [exact D1|]; split; [exact (I1 x X1)|exact X2]|].
        intros b B. exists l, []. split; [reflexivity|]. destruct b.
        - destruct (C2 B) as [x [X1 X2]]. exists x. split; [exact (I1 x X1)|exact X2].
        - left. destruct (C3 B) as [x [X1 X2]]. exists x. split; [exact (I1 x X1)|exact X2]. }
      assert (NOW : forall b t1 o1, (forall b, In b o1 -> command_cause p (l ++ [NCam t0]) b t0) -> In (b, t1) (n_cam_did n ++ map (fun b => (b, t0)) o1) -> command_cause p (l ++ [NCam t0]) b t1).
      { intros b t1 o1 H J. apply in_app_iff in J as [J|J]; [apply command_more; exact (I3 b t1 J)|]. apply in_map_iff in J as [b' [J1 J2]].
        injection J1 as <- <-. exact (H b' J2). }
      destruct (n_cam n) as [|dl] eqn:N.
      + destruct (MAIN _ _ _ E) as [M1 [M2 M3]]. split; [exact M1|]. split; [exact M2|]. intros b t1. apply NOW. exact M3.
      + destruct (Z.leb_spec dl t0) as [D|D].
        * destruct (cam_read t0 (n_cam_q n)) as [[t1 q1] o1] eqn:C. injection E as <- <- <-. destruct (MAIN _ _ _ eq_refl) as [M1 [M2 M3]].
          split; [exact M1|]. split; [exact M2|]. intros b t2. apply (NOW b t2 (false :: o1)). intros b' [<-|B]; [|exact (M3 b' B)].
          exists l, []. split; [reflexivity|]. right. exists dl. split; [exact (I2 dl eq_refl)|exact D].
        * injection E as <- <- <-. split; [exact I1|]. split; [intros dl' D'; apply linger_more; exact (I2 dl' D')|].
          intros b t1. apply (NOW b t1 []). intros b' [].
    - injection S as <-. apply SAME; reflexivity. }
  destruct G as [_ [_ G]]. destruct (G b t I) as [l1 [l2 [-> H]]]. exists l1, l2. split; [reflexivity|]. destruct b; [exact H|].
  destruct H as [H|[dl [[l3 [t0 [l4 [x [-> [-> [X1 X2]]]]]]] D]]]; [left; exact H|]. right. exists l3, t0, l4, x.
  split; [reflexivity|]. split; [exact D|]. split; [exact X1|exact X2].
Qed.

Lemma cam_read_all now q : Forall (fun x : tagged A => ~ landing x) q -> cam_read now q = (CListening, [], switches q).
Proof.
  induction q as [|x q IH]; intros H; [reflexivity|]. inversion H as [|x' q' H1 H2]; subst. cbn [cam_read]. unfold switches. cbn [flat_map].
  rewrite (IH H2). fold (switches q). unfold landing in H1. unfold switch. destruct (snd x) as [| |s| |]; try reflexivity. destruct s; try reflexivity. congruence.
Qed.

Lemma last_app_default {X} (a b : list X) d : last (a ++ b) d = last b (last a d).
Proof.
  induction b as [|x b IH] using rev_ind; [rewrite app_nil_r; reflexivity|]. rewrite app_assoc, !last_last. reflexivity.
Qed.

(** what the history says about the switch is whether the rocket is armed and
    running *)
Lemma switch_state (p : profile A) l n : nrun p boot_station l = Some n -> last (switches (history p boot_station l)) false = armed_and_running n /\
  (match y_cores (n_sys n) with Some (b, _) => b_state b <> BArmed -> b_first b = false | None => True end).
Proof.
  revert l n. apply nrun_ind; [split; [reflexivity|exact Logic.I]|]. intros l n e n' R [IH IH2] S. rewrite (history_app _ _ _ _ _ R), history_one.
  unfold switches. rewrite flat_map_app. fold (switches (history p boot_station l)). rewrite last_app_default, IH.
  assert (SAME : y_cores (n_sys n') = y_cores (n_sys n) -> says p n e = [] -> last (flat_map switch (says p n e)) (armed_and_running n) = armed_and_running n' /\
     (match y_cores (n_sys n') with Some (b, _) => b_state b <> BArmed -> b_first b = false | None => True end)).
  { unfold armed_and_running. intros -> ->. split; [reflexivity|exact IH2]. }
  destruct e as [e|t0|t0|]; cbn [nstep] in S.
  2: { injection S as <-. apply SAME; reflexivity. }
  2: { destruct (cam_poll t0 (n_cam n) (n_cam_q n)) as [[t q] o]. injection S as <-. apply SAME; reflexivity. }
  2: { injection S as <-. apply SAME; reflexivity. }
  destruct (ystep p (n_sys n) e) as [y|] eqn:Y; [|discriminate]. injection S as <-. cbn [n_sys says] in *. unfold armed_and_running in *. cbn [n_sys].
  destruct e as [a| |r|t|t|now|now]; cbn [ystep published emitted] in *.
  - injection Y as <-. apply SAME; reflexivity.
  - destruct (a_note (y_arm (n_sys n))) as [s|]; [|injection Y as <-; apply SAME; reflexivity].
    destruct (is_armed s); cbn [with_arm y_cores] in Y; destruct (y_cores (n_sys n)) as [[b m]|] eqn:C; injection Y as <-; cbn [with_arm with_cores publish y_cores];
      try rewrite C; cbn; (split; [reflexivity|]); try exact IH2; try exact Logic.I. intros H. exfalso. apply H. reflexivity.
  - destruct (y_cores (n_sys n)) as [[b m]|] eqn:C; [|injection Y as <-; rewrite C; split; [reflexivity|exact Logic.I]].
    unfold btick in *. destruct b as [st pd fi]. cbn [b_state b_pad b_first] in *.
    destruct st as [|d| |d| |].
    + injection Y as <-. cbn [publish with_cores y_cores b_first b_state]. destruct fi; cbn; (split; [reflexivity|]); reflexivity.
    + destruct (lt64 d (r_ts r)); injection Y as <-; cbn [publish with_cores y_cores b_first b_state]; cbn; (split; [reflexivity|]); intros _; apply IH2; discriminate.
    + destruct pd as [pd|]; [|discriminate]. destruct (lt32 (r_alt r) (add32 (main_alt p) pd)); injection Y as <-; cbn [publish with_cores y_cores b_first b_state]; cbn; (split; [reflexivity|]); intros _; apply IH2; discriminate.
    + destruct (lt64 d (r_ts r)); injection Y as <-; cbn [publish with_cores y_cores b_first b_state]; cbn; (split; [reflexivity|]); intros _; apply IH2; discriminate.
    + destruct (lt32 (abs32 (r_speed r)) (lit32 1)); injection Y as <-; cbn [publish with_cores y_cores b_first b_state]; cbn; (split; [reflexivity|]); intros _; apply IH2; discriminate.
    + injection Y as <-; cbn [publish with_cores y_cores b_first b_state]; cbn; (split; [reflexivity|]); intros _; apply IH2; discriminate.
  - destruct (y_cores (n_sys n)) as [[b m]|] eqn:C; [|injection Y as <-; rewrite C; split; [reflexivity|exact Logic.I]].
    destruct (mstep p m (MTick t)) as [m' es] eqn:M. injection Y as <-. cbn [publish with_cores y_cores snd]. split; [|exact IH2].
    unfold mstep in M. destruct m as [|d|d|]; [|destruct (le64 d t)|destruct (le64 d t)|]; injection M as <- <-; reflexivity.
  - destruct (y_cores (n_sys n)) as [[b m]|] eqn:C; [|injection Y as <-; rewrite C; split; [reflexivity|exact Logic.I]].
    destruct (mstep p m (MTrigger t)) as [m' es] eqn:M. injection Y as <-. cbn [publish with_cores y_cores snd]. split; [|exact IH2].
    unfold mstep in M. destruct m as [|d|d|]; injection M as <- <-; reflexivity.
  - destruct (p_poll is_main now (y_main (n_sys n)) (y_main_q (n_sys n))) as [[t q] o]. injection Y as <-. apply SAME; reflexivity.
  - destruct (p_poll is_drogue now (y_drogue (n_sys n)) (y_drogue_q (n_sys n))) as [[t q] o]. injection Y as <-. apply SAME; reflexivity.
Qed.

(** C124: until a landing is announced, and if the task keeps up, the camera
    records exactly while the rocket is armed and running *)
Theorem C124_records_while_armed_partial (p : profile A) l now n : nrun p boot_station (l ++ [NCam now]) = Some n ->
  keeps_up n_cam_q p boot_station (l ++ [NCam now]) -> Forall (fun x => snd x <> ChangeState Landed) (history p boot_station l) ->
  recording n = armed_and_running n.
Proof.
  intros R K NL. destruct (switch_state p _ _ R) as [SW _]. rewrite <- SW. rewrite nrun_app in R. destruct (nrun p boot_station l) as [n0|] eqn:R0; [|discriminate].
  rewrite (history_app _ _ _ _ _ R0), history_one. cbn [says]. rewrite app_nil_r. clear SW.
  destruct (keeps_up_app _ _ _ _ _ _ R0 K) as [K0 _].
  assert (G : n_cam n0 = CListening /\ map fst (n_cam_did n0) ++ switches (n_cam_q n0) = switches (history p boot_station l) /\ incl (n_cam_q n0) (history p boot_station l)).
  { clear R K. revert l n0 R0 NL K0.
    apply (nrun_ind p (fun l n0 => Forall (fun x => snd x <> ChangeState Landed) (history p boot_station l) -> keeps_up n_cam_q p boot_station l ->
      n_cam n0 = CListening /\ map fst (n_cam_did n0) ++ switches (n_cam_q n0) = switches (history p boot_station l) /\ incl (n_cam_q n0) (history p boot_station l))).
    { intros _ _. split; [reflexivity|]. split; [reflexivity|intros x []]. }
    intros l n1 e n' R IH S NL K. rewrite (history_app _ _ _ _ _ R), history_one in NL |- *. apply Forall_app in NL as [NL NL2].
    destruct (keeps_up_app _ _ _ _ _ _ R K) as [K0 [K1 _]]. destruct (IH NL K0) as [I1 [I2 I3]].
    unfold switches at 2. rewrite flat_map_app. fold (switches (history p boot_station l)). rewrite <- I2.
    assert (SAME : n_cam_q n' = n_cam_q n1 -> n_cam n' = n_cam n1 -> n_cam_did n' = n_cam_did n1 -> says p n1 e = [] ->
      n_cam n' = CListening /\ map fst (n_cam_did n') ++ switches (n_cam_q n') = (map fst (n_cam_did n1) ++ switches (n_cam_q n1)) ++ flat_map switch (says p n1 e) /\
      incl (n_cam_q n') (history p boot_station l ++ says p n1 e)).
    { intros -> -> -> ->. cbn [flat_map]. rewrite !app_nil_r. auto. }
    destruct e as [e|t0|t0|]; cbn [nstep] in S.
    - destruct (ystep p (n_sys n1) e) as [y|]; [|discriminate]. injection S as <-. cbn [n_cam_q n_cam n_cam_did says] in *. rewrite push_all by exact K1.
      split; [exact I1|]. split; [|intros x X; apply in_app_iff in X as [X|X]; apply in_app_iff; [left; exact (I3 x X)|right; exact X]].
      unfold switches. rewrite flat_map_app, app_assoc. reflexivity.
    - injection S as <-. apply SAME; reflexivity.
    - unfold cam_poll in S. rewrite I1 in S. rewrite cam_read_all in S.
      + injection S as <-. cbn [n_cam_q n_cam n_cam_did says flat_map]. rewrite !app_nil_r, map_app, map_fst_now. unfold switches at 2. cbn [flat_map]. rewrite ?app_nil_r.
        split; [reflexivity|]. split; [reflexivity|]. intros x [].
      + apply Forall_forall. intros x X. exact (proj1 (Forall_forall _ _) NL x (I3 x X)).
    - injection S as <-. apply SAME; reflexivity. }
  destruct G as [G1 [G2 G3]]. cbn [nrun nstep] in R. unfold cam_poll in R. rewrite G1 in R. rewrite cam_read_all in R.
  - injection R as <-. unfold recording. cbn [n_cam_did]. rewrite map_app, map_fst_now, G2. reflexivity.
  - apply Forall_forall. intros x X. exact (proj1 (Forall_forall _ _) NL x (G3 x X)).
Qed.

(** once a landing is noticed, the camera is left alone for a minute, whatever
    happens, and switched off the first time the task runs after that *)
Lemma cam_read_landing now q : (exists x : tagged A, In x q /\ landing x) -> exists q' o, cam_read now q = (CLingering (now + 60000), q', o).
Proof.
  induction q as [|x q IH]; intros [y [Y1 Y2]]; [destruct Y1|]. cbn [cam_read].
  assert (G : snd x <> ChangeState Landed -> exists q' o, cam_read now q = (CLingering (now + 60000), q', o)).
  { intros N. apply IH. destruct Y1 as [->|Y1]; [unfold landing in Y2; contradiction|]. exists y. split; assumption. }
  destruct (snd x) as [| |s| |] eqn:E; try (apply G; discriminate). destruct s; try (apply G; discriminate).
  - destruct G as [q' [o ->]]; [discriminate|]. eexists _, _. reflexivity.
  - destruct G as [q' [o ->]]; [discriminate|]. eexists _, _. reflexivity.
  - eexists _, _. reflexivity.
Qed.
Theorem C124_off_a_minute_after_landing (p : profile A) n t0 n1 l n2 t : n_cam n = CListening -> (exists x, In x (n_cam_q n) /\ snd x = ChangeState Landed) ->
  nstep p n (NCam t0) = Some n1 -> nrun p n1 l = Some n2 -> Forall (fun e => match e with NCam t => t < t0 + 60000 | _ => True end) l -> t0 + 60000 <= t ->
  n_cam_did n2 = n_cam_did n1 /\ exists n3 later, nstep p n2 (NCam t) = Some n3 /\ n_cam_did n3 = n_cam_did n2 ++ (false, t) :: later.
Proof.
  intros L H S R F T. cbn [nstep] in S. rewrite L in S. cbn [cam_poll] in S. destruct (cam_read_landing t0 (n_cam_q n) H) as [q' [o E]]. rewrite E in S.
  injection S as <-. match type of R with nrun p ?m l = _ => set (n1 := m) in *; assert (C1 : n_cam n1 = CLingering (t0 + 60000)) by reflexivity end.
  clearbody n1. assert (G : n_cam n2 = CLingering (t0 + 60000) /\ n_cam_did n2 = n_cam_did n1).
  { revert n1 C1 R. induction F as [|e l He F IH]; intros n1 C1 R; cbn [nrun] in R; [injection R as <-; split; [exact C1|reflexivity]|].
    destruct (nstep p n1 e) as [m|] eqn:S; [|discriminate]. assert (K : n_cam m = CLingering (t0 + 60000) /\ n_cam_did m = n_cam_did n1).
    { destruct e as [e|t1|t1|]; cbn [nstep] in S.
      - destruct (ystep p (n_sys n1) e); [|discriminate]. injection S as <-. split; [exact C1|reflexivity].
      - injection S as <-. split; [exact C1|reflexivity].
      - rewrite C1 in S. cbn [cam_poll] in S. destruct (Z.leb_spec (t0 + 60000) t1) as [X|X]; [lia|]. injection S as <-. cbn [n_cam n_cam_did map].
        split; [reflexivity|apply app_nil_r].
      - injection S as <-. split; [exact C1|reflexivity]. }
    destruct K as [K1 K2]. rewrite <- K2. exact (IH m K1 R). }
  destruct G as [G1 G2]. split; [exact G2|]. cbn [nstep]. rewrite G1. cbn [cam_poll]. destruct (Z.leb_spec (t0 + 60000) t) as [X|X]; [|lia].
  destruct (cam_read t (n_cam_q n2)) as [[t1 q1] o1]. eexists _, _. split; [reflexivity|]. reflexivity.
Qed.

(** ** C125: specification *)
(** the last state, and the last speed, the backup core has published *)
Definition state_after (s : core_state) (x : tagged A) : core_state := match x with (BackupR, ChangeState s') => s' | _ => s end.
Definition speed_after (v : option (f32 A)) (x : tagged A) : option (f32 A) := match x with (BackupR, ChangeAirSpeed v') => Some v' | _ => v end.
Definition backup_state (h : list (tagged A)) : core_state :=
  fold_left state_after h DisArmed.
Definition backup_speed (h : list (tagged A)) : option (f32 A) :=
  fold_left speed_after h None.

(** ** Proofs *)
Lemma show_all_spec q : Forall publishable q -> forall w, show_all q w =
  Some (Shown (s_state w) (fold_left state_after q (s_backup_state w)) (s_altitude w) (s_backup_altitude w)
     (s_speed w) (fold_left speed_after q (s_backup_speed w))).
Proof.
  induction 1 as [|x q H Hq IH]; intros w; cbn [show_all fold_left]; [destruct w; reflexivity|].
  destruct x as [r e]. destruct r, e; cbn [publishable] in H; try (destruct H; fail); cbn [show]; rewrite IH; reflexivity.
Qed.

(** C125: whatever happens, the fields of the primary flight core keep the
    values they started with, as do those for altitude; no core restarts the device *)
Theorem C125_refuted_primary_never_shown (p : profile A) l n : nrun p boot_station l = Some n ->
  exists w, n_shown n = Some w /\ s_state w = DisArmed /\ s_altitude w = None /\ s_backup_altitude w = None /\ s_speed w = None.
Proof.
  intros R. assert (G : (exists w, n_shown n = Some w /\ s_state w = DisArmed /\ s_altitude w = None /\ s_backup_altitude w = None /\ s_speed w = None) /\
    Forall publishable (n_tel_q n)); [|exact (proj1 G)].
  revert l n R. apply nrun_ind; [split; [exists nothing_shown; repeat (split; [reflexivity|]); reflexivity|constructor]|].
  intros l n e n' R [[w [W [W1 [W2 [W3 W4]]]]] IQ] S. destruct e as [e|t0|t0|]; cbn [nstep] in S.
  - destruct (ystep p (n_sys n) e) as [y|]; [|discriminate]. injection S as <-. cbn [n_tel_q n_shown]. split; [exists w; auto|].
    apply Forall_forall. intros x X. apply push_incl in X. apply in_app_iff in X as [X|X]; [exact (proj1 (Forall_forall _ _) IQ x X)|].
    exact (proj1 (Forall_forall _ _) (published_shape p _ _) x X).
  - injection S as <-. split; [exists w; auto|exact IQ].
  - destruct (cam_poll t0 (n_cam n) (n_cam_q n)) as [[t q] o]. injection S as <-. split; [exists w; auto|exact IQ].
  - injection S as <-. cbn [n_tel_q n_shown]. rewrite W, (show_all_spec _ IQ). split; [|constructor]. eexists. split; [reflexivity|]. cbn. auto.
Qed.

(** a critical error, whoever publishes it, restarts the device *)
Theorem C125_critical_error_restarts q1 r q2 (w : shown A) : show_all (q1 ++ (r, CriticalError) :: q2) w = None.
Proof.
  revert w. induction q1 as [|x q1 IH]; intros w; cbn [app show_all]; [destruct r; reflexivity|]. destruct (show x w); [apply IH|reflexivity].
Qed.

(** the backup fields are right if the task keeps up: the state and the speed
    the backup core published last *)
Theorem C125_backup_is_shown_partial (p : profile A) l n : nrun p boot_station (l ++ [NTel]) = Some n -> keeps_up n_tel_q p boot_station (l ++ [NTel]) ->
  exists w, n_shown n = Some w /\ s_backup_state w = backup_state (history p boot_station l) /\ s_backup_speed w = backup_speed (history p boot_station l).
Proof.
  intros R K. rewrite nrun_app in R. destruct (nrun p boot_station l) as [n0|] eqn:R0; [|discriminate]. destruct (keeps_up_app _ _ _ _ _ _ R0 K) as [K0 _].
  assert (G : exists w, n_shown n0 = Some w /\ Forall publishable (n_tel_q n0) /\
    fold_left state_after (n_tel_q n0) (s_backup_state w) = backup_state (history p boot_station l) /\
    fold_left speed_after (n_tel_q n0) (s_backup_speed w) = backup_speed (history p boot_station l)).
  { clear R K. revert l n0 R0 K0.
    apply (nrun_ind p (fun l n0 => keeps_up n_tel_q p boot_station l -> exists w, n_shown n0 = Some w /\ Forall publishable (n_tel_q n0) /\
      fold_left state_after (n_tel_q n0) (s_backup_state w) = backup_state (history p boot_station l) /\
      fold_left speed_after (n_tel_q n0) (s_backup_speed w) = backup_speed (history p boot_station l))).
    { intros _. exists nothing_shown. split; [reflexivity|]. split; [constructor|]. split; reflexivity. }
    intros l n1 e n' R IH S K. destruct (keeps_up_app _ _ _ _ _ _ R K) as [K0 [K1 _]]. destruct (IH K0) as [w [W [Q [W1 W2]]]].
    rewrite (history_app _ _ _ _ _ R), history_one. unfold backup_state, backup_speed in W1, W2 |- *.
    rewrite !(fold_left_app _ (history p boot_station l)), <- W1, <- W2.
    destruct e as [e|t0|t0|]; cbn [nstep] in S.
    - destruct (ystep p (n_sys n1) e) as [y|]; [|discriminate]. injection S as <-. cbn [n_tel_q n_shown says] in *. rewrite push_all by exact K1.
      exists w. split; [exact W|]. split; [apply Forall_app; split; [exact Q|apply published_shape]|]. rewrite !fold_left_app. split; reflexivity.
    - injection S as <-. exists w. split; [exact W|]. split; [exact Q|]. split; reflexivity.
    - destruct (cam_poll t0 (n_cam n1) (n_cam_q n1)) as [[t q] o]. injection S as <-. exists w. split; [exact W|]. split; [exact Q|]. split; reflexivity.
    - injection S as <-. cbn [n_tel_q n_shown says]. rewrite W, (show_all_spec _ Q). eexists. split; [reflexivity|]. split; [constructor|]. split; reflexivity. }
  destruct G as [w [W [Q [W1 W2]]]]. cbn [nrun nstep] in R. rewrite W, (show_all_spec _ Q) in R. injection R as <-. cbn [n_shown].
  eexists. split; [reflexivity|]. cbn [s_backup_state s_backup_speed]. split; [exact W1|exact W2].
Qed.
End Announce.

(** ** Concrete flights *)
Definition fly (t alt v : Z) : nevent exact := NSys (YBaro (rd exact t alt v)).
(** both switches on, a first reading, and the tasks run *)
Definition on_the_pad : list (nevent exact) := map NSys arm_now ++ [fly 0 100 0; NCan 1; NCam 1; NTel].
(** apogee; the ground station triggers the deployment as well *)
Definition two_deployments : list (nevent exact) :=
  [fly 1000 900 (-30); NSys (YDrogue 1000); fly 10000 800 (-30); NSys (trigger_at 11000); NSys (tick_at 16000); NCan 16001; NCam 16001; NTel;
   NSys (tick_at 19000); NCan 19001; NCam 19001; NTel].
Definition touch_down : list (nevent exact) := [fly 20000 100 (-5); fly 40000 100 (-5); fly 50000 100 0; NCan 50001; NCam 50001; NTel].

Definition demo : profile exact := demo_profile exact.
(** what is observed of a run, and whether a subscriber kept up, by computation *)
Definition seen (n : station exact) : list (Can.flight_event * Z) * list (bool * Z) * bool * bool * option (core_state * core_state) :=
  (n_can_sent n, n_cam_did n, recording n, armed_and_running n, option_map (fun w => (s_state w, s_backup_state w)) (n_shown n)).
Fixpoint keepsb (queue : station exact -> list (tagged exact)) (p : profile exact) (n : station exact) (l : list (nevent exact)) : bool :=
  match l with
  | [] => true
  | e :: l => (length (queue n) + length (says p n e) <=? 10)%nat && match nstep p n e with Some n' => keepsb queue p n' l | None => true end
  end.
Lemma keepsb_spec queue p l : forall n, keepsb queue p n l = true -> keeps_up queue p n l.
Proof.
  induction l as [|e l IH]; intros n H; [exact Logic.I|]. cbn [keepsb keeps_up] in *. apply andb_true_iff in H as [H1 H2].
  split; [apply Nat.leb_le; exact H1|]. destruct (nstep p n e); [apply IH; exact H2|exact Logic.I].
Qed.
Lemma seen_run p n0 l o : option_map seen (nrun p n0 l) = Some o -> exists n, nrun p n0 l = Some n /\ seen n = o.
Proof. destruct (nrun p n0 l) as [n|]; intros H; [|discriminate H]. exists n. split; [reflexivity|]. cbn [option_map] in H. congruence. Qed.

(** finding: one flight, one bus, two landings, the first of them while the
    rocket is at 800 m falling at 30 m/s *)
Theorem C123_refuted_two_landings : exists n, nrun demo boot_station (on_the_pad ++ two_deployments ++ touch_down) = Some n /\
  n_can_sent n = [(Can.Landed, 19001); (Can.Landed, 50001)].
Proof.
  destruct (seen_run demo boot_station (on_the_pad ++ two_deployments ++ touch_down)
    ([(Can.Landed, 19001); (Can.Landed, 50001)], [(true, 1)], true, true, Some (DisArmed, Landed))) as [n [R S]]; [vm_compute; reflexivity|].
  exists n. split; [exact R|]. unfold seen in S. apply pair_equal_spec in S as [S _]. apply pair_equal_spec in S as [S _]. apply pair_equal_spec in S as [S _].
  apply pair_equal_spec in S as [S _]. exact S.
Qed.

(** non-vacuity of C123_all_sent_partial, on the same flight *)
Example C123_case : exists n, nrun demo boot_station ((on_the_pad ++ two_deployments) ++ [NCan 19002]) = Some n /\
  keeps_up n_can_q demo boot_station ((on_the_pad ++ two_deployments) ++ [NCan 19002]) /\ n_can_sent n = [(Can.Landed, 19001)].
Proof.
  destruct (seen_run demo boot_station ((on_the_pad ++ two_deployments) ++ [NCan 19002])
    ([(Can.Landed, 19001)], [(true, 1)], true, true, Some (DisArmed, DrogueChuteDeployed))) as [n [R S]]; [vm_compute; reflexivity|].
  exists n. split; [exact R|]. split; [apply keepsb_spec; vm_compute; reflexivity|].
  unfold seen in S. apply pair_equal_spec in S as [S _]. apply pair_equal_spec in S as [S _]. apply pair_equal_spec in S as [S _].
  apply pair_equal_spec in S as [S _]. exact S.
Qed.

(** the rocket is disarmed and armed again while the camera task waits *)
Definition quick_turnaround : list (nevent exact) :=
  map NSys [YArm (ASoft false); YSetup; YArm (ASoft true); YSetup] ++
  map (fun k => fly (60000 + 5 * Z.of_nat k) 100 0) (seq 0 11) ++ [NCan 60060; NTel].
(** finding: the arming is among the messages that were dropped while the task
    waited out its minute, so the camera is switched off and stays off although
    the rocket is armed and running *)
Theorem C124_refuted_quick_turnaround : exists n,
  nrun demo boot_station (on_the_pad ++ two_deployments ++ touch_down ++ quick_turnaround ++ [NCam 79001; fly 79005 100 0; NCam 79006]) = Some n /\
  n_cam_did n = [(true, 1); (false, 79001)] /\ armed_and_running n = true /\ recording n = false.
Proof.
  destruct (seen_run demo boot_station (on_the_pad ++ two_deployments ++ touch_down ++ quick_turnaround ++ [NCam 79001; fly 79005 100 0; NCam 79006])
    ([(Can.Landed, 19001); (Can.Landed, 50001)], [(true, 1); (false, 79001)], false, true, Some (DisArmed, Landed))) as [n [R S]]; [vm_compute; reflexivity|].
  exists n. split; [exact R|]. unfold seen in S. apply pair_equal_spec in S as [S _]. apply pair_equal_spec in S as [S S1]. apply pair_equal_spec in S as [S S2].
  apply pair_equal_spec in S as [_ S3]. split; [exact S3|]. split; [exact S1|exact S2].
Qed.

(** finding: if the disarming comes during the wait, it is not acted upon
    until the minute is over *)
Theorem C124_refuted_disarm_ignored : exists n,
  nrun demo boot_station (on_the_pad ++ two_deployments ++ map NSys [YArm (ASoft false); YSetup] ++ [NCam 79000]) = Some n /\
  armed_and_running n = false /\ recording n = true.
Proof.
  destruct (seen_run demo boot_station (on_the_pad ++ two_deployments ++ map NSys [YArm (ASoft false); YSetup] ++ [NCam 79000])
    ([(Can.Landed, 19001)], [(true, 1)], true, false, Some (DisArmed, DrogueChuteDeployed))) as [n [R S]]; [vm_compute; reflexivity|].
  exists n. split; [exact R|]. unfold seen in S. apply pair_equal_spec in S as [S _]. apply pair_equal_spec in S as [S S1]. apply pair_equal_spec in S as [S S2].
  split; [exact S1|exact S2].
Qed.

(** non-vacuity of C124_records_while_armed_partial *)
Definition short_flight : list (nevent exact) := on_the_pad ++ [fly 1000 900 (-30)] ++ map NSys [YArm (ASoft false); YSetup].
Example C124_case : exists n, nrun demo boot_station (short_flight ++ [NCam 1001]) = Some n /\
  keeps_up n_cam_q demo boot_station (short_flight ++ [NCam 1001]) /\ Forall (fun x => snd x <> ChangeState Landed) (history demo boot_station short_flight) /\
  n_cam_did n = [(true, 1); (false, 1001)].
Proof.
  destruct (seen_run demo boot_station (short_flight ++ [NCam 1001])
    ([], [(true, 1); (false, 1001)], false, false, Some (DisArmed, Armed))) as [n [R S]]; [vm_compute; reflexivity|].
  exists n. split; [exact R|]. split; [apply keepsb_spec; vm_compute; reflexivity|]. split.
  - assert (B : forallb (fun x => match snd x with ChangeState Landed => false | _ => true end) (history demo boot_station short_flight) = true) by (vm_compute; reflexivity).
    revert B. generalize (history demo boot_station short_flight). intros h B. apply Forall_forall. intros x X E.
    pose proof (proj1 (forallb_forall _ _) B x X) as F. cbv beta in F. rewrite E in F. discriminate F.
  - unfold seen in S. apply pair_equal_spec in S as [S _]. apply pair_equal_spec in S as [S S1]. apply pair_equal_spec in S as [S S2].
    apply pair_equal_spec in S as [_ S3]. exact S3.
Qed.

(** non-vacuity of C124_off_a_minute_after_landing *)
Example C124_landing_case : match nrun demo boot_station (on_the_pad ++ firstn 10 two_deployments) with
  | Some n => match n_cam n with CListening => existsb (fun x => match snd x with ChangeState Landed => true | _ => false end) (n_cam_q n) | _ => false end
  | None => false end = true.
Proof. vm_compute. reflexivity. Qed.

(** non-vacuity of C125_backup_is_shown_partial: the manual trigger is not shown *)
Definition deployed : list (nevent exact) := on_the_pad ++ [fly 1000 900 (-30); fly 10000 800 (-30); NSys (trigger_at 11000); NSys (tick_at 16000)].
Example C125_case : exists n w, nrun demo boot_station (deployed ++ [NTel]) = Some n /\ keeps_up n_tel_q demo boot_station (deployed ++ [NTel]) /\
  n_shown n = Some w /\ s_backup_state w = DrogueChuteDeployed /\ s_state w = DisArmed.
Proof.
  destruct (seen_run demo boot_station (deployed ++ [NTel])
    ([], [(true, 1)], true, true, Some (DisArmed, DrogueChuteDeployed))) as [n [R S]]; [vm_compute; reflexivity|].
  unfold seen in S. apply pair_equal_spec in S as [_ S]. destruct (n_shown n) as [w|] eqn:W; [|discriminate S]. exists n, w. split; [exact R|].
  split; [apply keepsb_spec; vm_compute; reflexivity|]. split; [exact W|]. cbn [option_map] in S. split; congruence.
Qed.

(** ** C126: specification *)
(** up, down, up, ... *)
Fixpoint alternate (b : bool) (l : list bool) : Prop := match l with [] => True | x :: l => x = b /\ alternate (negb b) l end.
Definition arming_of (l : list bevent) : list aevent := flat_map (fun e => match e with BArm a => [a] | BPollBeep => [] end) l.

(** ** Proofs *)
Lemma beep_snoc l e : beep_run (l ++ [e]) = beep_step (beep_run l) e.
Proof. unfold beep_run. rewrite fold_left_app. reflexivity. Qed.
Lemma alternate_snoc l : forall b x, alternate b l -> x = negb (last l (negb b)) -> alternate b (l ++ [x]).
Proof.
  induction l as [|y l IH]; intros b x H E; cbn [app alternate] in *.
  - cbn in E. rewrite negb_involutive in E. split; [exact E|exact Logic.I].
  - destruct H as [-> H]. split; [reflexivity|]. apply IH; [exact H|]. rewrite E, negb_involutive. destruct l as [|z l]; reflexivity || idtac.
    f_equal. change (last (b :: z :: l) (negb b)) with (last (z :: l) (negb b)). clear. revert z. induction l as [|w l IH]; intros z; [reflexivity|exact (IH w)].
Qed.
Lemma beep_inv l : let b := beep_run l in
  alternate true (p_beeps b) /\ last (p_beeps b) false = p_last b /\
  a_deb (p_arm b) = a_deb (arun new_manager (arming_of l)) /\ a_state (p_arm b) = a_state (arun new_manager (arming_of l)) /\
  (a_note (p_arm b) = None -> p_last b = hardware_armed (a_state (p_arm b))) /\ (forall s, a_note (p_arm b) = Some s -> s = a_state (p_arm b)).
Proof.
  cbv zeta. induction l as [|e l IH] using rev_ind.
  - cbn. split; [exact Logic.I|]. split; [reflexivity|]. split; [reflexivity|]. split; [reflexivity|]. split; [reflexivity|]. discriminate.
  - destruct IH as [I1 [I2 [I3 [I4 [I5 I6]]]]]. rewrite beep_snoc. unfold arming_of, arun in *. rewrite flat_map_app, fold_left_app. cbn [flat_map]. rewrite app_nil_r.
    set (m := fold_left astep (flat_map (fun e0 => match e0 with BArm a => [a] | BPollBeep => [] end) l) new_manager) in *.
    generalize dependent (beep_run l). intros b I1 I2 I3 I4 I5 I6. destruct e as [a|]; cbn [beep_step fold_left].
    + cbn [p_beeps p_last p_arm]. split; [exact I1|]. split; [exact I2|]. destruct a as [v|v t|t]; cbn [astep].
      * cbn. rewrite I4. split; [exact I3|]. split; [reflexivity|]. split; [discriminate|]. intros s H. injection H as <-. reflexivity.
      * cbn. rewrite I3. split; [reflexivity|]. split; [exact I4|]. split; [exact I5|exact I6].
      * rewrite I3. destruct (d_poll Bool.eqb ARM_DEBOUNCE t (a_deb m)) as [d [h|]]; cbn.
        -- rewrite I4. split; [reflexivity|]. split; [reflexivity|]. split; [discriminate|]. intros s H. injection H as <-. reflexivity.
        -- split; [reflexivity|]. split; [exact I4|]. split; [exact I5|exact I6].
    + destruct (a_note (p_arm b)) as [s|] eqn:N; [|rewrite N; repeat (split; [assumption|]); exact I6].
      cbn [p_beeps p_last p_arm a_note a_state a_deb]. pose proof (I6 s eq_refl) as ->.
      destruct (p_last b) eqn:PL, (hardware_armed (a_state (p_arm b))) eqn:H; cbn [negb andb];
        rewrite ?app_nil_r; (split; [|split; [|split; [exact I3|split; [exact I4|split; [try reflexivity; intros _; symmetry; exact H|discriminate]]]]]);
        try exact I1; try exact I2; try (apply alternate_snoc; [exact I1|]; cbn [negb]; rewrite I2; reflexivity); try (apply last_last).
Qed.

(** C126: the beeps alternate, the first one rises, and whenever the task has
    nothing left to read the last one tells the position of the arming switch
    (falling also if there was none yet): so it beeps once per change it
    notices, and never for a software arming *)
Theorem C126_beeps_follow_the_switch l : let b := beep_run (l ++ [BPollBeep]) in
  alternate true (p_beeps b) /\ last (p_beeps b) false = last_debounced (arming_of l).
Proof.
  cbv zeta. destruct (beep_inv (l ++ [BPollBeep])) as [I1 [I2 [I3 [I4 [I5 I6]]]]]. split; [exact I1|]. rewrite I2.
  assert (N : a_note (p_arm (beep_run (l ++ [BPollBeep]))) = None).
  { rewrite beep_snoc. cbn [beep_step]. destruct (a_note (p_arm (beep_run l))) as [s|] eqn:E; [reflexivity|exact E]. }
  rewrite (I5 N), I4. unfold arming_of. rewrite flat_map_app. cbn [flat_map app]. rewrite app_nil_r.
  destruct (arun_inv (flat_map (fun e => match e with BArm a => [a] | BPollBeep => [] end) l)) as [_ [H2 _]]. rewrite H2. reflexivity.
Qed.

(** a software arming alone never makes it beep *)
Theorem C126_no_beep_for_software l v : p_beeps (beep_run (((l ++ [BPollBeep]) ++ [BArm (ASoft v)]) ++ [BPollBeep])) = p_beeps (beep_run (l ++ [BPollBeep])).
Proof.
  pose proof (beep_inv (l ++ [BPollBeep])) as [_ [_ [_ [_ [I5 _]]]]].
  assert (N : a_note (p_arm (beep_run (l ++ [BPollBeep]))) = None).
  { rewrite beep_snoc. cbn [beep_step]. destruct (a_note (p_arm (beep_run l))) as [s|] eqn:E; [reflexivity|exact E]. }
  specialize (I5 N). rewrite (beep_snoc _ BPollBeep), (beep_snoc _ (BArm _)). generalize dependent (beep_run (l ++ [BPollBeep])). intros b I5 _.
  cbn [beep_step p_arm astep a_note hardware_armed p_last p_beeps]. rewrite <- (I5). destruct (p_last b); cbn [negb andb]; apply app_nil_r.
Qed.
Example C126_case : p_beeps (beep_run (map BArm [AHard true 0; APoll 0] ++ [BPollBeep] ++ map BArm [ASoft true; AHard false 2000; APoll 2000] ++ [BPollBeep] ++
  map BArm [APoll 3000] ++ [BPollBeep])) = [true; false].
Proof. reflexivity. Qed.

Print Assumptions C123_nothing_invented.
Print Assumptions C123_all_sent_partial.
Print Assumptions C123_refuted_only_landings.
Print Assumptions C123_refuted_two_landings.
Print Assumptions C124_every_switch_has_its_cause.
Print Assumptions C124_records_while_armed_partial.
Print Assumptions C124_off_a_minute_after_landing.
Print Assumptions C125_critical_error_restarts.
Print Assumptions C124_refuted_quick_turnaround.
Print Assumptions C125_backup_is_shown_partial.
Print Assumptions C125_refuted_primary_never_shown.
Print Assumptions C126_beeps_follow_the_switch.
Print Assumptions C126_no_beep_for_software.

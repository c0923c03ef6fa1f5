(** * Properties C42-C46: the flight cores' phases and deployments. *)
From Coq Require Import List Bool Arith Lia QArith.
From Verif Require Import Numerics VLP FlightCore.
Import ListNotations.
Local Open Scope nat_scope.
Local Open Scope list_scope.

(** ** Specification *)
Section Spec.
Context {A : numerics}.

(** the state changes among published events *)
Definition changes (es : list (event A)) : list core_state :=
  flat_map (fun e => match e with ChangeState s => [s] | _ => [] end) es.

Inductive phase := PhArmed | PhPowerAscend | PhCoast | PhDrogue | PhMain | PhMainDescent | PhLanded.
Definition phase_of (st : fstate A) : phase :=
  match st with
  | FArmed _ _ => PhArmed | FPowerAscend _ _ _ => PhPowerAscend | FCoast _ _ => PhCoast | FDrogueChute _ _ _ => PhDrogue
  | FMainChute _ _ => PhMain | FMainChuteDescend => PhMainDescent | FLanded => PhLanded
  end.
Definition order (ph : phase) : nat :=
  match ph with PhArmed => 0 | PhPowerAscend => 1 | PhCoast => 2 | PhDrogue => 3 | PhMain => 4 | PhMainDescent => 5 | PhLanded => 6 end.

(** [at_tick l i P]: the i-th snapshot given to the core satisfies P *)
Definition at_tick {X} (l : list X) (i : nat) (P : X -> Prop) : Prop := exists s, nth_error l i = Some s /\ P s.

Definition mean (l : list (f32 A)) : f32 A := div32 (fold_left add32 l (lit32 0)) (lit32 (inject_Z (Z.of_nat (length l)))).

(** the oldest barometer altitude among some ticks, 0 if there is none *)
Fixpoint oldest_altitude (w : list (snapshot A)) : f32 A :=
  match w with [] => lit32 0 | s :: w => match sn_baro_alt s with Some a => a | None => oldest_altitude w end end.
(** tick [i] detects launch: at least 100 earlier ticks, and the mean of the
    last four vertical accelerations exceeds 50; [alt] is the oldest barometer
    altitude in the last 100 ticks (0 if there is none), [ts] the time *)
Definition launch (l : list (snapshot A)) (i : nat) (alt : f32 A) (ts : f64 A) : Prop :=
  100 <= i /\ lt32 (lit32 50) (mean (firstn 4 (rev (map sn_acc_z (firstn (S i) l))))) = true /\
  alt = oldest_altitude (skipn (S i - 100) (firstn (S i) l)) /\ at_tick l i (fun s => ts = sn_ts s).
(** tick [j] detects burnout: the mean of the last four acceleration
    magnitudes, all measured after launch, is below 10 *)
Definition burnout (l : list (snapshot A)) (i j : nat) : Prop :=
  i + 4 <= j < length l /\ lt32 (mean (firstn 4 (rev (map sn_acc_mag (firstn (S j) l))))) (lit32 10) = true.
(** tick [k] detects apogee *)
Definition apogee (l : list (snapshot A)) (k : nat) (ts : f64 A) : Prop :=
  at_tick l k (fun s => le32 (sn_speed s) (lit32 0) = true /\ ts = sn_ts s).
(** launch at [i] < burnout < apogee at [k] *)
Definition ascended (l : list (snapshot A)) (alt : f32 A) (t_launch t_apogee : f64 A) (k : nat) : Prop :=
  exists i j, launch l i alt t_launch /\ burnout l i j /\ j < k /\ apogee l k t_apogee.
(** tick [m] releases the drogue: high enough, the delay after apogee and the
    minimum time after launch have passed *)
Definition drogue_release (p : profile A) (l : list (snapshot A)) (alt : f32 A) (m : nat) : Prop :=
  exists t_launch t_apogee k, ascended l alt t_launch t_apogee k /\ k < m /\
  at_tick l m (fun s => lt32 (sub32 (sn_height s) alt) (drogue_min_alt p) = false /\
    le64 (add64 t_apogee (drogue_delay p)) (sn_ts s) = true /\
    le64 (drogue_min_time p) (sub64 (sn_ts s) t_launch) = true).
(** tick [n], later, is at or below the main altitude *)
Definition main_low (p : profile A) (l : list (snapshot A)) (alt : f32 A) (t : f64 A) (n : nat) : Prop :=
  exists m, drogue_release p l alt m /\ m < n /\
  at_tick l n (fun s => le32 (sub32 (sn_height s) alt) (main_alt p) = true /\ t = sn_ts s).
Definition main_release (p : profile A) (l : list (snapshot A)) : Prop :=
  exists alt t n o, main_low p l alt t n /\ n < o /\ at_tick l o (fun s => le64 (add64 t (main_delay p)) (sn_ts s) = true).

(** ** Proofs: general *)
Lemma launch_altitude_oldest w : launch_altitude w = oldest_altitude w.
Proof.
  unfold launch_altitude. induction w as [|s w IH]; [reflexivity|]. cbn [find oldest_altitude]. destruct (sn_baro_alt s) as [a|] eqn:E; [rewrite E; reflexivity|exact IH].
Qed.
Lemma run_snoc (p : profile A) l : forall c s, run p c (l ++ [s]) =
  match run p c l with
  | Some (c1, es) => match tick p c1 s with Some (c2, e) => Some (c2, es ++ [e]) | None => None end
  | None => None
  end.
Proof.
  induction l as [|x l IH]; intros c s; cbn [run app].
  - destruct (tick p c s) as [[c1 e]|]; reflexivity.
  - destruct (tick p c x) as [[c1 e]|]; [|reflexivity]. rewrite IH. destruct (run p c1 l) as [[c2 es]|]; [|reflexivity].
    destruct (tick p c2 s) as [[c3 e2]|]; reflexivity.
Qed.

Lemma changes_app a b : changes (a ++ b) = changes a ++ changes b.
Proof. apply flat_map_app. Qed.

Lemma run_ind (p : profile A) (P : list (snapshot A) -> core A -> list (list (event A)) -> Prop) :
  P [] new_core [] ->
  (forall l c es s c' e, run p new_core l = Some (c, es) -> P l c es -> tick p c s = Some (c', e) -> P (l ++ [s]) c' (es ++ [e])) ->
  forall l c es, run p new_core l = Some (c, es) -> P l c es.
Proof.
  intros H0 HS l. induction l as [|s l IH] using rev_ind; intros c es H.
  - cbn in H. injection H as <- <-. exact H0.
  - rewrite run_snoc in H. destruct (run p new_core l) as [[c1 es1]|] eqn:R; [|discriminate].
    destruct (tick p c1 s) as [[c2 e]|] eqn:T; [|discriminate]. injection H as <- <-. eapply HS; eauto.
Qed.

Lemma run_length (p : profile A) : forall l c c' es, run p c l = Some (c', es) -> length es = length l.
Proof.
  induction l as [|s l IH]; intros c c' es H; cbn [run] in H.
  - injection H as <- <-. reflexivity.
  - destruct (tick p c s) as [[c1 e]|]; [|discriminate]. destruct (run p c1 l) as [[c2 es2]|] eqn:R; [|discriminate].
    injection H as <- <-. cbn [length]. f_equal. eapply IH; eauto.
Qed.

Definition not_critical (c : core A) : Prop := c_critical c = false.
Lemma tick_inv (p : profile A) c s c' e : tick p c s = Some (c', e) -> c_critical c = false ->
  c_critical c' = false /\ c_last c' = Some (sn_ts s) /\
  ((c_last c = None /\ c_state c' = c_state c /\ c_first c' = c_first c /\ e = []) \/
   (c_last c <> None /\ exists ev, fstep p (c_state c) (c_first c) s = Some (c_state c', c_first c', ev) /\
      e = (if in_air (c_state c) then [ChangeAltitude (sn_height s); ChangeAirSpeed (sn_speed s)] else []) ++ ev)).
Proof.
  unfold tick. intros H K. rewrite K in H. destruct (c_last c) as [t|] eqn:L.
  - destruct (fstep p (c_state c) (c_first c) s) as [[[st f] ev]|] eqn:F; [|discriminate]. injection H as <- <-. cbn.
    split; [reflexivity|]. split; [reflexivity|]. right. split; [discriminate|]. exists ev. split; reflexivity.
  - injection H as <- <-. cbn. split; [reflexivity|]. split; [reflexivity|]. left. repeat split; reflexivity.
Qed.

Lemma air_changes (b : bool) (x y : f32 A) (ev : list (event A)) : changes ((if b then [ChangeAltitude x; ChangeAirSpeed y] else []) ++ ev) = changes ev.
Proof. destruct b; reflexivity. Qed.

(** ** C42 *)
Definition published (c : core A) (cs : list core_state) (gave_up : bool) : Prop :=
  c_critical c = false /\
  match c_state c with
  | FArmed _ _ => cs = (if c_first c then [] else [Armed]) /\ gave_up = false
  | FPowerAscend _ _ _ => cs = [Armed; PowerAscend] /\ gave_up = false
  | FCoast _ _ => cs = [Armed; PowerAscend; Coast] /\ gave_up = false
  | FDrogueChute _ _ _ | FMainChute _ _ | FMainChuteDescend => cs = [Armed; PowerAscend; Coast; Descent] /\ gave_up = false
  | FLanded => cs = [Armed; PowerAscend; Coast; Descent] ++ (if gave_up then [] else [Landed])
  end.

Definition did_give_up (es : list (event A)) : bool := existsb (fun e => match e with DidNotReachMinApogee => true | _ => false end) es.

Lemma published_run (p : profile A) : forall l c es, run p new_core l = Some (c, es) -> published c (changes (concat es)) (did_give_up (concat es)).
Proof.
  apply run_ind; [split; [reflexivity|]; cbn; split; reflexivity|].
  intros l c es s c' e _ [K I] T. destruct (tick_inv _ _ _ _ _ T K) as [K' [_ [[_ [E1 [E2 E3]]]|[_ [ev [F E]]]]]].
  - subst e. rewrite concat_app. cbn [concat app]. rewrite app_nil_r. split; [exact K'|]. rewrite E1, E2. exact I.
  - rewrite concat_app. cbn [concat]. rewrite app_nil_r, changes_app. unfold did_give_up. rewrite existsb_app.
    fold (did_give_up (concat es)). subst e. rewrite air_changes, existsb_app.
    replace (existsb _ (if in_air (c_state c) then _ else _)) with false by (destruct (in_air (c_state c)); reflexivity).
    cbn [orb]. split; [exact K'|]. unfold fstep in F. cbv zeta in F.
    destruct (c_state c) as [h acc|acc alt ts|alt ts|alt ts d|alt [d|]| | ] eqn:St.
    + destruct I as [I1 I2]. rewrite I1, I2.
      destruct (_ && _); [destruct (sn_upside_down s); [discriminate|]|]; injection F as E1 E2 E3; rewrite <- E1, <- E3; try rewrite <- E2;
        destruct (c_first c); cbn; auto.
    + destruct I as [I1 I2]. rewrite I1, I2. destruct (_ && _); injection F as E1 E2 E3; rewrite <- E1, <- E3; cbn; auto.
    + destruct I as [I1 I2]. rewrite I1, I2. destruct (le32 _ _); injection F as E1 E2 E3; rewrite <- E1, <- E3; cbn; auto.
    + destruct I as [I1 I2]. rewrite I1, I2. destruct (lt32 _ _); [|destruct (_ && _)]; injection F as E1 E2 E3; rewrite <- E1, <- E3; cbn; auto.
    + destruct I as [I1 I2]. rewrite I1, I2. destruct (le64 _ _); injection F as E1 E2 E3; rewrite <- E1, <- E3; cbn; auto.
    + destruct I as [I1 I2]. rewrite I1, I2. destruct (le32 _ _); injection F as E1 E2 E3; rewrite <- E1, <- E3; cbn; auto.
    + destruct I as [I1 I2]. rewrite I1, I2. destruct (lt32 _ _); injection F as E1 E2 E3; rewrite <- E1, <- E3; cbn; auto.
    + injection F as E1 E2 E3. rewrite <- E1, <- E3. rewrite I. cbn [changes flat_map existsb]. rewrite app_nil_r, orb_false_r. reflexivity.
Qed.

(** C42: whatever the sensors say, the states announced are, in this order and
    each at most once, armed, power ascend, coast, descent, landed; after
    "did not reach minimum apogee" landed is never announced *)
Theorem C42_announced_in_order (p : profile A) l c es : run p new_core l = Some (c, es) ->
  (exists n, changes (concat es) = firstn n [Armed; PowerAscend; Coast; Descent; Landed]) /\
  (In DidNotReachMinApogee (concat es) -> changes (concat es) = [Armed; PowerAscend; Coast; Descent]).
Proof.
  intros H. pose proof (published_run p l c es H) as [_ P].
  assert (G : In DidNotReachMinApogee (concat es) -> did_give_up (concat es) = true).
  { intros I. apply existsb_exists. eexists. split; [exact I|reflexivity]. }
  destruct (c_state c) as [h acc|acc alt ts|alt ts|alt ts d|alt d| | ].
  - destruct P as [-> P]. split; [|intros I; apply G in I; congruence]. destruct (c_first c); [exists 0|exists 1]; reflexivity.
  - destruct P as [-> P]. split; [|intros I; apply G in I; congruence]. exists 2; reflexivity.
  - destruct P as [-> P]. split; [|intros I; apply G in I; congruence]. exists 3; reflexivity.
  - destruct P as [-> P]. split; [|intros I; apply G in I; congruence]. exists 4; reflexivity.
  - destruct P as [-> P]. split; [|intros I; apply G in I; congruence]. exists 4; reflexivity.
  - destruct P as [-> P]. split; [|intros I; apply G in I; congruence]. exists 4; reflexivity.
  - rewrite P. split; [destruct (did_give_up _); [exists 4|exists 5]; reflexivity|]. intros I. rewrite (G I). reflexivity.
Qed.

(** one call moves at most one phase forward, or from drogue straight to landed
    announcing "did not reach minimum apogee" *)
Theorem C42_one_phase_at_a_time (p : profile A) c s c' e : c_critical c = false -> tick p c s = Some (c', e) ->
  order (phase_of (c_state c')) = order (phase_of (c_state c)) \/
  order (phase_of (c_state c')) = S (order (phase_of (c_state c))) \/
  (phase_of (c_state c) = PhDrogue /\ phase_of (c_state c') = PhLanded /\ In DidNotReachMinApogee e).
Proof.
  intros K T. destruct (tick_inv _ _ _ _ _ T K) as [_ [_ [[_ [E1 _]]|[_ [ev [F E]]]]]]; [left; rewrite E1; reflexivity|].
  unfold fstep in F. cbv zeta in F.
  destruct (c_state c) as [h acc|acc alt ts|alt ts|alt ts d|alt [d|]| | ] eqn:St.
  - destruct (_ && _); [destruct (sn_upside_down s); [discriminate|]|]; injection F as E1 E2 E3; rewrite <- E1; cbn; auto.
  - destruct (_ && _); injection F as E1 E2 E3; rewrite <- E1; cbn; auto.
  - destruct (le32 _ _); injection F as E1 E2 E3; rewrite <- E1; cbn; auto.
  - destruct (lt32 _ _); [|destruct (_ && _)]; injection F as E1 E2 E3; rewrite <- E1; cbn; auto.
    right. right. split; [reflexivity|]. split; [reflexivity|]. subst e. apply in_app_iff. right. rewrite <- E3. left. reflexivity.
  - destruct (le64 _ _); injection F as E1 E2 E3; rewrite <- E1; cbn; auto.
  - destruct (le32 _ _); injection F as E1 E2 E3; rewrite <- E1; cbn; auto.
  - destruct (lt32 _ _); injection F as E1 E2 E3; rewrite <- E1; cbn; auto.
  - injection F as E1 E2 E3; rewrite <- E1; cbn; auto.
Qed.

Lemma not_critical_run (p : profile A) : forall l c c' es, c_critical c = false -> run p c l = Some (c', es) -> c_critical c' = false.
Proof.
  induction l as [|s l IH]; intros c c' es K H; cbn [run] in H.
  - injection H as <- <-. exact K.
  - destruct (tick p c s) as [[c1 e]|] eqn:T; [|discriminate]. destruct (run p c1 l) as [[c2 es2]|] eqn:R; [|discriminate].
    injection H as <- <-. destruct (tick_inv _ _ _ _ _ T K) as [K1 _]. eapply IH; eauto.
Qed.

Theorem C42_never_backwards (p : profile A) l1 l2 c1 c2 es1 es2 :
  run p new_core l1 = Some (c1, es1) -> run p c1 l2 = Some (c2, es2) ->
  order (phase_of (c_state c1)) <= order (phase_of (c_state c2)).
Proof.
  intros H1 H2. pose proof (not_critical_run p _ new_core _ _ eq_refl H1) as K. clear H1.
  revert c1 c2 es2 H2 K. induction l2 as [|s l IH]; intros c1 c2 es2 H2 K; cbn [run] in H2.
  - injection H2 as <- <-. lia.
  - destruct (tick p c1 s) as [[c3 e]|] eqn:T; [|discriminate]. destruct (run p c3 l) as [[c4 es4]|] eqn:R; [|discriminate].
    injection H2 as <- <-. destruct (tick_inv _ _ _ _ _ T K) as [K1 _]. specialize (IH _ _ _ R K1).
    pose proof (C42_one_phase_at_a_time _ _ _ _ _ K T) as [E|[E|[E1 [E2 _]]]]; [lia|lia|]. rewrite E1. rewrite E2 in IH. cbn in *. lia.
Qed.

(** ** C43 *)
Definition lastn {X} (n : nat) (l : list X) : list X := skipn (length l - n) l.

Definition justified (p : profile A) (l : list (snapshot A)) (c : core A) : Prop :=
  c_critical c = false /\ (c_last c = None <-> l = []) /\
  match c_state c with
  | FArmed h acc => h = lastn 100 (tl l) /\ acc = firstn 4 (rev (map sn_acc_z (tl l)))
  | FPowerAscend acc alt ts => exists i, launch l i alt ts /\ acc = firstn 4 (rev (map sn_acc_mag (skipn (S i) l)))
  | FCoast alt ts => exists i j, launch l i alt ts /\ burnout l i j
  | FDrogueChute alt ts d => exists k ta, ascended l alt ts ta k /\ d = add64 ta (drogue_delay p)
  | FMainChute alt None => exists m, drogue_release p l alt m
  | FMainChute alt (Some d) => exists t n, main_low p l alt t n /\ d = add64 t (main_delay p)
  | FMainChuteDescend => main_release p l
  | FLanded => True
  end.

Lemma at_tick_app {X} (l : list X) x i P : at_tick l i P -> at_tick (l ++ [x]) i P.
Proof.
  intros [s [H1 H2]]. exists s. split; [|exact H2]. rewrite nth_error_app1; [exact H1|]. apply nth_error_Some. congruence.
Qed.
Lemma at_tick_lt {X} (l : list X) i P : at_tick l i P -> i < length l.
Proof. intros [s [H _]]. apply nth_error_Some. congruence. Qed.
Lemma at_tick_last {X} (l : list X) (x : X) (P : X -> Prop) : P x -> at_tick (l ++ [x]) (length l) P.
Proof. intros H. exists x. split; [|exact H]. rewrite nth_error_app2 by lia. rewrite Nat.sub_diag. reflexivity. Qed.
Lemma firstn_snoc {X} (l : list X) x i : i < length l -> firstn (S i) (l ++ [x]) = firstn (S i) l.
Proof. intros H. rewrite firstn_app. replace (S i - length l) with 0 by lia. cbn. apply app_nil_r. Qed.

Lemma launch_app l x i alt ts : launch l i alt ts -> launch (l ++ [x]) i alt ts.
Proof.
  intros [H1 [H2 [H3 H4]]]. pose proof (at_tick_lt _ _ _ H4) as L. unfold launch.
  rewrite firstn_snoc by exact L. split; [exact H1|]. split; [exact H2|]. split; [exact H3|]. apply at_tick_app. exact H4.
Qed.
Lemma burnout_app l x i j : burnout l i j -> burnout (l ++ [x]) i j.
Proof.
  intros [H1 H2]. unfold burnout. rewrite firstn_snoc by lia. rewrite app_length. split; [lia|exact H2].
Qed.
Lemma ascended_app l x alt ts ta k : ascended l alt ts ta k -> ascended (l ++ [x]) alt ts ta k.
Proof.
  intros [i [j [H1 [H2 [H3 H4]]]]]. exists i, j. split; [apply launch_app; exact H1|]. split; [apply burnout_app; exact H2|].
  split; [exact H3|]. apply at_tick_app. exact H4.
Qed.
Lemma drogue_app (p : profile A) l x alt m : drogue_release p l alt m -> drogue_release p (l ++ [x]) alt m.
Proof.
  intros [t1 [t2 [k [H1 [H2 H3]]]]]. exists t1, t2, k. split; [apply ascended_app; exact H1|]. split; [exact H2|]. apply at_tick_app. exact H3.
Qed.
Lemma main_low_app (p : profile A) l x alt t n : main_low p l alt t n -> main_low p (l ++ [x]) alt t n.
Proof.
  intros [m [H1 [H2 H3]]]. exists m. split; [apply drogue_app; exact H1|]. split; [exact H2|]. apply at_tick_app. exact H3.
Qed.
Lemma main_app (p : profile A) l x : main_release p l -> main_release p (l ++ [x]).
Proof.
  intros [alt [t [n [o [H1 [H2 H3]]]]]]. exists alt, t, n, o. split; [apply main_low_app; exact H1|]. split; [exact H2|]. apply at_tick_app. exact H3.
Qed.

Lemma sma_add_firstn w (x : f32 A) l : 0 < w -> sma_add w x (firstn w l) = firstn w (x :: l).
Proof.
  intros H. unfold sma_add, sma_full. destruct (Nat.eqb_spec w 0) as [E|_]; [lia|]. destruct w as [|w]; [lia|]. change (firstn (S w) (x :: l)) with (x :: firstn w l). f_equal.
  destruct (Nat.eqb_spec (length (firstn (S w) l)) (S w)) as [E|E].
  - rewrite removelast_firstn_len, E. cbn [pred]. rewrite firstn_firstn. f_equal. lia.
  - rewrite firstn_length in E. rewrite !firstn_all2 by lia. reflexivity.
Qed.

Lemma push_lastn (t : list (snapshot A)) s : push_history s (lastn 100 t) = lastn 100 (t ++ [s]).
Proof.
  unfold push_history, lastn. rewrite skipn_length, app_length. change (length [s]) with 1. change HISTORY with 100.
  destruct (Nat.eqb_spec (length t - (length t - 100)) 100) as [E|E].
  - rewrite skipn_app. replace (length t + 1 - 100 - length t) with 0 by lia. cbn [skipn]. f_equal.
    replace (length t + 1 - 100) with (S (length t - 100)) by lia. generalize (length t - 100). clear.
    intros n. revert t. induction n as [|n IH]; intros t; [reflexivity|]. destruct t; [reflexivity|]. cbn [skipn]. apply IH.
  - replace (length t - 100) with 0 by lia. replace (length t + 1 - 100) with 0 by lia. reflexivity.
Qed.

Lemma average_mean (l : list (f32 A)) : l <> [] -> sma_average (lit32 0) l = mean l.
Proof. intros H. unfold sma_average, mean. destruct l; [congruence|reflexivity]. Qed.

Lemma firstn_rev_suffix {X Y} (f : X -> Y) (w k : nat) (l : list X) : w + k <= length l ->
  firstn w (rev (map f (skipn k l))) = firstn w (rev (map f l)).
Proof.
  intros H. rewrite <- (firstn_skipn k l) at 2. rewrite map_app, rev_app_distr, firstn_app.
  rewrite rev_length, map_length, skipn_length. replace (w - (length l - k)) with 0 by lia. cbn. rewrite app_nil_r. reflexivity.
Qed.

Lemma justified_run (p : profile A) : forall l c es, run p new_core l = Some (c, es) -> justified p l c.
Proof.
  intros l c es. revert l c es.
  apply (run_ind p (fun l c _ => justified p l c)).
  { split; [reflexivity|]. split; [split; reflexivity|]. cbn. split; reflexivity. }
  intros l c es s c' e _ [K [LN I]] T. destruct (tick_inv _ _ _ _ _ T K) as [K' [L' Hc]]. split; [exact K'|].
  split; [rewrite L'; split; [discriminate|intros E; destruct l; discriminate]|].
  destruct Hc as [[E0 [E1 _]]|[NE [ev [F _]]]].
  { rewrite E1. apply LN in E0. subst l. destruct (c_state c) as [h acc|acc alt ts|alt ts|alt ts d|alt [d|]| | ].
    - cbn in I |- *. exact I.
    - destruct I as [i [[_ [_ [_ H]]] _]]. apply at_tick_lt in H. cbn in H; lia.
    - destruct I as [i [j [_ [H _]]]]. cbn in H; lia.
    - destruct I as [k [ta [[i [j [_ [[H _] _]]]] _]]]. cbn in H; lia.
    - destruct I as [t [n [[m [_ [_ H]]] _]]]. apply at_tick_lt in H. cbn in H; lia.
    - destruct I as [m [t1 [t2 [k [_ [_ H]]]]]]. apply at_tick_lt in H. cbn in H; lia.
    - destruct I as [alt [t [n [o [_ [_ H]]]]]]. apply at_tick_lt in H. cbn in H; lia.
    - exact I. }
  assert (NL : l <> []) by (intros E; apply NE, LN, E). clear LN NE T L' K'.
  unfold fstep in F. cbv zeta in F.
  destruct (c_state c) as [h acc|acc alt ts|alt ts|alt ts d|alt [d|]| | ] eqn:St.
  - destruct I as [-> ->]. rewrite push_lastn, sma_add_firstn in F by lia.
    destruct l as [|x t]; [congruence|]. cbn [tl] in F. cbn [app tl]. clear NL.
    assert (EA : sn_acc_z s :: rev (map sn_acc_z t) = rev (map sn_acc_z (t ++ [s]))) by (rewrite map_app, rev_app_distr; reflexivity).
    rewrite EA in F. clear EA.
    destruct (_ && _) eqn:C; [destruct (sn_upside_down s) eqn:U; [discriminate|]|].
    + apply andb_true_iff in C as [C1 C2]. apply Nat.eqb_eq in C1. unfold lastn in C1. rewrite skipn_length, app_length in C1.
      change HISTORY with 100 in C1. change (length [s]) with 1 in C1.
      injection F as E1 E2 E3. rewrite <- E1. exists (S (length t)). split.
      * unfold launch. assert (FL : firstn (S (S (length t))) (x :: t ++ [s]) = x :: t ++ [s]).
        { apply firstn_all2. cbn [length]. rewrite app_length. cbn. lia. }
        rewrite FL. split; [lia|]. split; [|split].
        -- rewrite average_mean in C2. 2:{ rewrite map_app, rev_app_distr. discriminate. }
           rewrite <- (firstn_rev_suffix sn_acc_z 4 1 (x :: t ++ [s])); [exact C2|]. cbn [length]. rewrite app_length. cbn. lia.
        -- unfold lastn. rewrite app_length. change (length [s]) with 1.
           replace (S (S (length t)) - 100) with (S (length t + 1 - 100)) by lia. rewrite launch_altitude_oldest; reflexivity.
        -- change (x :: t ++ [s]) with ((x :: t) ++ [s]). change (S (length t)) with (length (x :: t)). apply at_tick_last. reflexivity.
      * rewrite skipn_all2; [reflexivity|]. cbn [length]. rewrite app_length. cbn. lia.
    + injection F as E1 E2 E3. rewrite <- E1. split; reflexivity.
  - destruct I as [i [HL ->]]. rewrite sma_add_firstn in F by lia. pose proof (at_tick_lt _ _ _ (proj2 (proj2 (proj2 HL)))) as Li.
    assert (EA : sn_acc_mag s :: rev (map sn_acc_mag (skipn (S i) l)) = rev (map sn_acc_mag (skipn (S i) (l ++ [s])))).
    { rewrite skipn_app. replace (S i - length l) with 0 by lia. cbn [skipn]. rewrite map_app, rev_app_distr. reflexivity. }
    rewrite EA in F. clear EA. destruct (_ && _) eqn:C.
    + apply andb_true_iff in C as [C1 C2]. apply Nat.eqb_eq in C1.
      rewrite firstn_length, rev_length, map_length, skipn_length, app_length in C1. change (length [s]) with 1 in C1.
      injection F as E1 E2 E3. rewrite <- E1. exists i, (length l). split; [apply launch_app; exact HL|].
      assert (FL : firstn (S (length l)) (l ++ [s]) = l ++ [s]) by (apply firstn_all2; rewrite app_length; cbn; lia).
      unfold burnout. rewrite FL. split; [rewrite app_length; cbn; lia|].
      rewrite average_mean in C2.
      2:{ intros Z. apply (f_equal (@length _)) in Z. rewrite firstn_length, rev_length, map_length, skipn_length, app_length in Z. change (length [s]) with 1 in Z. cbn [length] in Z. lia. }
      rewrite firstn_rev_suffix in C2; [exact C2|]. rewrite app_length. cbn. lia.
    + injection F as E1 E2 E3. rewrite <- E1. exists i. split; [apply launch_app; exact HL|reflexivity].
  - destruct I as [i [j [HL HB]]]. destruct (le32 _ _) eqn:C; injection F as E1 E2 E3; rewrite <- E1.
    + exists (length l), (sn_ts s). split; [|reflexivity]. exists i, j. split; [apply launch_app; exact HL|]. split; [apply burnout_app; exact HB|].
      split; [destruct HB; lia|]. apply at_tick_last. split; [exact C|reflexivity].
    + exists i, j. split; [apply launch_app; exact HL|apply burnout_app; exact HB].
  - destruct I as [k [ta [HA ->]]]. destruct (lt32 _ _) eqn:C; [|destruct (_ && _) eqn:D]; injection F as E1 E2 E3; rewrite <- E1.
    + exact I.
    + exists (length l), ts, ta, k. split; [apply ascended_app; exact HA|].
      split. { destruct HA as [i [j [_ [_ [_ H]]]]]. apply at_tick_lt in H. exact H. }
      apply andb_true_iff in D as [D1 D2]. apply at_tick_last. split; [exact C|]. split; [exact D1|exact D2].
    + exists k, ta. split; [apply ascended_app; exact HA|reflexivity].
  - destruct I as [t [n [HM ->]]]. destruct (le64 _ _) eqn:C; injection F as E1 E2 E3; rewrite <- E1.
    + exists alt, t, n, (length l). split; [apply main_low_app; exact HM|].
      split. { destruct HM as [m [_ [_ H]]]. apply at_tick_lt in H. exact H. } apply at_tick_last. exact C.
    + exists t, n. split; [apply main_low_app; exact HM|reflexivity].
  - destruct I as [m HD]. destruct (le32 _ _) eqn:C; injection F as E1 E2 E3; rewrite <- E1.
    + exists (sn_ts s), (length l). split; [|reflexivity]. exists m. split; [apply drogue_app; exact HD|].
      split. { destruct HD as [t1 [t2 [k [_ [_ H]]]]]. apply at_tick_lt in H. exact H. } apply at_tick_last. split; [exact C|reflexivity].
    + exists m. apply drogue_app. exact HD.
  - destruct (lt32 _ _); injection F as E1 E2 E3; rewrite <- E1; [exact Logic.I|]. apply main_app. exact I.
  - injection F as E1 E2 E3. rewrite <- E1. exact Logic.I.
Qed.

(** C43: the drogue phase is entered only after launch (100 ticks of history
    and a mean of the last four vertical accelerations above 50), then burnout
    (a mean of four acceleration magnitudes measured since launch below 10),
    then apogee (vertical speed at or below 0), in that order *)
Theorem C43_drogue_phase_after_apogee (p : profile A) l c es : run p new_core l = Some (c, es) ->
  3 <= order (phase_of (c_state c)) <= 5 -> exists alt t_launch t_apogee k, ascended l alt t_launch t_apogee k.
Proof.
  intros H R. destruct (justified_run p l c es H) as [_ [_ J]].
  destruct (c_state c) as [h acc|acc alt ts|alt ts|alt ts d|alt [d|]| | ]; cbn in R; try lia.
  - destruct J as [k [ta [J _]]]. eauto.
  - destruct J as [t [n [[m [[t1 [t2 [k [J _]]]] _]] _]]]. eauto.
  - destruct J as [m [t1 [t2 [k [J _]]]]]. eauto.
  - destruct J as [alt [t [n [o [[m [[t1 [t2 [k [J _]]]] _]] _]]]]]. eauto.
Qed.

(** the main phase (drogue out) only after that, and then only at a tick that
    is not below the minimum drogue altitude above the pad, not before apogee
    plus the drogue delay, and not before the minimum time after launch *)
Theorem C43_main_phase_after_drogue (p : profile A) l c es : run p new_core l = Some (c, es) ->
  4 <= order (phase_of (c_state c)) <= 5 -> exists alt m, drogue_release p l alt m.
Proof.
  intros H R. destruct (justified_run p l c es H) as [_ [_ J]].
  destruct (c_state c) as [h acc|acc alt ts|alt ts|alt ts d|alt [d|]| | ]; cbn in R; try lia.
  - destruct J as [t [n [[m [J _]] _]]]. eauto.
  - destruct J as [m J]. eauto.
  - destruct J as [alt [t [n [o [[m [J _]] _]]]]]. eauto.
Qed.

(** the main-descent phase (main out) only after a later tick at or below the
    main altitude above the pad, and not before that tick plus the main delay *)
Theorem C43_main_release (p : profile A) l c es : run p new_core l = Some (c, es) ->
  phase_of (c_state c) = PhMainDescent -> main_release p l.
Proof.
  intros H R. destruct (justified_run p l c es H) as [_ [_ J]].
  destruct (c_state c) as [h acc|acc alt ts|alt ts|alt ts d|alt [d|]| | ]; cbn in R; try discriminate. exact J.
Qed.
End Spec.

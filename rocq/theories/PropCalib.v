(** * C100: the interactive IMU calibration. *)
From Coq Require Import Reals List Bool Arith Lia Lra.
From Verif Require Import HostTime Ferraris PropFerraris.
Import ListNotations.
Local Open Scope R_scope.

(** ** The specification *)
(** the order in which the user is led through the positions *)
Definition static_steps (a : axis) : list istate :=
  [State a Plus Start; State a Plus Variance; State a Plus End; State a Minus Start; State a Minus Variance; State a Minus End].
Definition script : list istate :=
  [WaitingStill] ++ static_steps AX ++ static_steps AY ++ static_steps AZ ++
  [State AX Rotating Start; State AX Rotating End; State AY Rotating Start; State AY Rotating End; State AZ Rotating Start].

Definition istate_eq (x y : istate) : {x = y} + {x <> y}.
Proof. decide equality; decide equality. Defined.

(** each reading with the state the calibrator showed when it was given *)
Fixpoint shown (c : icalibrator) (rs : list reading) : list (istate * reading) :=
  match rs with
  | [] => []
  | r :: rs => (ic_state c, r) :: match process c r with Some (c, _) => shown c rs | None => [] end
  end.
Definition given (t : list (istate * reading)) (q : istate) : list reading :=
  map snd (filter (fun x => if istate_eq (fst x) q then true else false) t).
Definition dir (s : sign) : direction := match s with Pos => Plus | Neg => Minus end.
Definition session_of (t : list (istate * reading)) : session :=
  Session (fun a sg => given t (State a (dir sg) Start)) (fun a sg => given t (State a (dir sg) Variance)) (fun a => given t (State a Rotating Start)).
Definition enough (l : list reading) : Prop := (300 < length l)%nat /\ 3000 < duration l.

(** ** The accumulators hold the session *)
Definition sstep (x : static) (r : reading) : static :=
  Static (S (st_count x)) (vadd (st_acc x) (rd_acc r)) (vadd (st_gyro x) (rd_gyro r)) (st_vcount x) (st_vacc x) (st_vgyro x).
Definition vstep (x : static) (r : reading) : static :=
  Static (st_count x) (st_acc x) (st_gyro x) (S (st_vcount x))
    (vadd (st_vacc x) (vmap square (vsub (rd_acc r) (vdiv (st_acc x) (INR (st_count x))))))
    (vadd (st_vgyro x) (vmap square (vsub (rd_gyro r) (vdiv (st_gyro x) (INR (st_count x)))))).
Definition rstep (x : rotation) (r : reading) : rotation :=
  Rotation (S (ro_count x)) (if (ro_count x =? 0)%nat then rd_time r else ro_start x) (rd_time r) (vadd (ro_acc x) (rd_acc r)) (vadd (ro_gyro x) (rd_gyro r)).
Definition stat_of (l lv : list reading) : static := fold_left vstep lv (fold_left sstep l (Static 0 vzero vzero 0 vzero vzero)).
Definition rot_of (l : list reading) : rotation := fold_left rstep l (Rotation 0 0 0 vzero vzero).
Definition agrees (g angle : R) (i : inner) (d : session) : Prop :=
  (forall a s, static_of i a s = stat_of (static_readings d a s) (variance_readings d a s)) /\
  (forall a, rotation_of i a = rot_of (rotation_readings d a)) /\ gravity i = g /\ expected_angle i = angle.

Lemma set_static_spec i a s x a' s' : static_of (set_static i a s x) a' s' = if axis_eqb a a' && sign_eqb s s' then x else static_of i a' s'.
Proof. reflexivity. Qed.

Lemma fold_static' a s l : forall i,
  let i' := fold_left (process_static a s) l i in
  (forall a' s', static_of i' a' s' = if axis_eqb a a' && sign_eqb s s' then fold_left sstep l (static_of i a s) else static_of i a' s') /\
  rotation_of i' = rotation_of i /\ gravity i' = gravity i /\ expected_angle i' = expected_angle i.
Proof.
  induction l as [|r l IH]; intros i i'.
  - cbn in i'. subst i'. split; [|tauto]. intros a' s'. cbn [fold_left]. destruct a, a', s, s'; reflexivity.
  - cbn [fold_left] in i'. destruct (IH (process_static a s i r)) as (H1 & H2 & H3 & H4). fold i' in H1, H2, H3, H4. split; [|rewrite H2, H3, H4; tauto].
    intros a' s'. rewrite H1. cbn [fold_left]. destruct a, a', s, s'; reflexivity.
Qed.
Lemma fold_variance' a s l : forall i,
  let i' := fold_left (process_variance a s) l i in
  (forall a' s', static_of i' a' s' = if axis_eqb a a' && sign_eqb s s' then fold_left vstep l (static_of i a s) else static_of i a' s') /\
  rotation_of i' = rotation_of i /\ gravity i' = gravity i /\ expected_angle i' = expected_angle i.
Proof.
  induction l as [|r l IH]; intros i i'.
  - cbn in i'. subst i'. split; [|tauto]. intros a' s'. cbn [fold_left]. destruct a, a', s, s'; reflexivity.
  - cbn [fold_left] in i'. destruct (IH (process_variance a s i r)) as (H1 & H2 & H3 & H4). fold i' in H1, H2, H3, H4. split; [|rewrite H2, H3, H4; tauto].
    intros a' s'. rewrite H1. cbn [fold_left]. destruct a, a', s, s'; reflexivity.
Qed.
Lemma fold_rotation' a l : forall i,
  let i' := fold_left (process_rotation a) l i in
  (forall a', rotation_of i' a' = if axis_eqb a a' then fold_left rstep l (rotation_of i a) else rotation_of i a') /\
  static_of i' = static_of i /\ gravity i' = gravity i /\ expected_angle i' = expected_angle i.
Proof.
  induction l as [|r l IH]; intros i i'.
  - cbn in i'. subst i'. split; [|tauto]. intros a'. cbn [fold_left]. destruct a, a'; reflexivity.
  - cbn [fold_left] in i'. destruct (IH (process_rotation a i r)) as (H1 & H2 & H3 & H4). fold i' in H1, H2, H3, H4. split; [|rewrite H2, H3, H4; tauto].
    intros a'. rewrite H1. cbn [fold_left]. destruct a, a'; reflexivity.
Qed.
Lemma phase' d a s i :
  (forall a' s', static_of (phase d a s i) a' s' = if axis_eqb a a' && sign_eqb s s' then fold_left vstep (variance_readings d a s) (fold_left sstep (static_readings d a s) (static_of i a s)) else static_of i a' s') /\
  rotation_of (phase d a s i) = rotation_of i /\ gravity (phase d a s i) = gravity i /\ expected_angle (phase d a s i) = expected_angle i.
Proof.
  unfold phase. destruct (fold_static' a s (static_readings d a s) i) as (A1 & A2 & A3 & A4).
  destruct (fold_variance' a s (variance_readings d a s) (fold_left (process_static a s) (static_readings d a s) i)) as (B1 & B2 & B3 & B4).
  cbv zeta in *. rewrite B2, B3, B4, A2, A3, A4. split; [|tauto]. intros a' s'. rewrite B1, !A1. destruct a, a', s, s'; reflexivity.
Qed.

Lemma accumulate_agrees g angle d : agrees g angle (accumulate d g angle) d.
Proof.
  unfold accumulate. set (i0 := inner_new g angle).
  destruct (phase' d AX Pos i0) as (C1 & R1 & G1 & E1). set (i1 := phase d AX Pos i0) in *.
  destruct (phase' d AX Neg i1) as (C2 & R2 & G2 & E2). set (i2 := phase d AX Neg i1) in *.
  destruct (phase' d AY Pos i2) as (C3 & R3 & G3 & E3). set (i3 := phase d AY Pos i2) in *.
  destruct (phase' d AY Neg i3) as (C4 & R4 & G4 & E4). set (i4 := phase d AY Neg i3) in *.
  destruct (phase' d AZ Pos i4) as (C5 & R5 & G5 & E5). set (i5 := phase d AZ Pos i4) in *.
  destruct (phase' d AZ Neg i5) as (C6 & R6 & G6 & E6). set (i6 := phase d AZ Neg i5) in *.
  destruct (fold_rotation' AX (rotation_readings d AX) i6) as (C7 & S7 & G7 & E7). set (i7 := fold_left (process_rotation AX) (rotation_readings d AX) i6) in *.
  destruct (fold_rotation' AY (rotation_readings d AY) i7) as (C8 & S8 & G8 & E8). set (i8 := fold_left (process_rotation AY) (rotation_readings d AY) i7) in *.
  destruct (fold_rotation' AZ (rotation_readings d AZ) i8) as (C9 & S9 & G9 & E9). set (i9 := fold_left (process_rotation AZ) (rotation_readings d AZ) i8) in *.
  clearbody i1 i2 i3 i4 i5 i6 i7 i8 i9. split; [|split; [|split]].
  - intros a s. rewrite S9, S8, S7, C6, C5, C4, C3, C2, C1. destruct a, s; cbn [axis_eqb sign_eqb andb];
    rewrite ?C5, ?C4, ?C3, ?C2, ?C1; cbn [axis_eqb sign_eqb andb]; rewrite ?C4, ?C3, ?C2, ?C1; cbn [axis_eqb sign_eqb andb]; rewrite ?C3, ?C2, ?C1; cbn [axis_eqb sign_eqb andb];
    rewrite ?C2, ?C1; cbn [axis_eqb sign_eqb andb]; rewrite ?C1; reflexivity.
  - intros a. rewrite C9, C8, C7. destruct a; cbn [axis_eqb]; rewrite ?C8, ?C7; cbn [axis_eqb]; rewrite ?C7; cbn [axis_eqb]; rewrite ?R6, ?R5, ?R4, ?R3, ?R2, ?R1; reflexivity.
  - rewrite G9, G8, G7, G6, G5, G4, G3, G2, G1. reflexivity.
  - rewrite E9, E8, E7, E6, E5, E4, E3, E2, E1. reflexivity.
Qed.

(** the calculation looks at the accumulators only *)
Definition canon (i : inner) : inner :=
  Inner (gravity i) (expected_angle i)
    (let xp := static_of i AX Pos in let xn := static_of i AX Neg in let yp := static_of i AY Pos in let yn := static_of i AY Neg in
     let zp := static_of i AZ Pos in let zn := static_of i AZ Neg in
     fun a s => match a, s with AX, Pos => xp | AX, Neg => xn | AY, Pos => yp | AY, Neg => yn | AZ, Pos => zp | AZ, Neg => zn end)
    (let x := rotation_of i AX in let y := rotation_of i AY in let z := rotation_of i AZ in fun a => match a with AX => x | AY => y | AZ => z end).
Lemma calculate_canon i : calculate (canon i) = calculate i.
Proof. reflexivity. Qed.
Lemma calculate_agrees g angle i d : agrees g angle i d -> calculate i = calibrate d g angle.
Proof.
  intros (A & B & C & D). destruct (accumulate_agrees g angle d) as (A' & B' & C' & D'). unfold calibrate.
  rewrite <- (calculate_canon i), <- (calculate_canon (accumulate d g angle)). f_equal. unfold canon.
  rewrite !A, !B, C, D, !A', !B', C', D'. reflexivity.
Qed.

(** ** The run *)
Definition nat_of_axis (a : axis) : nat := match a with AX => 0 | AY => 1 | AZ => 2 end.
Definition pos (q : istate) : nat :=
  match q with
  | Idle => 0 | WaitingStill => 1
  | State a Rotating Start => 20 + 2 * nat_of_axis a | State a Rotating _ => 21 + 2 * nat_of_axis a
  | State a dr e => 2 + 6 * nat_of_axis a + (match dr with Plus => 0 | _ => 3 end) + (match e with Start => 0 | Variance => 1 | End => 2 end)
  | Success | Failure => 25
  end%nat.
Definition order : list istate := Idle :: script.
Definition collecting (q : istate) : bool := match q with State _ Rotating _ => false | State _ _ End => false | State _ _ _ => true | _ => false end.
Definition phase_done (l : list reading) : Prop := enough l /\ forall n, (n < length l)%nat -> ~ enough (firstn n l).

Definition in_order (q : istate) : bool := match q with State _ Rotating Variance | State AZ Rotating End | Success | Failure => false | _ => true end.
Lemma in_order_spec q : In q order <-> in_order q = true.
Proof.
  split.
  - intros H. cbv in H. repeat destruct H as [<-|H]; try reflexivity. contradiction.
  - intros H. destruct q as [| |[] [] []| |]; try discriminate; cbv; tauto.
Qed.
Lemma pos_inj q q' : In q order -> In q' order -> pos q = pos q' -> q = q'.
Proof.
  rewrite !in_order_spec. destruct q as [| |[] [] []| |]; try discriminate; intros _; destruct q' as [| |[] [] []| |]; try discriminate; reflexivity.
Qed.

Record running (g angle : R) (t : list (istate * reading)) (c : icalibrator) (l : list istate) (i : inner) : Prop := Running {
  r_in : ic_inner c = inl i;
  r_st : In (ic_state c) order;
  r_past : forall q r, In (q, r) t -> (pos q <= pos (ic_state c))%nat /\ In q order;
  r_rep : l = firstn (pos (ic_state c)) script;
  r_agr : agrees g angle i (session_of t);
  r_done : forall q, collecting q = true -> (pos q < pos (ic_state c))%nat -> phase_done (given t q);
  r_now : ic_started c = if collecting (ic_state c) then match given t (ic_state c) with [] => None | r :: _ => Some (rd_time r) end else None;
  r_early : collecting (ic_state c) = true -> forall n, (n <= length (given t (ic_state c)))%nat -> ~ enough (firstn n (given t (ic_state c)))
}.
Record finished (g angle : R) (t : list (istate * reading)) (c : icalibrator) (l : list istate) : Prop := Finished {
  f_in : ic_inner c = inr (calibrate (session_of t) g angle);
  f_st : ic_state c = match calibrate (session_of t) g angle with Some _ => Success | None => Failure end;
  f_rep : l = script ++ [ic_state c];
  f_done : forall a s, phase_done (static_readings (session_of t) a s) /\ phase_done (variance_readings (session_of t) a s)
}.

Lemma given_snoc t q r q' : given (t ++ [(q, r)]) q' = given t q' ++ (if istate_eq q q' then [r] else []).
Proof. unfold given. rewrite filter_app, map_app. cbn [filter fst]. destruct (istate_eq q q'); reflexivity. Qed.
Lemma given_none t q : (forall q' r, In (q', r) t -> q' <> q) -> given t q = [].
Proof.
  intros H. unfold given. induction t as [|[q' r] t IH]; [reflexivity|]. cbn [filter fst]. destruct (istate_eq q' q) as [E|_]; [exfalso; apply (H q' r); [left; reflexivity|exact E]|].
  apply IH. intros q'' r' Hin. apply (H q'' r'). right. exact Hin.
Qed.
Lemma not_enough_nil : ~ enough []. Proof. intros (H & _). cbn in H. lia. Qed.
Lemma duration_snoc x l r : duration (x :: l ++ [r]) = rd_time r - rd_time x.
Proof. unfold duration. change (x :: l ++ [r]) with ((x :: l) ++ [r]). rewrite last_last. reflexivity. Qed.
Lemma given_future g angle t c l i q : running g angle t c l i -> In q order -> (pos (ic_state c) < pos q)%nat -> given t q = [].
Proof. intros H I P. apply given_none. intros q' r Hin ->. destruct (r_past _ _ _ _ _ _ H q r Hin) as (L & _). lia. Qed.

Section Step.
Variables (g angle : R) (t : list (istate * reading)) (c : icalibrator) (l : list istate) (i : inner) (r : reading).
Hypothesis H : running g angle t c l i.
Let q := ic_state c.
Let t' := t ++ [(q, r)].

Lemma stay c' i' : agrees g angle i' (session_of t') -> ic_inner c' = inl i' -> ic_state c' = q ->
  ic_started c' = (if collecting q then match given t' q with [] => None | r :: _ => Some (rd_time r) end else None) ->
  (collecting q = true -> ~ enough (given t' q)) -> running g angle t' c' l i'.
Proof.
  intros A I Q T E. split; rewrite ?Q; try assumption.
  - exact (r_st _ _ _ _ _ _ H).
  - intros q1 r1 Hin. apply in_app_iff in Hin. destruct Hin as [Hin|[Hin|[]]]; [apply (r_past _ _ _ _ _ _ H _ _ Hin)|]. injection Hin as <- <-. split; [lia|exact (r_st _ _ _ _ _ _ H)].
  - exact (r_rep _ _ _ _ _ _ H).
  - intros q' C P. unfold t'. rewrite given_snoc. destruct (istate_eq q q') as [->|_]; [lia|]. rewrite app_nil_r. apply (r_done _ _ _ _ _ _ H); assumption.
  - intros C n Hn. specialize (E C). unfold t' in *. rewrite given_snoc in *. destruct (istate_eq q q) as [_|N]; [|contradiction]. rewrite app_length in Hn. cbn [length] in Hn.
    destruct (Nat.eq_dec n (length (given t q) + 1)) as [->|Hne].
    + rewrite firstn_all2 by (rewrite app_length; cbn; lia). exact E.
    + rewrite firstn_app. replace (n - length (given t q))%nat with 0%nat by lia. rewrite firstn_O, app_nil_r. apply (r_early _ _ _ _ _ _ H C). fold q. lia.
Qed.

Lemma done_now : (collecting q = true -> enough (given t' q)) -> forall q', collecting q' = true -> (pos q' < S (pos q))%nat -> phase_done (given t' q').
Proof.
  intros E q' C P. unfold t' in *. rewrite given_snoc in *. destruct (istate_eq q q') as [<-|N].
  - destruct (istate_eq q q) as [_|N]; [|contradiction]. split; [apply E; exact C|]. intros n Hn. rewrite app_length in Hn. cbn [length] in Hn.
    rewrite firstn_app. replace (n - length (given t q))%nat with 0%nat by lia. rewrite firstn_O, app_nil_r. apply (r_early _ _ _ _ _ _ H C). fold q. lia.
  - rewrite app_nil_r. apply (r_done _ _ _ _ _ _ H); [exact C|]. fold q. assert (pos q' <> pos q); [|lia]. intros Z. apply N. symmetry. apply pos_inj; [|exact (r_st _ _ _ _ _ _ H)|exact Z].
    rewrite in_order_spec. destruct q' as [| |[] [] []| |]; try discriminate; reflexivity.
Qed.

Lemma move c' i' nxt : agrees g angle i' (session_of t') -> ic_inner c' = inl i' -> ic_state c' = nxt -> pos nxt = S (pos q) -> In nxt order ->
  ic_started c' = None -> (collecting q = true -> enough (given t' q)) -> running g angle t' c' (l ++ [nxt]) i'.
Proof.
  intros A I Q P O T E.
  assert (G : given t' nxt = []).
  { unfold t'. rewrite given_snoc. destruct (istate_eq q nxt) as [X|_]; [rewrite X in P; lia|]. rewrite app_nil_r. apply (given_future _ _ _ _ _ _ _ H O). fold q. lia. }
  split; rewrite ?Q; try assumption.
  - intros q1 r1 Hin. apply in_app_iff in Hin. rewrite P. destruct Hin as [Hin|[Hin|[]]].
    + destruct (r_past _ _ _ _ _ _ H _ _ Hin). fold q in H0. split; [lia|assumption].
    + injection Hin as <- <-. split; [lia|exact (r_st _ _ _ _ _ _ H)].
  - rewrite (r_rep _ _ _ _ _ _ H). fold q. pose proof (r_st _ _ _ _ _ _ H) as QQ. fold q in QQ. apply in_order_spec in QQ, O.
    destruct q as [| |[] [] []| |]; try discriminate; destruct nxt as [| |[] [] []| |]; try discriminate; reflexivity.
  - intros q' C' P'. rewrite P in P'. apply done_now; assumption.
  - rewrite G, T. destruct (collecting nxt); reflexivity.
  - intros _ n Hn. rewrite G in *. rewrite firstn_nil. apply not_enough_nil.
Qed.
End Step.

Ltac dec_given := repeat match goal with |- context [istate_eq ?a ?b] => destruct (istate_eq a b) as [?E|?E]; try discriminate; try (exfalso; congruence) end.

Lemma agrees_skip g angle t i q r : agrees g angle i (session_of t) ->
  match q with State _ Rotating Start | State _ Plus Start | State _ Plus Variance | State _ Minus Start | State _ Minus Variance => False | _ => True end ->
  agrees g angle i (session_of (t ++ [(q, r)])).
Proof.
  intros (A & B & C & D) Q. split; [|split; [|split; assumption]].
  - intros a s. rewrite A. cbn [session_of static_readings variance_readings]. rewrite !given_snoc.
    destruct q as [| |[] [] []| |]; try contradiction; destruct a, s; cbn [dir]; dec_given; rewrite !app_nil_r; reflexivity.
  - intros a. rewrite B. cbn [session_of rotation_readings]. rewrite !given_snoc.
    destruct q as [| |[] [] []| |]; try contradiction; destruct a; dec_given; rewrite !app_nil_r; reflexivity.
Qed.

Lemma agrees_static g angle t i r a s : agrees g angle i (session_of t) -> given t (State a (dir s) Variance) = [] ->
  agrees g angle (process_static a s i r) (session_of (t ++ [(State a (dir s) Start, r)])).
Proof.
  intros (A & B & C & D) V. split; [|split; [|split; assumption]].
  - intros a' s'. change (static_of (process_static a s i r) a' s') with (if axis_eqb a a' && sign_eqb s s' then sstep (static_of i a s) r else static_of i a' s').
    rewrite !A. cbn [session_of static_readings variance_readings]. rewrite !given_snoc.
    destruct (axis_eqb a a' && sign_eqb s s') eqn:E.
    + assert (a = a' /\ s = s') as (<- & <-) by (destruct a, a', s, s'; try discriminate; tauto).
      destruct (istate_eq (State a (dir s) Start) (State a (dir s) Start)) as [_|N]; [|congruence].
      destruct (istate_eq (State a (dir s) Start) (State a (dir s) Variance)) as [N|_]; [congruence|].
      rewrite V, !app_nil_r. unfold stat_of. rewrite fold_left_app. reflexivity.
    + destruct (istate_eq (State a (dir s) Start) (State a' (dir s') Start)) as [N|_]; [destruct a, a', s, s'; cbn in *; discriminate|].
      destruct (istate_eq (State a (dir s) Start) (State a' (dir s') Variance)) as [N|_]; [congruence|]. rewrite !app_nil_r. reflexivity.
  - intros a'. change (rotation_of (process_static a s i r) a') with (rotation_of i a'). rewrite B. cbn [session_of rotation_readings]. rewrite given_snoc.
    destruct (istate_eq (State a (dir s) Start) (State a' Rotating Start)) as [N|_]; [destruct s; discriminate|]. rewrite app_nil_r. reflexivity.
Qed.

Lemma agrees_variance g angle t i r a s : agrees g angle i (session_of t) ->
  agrees g angle (process_variance a s i r) (session_of (t ++ [(State a (dir s) Variance, r)])).
Proof.
  intros (A & B & C & D). split; [|split; [|split; assumption]].
  - intros a' s'. change (static_of (process_variance a s i r) a' s') with (if axis_eqb a a' && sign_eqb s s' then vstep (static_of i a s) r else static_of i a' s').
    rewrite !A. cbn [session_of static_readings variance_readings]. rewrite !given_snoc.
    destruct (axis_eqb a a' && sign_eqb s s') eqn:E.
    + assert (a = a' /\ s = s') as (<- & <-) by (destruct a, a', s, s'; try discriminate; tauto).
      destruct (istate_eq (State a (dir s) Variance) (State a (dir s) Start)) as [N|_]; [congruence|].
      destruct (istate_eq (State a (dir s) Variance) (State a (dir s) Variance)) as [_|N]; [|congruence].
      rewrite !app_nil_r. unfold stat_of. rewrite fold_left_app. reflexivity.
    + destruct (istate_eq (State a (dir s) Variance) (State a' (dir s') Start)) as [N|_]; [congruence|].
      destruct (istate_eq (State a (dir s) Variance) (State a' (dir s') Variance)) as [N|_]; [destruct a, a', s, s'; cbn in *; discriminate|]. rewrite !app_nil_r. reflexivity.
  - intros a'. change (rotation_of (process_variance a s i r) a') with (rotation_of i a'). rewrite B. cbn [session_of rotation_readings]. rewrite given_snoc.
    destruct (istate_eq (State a (dir s) Variance) (State a' Rotating Start)) as [N|_]; [discriminate|]. rewrite app_nil_r. reflexivity.
Qed.

Lemma agrees_rotation g angle t i r a : agrees g angle i (session_of t) ->
  agrees g angle (process_rotation a i r) (session_of (t ++ [(State a Rotating Start, r)])).
Proof.
  intros (A & B & C & D). split; [|split; [|split; assumption]].
  - intros a' s'. change (static_of (process_rotation a i r) a' s') with (static_of i a' s'). rewrite A. cbn [session_of static_readings variance_readings]. rewrite !given_snoc.
    destruct (istate_eq (State a Rotating Start) (State a' (dir s') Start)) as [N|_]; [destruct s'; discriminate|].
    destruct (istate_eq (State a Rotating Start) (State a' (dir s') Variance)) as [N|_]; [discriminate|]. rewrite !app_nil_r. reflexivity.
  - intros a'. change (rotation_of (process_rotation a i r) a') with (if axis_eqb a a' then rstep (rotation_of i a) r else rotation_of i a').
    rewrite !B. cbn [session_of rotation_readings]. rewrite given_snoc. destruct (axis_eqb a a') eqn:E.
    + assert (a = a') as <- by (destruct a, a'; try discriminate; reflexivity).
      destruct (istate_eq (State a Rotating Start) (State a Rotating Start)) as [_|N]; [|congruence]. unfold rot_of. rewrite fold_left_app. reflexivity.
    + destruct (istate_eq (State a Rotating Start) (State a' Rotating Start)) as [N|_]; [destruct a, a'; discriminate|]. rewrite app_nil_r. reflexivity.
Qed.

(** counts *)
Lemma count_sstep l : forall x, st_count (fold_left sstep l x) = (st_count x + length l)%nat /\ st_vcount (fold_left sstep l x) = st_vcount x.
Proof. induction l as [|r l IH]; intros x; cbn [fold_left length]; [lia|]. destruct (IH (sstep x r)) as (-> & ->). cbn. lia. Qed.
Lemma count_vstep l : forall x, st_count (fold_left vstep l x) = st_count x /\ st_vcount (fold_left vstep l x) = (st_vcount x + length l)%nat.
Proof. induction l as [|r l IH]; intros x; cbn [fold_left length]; [lia|]. destruct (IH (vstep x r)) as (-> & ->). cbn. lia. Qed.
Lemma counts g angle i d a s : agrees g angle i d -> st_count (static_of i a s) = length (static_readings d a s) /\ st_vcount (static_of i a s) = length (variance_readings d a s).
Proof.
  intros (A & _). rewrite A. unfold stat_of. destruct (count_vstep (variance_readings d a s) (fold_left sstep (static_readings d a s) (Static 0 vzero vzero 0 vzero vzero))) as (-> & ->).
  destruct (count_sstep (static_readings d a s) (Static 0 vzero vzero 0 vzero vzero)) as (-> & ->). cbn. tauto.
Qed.

(** ** One reading *)
Definition olist {A} (o : option A) : list A := match o with Some x => [x] | None => [] end.

Lemma step_collect g angle t c l i r f count nxt c' o : running g angle t c l i -> collecting (ic_state c) = true ->
  pos nxt = S (pos (ic_state c)) -> In nxt order ->
  agrees g angle (f i r) (session_of (t ++ [(ic_state c, r)])) -> count (f i r) = length (given (t ++ [(ic_state c, r)]) (ic_state c)) ->
  arm_process f count nxt c i r = (c', o) -> exists i', running g angle (t ++ [(ic_state c, r)]) c' (l ++ olist o) i'.
Proof.
  intros H C P O A N E. unfold arm_process in E. exists (f i r). cbv zeta in E. rewrite N in E.
  assert (T : exists x lt, given (t ++ [(ic_state c, r)]) (ic_state c) = x :: lt /\ match ic_started c with Some t => t | None => rd_time r end = rd_time x /\
            rd_time r - rd_time x = duration (x :: lt)).
  { rewrite given_snoc. destruct (istate_eq (ic_state c) (ic_state c)) as [_|X]; [|congruence]. rewrite (r_now _ _ _ _ _ _ H), C.
    destruct (given t (ic_state c)) as [|x lt]; cbn [app].
    - exists r, []. repeat split. 
    - exists x, (lt ++ [r]). split; [reflexivity|]. split; [reflexivity|]. symmetry. apply duration_snoc. }
  destruct T as (x & lt & G & T1 & T2). rewrite T1, T2, <- G in E.
  destruct ((300 <? length (given (t ++ [(ic_state c, r)]) (ic_state c)))%nat && (if Rlt_dec 3000 (duration (given (t ++ [(ic_state c, r)]) (ic_state c))) then true else false)) eqn:B; injection E as <- <-; cbn [olist].
  - apply andb_true_iff in B. destruct B as (B1 & B2). apply Nat.ltb_lt in B1. destruct (Rlt_dec 3000 _) as [B3|] in B2; [|discriminate].
    apply (move g angle t c l i r H) with (nxt := nxt); try reflexivity; try assumption. intros _. split; assumption.
  - rewrite app_nil_r. apply (stay g angle t c l i r H); try reflexivity; try assumption.
    + cbn [ic_started]. rewrite C, G. reflexivity.
    + intros _ (E1 & E2). apply Nat.ltb_lt in E1. rewrite E1 in B. cbn [andb] in B. destruct (Rlt_dec 3000 _) as [|X] in B; [discriminate|]. apply X. exact E2.
Qed.

Lemma step_wait g angle t c l i i' r nxt c' o : running g angle t c l i -> collecting (ic_state c) = false ->
  pos nxt = S (pos (ic_state c)) -> In nxt order -> agrees g angle i' (session_of (t ++ [(ic_state c, r)])) ->
  arm_wait nxt c i' r = (c', o) -> exists i', running g angle (t ++ [(ic_state c, r)]) c' (l ++ olist o) i'.
Proof.
  intros H C P O A E. unfold arm_wait in E. exists i'. destruct (wait_still (ic_last c) (ic_window c) (ic_threshold_sq c) r) as [[still last] w].
  pose proof (r_now _ _ _ _ _ _ H) as T. rewrite C in T. destruct still; injection E as <- <-; cbn [olist].
  - apply (move g angle t c l i r H) with (nxt := nxt); try reflexivity; try assumption. rewrite C. discriminate.
  - rewrite app_nil_r. apply (stay g angle t c l i r H); try reflexivity; try assumption.
    + cbn [ic_started]. rewrite C. exact T.
    + rewrite C. discriminate.
Qed.

Lemma step_running g angle t c l i r c' o : running g angle t c l i -> process c r = Some (c', o) ->
  (exists i', running g angle (t ++ [(ic_state c, r)]) c' (l ++ olist o) i') \/ finished g angle (t ++ [(ic_state c, r)]) c' (l ++ olist o).
Proof.
  intros H E. unfold process in E. rewrite (r_in _ _ _ _ _ _ H) in E. pose proof (r_agr _ _ _ _ _ _ H) as A. pose proof (r_st _ _ _ _ _ _ H) as Q. apply in_order_spec in Q.
  assert (Fut : forall a s, ic_state c = State a (dir s) Start -> given t (State a (dir s) Variance) = []).
  { intros a s Z. apply (given_future _ _ _ _ _ _ _ H); [apply in_order_spec; destruct a, s; reflexivity|]. rewrite Z. destruct a, s; cbn; lia. }
  assert (Static : forall a s, ic_state c = State a (dir s) Start -> forall c' o,
     arm_process (process_static a s) (fun i => st_count (static_of i a s)) (State a (dir s) Variance) c i r = (c', o) -> exists i', running g angle (t ++ [(ic_state c, r)]) c' (l ++ olist o) i').
  { intros a s Z c1 o1 E1. apply (step_collect g angle t c l i r _ _ _ c1 o1 H) in E1; [exact E1|rewrite Z; destruct s; reflexivity|rewrite Z; destruct a, s; cbn; lia|apply in_order_spec; destruct a, s; reflexivity| |].
    - rewrite Z. apply agrees_static; [exact A|apply Fut; exact Z].
    - rewrite Z. apply (counts g angle (process_static a s i r) (session_of (t ++ [(State a (dir s) Start, r)])) a s). apply agrees_static; [exact A|apply Fut; exact Z]. }
  assert (Variance : forall a s, ic_state c = State a (dir s) Variance -> forall c' o,
     arm_process (process_variance a s) (fun i => st_vcount (static_of i a s)) (State a (dir s) End) c i r = (c', o) -> exists i', running g angle (t ++ [(ic_state c, r)]) c' (l ++ olist o) i').
  { intros a s Z c1 o1 E1. apply (step_collect g angle t c l i r _ _ _ c1 o1 H) in E1; [exact E1|rewrite Z; destruct s; reflexivity|rewrite Z; destruct a, s; cbn; lia|apply in_order_spec; destruct a, s; reflexivity| |].
    - rewrite Z. apply agrees_variance. exact A.
    - rewrite Z. apply (counts g angle (process_variance a s i r) (session_of (t ++ [(State a (dir s) Variance, r)])) a s). apply agrees_variance. exact A. }
  assert (exists q, ic_state c = q) as (q & Z) by (eexists; reflexivity). rewrite Z in E, Q. destruct q as [| |a [] []| |]; try discriminate Q; try (destruct a; discriminate Q).
  - injection E as <- <-. left. exists i. cbn [olist]. apply (move g angle t c l i r H) with (nxt := WaitingStill); try reflexivity; rewrite ?Z; try reflexivity.
    + apply agrees_skip; [exact A|exact Logic.I].
    + apply in_order_spec. reflexivity.
    + cbn [ic_started]. rewrite (r_now _ _ _ _ _ _ H), Z. reflexivity.
    + discriminate.
  - left. injection E as E. apply (step_wait g angle t c l i i r _ c' o H) in E; [exact E|rewrite Z; reflexivity|rewrite Z; reflexivity|apply in_order_spec; reflexivity|rewrite Z; apply agrees_skip; [exact A|exact Logic.I]].
  - left. apply (Static a Pos Z). destruct a; injection E as E; exact E.
  - left. apply (Variance a Pos Z). destruct a; injection E as E; exact E.
  - left.
    assert (E' : arm_wait (after_end a Plus) c i r = (c', o)) by (destruct a; injection E as E; exact E).
    apply (step_wait g angle t c l i i r _ c' o H) in E'; [exact E'|rewrite Z; reflexivity|rewrite Z; destruct a; reflexivity|apply in_order_spec; destruct a; reflexivity|rewrite Z; apply agrees_skip; [exact A|exact Logic.I]].
  - left. apply (Static a Neg Z). destruct a; injection E as E; exact E.
  - left. apply (Variance a Neg Z). destruct a; injection E as E; exact E.
  - left.
    assert (E' : arm_wait (after_end a Minus) c i r = (c', o)) by (destruct a; injection E as E; exact E).
    apply (step_wait g angle t c l i i r _ c' o H) in E'; [exact E'|rewrite Z; reflexivity|rewrite Z; destruct a; reflexivity|apply in_order_spec; destruct a; reflexivity|rewrite Z; apply agrees_skip; [exact A|exact Logic.I]].
  - destruct a.
    + left. injection E as E. apply (step_wait g angle t c l i _ r _ c' o H) in E; [exact E|rewrite Z; reflexivity|rewrite Z; reflexivity|apply in_order_spec; reflexivity|rewrite Z; apply agrees_rotation; exact A].
    + left. injection E as E. apply (step_wait g angle t c l i _ r _ c' o H) in E; [exact E|rewrite Z; reflexivity|rewrite Z; reflexivity|apply in_order_spec; reflexivity|rewrite Z; apply agrees_rotation; exact A].
    + cbv zeta in E. destruct (wait_still (ic_last c) (ic_window c) (ic_threshold_sq c) r) as [[still last] w]. destruct still; injection E as <- <-.
      * right. pose proof (agrees_rotation g angle t i r AZ A) as A'. rewrite <- Z in A'. rewrite (calculate_agrees _ _ _ _ A'). split; cbn [ic_inner ic_state olist]; try reflexivity.
        -- rewrite (r_rep _ _ _ _ _ _ H), Z. reflexivity.
        -- assert (DN : forall q', collecting q' = true -> (pos q' < S (pos (ic_state c)))%nat -> phase_done (given (t ++ [(ic_state c, r)]) q')).
           { apply (done_now g angle t c l i r H). rewrite Z. discriminate. }
           intros a s. cbn [session_of static_readings variance_readings]. rewrite Z in *. split; apply DN; destruct a, s; cbn; try reflexivity; lia.
      * left. exists (process_rotation AZ i r). cbn [olist]. rewrite app_nil_r. apply (stay g angle t c l i r H); try reflexivity.
        -- rewrite Z. apply agrees_rotation. exact A.
        -- cbn [ic_state]. symmetry. exact Z.
        -- cbn [ic_started]. rewrite (r_now _ _ _ _ _ _ H), Z. reflexivity.
        -- rewrite Z. discriminate.
  - destruct a; try discriminate Q.
    + left. injection E as E. apply (step_wait g angle t c l i i r _ c' o H) in E; [exact E|rewrite Z; reflexivity|rewrite Z; reflexivity|apply in_order_spec; reflexivity|rewrite Z; apply agrees_skip; [exact A|exact Logic.I]].
    + left. injection E as E. apply (step_wait g angle t c l i i r _ c' o H) in E; [exact E|rewrite Z; reflexivity|rewrite Z; reflexivity|apply in_order_spec; reflexivity|rewrite Z; apply agrees_skip; [exact A|exact Logic.I]].
Qed.

(** ** C100 *)
Definition invariant g angle t c l : Prop := (exists i, running g angle t c l i) \/ finished g angle t c l.

Lemma process_finished g angle t c l r : finished g angle t c l -> process c r = None.
Proof. intros H. unfold process. rewrite (f_in _ _ _ _ _ H). reflexivity. Qed.

Lemma run_invariant g angle : forall rs t c l c' l', invariant g angle t c l -> run c rs = Some (c', l') -> invariant g angle (t ++ shown c rs) c' (l ++ l').
Proof.
  induction rs as [|r rs IH]; intros t c l c' l' H E.
  - cbn [run] in E. injection E as <- <-. cbn [shown]. rewrite !app_nil_r. exact H.
  - cbn [run] in E. apply bind_some in E. destruct E as ([c1 o] & E1 & E). apply bind_some in E. destruct E as ([c2 l2] & E2 & E). injection E as <- <-.
    cbn [shown]. rewrite E1. replace (t ++ (ic_state c, r) :: shown c1 rs) with ((t ++ [(ic_state c, r)]) ++ shown c1 rs) by (rewrite <- app_assoc; reflexivity).
    replace (l ++ match o with Some s => s :: l2 | None => l2 end) with ((l ++ olist o) ++ l2) by (rewrite <- app_assoc; destruct o; reflexivity).
    apply IH; [|exact E2]. destruct H as [(i & H)|H].
    + destruct (step_running _ _ _ _ _ _ _ _ _ H E1) as [X|X]; [left|right]; exact X.
    + rewrite (process_finished _ _ _ _ _ _ H) in E1. discriminate.
Qed.

Lemma start_invariant threshold g angle : invariant g angle [] (icalibrator_new threshold g angle) [].
Proof.
  left. exists (inner_new g angle). split; try reflexivity.
  - left. reflexivity.
  - intros q r [].
  - split; [|split; [|split]]; reflexivity.
  - intros q C P. cbn in P. lia.
  - discriminate.
Qed.

(** Whatever the readings: the states reported are the script from its beginning, in
    order, without skipping or repeating one, then Success or Failure ... *)
Theorem C100_states_in_order : forall threshold g angle rs c l, run (icalibrator_new threshold g angle) rs = Some (c, l) ->
  exists rest, l ++ rest = script ++ [Success] \/ l ++ rest = script ++ [Failure].
Proof.
  intros threshold g angle rs c l E. pose proof (run_invariant g angle rs [] _ [] c l (start_invariant threshold g angle) E) as [(i & H)|H]; cbn [app] in *.
  - exists (skipn (pos (ic_state c)) script ++ [Success]). left. rewrite (r_rep _ _ _ _ _ _ H), app_assoc, firstn_skipn. reflexivity.
  - exists []. rewrite (f_rep _ _ _ _ _ H), (f_st _ _ _ _ _ H), app_nil_r. destruct (calibrate _ g angle); [left|right]; reflexivity.
Qed.

(** ... the state shown is the last one reported *)
Theorem C100_state_is_last_report : forall threshold g angle rs c l, run (icalibrator_new threshold g angle) rs = Some (c, l) -> ic_state c = last l Idle.
Proof.
  intros threshold g angle rs c l E. pose proof (run_invariant g angle rs [] _ [] c l (start_invariant threshold g angle) E) as [(i & H)|H]; cbn [app] in *.
  - rewrite (r_rep _ _ _ _ _ _ H). pose proof (r_st _ _ _ _ _ _ H) as Q. apply in_order_spec in Q.
    destruct (ic_state c) as [| |[] [] []| |]; try discriminate; reflexivity.
  - rewrite (f_rep _ _ _ _ _ H), last_last. reflexivity.
Qed.

(** ... the result is the calibration of the session made of the readings given while
    each position was being shown: Success is reported exactly when it exists, and it
    is then what get_calibration_info returns; before that it returns nothing *)
Theorem C100_result : forall threshold g angle rs c l, run (icalibrator_new threshold g angle) rs = Some (c, l) ->
  let result := calibrate (session_of (shown (icalibrator_new threshold g angle) rs)) g angle in
  (ic_state c = Success <-> In Success l) /\ (ic_state c = Failure <-> In Failure l) /\
  (ic_state c = Success -> exists info, result = Some info /\ get_calibration_info c = Some info) /\
  (ic_state c = Failure -> result = None) /\
  (ic_state c <> Success -> get_calibration_info c = None).
Proof.
  intros threshold g angle rs c l E result. pose proof (run_invariant g angle rs [] _ [] c l (start_invariant threshold g angle) E) as [(i & H)|H]; cbn [app] in *.
  - pose proof (r_st _ _ _ _ _ _ H) as Q. apply in_order_spec in Q. assert (N1 : ic_state c <> Success) by (intros Z; rewrite Z in Q; discriminate). assert (N2 : ic_state c <> Failure) by (intros Z; rewrite Z in Q; discriminate).
    assert (M : forall q, In q l -> q <> Success /\ q <> Failure).
    { intros q Hq. rewrite (r_rep _ _ _ _ _ _ H) in Hq. assert (In q script) as Hs by (rewrite <- (firstn_skipn (pos (ic_state c)) script); apply in_app_iff; left; exact Hq).
      assert (In q order) as Ho by (right; exact Hs). apply in_order_spec in Ho. split; intros ->; discriminate. }
    split; [split; [tauto|intros Hin; destruct (M _ Hin); congruence]|]. split; [split; [tauto|intros Hin; destruct (M _ Hin); congruence]|].
    split; [tauto|]. split; [tauto|]. intros _. unfold get_calibration_info. rewrite (r_in _ _ _ _ _ _ H). reflexivity.
  - assert (M : forall q, q = Success \/ q = Failure -> (ic_state c = q <-> In q l)).
    { intros q Hq. rewrite (f_rep _ _ _ _ _ H), in_app_iff. split; [intros <-; right; left; reflexivity|]. intros [Hs|[Hs|[]]]; [|exact Hs].
      assert (In q order) as Ho by (right; exact Hs). apply in_order_spec in Ho. destruct Hq as [->| ->]; discriminate. }
    split; [apply M; tauto|]. split; [apply M; tauto|]. pose proof (f_st _ _ _ _ _ H) as S1. pose proof (f_in _ _ _ _ _ H) as I1. fold result in S1, I1. unfold get_calibration_info. rewrite I1.
    destruct result as [x|]; rewrite S1.
    + split; [intros _; exists x; tauto|]. split; [discriminate|congruence].
    + split; [discriminate|]. tauto.
Qed.

(** ... and each static and each variance phase of a finished calibration has more than
    300 readings over more than three seconds, and ended with the first such reading *)
Theorem C100_every_phase_long_enough : forall threshold g angle rs c l, run (icalibrator_new threshold g angle) rs = Some (c, l) ->
  ic_state c = Success \/ ic_state c = Failure ->
  let d := session_of (shown (icalibrator_new threshold g angle) rs) in
  forall a s phase, phase = static_readings d a s \/ phase = variance_readings d a s ->
    (300 < length phase)%nat /\ 3000 < duration phase /\
    forall n, (n < length phase)%nat -> ~ ((300 < length (firstn n phase))%nat /\ 3000 < duration (firstn n phase)).
Proof.
  intros threshold g angle rs c l E Q d. pose proof (run_invariant g angle rs [] _ [] c l (start_invariant threshold g angle) E) as [(i & H)|H]; cbn [app] in *.
  - pose proof (r_st _ _ _ _ _ _ H) as O. apply in_order_spec in O. destruct Q as [Q|Q]; rewrite Q in O; discriminate.
  - intros a s ph Hp. destruct (f_done _ _ _ _ _ H a s) as (D1 & D2). destruct Hp as [->| ->]; [destruct D1 as ((A & B) & C)|destruct D2 as ((A & B) & C)]; split; try assumption; split; assumption.
Qed.

(** ... one reading more and it panics; before, it never does *)
Theorem C100_panics_exactly_after_the_end : forall threshold g angle rs c l r, run (icalibrator_new threshold g angle) rs = Some (c, l) ->
  (process c r = None <-> ic_state c = Success \/ ic_state c = Failure).
Proof.
  intros threshold g angle rs c l r E. pose proof (run_invariant g angle rs [] _ [] c l (start_invariant threshold g angle) E) as [(i & H)|H]; cbn [app] in *.
  - pose proof (r_st _ _ _ _ _ _ H) as O. apply in_order_spec in O. split; [|intros [Q|Q]; rewrite Q in O; discriminate].
    intros P. exfalso. unfold process in P. rewrite (r_in _ _ _ _ _ _ H) in P.
    destruct (ic_state c) as [| |[] [] []| |]; try discriminate O; try discriminate P.
    cbv zeta in P. destruct (wait_still (ic_last c) (ic_window c) (ic_threshold_sq c) r) as [[[] ?] ?]; discriminate.
  - split; [|intros _; apply (process_finished _ _ _ _ _ _ H)]. intros _. rewrite (f_st _ _ _ _ _ H). destruct (calibrate _ g angle); tauto.
Qed.

(** ** Progress *)
Fixpoint vsum (l : list vec) : vec := match l with [] => vzero | x :: l => vadd x (vsum l) end.
Definition wf_window (w : ssma vec) : Prop := (length (ss_samples w) <= 50)%nat /\ ss_sum w = vsum (ss_samples w).
Lemma vsum_last l d : l <> [] -> vsum (removelast l) = vsub (vsum l) (last l d).
Proof.
  induction l as [|x l IH]; [contradiction|]. intros _. destruct l as [|y l]; [cbn; vec_ring|].
  change (removelast (x :: y :: l)) with (x :: removelast (y :: l)). change (last (x :: y :: l) d) with (last (y :: l) d). cbn [vsum]. rewrite IH by discriminate. cbn [vsum]. vec_ring.
Qed.
Lemma length_removelast {A} (l : list A) : length (removelast l) = (length l - 1)%nat.
Proof. rewrite removelast_firstn_len, firstn_length. lia. Qed.
Lemma wf_add w x : wf_window w -> wf_window (ssma_add vadd vsub vzero 50 w x).
Proof.
  intros (L & S0). unfold ssma_add. cbn [Nat.eqb]. destruct (length (ss_samples w) =? 50)%nat eqn:E.
  - apply Nat.eqb_eq in E. split; cbn [ss_samples ss_sum length].
    + rewrite length_removelast. lia.
    + cbn [vsum]. rewrite (vsum_last _ vzero) by (intros Z; rewrite Z in E; discriminate). rewrite S0. vec_ring.
  - apply Nat.eqb_neq in E. split; cbn [ss_samples ss_sum length]; [lia|]. cbn [vsum]. rewrite S0. vec_ring.
Qed.
Definition zeros (k : nat) (w : ssma vec) : Prop := (k <= length (ss_samples w))%nat /\ firstn k (ss_samples w) = repeat vzero k.
Lemma firstn_removelast {A} k (l : list A) : (k < length l)%nat -> firstn k (removelast l) = firstn k l.
Proof. intros H. rewrite removelast_firstn_len, firstn_firstn. f_equal. lia. Qed.
Lemma zeros_add k w : wf_window w -> zeros k w -> (k < 50)%nat -> zeros (S k) (ssma_add vadd vsub vzero 50 w vzero).
Proof.
  intros (L & _) (Z1 & Z2) K. unfold ssma_add. cbn [Nat.eqb]. destruct (length (ss_samples w) =? 50)%nat eqn:E; split; cbn [ss_samples length firstn repeat].
  - apply Nat.eqb_eq in E. rewrite length_removelast. lia.
  - apply Nat.eqb_eq in E. rewrite firstn_removelast by lia. rewrite Z2. reflexivity.
  - lia.
  - rewrite Z2. reflexivity.
Qed.
Lemma vsum_zeros k : vsum (repeat vzero k) = vzero.
Proof. induction k as [|k IH]; [reflexivity|]. cbn [repeat vsum]. rewrite IH. vec_ring. Qed.
Lemma zeros_full w thr : wf_window w -> zeros 50 w -> 0 < thr ->
  ssma_is_full 50 w && (if Rlt_dec (norm_squared (ssma_average (fun n x => vdiv x (INR n)) w)) thr then true else false) = true.
Proof.
  intros (L & S0) (Z1 & Z2) T. assert (E : length (ss_samples w) = 50%nat) by lia. rewrite <- E, firstn_all, E in Z2.
  unfold ssma_is_full. rewrite E. cbn [Nat.eqb andb]. unfold ssma_average. rewrite E. cbn [Nat.eqb]. rewrite S0, Z2, vsum_zeros.
  destruct (Rlt_dec _ thr) as [_|N]; [reflexivity|]. exfalso. apply N. unfold norm_squared, vdiv, vzero. cbn [v1 v2 v3]. unfold Rdiv. rewrite !Rmult_0_l. lra.
Qed.

(** readings in time order, at most [gap] apart, of a constant angular rate *)
Fixpoint steady (gap : R) (rate : vec) (time : R) (rs : list reading) : Prop :=
  match rs with [] => True | r :: rs => time <= rd_time r <= time + gap /\ rd_gyro r = rate /\ steady gap rate (rd_time r) rs end.
Definition end_time (time : R) (rs : list reading) : R := fold_left (fun _ r => rd_time r) rs time.

(** the readings never make [wait_still] say so *)
Fixpoint never_still (last : option reading) (w : ssma vec) (thr : R) (rs : list reading) : Prop :=
  match rs with [] => True | r :: rs => let '(still, last, w) := wait_still last w thr r in still = false /\ never_still last w thr rs end.

Section Still.
Variables (gap t0 thr : R) (rate : vec).
Hypothesis Hthr : 0 < thr.

Lemma steady_bound : forall rs time x w k, steady gap rate time rs -> wf_window w -> zeros k w -> (k < 50)%nat ->
  rd_gyro x = rate -> rd_time x <= t0 + (INR k + 1) * (100 + gap) -> time <= rd_time x + 100 -> 0 <= gap ->
  never_still (Some x) w thr rs -> end_time time rs <= t0 + 50 * (100 + gap) + 100.
Proof.
  induction rs as [|r rs IH]; intros time x w k St W Z K G X T Gp N.
  - cbn. assert (INR k + 1 <= 50) by (rewrite <- S_INR; replace 50 with (INR 50) by (cbn; lra); apply le_INR; lia).
    assert ((INR k + 1) * (100 + gap) <= 50 * (100 + gap)) by (apply Rmult_le_compat_r; lra). lra.
  - cbn [steady] in St. destruct St as ((T1 & T2) & G2 & St). cbn [never_still] in N. unfold wait_still in N.
    change (end_time time (r :: rs)) with (end_time (rd_time r) rs).
    destruct (Rlt_dec 100 (rd_time r - rd_time x)) as [L|L].
    + rewrite G, G2 in N. replace (vdiv (vsub rate rate) ((rd_time r - rd_time x) / 1000)) with vzero in N.
      2: { apply vec_eq; cbn; unfold Rminus, Rdiv; rewrite !Rplus_opp_r; ring. }
      set (w' := ssma_add vadd vsub vzero 50 w vzero) in *.
      assert (W' : wf_window w') by (apply wf_add; exact W). assert (Z' : zeros (S k) w') by (apply zeros_add; assumption).
      destruct (Nat.eq_dec (S k) 50) as [E|E].
      * exfalso. rewrite E in Z'. rewrite (zeros_full w' thr W' Z' Hthr) in N. destruct N as (N & _). discriminate.
      * destruct (ssma_is_full 50 w' && _) in N; destruct N as (N1 & N2); [discriminate|].
        apply (IH _ r w' (S k)); try assumption; try lia; try lra. rewrite S_INR.
        assert ((INR k + 1 + 1) * (100 + gap) = (INR k + 1) * (100 + gap) + (100 + gap)) by ring. lra.
    + destruct N as (_ & N). apply (IH _ x w k); try assumption. lra.
Qed.

(** from an arbitrary last reading, not later than the first of these *)
Lemma steady_bound0 : forall rs time x w, steady gap rate time rs -> wf_window w -> rd_time x <= t0 -> time <= rd_time x + 100 -> 0 <= gap ->
  never_still (Some x) w thr rs -> end_time time rs <= t0 + 50 * (100 + gap) + 100.
Proof.
  induction rs as [|r rs IH]; intros time x w St W X T Gp N.
  - cbn. lra.
  - cbn [steady] in St. destruct St as ((T1 & T2) & G2 & St). cbn [never_still] in N. unfold wait_still in N.
    change (end_time time (r :: rs)) with (end_time (rd_time r) rs).
    destruct (Rlt_dec 100 (rd_time r - rd_time x)) as [L|L].
    + match type of N with context [ssma_add vadd vsub vzero 50 w ?y] => set (w' := ssma_add vadd vsub vzero 50 w y) in * end.
      assert (W' : wf_window w') by (apply wf_add; exact W).
      destruct (ssma_is_full 50 w' && _) in N; destruct N as (N1 & N2); [discriminate|].
      apply (steady_bound rs _ r w' 0); try assumption; try lra.
      * split; [lia|reflexivity].
      * lia.
      * cbn [INR]. lra.
    + destruct N as (_ & N). apply (IH _ x w); try assumption. lra.
Qed.
End Still.

Lemma sp {A B} (a c : A) (b d : B) : Some (a, b) = Some (c, d) -> a = c /\ b = d.
Proof. intros H. injection H as -> ->. tauto. Qed.
Record aux (threshold : R) (seen : list reading) (c : icalibrator) : Prop := Aux {
  a_w : wf_window (ic_window c);
  a_last : forall x, ic_last c = Some x -> In x seen;
  a_some : ic_state c <> Idle -> ic_last c <> None;
  a_thr : ic_threshold_sq c = threshold * threshold
}.
Lemma wf_clear w : wf_window (ssma_clear vzero w). Proof. split; cbn; [lia|reflexivity]. Qed.
Lemma aux_wait last w thr r still last' w' seen : wf_window w -> (forall x, last = Some x -> In x seen) -> last <> None ->
  wait_still last w thr r = (still, last', w') -> wf_window w' /\ (forall x, last' = Some x -> In x (seen ++ [r])) /\ last' <> None.
Proof.
  intros W L N E. unfold wait_still in E. destruct last as [x|]; [|congruence].
  assert (M : forall z, Some r = Some z -> In z (seen ++ [r])) by (intros z Hz; injection Hz as <-; apply in_app_iff; right; left; reflexivity).
  destruct (Rlt_dec 100 (rd_time r - rd_time x)).
  - match type of E with context [ssma_add vadd vsub vzero 50 w ?y] => set (w1 := ssma_add vadd vsub vzero 50 w y) in * end.
    assert (wf_window w1) by (apply wf_add; exact W).
    destruct (ssma_is_full 50 w1 && _) in E; injection E as <- <- <-; (split; [first [apply wf_clear|assumption]|]); (split; [exact M|discriminate]).
  - injection E as <- <- <-. split; [exact W|]. split; [|discriminate]. intros z Hz. apply in_app_iff. left. apply L. exact Hz.
Qed.
Lemma aux_arm_wait threshold seen nxt c i r c' o : aux threshold seen c -> ic_state c <> Idle -> arm_wait nxt c i r = (c', o) -> aux threshold (seen ++ [r]) c'.
Proof.
  intros A Q E. unfold arm_wait in E. destruct (wait_still (ic_last c) (ic_window c) (ic_threshold_sq c) r) as [[still last] w] eqn:Ew.
  destruct (aux_wait _ _ _ _ _ _ _ seen (a_w _ _ _ A) (a_last _ _ _ A) (a_some _ _ _ A Q) Ew) as (B1 & B2 & B3).
  destruct still; injection E as <- <-; split; cbn [ic_window ic_last ic_state ic_threshold_sq]; try assumption; try (intros _; exact B3); exact (a_thr _ _ _ A).
Qed.
Lemma aux_arm_process threshold seen f count nxt c i r c' o : aux threshold seen c -> ic_state c <> Idle -> arm_process f count nxt c i r = (c', o) -> aux threshold (seen ++ [r]) c'.
Proof.
  intros A Q E. unfold arm_process in E. cbv zeta in E.
  assert (L : forall x, ic_last c = Some x -> In x (seen ++ [r])) by (intros x Hx; apply in_app_iff; left; apply (a_last _ _ _ A); exact Hx).
  destruct (_ && _) in E; injection E as <- <-; split; cbn [ic_window ic_last ic_state ic_threshold_sq]; try assumption;
    [exact (a_w _ _ _ A)|intros _; exact (a_some _ _ _ A Q)|exact (a_thr _ _ _ A)|exact (a_w _ _ _ A)|intros _; exact (a_some _ _ _ A Q)|exact (a_thr _ _ _ A)].
Qed.
Lemma aux_process threshold seen c r c' o : aux threshold seen c -> process c r = Some (c', o) -> aux threshold (seen ++ [r]) c'.
Proof.
  intros A E. unfold process in E. destruct (ic_inner c) as [i|]; [|discriminate].
  destruct (ic_state c) as [| |a [] []| |] eqn:Z; try discriminate E;
  try (destruct a; try discriminate E; injection E as E; first [apply (aux_arm_process threshold seen) in E; [exact E|exact A|rewrite Z; discriminate]|apply (aux_arm_wait threshold seen) in E; [exact E|exact A|rewrite Z; discriminate]]).
  - injection E as <- <-. split; cbn [ic_window ic_last ic_state ic_threshold_sq].
    + exact (a_w _ _ _ A).
    + intros x Hx. injection Hx as <-. apply in_app_iff. right. left. reflexivity.
    + discriminate.
    + exact (a_thr _ _ _ A).
  - injection E as E. eapply aux_arm_wait; try exact E; [exact A|rewrite Z; discriminate].
  - destruct a; try (injection E as E; eapply aux_arm_wait; try exact E; [exact A|rewrite Z; discriminate]).
    cbv zeta in E. destruct (wait_still (ic_last c) (ic_window c) (ic_threshold_sq c) r) as [[still last] w] eqn:Ew.
    assert (Q : ic_state c <> Idle) by (rewrite Z; discriminate).
    destruct (aux_wait _ _ _ _ _ _ _ seen (a_w _ _ _ A) (a_last _ _ _ A) (a_some _ _ _ A Q) Ew) as (B1 & B2 & B3).
    destruct still; apply sp in E; destruct E as (<- & _); split; cbn [ic_window ic_last ic_state ic_threshold_sq]; try assumption; try (intros _; exact B3); exact (a_thr _ _ _ A).
Qed.
Lemma aux_run threshold : forall rs seen c c' l, aux threshold seen c -> run c rs = Some (c', l) -> aux threshold (seen ++ rs) c'.
Proof.
  induction rs as [|r rs IH]; intros seen c c' l A E; cbn [run] in E.
  - injection E as <- <-. rewrite app_nil_r. exact A.
  - apply bind_some in E. destruct E as ([c1 o] & E1 & E). apply bind_some in E. destruct E as ([c2 l2] & E2 & E). injection E as <- <-.
    replace (seen ++ r :: rs) with ((seen ++ [r]) ++ rs) by (rewrite <- app_assoc; reflexivity). apply (IH _ c1 _ l2); [|exact E2]. apply (aux_process _ _ c r c1 o); assumption.
Qed.

(** a run that reports nothing stays in its state; in a waiting state it never saw the device still *)
Definition waiting (q : istate) : bool := match q with WaitingStill | State _ _ End | State _ Rotating Start => true | _ => false end.
Lemma silent_wait : forall rs c c', waiting (ic_state c) = true -> run c rs = Some (c', []) -> never_still (ic_last c) (ic_window c) (ic_threshold_sq c) rs.
Proof.
  induction rs as [|r rs IH]; intros c c' Q E; cbn [run] in E; [exact Logic.I|].
  apply bind_some in E. destruct E as ([c1 o] & E1 & E). apply bind_some in E. destruct E as ([c2 l2] & E2 & E).
  destruct o as [q|]; [discriminate E|]. assert (l2 = [] /\ c2 = c') as (-> & ->) by (injection E; intros; subst; tauto). clear E.
  cbn [never_still].
  assert (W : forall i nxt, arm_wait nxt c i r = (c1, None) ->
     let '(still, last, w) := wait_still (ic_last c) (ic_window c) (ic_threshold_sq c) r in still = false /\ never_still last w (ic_threshold_sq c) rs).
  { intros i nxt E. unfold arm_wait in E. destruct (wait_still (ic_last c) (ic_window c) (ic_threshold_sq c) r) as [[[] last] w]; [discriminate E|]. injection E as <-.
    split; [reflexivity|]. refine (IH _ c' _ E2). exact Q. }
  unfold process in E1. destruct (ic_inner c) as [i|]; [|discriminate].
  destruct (ic_state c) as [| |a [] []| |] eqn:Z; try discriminate Q; try (destruct a; try discriminate E1; injection E1 as E1; exact (W _ _ E1)); try (injection E1 as E1; exact (W _ _ E1)).
  destruct a; try (injection E1 as E1; exact (W _ _ E1)). cbv zeta in E1.
  destruct (wait_still (ic_last c) (ic_window c) (ic_threshold_sq c) r) as [[[] last] w]; [discriminate E1|]. injection E1 as <-.
  split; [reflexivity|]. apply (IH (ICal (State AZ Rotating Start) (inl (process_rotation AZ i r)) last (ic_threshold_sq c) w (ic_started c)) c'); [reflexivity|exact E2].
Qed.

Lemma silent_state : forall rs c c', run c rs = Some (c', []) -> ic_state c' = ic_state c /\ forall q r, In (q, r) (shown c rs) -> q = ic_state c.
Proof.
  induction rs as [|r rs IH]; intros c c' E; cbn [run] in E; [injection E as <-; split; [reflexivity|intros q r []]|].
  apply bind_some in E. destruct E as ([c1 o] & E1 & E). apply bind_some in E. destruct E as ([c2 l2] & E2 & E).
  destruct o as [q|]; [discriminate E|]. assert (l2 = [] /\ c2 = c') as (-> & ->) by (injection E; intros; subst; tauto). clear E.
  assert (S1 : ic_state c1 = ic_state c).
  { assert (W : forall i nxt, arm_wait nxt c i r = (c1, None) -> ic_state c1 = ic_state c).
    { intros i nxt E. unfold arm_wait in E. destruct (wait_still (ic_last c) (ic_window c) (ic_threshold_sq c) r) as [[[] last] w]; [discriminate E|]. injection E as <-. reflexivity. }
    assert (P : forall f count i nxt, arm_process f count nxt c i r = (c1, None) -> ic_state c1 = ic_state c).
    { intros f count i nxt E. unfold arm_process in E. cbv zeta in E. destruct (_ && _) in E; [discriminate E|]. injection E as <-. reflexivity. }
    pose proof E1 as E. unfold process in E. destruct (ic_inner c) as [i|]; [|discriminate].
    assert (exists q, ic_state c = q) as (q & Z) by (eexists; reflexivity). rewrite Z in E.
    destruct q as [| |a [] []| |]; try discriminate E; try (destruct a; try discriminate E; injection E as E; first [exact (W _ _ E)|exact (P _ _ _ _ E)]); try (injection E as E; exact (W _ _ E)).
    destruct a; try (injection E as E; exact (W _ _ E)). cbv zeta in E.
    destruct (wait_still (ic_last c) (ic_window c) (ic_threshold_sq c) r) as [[[] last] w]; [discriminate E|]. apply sp in E. destruct E as (<- & _). symmetry. exact Z. }
  destruct (IH c1 c' E2) as (I1 & I2). split; [congruence|]. intros q x Hin. cbn [shown] in Hin. rewrite E1 in Hin. destruct Hin as [Hin|Hin]; [injection Hin as <- <-; reflexivity|].
  rewrite <- S1. apply (I2 q x Hin).
Qed.
Lemma shown_readings : forall rs c c' l, run c rs = Some (c', l) -> map snd (shown c rs) = rs.
Proof.
  induction rs as [|r rs IH]; intros c c' l E; cbn [run] in E; [reflexivity|].
  apply bind_some in E. destruct E as ([c1 o] & E1 & E). apply bind_some in E. destruct E as ([c2 l2] & E2 & E). cbn [shown map snd]. rewrite E1. f_equal. apply (IH c1 c2 l2 E2).
Qed.
Lemma given_all t q : (forall q' r, In (q', r) t -> q' = q) -> given t q = map snd t.
Proof.
  intros H. unfold given. induction t as [|[q' r] t IH]; [reflexivity|]. cbn [filter fst map snd]. destruct (istate_eq q' q) as [_|N]; [|exfalso; apply N, (H q' r); left; reflexivity].
  cbn [map snd]. f_equal. apply IH. intros q'' r' Hin. apply (H q'' r'). right. exact Hin.
Qed.
Lemma given_app t t' q : given (t ++ t') q = given t q ++ given t' q.
Proof. unfold given. rewrite filter_app, map_app. reflexivity. Qed.
Lemma end_time_last r rs t : end_time t (r :: rs) = rd_time (last (r :: rs) r).
Proof.
  unfold end_time. change (fold_left (fun _ r => rd_time r) rs (rd_time r) = rd_time (last (r :: rs) r)). revert r. induction rs as [|x rs IH]; intros r; [reflexivity|].
  cbn [fold_left]. rewrite (IH x). change (last (r :: x :: rs) r) with (last (x :: rs) r). f_equal. apply last_indep.
Qed.

(** Progress: from every reachable state, as long as the calibration has not ended, a
    device whose angular rate does not change for long enough (301 readings and the larger
    of three seconds and 50 intervals of 100 ms plus the sampling gap) makes the calibration move
    on.  The rate may be anything: the calibrator takes a device that TURNS at a constant
    rate for one that is still *)
Theorem C100_moves_on : forall threshold g angle rs0 c l0 gap rate r rs, threshold <> 0 ->
  run (icalibrator_new threshold g angle) rs0 = Some (c, l0) -> ic_state c <> Success -> ic_state c <> Failure ->
  (forall x, In x rs0 -> rd_time x <= rd_time r) -> rd_gyro r = rate -> 0 <= gap -> steady gap rate (rd_time r) rs ->
  (300 < length (r :: rs))%nat -> 3000 < duration (r :: rs) -> 50 * (100 + gap) + 100 < duration (r :: rs) ->
  forall c', run c (r :: rs) <> Some (c', []).
Proof.
  intros threshold g angle rs0 c l0 gap rate r rs T0 E0 N1 N2 Past G Gp St Len D1 D2 c' E.
  pose proof (run_invariant g angle rs0 [] _ [] c l0 (start_invariant threshold g angle) E0) as Inv. cbn [app] in Inv.
  pose proof (run_invariant g angle (r :: rs) _ c l0 c' [] Inv E) as Inv'.
  assert (A0 : aux threshold [] (icalibrator_new threshold g angle)) by (split; cbn; try reflexivity; try discriminate; [split; cbn; [lia|reflexivity]|congruence]).
  pose proof (aux_run threshold rs0 [] _ c l0 A0 E0) as A. cbn [app] in A.
  destruct (silent_state _ _ _ E) as (S1 & S2).
  destruct Inv as [(i & Inv)|Inv]; [|rewrite (f_st _ _ _ _ _ Inv) in N1, N2; destruct (calibrate _ g angle); congruence].
  destruct Inv' as [(i' & Inv')|Inv']; [|rewrite <- S1, (f_st _ _ _ _ _ Inv') in N1, N2; destruct (calibrate _ g angle); congruence].
  pose proof (r_st _ _ _ _ _ _ Inv) as O. apply in_order_spec in O.
  destruct (collecting (ic_state c)) eqn:C.
  - (* a collecting phase *)
    pose proof (r_early _ _ _ _ _ _ Inv') as Early. rewrite S1 in Early. specialize (Early C (length (given (shown (icalibrator_new threshold g angle) rs0 ++ shown c (r :: rs)) (ic_state c))) (Nat.le_refl _)).
    rewrite firstn_all, given_app, (given_all _ _ S2), (shown_readings _ _ _ _ E) in Early. apply Early.
    set (before := given (shown (icalibrator_new threshold g angle) rs0) (ic_state c)) in *.
    split; [rewrite app_length; lia|]. destruct before as [|x bef] eqn:B; [exact D1|].
    assert (Hx : rd_time x <= rd_time r).
    { apply Past. rewrite <- (shown_readings _ _ _ _ E0). assert (Hin : In x (given (shown (icalibrator_new threshold g angle) rs0) (ic_state c))) by (fold before; rewrite B; left; reflexivity).
      unfold given in Hin. apply in_map_iff in Hin. destruct Hin as (y & <- & Hy). apply filter_In in Hy. apply in_map. exact (proj1 Hy). }
    cbn [app]. unfold duration in *. rewrite (last_indep _ x x r) in *.
    assert (LL : last (x :: bef ++ r :: rs) r = last (r :: rs) r).
    { change (x :: bef ++ r :: rs) with ((x :: bef) ++ r :: rs). clear. generalize (x :: bef). intros l. induction l as [|y l IH]; [reflexivity|].
      change ((y :: l) ++ r :: rs) with (y :: (l ++ r :: rs)). destruct (l ++ r :: rs) eqn:Z; [destruct l; discriminate|]. cbn [last]. exact IH. }
    rewrite LL. lra.
  - (* a waiting state, or the beginning *)
    destruct (waiting (ic_state c)) eqn:W.
    + pose proof (silent_wait _ _ _ W E) as NS.
      assert (Thr : 0 < ic_threshold_sq c) by (rewrite (a_thr _ _ _ A); pose proof (Rsqr_pos_lt threshold T0) as X; exact X).
      destruct (ic_last c) as [x|] eqn:L; [|exfalso; apply (a_some _ _ _ A); [intros Z; rewrite Z in W; discriminate|exact L]].
      assert (Hx : rd_time x <= rd_time r) by (apply Past, (a_last _ _ _ A); exact L).
      assert (B : end_time (rd_time r) (r :: rs) <= rd_time r + 50 * (100 + gap) + 100).
      { change (end_time (rd_time r) (r :: rs)) with (end_time (rd_time r) rs). cbn [never_still] in NS. unfold wait_still in NS.
        destruct (Rlt_dec 100 (rd_time r - rd_time x)) as [Lt|Lt].
        - match type of NS with context [ssma_add vadd vsub vzero 50 ?w ?y] => set (w' := ssma_add vadd vsub vzero 50 w y) in * end.
          assert (W' : wf_window w') by (apply wf_add; exact (a_w _ _ _ A)).
          destruct (ssma_is_full 50 w' && _) in NS; destruct NS as (Z1 & Z2); [discriminate|].
          apply (steady_bound0 gap (rd_time r) (ic_threshold_sq c) rate Thr rs (rd_time r) r w'); try assumption; lra.
        - destruct NS as (_ & NS). apply (steady_bound0 gap (rd_time r) (ic_threshold_sq c) rate Thr rs (rd_time r) x (ic_window c)); try assumption; try lra. exact (a_w _ _ _ A). }
      rewrite end_time_last in B. unfold duration in D2. lra.
    + (* Idle: the first reading moves on *)
      assert (Z : ic_state c = Idle) by (destruct (ic_state c) as [| |[] [] []| |]; try discriminate; reflexivity).
      cbn [run] in E. unfold process in E. rewrite (r_in _ _ _ _ _ _ Inv), Z in E. cbn [bind] in E. destruct (run _ rs) as [[? ?]|]; cbn [bind] in E; discriminate.
Qed.

(** Together with C99: a finished interactive calibration whose session was done right,
    with as many readings in both directions of each axis, succeeded and is right *)
Theorem C100_right_if_done_right_partial : forall s threshold g angle rs c l, run (icalibrator_new threshold g angle) rs = Some (c, l) ->
  ic_state c = Success \/ ic_state c = Failure ->
  let d := session_of (shown (icalibrator_new threshold g angle) rs) in
  det (sA s) <> 0 -> det (sG s) <> 0 -> g <> 0 -> angle <> 0 -> proper s g angle d ->
  (forall a, length (static_readings d a Pos) = length (static_readings d a Neg)) ->
  ic_state c = Success /\ exists info, get_calibration_info c = Some info /\
    forall t a w, apply_calibration info (measure s t a w) = Reading t a w.
Proof.
  intros s threshold g angle rs c l E Q d HA HG Hg Ha P B. destruct (C99_calibration_inverts_sensor_partial s g angle d HA HG Hg Ha P B) as (info & C & Ok).
  destruct (C100_result threshold g angle rs c l E) as (_ & _ & R1 & R2 & _). destruct Q as [Q|Q].
  - split; [exact Q|]. destruct (R1 Q) as (x & Hx & Hc). fold d in Hx. rewrite C in Hx. injection Hx as <-. exists info. tauto.
  - specialize (R2 Q). fold d in R2. rewrite C in R2. discriminate.
Qed.

(** ** The end can be reached from everywhere *)
Definition stream (t0 : R) (n : nat) : list reading := map (fun k => Reading (t0 + INR k * 10) vzero (Vec 1000 0 0)) (seq 1 n).
Lemma stream_steady : forall n k t0, steady 10 (Vec 1000 0 0) (t0 + INR k * 10) (map (fun k => Reading (t0 + INR k * 10) vzero (Vec 1000 0 0)) (seq (S k) n)).
Proof.
  induction n as [|n IH]; intros k t0; [exact Logic.I|]. cbn [seq map steady rd_time rd_gyro]. split; [rewrite S_INR; lra|]. split; [reflexivity|]. apply IH.
Qed.
Lemma stream_end : forall n k t0, rd_time (last (map (fun k => Reading (t0 + INR k * 10) vzero (Vec 1000 0 0)) (seq k (S n))) (Reading 0 vzero vzero)) = t0 + INR (k + n) * 10.
Proof.
  induction n as [|n IH]; intros k t0; [cbn [seq map last rd_time]; rewrite Nat.add_0_r; reflexivity|].
  change (seq k (S (S n))) with (k :: seq (S k) (S n)). cbn [map]. remember (map _ (seq (S k) (S n))) as m eqn:M. destruct m as [|x m]; [discriminate|].
  change (last (?y :: x :: m) ?d) with (last (x :: m) d). rewrite M, IH. f_equal. f_equal. f_equal. lia.
Qed.

Lemma run_app : forall rs c rs', run c (rs ++ rs') = bind (run c rs) (fun '(c1, l1) => bind (run c1 rs') (fun '(c2, l2) => Some (c2, l1 ++ l2))).
Proof.
  induction rs as [|r rs IH]; intros c rs'.
  - cbn [app run bind]. destruct (run c rs') as [[? ?]|]; reflexivity.
  - cbn [app run]. destruct (process c r) as [[c1 o]|]; cbn [bind]; [|reflexivity]. rewrite IH. destruct (run c1 rs) as [[c2 l2]|]; cbn [bind]; [|reflexivity].
    destruct (run c2 rs') as [[c3 l3]|]; cbn [bind]; [|reflexivity]. destruct o; reflexivity.
Qed.
Lemma run_none : forall rs c, run c rs = None -> exists rs1 r rs2 c1 l1, rs = rs1 ++ r :: rs2 /\ run c rs1 = Some (c1, l1) /\ process c1 r = None.
Proof.
  induction rs as [|r rs IH]; intros c E; [discriminate|]. cbn [run] in E. destruct (process c r) as [[c1 o]|] eqn:P.
  - cbn [bind] in E. destruct (run c1 rs) as [[? ?]|] eqn:R; [discriminate|]. destruct (IH c1 R) as (rs1 & x & rs2 & c2 & l2 & -> & E2 & P2).
    exists (r :: rs1), x, rs2, c2, (match o with Some s => s :: l2 | None => l2 end). split; [reflexivity|]. split; [cbn [run]; rewrite P; cbn [bind]; rewrite E2; reflexivity|exact P2].
  - exists [], r, rs, c, []. repeat split. exact P.
Qed.
Lemma latest_time (rs : list reading) : exists t, forall x, In x rs -> rd_time x <= t.
Proof.
  induction rs as [|r rs (t & IH)]; [exists 0; intros x []|]. exists (Rmax (rd_time r) t). intros x [<-|H]; [apply Rmax_l|]. eapply Rle_trans; [apply IH; exact H|apply Rmax_r].
Qed.

(** whatever was fed so far, the calibration can be brought to its end, by a device that
    turns at 1000 degrees per second all the time *)
Theorem C100_end_reachable : forall threshold g angle rs0 c l0, threshold <> 0 -> run (icalibrator_new threshold g angle) rs0 = Some (c, l0) ->
  exists rs c' l, run (icalibrator_new threshold g angle) (rs0 ++ rs) = Some (c', l) /\ (ic_state c' = Success \/ ic_state c' = Failure) /\
    forall r, In r rs -> rd_gyro r = Vec 1000 0 0.
Proof.
  intros threshold g angle rs0 c l0 T0. remember (26 - length l0)%nat as m eqn:M. revert rs0 c l0 M.
  induction m as [m IH] using lt_wf_ind. intros rs0 c l0 M E0.
  destruct (istate_eq (ic_state c) Success) as [Z|N1]; [exists [], c, l0; rewrite app_nil_r; split; [exact E0|]; split; [tauto|intros r []]|].
  destruct (istate_eq (ic_state c) Failure) as [Z|N2]; [exists [], c, l0; rewrite app_nil_r; split; [exact E0|]; split; [tauto|intros r []]|].
  destruct (latest_time rs0) as (t0 & Ht).
  assert (K : exists rest c' l', rest <> [] /\ (forall r, In r rest -> rd_gyro r = Vec 1000 0 0) /\ run c rest = Some (c', l') /\ (l' <> [] \/ ic_state c' = Success \/ ic_state c' = Failure)).
  { set (r := Reading (t0 + INR 0 * 10) vzero (Vec 1000 0 0)). set (st := r :: map (fun k => Reading (t0 + INR k * 10) vzero (Vec 1000 0 0)) (seq 1 700)).
    assert (Gy : forall x, In x st -> rd_gyro x = Vec 1000 0 0) by (intros x [<-|Hx]; [reflexivity|apply in_map_iff in Hx; destruct Hx as (k & <- & _); reflexivity]).
    assert (D : duration st = 7000).
    { unfold duration, st. rewrite (last_indep _ r r (Reading 0 vzero vzero)).
      change (r :: map (fun k => Reading (t0 + INR k * 10) vzero (Vec 1000 0 0)) (seq 1 700)) with (map (fun k => Reading (t0 + INR k * 10) vzero (Vec 1000 0 0)) (seq 0 (S 700))).
      rewrite stream_end. cbn [rd_time r]. replace (0 + 700)%nat with 700%nat by lia. rewrite INR_IZR_INZ. cbn [INR]. replace (Z.of_nat 700) with 700%Z by reflexivity. lra. }
    assert (Len : (300 < length st)%nat) by (unfold st; cbn [length]; rewrite map_length, seq_length; lia).
    destruct (run c st) as [[c' l']|] eqn:R.
    - exists st, c', l'. split; [discriminate|]. split; [exact Gy|]. split; [exact R|]. left. intros ->.
      refine (C100_moves_on threshold g angle rs0 c l0 10 (Vec 1000 0 0) r _ T0 E0 N1 N2 _ _ _ _ Len _ _ c' R).
      + intros x Hx. cbn [r rd_time INR]. specialize (Ht x Hx). lra.
      + reflexivity.
      + lra.
      + apply (stream_steady 700 0 t0).
      + fold st. rewrite D. lra.
      + fold st. rewrite D. lra.
    - destruct (run_none _ _ R) as (rs1 & x & rs2 & c1 & l1 & Es & R1 & P1).
      assert (E1 : run (icalibrator_new threshold g angle) (rs0 ++ rs1) = Some (c1, l0 ++ l1)) by (rewrite run_app, E0; cbn [bind]; rewrite R1; reflexivity).
      pose proof (proj1 (C100_panics_exactly_after_the_end threshold g angle _ c1 _ x E1) P1) as Fin.
      exists rs1, c1, l1. split; [|split; [|split; [exact R1|right; exact Fin]]].
      + intros ->. cbn [run] in R1. injection R1 as <- <-. tauto.
      + intros y Hy. apply Gy. rewrite Es. apply in_app_iff. left. exact Hy. }
  destruct K as (rest & c' & l' & _ & Gy & R & K).
  assert (E1 : run (icalibrator_new threshold g angle) (rs0 ++ rest) = Some (c', l0 ++ l')) by (rewrite run_app, E0; cbn [bind]; rewrite R; reflexivity).
  destruct K as [NE|Fin].
  - destruct (C100_states_in_order threshold g angle _ _ _ E1) as (tl & Ord).
    assert (LL : (length (l0 ++ l') <= 25)%nat).
    { destruct Ord as [Ord|Ord]; apply (f_equal (@length istate)) in Ord; rewrite app_length in Ord; cbn [length app script static_steps] in Ord; lia. }
    rewrite app_length in LL. assert (0 < length l')%nat by (destruct l'; [contradiction|cbn; lia]).
    destruct (IH (26 - length (l0 ++ l'))%nat) with (rs0 := rs0 ++ rest) (c := c') (l0 := l0 ++ l') as (rs & cf & lf & Ef & Qf & Gf); [rewrite app_length; lia|reflexivity|exact E1|].
    exists (rest ++ rs), cf, lf. rewrite app_assoc. split; [exact Ef|]. split; [exact Qf|]. intros r Hr. apply in_app_iff in Hr. destruct Hr as [Hr|Hr]; [apply Gy|apply Gf]; exact Hr.
  - exists rest, c', (l0 ++ l'). split; [exact E1|]. split; [exact Fin|exact Gy].
Qed.

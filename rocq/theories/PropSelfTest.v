(** * C121: what the flight computer's check of its sensors does and tells *)
From Coq Require Import List Arith Lia Bool.
From Verif Require Import PubSub Indicator PropIndicator SelfTest.
Import ListNotations.
Local Open Scope nat_scope.

(** ** Specification *)
Definition all_reset (b : bench) : Prop := forall s, b (CReset s) = true.
(** the sensors without which the rocket must not fly *)
Definition critical (s : sensor) : Prop := s <> Mag.
Definition critical_read (b : bench) : Prop := forall s, critical s -> b (CRead s) = true.
(** a light that is on for [p] ms and off for [p] ms, from [t0] on *)
Definition blinking (p t0 t : nat) : bool := Nat.even ((t - t0) / p).

Lemma critical_all (P : sensor -> Prop) : P LowG -> P HighG -> P Baro -> forall s, critical s -> P s.
Proof. intros A B C [| | |] H; try assumption. destruct (H eq_refl). Qed.
Lemma resets_ok b : all_reset b -> resets b [LowG; HighG; Baro; Mag] = ([CReset LowG; CReset HighG; CReset Baro; CReset Mag], true).
Proof. intros H. cbn [resets]. rewrite !H. reflexivity. Qed.
Lemma resets_bad b : (exists s, b (CReset s) = false) -> snd (resets b [LowG; HighG; Baro; Mag]) = false.
Proof.
  intros (s & H). cbn [resets]. destruct (b (CReset LowG)) eqn:E1; [|reflexivity]. destruct (b (CReset HighG)) eqn:E2; [|reflexivity].
  destruct (b (CReset Baro)) eqn:E3; [|reflexivity]. destruct (b (CReset Mag)) eqn:E4; [|reflexivity]. destruct s; congruence.
Qed.
Lemma reset_cases b : all_reset b \/ exists s, b (CReset s) = false.
Proof.
  destruct (b (CReset LowG)) eqn:E1; [|eauto]. destruct (b (CReset HighG)) eqn:E2; [|eauto].
  destruct (b (CReset Baro)) eqn:E3; [|eauto]. destruct (b (CReset Mag)) eqn:E4; [|eauto]. left. intros [| | |]; assumption.
Qed.
Lemma start_panics b : (exists s, b (CReset s) = false) -> ends (avionics_start true b) = Panics /\ beeps (avionics_start true b) = [].
Proof.
  intros H. unfold avionics_start, self_test. pose proof (resets_bad b H) as E. destruct (resets b [LowG; HighG; Baro; Mag]) as [cs ok]. cbn [snd] in E. subst ok. split; reflexivity.
Qed.
Lemma start_runs b : all_reset b ->
  avionics_start true b =
  let cs := [CReset LowG; CReset HighG; CReset Baro; CReset Mag; CRead LowG; CRead HighG; CRead Baro; CRead Mag] in
  if b (CRead LowG) && b (CRead HighG) && b (CRead Baro)
  then (if b (CRead Mag) then Startup cs melody_ok Flies else Startup cs melody_partial Flies)
  else Startup cs melody_failed (Blinks (Lights [200; 200] [] [])).
Proof.
  intros H. unfold avionics_start, self_test. rewrite (resets_ok b H). cbv zeta. cbn [app].
  destruct (b (CRead LowG) && b (CRead HighG) && b (CRead Baro)); cbn [negb]; [|reflexivity]. destruct (b (CRead Mag)); reflexivity.
Qed.

(** ** C121 *)
(** The rocket flies exactly if all four sensors could be reset and the critical ones be read. *)
Theorem C121_flies_iff : forall b, ends (avionics_start true b) = Flies <-> all_reset b /\ critical_read b.
Proof.
  intros b. destruct (reset_cases b) as [R|R].
  - rewrite (start_runs b R). cbv zeta. split.
    + intros H. split; [exact R|]. destruct (b (CRead LowG)) eqn:E1; cbn [andb] in H; [|discriminate H]. destruct (b (CRead HighG)) eqn:E2; cbn [andb] in H; [|discriminate H].
      destruct (b (CRead Baro)) eqn:E3; [|discriminate H]. exact (critical_all (fun s => b (CRead s) = true) E1 E2 E3).
    + intros [_ C]. rewrite (C LowG), (C HighG), (C Baro) by (intros X; discriminate X). cbn [andb]. destruct (b (CRead Mag)); reflexivity.
  - rewrite (proj1 (start_panics b R)). split; [discriminate|]. intros [A _]. destruct R as (s & E). rewrite A in E. discriminate E.
Qed.
Print Assumptions C121_flies_iff.

(** Without a flight profile it does not fly, and the sensors are not even touched. *)
Theorem C121_no_profile : forall b, exists l, avionics_start false b = Startup [] [] (Blinks l).
Proof. intros b. eexists. reflexivity. Qed.

(** All sensors are reset before the first is read, and each of these calls is made at most once. *)
Theorem C121_reset_before_read : forall p b, exists l1 l2, calls (avionics_start p b) = map CReset l1 ++ map CRead l2 /\ NoDup l1 /\ NoDup l2 /\
  (l2 <> [] -> (forall s, In s l1) /\ (forall s, In s l2)).
Proof.
  intros [|] b; [|exists [], []; repeat split; try constructor; destruct (H eq_refl)].
  assert (ND : NoDup [LowG; HighG; Baro; Mag]) by (repeat constructor; cbn; intuition discriminate).
  assert (AL : forall s, In s [LowG; HighG; Baro; Mag]) by (intros [| | |]; cbn; auto).
  destruct (reset_cases b) as [R|R].
  - exists [LowG; HighG; Baro; Mag], [LowG; HighG; Baro; Mag]. split; [|auto].
    rewrite (start_runs b R). cbv zeta. destruct (b (CRead LowG) && b (CRead HighG) && b (CRead Baro)); [destruct (b (CRead Mag))|]; reflexivity.
  - assert (E : exists n, calls (avionics_start true b) = map CReset (firstn n [LowG; HighG; Baro; Mag])).
    { pose proof (resets_bad b R) as E. unfold avionics_start, self_test. destruct (resets b [LowG; HighG; Baro; Mag]) as [cs ok] eqn:F. cbn [snd] in E. subst ok. cbn [calls].
      cbn [resets] in F. destruct (b (CReset LowG)); [|injection F as <-; exists 1; reflexivity]. destruct (b (CReset HighG)); [|injection F as <-; exists 2; reflexivity].
      destruct (b (CReset Baro)); [|injection F as <-; exists 3; reflexivity]. destruct (b (CReset Mag)); [discriminate F|]. injection F as <-. exists 4. reflexivity. }
    destruct E as (n & E). exists (firstn n [LowG; HighG; Baro; Mag]), []. split; [cbn [map]; rewrite app_nil_r; exact E|].
    split; [|split; [constructor|intros X; destruct (X eq_refl)]].
    rewrite <- (firstn_skipn n [LowG; HighG; Baro; Mag]) in ND. clear - ND. induction (firstn n [LowG; HighG; Baro; Mag]) as [|x l IH]; [constructor|].
    cbn [app] in ND. inversion ND as [|? ? N1 N2]; subst. constructor; [|apply IH; exact N2]. intros X. apply N1. apply in_or_app. left. exact X.
Qed.

(** If a critical sensor could not be read, the red light blinks and the others stay dark, for ever: over any number of turns. *)
Theorem C121_blinks_red : forall b, all_reset b -> ~ critical_read b ->
  exists l, ends (avionics_start true b) = Blinks l /\
  forall k t0, run_single k (green l) t0 = [] /\ run_single k (blue l) t0 = [] /\
    forall t, t0 <= t < t0 + k * 400 -> commanded (run_single k (red l) t0) t (blinking 200 t0 t).
Proof.
  intros b R C. exists (Lights [200; 200] [] []). split.
  - rewrite (start_runs b R). cbv zeta. destruct (b (CRead LowG) && b (CRead HighG) && b (CRead Baro)) eqn:E; [|reflexivity].
    exfalso. apply C. apply andb_prop in E. destruct E as [E E3]. apply andb_prop in E. destruct E as [E1 E2]. exact (critical_all (fun s => b (CRead s) = true) E1 E2 E3).
  - cbn [red green blue]. intros k t0. split; [destruct k; reflexivity|]. split; [destruct k; reflexivity|].
    revert t0. induction k as [|k IH]; intros t0 t Ht; [lia|].
    change (run_single (S k) [200; 200] t0) with ([Lit true t0 (t0 + 200); Lit false (t0 + 200) (t0 + 200 + 200)] ++ run_single k [200; 200] (t0 + 200 + 200)).
    destruct (Nat.lt_ge_cases t (t0 + 400)) as [L|L].
    + destruct (Nat.lt_ge_cases t (t0 + 200)) as [L2|L2].
      * exists (Lit true t0 (t0 + 200)). split; [left; reflexivity|]. cbn [from until on]. split; [lia|]. unfold blinking. rewrite Nat.div_small by lia. reflexivity.
      * exists (Lit false (t0 + 200) (t0 + 200 + 200)). split; [right; left; reflexivity|]. cbn [from until on]. split; [lia|]. unfold blinking.
        replace (t - t0) with (1 * 200 + (t - t0 - 200)) by lia. rewrite Nat.div_add_l by lia. rewrite Nat.div_small by lia. reflexivity.
    + destruct (IH (t0 + 200 + 200) t) as (x & I & F & O); [lia|]. exists x. split; [apply in_or_app; right; exact I|]. split; [exact F|].
      rewrite O. unfold blinking. replace (t - t0) with (2 * 200 + (t - (t0 + 200 + 200))) by lia. rewrite Nat.div_add_l by lia. rewrite Nat.even_add. cbn [Nat.even]. destruct (Nat.even ((t - (t0 + 200 + 200)) / 200)); reflexivity.
Qed.
Print Assumptions C121_blinks_red.

(** ** What is heard *)
Lemma idle_polls s ts : (forall t, In t ts -> t < free_at s) -> bzrun s (map PollBuzzer ts) = s.
Proof.
  induction ts as [|t ts IH]; intros H; cbn [map]; [reflexivity|]. unfold bzrun in *. cbn [fold_left]. cbn [bzstep].
  assert (E : (free_at s <=? t) = false) by (apply Nat.leb_gt; apply H; left; reflexivity). rewrite E, andb_false_r. apply IH. intros x X. apply H. right. exact X.
Qed.
Lemma bzrun_app s a b : bzrun s (a ++ b) = bzrun (bzrun s a) b.
Proof. apply fold_left_app. Qed.
(** polled every millisecond, the buzzer plays the tones in the queue back to back *)
Fixpoint back_to_back (t : nat) (l : list tone) : list (nat * tone) :=
  match l with [] => [] | x :: l => (t, x) :: back_to_back (t + dur x + silent x) l end.
Lemma plays_queue l : forall now p a, Forall (fun x => 0 < dur x + silent x) l ->
  played (bzrun (BZ l true now p a) (map PollBuzzer (seq now (1 + fold_right (fun x n => dur x + silent x + n) 0 l)))) = p ++ back_to_back now l.
Proof.
  induction l as [|x l IH]; intros now p a F.
  - cbn [fold_right seq map]. unfold bzrun. cbn [Nat.add seq map fold_left bzstep running free_at bq andb]. rewrite Nat.leb_refl. cbn [andb played back_to_back]. rewrite app_nil_r. reflexivity.
  - inversion F as [|? ? F1 F2]; subst. cbn [fold_right back_to_back]. set (n := fold_right _ 0 l) in *.
    replace (1 + (dur x + silent x + n)) with (1 + (dur x + silent x - 1) + (1 + n)) by lia. rewrite seq_app, map_app, bzrun_app.
    change (seq now (1 + (dur x + silent x - 1))) with (now :: seq (S now) (dur x + silent x - 1)). cbn [map].
    assert (E : bzrun (BZ (x :: l) true now p a) (PollBuzzer now :: map PollBuzzer (seq (S now) (dur x + silent x - 1))) = BZ l true (now + dur x + silent x) (p ++ [(now, x)]) a).
    { change (PollBuzzer now :: map PollBuzzer (seq (S now) (dur x + silent x - 1))) with ([PollBuzzer now] ++ map PollBuzzer (seq (S now) (dur x + silent x - 1))). rewrite bzrun_app.
      assert (E : bzrun (BZ (x :: l) true now p a) [PollBuzzer now] = BZ l true (now + dur x + silent x) (p ++ [(now, x)]) a).
      { unfold bzrun. cbn [fold_left bzstep running free_at bq played asked]. rewrite Nat.leb_refl. reflexivity. }
      rewrite E. apply idle_polls. intros t H. apply in_seq in H. cbn [free_at]. lia. }
    rewrite E. replace (now + (1 + (dur x + silent x - 1))) with (now + dur x + silent x) by lia. unfold n. rewrite (IH _ _ _ F2). rewrite <- app_assoc. reflexivity.
Qed.

Lemma publish_all l : forall now q a, length q + length l <= 10 ->
  bzrun (BZ q true now [] a) (map (@Publish) l) = BZ (q ++ l) true now [] (a ++ l).
Proof.
  induction l as [|x l IH]; intros now q a H; cbn [map].
  - rewrite !app_nil_r. reflexivity.
  - unfold bzrun in *. cbn [fold_left bzstep running bq free_at played asked]. unfold publish. cbn [length] in H.
    destruct (length q =? 10) eqn:E; [apply Nat.eqb_eq in E; lia|]. rewrite IH by (rewrite app_length; cbn; lia). rewrite <- !app_assoc. reflexivity.
Qed.
Lemma heard l from : length l <= 10 -> Forall (fun x => 0 < dur x + silent x) l ->
  buzzer_plays from l (seq from (1 + fold_right (fun x n => dur x + silent x + n) 0 l)) = back_to_back from l.
Proof.
  intros L F. unfold buzzer_plays. change (StartBuzzer from :: map (@Publish) l ++ ?p) with ([StartBuzzer from] ++ map (@Publish) l ++ p).
  rewrite !bzrun_app. assert (E : bzrun bz_new [StartBuzzer from] = BZ [] true from [] []) by reflexivity. rewrite E, publish_all by (cbn; lia). cbn [app].
  rewrite plays_queue by exact F. reflexivity.
Qed.

(** Tones, as played by the buzzer task that is polled at least at every millisecond from [from] on. *)
Definition hears (from : nat) (melody : list tone) : list (nat * tone) := buzzer_plays from melody (seq from 801).

(** A working device plays low, low, high, high; one whose magnetometer alone cannot be read flies too, but plays low, low, high, low. *)
Theorem C121_melodies : forall b from, all_reset b -> critical_read b ->
  hears from (beeps (avionics_start true b)) =
  [(from, Tone 2000 50 150); (from + 200, Tone 2000 50 150); (from + 400, Tone 3000 50 150);
   (from + 600, if b (CRead Mag) then Tone 3000 50 150 else Tone 2000 50 150)].
Proof.
  intros b from R C. rewrite (start_runs b R). cbv zeta. rewrite (C LowG), (C HighG), (C Baro) by (intros X; discriminate X). cbn [andb].
  destruct (b (CRead Mag)); cbn [beeps]; unfold hears.
  - change 801 with (1 + fold_right (fun x n => dur x + silent x + n) 0 melody_ok). rewrite heard by (try (cbn; lia); repeat constructor; cbn; lia).
    cbn [back_to_back melody_ok dur silent]. rewrite <- !Nat.add_assoc. reflexivity.
  - change 801 with (1 + fold_right (fun x n => dur x + silent x + n) 0 melody_partial). rewrite heard by (try (cbn; lia); repeat constructor; cbn; lia).
    cbn [back_to_back melody_partial dur silent]. rewrite <- !Nat.add_assoc. reflexivity.
Qed.
Print Assumptions C121_melodies.

(** But a device that failed the check, and will not fly, sounds exactly like one that passed. *)
Theorem C121_refuted_failure_not_heard : forall good bad, all_reset good -> (forall s, good (CRead s) = true) -> all_reset bad -> ~ critical_read bad ->
  ends (avionics_start true good) = Flies /\ ends (avionics_start true bad) <> Flies /\
  forall from ts, buzzer_plays from (beeps (avionics_start true bad)) ts = buzzer_plays from (beeps (avionics_start true good)) ts.
Proof.
  intros good bad R1 C1 R2 C2. split; [apply C121_flies_iff; split; [exact R1|intros s _; apply C1]|]. split; [intros X; apply C121_flies_iff in X; tauto|].
  rewrite (start_runs good R1), (start_runs bad R2). cbv zeta. rewrite !C1. cbn [andb beeps].
  destruct (bad (CRead LowG) && bad (CRead HighG) && bad (CRead Baro)) eqn:E; [|reflexivity].
  exfalso. apply C2. apply andb_prop in E. destruct E as [E E3]. apply andb_prop in E. destruct E as [E1 E2]. exact (critical_all (fun s => bad (CRead s) = true) E1 E2 E3).
Qed.

(** And a magnetometer that cannot be reset, although not needed for the flight, stops the device: it panics, without light or sound. *)
Theorem C121_refuted_magnetometer_stops_it : forall b, b (CReset Mag) = false ->
  ends (avionics_start true b) = Panics /\ beeps (avionics_start true b) = [].
Proof. intros b H. apply start_panics. exists Mag. exact H. Qed.
(** it panics only because of a failed reset *)
Theorem C121_panics_iff : forall p b, ends (avionics_start p b) = Panics <-> p = true /\ ~ all_reset b.
Proof.
  intros [|] b.
  - destruct (reset_cases b) as [R|R].
    + rewrite (start_runs b R). cbv zeta. split; [|intros [_ X]; contradiction]. destruct (b (CRead LowG) && b (CRead HighG) && b (CRead Baro)); [destruct (b (CRead Mag))|]; cbn [ends]; discriminate.
    + split; [|intros _; apply start_panics; exact R]. intros _. split; [reflexivity|]. intros A. destruct R as (s & E). rewrite A in E. discriminate E.
  - split; [discriminate|]. intros [X _]. discriminate X.
Qed.

(** ** Concrete cases: a barometer that does not answer; a magnetometer that does not answer *)
Definition baro_dead (c : drv_call) : bool := match c with CRead Baro => false | _ => true end.
Definition mag_dead (c : drv_call) : bool := match c with CRead Mag => false | _ => true end.
Lemma ex_C121_baro : all_reset baro_dead /\ ~ critical_read baro_dead.
Proof. split; [intros [| | |]; reflexivity|]. intros H. assert (X : critical Baro) by discriminate. specialize (H Baro X). discriminate H. Qed.
Lemma ex_C121_mag : all_reset mag_dead /\ critical_read mag_dead /\ mag_dead (CRead Mag) = false.
Proof. split; [intros [| | |]; reflexivity|]. split; [|reflexivity]. intros [| | |] H; try reflexivity. destruct (H eq_refl). Qed.

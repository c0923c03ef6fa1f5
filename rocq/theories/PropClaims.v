(** * Property C138: no device is claimed twice. *)
From Coq Require Import List Bool Arith Lia.
From Verif Require Import VLP Pyro Claims.
Import ListNotations.
Local Open Scope list_scope.

(** ** Specification *)
(** the pyros of the flight profile or ground-test configuration, when the device gets as far as using them *)
Definition pyros (s : start) : option (pyro * pyro) :=
  match s_config s, s_usb s with
  | Some (Avionics (Some mp) true), false => Some mp
  | Some (GroundTest main drogue _), false => Some (main, drogue)
  | _, _ => None
  end.
(** one of the two is pyro 1 and the other is not *)
Definition one_is_pyro1 (p q : pyro) : Prop := (p = Pyro1 /\ q <> Pyro1) \/ (p <> Pyro1 /\ q = Pyro1).

(** ** Proofs *)
(** a task that takes and releases one device in turn; [b]: it holds it now *)
Fixpoint turns (d : device) (b : bool) (l : list op) : Prop :=
  match l with
  | [] => True
  | Claim e :: l => e = d /\ b = false /\ turns d true l
  | Release e :: l => e = d /\ b = true /\ turns d false l
  end.
Definition all_turns (own : list (device * bool)) (ts : list (list op)) : Prop := Forall2 (fun o t => turns (fst o) (snd o) t) own ts.
Definition owned (own : list (device * bool)) (held : list device) : Prop := forall d b, In (d, b) own -> (In d held <-> b = true).

Lemma set_own : forall own ts i o r, all_turns own ts -> nth_error ts i = Some (o :: r) -> NoDup (map fst own) ->
  exists own1 d b own2, own = own1 ++ (d, b) :: own2 /\ turns d b (o :: r) /\
    forall b', turns d b' r -> all_turns (own1 ++ (d, b') :: own2) (set_task i r ts).
Proof.
  intros own ts i o r H. revert i. induction H as [|[d b] t own ts Ht H IH]; intros i N D; [destruct i; discriminate|].
  destruct i as [|i].
  - injection N as ->. exists [], d, b, own. split; [reflexivity|]. split; [exact Ht|]. intros b' T. cbn. constructor; [exact T|exact H].
  - cbn [map] in D. apply NoDup_cons_iff in D. destruct D as [_ D]. destruct (IH i N D) as (o1 & d' & b' & o2 & -> & T & K).
    exists ((d, b) :: o1), d', b', o2. split; [reflexivity|]. split; [exact T|]. intros b2 T2. cbn. constructor; [exact Ht|exact (K b2 T2)].
Qed.

Lemma no_conflict : forall sched own ts held, all_turns own ts -> NoDup (map fst own) -> owned own held -> together held ts sched <> None.
Proof.
  induction sched as [|i sched IH]; intros own ts held A D O; cbn [together]; [discriminate|].
  destruct (nth_error ts i) as [[|o r]|] eqn:N; [apply (IH own); assumption| |apply (IH own); assumption].
  destruct (set_own own ts i o r A N D) as (o1 & d & b & o2 & -> & T & K).
  assert (D' : forall b', NoDup (map fst (o1 ++ (d, b') :: o2))) by (intro b'; rewrite map_app in *; exact D).
  assert (OD : forall e b', In (e, b') (o1 ++ o2) -> e <> d).
  { intros e b' I ->. rewrite map_app in D. cbn [map fst] in D. apply NoDup_remove_2 in D. apply D. rewrite <- map_app. exact (in_map fst _ _ I). }
  assert (IN : forall e b' x, In (e, b') (o1 ++ (d, x) :: o2) -> (e = d /\ b' = x) \/ In (e, b') (o1 ++ o2)).
  { intros e b' x I. apply in_app_or in I. destruct I as [I|[I|I]]; [right; apply in_or_app; left; exact I|injection I as <- <-; left; split; reflexivity|right; apply in_or_app; right; exact I]. }
  assert (IN2 : forall e b', In (e, b') (o1 ++ o2) -> In (e, b') (o1 ++ (d, b) :: o2)).
  { intros e b' I. apply in_app_or in I. apply in_or_app. destruct I as [I|I]; [left; exact I|right; right; exact I]. }
  assert (HB : In d held <-> b = true) by (apply O, in_or_app; right; left; reflexivity).
  destruct o as [e|e]; cbn [turns] in T; destruct T as (-> & B & T); cbn [op_step].
  - destruct (in_dec device_eq d held) as [X|X]; [apply HB in X; congruence|].
    apply (IH (o1 ++ (d, true) :: o2)); [exact (K true T)|apply D'|]. intros e b' I. destruct (IN e b' true I) as [[-> ->]|J].
    + split; [reflexivity|left; reflexivity].
    + rewrite <- (O e b' (IN2 e b' J)). cbn [In]. pose proof (OD e b' J). intuition congruence.
  - apply (IH (o1 ++ (d, false) :: o2)); [exact (K false T)|apply D'|]. intros e b' I. destruct (IN e b' false I) as [[-> ->]|J].
    + split; [intro X; exfalso; exact (remove_In device_eq held d X)|discriminate].
    + rewrite <- (O e b' (IN2 e b' J)). pose proof (OD e b' J) as NE. split; [intro X; apply in_remove in X; apply X|intro X; apply in_in_remove; assumption].
Qed.

Lemma cont_turns p n : turns (Cont (cont_of p)) false (cont_task p n).
Proof. induction n as [|n IH]; cbn [cont_task turns]; repeat split; assumption. Qed.
Lemma pulse_turns p l : turns (Ctrl (ctrl_of p)) false l -> turns (Ctrl (ctrl_of p)) false (pulse p ++ l).
Proof. intro H. cbn. repeat split. exact H. Qed.
Lemma ctrl_turns p n : turns (Ctrl (ctrl_of p)) false (ctrl_task p n).
Proof. induction n as [|n IH]; cbn [ctrl_task]; [exact I|apply pulse_turns, IH]. Qed.

Lemma boot_ok s : exists held, exec [] (claims base ++ fst (boot s)) = Some held /\ forall d, In d held -> match d with Cont _ | Ctrl _ => False | _ => True end.
Proof.
  destruct s as [[m|] usb]; [destruct m as [[[p q]|] [|]| |p q f|]; destruct usb|]; cbn;
    (eexists; split; [reflexivity|]; intros d H; cbn in H; repeat (destruct H as [<-|H]; [exact I|]); destruct H).
Qed.

(** Whatever the configuration, the flight profile, the USB plug, the outcome of the self test and the schedule of the tasks, no
    claim finds its device taken, if of the two pyros one is pyro 1 and the other not (or no pyros come into play). *)
Theorem C138_no_double_claim_partial : forall s, (forall p q, pyros s = Some (p, q) -> one_is_pyro1 p q) ->
  forall n1 n2 n3 n4 sched, life s n1 n2 n3 n4 sched <> None.
Proof.
  intros s H n1 n2 n3 n4 sched. unfold life. destruct (boot_ok s) as (held & E & F). destruct (boot s) as [b go] eqn:B. cbn [fst] in E. rewrite E.
  destruct (s_config s) as [m|] eqn:C; [|discriminate]. destruct go; [|discriminate].
  assert (FC : forall c, ~ In (Cont c) held) by (intros c X; exact (F _ X)). assert (FT : forall c, ~ In (Ctrl c) held) by (intros c X; exact (F _ X)).
  destruct s as [cfg usb]. cbn [s_config] in C. subst cfg. unfold boot in B. cbn [s_config s_usb] in B. unfold pyros in H. cbn [s_config s_usb] in H.
  destruct m as [[[p q]|] ok| |p q f|]; cbn [tasks]; try (apply (no_conflict sched []); [constructor|constructor|intros ? ? []]).
  - destruct usb; [discriminate B|]. destruct ok; [|discriminate B]. specialize (H p q eq_refl).
    apply (no_conflict sched [(Cont (cont_of p), false); (Cont (cont_of q), false); (Ctrl (ctrl_of p), false); (Ctrl (ctrl_of q), false)]).
    + constructor; [apply cont_turns|]. constructor; [apply cont_turns|]. constructor; [apply ctrl_turns|]. constructor; [apply ctrl_turns|constructor].
    + destruct p, q; try (destruct H as [[H1 H2]|[H1 H2]]; congruence); cbn; repeat constructor; cbn; intuition discriminate.
    + intros d b0 X. split; [|intro Y]; cbn in X; repeat (destruct X as [X|X]; [injection X as <- <-; first [discriminate Y|intro Y; exfalso; first [exact (FC _ Y)|exact (FT _ Y)]]|]); destruct X.
  - destruct usb; [discriminate B|]. specialize (H p q eq_refl). destruct f as [f|].
    + apply (no_conflict sched [(Cont (cont_of p), false); (Cont (cont_of q), false); (Ctrl (ctrl_of f), false)]).
      * constructor; [apply cont_turns|]. constructor; [apply cont_turns|]. constructor; [|constructor]. rewrite <- (app_nil_r (pulse f)). apply pulse_turns. exact I.
      * destruct p, q; try (destruct H as [[H1 H2]|[H1 H2]]; congruence); cbn; repeat constructor; cbn; intuition discriminate.
      * intros d b0 X. split; [|intro Y]; cbn in X; repeat (destruct X as [X|X]; [injection X as <- <-; first [discriminate Y|intro Y; exfalso; first [exact (FC _ Y)|exact (FT _ Y)]]|]); destruct X.
    + apply (no_conflict sched [(Cont (cont_of p), false); (Cont (cont_of q), false); (Ctrl pyro1_ctrl, false)]).
      * constructor; [apply cont_turns|]. constructor; [apply cont_turns|]. constructor; [exact I|constructor].
      * destruct p, q; try (destruct H as [[H1 H2]|[H1 H2]]; congruence); cbn; repeat constructor; cbn; intuition discriminate.
      * intros d b0 X. split; [|intro Y]; cbn in X; repeat (destruct X as [X|X]; [injection X as <- <-; first [discriminate Y|intro Y; exfalso; first [exact (FC _ Y)|exact (FT _ Y)]]|]); destruct X.
Qed.

Lemma pair_some {A B} (a c : A) (b d : B) : Some (a, b) = Some (c, d) -> a = c /\ b = d. Proof. injection 1 as -> ->. split; reflexivity. Qed.
(** With any other pair the device panics as soon as both continuity monitors are polled. *)
Theorem C138_refuted_other_pairs : forall s p q, pyros s = Some (p, q) -> ~ one_is_pyro1 p q ->
  forall n1 n2 n3 n4, life s n1 n2 n3 n4 [0; 1] = None.
Proof.
  intros [[m|] usb] p q H N n1 n2 n3 n4; [|discriminate].
  unfold one_is_pyro1 in N. destruct m as [[[p' q']|] ok| |p' q' f|]; cbn in H; try discriminate; destruct usb; try discriminate; try (destruct ok; [|discriminate]);
    cbn in H; try discriminate H; apply pair_some in H; destruct H as [-> ->]; destruct p, q, n1, n2; try (exfalso; apply N; intuition congruence); reflexivity.
Qed.
(** The claim fails exactly for those pairs. *)
Theorem C138_exactly : forall s, (forall n1 n2 n3 n4 sched, life s n1 n2 n3 n4 sched <> None) <-> (forall p q, pyros s = Some (p, q) -> one_is_pyro1 p q).
Proof.
  intro s. split; [|apply C138_no_double_claim_partial]. intros H p q E.
  assert (X : one_is_pyro1 p q \/ ~ one_is_pyro1 p q) by (unfold one_is_pyro1; destruct p, q; intuition congruence).
  destruct X as [X|X]; [exact X|exfalso]. exact (H _ _ _ _ _ (C138_refuted_other_pairs s p q E X 0 0 0 0)).
Qed.

(** After the start every mode holds the devices it works with. *)
Definition needs (m : mode) : list device :=
  match m with
  | Avionics _ _ => [ArmingSwitch; LowGImu; Barometer; Lora; Camera; CanBus; Indicators]
  | Gcm => [Lora; Indicators]
  | GroundTest _ _ _ => [Lora; Barometer; ArmingSwitch; Indicators; CanBus]
  | VacuumTest => [Indicators; Barometer]
  end.
Definition flies (s : start) : Prop :=
  match s_config s with
  | Some Gcm => True
  | Some (Avionics (Some _) true) | Some (GroundTest _ _ _) | Some VacuumTest => s_usb s = false
  | _ => False
  end.
Theorem C138_modes_get_their_devices : forall s m n1 n2 n3 n4, s_config s = Some m -> flies s ->
  exists held, life s n1 n2 n3 n4 [] = Some held /\ NoDup held /\ incl (needs m ++ [Flash; CrcUnit; Usb; SerialPort; Buzzer; GpsUnit; GpsPps; SysReset]) held.
Proof.
  intros [cfg usb] m n1 n2 n3 n4 C F. cbn in C. subst cfg. unfold flies in F. cbn [s_config s_usb] in F.
  assert (IC : forall a b : list device, forallb (fun x => if in_dec device_eq x b then true else false) a = true -> incl a b).
  { intros a b H x I. rewrite forallb_forall in H. specialize (H x I). destruct (in_dec device_eq x b); [assumption|discriminate]. }
  destruct m as [[[p q]|] [|]| |p q f|]; try contradiction; destruct usb; try discriminate F;
    (eexists; split; [reflexivity|]; split; [repeat constructor; cbn; intuition discriminate|apply IC; reflexivity]).
Qed.

(** the hypotheses are met: pyros 1 (main) and 2, both monitors and both pulses under way *)
Theorem C138_instance : life (Start (Some (Avionics (Some (Pyro1, Pyro2)) true)) false) 2 1 1 1 [0; 1; 2; 3; 3; 0; 0; 2; 2] =
  Some [Ctrl pyro1_ctrl; Cont pyro1_cont; Cont pyro2_cont; CanBus; Camera; Lora; Barometer; LowGImu; ArmingSwitch; Indicators; SysReset; GpsPps; GpsUnit; Buzzer; SerialPort; Usb; CrcUnit; Flash] /\
  pyros (Start (Some (Avionics (Some (Pyro1, Pyro2)) true)) false) = Some (Pyro1, Pyro2) /\ one_is_pyro1 Pyro1 Pyro2.
Proof. split; [reflexivity|]. split; [reflexivity|]. left. split; [reflexivity|discriminate]. Qed.
Print Assumptions C138_exactly.

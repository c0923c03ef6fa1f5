(** * C98: low-power mode of the rocket's radio client *)
From Verif Require Import Base VLP VlpLink.
Import ListNotations.
Local Open Scope nat_scope.
Local Open Scope list_scope.

(** ** Specification *)
(** the mode last commanded by radio: off at first *)
Fixpoint commanded (h : list ev) (m : bool) : bool :=
  match h with
  | [] => m
  | Heard (LowPowerMode _ e) :: h => commanded h e
  | _ :: h => commanded h m
  end.
Definition low_power (s : link) : bool := commanded (history s) false.
(** the rocket transmits telemetry in the next step, or is about to *)
Definition sends_telemetry (s : link) : Prop := exists t, r_pc s = RSend t.
Definition listening (s : link) : Prop := r_pc s = RListen.

Lemma commanded_app a : forall b m, commanded (a ++ b) m = commanded b (commanded a m).
Proof. induction a as [|[p|p k|[]|p|p] a IH]; intros b m; cbn [app commanded]; auto. Qed.
Lemma commanded_quiet a m : (forall p, ~ In (Heard p) a) -> commanded a m = m.
Proof.
  revert m. induction a as [|e a IH]; intros m H; [reflexivity|].
  assert (forall p, ~ In (Heard p) a) by (intros p K; apply (H p); now right).
  destruct e as [p|p k|p|p|p]; cbn [commanded]; auto. exfalso. apply (H p). now left.
Qed.

Definition Inv (s : link) : Prop :=
  r_low s = low_power s /\ (r_low s = true -> match r_pc s with RWaitTx | RSend _ => False | _ => True end).

Lemma inv_frame s s' : r_low s' = r_low s -> r_pc s' = r_pc s -> history s' = history s -> Inv s -> Inv s'.
Proof. unfold Inv, low_power. intros -> -> ->. auto. Qed.
Lemma inv_say s e : (forall p, e <> Heard p) -> Inv s -> Inv (say s e).
Proof.
  unfold Inv, low_power, say. cbn. intros H [A B]. split; [|exact B]. rewrite commanded_app, <- A.
  destruct e as [p|p k|p|p|p]; cbn [commanded]; auto. exfalso. exact (H p eq_refl).
Qed.
Lemma inv_g s pc tx rx dn : Inv s -> Inv (set_g s pc tx rx dn).
Proof. apply inv_frame; reflexivity. Qed.
Lemma inv_gcheck s : Inv s -> Inv (g_check s).
Proof. intros I. unfold g_check. destruct (g_tx s); now apply inv_g. Qed.
Lemma inv_gretry s p i : Inv s -> Inv (g_retry s p i).
Proof. intros I. unfold g_retry. destruct (_ <? _); now apply inv_g. Qed.
Lemma inv_ghear s d s' : g_hear s d = Some s' -> Inv s -> Inv s'.
Proof.
  unfold g_hear. intros E I. destruct (g_pc s); try discriminate.
  - injection E as <-. apply inv_gcheck, inv_g, I.
  - destruct d; injection E as <-; [apply inv_g, I|apply inv_gretry, I].
Qed.
Lemma inv_rhear s p s' : r_hear s p = Some s' -> Inv s -> Inv s'.
Proof.
  unfold r_hear. intros E [A B]. destruct (r_pc s); try discriminate. injection E as <-.
  unfold Inv, low_power, say, set_r. cbn [r_low r_pc history]. rewrite commanded_app. fold (low_power s). rewrite <- A.
  split; [destruct p; reflexivity|auto].
Qed.
Lemma inv_r s pc tx rx : (r_low s = true -> match pc with RWaitTx | RSend _ => False | _ => True end) -> Inv s -> Inv (set_r s pc tx rx (r_low s)).
Proof. intros H [A B]. unfold Inv, low_power, set_r. cbn. auto. Qed.
Lemma loop_low low : low = true -> match r_loop low with RWaitTx | RSend _ => False | _ => True end.
Proof. intros ->. exact Logic.I. Qed.

Lemma inv_step s l s' : step s l = Some s' -> Inv s -> Inv s'.
Proof.
  intros E I. destruct l; cbn [step] in E.
  - destruct (g_caller s); [discriminate|]. injection E as <-. apply inv_say; [discriminate|]. revert I. apply inv_frame; reflexivity.
  - destruct (g_caller s), (g_done s); try discriminate. injection E as <-. apply inv_say; [discriminate|]. revert I. apply inv_frame; reflexivity.
  - destruct (g_pc s); try discriminate. destruct heard.
    + revert E. intros E. eapply inv_rhear; [exact E|]. now apply inv_g.
    + injection E as <-. now apply inv_g.
  - destruct (g_pc s); try discriminate; injection E as <-; [now apply inv_gcheck|now apply inv_gretry].
  - destruct (g_pc s); try discriminate; injection E as <-; [now apply inv_gcheck|now apply inv_gretry].
  - destruct (g_pc s); try discriminate; injection E as <-; now apply inv_g.
  - destruct (g_pc s); try discriminate; injection E as <-; now apply inv_g.
  - injection E as <-. apply inv_r; [exact (proj2 I)|exact I].
  - destruct (r_rx s); [|discriminate]. injection E as <-. apply inv_r; [exact (proj2 I)|exact I].
  - destruct (r_pc s) eqn:P; try discriminate. destruct (r_tx s); [|discriminate]. injection E as <-. apply inv_r; [|exact I].
    intros K. pose proof (proj2 I K) as X. rewrite P in X. exact X.
  - destruct (r_pc s) eqn:P; try discriminate.
    + assert (I1 : Inv (set_r s (if ok then RListen else RDelay) (r_tx s) (r_rx s) (r_low s))) by (apply inv_r; [destruct ok; auto|exact I]).
      destruct heard; [eapply inv_ghear; eassumption|]. now injection E as <-.
    + assert (I1 : Inv (if ok then say (set_r s (r_loop (r_low s)) (r_tx s) (Some p) (r_low s)) (ToApp p)
                        else say (set_r s RDelay (r_tx s) (r_rx s) (r_low s)) (AckFailed p))).
      { destruct ok; (apply inv_say; [discriminate|]); apply inv_r; auto. apply loop_low. }
      destruct heard; [eapply inv_ghear; eassumption|]. now injection E as <-.
  - destruct (r_pc s); try discriminate. injection E as <-. apply inv_r; [apply loop_low|exact I].
  - destruct (r_pc s); try discriminate. injection E as <-. apply inv_r; [apply loop_low|exact I].
  - destruct (r_pc s); try discriminate. injection E as <-. apply inv_r; [auto|exact I].
  - destruct (r_pc s); try discriminate. injection E as <-. apply inv_r; [apply loop_low|exact I].
Qed.

Lemma inv_run ls : forall s s', run s ls = Some s' -> Inv s -> Inv s'.
Proof.
  induction ls as [|l ls IH]; intros s s' E I; cbn [run] in E; [now injection E as <-|].
  destruct (step s l) as [s1|] eqn:E1; [|discriminate]. eapply IH; [exact E|]. eapply inv_step; eassumption.
Qed.
Lemma inv_new : Inv link_new.
Proof. split; [reflexivity|discriminate]. Qed.

(** C98, first half.  On every history: while the last mode command the rocket heard is "on", it neither transmits
    telemetry nor waits for any: it listens, acknowledges, or recovers from a radio error; and a timeout, noise or
    the end of the recovery brings it back to listening. *)
Theorem C98_silent_and_listening : forall ls s, run link_new ls = Some s -> low_power s = true ->
  ~ sends_telemetry s /\ (listening s \/ r_pc s = RDelay \/ exists p, r_pc s = RAck p) /\
  (forall l s', (l = LRTimeout \/ l = LRNoise \/ l = LRWake) -> step s l = Some s' -> listening s').
Proof.
  intros ls s R L. destruct (inv_run ls _ _ R inv_new) as [A B]. rewrite L in A. specialize (B A).
  split; [intros (t & K); rewrite K in B; exact B|]. split.
  - unfold listening. destruct (r_pc s); try contradiction; eauto.
  - intros l s' Hl E. unfold listening. destruct Hl as [->|[->| ->]]; cbn [step] in E; destruct (r_pc s); try discriminate; injection E as <-; cbn; now rewrite A.
Qed.
Print Assumptions C98_silent_and_listening.

(** C98, second half.  Otherwise it listens only right after a transmission of telemetry: an application that sends none
    is deaf, whatever the ground station does. *)
Definition telemetry_offered (l : label) : bool := match l with LTelemetry _ => true | _ => false end.
Lemma deaf_step s l s' : r_pc s = RWaitTx -> r_tx s = None -> telemetry_offered l = false -> step s l = Some s' ->
  r_pc s' = RWaitTx /\ r_tx s' = None /\ (forall p, In (Heard p) (history s') -> In (Heard p) (history s)).
Proof.
  intros P T O E.
  assert (G : forall x y z w, r_pc (set_g s x y z w) = RWaitTx /\ r_tx (set_g s x y z w) = None /\ (forall p, In (Heard p) (history (set_g s x y z w)) -> In (Heard p) (history s))) by (intros; cbn; auto).
  assert (GC : forall s', s' = g_check s -> r_pc s' = RWaitTx /\ r_tx s' = None /\ (forall p, In (Heard p) (history s') -> In (Heard p) (history s))).
  { intros x ->. unfold g_check. destruct (g_tx s); apply G. }
  assert (GR : forall q i s', s' = g_retry s q i -> r_pc s' = RWaitTx /\ r_tx s' = None /\ (forall p, In (Heard p) (history s') -> In (Heard p) (history s))).
  { intros q i x ->. unfold g_retry. destruct (_ <? _); apply G. }
  destruct l; cbn [step] in E; try discriminate O.
  - destruct (g_caller s); [discriminate|]. injection E as <-. cbn. split; [exact P|]. split; [exact T|]. intros q H. apply in_app_or in H. destruct H as [H|[H|[]]]; [exact H|discriminate].
  - destruct (g_caller s), (g_done s); try discriminate. injection E as <-. cbn. split; [exact P|]. split; [exact T|]. intros q H. apply in_app_or in H. destruct H as [H|[H|[]]]; [exact H|discriminate].
  - destruct (g_pc s); try discriminate. destruct heard; [|injection E as <-; apply G].
    unfold r_hear in E. cbn [set_g r_pc] in E. rewrite P in E. discriminate.
  - destruct (g_pc s); try discriminate; injection E as <-; [now apply GC|eapply GR; reflexivity].
  - destruct (g_pc s); try discriminate; injection E as <-; [now apply GC|eapply GR; reflexivity].
  - destruct (g_pc s); try discriminate; injection E as <-; apply G.
  - destruct (g_pc s); try discriminate; injection E as <-; apply G.
  - destruct (r_rx s); [|discriminate]. injection E as <-. cbn. auto.
  - rewrite P, T in E. discriminate.
  - rewrite P in E. discriminate.
  - rewrite P in E. discriminate.
  - rewrite P in E. discriminate.
  - rewrite P in E. discriminate.
  - rewrite P in E. discriminate.
Qed.
Theorem C98_deaf_without_telemetry : forall ls s s', r_pc s = RWaitTx -> r_tx s = None -> Forall (fun l => telemetry_offered l = false) ls ->
  run s ls = Some s' -> forall p, In (Heard p) (history s') -> In (Heard p) (history s).
Proof.
  induction ls as [|l ls IH]; intros s s' P T F E p H; cbn [run] in E; [now injection E as <-|].
  destruct (step s l) as [s1|] eqn:E1; [|discriminate]. inversion F as [|? ? F1 F2]; subst.
  destruct (deaf_step s l s1 P T F1 E1) as (P1 & T1 & H1). apply H1. exact (IH s1 s' P1 T1 F2 E p H).
Qed.
Print Assumptions C98_deaf_without_telemetry.
Corollary C98_deaf_from_boot : forall ls s, Forall (fun l => telemetry_offered l = false) ls -> run link_new ls = Some s -> forall p, ~ In (Heard p) (history s).
Proof. intros ls s F E p H. exact (C98_deaf_without_telemetry ls link_new s eq_refl eq_refl F E p H). Qed.

(** The finding: the mode is switched before the acknowledgement is sent.  When that transmission fails, the client is in
    low-power mode (and telemetry has stopped) although the application was never told. *)
Theorem C98_refuted_application_not_told : forall (t : telemetry) (k : N), exists ls s, run link_new ls = Some s /\
  low_power s = true /\ (forall p, ~ In (ToApp p) (history s)) /\ listening s.
Proof.
  intros t k.
  exists [LTelemetry t; LRStart; LSend (LowPowerMode k true); LRTx true true; LGTx true true; LRTx false false; LRWake].
  eexists. split; [vm_compute; reflexivity|]. split; [vm_compute; reflexivity|]. split; [|vm_compute; reflexivity].
  intros p H. cbn in H. destruct H as [H|[H|[H|[]]]]; discriminate.
Qed.
Print Assumptions C98_refuted_application_not_told.

(** non-vacuity: switching on, a timeout (still listening), and off again, after which telemetry flows *)
Theorem C98_instance : forall (t : telemetry) (k : N), exists s1 s2,
  run link_new [LTelemetry t; LRStart; LSend (LowPowerMode k true); LRTx true true; LGTx true true; LRTx true true; LReturn; LTelemetry t; LRTimeout] = Some s1 /\
  low_power s1 = true /\ listening s1 /\
  run s1 [LSend (LowPowerMode k false); LGTimeout; LGTx true true; LRTx true true; LRStart] = Some s2 /\
  low_power s2 = false /\ sends_telemetry s2.
Proof.
  intros t k. do 2 eexists. split; [vm_compute; reflexivity|]. split; [vm_compute; reflexivity|]. split; [vm_compute; reflexivity|].
  split; [vm_compute; reflexivity|]. split; [vm_compute; reflexivity|]. eexists. vm_compute. reflexivity.
Qed.
Print Assumptions C98_instance.

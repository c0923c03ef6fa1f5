(** * C76, C77, C78: the command link. *)
From Verif Require Import Base VLP VlpLink.
Import ListNotations.
Local Open Scope nat_scope.
Local Open Scope list_scope.

(** ** Specification vocabulary *)
Definition is_sent (e : ev) : bool := match e with Sent _ => true | _ => false end.
Definition is_returned (e : ev) : bool := match e with Returned _ _ => true | _ => false end.
Definition is_heard (e : ev) : bool := match e with Heard _ => true | _ => false end.
Definition is_to_app (e : ev) : bool := match e with ToApp _ => true | _ => false end.
Definition count (f : ev -> bool) (h : list ev) : nat := length (filter f h).
(** no call starts or ends in [b] *)
Definition quiet (b : list ev) : Prop := Forall (fun e => is_sent e = false /\ is_returned e = false) b.

(** The rocket answers a command before anything else happens on either machine
    (in time: the acknowledgement leaves within the ground station's 100-symbol window). *)
Fixpoint prompt (s : link) (ls : list label) : Prop :=
  match ls with
  | [] => True
  | l :: ls => (forall p, r_pc s = RAck p -> exists ok heard, l = LRTx ok heard) /\
               match step s l with Some s => prompt s ls | None => True end
  end.

(** ** Basic facts *)
Lemma run_app s ls1 ls2 : run s (ls1 ++ ls2) = match run s ls1 with Some s => run s ls2 | None => None end.
Proof. revert s. induction ls1 as [|l ls1 IH]; intros s; cbn; [reflexivity|]. destruct (step s l); [apply IH | reflexivity]. Qed.

Lemma count_app f a b : count f (a ++ b) = count f a + count f b.
Proof. unfold count. rewrite filter_app, app_length. reflexivity. Qed.

Lemma run_ind (P : link -> Prop) : P link_new -> (forall s l s', P s -> step s l = Some s' -> P s') ->
  forall ls s, run link_new ls = Some s -> P s.
Proof.
  intros H0 HS ls. assert (G : forall ls s0 s, P s0 -> run s0 ls = Some s -> P s).
  { clear ls. intros ls. induction ls as [|l ls IH]; intros s0 s HP R; cbn in R; [congruence|].
    destruct (step s0 l) as [s1|] eqn:E; [|discriminate]. eapply IH; [eapply HS; [exact HP|exact E] | exact R]. }
  intros s R. eapply G; [exact H0 | exact R].
Qed.

Definition idle_pc (g : gpc) : Prop := g = GListen \/ g = GDelay.

(** ** Invariants of every run *)
Definition budget (tx : option uplink) (pc : gpc) : nat :=
  (match tx with Some _ => 5 | None => 0 end) + (match pc with GTx _ i => 5 - i | GAck _ i => 4 - i | _ => 0 end).

Record ginv (pc : gpc) (tx : option uplink) (dn : option bool) (caller : option uplink) (h : list ev) : Prop := {
  iv_idle : caller = None -> tx = None /\ dn = None /\ idle_pc pc;
  iv_caller : forall p, caller = Some p -> exists a b, h = a ++ Sent p :: b /\ quiet b /\
     (forall q, In (Heard q) b -> q = p) /\ count is_heard b + budget tx pc <= 5;
  iv_tx : forall q, tx = Some q -> caller = Some q /\ dn = None /\ idle_pc pc;
  iv_pc : forall q i, pc = GTx q i \/ pc = GAck q i -> caller = Some q /\ tx = None /\ dn = None /\ i < 5;
  iv_done : forall r, dn = Some r -> tx = None /\ idle_pc pc /\ caller <> None
}.

Record hinv (h : list ev) : Prop := {
  iv_since : forall a p b, h = a ++ Sent p :: b -> Forall (fun e => is_sent e = false) b ->
     count is_heard b <= 5 /\ (forall q, In (Heard q) b -> q = p);
  iv_heard : forall a q b, h = a ++ Heard q :: b -> In (Sent q) a;
  iv_app : forall a q b, h = a ++ ToApp q :: b -> In (Heard q) a }.

Record rinv (pc : rpc) (h : list ev) : Prop := {
  iv_ack : forall q, pc = RAck q -> In (Heard q) h;
  iv_count : count is_to_app h + (match pc with RAck _ => 1 | _ => 0 end) <= count is_heard h }.

Definition inv (s : link) : Prop :=
  ginv (g_pc s) (g_tx s) (g_done s) (g_caller s) (history s) /\ hinv (history s) /\ rinv (r_pc s) (history s).

(** splitting an extended history *)
Lemma app_snoc_inv {A} (h : list A) e a x b : h ++ [e] = a ++ x :: b ->
  (exists b', b = b' ++ [e] /\ h = a ++ x :: b') \/ (b = [] /\ a = h /\ x = e).
Proof.
  intros H. destruct b as [|y b] using rev_ind.
  - right. apply app_inj_tail in H. destruct H as [-> ->]. repeat split.
  - clear IHb. left. exists b. rewrite app_comm_cons, app_assoc in H. apply app_inj_tail in H. destruct H as [-> ->]. split; reflexivity.
Qed.

Lemma since_unique (h a a' : list ev) p p' b b' : h = a ++ Sent p :: b -> h = a' ++ Sent p' :: b' ->
  Forall (fun e => is_sent e = false) b -> Forall (fun e => is_sent e = false) b' -> a = a' /\ p = p' /\ b = b'.
Proof.
  intros H H' F F'. subst h. revert b b' a' H' F F'. induction a as [|x a IH]; intros b b' a' H' F F'.
  - destruct a' as [|y a']; cbn in H'.
    + injection H' as -> ->. repeat split.
    + exfalso. injection H' as _ H'. rewrite Forall_forall in F.
      assert (is_sent (Sent p') = false) by (apply F; rewrite H'; apply in_or_app; right; left; reflexivity). discriminate.
  - destruct a' as [|y a']; cbn in H'.
    + exfalso. injection H' as _ H'. rewrite Forall_forall in F'.
      assert (is_sent (Sent p) = false) by (apply F'; rewrite <- H'; apply in_or_app; right; left; reflexivity). discriminate.
    + injection H' as -> H'. destruct (IH b b' a' H' F F') as [-> [-> ->]]. repeat split.
Qed.

Lemma quiet_no_sent b : quiet b -> Forall (fun e => is_sent e = false) b.
Proof. unfold quiet. rewrite !Forall_forall. intros H e I. apply H. exact I. Qed.

Lemma quiet_snoc b e : quiet b -> is_sent e = false -> is_returned e = false -> quiet (b ++ [e]).
Proof. intros Q A B. apply Forall_app. split; [exact Q | repeat constructor; assumption]. Qed.

Lemma inv_new : inv link_new.
Proof.
  split; [|split]; constructor; cbn; intros; try discriminate; try lia; try (destruct H; discriminate);
    try (destruct a; discriminate).
  repeat split; left; reflexivity.
Qed.

Ltac idle := first [left; reflexivity | right; reflexivity | assumption].

Lemma ginv_idle_pc pc pc' tx dn c h : idle_pc pc -> idle_pc pc' -> ginv pc tx dn c h -> ginv pc' tx dn c h.
Proof.
  intros I I' [A B C D E]. constructor.
  - intros Hc. destruct (A Hc) as [? [? _]]. repeat split; assumption.
  - intros p Hc. destruct (B p Hc) as [a [b [H [Q [Hq Hb]]]]]. exists a, b. split; [exact H|split; [exact Q|split; [exact Hq|]]].
    unfold budget in *. destruct I' as [-> | ->]; destruct I as [-> | ->]; exact Hb.
  - intros q Ht. destruct (C q Ht) as [? [? _]]. repeat split; assumption.
  - intros q i [-> | ->]; destruct I' as [X | X]; discriminate X.
  - intros r Hr. destruct (E r Hr) as [? [_ ?]]. repeat split; assumption.
Qed.

Lemma ginv_check tx dn c h : ginv GListen tx dn c h ->
  ginv (match tx with Some p => GTx p 0 | None => GListen end) None dn c h.
Proof.
  intros [A B C D E]. destruct tx as [p|]; [|constructor; assumption].
  destruct (C p eq_refl) as [-> [-> _]]. constructor.
  - discriminate.
  - intros q Hc. destruct (B q Hc) as [a [b [H [Q [Hq Hb]]]]]. exists a, b. split; [exact H|split; [exact Q|split; [exact Hq|]]].
    unfold budget in *. lia.
  - discriminate.
  - intros q i [X | X]; [injection X as <- <- | discriminate]. repeat split. lia.
  - discriminate.
Qed.

Lemma ginv_retry p i tx dn c h : ginv (GAck p i) tx dn c h ->
  ginv (if S i <? MAX_ATTEMPTS then GTx p (S i) else GListen) tx (if S i <? MAX_ATTEMPTS then dn else Some false) c h.
Proof.
  intros [A B C D E]. destruct (D p i (or_intror eq_refl)) as [-> [-> [-> Hi]]]. unfold MAX_ATTEMPTS.
  destruct (S i <? 5) eqn:L; [apply Nat.ltb_lt in L | apply Nat.ltb_ge in L]; constructor.
  - discriminate.
  - intros q Hc. destruct (B q Hc) as [a [b [H [Q [Hq Hb]]]]]. exists a, b. split; [exact H|split; [exact Q|split; [exact Hq|]]].
    unfold budget in *. lia.
  - discriminate.
  - intros q j [X | X]; [injection X as <- <- | discriminate]. repeat split. lia.
  - discriminate.
  - discriminate.
  - intros q Hc. destruct (B q Hc) as [a [b [H [Q [Hq Hb]]]]]. exists a, b. split; [exact H|split; [exact Q|split; [exact Hq|]]].
    unfold budget in *. lia.
  - discriminate.
  - intros q j [X | X]; discriminate.
  - intros r _. repeat split; [idle | discriminate].
Qed.

Lemma ginv_acked p i tx dn c h : ginv (GAck p i) tx dn c h -> ginv GListen tx (Some true) c h.
Proof.
  intros [A B C D E]. destruct (D p i (or_intror eq_refl)) as [-> [-> [-> Hi]]]. constructor.
  - discriminate.
  - intros q Hc. destruct (B q Hc) as [a [b [H [Q [Hq Hb]]]]]. exists a, b. split; [exact H|split; [exact Q|split; [exact Hq|]]].
    unfold budget in *. lia.
  - discriminate.
  - intros q j [X | X]; discriminate.
  - intros r _. repeat split; [idle | discriminate].
Qed.

Lemma ginv_tx p i pc tx dn c h : ginv (GTx p i) tx dn c h -> pc = GAck p i \/ pc = GDelay -> ginv pc tx dn c h.
Proof.
  intros [A B C D E] P. destruct (D p i (or_introl eq_refl)) as [-> [-> [-> Hi]]]. constructor.
  - discriminate.
  - intros q Hc. destruct (B q Hc) as [a [b [H [Q [Hq Hb]]]]]. exists a, b. split; [exact H|split; [exact Q|split; [exact Hq|]]].
    unfold budget in *. destruct P as [-> | ->]; lia.
  - discriminate.
  - intros q j X. destruct P as [-> | ->]; destruct X as [X | X]; try discriminate. injection X as <- <-. repeat split. lia.
  - discriminate.
Qed.

(** losing the command to a radio error *)
Lemma ginv_lost p i tx dn c h : ginv (GAck p i) tx dn c h -> ginv GDelay tx dn c h.
Proof.
  intros [A B C D E]. destruct (D p i (or_intror eq_refl)) as [-> [-> [-> Hi]]]. constructor.
  - discriminate.
  - intros q Hc. destruct (B q Hc) as [a [b [H [Q [Hq Hb]]]]]. exists a, b. split; [exact H|split; [exact Q|split; [exact Hq|]]].
    unfold budget in *. lia.
  - discriminate.
  - intros q j [X | X]; discriminate.
  - discriminate.
Qed.

Lemma ginv_heard p i pc tx dn c h : ginv (GTx p i) tx dn c h -> pc = GAck p i \/ pc = GDelay -> ginv pc tx dn c (h ++ [Heard p]).
Proof.
  intros [A B C D E] P. destruct (D p i (or_introl eq_refl)) as [-> [-> [-> Hi]]]. constructor.
  - discriminate.
  - intros q Hc. destruct (B q Hc) as [a [b [H [Q [Hq Hb]]]]]. exists a, (b ++ [Heard p]). subst h.
    rewrite <- app_assoc. repeat split.
    + apply quiet_snoc; [exact Q | reflexivity | reflexivity].
    + intros r Hr. apply in_app_or in Hr. destruct Hr as [Hr | [Hr | []]]; [apply Hq; exact Hr | congruence].
    + rewrite count_app. unfold budget, count in *. cbn [filter is_heard length] in *. destruct P as [-> | ->]; lia.
  - discriminate.
  - intros q j X. destruct P as [-> | ->]; destruct X as [X | X]; try discriminate. injection X as <- <-. repeat split. lia.
  - discriminate.
Qed.

Lemma ginv_say e pc tx dn c h : is_sent e = false -> is_returned e = false -> is_heard e = false ->
  ginv pc tx dn c h -> ginv pc tx dn c (h ++ [e]).
Proof.
  intros S R K [A B C D E]. constructor; try assumption.
  intros q Hc. destruct (B q Hc) as [a [b [H [Q [Hq Hb]]]]]. exists a, (b ++ [e]). subst h.
  rewrite <- app_assoc. repeat split.
  - apply quiet_snoc; assumption.
  - intros r Hr. apply in_app_or in Hr. destruct Hr as [Hr | [Hr | []]]; [apply Hq; exact Hr | subst e; discriminate].
  - rewrite count_app. unfold count in *. cbn [filter]. rewrite K. cbn [length]. lia.
Qed.

Lemma ginv_send p pc tx dn h : ginv pc tx dn None h -> ginv pc (Some p) dn (Some p) (h ++ [Sent p]).
Proof.
  intros [A B C D E]. destruct (A eq_refl) as [-> [-> I]]. constructor.
  - discriminate.
  - intros q [= <-]. exists h, []. repeat split.
    + constructor.
    + intros q [].
    + unfold budget. destruct I as [-> | ->]; cbn; lia.
  - intros q [= <-]. repeat split. exact I.
  - intros q i [-> | ->]; destruct I; discriminate.
  - discriminate.
Qed.

Lemma ginv_return p a pc tx h : ginv pc tx (Some a) (Some p) h -> ginv pc tx None None (h ++ [Returned p a]).
Proof.
  intros [A B C D E]. destruct (E a eq_refl) as [-> [I _]]. constructor.
  - intros _. repeat split. exact I.
  - discriminate.
  - discriminate.
  - intros q i [-> | ->]; destruct I; discriminate.
  - discriminate.
Qed.

Lemma hinv_say e h : is_sent e = false -> is_heard e = false -> is_to_app e = false -> hinv h -> hinv (h ++ [e]).
Proof.
  intros S H A [P Q R]. constructor.
  - intros a p b E F. apply app_snoc_inv in E. destruct E as [[b' [-> E]] | [-> [-> X]]]; [|subst e; discriminate].
    apply Forall_app in F. destruct F as [F _]. destruct (P a p b' E F) as [X Y]. split.
    + rewrite count_app. unfold count in *. cbn [filter]. rewrite H. cbn [length]. lia.
    + intros q I. apply in_app_or in I. destruct I as [I | [I | []]]; [apply Y; exact I | subst e; discriminate].
  - intros a q b E. apply app_snoc_inv in E. destruct E as [[b' [-> E]] | [-> [-> X]]]; [|subst e; discriminate]. eapply Q; exact E.
  - intros a q b E. apply app_snoc_inv in E. destruct E as [[b' [-> E]] | [-> [-> X]]]; [|subst e; discriminate]. eapply R; exact E.
Qed.

Lemma hinv_send p h : hinv h -> hinv (h ++ [Sent p]).
Proof.
  intros [P Q R]. constructor.
  - intros a p' b E F. apply app_snoc_inv in E. destruct E as [[b' [-> E]] | [-> [-> X]]].
    + apply Forall_app in F. destruct F as [_ F]. inversion F. discriminate.
    + split; [cbn; lia | intros q []].
  - intros a q b E. apply app_snoc_inv in E. destruct E as [[b' [-> E]] | [-> [-> E]]]; [|discriminate]. eapply Q; exact E.
  - intros a q b E. apply app_snoc_inv in E. destruct E as [[b' [-> E]] | [-> [-> E]]]; [|discriminate]. eapply R; exact E.
Qed.

Lemma hinv_heard p i tx dn c h : ginv (GTx p i) tx dn c h -> hinv h -> hinv (h ++ [Heard p]).
Proof.
  intros [A B C D E] [P Q R]. destruct (D p i (or_introl eq_refl)) as [Hc [-> [-> Hi]]].
  destruct (B p Hc) as [a0 [b0 [H [Qb [Hq Hb]]]]]. constructor.
  - intros a p' b E' F. apply app_snoc_inv in E'. destruct E' as [[b' [-> E']] | [_ [_ X]]]; [|discriminate].
    apply Forall_app in F. destruct F as [F _].
    destruct (since_unique h a a0 p' p b' b0 E' H F (quiet_no_sent _ Qb)) as [-> [-> ->]]. split.
    + rewrite count_app. unfold budget, count in *. cbn [filter is_heard length] in *. lia.
    + intros q I. apply in_app_or in I. destruct I as [I | [I | []]]; [apply Hq; exact I | congruence].
  - intros a q b E'. apply app_snoc_inv in E'. destruct E' as [[b' [-> E']] | [-> [-> X]]]; [eapply Q; exact E'|].
    injection X as ->. rewrite H. apply in_or_app. right. left. reflexivity.
  - intros a q b E'. apply app_snoc_inv in E'. destruct E' as [[b' [-> E']] | [-> [-> X]]]; [|discriminate]. eapply R; exact E'.
Qed.

Lemma hinv_app p h : In (Heard p) h -> hinv h -> hinv (h ++ [ToApp p]).
Proof.
  intros I [P Q R]. constructor.
  - intros a p' b E F. apply app_snoc_inv in E. destruct E as [[b' [-> E]] | [-> [-> X]]]; [|discriminate].
    apply Forall_app in F. destruct F as [F _]. destruct (P a p' b' E F) as [X Y]. split.
    + rewrite count_app. unfold count in *. cbn [filter is_heard length]. lia.
    + intros q J. apply in_app_or in J. destruct J as [J | [J | []]]; [apply Y; exact J | discriminate].
  - intros a q b E. apply app_snoc_inv in E. destruct E as [[b' [-> E]] | [-> [-> X]]]; [|discriminate]. eapply Q; exact E.
  - intros a q b E. apply app_snoc_inv in E. destruct E as [[b' [-> E]] | [-> [-> X]]]; [eapply R; exact E|].
    injection X as ->. exact I.
Qed.

Lemma rinv_say e pc h : is_to_app e = false -> is_heard e = false -> rinv pc h -> rinv pc (h ++ [e]).
Proof.
  intros A H [P Q]. constructor.
  - intros q E. apply in_or_app. left. apply P. exact E.
  - rewrite !count_app. unfold count in *. cbn [filter]. rewrite A, H. cbn [length]. lia.
Qed.

Lemma rinv_pc pc pc' h : (forall q, pc' <> RAck q) -> rinv pc h -> rinv pc' h.
Proof.
  intros N [P Q]. constructor.
  - intros q E. destruct (N q E).
  - destruct pc'; try lia. destruct (N p eq_refl).
Qed.

Lemma r_loop_not_ack low q : r_loop low <> RAck q.
Proof. destruct low; discriminate. Qed.

Lemma inv_g_hear s d s' : inv s -> g_hear s d = Some s' -> inv s' /\ history s' = history s /\ r_pc s' = r_pc s.
Proof.
  intros [G [H R]] E. unfold g_hear in E. destruct (g_pc s) as [|p i|p i|] eqn:Epc; try discriminate.
  - injection E as <-. pose proof (ginv_check _ _ _ _ G) as K. unfold g_check. cbn [g_tx set_g].
    destruct (g_tx s); (split; [split; [|split]|split]); cbn; first [exact K | exact H | exact R | reflexivity].
  - destruct d; injection E as <-.
    + pose proof (ginv_acked _ _ _ _ _ _ G) as K. (split; [split; [|split]|split]); cbn; first [exact K | exact H | exact R | reflexivity].
    + pose proof (ginv_retry _ _ _ _ _ _ G) as K. unfold g_retry. destruct (S i <? MAX_ATTEMPTS);
      (split; [split; [|split]|split]); cbn; first [exact K | exact H | exact R | reflexivity].
Qed.

Lemma inv_step s l s' : inv s -> step s l = Some s' -> inv s'.
Proof.
  intros I E. assert (I0 := I). destruct I as [G [H R]]. destruct l; cbn [step] in E.
  - destruct (g_caller s) eqn:Ec; [discriminate|]. injection E as <-. split; [|split]; cbn.
    + apply ginv_send with (1 := G).
    + apply hinv_send. exact H.
    + apply rinv_say; [reflexivity | reflexivity | exact R].
  - destruct (g_caller s) as [p|] eqn:Ec; [|discriminate]. destruct (g_done s) as [a|] eqn:Ed; [|discriminate].
    injection E as <-. split; [|split]; cbn.
    + apply ginv_return with (1 := G).
    + apply hinv_say; try reflexivity. exact H.
    + apply rinv_say; [reflexivity | reflexivity | exact R].
  - destruct (g_pc s) as [|p i|p i|] eqn:Epc; try discriminate.
    assert (P : (if ok then GAck p i else GDelay) = GAck p i \/ (if ok then GAck p i else GDelay) = GDelay) by (destruct ok; tauto).
    destruct heard.
    + unfold r_hear in E. cbn [r_pc set_g] in E. destruct (r_pc s) eqn:Er; try discriminate. injection E as <-.
      split; [|split]; cbn.
      * eapply ginv_heard; [exact G | exact P].
      * eapply hinv_heard; [exact G | exact H].
      * destruct R as [R1 R2]. constructor.
        -- intros q [= ->]. apply in_or_app. right. left. reflexivity.
        -- rewrite !count_app. unfold count in *. cbn [filter is_to_app is_heard length]. lia.
    + injection E as <-. split; [|split]; cbn; [eapply ginv_tx; [exact G | exact P] | exact H | exact R].
  - destruct (g_pc s) as [|p i|p i|] eqn:Epc; try discriminate; injection E as <-.
    + pose proof (ginv_check _ _ _ _ G) as K. unfold g_check. destruct (g_tx s); split; [|split| |split]; cbn; first [exact K | exact H | exact R].
    + pose proof (ginv_retry _ _ _ _ _ _ G) as K. unfold g_retry. destruct (S i <? MAX_ATTEMPTS); split; [|split| |split]; cbn; first [exact K | exact H | exact R].
  - destruct (g_pc s) as [|p i|p i|] eqn:Epc; try discriminate; injection E as <-.
    + pose proof (ginv_check _ _ _ _ G) as K. unfold g_check. destruct (g_tx s); split; [|split| |split]; cbn; first [exact K | exact H | exact R].
    + pose proof (ginv_retry _ _ _ _ _ _ G) as K. unfold g_retry. destruct (S i <? MAX_ATTEMPTS); split; [|split| |split]; cbn; first [exact K | exact H | exact R].
  - destruct (g_pc s) as [|p i|p i|] eqn:Epc; try discriminate; injection E as <-; (split; [|split]); cbn; try assumption.
    + eapply ginv_idle_pc; [| |exact G]; idle.
    + eapply ginv_lost; exact G.
  - destruct (g_pc s) eqn:Epc; try discriminate. injection E as <-. split; [|split]; cbn; try assumption.
    eapply ginv_idle_pc; [| |exact G]; idle.
  - injection E as <-. exact I0.
  - destruct (r_rx s); [|discriminate]. injection E as <-. exact I0.
  - destruct (r_pc s) eqn:Er; try discriminate. destruct (r_tx s); [|discriminate]. injection E as <-.
    split; [|split]; cbn; try assumption. eapply rinv_pc; [|exact R]. discriminate.
  - destruct (r_pc s) as [|d| |p|] eqn:Er; try discriminate.
    + assert (I1 : inv (set_r s (if ok then RListen else RDelay) (r_tx s) (r_rx s) (r_low s))).
      { split; [|split]; cbn; try assumption. eapply rinv_pc; [|exact R]. destruct ok; discriminate. }
      destruct heard; [|injection E as <-; exact I1]. eapply inv_g_hear; [exact I1 | exact E].
    + match type of E with (if heard then g_hear ?x _ else _) = _ => assert (I1 : inv x) end.
      { destruct R as [R1 R2]. specialize (R1 p eq_refl). destruct ok; (split; [|split]); cbn.
        - apply ginv_say; try reflexivity. exact G.
        - apply hinv_app; assumption.
        - constructor.
          + intros q X. destruct (r_loop_not_ack _ _ X).
          + rewrite !count_app. unfold count in *. cbn [filter is_to_app is_heard length]. destruct (r_low s); cbn [r_loop]; lia.
        - apply ginv_say; try reflexivity. exact G.
        - apply hinv_say; try reflexivity. exact H.
        - constructor; [discriminate|]. rewrite !count_app. unfold count in *. cbn [filter is_to_app is_heard length]. lia. }
      destruct heard; [|injection E as <-; exact I1]. eapply inv_g_hear; [exact I1 | exact E].
  - destruct (r_pc s) eqn:Er; try discriminate. injection E as <-.
    split; [|split]; cbn; try assumption. eapply rinv_pc; [|exact R]. intros q. apply r_loop_not_ack.
  - destruct (r_pc s) eqn:Er; try discriminate. injection E as <-.
    split; [|split]; cbn; try assumption. eapply rinv_pc; [|exact R]. intros q. apply r_loop_not_ack.
  - destruct (r_pc s) eqn:Er; try discriminate. injection E as <-.
    split; [|split]; cbn; try assumption. eapply rinv_pc; [|exact R]. discriminate.
  - destruct (r_pc s) eqn:Er; try discriminate. injection E as <-.
    split; [|split]; cbn; try assumption. eapply rinv_pc; [|exact R]. intros q. apply r_loop_not_ack.
Qed.

Lemma inv_run ls s : run link_new ls = Some s -> inv s.
Proof. apply (run_ind inv inv_new). intros s0 l s'. apply inv_step. Qed.

(** ** C78 *)
(** Whatever the radio does, every command the rocket's client decodes, and every
    command it hands to the application, was sent from the ground before. *)
Theorem C78_no_invented_commands : forall ls s, run link_new ls = Some s ->
  (forall a p b, history s = a ++ Heard p :: b -> In (Sent p) a) /\
  (forall a p b, history s = a ++ ToApp p :: b -> In (Sent p) a).
Proof.
  intros ls s E. apply inv_run in E. destruct E as [_ [[_ Q R] _]]. split; [exact Q|].
  intros a p b X. apply R in X as Y. apply in_split in Y. destruct Y as [a1 [a2 ->]].
  rewrite <- app_assoc in X. cbn in X. apply Q in X. apply in_or_app. left. exact X.
Qed.

(** Since the latest [send(p)] only [p] has been decoded, at most five times; and
    the application never gets more commands than were decoded. *)
Theorem C78_at_most_five_partial : forall ls s, run link_new ls = Some s ->
  (forall a p b, history s = a ++ Sent p :: b -> Forall (fun e => is_sent e = false) b ->
     count is_heard b <= 5 /\ (forall q, In (Heard q) b -> q = p)) /\
  count is_to_app (history s) <= count is_heard (history s).
Proof.
  intros ls s E. apply inv_run in E. destruct E as [_ [[P _ _] [_ R]]]. split; [exact P | lia].
Qed.

(** ** C76 *)
(** [p] was sent, no other call has started or ended since, and the rocket decoded [p] *)
Definition got (h : list ev) (p : uplink) : Prop :=
  exists a b, h = a ++ Sent p :: b /\ quiet b /\ In (Heard p) b.
(** ... and either handed it to its application or was told by its radio that the acknowledgement failed *)
Definition answered (h : list ev) (p : uplink) : Prop :=
  exists a b, h = a ++ Sent p :: b /\ quiet b /\ In (Heard p) b /\ (In (ToApp p) b \/ In (AckFailed p) b).

Record pinv (s : link) : Prop := {
  pv_inv : inv s;
  pv_ack : forall q, r_pc s = RAck q -> g_caller s = Some q /\ g_done s = None /\ (g_pc s = GDelay \/ exists i, g_pc s = GAck q i) /\ got (history s) q;
  pv_done : forall p, g_done s = Some true -> g_caller s = Some p -> answered (history s) p;
  pv_past : forall pre p post, history s = pre ++ Returned p true :: post -> answered pre p }.

Lemma past_say (h : list ev) e : (forall p r, e <> Returned p r) ->
  (forall pre p post, h = pre ++ Returned p true :: post -> answered pre p) ->
  forall pre p post, h ++ [e] = pre ++ Returned p true :: post -> answered pre p.
Proof.
  intros N K pre p post E. apply app_snoc_inv in E. destruct E as [[b' [-> E]] | [-> [-> X]]]; [eapply K; exact E|].
  subst e. destruct (N p true eq_refl).
Qed.

Lemma g_hear_fields s d s' : g_hear s d = Some s' -> history s' = history s /\ r_pc s' = r_pc s /\ g_caller s' = g_caller s /\
  (g_done s' = Some true -> g_done s = Some true \/ (exists t, d = Ack t) /\ exists p i, g_pc s = GAck p i).
Proof.
  unfold g_hear. destruct (g_pc s) as [|p i|p i|]; try discriminate.
  - intros [= <-]. unfold g_check. cbn. destruct (g_tx s); cbn; auto.
  - destruct d; intros [= <-].
    + cbn. repeat split. intros _. right. split; [eexists; reflexivity | eauto].
    + unfold g_retry. destruct (S i <? MAX_ATTEMPTS); cbn; repeat split; auto. discriminate.
Qed.

Lemma answered_say h p e : is_sent e = false -> is_returned e = false -> answered h p -> answered (h ++ [e]) p.
Proof.
  intros A B [a [b [-> [Q [H K]]]]]. exists a, (b ++ [e]). rewrite <- app_assoc. repeat split.
  - apply quiet_snoc; assumption.
  - apply in_or_app. left. exact H.
  - destruct K; [left | right]; apply in_or_app; left; assumption.
Qed.

Lemma g_check_fields s : history (g_check s) = history s /\ r_pc (g_check s) = r_pc s /\ g_caller (g_check s) = g_caller s /\ g_done (g_check s) = g_done s.
Proof. unfold g_check. destruct (g_tx s); repeat split. Qed.
Lemma g_retry_fields s p i : history (g_retry s p i) = history s /\ r_pc (g_retry s p i) = r_pc s /\ g_caller (g_retry s p i) = g_caller s /\
  (g_done (g_retry s p i) = Some true -> g_done s = Some true).
Proof. unfold g_retry. destruct (S i <? MAX_ATTEMPTS); repeat split; cbn; auto. discriminate. Qed.

(** steps that change neither the history, the caller nor make the call succeed *)
Lemma pinv_same s s' : pinv s -> inv s' -> (forall q, r_pc s <> RAck q) -> (forall q, r_pc s' <> RAck q) ->
  history s' = history s -> g_caller s' = g_caller s -> (g_done s' = Some true -> g_done s = Some true) -> pinv s'.
Proof.
  intros [I A D P] I' N N' Hh Hc Hd. constructor.
  - exact I'.
  - intros q X. destruct (N' q X).
  - rewrite Hh, Hc. intros p X Y. apply D; [apply Hd; exact X | exact Y].
  - rewrite Hh. exact P.
Qed.

Lemma pinv_step s l s' : pinv s -> (forall p, r_pc s = RAck p -> exists ok heard, l = LRTx ok heard) -> step s l = Some s' -> pinv s'.
Proof.
  intros PI Hp E. assert (I' := inv_step s l s' (pv_inv s PI) E). assert (PI0 := PI). destruct PI as [I A D P].
  assert (N : (forall ok heard, l <> LRTx ok heard) -> forall q, r_pc s <> RAck q).
  { intros X q Y. destruct (Hp q Y) as [ok [heard Z]]. exact (X ok heard Z). }
  destruct l; cbn [step] in E; try specialize (N ltac:(discriminate)).
  - destruct (g_caller s) eqn:Ec; [discriminate|]. injection E as <-. destruct I as [[I1 I2 I3 I4 I5] _]. specialize (I1 Ec).
    destruct I1 as [_ [Ed _]]. constructor.
    + exact I'.
    + cbn. intros q X. destruct (N q X).
    + cbn. intros q X. congruence.
    + cbn. apply past_say; [discriminate | exact P].
  - destruct (g_caller s) as [p|] eqn:Ec; [|discriminate]. destruct (g_done s) as [a|] eqn:Ed; [|discriminate].
    injection E as <-. constructor.
    + exact I'.
    + cbn. intros q X. destruct (N q X).
    + cbn. discriminate.
    + cbn. intros pre q post X. apply app_snoc_inv in X. destruct X as [[b' [-> X]] | [-> [-> X]]]; [eapply P; exact X|].
      injection X as -> <-. apply D; reflexivity.
  - destruct (g_pc s) as [|p i|p i|] eqn:Epc; try discriminate. destruct I as [[I1 I2 I3 I4 I5] _].
    destruct (I4 p i (or_introl Epc)) as [Hc [Ht [Hd Hi]]]. destruct heard.
    + unfold r_hear in E. cbn [r_pc set_g] in E. destruct (r_pc s) eqn:Er; try discriminate. injection E as <-. constructor.
      * exact I'.
      * cbn. intros q [= <-]. rewrite Hc, Hd. split; [reflexivity|]. split; [reflexivity|]. split.
        -- destruct ok; [right; exists i; reflexivity | left; reflexivity].
        -- destruct (I2 p Hc) as [a [b [-> [Q _]]]]. exists a, (b ++ [Heard p]). rewrite <- app_assoc. repeat split.
           ++ apply quiet_snoc; [exact Q | reflexivity | reflexivity].
           ++ apply in_or_app. right. left. reflexivity.
      * cbn. rewrite Hd. discriminate.
      * cbn. apply past_say; [discriminate | exact P].
    + injection E as <-. eapply pinv_same; [exact PI0 | exact I' | exact N | exact N | reflexivity | reflexivity | cbn; auto].
  - destruct (g_pc s) as [|p i|p i|] eqn:Epc; try discriminate; injection E as <-.
    + destruct (g_check_fields s) as [F1 [F2 [F3 F4]]]. eapply pinv_same; [exact PI0 | exact I' | exact N | rewrite F2; exact N | exact F1 | exact F3 | rewrite F4; auto].
    + destruct (g_retry_fields s p i) as [F1 [F2 [F3 F4]]]. eapply pinv_same; [exact PI0 | exact I' | exact N | rewrite F2; exact N | exact F1 | exact F3 | exact F4].
  - destruct (g_pc s) as [|p i|p i|] eqn:Epc; try discriminate; injection E as <-.
    + destruct (g_check_fields s) as [F1 [F2 [F3 F4]]]. eapply pinv_same; [exact PI0 | exact I' | exact N | rewrite F2; exact N | exact F1 | exact F3 | rewrite F4; auto].
    + destruct (g_retry_fields s p i) as [F1 [F2 [F3 F4]]]. eapply pinv_same; [exact PI0 | exact I' | exact N | rewrite F2; exact N | exact F1 | exact F3 | exact F4].
  - destruct (g_pc s) as [|p i|p i|] eqn:Epc; try discriminate; injection E as <-;
      (eapply pinv_same; [exact PI0 | exact I' | exact N | exact N | reflexivity | reflexivity | cbn; auto]).
  - destruct (g_pc s) as [|p i|p i|] eqn:Epc; try discriminate; injection E as <-;
      (eapply pinv_same; [exact PI0 | exact I' | exact N | exact N | reflexivity | reflexivity | cbn; auto]).
  - injection E as <-. eapply pinv_same; [exact PI0 | exact I' | exact N | exact N | reflexivity | reflexivity | cbn; auto].
  - destruct (r_rx s); [|discriminate]. injection E as <-. eapply pinv_same; [exact PI0 | exact I' | exact N | exact N | reflexivity | reflexivity | cbn; auto].
  - destruct (r_pc s) eqn:Er; try discriminate. destruct (r_tx s); [|discriminate]. injection E as <-.
    eapply pinv_same; [exact PI0 | exact I' | rewrite Er; exact N | discriminate | reflexivity | reflexivity | cbn; auto].
  - destruct (r_pc s) as [|d| |p|] eqn:Er; try discriminate.
    + assert (N1 : forall q, r_pc s <> RAck q) by (rewrite Er; discriminate).
      assert (I1 : inv (set_r s (if ok then RListen else RDelay) (r_tx s) (r_rx s) (r_low s))).
      { destruct I as [G [H R]]. split; [|split]; cbn; try assumption. eapply rinv_pc; [|exact R]. destruct ok; discriminate. }
      assert (PI1 : pinv (set_r s (if ok then RListen else RDelay) (r_tx s) (r_rx s) (r_low s))).
      { eapply pinv_same; [exact PI0 | exact I1 | exact N1 | cbn; destruct ok; discriminate | reflexivity | reflexivity | cbn; auto]. }
      destruct heard; [|injection E as <-; exact PI1].
      destruct (g_hear_fields _ _ _ E) as [F1 [F2 [F3 F4]]]. constructor.
      * exact I'.
      * rewrite F2. cbn. destruct ok; discriminate.
      * rewrite F1, F3. intros q X Y. cbn in Y. destruct (F4 X) as [Z | [[t' Z] _]]; [cbn in Z; cbn; apply D; assumption | discriminate Z].
      * rewrite F1. exact P.
    + destruct (A p eq_refl) as [Hc [Hd [Hpc [a [b [Hh [Q HIn]]]]]]].
      match type of E with (if heard then g_hear ?x _ else _) = _ => set (s1 := x) in E end.
      assert (F : g_caller s1 = Some p /\ g_done s1 = None /\ (forall q, r_pc s1 <> RAck q) /\ answered (history s1) p /\
                  (forall pre q post, history s1 = pre ++ Returned q true :: post -> answered pre q)).
      { unfold s1. destruct ok; cbn; (split; [exact Hc|]); (split; [exact Hd|]).
        - split; [intros q; apply r_loop_not_ack|]. split.
          + exists a, (b ++ [ToApp p]). rewrite Hh, <- app_assoc. split; [reflexivity|]. split; [apply quiet_snoc; [exact Q | reflexivity | reflexivity]|].
            split; [apply in_or_app; left; exact HIn | left; apply in_or_app; right; left; reflexivity].
          + apply past_say; [discriminate | exact P].
        - split; [discriminate|]. split.
          + exists a, (b ++ [AckFailed p]). rewrite Hh, <- app_assoc. split; [reflexivity|]. split; [apply quiet_snoc; [exact Q | reflexivity | reflexivity]|].
            split; [apply in_or_app; left; exact HIn | right; apply in_or_app; right; left; reflexivity].
          + apply past_say; [discriminate | exact P]. }
      destruct F as [F1 [F2 [F3 [F4 F5]]]]. destruct heard.
      * destruct (g_hear_fields _ _ _ E) as [K1 [K2 [K3 K4]]]. constructor.
        -- exact I'.
        -- rewrite K2. intros q X. destruct (F3 q X).
        -- rewrite K1, K3, F1. intros q _ [= <-]. exact F4.
        -- rewrite K1. exact F5.
      * injection E as <-. constructor.
        -- exact I'.
        -- intros q X. destruct (F3 q X).
        -- rewrite F2. discriminate.
        -- exact F5.
  - destruct (r_pc s) eqn:Er; try discriminate. injection E as <-.
    eapply pinv_same; [exact PI0 | exact I' | rewrite Er; exact N | cbn; intros q; apply r_loop_not_ack | reflexivity | reflexivity | cbn; auto].
  - destruct (r_pc s) eqn:Er; try discriminate. injection E as <-.
    eapply pinv_same; [exact PI0 | exact I' | rewrite Er; exact N | cbn; intros q; apply r_loop_not_ack | reflexivity | reflexivity | cbn; auto].
  - destruct (r_pc s) eqn:Er; try discriminate. injection E as <-.
    eapply pinv_same; [exact PI0 | exact I' | rewrite Er; exact N | discriminate | reflexivity | reflexivity | cbn; auto].
  - destruct (r_pc s) eqn:Er; try discriminate. injection E as <-.
    eapply pinv_same; [exact PI0 | exact I' | rewrite Er; exact N | cbn; intros q; apply r_loop_not_ack | reflexivity | reflexivity | cbn; auto].
Qed.

(** If the rocket answers at once, a [send(p)] that reports success was heard by
    the rocket during that very call, and the rocket handed [p] to its
    application unless its radio reported an error for the acknowledgement. *)
Theorem C76_success_means_received_partial : forall ls s, run link_new ls = Some s -> prompt link_new ls ->
  forall pre p post, history s = pre ++ Returned p true :: post ->
  exists a b, pre = a ++ Sent p :: b /\ quiet b /\ In (Heard p) b /\ (In (ToApp p) b \/ In (AckFailed p) b).
Proof.
  intros ls s E Pr. assert (PI : pinv s).
  { assert (G : forall ls s0, pinv s0 -> run s0 ls = Some s -> prompt s0 ls -> pinv s).
    { clear. intros ls. induction ls as [|l ls IH]; intros s0 PI E Pr; cbn in *; [congruence|]. destruct Pr as [Pr1 Pr2].
      destruct (step s0 l) as [s1|] eqn:Es; [|discriminate]. eapply IH; [eapply pinv_step; [exact PI | exact Pr1 | exact Es] | exact E | exact Pr2]. }
    eapply G; [|exact E | exact Pr]. constructor.
    - exact inv_new.
    - discriminate.
    - discriminate.
    - cbn. intros pre p post X. destruct pre; discriminate X. }
  exact (pv_past s PI).
Qed.

(** ** C77 *)
(** radio errors reported to the ground client *)
Definition ground_error (l : label) : bool := match l with LGError | LGTx false _ => true | _ => false end.
(** the ground client's own moves; a frame it hears is one *)
Definition ground_move (l : label) : bool :=
  match l with LGTx _ _ | LGTimeout | LGNoise | LGWake | LRTx _ true => true | _ => false end.

Definition rank (s : link) : nat :=
  match g_tx s, g_pc s with
  | Some _, GDelay => 13
  | Some _, _ => 12
  | None, GTx _ i => 1 + 2 * (5 - i)
  | None, GAck _ i => 2 * (5 - i)
  | None, _ => 0
  end.
(** the call is pending and not lost, or can return *)
Definition pending (s : link) : Prop := g_caller s <> None /\ (g_done s <> None \/ 0 < rank s).

Ltac fin := repeat match goal with |- _ /\ _ => split end; try assumption; try discriminate; auto;
  try (left; discriminate); try (right; lia); try (intros; lia); try (intros; discriminate).

Lemma pending_step s l s' : inv s -> pending s -> ground_error l = false -> l <> LReturn -> step s l = Some s' ->
  pending s' /\ (g_done s <> None -> g_done s' <> None) /\
  (g_done s' = None -> rank s' + (if ground_move l then 1 else 0) <= rank s).
Proof.
  intros [[I1 I2 I3 I4 I5] _] [C P] Ge Nr E.
  destruct s as [pc tx rx dn c rp rt rr low h]; cbn [g_pc g_tx g_rx g_done g_caller r_pc r_tx r_rx r_low history] in *.
  assert (Rk : dn = None -> 0 < rank (Link pc tx rx dn c rp rt rr low h)) by (intros X; destruct P as [P | P]; [congruence | exact P]).
  clear P. unfold pending, rank in *. cbn [g_pc g_tx g_done g_caller] in *.
  assert (Gh : forall s1 d, g_pc s1 = pc -> g_tx s1 = tx -> g_done s1 = dn -> g_caller s1 = c -> g_hear s1 d = Some s' ->
     (g_caller s' <> None /\ (g_done s' <> None \/ 0 < rank s')) /\ (dn <> None -> g_done s' <> None) /\
     (g_done s' = None -> rank s' + 1 <= rank (Link pc tx rx dn c rp rt rr low h))).
  { intros s1 d H1 H2 H3 H4 X. unfold g_hear in X. rewrite H1 in X. unfold rank. cbn [g_pc g_tx].
    destruct pc as [|p i|p i|]; try discriminate.
    - injection X as <-. unfold g_check. cbn [g_tx set_g]. rewrite H2. destruct tx as [q|]; cbn [set_g g_caller g_done g_pc g_tx]; rewrite H3, H4.
      + fin.
      + destruct dn as [r|]; [|specialize (Rk eq_refl); lia]. fin.
    - destruct (I4 p i (or_intror eq_refl)) as [_ [-> [-> Hi]]]. destruct d; injection X as <-.
      + cbn. rewrite H4. fin.
      + unfold g_retry, MAX_ATTEMPTS. destruct (S i <? 5) eqn:L; cbn [set_g g_caller g_done g_pc g_tx]; rewrite ?H2, ?H3, ?H4.
        * apply Nat.ltb_lt in L. fin.
        * fin. }
  assert (Gl : forall s1, g_pc s1 = pc -> g_tx s1 = tx -> g_done s1 = dn -> g_caller s1 = c ->
     (match pc with GListen => Some (g_check s1) | GAck p i => Some (g_retry s1 p i) | _ => None end) = Some s' ->
     (g_caller s' <> None /\ (g_done s' <> None \/ 0 < rank s')) /\ (dn <> None -> g_done s' <> None) /\
     (g_done s' = None -> rank s' + 1 <= rank (Link pc tx rx dn c rp rt rr low h))).
  { intros s1 H1 H2 H3 H4 X. unfold rank. cbn [g_pc g_tx].
    destruct pc as [|p i|p i|]; try discriminate.
    - injection X as <-. unfold g_check. rewrite H2. destruct tx as [q|]; cbn [set_g g_caller g_done g_pc g_tx]; rewrite H3, H4.
      + fin.
      + destruct dn as [r|]; [|specialize (Rk eq_refl); lia]. fin.
    - destruct (I4 p i (or_intror eq_refl)) as [_ [-> [-> Hi]]]. injection X as <-.
      unfold g_retry, MAX_ATTEMPTS. destruct (S i <? 5) eqn:L; cbn [set_g g_caller g_done g_pc g_tx]; rewrite ?H2, ?H3, ?H4.
      + apply Nat.ltb_lt in L. fin.
      + fin. }
  unfold rank in Gh, Gl. cbn [g_pc g_tx] in Gh, Gl.
  assert (Same : (c <> None /\ (dn <> None \/ 0 < match tx, pc with Some _, GDelay => 13 | Some _, _ => 12 | None, GTx _ i => 1 + 2 * (5 - i) | None, GAck _ i => 2 * (5 - i) | None, _ => 0 end)) /\ (dn <> None -> dn <> None)).
  { split; [split; [exact C|] | auto]. destruct dn; [left; discriminate | right; apply Rk; reflexivity]. }
  destruct l; cbn [ground_error ground_move] in *; try discriminate; cbn [step g_pc g_tx g_rx g_done g_caller r_pc r_tx r_rx r_low history] in E.
  - destruct c; [discriminate | destruct (C eq_refl)].
  - destruct (Nr eq_refl).
  - destruct ok; [|discriminate]. destruct pc as [|p i|p i|]; try discriminate.
    destruct (I4 p i (or_introl eq_refl)) as [_ [-> [-> Hi]]].
    assert (X : g_pc s' = GAck p i /\ g_tx s' = None /\ g_done s' = None /\ g_caller s' = c).
    { destruct heard; [|injection E as <-; repeat split]. unfold r_hear in E. cbn [r_pc set_g] in E.
      destruct rp; try discriminate. injection E as <-. repeat split. }
    destruct X as [-> [-> [-> ->]]]. fin.
  - apply (Gl _) with (5 := E); reflexivity.
  - apply (Gl _) with (5 := E); reflexivity.
  - destruct pc; try discriminate. injection E as <-. cbn [set_g g_caller g_done g_pc g_tx].
    destruct tx as [q|].
    + fin.
    + destruct dn as [r|]; [|specialize (Rk eq_refl); lia]. fin.
  - injection E as <-. cbn. split; [apply Same | split; [auto | intros _; lia]].
  - destruct rr; [|discriminate]. injection E as <-. cbn. split; [apply Same | split; [auto | intros _; lia]].
  - destruct rp; try discriminate. destruct rt; [|discriminate]. injection E as <-. cbn. split; [apply Same | split; [auto | intros _; lia]].
  - destruct rp as [|t| |p|]; try discriminate; destruct heard.
    + apply (Gh _ _) with (5 := E); reflexivity.
    + injection E as <-. cbn. split; [apply Same | split; [auto | intros _; lia]].
    + apply (Gh _ _) with (5 := E); destruct ok; reflexivity.
    + injection E as <-. destruct ok; cbn; (split; [apply Same | split; [auto | intros _; lia]]).
  - destruct rp; try discriminate. injection E as <-. cbn. split; [apply Same | split; [auto | intros _; lia]].
  - destruct rp; try discriminate. injection E as <-. cbn. split; [apply Same | split; [auto | intros _; lia]].
  - destruct rp; try discriminate. injection E as <-. cbn. split; [apply Same | split; [auto | intros _; lia]].
  - destruct rp; try discriminate. injection E as <-. cbn. split; [apply Same | split; [auto | intros _; lia]].
Qed.

(** As long as the ground radio reports no error, a [send] returns within 13
    radio operations of the ground client: at the latest then its result is there. *)
Theorem C77_send_returns_partial : forall ls0 p s0 ls s,
  run link_new (ls0 ++ [LSend p]) = Some s0 -> run s0 ls = Some s ->
  Forall (fun l => ground_error l = false) ls -> 13 <= length (filter ground_move ls) ->
  In LReturn ls \/ step s LReturn <> None.
Proof.
  intros ls0 p s0 ls s E0 E F L.
  assert (I0 := inv_run _ _ E0).
  assert (P0 : pending s0 /\ rank s0 <= 13).
  { rewrite run_app in E0. destruct (run link_new ls0) as [s1|] eqn:E1; [|discriminate]. apply inv_run in E1. cbn in E0.
    destruct (g_caller s1) eqn:Ec; [discriminate|]. injection E0 as <-. destruct E1 as [[I1 _ _ _ _] _]. destruct (I1 Ec) as [_ [_ Hp]].
    unfold pending, rank. cbn. destruct Hp as [-> | ->]; (split; [split; [discriminate | right; lia] | lia]). }
  destruct P0 as [P0 R0].
  assert (G : forall ls s0, inv s0 -> pending s0 -> run s0 ls = Some s -> Forall (fun l => ground_error l = false) ls -> ~ In LReturn ls ->
     pending s /\ (g_done s0 <> None -> g_done s <> None) /\ (g_done s = None -> rank s + length (filter ground_move ls) <= rank s0)).
  { clear. intros ls. induction ls as [|l ls IH]; intros s0 I P E F N; cbn in E.
    - injection E as <-. repeat split; try apply P; auto. cbn. intros _. lia.
    - destruct (step s0 l) as [s1|] eqn:Es; [|discriminate]. inversion F as [|? ? F1 F2]; subst.
      assert (N1 : l <> LReturn) by (intros ->; apply N; left; reflexivity).
      assert (N2 : ~ In LReturn ls) by (intros X; apply N; right; exact X).
      destruct (pending_step s0 l s1 I P F1 N1 Es) as [P1 [D1 R1]].
      destruct (IH s1 (inv_step _ _ _ I Es) P1 E F2 N2) as [P2 [D2 R2]]. split; [exact P2|]. split; [auto|].
      intros X. assert (Y : g_done s1 = None) by (destruct (g_done s1); [destruct D2; [discriminate | exact X] | reflexivity]).
      specialize (R1 Y). specialize (R2 X). cbn [filter]. destruct (ground_move l); cbn [length]; lia. }
  assert (Dec : In LReturn ls \/ ~ In LReturn ls).
  { clear. induction ls as [|l ls [IH | IH]]; [right; intros [] | left; right; exact IH|].
    destruct l; try (left; left; reflexivity); right; intros [X | X]; try discriminate X; exact (IH X). }
  destruct Dec as [D | D]; [left; exact D | right].
  destruct (G ls s0 I0 P0 E F D) as [[P1 P2] [_ P3]].
  assert (Dn : g_done s <> None).
  { intros X. specialize (P3 X). destruct P2 as [P2 | P2]; [exact (P2 X) | lia]. }
  cbn. destruct (g_caller s); [|destruct (P1 eq_refl)]. destruct (g_done s); [discriminate | destruct (Dn eq_refl)].
Qed.

(** ** Concrete runs *)
Definition arm : uplink := SoftArm 0 true.
Definition fire : uplink := GroundTestDeploy 0 Pyro1.
Definition tele : telemetry := Telemetry false 0 0 0 0 0 0 false false 0 false false 0 0 0 0 0 0 0 0 false false.
(** the rocket transmits telemetry and starts listening *)
Definition rocket_listens : list label := [LTelemetry tele; LRStart; LRTx true false].
Definition clean_exchange (p : uplink) : list label :=
  rocket_listens ++ [LSend p; LGTimeout; LGTx true true; LRTx true true; LReturn].

(** a clean exchange: success, and the application has the command; the hypotheses of C76 and C77 are met *)
Theorem C76_instance : exists s, run link_new (clean_exchange arm) = Some s /\ prompt link_new (clean_exchange arm) /\
  history s = [Sent arm; Heard arm; ToApp arm; Returned arm true] /\ r_rx s = Some arm.
Proof.
  eexists. split; [vm_compute; reflexivity|]. split; [|split; vm_compute; reflexivity].
  vm_compute. repeat split; intros; try discriminate; eexists; eexists; reflexivity.
Qed.

(** Without that timing assumption the claim is false: acknowledgements do not say
    what they acknowledge, so a late one is taken for the next command's. *)
Theorem C76_refuted_stale_acknowledgement : exists ls s, run link_new ls = Some s /\
  In (Returned fire true) (history s) /\ ~ In (Heard fire) (history s).
Proof.
  exists (rocket_listens ++ [LSend arm; LGTimeout; LGTx true true; LGTimeout; LGTx true false; LGTimeout; LGTx true false; LGTimeout;
    LGTx true false; LGTimeout; LGTx true false; LGTimeout; LReturn; LSend fire; LGTimeout; LGTx true false; LRTx true true; LReturn]).
  eexists. split; [vm_compute; reflexivity|]. split; [vm_compute; tauto|].
  vm_compute. intros X. repeat (destruct X as [X | X]; [discriminate X|]). exact X.
Qed.

(** Failure does not mean the command was not carried out: it was, and the acknowledgement was lost. *)
Theorem C76_refuted_failure_means_not_received : exists ls s, run link_new ls = Some s /\ prompt link_new ls /\
  In (Returned fire false) (history s) /\ In (ToApp fire) (history s).
Proof.
  exists (rocket_listens ++ [LSend fire; LGTimeout; LGTx true true; LRTx true false; LGTimeout; LGTx true false; LGTimeout; LGTx true false; LGTimeout;
    LGTx true false; LGTimeout; LGTx true false; LGTimeout; LReturn]).
  eexists. split; [vm_compute; reflexivity|]. split; [|split; vm_compute; tauto].
  vm_compute. repeat split; intros; try discriminate; eexists; eexists; reflexivity.
Qed.

(** A single call can fire the same command more than once: a retry after a lost
    acknowledgement is accepted like a new command. *)
Theorem C78_refuted_at_most_once : exists ls s, run link_new ls = Some s /\ prompt link_new ls /\
  count is_sent (history s) = 1 /\ count is_to_app (history s) = 5.
Proof.
  exists (rocket_listens ++ [LSend fire; LGTimeout; LGTx true true; LRTx true false; LGTimeout] ++ rocket_listens ++ [LGTx true true; LRTx true false; LGTimeout]
    ++ rocket_listens ++ [LGTx true true; LRTx true false; LGTimeout] ++ rocket_listens ++ [LGTx true true; LRTx true false; LGTimeout]
    ++ rocket_listens ++ [LGTx true true; LRTx true true; LReturn]).
  eexists. split; [vm_compute; reflexivity|]. split; [|split; vm_compute; reflexivity].
  vm_compute. repeat split; intros; try discriminate; eexists; eexists; reflexivity.
Qed.

(** One radio error during a call and the call never returns, whatever happens
    afterwards: the error path forgets to signal the waiting caller. *)
Definition lost (s : link) : Prop := g_caller s <> None /\ g_tx s = None /\ g_done s = None /\ idle_pc (g_pc s).
Lemma lost_step s l s' : lost s -> step s l = Some s' -> lost s' /\ l <> LReturn.
Proof.
  intros [C [T [D I]]] E. destruct s as [pc tx rx dn c rp rt rr low h]. cbn in *. subst tx dn.
  assert (Gh : forall s1 d, g_pc s1 = pc -> g_tx s1 = None -> g_done s1 = None -> g_caller s1 = c -> g_hear s1 d = Some s' -> lost s').
  { intros s1 d H1 H2 H3 H4 X. unfold g_hear in X. rewrite H1 in X. destruct I as [-> | ->]; [|discriminate].
    injection X as <-. unfold g_check. cbn [g_tx set_g]. rewrite H2. unfold lost. cbn. rewrite H3, H4. repeat split; try assumption. left; reflexivity. }
  assert (Gl : forall pc', idle_pc pc' -> forall s1, g_pc s1 = pc' -> g_tx s1 = None -> g_done s1 = None -> g_caller s1 = c -> lost s1).
  { intros pc' I' s1 H1 H2 H3 H4. unfold lost. rewrite H1, H2, H3, H4. repeat split; assumption. }
  destruct l; cbn [step g_pc g_tx g_rx g_done g_caller r_pc r_tx r_rx r_low history] in E; (split; [|try discriminate]).
  - destruct c; [discriminate | destruct (C eq_refl)].
  - destruct c; discriminate.
  - destruct c; discriminate.
  - destruct I as [-> | ->]; discriminate.
  - destruct I as [-> | ->]; [|discriminate]. injection E as <-. unfold g_check. cbn. eapply Gl; [left; reflexivity | reflexivity ..].
  - destruct I as [-> | ->]; [|discriminate]. injection E as <-. unfold g_check. cbn. eapply Gl; [left; reflexivity | reflexivity ..].
  - destruct I as [-> | ->]; [|discriminate]. injection E as <-. eapply Gl; [right; reflexivity | reflexivity ..].
  - destruct I as [-> | ->]; [discriminate|]. injection E as <-. eapply Gl; [left; reflexivity | reflexivity ..].
  - injection E as <-. eapply Gl; [exact I | reflexivity ..].
  - destruct rr; [|discriminate]. injection E as <-. eapply Gl; [exact I | reflexivity ..].
  - destruct rp; try discriminate. destruct rt; [|discriminate]. injection E as <-. eapply Gl; [exact I | reflexivity ..].
  - destruct rp as [|t| |p|]; try discriminate; destruct heard.
    + apply (Gh _ _) with (5 := E); reflexivity.
    + injection E as <-. eapply Gl; [exact I | reflexivity ..].
    + apply (Gh _ _) with (5 := E); destruct ok; reflexivity.
    + injection E as <-. destruct ok; (eapply Gl; [exact I | reflexivity ..]).
  - destruct rp; try discriminate. injection E as <-. eapply Gl; [exact I | reflexivity ..].
  - destruct rp; try discriminate. injection E as <-. eapply Gl; [exact I | reflexivity ..].
  - destruct rp; try discriminate. injection E as <-. eapply Gl; [exact I | reflexivity ..].
  - destruct rp; try discriminate. injection E as <-. eapply Gl; [exact I | reflexivity ..].
Qed.

(** Any error while the command is being transmitted or its acknowledgement awaited loses the call for good. *)
Theorem C77_refuted_one_error_hangs_the_caller : forall ls0 s0 p i l s1,
  run link_new ls0 = Some s0 -> g_pc s0 = GTx p i \/ g_pc s0 = GAck p i -> ground_error l = true -> step s0 l = Some s1 ->
  forall ls s, run s1 ls = Some s -> ~ In LReturn ls /\ step s LReturn = None.
Proof.
  intros ls0 s0 p i l s1 E0 Hpc Ge E1.
  assert (L1 : lost s1).
  { apply inv_run in E0. destruct E0 as [[_ _ _ I4 _] _]. destruct (I4 p i Hpc) as [Hc [Ht [Hd _]]].
    destruct l; try discriminate Ge; cbn [step] in E1.
    - destruct ok; [discriminate Ge|]. destruct Hpc as [Hpc | Hpc]; rewrite Hpc in E1; [|discriminate].
      assert (X : g_pc s1 = GDelay /\ g_tx s1 = g_tx s0 /\ g_done s1 = g_done s0 /\ g_caller s1 = g_caller s0).
      { destruct heard; [|injection E1 as <-; repeat split]. unfold r_hear in E1. cbn in E1. destruct (r_pc s0); try discriminate. injection E1 as <-. repeat split. }
      destruct X as [X1 [X2 [X3 X4]]]. unfold lost. rewrite X1, X2, X3, X4, Hc, Ht, Hd. repeat split; [discriminate | right; reflexivity].
    - destruct Hpc as [Hpc | Hpc]; rewrite Hpc in E1; [discriminate|]. injection E1 as <-. unfold lost. cbn. rewrite Hc, Ht, Hd. repeat split; [discriminate | right; reflexivity]. }
  clear E1 E0 Ge Hpc. intros ls. revert s1 L1. induction ls as [|l' ls IH]; intros s1 L1 s E; cbn in E.
  - injection E as <-. split; [intros []|]. destruct L1 as [_ [_ [L1 _]]]. cbn. rewrite L1. destruct (g_caller s1); reflexivity.
  - destruct (step s1 l') as [s2|] eqn:E2; [|discriminate]. destruct (lost_step _ _ _ L1 E2) as [L2 N].
    destruct (IH s2 L2 s E) as [A B]. split; [|exact B]. intros [X | X]; [exact (N X) | exact (A X)].
Qed.

(** such an error is reachable *)
Theorem C77_instance : exists s0 p i l s1, run link_new (rocket_listens ++ [LSend fire; LGTimeout]) = Some s0 /\
  g_pc s0 = GTx p i /\ ground_error l = true /\ step s0 l = Some s1.
Proof.
  eexists. exists fire, 0, (LGTx false false). eexists. split; [vm_compute; reflexivity|]. repeat split.
Qed.
Print Assumptions C76_success_means_received_partial.
Print Assumptions C77_send_returns_partial.
Print Assumptions C77_refuted_one_error_hangs_the_caller.
Print Assumptions C78_at_most_five_partial.

(** * Properties C44-C46: the backup cores, and announcing deployments. *)
From Coq Require Import List Bool Arith Lia QArith.
From Verif Require Import Numerics VLP FlightCore PropFlight.
Import ListNotations.
Local Open Scope nat_scope.
Local Open Scope list_scope.

(** ** Specification *)
Section Spec.
Context {A : numerics}.

(** the k-th call published "state changed to s" *)
Definition announced (es : list (list (event A))) (k : nat) (s : core_state) : Prop := In (ChangeState s) (nth k es []).

(** why the backup core announced [s] in its k-th call *)
Definition backup_cause (p : profile A) (l : list (reading A)) (es : list (list (event A))) (k : nat) (s : core_state) : Prop :=
  match s with
  | Armed => k = 0
  | DrogueChuteDeployed => (** an earlier reading fell faster than 20 m/s, and its time plus the delay has passed *)
      exists j, j < k /\ at_tick l j (fun r => lt32 (r_speed r) (lit32 (-20)) = true /\
        at_tick l k (fun r' => lt64 (add64 (r_ts r) (drogue_delay p)) (r_ts r') = true))
  | MainChuteDeployed => (** the drogue was announced, a later reading was below the main altitude above the first reading, ... *)
      exists d j, d < j < k /\ announced es d DrogueChuteDeployed /\
        at_tick l j (fun r => at_tick l 0 (fun r0 => lt32 (r_alt r) (add32 (main_alt p) (r_alt r0)) = true) /\
          at_tick l k (fun r' => lt64 (add64 (r_ts r) (main_delay p)) (r_ts r') = true))
  | Landed => exists m, m < k /\ announced es m MainChuteDeployed /\ at_tick l k (fun r => lt32 (abs32 (r_speed r)) (lit32 1) = true)
  | _ => False
  end.

(** why the manual core announced [s] in its k-th call *)
Definition manual_cause (p : profile A) (l : list (minput A)) (es : list (list (event A))) (k : nat) (s : core_state) : Prop :=
  match s with
  | DrogueChuteDeployed => exists t, nth_error l k = Some (MTrigger t)
  | MainChuteDeployed => exists d t t', d < k /\ announced es d DrogueChuteDeployed /\ nth_error l d = Some (MTrigger t) /\
      nth_error l k = Some (MTick t') /\ le64 (add64 t (drogue_to_main p)) t' = true
  | Landed => exists m t t', m < k /\ announced es m MainChuteDeployed /\ nth_error l m = Some (MTick t) /\
      nth_error l k = Some (MTick t') /\ le64 (add64 t (main_to_landed p)) t' = true
  | _ => False
  end.

(** ** Proofs *)
Lemma brun_snoc (p : profile A) l : forall b r, brun p b (l ++ [r]) =
  match brun p b l with
  | Some (b1, es) => match btick p b1 r with Some (b2, e) => Some (b2, es ++ [e]) | None => None end
  | None => None
  end.
Proof.
  induction l as [|x l IH]; intros b s; cbn [brun app].
  - destruct (btick p b s) as [[c1 e]|]; reflexivity.
  - destruct (btick p b x) as [[c1 e]|]; [|reflexivity]. rewrite IH. destruct (brun p c1 l) as [[c2 es]|]; [|reflexivity].
    destruct (btick p c2 s) as [[c3 e2]|]; reflexivity.
Qed.

Lemma announced_lt es k s : announced es k s -> k < length es.
Proof. unfold announced. intros H. destruct (Nat.lt_ge_cases k (length es)) as [L|L]; [exact L|]. rewrite nth_overflow in H by lia. destruct H. Qed.
Lemma announced_app es e k s : announced es k s -> announced (es ++ [e]) k s.
Proof. intros H. pose proof (announced_lt _ _ _ H). unfold announced. rewrite app_nth1 by lia. exact H. Qed.
Lemma announced_inv es e k s : announced (es ++ [e]) k s -> announced es k s \/ (k = length es /\ In (ChangeState s) e).
Proof.
  intros H. pose proof (announced_lt _ _ _ H) as L. rewrite app_length in L. cbn in L. unfold announced in H.
  destruct (Nat.lt_ge_cases k (length es)) as [L2|L2]; [left; rewrite app_nth1 in H by lia; exact H|].
  right. assert (k = length es) by lia. subst k. rewrite app_nth2, Nat.sub_diag in H by lia. split; [reflexivity|exact H].
Qed.
Lemma announced_last es e s : In (ChangeState s) e -> announced (es ++ [e]) (length es) s.
Proof. intros H. unfold announced. rewrite app_nth2, Nat.sub_diag by lia. exact H. Qed.

Lemma at_tick_imp {X} (l : list X) i (P Q : X -> Prop) : (forall x, P x -> Q x) -> at_tick l i P -> at_tick l i Q.
Proof. intros H [s [H1 H2]]. exists s. split; [exact H1|apply H; exact H2]. Qed.

Lemma backup_cause_app (p : profile A) l r es e k s : backup_cause p l es k s -> backup_cause p (l ++ [r]) (es ++ [e]) k s.
Proof.
  destruct s; cbn; intros H; try exact H.
  - destruct H as [j [H1 H2]]. exists j. split; [exact H1|]. apply at_tick_app. eapply at_tick_imp; [|exact H2]. intros x [X1 X2].
    split; [exact X1|]. apply at_tick_app. exact X2.
  - destruct H as [d [j [H1 [H2 H3]]]]. exists d, j. split; [exact H1|]. split; [apply announced_app; exact H2|].
    apply at_tick_app. eapply at_tick_imp; [|exact H3]. intros x [X1 X2]. split; apply at_tick_app; assumption.
  - destruct H as [m [H1 [H2 H3]]]. exists m. split; [exact H1|]. split; [apply announced_app; exact H2|]. apply at_tick_app. exact H3.
Qed.

Definition backup_inv (p : profile A) (l : list (reading A)) (b : backup A) (es : list (list (event A))) : Prop :=
  length es = length l /\
  (b_first b = true <-> l = []) /\
  match l with [] => b_pad b = None | r0 :: _ => b_pad b = Some (r_alt r0) end /\
  (forall k s, announced es k s -> backup_cause p l es k s) /\
  match b_state b with
  | BArmed => changes (concat es) = (if b_first b then [] else [Armed])
  | BDrogueChute d => changes (concat es) = [Armed] /\
      exists j, at_tick l j (fun r => lt32 (r_speed r) (lit32 (-20)) = true /\ d = add64 (r_ts r) (drogue_delay p))
  | BDrogueChuteDeployed => changes (concat es) = [Armed; DrogueChuteDeployed] /\ exists d, announced es d DrogueChuteDeployed
  | BMainChute t => changes (concat es) = [Armed; DrogueChuteDeployed] /\
      exists d j, d < j /\ announced es d DrogueChuteDeployed /\
      at_tick l j (fun r => at_tick l 0 (fun r0 => lt32 (r_alt r) (add32 (main_alt p) (r_alt r0)) = true) /\ t = add64 (r_ts r) (main_delay p))
  | BMainChuteDeployed => changes (concat es) = [Armed; DrogueChuteDeployed; MainChuteDeployed] /\ exists d, announced es d MainChuteDeployed
  | BLanded => changes (concat es) = [Armed; DrogueChuteDeployed; MainChuteDeployed; Landed]
  end.

Lemma concat_snoc {X} (es : list (list X)) e : concat (es ++ [e]) = concat es ++ e.
Proof. rewrite concat_app. cbn. rewrite app_nil_r. reflexivity. Qed.

Ltac no_event H := cbn in H; repeat (destruct H as [H|H]; [discriminate H|]); destruct H.

Lemma backup_step (p : profile A) l b es r : backup_inv p l b es -> exists b' e, btick p b r = Some (b', e) /\ backup_inv p (l ++ [r]) b' (es ++ [e]).
Proof.
  intros [LE [F [P [C St]]]]. unfold btick. cbv zeta.
  assert (CC : forall e, (forall s, In (ChangeState s) e -> backup_cause p (l ++ [r]) (es ++ [e]) (length l) s) ->
     forall k s, announced (es ++ [e]) k s -> backup_cause p (l ++ [r]) (es ++ [e]) k s).
  { intros e H k s Hk. apply announced_inv in Hk as [Hk|[-> Hk]]; [apply backup_cause_app, C, Hk|]. rewrite LE. apply H, Hk. }
  assert (LL : forall e : list (event A), length (es ++ [e]) = length (l ++ [r])) by (intros e; rewrite !app_length; cbn; lia).
  assert (NF : forall f, f = b_first b -> (b_first b = true -> False) -> (f = true <-> l ++ [r] = [])).
  { intros f -> H. split; [intros E; destruct (H E)|intros E; destruct l; discriminate]. }
  assert (PP : match l with [] => b_pad b = None | r0 :: _ => b_pad b = Some (r_alt r0) end -> l <> [] ->
     match l ++ [r] with [] => b_pad b = None | r0 :: _ => b_pad b = Some (r_alt r0) end).
  { intros H N. destruct l; [congruence|exact H]. }
  assert (T0 : l <> [] -> forall Q : reading A -> Prop, at_tick l 0 Q <-> match b_pad b with Some a => exists r0, nth_error l 0 = Some r0 /\ a = r_alt r0 /\ Q r0 | None => False end).
  { intros N Q. destruct l as [|r0 l0]; [congruence|]. rewrite P. split.
    - intros [s [H1 H2]]. cbn in H1. injection H1 as <-. exists r0. repeat split; auto.
    - intros [s [H1 [_ H2]]]. exists s. split; assumption. }
  destruct (b_state b) as [|d| |d| | ] eqn:Sb.
  - (* armed *)
    assert (H0 : b_first b = true -> length l = 0) by (intros E; apply F in E; subst l; reflexivity).
    do 2 eexists. split; [reflexivity|]. split; [apply LL|]. cbn [b_first b_pad b_state].
    split; [split; [discriminate|intros E; destruct l; discriminate]|].
    split. { destruct l as [|r0 l0]; cbn [app]; rewrite P; reflexivity. }
    split. { apply CC. intros s Hs. destruct (b_first b) eqn:E; cbn in Hs.
      - destruct Hs as [Hs|[Hs|[]]]; [discriminate|]. injection Hs as <-. cbn. apply H0. reflexivity.
      - no_event Hs. }
    assert (CH : changes (concat (es ++ [[ChangeAirSpeed (r_speed r)] ++ (if b_first b then [ChangeState Armed] else [])])) = [Armed]).
    { rewrite concat_snoc, changes_app, St. destruct (b_first b); reflexivity. }
    destruct (lt32 (r_speed r) (lit32 (-20))) eqn:D; [|exact CH]. split; [exact CH|].
    exists (length l). apply at_tick_last. split; [exact D|reflexivity].
  - destruct St as [CH [j Hj]].
    assert (N : l <> []) by (intros ->; apply at_tick_lt in Hj; cbn in Hj; lia).
    assert (NB : b_first b = true -> False) by (intros E; apply F in E; contradiction).
    destruct (lt64 d (r_ts r)) eqn:D.
    + do 2 eexists. split; [reflexivity|]. split; [apply LL|]. cbn [b_first b_pad b_state]. split; [apply NF; auto|]. split; [apply PP; assumption|].
      split.
      { apply CC. intros s Hs. cbn in Hs. destruct Hs as [Hs|[Hs|[]]]; [discriminate|]. injection Hs as <-. cbn. exists j.
        split; [apply at_tick_lt in Hj; exact Hj|]. apply at_tick_app. eapply at_tick_imp; [|exact Hj]. intros x [X1 X2]. split; [exact X1|].
        apply at_tick_last. rewrite <- X2. exact D. }
      split; [rewrite concat_snoc, changes_app, CH; reflexivity|]. exists (length es). apply announced_last. right. left. reflexivity.
    + exists b. eexists. split; [reflexivity|]. split; [apply LL|]. split; [apply NF; auto|]. split; [apply PP; assumption|].
      split; [apply CC; intros s Hs; no_event Hs|]. rewrite Sb. split; [rewrite concat_snoc, changes_app, CH; reflexivity|].
      exists j. apply at_tick_app. exact Hj.
  - destruct St as [CH [d Hd]]. pose proof (announced_lt _ _ _ Hd) as Ld.
    assert (N : l <> []) by (intros ->; cbn in LE; lia).
    assert (NB : b_first b = true -> False) by (intros E; apply F in E; contradiction).
    destruct (b_pad b) as [pad|] eqn:Pad. 2:{ destruct l; [congruence|discriminate]. }
    destruct (lt32 (r_alt r) (add32 (main_alt p) pad)) eqn:D.
    + do 2 eexists. split; [reflexivity|]. split; [apply LL|]. cbn [b_first b_pad b_state]. split; [apply NF; auto|]. split; [apply PP; assumption|].
      split; [apply CC; intros s Hs; no_event Hs|].
      split; [rewrite concat_snoc, changes_app, CH; reflexivity|]. exists d, (length l). split; [lia|]. split; [apply announced_app; exact Hd|].
      apply at_tick_last. split; [|reflexivity]. apply at_tick_app. apply T0; [exact N|]. destruct l as [|r0 l0]; [congruence|]. exists r0.
      injection P as P. rewrite <- P. repeat split. exact D.
    + exists b. eexists. split; [reflexivity|]. split; [apply LL|]. split; [apply NF; auto|]. rewrite Pad. split; [apply PP; assumption|].
      split; [apply CC; intros s Hs; no_event Hs|]. rewrite Sb. split; [rewrite concat_snoc, changes_app, CH; reflexivity|].
      exists d. apply announced_app. exact Hd.
  - destruct St as [CH [d0 [j [Hdj [Hd Hj]]]]]. pose proof (announced_lt _ _ _ Hd) as Ld.
    assert (N : l <> []) by (intros ->; cbn in LE; lia).
    assert (NB : b_first b = true -> False) by (intros E; apply F in E; contradiction).
    destruct (lt64 d (r_ts r)) eqn:D.
    + do 2 eexists. split; [reflexivity|]. split; [apply LL|]. cbn [b_first b_pad b_state]. split; [apply NF; auto|]. split; [apply PP; assumption|].
      split.
      { apply CC. intros s Hs. cbn in Hs. destruct Hs as [Hs|[Hs|[]]]; [discriminate|]. injection Hs as <-. cbn. exists d0, j.
        split; [apply at_tick_lt in Hj; lia|]. split; [apply announced_app; exact Hd|]. apply at_tick_app. eapply at_tick_imp; [|exact Hj].
        intros x [X1 X2]. split; [apply at_tick_app; exact X1|]. apply at_tick_last. rewrite <- X2. exact D. }
      split; [rewrite concat_snoc, changes_app, CH; reflexivity|]. exists (length es). apply announced_last. right. left. reflexivity.
    + exists b. eexists. split; [reflexivity|]. split; [apply LL|]. split; [apply NF; auto|]. split; [apply PP; assumption|].
      split; [apply CC; intros s Hs; no_event Hs|]. rewrite Sb. split; [rewrite concat_snoc, changes_app, CH; reflexivity|].
      exists d0, j. split; [exact Hdj|]. split; [apply announced_app; exact Hd|]. apply at_tick_app. eapply at_tick_imp; [|exact Hj].
      intros x [X1 X2]. split; [apply at_tick_app; exact X1|exact X2].
  - destruct St as [CH [d Hd]]. pose proof (announced_lt _ _ _ Hd) as Ld.
    assert (N : l <> []) by (intros ->; cbn in LE; lia).
    assert (NB : b_first b = true -> False) by (intros E; apply F in E; contradiction).
    destruct (lt32 (abs32 (r_speed r)) (lit32 1)) eqn:D.
    + do 2 eexists. split; [reflexivity|]. split; [apply LL|]. cbn [b_first b_pad b_state]. split; [apply NF; auto|]. split; [apply PP; assumption|].
      split; [|rewrite concat_snoc, changes_app, CH; reflexivity].
      apply CC. intros s Hs. cbn in Hs. destruct Hs as [Hs|[Hs|[]]]; [discriminate|]. injection Hs as <-. cbn. exists d.
      split; [lia|]. split; [apply announced_app; exact Hd|]. apply at_tick_last. exact D.
    + exists b. eexists. split; [reflexivity|]. split; [apply LL|]. split; [apply NF; auto|]. split; [apply PP; assumption|].
      split; [apply CC; intros s Hs; no_event Hs|]. rewrite Sb. split; [rewrite concat_snoc, changes_app, CH; reflexivity|].
      exists d. apply announced_app. exact Hd.
  - assert (N : l <> []). { intros ->. destruct es; [discriminate St|discriminate LE]. }
    assert (NB : b_first b = true -> False) by (intros E; apply F in E; contradiction).
    exists b. eexists. split; [reflexivity|]. split; [apply LL|]. split; [apply NF; auto|]. split; [apply PP; assumption|].
    split; [apply CC; intros s Hs; no_event Hs|]. rewrite Sb. rewrite concat_snoc, changes_app, St. reflexivity.
Qed.

Lemma backup_run (p : profile A) l : exists b es, brun p new_backup l = Some (b, es) /\ backup_inv p l b es.
Proof.
  induction l as [|r l IH] using rev_ind.
  - exists new_backup, []. split; [reflexivity|]. split; [reflexivity|]. split; [split; intros _; reflexivity|]. split; [reflexivity|].
    split; [intros k s H; apply announced_lt in H; cbn in H; lia|reflexivity].
  - destruct IH as [b [es [H I]]]. destruct (backup_step p l b es r I) as [b' [e [H2 I2]]]. exists b', (es ++ [e]).
    rewrite brun_snoc, H, H2. split; [reflexivity|exact I2].
Qed.

(** C44: for every sequence of readings the backup core runs without a panic;
    what it announces is, in this order and each at most once, armed, drogue
    deployed, main deployed, landed; and each announcement has its cause *)
Theorem C44_backup_deploys_in_order (p : profile A) l : exists b es, brun p new_backup l = Some (b, es) /\
  (exists n, changes (concat es) = firstn n [Armed; DrogueChuteDeployed; MainChuteDeployed; Landed]) /\
  (forall k s, announced es k s -> backup_cause p l es k s).
Proof.
  destruct (backup_run p l) as [b [es [H [_ [_ [_ [C St]]]]]]]. exists b, es. split; [exact H|]. split; [|exact C].
  destruct (b_state b) as [|d| |d| | ].
  - destruct (b_first b); [exists 0|exists 1]; exact St.
  - destruct St as [St _]. exists 1. exact St.
  - destruct St as [St _]. exists 2. exact St.
  - destruct St as [St _]. exists 2. exact St.
  - destruct St as [St _]. exists 3. exact St.
  - exists 4. exact St.
Qed.

(** and it does deploy: once descent was seen, the first reading later than the
    delay announces the drogue *)
Theorem C44_backup_does_deploy (p : profile A) b d r : b_state b = BDrogueChute d -> lt64 d (r_ts r) = true ->
  exists b' e, btick p b r = Some (b', e) /\ In (ChangeState DrogueChuteDeployed) e.
Proof.
  intros H D. unfold btick. rewrite H, D. do 2 eexists. split; [reflexivity|]. right. left. reflexivity.
Qed.

(** ** C45 *)
Lemma mrun_snoc (p : profile A) l : forall m i, mrun p m (l ++ [i]) =
  let '(m1, es) := mrun p m l in let '(m2, e) := mstep p m1 i in (m2, es ++ [e]).
Proof.
  induction l as [|x l IH]; intros m i; cbn [mrun app].
  - destruct (mstep p m i) as [m1 e]. reflexivity.
  - destruct (mstep p m x) as [m1 e]. rewrite IH. destruct (mrun p m1 l) as [m2 es]. destruct (mstep p m2 i) as [m3 e2]. reflexivity.
Qed.

Lemma nth_snoc {X} (l : list X) x k y : nth_error l k = Some y -> nth_error (l ++ [x]) k = Some y.
Proof. intros H. rewrite nth_error_app1; [exact H|]. apply nth_error_Some. congruence. Qed.
Lemma nth_last {X} (l : list X) x : nth_error (l ++ [x]) (length l) = Some x.
Proof. rewrite nth_error_app2, Nat.sub_diag by lia. reflexivity. Qed.

Lemma manual_cause_app (p : profile A) l r es e k s : manual_cause p l es k s -> manual_cause p (l ++ [r]) (es ++ [e]) k s.
Proof.
  destruct s; cbn; intros H; try exact H.
  - destruct H as [t H]. exists t. apply nth_snoc. exact H.
  - destruct H as [d [t [t' [H1 [H2 [H3 [H4 H5]]]]]]]. exists d, t, t'. split; [exact H1|]. split; [apply announced_app; exact H2|].
    split; [apply nth_snoc; exact H3|]. split; [apply nth_snoc; exact H4|exact H5].
  - destruct H as [d [t [t' [H1 [H2 [H3 [H4 H5]]]]]]]. exists d, t, t'. split; [exact H1|]. split; [apply announced_app; exact H2|].
    split; [apply nth_snoc; exact H3|]. split; [apply nth_snoc; exact H4|exact H5].
Qed.

Definition manual_inv (p : profile A) (l : list (minput A)) (m : mstate A) (es : list (list (event A))) : Prop :=
  length es = length l /\
  (forall k s, announced es k s -> manual_cause p l es k s) /\
  match m with
  | MArmed => concat es = [] /\ forall t, ~ In (MTrigger t) l
  | MDrogueChuteDeployed x => concat es = [ChangeState DrogueChuteDeployed] /\
      exists d t, announced es d DrogueChuteDeployed /\ nth_error l d = Some (MTrigger t) /\ x = add64 t (drogue_to_main p)
  | MMainChuteDeployed x => concat es = [ChangeState DrogueChuteDeployed; ChangeState MainChuteDeployed] /\
      exists d t, announced es d MainChuteDeployed /\ nth_error l d = Some (MTick t) /\ x = add64 t (main_to_landed p)
  | MLanded => concat es = [ChangeState DrogueChuteDeployed; ChangeState MainChuteDeployed; ChangeState Landed]
  end.

Lemma manual_run (p : profile A) l : let '(m, es) := mrun p MArmed l in manual_inv p l m es.
Proof.
  induction l as [|i l IH] using rev_ind.
  - cbn [mrun]. split; [reflexivity|]. split; [intros k s H; apply announced_lt in H; cbn in H; lia|]. split; [reflexivity|]. intros t [].
  - rewrite mrun_snoc. destruct (mrun p MArmed l) as [m es]. destruct IH as [LE [C St]].
    assert (CC : forall e, (forall s, In (ChangeState s) e -> manual_cause p (l ++ [i]) (es ++ [e]) (length l) s) ->
       forall k s, announced (es ++ [e]) k s -> manual_cause p (l ++ [i]) (es ++ [e]) k s).
    { intros e H k s Hk. apply announced_inv in Hk as [Hk|[-> Hk]]; [apply manual_cause_app, C, Hk|]. rewrite LE. apply H, Hk. }
    assert (LL : forall e : list (event A), length (es ++ [e]) = length (l ++ [i])) by (intros e; rewrite !app_length; cbn; lia).
    destruct i as [t|t], m as [|x|x| ]; cbn [mstep].
    + destruct St as [St NT]. split; [apply LL|]. split.
      * apply CC. intros s [Hs|[]]. injection Hs as <-. cbn. exists t. apply nth_last.
      * split; [rewrite concat_snoc, St; reflexivity|]. exists (length es), t. split; [apply announced_last; left; reflexivity|].
        rewrite LE. split; [apply nth_last|reflexivity].
    + destruct St as [St [d [t0 [H1 [H2 H3]]]]]. split; [apply LL|]. split; [apply CC; intros s []|]. rewrite concat_snoc, app_nil_r. split; [exact St|].
      exists d, t0. split; [apply announced_app; exact H1|]. split; [apply nth_snoc; exact H2|exact H3].
    + destruct St as [St [d [t0 [H1 [H2 H3]]]]]. split; [apply LL|]. split; [apply CC; intros s []|]. rewrite concat_snoc, app_nil_r. split; [exact St|].
      exists d, t0. split; [apply announced_app; exact H1|]. split; [apply nth_snoc; exact H2|exact H3].
    + split; [apply LL|]. split; [apply CC; intros s []|]. rewrite concat_snoc, app_nil_r. exact St.
    + destruct St as [St NT]. split; [apply LL|]. split; [apply CC; intros s []|]. rewrite concat_snoc, app_nil_r. split; [exact St|].
      intros t0 H. apply in_app_iff in H as [H|[H|[]]]; [exact (NT _ H)|discriminate].
    + destruct St as [St [d [t0 [H1 [H2 H3]]]]]. pose proof (announced_lt _ _ _ H1) as L1. destruct (le64 x t) eqn:D.
      * split; [apply LL|]. split.
        -- apply CC. intros s [Hs|[]]. injection Hs as <-. cbn. exists d, t0, t. split; [lia|]. split; [apply announced_app; exact H1|].
           split; [apply nth_snoc; exact H2|]. split; [apply nth_last|]. rewrite <- H3. exact D.
        -- split; [rewrite concat_snoc, St; reflexivity|]. exists (length es), t. split; [apply announced_last; left; reflexivity|].
           rewrite LE. split; [apply nth_last|reflexivity].
      * split; [apply LL|]. split; [apply CC; intros s []|]. rewrite concat_snoc, app_nil_r. split; [exact St|].
        exists d, t0. split; [apply announced_app; exact H1|]. split; [apply nth_snoc; exact H2|exact H3].
    + destruct St as [St [d [t0 [H1 [H2 H3]]]]]. pose proof (announced_lt _ _ _ H1) as L1. destruct (le64 x t) eqn:D.
      * split; [apply LL|]. split.
        -- apply CC. intros s [Hs|[]]. injection Hs as <-. cbn. exists d, t0, t. split; [lia|]. split; [apply announced_app; exact H1|].
           split; [apply nth_snoc; exact H2|]. split; [apply nth_last|]. rewrite <- H3. exact D.
        -- rewrite concat_snoc, St. reflexivity.
      * split; [apply LL|]. split; [apply CC; intros s []|]. rewrite concat_snoc, app_nil_r. split; [exact St|].
        exists d, t0. split; [apply announced_app; exact H1|]. split; [apply nth_snoc; exact H2|exact H3].
    + split; [apply LL|]. split; [apply CC; intros s []|]. rewrite concat_snoc, app_nil_r. exact St.
Qed.

(** C45: for every sequence of triggers and ticks, what the manual core
    publishes is, in this order and each at most once, drogue deployed, main
    deployed, landed, each with its cause; nothing before a trigger; and the
    first trigger does announce the drogue *)
Theorem C45_manual_deploys_in_order (p : profile A) l m es : mrun p MArmed l = (m, es) ->
  (exists n, concat es = firstn n [ChangeState DrogueChuteDeployed; ChangeState MainChuteDeployed; ChangeState Landed]) /\
  (forall k s, announced es k s -> manual_cause p l es k s) /\
  (concat es = [] <-> forall t, ~ In (MTrigger t) l).
Proof.
  intros H. pose proof (manual_run p l) as I. rewrite H in I. destruct I as [LE [C St]].
  assert (TR : forall d t, nth_error l d = Some (MTrigger t) -> (forall t, ~ In (MTrigger t) l) -> False).
  { intros d t H1 H2. apply nth_error_In in H1. exact (H2 _ H1). }
  assert (TD : forall d, announced es d DrogueChuteDeployed -> (forall t, ~ In (MTrigger t) l) -> False).
  { intros d H1 H2. destruct (C _ _ H1) as [t H3]. exact (TR _ _ H3 H2). }
  assert (TT : In (ChangeState DrogueChuteDeployed) (concat es) -> (forall t, ~ In (MTrigger t) l) -> False).
  { intros H1 H2. apply in_concat in H1 as [e [H3 H4]]. apply In_nth with (d := []) in H3 as [k [_ H3]]. apply (TD k); [|exact H2].
    unfold announced. rewrite H3. exact H4. }
  destruct m as [|x|x| ].
  - destruct St as [St N]. split; [exists 0; exact St|]. split; [exact C|]. split; auto.
  - destruct St as [St N]. split; [exists 1; exact St|]. split; [exact C|]. split; [rewrite St; discriminate|].
    intros E. exfalso. apply TT; [rewrite St; left; reflexivity|exact E].
  - destruct St as [St N]. split; [exists 2; exact St|]. split; [exact C|]. split; [rewrite St; discriminate|].
    intros E. exfalso. apply TT; [rewrite St; left; reflexivity|exact E].
  - split; [exists 3; exact St|]. split; [exact C|]. split; [rewrite St; discriminate|].
    intros E. exfalso. apply TT; [rewrite St; left; reflexivity|exact E].
Qed.

(** ** C46 *)

(** the backup cores announce every deployment they make *)
Theorem C46_backup_cores_partial (p : profile A) l :
  (forall b es, brun p new_backup l = Some (b, es) ->
     (match b_state b with BArmed | BDrogueChute _ => True | _ => exists k, announced es k DrogueChuteDeployed end) /\
     (match b_state b with BMainChuteDeployed | BLanded => exists k, announced es k MainChuteDeployed | _ => True end)).
Proof.
  intros b es H. destruct (backup_run p l) as [b1 [es1 [H1 [_ [_ [_ [C St]]]]]]].
  assert (b1 = b /\ es1 = es) as [-> ->] by (rewrite H in H1; injection H1; auto).
  assert (G : forall s, In s (changes (concat es)) -> exists k, announced es k s).
  { intros s I. unfold changes in I. apply in_flat_map in I as [e [I1 I2]]. destruct e; cbn in I2; try contradiction.
    destruct I2 as [->|[]]. apply in_concat in I1 as [e [H3 H4]]. apply In_nth with (d := []) in H3 as [k [_ H3]]. exists k. unfold announced. rewrite H3. exact H4. }
  destruct (b_state b) as [|d| |d| | ].
  - split; exact Logic.I.
  - split; exact Logic.I.
  - split; [|exact Logic.I]. apply G. rewrite (proj1 St). cbn; auto.
  - split; [|exact Logic.I]. apply G. rewrite (proj1 St). cbn; auto.
  - split; apply G; rewrite (proj1 St); cbn; auto.
  - split; apply G; rewrite St; cbn; auto.
Qed.

Lemma firstn_incl {X} n : forall (l : list X) x, In x (firstn n l) -> In x l.
Proof. intros l x H. rewrite <- (firstn_skipn n l). apply in_app_iff. left. exact H. Qed.

(** the primary core never announces a chute deployment *)
Theorem C46_primary_is_silent (p : profile A) l c es k : run p new_core l = Some (c, es) ->
  ~ announced es k DrogueChuteDeployed /\ ~ announced es k MainChuteDeployed.
Proof.
  intros H. destruct (C42_announced_in_order p l c es H) as [[n E] _].
  assert (G : forall s, announced es k s -> In s [Armed; PowerAscend; Coast; Descent; Landed]).
  { intros s I. pose proof (announced_lt _ _ _ I) as L. apply (firstn_incl n). rewrite <- E. unfold changes. apply in_flat_map.
    exists (ChangeState s). split; [|left; reflexivity]. apply in_concat. exists (nth k es []). split; [apply nth_In; exact L|exact I]. }
  split; intros I; apply G in I; cbn in I; repeat (destruct I as [I|I]; [discriminate|]); exact I.
Qed.
End Spec.

(** ** Concrete flights, in exact arithmetic and in IEEE-754 *)
Definition demo_profile (A : numerics) : profile A :=
  Profile Pyro1 (lit64 2000) (lit32 100) (lit64 1000) Pyro2 (lit32 500) (lit64 1000) (lit64 5000) (lit64 3000).
Definition snap (A : numerics) (t acc mag : Z) (h v : Z) : snapshot A :=
  Snapshot (lit64 (inject_Z t)) (lit32 (inject_Z acc)) (lit32 (inject_Z mag)) (Some (lit32 (inject_Z 30))) (lit32 (inject_Z h)) (lit32 (inject_Z v)) false.
Fixpoint ground (A : numerics) (n : nat) (t : Z) : list (snapshot A) :=
  match n with O => [] | S n => snap A t 10 10 0 0 :: ground A n (t + 5) end.
(** on the pad, powered ascent, coast, apogee at 2 km, drogue, below 500 m, main, at rest *)
Definition demo_descent (A : numerics) : list (snapshot A) :=
  ground A 101 0 ++ [snap A 505 100 100 0 0; snap A 510 100 100 10 50; snap A 515 100 100 30 80;
    snap A 600 0 5 1000 100; snap A 605 0 5 1200 90; snap A 610 0 5 1500 50; snap A 615 0 5 1600 30;
    snap A 5000 0 10 2000 (-1); snap A 6001 0 10 1900 (-20); snap A 9000 0 10 510 (-20); snap A 10001 0 10 300 (-20)].
Definition demo_flight (A : numerics) : list (snapshot A) := demo_descent A ++ [snap A 20000 0 10 30 0].

Definition summary {A} (r : option (core A * list (list (event A)))) : option (phase * list core_state * bool) :=
  match r with Some (c, es) => Some (phase_of (c_state c), changes (concat es), did_give_up (concat es)) | None => None end.

Lemma demo_landed : summary (run (demo_profile exact) new_core (demo_flight exact)) = Some (PhLanded, [Armed; PowerAscend; Coast; Descent; Landed], false).
Proof. vm_compute. reflexivity. Qed.
Lemma demo_main : summary (run (demo_profile exact) new_core (demo_descent exact)) = Some (PhMainDescent, [Armed; PowerAscend; Coast; Descent], false).
Proof. vm_compute. reflexivity. Qed.

(** C46 refuted for the primary core: a nominal flight releases the main chute
    and lands without any deployment ever being announced *)
Theorem C46_refuted : exists c es, run (demo_profile exact) new_core (demo_flight exact) = Some (c, es) /\
  main_release (demo_profile exact) (demo_flight exact) /\
  changes (concat es) = [Armed; PowerAscend; Coast; Descent; Landed] /\
  (forall k, ~ announced es k DrogueChuteDeployed /\ ~ announced es k MainChuteDeployed).
Proof.
  pose proof demo_landed as R. pose proof demo_main as R1.
  assert (E : demo_flight exact = demo_descent exact ++ [snap exact 20000 0 10 30 0]) by reflexivity.
  destruct (run (demo_profile exact) new_core (demo_flight exact)) as [[c es]|] eqn:Q; [|discriminate R].
  destruct (run (demo_profile exact) new_core (demo_descent exact)) as [[c1 es1]|] eqn:Q1; [|discriminate R1].
  cbn [summary] in R, R1. exists c, es. split; [reflexivity|]. split; [|split].
  - rewrite E. apply main_app. apply (C43_main_release _ _ c1 es1 Q1). congruence.
  - congruence.
  - intros k. exact (C46_primary_is_silent _ _ _ _ k Q).
Qed.

(** the same in IEEE arithmetic: the machine's run announces the same *)
Example C42_case : summary (run (demo_profile ieee) new_core (demo_flight ieee)) = Some (PhLanded, [Armed; PowerAscend; Coast; Descent; Landed], false).
Proof. vm_compute. reflexivity. Qed.

(** a flight that misses the minimum apogee gives up without announcing landed *)
Example C42_case_low : summary (run (demo_profile exact) new_core
    (firstn 108 (demo_flight exact) ++ [snap exact 5000 0 10 80 (-1); snap exact 5005 0 10 80 (-1); snap exact 9000 0 10 30 0])) =
  Some (PhLanded, [Armed; PowerAscend; Coast; Descent], true).
Proof. vm_compute. reflexivity. Qed.

Definition rd (A : numerics) (t alt v : Z) : reading A := Reading (lit64 (inject_Z t)) (lit32 (inject_Z alt)) (lit32 (inject_Z v)).
Example C44_case : match brun (demo_profile ieee) new_backup
    [rd ieee 0 30 0; rd ieee 1000 2000 100; rd ieee 5000 1900 (-21); rd ieee 6000 1800 (-30); rd ieee 6001 1800 (-30);
     rd ieee 7000 529 (-20); rd ieee 8001 300 (-20); rd ieee 9000 30 0] with
  | Some (_, es) => map changes es = [[Armed]; []; []; []; [DrogueChuteDeployed]; []; [MainChuteDeployed]; [Landed]]
  | None => False end.
Proof. vm_compute. reflexivity. Qed.

Example C45_case : map changes (snd (mrun (demo_profile ieee) MArmed
   [MTick (lit64 0); MTrigger (lit64 10); MTrigger (lit64 20); MTick (lit64 5009); MTick (lit64 5010); MTick (lit64 8009); MTick (lit64 8010); MTick (lit64 9000)]))
  = [[]; [DrogueChuteDeployed]; []; []; [MainChuteDeployed]; []; [Landed]; []].
Proof. vm_compute. reflexivity. Qed.

Print Assumptions C42_announced_in_order.
Print Assumptions C42_one_phase_at_a_time.
Print Assumptions C42_never_backwards.
Print Assumptions C43_drogue_phase_after_apogee.
Print Assumptions C43_main_phase_after_drogue.
Print Assumptions C43_main_release.
Print Assumptions C44_backup_deploys_in_order.
Print Assumptions C44_backup_does_deploy.
Print Assumptions C45_manual_deploys_in_order.
Print Assumptions C46_backup_cores_partial.
Print Assumptions C46_primary_is_silent.
Print Assumptions C46_refuted.

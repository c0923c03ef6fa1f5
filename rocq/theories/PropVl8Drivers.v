(** * C109: the continuity, arming and GPS drivers of the flight computer follow the power board's events. *)
From Verif Require Import Base Vl8 Vl8Drivers.
From Coq Require Import Lia.
Local Open Scope N_scope.

(** ** Specification *)
(** the values that some events carry for a driver *)
Definition values_for (k : kind) (es : list event) : list payload :=
  flat_map (fun e => match claims k e with Some (Some v) => [v] | _ => [] end) es.
Inductive subseq {T} : list T -> list T -> Prop :=
| ss_nil : subseq [] []
| ss_keep x a b : subseq a b -> subseq (x :: a) (x :: b)
| ss_skip x a b : subseq a b -> subseq a (x :: b).
Definition last_value (l : list payload) : option payload := match rev l with [] => None | v :: _ => Some v end.
Definition the_bool (o : option payload) : bool := match o with Some (PBool b) => b | _ => false end.
(** the answer to a driver's initial request *)
Definition initial (i : nat) (es : list mevent) : list payload :=
  flat_map (fun e => match e with MInit j (Some b) => if Nat.eqb j i then [PBool b] else [] | _ => [] end) es.
(** the events poll_event was answered *)
Definition reported (es : list mevent) : list event := flat_map (fun e => match e with MEvent e => [e] | _ => [] end) es.
Definition for_somebody (ds : list driver) (e : event) : Prop := exists d, In d ds /\ claims (d_kind d) e <> None.
(** an event arrives only when the previous one has been looked at by the driver it is for, if any *)
Fixpoint in_turn (m : master) (es : list mevent) : Prop :=
  match es with
  | [] => True
  | e :: t => match e with MEvent _ => forall x, m_slot m = Some x -> ~ for_somebody (m_drivers m) x | _ => True end /\
              match mstep m e with Some m' => in_turn m' t | None => True end
  end.
Definition tasks (ds : list driver) : list nat := nodup Nat.eq_dec (map d_task ds).
(** drivers as their constructors make them *)
Definition fresh (ds : list driver) : Prop := Forall (fun d => d = new_driver (d_kind d) (d_task d)) ds.

(** ** Proofs *)
Lemma subseq_app {T} (a b c d : list T) : subseq a b -> subseq c d -> subseq (a ++ c) (b ++ d).
Proof. induction 1; cbn [app]; auto; intros; constructor; auto. Qed.
Lemma subseq_none {T} (a : list T) : subseq [] a.
Proof. induction a; constructor; auto. Qed.
Lemma subseq_refl {T} (a : list T) : subseq a a.
Proof. induction a; constructor; auto. Qed.
Lemma subseq_more {T} (a b c : list T) : subseq a b -> subseq a (b ++ c).
Proof. intros H. rewrite <- (app_nil_r a). apply subseq_app; [exact H|apply subseq_none]. Qed.
Lemma values_app k a b : values_for k (a ++ b) = values_for k a ++ values_for k b.
Proof. apply flat_map_app. Qed.
Lemma last_snoc l v : last_value (l ++ [v]) = Some v.
Proof. unfold last_value. rewrite rev_app_distr. reflexivity. Qed.

Definition updated (d : driver) (v : payload) : driver := mkDriver (d_kind d) (d_task d) false (Some v) (Some v) (d_seen d ++ [v]).
Lemma register_spec t w : NoDup w -> NoDup (register t w) /\ (forall x, In x (register t w) -> x = t \/ In x w) /\ incl w (register t w) /\ (In t (register t w) \/ register t w = w /\ (10 <= length w)%nat).
Proof.
  intros Nd. unfold register. destruct (in_dec Nat.eq_dec t w) as [I|N]; [repeat split; auto; apply incl_refl|].
  destruct (Nat.ltb_spec (length w) 10).
  - split; [|split; [|split]].
    + clear -Nd N. induction w as [|x w IH]; cbn [app]; [repeat constructor; intros []|]. inversion Nd; subst. constructor; [|apply IH; [assumption|intros X; apply N; right; exact X]].
      intros X. apply in_app_or in X. destruct X as [X|[->|[]]]; [contradiction|apply N; left; reflexivity].
    + intros x X. apply in_app_or in X. destruct X as [X|[<-|[]]]; auto.
    + apply incl_appl, incl_refl.
    + left. apply in_or_app. right. left. reflexivity.
  - repeat split; auto. apply incl_refl.
Qed.

Lemma poll_task_spec t ds : forall slot w slot' w' ds', NoDup w -> poll_task t slot w ds = Some (slot', w', ds') ->
  NoDup w' /\ (forall x, In x w' -> x = t \/ In x w) /\ incl w w' /\
  ((exists d, In d ds /\ d_task d = t /\ d_init d = false) -> In t w' \/ (10 <= length w')%nat) /\
  ((slot' = slot /\ ds' = ds /\ forall e d, slot = Some e -> In d ds -> d_task d = t -> d_init d = false -> claims (d_kind d) e = None) \/
   exists e ds1 d ds2 v, slot = Some e /\ slot' = None /\ ds = ds1 ++ d :: ds2 /\ d_task d = t /\ d_init d = false /\ claims (d_kind d) e = Some (Some v) /\ ds' = ds1 ++ updated d v :: ds2).
Proof.
  induction ds as [|d ds IH]; intros slot w slot' w' ds' Nd H; cbn [poll_task] in H.
  - injection H as <- <- <-. split; [exact Nd|]. split; [auto|]. split; [apply incl_refl|]. split; [intros (d & [] & _)|]. left. repeat split. intros e d _ [].
  - assert (Skip : forall s2 w2 r', poll_task t slot w ds = Some (s2, w2, r') -> (d_task d <> t \/ d_init d = true) -> Some (s2, w2, d :: r') = Some (slot', w', ds') ->
      NoDup w' /\ (forall x, In x w' -> x = t \/ In x w) /\ incl w w' /\
      ((exists d0, In d0 (d :: ds) /\ d_task d0 = t /\ d_init d0 = false) -> In t w' \/ (10 <= length w')%nat) /\
      ((slot' = slot /\ ds' = d :: ds /\ forall e d0, slot = Some e -> In d0 (d :: ds) -> d_task d0 = t -> d_init d0 = false -> claims (d_kind d0) e = None) \/
       exists e ds1 d0 ds2 v, slot = Some e /\ slot' = None /\ d :: ds = ds1 ++ d0 :: ds2 /\ d_task d0 = t /\ d_init d0 = false /\ claims (d_kind d0) e = Some (Some v) /\ ds' = ds1 ++ updated d0 v :: ds2)).
    { intros s2 w2 r' E Sk [= <- <- <-]. destruct (IH _ _ _ _ _ Nd E) as (N2 & I2 & C2 & F2 & O). split; [exact N2|]. split; [exact I2|]. split; [exact C2|]. split.
      - intros (d0 & [<-|I0] & T0 & X0); [destruct Sk; congruence|]. apply F2. eauto.
      - destruct O as [(-> & -> & O)|(e & ds1 & d0 & ds2 & v & -> & -> & -> & T0 & X0 & C0 & ->)].
        + left. repeat split. intros e d0 Es [<-|I0] T0 X0; [destruct Sk; congruence|eauto].
        + right. exists e, (d :: ds1), d0, ds2, v. repeat split; auto. }
    destruct (Nat.eqb_spec (d_task d) t) as [Et|Nt].
    2:{ destruct (poll_task t slot w ds) as [[[s2 w2] r']|] eqn:E; [|discriminate]. exact (Skip s2 w2 r' eq_refl (or_introl Nt) H). }
    destruct (d_init d) eqn:Ei.
    { unfold poll_driver in H. rewrite Ei in H. destruct (poll_task t slot w ds) as [[[s2 w2] r']|] eqn:E; [|discriminate]. exact (Skip s2 w2 r' eq_refl (or_intror eq_refl) H). }
    clear Skip. destruct (register_spec (d_task d) w Nd) as (Nr & Ir & Cr & Fr).
    assert (Leave : forall s2 w2 r', (forall e, slot = Some e -> claims (d_kind d) e = None) -> poll_task t slot (register (d_task d) w) ds = Some (s2, w2, r') -> Some (s2, w2, d :: r') = Some (slot', w', ds') ->
      NoDup w' /\ (forall x, In x w' -> x = t \/ In x w) /\ incl w w' /\
      ((exists d0, In d0 (d :: ds) /\ d_task d0 = t /\ d_init d0 = false) -> In t w' \/ (10 <= length w')%nat) /\
      ((slot' = slot /\ ds' = d :: ds /\ forall e d0, slot = Some e -> In d0 (d :: ds) -> d_task d0 = t -> d_init d0 = false -> claims (d_kind d0) e = None) \/
       exists e ds1 d0 ds2 v, slot = Some e /\ slot' = None /\ d :: ds = ds1 ++ d0 :: ds2 /\ d_task d0 = t /\ d_init d0 = false /\ claims (d_kind d0) e = Some (Some v) /\ ds' = ds1 ++ updated d0 v :: ds2)).
    { intros s2 w2 r' Nc E [= <- <- <-]. destruct (IH _ _ _ _ _ Nr E) as (N2 & I2 & C2 & F2 & O). split; [exact N2|]. split.
      { intros x X. destruct (I2 x X) as [->|X2]; [left; reflexivity|]. destruct (Ir x X2) as [->|X3]; [left; exact Et|right; exact X3]. }
      split; [eapply incl_tran; eauto|]. split.
      - intros _. rewrite Et in Fr. destruct Fr as [Fr|[Er Lr]]; [left; apply C2; rewrite Et; exact Fr|right].
        transitivity (length (register (d_task d) w)); [rewrite Et, Er; exact Lr|]. apply NoDup_incl_length; [exact Nr|exact C2].
      - destruct O as [(-> & -> & O)|(e & ds1 & d0 & ds2 & v & -> & -> & -> & T0 & X0 & C0 & ->)].
        + left. repeat split. intros e d0 Es [<-|I0] T0 X0; [apply Nc; exact Es|eauto].
        + right. exists e, (d :: ds1), d0, ds2, v. repeat split; auto. }
    unfold poll_driver in H. rewrite Ei in H. destruct slot as [e|].
    + destruct (claims (d_kind d) e) as [[v|]|] eqn:Ec; [| |].
      * destruct (poll_task t None (register (d_task d) w) ds) as [[[s2 w2] r']|] eqn:E; [|discriminate]. injection H as <- <- <-.
        destruct (IH _ _ _ _ _ Nr E) as (N2 & I2 & C2 & F2 & O). split; [exact N2|]. split.
        { intros x X. destruct (I2 x X) as [->|X2]; [left; reflexivity|]. destruct (Ir x X2) as [->|X3]; [left; exact Et|right; exact X3]. }
        split; [eapply incl_tran; eauto|]. split.
        { intros _. rewrite Et in Fr. destruct Fr as [Fr|[Er Lr]]; [left; apply C2; rewrite Et; exact Fr|right].
          transitivity (length (register (d_task d) w)); [rewrite Et, Er; exact Lr|]. apply NoDup_incl_length; [exact Nr|exact C2]. }
        destruct O as [(-> & -> & O)|(e' & ds1 & d0 & ds2 & v' & X & _)]; [|discriminate X].
        right. exists e, [], d, ds, v. repeat split; auto.
      * discriminate.
      * destruct (poll_task t (Some e) (register (d_task d) w) ds) as [[[s2 w2] r']|] eqn:E; [|discriminate]. apply (Leave s2 w2 r'); [intros e' [= <-]; exact Ec|exact eq_refl|exact H].
    + destruct (poll_task t None (register (d_task d) w) ds) as [[[s2 w2] r']|] eqn:E; [|discriminate]. apply (Leave s2 w2 r'); [discriminate|exact eq_refl|exact H].
Qed.

Definition slot_list (o : option event) : list event := match o with Some e => [e] | None => [] end.
(** what a driver has taken of the events [r] that are no longer in the slot: all that are for it, or some of them *)
Definition got (strict : bool) (k : kind) (r : list event) (taken : list payload) : Prop :=
  if strict then taken = values_for k r else subseq taken (values_for k r).
Definition val_ok (d : driver) : Prop :=
  match d_kind d with KGps => d_value d = None \/ d_value d = last_value (d_seen d) | _ => d_value d = last_value (d_seen d) end /\
  (forall v, d_signal d = Some v -> last_value (d_seen d) = Some v).
Definition dinv (strict : bool) (r : list event) (ini : list payload) (d : driver) : Prop :=
  exists taken, d_seen d = ini ++ taken /\ got strict (d_kind d) r taken /\ (d_init d = true -> ini = [] /\ taken = []) /\ val_ok d.
Record minv (strict : bool) (ds0 : list driver) (m : master) (es : list mevent) : Prop := {
  mi_kinds : map d_kind (m_drivers m) = map d_kind ds0;
  mi_tasks : map d_task (m_drivers m) = map d_task ds0;
  mi_rep : m_reported m = reported es;
  mi_r : exists r, m_reported m = r ++ slot_list (m_slot m) /\ forall i d, nth_error (m_drivers m) i = Some d -> dinv strict r (initial i es) d }.

Lemma got_more strict k r taken x : got strict k r taken -> (strict = true -> claims k x = None) -> got strict k (r ++ [x]) taken.
Proof.
  unfold got. destruct strict; intros H C.
  - rewrite values_app, <- H. unfold values_for. cbn [flat_map]. rewrite (C eq_refl). cbn. rewrite app_nil_r. reflexivity.
  - rewrite values_app. apply subseq_more. exact H.
Qed.
Lemma got_take strict k r taken e v : got strict k r taken -> claims k e = Some (Some v) -> got strict k (r ++ [e]) (taken ++ [v]).
Proof.
  unfold got. intros H C. assert (E : values_for k [e] = [v]) by (unfold values_for; cbn [flat_map]; rewrite C; reflexivity).
  destruct strict; rewrite values_app, E; [congruence|]. apply subseq_app; [exact H|apply subseq_refl].
Qed.
Lemma dinv_more strict r ini d x : dinv strict r ini d -> (strict = true -> claims (d_kind d) x = None) -> dinv strict (r ++ [x]) ini d.
Proof. intros (taken & S & G & I & V) C. exists taken. split; [exact S|]. split; [apply got_more; assumption|]. auto. Qed.
Lemma claims_unique k k' e : k <> k' -> claims k e <> None -> claims k' e = None.
Proof.
  intros N C. destruct k, k', e; cbn [claims] in *; try reflexivity; try congruence. destruct (N.eqb_spec channel1 channel); [|congruence].
  destruct (N.eqb_spec channel1 channel0); congruence.
Qed.

Lemma nth_mid {T} (a b : list T) x y i : nth_error (a ++ x :: b) i = Some y -> i = length a /\ y = x \/ i <> length a /\ nth_error (a ++ x :: b) i = Some y.
Proof.
  intros H. destruct (Nat.eq_dec i (length a)) as [->|N]; [|auto]. left. rewrite nth_error_app2, Nat.sub_diag in H by lia. cbn in H. injection H as <-. auto.
Qed.
Lemma nth_other {T} (a b : list T) x x' i : i <> length a -> nth_error (a ++ x :: b) i = nth_error (a ++ x' :: b) i.
Proof.
  intros N. destruct (Nat.lt_ge_cases i (length a)).
  - rewrite !nth_error_app1 by lia. reflexivity.
  - rewrite !nth_error_app2 by lia. destruct (i - length a)%nat eqn:E; [lia|reflexivity].
Qed.

(** a task is polled *)
Lemma polled_inv strict ds0 m m' es ds t : (strict = true -> NoDup (map d_kind ds0)) -> NoDup (m_wakers m) ->
  map d_kind ds = map d_kind ds0 -> map d_task ds = map d_task ds0 -> m_reported m = reported es ->
  (exists r, m_reported m = r ++ slot_list (m_slot m) /\ forall i d, nth_error ds i = Some d -> dinv strict r (initial i es) d) ->
  polled m t ds = Some m' -> minv strict ds0 m' es.
Proof.
  intros Nk Nw Mk Mt Mr (r & Er & Di) H. unfold polled in H. destruct (poll_task t (m_slot m) (m_wakers m) ds) as [[[slot w] ds']|] eqn:E; [|discriminate]. injection H as <-.
  destruct (poll_task_spec t ds _ _ _ _ _ Nw E) as (_ & _ & _ & _ & [(-> & -> & _)|(e & ds1 & d & ds2 & v & Es & -> & -> & Et & Ei & Ec & ->)]).
  - constructor; cbn [m_drivers m_reported m_slot]; eauto.
  - constructor; cbn [m_drivers m_reported m_slot].
    + rewrite <- Mk, !map_app. reflexivity.
    + rewrite <- Mt, !map_app. reflexivity.
    + exact Mr.
    + rewrite Es in Er. cbn [slot_list] in *. exists (r ++ [e]). split; [rewrite app_nil_r; exact Er|]. intros i d0 H0.
      destruct (nth_mid _ _ _ _ _ H0) as [(-> & ->)|(Ne & H1)].
      * assert (Hd : nth_error (ds1 ++ d :: ds2) (length ds1) = Some d) by (rewrite nth_error_app2, Nat.sub_diag by lia; reflexivity).
        destruct (Di _ d Hd) as (taken & Ed & G & _ & [V1 V2]). exists (taken ++ [v]). unfold updated. cbn [d_seen d_kind d_init].
        split; [rewrite Ed, app_assoc; reflexivity|]. split; [apply got_take; assumption|]. split; [discriminate|].
        split; cbn [d_kind d_value d_seen d_signal]; rewrite last_snoc; [destruct (d_kind d); auto|intros v' [= <-]; reflexivity].
      * rewrite (nth_other _ _ _ d _ Ne) in H1. specialize (Di i d0 H1). apply dinv_more; [exact Di|]. intros St. specialize (Nk St).
        apply (claims_unique (d_kind d)); [|congruence]. intros X. apply Ne.
        rewrite <- Mk in Nk. assert (A1 : nth_error (map d_kind (ds1 ++ d :: ds2)) i = Some (d_kind d0)) by (rewrite nth_error_map, H1; reflexivity).
        assert (A2 : nth_error (map d_kind (ds1 ++ d :: ds2)) (length ds1) = Some (d_kind d)).
        { rewrite nth_error_map, nth_error_app2, Nat.sub_diag by lia. reflexivity. }
        eapply NoDup_nth_error; [exact Nk|apply nth_error_Some; congruence|congruence].
Qed.

Lemma set_nth i d ds d0 : nth_error ds i = Some d0 -> set_driver i d ds = firstn i ds ++ d :: skipn (S i) ds /\ ds = firstn i ds ++ d0 :: skipn (S i) ds /\ length (firstn i ds) = i.
Proof.
  intros H. split; [reflexivity|]. split.
  - revert i H. induction ds as [|x ds IH]; intros [|i] H; cbn in *; try discriminate; [injection H as ->; reflexivity|]. f_equal. apply IH. exact H.
  - rewrite firstn_length. assert (i < length ds)%nat by (apply nth_error_Some; congruence). lia.
Qed.
Lemma set_map {B} (f : driver -> B) i d ds d0 : nth_error ds i = Some d0 -> f d = f d0 -> map f (set_driver i d ds) = map f ds.
Proof. intros H E. destruct (set_nth i d ds d0 H) as (-> & Eq & _). rewrite Eq at 3. rewrite !map_app. cbn [map]. rewrite E. reflexivity. Qed.
Lemma set_look i d ds d0 j x : nth_error ds i = Some d0 -> nth_error (set_driver i d ds) j = Some x -> j = i /\ x = d \/ j <> i /\ nth_error ds j = Some x.
Proof.
  intros H Hj. destruct (set_nth i d ds d0 H) as (Es & Eq & L). rewrite Es in Hj. destruct (nth_mid _ _ _ _ _ Hj) as [(-> & ->)|(N & H1)]; [left; auto|].
  right. split; [congruence|]. rewrite Eq. rewrite <- H1. apply nth_other. exact N.
Qed.

Lemma initial_snoc i es e : initial i (es ++ [e]) = initial i es ++ match e with MInit j (Some b) => if Nat.eqb j i then [PBool b] else [] | _ => [] end.
Proof. unfold initial. rewrite flat_map_app. cbn [flat_map]. rewrite app_nil_r. reflexivity. Qed.
Lemma reported_snoc es e : reported (es ++ [e]) = reported es ++ match e with MEvent e => [e] | _ => [] end.
Proof. unfold reported. rewrite flat_map_app. cbn [flat_map]. rewrite app_nil_r. reflexivity. Qed.

Lemma minv_step strict ds0 m es e m' : (strict = true -> NoDup (map d_kind ds0)) -> NoDup (m_wakers m) ->
  (strict = true -> match e with MEvent _ => forall x, m_slot m = Some x -> ~ for_somebody (m_drivers m) x | _ => True end) ->
  minv strict ds0 m es -> mstep m e = Some m' -> minv strict ds0 m' (es ++ [e]).
Proof.
  intros Nk Nw It [Mk Mt Mr (r & Er & Di)] H. destruct e as [e|t|i o|i|i]; cbn [mstep] in H.
  - injection H as <-. constructor; cbn [m_drivers m_reported m_slot]; auto.
    + rewrite reported_snoc, Mr. reflexivity.
    + cbn [slot_list]. exists (m_reported m). split; [reflexivity|]. intros i d Hd. rewrite initial_snoc, app_nil_r. specialize (Di i d Hd). rewrite Er.
      destruct (m_slot m) as [x|] eqn:Sl; cbn [slot_list]; [|rewrite app_nil_r; exact Di]. apply dinv_more; [exact Di|]. intros St. specialize (It St x eq_refl).
      destruct (claims (d_kind d) x) as [o|] eqn:Ec; [|reflexivity]. exfalso. apply It. exists d. split; [eapply nth_error_In; eauto|congruence].
  - eapply polled_inv; eauto.
    + rewrite reported_snoc, app_nil_r. exact Mr.
    + exists r. split; [exact Er|]. intros i d Hd. rewrite initial_snoc, app_nil_r. auto.
  - destruct (nth_error (m_drivers m) i) as [d|] eqn:Ed; [|discriminate]. destruct (d_init d) eqn:Ei; [|discriminate].
    destruct (Di i d Ed) as (taken & Se & G & In & [V1 V2]). destruct (In Ei) as [I0 T0]. rewrite I0, T0 in Se. cbn [app] in Se. subst taken.
    eapply polled_inv; [exact Nk|exact Nw| | | | |exact H].
    + rewrite <- Mk. apply (set_map d_kind i _ _ d Ed). destruct o; reflexivity.
    + rewrite <- Mt. apply (set_map d_task i _ _ d Ed). destruct o; reflexivity.
    + rewrite reported_snoc, app_nil_r. exact Mr.
    + exists r. split; [exact Er|]. intros j x Hx. rewrite initial_snoc. destruct (set_look _ _ _ _ _ _ Ed Hx) as [(-> & ->)|(N & Hj)].
      * rewrite I0. destruct o as [b|].
        -- rewrite Nat.eqb_refl. exists []. cbn [d_seen d_kind d_init app]. rewrite Se. split; [reflexivity|]. split; [exact G|]. split; [discriminate|].
           split; cbn [d_kind d_value d_seen d_signal]; [destruct (d_kind d); auto|intros v [= <-]; reflexivity].
        -- exists []. cbn [d_seen d_kind d_init app]. rewrite Se. split; [reflexivity|]. split; [exact G|]. split; [discriminate|].
           split; cbn [d_kind d_value d_seen d_signal]; [rewrite Se in V1; exact V1|rewrite Se in V2; exact V2].
      * assert (X : match o with Some b => if Nat.eqb i j then [PBool b] else [] | None => [] end = []) by (destruct o; [destruct (Nat.eqb_spec i j); congruence|reflexivity]).
        rewrite X, app_nil_r. auto.
  - destruct (nth_error (m_drivers m) i) as [d|] eqn:Ed; [|discriminate].
    assert (Q : Some (mkMaster (m_slot m) (m_wakers m) (m_ready m) (set_driver i (mkDriver (d_kind d) (d_task d) (d_init d) (d_value d) None (d_seen d)) (m_drivers m)) (m_reported m)) = Some m').
    { destruct (d_kind d), (d_signal d); try discriminate; exact H. } clear H. injection Q as <-.
    constructor; cbn [m_drivers m_reported m_slot].
    + rewrite <- Mk. apply (set_map d_kind i _ _ d Ed). reflexivity.
    + rewrite <- Mt. apply (set_map d_task i _ _ d Ed). reflexivity.
    + rewrite reported_snoc, app_nil_r. exact Mr.
    + exists r. split; [exact Er|]. intros j x Hx. rewrite initial_snoc, app_nil_r. destruct (set_look _ _ _ _ _ _ Ed Hx) as [(-> & ->)|(N & Hj)]; [|auto].
      destruct (Di i d Ed) as (taken & Se & G & In & [V1 V2]). exists taken. cbn [d_seen d_kind d_init]. split; [exact Se|]. split; [exact G|]. split; [exact In|].
      split; cbn [d_kind d_value d_seen d_signal]; [exact V1|intros v X; discriminate X].
  - destruct (nth_error (m_drivers m) i) as [d|] eqn:Ed; [|discriminate].
    assert (Q : d_kind d = KGps /\ Some (mkMaster (m_slot m) (m_wakers m) (m_ready m) (set_driver i (mkDriver (d_kind d) (d_task d) (d_init d) None None (d_seen d)) (m_drivers m)) (m_reported m)) = Some m').
    { destruct (d_kind d), (d_signal d), (d_value d); try discriminate; auto. } clear H. destruct Q as [Ek Q]. injection Q as <-.
    constructor; cbn [m_drivers m_reported m_slot].
    + rewrite <- Mk. apply (set_map d_kind i _ _ d Ed). reflexivity.
    + rewrite <- Mt. apply (set_map d_task i _ _ d Ed). reflexivity.
    + rewrite reported_snoc, app_nil_r. exact Mr.
    + exists r. split; [exact Er|]. intros j x Hx. rewrite initial_snoc, app_nil_r. destruct (set_look _ _ _ _ _ _ Ed Hx) as [(-> & ->)|(N & Hj)]; [|auto].
      destruct (Di i d Ed) as (taken & Se & G & In & [V1 V2]). exists taken. cbn [d_seen d_kind d_init]. split; [exact Se|]. split; [exact G|]. split; [exact In|].
      split; cbn [d_kind d_value d_seen d_signal]; [rewrite Ek; auto|intros v X; discriminate X].
Qed.

(** the wakers *)
Record winv (ds0 : list driver) (m : master) : Prop := {
  wi_nodup : NoDup (m_wakers m);
  wi_incl : incl (m_wakers m) (map d_task ds0);
  wi_tasks : map d_task (m_drivers m) = map d_task ds0;
  wi_live : (length (tasks ds0) <= 10)%nat -> forall d, In d (m_drivers m) -> d_init d = false -> In (d_task d) (m_ready m) \/ In (d_task d) (m_wakers m) }.

Lemma full_all ds0 w t : NoDup w -> incl w (map d_task ds0) -> (10 <= length w)%nat -> (length (tasks ds0) <= 10)%nat -> In t (map d_task ds0) -> In t w.
Proof.
  intros Nd In L T It. apply (NoDup_length_incl (l := w) (l' := tasks ds0)); [exact Nd|lia| |apply nodup_In; exact It].
  intros x X. apply nodup_In. apply In. exact X.
Qed.
Lemma polled_winv ds0 m ds t m' : NoDup (m_wakers m) -> incl (m_wakers m) (map d_task ds0) -> map d_task ds = map d_task ds0 ->
  ((length (tasks ds0) <= 10)%nat -> forall d, In d ds -> d_init d = false -> d_task d = t \/ In (d_task d) (m_ready m) \/ In (d_task d) (m_wakers m)) ->
  In t (map d_task ds0) -> polled m t ds = Some m' -> winv ds0 m'.
Proof.
  intros Nd Ic Mt Lv It H. unfold polled in H. destruct (poll_task t (m_slot m) (m_wakers m) ds) as [[[slot w] ds']|] eqn:E; [|discriminate]. injection H as <-.
  destruct (poll_task_spec t ds _ _ _ _ _ Nd E) as (Nw & Iw & Cw & Fw & O).
  assert (Ic' : incl w (map d_task ds0)) by (intros x X; destruct (Iw x X) as [->|X2]; auto).
  assert (Same : map d_task ds' = map d_task ds /\ forall d', In d' ds' -> d_init d' = false -> exists d, In d ds /\ d_task d = d_task d' /\ d_init d = false).
  { destruct O as [(_ & -> & _)|(e & ds1 & d & ds2 & v & _ & _ & -> & Et & Ei & _ & ->)]; [split; [reflexivity|eauto]|]. split; [rewrite !map_app; reflexivity|].
    intros d' I' E'. apply in_app_or in I'. destruct I' as [I'|[<-|I']]; [exists d'|exists d|exists d']; (split; [apply in_or_app; cbn; auto|]); auto. }
  destruct Same as [Sm Sd]. constructor; cbn [m_wakers m_drivers m_ready]; [exact Nw|exact Ic'|congruence|].
  intros T d' I' E'. destruct (Sd d' I' E') as (d & I & <- & Ei). destruct (Nat.eq_dec (d_task d) t) as [Et|Nt].
  - right. rewrite Et. destruct Fw as [F|F]; [eauto|exact F|]. eapply full_all; eauto.
  - destruct (Lv T d I Ei) as [X|[X|X]]; [contradiction| |right; apply Cw; exact X]. left. apply in_in_remove; [exact Nt|exact X].
Qed.
Lemma winv_step ds0 m e m' : winv ds0 m -> (match e with MRun t => In t (map d_task ds0) | _ => True end) -> mstep m e = Some m' -> winv ds0 m'.
Proof.
  intros [Nd Ic Mt Lv] Ht H. destruct e as [e|t|i o|i|i]; cbn [mstep] in H.
  - injection H as <-. constructor; cbn [m_wakers m_drivers m_ready]; [constructor|intros x []|exact Mt|]. intros T d I Ei. left. apply in_or_app. destruct (Lv T d I Ei); auto.
  - apply (polled_winv ds0 m (m_drivers m) t m'); auto.
  - destruct (nth_error (m_drivers m) i) as [d|] eqn:Ed; [|discriminate]. destruct (d_init d) eqn:Ei; [|discriminate].
    apply (polled_winv ds0 m _ (d_task d) m') in H; auto.
    + rewrite <- Mt. apply (set_map d_task i _ _ d Ed). destruct o; reflexivity.
    + intros T x Ix Ex. apply In_nth_error in Ix. destruct Ix as (j & Hj). destruct (set_look _ _ _ _ _ _ Ed Hj) as [(-> & ->)|(N & Hj')]; [left; destruct o; reflexivity|].
      right. apply (Lv T x); [eapply nth_error_In; eauto|exact Ex].
    + rewrite <- Mt. apply in_map. eapply nth_error_In; eauto.
  - destruct (nth_error (m_drivers m) i) as [d|] eqn:Ed; [|discriminate].
    assert (Q : Some (mkMaster (m_slot m) (m_wakers m) (m_ready m) (set_driver i (mkDriver (d_kind d) (d_task d) (d_init d) (d_value d) None (d_seen d)) (m_drivers m)) (m_reported m)) = Some m').
    { destruct (d_kind d), (d_signal d); try discriminate; exact H. } clear H. injection Q as <-.
    constructor; cbn [m_wakers m_drivers m_ready]; [exact Nd|exact Ic|rewrite <- Mt; apply (set_map d_task i _ _ d Ed); reflexivity|].
    intros T x Ix Ex. apply In_nth_error in Ix. destruct Ix as (j & Hj). destruct (set_look _ _ _ _ _ _ Ed Hj) as [(-> & ->)|(N & Hj')].
    + cbn [d_task d_init] in *. apply (Lv T d); [eapply nth_error_In; eauto|exact Ex].
    + apply (Lv T x); [eapply nth_error_In; eauto|exact Ex].
  - destruct (nth_error (m_drivers m) i) as [d|] eqn:Ed; [|discriminate].
    assert (Q : Some (mkMaster (m_slot m) (m_wakers m) (m_ready m) (set_driver i (mkDriver (d_kind d) (d_task d) (d_init d) None None (d_seen d)) (m_drivers m)) (m_reported m)) = Some m').
    { destruct (d_kind d), (d_signal d), (d_value d); try discriminate; auto. } clear H. injection Q as <-.
    constructor; cbn [m_wakers m_drivers m_ready]; [exact Nd|exact Ic|rewrite <- Mt; apply (set_map d_task i _ _ d Ed); reflexivity|].
    intros T x Ix Ex. apply In_nth_error in Ix. destruct Ix as (j & Hj). destruct (set_look _ _ _ _ _ _ Ed Hj) as [(-> & ->)|(N & Hj')].
    + cbn [d_task d_init] in *. apply (Lv T d); [eapply nth_error_In; eauto|exact Ex].
    + apply (Lv T x); [eapply nth_error_In; eauto|exact Ex].
Qed.

(** tasks that exist are polled *)
Definition real_tasks (ds : list driver) (es : list mevent) : Prop := forall t, In (MRun t) es -> In t (map d_task ds).

Lemma run_inv strict ds0 (Nk : strict = true -> NoDup (map d_kind ds0)) es2 : forall es1 m m', winv ds0 m -> minv strict ds0 m es1 -> real_tasks ds0 es2 -> (strict = true -> in_turn m es2) ->
  mrun m es2 = Some m' -> winv ds0 m' /\ minv strict ds0 m' (es1 ++ es2).
Proof.
  induction es2 as [|e es2 IH]; intros es1 m m' W M Rt It H; [injection H as <-; rewrite app_nil_r; auto|]. cbn [mrun] in H. destruct (mstep m e) as [m1|] eqn:E; [|discriminate].
  replace (es1 ++ e :: es2) with ((es1 ++ [e]) ++ es2) by (rewrite <- app_assoc; reflexivity). apply (IH (es1 ++ [e]) m1 m').
  - eapply winv_step; [exact W| |exact E]. destruct e; try exact Logic.I. apply Rt. left. reflexivity.
  - eapply minv_step; [exact Nk|apply (wi_nodup _ _ W)| |exact M|exact E]. intros St. specialize (It St). cbn [in_turn] in It. exact (proj1 It).
  - intros t X. apply Rt. right. exact X.
  - intros St. specialize (It St). cbn [in_turn] in It. rewrite E in It. exact (proj2 It).
  - exact H.
Qed.
Lemma start_inv strict ds0 : fresh ds0 -> winv ds0 (new_master ds0) /\ minv strict ds0 (new_master ds0) [].
Proof.
  intros Fr. split.
  - constructor; cbn [new_master m_wakers m_drivers m_ready]; [constructor|intros x []|reflexivity|]. intros _ d I _. left. apply nodup_In, in_map. exact I.
  - constructor; cbn [new_master m_drivers m_reported m_slot]; [reflexivity|reflexivity|reflexivity|]. exists []. split; [reflexivity|]. intros i d Hd.
    apply nth_error_In in Hd. unfold fresh in Fr. rewrite Forall_forall in Fr. specialize (Fr d Hd). exists []. rewrite Fr. cbn. split; [reflexivity|].
    split; [unfold got; destruct strict; [reflexivity|constructor]|]. split; [auto|]. split; [destruct (d_kind d); cbn; auto|intros v X; discriminate X].
Qed.

(** ** The theorems *)
(** For every schedule: what a driver has stored is the answer to its initial request, if there was one, followed by values of reported
    events for it, in order, each once; what reading and waiting return is the last of these. *)
Theorem C109_follows_events : forall ds es m i d, fresh ds -> real_tasks ds es -> mrun (new_master ds) es = Some m -> nth_error (m_drivers m) i = Some d ->
  exists taken, d_seen d = initial i es ++ taken /\ subseq taken (values_for (d_kind d) (reported es)) /\
    (d_kind d <> KGps -> read_bool d = the_bool (last_value (d_seen d))) /\
    (d_kind d = KGps -> d_value d = None \/ d_value d = last_value (d_seen d)) /\
    (forall v, d_signal d = Some v -> last_value (d_seen d) = Some v).
Proof.
  intros ds es m i d Fr Rt H Hd. destruct (start_inv false ds Fr) as [W0 M0].
  destruct (run_inv false ds ltac:(discriminate) es [] _ m W0 M0 Rt ltac:(discriminate) H) as [_ [_ _ Mr (r & Er & Di)]]. cbn [app] in *.
  destruct (Di i d Hd) as (taken & Se & G & _ & [V1 V2]). exists taken. split; [exact Se|]. split; [rewrite <- Mr, Er, values_app; apply subseq_more; exact G|].
  split; [|split; [|exact V2]].
  - intros Nk. unfold read_bool, the_bool. destruct (d_kind d); [rewrite V1; reflexivity|rewrite V1; reflexivity|congruence].
  - intros Ek. rewrite Ek in V1. exact V1.
Qed.

(** With one driver per channel, and events fetched only when the previous one has been seen, nothing is missed: once no event for it is in
    the slot, a driver has stored its initial reading and every event reported for it, so it reads as the last of them. *)
Theorem C109_nothing_missed_partial : forall ds es m i d, fresh ds -> real_tasks ds es -> NoDup (map d_kind ds) -> in_turn (new_master ds) es ->
  mrun (new_master ds) es = Some m -> nth_error (m_drivers m) i = Some d -> (forall e, m_slot m = Some e -> claims (d_kind d) e = None) ->
  d_seen d = initial i es ++ values_for (d_kind d) (reported es).
Proof.
  intros ds es m i d Fr Rt Nk It H Hd Sl. destruct (start_inv true ds Fr) as [W0 M0].
  destruct (run_inv true ds (fun _ => Nk) es [] _ m W0 M0 Rt (fun _ => It) H) as [_ [_ _ Mr (r & Er & Di)]]. cbn [app] in *.
  destruct (Di i d Hd) as (taken & Se & G & _ & _). unfold got in G. rewrite Se, G, <- Mr, Er, values_app.
  destruct (m_slot m) as [e|]; cbn [slot_list values_for flat_map]; [rewrite (Sl e eq_refl)|]; rewrite app_nil_r; reflexivity.
Qed.

(** With at most ten tasks no wake-up is lost: whenever an event is reported, every driver past its initial request is about to be polled. *)
Theorem C109_woken : forall ds es e m d, fresh ds -> real_tasks ds es -> (length (tasks ds) <= 10)%nat -> mrun (new_master ds) (es ++ [MEvent e]) = Some m ->
  In d (m_drivers m) -> d_init d = false -> In (d_task d) (m_ready m).
Proof.
  intros ds es e m d Fr Rt T H I Ei. destruct (start_inv false ds Fr) as [W0 M0].
  destruct (mrun (new_master ds) es) as [m1|] eqn:E1.
  - assert (H' : mrun m1 [MEvent e] = Some m).
    { clear -H E1. revert H E1. generalize (new_master ds). induction es as [|x es IH]; intros m0 H E1; [injection E1 as <-; exact H|]. cbn [app mrun] in *. destruct (mstep m0 x); [eapply IH; eauto|discriminate]. }
    destruct (run_inv false ds ltac:(discriminate) es [] _ m1 W0 M0 Rt ltac:(discriminate) E1) as [[_ _ _ Lv] _]. cbn [mrun mstep] in H'. injection H' as <-. cbn [m_ready m_drivers] in *.
    apply in_or_app. exact (Lv T d I Ei).
  - exfalso. clear -H E1. revert H E1. generalize (new_master ds). induction es as [|x es IH]; intros m0 H E1; [discriminate|]. cbn [app mrun] in *. destruct (mstep m0 x); [eapply IH; eauto|discriminate].
Qed.

(** ** Where the code falls short, and a case that meets the hypotheses *)
Definition two : list driver := [new_driver (KContinuity 1) 0; new_driver KArming 1].
Lemma two_fresh : fresh two. Proof. repeat constructor. Qed.
Definition seen_by (o : option master) : option (list (list payload) * list bool * list nat) :=
  match o with Some m => Some (map d_seen (m_drivers m), map read_bool (m_drivers m), m_ready m) | None => None end.

Example ex_C109 : let es := [MInit 0 (Some true); MInit 1 (Some false); MEvent (EvContinuity 1 false); MRun 1; MRun 0; MEvent (EvHardwareArming true); MRun 0; MRun 1; MEvent (EvContinuity 1 true); MRun 0] in
  fresh two /\ real_tasks two es /\ NoDup (map d_kind two) /\ in_turn (new_master two) es /\ (length (tasks two) <= 10)%nat /\
  seen_by (mrun (new_master two) es) = Some ([[PBool true; PBool false; PBool true]; [PBool false; PBool true]], [true; true], [1]%nat).
Proof.
  cbv zeta. split; [exact two_fresh|]. split; [intros t X; cbn in *; intuition congruence|].
  split; [repeat constructor; cbn; intuition congruence|]. split; [|split; [cbn; lia|reflexivity]].
  cbn. repeat split; try discriminate; intros x [= <-] (d & I & C); cbn in *; intuition (subst; cbn in *; congruence).
Qed.

(** an event is overwritten when the next one is fetched before its driver has been polled: the driver keeps reading the old value *)
Theorem C109_refuted_overwritten : exists es m, mrun (new_master two) es = Some m /\ m_slot m = None /\ reported es = [EvContinuity 1 false; EvHardwareArming true] /\
  map read_bool (m_drivers m) = [true; true].
Proof. exists [MInit 0 (Some true); MInit 1 (Some false); MEvent (EvContinuity 1 false); MEvent (EvHardwareArming true); MRun 0; MRun 1]. eexists. repeat split. Qed.
(** with two drivers for one channel, the first to be polled takes the event: the other never learns of it *)
Theorem C109_refuted_two_drivers : let ds := [new_driver (KContinuity 1) 0; new_driver (KContinuity 1) 1] in
  exists es m, in_turn (new_master ds) es /\ mrun (new_master ds) es = Some m /\ m_slot m = None /\ reported es = [EvContinuity 1 true] /\ map read_bool (m_drivers m) = [true; false].
Proof.
  exists [MInit 0 (Some false); MInit 1 (Some false); MEvent (EvContinuity 1 true); MRun 0; MRun 1]. eexists. cbn. repeat split; discriminate.
Qed.
(** the eleventh task is not registered, so no event wakes it *)
Theorem C109_refuted_eleven_tasks : let ds := map (fun i => new_driver (KContinuity (N.of_nat i)) i) (seq 0 11) in
  exists es m, mrun (new_master ds) es = Some m /\ reported es = [EvContinuity 10 true] /\ forallb (fun d => negb (d_init d)) (m_drivers m) = true /\
    ~ In 10%nat (m_ready m) /\ ~ In 10%nat (m_wakers m) /\ m_slot m = Some (EvContinuity 10 true).
Proof.
  exists (map (fun i => MInit i (Some false)) (seq 0 11) ++ [MEvent (EvContinuity 10 true)]). eexists. split; [vm_compute; reflexivity|]. split; [reflexivity|]. split; [reflexivity|].
  cbn [m_ready m_wakers m_slot]. split; [intros X; cbn in X; intuition congruence|]. split; [intros []|reflexivity].
Qed.
(** a GPS sentence with bytes from 128 on panics when its UTF-8 form does not fit into 84 bytes; ASCII sentences never do *)
Theorem C109_ascii_sentence : forall s n, (length s <= 84)%nat -> Forall (fun b => b < 128) s -> as_string s n = Some (firstn (N.to_nat n) s).
Proof.
  intros s n L F. unfold as_string. assert (E : flat_map char_bytes (firstn (N.to_nat n) s) = firstn (N.to_nat n) s).
  { generalize (N.to_nat n). clear L n. induction F as [|b s B F IH]; intros [|k]; try reflexivity. cbn [firstn flat_map]. rewrite IH. unfold char_bytes. destruct (N.ltb_spec b 128); [reflexivity|lia]. }
  rewrite E. destruct (Nat.leb_spec (length (firstn (N.to_nat n) s)) 84); [reflexivity|]. rewrite firstn_length in *. lia.
Qed.
Theorem C109_refuted_sentence_panics : let e := EvNmea (255 :: repeat 65 83) 84 in
  mrun (new_master [new_driver KGps 0]) [MEvent e] <> None /\ mrun (new_master [new_driver KGps 0]) [MEvent e; MRun 0] = None.
Proof. split; [discriminate|reflexivity]. Qed.

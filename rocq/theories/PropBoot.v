(** * C105: the mode a device starts in. *)
From Coq Require Import Sorted Permutation.
From Verif Require Import Base Majority Flash FS Sectors SectorsProofs ATable TornCode TableCode TableScan TableBuild TableOps DirOps Chains FileIO FileFormat FileWrite WriteOps WriteSpec Disk Sessions DirState OpenOps Append OpenWrite FsSpec FsApi FsRefine FsBoot FsHistory PropDirectory PropFiles FsExec FsExamples Config PropConfig PropConsole PullAll PropPullAll Boot.
Local Open Scope N_scope.
Local Open Scope fs_scope.

(** ** Specification *)
(** The configurations a start may find: the one set last, if that was answered; after a set that was interrupted, also what was there
    before, the new one, and none. *)
Definition candidates (es : list levent) : list (option (list byte)) :=
  fold_left (fun cs e => match e with LSet d => [Some d] | LSetLost d => cs ++ [None; Some d] | _ => cs end) es [None].

(** no configuration is set *)
Definition quiet (es : list levent) : Prop := forall e, In e es -> match e with LSet _ | LSetLost _ => False | _ => True end.

(** the flash, whether or not the device is on *)
Definition flash_now (m : machine) : flash := match m with Off f => f | On y => fl (sfs y) end.

(** ** Proofs *)
Section Inv.
Variable crc : list byte -> N.
Hypothesis Hc : crc32 crc.
Variables (t : N) (n : nat).

(** no file of the configuration's type is in use *)
Definition at_rest (v : view) : Prop := forall x, In x (v_files v) -> f_typ x = t -> marked v (f_id x) = false /\ ~ In (f_id x) (map fst (v_wr v)).

Lemma at_rest_unused y v : Repr crc y v -> at_rest v -> unused y t.
Proof.
  intros R A es e Ei Hin Ht. destruct (repr_iter crc y v R) as (es' & Ei' & Em). rewrite Ei in Ei'. injection Ei' as <-.
  apply (in_map (fun e => (e_id e, e_typ e))) in Hin. rewrite Em in Hin. apply in_map_iff in Hin. destruct Hin as (x & Ex & Hx).
  assert (E3 : f_id x = e_id e /\ f_typ x = e_typ e) by (unfold f_id, f_typ; rewrite Ex; auto). destruct E3 as [E3 E4].
  destruct (A x Hx) as [B1 B2]; [congruence|]. destruct (repr_wr crc y v R) as [Ew _]. rewrite Ew, <- E3. split; [|exact B2].
  rewrite <- (marked_now crc y v _ R). exact B1.
Qed.

Lemma find_app_other F x : f_typ x <> t -> find (fun z => f_typ z =? t) (F ++ [x]) = find (fun z => f_typ z =? t) F.
Proof.
  intros N. induction F as [|a F IH]; cbn [app find].
  - apply N.eqb_neq in N. rewrite N. reflexivity.
  - destruct (f_typ a =? t); [reflexivity|exact IH].
Qed.
Lemma find_filter F Q : (forall x, In x F -> f_typ x = t -> Q x = true) -> find (fun z => f_typ z =? t) (filter Q F) = find (fun z => f_typ z =? t) F.
Proof.
  induction F as [|a F IH]; intros H; [reflexivity|]. cbn [filter find]. specialize (IH (fun x Hx => H x (or_intror Hx))).
  destruct (N.eqb_spec (f_typ a) t) as [E|N].
  - rewrite (H a (or_introl eq_refl) E). cbn [find]. apply N.eqb_eq in E. rewrite E. reflexivity.
  - destruct (Q a); [|exact IH]. cbn [find]. apply N.eqb_neq in N. rewrite N. exact IH.
Qed.
Lemma find_set F id d : (forall x, In x F -> f_typ x = t -> f_id x <> id) -> find (fun z => f_typ z =? t) (set_data id d F) = find (fun z => f_typ z =? t) F.
Proof.
  unfold set_data. induction F as [|a F IH]; intros H; [reflexivity|]. cbn [map find]. specialize (IH (fun x Hx => H x (or_intror Hx))).
  destruct (N.eqb_spec (f_id a) id) as [E|N].
  - change (f_typ (f_id a, f_typ a, d)) with (f_typ a). destruct (N.eqb_spec (f_typ a) t) as [Et|Nt]; [|exact IH].
    exfalso. exact (H a (or_introl eq_refl) Et E).
  - destruct (f_typ a =? t); [reflexivity|exact IH].
Qed.
Lemma config_find F G : find (fun z => f_typ z =? t) F = find (fun z => f_typ z =? t) G -> config_of F t n = config_of G t n.
Proof. unfold config_of. intros ->. reflexivity. Qed.

Lemma in_set id d F x : In x (set_data id d F) -> exists z, In z F /\ f_id z = f_id x /\ f_typ z = f_typ x.
Proof.
  unfold set_data. intros H. apply in_map_iff in H. destruct H as (z & <- & Hz). exists z. split; [exact Hz|]. destruct (f_id z =? id); auto.
Qed.
Lemma in_upd {A} (l : list A) k a x : In x (upd l k a) -> x = a \/ In x l.
Proof. revert k. induction l as [|b l IH]; intros [|k] H; cbn in *; try tauto; destruct H as [->|H]; auto. destruct (IH k H); auto. Qed.
Lemma in_without {A} (l : list A) k x : In x (without l k) -> In x l.
Proof.
  unfold without. revert k. induction l as [|a l IH]; intros k H; [destruct k; cbn in H; tauto|].
  destruct k as [|k]; cbn [firstn skipn app] in H; [right; exact H|]. destruct H as [->|H]; [left; reflexivity|right; exact (IH k H)].
Qed.
Lemma marked_app l id z F w r tp g : existsb (N.eqb z) l = false -> z <> id -> marked (mkV F w r (l ++ [id]) tp g) z = false.
Proof. intros H N. unfold marked. cbn [v_open]. rewrite existsb_app, H. cbn [existsb orb]. apply N.eqb_neq in N. rewrite N. reflexivity. Qed.
Lemma marked_remove l id z F w r tp g : existsb (N.eqb z) l = false -> marked (mkV F w r (remove N.eq_dec id l) tp g) z = false.
Proof.
  intros H. unfold marked. cbn [v_open]. destruct (existsb (N.eqb z) (remove N.eq_dec id l)) eqn:E; [|reflexivity]. apply existsb_exists in E. destruct E as (q & Hq & Eq).
  apply in_remove in Hq. destruct Hq as [Hq _]. assert (K : existsb (N.eqb z) l = true) by (apply existsb_exists; eauto). congruence.
Qed.

Definition off (v : view) (c : call) : Prop :=
  match c with
  | Create t' | CreateOpen t' => t' <> t
  | Remove sel => forall id, sel id t = false
  | OpenWrite id | OpenRead id => forall x, In x (v_files v) -> f_typ x = t -> f_id x <> id
  | _ => True
  end.
Lemma hands_off_view y v c : Repr crc y v -> hands_off t y c -> off v c.
Proof.
  intros R. destruct (repr_iter crc y v R) as (es & Ei & Em).
  assert (K : forall id, (forall es e, files_iter (sfs y) (fun _ => true) = Ok es -> In e es -> e_id e = id -> e_typ e <> t) ->
     forall x, In x (v_files v) -> f_typ x = t -> f_id x <> id).
  { intros id H x Hx Ht Hi. apply (in_map fst) in Hx. rewrite <- Em in Hx. apply in_map_iff in Hx. destruct Hx as (e & E1 & E2).
    assert (E3 : e_id e = f_id x /\ e_typ e = f_typ x) by (unfold f_id, f_typ; rewrite <- E1; auto). destruct E3 as [E3 E4].
    apply (H es e Ei E2); congruence. }
  destruct c; cbn [hands_off off]; auto.
Qed.

Lemma next_fresh v x : In x (v_files v) -> f_id x <> next_id v.
Proof. intros Hx E. apply (fresh_id v). rewrite <- E. apply in_map. exact Hx. Qed.

(** a call that leaves the file alone *)
Lemma does_off v c r v' : does v c r v' -> r <> RPanic -> off v c -> at_rest v ->
  config_of (v_files v') t n = config_of (v_files v) t n /\ at_rest v'.
Proof.
  intros D Hr O A.
  assert (Wr : forall k id pend, nth_error (v_wr v) k = Some (id, pend) -> forall x, In x (v_files v) -> f_typ x = t -> f_id x <> id).
  { intros k id pend E x Hx Ht Hi. destruct (A x Hx Ht) as [_ B]. apply B. rewrite Hi. apply nth_error_In in E. exact (in_map fst _ _ E). }
  destruct c as [t'|t'|sel|i|i|k d|k|k|k]; cbn [does off] in *.
  - destruct D as [[_ ->]|[-> _]]; [|congruence]. cbn [v_files]. split; [apply config_find, find_app_other; exact O|].
    intros x Hx Ht. cbn [v_files v_wr] in *. apply in_app_or in Hx. destruct Hx as [Hx|[<-|[]]]; [exact (A x Hx Ht)|exfalso; apply O; exact Ht].
  - destruct D as [[_ ->]| ->]; [|congruence]. cbn [v_files]. split; [apply config_find, find_app_other; exact O|].
    intros x Hx Ht. cbn [v_files v_wr] in *. apply in_app_or in Hx. destruct Hx as [Hx|[<-|[]]]; [|exfalso; apply O; exact Ht].
    destruct (A x Hx Ht) as [A1 A2]. split; [exact A1|]. rewrite map_app. intros Hi. apply in_app_or in Hi. destruct Hi as [Hi|[Hi|[]]]; [exact (A2 Hi)|].
    cbn [fst] in Hi. exact (next_fresh v x Hx (eq_sym Hi)).
  - destruct D as [[_ ->]|[-> _]]; [|congruence]. cbn [v_files]. split.
    + apply config_find, find_filter. intros x Hx Ht. unfold stays, goes. rewrite Ht, O. reflexivity.
    + intros x Hx Ht. cbn [v_files v_wr] in *. apply filter_In in Hx. exact (A x (proj1 Hx) Ht).
  - destruct (lookup v i); [|destruct D as [_ ->]; auto]. destruct (marked v i); [destruct D as [_ ->]; auto|].
    destruct (32 <=? length (v_open v))%nat; [destruct D as [_ ->]; auto|].
    destruct D as [[_ ->]|[[-> _]|(_ & top & gen & -> & _)]]; [|congruence|]; cbn [v_files]; (split; [reflexivity|]); intros x Hx Ht; cbn [v_files v_wr] in *;
      destruct (A x Hx Ht) as [A1 A2]; (split; [apply marked_app; [exact A1|exact (O x Hx Ht)]|]); [exact A2|].
    rewrite map_app. intros Hi. apply in_app_or in Hi. destruct Hi as [Hi|[Hi|[]]]; [exact (A2 Hi)|]. exact (O x Hx Ht (eq_sym Hi)).
  - destruct (lookup v i); [|destruct D as [_ ->]; auto]. destruct (marked v i); [destruct D as [_ ->]; auto|].
    destruct (32 <=? length (v_open v))%nat; [destruct D as [_ ->]; auto|]. destruct D as [_ ->]. cbn [v_files]. split; [reflexivity|].
    intros x Hx Ht. cbn [v_files v_wr] in *. destruct (A x Hx Ht) as [A1 A2]. split; [apply marked_app; [exact A1|exact (O x Hx Ht)]|exact A2].
  - destruct (nth_error (v_wr v) k) as [[i pend]|] eqn:En; [|destruct D]. destruct D as (x0 & data & pend' & m & _ & _ & _ & _ & -> & _). cbn [v_files].
    split; [apply config_find, find_set, (Wr k i pend En)|]. intros x Hx Ht. cbn [v_files v_wr] in *. destruct (in_set _ _ _ _ Hx) as (z & Hz & Ei & Et).
    destruct (A z Hz ltac:(congruence)) as [A1 A2]. rewrite <- Ei. split; [exact A1|]. intros Hi. apply in_map_iff in Hi. destruct Hi as (p & Ep & Hp).
    apply in_upd in Hp. destruct Hp as [->|Hp]; [cbn [fst] in Ep; exact (Wr k i pend En z Hz ltac:(congruence) (eq_sym Ep))|]. apply A2. rewrite <- Ep. exact (in_map fst _ _ Hp).
  - destruct (nth_error (v_wr v) k) as [[i pend]|] eqn:En; [|destruct D]. destruct D as (x0 & _ & [[_ ->]|[_ ->]]); [|auto]. cbn [v_files].
    split; [apply config_find, find_set, (Wr k i pend En)|]. intros x Hx Ht. cbn [v_files v_wr] in *. destruct (in_set _ _ _ _ Hx) as (z & Hz & Ei & Et).
    destruct (A z Hz ltac:(congruence)) as [A1 A2]. rewrite <- Ei. split; [exact A1|]. intros Hi. apply in_map_iff in Hi. destruct Hi as (p & Ep & Hp).
    apply in_upd in Hp. destruct Hp as [->|Hp]; [cbn [fst] in Ep; exact (Wr k i pend En z Hz ltac:(congruence) (eq_sym Ep))|]. apply A2. rewrite <- Ep. exact (in_map fst _ _ Hp).
  - destruct (nth_error (v_wr v) k) as [[i pend]|] eqn:En; [|destruct D]. destruct D as (x0 & _ & _ & ->). cbn [v_files].
    split; [apply config_find, find_set, (Wr k i pend En)|]. intros x Hx Ht. cbn [v_files v_wr] in *. destruct (in_set _ _ _ _ Hx) as (z & Hz & Ei & Et).
    destruct (A z Hz ltac:(congruence)) as [A1 A2]. rewrite <- Ei. split; [apply marked_remove; exact A1|]. intros Hi. apply in_map_iff in Hi. destruct Hi as (p & Ep & Hp).
    apply in_without in Hp. apply A2. rewrite <- Ep. exact (in_map fst _ _ Hp).
  - destruct (nth_error (v_rd v) k) as [i|]; [|destruct D]. destruct D as [_ ->]. cbn [v_files]. split; [reflexivity|].
    intros x Hx Ht. cbn [v_files v_wr] in *. destruct (A x Hx Ht) as [A1 A2]. split; [apply marked_remove; exact A1|exact A2].
Qed.

Lemma loses_off v c F : loses v c F -> off v c -> at_rest v -> config_of F t n = config_of (v_files v) t n.
Proof.
  intros L O A.
  assert (Wr : forall k id pend, nth_error (v_wr v) k = Some (id, pend) -> forall x, In x (v_files v) -> f_typ x = t -> f_id x <> id).
  { intros k id pend E x Hx Ht Hi. destruct (A x Hx Ht) as [_ B]. apply B. rewrite Hi. apply nth_error_In in E. exact (in_map fst _ _ E). }
  destruct c as [t'|t'|sel|i|i|k d|k|k|k]; cbn [loses off] in *.
  - destruct L as [->| ->]; [reflexivity|apply config_find, find_app_other; exact O].
  - destruct L as [->| ->]; [reflexivity|apply config_find, find_app_other; exact O].
  - destruct L as [->| ->]; [reflexivity|]. apply config_find, find_filter. intros x Hx Ht. unfold stays, goes. rewrite Ht, O. reflexivity.
  - destruct (lookup v i); [|subst; reflexivity]. destruct L as (kept & cut & _ & _ & ->). apply config_find, find_set. exact O.
  - subst. reflexivity.
  - destruct (nth_error (v_wr v) k) as [[i pend]|] eqn:En; [|destruct L]. destruct L as (x & data & _ & _ & _ & ->). apply config_find, find_set, (Wr k i pend En).
  - destruct (nth_error (v_wr v) k) as [[i pend]|] eqn:En; [|destruct L]. destruct L as (x & data & _ & _ & _ & ->). apply config_find, find_set, (Wr k i pend En).
  - destruct (nth_error (v_wr v) k) as [[i pend]|] eqn:En; [|destruct L]. destruct L as (x & data & _ & _ & _ & ->). apply config_find, find_set, (Wr k i pend En).
  - subst. reflexivity.
Qed.

(** reading the configuration leaves the file system as it was *)
Lemma read_restores y v : Repr crc y v -> at_rest v -> fst (config_read crc t n (sfs y)) = sfs y.
Proof.
  intros R A. unfold config_read. destruct (first_file crc y v t R) as (o & -> & Eo). destruct o as [e|]; [|reflexivity].
  destruct (find (fun x => f_typ x =? t) (v_files v)) as [x|] eqn:Ex; [|discriminate].
  cbn [option_map] in Eo. injection Eo as Eo. apply find_some in Ex. destruct Ex as [Hx Ht]. apply N.eqb_eq in Ht. destruct (A x Hx Ht) as [A1 _].
  rewrite (marked_now crc y v _ R), <- Eo in A1. clear Eo.
  destruct R as [(p & ents & C & H & W & ST & EF & EW & EV) _ _ _].
  destruct (open_read_op crc (sfs y) p (v_gen v) ents (v_top v) C H W (e_id e) ST) as [(E & _)|(e' & _ & _ & [(E & _)|(_ & [(E & _)|(s' & E & _)])])].
  - rewrite E. reflexivity.
  - rewrite E. reflexivity.
  - rewrite E. reflexivity.
  - rewrite E. cbn [fst]. rewrite (open_exact _ _ _ _ E), close_exact; [reflexivity|exact A1].
Qed.

Definition ok_state (cs : list (option (list byte))) (m : machine) : Prop :=
  match m with
  | Off f => exists F top gen, Holds crc f F top gen /\ In (config_of F t n) cs
  | On y => exists v, Repr crc y v /\ at_rest v /\ In (config_of (v_files v) t n) cs
  end.

Lemma rest_booted F top gen : at_rest (mkV F [] [] [] top gen).
Proof. intros x Hx Ht. split; [reflexivity|intros []]. Qed.

Lemma candidates_snoc es e : candidates (es ++ [e]) =
  match e with LSet d => [Some d] | LSetLost d => candidates es ++ [None; Some d] | _ => candidates es end.
Proof. unfold candidates. rewrite fold_left_app. reflexivity. Qed.

Lemma phase_config F d F' : length d = n -> phase F t d F' -> config_of F' t n = config_of F t n \/ config_of F' t n = None \/ config_of F' t n = Some d.
Proof.
  intros Ln [->|[->|(id & data & Fr & (tl & ->) & ->)]]; [left; reflexivity|right; left; apply config_none|].
  rewrite config_last. destruct (Nat.leb_spec n (length data)) as [Hle|_]; [|right; left; reflexivity].
  right; right. rewrite app_length in Ln. destruct tl; [|cbn [length] in Ln; lia]. rewrite app_nil_r, firstn_all2 by lia. reflexivity.
Qed.

Lemma life_ok es m : life crc t n es m -> ok_state (candidates es) m.
Proof.
  induction 1 as [f0 U0|es m e m' _ IH St].
  - exists [], 0, 1. split; [right; split; [exact (unused_fresh f0 U0)|auto]|left; reflexivity].
  - rewrite candidates_snoc. destruct St as [f r s E|f r f' Hcr|y c y' r L O E Hr|y c f L O Hp|y|y d y' L Bd Ln E|y d f L Bd Ln Hl]; cbn [ok_state] in *.
    + destruct IH as (F & top & gen & Hh & Hi). destruct (boot_holds crc f F top gen r Hh) as (s' & top' & E' & RR & _). rewrite E in E'. injection E' as <-.
      change s with (sfs (mkSys s [] [])). rewrite (read_restores _ _ RR (rest_booted _ _ _)). exists (mkV F [] [] [] top' gen).
      split; [exact RR|]. split; [apply rest_booted|exact Hi].
    + destruct IH as (F & top & gen & Hh & Hi). destruct (boot_holds crc f F top gen r Hh) as (s' & top' & E' & RR & _ & Hcr'). rewrite E' in Hcr. cbn [fst] in Hcr.
      destruct (Hcr' f' Hcr) as (t' & Hh' & _). exists F, t', gen. auto.
    + destruct IH as (v & R & A & Hi). pose proof (hands_off_view y v c R O) as Ov. pose proof (refines crc Hc y v c R (legal_allowed crc y v c R L)) as Rf. unfold Refined in Rf. rewrite E in Rf.
      destruct Rf as [(v' & D & RR) _]. destruct (does_off v c r v' D Hr Ov A) as [Ec A']. exists v'. split; [exact (RR Hr)|]. split; [exact A'|]. rewrite Ec. exact Hi.
    + destruct IH as (v & R & A & Hi). pose proof (hands_off_view y v c R O) as Ov. pose proof (refines crc Hc y v c R (legal_allowed crc y v c R L)) as Rf. unfold Refined in Rf.
      destruct (perform crc c y) as [y' r]. destruct Rf as [_ [Hl _]]. destruct (Hl f Hp) as (F & top & gen & Ls & K & _). exists F, top, gen. split; [left; exact K|].
      rewrite (loses_off v c F Ls Ov A). exact Hi.
    + destruct IH as (v & R & A & Hi). exists (v_files v), (v_top v), (v_gen v). split; [left; apply repr_kept; exact R|exact Hi].
    + destruct IH as (v & R & A & Hi). destruct (write_phases crc Hc y v t d R (at_rest_unused y v R A) L Bd) as [_ K].
      destruct (K y' E) as (v' & id & R' & F' & M & Fr & W' & Fw). exists v'. split; [exact R'|]. split.
      * intros x Hx Ht. rewrite F' in Hx. apply in_app_or in Hx. destruct Hx as [Hx|[<-|[]]].
        -- exfalso. unfold other_files in Hx. apply filter_In in Hx. destruct Hx as [_ Hx]. rewrite Ht, N.eqb_refl in Hx. discriminate.
        -- split; [exact M|]. rewrite W'. exact Fw.
      * left. rewrite F', config_last, Ln, Nat.leb_refl. rewrite <- Ln, firstn_all. reflexivity.
    + destruct IH as (v & R & A & Hi). destruct (write_phases crc Hc y v t d R (at_rest_unused y v R A) L Bd) as [K _].
      destruct Hl as (yi & c & Hin & Hlost). destruct (K yi c Hin) as (vi & Ri & Ai & Ph).
      pose proof (refines crc Hc yi vi c Ri Ai) as Rf. unfold Refined in Rf. destruct (perform crc c yi) as [yo ro]. destruct Rf as [_ [Hl _]].
      destruct (Hl f Hlost) as (F' & top & gen & Ls & Kp & _). exists F', top, gen. split; [left; exact Kp|].
      apply in_or_app. destruct (phase_config _ d F' Ln (Ph F' Ls)) as [->|[->| ->]]; [left; exact Hi|right; left; reflexivity|right; right; left; reflexivity].
Qed.

Lemma ok_read cs m r : ok_state cs m -> In (read_at_boot crc t n (flash_now m) r) cs.
Proof.
  destruct m as [f|y]; cbn [ok_state flash_now].
  - intros (F & top & gen & Hh & Hi). rewrite (booted_config crc t n f F top gen r Hh). exact Hi.
  - intros (v & R & _ & Hi). rewrite (booted_config crc t n _ (v_files v) (v_top v) (v_gen v) r); [exact Hi|left; apply repr_kept; exact R].
Qed.
End Inv.

(** Through any life of the device, with power losses at any moment, what a start reads is never anything but a whole configuration that
    was set, or none: the one set last when that was answered, and otherwise one of the [candidates]. *)
Theorem C105_start_reads_a_set_configuration : forall crc, crc32 crc -> forall t n es m r, life crc t n es m ->
  In (read_at_boot crc t n (flash_now m) r) (candidates es).
Proof. intros crc Hc t n es m r L. exact (ok_read crc t n _ m r (life_ok crc Hc t n es m L)). Qed.
Print Assumptions C105_start_reads_a_set_configuration.

Lemma candidates_quiet es es2 : quiet es2 -> candidates (es ++ es2) = candidates es.
Proof.
  induction es2 as [|e es2 IH] using rev_ind; intros Q; [rewrite app_nil_r; reflexivity|].
  rewrite app_assoc, candidates_snoc. assert (Q' : quiet es2) by (intros x Hx; apply Q, in_or_app; left; exact Hx). rewrite (IH Q').
  specialize (Q e ltac:(apply in_or_app; right; left; reflexivity)). destruct e; tauto || reflexivity.
Qed.

Lemma candidates_set es o : In o (candidates es) -> o = None \/ exists d, o = Some d /\ (In (LSet d) es \/ In (LSetLost d) es).
Proof.
  induction es as [|e es IH] using rev_ind; [intros [<-|[]]; left; reflexivity|]. rewrite candidates_snoc.
  assert (Up : (o = None \/ exists d, o = Some d /\ (In (LSet d) es \/ In (LSetLost d) es)) ->
     o = None \/ exists d, o = Some d /\ (In (LSet d) (es ++ [e]) \/ In (LSetLost d) (es ++ [e]))).
  { intros [->|(d & -> & [H|H])]; [left; reflexivity|right; exists d; split; [reflexivity|left; apply in_or_app; left; exact H]|
      right; exists d; split; [reflexivity|right; apply in_or_app; left; exact H]]. }
  destruct e as [| |c|c| |d|d]; try (intros H; exact (Up (IH H))).
  - intros [<-|[]]. right. exists d. split; [reflexivity|]. left. apply in_or_app. right. left. reflexivity.
  - intros H. apply in_app_or in H. destruct H as [H|[<-|[<-|[]]]]; [exact (Up (IH H))|left; reflexivity|].
    right. exists d. split; [reflexivity|]. right. apply in_or_app. right. left. reflexivity.
Qed.

Section Modes.
Variables (cfg : Type) (mode_of : cfg -> mode) (encode : cfg -> list byte) (decode : list byte -> cfg) (n : nat).
Hypothesis code : forall c, decode (encode c) = c.
Variables (crc : list byte -> N) (t : N).
Hypothesis Hc : crc32 crc.

(** what the device does when it is started from flash [f] *)
Definition started (f : flash) (r : nat -> N) (overwrite : option cfg) (usb : option N) : running cfg :=
  start mode_of overwrite (option_map decode (read_at_boot crc t n f r)) usb.

(** the console sets configurations *)
Definition sets_configs (es : list levent) : Prop := forall d, In (LSet d) es \/ In (LSetLost d) es -> exists c, d = encode c.

Lemma after_set es c es2 m r overwrite usb : life crc t n (es ++ [LSet (encode c)] ++ es2) m -> quiet es2 ->
  started (flash_now m) r overwrite usb = start mode_of overwrite (Some c) usb.
Proof.
  intros L Q. pose proof (C105_start_reads_a_set_configuration crc Hc t n _ m r L) as H. rewrite app_assoc, candidates_quiet, candidates_snoc in H by exact Q.
  destruct H as [H|[]]. unfold started. rewrite <- H. cbn [option_map]. rewrite code. reflexivity.
Qed.

Lemma only_set es m r usb md c : life crc t n es m -> sets_configs es -> started (flash_now m) r None usb = Runs md c ->
  md = mode_of c /\ (In (LSet (encode c)) es \/ In (LSetLost (encode c)) es).
Proof.
  intros L S E. pose proof (C105_start_reads_a_set_configuration crc Hc t n _ m r L) as H. apply candidates_set in H. unfold started in E.
  revert E H. generalize (read_at_boot crc t n (flash_now m) r). intros o E H.
  destruct H as [->|(d & -> & Hs)]; [exfalso; unfold start, option_map in E; discriminate E|].
  destruct (S d Hs) as (c' & ->). unfold option_map in E. rewrite code in E. unfold start in E. assert (Ec : c' = c /\ md = mode_of c).
  { destruct (mode_of c') eqn:Em; [destruct (usb_connected usb); [discriminate|]| |destruct (usb_connected usb); [discriminate|]|destruct (usb_connected usb); [discriminate|]];
      injection E as <- <-; auto. }
  destruct Ec as [-> ->]. auto.
Qed.
End Modes.

(** Once SetDeviceConfig has been answered, every later start — after whatever calls of other tasks, power losses and interrupted starts
    — runs the mode of that configuration, until another one is set. *)
Theorem C105_mode_after_set : forall (cfg : Type) (mode_of : cfg -> mode) (encode : cfg -> list byte) (decode : list byte -> cfg) n,
  (forall c, decode (encode c) = c) -> forall crc t, crc32 crc -> forall es c es2 m r overwrite usb,
  life crc t n (es ++ [LSet (encode c)] ++ es2) m -> quiet es2 ->
  started cfg mode_of decode n crc t (flash_now m) r overwrite usb = start mode_of overwrite (Some c) usb.
Proof. intros cfg mode_of encode decode n code crc t Hc. exact (after_set cfg mode_of encode decode n code crc t Hc). Qed.

(** Whatever was interrupted when: if a mode is started, it is the mode of a configuration that a console asked for. *)
Theorem C105_no_unset_mode : forall (cfg : Type) (mode_of : cfg -> mode) (encode : cfg -> list byte) (decode : list byte -> cfg) n,
  (forall c, decode (encode c) = c) -> forall crc t, crc32 crc -> forall es m r usb md c,
  life crc t n es m -> sets_configs cfg encode es -> started cfg mode_of decode n crc t (flash_now m) r None usb = Runs md c ->
  md = mode_of c /\ (In (LSet (encode c)) es \/ In (LSetLost (encode c)) es).
Proof. intros cfg mode_of encode decode n code crc t Hc. exact (only_set cfg mode_of encode decode n code crc t Hc). Qed.

(** With USB connected during the first half second nothing but the ground station is started: no sensors, no pyro channels. *)
Theorem C105_usb_keeps_it_on_the_ground : forall (cfg : Type) (mode_of : cfg -> mode) overwrite stored ms, ms < 500 ->
  match start mode_of overwrite stored (Some ms) with Runs m _ => m = MGcm | _ => True end.
Proof.
  intros cfg mode_of overwrite stored ms H. apply N.ltb_lt in H. unfold start, usb_connected. rewrite H.
  destruct (match overwrite with Some c => Some c | None => stored end) as [c|]; [|exact Logic.I]. destruct (mode_of c); exact Logic.I || reflexivity.
Qed.

(** Connected later, or not at all, it changes nothing. *)
Theorem C105_usb_later : forall (cfg : Type) (mode_of : cfg -> mode) overwrite stored ms, 500 <= ms ->
  start mode_of overwrite stored (Some ms) = start mode_of overwrite stored None /\
  (forall c, start mode_of None (Some c) None = Runs (mode_of c) c).
Proof.
  intros cfg mode_of overwrite stored ms H. apply N.ltb_ge in H. unfold start, usb_connected. rewrite H. split; [reflexivity|].
  intros c. destruct (mode_of c); reflexivity.
Qed.

(** ** A concrete life: a configuration is set, the device is restarted, setting another one is interrupted — and the device, configured
    since its first day, has no configuration. *)
Definition r0 : nat -> N := fun _ => 0.
Definition fresh : sys := mkSys (fst (config_read sum 0 3 (fst (boot blank r0)))) [] [].
Definition again (y : sys) : sys := mkSys (fst (config_read sum 0 3 (fst (boot (fl (sfs y)) r0)))) [] [].
Definition good_boot (f : flash) : bool := match snd (boot f r0) with Ok _ => true | _ => false end.
Lemma good_booted f : good_boot f = true -> boot f r0 = (fst (boot f r0), Ok tt).
Proof. unfold good_boot. destruct (boot f r0) as [s [[]|e|]]; cbn [snd fst]; intros H; [reflexivity|exfalso; exact (Bool.diff_false_true H)|exfalso; exact (Bool.diff_false_true H)]. Qed.
Lemma bytes123 : bytes_ok [1;2;3]. Proof. repeat constructor. Qed.

Theorem C105_refuted_halts_after_interrupted_set : exists y f, life sum 0 3 [LBoot; LSet [1;2;3]; LOff; LBoot; LCall (Create 4)] (On y) /\
  read_at_boot sum 0 3 (fl (sfs y)) r0 = Some [1;2;3] /\
  life sum 0 3 [LBoot; LSet [1;2;3]; LOff; LBoot; LCall (Create 4); LSetLost [4;5;6]] (Off f) /\
  forall usb, started (list byte) (fun _ => MAvionics) (fun d => d) 3 sum 0 f r0 None usb = NoConfig.
Proof.
  assert (K : let y1 := fst (config_write sum 0 [1;2;3] fresh) in let y2 := again y1 in let y3 := fst (perform sum (Create 4) y2) in
    good_boot blank && legalb fresh (Create 0) && is_done (snd (config_write sum 0 [1;2;3] fresh)) && good_boot (fl (sfs y1)) && legalb y2 (Create 4) &&
    is_id (snd (perform sum (Create 4) y2)) 2 && legalb y3 (Create 0) && same_opt (read_at_boot sum 0 3 (fl (sfs y3)) r0) (Some [1;2;3]) && cut_write 0 [4;5;6] y3 1 0 0 None = true)
    by (vm_compute; reflexivity).
  cbv zeta in K. apply andb_prop in K. destruct K as [K K9]. apply andb_prop in K. destruct K as [K K8]. apply andb_prop in K. destruct K as [K K7].
  apply andb_prop in K. destruct K as [K K6]. apply andb_prop in K. destruct K as [K K5]. apply andb_prop in K. destruct K as [K K4].
  apply andb_prop in K. destruct K as [K K3]. apply andb_prop in K. destruct K as [K1 K2].
  destruct (config_write sum 0 [1;2;3] fresh) as [y1 p1] eqn:E1. cbn [fst snd] in *. apply is_done_eq in K3. subst p1.
  destruct (perform sum (Create 4) (again y1)) as [y3 p3] eqn:E3. cbn [fst snd] in *. apply is_id_eq in K6. subst p3.
  destruct (cut_write_sound 0 [4;5;6] y3 1 0 0 None K9) as (f & Hf & Er).
  assert (L1 : life sum 0 3 [LBoot] (On fresh)) by (apply (li_step _ _ _ [] (Off blank)); [apply li_new, blank_unused|]; apply (ls_boot _ _ _ blank r0), good_booted, K1).
  assert (L2 : life sum 0 3 [LBoot; LSet [1;2;3]] (On y1)).
  { apply (li_step _ _ _ [LBoot] (On fresh)); [exact L1|]. apply ls_set; [apply legalb_sound; exact K2|exact bytes123|reflexivity|exact E1]. }
  assert (L3 : life sum 0 3 [LBoot; LSet [1;2;3]; LOff] (Off (fl (sfs y1)))) by (apply (li_step _ _ _ [LBoot; LSet [1;2;3]] (On y1)); [exact L2|constructor]).
  assert (L4 : life sum 0 3 [LBoot; LSet [1;2;3]; LOff; LBoot] (On (again y1))).
  { apply (li_step _ _ _ [LBoot; LSet [1;2;3]; LOff] (Off (fl (sfs y1)))); [exact L3|]. apply (ls_boot _ _ _ _ r0), good_booted, K4. }
  assert (L5 : life sum 0 3 [LBoot; LSet [1;2;3]; LOff; LBoot; LCall (Create 4)] (On y3)).
  { apply (li_step _ _ _ [LBoot; LSet [1;2;3]; LOff; LBoot] (On (again y1))); [exact L4|]. apply (ls_call _ _ _ _ _ _ (RId 2)); [apply legalb_sound; exact K5| |exact E3|congruence].
    cbn [hands_off]. intros K. discriminate K. }
  exists y3, f. split; [exact L5|]. split; [apply same_opt_eq; exact K8|]. split.
  - apply (li_step _ _ _ [LBoot; LSet [1;2;3]; LOff; LBoot; LCall (Create 4)] (On y3)); [exact L5|].
    apply ls_set_lost; [apply legalb_sound; exact K7|exact bytes456|reflexivity|exact Hf].
  - intros usb. unfold started. change (length [4;5;6]) with 3%nat in Er. change (fun _ : nat => 0) with r0 in Er. rewrite Er. reflexivity.
Qed.

(** * Property theorems C24, C25: files in use, and failed opens.
    [history], [legal], [perform], [snapshot]: FsApi.v; [does] (the abstract store): FsSpec.v. *)
From Coq Require Import Sorted Permutation.
From Verif Require Import Base Majority Flash FS Sectors SectorsProofs ATable TornCode TableCode TableScan TableBuild TableOps DirOps Chains FileIO FileFormat FileWrite WriteOps WriteSpec Disk Sessions DirState OpenOps Append OpenWrite FsSpec FsApi FsRefine FsBoot FsHistory PropDirectory FsExec PropFiles.
Local Open Scope N_scope.
Local Open Scope fs_scope.

(** ** Vocabulary *)
(** the call closes a handle on file [id] *)
Definition closes (y : sys) (c : call) (id : N) : Prop :=
  match c with
  | CloseWriter k => exists w, nth_error (sws y) k = Some w /\ w_id w = id
  | CloseReader k => nth_error (srs y) k = Some id
  | _ => False
  end.
(** calls, none of which closes a handle on [id] *)
Inductive meanwhile (crc : list byte -> N) (id : N) : sys -> sys -> Prop :=
| mw_nil y : meanwhile crc id y y
| mw_call y c r y1 y2 : legal y c -> ~ closes y c id -> perform crc c y = (y1, r) -> r <> RPanic -> meanwhile crc id y1 y2 -> meanwhile crc id y y2.

Lemma repr_writer crc y v k w : Repr crc y v -> nth_error (sws y) k = Some w -> exists pend, nth_error (v_wr v) k = Some (w_id w, pend).
Proof.
  intros [(p & ents & C & H & W & ST & EF & EW & EV) _ _ _] E. rewrite EW in E. rewrite EV. rewrite nth_error_map in *.
  destruct (nth_error W k) as [[w' c]|]; [|discriminate]. cbn [option_map fst snd] in *. injection E as ->. exists c. reflexivity.
Qed.
Lemma repr_writer_back crc y v k id pend : Repr crc y v -> nth_error (v_wr v) k = Some (id, pend) -> exists w, nth_error (sws y) k = Some w /\ w_id w = id.
Proof.
  intros [(p & ents & C & H & W & ST & EF & EW & EV) _ _ _] E. rewrite EV in E. rewrite EW. rewrite nth_error_map in *.
  destruct (nth_error W k) as [[w' c]|]; [|discriminate]. cbn [option_map fst snd] in *. injection E as <- <-. exists w'. auto.
Qed.

Lemma marked_app v id l : marked (mkV (v_files v) l (v_rd v) (v_open v ++ [id]) (v_top v) (v_gen v)) id = true.
Proof. unfold marked. cbn [v_open]. rewrite existsb_app. cbn [existsb]. rewrite N.eqb_refl. cbn. rewrite Bool.orb_true_r. reflexivity. Qed.
Lemma marked_in v id : marked v id = true <-> In id (v_open v).
Proof.
  unfold marked. rewrite existsb_exists. split.
  - intros (x & Hx & E). apply N.eqb_eq in E. subst. exact Hx.
  - intros H. exists id. split; [exact H|apply N.eqb_refl].
Qed.

(** marks survive every call that does not close the file, and the file stays listed *)
Lemma step_marked crc y v c r v' id : Repr crc y v -> ~ closes y c id -> does v c r v' -> r <> RPanic ->
  In id (v_open v) -> In id (map f_id (v_files v)) -> In id (v_open v') /\ In id (map f_id (v_files v')).
Proof.
  intros R Hcl D Hr Hm Hf.
  assert (Hset : forall i d, map f_id (set_data i d (v_files v)) = map f_id (v_files v)).
  { intros i d. unfold set_data. rewrite map_map. apply map_ext. intros x. destruct (f_id x =? i); reflexivity. }
  destruct c as [t|t|sel|i|i|k d|k|k|k]; cbn [does] in D.
  - destruct D as [[_ ->]|[-> _]]; [|congruence]. cbn [v_open v_files]. split; [exact Hm|]. rewrite map_app. apply in_or_app. left. exact Hf.
  - destruct D as [[_ ->]| ->]; [|congruence]. cbn [v_open v_files]. split; [exact Hm|]. rewrite map_app. apply in_or_app. left. exact Hf.
  - destruct D as [[_ ->]|[-> _]]; [|congruence]. cbn [v_open v_files]. split; [exact Hm|]. apply in_map_iff in Hf. destruct Hf as (x & Ex & Hx).
    apply in_map_iff. exists x. split; [exact Ex|]. apply filter_In. split; [exact Hx|]. unfold stays, goes. rewrite Ex. apply marked_in in Hm. rewrite Hm.
    cbn [negb]. rewrite Bool.andb_false_r. reflexivity.
  - destruct (lookup v i); [|destruct D as [_ ->]; auto]. destruct (marked v i); [destruct D as [_ ->]; auto|].
    destruct (32 <=? length (v_open v))%nat; [destruct D as [_ ->]; auto|].
    destruct D as [[_ ->]|[[-> _]|(_ & top & gen & -> & _)]]; [|congruence|]; cbn [v_open v_files]; (split; [apply in_or_app; left; exact Hm|exact Hf]).
  - destruct (lookup v i); [|destruct D as [_ ->]; auto]. destruct (marked v i); [destruct D as [_ ->]; auto|].
    destruct (32 <=? length (v_open v))%nat; [destruct D as [_ ->]; auto|]. destruct D as [_ ->]. cbn [v_open v_files]. split; [apply in_or_app; left; exact Hm|exact Hf].
  - destruct (nth_error (v_wr v) k) as [[i pend]|]; [|destruct D]. destruct D as (x & data & pend' & n & _ & _ & _ & _ & -> & _). cbn [v_open v_files]. rewrite Hset. auto.
  - destruct (nth_error (v_wr v) k) as [[i pend]|]; [|destruct D]. destruct D as (x & _ & [[_ ->]|[_ ->]]); cbn [v_open v_files]; [rewrite Hset|]; auto.
  - destruct (nth_error (v_wr v) k) as [[i pend]|] eqn:En; [|destruct D]. destruct D as (x & _ & _ & ->). cbn [v_open v_files]. rewrite Hset. split; [|exact Hf].
    apply in_in_remove; [|exact Hm]. intros ->. apply Hcl. destruct (repr_writer_back crc y v k i pend R En) as (w & A & B). exists w. auto.
  - destruct (nth_error (v_rd v) k) as [i|] eqn:En; [|destruct D]. destruct D as [_ ->]. cbn [v_open v_files]. split; [|exact Hf].
    apply in_in_remove; [|exact Hm]. intros ->. apply Hcl. cbn [closes]. rewrite (rr_rd crc y v R). exact En.
Qed.

Lemma meanwhile_marked crc id (Hc : crc32 crc) y y' : meanwhile crc id y y' -> forall v, Repr crc y v -> In id (v_open v) -> In id (map f_id (v_files v)) ->
  exists v', Repr crc y' v' /\ In id (v_open v') /\ In id (map f_id (v_files v')).
Proof.
  induction 1 as [y|y c r y1 y2 Hl Hcl E Hr Hm IH]; intros v R Hi Hf; [exists v; auto|].
  pose proof (refines crc Hc y v c R (legal_allowed crc y v c R Hl)) as Rf. unfold Refined in Rf. rewrite E in Rf. destruct Rf as [(v1 & D & RR) _].
  destruct (step_marked crc y v c r v1 id R Hcl D Hr Hi Hf) as [A B]. apply (IH v1 (RR Hr) A B).
Qed.

Lemma lookup_in v id : In id (map f_id (v_files v)) -> exists x, lookup v id = Some x.
Proof.
  intros H. unfold lookup. destruct (find (fun x => f_id x =? id) (v_files v)) as [x|] eqn:E; [exists x; reflexivity|].
  apply in_map_iff in H. destruct H as (x & Ex & Hx). pose proof (find_none _ _ E x Hx) as K. cbn in K. apply N.eqb_neq in K. congruence.
Qed.

Lemma sys_eta y : mkSys (sfs y) (sws y) (srs y) = y.
Proof. destruct y. reflexivity. Qed.
Lemma repr_lookup crc y v id x : Repr crc y v -> lookup v id = Some x -> marked v id = true ->
  exists p ents C H W, State crc (sfs y) p (v_gen v) ents (v_top v) C H W /\ (exists e, In e ents /\ e_id e = id) /\ In id (a_open (atb (sfs y))).
Proof.
  intros R Ex M. pose proof R as [(p & ents & C & H & W & ST & EF & EW & EV) Hrd Hop Hnd]. exists p, ents, C, H, W. split; [exact ST|]. split.
  - unfold lookup in Ex. rewrite EF in Ex. apply find_some in Ex. destruct Ex as [Hx Ei]. apply N.eqb_eq in Ei. unfold user_view in Hx.
    apply in_map_iff in Hx. destruct Hx as ([e c] & <- & Hec). apply in_combine_l in Hec. exists e. split; [exact Hec|exact Ei].
  - apply marked_in in M. eapply Permutation_in; [apply Permutation_sym; exact Hop|exact M].
Qed.
Lemma refused_read crc y v id x : Repr crc y v -> lookup v id = Some x -> marked v id = true -> perform crc (OpenRead id) y = (y, RErr FileInUse).
Proof.
  intros R Ex M. destruct (repr_lookup crc y v id x R Ex M) as (p & ents & C & H & W & ST & (e & He & Hid) & Hin).
  cbn [perform]. unfold finish. destruct (open_read_op crc _ _ _ _ _ _ _ _ id ST) as [[_ Hn]|(e' & _ & _ & [[-> _]|[Hn _]])].
  - exfalso. exact (Hn e He Hid).
  - rewrite sys_eta. reflexivity.
  - exfalso. exact (Hn Hin).
Qed.
Lemma refused_write crc y v id x : crc32 crc -> Repr crc y v -> lookup v id = Some x -> marked v id = true -> perform crc (OpenWrite id) y = (y, RErr FileInUse).
Proof.
  intros Hc R Ex M. destruct (repr_lookup crc y v id x R Ex M) as (p & ents & C & H & W & ST & (e & He & Hid) & Hin).
  cbn [perform]. unfold finish. destruct (open_write_op crc _ _ _ _ _ _ _ _ id ST (fun Hn => False_ind _ (Hn Hin))) as [[_ Hn]|(i & e' & l0 & c0 & _ & _ & _ & [[-> _]|[Hn _]])].
  - exfalso. exact (Hn e He Hid).
  - rewrite sys_eta. reflexivity.
  - exfalso. exact (Hn Hin).
Qed.

(** [c] opens file [id] through open_file_for_read or open_file_for_write *)
Definition opens (c : call) (id : N) : Prop := c = OpenRead id \/ c = OpenWrite id.

Theorem C24_open_file_protected_partial : forall crc, crc32 crc -> forall es y0 c id y1 y, history crc es (On y0) ->
  opens c id -> legal y0 c -> perform crc c y0 = (y1, RDone) -> meanwhile crc id y1 y ->
  (* opening it again is refused, and changes nothing *)
  perform crc (OpenRead id) y = (y, RErr FileInUse) /\ perform crc (OpenWrite id) y = (y, RErr FileInUse) /\
  (* no removal takes it away or changes its content *)
  (forall sel y' r, legal y (Remove sel) -> perform crc (Remove sel) y = (y', r) -> r <> RPanic -> forall rng,
     exists F F', snapshot crc (fl (sfs y)) rng = Some F /\ snapshot crc (fl (sfs y')) rng = Some F' /\ content F' id = content F id /\ content F id <> None).
Proof.
  intros crc Hc es y0 c id y1 y Hh Ho Hl E Hm. destruct (running crc es y0 Hc Hh) as (v0 & _ & R0).
  pose proof (refines crc Hc y0 v0 c R0 (legal_allowed crc y0 v0 c R0 Hl)) as Rf. unfold Refined in Rf. rewrite E in Rf. destruct Rf as [(v1 & D & RR) _].
  specialize (RR ltac:(discriminate)).
  assert (K : In id (v_open v1) /\ In id (map f_id (v_files v1))).
  { assert (Kl : forall x, lookup v0 id = Some x -> In id (map f_id (v_files v0))).
    { intros x Ex. unfold lookup in Ex. apply find_some in Ex. destruct Ex as [Hx Ei]. apply N.eqb_eq in Ei. apply in_map_iff. exists x. auto. }
    destruct Ho as [-> | ->]; cbn [does] in D.
    - destruct (lookup v0 id) as [x|] eqn:Ex; [|destruct D; discriminate]. destruct (marked v0 id); [destruct D; discriminate|].
      destruct (32 <=? length (v_open v0))%nat; [destruct D; discriminate|]. destruct D as [_ ->]. cbn [v_open v_files]. split; [apply in_or_app; right; left; reflexivity|exact (Kl x eq_refl)].
    - destruct (lookup v0 id) as [x|] eqn:Ex; [|destruct D; discriminate]. destruct (marked v0 id); [destruct D; discriminate|].
      destruct (32 <=? length (v_open v0))%nat; [destruct D; discriminate|]. destruct D as [[D _]|[[D _]|(_ & top & gen & -> & _)]]; try discriminate.
      cbn [v_open v_files]. split; [apply in_or_app; right; left; reflexivity|exact (Kl x eq_refl)]. }
  destruct K as [K1 K2]. destruct (meanwhile_marked crc id Hc y1 y Hm v1 RR K1 K2) as (v & R & M & F). clear K1 K2 RR D Hm.
  destruct (lookup_in v id F) as (x & Ex). apply marked_in in M.
  split; [apply (refused_read crc y v id x R Ex M)|]. split; [apply (refused_write crc y v id x Hc R Ex M)|].
  intros sel y' r Hlr Er Hr rng. pose proof (refines crc Hc y v _ R (legal_allowed crc y v _ R Hlr)) as Rf. unfold Refined in Rf. rewrite Er in Rf.
    destruct Rf as [(v' & D & RR) _]. specialize (RR Hr). exists (v_files v), (v_files v'). split; [apply (repr_snapshot crc y v rng R)|].
    split; [apply (repr_snapshot crc y' v' rng RR)|]. cbn [does] in D. destruct D as [[_ ->]|[-> _]]; [|congruence]. cbn [v_files].
    unfold lookup in Ex. unfold content. rewrite Ex. split; [|discriminate].
    f_equal. clear -Ex M. induction (v_files v) as [|z l IH]; [discriminate|]. cbn [filter find] in *. unfold stays at 1, goes. destruct (f_id z =? id) eqn:Ez.
    + apply N.eqb_eq in Ez. rewrite Ez, M. cbn [negb]. rewrite Bool.andb_false_r. cbn [negb find]. rewrite Ez, N.eqb_refl. exact Ex.
    + destruct (negb _); cbn [find]; [rewrite Ez|]; apply IH; exact Ex.
Qed.
Print Assumptions C24_open_file_protected_partial.

(** closing lifts the protection *)
Theorem C24_closing_lifts : forall crc, crc32 crc -> forall es y c id y', history crc es (On y) -> legal y c -> closes y c id ->
  perform crc c y = (y', RDone) -> forall c', opens c' id -> legal y' c' -> snd (perform crc c' y') <> RErr FileInUse.
Proof.
  intros crc Hc es y c id y' Hh Hl Hcl E c' Ho Hl'. destruct (running crc es y Hc Hh) as (v & _ & R).
  pose proof (refines crc Hc y v c R (legal_allowed crc y v c R Hl)) as Rf. unfold Refined in Rf. rewrite E in Rf. destruct Rf as [(v1 & D & RR) _].
  specialize (RR ltac:(discriminate)).
  assert (M : marked v1 id = false).
  { apply Bool.not_true_iff_false. intros M. apply marked_in in M. destruct c as [t|t|sel|i|i|k d|k|k|k]; cbn [closes does] in Hcl, D; try (destruct Hcl; fail).
    - destruct Hcl as (w & En & <-). destruct (repr_writer crc y v k w R En) as (pend & En'). rewrite En' in D. destruct D as (x & _ & _ & ->). cbn [v_open] in M.
      exact (remove_In _ _ _ M).
    - rewrite (rr_rd crc y v R) in Hcl. rewrite Hcl in D. destruct D as [_ ->]. cbn [v_open] in M. exact (remove_In _ _ _ M). }
  pose proof (refines crc Hc y' v1 c' RR (legal_allowed crc y' v1 c' RR Hl')) as Rf. unfold Refined in Rf. destruct (perform crc c' y') as [y2 r2]. destruct Rf as [(v2 & D2 & _) _].
  cbn [snd]. intros ->. destruct Ho as [-> | ->]; cbn [does] in D2; (destruct (lookup v1 id); [|destruct D2; discriminate]); rewrite M in D2.
  - destruct (32 <=? length (v_open v1))%nat; destruct D2; discriminate.
  - destruct (32 <=? length (v_open v1))%nat; [destruct D2; discriminate|]. destruct D2 as [[D2 _]|[[D2 _]|[D2 _]]]; discriminate.
Qed.
Print Assumptions C24_closing_lifts.

(** ** C24 in full is false: a file obtained from create_file_and_open_for_write is not protected while its writer is open *)
Theorem C24_refuted : forall crc, exists es y y1 y2, history crc es (On y) /\ map w_id (sws y) = [1] /\
  perform crc (OpenRead 1) y = (y1, RDone) /\ perform crc everything y = (y2, RCounts 1 0) /\ map w_id (sws y2) = [1].
Proof.
  intros crc. set (chk := fun o : option (list aevent * machine) => match o with
     | Some (_, On y) => Some (map w_id (sws y), snd (perform crc (OpenRead 1) y), snd (perform crc everything y), map w_id (sws (fst (perform crc everything y))))
     | _ => None end).
  assert (E : chk (play crc [XBoot; XCall (CreateOpen 3)] (Off blank)) = Some ([1], RDone, RCounts 1 0, [1])) by (vm_compute; reflexivity).
  unfold chk in E. clear chk. destruct (play crc [XBoot; XCall (CreateOpen 3)] (Off blank)) as [[es m]|] eqn:Ep; [|exfalso; exact (none_some _ E)].
  destruct m as [f|y]; [exfalso; exact (none_some _ E)|].
  apply some_pair in E. destruct E as [E E4]. apply pair_equal_spec in E. destruct E as [E E3]. apply pair_equal_spec in E. destruct E as [E1 E2].
  exists es, y, (fst (perform crc (OpenRead 1) y)), (fst (perform crc everything y)).
  split; [exact (play_history crc [XBoot; XCall (CreateOpen 3)] (Off blank) [] es (On y) (hi_new crc blank FsBoot.blank_unused) Ep)|]. split; [exact E1|].
  split; [rewrite <- E2; apply surjective_pairing|]. split; [rewrite <- E3; apply surjective_pairing|exact E4].
Qed.
Print Assumptions C24_refuted.


(** ** C25 *)
(** a failed open changes nothing, unless it failed because the device is full *)
Theorem C25_failed_open_leaves_no_trace_partial : forall crc, crc32 crc -> forall es y c id y' e, history crc es (On y) -> legal y c -> opens c id ->
  perform crc c y = (y', RErr e) -> e <> DeviceFull -> y' = y.
Proof.
  intros crc Hc es y c id y' e Hh Hl Ho E He. destruct (running crc es y Hc Hh) as (v & _ & R).
  pose proof R as [(p & ents & C & H & W & ST & EF & EW & EV) Hrd Hop Hnd].
  destruct Ho as [-> | ->]; cbn [perform] in E; unfold finish in E.
  - destruct (open_read_op crc _ _ _ _ _ _ _ _ id ST) as [[Eo _]|(e' & _ & _ & [[Eo _]|[_ [[Eo _]|(s' & Eo & _)]]])]; rewrite Eo in E; try rewrite sys_eta in E;
      apply pair_equal_spec in E; destruct E as [E1 E2]; try (symmetry; exact E1). discriminate E2.
  - assert (Hw : ~ In id (a_open (atb (sfs y))) -> forall w cur, In (w, cur) W -> w_id w <> id).
    { intros Hn w cur Hi Ei. apply Hn. cbn [legal] in Hl.
      assert (Hin : In id (map w_id (sws y))) by (rewrite EW, map_map; apply in_map_iff; exists (w, cur); auto).
      specialize (Hl Hin). unfold is_opened in Hl. apply existsb_exists in Hl. destruct Hl as (z & Hz & Ez). apply N.eqb_eq in Ez. subst z. exact Hz. }
    destruct (open_write_op crc _ _ _ _ _ _ _ _ id ST Hw) as [[Eo _]|(i & e' & l0 & c0 & _ & _ & _ & [[Eo _]|[_ [[Eo _]|(_ & s' & _ & [[Eo _]|[[Eo _]|(x & p' & q' & en' & mx' & C' & H' & Eo & _)]])]]])];
      rewrite Eo in E; try rewrite sys_eta in E; apply pair_equal_spec in E; destruct E as [E1 E2]; try (symmetry; exact E1); try discriminate E2.
    injection E2 as <-. congruence.
Qed.
Print Assumptions C25_failed_open_leaves_no_trace_partial.

(** *** a device can be filled *)
Lemma bounded_nodup (l : list N) n : NoDup l -> (forall x, In x l -> x < N.of_nat n) -> (length l <= n)%nat.
Proof.
  intros Hn Hb. rewrite <- (seq_length n 0), <- (map_length N.of_nat). apply NoDup_incl_length; [exact Hn|]. intros x Hx. apply in_map_iff. exists (N.to_nat x).
  split; [lia|]. apply in_seq. specialize (Hb x Hx). lia.
Qed.
Lemma pieces_bound l : Forall (fun d : list byte => (length d <= 4016)%nat) l -> (length (concat l) <= 4016 * length l)%nat.
Proof. induction 1 as [|d l Hd _ IH]; cbn [concat length]; [lia|]. rewrite app_length. lia. Qed.
Lemma holds_pieces crc f o l ds : file_holds crc f o l ds -> length ds = length l /\ Forall (fun d : list byte => (length d <= 4016)%nat) ds.
Proof.
  induction 1 as [|x d n l ds Hd Hs Hf [IH1 IH2]]; [split; [reflexivity|constructor]|]. split; [cbn; congruence|]. constructor; [|exact IH2].
  destruct (sh_len _ _ _ _ _ Hs) as (w & _ & [[E B]|[_ ->]]); [|cbn; lia]. clear -E B. lia.
Qed.
Lemma nodup_part {A} (ls : list (list A)) l : NoDup (concat ls) -> In l ls -> NoDup l.
Proof.
  induction ls as [|a ls IH]; cbn [concat]; intros Hn Hi; [destruct Hi|]. apply nodup_app_iff in Hn. destruct Hi as [->|Hi]; [tauto|apply IH; [tauto|exact Hi]].
Qed.
Lemma content_bound crc y v id d : Repr crc y v -> content (v_files v) id = Some d -> (length d <= 4016 * N.to_nat SECTORS_COUNT)%nat.
Proof.
  intros [(p & ents & C & H & W & ST & EF & _) _ _ _] Hd. pose proof (st_disk _ _ _ _ _ _ _ _ _ ST) as Dk.
  unfold content in Hd. rewrite EF in Hd. destruct (find _ _) as [x|] eqn:E; [|discriminate]. injection Hd as <-. apply find_some in E. destruct E as [Hx _].
  unfold user_view in Hx. apply in_map_iff in Hx. destruct Hx as ([e c] & <- & Hec). cbn [fst snd f_data].
  assert (Hok : file_ok crc (fl (sfs y)) e c).
  { pose proof (dk_files _ _ _ _ _ _ _ Dk) as Hf. clear -Hf Hec. induction Hf as [|a b la lb Hab Hf IH]; [destruct Hec|]. cbn [combine] in Hec. destruct Hec as [Hec|Hec]; [|auto].
    injection Hec as -> ->. exact Hab. }
  destruct Hok as (ds & Hh & <-). destruct (holds_pieces crc _ _ _ _ Hh) as [L P]. apply pieces_bound in P. rewrite L in P.
  assert (B : (length (fst c) <= N.to_nat SECTORS_COUNT)%nat).
  { apply in_combine_r in Hec. apply bounded_nodup; [eapply nodup_part; [exact (dk_nodup _ _ _ _ _ _ _ Dk)|apply in_map; exact Hec]|].
    intros z Hz. rewrite N2Nat.id. apply (disk_data crc _ _ _ _ _ _ Dk z). unfold owns, owned. apply in_concat. exists (fst c). split; [apply in_map; exact Hec|exact Hz]. }
  unfold f_data. cbn [snd]. eapply Nat.le_trans; [exact P|]. apply Nat.mul_le_mono_l. exact B.
Qed.

Lemma fill crc (Hc : crc32 crc) k id n : forall es y v kept pend, history crc es (On y) -> Repr crc y v -> writing v k id kept pend ->
  (4016 * N.to_nat SECTORS_COUNT + 4016 < length kept + length pend + n)%nat ->
  exists es' y' v', history crc es' (On y') /\ Repr crc y' v' /\ free_bytes (sfs y') = 0 /\ v_open v' = v_open v /\ map f_id (v_files v') = map f_id (v_files v) /\
    map fst (v_wr v') = map fst (v_wr v) /\ v_rd v' = v_rd v.
Proof.
  induction n as [|n IH]; intros es y v kept pend Hh R W Hn.
  - exfalso. pose proof (content_bound crc y v id kept R (wg_content _ _ _ _ _ W)) as B. pose proof (wg_pend _ _ _ _ _ W) as P. set (m := (4016 * N.to_nat SECTORS_COUNT)%nat) in *. lia.
  - assert (Hb : bytes_ok [0]) by (constructor; [reflexivity|constructor]).
    assert (Hk : (k < length (v_wr v))%nat) by (apply nth_error_Some; rewrite (wg_nth _ _ _ _ _ W); discriminate).
    assert (Hl : legal y (Append k [0])) by (split; [exact Hb|]; rewrite (proj2 (repr_wr crc y v R)); exact Hk).
    assert (Al : allowed v (Append k [0])) by (split; [exact Hb|exact Hk]).
    pose proof (refines crc Hc y v _ R Al) as Rf. unfold Refined in Rf. destruct (perform crc (Append k [0]) y) as [y1 r] eqn:E.
    destruct Rf as [(v1 & D & RR) (_ & Hf & _)].
    assert (Hs : forall d, map f_id (set_data id d (v_files v)) = map f_id (v_files v)).
    { intros d. unfold set_data. rewrite map_map. apply map_ext. intros x. destruct (f_id x =? id); reflexivity. }
    assert (Hup : forall pd, map fst (upd (v_wr v) k (id, pd)) = map fst (v_wr v)).
    { intros pd. pose proof (wg_nth _ _ _ _ _ W) as Ew. clear -Ew. revert k Ew. induction (v_wr v) as [|a l IHl]; intros [|k] Ew; cbn in *; try discriminate.
      - injection Ew as ->. reflexivity.
      - f_equal. apply IHl. exact Ew. }
    cbn [does] in D. rewrite (wg_nth _ _ _ _ _ W) in D. destruct D as (x & data & pend' & m & Ex & Bg & Eq & Lp & Ev & [[Er En]|Er]).
    + subst r. specialize (RR ltac:(discriminate)). pose proof (content_look v id x Ex) as Ec. rewrite (wg_content _ _ _ _ _ W) in Ec. injection Ec as Ec.
      destruct (IH (es ++ [ACall (Append k [0]) RDone]) y1 v1 data pend') as (es' & y' & v' & A1 & A2 & A3 & A4 & A5 & A6 & A7).
      * eapply hi_step; [exact Hh|exact Hl|]. apply step_call; [exact E|discriminate].
      * exact RR.
      * rewrite Ev. constructor; cbn [v_wr v_files].
        -- apply upd_same. exact Hk.
        -- apply content_set. rewrite (wg_content _ _ _ _ _ W). discriminate.
        -- exact Lp.
      * apply (f_equal (@length N)) in Eq. rewrite !app_length, <- Ec, En, firstn_all in Eq. cbn [length] in Eq. set (q := (4016 * N.to_nat SECTORS_COUNT)%nat) in *. lia.
      * exists es', y', v'. split; [exact A1|]. split; [exact A2|]. split; [exact A3|]. rewrite Ev in A4, A5, A6, A7. cbn [v_open v_files v_wr v_rd] in *.
        rewrite A4, A5, A6, A7, Hs, Hup. auto.
    + subst r. specialize (RR ltac:(discriminate)). exists (es ++ [ACall (Append k [0]) (RErr DeviceFull)]), y1, v1.
      split; [eapply hi_step; [exact Hh|exact Hl|]; apply step_call; [exact E|discriminate]|]. split; [exact RR|]. split; [apply Hf; reflexivity|].
      rewrite Ev. cbn [v_open v_files v_wr v_rd]. rewrite Hs, Hup. auto.
Qed.

(** on a full device, opening for writing fails and leaves the mark *)
Lemma open_full crc y v id x : crc32 crc -> Repr crc y v -> free_bytes (sfs y) = 0 -> lookup v id = Some x -> marked v id = false -> (length (v_open v) < 32)%nat ->
  allowed v (OpenWrite id) -> exists y', perform crc (OpenWrite id) y = (y', RErr DeviceFull).
Proof.
  intros Hc R Hfree Ex M L Al. pose proof R as [(p & ents & C & H & W & ST & EF & EW & EV) Hrd Hop Hnd].
  assert (Hall : forall z, data_sector z -> ~ ~ H z).
  { intros z Hz Hn. destruct (free_bytes_exact (sfs y) H (st_al _ _ _ _ _ _ _ _ _ ST)) as (l & _ & Hl & E). rewrite E in Hfree.
    assert (Hin : In z l) by (apply Hl; auto). destruct l; [destruct Hin|]. cbn [length] in Hfree. lia. }
  assert (Hno : ~ In id (a_open (atb (sfs y)))).
  { intros Hi. apply Bool.not_true_iff_false in M. apply M. apply marked_in. eapply Permutation_in; [exact Hop|exact Hi]. }
  pose proof (st_disk _ _ _ _ _ _ _ _ _ ST) as Dk. 
  destruct (find_spec (sfs y) p (v_gen v) ents (v_top v) id (state_dir _ _ _ _ _ _ _ _ _ ST) (dk_sorted _ _ _ _ _ _ _ Dk)) as (o & E & Ho).
  cbn [perform]. unfold finish, open_file_for_write. rewrite (bind_ok _ _ _ _ _ E). destruct o as [[e k]|].
  2:{ exfalso. unfold lookup in Ex. rewrite EF in Ex. apply find_some in Ex. destruct Ex as [Hx Ei]. apply N.eqb_eq in Ei. unfold user_view in Hx.
      apply in_map_iff in Hx. destruct Hx as ([e c] & <- & Hec). apply in_combine_l in Hec. exact (Ho e Hec Ei). }
  destruct Ho as [En Ei]. unfold is_file_opened. rewrite bind_assoc, bind_get, bind_ret. unfold is_opened. rewrite Ei.
  destruct (existsb (fun z => z =? id) (a_open (atb (sfs y)))) eqn:Eb.
  { exfalso. apply existsb_exists in Eb. destruct Eb as (z & Hz & Ez). apply N.eqb_eq in Ez. subst z. exact (Hno Hz). }
  destruct (mark_op crc (sfs y) p (v_gen v) ents (v_top v) C H W id ST) as [(s1 & E1 & ST1 & O1 & F1 & L1 & Hop1)|(E1 & L1)].
  2:{ exfalso. rewrite (Permutation_length Hop) in L1. lia. }
  rewrite (bind_ok _ _ _ _ _ E1).
  destruct (claim_op crc false s1 p (v_gen v) ents (v_top v) C H W ST1) as [(s2 & z & _ & _ & Hnz & Hdz & _)|(E2 & _)]; [exfalso; exact (Hall z Hdz Hnz)|].
  rewrite (bind_err _ _ _ _ _ E2). eexists. reflexivity.
Qed.

Lemma only_one_not_two : forall l, map f_id l = [1] -> find (fun x => f_id x =? 2) l = None.
Proof. intros [|a [|b l]] H; cbn [map] in H; [discriminate H| |discriminate H]. injection H as H. cbn [find]. rewrite H. reflexivity. Qed.

(** C25 in full is false: after an open for writing that failed because the device is full, the file can neither be opened nor
    removed although nobody has it open *)
Theorem C25_refuted : forall crc, crc32 crc -> exists es y y' id, history crc es (On y) /\ legal y (OpenWrite id) /\
  perform crc (OpenWrite id) y = (y', RErr DeviceFull) /\ ~ In id (map w_id (sws y')) /\ ~ In id (srs y') /\
  forall c', opens c' id -> perform crc c' y' = (y', RErr FileInUse).
Proof.
  intros crc Hc. set (chk := fun o : option (list aevent * machine) => match o with
     | Some (_, On y) => Some (map w_id (sws y), srs y, a_open (atb (sfs y)), option_map (map f_id) (snapshot crc (fl (sfs y)) (fun _ => 0)), legalb y (CreateOpen 4), snd (perform crc (CreateOpen 4) y))
     | _ => None end).
  assert (E : chk (play crc [XBoot; XCall (Create 3)] (Off blank)) = Some ([], [], [], Some [1], true, RId 2)) by (vm_compute; reflexivity).
  unfold chk in E. clear chk. destruct (play crc [XBoot; XCall (Create 3)] (Off blank)) as [[es m]|] eqn:Ep; [|exfalso; exact (none_some _ E)].
  destruct m as [f|y0]; [exfalso; exact (none_some _ E)|].
  apply some_pair in E. destruct E as [E E6]. apply pair_equal_spec in E. destruct E as [E E5]. apply pair_equal_spec in E. destruct E as [E E4].
  apply pair_equal_spec in E. destruct E as [E E3]. apply pair_equal_spec in E. destruct E as [E1 E2].
  pose proof (play_history crc [XBoot; XCall (Create 3)] (Off blank) [] es (On y0) (hi_new crc blank FsBoot.blank_unused) Ep) as Hh. cbn [app] in Hh.
  destruct (perform crc (CreateOpen 4) y0) as [y1 r1] eqn:E7. cbn [snd] in E6. subst r1. apply legalb_sound in E5.
  destruct (running crc es y0 Hc Hh) as (v0 & _ & R0).
  pose proof (refines crc Hc y0 v0 _ R0 (legal_allowed crc y0 v0 _ R0 E5)) as Rf. unfold Refined in Rf. rewrite E7 in Rf. destruct Rf as [(v1 & D & RR) _].
  specialize (RR ltac:(discriminate)). cbn [does] in D. destruct D as [[Er Ev]|D]; [|discriminate]. injection Er as Er.
  rewrite (repr_snapshot crc y0 v0 _ R0) in E4. cbn [option_map] in E4. injection E4 as E4.
  assert (Eo : v_open v0 = []). { pose proof (rr_open crc y0 v0 R0) as P. rewrite E3 in P. apply Permutation_nil in P. exact P. }
  assert (Ew : v_wr v0 = []). { destruct (repr_wr crc y0 v0 R0) as [P _]. rewrite E1 in P. destruct (v_wr v0); [reflexivity|discriminate]. }
  assert (Erd : v_rd v0 = []) by (rewrite <- (rr_rd crc y0 v0 R0); exact E2).
  assert (Hnin : find (fun x => f_id x =? 2) (v_files v0) = None).
  { exact (only_one_not_two _ E4). }
  assert (W1 : writing v1 0 2 [] []).
  { rewrite Ev, <- Er, Ew. constructor; cbn [v_wr v_files app nth_error]; [reflexivity| |cbn; lia].
    unfold content. assert (Ef : find (fun x => f_id x =? 2) (v_files v0 ++ [(2, 4, [])]) = Some (2, 4, [])).
    { clear -Hnin. induction (v_files v0) as [|a l IHl]; [reflexivity|]. cbn [find app] in *. destruct (f_id a =? 2); [discriminate|]. apply IHl. exact Hnin. }
    rewrite Ef. reflexivity. }
  assert (Hh1 : history crc (es ++ [ACall (CreateOpen 4) (RId 2)]) (On y1)).
  { eapply hi_step; [exact Hh|exact E5|]. apply step_call; [exact E7|discriminate]. }
  destruct (fill crc Hc 0 2 (4016 * N.to_nat SECTORS_COUNT + 4016 + 1) _ y1 v1 [] [] Hh1 RR W1) as (es2 & y2 & v2 & Hh2 & R2 & Hfree & O2 & F2 & V2 & Rd2).
  { cbn [length]. set (q := (4016 * N.to_nat SECTORS_COUNT)%nat). lia. }
  rewrite Ev in O2, F2, V2, Rd2. cbn [v_open v_files v_wr v_rd] in *. rewrite Eo in O2. rewrite Ew in V2. rewrite Erd in Rd2. rewrite map_app, E4, <- Er in F2. cbn [map app fst f_id] in *.
  assert (Hin1 : In 1 (map f_id (v_files v2))) by (rewrite F2; left; reflexivity).
  destruct (lookup_in v2 1 Hin1) as (x & Ex).
  assert (M : marked v2 1 = false) by (unfold marked; rewrite O2; reflexivity).
  assert (Al : allowed v2 (OpenWrite 1)). { intros _. rewrite V2, <- Er. intros [K|[]]. discriminate. }
  assert (Hsw : map w_id (sws y2) = [2]) by (rewrite (proj1 (repr_wr crc y2 v2 R2)), V2, <- Er; reflexivity).
  assert (Hl2 : legal y2 (OpenWrite 1)). { cbn [legal]. rewrite Hsw. intros [K|[]]. discriminate. }
  destruct (open_full crc y2 v2 1 x Hc R2 Hfree Ex M ltac:(rewrite O2; cbn; lia) Al) as (y3 & E8).
  pose proof (refines crc Hc y2 v2 _ R2 Al) as Rf. unfold Refined in Rf. rewrite E8 in Rf. destruct Rf as [(v3 & D3 & RR3) _]. specialize (RR3 ltac:(discriminate)).
  cbn [does] in D3. rewrite Ex, M, O2 in D3. cbn [length Nat.leb app] in D3. destruct D3 as [[_ Ev3]|[[K _]|[K _]]]; [|discriminate|discriminate].
  assert (Ex3 : lookup v3 1 = Some x) by (rewrite Ev3; exact Ex). assert (M3 : marked v3 1 = true) by (rewrite Ev3; reflexivity).
  exists es2, y2, y3, 1. split; [exact Hh2|]. split; [exact Hl2|]. split; [exact E8|]. split; [|split].
  - rewrite (proj1 (repr_wr crc y3 v3 RR3)), Ev3. cbn [v_wr]. rewrite V2, <- Er. intros [K|[]]. discriminate.
  - rewrite (rr_rd crc y3 v3 RR3), Ev3. cbn [v_rd]. rewrite Rd2. intros [].
  - intros c' [-> | ->]; [exact (refused_read crc y3 v3 1 x RR3 Ex3 M3)|exact (refused_write crc y3 v3 1 x Hc RR3 Ex3 M3)].
Qed.
Print Assumptions C25_refuted.

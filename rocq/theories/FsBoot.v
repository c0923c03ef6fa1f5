(** * Starting the file system, and what a snapshot of a flash shows *)
From Coq Require Import Sorted Permutation.
From Verif Require Import Base Majority Flash FS Sectors SectorsProofs ATable TornCode TableCode TableScan TableBuild TableOps DirOps Chains FileIO FileFormat FileWrite WriteOps WriteSpec Disk Sessions DirState OpenOps Append OpenWrite FsSpec FsApi FsRefine.
Local Open Scope N_scope.
Local Open Scope fs_scope.

Section S.
Variable crc : list byte -> N.

Lemma repr_kept y v : Repr crc y v -> Kept crc (fl (sfs y)) (v_files v) (v_top v) (v_gen v).
Proof.
  intros [(p & ents & C & H & W & ST & EF & _) _ _ _]. exists p, ents, C. split; [apply (st_disk _ _ _ _ _ _ _ _ _ ST)|auto].
Qed.

Theorem boot_kept f F top gen r : Kept crc f F top gen ->
  exists s, boot f r = (s, Ok tt) /\ lg s = [] /\ fl s = f /\ Repr crc (mkSys s [] []) (mkV F [] [] [] top gen).
Proof.
  intros (p & ents & C & D & <-).
  destruct (boot_spec f r p gen ents top (map fst C)) as (s & E & Dr & A & Ef & El & Eo & _).
  { apply (dk_rep _ _ _ _ _ _ _ D). } { apply (disk_chains _ _ _ _ _ _ _ D). } { apply (dk_nodup _ _ _ _ _ _ _ D). }
  exists s. split; [exact E|]. split; [exact El|]. split; [exact Ef|].
  constructor; cbn [sfs sws srs v_rd v_open v_files v_wr v_top v_gen].
  - exists p, ents, C, (owned (map fst C)), []. split; [|split; [reflexivity|split; reflexivity]].
    constructor.
    + rewrite Ef. exact D.
    + destruct Dr as [_ Ea]. exact Ea.
    + exact A.
    + intros x Hx. exact Hx.
    + constructor.
    + constructor.
  - reflexivity.
  - rewrite Eo. constructor.
  - constructor.
Qed.

(** ** Reading every file *)
Lemma file_at s p seq ents mx C H W i e c : State crc s p seq ents mx C H W -> nth_error ents i = Some e -> nth_error C i = Some c ->
  NoDup (fst c) /\ exists ds, file_holds crc (fl s) (e_first e) (fst c) ds /\ concat ds = snd c.
Proof.
  intros ST He Hc. pose proof (st_disk _ _ _ _ _ _ _ _ _ ST) as D. split.
  - pose proof (nodup_concat _ (dk_nodup _ _ _ _ _ _ _ D)) as Fn. rewrite Forall_forall in Fn. apply Fn. apply in_map. eapply nth_error_In; eauto.
  - pose proof (dk_files _ _ _ _ _ _ _ D) as F2. clear -F2 He Hc. revert i He Hc. induction F2 as [|a b la lb Hab F2 IH]; intros [|i] He Hc; cbn in *; try discriminate.
    + injection He as <-. injection Hc as <-. exact Hab.
    + eapply IH; eauto.
Qed.

Lemma size_at s p seq ents mx C H W i e c : State crc s p seq ents mx C H W -> nth_error ents i = Some e -> nth_error C i = Some c ->
  get_file_size (e_id e) s = (s, Ok (N.of_nat (length (snd c)), N.of_nat (length (fst c)))).
Proof.
  intros ST He Hc. pose proof (st_disk _ _ _ _ _ _ _ _ _ ST) as D. destruct (file_at s p seq ents mx C H W i e c ST He Hc) as (Hn & ds & Hf & Ed).
  unfold get_file_size. destruct (find_spec s p seq ents mx (e_id e) (state_dir _ _ _ _ _ _ _ _ _ ST) (dk_sorted _ _ _ _ _ _ _ D)) as (o & E & Eo).
  rewrite (bind_ok _ _ _ _ _ E). destruct o as [[e' k]|].
  - destruct Eo as [En Ei]. assert (N.to_nat k = i) by (eapply sorted_inj; eauto using (dk_sorted _ _ _ _ _ _ _ D)). subst i.
    rewrite En in He. injection He as ->. rewrite bind_get. unfold liftM.
    rewrite (size_loop_spec crc (fl s) chain_fuel _ _ _ Hf).
    + rewrite Ed. reflexivity.
    + apply chain_fuel_big; [exact Hn|]. eapply chain_data. eapply file_chain; eauto.
  - exfalso. apply (Eo e); [eapply nth_error_In; eauto|reflexivity].
Qed.

Lemma read_all_spec s p seq ents mx C H W i e c : State crc s p seq ents mx C H W -> a_open (atb s) = [] ->
  nth_error ents i = Some e -> nth_error C i = Some c -> read_all crc s (e_id e) = Some (snd c).
Proof.
  intros ST Ho He Hc. pose proof (st_disk _ _ _ _ _ _ _ _ _ ST) as D.
  destruct (file_at s p seq ents mx C H W i e c ST He Hc) as (Hn & ds & Hf & Ed).
  pose proof (size_at s p seq ents mx C H W i e c ST He Hc) as Hsize.
  unfold read_all. rewrite Hsize. cbv iota beta.
  destruct (open_read_op crc s p seq ents mx C H W (e_id e) ST) as [(_ & Hno)|(e' & Hin & Eid & R)].
  { exfalso. apply (Hno e); [eapply nth_error_In; eauto|reflexivity]. }
  destruct R as [(_ & Hin')|(_ & R)]; [rewrite Ho in Hin'; destruct Hin'|].
  destruct R as [(_ & Hlen)|(s' & E' & ST' & Ho' & Ef & El & _)]; [rewrite Ho in Hlen; cbn in Hlen; lia|].
  assert (e' = e).
  { apply In_nth_error in Hin. destruct Hin as (j & Hj). assert (j = i) by (eapply sorted_inj; eauto using (dk_sorted _ _ _ _ _ _ _ D)). subst. congruence. }
  subst e'. rewrite E'. rewrite Ef. rewrite Nat2N.id.
  assert (Hl : (length (fst c) <= N.to_nat 16352)%nat).
  { apply all_data_length; auto. eapply chain_data. eapply file_chain; eauto. }
  destruct (read_slice_spec crc (fl s) (fst c) (new_reader (e_first e)) (concat ds) (17 * length (fst c)) (S (length (snd c)))) as (r' & m' & _ & Er & _).
  { apply (rinv_file crc (fl s) _ _ _ ds [] Hf (incl_refl _)). }
  { lia. }
  rewrite Er, Ed. replace (Nat.leb (S (length (snd c))) (length (snd c))) with false by (symmetry; apply Nat.leb_gt; lia).
  rewrite firstn_all2 by lia. reflexivity.
Qed.

Lemma read_each_spec s : forall ents (C : list (list N * list byte)), length ents = length C -> (forall i e c, nth_error ents i = Some e -> nth_error C i = Some c -> read_all crc s (e_id e) = Some (snd c)) ->
  read_each crc s ents = Some (user_view ents C).
Proof.
  induction ents as [|e ents IH]; intros [|c C] L H; try (cbn in L; lia); [reflexivity|].
  cbn [read_each]. rewrite (H O e c eq_refl eq_refl). rewrite (IH C); [|cbn in L; lia|].
  - reflexivity.
  - intros i e' c' He Hc. apply (H (S i) e' c'); assumption.
Qed.

Theorem snapshot_kept f F top gen r : Kept crc f F top gen -> snapshot crc f r = Some F.
Proof.
  intros K. destruct (boot_kept f F top gen r K) as (s & E & _ & Ef & [(p & ents & C & H & W & ST & EF & EW & _) _ Hop _]).
  cbn [sfs sws v_files v_gen v_top v_open] in *. unfold snapshot. rewrite E.
  rewrite (files_iter_spec s p gen ents top _ (state_dir _ _ _ _ _ _ _ _ _ ST)), filter_true.
  rewrite (read_each_spec s ents C).
  - rewrite EF. reflexivity.
  - apply (disk_len _ _ _ _ _ _ _ (st_disk _ _ _ _ _ _ _ _ _ ST)).
  - intros i e c. apply (read_all_spec s p gen ents top C H W i e c ST). apply Permutation_sym, Permutation_nil in Hop. exact Hop.
Qed.

(** ** A chip that has never been used, or whose first formatting was interrupted *)
(** the flash as if everything after the first sector were erased *)
Definition page0 (f : flash) : flash := fun x => if x <? 4096 then f x else 255.
Definition Fresh (f : flash) : Prop :=
  flash_ok f /\ (header_deserialize (rd f 0 13) = None \/ exists m, slot_holds (page0 f) 0 (firstn m (image 1 [] 0))) /\
  forall q, 1 <= q < 4 -> header_deserialize (rd f (q * 32768) 13) = None.

Lemma unused_fresh f : unused f -> Fresh f.
Proof. intros [O H]. split; [exact O|]. split; [left; apply (H 0); lia|intros q Hq; apply H; lia]. Qed.
Lemma blank_unused : unused blank.
Proof.
  split; [intros a; unfold blank, byte_ok; lia|].
  intros q _. replace (rd blank (q * 32768) 13) with (repeat 255 13). { vm_compute. reflexivity. }
  unfold rd, blank. cbn [seq map repeat]. reflexivity.
Qed.
Definition zeros : flash := fun _ => 0.
Lemma zeros_unused : unused zeros.
Proof.
  split; [intros a; unfold zeros, byte_ok; lia|].
  intros q _. replace (rd zeros (q * 32768) 13) with (repeat 0 13). { vm_compute. reflexivity. }
  unfold rd, zeros. cbn [seq map repeat]. reflexivity.
Qed.
Lemma blank_fresh : Fresh blank.
Proof. apply unused_fresh, blank_unused. Qed.

Lemma page0_rd f a n : (N.to_nat a + n <= N.to_nat 4096)%nat -> rd (page0 f) a n = rd f a n.
Proof. intros H. apply rd_ext. intros i Hi. unfold page0. destruct (N.ltb_spec (a + N.of_nat i) 4096); [reflexivity|lia]. Qed.
Lemma page0_invalid f m : slot_holds (page0 f) 0 (firstn m (image 1 [] 0)) -> invalid (page0 f) 0 -> invalid f 0.
Proof.
  intros Hs [H|H]; [left; rewrite <- H, page0_rd by lia; reflexivity|right].
  destruct slot_blocks as [|[|n]] eqn:En; [discriminate En|discriminate En|]. cbn [scan] in *. unfold read_entry_at in *. rewrite page0_rd in H by lia.
  destruct (entry_deserialize (rd f (0 + 13) 13)) as [e|]; [|reflexivity]. destruct (is_footer e); [exact H|].
  replace (rd f (0 + 13 + 13) 13) with (repeat 255 13); [rewrite blank_entry; reflexivity|].
  rewrite <- page0_rd by lia. symmetry. change (repeat 255 13) with (map (fun _ : nat => 255) (seq 0 13)). apply map_ext_in. intros i Hi. apply in_seq in Hi.
  replace (0 + 13 + 13 + N.of_nat i) with (0 + N.of_nat (26 + i)) by lia. rewrite Hs by lia. apply nth_overflow. rewrite firstn_length, image_length. cbn [length]. lia.
Qed.
Lemma page0_table f top : table_at (page0 f) 0 1 [] top -> table_at f 0 1 [] top.
Proof.
  intros T. destruct T as [Th Te Tn Tf Tc]. constructor.
  - rewrite <- Th. rewrite page0_rd by lia. reflexivity.
  - intros k e E. destruct k; discriminate E.
  - exact Tn.
  - destruct Tf as (e & E & R). exists e. split; [|exact R]. rewrite <- E. unfold read_entry_at. cbn [length]. rewrite page0_rd by lia. reflexivity.
  - exact Tc.
Qed.

Lemma fresh_table f top : Fresh f -> table_at f 0 1 [] top -> Kept crc f [] top 1.
Proof.
  intros (Ok & _ & Hq) T. exists 0, [], []. split; [|reflexivity]. constructor.
  - constructor.
    + lia.
    + lia.
    + exact T.
    + intros q H4 H0. left. left. apply Hq. lia.
    + intros q H4 H0 _ s E. rewrite Hq in E by lia. discriminate.
  - constructor.
  - constructor.
  - constructor.
  - exact Ok.
Qed.

Lemma fresh_scan f : Fresh f -> invalid f 0 \/ exists top, Kept crc f [] top 1.
Proof.
  intros Fr. pose proof Fr as (Ok & [Hn|(m & Hs)] & Hq); [left; left; exact Hn|].
  assert (H1 : 1 < 2 ^ 64) by reflexivity. assert (H0 : 0 < 2 ^ 64) by reflexivity.
  assert (Hc : (length (@nil entry) < slot_blocks)%nat) by (unfold slot_blocks; cbn [length]; lia).
  destruct (prefix_scan (page0 f) 0 1 0 [] m H1 H0 (Forall_nil _) (Forall_nil _) Hc Hs) as [Hi|(mx & T & _)]; [left; exact (page0_invalid f m Hs Hi)|].
  right. exists mx. apply fresh_table; [exact Fr|apply page0_table; exact T].
Qed.

Definition format_ops : list fop := [Erase 0 4096; Prog 0 (image 1 [] 0 ++ repeat 255 230)].

Lemma extend_small p d s : (length (pb_data p) + length d < 256)%nat -> pb_extend p d s = (s, Ok (mkPB (pb_addr p) (pb_data p ++ d))).
Proof.
  intros H. unfold pb_extend. destruct d as [|x d]; [cbn [length pb_extend_loop]; rewrite app_nil_r; destruct p; reflexivity|].
  cbn [pb_extend_loop]. destruct (Nat.ltb_spec (length (x :: d)) (256 - length (pb_data p))) as [L|L]; [reflexivity|exfalso; lia].
Qed.

Lemma format_run f r : write_empty_allocation_table (boot_state f r) =
  (emit (emit (boot_state f r) (Erase 0 4096)) (Prog 0 (image 1 [] 0 ++ repeat 255 230)), Ok tt).
Proof.
  unfold write_empty_allocation_table. rewrite bind_get. cbn [boot_state atb at_default a_pos a_seq a_max at_address].
  replace (at_address at_default) with 0 by reflexivity. rewrite bind_out.
  set (s1 := emit _ (Erase 0 4096)).
  destruct (header_serialize_shape 1) as [Lh _]. destruct (entry_serialize_shape (footer_entry 0)) as [Lf _].
  change (entry_serialize (footer_entry 0)) with (footer_serialize 0) in Lf.
  assert (E1 : pb_extend (mkPB 0 []) (header_serialize 1) s1 = (s1, Ok (mkPB 0 (header_serialize 1)))).
  { apply extend_small. cbn [pb_data length]. lia. }
  rewrite (bind_ok _ _ _ _ _ E1).
  assert (E2 : pb_extend (mkPB 0 (header_serialize 1)) (footer_serialize 0) s1 = (s1, Ok (mkPB 0 (header_serialize 1 ++ footer_serialize 0)))).
  { apply (extend_small (mkPB 0 (header_serialize 1))). cbn [pb_data]. lia. }
  rewrite (bind_ok _ _ _ _ _ E2). unfold pb_flush. cbn [pb_addr pb_data]. rewrite bind_assoc, bind_out, !bind_ret.
  rewrite app_length, Lh, Lf. change (256 - (13 + 13))%nat with 230%nat. unfold image, image_blocks. cbn [map app concat]. rewrite app_nil_r. reflexivity.
Qed.

Lemma image_26 : length (image 1 [] 0) = 26%nat.
Proof. rewrite image_length. reflexivity. Qed.

Lemma fresh_erased f : Fresh f -> Fresh (apply_op f (Erase 0 4096)) /\ slot_holds (page0 (apply_op f (Erase 0 4096))) 0 [].
Proof.
  intros (Ok & _ & Hq).
  assert (S0 : slot_holds (page0 (apply_op f (Erase 0 4096))) 0 []).
  { intros j Hj. unfold page0. destruct (N.ltb_spec (0 + N.of_nat j) 4096) as [L|L]; [|destruct j; reflexivity].
    cbn [apply_op]. destruct (N.leb_spec 0 (0 + N.of_nat j)); [|lia]. destruct (N.ltb_spec (0 + N.of_nat j) (0 + 4096)); [destruct j; reflexivity|lia]. }
  split; [|exact S0]. split; [apply apply_ok; exact Ok|]. split; [right; exists O; exact S0|].
  intros q Hq4. rewrite <- (Hq q Hq4). f_equal. apply rd_ext. intros i Hi. cbn [apply_op].
  destruct (N.ltb_spec (q * 32768 + N.of_nat i) (0 + 4096)); [lia|]. rewrite Bool.andb_false_r. reflexivity.
Qed.

Lemma fresh_prog f j : Fresh f -> slot_holds (page0 f) 0 [] ->
  let g := apply_op f (Prog 0 (firstn j (image 1 [] 0 ++ repeat 255 230))) in
  Fresh g /\ slot_holds (page0 g) 0 (firstn j (image 1 [] 0)).
Proof.
  intros (Ok & _ & Hq) S0 g.
  assert (Sg : slot_holds (page0 g) 0 (firstn j (image 1 [] 0))).
  { intros k Hk. pose proof (S0 k Hk) as E0. unfold page0 in *. destruct (N.ltb_spec (0 + N.of_nat k) 4096) as [L4|L4];
      [|symmetry; apply nth_overflow; rewrite firstn_length, image_26; lia].
    unfold g. cbn [apply_op]. rewrite E0. replace (nth k [] 255) with 255 by (destruct k; reflexivity). rewrite N.add_0_l, N.sub_0_r, Nat2N.id.
    destruct (N.leb_spec 0 (N.of_nat k)); [|lia]. cbn [andb]. rewrite !nth_firstn_d.
    assert (Hb : byte_ok (nth k (image 1 [] 0) 255)).
    { destruct (Nat.lt_ge_cases k 26) as [L|L].
      - pose proof (image_ok 1 [] 0) as Ho. unfold bytes_ok in Ho. rewrite Forall_forall in Ho. apply Ho. apply nth_In. rewrite image_26. exact L.
      - rewrite nth_overflow by (rewrite image_26; lia). unfold byte_ok; lia. }
    assert (En : nth k (image 1 [] 0 ++ repeat 255 230) 255 = nth k (image 1 [] 0) 255).
    { destruct (Nat.lt_ge_cases k 26) as [L|L].
      - rewrite app_nth1 by (rewrite image_26; lia). reflexivity.
      - rewrite app_nth2 by (rewrite image_26; lia). rewrite (nth_overflow (image 1 [] 0)) by (rewrite image_26; lia). apply nth_repeat. }
    rewrite En. rewrite firstn_length, app_length, repeat_length, image_26.
    destruct (Nat.ltb_spec k j) as [L|L]; destruct (N.ltb_spec (N.of_nat k) (0 + N.of_nat (Nat.min j (26 + 230)))) as [L2|L2]; try reflexivity; try lia.
    - apply land_255. exact Hb.
    - rewrite (nth_overflow (image 1 [] 0)); [reflexivity|]. rewrite image_26. lia. }
  split; [|exact Sg]. split; [apply apply_ok; exact Ok|]. split; [right; exists j; exact Sg|].
  intros q Hq4. rewrite <- (Hq q Hq4). f_equal. apply rd_ext. intros i Hi. unfold g. cbn [apply_op].
  destruct (N.ltb_spec (q * 32768 + N.of_nat i) (0 + N.of_nat (length (firstn j (image 1 [] 0 ++ repeat 255 230))))) as [L|L]; [|rewrite Bool.andb_false_r; reflexivity].
  rewrite firstn_length, app_length, repeat_length, image_26 in L. lia.
Qed.

Lemma fresh_torn f f' : Fresh f -> torn (Erase 0 4096) f f' -> Fresh f'.
Proof.
  intros (Ok & Hh & Hq) Ht. inversion Ht; subst. split; [|split].
  - intros a. destruct (_ && _); [unfold byte_ok; lia|apply Ok].
  - set (g := fun x => if ((0 <=? x) && (x <? 0 + 4096) && pages ((x - 0) / 256))%bool then 255 else f x).
    assert (Hg : forall x, x < 256 -> g x = if pages 0 then 255 else f x).
    { intros x Hx. unfold g. rewrite N.sub_0_r. replace (x / 256) with 0 by (symmetry; apply N.div_small; exact Hx).
      replace ((0 <=? x) && (x <? 0 + 4096))%bool with true by (symmetry; apply andb_true_intro; split; [apply N.leb_le; lia|apply N.ltb_lt; lia]). reflexivity. }
    destruct (pages 0) eqn:Ep.
    + left. replace (rd g 0 13) with (repeat 255 13); [apply blank_header|]. symmetry.
      change (repeat 255 13) with (map (fun _ : nat => 255) (seq 0 13)). apply map_ext_in. intros i Hi. apply in_seq in Hi. apply Hg. lia.
    + destruct Hh as [Hn|(m & Hs)].
      * left. rewrite <- Hn. f_equal. apply rd_ext. intros i Hi. apply Hg. lia.
      * right. exists m. intros j Hj. pose proof (Hs j Hj) as E. unfold page0 in *. destruct (N.ltb_spec (0 + N.of_nat j) 4096) as [L4|L4]; [|exact E].
        destruct (Nat.lt_ge_cases j 256) as [L|L]; [rewrite Hg by lia; exact E|].
        assert (N1 : nth j (firstn m (image 1 [] 0)) 255 = 255) by (apply nth_overflow; rewrite firstn_length, image_26; lia).
        rewrite N1 in *. unfold g. destruct (_ && _); [reflexivity|exact E].
  - intros q Hq4. rewrite <- (Hq q Hq4). f_equal. apply rd_ext. intros i Hi.
    destruct (N.ltb_spec (q * 32768 + N.of_nat i) (0 + 4096)); [lia|]. rewrite Bool.andb_false_r. reflexivity.
Qed.

Lemma format_crash f f' : Fresh f -> crash f format_ops f' -> Fresh f'.
Proof.
  intros Fr Hc. unfold format_ops in Hc. inversion Hc; subst; [exact Fr|eapply fresh_torn; eauto|].
  match goal with H : crash _ [Prog _ _] _ |- _ => inversion H; subst end.
  - apply fresh_erased; exact Fr.
  - match goal with H : torn (Prog _ _) _ _ |- _ => inversion H; subst end. apply (fresh_prog _ j); apply fresh_erased; exact Fr.
  - match goal with H : crash _ [] _ |- _ => inversion H; subst end.
    pose proof (fresh_prog (apply_op f (Erase 0 4096)) (length (image 1 [] 0 ++ repeat 255 230))) as K.
    rewrite firstn_all in K. apply K; apply fresh_erased; exact Fr.
Qed.

(** What a boot does: it always succeeds, shows the files the flash held (none on a fresh chip), and a power loss during it
    changes nothing. *)
Definition Holds (f : flash) (F : list file) (top gen : N) : Prop := Kept crc f F top gen \/ (Fresh f /\ F = [] /\ gen = 1).

Lemma table_full f : slot_holds (page0 f) 0 (image 1 [] 0) -> table_at f 0 1 [] 0.
Proof.
  intros H. apply page0_table. apply (full_table (page0 f) 0 1 0 []); auto; try reflexivity.
  unfold slot_blocks. cbn [length]. lia.
Qed.

Theorem boot_holds f F top gen r : Holds f F top gen ->
  exists s top', boot f r = (s, Ok tt) /\ Repr crc (mkSys s [] []) (mkV F [] [] [] top' gen) /\ (Kept crc f F top gen -> top' = top) /\
    forall f', crash f (lg s) f' -> exists t, Holds f' F t gen /\ (Kept crc f F top gen -> t = top).
Proof.
  intros HH. assert (Hdec : (exists t, Kept crc f F t gen /\ (Kept crc f F top gen -> t = top)) \/ (Fresh f /\ F = [] /\ gen = 1 /\ invalid f 0)).
  { destruct HH as [K|(Fr & -> & ->)]; [left; exists top; auto|]. destruct (fresh_scan f Fr) as [Hi|(t & K)]; [right; auto|left].
    exists t. split; [exact K|]. intros K2. destruct K as (p & e & C & D & _), K2 as (p2 & e2 & C2 & D2 & _).
    eapply rep_inj; [apply (dk_rep _ _ _ _ _ _ _ D)|apply (dk_rep _ _ _ _ _ _ _ D2)]. }
  destruct Hdec as [(t & K & Et)|(Fr & -> & -> & Hi)].
  - destruct (boot_kept f F t gen r K) as (s & E & El & Ef & R). exists s, t. split; [exact E|]. split; [exact R|]. split; [exact Et|].
    rewrite El. intros f' Hc. inversion Hc; subst. exists t. split; [left; exact K|exact Et].
  - assert (Hall : forall q, q < 4 -> invalid f (q * 32768)).
    { intros q Hq. destruct (N.eqb_spec q 0) as [->|H0]; [exact Hi|]. left. apply Fr. lia. }
    assert (Hno : forall t, ~ Kept crc f [] t 1).
    { intros t (p & e & C & D & _). pose proof (rep_read_latest _ _ _ _ _ (dk_rep _ _ _ _ _ _ _ D)) as E. rewrite (read_latest_none f at_default Hall) in E. discriminate. }
    assert (Eb : boot f r = (emit (emit (boot_state f r) (Erase 0 4096)) (Prog 0 (image 1 [] 0 ++ repeat 255 230)), Ok tt)).
    { unfold boot, init. rewrite bind_get. cbn [boot_state fl atb]. rewrite (read_latest_none f at_default Hall). apply format_run. }
    eexists _, 0. split; [exact Eb|]. split; [|split; [intros K; exfalso; exact (Hno _ K)|]].
    + set (f2 := apply_op (apply_op f (Erase 0 4096)) (Prog 0 (image 1 [] 0 ++ repeat 255 230))).
      destruct (fresh_erased f Fr) as [Fr1 S1].
      pose proof (fresh_prog _ (length (image 1 [] 0 ++ repeat 255 230)) Fr1 S1) as K. cbv zeta in K. rewrite firstn_all in K. fold f2 in K. destruct K as [Fr2 S2].
      rewrite firstn_all2 in S2 by (rewrite app_length; lia).
      pose proof (fresh_table f2 0 Fr2 (table_full f2 S2)) as (p & ents & C & D & EF).
      assert (ents = [] /\ p = 0) as [-> ->].
      { assert (R0 : Rep f2 0 1 [] 0).
        { constructor; [lia|lia|apply table_full; exact S2| |].
          - intros q H4 H0. left. left. apply Fr2. lia.
          - intros q H4 H0 _ s E. destruct Fr2 as (_ & _ & Hq). rewrite Hq in E by lia. discriminate. }
        destruct (rep_inj _ _ _ _ _ _ _ _ _ (dk_rep _ _ _ _ _ _ _ D) R0) as (? & ? & ? & ?). auto. }
      constructor; cbn [sfs sws srs v_rd v_open v_files v_wr v_top v_gen emit fl atb boot_state at_default a_open].
      * exists 0, [], C, (fun _ => False), []. split; [|auto]. pose proof (dk_files _ _ _ _ _ _ _ D) as F2. inversion F2; subst. constructor.
        -- cbn [emit fl boot_state]. exact D.
        -- reflexivity.
        -- apply alloc_new.
        -- intros x Hx. cbn in Hx. exact Hx.
        -- constructor.
        -- constructor.
      * reflexivity.
      * constructor.
      * constructor.
    + cbn [emit lg boot_state app]. intros f' Hc. exists top. split; [|auto]. right. split; [|auto]. apply (format_crash f); auto.
Qed.
End S.

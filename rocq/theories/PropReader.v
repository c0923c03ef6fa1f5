(** * C118: a file open for reading is not disturbed by what other tasks do. *)
From Coq Require Import Permutation.
From Verif Require Import Base Majority Flash FS Sectors SectorsProofs ATable TornCode TableCode TableScan TableBuild TableOps DirOps Chains FileIO FileFormat FileWrite WriteOps WriteSpec Disk Sessions DirState OpenOps Append OpenWrite FsSpec FsApi FsRefine FsBoot FsHistory PropDirectory PropFiles FsExec PropSpace PropRules FsExamples PropShared.
Local Open Scope N_scope.

(** ** Specification *)
(** a call of another task: anything but giving back this task's reader of file [id] *)
Definition not_mine (id : N) (y : sys) (c : call) : Prop :=
  match c with CloseReader j => nth_error (srs y) j <> Some id | _ => True end.

(** [reads_among crc id y r lens outs y' r']: from [y] to [y'] the task holding the reader [r] of file [id] asks for [lens] bytes (reader.rs:196-227), one
    request after the other, and gets [outs]; between its requests other tasks make any calls of theirs (legal ones: see [legal]), successful or not *)
Inductive reads_among (crc : list byte -> N) (id : N) : sys -> reader -> list nat -> list (list byte * status) -> sys -> reader -> Prop :=
| ra_done y r : reads_among crc id y r [] [] y r
| ra_read y r n r1 d st lens outs y' r' : read_slice crc (fl (sfs y)) r n = Ok (r1, d, st) -> reads_among crc id y r1 lens outs y' r' ->
    reads_among crc id y r (n :: lens) ((d, st) :: outs) y' r'
| ra_other y r c a y1 lens outs y' r' : legal y c -> not_mine id y c -> perform crc c y = (y1, a) -> a <> RPanic ->
    reads_among crc id y1 r lens outs y' r' -> reads_among crc id y r lens outs y' r'.

(** ** What a call does to the sectors of the files it is not about *)
Section Same.
Variable crc : list byte -> N.
Hypothesis Hcrc : crc32 crc.

Section Writer.
Variables (s : fs) (p seq : N) (ents : list entry) (mx : N) (C : list (list N * list byte)) (H : N -> Prop) (w : writer) (cur : list byte) (W : list (writer * list byte)).
Hypothesis ST : State crc s p seq ents mx C H ((w, cur) :: W).

Lemma other_file i0 e0 i e : nth_error ents i0 = Some e0 -> e_id e0 = w_id w -> nth_error ents i = Some e -> e_id e <> w_id w -> i <> i0.
Proof. intros H0 E0 H1 E1 ->. rewrite H0 in H1. injection H1 as ->. exact (E1 E0). Qed.

Lemma extend_same slice s' r : bytes_ok slice -> extend_from_slice crc w slice s = (s', r) ->
  forall i e c x, nth_error ents i = Some e -> e_id e <> w_id w -> nth_error C i = Some c -> In x (fst c) -> sector_same (fl s) (fl s') x.
Proof.
  intros Hb E0 i2 e2 c2 x2 He2 Hid2 Hc2 Hx2. destruct (wst_head _ _ _ _ _ _ _ _ _ _ _ ST) as (i & e & l & ds & q & He & Hc & Hid & Hseg & Hrep & Hset).
  assert (Hall : prefix (concat ds ++ cur) (concat ds ++ cur ++ slice)) by (rewrite app_assoc; apply prefix_app).
  pose proof (op_start crc false s p seq ents mx C H w cur W i e l ds q _ ST Hc Hseg Hrep Hall) as I.
  pose proof (op_file crc s p seq ents mx C H w cur W i l ds ST Hc) as Hf.
  destruct (extend_step crc Hcrc false s H (e_first e) l (w_sec w) (concat ds) (concat ds ++ cur ++ slice) Hf (S (S (length slice))) slice
              s w H l [] ds cur q I) as (s1 & w' & H' & l' & l1' & ds' & cur' & q' & r1 & k & E & J1 & _); auto.
  { intros y. cbn [In]. tauto. }
  { destruct (Nat.eqb (room w) 0); lia. }
  { apply prefix_refl. }
  assert (s' = s1) as -> by exact (pair_eq _ _ _ _ _ E E0).
  apply (other_same crc s p seq ents mx C H w cur W i l ds ST Hc _ i2 c2); auto.
  - apply (ss_old _ _ _ _ _ _ _ _ _ _ _ _ (wi_ss _ _ _ _ _ _ _ _ _ _ _ _ _ _ _ _ _ J1)).
  - exact (other_file i e i2 e2 He Hid He2 Hid2).
Qed.

Lemma flush_same s' r : flush crc w s = (s', r) ->
  forall i e c x, nth_error ents i = Some e -> e_id e <> w_id w -> nth_error C i = Some c -> In x (fst c) -> sector_same (fl s) (fl s') x.
Proof.
  intros E0 i2 e2 c2 x2 He2 Hid2 Hc2 Hx2. destruct (wst_head _ _ _ _ _ _ _ _ _ _ _ ST) as (i & e & l & ds & q & He & Hc & Hid & Hseg & Hrep & Hset).
  pose proof (prefix_refl (concat ds ++ cur)) as Hall.
  pose proof (op_start crc false s p seq ents mx C H w cur W i e l ds q _ ST Hc Hseg Hrep Hall) as I.
  pose proof (op_file crc s p seq ents mx C H w cur W i l ds ST Hc) as Hf.
  destruct (flush_step crc Hcrc false s H (e_first e) l (w_sec w) (concat ds) (concat ds ++ cur) Hf
              s w H l [] ds cur q I) as (s1 & w' & H' & l' & l1' & ds' & r1 & E & J1 & J2 & J3); auto.
  { intros y. cbn [In]. tauto. }
  assert (s' = s1) as -> by exact (pair_eq _ _ _ _ _ E E0).
  destruct J1 as [(_ & J1 & _)|(_ & _ & -> & _)]; [|intros a _; reflexivity].
  apply (other_same crc s p seq ents mx C H w cur W i l ds ST Hc _ i2 c2); auto.
  - apply (ss_old _ _ _ _ _ _ _ _ _ _ _ _ (wi_ss _ _ _ _ _ _ _ _ _ _ _ _ _ _ _ _ _ J1)).
  - exact (other_file i e i2 e2 He Hid He2 Hid2).
Qed.

Lemma close_same s' r : close_writer crc w s = (s', r) ->
  forall i e c x, nth_error ents i = Some e -> e_id e <> w_id w -> nth_error C i = Some c -> In x (fst c) -> sector_same (fl s) (fl s') x.
Proof.
  intros E0 i2 e2 c2 x2 He2 Hid2 Hc2 Hx2. destruct (wst_head _ _ _ _ _ _ _ _ _ _ _ ST) as (i & e & l & ds & q & He & Hc & Hid & Hseg & Hrep & Hset).
  pose proof (prefix_refl (concat ds ++ cur)) as Hall.
  pose proof (op_start crc false s p seq ents mx C H w cur W i e l ds q _ ST Hc Hseg Hrep Hall) as I.
  pose proof (op_file crc s p seq ents mx C H w cur W i l ds ST Hc) as Hf.
  destruct (flush__spec crc Hcrc false s H (e_first e) l (w_sec w) (concat ds) (concat ds ++ cur) Hf s w H l [] ds cur q 65535 I Hall)
    as (s1 & E & A1 & _); [left; auto|].
  unfold close_writer in E0. rewrite (bind_ok _ _ _ _ _ E), mark_closed_eq in E0. apply pair_equal_spec in E0. destruct E0 as [<- _]. cbn [set_at fl].
  apply (other_same crc s p seq ents mx C H w cur W i l ds ST Hc _ i2 c2); auto.
  - apply (ss_old _ _ _ _ _ _ _ _ _ _ _ _ A1).
  - exact (other_file i e i2 e2 He Hid He2 Hid2).
Qed.
End Writer.

Section Dir.
Variables (s : fs) (p seq : N) (ents : list entry) (mx : N) (C : list (list N * list byte)) (H : N -> Prop) (W : list (writer * list byte)).
Hypothesis ST : State crc s p seq ents mx C H W.

Lemma not_panic {A} (x : fs * res A) s1 s2 a : x = (s1, Ok a) -> x = (s2, Panic) -> False.
Proof. intros ->. intros X. apply pair_equal_spec in X. destruct X as [_ X]. discriminate X. Qed.

Lemma create_same typ s' e : (length ents + 1 < slot_blocks)%nat -> create_file typ s = (s', Ok e) ->
  forall x, owns C x -> sector_same (fl s) (fl s') x.
Proof.
  intros Hl E0 x Hx. pose proof (state_dir _ _ _ _ _ _ _ _ _ ST) as HD. pose proof (st_disk _ _ _ _ _ _ _ _ _ ST) as Dk.
  destruct (N.lt_ge_cases (seq + 1) (2 ^ 64)) as [Hs|Hs].
  2:{ exfalso. destruct HD as [_ A]. refine (not_panic _ _ _ _ E0 _). unfold create_file. eapply new_overflow; eauto. }
  destruct (N.lt_ge_cases (maxid mx ents + 1) (2 ^ 64)) as [Hm|Hm].
  2:{ exfalso. destruct (create_overflow false H s p seq ents mx typ HD Hs Hl Hm) as [(s1 & E & T) _]. exact (not_panic _ _ _ _ E0 E). }
  destruct (create_spec false H s p seq ents mx typ HD Hs Hl Hm) as (s1 & E & U & M & K).
  assert (s' = s1) as -> by exact (pair_eq _ _ _ _ _ E E0).
  apply dkeep_same; [exact K|]. apply (disk_data _ _ _ _ _ _ _ Dk). exact Hx.
Qed.

Lemma create_open_same typ s' e : (length ents + 1 < slot_blocks)%nat -> create_file_and_open_for_write typ s = (s', Ok e) ->
  forall x, owns C x -> sector_same (fl s) (fl s') x.
Proof.
  intros Hl E0 x Hx. pose proof (state_dir _ _ _ _ _ _ _ _ _ ST) as HD. pose proof (st_al _ _ _ _ _ _ _ _ _ ST) as HA.
  destruct (N.lt_ge_cases (seq + 1) (2 ^ 64)) as [Hs|Hs].
  2:{ exfalso. destruct HD as [_ A]. refine (not_panic _ _ _ _ E0 _). unfold create_file_and_open_for_write. eapply new_overflow; eauto. }
  destruct (N.lt_ge_cases (maxid mx ents + 1) (2 ^ 64)) as [Hm|Hm].
  2:{ exfalso. destruct (create_overflow false H s p seq ents mx typ HD Hs Hl Hm) as [_ (s1 & E & T)]. exact (not_panic _ _ _ _ E0 E). }
  destruct (create_open_spec false H s p seq ents mx typ HD Hs Hl Hm HA) as [(s1 & z & E & _ & _ & _ & _ & _ & _ & Hfr)|((s1 & E & T) & _)].
  2:{ exfalso. exact (not_panic _ _ _ _ E0 E). }
  assert (s' = s1) as -> by exact (pair_eq _ _ _ _ _ E E0).
  apply Hfr. apply (st_own _ _ _ _ _ _ _ _ _ ST). exact Hx.
Qed.

Lemma remove_same flt s' n : remove_files flt s = (s', Ok n) -> forall x, owns C x -> sector_same (fl s) (fl s') x.
Proof.
  intros E0 x Hx. pose proof (state_dir _ _ _ _ _ _ _ _ _ ST) as HD. pose proof (st_disk _ _ _ _ _ _ _ _ _ ST) as Dk.
  destruct (N.lt_ge_cases (seq + 1) (2 ^ 64)) as [Hs|Hs].
  2:{ exfalso. destruct HD as [_ A]. refine (not_panic _ _ _ _ E0 _). unfold remove_files. eapply new_overflow; eauto. }
  destruct (remove_files_spec false H s p seq ents mx flt (map fst C) HD Hs (disk_chains _ _ _ _ _ _ _ Dk) (dk_nodup _ _ _ _ _ _ _ Dk) (st_al _ _ _ _ _ _ _ _ _ ST)
    (st_own _ _ _ _ _ _ _ _ _ ST)) as (s1 & E & U & A' & K).
  assert (s' = s1) as -> by exact (pair_eq _ _ _ _ _ E E0).
  apply dkeep_same; [exact K|]. apply (disk_data _ _ _ _ _ _ _ Dk). exact Hx.
Qed.
End Dir.

(** the file with entry [e] is listed and occupies the sectors [L] *)
Definition Placed (s : fs) (e : entry) (L : list N) : Prop :=
  (exists p seq ents mx, Dir s p seq ents mx /\ In e ents) /\ chain (fl s) (e_first e) L.

Lemma placed_at s p seq ents mx C H W e L : State crc s p seq ents mx C H W -> Placed s e L ->
  exists i c, nth_error ents i = Some e /\ nth_error C i = Some c /\ fst c = L.
Proof.
  intros ST [(p1 & q1 & ents1 & m1 & D1 & I1) Hch]. pose proof (state_dir _ _ _ _ _ _ _ _ _ ST) as D. pose proof (st_disk _ _ _ _ _ _ _ _ _ ST) as Dk.
  pose proof (files_iter_spec s p1 q1 ents1 m1 (fun _ => true) D1) as X1. pose proof (files_iter_spec s p seq ents mx (fun _ => true) D) as X2.
  rewrite X1 in X2. injection X2 as X2. rewrite !filter_true in X2. subst ents1. apply In_nth_error in I1. destruct I1 as (i & Hi).
  assert (Hil : (i < length C)%nat) by (rewrite <- (disk_len _ _ _ _ _ _ _ Dk); apply nth_error_Some; congruence).
  destruct (nth_error C i) as [c|] eqn:Ec; [|apply nth_error_None in Ec; lia]. exists i, c. split; [exact Hi|]. split; [exact Ec|].
  destruct (file_at crc s p seq ents mx C H W i e c ST Hi Ec) as (_ & ds & Hf & _). apply (chain_fun (fl s) (e_first e)); [|exact Hch]. eapply file_chain; exact Hf.
Qed.

Lemma placed_keep s s' e L p seq ents mx : Placed s e L -> Dir s' p seq ents mx -> In e ents -> (forall x, In x L -> sector_same (fl s) (fl s') x) -> Placed s' e L.
Proof. intros [_ Hc] D I Hs. split; [exists p, seq, ents, mx; auto|]. exact (chain_same _ _ _ _ Hc Hs). Qed.

Lemma call_keeps y v c y' r e L : Repr crc y v -> allowed v c -> perform crc c y = (y', r) -> r <> RPanic ->
  ~ In (e_id e) (map fst (v_wr v)) -> marked v (e_id e) = true -> Placed (sfs y) e L ->
  Placed (sfs y') e L /\ forall x, In x L -> sector_same (fl (sfs y)) (fl (sfs y')) x.
Proof.
  intros [(p & ents & C & H & W & ST & EF & EW & EV) Hrd Hop Hnd] Al E Hr Hnw Hmk HP.
  pose proof (st_disk _ _ _ _ _ _ _ _ _ ST) as Dk. pose proof (disk_len _ _ _ _ _ _ _ Dk) as Hlen.
  destruct (placed_at _ _ _ _ _ _ _ _ e L ST HP) as (i & c0 & Hi & Hci & EL). pose proof (nth_error_In _ _ Hi) as Hin.
  assert (HO : forall x, In x L -> owns C x) by (intros x Hx; apply (owns_nth C i c0); [exact Hci|rewrite EL; exact Hx]).
  assert (K : forall s' p' q' ents' m', Dir s' p' q' ents' m' -> In e ents' -> (forall x, In x L -> sector_same (fl (sfs y)) (fl s') x) ->
    Placed s' e L /\ forall x, In x L -> sector_same (fl (sfs y)) (fl s') x).
  { intros s' p' q' ents' m' D' I' S'. split; [|exact S']. eapply placed_keep; eauto. }
  assert (Kq : forall s', fl s' = fl (sfs y) -> Dir s' p (v_gen v) ents (v_top v) -> Placed s' e L /\ forall x, In x L -> sector_same (fl (sfs y)) (fl s') x).
  { intros s' Ef D'. eapply K; [exact D'|exact Hin|]. intros x _ a _. rewrite Ef. reflexivity. }
  assert (Hsame : Placed (sfs y) e L /\ forall x, In x L -> sector_same (fl (sfs y)) (fl (sfs y)) x) by (split; [exact HP|intros x _ a _; reflexivity]).
  destruct c as [t|t|sel0|id|id|k d|k|k|k]; cbn [perform allowed] in *; unfold finish in E.
  - destruct Al as [Ht Hl]. rewrite EF, view_length in Hl by auto. assert (Hl' : (length ents + 1 < slot_blocks)%nat) by (unfold slot_blocks; lia).
    destruct (create_both crc (sfs y) p (v_gen v) ents (v_top v) C H W t ST Ht Hl') as (s' & _ & [(Ec & ST' & _)|(Ec & _)]); rewrite Ec in E; apply pair_equal_spec in E; destruct E as [<- E2]; [|congruence].
    cbn [sfs]. eapply K; [exact (state_dir _ _ _ _ _ _ _ _ _ ST')|apply in_or_app; left; exact Hin|].
    intros x Hx. exact (create_same _ _ _ _ _ _ _ _ ST _ _ _ Hl' Ec x (HO x Hx)).
  - destruct Al as [Ht Hl]. rewrite EF, view_length in Hl by auto. assert (Hl' : (length ents + 1 < slot_blocks)%nat) by (unfold slot_blocks; lia).
    destruct (create_open_both crc (sfs y) p (v_gen v) ents (v_top v) C H W t ST Ht Hl') as (s' & _ & [(z & Ec & ST' & _)|(Ec & _)]); rewrite Ec in E; apply pair_equal_spec in E; destruct E as [<- E2]; [|congruence].
    cbn [sfs]. eapply K; [exact (state_dir _ _ _ _ _ _ _ _ _ ST')|apply in_or_app; left; exact Hin|].
    intros x Hx. exact (create_open_same _ _ _ _ _ _ _ _ ST _ _ _ Hl' Ec x (HO x Hx)).
  - set (flt := fun e => sel0 (e_id e) (e_typ e)) in *.
    assert (Hm : forall id, existsb (fun x => x =? id) (a_open (atb (sfs y))) = marked v id) by (intros id; symmetry; apply marked_perm; auto).
    destruct (remove_both crc (sfs y) p (v_gen v) ents (v_top v) C H W flt ST) as (s' & _ & R).
    { intros w cur e1 Hiw He Eid. apply In_nth_error in He. destruct He as (j & He).
      assert (Hj : (j < length C)%nat) by (rewrite <- Hlen; apply nth_error_Some; congruence).
      destruct (nth_error C j) as [c1|] eqn:Ec; [|apply nth_error_None in Ec; lia].
      assert (G : goes v sel0 (e_id e1, e_typ e1, snd c1) = false).
      { apply (Al (w_id w) cur (e_id e1, e_typ e1, snd c1)).
        - rewrite EV. apply in_map_iff. exists (w, cur). auto.
        - unfold lookup. rewrite EF, <- Eid. eapply find_view; eauto. apply sorted_nodup, (dk_sorted _ _ _ _ _ _ _ Dk). }
      unfold goes, f_id, f_typ in G. cbn [fst snd] in G. unfold keeps, drops. rewrite Hm. unfold flt. rewrite G. reflexivity. }
    destruct R as [(Ec & H' & ST' & _)|(Ec & _)]; rewrite Ec in E; apply pair_equal_spec in E; destruct E as [<- E2]; [|congruence].
    cbn [sfs]. eapply K; [exact (state_dir _ _ _ _ _ _ _ _ _ ST')| |].
    + apply filter_In. split; [exact Hin|]. unfold keeps, drops. rewrite Hm, Hmk. destruct (flt e); reflexivity.
    + intros x Hx. exact (remove_same _ _ _ _ _ _ _ _ ST _ _ _ Ec x (HO x Hx)).
  - pose proof (FsRefine.marked_in (a_open (atb (sfs y))) v id Hop) as Hm.
    destruct (open_write_op crc (sfs y) p (v_gen v) ents (v_top v) C H W id ST) as [(Ec & _)|(i1 & e1 & l1 & c1 & He1 & Ei1 & Ec1 & R)].
    { intros Hnin w cur Hiw Ew. apply (Al ltac:(destruct (marked v id); [tauto|auto])). rewrite EV, map_map. apply in_map_iff. exists (w, cur). auto. }
    { rewrite Ec in E. apply pair_equal_spec in E. destruct E as [<- _]. exact Hsame. }
    destruct R as [(Ec & _)|(Hni & [(Ec & _)|(_ & s' & _ & R)])]; [rewrite Ec in E; apply pair_equal_spec in E; destruct E as [<- _]; exact Hsame..|].
    assert (Hne : i <> i1).
    { intros ->. rewrite Hi in He1. injection He1 as <-. apply Hni. rewrite Ei1 in Hmk. apply Hm. exact Hmk. }
    destruct R as [(Ec & (H' & ST' & _) & _ & S')|[(Ec & _)|(z & p' & q' & ents' & m' & C' & H' & Ec & ST' & _ & _ & _ & _ & S')]]; rewrite Ec in E;
      apply pair_equal_spec in E; destruct E as [<- E2]; [|congruence|]; cbn [sfs].
    + eapply K; [exact (state_dir _ _ _ _ _ _ _ _ _ ST')|exact Hin|]. intros x Hx. apply S', HO, Hx.
    + destruct (S' i e c0 Hne Hi Hci) as [Hi' Sx]. eapply K; [exact (state_dir _ _ _ _ _ _ _ _ _ ST')|exact (nth_error_In _ _ Hi')|].
      intros x Hx. apply Sx. rewrite EL. exact Hx.
  - destruct (open_read_op crc (sfs y) p (v_gen v) ents (v_top v) C H W id ST) as [(Ec & _)|(e1 & _ & _ & R)]; [rewrite Ec in E; apply pair_equal_spec in E; destruct E as [<- _]; exact Hsame|].
    destruct R as [(Ec & _)|(_ & [(Ec & _)|(s' & Ec & ST' & _ & F & _ & _)])]; [rewrite Ec in E; apply pair_equal_spec in E; destruct E as [<- _]; exact Hsame..|].
    rewrite Ec in E. apply pair_equal_spec in E. destruct E as [<- _]. cbn [sfs]. apply Kq; [exact F|exact (state_dir _ _ _ _ _ _ _ _ _ ST')].
  - destruct Al as [Hd Hk]. destruct (nth_error (v_wr v) k) as [[id pend]|] eqn:Ek; [|apply nth_error_None in Ek; lia].
    destruct (writer_at y v W k id pend EW EV Ek) as (w & A & B & EWW & Lk & Eid & Enw).
    assert (ST1 : State crc (sfs y) p (v_gen v) ents (v_top v) C H ((w, pend) :: A ++ B)).
    { eapply state_perm; [|exact ST]. rewrite EWW. symmetry. apply Permutation_middle. }
    assert (Hne : e_id e <> w_id w). { intros X. apply Hnw. rewrite X, Eid. apply in_map_iff. exists (id, pend). split; [reflexivity|eapply nth_error_In; eauto]. }
    destruct (extend_op crc Hcrc false (sfs y) p (v_gen v) ents (v_top v) C H w pend (A ++ B) d ST1 Hd)
      as (i1 & e1 & l1 & c1 & He & Eie & Ec & s' & w' & cur' & c' & H' & r1 & n & Eo & ST' & _).
    rewrite Enw, Eo in E. apply pair_equal_spec in E. destruct E as [<- _]. cbn [sfs]. eapply K; [exact (state_dir _ _ _ _ _ _ _ _ _ ST')|exact Hin|].
    intros x Hx. refine (extend_same _ _ _ _ _ _ _ _ _ _ ST1 d s' _ Hd Eo i e c0 x Hi Hne Hci _). rewrite EL. exact Hx.
  - destruct (nth_error (v_wr v) k) as [[id pend]|] eqn:Ek; [|apply nth_error_None in Ek; lia].
    destruct (writer_at y v W k id pend EW EV Ek) as (w & A & B & EWW & Lk & Eid & Enw).
    assert (ST1 : State crc (sfs y) p (v_gen v) ents (v_top v) C H ((w, pend) :: A ++ B)).
    { eapply state_perm; [|exact ST]. rewrite EWW. symmetry. apply Permutation_middle. }
    assert (Hne : e_id e <> w_id w). { intros X. apply Hnw. rewrite X, Eid. apply in_map_iff. exists (id, pend). split; [reflexivity|eapply nth_error_In; eauto]. }
    destruct (flush_op crc Hcrc false (sfs y) p (v_gen v) ents (v_top v) C H w pend (A ++ B) ST1)
      as (i1 & e1 & l1 & c1 & He & Eie & Ec & s' & w' & r1 & Eo & Ew' & _ & R).
    rewrite Enw, Eo in E. apply pair_equal_spec in E. destruct E as [<- _]. cbn [sfs].
    destruct R as [(_ & l' & H' & ST' & _)|(_ & -> & _)]; [|exact Hsame].
    eapply K; [exact (state_dir _ _ _ _ _ _ _ _ _ ST')|exact Hin|].
    intros x Hx. refine (flush_same _ _ _ _ _ _ _ _ _ _ ST1 s' _ Eo i e c0 x Hi Hne Hci _). rewrite EL. exact Hx.
  - destruct (nth_error (v_wr v) k) as [[id pend]|] eqn:Ek; [|apply nth_error_None in Ek; lia].
    destruct (writer_at y v W k id pend EW EV Ek) as (w & A & B & EWW & Lk & Eid & Enw).
    assert (ST1 : State crc (sfs y) p (v_gen v) ents (v_top v) C H ((w, pend) :: A ++ B)).
    { eapply state_perm; [|exact ST]. rewrite EWW. symmetry. apply Permutation_middle. }
    assert (Hne : e_id e <> w_id w). { intros X. apply Hnw. rewrite X, Eid. apply in_map_iff. exists (id, pend). split; [reflexivity|eapply nth_error_In; eauto]. }
    destruct (close_op crc Hcrc false (sfs y) p (v_gen v) ents (v_top v) C H w pend (A ++ B) ST1)
      as (i1 & e1 & l1 & c1 & He & Eie & Ec & s' & Eo & _ & ST' & _).
    rewrite Enw, Eo in E. apply pair_equal_spec in E. destruct E as [<- _]. cbn [sfs]. eapply K; [exact (state_dir _ _ _ _ _ _ _ _ _ ST')|exact Hin|].
    intros x Hx. refine (close_same _ _ _ _ _ _ _ _ _ _ ST1 s' _ Eo i e c0 x Hi Hne Hci _). rewrite EL. exact Hx.
  - destruct (nth_error (srs y) k) as [id|] eqn:Ek; [|apply pair_equal_spec in E; destruct E as [_ E]; congruence].
    rewrite mark_closed_eq in E. apply pair_equal_spec in E. destruct E as [<- _]. cbn [sfs]. apply Kq; [reflexivity|].
    apply (state_dir crc _ _ _ _ _ C H W). apply state_reopen. exact ST.
Qed.
End Same.

(** ** The abstract side *)
Lemma in_upd {A} (l : list A) k a x : In x (upd l k a) -> In x l \/ x = a.
Proof. revert k. induction l as [|z l IH]; intros [|k] H; cbn in *; try tauto; destruct H as [<-|H]; try tauto. destruct (IH k H); tauto. Qed.
Lemma in_skipn {A} n : forall (l : list A) x, In x (skipn n l) -> In x l.
Proof. induction n as [|n IH]; intros [|a l] x H; cbn in *; auto. Qed.
Lemma in_firstn {A} n : forall (l : list A) x, In x (firstn n l) -> In x l.
Proof. induction n as [|n IH]; intros [|a l] x H; cbn in *; try tauto. destruct H; auto. Qed.
Lemma in_without {A} (l : list A) k x : In x (without l k) -> In x l.
Proof. unfold without. intros H. apply in_app_or in H. destruct H as [H|H]; [exact (in_firstn _ _ _ H)|exact (in_skipn _ _ _ H)]. Qed.
Lemma skip_skip {A} n m : forall l : list A, skipn m (skipn n l) = skipn (n + m) l.
Proof. induction n as [|n IH]; intros [|a l]; cbn [skipn Nat.add]; try reflexivity; [destruct m; reflexivity|apply IH]. Qed.
Lemma content_listed v id d : content (v_files v) id = Some d -> In id (map f_id (v_files v)).
Proof.
  intros H. destruct (look_content v id d H) as (x & Ex & _). apply find_some in Ex. destruct Ex as [Hx Ei]. apply N.eqb_eq in Ei. subst id. apply in_map. exact Hx.
Qed.
Lemma le_fold_max l m x : In x l -> x <= fold_right N.max m l.
Proof. induction l as [|a l IH]; intros []; cbn [fold_right]; [lia|]. specialize (IH H). lia. Qed.

(** file [id] holds [d], is marked as open, and nobody is writing to it *)
Record Readable (v : view) (id : N) (d : list byte) : Prop := {
  rb_content : content (v_files v) id = Some d;
  rb_marked : marked v id = true;
  rb_quiet : ~ In id (map fst (v_wr v)) }.

Lemma readable_step v id d c r v' : Readable v id d -> allowed v c -> does v c r v' -> r <> RPanic ->
  (forall j, c = CloseReader j -> nth_error (v_rd v) j <> Some id) -> Readable v' id d.
Proof.
  intros [R1 R2 R3] Al D Hr Nm.
  assert (Kid : forall i, In i (map fst (v_wr v)) -> id <> i) by (intros i Hi ->; exact (R3 Hi)).
  assert (Krm : forall i, id <> i -> existsb (N.eqb id) (remove N.eq_dec i (v_open v)) = true).
  { intros i Hi. apply existsb_exists. exists id. split; [|apply N.eqb_refl]. apply in_in_remove; [exact Hi|]. apply PropRules.marked_in. exact R2. }
  assert (Kap : forall o, existsb (N.eqb id) (v_open v ++ o) = true).
  { intros o. rewrite existsb_app. unfold marked in R2. rewrite R2. reflexivity. }
  destruct c as [t|t|sel0|i|i|j w|j|j|j]; cbn [does] in *.
  - destruct D as [[_ ->]|[D _]]; [|contradiction]. constructor; cbn [v_files v_wr]; [apply content_app; exact R1|exact R2|exact R3].
  - destruct D as [[_ ->]|D]; [|contradiction]. constructor; cbn [v_files v_wr]; [apply content_app; exact R1|exact R2|].
    rewrite map_app, in_app_iff. cbn [map fst In]. intros [H|[H|[]]]; [exact (R3 H)|].
    pose proof (le_fold_max _ (v_top v) _ (content_listed v id d R1)). unfold next_id in H. lia.
  - destruct D as [[_ ->]|[D _]]; [|contradiction]. destruct (look_content v id d R1) as (x & Ex & Ed). constructor; cbn [v_files v_wr]; [|exact R2|exact R3].
    rewrite <- Ed. apply content_filter; [exact Ex|]. apply find_some in Ex. destruct Ex as [_ Ei]. apply N.eqb_eq in Ei.
    unfold stays, goes. rewrite Ei, R2. rewrite Bool.andb_false_r. reflexivity.
  - destruct (lookup v i); [|destruct D as [_ ->]; constructor; assumption]. destruct (marked v i) eqn:Mi; [destruct D as [_ ->]; constructor; assumption|].
    destruct (Nat.leb 32 (length (v_open v))); [destruct D as [_ ->]; constructor; assumption|].
    assert (Hne : id <> i) by (intros ->; congruence).
    destruct D as [[_ ->]|[[D _]|(_ & top & gen & -> & _)]]; [|contradiction|]; constructor; cbn [v_files v_wr]; try assumption; try apply Kap.
    rewrite map_app, in_app_iff. cbn [map fst In]. intros [H|[H|[]]]; [exact (R3 H)|congruence].
  - destruct (lookup v i); [|destruct D as [_ ->]; constructor; assumption]. destruct (marked v i) eqn:Mi; [destruct D as [_ ->]; constructor; assumption|].
    destruct (Nat.leb 32 (length (v_open v))); [destruct D as [_ ->]; constructor; assumption|]. destruct D as [_ ->].
    constructor; cbn [v_files v_wr]; try assumption. apply Kap.
  - destruct (nth_error (v_wr v) j) as [[i pj]|] eqn:Ej; [|destruct D]. destruct D as (x & data & pend' & n & El & Bg & _ & _ & -> & _).
    assert (Hi : In i (map fst (v_wr v))) by (apply in_map_iff; exists (i, pj); split; [reflexivity|eapply nth_error_In; eauto]).
    constructor; cbn [v_files v_wr]; [rewrite content_other by (exact (Kid i Hi)); exact R1|exact R2|].
    intros H. apply in_map_iff in H. destruct H as (z & Ez & Hz). apply in_upd in Hz. destruct Hz as [Hz| ->]; [apply R3; rewrite <- Ez; apply in_map; exact Hz|exact (Kid i Hi (eq_sym Ez))].
  - destruct (nth_error (v_wr v) j) as [[i pj]|] eqn:Ej; [|destruct D].
    assert (Hi : In i (map fst (v_wr v))) by (apply in_map_iff; exists (i, pj); split; [reflexivity|eapply nth_error_In; eauto]).
    destruct D as (x & El & [[_ ->]|[_ ->]]); [|constructor; assumption]. constructor; cbn [v_files v_wr]; [rewrite content_other by (exact (Kid i Hi)); exact R1|exact R2|].
    intros H. apply in_map_iff in H. destruct H as (z & Ez & Hz). apply in_upd in Hz. destruct Hz as [Hz| ->]; [apply R3; rewrite <- Ez; apply in_map; exact Hz|exact (Kid i Hi (eq_sym Ez))].
  - destruct (nth_error (v_wr v) j) as [[i pj]|] eqn:Ej; [|destruct D].
    assert (Hi : In i (map fst (v_wr v))) by (apply in_map_iff; exists (i, pj); split; [reflexivity|eapply nth_error_In; eauto]).
    destruct D as (x & El & _ & ->). constructor; cbn [v_files v_wr]; [rewrite content_other by (exact (Kid i Hi)); exact R1|exact (Krm i (Kid i Hi))|].
    intros H. apply in_map_iff in H. destruct H as (z & Ez & Hz). apply in_without in Hz. apply R3. rewrite <- Ez. apply in_map. exact Hz.
  - destruct (nth_error (v_rd v) j) as [i|] eqn:Ej; [|destruct D]. destruct D as [_ ->].
    assert (Hne : id <> i) by (intros ->; exact (Nm j eq_refl Ej)). constructor; cbn [v_files v_wr]; [exact R1|exact (Krm i Hne)|exact R3].
Qed.

(** ** One step of the interleaving *)
Section Steps.
Variable crc : list byte -> N.
Hypothesis Hcrc : crc32 crc.

(** the reader [r] of file [id] has [rest] of its content left *)
Definition Reading (y : sys) (id : N) (d : list byte) (r : reader) (rest : list byte) : Prop :=
  exists v e L m, Repr crc y v /\ Readable v id d /\ e_id e = id /\ Placed (sfs y) e L /\ RInv crc (fl (sfs y)) L r rest m /\ (m <= 17 * N.to_nat 16352)%nat.

Lemma reading_other y id d r rest c a y' : Reading y id d r rest -> legal y c -> not_mine id y c -> perform crc c y = (y', a) -> a <> RPanic -> Reading y' id d r rest.
Proof.
  intros (v & e & L & m & R & Rb & Ei & HP & HI & Hm) Lg Nm E Ha. pose proof (legal_allowed crc y v c R Lg) as Al.
  pose proof (refines crc Hcrc y v c R Al) as Rf. unfold Refined in Rf. rewrite E in Rf. destruct Rf as [(v' & D & RR) _]. specialize (RR Ha).
  destruct (call_keeps crc Hcrc y v c y' a e L R Al E Ha) as [HP' Hs].
  - rewrite Ei. apply (rb_quiet _ _ _ Rb).
  - rewrite Ei. apply (rb_marked _ _ _ Rb).
  - exact HP.
  - exists v', e, L, m. split; [exact RR|]. split; [|split; [exact Ei|split; [exact HP'|split; [exact (rinv_same crc _ _ _ _ _ _ Hs HI)|exact Hm]]]].
    apply (readable_step v id d c a v' Rb Al D Ha). intros j ->. cbn [not_mine] in Nm. rewrite (rr_rd _ _ _ R) in Nm. exact Nm.
Qed.

Lemma reading_read y id d r rest n : Reading y id d r rest ->
  exists r', read_slice crc (fl (sfs y)) r n = Ok (r', firstn n rest, if Nat.leb n (length rest) then StOk else StEnd) /\ Reading y id d r' (skipn n rest).
Proof.
  intros (v & e & L & m & R & Rb & Ei & HP & HI & Hm). destruct (read_slice_spec crc (fl (sfs y)) L r rest m n HI Hm) as (r' & m' & Hm' & E & HI').
  exists r'. split; [exact E|]. exists v, e, L, m'. split; [exact R|]. split; [exact Rb|]. split; [exact Ei|]. split; [exact HP|]. split; [exact HI'|]. lia.
Qed.

Lemma reading_among id d y r lens outs y' r' : reads_among crc id y r lens outs y' r' -> forall rest, Reading y id d r rest ->
  outs = expect rest lens /\ Reading y' id d r' (skipn (list_sum lens) rest).
Proof.
  induction 1 as [y r|y r n r1 d1 st lens outs y' r' E _ IH|y r c a y1 lens outs y' r' Lg Nm E Ha _ IH]; intros rest Rd.
  - split; [reflexivity|exact Rd].
  - destruct (reading_read y id d r rest n Rd) as (r2 & E2 & Rd2). rewrite E in E2. injection E2 as <- -> ->. destruct (IH _ Rd2) as [-> Rd3].
    split; [reflexivity|]. unfold list_sum. cbn [fold_right]. rewrite skip_skip in Rd3. exact Rd3.
  - exact (IH rest (reading_other y id d r rest c a y1 Rd Lg Nm E Ha)).
Qed.

Lemma reading_start y0 v0 id d y1 s rd : Repr crc y0 v0 -> content (v_files v0) id = Some d -> ~ In id (map fst (v_wr v0)) ->
  perform crc (OpenRead id) y0 = (y1, RDone) -> open_file_for_read id (sfs y0) = (s, Ok rd) -> Reading y1 id d rd d.
Proof.
  intros R Hct Hnw E Eo. pose proof (refines crc Hcrc y0 v0 (OpenRead id) R Logic.I) as Rf. unfold Refined in Rf. rewrite E in Rf. destruct Rf as [(v1 & D & RR) _].
  specialize (RR ltac:(discriminate)). cbn [does] in D. destruct (look_content v0 id d Hct) as (x & Ex & Ed). rewrite Ex in D.
  destruct (marked v0 id) eqn:Mk; [destruct D; discriminate|]. destruct (Nat.leb 32 (length (v_open v0))); [destruct D; discriminate|]. destruct D as [_ Ev].
  assert (Rb : Readable v1 id d).
  { rewrite Ev. constructor; cbn [v_files v_wr]; [exact Hct| |exact Hnw]. unfold marked. cbn [v_open]. rewrite existsb_app. cbn [existsb]. rewrite N.eqb_refl. apply Bool.orb_true_r. }
  pose proof R as [(p & ents & C & H & W & ST & EF & EW & EV) Hrd Hop Hnd]. pose proof (st_disk _ _ _ _ _ _ _ _ _ ST) as Dk.
  destruct (open_read_op crc (sfs y0) p (v_gen v0) ents (v_top v0) C H W id ST) as [(Ec & _)|(e & He & Ei & Q)].
  { rewrite Ec in Eo. exfalso. apply pair_equal_spec in Eo. destruct Eo as [_ X]. discriminate X. }
  destruct Q as [(Ec & _)|(_ & [(Ec & _)|(s' & Ec & ST' & _ & F & _ & _)])]; [rewrite Ec in Eo; exfalso; apply pair_equal_spec in Eo; destruct Eo as [_ X]; discriminate X..|].
  assert (Es : s = s' /\ rd = new_reader (e_first e)). { rewrite Ec in Eo. apply pair_equal_spec in Eo. destruct Eo as [<- X]. injection X as X. auto. }
  destruct Es as [-> ->]. cbn [perform] in E. unfold finish in E. rewrite Ec in E. apply pair_equal_spec in E. destruct E as [Ey _].
  apply In_nth_error in He. destruct He as (i & He). assert (Hi : (i < length C)%nat) by (rewrite <- (disk_len _ _ _ _ _ _ _ Dk); apply nth_error_Some; congruence).
  destruct (nth_error C i) as [c|] eqn:Hc; [|apply nth_error_None in Hc; lia].
  destruct (file_at crc _ _ _ _ _ _ _ _ i e c ST' He Hc) as (Hn & ds & Hf & Eds).
  assert (Hch : chain (fl s') (e_first e) (fst c)) by (eapply file_chain; exact Hf).
  assert (Edd : concat ds = d).
  { pose proof (lookup_some crc _ v0 _ _ _ _ _ _ _ id ST EF i e c He Ei Hc) as El. rewrite Ex in El. injection El as ->. rewrite Eds. exact Ed. }
  exists v1, e, (fst c), (17 * length (fst c))%nat. split; [exact RR|]. split; [exact Rb|]. split; [exact Ei|]. rewrite <- Ey. cbn [sfs].
  split; [|split].
  - split; [|exact Hch]. exists p, (v_gen v0), ents, (v_top v0). split; [exact (state_dir _ _ _ _ _ _ _ _ _ ST')|exact (nth_error_In _ _ He)].
  - rewrite <- Edd. exact (rinv_file crc (fl s') (fst c) (e_first e) (fst c) ds [] Hf (incl_refl _)).
  - assert ((length (fst c) <= N.to_nat 16352)%nat) by (apply all_data_length; [exact Hn|exact (chain_data _ _ _ Hch)]). lia.
Qed.
End Steps.

(** ** The theorem *)
(** a file that nobody is writing to is opened for reading: whatever other tasks do between the requests - create, write, flush, close, open, remove -
    each request gets the next bytes of what the file held when it was opened, no request fails, and the file still holds the same at the end *)
Theorem C118_reader_undisturbed : forall crc, crc32 crc -> forall es y0 id d k F y1 s rd lens outs y2 r2, history crc es (On y0) ->
  snapshot crc (fl (sfs y0)) k = Some F -> content F id = Some d -> ~ In id (map w_id (sws y0)) ->
  perform crc (OpenRead id) y0 = (y1, RDone) -> open_file_for_read id (sfs y0) = (s, Ok rd) ->
  reads_among crc id y1 rd lens outs y2 r2 ->
  outs = expect d lens /\
  (forall n, exists r3, read_slice crc (fl (sfs y2)) r2 n =
     Ok (r3, firstn n (skipn (list_sum lens) d), if Nat.leb n (length (skipn (list_sum lens) d)) then StOk else StEnd)) /\
  forall k2, exists F2, snapshot crc (fl (sfs y2)) k2 = Some F2 /\ content F2 id = Some d.
Proof.
  intros crc Hc es y0 id d k F y1 s rd lens outs y2 r2 Hh Sn Ct Nw Ho Er Ra. destruct (running crc es y0 Hc Hh) as (v & _ & R).
  rewrite (repr_snapshot crc y0 v k R) in Sn. injection Sn as <-.
  assert (Nw' : ~ In id (map fst (v_wr v))). { destruct (repr_wr crc y0 v R) as [<- _]. exact Nw. }
  pose proof (reading_start crc Hc y0 v id d y1 s rd R Ct Nw' Ho Er) as Rd.
  destruct (reading_among crc Hc id d y1 rd lens outs y2 r2 Ra d Rd) as [E Rd2]. split; [exact E|]. split.
  - intros n. destruct (reading_read crc y2 id d r2 _ n Rd2) as (r3 & E3 & _). exists r3. exact E3.
  - intros k2. destruct Rd2 as (v2 & e & L & m & R2 & Rb & _). exists (v_files v2). split; [apply (repr_snapshot crc y2 v2 k2 R2)|apply (rb_content _ _ _ Rb)].
Qed.
Print Assumptions C118_reader_undisturbed.

(** ** A concrete case: while file 1 is read in three requests, other tasks write to file 2, create a file, try to open file 1 for writing and try to remove
    everything (which takes file 3 away), and close file 2 *)
Inductive rmix := Ask (n : nat) | ByOther (c : call).
Definition asks (ms : list rmix) : list nat := flat_map (fun m => match m with Ask n => [n] | ByOther _ => [] end) ms.
Definition not_mineb (id : N) (y : sys) (c : call) : bool :=
  match c with CloseReader j => match nth_error (srs y) j with Some i => negb (i =? id) | None => true end | _ => true end.
Fixpoint among (id : N) (ms : list rmix) (y : sys) (r : reader) : option (list (list byte * status) * sys * reader) :=
  match ms with
  | [] => Some ([], y, r)
  | Ask n :: t => match read_slice sum (fl (sfs y)) r n with
                  | Ok (r1, d, st) => match among id t y r1 with Some (o, y', r') => Some ((d, st) :: o, y', r') | None => None end
                  | _ => None
                  end
  | ByOther c :: t => if legalb y c && not_mineb id y c then
                        let p := perform sum c y in if PropShared.not_panic (snd p) then among id t (fst p) r else None
                      else None
  end.
Lemma among_reads id ms : forall y r o y' r', among id ms y r = Some (o, y', r') -> reads_among sum id y r (asks ms) o y' r'.
Proof.
  induction ms as [|[n|c] ms IH]; intros y r o y' r' H; cbn [among] in H; unfold asks in *; cbn [flat_map app] in *.
  - injection H as <- <- <-. constructor.
  - destruct (read_slice sum (fl (sfs y)) r n) as [[[r1 d] st]| |] eqn:E; try (exfalso; exact (none_some _ H)).
    destruct (among id ms y r1) as [[[o1 y1] r2]|] eqn:E1; [|exfalso; exact (none_some _ H)]. injection H as <- <- <-. eapply ra_read; [exact E|exact (IH _ _ _ _ _ E1)].
  - destruct (legalb y c && not_mineb id y c) eqn:Hb; [|exfalso; exact (none_some _ H)]. apply andb_prop in Hb. destruct Hb as [Hl Hf].
    destruct (perform sum c y) as [y1 a] eqn:E. cbn [fst snd] in H. cbv zeta in H. destruct (PropShared.not_panic a) eqn:Hp; [|exfalso; exact (none_some _ H)].
    eapply ra_other; [apply legalb_sound; exact Hl| |exact E| |exact (IH _ _ _ _ _ H)].
    + destruct c; cbn [not_mine not_mineb] in *; try exact Logic.I. destruct (nth_error (srs y) k) as [i|]; [|congruence]. apply Bool.negb_true_iff in Hf. apply N.eqb_neq in Hf. congruence.
    + intros ->. exact (Bool.diff_false_true Hp).
Qed.

Definition rmix_ex : list rmix := [Ask 2; ByOther (Append 0 [31;32]); ByOther (Create 9); ByOther (OpenWrite 1); Ask 1; ByOther (Remove (fun _ _ => true)); ByOther (Flush 0);
  ByOther (CloseWriter 0); Ask 4].
Example ex_C118 : exists es y0 F y1 s rd outs y2 r2, history sum es (On y0) /\ snapshot sum (fl (sfs y0)) (fun _ => 0) = Some F /\ content F 1 = Some [1;2;3;4;5] /\
  ~ In 1 (map w_id (sws y0)) /\ perform sum (OpenRead 1) y0 = (y1, RDone) /\ open_file_for_read 1 (sfs y0) = (s, Ok rd) /\
  reads_among sum 1 y1 rd [2;1;4]%nat outs y2 r2 /\ outs = [([1;2], StOk); ([3], StOk); ([4;5], StEnd)] /\
  snapshot sum (fl (sfs y2)) (fun _ => 0) = Some [(1, 3, [1;2;3;4;5]); (2, 4, [31;32])].
Proof.
  destruct (reach (two_files ++ [XCall (OpenWrite 2)]) (fun y => is_done (snd (perform sum (OpenRead 1) y)) && forallb (fun w => negb (w_id w =? 1)) (sws y) &&
      match snapshot sum (fl (sfs y)) (fun _ => 0) with Some F => same F [(1, 3, [1;2;3;4;5]); (2, 4, [])] | None => false end &&
      match open_file_for_read 1 (sfs y) with
      | (_, Ok rd) =>
        match among 1 rmix_ex (fst (perform sum (OpenRead 1) y)) rd with
        | Some (_, y2, _) => match snapshot sum (fl (sfs y2)) (fun _ => 0) with Some F => same F [(1, 3, [1;2;3;4;5]); (2, 4, [31;32])] | None => false end
        | None => false
        end
      | _ => false
      end)) as (es & y0 & Hh & H); [vm_compute; reflexivity|].
  apply andb_prop in H. destruct H as [H H4]. apply andb_prop in H. destruct H as [H H3]. apply andb_prop in H. destruct H as [H1 H2].
  destruct (perform sum (OpenRead 1) y0) as [y1 r1] eqn:E1. cbn [fst snd] in *. apply is_done_eq in H1. subst r1.
  destruct (snapshot sum (fl (sfs y0)) (fun _ => 0)) as [F|] eqn:ES; [|exfalso; exact (Bool.diff_false_true H3)]. apply same_eq in H3.
  destruct (open_file_for_read 1 (sfs y0)) as [s [rd| |]] eqn:Eo; try (exfalso; exact (Bool.diff_false_true H4)).
  destruct (among 1 rmix_ex y1 rd) as [[[outs y2] r2]|] eqn:E2; [|exfalso; exact (Bool.diff_false_true H4)].
  destruct (snapshot sum (fl (sfs y2)) (fun _ => 0)) as [F2|] eqn:ES2; [|exfalso; exact (Bool.diff_false_true H4)]. apply same_eq in H4. subst F F2.
  assert (Ct : content [(1, 3, [1;2;3;4;5]); (2, 4, [])] 1 = Some [1;2;3;4;5]) by reflexivity.
  assert (Nw : ~ In 1 (map w_id (sws y0))).
  { intros X. apply in_map_iff in X. destruct X as (w & Ew & Hw). rewrite forallb_forall in H2. specialize (H2 w Hw). rewrite Ew in H2. exact (Bool.diff_false_true H2). }
  pose proof (among_reads 1 rmix_ex y1 rd outs y2 r2 E2) as Ra. change (asks rmix_ex) with [2;1;4]%nat in Ra.
  exists es, y0, [(1, 3, [1;2;3;4;5]); (2, 4, [])], y1, s, rd, outs, y2, r2. split; [exact Hh|]. split; [exact ES|]. split; [exact Ct|]. split; [exact Nw|].
  split; [exact E1|]. split; [exact Eo|]. split; [exact Ra|]. split; [|exact ES2].
  destruct (C118_reader_undisturbed sum sum32 es y0 1 _ _ _ y1 s rd _ outs y2 r2 Hh ES Ct Nw E1 Eo Ra) as [-> _]. reflexivity.
Qed.

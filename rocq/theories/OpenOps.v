(** * The file system in operation: opening files *)
From Coq Require Import Sorted.
From Verif Require Import Base Majority Flash FS Sectors SectorsProofs ATable TornCode TableCode TableScan TableBuild TableOps DirOps Chains FileIO FileFormat FileWrite WriteOps WriteSpec Disk Sessions DirState.
Local Open Scope N_scope.
Local Open Scope fs_scope.

Lemma set_first_upd ents i e first : nth_error ents i = Some e -> set_first ents i first = upd ents i (mkE (e_id e) (e_typ e) first).
Proof.
  intros En. rewrite (set_first_split _ _ _ _ En). apply nth_error_mid in En. destruct En as (a & b & -> & <-).
  rewrite upd_mid, firstn_app_exact by auto. do 2 f_equal.
  rewrite skipn_app, skipn_all2 by lia. replace (S (length a) - length a)%nat with 1%nat by lia. reflexivity.
Qed.

Section S.
Variable crc : list byte -> N.
Hypothesis crc_bound : crc32 crc.

(** ** Claiming a sector *)
Lemma claim_op te s p seq ents mx C H W : State crc s p seq ents mx C H W ->
  (exists s' x, claim_avaliable_sector_and_erase s = (s', Ok x) /\ State crc s' p seq ents mx C (add H x) W /\
     ~ H x /\ data_sector x /\ sector_erased (fl s') x /\ atb s' = atb s /\
     traced te s s' (fun f => Disk crc f p seq ents mx C) /\
     (forall a, a < 131072 -> fl s' a = fl s a) /\ (forall y, H y -> sector_same (fl s) (fl s') y)) \/
  (claim_avaliable_sector_and_erase s = (s, Err DeviceFull) /\ forall x, data_sector x -> H x).
Proof.
  intros ST. pose proof (st_al _ _ _ _ _ _ _ _ _ ST) as HA. pose proof (st_disk _ _ _ _ _ _ _ _ _ ST) as Dk.
  pose proof (st_own _ _ _ _ _ _ _ _ _ ST) as Hown.
  destruct (claim_spec s H HA) as [(s' & x & E & HA' & Hx & Hd & He & Hfr)|(E & Hf)]; [left|right; auto].
  exists s', x. split; [exact E|].
  set (G := fun f' => (forall a, a < 131072 -> f' a = fl s a) /\ (forall y, H y -> sector_same (fl s) f' y)).
  destruct (traced_alloc te s s s' G H) as (T & A & B); auto.
  { apply traced_refl. split; [auto|]. intros y _ a _. reflexivity. } { apply (ai_held _ _ HA). } { intros f' X Y. split; auto. }
  apply traced_ok in T; [|apply (dk_ok _ _ _ _ _ _ _ Dk)]. pose proof (traced_fl _ _ _ _ T) as [_ Hok].
  pose proof Hfr as [Eat _]. split; [|split; [auto|split; [auto|split; [auto|split; [auto|split; [|split; auto]]]]]].
  - constructor; auto.
    + apply (disk_same crc (fl s)); auto.
    + rewrite Eat. apply (st_at _ _ _ _ _ _ _ _ _ ST).
    + intros y Hy. right. auto.
    + eapply Forall_impl; [|apply (st_w _ _ _ _ _ _ _ _ _ ST)]. intros wc Hw. eapply wst_same; [exact Hw|]. auto.
    + apply (st_ids _ _ _ _ _ _ _ _ _ ST).
  - eapply traced_weaken; [|exact T]. intros f' [[X Y] Z]. apply (disk_same crc (fl s)); auto.
Qed.

(** ** Marking a file open *)
Lemma mark_op s p seq ents mx C H W id : State crc s p seq ents mx C H W ->
  (exists s', mark_file_opened id s = (s', Ok tt) /\ State crc s' p seq ents mx C H W /\ a_open (atb s') = a_open (atb s) ++ [id] /\
     fl s' = fl s /\ lg s' = lg s /\ (length (a_open (atb s)) < 32)%nat) \/
  (mark_file_opened id s = (s, Err TooManyFilesOpen) /\ (32 <= length (a_open (atb s)))%nat).
Proof.
  intros ST. unfold mark_file_opened. rewrite bind_get. cbv zeta. destruct (Nat.leb_spec 32 (length (a_open (atb s)))) as [L|L]; [right; auto|left].
  eexists. split; [reflexivity|]. split; [apply state_reopen; exact ST|]. auto.
Qed.

(** ** open_file_for_read *)
Theorem open_read_op s p seq ents mx C H W id : State crc s p seq ents mx C H W ->
  (open_file_for_read id s = (s, Err FileDoesNotExist) /\ (forall e, In e ents -> e_id e <> id)) \/
  (exists e, In e ents /\ e_id e = id /\
   ((open_file_for_read id s = (s, Err FileInUse) /\ In id (a_open (atb s))) \/
    (~ In id (a_open (atb s)) /\
     ((open_file_for_read id s = (s, Err TooManyFilesOpen) /\ (32 <= length (a_open (atb s)))%nat) \/
      (exists s', open_file_for_read id s = (s', Ok (new_reader (e_first e))) /\ State crc s' p seq ents mx C H W /\
         a_open (atb s') = a_open (atb s) ++ [id] /\ fl s' = fl s /\ lg s' = lg s /\ (length (a_open (atb s)) < 32)%nat))))).
Proof.
  intros ST. pose proof (st_disk _ _ _ _ _ _ _ _ _ ST) as Dk.
  destruct (find_spec s p seq ents mx id (state_dir _ _ _ _ _ _ _ _ _ ST) (dk_sorted _ _ _ _ _ _ _ Dk)) as (o & E & Ho).
  unfold open_file_for_read. rewrite (bind_ok _ _ _ _ _ E). destruct o as [[e k]|]; [right|left; auto].
  destruct Ho as [En <-]. exists e. split; [eapply nth_error_In; eauto|]. split; [auto|].
  unfold is_file_opened. rewrite bind_assoc, bind_get, bind_ret. unfold is_opened.
  destruct (existsb (fun x => x =? e_id e) (a_open (atb s))) eqn:Ex.
  - left. split; [reflexivity|]. apply existsb_exists in Ex. destruct Ex as (y & Hy & Ey). apply N.eqb_eq in Ey. subst; auto.
  - right. split. { intros Hin. enough (existsb (fun x => x =? e_id e) (a_open (atb s)) = true) by congruence.
      apply existsb_exists. exists (e_id e). split; [auto|apply N.eqb_refl]. }
    destruct (mark_op s p seq ents mx C H W (e_id e) ST) as [(s' & E' & R)|(E' & L)]; [right|left].
    + exists s'. rewrite (bind_ok _ _ _ _ _ E'). auto.
    + rewrite (bind_err _ _ _ _ _ E'). auto.
Qed.

(** ** open_file_for_write: an empty file *)
Lemma claimed_first te s p seq ents mx C H W i e x : State crc s p seq ents mx C H W -> nth_error ents i = Some e -> e_first e = None ->
  H x -> data_sector x -> sector_erased (fl s) x -> ~ owns C x -> (te = true -> clean (fl s) p seq) ->
  (forall w cur, In (w, cur) W -> w_id w <> e_id e) ->
  let D := set_first ents i (Some x) in let C' := upd C i ([x], []) in
  exists s', traced te s s' (either crc p seq ents mx C D C') /\
   ((set_file_first_sector_index (e_id e) (Some x) s = (s', Ok tt) /\
     State crc s' (next_slot p) (seq + 1) D (maxid mx ents) C' H ((new_writer x (e_id e), []) :: W) /\
     (clean (fl s') (next_slot p) (seq + 1) /\ a_open (atb s') = a_open (atb s)) /\ (forall y, owns C y -> sector_same (fl s) (fl s') y)) \/
    (set_file_first_sector_index (e_id e) (Some x) s = (s', Panic) /\ 2 ^ 64 <= seq + 1)).
Proof.
  intros ST En Ef Hx Hd He Hno Hcl Hw D C'. pose proof (state_dir _ _ _ _ _ _ _ _ _ ST) as HD. pose proof (st_disk _ _ _ _ _ _ _ _ _ ST) as Dk.
  pose proof (dk_rep _ _ _ _ _ _ _ Dk) as R. pose proof (rep_dir_ok _ _ _ _ _ R) as Hok. pose proof (dk_sorted _ _ _ _ _ _ _ Dk) as Hsort.
  pose proof (st_own _ _ _ _ _ _ _ _ _ ST) as Hown. pose proof (st_al _ _ _ _ _ _ _ _ _ ST) as HA. pose proof (disk_data _ _ _ _ _ _ _ Dk) as Hdat.
  pose proof (disk_len _ _ _ _ _ _ _ Dk) as Hlen.
  assert (Hi : (i < length C)%nat) by (rewrite <- Hlen; apply nth_error_Some; congruence).
  destruct (nth_error C i) as [c|] eqn:Ec; [|apply nth_error_None in Ec; lia].
  set (e' := mkE (e_id e) (e_typ e) (Some x)).
  assert (ED : D = upd ents i e') by (apply set_first_upd; auto).
  assert (Hids : map e_id D = map e_id ents).
  { destruct (set_first_ids ents i (Some x)) as [E|E]; [exact E|lia]. }
  destruct (N.lt_ge_cases (seq + 1) (2 ^ 64)) as [Hs|Hs].
  2:{ exists s. split; [apply traced_refl; left; auto|]. right. split; [|auto].
      destruct (find_spec s p seq ents mx (e_id e) HD Hsort) as (o & E & Ho). unfold set_file_first_sector_index. rewrite (bind_ok _ _ _ _ _ E).
      destruct o as [[e0 k]|]; [|exfalso; apply (Ho e); [eapply nth_error_In; eauto|auto]]. destruct HD as [_ A]. eapply new_overflow; eauto. }
  destruct (set_first_spec te H s p seq ents mx (e_id e) (Some x) HD Hsort Hs) as [(e0 & i0 & s' & En0 & Ei0 & E & U & M & K)|(_ & Hn)].
  2:{ exfalso. apply (Hn e); [eapply nth_error_In; eauto|auto]. }
  assert (i0 = i) as -> by (apply (sorted_inj ents i0 i e0 e); auto). assert (e0 = e) as -> by congruence. fold D in U.
  assert (Hm : maxid mx ents < 2 ^ 64).
  { apply maxid_bound; [apply Hok|]. eapply dir_ok_ids; eauto. }
  assert (Hdok : dir_ok D (maxid mx ents)).
  { pose proof (set_first_length ents i e (Some x) En) as HL. fold D in HL. destruct Hok as (O1 & O2 & O3 & O4).
    assert (Hin : forall y, In y D -> In y ents \/ y = e').
    { intros y Hy. rewrite ED in Hy. apply In_nth_error in Hy. destruct Hy as (j & Hy). destruct (Nat.eq_dec j i) as [->|Hj].
      - rewrite nth_error_upd_same in Hy by lia. injection Hy as <-. auto.
      - rewrite nth_error_upd_other in Hy by auto. left. eapply nth_error_In; eauto. }
    pose proof (nth_error_In _ _ En) as Hine. rewrite Forall_forall in O1, O2.
    split; [|split; [|split; [rewrite HL; auto|auto]]]; apply Forall_forall; intros y Hy; destruct (Hin y Hy) as [Hy'| ->]; auto.
    - destruct (O1 e Hine) as (X1 & X2 & _). split; [exact X1|]. split; [exact X2|]. cbn [e' e_first]. unfold data_sector, SECTORS_COUNT in Hd. lia.
    - exact (O2 e Hine). }
  assert (HsD : sorted_ids D) by (apply (sorted_map ents); auto).
  assert (HF : forall f', dsame H (fl s) f' -> Forall2 (file_ok crc f') D C').
  { intros f' Hds. pose proof (dsame_owned crc H (fl s) f' ents C Hown Hdat (dk_files _ _ _ _ _ _ _ Dk) Hds) as F.
    rewrite ED. unfold C'. apply nth_error_mid in En, Ec. destruct En as (a1 & b1 & -> & L1), Ec as (a2 & b2 & -> & L2).
    assert (La : length a1 = length a2) by congruence. replace (upd (a1 ++ e :: b1) i e') with (a1 ++ e' :: b1) by (rewrite <- L1, upd_mid; reflexivity).
    replace (upd (a2 ++ c :: b2) i ([x], [])) with (a2 ++ ([x], []) :: b2) by (rewrite <- L2, upd_mid; reflexivity).
    apply forall2_mid in F; [|auto]. apply forall2_mid; [auto|]. destruct F as (F1 & _ & F2). split; [auto|]. split; [|auto].
    exists [[]]. split; [|reflexivity]. cbn [e' e_first fst]. apply erased_file; auto. intros a Ha. rewrite (Hds x Hd Hx a Ha). auto. }
  assert (HN : NoDup (concat (map fst C'))).
  { pose proof (dk_nodup _ _ _ _ _ _ _ Dk) as N. unfold C'. apply nth_error_mid in Ec. destruct Ec as (a2 & b2 & -> & <-). rewrite upd_mid.
    apply nodup_split in N. apply nodup_split. destruct N as (N1 & N2 & N3 & N4 & N5 & N6). split; [auto|]. split; [constructor; [intros []|constructor]|].
    split; [auto|]. split; [|split; [auto|]].
    - intros y Hy [<-|[]]. apply Hno. apply (owns_split (fun _ => 0)). auto.
    - intros y [<-|[]] Hy. apply Hno. apply (owns_split (fun _ => 0)). auto. }
  exists s'. split; [|left; split; [exact E|]].
  - apply (traced_either crc te s p seq ents mx C H W s' D (maxid mx ents)); auto. apply (up_tr _ _ _ _ _ _ _ _ U).
  - assert (Hot : forall wc, In wc W -> WSt crc (fl s') D C' wc).
    { intros [w cur] Hin. pose proof (st_w _ _ _ _ _ _ _ _ _ ST) as HW. rewrite Forall_forall in HW.
      destruct (wst_same crc (fl s) (fl s') ents C (w, cur) (HW _ Hin)) as (j & ej & l & ds & q & A1 & A2 & A3 & A4).
      { intros y Hy. apply dkeep_same; auto. }
      assert (Hj : j <> i). { intros ->. apply (Hw w cur Hin). congruence. }
      exists j, ej, l, ds, q. rewrite ED. unfold C'. rewrite !nth_error_upd_other by auto. auto. }
    refine ((fun Q => conj (proj1 Q) (conj (proj2 Q) (fun y Hy => dkeep_same s s' y K (Hdat y Hy)))) _).
    apply (dir_done crc te s p seq ents mx C H W s' D (maxid mx ents) C' H); auto.
    + apply (binv_keep s s' Logic.I); auto.
    + apply HF. pose proof (traced_fl _ _ _ _ (up_tr _ _ _ _ _ _ _ _ U)) as (_ & X & _). exact X.
    + intros y Hy. apply owns_in in Hy. destruct Hy as (j & cj & Hj & Hy). unfold C' in Hj. destruct (Nat.eq_dec j i) as [->|Hne].
      * rewrite nth_error_upd_same in Hj by auto. injection Hj as <-. destruct Hy as [<-|[]]. auto.
      * rewrite nth_error_upd_other in Hj by auto. apply Hown. eapply owns_nth; eauto.
    + constructor; [|apply Forall_forall; auto].
      apply (fresh_writer crc (fl s') D C' e' x [] [] i); auto.
      * rewrite ED. apply nth_error_upd_same. lia.
      * unfold C'. apply nth_error_upd_same. auto.
      * constructor.
      * intros a Ha. rewrite (dkeep_same _ _ x K Hd a Ha). auto.
    + cbn [map fst new_writer w_id]. constructor; [|apply (st_ids _ _ _ _ _ _ _ _ _ ST)].
      intros Hin. apply in_map_iff in Hin. destruct Hin as ([w cur] & Ew & Hin). apply (Hw w cur Hin). exact Ew.
Qed.
End S.

(** * The file system in operation: writers *)
From Verif Require Import Base Majority Flash FS Sectors SectorsProofs ATable TornCode TableCode TableScan TableBuild TableOps DirOps Chains FileIO FileFormat FileWrite WriteOps WriteSpec Disk.
Local Open Scope N_scope.
Local Open Scope fs_scope.

Lemma upd_mid {A} (a : list A) x b y : upd (a ++ x :: b) (length a) y = a ++ y :: b.
Proof. induction a as [|z a IH]; cbn [app length upd]; [reflexivity|rewrite IH; reflexivity]. Qed.

Lemma nth_error_mid {A} (l : list A) i x : nth_error l i = Some x -> exists a b, l = a ++ x :: b /\ length a = i.
Proof. intros H. apply nth_error_split in H. destruct H as (a & b & E & L). eauto. Qed.

Section S.
Variable crc : list byte -> N.
Hypothesis crc_bound : crc32 crc.

Lemma disk_upd_i f g p seq ents mx C i e c c' : Disk crc f p seq ents mx C -> nth_error ents i = Some e -> nth_error C i = Some c ->
  (forall a, a < 131072 -> g a = f a) -> (forall j cj, j <> i -> nth_error C j = Some cj -> forall x, In x (fst cj) -> sector_same f g x) ->
  flash_ok g -> file_ok crc g e c' -> NoDup (fst c') -> (forall x, In x (fst c') -> In x (fst c) \/ ~ owns C x) ->
  Disk crc g p seq ents mx (upd C i c').
Proof.
  intros D He Hc Ht Hs Hg Hf Hn Hin. apply nth_error_mid in He, Hc. destruct He as (E1 & E2 & -> & L1), Hc as (C1 & C2 & -> & L2).
  rewrite <- L2, upd_mid. eapply disk_upd; eauto; [congruence|].
  assert (K : forall x, owns C1 x \/ owns C2 x -> exists j cj, j <> i /\ nth_error (C1 ++ c :: C2) j = Some cj /\ In x (fst cj)).
  { intros x [Hx|Hx]; unfold owns, owned in Hx; apply in_concat in Hx; destruct Hx as (l & Hl & Hx); apply in_map_iff in Hl;
      destruct Hl as (cj & <- & Hl); apply In_nth_error in Hl; destruct Hl as (j & Hj).
    - exists j, cj. assert (j < length C1)%nat by (apply nth_error_Some; intros X; rewrite X in Hj; discriminate). split; [lia|]. split; [|auto]. rewrite nth_error_app1; auto.
    - exists (length C1 + S j)%nat, cj. split; [lia|]. split; [|auto]. rewrite nth_error_app2 by lia. replace (length C1 + S j - length C1)%nat with (S j) by lia. auto. }
  intros x Hx. destruct (K x Hx) as (j & cj & Hj & Hn' & Hi). eapply Hs; eauto.
Qed.

Lemma owns_nth (C : list (list N * list byte)) i c x : nth_error C i = Some c -> In x (fst c) -> owns C x.
Proof.
  intros H Hx. unfold owns, owned. apply in_concat. exists (fst c). split; [|auto]. apply in_map. eapply nth_error_In; eauto.
Qed.
Lemma owns_in (C : list (list N * list byte)) x : owns C x -> exists i c, nth_error C i = Some c /\ In x (fst c).
Proof.
  intros Hx. unfold owns, owned in Hx. apply in_concat in Hx. destruct Hx as (l & Hl & Hx). apply in_map_iff in Hl.
  destruct Hl as (c & <- & Hl). apply In_nth_error in Hl. destruct Hl as (j & Hj). eauto.
Qed.

Lemma nodup_diff (C : list (list N * list byte)) i j ci cj x : NoDup (concat (map fst C)) -> i <> j -> nth_error C i = Some ci -> nth_error C j = Some cj ->
  In x (fst ci) -> ~ In x (fst cj).
Proof.
  intros N Hij Hi Hj Hx Hx'. apply nth_error_mid in Hi. destruct Hi as (C1 & C2 & -> & L). apply nodup_split in N.
  destruct N as (_ & _ & _ & D & _ & K). destruct (Nat.lt_ge_cases j (length C1)) as [Hlt|Hge].
  - rewrite nth_error_app1 in Hj by auto. apply (D x); [eapply owns_nth; eauto|auto].
  - rewrite nth_error_app2 in Hj by lia. destruct (j - length C1)%nat as [|k] eqn:Ek; [lia|]. cbn [nth_error] in Hj.
    apply (K x); [auto|eapply owns_nth; eauto].
Qed.
Lemma nodup_nth (C : list (list N * list byte)) i c : NoDup (concat (map fst C)) -> nth_error C i = Some c -> NoDup (fst c).
Proof. intros N Hi. apply nth_error_mid in Hi. destruct Hi as (C1 & C2 & -> & L). apply nodup_split in N. tauto. Qed.

(** an open writer: it appends to file [i]; what it has accepted but not yet made durable is [cur] *)
Definition WSt (f : flash) (ents : list entry) (C : list (list N * list byte)) (wc : writer * list byte) : Prop :=
  let (w, cur) := wc in
  exists i e l ds q, nth_error ents i = Some e /\ nth_error C i = Some (l ++ [w_sec w], concat ds) /\ e_id e = w_id w /\
    file_seg crc f (e_first e) l ds (Some (w_sec w)) /\ WRep crc f w cur q /\ settled cur q.

Record State (s : fs) (p seq : N) (ents : list entry) (mx : N) (C : list (list N * list byte)) (H : N -> Prop) (W : list (writer * list byte)) : Prop := {
  st_disk : Disk crc (fl s) p seq ents mx C;
  st_at : atb s = mkAT seq (N.of_nat (length ents)) mx p (a_open (atb s));
  st_al : AllocInv s H;
  st_own : forall x, owns C x -> H x;
  st_w : Forall (WSt (fl s) ents C) W;
  st_ids : NoDup (map (fun wc => w_id (fst wc)) W) }.

Lemma sorted_inj ents i j a b : sorted_ids ents -> nth_error ents i = Some a -> nth_error ents j = Some b -> e_id a = e_id b -> i = j.
Proof.
  intros S Ha Hb E. destruct (Nat.lt_trichotomy i j) as [H|[H|H]]; [|auto|].
  - pose proof (sorted_nth ents S i j a b H Ha Hb). lia.
  - pose proof (sorted_nth ents S j i b a H Hb Ha). lia.
Qed.

(** what a crash may leave while file [i] is being written: the disk with content [c] for file [i],
    with [base] a prefix of [c] and [c] a prefix of [all] *)
Definition grown (p seq : N) (ents : list entry) (mx : N) (C : list (list N * list byte)) (i : nat) (base all : list byte) (f' : flash) : Prop :=
  exists c, Disk crc f' p seq ents mx (upd C i c) /\ prefix base (snd c) /\ prefix (snd c) all.

Section Op.
  Variables (te : bool) (s : fs) (p seq : N) (ents : list entry) (mx : N) (C : list (list N * list byte)) (H : N -> Prop).
  Variables (w : writer) (cur : list byte) (W : list (writer * list byte)) (i : nat) (e : entry) (l : list N) (ds : list (list byte)) (q : N) (all : list byte).
  Hypothesis ST : State s p seq ents mx C H ((w, cur) :: W).
  Hypotheses (He : nth_error ents i = Some e) (Hc : nth_error C i = Some (l ++ [w_sec w], concat ds)) (Hid : e_id e = w_id w)
    (Hseg : file_seg crc (fl s) (e_first e) l ds (Some (w_sec w))) (Hrep : WRep crc (fl s) w cur q) (Hset : settled cur q)
    (Hall : prefix (concat ds ++ cur) all).

  Lemma op_file : forall y, In y (l ++ [w_sec w]) -> H y.
  Proof. intros y Hy. apply (st_own _ _ _ _ _ _ _ _ ST). eapply owns_nth; eauto. Qed.

  Lemma op_nodup : NoDup (l ++ [w_sec w]).
  Proof. apply (nodup_nth C i (l ++ [w_sec w], concat ds)); [apply (dk_nodup _ _ _ _ _ _ _ (st_disk _ _ _ _ _ _ _ _ ST))|auto]. Qed.

  Lemma op_ss : SS crc s H (e_first e) l (w_sec w) (concat ds) (fl s) (w_sec w) l [] ds.
  Proof.
    constructor; auto; try apply op_nodup.
    - apply (wr_sec _ _ _ _ _ Hrep).
    - intros y [].
    - intros y Hy Hne a Ha. reflexivity.
    - apply prefix_refl.
  Qed.

  Lemma op_start : WInv crc te s H (e_first e) l (w_sec w) (concat ds) all s w H l [] ds cur q.
  Proof.
    constructor; auto.
    - apply op_ss.
    - apply (st_al _ _ _ _ _ _ _ _ ST).
    - intros y [Hy|[]]; auto.
    - apply traced_refl. apply (crash_here crc s H (e_first e) l (w_sec w) (concat ds) all op_file (fl s) (fl s) (w_sec w) l [] ds []).
      + apply op_ss.
      + auto.
      + intros y _ _ a Ha. reflexivity.
      + eapply wrep_unfinished; eauto.
      + rewrite app_nil_r. eapply prefix_app_l; eauto.
  Qed.

  Lemma other_same g j cj : (forall y, H y -> y <> w_sec w -> sector_same (fl s) g y) -> j <> i -> nth_error C j = Some cj ->
    forall x, In x (fst cj) -> sector_same (fl s) g x.
  Proof.
    intros Hs Hj Hcj x Hx. apply Hs.
    - apply (st_own _ _ _ _ _ _ _ _ ST). eapply owns_nth; eauto.
    - intros ->. pose proof (dk_nodup _ _ _ _ _ _ _ (st_disk _ _ _ _ _ _ _ _ ST)) as N.
      eapply (nodup_diff C j i); eauto. cbn [fst]. apply in_or_app. right; left; auto.
  Qed.

  (** crash states of the operation, in terms of the disk *)
  Lemma op_crash f' : WCrash crc s H (e_first e) l (w_sec w) (concat ds) all f' -> flash_ok f' ->
    grown p seq ents mx C i (concat ds) all f'.
  Proof.
    intros (Ht & Ho & l1 & ds' & Hf & Hn & Hnew & Hb & Ha) Hg. exists (l ++ w_sec w :: l1, concat ds'). split; [|auto].
    pose proof (st_disk _ _ _ _ _ _ _ _ ST) as D.
    apply (disk_upd_i (fl s) f' p seq ents mx C i e (l ++ [w_sec w], concat ds)); auto.
    - intros j cj Hj Hcj. apply (other_same _ j cj); auto.
    - exists ds'. auto.
    - intros x Hx. cbn [fst] in *. apply in_app_or in Hx. destruct Hx as [Hx|[Hx|Hx]].
      + left. apply in_or_app; auto.
      + left. apply in_or_app; right; left; auto.
      + right. intros Hw. apply (Hnew x Hx). apply (st_own _ _ _ _ _ _ _ _ ST); auto.
  Qed.

  Lemma op_traced s' : traced te s s' (WCrash crc s H (e_first e) l (w_sec w) (concat ds) all) ->
    traced te s s' (grown p seq ents mx C i (concat ds) all) /\ flash_ok (fl s').
  Proof.
    intros T. pose proof (dk_ok _ _ _ _ _ _ _ (st_disk _ _ _ _ _ _ _ _ ST)) as O. apply traced_ok in T; [|auto].
    split; [|apply (traced_fl _ _ _ _ T)]. eapply traced_weaken; [|exact T]. intros f' [A B]. apply op_crash; auto.
  Qed.

  (** the other writers are not disturbed *)
  Lemma op_others g c' : (forall y, H y -> y <> w_sec w -> sector_same (fl s) g y) -> Forall (WSt g ents (upd C i c')) W.
  Proof.
    intros Hs. pose proof (st_w _ _ _ _ _ _ _ _ ST) as Hw. inversion Hw as [|? ? Hw1 Hw2]; subst.
    pose proof (st_ids _ _ _ _ _ _ _ _ ST) as Hn. cbn [map fst] in Hn. inversion Hn as [|? ? Hn1 Hn2]; subst.
    rewrite Forall_forall in *. intros [w2 cur2] Hin. destruct (Hw2 _ Hin) as (j & e2 & l2 & ds2 & q2 & A1 & A2 & A3 & A4 & A5 & A6).
    assert (Hne : j <> i).
    { intros ->. rewrite A1 in He. injection He as ->. apply Hn1. apply in_map_iff. exists (w2, cur2). split; [cbn [fst]; congruence|auto]. }
    assert (Hsame : forall x, In x (l2 ++ [w_sec w2]) -> sector_same (fl s) g x).
    { apply (other_same g j (l2 ++ [w_sec w2], concat ds2)); auto. }
    exists j, e2, l2, ds2, q2. split; [auto|]. split; [rewrite nth_error_upd_other; auto|]. split; [auto|]. split; [|split; [|auto]].
    - eapply seg_same; [exact A4|]. intros x Hx. apply Hsame. apply in_or_app; auto.
    - eapply wrep_same; [exact A5|]. apply Hsame. apply in_or_app; right; left; auto.
  Qed.

  Lemma op_done s' w' H' l' l1' ds' cur' q' : WInv crc te s H (e_first e) l (w_sec w) (concat ds) all s' w' H' l' l1' ds' cur' q' ->
    held H H' l1' -> settled cur' q' -> w_id w' = w_id w ->
    State s' p seq ents mx (upd C i (l' ++ [w_sec w'], concat ds')) H' ((w', cur') :: W) /\
    traced te s s' (grown p seq ents mx C i (concat ds) all) /\ atb s' = atb s.
  Proof.
    intros [Is Ir Ia Ih It Iat] Hh Hset' Hid'. destruct (op_traced s' It) as [T O]. split; [|split; [exact T|exact Iat]].
    assert (Hi : (i < length C)%nat) by (apply nth_error_Some; intros X; rewrite X in Hc; discriminate).
    destruct Is as [S1 S2 S3 S4 S5 S6 S7 S8].
    assert (Hin : forall x, In x (l' ++ [w_sec w']) -> In x (l ++ [w_sec w]) \/ In x l1').
    { intros x Hx. rewrite S2 in Hx. rewrite in_app_iff in *. cbn [In] in *. tauto. }
    constructor.
    - apply (disk_upd_i (fl s) (fl s') p seq ents mx C i e (l ++ [w_sec w], concat ds)); auto.
      + apply (st_disk _ _ _ _ _ _ _ _ ST).
      + intros j cj Hj Hcj. apply (other_same _ j cj); auto.
      + exists (ds' ++ [[]]). split; [|rewrite concat_snoc, app_nil_r; reflexivity]. cbn [fst]. apply seg_holds. eapply seg_app; [exact S1|].
        rewrite <- (eq_refl : link 65535 = None). apply seg_one; auto. apply (wrep_unfinished crc _ _ _ _ Ir).
      + intros x Hx. cbn [fst] in *. destruct (Hin x Hx) as [?|Hx']; [auto|right]. intros Hw. apply (S5 x Hx').
        apply (st_own _ _ _ _ _ _ _ _ ST); auto.
    - rewrite Iat. apply (st_at _ _ _ _ _ _ _ _ ST).
    - exact Ia.
    - intros x Hx. apply owns_in in Hx. destruct Hx as (j & cj & Hj & Hx). destruct (Nat.eq_dec j i) as [->|Hne].
      + rewrite nth_error_upd_same in Hj by auto. injection Hj as <-. cbn [fst] in Hx. apply Hh.
        destruct (Hin x Hx) as [Hx'|Hx']; [left; apply op_file; auto|auto].
      + rewrite nth_error_upd_other in Hj by auto. apply Hh. left. apply (st_own _ _ _ _ _ _ _ _ ST). eapply owns_nth; eauto.
    - constructor.
      + exists i, e, l', ds', q'. split; [auto|]. split; [apply nth_error_upd_same; auto|]. split; [congruence|]. auto.
      + apply op_others. exact S7.
    - pose proof (st_ids _ _ _ _ _ _ _ _ ST) as Hn. cbn [map fst] in *. rewrite Hid'. exact Hn.
  Qed.
End Op.

Lemma wst_head s p seq ents mx C H w cur W : State s p seq ents mx C H ((w, cur) :: W) ->
  exists i e l ds q, nth_error ents i = Some e /\ nth_error C i = Some (l ++ [w_sec w], concat ds) /\ e_id e = w_id w /\
    file_seg crc (fl s) (e_first e) l ds (Some (w_sec w)) /\ WRep crc (fl s) w cur q /\ settled cur q.
Proof. intros ST. pose proof (st_w _ _ _ _ _ _ _ _ ST) as Hw. inversion Hw; subst. auto. Qed.

(** ** extend_from_slice *)
Theorem extend_op te s p seq ents mx C H w cur W slice : State s p seq ents mx C H ((w, cur) :: W) -> bytes_ok slice ->
  exists i e l0 c0, nth_error ents i = Some e /\ e_id e = w_id w /\ nth_error C i = Some (l0, c0) /\
  exists s' w' cur' c' H' r k, extend_from_slice crc w slice s = (s', Ok (w', r)) /\
    State s' p seq ents mx (upd C i c') H' ((w', cur') :: W) /\
    traced te s s' (grown p seq ents mx C i c0 (c0 ++ cur ++ slice)) /\
    w_id w' = w_id w /\ prefix c0 (snd c') /\ snd c' ++ cur' = c0 ++ cur ++ firstn k slice /\ N.of_nat (length cur') <= 4016 /\
    ((r = None /\ k = length slice) \/ (r = Some DeviceFull /\ forall x, data_sector x -> H' x)) /\ atb s' = atb s.
Proof.
  intros ST Hb. destruct (wst_head _ _ _ _ _ _ _ _ _ _ ST) as (i & e & l & ds & q & He & Hc & Hid & Hseg & Hrep & Hset).
  exists i, e, (l ++ [w_sec w]), (concat ds). split; [auto|]. split; [auto|]. split; [auto|].
  assert (Hall : prefix (concat ds ++ cur) (concat ds ++ cur ++ slice)) by (rewrite app_assoc; apply prefix_app).
  pose proof (op_start te s p seq ents mx C H w cur W i e l ds q _ ST Hc Hseg Hrep Hall) as I.
  pose proof (op_file s p seq ents mx C H w cur W i l ds ST Hc) as Hf.
  destruct (extend_step crc crc_bound te s H (e_first e) l (w_sec w) (concat ds) (concat ds ++ cur ++ slice) Hf (S (S (length slice))) slice
              s w H l [] ds cur q I) as (s' & w' & H' & l' & l1' & ds' & cur' & q' & r & k & E & J1 & J2 & J3 & J4 & J5 & J6 & J7); auto.
  { intros y. cbn [In]. tauto. }
  { destruct (Nat.eqb (room w) 0); lia. }
  { apply prefix_refl. }
  destruct (op_done te s p seq ents mx C H w cur W i e l ds (concat ds ++ cur ++ slice) ST He Hc Hid s' w' H' l' l1' ds' cur' q' J1 J2 J3 J4) as (ST' & T & Ea).
  exists s', w', cur', (l' ++ [w_sec w'], concat ds'), H', r, k. split; [exact E|]. split; [exact ST'|]. split; [exact T|].
  split; [auto|]. split; [|split; [exact J6|split; [|split; [exact J7|exact Ea]]]].
  - cbn [snd]. destruct J5 as [t ->]. rewrite concat_app. apply prefix_app.
  - apply (wr_q _ _ _ _ _ (wi_rep _ _ _ _ _ _ _ _ _ _ _ _ _ _ _ _ _ J1)).
Qed.

(** ** flush *)
Theorem flush_op te s p seq ents mx C H w cur W : State s p seq ents mx C H ((w, cur) :: W) ->
  exists i e l0 c0, nth_error ents i = Some e /\ e_id e = w_id w /\ nth_error C i = Some (l0, c0) /\
  exists s' w' r, flush crc w s = (s', Ok (w', r)) /\ w_id w' = w_id w /\ traced te s s' (grown p seq ents mx C i c0 (c0 ++ cur)) /\
    ((r = None /\ exists l' H', State s' p seq ents mx (upd C i (l', c0 ++ cur)) H' ((w', []) :: W) /\ atb s' = atb s) \/
     (r = Some DeviceFull /\ s' = s /\ w' = w /\ forall x, data_sector x -> H x)).
Proof.
  intros ST. destruct (wst_head _ _ _ _ _ _ _ _ _ _ ST) as (i & e & l & ds & q & He & Hc & Hid & Hseg & Hrep & Hset).
  exists i, e, (l ++ [w_sec w]), (concat ds). split; [auto|]. split; [auto|]. split; [auto|].
  pose proof (prefix_refl (concat ds ++ cur)) as Hall.
  pose proof (op_start te s p seq ents mx C H w cur W i e l ds q _ ST Hc Hseg Hrep Hall) as I.
  pose proof (op_file s p seq ents mx C H w cur W i l ds ST Hc) as Hf.
  destruct (flush_step crc crc_bound te s H (e_first e) l (w_sec w) (concat ds) (concat ds ++ cur) Hf
              s w H l [] ds cur q I) as (s' & w' & H' & l' & l1' & ds' & r & E & J1 & J2 & J3); auto.
  { intros y. cbn [In]. tauto. }
  exists s', w', r. split; [exact E|]. split; [exact J3|].
  destruct J1 as [(-> & J1 & J4)|(-> & Hne & -> & -> & -> & -> & -> & -> & Hfull)].
  - destruct (op_done te s p seq ents mx C H w cur W i e l ds (concat ds ++ cur) ST He Hc Hid s' w' H' l' l1' ds' [] 0 J1 J2) as (ST' & T & Ea); auto.
    { unfold settled. cbn. lia. }
    split; [exact T|]. left. split; [auto|]. exists (l' ++ [w_sec w']), H'. rewrite <- J4. auto.
  - split; [|right; auto]. eapply traced_weaken; [|apply traced_ok; [apply (wi_tr _ _ _ _ _ _ _ _ _ _ _ _ _ _ _ _ _ I)|apply (dk_ok _ _ _ _ _ _ _ (st_disk _ _ _ _ _ _ _ _ ST))]].
    intros f' [A B]. apply (op_crash s p seq ents mx C H w cur W i e l ds (concat ds ++ cur) ST He Hc f' A B).
Qed.

(** ** close *)
Definition close_list (opened : list N) (id : N) : list N :=
  match find_index id opened with Some k => swap_remove opened k | None => opened end.

Lemma mark_closed_eq id s : mark_file_closed id s =
  (set_at s (mkAT (a_seq (atb s)) (a_count (atb s)) (a_max (atb s)) (a_pos (atb s)) (close_list (a_open (atb s)) id)), Ok tt).
Proof.
  unfold mark_file_closed, close_list. rewrite bind_get. destruct (find_index id (a_open (atb s))); [reflexivity|].
  unfold ret, set_at. destruct s as [f lg [a1 a2 a3 a4 a5] m]. reflexivity.
Qed.

Lemma state_reopen s p seq ents mx C H W op : State s p seq ents mx C H W ->
  State (set_at s (mkAT (a_seq (atb s)) (a_count (atb s)) (a_max (atb s)) (a_pos (atb s)) op)) p seq ents mx C H W.
Proof.
  intros [A B D E F G]. constructor; auto.
  - cbn [set_at atb]. rewrite B. reflexivity.
  - apply (client_inv s); auto. intros x _ _ a _. reflexivity.
Qed.

Theorem close_op te s p seq ents mx C H w cur W : State s p seq ents mx C H ((w, cur) :: W) ->
  exists i e l0 c0, nth_error ents i = Some e /\ e_id e = w_id w /\ nth_error C i = Some (l0, c0) /\
  exists s', close_writer crc w s = (s', Ok tt) /\ traced te s s' (grown p seq ents mx C i c0 (c0 ++ cur)) /\
    State s' p seq ents mx (upd C i (l0, c0 ++ cur)) H W /\ a_open (atb s') = close_list (a_open (atb s)) (w_id w).
Proof.
  intros ST. destruct (wst_head _ _ _ _ _ _ _ _ _ _ ST) as (i & e & l & ds & q & He & Hc & Hid & Hseg & Hrep & Hset).
  exists i, e, (l ++ [w_sec w]), (concat ds). split; [auto|]. split; [auto|]. split; [auto|].
  pose proof (prefix_refl (concat ds ++ cur)) as Hall.
  pose proof (op_start te s p seq ents mx C H w cur W i e l ds q _ ST Hc Hseg Hrep Hall) as I.
  pose proof (op_file s p seq ents mx C H w cur W i l ds ST Hc) as Hf.
  assert (Hi : (i < length C)%nat) by (apply nth_error_Some; intros X; rewrite X in Hc; discriminate).
  destruct (flush__spec crc crc_bound te s H (e_first e) l (w_sec w) (concat ds) (concat ds ++ cur) Hf s w H l [] ds cur q 65535 I Hall)
    as (s1 & E & A1 & A2 & A3 & A4 & A5 & _); [left; auto|].
  unfold close_writer. rewrite (bind_ok _ _ _ _ _ E), mark_closed_eq. eexists. split; [reflexivity|].
  destruct (op_traced te s p seq ents mx C H w cur W i e l ds (concat ds ++ cur) ST He Hc s1 A3) as [T O].
  split; [eapply traced_ext; [| |exact T]; reflexivity|]. split; [|cbn [set_at atb a_open]; rewrite A4; reflexivity].
  apply state_reopen. destruct A1 as [S1 S2 S3 S4 S5 S6 S7 S8].
  pose proof (st_ids _ _ _ _ _ _ _ _ ST) as Hn. cbn [map fst] in Hn. inversion Hn; subst.
  constructor; auto.
  - apply (disk_upd_i (fl s) (fl s1) p seq ents mx C i e (l ++ [w_sec w], concat ds)); auto.
    + apply (st_disk _ _ _ _ _ _ _ _ ST).
    + intros j cj Hj Hcj. eapply other_same; eauto.
    + exists (ds ++ [cur]). split; [|apply concat_snoc]. cbn [fst]. apply seg_holds. eapply seg_app; [exact S1|].
      rewrite <- (eq_refl : link 65535 = None). apply seg_one; auto.
  - rewrite A4. apply (st_at _ _ _ _ _ _ _ _ ST).
  - intros x Hx. apply owns_in in Hx. destruct Hx as (j & cj & Hj & Hx). apply (st_own _ _ _ _ _ _ _ _ ST).
    destruct (Nat.eq_dec j i) as [->|Hne].
    + rewrite nth_error_upd_same in Hj by auto. injection Hj as <-. eapply owns_nth; [exact Hc|]. exact Hx.
    + rewrite nth_error_upd_other in Hj by auto. eapply owns_nth; eauto.
  - eapply op_others; eauto.
Qed.
End S.

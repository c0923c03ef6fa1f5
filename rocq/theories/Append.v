(** * Opening an existing file for appending *)
From Coq Require Import Sorted.
From Verif Require Import Base Majority Flash FS Sectors SectorsProofs ATable TornCode TableCode TableScan ChipRules TableBuild TableOps DirOps Chains FileIO FileFormat FileWrite WriteOps WriteSpec Disk Sessions DirState OpenOps.
Local Open Scope N_scope.
Local Open Scope fs_scope.

(** ** The copy loop *)
(** sector [dst] holds the pages [T 0], ..., [T (k-1)], [j] bytes of page [T k], and is blank after that *)
Record copying (f0 : flash) (dst : N) (T : nat -> list byte) (k j : nat) (f : flash) : Prop := {
  cp_out : forall a, ~ (dst * SECTOR_SIZE <= a < (dst + 1) * SECTOR_SIZE) -> f a = f0 a;
  cp_in : forall m, (m < 16)%nat -> page_is f (dst * SECTOR_SIZE + 256 * N.of_nat m)
            (if (m <? k)%nat then T m else if (m =? k)%nat then firstn j (T m) else []) }.

Lemma page_is_nil f a : page_is f a [] <-> forall i, (i < 256)%nat -> f (a + N.of_nat i) = 255.
Proof. unfold page_is. split; intros H i Hi; rewrite H by auto; destruct i; reflexivity. Qed.

Lemma copying_prog f0 dst T k j f : copying f0 dst T k 0 f -> (k < 16)%nat -> bytes_ok (T k) -> length (T k) = 256%nat ->
  copying f0 dst T k j (apply_op f (Prog (dst * SECTOR_SIZE + N.of_nat k * 256) (firstn j (T k)))).
Proof.
  intros [A B] Hk Hok Hl. assert (Hfl : (length (firstn j (T k)) <= 256)%nat) by (rewrite firstn_length; lia). constructor.
  - intros a Ha. rewrite prog_outside; [auto|]. unfold SECTOR_SIZE in *. lia.
  - intros m Hm. specialize (B m Hm). destruct (Nat.ltb_spec m k) as [L|L]; [|destruct (Nat.eqb_spec m k) as [Em|Hne]; [subst m|]].
    + intros i Hi. rewrite prog_outside; [auto|]. unfold SECTOR_SIZE. lia.
    + replace (dst * SECTOR_SIZE + N.of_nat k * 256) with (dst * SECTOR_SIZE + 256 * N.of_nat k) by lia.
      rewrite firstn_O in B. apply prog_page; [exact B|apply bytes_ok_firstn; auto].
    + intros i Hi. rewrite prog_outside; [auto|]. unfold SECTOR_SIZE. lia.
Qed.

Lemma copying_next f0 dst T k f : copying f0 dst T k 256 f -> length (T k) = 256%nat -> copying f0 dst T (S k) 0 f.
Proof.
  intros [A B] Hl. constructor; [auto|]. intros m Hm. specialize (B m Hm).
  destruct (Nat.ltb_spec m k) as [L|L], (Nat.ltb_spec m (S k)) as [L'|L']; try lia; auto.
  - assert (m = k) as -> by lia. rewrite Nat.eqb_refl, firstn_all2 in B by lia. auto.
  - destruct (Nat.eqb_spec m k); [lia|]. rewrite firstn_O. destruct (m =? S k)%nat; auto.
Qed.

Definition page_of (f : flash) (src : N) (next : option N) (k : nat) : list byte :=
  let buf := rd f (src * SECTOR_SIZE + N.of_nat k * 256) 256 in
  match next with
  | Some v => if Nat.eqb k 15 then splice buf 248 (u16x4 v) else buf
  | None => buf
  end.

Lemma splice_length buf off data : (off + length data <= length buf)%nat -> length (splice buf off data) = length buf.
Proof. intros H. unfold splice. rewrite !app_length, firstn_length, skipn_length. lia. Qed.

Lemma rd_bytes_ok f a n : flash_ok f -> bytes_ok (rd f a n).
Proof. intros H. unfold rd. apply Forall_map, Forall_forall. intros i _. apply H. Qed.

Lemma page_of_length f src next k : length (page_of f src next k) = 256%nat.
Proof.
  unfold page_of. destruct next as [v|]; [|apply rd_length]. destruct (k =? 15)%nat; [|apply rd_length].
  rewrite splice_length; rewrite rd_length; [reflexivity|]. rewrite u16x4_length. lia.
Qed.
Lemma page_of_ok f src next k : flash_ok f -> bytes_ok (page_of f src next k).
Proof.
  intros H. pose proof (rd_bytes_ok f (src * SECTOR_SIZE + N.of_nat k * 256) 256 H) as K.
  unfold page_of. destruct next as [v|]; [|auto]. destruct (k =? 15)%nat; [|auto]. unfold splice, bytes_ok in *.
  apply Forall_app. split; [apply bytes_ok_firstn; auto|]. apply Forall_app. split; [apply u16x4_ok|].
  rewrite <- (firstn_skipn (248 + length (u16x4 v)) (rd _ _ _)) in K. apply Forall_app in K. tauto.
Qed.

Lemma copy_spec te s0 f0 src dst next (G : flash -> Prop) : src <> dst -> data_sector dst -> flash_ok f0 ->
  (forall k j f, (k < 16)%nat -> copying f0 dst (page_of f0 src next) k j f -> G f) ->
  forall n i s, (i + n = 16)%nat -> copying f0 dst (page_of f0 src next) i 0 (fl s) -> traced te s0 s G ->
  exists s', copy_pages n i src dst next s = (s', Ok tt) /\ copying f0 dst (page_of f0 src next) 16 0 (fl s') /\
    traced te s0 s' G /\ atb s' = atb s /\ sm s' = sm s.
Proof.
  intros Hne Hdst Hok HG. set (T := page_of f0 src next). induction n as [|n IH]; intros i s Hi Hc Ht; cbn [copy_pages].
  - exists s. split; [reflexivity|]. replace 16%nat with i by lia. auto.
  - rewrite bind_get. cbv zeta.
    assert (Er : rd (fl s) (src * SECTOR_SIZE + N.of_nat i * 256) 256 = rd f0 (src * SECTOR_SIZE + N.of_nat i * 256) 256).
    { apply rd_ext. intros a Ha. apply (cp_out _ _ _ _ _ _ Hc). unfold SECTOR_SIZE. lia. }
    rewrite Er. fold (page_of f0 src next i). fold T. rewrite bind_out.
    assert (HlT : length (T i) = 256%nat) by apply page_of_length.
    assert (HoT : bytes_ok (T i)) by (apply page_of_ok; auto).
    assert (Hp : forall j, copying f0 dst T i j (apply_op (fl s) (Prog (dst * SECTOR_SIZE + N.of_nat i * 256) (firstn j (T i))))).
    { intros j. apply copying_prog; auto. lia. }
    pose proof (Hp 256%nat) as Hfull. rewrite firstn_all2 in Hfull by lia.
    destruct (IH (S i) (emit s (Prog (dst * SECTOR_SIZE + N.of_nat i * 256) (T i)))) as (s' & E & A & B & C1 & D).
    + lia.
    + cbn [emit fl]. apply copying_next; auto.
    + apply traced_emit; [auto| | |].
      * intros f' Htorn. apply torn_m_torn in Htorn. inversion Htorn; subst. apply (HG i j); [lia|]. apply Hp.
      * apply (HG i 256%nat); [lia|exact Hfull].
      * replace (dst * SECTOR_SIZE + N.of_nat i * 256) with (dst * SECTOR_SIZE + 256 * N.of_nat i) by lia.
        apply page_allowed; [exact Hdst|lia|exact HlT|exact HoT|]. pose proof (cp_in _ _ _ _ _ _ Hc i ltac:(lia)) as Q.
        rewrite Nat.ltb_irrefl, Nat.eqb_refl in Q. exact Q.
    + exists s'. split; [exact E|]. cbn [emit atb sm] in C1, D. auto.
Qed.

(** ** What the copied sector holds, completely copied or not *)
Lemma cut_cut u j0 j : firstn j (cut_field u j0) ++ repeat 255 (8 - j) = cut_field u (Nat.min j j0).
Proof.
  unfold cut_field. rewrite firstn_app, firstn_firstn, firstn_length, u16x4_length, firstn_repeat_255, <- app_assoc. f_equal.
  rewrite <- repeat_app. f_equal. lia.
Qed.

Lemma cut_mono u j0 j : u < 65536 -> (j <= j0)%nat -> find_most_common_u16_out_of_4 (cut_field u j0) = Some 65535 ->
  find_most_common_u16_out_of_4 (cut_field u j) = Some 65535.
Proof.
  intros Hu Hj H0. destruct (torn_u16x4 u j Hu) as [[E _]|[E H1]]; [exact E|]. unfold cut_field in *. rewrite E.
  destruct (torn_u16x4 u j0 Hu) as [[E0 L0]|[E0 L0]]; rewrite E0 in H0; [|congruence].
  assert (He : exists p q, be_bytes 2 u = [p; q]) by (cbn [be_bytes]; eauto).
  assert (Ev : of_be (be_bytes 2 u) = u) by (apply of_be_be_bytes_id; exact Hu).
  destruct He as (p & q & He). unfold u16x4 in *. rewrite He in *. clear He Hu.
  assert (K : forall v, find_most_common_u16_out_of_4 (firstn 1 ([p; q] ++ v) ++ repeat 255 7) = Some 65535).
  { intros v. unfold find_most_common_u16_out_of_4. cbn -[of_be]. unfold find_most_common. change (of_be [255; 255]) with 65535. rewrite !N.eqb_refl.
    destruct (N.eqb_spec (of_be [p; 255]) 65535) as [->|_]; reflexivity. }
  assert (K2 : forall v, find_most_common_u16_out_of_4 (firstn 2 ([p; q] ++ v) ++ repeat 255 6) = Some 65535).
  { intros v. unfold find_most_common_u16_out_of_4. cbn -[of_be]. unfold find_most_common. change (of_be [255; 255]) with 65535. rewrite !N.eqb_refl.
    destruct (N.eqb_spec (of_be [p; q]) 65535) as [->|_]; reflexivity. }
  destruct j as [|[|[|[|j]]]]; try lia.
  - specialize (K ([p; q] ++ [p; q] ++ [p; q])). cbn [Nat.sub] in E. rewrite K in E. congruence.
  - specialize (K2 ([p; q] ++ [p; q] ++ [p; q])). cbn [Nat.sub] in E. rewrite K2 in E. congruence.
  - assert (j0 = 3%nat) as -> by lia. rewrite E0 in E. congruence.
Qed.

Section S.
Variable crc : list byte -> N.
Hypothesis crc_bound : crc32 crc.

Lemma sector_page f0 g x k j (T : nat -> list byte) : copying f0 x T k j g -> (k <= 16)%nat -> forall m, (m < k)%nat ->
  page_is g (x * SECTOR_SIZE + 256 * N.of_nat m) (T m).
Proof. intros Hc Hk m Hm. pose proof (cp_in _ _ _ _ _ _ Hc m ltac:(lia)) as H. destruct (Nat.ltb_spec m k); [auto|lia]. Qed.

Lemma copied_sector f x d g f0 k j v : data_sector x -> sec_holds crc f x d 65535 -> v < 65536 -> (k < 16)%nat ->
  copying f0 x (page_of f x (Some v)) k j g ->
  sec_holds crc g x [] 65535 \/ sec_holds crc g x d 65535 \/ sec_holds crc g x d v.
Proof.
  intros Hx Hs Hv Hk Hc. pose proof (sec_holds_bound _ _ _ _ _ Hs) as Hd. destruct Hs as [(len & El & Hlen) Hn (u & j0 & Hu & Hraw) Hp].
  destruct (Nat.eq_dec k 15) as [->|Hk15].
  2:{ left. apply erased_unfinished. pose proof (cp_in _ _ _ _ _ _ Hc 15%nat ltac:(lia)) as H.
      destruct (Nat.ltb_spec 15 k); [lia|]. destruct (Nat.eqb_spec 15 k); [lia|]. exact H. }
  set (P := page_of f x (Some v) 15). set (jj := Nat.min j 256). set (base := x * SECTOR_SIZE + 3840).
  assert (Eb : x * SECTOR_SIZE + N.of_nat 15 * 256 = base) by (unfold base; lia).
  assert (Eb' : x * SECTOR_SIZE + 256 * N.of_nat 15 = base) by (unfold base; lia).
  assert (HlP : length P = 256%nat) by apply page_of_length.
  assert (ER : rd f base 256 = rd f base 240 ++ cut_field u j0 ++ rd f (base + 248) 8).
  { rewrite <- Hraw. replace (x * SECTOR_SIZE + SECTOR_SIZE - 16) with (base + N.of_nat 240) by (unfold base, SECTOR_SIZE; lia).
    change 256%nat with (240 + (8 + 8))%nat. rewrite rd_app, rd_app. do 3 f_equal. lia. }
  assert (Hlc : forall w i, length (cut_field w i) = 8%nat).
  { intros w i. unfold cut_field. rewrite app_length, firstn_length, u16x4_length, repeat_length. lia. }
  assert (EP : P = rd f base 240 ++ cut_field u j0 ++ u16x4 v).
  { unfold P, page_of. cbn [Nat.eqb]. rewrite Eb, ER. rewrite (app_assoc (rd f base 240)).
    rewrite <- (app_nil_r (rd f (base + 248) 8)).
    rewrite (splice_app _ _ _ _ 248); [rewrite app_nil_r, <- app_assoc; reflexivity| |].
    - rewrite app_length, rd_length, Hlc. reflexivity.
    - rewrite rd_length, u16x4_length. reflexivity. }
  assert (Ej : firstn j P = firstn jj P).
  { unfold jj. destruct (Nat.le_gt_cases j 256); [rewrite Nat.min_l by lia; auto|]. rewrite Nat.min_r, !firstn_all2 by lia. auto. }
  set (P' := firstn jj P ++ repeat 255 (256 - jj)).
  assert (HlP' : length P' = 256%nat) by (unfold P'; rewrite app_length, firstn_length, repeat_length; lia).
  assert (Hg : page_is g base P').
  { unfold P'. apply page_is_pad. pose proof (cp_in _ _ _ _ _ _ Hc 15%nat ltac:(lia)) as H. rewrite Nat.ltb_irrefl, Nat.eqb_refl, Eb' in H.
    fold P in H. rewrite Ej in H. exact H. }
  assert (Etail : skipn 240 P' = firstn (jj - 240) (cut_field u j0 ++ u16x4 v) ++ repeat 255 (16 - (jj - 240))).
  { unfold P'. rewrite skipn_app, firstn_length, HlP. rewrite EP, firstn_app, rd_length.
    destruct (Nat.le_gt_cases jj 240).
    - replace (jj - 240)%nat with 0%nat by lia. rewrite firstn_O, app_nil_r.
      rewrite skipn_all2 by (rewrite firstn_length, rd_length; lia). rewrite skipn_repeat_255. cbn [firstn app]. f_equal. lia.
    - rewrite (firstn_all2 (rd f base 240)) by (rewrite rd_length; lia). rewrite skipn_app, rd_length, Nat.sub_diag.
      rewrite (skipn_all2 (rd f base 240)) by (rewrite rd_length; lia). cbn [app skipn].
      replace (240 - Nat.min jj 256)%nat with 0%nat by lia. cbn [skipn]. f_equal. f_equal. lia. }
  assert (Rl : rd g (x * SECTOR_SIZE + SECTOR_SIZE - 16) 8 = cut_field u (Nat.min (jj - 240) j0)).
  { replace (x * SECTOR_SIZE + SECTOR_SIZE - 16) with (base + N.of_nat 240) by (unfold base, SECTOR_SIZE; lia).
    rewrite (rd_page g _ P' 240 8 Hg HlP') by lia. rewrite Etail, torn_first8 by (auto; reflexivity). apply cut_cut. }
  assert (Rn : next_sector_at g x = find_most_common_u16_out_of_4 (cut_field v (jj - 240 - 8))).
  { unfold next_sector_at. replace (x * SECTOR_SIZE + SECTOR_SIZE - 8) with (base + N.of_nat 248) by (unfold base, SECTOR_SIZE; lia).
    rewrite (rd_page g _ P' 248 8 Hg HlP') by lia. change 248%nat with (240 + 8)%nat. rewrite <- skipn_skipn_add, Etail, torn_second8 by (auto; reflexivity).
    rewrite firstn_all2; [reflexivity|]. apply Nat.eq_le_incl. apply Hlc. }
  assert (Hlow : forall k, k < 15 -> 252 * k < N.of_nat (length d) -> page_holds crc g x k (chunk d k)).
  { intros k Hk1 Hkd. destruct (Hp k Hkd) as [Q1 Q2].
    pose proof (chunk_length d k) as Hcl. pose proof (pad_le (chunk d k) ltac:(lia)). pose proof (padded_length (chunk d k)).
    pose proof (sector_page _ _ _ _ _ _ Hc ltac:(lia) (N.to_nat k) ltac:(lia)) as Hpg. rewrite N2Nat.id in Hpg.
    assert (Es : forall i, (i < 256)%nat -> g (x * SECTOR_SIZE + 256 * k + N.of_nat i) = f (x * SECTOR_SIZE + 256 * k + N.of_nat i)).
    { intros i Hi. rewrite Hpg by auto. unfold page_of. destruct (Nat.eqb_spec (N.to_nat k) 15); [lia|]. rewrite rd_nth by auto. f_equal. lia. }
    split; [etransitivity; [|exact Q1]|etransitivity; [|exact Q2]; f_equal]; apply rd_ext; intros i Hi.
    - apply Es. lia.
    - replace (x * SECTOR_SIZE + 256 * k + N.of_nat (length (chunk d k ++ padding (chunk d k))) + N.of_nat i) with
        (x * SECTOR_SIZE + 256 * k + N.of_nat (length (chunk d k ++ padding (chunk d k)) + i)) by lia. apply Es. lia. }
  assert (Hlast : (241 <= jj)%nat -> 3780 < N.of_nat (length d) -> page_holds crc g x 15 (chunk d 15)).
  { intros Hj Hkd. destruct (Hp 15 ltac:(lia)) as [Q1 Q2].
    pose proof (chunk_length d 15) as Hcl. pose proof (pad_le_last (chunk d 15) ltac:(lia)). pose proof (padded_length (chunk d 15)).
    assert (Es : forall i, (i < 240)%nat -> g (base + N.of_nat i) = f (base + N.of_nat i)).
    { intros i Hi. rewrite Hg by lia. unfold P'. rewrite app_nth1 by (rewrite firstn_length; lia). rewrite nth_firstn_d.
      destruct (Nat.ltb_spec i jj); [|lia]. rewrite EP, app_nth1 by (rewrite rd_length; lia). rewrite rd_nth by auto. reflexivity. }
    split; [etransitivity; [|exact Q1]|etransitivity; [|exact Q2]; f_equal]; apply rd_ext; intros i Hi.
    - apply Es. lia.
    - replace (x * SECTOR_SIZE + 256 * 15 + N.of_nat (length (chunk d 15 ++ padding (chunk d 15))) + N.of_nat i) with
        (base + N.of_nat (length (chunk d 15 ++ padding (chunk d 15)) + i)) by (unfold base; lia). apply Es. lia. }
  assert (Hraw' : exists u j, u < 65536 /\ rd g (x * SECTOR_SIZE + SECTOR_SIZE - 16) 8 = cut_field u j) by eauto.
  assert (Empty : sec_len g x = Some 65535 -> next_sector_at g x = Some 65535 -> sec_holds crc g x [] 65535).
  { intros A B. constructor; auto; [exists 65535; auto|]. cbn [length]. intros k Hk1. lia. }
  assert (Full : sec_len g x = Some len -> (len = 65535 \/ (241 <= jj)%nat) -> forall m, next_sector_at g x = Some m -> sec_holds crc g x d m).
  { intros A B m Hm. constructor; auto; [exists len; auto|]. intros k Hk1. destruct Hlen as [[Hl1 Hl2]|[_ ->]]; [|cbn in Hk1; lia].
    destruct B as [B|B]; [lia|]. destruct (N.lt_ge_cases k 15) as [Hk15|Hk15]; [apply Hlow; auto|].
    assert (k = 15) as -> by lia. apply Hlast; [auto|lia]. }
  assert (Enx : next_sector_at g x = Some 65535 \/ next_sector_at g x = Some v).
  { rewrite Rn. destruct (torn_u16x4 v (jj - 240 - 8) Hv) as [[A _]|[A _]]; unfold cut_field; rewrite A; auto. }
  unfold sec_len in El. rewrite Hraw in El.
  destruct (Nat.le_gt_cases 248 jj) as [Hj|Hj].
  - (* the length field is complete *)
    right. assert (A : sec_len g x = Some len).
    { unfold sec_len. rewrite Rl. rewrite <- cut_cut. rewrite <- El. f_equal.
      rewrite firstn_all2 by (rewrite Hlc; lia). replace (8 - (jj - 240))%nat with 0%nat by lia. apply app_nil_r. }
    destruct Enx as [B|B]; [left|right]; (apply Full; [exact A|right; lia|exact B]).
  - assert (B : next_sector_at g x = Some 65535).
    { rewrite Rn. replace (jj - 240 - 8)%nat with 0%nat by lia. reflexivity. }
    destruct (torn_u16x4 u (Nat.min (jj - 240) j0) Hu) as [[A Aj]|[A Aj]].
    + left. apply Empty; [|exact B]. unfold sec_len. rewrite Rl. exact A.
    + destruct (torn_u16x4 u j0 Hu) as [[A0 _]|[A0 _]].
      * left. apply Empty; [|exact B]. unfold sec_len. rewrite Rl. apply (cut_mono u j0); [auto|lia|exact A0].
      * right. left. apply Full; [|right; lia|exact B]. unfold sec_len. rewrite Rl. unfold cut_field in *. congruence.
Qed.

(** a complete copy *)
Lemma copied_whole f x d g f0 v : data_sector x -> sec_holds crc f x d 65535 -> v < 65536 ->
  copying f0 x (page_of f x (Some v)) 16 0 g -> sec_holds crc g x d v.
Proof.
  intros Hx Hs Hv Hc. pose proof (sec_holds_bound _ _ _ _ _ Hs) as Hd. destruct Hs as [(len & El & Hlen) Hn (u & j0 & Hu & Hraw) Hp].
  assert (Es : forall a, x * SECTOR_SIZE <= a < x * SECTOR_SIZE + 4088 -> g a = f a).
  { intros a Ha. set (m := N.to_nat ((a - x * SECTOR_SIZE) / 256)). set (i := N.to_nat ((a - x * SECTOR_SIZE) mod 256)).
    assert (Em0 : N.of_nat m = (a - x * SECTOR_SIZE) / 256) by (unfold m; apply N2Nat.id).
    assert (Ei0 : N.of_nat i = (a - x * SECTOR_SIZE) mod 256) by (unfold i; apply N2Nat.id).
    pose proof (N.div_mod (a - x * SECTOR_SIZE) 256 ltac:(lia)) as Edm. pose proof (N.mod_lt (a - x * SECTOR_SIZE) 256 ltac:(lia)) as Eml.
    rewrite <- Em0, <- Ei0 in Edm. rewrite <- Ei0 in Eml. clearbody m i. clear Em0 Ei0.
    assert (Ea : a = x * SECTOR_SIZE + 256 * N.of_nat m + N.of_nat i) by lia.
    assert (Hm : (m < 16)%nat) by lia. assert (Hi : (i < 256)%nat) by lia.
    rewrite Ea at 1. rewrite (sector_page _ _ _ _ _ _ Hc ltac:(lia) m Hm i Hi). unfold page_of.
    destruct (Nat.eqb_spec m 15) as [Em|Em].
    - assert (Hi' : (i < 248)%nat) by (unfold SECTOR_SIZE in *; lia). unfold splice. rewrite app_nth1 by (rewrite firstn_length, rd_length; lia).
      rewrite nth_firstn_d. destruct (Nat.ltb_spec i 248); [|lia]. rewrite rd_nth by auto. f_equal. lia.
    - rewrite rd_nth by auto. f_equal. lia. }
  constructor.
  - exists len. split; [|auto]. rewrite <- El. unfold sec_len. f_equal. apply rd_ext. intros i Hi. apply Es. unfold SECTOR_SIZE. lia.
  - unfold next_sector_at. pose proof (sector_page _ _ _ _ _ _ Hc ltac:(lia) 15%nat ltac:(lia)) as H15.
    replace (x * SECTOR_SIZE + SECTOR_SIZE - 8) with (x * SECTOR_SIZE + 256 * N.of_nat 15 + N.of_nat 248) by (unfold SECTOR_SIZE; lia).
    rewrite (rd_page g _ _ 248 8 H15) by (rewrite ?page_of_length; lia). unfold page_of. cbn [Nat.eqb]. unfold splice.
    rewrite skipn_app, skipn_all2 by (rewrite firstn_length, rd_length; lia). rewrite firstn_length, rd_length. cbn [Nat.min Nat.sub skipn app].
    rewrite firstn_app, u16x4_length, Nat.sub_diag, firstn_O, app_nil_r, firstn_all2 by (rewrite u16x4_length; lia).
    destruct (torn_u16x4 v 8 Hv) as [[_ A]|[A _]]; [lia|]. rewrite firstn_all2, app_nil_r in A by (rewrite u16x4_length; lia). exact A.
  - exists u, j0. split; [auto|]. rewrite <- Hraw. apply rd_ext. intros i Hi. apply Es. unfold SECTOR_SIZE. lia.
  - intros k Hk. destruct (Hp k Hk) as [Q1 Q2]. assert (Hk15 : k <= 15) by lia.
    pose proof (chunk_length d k) as Hcl. pose proof (pad_le (chunk d k) ltac:(lia)). pose proof (padded_length (chunk d k)).
    assert (Hl : k = 15 -> (N.to_nat (pad4 (N.of_nat (length (chunk d k)))) <= 236)%nat).
    { intros ->. apply pad_le_last. lia. }
    assert (Hlim : 256 * k + N.of_nat (length (chunk d k ++ padding (chunk d k))) + 4 <= 4088).
    { destruct (N.eq_dec k 15); [specialize (Hl ltac:(auto))|]; lia. }
    split; [etransitivity; [|exact Q1]|etransitivity; [|exact Q2]; f_equal]; apply rd_ext; intros i Hi; apply Es; unfold SECTOR_SIZE; lia.
Qed.

(** ** The end of a chain *)
Lemma last_sector_spec f : forall l o ds cur fuel, file_seg crc f o l ds (Some cur) -> next_sector_at f cur = Some 65535 -> (length l < fuel)%nat ->
  forall first, o = Some first -> last_sector fuel f first = Ok cur.
Proof.
  induction l as [|x l IH]; intros o ds cur fuel Hs Hn Hf first Ho.
  - inversion Hs; subst. destruct fuel; [cbn in Hf; lia|]. cbn [last_sector]. assert (first = cur) as -> by congruence. rewrite Hn, N.eqb_refl. reflexivity.
  - inversion Hs as [|? d n ? ds' ? Hd Hh Hr]; subst. assert (first = x) as -> by congruence. destruct fuel; [cbn in Hf; lia|]. cbn [last_sector].
    rewrite (sh_next _ _ _ _ _ Hh). unfold link in Hr. destruct (N.eqb_spec n 65535) as [->|Hne].
    + inversion Hr.
    + apply (IH (Some n) ds'); auto. cbn [length] in Hf. lia.
Qed.

Lemma holds_last f o l ds x : file_holds crc f o l ds -> o = Some x -> exists l1 cur ds1 d, l = l1 ++ [cur] /\ ds = ds1 ++ [d] /\
  file_seg crc f o l1 ds1 (Some cur) /\ data_sector cur /\ sec_holds crc f cur d 65535.
Proof.
  intros H. revert x. induction H as [|x d n l ds Hd Hs Hf IH]; intros x0 Ho; [discriminate|]. injection Ho as <-.
  destruct (N.eqb_spec n 65535) as [->|Hne].
  - unfold link in Hf. cbn [N.eqb] in Hf. rewrite N.eqb_refl in Hf. inversion Hf; subst. exists [], x, [], d. cbn [app].
    split; [auto|]. split; [auto|]. split; [constructor|auto].
  - destruct (IH n) as (l1 & cur & ds1 & d1 & -> & -> & A & B & C).
    { unfold link. destruct (N.eqb_spec n 65535); [congruence|auto]. }
    exists (x :: l1), cur, (d :: ds1), d1. cbn [app]. split; [auto|]. split; [auto|]. split; [econstructor; eauto|auto].
Qed.

(** what a power loss may leave while file [i] (content [c0]) is being opened for appending: at most the data of its last
    sector is missing *)
Definition cut_tail (p seq : N) (ents : list entry) (mx : N) (C : list (list N * list byte)) (i : nat) (c0 : list byte) (f' : flash) : Prop :=
  exists c d, Disk crc f' p seq ents mx (upd C i c) /\ c0 = snd c ++ d /\ (length d <= 4016)%nat.

Lemma upd_same {A} (l : list A) i x : nth_error l i = Some x -> upd l i x = l.
Proof. intros H. apply nth_error_mid in H. destruct H as (a & b & -> & <-). apply upd_mid. Qed.

Lemma copying_out f0 dst T k j f : data_sector dst -> copying f0 dst T k j f ->
  (forall a, a < 131072 -> f a = f0 a) /\ (forall y, y <> dst -> sector_same f0 f y).
Proof.
  intros Hd Hc. pose proof (cp_out _ _ _ _ _ _ Hc) as Ho. unfold data_sector, ALLOC_TABLES_SECTORS_USED, SECTOR_SIZE in *. split.
  - intros a Ha. apply Ho. lia.
  - intros y Hy a Ha. apply Ho. unfold SECTOR_SIZE in *. lia.
Qed.

Lemma erase_sector f x : data_sector x -> let g := apply_op f (Erase (x * SECTOR_SIZE) SECTOR_SIZE) in
  sector_erased g x /\ (forall a, a < 131072 -> g a = f a) /\ (forall y, y <> x -> sector_same f g y).
Proof.
  intros Hd g. unfold data_sector, ALLOC_TABLES_SECTORS_USED, SECTOR_SIZE, sector_erased, sector_same in *. unfold g. cbn [apply_op].
  split; [|split]; intros; unfold SECTOR_SIZE in *.
  - destruct (N.leb_spec (x * 4096) a); [|lia]. destruct (N.ltb_spec a (x * 4096 + 4096)); [reflexivity|lia].
  - destruct (N.leb_spec (x * 4096) a); [|reflexivity]. lia.
  - destruct (N.leb_spec (x * 4096) a); [|reflexivity]. destruct (N.ltb_spec a (x * 4096 + 4096)); [lia|reflexivity].
Qed.

Lemma copying_start f dst T : sector_erased f dst -> copying f dst T 0 0 f.
Proof.
  intros He. constructor; [auto|]. intros m Hm. rewrite firstn_O. destruct (m =? 0)%nat; cbn [Nat.ltb Nat.leb];
  (intros i Hi; rewrite (He (dst * SECTOR_SIZE + 256 * N.of_nat m + N.of_nat i)) by (unfold SECTOR_SIZE; lia); destruct i; reflexivity).
Qed.

Lemma copying_ext f0 dst T T' k j f : (k <= 16)%nat -> (forall m, (m < 16)%nat -> T m = T' m) -> copying f0 dst T k j f -> copying f0 dst T' k j f.
Proof. intros Hk He [A B]. constructor; [auto|]. intros m Hm. rewrite <- He by auto. apply B; auto. Qed.

Lemma liftM_ok {A} (a : A) s : liftM (Ok a) s = (s, Ok a).
Proof. reflexivity. Qed.

Definition append_body (first x : N) : M unit :=
  s <- get ;;
  cur <- liftM (last_sector chain_fuel (fl s) first) ;;
  tmp <- claim_avaliable_sector_and_erase ;;
  copy_pages 16 0 cur tmp (Some x) ;;;
  out (Erase (cur * SECTOR_SIZE) SECTOR_SIZE) ;;;
  copy_pages 16 0 tmp cur None ;;;
  return_sector tmp.

Lemma append_body_op s p seq ents mx C H W i e first l0 c0 x : State crc s p seq ents mx C H W -> nth_error ents i = Some e -> e_first e = Some first ->
  nth_error C i = Some (l0, c0) -> (forall w cur, In (w, cur) W -> w_id w <> e_id e) -> H x -> ~ owns C x -> data_sector x -> sector_erased (fl s) x ->
  (exists s', append_body first x s = (s', Ok tt) /\
     State crc s' p seq ents mx (upd C i (l0 ++ [x], c0)) H ((new_writer x (e_id e), []) :: W) /\ atb s' = atb s /\
     traced false s s' (cut_tail p seq ents mx C i c0) /\ (forall a, a < 131072 -> fl s' a = fl s a) /\
     (forall j cj y, j <> i -> nth_error C j = Some cj -> In y (fst cj) -> sector_same (fl s) (fl s') y)) \/
  (append_body first x s = (s, Err DeviceFull) /\ forall y, data_sector y -> H y).
Proof.
  intros ST He Hfst Hc Hw Hx Hnx Hdx Hex. pose proof (st_disk _ _ _ _ _ _ _ _ _ ST) as Dk. pose proof (dk_files _ _ _ _ _ _ _ Dk) as HF.
  assert (Hfile : file_ok crc (fl s) e (l0, c0)).
  { apply nth_error_mid in He, Hc. destruct He as (a1 & b1 & -> & L1), Hc as (a2 & b2 & -> & L2). apply forall2_mid in HF; [tauto|congruence]. }
  destruct Hfile as (ds & Hh & Econt). cbn [fst snd] in Hh, Econt.
  destruct (holds_last _ _ _ _ first Hh Hfst) as (l1 & cur & ds1 & d & El & Eds & Hseg & Hdcur & Hscur).
  pose proof (sec_holds_bound _ _ _ _ _ Hscur) as Hdb.
  assert (Hc0 : c0 = concat ds1 ++ d) by (rewrite <- Econt, Eds, concat_snoc; reflexivity).
  pose proof (nodup_nth C i _ (dk_nodup _ _ _ _ _ _ _ Dk) Hc) as Hnd. cbn [fst] in Hnd.
  pose proof (st_own _ _ _ _ _ _ _ _ _ ST) as Hown.
  assert (Hin : forall y, In y l0 -> owns C y) by (intros y Hy; eapply owns_nth; eauto).
  assert (Hcur : owns C cur) by (apply Hin; rewrite El; apply in_or_app; right; left; auto).
  assert (Hcx : cur <> x) by (intros ->; auto).
  assert (Hil : (i < length C)%nat) by (apply nth_error_Some; congruence).
  unfold append_body. rewrite bind_get.
  rewrite (last_sector_spec (fl s) l1 (e_first e) ds1 cur chain_fuel Hseg (sh_next _ _ _ _ _ Hscur)) with (first := first); auto.
  2:{ assert (length l0 < chain_fuel)%nat.
      { apply chain_fuel_big; [auto|]. apply Forall_forall. intros y Hy. eapply disk_data; eauto. }
      rewrite El, app_length in H0. lia. }
  rewrite (bind_ok _ _ _ _ _ (liftM_ok cur s)).
  destruct (claim_op crc false s p seq ents mx C H W ST) as [(s1 & tmp & E1 & ST1 & Htmp & Hdt & Het & Eat1 & T1 & Ht1 & Hs1)|(E1 & Hfull)].
  2:{ right. split; [apply (bind_err _ _ _ _ _ E1)|auto]. }
  left. rewrite (bind_ok _ _ _ _ _ E1).
  pose proof (st_disk _ _ _ _ _ _ _ _ _ ST1) as Dk1. pose proof (dk_ok _ _ _ _ _ _ _ Dk1) as Hok1.
  assert (Htc : tmp <> cur) by (intros ->; auto). assert (Htx : tmp <> x) by (intros ->; auto).
  assert (Hnt : ~ owns C tmp) by (intros Ht; apply Htmp; auto).
  assert (Hseg1 : file_seg crc (fl s1) (e_first e) l1 ds1 (Some cur)).
  { eapply seg_same; [exact Hseg|]. intros y Hy. apply Hs1, Hown, Hin. rewrite El. apply in_or_app; auto. }
  assert (Hscur1 : sec_holds crc (fl s1) cur d 65535) by (eapply sec_holds_same; [apply Hs1, Hown, Hcur|auto]).
  assert (Hex1 : sector_erased (fl s1) x). { intros a Ha. rewrite (Hs1 x Hx a Ha). apply Hex; auto. }
  set (T := page_of (fl s1) cur (Some x)).
  set (G := fun f' => flash_ok f' -> cut_tail p seq ents mx C i c0 f').
  assert (Hfree : ~ In cur l1). { rewrite El in Hnd. apply NoDup_remove_2 in Hnd. rewrite app_nil_r in Hnd. auto. }
  (* a state in which only [tmp] and possibly [cur] differ *)
  assert (Kold : forall f', (forall a, a < 131072 -> f' a = fl s1 a) -> (forall y, y <> tmp -> sector_same (fl s1) f' y) -> flash_ok f' ->
            Disk crc f' p seq ents mx C).
  { intros f' X Y Z. apply (disk_same crc (fl s1)); auto. intros y Hy. apply Y. intros ->. auto. }
  assert (Gold : forall f', (forall a, a < 131072 -> f' a = fl s1 a) -> (forall y, y <> tmp -> sector_same (fl s1) f' y) -> G f').
  { intros f' X Y Z. exists (l0, c0), []. rewrite app_nil_r, (upd_same C i (l0, c0)) by auto. split; [apply Kold; auto|]. split; [reflexivity|cbn; lia]. }
  assert (Knew : forall f' la dsa, (forall a, a < 131072 -> f' a = fl s1 a) -> (forall y, y <> tmp -> y <> cur -> sector_same (fl s1) f' y) -> flash_ok f' ->
            file_seg crc f' (Some cur) la dsa None -> (la = [cur] \/ la = [cur; x]) ->
            Disk crc f' p seq ents mx (upd C i (l1 ++ la, concat ds1 ++ concat dsa))).
  { intros f' la dsa X Y Z Hsa Hla.
    apply (disk_upd_i crc (fl s1) f' p seq ents mx C i e (l0, c0)); auto.
    - intros j cj Hj Hcj y Hy. apply Y.
      + intros ->. apply Hnt. eapply owns_nth; eauto.
      + intros ->. apply (nodup_diff C j i cj (l0, c0) cur (dk_nodup _ _ _ _ _ _ _ Dk) Hj Hcj Hc Hy). cbn [fst]. rewrite El. apply in_or_app; right; left; auto.
    - exists (ds1 ++ dsa). split; [|apply concat_app]. cbn [fst]. apply seg_holds. eapply seg_app; [|exact Hsa].
      eapply seg_same; [exact Hseg1|]. intros y Hy. apply Y; [intros ->|intros ->; auto]. apply Hnt, Hin. rewrite El. apply in_or_app; auto.
    - cbn [fst]. destruct Hla as [-> | ->]; [rewrite <- El; auto|].
      replace (l1 ++ [cur; x]) with (l0 ++ [x]) by (rewrite El, <- app_assoc; reflexivity).
      apply nodup_app_iff. split; [auto|]. split; [constructor; [intros []|constructor]|]. intros y Hy [<-|[]]. auto.
    - cbn [fst]. intros y Hy. apply in_app_or in Hy. destruct Hy as [Hy|Hy]; [left; rewrite El; apply in_or_app; auto|].
      destruct Hla as [-> | ->]; cbn [In] in Hy; (destruct Hy as [<-|Hy]; [left; rewrite El; apply in_or_app; right; left; auto|]); [destruct Hy|].
      destruct Hy as [<-|[]]. right; auto. }
  (* first copy *)
  destruct (copy_spec false s (fl s1) cur tmp (Some x) G) with (n := 16%nat) (i := 0%nat) (s := s1) as (s2 & E2 & Hc2 & T2 & Eat2 & Esm2).
  { auto. } { exact Hdt. } { exact Hok1. }
  { intros k j f Hk Hcp. destruct (copying_out _ _ _ _ _ _ Hdt Hcp). apply Gold; auto. }
  { reflexivity. } { apply copying_start. exact Het. }
  { eapply traced_weaken; [|exact T1]. intros f' Dkf _. exists (l0, c0), []. rewrite app_nil_r, (upd_same C i (l0, c0)) by auto.
    split; [exact Dkf|]. split; [reflexivity|cbn; lia]. }
  rewrite (bind_ok _ _ _ _ _ E2). fold T in Hc2. destruct (copying_out _ _ _ _ _ _ Hdt Hc2) as [Ht2 Hs2].
  (* erase *)
  rewrite bind_out. set (s3 := emit s2 (Erase (cur * SECTOR_SIZE) SECTOR_SIZE)).
  destruct (erase_sector (fl s2) cur Hdcur) as (Her & Ht3 & Hs3).
  change (apply_op (fl s2) (Erase (cur * SECTOR_SIZE) SECTOR_SIZE)) with (fl s3) in *.
  assert (Ht13 : forall a, a < 131072 -> fl s3 a = fl s1 a) by (intros a Ha; rewrite Ht3, Ht2; auto).
  assert (Hs13 : forall y, y <> tmp -> y <> cur -> sector_same (fl s1) (fl s3) y).
  { intros y Y1 Y2 a Ha. rewrite (Hs3 y Y2 a Ha). apply (Hs2 y Y1 a Ha). }
  assert (Gempty : forall f', (forall a, a < 131072 -> f' a = fl s1 a) -> (forall y, y <> tmp -> y <> cur -> sector_same (fl s1) f' y) ->
      sec_holds crc f' cur [] 65535 -> G f').
  { intros f' X Y Z Hok'. exists (l1 ++ [cur], concat ds1 ++ concat [[]]), d. split; [|split; [|lia]].
    - apply Knew; auto. apply (seg_one crc f' cur [] 65535); auto.
    - cbn [snd concat app]. rewrite app_nil_r. exact Hc0. }
  assert (T3 : traced false s s3 G).
  { apply traced_emit; [auto| | |].
    - intros f' (a & b & j & X & _). discriminate.
    - change (G (fl s3)). apply Gempty; auto. apply erased_unfinished. intros j Hj.
      rewrite (Her (cur * SECTOR_SIZE + 3840 + N.of_nat j)) by (unfold SECTOR_SIZE; lia). destruct j; reflexivity.
    - split; [left; reflexivity|]. split; [apply N.mod_mul; discriminate|]. unfold DEVICE_BYTES, data_sector, SECTORS_COUNT, SECTOR_SIZE in *. lia. }
  assert (ET : forall m, (m < 16)%nat -> page_of (fl s3) tmp None m = T m).
  { intros m Hm. unfold page_of at 1. pose proof (sector_page _ _ _ _ _ _ Hc2 ltac:(lia) m Hm) as Hp.
    assert (HlT : length (T m) = 256%nat) by apply page_of_length.
    transitivity (rd (fl s2) (tmp * SECTOR_SIZE + N.of_nat m * 256) 256); [|].
    - apply rd_ext. intros a Ha. apply (Hs3 tmp Htc (tmp * SECTOR_SIZE + N.of_nat m * 256 + N.of_nat a)). unfold SECTOR_SIZE. lia.
    - pose proof (rd_page (fl s2) (tmp * SECTOR_SIZE + 256 * N.of_nat m) (T m) 0 256 Hp HlT ltac:(lia)) as Q. cbn [skipn] in Q.
      rewrite firstn_all2 in Q by lia. rewrite <- Q. f_equal. lia. }
  assert (Hok3 : flash_ok (fl s3)).
  { apply traced_ok in T3; [|apply (dk_ok _ _ _ _ _ _ _ Dk)]. apply (traced_fl _ _ _ _ T3). }
  assert (Hx16 : x < 65536) by (unfold data_sector, SECTORS_COUNT in Hdx; lia).
  (* second copy *)
  assert (Hpart : forall k j f, (k < 16)%nat -> copying (fl s3) cur (page_of (fl s3) tmp None) k j f -> G f).
  { intros k j f Hk Hcp. destruct (copying_out _ _ _ _ _ _ Hdcur Hcp) as [X Y].
    assert (X1 : forall a, a < 131072 -> f a = fl s1 a) by (intros a Ha; rewrite X; auto).
    assert (Y1 : forall y, y <> tmp -> y <> cur -> sector_same (fl s1) f y). { intros y Q1 Q2 a Ha. rewrite (Y y Q2 a Ha). apply (Hs13 y Q1 Q2 a Ha). }
    apply (copying_ext _ _ _ T) in Hcp; [|lia|exact ET].
    destruct (copied_sector (fl s1) cur d f (fl s3) k j x Hdcur Hscur1 Hx16 Hk Hcp) as [A|[A|A]].
    - apply Gempty; auto.
    - intros Z. exists (l1 ++ [cur], concat ds1 ++ concat [d]), []. split; [|split; [|cbn; lia]].
      + apply Knew; auto. apply (seg_one crc f cur d 65535); auto.
      + cbn [snd concat]. rewrite !app_nil_r. exact Hc0.
    - intros Z. exists (l1 ++ [cur; x], concat ds1 ++ concat [d; []]), []. split; [|split; [|cbn; lia]].
      + apply Knew; auto. rewrite <- (app_nil_l [x]). econstructor; [auto|exact A|]. rewrite link_sector by auto. apply seg_holds, erased_file; auto.
        intros a Ha. rewrite (Y1 x ltac:(auto) ltac:(auto) a Ha). auto.
      + cbn [snd concat]. rewrite !app_nil_r. exact Hc0. }
  destruct (copy_spec false s (fl s3) tmp cur None G) with (n := 16%nat) (i := 0%nat) (s := s3) as (s4 & E4 & Hc4 & T4 & Eat4 & Esm4).
  { auto. } { exact Hdcur. } { exact Hok3. } { exact Hpart. } { reflexivity. } { apply copying_start. exact Her. } { exact T3. }
  rewrite (bind_ok _ _ _ _ _ E4). destruct (copying_out _ _ _ _ _ _ Hdcur Hc4) as [Ht4 Hs4].
  assert (X4 : forall a, a < 131072 -> fl s4 a = fl s1 a) by (intros a Ha; rewrite Ht4; auto).
  assert (Y4 : forall y, y <> tmp -> y <> cur -> sector_same (fl s1) (fl s4) y). { intros y Q1 Q2 a Ha. rewrite (Hs4 y Q2 a Ha). apply (Hs13 y Q1 Q2 a Ha). }
  assert (HA4 : AllocInv s4 (add H tmp)).
  { apply (client_inv s1 s4 (add H tmp)).
    - apply (st_al _ _ _ _ _ _ _ _ _ ST1).
    - rewrite Esm4. cbn [s3 emit sm]. exact Esm2.
    - intros y _ Hy. apply Y4; intros ->; apply Hy; [left; auto|right; auto]. }
  destruct (return_spec s4 (add H tmp) tmp HA4 ltac:(left; auto)) as (s5 & E5 & HA5 & Ef5 & El5 & Eat5).
  exists s5. split; [exact E5|].
  assert (T5 : traced false s s5 G). { eapply traced_ext; [| |exact T4]; congruence. }
  apply traced_ok in T5; [|apply (dk_ok _ _ _ _ _ _ _ Dk)].
  assert (Hok5 : flash_ok (fl s5)) by apply (traced_fl _ _ _ _ T5).
  apply (copying_ext _ _ _ T) in Hc4; [|lia|exact ET].
  pose proof (copied_whole (fl s1) cur d (fl s4) (fl s3) x Hdcur Hscur1 Hx16 Hc4) as Hwhole.
  assert (Hex4 : sector_erased (fl s4) x). { intros a Ha. rewrite (Y4 x ltac:(auto) ltac:(auto) a Ha). auto. }
  assert (Hseg4 : file_seg crc (fl s4) (e_first e) l1 ds1 (Some cur)).
  { eapply seg_same; [exact Hseg1|]. intros y Hy. apply Y4; [intros ->|intros ->; auto]. apply Hnt, Hin. rewrite El. apply in_or_app; auto. }
  assert (Eatt : atb s5 = atb s).
  { rewrite Eat5, Eat4. cbn [s3 emit atb]. congruence. }
  assert (Ec' : (l0 ++ [x], c0) = (l1 ++ [cur; x], concat ds1 ++ concat [d; []])).
  { f_equal; [rewrite El, <- app_assoc; reflexivity|]. cbn [concat]. rewrite !app_nil_r. exact Hc0. }
  assert (Dk5 : Disk crc (fl s5) p seq ents mx (upd C i (l0 ++ [x], c0))).
  { rewrite Ec', Ef5. apply Knew; auto; [rewrite <- Ef5; auto|]. econstructor; [auto|exact Hwhole|]. rewrite link_sector by auto. apply seg_holds, erased_file; auto. }
  split; [|split; [exact Eatt|split]].
  - constructor.
    + exact Dk5.
    + rewrite Eatt. apply (st_at _ _ _ _ _ _ _ _ _ ST).
    + apply (ai_ext s5 (remv (add H tmp) tmp)); [|exact HA5]. intros y. unfold remv, add. split; [intros [Q [Q'|Q']]; [congruence|auto]|].
      intros Q. split; [intros ->; auto|auto].
    + intros y Hy. apply owns_in in Hy. destruct Hy as (j & cj & Hj & Hy). destruct (Nat.eq_dec j i) as [->|Hne].
      * rewrite nth_error_upd_same in Hj by auto. injection Hj as <-. cbn [fst] in Hy. apply in_app_or in Hy. destruct Hy as [Hy|[<-|[]]]; auto.
      * rewrite nth_error_upd_other in Hj by auto. apply Hown. eapply owns_nth; eauto.
    + constructor.
      * rewrite Ef5. rewrite Ec'. apply (fresh_writer crc (fl s4) ents _ e x l0 (ds1 ++ [d]) i); auto.
        -- rewrite nth_error_upd_same by auto. rewrite <- Ec', concat_snoc, <- Hc0. reflexivity.
        -- rewrite El. eapply seg_app; [exact Hseg4|]. rewrite <- (link_sector x) by auto. apply seg_one; auto.
      * apply Forall_forall. intros [w cu] Hinw. pose proof (st_w _ _ _ _ _ _ _ _ _ ST1) as HW. rewrite Forall_forall in HW.
        destruct (HW _ Hinw) as (j & ej & l2 & ds2 & q & A1 & A2 & A3 & A4 & A5 & A6).
        assert (Hj : j <> i). { intros ->. apply (Hw w cu Hinw). congruence. }
        assert (Hsm : forall y, In y (l2 ++ [w_sec w]) -> sector_same (fl s1) (fl s5) y).
        { intros y Hy. rewrite Ef5. apply Y4.
          - intros ->. apply Hnt. eapply owns_nth; eauto.
          - intros ->. apply (nodup_diff C j i _ (l0, c0) cur (dk_nodup _ _ _ _ _ _ _ Dk) Hj A2 Hc Hy). cbn [fst]. rewrite El. apply in_or_app; right; left; auto. }
        exists j, ej, l2, ds2, q. rewrite nth_error_upd_other by auto. split; [auto|]. split; [auto|]. split; [auto|]. split; [|split; [|auto]].
        -- eapply seg_same; [exact A4|]. intros y Hy. apply Hsm. apply in_or_app; auto.
        -- eapply wrep_same; [exact A5|]. apply Hsm. apply in_or_app; right; left; auto.
    + cbn [map fst new_writer w_id]. constructor; [|apply (st_ids _ _ _ _ _ _ _ _ _ ST)].
      intros Hinw. apply in_map_iff in Hinw. destruct Hinw as ([w cu] & Ew & Hinw). apply (Hw w cu Hinw). exact Ew.
  - eapply traced_weaken; [|exact T5]. intros f' [A B]. apply A. exact B.
  - split; [intros a Ha; rewrite Ef5, X4, Ht1; auto|]. intros j cj y Hj Hcj Hy a Ha.
    assert (Hoy : owns C y) by (eapply owns_nth; eauto).
    transitivity (fl s1 a); [|exact (Hs1 y (Hown y Hoy) a Ha)].
    rewrite Ef5. apply (Y4 y); [intros ->; exact (Hnt Hoy)| |exact Ha].
    intros ->. apply (nodup_diff C j i cj (l0, c0) cur (dk_nodup _ _ _ _ _ _ _ Dk) Hj Hcj Hc Hy). cbn [fst]. rewrite El. apply in_or_app; right; left; auto.
Qed.
End S.

(** * Writing file data: pages, sectors, crash states *)
From Verif Require Import Base Majority Flash FS Sectors SectorsProofs ATable TornCode TableCode TableBuild TableOps DirOps Chains FileIO FileFormat.
Local Open Scope N_scope.
Local Open Scope fs_scope.

(** ** One page *)
(** the 256 bytes at [a] are [P] followed by 0xFF *)
Definition page_is (f : flash) (a : N) (P : list byte) : Prop :=
  forall i, (i < 256)%nat -> f (a + N.of_nat i) = nth i P 255.

Lemma nth_repeat_255 n i : nth i (repeat 255 n) 255 = 255.
Proof. revert i. induction n; intros [|i]; cbn; auto. Qed.

Lemma page_is_pad f a P n : page_is f a P -> page_is f a (P ++ repeat 255 n).
Proof.
  intros H i Hi. rewrite H by auto. destruct (Nat.lt_ge_cases i (length P)).
  - rewrite app_nth1; auto.
  - rewrite app_nth2, nth_repeat_255, nth_overflow; auto.
Qed.

Lemma rd_page f a P i n : page_is f a P -> length P = 256%nat -> (i + n <= 256)%nat ->
  rd f (a + N.of_nat i) n = firstn n (skipn i P).
Proof.
  intros H HP Hn. apply nth_ext with 255 255.
  - rewrite rd_length, firstn_length, skipn_length. lia.
  - rewrite rd_length. intros k Hk. rewrite rd_nth by auto.
    rewrite nth_firstn_lt by auto. rewrite nth_skipn. rewrite <- H by lia. f_equal. lia.
Qed.

Lemma prog_at f a d x : apply_op f (Prog a d) x = if (a <=? x) && (x <? a + N.of_nat (length d))
                         then N.land (f x) (nth (N.to_nat (x - a)) d 255) else f x.
Proof. reflexivity. Qed.

Lemma bytes_ok_nth d i : bytes_ok d -> byte_ok (nth i d 255).
Proof.
  intros H. destruct (Nat.lt_ge_cases i (length d)).
  - unfold bytes_ok in H. rewrite Forall_forall in H. apply H, nth_In; auto.
  - rewrite nth_overflow by auto. unfold byte_ok. lia.
Qed.

Lemma prog_page f a P : page_is f a [] -> bytes_ok P -> page_is (apply_op f (Prog a P)) a P.
Proof.
  intros H Ho i Hi. rewrite prog_at. specialize (H i Hi). destruct i as [|i'] eqn:Ei; [cbn [nth] in H|cbn [nth] in H]; rewrite <- Ei in *.
  all: destruct (N.leb_spec a (a + N.of_nat i)); [|lia].
  all: destruct (N.ltb_spec (a + N.of_nat i) (a + N.of_nat (length P))); cbn [andb]; rewrite H.
  all: try (replace (N.to_nat (a + N.of_nat i - a)) with i by lia; apply land_255, bytes_ok_nth; auto).
  all: rewrite nth_overflow by lia; reflexivity.
Qed.

Lemma prog_outside f a P x : x < a \/ a + N.of_nat (length P) <= x -> apply_op f (Prog a P) x = f x.
Proof.
  intros H. rewrite prog_at. destruct (N.leb_spec a x), (N.ltb_spec x (a + N.of_nat (length P))); cbn [andb]; auto; lia.
Qed.

Lemma bytes_ok_firstn n P : bytes_ok P -> bytes_ok (firstn n P).
Proof. unfold bytes_ok. rewrite !Forall_forall. intros H x Hx. apply H. rewrite <- (firstn_skipn n P). apply in_or_app; auto. Qed.

(** ** Buffers *)
Lemma splice_app (pre mid post data : list byte) off : length pre = off -> length mid = length data ->
  splice (pre ++ mid ++ post) off data = pre ++ data ++ post.
Proof.
  intros H1 H2. unfold splice. rewrite firstn_app_exact by auto. f_equal. f_equal.
  rewrite app_assoc, skipn_app, skipn_all2 by (rewrite app_length; lia). rewrite app_length.
  replace (off + length data - (length pre + length mid))%nat with 0%nat by lia. reflexivity.
Qed.

Lemma repeat_split {A} (x : A) a b n : n = (a + b)%nat -> repeat x n = repeat x a ++ repeat x b.
Proof. intros ->. apply repeat_app. Qed.

Definition blanked (b : list byte) : list byte := b ++ repeat 255 (256 - length b).

Lemma blanked_append b slice : (length b + length slice <= 256)%nat ->
  splice (blanked b) (length b) slice = blanked (b ++ slice).
Proof.
  intros H. unfold blanked. rewrite (repeat_split 255 (length slice) (256 - length b - length slice)) by lia.
  rewrite splice_app; [|auto|rewrite repeat_length; auto]. rewrite <- app_assoc, app_length. do 3 f_equal. lia.
Qed.

Section W.
Variable crc : list byte -> N.
Hypothesis crc_bound : crc32 crc.

Definition sealed (b : list byte) : list byte := (b ++ padding b) ++ be_bytes 4 (crc (b ++ padding b)).
(** a page of data, without the sector fields *)
Definition data_page (b : list byte) : list byte := sealed b ++ repeat 255 (256 - length (sealed b)).
(** the last page of a sector: data and fields / only fields *)
Definition end_page (b : list byte) (v n : N) : list byte :=
  sealed b ++ repeat 255 (240 - length (sealed b)) ++ u16x4 v ++ u16x4 n.
Definition tail_page (v n : N) : list byte := repeat 255 240 ++ u16x4 v ++ u16x4 n.

Lemma sealed_length b : length (sealed b) = (N.to_nat (pad4 (N.of_nat (length b))) + 4)%nat.
Proof. unfold sealed. rewrite app_length, padded_length, be_bytes_length. reflexivity. Qed.

Lemma u16x4_ok v : bytes_ok (u16x4 v).
Proof. unfold u16x4. repeat (apply Forall_app; split); apply be_bytes_ok. Qed.
Lemma repeat_ok n : bytes_ok (repeat 255 n).
Proof. induction n; cbn [repeat]; constructor; auto. unfold byte_ok. lia. Qed.
Lemma sealed_ok b : bytes_ok b -> bytes_ok (sealed b).
Proof. intros H. unfold sealed, padding. repeat (apply Forall_app; split); auto; [apply repeat_ok|apply be_bytes_ok]. Qed.
Lemma data_page_ok b : bytes_ok b -> bytes_ok (data_page b).
Proof. intros H. unfold data_page. apply Forall_app; split; [apply sealed_ok; auto|apply repeat_ok]. Qed.
Lemma end_page_ok b v n : bytes_ok b -> bytes_ok (end_page b v n).
Proof.
  intros H. unfold end_page. apply Forall_app; split; [apply sealed_ok; auto|].
  apply Forall_app; split; [apply repeat_ok|]. apply Forall_app; split; apply u16x4_ok.
Qed.
Lemma tail_page_ok v n : bytes_ok (tail_page v n).
Proof. unfold tail_page. apply Forall_app; split; [apply repeat_ok|]. apply Forall_app; split; apply u16x4_ok. Qed.

Lemma seal_buffer b o post : (length b <= 252)%nat -> o = N.to_nat (pad4 (N.of_nat (length b))) ->
  let buf := (b ++ padding b) ++ repeat 255 4 ++ post in
  splice buf o (be_bytes 4 (crc (firstn o buf))) = sealed b ++ post.
Proof.
  intros Hb Ho buf. unfold buf. rewrite firstn_app_exact by (rewrite padded_length; auto).
  rewrite splice_app; [|rewrite padded_length; auto|rewrite be_bytes_length; reflexivity].
  unfold sealed. rewrite <- !app_assoc. reflexivity.
Qed.

Lemma pad_le (b : list byte) : (length b <= 252)%nat -> (N.to_nat (pad4 (N.of_nat (length b))) <= 252)%nat.
Proof. intros H. pose proof (pad4_le (N.of_nat (length b)) 63). lia. Qed.
Lemma pad_le_last (b : list byte) : (length b <= 236)%nat -> (N.to_nat (pad4 (N.of_nat (length b))) <= 236)%nat.
Proof. intros H. pose proof (pad4_le (N.of_nat (length b)) 59). lia. Qed.

Lemma blanked_split b tail : (length b <= 252)%nat -> (N.to_nat (pad4 (N.of_nat (length b))) + 4 + tail = 256)%nat ->
  blanked b = (b ++ padding b) ++ repeat 255 4 ++ repeat 255 tail.
Proof.
  intros Hb Ht. unfold blanked, padding. pose proof (pad4_bounds (N.of_nat (length b))).
  rewrite (repeat_split 255 (N.to_nat (pad4 (N.of_nat (length b)) - N.of_nat (length b))) (4 + tail)) by lia.
  rewrite (repeat_split 255 4 tail (4 + tail)) by lia. rewrite <- app_assoc. reflexivity.
Qed.

Lemma data_page_buffer b o : (length b <= 252)%nat -> o = N.to_nat (pad4 (N.of_nat (length b))) ->
  splice (blanked b) o (be_bytes 4 (crc (firstn o (blanked b)))) = data_page b.
Proof.
  intros Hb Ho. pose proof (pad_le b Hb). rewrite (blanked_split b (252 - o)) by lia.
  rewrite seal_buffer by auto. unfold data_page. rewrite sealed_length. do 2 f_equal. lia.
Qed.

Lemma fields_buffer b v n : (length b <= 240)%nat ->
  splice (splice (blanked b) 240 (u16x4 v)) 248 (u16x4 n) = b ++ repeat 255 (240 - length b) ++ u16x4 v ++ u16x4 n.
Proof.
  intros Hb. unfold blanked.
  rewrite (repeat_split 255 (240 - length b) 16) by lia. rewrite (repeat_split 255 8 8 16) by lia.
  rewrite !app_assoc, <- (app_assoc (b ++ _)). rewrite splice_app; [|rewrite app_length, repeat_length; lia|reflexivity].
  rewrite app_assoc. rewrite <- (app_nil_r (repeat 255 8)).
  rewrite splice_app; [rewrite app_nil_r; rewrite <- !app_assoc; reflexivity| |reflexivity].
  rewrite !app_length, repeat_length, u16x4_length. lia.
Qed.

Lemma end_page_buffer b v n o : (length b <= 236)%nat -> o = N.to_nat (pad4 (N.of_nat (length b))) ->
  let buf := b ++ repeat 255 (240 - length b) ++ u16x4 v ++ u16x4 n in
  splice buf o (be_bytes 4 (crc (firstn o buf))) = end_page b v n.
Proof.
  intros Hb Ho buf. pose proof (pad_le_last b Hb) as Hp. pose proof (pad4_bounds (N.of_nat (length b))).
  assert (E : buf = (b ++ padding b) ++ repeat 255 4 ++ (repeat 255 (236 - o) ++ u16x4 v ++ u16x4 n)).
  { unfold buf, padding. rewrite (repeat_split 255 (N.to_nat (pad4 (N.of_nat (length b)) - N.of_nat (length b))) (4 + (236 - o))) by lia.
    rewrite (repeat_split 255 4 (236 - o) (4 + (236 - o))) by lia. rewrite <- !app_assoc. reflexivity. }
  rewrite E, seal_buffer by (auto; lia). unfold end_page. rewrite sealed_length. do 3 f_equal. lia.
Qed.

Lemma tail_page_buffer v n : splice (splice blank_page 240 (u16x4 v)) 248 (u16x4 n) = tail_page v n.
Proof. change blank_page with (blanked []). rewrite fields_buffer by (cbn; lia). reflexivity. Qed.

Lemma data_page_length b : (length b <= 252)%nat -> length (data_page b) = 256%nat.
Proof. intros H. pose proof (pad_le b H). unfold data_page. rewrite app_length, repeat_length, sealed_length. lia. Qed.
Lemma end_page_length b v n : (length b <= 236)%nat -> length (end_page b v n) = 256%nat.
Proof. intros H. pose proof (pad_le_last b H). unfold end_page. rewrite !app_length, repeat_length, sealed_length, !u16x4_length. lia. Qed.
Lemma tail_page_length v n : length (tail_page v n) = 256%nat.
Proof. reflexivity. Qed.

(** a page starting with sealed data holds it *)
Lemma sealed_page_holds f x k (b post : list byte) : (length b <= 252)%nat -> length (sealed b ++ post) = 256%nat ->
  page_is f (x * SECTOR_SIZE + 256 * k) (sealed b ++ post) -> page_holds crc f x k b.
Proof.
  intros Hb Hl H. pose proof (pad_le b Hb) as Hp. pose proof (padded_length b) as Hpl. split.
  - replace (x * SECTOR_SIZE + 256 * k) with (x * SECTOR_SIZE + 256 * k + N.of_nat 0) by lia.
    rewrite (rd_page f _ _ 0 _ H Hl) by lia. cbn [skipn]. unfold sealed. rewrite <- !app_assoc.
    rewrite app_assoc. apply firstn_app_exact. reflexivity.
  - rewrite (rd_page f _ _ _ 4 H Hl) by lia. unfold sealed. rewrite <- app_assoc.
    rewrite skipn_app, skipn_all, Nat.sub_diag. cbn [skipn app]. rewrite firstn_app_exact by (rewrite be_bytes_length; reflexivity).
    apply of_be_be_bytes_id. apply crc_bound.
Qed.

(** ** Reading the two fields back, completely written or torn *)
Lemma torn_u16x4 v j : v < 65536 ->
  (find_most_common_u16_out_of_4 (firstn j (u16x4 v) ++ repeat 255 (8 - j)) = Some 65535 /\ (j < 4)%nat) \/
  (find_most_common_u16_out_of_4 (firstn j (u16x4 v) ++ repeat 255 (8 - j)) = Some v /\ (1 <= j)%nat).
Proof.
  intros Hv. unfold u16x4.
  assert (He : exists p q, be_bytes 2 v = [p; q]) by (cbn [be_bytes]; eauto).
  assert (Ev : of_be (be_bytes 2 v) = v) by (apply of_be_be_bytes_id; exact Hv).
  destruct He as (p & q & He). rewrite He in *. clear He Hv.
  unfold find_most_common_u16_out_of_4.
  destruct j as [|[|[|[|j]]]].
  - left. split; [reflexivity|lia].
  - cbn -[of_be]. unfold find_most_common. change (of_be [255; 255]) with 65535. rewrite !N.eqb_refl.
    destruct (N.eqb_spec (of_be [p; 255]) 65535) as [->|_]; left; (split; [reflexivity|lia]).
  - cbn -[of_be]. unfold find_most_common. rewrite Ev. change (of_be [255; 255]) with 65535. rewrite !N.eqb_refl.
    destruct (N.eqb_spec v 65535) as [->|_]; [right|left]; (split; [reflexivity|lia]).
  - cbn -[of_be]. unfold find_most_common. rewrite Ev. change (of_be [255; 255]) with 65535. rewrite !N.eqb_refl.
    destruct (N.eqb_spec v (of_be [p; 255])); [right; split; [reflexivity|lia]|].
    destruct (N.eqb_spec v 65535) as [->|_]; [right; split; [reflexivity|lia]|].
    destruct (N.eqb_spec (of_be [p; 255]) 65535) as [->|_]; left; (split; [reflexivity|lia]).
  - right. split; [|lia]. destruct j as [|[|[|[|j]]]]; cbn -[of_be]; rewrite ?firstn_nil; cbn -[of_be]; rewrite Ev;
      unfold find_most_common; rewrite N.eqb_refl; reflexivity.
Qed.

Lemma firstn_repeat_255 a b : firstn a (repeat 255 b) = repeat 255 (Nat.min a b).
Proof. revert b. induction a; intros [|b]; cbn; auto. f_equal. apply IHa. Qed.
Lemma skipn_repeat_255 a b : skipn a (repeat 255 b) = repeat 255 (b - a).
Proof. revert b. induction a; intros [|b]; cbn; auto. Qed.

Lemma torn_first8 (U V : list byte) j : length U = 8%nat -> length V = 8%nat ->
  firstn 8 (firstn j (U ++ V) ++ repeat 255 (16 - j)) = firstn j U ++ repeat 255 (8 - j).
Proof.
  intros HU HV. rewrite firstn_app, firstn_firstn, firstn_length, app_length, HU, HV, firstn_repeat_255.
  destruct (Nat.le_gt_cases j 8).
  - rewrite Nat.min_r by lia. rewrite firstn_app, HU. replace (j - 8)%nat with 0%nat by lia. rewrite firstn_O, app_nil_r.
    f_equal. f_equal. lia.
  - rewrite Nat.min_l by lia. rewrite firstn_app, HU, Nat.sub_diag, firstn_O, app_nil_r, !firstn_all2 by lia.
    f_equal. f_equal. lia.
Qed.
Lemma torn_second8 (U V : list byte) j : length U = 8%nat -> length V = 8%nat ->
  skipn 8 (firstn j (U ++ V) ++ repeat 255 (16 - j)) = firstn (j - 8) V ++ repeat 255 (8 - (j - 8)).
Proof.
  intros HU HV. rewrite skipn_app, firstn_length, app_length, HU, HV, skipn_repeat_255, firstn_app, HU.
  rewrite skipn_app, firstn_length, HU. destruct (Nat.le_gt_cases j 8).
  - replace (j - 8)%nat with 0%nat by lia. rewrite !firstn_O, skipn_nil, app_nil_r.
    rewrite skipn_all2 by (rewrite firstn_length; lia). cbn [app]. f_equal. lia.
  - rewrite (firstn_all2 U) by lia. rewrite (skipn_all2 U) by lia. cbn [app].
    replace (8 - Nat.min j 8)%nat with 0%nat by lia. cbn [skipn]. f_equal. f_equal. lia.
Qed.

(** ** Finishing a sector *)
Lemma finish_torn f x d n A j : data_sector x -> N.of_nat (length d) <= 4016 -> n < 65536 ->
  bytes_ok A -> length A = 240%nat ->
  (3780 < N.of_nat (length d) -> exists post, A = sealed (chunk d 15) ++ post) ->
  (forall k, k < 15 -> 252 * k < N.of_nat (length d) -> page_holds crc f x k (chunk d k)) ->
  page_is f (x * SECTOR_SIZE + 3840) [] ->
  let P := A ++ u16x4 (N.of_nat (length d)) ++ u16x4 n in
  let g := apply_op f (Prog (x * SECTOR_SIZE + 3840) (firstn j P)) in
  (sec_holds crc g x [] 65535 /\ (j < 256)%nat) \/ (sec_holds crc g x d 65535 /\ (j < 256)%nat) \/ sec_holds crc g x d n.
Proof.
  intros Hx Hd Hn HA HlA Hend Hpages Hblank P g.
  set (v := N.of_nat (length d)) in *.
  assert (HlP : length P = 256%nat) by (unfold P; rewrite !app_length, !u16x4_length; lia).
  assert (HoP : bytes_ok P).
  { unfold P. apply Forall_app; split; [auto|]. apply Forall_app; split; apply u16x4_ok. }
  set (jj := Nat.min j 256). assert (Ej : firstn j P = firstn jj P).
  { unfold jj. destruct (Nat.le_gt_cases j 256); [rewrite Nat.min_l by lia; auto|]. rewrite Nat.min_r, !firstn_all2 by lia. auto. }
  set (P' := firstn jj P ++ repeat 255 (256 - jj)).
  assert (HlP' : length P' = 256%nat) by (unfold P'; rewrite app_length, firstn_length, repeat_length; lia).
  assert (Hg : page_is g (x * SECTOR_SIZE + 3840) P').
  { unfold P'. apply page_is_pad. unfold g. rewrite Ej. apply prog_page; [auto|]. apply bytes_ok_firstn; auto. }
  assert (Hout : forall y, y < x * SECTOR_SIZE + 3840 -> g y = f y).
  { intros y Hy. unfold g. apply prog_outside. left; auto. }
  assert (HP' : forall a, (240 <= a <= 256)%nat -> (a <= jj)%nat -> firstn a P' = firstn a P).
  { intros a Ha Hj'. unfold P'. rewrite firstn_app, firstn_firstn, firstn_length, HlP, Nat.min_l by lia.
    replace (a - Nat.min jj 256)%nat with 0%nat by lia. rewrite firstn_O, app_nil_r. reflexivity. }
  (* pages before the last are unchanged *)
  assert (Hlow : forall k, k < 15 -> 252 * k < v -> page_holds crc g x k (chunk d k)).
  { intros k Hk Hkd. destruct (Hpages k Hk Hkd) as [Q1 Q2].
    pose proof (chunk_length d k) as Hcl. pose proof (pad_le (chunk d k) ltac:(lia)). pose proof (padded_length (chunk d k)).
    split; [etransitivity; [|exact Q1]|etransitivity; [|exact Q2]; f_equal]; apply rd_ext; intros i Hi; apply Hout; lia. }
  assert (Elen : sec_len g x = find_most_common_u16_out_of_4 (firstn 8 (skipn 240 P'))).
  { unfold sec_len. replace (x * SECTOR_SIZE + SECTOR_SIZE - 16) with (x * SECTOR_SIZE + 3840 + N.of_nat 240) by (unfold SECTOR_SIZE; lia).
    rewrite (rd_page g _ P' 240 8 Hg HlP') by lia. reflexivity. }
  assert (Enext : next_sector_at g x = find_most_common_u16_out_of_4 (skipn 8 (skipn 240 P'))).
  { unfold next_sector_at. replace (x * SECTOR_SIZE + SECTOR_SIZE - 8) with (x * SECTOR_SIZE + 3840 + N.of_nat 248) by (unfold SECTOR_SIZE; lia).
    rewrite (rd_page g _ P' 248 8 Hg HlP') by lia. rewrite skipn_skipn_add.
    rewrite firstn_all2; [reflexivity|]. rewrite skipn_length. lia. }
  assert (Etail : skipn 240 P' = firstn (jj - 240) (u16x4 v ++ u16x4 n) ++ repeat 255 (16 - (jj - 240))).
  { unfold P'. rewrite skipn_app, firstn_length, HlP. unfold P. rewrite firstn_app, HlA.
    destruct (Nat.le_gt_cases jj 240).
    - replace (jj - 240)%nat with 0%nat by lia. rewrite firstn_O, app_nil_r.
      rewrite skipn_all2 by (rewrite firstn_length; lia). rewrite skipn_repeat_255. cbn [firstn app]. f_equal. lia.
    - rewrite (firstn_all2 A) by lia. rewrite skipn_app, HlA, Nat.sub_diag, (skipn_all2 A) by lia. cbn [app skipn].
      replace (240 - Nat.min jj 256)%nat with 0%nat by lia. cbn [skipn]. f_equal. f_equal. lia. }
  rewrite Etail in Elen, Enext.
  rewrite torn_first8 in Elen by reflexivity. rewrite torn_second8 in Enext by reflexivity.
  assert (Hv : v < 65536) by lia.
  assert (Hraw : exists u j, u < 65536 /\ rd g (x * SECTOR_SIZE + SECTOR_SIZE - 16) 8 = cut_field u j).
  { exists v, (jj - 240)%nat. split; [auto|]. unfold cut_field. rewrite <- (torn_first8 (u16x4 v) (u16x4 n)) by reflexivity. rewrite <- Etail.
    replace (x * SECTOR_SIZE + SECTOR_SIZE - 16) with (x * SECTOR_SIZE + 3840 + N.of_nat 240) by (unfold SECTOR_SIZE; lia).
    apply (rd_page g _ P' 240 8 Hg HlP'). lia. }
  (* data complete when the length field resolves to v *)
  assert (Hfull : (241 <= jj)%nat -> forall m, next_sector_at g x = Some m -> sec_len g x = Some v -> sec_holds crc g x d m).
  { intros Hj241 m Hm Hl. constructor; [exists v; split; [auto|left; auto]|auto|exact Hraw|].
    intros k Hk. destruct (N.lt_ge_cases k 15) as [Hk15|Hk15]; [apply Hlow; auto|].
    assert (k = 15) as -> by lia. destruct Hend as (post & EA); [lia|].
    pose proof (chunk_length d 15) as Hcl.
    assert (EP : P' = sealed (chunk d 15) ++ (post ++ skipn 240 P')).
    { rewrite app_assoc, <- EA. rewrite <- (firstn_skipn 240 P') at 1. f_equal. rewrite HP' by lia.
      unfold P. apply firstn_app_exact. auto. }
    apply (sealed_page_holds g x 15 (chunk d 15) (post ++ skipn 240 P')); [lia| |].
    - rewrite <- EP. auto.
    - rewrite <- EP. exact Hg. }
  destruct (torn_u16x4 v (jj - 240) Hv) as [[E1 J1]|[E1 J1]]; rewrite E1 in Elen.
  - destruct (torn_u16x4 n (jj - 240 - 8) Hn) as [[E2 J2]|[E2 J2]]; [|lia]. rewrite E2 in Enext.
    left. split; [|lia]. constructor.
    + exists 65535. split; [auto|right; auto].
    + auto.
    + exact Hraw.
    + cbn [length]. intros k Hk. lia.
  - destruct (torn_u16x4 n (jj - 240 - 8) Hn) as [[E2 J2]|[E2 J2]]; rewrite E2 in Enext.
    + right; left. split; [|lia]. apply Hfull; auto. lia.
    + right; right. apply Hfull; auto. lia.
Qed.

(** ** The writer and its sector *)
Record WRep (f : flash) (w : writer) (cur : list byte) (q : N) : Prop := {
  wr_len : w_len w = N.of_nat (length cur);
  wr_q : q <= 15 /\ 252 * q <= N.of_nat (length cur) /\
         (q < 15 -> N.of_nat (length cur) <= 252 * q + 252) /\ N.of_nat (length cur) <= 4016;
  wr_off : w_off w = (length cur - N.to_nat (252 * q))%nat;
  wr_buf : w_buf w = blanked (skipn (N.to_nat (252 * q)) cur);
  wr_ok : bytes_ok cur;
  wr_sec : data_sector (w_sec w);
  wr_pages : forall k, k < q -> page_holds crc f (w_sec w) k (chunk cur k);
  wr_rest : forall a, w_sec w * SECTOR_SIZE + 256 * q <= a < (w_sec w + 1) * SECTOR_SIZE -> f a = 255 }.

Lemma erased_unfinished f x : page_is f (x * SECTOR_SIZE + 3840) [] -> sec_holds crc f x [] 65535.
Proof.
  intros H. assert (H' : page_is f (x * SECTOR_SIZE + 3840) ([] ++ repeat 255 256)) by (apply page_is_pad; auto).
  cbn [app] in H'. constructor.
  - exists 65535. split; [|right; auto]. unfold sec_len.
    replace (x * SECTOR_SIZE + SECTOR_SIZE - 16) with (x * SECTOR_SIZE + 3840 + N.of_nat 240) by (unfold SECTOR_SIZE; lia).
    rewrite (rd_page f _ _ 240 8 H') by (rewrite ?repeat_length; lia). reflexivity.
  - unfold next_sector_at.
    replace (x * SECTOR_SIZE + SECTOR_SIZE - 8) with (x * SECTOR_SIZE + 3840 + N.of_nat 248) by (unfold SECTOR_SIZE; lia).
    rewrite (rd_page f _ _ 248 8 H') by (rewrite ?repeat_length; lia). reflexivity.
  - exists 0, 0%nat. split; [lia|].
    replace (x * SECTOR_SIZE + SECTOR_SIZE - 16) with (x * SECTOR_SIZE + 3840 + N.of_nat 240) by (unfold SECTOR_SIZE; lia).
    rewrite (rd_page f _ _ 240 8 H') by (rewrite ?repeat_length; lia). reflexivity.
  - cbn [length]. intros k Hk. lia.
Qed.

Lemma wrep_blank f w cur q k : WRep f w cur q -> q <= k -> k <= 15 -> page_is f (w_sec w * SECTOR_SIZE + 256 * k) [].
Proof.
  intros H Hq Hk i Hi. rewrite (wr_rest _ _ _ _ H) by (unfold SECTOR_SIZE; lia). destruct i; reflexivity.
Qed.

Lemma wrep_unfinished f w cur q : WRep f w cur q -> sec_holds crc f (w_sec w) [] 65535.
Proof.
  intros H. apply erased_unfinished. pose proof (wr_q _ _ _ _ H).
  replace (w_sec w * SECTOR_SIZE + 3840) with (w_sec w * SECTOR_SIZE + 256 * 15) by lia.
  apply (wrep_blank f w cur q); auto; lia.
Qed.

Lemma new_writer_rep f x id : data_sector x -> sector_erased f x -> WRep f (new_writer x id) [] 0.
Proof.
  intros Hx He. constructor; cbn [new_writer w_len w_off w_buf w_sec length]; auto.
  - lia.
  - constructor.
  - intros k Hk. lia.
  - intros a Ha. apply He. unfold SECTOR_SIZE in *. lia.
Qed.

Lemma wrep_same f g w cur q : WRep f w cur q -> sector_same f g (w_sec w) -> WRep g w cur q.
Proof.
  intros H Hs. destruct H. constructor; auto.
  - intros k Hk. apply (page_holds_same crc f g); auto; [lia|]. rewrite chunk_length. lia.
  - intros a Ha. transitivity (f a); [apply Hs; unfold SECTOR_SIZE in *; lia|apply wr_rest0; auto].
Qed.
End W.

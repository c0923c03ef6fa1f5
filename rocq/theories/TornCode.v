(** * A partially programmed code block never changes the two type bytes it carries. *)
From Verif Require Import Base Hamming HammingProofs.

(** First [k] bytes of a block programmed, the rest still erased. *)
Definition torn_block (k : nat) (bs : list byte) : list byte := firstn k bs ++ repeat 255%N (length bs - k).

Lemma xs_testbit t idxs b :
  N.testbit (xs idxs b) t = px (filter (fun i => N.testbit (N.of_nat i) t) idxs) b.
Proof.
  induction idxs as [|i l IH]; [apply N.bits_0|].
  cbn [xs fold_right filter]. fold (xs l b). rewrite N.lxor_spec, IH.
  destruct (nth i b false) eqn:E; destruct (N.testbit (N.of_nat i) t) eqn:T;
    cbn [px fold_right]; fold (px (filter (fun i => N.testbit (N.of_nat i) t) l) b);
    rewrite ?E, ?N.bits_0, ?xorb_false_l; try rewrite T; reflexivity.
Qed.

Lemma px_ext idxs b b' : (forall i, In i idxs -> nth i b false = nth i b' false) -> px idxs b = px idxs b'.
Proof.
  induction idxs as [|i l IH]; intros H; [reflexivity|]. cbn [px fold_right]. fold (px l b) (px l b').
  rewrite (H i) by (left; auto). rewrite IH; [reflexivity|]. intros; apply H; right; auto.
Qed.

Lemma px_app l1 l2 b : px (l1 ++ l2) b = xorb (px l1 b) (px l2 b).
Proof.
  induction l1 as [|i l IH]; cbn [app px fold_right]; [rewrite xorb_false_l; reflexivity|].
  fold (px (l ++ l2) b) (px l b). rewrite IH, xorb_assoc. reflexivity.
Qed.

Definition idx16 : list nat := [3;5;6;7;9;10;11;12;13;14;15;17;18;19;20;21].

Lemma unpack16 b : length b = 104 -> firstn 16 (unpack_bits b) = map (fun i => nth i b false) idx16.
Proof.
  intros H. do 104 (destruct b as [|? b]; [discriminate H|]).
  destruct b; [|discriminate H]. clear H. vm_compute. reflexivity.
Qed.

Section Torn.
  Variables (c c' : list bool) (m : nat).
  Hypotheses (Hl : length c = 104) (Hl' : length c' = 104)
             (Hlow : forall i, i < m -> nth i c' false = nth i c false)
             (Hhigh : forall i, m <= i < 104 -> nth i c' false = true)
             (Hsyn : syn c = 0%N) (Hw : whole_parity c 0 = false).

  Lemma ones_px idxs : (forall i, In i idxs -> m <= i < 104) -> px idxs c' = Nat.odd (length idxs).
  Proof.
    induction idxs as [|i l IH]; intros H; [reflexivity|]. cbn [px fold_right length]. fold (px l c').
    rewrite (Hhigh i) by (apply H; left; auto). rewrite IH by (intros; apply H; right; auto).
    rewrite Nat.odd_succ, <- Nat.negb_odd. reflexivity.
  Qed.

  Lemma syn_bit t b : N.testbit (syn b) t
    = xorb (N.testbit 127 t) (px (filter (fun i => N.testbit (N.of_nat i) t) (seq 1 103)) b).
  Proof. unfold syn. rewrite N.lxor_spec, xs_testbit. reflexivity. Qed.

  Lemma bit6_ge b : N.testbit (syn b) 6 = true -> (64 <= syn b)%N.
  Proof.
    intros H. assert (Hs : (syn b < 128)%N) by apply syn_lt.
    destruct (N.le_gt_cases 64 (syn b)) as [Hge|Hlt]; [auto|]. exfalso.
    assert (G : negb (N.testbit (syn b) 6) || negb (syn b <? 64)%N = true).
    { apply (sweep128 (fun s => negb (N.testbit s 6) || negb (s <? 64)%N)); [vm_compute; reflexivity|auto]. }
    rewrite H in G. apply N.ltb_lt in Hlt. rewrite Hlt in G. discriminate.
  Qed.

  Lemma torn_low : m <= 64 -> (64 <= syn c')%N.
  Proof.
    intros Hm. apply bit6_ge. rewrite syn_bit.
    change (filter (fun i => N.testbit (N.of_nat i) 6) (seq 1 103)) with (seq 64 40).
    rewrite ones_px; [reflexivity|]. intros i Hi. apply in_seq in Hi. lia.
  Qed.

  Lemma torn_verylow : m <= 16 -> (104 <= syn c')%N.
  Proof.
    intros Hm.
    assert (H6 : N.testbit (syn c') 6 = true).
    { rewrite syn_bit.
      change (filter (fun i => N.testbit (N.of_nat i) 6) (seq 1 103)) with (seq 64 40).
      rewrite ones_px; [reflexivity|]. intros i Hi. apply in_seq in Hi. lia. }
    assert (H5 : N.testbit (syn c') 5 = true).
    { rewrite syn_bit.
      change (filter (fun i => N.testbit (N.of_nat i) 5) (seq 1 103)) with (seq 32 32 ++ seq 96 8).
      rewrite ones_px; [reflexivity|]. intros i Hi. apply in_app_iff in Hi. rewrite !in_seq in Hi. lia. }
    assert (H4 : N.testbit (syn c') 4 = true).
    { rewrite syn_bit.
      change (filter (fun i => N.testbit (N.of_nat i) 4) (seq 1 103)) with (seq 16 16 ++ seq 48 16 ++ seq 80 16).
      rewrite ones_px; [reflexivity|]. intros i Hi. rewrite !in_app_iff, !in_seq in Hi. lia. }
    assert (Hs : (syn c' < 128)%N) by apply syn_lt.
    destruct (N.le_gt_cases 104 (syn c')) as [Hge|Hlt]; [auto|]. exfalso.
    assert (G : negb (N.testbit (syn c') 6) || negb (N.testbit (syn c') 5) || negb (N.testbit (syn c') 4)
                || negb (syn c' <? 104)%N = true).
    { apply (sweep128 (fun s => negb (N.testbit s 6) || negb (N.testbit s 5) || negb (N.testbit s 4) || negb (s <? 104)%N));
        [vm_compute; reflexivity|auto]. }
    rewrite H6, H5, H4 in G. apply N.ltb_lt in Hlt. rewrite Hlt in G. discriminate.
  Qed.

  Lemma torn_high : 64 <= m -> whole_parity c' 0 = true -> (64 <= syn c')%N.
  Proof.
    intros Hm Hp. apply bit6_ge. rewrite syn_bit.
    pose proof (syn_bit 6 c) as S6. rewrite Hsyn, N.bits_0 in S6.
    change (filter (fun i => N.testbit (N.of_nat i) 6) (seq 1 103)) with (seq 64 40) in *.
    rewrite whole_parity_px in Hw, Hp.
    change (seq 0 (104 - 0)) with (seq 0 64 ++ seq 64 40) in *.
    rewrite px_app in Hw, Hp.
    rewrite (px_ext (seq 0 64) c' c) in Hp.
    2:{ intros i Hi. apply in_seq in Hi. apply Hlow. lia. }
    change (N.testbit 127 6) with true in *.
    destruct (px (seq 64 40) c), (px (seq 64 40) c'), (px (seq 0 64) c); cbn in *; congruence.
  Qed.

  Lemma torn_bits r : decode_bits c' = Some r -> 16 < m /\ length r = 104 /\
    firstn 16 r = map (fun i => nth i c' false) idx16.
  Proof.
    unfold decode_bits. rewrite error_index_syn. intros H.
    destruct (Nat.le_gt_cases m 16) as [Hv|Hv].
    { pose proof (torn_verylow Hv) as Hg.
      destruct (N.eqb_spec (syn c') 0) as [E|E]; [lia|].
      destruct (whole_parity c' 0); [|discriminate].
      destruct (N.leb_spec 104 (syn c')); [discriminate|lia]. }
    split; [lia|].
    destruct (N.eqb_spec (syn c') 0) as [E|E].
    { inversion H as [Hr]. split; [apply unpack_length; auto|apply unpack16; auto]. }
    destruct (whole_parity c' 0) eqn:W; [|discriminate].
    destruct (N.leb_spec 104 (syn c')) as [Hb|Hb]; [discriminate|].
    assert (Hge : (64 <= syn c')%N).
    { destruct (Nat.le_gt_cases m 64); [apply torn_low; auto|apply torn_high; [lia|auto]]. }
    inversion H as [Hr].
    assert (Hlu : length (upd c' (N.to_nat (syn c')) (negb (nth (N.to_nat (syn c')) c' false))) = 104)
      by (rewrite upd_length; auto).
    split; [apply unpack_length; auto|].
    rewrite unpack16 by auto. apply map_ext_in. intros i Hi.
    apply nth_upd_other. intros Eq.
    assert (i < 64); [|lia]. clear - Hi. unfold idx16 in Hi. cbn [In] in Hi. lia.
  Qed.
End Torn.

Lemma bits_of_repeat n : bits_of_bytes (repeat 255%N n) = repeat true (8 * n).
Proof.
  induction n as [|n IH]; [reflexivity|]. replace (8 * S n) with (8 + 8 * n) by lia.
  rewrite repeat_app. cbn [repeat]. unfold bits_of_bytes in *. cbn [flat_map]. rewrite IH. reflexivity.
Qed.

Lemma bits_of_firstn k : forall bs, bits_of_bytes (firstn k bs) = firstn (8 * k) (bits_of_bytes bs).
Proof.
  induction k as [|k IH]; intros [|b bs]; try reflexivity.
  - replace (8 * S k) with (8 + 8 * k) by lia. cbn [firstn]. unfold bits_of_bytes. cbn [flat_map].
    fold (bits_of_bytes (firstn k bs)) (bits_of_bytes bs). rewrite IH. reflexivity.
Qed.

Lemma nth_firstn_lt {A} (l : list A) i n d : i < n -> nth i (firstn n l) d = nth i l d.
Proof.
  revert l n. induction i as [|i IH]; intros [|a l] [|n] H; try lia; try reflexivity.
  cbn [firstn nth]. apply IH. lia.
Qed.

(** The key fact about interrupted page programs. *)
Theorem torn_keeps_type d x k d' :
  length d = 12 -> bytes_ok d -> byte_ok x -> k <= 12 ->
  hamming_decode (torn_block k (hamming_encode (d ++ [x]))) = Some d' ->
  firstn 2 d' = firstn 2 d.
Proof.
  intros Hl Hd Hx Hk. destruct (encode_shape d x Hl Hd Hx) as (L & O & E).
  set (w := hamming_encode (d ++ [x])) in *. unfold hamming_decode, torn_block. rewrite L.
  assert (Hb : length (bits_of_bytes (d ++ [x])) = 104).
  { rewrite bits_of_bytes_length, app_length, Hl. reflexivity. }
  set (c := encode_bits (bits_of_bytes (d ++ [x]))) in *.
  set (c' := bits_of_bytes (firstn k w ++ repeat 255%N (13 - k))).
  assert (Ec' : c' = firstn (8 * k) c ++ repeat true (8 * (13 - k))).
  { unfold c', bits_of_bytes. rewrite flat_map_app. fold (bits_of_bytes (firstn k w)) (bits_of_bytes (repeat 255%N (13 - k))).
    rewrite bits_of_firstn, E, bits_of_repeat. reflexivity. }
  assert (Hc : length c = 104) by (apply encode_bits_length; auto).
  assert (Hf : length (firstn (8 * k) c) = 8 * k) by (rewrite firstn_length; lia).
  assert (Hc' : length c' = 104) by (rewrite Ec', app_length, Hf, repeat_length; lia).
  assert (Hlow : forall i, i < 8 * k -> nth i c' false = nth i c false).
  { intros i Hi. rewrite Ec', app_nth1 by lia. apply nth_firstn_lt. lia. }
  assert (Hhigh : forall i, 8 * k <= i < 104 -> nth i c' false = true).
  { intros i Hi. rewrite Ec', app_nth2 by lia. rewrite Hf.
    rewrite (nth_indep _ false true) by (rewrite repeat_length; lia). apply nth_repeat. }
  assert (Hs : syn c = 0%N) by (apply encode_syn; auto).
  assert (Hw : whole_parity c 0 = false) by (apply encode_whole; auto).
  destruct (decode_bits c') as [r|] eqn:Er; [|discriminate]. intros Ed.
  assert (Ed' : d' = firstn 12 (bytes_of_bits r)) by congruence. subst d'. clear Ed.
  destruct (torn_bits c c' (8 * k) Hc Hc' Hlow Hhigh Hs Hw r Er) as (Hm & Hr & Hfr).
  rewrite firstn_firstn. change (Nat.min 2 12) with 2.
  rewrite (firstn_bytes_of_bits 13 2) by lia. change (8 * 2) with 16. rewrite Hfr.
  assert (E16 : map (fun i => nth i c' false) idx16 = map (fun i => nth i c false) idx16).
  { apply map_ext_in. intros i Hi. apply Hlow. unfold idx16 in Hi. cbn [In] in Hi. lia. }
  rewrite E16, <- unpack16 by auto.
  replace (firstn 16 (unpack_bits c)) with (firstn 16 (firstn 96 (unpack_bits c))) by (rewrite firstn_firstn; reflexivity).
  unfold c. rewrite unpack_encode by auto. rewrite firstn_firstn. change (Nat.min 16 96) with 16.
  change 16 with (8 * 2). rewrite <- bits_of_firstn.
  rewrite bytes_of_bits_of_bytes.
  - rewrite firstn_app. rewrite Hl. cbn [Nat.sub firstn]. rewrite app_nil_r. reflexivity.
  - rewrite firstn_app, Hl. cbn [Nat.sub firstn]. rewrite app_nil_r.
    unfold bytes_ok in *. rewrite Forall_forall in *. intros z Hz. apply Hd. rewrite <- (firstn_skipn 2 d); apply in_app_iff; auto.
Qed.

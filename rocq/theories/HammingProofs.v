(** * Proofs about the SECDED code (Hamming.v). *)
From Verif Require Import Base Hamming.

(** ** Specification vocabulary (independent of the model): physical bit flips. *)
(** bit [n] of a byte string = bit [n mod 8] (LSB first) of byte [n / 8]. *)
Definition flip_bit (n : nat) (bs : list byte) : list byte :=
  upd bs (n / 8) (N.lxor (nth (n / 8) bs 0%N) (2 ^ N.of_nat (n mod 8))).

(** ** XOR sums *)
Definition xs (idxs : list nat) (b : list bool) : N :=
  fold_right (fun i a => N.lxor (if nth i b false then N.of_nat i else 0%N) a) 0%N idxs.
Definition px (idxs : list nat) (b : list bool) : bool :=
  fold_right (fun i a => xorb (nth i b false) a) false idxs.

Definition bits7 (s : N) : list bool :=
  map (fun k => N.testbit s k) [0;1;2;3;4;5;6]%N.

Lemma bits7_lxor s (v : bool) n :
  bits7 (N.lxor s (if v then n else 0%N))
  = map (fun k => if N.testbit n k then xorb (N.testbit s k) v else N.testbit s k) [0;1;2;3;4;5;6]%N.
Proof.
  unfold bits7. apply map_ext. intros k. rewrite N.lxor_spec. destruct v.
  - destruct (N.testbit n k); rewrite ?xorb_false_r; reflexivity.
  - rewrite N.bits_0, !xorb_false_r. destruct (N.testbit n k); reflexivity.
Qed.

Lemma step_if (t : bool) pb p x :
  (if t then upd pb p x else pb) = upd pb p (if t then x else nth p pb false).
Proof.
  destruct t; auto. revert p; induction pb as [|y l IH]; intros [|p]; cbn [upd nth]; auto.
  rewrite <- IH. reflexivity.
Qed.

Lemma fold_left_ext {A B} (f g : A -> B -> A) l : (forall a b, f a b = g a b) ->
  forall a, fold_left f l a = fold_left g l a.
Proof. intros H. induction l as [|x t IH]; intros a; cbn [fold_left]; auto. rewrite H. apply IH. Qed.

Lemma parity_step_spec b s i :
  parity_step b (true :: bits7 s) i
  = true :: bits7 (N.lxor s (if nth i b false then N.of_nat i else 0%N)).
Proof.
  rewrite bits7_lxor. unfold parity_step.
  generalize (N.of_nat i) as n. generalize (nth i b false) as v. intros v n.
  erewrite fold_left_ext by (intros; apply step_if).
  unfold bits7. cbn [map].
  generalize (N.testbit s 0) (N.testbit s 1) (N.testbit s 2) (N.testbit s 3)
             (N.testbit s 4) (N.testbit s 5) (N.testbit s 6).
  intros a0 a1 a2 a3 a4 a5 a6.
  cbn [seq].
  repeat (change (fold_left ?f (?x :: ?l) ?a) with (fold_left f l (f a x)); cbn beta;
          cbn [upd nth fold_left]).
  reflexivity.
Qed.

Lemma parity_fold_spec b idxs : forall s,
  fold_left (parity_step b) idxs (true :: bits7 s) = true :: bits7 (N.lxor s (xs idxs b)).
Proof.
  induction idxs as [|i t IH]; intros s; cbn [fold_left xs fold_right].
  - rewrite N.lxor_0_r. reflexivity.
  - rewrite parity_step_spec, IH. unfold xs. rewrite N.lxor_assoc. reflexivity.
Qed.

Definition syn (b : list bool) : N := N.lxor 127 (xs (seq 1 103) b).

Lemma parity_bits_syn b : parity_bits b = true :: bits7 (syn b).
Proof. unfold parity_bits, syn. rewrite <- parity_fold_spec. reflexivity. Qed.

Lemma lxor_lt_128 a b : (a < 128 -> b < 128 -> N.lxor a b < 128)%N.
Proof.
  intros Ha Hb.
  destruct (N.eq_dec (N.lxor a b) 0) as [->|Hn]; [lia|].
  assert (H7 : (N.log2 (N.lxor a b) < 7)%N).
  { eapply N.le_lt_trans; [apply N.log2_lxor|].
    apply N.max_lub_lt.
    - destruct (N.eq_dec a 0) as [->|]; [reflexivity|]. apply N.log2_lt_pow2; cbn; lia.
    - destruct (N.eq_dec b 0) as [->|]; [reflexivity|]. apply N.log2_lt_pow2; cbn; lia. }
  apply N.log2_lt_pow2 in H7; cbn in *; lia.
Qed.

Lemma xs_lt idxs b : (forall i, In i idxs -> i < 128) -> (xs idxs b < 128)%N.
Proof.
  induction idxs as [|i t IH]; intros H; cbn [xs fold_right]; [lia|].
  apply lxor_lt_128.
  - specialize (H i (or_introl eq_refl)). destruct (nth i b false); lia.
  - apply IH. intros j Hj. apply H. right; auto.
Qed.

Lemma syn_lt b : (syn b < 128)%N.
Proof.
  unfold syn. apply lxor_lt_128; [lia|]. apply xs_lt. intros i Hi. apply in_seq in Hi. lia.
Qed.

Definition all128 : list N := map N.of_nat (seq 0 128).
Lemma sweep128 (P : N -> bool) : forallb P all128 = true -> forall s, (s < 128)%N -> P s = true.
Proof.
  intros H s Hs. rewrite forallb_forall in H. apply H. unfold all128.
  rewrite <- (N2Nat.id s). apply in_map, in_seq. lia.
Qed.

Lemma error_index_syn b : error_index b = syn b.
Proof.
  unfold error_index. rewrite parity_bits_syn.
  apply N.eqb_eq.
  apply (sweep128 (fun s => (bits_val (true :: bits7 s) / 2 =? s)%N)); [vm_compute; reflexivity|].
  apply syn_lt.
Qed.

(** ** Effect of changing one bit *)
Lemma xs_upd_notin idxs b k v : ~ In k idxs -> xs idxs (upd b k v) = xs idxs b.
Proof.
  induction idxs as [|i t IH]; intros H; auto. cbn [xs fold_right].
  rewrite nth_upd_other by (intros ->; apply H; left; auto).
  fold (xs t (upd b k v)). rewrite IH; auto. intros Hi; apply H; right; auto.
Qed.

Lemma px_upd_notin idxs b k v : ~ In k idxs -> px idxs (upd b k v) = px idxs b.
Proof.
  induction idxs as [|i t IH]; intros H; auto. cbn [px fold_right].
  rewrite nth_upd_other by (intros ->; apply H; left; auto).
  fold (px t (upd b k v)). rewrite IH; auto. intros Hi; apply H; right; auto.
Qed.

Lemma xs_upd_in idxs b k v : NoDup idxs -> In k idxs -> k < length b ->
  xs idxs (upd b k v)
  = N.lxor (xs idxs b) (if xorb v (nth k b false) then N.of_nat k else 0%N).
Proof.
  induction idxs as [|i t IH]; intros Hnd Hin Hk; [destruct Hin|].
  inversion Hnd as [|? ? Hni Hnd']; subst. cbn [xs fold_right].
  fold (xs t (upd b k v)) (xs t b).
  destruct (Nat.eq_dec i k) as [->|Hne].
  - rewrite nth_upd_same by auto. rewrite xs_upd_notin by auto.
    destruct v, (nth k b false); cbn [xorb]; rewrite ?N.lxor_0_r, ?N.lxor_0_l; auto.
    + apply N.lxor_comm.
    + rewrite (N.lxor_comm (N.of_nat k)), N.lxor_assoc, N.lxor_nilpotent, N.lxor_0_r. reflexivity.
  - rewrite nth_upd_other by auto. destruct Hin as [->|Hin]; [lia|].
    rewrite IH by auto. rewrite N.lxor_assoc. reflexivity.
Qed.

Lemma px_upd_in idxs b k v : NoDup idxs -> In k idxs -> k < length b ->
  px idxs (upd b k v) = xorb (px idxs b) (xorb v (nth k b false)).
Proof.
  induction idxs as [|i t IH]; intros Hnd Hin Hk; [destruct Hin|].
  inversion Hnd as [|? ? Hni Hnd']; subst. cbn [px fold_right].
  fold (px t (upd b k v)) (px t b).
  destruct (Nat.eq_dec i k) as [->|Hne].
  - rewrite nth_upd_same by auto. rewrite px_upd_notin by auto.
    destruct v, (nth k b false), (px t b); reflexivity.
  - rewrite nth_upd_other by auto. destruct Hin as [->|Hin]; [lia|].
    rewrite IH by auto. rewrite xorb_assoc. reflexivity.
Qed.

Lemma syn_upd b k v : length b = 104 -> 1 <= k < 104 ->
  syn (upd b k v) = N.lxor (syn b) (if xorb v (nth k b false) then N.of_nat k else 0%N).
Proof.
  intros Hl Hk. unfold syn. rewrite xs_upd_in.
  - rewrite N.lxor_assoc. reflexivity.
  - apply seq_NoDup.
  - apply in_seq. lia.
  - lia.
Qed.

Lemma syn_upd0 b v : syn (upd b 0 v) = syn b.
Proof. unfold syn. rewrite xs_upd_notin; auto. intros H. apply in_seq in H. lia. Qed.

Lemma whole_parity_px b from : whole_parity b from = negb (px (seq from (104 - from)) b).
Proof.
  unfold whole_parity. set (l := seq from (104 - from)). clearbody l.
  change (negb (px l b)) with (xorb true (px l b)).
  generalize true. induction l as [|i t IH]; intros a; cbn [fold_left px fold_right].
  - rewrite xorb_false_r. reflexivity.
  - rewrite IH. unfold px. rewrite xorb_assoc. reflexivity.
Qed.

Lemma whole_parity_upd b k v : length b = 104 -> k < 104 ->
  whole_parity (upd b k v) 0 = xorb (whole_parity b 0) (xorb v (nth k b false)).
Proof.
  intros Hl Hk. rewrite !whole_parity_px. rewrite px_upd_in.
  - destruct (px (seq 0 (104 - 0)) b), (xorb v (nth k b false)); reflexivity.
  - apply seq_NoDup.
  - apply in_seq. lia.
  - lia.
Qed.

(** ** The encoder produces code words *)
Definition packed (b : list bool) : list bool :=
  copy_within (copy_within (copy_within (copy_within (copy_within (copy_within b
    57 96 65) 26 57 33) 11 26 17) 4 11 9) 1 4 5) 0 1 3.

Definition zeroed (b : list bool) : list bool :=
  fold_left (fun b p => upd b (2 ^ (p - 1)) false) (seq 1 7) (upd b 0 false).

Definition with_parity (b pb : list bool) : list bool :=
  fold_left (fun b p => upd b (2 ^ (p - 1)) (nth p pb false)) (seq 1 7) b.

Lemma encode_bits_eq b :
  encode_bits b =
  let z := zeroed (packed b) in
  let c := with_parity z (parity_bits z) in
  upd c 0 (whole_parity c 1).
Proof. reflexivity. Qed.

Lemma copy_within_length b lo hi dst :
  lo <= hi -> hi <= length b -> dst + (hi - lo) <= length b ->
  length (copy_within b lo hi dst) = length b.
Proof.
  intros. unfold copy_within. rewrite !app_length, firstn_length, firstn_length, !skipn_length. lia.
Qed.

Lemma packed_length b : length b = 104 -> length (packed b) = 104.
Proof.
  intros H. unfold packed. repeat (rewrite copy_within_length; try lia).
Qed.

Lemma zeroed_length b : length (zeroed b) = length b.
Proof. unfold zeroed. cbn [seq fold_left]. rewrite !upd_length. reflexivity. Qed.
Lemma with_parity_length b pb : length (with_parity b pb) = length b.
Proof. unfold with_parity. cbn [seq fold_left]. rewrite !upd_length. reflexivity. Qed.

Lemma encode_bits_length b : length b = 104 -> length (encode_bits b) = 104.
Proof.
  intros H. rewrite encode_bits_eq. cbn zeta.
  rewrite upd_length, with_parity_length, zeroed_length, packed_length; auto.
Qed.

Lemma zeroed_nth b k : length b = 104 -> In k [0;1;2;4;8;16;32;64] -> nth k (zeroed b) false = false.
Proof.
  intros Hl H. unfold zeroed. cbn [seq fold_left Nat.sub].
  change (2^0) with 1. change (2^1) with 2. change (2^2) with 4. change (2^3) with 8.
  change (2^4) with 16. change (2^5) with 32. change (2^6) with 64.
  cbn [In] in H.
  destruct H as [<-|[<-|[<-|[<-|[<-|[<-|[<-|[<-|[]]]]]]]]];
  repeat (first [rewrite nth_upd_same by (rewrite ?upd_length; lia); reflexivity
                |rewrite nth_upd_other by lia]).
Qed.

Lemma syn_with_parity z : length z = 104 ->
  (forall k, In k [1;2;4;8;16;32;64] -> nth k z false = false) ->
  syn (with_parity z (parity_bits z)) = 0%N.
Proof.
  intros Hl Hz. rewrite parity_bits_syn.
  pose proof (syn_lt z) as Hs. remember (syn z) as s eqn:Es.
  unfold with_parity. cbn [seq fold_left Nat.sub].
  change (2^0) with 1. change (2^1) with 2. change (2^2) with 4. change (2^3) with 8.
  change (2^4) with 16. change (2^5) with 32. change (2^6) with 64.
  rewrite !syn_upd by (rewrite ?upd_length; lia).
  rewrite !nth_upd_other by lia.
  rewrite !Hz by (simpl; tauto).
  unfold bits7. cbn [map nth]. rewrite !xorb_false_r.
  rewrite <- Es. clear Es Hz.
  apply N.eqb_eq.
  apply (sweep128 (fun s =>
    (N.lxor (N.lxor (N.lxor (N.lxor (N.lxor (N.lxor (N.lxor s
      (if N.testbit s 0 then N.of_nat 1 else 0))
      (if N.testbit s 1 then N.of_nat 2 else 0))
      (if N.testbit s 2 then N.of_nat 4 else 0))
      (if N.testbit s 3 then N.of_nat 8 else 0))
      (if N.testbit s 4 then N.of_nat 16 else 0))
      (if N.testbit s 5 then N.of_nat 32 else 0))
      (if N.testbit s 6 then N.of_nat 64 else 0) =? 0)%N)); [vm_compute; reflexivity|exact Hs].
Qed.

Lemma encode_syn b : length b = 104 -> syn (encode_bits b) = 0%N.
Proof.
  intros H. rewrite encode_bits_eq. cbn zeta. rewrite syn_upd0.
  apply syn_with_parity.
  - rewrite zeroed_length, packed_length; auto.
  - intros k Hk. apply zeroed_nth; [apply packed_length; auto|right; exact Hk].
Qed.

Lemma encode_whole b : length b = 104 -> whole_parity (encode_bits b) 0 = false.
Proof.
  intros H. rewrite encode_bits_eq. cbn zeta.
  set (c := with_parity _ _).
  assert (Hc : length c = 104).
  { unfold c. rewrite with_parity_length, zeroed_length, packed_length; auto. }
  rewrite whole_parity_upd by (auto; lia).
  rewrite (whole_parity_px c 1), (whole_parity_px c 0).
  change (seq 0 (104 - 0)) with (0 :: seq 1 (104 - 1)).
  cbn [px fold_right]. fold (px (seq 1 (104 - 1)) c).
  destruct (nth 0 c false), (px (seq 1 (104 - 1)) c); reflexivity.
Qed.

(** ** Payload extraction *)
Lemma unpack_packed b pb w : length b = 104 ->
  firstn 96 (unpack_bits (upd (with_parity (zeroed (packed b)) pb) 0 w)) = firstn 96 b.
Proof.
  intros H. do 104 (destruct b as [|? b]; [discriminate H|]).
  destruct b; [|discriminate H]. clear H.
  vm_compute. reflexivity.
Qed.

Lemma unpack_length b : length b = 104 -> length (unpack_bits b) = 104.
Proof. intros H. unfold unpack_bits. repeat (rewrite copy_within_length; try lia). Qed.

Lemma unpack_upd0 b v : length b = 104 -> firstn 96 (unpack_bits (upd b 0 v)) = firstn 96 (unpack_bits b).
Proof.
  intros H. do 104 (destruct b as [|? b]; [discriminate H|]).
  destruct b; [|discriminate H]. clear H.
  vm_compute. reflexivity.
Qed.

Lemma unpack_encode b : length b = 104 -> firstn 96 (unpack_bits (encode_bits b)) = firstn 96 b.
Proof. intros H. rewrite encode_bits_eq. cbn zeta. apply unpack_packed; auto. Qed.

(** ** Bit-level theorems *)
Definition flipb (b : list bool) (k : nat) : list bool := upd b k (negb (nth k b false)).

Lemma decode_encode_bits b : length b = 104 ->
  exists r, decode_bits (encode_bits b) = Some r /\ length r = 104 /\ firstn 96 r = firstn 96 b.
Proof.
  intros H. unfold decode_bits. rewrite error_index_syn, encode_syn by auto.
  cbn [N.eqb]. change (0 =? 0)%N with true. cbn iota.
  eexists; split; [reflexivity|]. split; [apply unpack_length, encode_bits_length; auto|].
  apply unpack_encode; auto.
Qed.

Lemma decode_one_flip_bits b k : length b = 104 -> k < 104 ->
  exists r, decode_bits (flipb (encode_bits b) k) = Some r /\ length r = 104
            /\ firstn 96 r = firstn 96 b.
Proof.
  intros H Hk. pose proof (encode_bits_length b H) as Hc.
  unfold decode_bits, flipb. rewrite error_index_syn.
  rewrite whole_parity_upd, encode_whole by auto.
  destruct (Nat.eq_dec k 0) as [->|Hk0].
  - rewrite syn_upd0, encode_syn by auto. change (0 =? 0)%N with true. cbn iota.
    eexists; split; [reflexivity|].
    split; [apply unpack_length; rewrite upd_length; auto|].
    rewrite unpack_upd0 by auto. apply unpack_encode; auto.
  - rewrite syn_upd, encode_syn by (auto; lia).
    replace (xorb (negb (nth k (encode_bits b) false)) (nth k (encode_bits b) false)) with true
      by (destruct (nth k (encode_bits b) false); reflexivity).
    rewrite N.lxor_0_l.
    destruct (N.eqb_spec (N.of_nat k) 0); [lia|].
    cbn [xorb].
    destruct (N.leb_spec 104 (N.of_nat k)); [lia|].
    rewrite Nat2N.id. rewrite nth_upd_same by lia. rewrite negb_involutive, upd_upd, upd_id by lia.
    eexists; split; [reflexivity|].
    split; [apply unpack_length; auto|]. apply unpack_encode; auto.
Qed.

Lemma decode_two_flip_bits b j k : length b = 104 -> j < 104 -> k < 104 -> j <> k ->
  decode_bits (flipb (flipb (encode_bits b) j) k) = None.
Proof.
  intros H Hj Hk Hjk. pose proof (encode_bits_length b H) as Hc.
  unfold decode_bits, flipb. rewrite error_index_syn.
  rewrite !whole_parity_upd by (rewrite ?upd_length; auto).
  rewrite encode_whole by auto.
  rewrite (nth_upd_other _ j k) by auto.
  set (vj := nth j (encode_bits b) false). set (vk := nth k (encode_bits b) false).
  replace (xorb (negb vj) vj) with true by (destruct vj; reflexivity).
  replace (xorb (negb vk) vk) with true by (destruct vk; reflexivity).
  cbn [xorb].
  assert (Hsyn : syn (upd (upd (encode_bits b) j (negb vj)) k (negb vk))
                 = N.lxor (N.of_nat j) (N.of_nat k)).
  { destruct (Nat.eq_dec j 0) as [->|Hj0]; destruct (Nat.eq_dec k 0) as [->|Hk0]; try lia.
    - rewrite syn_upd by (rewrite ?upd_length; lia). rewrite syn_upd0, encode_syn by auto.
      rewrite nth_upd_other by auto. fold vk.
      replace (xorb (negb vk) vk) with true by (destruct vk; reflexivity). reflexivity.
    - rewrite syn_upd0. rewrite syn_upd by lia. rewrite encode_syn by auto. fold vj.
      replace (xorb (negb vj) vj) with true by (destruct vj; reflexivity).
      rewrite N.lxor_0_l, N.lxor_0_r. reflexivity.
    - rewrite !syn_upd by (rewrite ?upd_length; lia). rewrite encode_syn by auto.
      rewrite nth_upd_other by auto. fold vj vk.
      replace (xorb (negb vj) vj) with true by (destruct vj; reflexivity).
      replace (xorb (negb vk) vk) with true by (destruct vk; reflexivity).
      rewrite N.lxor_0_l. reflexivity. }
  rewrite Hsyn.
  destruct (N.eqb_spec (N.lxor (N.of_nat j) (N.of_nat k)) 0) as [E|E].
  - apply N.lxor_eq in E. lia.
  - reflexivity.
Qed.

(** ** Byte-level theorems *)
Lemma bits_of_bytes_flip n bs : bytes_ok bs -> n < 8 * length bs ->
  bits_of_bytes (flip_bit n bs) = flipb (bits_of_bytes bs) n.
Proof.
  intros Hok. revert n. induction Hok as [|x l Hx Hl IH]; intros n Hn; [simpl in Hn; lia|].
  destruct (Nat.lt_ge_cases n 8) as [Hlt|Hge].
  - unfold flip_bit. rewrite Nat.div_small, Nat.mod_small by lia. cbn [upd nth].
    unfold bits_of_bytes. cbn [flat_map]. unfold flipb.
    assert (G : byte_bits (N.lxor x (2 ^ N.of_nat n)) = upd (byte_bits x) n (negb (nth n (byte_bits x) false))).
    { assert (G' : forallb (fun n => if list_eq_dec bool_dec (byte_bits (N.lxor x (2 ^ N.of_nat n)))
                             (upd (byte_bits x) n (negb (nth n (byte_bits x) false))) then true else false)
                           (seq 0 8) = true).
      { apply (byte_sweep (fun x => forallb (fun n => if list_eq_dec bool_dec (byte_bits (N.lxor x (2 ^ N.of_nat n)))
                             (upd (byte_bits x) n (negb (nth n (byte_bits x) false))) then true else false)
                           (seq 0 8))); [vm_compute; reflexivity|exact Hx]. }
      rewrite forallb_forall in G'. specialize (G' n).
      destruct (list_eq_dec bool_dec _ _) as [E|E] in G'; [exact E|].
      discriminate G'. apply in_seq; lia. }
    rewrite G. fold (bits_of_bytes l).
    rewrite app_nth1 by (simpl; lia).
    generalize (negb (nth n (byte_bits x) false)) as v. intros v.
    assert (Hb : n < length (byte_bits x)) by (simpl; lia).
    revert Hb. generalize (byte_bits x) as bb. clear.
    intros bb; revert n; induction bb as [|y t IH]; intros n H; simpl in H; [lia|].
    destruct n; cbn [upd app]; auto. rewrite IH by lia. reflexivity.
  - assert (E : n = 8 + (n - 8)) by lia.
    unfold flip_bit.
    assert (Hd : n / 8 = S ((n - 8) / 8)).
    { rewrite E at 1. replace (8 + (n-8)) with ((n - 8) + 1 * 8) by lia. rewrite Nat.div_add by lia. lia. }
    assert (Hm : n mod 8 = (n - 8) mod 8).
    { rewrite E at 1. replace (8 + (n-8)) with ((n - 8) + 1 * 8) by lia. rewrite Nat.mod_add by lia. reflexivity. }
    rewrite Hd, Hm. cbn [upd nth]. fold (flip_bit (n - 8) l).
    unfold bits_of_bytes. cbn [flat_map]. fold (bits_of_bytes (flip_bit (n - 8) l)) (bits_of_bytes l).
    rewrite IH by (simpl in Hn; lia).
    unfold flipb. rewrite E at 3 4. cbn [byte_bits app]. cbn [Nat.add upd nth]. reflexivity.
Qed.

Lemma flip_bit_length n bs : length (flip_bit n bs) = length bs.
Proof. unfold flip_bit. apply upd_length. Qed.

Lemma Forall_upd {A} (P : A -> Prop) l i v : Forall P l -> P v -> Forall P (upd l i v).
Proof.
  intros Hl Hv. revert i. induction Hl as [|x t Hx Ht IH]; intros [|j]; simpl; constructor; auto.
Qed.

Lemma lxor_byte_ok a b : byte_ok a -> byte_ok b -> byte_ok (N.lxor a b).
Proof.
  unfold byte_ok. intros Ha Hb.
  destruct (N.eq_dec (N.lxor a b) 0) as [->|Hn]; [lia|].
  assert (H7 : (N.log2 (N.lxor a b) < 8)%N).
  { eapply N.le_lt_trans; [apply N.log2_lxor|].
    apply N.max_lub_lt.
    - destruct (N.eq_dec a 0) as [->|]; [reflexivity|]. apply N.log2_lt_pow2; cbn; lia.
    - destruct (N.eq_dec b 0) as [->|]; [reflexivity|]. apply N.log2_lt_pow2; cbn; lia. }
  apply N.log2_lt_pow2 in H7; cbn in *; lia.
Qed.

Lemma flip_bit_ok n bs : bytes_ok bs -> bytes_ok (flip_bit n bs).
Proof.
  intros H. unfold flip_bit. apply Forall_upd; auto. apply lxor_byte_ok.
  - destruct (Nat.lt_ge_cases (n/8) (length bs)) as [Hl|Hl].
    + unfold bytes_ok in H. rewrite Forall_forall in H. apply H, nth_In; auto.
    + rewrite nth_overflow by auto. unfold byte_ok; lia.
  - unfold byte_ok. assert (Hm : n mod 8 < 8) by (apply Nat.mod_upper_bound; lia).
    change 256%N with (2 ^ 8)%N. apply N.pow_lt_mono_r; lia.
Qed.

Lemma firstn_bytes_of_bits m : forall n l, length l = 8 * m -> n <= m ->
  firstn n (bytes_of_bits l) = bytes_of_bits (firstn (8 * n) l).
Proof.
  induction m as [|m IH]; intros n l Hl Hn.
  - destruct l; [|discriminate]. destruct n; [reflexivity|lia].
  - destruct n as [|n]; [reflexivity|].
    replace (8 * S n) with (8 + 8 * n) by lia.
    destruct l as [|b0 [|b1 [|b2 [|b3 [|b4 [|b5 [|b6 [|b7 t]]]]]]]]; simpl in Hl; try lia.
    cbn [Nat.add firstn bytes_of_bits]. f_equal. apply IH; lia.
Qed.

(** The 13-byte buffer of the callers: 12 payload bytes and one spare byte. *)
Lemma encode_shape d x : length d = 12 -> bytes_ok d -> byte_ok x ->
  length (hamming_encode (d ++ [x])) = 13 /\ bytes_ok (hamming_encode (d ++ [x])) /\
  bits_of_bytes (hamming_encode (d ++ [x])) = encode_bits (bits_of_bytes (d ++ [x])).
Proof.
  intros Hl Hd Hx. unfold hamming_encode.
  assert (Hb : length (bits_of_bytes (d ++ [x])) = 104).
  { rewrite bits_of_bytes_length, app_length, Hl. reflexivity. }
  destruct (bytes_of_bits_spec 13 (encode_bits (bits_of_bytes (d ++ [x])))) as (H1 & H2 & H3).
  { rewrite encode_bits_length; auto. }
  auto.
Qed.

Lemma payload_of_bits d x r : length d = 12 -> bytes_ok d ->
  length r = 104 -> firstn 96 r = firstn 96 (bits_of_bytes (d ++ [x])) ->
  firstn 12 (bytes_of_bits r) = d.
Proof.
  intros Hl Hd Hr Hf.
  rewrite (firstn_bytes_of_bits 13 12) by (auto; lia).
  change (8 * 12) with 96. rewrite Hf.
  unfold bits_of_bytes. rewrite flat_map_app. fold (bits_of_bytes d).
  rewrite firstn_app, bits_of_bytes_length, Hl.
  change (96 - 8 * 12) with 0. rewrite firstn_O, app_nil_r.
  rewrite firstn_all2 by (rewrite bits_of_bytes_length; lia).
  apply bytes_of_bits_of_bytes; auto.
Qed.

Section WithPayload.
  Variables (d : list byte) (x : byte).
  Hypotheses (Hl : length d = 12) (Hd : bytes_ok d) (Hx : byte_ok x).

  Let Hb : length (bits_of_bytes (d ++ [x])) = 104.
  Proof. rewrite bits_of_bytes_length, app_length, Hl. reflexivity. Qed.

  Lemma hamming_roundtrip : hamming_decode (hamming_encode (d ++ [x])) = Some d.
  Proof.
    destruct (encode_shape d x Hl Hd Hx) as (_ & _ & E).
    unfold hamming_decode. rewrite E.
    destruct (decode_encode_bits _ Hb) as (r & -> & Hr & Hf).
    f_equal. eapply payload_of_bits; eauto.
  Qed.

  Lemma hamming_one_flip k : k < 104 ->
    hamming_decode (flip_bit k (hamming_encode (d ++ [x]))) = Some d.
  Proof.
    intros Hk. destruct (encode_shape d x Hl Hd Hx) as (L & O & E).
    unfold hamming_decode. rewrite bits_of_bytes_flip, E by (auto; lia).
    destruct (decode_one_flip_bits _ k Hb Hk) as (r & -> & Hr & Hf).
    f_equal. eapply payload_of_bits; eauto.
  Qed.

  Lemma hamming_two_flips j k : j < 104 -> k < 104 -> j <> k ->
    hamming_decode (flip_bit k (flip_bit j (hamming_encode (d ++ [x])))) = None.
  Proof.
    intros Hj Hk Hjk. destruct (encode_shape d x Hl Hd Hx) as (L & O & E).
    unfold hamming_decode.
    rewrite bits_of_bytes_flip by (rewrite ?flip_bit_length; auto using flip_bit_ok; lia).
    rewrite bits_of_bytes_flip, E by (auto; lia).
    rewrite decode_two_flip_bits; auto.
  Qed.
End WithPayload.

(** Erased (all 0xFF) and zeroed blocks, and their one-bit neighbours, are rejected. *)
Definition is_none {A} (o : option A) : bool := match o with None => true | Some _ => false end.
Lemma is_none_true {A} (o : option A) : is_none o = true -> o = None.
Proof. destruct o; [discriminate|reflexivity]. Qed.

Lemma blank_rejected v : v = 255%N \/ v = 0%N ->
  hamming_decode (repeat v 13) = None /\
  forall k, k < 104 -> hamming_decode (flip_bit k (repeat v 13)) = None.
Proof.
  intros Hv.
  assert (H : is_none (hamming_decode (repeat v 13)) = true /\
     forallb (fun k => is_none (hamming_decode (flip_bit k (repeat v 13)))) (seq 0 104) = true).
  { destruct Hv as [-> | ->]; split; vm_compute; reflexivity. }
  destruct H as [H1 H2]. split.
  - exact (is_none_true _ H1).
  - intros k Hk. rewrite forallb_forall in H2. apply is_none_true, H2, in_seq; lia.
Qed.

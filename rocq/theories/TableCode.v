(** * What a table slot on flash decodes to, complete, torn or partially erased *)
From Verif Require Import Base Hamming HammingProofs Flash FS Sectors ATable TornCode.
Local Open Scope N_scope.

(** ** Entries and headers *)
Definition entry_ok (e : entry) : Prop :=
  e_id e < 2 ^ 64 /\ e_typ e < 65536 /\ match e_first e with Some x => x < 65535 | None => True end.

Definition entry_payload (e : entry) : list byte :=
  be_bytes 2 (e_typ e) ++ be_bytes 2 (match e_first e with Some x => x | None => 65535 end) ++ be_bytes 8 (e_id e).

Lemma entry_payload_shape e : length (entry_payload e) = 12%nat /\ bytes_ok (entry_payload e).
Proof.
  unfold entry_payload. split.
  - rewrite !app_length, !be_bytes_length. reflexivity.
  - unfold bytes_ok. repeat (apply Forall_app; split); apply be_bytes_ok.
Qed.

Lemma entry_serialize_eq e : entry_serialize e = hamming_encode (entry_payload e ++ [0]).
Proof. unfold entry_serialize, entry_payload. rewrite !app_assoc. reflexivity. Qed.

Lemma entry_serialize_shape e : length (entry_serialize e) = 13%nat /\ bytes_ok (entry_serialize e).
Proof.
  rewrite entry_serialize_eq. destruct (entry_payload_shape e) as [A B].
  destruct (encode_shape (entry_payload e) 0 A B) as (L & O & _); [reflexivity|auto].
Qed.

Lemma firstn_app_len {A} (a b : list A) n : length a = n -> firstn n (a ++ b) = a.
Proof. intros <-. rewrite firstn_app, Nat.sub_diag, firstn_all, firstn_O, app_nil_r. reflexivity. Qed.
Lemma skipn_app_len {A} (a b : list A) n : length a = n -> skipn n (a ++ b) = b.
Proof. intros <-. rewrite skipn_app, Nat.sub_diag, skipn_all. reflexivity. Qed.

Lemma payload_parse e : entry_ok e ->
  of_be (firstn 2 (entry_payload e)) = e_typ e /\
  of_be (firstn 2 (skipn 2 (entry_payload e))) = (match e_first e with Some x => x | None => 65535 end) /\
  of_be (firstn 8 (skipn 4 (entry_payload e))) = e_id e.
Proof.
  intros (A & B & C). unfold entry_payload.
  rewrite (firstn_app_len (be_bytes 2 _)) by apply be_bytes_length.
  rewrite (skipn_app_len (be_bytes 2 _)) by apply be_bytes_length.
  rewrite (firstn_app_len (be_bytes 2 _)) by apply be_bytes_length.
  rewrite app_assoc, (skipn_app_len (_ ++ _)) by (rewrite app_length, !be_bytes_length; reflexivity).
  rewrite firstn_all2 by (rewrite be_bytes_length; auto).
  repeat split; apply of_be_be_bytes_id; auto.
  destruct (e_first e); [|reflexivity]. change (256 ^ N.of_nat 2) with 65536. lia.
Qed.

Lemma entry_roundtrip e : entry_ok e -> entry_deserialize (entry_serialize e) = Some e.
Proof.
  intros H. destruct (entry_payload_shape e) as [A B].
  unfold entry_deserialize. rewrite entry_serialize_eq. rewrite (hamming_roundtrip _ 0 A B) by reflexivity.
  destruct (payload_parse e H) as (P & Q & R). rewrite P, Q, R.
  destruct H as (_ & _ & H3). destruct e as [id typ [x|]]; cbn [e_first e_id e_typ] in *; [|reflexivity].
  destruct (N.eqb_spec x 65535); [lia|reflexivity].
Qed.

Definition header_payload (seq : N) : list byte := be_bytes 4 VLFS_VERSION ++ be_bytes 8 seq.
Lemma header_payload_shape q : length (header_payload q) = 12%nat /\ bytes_ok (header_payload q).
Proof.
  unfold header_payload. split.
  - rewrite !app_length, !be_bytes_length. reflexivity.
  - unfold bytes_ok. repeat (apply Forall_app; split); apply be_bytes_ok.
Qed.
Lemma header_serialize_eq q : header_serialize q = hamming_encode (header_payload q ++ [0]).
Proof. unfold header_serialize, header_payload. rewrite !app_assoc. reflexivity. Qed.
Lemma header_serialize_shape q : length (header_serialize q) = 13%nat /\ bytes_ok (header_serialize q).
Proof.
  rewrite header_serialize_eq. destruct (header_payload_shape q) as [A B].
  destruct (encode_shape (header_payload q) 0 A B) as (L & O & _); [reflexivity|auto].
Qed.

Lemma header_roundtrip q : q < 2 ^ 64 -> header_deserialize (header_serialize q) = Some q.
Proof.
  intros H. destruct (header_payload_shape q) as [A B]. destruct (header_serialize_shape q) as [L _].
  unfold header_deserialize. rewrite firstn_all2 by (rewrite L; auto).
  rewrite header_serialize_eq, (hamming_roundtrip _ 0 A B) by reflexivity.
  unfold header_payload.
  rewrite (firstn_app_len (be_bytes 4 _)) by apply be_bytes_length.
  rewrite (skipn_app_len (be_bytes 4 _)) by apply be_bytes_length.
  rewrite firstn_all2 by (rewrite be_bytes_length; auto).
  rewrite !of_be_be_bytes_id; [reflexivity|auto|reflexivity].
Qed.

(** Whatever decodes is a well-formed entry. *)
Lemma some_eq {A} (x y : A) : Some x = Some y -> y = x.
Proof. congruence. Qed.

Lemma decode_bits_length b r : length b = 104%nat -> decode_bits b = Some r -> length r = 104%nat.
Proof.
  intros Hb. unfold decode_bits. destruct (_ =? 0)%N.
  { intros E. rewrite (some_eq _ _ E). apply unpack_length. auto. }
  destruct (whole_parity _ _); [|discriminate]. destruct (_ <=? _)%N; [discriminate|].
  intros E. rewrite (some_eq _ _ E). apply unpack_length. rewrite upd_length; auto.
Qed.

Lemma take12 l : length l = 13%nat -> bytes_ok l -> length (firstn 12 l) = 12%nat /\ bytes_ok (firstn 12 l).
Proof.
  intros Hl Ho. split; [rewrite firstn_length, Hl; reflexivity|].
  unfold bytes_ok in *. rewrite <- (firstn_skipn 12 l) in Ho. apply Forall_app in Ho. apply Ho.
Qed.

Lemma hamming_decode_shape buf d : length buf = 13%nat -> hamming_decode buf = Some d ->
  length d = 12%nat /\ bytes_ok d.
Proof.
  intros Hl. unfold hamming_decode.
  assert (Hb : length (bits_of_bytes buf) = 104%nat) by (rewrite bits_of_bytes_length, Hl; reflexivity).
  destruct (decode_bits (bits_of_bytes buf)) as [r|] eqn:E; [|discriminate]. intros Hd.
  rewrite (some_eq _ _ Hd). apply decode_bits_length in E; [|auto].
  destruct (bytes_of_bits_spec 13 r) as (_ & H2 & H3); [rewrite E; reflexivity|].
  apply take12; auto.
Qed.

Lemma of_be_firstn_bound k l : bytes_ok l -> of_be (firstn k l) < 256 ^ N.of_nat k.
Proof.
  intros H.
  assert (Hf : bytes_ok (firstn k l)).
  { unfold bytes_ok in *. rewrite <- (firstn_skipn k) in H. apply Forall_app in H. apply H. }
  eapply N.lt_le_trans; [apply of_be_bound; auto|]. apply N.pow_le_mono_r; [lia|].
  rewrite firstn_length. lia.
Qed.

Lemma bytes_ok_skipn k l : bytes_ok l -> bytes_ok (skipn k l).
Proof. unfold bytes_ok. intros H. rewrite <- (firstn_skipn k) in H. apply Forall_app in H. apply H. Qed.

Lemma entry_deserialize_ok buf e : length buf = 13%nat -> entry_deserialize buf = Some e -> entry_ok e.
Proof.
  intros Hl. unfold entry_deserialize. destruct (hamming_decode buf) as [d|] eqn:E; [|discriminate].
  intros Hd. rewrite (some_eq _ _ Hd). destruct (hamming_decode_shape _ _ Hl E) as [_ Ho].
  unfold entry_ok; cbn [e_id e_typ e_first]. split; [|split].
  - change (2 ^ 64) with (256 ^ N.of_nat 8). apply of_be_firstn_bound, bytes_ok_skipn; auto.
  - change 65536 with (256 ^ N.of_nat 2). apply of_be_firstn_bound; auto.
  - destruct (N.eqb_spec (of_be (firstn 2 (skipn 2 d))) 65535) as [Eq|Ne]; [auto|].
    pose proof (of_be_firstn_bound 2 (skipn 2 d) (bytes_ok_skipn 2 d Ho)) as Hb.
    change (256 ^ N.of_nat 2) with 65536 in Hb. lia.
Qed.

Lemma header_deserialize_bound buf q : length buf = 13%nat -> header_deserialize buf = Some q -> q < 2 ^ 64.
Proof.
  intros Hl. unfold header_deserialize. rewrite firstn_all2 by lia.
  destruct (hamming_decode buf) as [d|] eqn:E; [|discriminate].
  destruct (hamming_decode_shape _ _ Hl E) as [_ Ho].
  destruct (_ =? _); [|discriminate]. intros Hd. rewrite (some_eq _ _ Hd).
  change (2 ^ 64) with (256 ^ N.of_nat 8). apply of_be_firstn_bound, bytes_ok_skipn; auto.
Qed.

(** A partially programmed entry keeps its type if it decodes at all. *)
Lemma torn_full k bs : (length bs <= k)%nat -> torn_block k bs = bs.
Proof. intros H. unfold torn_block. rewrite firstn_all2 by auto. replace (length bs - k)%nat with O by lia. apply app_nil_r. Qed.

Lemma torn_length k bs : length (torn_block k bs) = length bs.
Proof. unfold torn_block. rewrite app_length, firstn_length, repeat_length. lia. Qed.

Lemma torn_entry_type e k e' : entry_ok e ->
  entry_deserialize (torn_block k (entry_serialize e)) = Some e' -> e_typ e' = e_typ e.
Proof.
  intros H. destruct (Nat.le_gt_cases 13 k) as [Hk|Hk].
  - rewrite torn_full by (destruct (entry_serialize_shape e) as [-> _]; auto).
    rewrite entry_roundtrip by auto. intros [= <-]. reflexivity.
  - unfold entry_deserialize. rewrite entry_serialize_eq.
    destruct (hamming_decode _) as [d|] eqn:E; [|discriminate]. intros Hd. rewrite (some_eq _ _ Hd).
    destruct (entry_payload_shape e) as [A B].
    apply (torn_keeps_type _ 0) in E; auto; try lia; [|reflexivity].
    cbn [e_typ]. rewrite E. apply payload_parse; auto.
Qed.

Lemma blank_entry : entry_deserialize (repeat 255 13) = None.
Proof. unfold entry_deserialize. destruct (blank_rejected 255 (or_introl eq_refl)) as [-> _]. reflexivity. Qed.
Lemma blank_header : header_deserialize (repeat 255 13) = None.
Proof.
  unfold header_deserialize. rewrite firstn_all2 by (rewrite repeat_length; auto).
  destruct (blank_rejected 255 (or_introl eq_refl)) as [-> _]. reflexivity.
Qed.

Global Opaque entry_deserialize header_deserialize entry_serialize header_serialize.

(** ** Scanning a slot *)
Lemma scan_skip n : forall fuel f addr c,
  (forall k, (k < n)%nat -> exists e, read_entry_at f (addr + 13 * N.of_nat k) = Some e /\ is_footer e = false) ->
  scan (n + fuel) f addr c = scan fuel f (addr + 13 * N.of_nat n) (c + N.of_nat n).
Proof.
  induction n as [|n IH]; intros fuel f addr c H.
  - cbn [Nat.add]. rewrite N.mul_0_r, !N.add_0_r. reflexivity.
  - cbn [Nat.add scan]. destruct (H O) as (e & E & Ef); [lia|].
    rewrite N.mul_0_r, N.add_0_r in E. rewrite E, Ef.
    rewrite IH.
    + f_equal; lia.
    + intros k Hk. destruct (H (S k)) as (e' & E' & Ef'); [lia|]. exists e'. split; [|auto].
      rewrite <- E'. f_equal. lia.
Qed.

Lemma scan_more fuel : forall more f addr c, scan fuel f addr c <> SOverflow ->
  scan (fuel + more) f addr c = scan fuel f addr c.
Proof.
  induction fuel as [|k IH]; intros more f addr c H; [exfalso; apply H; reflexivity|].
  cbn [Nat.add scan] in *. destruct (read_entry_at f addr) as [e|]; [|reflexivity].
  destruct (is_footer e); [reflexivity|]. apply IH. auto.
Qed.

(** number of 13-byte blocks of a slot that can hold entries or the footer *)
Definition slot_blocks : nat := 2519.

Definition in_slot (b a : N) : Prop := b <= a < b + 32768.

Lemma rd_same f g a n : (forall x, a <= x < a + N.of_nat n -> f x = g x) -> rd f a n = rd g a n.
Proof. intros H. apply rd_ext. intros i Hi. apply H. lia. Qed.

Lemma scan_local fuel : forall f g addr c,
  (forall x, addr <= x < addr + 13 * N.of_nat fuel -> f x = g x) -> scan fuel f addr c = scan fuel g addr c.
Proof.
  induction fuel as [|k IH]; intros f g addr c H; [reflexivity|].
  cbn [scan]. unfold read_entry_at. rewrite (rd_same f g addr 13) by (intros; apply H; lia).
  destruct (entry_deserialize _) as [e|]; [|reflexivity]. destruct (is_footer e); [reflexivity|].
  apply IH. intros x Hx. apply H. lia.
Qed.

(** The slot starting at [b] holds a complete table. *)
Record table_at (f : flash) (b seq : N) (ents : list entry) (mx : N) : Prop := {
  ta_hdr : header_deserialize (rd f b 13) = Some seq;
  ta_ents : forall k e, nth_error ents k = Some e -> read_entry_at f (b + 13 + 13 * N.of_nat k) = Some e;
  ta_nf : Forall (fun e => is_footer e = false) ents;
  ta_foot : exists e, read_entry_at f (b + 13 + 13 * N.of_nat (length ents)) = Some e /\ is_footer e = true /\ e_id e = mx;
  ta_cap : (length ents < slot_blocks)%nat }.

Lemma table_at_local f g b seq ents mx : (forall x, in_slot b x -> f x = g x) ->
  table_at f b seq ents mx -> table_at g b seq ents mx.
Proof.
  unfold in_slot. intros H [A B C D E]. unfold slot_blocks in E.
  assert (R : forall k, (k <= length ents)%nat ->
     read_entry_at g (b + 13 + 13 * N.of_nat k) = read_entry_at f (b + 13 + 13 * N.of_nat k)).
  { intros k Hk. unfold read_entry_at. f_equal. apply rd_same. intros x Hx. symmetry. apply H. lia. }
  constructor; auto.
  - rewrite <- A. f_equal. apply rd_same. intros x Hx. symmetry. apply H. lia.
  - intros k e Hk. rewrite R; [auto|]. assert (k < length ents)%nat by (apply nth_error_Some; congruence). lia.
  - rewrite R by lia. auto.
Qed.

Lemma table_scan f b seq ents mx : table_at f b seq ents mx ->
  scan slot_blocks f (b + 13) 0 = SFooter (N.of_nat (length ents)) mx.
Proof.
  intros [A B C D E]. destruct D as (e & De & Df & <-).
  replace slot_blocks with (length ents + S (slot_blocks - length ents - 1))%nat by lia.
  rewrite scan_skip.
  - cbn [scan]. rewrite De, Df. f_equal.
  - intros k Hk. destruct (nth_error ents k) as [e'|] eqn:En; [|apply nth_error_None in En; lia].
    exists e'. split; [auto|]. rewrite Forall_forall in C. apply C. eapply nth_error_In; eauto.
Qed.

Lemma table_ents_ok f b seq ents mx : table_at f b seq ents mx -> Forall entry_ok ents /\ mx < 2 ^ 64 /\ seq < 2 ^ 64.
Proof.
  intros [A B C D E]. split; [|split].
  - apply Forall_forall. intros e He. apply In_nth_error in He. destruct He as [k Hk].
    apply B in Hk. eapply entry_deserialize_ok; [|exact Hk]. apply rd_length.
  - destruct D as (e & De & _ & <-). apply entry_deserialize_ok in De; [apply De|apply rd_length].
  - eapply header_deserialize_bound; [|exact A]. apply rd_length.
Qed.

Lemma nth_error_ext_eq {A} (l l' : list A) : length l = length l' ->
  (forall k, nth_error l k = nth_error l' k) -> l = l'.
Proof.
  revert l'. induction l as [|x t IH]; intros [|y u] Hl H; try discriminate; [reflexivity|].
  pose proof (H O) as H0. injection H0 as ->. f_equal. apply IH; [injection Hl; auto|].
  intros k. exact (H (S k)).
Qed.

(** A slot holds at most one table. *)
Lemma table_at_inj f b s1 e1 m1 s2 e2 m2 : table_at f b s1 e1 m1 -> table_at f b s2 e2 m2 ->
  s1 = s2 /\ e1 = e2 /\ m1 = m2.
Proof.
  intros T1 T2. pose proof (table_scan _ _ _ _ _ T1) as S1. pose proof (table_scan _ _ _ _ _ T2) as S2.
  rewrite S1 in S2. injection S2 as L M.
  destruct T1 as [A1 B1 _ _ _], T2 as [A2 B2 _ _ _]. split; [congruence|]. split; [|auto].
  assert (Hl : length e1 = length e2) by lia. clear L S1. revert B1 B2.
  intros B1 B2. apply nth_error_ext_eq; auto. intros k.
  destruct (nth_error e1 k) as [x|] eqn:X.
  - destruct (nth_error e2 k) as [y|] eqn:Y.
    + apply B1 in X. apply B2 in Y. congruence.
    + apply nth_error_None in Y. assert (k < length e1)%nat by (apply nth_error_Some; congruence). lia.
  - apply nth_error_None in X. symmetry. apply nth_error_None. lia.
Qed.

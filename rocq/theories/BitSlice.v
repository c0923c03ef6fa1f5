(** * Bit-packed streams: BitSliceWriter / BitSliceReader and the primitive
    encodings.

    Models firmware-common/src/common/delta_logger/bitslice_serialize.rs,
    bitslice_primitive.rs and variable_int.rs (the BitSlicePrimitive impls).
    A [None] result of a writer/reader operation is a Rust panic (an
    out-of-range slice or index). *)
From Coq Require Import List Bool NArith ZArith Lia Arith.
From Verif Require Import Base.
Import ListNotations.
Local Open Scope nat_scope.

(** ** Primitive values (bitslice_primitive.rs, variable_int.rs:24-41)

    [TInt w] covers u8 (w=8), u32 (w=32), VariableInt<w> (w=1..32), and the
    raw bit patterns of f32 (w=32) and f64 (w=64), which are written with
    to_le_bytes and read with load_le + transmute.  [TI64] is i64. *)
Inductive prim := TBool | TInt (w : nat) | TI64 | TPair (p : prim) | TArr (n : nat) (p : prim) | TOpt (p : prim).

Inductive val := VB (b : bool) | VN (n : N) | VZ (z : Z) | VP (a b : val) | VA (l : list val) | VO (o : option val).

(** T::len_bits(); the pair's length is the literal 64 + 64
    (bitslice_primitive.rs:157-159). *)
Fixpoint plen (p : prim) : nat :=
  match p with
  | TBool => 1
  | TInt w => w
  | TI64 => 64
  | TPair _ => 128
  | TArr n p => n * plen p
  | TOpt p => plen p + 1
  end.

(** little-endian bits of a number: the Lsb0 view of to_le_bytes *)
Fixpoint le_bits (w : nat) (n : N) : list bool :=
  match w with 0 => [] | S w => N.odd n :: le_bits w (N.div2 n) end.

(** the bits T::write stores, from the start of the slice it is given *)
Fixpoint enc (p : prim) (v : val) : list bool :=
  match p, v with
  | TBool, VB b => [b]
  | TInt w, VN n => le_bits w n
  | TI64, VZ z => le_bits 64 (Z.to_N (z mod 2 ^ 64))
  | TPair p, VP a b => enc p a ++ enc p b
  | TArr n p, VA l => flat_map (enc p) l
  | TOpt p, VO (Some v) => true :: enc p v
  | TOpt p, VO None => false :: repeat true (plen p)
  | _, _ => []
  end.

(** slices [a..b] of a bit buffer *)
Definition slice (l : list bool) (a b : nat) : list bool := firstn (b - a) (skipn a l).

(** T::read on a slice *)
Fixpoint dec (p : prim) (s : list bool) : val :=
  match p with
  | TBool => VB (hd false s)
  | TInt w => VN (bits_val (firstn w s))
  | TI64 => let n := Z.of_N (bits_val (firstn 64 s)) in VZ (if (n <? 2 ^ 63)%Z then n else (n - 2 ^ 64)%Z)
  | TPair p => VP (dec p s) (dec p (skipn (plen p) s))
  | TArr n p => VA (map (fun i => dec p (slice s (i * plen p) ((i + 1) * plen p))) (seq 0 n))
  | TOpt p => if hd false s then VO (Some (dec p (tl s))) else VO None
  end.

(** values of a type *)
Fixpoint has_type (p : prim) (v : val) : Prop :=
  match p, v with
  | TBool, VB _ => True
  | TInt w, VN n => (n < 2 ^ N.of_nat w)%N
  | TI64, VZ z => (- 2 ^ 63 <= z < 2 ^ 63)%Z
  | TPair p, VP a b => has_type p a /\ has_type p b
  | TArr n p, VA l => length l = n /\ Forall (has_type p) l
  | TOpt p, VO (Some v) => has_type p v
  | TOpt p, VO None => True
  | _, _ => False
  end.

(** pairs are only instantiated with 64-bit components ((f64,f64) in
    driver/gps.rs and vlp/telemetry_packet.rs) *)
Fixpoint wf_prim (p : prim) : Prop :=
  match p with
  | TPair p => plen p = 64 /\ wf_prim p
  | TArr _ p => wf_prim p
  | TOpt p => wf_prim p
  | _ => True
  end.

(** ** BitSliceWriter<N> (bitslice_serialize.rs:5-52) *)
Record bwriter := BW { bw_len : nat; bw_data : list bool }.

(** default() (54-61) *)
Definition bw_new (n : nat) : bwriter := BW 0 (repeat false (8 * n)).

Definition splice (l : list bool) (pos : nat) (v : list bool) : list bool :=
  firstn pos l ++ v ++ skipn (pos + length v) l.

(** write (11-14), of already encoded bits [v] of a type of length [n] *)
Definition bw_put (w : bwriter) (v : list bool) (n : nat) : option bwriter :=
  if bw_len w + length v <=? length (bw_data w)
  then Some (BW (bw_len w + n) (splice (bw_data w) (bw_len w) v))
  else None.
Definition bw_write (w : bwriter) (p : prim) (v : val) : option bwriter := bw_put w (enc p v) (plen p).

(** view_full_byte_slice (18-21) *)
Definition bw_full (w : bwriter) : list byte := bytes_of_bits (firstn (8 * (bw_len w / 8)) (bw_data w)).

(** view_all_data_slice (25-31) *)
Definition bw_all (w : bwriter) : list byte := bytes_of_bits (firstn (8 * ((bw_len w + 7) / 8)) (bw_data w)).

(** clear_full_byte_slice (36-41): raw[0] = raw[full_bytes], which panics when
    full_bytes = N *)
Definition bw_clear_full (w : bwriter) : option bwriter :=
  let full := bw_len w / 8 in
  if full <? length (bw_data w) / 8
  then Some (BW (bw_len w mod 8) (splice (bw_data w) 0 (slice (bw_data w) (8 * full) (8 * full + 8))))
  else None.

(** clear (43-45) *)
Definition bw_clear (w : bwriter) : bwriter := BW 0 (bw_data w).

(** ** BitSliceReader<N> (bitslice_serialize.rs:63-142) *)
Record breader := BR { br_buf : list bool; br_start : nat; br_end : nat }.

Definition br_new (n : nat) : breader := BR (repeat false (8 * n)) 0 0.
Definition br_len (r : breader) : nat := br_end r - br_start r.
Definition br_free (r : breader) : nat := (length (br_buf r) - br_len r) / 8.

(** copy_within(start..end, dest); start = dest; end = dest + len (88-93) *)
Definition br_shift (r : breader) : option breader :=
  let len := br_len r in
  let dest := (8 - len mod 8) mod 8 in
  if dest + len <=? length (br_buf r)
  then Some (BR (splice (br_buf r) dest (slice (br_buf r) (br_start r) (br_end r))) dest (dest + len))
  else None.

(** replenish_bytes (87-99) *)
Definition br_append (r : breader) (d : list byte) : option breader :=
  let at_ := br_end r / 8 in
  if 8 * at_ + 8 * length d <=? length (br_buf r)
  then Some (BR (splice (br_buf r) (8 * at_) (bits_of_bytes d)) (br_start r) (br_end r + 8 * length d))
  else None.
Definition br_replenish (r : breader) (d : list byte) : option breader :=
  match br_shift r with Some r' => br_append r' d | None => None end.

(** replenish_bytes_async_mut (101-128): the bytes the callback is offered,
    then the bytes it stored at the front of them *)
Definition br_prepare (r : breader) : option breader :=
  if br_len r =? 0 then Some (BR (br_buf r) 0 0) else br_shift r.
Definition br_room (r : breader) : nat := (length (br_buf r) - 8 * (br_end r / 8)) / 8.

(** read (130-137) *)
Definition br_read (r : breader) (p : prim) : option val * breader :=
  if br_len r <? plen p then (None, r)
  else (Some (dec p (slice (br_buf r) (br_start r) (br_end r))), BR (br_buf r) (br_start r + plen p) (br_end r)).

(** skip_byte (139-141) *)
Definition br_skip (r : breader) : breader := BR (br_buf r) (8 * ((br_start r + 7) / 8)) (br_end r).

(** ** Facts *)
Lemma skipn_skipn {A} (x y : nat) : forall l : list A, skipn x (skipn y l) = skipn (x + y) l.
Proof.
  induction y as [|y IH]; intros l; [rewrite Nat.add_0_r; reflexivity|].
  destruct l as [|a l]; [rewrite !skipn_nil; reflexivity|].
  rewrite Nat.add_succ_r. cbn [skipn]. apply IH.
Qed.

Lemma le_bits_length w : forall n, length (le_bits w n) = w.
Proof. induction w; intros; simpl; auto. Qed.

Lemma bits_val_le_bits w : forall n, (n < 2 ^ N.of_nat w)%N -> bits_val (le_bits w n) = n.
Proof.
  induction w as [|w IH]; intros n H; cbn [le_bits bits_val].
  - change (2 ^ N.of_nat 0)%N with 1%N in H. lia.
  - rewrite Nat2N.inj_succ, N.pow_succ_r' in H. rewrite IH.
    + rewrite (N.div2_odd n) at 3. unfold N.b2n. destruct (N.odd n); lia.
    + rewrite N.div2_div. apply N.div_lt_upper_bound; lia.
Qed.

Lemma slice_app_l a b n : length a = n -> slice (a ++ b) 0 n = a.
Proof. intros <-. unfold slice. cbn [skipn]. rewrite Nat.sub_0_r, firstn_app, Nat.sub_diag, firstn_all. cbn [firstn]. apply app_nil_r. Qed.

Lemma enc_length p : forall v, wf_prim p -> has_type p v -> length (enc p v) = plen p.
Proof.
  induction p; intros v Hw Ht; destruct v; cbn [has_type] in Ht; try contradiction; cbn [enc plen wf_prim] in *.
  - reflexivity.
  - apply le_bits_length.
  - apply le_bits_length.
  - destruct Hw as [H64 Hw], Ht as [Ha Hb]. rewrite app_length, IHp, IHp by assumption. lia.
  - destruct Ht as [Hl Hf]. subst n. induction Hf as [|x l Hx Hf IH]; [reflexivity|].
    cbn [flat_map length]. rewrite app_length, IHp, IH by assumption. lia.
  - destruct o; cbn [enc length].
    + rewrite IHp by assumption. lia.
    + rewrite repeat_length. lia.
Qed.

Lemma dec_enc p : forall v rest, wf_prim p -> has_type p v -> dec p (enc p v ++ rest) = v.
Proof.
  induction p; intros v rest Hw Ht; destruct v; cbn [has_type] in Ht; try contradiction; cbn [enc dec wf_prim] in *.
  - reflexivity.
  - f_equal. rewrite firstn_app, le_bits_length, Nat.sub_diag. cbn [firstn]. rewrite app_nil_r.
    rewrite firstn_all2 by (rewrite le_bits_length; lia). apply bits_val_le_bits, Ht.
  - rewrite firstn_app, (le_bits_length 64), Nat.sub_diag, app_nil_r.
    rewrite firstn_all2 by (rewrite (le_bits_length 64); lia).
    assert (B : (0 <= z mod 2 ^ 64 < 2 ^ 64)%Z) by (apply Z.mod_pos_bound; lia).
    rewrite bits_val_le_bits by (change (2 ^ N.of_nat 64)%N with (Z.to_N (2 ^ 64)); apply Z2N.inj_lt; lia).
    rewrite Z2N.id by lia. f_equal.
    destruct (Z_lt_ge_dec z 0) as [Hn|Hn].
    + assert (E : (z mod 2 ^ 64 = z + 2 ^ 64)%Z)
        by (symmetry; apply (Z.mod_unique z (2 ^ 64) (-1)); [left; lia | ring]).
      rewrite E. destruct (Z.ltb_spec (z + 2 ^ 64) (2 ^ 63)); lia.
    + rewrite Z.mod_small by lia. destruct (Z.ltb_spec z (2 ^ 63)); lia.
  - destruct Hw as [H64 Hw], Ht as [Ha Hb]. rewrite <- app_assoc. rewrite IHp by assumption. f_equal.
    rewrite skipn_app, (enc_length p v1) by assumption. rewrite Nat.sub_diag. cbn [skipn].
    rewrite skipn_all2 by (rewrite enc_length by assumption; lia). cbn [app]. apply IHp; assumption.
  - destruct Ht as [Hl Hf]. f_equal. subst n.
    induction Hf as [|x l Hx Hf IH]; [reflexivity|].
    cbn [length seq map flat_map]. f_equal.
    + replace (0 * plen p) with 0 by lia. replace ((0 + 1) * plen p) with (plen p) by lia.
      rewrite <- app_assoc, slice_app_l by (apply enc_length; assumption).
      rewrite <- (app_nil_r (enc p x)). apply IHp; assumption.
    + rewrite <- seq_shift, map_map. rewrite <- IH at 2. apply map_ext. intros i. f_equal.
      unfold slice. replace ((S i + 1) * plen p - S i * plen p) with ((i + 1) * plen p - i * plen p) by lia. f_equal.
      rewrite <- app_assoc, skipn_app, enc_length by assumption.
      rewrite skipn_all2 by (rewrite enc_length by assumption; lia). cbn [app]. f_equal. lia.
  - destruct o; cbn [enc app hd tl].
    + f_equal. f_equal. apply IHp; assumption.
    + reflexivity.
Qed.

(** *** Writer *)
Definition bw_ok (w : bwriter) (n : nat) : Prop := length (bw_data w) = 8 * n /\ bw_len w <= 8 * n.

(** the bits written and not yet cleared *)
Definition bw_bits (w : bwriter) : list bool := firstn (bw_len w) (bw_data w).

Lemma splice_length l pos v : pos + length v <= length l -> length (splice l pos v) = length l.
Proof. intros H. unfold splice. rewrite !app_length, firstn_length, skipn_length. lia. Qed.

Lemma firstn_splice l pos v : pos + length v <= length l -> firstn (pos + length v) (splice l pos v) = firstn pos l ++ v.
Proof.
  intros H. unfold splice. rewrite app_assoc, firstn_app.
  assert (E : length (firstn pos l ++ v) = pos + length v) by (rewrite app_length, firstn_length; lia).
  rewrite E, Nat.sub_diag. cbn [firstn]. rewrite app_nil_r. apply firstn_all2. lia.
Qed.

Lemma bw_put_spec w n v w' : bw_ok w n -> bw_put w v (length v) = Some w' ->
  bw_ok w' n /\ bw_bits w' = bw_bits w ++ v /\ bw_len w' = bw_len w + length v.
Proof.
  intros [Hd Hl] H. unfold bw_put in H. destruct (Nat.leb_spec (bw_len w + length v) (length (bw_data w))) as [L|L]; [|discriminate].
  assert (w' = BW (bw_len w + length v) (splice (bw_data w) (bw_len w) v)) as -> by congruence.
  unfold bw_ok, bw_bits. cbn [bw_len bw_data]. rewrite splice_length by assumption. repeat split; try lia.
  apply firstn_splice. assumption.
Qed.

Lemma bw_put_fits w n v : bw_ok w n -> bw_len w + length v <= 8 * n -> exists w', bw_put w v (length v) = Some w'.
Proof.
  intros [Hd Hl] H. unfold bw_put. destruct (Nat.leb_spec (bw_len w + length v) (length (bw_data w))) as [L|L]; [eauto|lia].
Qed.

Lemma bw_new_ok n : bw_ok (bw_new n) n.
Proof. split; [apply repeat_length | cbn; lia]. Qed.

Lemma firstn_bits_bytes l k : 8 * k <= length l -> bits_of_bytes (bytes_of_bits (firstn (8 * k) l)) = firstn (8 * k) l.
Proof. intros H. apply (proj1 (bytes_of_bits_spec k (firstn (8 * k) l) (firstn_length_le _ H))). Qed.

Lemma bw_full_bits w n : bw_ok w n -> bits_of_bytes (bw_full w) = firstn (8 * (bw_len w / 8)) (bw_bits w).
Proof.
  intros [Hd Hl]. unfold bw_full, bw_bits. pose proof (Nat.mul_div_le (bw_len w) 8).
  rewrite firstn_bits_bytes by lia. rewrite firstn_firstn. f_equal. lia.
Qed.

Lemma bw_clear_full_spec w n w' : bw_ok w n -> bw_clear_full w = Some w' ->
  bw_ok w' n /\ bw_bits w' = skipn (8 * (bw_len w / 8)) (bw_bits w) /\ bw_len w' = bw_len w mod 8.
Proof.
  intros [Hd Hl] H. unfold bw_clear_full in H. cbv zeta in H.
  destruct (Nat.ltb_spec (bw_len w / 8) (length (bw_data w) / 8)) as [L|L]; [|discriminate].
  assert (E : w' = BW (bw_len w mod 8) (splice (bw_data w) 0 (slice (bw_data w) (8 * (bw_len w / 8)) (8 * (bw_len w / 8) + 8)))) by congruence.
  clear H. subst w'. rewrite Hd in L. rewrite (Nat.mul_comm 8 n), Nat.div_mul in L by lia.
  assert (SL : length (slice (bw_data w) (8 * (bw_len w / 8)) (8 * (bw_len w / 8) + 8)) = 8).
  { unfold slice. rewrite firstn_length, skipn_length, Hd. lia. }
  pose proof (Nat.mod_upper_bound (bw_len w) 8). pose proof (Nat.div_mod_eq (bw_len w) 8).
  unfold bw_ok, bw_bits. cbn [bw_len bw_data].
  rewrite splice_length by lia. split; [split; lia|]. split; [|reflexivity].
  unfold splice. cbn [firstn app]. rewrite firstn_app, SL. replace (bw_len w mod 8 - 8) with 0 by lia.
  cbn [firstn]. rewrite app_nil_r. unfold slice. rewrite firstn_firstn, skipn_firstn_comm. f_equal. lia.
Qed.

Lemma bw_clear_full_fits w n : bw_ok w n -> bw_len w < 8 * n -> exists w', bw_clear_full w = Some w'.
Proof.
  intros [Hd Hl] H. unfold bw_clear_full. cbv zeta. rewrite Hd, (Nat.mul_comm 8 n), Nat.div_mul by lia.
  assert (bw_len w / 8 < n) by (apply Nat.div_lt_upper_bound; lia).
  destruct (Nat.ltb_spec (bw_len w / 8) n); [eauto|lia].
Qed.

Lemma bw_clear_spec w n : bw_ok w n -> bw_ok (bw_clear w) n /\ bw_bits (bw_clear w) = [] /\ bw_len (bw_clear w) = 0.
Proof. intros [Hd Hl]. unfold bw_clear, bw_ok, bw_bits. cbn. repeat split; [assumption|lia]. Qed.

(** the flushed bytes: all the bits, padded to a byte with whatever was there *)
Lemma bw_all_bits w n : bw_ok w n ->
  exists pad, bits_of_bytes (bw_all w) = bw_bits w ++ pad /\ length pad < 8 /\ (bw_len w + length pad) mod 8 = 0.
Proof.
  intros [Hd Hl]. unfold bw_all, bw_bits.
  set (k := (bw_len w + 7) / 8).
  pose proof (Nat.div_mod_eq (bw_len w + 7) 8). pose proof (Nat.mod_upper_bound (bw_len w + 7) 8).
  assert (K : bw_len w <= 8 * k /\ 8 * k < bw_len w + 8) by (fold k in H; lia).
  assert (K2 : 8 * k <= 8 * n) by lia.
  rewrite firstn_bits_bytes by lia.
  exists (skipn (bw_len w) (firstn (8 * k) (bw_data w))).
  assert (E : firstn (bw_len w) (bw_data w) = firstn (bw_len w) (firstn (8 * k) (bw_data w)))
    by (rewrite firstn_firstn; f_equal; lia).
  assert (L : length (skipn (bw_len w) (firstn (8 * k) (bw_data w))) = 8 * k - bw_len w)
    by (rewrite skipn_length, firstn_length, Hd; lia).
  rewrite E, firstn_skipn, L. repeat split; [lia|].
  replace (bw_len w + (8 * k - bw_len w)) with (k * 8) by lia. apply Nat.mod_mul. lia.
Qed.

(** *** Reader *)
Definition br_ok (r : breader) (n : nat) : Prop :=
  length (br_buf r) = 8 * n /\ br_start r <= br_end r /\ br_end r <= 8 * n /\ br_end r mod 8 = 0.
Definition br_bits (r : breader) : list bool := slice (br_buf r) (br_start r) (br_end r).

Lemma slice_length l a b : b <= length l -> length (slice l a b) = b - a.
Proof. intros H. unfold slice. rewrite firstn_length, skipn_length. lia. Qed.

Lemma br_bits_length r n : br_ok r n -> length (br_bits r) = br_len r.
Proof. intros (H & H1 & H2 & H3). unfold br_bits. rewrite slice_length by lia. reflexivity. Qed.

Lemma br_new_ok n : br_ok (br_new n) n.
Proof. unfold br_ok, br_new. cbn. rewrite repeat_length. repeat split; lia. Qed.

Lemma slice_splice l pos v : pos + length v <= length l -> slice (splice l pos v) pos (pos + length v) = v.
Proof.
  intros H. unfold slice, splice. replace (pos + length v - pos) with (length v) by lia.
  rewrite skipn_app, firstn_length, skipn_all2 by (rewrite firstn_length; lia).
  replace (pos - Nat.min pos (length l)) with 0 by lia. cbn [app skipn].
  rewrite firstn_app, Nat.sub_diag, firstn_all. cbn [firstn]. apply app_nil_r.
Qed.

Lemma roundup_le len e n : e mod 8 = 0 -> len <= e -> e <= 8 * n -> (8 - len mod 8) mod 8 + len <= e /\ ((8 - len mod 8) mod 8 + len) mod 8 = 0.
Proof.
  intros He Hl Hn. pose proof (Nat.mod_upper_bound len 8). pose proof (Nat.div_mod_eq len 8).
  pose proof (Nat.div_mod_eq e 8).
  destruct (Nat.eq_dec (len mod 8) 0) as [Z|Z].
  - rewrite Z. change ((8 - 0) mod 8) with 0. split; [lia|]. rewrite Nat.add_0_l. assumption.
  - rewrite (Nat.mod_small (8 - len mod 8)) by lia. split; [lia|].
    replace (8 - len mod 8 + len) with ((len / 8 + 1) * 8) by lia. apply Nat.mod_mul. lia.
Qed.

Lemma br_shift_spec r n : br_ok r n -> exists r', br_shift r = Some r' /\ br_ok r' n /\ br_bits r' = br_bits r /\ br_len r' = br_len r
  /\ br_end r' < br_len r + 8.
Proof.
  intros (H & H1 & H2 & H3). unfold br_shift. cbv zeta.
  destruct (roundup_le (br_len r) (br_end r) n H3) as [L M]; [unfold br_len; lia|assumption|].
  destruct (Nat.leb_spec ((8 - br_len r mod 8) mod 8 + br_len r) (length (br_buf r))) as [G|G]; [|lia].
  eexists. split; [reflexivity|].
  assert (SL : length (slice (br_buf r) (br_start r) (br_end r)) = br_len r) by (rewrite slice_length by lia; reflexivity).
  pose proof (Nat.mod_upper_bound (8 - br_len r mod 8) 8).
  unfold br_ok, br_bits, br_len. cbn [br_buf br_start br_end].
  rewrite splice_length by (rewrite SL; assumption).
  repeat split; try lia; try (unfold br_len in *; lia).
  unfold br_len in *. set (d := (8 - (br_end r - br_start r) mod 8) mod 8) in *.
  pose proof (slice_splice (br_buf r) d (slice (br_buf r) (br_start r) (br_end r))) as SS.
  rewrite SL in SS. apply SS. assumption.
Qed.

Lemma br_append_spec r n d : br_ok r n -> br_end r + 8 * length d <= 8 * n ->
  exists r', br_append r d = Some r' /\ br_ok r' n /\ br_bits r' = br_bits r ++ bits_of_bytes d
    /\ br_len r' = br_len r + 8 * length d.
Proof.
  intros (H & H1 & H2 & H3) Hf. unfold br_append. cbv zeta.
  assert (E : 8 * (br_end r / 8) = br_end r) by (pose proof (Nat.div_mod_eq (br_end r) 8); lia).
  rewrite E. destruct (Nat.leb_spec (br_end r + 8 * length d) (length (br_buf r))) as [G|G]; [|lia].
  eexists. split; [reflexivity|].
  pose proof (bits_of_bytes_length d) as BL.
  unfold br_ok, br_bits, br_len. cbn [br_buf br_start br_end].
  rewrite splice_length by lia. split.
  { split; [lia|]. split; [lia|]. split; [lia|]. rewrite Nat.mul_comm, Nat.mod_add by lia. assumption. }
  split; [|lia].
  unfold slice, splice.
  rewrite skipn_app, firstn_length. replace (br_start r - Nat.min (br_end r) (length (br_buf r))) with 0 by lia. cbn [skipn].
  rewrite app_assoc, firstn_app, app_length, skipn_length, firstn_length, BL.
  replace (br_end r + 8 * length d - br_start r - (Nat.min (br_end r) (length (br_buf r)) - br_start r + 8 * length d)) with 0 by lia.
  cbn [firstn]. rewrite app_nil_r. rewrite firstn_all2 by (rewrite app_length, skipn_length, firstn_length; lia).
  f_equal. rewrite skipn_firstn_comm. reflexivity.
Qed.

Lemma br_read_spec r n p : br_ok r n -> plen p <= br_len r ->
  exists r', br_read r p = (Some (dec p (br_bits r)), r') /\ br_ok r' n /\ br_bits r' = skipn (plen p) (br_bits r)
    /\ br_len r' = br_len r - plen p.
Proof.
  intros (H & H1 & H2 & H3) Hp. unfold br_read. destruct (Nat.ltb_spec (br_len r) (plen p)) as [G|G]; [lia|].
  eexists. split; [reflexivity|]. unfold br_ok, br_bits, br_len in *. cbn [br_buf br_start br_end].
  repeat split; try lia. unfold slice. rewrite skipn_firstn_comm, skipn_skipn. f_equal; [lia|f_equal; lia].
Qed.

Lemma br_read_none r p : br_len r < plen p -> br_read r p = (None, r).
Proof. intros G. unfold br_read. destruct (Nat.ltb_spec (br_len r) (plen p)); [reflexivity|lia]. Qed.

Lemma br_skip_spec r n : br_ok r n ->
  br_ok (br_skip r) n /\ br_bits (br_skip r) = skipn (br_len r mod 8) (br_bits r)
  /\ br_len (br_skip r) = br_len r - br_len r mod 8.
Proof.
  intros (H & H1 & H2 & H3).
  pose proof (Nat.div_mod_eq (br_start r + 7) 8). pose proof (Nat.mod_upper_bound (br_start r + 7) 8).
  pose proof (Nat.div_mod_eq (br_end r) 8).
  assert (L : 8 * ((br_start r + 7) / 8) <= br_end r) by lia.
  assert (E : br_len r mod 8 = 8 * ((br_start r + 7) / 8) - br_start r).
  { unfold br_len. symmetry. apply (Nat.mod_unique _ 8 (br_end r / 8 - (br_start r + 7) / 8)); lia. }
  unfold br_skip, br_ok, br_bits, br_len in *. cbn [br_buf br_start br_end].
  repeat split; try lia. rewrite E. unfold slice. rewrite skipn_firstn_comm, skipn_skipn. f_equal; [lia|f_equal; lia].
Qed.

Lemma br_prepare_spec r n : br_ok r n -> exists r', br_prepare r = Some r' /\ br_ok r' n /\ br_bits r' = br_bits r /\ br_len r' = br_len r
  /\ br_end r' < br_len r + 8 /\ br_room r' = n - br_end r' / 8.
Proof.
  intros K. assert (RM : forall r', br_ok r' n -> br_room r' = n - br_end r' / 8).
  { intros r' (H & H1 & H2 & H3). unfold br_room. rewrite H.
    replace (8 * n - 8 * (br_end r' / 8)) with ((n - br_end r' / 8) * 8) by lia. apply Nat.div_mul. lia. }
  unfold br_prepare. destruct (Nat.eqb_spec (br_len r) 0) as [Z|Z].
  - eexists. split; [reflexivity|]. destruct K as (H & H1 & H2 & H3).
    assert (K' : br_ok (BR (br_buf r) 0 0) n) by (unfold br_ok; cbn; repeat split; lia).
    split; [exact K'|]. split.
    + unfold br_bits, slice. cbn [br_start br_end br_buf]. unfold br_len in Z. rewrite Z. reflexivity.
    + unfold br_len in *. cbn [br_start br_end br_buf]. repeat split; [lia|lia|]. apply RM, K'.
  - destruct (br_shift_spec r n K) as (r' & A & B & C & D & E). exists r'. repeat split; auto; try apply B.
Qed.

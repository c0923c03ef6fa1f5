(** * Model of vlfs/src/fs/hamming.rs (feature "ecc", the crate default). *)
From Verif Require Import Base.

(** bitvec [BitSlice::copy_within(lo..hi, dst)] (memmove semantics), used at
    hamming.rs:9-14 and 91-96. *)
Definition copy_within (b : list bool) (lo hi dst : nat) : list bool :=
  firstn dst b ++ firstn (hi - lo) (skipn lo b) ++ skipn (dst + (hi - lo)) b.

(** hamming.rs:21-29 and 52-60: the seven parity accumulators (index 0 of the
    Rust [parity_bits] byte is never updated and stays true).
    [bit_i & (1 << (parity_bit_i - 1)) != 0] is [N.testbit bit_i (parity_bit_i-1)]. *)
Definition parity_step (b : list bool) (pb : list bool) (bit_i : nat) : list bool :=
  fold_left (fun pb p =>
      if N.testbit (N.of_nat bit_i) (N.of_nat (p - 1))
      then upd pb p (xorb (nth p pb false) (nth bit_i b false))
      else pb) (seq 1 7) pb.

Definition parity_bits (b : list bool) : list bool :=
  fold_left (parity_step b) (seq 1 103) (repeat true 8).

(** hamming.rs:34-37 (from 1) and 64-67 (from 0): whole-block parity. *)
Definition whole_parity (b : list bool) (from : nat) : bool :=
  fold_left (fun acc i => xorb acc (nth i b false)) (seq from (104 - from)) true.

(** hamming.rs:6-40 on the 104 bits of the buffer. *)
Definition encode_bits (b : list bool) : list bool :=
  let b := copy_within b 57 96 65 in
  let b := copy_within b 26 57 33 in
  let b := copy_within b 11 26 17 in
  let b := copy_within b 4 11 9 in
  let b := copy_within b 1 4 5 in
  let b := copy_within b 0 1 3 in
  let b := upd b 0 false in
  let b := fold_left (fun b p => upd b (2 ^ (p - 1)) false) (seq 1 7) b in
  let pb := parity_bits b in
  let b := fold_left (fun b p => upd b (2 ^ (p - 1)) (nth p pb false)) (seq 1 7) b in
  upd b 0 (whole_parity b 1).

(** hamming.rs:62: [parity_bits.into_inner()[0] >> 1]. *)
Definition error_index (b : list bool) : N := (bits_val (parity_bits b) / 2)%N.

(** hamming.rs:91-96. *)
Definition unpack_bits (b : list bool) : list bool :=
  let b := copy_within b 3 4 0 in
  let b := copy_within b 5 8 1 in
  let b := copy_within b 9 16 4 in
  let b := copy_within b 17 32 11 in
  let b := copy_within b 33 64 26 in
  let b := copy_within b 65 104 57 in
  b.

(** hamming.rs:69-101; [None] is the Rust [Err(())]. *)
Definition decode_bits (b : list bool) : option (list bool) :=
  let e := error_index b in
  let w := whole_parity b 0 in
  if (e =? 0)%N then Some (unpack_bits b)
  else if w then
    if (104 <=? e)%N then None
    else Some (unpack_bits (upd b (N.to_nat e) (negb (nth (N.to_nat e) b false))))
  else None.

(** hamming.rs:6, called with a 13-byte buffer. *)
Definition hamming_encode (buf : list byte) : list byte :=
  bytes_of_bits (encode_bits (bits_of_bytes buf)).

(** hamming.rs:48; result is the first 12 bytes. *)
Definition hamming_decode (buf : list byte) : option (list byte) :=
  match decode_bits (bits_of_bytes buf) with
  | Some b => Some (firstn 12 (bytes_of_bits b))
  | None => None
  end.

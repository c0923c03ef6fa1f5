(** * Property theorems C01-C04: error-correcting codes of the file table. *)
From Verif Require Import Base Hamming HammingProofs Majority.

(** C01. [d]: 12-byte payload; [x]: the spare 13th byte of the caller's buffer (ignored).
    [flip_bit k] flips bit [k mod 8] of byte [k / 8]. *)
Theorem C01_code_roundtrip : forall d x, length d = 12 -> bytes_ok d -> byte_ok x ->
  hamming_decode (hamming_encode (d ++ [x])) = Some d.
Proof. exact hamming_roundtrip. Qed.
Print Assumptions C01_code_roundtrip.

Theorem C01_single_bit_corrected : forall d x, length d = 12 -> bytes_ok d -> byte_ok x ->
  forall k, k < 104 -> hamming_decode (flip_bit k (hamming_encode (d ++ [x]))) = Some d.
Proof. exact hamming_one_flip. Qed.
Print Assumptions C01_single_bit_corrected.

Theorem C01_block_is_13_bytes : forall d x, length d = 12 -> bytes_ok d -> byte_ok x ->
  length (hamming_encode (d ++ [x])) = 13 /\ bytes_ok (hamming_encode (d ++ [x])).
Proof. intros d x H1 H2 H3. destruct (encode_shape d x H1 H2 H3) as (A & B & _). exact (conj A B). Qed.
Print Assumptions C01_block_is_13_bytes.

(** C02 *)
Theorem C02_double_bit_detected : forall d x, length d = 12 -> bytes_ok d -> byte_ok x ->
  forall j k, j < 104 -> k < 104 -> j <> k ->
  hamming_decode (flip_bit k (flip_bit j (hamming_encode (d ++ [x])))) = None.
Proof. exact hamming_two_flips. Qed.
Print Assumptions C02_double_bit_detected.

(** C03. Erased flash is 0xFF, zeroed flash 0x00. *)
Theorem C03_blank_block_rejected : forall v, v = 255%N \/ v = 0%N ->
  hamming_decode (repeat v 13) = None /\
  forall k, k < 104 -> hamming_decode (flip_bit k (repeat v 13)) = None.
Proof. exact blank_rejected. Qed.
Print Assumptions C03_blank_block_rejected.

Section ForU16.
Local Open Scope N_scope.
(** C04 *)
Theorem C04_field_roundtrip : forall v, v < 65536 -> find_most_common_u16_out_of_4 (u16x4 v) = Some v.
Proof. exact u16x4_read. Qed.
Print Assumptions C04_field_roundtrip.

(** any one of the four copies overwritten by arbitrary bytes *)
Theorem C04_one_copy_damaged : forall v k x y, v < 65536 -> (k < 4)%nat ->
  find_most_common_u16_out_of_4 (damage_copy k x y (u16x4 v)) = Some v.
Proof. exact u16x4_damage. Qed.
Print Assumptions C04_one_copy_damaged.

Theorem C04_two_copies_damaged_differently : forall v a b c d w1 w2,
  count v [a; b; c; d] = 2%nat -> w1 <> w2 -> In w1 [a;b;c;d] -> In w2 [a;b;c;d] ->
  w1 <> v -> w2 <> v -> find_most_common a b c d = Some v.
Proof. exact find_most_common_two. Qed.
Print Assumptions C04_two_copies_damaged_differently.

Theorem C04_result_is_held_twice : forall a b c d r,
  find_most_common a b c d = Some r -> (2 <= count r [a; b; c; d])%nat.
Proof. exact find_most_common_sound. Qed.
Print Assumptions C04_result_is_held_twice.

Theorem C04_no_result_iff_all_differ : forall a b c d,
  find_most_common a b c d = None <-> NoDup [a; b; c; d].
Proof. exact find_most_common_none. Qed.
Print Assumptions C04_no_result_iff_all_differ.
End ForU16.

(** ** Non-vacuity: concrete instances of the hypotheses. *)
Definition sample : list byte := [0;3;0;255;0;0;0;0;0;0;2;17]%N.
Example sample_ok : length sample = 12 /\ bytes_ok sample /\ byte_ok 0%N.
Proof. repeat split; repeat constructor; unfold byte_ok; lia. Qed.
Example sample_flip_changes : flip_bit 77 (hamming_encode (sample ++ [0%N])) <> hamming_encode (sample ++ [0%N])
  /\ hamming_decode (flip_bit 77 (hamming_encode (sample ++ [0%N]))) = Some sample
  /\ hamming_decode (flip_bit 3 (flip_bit 77 (hamming_encode (sample ++ [0%N])))) = None.
Proof. vm_compute. repeat split; congruence. Qed.
Example majority_two : count 7 [7; 9; 7; 8]%N = 2 /\ find_most_common 7 9 7 8 = Some 7%N.
Proof. vm_compute. auto. Qed.

(** * Model of vlfs/src/fs/utils.rs: quadruplicated u16 fields. *)
From Verif Require Import Base.
Local Open Scope N_scope.

(** utils.rs:10-31 *)
Definition find_most_common (a b c d : N) : option N :=
  if a =? b then Some a else
  if a =? c then Some a else
  if a =? d then Some a else
  if b =? c then Some b else
  if b =? d then Some b else
  if c =? d then Some c else None.

(** utils.rs:1-8 on an 8-byte slice (callers always pass exactly 8 bytes). *)
Definition find_most_common_u16_out_of_4 (buf : list byte) : option N :=
  find_most_common (of_be (firstn 2 buf)) (of_be (firstn 2 (skipn 2 buf)))
                   (of_be (firstn 2 (skipn 4 buf))) (of_be (firstn 2 (skipn 6 buf))).

(** utils.rs:37-45 *)
Definition u16x4 (v : N) : list byte := be_bytes 2 v ++ be_bytes 2 v ++ be_bytes 2 v ++ be_bytes 2 v.

(** ** Proofs *)
Definition count (v : N) (l : list N) : nat := count_occ N.eq_dec l v.

Lemma find_most_common_three v a b c d :
  (3 <= count v [a; b; c; d])%nat -> find_most_common a b c d = Some v.
Proof.
  unfold count, find_most_common. cbn [count_occ].
  destruct (N.eq_dec a v), (N.eq_dec b v), (N.eq_dec c v), (N.eq_dec d v); intros H; try lia; subst;
    rewrite ?N.eqb_refl; auto;
    repeat (match goal with |- context[?x =? ?y] => destruct (N.eqb_spec x y) end); subst; congruence.
Qed.

(** Two copies intact, the two damaged ones disagree with each other. *)
Lemma find_most_common_two v a b c d w1 w2 :
  count v [a; b; c; d] = 2%nat -> w1 <> w2 -> In w1 [a;b;c;d] -> In w2 [a;b;c;d] ->
  w1 <> v -> w2 <> v -> find_most_common a b c d = Some v.
Proof.
  unfold count, find_most_common. cbn [count_occ In].
  destruct (N.eq_dec a v), (N.eq_dec b v), (N.eq_dec c v), (N.eq_dec d v); intros H Hw H1 H2 Hv1 Hv2;
    try lia; subst; rewrite ?N.eqb_refl; auto;
    repeat (match goal with |- context[?x =? ?y] => destruct (N.eqb_spec x y) end); subst;
    try congruence;
    intuition congruence.
Qed.

Lemma find_most_common_sound a b c d r :
  find_most_common a b c d = Some r -> (2 <= count r [a; b; c; d])%nat.
Proof.
  unfold count, find_most_common. intros H.
  repeat (match type of H with context[?x =? ?y] => destruct (N.eqb_spec x y) end; subst);
    inversion H; subst; cbn [count_occ];
    repeat (match goal with |- context[N.eq_dec ?x ?y] => destruct (N.eq_dec x y) end); try congruence; lia.
Qed.

Lemma find_most_common_none a b c d :
  find_most_common a b c d = None <-> NoDup [a; b; c; d].
Proof.
  unfold find_most_common. split.
  - intros H.
    repeat (match type of H with context[?x =? ?y] => destruct (N.eqb_spec x y) end; [discriminate H|]).
    repeat constructor; cbn [In]; intuition congruence.
  - intros H. inversion H as [|? ? H1 H2]; subst. inversion H2 as [|? ? H3 H4]; subst.
    inversion H4 as [|? ? H5 H6]; subst. cbn [In] in *.
    repeat (match goal with |- context[?x =? ?y] => destruct (N.eqb_spec x y) end; subst); auto; exfalso; tauto.
Qed.

Lemma u16x4_length v : length (u16x4 v) = 8%nat.
Proof. reflexivity. Qed.

Lemma u16x4_read v : v < 65536 -> find_most_common_u16_out_of_4 (u16x4 v) = Some v.
Proof.
  intros H. unfold find_most_common_u16_out_of_4, u16x4. cbn [be_bytes app firstn skipn].
  change [(v / 256 ^ N.of_nat 1) mod 256; (v / 256 ^ N.of_nat 0) mod 256] with (be_bytes 2 v).
  rewrite of_be_be_bytes_id by exact H.
  unfold find_most_common. rewrite N.eqb_refl. reflexivity.
Qed.

(** Overwriting the two bytes of copy [k] (k = 0..3) with anything. *)
Definition damage_copy (k : nat) (x y : byte) (buf : list byte) : list byte :=
  upd (upd buf (2 * k) x) (2 * k + 1) y.

Lemma u16x4_damage v k x y : v < 65536 -> (k < 4)%nat ->
  find_most_common_u16_out_of_4 (damage_copy k x y (u16x4 v)) = Some v.
Proof.
  intros H Hk. unfold find_most_common_u16_out_of_4, u16x4, damage_copy.
  set (e := be_bytes 2 v).
  assert (He : exists p q, e = [p; q]) by (unfold e; cbn [be_bytes]; eauto).
  assert (Hv : of_be e = v) by (apply of_be_be_bytes_id; exact H).
  destruct He as (p & q & He). rewrite He in *. clearbody e. clear He.
  apply find_most_common_three. unfold count.
  destruct k as [|[|[|[|k]]]]; try lia; cbn [Nat.mul Nat.add app upd firstn skipn]; rewrite Hv;
    cbn [count_occ]; destruct (N.eq_dec v v); try congruence;
    match goal with |- context[N.eq_dec ?x ?y] => destruct (N.eq_dec x y) end; lia.
Qed.

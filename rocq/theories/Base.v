(** * Base: bytes, big/little-endian integers, list helpers shared by the models. *)
From Coq Require Export List NArith ZArith Arith Lia Bool.
From Coq Require Export ZifyBool ZifyNat ZifyN.
Export ListNotations.

Ltac Zify.zify_post_hook ::= Z.div_mod_to_equations.

Arguments N.add : simpl never.
Arguments N.mul : simpl never.
Arguments N.sub : simpl never.
Arguments N.div : simpl never.
Arguments N.modulo : simpl never.
Arguments N.pow : simpl never.
Arguments N.lxor : simpl never.
Arguments N.land : simpl never.
Arguments N.eqb : simpl never.
Arguments N.ltb : simpl never.
Arguments N.leb : simpl never.
Arguments N.testbit : simpl never.

(** A byte is an [N] below 256 (Rust [u8]). *)
Notation byte := N (only parsing).
Definition byte_ok (b : byte) : Prop := (b < 256)%N.
Definition byte_okb (b : byte) : bool := (b <? 256)%N.
Definition bytes_ok (l : list byte) : Prop := Forall byte_ok l.

(** [upd l i v]: the list [l] with element [i] replaced (no effect out of range:
    every use in the models is in range, or the out-of-range case is an explicit
    panic value of the model). *)
Fixpoint upd {A} (l : list A) (i : nat) (v : A) : list A :=
  match l, i with
  | [], _ => []
  | _ :: t, O => v :: t
  | x :: t, S j => x :: upd t j v
  end.

Lemma upd_length {A} (l : list A) i v : length (upd l i v) = length l.
Proof. revert i; induction l as [|x t IH]; intros [|j]; simpl; auto. Qed.

Lemma nth_upd_same {A} (l : list A) i v d : i < length l -> nth i (upd l i v) d = v.
Proof. revert i; induction l as [|x t IH]; intros [|j] H; simpl in *; try lia; auto. apply IH; lia. Qed.

Lemma nth_upd_other {A} (l : list A) i j v d : i <> j -> nth j (upd l i v) d = nth j l d.
Proof.
  revert i j; induction l as [|x t IH]; intros [|i] [|j] H; simpl; try lia; auto.
Qed.

Lemma nth_error_upd_same {A} (l : list A) i v : i < length l -> nth_error (upd l i v) i = Some v.
Proof. revert i; induction l as [|x t IH]; intros [|j] H; simpl in *; try lia; auto. apply IH; lia. Qed.

Lemma nth_error_upd_other {A} (l : list A) i j v :
  i <> j -> nth_error (upd l i v) j = nth_error l j.
Proof. revert i j; induction l as [|x t IH]; intros [|i] [|j] H; simpl; try lia; auto. Qed.

Lemma upd_id {A} (l : list A) i d : i < length l -> upd l i (nth i l d) = l.
Proof. revert i; induction l as [|x t IH]; intros [|j] H; simpl in *; try lia; auto. f_equal; apply IH; lia. Qed.

Lemma upd_upd {A} (l : list A) i a b : upd (upd l i a) i b = upd l i b.
Proof. revert i; induction l as [|x t IH]; intros [|j]; simpl; auto. f_equal; auto. Qed.

Lemma nth_ext_d {A} (l l' : list A) d :
  length l = length l' -> (forall i, i < length l -> nth i l d = nth i l' d) -> l = l'.
Proof. intros H1 H2. apply (nth_ext _ _ d d); auto. Qed.

(** ** Big-endian integers: Rust [uN::to_be_bytes] / [uN::from_be_bytes]. *)
Fixpoint be_bytes (k : nat) (v : N) : list byte :=
  match k with
  | O => []
  | S k' => ((v / 256 ^ N.of_nat k') mod 256)%N :: be_bytes k' v
  end.

Definition of_be (l : list byte) : N := fold_left (fun a b => a * 256 + b)%N l 0%N.

Lemma be_bytes_length k v : length (be_bytes k v) = k.
Proof. induction k; simpl; auto. Qed.

Lemma be_bytes_ok k v : bytes_ok (be_bytes k v).
Proof.
  induction k; simpl; constructor; auto. unfold byte_ok. apply N.mod_lt; lia.
Qed.

Lemma of_be_acc l : forall a, fold_left (fun a b => a * 256 + b)%N l a
                              = (a * 256 ^ N.of_nat (length l) + of_be l)%N.
Proof.
  induction l as [|x t IH]; intros a.
  - unfold of_be. cbn [fold_left length]. change (N.of_nat 0) with 0%N. rewrite N.pow_0_r. lia.
  - unfold of_be. cbn [fold_left length]. rewrite (IH (a * 256 + x)%N), (IH (0 * 256 + x)%N).
    rewrite Nat2N.inj_succ, N.pow_succ_r'. ring.
Qed.

Lemma of_be_cons b l : of_be (b :: l) = (b * 256 ^ N.of_nat (length l) + of_be l)%N.
Proof. unfold of_be at 1. cbn [fold_left]. rewrite of_be_acc. reflexivity. Qed.

Lemma of_be_app l1 l2 : of_be (l1 ++ l2) = (of_be l1 * 256 ^ N.of_nat (length l2) + of_be l2)%N.
Proof. unfold of_be at 1. rewrite fold_left_app. fold (of_be l1). apply of_be_acc. Qed.

Lemma of_be_be_bytes k v : of_be (be_bytes k v) = (v mod 256 ^ N.of_nat k)%N.
Proof.
  induction k as [|k IH].
  - cbn. rewrite N.mod_1_r. reflexivity.
  - cbn [be_bytes]. rewrite of_be_cons, be_bytes_length, IH.
    rewrite Nat2N.inj_succ, N.pow_succ_r'.
    set (p := (256 ^ N.of_nat k)%N).
    assert (Hp : (p <> 0)%N) by (apply N.pow_nonzero; lia).
    rewrite (N.mul_comm 256 p), N.mod_mul_r by lia. lia.
Qed.

Lemma of_be_be_bytes_id k v : (v < 256 ^ N.of_nat k)%N -> of_be (be_bytes k v) = v.
Proof. intros H. rewrite of_be_be_bytes. apply N.mod_small; auto. Qed.

Lemma of_be_bound l : bytes_ok l -> (of_be l < 256 ^ N.of_nat (length l))%N.
Proof.
  induction 1 as [|b l Hb Hl IH].
  - cbn. lia.
  - rewrite of_be_cons. cbn [length]. rewrite Nat2N.inj_succ, N.pow_succ_r'.
    unfold byte_ok in Hb. nia.
Qed.

Lemma be_bytes_of_be l : bytes_ok l -> be_bytes (length l) (of_be l) = l.
Proof.
  induction 1 as [|b l Hb Hl IH]; auto.
  cbn [length be_bytes]. rewrite of_be_cons.
  pose proof (of_be_bound l Hl) as Hbd.
  set (p := (256 ^ N.of_nat (length l))%N) in *.
  assert (Hp : (p <> 0)%N) by (apply N.pow_nonzero; lia).
  f_equal.
  - rewrite N.div_add_l by lia. rewrite N.div_small by lia. rewrite N.add_0_r.
    apply N.mod_small. exact Hb.
  - assert (H : forall k, (256 ^ N.of_nat k <> 0)%N) by (intros; apply N.pow_nonzero; lia).
    assert (G : forall k, k <= length l ->
                be_bytes k (b * p + of_be l) = be_bytes k (of_be l)).
    { induction k as [|k IHk]; intros Hk; auto. cbn [be_bytes]. f_equal.
      - assert (p = 256 ^ N.of_nat k * (256 * 256 ^ N.of_nat (length l - S k)))%N as ->.
        { unfold p. rewrite <- N.pow_succ_r', <- N.pow_add_r. f_equal. lia. }
        set (q := (256 ^ N.of_nat (length l - S k))%N).
        specialize (H k).
        set (r := (256 ^ N.of_nat k)%N) in *.
        replace (b * (r * (256 * q)) + of_be l)%N with ((b * q * 256) * r + of_be l)%N by lia.
        rewrite N.div_add_l by lia.
        rewrite N.add_comm, N.mod_add by lia. reflexivity.
      - apply IHk; lia. }
    rewrite G by lia. exact IH.
Qed.

(** ** Byte / bit-list conversion, LSB first (bitvec [Lsb0] order). *)
Definition byte_bits (b : byte) : list bool :=
  [N.testbit b 0; N.testbit b 1; N.testbit b 2; N.testbit b 3;
   N.testbit b 4; N.testbit b 5; N.testbit b 6; N.testbit b 7].

Fixpoint bits_val (l : list bool) : N :=
  match l with [] => 0 | b :: t => (if b then 1 else 0) + 2 * bits_val t end%N.

Definition bits_of_bytes (l : list byte) : list bool := flat_map byte_bits l.

Fixpoint bytes_of_bits (l : list bool) : list byte :=
  match l with
  | b0::b1::b2::b3::b4::b5::b6::b7::t => bits_val [b0;b1;b2;b3;b4;b5;b6;b7] :: bytes_of_bits t
  | _ => []
  end.

Definition all_bytes : list byte := map N.of_nat (seq 0 256).

Lemma byte_in_all b : byte_ok b -> In b all_bytes.
Proof.
  intros H. unfold all_bytes. rewrite <- (N2Nat.id b). apply in_map. apply in_seq.
  unfold byte_ok in H. lia.
Qed.

Lemma byte_sweep (P : byte -> bool) :
  forallb P all_bytes = true -> forall b, byte_ok b -> P b = true.
Proof. intros H b Hb. rewrite forallb_forall in H. apply H, byte_in_all, Hb. Qed.

Lemma bits_val_byte_bits b : byte_ok b -> bits_val (byte_bits b) = b.
Proof.
  intros Hb. apply N.eqb_eq.
  apply (byte_sweep (fun b => N.eqb (bits_val (byte_bits b)) b));
    [vm_compute; reflexivity | exact Hb].
Qed.

Lemma bytes_of_bits_of_bytes l : bytes_ok l -> bytes_of_bits (bits_of_bytes l) = l.
Proof.
  induction 1 as [|b l Hb Hl IH]; auto.
  unfold bits_of_bytes. cbn [flat_map byte_bits app].
  cbn [bytes_of_bits]. fold (bits_of_bytes l). rewrite IH. f_equal.
  apply (bits_val_byte_bits b Hb).
Qed.

Lemma bits_of_bytes_length l : length (bits_of_bytes l) = 8 * length l.
Proof. induction l as [|b l IH]; auto. unfold bits_of_bytes in *. cbn [flat_map]. rewrite app_length, IH. simpl. lia. Qed.

Lemma byte_bits_bits_val b0 b1 b2 b3 b4 b5 b6 b7 :
  byte_bits (bits_val [b0;b1;b2;b3;b4;b5;b6;b7]) = [b0;b1;b2;b3;b4;b5;b6;b7].
Proof. destruct b0,b1,b2,b3,b4,b5,b6,b7; vm_compute; reflexivity. Qed.

Lemma bits_val_bound l : (bits_val l < 2 ^ N.of_nat (length l))%N.
Proof.
  induction l as [|b t IH]; cbn [bits_val length].
  - vm_compute; reflexivity.
  - rewrite Nat2N.inj_succ, N.pow_succ_r'. destruct b; lia.
Qed.

Lemma bytes_of_bits_spec n : forall l, length l = 8 * n ->
  bits_of_bytes (bytes_of_bits l) = l /\ length (bytes_of_bits l) = n /\ bytes_ok (bytes_of_bits l).
Proof.
  induction n as [|n IH]; intros l Hl.
  - destruct l; [|discriminate]. repeat split; constructor.
  - destruct l as [|b0 [|b1 [|b2 [|b3 [|b4 [|b5 [|b6 [|b7 t]]]]]]]]; simpl in Hl; try lia.
    destruct (IH t) as (H1 & H2 & H3); [lia|].
    cbn [bytes_of_bits]. unfold bits_of_bytes in *. cbn [flat_map]. repeat split.
    + rewrite byte_bits_bits_val. rewrite H1. reflexivity.
    + cbn [length]. lia.
    + constructor; auto. apply (bits_val_bound [b0;b1;b2;b3;b4;b5;b6;b7]).
Qed.

Lemma nodup_app {A} (l1 l2 : list A) :
  NoDup (l1 ++ l2) <-> NoDup l1 /\ NoDup l2 /\ (forall x, In x l1 -> ~ In x l2).
Proof.
  induction l1 as [|a l IH]; cbn [app].
  - split; [intros H; repeat split; auto using NoDup_nil | intros (_ & H & _); auto].
  - rewrite !NoDup_cons_iff, IH, in_app_iff. cbn [In]. split.
    + intros (H1 & H2 & H3 & H4). repeat split; auto. intros x [<-|Hx]; auto.
    + intros ((H1 & H2) & H3 & H4). repeat split; auto. intros [Hx|Hx]; auto. apply (H4 a); auto.
Qed.

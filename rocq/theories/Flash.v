(** * Flash memory and power failure.
    Models the contract stated in vlfs/src/driver/flash.rs:7-67 ("erase methods must set all
    the erased bits to 1") and the behaviour of the NOR chip itself (the driver crate is not in this repository): programming
    can only clear bits.  (The stand-ins of vlfs/src/flash/memory_flash.rs and file_flash.rs overwrite instead; theorem C112
    in PropChip shows that the file system cannot tell.)  Driver errors are not modelled: every operation succeeds unless
    power is lost. *)
From Verif Require Import Base.
Local Open Scope N_scope.

Definition flash := N -> byte.

Inductive fop :=
| Erase (addr len : N)                 (* erase_sector_4kib / erase_block_32kib / erase_block_64kib *)
| Prog (addr : N) (data : list byte).  (* write_256b *)

(** driver/flash.rs:19-22, 63-67 *)
Definition apply_op (f : flash) (o : fop) : flash :=
  match o with
  | Erase a n => fun x => if (a <=? x) && (x <? a + n) then 255 else f x
  | Prog a d => fun x => if (a <=? x) && (x <? a + N.of_nat (length d))
                         then N.land (f x) (nth (N.to_nat (x - a)) d 255) else f x
  end.

Definition apply_ops (f : flash) (l : list fop) : flash := fold_left apply_op l f.

(** driver/flash.rs:73-110 [read]: [n] bytes starting at [a]. *)
Definition rd (f : flash) (a : N) (n : nat) : list byte :=
  map (fun i => f (a + N.of_nat i)) (seq 0 n).

(** ** Power failure.
    Losing power during a list of operations executes a prefix of it completely; the operation
    under way may have been executed partially.  For a page program, "partially" means that only
    the first [j] bytes of the page were programmed (j = 0 and j = all included). For an erase,
    it means that any subset of its 256-byte pages was erased. *)
Inductive torn : fop -> flash -> flash -> Prop :=
| torn_prog a d j f : torn (Prog a d) f (apply_op f (Prog a (firstn j d)))
| torn_erase a n (pages : N -> bool) f :
    torn (Erase a n) f
      (fun x => if (a <=? x) && (x <? a + n) && pages ((x - a) / 256) then 255 else f x).

Inductive crash : flash -> list fop -> flash -> Prop :=
| crash_at f l : crash f l f
| crash_torn f o l f' : torn o f f' -> crash f (o :: l) f'
| crash_later f o l f' : crash (apply_op f o) l f' -> crash f (o :: l) f'.

(** Crashes in which an erase is all-or-nothing. *)
Inductive crash_ae : flash -> list fop -> flash -> Prop :=
| ae_at f l : crash_ae f l f
| ae_torn f a d j l : crash_ae f (Prog a d :: l) (apply_op f (Prog a (firstn j d)))
| ae_later f o l f' : crash_ae (apply_op f o) l f' -> crash_ae f (o :: l) f'.

(** ** Basic facts *)
Lemma rd_length f a n : length (rd f a n) = n.
Proof. unfold rd. rewrite map_length, seq_length. reflexivity. Qed.

Lemma rd_cons f a n : rd f a (S n) = f a :: rd f (a + 1) n.
Proof.
  unfold rd. cbn [seq map]. rewrite N.add_0_r. f_equal.
  rewrite <- seq_shift, map_map. apply map_ext. intros i. f_equal. lia.
Qed.

Lemma rd_nth f a n i d : (i < n)%nat -> nth i (rd f a n) d = f (a + N.of_nat i).
Proof.
  revert a i. induction n as [|n IH]; intros a i H; [lia|].
  rewrite rd_cons. destruct i as [|i]; cbn [nth].
  - rewrite N.add_0_r. reflexivity.
  - rewrite IH by lia. f_equal. lia.
Qed.

Lemma rd_ext f g a n : (forall i, (i < n)%nat -> f (a + N.of_nat i) = g (a + N.of_nat i)) ->
  rd f a n = rd g a n.
Proof. intros H. unfold rd. apply map_ext_in. intros i Hi. apply in_seq in Hi. apply H. lia. Qed.

Lemma rd_app f a n m : rd f a (n + m) = rd f a n ++ rd f (a + N.of_nat n) m.
Proof.
  revert a. induction n as [|n IH]; intros a.
  - cbn [Nat.add]. change (N.of_nat 0) with 0. rewrite N.add_0_r. reflexivity.
  - cbn [Nat.add]. rewrite !rd_cons. cbn [app]. f_equal. rewrite IH. do 2 f_equal. lia.
Qed.

Lemma apply_ops_app f l1 l2 : apply_ops f (l1 ++ l2) = apply_ops (apply_ops f l1) l2.
Proof. apply fold_left_app. Qed.

Lemma land_255 b : byte_ok b -> N.land 255 b = b.
Proof. intros H. rewrite N.land_comm. change 255 with (N.ones 8). rewrite N.land_ones. apply N.mod_small. exact H. Qed.

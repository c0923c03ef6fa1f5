(** * What a NOR flash chip requires of its driver (specification)
    vlfs/src/driver/flash.rs:7-67: sectors and blocks are erased at addresses that are multiples of their size; a program command
    writes one page of 256 bytes, from the beginning of the page ([write_256b]: "address must be 256-byte aligned"); and bits can only
    be cleared, so a page has to be blank for the bytes programmed to be the bytes stored. *)
From Verif Require Import Base Flash.
Local Open Scope N_scope.

(** vlfs/src/flash/memory_flash.rs:6, file_flash.rs:11: the size of the device *)
Definition DEVICE_BYTES : N := 262144 * 256.

Definition allowed_op (f : flash) (o : fop) : Prop :=
  match o with
  | Erase a n => (n = 4096 \/ n = 32768 \/ n = 65536) /\ a mod n = 0 /\ a + n <= DEVICE_BYTES
  | Prog a d => length d = 256%nat /\ bytes_ok d /\ a mod 256 = 0 /\ a + 256 <= DEVICE_BYTES /\
                forall x, a <= x < a + 256 -> f x = 255
  end.

(** every operation of the list is allowed on the flash as it is when the operation starts *)
Fixpoint by_the_rules (f : flash) (ops : list fop) : Prop :=
  match ops with
  | [] => True
  | o :: rest => allowed_op f o /\ by_the_rules (apply_op f o) rest
  end.

Lemma rules_app f l1 l2 : by_the_rules f (l1 ++ l2) <-> by_the_rules f l1 /\ by_the_rules (apply_ops f l1) l2.
Proof.
  revert f. induction l1 as [|o l IH]; intros f; cbn [app by_the_rules apply_ops fold_left]; [tauto|].
  fold (apply_ops (apply_op f o) l). rewrite IH. tauto.
Qed.

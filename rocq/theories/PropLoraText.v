(** * Property C131: the printed LoRa key is a JSON array that reads back as the same key. *)
From Verif Require Import LoraText.
From Coq Require Import String Ascii List Arith NArith Lia.
Import ListNotations.
Local Open Scope N_scope.

(** ** Specification: reading a JSON array of natural numbers (RFC 8259: no leading zeros, blanks allowed between tokens) *)
Definition value (c : ascii) : N := N_of_ascii c - 48.
Definition is_digit (c : ascii) : bool := (48 <=? N_of_ascii c) && (N_of_ascii c <=? 57).
Definition is_blank (c : ascii) : bool := (N_of_ascii c =? 32) || (N_of_ascii c =? 9) || (N_of_ascii c =? 10) || (N_of_ascii c =? 13).

Fixpoint blanks (l : list ascii) : list ascii :=
  match l with c :: l' => if is_blank c then blanks l' else l | [] => [] end.

Fixpoint digits (acc : N) (l : list ascii) : N * list ascii :=
  match l with
  | c :: l' => if is_digit c then digits (10 * acc + value c) l' else (acc, l)
  | [] => (acc, [])
  end.

Definition number (l : list ascii) : option (N * list ascii) :=
  match l with
  | c :: l' => if Ascii.eqb c "0" then Some (0, l') else if is_digit c then Some (digits (value c) l') else None
  | [] => None
  end.

(** the elements and the closing bracket *)
Fixpoint elements (fuel : nat) (l : list ascii) : option (list N * list ascii) :=
  match fuel with
  | O => None
  | S fuel =>
    match number (blanks l) with
    | None => None
    | Some (n, l1) =>
      match blanks l1 with
      | c :: l2 =>
        if Ascii.eqb c "," then match elements fuel l2 with Some (ns, r) => Some (n :: ns, r) | None => None end
        else if Ascii.eqb c "]" then Some ([n], l2) else None
      | [] => None
      end
    end
  end.

Definition json_array (l : list ascii) : option (list N) :=
  match blanks l with
  | c :: l' => if Ascii.eqb c "[" then
                 match elements (length l') l' with
                 | Some (ns, r) => match blanks r with [] => Some ns | _ => None end
                 | None => None
                 end
               else None
  | [] => None
  end.

(** ** Proofs *)
Lemma number_comma_list (rest : list ascii) : Forall (fun b => number (blanks (dec b ++ ","%char :: rest)) = Some (b, ","%char :: rest)) (map N.of_nat (seq 0 256)).
Proof. cbv [seq map]. repeat (constructor; [reflexivity|]). constructor. Qed.

Lemma number_bracket_list (rest : list ascii) : Forall (fun b => number (blanks (dec b ++ "]"%char :: rest)) = Some (b, "]"%char :: rest)) (map N.of_nat (seq 0 256)).
Proof. cbv [seq map]. repeat (constructor; [reflexivity|]). constructor. Qed.

Lemma byte_in b : b < 256 -> In b (map N.of_nat (seq 0 256)).
Proof. intro H. apply in_map_iff. exists (N.to_nat b). split; [apply N2Nat.id|]. apply in_seq. lia. Qed.

Lemma number_comma b rest : b < 256 -> number (blanks (dec b ++ ","%char :: rest)) = Some (b, ","%char :: rest).
Proof. intro H. exact (proj1 (Forall_forall _ _) (number_comma_list rest) b (byte_in b H)). Qed.
Lemma number_bracket b rest : b < 256 -> number (blanks (dec b ++ "]"%char :: rest)) = Some (b, "]"%char :: rest).
Proof. intro H. exact (proj1 (Forall_forall _ _) (number_bracket_list rest) b (byte_in b H)). Qed.

Lemma dec_length b : (1 <= length (dec b))%nat.
Proof. unfold dec. destruct (b <? 10); [cbn; lia|]. destruct (b <? 100); cbn; lia. Qed.

Lemma blanks_space l : blanks (" "%char :: l) = blanks l.
Proof. reflexivity. Qed.

Lemma elements_all key : forall i len fuel sp,
  key <> [] -> (len = i + length key)%nat -> Forall (fun b => b < 256) key -> sp = [] \/ sp = [" "%char] -> (length key <= fuel)%nat ->
  elements fuel (sp ++ push_all i len key ++ ["]"%char]) = Some (key, []).
Proof.
  induction key as [|b key IH]; intros i len fuel sp NE L B SP F; [contradiction|].
  inversion B as [|x y Hb B' EX]; subst. destruct fuel as [|fuel]; [cbn in F; lia|].
  assert (BS : forall l, blanks (sp ++ l) = blanks l) by (intro l; destruct SP as [->| ->]; reflexivity).
  cbn [elements]. rewrite BS. cbn [push_all]. destruct key as [|b' key].
  - cbn [length push_all]. replace (Nat.ltb i (i + 1 - 1)) with false by (symmetry; apply Nat.ltb_ge; lia).
    cbn [app]. rewrite app_nil_r. rewrite (number_bracket b [] Hb). reflexivity.
  - replace (Nat.ltb i (i + length (b :: b' :: key) - 1)) with true by (symmetry; apply Nat.ltb_lt; cbn [length]; lia).
    rewrite <- !app_assoc. change (([","; " "]%char ++ ?x)) with (","%char :: " "%char :: x).
    cbn [app]. rewrite (number_comma b _ Hb).
    change (blanks (","%char :: ?x)) with (","%char :: x). cbn [Ascii.eqb Bool.eqb].
    change (Ascii.eqb "," ",") with true. cbv iota.
    change (" "%char :: push_all (S i) (i + length (b :: b' :: key)) (b' :: key) ++ ["]"%char])
      with ([" "%char] ++ push_all (S i) (i + length (b :: b' :: key)) (b' :: key) ++ ["]"%char]).
    rewrite (IH (S i) _ fuel [" "%char]); [reflexivity|discriminate|cbn [length]; lia|exact B'|now right|cbn [length] in F |- *; lia].
Qed.

Lemma push_length key : forall i len, (length key <= length (push_all i len key))%nat.
Proof.
  induction key as [|b key IH]; intros i len; cbn [push_all length]; [lia|].
  rewrite !app_length. pose proof (dec_length b). specialize (IH (S i) len). lia.
Qed.

(** C131. Pasted into the configuration file, the printed key reads back as the key that was generated, for every key. *)
Theorem C131_reads_back (key : list N) :
  length key = 32%nat -> Forall (fun b => b < 256) key -> json_array (format_lora_key key) = Some key.
Proof.
  intros L B. unfold json_array, format_lora_key.
  change (blanks (["["]%char ++ ?x)) with ("["%char :: x). cbv iota. change (Ascii.eqb "[" "[") with true. cbv iota.
  rewrite (elements_all key 0 (length key) _ []); [reflexivity|intros ->; discriminate|reflexivity|exact B|now left|].
  rewrite app_length. pose proof (push_length key 0 (length key)). lia.
Qed.

(** ... so two keys that print the same are the same. *)
Theorem C131_distinct (k1 k2 : list N) :
  length k1 = 32%nat -> length k2 = 32%nat -> Forall (fun b => b < 256) k1 -> Forall (fun b => b < 256) k2 ->
  format_lora_key k1 = format_lora_key k2 -> k1 = k2.
Proof.
  intros L1 L2 B1 B2 E. apply C131_reads_back in B1; [|exact L1]. apply C131_reads_back in B2; [|exact L2].
  rewrite E in B1. rewrite B1 in B2. now injection B2.
Qed.

(** *** Instance *)
Lemma C131_instance : string_of_list_ascii (format_lora_key [0; 7; 42; 100; 255]) = "[0, 7, 42, 100, 255]"%string
  /\ json_array (format_lora_key [0; 7; 42; 100; 255]) = Some [0; 7; 42; 100; 255].
Proof. split; reflexivity. Qed.

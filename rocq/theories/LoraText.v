(** * The key `vl-cli gen-lora-key` prints.
    vl-host-lib/src/vl/lora_key.rs:10-24, printed in vl-cli/src/main.rs:374-377; it is pasted into the JSON file of the
    device configuration (vl-host-lib/src/vl/device_config.rs:15, vl-cli/test-configs/avionics.json:13).
    Rust's [Display] for [u8] (a library) is modelled as plain decimal. *)
From Coq Require Import Ascii List NArith.
Import ListNotations.
Local Open Scope N_scope.

Definition digit (n : N) : ascii := ascii_of_N (48 + n).

(** [format!("{}", byte)] *)
Definition dec (b : N) : list ascii :=
  if b <? 10 then [digit b]
  else if b <? 100 then [digit (b / 10); digit (b mod 10)]
  else [digit (b / 100); digit (b / 10 mod 10); digit (b mod 10)].

(** The loop (lora_key.rs:13-19): [i] is the index of the next byte, [len] the length of the key *)
Fixpoint push_all (i len : nat) (key : list N) : list ascii :=
  match key with
  | [] => []
  | b :: key => dec b ++ (if Nat.ltb i (len - 1) then [","; " "]%char else []) ++ push_all (S i) len key
  end.

(** lora_key.rs:10-22 *)
Definition format_lora_key (key : list N) : list ascii := ["["]%char ++ push_all 0 (length key) key ++ ["]"]%char.

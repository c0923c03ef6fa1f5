(** * The measuring flash: the wrapper the flight computer's file system runs on.
    vlfs/src/flash/stat_flash.rs, created in firmware-common/src/vl_main.rs:51-55.

    A chip is any transition function: from a state and a call to what the call returns (an error included, and the
    caller's buffer afterwards) and the next state.  Times are rationals (f64 in the code: rounding is not modelled);
    [usize] is 32 bits wide on the device and its counters wrap.
    The wrapper's methods take [&mut self], so calls do not overlap; [reset_stat] and [get_stat] take [&self] and another
    task may run them at any await, so also while a call is in progress. *)
From Verif Require Import Base.
From Coq Require Import QArith.
Local Open Scope N_scope.

(** The trait's required methods (driver/flash.rs:8-66) *)
Inductive call :=
| Size | ResetChip
| EraseSector (a : N) | EraseBlock32 (a : N) | EraseBlock64 (a : N)
| Read4k (a : N) (n : nat) (buf : list byte)
| Write256 (a : N) (buf : list byte).

Definition chip (S R : Type) := S -> call -> R * S.

(** stat_flash.rs:8-20 *)
Record stat := Stat {
  erase_4k_time : Q; erase_4k_count : N;
  erase_32k_time : Q; erase_32k_count : N;
  erase_64k_time : Q; erase_64k_count : N;
  read_time : Q; read_count : N;
  write_time : Q; write_count : N }.

(** stat_flash.rs:8 (Default), 27-31, 33-38 *)
Definition no_stat : stat := Stat 0 0 0 0 0 0 0 0 0 0.

Definition bump (n : N) : N := (n + 1) mod 2 ^ 32.

(** The additions of [run_with_stat!] for one method (stat_flash.rs:72-78 with the names of 94-122);
    [size] and [reset] only forward (86-92). *)
Definition note (c : call) (dt : Q) (s : stat) : stat :=
  let '(Stat t4 n4 t32 n32 t64 n64 tr nr tw nw) := s in
  match c with
  | Size | ResetChip => s
  | EraseSector _ => Stat (t4 + dt)%Q (bump n4) t32 n32 t64 n64 tr nr tw nw
  | EraseBlock32 _ => Stat t4 n4 (t32 + dt)%Q (bump n32) t64 n64 tr nr tw nw
  | EraseBlock64 _ => Stat t4 n4 t32 n32 (t64 + dt)%Q (bump n64) tr nr tw nw
  | Read4k _ _ _ => Stat t4 n4 t32 n32 t64 n64 (tr + dt)%Q (bump nr) tw nw
  | Write256 _ _ => Stat t4 n4 t32 n32 t64 n64 tr nr (tw + dt)%Q (bump nw)
  end.

(** What happens on the device: a call starts ([timer.now_ms()] before it), a call ends, somebody resets or reads the figures. *)
Inductive event :=
| Begin (c : call) (t : Q)
| End (t : Q)
| ResetStat
| GetStat.

Inductive seen (R : Type) := Returned (r : R) | Figures (s : stat).
Arguments Returned {R}. Arguments Figures {R}.

Record wrapper (S : Type) := Wrapper { w_chip : S; w_stat : stat; w_busy : option (call * Q) }.
Arguments Wrapper {S}. Arguments w_chip {S}. Arguments w_stat {S}. Arguments w_busy {S}.

(** stat_flash.rs:67-81; the call on the chip itself (70) takes effect before its [End].  [None]: not an execution. *)
Definition step {S R} (ch : chip S R) (w : wrapper S) (e : event) : option (list (seen R) * wrapper S) :=
  match e, w_busy w with
  | Begin c t, None => Some ([], Wrapper (w_chip w) (w_stat w) (Some (c, t)))
  | End t, Some (c, t0) =>
      let '(r, s') := ch (w_chip w) c in
      Some ([Returned r], Wrapper s' (note c (t - t0)%Q (w_stat w)) None)
  | ResetStat, b => Some ([], Wrapper (w_chip w) no_stat b)
  | GetStat, b => Some ([Figures (w_stat w)], w)
  | _, _ => None
  end.

Fixpoint run {S R} (ch : chip S R) (w : wrapper S) (l : list event) : option (list (seen R) * wrapper S) :=
  match l with
  | [] => Some ([], w)
  | e :: l =>
      match step ch w e with
      | None => None
      | Some (o, w') => match run ch w' l with None => None | Some (o', w'') => Some (o ++ o', w'') end
      end
  end.

(** stat_flash.rs:27-31, 46-49 *)
Definition start {S} (s : S) : wrapper S := Wrapper s no_stat None.

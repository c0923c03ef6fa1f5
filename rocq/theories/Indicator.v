(** * Model of common/indicator_controller.rs: blink patterns *)
From Coq Require Import List Arith Lia Bool.
Import ListNotations.
Local Open Scope nat_scope.

(** One call of [set_enable] and the interval it is meant for: the value, the scheduled start and the
    scheduled end ([end_time], line 50).  Times in ms; the code's f64 clock is modelled by [nat]. *)
Record lit := Lit { on : bool; from : nat; until : nat }.

(** the body of the [for], lines 44-53: [start_time], [is_enabled], the calls so far *)
Definition segment (s : nat * bool * list lit) (d : nat) : nat * bool * list lit :=
  let '(start, en, acc) := s in
  if d =? 0 then (start, negb en, acc)
  else (start + d, negb en, acc ++ [Lit en start (start + d)]).

(** one turn of the outer [loop], lines 42-54: [is_enabled] starts as true *)
Definition pass (pattern : list nat) (start : nat) : nat * list lit :=
  let '(start, _, acc) := fold_left segment pattern (start, true, []) in (start, acc).

(** the first [k] turns, lines 35-55.  An empty pattern returns at once (lines 37-39). *)
Fixpoint run_single (k : nat) (pattern : list nat) (start : nat) : list lit :=
  match pattern, k with
  | [], _ | _, 0 => []
  | _, S k => let '(start, acc) := pass pattern start in acc ++ run_single k pattern start
  end.

(** When the calls really happen: the first at [now]; after each call the task asks for a delay of
    [end_time - now] (line 51; no wait if that is negative) and wakes up [late] ms late. *)
Fixpoint real_times (now : nat) (ls : list lit) (late : list nat) : list nat :=
  match ls, late with
  | l :: ls, x :: late => now :: real_times (Nat.max now (until l) + x) ls late
  | l :: _, [] => [now]
  | [], _ => []
  end.

(** * Boot-time to unix-time lookup in IEEE-754 double arithmetic.
    Models vl-host-lib/src/common/unix_timestamp_lut.rs over f64 (HostTime.v has
    the same code over exact numbers).  Panics are explicit. *)
From Coq Require Import ZArith List Arith Bool.
From Flocq Require Import Core BinarySingleNaN.
From Verif Require Import FloatFixed.
Import ListNotations.

Definition fpoint := (f64 * f64)%type.   (* (boot_timestamp, unix_timestamp) *)

Inductive outcome (A : Type) := Panics | Gives (a : A).
Arguments Panics {A}. Arguments Gives {A}.

(** sort_timestamps (20-22): sort_by is a stable sort, here insertion sort.  With
    two or more points every point is compared with another one, so a NaN boot
    time makes the unwrap of partial_cmp panic. *)
Fixpoint finsert (p : fpoint) (l : list fpoint) : list fpoint :=
  match l with
  | [] => [p]
  | x :: l' => if Bleb (fst p) (fst x) then p :: x :: l' else x :: finsert p l'
  end.
Fixpoint fsort (l : list fpoint) : list fpoint :=
  match l with [] => [] | p :: l' => finsert p (fsort l') end.
Definition sort_timestamps_f (l : list fpoint) : outcome (list fpoint) :=
  if (length l <? 2)%nat then Gives l
  else if existsb (fun p => is_nan (fst p)) l then Panics else Gives (fsort l).

(** f64::map_range(from, to) of the map-range crate *)
Definition map_range_f (q a b c d : f64) : f64 :=
  Bplus mode_NE (Bdiv mode_NE (Bmult mode_NE (Bminus mode_NE q a) (Bminus mode_NE d c)) (Bminus mode_NE b a)) c.

(** get_unix_timestamp (24-48) on sorted points; binary_search_by as in
    HostTime.v (at least one comparison with two or more points) *)
Inductive get_unix_timestamp_f (points : list fpoint) (q : f64) : outcome (option f64) -> Prop :=
| flut_few : (length points < 2)%nat -> get_unix_timestamp_f points q (Gives None)
| flut_nan : (2 <= length points)%nat -> is_nan q = true -> get_unix_timestamp_f points q Panics
| flut_hit i b u : (2 <= length points)%nat -> nth_error points i = Some (b, u) -> Beqb b q = true ->
    get_unix_timestamp_f points q (Gives (Some u))
| flut_miss i b0 u0 b1 u1 : (2 <= length points)%nat -> is_nan q = false -> Forall (fun p => Beqb (fst p) q = false) points ->
    i = Nat.min (Nat.max (length (filter (fun p => Bltb (fst p) q) points)) 1) (length points - 1) ->
    nth_error points (i - 1) = Some (b0, u0) -> nth_error points i = Some (b1, u1) ->
    get_unix_timestamp_f points q (Gives (Some (map_range_f q b0 b1 u0 u1))).

(** * Time conversion, moving averages, periodic ticks.

    Models vl-host-lib/src/common/unix_timestamp_lut.rs,
    firmware-common/src/common/moving_average.rs,
    ferraris-calibration/src/moving_average.rs and
    firmware-common/src/common/ticker.rs.
    Simplification: f64/f32 arithmetic is exact rational arithmetic, except in
    [ssma_ieee]. *)
From Coq Require Import List Arith Bool QArith Qround Lia.
From Verif Require Import Numerics.
From Coq Require Import SpecFloat.
Import ListNotations.
Local Open Scope Q_scope.

(** ** unix_timestamp_lut.rs *)
Definition point := (Q * Q)%type.   (* (boot_timestamp, unix_timestamp) *)

(** sort_timestamps (20-22): slice::sort_by, a stable sort, as insertion sort *)
Fixpoint insert_point (p : point) (l : list point) : list point :=
  match l with
  | [] => [p]
  | x :: l' => if Qle_bool (fst p) (fst x) then p :: x :: l' else x :: insert_point p l'
  end.
Fixpoint sort_timestamps (l : list point) : list point :=
  match l with [] => [] | p :: l' => insert_point p (sort_timestamps l') end.

(** f64::map_range(from, to) of the map-range crate *)
Definition map_range (q a b c d : Q) : Q := (q - a) * (d - c) / (b - a) + c.

(** get_unix_timestamp (24-48).  slice::binary_search_by returns Ok(i) for
    some i whose key is equal (any, if several are), else Err(i) with i the
    number of smaller keys. *)
Inductive get_unix_timestamp (points : list point) (q : Q) : option Q -> Prop :=
| lut_few : (length points < 2)%nat -> get_unix_timestamp points q None
| lut_hit i b u : (2 <= length points)%nat -> nth_error points i = Some (b, u) -> b == q ->
    get_unix_timestamp points q (Some u)
| lut_miss i b0 u0 b1 u1 : (2 <= length points)%nat -> Forall (fun p => ~ fst p == q) points ->
    i = Nat.min (Nat.max (length (filter (fun p => Qltb (fst p) q) points)) 1) (length points - 1) ->
    nth_error points (i - 1) = Some (b0, u0) -> nth_error points i = Some (b1, u1) ->
    get_unix_timestamp points q (Some (map_range q b0 b1 u0 u1)).

(** ** Moving averages; the deque is a list, newest sample first.  The sample
    type and its arithmetic are parameters ([over n x] is x / n). *)
Section Averages.
Variable S : Type.
Variables add sub : S -> S -> S.
Variable over : nat -> S -> S.
Variable zero : S.

(** NoSumSMA (firmware-common moving_average.rs:20-71) *)
Definition nsma_add (w : nat) (l : list S) (x : S) : list S :=
  if (w =? 0)%nat then l else
  let l := if (length l =? w)%nat then removelast l else l in x :: l.
Definition nsma_average (l : list S) : S :=
  if (length l =? 0)%nat then zero else over (length l) (fold_left add l zero).
Definition nsma_is_full (w : nat) (l : list S) : bool := (length l =? w)%nat.

(** SingleSumSMA (ferraris-calibration moving_average.rs:6-54) *)
Record ssma := SSMA { ss_samples : list S; ss_sum : S }.
Definition ssma_new : ssma := SSMA [] zero.
Definition ssma_add (w : nat) (s : ssma) (x : S) : ssma :=
  if (w =? 0)%nat then s else
  let sum := add (ss_sum s) x in
  if (length (ss_samples s) =? w)%nat then SSMA (x :: removelast (ss_samples s)) (sub sum (last (ss_samples s) zero))
  else SSMA (x :: ss_samples s) sum.
Definition ssma_average (s : ssma) : S :=
  if (length (ss_samples s) =? 0)%nat then ss_sum s else over (length (ss_samples s)) (ss_sum s).
Definition ssma_is_full (w : nat) (s : ssma) : bool := (length (ss_samples s) =? w)%nat.
Definition ssma_clear (s : ssma) : ssma := SSMA [] zero.
End Averages.
Arguments nsma_add {S}. Arguments nsma_average {S}. Arguments nsma_is_full {S}.
Arguments ss_samples {S}. Arguments ss_sum {S}. Arguments ssma_new {S}. Arguments ssma_add {S}. Arguments ssma_average {S}.
Arguments ssma_is_full {S}. Arguments ssma_clear {S}.

(** division by a sample count, exactly and in IEEE double arithmetic *)
Definition over_Q (n : nat) (x : Q) : Q := x / inject_Z (Z.of_nat n).
Definition over_f64 (n : nat) (x : spec_float) : spec_float := SFdiv 53 1024 x (sf_of_Z 53 1024 (Z.of_nat n)).

(** ** ticker.rs *)
Record ticker := Ticker { tk_start : Q; tk_interval : Q; tk_i : Q }.
Definition every (now interval : Q) : ticker := Ticker now interval 0.
Definition every_starts_at (interval start : Q) : ticker := Ticker start interval 0.

(** next (33-42): called at [now]; a delay of d ms ends [late] ms after d *)
Definition next (t : ticker) (now late : Q) : ticker * Q :=
  let i := tk_i t + 1 in
  let wait_until := tk_start t + i * tk_interval t in
  (Ticker (tk_start t) (tk_interval t) i,
   if Qle_bool wait_until now then now else now + (wait_until - now) + late).

(** next_skip_missed (44-48) *)
Definition next_skip_missed (t : ticker) (now late : Q) : ticker * Q :=
  let wait_until := inject_Z (Qceiling (now / tk_interval t)) * tk_interval t in
  (t, now + (wait_until - now) + late).

Fixpoint ticks (t : ticker) (calls : list (Q * Q)) : list Q :=
  match calls with [] => [] | (now, late) :: cs => let '(t', r) := next t now late in r :: ticks t' cs end.

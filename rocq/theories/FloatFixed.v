(** * Fixed-point factories in IEEE-754 arithmetic.

    Models firmware-common/src/common/fixed_point.rs:23-114 and
    calculate-required-bits/src/lib.rs with the floating-point operations the
    target executes: every f32/f64 operation is the correctly rounded IEEE-754
    operation (round to nearest, ties to even) of Flocq, with signed zeros,
    subnormals, overflow to infinity and NaN.  The section is generic in the
    format; f32 is (24, 128) and f64 is (53, 1024).
    Simplification: there is one NaN (payloads are not observable here). *)
From Coq Require Import ZArith Bool.
From Flocq Require Import Core BinarySingleNaN.
Local Open Scope Z_scope.

(** [Panic] is the unwrap of num_traits::cast (fixed_point.rs:64-68) or of the
    inner to_fixed_point (fixed_point.rs:79) *)
Inductive fx_outcome := FxRejected | FxCode (n : Z) | FxPanic.

(** the base integer of VariableInt<bits> (variable_int.rs:88-119) *)
Definition base_width (bits : Z) : Z := if bits <=? 8 then 8 else if bits <=? 16 then 16 else 32.

Section Format.
Variable prec emax : Z.
Context (Hprec : Prec_gt_0 prec) (Hemax : Prec_lt_emax prec emax).

Notation float := (binary_float prec emax).

(** [min() as $source], [max() as $source] and the number of bits *)
Record fx := Fx { fx_min : float; fx_max : float; fx_bits : Z }.

(** [n as f32], [n as f64]: to nearest *)
Definition of_int (n : Z) : float := binary_normalize prec emax Hprec Hemax mode_NE n 0 false.

(** _target_max (fixed_point.rs:103-112): 1.checked_shl(bits).unwrap_or(0).wrapping_sub(1)
    in the base type *)
Definition fx_top (f : fx) : Z :=
  let w := base_width (fx_bits f) in
  ((if fx_bits f <? w then 2 ^ fx_bits f else 0) - 1) mod 2 ^ w.

(** num_traits::cast::<float, Base>: NaN, infinities and integers outside the
    base type give None *)
Definition cast_base (bits : Z) (v : float) : option Z :=
  if is_finite v then
    let z := Btrunc v in
    if (0 <=? z) && (z <? 2 ^ base_width bits) then Some z else None
  else None.

(** to_fixed_point (fixed_point.rs:57-69); libm::round/roundf is round half
    away from zero *)
Definition fx_encode (f : fx) (v : float) : fx_outcome :=
  if Bltb v (fx_min f) || Bltb (fx_max f) v then FxRejected
  else
    let v1 := Bminus mode_NE v (fx_min f) in
    let v2 := Bdiv mode_NE v1 (Bminus mode_NE (fx_max f) (fx_min f)) in
    let v3 := Bmult mode_NE v2 (of_int (fx_top f)) in
    match cast_base (fx_bits f) (Bnearbyint mode_NA v3) with
    | Some n => FxCode n
    | None => FxPanic
    end.

(** to_fixed_point_capped (fixed_point.rs:71-80) *)
Definition fx_encode_capped (f : fx) (v : float) : fx_outcome :=
  let v := if Bltb v (fx_min f) then fx_min f else if Bltb (fx_max f) v then fx_max f else v in
  match fx_encode f v with FxRejected => FxPanic | o => o end.

(** to_float (fixed_point.rs:82-88) *)
Definition fx_decode (f : fx) (n : Z) : float :=
  let v1 := Bdiv mode_NE (of_int n) (of_int (fx_top f)) in
  let v2 := Bmult mode_NE v1 (Bminus mode_NE (fx_max f) (fx_min f)) in
  Bplus mode_NE v2 (fx_min f).

(** a literal m / 10^k as the parser of f32 literals reads it: the nearest
    float (lib.rs:23-28, base10_parse).  Exact for m and 10^k below 2^prec, as
    for every literal of the repository. *)
Definition literal (m k : Z) : float := Bdiv mode_NE (of_int m) (of_int (10 ^ k)).

(** calculate_min and calculate_max in slope mode (lib.rs:85-93, 117-124) *)
Definition slope_max (threshold_slope sample_time_ms : float) : float :=
  Bdiv mode_NE (Bmult mode_NE threshold_slope sample_time_ms) (of_int 1000).
Definition slope_min (threshold_slope sample_time_ms : float) : float :=
  Bdiv mode_NE (Bmult mode_NE (Bopp threshold_slope) sample_time_ms) (of_int 1000).

End Format.

Arguments Fx {prec emax}.
Arguments fx_min {prec emax}.
Arguments fx_max {prec emax}.
Arguments fx_bits {prec emax}.
Arguments fx_top {prec emax}.
Arguments of_int {prec emax Hprec Hemax}.
Arguments fx_encode {prec emax Hprec Hemax}.
Arguments fx_encode_capped {prec emax Hprec Hemax}.
Arguments fx_decode {prec emax Hprec Hemax}.
Arguments literal {prec emax Hprec Hemax}.
Arguments slope_max {prec emax Hprec Hemax}.
Arguments slope_min {prec emax Hprec Hemax}.
Arguments cast_base {prec emax}.

#[global] Instance prec24 : Prec_gt_0 24. Proof. reflexivity. Defined.
#[global] Instance emax24 : Prec_lt_emax 24 128. Proof. reflexivity. Defined.
#[global] Instance prec53 : Prec_gt_0 53. Proof. reflexivity. Defined.
#[global] Instance emax53 : Prec_lt_emax 53 1024. Proof. reflexivity. Defined.

Definition f32 := binary_float 24 128.
Definition f64 := binary_float 53 1024.

(** [x as f64] for an f32 x *)
Definition widen (x : f32) : f64 :=
  match x with
  | B754_zero s => B754_zero s
  | B754_infinity s => B754_infinity s
  | B754_nan => B754_nan
  | B754_finite s m e _ => binary_normalize 53 1024 prec53 emax53 mode_NE (cond_Zopp s (Zpos m)) e s
  end.

(** calculate_required_bits (lib.rs:33-66): (range / max_error).log2().ceil()
    as usize, in f32.  Simplification: log2 is exact (ceil(log2 r) is then the
    least b with r <= 2^b); NaN and ratios up to 1 give 0. *)
Definition required_bits (range max_error : f32) : Z :=
  Z.log2_up (Btrunc (Bnearbyint mode_UP (Bdiv mode_NE range max_error))).

(** the factories the macros build (fixed_point.rs:24-33, 117-131; lib.rs:41-60,
    69-127): minmax over f32, minmax over f64 (the bounds are f32 literals, cast
    [as f64]), slope over f32 *)
Definition minmax32 (min max max_error : f32) : fx 24 128 :=
  Fx min max (required_bits (Bminus mode_NE max min) max_error).
Definition minmax64 (min max max_error : f32) : fx 53 1024 :=
  Fx (widen min) (widen max) (required_bits (Bminus mode_NE max min) max_error).
Definition slope32 (threshold_slope sample_time_ms max_error : f32) : fx 24 128 :=
  Fx (slope_min threshold_slope sample_time_ms) (slope_max threshold_slope sample_time_ms)
     (required_bits (Bmult mode_NE (slope_max threshold_slope sample_time_ms) (of_int 2)) max_error).

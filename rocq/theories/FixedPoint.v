(** * Fixed-point factories.

    Models firmware-common/src/common/fixed_point.rs (the fixed_point_factory!
    and fixed_point_factory_slope! macros) and calculate-required-bits/src/lib.rs.
    Simplification: f32/f64 arithmetic is idealised as exact rational
    arithmetic (rounding of the floating-point operations themselves is not
    modelled); infinities and NaN are modelled as separate values. *)
From Coq Require Import QArith Qround Qabs ZArith Lia Lqa Bool.
Local Open Scope Q_scope.

(** the argument of to_fixed_point *)
Inductive fval := Num (q : Q) | PInf | NInf | NaN.

(** [Panic] is the unwrap of num_traits::cast *)
Inductive outcome := Rejected | Code (n : Z) | Panic.

(** calculate_required_bits (lib.rs:33-66): (range / max_error).log2().ceil()
    as usize; negative results saturate at 0 *)
Definition required_bits (range max_error : Q) : nat := Z.to_nat (Z.log2_up (Qceiling (range / max_error))).

(** libm::round: nearest, halves away from zero *)
Definition round_away (q : Q) : Z :=
  if Qle_bool 0 q then Qfloor (q + (1 # 2)) else (- Qfloor (- q + (1 # 2)))%Z.

Record factory := Factory { f_min : Q; f_max : Q; f_bits : nat }.

(** minmax mode (lib.rs:41-47, fixed_point.rs:24-33) *)
Definition minmax (min max max_error : Q) : factory := Factory min max (required_bits (max - min) max_error).

(** slope mode (lib.rs:48-60, 85-93, 117-124) *)
Definition slope (threshold_slope sample_time_ms max_error : Q) : factory :=
  Factory (- threshold_slope * sample_time_ms / 1000) (threshold_slope * sample_time_ms / 1000)
          (required_bits (threshold_slope * sample_time_ms / 1000 * 2) max_error).

(** _target_max (fixed_point.rs:103-112): checked_shl, wrapping_sub 1 *)
Definition target_max (f : factory) : Z := (2 ^ Z.of_nat (f_bits f) - 1)%Z.

Definition qlt (a b : Q) : bool := negb (Qle_bool b a).

(** the cast to the base integer, which holds f_bits bits *)
Definition cast_code (f : factory) (z : Z) : outcome :=
  if (0 <=? z)%Z && (z <=? target_max f)%Z then Code z else Panic.

(** to_fixed_point (57-69) *)
Definition to_fixed_point (f : factory) (v : fval) : outcome :=
  match v with
  | NaN => Panic      (* both comparisons are false; round(NaN) does not cast *)
  | PInf => Rejected
  | NInf => Rejected
  | Num q =>
    if qlt q (f_min f) || qlt (f_max f) q then Rejected
    else cast_code f (round_away ((q - f_min f) / (f_max f - f_min f) * inject_Z (target_max f)))
  end.

(** to_fixed_point_capped (71-80): to_fixed_point(...).unwrap() *)
Definition to_fixed_point_capped (f : factory) (v : fval) : outcome :=
  let v := match v with
           | NaN => NaN
           | PInf => Num (f_max f)
           | NInf => Num (f_min f)
           | Num q => if qlt q (f_min f) then Num (f_min f) else if qlt (f_max f) q then Num (f_max f) else Num q
           end in
  match to_fixed_point f v with Rejected => Panic | o => o end.

(** to_float (82-88) *)
Definition to_float (f : factory) (n : Z) : Q :=
  inject_Z n / inject_Z (target_max f) * (f_max f - f_min f) + f_min f.

(** ** Facts *)
Lemma qlt_spec a b : qlt a b = true <-> a < b.
Proof.
  unfold qlt. rewrite negb_true_iff. split; intros H.
  - apply Qnot_le_lt. intros L. apply Qle_bool_iff in L. congruence.
  - apply not_true_is_false. intros L. apply Qle_bool_iff in L. apply (Qlt_not_le _ _ H L).
Qed.

Lemma qlt_false a b : qlt a b = false <-> b <= a.
Proof. unfold qlt. rewrite negb_false_iff. apply Qle_bool_iff. Qed.

(** rounding is within a half *)
Lemma round_half q : 0 <= q -> Qabs (inject_Z (round_away q) - q) <= 1 # 2.
Proof.
  intros H. unfold round_away. rewrite (proj2 (Qle_bool_iff 0 q) H).
  pose proof (Qfloor_le (q + (1 # 2))) as A. pose proof (Qlt_floor (q + (1 # 2))) as B. rewrite inject_Z_plus in B. change (inject_Z 1) with 1 in B.
  apply Qabs_Qle_condition. split; lra.
Qed.

Lemma round_bounds q (m : Z) : 0 <= q -> q <= inject_Z m -> (0 <= round_away q <= m)%Z.
Proof.
  intros H1 H2. unfold round_away. rewrite (proj2 (Qle_bool_iff 0 q) H1).
  pose proof (Qfloor_le (q + (1 # 2))) as A. pose proof (Qlt_floor (q + (1 # 2))) as B.
  split.
  - assert (L : inject_Z (-1) < inject_Z (Qfloor (q + (1 # 2)))).
    { rewrite inject_Z_plus in B. change (inject_Z 1) with 1 in B. change (inject_Z (-1)) with (-1). lra. }
    rewrite <- Zlt_Qlt in L. lia.
  - assert (L : inject_Z (Qfloor (q + (1 # 2))) < inject_Z (m + 1)).
    { rewrite inject_Z_plus. change (inject_Z 1) with 1. lra. }
    rewrite <- Zlt_Qlt in L. lia.
Qed.

(** the number of bits covers the range in max_error steps *)
Lemma required_bits_spec range e : 0 < range -> 0 < e -> range <= inject_Z (2 ^ Z.of_nat (required_bits range e)) * e.
Proof.
  intros Hr He. unfold required_bits.
  set (c := Qceiling (range / e)).
  assert (C : range / e <= inject_Z c) by apply Qle_ceiling.
  assert (P : 0 < range / e) by (apply Qlt_shift_div_l; [exact He|lra]).
  assert (C0 : (0 < c)%Z).
  { assert (L : 0 < inject_Z c) by lra. change 0 with (inject_Z 0) in L. rewrite <- Zlt_Qlt in L. exact L. }
  assert (B : (c <= 2 ^ Z.log2_up c)%Z).
  { destruct (Z.eq_dec c 1) as [->|N]; [cbn; lia|]. apply Z.log2_up_spec. lia. }
  rewrite Z2Nat.id by apply Z.log2_up_nonneg.
  rewrite Zle_Qle in B. assert (Q2 : range / e <= inject_Z (2 ^ Z.log2_up c)) by lra.
  assert (E : range == range / e * e) by (field; lra). rewrite E. apply Qmult_le_compat_r; lra.
Qed.

(** one code step, halved, is within the declared error *)
Lemma half_step f e : (1 <= f_bits f)%nat -> f_min f < f_max f -> f_max f - f_min f <= inject_Z (2 ^ Z.of_nat (f_bits f)) * e ->
  (1 # 2) * ((f_max f - f_min f) / inject_Z (target_max f)) <= e.
Proof.
  intros Hb Hm HE. unfold target_max.
  set (p := (2 ^ Z.of_nat (f_bits f))%Z) in *.
  assert (P2 : (2 <= p)%Z).
  { unfold p. rewrite <- (Z.pow_1_r 2) at 1. apply Z.pow_le_mono_r; lia. }
  set (R := f_max f - f_min f) in *. assert (HR : 0 < R) by (unfold R; lra).
  assert (PQ : 2 <= inject_Z p) by (change 2 with (inject_Z 2); rewrite <- Zle_Qle; exact P2).
  assert (TQ : inject_Z (p - 1) == inject_Z p - 1) by (unfold Z.sub; rewrite inject_Z_plus; reflexivity).
  assert (E1 : (1 # 2) * (R / inject_Z (p - 1)) == R / (2 * (inject_Z p - 1))).
  { rewrite TQ. field. lra. }
  rewrite E1. apply Qle_shift_div_r; [lra|].
  apply Qle_trans with (inject_Z p * e); [exact HE|].
  assert (0 <= e).
  { apply Qnot_lt_le. intros Ne. assert (inject_Z p * e < 0) by nra. lra. }
  rewrite (Qmult_comm e). apply Qmult_le_compat_r; lra.
Qed.

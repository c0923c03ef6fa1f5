(** * Floating-point arithmetic used by the avionics models.

    The flight code computes in f64 (times, in ms) and f32 (altitudes, speeds,
    accelerations).  The models are written over an arbitrary record of
    operations, so that every theorem holds for any arithmetic; [ieee] is the
    arithmetic of the machine (Coq's SpecFloat: correctly rounded IEEE-754 with
    NaN, infinities and signed zeros) and [exact] the rationals, used where a
    claim is about quantities rather than about what the machine compares. *)
From Coq Require Import ZArith QArith Qabs SpecFloat Bool.
Local Open Scope Z_scope.

Record numerics := Numerics {
  f64 : Type; f32 : Type;
  add64 : f64 -> f64 -> f64; sub64 : f64 -> f64 -> f64; div64 : f64 -> f64 -> f64; mul64 : f64 -> f64 -> f64;
  lt64 : f64 -> f64 -> bool; le64 : f64 -> f64 -> bool; lit64 : Q -> f64;
  narrow : f64 -> f32;   (** `as f32` *)
  add32 : f32 -> f32 -> f32; sub32 : f32 -> f32 -> f32; mul32 : f32 -> f32 -> f32; div32 : f32 -> f32 -> f32;
  abs32 : f32 -> f32; lt32 : f32 -> f32 -> bool; le32 : f32 -> f32 -> bool; lit32 : Q -> f32 }.
Arguments add64 {_}. Arguments sub64 {_}. Arguments div64 {_}. Arguments mul64 {_}. Arguments lt64 {_}. Arguments le64 {_}.
Arguments lit64 {_}. Arguments narrow {_}. Arguments add32 {_}. Arguments sub32 {_}. Arguments mul32 {_}. Arguments div32 {_}.
Arguments abs32 {_}. Arguments lt32 {_}. Arguments le32 {_}. Arguments lit32 {_}.

(** binary64 / binary32 *)
Definition sf_of_Z (prec emax : Z) (z : Z) : spec_float := binary_normalize prec emax z 0 false.
Definition sf_lit (prec emax : Z) (q : Q) : spec_float :=
  SFdiv prec emax (sf_of_Z prec emax (Qnum q)) (sf_of_Z prec emax (Zpos (Qden q))).
Definition sf_narrow (x : spec_float) : spec_float :=
  match x with S754_finite s m e => binary_normalize 24 128 (cond_Zopp s (Zpos m)) e s | _ => x end.

Definition ieee : numerics := {|
  f64 := spec_float; f32 := spec_float;
  add64 := SFadd 53 1024; sub64 := SFsub 53 1024; div64 := SFdiv 53 1024; mul64 := SFmul 53 1024;
  lt64 := SFltb; le64 := SFleb; lit64 := sf_lit 53 1024; narrow := sf_narrow;
  add32 := SFadd 24 128; sub32 := SFsub 24 128; mul32 := SFmul 24 128; div32 := SFdiv 24 128;
  abs32 := SFabs; lt32 := SFltb; le32 := SFleb; lit32 := sf_lit 24 128 |}.

Definition Qltb (x y : Q) : bool := negb (Qle_bool y x).
Definition exact : numerics := {|
  f64 := Q; f32 := Q;
  add64 := Qplus; sub64 := Qminus; div64 := Qdiv; mul64 := Qmult;
  lt64 := Qltb; le64 := Qle_bool; lit64 := fun q => q; narrow := fun q => q;
  add32 := Qplus; sub32 := Qminus; mul32 := Qmult; div32 := Qdiv;
  abs32 := Qabs; lt32 := Qltb; le32 := Qle_bool; lit32 := fun q => q |}.

Lemma Qltb_iff x y : Qltb x y = true <-> (x < y)%Q.
Proof.
  unfold Qltb. rewrite negb_true_iff. split; intros H.
  - apply Qnot_le_lt. intros L. apply Qle_bool_iff in L. congruence.
  - destruct (Qle_bool y x) eqn:E; [|reflexivity]. apply Qle_bool_iff in E. apply Qlt_not_le in H. contradiction.
Qed.

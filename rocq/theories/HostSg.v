(** * The CSV files of strain-gauge readings.

    Models vl-host-lib/src/ozys/parse_sg_data.rs, sg_data_csv_writer.rs and the second half of pull_ozys_data.rs:41-57, and the
    conversion of samples to half precision and back (half crate, a dependency: round to nearest even) that low_prio.rs:125-130 and
    sg_data_csv_writer.rs:46-52 use.  The log format is that of EnumLog.v; the processing on the device is in SgProcess.v. *)
From Coq Require Import ZArith NArith List Bool Arith.
From Flocq Require Import Core BinarySingleNaN.
From Flocq Require Binary Bits.
From Verif Require Import FloatFixed FloatLut EnumLog.
From Verif Require SgProcess.
Import ListNotations.
Local Open Scope nat_scope.

(** ** Half precision *)
#[global] Instance prec11 : Prec_gt_0 11. Proof. reflexivity. Defined.
#[global] Instance emax11 : Prec_lt_emax 11 16. Proof. reflexivity. Defined.
Definition f16 := binary_float 11 16.
(** f16::from_f32 *)
Definition half_of (x : f32) : f16 :=
  match x with
  | B754_zero s => B754_zero s
  | B754_infinity s => B754_infinity s
  | B754_nan => B754_nan
  | B754_finite s m e _ => binary_normalize 11 16 prec11 emax11 mode_NE (cond_Zopp s (Zpos m)) e s
  end.
(** f16::to_f32 *)
Definition single_of (x : f16) : f32 :=
  match x with
  | B754_zero s => B754_zero s
  | B754_infinity s => B754_infinity s
  | B754_nan => B754_nan
  | B754_finite s m e _ => binary_normalize 24 128 prec24 emax24 mode_NE (cond_Zopp s (Zpos m)) e s
  end.
(** the bit pattern; a NaN is written as the default NaN: the model has one *)
Definition nan16 : {x : Binary.binary_float 11 16 | Binary.is_nan 11 16 x = true} :=
  exist _ (@Binary.B754_nan 11 16 false 512 eq_refl) eq_refl.
Definition f16_bits (x : f16) : Z := Bits.bits_of_binary_float 10 5 (Binary.BSN2B 11 16 nan16 x).
Definition f16_of_bits (z : Z) : f16 := Binary.B2BSN 11 16 (Bits.binary_float_of_bits 10 5 eq_refl eq_refl eq_refl z).
(** to_le_bytes, from_le_bytes *)
Definition f16_bytes (x : f16) : N * N := (Z.to_N (f16_bits x mod 256), Z.to_N (f16_bits x / 256)).
Definition f16_from (b0 b1 : N) : f16 := f16_of_bits (Z.of_N b0 + 256 * Z.of_N b1).
(** what low_prio.rs:126-129 stores for a sample *)
Definition enc (v : f32) : N * N := f16_bytes (half_of v).

(** ** The logs *)
Definition sgreading := SgProcess.reading (byte := N) (time := f64).
(** strain_gauges/mod.rs:29-35: a u8 and 80 bytes *)
Definition stored_ok (r : sgreading) : bool :=
  (length (SgProcess.samples r) =? 80) && forallb (fun b => (b <? 256)%N) (SgProcess.samples r) && (SgProcess.sg_i r <? 256).
Definition sgrecord := {r : sgreading | stored_ok r = true}.
(** mid_prio.rs:47-53 *)
Inductive sgrec := STime (p : fpoint) | SRead (r : sgrecord).
Definition times (l : list sgrec) : list fpoint := flat_map (fun x => match x with STime p => [p] | SRead _ => [] end) l.

(** ** parse_sg_data *)
(** pass 2 (35-46): dated readings until the end or a panic *)
Inductive dated (points : list fpoint) : list sgrec -> list (sgreading * option f64) -> bool -> Prop :=
| dt_end : dated points [] [] true
| dt_time p l out ok : dated points l out ok -> dated points (STime p :: l) out ok
| dt_read r date l out ok : get_unix_timestamp_f points (SgProcess.start_time (proj1_sig r)) (Gives date) -> dated points l out ok ->
    dated points (SRead r :: l) ((proj1_sig r, date) :: out) ok
| dt_panic r l : get_unix_timestamp_f points (SgProcess.start_time (proj1_sig r)) Panics -> dated points (SRead r :: l) [] false.
Section Parse.
Variable c : codec sgrec.
(** [pieces1], [pieces2]: the sizes of the pieces the file is read in, in the two passes *)
Inductive parse_sg_data (pieces1 pieces2 : list nat) (bytes : list N) : list (sgreading * option f64) -> bool -> Prop :=
| psd_nan : sort_timestamps_f (times (parse_all c (Reader bytes pieces1))) = Panics -> parse_sg_data pieces1 pieces2 bytes [] false
| psd points out ok : sort_timestamps_f (times (parse_all c (Reader bytes pieces1))) = Gives points ->
    dated points (parse_all c (Reader bytes pieces2)) out ok -> parse_sg_data pieces1 pieces2 bytes out ok.
End Parse.

(** ** SGCSVWriter *)
(** boot time, unix time, sample *)
Definition row := (f64 * option f64 * f32)%type.
(** lines 42-58: row [i] of a reading; [None]: index out of bounds *)
Definition csv_row (r : sgreading) (date : option f64) (i : nat) : option row :=
  let later t := Bplus mode_NE t (Bmult mode_NE (@of_int 53 1024 prec53 emax53 5) (@of_int 53 1024 prec53 emax53 (Z.of_nat i))) in
  match nth_error (SgProcess.samples r) (i * 2), nth_error (SgProcess.samples r) (i * 2 + 1) with
  | Some b0, Some b1 => Some (later (SgProcess.start_time r), option_map later date, single_of (f16_from b0 b1))
  | _, _ => None
  end.
Fixpoint all_some {A} (l : list (option A)) : option (list A) :=
  match l with
  | [] => Some []
  | Some a :: l => match all_some l with Some r => Some (a :: r) | None => None end
  | None :: _ => None
  end.
(** write, lines 35-76; [None] is the assertion's panic (line 40) *)
Definition write (r : sgreading) (date : option f64) : option (list row) :=
  if length (SgProcess.samples r) =? 80 then all_some (map (csv_row r date) (seq 0 (length (SgProcess.samples r) / 2))) else None.

(** ** pull_ozys_data.rs:41-57: the four writers, as functions of the channel *)
Definition add_rows (out : nat -> list row) (ch : nat) (rows : list row) : nat -> list row := fun k => if k =? ch then out k ++ rows else out k.
(** [csv_writers[reading.sg_i as usize]] panics from 4 on *)
Fixpoint write_all (l : list (sgreading * option f64)) (out : nat -> list row) : option (nat -> list row) :=
  match l with
  | [] => Some out
  | (r, date) :: l =>
      if SgProcess.sg_i r <? 4
      then match write r date with Some rows => write_all l (add_rows out (SgProcess.sg_i r) rows) | None => None end
      else None
  end.
Section Pull.
Variable c : codec sgrec.
(** the files, as pulled; a panic ends the program, whatever had been buffered *)
Inductive pull : list (list N) -> (nat -> list row) -> option (nat -> list row) -> Prop :=
| pull_end out : pull [] out (Some out)
| pull_file p1 p2 f fs l out out' res : parse_sg_data c p1 p2 f l true -> write_all l out = Some out' -> pull fs out' res -> pull (f :: fs) out res
| pull_bad_file p1 p2 f fs l out : parse_sg_data c p1 p2 f l false -> pull (f :: fs) out None
| pull_bad_reading p1 p2 f fs l ok out : parse_sg_data c p1 p2 f l ok -> write_all l out = None -> pull (f :: fs) out None.
End Pull.

(** * The host's reading of a delta log, with the types the firmware uses.

    Models vl-host-lib/src/common/parse_delta_readings.rs, readers.rs and
    sensor_reading_csv_writer.rs, and the instances the generic logger of
    DeltaLogger.v runs with: the bit codecs of f32, f64 and the packed integers
    (firmware-common/src/common/delta_logger/bitslice_primitive.rs:86-122, 124-160,
    variable_int.rs:23-41), Timestamp<F> (delta_logger.rs:16-38), UnixTimestampLog
    (delta_logger.rs:67-90), and the BitArraySerializable and Deltable impls of
    BaroData (driver/barometer.rs:14-82) and IMUData (driver/imu.rs:18-103). *)
From Coq Require Import ZArith List Bool Arith Lia.
From Flocq Require Import Core BinarySingleNaN.
From Flocq Require Binary Bits.
From Verif Require Import Base BitSlice DeltaLogger FloatFixed SensorDelta FloatLut.
Import ListNotations.
Local Open Scope nat_scope.

(** ** Bit codecs *)

(** to_le_bytes viewed in Lsb0 order: the least significant bit first
    (bitslice_primitive.rs:49-122, variable_int.rs:29-33) *)
Definition z_enc (n : nat) (z : Z) : list bool := map (fun i => Z.testbit z (Z.of_nat i)) (seq 0 n).
(** load_le (bitslice_primitive.rs:56-116, variable_int.rs:35-37) *)
Fixpoint z_dec (l : list bool) : Z := match l with [] => 0%Z | b :: l => (Z.b2z b + 2 * z_dec l)%Z end.

(** f64 and f32 (bitslice_primitive.rs:86-122); a NaN is written as the default NaN: the model has one *)
Definition f64_bits (x : f64) : Z := Bits.bits_of_b64 (Binary.BSN2B 53 1024 Bits.default_nan_pl64 x).
Definition f32_bits (x : f32) : Z := Bits.bits_of_b32 (Binary.BSN2B 24 128 Bits.default_nan_pl32 x).
Definition f64_codec : codec f64 := Codec 64 (fun x => z_enc 64 (f64_bits x)) (fun l => Binary.B2BSN 53 1024 (Bits.b64_of_bits (z_dec l))).
Definition f32_codec : codec f32 := Codec 32 (fun x => z_enc 32 (f32_bits x)) (fun l => Binary.B2BSN 24 128 (Bits.b32_of_bits (z_dec l))).

(** Integer<_, Bits<n>> (variable_int.rs:23-41): an n-bit number *)
Definition code (n : nat) : Type := {z : Z | ((0 <=? z) && (z <? 2 ^ Z.of_nat n))%Z = true}.
Lemma pack_ok n z : ((0 <=? z mod 2 ^ Z.of_nat n) && (z mod 2 ^ Z.of_nat n <? 2 ^ Z.of_nat n))%Z = true.
Proof.
  pose proof (Z.mod_pos_bound z (2 ^ Z.of_nat n)) as H. destruct H as [H1 H2]; [apply Z.pow_pos_nonneg; lia|].
  apply andb_true_intro. split; [apply Z.leb_le; exact H1|apply Z.ltb_lt; exact H2].
Qed.
Definition pack (n : nat) (z : Z) : code n := exist _ (z mod 2 ^ Z.of_nat n)%Z (pack_ok n z).
Definition code_codec (n : nat) : codec (code n) := Codec n (fun c => z_enc n (proj1_sig c)) (fun l => pack n (z_dec l)).

(** fields in order (barometer.rs:20-35, imu.rs:24-41; arrays: bitslice_primitive.rs:142-160) *)
Definition pair_codec {A B} (a : codec A) (b : codec B) : codec (A * B) :=
  Codec (c_len a + c_len b) (fun v => c_enc a (fst v) ++ c_enc b (snd v)) (fun l => (c_dec a (firstn (c_len a) l), c_dec b (skipn (c_len a) l))).
Definition triple_codec {A} (a : codec A) : codec (A * (A * A)) := pair_codec a (pair_codec a a).

(** ** Deltas with packed codes *)
Section Packed.
Context {prec emax : Z} {Hp : Prec_gt_0 prec} {He : Prec_lt_emax prec emax}.
Definition width (f : fx prec emax) : nat := Z.to_nat (fx_bits f).
(** [F::to_fixed_point(self - other)?] and [self + F::to_float(delta)]
    (delta_logger.rs:25-35 for timestamps, barometer.rs:64-82, imu.rs:70-103 for the fields) *)
Definition packedD (f : fx prec emax) : deltableR (binary_float prec emax) (code (width f)) :=
  DeltableR (fun v l => bindR (enc f (Bminus mode_NE v l)) (fun n => RSome (pack (width f) n)))
            (fun l n => RSome (Bplus mode_NE l (fx_decode f (proj1_sig n)))).
End Packed.

(** the logger's view: a panicking conversion (only with a NaN, C96) is outside
    this model and stands here as None *)
Definition opt {A} (r : res A) : option A := match r with RSome a => Some a | _ => None end.
Definition as_deltable {A X} (d : deltableR A X) : deltable A X := Deltable (fun v l => opt (sub d v l)) (fun l x => opt (add d l x)).

(** DeltaLogger<D, _, FF> and DeltaLoggerReader<D, _, FF>: [ff] is FF, the data with its codecs and deltas is D *)
Definition delta_log {A X} (ff : fx 53 1024) (d : deltableR A X) (dcod : codec A) (xcod : codec X) : setup f64 (code (width ff)) A X fpoint :=
  Setup f64_codec (code_codec (width ff)) dcod xcod (pair_codec f64_codec f64_codec) (as_deltable (packedD ff)) (as_deltable d)
        (fun t last => Bltb (Bminus mode_NE t last) (fx_min ff)).

(** BaroData: (temperature, pressure) *)
Definition baro_log (ff : fx 53 1024) (tf pf : fx 24 128) :=
  delta_log ff (pairD (packedD tf) (packedD pf)) (pair_codec f32_codec f32_codec) (pair_codec (code_codec (width tf)) (code_codec (width pf))).
(** IMUData: (acc, gyro) *)
Definition imu_log (ff : fx 53 1024) (af gf : fx 24 128) :=
  delta_log ff (pairD (tripleD (packedD af)) (tripleD (packedD gf))) (pair_codec (triple_codec f32_codec) (triple_codec f32_codec))
    (pair_codec (triple_codec (code_codec (width af))) (triple_codec (code_codec (width gf)))).

(** ** parse_delta_readings and the CSV *)
Section Parse.
Context {TX D X : Type} (S : setup f64 TX D X fpoint).

(** pass 1 (26-32): the unix logs *)
Definition times (l : list (item f64 D fpoint)) : list fpoint := flat_map (fun i => match i with IUnix u => [u] | IRead _ _ => [] end) l.

(** the stream of pass 2 (37-48): rows until the end or a panic *)
Definition row := ((f64 * D) * option f64)%type.
Inductive rows (points : list fpoint) : list (item f64 D fpoint) -> list row -> bool -> Prop :=
| rows_end : rows points [] [] true
| rows_unix u l out ok : rows points l out ok -> rows points (IUnix u :: l) out ok
| rows_read t d date l out ok : get_unix_timestamp_f points t (Gives date) -> rows points l out ok ->
    rows points (IRead t d :: l) (((t, d), date) :: out) ok
| rows_panic t d l : get_unix_timestamp_f points t Panics -> rows points (IRead t d :: l) [] false.

(** [parse_delta_readings chunk1 chunk2 n bytes out ok]: the rows the stream of a file with these bytes yields, and whether it ends
    without a panic.  [chunk1] and [chunk2] are the sizes of the pieces BufReader hands out in the two passes (readers.rs). *)
Inductive parse_delta_readings (chunk1 chunk2 : nat -> nat) (n : nat) (bytes : list byte) : list row -> bool -> Prop :=
| pdr_nan items : decode S chunk1 n bytes = Some items -> sort_timestamps_f (times items) = Panics ->
    parse_delta_readings chunk1 chunk2 n bytes [] false
| pdr items1 items2 points out ok : decode S chunk1 n bytes = Some items1 -> sort_timestamps_f (times items1) = Gives points ->
    decode S chunk2 n bytes = Some items2 -> rows points items2 out ok ->
    parse_delta_readings chunk1 chunk2 n bytes out ok.

(** pull_flight_data.rs:36-49 and pull_vacuum_test.rs: one CSV for all files of a type, in the order pulled; write_all
    (sensor_reading_csv_writer.rs:50-59) writes one line per row.  A panic ends the program. *)
Inductive csv (n : nat) : list (list byte) -> list row -> bool -> Prop :=
| csv_end : csv n [] [] true
| csv_file chunk1 chunk2 f fs a b ok : parse_delta_readings chunk1 chunk2 n f a true -> csv n fs b ok -> csv n (f :: fs) (a ++ b) ok
| csv_panic chunk1 chunk2 f fs a : parse_delta_readings chunk1 chunk2 n f a false -> csv n (f :: fs) a false.
End Parse.

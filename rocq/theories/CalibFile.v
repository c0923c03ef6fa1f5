(** * The IMU calibration file: CalibrationInfo::serialize/deserialize (ferraris-calibration/src/calibration_info.rs:199-267), its
    writing at the end of the calibration program (firmware-common/src/common/console/programs/calibrate.rs:146-163) and
    read_imu_calibration_file (firmware-common/src/common/imu_calibration_file.rs:6-23). *)
From Verif Require Import Base Flash FS Sectors ATable FileIO FsSpec FsApi Config.
Local Open Scope N_scope.

(** CalibrationInfo in memory: the 32-bit patterns of its f32 numbers, matrices column by column (nalgebra's storage order) *)
Record stored_info := StoredInfo { i_b_a : list N; i_K_ga : list N; i_b_g : list N; i_acc_mat : list N; i_gyro_mat : list N; i_acc_var : list N; i_gyro_var : list N }.
Definition info_ok (i : stored_info) : Prop :=
  (length (i_b_a i) = 3 /\ length (i_K_ga i) = 9 /\ length (i_b_g i) = 3 /\ length (i_acc_mat i) = 9 /\ length (i_gyro_mat i) = 9 /\
   length (i_acc_var i) = 3 /\ length (i_gyro_var i) = 3)%nat /\
  Forall (fun w => w < 2 ^ 32) (i_b_a i ++ i_K_ga i ++ i_b_g i ++ i_acc_mat i ++ i_gyro_mat i ++ i_acc_var i ++ i_gyro_var i).

(** memory of an f32, little-endian (both the writer and the reader are the same machine: "not endian-safe") *)
Definition word_bytes (w : N) : list byte := [w mod 256; w / 256 mod 256; w / 65536 mod 256; w / 16777216 mod 256].
Definition memory (ws : list N) : list byte := flat_map word_bytes ws.
Fixpoint words (n : nat) (l : list byte) : list N :=
  match n, l with
  | S n, a :: b :: c :: d :: l => (a + 256 * b + 65536 * c + 16777216 * d) :: words n l
  | _, _ => []
  end.

(** serialize (201-232): copy_from_slice into consecutive ranges of the buffer *)
Definition serialize (i : stored_info) : list byte :=
  memory (i_b_a i) ++ memory (i_K_ga i) ++ memory (i_b_g i) ++ memory (i_acc_mat i) ++ memory (i_gyro_mat i) ++ memory (i_acc_var i) ++ memory (i_gyro_var i).
(** deserialize (236-267): the ranges of the buffer read as f32.  (In Rust the pointer cast is undefined behaviour when the buffer
    is not 4-aligned; not modelled.) *)
Definition range (a b : nat) (l : list byte) : list byte := firstn (b - a) (skipn a l).
Definition deserialize (l : list byte) : stored_info :=
  StoredInfo (words 3 l) (words 9 (range 12 48 l)) (words 3 (range 48 60 l)) (words 9 (range 60 96 l)) (words 9 (range 96 132 l)) (words 3 (range 132 144 l)) (words 3 (range 144 156 l)).

Section CalibFile.
Variable crc : list byte -> N.
Definition CALIBRATION_FILE_TYPE : N := 3.                     (* common/file_types.rs:6 *)

(** calibrate.rs:150-161: the calls are those of config_file.rs [write] *)
Definition store_calibration (i : stored_info) (y : sys) : sys * reply := config_write crc CALIBRATION_FILE_TYPE (serialize i) y.

(** read_imu_calibration_file (6-23) *)
Inductive outcome := Absent | Loaded (i : stored_info) | Panicked.
Definition read_calibration (s : fs) : outcome :=
  match find_first_file s (fun e => e_typ e =? CALIBRATION_FILE_TYPE) with
  | Ok (Some e) =>
    match open_file_for_read (e_id e) s with
    | (s', Ok r) =>
      match read_slice crc (fl s') r 156 with
      | Ok (_, d, _) => if Nat.eqb (length d) 156 then Loaded (deserialize d) else Panicked     (* try_into().unwrap() *)
      | Err _ => Absent
      | Panic => Panicked
      end
    | _ => Panicked                                            (* unwrap *)
    end
  | Panic => Panicked
  | _ => Absent
  end.
(** ... after a restart with this flash *)
Definition calibration_at_boot (f : flash) (r : nat -> N) : outcome :=
  match boot f r with
  | (s, Ok _) => read_calibration s
  | _ => Absent
  end.
End CalibFile.

(** * IMU calibration.

    Models ferraris-calibration/src/{calibrator_inner,calibrator,calibration_info,
    interactive_calibrator}.rs.
    Simplifications: f64/f32 numbers are exact reals (the f64 to f32 casts are
    identities; division by an empty count is 0 here and NaN there, so every
    theorem assumes non-empty phases), u32 counters do not overflow.  The six static accumulators and
    the three rotation accumulators of CalibratorInner (calibrator_inner.rs:5-68),
    which the source writes out by name, are indexed by axis and sign; the 15
    process_* functions are textual copies of three. *)
From Coq Require Import Reals List Bool Arith.
From Verif Require Import HostTime.
Import ListNotations.
Local Open Scope R_scope.

(** ** nalgebra *)
Record vec := Vec { v1 : R; v2 : R; v3 : R }.
Record mat := Mat { m11 : R; m12 : R; m13 : R; m21 : R; m22 : R; m23 : R; m31 : R; m32 : R; m33 : R }.
Definition vzero : vec := Vec 0 0 0.
Definition vadd (a b : vec) : vec := Vec (v1 a + v1 b) (v2 a + v2 b) (v3 a + v3 b).
Definition vsub (a b : vec) : vec := Vec (v1 a - v1 b) (v2 a - v2 b) (v3 a - v3 b).
Definition vscale (k : R) (a : vec) : vec := Vec (k * v1 a) (k * v2 a) (k * v3 a).
Definition vdiv (a : vec) (k : R) : vec := Vec (v1 a / k) (v2 a / k) (v3 a / k).
Definition vmap (f : R -> R) (a : vec) : vec := Vec (f (v1 a)) (f (v2 a)) (f (v3 a)).
Definition norm_squared (a : vec) : R := v1 a * v1 a + v2 a * v2 a + v3 a * v3 a.
Definition from_columns (a b c : vec) : mat := Mat (v1 a) (v1 b) (v1 c) (v2 a) (v2 b) (v2 c) (v3 a) (v3 b) (v3 c).
Definition from_diagonal (a : vec) : mat := Mat (v1 a) 0 0 0 (v2 a) 0 0 0 (v3 a).
Definition diagonal (m : mat) : vec := Vec (m11 m) (m22 m) (m33 m).
Definition transpose (m : mat) : mat := Mat (m11 m) (m21 m) (m31 m) (m12 m) (m22 m) (m32 m) (m13 m) (m23 m) (m33 m).
Definition mmap2 (f : R -> R -> R) (a b : mat) : mat :=
  Mat (f (m11 a) (m11 b)) (f (m12 a) (m12 b)) (f (m13 a) (m13 b)) (f (m21 a) (m21 b)) (f (m22 a) (m22 b)) (f (m23 a) (m23 b))
      (f (m31 a) (m31 b)) (f (m32 a) (m32 b)) (f (m33 a) (m33 b)).
Definition mmap (f : R -> R) (a : mat) : mat := mmap2 (fun x _ => f x) a a.
Definition madd := mmap2 Rplus.
Definition msub := mmap2 Rminus.
Definition mscale (k : R) (a : mat) := mmap (fun x => k * x) a.
Definition mdiv (a : mat) (k : R) := mmap (fun x => x / k) a.
Definition mvmul (m : mat) (a : vec) : vec :=
  Vec (m11 m * v1 a + m12 m * v2 a + m13 m * v3 a) (m21 m * v1 a + m22 m * v2 a + m23 m * v3 a) (m31 m * v1 a + m32 m * v2 a + m33 m * v3 a).
Definition mmul (a b : mat) : mat :=
  from_columns (mvmul a (Vec (m11 b) (m21 b) (m31 b))) (mvmul a (Vec (m12 b) (m22 b) (m32 b))) (mvmul a (Vec (m13 b) (m23 b) (m33 b))).
Definition identity : mat := from_diagonal (Vec 1 1 1).
Definition det (m : mat) : R :=
  m11 m * (m22 m * m33 m - m32 m * m23 m) - m12 m * (m21 m * m33 m - m31 m * m23 m) + m13 m * (m21 m * m32 m - m31 m * m22 m).
(** Matrix3::try_inverse: None when the determinant is zero, else the adjugate over it *)
Definition try_inverse (m : mat) : option mat :=
  let d := det m in
  if Req_EM_T d 0 then None else
  Some (Mat ((m22 m * m33 m - m32 m * m23 m) / d) ((m13 m * m32 m - m33 m * m12 m) / d) ((m12 m * m23 m - m22 m * m13 m) / d)
            (- (m21 m * m33 m - m31 m * m23 m) / d) ((m11 m * m33 m - m31 m * m13 m) / d) ((m13 m * m21 m - m23 m * m11 m) / d)
            ((m21 m * m32 m - m31 m * m22 m) / d) ((m12 m * m31 m - m32 m * m11 m) / d) ((m11 m * m22 m - m21 m * m12 m) / d)).

(** ** Readings and accumulators *)
Record reading := Reading { rd_time : R; rd_acc : vec; rd_gyro : vec }.   (* imu_reading.rs:9-14; ms *)
Inductive axis := AX | AY | AZ.
Inductive sign := Pos | Neg.

(** one of x_p, x_n, ...: count, acc_sum, gyro_sum, variance_count, acc_variance_sum, gyro_variance_sum *)
Record static := Static { st_count : nat; st_acc : vec; st_gyro : vec; st_vcount : nat; st_vacc : vec; st_vgyro : vec }.
Record rotation := Rotation { ro_count : nat; ro_start : R; ro_end : R; ro_acc : vec; ro_gyro : vec }.
Record inner := Inner { gravity : R; expected_angle : R; static_of : axis -> sign -> static; rotation_of : axis -> rotation }.

(** new (calibrator_inner.rs:71-137); the defaults 9.81 and -360 are the caller's *)
Definition inner_new (g angle : R) : inner :=
  Inner g angle (fun _ _ => Static 0 vzero vzero 0 vzero vzero) (fun _ => Rotation 0 0 0 vzero vzero).

Definition axis_eqb (a b : axis) : bool := match a, b with AX, AX | AY, AY | AZ, AZ => true | _, _ => false end.
Definition sign_eqb (a b : sign) : bool := match a, b with Pos, Pos | Neg, Neg => true | _, _ => false end.
Definition set_static (i : inner) (a : axis) (s : sign) (x : static) : inner :=
  Inner (gravity i) (expected_angle i) (fun a' s' => if axis_eqb a a' && sign_eqb s s' then x else static_of i a' s') (rotation_of i).
Definition set_rotation (i : inner) (a : axis) (x : rotation) : inner :=
  Inner (gravity i) (expected_angle i) (static_of i) (fun a' => if axis_eqb a a' then x else rotation_of i a').

(** process_x_p and its copies (139-143, ...) *)
Definition process_static (a : axis) (s : sign) (i : inner) (r : reading) : inner :=
  let x := static_of i a s in
  set_static i a s (Static (S (st_count x)) (vadd (st_acc x) (rd_acc r)) (vadd (st_gyro x) (rd_gyro r)) (st_vcount x) (st_vacc x) (st_vgyro x)).

(** process_x_p_variance and its copies (145-158, ...) *)
Definition square (x : R) := x * x.
Definition process_variance (a : axis) (s : sign) (i : inner) (r : reading) : inner :=
  let x := static_of i a s in
  set_static i a s (Static (st_count x) (st_acc x) (st_gyro x) (S (st_vcount x))
    (vadd (st_vacc x) (vmap square (vsub (rd_acc r) (vdiv (st_acc x) (INR (st_count x))))))
    (vadd (st_vgyro x) (vmap square (vsub (rd_gyro r) (vdiv (st_gyro x) (INR (st_count x))))))).

(** process_x_rotation and its copies (265-296) *)
Definition process_rotation (a : axis) (i : inner) (r : reading) : inner :=
  let x := rotation_of i a in
  set_rotation i a (Rotation (S (ro_count x)) (if (ro_count x =? 0)%nat then rd_time r else ro_start x) (rd_time r)
    (vadd (ro_acc x) (rd_acc r)) (vadd (ro_gyro x) (rd_gyro r))).

(** ** CalibrationInfo (calibration_info.rs:13-21) *)
Record info := Info { b_a : vec; K_ga : mat; b_g : vec; acc_mat : mat; gyro_mat : mat; acc_variance : vec; gyro_variance : vec }.

Definition bind {A B} (o : option A) (k : A -> option B) : option B := match o with Some a => k a | None => None end.
Local Notation "x <- a ;; b" := (bind a (fun x => b)) (at level 61, a at next level, right associativity).

(** from_raw (143-163) *)
Definition from_raw (K_a R_a : mat) (ba : vec) (K_g R_g Kga : mat) (bg va vg : vec) : option info :=
  Ra' <- try_inverse R_a ;; Ka' <- try_inverse K_a ;; Rg' <- try_inverse R_g ;; Kg' <- try_inverse K_g ;;
  Some (Info ba Kga bg (mmul Ra' Ka') (mmul Rg' Kg') va vg).

(** calibrate_acc, calibrate_gyr_offsets, calibrate_gyr, apply_calibration (165-197) *)
Definition calibrate_acc (c : info) (acc : vec) : vec := mvmul (acc_mat c) (vsub acc (b_a c)).
Definition calibrate_gyr (c : info) (gyr calibrated_acc : vec) : vec :=
  mvmul (gyro_mat c) (vsub (vsub gyr (mvmul (K_ga c) calibrated_acc)) (b_g c)).
Definition apply_calibration (c : info) (r : reading) : reading :=
  let acc := calibrate_acc c (rd_acc r) in Reading (rd_time r) acc (calibrate_gyr c (rd_gyro r) acc).

(** ** calculate (calibrator_inner.rs:298-478) *)
Section Calculate.
Variable i : inner.
Notation st := (static_of i).
Definition mean_acc (a : axis) (s : sign) : vec := vdiv (st_acc (st a s)) (INR (st_count (st a s))).
Definition mean_gyro (a : axis) (s : sign) : vec := vdiv (st_gyro (st a s)) (INR (st_count (st a s))).
Definition sum6 (f : axis -> sign -> vec) : vec :=   (* x_p + y_p + z_p + x_n + y_n + z_n *)
  vadd (vadd (vadd (vadd (vadd (f AX Pos) (f AY Pos)) (f AZ Pos)) (f AX Neg)) (f AY Neg)) (f AZ Neg).
Definition count6 (f : axis -> sign -> nat) : nat := (f AX Pos + f AY Pos + f AZ Pos + f AX Neg + f AY Neg + f AZ Neg)%nat.
Definition stack (f : axis -> vec) : mat := from_columns (f AX) (f AY) (f AZ).

Definition U_a_p := stack (fun a => mean_acc a Pos).
Definition U_a_n := stack (fun a => mean_acc a Neg).
Definition c_b_a : vec := diagonal (mdiv (madd U_a_p U_a_n) 2).
Definition U_a_d := msub U_a_p U_a_n.
Definition k_a_sq : vec := vscale (1 / (4 * gravity i * gravity i)) (diagonal (mmul U_a_d (transpose U_a_d))).
Definition K_a : mat := from_diagonal (vmap sqrt k_a_sq).
Definition c_b_g : vec := vdiv (sum6 (fun a s => st_gyro (st a s))) (INR (count6 (fun a s => st_count (st a s)))).
Definition c_K_ga : mat := mdiv (msub (stack (fun a => mean_gyro a Pos)) (stack (fun a => mean_gyro a Neg))) (2 * gravity i).

(** the partial calibration of the rotation sums (366-389) and the integral (393-406) *)
Definition integrated (amat : mat) (a : axis) : vec :=
  let r := rotation_of i a in
  let acc := mvmul amat (vsub (ro_acc r) (vscale (INR (ro_count r)) c_b_a)) in
  let gyro := vsub (vsub (ro_gyro r) (mvmul c_K_ga acc)) (vscale (INR (ro_count r)) c_b_g) in
  vdiv gyro (INR (ro_count r) / ((ro_end r - ro_start r) / 1000)).

Definition calculate : option info :=
  Ka' <- try_inverse K_a ;;
  let R_a := mmul Ka' (mdiv U_a_d (2 * gravity i)) in
  Ra' <- try_inverse R_a ;;
  let amat := mmul Ra' Ka' in
  let W_s := stack (integrated amat) in
  E' <- try_inverse (mscale (expected_angle i) identity) ;;
  let multiplied := mmul W_s E' in
  let K_g := from_diagonal (vmap sqrt (diagonal (mmul multiplied (transpose multiplied)))) in
  Kg' <- try_inverse K_g ;;
  let R_g := mmul Kg' multiplied in
  c <- from_raw K_a R_a c_b_a K_g R_g c_K_ga c_b_g vzero vzero ;;
  let n := INR (count6 (fun a s => st_vcount (st a s))) in
  let v := apply_calibration c (Reading 0 (vdiv (sum6 (fun a s => st_vacc (st a s))) n) (vdiv (sum6 (fun a s => st_vgyro (st a s))) n)) in
  let root x := sqrt (Rabs x) in
  from_raw K_a R_a c_b_a K_g R_g c_K_ga c_b_g (vmap root (rd_acc v)) (vmap root (rd_gyro v)).
End Calculate.

(** ** Calibrator (calibrator.rs): the caller gives each phase its readings *)
Record session := Session { static_readings : axis -> sign -> list reading; variance_readings : axis -> sign -> list reading; rotation_readings : axis -> list reading }.
Definition phase (d : session) (a : axis) (s : sign) (i : inner) : inner :=
  fold_left (process_variance a s) (variance_readings d a s) (fold_left (process_static a s) (static_readings d a s) i).
Definition accumulate (d : session) (g angle : R) : inner :=
  let i := inner_new g angle in
  let i := phase d AX Neg (phase d AX Pos i) in
  let i := phase d AY Neg (phase d AY Pos i) in
  let i := phase d AZ Neg (phase d AZ Pos i) in
  let i := fold_left (process_rotation AX) (rotation_readings d AX) i in
  let i := fold_left (process_rotation AY) (rotation_readings d AY) i in
  fold_left (process_rotation AZ) (rotation_readings d AZ) i.
Definition calibrate (d : session) (g angle : R) : option info := calculate (accumulate d g angle).

(** ** InteractiveCalibrator (interactive_calibrator.rs) *)
Inductive direction := Plus | Minus | Rotating.
Inductive event := Start | Variance | End.
Inductive istate := Idle | WaitingStill | State (a : axis) (d : direction) (e : event) | Success | Failure.

Record icalibrator := ICal {
  ic_state : istate;
  ic_inner : inner + option info;           (* Either *)
  ic_last : option reading;
  ic_threshold_sq : R;
  ic_window : ssma vec;
  ic_started : option R
}.
(** new (82-97) *)
Definition icalibrator_new (threshold g angle : R) : icalibrator :=
  ICal Idle (inl (inner_new g angle)) None (threshold * threshold) (ssma_new vzero) None.

(** wait_still (103-135): whether still, and the new last reading and window *)
Definition wait_still (last : option reading) (w : ssma vec) (thr : R) (r : reading) : bool * option reading * ssma vec :=
  match last with
  | None => (false, Some r, w)
  | Some l =>
    let dt := rd_time r - rd_time l in
    if Rlt_dec 100 dt then
      let w := ssma_add vadd vsub vzero 50 w (vdiv (vsub (rd_gyro r) (rd_gyro l)) (dt / 1000)) in
      if ssma_is_full 50 w && (if Rlt_dec (norm_squared (ssma_average (fun n x => vdiv x (INR n)) w)) thr then true else false)
      then (true, Some r, ssma_clear vzero w)
      else (false, Some r, w)
    else (false, last, w)
  end.

(** arm_process! (65-80): collect, and move on after more than 300 readings
    and more than 3 s *)
Definition arm_process (f : inner -> reading -> inner) (count : inner -> nat) (next : istate) (c : icalibrator) (i : inner) (r : reading)
  : icalibrator * option istate :=
  let started := match ic_started c with Some t => t | None => rd_time r end in
  let i := f i r in
  if (300 <? count i)%nat && (if Rlt_dec 3000 (rd_time r - started) then true else false)
  then (ICal next (inl i) (ic_last c) (ic_threshold_sq c) (ic_window c) None, Some next)
  else (ICal (ic_state c) (inl i) (ic_last c) (ic_threshold_sq c) (ic_window c) (Some started), None).

Definition arm_wait (next : istate) (c : icalibrator) (i : inner) (r : reading) : icalibrator * option istate :=
  let '(still, last, w) := wait_still (ic_last c) (ic_window c) (ic_threshold_sq c) r in
  if still then (ICal next (inl i) last (ic_threshold_sq c) w (ic_started c), Some next)
  else (ICal (ic_state c) (inl i) last (ic_threshold_sq c) w (ic_started c), None).

(** the state after the End of a static phase or of a rotation *)
Definition after_end (a : axis) (d : direction) : istate :=
  match a, d with
  | AX, Plus => State AX Minus Start | AX, Minus => State AY Plus Start
  | AY, Plus => State AY Minus Start | AY, Minus => State AZ Plus Start
  | AZ, Plus => State AZ Minus Start | AZ, Minus => State AX Rotating Start
  | AX, Rotating => State AY Rotating Start | AY, Rotating => State AZ Rotating Start
  | AZ, Rotating => Failure (* not reached: there is no such state *)
  end.
Definition sign_of (d : direction) : sign := match d with Minus => Neg | _ => Pos end.

(** process (138-315); [None] is a panic *)
Definition process (c : icalibrator) (r : reading) : option (icalibrator * option istate) :=
  match ic_inner c with
  | inr _ => None                                                  (* unwrap_left *)
  | inl i =>
    match ic_state c with
    | Idle => Some (ICal WaitingStill (inl i) (Some r) (ic_threshold_sq c) (ic_window c) (ic_started c), Some WaitingStill)
    | WaitingStill => Some (arm_wait (State AX Plus Start) c i r)
    | State _ Rotating Variance => None
    | State a Rotating Start =>
      let i := process_rotation a i r in
      match a with
      | AZ => let '(still, last, w) := wait_still (ic_last c) (ic_window c) (ic_threshold_sq c) r in
              if still then
                let cal := calculate i in
                let next := match cal with Some _ => Success | None => Failure end in
                Some (ICal next (inr cal) last (ic_threshold_sq c) w (ic_started c), Some next)
              else Some (ICal (ic_state c) (inl i) last (ic_threshold_sq c) w (ic_started c), None)
      | _ => Some (arm_wait (State a Rotating End) c i r)
      end
    | State AZ Rotating End => None
    | State a d Start => Some (arm_process (process_static a (sign_of d)) (fun i => st_count (static_of i a (sign_of d))) (State a d Variance) c i r)
    | State a d Variance => Some (arm_process (process_variance a (sign_of d)) (fun i => st_vcount (static_of i a (sign_of d))) (State a d End) c i r)
    | State a d End => Some (arm_wait (after_end a d) c i r)
    | Success | Failure => None
    end
  end.

(** get_calibration_info (317-319) *)
Definition get_calibration_info (c : icalibrator) : option info := match ic_inner c with inr o => o | inl _ => None end.

(** a whole session: the states reported, in order; [None] is a panic *)
Fixpoint run (c : icalibrator) (rs : list reading) : option (icalibrator * list istate) :=
  match rs with
  | [] => Some (c, [])
  | r :: rs => bind (process c r) (fun '(c, s) => bind (run c rs) (fun '(c, l) => Some (c, match s with Some s => s :: l | None => l end)))
  end.

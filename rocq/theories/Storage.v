(** * The flight recorder: what reaches it as the flash fills up, and when it changes files.
    firmware-common/src/avionics/mod.rs: the loggers (82-128, 183-212), the storage check (233, 845-853), the sensor tasks
    (514-557); firmware-common/src/common/delta_logger/ring_delta_logger.rs:223-249 (when a segment ends).

    The buffers are the channels of buffered_logger.rs (PubSub.v), their runner being started.  How many bytes of the
    flash one reading takes is the file system's business (a sector at a time): each write carries its cost.
    Times are rationals, in ms. *)
From Verif Require Import Base PubSub HostTime.
From Coq Require Import QArith.
Local Open Scope Z_scope.

Section Recorder.
Context {A B G : Type}. (* readings of the IMU, the barometer, the GPS *)

Record rec := Rec {
  full : bool;                    (* storage_full *)
  free : Z;                       (* services.fs.free(), bytes *)
  imu_q : list A; baro_q : list B; gps_q : list G;
  flown : list (A * B);           (* imu_baro_signal: what the flight core's task was given, latest first *)
  temps : list B;                 (* what the telemetry's temperature was taken from, latest first *)
  fixes : list G;                 (* telemetry's position, latest first *)
  given_imu : list A; given_baro : list B; given_gps : list G (* handed to the loggers, latest first *) }.

Inductive event :=
| Check                                    (* storage_full_detection's tick *)
| Sensors (low_power : bool) (a : A) (b : B)   (* imu_baro's tick *)
| Fix (g : G)                              (* a GPS message *)
| WriteImu (cost : Z) | WriteBaro (cost : Z) | WriteGps (cost : Z)   (* a runner takes the oldest reading of its buffer and writes it *)
| Other (change : Z).                      (* anybody else claims (negative) or releases space *)

(** mod.rs:233 *)
Definition boot (space : Z) : rec := Rec false space [] [] [] [] [] [] [] [] [].

Definition drop_one {T} (q : list T) : list T := match q with [] => [] | _ :: q => q end.
Definition cost_of {T} (q : list T) (c : Z) : Z := match q with [] => 0 | _ => c end.

(** mod.rs:845-853 (Check), 517-540 (Sensors; IMU and barometer buffers of 40), 545-556 (Fix; a buffer of 10) *)
Definition step (s : rec) (e : event) : rec :=
  let '(Rec fl fr iq bq gq fo te fx gi gb gg) := s in
  match e with
  | Check => Rec (fr <? 1024 * 1024) fr iq bq gq fo te fx gi gb gg
  | Sensors true _ _ => s
  | Sensors false a b =>
      if fl then Rec fl fr iq bq gq ((a, b) :: fo) (b :: te) fx gi gb gg
      else Rec fl fr (publish 40 true a iq) (publish 40 true b bq) gq ((a, b) :: fo) (b :: te) fx (a :: gi) (b :: gb) gg
  | Fix g =>
      if fl then Rec fl fr iq bq gq fo te (g :: fx) gi gb gg
      else Rec fl fr iq bq (publish 10 true g gq) fo te (g :: fx) gi gb (g :: gg)
  | WriteImu c => Rec fl (fr - cost_of iq c) (drop_one iq) bq gq fo te fx gi gb gg
  | WriteBaro c => Rec fl (fr - cost_of bq c) iq (drop_one bq) gq fo te fx gi gb gg
  | WriteGps c => Rec fl (fr - cost_of gq c) iq bq (drop_one gq) fo te fx gi gb gg
  | Other d => Rec fl (fr + d) iq bq gq fo te fx gi gb gg
  end.

Definition run (s : rec) (l : list event) : rec := fold_left step l s.
End Recorder.
Arguments rec : clear implicits.
Arguments event : clear implicits.

(** ** When a recorder changes files *)
Local Open Scope Q_scope.

(** ring_delta_logger.rs:229-236: one change after another; each is called late by some time and takes some time *)
Fixpoint later (t : ticker) (now : Q) (h : list (Q * Q)) : list (Q * Q) :=
  match h with
  | [] => []
  | (late, takes) :: h => let '(t', at_) := next t now late in (at_, at_ + takes) :: later t' (at_ + takes) h
  end.

(** ring_delta_logger.rs:223-249: [first] and [every_] are the configuration in seconds, [start] the time the runner is first polled;
    the result lists the changes of file: when each begins and ends *)
Definition changes (first every_ : Q) (start : Q) (late takes : Q) (h : list (Q * Q)) : list (Q * Q) :=
  let at_ := start + first * 1000 + late in
  (at_, at_ + takes) :: later (every (at_ + takes) (every_ * 1000)) (at_ + takes) h.

(** mod.rs:95-96, 111-112, 185-210: first segment and segment length of the six ring loggers, in seconds *)
Definition recorders : list (Z * Z) :=
  [(25 * 1, 5 * 60); (25 * 2, 30 * 60); (25 * 3, 5 * 60); (25 * 4, 30 * 60); (25 * 7, 5 * 60); (25 * 8, 30 * 60)]%Z.

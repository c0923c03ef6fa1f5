(** * What the avionics announces: CAN flight events, the camera, the flight
    state in telemetry, the arming beeps.

    Models four more tasks of firmware-common/src/avionics/mod.rs on top of
    Avionics.v: can_tx_flight_event_fut (725-757), camera_ctrl_fut (824-843),
    flight_core_event_consumer (682-723) and hardware_arming_beep_fut
    (461-481).  Each has its own subscriber, whose unread messages are a queue
    of capacity 10 that drops the oldest (see Avionics.v); a poll of a task
    reads messages until there are none or it starts to wait.  Sending on CAN
    and switching the camera take no time here and succeed (the code ignores
    their errors: .ok()). *)
From Coq Require Import List Bool ZArith.
From Verif Require Import Numerics VLP FlightCore Avionics.
From Verif Require Can.
Import ListNotations.
Local Open Scope Z_scope.
Local Open Scope list_scope.

(** flight_core_event_channel.rs:8-13 *)
Inductive redundancy := Primary | BackupR | BackupBackupR.

Section Announce.
Context {A : numerics}.
Definition tagged : Type := (redundancy * event A)%type.

(** everything a step of the system publishes, with the publisher's tag
    (mod.rs:619-630: the backup core publishes as Backup, the manual-trigger
    core as BackupBackup; the drop of line 633 publishes DisArmed) *)
Definition published (p : profile A) (y : system A) (e : yevent A) : list tagged :=
  match e with
  | YSetup => match a_note (y_arm y), y_cores y with
              | Some s, Some _ => if is_armed s then [] else map (fun x => (BackupR, x)) drop_core
              | _, _ => []
              end
  | YBaro _ => map (fun x => (BackupR, x)) (emitted p y e)
  | YTick _ | YTrigger _ => map (fun x => (BackupBackupR, x)) (emitted p y e)
  | _ => []
  end.

(** ** mod.rs:738-756: which state is announced as what *)
Definition can_note (x : tagged) : list Can.flight_event :=
  match snd x with
  | ChangeState PowerAscend => [Can.Ignition]
  | ChangeState Coast => [Can.Coast]
  | ChangeState Descent => [Can.Apogee]
  | ChangeState Landed => [Can.Landed]
  | _ => []
  end.

(** ** mod.rs:824-843 *)
Definition LINGER : Z := 60000.   (** line 837 *)
Inductive ctask := CListening | CLingering (until : Z).
(** reading messages, lines 828-842; the commands given to the camera *)
Fixpoint cam_read (now : Z) (q : list tagged) : ctask * list tagged * list bool :=
  match q with
  | [] => (CListening, [], [])
  | x :: q =>
      match snd x with
      | ChangeState Armed => let '(t, q', o) := cam_read now q in (t, q', true :: o)       (** 830-832 *)
      | ChangeState DisArmed => let '(t, q', o) := cam_read now q in (t, q', false :: o)   (** 833-835 *)
      | ChangeState Landed => (CLingering (now + LINGER), q, [])                           (** 836-837 *)
      | _ => cam_read now q
      end
  end.
Definition cam_poll (now : Z) (t : ctask) (q : list tagged) : ctask * list tagged * list bool :=
  match t with
  | CListening => cam_read now q
  | CLingering dl =>
      if dl <=? now then let '(t, q', o) := cam_read now q in (t, q', false :: o)           (** 838 *)
      else (t, q, [])
  end.

(** ** mod.rs:682-723: the fields of the telemetry packet builder it sets
    (the altitude event is published by the primary core only); None is the
    reset of line 689 *)
Record shown := Shown {
  s_state : core_state; s_backup_state : core_state;
  s_altitude : option (f32 A); s_backup_altitude : option (f32 A);
  s_speed : option (f32 A); s_backup_speed : option (f32 A) }.
(** common/vlp/telemetry_packet.rs new (342-368): disarmed, and no value yet (zero) *)
Definition nothing_shown : shown := Shown DisArmed DisArmed None None None None.
Definition show (x : tagged) (w : shown) : option shown :=
  match x with
  | (_, CriticalError) => None                                                    (** 688-690 *)
  | (_, DidNotReachMinApogee) => Some w                                           (** 691-693 *)
  | (Primary, ChangeState s) => Some (Shown s (s_backup_state w) (s_altitude w) (s_backup_altitude w) (s_speed w) (s_backup_speed w))
  | (BackupR, ChangeState s) => Some (Shown (s_state w) s (s_altitude w) (s_backup_altitude w) (s_speed w) (s_backup_speed w))
  | (Primary, ChangeAltitude v) => Some (Shown (s_state w) (s_backup_state w) (Some v) (s_backup_altitude w) (s_speed w) (s_backup_speed w))
  | (BackupR, ChangeAltitude v) => Some (Shown (s_state w) (s_backup_state w) (s_altitude w) (Some v) (s_speed w) (s_backup_speed w))
  | (Primary, ChangeAirSpeed v) => Some (Shown (s_state w) (s_backup_state w) (s_altitude w) (s_backup_altitude w) (Some v) (s_backup_speed w))
  | (BackupR, ChangeAirSpeed v) => Some (Shown (s_state w) (s_backup_state w) (s_altitude w) (s_backup_altitude w) (s_speed w) (Some v))
  | (BackupBackupR, _) => Some w                                                  (** neither branch of 696-721 *)
  end.
Fixpoint show_all (q : list tagged) (w : shown) : option shown :=
  match q with [] => Some w | x :: q => match show x w with Some w => show_all q w | None => None end end.

(** ** The tasks together *)
Record station := Station {
  n_sys : system A;
  n_can_q : list tagged; n_can_sent : list (Can.flight_event * Z);
  n_cam_q : list tagged; n_cam : ctask; n_cam_did : list (bool * Z);
  n_tel_q : list tagged; n_shown : option shown }.   (** None: the device has reset *)
Inductive nevent := NSys (e : yevent A) | NCan (now : Z) | NCam (now : Z) | NTel.

Definition nstep (p : profile A) (n : station) (e : nevent) : option station :=
  match e with
  | NSys e =>
      match ystep p (n_sys n) e with
      | None => None
      | Some y => let es := published p (n_sys n) e in
          Some (Station y (push_events es (n_can_q n)) (n_can_sent n) (push_events es (n_cam_q n)) (n_cam n) (n_cam_did n)
                  (push_events es (n_tel_q n)) (n_shown n))
      end
  | NCan now =>
      Some (Station (n_sys n) [] (n_can_sent n ++ map (fun f => (f, now)) (flat_map can_note (n_can_q n)))
              (n_cam_q n) (n_cam n) (n_cam_did n) (n_tel_q n) (n_shown n))
  | NCam now =>
      let '(t, q, o) := cam_poll now (n_cam n) (n_cam_q n) in
      Some (Station (n_sys n) (n_can_q n) (n_can_sent n) q t (n_cam_did n ++ map (fun b => (b, now)) o) (n_tel_q n) (n_shown n))
  | NTel =>
      Some (Station (n_sys n) (n_can_q n) (n_can_sent n) (n_cam_q n) (n_cam n) (n_cam_did n) []
              (match n_shown n with Some w => show_all (n_tel_q n) w | None => None end))
  end.
Definition boot_station : station := Station boot_system [] [] [] CListening [] [] (Some nothing_shown).
Fixpoint nrun (p : profile A) (n : station) (l : list nevent) : option station :=
  match l with [] => Some n | e :: l => match nstep p n e with Some n' => nrun p n' l | None => None end end.
End Announce.
Arguments station : clear implicits.
Arguments nevent : clear implicits.
Arguments tagged : clear implicits.
Arguments shown : clear implicits.

(** ** mod.rs:461-481, with its own subscriber of the arming states: [a_note]
    of the manager is that subscriber's newest unread message.  [true] is the
    rising pair of tones, [false] the falling one. *)
Record beeper := Beeper { p_arm : manager; p_last : bool; p_beeps : list bool }.
Inductive bevent := BArm (e : aevent) | BPollBeep.
Definition beep_step (b : beeper) (e : bevent) : beeper :=
  match e with
  | BArm a => Beeper (astep (p_arm b) a) (p_last b) (p_beeps b)
  | BPollBeep =>
      match a_note (p_arm b) with
      | None => b
      | Some s =>                                                     (** 471-480 *)
          let new := hardware_armed s in
          Beeper (Manager (a_state (p_arm b)) (a_deb (p_arm b)) None) new
            (p_beeps b ++ if negb (p_last b) && new then [true] else if p_last b && negb new then [false] else [])
      end
  end.
(** lines 462-467: first poll; the state is fresh (mod.rs:235), so nothing is armed *)
Definition new_beeper : beeper := Beeper new_manager (is_armed (a_state new_manager)) [].
Definition beep_run (l : list bevent) : beeper := fold_left beep_step l new_beeper.

(** * C86: the "delete logs" command deletes logs and nothing else.

    The command is avionics/mod.rs:398-422 (VLPUplinkPacket::DeleteLogsPacket):
    VLFS::remove_files with the selection below; the numbers are those of
    common/file_types.rs ([file_types], PropRing.v). *)
From Coq Require Import List Bool NArith String.
From Verif Require Import Base Flash FS ATable Chains FileIO FileFormat Disk FsSpec FsApi FsRefine FsBoot FsHistory PropDirectory FsExec FsExamples PropRing.
Import ListNotations.
Local Open Scope N_scope.
Local Open Scope string_scope.
Local Open Scope list_scope.

Definition number (name : string) : option nat := option_map snd (find (fun p => String.eqb (fst p) name) file_types).

(** the closure given to remove_files (401-419) *)
Definition deleted_names : list string :=
  ["BENCHMARK_FILE_TYPE"; "AVIONICS_SENSORS_FILE_TYPE"; "AVIONICS_LOG_FILE_TYPE"; "GROUND_TEST_LOG_FILE_TYPE";
   "AVIONICS_GPS_LOGGER_TIER_1"; "AVIONICS_GPS_LOGGER_TIER_2"; "AVIONICS_LOW_G_IMU_LOGGER_TIER_1"; "AVIONICS_LOW_G_IMU_LOGGER_TIER_2";
   "AVIONICS_HIGH_G_IMU_LOGGER_TIER_1"; "AVIONICS_HIGH_G_IMU_LOGGER_TIER_2"; "AVIONICS_BARO_LOGGER_TIER_1"; "AVIONICS_BARO_LOGGER_TIER_2";
   "AVIONICS_MAG_LOGGER_TIER_1"; "AVIONICS_MAG_LOGGER_TIER_2"; "AVIONICS_BATTERY_LOGGER_TIER_1"; "AVIONICS_BATTERY_LOGGER_TIER_2"].
Definition has_name (typ : N) (name : string) : bool := match number name with Some k => N.eqb typ (N.of_nat k) | None => false end.
Definition delete_logs (_ typ : N) : bool := existsb (has_name typ) deleted_names.

(** ** Specification *)
(** what the vehicle cannot fly without *)
Definition settings : list string :=
  ["DEVICE_CONFIG_FILE_TYPE"; "CALIBRATION_FILE_TYPE"; "AVIONICS_UP_RIGHT_FILE_TYPE"; "FLIGHT_PROFILE_FILE_TYPE"; "UPRIGHT_VECTOR_AND_GYRO_OFFSET_FILE_TYPE"].
(** the logs the avionics firmware writes in flight *)
Definition flight_logs : list string :=
  ["AVIONICS_SENSORS_FILE_TYPE"; "AVIONICS_LOG_FILE_TYPE";
   "AVIONICS_GPS_LOGGER_TIER_1"; "AVIONICS_GPS_LOGGER_TIER_2"; "AVIONICS_LOW_G_IMU_LOGGER_TIER_1"; "AVIONICS_LOW_G_IMU_LOGGER_TIER_2";
   "AVIONICS_HIGH_G_IMU_LOGGER_TIER_1"; "AVIONICS_HIGH_G_IMU_LOGGER_TIER_2"; "AVIONICS_BARO_LOGGER_TIER_1"; "AVIONICS_BARO_LOGGER_TIER_2";
   "AVIONICS_MAG_LOGGER_TIER_1"; "AVIONICS_MAG_LOGGER_TIER_2"; "AVIONICS_BATTERY_LOGGER_TIER_1"; "AVIONICS_BATTERY_LOGGER_TIER_2"].
Definition is_one_of (names : list string) (x : file) : Prop := exists name k, In name names /\ In (name, k) file_types /\ f_typ x = N.of_nat k.

(** [new] is [old] without log files, settings and open files untouched *)
Definition only_logs_gone (y : sys) (old new : list file) : Prop :=
  (forall x, In x new -> In x old) /\
  (forall x, In x old -> is_one_of settings x -> In x new) /\
  (forall x, In x old -> is_opened (atb (sfs y)) (f_id x) = true -> In x new).

Lemma settings_spared x : is_one_of settings x -> delete_logs (f_id x) (f_typ x) = false.
Proof.
  intros (name & k & H1 & H2 & ->).
  assert (T : forallb (fun p => negb (existsb (String.eqb (fst p)) settings) || negb (delete_logs 0 (N.of_nat (snd p)))) file_types = true) by reflexivity.
  rewrite forallb_forall in T. specialize (T _ H2). cbn [fst snd] in T.
  assert (E : existsb (String.eqb name) settings = true) by (apply existsb_exists; exists name; split; [exact H1 | apply String.eqb_refl]).
  rewrite E in T. cbn [negb orb] in T. apply negb_true_iff in T. exact T.
Qed.

Lemma logs_selected x : is_one_of flight_logs x -> delete_logs (f_id x) (f_typ x) = true.
Proof.
  intros (name & k & H1 & H2 & ->).
  assert (T : forallb (fun p => negb (existsb (String.eqb (fst p)) flight_logs) || delete_logs 0 (N.of_nat (snd p))) file_types = true) by reflexivity.
  rewrite forallb_forall in T. specialize (T _ H2). cbn [fst snd] in T.
  assert (E : existsb (String.eqb name) flight_logs = true) by (apply existsb_exists; exists name; split; [exact H1 | apply String.eqb_refl]).
  rewrite E in T. exact T.
Qed.

Lemma filtered_gone y old : only_logs_gone y old (filter (fun x => negb (delete_logs (f_id x) (f_typ x) && negb (is_opened (atb (sfs y)) (f_id x)))) old).
Proof.
  split; [|split].
  - intros x H. apply filter_In in H. apply H.
  - intros x H S. apply filter_In. split; [exact H|]. rewrite (settings_spared x S). reflexivity.
  - intros x H S. apply filter_In. split; [exact H|]. rewrite S, andb_false_r. reflexivity.
Qed.

(** Once the command is carried out, settings and open files are what they were, and
    no finished flight log is left. *)
Theorem C86_delete_logs : forall crc, crc32 crc -> forall es y y' n m r, history crc es (On y) ->
  perform crc (Remove delete_logs) y = (y', RCounts n m) ->
  exists old new, snapshot crc (fl (sfs y)) r = Some old /\ snapshot crc (fl (sfs y')) r = Some new /\ only_logs_gone y old new /\
    forall x, In x new -> is_one_of flight_logs x -> is_opened (atb (sfs y)) (f_id x) = true.
Proof.
  intros crc Hc es y y' n m r Hh E.
  destruct (C07_removal_whatever_is_open crc Hc es y _ y' n m r Hh E) as (old & E1 & E2 & _). cbv zeta in E2.
  exists old. eexists. split; [exact E1|]. split; [exact E2|]. split; [apply filtered_gone|].
  intros x H L. apply filter_In in H. destruct H as [_ H]. rewrite (logs_selected x L) in H. cbn [andb] in H. rewrite negb_involutive in H. exact H.
Qed.

(** If power is lost during the command, settings and open files are still what they were. *)
Theorem C86_power_loss : forall crc, crc32 crc -> forall es y f r, history crc es (On y) ->
  power_lost crc (Remove delete_logs) y f ->
  exists old new, snapshot crc (fl (sfs y)) r = Some old /\ snapshot crc f r = Some new /\ only_logs_gone y old new.
Proof.
  intros crc Hc es y f r Hh Hp.
  destruct (C06_removal_whatever_is_open crc Hc es y delete_logs f r Hh Hp) as (old & F & E1 & E2 & D).
  exists old, F. split; [exact E1|]. split; [exact E2|]. destruct D as [-> | ->]; [|apply filtered_gone].
  split; [auto|]. split; auto.
Qed.

(** Logs it leaves behind: the ground-test barometer log, the vacuum test's and the strain gauges'. *)
Theorem C86_logs_left : forall id, map (fun p => fst p) (filter (fun p => negb (delete_logs id (N.of_nat (snd p))) && negb (existsb (String.eqb (fst p)) settings)) file_types)
  = ["GROUND_TEST_BARO_FILE_TYPE"; "VACUUM_TEST_LOG_FILE_TYPE"; "VACUUM_TEST_BARO_LOGGER"; "SG_READINGS"; "SG_BATTERY_LOGGER"].
Proof. reflexivity. Qed.

(** a device with a calibration file (type 3) and a sensor log (type 4): the first stays *)
Theorem C86_instance : exists es y, history sum es (On y) /\ legal y (Remove delete_logs) /\
  perform sum (Remove delete_logs) y = (fst (perform sum (Remove delete_logs) y), RCounts 1 0).
Proof.
  destruct (reach two_files (fun y => legalb y (Remove delete_logs) && match snd (perform sum (Remove delete_logs) y) with RCounts a b => N.eqb a 1 && N.eqb b 0 | _ => false end))
    as (es & y & Hh & H); [vm_compute; reflexivity|].
  apply andb_prop in H. destruct H as [H1 H2]. exists es, y. split; [exact Hh|]. split; [apply legalb_sound; exact H1|].
  destruct (perform sum (Remove delete_logs) y) as [y' rep]. cbn [fst snd] in *. f_equal. destruct rep; try discriminate H2.
  apply andb_prop in H2. destruct H2 as [A B]. apply N.eqb_eq in A, B. subst. reflexivity.
Qed.

(** ** Logs that are being written *)
Lemma ids_unique crc es y r old x z : crc32 crc -> history crc es (On y) -> snapshot crc (fl (sfs y)) r = Some old -> In x old -> In z old -> f_id x = f_id z -> x = z.
Proof.
  intros Hc Hh E Hx Hz Ei. destruct (running crc es y Hc Hh) as (v & _ & R). rewrite (repr_snapshot crc y v r R) in E. injection E as <-.
  destruct R as [(p & ents & C & H & W & ST & EF & EW & EV) _ _ _]. pose proof (Sessions.st_disk _ _ _ _ _ _ _ _ _ ST) as Dk.
  assert (ND : NoDup (map f_id (v_files v))) by (rewrite EF, view_ids by (apply (DirState.disk_len _ _ _ _ _ _ _ Dk)); apply FsRefine.sorted_nodup, (dk_sorted _ _ _ _ _ _ _ Dk)).
  clear -ND Hx Hz Ei. induction (v_files v) as [|a l IH]; [destruct Hx|]. cbn [map] in ND. inversion ND as [|? ? N1 N2]; subst. destruct Hx as [->|Hx], Hz as [->|Hz]; auto.
  - exfalso. apply N1. rewrite Ei. apply in_map. exact Hz.
  - exfalso. apply N1. rewrite <- Ei. apply in_map. exact Hx.
Qed.

(** A writer goes on existing after the command, but the log it appends to does not: for files obtained from
    create_file_and_open_for_write (at_builder.rs:185-196 does not mark them as open), as all the loggers obtain theirs, the
    command deletes the log that is being written and gives its sectors to the next file that asks for one. *)
Theorem C86_refuted_log_being_written : forall crc, crc32 crc -> forall es y y' n m r w old x, history crc es (On y) ->
  perform crc (Remove delete_logs) y = (y', RCounts n m) ->
  In w (sws y) -> snapshot crc (fl (sfs y)) r = Some old -> In x old -> f_id x = w_id w -> is_one_of flight_logs x -> is_opened (atb (sfs y)) (w_id w) = false ->
  In w (sws y') /\ (exists new, snapshot crc (fl (sfs y')) r = Some new /\ forall z, In z new -> f_id z <> w_id w).
Proof.
  intros crc Hc es y y' n m r w old x Hh E Hw Es Hx Ei L Ho.
  destruct (C07_removal_whatever_is_open crc Hc es y _ y' n m r Hh E) as (old' & E1 & E2 & _ & _ & W & _). cbv zeta in E2.
  rewrite Es in E1. injection E1 as <-. split; [rewrite W; exact Hw|]. eexists. split; [exact E2|]. intros z Hz Iz. apply filter_In in Hz. destruct Hz as [Hz Kz].
  assert (z = x) by (apply (ids_unique crc es y r old z x Hc Hh Es Hz Hx); congruence). subst z.
  rewrite (logs_selected x L), Ei, Ho in Kz. exact (Bool.diff_false_true Kz).
Qed.

Definition recording : list act := [XBoot; XCall (CreateOpen 4); XCall (Append 0 [1; 2; 3]); XCall (Flush 0)].
Definition gone_on (y : sys) : bool :=
  let '(y1, r1) := perform sum (Remove delete_logs) y in
  let '(y2, r2) := perform sum (Append 0 [4; 5]) y1 in
  let '(y3, r3) := perform sum (Flush 0) y2 in
  let '(y4, r4) := perform sum (CloseWriter 0) y3 in
  match snapshot sum (fl (sfs y)) (fun _ => 0) with Some F => same F [(1, 4, [1; 2; 3])] | None => false end &&
  match r1 with RCounts a b => N.eqb a 1 && N.eqb b 0 | _ => false end && is_done r2 && is_done r3 && is_done r4 &&
  match snapshot sum (fl (sfs y4)) (fun _ => 0) with Some [] => true | _ => false end.

(** a sensor log (type 4) with three bytes recorded; the command; two more bytes are recorded and the log is closed, all without an
    error: nothing of it is left *)
Theorem C86_refuted_recording_lost : exists es y y1 y2 y3 y4, history sum es (On y) /\
  snapshot sum (fl (sfs y)) (fun _ => 0) = Some [(1, 4, [1; 2; 3])] /\
  perform sum (Remove delete_logs) y = (y1, RCounts 1 0) /\ perform sum (Append 0 [4; 5]) y1 = (y2, RDone) /\
  perform sum (Flush 0) y2 = (y3, RDone) /\ perform sum (CloseWriter 0) y3 = (y4, RDone) /\
  snapshot sum (fl (sfs y4)) (fun _ => 0) = Some [].
Proof.
  destruct (reach recording gone_on) as (es & y & Hh & H); [vm_compute; reflexivity|]. unfold gone_on in H.
  destruct (perform sum (Remove delete_logs) y) as [y1 r1] eqn:E1. destruct (perform sum (Append 0 [4; 5]) y1) as [y2 r2] eqn:E2.
  destruct (perform sum (Flush 0) y2) as [y3 r3] eqn:E3. destruct (perform sum (CloseWriter 0) y3) as [y4 r4] eqn:E4.
  repeat (apply andb_prop in H; destruct H as [H ?]).
  exists es, y, y1, y2, y3, y4. split; [exact Hh|]. split.
  { destruct (snapshot sum (fl (sfs y)) (fun _ => 0)) as [F|]; [f_equal; apply same_eq; exact H|exfalso; exact (Bool.diff_false_true H)]. }
  split. { rewrite E1. f_equal. destruct r1; try (exfalso; exact (Bool.diff_false_true H4)). apply andb_prop in H4. destruct H4 as [A B]. apply N.eqb_eq in A, B. subst. reflexivity. }
  split; [rewrite E2; f_equal; apply is_done_eq; exact H3|]. split; [rewrite E3; f_equal; apply is_done_eq; exact H2|]. split; [rewrite E4; f_equal; apply is_done_eq; exact H1|].
  destruct (snapshot sum (fl (sfs y4)) (fun _ => 0)) as [[|a F]|]; [reflexivity|exfalso; exact (Bool.diff_false_true H0)|exfalso; exact (Bool.diff_false_true H0)].
Qed.
Print Assumptions C86_refuted_log_being_written.

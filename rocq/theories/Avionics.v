(** * Arming, debouncing, pyro channels and the avionics main loop.

    Models firmware-common/src/common/debounced_signal.rs,
    avionics/arming_state.rs, avionics/flight_core_event_channel.rs and the
    tasks of avionics/mod.rs that lead from the arming switches and the sensors
    to the pyro outputs.  Async tasks are state machines advanced by polls; a
    delay started at time t is over at the first poll at or after t plus its
    length.  Times are integers (ms). *)
From Coq Require Import List Bool ZArith Lia.
From Verif Require Import Numerics VLP FlightCore.
Import ListNotations.
Local Open Scope Z_scope.
Local Open Scope list_scope.

(** ** common/debounced_signal.rs *)
Section Debounce.
Context {V : Type} (veq : V -> V -> bool) (ms : Z).

(** where [run_debounce] (lines 43-66) is suspended: in the first wait, in the
    second, or in the select with its timer *)
Inductive dphase := WaitFirst | WaitSecond (state : V) | Timing (state new_state : V) (deadline : Z).
(** [d_pending]: embassy's Signal [changed_signal], which keeps the last value *)
Record debouncer := Debouncer { d_pending : option V; d_phase : dphase }.
(** lines 25-31 *)
Definition new_debouncer : debouncer := Debouncer None WaitFirst.
(** lines 33-35 signal *)
Definition d_signal (v : V) (d : debouncer) : debouncer := Debouncer (Some v) (d_phase d).

(** the select of lines 51-54 polled with a fresh timer: the timer is not over,
    so only a pending signal can complete it (lines 62-64), and then the next
    select has nothing to take *)
Definition fresh_select (now : Z) (state new_state : V) (pending : option V) : debouncer :=
  match pending with
  | Some v => Debouncer None (Timing state v (now + ms))
  | None => Debouncer None (Timing state new_state (now + ms))
  end.

(** one poll of run_debounce, and what it signals on [debounced_signal] *)
Definition d_poll (now : Z) (d : debouncer) : debouncer * option V :=
  match d_phase d, d_pending d with
  | WaitFirst, Some v => (Debouncer None (WaitSecond v), Some v)                    (** lines 44-45 *)
  | WaitFirst, None => (d, None)
  | WaitSecond st, Some v => (Debouncer None (Timing st v (now + ms)), None)        (** line 47 *)
  | WaitSecond st, None => (d, None)
  | Timing st nw dl, p =>
      if dl <=? now then                                                            (** lines 55-60; the timer is polled first *)
        if veq nw st then (fresh_select now st nw p, None) else (fresh_select now nw nw p, Some nw)
      else match p with
           | Some v => (Debouncer None (Timing st v (now + ms)), None)              (** lines 61-63 *)
           | None => (d, None)
           end
  end.

Inductive devent := DSignal (v : V) (t : Z) | DPoll (t : Z).
Definition dstep (d : debouncer) (e : devent) : debouncer * option V :=
  match e with DSignal v _ => (d_signal v d, None) | DPoll t => d_poll t d end.
(** a schedule, and the values published with the time of publication *)
Fixpoint drun (d : debouncer) (l : list devent) : debouncer * list (Z * V) :=
  match l with
  | [] => (d, [])
  | e :: l =>
      let '(d1, o) := dstep d e in
      let '(d2, os) := drun d1 l in
      (d2, match o, e with Some v, DPoll t => (t, v) :: os | _, _ => os end)
  end.
End Debounce.
Arguments debouncer : clear implicits.
Arguments devent : clear implicits.
Arguments dphase : clear implicits.

(** ** avionics/arming_state.rs *)

(** lines 13-29 *)
Record arming := Arming { software_armed : bool; hardware_armed : bool }.
Definition is_armed (a : arming) : bool := software_armed a && hardware_armed a.
Definition ARM_DEBOUNCE : Z := 1000.   (** line 42 *)

(** [a_note]: the newest unread message of one subscriber of the PubSubChannel
    of capacity 1 (publish_immediate replaces an unread message) *)
Record manager := Manager { a_state : arming; a_deb : debouncer bool; a_note : option arming }.
Definition new_manager : manager := Manager (Arming false false) new_debouncer None.

Inductive aevent := ASoft (b : bool) | AHard (b : bool) (t : Z) | APoll (t : Z).
Definition astep (m : manager) (e : aevent) : manager :=
  match e with
  | ASoft b =>                                                       (** lines 46-52 *)
      let s := Arming b (hardware_armed (a_state m)) in Manager s (a_deb m) (Some s)
  | AHard b _ => Manager (a_state m) (d_signal b (a_deb m)) (a_note m)   (** lines 54-56 *)
  | APoll t =>                                                       (** lines 66-81: join polls run_debounce, then the waiter *)
      let '(d, o) := d_poll Bool.eqb ARM_DEBOUNCE t (a_deb m) in
      match o with
      | Some h => let s := Arming (software_armed (a_state m)) h in Manager s d (Some s)
      | None => Manager (a_state m) d (a_note m)
      end
  end.
Definition arun (m : manager) (l : list aevent) : manager := fold_left astep l m.

(** ** Event channel: one subscriber's unread messages.  embassy PubSubChannel
    of capacity 10 (flight_core_event_channel.rs:16, publish_immediate line 49):
    publishing to a full queue drops the oldest; next_message_pure skips the
    notice of the loss. *)
Definition CAP : nat := 10.
Definition push_event {X} (x : X) (q : list X) : list X :=
  (if Nat.eqb (length q) CAP then tl q else q) ++ [x].
Definition push_events {X} (xs q : list X) : list X := fold_left (fun q x => push_event x q) xs q.

(** ** Pyro tasks: avionics/mod.rs:760-820 *)
Definition PULSE : Z := 3000.
Inductive ptask := PWaiting | PFiring (until : Z) | PDone.
(** one poll: consume messages until the deployment is found (lines 763-770),
    enable, wait 3 s, disable, end; the commands given to the output *)
Fixpoint find_deploy {X} (is_deploy : X -> bool) (q : list X) : option (list X) :=
  match q with [] => None | x :: q => if is_deploy x then Some q else find_deploy is_deploy q end.
Definition p_poll {X} (is_deploy : X -> bool) (now : Z) (t : ptask) (q : list X) : ptask * list X * option bool :=
  match t with
  | PWaiting => match find_deploy is_deploy q with
                | Some q' => (PFiring (now + PULSE), q', Some true)
                | None => (PWaiting, [], None)
                end
  | PFiring dl => if dl <=? now then (PDone, q, Some false) else (t, q, None)
  | PDone => (PDone, q, None)
  end.

(** ** The avionics tasks together *)
Section System.
Context {A : numerics}.

(** avionics/mod.rs:240-247: the two cores live and die together *)
Record system := System {
  y_arm : manager; y_cores : option (backup A * mstate A);
  y_main_q : list (event A); y_drogue_q : list (event A);
  y_main : ptask; y_drogue : ptask;
  y_out : list (pyro * bool * Z) }.   (** commands given to the pyro outputs with their times, oldest first *)

Definition is_main (e : event A) : bool := match e with ChangeState MainChuteDeployed => true | _ => false end.
Definition is_drogue (e : event A) : bool := match e with ChangeState DrogueChuteDeployed => true | _ => false end.

Definition publish (es : list (event A)) (y : system) : system :=
  System (y_arm y) (y_cores y) (push_events es (y_main_q y)) (push_events es (y_drogue_q y)) (y_main y) (y_drogue y) (y_out y).
Definition with_cores (c : option (backup A * mstate A)) (y : system) : system :=
  System (y_arm y) c (y_main_q y) (y_drogue_q y) (y_main y) (y_drogue y) (y_out y).
Definition with_arm (m : manager) (y : system) : system :=
  System m (y_cores y) (y_main_q y) (y_drogue_q y) (y_main y) (y_drogue y) (y_out y).

Inductive yevent :=
| YArm (e : aevent)            (** switches and the debounce task *)
| YSetup                       (** setup_flight_core_fut, one message: lines 604-636 *)
| YBaro (r : reading A)        (** flight_core_tick_fut: lines 638-668 *)
| YTick (t : f64 A)            (** backup_backup_flight_core_tick_fut: lines 670-680 *)
| YTrigger (t : f64 A)         (** ManualTriggerDeployment received: lines 424-431 *)
| YMain (now : Z) | YDrogue (now : Z).

Definition ystep (p : profile A) (y : system) (e : yevent) : option system :=
  match e with
  | YArm a => Some (with_arm (astep (y_arm y) a) y)
  | YSetup =>
      match a_note (y_arm y) with
      | None => Some y
      | Some s =>
          let y := with_arm (Manager (a_state (y_arm y)) (a_deb (y_arm y)) None) y in
          match is_armed s, y_cores y with
          | true, None => Some (with_cores (Some (new_backup, MArmed)) y)
          | false, Some _ => Some (publish drop_core (with_cores None y))   (** Drop of BackupFlightCore *)
          | _, _ => Some y
          end
      end
  | YBaro r =>
      match y_cores y with
      | None => Some y
      | Some (b, m) => match btick p b r with None => None | Some (b', es) => Some (publish es (with_cores (Some (b', m)) y)) end
      end
  | YTick t =>
      match y_cores y with
      | None => Some y
      | Some (b, m) => let '(m', es) := mstep p m (MTick t) in Some (publish es (with_cores (Some (b, m')) y))
      end
  | YTrigger t =>
      match y_cores y with
      | None => Some y
      | Some (b, m) => let '(m', es) := mstep p m (MTrigger t) in Some (publish es (with_cores (Some (b, m')) y))
      end
  | YMain now =>
      let '(t, q, o) := p_poll is_main now (y_main y) (y_main_q y) in
      Some (System (y_arm y) (y_cores y) q (y_drogue_q y) t (y_drogue y)
              (y_out y ++ match o with Some b => [(main_pyro p, b, now)] | None => [] end))
  | YDrogue now =>
      let '(t, q, o) := p_poll is_drogue now (y_drogue y) (y_drogue_q y) in
      Some (System (y_arm y) (y_cores y) (y_main_q y) q (y_main y) t
              (y_out y ++ match o with Some b => [(drogue_pyro p, b, now)] | None => [] end))
  end.
(** what the cores publish in a step *)
Definition emitted (p : profile A) (y : system) (e : yevent) : list (event A) :=
  match e, y_cores y with
  | YBaro r, Some (b, _) => match btick p b r with Some (_, es) => es | None => [] end
  | YTick t, Some (_, m) => snd (mstep p m (MTick t))
  | YTrigger t, Some (_, m) => snd (mstep p m (MTrigger t))
  | _, _ => []
  end.
Definition boot_system : system := System new_manager None [] [] PWaiting PWaiting [].
Fixpoint yrun (p : profile A) (y : system) (l : list yevent) : option system :=
  match l with [] => Some y | e :: l => match ystep p y e with Some y' => yrun p y' l | None => None end end.
End System.
Arguments system : clear implicits.
Arguments yevent : clear implicits.

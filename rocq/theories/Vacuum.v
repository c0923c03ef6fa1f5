(** * The vacuum-chamber test program.

    Models firmware-common/src/vacuum_test/mod.rs:39-203 (vacuum_test_main) over the backup flight core of
    FlightCore.v, the publish/subscribe queue of PubSub.v and any codec of log records (EnumLog.v; the
    record of lines 22-33).  Not modelled: the ring logger of the barometer (Ring.v), the log
    messages, the two beeps of lines 186-187, and the start: without a flight profile the program never gets
    here (lines 47-60: the indicators run for ever), and a failing barometer read or a failing write is a panic
    (lines 101, 133-134), after which nothing here happens any more. *)
From Coq Require Import List Bool Arith.
From Verif Require Import Numerics VLP FlightCore PubSub.
Import ListNotations.
Local Open Scope nat_scope.
Local Open Scope list_scope.

Section Vacuum.
Context {A : numerics}.

(** lines 22-26; only ChangeState events are ever logged (lines 114-138) *)
Definition vrecord : Type := f64 A * core_state.

(** where flight_core_events_sub_fut is (lines 109-144) *)
Inductive vpos :=
| VNotStarted                (* not polled yet: no subscriber (line 110) *)
| VWaiting                   (* at next_message_pure, line 112 *)
| VBusy (r : vrecord).       (* writing and flushing the record, lines 122-135 *)

Record vt := VT {
  v_core : backup A;
  v_q : list (event A);              (* the PubSubChannel of capacity 3, line 92 *)
  v_pos : vpos;
  v_signal : option core_state;      (* flight_core_state_signal, line 107 *)
  v_shown : option core_state;       (* the state indicators_fut displays, lines 146-183 *)
  (* ghost logs *)
  v_published : list (event A);      (* everything the flight core published *)
  v_taken : list core_state;         (* the states line 114 has matched *)
  v_beeps : nat;                     (* buzzer_queue.publish(2700, 2000, 150), line 120 *)
  v_logged : list vrecord }.         (* records written and flushed *)

Definition v_new : vt := VT new_backup [] VNotStarted None None [] [] 0 [].

Inductive vevent :=
| VTick (r : reading A)     (* lines 99-104: a barometer reading is fed to the flight core *)
| VStart                    (* the subscriber is created, line 110 *)
| VTake (now : f64 A)       (* a waiting event is taken and matched at time [now], lines 112-128 *)
| VFinish                   (* write and flush are done, lines 122-135 *)
| VShow.                    (* indicators_fut receives the signal, lines 147, 171-180 *)

Definition v_subscribed (s : vt) : bool := match v_pos s with VNotStarted => false | _ => true end.
Definition publish_all (sub : bool) (es q : list (event A)) : list (event A) := fold_left (fun q e => publish 3 sub e q) es q.
Definition beeps (s : core_state) : bool := match s with MainChuteDeployed | DrogueChuteDeployed => true | _ => false end.

(** None: the event cannot happen now (or the flight core panicked) *)
Definition vstep (p : profile A) (s : vt) (e : vevent) : option vt :=
  match e with
  | VTick r =>
      match btick p (v_core s) r with
      | Some (b, es) => Some (VT b (publish_all (v_subscribed s) es (v_q s)) (v_pos s) (v_signal s) (v_shown s)
                                 (v_published s ++ es) (v_taken s) (v_beeps s) (v_logged s))
      | None => None
      end
  | VStart =>
      match v_pos s with
      | VNotStarted => Some (VT (v_core s) (v_q s) VWaiting (v_signal s) (v_shown s) (v_published s) (v_taken s) (v_beeps s) (v_logged s))
      | _ => None
      end
  | VTake now =>
      match v_pos s, v_q s with
      | VWaiting, ChangeState st :: q =>
          Some (VT (v_core s) q (VBusy (now, st)) (Some st) (v_shown s) (v_published s) (v_taken s ++ [st])
                   (v_beeps s + (if beeps st then 1 else 0)) (v_logged s))
      | VWaiting, _ :: q => Some (VT (v_core s) q VWaiting (v_signal s) (v_shown s) (v_published s) (v_taken s) (v_beeps s) (v_logged s))
      | _, _ => None
      end
  | VFinish =>
      match v_pos s with
      | VBusy r => Some (VT (v_core s) (v_q s) VWaiting (v_signal s) (v_shown s) (v_published s) (v_taken s) (v_beeps s) (v_logged s ++ [r]))
      | _ => None
      end
  | VShow =>
      match v_signal s with
      | Some st => Some (VT (v_core s) (v_q s) (v_pos s) None (Some st) (v_published s) (v_taken s) (v_beeps s) (v_logged s))
      | None => None
      end
  end.
Fixpoint vrun (p : profile A) (s : vt) (es : list vevent) : option vt :=
  match es with [] => Some s | e :: es => match vstep p s e with Some s => vrun p s es | None => None end end.
End Vacuum.
Arguments vt : clear implicits.
Arguments vevent : clear implicits.
Arguments vpos : clear implicits.
Arguments vrecord : clear implicits.

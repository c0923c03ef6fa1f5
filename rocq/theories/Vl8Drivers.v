(** * The drivers the flight computer builds on the power board's events.

    Models vl8-ctrl-protocol/src/master_drivers.rs (MasterPyroContinuity, MasterHardwareArming, MasterGPS),
    the slot and the wakers of Master (master.rs:21-26, 87-105, 159-166) and multi_waker.rs.  The requests themselves
    (set_enable, set_recording, and what poll_event and get_continuity receive) are in Vl8.v.  Signals of
    embassy-sync (a dependency) hold the last value signalled and are cleared by [wait]. *)
From Verif Require Import Base Vl8.
Local Open Scope N_scope.

(** ** What a driver keeps *)
Inductive kind := KContinuity (channel : N) | KArming | KGps.
Inductive payload := PBool (b : bool) | PNmea (sentence : list byte).

(** heapless [String<84>::from_iter] of bytes as chars (lines 163-170): a byte from 128 on becomes two bytes of UTF-8; [None] is the panic
    when they do not fit *)
Definition char_bytes (b : byte) : list byte := if b <? 128 then [b] else [192 + b / 64; 128 + b mod 64].
Definition as_string (sentence : list byte) (len : N) : option (list byte) :=
  let s := flat_map char_bytes (firstn (N.to_nat len) sentence) in if (length s <=? 84)%nat then Some s else None.

(** the patterns of lines 70-75, 128 and 162: [None]: the event is left in the slot; [Some None]: panic *)
Definition claims (k : kind) (e : event) : option (option payload) :=
  match k, e with
  | KContinuity c, EvContinuity c' b => if c' =? c then Some (Some (PBool b)) else None
  | KArming, EvHardwareArming b => Some (Some (PBool b))
  | KGps, EvNmea s n => Some (match as_string s n with Some t => Some (PNmea t) | None => None end)
  | _, _ => None
  end.

(** [d_task]: the executor task that runs [run()]; [d_init]: the initial request (lines 57-65, 115-123) is still to be answered;
    [d_value]: [continuity], [armed] or [sentence] (lines 42, 103, 147; [None] is the value given by [new]); [d_signal]: a signal is waiting, with its value;
    [d_seen]: ghost, every value stored *)
Record driver := mkDriver { d_kind : kind; d_task : nat; d_init : bool; d_value : option payload; d_signal : option payload; d_seen : list payload }.
(** lines 46-53, 107-113, 151-158: MasterGPS has no initial request *)
Definition new_driver (k : kind) (task : nat) : driver := mkDriver k task (match k with KGps => false | _ => true end) None None [].

(** ** Master *)
Record master := mkMaster {
  m_slot : option event;          (* last_event *)
  m_wakers : list nat;            (* wakers_reg: tasks, at most ten *)
  m_ready : list nat;             (* tasks the executor will poll *)
  m_drivers : list driver;
  m_reported : list event }.      (* ghost: what poll_event was answered *)
Definition new_master (ds : list driver) : master := mkMaster None [] (nodup Nat.eq_dec (map d_task ds)) ds [].

(** multi_waker.rs:66-92; a full registration only warns (master.rs:161-163) *)
Definition register (t : nat) (w : list nat) : list nat :=
  if in_dec Nat.eq_dec t w then w else if (length w <? 10)%nat then w ++ [t] else w.

(** the closure given to poll_fn, lines 66-88, 124-141, 160-185; [None] is a panic.  A driver whose initial request is pending does not get there. *)
Definition poll_driver (slot : option event) (w : list nat) (d : driver) : option (option event * list nat * driver) :=
  if d_init d then Some (slot, w, d)
  else match slot with
       | Some e => match claims (d_kind d) e with
                   | Some (Some v) => Some (None, register (d_task d) w, mkDriver (d_kind d) (d_task d) false (Some v) (Some v) (d_seen d ++ [v]))
                   | Some None => None
                   | None => Some (slot, register (d_task d) w, d)
                   end
       | None => Some (slot, register (d_task d) w, d)
       end.
(** a task polls the drivers it runs, in order *)
Fixpoint poll_task (t : nat) (slot : option event) (w : list nat) (ds : list driver) : option (option event * list nat * list driver) :=
  match ds with
  | [] => Some (slot, w, [])
  | d :: r =>
      if Nat.eqb (d_task d) t then
        match poll_driver slot w d with
        | Some (slot', w', d') => match poll_task t slot' w' r with Some (s2, w2, r') => Some (s2, w2, d' :: r') | None => None end
        | None => None
        end
      else match poll_task t slot w r with Some (s2, w2, r') => Some (s2, w2, d :: r') | None => None end
  end.

Inductive mevent :=
| MEvent (e : event)                 (* poll_event receives an event, master.rs:89-98 *)
| MRun (t : nat)                     (* the executor polls a task *)
| MInit (i : nat) (o : option bool)  (* the initial request of driver [i] is answered, or fails; its task is polled for that *)
| MWait (i : nat)                    (* wait_continuity_change / wait_arming_change returns *)
| MNext (i : nat).                   (* next_nmea_sentence returns *)

Definition set_driver (i : nat) (d : driver) (ds : list driver) : list driver := firstn i ds ++ d :: skipn (S i) ds.
Definition polled (m : master) (t : nat) (ds : list driver) : option master :=
  match poll_task t (m_slot m) (m_wakers m) ds with
  | Some (slot, w, ds') => Some (mkMaster slot w (remove Nat.eq_dec t (m_ready m)) ds' (m_reported m))
  | None => None
  end.
(** [None]: panic, or the event cannot happen *)
Definition mstep (m : master) (e : mevent) : option master :=
  match e with
  | MEvent e => Some (mkMaster (Some e) [] (m_ready m ++ m_wakers m) (m_drivers m) (m_reported m ++ [e]))
  | MRun t => polled m t (m_drivers m)
  | MInit i o =>
      match nth_error (m_drivers m) i with
      | Some d => if d_init d then
                    let d' := match o with
                              | Some b => mkDriver (d_kind d) (d_task d) false (Some (PBool b)) (Some (PBool b)) (d_seen d ++ [PBool b])
                              | None => mkDriver (d_kind d) (d_task d) false (d_value d) (d_signal d) (d_seen d)
                              end in
                    polled m (d_task d) (set_driver i d' (m_drivers m))
                  else None
      | None => None
      end
  | MWait i =>
      match nth_error (m_drivers m) i with
      | Some d => match d_kind d, d_signal d with
                  | KGps, _ => None
                  | _, Some _ => Some (mkMaster (m_slot m) (m_wakers m) (m_ready m) (set_driver i (mkDriver (d_kind d) (d_task d) (d_init d) (d_value d) None (d_seen d)) (m_drivers m)) (m_reported m))
                  | _, None => None
                  end
      | None => None
      end
  | MNext i =>
      match nth_error (m_drivers m) i with
      | Some d => match d_kind d, d_signal d, d_value d with
                  | KGps, Some _, Some _ => Some (mkMaster (m_slot m) (m_wakers m) (m_ready m) (set_driver i (mkDriver (d_kind d) (d_task d) (d_init d) None None (d_seen d)) (m_drivers m)) (m_reported m))
                  | _, _, _ => None
                  end
      | None => None
      end
  end.
Fixpoint mrun (m : master) (es : list mevent) : option master :=
  match es with [] => Some m | e :: t => match mstep m e with Some m' => mrun m' t | None => None end end.

(** read_continuity, read_arming (lines 98-100, 151-153) *)
Definition read_bool (d : driver) : bool := match d_value d with Some (PBool b) => b | _ => false end.

(** * One-subscriber publish/subscribe queues, and three users of them:
      delta_logger/buffered_logger.rs, common/buzzer_queue.rs, delta_logger/merged_logger.rs *)
From Coq Require Import List Arith Lia Bool.
Import ListNotations.
Local Open Scope nat_scope.

(** ** embassy-sync [PubSubChannel<_, _, CAP, 1, 1>] as its single subscriber sees it
    (the library is a dependency: this is the behaviour its documentation promises).
    [publish_immediate] without a subscriber drops the message; with one, a full queue loses its oldest
    message; [next_message_pure] skips over what was lost. *)
Definition publish {T} (cap : nat) (subscribed : bool) (m : T) (q : list T) : list T :=
  if subscribed then (if length q =? cap then tl q else q) ++ [m] else q.

(** ** BufferedLogger (buffered_logger.rs) *)
Section Buffered.
Context {T : Type}.   (* Either<SensorReading, UnixTimestampLog>, lines 29, 78, 84 *)

(** what the wrapped logger is asked to do *)
Inductive icall := ILog (m : T) | IFlush.

(** where [BufferedLoggerRunner::run] is (lines 144-177) *)
Inductive rpos :=
| RNotStarted
| RWaiting                    (* at select3, line 152 *)
| RDraining (stop : bool)     (* the [while let] of line 158 (false) or 165 (true) *)
| RFinished
| RPanicked.                  (* [as_mut().unwrap()] on a logger already taken, line 146 *)

(** where a [flush] call is (line 108; rpc_channel.rs:31-34) *)
Inductive fpos := FNone | FSending | FAwaiting.
(** where [into_inner] is (lines 112-116) *)
Inductive tpos := TNone | TWaiting | TTaken.

(** lines 18-35, with ghost logs [handed] (calls made on the wrapped logger), [accepted] (everything
    passed to [log], which always answers [Ok(true)]) and [flushes] (flush calls that returned) *)
Record bl := BL {
  q : list T; request : bool; response : bool; stop : bool;
  runner : rpos; flusher : fpos; taker : tpos;
  handed : list icall; accepted : list T; flushes : nat }.

(** lines 42-50 *)
Definition bl_new : bl := BL [] false false false RNotStarted FNone TNone [] [] 0.

(** The subscriber exists from line 150 until [run] returns. *)
Definition subscribed (s : bl) : bool := match runner s with RWaiting | RDraining _ => true | _ => false end.
(** The runner holds the mutex from line 145 until it returns. *)
Definition locked (s : bl) : bool := subscribed s.

Inductive bevent :=
| Log (m : T)      (* log / ref_log / log_unix_time, lines 73-85, 96-105: always Ok *)
| CallFlush        (* flush() is called: first poll *)
| PollFlush        (* the pending flush() is polled *)
| CancelFlush      (* the pending flush() is dropped *)
| StartRunner      (* run() is polled for the first time *)
| PollRunner       (* run() makes one step *)
| IntoInner        (* into_inner() is called; it consumes the BufferedLogger *)
| PollInner.       (* into_inner() is polled *)

Definition set_runner (r : rpos) (s : bl) : bl :=
  BL (q s) (request s) (response s) (stop s) r (flusher s) (taker s) (handed s) (accepted s) (flushes s).
Definition hand (c : icall) (s : bl) : bl :=
  BL (q s) (request s) (response s) (stop s) (runner s) (flusher s) (taker s) (handed s ++ [c]) (accepted s) (flushes s).
Definition set_q (l : list T) (s : bl) : bl :=
  BL l (request s) (response s) (stop s) (runner s) (flusher s) (taker s) (handed s) (accepted s) (flushes s).

(** one step of [run]: lines 151-174.  [select3] polls the queue, then the flush request, then the stop
    signal, and takes the first that is ready.  [Self::log] (lines 131-140) hands the message over and
    only warns on failure. *)
Definition runner_step (s : bl) : bl :=
  match runner s with
  | RWaiting =>
      match q s with
      | m :: rest => hand (ILog m) (set_q rest s)
      | [] =>
          if request s
          then BL [] false (response s) (stop s) (RDraining false) (flusher s) (taker s) (handed s) (accepted s) (flushes s)
          else if stop s
          then BL [] (request s) (response s) false (RDraining true) (flusher s) (taker s) (handed s) (accepted s) (flushes s)
          else s
      end
  | RDraining b =>
      match q s with
      | m :: rest => hand (ILog m) (set_q rest s)
      | [] => set_runner (if b then RFinished else RWaiting) (hand IFlush s)
      end
  | _ => s
  end.

Definition send_request (s : bl) : bl :=
  if request s then BL (q s) true (response s) (stop s) (runner s) FSending (taker s) (handed s) (accepted s) (flushes s)
  else BL (q s) true (response s) (stop s) (runner s) FAwaiting (taker s) (handed s) (accepted s) (flushes s).

Definition bstep (cap : nat) (s : bl) (e : bevent) : bl :=
  match e with
  | Log m =>
      match taker s with
      | TNone => BL (publish cap (subscribed s) m (q s)) (request s) (response s) (stop s) (runner s) (flusher s)
                    (taker s) (handed s) (accepted s ++ [m]) (flushes s)
      | _ => s
      end
  | CallFlush => match taker s, flusher s with TNone, FNone => send_request s | _, _ => s end
  | PollFlush =>
      match flusher s with
      | FSending => send_request s
      | FAwaiting =>
          if response s
          then BL (q s) (request s) false (stop s) (runner s) FNone (taker s) (handed s) (accepted s) (S (flushes s))
          else s
      | FNone => s
      end
  | CancelFlush => BL (q s) (request s) (response s) (stop s) (runner s) FNone (taker s) (handed s) (accepted s) (flushes s)
  | StartRunner =>
      match runner s with
      | RNotStarted => set_runner (match taker s with TTaken => RPanicked | _ => RWaiting end) s
      | _ => s
      end
  | PollRunner => runner_step s
  | IntoInner => (* the value is moved, so a pending flush() of it is gone *)
      match taker s with
      | TNone => BL (q s) (request s) (response s) true (runner s) FNone
                    (if locked s then TWaiting else TTaken) (handed s) (accepted s) (flushes s)
      | _ => s
      end
  | PollInner =>
      match taker s with
      | TWaiting => BL (q s) (request s) (response s) (stop s) (runner s) (flusher s)
                       (if locked s then TWaiting else TTaken) (handed s) (accepted s) (flushes s)
      | _ => s
      end
  end.

Definition brun (cap : nat) (s : bl) (es : list bevent) : bl := fold_left (bstep cap) es s.
End Buffered.
Arguments icall : clear implicits.
Arguments bl : clear implicits.
Arguments bevent : clear implicits.

(** ** BuzzerQueue (buzzer_queue.rs) *)
(** lines 10-15: frequency, duration, silent duration *)
Record tone := Tone { freq : nat; dur : nat; silent : nat }.

(** lines 17-42.  [free_at] is when the task will next look at the queue: [play] takes [dur] ms and the
    delay [silent] ms (lines 38-39).  [played] is a ghost log of (start time, tone). *)
Record bz := BZ { bq : list tone; running : bool; free_at : nat; played : list (nat * tone); asked : list tone }.
Definition bz_new : bz := BZ [] false 0 [] [].

Inductive bzevent :=
| Publish (t : tone)       (* lines 49-52 *)
| StartBuzzer (now : nat)  (* run() is polled first, line 35 *)
| PollBuzzer (now : nat).  (* run() is polled at time [now] *)

Definition bzstep (s : bz) (e : bzevent) : bz :=
  match e with
  | Publish t => BZ (publish 10 (running s) t (bq s)) (running s) (free_at s) (played s) (asked s ++ [t])
  | StartBuzzer now => if running s then s else BZ (bq s) true now (played s) (asked s)
  | PollBuzzer now =>
      if running s && (free_at s <=? now)
      then match bq s with
           | t :: rest => BZ rest true (now + dur t + silent t) (played s ++ [(now, t)]) (asked s)
           | [] => s
           end
      else s
  end.
Definition bzrun (s : bz) (es : list bzevent) : bz := fold_left bzstep es s.

(** ** MergedLogger (merged_logger.rs) over two arbitrary loggers.
    A logger is a state with three operations, each giving a new state and a result. *)
Inductive res (A E : Type) := ROk (a : A) | RErr (e : E).
Arguments ROk {A E}. Arguments RErr {A E}.
Inductive merged_error (E1 E2 : Type) := Logger1 (e : E1) | Logger2 (e : E2) | Both (e1 : E1) (e2 : E2).
Arguments Logger1 {E1 E2}. Arguments Logger2 {E1 E2}. Arguments Both {E1 E2}.

Record logger (R U S E : Type) := Logger {
  l_log : R -> S -> S * res bool E;
  l_unix : U -> S -> S * res unit E;
  l_flush : S -> S * res unit E }.
Arguments l_log {R U S E}. Arguments l_unix {R U S E}. Arguments l_flush {R U S E}. Arguments Logger {R U S E}.

Section Merged.
Context {R U S1 S2 E1 E2 : Type}.

(** merged_logger.rs:48-58 *)
Definition from_results {A B} (r1 : res A E1) (r2 : res B E2) : res (A * B) (merged_error E1 E2) :=
  match r1, r2 with
  | ROk a, ROk b => ROk (a, b)
  | RErr e, ROk _ => RErr (Logger1 e)
  | ROk _, RErr e => RErr (Logger2 e)
  | RErr e1, RErr e2 => RErr (Both e1 e2)
  end.
Definition rmap {A B E} (f : A -> B) (r : res A E) : res B E :=
  match r with ROk a => ROk (f a) | RErr e => RErr e end.

(** merged_logger.rs:69-99 *)
Definition merged (l1 : logger R U S1 E1) (l2 : logger R U S2 E2) : logger R U (S1 * S2) (merged_error E1 E2) :=
  Logger
    (fun r s => let '(s1, r1) := l_log l1 r (fst s) in let '(s2, r2) := l_log l2 r (snd s) in
                ((s1, s2), rmap (fun p => fst p || snd p) (from_results r1 r2)))
    (fun u s => let '(s1, r1) := l_unix l1 u (fst s) in let '(s2, r2) := l_unix l2 u (snd s) in
                ((s1, s2), rmap (fun _ => tt) (from_results r1 r2)))
    (fun s => let '(s1, r1) := l_flush l1 (fst s) in let '(s2, r2) := l_flush l2 (snd s) in
              ((s1, s2), rmap (fun _ => tt) (from_results r1 r2))).
End Merged.

Inductive lcall (R U : Type) := CLog (r : R) | CUnix (u : U) | CFlush.
Arguments CLog {R U}. Arguments CUnix {R U}. Arguments CFlush {R U}.
(** Calls made one after the other on a logger; a success of log_unix_time or flush is shown as
    [ROk false]. *)
Definition lcall_step {R U S E} (l : logger R U S E) (s : S) (c : lcall R U) : S * res bool E :=
  match c with
  | CLog r => l_log l r s
  | CUnix u => let '(s, x) := l_unix l u s in (s, rmap (fun _ => false) x)
  | CFlush => let '(s, x) := l_flush l s in (s, rmap (fun _ => false) x)
  end.
Fixpoint lcalls {R U S E} (l : logger R U S E) (s : S) (cs : list (lcall R U)) : S * list (res bool E) :=
  match cs with
  | [] => (s, [])
  | c :: cs => let '(s, x) := lcall_step l s c in let '(s, xs) := lcalls l s cs in (s, x :: xs)
  end.

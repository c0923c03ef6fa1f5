(** * The simulated clock and its delays: vl-simulink-bridge/src/clock.rs.
    Times are an arbitrary totally ordered type with a decidable [<=] (f64 without NaN in the code); the addition that computes a deadline
    is arbitrary, so that rounding is covered.  The two delay functions (clock.rs:77-97, 100-120) differ only in the unit and in when they
    return at once; both are [start] here.  A BinaryHeap of [Reverse<DelayWaker>] hands out an element with the least wake time; which one
    among equals is not specified, so [pop] may take any. *)
From Verif Require Import Base.
Local Open Scope nat_scope.

Section Clock.
Context {T : Type} (le : T -> T -> bool).

(** clock.rs:12-15, 43-46: the time and the registered wakers (wake time and task) *)
Record clock := Clk { time : T; wakers : list (T * nat) }.

(** a task that sleeps: its deadline; whether it has been woken since its last poll (or has not been polled yet) *)
Record sleeper := Slp { deadline : T; ready : bool }.
Definition tasks := nat -> option sleeper.
Record world := W { clk : clock; slp : tasks }.

Definition set_task (ts : tasks) (i : nat) (s : option sleeper) : tasks := fun j => if Nat.eqb j i then s else ts j.
(** Waker::wake_by_ref: the executor will poll the task again; a task that is not sleeping any more ignores it *)
Definition wake (ts : tasks) (i : nat) : tasks := match ts i with Some s => set_task ts i (Some (Slp (deadline s) true)) | None => ts end.

(** an element with the least wake time (the heap's top), and the rest *)
Inductive top : list (T * nat) -> T * nat -> list (T * nat) -> Prop :=
| top_at l1 w l2 : (forall x, In x (l1 ++ l2) -> le (fst w) (fst x) = true) -> top (l1 ++ w :: l2) w (l1 ++ l2).

(** clock.rs:31-39: the loop of [update_time], at time [t] *)
Inductive drain (t : T) : list (T * nat) -> tasks -> list (T * nat) -> tasks -> Prop :=
| dr_empty ts : drain t [] ts [] ts
| dr_stop l w l' ts : top l w l' -> le (fst w) t = false -> drain t l ts l ts
| dr_wake l w l' ts l2 ts2 : top l w l' -> le (fst w) t = true -> drain t l' (wake ts (snd w)) l2 ts2 -> drain t l ts l2 ts2.

Inductive event :=
| EStart (i : nat) (d : T)      (* a task calls delay_ns / delay_ms; [d] is the deadline computed from the time then *)
| EPoll (i : nat) (done : bool) (* the executor polls the task (also without a wake-up); [done]: the delay returned *)
| EUpdate (t : T).              (* the simulation sets the time *)

Inductive step : world -> event -> world -> Prop :=
| st_start w i d : slp w i = None -> step w (EStart i d) (W (clk w) (set_task (slp w) i (Some (Slp d true))))
(* clock.rs:86-95, 109-118 *)
| st_done w i s : slp w i = Some s -> le (deadline s) (time (clk w)) = true -> step w (EPoll i true) (W (clk w) (set_task (slp w) i None))
| st_pend w i s : slp w i = Some s -> le (deadline s) (time (clk w)) = false ->
    step w (EPoll i false) (W (Clk (time (clk w)) ((deadline s, i) :: wakers (clk w))) (set_task (slp w) i (Some (Slp (deadline s) false))))
(* clock.rs:29-40 *)
| st_update w t l ts : drain t (wakers (clk w)) (slp w) l ts -> step w (EUpdate t) (W (Clk t l) ts).

Definition start_world (t0 : T) : world := W (Clk t0 []) (fun _ => None).
Inductive run (t0 : T) : list event -> world -> Prop :=
| run_nil : run t0 [] (start_world t0)
| run_step es w e w' : run t0 es w -> step w e w' -> run t0 (es ++ [e]) w'.
End Clock.

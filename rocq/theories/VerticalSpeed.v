(** * The barometer filters.

    Models firmware-common/src/avionics/vertical_speed_filter.rs:9-110 and
    baro_reading_filter.rs:1-64, over any arithmetic.  The low-pass filter (crate
    biquad) is any state machine [lp_run]; a reading's altitude (a function of
    its pressure) is part of the reading. *)
From Coq Require Import List Bool Arith QArith.
From Verif Require Import Numerics FlightCore.
Import ListNotations.
Local Open Scope nat_scope.
Local Open Scope list_scope.

Section Speed.
Context {A : numerics}.
Local Notation f64 := (f64 A).
Local Notation f32 := (f32 A).
Context {LP : Type}.
Variable lp_run : LP -> f32 -> LP * f32.

(** vertical_speed_filter.rs:8 *)
Definition MAX_DECELERATION : f32 := lit32 45.

(** lines 10-13, 24-43 PhysicalVerticalSpeedModel: its two options are always set
    together and are one option here *)
Definition physical_feed (last : option (f64 * f32)) (ts : f64) (v : f32) : option (f64 * f32) * f32 :=
  match last with
  | None => (Some (ts, v), v)
  | Some (last_ts, last_v) =>
      let dt := narrow (div64 (sub64 ts last_ts) (lit64 1000)) in
      let acceleration := div32 (sub32 v last_v) dt in
      if lt32 (lit32 (-45)) acceleration then (Some (ts, v), v)
      else let v' := sub32 last_v (mul32 MAX_DECELERATION dt) in (Some (ts, v'), v')
  end.

(** lines 46-52 *)
Record vsf := Vsf { hold_end : f64; prev_alt : option (f64 * f32); low_pass : LP; last_speed : option f32; physical : option (f64 * f32) }.
(** lines 55-73 *)
Definition vsf_new (lp : LP) : vsf := Vsf (lit64 0) None lp None None.

(** lines 89-117 feed_inner *)
Definition feed_inner (s : vsf) (ts : f64) (alt : f32) : vsf * option f32 :=
  if lt64 ts (hold_end s) then (s, None)
  else match prev_alt s with
       | Some (prev_ts, prev) =>
           let v := div32 (sub32 alt prev) (div32 (narrow (sub64 ts prev_ts)) (lit32 1000)) in
           if lt32 (lit32 3000) (abs32 v)
           then (Vsf (add64 ts (lit64 500)) None (low_pass s) (last_speed s) (physical s), None)
           else let '(lp, out) := lp_run (low_pass s) v in
                (Vsf (hold_end s) (Some (ts, alt)) lp (last_speed s) (physical s), Some out)
       | None => (Vsf (hold_end s) (Some (ts, alt)) (low_pass s) (last_speed s) (physical s), None)
       end.

(** lines 75-86 feed *)
Definition vsf_feed (s : vsf) (ts : f64) (alt : f32) : vsf * f32 :=
  let '(s1, o) := feed_inner s ts alt in
  let filtered := match o with Some v => v | None => match last_speed s1 with Some v => v | None => lit32 0 end end in
  let last := match o with Some v => Some v | None => last_speed s1 end in
  let '(ph, out) := physical_feed (physical s1) ts filtered in
  (Vsf (hold_end s1) (prev_alt s1) (low_pass s1) last ph, out).

(** the answers for a sequence of readings (time, altitude), each with its time *)
Fixpoint vsf_run (s : vsf) (l : list (f64 * f32)) : vsf * list (f64 * f32) :=
  match l with
  | [] => (s, [])
  | (ts, alt) :: l => let '(s1, v) := vsf_feed s ts alt in let '(s2, out) := vsf_run s1 l in (s2, (ts, v) :: out)
  end.

(** backup_flight_core.rs:47-52: the core feeds each reading to its filter first.
    The readings of FlightCore.v, with the speed the filter answers. *)
Fixpoint with_speed (s : vsf) (l : list (f64 * f32)) : list (reading A) :=
  match l with
  | [] => []
  | (ts, alt) :: l => let '(s1, v) := vsf_feed s ts alt in Reading ts alt v :: with_speed s1 l
  end.
End Speed.

Section Baro.
Context {A : numerics}.
Local Notation f64 := (f64 A).
Local Notation f32 := (f32 A).

(** a reading: time and pressure (temperature is carried along and not looked at) *)
Definition breading : Type := f64 * f32.
(** baro_reading_filter.rs:10-15; the two-element history, oldest first *)
Record bfilter := BFilter { bf_history : list breading; bf_end : f64; bf_held : option breading }.
(** lines 18-24 *)
Definition bfilter_new : bfilter := BFilter [] (lit64 0) None.

(** lines 26-59: [None] is the panic of line 51 *)
Definition bfilter_feed (s : bfilter) (r : breading) : option (bfilter * (bool * breading)) :=
  let h := (if length (bf_history s) =? 2 then tl (bf_history s) else bf_history s) ++ [r] in
  if negb (length h =? 2) then Some (BFilter h (bf_end s) (bf_held s), (false, r))
  else
    match h with
    | prev :: _ =>
        let slope := div32 (sub32 (snd r) (snd prev)) (narrow (div64 (sub64 (fst r) (fst prev)) (lit64 1000))) in
        let spike := lt32 (lit32 3000) slope in
        let e := if spike then add64 (fst r) (lit64 500) else bf_end s in
        let held := if spike then Some r else bf_held s in
        if lt64 (fst r) e
        then match held with Some x => Some (BFilter h e held, (true, x)) | None => None end
        else Some (BFilter h e held, (false, r))
    | [] => None
    end.
Fixpoint bfilter_run (s : bfilter) (l : list breading) : option (bfilter * list (bool * breading)) :=
  match l with
  | [] => Some (s, [])
  | r :: l => match bfilter_feed s r with
              | None => None
              | Some (s1, o) => match bfilter_run s1 l with None => None | Some (s2, os) => Some (s2, o :: os) end
              end
  end.
(** lines 61-63 *)
Definition last_reading (s : bfilter) : option breading := last (map Some (bf_history s)) None.
End Baro.

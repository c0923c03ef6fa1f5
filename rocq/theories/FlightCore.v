(** * The three flight cores.

    Models firmware-common/src/avionics/flight_core.rs, backup_flight_core.rs,
    backup_backup_flight_core.rs, flight_core_event.rs, flight_profile.rs and
    common/moving_average.rs, over any arithmetic. *)
From Coq Require Import List Bool Arith QArith.
From Verif Require Import Numerics VLP.
Import ListNotations.
Local Open Scope nat_scope.
Local Open Scope list_scope.

Section Core.
Context {A : numerics}.
Local Notation f64 := (f64 A).
Local Notation f32 := (f32 A).

(** avionics/flight_profile.rs:12-23 *)
Record profile := Profile {
  drogue_pyro : pyro; drogue_min_time : f64; drogue_min_alt : f32; drogue_delay : f64;
  main_pyro : pyro; main_alt : f32; main_delay : f64; drogue_to_main : f64; main_to_landed : f64 }.

(** avionics/flight_core_event.rs:22-29; [core_state] (lines 6-20) is in VLP.v *)
Inductive event := CriticalError | DidNotReachMinApogee | ChangeState (s : core_state)
| ChangeAltitude (x : f32) | ChangeAirSpeed (x : f32).

(** ** common/moving_average.rs:9-66 NoSumSMA: newest sample first (push_front, pop_back) *)
Definition sma_full (w : nat) (l : list f32) : bool := length l =? w.
Definition sma_add (w : nat) (x : f32) (l : list f32) : list f32 :=
  if w =? 0 then l else x :: (if sma_full w l then removelast l else l).
Definition sma_average (zero : f32) (l : list f32) : f32 :=
  if length l =? 0 then zero
  else div32 (fold_left add32 l zero) (lit32 (inject_Z (Z.of_nat (length l)))).

(** ** flight_core.rs *)

(** What one call of [tick] sees.  The error-state Kalman filter (crate eskf)
    and the mounting rotation are not modelled: the rotated acceleration's z
    component and magnitude, and the filter's height and vertical speed after
    its update for this call, are inputs, of any value.  [sn_upside_down] says
    whether rotation_between has no answer for the acceleration 100 samples
    before launch (line 229, an unwrap). *)
Record snapshot := Snapshot {
  sn_ts : f64; sn_acc_z : f32; sn_acc_mag : f32; sn_baro_alt : option f32;
  sn_height : f32; sn_speed : f32; sn_upside_down : bool }.

(** flight_core.rs:45-74 *)
Inductive fstate :=
| FArmed (history : list snapshot) (acc : list f32)
| FPowerAscend (acc : list f32) (launch_alt : f32) (launch_ts : f64)
| FCoast (launch_alt : f32) (launch_ts : f64)
| FDrogueChute (launch_alt : f32) (launch_ts : f64) (deploy : f64)
| FMainChute (launch_alt : f32) (deploy : option f64)
| FMainChuteDescend
| FLanded.

(** lines 94-106, the fields kept *)
Record core := Core { c_state : fstate; c_last : option f64; c_critical : bool; c_first : bool }.
(** lines 76-83, 109-146 *)
Definition new_core : core := Core (FArmed [] []) None false true.

Definition HISTORY : nat := 100.
(** lines 201-205 *)
Definition push_history (s : snapshot) (h : list snapshot) : list snapshot :=
  (if length h =? HISTORY then tl h else h) ++ [s].
(** lines 253-262: the oldest barometer altitude still in the history, else 0 *)
Definition launch_altitude (h : list snapshot) : f32 :=
  match find (fun s => match sn_baro_alt s with Some _ => true | None => false end) h with
  | Some s => match sn_baro_alt s with Some a => a | None => lit32 0 end
  | None => lit32 0
  end.

Definition in_air (st : fstate) : bool := match st with FArmed _ _ => false | _ => true end.

(** lines 191-393: the state machine; result: new state, first_tick, events *)
Definition fstep (p : profile) (st : fstate) (first : bool) (s : snapshot) : option (fstate * bool * list event) :=
  match st with
  | FArmed h acc =>
      let ev := if first then [ChangeState Armed] else [] in
      let acc := sma_add 4 (sn_acc_z s) acc in
      let h := push_history s h in
      if (length h =? HISTORY) && lt32 (lit32 50) (sma_average (lit32 0) acc) then
        if sn_upside_down s then None
        else Some (FPowerAscend [] (launch_altitude h) (sn_ts s), false, ev ++ [ChangeState PowerAscend])
      else Some (FArmed h acc, false, ev)
  | FPowerAscend acc alt ts =>
      let acc := sma_add 4 (sn_acc_mag s) acc in
      if sma_full 4 acc && lt32 (sma_average (lit32 0) acc) (lit32 10)
      then Some (FCoast alt ts, first, [ChangeState Coast])
      else Some (FPowerAscend acc alt ts, first, [])
  | FCoast alt ts =>
      if le32 (sn_speed s) (lit32 0)
      then Some (FDrogueChute alt ts (add64 (sn_ts s) (drogue_delay p)), first, [ChangeState Descent])
      else Some (FCoast alt ts, first, [])
  | FDrogueChute alt ts deploy =>
      if lt32 (sub32 (sn_height s) alt) (drogue_min_alt p) then Some (FLanded, first, [DidNotReachMinApogee])
      else if le64 deploy (sn_ts s) && le64 (drogue_min_time p) (sub64 (sn_ts s) ts)
      then Some (FMainChute alt None, first, [])
      else Some (FDrogueChute alt ts deploy, first, [])
  | FMainChute alt None =>
      if le32 (sub32 (sn_height s) alt) (main_alt p)
      then Some (FMainChute alt (Some (add64 (sn_ts s) (main_delay p))), first, [])
      else Some (FMainChute alt None, first, [])
  | FMainChute alt (Some deploy) =>
      if le64 deploy (sn_ts s) then Some (FMainChuteDescend, first, [])
      else Some (FMainChute alt (Some deploy), first, [])
  | FMainChuteDescend =>
      if lt32 (abs32 (sn_speed s)) (lit32 (1 # 2)) then Some (FLanded, first, [ChangeState Landed])
      else Some (FMainChuteDescend, first, [])
  | FLanded => Some (FLanded, first, [])
  end.

(** lines 149-398 tick; [None] is a panic *)
Definition tick (p : profile) (c : core) (s : snapshot) : option (core * list event) :=
  if c_critical c then Some (c, [])
  else match c_last c with
  | None => Some (Core (c_state c) (Some (sn_ts s)) (c_critical c) (c_first c), [])
  | Some _ =>
      let air := if in_air (c_state c) then [ChangeAltitude (sn_height s); ChangeAirSpeed (sn_speed s)] else [] in
      match fstep p (c_state c) (c_first c) s with
      | None => None
      | Some (st, first, ev) => Some (Core st (Some (sn_ts s)) (c_critical c) first, air ++ ev)
      end
  end.

(** successive ticks, with the events of each; dropping the core (401-406)
    publishes ChangeState DisArmed last *)
Fixpoint run (p : profile) (c : core) (l : list snapshot) : option (core * list (list event)) :=
  match l with
  | [] => Some (c, [])
  | s :: l =>
      match tick p c s with
      | None => None
      | Some (c1, e) => match run p c1 l with None => None | Some (c2, es) => Some (c2, e :: es) end
      end
  end.
Definition drop_core : list event := [ChangeState DisArmed].

(** ** backup_flight_core.rs *)

(** one barometer reading: time, altitude, and what the vertical speed filter
    (VerticalSpeed.v) answers for it *)
Record reading := Reading { r_ts : f64; r_alt : f32; r_speed : f32 }.

(** lines 16-23 *)
Inductive bstate := BArmed | BDrogueChute (deploy : f64) | BDrogueChuteDeployed | BMainChute (deploy : f64)
| BMainChuteDeployed | BLanded.
(** lines 26-33 *)
Record backup := Backup { b_state : bstate; b_pad : option f32; b_first : bool }.
(** lines 36-45 *)
Definition new_backup : backup := Backup BArmed None true.

(** lines 47-104; [None] is a panic (unwrap of the pad altitude, line 76) *)
Definition btick (p : profile) (b : backup) (r : reading) : option (backup * list event) :=
  let air := [ChangeAirSpeed (r_speed r)] in
  match b_state b with
  | BArmed =>
      let ev := if b_first b then [ChangeState Armed] else [] in
      let pad := match b_pad b with None => Some (r_alt r) | Some a => Some a end in
      let st := if lt32 (r_speed r) (lit32 (-20)) then BDrogueChute (add64 (r_ts r) (drogue_delay p)) else BArmed in
      Some (Backup st pad false, air ++ ev)
  | BDrogueChute deploy =>
      if lt64 deploy (r_ts r) then Some (Backup BDrogueChuteDeployed (b_pad b) (b_first b), air ++ [ChangeState DrogueChuteDeployed])
      else Some (b, air)
  | BDrogueChuteDeployed =>
      match b_pad b with
      | None => None
      | Some pad =>
          if lt32 (r_alt r) (add32 (main_alt p) pad)
          then Some (Backup (BMainChute (add64 (r_ts r) (main_delay p))) (b_pad b) (b_first b), air)
          else Some (b, air)
      end
  | BMainChute deploy =>
      if lt64 deploy (r_ts r) then Some (Backup BMainChuteDeployed (b_pad b) (b_first b), air ++ [ChangeState MainChuteDeployed])
      else Some (b, air)
  | BMainChuteDeployed =>
      if lt32 (abs32 (r_speed r)) (lit32 1) then Some (Backup BLanded (b_pad b) (b_first b), air ++ [ChangeState Landed])
      else Some (b, air)
  | BLanded => Some (b, air)
  end.

Fixpoint brun (p : profile) (b : backup) (l : list reading) : option (backup * list (list event)) :=
  match l with
  | [] => Some (b, [])
  | r :: l =>
      match btick p b r with
      | None => None
      | Some (b1, e) => match brun p b1 l with None => None | Some (b2, es) => Some (b2, e :: es) end
      end
  end.

(** ** backup_backup_flight_core.rs *)

(** lines 7-12 *)
Inductive mstate := MArmed | MDrogueChuteDeployed (main_deploy : f64) | MMainChuteDeployed (land : f64) | MLanded.
(** lines 29-38 manual_deployment_triggered; lines 40-63 tick *)
Inductive minput := MTrigger (ts : f64) | MTick (ts : f64).
Definition mstep (p : profile) (m : mstate) (i : minput) : mstate * list event :=
  match i, m with
  | MTrigger ts, MArmed => (MDrogueChuteDeployed (add64 ts (drogue_to_main p)), [ChangeState DrogueChuteDeployed])
  | MTrigger _, m => (m, [])
  | MTick ts, MDrogueChuteDeployed d =>
      if le64 d ts then (MMainChuteDeployed (add64 ts (main_to_landed p)), [ChangeState MainChuteDeployed]) else (m, [])
  | MTick ts, MMainChuteDeployed d => if le64 d ts then (MLanded, [ChangeState Landed]) else (m, [])
  | MTick _, m => (m, [])
  end.
Fixpoint mrun (p : profile) (m : mstate) (l : list minput) : mstate * list (list event) :=
  match l with
  | [] => (m, [])
  | i :: l => let '(m1, e) := mstep p m i in let '(m2, es) := mrun p m1 l in (m2, e :: es)
  end.
End Core.
Arguments profile : clear implicits.
Arguments event : clear implicits.
Arguments snapshot : clear implicits.
Arguments reading : clear implicits.
Arguments minput : clear implicits.
Arguments core : clear implicits.
Arguments backup : clear implicits.
Arguments fstate : clear implicits.
Arguments bstate : clear implicits.
Arguments mstate : clear implicits.

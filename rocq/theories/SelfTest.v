(** * The check at the start of the flight computer: firmware-common/src/avionics/self_test.rs and the beginning of [avionics_main],
    firmware-common/src/avionics/mod.rs:134-180.
    Simplified: a call of a sensor driver either succeeds or fails ([Result]); what it measures is not looked at by this code.  What follows
    line 180 (the loggers and the flight) is one outcome, [Flies]. *)
From Coq Require Import List Arith Bool.
Import ListNotations.
From Verif Require Import PubSub Indicator.
Local Open Scope nat_scope.

(** the four devices claimed, self_test.rs:10, and the calls made to them *)
Inductive sensor := LowG | HighG | Baro | Mag.
Inductive drv_call := CReset (s : sensor) | CRead (s : sensor).

(** whether each of the calls succeeds *)
Definition bench := drv_call -> bool.

(** self_test.rs:3-7 *)
Inductive test_result := TestOk | TestPartialFailed | TestFailed.

(** self_test.rs:12-15: [reset().await.unwrap()], one after the other: the calls made and whether none of the [unwrap]s panicked *)
Fixpoint resets (b : bench) (l : list sensor) : list drv_call * bool :=
  match l with
  | [] => ([], true)
  | s :: l => if b (CReset s) then let (cs, ok) := resets b l in (CReset s :: cs, ok) else ([CReset s], false)
  end.

(** self_test.rs:9-41: the calls made and the result; [None] is a panic *)
Definition self_test (b : bench) : list drv_call * option test_result :=
  match resets b [LowG; HighG; Baro; Mag] with
  | (cs, false) => (cs, None)
  | (cs, true) =>
      (* lines 17-20 *)
      let low_g_imu := b (CRead LowG) in
      let high_g_imu := b (CRead HighG) in
      let baro := b (CRead Baro) in
      let mag := b (CRead Mag) in
      let cs := cs ++ [CRead LowG; CRead HighG; CRead Baro; CRead Mag] in
      (* line 29 *)
      let critical_ok := low_g_imu && high_g_imu && baro in
      if negb critical_ok then (cs, Some TestFailed)
      else if mag then (cs, Some TestOk) else (cs, Some TestPartialFailed)
  end.

(** the blink patterns of the red, green and blue light *)
Record lights := Lights { red : list nat; green : list nat; blue : list nat }.
(** indicator_controller.rs:64-75: [run] returns when all three have returned, and a light with a pattern never does (lines 37-40) *)
Definition run_returns (l : lights) : bool :=
  match red l, green l, blue l with [], [], [] => true | _, _, _ => false end.

(** how the start ends *)
Inductive ending :=
| Flies              (* line 182 is reached *)
| Blinks (l : lights)  (* [indicators.run] for ever *)
| Panics.

Record startup := Startup { calls : list drv_call; beeps : list tone; ends : ending }.

(** mod.rs:160-163 and 174-177; 167-170 *)
Definition melody_ok : list tone := [Tone 2000 50 150; Tone 2000 50 150; Tone 3000 50 150; Tone 3000 50 150].
Definition melody_partial : list tone := [Tone 2000 50 150; Tone 2000 50 150; Tone 3000 50 150; Tone 2000 50 150].
Definition melody_failed : list tone := [Tone 2000 50 150; Tone 2000 50 150; Tone 3000 50 150; Tone 3000 50 150].

(** mod.rs:142-180; [profile]: whether [flight_profile_file.read()] gave one *)
Definition avionics_start (profile : bool) (b : bench) : startup :=
  if profile then
    match self_test b with
    | (cs, None) => Startup cs [] Panics
    | (cs, Some TestOk) => Startup cs melody_ok Flies
    | (cs, Some TestPartialFailed) => Startup cs melody_partial Flies
    | (cs, Some TestFailed) =>
        let l := Lights [200; 200] [] [] in   (* line 178 *)
        Startup cs melody_failed (if run_returns l then Flies else Blinks l)
    end
  else
    let l := Lights [333; 666] [0; 333; 333; 333] [0; 666; 333; 0] in   (* lines 150-153; 153 is unreachable *)
    Startup [] [] (if run_returns l then Panics else Blinks l).

(** vl_main.rs:216-224: the buzzer task is polled before the main task, so it has subscribed when the melody is published; it is idle.
    [from] is the time when the melody is published, [ts] are the times when the buzzer task is polled from then on. *)
Definition buzzer_plays (from : nat) (melody : list tone) (ts : list nat) : list (nat * tone) :=
  played (bzrun bz_new (StartBuzzer from :: map (@Publish) melody ++ map PollBuzzer ts)).

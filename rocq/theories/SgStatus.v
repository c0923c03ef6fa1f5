(** * The status light of the strain-gauge board, and when it records.

    Models firmware-common/src/strain_gauges/mid_prio.rs: the start of
    store_sg_fut (229-237 and 276-281), led_fut (195-227), SetAdcEnable
    (common/console/sg_rpc.rs:124-131), the error flag set by
    strain_gauges/high_prio.rs:11-24, and the join! of lines 377-383, in which
    can_rx_fut and can_tx_fut are commented out: messages on the CAN bus are
    received by nobody.  Simplified: creating the loggers succeeds and takes no
    time; times are integers (ms). *)
From Coq Require Import List Bool ZArith.
Import ListNotations.
Local Open Scope Z_scope.
Local Open Scope list_scope.

(** global_states.rs:35-41 (SGLEDState) *)
Record flags := Flags { f_can : bool; f_adc : bool; f_usb : bool; f_rec : bool }.
(** the pattern shown: level and for how long, led_fut lines 198-224 *)
Definition blink (f : flags) : list (bool * Z) :=
  if f_usb f then [(true, 50); (false, 100); (true, 50); (false, 800)]
  else if f_can f || f_adc f then [(true, 100); (false, 100)]
  else if f_rec f then [(true, 500); (false, 500)]
  else [(true, 50); (false, 950)].

(** [b_light]: None before the first poll; otherwise what is left of the
    pattern and when the current delay ends.  [b_shown]: the levels set, with
    their times, oldest first. *)
Record board := Board {
  b_usb_at_boot : bool; b_stored : bool;      (** store_sg_fut has been polled *)
  b_flags : flags; b_adc_on : bool;
  b_light : option (list (bool * Z) * Z); b_shown : list (bool * Z) }.
(** global_states.rs:21-31; the ADC is off until enabled; lines 85-98 give [usb] *)
Definition board_new (usb : bool) : board := Board usb false (Flags false false false false) false None [].

Inductive bevent :=
| BStore                  (** the first poll of store_sg_fut *)
| BSample (ok : bool)     (** high_prio.rs: one result of sg_adc.read *)
| BSetAdc (on : bool)     (** the console command *)
| BCan (armed landed : bool)  (** a status or flight-event message on the bus *)
| BLight (now : Z).       (** a poll of led_fut *)

(** the start of a cycle, lines 196-197: [blink] is never empty *)
Definition next_cycle (now : Z) (f : flags) : list (bool * Z) * Z * list (bool * Z) :=
  match blink f with [] => ([], now, []) | (lv, d) :: r => (r, now + d, [(lv, now)]) end.
Definition light_poll (now : Z) (f : flags) (l : option (list (bool * Z) * Z)) : option (list (bool * Z) * Z) * list (bool * Z) :=
  match l with
  | None => let '(r, dl, o) := next_cycle now f in (Some (r, dl), o)
  | Some (r, dl) =>
      if dl <=? now then
        match r with
        | (lv, d) :: r => (Some (r, now + d), [(lv, now)])
        | [] => let '(r, dl, o) := next_cycle now f in (Some (r, dl), o)
        end
      else (l, [])
  end.

(** [release]: cfg(not(debug_assertions)), line 235 *)
Definition bstep (release : bool) (b : board) (e : bevent) : board :=
  match e with
  | BStore =>
      if b_stored b then b
      else
        let f := if b_usb_at_boot b then Flags (f_can (b_flags b)) (f_adc (b_flags b)) true (f_rec (b_flags b)) else b_flags b in   (** 230-234 *)
        if b_usb_at_boot b && release then Board (b_usb_at_boot b) true f (b_adc_on b) (b_light b) (b_shown b)                       (** 235-236 *)
        else Board (b_usb_at_boot b) true (Flags (f_can f) (f_adc f) (f_usb f) true) true (b_light b) (b_shown b)                    (** 276-281 *)
  | BSample ok => let f := b_flags b in Board (b_usb_at_boot b) (b_stored b) (Flags (f_can f) (negb ok) (f_usb f) (f_rec f)) (b_adc_on b) (b_light b) (b_shown b)
  | BSetAdc on => Board (b_usb_at_boot b) (b_stored b) (b_flags b) on (b_light b) (b_shown b)
  | BCan _ _ => b
  | BLight now => let '(l, o) := light_poll now (b_flags b) (b_light b) in Board (b_usb_at_boot b) (b_stored b) (b_flags b) (b_adc_on b) l (b_shown b ++ o)
  end.
Definition board_run (release usb : bool) (l : list bevent) : board := fold_left (bstep release) l (board_new usb).

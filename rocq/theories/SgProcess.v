(** * Model of strain_gauges/low_prio.rs: from raw ADC reads to processed readings *)
From Coq Require Import List Arith Lia Bool.
Import ListNotations.
Local Open Scope nat_scope.

(** strain_gauges/mod.rs:23-25; low_prio.rs:15 *)
Definition BATCH_SIZE : nat := 2130.
Definition SAMPLES_PER_READ : nat := BATCH_SIZE / 10.
Definition FFT_SIZE : nat := 2048.
Definition READS_PER_BATCH : nat := BATCH_SIZE / SAMPLES_PER_READ * 4.   (* low_prio.rs:148 *)

Section Sg.
(** [V]: f32 samples; [F], [run]: the low-pass filter (biquad [DirectForm2Transposed], a dependency) as any
    state machine; [add], [zero]: f32 addition; [enc]: f16 conversion and its two little-endian bytes;
    [byte]: u8; [time]: f64 *)
Context {V F byte time : Type} (run : F -> V -> F * V) (add : V -> V -> V) (zero : V) (enc : V -> byte * byte).

(** low_prio.rs:17-27.  [fft_samples_sum] is an array of 2048: a function here, with its bound checked at
    each access. *)
Record proc := Proc { fsum : nat -> V; fcount : nat; fi : nat; slist : list V; filt : F }.
(** low_prio.rs:29-51 *)
Definition proc_new (f : F) : proc := Proc (fun _ => zero) 0 0 [] f.

Definition bump (g : nat -> V) (i : nat) (x : V) : nat -> V := fun j => if j =? i then add (g j) x else g j.

(** one turn of the loop of [process], low_prio.rs:55-71; [None] is a panic (push on a full Vec of 40,
    index out of bounds) *)
Definition process_one (i : nat) (x : V) (s : proc * bool) : option (proc * bool) :=
  let '(p, skip) := s in
  let '(f, y) := run (filt p) x in
  let samples := if i =? SAMPLES_PER_READ - 1
                 then if length (slist p) <? 40 then Some (slist p ++ [y]) else None
                 else Some (slist p) in
  match samples with
  | None => None
  | Some sl =>
      if skip then Some (Proc (fsum p) (fcount p) (fi p) sl f, true)
      else if fi p <? FFT_SIZE
      then if S (fi p) =? FFT_SIZE
           then Some (Proc (bump (fsum p) (fi p) x) (S (fcount p)) 0 sl f, true)
           else Some (Proc (bump (fsum p) (fi p) x) (fcount p) (S (fi p)) sl f, false)
      else None
  end.

(** low_prio.rs:53-72: [n] turns left, starting at index [i]; running out of raw samples is the panic of
    [next().unwrap()] *)
Fixpoint process_loop (n i : nat) (xs : list V) (s : proc * bool) : option (proc * bool) :=
  match n with
  | 0 => Some s
  | S n =>
      match xs with
      | [] => None
      | x :: xs => match process_one i x s with Some s => process_loop n (S i) xs s | None => None end
      end
  end.
Definition process (xs : list V) (p : proc) : option proc :=
  match process_loop SAMPLES_PER_READ 0 xs (p, false) with Some (p, _) => Some p | None => None end.

(** strain_gauges/mod.rs:29-35 *)
Record reading := Reading { start_time : time; sg_i : nat; samples : list byte }.

Fixpoint put (i : nat) (b : byte) (l : list byte) : option (list byte) :=
  match l, i with
  | [], _ => None
  | _ :: l, 0 => Some (b :: l)
  | x :: l, S i => match put i b l with Some l => Some (x :: l) | None => None end
  end.
(** low_prio.rs:125-130 *)
Fixpoint store (i : nat) (vs : list V) (l : list byte) : option (list byte) :=
  match vs with
  | [] => Some l
  | v :: vs =>
      match put (i * 2) (fst (enc v)) l with
      | Some l => match put (i * 2 + 1) (snd (enc v)) l with Some l => store (S i) vs l | None => None end
      | None => None
      end
  end.

(** what [process_fft] works on: the record it fills, and the input of the transform (the summed frames
    and the number of frames it divides by, lines 81 and 89-95; the amplitudes then go nowhere) *)
Record done := Done { rd : reading; bins : nat -> V; frames : nat }.

(** low_prio.rs:74-132.  The slot [old] is what the channel gives to fill (lines 179-184). *)
Definition process_fft (p : proc) (old : reading) (t : time) (c : nat) : option (proc * done) :=
  match store 0 (slist p) (samples old) with
  | Some bs => Some (Proc (fun _ => zero) 0 0 [] (filt p), Done (Reading t c bs) (fsum p) (fcount p))
  | None => None
  end.

(** a raw reading: its start time and the samples of the four channels *)
Record raw := Raw { raw_time : time; channel : nat -> list V }.

(** [sg_low_prio_main], low_prio.rs:135-188: the index in the [for] of line 148, [start_time], the four
    processors *)
Record lp := LP { idx : nat; start : option time; procs : nat -> proc }.
Definition lp_new (f : F) : lp := LP 0 None (fun _ => proc_new f).

(** [last().unwrap()] (lines 163-166) *)
Definition last_sample (p : proc) : option V := nth_error (slist p) (length (slist p) - 1).

Definition four {A} (f : nat -> option A) : option (A * A * A * A) :=
  match f 0, f 1, f 2, f 3 with Some a, Some b, Some c, Some d => Some (a, b, c, d) | _, _, _, _ => None end.
Definition of4 {A} (x : A * A * A * A) (c : nat) : A :=
  let '(a, b, c', d) := x in match c with 0 => a | 1 => b | 2 => c' | _ => d end.

(** lines 148-185 for one raw reading: what is published for real-time use, and the four processed
    readings if the batch is complete.  [old c] are the slots the channel hands out. *)
Definition lp_step (old : nat -> reading) (s : lp) (r : raw) : option (lp * (V * V * V * V) * list done) :=
  let st := if idx s =? 0 then Some (raw_time r) else start s in
  match four (fun c => process (channel r c) (procs s c)) with
  | None => None
  | Some ps =>
      match four (fun c => last_sample (of4 ps c)) with
      | None => None
      | Some live =>
          if S (idx s) =? READS_PER_BATCH
          then match st with
               | None => None
               | Some t =>
                   match four (fun c => process_fft (of4 ps c) (old c) t c) with
                   | None => None
                   | Some (a, b, c, d) =>
                       Some (LP 0 None (fun i => fst (of4 (a, b, c, d) i)), live, [snd a; snd b; snd c; snd d])
                   end
               end
          else Some (LP (S (idx s)) st (of4 ps), live, [])
      end
  end.

(** the task over all raw readings it receives; [olds n] are the slots at step [n] *)
Fixpoint lp_run (olds : nat -> nat -> reading) (n : nat) (s : lp) (rs : list raw) : option (lp * list (V * V * V * V) * list done) :=
  match rs with
  | [] => Some (s, [], [])
  | r :: rs =>
      match lp_step (olds n) s r with
      | None => None
      | Some (s, live, out) =>
          match lp_run olds (S n) s rs with
          | None => None
          | Some (s, lives, outs) => Some (s, live :: lives, out ++ outs)
          end
      end
  end.
End Sg.

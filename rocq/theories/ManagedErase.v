(** * Model of the background-erase wrapper, vlfs/src/flash/managed_erase_flash.rs, on a chip with suspend/resume
    (vlfs/src/flash/async_erase_flash.rs).

    The chip is nondeterministic: an [oracle] decides, before every command, whether a running erase has just finished and what the bytes
    under a running erase currently look like.  A command the chip does not allow in its state (reading or programming while an erase is
    running, programming inside a suspended erase, starting a second erase, waiting for a suspended erase) gives [None].
    Driver errors are not modelled. *)
From Coq Require Import List Bool.
From Verif Require Import Base.
Import ListNotations.
Local Open Scope N_scope.

Record job := mkJob { j_lo : N; j_hi : N; j_paused : bool }.
Record chip := mkChip { mem : N -> N; running_job : option job }.
Definition inside (lo hi a : N) : bool := (lo <=? a) && (a <? hi).

(** what may happen between two commands: finished?, bytes under the erase *)
Definition oracle : Type := bool * (N -> N).
Definition advance (o : oracle) (c : chip) : chip :=
  match running_job c with
  | Some (mkJob lo hi false) =>
      if fst o then mkChip (fun a => if inside lo hi a then 255 else mem c a) None
      else mkChip (fun a => if inside lo hi a then snd o a else mem c a) (running_job c)
  | _ => c
  end.

Definition c_erase (lo hi : N) (c : chip) : option chip :=
  match running_job c with None => Some (mkChip (mem c) (Some (mkJob lo hi false))) | Some _ => None end.
Definition c_suspend (c : chip) : option chip :=
  match running_job c with Some (mkJob lo hi false) => Some (mkChip (mem c) (Some (mkJob lo hi true))) | _ => Some c end.
Definition c_resume (c : chip) : option chip :=
  match running_job c with Some (mkJob lo hi true) => Some (mkChip (mem c) (Some (mkJob lo hi false))) | _ => Some c end.
Definition c_wait (c : chip) : option chip :=
  match running_job c with
  | None => Some c
  | Some (mkJob lo hi false) => Some (mkChip (fun a => if inside lo hi a then 255 else mem c a) None)
  | Some (mkJob _ _ true) => None
  end.
Definition c_busy (c : chip) : bool := match running_job c with Some (mkJob _ _ false) => true | _ => false end.
Definition addresses (a : N) (n : nat) : list N := map (fun i => a + N.of_nat i) (seq 0 n).
Definition c_read (a : N) (n : nat) (c : chip) : option (list N) := if c_busy c then None else Some (map (mem c) (addresses a n)).
(** programming can only clear bits *)
Definition program (m : N -> N) (a : N) (d : list N) : N -> N :=
  fun x => if inside a (a + N.of_nat (length d)) x then N.land (m x) (nth (N.to_nat (x - a)) d 255) else m x.
Definition c_write (a : N) (d : list N) (c : chip) : option chip :=
  match running_job c with
  | Some (mkJob _ _ false) => None
  | Some (mkJob lo hi true) => if (a <? hi) && (lo <? a + N.of_nat (length d)) then None else Some (mkChip (program (mem c) a d) (running_job c))
  | None => Some (mkChip (program (mem c) a d) None)
  end.
(** a reset abandons a running erase *)
Definition c_reset (c : chip) : chip := mkChip (mem c) None.

(** ** The wrapper *)
(** managed_erase_flash.rs:13-16 *)
Inductive erase_state := Idle | Erasing (lo hi : N) (suspended : bool).
Record managed := mkM { st : erase_state; ch : chip }.

Section Wrapper.
  (** one oracle value for each command sent to the chip *)
  Variable o : nat -> oracle.

  (** managed_erase_flash.rs:35-50, wait_prev_erase; commands 0 and 1 *)
  Definition wait_prev_erase (m : managed) : option managed :=
    match st m with
    | Idle => Some m
    | Erasing lo hi susp =>
        match (if susp then c_resume (advance (o 0) (ch m)) else Some (ch m)) with
        | None => None
        | Some c => match c_wait (advance (o 1) c) with Some c => Some (mkM Idle c) | None => None end
        end
    end.
  (** managed_erase_flash.rs:52-66, suspend_erase; command 0 *)
  Definition suspend_erase (m : managed) : option managed :=
    match st m with
    | Erasing lo hi false => match c_suspend (advance (o 0) (ch m)) with Some c => Some (mkM (Erasing lo hi true) c) | None => None end
    | _ => Some m
    end.
  (** managed_erase_flash.rs:68-82, resume_erase; command 3 *)
  Definition resume_erase (m : managed) : option managed :=
    match st m with
    | Erasing lo hi true => match c_resume (advance (o 3) (ch m)) with Some c => Some (mkM (Erasing lo hi false) c) | None => None end
    | _ => Some m
    end.
  (** managed_erase_flash.rs:96-121; command 2 *)
  Definition erase (size a : N) (m : managed) : option managed :=
    match wait_prev_erase m with
    | None => None
    | Some m => match c_erase a (a + size) (advance (o 2) (ch m)) with Some c => Some (mkM (Erasing a (a + size) false) c) | None => None end
    end.
  (** managed_erase_flash.rs:123-142 *)
  Definition read_4kib (a : N) (n : nat) (m : managed) : option (managed * list N) :=
    match (match st m with
           | Idle => Some m
           | Erasing lo hi susp => if inside lo hi a then wait_prev_erase m else if susp then Some m else suspend_erase m
           end) with
    | None => None
    | Some m => let c := advance (o 2) (ch m) in match c_read a n c with Some d => Some (mkM (st m) c, d) | None => None end
    end.
  (** managed_erase_flash.rs:144-181; the delay only lets time pass *)
  Definition write_256b (a : N) (d : list N) (m : managed) : option managed :=
    match (match st m with
           | Idle => Some m
           | Erasing lo hi _ => if inside lo hi a then wait_prev_erase m else suspend_erase m
           end) with
    | None => None
    | Some m =>
        match c_write a d (advance (o 2) (ch m)) with
        | None => None
        | Some c =>
            match st m with
            | Erasing lo hi true =>
                match resume_erase (mkM (st m) c) with
                | None => None
                | Some m => let c := advance (o 4) (ch m) in Some (mkM (if c_busy c then st m else Idle) c)
                end
            | _ => Some (mkM (st m) c)
            end
        end
    end.
  (** managed_erase_flash.rs:92-94: the wrapper's state is left alone *)
  Definition reset (m : managed) : managed := mkM (st m) (c_reset (advance (o 0) (ch m))).
End Wrapper.

(** ** Calls *)
Inductive mop := MErase4 (a : N) | MErase32 (a : N) | MErase64 (a : N) | MRead (a : N) (n : nat) | MWrite (a : N) (d : list N) | MReset.
Definition call (o : nat -> oracle) (p : mop) (m : managed) : option (managed * list N) :=
  match p with
  | MErase4 a => option_map (fun m => (m, [])) (erase o 4096 a m)
  | MErase32 a => option_map (fun m => (m, [])) (erase o 32768 a m)
  | MErase64 a => option_map (fun m => (m, [])) (erase o 65536 a m)
  | MRead a n => read_4kib o a n m
  | MWrite a d => option_map (fun m => (m, [])) (write_256b o a d m)
  | MReset => Some (reset o m, [])
  end.
(** the bytes returned by each call of a sequence; [os k] is the chip's behaviour during the [k]-th call *)
Fixpoint calls (os : nat -> nat -> oracle) (ps : list mop) (m : managed) : option (list (list N)) :=
  match ps with
  | [] => Some []
  | p :: ps => match call (os 0%nat) p m with
               | None => None
               | Some (m', r) => option_map (cons r) (calls (fun k => os (S k)) ps m')
               end
  end.

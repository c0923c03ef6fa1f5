(** * Model of vlfs/src/fs/sector_management.rs *)
From Verif Require Import Base Flash FS.
Local Open Scope N_scope.
Local Open Scope fs_scope.

Definition setb (m : N -> bool) (i : N) (v : bool) : N -> bool := fun j => if j =? i then v else m j.

(** sector_management.rs:18-25 and 67-74; [SmallRng::seed_from_u64] is an arbitrary stream. *)
Definition smng_new (r : nat -> N) : smng :=
  mkSM (fun _ => false) (fun _ => false) (fun _ => false) DATA_REGION_SECTORS [] [] r.

(** sector_management.rs:27-36.  [None]: arithmetic underflow or out-of-range index panics. *)
Definition set_sector_used (m : smng) (su : N) : option smng :=
  if su <? ALLOC_TABLES_SECTORS_USED then None else
  let i := su - ALLOC_TABLES_SECTORS_USED in
  if DATA_REGION_SECTORS <=? i then None else
  if m4 m i then Some m else
  if nfree m =? 0 then None else
  Some (mkSM (setb (m4 m) i true) (setb (m32 m) (i / 8) true) (setb (m64 m) (i / 16) true)
             (nfree m - 1) (ahead m) (aahead m) (rng m)).

(** [map[lo..hi].any()] *)
Definition any_in (m : N -> bool) (lo : N) (n : nat) : bool :=
  existsb (fun k => m (lo + N.of_nat k)) (seq 0 n).

(** sector_management.rs:38-56.  [i & !0b111] is [8 * (i / 8)]; the second mask acts on the
    already masked index. *)
Definition set_sector_unused (m : smng) (su : N) : option smng :=
  if su <? ALLOC_TABLES_SECTORS_USED then None else
  let i := su - ALLOC_TABLES_SECTORS_USED in
  if DATA_REGION_SECTORS <=? i then None else
  if negb (m4 m i) then Some m else
  let m4' := setb (m4 m) i false in
  let i8 := 8 * (i / 8) in
  let m32' := setb (m32 m) (i8 / 8) (any_in m4' i8 8) in
  let i16 := 16 * (i8 / 16) in
  let m64' := setb (m64 m) (i16 / 16) (any_in m32' (i16 / 8) 2) in
  Some (mkSM m4' m32' m64' (nfree m + 1) (ahead m) (aahead m) (rng m)).

(** The three search loops (lines 85-94, 99-108, 113-122): first free index, starting at [r]. *)
Fixpoint search (fuel : nat) (i r n : N) (m : N -> bool) : option N :=
  match fuel with
  | O => None
  | S f => let j := (i + r) mod n in if m j then search f (i + 1) r n m else Some j
  end.
Definition search_all (r n : N) (m : N -> bool) : option N := search (N.to_nat n) 0 r n m.

(** sector_management.rs:76-126: region = (first offset sector, number of sectors).
    [Err DeviceFull] stands for [Err(())]; [Panic] for [log_unreachable!]. *)
Definition claim_erase_region (m : smng) : smng * res (N * N) :=
  if nfree m =? 0 then (m, Err DeviceFull) else
  let r := rng m 0%nat / 2 in
  let m' := mkSM (m4 m) (m32 m) (m64 m) (nfree m) (ahead m) (aahead m) (fun k => rng m (S k)) in
  match search_all r (DATA_REGION_SECTORS / 16) (m64 m) with
  | Some j => (m', Ok (j * 16, 16))
  | None =>
    match search_all r (DATA_REGION_SECTORS / 8) (m32 m) with
    | Some j => (m', Ok (j * 8, 8))
    | None =>
      match search_all r DATA_REGION_SECTORS (m4 m) with
      | Some j => (m', Ok (j, 1))
      | None => (m', Panic)
      end
    end
  end.

(** sector_management.rs:161-169: mark and push every sector of the region.
    [push] on a full [Vec<u16,16>] panics ([unwrap]). *)
Fixpoint take_sectors (n : nat) (i : N) (async : bool) (m : smng) : option smng :=
  match n with
  | O => Some m
  | S n' =>
    let su := i + ALLOC_TABLES_SECTORS_USED in
    match set_sector_used m su with
    | None => None
    | Some m1 =>
      let l := if async then aahead m1 else ahead m1 in
      if Nat.leb 16 (length l) then None else
      take_sectors n' (i + 1) async
        (mkSM (m4 m1) (m32 m1) (m64 m1) (nfree m1)
              (if async then ahead m1 else su :: ahead m1)
              (if async then su :: aahead m1 else aahead m1) (rng m1))
    end
  end.

(** sector_management.rs:128-171; address from lines 257-260.  The erase command is chosen by the
    region length (64 KiB, 32 KiB or 4 KiB). *)
Definition erase_region (reg : N * N) (async : bool) : M unit :=
  out (Erase ((fst reg + ALLOC_TABLES_SECTORS_USED) * SECTOR_SIZE) (snd reg * SECTOR_SIZE)) ;;;
  s <- get ;;
  match take_sectors (N.to_nat (snd reg)) (fst reg) async (sm s) with
  | Some m => modify (fun s => set_sm s m)
  | None => panic
  end.

(** claim a region and erase it; [if let Ok(region) = claim_erase_region()] *)
Definition claim_and_erase (async : bool) : M bool :=
  s <- get ;;
  match claim_erase_region (sm s) with
  | (m, Ok reg) => modify (fun s => set_sm s m) ;;; erase_region reg async ;;; ret true
  | (m, Err _) => modify (fun s => set_sm s m) ;;; ret false
  | (_, Panic) => panic
  end.

Definition pop_ahead : M (option N) :=
  s <- get ;;
  match ahead (sm s) with
  | [] => ret None
  | x :: l => modify (fun s => set_sm s (mkSM (m4 (sm s)) (m32 (sm s)) (m64 (sm s)) (nfree (sm s)) l
                                            (aahead (sm s)) (rng (sm s)))) ;;; ret (Some x)
  end.

Definition swap_ahead : M unit :=
  modify (fun s => set_sm s (mkSM (m4 (sm s)) (m32 (sm s)) (m64 (sm s)) (nfree (sm s))
                                  (aahead (sm s)) (ahead (sm s)) (rng (sm s)))).

(** sector_management.rs:173-218 *)
Definition claim_avaliable_sector_and_erase : M N :=
  p <- pop_ahead ;;
  match p with
  | Some x => ret x
  | None =>
    s <- get ;;
    (match aahead (sm s) with
     | _ :: _ => swap_ahead ;;; claim_and_erase true ;;; ret tt
     | [] => b <- claim_and_erase false ;;
             if (b : bool) then claim_and_erase true ;;; ret tt else ret tt
     end) ;;;
    p2 <- pop_ahead ;;
    match p2 with Some x => ret x | None => fail DeviceFull end
  end.

(** sector_management.rs:220-224 / 226-230 *)
Definition claim_sector (su : N) : M unit :=
  s <- get ;; match set_sector_used (sm s) su with Some m => modify (fun s => set_sm s m) | None => panic end.
Definition return_sector (su : N) : M unit :=
  s <- get ;; match set_sector_unused (sm s) su with Some m => modify (fun s => set_sm s m) | None => panic end.

(** mod.rs:192-199 *)
Definition free_bytes (s : fs) : N :=
  (nfree (sm s) + N.of_nat (length (aahead (sm s))) + N.of_nat (length (ahead (sm s)))) * MAX_SECTOR_DATA_SIZE.

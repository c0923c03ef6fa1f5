(** * Model of the file table: vlfs/src/fs/allocation_table.rs, at_builder.rs, init.rs and the
    directory part of mod.rs. *)
From Verif Require Import Base Hamming Majority Flash FS Sectors.
Local Open Scope N_scope.
Local Open Scope fs_scope.

(** allocation_table.rs:19-23 *)
Record entry := mkE { e_id : N; e_typ : N; e_first : option N }.

(** allocation_table.rs:36-47 *)
Definition entry_serialize (e : entry) : list byte :=
  hamming_encode (be_bytes 2 (e_typ e)
    ++ be_bytes 2 (match e_first e with Some x => x | None => 65535 end)
    ++ be_bytes 8 (e_id e) ++ [0]).

(** allocation_table.rs:50-65 *)
Definition entry_deserialize (buf : list byte) : option entry :=
  match hamming_decode buf with
  | None => None
  | Some b =>
    let first := of_be (firstn 2 (skipn 2 b)) in
    Some (mkE (of_be (firstn 8 (skipn 4 b))) (of_be (firstn 2 b))
              (if first =? 65535 then None else Some first))
  end.

(** allocation_table.rs:81-87 *)
Definition header_serialize (seq : N) : list byte :=
  hamming_encode (be_bytes 4 VLFS_VERSION ++ be_bytes 8 seq ++ [0]).

(** allocation_table.rs:90-107 *)
Definition header_deserialize (buf : list byte) : option N :=
  match hamming_decode (firstn 13 buf) with
  | None => None
  | Some b => if of_be (firstn 4 b) =? VLFS_VERSION then Some (of_be (firstn 8 (skipn 4 b))) else None
  end.

(** allocation_table.rs:126-137 *)
Definition footer_serialize (max_id : N) : list byte := entry_serialize (mkE max_id 65535 None).
Definition is_footer (e : entry) : bool := e_typ e =? 65535.

(** allocation_table.rs:155-164 *)
Definition at_default : at_t := mkAT 1 0 0 0 [].

(** allocation_table.rs:167-174 *)
Definition at_address (a : at_t) : N := a_pos a * 32 * 1024.
Definition address_of_file_entry (a : at_t) (i : N) : N := at_address a + 13 + i * 13.

(** Read and decode the file entry at an address (allocation_table.rs:233-238, iter.rs:87-103). *)
Definition read_entry_at (f : flash) (addr : N) : option entry := entry_deserialize (rd f addr 13).

(** allocation_table.rs:357-372: scan entries until the footer. The Rust counter is a u16; running
    past 65535 entries overflows it (panic), which is the out-of-fuel case. *)
Inductive scan_result := SFooter (count max_id : N) | SCorrupt | SOverflow.
Fixpoint scan (fuel : nat) (f : flash) (addr count : N) : scan_result :=
  match fuel with
  | O => SOverflow
  | S k =>
    match read_entry_at f addr with
    | None => SCorrupt
    | Some e => if is_footer e then SFooter count (e_id e) else scan k f (addr + 13) (count + 1)
    end
  end.

(** allocation_table.rs:335-382: one table slot, against the best table found so far
    ([found] = found_valid_table). *)
Definition try_slot (fuel : nat) (f : flash) (i : N) (st : at_t * bool) : res (at_t * bool) :=
  match header_deserialize (rd f (i * 32 * 1024) 13) with
  | None => Ok st
  | Some seq =>
    match scan fuel f (i * 32 * 1024 + 13) 0 with
    | SOverflow => Panic
    | SCorrupt => Ok st
    | SFooter count mx =>
        if a_seq (fst st) <=? seq
        then Ok (mkAT seq count mx i (a_open (fst st)), true)
        else Ok st
    end
  end.

Definition scan_fuel : nat := N.to_nat 65536.

(** allocation_table.rs:330-385 *)
Definition read_latest (f : flash) (a : at_t) : res (at_t * bool) :=
  fold_left (fun r i => match r with Ok st => try_slot scan_fuel f i st | _ => r end)
            [0; 1; 2; 3] (Ok (a, false)).

(** FlashWriter / ATBuilder share the page buffering (flash_io.rs:109-151, at_builder.rs:128-162):
    the bytes of the current page not yet programmed, and its address. The rest of the Rust
    buffer is 0xFF. *)
Record pbuf := mkPB { pb_addr : N; pb_data : list byte }.

Definition pb_flush (p : pbuf) : M pbuf :=
  out (Prog (pb_addr p) (pb_data p ++ repeat 255 (256 - length (pb_data p)))) ;;;
  ret (mkPB (pb_addr p + 256) []).

Fixpoint pb_extend_loop (fuel : nat) (p : pbuf) (slice : list byte) : M pbuf :=
  match fuel with
  | O => panic
  | S k =>
    match slice with
    | [] => ret p
    | _ =>
      let free := (256 - length (pb_data p))%nat in
      if Nat.ltb (length slice) free then ret (mkPB (pb_addr p) (pb_data p ++ slice))
      else p' <- pb_flush (mkPB (pb_addr p) (pb_data p ++ firstn free slice)) ;;
           pb_extend_loop k p' (skipn free slice)
    end
  end.
Definition pb_extend (p : pbuf) (slice : list byte) : M pbuf := pb_extend_loop (S (length slice)) p slice.

(** allocation_table.rs:387-413 *)
Definition write_empty_allocation_table : M unit :=
  s <- get ;;
  let addr := at_address (atb s) in
  out (Erase addr 4096) ;;;
  p <- pb_extend (mkPB addr []) (header_serialize (a_seq (atb s))) ;;
  p <- pb_extend p (footer_serialize (a_max (atb s))) ;;
  p <- pb_flush p ;;
  ret tt.

(** ** The table builder (at_builder.rs:23-45) *)
Record builder := mkB {
  b_cur : N;                (* curr_at_start_addr *)
  b_cache : list byte;      (* read_buffer: the last batch of 64 entries read *)
  b_ri : N;                 (* read_file_entry_i *)
  b_fin : bool;             (* read_finished *)
  b_pb : pbuf;              (* write_page_address, write_buffer, write_buffer_offset *)
  b_count : N; b_max : N }.

(** at_builder.rs:51-84, 203-212; allocation_table.rs:176-179 *)
Definition at_builder_new : M builder :=
  s <- get ;;
  let a := atb s in
  guard (a_seq a <? 2 ^ 64 - 1) ;;;
  let a' := mkAT (a_seq a + 1) (a_count a) (a_max a) ((a_pos a + 1) mod TABLE_COUNT) (a_open a) in
  modify (fun s => set_at s a') ;;;
  out (Erase (at_address a') (32 * 1024)) ;;;
  p <- pb_extend (mkPB (at_address a') []) (header_serialize (a_seq a')) ;;
  ret (mkB (at_address a) [] 0 false p 0 (a_max a)).

(** at_builder.rs:86-104: entries are fetched in batches of 64. *)
Definition read_next_file_entry_slice (b : builder) : M (builder * list byte) :=
  s <- get ;;
  let cache := if b_ri b mod 64 =? 0 then rd (fl s) (b_cur b + 13 + b_ri b * 13) (13 * 64) else b_cache b in
  let start := N.to_nat ((b_ri b mod 64) * 13) in
  ret (mkB (b_cur b) cache (b_ri b + 1) (b_fin b) (b_pb b) (b_count b) (b_max b),
       firstn 13 (skipn start cache)).

(** at_builder.rs:108-126 *)
Definition b_read_next (b : builder) : M (builder * option entry) :=
  if b_fin b then ret (b, None) else
  r <- read_next_file_entry_slice b ;;
  let (b', sl) := r in
  match entry_deserialize sl with
  | Some e => if is_footer e
              then ret (mkB (b_cur b') (b_cache b') (b_ri b') true (b_pb b') (b_count b') (b_max b'), None)
              else ret (b', Some e)
  | None => fail CorruptedFileEntry
  end.

(** at_builder.rs:165-174 *)
Definition b_write (b : builder) (e : entry) : M builder :=
  p <- pb_extend (b_pb b) (entry_serialize e) ;;
  guard (b_count b <? 65535) ;;;
  ret (mkB (b_cur b) (b_cache b) (b_ri b) (b_fin b) p (b_count b + 1)
           (if b_max b <? e_id e then e_id e else b_max b)).

(** at_builder.rs:198-201 *)
Definition b_new_id (b : builder) : M (builder * N) :=
  guard (b_max b <? 2 ^ 64 - 1) ;;;
  ret (mkB (b_cur b) (b_cache b) (b_ri b) (b_fin b) (b_pb b) (b_count b) (b_max b + 1), b_max b + 1).

(** at_builder.rs:176-183 *)
Definition b_write_new_file (b : builder) (typ : N) : M (builder * entry) :=
  r <- b_new_id b ;;
  let (b, id) := r in
  let e := mkE id typ None in
  b <- b_write b e ;;
  ret (b, e).

(** at_builder.rs:185-196; the [FileWriter] is represented by its initial sector. *)
Definition b_write_new_file_and_open (b : builder) (typ : N) : M (builder * (entry * N)) :=
  r <- b_new_id b ;;
  let (b, id) := r in
  x <- claim_avaliable_sector_and_erase ;;
  let e := mkE id typ (Some x) in
  b <- b_write b e ;;
  ret (b, (e, x)).

(** at_builder.rs:214-216 *)
Definition is_opened (a : at_t) (id : N) : bool := existsb (fun x => x =? id) (a_open a).

(** at_builder.rs:221-246 (also the shape of init.rs:67-88 and mod.rs:146-182): follow the chain
    of sectors. [fuel] only bounds the recursion: a cyclic chain loops forever in Rust, which
    this model reports as [Panic]. [find_most_common_...unwrap()] panics on [None]. *)
Definition next_sector_at (f : flash) (x : N) : option N :=
  find_most_common_u16_out_of_4 (rd f (x * SECTOR_SIZE + SECTOR_SIZE - 8) 8).

Definition chain_fuel : nat := N.to_nat 65536.

Fixpoint release_loop (fuel : nat) (cur : option N) : M unit :=
  match cur with
  | None => ret tt
  | Some x =>
    match fuel with
    | O => panic
    | S k =>
      s <- get ;;
      match next_sector_at (fl s) x with
      | None => panic
      | Some n =>
        return_sector x ;;;
        release_loop k (if n =? 65535 then None else Some n)
      end
    end
  end.
Definition release_file_sectors (e : entry) : M unit := release_loop chain_fuel (e_first e).

(** at_builder.rs:248-258 *)
Definition b_commit (b : builder) : M unit :=
  modify (fun s => set_at s (mkAT (a_seq (atb s)) (b_count b) (b_max b) (a_pos (atb s)) (a_open (atb s)))) ;;;
  p <- pb_extend (b_pb b) (footer_serialize (b_max b)) ;;
  p <- pb_flush p ;;
  ret tt.

(** A builder that goes out of scope without [commit] panics (at_builder.rs:261-270), so an error
    inside a builder session is a panic. *)
Definition in_builder {A} (m : M A) : M A := fun s =>
  match m s with
  | (s', Ok a) => (s', Ok a)
  | (s', _) => (s', Panic)
  end.

(** [while let Some(e) = builder.read_next()? { body }] *)
Fixpoint b_loop (fuel : nat) (body : builder -> entry -> M builder) (b : builder) : M builder :=
  match fuel with
  | O => panic
  | S k =>
    r <- b_read_next b ;;
    let (b, o) := r in
    match o with
    | None => ret b
    | Some e => b <- body b e ;; b_loop k body b
    end
  end.
Definition loop_fuel : nat := N.to_nat 65537.

(** allocation_table.rs:299-312 *)
Definition create_file (typ : N) : M entry :=
  b <- at_builder_new ;;
  in_builder (
    b <- b_loop loop_fuel b_write b ;;
    r <- b_write_new_file b typ ;;
    let (b, e) := r in
    b_commit b ;;;
    ret e).

(** allocation_table.rs:314-327 *)
Definition create_file_and_open_for_write (typ : N) : M (entry * N) :=
  b <- at_builder_new ;;
  in_builder (
    b <- b_loop loop_fuel b_write b ;;
    r <- b_write_new_file_and_open b typ ;;
    let (b, e) := r in
    b_commit b ;;;
    ret e).

(** allocation_table.rs:214-257: binary search.  [left + right] is a u16 addition. *)
Fixpoint bsearch (fuel : nat) (f : flash) (a : at_t) (id left right : N) : res (option (entry * N)) :=
  match fuel with
  | O => Panic
  | S k =>
    if left <? right then
      if 65536 <=? left + right then Panic else
      let mid := (left + right) / 2 in
      match read_entry_at f (address_of_file_entry a mid) with
      | None => Err CorruptedFileEntry
      | Some e => if e_id e <? id then bsearch k f a id (mid + 1) right
                  else bsearch k f a id left mid
      end
    else
      match read_entry_at f (address_of_file_entry a left) with
      | None => Err CorruptedFileEntry
      | Some e => if e_id e =? id then Ok (Some (e, left)) else Ok None
      end
  end.

Definition find_file_entry (id : N) : M (option (entry * N)) :=
  s <- get ;;
  if a_count (atb s) =? 0 then ret None
  else liftM (bsearch (S (N.to_nat (a_count (atb s)))) (fl s) (atb s) id 0 (a_count (atb s) - 1)).

(** mod.rs:90-92 *)
Definition exists_file (id : N) : M bool :=
  r <- find_file_entry id ;; ret (match r with Some _ => true | None => false end).

(** [for _ in 0..n { read_next; write }] (allocation_table.rs:270-276) *)
Fixpoint b_copy (n : nat) (b : builder) : M builder :=
  match n with
  | O => ret b
  | S k =>
    r <- b_read_next b ;;
    let (b, o) := r in
    match o with
    | None => fail CorruptedFileSystem
    | Some e => b <- b_write b e ;; b_copy k b
    end
  end.

(** allocation_table.rs:261-297 *)
Definition set_file_first_sector_index (id : N) (first : option N) : M unit :=
  r <- find_file_entry id ;;
  match r with
  | None => fail FileDoesNotExist
  | Some (_, i) =>
    b <- at_builder_new ;;
    in_builder (
      b <- b_copy (N.to_nat i) b ;;
      r <- b_read_next b ;;
      let (b, o) := r in
      match o with
      | None => fail CorruptedFileSystem
      | Some e =>
        b <- b_write b (mkE (e_id e) (e_typ e) first) ;;
        b <- b_loop loop_fuel b_write b ;;
        b_commit b
      end)
  end.

(** mod.rs:108-132: the filter is an arbitrary (stateless) predicate; the two u16 counters are
    returned. *)
Fixpoint remove_loop (fuel : nat) (flt : entry -> bool) (b : builder) (removed kept : N) : M (builder * (N * N)) :=
  match fuel with
  | O => panic
  | S k =>
    r <- b_read_next b ;;
    let (b, o) := r in
    match o with
    | None => ret (b, (removed, kept))
    | Some e =>
      if flt e then
        s <- get ;;
        if is_opened (atb s) (e_id e) then
          b <- b_write b e ;; remove_loop k flt b removed (kept + 1)
        else
          release_file_sectors e ;;; remove_loop k flt b (removed + 1) kept
      else b <- b_write b e ;; remove_loop k flt b removed kept
    end
  end.

Definition remove_files (flt : entry -> bool) : M (N * N) :=
  b <- at_builder_new ;;
  in_builder (
    r <- remove_loop loop_fuel flt b 0 0 ;;
    let (b, counts) := r in
    b_commit b ;;;
    ret counts).

(** mod.rs:94-105, filter from iter.rs:27-31 *)
Definition remove_file (id : N) : M unit :=
  r <- remove_files (fun e => e_id e =? id) ;;
  if fst r =? 1 then ret tt
  else if snd r =? 1 then fail FileInUse
  else fail FileDoesNotExist.

(** allocation_table.rs:188-212 *)
Definition mark_file_opened (id : N) : M unit :=
  s <- get ;;
  let a := atb s in
  if Nat.leb 32 (length (a_open a)) then fail TooManyFilesOpen
  else modify (fun s => set_at s (mkAT (a_seq a) (a_count a) (a_max a) (a_pos a) (a_open a ++ [id]))).

Definition is_file_opened (id : N) : M bool := s <- get ;; ret (is_opened (atb s) id).

(** heapless [swap_remove] of the first occurrence *)
Fixpoint find_index (id : N) (l : list N) : option nat :=
  match l with
  | [] => None
  | x :: t => if x =? id then Some O else match find_index id t with Some k => Some (S k) | None => None end
  end.
Definition swap_remove (l : list N) (k : nat) : list N := removelast (upd l k (last l 0)).

Definition mark_file_closed (id : N) : M unit :=
  s <- get ;;
  let a := atb s in
  match find_index id (a_open a) with
  | None => ret tt
  | Some k => modify (fun s => set_at s (mkAT (a_seq a) (a_count a) (a_max a) (a_pos a) (swap_remove (a_open a) k)))
  end.

(** iter.rs:132-146: [files_iter(flt)] driven to its end.  The iterator holds read locks, so the
    table does not change meanwhile. *)
Fixpoint iter_all (fuel : nat) (f : flash) (a : at_t) (flt : entry -> bool) (i : N) : res (list entry) :=
  match fuel with
  | O => Panic
  | S k =>
    if a_count a <=? i then Ok [] else
    match read_entry_at f (address_of_file_entry a i) with
    | None => Err CorruptedFileEntry
    | Some e => match iter_all k f a flt (i + 1) with
                | Ok l => Ok (if flt e then e :: l else l)
                | r => r
                end
    end
  end.
Definition files_iter (s : fs) (flt : entry -> bool) : res (list entry) :=
  iter_all (S (N.to_nat (a_count (atb s)))) (fl s) (atb s) flt 0.

(** init.rs:63-92 *)
Fixpoint claim_loop (fuel : nat) (cur : option N) : M unit :=
  match cur with
  | None => ret tt
  | Some x =>
    match fuel with
    | O => panic
    | S k =>
      claim_sector x ;;;
      s <- get ;;
      match next_sector_at (fl s) x with
      | None => panic
      | Some n => claim_loop k (if n =? 65535 then None else Some n)
      end
    end
  end.

Fixpoint claim_chains (l : list entry) : M unit :=
  match l with
  | [] => ret tt
  | e :: t => claim_loop chain_fuel (e_first e) ;;; claim_chains t
  end.

(** The Rust loop interleaves reading an entry and claiming its chain; claiming does not touch the
    flash, so reading all entries first is the same unless an entry is corrupted. *)
Definition read_free_sectors : M unit :=
  s <- get ;;
  match files_iter s (fun _ => true) with
  | Ok l => claim_chains l
  | Err e => fail e
  | Panic => panic
  end.

(** init.rs:15-61 ([VLFS::new] followed by [init]) on a given flash; [r] is the (crc-seeded)
    random stream. *)
Definition boot_state (f : flash) (r : nat -> N) : fs := mkFS f [] at_default (smng_new r).
Definition init : M unit :=
  s <- get ;;
  match read_latest (fl s) (atb s) with
  | Ok (a, true) => modify (fun s => set_at s a) ;;; read_free_sectors
  | Ok (_, false) => write_empty_allocation_table
  | Err e => fail e
  | Panic => panic
  end.
Definition boot (f : flash) (r : nat -> N) : fs * res unit := init (boot_state f r).

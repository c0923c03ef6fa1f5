(** * Model of vlfs/src/fs/writer.rs, reader.rs and get_file_size (mod.rs:134-188).
    The checksum engine (the [Crc] trait object) is an arbitrary function of the bytes.  The Rust
    page buffers start with 5 bytes reserved for the flash command; the model drops them, so every
    offset is 5 less than in the Rust text. *)
From Verif Require Import Base Majority Flash FS Sectors ATable.
Local Open Scope N_scope.
Local Open Scope fs_scope.

Definition MAX_PAGE : N := 252.        (* MAX_DATA_LENGTH_PER_PAGE, mod.rs:36 *)
Definition MAX_LAST_PAGE : N := 236.   (* MAX_DATA_LENGTH_LAST_PAGE, mod.rs:37 *)

(** [buffer[off..off+len].copy_from_slice(data)] *)
Definition splice (buf : list byte) (off : nat) (data : list byte) : list byte :=
  firstn off buf ++ data ++ skipn (off + length data) buf.

Definition blank_page : list byte := repeat 255 256.

Section WithCrc.
Variable crc : list byte -> N.

(** writer.rs:129-142: buffer, buffer_offset, sector_data_length, current_sector_index, file_id *)
Record writer := mkW { w_buf : list byte; w_off : nat; w_len : N; w_sec : N; w_id : N }.

(** writer.rs:149-159 *)
Definition new_writer (x id : N) : writer := mkW blank_page 0 0 x id.

(** writer.rs:161-182 *)
Definition write_page (w : writer) (address : N) (crc_offset : option nat) : M writer :=
  let buf := match crc_offset with
             | Some o => splice (w_buf w) o (be_bytes 4 (crc (firstn o (w_buf w))))
             | None => w_buf w
             end in
  out (Prog address buf) ;;;
  ret (mkW blank_page 0 (w_len w) (w_sec w) (w_id w)).

(** writer.rs:184-200 *)
Definition is_last_data_page (w : writer) : bool := 252 * 15 <? w_len w.
Definition page_address (w : writer) : N :=
  let base := w_sec w * SECTOR_SIZE in
  if w_len w =? 0 then base else base + (w_len w - 1) / 252 * 256.

(** writer.rs:202-210 *)
Definition write_length_and_next (w : writer) (next : N) : writer :=
  mkW (splice (splice (w_buf w) 240 (u16x4 (w_len w))) 248 (u16x4 next)) (w_off w) (w_len w) (w_sec w) (w_id w).

(** writer.rs:231-277 *)
Definition flush_ (w : writer) (next : N) : M writer :=
  let base := w_sec w * SECTOR_SIZE in
  if w_len w =? 0 then
    write_page (write_length_and_next w next) (base + (SECTOR_SIZE - PAGE_SIZE)) None
  else
    let crc_offset := N.to_nat (N.land (N.of_nat (w_off w) + 3) (N.lnot 3 64)) in
    w <- (if is_last_data_page w then
            let w := write_length_and_next w next in
            write_page w (page_address w) (Some crc_offset)
          else
            w <- (if Nat.ltb 0 (w_off w) then write_page w (page_address w) (Some crc_offset) else ret w) ;;
            let w := write_length_and_next w next in
            write_page w (base + (SECTOR_SIZE - PAGE_SIZE)) None) ;;
    ret (mkW (w_buf w) (w_off w) 0 (w_sec w) (w_id w)).

(** writer.rs:212-229: the result carries the writer and [None] for [Ok] or the error. *)
Definition flush (w : writer) : M (writer * option err) :=
  if w_len w =? 0 then ret (w, None) else
  fun s => match claim_avaliable_sector_and_erase s with
           | (s, Ok next) => (w <- flush_ w next ;; ret (mkW (w_buf w) (w_off w) (w_len w) next (w_id w), None)) s
           | (s, Err e) => (s, Ok (w, Some e))
           | (s, Panic) => (s, Panic)
           end.

(** writer.rs:279-291 *)
Definition close_writer (w : writer) : M unit :=
  flush_ w 65535 ;;; mark_file_closed (w_id w).

(** writer.rs:301-360; [sector_data_length] is a u16 that never exceeds 4016. *)
Fixpoint extend_loop (fuel : nat) (w : writer) (slice : list byte) : M (writer * option err) :=
  match fuel with
  | O => panic
  | S k =>
    match slice with
    | [] => ret (w, None)
    | _ =>
      let last := 252 * 15 <=? w_len w in
      let reserved := if last then 20%nat else 4%nat in
      let free := (256 - w_off w - reserved)%nat in
      if Nat.ltb (length slice) free then
        ret (mkW (splice (w_buf w) (w_off w) slice) (w_off w + length slice)
                 (w_len w + N.of_nat (length slice)) (w_sec w) (w_id w), None)
      else
        let w := mkW (splice (w_buf w) (w_off w) (firstn free slice)) (w_off w + free)
                     (w_len w + N.of_nat free) (w_sec w) (w_id w) in
        if last then
          fun s => match claim_avaliable_sector_and_erase s with
                   | (s, Err e) => (s, Ok (w, Some e))
                   | (s, Panic) => (s, Panic)
                   | (s, Ok next) =>
                     (let w := write_length_and_next w next in
                      w <- write_page w (page_address w) (Some (w_off w)) ;;
                      extend_loop k (mkW (w_buf w) (w_off w) 0 next (w_id w)) (skipn free slice)) s
                   end
        else
          w <- write_page w (page_address w) (Some (w_off w)) ;;
          extend_loop k w (skipn free slice)
    end
  end.
Definition extend_from_slice (w : writer) (slice : list byte) : M (writer * option err) :=
  extend_loop (S (S (length slice))) w slice.

(** ** Opening for write (writer.rs:14-126) *)
(** lines 39-55; like every walk along a chain, a cyclic chain is reported as [Panic] *)
Fixpoint last_sector (fuel : nat) (f : flash) (x : N) : res N :=
  match fuel with
  | O => Panic
  | S k =>
    match next_sector_at f x with
    | None => Panic
    | Some n => if n =? 65535 then Ok x else last_sector k f n
    end
  end.

(** lines 67-84 and 93-106: copy the 16 pages of sector [src] to [dst]; [next] replaces the last 8
    bytes of the last page *)
Fixpoint copy_pages (n i : nat) (src dst : N) (next : option N) : M unit :=
  match n with
  | O => ret tt
  | S k =>
    s <- get ;;
    let buf := rd (fl s) (src * SECTOR_SIZE + N.of_nat i * 256) 256 in
    let buf := match next with
               | Some v => if Nat.eqb i 15 then splice buf 248 (u16x4 v) else buf
               | None => buf
               end in
    out (Prog (dst * SECTOR_SIZE + N.of_nat i * 256) buf) ;;;
    copy_pages k (S i) src dst next
  end.

Definition open_file_for_write (id : N) : M writer :=
  r <- find_file_entry id ;;
  match r with
  | None => fail FileDoesNotExist
  | Some (e, _) =>
    o <- is_file_opened (e_id e) ;;
    if (o : bool) then fail FileInUse else
    mark_file_opened id ;;;
    x <- claim_avaliable_sector_and_erase ;;
    (match e_first e with
     | Some first =>
       s <- get ;;
       cur <- liftM (last_sector chain_fuel (fl s) first) ;;
       tmp <- claim_avaliable_sector_and_erase ;;
       copy_pages 16 0 cur tmp (Some x) ;;;
       out (Erase (cur * SECTOR_SIZE) SECTOR_SIZE) ;;;
       copy_pages 16 0 tmp cur None ;;;
       return_sector tmp
     | None => set_file_first_sector_index id (Some x)
     end) ;;;
    ret (new_writer x (e_id e))
  end.

(** ** Reading (reader.rs) *)
(** reader.rs:39-43 *)
Inductive sdl := NotRead | Read (n : N) | Unknown.
Inductive status := StOk | StEnd | StCorrupt (address : N).
(** reader.rs:52-69: current_sector_index, current_page_index, sector_data_length,
    sector_read_data_length and the unread part of the page buffer *)
Record reader := mkR { r_sec : option N; r_page : N; r_len : sdl; r_read : N; r_ahead : list byte }.

(** reader.rs:76-88 *)
Definition new_reader (first : option N) : reader := mkR first 0 NotRead 0 [].

(** reader.rs:13-37 *)
Definition open_file_for_read (id : N) : M reader :=
  r <- find_file_entry id ;;
  match r with
  | None => fail FileDoesNotExist
  | Some (e, _) =>
    o <- is_file_opened (e_id e) ;;
    if (o : bool) then fail FileInUse else
    mark_file_opened id ;;;
    ret (new_reader (e_first e))
  end.

Definition link_of (n : N) : option N := if n =? 65535 then None else Some n.

(** reader.rs:102-227.  Returns the new reader (its read-ahead buffer set) and the status. *)
Definition read_next_page (f : flash) (r : reader) : res (reader * status) :=
  match r_sec r with
  | None => Ok (mkR None (r_page r) (r_len r) (r_read r) [], StEnd)
  | Some x =>
    let base := x * SECTOR_SIZE in
    let is_last := r_page r =? 15 in
    let len := match r_len r with
               | NotRead => match find_most_common_u16_out_of_4 (rd f (base + SECTOR_SIZE - 16) 8) with
                            | Some v => if v <=? MAX_SECTOR_DATA_SIZE then Read v else Read 0
                            | None => Unknown
                            end
               | l => l
               end in
    let unread := match len with Read v => Some (v - r_read r) | _ => None end in
    match unread with
    | Some 0 =>
      match next_sector_at f x with
      | None => Panic
      | Some n => Ok (mkR (link_of n) 0 NotRead 0 [], StOk)
      end
    | _ =>
      let max := if is_last then MAX_LAST_PAGE else MAX_PAGE in
      let n := match unread with Some u => N.min u max | None => max end in
      let padded := N.land (n + 3) (N.lnot 3 64) in
      let addr := base + r_page r * 256 in
      let data := rd f addr (N.to_nat padded) in
      let expected := of_be (rd f (addr + padded) 4) in
      match (if is_last then
               match find_most_common_u16_out_of_4 (rd f (addr + 248) 8) with
               | None => None
               | Some nx => Some (link_of nx, 0, NotRead, 0)
               end
             else Some (r_sec r, r_page r + 1, len, r_read r + n)) with
      | None => Panic
      | Some (sec, page, len', rdl) =>
        if crc data =? expected
        then Ok (mkR sec page len' rdl (firstn (N.to_nat n) data), StOk)
        else Ok (mkR sec page len' rdl [], StCorrupt addr)
      end
    end
  end.

(** reader.rs:244-291: the bytes delivered so far are accumulated in [acc]; fuel bounds the number
    of loop turns (a cyclic chain of empty sectors loops forever in Rust). *)
Fixpoint read_loop (fuel : nat) (f : flash) (r : reader) (len : nat) (acc : list byte) : res (reader * list byte * status) :=
  match fuel with
  | O => Panic
  | S k =>
    if Nat.ltb (length acc) len then
      match r_ahead r with
      | [] =>
        match read_next_page f r with
        | Ok (r, StOk) => read_loop k f r len acc
        | Ok (r, st) => Ok (r, acc, st)
        | Err e => Err e
        | Panic => Panic
        end
      | a =>
        let unread := (len - length acc)%nat in
        if Nat.leb (length a) unread
        then read_loop k f (mkR (r_sec r) (r_page r) (r_len r) (r_read r) []) len (acc ++ a)
        else read_loop k f (mkR (r_sec r) (r_page r) (r_len r) (r_read r) (skipn unread a)) len
                       (acc ++ firstn unread a)
      end
    else Ok (r, acc, StOk)
  end.
Definition read_fuel : nat := N.to_nat 1000000.
Definition read_slice (f : flash) (r : reader) (len : nat) : res (reader * list byte * status) :=
  read_loop read_fuel f r len [].
End WithCrc.

(** ** get_file_size (mod.rs:134-188) *)
Fixpoint size_loop (fuel : nat) (f : flash) (cur : option N) (size sectors : N) : res (N * N) :=
  match cur with
  | None => Ok (size, sectors)
  | Some x =>
    match fuel with
    | O => Panic
    | S k =>
      let base := x * SECTOR_SIZE + SECTOR_SIZE - 16 in
      match find_most_common_u16_out_of_4 (rd f base 8) with
      | None => Panic
      | Some v =>
        let v := if v =? 65535 then 0 else v in
        if MAX_SECTOR_DATA_SIZE <? v then Ok (size, sectors + 1)
        else match find_most_common_u16_out_of_4 (rd f (base + 8) 8) with
             | None => Panic
             | Some n => size_loop k f (link_of n) (size + v) (sectors + 1)
             end
      end
    end
  end.
Definition get_file_size (id : N) : M (N * N) :=
  r <- find_file_entry id ;;
  match r with
  | None => fail FileDoesNotExist
  | Some (e, _) => s <- get ;; liftM (size_loop chain_fuel (fl s) (e_first e) 0 0)
  end.

(** * Transfers between memory and flash: the driver contract, the [read] and [write] loops, the byte streams and their checksum.
    vlfs/src/driver/flash.rs:24-156 (and the identical vlfs/src/flash/async_erase_flash.rs:36-157), vlfs/src/utils/flash_io.rs,
    vlfs/src/utils/u8_crc.rs, vlfs/src/driver/crc.rs:4-40.
    A panic (slice out of range, u32 overflow) is [None]; driver errors are not modelled.  The lock around the flash
    (flash_wrapper.rs) is not modelled here: it only forwards. *)
From Verif Require Import Base Flash.
Local Open Scope N_scope.

(** What a driver does to the first five bytes of the caller's buffer, where the SPI command goes (flash.rs:106-107: "The first 5 bytes
    are skipped because they are used for the spi command"): from the address and the previous five bytes to the next five. *)
Definition driver := N -> list byte -> list byte.

(** memory_flash.rs:63-72 leaves the five bytes alone. *)
Definition keeps : driver := fun _ h => h.

(** The largest transfer of [read_4kib], and the size of a page. *)
Definition chunk : nat := N.to_nat 4096.
Definition page : nat := N.to_nat 256.

(** flash.rs:24-45 *)
Definition read_4kib (dr : driver) (f : flash) (a : N) (n : nat) (buf : list byte) : option (list byte) :=
  if Nat.ltb (length buf) (5 + n) then None
  else Some (dr a (firstn 5 buf) ++ rd f a n ++ skipn (5 + n) buf).

(** flash.rs:48-66: exactly one page is programmed. *)
Definition write_256b (dr : driver) (f : flash) (a : N) (buf : list byte) : option (flash * list byte) :=
  if Nat.ltb (length buf) (5 + page) then None
  else Some (apply_op f (Prog a (firstn page (skipn 5 buf))), dr a (firstn 5 buf) ++ skipn 5 buf).

(** flash.rs:86-103; [fuel] bounds the number of iterations ([read_loop] is called with enough). *)
Fixpoint read_loop (fuel : nat) (dr : driver) (f : flash) (a : N) (total done : nat) (buf : list byte) : option (list byte) :=
  match fuel with
  | O => None
  | S fuel =>
    if Nat.ltb done total then
      let n := if Nat.ltb chunk (total - done) then chunk else (total - done)%nat in
      if 2 ^ 32 <=? a + N.of_nat done then None else
      if Nat.ltb (length buf) done then None else
      match read_4kib dr f (a + N.of_nat done) n (skipn done buf) with
      | None => None
      | Some b => read_loop fuel dr f a total (done + n) (firstn done buf ++ b)
      end
    else Some buf
  end.

(** flash.rs:73-108: the buffer afterwards, and the slice returned. *)
Definition flash_read (dr : driver) (f : flash) (a : N) (total : nat) (buf : list byte) : option (list byte * list byte) :=
  match read_loop (S total) dr f a total 0 buf with
  | None => None
  | Some b => if Nat.ltb (length b) (5 + total) then None else Some (b, firstn total (skipn 5 b))
  end.

(** flash.rs:130-152 *)
Fixpoint write_loop (fuel : nat) (dr : driver) (f : flash) (a : N) (total done : nat) (buf : list byte) : option (flash * list byte) :=
  match fuel with
  | O => None
  | S fuel =>
    if Nat.ltb done total then
      let n := if Nat.ltb page (total - done) then page else (total - done)%nat in
      if 2 ^ 32 <=? a + N.of_nat done then None else
      if Nat.ltb (length buf) done then None else
      match write_256b dr f (a + N.of_nat done) (skipn done buf) with
      | None => None
      | Some (f', b) => write_loop fuel dr f' a total (done + n) (firstn done buf ++ b)
      end
    else Some (f, buf)
  end.

(** flash.rs:111-153 *)
Definition flash_write (dr : driver) (f : flash) (a : N) (total : nat) (buf : list byte) : option (flash * list byte) :=
  write_loop (S total) dr f a total 0 buf.

(** ** The checksum of a stream (u8_crc.rs) *)

(** [fed] stands for the state of the checksum unit: the 32-bit words it was given since its reset. *)
Record u8crc := U8Crc { fed : list N; cbuf : list byte; cidx : nat }.

(** u8_crc.rs:17-24 *)
Definition crc_new : u8crc := U8Crc [] [0; 0; 0; 0] 0.

(** [buf[i..i+len].copy_from_slice(l)] *)
Definition blit (buf : list byte) (i : nat) (l : list byte) : list byte := firstn i buf ++ l ++ skipn (i + length l) buf.

(** u8_crc.rs:47-54: whole words, and what is left of the data *)
Fixpoint crc_words (ws : list N) (data : list byte) : list N * list byte :=
  match data with
  | b0 :: b1 :: b2 :: b3 :: rest => crc_words (ws ++ [of_be [b0; b1; b2; b3]]) rest
  | _ => (ws, data)
  end.

(** u8_crc.rs:30-63 *)
Definition crc_process (c : u8crc) (data : list byte) : u8crc :=
  let off := match cidx c with O => O | i => (4 - i)%nat end in
  if Nat.ltb (length data) off then U8Crc (fed c) (blit (cbuf c) (cidx c) data) (cidx c + length data)
  else
    let '(ws, cb, ix) := match off with
                         | O => (fed c, cbuf c, cidx c)
                         | _ => let cb := blit (cbuf c) (cidx c) (firstn off data) in (fed c ++ [of_be cb], cb, O)
                         end in
    let '(ws, rest) := crc_words ws (skipn off data) in
    match rest with
    | [] => U8Crc ws cb ix
    | _ => U8Crc ws (blit cb 0 rest) (length rest)
    end.

(** driver/crc.rs:20-40: [calculate] — the words of the data, the last one completed with 0xFF. *)
Definition calculate_words (data : list byte) : list N :=
  let '(ws, rest) := crc_words [] data in
  match rest with [] => ws | _ => ws ++ [of_be (rest ++ repeat 255 (4 - length rest))] end.

(** ** [FlashReader] (flash_io.rs:11-73) *)
Record reader := Reader { r_addr : N; r_crc : u8crc }.

(** flash_io.rs:26-37 *)
Definition reader_new (a : N) : reader := Reader a crc_new.

(** flash_io.rs:60-72: the slice read, the buffer and the reader afterwards *)
Definition read_slice (dr : driver) (f : flash) (r : reader) (buf : list byte) (n : nat) : option (reader * list byte * list byte) :=
  match flash_read dr f (r_addr r) n buf with
  | None => None
  | Some (b, _) =>
    if 2 ^ 32 <=? r_addr r + N.of_nat n then None else
    let got := firstn n (skipn 5 b) in
    Some (Reader (r_addr r + N.of_nat n) (crc_process (r_crc r) got), b, got)
  end.

(** ** [FlashWriter] (flash_io.rs:75-151) *)
Record writer := Writer { w_page : N; w_buf : list byte; w_off : nat; w_crc : u8crc }.

Definition blank : list byte := repeat 255 (5 + page).

(** flash_io.rs:92-101 *)
Definition writer_new (a : N) : writer := Writer a blank 5 crc_new.

(** flash_io.rs:107-115 *)
Definition writer_flush (dr : driver) (f : flash) (w : writer) : option (flash * writer) :=
  match write_256b dr f (w_page w) (w_buf w) with
  | None => None
  | Some (f', _) => if 2 ^ 32 <=? w_page w + 256 then None else Some (f', Writer (w_page w + 256) blank 5 (w_crc w))
  end.

(** flash_io.rs:128-148 *)
Fixpoint extend_loop (fuel : nat) (dr : driver) (f : flash) (w : writer) (slice : list byte) : option (flash * writer) :=
  match fuel with
  | O => None
  | S fuel =>
    match slice with
    | [] => Some (f, w)
    | _ =>
      let free := (length (w_buf w) - w_off w)%nat in
      if Nat.ltb (length slice) free
      then Some (f, Writer (w_page w) (blit (w_buf w) (w_off w) slice) (w_off w + length slice) (w_crc w))
      else match writer_flush dr f (Writer (w_page w) (blit (w_buf w) (w_off w) (firstn free slice)) (w_off w + free) (w_crc w)) with
           | None => None
           | Some (f', w') => extend_loop fuel dr f' w' (skipn free slice)
           end
    end
  end.

(** flash_io.rs:125-150 *)
Definition writer_extend (dr : driver) (f : flash) (w : writer) (slice : list byte) : option (flash * writer) :=
  extend_loop (S (length slice)) dr f (Writer (w_page w) (w_buf w) (w_off w) (crc_process (w_crc w) slice)) slice.

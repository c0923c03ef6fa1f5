(** * The small NMEA parser.

    Models tiny-nmea/src/lib.rs, common.rs, gll.rs, gsv.rs and message.rs.
    Simplification: a sentence is a list of ASCII codes (heapless::String<84>
    may also hold multi-byte characters, for which [2..5] may additionally
    panic); parsing and arithmetic of f32 are parameters of the model. *)
From Coq Require Import List Arith Bool Lia.
Import ListNotations.
Local Open Scope nat_scope.

Definition text := list nat.

Inductive outcome (A : Type) := Ok (a : A) | Err | Panics.
Arguments Ok {A} a. Arguments Err {A}. Arguments Panics {A}.
Definition bind {A B} (r : outcome A) (f : A -> outcome B) : outcome B :=
  match r with Ok a => f a | Err => Err | Panics => Panics end.
Notation "'try' x <- e ;; k" := (bind e (fun x => k)) (at level 200, x name, e at level 100, k at level 200, right associativity).
Definition or_err {A} (o : option A) : outcome A := match o with Some a => Ok a | None => Err end.

(** substring! (common.rs:4-20): skip, take; the target string is as long as
    the number of characters taken, so collecting never overflows *)
Definition substring (s : text) (start n : nat) : text := firstn n (skipn start s).

(** core::str::parse / from_str_radix for u8: optional '+', then digits *)
Definition digit_value (radix c : nat) : option nat :=
  let v := if (48 <=? c) && (c <=? 57) then Some (c - 48)
           else if (97 <=? c) && (c <=? 122) then Some (c - 87)
           else if (65 <=? c) && (c <=? 90) then Some (c - 55) else None in
  match v with Some d => if d <? radix then Some d else None | None => None end.
Fixpoint digits (radix acc : nat) (s : text) : option nat :=
  match s with
  | [] => Some acc
  | c :: s' =>
    match digit_value radix c with
    | Some d => let acc' := acc * radix + d in if acc' <? 256 then digits radix acc' s' else None
    | None => None
    end
  end.
Definition parse_u8 (radix : nat) (s : text) : option nat :=
  match s with
  | [] => None
  | [c] => if (c =? 43) || (c =? 45) then None else digits radix 0 s
  | 43 :: s' => digits radix 0 s'
  | _ => digits radix 0 s
  end.

(** validate (lib.rs:13-33) *)
Definition checksum (s : text) : nat := fold_left Nat.lxor (firstn (length s - 6) (skipn 1 s)) 0.
Definition validate (s : text) : outcome unit :=
  if length s <? 6 then Err else
  try expected <- or_err (parse_u8 16 (substring s (length s - 4) 2)) ;;
  if checksum s =? expected then Ok tt else Err.

(** sentence.split(|c| c == '$' || c == ',' || c == '*') *)
Definition separator (c : nat) : bool := (c =? 36) || (c =? 44) || (c =? 42).
Fixpoint split_fields (s : text) : list text :=
  match s with
  | [] => [[]]
  | c :: s' =>
    if separator c then [] :: split_fields s'
    else match split_fields s' with f :: fs => (c :: f) :: fs | [] => [[c]] end
  end.

(** fields[n]: panics beyond the end *)
Definition field (fields : list text) (n : nat) : outcome text :=
  match nth_error fields n with Some f => Ok f | None => Panics end.

Record time := Time { t_hour : nat; t_minute : nat; t_second : nat; t_millisecond : nat }.

(** parse_time (common.rs:22-33) *)
Definition parse_time (s : text) : outcome time :=
  try h <- or_err (parse_u8 10 (substring s 0 2)) ;;
  try m <- or_err (parse_u8 10 (substring s 2 2)) ;;
  try sec <- or_err (parse_u8 10 (substring s 4 2)) ;;
  try ms <- or_err (parse_u8 10 (substring s 7 2)) ;;
  Ok (Time h m sec ms).

Definition eq_text (a b : text) : bool := if list_eq_dec Nat.eq_dec a b then true else false.

Section WithFloats.
Variable F : Type.
Variable parse_f32 : text -> option F.       (* f32::from_str *)
Variable degrees : F -> F -> F.              (* degree + minute / 60.0 *)
Variable neg : F -> F.

Inductive message :=
| GLL (talker : text) (latitude longitude : F) (utc : time)
| GSV (talker : text) (satellites_visible : nat).

(** parse_gll (gll.rs:8-36) *)
Definition parse_gll (fields : list text) : outcome message :=
  try f1 <- field fields 1 ;;
  let talker := substring f1 0 2 in
  try f2 <- field fields 2 ;;
  try lat_degree <- or_err (parse_f32 (substring f2 0 2)) ;;
  try lat_minute <- or_err (parse_f32 (substring f2 2 10)) ;;
  let lat := degrees lat_degree lat_minute in
  try lat_direction <- field fields 3 ;;
  let lat := if eq_text lat_direction [83] then neg lat else lat in
  try f4 <- field fields 4 ;;
  try lon_degree <- or_err (parse_f32 (substring f4 0 3)) ;;
  try lon_minute <- or_err (parse_f32 (substring f4 3 10)) ;;
  let lon := degrees lon_degree lon_minute in
  try lon_direction <- field fields 5 ;;
  let lon := if eq_text lon_direction [87] then neg lon else lon in
  try f6 <- field fields 6 ;;
  try utc <- parse_time f6 ;;
  Ok (GLL talker lat lon utc).

(** parse_gsv (gsv.rs:7-14) *)
Definition parse_gsv (fields : list text) : outcome message :=
  try f1 <- field fields 1 ;;
  try f4 <- field fields 4 ;;
  try n <- or_err (parse_u8 10 f4) ;;
  Ok (GSV (substring f1 0 2) n).

(** parse (lib.rs:35-50): the fields are collected into a Vec of capacity 41,
    which panics on overflow *)
Definition parse (s : text) : outcome message :=
  try _ <- validate s ;;
  let fields := split_fields s in
  if 41 <? length fields then Panics else
  try f1 <- field fields 1 ;;
  if length f1 <? 5 then Err else
  let message_type := substring f1 2 3 in
  if eq_text message_type [71; 76; 76] then parse_gll fields
  else if eq_text message_type [71; 83; 86] then parse_gsv fields
  else Err.

(** NMEA (lib.rs:52-101) *)
Record nmea := NMEA { n_latitude : option F; n_longitude : option F; n_utc : option time; n_satellites : option nat }.
Definition new_nmea : nmea := NMEA None None None None.
Definition update (n : nmea) (s : text) : nmea * outcome unit :=
  match parse s with
  | Ok (GLL _ lat lon utc) => (NMEA (Some lat) (Some lon) (Some utc) (n_satellites n), Ok tt)
  | Ok (GSV _ v) => (NMEA (n_latitude n) (n_longitude n) (n_utc n) (Some v), Ok tt)
  | Err => (n, Err)
  | Panics => (n, Panics)
  end.
Definition has_fix (n : nmea) : bool :=
  match n_latitude n, n_longitude n with Some _, Some _ => true | _, _ => false end.
End WithFloats.
Arguments GLL {F}. Arguments GSV {F}. Arguments n_latitude {F}. Arguments n_longitude {F}. Arguments n_utc {F}. Arguments n_satellites {F}.
Arguments has_fix {F}.

(** * The sensor readings of the delta logs, in IEEE arithmetic.

    Models the Deltable instances of firmware-common/src/driver/{adc,barometer,
    imu,mag,gps}.rs and DeltaFactory/UnDeltaFactory
    (common/delta_logger/delta_factory.rs) over the floats of FloatFixed.v.
    Panics are explicit. *)
From Coq Require Import ZArith Bool List.
From Flocq Require Import Core BinarySingleNaN.
From Verif Require Import FloatFixed.
Import ListNotations.
Local Open Scope Z_scope.

(** a computation that may panic; [None] inside is the Rust None *)
Inductive res (A : Type) := RPanic | RNone | RSome (a : A).
Arguments RPanic {A}. Arguments RNone {A}. Arguments RSome {A}.
Definition bindR {A B} (x : res A) (k : A -> res B) : res B :=
  match x with RPanic => RPanic | RNone => RNone | RSome a => k a end.

(** the Rust [?]: the first None (or panic) ends the function *)
Local Notation "x <-? a ;; b" := (bindR a (fun x => b)) (at level 61, a at next level, right associativity).

(** the Deltable trait (delta_factory.rs:3-9) *)
Record deltableR (A X : Type) := DeltableR { sub : A -> A -> res X; add : A -> X -> res A }.
Arguments DeltableR {A X}. Arguments sub {A X}. Arguments add {A X}.

(** F::to_fixed_point(v)? *)
Definition enc {prec emax} {Hp : Prec_gt_0 prec} {He : Prec_lt_emax prec emax} (f : fx prec emax) (v : binary_float prec emax) : res Z :=
  match fx_encode f v with FxRejected => RNone | FxCode n => RSome n | FxPanic => RPanic end.

(** one f32 field: [F::to_fixed_point(self.x - other.x)?] and
    [self.x + F::to_float(delta.x)] (adc.rs:79-95 and the other sensors) *)
Definition scalarD (f : fx 24 128) : deltableR f32 Z :=
  DeltableR (fun v l => enc f (Bminus mode_NE v l)) (fun l n => RSome (Bplus mode_NE l (fx_decode f n))).

(** fields are evaluated in order; the first [?] that fails returns *)
Definition pairD {A B X Y} (d1 : deltableR A X) (d2 : deltableR B Y) : deltableR (A * B) (X * Y) :=
  DeltableR (fun v l => bindR (sub d1 (fst v) (fst l)) (fun x => bindR (sub d2 (snd v) (snd l)) (fun y => RSome (x, y))))
            (fun l d => bindR (add d1 (fst l) (fst d)) (fun a => bindR (add d2 (snd l) (snd d)) (fun b => RSome (a, b)))).

Definition tripleD {A X} (d : deltableR A X) := pairD d (pairD d d).

(** ADCData (adc.rs:79-95), BaroData (barometer.rs:64-82: temperature, pressure),
    IMUData (imu.rs:70-103: acc, gyro), MagData (mag.rs:62-84) *)
Definition adcD (value : fx 24 128) := scalarD value.
Definition baroD (temperature pressure : fx 24 128) := pairD (scalarD temperature) (scalarD pressure).
Definition imuD (acc gyro : fx 24 128) := pairD (tripleD (scalarD acc)) (tripleD (scalarD gyro)).
Definition magD (mag : fx 24 128) := tripleD (scalarD mag).

(** ** GPSData (gps.rs:18-27, 92-105, 148-232) *)
Record gps := Gps {
  g_time : option Z;                 (* i64 seconds *)
  g_latlon : option (f64 * f64);
  g_alt : option f32;
  g_sats : Z;                        (* u8 *)
  g_hdop : option f32; g_vdop : option f32; g_pdop : option f32
}.
Record gps_delta := GpsDelta { gd_time : Z; gd_lat : Z; gd_lon : Z; gd_alt : Z; gd_sats : Z; gd_hdop : Z; gd_vdop : Z; gd_pdop : Z }.

(** [x as f32] for an f64 x: to nearest, overflow to infinity *)
Definition narrow (x : f64) : f32 :=
  match x with
  | B754_zero s => B754_zero s
  | B754_infinity s => B754_infinity s
  | B754_nan => B754_nan
  | B754_finite s m e _ => binary_normalize 24 128 prec24 emax24 mode_NE (cond_Zopp s (Zpos m)) e s
  end.

Definition optR {A} (o : option A) : res A := match o with Some a => RSome a | None => RNone end.
Definition i64 (z : Z) : res Z := if (- 2 ^ 63 <=? z) && (z <? 2 ^ 63) then RSome z else RPanic.  (* overflow checks *)
Definition u8 (z : Z) : res Z := if (0 <=? z) && (z <? 256) then RSome z else RPanic.
(** [x as i8] for a u8 *)
Definition as_i8 (z : Z) : Z := if z <? 128 then z else z - 256.
Definition i8 (z : Z) : res Z := if (-128 <=? z) && (z <? 128) then RSome z else RPanic.

(** subtract (gps.rs:189-232) *)
Definition gps_sub (ll alt dop : fx 24 128) (v l : gps) : res gps_delta :=
  tv <-? optR (g_time v) ;; tl <-? optR (g_time l) ;; dt <-? i64 (tv - tl) ;;
  if 255 <? dt then RNone else
  ds <-? i8 (as_i8 (g_sats v) - as_i8 (g_sats l)) ;;
  sats <-? (if ds =? 0 then RSome 0 else if ds =? 1 then RSome 1 else if ds =? -1 then RSome 2 else if ds =? -2 then RSome 3 else RNone) ;;
  llv <-? optR (g_latlon v) ;; lll <-? optR (g_latlon l) ;;
  lat <-? enc ll (narrow (Bminus mode_NE (fst llv) (fst lll))) ;;
  lon <-? enc ll (narrow (Bminus mode_NE (snd llv) (snd lll))) ;;
  av <-? optR (g_alt v) ;; al <-? optR (g_alt l) ;; a <-? enc alt (Bminus mode_NE av al) ;;
  hv <-? optR (g_hdop v) ;; hl <-? optR (g_hdop l) ;; h <-? enc dop (Bminus mode_NE hv hl) ;;
  vv <-? optR (g_vdop v) ;; vl <-? optR (g_vdop l) ;; vd <-? enc dop (Bminus mode_NE vv vl) ;;
  pv <-? optR (g_pdop v) ;; pl <-? optR (g_pdop l) ;; p <-? enc dop (Bminus mode_NE pv pl) ;;
  RSome (GpsDelta (dt mod 256) lat lon a sats h vd p).

(** add_delta (gps.rs:148-187) *)
Definition gps_add (ll alt dop : fx 24 128) (l : gps) (d : gps_delta) : res gps :=
  sats <-? (if gd_sats d =? 0 then RSome (g_sats l) else if gd_sats d =? 1 then u8 (g_sats l + 1)
            else if gd_sats d =? 2 then RSome (if 1 <=? g_sats l then g_sats l - 1 else 0)
            else if gd_sats d =? 3 then RSome (if 2 <=? g_sats l then g_sats l - 2 else 0) else RPanic) ;;
  tl <-? optR (g_time l) ;; t <-? i64 (tl + gd_time d) ;;
  lll <-? optR (g_latlon l) ;; al <-? optR (g_alt l) ;;
  hl <-? optR (g_hdop l) ;; vl <-? optR (g_vdop l) ;; pl <-? optR (g_pdop l) ;;
  RSome (Gps (Some t)
    (Some (Bplus mode_NE (fst lll) (widen (fx_decode ll (gd_lat d))), Bplus mode_NE (snd lll) (widen (fx_decode ll (gd_lon d)))))
    (Some (Bplus mode_NE al (fx_decode alt (gd_alt d)))) sats
    (Some (Bplus mode_NE hl (fx_decode dop (gd_hdop d)))) (Some (Bplus mode_NE vl (fx_decode dop (gd_vdop d))))
    (Some (Bplus mode_NE pl (fx_decode dop (gd_pdop d))))).

Definition gpsD (ll alt dop : fx 24 128) : deltableR gps gps_delta := DeltableR (gps_sub ll alt dop) (gps_add ll alt dop).

(** ** DeltaFactory::push (delta_factory.rs:20-32): the entry to store and the
    new last value; [None] is a panic *)
Definition push {A X} (d : deltableR A X) (last : option A) (v : A) : option ((A + X) * option A) :=
  match last with
  | Some l =>
    match sub d v l with
    | RSome x => match add d l x with RSome r => Some (inr x, Some r) | _ => None end
    | RNone => Some (inl v, Some v)
    | RPanic => None
    end
  | None => Some (inl v, Some v)
  end.

(** UnDeltaFactory::push and push_delta (delta_factory.rs:52-69): the value
    returned and the new last value *)
Definition unpush {A X} (d : deltableR A X) (last : option A) (entry : A + X) : option (option A * option A) :=
  match entry with
  | inl v => Some (Some v, Some v)
  | inr x => match last with
             | Some l => match add d l x with RSome r => Some (Some r, Some r) | RNone => Some (None, None) | RPanic => None end
             | None => Some (None, None)
             end
  end.

(** a whole log: every value pushed in order, then every entry decoded in order *)
Fixpoint push_all {A X} (d : deltableR A X) (last : option A) (vs : list A) : option (list (A + X)) :=
  match vs with
  | [] => Some []
  | v :: vs => match push d last v with
               | Some (e, last) => option_map (cons e) (push_all d last vs)
               | None => None
               end
  end.
Fixpoint unpush_all {A X} (d : deltableR A X) (last : option A) (es : list (A + X)) : option (list (option A)) :=
  match es with
  | [] => Some []
  | e :: es => match unpush d last e with
               | Some (o, last) => option_map (cons o) (unpush_all d last es)
               | None => None
               end
  end.

(** * GPS input.

    Models firmware-common/src/driver/uart_gps.rs:25-57 (framing of the UART
    byte stream into sentences) and firmware-common/src/driver/gps.rs:92-219
    (delta compression of GPS readings). *)
From Coq Require Import List Arith Bool ZArith QArith Lia.
From Verif Require Import FixedPoint.
Import ListNotations.
Local Open Scope nat_scope.

(** ** uart_gps.rs: the receive loop *)

(** heapless::String<84>::push(buffer[i] as char).ok(): the byte is taken as a
    code point below 256 and encoded in UTF-8 (one byte, or two from 128 on);
    a string without room for it is left unchanged *)
Definition CAP : nat := 84.
Definition utf8 (b : nat) : list nat := if b <? 128 then [b] else [192 + b / 64; 128 + b mod 64].
Definition push (s : list nat) (b : nat) : list nat := if length s + length (utf8 b) <=? CAP then s ++ utf8 b else s.

(** one iteration of the for loop (uart_gps.rs:32-47): [b] = buffer[i],
    [rest] = buffer[i+1..length]; returns the sentences handed to the parser
    and the new contents of [sentence] *)
Definition byte_step (rest : list nat) (b : nat) (s : list nat) : list (list nat) * list nat :=
  let s1 := if b =? 36 then [] else s in
  let s2 := push s1 b in
  if (b =? 10) || (length s2 =? CAP) then ([s2], fold_left push rest []) else ([], s2).

(** one successful read (29-49) *)
Fixpoint feed (chunk : list nat) (s : list nat) : list (list nat) * list nat :=
  match chunk with
  | [] => ([], s)
  | b :: rest =>
    let '(o, s1) := byte_step rest b s in
    let '(os, s2) := feed rest s1 in (o ++ os, s2)
  end.

(** the run loop over successive reads (28-55); failed reads change nothing *)
Fixpoint uart_run (chunks : list (list nat)) (s : list nat) : list (list nat) * list nat :=
  match chunks with
  | [] => ([], s)
  | c :: cs =>
    let '(o, s1) := feed c s in
    let '(os, s2) := uart_run cs s1 in (o ++ os, s2)
  end.

(** ** gps.rs: GPSData and its delta *)
(** Simplification: floating-point fields are exact rationals (see
    FixedPoint); the f64 -> f32 cast of the latitude difference is exact. *)
Record gps_data := GPSData {
  g_time : option Z;             (* unix seconds, i64 *)
  g_lat_lon : option (Q * Q);
  g_alt : option Q;
  g_sats : Z;                    (* u8 *)
  g_hdop : option Q; g_vdop : option Q; g_pdop : option Q }.

Record gps_delta := GPSDelta {
  dl_time : Z; dl_lat : Z; dl_lon : Z; dl_alt : Z; dl_sats : Z; dl_hdop : Z; dl_vdop : Z; dl_pdop : Z }.

(** the factories (gps.rs:92-94) *)
Definition lat_lon_fac : factory := slope (1 # 100) 100 (5 # 1000000).
Definition altitude_fac : factory := slope 400 100 (1 # 2).
Definition dop_fac : factory := minmax 0 1 (1 # 10).

(** result of a Rust function that may panic *)
Inductive res (A : Type) := Ok (a : A) | Nothing | Panics.
Arguments Ok {A} a. Arguments Nothing {A}. Arguments Panics {A}.
Definition bind {A B} (r : res A) (f : A -> res B) : res B := match r with Ok a => f a | Nothing => Nothing | Panics => Panics end.
Notation "'do' x <- e ;; k" := (bind e (fun x => k)) (at level 200, x name, e at level 100, k at level 200, right associativity).
Definition need {A} (o : option A) : res A := match o with Some a => Ok a | None => Nothing end.
Definition fixed (f : factory) (q : Q) : res Z := match to_fixed_point f (Num q) with Code n => Ok n | Rejected => Nothing | Panic => Panics end.

(** u8 as i8 *)
Definition as_i8 (z : Z) : Z := if (z <? 128)%Z then z else (z - 256)%Z.

(** subtract (gps.rs:181-213); [checked] says whether overflow checks are on
    (debug builds), otherwise arithmetic wraps *)
Definition gps_subtract (checked : bool) (a b : gps_data) : res gps_delta :=
  do ta <- need (g_time a) ;; do tb <- need (g_time b) ;;
  let t := (ta - tb)%Z in
  if (255 <? t)%Z then Nothing else
  let d := (as_i8 (g_sats a) - as_i8 (g_sats b))%Z in
  let d8 := as_i8 (d mod 256)%Z in
  if checked && negb (Z.eqb d d8) then Panics else
  do ds <- (if (d8 =? 0)%Z then Ok 0%Z else if (d8 =? 1)%Z then Ok 1%Z else if (d8 =? -1)%Z then Ok 2%Z
            else if (d8 =? -2)%Z then Ok 3%Z else Nothing) ;;
  do lla <- need (g_lat_lon a) ;; do llb <- need (g_lat_lon b) ;;
  do dlat <- fixed lat_lon_fac (fst lla - fst llb) ;;
  do dlon <- fixed lat_lon_fac (snd lla - snd llb) ;;
  do aa <- need (g_alt a) ;; do ab <- need (g_alt b) ;; do dalt <- fixed altitude_fac (aa - ab) ;;
  do ha <- need (g_hdop a) ;; do hb <- need (g_hdop b) ;; do dh <- fixed dop_fac (ha - hb) ;;
  do va <- need (g_vdop a) ;; do vb <- need (g_vdop b) ;; do dv <- fixed dop_fac (va - vb) ;;
  do pa <- need (g_pdop a) ;; do pb <- need (g_pdop b) ;; do dp <- fixed dop_fac (pa - pb) ;;
  Ok (GPSDelta (t mod 256) dlat dlon dalt ds dh dv dp).

(** add_delta (gps.rs:147-179) *)
Definition gps_add (checked : bool) (b : gps_data) (d : gps_delta) : res gps_data :=
  do sats <- (match dl_sats d with
        | 0 => Ok (g_sats b)
        | 1 => if checked && (255 <=? g_sats b)%Z then Panics else Ok ((g_sats b + 1) mod 256)%Z
        | 2 => if (1 <=? g_sats b)%Z then Ok (g_sats b - 1)%Z else Ok 0%Z
        | 3 => if (2 <=? g_sats b)%Z then Ok (g_sats b - 2)%Z else Ok 0%Z
        | _ => Panics
        end%Z) ;;
  do tb <- need (g_time b) ;; do llb <- need (g_lat_lon b) ;; do ab <- need (g_alt b) ;;
  do hb <- need (g_hdop b) ;; do vb <- need (g_vdop b) ;; do pb <- need (g_pdop b) ;;
  Ok (GPSData (Some (tb + dl_time d)%Z)
        (Some (fst llb + to_float lat_lon_fac (dl_lat d), snd llb + to_float lat_lon_fac (dl_lon d))%Q)
        (Some (ab + to_float altitude_fac (dl_alt d))%Q) sats
        (Some (hb + to_float dop_fac (dl_hdop d))%Q)
        (Some (vb + to_float dop_fac (dl_vdop d))%Q)
        (Some (pb + to_float dop_fac (dl_pdop d))%Q)).

(** ** Framing invariant *)
Definition plain (b : nat) : Prop := b < 128 /\ b <> 36 /\ b <> 10.
Definition sentence (w : list nat) : Prop :=
  exists body, w = 36 :: body ++ [10] /\ Forall plain body /\ length w <= CAP.
Definition fragment (w : list nat) : Prop :=
  w = [] \/ exists body, w = 36 :: body /\ Forall plain body /\ length w < CAP.
Definition noisy (s : list nat) : Prop := hd 0 s <> 36.

(** [phase j s rem ss]: with [s] accumulated and [rem] still to come, the
    sentences still to be handed over are [ss]; [j] allows leading junk *)
Inductive phase : bool -> list nat -> list nat -> list (list nat) -> Prop :=
| ph_junk s junk ss tl : noisy s -> Forall (fun b => b <> 36) junk -> Forall sentence ss -> fragment tl ->
    phase true s (junk ++ concat ss ++ tl) ss
| ph_between j s ss tl : Forall sentence ss -> fragment tl -> phase j s (concat ss ++ tl) ss
| ph_inside j p q ss tl : p <> [] -> sentence (p ++ q) -> q <> [] -> Forall sentence ss -> fragment tl ->
    phase j p (q ++ concat ss ++ tl) ((p ++ q) :: ss)
| ph_tail j p q : p <> [] -> fragment (p ++ q) -> phase j p q [].

Lemma push_room s b : b < 128 -> length s < CAP -> push s b = s ++ [b].
Proof.
  intros B H. unfold push, utf8. rewrite (proj2 (Nat.ltb_lt b 128) B). cbn [length].
  destruct (Nat.leb_spec (length s + 1) CAP); [reflexivity|lia].
Qed.

Lemma push_nonempty s b : s <> [] -> push s b <> [].
Proof. intros H. unfold push. destruct (_ <=? CAP); [destruct s; [contradiction|discriminate]|exact H]. Qed.

Lemma push_hd s b : s <> [] -> hd 0 (push s b) = hd 0 s.
Proof. intros H. unfold push. destruct (_ <=? CAP); [|reflexivity]. destruct s; [contradiction|reflexivity]. Qed.

Lemma utf8_hd b : b <> 36 -> hd 0 (utf8 b) <> 36.
Proof. intros H. unfold utf8. destruct (b <? 128); [exact H|]. cbn [hd]. lia. Qed.

Lemma push_first b : push [] b = utf8 b.
Proof. unfold push, utf8. destruct (b <? 128); reflexivity. Qed.

Lemma fold_push_hd l s : s <> [] -> hd 0 (fold_left push l s) = hd 0 s.
Proof.
  revert s. induction l as [|b l IH]; intros s H; [reflexivity|]. cbn [fold_left].
  rewrite (IH _ (push_nonempty s b H)). apply push_hd, H.
Qed.

Lemma refill_hd b l : b <> 36 -> hd 0 (fold_left push (b :: l) []) <> 36.
Proof.
  intros H. cbn [fold_left]. rewrite push_first, fold_push_hd; [apply utf8_hd, H|].
  unfold utf8. destruct (b <? 128); discriminate.
Qed.

Lemma plain_split p q w : p ++ q = 36 :: w -> p <> [] -> exists p', p = 36 :: p' /\ p' ++ q = w.
Proof. intros H Hp. destruct p as [|x p]; [contradiction|]. cbn in H. injection H as -> H. exists p. split; [reflexivity|exact H]. Qed.

(** the first byte of a sentence stream *)
Lemma start_step j rest more s ss tl : rest ++ more = concat ss ++ tl -> Forall sentence ss -> fragment tl ->
  match rest with
  | [] => True
  | b :: rest' => exists s', byte_step rest' b s = ([], s') /\ phase j s' (rest' ++ more) ss
  end.
Proof.
  intros E F T. destruct rest as [|b rest]; [exact I|].
  assert (K : b = 36 -> byte_step rest b s = ([], [36])) by (intros ->; reflexivity).
  destruct ss as [|w ss].
  - cbn [concat] in E. destruct T as [->|(body & -> & HB & HL)]; [discriminate|].
    cbn in E. injection E as -> E. exists [36]. split; [apply K; reflexivity|]. rewrite E.
    apply ph_tail; [discriminate|]. right. exists body. split; [reflexivity|]. split; assumption.
  - inversion F as [|? ? W F']; subst. destruct W as (body & EW & HB & HL).
    assert (E' : b :: rest ++ more = (36 :: body ++ [10]) ++ concat ss ++ tl).
    { cbn [concat] in E. rewrite EW, <- !app_assoc in E. exact E. }
    cbn in E'. injection E' as -> E'. exists [36]. split; [apply K; reflexivity|]. rewrite E', EW, app_assoc.
    replace (((body ++ [10]) ++ concat ss) ++ tl) with ((body ++ [10]) ++ concat ss ++ tl) by (rewrite <- !app_assoc; reflexivity).
    change (36 :: body ++ [10]) with ([36] ++ (body ++ [10])).
    apply ph_inside; try assumption; try discriminate.
    + exists body. split; [reflexivity|]. split; [exact HB|]. rewrite EW in HL. exact HL.
    + destruct body; discriminate.
Qed.

Lemma step_phase j b rest more s ss : phase j s ((b :: rest) ++ more) ss ->
  exists j' pre ss1 s' ss', byte_step rest b s = (pre ++ ss1, s') /\
    ss = ss1 ++ ss' /\ Forall noisy pre /\ phase j' s' (rest ++ more) ss' /\
    (j = false -> pre = [] /\ j' = false) /\ (j' = true -> ss1 = []).
Proof.
  intros P.
  assert (ST : forall jj tl, (b :: rest) ++ more = concat ss ++ tl -> Forall sentence ss -> fragment tl ->
    exists j' pre ss1 s' ss', byte_step rest b s = (pre ++ ss1, s') /\
    ss = ss1 ++ ss' /\ Forall noisy pre /\ phase j' s' (rest ++ more) ss' /\
    (jj = false -> pre = [] /\ j' = false) /\ (j' = true -> ss1 = [])).
  { intros jj tl E F T. destruct (start_step false (b :: rest) more s ss tl E F T) as (s' & ES & PH).
    exists false, [], [], s', ss. split; [exact ES|]. split; [reflexivity|]. split; [constructor|].
    split; [exact PH|]. split; [intros _; split; reflexivity|intros H; discriminate]. }
  remember ((b :: rest) ++ more) as rem eqn:ER. destruct P as [s junk ss tl N J F T|j s ss tl F T|j p q ss tl HP W HQ F T|j p q HP W].
  - destruct junk as [|x junk].
    + destruct (ST true tl eq_refl F T) as (a1 & a2 & a3 & a4 & a5 & r1 & r2 & r3 & r4 & r5 & r7). exists a1, a2, a3, a4, a5.
      split; [exact r1|]. split; [exact r2|]. split; [exact r3|]. split; [exact r4|]. split; [intros; discriminate|exact r7].
    + cbn in ER. injection ER as -> ER. inversion J as [|? ? J0 J']; subst.
      unfold byte_step. destruct (Nat.eqb_spec b 36) as [|NB]; [contradiction|].
      assert (NS : noisy (push s b)).
      { unfold noisy. destruct s as [|z s0]; [rewrite push_first; apply utf8_hd, NB|]. rewrite push_hd by discriminate. exact N. }
      destruct ((b =? 10) || (length (push s b) =? CAP)).
      * assert (PH : phase true (fold_left push rest []) (rest ++ more) ss).
        { rewrite <- ER. destruct rest as [|r rest'].
          - cbn. apply ph_junk; try assumption. unfold noisy. cbn. discriminate.
          - destruct junk as [|y junk].
            + apply ph_between; assumption.
            + apply ph_junk; try assumption. unfold noisy. apply refill_hd. cbn in ER. injection ER as -> _. inversion J'; subst; assumption. }
        exists true, [push s b], [], (fold_left push rest []), ss. split; [reflexivity|]. split; [reflexivity|].
        split; [constructor; [exact NS|constructor]|]. split; [exact PH|]. split; [discriminate|reflexivity].
      * exists true, [], [], (push s b), ss. split; [reflexivity|]. split; [reflexivity|]. split; [constructor|].
        split; [rewrite <- ER; apply ph_junk; assumption|]. split; [discriminate|reflexivity].
  - apply (ST j tl); [reflexivity|exact F|exact T].
  - clear ST. destruct q as [|x q]; [contradiction|]. cbn in ER. injection ER as -> ER.
    destruct W as (body & EW & HB & HL). destruct (plain_split p (b :: q) (body ++ [10]) EW HP) as (p' & -> & EB).
    assert (LL : length (36 :: p') + length (b :: q) <= CAP) by (rewrite <- app_length; exact HL).
    assert (PU : b < 128 -> push (36 :: p') b = (36 :: p') ++ [b]) by (intros; apply push_room; [assumption|]; cbn [length] in LL |- *; lia).
    destruct q as [|y q].
    + (* last byte *)
      apply app_inj_tail in EB. destruct EB as [-> ->]. cbn in ER.
      exists false, [], [(36 :: body) ++ [10]], (fold_left push rest []), ss. unfold byte_step. cbn [Nat.eqb orb]. rewrite PU by (apply Nat.ltb_lt; reflexivity).
      split; [reflexivity|]. split; [reflexivity|]. split; [constructor|].
      split; [rewrite <- ER; apply ph_between; assumption|]. split; [intros _; split; reflexivity|discriminate].
    + assert (PB : plain b).
      { assert (IN : In b body).
        { destruct (exists_last (l := y :: q)) as (q0 & z & EQ); [discriminate|]. rewrite EQ in EB.
          change (p' ++ b :: q0 ++ [z]) with (p' ++ (b :: q0) ++ [z]) in EB. rewrite app_assoc in EB. apply app_inj_tail in EB. destruct EB as [<- _].
          apply in_or_app. right. left. reflexivity. }
        rewrite Forall_forall in HB. apply HB, IN. }
      destruct PB as (B0 & B1 & B2). specialize (PU B0). unfold byte_step. rewrite (proj2 (Nat.eqb_neq b 36) B1), (proj2 (Nat.eqb_neq b 10) B2), PU. cbn [orb].
      assert (NC : (length ((36 :: p') ++ [b]) =? CAP) = false).
      { apply Nat.eqb_neq. rewrite app_length. cbn [length] in LL |- *. lia. }
      rewrite NC. exists j, [], [], ((36 :: p') ++ [b]), (((36 :: p') ++ b :: y :: q) :: ss).
      split; [reflexivity|]. split; [reflexivity|]. split; [constructor|].
      split.
      * rewrite <- ER. replace ((36 :: p') ++ b :: y :: q) with (((36 :: p') ++ [b]) ++ y :: q) by (rewrite <- app_assoc; reflexivity).
        apply ph_inside; try assumption; try discriminate.
        exists body. rewrite <- app_assoc. cbn [app]. split; [rewrite <- EB; reflexivity|]. split; [exact HB|exact HL].
      * split; [intros ->; split; reflexivity|reflexivity].
  - clear ST. destruct W as [W|(body & EW & HB & HL)]; [destruct p; [contradiction|discriminate]|].
    destruct (plain_split p q body EW HP) as (p' & -> & EB). subst q. cbn in EB.
    assert (PB : plain b).
    { rewrite Forall_forall in HB. apply HB. rewrite <- EB. apply in_or_app. right. left. reflexivity. }
    destruct PB as (B0 & B1 & B2).
    assert (LL : length ((36 :: p') ++ (b :: rest ++ more)) < CAP) by exact HL.
    rewrite app_length in LL. cbn [length] in LL. rewrite app_length in LL.
    assert (PU : push (36 :: p') b = (36 :: p') ++ [b]) by (apply push_room; [exact B0|]; cbn [length]; lia).
    unfold byte_step. rewrite (proj2 (Nat.eqb_neq b 36) B1), (proj2 (Nat.eqb_neq b 10) B2), PU. cbn [orb].
    assert (NC : (length ((36 :: p') ++ [b]) =? CAP) = false) by (apply Nat.eqb_neq; rewrite app_length; cbn [length]; lia).
    rewrite NC. exists j, [], [], ((36 :: p') ++ [b]), []. split; [reflexivity|]. split; [reflexivity|]. split; [constructor|].
    split.
    + apply ph_tail; [discriminate|]. right. exists body. rewrite <- app_assoc. cbn [app]. split; [rewrite <- EB; reflexivity|]. split; [exact HB|exact HL].
    + split; [intros ->; split; reflexivity|reflexivity].
Qed.

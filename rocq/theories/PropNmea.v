(** * Property C60: NMEA sentences are accepted only with a matching checksum. *)
From Coq Require Import List Arith Bool Lia QArith ZArith.
From Verif Require Import Nmea.
Import ListNotations.
Local Open Scope nat_scope.

(** ** Specification *)
(** XOR of all the bytes *)
Fixpoint xor_all (l : list nat) : nat := match l with [] => 0 | b :: l' => Nat.lxor b (xor_all l') end.

(** value of a hexadecimal digit character *)
Definition hex (c : nat) (v : nat) : Prop :=
  (48 <= c <= 57 /\ v = c - 48) \/ (65 <= c <= 70 /\ v = c - 55) \/ (97 <= c <= 102 /\ v = c - 87).

(** the two checksum characters denote [v]: two hex digits (or, as Rust's
    number parser allows, a plus sign and one) *)
Definition checksum_field (h1 h2 v : nat) : Prop :=
  (exists a b, hex h1 a /\ hex h2 b /\ v = 16 * a + b) \/ (h1 = 43 /\ hex h2 v).

Lemma fold_xor l a : fold_left Nat.lxor l a = Nat.lxor a (xor_all l).
Proof.
  revert a. induction l as [|b l IH]; intros a; cbn [fold_left xor_all]; [symmetry; apply Nat.lxor_0_r|].
  rewrite IH. apply Nat.lxor_assoc.
Qed.

Lemma digit_hex c d : digit_value 16 c = Some d -> hex c d /\ d < 16.
Proof.
  unfold digit_value, hex.
  destruct (Nat.leb_spec 48 c), (Nat.leb_spec c 57); cbn [andb];
  destruct (Nat.leb_spec 97 c), (Nat.leb_spec c 122); cbn [andb];
  destruct (Nat.leb_spec 65 c), (Nat.leb_spec c 90); cbn [andb];
  try discriminate;
  match goal with |- (if ?x <? 16 then _ else _) = _ -> _ => destruct (Nat.ltb_spec x 16); [|discriminate] end;
  intros E; injection E as <-; lia.
Qed.

Lemma parse_two h1 h2 v : parse_u8 16 [h1; h2] = Some v -> checksum_field h1 h2 v.
Proof.
  assert (G : digits 16 0 [h1; h2] = Some v -> checksum_field h1 h2 v).
  { cbn [digits]. destruct (digit_value 16 h1) as [a|] eqn:E1; [|discriminate]. destruct (0 * 16 + a <? 256); [|discriminate].
    destruct (digit_value 16 h2) as [b|] eqn:E2; [|discriminate]. destruct ((0 * 16 + a) * 16 + b <? 256); [|discriminate].
    intros E. injection E as <-. left. exists a, b. split; [apply digit_hex, E1|]. split; [apply digit_hex, E2|lia]. }
  destruct (Nat.eq_dec h1 43) as [->|N].
  - intros E. cbn [parse_u8 digits] in E. destruct (digit_value 16 h2) as [b|] eqn:E2; [|discriminate].
    destruct (0 * 16 + b <? 256); [|discriminate]. injection E as <-. right. split; [reflexivity|]. apply digit_hex in E2. cbn [Nat.mul Nat.add]. apply E2.
  - intros E. apply G. unfold parse_u8 in E.
    do 43 (destruct h1 as [|h1]; [exact E|]). destruct h1 as [|h1]; [contradiction|exact E].
Qed.

Section Floats.
Variable F : Type.
Variable parse_f32 : text -> option F.
Variable degrees : F -> F -> F.
Variable neg : F -> F.
Notation parse := (parse F parse_f32 degrees neg).
Notation update := (update F parse_f32 degrees neg).
Notation new_nmea := (new_nmea F).

(** C60, first half: a message is returned only for a sentence
    [start] [body] [sep] [two checksum characters] [two end characters]
    whose checksum field denotes the XOR of the body's bytes. *)
Theorem C60_checksum_partial : forall s m, parse s = Ok m ->
  exists start body sep h1 h2 e1 e2, s = start :: body ++ [sep; h1; h2; e1; e2] /\
    checksum_field h1 h2 (xor_all body).
Proof.
  intros s m H. unfold parse, Nmea.parse in H. destruct (validate s) as [[]| |] eqn:V; try discriminate. clear H.
  unfold validate in V. destruct (Nat.ltb_spec (length s) 6) as [|L]; [discriminate|].
  destruct s as [|start s]; [cbn in L; lia|]. cbn [length] in L.
  assert (SP : exists body t, s = body ++ t /\ length t = 5).
  { exists (firstn (length s - 5) s), (skipn (length s - 5) s). split; [symmetry; apply firstn_skipn|]. rewrite skipn_length. lia. }
  destruct SP as (body & t & -> & LT). do 5 (destruct t as [|? t]; [discriminate|]). destruct t; [|discriminate].
  exists start, body, n, n0, n1, n2, n3. split; [reflexivity|].
  assert (L1 : length (start :: body ++ [n; n0; n1; n2; n3]) - 6 = length body) by (cbn [length]; rewrite app_length; cbn [length]; lia).
  assert (SUB : substring (start :: body ++ [n; n0; n1; n2; n3]) (length (start :: body ++ [n; n0; n1; n2; n3]) - 4) 2 = [n0; n1]).
  { unfold substring. replace (length (start :: body ++ [n; n0; n1; n2; n3]) - 4) with (S (length body + 1)) by (cbn [length]; rewrite app_length; cbn [length]; lia).
    cbn [skipn]. rewrite skipn_app, skipn_all2 by lia. replace (length body + 1 - length body) with 1 by lia. reflexivity. }
  rewrite SUB in V. destruct (parse_u8 16 [n0; n1]) as [v|] eqn:P; [|discriminate]. cbn [or_err bind] in V.
  destruct (Nat.eqb_spec (checksum (start :: body ++ [n; n0; n1; n2; n3])) v) as [E|]; [|discriminate].
  unfold checksum in E. rewrite L1 in E. cbn [skipn] in E. rewrite firstn_app, firstn_all2, Nat.sub_diag in E by lia. cbn [firstn] in E.
  rewrite app_nil_r, fold_xor, Nat.lxor_0_l in E. rewrite E. apply parse_two, P.
Qed.

(** C60, second half, for sentences with enough fields: between one and forty
    separators ('$', ',' or '*'), and at least six of them in a GLL sentence
    and four in a GSV sentence.  Then parsing never panics. *)
Definition separators (s : text) : nat := length (filter separator s).
Definition kind (s : text) : text := match split_fields s with _ :: f :: _ => substring f 2 3 | _ => [] end.

Lemma split_length s : length (split_fields s) = S (separators s).
Proof.
  induction s as [|c s IH]; [reflexivity|]. unfold separators in *. cbn [split_fields filter]. destruct (separator c); cbn [length]; [rewrite IH; reflexivity|].
  destruct (split_fields s) as [|f fs]; [discriminate|]. cbn [length] in *. exact IH.
Qed.

Lemma field_ok l n : n < length l -> exists f, field l n = Ok f.
Proof. intros H. unfold field. destruct (nth_error l n) eqn:E; [eexists; reflexivity|]. apply nth_error_None in E. lia. Qed.

Lemma or_err_np {A B} (o : option A) (k : A -> outcome B) : (forall a, k a <> Panics) -> bind (or_err o) k <> Panics.
Proof. intros H. destruct o; cbn; [apply H|discriminate]. Qed.

Lemma parse_time_np s : parse_time s <> Panics.
Proof. unfold parse_time. do 4 (apply or_err_np; intros ?). discriminate. Qed.

Theorem C60_no_panic_partial : forall s,
  1 <= separators s <= 40 ->
  (kind s = [71; 76; 76] -> 6 <= separators s) ->
  (kind s = [71; 83; 86] -> 4 <= separators s) ->
  parse s <> Panics.
Proof.
  intros s [H1 H40] HG HS. unfold parse, Nmea.parse.
  destruct (validate s) as [[]| |] eqn:V; cbn [bind]; [|discriminate|].
  2:{ unfold validate in V. destruct (length s <? 6); [discriminate|]. exfalso. revert V. apply or_err_np. intros a. destruct (checksum s =? a); discriminate. }
  rewrite split_length. destruct (Nat.ltb_spec 41 (S (separators s))); [lia|].
  assert (FLD : forall n, n <= separators s -> exists f, field (split_fields s) n = Ok f) by (intros n Hn; apply field_ok; rewrite split_length; lia).
  destruct (FLD 1 H1) as (f1 & E1). rewrite E1. cbn [bind]. destruct (length f1 <? 5); [discriminate|].
  assert (K : kind s = substring f1 2 3).
  { unfold kind. unfold field in E1. destruct (split_fields s) as [|f0 [|f fs]]; try discriminate. cbn in E1. injection E1 as ->. reflexivity. }
  unfold eq_text. destruct (list_eq_dec Nat.eq_dec (substring f1 2 3) [71; 76; 76]) as [G|_].
  - rewrite <- K in G. specialize (HG G). unfold parse_gll. rewrite E1. cbn [bind].
    destruct (FLD 2 ltac:(lia)) as (f2 & E2). rewrite E2. cbn [bind].
    apply or_err_np; intros x1. apply or_err_np; intros x2.
    destruct (FLD 3 ltac:(lia)) as (f3 & E3). rewrite E3. cbn [bind].
    destruct (FLD 4 ltac:(lia)) as (f4 & E4). rewrite E4. cbn [bind].
    apply or_err_np; intros x3. apply or_err_np; intros x4.
    destruct (FLD 5 ltac:(lia)) as (f5 & E5). rewrite E5. cbn [bind].
    destruct (FLD 6 ltac:(lia)) as (f6 & E6). rewrite E6. cbn [bind].
    pose proof (parse_time_np f6) as NP. destruct (parse_time f6); cbn [bind]; try discriminate. contradiction.
  - destruct (list_eq_dec Nat.eq_dec (substring f1 2 3) [71; 83; 86]) as [G|_]; [|discriminate].
    rewrite <- K in G. specialize (HS G). unfold parse_gsv. rewrite E1. cbn [bind].
    destruct (FLD 4 ltac:(lia)) as (f4 & E4). rewrite E4. cbn [bind]. apply or_err_np. discriminate.
Qed.

(** rejected sentences leave the receiver's state alone; a fix, once there, stays; and there is a
    fix only if a GLL sentence was accepted *)
Theorem C60_update : forall n s,
  (fst (update n s) <> n -> exists m, parse s = Ok m) /\
  (has_fix n = true -> has_fix (fst (update n s)) = true) /\
  (has_fix n = false -> has_fix (fst (update n s)) = true -> exists t la lo u, parse s = Ok (GLL t la lo u)).
Proof.
  intros n s. unfold update, Nmea.update. fold (parse s). change (Nmea.parse F parse_f32 degrees neg s) with (parse s).
  destruct (parse s) as [[t la lo u|t v]| |]; cbn [fst].
  - split; [intros _; eexists; reflexivity|]. split; [reflexivity|]. intros _ _. exists t, la, lo, u. reflexivity.
  - split; [intros _; eexists; reflexivity|]. unfold has_fix. cbn [n_latitude n_longitude]. split; [intros H; exact H|]. intros H1 H2. congruence.
  - split; [intros H; contradiction|]. split; [intros H; exact H|]. intros H1 H2. congruence.
  - split; [intros H; contradiction|]. split; [intros H; exact H|]. intros H1 H2. congruence.
Qed.

(** *** What an accepted sentence means *)
(** two decimal digits *)
Definition dec2 (v : nat) : text := [48 + v / 10; 48 + v mod 10].
Definition plain (f : text) : Prop := forall c, In c f -> c <> 36 /\ c <> 44 /\ c <> 42.
(** "$" body "*" checksum CR LF *)
Definition framed (body : text) (h1 h2 : nat) : text := 36 :: body ++ [42; h1; h2; 13; 10].
(** "ttGLL,ddmm.mm,N,dddmm.mm,E,hhmmss.cc,..." *)
Definition gll_body (talker latd latm : text) (ns : nat) (lond lonm : text) (ew : nat) (h m s cs : nat) (more rest : text) : text :=
  talker ++ [71; 76; 76] ++ 44 :: (latd ++ latm) ++ 44 :: [ns] ++ 44 :: (lond ++ lonm) ++ 44 :: [ew] ++ 44 ::
  (dec2 h ++ dec2 m ++ dec2 s ++ 46 :: dec2 cs ++ more) ++ 44 :: rest.
(** "ttGSV,a,b,nn,..." *)
Definition gsv_body (talker a b : text) (n : nat) (rest : text) : text :=
  talker ++ [71; 83; 86] ++ 44 :: a ++ 44 :: b ++ 44 :: dec2 n ++ 44 :: rest.

Lemma plain_sep f c : plain f -> In c f -> separator c = false.
Proof.
  intros P H. destruct (P c H) as (A & B & C). unfold separator.
  apply Nat.eqb_neq in A, B, C. rewrite A, B, C. reflexivity.
Qed.
Lemma split_app f c r : plain f -> separator c = true -> split_fields (f ++ c :: r) = f :: split_fields r.
Proof.
  intros P S. induction f as [|x f IH]; cbn [app split_fields]; [now rewrite S|].
  rewrite (plain_sep (x :: f) x P) by (now left). rewrite IH; [reflexivity|]. intros y Hy. apply P. now right.
Qed.
Lemma plain_app f g : plain f -> plain g -> plain (f ++ g).
Proof. intros A B c H. apply in_app_or in H. destruct H; auto. Qed.
Lemma plain_cons c g : c <> 36 -> c <> 44 -> c <> 42 -> plain g -> plain (c :: g).
Proof. intros A B C P x [<-|H]; auto. Qed.
Lemma plain_nil : plain [].
Proof. intros c []. Qed.
Lemma plain_dec2 v : plain (dec2 v).
Proof. unfold dec2. pose proof (Nat.mod_upper_bound v 10 ltac:(lia)). repeat apply plain_cons; try lia; apply plain_nil. Qed.

Lemma digit_dec d : d < 10 -> digit_value 10 (48 + d) = Some d.
Proof. intros H. do 10 (destruct d as [|d]; [reflexivity|]). lia. Qed.
Lemma parse_dec2 v : v < 100 -> parse_u8 10 (dec2 v) = Some v.
Proof.
  intros H. pose proof (Nat.div_mod v 10 ltac:(lia)) as E. pose proof (Nat.mod_upper_bound v 10 ltac:(lia)).
  assert (v / 10 < 10) by (apply Nat.div_lt_upper_bound; lia).
  unfold dec2. set (a := v / 10) in *. set (b := v mod 10) in *.
  assert (D : digits 10 0 [48 + a; 48 + b] = Some v).
  { cbn [digits]. rewrite (digit_dec a) by assumption. rewrite (digit_dec b) by assumption.
    destruct (Nat.ltb_spec (0 * 10 + a) 256); [|lia]. destruct (Nat.ltb_spec ((0 * 10 + a) * 10 + b) 256); [|lia].
    f_equal. lia. }
  rewrite <- D. unfold parse_u8. do 10 (destruct a as [|a]; [reflexivity|]). lia.
Qed.

Lemma hex_digit c d : hex c d -> digit_value 16 c = Some d /\ d < 16.
Proof.
  intros [[H ->]|[[H ->]|[H ->]]]; unfold digit_value.
  - destruct (Nat.leb_spec 48 c), (Nat.leb_spec c 57); try lia. cbn [andb]. destruct (Nat.ltb_spec (c - 48) 16); [split; [reflexivity|lia]|lia].
  - destruct (Nat.leb_spec 48 c), (Nat.leb_spec c 57), (Nat.leb_spec 97 c), (Nat.leb_spec c 122), (Nat.leb_spec 65 c), (Nat.leb_spec c 90); try lia.
    cbn [andb]. destruct (Nat.ltb_spec (c - 55) 16); [split; [reflexivity|lia]|lia].
  - destruct (Nat.leb_spec 48 c), (Nat.leb_spec c 57), (Nat.leb_spec 97 c), (Nat.leb_spec c 122); try lia.
    cbn [andb]. destruct (Nat.ltb_spec (c - 87) 16); [split; [reflexivity|lia]|lia].
Qed.
Lemma parse_two_conv h1 h2 a b : hex h1 a -> hex h2 b -> parse_u8 16 [h1; h2] = Some (16 * a + b).
Proof.
  intros A B. assert (h1 <> 43) by (destruct A as [[? _]|[[? _]|[? _]]]; lia).
  destruct (hex_digit _ _ A) as [EA LA]. destruct (hex_digit _ _ B) as [EB LB].
  assert (D : digits 16 0 [h1; h2] = Some (16 * a + b)).
  { cbn [digits]. rewrite EA. destruct (Nat.ltb_spec (0 * 16 + a) 256); [|lia]. rewrite EB.
    destruct (Nat.ltb_spec ((0 * 16 + a) * 16 + b) 256); [|lia]. f_equal. lia. }
  rewrite <- D. unfold parse_u8. clear - H. do 43 (destruct h1 as [|h1]; [reflexivity|]). destruct h1; [contradiction|reflexivity].
Qed.

Lemma validate_framed body h1 h2 a b : hex h1 a -> hex h2 b -> 16 * a + b = xor_all body -> validate (framed body h1 h2) = Ok tt.
Proof.
  intros A B X. unfold validate, framed.
  assert (L : length (36 :: body ++ [42; h1; h2; 13; 10]) = length body + 6) by (cbn [length]; rewrite app_length; cbn [length]; lia).
  rewrite L. destruct (Nat.ltb_spec (length body + 6) 6); [lia|].
  assert (SUB : substring (36 :: body ++ [42; h1; h2; 13; 10]) (length body + 6 - 4) 2 = [h1; h2]).
  { unfold substring. replace (length body + 6 - 4) with (S (length body + 1)) by lia.
    cbn [skipn]. rewrite skipn_app, skipn_all2 by lia. replace (length body + 1 - length body) with 1 by lia. reflexivity. }
  rewrite SUB, (parse_two_conv _ _ _ _ A B). cbn [or_err bind]. rewrite X.
  unfold checksum. rewrite L. replace (length body + 6 - 6) with (length body) by lia. cbn [skipn].
  rewrite firstn_app, firstn_all2, Nat.sub_diag by lia. cbn [firstn]. rewrite app_nil_r, fold_xor, Nat.lxor_0_l, Nat.eqb_refl. reflexivity.
Qed.

Lemma substring_l f g n : length f = n -> substring (f ++ g) 0 n = f.
Proof. intros <-. unfold substring. cbn [skipn]. rewrite firstn_app, Nat.sub_diag, firstn_all. cbn [firstn]. apply app_nil_r. Qed.
Lemma substring_r f g n k : length f = n -> length g <= k -> substring (f ++ g) n k = g.
Proof. intros <- H. unfold substring. rewrite skipn_app, skipn_all, Nat.sub_diag. cbn [skipn app]. now apply firstn_all2. Qed.

(** C60: a GLL sentence with a matching checksum is accepted, and what it says becomes the receiver's state: the
    latitude (negated exactly for "S"), the longitude (negated exactly for "W") and the time; the satellite count stays. *)
Theorem C60_gll_contents : forall n talker latd latm ns lond lonm ew h m s cs more rest h1 h2 a b la lam lo lom,
  let body := gll_body talker latd latm ns lond lonm ew h m s cs more rest in
  plain talker -> length talker = 2 -> plain latd -> length latd = 2 -> plain latm -> length latm <= 10 ->
  plain [ns] -> plain lond -> length lond = 3 -> plain lonm -> length lonm <= 10 -> plain [ew] ->
  h < 100 -> m < 100 -> s < 100 -> cs < 100 -> plain more ->
  hex h1 a -> hex h2 b -> 16 * a + b = xor_all body ->
  separators (framed body h1 h2) <= 40 ->
  parse_f32 latd = Some la -> parse_f32 latm = Some lam -> parse_f32 lond = Some lo -> parse_f32 lonm = Some lom ->
  update n (framed body h1 h2) =
    (NMEA F (Some (if ns =? 83 then neg (degrees la lam) else degrees la lam))
            (Some (if ew =? 87 then neg (degrees lo lom) else degrees lo lom))
            (Some (Time h m s cs)) (n_satellites n), Ok tt).
Proof.
  intros n talker latd latm ns lond lonm ew h m s cs more rest h1 h2 a b la lam lo lom body Pt Lt Pld Lld Plm Llm Pns Pod Lod Pom Lom Pew Hh Hm Hs Hc Pmo A B X S40 Ela Elam Elo Elom.
  assert (SP : split_fields (framed body h1 h2) =
     [] :: (talker ++ [71; 76; 76]) :: (latd ++ latm) :: [ns] :: (lond ++ lonm) :: [ew] :: (dec2 h ++ dec2 m ++ dec2 s ++ 46 :: dec2 cs ++ more) ::
     split_fields (rest ++ [42; h1; h2; 13; 10])).
  { unfold framed, body, gll_body. change (split_fields (36 :: ?l)) with ([] :: split_fields l). f_equal.
    match goal with |- split_fields ?l = _ => replace l with ((talker ++ [71; 76; 76]) ++ 44 :: (latd ++ latm) ++ 44 :: [ns] ++ 44 :: (lond ++ lonm) ++ 44 :: [ew] ++ 44 ::
      (dec2 h ++ dec2 m ++ dec2 s ++ 46 :: dec2 cs ++ more) ++ 44 :: rest ++ [42; h1; h2; 13; 10]) by (repeat (rewrite <- ?app_assoc; cbn [app]); reflexivity) end.
    rewrite split_app; [f_equal| |reflexivity]; [|apply plain_app; [exact Pt|repeat apply plain_cons; try lia; apply plain_nil]].
    rewrite split_app; [f_equal| |reflexivity]; [|now apply plain_app].
    rewrite split_app; [f_equal| |reflexivity]; [|exact Pns].
    rewrite split_app; [f_equal| |reflexivity]; [|now apply plain_app].
    rewrite split_app; [f_equal| |reflexivity]; [|exact Pew].
    rewrite split_app; [reflexivity| |reflexivity].
    repeat first [apply plain_app|apply plain_dec2|exact Pmo|apply plain_cons; [lia|lia|lia|]]. }
  unfold update, Nmea.update, Nmea.parse. rewrite (validate_framed _ _ _ _ _ A B X). cbn [bind].
  rewrite split_length. destruct (Nat.ltb_spec 41 (S (separators (framed body h1 h2)))); [lia|].
  rewrite SP. unfold field at 1. cbn [nth_error bind].
  destruct (Nat.ltb_spec (length (talker ++ [71; 76; 76])) 5) as [Q|_]; [rewrite app_length in Q; cbn [length] in Q; lia|].
  rewrite (substring_r talker [71; 76; 76] 2 3 Lt) by (cbn [length]; lia).
  unfold eq_text at 1. destruct (list_eq_dec Nat.eq_dec [71; 76; 76] [71; 76; 76]) as [_|N]; [|contradiction].
  unfold parse_gll, field. cbn [nth_error bind].
  rewrite (substring_l latd latm 2 Lld), (substring_r latd latm 2 10 Lld Llm), Ela, Elam. cbn [or_err bind].
  rewrite (substring_l lond lonm 3 Lod), (substring_r lond lonm 3 10 Lod Lom), Elo, Elom. cbn [or_err bind].
  assert (T : parse_time (dec2 h ++ dec2 m ++ dec2 s ++ 46 :: dec2 cs ++ more) = Ok (Time h m s cs)).
  { unfold parse_time.
    change (substring (dec2 h ++ dec2 m ++ dec2 s ++ 46 :: dec2 cs ++ more) 0 2) with (dec2 h).
    change (substring (dec2 h ++ dec2 m ++ dec2 s ++ 46 :: dec2 cs ++ more) 2 2) with (dec2 m).
    change (substring (dec2 h ++ dec2 m ++ dec2 s ++ 46 :: dec2 cs ++ more) 4 2) with (dec2 s).
    change (substring (dec2 h ++ dec2 m ++ dec2 s ++ 46 :: dec2 cs ++ more) 7 2) with (dec2 cs).
    rewrite !parse_dec2 by assumption. reflexivity. }
  rewrite T. cbn [bind].
  assert (E1 : forall x c, eq_text [x] [c] = (x =? c)).
  { intros x c. unfold eq_text. destruct (list_eq_dec Nat.eq_dec [x] [c]) as [E|E]; destruct (Nat.eqb_spec x c); congruence. }
  rewrite !E1. reflexivity.
Qed.

(** and a GSV sentence sets the satellite count and nothing else *)
Theorem C60_gsv_contents : forall n talker x y v rest h1 h2 a b,
  let body := gsv_body talker x y v rest in
  plain talker -> length talker = 2 -> plain x -> plain y -> v < 100 ->
  hex h1 a -> hex h2 b -> 16 * a + b = xor_all body ->
  separators (framed body h1 h2) <= 40 ->
  update n (framed body h1 h2) = (NMEA F (n_latitude n) (n_longitude n) (n_utc n) (Some v), Ok tt).
Proof.
  intros n talker x y v rest h1 h2 a b body Pt Lt Px Py Hv A B X S40.
  assert (SP : split_fields (framed body h1 h2) =
     [] :: (talker ++ [71; 83; 86]) :: x :: y :: dec2 v :: split_fields (rest ++ [42; h1; h2; 13; 10])).
  { unfold framed, body, gsv_body. change (split_fields (36 :: ?l)) with ([] :: split_fields l). f_equal.
    match goal with |- split_fields ?l = _ => replace l with ((talker ++ [71; 83; 86]) ++ 44 :: x ++ 44 :: y ++ 44 :: dec2 v ++ 44 :: rest ++ [42; h1; h2; 13; 10]) by (repeat (rewrite <- ?app_assoc; cbn [app]); reflexivity) end.
    rewrite split_app; [f_equal| |reflexivity]; [|apply plain_app; [exact Pt|repeat apply plain_cons; try lia; apply plain_nil]].
    rewrite split_app; [f_equal|exact Px|reflexivity].
    rewrite split_app; [f_equal|exact Py|reflexivity]. }
  unfold update, Nmea.update, Nmea.parse. rewrite (validate_framed _ _ _ _ _ A B X). cbn [bind].
  rewrite split_length. destruct (Nat.ltb_spec 41 (S (separators (framed body h1 h2)))); [lia|].
  rewrite SP. unfold field at 1. cbn [nth_error bind].
  destruct (Nat.ltb_spec (length (talker ++ [71; 83; 86])) 5) as [Q|_]; [rewrite app_length in Q; cbn [length] in Q; lia|].
  rewrite (substring_r talker [71; 83; 86] 2 3 Lt) by (cbn [length]; lia).
  unfold eq_text. destruct (list_eq_dec Nat.eq_dec [71; 83; 86] [71; 76; 76]) as [N|_]; [discriminate|].
  destruct (list_eq_dec Nat.eq_dec [71; 83; 86] [71; 83; 86]) as [_|N]; [|contradiction].
  unfold parse_gsv, field. cbn [nth_error bind]. rewrite parse_dec2 by assumption. reflexivity.
Qed.

(** Findings.  Valid checksums do not prevent panics: "AAAAAA00\r\n" has no
    separator, "$GPGSV*55\r\n" too few fields.  (fields[1], fields[4] are out
    of bounds.)  Any code that feeds received text to the parser is exposed. *)
Theorem C60_refuted_no_panic :
  parse [65; 65; 65; 65; 65; 65; 48; 48; 13; 10] = Panics /\
  parse [36; 71; 80; 71; 83; 86; 42; 53; 53; 13; 10] = Panics.
Proof. split; vm_compute; reflexivity. Qed.
End Floats.

(** the "millisecond" of a time is in fact hundredths of a second: 12:00:00.120 is read as 12 "milliseconds" *)
Theorem C60_milliseconds_are_hundredths :
  parse_time [49; 50; 48; 48; 48; 48; 46; 49; 50; 48] = Ok (Time 12 0 0 12).
Proof. vm_compute. reflexivity. Qed.

(** non-vacuity: the GSV sentence of the crate's own test, with 7 satellites:
    "$GPGSV,2,2,07*7E\r\n" shortened *)
Theorem C60_instance :
  let s := [36; 71; 80; 71; 83; 86; 44; 50; 44; 50; 44; 48; 55; 42; 55; 69; 13; 10] in
  Nmea.parse Q (fun _ => None) Qplus Qopp s = Ok (GSV [71; 80] 7) /\ separators s = 5.
Proof. vm_compute. split; reflexivity. Qed.

(** non-vacuity of the contents theorems: "$GPGLL,4315.68,N,07955.21,W,183037.50,A*hh" with a parser of digits and point *)
Theorem C60_contents_instance :
  let p := fun t : text => Some (Z.of_nat (fold_left (fun acc c => if c =? 46 then acc else acc * 10 + (c - 48)) t 0)) in
  let body := gll_body [71; 80] [52; 51] [49; 53; 46; 54] 78 [48; 55; 57] [53; 53; 46; 50] 87 18 30 37 50 [] [65] in
  fst (Nmea.update Z p (fun d m => d * 600 + m)%Z Z.opp (new_nmea Z) (framed body (48 + xor_all body / 16) (let d := xor_all body mod 16 in if d <? 10 then 48 + d else 55 + d)))
  = NMEA Z (Some 25956%Z) (Some (-47952)%Z) (Some (Time 18 30 37 50)) None.
Proof. vm_compute. reflexivity. Qed.

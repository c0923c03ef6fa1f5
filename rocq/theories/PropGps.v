(** * Properties C58 and C59: GPS sentence framing and GPS delta records. *)
From Coq Require Import List Arith Bool ZArith QArith Qabs Lia Lqa.
From Verif Require Import FixedPoint PropFixed Gps.
Import ListNotations.
Local Open Scope nat_scope.

Lemma feed_phase chunk : forall j more s ss, phase j s (chunk ++ more) ss ->
  exists j' pre ss1 ss' s', feed chunk s = (pre ++ ss1, s') /\ ss = ss1 ++ ss' /\ Forall noisy pre /\
    phase j' s' more ss' /\ (j = false -> pre = [] /\ j' = false) /\ (j' = true -> ss1 = []).
Proof.
  induction chunk as [|b rest IH]; intros j more s ss P.
  - exists j, [], [], ss, s. split; [reflexivity|]. split; [reflexivity|]. split; [constructor|]. split; [exact P|]. split; [intros ->; split; reflexivity|reflexivity].
  - destruct (step_phase j b rest more s ss P) as (j1 & pre & ss1 & s1 & ss' & E1 & -> & N1 & P1 & J1 & K1).
    destruct (IH j1 more s1 ss' P1) as (j2 & pre2 & ss2 & ss'' & s2 & E2 & -> & N2 & P2 & J2 & K2).
    cbn [feed]. rewrite E1, E2.
    destruct j1.
    + rewrite (K1 eq_refl). exists j2, (pre ++ pre2), ss2, ss'', s2. rewrite app_nil_r, app_assoc. split; [reflexivity|]. split; [reflexivity|].
      split; [apply Forall_app; split; assumption|]. split; [exact P2|]. split; [|exact K2].
      intros ->. destruct (J1 eq_refl) as [_ X]. discriminate.
    + destruct (J2 eq_refl) as [-> ->]. exists false, pre, (ss1 ++ ss2), ss'', s2. cbn [app]. rewrite <- !app_assoc. split; [reflexivity|]. split; [reflexivity|].
      split; [exact N1|]. split; [exact P2|]. split; [|discriminate]. intros E. destruct (J1 E) as [-> _]. split; reflexivity.
Qed.

Lemma phase_end j s ss : phase j s [] ss -> ss = [].
Proof.
  intros P. remember [] as rem eqn:E. destruct P as [s junk ss tl N J F T|j s ss tl F T|j p q ss tl HP W HQ F T|]; [..|reflexivity].
  - apply app_eq_nil in E as [_ E]. apply app_eq_nil in E as [E _]. destruct ss as [|w ss]; [reflexivity|]. inversion F as [|? ? (body & -> & _)]; subst. discriminate.
  - apply app_eq_nil in E as [E _]. destruct ss as [|w ss]; [reflexivity|]. inversion F as [|? ? (body & -> & _)]; subst. discriminate.
  - apply app_eq_nil in E as [E _]. contradiction.
Qed.

Lemma uart_phase cs : forall j s ss, phase j s (concat cs) ss ->
  exists pre s', uart_run cs s = (pre ++ ss, s') /\ Forall noisy pre /\ (j = false -> pre = []).
Proof.
  induction cs as [|c cs IH]; intros j s ss P.
  - cbn in *. pose proof (phase_end _ _ _ P) as ->. exists [], s. split; [reflexivity|]. split; [constructor|reflexivity].
  - destruct (feed_phase c j (concat cs) s ss P) as (j1 & pre & ss1 & ss' & s1 & E1 & -> & N1 & P1 & J1 & K1).
    destruct (IH j1 s1 ss' P1) as (pre2 & s2 & E2 & N2 & J2). cbn [uart_run]. rewrite E1, E2.
    destruct j1.
    + rewrite (K1 eq_refl). exists (pre ++ pre2), s2. rewrite app_nil_r, app_assoc. split; [reflexivity|]. split; [apply Forall_app; split; assumption|].
      intros E. destruct (J1 E) as [_ X]. discriminate.
    + rewrite (J2 eq_refl). exists pre, s2. cbn [app]. rewrite <- !app_assoc. split; [reflexivity|]. split; [exact N1|]. intros E. apply J1, E.
Qed.

(** C58.  [sentence w]: w is '$', then bytes other than '$' and newline, then
    a newline, at most 84 bytes in all.  The receiver may be switched on in
    the middle of a sentence ([junk], any bytes but '$') and the recording
    may stop in the middle of one ([tail]).  Whatever way the UART splits the
    stream into reads, the parser is handed exactly the complete sentences,
    in order, after at most some texts that do not begin with '$'. *)
Theorem C58_framing : forall junk ss tail reads,
  Forall (fun b => b <> 36) junk -> Forall sentence ss -> fragment tail ->
  concat reads = junk ++ concat ss ++ tail ->
  exists pre, fst (uart_run reads []) = pre ++ ss /\ Forall (fun t => hd 0 t <> 36) pre.
Proof.
  intros junk ss tail reads J F T E.
  assert (P : phase true [] (concat reads) ss).
  { rewrite E. apply ph_junk; try assumption. unfold noisy. cbn. discriminate. }
  destruct (uart_phase reads true [] ss P) as (pre & s' & R & N & _). exists pre. rewrite R. split; [reflexivity|exact N].
Qed.

(** when the stream begins at a sentence, nothing else is handed over, and
    what an earlier stream left behind does not matter *)
Theorem C58_framing_exact : forall ss tail reads leftover,
  Forall sentence ss -> fragment tail -> concat reads = concat ss ++ tail ->
  fst (uart_run reads leftover) = ss.
Proof.
  intros ss tail reads s F T E.
  assert (P : phase false s (concat reads) ss) by (rewrite E; apply ph_between; assumption).
  destruct (uart_phase reads false s ss P) as (pre & s' & R & _ & H). rewrite R, (H eq_refl). reflexivity.
Qed.

(** two splittings of one stream give the same result *)
Corollary C58_same_for_all_chunkings : forall ss tail reads1 reads2 l1 l2,
  Forall sentence ss -> fragment tail -> concat reads1 = concat ss ++ tail -> concat reads2 = concat reads1 ->
  fst (uart_run reads1 l1) = fst (uart_run reads2 l2).
Proof.
  intros ss tail r1 r2 l1 l2 F T E1 E2. rewrite (C58_framing_exact ss tail r1 l1 F T E1).
  symmetry. apply (C58_framing_exact ss tail); try assumption. congruence.
Qed.

(** non-vacuity: "$A\r\n" "$B\r\n" read in three pieces, with junk before and
    a cut sentence after *)
Theorem C58_instance :
  let w1 := [36; 65; 13; 10] in let w2 := [36; 66; 13; 10] in
  let reads := [[90; 200; 13]; [10; 36; 65]; [13; 10; 36; 66; 13; 10; 36]; [67]] in
  sentence w1 /\ sentence w2 /\ fragment [36; 67] /\
  concat reads = [90; 200; 13; 10] ++ concat [w1; w2] ++ [36; 67] /\
  uart_run reads [] = ([[90; 195; 136; 13; 10]; w1; w2], [36; 67]).
Proof.
  cbv zeta. assert (P : forall b, (b <? 128) && negb (b =? 36) && negb (b =? 10) = true -> plain b).
  { intros b H. apply andb_true_iff in H as [H H3]. apply andb_true_iff in H as [H1 H2]. apply Nat.ltb_lt in H1. apply negb_true_iff, Nat.eqb_neq in H2, H3.
    split; [exact H1|]. split; assumption. }
  split; [exists [65; 13]; split; [reflexivity|]; split; [constructor; [apply P; reflexivity|constructor; [apply P; reflexivity|constructor]]|apply Nat.leb_le; reflexivity]|].
  split; [exists [66; 13]; split; [reflexivity|]; split; [constructor; [apply P; reflexivity|constructor; [apply P; reflexivity|constructor]]|apply Nat.leb_le; reflexivity]|].
  split; [right; exists [67]; split; [reflexivity|]; split; [constructor; [apply P; reflexivity|constructor]|apply Nat.ltb_lt; reflexivity]|].
  split; [reflexivity|vm_compute; reflexivity].
Qed.

(** Finding: for lines that do not begin with '$' the splitting does matter:
    the rest of a read is kept and then read again, so "A\nB\n" in one read
    hands over "B\nB\n". *)
Theorem C58_refuted_without_dollar :
  fst (uart_run [[65; 10; 66; 10]] []) = [[65; 10]; [66; 10; 66; 10]] /\
  fst (uart_run [[65; 10]; [66; 10]] []) = [[65; 10]; [66; 10]].
Proof. split; vm_compute; reflexivity. Qed.

(** ** C59 *)
Local Open Scope Z_scope.

Lemma fixed_ok f q n : fixed f q = Ok n -> to_fixed_point f (Num q) = Code n.
Proof. unfold fixed. destruct (to_fixed_point f (Num q)); congruence. Qed.

Lemma code_close f e v b n : declared f e -> to_fixed_point f (Num (v - b)) = Code n -> (Qabs (v - (b + to_float f n)) <= e)%Q.
Proof.
  intros D E. assert (S1 : DeltaLogger.d_sub (PropFixed.fp_deltable f) v b = Some n) by (cbn [DeltaLogger.d_sub PropFixed.fp_deltable]; rewrite E; reflexivity).
  apply (C33_fixed_point_step f e v b n); [exact D|exact S1|reflexivity].
Qed.

Lemma lat_lon_declared : declared lat_lon_fac (5 # 1000000).
Proof.
  right. split; [reflexivity|]. split; [reflexivity|]. split.
  - assert (f_bits lat_lon_fac = 9%nat) as -> by (vm_compute; reflexivity). lia.
  - exists (1 # 100)%Q, 100%Q. reflexivity.
Qed.
Lemma altitude_declared : declared altitude_fac (1 # 2).
Proof.
  right. split; [reflexivity|]. split; [reflexivity|]. split.
  - assert (f_bits altitude_fac = 8%nat) as -> by (vm_compute; reflexivity). lia.
  - exists 400%Q, 100%Q. reflexivity.
Qed.
Lemma dop_declared : declared dop_fac (1 # 10).
Proof.
  left. split; [reflexivity|]. split; [reflexivity|]. split.
  - assert (f_bits dop_fac = 4%nat) as -> by (vm_compute; reflexivity). lia.
  - exists 0%Q, 1%Q. reflexivity.
Qed.

(** a decoded optional field is within [e] of the original *)
Definition within (e : Q) (a r : option Q) : Prop :=
  exists x y, a = Some x /\ r = Some y /\ (Qabs (x - y) <= e)%Q.

Lemma bind_ok {A B} (r : res A) (f : A -> res B) b : bind r f = Ok b -> exists a, r = Ok a /\ f a = Ok b.
Proof. destruct r; cbn; intros H; try discriminate. eexists. split; [reflexivity|exact H]. Qed.
Lemma need_ok {A} (o : option A) a : need o = Ok a -> o = Some a.
Proof. destruct o; cbn; congruence. Qed.

Lemma as_i8_small z : 0 <= z <= 127 -> as_i8 z = z.
Proof. intros H. unfold as_i8. destruct (Z.ltb_spec z 128); lia. Qed.

Lemma as_i8_diff x : -127 <= x <= 127 -> as_i8 (x mod 256) = x.
Proof.
  intros H. unfold as_i8. destruct (Z.neg_nonneg_cases x) as [N|N].
  - assert (E : x mod 256 = x + 256) by (symmetry; apply (Z.mod_unique _ _ (-1)); lia). rewrite E. destruct (Z.ltb_spec (x + 256) 128); lia.
  - rewrite Z.mod_small by lia. destruct (Z.ltb_spec x 128); lia.
Qed.

(** C59.  If a reading is stored as a delta to the previous reading (in debug
    or release arithmetic), and time did not go backwards and the satellite
    counts are at most 127, then the delta fits its fields, and decoding it
    gives exactly the same timestamp and satellite count, and the other fields
    within the errors declared for them. *)
Theorem C59_gps_delta_partial : forall checked cur prev d,
  0 <= g_sats cur <= 127 -> 0 <= g_sats prev <= 127 ->
  (forall t t', g_time cur = Some t -> g_time prev = Some t' -> t' <= t) ->
  gps_subtract checked cur prev = Ok d ->
  0 <= dl_time d < 256 /\ 0 <= dl_sats d < 4 /\
  exists r, gps_add checked prev d = Ok r /\
    g_time r = g_time cur /\ g_sats r = g_sats cur /\
    (exists la lo la' lo', g_lat_lon cur = Some (la, lo) /\ g_lat_lon r = Some (la', lo') /\
       (Qabs (la - la') <= 5 # 1000000)%Q /\ (Qabs (lo - lo') <= 5 # 1000000)%Q) /\
    within (1 # 2) (g_alt cur) (g_alt r) /\
    within (1 # 10) (g_hdop cur) (g_hdop r) /\
    within (1 # 10) (g_vdop cur) (g_vdop r) /\
    within (1 # 10) (g_pdop cur) (g_pdop r).
Proof.
  intros ck a b d Sa Sb MT H. unfold gps_subtract in H.
  apply bind_ok in H as (ta & ETa & H). apply need_ok in ETa.
  apply bind_ok in H as (tb & ETb & H). apply need_ok in ETb.
  cbv zeta in H. destruct (Z.ltb_spec 255 (ta - tb)) as [|HT]; [discriminate|].
  pose proof (MT ta tb ETa ETb) as MT'.
  rewrite (as_i8_small _ Sa), (as_i8_small _ Sb) in H. rewrite as_i8_diff in H by lia.
  rewrite Z.eqb_refl, andb_false_r in H.
  set (x := g_sats a - g_sats b) in *.
  apply bind_ok in H as (ds & EDS & H).
  apply bind_ok in H as (lla & ELa & H). apply need_ok in ELa.
  apply bind_ok in H as (llb & ELb & H). apply need_ok in ELb.
  apply bind_ok in H as (dlat & Elat & H). apply fixed_ok in Elat.
  apply bind_ok in H as (dlon & Elon & H). apply fixed_ok in Elon.
  apply bind_ok in H as (aa & EAa & H). apply need_ok in EAa.
  apply bind_ok in H as (ab & EAb & H). apply need_ok in EAb.
  apply bind_ok in H as (dalt & Ealt & H). apply fixed_ok in Ealt.
  apply bind_ok in H as (ha & EHa & H). apply need_ok in EHa.
  apply bind_ok in H as (hb & EHb & H). apply need_ok in EHb.
  apply bind_ok in H as (dh & Edh & H). apply fixed_ok in Edh.
  apply bind_ok in H as (va & EVa & H). apply need_ok in EVa.
  apply bind_ok in H as (vb & EVb & H). apply need_ok in EVb.
  apply bind_ok in H as (dv & Edv & H). apply fixed_ok in Edv.
  apply bind_ok in H as (pa & EPa & H). apply need_ok in EPa.
  apply bind_ok in H as (pb & EPb & H). apply need_ok in EPb.
  apply bind_ok in H as (dp & Edp & H). apply fixed_ok in Edp.
  assert (D : GPSDelta ((ta - tb) mod 256) dlat dlon dalt ds dh dv dp = d) by congruence. subst d. clear H.
  cbn [dl_time dl_sats]. rewrite (Z.mod_small (ta - tb)) by lia.
  assert (SATS : 0 <= ds < 4 /\
    match ds with
        | 0 => Ok (g_sats b)
        | 1 => if ck && (255 <=? g_sats b) then Panics else Ok ((g_sats b + 1) mod 256)
        | 2 => if (1 <=? g_sats b) then Ok (g_sats b - 1) else Ok 0
        | 3 => if (2 <=? g_sats b) then Ok (g_sats b - 2) else Ok 0
        | _ => Panics
        end = Ok (g_sats a)).
  { destruct (Z.eqb_spec x 0) as [X|_]; [injection EDS as <-; split; [lia|]; f_equal; lia|].
    destruct (Z.eqb_spec x 1) as [X|_].
    { injection EDS as <-. split; [lia|]. destruct (Z.leb_spec 255 (g_sats b)); [lia|]. rewrite andb_false_r. rewrite Z.mod_small by lia. f_equal. lia. }
    destruct (Z.eqb_spec x (-1)) as [X|_].
    { injection EDS as <-. split; [lia|]. destruct (Z.leb_spec 1 (g_sats b)); [|lia]. f_equal. lia. }
    destruct (Z.eqb_spec x (-2)) as [X|_]; [|discriminate].
    injection EDS as <-. split; [lia|]. destruct (Z.leb_spec 2 (g_sats b)); [|lia]. f_equal. lia. }
  destruct SATS as [SR SE]. split; [lia|]. split; [exact SR|].
  eexists. split.
  - unfold gps_add. cbn [dl_sats]. rewrite SE. cbn [bind]. rewrite ETb, ELb, EAb, EHb, EVb, EPb. cbn [need bind]. reflexivity.
  - cbn [g_time g_sats g_lat_lon g_alt g_hdop g_vdop g_pdop dl_time dl_lat dl_lon dl_alt dl_hdop dl_vdop dl_pdop].
    split; [rewrite ETa; f_equal; lia|]. split; [reflexivity|]. split.
    + exists (fst lla), (snd lla). eexists. eexists. split; [rewrite ELa; destruct lla; reflexivity|]. split; [reflexivity|].
      split; [apply (code_close _ _ _ _ _ lat_lon_declared Elat)|apply (code_close _ _ _ _ _ lat_lon_declared Elon)].
    + split; [eexists; eexists; split; [exact EAa|]; split; [reflexivity|]; apply (code_close _ _ _ _ _ altitude_declared Ealt)|].
      split; [eexists; eexists; split; [exact EHa|]; split; [reflexivity|]; apply (code_close _ _ _ _ _ dop_declared Edh)|].
      split; [eexists; eexists; split; [exact EVa|]; split; [reflexivity|]; apply (code_close _ _ _ _ _ dop_declared Edv)|].
      eexists; eexists; split; [exact EPa|]; split; [reflexivity|]; apply (code_close _ _ _ _ _ dop_declared Edp).
Qed.

Definition a_reading (t sats : Z) : gps_data :=
  GPSData (Some t) (Some (43%Q, (-80)%Q)) (Some 100%Q) sats (Some 1%Q) (Some 1%Q) (Some 1%Q).

(** non-vacuity: two readings one second apart, one satellite lost *)
Theorem C59_instance : match gps_subtract true (a_reading 1001 7) (a_reading 1000 8) with
  | Ok d => (dl_time d, dl_sats d) = (1, 2) | _ => False end.
Proof. vm_compute. reflexivity. Qed.

(** Finding: the unconditional claim is false.  A reading whose time is one
    second EARLIER is stored as a delta of 255 seconds; a satellite count
    going from 0 to 255 is decoded as 0; in debug builds going from 127 to
    128 panics. *)
Theorem C59_refuted :
  (exists d r, gps_subtract true (a_reading 999 8) (a_reading 1000 8) = Ok d /\ gps_add true (a_reading 1000 8) d = Ok r /\ g_time r = Some 1255) /\
  (exists d r, gps_subtract true (a_reading 1000 255) (a_reading 1000 0) = Ok d /\ gps_add true (a_reading 1000 0) d = Ok r /\ g_sats r = 0) /\
  gps_subtract true (a_reading 1000 128) (a_reading 1000 127) = Panics.
Proof.
  split; [|split].
  - eexists. eexists. split; [vm_compute; reflexivity|]. split; [vm_compute; reflexivity|reflexivity].
  - eexists. eexists. split; [vm_compute; reflexivity|]. split; [vm_compute; reflexivity|reflexivity].
  - vm_compute; reflexivity.
Qed.

(** * C111: the strain-gauge CSV files hold what was measured, at the times it was measured. *)
From Coq Require Import ZArith NArith List Bool Arith Lia Reals Lra Permutation.
From Flocq Require Import Core BinarySingleNaN.
From Flocq Require Binary Bits.
From Verif Require Import FloatFixed FloatErr PropFactory FloatLut PropLut EnumLog PropEnumLog HostSg.
From Verif Require PropHostLog SgProcess PropSg HostLog.
Import ListNotations.
Local Open Scope nat_scope.

(** ** Half precision *)
Lemma f16_range x : (0 <= f16_bits x < 65536)%Z.
Proof. unfold f16_bits. exact (Bits.bits_of_binary_float_range 10 5 eq_refl eq_refl _). Qed.
Lemma f16_bits_back x : f16_of_bits (f16_bits x) = x.
Proof. unfold f16_of_bits, f16_bits. rewrite Bits.binary_float_of_bits_of_binary_float. apply Binary.B2BSN_BSN2B. Qed.
(** the two bytes of a half bring it back *)
Lemma f16_round_trip x : f16_from (fst (f16_bytes x)) (snd (f16_bytes x)) = x.
Proof.
  unfold f16_from, f16_bytes. cbn [fst snd]. pose proof (f16_range x) as R.
  pose proof (Z.mod_pos_bound (f16_bits x) 256 ltac:(lia)) as M. pose proof (Z.div_pos (f16_bits x) 256 ltac:(lia) ltac:(lia)) as D.
  rewrite !Z2N.id by lia. rewrite Z.add_comm, <- Z.div_mod by lia. apply f16_bits_back.
Qed.
Lemma f16_bytes_small x : (fst (f16_bytes x) < 256)%N /\ (snd (f16_bytes x) < 256)%N.
Proof.
  unfold f16_bytes. cbn [fst snd]. pose proof (f16_range x) as R.
  pose proof (Z.mod_pos_bound (f16_bits x) 256 ltac:(lia)) as M. pose proof (Z.div_lt_upper_bound (f16_bits x) 256 256 ltac:(lia) ltac:(lia)) as D.
  pose proof (Z.div_pos (f16_bits x) 256 ltac:(lia) ltac:(lia)) as D0. split; lia.
Qed.

Local Open Scope R_scope.
(** going back to single precision is exact *)
Lemma single_of_ok (x : f16) : is_finite x = true -> is_finite (single_of x) = true /\ B2R (single_of x) = B2R x.
Proof.
  destruct x as [s|s| |s m ex B]; try discriminate; intros _; [split; reflexivity|].
  cbn [single_of]. set (x := B754_finite s m ex B). pose proof (B2R_format 11 16 x) as G.
  assert (L : Rabs (B2R x) < bpow radix2 16) by apply abs_B2R_lt_emax.
  assert (G64 : generic_format radix2 (SpecFloat.fexp 24 128) (B2R x)).
  { apply (FLT_format_generic radix2 (SpecFloat.emin 11 16) 11) in G. destruct G as [fl H1 H2 H3].
    apply (generic_format_FLT radix2 (SpecFloat.emin 24 128) 24). apply (FLT_spec _ _ _ _ fl).
    - exact H1.
    - eapply Z.lt_trans; [exact H2|]. reflexivity.
    - eapply Z.le_trans; [|exact H3]. vm_compute. discriminate. }
  pose proof (binary_normalize_correct 24 128 prec24 emax24 mode_NE (cond_Zopp s (Zpos m)) ex s) as C. cbv zeta in C.
  change (F2R (Float radix2 (cond_Zopp s (Zpos m)) ex)) with (B2R x) in C. cbn [round_mode] in C.
  rewrite (round_generic _ _ _ _ G64) in C. rewrite Rlt_bool_true in C.
  - tauto.
  - eapply Rlt_trans; [exact L|]. apply bpow_lt. lia.
Qed.
(** rounding to half precision: 65504 is the largest half *)
Lemma half_of_ok (x : f32) : is_finite x = true -> Rabs (B2R x) <= 65504 ->
  is_finite (half_of x) = true /\ Rabs (B2R (half_of x) - B2R x) <= bpow radix2 (-11) * Rabs (B2R x) + bpow radix2 (-25).
Proof.
  destruct x as [s|s| |s m ex B]; try discriminate; intros _ L.
  - split; [reflexivity|]. cbn [half_of B2R]. rewrite Rminus_0_r, Rabs_R0. pose proof (bpow_gt_0 radix2 (-25)). lra.
  - cbn [half_of]. set (x := B754_finite s m ex B) in *.
    pose proof (binary_normalize_correct 11 16 prec11 emax11 mode_NE (cond_Zopp s (Zpos m)) ex s) as C. cbv zeta in C.
    change (F2R (Float radix2 (cond_Zopp s (Zpos m)) ex)) with (B2R x) in C. cbn [round_mode] in C.
    rewrite Rlt_bool_true in C.
    + destruct C as (E & F & _). split; [exact F|]. rewrite E.
      pose proof (rnd_err 11 16 prec11 (B2R x)) as K. rewrite uro_eq in K.
      replace (eta 11 16) with (bpow radix2 (-25)) in K; [exact K|].
      unfold eta. change (/ 2) with (bpow radix2 (-1)). rewrite <- bpow_plus. reflexivity.
    + apply Rle_lt_trans with 65504.
      * apply abs_round_le_generic; [apply fexp_correct; exact prec11|apply valid_rnd_N| |exact L].
        apply (generic_format_FLT radix2 (SpecFloat.emin 11 16) 11). apply (FLT_spec _ _ _ _ (Float radix2 2047 5)).
        -- unfold F2R. cbn. lra.
        -- vm_compute. reflexivity.
        -- vm_compute. discriminate.
      * change (bpow radix2 16) with 65536. lra.
Qed.
Local Open Scope nat_scope.

(** ** Specification *)
(** the readings of a log *)
Definition readings_of (l : list sgrec) : list sgreading := flat_map (fun x => match x with STime _ => [] | SRead r => [proj1_sig r] end) l.
(** what can be plotted: a channel the device has, times that are numbers *)
Definition sound (l : list sgrec) : Prop :=
  Forall (fun x => match x with STime p => is_nan (fst p) = false | SRead r => is_nan (SgProcess.start_time (proj1_sig r)) = false /\ SgProcess.sg_i (proj1_sig r) < 4 end) l.
(** 5 i ms after [t] *)
Definition after5 (t : f64) (i : nat) : f64 :=
  Bplus mode_NE t (Bmult mode_NE (@of_int 53 1024 prec53 emax53 5) (@of_int 53 1024 prec53 emax53 (Z.of_nat i))).
(** sample [i] of a reading *)
Definition value (r : sgreading) (i : nat) : f32 := single_of (f16_from (nth (2 * i) (SgProcess.samples r) 0%N) (nth (2 * i + 1) (SgProcess.samples r) 0%N)).
(** the 40 rows of a reading, dated from the times of its own file *)
Definition block (q : list fpoint * sgreading) (rows : list row) : Prop :=
  exists date, flookup (fst q) (SgProcess.start_time (snd q)) (Gives date) /\ (date = None <-> length (fst q) < 2) /\
    rows = map (fun i => (after5 (SgProcess.start_time (snd q)) i, option_map (fun d => after5 d i) date, value (snd q) i)) (seq 0 40).
(** the readings of a channel, over all the files *)
Definition of_channel (ch : nat) (logs : list (list sgrec)) : list (list fpoint * sgreading) :=
  flat_map (fun l => map (fun r => (times l, r)) (filter (fun r => SgProcess.sg_i r =? ch) (readings_of l))) logs.

(** ** Rows of one reading *)
Lemma all_some_map {A B} (f : A -> option B) (g : A -> B) l : (forall a, In a l -> f a = Some (g a)) -> all_some (map f l) = Some (map g l).
Proof.
  induction l as [|a l IH]; intros H; [reflexivity|]. cbn [map all_some]. rewrite (H a (or_introl eq_refl)), IH; [reflexivity|].
  intros b I. apply H. right. exact I.
Qed.
Lemma write_ok r date : stored_ok r = true ->
  write r date = Some (map (fun i => (after5 (SgProcess.start_time r) i, option_map (fun d => after5 d i) date, value r i)) (seq 0 40)).
Proof.
  intros H. unfold stored_ok in H. apply andb_prop in H. destruct H as [H _]. apply andb_prop in H. destruct H as [L _].
  unfold write. rewrite L. apply Nat.eqb_eq in L. rewrite L. change (80 / 2) with 40. apply all_some_map. intros i I. apply in_seq in I.
  unfold csv_row. rewrite (nth_error_nth' (SgProcess.samples r) 0%N) by lia. rewrite (nth_error_nth' (SgProcess.samples r) 0%N) by lia.
  unfold value. rewrite (Nat.mul_comm 2 i). reflexivity.
Qed.

(** ** One file *)
Lemma dated_spec points l out ok : sound l -> dated points l out ok ->
  ok = true /\ Forall2 (fun r x => fst x = r /\ stored_ok r = true /\ SgProcess.sg_i r < 4 /\ get_unix_timestamp_f points (SgProcess.start_time r) (Gives (snd x))) (readings_of l) out.
Proof.
  intros Hs H. induction H as [|p l out ok H IH|r date l out ok G H IH|r l G]; inversion Hs as [|? ? H1 H2]; subst.
  - split; [reflexivity|constructor].
  - exact (IH H2).
  - destruct (IH H2) as [E F]. split; [exact E|]. cbn [readings_of flat_map app]. constructor; [|exact F].
    cbn [fst snd]. split; [reflexivity|]. split; [exact (proj2_sig r)|]. split; [exact (proj2 H1)|exact G].
  - exfalso. exact (PropHostLog.lut_no_panic points _ _ (proj1 H1) G eq_refl).
Qed.
Lemma dated_exists points l : (forall r, In (SRead r) l -> exists date, get_unix_timestamp_f points (SgProcess.start_time (proj1_sig r)) (Gives date)) ->
  exists out, dated points l out true.
Proof.
  induction l as [|[p|r] l IH]; intros H; [exists []; constructor| |].
  - destruct IH as [out D]; [intros r I; apply H; right; exact I|]. exists out. constructor. exact D.
  - destruct IH as [out D]; [intros r' I; apply H; right; exact I|]. destruct (H r (or_introl eq_refl)) as [date G].
    exists ((proj1_sig r, date) :: out). constructor; assumption.
Qed.
Lemma sound_times l : sound l -> Forall (fun p : fpoint => is_nan (fst p) = false) (times l).
Proof.
  intros H. induction H as [|x l Hx H IH]; [constructor|]. destruct x as [p|r]; [|exact IH]. cbn [times flat_map app]. constructor; [exact Hx|exact IH].
Qed.
Lemma sorts l : sound l -> exists points, sort_timestamps_f (times l) = Gives points.
Proof.
  intros H. apply sound_times in H. unfold sort_timestamps_f. destruct (length (times l) <? 2); [eexists; reflexivity|].
  match goal with |- context [existsb ?g ?x] => destruct (existsb g x) eqn:EX end; [|eexists; reflexivity].
  apply existsb_exists in EX. destruct EX as (p & Ip & Np). rewrite Forall_forall in H. specialize (H p Ip). unfold f64 in *. rewrite H in Np. discriminate Np.
Qed.
Lemma dated_iff recorded q date : flookup recorded q (Gives date) -> (date = None <-> length recorded < 2).
Proof.
  intros Gt. unfold flookup, sort_timestamps_f in Gt. destruct (Nat.ltb_spec (length recorded) 2) as [L|L].
  - split; [intros _; exact L|]. intros _. inversion Gt; subst; try lia. reflexivity.
  - match type of Gt with context [existsb ?g ?l] => destruct (existsb g l) end; [discriminate|].
    split; [|lia]. intros E. rewrite (Permutation_length (fsort_perm recorded)) in *. rewrite E in Gt. inversion Gt. lia.
Qed.

Section File.
Variable c : codec sgrec.
Hypothesis ok : codec_ok c.

Lemma whole_sound n l : sound l -> sound (whole c n l).
Proof.
  intros H. revert n. induction H as [|x l Hx H IH]; intros n; [constructor|]. cbn [whole]. destruct (length (write_log c x) <=? n); [constructor; [exact Hx|apply IH]|constructor].
Qed.

Lemma parse_file p1 p2 l n out okb : sound l -> parse_sg_data c p1 p2 (firstn n (file_of c l)) out okb ->
  okb = true /\ Forall2 (fun r x => fst x = r /\ stored_ok r = true /\ SgProcess.sg_i r < 4 /\
                           flookup (times (whole c n l)) (SgProcess.start_time r) (Gives (snd x))) (readings_of (whole c n l)) out.
Proof.
  intros Hs P. pose proof (whole_sound n l Hs) as Hw. destruct (sorts _ Hw) as [pts Pts].
  destruct P as [B|points out okb B D].
  - rewrite (C84_truncated_log_reads_back c ok) in B. rewrite Pts in B. discriminate.
  - rewrite (C84_truncated_log_reads_back c ok) in B, D. destruct (dated_spec _ _ _ _ Hw D) as [E F]. split; [exact E|].
    eapply PropHostLog.Forall2_imp; [|exact F]. intros r x (H1 & H2 & H3 & H4).
    split; [exact H1|]. split; [exact H2|]. split; [exact H3|]. unfold flookup. rewrite B. exact H4.
Qed.
Lemma parse_exists p1 p2 l n : sound l -> exists out, parse_sg_data c p1 p2 (firstn n (file_of c l)) out true.
Proof.
  intros Hs. pose proof (whole_sound n l Hs) as Hw. destruct (sorts _ Hw) as [pts Pts].
  destruct (dated_exists pts (whole c n l)) as [out D].
  { intros r I. unfold sound in Hw. rewrite Forall_forall in Hw. destruct (Hw _ I) as [N _].
    destruct (PropHostLog.lookup_exists (times (whole c n l)) (SgProcess.start_time (proj1_sig r)) N (sound_times _ (whole_sound n l Hs))) as (date & H & _).
    exists date. unfold flookup in H. rewrite Pts in H. exact H. }
  exists out. eapply psd; rewrite (C84_truncated_log_reads_back c ok); [exact Pts|exact D].
Qed.

(** the rows added for a channel *)
Lemma write_all_spec recorded : forall rs xs, 
  Forall2 (fun r (x : sgreading * option f64) => fst x = r /\ stored_ok r = true /\ SgProcess.sg_i r < 4 /\ flookup recorded (SgProcess.start_time r) (Gives (snd x))) rs xs ->
  forall out, exists out', write_all xs out = Some out' /\
    forall ch, exists blocks, out' ch = out ch ++ concat blocks /\ Forall2 block (map (fun r => (recorded, r)) (filter (fun r => SgProcess.sg_i r =? ch) rs)) blocks.
Proof.
  intros rs xs H. induction H as [|r [r' date] rs xs (E & S & L & F) H IH]; intros out.
  - exists out. split; [reflexivity|]. intros ch. exists []. split; [symmetry; apply app_nil_r|constructor].
  - cbn [fst snd] in E, F. subst r'. cbn [write_all]. destruct (Nat.ltb_spec (SgProcess.sg_i r) 4); [|lia]. rewrite (write_ok r date S).
    set (rows := map _ (seq 0 40)). destruct (IH (add_rows out (SgProcess.sg_i r) rows)) as (out' & W & K). exists out'. split; [exact W|].
    intros ch. destruct (K ch) as (blocks & O & Bl). cbn [filter]. unfold add_rows in O. rewrite Nat.eqb_sym in O.
    destruct (SgProcess.sg_i r =? ch).
    + exists (rows :: blocks). split; [rewrite O; cbn [concat]; symmetry; apply app_assoc|]. cbn [map]. constructor; [|exact Bl].
      exists date. cbn [fst snd]. split; [exact F|]. split; [exact (dated_iff _ _ _ F)|reflexivity].
    + exists blocks. split; [exact O|exact Bl].
Qed.

Lemma pull_ok : forall (logs : list (list sgrec * nat)), Forall (fun l => sound (fst l)) logs -> forall out res,
  pull c (map (fun l => firstn (snd l) (file_of c (fst l))) logs) out res ->
  exists out', res = Some out' /\ forall ch, exists blocks, out' ch = out ch ++ concat blocks /\
    Forall2 block (of_channel ch (map (fun l => whole c (snd l) (fst l)) logs)) blocks.
Proof.
  intros logs H. induction H as [|[l n] logs Hs H IH]; intros out res P; cbn [map] in P.
  - inversion P; subst. exists out. split; [reflexivity|]. intros ch. exists []. split; [symmetry; apply app_nil_r|constructor].
  - cbn [fst snd] in P, Hs. remember (firstn n (file_of c l)) as bytes eqn:Eb.
    inversion P as [|p1 p2 f fs xs o o' r D W P'|p1 p2 f fs xs o D|p1 p2 f fs xs okb o D W]; subst.
    + destruct (parse_file _ _ _ _ _ _ Hs D) as [_ F]. destruct (write_all_spec _ _ _ F out) as (o1 & W1 & K). rewrite W in W1. injection W1 as <-.
      destruct (IH _ _ P') as (out' & E & K'). exists out'. split; [exact E|]. intros ch. destruct (K ch) as (b1 & O1 & F1). destruct (K' ch) as (b2 & O2 & F2).
      exists (b1 ++ b2). rewrite O2, O1, concat_app. split; [symmetry; apply app_assoc|]. cbn [of_channel flat_map map fst snd]. apply Forall2_app; [exact F1|exact F2].
    + destruct (parse_file _ _ _ _ _ _ Hs D) as [E _]. discriminate E.
    + destruct (parse_file _ _ _ _ _ _ Hs D) as [_ F]. destruct (write_all_spec _ _ _ F out) as (o1 & W1 & _). rewrite W in W1. discriminate W1.
Qed.
Lemma pull_exists : forall (logs : list (list sgrec * nat)), Forall (fun l => sound (fst l)) logs -> forall out,
  exists out', pull c (map (fun l => firstn (snd l) (file_of c (fst l))) logs) out (Some out').
Proof.
  intros logs H. induction H as [|[l n] logs Hs H IH]; intros out; [exists out; constructor|]. cbn [map fst snd] in *.
  destruct (parse_exists [] [] l n Hs) as [xs D]. destruct (parse_file _ _ _ _ _ _ Hs D) as [_ F].
  destruct (write_all_spec _ _ _ F out) as (o1 & W & _). destruct (IH o1) as [out' P]. exists out'. eapply pull_file; eassumption.
Qed.
End File.

(** Any files of strain-gauge logs, each cut at any byte, read in pieces of any sizes, of readings of the device's four channels with
    times that are numbers: the host never panics, and each channel's CSV has, in the order they were stored, 40 rows per reading of
    that channel that is whole, 5 ms apart from its start time, with the samples as stored, dated from the times of the same file
    (which has at least two, or no row is dated). *)
Theorem C111_csv : forall c logs, codec_ok c -> Forall (fun l => sound (fst l)) logs ->
  let files := map (fun l : list sgrec * nat => firstn (snd l) (file_of c (fst l))) logs in
  (exists out, pull c files (fun _ => []) (Some out)) /\
  forall res, pull c files (fun _ => []) res -> exists out, res = Some out /\
    forall ch, exists blocks, out ch = concat blocks /\ Forall2 block (of_channel ch (map (fun l => whole c (snd l) (fst l)) logs)) blocks.
Proof.
  intros c logs K H files. split; [exact (pull_exists c K logs H _)|]. intros res P. exact (pull_ok c K logs H _ _ P).
Qed.

(** ** From the ADC to the CSV *)
Lemma concat_nth {A} k : forall (bs : list (list A)), Forall (fun b => length b = k) bs -> forall b i, i < k -> b < length bs ->
  nth_error (concat bs) (k * b + i) = match nth_error bs b with Some x => nth_error x i | None => None end.
Proof.
  intros bs H. induction H as [|x bs L H IH]; intros b i I Hb; [cbn in Hb; lia|]. cbn [concat]. destruct b as [|b].
  - rewrite Nat.mul_0_r. cbn [Nat.add nth_error]. apply nth_error_app1. lia.
  - rewrite nth_error_app2 by lia. rewrite L. replace (k * S b + i - k) with (k * b + i) by lia. cbn [nth_error length] in *. apply IH; lia.
Qed.
Lemma concat_len {A} k (bs : list (list A)) : Forall (fun b => length b = k) bs -> length (concat bs) = k * length bs.
Proof. intros H. induction H as [|x bs L H IH]; [cbn; lia|]. cbn [concat length]. rewrite app_length, IH, L. lia. Qed.

Lemma every_fourth {A} (key : A -> nat) ch : ch < 4 -> forall B xs, length xs = 4 * B ->
  (forall b k, b < B -> k < 4 -> exists x, nth_error xs (4 * b + k) = Some x /\ key x = k) ->
  length (filter (fun x => key x =? ch) xs) = B /\ forall b, b < B -> nth_error (filter (fun x => key x =? ch) xs) b = nth_error xs (4 * b + ch).
Proof.
  intros C. induction B as [|B IH]; intros xs L H.
  - destruct xs; [|cbn in L; lia]. split; [reflexivity|lia].
  - destruct xs as [|x0 [|x1 [|x2 [|x3 xs]]]]; try (cbn [length] in L; lia).
    assert (K0 : key x0 = 0) by (destruct (H 0 0 ltac:(lia) ltac:(lia)) as (y & E & K); cbn in E; congruence).
    assert (K1 : key x1 = 1) by (destruct (H 0 1 ltac:(lia) ltac:(lia)) as (y & E & K); cbn in E; congruence).
    assert (K2 : key x2 = 2) by (destruct (H 0 2 ltac:(lia) ltac:(lia)) as (y & E & K); cbn in E; congruence).
    assert (K3 : key x3 = 3) by (destruct (H 0 3 ltac:(lia) ltac:(lia)) as (y & E & K); cbn in E; congruence).
    destruct (IH xs) as [L' N'].
    { cbn [length] in L. lia. }
    { intros b k Hb Hk. destruct (H (S b) k ltac:(lia) Hk) as (y & E & K). exists y. split; [|exact K]. replace (4 * S b + k) with (S (S (S (S (4 * b + k))))) in E by lia. exact E. }
    assert (E : exists x, filter (fun x => key x =? ch) (x0 :: x1 :: x2 :: x3 :: xs) = x :: filter (fun x => key x =? ch) xs /\ nth_error (x0 :: x1 :: x2 :: x3 :: xs) ch = Some x).
    { cbn [filter]. rewrite K0, K1, K2, K3. destruct ch as [|[|[|[|ch]]]]; try lia; cbn [Nat.eqb nth_error]; eexists; split; reflexivity. }
    destruct E as (x & -> & Ex). split; [cbn [length]; lia|]. intros [|b] Hb.
    + rewrite Nat.mul_0_r. cbn [Nat.add nth_error]. symmetry. exact Ex.
    + replace (4 * S b + ch) with (S (S (S (S (4 * b + ch))))) by lia. cbn [nth_error]. apply N'. lia.
Qed.

Lemma of_channel_snd ch logs : map snd (of_channel ch logs) = filter (fun r => SgProcess.sg_i r =? ch) (flat_map readings_of logs).
Proof.
  induction logs as [|l logs IH]; [reflexivity|]. cbn [of_channel flat_map]. rewrite map_app, filter_app. f_equal; [|exact IH].
  rewrite map_map. cbn [snd]. apply map_id.
Qed.
Lemma block_length q b : block q b -> length b = 40.
Proof. intros (date & _ & _ & ->). rewrite map_length. apply seq_length. Qed.
Lemma forall2_nth {A B} (P : A -> B -> Prop) la lb : Forall2 P la lb -> forall n a, nth_error la n = Some a -> exists b, nth_error lb n = Some b /\ P a b.
Proof.
  intros H. induction H as [|a b la lb Hab H IH]; intros [|n] x E; try discriminate E.
  - injection E as <-. exists b. split; [reflexivity|exact Hab].
  - exact (IH n x E).
Qed.

(** a stored sample comes back *)
Lemma stored_nth : forall (vs : list f32) i v, nth_error vs i = Some v ->
  nth (2 * i) (PropSg.stored enc vs) 0%N = fst (enc v) /\ nth (2 * i + 1) (PropSg.stored enc vs) 0%N = snd (enc v).
Proof.
  induction vs as [|w vs IH]; intros [|i] v H; try discriminate H.
  - injection H as ->. split; reflexivity.
  - change (PropSg.stored enc (w :: vs)) with (fst (enc w) :: snd (enc w) :: PropSg.stored enc vs).
    replace (2 * S i) with (S (S (2 * i))) by lia. replace (S (S (2 * i)) + 1) with (S (S (2 * i + 1))) by lia. cbn [nth]. apply IH, H.
Qed.
Lemma value_stored t k (vs : list f32) i v : nth_error vs i = Some v -> value (SgProcess.Reading t k (PropSg.stored enc vs)) i = single_of (half_of v).
Proof.
  intros H. unfold value. cbn [SgProcess.samples]. destruct (stored_nth vs i v H) as [-> ->]. unfold enc. rewrite f16_round_trip. reflexivity.
Qed.

Section EndToEnd.
Context {F : Type} (run : F -> f32 -> F * f32) (add : f32 -> f32 -> f32) (zero : f32) (f0 : F).
Notation lp_run := (@SgProcess.lp_run f32 F N f64 run add zero enc).

(** Any number of raw reads (213 samples of four channels), any filter, any distribution of the processed readings over log files
    with unix times anywhere: the CSV of a channel has one row per raw read of every complete group of 40; row [n] holds the filter's
    output at the end of raw read [n], rounded to half precision, at 5 ms steps from the start of the group. *)
Theorem C111_samples : forall c (rs : list (@SgProcess.raw f32 f64)) (olds : nat -> nat -> sgreading) s lives outs logs, codec_ok c ->
  Forall PropSg.well_formed rs -> (forall n k, length (SgProcess.samples (olds n k)) = 80) -> Forall (fun r => is_nan (SgProcess.raw_time r) = false) rs ->
  lp_run olds 0 (SgProcess.lp_new zero f0) rs = Some (s, lives, outs) ->
  flat_map readings_of logs = map SgProcess.rd outs -> (forall l p, In l logs -> In p (times l) -> is_nan (fst p) = false) ->
  (exists out, pull c (map (file_of c) logs) (fun _ => []) (Some out)) /\
  forall res, pull c (map (file_of c) logs) (fun _ => []) res -> exists out, res = Some out /\
    forall ch, ch < 4 -> length (out ch) = 40 * (length rs / 40) /\
      forall n, n < 40 * (length rs / 40) -> exists r date, nth_error rs (40 * (n / 40)) = Some r /\
        nth_error (out ch) n = Some (after5 (SgProcess.raw_time r) (n mod 40), date, single_of (half_of (PropSg.sample run zero f0 ch rs n))).
Proof.
  intros c rs olds s lives outs logs K W O NN R Rd Tm.
  destruct (PropSg.sg_processing run add zero enc f0 rs olds W O) as (s' & lives' & outs' & R' & Lo & _ & D).
  pose proof (eq_trans (eq_sym R) R') as X. injection X as <- <- <-.
  set (B := length rs / 40) in *.
  assert (Sd : Forall (fun l => sound l) logs).
  { apply Forall_forall. intros l Il. apply Forall_forall. intros [p|q] I.
    - apply (Tm l p Il). unfold times. apply in_flat_map. exists (STime p). split; [exact I|left; reflexivity].
    - assert (J : In (proj1_sig q) (flat_map readings_of logs)).
      { apply in_flat_map. exists l. split; [exact Il|]. unfold readings_of. apply in_flat_map. exists (SRead q). split; [exact I|left; reflexivity]. }
      rewrite Rd in J. apply in_map_iff in J. destruct J as (d & Ed & Id). apply In_nth_error in Id. destruct Id as [m Em].
      assert (Hm : m < 4 * B) by (rewrite <- Lo; apply nth_error_Some; intros Z; pose proof (eq_trans (eq_sym Em) Z) as Z'; discriminate Z').
      destruct (D (m / 4) (m mod 4)) as (d' & r & E1 & E2 & E3 & _).
      { apply Nat.div_lt_upper_bound; lia. } { apply Nat.mod_upper_bound. lia. }
      rewrite <- Nat.div_mod in E1 by lia. pose proof (eq_trans (eq_sym Em) E1) as E1'. injection E1' as <-. pose proof (eq_trans (eq_sym Ed) E3) as Qq. rewrite Qq. cbn [SgProcess.start_time SgProcess.sg_i].
      split; [|apply Nat.mod_upper_bound; lia]. rewrite Forall_forall in NN. apply NN. exact (nth_error_In _ _ E2). }
  set (cut := map (fun l => (l, length (file_of c l))) logs).
  assert (Ef : map (file_of c) logs = map (fun l => firstn (snd l) (file_of c (fst l))) cut).
  { unfold cut. rewrite map_map. apply map_ext. intros l. cbn [fst snd]. symmetry. apply firstn_all. }
  assert (Ew : map (fun l => whole c (snd l) (fst l)) cut = logs).
  { unfold cut. rewrite map_map. rewrite <- (map_id logs) at 2. apply map_ext. intros l. cbn [fst snd]. apply whole_all. }
  assert (Sc : Forall (fun l => sound (fst l)) cut).
  { unfold cut. rewrite Forall_map. exact Sd. }
  destruct (C111_csv c cut K Sc) as [Ex Al]. rewrite <- Ef in Ex, Al. split; [exact Ex|]. rewrite Ew in Al.
  intros res P. destruct (Al res P) as (out & E & H). exists out. split; [exact E|]. intros ch Hch. destruct (H ch) as (blocks & Eo & F2).
  assert (Lb : Forall (fun b : list row => length b = 40) blocks).
  { clear - F2. induction F2 as [|q b qs bs Hb F2 IH]; constructor; [exact (block_length q b Hb)|exact IH]. }
  destruct (every_fourth (fun r : sgreading => SgProcess.sg_i r) ch Hch B (map SgProcess.rd outs)) as [Lf Nf].
  { rewrite map_length. exact Lo. }
  { intros b k Hb Hk. destruct (D b k Hb Hk) as (d & r & E1 & E2 & E3 & _). exists (SgProcess.rd d). split; [apply map_nth_error, E1|]. rewrite E3. reflexivity. }
  rewrite <- Rd, <- of_channel_snd in Lf, Nf. rewrite map_length in Lf.
  assert (Lbl : length blocks = B). { rewrite <- Lf. clear - F2. induction F2; cbn; congruence. }
  split; [rewrite Eo, (concat_len 40 blocks Lb), Lbl; reflexivity|].
  intros n Hn. set (b := n / 40). set (i := n mod 40).
  assert (En : n = 40 * b + i) by (unfold b, i; apply Nat.div_mod; lia). assert (Hi : i < 40) by (unfold i; apply Nat.mod_upper_bound; lia).
  assert (Hb : b < B) by (unfold b; apply Nat.div_lt_upper_bound; lia).
  destruct (D b ch Hb Hch) as (d & r & E1 & E2 & E3 & _). exists r.
  destruct (nth_error (of_channel ch logs) b) as [q|] eqn:Eq; [|exfalso; apply nth_error_None in Eq; lia].
  destruct (forall2_nth _ _ _ F2 b q Eq) as (x & Ex' & date & _ & _ & Er). 
  assert (Q : snd q = SgProcess.rd d).
  { assert (Z : nth_error (map snd (of_channel ch logs)) b = Some (snd q)) by (apply map_nth_error, Eq).
    rewrite (Nf b Hb), Rd in Z.
    pose proof (eq_trans (eq_sym (map_nth_error SgProcess.rd _ _ E1)) Z) as Z'. injection Z' as Z'. symmetry. exact Z'. }
  exists (option_map (fun t => after5 t i) date). split; [exact E2|].
  rewrite Eo, En, (concat_nth 40 blocks Lb b i Hi) by lia. rewrite Ex', Er.
  rewrite (map_nth_error _ i (seq 0 40) (d := i)).
  2:{ rewrite (nth_error_nth' _ 0) by (rewrite seq_length; exact Hi). rewrite seq_nth by exact Hi. reflexivity. }
  rewrite Q, E3. cbn [SgProcess.start_time]. f_equal. f_equal.
  apply value_stored. rewrite (map_nth_error _ i (seq (40 * b) 40) (d := 40 * b + i)); [reflexivity|].
  rewrite (nth_error_nth' _ 0) by (rewrite seq_length; exact Hi). rewrite seq_nth by exact Hi. reflexivity.
Qed.
End EndToEnd.

Local Open Scope R_scope.
(** the sample of a row: within one half-precision rounding of the filter's output *)
Theorem C111_value_error : forall x : f32, is_finite x = true -> Rabs (B2R x) <= 65504 ->
  is_finite (single_of (half_of x)) = true /\ Rabs (B2R (single_of (half_of x)) - B2R x) <= bpow radix2 (-11) * Rabs (B2R x) + bpow radix2 (-25).
Proof.
  intros x H L. destruct (half_of_ok x H L) as [F E]. destruct (single_of_ok _ F) as [F' E']. split; [exact F'|]. rewrite E'. exact E.
Qed.
(** the time of a row: within one double-precision rounding of the start of the group plus 5 ms per row *)
Theorem C111_time_error : forall (t : f64) i, is_finite t = true -> Rabs (B2R t) <= bpow radix2 1021 -> (i < 40)%nat ->
  is_finite (after5 t i) = true /\ Rabs (B2R (after5 t i) - (B2R t + 5 * INR i)) <= bpow radix2 (-53) * Rabs (B2R t + 5 * INR i) + bpow radix2 (-1075).
Proof.
  intros t i Ft Bt Hi. unfold after5.
  destruct (of_int_ok 53 1024 prec53 emax53 5) as [F5 E5]; [vm_compute; discriminate|].
  destruct (of_int_ok 53 1024 prec53 emax53 (Z.of_nat i)) as [Fi Ei]; [change (2 ^ 53)%Z with 9007199254740992%Z; lia|].
  assert (I0 : 0 <= IZR (Z.of_nat i) <= 39). { split; [apply IZR_le; lia|apply IZR_le; lia]. }
  assert (P200 : 65536 <= bpow radix2 1021). { change 65536 with (bpow radix2 16). apply bpow_le. lia. }
  assert (P2 : bpow radix2 1023 = 4 * bpow radix2 1021). { change 1023%Z with (2 + 1021)%Z. rewrite bpow_plus. reflexivity. }
  destruct (mult_ok 53 1024 prec53 emax53 (@of_int 53 1024 prec53 emax53 5) (@of_int 53 1024 prec53 emax53 (Z.of_nat i)) F5 Fi) as [Fm Em].
  { rewrite E5, Ei. rewrite Rabs_pos_eq by lra. change (bpow radix2 (1024 - 1)) with (bpow radix2 1023). lra. }
  rewrite E5, Ei in Em. rewrite <- mult_IZR in Em.
  assert (Sm : (Z.abs (5 * Z.of_nat i) <= 2 ^ 53)%Z) by (change (2 ^ 53)%Z with 9007199254740992%Z; lia).
  rewrite (rnd_int 53 1024 prec53 emax53 (5 * Z.of_nat i)%Z Sm) in Em.
  rewrite mult_IZR in Em. rewrite <- INR_IZR_INZ in Em. rewrite <- INR_IZR_INZ in I0.
  destruct (plus_ok 53 1024 prec53 emax53 t _ Ft Fm) as [Fp Ep].
  { rewrite Em. eapply Rle_trans; [apply Rabs_triang|]. rewrite (Rabs_pos_eq (5 * INR i)) by lra. change (bpow radix2 (1024 - 1)) with (bpow radix2 1023). lra. }
  split; [exact Fp|]. rewrite Ep, Em. pose proof (rnd_err 53 1024 prec53 (B2R t + 5 * INR i)) as Kk. rewrite uro_eq in Kk.
  replace (eta 53 1024) with (bpow radix2 (-1075)) in Kk; [exact Kk|].
  unfold eta. change (/ 2) with (bpow radix2 (-1)). rewrite <- bpow_plus. reflexivity.
Qed.
Local Open Scope nat_scope.

(** ** A codec with the layout of the archived logs, and what meets the hypotheses *)
Fixpoint digits (n : nat) (z : Z) : list N := match n with O => [] | S n => Z.to_N (z mod 256) :: digits n (z / 256) end.
Fixpoint undigits (l : list N) : Z := match l with [] => 0%Z | d :: l => (Z.of_N d + 256 * undigits l)%Z end.
Lemma digits_length n : forall z, length (digits n z) = n.
Proof. induction n as [|n IH]; intros z; [reflexivity|]. cbn [digits length]. rewrite IH. reflexivity. Qed.
Lemma undigits_digits n : forall z, (0 <= z < 256 ^ Z.of_nat n)%Z -> undigits (digits n z) = z.
Proof.
  induction n as [|n IH]; intros z H.
  - change (256 ^ Z.of_nat 0)%Z with 1%Z in H. cbn. lia.
  - cbn [digits undigits]. rewrite Nat2Z.inj_succ, Z.pow_succ_r in H by lia. pose proof (Z.mod_pos_bound z 256 ltac:(lia)) as M.
    rewrite Z2N.id by lia. rewrite IH.
    + pose proof (Z.div_mod z 256 ltac:(lia)). lia.
    + split; [apply Z.div_pos; lia|apply Z.div_lt_upper_bound; lia].
Qed.
Definition f64_le (x : f64) : list N := digits 8 (HostLog.f64_bits x).
Definition f64_of_le (l : list N) : f64 := Binary.B2BSN 53 1024 (Bits.b64_of_bits (undigits l)).
Lemma f64_le_back x : f64_of_le (f64_le x) = x.
Proof.
  unfold f64_of_le, f64_le. rewrite undigits_digits.
  - unfold HostLog.f64_bits, Bits.b64_of_bits, Bits.bits_of_b64. rewrite Bits.binary_float_of_bits_of_binary_float. apply Binary.B2BSN_BSN2B.
  - unfold HostLog.f64_bits, Bits.bits_of_b64. exact (Bits.bits_of_binary_float_range 52 11 eq_refl eq_refl _).
Qed.
(** two f64; an f64, a byte, 80 bytes and 7 bytes of padding *)
Definition sg_codec : codec sgrec :=
  Codec _ (fun v => match v with STime _ => 0%N | SRead _ => 1%N end)
    (fun t => match t with 0%N => Some 16 | 1%N => Some 96 | _ => None end)
    (fun v => match v with
              | STime (b, u) => f64_le b ++ f64_le u
              | SRead r => f64_le (SgProcess.start_time (proj1_sig r)) ++ N.of_nat (SgProcess.sg_i (proj1_sig r)) :: SgProcess.samples (proj1_sig r) ++ repeat 0%N 7
              end)
    (fun t b => let other := STime (f64_of_le (firstn 8 b), f64_of_le (skipn 8 b)) in
       match t with
       | 0%N => other
       | _ => let r := SgProcess.Reading (f64_of_le (firstn 8 b)) (N.to_nat (nth 8 b 0%N)) (firstn 80 (skipn 9 b)) in
              match bool_dec (stored_ok r) true with Specif.left H => SRead (exist _ r H) | Specif.right _ => other end
       end).
Lemma split_app {A} n (a b : list A) : length a = n -> firstn n (a ++ b) = a /\ skipn n (a ++ b) = b.
Proof. intros <-. split; [rewrite firstn_app, Nat.sub_diag, firstn_all, firstn_O; apply app_nil_r|rewrite skipn_app, Nat.sub_diag, skipn_all; reflexivity]. Qed.
Theorem C111_codec : codec_ok sg_codec.
Proof.
  assert (L8 : forall x, length (f64_le x) = 8) by (intros x; apply digits_length).
  intros [[b u]|[r H]]; cbn [tag size_of archive unarchive sg_codec proj1_sig]; change byte with N.
  - destruct (split_app 8 (f64_le b) (f64_le u) (L8 b)) as [E1 E2]. rewrite E1, E2, !f64_le_back, app_length, !L8. split; reflexivity.
  - destruct (split_app 8 (f64_le (SgProcess.start_time r)) (N.of_nat (SgProcess.sg_i r) :: SgProcess.samples r ++ repeat 0%N 7) (L8 _)) as [E1 E2].
    assert (L : length (SgProcess.samples r) = 80). { unfold stored_ok in H. apply andb_prop in H. destruct H as [H _]. apply andb_prop in H. destruct H as [H _]. apply Nat.eqb_eq, H. }
    assert (E3 : nth 8 (f64_le (SgProcess.start_time r) ++ N.of_nat (SgProcess.sg_i r) :: SgProcess.samples r ++ repeat 0%N 7) 0%N = N.of_nat (SgProcess.sg_i r)).
    { rewrite app_nth2 by (rewrite L8; lia). rewrite L8. reflexivity. }
    assert (E4 : skipn 9 (f64_le (SgProcess.start_time r) ++ N.of_nat (SgProcess.sg_i r) :: SgProcess.samples r ++ repeat 0%N 7) = SgProcess.samples r ++ repeat 0%N 7).
    { rewrite skipn_app, L8. rewrite skipn_all2 by (rewrite L8; lia). reflexivity. }
    split.
    + rewrite app_length, L8. cbn [length]. rewrite app_length, L, repeat_length. reflexivity.
    + rewrite E1, E3, E4, f64_le_back, Nat2N.id. destruct (split_app 80 (SgProcess.samples r) (repeat 0%N 7) L) as [E5 _]. rewrite E5.
      destruct r as [t k sm]. cbn [SgProcess.start_time SgProcess.sg_i SgProcess.samples] in *.
      destruct (bool_dec (stored_ok (SgProcess.Reading t k sm)) true) as [H'|H']; [|contradiction]. f_equal. f_equal. apply Eqdep_dec.UIP_dec, bool_dec.
Qed.

(** every processed reading can be stored *)
Lemma stored_bytes : forall vs, forallb (fun b => (b <? 256)%N) (PropSg.stored enc vs) = true.
Proof.
  induction vs as [|v vs IH]; [reflexivity|]. change (PropSg.stored enc (v :: vs)) with (fst (enc v) :: snd (enc v) :: PropSg.stored enc vs).
  cbn [forallb]. rewrite IH. unfold enc. destruct (f16_bytes_small (half_of v)) as [A B]. apply N.ltb_lt in A. apply N.ltb_lt in B. rewrite A, B. reflexivity.
Qed.
Lemma records : forall l : list sgreading, Forall (fun r => stored_ok r = true) l -> exists recs, readings_of recs = l /\ times recs = [].
Proof.
  intros l H. induction H as [|r l Hr H (recs & E & T)]; [exists []; split; reflexivity|].
  exists (SRead (exist _ r Hr) :: recs). split; [cbn [readings_of flat_map proj1_sig app]; f_equal; exact E|exact T].
Qed.
Section Storable.
Context {F : Type} (run : F -> f32 -> F * f32) (add : f32 -> f32 -> f32) (zero : f32) (f0 : F).
Theorem C111_storable : forall (rs : list (@SgProcess.raw f32 f64)) (olds : nat -> nat -> sgreading),
  Forall PropSg.well_formed rs -> (forall n k, length (SgProcess.samples (olds n k)) = 80) ->
  exists s lives outs recs, @SgProcess.lp_run f32 F N f64 run add zero enc olds 0 (SgProcess.lp_new zero f0) rs = Some (s, lives, outs) /\
    readings_of recs = map SgProcess.rd outs /\ times recs = [] /\ length outs = 4 * (length rs / 40).
Proof.
  intros rs olds W O. destruct (PropSg.sg_processing run add zero enc f0 rs olds W O) as (s & lives & outs & R & Lo & _ & D).
  destruct (records (map SgProcess.rd outs)) as (recs & E & T).
  - apply Forall_forall. intros x I. apply in_map_iff in I. destruct I as (d & Ed & Id). apply In_nth_error in Id. destruct Id as [m Em].
    assert (Hm : m < 4 * (length rs / 40)) by (rewrite <- Lo; apply nth_error_Some; congruence).
    destruct (D (m / 4) (m mod 4)) as (d' & r & E1 & E2 & E3 & _).
    { apply Nat.div_lt_upper_bound; lia. } { apply Nat.mod_upper_bound. lia. }
    rewrite <- Nat.div_mod in E1 by lia. pose proof (eq_trans (eq_sym Em) E1) as E1'. injection E1' as <-.
    pose proof (eq_trans (eq_sym Ed) E3) as Qq. rewrite Qq. unfold stored_ok. cbn [SgProcess.samples SgProcess.sg_i].
    rewrite PropSg.stored_length, map_length, seq_length, stored_bytes. pose proof (Nat.mod_upper_bound m 4 ltac:(lia)).
    destruct (Nat.ltb_spec (m mod 4) 256); [reflexivity|lia].
  - exists s, lives, outs, recs. split; [exact R|]. split; [exact E|]. split; [exact T|exact Lo].
Qed.
End Storable.

(** 40 raw reads, the first at 0 ms and the others every second: the hypotheses are met, and row 1 is dated 5 ms although it was read at
    1000 ms: the times of the raw reads after the first of a group are not used. *)
Definition slow : list (@SgProcess.raw f32 f64) := map (fun k => SgProcess.Raw (int64 (Z.of_nat k * 1000)) (fun _ => repeat (B754_zero false : f32) 213)) (seq 0 40).
Definition scale (f : f32) (x : f32) : f32 * f32 := (f, Bmult mode_NE f x).
Definition add32 (x y : f32) : f32 := Bplus mode_NE x y.
Theorem C111_refuted_row_times :
  exists (outs : list (@SgProcess.done f32 N f64)) s lives recs out r t date v,
    SgProcess.lp_run scale add32 (B754_zero false) enc (fun _ _ => SgProcess.Reading (int64 0) 0 (repeat 9%N 80)) 0 (SgProcess.lp_new (B754_zero false) (@of_int 24 128 prec24 emax24 1)) slow = Some (s, lives, outs) /\
    length outs = 4 /\ readings_of recs = map SgProcess.rd outs /\
    pull sg_codec [file_of sg_codec recs] (fun _ => []) (Some out) /\
    nth_error slow 1 = Some r /\ B2R (SgProcess.raw_time r) = 1000%R /\ nth_error (out 0) 1 = Some (t, date, v) /\ B2R t = 5%R.
Proof.
  assert (V : B2R (int64 1000) = 1000%R) by (apply int64_ok; split; apply Z.leb_le; reflexivity).
  assert (V5 : B2R (int64 5) = 5%R) by (apply int64_ok; split; apply Z.leb_le; reflexivity).
  assert (W : Forall PropSg.well_formed slow).
  { apply Forall_forall. intros r I. unfold slow in I. apply in_map_iff in I. destruct I as (k & <- & _). intros c _. apply repeat_length. }
  assert (Ls : length slow = 40) by (unfold slow; rewrite map_length; apply seq_length).
  destruct (C111_storable scale add32 (B754_zero false) (@of_int 24 128 prec24 emax24 1) slow (fun _ _ => SgProcess.Reading (int64 0) 0 (repeat 9%N 80)) W)
    as (s & lives & outs & recs & R & Rd & Tm & Lo).
  { intros n k. apply repeat_length. }
  rewrite Ls in Lo.
  assert (NN : Forall (fun r => is_nan (SgProcess.raw_time r) = false) slow).
  { apply Forall_forall. intros r I. unfold slow in I. apply in_map_iff in I. destruct I as (k & <- & Ik). cbn [SgProcess.raw_time]. apply in_seq in Ik.
    destruct (int64_ok (Z.of_nat k * 1000)) as [[Fk _] _]; [change (2 ^ 53)%Z with 9007199254740992%Z; lia|]. destruct (int64 (Z.of_nat k * 1000)); try reflexivity; discriminate. }
  destruct (C111_samples scale add32 (B754_zero false) (@of_int 24 128 prec24 emax24 1) sg_codec slow (fun _ _ => SgProcess.Reading (int64 0) 0 (repeat 9%N 80)) s lives outs [recs]
              C111_codec W (fun _ _ => repeat_length _ _) NN R) as [[out P] Al].
  { cbn [flat_map]. rewrite app_nil_r. exact Rd. }
  { intros l p [<-|[]] I. rewrite Tm in I. destruct I. }
  destruct (Al _ P) as (out' & E & H). injection E as <-. pose proof (proj2 (H 0 (Nat.lt_0_succ 3))) as H0. rewrite Ls in H0.
  destruct (H0 1 (proj1 (Nat.ltb_lt 1 (40 * (40 / 40))) eq_refl)) as (r0 & date & Er & Eo).
  change (40 * (1 / 40)) with 0 in Er. change (1 mod 40) with 1 in Eo. 
  assert (E0 : SgProcess.raw_time r0 = int64 0).
  { unfold slow in Er. rewrite (map_nth_error _ 0 (seq 0 40) (d := 0) eq_refl) in Er. injection Er as <-. reflexivity. }
  rewrite E0 in Eo.
  assert (E1 : nth_error slow 1 = Some (SgProcess.Raw (int64 1000) (fun _ => repeat (B754_zero false : f32) 213))).
  { unfold slow. rewrite (map_nth_error _ 1 (seq 0 40) (d := 1) eq_refl). reflexivity. }
  exists outs, s, lives, recs, out. eexists. eexists. exists date. eexists. split; [exact R|]. split; [exact Lo|]. split; [exact Rd|]. split; [exact P|].
  split; [exact E1|]. cbn [SgProcess.raw_time].
  split; [exact V|]. split; [exact Eo|].
  assert (Q : B2SF (after5 (int64 0) 1) = B2SF (int64 5)) by (vm_compute; reflexivity).
  apply B2SF_inj in Q. rewrite Q. exact V5.
Qed.

(** A reading with a channel number of 4 or more panics the host, and so does a start time that is not a number in a file with two unix
    times: nothing is written. *)
Lemma zeros_ok t k : k < 256 -> stored_ok (SgProcess.Reading t k (repeat 0%N 80)) = true.
Proof.
  intros H. unfold stored_ok. cbn [SgProcess.samples SgProcess.sg_i]. rewrite repeat_length. apply Nat.ltb_lt in H. rewrite H. reflexivity.
Qed.
Lemma sort_length l p : sort_timestamps_f l = Gives p -> length p = length l.
Proof.
  unfold sort_timestamps_f. destruct (length l <? 2); [intros E; injection E as <-; reflexivity|]. match goal with |- (if ?x then _ else _) = _ -> _ => destruct x; [discriminate|] end.
  intros E. injection E as <-. symmetry. apply Permutation_length, fsort_perm.
Qed.
Lemma pull_one c f o res : pull c [f] o res -> res = None \/ exists p1 p2 l o', parse_sg_data c p1 p2 f l true /\ write_all l o = Some o'.
Proof. intros P. inversion P; subst; try (left; reflexivity). right. eauto 7. Qed.
Lemma parse_log c l p1 p2 out : codec_ok c -> parse_sg_data c p1 p2 (file_of c l) out true -> exists points, sort_timestamps_f (times l) = Gives points /\ dated points l out true.
Proof. intros K D. inversion D as [|points o ok B Dt]; subst. rewrite (C84_log_reads_back c K) in B, Dt. exists points. split; assumption. Qed.
Theorem C111_refuted_channel : forall c t k (H : k < 256) res, codec_ok c -> 4 <= k ->
  pull c [file_of c [SRead (exist _ (SgProcess.Reading t k (repeat 0%N 80)) (zeros_ok t k H))]] (fun _ => []) res -> res = None.
Proof.
  intros c t k H res K L P. destruct (pull_one _ _ _ _ P) as [E|(p1 & p2 & xs & o' & D & W)]; [exact E|exfalso].
  destruct (parse_log _ _ _ _ _ K D) as (points & B & Dt). inversion Dt as [| |r date l out ok G Dt' |]; subst. inversion Dt'; subst.
  cbn [write_all proj1_sig SgProcess.sg_i] in W. destruct (Nat.ltb_spec k 4); [lia|discriminate].
Qed.
Theorem C111_refuted_nan : forall c k (H : k < 256) res, codec_ok c ->
  pull c [file_of c [STime (int64 0, int64 1000); STime (int64 1, int64 1001); SRead (exist _ (SgProcess.Reading B754_nan k (repeat 0%N 80)) (zeros_ok _ k H))]] (fun _ => []) res -> res = None.
Proof.
  intros c k H res K P. destruct (pull_one _ _ _ _ P) as [E|(p1 & p2 & xs & o' & D & W)]; [exact E|exfalso].
  destruct (parse_log _ _ _ _ _ K D) as (points & B & Dt).
  inversion Dt as [|? ? ? ? D1| |]; subst. inversion D1 as [|? ? ? ? D2| |]; subst. inversion D2 as [| |r date l out ok G D3|]; subst.
  cbn [proj1_sig SgProcess.start_time] in G.
  assert (Lp : length points = 2) by (rewrite (sort_length _ _ B); reflexivity).
  inversion G as [Q| |i b u Q Ei Hh|i b0 u0 b1 u1 Q N]; subst; [lia| |discriminate N].
  destruct b; discriminate Hh.
Qed.
Print Assumptions C111_samples.

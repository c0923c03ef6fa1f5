(** * C106: what the host makes of a delta log of the firmware. *)
From Coq Require Import ZArith List Bool Arith Lia Reals Lra Permutation.
From Flocq Require Import Core BinarySingleNaN.
From Flocq Require Binary Bits.
From Verif Require Import Base BitSlice DeltaLogger PropLogger FloatFixed FloatErr PropFloat PropFactory SensorDelta PropSensors FloatLut PropLut HostLog.
Import ListNotations.
Local Open Scope nat_scope.

(** ** Codecs round-trip *)
Lemma z_enc_length n z : length (z_enc n z) = n.
Proof. unfold z_enc. rewrite map_length, seq_length. reflexivity. Qed.
Lemma z_enc_S n z : z_enc (S n) z = Z.testbit z 0 :: z_enc n (Z.div2 z).
Proof.
  unfold z_enc. cbn [seq map]. f_equal. rewrite <- seq_shift, map_map. apply map_ext. intros i.
  rewrite Z.div2_spec, Z.shiftr_spec by lia. f_equal. lia.
Qed.
Lemma z_dec_enc n : forall z, (0 <= z < 2 ^ Z.of_nat n)%Z -> z_dec (z_enc n z) = z.
Proof.
  induction n as [|n IH]; intros z H.
  - cbn. change (2 ^ Z.of_nat 0)%Z with 1%Z in H. lia.
  - rewrite z_enc_S. cbn [z_dec]. rewrite IH.
    + rewrite (Z.div2_odd z) at 3. rewrite <- Z.bit0_odd. lia.
    + rewrite Nat2Z.inj_succ, Z.pow_succ_r in H by lia. pose proof (Z.div2_odd z) as E. destruct (Z.odd z); cbn [Z.b2z] in E; lia.
Qed.

Lemma f64_good : good f64_codec.
Proof.
  intros x. cbn [c_enc c_len c_dec f64_codec]. split; [apply z_enc_length|].
  rewrite z_dec_enc.
  - unfold f64_bits, Bits.b64_of_bits, Bits.bits_of_b64. rewrite Bits.binary_float_of_bits_of_binary_float. apply Binary.B2BSN_BSN2B.
  - unfold f64_bits, Bits.bits_of_b64.
    exact (Bits.bits_of_binary_float_range 52 11 eq_refl eq_refl _).
Qed.
Lemma f32_good : good f32_codec.
Proof.
  intros x. cbn [c_enc c_len c_dec f32_codec]. split; [apply z_enc_length|].
  rewrite z_dec_enc.
  - unfold f32_bits, Bits.b32_of_bits, Bits.bits_of_b32. rewrite Bits.binary_float_of_bits_of_binary_float. apply Binary.B2BSN_BSN2B.
  - unfold f32_bits, Bits.bits_of_b32.
    exact (Bits.bits_of_binary_float_range 23 8 eq_refl eq_refl _).
Qed.
Lemma code_eq n (a b : code n) : proj1_sig a = proj1_sig b -> a = b.
Proof.
  destruct a as [a Ha], b as [b Hb]. cbn [proj1_sig]. intros <-. f_equal. apply Eqdep_dec.UIP_dec, bool_dec.
Qed.
Lemma code_range n (c : code n) : (0 <= proj1_sig c < 2 ^ Z.of_nat n)%Z.
Proof. destruct c as [c H]. cbn [proj1_sig]. apply andb_prop in H. destruct H as [H1 H2]. apply Z.leb_le in H1. apply Z.ltb_lt in H2. lia. Qed.
Lemma pack_small n z : (0 <= z < 2 ^ Z.of_nat n)%Z -> proj1_sig (pack n z) = z.
Proof. intros H. cbn [pack proj1_sig]. apply Z.mod_small, H. Qed.
Lemma code_good n : good (code_codec n).
Proof.
  intros c. cbn [c_enc c_len c_dec code_codec]. split; [apply z_enc_length|].
  rewrite z_dec_enc by apply code_range. apply code_eq, pack_small, code_range.
Qed.
Lemma pair_good {A B} (a : codec A) (b : codec B) : good a -> good b -> good (pair_codec a b).
Proof.
  intros Ga Gb [x y]. destruct (Ga x) as [La Ea]. destruct (Gb y) as [Lb Eb]. cbn [c_enc c_len c_dec pair_codec fst snd].
  split; [rewrite app_length; lia|]. rewrite <- La, firstn_app, Nat.sub_diag, firstn_all, firstn_O, app_nil_r, skipn_app, skipn_all, Nat.sub_diag.
  cbn [skipn app]. rewrite Ea, Eb. reflexivity.
Qed.
Lemma triple_good {A} (a : codec A) : good a -> good (triple_codec a).
Proof. intros G. apply pair_good; [exact G|apply pair_good; exact G]. Qed.

(** ** One step of packed deltas, from any base *)
Local Open Scope R_scope.

(** the decoded value is a number within the declared error plus one rounding (of the value, of the error, of the range) *)
Definition closeto {prec emax} (f : fx prec emax) (e : R) (v r : binary_float prec emax) : Prop :=
  is_finite v = true -> Rabs (B2R v) <= bpow radix2 (emax - 3) ->
  is_finite r = true /\
  Rabs (B2R r - B2R v) <= e + bpow radix2 (- prec) * (Rabs (B2R v) + e + 3 * reach prec emax f) + 2 * bpow radix2 (3 - emax - prec).

Record steady {A X} (d : deltableR A X) (near : A -> A -> Prop) : Prop := Steady {
  st_total : forall l x, exists r, add d l x = RSome r;
  st_refl : forall v, near v v;
  st_step : forall v l x r, sub d v l = RSome x -> add d l x = RSome r -> near v r }.

Lemma packed_steady {prec emax} {Hp : Prec_gt_0 prec} {He : Prec_lt_emax prec emax} (f : fx prec emax) e :
  declared f e -> e <= bpow radix2 (emax - 4) -> steady (packedD f) (closeto f e).
Proof.
  intros Dc Hb. pose proof (declared_pos _ _ f e Dc) as E0. constructor.
  - intros l x. eexists. reflexivity.
  - intros v F B. split; [exact F|]. replace (B2R v - B2R v) with 0 by ring. rewrite Rabs_R0.
    pose proof (bpow_gt_0 radix2 (- prec)) as P1. pose proof (bpow_gt_0 radix2 (3 - emax - prec)) as P2. pose proof (Rabs_pos (B2R v)) as P3. pose proof (reach_pos f) as P4.
    assert (0 <= bpow radix2 (- prec) * (Rabs (B2R v) + e + 3 * reach prec emax f)) by (apply Rmult_le_pos; lra). lra.
  - intros v l x r Hs Ha F B. cbn [sub add packedD] in Hs, Ha. unfold enc in Hs.
    destruct (fx_encode f (Bminus mode_NE v l)) as [|n|] eqn:E; cbn [bindR] in Hs; try discriminate. injection Hs as <-. injection Ha as <-.
    assert (N : (0 <= n < 2 ^ Z.of_nat (width f))%Z).
    { destruct (encode_code prec emax Hp He f e _ n Dc E) as (Fw & Hw).
      destruct (C34_quantisation_ieee_partial prec emax Hp He f e Dc) as (IN & _). destruct (IN _ Fw Hw) as (n' & E' & R & _).
      rewrite E in E'. injection E' as <-. unfold width. rewrite Z2Nat.id; [exact R|]. pose proof (dc_bits f e Dc). lia. }
    pose proof (pack_small _ _ N) as Pk. cbn [pack proj1_sig] in Pk |- *. rewrite Pk.
    destruct (step_near prec emax Hp He f e v l n Dc Hb E B) as (_ & _ & H1 & H2). split; [exact H1|exact H2].
Qed.

Lemma pair_steady {A B X Y} (d1 : deltableR A X) (d2 : deltableR B Y) n1 n2 : steady d1 n1 -> steady d2 n2 ->
  steady (pairD d1 d2) (fun v r => n1 (fst v) (fst r) /\ n2 (snd v) (snd r)).
Proof.
  intros [T1 R1 S1] [T2 R2 S2]. constructor.
  - intros l x. destruct (T1 (fst l) (fst x)) as [a Ea]. destruct (T2 (snd l) (snd x)) as [b Eb]. exists (a, b). cbn [add pairD]. rewrite Ea, Eb. reflexivity.
  - intros v. split; auto.
  - intros v l x r Hs Ha. cbn [sub add pairD] in Hs, Ha.
    destruct (sub d1 (fst v) (fst l)) as [| |x1] eqn:E1; cbn [bindR] in Hs; try discriminate.
    destruct (sub d2 (snd v) (snd l)) as [| |x2] eqn:E2; cbn [bindR] in Hs; try discriminate. injection Hs as <-. cbn [fst snd] in Ha.
    destruct (add d1 (fst l) x1) as [| |a] eqn:A1; cbn [bindR] in Ha; try discriminate.
    destruct (add d2 (snd l) x2) as [| |b] eqn:A2; cbn [bindR] in Ha; try discriminate. injection Ha as <-. cbn [fst snd].
    split; [exact (S1 _ _ _ _ E1 A1)|exact (S2 _ _ _ _ E2 A2)].
Qed.

Lemma opt_some {A} (r : res A) a : opt r = Some a -> r = RSome a.
Proof. destruct r; cbn; congruence. Qed.

Local Open Scope nat_scope.

Lemma as_total {A X} (d : deltableR A X) near : steady d near -> delta_total (as_deltable d).
Proof. intros H v l x _. cbn [d_add as_deltable]. destruct (st_total _ _ H l x) as [r E]. rewrite E. discriminate. Qed.
Lemma as_step {A X} (d : deltableR A X) near : steady d near ->
  forall v base x r, d_sub (as_deltable d) v base = Some x -> d_add (as_deltable d) base x = Some r -> near v r.
Proof. intros H v base x r Hs Ha. exact (st_step _ _ H v base x r (opt_some _ _ Hs) (opt_some _ _ Ha)). Qed.

(** ** The rows of a file *)
Section Rows.
Context {TX D X : Type} (S : setup f64 TX D X fpoint).
Implicit Types (items : list (item f64 D fpoint)).

Lemma lut_no_panic points t r : is_nan t = false -> get_unix_timestamp_f points t r -> r <> Panics.
Proof. intros N H. destruct H; congruence. Qed.

Lemma rows_spec points items out ok : (forall t d, In (IRead t d) items -> is_nan t = false) -> rows points items out ok ->
  ok = true /\ Forall2 (fun i (r : row (D := D)) => exists t d, i = IRead t d /\ fst r = (t, d) /\ get_unix_timestamp_f points t (Gives (snd r))) (filter is_read items) out.
Proof.
  intros N H. induction H as [|u l out ok H IH|t d date l out ok G H IH|t d l G].
  - split; [reflexivity|constructor].
  - cbn [filter is_read]. apply IH. intros t d I. apply (N t d). right. exact I.
  - cbn [filter is_read]. destruct IH as [-> F]; [intros t' d' I; apply (N t' d'); right; exact I|]. split; [reflexivity|].
    constructor; [exists t, d; cbn [fst snd]; auto|exact F].
  - exfalso. exact (lut_no_panic points t _ (N t d (or_introl eq_refl)) G eq_refl).
Qed.

(** the number of points the table was built from decides whether a lookup is dated *)
Lemma lookup_exists recorded q : is_nan q = false -> Forall (fun p => is_nan (fst p) = false) recorded ->
  exists date, flookup recorded q (Gives date) /\ (date = None <-> length recorded < 2).
Proof.
  intros N F. destruct (C61_ieee_total recorded q) as (r & H & H1 & H2). destruct r as [|date].
  - exfalso. destruct (proj1 H2 eq_refl) as [_ [Q|Q]]; [congruence|]. apply Exists_exists in Q. destruct Q as (p & I & Q).
    rewrite Forall_forall in F. specialize (F p I). congruence.
  - exists date. split; [exact H|]. rewrite <- H1. split; [intros ->; reflexivity|congruence].
Qed.

Lemma rows_exist points items : (forall t d, In (IRead t d) items -> exists date, get_unix_timestamp_f points t (Gives date)) ->
  exists out, rows points items out true.
Proof.
  induction items as [|i items IH]; intros H; [exists []; constructor|].
  destruct IH as [out R]; [intros t d I; apply (H t d); right; exact I|].
  destruct i as [t d|u]; [|exists out; constructor; exact R].
  destruct (H t d (or_introl eq_refl)) as [date G]. exists (((t, d), date) :: out). constructor; assumption.
Qed.

Lemma filter_reads t d items : In (IRead t d) items -> In (IRead t d) (filter is_read items).
Proof. intros I. apply filter_In. split; [exact I|reflexivity]. Qed.

(** the unix logs decoded are among those logged *)
Definition logged_times (cs : list (call (T := f64) (D := D) (U := fpoint))) : list fpoint :=
  flat_map (fun c => match c with CUnix u => [u] | _ => [] end) cs.

Lemma vrun_times : forall cs lt ld last pend items acc sf, vrun S (lt, ld, last, pend) cs = Some (items, acc, sf) ->
  forall u, In u (times items) -> In u (logged_times cs) \/ pend = Some u.
Proof.
  induction cs as [|c cs IH]; intros lt ld last pend items acc sf H u I; cbn [vrun] in H.
  - injection H as <- <- <-. destruct I.
  - destruct (vstep S (lt, ld, last, pend) c) as [[[o a] s']|] eqn:E; [|discriminate].
    destruct (vrun S s' cs) as [[[o' a'] sf']|] eqn:E'; [|discriminate]. injection H as <- <- <-.
    unfold times in I. rewrite flat_map_app in I. apply in_app_or in I. unfold logged_times. cbn [flat_map].
    destruct c as [t d|u0|]; cbn [vstep] in E.
    + destruct (match lt with Some l => too_close S t l | None => false end).
      * injection E as <- <- <-. destruct I as [[]|I]. destruct (IH _ _ _ _ _ _ _ E' u I) as [J|J]; [left; exact J|right; exact J].
      * match type of E with (let '(_, _) := ?m in _) = _ => remember m as m1 eqn:E1 end.
        destruct m1 as [o1 [[[lt1 ld1] last1] pend1]]. symmetry in E1.
        destruct (recorded S lt ld t d) as [[t' d']|]; [|discriminate E]. injection E as <- <- <-.
        assert (P : (forall v, In v (times o1) -> pend = Some v) /\ (forall v, pend1 = Some v -> pend = Some v)).
        { destruct pend as [p|].
          - cbn [vunix] in E1. destruct last.
            + assert (o1 = [] /\ pend1 = Some p) as [-> ->] by (split; congruence). split; [intros v []|intros v Hv; exact Hv].
            + assert (o1 = [IUnix p] /\ pend1 = None) as [-> ->] by (split; congruence). split; [intros v [<-|[]]; reflexivity|intros v Hv; discriminate].
          - assert (o1 = [] /\ pend1 = None) as [-> ->] by (split; congruence). split; [intros v []|intros v Hv; discriminate]. }
        destruct P as [P1 P2]. destruct I as [I|I].
        -- rewrite flat_map_app in I. apply in_app_or in I. destruct I as [I|[]]. right. apply P1. exact I.
        -- destruct (IH _ _ _ _ _ _ _ E' u I) as [J|J]; [left; exact J|right; apply P2, J].
    + cbn [vunix] in E. destruct last; injection E as <- <- <-.
      * destruct I as [[]|I]. destruct (IH _ _ _ _ _ _ _ E' u I) as [J|J]; [left; right; exact J|]. injection J as ->. left. left. reflexivity.
      * destruct I as [[<-|[]]|I]; [left; left; reflexivity|]. destruct (IH _ _ _ _ _ _ _ E' u I) as [J|J]; [left; right; exact J|right; exact J].
    + injection E as <- <- <-. destruct I as [[]|I]. destruct (IH _ _ _ _ _ _ _ E' u I) as [J|J]; [left; exact J|right; exact J].
Qed.

Lemma expected_times : forall cs lt ld, times (expected S lt ld cs) = logged_times cs.
Proof.
  induction cs as [|c cs IH]; intros lt ld; cbn [expected]; [reflexivity|]. unfold logged_times. cbn [flat_map]. fold (logged_times cs).
  destruct c as [t d|u|].
  - destruct (match lt with Some l => too_close S t l | None => false end); [apply IH|]. destruct (rebuilt (td S) lt t); cbn; apply IH.
  - cbn [app]. unfold times. cbn [flat_map app]. f_equal. apply IH.
  - apply IH.
Qed.
End Rows.

(** ** C106: any sensor, any declared interval *)
Local Open Scope R_scope.
Definition usable64 (t : f64) : Prop := is_finite t = true /\ Rabs (B2R t) <= bpow radix2 1021.
Local Open Scope nat_scope.

(** what is logged: boot times that are numbers *)
Definition sensible {D} (cs : list (call (T := f64) (D := D) (U := fpoint))) : Prop :=
  Forall (fun c => match c with CLog t _ => usable64 t | CUnix p => is_nan (fst p) = false | CFlush => True end) cs.

Lemma run_logged {T TX D X U} (S : setup T TX D X U) : forall cs l acc lf, run S l cs = Some (acc, lf) -> forall x, In x acc -> In (CLog (fst x) (snd x)) cs.
Proof.
  induction cs as [|c cs IH]; intros l acc lf H x I; cbn [run] in H.
  - injection H as <- <-. destruct I.
  - destruct c as [t d|u|].
    + destruct (log S l t d) as [[b l']|]; [|discriminate]. destruct (run S l' cs) as [[a lf']|] eqn:E; [|discriminate]. injection H as <- <-.
      destruct b; [destruct I as [<-|I]; [left; reflexivity|]|]; right; exact (IH _ _ _ E x I).
    + destruct (log_unix S l u); [|discriminate]. right. exact (IH _ _ _ H x I).
    + destruct (flush l); [|discriminate]. right. exact (IH _ _ _ H x I).
Qed.

Lemma Forall2_map_in {A B C} (P : A -> B -> Prop) (Q : B -> C -> Prop) (R : A -> C -> Prop) la lb lc :
  Forall2 P la lb -> Forall2 Q lb lc -> (forall a b c, In a la -> P a b -> Q b c -> R a c) -> Forall2 R la lc.
Proof.
  intros H. revert lc. induction H as [|a b la lb Hab H IH]; intros lc G K; inversion G; subst; constructor.
  - eapply K; [left; reflexivity|exact Hab|assumption].
  - apply IH; [assumption|]. intros a' b' c' I. apply K. right. exact I.
Qed.

Lemma Forall2_imp {A B} (P Q : A -> B -> Prop) la lb : (forall a b, P a b -> Q a b) -> Forall2 P la lb -> Forall2 Q la lb.
Proof. intros H F. induction F; constructor; auto. Qed.

(** parsing a file whose entries have boot times that are numbers *)
Lemma parse_items {TX D X} (S : setup f64 TX D X fpoint) n bytes items :
  (forall chunk, decode S chunk n bytes = Some items) ->
  (forall t dd, In (IRead t dd) items -> is_nan t = false) -> Forall (fun p : fpoint => is_nan (fst p) = false) (times items) ->
  (forall chunk1 chunk2, exists out, parse_delta_readings S chunk1 chunk2 n bytes out true) /\
  forall chunk1 chunk2 out ok, parse_delta_readings S chunk1 chunk2 n bytes out ok ->
    ok = true /\
    Forall2 (fun i (r : row (D := D)) => exists t d, i = IRead t d /\ fst r = (t, d) /\
               flookup (times items) t (Gives (snd r)) /\ (snd r = None <-> length (times items) < 2)) (filter is_read items) out.
Proof.
  intros Dec NN KN.
  assert (Pts : exists points, sort_timestamps_f (times items) = Gives points).
  { unfold sort_timestamps_f. destruct (length (times items) <? 2); [eexists; reflexivity|].
    match goal with |- context [existsb ?g ?l] => destruct (existsb g l) eqn:EX end; [|eexists; reflexivity].
    apply existsb_exists in EX. destruct EX as (p & Ip & Np). rewrite Forall_forall in KN. specialize (KN p Ip). unfold f64 in *. rewrite KN in Np. discriminate Np. }
  destruct Pts as [points Pts].
  assert (Look : forall t r, get_unix_timestamp_f points t r <-> flookup (times items) t r).
  { intros t r. unfold flookup. rewrite Pts. reflexivity. }
  split.
  - intros chunk1 chunk2. destruct (rows_exist points items) as [out Ro].
    { intros t dd I. destruct (lookup_exists (times items) t (NN t dd I) KN) as (date & H & _). exists date. apply Look, H. }
    exists out. eapply pdr; [apply Dec|exact Pts|apply Dec|exact Ro].
  - intros chunk1 chunk2 out ok P. destruct P as [items1 D1 P1|items1 items2 pts out ok D1 P1 D2 Ro].
    { rewrite Dec in D1. injection D1 as <-. rewrite Pts in P1. discriminate. }
    rewrite Dec in D1, D2. injection D1 as <-. injection D2 as <-. rewrite Pts in P1. injection P1 as <-.
    destruct (rows_spec points items out ok NN Ro) as [-> F]. split; [reflexivity|].
    eapply Forall2_imp; [|exact F]. intros i r (t & d & -> & Er & Gt). exists t, d. apply Look in Gt.
    split; [reflexivity|]. split; [exact Er|]. split; [exact Gt|].
    clear - Gt. unfold flookup, sort_timestamps_f in Gt. destruct (Nat.ltb_spec (length (times items)) 2) as [L|L].
    + split; [intros _; exact L|]. intros _. inversion Gt; subst; try lia. reflexivity.
    + match type of Gt with context [existsb ?g ?l] => destruct (existsb g l) end; [discriminate|].
      split; [|lia]. intros E. rewrite (Permutation_length (fsort_perm (times items))) in *. rewrite E in Gt. inversion Gt. lia.
Qed.

(** what the flushed log of a sensible history decodes to, and when it is cut *)
Lemma log_items {A X} (ff : fx 53 1024) e (d : deltableR A X) near dcod xcod size cs :
  declared ff e -> (e <= bpow radix2 1020)%R -> steady d near -> good dcod -> good xcod ->
  c_len dcod <= 8 * size -> c_len xcod <= 8 * size -> 8 <= size -> sensible cs ->
  let S := delta_log ff d dcod xcod in
  exists acc l items, run S (l_new (size + 10)) (cs ++ [CFlush]) = Some (acc, l) /\ reader_fits S (size + 10) /\
    (forall chunk, decode S chunk (size + 10) (l_out l) = Some items) /\
    incl (times items) (logged_times cs) /\ (adjacent_unix (expected S None None cs) = false -> times items = logged_times cs) /\
    Forall2 (fun logged i => exists t dd, i = IRead t dd /\ closeto ff e (fst logged) t /\ near (snd logged) dd) acc (filter is_read items) /\
    (forall t dd, In (IRead t dd) items -> is_nan t = false) /\ Forall (fun p : fpoint => is_nan (fst p) = false) (times items).
Proof.
  intros Dc Be St Gd Gx Ld Lx L8 Hs S.
  pose proof (packed_steady ff e Dc Be) as Stt. pose proof (dc_bits ff e Dc) as Bits.
  assert (W : width ff <= 32) by (unfold width; lia).
  assert (G : good_setup S).
  { split; [exact f64_good|split; [apply code_good|split; [exact Gd|split; [exact Gx|apply pair_good; exact f64_good]]]]. }
  assert (DT : delta_total (td S)) by exact (as_total _ _ Stt).
  assert (DD : delta_total (dd S)) by exact (as_total _ _ St).
  assert (Sz : sized S size).
  { split; [reflexivity|split; [reflexivity|split; [exact W|split; [exact Ld|exact Lx]]]]. }
  assert (Fit : reader_fits S (size + 10)).
  { unfold reader_fits. cbn [S delta_log tc txc dc xc uc c_len f64_codec code_codec pair_codec]. lia. }
  destruct (run S (l_new (size + 10)) (cs ++ [CFlush])) as [[acc l]|] eqn:R; [|exfalso; exact (C35_never_overflows_partial _ _ _ _ _ S size (cs ++ [CFlush]) G DT DD Sz L8 R)].
  destruct (decode_flushed S (fun _ => 0) (size + 10) (size + 10) cs acc l G Fit R) as (items & sf & V & Dec0).
  assert (Dec : forall chunk, decode S chunk (size + 10) (l_out l) = Some items).
  { intros chunk. destruct (decode_flushed S chunk (size + 10) (size + 10) cs acc l G Fit R) as (items' & sf' & V' & Dec'). rewrite V in V'. injection V' as <- _. exact Dec'. }
  exists acc, l, items. split; [reflexivity|]. split; [exact Fit|]. split; [exact Dec|].
  assert (Inc : incl (times items) (logged_times cs)).
  { intros u I. destruct (vrun_times S cs _ _ _ _ _ _ _ V u I) as [J|J]; [exact J|discriminate]. }
  split; [exact Inc|]. split.
  { intros NA. rewrite (vrun_expected S DT DD _ _ _ _ _ _ _ V (fun u => NA)). apply expected_times. }
  pose proof (vrun_near S (closeto ff e) near DT DD (st_refl _ _ Stt) (st_refl _ _ St) (as_step _ _ Stt) (as_step _ _ St) _ _ _ _ _ V) as Near.
  split; [exact Near|].
  assert (Logged : forall x, In x acc -> usable64 (fst x)).
  { intros x I. pose proof (run_logged S _ _ _ _ R x I) as J. apply in_app_or in J. destruct J as [J|[J|[]]]; [|discriminate].
    unfold sensible in Hs. rewrite Forall_forall in Hs. exact (Hs _ J). }
  split.
  - intros t dd I. apply filter_reads in I. clear - Near Logged I. induction Near as [|x i acc0 l0 (t' & d' & E & Ct & _) H IH]; [destruct I|].
    destruct I as [->|I]; [|apply IH; [intros y Hy; apply Logged; right; exact Hy|exact I]].
    injection E as -> ->. destruct (Logged x (or_introl eq_refl)) as [F B]. destruct (Ct F B) as [F' _]. destruct t'; try reflexivity; discriminate.
  - apply Forall_forall. intros p I. apply Inc in I. unfold logged_times in I. apply in_flat_map in I. destruct I as (c & I & J).
    unfold sensible in Hs. rewrite Forall_forall in Hs. specialize (Hs c I). destruct c; try destruct J as [<-|[]]; try destruct J. exact Hs.
Qed.

(** For every sensor, interval and history of readings and unix times, whatever the pieces the file is read in: the host gets one row per
    reading the logger accepted, in order, each as near to it as its factories declare; the dates are those of the table of the times
    kept in the same file, and all rows are dated or none.  (Partial: times logged without a reading in between may be missing.) *)
Theorem C106_rows_partial : forall A X (ff : fx 53 1024) e (d : deltableR A X) near dcod xcod size cs,
  declared ff e -> (e <= bpow radix2 1020)%R -> steady d near -> good dcod -> good xcod ->
  c_len dcod <= 8 * size -> c_len xcod <= 8 * size -> 8 <= size -> sensible cs ->
  let S := delta_log ff d dcod xcod in
  exists acc l kept, run S (l_new (size + 10)) (cs ++ [CFlush]) = Some (acc, l) /\
    incl kept (logged_times cs) /\ (adjacent_unix (expected S None None cs) = false -> kept = logged_times cs) /\
    (forall chunk1 chunk2, exists out, parse_delta_readings S chunk1 chunk2 (size + 10) (l_out l) out true) /\
    forall chunk1 chunk2 out ok, parse_delta_readings S chunk1 chunk2 (size + 10) (l_out l) out ok ->
      ok = true /\
      Forall2 (fun (logged : f64 * A) (r : row) => closeto ff e (fst logged) (fst (fst r)) /\ near (snd logged) (snd (fst r)) /\
                 flookup kept (fst (fst r)) (Gives (snd r)) /\ (snd r = None <-> length kept < 2)) acc out.
Proof.
  intros A X ff e d near dcod xcod size cs Dc Be St Gd Gx Ld Lx L8 Hs S.
  destruct (log_items ff e d near dcod xcod size cs Dc Be St Gd Gx Ld Lx L8 Hs) as (acc & l & items & R & _ & Dec & Inc & Adj & Near & NN & KN).
  exists acc, l, (times items). split; [exact R|]. split; [exact Inc|]. split; [exact Adj|].
  destruct (parse_items S (size + 10) (l_out l) items Dec NN KN) as [Ex P]. split; [exact Ex|].
  intros chunk1 chunk2 out ok H. destruct (P chunk1 chunk2 out ok H) as [-> F]. split; [reflexivity|].
  eapply Forall2_map_in; [exact Near|exact F|]. intros x i r I (t & dd & -> & Ct & Nd) (t' & d' & E & Er & Gt & N). injection E as <- <-.
  rewrite Er. cbn [fst snd]. split; [exact Ct|]. split; [exact Nd|]. split; [exact Gt|exact N].
Qed.

Lemma Forall2_firstn {A B} (P : A -> B -> Prop) a b1 b2 : Forall2 P a (b1 ++ b2) -> Forall2 P (firstn (length b1) a) b1.
Proof.
  revert a. induction b1 as [|x b1 IH]; intros a H; cbn [app] in H.
  - destruct a; constructor.
  - inversion H; subst. cbn [length firstn]. constructor; [assumption|apply IH; assumption].
Qed.

(** A file cut anywhere by a power loss: the rows of a prefix of the accepted readings; never a panic. *)
Theorem C106_cut_file : forall A X (ff : fx 53 1024) e (d : deltableR A X) near dcod xcod size cs,
  declared ff e -> (e <= bpow radix2 1020)%R -> steady d near -> good dcod -> good xcod ->
  c_len dcod <= 8 * size -> c_len xcod <= 8 * size -> 8 <= size -> sensible cs ->
  let S := delta_log ff d dcod xcod in
  exists acc l, run S (l_new (size + 10)) (cs ++ [CFlush]) = Some (acc, l) /\
    forall k, exists n kept, incl kept (logged_times cs) /\
      (forall chunk1 chunk2, exists out, parse_delta_readings S chunk1 chunk2 (size + 10) (firstn k (l_out l)) out true) /\
      forall chunk1 chunk2 out ok, parse_delta_readings S chunk1 chunk2 (size + 10) (firstn k (l_out l)) out ok ->
        ok = true /\
        Forall2 (fun (logged : f64 * A) (r : row) => closeto ff e (fst logged) (fst (fst r)) /\ near (snd logged) (snd (fst r)) /\
                   flookup kept (fst (fst r)) (Gives (snd r)) /\ (snd r = None <-> length kept < 2)) (firstn n acc) out.
Proof.
  intros A X ff e d near dcod xcod size cs Dc Be St Gd Gx Ld Lx L8 Hs S.
  destruct (log_items ff e d near dcod xcod size cs Dc Be St Gd Gx Ld Lx L8 Hs) as (acc & l & items & R & Fit & Dec & Inc & Adj & Near & NN & KN).
  exists acc, l. split; [exact R|]. intros k.
  destruct (C36_truncated_log_decodes_to_prefix _ _ _ _ _ S (fun _ => 0) (fun _ => 0) (size + 10) (l_out l) k Fit) as (a & b & E1 & E2).
  assert (EI : items = a ++ b) by (assert (H : Some (a ++ b) = Some items) by (rewrite <- E1; exact (Dec (fun _ => 0))); injection H as <-; reflexivity).
  assert (DecA : forall chunk, decode S chunk (size + 10) (firstn k (l_out l)) = Some a).
  { intros chunk. destruct (C36_truncated_log_decodes_to_prefix _ _ _ _ _ S (fun _ => 0) chunk (size + 10) (firstn k (l_out l)) (length (firstn k (l_out l))) Fit) as (a' & b' & F1 & F2).
    rewrite firstn_all in F2. destruct (C36_truncated_log_decodes_to_prefix _ _ _ _ _ S chunk (fun _ => 0) (size + 10) (firstn k (l_out l)) (length (firstn k (l_out l))) Fit) as (a2 & b2 & G1 & G2).
    rewrite firstn_all in G2. rewrite E2 in F1, G2. injection F1 as F1. injection G2 as <-. rewrite G1 in F2. injection F2 as <-.
    rewrite G1. f_equal. rewrite <- app_assoc in F1. rewrite <- (app_nil_r a) in F1 at 1. apply app_inv_head in F1. symmetry in F1. apply app_eq_nil in F1. destruct F1 as [-> ->]. apply app_nil_r. }
  subst items. unfold times in Inc, KN. rewrite flat_map_app in Inc, KN. fold (times a) in Inc, KN. fold (times b) in Inc, KN.
  rewrite filter_app in Near. apply Forall2_firstn in Near. apply Forall_app in KN. destruct KN as [KN _].
  exists (length (filter is_read a)), (times a). split; [intros x Hx; apply Inc, in_or_app; left; exact Hx|].
  destruct (parse_items S (size + 10) (firstn k (l_out l)) a DecA (fun t dd I => NN t dd (in_or_app _ _ _ (or_introl I))) KN) as [Ex P]. split; [exact Ex|].
  intros chunk1 chunk2 out ok H. destruct (P chunk1 chunk2 out ok H) as [-> F]. split; [reflexivity|].
  eapply Forall2_map_in; [exact Near|exact F|]. intros x i r I (t & dd & -> & Ct & Nd) (t' & d' & E & Er & Gt & N). injection E as <- <-.
  rewrite Er. cbn [fst snd]. split; [exact Ct|]. split; [exact Nd|]. split; [exact Gt|exact N].
Qed.

(** ** The flight logs: avionics/mod.rs:130, 194, 208 with pull_flight_data.rs *)
Definition flight_baro := baro_log sensors_ff1_fac baro_temperature_fac pressure_fac.
Definition flight_imu := imu_log sensors_ff1_fac acc_gyro_fac acc_gyro_fac.

Local Open Scope R_scope.
Lemma le_int {prec emax} {Hp : Prec_gt_0 prec} {He : Prec_lt_emax prec emax} (x : binary_float prec emax) (k : Z) :
  is_finite x = true -> (Z.abs k <= 2 ^ prec)%Z -> Bleb (Babs x) (@of_int prec emax Hp He k) = true -> Rabs (B2R x) <= IZR k.
Proof.
  intros F K H. destruct (of_int_ok prec emax Hp He k K) as (Fk & Ek).
  assert (Fa : is_finite (Babs x) = true) by (destruct x; try discriminate F; reflexivity).
  rewrite (Bleb_correct _ _ _ _ Fa Fk) in H. rewrite B2R_Babs, Ek in H. destruct (Rle_bool_spec (Rabs (B2R x)) (IZR k)) as [L|L]; [exact L|discriminate].
Qed.
Lemma reach_le {prec emax} {Hp : Prec_gt_0 prec} {He : Prec_lt_emax prec emax} (f : fx prec emax) (k : Z) :
  is_finite (fx_min f) = true -> is_finite (fx_max f) = true -> (Z.abs k <= 2 ^ prec)%Z ->
  Bleb (Babs (fx_min f)) (@of_int prec emax Hp He k) && Bleb (Babs (fx_max f)) (@of_int prec emax Hp He k) = true -> reach prec emax f <= IZR k.
Proof. intros F1 F2 K H. apply andb_prop in H. destruct H as [H1 H2]. unfold reach. apply Rmax_lub; apply le_int; assumption. Qed.
Lemma reach_ff1 : reach 53 1024 sensors_ff1_fac <= 7.
Proof. apply (reach_le sensors_ff1_fac 7); vm_compute; try reflexivity; discriminate. Qed.
Lemma reach_temperature : reach 24 128 baro_temperature_fac <= 1.
Proof. apply (reach_le baro_temperature_fac 1); vm_compute; try reflexivity; discriminate. Qed.
Lemma reach_pressure : reach 24 128 pressure_fac <= 20.
Proof. apply (reach_le pressure_fac 20); vm_compute; try reflexivity; discriminate. Qed.
Lemma reach_acc : reach 24 128 acc_gyro_fac <= 1.
Proof. apply (reach_le acc_gyro_fac 1); vm_compute; try reflexivity; discriminate. Qed.

(** a number of magnitude at most [m] *)
Definition upto {prec emax} (m : R) (v : binary_float prec emax) : Prop := is_finite v = true /\ Rabs (B2R v) <= m.
Definition off {prec emax} (m : R) (v r : binary_float prec emax) : Prop := is_finite r = true /\ Rabs (B2R r - B2R v) <= m.

Lemma closeto_off {prec emax} (f : fx prec emax) e w (v r : binary_float prec emax) m M : closeto f e v r -> reach prec emax f <= w -> upto m v ->
  m <= bpow radix2 (emax - 3) -> e + bpow radix2 (- prec) * (m + e + 3 * w) + 2 * bpow radix2 (3 - emax - prec) <= M -> off M v r.
Proof.
  intros C W [F B] Bm HM. destruct (C F) as [F' H]; [lra|]. split; [exact F'|]. eapply Rle_trans; [exact H|]. eapply Rle_trans; [|exact HM].
  apply Rplus_le_compat_r, Rplus_le_compat_l, Rmult_le_compat_l; [apply bpow_ge_0|lra].
Qed.
Lemma tiny1 : bpow radix2 (3 - 1024 - 53) <= / 1000000000.
Proof. apply Rle_trans with (bpow radix2 (-30)); [apply bpow_le; lia|cbn; lra]. Qed.
Lemma tiny2 : bpow radix2 (3 - 128 - 24) <= / 1000000000.
Proof. apply Rle_trans with (bpow radix2 (-30)); [apply bpow_le; lia|cbn; lra]. Qed.
Lemma u64 : bpow radix2 (- (53)) = / 9007199254740992. Proof. reflexivity. Qed.
Lemma u32 : bpow radix2 (- (24)) = / 16777216. Proof. reflexivity. Qed.
Lemma big m e : (0 <= e)%Z -> m <= IZR (2 ^ 60) -> (60 <= e)%Z -> m <= bpow radix2 e.
Proof. intros _ H E. eapply Rle_trans; [exact H|]. rewrite (IZR_Zpower radix2) by lia. apply bpow_le. exact E. Qed.

(** boot time in ms, up to 34 years *)
Definition time_ok (t : f64) : Prop := upto 1099511627776 t.
Lemma time_off t r : closeto sensors_ff1_fac (5 / 100) t r -> time_ok t -> off (502 / 10000) t r.
Proof.
  intros C H. pose proof tiny1. apply (closeto_off sensors_ff1_fac (5 / 100) 7 t r 1099511627776 (502 / 10000) C reach_ff1 H).
  - apply big; [lia|change (IZR (2 ^ 60)) with 1152921504606846976; lra|lia].
  - rewrite u64. lra.
Qed.
Local Open Scope nat_scope.

(** readings a barometer gives: within 1000 degrees and 2 bar *)
Definition baro_ok (d : f32 * f32) : Prop := upto 1000 (fst d) /\ upto 200000 (snd d).
Definition imu_ok (d : (f32 * (f32 * f32)) * (f32 * (f32 * f32))) : Prop :=
  let ok x := upto 10000 x in
  ok (fst (fst d)) /\ ok (fst (snd (fst d))) /\ ok (snd (snd (fst d))) /\ ok (fst (snd d)) /\ ok (fst (snd (snd d))) /\ ok (snd (snd (snd d))).
Definition history {D} (ok : D -> Prop) (cs : list (call (T := f64) (D := D) (U := fpoint))) : Prop :=
  Forall (fun c => match c with CLog t d => time_ok t /\ ok d | CUnix p => is_nan (fst p) = false | CFlush => True end) cs.

(** the host's row is that of the reading: time within 0.0502 ms, temperature within 0.0502, pressure within 1.02, each a number *)
Definition baro_row (logged row : f64 * (f32 * f32)) : Prop :=
  off (502 / 10000) (fst logged) (fst row) /\ off (502 / 10000) (fst (snd logged)) (fst (snd row)) /\ off (102 / 100) (snd (snd logged)) (snd (snd row)).
Definition imu_row (logged row : f64 * ((f32 * (f32 * f32)) * (f32 * (f32 * f32)))) : Prop :=
  let near v r := off (11 / 1000) v r in
  let l := snd logged in let r := snd row in
  off (502 / 10000) (fst logged) (fst row) /\
  near (fst (fst l)) (fst (fst r)) /\ near (fst (snd (fst l))) (fst (snd (fst r))) /\ near (snd (snd (fst l))) (snd (snd (fst r))) /\
  near (fst (snd l)) (fst (snd r)) /\ near (fst (snd (snd l))) (fst (snd (snd r))) /\ near (snd (snd (snd l))) (snd (snd (snd r))).

Lemma history_sensible {D} (ok : D -> Prop) cs : history ok cs -> sensible cs.
Proof.
  intros H. unfold sensible. eapply Forall_impl; [|exact H]. intros [t d|p|] HH; try exact HH. destruct HH as [[F B] _]. split; [exact F|].
  eapply Rle_trans; [exact B|]. apply big; [lia| |lia]. change (IZR (2 ^ 60)) with 1152921504606846976%R. lra.
Qed.
Lemma history_acc {D TX X} (S : setup f64 TX D X fpoint) (ok : D -> Prop) cs n acc l : history ok cs -> run S (l_new n) (cs ++ [CFlush]) = Some (acc, l) ->
  forall x, In x acc -> time_ok (fst x) /\ ok (snd x).
Proof.
  intros H R x I. pose proof (run_logged S _ _ _ _ R x I) as J. apply in_app_or in J. destruct J as [J|[J|[]]]; [|discriminate].
  unfold history in H. rewrite Forall_forall in H. exact (H _ J).
Qed.
Lemma temperature_off v r : closeto baro_temperature_fac (5 / 100) v r -> upto 1000 v -> off (502 / 10000) v r.
Proof.
  intros C H. pose proof tiny2. apply (closeto_off baro_temperature_fac (5 / 100) 1 v r 1000 (502 / 10000) C reach_temperature H).
  - apply big; [lia|change (IZR (2 ^ 60)) with 1152921504606846976%R; lra|lia].
  - rewrite u32. lra.
Qed.
Lemma pressure_off v r : closeto pressure_fac 1 v r -> upto 200000 v -> off (102 / 100) v r.
Proof.
  intros C H. pose proof tiny2. apply (closeto_off pressure_fac 1 20 v r 200000 (102 / 100) C reach_pressure H).
  - apply big; [lia|change (IZR (2 ^ 60)) with 1152921504606846976%R; lra|lia].
  - rewrite u32. lra.
Qed.
Lemma acc_off v r : closeto acc_gyro_fac (1 / 100) v r -> upto 10000 v -> off (11 / 1000) v r.
Proof.
  intros C H. pose proof tiny2. apply (closeto_off acc_gyro_fac (1 / 100) 1 v r 10000 (11 / 1000) C reach_acc H).
  - apply big; [lia|change (IZR (2 ^ 60)) with 1152921504606846976%R; lra|lia].
  - rewrite u32. lra.
Qed.
Lemma small_e (e : R) k : (e <= 1 -> (0 <= k)%Z -> e <= bpow radix2 k)%R.
Proof. intros H K. eapply Rle_trans; [exact H|]. change 1%R with (bpow radix2 0). apply bpow_le, K. Qed.
Lemma e_time : (5 / 100 <= bpow radix2 1020)%R. Proof. apply small_e; [lra|lia]. Qed.
Lemma e_temperature : (5 / 100 <= bpow radix2 (128 - 4))%R. Proof. apply small_e; [lra|lia]. Qed.
Lemma e_pressure : (1 <= bpow radix2 (128 - 4))%R. Proof. apply small_e; [lra|lia]. Qed.
Lemma e_acc : (1 / 100 <= bpow radix2 (128 - 4))%R. Proof. apply small_e; [lra|lia]. Qed.

(** One flight: any history of readings and times, one CSV line per accepted reading. *)
Theorem C106_barometer_csv : forall cs, history baro_ok cs ->
  exists acc l kept, run flight_baro (l_new 18) (cs ++ [CFlush]) = Some (acc, l) /\ incl kept (logged_times cs) /\
    (adjacent_unix (expected flight_baro None None cs) = false -> kept = logged_times cs) /\
    (forall chunk1 chunk2, exists out, parse_delta_readings flight_baro chunk1 chunk2 18 (l_out l) out true) /\
    forall chunk1 chunk2 out ok, parse_delta_readings flight_baro chunk1 chunk2 18 (l_out l) out ok -> ok = true /\
      Forall2 (fun logged r => baro_row logged (fst r) /\ flookup kept (fst (fst r)) (Gives (snd r)) /\ (snd r = None <-> length kept < 2)) acc out.
Proof.
  intros cs H.
  destruct (C106_rows_partial _ _ sensors_ff1_fac (5 / 100) (pairD (packedD baro_temperature_fac) (packedD pressure_fac)) _
    (pair_codec f32_codec f32_codec) (pair_codec (code_codec (width baro_temperature_fac)) (code_codec (width pressure_fac))) 8 cs
    (proj1 sensors_ff1_declared) e_time
    (pair_steady _ _ _ _ (packed_steady _ _ (proj1 baro_temperature_declared) e_temperature) (packed_steady _ _ (proj1 pressure_declared) e_pressure))
    (pair_good _ _ f32_good f32_good) (pair_good _ _ (code_good _) (code_good _))) as (acc & l & kept & R & Inc & Adj & Ex & P).
  - cbn [c_len pair_codec f32_codec]. lia.
  - cbn [c_len pair_codec code_codec]. unfold width. rewrite (proj2 baro_temperature_declared), (proj2 pressure_declared). cbn. lia.
  - lia.
  - exact (history_sensible _ _ H).
  - exists acc, l, kept. split; [exact R|]. split; [exact Inc|]. split; [exact Adj|]. split; [exact Ex|].
    intros chunk1 chunk2 out ok Q. destruct (P chunk1 chunk2 out ok Q) as [-> F]. split; [reflexivity|].
    pose proof (history_acc _ _ _ _ _ _ H R) as HA.
    assert (Self : forall l0 : list (f64 * (f32 * f32)), Forall2 (@eq _) l0 l0) by (induction l0; constructor; auto).
    eapply Forall2_map_in; [exact (Self acc)|exact F|]. intros x b r I <- (Ct & (C1 & C2) & G & N). destruct (HA x I) as (Ht & H1 & H2).
    split; [|split; [exact G|exact N]]. split; [exact (time_off _ _ Ct Ht)|]. split; [exact (temperature_off _ _ C1 H1)|exact (pressure_off _ _ C2 H2)].
Qed.

Theorem C106_imu_csv : forall cs, history imu_ok cs ->
  exists acc l kept, run flight_imu (l_new 34) (cs ++ [CFlush]) = Some (acc, l) /\ incl kept (logged_times cs) /\
    (adjacent_unix (expected flight_imu None None cs) = false -> kept = logged_times cs) /\
    (forall chunk1 chunk2, exists out, parse_delta_readings flight_imu chunk1 chunk2 34 (l_out l) out true) /\
    forall chunk1 chunk2 out ok, parse_delta_readings flight_imu chunk1 chunk2 34 (l_out l) out ok -> ok = true /\
      Forall2 (fun logged r => imu_row logged (fst r) /\ flookup kept (fst (fst r)) (Gives (snd r)) /\ (snd r = None <-> length kept < 2)) acc out.
Proof.
  intros cs H.
  pose proof (packed_steady acc_gyro_fac _ (proj1 acc_gyro_declared) e_acc) as St1.
  pose proof (pair_steady _ _ _ _ St1 (pair_steady _ _ _ _ St1 St1)) as St3.
  pose proof (pair_steady _ _ _ _ St3 St3) as St.
  destruct (C106_rows_partial _ _ sensors_ff1_fac (5 / 100) _ _
    (pair_codec (triple_codec f32_codec) (triple_codec f32_codec)) (pair_codec (triple_codec (code_codec (width acc_gyro_fac))) (triple_codec (code_codec (width acc_gyro_fac)))) 24 cs
    (proj1 sensors_ff1_declared) e_time St
    (pair_good _ _ (triple_good _ f32_good) (triple_good _ f32_good)) (pair_good _ _ (triple_good _ (code_good _)) (triple_good _ (code_good _)))) as (acc & l & kept & R & Inc & Adj & Ex & P).
  - cbn [c_len pair_codec triple_codec f32_codec]. lia.
  - cbn [c_len pair_codec triple_codec code_codec]. unfold width. rewrite (proj2 acc_gyro_declared). cbn. lia.
  - lia.
  - exact (history_sensible _ _ H).
  - exists acc, l, kept. split; [exact R|]. split; [exact Inc|]. split; [exact Adj|]. split; [exact Ex|].
    intros chunk1 chunk2 out ok Q. destruct (P chunk1 chunk2 out ok Q) as [-> F]. split; [reflexivity|].
    pose proof (history_acc _ _ _ _ _ _ H R) as HA.
    assert (Self : forall l0 : list (f64 * ((f32 * (f32 * f32)) * (f32 * (f32 * f32)))), Forall2 (@eq _) l0 l0) by (induction l0; constructor; auto).
    eapply Forall2_map_in; [exact (Self acc)|exact F|]. intros x b r I <- (Ct & Nr & G & N).
    destruct (HA x I) as (Ht & Hd). unfold imu_ok in Hd. cbv zeta in Hd. destruct Hd as (H1 & H2 & H3 & H4 & H5 & H6). cbn beta in Nr. destruct Nr as ((N1 & N2 & N3) & N4 & N5 & N6).
    split; [|split; [exact G|exact N]]. unfold imu_row. cbv zeta. split; [exact (time_off _ _ Ct Ht)|].
    split; [exact (acc_off _ _ N1 H1)|]. split; [exact (acc_off _ _ N2 H2)|]. split; [exact (acc_off _ _ N3 H3)|].
    split; [exact (acc_off _ _ N4 H4)|]. split; [exact (acc_off _ _ N5 H5)|exact (acc_off _ _ N6 H6)].
Qed.

(** Several files make one CSV: the rows of each file in the order pulled, each file dated from its own times. *)
Theorem C106_csv_of_files : forall TX D X (S : setup f64 TX D X fpoint) n (P : list byte -> list (row (D := D)) -> Prop) files out ok,
  (forall f chunk1 chunk2 rs k, In f files -> parse_delta_readings S chunk1 chunk2 n f rs k -> k = true /\ P f rs) ->
  csv S n files out ok -> ok = true /\ exists groups, out = concat groups /\ Forall2 P files groups.
Proof.
  intros TX D X S n P files out ok H C. induction C as [|c1 c2 f fs a b ok Pa C IH|c1 c2 f fs a Pa].
  - split; [reflexivity|]. exists []. split; [reflexivity|constructor].
  - destruct (H f c1 c2 a true (or_introl eq_refl) Pa) as [_ Pf]. destruct IH as (-> & groups & -> & F); [intros f' x1 x2 rs k I; apply H; right; exact I|].
    split; [reflexivity|]. exists (a :: groups). split; [reflexivity|constructor; assumption].
  - destruct (H f c1 c2 a false (or_introl eq_refl) Pa) as [E _]. discriminate.
Qed.

(** *** Concrete flights *)
Definition t64 (ms : Z) : f64 := @of_int 53 1024 prec53 emax53 ms.
Definition v32 (n : Z) : f32 := @of_int 24 128 prec24 emax24 n.
Definition first_flight : list (call (T := f64) (D := f32 * f32) (U := fpoint)) :=
  [CLog (t64 1000) (v32 20, v32 101325); CUnix (t64 1001, t64 1700000001); CLog (t64 1005) (v32 20, v32 101320); CLog (t64 1010) (v32 20, v32 101310)].

Lemma int_upto {prec emax} {Hp : Prec_gt_0 prec} {He : Prec_lt_emax prec emax} (k : Z) m : (Z.abs k <= 2 ^ prec)%Z -> (Rabs (IZR k) <= m)%R ->
  upto m (@of_int prec emax Hp He k).
Proof. intros K H. destruct (of_int_ok prec emax Hp He k K) as (F & E). split; [exact F|]. rewrite E. exact H. Qed.
Ltac t_ok := unfold time_ok, t64, v32; apply int_upto; [cbn; lia|apply Rabs_le; lra].
Example first_flight_ok : history baro_ok first_flight.
Proof.
  unfold history, first_flight, baro_ok. repeat (apply Forall_cons; [cbn [fst snd]|]); [ | | | |apply Forall_nil].
  - split; [t_ok|split; t_ok].
  - vm_compute. reflexivity.
  - split; [t_ok|split; t_ok].
  - split; [t_ok|split; t_ok].
Qed.
Definition second_flight : list (call (T := f64) (D := f32 * f32) (U := fpoint)) :=
  [CLog (t64 2000) (v32 20, v32 101325); CUnix (t64 2001, t64 1700001001); CLog (t64 2005) (v32 20, v32 101320); CUnix (t64 2006, t64 1700001006); CLog (t64 2010) (v32 20, v32 101310)].
Example second_flight_ok : history baro_ok second_flight.
Proof.
  unfold history, second_flight, baro_ok. repeat (apply Forall_cons; [cbn [fst snd]|]); [ | | | | |apply Forall_nil].
  - split; [t_ok|split; t_ok].
  - vm_compute. reflexivity.
  - split; [t_ok|split; t_ok].
  - vm_compute. reflexivity.
  - split; [t_ok|split; t_ok].
Qed.

(** the file a flight leaves, and the number of readings accepted *)
Definition file_of (cs : list (call (T := f64) (D := f32 * f32) (U := fpoint))) : list byte := match run flight_baro (l_new 18) (cs ++ [CFlush]) with Some (_, l) => l_out l | None => [] end.
Definition accepted (cs : list (call (T := f64) (D := f32 * f32) (U := fpoint))) : nat := match run flight_baro (l_new 18) (cs ++ [CFlush]) with Some (acc, _) => length acc | None => 0 end.

Lemma flight_rows (cs : list (call (T := f64) (D := f32 * f32) (U := fpoint))) : history baro_ok cs -> adjacent_unix (expected flight_baro None None cs) = false ->
  (forall chunk1 chunk2, exists out, parse_delta_readings flight_baro chunk1 chunk2 18 (file_of cs) out true) /\
  forall chunk1 chunk2 out ok, parse_delta_readings flight_baro chunk1 chunk2 18 (file_of cs) out ok -> ok = true /\
    (length out = accepted cs /\ Forall (fun r => snd r = None <-> length (logged_times cs) < 2) out).
Proof.
  intros H A. destruct (C106_barometer_csv cs H) as (acc & l & kept & R & _ & K & Ex & P). specialize (K A). subst kept. assert (EF : file_of cs = l_out l) by (unfold file_of; change (f32 * f32)%type with (binary_float 24 128 * binary_float 24 128)%type in R |- *; rewrite R; reflexivity). assert (EA : accepted cs = length acc) by (unfold accepted; change (f32 * f32)%type with (binary_float 24 128 * binary_float 24 128)%type in R |- *; rewrite R; reflexivity). rewrite EF, EA.
  split; [exact Ex|]. intros c1 c2 out ok Q. destruct (P c1 c2 out ok Q) as [-> F]. split; [reflexivity|]. clear - F. split.
  - clear - F. induction F; cbn [length]; [reflexivity|f_equal; assumption].
  - induction F as [|x y la lb (_ & _ & N) F IH]; constructor; [exact N|exact IH].
Qed.

(** Times are not shared between the files of a flight: after a flight whose second file has its two times, the readings of the first file
    are still undated. *)
Theorem C106_refuted_times_per_file :
  let files := [file_of first_flight; file_of second_flight] in
  (exists out, csv flight_baro 18 files out true) /\
  forall out ok, csv flight_baro 18 files out ok -> ok = true /\
    exists a b, out = a ++ b /\ length a = 3 /\ length b = 3 /\ Forall (fun r => snd r = None) a /\ Forall (fun r => snd r <> None) b.
Proof.
  assert (A1 : adjacent_unix (expected flight_baro None None first_flight) = false) by (vm_compute; reflexivity).
  assert (A2 : adjacent_unix (expected flight_baro None None second_flight) = false) by (vm_compute; reflexivity).
  destruct (flight_rows _ first_flight_ok A1) as [E1 P1]. destruct (flight_rows _ second_flight_ok A2) as [E2 P2].
  assert (N1 : accepted first_flight = 3) by (vm_compute; reflexivity). assert (N2 : accepted second_flight = 3) by (vm_compute; reflexivity).
  intros files. subst files. revert E1 P1 E2 P2. generalize (file_of first_flight) (file_of second_flight). intros f1 f2 E1 P1 E2 P2.
  rewrite N1 in P1. rewrite N2 in P2. clear N1 N2 A1 A2. split.
  - destruct (E1 (fun _ => 0) (fun _ => 0)) as [o1 Q1]. destruct (E2 (fun _ => 0) (fun _ => 0)) as [o2 Q2].
    exists (o1 ++ o2 ++ []). eapply csv_file; [exact Q1|]. eapply csv_file; [exact Q2|constructor].
  - intros out ok C. inversion C as [|c1 c2 f fs a b ok' Pa C'|c1 c2 f fs a Pa]; subst.
    2:{ destruct (P1 _ _ _ _ Pa) as [X _]. discriminate X. }
    inversion C' as [|c3 c4 f fs a2 b2 ok2 Pa2 C''|c3 c4 f fs a2 Pa2]; subst.
    2:{ destruct (P2 _ _ _ _ Pa2) as [X _]. discriminate X. }
    inversion C''; subst. split; [reflexivity|]. destruct (P1 _ _ _ _ Pa) as (_ & L1 & F1). destruct (P2 _ _ _ _ Pa2) as (_ & L2 & F2).
    exists a, a2. rewrite app_nil_r. split; [reflexivity|]. split; [exact L1|]. split; [exact L2|]. split.
    + eapply Forall_impl; [|exact F1]. intros r E. apply E. cbn. lia.
    + eapply Forall_impl; [|exact F2]. intros r E X. apply E in X. cbn in X. lia.
Qed.

(** baro_tier_2.csv is made from the files of the first tier, read with the interval of the second (pull_flight_data.rs:50-77; the files
    of the second tier, type 14, are never pulled).  Of three readings taken 5 ms apart while the pressure falls, it shows two, more than
    190 ms apart, with the pressure rising. *)
Definition tier2_baro := baro_log sensors_ff2_fac baro_temperature_fac pressure_fac.
Definition garbled (items : option (list (item f64 (f32 * f32) fpoint))) : bool :=
  match items with
  | Some [IRead t1 d1; IUnix _; IRead t2 d2] => Bltb (t64 190) (Bminus mode_NE t2 t1) && Bltb (snd d1) (snd d2)
  | _ => false end.
Theorem C106_refuted_tier_2_csv : accepted first_flight = 3 /\ garbled (decode tier2_baro (fun _ => 0) 18 (file_of first_flight)) = true.
Proof. split; vm_compute; reflexivity. Qed.

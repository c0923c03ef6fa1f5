(** * C61 in IEEE-754 double arithmetic. *)
From Coq Require Import ZArith List Arith Bool Reals Lra Lia Permutation Sorted.
From Flocq Require Import Core Relative Plus_error BinarySingleNaN.
From Verif Require Import FloatFixed FloatErr FloatLut.
Import ListNotations.
Local Open Scope R_scope.

(** ** Rounding of one interpolation, in any format *)
Section Interp.
Variable prec emax : Z.
Context (Hprec : Prec_gt_0 prec) (Hemax : Prec_lt_emax prec emax).
Notation float := (binary_float prec emax).
Notation rnd := (round radix2 (SpecFloat.fexp prec emax) ZnearestE).
Notation u := (uro prec).
Notation eta := (eta prec emax).
Notation big := (bpow radix2 (emax - 1)).
Hypothesis Hu : u <= / 1000.

(** a sum has a purely relative error *)
Lemma sum_rel (x y : float) : Rabs (rnd (B2R x + B2R y) - (B2R x + B2R y)) <= u * Rabs (B2R x + B2R y).
Proof.
  destruct (FLT_plus_error_N_ex radix2 (SpecFloat.emin prec emax) prec (fun z => negb (Z.even z)) (B2R x) (B2R y)
              (B2R_format prec emax x) (B2R_format prec emax y)) as (e & He & E).
  change (rnd (B2R x + B2R y)) with (round radix2 (FLT_exp (SpecFloat.emin prec emax) prec) (Znearest (fun z => negb (Z.even z))) (B2R x + B2R y)).
  rewrite E. replace ((B2R x + B2R y) * (1 + e) - (B2R x + B2R y)) with (e * (B2R x + B2R y)) by ring.
  rewrite Rabs_mult. apply Rmult_le_compat_r; [apply Rabs_pos|].
  eapply Rle_trans; [exact He|]. eapply Rle_trans; [apply u_rod1pu_ro_le_u_ro|].
  unfold u_ro, uro. replace (- prec + 1)%Z with (1 - prec)%Z by lia. lra.
Qed.
Lemma diff_rel (x y : float) : Rabs (rnd (B2R x - B2R y) - (B2R x - B2R y)) <= u * Rabs (B2R x - B2R y).
Proof. pose proof (sum_rel x (Bopp y)) as H. rewrite B2R_Bopp in H. exact H. Qed.

(** [approx v t k]: v is within a relative error of k roundings of t *)
Lemma rel_split v t e : Rabs (v - t) <= e * Rabs t -> Rabs v <= Rabs t + e * Rabs t.
Proof. intros H. replace v with (v - t + t) by ring. eapply Rle_trans; [apply Rabs_triang|]. lra. Qed.

Definition interp (q a b c d : float) : float :=
  Bplus mode_NE (Bdiv mode_NE (Bmult mode_NE (Bminus mode_NE q a) (Bminus mode_NE d c)) (Bminus mode_NE b a)) c.

Variable M : R.
Hypothesis HM : 1 <= M.
Hypothesis HMbig : 20 * (M * M) <= big.
Hypothesis Heta : eta <= / 1000.

Definition okf (x : float) : Prop := is_finite x = true /\ Rabs (B2R x) <= M.

Lemma interp_err q a b c d : okf q -> okf a -> okf b -> okf c -> okf d -> 1 <= B2R b - B2R a ->
  let T := (B2R q - B2R a) * (B2R d - B2R c) / (B2R b - B2R a) in
  is_finite (interp q a b c d) = true /\
  B2R (interp q a b c d) = rnd (rnd (rnd (rnd (B2R q - B2R a) * rnd (B2R d - B2R c)) / rnd (B2R b - B2R a)) + B2R c) /\
  Rabs (B2R (interp q a b c d) - (B2R c + T)) <= u * (Rabs (B2R c) + 8 * Rabs T) + 4 * eta.
Proof.
  intros [Fq Bq] [Fa Ba] [Fb Bb] [Fc Bc] [Fd Bd] Gap T.
  pose proof (uro_pos prec) as U0. pose proof (eta_pos prec emax) as E0.
  set (x := B2R q - B2R a) in *. set (y := B2R d - B2R c) in *. set (z := B2R b - B2R a) in *.
  assert (Bx : Rabs x <= 2 * M) by (unfold x, Rminus; eapply Rle_trans; [apply Rabs_triang|]; rewrite Rabs_Ropp; lra).
  assert (By : Rabs y <= 2 * M) by (unfold y, Rminus; eapply Rle_trans; [apply Rabs_triang|]; rewrite Rabs_Ropp; lra).
  assert (MM : M <= M * M). { rewrite <- (Rmult_1_l M) at 1. apply Rmult_le_compat_r; lra. }
  assert (Bz : Rabs z <= 2 * M) by (unfold z, Rminus; eapply Rle_trans; [apply Rabs_triang|]; rewrite Rabs_Ropp; lra).
  destruct (minus_ok prec emax Hprec Hemax q a Fq Fa ltac:(fold x; lra)) as (F1 & E1).
  destruct (minus_ok prec emax Hprec Hemax d c Fd Fc ltac:(fold y; lra)) as (F2 & E2).
  destruct (minus_ok prec emax Hprec Hemax b a Fb Fa ltac:(fold z; lra)) as (F3 & E3).
  pose proof (diff_rel q a) as R1. pose proof (diff_rel d c) as R2. pose proof (diff_rel b a) as R3.
  fold x in E1, R1. fold y in E2, R2. fold z in E3, R3.
  set (t1 := Bminus mode_NE q a) in *. set (t2 := Bminus mode_NE d c) in *. set (t4 := Bminus mode_NE b a) in *.
  rewrite <- E1 in R1. rewrite <- E2 in R2. rewrite <- E3 in R3.
  (* t4 >= 1 *)
  assert (Z1 : 1 <= B2R t4).
  { rewrite E3. rewrite <- (rnd_int prec emax Hprec Hemax 1); [apply (rnd_le prec emax Hprec), Gap|].
    change (Z.abs 1) with (2 ^ 0)%Z. apply Z.pow_le_mono_r; [lia|]. unfold Prec_gt_0 in Hprec. lia. }
  assert (z0 : 0 < z) by (fold z in Gap; lra).
  pose proof (Rabs_pos x) as x0. pose proof (Rabs_pos y) as y0.
  assert (ux : u * Rabs x <= / 1000 * Rabs x) by (apply Rmult_le_compat_r; lra).
  assert (uy : u * Rabs y <= / 1000 * Rabs y) by (apply Rmult_le_compat_r; lra).
  pose proof (rel_split _ _ _ R1) as B1. pose proof (rel_split _ _ _ R2) as B2.
  (* product *)
  set (X := B2R t1) in *. set (Y := B2R t2) in *. set (Z0 := B2R t4) in *.
  assert (PR : Rabs (X * Y - x * y) <= (2 * u + u * u) * Rabs (x * y)).
  { replace (X * Y - x * y) with ((X - x) * y + x * (Y - y) + (X - x) * (Y - y)) by ring.
    eapply Rle_trans; [apply Rabs_triang|]. eapply Rle_trans; [apply Rplus_le_compat_r, Rabs_triang|]. rewrite !Rabs_mult.
    assert (Rabs (X - x) * Rabs y <= u * Rabs x * Rabs y) by (apply Rmult_le_compat_r; lra).
    assert (Rabs x * Rabs (Y - y) <= Rabs x * (u * Rabs y)) by (apply Rmult_le_compat_l; lra).
    assert (Rabs (X - x) * Rabs (Y - y) <= u * Rabs x * (u * Rabs y)) by (apply Rmult_le_compat; try apply Rabs_pos; assumption).
    replace ((2 * u + u * u) * (Rabs x * Rabs y)) with (u * Rabs x * Rabs y + Rabs x * (u * Rabs y) + u * Rabs x * (u * Rabs y)) by ring. lra. }
  assert (uu : u * u <= / 1000 * u) by (apply Rmult_le_compat_r; lra).
  assert (xy : Rabs (x * y) <= 4 * (M * M)).
  { rewrite Rabs_mult. replace (4 * (M * M)) with (2 * M * (2 * M)) by ring. apply Rmult_le_compat; assumption. }
  pose proof (Rabs_pos (x * y)) as xy0.
  assert (PR' : Rabs (X * Y - x * y) <= 2001 / 1000 * u * Rabs (x * y)). { eapply Rle_trans; [exact PR|]. apply Rmult_le_compat_r; lra. }
  assert (uxy : u * Rabs (x * y) <= / 1000 * Rabs (x * y)) by (apply Rmult_le_compat_r; lra).
  assert (BXY : Rabs (X * Y) <= 2 * Rabs (x * y)).
  { replace (X * Y) with (X * Y - x * y + x * y) by ring. eapply Rle_trans; [apply Rabs_triang|]. lra. }
  assert (OK1 : Rabs (B2R t1 * B2R t2) <= big) by (fold X Y; lra).
  destruct (mult_ok prec emax Hprec Hemax t1 t2 F1 F2 OK1) as (F4 & E4). set (p := Bmult mode_NE t1 t2) in *.
  pose proof (rnd_err prec emax Hprec (X * Y)) as R4. fold X Y in E4. rewrite <- E4 in R4.
  (* p = x y (1 + 4u) + eta *)
  assert (P1 : Rabs (B2R p - x * y) <= 3004 / 1000 * u * Rabs (x * y) + eta).
  { replace (B2R p - x * y) with (B2R p - X * Y + (X * Y - x * y)) by ring. eapply Rle_trans; [apply Rabs_triang|].
    assert (W : u * Rabs (X * Y) <= u * (Rabs (x * y) + 2001 / 1000 * u * Rabs (x * y))).
    { apply Rmult_le_compat_l; [lra|]. replace (X * Y) with (X * Y - x * y + x * y) by ring. eapply Rle_trans; [apply Rabs_triang|]. lra. }
    assert (W2 : u * (u * Rabs (x * y)) <= / 1000 * (u * Rabs (x * y))) by (apply Rmult_le_compat_r; [apply Rmult_le_pos; lra|exact Hu]).
    assert (u * (Rabs (x * y) + 2001 / 1000 * u * Rabs (x * y)) = u * Rabs (x * y) + 2001 / 1000 * (u * (u * Rabs (x * y)))) by ring.
    assert (0 <= u * Rabs (x * y)) by (apply Rmult_le_pos; lra). lra. }
  (* quotient *)
  assert (iz : 0 < / z <= 1). { split; [apply Rinv_0_lt_compat; lra|]. rewrite <- Rinv_1. apply Rinv_le; lra. }
  assert (iZ : 0 < / Z0 <= 1). { split; [apply Rinv_0_lt_compat; lra|]. rewrite <- Rinv_1. apply Rinv_le; lra. }
  assert (ET : T = x * y * / z) by reflexivity.
  assert (AT : Rabs T = Rabs (x * y) * / z) by (rewrite ET, Rabs_mult, (Rabs_pos_eq (/ z)) by lra; reflexivity).
  set (Q := B2R p / Z0). pose proof (Rabs_pos T) as T0.
  assert (Zr : z <= (1 + 2 * u) * Z0).
  { rewrite (Rabs_pos_eq z) in R3 by lra. apply Rabs_le_inv in R3. assert (uz : u * z <= / 1000 * z) by (apply Rmult_le_compat_r; lra).
    assert (u * (z - u * z) <= u * Z0) by (apply Rmult_le_compat_l; lra).
    assert (u * (u * z) <= / 1000 * (u * z)) by (apply Rmult_le_compat_r; [apply Rmult_le_pos; lra|exact Hu]).
    assert (0 <= u * z) by (apply Rmult_le_pos; lra). lra. }
  assert (Zd : Rabs (/ Z0 - / z) <= (u + 2 * (u * u)) * / z).
  { replace (/ Z0 - / z) with ((z - Z0) * (/ Z0) * / z) by (field; lra). rewrite Rabs_mult, (Rabs_pos_eq (/ z)) by lra. apply Rmult_le_compat_r; [lra|].
    rewrite Rabs_mult, (Rabs_pos_eq (/ Z0)) by lra. rewrite (Rabs_pos_eq z) in R3 by lra. rewrite Rabs_minus_sym.
    apply Rmult_le_reg_r with Z0; [lra|]. rewrite Rmult_assoc, Rinv_l, Rmult_1_r by lra.
    eapply Rle_trans; [exact R3|]. replace ((u + 2 * (u * u)) * Z0) with (u * ((1 + 2 * u) * Z0)) by ring. apply Rmult_le_compat_l; lra. }
  assert (QD : Rabs (Q - T) <= 41 / 10 * u * Rabs T + 3 / 2 * eta).
  { rewrite AT. replace (Q - T) with ((B2R p - x * y) * / Z0 + x * y * (/ Z0 - / z)) by (unfold Q, Rdiv; rewrite ET; ring).
    eapply Rle_trans; [apply Rabs_triang|]. rewrite !Rabs_mult, (Rabs_pos_eq (/ Z0)) by lra.
    assert (A1 : Rabs x * Rabs y * Rabs (/ Z0 - / z) <= Rabs x * Rabs y * ((u + 2 * (u * u)) * / z)).
    { apply Rmult_le_compat_l; [apply Rmult_le_pos; lra|exact Zd]. }
    rewrite <- Rabs_mult in A1. rewrite <- Rabs_mult.
    assert (IZ : / Z0 <= (1 + 2 * u) * / z).
    { apply Rmult_le_reg_r with (Z0 * z); [apply Rmult_lt_0_compat; lra|]. replace (/ Z0 * (Z0 * z)) with z by (field; lra). replace ((1 + 2 * u) * / z * (Z0 * z)) with ((1 + 2 * u) * Z0) by (field; lra). exact Zr. }
    assert (A2 : Rabs (B2R p - x * y) * / Z0 <= (3004 / 1000 * u * Rabs (x * y)) * ((1 + 2 * u) * / z) + eta).
    { apply Rle_trans with ((3004 / 1000 * u * Rabs (x * y) + eta) * / Z0); [apply Rmult_le_compat_r; lra|].
      rewrite Rmult_plus_distr_r. apply Rplus_le_compat.
      - apply Rmult_le_compat_l; [|exact IZ]. apply Rmult_le_pos; [lra|exact xy0].
      - rewrite <- (Rmult_1_r eta) at 2. apply Rmult_le_compat_l; lra. }
    set (g := Rabs (x * y) * / z) in *. assert (g0 : 0 <= g) by lra.
    replace (3004 / 1000 * u * Rabs (x * y) * ((1 + 2 * u) * / z)) with (3004 / 1000 * (u * g) + 6008 / 1000 * (u * (u * g))) in A2 by (unfold g; field; lra).
    replace (Rabs (x * y) * ((u + 2 * (u * u)) * / z)) with (u * g + 2 * (u * (u * g))) in A1 by (unfold g; field; lra).
    assert (ug0 : 0 <= u * g) by (apply Rmult_le_pos; lra).
    assert (W : u * (u * g) <= / 1000 * (u * g)) by (apply Rmult_le_compat_r; lra). lra. }
  assert (uT : u * Rabs T <= / 1000 * Rabs T) by (apply Rmult_le_compat_r; lra).
  assert (TM : Rabs T <= 4 * (M * M)). { rewrite AT. rewrite <- (Rmult_1_r (4 * (M * M))). apply Rmult_le_compat; lra. }
  assert (BQ : Rabs Q <= 1001 / 1000 * Rabs T + 4 / 1000 * Rabs T + 3 / 2 * eta).
  { replace Q with (Q - T + T) by ring. eapply Rle_trans; [apply Rabs_triang|]. lra. }
  assert (M2 : 1 <= M * M) by lra.
  assert (OK2 : Rabs (B2R p / B2R t4) <= big) by (fold Z0 Q; lra).
  destruct (div_ok prec emax Hprec Hemax p t4 F4 ltac:(fold Z0; lra) OK2) as (F5 & E5). set (r := Bdiv mode_NE p t4) in *.
  pose proof (rnd_err prec emax Hprec Q) as R5. fold Z0 Q in E5. rewrite <- E5 in R5.
  assert (RD : Rabs (B2R r - T) <= 52 / 10 * u * Rabs T + 26 / 10 * eta).
  { replace (B2R r - T) with (B2R r - Q + (Q - T)) by ring. eapply Rle_trans; [apply Rabs_triang|].
    assert (W : u * Rabs Q <= u * (1001 / 1000 * Rabs T + 4 / 1000 * Rabs T + 3 / 2 * eta)) by (apply Rmult_le_compat_l; lra).
    assert (W2 : u * eta <= / 1000 * eta) by (apply Rmult_le_compat_r; lra).
    assert (0 <= u * Rabs T) by (apply Rmult_le_pos; lra).
    replace (u * (1001 / 1000 * Rabs T + 4 / 1000 * Rabs T + 3 / 2 * eta)) with (1005 / 1000 * (u * Rabs T) + 3 / 2 * (u * eta)) in W by field. lra. }
  assert (BR : Rabs (B2R r + B2R c) <= Rabs (B2R c) + 101 / 100 * Rabs T + 26 / 10 * eta).
  { replace (B2R r + B2R c) with (B2R r - T + (T + B2R c)) by ring. eapply Rle_trans; [apply Rabs_triang|]. pose proof (Rabs_triang T (B2R c)). lra. }
  assert (OK3 : Rabs (B2R r + B2R c) <= big) by lra.
  destruct (plus_ok prec emax Hprec Hemax r c F5 Fc OK3) as (F6 & E6).
  pose proof (sum_rel r c) as R6. rewrite <- E6 in R6.
  unfold interp. fold t1 t2 t4 p r. split; [exact F6|]. split.
  { rewrite E6, E5. unfold Q. rewrite E4. rewrite E1, E2, E3. reflexivity. }
  replace (B2R (Bplus mode_NE r c) - (B2R c + T)) with (B2R (Bplus mode_NE r c) - (B2R r + B2R c) + (B2R r - T)) by ring.
  eapply Rle_trans; [apply Rabs_triang|].
  assert (W : u * Rabs (B2R r + B2R c) <= u * (Rabs (B2R c) + 101 / 100 * Rabs T + 26 / 10 * eta)) by (apply Rmult_le_compat_l; lra).
  assert (W2 : u * eta <= / 1000 * eta) by (apply Rmult_le_compat_r; lra).
  assert (0 <= u * Rabs T) by (apply Rmult_le_pos; lra).
  replace (u * (Rabs (B2R c) + 101 / 100 * Rabs T + 26 / 10 * eta)) with (u * Rabs (B2R c) + 101 / 100 * (u * Rabs T) + 26 / 10 * (u * eta)) in W by field. lra.
Qed.

Lemma rnd_nonneg x : 0 <= x -> 0 <= rnd x.
Proof. intros H. rewrite <- (rnd_0 prec emax). apply (rnd_le prec emax Hprec), H. Qed.

Lemma interp_mono q q' a b c d : okf q -> okf q' -> okf a -> okf b -> okf c -> okf d -> 1 <= B2R b - B2R a -> B2R c <= B2R d -> B2R q <= B2R q' ->
  B2R (interp q a b c d) <= B2R (interp q' a b c d).
Proof.
  intros O1 O1' O2 O3 O4 O5 Gap Up L.
  destruct (interp_err q a b c d O1 O2 O3 O4 O5 Gap) as (_ & E & _). destruct (interp_err q' a b c d O1' O2 O3 O4 O5 Gap) as (_ & E' & _).
  rewrite E, E'. apply (rnd_le prec emax Hprec), Rplus_le_compat_r, (rnd_le prec emax Hprec).
  assert (Z1 : 1 <= rnd (B2R b - B2R a)).
  { rewrite <- (rnd_int prec emax Hprec Hemax 1); [apply (rnd_le prec emax Hprec), Gap|].
    change (Z.abs 1) with (2 ^ 0)%Z. apply Z.pow_le_mono_r; [lia|]. unfold Prec_gt_0 in Hprec. lia. }
  apply Rmult_le_compat_r; [apply Rlt_le, Rinv_0_lt_compat; lra|]. apply (rnd_le prec emax Hprec).
  apply Rmult_le_compat_r; [apply rnd_nonneg; lra|]. apply (rnd_le prec emax Hprec). lra.
Qed.
End Interp.

(** ** The table *)
Definition key (p : fpoint) : R := B2R (fst p).
Definition finite_keys (l : list fpoint) : Prop := Forall (fun p => is_finite (fst p) = true) l.
Definition kbefore (p p' : fpoint) : Prop := key p < key p'.

Lemma finsert_perm p l : Permutation (p :: l) (finsert p l).
Proof.
  induction l as [|x l IH]; [apply Permutation_refl|]. cbn [finsert]. destruct (Bleb (fst p) (fst x)); [apply Permutation_refl|].
  eapply perm_trans; [apply perm_swap|]. apply perm_skip, IH.
Qed.
Lemma fsort_perm l : Permutation l (fsort l).
Proof. induction l as [|p l IH]; [apply perm_nil|]. cbn [fsort]. eapply perm_trans; [apply perm_skip, IH|apply finsert_perm]. Qed.

Lemma finsert_sorted p l : is_finite (fst p) = true -> finite_keys l -> StronglySorted kbefore l -> Forall (fun x => key p <> key x) l ->
  StronglySorted kbefore (finsert p l).
Proof.
  intros Fp Fl Hs D. induction Hs as [|x l Hs IH HF]; cbn [finsert]; [constructor; constructor|].
  inversion D as [|? ? D0 D']; subst. inversion Fl as [|? ? Fx Fl']; subst.
  rewrite Bleb_correct by assumption. fold (key p) (key x). destruct (Rle_bool_spec (key p) (key x)) as [E|E].
  - assert (L : key p < key x) by lra.
    constructor; [constructor; assumption|]. constructor; [exact L|]. rewrite Forall_forall in HF |- *. intros y Hy. unfold kbefore in *. specialize (HF y Hy). lra.
  - constructor; [apply IH; assumption|]. rewrite Forall_forall in HF |- *. intros y Hy. apply (Permutation_in _ (Permutation_sym (finsert_perm p l))) in Hy.
    destruct Hy as [<-|Hy]; [exact E|apply HF, Hy].
Qed.
Lemma fsort_sorted l : finite_keys l -> ForallOrdPairs (fun p p' => key p <> key p') l -> StronglySorted kbefore (fsort l).
Proof.
  induction l as [|p l IH]; intros F D; cbn [fsort]; [constructor|]. inversion D as [|? ? D0 D']; subst. inversion F as [|? ? Fp F']; subst.
  apply finsert_sorted; [exact Fp| |apply IH; assumption|].
  - unfold finite_keys in *. rewrite Forall_forall in F' |- *. intros x Hx. apply F'. apply (Permutation_in _ (Permutation_sym (fsort_perm l))), Hx.
  - rewrite Forall_forall in D0 |- *. intros x Hx. apply D0. apply (Permutation_in _ (Permutation_sym (fsort_perm l))), Hx.
Qed.

(** in a sorted table, the points below q are the first [k] of them *)
Lemma below_prefix q : is_finite q = true -> forall l, finite_keys l -> StronglySorted kbefore l -> forall j p, nth_error l j = Some p ->
  ((j < length (filter (fun p => Bltb (fst p) q) l))%nat <-> key p < B2R q).
Proof.
  intros Fq l Fl Hs. induction Hs as [|x l Hs IH HF]; intros j p N; [destruct j; discriminate|].
  inversion Fl as [|? ? Fx Fl']; subst. specialize (IH Fl'). cbn [filter]. rewrite (Bltb_correct _ _ _ _ Fx Fq). change (B2R (fst x)) with (key x).
  rewrite Forall_forall in HF. destruct (Rlt_bool_spec (key x) (B2R q)) as [E|E]; cbn [length].
  - destruct j as [|j]; cbn [nth_error] in N; [injection N as <-; split; [intros _; exact E|intros _; apply Nat.lt_0_succ]|].
    rewrite <- (IH j p N). lia.
  - assert (Z : forall l', Forall (fun x' => kbefore x x') l' -> finite_keys l' -> filter (fun p => Bltb (fst p) q) l' = []).
    { induction l' as [|y l' IHl]; intros G F; [reflexivity|]. inversion G as [|? ? G1 G2]; subst. inversion F as [|? ? F1 F2]; subst. cbn [filter].
      rewrite (Bltb_correct _ _ _ _ F1 Fq). change (B2R (fst y)) with (key y). rewrite Rlt_bool_false by (unfold kbefore in G1; lra). apply IHl; assumption. }
    rewrite Z by (try assumption; apply Forall_forall; exact HF). cbn [length]. split; [lia|]. intros L. exfalso.
    destruct j as [|j]; cbn [nth_error] in N; [injection N as <-; lra|]. apply nth_error_In in N. specialize (HF p N). unfold kbefore in HF. lra.
Qed.

Lemma sorted_nth l : StronglySorted kbefore l -> forall i j p p', (i < j)%nat -> nth_error l i = Some p -> nth_error l j = Some p' -> key p < key p'.
Proof.
  intros Hs. induction Hs as [|x l Hs IH HF]; intros i j p p' L N N'; [destruct i; discriminate|].
  destruct j as [|j]; [lia|]. cbn [nth_error] in N'. destruct i as [|i]; cbn [nth_error] in N.
  - injection N as <-. rewrite Forall_forall in HF. apply HF. apply (nth_error_In _ j), N'.
  - apply (IH i j); [lia|assumption|assumption].
Qed.

(** *** Statements *)
(** the answer of the table built from [recorded] (in recording order) *)
Definition flookup (recorded : list fpoint) (q : f64) (r : outcome (option f64)) : Prop :=
  match sort_timestamps_f recorded with Panics => r = Panics | Gives points => get_unix_timestamp_f points q r end.

(** usable: every number finite and at most 2^500 in magnitude; two recorded boot
    times at least 1 (millisecond) apart *)
Definition small (x : f64) : Prop := is_finite x = true /\ Rabs (B2R x) <= bpow radix2 500.
Definition usable_points (recorded : list fpoint) : Prop :=
  Forall (fun p => small (fst p) /\ small (snd p)) recorded /\
  ForallOrdPairs (fun p p' => 1 <= Rabs (key p - key p')) recorded.

(** [a], [b] are the recorded points next to q: adjacent in boot time, around q,
    or the first two or last two points if q is outside the recorded range *)
Definition neighbours (recorded : list fpoint) (q : R) (a b : fpoint) : Prop :=
  In a recorded /\ In b recorded /\ key a < key b /\
  (forall p, In p recorded -> key p <= key a \/ key b <= key p) /\
  (key a <= q \/ forall p, In p recorded -> key a <= key p) /\
  (q <= key b \/ forall p, In p recorded -> key p <= key b).

(** the value at q of the line through two points *)
Definition line_at (a b : fpoint) (q : R) : R := B2R (snd a) + (q - key a) * (B2R (snd b) - B2R (snd a)) / (key b - key a).
Definition rise_at (a b : fpoint) (q : R) : R := (q - key a) * (B2R (snd b) - B2R (snd a)) / (key b - key a).

Lemma usable_finite l : usable_points l -> finite_keys l.
Proof. intros [H _]. unfold finite_keys. eapply Forall_impl; [|exact H]. intros p [[F _] _]. exact F. Qed.
Lemma usable_distinct l : usable_points l -> ForallOrdPairs (fun p p' => key p <> key p') l.
Proof.
  intros [_ H]. induction H as [|x l Hx Hl IH]; constructor; [|exact IH]. eapply Forall_impl; [|exact Hx]. intros p G E. cbn beta in G.
  rewrite E in G. replace (key p - key p) with 0 in G by ring. rewrite Rabs_R0 in G. lra.
Qed.
Lemma usable_gap l : usable_points l -> forall p p', In p l -> In p' l -> key p < key p' -> 1 <= key p' - key p.
Proof.
  intros [_ H] p p' I I' L. induction H as [|x l Hx Hl IH]; [destruct I|]. rewrite Forall_forall in Hx.
  destruct I as [->|I], I' as [->|I']; [lra| | |apply IH; assumption].
  - specialize (Hx p' I'). rewrite Rabs_left in Hx by lra. lra.
  - specialize (Hx p I). rewrite Rabs_pos_eq in Hx by lra. lra.
Qed.

Lemma sort_usable l : usable_points l -> (2 <= length l)%nat -> sort_timestamps_f l = Gives (fsort l).
Proof.
  intros H L. unfold sort_timestamps_f. destruct (Nat.ltb_spec (length l) 2); [lia|].
  destruct (existsb (fun p => is_nan (fst p)) l) eqn:E; [|reflexivity]. apply existsb_exists in E. destruct E as (p & I & N).
  pose proof (usable_finite l H) as F. unfold finite_keys in F. rewrite Forall_forall in F. specialize (F p I). destruct (fst p); discriminate.
Qed.

Lemma eta_small : eta 53 1024 <= / 1000.
Proof. unfold eta. apply Rle_trans with (/ 2 * bpow radix2 (-10)); [apply Rmult_le_compat_l; [lra|]; apply bpow_le; unfold SpecFloat.emin; lia|]. cbn. lra. Qed.
Lemma uro_small : uro 53 <= / 1000.
Proof. rewrite uro_eq. apply Rle_trans with (bpow radix2 (-10)); [apply bpow_le; lia|cbn; lra]. Qed.
Lemma room : 20 * (bpow radix2 500 * bpow radix2 500) <= bpow radix2 (1024 - 1).
Proof.
  rewrite <- bpow_plus. apply Rle_trans with (bpow radix2 5 * bpow radix2 (500 + 500)); [apply Rmult_le_compat_r; [apply bpow_ge_0|cbn; lra]|].
  rewrite <- bpow_plus. apply bpow_le. lia.
Qed.

(** C61, between points: the answer is a number within one rounding of the unix
    time and eight of the rise above it *)
Theorem C61_ieee_interpolation : forall recorded q r, usable_points recorded -> (2 <= length recorded)%nat -> small q ->
  (forall p, In p recorded -> key p <> B2R q) -> flookup recorded q r ->
  exists a b y, r = Gives (Some y) /\ neighbours recorded (B2R q) a b /\ is_finite y = true /\
    Rabs (B2R y - line_at a b (B2R q)) <=
      bpow radix2 (-53) * (Rabs (B2R (snd a)) + 8 * Rabs (rise_at a b (B2R q))) + bpow radix2 (-1073).
Proof.
  intros l q r HU L2 [Fq Bq] HN HL. unfold flookup in HL. rewrite (sort_usable l HU L2) in HL.
  pose proof (usable_finite l HU) as Fl. pose proof (fsort_sorted l Fl (usable_distinct l HU)) as Hs. pose proof (fsort_perm l) as P.
  assert (Fs : finite_keys (fsort l)) by (unfold finite_keys in *; rewrite Forall_forall in Fl |- *; intros x Hx; apply Fl, (Permutation_in _ (Permutation_sym P)), Hx).
  assert (back : forall p, In p (fsort l) -> In p l) by (intros p I; apply (Permutation_in _ (Permutation_sym P)), I).
  assert (forth : forall p, In p l -> In p (fsort l)) by (intros p I; apply (Permutation_in _ P), I).
  destruct HL as [H|H N|i b u H N E|i b0 u0 b1 u1 H NQ FA I N0 N1].
  - rewrite <- (Permutation_length P) in H. lia.
  - destruct q; discriminate.
  - exfalso. apply nth_error_In in N. pose proof N as N'. apply back in N'. apply (HN _ N').
    unfold finite_keys in Fs. rewrite Forall_forall in Fs. specialize (Fs _ N). cbn [fst] in Fs. rewrite (Beqb_correct _ _ _ _ Fs Fq) in E. destruct (Req_bool_spec (B2R b) (B2R q)) as [X|X]; [exact X|discriminate].
  - set (k := length (filter (fun p => Bltb (fst p) q) (fsort l))) in *.
    pose proof (below_prefix q Fq (fsort l) Fs Hs) as PRE. fold k in PRE.
    assert (LT : key (b0, u0) < key (b1, u1)) by (apply (sorted_nth _ Hs (i - 1) i); [lia|exact N0|exact N1]).
    assert (I0 : In (b0, u0) l) by (apply back, (nth_error_In _ _ N0)).
    assert (I1 : In (b1, u1) l) by (apply back, (nth_error_In _ _ N1)).
    assert (mono : forall i j p p', (i <= j)%nat -> nth_error (fsort l) i = Some p -> nth_error (fsort l) j = Some p' -> key p <= key p').
    { intros i' j' p p' LE A B. destruct (Nat.eq_dec i' j') as [->|NE]; [rewrite A in B; injection B as <-; lra|].
      apply Rlt_le, (sorted_nth _ Hs i' j'); [lia|exact A|exact B]. }
    exists (b0, u0), (b1, u1), (map_range_f q b0 b1 u0 u1). split; [reflexivity|]. split.
    + split; [exact I0|]. split; [exact I1|]. split; [exact LT|]. split; [|split].
      * intros p Ip. apply forth, In_nth_error in Ip. destruct Ip as (j & J). destruct (Nat.le_gt_cases j (i - 1)) as [Q|Q].
        -- left. apply (mono j (i - 1)%nat); assumption.
        -- right. apply (mono i j); [lia|assumption|assumption].
      * destruct (Nat.lt_ge_cases (i - 1) k) as [Q|Q]; [left; apply Rlt_le, (PRE _ _ N0), Q|].
        right. intros p Ip. apply forth, In_nth_error in Ip. destruct Ip as (j & J). apply (mono (i - 1)%nat j); [lia|assumption|assumption].
      * destruct (Nat.lt_ge_cases i k) as [Q|Q].
        -- right. intros p Ip. apply forth, In_nth_error in Ip. destruct Ip as (j & J). pose proof (nth_error_Some (fsort l) j) as S1. rewrite J in S1. assert (j < length (fsort l))%nat by (apply S1; discriminate). apply (mono j i); [lia|assumption|assumption].
        -- left. destruct (Rle_lt_dec (B2R q) (key (b1, u1))) as [X|X]; [exact X|]. apply (PRE _ _ N1) in X. lia.
    + destruct HU as [HU1 HU2]. rewrite Forall_forall in HU1. destruct (HU1 _ I0) as [S1 S2]. destruct (HU1 _ I1) as [S3 S4]. cbn [fst snd] in *.
      pose proof (usable_gap l (conj (proj2 (Forall_forall _ _) HU1) HU2) _ _ I0 I1 LT) as GAP.
      assert (M1 : 1 <= bpow radix2 500) by (change 1 with (bpow radix2 0); apply bpow_le; lia).
      destruct (interp_err 53 1024 prec53 emax53 uro_small (bpow radix2 500) M1 room eta_small q b0 b1 u0 u1 (conj Fq Bq) S1 S3 S2 S4 GAP) as (F & _ & G).
      split; [exact F|]. rewrite uro_eq in G.
      assert (E4 : 4 * eta 53 1024 = bpow radix2 (-1073)).
      { unfold eta. replace (4 * (/ 2 * bpow radix2 (SpecFloat.emin 53 1024))) with (bpow radix2 1 * bpow radix2 (SpecFloat.emin 53 1024)) by (cbn [bpow radix2]; change (IZR (Z.pow_pos radix2 1)) with 2; field).
        rewrite <- bpow_plus. reflexivity. }
      rewrite E4 in G. exact G.
Qed.

(** C61, at a recorded point: the recorded unix time, bit for bit *)
Theorem C61_ieee_exact_at_points : forall recorded q b u r, usable_points recorded -> (2 <= length recorded)%nat -> is_finite q = true ->
  In (b, u) recorded -> B2R b = B2R q -> flookup recorded q r -> r = Gives (Some u).
Proof.
  intros l q b u r HU L2 Fq I E HL. unfold flookup in HL. rewrite (sort_usable l HU L2) in HL.
  pose proof (usable_finite l HU) as Fl. pose proof (fsort_sorted l Fl (usable_distinct l HU)) as Hs. pose proof (fsort_perm l) as P.
  unfold finite_keys in Fl. rewrite Forall_forall in Fl. pose proof (Permutation_in _ P I) as I'.
  destruct HL as [H|H N|i b' u' H N E'|i b0 u0 b1 u1 H NQ FA X N0 N1].
  - rewrite <- (Permutation_length P) in H. lia.
  - destruct q; discriminate.
  - apply In_nth_error in I'. destruct I' as (j & J).
    pose proof (nth_error_In _ _ N) as IN. apply (Permutation_in _ (Permutation_sym P)) in IN. pose proof (Fl _ IN) as Fb. cbn [fst] in Fb.
    rewrite (Beqb_correct _ _ _ _ Fb Fq) in E'. destruct (Req_bool_spec (B2R b') (B2R q)) as [X|X]; [|discriminate].
    destruct (lt_eq_lt_dec i j) as [[LT|EQ]|LT].
    + pose proof (sorted_nth _ Hs i j _ _ LT N J) as Z. unfold key in Z. cbn [fst] in Z. lra.
    + subst j. rewrite N in J. injection J as <- <-. reflexivity.
    + pose proof (sorted_nth _ Hs j i _ _ LT J N) as Z. unfold key in Z. cbn [fst] in Z. lra.
  - exfalso. rewrite Forall_forall in FA. specialize (FA _ I'). cbn [fst] in FA. specialize (Fl _ I). cbn [fst] in Fl.
    rewrite (Beqb_correct _ _ _ _ Fl Fq) in FA. rewrite Req_bool_true in FA by exact E. discriminate.
Qed.

(** the lookup is None below two points and panics on NaN times only *)
Theorem C61_ieee_total : forall recorded q,
  exists r, flookup recorded q r /\
    (r = Gives None <-> (length recorded < 2)%nat) /\
    (r = Panics <-> (2 <= length recorded)%nat /\ (is_nan q = true \/ Exists (fun p => is_nan (fst p) = true) recorded)).
Proof.
  intros l q. unfold flookup, sort_timestamps_f. destruct (Nat.ltb_spec (length l) 2) as [H|H].
  - exists (Gives None). split; [apply flut_few; exact H|]. split; [tauto|]. split; [discriminate|lia].
  - destruct (existsb (fun p => is_nan (fst p)) l) eqn:E.
    + exists Panics. split; [reflexivity|]. split; [split; [discriminate|lia]|]. split; [|reflexivity]. intros _. split; [exact H|]. right.
      apply Exists_exists. apply existsb_exists in E. exact E.
    + assert (NE : ~ Exists (fun p => is_nan (fst p) = true) l) by (intros X; apply Exists_exists, existsb_exists in X; congruence).
      assert (L2 : (2 <= length (fsort l))%nat) by (rewrite <- (Permutation_length (fsort_perm l)); exact H).
      destruct (is_nan q) eqn:Q.
      * exists Panics. split; [apply flut_nan; assumption|]. split; [split; [discriminate|lia]|]. split; [|reflexivity]. intros _. split; [exact H|left; reflexivity].
      * set (L := fsort l) in *. destruct (existsb (fun p => Beqb (fst p) q) L) eqn:EX.
        -- apply existsb_exists in EX. destruct EX as ([b u] & I & B). apply In_nth_error in I. destruct I as (i & I).
           exists (Gives (Some u)). split; [apply (flut_hit L q i b u L2 I B)|]. split; [split; [discriminate|lia]|]. split; [discriminate|].
           intros (_ & [X|X]); [discriminate|contradiction].
        -- assert (FA : Forall (fun p => Beqb (fst p) q = false) L).
           { apply Forall_forall. intros p I. destruct (Beqb (fst p) q) eqn:B; [|reflexivity].
             assert (X : existsb (fun p => Beqb (fst p) q) L = true) by (apply existsb_exists; exists p; split; assumption). congruence. }
           set (i := Nat.min (Nat.max (length (filter (fun p => Bltb (fst p) q) L)) 1) (length L - 1)).
           destruct (nth_error L (i - 1)) as [[b0 u0]|] eqn:N0; [|apply nth_error_None in N0; lia].
           destruct (nth_error L i) as [[b1 u1]|] eqn:N1; [|apply nth_error_None in N1; lia].
           eexists. split; [apply (flut_miss L q i b0 u0 b1 u1 L2 Q FA eq_refl N0 N1)|]. split; [split; [discriminate|lia]|]. split; [discriminate|].
           intros (_ & [X|X]); [discriminate|contradiction].
Qed.

(** between the same two recorded points a later boot time never gives an earlier
    unix time, rounding included *)
Theorem C61_ieee_monotone_between_points : forall a b q q', small (fst a) -> small (snd a) -> small (fst b) -> small (snd b) -> small q -> small q' ->
  1 <= key b - key a -> B2R (snd a) <= B2R (snd b) -> B2R q <= B2R q' ->
  B2R (map_range_f q (fst a) (fst b) (snd a) (snd b)) <= B2R (map_range_f q' (fst a) (fst b) (snd a) (snd b)).
Proof.
  intros a b q q' S1 S2 S3 S4 Sq Sq' Gap Up L.
  assert (M1 : 1 <= bpow radix2 500) by (change 1 with (bpow radix2 0); apply bpow_le; lia).
  exact (interp_mono 53 1024 prec53 emax53 uro_small (bpow radix2 500) M1 room eta_small q q' _ _ _ _ Sq Sq' S1 S3 S2 S4 Gap Up L).
Qed.

(** non-vacuity: three points out of order, a query between two of them *)
Definition int64 (n : Z) : f64 := @of_int 53 1024 prec53 emax53 n.
Lemma int64_ok n : (0 <= n <= 2 ^ 53)%Z -> small (int64 n) /\ B2R (int64 n) = IZR n.
Proof.
  intros H. destruct (of_int_ok 53 1024 prec53 emax53 n) as (F & E); [rewrite Z.abs_eq; lia|]. split; [|exact E]. split; [exact F|].
  unfold int64. rewrite E, Rabs_pos_eq by (apply IZR_le; lia). apply Rle_trans with (bpow radix2 53); [|apply bpow_le; lia].
  rewrite <- (IZR_Zpower radix2) by lia. apply IZR_le. apply H.
Qed.
Theorem C61_ieee_instance :
  let recorded := [(int64 20, int64 1020); (int64 0, int64 1000); (int64 10, int64 1012)] in
  usable_points recorded /\ small (int64 5) /\ (forall p, In p recorded -> key p <> B2R (int64 5)) /\
  flookup recorded (int64 5) (Gives (Some (map_range_f (int64 5) (int64 0) (int64 10) (int64 1000) (int64 1012)))) /\
  B2SF (map_range_f (int64 5) (int64 0) (int64 10) (int64 1000) (int64 1012)) = B2SF (int64 1006).
Proof.
  assert (S1 : forall n, (0 <= n <= 2000)%Z -> small (int64 n) /\ B2R (int64 n) = IZR n) by (intros n H; apply int64_ok; lia).
  assert (V : forall n, (0 <= n <= 2000)%Z -> B2R (int64 n) = IZR n) by (intros n H; apply S1, H).
  cbv zeta. split; [|split; [|split; [|split]]].
  - split.
    + repeat (constructor; [split; (apply S1; split; [apply Z.leb_le; reflexivity|apply Z.leb_le; reflexivity])|]). constructor.
    + unfold key. constructor; [constructor; [|constructor; [|constructor]]|constructor; [constructor; [|constructor]|constructor; [constructor|constructor]]];
        cbn [fst]; rewrite !V by lia.
      * rewrite Rabs_pos_eq by lra. lra.
      * rewrite Rabs_pos_eq by lra. lra.
      * rewrite Rabs_left by lra. lra.
  - apply S1. lia.
  - intros p [<-|[<-|[<-|[]]]]; unfold key; cbn [fst]; rewrite !V by lia; lra.
  - unfold flookup, sort_timestamps_f. cbn [length Nat.ltb Nat.leb existsb fst].
    assert (N0 : is_nan (int64 0) = false) by (vm_compute; reflexivity). assert (N1 : is_nan (int64 10) = false) by (vm_compute; reflexivity).
    assert (N2 : is_nan (int64 20) = false) by (vm_compute; reflexivity). assert (N5 : is_nan (int64 5) = false) by (vm_compute; reflexivity).
    rewrite N0, N1, N2. cbn [orb fsort finsert fst].
    assert (L1 : Bleb (int64 0) (int64 10) = true) by (vm_compute; reflexivity). rewrite L1. cbn [finsert fst].
    assert (L2 : Bleb (int64 20) (int64 0) = false) by (vm_compute; reflexivity). rewrite L2.
    assert (L3 : Bleb (int64 20) (int64 10) = false) by (vm_compute; reflexivity). rewrite L3.
    assert (B0 : Beqb (int64 0) (int64 5) = false /\ Beqb (int64 10) (int64 5) = false /\ Beqb (int64 20) (int64 5) = false) by (split; [|split]; vm_compute; reflexivity).
    assert (T0 : Bltb (int64 0) (int64 5) = true /\ Bltb (int64 10) (int64 5) = false /\ Bltb (int64 20) (int64 5) = false) by (split; [|split]; vm_compute; reflexivity).
    destruct B0 as (B1 & B2 & B3). destruct T0 as (T1 & T2 & T3).
    refine (flut_miss _ _ 1 _ _ _ _ _ N5 _ _ _ _); [cbn [length]; apply Nat.leb_le; reflexivity| | |reflexivity|reflexivity].
    + constructor; [exact B1|constructor; [exact B2|constructor; [exact B3|constructor]]].
    + cbn [filter fst]. rewrite T1, T2, T3. reflexivity.
  - vm_compute. reflexivity.
Qed.

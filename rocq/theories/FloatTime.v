(** * C62 in IEEE-754 arithmetic: how far the reported moving averages are from
    the true mean.  The averages are those of HostTime.v, with the additions and
    divisions of Flocq (round to nearest, ties to even). *)
From Coq Require Import ZArith List Arith Bool Reals Lra Lia.
From Flocq Require Import Core BinarySingleNaN.
From Verif Require Import FloatFixed FloatErr HostTime PropTime.
Import ListNotations.
Local Open Scope R_scope.

Section Average.
Variable prec emax : Z.
Context (Hprec : Prec_gt_0 prec) (Hemax : Prec_lt_emax prec emax).
Notation float := (binary_float prec emax).
Notation rnd := (round radix2 (SpecFloat.fexp prec emax) ZnearestE).
Notation u := (uro prec).
Notation eta := (eta prec emax).
Notation big := (bpow radix2 (emax - 1)).

(** the operations of S: Float in moving_average.rs: [a + b], [a - b], [s / S::from(n)] *)
Definition fadd : float -> float -> float := Bplus mode_NE.
Definition fsub : float -> float -> float := Bminus mode_NE.
Definition fover (n : nat) (x : float) : float := Bdiv mode_NE x (@of_int prec emax Hprec Hemax (Z.of_nat n)).
Definition fzero : float := B754_zero false.

(** sum and mean of the exact values of a list of samples *)
Definition exact_sum (l : list float) : R := fold_right Rplus 0 (map B2R l).
Definition exact_mean (l : list float) : R := exact_sum l / INR (length l).

(** samples are finite and at most X in magnitude *)
Definition bounded (X : R) (l : list float) : Prop := Forall (fun x => is_finite x = true /\ Rabs (B2R x) <= X) l.

Lemma rnd_near x : Rabs (rnd x - x) <= u * Rabs x + eta.
Proof. apply (rnd_err prec emax Hprec). Qed.

Lemma sum_bound X l : 0 <= X -> bounded X l -> Rabs (exact_sum l) <= INR (length l) * X.
Proof.
  intros HX H. induction H as [|x l [_ Hx] Hl IH]; [cbn; rewrite Rabs_R0; lra|].
  cbn [exact_sum map fold_right length]. fold (exact_sum l). rewrite S_INR.
  eapply Rle_trans; [apply Rabs_triang|]. unfold exact_sum in *. lra.
Qed.

(** ** NoSumSMA: one sum over the window at each query *)
Section NoSum.
Variables (X : R) (n : nat).
Hypothesis HX : 0 <= X.
Hypothesis Hn : INR n * u <= / 2.
Hypothesis Hbig : 3 / 2 * (INR n * X) + 2 * (INR n * eta) <= big.

Lemma fold_err : forall l k acc A, (k + length l <= n)%nat -> bounded X l -> is_finite acc = true ->
  Rabs A <= INR k * X -> Rabs (B2R acc - A) <= INR k * INR k * (u * X) + 2 * (INR k * eta) ->
  is_finite (fold_left fadd l acc) = true /\
  Rabs (B2R (fold_left fadd l acc) - (A + exact_sum l)) <=
    INR (k + length l) * INR (k + length l) * (u * X) + 2 * (INR (k + length l) * eta).
Proof.
  pose proof (uro_pos prec) as U0. pose proof (eta_pos prec emax) as E0.
  induction l as [|x l IH]; intros k acc A Hk Hl Fa HA He.
  - cbn [fold_left length exact_sum map fold_right]. rewrite Nat.add_0_r, Rplus_0_r. split; assumption.
  - inversion Hl as [|? ? [Fx Bx] Hl']; subst. cbn [length] in Hk.
    pose proof (pos_INR k) as K0.
    assert (Kn : INR k + 1 <= INR n) by (rewrite <- S_INR; apply le_INR; lia).
    set (K := INR k) in *. set (a := u * X) in *.
    assert (a0 : 0 <= a) by (apply Rmult_le_pos; lra).
    assert (Ku : K * u <= / 2). { eapply Rle_trans; [|exact Hn]. apply Rmult_le_compat_r; lra. }
    assert (F1 : K * K * a <= / 2 * (K * X)).
    { unfold a. replace (K * K * (u * X)) with (K * u * (K * X)) by ring. apply Rmult_le_compat_r; [apply Rmult_le_pos; lra|exact Ku]. }
    assert (F2 : u * (K * K * a) <= / 2 * (K * a)).
    { replace (u * (K * K * a)) with (K * u * (K * a)) by ring. apply Rmult_le_compat_r; [apply Rmult_le_pos; lra|exact Ku]. }
    assert (F3 : u * (K * eta) <= / 2 * eta).
    { replace (u * (K * eta)) with (K * u * eta) by ring. apply Rmult_le_compat_r; lra. }
    assert (F4 : K * X + X <= INR n * X). { replace (K * X + X) with ((K + 1) * X) by ring. apply Rmult_le_compat_r; lra. }
    assert (F5 : K * eta + eta <= INR n * eta). { replace (K * eta + eta) with ((K + 1) * eta) by ring. apply Rmult_le_compat_r; lra. }
    assert (F6 : 0 <= K * X) by (apply Rmult_le_pos; lra). assert (F7 : 0 <= K * a) by (apply Rmult_le_pos; lra).
    assert (D : Rabs (B2R acc + B2R x) <= K * K * a + 2 * (K * eta) + (K * X + X)).
    { replace (B2R acc + B2R x) with (B2R acc - A + (A + B2R x)) by ring.
      eapply Rle_trans; [apply Rabs_triang|]. pose proof (Rabs_triang A (B2R x)). lra. }
    assert (OK : Rabs (B2R acc + B2R x) <= big) by lra.
    destruct (plus_ok prec emax Hprec Hemax acc x Fa Fx OK) as (Fs & Es).
    assert (He' : Rabs (B2R (fadd acc x) - (A + B2R x)) <= INR (S k) * INR (S k) * a + 2 * (INR (S k) * eta)).
    { unfold fadd. rewrite Es, S_INR. fold K.
      replace (rnd (B2R acc + B2R x) - (A + B2R x)) with (rnd (B2R acc + B2R x) - (B2R acc + B2R x) + (B2R acc - A)) by ring.
      eapply Rle_trans; [apply Rabs_triang|]. pose proof (rnd_near (B2R acc + B2R x)) as RN.
      assert (M : u * Rabs (B2R acc + B2R x) <= u * (K * K * a + 2 * (K * eta) + (K * X + X))) by (apply Rmult_le_compat_l; lra).
      replace (u * (K * K * a + 2 * (K * eta) + (K * X + X))) with (u * (K * K * a) + 2 * (u * (K * eta)) + (K * a + a)) in M by (unfold a; ring).
      replace ((K + 1) * (K + 1) * a + 2 * ((K + 1) * eta)) with (K * K * a + 2 * (K * a) + a + 2 * (K * eta) + 2 * eta) by ring. lra. }
    assert (HA' : Rabs (A + B2R x) <= INR (S k) * X).
    { rewrite S_INR. fold K. eapply Rle_trans; [apply Rabs_triang|]. lra. }
    destruct (IH (S k) (fadd acc x) (A + B2R x) ltac:(lia) Hl' Fs HA' He') as (F & G).
    cbn [fold_left length exact_sum map fold_right]. fold (exact_sum l). replace (k + S (length l))%nat with (S k + length l)%nat by lia.
    split; [exact F|]. replace (A + (B2R x + exact_sum l)) with (A + B2R x + exact_sum l) by ring. exact G.
Qed.

Lemma nosum_err (l : list float) : length l = n -> (1 <= n)%nat -> (Z.of_nat n <= 2 ^ prec)%Z -> bounded X l ->
  is_finite (nsma_average fadd fover fzero l) = true /\
  Rabs (B2R (nsma_average fadd fover fzero l) - exact_mean l) <= (INR n + 2) * u * X + 4 * eta.
Proof.
  intros L N1 NP Hl. pose proof (uro_pos prec) as U0. pose proof (eta_pos prec emax) as E0.
  assert (N1' : 1 <= INR n) by (change 1 with (INR 1); apply le_INR; exact N1).
  unfold nsma_average. replace (length l =? 0)%nat with false by (symmetry; apply Nat.eqb_neq; lia).
  destruct (fold_err l 0 fzero 0) as (F & G); [lia|exact Hl|reflexivity|cbn; rewrite Rabs_R0; lra|cbn [B2R fzero INR]; rewrite Rminus_0_r, Rabs_R0; lra|].
  cbn [Nat.add] in G. rewrite L in *. rewrite Rplus_0_l in G.
  pose proof (sum_bound X l HX Hl) as SB. rewrite L in SB.
  set (s := fold_left fadd l fzero) in *. set (N := INR n) in *. set (a := u * X) in *.
  assert (a0 : 0 <= a) by (apply Rmult_le_pos; lra).
  destruct (of_int_ok prec emax Hprec Hemax (Z.of_nat n)) as (Fi & Ei); [rewrite Z.abs_eq by lia; exact NP|].
  rewrite <- INR_IZR_INZ in Ei. fold N in Ei.
  assert (NN : N <> 0) by lra.
  set (m := exact_mean l). assert (Em : exact_sum l = N * m) by (unfold m, exact_mean; rewrite L; fold N; field; exact NN).
  assert (Bm : Rabs m <= X).
  { apply Rmult_le_reg_l with N; [lra|]. replace (N * Rabs m) with (Rabs (exact_sum l)); [exact SB|].
    rewrite Em, Rabs_mult, (Rabs_pos_eq N) by lra. reflexivity. }
  assert (Dq : Rabs (B2R s / N - m) <= N * a + 2 * eta).
  { apply Rmult_le_reg_l with N; [lra|]. rewrite <- (Rabs_pos_eq N) at 1 by lra. rewrite <- Rabs_mult.
    replace (N * (B2R s / N - m)) with (B2R s - exact_sum l) by (rewrite Em; field; exact NN).
    replace (N * (N * a + 2 * eta)) with (N * N * a + 2 * (N * eta)) by ring. exact G. }
  assert (Bq : Rabs (B2R s / N) <= N * a + 2 * eta + X).
  { replace (B2R s / N) with (B2R s / N - m + m) by ring. eapply Rle_trans; [apply Rabs_triang|]. lra. }
  assert (Na : N * a <= / 2 * X). { unfold a. replace (N * (u * X)) with (N * u * X) by ring. apply Rmult_le_compat_r; assumption. }
  assert (NX : X <= N * X). { rewrite <- (Rmult_1_l X) at 1. apply Rmult_le_compat_r; lra. }
  assert (Ne : eta <= N * eta). { rewrite <- (Rmult_1_l eta) at 1. apply Rmult_le_compat_r; lra. }
  assert (OK : Rabs (B2R s / B2R (@of_int prec emax Hprec Hemax (Z.of_nat n))) <= big) by (rewrite Ei; lra).
  destruct (div_ok prec emax Hprec Hemax s (@of_int prec emax Hprec Hemax (Z.of_nat n)) F ltac:(rewrite Ei; exact NN) OK) as (Fd & Ed).
  rewrite Ei in Ed. unfold fover. split; [exact Fd|]. rewrite Ed.
  replace (rnd (B2R s / N) - m) with (rnd (B2R s / N) - B2R s / N + (B2R s / N - m)) by ring.
  eapply Rle_trans; [apply Rabs_triang|]. pose proof (rnd_near (B2R s / N)) as RN.
  assert (M : u * Rabs (B2R s / N) <= u * (N * a + 2 * eta + X)) by (apply Rmult_le_compat_l; lra).
  replace (u * (N * a + 2 * eta + X)) with (N * u * a + 2 * (u * eta) + a) in M by (unfold a; ring).
  assert (M1 : N * u * a <= / 2 * a) by (apply Rmult_le_compat_r; assumption).
  assert (UU : u <= / 2). { eapply Rle_trans; [|exact Hn]. rewrite <- (Rmult_1_l u) at 1. apply Rmult_le_compat_r; lra. }
  assert (M2 : u * eta <= / 2 * eta) by (apply Rmult_le_compat_r; lra).
  replace ((N + 2) * u * X) with (N * a + 2 * a) by (unfold a; ring). lra.
Qed.
End NoSum.

(** ** SingleSumSMA: a running sum, one addition and one subtraction per sample *)
Section RunningSum.
Variables (X : R) (w : nat).
Hypothesis HX : 0 <= X.
Let P := INR (w + 1) * X.
Let delta := 3 * (u * P) + 3 * eta.
Hypothesis Hbig : P <= / 2 * big.

Lemma exact_sum_last (l : list float) : l <> [] -> exact_sum l = exact_sum (removelast l) + B2R (last l fzero).
Proof.
  induction l as [|x l IH]; intros H; [contradiction|]. destruct l as [|y l]; [cbn; ring|].
  change (removelast (x :: y :: l)) with (x :: removelast (y :: l)). change (last (x :: y :: l) fzero) with (last (y :: l) fzero).
  unfold exact_sum in *. cbn [map fold_right] in IH |- *. cbn [map fold_right] in IH. rewrite (IH ltac:(discriminate)). ring.
Qed.

Lemma bounded_removelast l : bounded X l -> bounded X (removelast l).
Proof.
  intros H. induction H as [|x l Hx Hl IH]; [constructor|]. destruct l; [constructor|].
  change (removelast (x :: b :: l)) with (x :: removelast (b :: l)). constructor; assumption.
Qed.
Lemma bounded_last l : l <> [] -> bounded X l -> is_finite (last l fzero) = true /\ Rabs (B2R (last l fzero)) <= X.
Proof.
  intros NE H. induction H as [|x l Hx Hl IH]; [contradiction|]. destruct l; [exact Hx|].
  change (last (x :: b :: l) fzero) with (last (b :: l) fzero). apply IH. discriminate.
Qed.

Definition near_sum (N : R) (s : ssma float) : Prop :=
  is_finite (ss_sum s) = true /\ Rabs (B2R (ss_sum s) - exact_sum (ss_samples s)) <= N * delta.

Lemma ssma_step N s x : 0 <= N -> (N + 1) * u <= / 16 -> 3 * ((N + 1) * eta) <= / 8 * big ->
  (1 <= w)%nat -> (length (ss_samples s) <= w)%nat -> bounded X (ss_samples s) -> is_finite x = true -> Rabs (B2R x) <= X ->
  near_sum N s ->
  let s' := ssma_add fadd fsub fzero w s x in
  near_sum (N + 1) s' /\ bounded X (ss_samples s') /\ (length (ss_samples s') <= w)%nat.
Proof.
  intros N0 HN HE W1 Lw Hb Fx Bx [Fs Es]. pose proof (uro_pos prec) as U0. pose proof (eta_pos prec emax) as E0.
  cbv zeta. unfold ssma_add. replace (w =? 0)%nat with false by (symmetry; apply Nat.eqb_neq; lia).
  set (S0 := ss_sum s) in *. set (l := ss_samples s) in *. set (err := Rabs (B2R S0 - exact_sum l)) in *.
  assert (err0 : 0 <= err) by apply Rabs_pos.
  assert (P0 : 0 <= P) by (apply Rmult_le_pos; [apply pos_INR|exact HX]).
  assert (UP0 : 0 <= u * P) by (apply Rmult_le_pos; lra).
  assert (Dl : 0 <= delta) by (unfold delta; lra).
  assert (u16 : u <= / 16). { eapply Rle_trans; [|exact HN]. rewrite <- (Rmult_1_l u) at 1. apply Rmult_le_compat_r; lra. }
  assert (Nu : N * u <= / 16). { eapply Rle_trans; [|exact HN]. apply Rmult_le_compat_r; lra. }
  assert (ue : u * err <= / 16 * delta).
  { eapply Rle_trans; [apply Rmult_le_compat_l; [lra|exact Es]|]. replace (u * (N * delta)) with (N * u * delta) by ring. apply Rmult_le_compat_r; lra. }
  assert (ue1 : err + delta <= 3 / 16 * P + / 8 * big).
  { apply Rle_trans with ((N + 1) * delta); [replace ((N + 1) * delta) with (N * delta + delta) by ring; lra|].
    unfold delta. replace ((N + 1) * (3 * (u * P) + 3 * eta)) with (3 * ((N + 1) * u * P) + 3 * ((N + 1) * eta)) by ring.
    assert ((N + 1) * u * P <= / 16 * P) by (apply Rmult_le_compat_r; assumption). lra. }
  assert (uuP : u * (u * P) <= / 16 * (u * P)) by (apply Rmult_le_compat_r; lra).
  assert (ud : u * delta <= / 16 * delta) by (apply Rmult_le_compat_r; lra).
  assert (un : u * eta <= / 16 * eta) by (apply Rmult_le_compat_r; lra).
  assert (BIG : 0 < big) by apply bpow_gt_0.
  assert (LP : INR (length l) * X + X <= P).
  { unfold P. rewrite plus_INR. cbn [INR]. rewrite Rmult_plus_distr_r, Rmult_1_l. apply Rplus_le_compat_r, Rmult_le_compat_r; [exact HX|apply le_INR; exact Lw]. }
  pose proof (sum_bound X l HX Hb) as SB.
  assert (D1 : Rabs (B2R S0 + B2R x) <= P + err).
  { replace (B2R S0 + B2R x) with (B2R S0 - exact_sum l + (exact_sum l + B2R x)) by ring.
    eapply Rle_trans; [apply Rabs_triang|]. fold err. pose proof (Rabs_triang (exact_sum l) (B2R x)). lra. }
  assert (OK1 : Rabs (B2R S0 + B2R x) <= big) by lra.
  destruct (plus_ok prec emax Hprec Hemax S0 x Fs Fx OK1) as (F1 & E1).
  assert (R1 : Rabs (B2R (fadd S0 x) - (exact_sum l + B2R x)) <= err + u * P + / 16 * delta + eta).
  { unfold fadd. rewrite E1. replace (rnd (B2R S0 + B2R x) - (exact_sum l + B2R x)) with (rnd (B2R S0 + B2R x) - (B2R S0 + B2R x) + (B2R S0 - exact_sum l)) by ring.
    eapply Rle_trans; [apply Rabs_triang|]. fold err. pose proof (rnd_near (B2R S0 + B2R x)) as RN.
    assert (M : u * Rabs (B2R S0 + B2R x) <= u * (P + err)) by (apply Rmult_le_compat_l; lra). lra. }
  replace ((N + 1) * delta) with (N * delta + delta) by ring.
  destruct (Nat.eqb_spec (length l) w) as [EW|EW]; unfold near_sum; cbn [ss_sum ss_samples].
  - assert (NE : l <> []) by (intros Q; rewrite Q in EW; cbn in EW; lia).
    destruct (bounded_last l NE Hb) as (Fl & Bl). pose proof (exact_sum_last l NE) as ES. pose proof (bounded_removelast l Hb) as Hr.
    assert (LR : length (removelast l) = (w - 1)%nat) by (rewrite removelast_firstn_len, firstn_length; lia).
    pose proof (sum_bound X _ HX Hr) as SR. rewrite LR in SR.
    assert (LR' : INR (w - 1) * X + X <= P).
    { unfold P. rewrite plus_INR. cbn [INR]. rewrite Rmult_plus_distr_r, Rmult_1_l. apply Rplus_le_compat_r, Rmult_le_compat_r; [exact HX|apply le_INR; lia]. }
    set (o := last l fzero) in *. set (s1 := fadd S0 x) in *.
    assert (D2 : Rabs (B2R s1 - B2R o) <= P + (err + u * P + / 16 * delta + eta)).
    { replace (B2R s1 - B2R o) with (B2R s1 - (exact_sum l + B2R x) + (exact_sum (removelast l) + B2R x)) by (rewrite ES; ring).
      eapply Rle_trans; [apply Rabs_triang|]. pose proof (Rabs_triang (exact_sum (removelast l)) (B2R x)). lra. }
    assert (OK2 : Rabs (B2R s1 - B2R o) <= big) by (unfold delta in *; lra).
    destruct (minus_ok prec emax Hprec Hemax s1 o F1 Fl OK2) as (F2 & E2).
    split; [split; [exact F2|]|split].
    + unfold fsub. rewrite E2. unfold exact_sum at 1. cbn [map fold_right]. fold (exact_sum (removelast l)).
      replace (rnd (B2R s1 - B2R o) - (B2R x + exact_sum (removelast l)))
        with (rnd (B2R s1 - B2R o) - (B2R s1 - B2R o) + (B2R s1 - (exact_sum l + B2R x))) by (rewrite ES; ring).
      eapply Rle_trans; [apply Rabs_triang|]. pose proof (rnd_near (B2R s1 - B2R o)) as RN.
      assert (M : u * Rabs (B2R s1 - B2R o) <= u * (P + (err + u * P + / 16 * delta + eta))) by (apply Rmult_le_compat_l; lra).
      replace (u * (P + (err + u * P + / 16 * delta + eta))) with (u * P + u * err + u * (u * P) + / 16 * (u * delta) + u * eta) in M by ring.
      assert (2 * (u * P) + 2 * eta = 2 / 3 * delta) by (unfold delta; field).
      assert (u * P + eta = / 3 * delta) by (unfold delta; field). lra.
    + constructor; [split; assumption|exact Hr].
    + cbn [length]. lia.
  - split; [split; [exact F1|]|split].
    + unfold exact_sum at 1. cbn [map fold_right]. fold (exact_sum l). rewrite (Rplus_comm (B2R x)).
      assert (u * P + eta = / 3 * delta) by (unfold delta; field). lra.
    + constructor; [split; assumption|exact Hb].
    + cbn [length]. lia.
Qed.

Lemma ssma_run xs : forall N s, 0 <= N -> (N + INR (length xs)) * u <= / 16 -> 3 * ((N + INR (length xs)) * eta) <= / 8 * big ->
  (1 <= w)%nat -> (length (ss_samples s) <= w)%nat -> bounded X (ss_samples s) -> bounded X xs -> near_sum N s ->
  let s' := fold_left (ssma_add fadd fsub fzero w) xs s in
  near_sum (N + INR (length xs)) s' /\ bounded X (ss_samples s') /\ (length (ss_samples s') <= w)%nat.
Proof.
  cbv zeta. pose proof (uro_pos prec) as U0. pose proof (eta_pos prec emax) as E0.
  induction xs as [|x xs IH]; intros N s N0 HN HE W1 Lw Hb Hx Hs.
  - cbn [length INR fold_left]. rewrite Rplus_0_r. repeat split; try assumption; apply Hs.
  - cbn [length] in HN, HE. rewrite S_INR in HN, HE. pose proof (pos_INR (length xs)) as L0. inversion Hx as [|? ? [Fx Bx] Hx']; subst.
    assert (H1 : (N + 1) * u <= / 16) by (eapply Rle_trans; [|exact HN]; apply Rmult_le_compat_r; lra).
    assert (H2 : 3 * ((N + 1) * eta) <= / 8 * big). { eapply Rle_trans; [|exact HE]. apply Rmult_le_compat_l; [lra|]. apply Rmult_le_compat_r; lra. }
    pose proof (ssma_step N s x N0 H1 H2 W1 Lw Hb Fx Bx Hs) as Q. cbv zeta in Q. destruct Q as (Q1 & Q2 & Q3).
    cbn [fold_left]. cbn [length]. rewrite S_INR. replace (N + (INR (length xs) + 1)) with (N + 1 + INR (length xs)) in * by ring.
    apply IH; try assumption. lra.
Qed.

Lemma running_err xs : (1 <= w)%nat -> xs <> [] -> bounded X xs ->
  INR (length xs) * u <= / 16 -> 3 * (INR (length xs) * eta) <= / 8 * big -> (Z.of_nat (length xs) <= 2 ^ prec)%Z ->
  let a := ssma_average fover (fold_left (ssma_add fadd fsub fzero w) xs (ssma_new fzero)) in
  is_finite a = true /\
  Rabs (B2R a - exact_mean (latest w xs)) <= 5 * INR (length xs) * (u * P + eta) / INR (length (latest w xs)).
Proof.
  intros W1 NE Hb HN HE NP. cbv zeta. pose proof (uro_pos prec) as U0. pose proof (eta_pos prec emax) as E0.
  assert (BIG : 0 < big) by apply bpow_gt_0.
  pose proof (ssma_run xs 0 (ssma_new fzero) ltac:(lra)) as Q. rewrite Rplus_0_l in Q.
  specialize (Q HN HE W1 (Nat.le_0_l w) (Forall_nil _) Hb). cbv zeta in Q.
  destruct Q as ((Fs & Es) & Hs & Ls).
  { split; [reflexivity|]. cbn. rewrite Rminus_0_r, Rabs_R0. lra. }
  rewrite (ssma_contents fadd fsub fzero w xs) in *. set (S0 := ss_sum _) in *.
  assert (LL : length (latest w xs) = Nat.min w (length xs)) by (unfold latest; rewrite firstn_length, rev_length; reflexivity).
  assert (n1 : (1 <= length (latest w xs))%nat) by (rewrite LL; destruct xs; [contradiction|cbn [length]; lia]).
  unfold ssma_average. rewrite (ssma_contents fadd fsub fzero w xs). replace (length (latest w xs) =? 0)%nat with false by (symmetry; apply Nat.eqb_neq; lia).
  fold S0. set (l := latest w xs) in *.
  assert (nN : INR (length l) <= INR (length xs)) by (apply le_INR; lia).
  assert (n1' : 1 <= INR (length l)) by (change 1 with (INR 1); apply le_INR; exact n1).
  pose proof (sum_bound X l HX Hs) as SB.
  destruct (of_int_ok prec emax Hprec Hemax (Z.of_nat (length l))) as (Fi & Ei); [rewrite Z.abs_eq by lia; lia|].
  rewrite <- INR_IZR_INZ in Ei. set (n := INR (length l)) in *. set (N := INR (length xs)) in *.
  assert (NN : n <> 0) by lra.
  set (m := exact_mean l). assert (Em : exact_sum l = n * m) by (unfold m, exact_mean; fold n; field; exact NN).
  assert (Bm : Rabs m <= X).
  { apply Rmult_le_reg_l with n; [lra|]. replace (n * Rabs m) with (Rabs (exact_sum l)); [exact SB|]. rewrite Em, Rabs_mult, (Rabs_pos_eq n) by lra. reflexivity. }
  assert (P0 : 0 <= P) by (apply Rmult_le_pos; [apply pos_INR|exact HX]).
  assert (UP0 : 0 <= u * P) by (apply Rmult_le_pos; lra).
  assert (nX : n * X <= P).
  { unfold P, n. apply Rmult_le_compat_r; [exact HX|]. apply le_INR. lia. }
  assert (nu : n * (u * X) <= u * P). { replace (n * (u * X)) with (u * (n * X)) by ring. apply Rmult_le_compat_l; lra. }
  assert (u16 : u <= / 16). { eapply Rle_trans; [|exact HN]. rewrite <- (Rmult_1_l u) at 1. apply Rmult_le_compat_r; lra. }
  set (g := u * P + eta). assert (Dg : delta = 3 * g) by (unfold delta, g; ring). rewrite Dg in Es.
  assert (g0 : 0 <= g) by (unfold g; lra).
  set (q := B2R S0 / n). set (d := Rabs (q - m)).
  assert (nd : n * d <= 3 * (N * g)).
  { unfold d. rewrite <- (Rabs_pos_eq n) at 1 by lra. rewrite <- Rabs_mult. replace (n * (q - m)) with (B2R S0 - exact_sum l) by (unfold q; rewrite Em; field; exact NN). lra. }
  assert (d0 : 0 <= d) by apply Rabs_pos.
  assert (Bq : Rabs q <= d + X). { replace q with (q - m + m) by ring. eapply Rle_trans; [apply Rabs_triang|]. unfold d. lra. }
  assert (dn : d <= n * d). { rewrite <- (Rmult_1_l d) at 1. apply Rmult_le_compat_r; lra. }
  assert (XP : X <= P). { rewrite <- (Rmult_1_l X) at 1. apply Rle_trans with (n * X); [apply Rmult_le_compat_r; lra|exact nX]. }
  assert (Ng : N * g <= / 16 * P + / 24 * big).
  { unfold g. replace (N * (u * P + eta)) with (N * u * P + N * eta) by ring. assert (N * u * P <= / 16 * P) by (apply Rmult_le_compat_r; assumption). lra. }
  assert (OK : Rabs (B2R S0 / B2R (@of_int prec emax Hprec Hemax (Z.of_nat (length l)))) <= big) by (rewrite Ei; fold q; lra).
  destruct (div_ok prec emax Hprec Hemax S0 (@of_int prec emax Hprec Hemax (Z.of_nat (length l))) Fs ltac:(rewrite Ei; exact NN) OK) as (Fd & Ed).
  rewrite Ei in Ed. fold q in Ed. unfold fover. split; [exact Fd|]. rewrite Ed.
  apply Rmult_le_reg_l with n; [lra|]. replace (n * (5 * N * g / n)) with (5 * (N * g)) by (field; exact NN).
  pose proof (rnd_near q) as RN.
  assert (T : Rabs (rnd q - m) <= d + (u * Rabs q + eta)).
  { replace (rnd q - m) with (rnd q - q + (q - m)) by ring. eapply Rle_trans; [apply Rabs_triang|]. unfold d. lra. }
  assert (M : u * Rabs q <= u * d + u * X). { rewrite <- Rmult_plus_distr_l. apply Rmult_le_compat_l; lra. }
  assert (M2 : n * (u * d) <= / 16 * (n * d)). { replace (n * (u * d)) with (u * (n * d)) by ring. apply Rmult_le_compat_r; [lra|exact u16]. }
  assert (Gn : n * eta + u * P <= N * g).
  { unfold g. rewrite Rmult_plus_distr_l. assert (n * eta <= N * eta) by (apply Rmult_le_compat_r; lra).
    assert (u * P <= N * (u * P)) by (rewrite <- (Rmult_1_l (u * P)) at 1; apply Rmult_le_compat_r; lra). lra. }
  assert (TT : n * Rabs (rnd q - m) <= n * (d + (u * d + u * X + eta))) by (apply Rmult_le_compat_l; lra).
  replace (n * (d + (u * d + u * X + eta))) with (n * d + n * (u * d) + n * (u * X) + n * eta) in TT by ring. lra.
Qed.
End RunningSum.
End Average.

Section Small.
Variable prec emax : Z.
Context (Hprec : Prec_gt_0 prec) (Hemax : Prec_lt_emax prec emax) (H3 : (3 <= emax)%Z).

Lemma count_small (c n : nat) : (Z.of_nat n * 2 ^ Z.of_nat c <= 2 ^ prec)%Z ->
  INR n * uro prec <= bpow radix2 (- Z.of_nat c) /\ INR n * eta prec emax <= bpow radix2 (2 - emax - Z.of_nat c).
Proof.
  intros H. unfold Prec_gt_0 in Hprec.
  assert (B : INR n <= bpow radix2 (prec - Z.of_nat c)).
  { apply Rmult_le_reg_r with (bpow radix2 (Z.of_nat c)); [apply bpow_gt_0|]. rewrite <- bpow_plus. replace (prec - Z.of_nat c + Z.of_nat c)%Z with prec by lia.
    rewrite INR_IZR_INZ, <- !(IZR_Zpower radix2) by lia. rewrite <- mult_IZR. apply IZR_le. exact H. }
  split.
  - rewrite uro_eq. eapply Rle_trans; [apply Rmult_le_compat_r; [apply bpow_ge_0|exact B]|]. rewrite <- bpow_plus. apply bpow_le. lia.
  - unfold eta. replace (/ 2) with (bpow radix2 (-1)) by reflexivity. rewrite <- bpow_plus.
    eapply Rle_trans; [apply Rmult_le_compat_r; [apply bpow_ge_0|exact B]|]. rewrite <- bpow_plus. apply bpow_le. unfold SpecFloat.emin. lia.
Qed.
End Small.

(** C62, windowed sum.  In any binary format (f32: 24 128, f64: 53 1024), for
    every window and every sequence of samples of which the last [n] (those the
    window holds) are finite and at most X: if n samples of size X do not overflow and n
    is below half the precision, the average is a number, within (n+2) roundings
    of X of the true mean of the window.  Samples that have left the window have
    no influence, whatever they were (even NaN or infinite). *)
Theorem C62_window_average_ieee : forall prec emax (Hprec : Prec_gt_0 prec) (Hemax : Prec_lt_emax prec emax) w xs X,
  (3 <= emax)%Z -> 0 <= X ->
  let n := Nat.min w (length xs) in
  let a := nsma_average (fadd prec emax Hprec Hemax) (fover prec emax Hprec Hemax) (fzero prec emax) (fold_left (nsma_add w) xs []) in
  (1 <= n)%nat -> (2 * Z.of_nat n <= 2 ^ prec)%Z -> INR n * X <= bpow radix2 (emax - 2) ->
  bounded prec emax X (latest w xs) ->
  is_finite a = true /\
  Rabs (B2R a - exact_mean prec emax (latest w xs)) <= (INR n + 2) * bpow radix2 (- prec) * X + bpow radix2 (4 - emax - prec).
Proof.
  intros prec emax Hprec Hemax w xs X H3 HX n a N1 N2 NX Hb. unfold a. rewrite nsma_contents.
  assert (LL : length (latest w xs) = n) by (unfold latest, n; rewrite firstn_length, rev_length; reflexivity).
  destruct (count_small prec emax Hprec 1 n) as (A & B); [change (2 ^ Z.of_nat 1)%Z with 2%Z; lia|].
  change (bpow radix2 (- Z.of_nat 1)) with (/ 2) in A.
  assert (C : INR n * eta prec emax <= / 8 * bpow radix2 (emax - 1)).
  { eapply Rle_trans; [exact B|]. replace (/ 8) with (bpow radix2 (-3)) by (cbn; lra). rewrite <- bpow_plus. apply bpow_le. lia. }
  assert (D : bpow radix2 (emax - 2) = / 2 * bpow radix2 (emax - 1)).
  { replace (/ 2) with (bpow radix2 (-1)) by reflexivity. rewrite <- bpow_plus. f_equal. lia. }
  rewrite D in NX.
  destruct (nosum_err prec emax Hprec Hemax X n HX A ltac:(lra) (latest w xs) LL N1 ltac:(lia) Hb) as (F & G).
  split; [exact F|]. rewrite uro_eq in G. eapply Rle_trans; [exact G|]. apply Rplus_le_compat_l.
  unfold eta. replace (4 * (/ 2 * bpow radix2 (SpecFloat.emin prec emax))) with (bpow radix2 1 * bpow radix2 (SpecFloat.emin prec emax)) by (cbn; lra).
  rewrite <- bpow_plus. apply Req_le. f_equal. unfold SpecFloat.emin. lia.
Qed.

(** C62, running sum.  The error of the running sum grows with the number N of
    samples ever added, not with the window: it is at most 5 N ((w+1) X u +
    smallest), divided by the samples held.  The hypothesis bounds N by 1/16 of
    the precision.  (Every sample ever added must be finite and at most X: the
    finding C62_refuted_running_sum shows a window of one that reports 0.) *)
Theorem C62_running_average_ieee : forall prec emax (Hprec : Prec_gt_0 prec) (Hemax : Prec_lt_emax prec emax) w xs X,
  (3 <= emax)%Z -> 0 <= X -> (1 <= w)%nat -> xs <> [] ->
  let N := length xs in
  let a := ssma_average (fover prec emax Hprec Hemax)
             (fold_left (ssma_add (fadd prec emax Hprec Hemax) (fsub prec emax Hprec Hemax) (fzero prec emax) w) xs (ssma_new (fzero prec emax))) in
  (16 * Z.of_nat N <= 2 ^ prec)%Z -> INR (w + 1) * X <= bpow radix2 (emax - 2) ->
  bounded prec emax X xs ->
  is_finite a = true /\
  Rabs (B2R a - exact_mean prec emax (latest w xs)) <=
    5 * INR N * (bpow radix2 (- prec) * (INR (w + 1) * X) + bpow radix2 (2 - emax - prec)) / INR (Nat.min w N).
Proof.
  intros prec emax Hprec Hemax w xs X H3 HX W1 NE N a N16 WX Hb. unfold a.
  destruct (count_small prec emax Hprec 4 N) as (A & B); [change (2 ^ Z.of_nat 4)%Z with 16%Z; lia|].
  change (bpow radix2 (- Z.of_nat 4)) with (/ 16) in A.
  assert (C : 3 * (INR N * eta prec emax) <= / 8 * bpow radix2 (emax - 1)).
  { apply Rle_trans with (4 * bpow radix2 (2 - emax - Z.of_nat 4)); [pose proof (bpow_gt_0 radix2 (2 - emax - Z.of_nat 4)); lra|].
    replace (/ 8) with (bpow radix2 (-3)) by (cbn; lra). replace 4 with (bpow radix2 2) by (cbn; lra). rewrite <- !bpow_plus. apply bpow_le. lia. }
  assert (D : bpow radix2 (emax - 2) = / 2 * bpow radix2 (emax - 1)).
  { replace (/ 2) with (bpow radix2 (-1)) by reflexivity. rewrite <- bpow_plus. f_equal. lia. }
  rewrite D in WX.
  destruct (running_err prec emax Hprec Hemax X w HX WX xs W1 NE Hb A C ltac:(fold N; lia)) as (F & G).
  split; [exact F|]. fold N in G.
  assert (LL : length (latest w xs) = Nat.min w N) by (unfold latest, N; rewrite firstn_length, rev_length; reflexivity).
  rewrite LL in G. rewrite uro_eq in G. eapply Rle_trans; [exact G|]. apply Req_le. do 4 f_equal.
  unfold eta. replace (/ 2) with (bpow radix2 (-1)) by reflexivity. rewrite <- bpow_plus. f_equal. unfold SpecFloat.emin. lia.
Qed.

(** non-vacuity: f32, a window of three, an infinite sample that has left it *)
Theorem C62_ieee_instance :
  let xs := [B754_infinity false; @of_int 24 128 prec24 emax24 10; @of_int 24 128 prec24 emax24 20; @of_int 24 128 prec24 emax24 31] in
  bounded 24 128 31 (latest 3 xs) /\
  B2SF (nsma_average (fadd 24 128 prec24 emax24) (fover 24 128 prec24 emax24) (fzero 24 128) (fold_left (nsma_add 3) xs [])) = B2SF (Bdiv mode_NE (@of_int 24 128 prec24 emax24 61) (@of_int 24 128 prec24 emax24 3)).
Proof.
  cbv zeta. split; [|vm_compute; reflexivity].
  assert (I : forall n, (0 <= n <= 31)%Z -> is_finite (@of_int 24 128 prec24 emax24 n) = true /\ Rabs (B2R (@of_int 24 128 prec24 emax24 n)) <= 31).
  { intros n Hn. destruct (of_int_ok 24 128 prec24 emax24 n) as (F & E); [apply Z.le_trans with 31%Z; [lia|discriminate]|]. split; [exact F|].
    rewrite E, Rabs_pos_eq by (apply IZR_le; lia). apply IZR_le. lia. }
  unfold latest. cbn [rev app firstn]. constructor; [apply I; lia|constructor; [apply I; lia|constructor; [apply I; lia|constructor]]].
Qed.

(** * Property C34: fixed-point quantisation honours its declared error.
    (And the single-step nearness used by C33.) *)
From Coq Require Import QArith Qround Qabs ZArith Lia Lqa Bool List.
From Verif Require Import FixedPoint DeltaLogger PropLogger.
Local Open Scope Q_scope.

(** a factory as the macros build it: non-empty range, positive error, and a
    number of bits for which a VariableInt exists (1..32; anything else does
    not compile, variable_int.rs:88-119) *)
Definition declared (f : factory) (max_error : Q) : Prop :=
  f_min f < f_max f /\ 0 < max_error /\ (1 <= f_bits f <= 32)%nat /\
  (exists min max, f = minmax min max max_error) \/
  f_min f < f_max f /\ 0 < max_error /\ (1 <= f_bits f <= 32)%nat /\
  (exists s t, f = slope s t max_error).

Lemma declared_range f e : declared f e ->
  f_min f < f_max f /\ (1 <= f_bits f)%nat /\ f_max f - f_min f <= inject_Z (2 ^ Z.of_nat (f_bits f)) * e.
Proof.
  intros [(H1 & H2 & H3 & min & max & E)|(H1 & H2 & H3 & s & t & E)]; (split; [exact H1|]); (split; [lia|]); subst f; cbn [f_min f_max f_bits minmax slope] in *.
  - apply required_bits_spec; [lra|exact H2].
  - assert (E : s * t / 1000 - - s * t / 1000 == s * t / 1000 * 2) by field.
    rewrite E. apply required_bits_spec; [|exact H2]. rewrite <- E. lra.
Qed.

Lemma to_fixed_in_range f q : f_min f < f_max f -> (1 <= f_bits f)%nat -> f_min f <= q <= f_max f ->
  let x := (q - f_min f) / (f_max f - f_min f) * inject_Z (target_max f) in
  to_fixed_point f (Num q) = Code (round_away x) /\ (0 <= round_away x <= target_max f)%Z /\ 0 <= x.
Proof.
  intros Hm Hb [H1 H2]. cbv zeta. set (x := (q - f_min f) / (f_max f - f_min f) * inject_Z (target_max f)).
  assert (T1 : (1 <= target_max f)%Z).
  { unfold target_max. assert (2 <= 2 ^ Z.of_nat (f_bits f))%Z; [|lia]. rewrite <- (Z.pow_1_r 2) at 1. apply Z.pow_le_mono_r; lia. }
  assert (TQ : 1 <= inject_Z (target_max f)) by (change 1 with (inject_Z 1); rewrite <- Zle_Qle; exact T1).
  assert (F1 : 0 <= (q - f_min f) / (f_max f - f_min f)) by (apply Qle_shift_div_l; lra).
  assert (F2 : (q - f_min f) / (f_max f - f_min f) <= 1) by (apply Qle_shift_div_r; lra).
  assert (X0 : 0 <= x) by (unfold x; apply Qmult_le_0_compat; lra).
  assert (X1 : x <= inject_Z (target_max f)).
  { unfold x. rewrite <- (Qmult_1_l (inject_Z (target_max f))) at 2. apply Qmult_le_compat_r; lra. }
  pose proof (round_bounds x (target_max f) X0 X1) as RB. split; [|split; assumption].
  unfold to_fixed_point. rewrite (proj2 (qlt_false q (f_min f)) H1), (proj2 (qlt_false (f_max f) q) H2). cbn [orb]. fold x.
  unfold cast_code. destruct (Z.leb_spec 0 (round_away x)); [|lia]. destruct (Z.leb_spec (round_away x) (target_max f)); [|lia]. reflexivity.
Qed.

Lemma code_error f e q n : declared f e -> f_min f <= q <= f_max f -> to_fixed_point f (Num q) = Code n ->
  Qabs (to_float f n - q) <= e.
Proof.
  intros Dc Hq Hc. destruct (declared_range f e Dc) as (Hm & Hb & HE).
  destruct (to_fixed_in_range f q Hm Hb Hq) as (C & RB & X0). rewrite C in Hc. injection Hc as <-.
  set (x := (q - f_min f) / (f_max f - f_min f) * inject_Z (target_max f)) in *.
  pose proof (round_half x X0) as RH. pose proof (half_step f e Hb Hm HE) as HS.
  assert (T1 : (1 <= target_max f)%Z).
  { unfold target_max. assert (2 <= 2 ^ Z.of_nat (f_bits f))%Z; [|lia]. rewrite <- (Z.pow_1_r 2) at 1. apply Z.pow_le_mono_r; lia. }
  assert (TQ : 1 <= inject_Z (target_max f)) by (change 1 with (inject_Z 1); rewrite <- Zle_Qle; exact T1).
  set (st := (f_max f - f_min f) / inject_Z (target_max f)) in *.
  assert (ST : 0 <= st) by (unfold st; apply Qle_shift_div_l; lra).
  assert (E : to_float f (round_away x) - q == (inject_Z (round_away x) - x) * st).
  { unfold to_float, x, st. field. split; lra. }
  rewrite E, Qabs_Qmult, (Qabs_pos st ST). apply Qle_trans with ((1 # 2) * st); [|exact HS].
  apply Qmult_le_compat_r; assumption.
Qed.

(** ** C34.  For every declared factory and every (non-NaN) value: a value in
    the range gets a code that fits the declared bits and decodes to within the
    declared error; a value outside is rejected; the capped variant encodes the
    nearest value of the range. *)
Theorem C34_quantisation_partial : forall f max_error, declared f max_error ->
  (forall q, f_min f <= q <= f_max f ->
     exists n, to_fixed_point f (Num q) = Code n /\ (0 <= n < 2 ^ Z.of_nat (f_bits f))%Z /\
       Qabs (to_float f n - q) <= max_error) /\
  (forall q, q < f_min f \/ f_max f < q -> to_fixed_point f (Num q) = Rejected) /\
  to_fixed_point f PInf = Rejected /\ to_fixed_point f NInf = Rejected /\
  (forall q, exists n, to_fixed_point_capped f (Num q) = Code n /\
     Qabs (to_float f n - (if qlt q (f_min f) then f_min f else if qlt (f_max f) q then f_max f else q)) <= max_error).
Proof.
  intros f e Dc. destruct (declared_range f e Dc) as (Hm & Hb & HE).
  assert (IN : forall q, f_min f <= q <= f_max f ->
     exists n, to_fixed_point f (Num q) = Code n /\ (0 <= n < 2 ^ Z.of_nat (f_bits f))%Z /\ Qabs (to_float f n - q) <= e).
  { intros q Hq. destruct (to_fixed_in_range f q Hm Hb Hq) as (C & RB & X0). eexists. split; [exact C|]. split.
    - cbv zeta in RB. unfold target_max in RB at 2. split; [apply RB|]. apply Z.le_lt_trans with (2 ^ Z.of_nat (f_bits f) - 1)%Z; [apply RB|lia].
    - apply (code_error f e q _ Dc Hq C). }
  split; [exact IN|]. split; [|split; [reflexivity|split; [reflexivity|]]].
  - intros q [H|H]; unfold to_fixed_point.
    + rewrite (proj2 (qlt_spec _ _) H). reflexivity.
    + rewrite (proj2 (qlt_spec _ _) H), orb_true_r. reflexivity.
  - intros q. unfold to_fixed_point_capped.
    destruct (qlt q (f_min f)) eqn:A; [|destruct (qlt (f_max f) q) eqn:B].
    + destruct (IN (f_min f)) as (n & C & _ & G); [split; lra|]. rewrite C. exists n. split; [reflexivity|exact G].
    + destruct (IN (f_max f)) as (n & C & _ & G); [split; lra|]. rewrite C. exists n. split; [reflexivity|exact G].
    + apply qlt_false in A, B. destruct (IN q) as (n & C & _ & G); [split; assumption|]. rewrite C. exists n. split; [reflexivity|exact G].
Qed.

(** NaN passes both range tests and panics instead of being rejected. *)
Theorem C34_refuted_nan : forall f, to_fixed_point f NaN = Panic /\ to_fixed_point_capped f NaN = Panic.
Proof. intros f. split; reflexivity. Qed.

(** the factories of the test-suite and of the ADC *)
Example C34_one_bit : declared (minmax 0 1 (1 # 2)) (1 # 2) /\ f_bits (minmax 0 1 (1 # 2)) = 1%nat.
Proof.
  split; [|vm_compute; reflexivity]. left. split; [reflexivity|]. split; [reflexivity|]. split.
  - assert (f_bits (minmax 0 1 (1 # 2)) = 1%nat) as -> by (vm_compute; reflexivity). lia.
  - exists 0, 1. reflexivity.
Qed.
Example C34_adc : let f := slope (2 # 10) 500 (2 # 1000) in declared f (2 # 1000) /\ f_bits f = 7%nat /\
  to_fixed_point f (Num (5 # 100)) = Code 95%Z /\ to_fixed_point f (Num (2 # 10)) = Rejected.
Proof.
  cbv zeta. split; [|split; [vm_compute; reflexivity|split; vm_compute; reflexivity]]. right. split; [vm_compute; reflexivity|]. split; [reflexivity|]. split.
  - assert (f_bits (slope (2 # 10) 500 (2 # 1000)) = 7%nat) as -> by (vm_compute; reflexivity). lia.
  - exists (2 # 10), 500. reflexivity.
Qed.

(** ** The nearness hypothesis of C33 for fixed-point deltas: rebuilding a
    value from its quantised difference errs by at most the declared error,
    whatever the base value (ADCData, BaroData, IMUData and MagData apply such
    a factory to each component, driver/adc.rs:79-95). *)
Definition fp_deltable (f : factory) : deltable Q Z :=
  Deltable (fun v l => match to_fixed_point f (Num (v - l)) with Code n => Some n | _ => None end)
           (fun l n => Some (l + to_float f n)).

Theorem C33_fixed_point_step : forall f max_error v base x r, declared f max_error ->
  d_sub (fp_deltable f) v base = Some x -> d_add (fp_deltable f) base x = Some r -> Qabs (v - r) <= max_error.
Proof.
  intros f e v base x r Dc. cbn [d_sub d_add fp_deltable]. intros H1 H2.
  destruct (to_fixed_point f (Num (v - base))) as [|n|] eqn:E; try discriminate. injection H1 as <-. injection H2 as <-.
  assert (Hq : f_min f <= v - base <= f_max f).
  { unfold to_fixed_point in E. destruct (qlt (v - base) (f_min f)) eqn:A; [discriminate|]. destruct (qlt (f_max f) (v - base)) eqn:B; [discriminate|].
    apply qlt_false in A, B. split; assumption. }
  pose proof (code_error f e (v - base) n Dc Hq E) as G.
  assert (EQ : v - (base + to_float f n) == - (to_float f n - (v - base))) by ring.
  rewrite EQ, Qabs_opp. exact G.
Qed.

(** and the whole chain: along any sequence of samples, rebuilt one from the
    other, no error builds up *)
Fixpoint rebuild_chain (f : factory) (last : option Q) (vs : list Q) : list Q :=
  match vs with
  | nil => nil
  | cons v vs => let r := match rebuilt (fp_deltable f) last v with Some r => r | None => v end in cons r (rebuild_chain f (Some r) vs)
  end.
Theorem C33_chain : forall f max_error vs last, declared f max_error ->
  Forall2 (fun v r => Qabs (v - r) <= max_error) vs (rebuild_chain f last vs).
Proof.
  intros f e vs. induction vs as [|v vs IH]; intros last Dc; cbn [rebuild_chain]; [constructor|].
  assert (0 < e) by (destruct Dc as [(_ & H & _)|(_ & H & _)]; exact H).
  constructor; [|apply IH, Dc]. destruct (rebuilt (fp_deltable f) last v) as [r|] eqn:E.
  - unfold rebuilt in E. destruct last as [l|]; [|discriminate].
    destruct (d_sub (fp_deltable f) v l) as [x|] eqn:E1; [|discriminate]. apply (C33_fixed_point_step f e v l x r Dc E1 E).
  - assert (EQ : v - v == 0) by ring. rewrite EQ. cbn. lra.
Qed.

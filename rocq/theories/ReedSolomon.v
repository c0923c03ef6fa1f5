(** * The Reed-Solomon code used by the radio packets.

    The code itself is the external crate reed-solomon (Encoder::new(e).encode,
    Decoder::new(e).correct), called at
    firmware-common/src/common/vlp/packet_builder.rs:137-140, 166-178, 257-260,
    283-292.  Its source is not in the repository: it is modelled by the
    systematic Reed-Solomon code over GF(256) (polynomial 0x11d, generator 2,
    first root 2^0) and the bounded-distance decoder (which fails when no
    codeword lies within e/2 byte errors).  What the packet theorems use is
    proved below, not assumed: a word with at most e/2 wrong bytes decodes to
    the data that was sent. *)
From Verif Require Import Base.
Local Open Scope nat_scope.

(** multiplication by the generator 2 in GF(256) *)
Definition xtime (a : N) : N := N.lxor (N.land (N.shiftl a 1) 255) (if N.testbit a 7 then 29 else 0)%N.
(** multiplication by 2^k *)
Fixpoint pw (k : nat) (a : N) : N := match k with 0 => a | S k => xtime (pw k a) end.

(** value at 2^j of the polynomial whose coefficients, highest first, are [c] *)
Definition eval (j : nat) (c : list byte) : N := fold_left (fun acc x => N.lxor (pw j acc) x) c 0%N.

(** synthetic division by (x - 2^a): quotient and remainder *)
Fixpoint sdiv (a : nat) (acc : N) (p : list byte) : list byte * N :=
  match p with
  | [] => ([], acc)
  | x :: p => let (q, r) := sdiv a (N.lxor (pw a acc) x) p in (acc :: q, r)
  end.
Definition divide (a : nat) (p : list byte) : list byte * N :=
  match p with [] => ([], 0%N) | x :: p => sdiv a x p end.

(** (x - 2^a) * s + r *)
Fixpoint mul_add (a : nat) (carry : N) (s : list byte) (r : N) : list byte :=
  match s with
  | [] => [N.lxor (pw a carry) r]
  | x :: s => N.lxor (pw a carry) x :: mul_add a x s r
  end.

(** remainder of [p] modulo the product of the (x - 2^a) *)
Fixpoint remainder (roots : list nat) (p : list byte) : list byte :=
  match roots with
  | [] => []
  | a :: roots => let (q, r) := divide a p in mul_add a 0%N (remainder roots q) r
  end.

(** Encoder::new(e).encode(data).ecc() *)
Definition rs_ecc (e : nat) (data : list byte) : list byte := remainder (seq 0 e) (data ++ repeat 0%N e).

(** number of positions in which two words differ *)
Fixpoint distance (a b : list byte) : nat :=
  match a, b with
  | x :: a, y :: b => (if (x =? y)%N then 0 else 1) + distance a b
  | _, _ => 0
  end.

(** every word of [n] bytes (never computed: only its elements matter) *)
Fixpoint all_words (n : nat) : list (list byte) :=
  match n with 0 => [[]] | S n => flat_map (fun w => map (fun b => b :: w) all_bytes) (all_words n) end.

(** Decoder::new(e).correct(received, None): the data part of a codeword that
    differs from the received word in at most e/2 bytes *)
Definition rs_correct (e : nat) (received : list byte) : option (list byte) :=
  find (fun d => distance (d ++ rs_ecc e d) received <=? e / 2) (all_words (length received - e)).

(** ** Linearity *)
Ltac xors := apply N.bits_inj; let k := fresh "k" in intros k; rewrite ?N.lxor_spec;
  repeat match goal with |- context [N.testbit ?x k] => destruct (N.testbit x k) end; reflexivity.
Lemma xtime_lxor a b : xtime (N.lxor a b) = N.lxor (xtime a) (xtime b).
Proof.
  unfold xtime. rewrite N.lxor_spec, N.shiftl_lxor.
  replace (N.land (N.lxor (N.shiftl a 1) (N.shiftl b 1)) 255) with (N.lxor (N.land (N.shiftl a 1) 255) (N.land (N.shiftl b 1) 255)).
  2:{ apply N.bits_inj. intros n. rewrite !N.lxor_spec, !N.land_spec, N.lxor_spec. destruct (N.testbit (N.shiftl a 1) n), (N.testbit (N.shiftl b 1) n), (N.testbit 255 n); reflexivity. }
  apply N.bits_inj. intros n. rewrite !N.lxor_spec.
  destruct (N.testbit a 7), (N.testbit b 7); cbn [xorb]; rewrite ?N.bits_0, ?xorb_false_r;
    destruct (N.testbit (N.land (N.shiftl a 1) 255) n), (N.testbit (N.land (N.shiftl b 1) 255) n), (N.testbit 29 n); reflexivity.
Qed.
Lemma pw_lxor k a b : pw k (N.lxor a b) = N.lxor (pw k a) (pw k b).
Proof. induction k as [|k IH]; [reflexivity|]. cbn [pw]. rewrite IH. apply xtime_lxor. Qed.
Lemma pw_0 k : pw k 0%N = 0%N.
Proof. induction k as [|k IH]; [reflexivity|]. cbn [pw]. rewrite IH. reflexivity. Qed.
Lemma pw_add a b x : pw a (pw b x) = pw (a + b) x.
Proof. induction a as [|a IH]; [reflexivity|]. cbn [pw Nat.add]. rewrite IH. reflexivity. Qed.
Lemma pw_comm a b x : pw a (pw b x) = pw b (pw a x).
Proof. rewrite !pw_add. f_equal. lia. Qed.

Lemma lxor_ok a b : byte_ok a -> byte_ok b -> byte_ok (N.lxor a b).
Proof.
  unfold byte_ok. intros Ha Hb. destruct (N.eq_dec (N.lxor a b) 0) as [->|Z]; [reflexivity|].
  change 256%N with (2 ^ 8)%N in *.
  assert (L : forall x, (x < 2 ^ 8)%N -> (N.log2 x < 8)%N).
  { intros x Hx. destruct (N.eq_dec x 0) as [->|]; [reflexivity|]. apply N.log2_lt_pow2; [lia|exact Hx]. }
  apply N.log2_lt_pow2; [lia|]. pose proof (N.log2_lxor a b). pose proof (L a Ha). pose proof (L b Hb). lia.
Qed.
Lemma xtime_ok a : byte_ok (xtime a).
Proof.
  unfold xtime. apply lxor_ok.
  - unfold byte_ok. change 255%N with (N.ones 8). rewrite N.land_ones. change 256%N with (2 ^ 8)%N. apply N.mod_lt. discriminate.
  - unfold byte_ok. destruct (N.testbit a 7); reflexivity.
Qed.
Lemma pw_ok k a : byte_ok a -> byte_ok (pw k a).
Proof. destruct k as [|k]; cbn [pw]; intros H; [exact H|apply xtime_ok]. Qed.

(** ** The multiplicative group has order 255 *)
Definition orbit : list N := map (fun k => pw k 1%N) (seq 0 255).

Fixpoint orbit_from (n : nat) (x : N) : list N := match n with 0 => [] | S n => x :: orbit_from n (xtime x) end.
Lemma orbit_from_map : forall n k x, orbit_from n (pw k x) = map (fun i => pw i x) (seq k n).
Proof. induction n as [|n IH]; intros k x; cbn [orbit_from seq map]; [reflexivity|]. f_equal. apply (IH (S k) x). Qed.

Lemma all_bytes_spec b : byte_ok b -> In b all_bytes.
Proof. apply byte_in_all. Qed.

Lemma orbit_table : forallb (fun b => (b =? 0)%N || existsb (N.eqb b) (orbit_from 255 1%N)) all_bytes = true.
Proof. vm_compute. reflexivity. Qed.
Lemma order_table : forallb (fun b => negb (b =? 1)%N) (tl (orbit_from 255 1%N)) = true.
Proof. vm_compute. reflexivity. Qed.
Lemma kernel_table : forallb (fun b => (b =? 0)%N || negb (xtime b =? 0)%N) all_bytes = true.
Proof. vm_compute. reflexivity. Qed.

Lemma in_orbit b : byte_ok b -> b <> 0%N -> exists k, b = pw k 1%N.
Proof.
  intros H Z. pose proof orbit_table as T. rewrite forallb_forall in T. specialize (T b (all_bytes_spec b H)).
  apply orb_true_iff in T. destruct T as [T|T]; [apply N.eqb_eq in T; contradiction|].
  apply existsb_exists in T. destruct T as (y & Hy & E). apply N.eqb_eq in E. subst y.
  change 1%N with (pw 0 1%N) in Hy. rewrite orbit_from_map in Hy. apply in_map_iff in Hy. destruct Hy as (k & Hk & _). exists k. symmetry. exact Hk.
Qed.
Lemma order d : 0 < d -> d < 255 -> pw d 1%N <> 1%N.
Proof.
  intros H1 H2 E. pose proof order_table as T. rewrite forallb_forall in T.
  assert (HI : In (pw d 1%N) (tl (orbit_from 255 1%N))).
  { change (tl (orbit_from 255 1%N)) with (orbit_from 254 (pw 1 1%N)). rewrite orbit_from_map. apply (in_map (fun i => pw i 1%N)). apply in_seq. lia. }
  specialize (T _ HI). rewrite E in T. discriminate T.
Qed.
Lemma xtime_kernel b : byte_ok b -> xtime b = 0%N -> b = 0%N.
Proof.
  intros H E. pose proof kernel_table as T. rewrite forallb_forall in T. specialize (T b (all_bytes_spec b H)).
  rewrite E in T. cbn [N.eqb negb] in T. change (0 =? 0)%N with true in T. cbn [negb] in T. rewrite orb_false_r in T. apply N.eqb_eq, T.
Qed.
Lemma pw_kernel k b : byte_ok b -> pw k b = 0%N -> b = 0%N.
Proof.
  induction k as [|k IH]; cbn [pw]; intros H E; [exact E|]. apply IH; [exact H|]. apply xtime_kernel; [|exact E]. apply (pw_ok k b H).
Qed.
Lemma pw_inj k a b : byte_ok a -> byte_ok b -> pw k a = pw k b -> a = b.
Proof.
  intros Ha Hb E. apply N.lxor_eq. apply (pw_kernel k); [apply lxor_ok; assumption|]. rewrite pw_lxor, E. apply N.lxor_nilpotent.
Qed.
Lemma fixed_point d x : byte_ok x -> 0 < d -> d < 255 -> pw d x = x -> x = 0%N.
Proof.
  intros Hx H1 H2 E. destruct (N.eq_dec x 0) as [Z|Z]; [exact Z|]. exfalso.
  destruct (in_orbit x Hx Z) as (k & ->). apply (order d H1 H2). apply (pw_inj k); [apply pw_ok; reflexivity|reflexivity|].
  rewrite pw_comm. exact E.
Qed.
Lemma separated p q u : byte_ok u -> p < 255 -> q < 255 -> p <> q -> pw q u = pw p u -> u = 0%N.
Proof.
  intros Hu Hp Hq N0 E. destruct (Nat.lt_total p q) as [L|[L|L]]; [|contradiction|].
  - apply (pw_kernel p u Hu). apply (fixed_point (q - p)); [apply pw_ok, Hu|lia|lia|]. rewrite pw_add. replace (q - p + p) with q by lia. exact E.
  - apply (pw_kernel q u Hu). apply (fixed_point (p - q)); [apply pw_ok, Hu|lia|lia|]. rewrite pw_add. replace (p - q + q) with p by lia. symmetry. exact E.
Qed.

(** ** Vandermonde: few nonzero coefficients cannot have many roots *)
Definition power_sum (j : nat) (t : list (nat * N)) : N := fold_right (fun pv acc => N.lxor (pw (j * fst pv) (snd pv)) acc) 0%N t.

Lemma power_sum_step p j : forall t,
  N.lxor (power_sum (S j) t) (pw p (power_sum j t)) = power_sum j (map (fun qu => (fst qu, N.lxor (pw (fst qu) (snd qu)) (pw p (snd qu)))) t).
Proof.
  induction t as [|[q u] t IH]; cbn [power_sum fold_right map fst snd]; [rewrite pw_0; reflexivity|].
  fold (power_sum (S j) t). fold (power_sum j t). rewrite pw_lxor. cbn [fst snd].
  change (fold_right (fun pv acc => N.lxor (pw (j * fst pv) (snd pv)) acc) 0%N (map (fun qu => (fst qu, N.lxor (pw (fst qu) (snd qu)) (pw p (snd qu)))) t))
    with (power_sum j (map (fun qu => (fst qu, N.lxor (pw (fst qu) (snd qu)) (pw p (snd qu)))) t)).
  rewrite <- IH. rewrite pw_lxor, (pw_comm (j * q) p), !pw_add. replace (j * q + q) with (S j * q) by lia.
  xors.
Qed.

Lemma power_sum_head j p v t : power_sum j ((p, v) :: t) = N.lxor (pw (j * p) v) (power_sum j t).
Proof. reflexivity. Qed.

Lemma vandermonde : forall n t, length t = n -> Forall (fun pv => fst pv < 255 /\ byte_ok (snd pv)) t -> NoDup (map fst t) ->
  (forall j, j < n -> power_sum j t = 0%N) -> Forall (fun pv => snd pv = 0%N) t.
Proof.
  induction n as [|n IH]; intros t L F ND H; destruct t as [|[p v] t]; try discriminate L; [constructor|].
  inversion F as [|x l [Fp Fv] Ft E1]; subst. inversion ND as [|x l Np Nt E1]; subst. cbn [fst snd map] in *.
  pose (t' := map (fun qu => (fst qu, N.lxor (pw (fst qu) (snd qu)) (pw p (snd qu)))) t).
  assert (Z : Forall (fun pv => snd pv = 0%N) t').
  { apply (IH t').
    - unfold t'. rewrite map_length. cbn in L. lia.
    - unfold t'. apply Forall_forall. intros x Hx. apply in_map_iff in Hx. destruct Hx as ([q u] & <- & Hq). cbn [fst snd].
      rewrite Forall_forall in Ft. destruct (Ft _ Hq) as [A B]. cbn [fst snd] in *. split; [exact A|apply lxor_ok; apply pw_ok, B].
    - unfold t'. rewrite map_map. cbn [fst]. exact Nt.
    - intros j Hj. unfold t'. rewrite <- power_sum_step.
      assert (A : power_sum (S j) t = pw (S j * p) v).
      { specialize (H (S j) ltac:(lia)). rewrite power_sum_head in H. apply N.lxor_eq in H. symmetry. exact H. }
      assert (B : power_sum j t = pw (j * p) v).
      { specialize (H j ltac:(lia)). rewrite power_sum_head in H. apply N.lxor_eq in H. symmetry. exact H. }
      rewrite A, B, pw_add. replace (p + j * p) with (S j * p) by lia. apply N.lxor_nilpotent. }
  assert (Zt : Forall (fun pv => snd pv = 0%N) t).
  { apply Forall_forall. intros [q u] Hq. cbn [snd]. rewrite Forall_forall in Z, Ft. destruct (Ft _ Hq) as [A B]. cbn [fst snd] in *.
    assert (Q : q <> p) by (intros ->; apply Np; apply (in_map fst _ _ Hq)).
    assert (E : In (q, N.lxor (pw q u) (pw p u)) t') by (unfold t'; apply (in_map (fun qu => (fst qu, N.lxor (pw (fst qu) (snd qu)) (pw p (snd qu)))) _ _ Hq)).
    specialize (Z _ E). cbn [snd] in Z. apply N.lxor_eq in Z. apply (separated p q u B Fp A ltac:(lia) Z). }
  constructor; [|exact Zt]. cbn [snd]. specialize (H 0 ltac:(lia)). rewrite power_sum_head in H.
  assert (S0 : power_sum 0 t = 0%N).
  { clear - Zt. induction Zt as [|[q u] t E Zt IH]; [reflexivity|]. rewrite power_sum_head. cbn [snd] in E. rewrite E, pw_0, IH. reflexivity. }
  rewrite S0, N.lxor_0_r in H. apply (pw_kernel _ _ Fv H).
Qed.

(** the terms of a polynomial *)
Fixpoint terms (c : list byte) : list (nat * N) :=
  match c with [] => [] | x :: c => (length c, x) :: terms c end.
Lemma eval_acc j : forall c acc, fold_left (fun acc x => N.lxor (pw j acc) x) c acc = N.lxor (pw (j * length c) acc) (eval j c).
Proof.
  induction c as [|x c IH]; intros acc; unfold eval; cbn [fold_left length].
  - rewrite Nat.mul_0_r, N.lxor_0_r. reflexivity.
  - rewrite (IH (N.lxor (pw j acc) x)), (IH (N.lxor (pw j 0%N) x)), pw_0, N.lxor_0_l, pw_lxor, pw_add.
    replace (j * length c + j) with (j * S (length c)) by lia. apply N.lxor_assoc.
Qed.
Lemma eval_cons j x c : eval j (x :: c) = N.lxor (pw (j * length c) x) (eval j c).
Proof. unfold eval at 1. cbn [fold_left]. rewrite pw_0, N.lxor_0_l. apply eval_acc. Qed.
Lemma eval_terms j : forall c, eval j c = power_sum j (terms c).
Proof. induction c as [|x c IH]; [reflexivity|]. rewrite eval_cons, IH. reflexivity. Qed.
Lemma eval_app j a b : eval j (a ++ b) = N.lxor (pw (j * length b) (eval j a)) (eval j b).
Proof. unfold eval at 1. rewrite fold_left_app. apply eval_acc. Qed.

Definition nonzero (pv : nat * N) : bool := negb (snd pv =? 0)%N.
Lemma power_sum_filter j : forall t, power_sum j (filter nonzero t) = power_sum j t.
Proof.
  induction t as [|[p v] t IH]; [reflexivity|]. cbn [filter]. unfold nonzero at 1. cbn [snd]. destruct (N.eqb_spec v 0) as [->|Z]; cbn [negb].
  - rewrite power_sum_head, pw_0, N.lxor_0_l. exact IH.
  - rewrite !power_sum_head, IH. reflexivity.
Qed.
Lemma terms_spec : forall c, bytes_ok c -> length c <= 255 ->
  Forall (fun pv => fst pv < length c /\ byte_ok (snd pv)) (terms c) /\ NoDup (map fst (terms c)).
Proof.
  induction c as [|x c IH]; intros B L; cbn [terms map fst length]; [split; constructor|].
  inversion B as [|y l Bx Bc]; subst. cbn [length] in L. destruct (IH Bc ltac:(lia)) as [A D]. split.
  - constructor; [cbn [fst snd]; split; [lia|exact Bx]|]. eapply Forall_impl; [|exact A]. intros [p v] [H1 H2]. cbn [fst snd] in *. split; [lia|exact H2].
  - constructor; [|exact D]. intros HI. apply in_map_iff in HI. destruct HI as ([p v] & E & HI). rewrite Forall_forall in A. destruct (A _ HI) as [H1 _]. cbn [fst] in *. lia.
Qed.

Definition weight (c : list byte) : nat := length (filter (fun b => negb (b =? 0)%N) c).
Lemma weight_terms : forall c, length (filter nonzero (terms c)) = weight c.
Proof.
  unfold weight. induction c as [|x c IH]; [reflexivity|]. cbn [terms filter]. unfold nonzero at 1. cbn [snd].
  destruct (x =? 0)%N; cbn [negb length]; rewrite IH; reflexivity.
Qed.

(** a word with [e] roots and at most [e] nonzero bytes is zero *)
Theorem few_nonzero_is_zero : forall e c, bytes_ok c -> length c <= 255 -> weight c <= e ->
  (forall j, j < e -> eval j c = 0%N) -> Forall (fun b => b = 0%N) c.
Proof.
  intros e c B L W H. destruct (terms_spec c B L) as [A D].
  assert (Z : Forall (fun pv => snd pv = 0%N) (filter nonzero (terms c))).
  { apply (vandermonde (weight c)).
    - apply weight_terms.
    - apply Forall_forall. intros pv Hp. apply filter_In in Hp. rewrite Forall_forall in A. destruct (A _ (proj1 Hp)). split; [lia|assumption].
    - clear - D. induction (terms c) as [|pv t IH]; cbn [filter map]; [constructor|]. cbn [map] in D. inversion D as [|x l N0 D']; subst.
      destruct (nonzero pv); cbn [map]; [constructor|]; try (apply IH, D').
      intros HI. apply N0. apply in_map_iff in HI. destruct HI as (y & <- & Hy). apply filter_In in Hy. apply (in_map fst), Hy.
    - intros j Hj. rewrite power_sum_filter, <- eval_terms. apply H. lia. }
  apply Forall_forall. intros b Hb. destruct (N.eq_dec b 0) as [E|E]; [exact E|]. exfalso.
  assert (exists p, In (p, b) (terms c)) as (p & Hp).
  { clear - Hb. induction c as [|x c IH]; [contradiction|]. cbn [terms In] in *. destruct Hb as [->|Hb]; [exists (length c); left; reflexivity|].
    destruct (IH Hb) as (p & Hp). exists p. right. exact Hp. }
  rewrite Forall_forall in Z. apply E. apply (Z (p, b)). apply filter_In. split; [exact Hp|]. unfold nonzero. cbn [snd]. destruct (N.eqb_spec b 0); [contradiction|reflexivity].
Qed.

(** ** The encoder produces codewords *)
Lemma sdiv_spec a j : forall p acc q r, sdiv a acc p = (q, r) ->
  length q = length p /\
  eval j (acc :: p) = N.lxor (N.lxor (pw j (eval j q)) (pw a (eval j q))) r.
Proof.
  induction p as [|x p IH]; intros acc q r H; cbn [sdiv] in H.
  - injection H as <- <-. split; [reflexivity|]. unfold eval. cbn [fold_left]. rewrite !pw_0. reflexivity.
  - destruct (sdiv a (N.lxor (pw a acc) x) p) as [q' r'] eqn:E. injection H as <- <-. destruct (IH _ _ _ E) as [L V]. split; [cbn [length]; rewrite L; reflexivity|].
    rewrite eval_cons in V. rewrite !eval_cons. cbn [length]. rewrite L. clear IH E L.
    set (A := eval j p) in *. set (B := eval j q') in *. set (n := length p) in *. rewrite !pw_lxor, pw_add.
    rewrite pw_lxor in V. rewrite (pw_comm a (j * n)).
    replace (j * S n) with (j + j * n) by lia.
    apply N.bits_inj. intros k. apply (f_equal (fun z => N.testbit z k)) in V. rewrite !N.lxor_spec in *.
    destruct (N.testbit (pw (j + j * n) acc) k), (N.testbit (pw (j * n) x) k), (N.testbit A k), (N.testbit (pw j B) k), (N.testbit (pw (j * n) (pw a acc)) k), (N.testbit (pw a B) k), (N.testbit r' k); cbn in *; congruence.
Qed.
Lemma divide_spec a j p q r : divide a p = (q, r) ->
  eval j p = N.lxor (N.lxor (pw j (eval j q)) (pw a (eval j q))) r.
Proof.
  destruct p as [|x p]; cbn [divide]; intros H.
  - injection H as <- <-. unfold eval. cbn [fold_left]. rewrite !pw_0. reflexivity.
  - apply (sdiv_spec a j p x q r H).
Qed.
Lemma mul_add_spec a j : forall s carry r,
  length (mul_add a carry s r) = S (length s) /\
  eval j (mul_add a carry s r) = N.lxor (N.lxor (pw (j * length s) (pw a carry)) (N.lxor (pw j (eval j s)) (pw a (eval j s)))) r.
Proof.
  induction s as [|x s IH]; intros carry r; cbn [mul_add length].
  - split; [reflexivity|]. unfold eval. cbn [fold_left]. rewrite !pw_0, N.lxor_0_l, Nat.mul_0_r, N.lxor_0_r. reflexivity.
  - destruct (IH x r) as [L V]. split; [rewrite L; reflexivity|]. rewrite !eval_cons, L, V. clear IH V L.
    rewrite !pw_lxor, !pw_add. set (B := eval j s). set (n := length s).
    replace (j + j * n) with (j * S n) by lia. replace (a + j * n) with (j * n + a) by lia.
    apply N.bits_inj. intros k. rewrite !N.lxor_spec.
    destruct (N.testbit (pw (j * S n + a) carry) k), (N.testbit (pw (j * S n) x) k), (N.testbit (pw (j * n + a) x) k), (N.testbit (pw j B) k), (N.testbit (pw a B) k), (N.testbit r k); reflexivity.
Qed.
Lemma remainder_spec : forall roots p, length (remainder roots p) = length roots /\ (forall j, In j roots -> eval j (remainder roots p) = eval j p).
Proof.
  induction roots as [|a roots IH]; intros p; cbn [remainder]; [split; [reflexivity|contradiction]|].
  destruct (divide a p) as [q r] eqn:E. destruct (IH q) as [L V]. split.
  - rewrite (proj1 (mul_add_spec a 0 _ _ _)), L. reflexivity.
  - intros j Hj. rewrite (proj2 (mul_add_spec a j _ _ _)), (divide_spec a j p q r E), !pw_0, N.lxor_0_l.
    destruct Hj as [->|Hj]; [rewrite !N.lxor_nilpotent; reflexivity|]. rewrite (V j Hj). reflexivity.
Qed.
Lemma eval_zeros j n : eval j (repeat 0%N n) = 0%N.
Proof. induction n as [|n IH]; [reflexivity|]. cbn [repeat]. rewrite eval_cons, pw_0, IH. reflexivity. Qed.

Lemma rs_ecc_length e d : length (rs_ecc e d) = e.
Proof. unfold rs_ecc. rewrite (proj1 (remainder_spec _ _)). apply seq_length. Qed.
Lemma codeword_roots e d j : j < e -> eval j (d ++ rs_ecc e d) = 0%N.
Proof.
  intros H. rewrite eval_app, rs_ecc_length. unfold rs_ecc. rewrite (proj2 (remainder_spec _ _)) by (apply in_seq; lia).
  rewrite eval_app, repeat_length, eval_zeros, N.lxor_0_r. apply N.lxor_nilpotent.
Qed.

(** bytes stay bytes *)
Lemma sdiv_ok a : forall p acc q r, bytes_ok p -> byte_ok acc -> sdiv a acc p = (q, r) -> bytes_ok q /\ byte_ok r.
Proof.
  induction p as [|x p IH]; intros acc q r B A H; cbn [sdiv] in H; [injection H as <- <-; split; [constructor|exact A]|].
  inversion B as [|y l Bx Bp]; subst. destruct (sdiv a (N.lxor (pw a acc) x) p) as [q' r'] eqn:E. injection H as <- <-.
  destruct (IH _ _ _ Bp (lxor_ok _ _ (pw_ok a acc A) Bx) E). split; [constructor; assumption|assumption].
Qed.
Lemma mul_add_ok a : forall s carry r, bytes_ok s -> byte_ok carry -> byte_ok r -> bytes_ok (mul_add a carry s r).
Proof.
  induction s as [|x s IH]; intros carry r B C R; cbn [mul_add].
  - constructor; [apply lxor_ok; [apply pw_ok, C|exact R]|constructor].
  - inversion B as [|y l Bx Bs]; subst. constructor; [apply lxor_ok; [apply pw_ok, C|exact Bx]|apply IH; assumption].
Qed.
Lemma remainder_ok : forall roots p, bytes_ok p -> bytes_ok (remainder roots p).
Proof.
  induction roots as [|a roots IH]; intros p B; cbn [remainder]; [constructor|]. destruct (divide a p) as [q r] eqn:E.
  assert (bytes_ok q /\ byte_ok r) as [Q R].
  { destruct p as [|x p]; cbn [divide] in E; [injection E as <- <-; split; [constructor|reflexivity]|].
    inversion B as [|y l Bx Bp]; subst. apply (sdiv_ok a p x q r Bp Bx E). }
  apply mul_add_ok; [apply IH, Q|reflexivity|exact R].
Qed.
Lemma rs_ecc_ok e d : bytes_ok d -> bytes_ok (rs_ecc e d).
Proof.
  intros B. apply remainder_ok. apply Forall_app. split; [exact B|]. apply Forall_forall. intros x Hx. apply repeat_spec in Hx. subst. reflexivity.
Qed.

(** ** Distance *)
Lemma distance_sym : forall a b, distance a b = distance b a.
Proof. induction a as [|x a IH]; intros [|y b]; cbn [distance]; try reflexivity. rewrite N.eqb_sym, IH. reflexivity. Qed.
Lemma distance_triangle : forall a b c, length a = length b -> length b = length c -> distance a c <= distance a b + distance b c.
Proof.
  induction a as [|x a IH]; intros [|y b] [|z c] L1 L2; try discriminate; cbn [distance]; [lia|]. cbn [length] in *.
  specialize (IH b c ltac:(lia) ltac:(lia)). destruct (N.eqb_spec x y), (N.eqb_spec y z), (N.eqb_spec x z); subst; try contradiction; lia.
Qed.
Definition xor_words (a b : list byte) : list byte := map (fun p => N.lxor (fst p) (snd p)) (combine a b).
Lemma xor_weight : forall a b, weight (xor_words a b) = distance a b.
Proof.
  unfold weight, xor_words. induction a as [|x a IH]; intros [|y b]; try reflexivity. cbn [combine map filter distance fst snd].
  destruct (N.eqb_spec x y) as [->|E].
  - rewrite N.lxor_nilpotent. change (0 =? 0)%N with true. cbn [negb]. rewrite IH. reflexivity.
  - destruct (N.eqb_spec (N.lxor x y) 0) as [Z|Z]; [apply N.lxor_eq in Z; contradiction|]. cbn [negb length]. rewrite IH. reflexivity.
Qed.
Lemma xor_length a b : length a = length b -> length (xor_words a b) = length a.
Proof. intros H. unfold xor_words. rewrite map_length, combine_length. lia. Qed.
Lemma xor_ok : forall a b, bytes_ok a -> bytes_ok b -> bytes_ok (xor_words a b).
Proof.
  unfold xor_words. induction a as [|x a IH]; intros [|y b] A B; cbn [combine map]; try constructor; inversion A as [|z l Ax Aa]; inversion B as [|z' l' Bx Bb]; subst.
  - apply lxor_ok; assumption.
  - apply IH; assumption.
Qed.
Lemma eval_xor j : forall a b, length a = length b -> eval j (xor_words a b) = N.lxor (eval j a) (eval j b).
Proof.
  induction a as [|x a IH]; intros [|y b] L; try discriminate; [reflexivity|]. cbn [length] in L.
  change (xor_words (x :: a) (y :: b)) with (N.lxor x y :: xor_words a b).
  rewrite !eval_cons, xor_length, IH by lia. rewrite pw_lxor. replace (length b) with (length a) by lia.
  xors.
Qed.
Lemma xor_zero : forall a b, length a = length b -> Forall (fun x => x = 0%N) (xor_words a b) -> a = b.
Proof.
  induction a as [|x a IH]; intros [|y b] L H; try discriminate; [reflexivity|]. cbn [length] in L.
  change (xor_words (x :: a) (y :: b)) with (N.lxor x y :: xor_words a b) in H. inversion H as [|z l Z Zs]; subst.
  f_equal; [apply N.lxor_eq, Z|apply IH; [lia|exact Zs]].
Qed.

(** Two codewords of the same length that differ in at most [e] bytes are equal. *)
Theorem codewords_far_apart : forall e c1 c2, bytes_ok c1 -> bytes_ok c2 -> length c1 = length c2 -> length c1 <= 255 ->
  (forall j, j < e -> eval j c1 = 0%N) -> (forall j, j < e -> eval j c2 = 0%N) -> distance c1 c2 <= e -> c1 = c2.
Proof.
  intros e c1 c2 B1 B2 L L255 R1 R2 D. apply (xor_zero c1 c2 L). apply (few_nonzero_is_zero e).
  - apply xor_ok; assumption.
  - rewrite xor_length; assumption.
  - rewrite xor_weight. exact D.
  - intros j Hj. rewrite eval_xor, R1, R2 by assumption. reflexivity.
Qed.

Lemma all_words_spec : forall w, bytes_ok w -> In w (all_words (length w)).
Proof.
  induction w as [|b w IH]; intros B; cbn [length all_words]; [left; reflexivity|]. inversion B as [|x l Bb Bw]; subst.
  apply in_flat_map. exists w. split; [apply IH, Bw|]. apply (in_map (fun b => b :: w)), all_bytes_spec, Bb.
Qed.
Lemma all_words_sound : forall n w, In w (all_words n) -> length w = n /\ bytes_ok w.
Proof.
  induction n as [|n IH]; intros w H; cbn [all_words] in H.
  - destruct H as [<-|[]]. split; [reflexivity|constructor].
  - apply in_flat_map in H. destruct H as (w' & Hw & H). apply in_map_iff in H. destruct H as (b & <- & Hb). destruct (IH _ Hw) as [L B].
    split; [cbn [length]; lia|]. constructor; [|exact B]. unfold all_bytes in Hb. apply in_map_iff in Hb. destruct Hb as (i & <- & Hi). apply in_seq in Hi. unfold byte_ok. lia.
Qed.

(** the decoder corrects up to e/2 wrong bytes *)
Theorem rs_corrects : forall e data received, bytes_ok data -> length received = length data + e -> length received <= 255 ->
  distance (data ++ rs_ecc e data) received <= e / 2 -> rs_correct e received = Some data.
Proof.
  intros e data received B L L255 D. unfold rs_correct.
  destruct (find (fun d => distance (d ++ rs_ecc e d) received <=? e / 2) (all_words (length received - e))) as [d|] eqn:F.
  - apply find_some in F. destruct F as [FI FD]. apply Nat.leb_le in FD. apply all_words_sound in FI. destruct FI as [FL FB].
    assert (L1 : length (d ++ rs_ecc e d) = length received) by (rewrite app_length, rs_ecc_length; lia).
    assert (L2 : length (data ++ rs_ecc e data) = length received) by (rewrite app_length, rs_ecc_length; lia).
    assert (E : d ++ rs_ecc e d = data ++ rs_ecc e data).
    { apply (codewords_far_apart e); [| |lia|lia| | |].
      - apply Forall_app. split; [exact FB|apply rs_ecc_ok, FB].
      - apply Forall_app. split; [exact B|apply rs_ecc_ok, B].
      - intros j. apply codeword_roots.
      - intros j. apply codeword_roots.
      - pose proof (distance_triangle (d ++ rs_ecc e d) received (data ++ rs_ecc e data) L1 (eq_sym L2)) as T.
        rewrite (distance_sym received) in T. pose proof (Nat.div_mod e 2 ltac:(lia)). lia. }
    f_equal. assert (G : firstn (length d) (d ++ rs_ecc e d) = firstn (length data) (data ++ rs_ecc e data)) by (rewrite E; f_equal; lia).
    rewrite !firstn_app, !Nat.sub_diag, !firstn_all in G. cbn [firstn] in G. rewrite !app_nil_r in G. exact G.
  - exfalso. pose proof (find_none _ _ F data) as N0. cbv beta in N0. rewrite (proj2 (Nat.leb_le _ _) D) in N0.
    assert (HI : In data (all_words (length received - e))) by (replace (length received - e) with (length data) by lia; apply all_words_spec, B).
    discriminate (N0 HI).
Qed.

(** what the decoder accepts is within e/2 bytes of a codeword *)
Theorem rs_accepts_only_near_codewords : forall e received d, rs_correct e received = Some d ->
  bytes_ok d /\ length d = length received - e /\ distance (d ++ rs_ecc e d) received <= e / 2.
Proof.
  intros e received d H. unfold rs_correct in H. apply find_some in H. destruct H as [HI HD]. apply all_words_sound in HI.
  split; [apply HI|]. split; [apply HI|]. apply Nat.leb_le, HD.
Qed.

Lemma distance_refl : forall a, distance a a = 0.
Proof. induction a as [|x a IH]; [reflexivity|]. cbn [distance]. rewrite N.eqb_refl, IH. reflexivity. Qed.

(** * Property C139: the dates of the flight log. *)
From Coq Require Import List Bool QArith ZArith Lqa Lia Permutation Sorted.
From Verif Require Import Numerics Clock PropClock PubSub TimeBus PropTimeBus HostTime PropTime Dates.
Import ListNotations.
Local Open Scope Q_scope.
Local Open Scope list_scope.

(** ** Specification *)
Definition dclock (l : list devent) : list uevent := flat_map (fun e => match e with DClock c => [c] | _ => [] end) l.
(** the task sees every update within [A] *)
Definition seen_in (A : Q) (l : list devent) : Prop :=
  forall l1 t l2 n1 v p q, l = l1 ++ DTake t :: l2 -> druns dlog_new l1 = Some n1 -> d_queue n1 = (v, p) :: q -> t <= p + A.

(** ** Proofs *)
Lemma druns_snoc : forall l n e n', druns n (l ++ [e]) = Some n' <-> exists n1, druns n l = Some n1 /\ dstep n1 e = Some n'.
Proof.
  induction l as [|x l IH]; intros n e n'; cbn [app druns].
  - split.
    + destruct (dstep n e) as [n1|] eqn:E; [|discriminate]. intro H. exists n. split; [reflexivity|]. now injection H as <-.
    + intros (n1 & H & H'). injection H as <-. now rewrite H'.
  - destruct (dstep n x) as [n1|]; [apply IH|]. split; [discriminate|]. intros (n2 & H & _). discriminate.
Qed.
Lemma dclock_snoc l e : dclock (l ++ [e]) = dclock l ++ match e with DClock c => [c] | _ => [] end.
Proof. unfold dclock. rewrite flat_map_app. cbn. now rewrite app_nil_r. Qed.

Definition dinv (A : Q) (l : list devent) (n : dlog) : Prop :=
  d_clock n = fst (urun uclock_new (dclock l)) /\ (length (d_queue n) <= 1)%nat /\
  (forall c t, In c (dclock l) -> event_time c = Some t -> t <= d_now n) /\ in_order (dclock l) /\
  (forall v p, In (v, p) (d_queue n) -> In (v, p) (announcements uclock_new (dclock l)) /\ p <= d_now n) /\
  (forall b v, In (b, v) (d_refs n) -> exists p, In (v, p) (announcements uclock_new (dclock l)) /\ p <= b <= p + A).

Lemma seen_prefix A a b : seen_in A (a ++ b) -> seen_in A a.
Proof. intros H l1 t l2 n1 v p q E. apply (H l1 t (l2 ++ b) n1 v p q). rewrite E, <- app_assoc. reflexivity. Qed.

Lemma dinv_holds A : forall l n, druns dlog_new l = Some n -> seen_in A l -> dinv A l n.
Proof.
  induction l as [|e l IH] using rev_ind; intros n H P.
  - injection H as <-. unfold dinv, dlog_new. cbn [d_clock d_queue d_now d_refs length].
    split; [reflexivity|]. split; [lia|]. split; [intros c t []|]. split; [intros a e b f c t u E; destruct a; discriminate|]. split; [intros v p []|intros b v []].
  - apply druns_snoc in H. destruct H as (n1 & R & S). specialize (IH n1 R (seen_prefix _ _ _ P)).
    destruct e as [c|t].
    + destruct n1 as [now clk queue refs]. destruct IH as (C & Q1 & TM & ORD & QU & RF). cbn [d_now d_clock d_queue d_refs] in *. cbn [dstep] in S.
      destruct (Qle_bool now (clock_time now c)) eqn:LE; [|discriminate]. apply Qleb in LE. destruct (ustep clk c) as [clk' o] eqn:U.
      assert (AP : announcements uclock_new (dclock (l ++ [DClock c])) = announcements uclock_new (dclock l) ++ match o, event_time c with Published v _, Some t => [(v, t)] | _, _ => [] end).
      { rewrite dclock_snoc, announcements_app. cbn [announcements]. rewrite app_nil_r, <- C, U. reflexivity. }
      assert (TMc : forall x t, In x (dclock l ++ [c]) -> event_time x = Some t -> t <= clock_time now c).
      { intros x t I T. apply in_app_or in I. destruct I as [I|[<-|[]]]; [specialize (TM x t I T); lra|]. destruct c; cbn in T |- *; try discriminate; injection T as <-; lra. }
      assert (ORDc : in_order (dclock l ++ [c])).
      { apply in_order_snoc; [exact ORD|]. intros t u x Tu I T. specialize (TM x t I T). assert (u = clock_time now c) by (destruct c; cbn in Tu |- *; try discriminate; injection Tu as <-; reflexivity). subst u. lra. }
      assert (CC : clk' = fst (urun uclock_new (dclock (l ++ [DClock c])))) by (rewrite dclock_snoc, urun_snoc; cbn [fst]; rewrite <- C, U; reflexivity).
      unfold dinv. rewrite AP. rewrite (dclock_snoc l (DClock c)) in *.
      destruct o as [|v ws| | |]; apply some_eq in S; subst n; cbn [d_now d_clock d_queue d_refs];
        try (rewrite app_nil_r; split; [exact CC|]; split; [exact Q1|]; split; [exact TMc|]; split; [exact ORDc|];
             split; [intros v p I; destruct (QU v p I); split; [assumption|lra]|exact RF]).
      destruct (ustep_published clk c v ws ltac:(now rewrite U)) as [t ->]. cbn [event_time clock_time] in *.
      assert (QQ : @publish (Q * Q) 1 true (v, t) queue = [(v, t)]).
      { unfold publish. destruct queue as [|x [|y queue]]; cbn [length] in *; [reflexivity|reflexivity|lia]. }
      rewrite QQ. split; [exact CC|]. split; [cbn; lia|]. split; [exact TMc|]. split; [exact ORDc|]. split.
      * intros v' p [I|[]]. injection I as <- <-. split; [apply in_or_app; right; left; reflexivity|lra].
      * intros b v' I. destruct (RF b v' I) as (p & I1 & I2). exists p. split; [apply in_or_app; left; exact I1|exact I2].
    + pose proof (P l t [] n1) as PT. destruct n1 as [now clk queue refs]. destruct IH as (C & Q1 & TM & ORD & QU & RF). cbn [d_now d_clock d_queue d_refs dstep] in *.
      destruct queue as [|[v p] q]; [discriminate|]. destruct (Qle_bool now t) eqn:LE; [|discriminate]. apply Qleb in LE. apply some_eq in S. subst n.
      specialize (PT v p q eq_refl R eq_refl). unfold dinv. rewrite dclock_snoc, app_nil_r. cbn [d_now d_clock d_queue d_refs].
      split; [exact C|]. split; [cbn in Q1; lia|]. split; [intros x t' I T; specialize (TM x t' I T); lra|]. split; [exact ORD|].
      split; [intros v' p' I; destruct (QU v' p' (or_intror I)); split; [assumption|lra]|].
      intros b v' I. apply in_app_or in I. destruct I as [I|[I|[]]]; [exact (RF b v' I)|]. injection I as <- <-. exists p.
      destruct (QU v p (or_introl eq_refl)). split; [assumption|lra].
Qed.

(** Every unix time in the log is, at its boot time, never fast and slow by at most the stamping delay [L] of the pulse and the
    delay [A] of the task. *)
Theorem C139_references : forall A D L l n, 0 <= L -> druns dlog_new l = Some n -> seen_in A l ->
  Forall (truthful D L) (dclock l) -> late_pulses (dclock l) ->
  forall b v, In (b, v) (d_refs n) -> v <= b + D /\ b + D <= v + L + A.
Proof.
  intros A D L l n HL R P T LP b v I. destruct (dinv_holds A l n R P) as (_ & _ & _ & ORD & _ & RF). destruct (RF b v I) as (p & IA & B).
  assert (E : dclock l = clock_events (map (fun c => TClock c) (dclock l))).
  { clear. generalize (dclock l) as x0. intro x0. induction x0 as [|c x IH]; [reflexivity|]. cbn. f_equal. exact IH. }
  destruct (published_true D L (map (fun c => TClock c) (dclock l)) v p HL) as (_ & k & _ & B1 & B2); unfold announced; rewrite <- ?E; try assumption. lra.
Qed.

Definition right_refs (D E : Q) (l : list point) : Prop := forall b u, In (b, u) l -> u <= b + D /\ b + D <= u + E.
Lemma convex D E a ua b ub q y : a < q -> q <= b -> ua <= a + D -> a + D <= ua + E -> ub <= b + D -> b + D <= ub + E ->
  y == ua + (q - a) * (ub - ua) / (b - a) -> q + D - E <= y <= q + D.
Proof.
  intros L1 L2 A1 A2 B1 B2 Y. assert (W : 0 < b - a) by lra. set (s := (q - a) / (b - a)).
  assert (S0 : 0 <= s) by (unfold s; apply Qle_shift_div_l; lra). assert (S1 : s <= 1) by (unfold s; apply Qle_shift_div_r; lra).
  assert (Yq : y == (1 - s) * ua + s * ub) by (rewrite Y; unfold s; field; lra). assert (Qq : q == (1 - s) * a + s * b) by (unfold s; field; lra).
  assert (M1 : (1 - s) * ua <= (1 - s) * (a + D)) by (rewrite !(Qmult_comm (1 - s)); apply Qmult_le_compat_r; lra).
  assert (M2 : s * ub <= s * (b + D)) by (rewrite !(Qmult_comm s); apply Qmult_le_compat_r; lra).
  assert (M3 : (1 - s) * (a + D - E) <= (1 - s) * ua) by (rewrite !(Qmult_comm (1 - s)); apply Qmult_le_compat_r; lra).
  assert (M4 : s * (b + D - E) <= s * ub) by (rewrite !(Qmult_comm s); apply Qmult_le_compat_r; lra).
  rewrite Yq. split; nra.
Qed.

(** between two references of the file the interpolation is as right as they are *)
Lemma dated_between D E file q y : right_refs D E file -> distinct file -> (2 <= length file)%nat ->
  (exists b u, In (b, u) file /\ b <= q) -> (exists b u, In (b, u) file /\ q <= b) -> lookup file q (Some y) -> q + D - E <= y <= q + D.
Proof.
  intros RR DI LEN (b0 & u0 & I0 & B0) (b1 & u1 & I1 & B1) LK.
  assert (LK' := LK). unfold lookup in LK. inversion LK as [| i b u LE N HB EQ | i b2 u2 b3 u3 LE NE Hi N0 N1 EQ].
  - subst. apply nth_error_In in N. apply (Permutation_in _ (Permutation_sym (sort_perm file))) in N. destruct (RR b y N). rewrite <- HB. lra.
  - clear LK. assert (NE' : forall b u, In (b, u) file -> ~ b == q).
    { intros b u I. rewrite Forall_forall in NE. exact (NE (b, u) (Permutation_in _ (sort_perm file) I)). }
    destruct (C61_interpolation file q (Some y) DI LEN) as ([a ua] & [b ub] & z & Ia & Ib & B & _ & E0 & Y).
    + apply Exists_exists. exists (b0, u0). split; [exact I0|]. cbn. apply Qle_lteq in B0. destruct B0 as [B0|B0]; [exact B0|destruct (NE' _ _ I0 B0)].
    + apply Exists_exists. exists (b1, u1). split; [exact I1|]. cbn. apply Qle_lteq in B1. destruct B1 as [B1|B1]; [exact B1|destruct (NE' _ _ I1 ltac:(symmetry; exact B1))].
    + exact LK'.
    + apply some_eq in E0. subst z. cbn [fst snd] in *. destruct (RR a ua Ia), (RR b ub Ib). destruct B as [Ba Bb]. rewrite ?EQ. apply (convex D E a ua b ub q y); assumption.
Qed.

(** The host dates a reading taken between two unix times of its file never fast, and slow by at most [L + A]. *)
Theorem C139_dates_partial : forall A D L l n file q y, 0 <= A -> 0 <= L -> druns dlog_new l = Some n -> seen_in A l ->
  Forall (truthful D L) (dclock l) -> late_pulses (dclock l) ->
  incl file (d_refs n) -> distinct file -> (2 <= length file)%nat ->
  (exists b u, In (b, u) file /\ b <= q) -> (exists b u, In (b, u) file /\ q <= b) ->
  lookup file q (Some y) -> q + D - (L + A) <= y <= q + D.
Proof.
  intros A D L l n file q y HA HL R P T LP IN DI LEN BE AF LK. apply (dated_between D (L + A) file q y); try assumption.
  intros b u I. destruct (C139_references A D L l n HL R P T LP b u (IN _ I)). lra.
Qed.

(** A reading from before the first unix time of its file is dated by extrapolation from the first two: the error grows with the
    distance, in proportion to their jitter. *)
Theorem C139_before_the_first_partial : forall A D L l n file q y, 0 <= A -> 0 <= L -> druns dlog_new l = Some n -> seen_in A l ->
  Forall (truthful D L) (dclock l) -> late_pulses (dclock l) ->
  incl file (d_refs n) -> distinct file -> (2 <= length file)%nat -> (forall b u, In (b, u) file -> q < b) ->
  lookup file q (Some y) ->
  exists a ua b ub, In (a, ua) file /\ In (b, ub) file /\ a < b /\ (forall c u, In (c, u) file -> c == a \/ b <= c) /\
  q + D - (L + A) * (1 + (a - q) / (b - a)) <= y <= q + D + (L + A) * ((a - q) / (b - a)).
Proof.
  intros A D L l n file q y HA HL R P T LP IN DI LEN BE LK.
  assert (RR : right_refs D (L + A) file).
  { intros b u I. destruct (C139_references A D L l n HL R P T LP b u (IN _ I)). lra. }
  pose proof (sort_sorted file DI) as Hs. pose proof (sort_perm file) as PM. destruct (sort_two file LEN) as (p0 & p1 & l' & E). unfold lookup in LK. rewrite E in *.
  destruct (lut_eval p0 p1 l' q (Some y) Hs LK) as (z & EZ & Y). apply some_eq in EZ. subst z.
  destruct p0 as [a ua], p1 as [b ub]. assert (Ia : In (a, ua) file) by (apply (Permutation_in _ (Permutation_sym PM)); left; reflexivity).
  assert (Ib : In (b, ub) file) by (apply (Permutation_in _ (Permutation_sym PM)); right; left; reflexivity).
  inversion Hs as [|? ? Hs' HF]; subst. inversion HF as [|? ? H01 HF']; subst. unfold before in H01. cbn [fst] in H01.
  exists a, ua, b, ub. split; [exact Ia|]. split; [exact Ib|]. split; [exact H01|]. split.
  - intros c u I. apply (Permutation_in _ PM) in I. destruct I as [I|[I|I]]; [injection I as -> ->; left; reflexivity|injection I as -> ->; right; lra|].
    inversion Hs' as [|? ? _ HF2]; subst. rewrite Forall_forall in HF2. specialize (HF2 _ I). unfold before in HF2. cbn in HF2. right. lra.
  - rewrite eval_left in Y by (cbn; pose proof (BE b ub Ib); lra). unfold line in Y. cbn [fst snd] in Y.
    pose proof (BE a ua Ia) as BA. destruct (RR a ua Ia) as [A1 A2], (RR b ub Ib) as [B1 B2]. set (E0 := L + A) in *. clearbody E0.
    set (x := (a - q) / (b - a)). assert (X0 : 0 <= x) by (unfold x; apply Qle_shift_div_l; lra).
    assert (Yx : y == (1 + x) * ua - x * ub) by (rewrite Y; unfold x; field; lra). assert (Qx : q == (1 + x) * a - x * b) by (unfold x; field; lra).
    assert (M1 : (1 + x) * ua <= (1 + x) * (a + D)) by (rewrite !(Qmult_comm (1 + x)); apply Qmult_le_compat_r; lra).
    assert (M2 : x * ub <= x * (b + D)) by (rewrite !(Qmult_comm x); apply Qmult_le_compat_r; lra).
    assert (M3 : (1 + x) * (a + D - E0) <= (1 + x) * ua) by (rewrite !(Qmult_comm (1 + x)); apply Qmult_le_compat_r; lra).
    assert (M4 : x * (b + D - E0) <= x * ub) by (rewrite !(Qmult_comm x); apply Qmult_le_compat_r; lra).
    rewrite Yx. split; nra.
Qed.

(** Readings of the ten minutes before the fix, the first update seen at once and the second 5 ms late: dated 2.985 s fast. *)
Definition late_fix : list devent :=
  [DClock (GpsTime 700200 1700000000); DClock (Pulse 700700); DTake 700700; DClock (GpsTime 701200 1700000001); DClock (Pulse 701700); DTake 701705].
Definition late_boot : Q := 1700000001000 - 700700.
Theorem C139_refuted_before_the_fix : exists n, druns dlog_new late_fix = Some n /\ d_refs n = [(700700, inject_Z 1700000001 * 1000); (701705, inject_Z 1700000002 * 1000)] /\
  Forall (truthful late_boot 1) (dclock late_fix) /\ late_pulses (dclock late_fix) /\ seen_in 5 late_fix /\
  exists y, lookup (d_refs n) 100700 (Some y) /\ y > 100700 + late_boot + 2985.
Proof.
  eexists. split; [reflexivity|]. split; [reflexivity|]. split; [|split; [|split]].
  - assert (Q1 : forall a b : Q, Qltb a b = true -> a < b) by (intros a b H; apply Qltb_iff, H).
    assert (Q2 : forall a b : Q, Qle_bool a b = true -> a <= b) by (intros a b H; apply Qle_bool_iff, H).
    constructor; [split; apply Q1; reflexivity|]. constructor; [exists 1700000001%Z; split; apply Q2; reflexivity|].
    constructor; [split; apply Q1; reflexivity|]. constructor; [exists 1700000002%Z; split; apply Q2; reflexivity|]. constructor.
  - intros t H. cbn in H. destruct H as [H|[H|[H|[H|[]]]]]; try discriminate H; injection H as <-; lra.
  - intros l1 t l2 n1 v p q E R Qe. unfold late_fix in E.
    do 7 (try (destruct l1 as [|? l1]; [first [discriminate E|injection E; clear E; intros; subst; cbn in R; apply some_eq in R; subst n1; cbn in Qe; injection Qe; clear Qe; intros; subst; lra]|first [discriminate E|injection E; clear E; intros E ?; subst]])).
  - exists (map_range 100700 700700 701705 (inject_Z 1700000001 * 1000) (inject_Z 1700000002 * 1000)). split.
    + unfold lookup. cbn [d_refs sort_timestamps insert_point]. 
      apply (lut_miss _ _ 1 700700 _ 701705 _); [cbn; lia| |vm_compute; reflexivity|reflexivity|reflexivity].
      constructor; [intros X; discriminate X|constructor; [intros X; discriminate X|constructor]].
    + reflexivity.
Qed.
Print Assumptions C139_dates_partial.

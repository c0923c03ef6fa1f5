(** * Property C140: the dates of the strain-gauge board's battery log. *)
From Coq Require Import List Bool QArith ZArith Lqa Lia Permutation Sorted.
From Verif Require Import HostTime PropTime PropAnnounce PropTimeBus PropDates SgDates.
Import ListNotations.
Local Open Scope Q_scope.
Local Open Scope list_scope.

(** ** Specification *)
(** the times received, oldest first *)
Definition received (l : list bevent) : list stamp := flat_map (fun e => match e with BTime _ x => [x] | BTick _ => [] end) l.
(** the times in the log *)
Definition battery_times (n : bat) : list stamp := map snd (b_log n).

Lemma received_snoc l e : received (l ++ [e]) = received l ++ received [e].
Proof. unfold received. now rewrite flat_map_app. Qed.
Lemma bruns_snoc l : forall n e, bruns n (l ++ [e]) = match bruns n l with Some n' => bstep n' e | None => None end.
Proof.
  induction l as [|x l IH]; intros n e; cbn [app bruns]; [destruct (bstep n e); reflexivity|]. destruct (bstep n x); [apply IH|reflexivity].
Qed.

Definition tick_count (l : list bevent) : nat := length (filter (fun e => match e with BTick _ => true | _ => false end) l).
Lemma ticks_snoc l e : tick_count (l ++ [e]) = (tick_count l + match e with BTick _ => 1 | _ => 0 end)%nat.
Proof. unfold tick_count. rewrite filter_app, app_length. destruct e; reflexivity. Qed.

Definition fresh_last (n : bat) (x : stamp) : Prop := exists y t log', b_last n = Some y /\ b_log n = log' ++ [(t, y)] /\ same x y = true.
Definition binv (start : Q) (l : list bevent) (n : bat) : Prop :=
  start <= b_now n /\ b_call n <= b_now n /\
  tk_start (b_ticker n) == start /\ tk_interval (b_ticker n) == FIVE_MINUTES /\ tk_i (b_ticker n) == inject_Z (Z.of_nat (tick_count l)) /\
  (length (b_log n) <= tick_count l)%nat /\
  (forall k t x, nth_error (b_log n) k = Some (t, x) -> start + inject_Z (Z.of_nat (S k)) * FIVE_MINUTES <= t <= b_now n) /\
  match b_last n with None => b_log n = [] | Some y => exists log' t, b_log n = log' ++ [(t, y)] end /\
  match b_mutex n with
  | None => received l = [] /\ b_log n = []
  | Some x => exists r, received l = r ++ [x] /\ (sublist (battery_times n) r \/ sublist (battery_times n) (received l) /\ fresh_last n x)
  end.

Lemma inj_le a b : (a <= b)%nat -> inject_Z (Z.of_nat a) <= inject_Z (Z.of_nat b).
Proof. intro H. rewrite <- Zle_Qle. lia. Qed.
Lemma inj_S a : inject_Z (Z.of_nat (S a)) == inject_Z (Z.of_nat a) + 1.
Proof. rewrite Nat2Z.inj_succ, <- Z.add_1_r, inject_Z_plus. reflexivity. Qed.

Lemma binv_holds start : forall l n, bruns (bat_new start) l = Some n -> binv start l n.
Proof.
  intro l. induction l as [|e l IH] using rev_ind; intros n R.
  - apply some_eq in R. subst n. unfold binv, bat_new, tick_count, every. cbn [b_now b_call b_ticker b_log b_last b_mutex tk_start tk_interval tk_i filter length received flat_map].
    repeat split; try lra; try reflexivity; try lia; destruct k; discriminate.
  - rewrite bruns_snoc in R. destruct (bruns (bat_new start) l) as [n1|] eqn:R1; [|discriminate]. specialize (IH n1 eq_refl).
    destruct n1 as [now tk call mutex last log]. unfold binv, battery_times, fresh_last in IH. cbn [b_now b_call b_ticker b_log b_last b_mutex] in IH.
    destruct IH as (B1 & B2 & T1 & T2 & T3 & LEN & NTH & LN & MU). destruct e as [t x|t]; cbn [bstep] in R.
    + destruct (Qle_bool now t) eqn:LE; [|discriminate]. apply Qle_bool_iff in LE. apply some_eq in R. subst n.
      unfold binv, battery_times, fresh_last. rewrite ticks_snoc, received_snoc, Nat.add_0_r. cbn [b_now b_call b_ticker b_log b_last b_mutex received flat_map app].
      split; [lra|]. split; [lra|]. split; [exact T1|]. split; [exact T2|]. split; [exact T3|]. split; [exact LEN|].
      split; [intros k t' y N; specialize (NTH k t' y N); lra|]. split; [exact LN|]. exists (received l). split; [reflexivity|]. left.
      destruct mutex as [z|].
      * destruct MU as (r & -> & [S|[S _]]); [apply sub_weaken; exact S|exact S].
      * destruct MU as [-> ->]. constructor.
    + destruct (next tk call 0) as [tk' due] eqn:NX. unfold next in NX. injection NX as <- ND. destruct (Qle_bool now t && Qle_bool due t) eqn:LE; [|discriminate].
      apply andb_prop in LE. destruct LE as [LE1 LE2]. apply Qle_bool_iff in LE1, LE2.
      assert (DUE : start + inject_Z (Z.of_nat (S (tick_count l))) * FIVE_MINUTES <= t).
      { assert (EQ : tk_start tk + (tk_i tk + 1) * tk_interval tk == start + inject_Z (Z.of_nat (S (tick_count l))) * FIVE_MINUTES) by (rewrite T1, T2, T3, inj_S; reflexivity).
        rewrite <- EQ. revert ND. destruct (Qle_bool (tk_start tk + (tk_i tk + 1) * tk_interval tk) call) eqn:C; intro ND; [apply Qle_bool_iff in C; lra|rewrite <- ND in LE2; lra]. }
      assert (I' : tk_i tk + 1 == inject_Z (Z.of_nat (tick_count l + 1))) by (rewrite T3, Nat.add_1_r, inj_S; reflexivity).
      assert (N0 : forall k t' y, nth_error log k = Some (t', y) -> start + inject_Z (Z.of_nat (S k)) * FIVE_MINUTES <= t' <= t).
      { intros k t' y N; specialize (NTH k t' y N); lra. }
      assert (N1 : forall x k t' y, nth_error (log ++ [(t, x)]) k = Some (t', y) -> start + inject_Z (Z.of_nat (S k)) * FIVE_MINUTES <= t' <= t).
      { intros x k t' y N. destruct (Nat.lt_ge_cases k (length log)) as [K|K]; [rewrite nth_error_app1 in N by exact K; exact (N0 k t' y N)|].
        rewrite nth_error_app2 in N by exact K. destruct (k - length log)%nat eqn:KK; [|destruct n0; discriminate]. cbn in N. injection N as <- <-.
        assert (k = length log) as -> by lia. split; [|lra]. pose proof (inj_le (S (length log)) (S (tick_count l)) ltac:(lia)) as M.
        assert (M' : inject_Z (Z.of_nat (S (length log))) * FIVE_MINUTES <= inject_Z (Z.of_nat (S (tick_count l))) * FIVE_MINUTES) by (apply Qmult_le_compat_r; [exact M|unfold FIVE_MINUTES; lra]). lra. }
      assert (ADD : forall x r, received l = r ++ [x] -> mutex = Some x -> sublist (map snd log) r -> n = Bat t (Ticker (tk_start tk) (tk_interval tk) (tk_i tk + 1)) t mutex (Some x) (log ++ [(t, x)]) -> binv start (l ++ [BTick t]) n).
      { intros x r RE -> S ->. unfold binv, battery_times, fresh_last. rewrite ticks_snoc, received_snoc. cbn [b_now b_call b_ticker b_log b_last b_mutex received flat_map app tk_start tk_interval tk_i].
        rewrite app_nil_r, app_length, map_app. cbn [length map snd].
        split; [lra|]. split; [lra|]. split; [exact T1|]. split; [exact T2|]. split; [exact I'|]. split; [lia|]. split; [apply N1|]. split; [exists log, t; reflexivity|].
        exists r. split; [exact RE|]. right. split; [rewrite RE; apply sub_add; exact S|]. exists x, t, log. split; [reflexivity|]. split; [reflexivity|].
        unfold same. rewrite (proj2 (Qeq_bool_iff _ _) (Qeq_refl (fst x))), (proj2 (Qeq_bool_iff _ _) (Qeq_refl (snd x))). reflexivity. }
      assert (KEEP : n = Bat t (Ticker (tk_start tk) (tk_interval tk) (tk_i tk + 1)) t mutex last log ->
         match mutex with None => received l = [] /\ log = [] | Some x => exists y, last = Some y /\ same x y = true end -> binv start (l ++ [BTick t]) n).
      { intros -> K. unfold binv, battery_times, fresh_last. rewrite ticks_snoc, received_snoc. cbn [b_now b_call b_ticker b_log b_last b_mutex received flat_map app tk_start tk_interval tk_i].
        rewrite app_nil_r. split; [lra|]. split; [lra|]. split; [exact T1|]. split; [exact T2|]. split; [exact I'|]. split; [lia|]. split; [exact N0|]. split; [exact LN|].
        destruct mutex as [x|]; [|exact K]. destruct MU as (r & RE & S). exists r. split; [exact RE|]. exact S. }
      destruct mutex as [x|]; [|apply some_eq in R; apply KEEP; [now symmetry|exact MU]].
      destruct MU as (r & RE & S). destruct last as [y|].
      * destruct (same x y) eqn:SM; apply some_eq in R; [apply KEEP; [now symmetry|exists y; split; [reflexivity|exact SM]]|].
        apply (ADD x r RE eq_refl); [|now symmetry]. destruct S as [S|[_ (y' & ? & ? & E & _ & E')]]; [exact S|]. apply some_eq in E. subst y'. rewrite SM in E'. discriminate.
      * apply some_eq in R. apply (ADD x r RE eq_refl); [|now symmetry]. destruct S as [S|[_ (y' & ? & ? & E & _)]]; [exact S|discriminate].
Qed.

(** The times in the battery log are times received, in order, none written twice; the k-th no earlier than k times five minutes. *)
Theorem C140_only_received_times : forall start l n, bruns (bat_new start) l = Some n ->
  sublist (battery_times n) (received l) /\
  forall k t x, nth_error (b_log n) k = Some (t, x) -> start + inject_Z (Z.of_nat (S k)) * (5 * 60 * 1000) <= t.
Proof.
  intros start l n R. destruct (binv_holds start l n R) as (_ & _ & _ & _ & _ & _ & NTH & _ & MU). split.
  - destruct (b_mutex n) as [x|]; [|destruct MU as [-> E]; unfold battery_times; rewrite E; constructor].
    destruct MU as (r & RE & [S|[S _]]); [rewrite RE; apply sub_weaken; exact S|exact S].
  - intros k t x N. exact (proj1 (NTH k t x N)).
Qed.

(** Every tick leaves the newest time received as the last of the log. *)
Theorem C140_newest_is_logged : forall start l n t r x, bruns (bat_new start) (l ++ [BTick t]) = Some n -> received l = r ++ [x] ->
  exists log' t' y, b_log n = log' ++ [(t', y)] /\ fst y == fst x /\ snd y == snd x.
Proof.
  intros start l n t r x R RE. rewrite bruns_snoc in R. destruct (bruns (bat_new start) l) as [n1|] eqn:R1; [|discriminate].
  destruct (binv_holds start l n1 R1) as (_ & _ & _ & _ & _ & _ & _ & LA & MU). destruct n1 as [now tk call mutex last log]. cbn [b_last b_log b_mutex] in *. cbn [bstep] in R.
  destruct (next tk call 0) as [tk' due]. destruct (Qle_bool now t && Qle_bool due t); [|discriminate].
  destruct mutex as [z|]; [|destruct MU as [E _]; rewrite RE in E; destruct r; discriminate].
  destruct MU as (r' & E & _). rewrite RE in E. apply app_inj_tail in E. destruct E as [_ <-].
  destruct last as [y|]; [destruct (same x y) eqn:SM|]; apply some_eq in R; subst n; cbn [b_log].
  - destruct LA as (log' & t' & ->). exists log', t', y. split; [reflexivity|]. unfold same in SM. apply andb_prop in SM. destruct SM as [S1 S2].
    apply Qeq_bool_iff in S1, S2. split; symmetry; assumption.
  - exists log, t, x. split; [reflexivity|]. split; reflexivity.
  - exists log, t, x. split; [reflexivity|]. split; reflexivity.
Qed.

(** If the times received are right to within [E] (C137), so are the dates of readings between two times of their file. *)
Theorem C140_dates_partial : forall start D E l n file q y, bruns (bat_new start) l = Some n ->
  (forall b u, In (b, u) (received l) -> u <= b + D /\ b + D <= u + E) ->
  incl file (battery_times n) -> distinct file -> (2 <= length file)%nat ->
  (exists b u, In (b, u) file /\ b <= q) -> (exists b u, In (b, u) file /\ q <= b) ->
  lookup file q (Some y) -> q + D - E <= y <= q + D.
Proof.
  intros start D E l n file q y R T IN DI LEN BE AF LK. apply (dated_between D E file q y); try assumption.
  intros b u I. apply T. apply (sub_in _ _ _ (proj1 (C140_only_received_times start l n R))). exact (IN _ I).
Qed.

Lemma sub_length {X} (a b : list X) : sublist a b -> (length a <= length b)%nat.
Proof. induction 1; cbn; lia. Qed.
(** In the first ten minutes the log has at most one time: no reading of any of its files can be dated. *)
Theorem C140_refuted_first_ten_minutes : forall start l n file q r, bruns (bat_new start) l = Some n -> b_now n < start + 10 * 60 * 1000 ->
  sublist file (battery_times n) -> lookup file q r -> r = None.
Proof.
  intros start l n file q r R N S LK. destruct (binv_holds start l n R) as (_ & _ & _ & _ & _ & _ & NTH & _).
  apply sub_length in S. unfold battery_times in S. rewrite map_length in S.
  assert (LEN : (length (b_log n) < 2)%nat).
  { destruct (b_log n) as [|p [|[t x] log]]; cbn; try lia. exfalso. specialize (NTH 1%nat t x eq_refl). unfold FIVE_MINUTES in NTH.
    change (inject_Z (Z.of_nat 2)) with 2 in NTH. lra. }
  assert (F2 : (length file < 2)%nat) by lia.
  unfold lookup in LK. pose proof (Permutation_length (sort_perm file)) as PL. inversion LK; [reflexivity| |]; exfalso; match goal with H : (2 <= length (sort_timestamps file))%nat |- _ => revert H end; intro HQ; clear - HQ PL F2; unfold point, stamp in *; lia.
Qed.
(** The first file of the log, closed after a minute, holds no time at all. *)
Theorem C140_refuted_first_file : forall start l n t x, bruns (bat_new start) l = Some n -> In (t, x) (b_log n) -> start + 60 * 1000 < t.
Proof.
  intros start l n t x R I. apply In_nth_error in I. destruct I as (k & N). destruct (C140_only_received_times start l n R) as [_ H]. specialize (H k t x N).
  rewrite inj_S in H. pose proof (inj_le 0 k ltac:(lia)) as K. change (inject_Z (Z.of_nat 0)) with 0 in K.
  assert (0 <= inject_Z (Z.of_nat k) * (5 * 60 * 1000)) by (apply Qmult_le_0_compat; lra). lra.
Qed.
(** As built, the CAN receiver does not run: nothing is received and no time is ever logged. *)
Theorem C140_refuted_as_built : forall start l n, bruns (bat_new start) l = Some n -> received l = [] -> b_log n = [].
Proof.
  intros start l n R E. destruct (binv_holds start l n R) as (_ & _ & _ & _ & _ & _ & _ & _ & MU). destruct (b_mutex n) as [x|]; [|apply MU].
  destruct MU as (r & RE & _). rewrite E in RE. destruct r; discriminate.
Qed.

(** Three times received, four ticks: the second time is overtaken, nothing new comes before the third tick. *)
Definition bat_history : list bevent :=
  [BTime 200000 (200000, 1700000000000); BTick 300500; BTime 400000 (400000, 1700000200000); BTime 500000 (500000, 1700000299990); BTick 600500;
   BTick 900500; BTime 1000000 (1000000, 1700000800000); BTick 1200500].
Theorem C140_instance : exists n y, bruns (bat_new 500) bat_history = Some n /\
  b_log n = [(300500, (200000, 1700000000000)); (600500, (500000, 1700000299990)); (1200500, (1000000, 1700000800000))] /\
  (forall b u, In (b, u) (received bat_history) -> u <= b + 1699999800000 /\ b + 1699999800000 <= u + 10) /\
  lookup (battery_times n) 350000 (Some y) /\ y == 1700000149995.
Proof.
  eexists. exists (map_range 350000 200000 500000 1700000000000 1700000299990). split; [reflexivity|]. split; [reflexivity|]. split.
  - intros b u I. cbn in I. repeat (destruct I as [I|I]; [injection I as <- <-; split; lra|]). destruct I.
  - split; [|reflexivity]. unfold lookup, battery_times. cbn [b_log map snd sort_timestamps insert_point].
    apply (lut_miss _ _ 1 200000 _ 500000 _); [cbn; lia| |vm_compute; reflexivity|reflexivity|reflexivity].
    repeat (constructor; [intros X; discriminate X|]). constructor.
Qed.
Print Assumptions C140_dates_partial.

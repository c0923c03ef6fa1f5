(** * Properties C61, C62, C63: time lookup, moving averages, ticker. *)
From Coq Require Import List Arith Bool QArith Qround Lia Lqa Permutation Sorted SpecFloat.
From Verif Require Import Numerics HostTime.
Import ListNotations.
Local Open Scope Q_scope.

(** ** C61 *)

(** the line through two points *)
Definition line (p0 p1 : point) (q : Q) : Q := snd p0 + (q - fst p0) * (snd p1 - snd p0) / (fst p1 - fst p0).
Definition before (p p' : point) : Prop := fst p < fst p'.

Lemma insert_perm p l : Permutation (p :: l) (insert_point p l).
Proof.
  induction l as [|x l IH]; [apply Permutation_refl|]. cbn [insert_point]. destruct (Qle_bool (fst p) (fst x)); [apply Permutation_refl|].
  eapply perm_trans; [apply perm_swap|]. apply perm_skip, IH.
Qed.
Lemma sort_perm l : Permutation l (sort_timestamps l).
Proof. induction l as [|p l IH]; [apply perm_nil|]. cbn [sort_timestamps]. eapply perm_trans; [apply perm_skip, IH|apply insert_perm]. Qed.

(** recorded boot times are distinct *)
Definition distinct (l : list point) : Prop := ForallOrdPairs (fun p p' : point => ~ fst p == fst p') l.

Lemma insert_sorted p l : StronglySorted before l -> Forall (fun x => ~ fst p == fst x) l -> StronglySorted before (insert_point p l).
Proof.
  intros Hs D. induction Hs as [|x l Hs IH HF]; cbn [insert_point]; [constructor; constructor|]. inversion D as [|? ? D0 D']; subst.
  destruct (Qle_bool (fst p) (fst x)) eqn:E.
  - apply Qle_bool_iff in E. assert (L : fst p < fst x) by (apply Qle_lteq in E as [E|E]; [exact E|contradiction]).
    constructor; [constructor; assumption|]. constructor; [exact L|]. rewrite Forall_forall in HF |- *. intros y Hy. unfold before in *. specialize (HF y Hy). lra.
  - assert (L : fst x < fst p) by (apply Qnot_le_lt; intros X; apply Qle_bool_iff in X; congruence).
    constructor; [apply IH, D'|]. rewrite Forall_forall in HF |- *. intros y Hy. apply (Permutation_in _ (Permutation_sym (insert_perm p l))) in Hy.
    destruct Hy as [<-|Hy]; [exact L|apply HF, Hy].
Qed.

Lemma sort_sorted l : distinct l -> StronglySorted before (sort_timestamps l).
Proof.
  induction l as [|p l IH]; intros D; cbn [sort_timestamps]; [constructor|]. inversion D as [|? ? D0 D']; subst.
  apply insert_sorted; [apply IH, D'|]. rewrite Forall_forall in D0 |- *. intros x Hx. apply D0. apply (Permutation_in _ (Permutation_sym (sort_perm l))), Hx.
Qed.

(** piecewise-linear interpolation through a list of points *)
Fixpoint eval (p0 p1 : point) (l : list point) (q : Q) : Q :=
  match l with
  | [] => line p0 p1 q
  | p2 :: l' => if Qle_bool q (fst p1) then line p0 p1 q else eval p1 p2 l' q
  end.

Lemma line_first p0 p1 : fst p0 < fst p1 -> line p0 p1 (fst p0) == snd p0.
Proof. intros H. unfold line. field. lra. Qed.
Lemma line_second p0 p1 : fst p0 < fst p1 -> line p0 p1 (fst p1) == snd p1.
Proof. intros H. unfold line. field. lra. Qed.
Lemma line_compat p0 p1 q q' : q == q' -> line p0 p1 q == line p0 p1 q'.
Proof. intros H. unfold line. rewrite H. reflexivity. Qed.
Lemma line_map p0 p1 q : map_range q (fst p0) (fst p1) (snd p0) (snd p1) == line p0 p1 q.
Proof. unfold map_range, line. ring. Qed.

Lemma eval_left p0 p1 l q : fst p0 < fst p1 -> q <= fst p1 -> eval p0 p1 l q == line p0 p1 q.
Proof. intros _ H. destruct l; cbn [eval]; [reflexivity|]. rewrite (proj2 (Qle_bool_iff _ _) H). reflexivity. Qed.
Lemma eval_right p0 p1 p2 l q : fst p1 < q -> eval p0 p1 (p2 :: l) q = eval p1 p2 l q.
Proof. intros H. cbn [eval]. destruct (Qle_bool q (fst p1)) eqn:E; [|reflexivity]. apply Qle_bool_iff in E. lra. Qed.

Lemma eval_hit l : forall p0 p1 q i p, StronglySorted before (p0 :: p1 :: l) -> nth_error (p0 :: p1 :: l) i = Some p -> fst p == q ->
  eval p0 p1 l q == snd p.
Proof.
  induction l as [|p2 l IH]; intros p0 p1 q i p Hs N E; inversion Hs as [|? ? Hs' HF]; subst; inversion HF as [|? ? H01 _]; subst; unfold before in H01.
  - cbn [eval]. rewrite (line_compat p0 p1 q (fst p)) by (symmetry; exact E). destruct i as [|[|i]]; cbn in N; [..|destruct i; discriminate]; injection N as <-; [apply line_first, H01|apply line_second, H01].
  - destruct i as [|i].
    + cbn in N. injection N as <-. rewrite eval_left by (try exact H01; lra). rewrite (line_compat p0 p1 q (fst p0)) by (symmetry; exact E). apply line_first, H01.
    + destruct i as [|i].
      * cbn in N. injection N as <-. rewrite eval_left by (try exact H01; lra). rewrite (line_compat p0 p1 q (fst p1)) by (symmetry; exact E). apply line_second, H01.
      * cbn [nth_error] in N. assert (L : fst p1 < fst p).
        { inversion Hs' as [|? ? Hs'' HF']; subst. rewrite Forall_forall in HF'. apply HF'. apply (nth_error_In _ i). exact N. }
        rewrite eval_right by lra. apply (IH p1 p2 q (S i) p Hs'); [exact N|exact E].
Qed.

Definition below (q : Q) (l : list point) : nat := length (filter (fun p => Qltb (fst p) q) l).
Lemma below_cons q p l : below q (p :: l) = ((if Qltb (fst p) q then 1 else 0) + below q l)%nat.
Proof. unfold below. cbn [filter]. destruct (Qltb (fst p) q); reflexivity. Qed.
Lemma below_none q l p : StronglySorted before (p :: l) -> q <= fst p -> below q (p :: l) = 0%nat.
Proof.
  intros Hs H. inversion Hs as [|? ? Hs' HF]; subst.
  assert (B : forall l', Forall (fun x : point => q <= fst x) l' -> below q l' = 0%nat).
  { induction l' as [|x l' IH]; intros F; [reflexivity|]. inversion F; subst. rewrite below_cons. destruct (Qltb (fst x) q) eqn:E; [apply Qltb_iff in E; lra|apply IH; assumption]. }
  apply B. constructor; [exact H|]. rewrite Forall_forall in HF |- *. intros x Hx. specialize (HF x Hx). unfold before in HF. lra.
Qed.

Lemma eval_miss l : forall p0 p1 q b0 b1, StronglySorted before (p0 :: p1 :: l) ->
  let i := Nat.min (Nat.max (below q (p0 :: p1 :: l)) 1) (length (p0 :: p1 :: l) - 1) in
  nth_error (p0 :: p1 :: l) (i - 1) = Some b0 -> nth_error (p0 :: p1 :: l) i = Some b1 ->
  line b0 b1 q == eval p0 p1 l q.
Proof.
  induction l as [|p2 l IH]; intros p0 p1 q b0 b1 Hs i N0 N1; inversion Hs as [|? ? Hs' HF]; subst; inversion HF as [|? ? H01 _]; subst; unfold before in H01.
  - assert (I : i = 1%nat) by (unfold i; cbn [length]; lia). rewrite I in *. cbn in N0, N1. injection N0 as <-. injection N1 as <-. reflexivity.
  - destruct (Qlt_le_dec (fst p1) q) as [L|L].
    + rewrite eval_right by exact L.
      assert (B0 : below q (p0 :: p1 :: p2 :: l) = S (below q (p1 :: p2 :: l))).
      { rewrite below_cons. assert (E : Qltb (fst p0) q = true) by (apply Qltb_iff; lra). rewrite E. reflexivity. }
      assert (B1 : (1 <= below q (p1 :: p2 :: l))%nat).
      { rewrite below_cons. assert (E : Qltb (fst p1) q = true) by (apply Qltb_iff; exact L). rewrite E. lia. }
      set (i' := Nat.min (Nat.max (below q (p1 :: p2 :: l)) 1) (length (p1 :: p2 :: l) - 1)).
      assert (I : i = S i') by (unfold i, i'; rewrite B0; cbn [length]; lia).
      assert (I1 : (1 <= i')%nat) by (unfold i'; cbn [length]; lia).
      rewrite I in N0, N1. apply (IH p1 p2 q b0 b1 Hs'); fold i'.
      * replace (S i' - 1)%nat with (S (i' - 1)) in N0 by lia. cbn [nth_error] in N0. exact N0.
      * cbn [nth_error] in N1. exact N1.
    + rewrite eval_left by assumption.
      assert (B : (below q (p0 :: p1 :: p2 :: l) <= 1)%nat).
      { rewrite below_cons, (below_none q (p2 :: l) p1 Hs' L). destruct (Qltb (fst p0) q); lia. }
      assert (I : i = 1%nat) by (unfold i; cbn [length]; lia). rewrite I in *. cbn in N0, N1. injection N0 as <-. injection N1 as <-. reflexivity.
Qed.

Lemma lut_eval p0 p1 l q r : StronglySorted before (p0 :: p1 :: l) -> get_unix_timestamp (p0 :: p1 :: l) q r ->
  exists y, r = Some y /\ y == eval p0 p1 l q.
Proof.
  intros Hs H. destruct H as [H|i b u L N E|i b0 u0 b1 u1 L F I N0 N1].
  - cbn in H. lia.
  - exists u. split; [reflexivity|]. symmetry. apply (eval_hit l p0 p1 q i (b, u) Hs N). exact E.
  - eexists. split; [reflexivity|]. rewrite (line_map (b0, u0) (b1, u1) q). subst i. apply (eval_miss l p0 p1 q (b0, u0) (b1, u1) Hs N0 N1).
Qed.

(** *** Statements.  [recorded] is the list of points in the order they were
    added; sort_timestamps is called before lookups. *)
Definition lookup (recorded : list point) (q : Q) (r : option Q) : Prop := get_unix_timestamp (sort_timestamps recorded) q r.

Lemma sort_two l : (2 <= length l)%nat -> exists p0 p1 l', sort_timestamps l = p0 :: p1 :: l'.
Proof.
  intros H. rewrite (Permutation_length (sort_perm l)) in H. destruct (sort_timestamps l) as [|p0 [|p1 l']]; cbn in H; try lia.
  exists p0, p1, l'. reflexivity.
Qed.

(** a lookup always has an answer, which is None exactly below two points *)
Theorem C61_total : forall recorded q, exists r, lookup recorded q r /\ (r = None <-> (length recorded < 2)%nat).
Proof.
  intros l q. unfold lookup. destruct (Nat.lt_ge_cases (length l) 2) as [H|H].
  - exists None. split; [apply lut_few; rewrite <- (Permutation_length (sort_perm l)); exact H|tauto].
  - destruct (sort_two l H) as (p0 & p1 & l' & E). rewrite E.
    assert (D : (exists p, In p (p0 :: p1 :: l') /\ fst p == q) \/ Forall (fun p => ~ fst p == q) (p0 :: p1 :: l')).
    { generalize (p0 :: p1 :: l'). clear. induction l as [|p l IH]; [right; constructor|].
      destruct (Qeq_dec (fst p) q) as [Y|N]; [left; exists p; split; [left; reflexivity|exact Y]|].
      destruct IH as [(p' & I & Y)|F]; [left; exists p'; split; [right; exact I|exact Y]|right; constructor; assumption]. }
    destruct D as [(p & I & Y)|F].
    + apply In_nth_error in I. destruct I as (i & N). exists (Some (snd p)). split.
      * apply (lut_hit _ _ i (fst p)); [cbn; lia|rewrite N; destruct p; reflexivity|exact Y].
      * split; [discriminate|lia].
    + set (L := p0 :: p1 :: l') in *. set (i := Nat.min (Nat.max (below q L) 1) (length L - 1)).
      assert (LL : (2 <= length L)%nat) by (cbn; lia).
      destruct (nth_error L (i - 1)) as [[b0 u0]|] eqn:N0; [|apply nth_error_None in N0; lia].
      destruct (nth_error L i) as [[b1 u1]|] eqn:N1; [|apply nth_error_None in N1; lia].
      eexists. split; [apply (lut_miss L q i b0 u0 b1 u1 LL F eq_refl N0 N1)|]. split; [discriminate|lia].
Qed.

(** at a recorded boot time the answer is the recorded unix time *)
Theorem C61_exact_at_points : forall recorded b u r, distinct recorded -> (2 <= length recorded)%nat ->
  In (b, u) recorded -> lookup recorded b r -> exists y, r = Some y /\ y == u.
Proof.
  intros l b u r D H I L. unfold lookup in L. pose proof (sort_sorted l D) as Hs. destruct (sort_two l H) as (p0 & p1 & l' & E).
  apply (Permutation_in _ (sort_perm l)) in I. rewrite E in *. destruct (lut_eval p0 p1 l' b r Hs L) as (y & -> & Y). exists y. split; [reflexivity|].
  apply In_nth_error in I. destruct I as (i & N). rewrite Y. apply (eval_hit l' p0 p1 b i (b, u) Hs N). reflexivity.
Qed.

(** between recorded boot times the answer lies on the line through the two
    neighbouring recorded points *)
Lemma eval_between l : forall p0 p1 q, StronglySorted before (p0 :: p1 :: l) -> fst p0 < q -> Exists (fun p => q < fst p) (p0 :: p1 :: l) ->
  exists a b, In a (p0 :: p1 :: l) /\ In b (p0 :: p1 :: l) /\ fst a < q /\ q <= fst b /\
    Forall (fun p => fst p <= fst a \/ fst b <= fst p) (p0 :: p1 :: l) /\ eval p0 p1 l q == line a b q.
Proof.
  induction l as [|p2 l IH]; intros p0 p1 q Hs L0 EX; inversion Hs as [|? ? Hs' HF]; subst; inversion HF as [|? ? H01 HF0]; subst; unfold before in H01.
  - exists p0, p1. split; [left; reflexivity|]. split; [right; left; reflexivity|]. split; [exact L0|]. split.
    + apply Exists_exists in EX as (x & [<-|[<-|[]]] & HX); lra.
    + split; [constructor; [left; lra|constructor; [right; lra|constructor]]|reflexivity].
  - destruct (Qlt_le_dec (fst p1) q) as [L|L].
    + assert (EX' : Exists (fun p => q < fst p) (p1 :: p2 :: l)).
      { inversion EX as [? ? X|? ? X]; subst; [lra|exact X]. }
      destruct (IH p1 p2 q Hs' L EX') as (a & b & Ia & Ib & La & Lb & FF & EV).
      exists a, b. split; [right; exact Ia|]. split; [right; exact Ib|]. split; [exact La|]. split; [exact Lb|]. split.
      * constructor; [|exact FF]. left. inversion FF as [|? ? X _]; subst. destruct X as [X|X]; lra.
      * rewrite eval_right by exact L. exact EV.
    + exists p0, p1. split; [left; reflexivity|]. split; [right; left; reflexivity|]. split; [exact L0|]. split; [exact L|]. split; [|apply eval_left; assumption].
      constructor; [left; lra|]. constructor; [right; lra|]. inversion Hs' as [|? ? _ HF']; subst. rewrite Forall_forall in HF' |- *. intros x Hx. specialize (HF' x Hx). unfold before in HF'. right. lra.
Qed.

Theorem C61_interpolation : forall recorded q r, distinct recorded -> (2 <= length recorded)%nat ->
  Exists (fun p => fst p < q) recorded -> Exists (fun p => q < fst p) recorded -> lookup recorded q r ->
  exists a b y, In a recorded /\ In b recorded /\ fst a < q <= fst b /\
    Forall (fun p => fst p <= fst a \/ fst b <= fst p) recorded /\
    r = Some y /\ y == snd a + (q - fst a) * (snd b - snd a) / (fst b - fst a).
Proof.
  intros l q r D H E1 E2 L. unfold lookup in L. pose proof (sort_sorted l D) as Hs. destruct (sort_two l H) as (p0 & p1 & l' & E).
  pose proof (sort_perm l) as P. rewrite E in *.
  assert (E1' : fst p0 < q).
  { apply Exists_exists in E1 as (x & I & X). apply (Permutation_in _ P) in I. destruct I as [<-|I]; [exact X|].
    inversion Hs as [|? ? _ HF]; subst. rewrite Forall_forall in HF. specialize (HF x I). unfold before in HF. lra. }
  assert (E2' : Exists (fun p => q < fst p) (p0 :: p1 :: l')).
  { apply Exists_exists in E2 as (x & I & X). apply (Permutation_in _ P) in I. apply Exists_exists. exists x. split; assumption. }
  destruct (lut_eval p0 p1 l' q r Hs L) as (y & -> & Y).
  destruct (eval_between l' p0 p1 q Hs E1' E2') as (a & b & Ia & Ib & La & Lb & FF & EV). exists a, b, y.
  apply Permutation_sym in P. split; [apply (Permutation_in _ P), Ia|]. split; [apply (Permutation_in _ P), Ib|]. split; [split; assumption|].
  split; [|split; [reflexivity|rewrite Y; exact EV]]. rewrite Forall_forall in FF |- *. intros x Hx. apply FF. apply (Permutation_in _ (Permutation_sym P)), Hx.
Qed.

(** the lookup is monotone when the recorded points are (also outside the
    recorded range, where it extrapolates) *)
Lemma line_mono p0 p1 q q' : fst p0 < fst p1 -> snd p0 <= snd p1 -> q <= q' -> line p0 p1 q <= line p0 p1 q'.
Proof.
  intros H1 H2 H3. unfold line. apply Qplus_le_r. unfold Qdiv. apply Qmult_le_compat_r; [|apply Qinv_le_0_compat; lra].
  apply Qmult_le_compat_r; lra.
Qed.

Lemma eval_ge l : forall p0 p1 q, StronglySorted before (p0 :: p1 :: l) -> StronglySorted (fun p p' : point => snd p <= snd p') (p0 :: p1 :: l) ->
  fst p0 <= q -> snd p0 <= eval p0 p1 l q.
Proof.
  induction l as [|p2 l IH]; intros p0 p1 q Hs Hm L; inversion Hs as [|? ? Hs' HF]; subst; inversion HF as [|? ? H01 _]; subst; unfold before in H01;
    inversion Hm as [|? ? Hm' HM]; subst; inversion HM as [|? ? M01 _]; subst.
  - cbn [eval]. rewrite <- (line_first p0 p1 H01). apply line_mono; assumption.
  - destruct (Qlt_le_dec (fst p1) q) as [L1|L1].
    + rewrite eval_right by exact L1. apply Qle_trans with (snd p1); [exact M01|]. apply IH; try assumption. lra.
    + rewrite eval_left by assumption. rewrite <- (line_first p0 p1 H01). apply line_mono; assumption.
Qed.

Lemma eval_mono l : forall p0 p1 q q', StronglySorted before (p0 :: p1 :: l) -> StronglySorted (fun p p' : point => snd p <= snd p') (p0 :: p1 :: l) ->
  q <= q' -> eval p0 p1 l q <= eval p0 p1 l q'.
Proof.
  induction l as [|p2 l IH]; intros p0 p1 q q' Hs Hm L; inversion Hs as [|? ? Hs' HF]; subst; inversion HF as [|? ? H01 _]; subst; unfold before in H01;
    inversion Hm as [|? ? Hm' HM]; subst; inversion HM as [|? ? M01 _]; subst.
  - cbn [eval]. apply line_mono; assumption.
  - destruct (Qlt_le_dec (fst p1) q') as [L1|L1].
    + rewrite (eval_right p0 p1 p2 l q') by exact L1. destruct (Qlt_le_dec (fst p1) q) as [L2|L2].
      * rewrite eval_right by exact L2. apply IH; assumption.
      * rewrite eval_left by assumption. apply Qle_trans with (snd p1).
        -- rewrite <- (line_second p0 p1 H01) at 1. apply line_mono; assumption.
        -- apply eval_ge; try assumption. lra.
    + rewrite !eval_left by (try assumption; lra). apply line_mono; assumption.
Qed.

Theorem C61_monotone : forall recorded q q' r r', distinct recorded -> (2 <= length recorded)%nat ->
  (forall p p', In p recorded -> In p' recorded -> fst p < fst p' -> snd p <= snd p') ->
  q <= q' -> lookup recorded q r -> lookup recorded q' r' ->
  exists y y', r = Some y /\ r' = Some y' /\ y <= y'.
Proof.
  intros l q q' r r' D H M L Lq Lq'. unfold lookup in *. pose proof (sort_sorted l D) as Hs. destruct (sort_two l H) as (p0 & p1 & l' & E).
  assert (M' : forall p p', In p (sort_timestamps l) -> In p' (sort_timestamps l) -> fst p < fst p' -> snd p <= snd p').
  { intros p p' I I'. apply M; apply (Permutation_in _ (Permutation_sym (sort_perm l))); assumption. }
  rewrite E in *.
  assert (Hm : StronglySorted (fun p p' : point => snd p <= snd p') (p0 :: p1 :: l')).
  { clear -Hs M'. induction Hs as [|x xs Hs IH HF]; [constructor|]. constructor.
    - apply IH. intros p p' I I'. apply M'; right; assumption.
    - rewrite Forall_forall in HF |- *. intros y Hy. apply M'; [left; reflexivity|right; exact Hy|apply HF, Hy]. }
  destruct (lut_eval p0 p1 l' q r Hs Lq) as (y & -> & Y). destruct (lut_eval p0 p1 l' q' r' Hs Lq') as (y' & -> & Y').
  exists y, y'. split; [reflexivity|]. split; [reflexivity|]. rewrite Y, Y'. apply eval_mono; assumption.
Qed.

(** non-vacuity: three points added out of order *)
Theorem C61_instance : let recorded := [(20, 1020); (0, 1000); (10, 1012)] in
  distinct recorded /\ lookup recorded 5 (Some (map_range 5 0 10 1000 1012)) /\ map_range 5 0 10 1000 1012 == 1006.
Proof.
  cbv zeta. split; [|split].
  - constructor; [constructor; [intros X; discriminate X|constructor; [intros X; discriminate X|constructor]]|].
    constructor; [constructor; [intros X; discriminate X|constructor]|]. constructor; [constructor|]. constructor.
  - unfold lookup. change (sort_timestamps [(20, 1020); (0, 1000); (10, 1012)]) with [(0, 1000); (10, 1012); (20, 1020)].
    apply (lut_miss _ 5 1 0 1000 10 1012); [cbn; lia| |vm_compute; reflexivity|reflexivity|reflexivity].
    constructor; [intros X; discriminate X|constructor; [intros X; discriminate X|constructor; [intros X; discriminate X|constructor]]].
  - reflexivity.
Qed.

(** Finding: two points recorded at the same boot time (a restarted clock; the
    source says "FIXME should be per-file") can make both neighbours coincide,
    so that the interpolation divides by zero. *)
Theorem C61_refuted_duplicates : exists i b u0 u1, let recorded := [(1, 5); (1, 6)] in
  i = Nat.min (Nat.max (below 2 (sort_timestamps recorded)) 1) (length (sort_timestamps recorded) - 1) /\
  nth_error (sort_timestamps recorded) (i - 1) = Some (b, u0) /\ nth_error (sort_timestamps recorded) i = Some (b, u1) /\ b - b == 0.
Proof. exists 1%nat, 1, 5, 6. vm_compute. repeat split. Qed.

(** ** C62 *)
(** the last [w] samples of a sequence, newest first *)
Definition latest {A} (w : nat) (xs : list A) : list A := firstn w (rev xs).
Definition mean (l : list Q) : Q := fold_right Qplus 0 l / inject_Z (Z.of_nat (length l)).

Lemma firstn_removelast {A} w (l : list A) : length l = S w -> removelast l = firstn w l.
Proof. intros H. rewrite removelast_firstn_len, H. reflexivity. Qed.

Lemma nsma_contents {A} w (xs : list A) : fold_left (nsma_add w) xs [] = latest w xs.
Proof.
  unfold latest. rewrite <- (rev_involutive xs) at 1. generalize (rev xs). clear xs. intros l.
  induction l as [|x l IH]; [cbn; destruct w; reflexivity|]. cbn [rev]. rewrite fold_left_app. cbn [fold_left]. rewrite IH.
  unfold nsma_add. destruct w as [|w]; [reflexivity|]. cbn [Nat.eqb]. destruct (Nat.eqb_spec (length (firstn (S w) l)) (S w)) as [E|E].
  - rewrite (firstn_removelast w _ E), firstn_firstn, Nat.min_l by lia. reflexivity.
  - rewrite firstn_length in E. rewrite (firstn_all2 l) by lia. rewrite firstn_all2 by (cbn [length]; lia). reflexivity.
Qed.

Lemma ssma_contents {A} add sub (zero : A) w xs : ss_samples (fold_left (ssma_add add sub zero w) xs (ssma_new zero)) = latest w xs.
Proof.
  rewrite <- nsma_contents.
  assert (G : forall s, ss_samples (fold_left (ssma_add add sub zero w) xs s) = fold_left (nsma_add w) xs (ss_samples s)); [|apply (G (ssma_new zero))].
  induction xs as [|x xs IH]; intros s; [reflexivity|]. cbn [fold_left]. rewrite IH. f_equal.
  unfold ssma_add, nsma_add. destruct (w =? 0)%nat; [reflexivity|]. destruct (length (ss_samples s) =? w)%nat; reflexivity.
Qed.

Lemma fold_sum l z : fold_left Qplus l z == z + fold_right Qplus 0 l.
Proof. revert z. induction l as [|x l IH]; intros z; cbn [fold_left fold_right]; [ring|]. rewrite IH. ring. Qed.

Lemma sum_last (l : list Q) : l <> [] -> fold_right Qplus 0 l == fold_right Qplus 0 (removelast l) + last l 0.
Proof.
  induction l as [|x l IH]; intros H; [contradiction|]. destruct l as [|y l]; [cbn; ring|].
  change (removelast (x :: y :: l)) with (x :: removelast (y :: l)). change (last (x :: y :: l) 0) with (last (y :: l) 0).
  cbn [fold_right] in IH |- *. rewrite (IH ltac:(discriminate)). ring.
Qed.

Lemma ssma_sum w xs s : ss_sum s == fold_right Qplus 0 (ss_samples s) ->
  let s' := fold_left (ssma_add Qplus Qminus 0 w) xs s in ss_sum s' == fold_right Qplus 0 (ss_samples s').
Proof.
  cbv zeta. revert s. induction xs as [|x xs IH]; intros s H; [exact H|]. cbn [fold_left]. apply IH. unfold ssma_add.
  destruct (Nat.eqb_spec w 0); [exact H|]. destruct (Nat.eqb_spec (length (ss_samples s)) w) as [E|E]; cbn [ss_sum ss_samples fold_right].
  - rewrite H. assert (NE : ss_samples s <> []) by (intros X; rewrite X in E; cbn in E; lia). rewrite (sum_last _ NE). ring.
  - rewrite H. ring.
Qed.

(** C62.  For every window size and every sequence of samples, both averages
    are the mean of the last min(n, window) samples, and they report full
    exactly when a whole window has been seen.  (Exact arithmetic.) *)
Theorem C62_moving_average_partial : forall w xs, (1 <= w)%nat -> xs <> [] ->
  nsma_average Qplus over_Q 0 (fold_left (nsma_add w) xs []) == mean (latest w xs) /\
  ssma_average over_Q (fold_left (ssma_add Qplus Qminus 0 w) xs (ssma_new 0)) == mean (latest w xs) /\
  (nsma_is_full w (fold_left (nsma_add w) xs []) = true <-> (w <= length xs)%nat) /\
  (ssma_is_full w (fold_left (ssma_add Qplus Qminus 0 w) xs (ssma_new 0)) = true <-> (w <= length xs)%nat).
Proof.
  intros w xs W NE. assert (LL : length (latest w xs) = Nat.min w (length xs)) by (unfold latest; rewrite firstn_length, rev_length; reflexivity).
  assert (NZ : (length (latest w xs) =? 0)%nat = false) by (apply Nat.eqb_neq; destruct xs; [contradiction|cbn [length] in LL; lia]).
  split; [|split; [|split]].
  - rewrite nsma_contents. unfold nsma_average. rewrite NZ. unfold over_Q, mean. rewrite fold_sum, Qplus_0_l. reflexivity.
  - unfold ssma_average. rewrite ssma_contents, NZ. unfold over_Q, mean.
    pose proof (ssma_sum w xs (ssma_new 0) ltac:(reflexivity)) as SM. cbv zeta in SM. rewrite ssma_contents in SM. rewrite SM. reflexivity.
  - rewrite nsma_contents. unfold nsma_is_full. rewrite LL, Nat.eqb_eq. lia.
  - unfold ssma_is_full. rewrite ssma_contents, LL, Nat.eqb_eq. lia.
Qed.

(** which samples are averaged is exact in any arithmetic *)
Theorem C62_window_contents : forall (A : Type) (add sub : A -> A -> A) (zero : A) w xs,
  fold_left (nsma_add w) xs [] = latest w xs /\
  ss_samples (fold_left (ssma_add add sub zero w) xs (ssma_new zero)) = latest w xs.
Proof. intros. split; [apply nsma_contents|apply ssma_contents]. Qed.

(** before any sample (and always, for a window of size 0) the average is the
    initial value *)
Theorem C62_empty : forall w, nsma_average Qplus over_Q 0 [] = 0 /\ ssma_average over_Q (ssma_new 0) = 0 /\
  forall xs, ssma_average over_Q (fold_left (ssma_add Qplus Qminus 0 0) xs (ssma_clear 0 (ssma_new w))) = 0.
Proof.
  intros w. split; [reflexivity|]. split; [reflexivity|]. intros xs. induction xs as [|x xs IH]; [reflexivity|]. cbn [fold_left]. exact IH.
Qed.

(** Finding: in IEEE arithmetic the running sum of SingleSumSMA absorbs small
    samples for good: after the samples 2^60 and 1 with a window of ONE sample
    the reported average is 0, not 1. *)
Theorem C62_refuted_running_sum :
  ssma_average over_f64 (fold_left (ssma_add (SFadd 53 1024) (SFsub 53 1024) (S754_zero false) 1)
     [sf_of_Z 53 1024 (2 ^ 60); sf_of_Z 53 1024 1] (ssma_new (S754_zero false))) = S754_zero false.
Proof. vm_compute. reflexivity. Qed.

Theorem C62_instance : nsma_average Qplus over_Q 0 (fold_left (nsma_add 2) [1; 2; 4] []) == 3 /\ latest 2 [1; 2; 4] = [4; 2].
Proof. split; vm_compute; reflexivity. Qed.

(** ** C63 *)
(** C63.  The k-th tick (k = 1, 2, ...) never returns before start + k *
    interval nor before it is called, and returns no later than the later of
    its call and its due time plus its own timer's lateness: lateness of
    earlier ticks does not accumulate. *)
Lemma ticks_bounds calls : forall t k r now late, nth_error calls k = Some (now, late) -> nth_error (ticks t calls) k = Some r ->
  0 <= late -> let due := tk_start t + (tk_i t + inject_Z (Z.of_nat (S k))) * tk_interval t in
  due <= r /\ now <= r /\ (r <= now \/ r <= due + late).
Proof.
  induction calls as [|[n l] cs IH]; intros t k r now late H1 H2 HL; [destruct k; discriminate|]. cbv zeta.
  cbn [ticks next] in H2. destruct k as [|k].
  - cbn in H1. injection H1 as -> ->. cbn [nth_error] in H2. injection H2 as <-. change (inject_Z (Z.of_nat 1)) with 1.
    destruct (Qle_bool _ now) eqn:E; [apply Qle_bool_iff in E; lra|].
    assert (now < tk_start t + (tk_i t + 1) * tk_interval t) by (apply Qnot_le_lt; intros X; apply Qle_bool_iff in X; congruence). lra.
  - cbn [nth_error] in H1, H2. pose proof (IH _ k r now late H1 H2 HL) as B. cbv zeta in B. cbn [tk_start tk_i tk_interval] in B.
    assert (E : inject_Z (Z.of_nat (S (S k))) == 1 + inject_Z (Z.of_nat (S k))).
    { rewrite (Nat2Z.inj_succ (S k)). unfold Z.succ. rewrite inject_Z_plus. ring. }
    assert (E2 : tk_start t + (tk_i t + inject_Z (Z.of_nat (S (S k)))) * tk_interval t == tk_start t + (tk_i t + 1 + inject_Z (Z.of_nat (S k))) * tk_interval t) by (rewrite E; ring).
    rewrite E2. exact B.
Qed.

Theorem C63_no_drift : forall start interval calls k r now late,
  nth_error calls k = Some (now, late) -> 0 <= late ->
  nth_error (ticks (every_starts_at interval start) calls) k = Some r ->
  let due := start + inject_Z (Z.of_nat (S k)) * interval in
  due <= r /\ now <= r /\ (now <= due -> r <= due + late) /\ (due <= now -> r == now).
Proof.
  intros start interval calls k r now late H1 HL H2. cbv zeta.
  pose proof (ticks_bounds calls (every_starts_at interval start) k r now late H1 H2 HL) as B. cbv zeta in B. cbn [tk_start tk_i tk_interval every_starts_at] in B.
  assert (E : start + (0 + inject_Z (Z.of_nat (S k))) * interval == start + inject_Z (Z.of_nat (S k)) * interval) by ring. rewrite E in B.
  destruct B as (B1 & B2 & B3). split; [exact B1|]. split; [exact B2|]. split; [intros X; destruct B3; lra|].
  (* the tick is already due: it returns at once *)
  intros X. assert (IMM : forall cs t k, nth_error cs k = Some (now, late) -> nth_error (ticks t cs) k = Some r ->
     tk_start t + (tk_i t + inject_Z (Z.of_nat (S k))) * tk_interval t <= now -> r == now).
  { clear. induction cs as [|[n l] cs IH]; intros t k H1 H2 X; [destruct k; discriminate|]. cbn [ticks next] in H2. destruct k as [|k].
    - cbn in H1. injection H1 as -> ->. cbn [nth_error] in H2. injection H2 as <-. change (inject_Z (Z.of_nat 1)) with 1 in X.
      rewrite (proj2 (Qle_bool_iff _ _) X). reflexivity.
    - cbn [nth_error] in H1, H2. apply (IH _ k H1 H2). cbn [tk_start tk_i tk_interval].
      rewrite (Nat2Z.inj_succ (S k)) in X. unfold Z.succ in X. rewrite inject_Z_plus in X. change (inject_Z 1) with 1 in X.
      assert (E : tk_start t + (tk_i t + 1 + inject_Z (Z.of_nat (S k))) * tk_interval t == tk_start t + (tk_i t + (inject_Z (Z.of_nat (S k)) + 1)) * tk_interval t) by ring.
      rewrite E. exact X. }
  apply (IMM calls (every_starts_at interval start) k H1 H2). cbn [tk_start tk_i tk_interval every_starts_at]. rewrite E. exact X.
Qed.

(** the same for a ticker that starts when it is made (ticker.rs:13-21, [every]) *)
Theorem C63_every_no_drift : forall start interval calls k r now late,
  nth_error calls k = Some (now, late) -> 0 <= late ->
  nth_error (ticks (every start interval) calls) k = Some r ->
  let due := start + inject_Z (Z.of_nat (S k)) * interval in
  due <= r /\ now <= r /\ (now <= due -> r <= due + late) /\ (due <= now -> r == now).
Proof. intros start interval calls k r now late H1 HL H2. exact (C63_no_drift start interval calls k r now late H1 HL H2). Qed.

(** next_skip_missed returns at the first multiple of the interval (counted
    from boot, not from the ticker's start) at or after the call, plus the
    timer's lateness *)
Theorem C63_skip_missed : forall t now late r, 0 < tk_interval t -> 0 <= late -> next_skip_missed t now late = (t, r) ->
  exists n : Z, let due := inject_Z n * tk_interval t in
    r == due + late /\ now <= due /\ due < now + tk_interval t.
Proof.
  intros t now late r HI HL E. unfold next_skip_missed in E. injection E as <-.
  exists (Qceiling (now / tk_interval t)). cbv zeta. set (c := Qceiling (now / tk_interval t)).
  pose proof (Qle_ceiling (now / tk_interval t)) as C1. pose proof (Qceiling_lt (now / tk_interval t)) as C2. fold c in C1, C2.
  split; [ring|]. split.
  - apply (Qmult_le_compat_r _ _ (tk_interval t)) in C1; [|lra]. assert (X : now / tk_interval t * tk_interval t == now) by (field; lra). rewrite X in C1. exact C1.
  - unfold Z.sub in C2. rewrite inject_Z_plus in C2. change (inject_Z (- (1))) with (-1) in C2.
    apply (Qmult_lt_compat_r _ _ (tk_interval t) HI) in C2. assert (X : now / tk_interval t * tk_interval t == now) by (field; lra). rewrite X in C2.
    assert (Y : (inject_Z c + -1) * tk_interval t == inject_Z c * tk_interval t - tk_interval t) by ring. rewrite Y in C2. lra.
Qed.

(** Finding: called exactly on a multiple it does not wait at all, however
    often it is called *)
Theorem C63_skip_missed_no_wait : forall t n, 0 < tk_interval t ->
  snd (next_skip_missed t (inject_Z n * tk_interval t) 0) == inject_Z n * tk_interval t.
Proof.
  intros t n H. cbn [next_skip_missed snd]. assert (E : inject_Z n * tk_interval t / tk_interval t == inject_Z n) by (field; lra).
  rewrite E, Qceiling_Z. ring.
Qed.

(** non-vacuity: the second tick is served 7 ms late, the third is on time *)
Theorem C63_instance : ticks (every_starts_at 10 100) [(100, 0); (111, 7); (127, 0)] = [100 + (100 + (0 + 1) * 10 - 100) + 0; 111 + (100 + (0 + 1 + 1) * 10 - 111) + 7; 127 + (100 + (0 + 1 + 1 + 1) * 10 - 127) + 0]
  /\ 127 + (100 + (0 + 1 + 1 + 1) * 10 - 127) + 0 == 130.
Proof. split; reflexivity. Qed.

(** * C117: an animation passes through its keyframes at their times and moves evenly in between. *)
From Coq Require Import QArith Qabs Lqa.
From Verif Require Import Base Keyframe.
Local Open Scope Q_scope.

(** ** Specification: the time at which keyframe [k] is due *)
Definition due (a : animation) (k : nat) : Q := sum (firstn k (durations a)).
(** an animation as the builder makes them, of [n] segments of positive length *)
Definition proper (a : animation) (n : nat) : Prop :=
  length (durations a) = n /\ length (keyframes a) = S n /\ Forall (fun d => 0 < d) (durations a).

Lemma updates_time ds : forall p o p' o', updates p ds o = (p', o') -> anim p' = anim p /\ time p' == time p + sum ds.
Proof.
  induction ds as [|d ds IH]; intros p o p' o' H; cbn [updates] in H.
  - injection H as <- <-. split; [reflexivity|]. cbn [sum fold_right]. ring.
  - cbn [update] in H. unfold update in H. apply IH in H. destruct H as [A B]. split; [exact A|]. rewrite B. cbn [time sum fold_right]. fold (sum ds). ring.
Qed.

Lemma seek_at ds : forall ks k t d a b, Forall (fun d => 0 < d) ds -> nth_error ds k = Some d -> nth_error ks k = Some a -> nth_error ks (S k) = Some b ->
  length ks = S (length ds) -> sum (firstn k ds) < t \/ k = O /\ 0 <= t -> t <= sum (firstn k ds) + d ->
  exists q, seek t ds ks = RValue q /\ q == lerp a b ((t - sum (firstn k ds)) / d).
Proof.
  induction ds as [|d0 ds IH]; intros ks k t d a b F Hd Ha Hb L H1 H2; [destruct k; discriminate|].
  inversion F as [|x l F0 F']; subst. destruct ks as [|k0 ks]; [discriminate|]. destruct k as [|k].
  - cbn [nth_error firstn sum fold_right] in *. injection Hd as ->. injection Ha as ->. destruct ks as [|k1 ks]; [discriminate|]. injection Hb as ->.
    cbn [seek]. destruct (Qlt_le_dec d t) as [X|X]; [exfalso; lra|]. destruct (Qeq_dec d 0) as [Z|Z]; [exfalso; lra|].
    eexists. split; [reflexivity|]. unfold lerp. field. exact Z.
  - cbn [nth_error firstn] in *. cbn [sum fold_right] in H1, H2 |- *. fold (sum (firstn k ds)) in H1, H2 |- *.
    assert (P : 0 <= sum (firstn k ds)).
    { clear -F'. revert k. induction F' as [|x l Hx _ IHl]; intros k; destruct k; cbn [firstn sum fold_right]; try lra. specialize (IHl k). unfold sum in IHl. lra. }
    destruct H1 as [H1|[H1 _]]; [|discriminate]. cbn [seek]. destruct (Qlt_le_dec d0 t) as [X|X]; [|exfalso; lra]. cbn [tl].
    destruct (IH ks k (t - d0) d a b F' Hd Ha Hb) as (q & E & V); [cbn [length] in L; lia|left; lra|lra|].
    exists q. split; [exact E|]. rewrite V. unfold lerp. assert (Z : ~ d == 0).
    { apply nth_error_In in Hd. rewrite Forall_forall in F'. specialize (F' d Hd). lra. }
    field. exact Z.
Qed.
Lemma seek_end ds : forall ks t, Forall (fun d => 0 < d) ds -> sum ds < t -> seek t ds ks = RNone.
Proof.
  induction ds as [|d ds IH]; intros ks t F H; [reflexivity|]. inversion F as [|x l F0 F']; subst. cbn [seek sum fold_right] in *. fold (sum ds) in H.
  assert (P : 0 <= sum ds). { clear -F'. induction F' as [|x l Hx _ IHl]; cbn [sum fold_right]; [lra|]. unfold sum in IHl. lra. }
  destruct (Qlt_le_dec d t) as [X|X]; [|exfalso; lra]. apply IH; [exact F'|lra].
Qed.

(** ** C117 *)
(** After updates whose deltas add up to [t], the value is the keyframe [k] moved towards the next one in proportion to the time since
    it was due, where [k] is the segment [t] falls into (either one, at a keyframe's own time). *)
Theorem C117_interpolates a n ds d0 k d x y p o : proper a n -> updates (player_new a) (ds ++ [d0]) RNone = (p, o) ->
  nth_error (durations a) k = Some d -> nth_error (keyframes a) k = Some x -> nth_error (keyframes a) (S k) = Some y ->
  due a k <= sum (ds ++ [d0]) -> sum (ds ++ [d0]) <= due a k + d ->
  exists q, o = RValue q /\ q == x + (y - x) * ((sum (ds ++ [d0]) - due a k) / d).
Proof.
  intros (Ln & Lk & Pos) Hu Hd Hx Hy H1 H2.
  assert (Hsplit : forall l p0 o0, updates p0 (l ++ [d0]) o0 = let (p1, o1) := updates p0 l o0 in update p1 d0).
  { induction l as [|z l IH]; intros p0 o0; cbn [app updates]; [destruct (update p0 d0); reflexivity|]. destruct (update p0 z) as [p1 o1]. apply IH. }
  rewrite Hsplit in Hu. destruct (updates (player_new a) ds RNone) as [p1 o1] eqn:E1. destruct (updates_time _ _ _ _ _ E1) as [Ea Et].
  unfold update in Hu. injection Hu as _ Ho. rewrite Ea in Ho. cbn [player_new anim time] in *.
  assert (Hs : sum (ds ++ [d0]) == time p1 + d0). { rewrite Et. clear. induction ds as [|z l IH]; cbn [app sum fold_right]; [ring|]. unfold sum in IH. rewrite IH. ring. }
  generalize dependent (sum (ds ++ [d0])). intros T H1' H2' HT. generalize dependent (time p1 + d0). intros t Ho Hs.
  assert (H1 : due a k <= t) by lra. assert (H2 : t <= due a k + d) by lra. clear H1' H2' E1 Et.
  enough (G : exists q, o = RValue q /\ q == x + (y - x) * ((t - due a k) / d)).
  { destruct G as (q & Eo & V). exists q. split; [exact Eo|]. rewrite V, Hs. reflexivity. }
  clear Hs.
  destruct (durations a) as [|dz dl] eqn:Ed; [destruct k; discriminate|]. rewrite <- Ed in *. unfold due in *.
  destruct (Qlt_le_dec (sum (firstn k (durations a))) t) as [L|L].
  - destruct (seek_at (durations a) (keyframes a) k t d x y Pos Hd Hx Hy) as (q & E & V); [lia|left; exact L|exact H2|]. exists q. rewrite <- Ho. split; [exact E|exact V].
  - (* exactly at the keyframe: the previous segment is used, and ends there *)
    assert (Eq : t == sum (firstn k (durations a))) by lra. destruct k as [|k].
    + destruct (seek_at (durations a) (keyframes a) 0 t d x y Pos Hd Hx Hy) as (q & E & V); [lia| |exact H2|].
      * right. split; [reflexivity|]. rewrite Eq. cbn [firstn sum fold_right]. lra.
      * exists q. rewrite <- Ho. split; [exact E|exact V].
    + assert (Hk : exists d', nth_error (durations a) k = Some d').
      { destruct (nth_error (durations a) k) as [d'|] eqn:E; [eauto|]. apply nth_error_None in E. assert (S k < length (durations a))%nat by (apply nth_error_Some; congruence). lia. }
      assert (Hw : exists w, nth_error (keyframes a) k = Some w).
      { destruct (nth_error (keyframes a) k) as [w|] eqn:E; [eauto|]. apply nth_error_None in E. assert (S k < length (keyframes a))%nat by (apply nth_error_Some; congruence). lia. }
      destruct Hk as (d' & Hd'), Hw as (w & Hw).
      assert (Sk : sum (firstn (S k) (durations a)) == sum (firstn k (durations a)) + d').
      { clear -Hd'. revert k Hd'. induction (durations a) as [|z l IH]; intros k Hd'; [destruct k; discriminate|]. destruct k as [|k].
        - cbn [nth_error] in Hd'. injection Hd' as ->. cbn [firstn sum fold_right]. destruct l; cbn [firstn sum fold_right]; ring.
        - cbn [nth_error] in Hd'. specialize (IH k Hd'). change (firstn (S (S k)) (z :: l)) with (z :: firstn (S k) l). change (firstn (S k) (z :: l)) with (z :: firstn k l).
          cbn [sum fold_right]. fold (sum (firstn (S k) l)) (sum (firstn k l)). rewrite IH. ring. }
      assert (Pd : 0 < d'). { rewrite Forall_forall in Pos. apply Pos. eapply nth_error_In; eauto. }
      assert (Pdd : 0 < d). { rewrite Forall_forall in Pos. apply Pos. eapply nth_error_In; eauto. }
      destruct (seek_at (durations a) (keyframes a) k t d' w x Pos Hd' Hw Hx) as (q & E & V); [lia|left; lra|lra|].
      exists q. rewrite <- Ho. split; [exact E|]. rewrite V. unfold lerp. rewrite Eq. setoid_replace (sum (firstn (S k) (durations a)) - sum (firstn k (durations a))) with d' by lra.
      field. split; lra.
Qed.

(** so the value never leaves the range between two neighbouring keyframes *)
Lemma between_ratio x y r : 0 <= r -> r <= 1 -> x <= y -> x <= x + (y - x) * r /\ x + (y - x) * r <= y.
Proof.
  intros H0 H1 H. assert (E : 0 <= (y - x) * r) by (apply Qmult_le_0_compat; lra). assert (E2 : 0 <= (y - x) * (1 - r)) by (apply Qmult_le_0_compat; lra).
  split; [lra|]. setoid_replace ((y - x) * (1 - r)) with ((y - x) - (y - x) * r) in E2 by ring. lra.
Qed.
Theorem C117_stays_between a n ds d0 k d x y p o : proper a n -> updates (player_new a) (ds ++ [d0]) RNone = (p, o) ->
  nth_error (durations a) k = Some d -> nth_error (keyframes a) k = Some x -> nth_error (keyframes a) (S k) = Some y ->
  due a k <= sum (ds ++ [d0]) -> sum (ds ++ [d0]) <= due a k + d ->
  exists q, o = RValue q /\ (x <= y -> x <= q /\ q <= y) /\ (y <= x -> y <= q /\ q <= x).
Proof.
  intros P Hu Hd Hx Hy H1 H2. destruct (C117_interpolates _ _ _ _ _ _ _ _ _ _ P Hu Hd Hx Hy H1 H2) as (q & Eo & V).
  assert (D : 0 < d). { destruct P as (_ & _ & F). rewrite Forall_forall in F. apply F. eapply nth_error_In; eauto. }
  revert V. generalize dependent (sum (ds ++ [d0])). generalize dependent (due a k). intros u T H1 H2 V.
  assert (R0 : 0 <= (T - u) / d). { apply Qle_shift_div_l; [exact D|]. lra. }
  assert (R1 : (T - u) / d <= 1). { apply Qle_shift_div_r; [exact D|]. lra. }
  revert V R0 R1. generalize ((T - u) / d). intros r V R0 R1. exists q. split; [exact Eo|]. split; intros H.
  - destruct (between_ratio x y r R0 R1 H). lra.
  - destruct (between_ratio y x (1 - r)) as [A B]; [lra|lra|exact H|]. setoid_replace (y + (x - y) * (1 - r)) with q in A by (rewrite V; ring). setoid_replace (y + (x - y) * (1 - r)) with q in B by (rewrite V; ring). lra.
Qed.
(** after the last keyframe's time, and only then, it is over *)
Theorem C117_over a n t : proper a n -> (0 < n)%nat -> 0 <= t ->
  (snd (update (player_new a) t) = RNone <-> sum (durations a) < t).
Proof.
  intros (Ln & Lk & Pos) Hn Ht. unfold update. cbn [player_new anim time snd]. destruct (durations a) as [|dz dl] eqn:Ed; [cbn [length] in Ln; lia|]. rewrite <- Ed in *.
  assert (K : forall ds ks s, Forall (fun d => 0 < d) ds -> ds <> [] -> seek s ds ks = RNone -> sum ds < s).
  { clear. induction ds as [|d ds IH]; intros ks s F N H; [contradiction|]. inversion F as [|x l F0 F']; subst. cbn [seek] in H. destruct (Qlt_le_dec d s) as [X|X].
    - destruct ds as [|d2 ds]; [cbn [sum fold_right]; lra|]. specialize (IH (tl ks) (s - d) F' ltac:(discriminate) H). change (sum (d :: d2 :: ds)) with (d + sum (d2 :: ds)). lra.
    - destruct ks as [|a [|b ks]]; [discriminate|discriminate|]. destruct (Qeq_dec d 0); discriminate. }
  setoid_replace (sum (durations a) < t) with (sum (durations a) < 0 + t) by (split; intros; lra).
  split; [apply K; [exact Pos|rewrite Ed; discriminate]|]. intros H. apply seek_end; [exact Pos|exact H].
Qed.

(** keyframes added with an absolute time are followed by the next one at that time *)
Theorem C117_absolute b k t : sum (durations (add_keyframe_absolute b k t)) == t.
Proof.
  unfold add_keyframe_absolute. cbn [durations]. assert (K : forall l x, sum (l ++ [x]) == sum l + x).
  { induction l as [|z l IH]; intros x; cbn [app sum fold_right]; [ring|]. fold (sum (l ++ [x])) (sum l). rewrite IH. ring. }
  rewrite K. ring.
Qed.

(** But a first segment of length 0 makes the first value undefined (0/0), and an animation of one keyframe panics *)
Theorem C117_refuted_zero_segment x y : snd (update (player_new (finish (add_keyframe builder_new x 0) y)) 0) = RNan.
Proof. unfold update. cbn [player_new anim time snd finish add_keyframe builder_new durations keyframes app]. cbn [seek]. destruct (Qlt_le_dec 0 (0 + 0)) as [X|_]; [exfalso; lra|]. destruct (Qeq_dec 0 0) as [_|X]; [reflexivity|exfalso; apply X; reflexivity]. Qed.
Theorem C117_refuted_one_keyframe x t : snd (update (player_new (finish builder_new x)) t) = RPanic.
Proof. reflexivity. Qed.

(** An animation built keyframe by keyframe has its keyframes and durations in the order given. *)
Theorem C117_as_built : forall (l : list (Q * Q)) k,
  let a := finish (fold_left (fun b kd => add_keyframe b (fst kd) (snd kd)) l builder_new) k in
  durations a = map snd l /\ keyframes a = map fst l ++ [k].
Proof.
  intros l k. cbv zeta. assert (K : forall b, let a := fold_left (fun b kd => add_keyframe b (fst kd) (snd kd)) l b in
    durations a = durations b ++ map snd l /\ keyframes a = keyframes b ++ map fst l).
  { induction l as [|[x d] l IH]; intro b; cbv zeta; cbn [fold_left map]; [rewrite !app_nil_r; split; reflexivity|].
    destruct (IH (add_keyframe b x d)) as [D K]. cbv zeta in D, K. cbn [fst snd]. rewrite D, K. unfold add_keyframe. cbn [durations keyframes]. rewrite <- !app_assoc. split; reflexivity. }
  destruct (K builder_new) as [D K']. cbv zeta in D, K'. unfold finish. cbn [durations keyframes]. rewrite D, K'. split; reflexivity.
Qed.

(** concrete case: 0 to 10 in 2 s, back to 4 in 3 s; after 1 s and 2.5 s more *)
Example ex_C117 : let a := finish (add_keyframe (add_keyframe builder_new 0 2) 10 3) 4 in
  proper a 2 /\ exists q, snd (updates (player_new a) [1; 5 # 2] RNone) = RValue q /\ q == 7.
Proof. cbv zeta. split; [split; [reflexivity|]; split; [reflexivity|]; repeat constructor|]. eexists. split; [reflexivity|]. reflexivity. Qed.

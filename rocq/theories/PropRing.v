(** * Properties C37 (ring retention) and C64 (distinct file types). *)
From Coq Require Import List Bool Lia Arith String.
From Verif Require Import Ring.
Import ListNotations.
Local Open Scope nat_scope.
Local Open Scope list_scope.
Notation length := List.length.

(** ** Specification *)

(** the segment files of a type, in directory order (oldest first: ids grow) *)
Definition segments (t : nat) (d : disk) : list entry := filter (of_type t) (d_files d).
Definition others (t : nat) (d : disk) : list entry := filter (fun e => negb (of_type t e)) (d_files d).

(** nobody else stores files of the ring's type *)
Definition foreign (t : nat) (e : event) : Prop := match e with EOther (OCreate t') => t' <> t | _ => True end.

(** ids in the directory are increasing and below the counter *)
Fixpoint increasing (lo : nat) (l : list entry) : Prop :=
  match l with [] => True | e :: l => lo < e_id e /\ increasing (e_id e) l end.
Definition sane (d : disk) : Prop := increasing 0 (d_files d) /\ Forall (fun e => e_id e <= d_max d) (d_files d).

(** ** Proofs *)
Lemma count_segments t d : count t (d_files d) = length (segments t d).
Proof. reflexivity. Qed.

Lemma add_count t t' d l : count t (d_files (add_file t' d l)) = count t l + (if t' =? t then 1 else 0).
Proof.
  unfold add_file. cbn [d_files]. rewrite count_app. f_equal. unfold count. cbn [filter]. unfold of_type. cbn [e_typ].
  destruct (t' =? t); reflexivity.
Qed.

Lemma new_count c d d' cur : ring_new c d = Some (d', cur) ->
  0 < rc_segs c /\ count (rc_typ c) (d_files d') = cur /\ cur <= rc_segs c /\ cur = Nat.min (count (rc_typ c) (d_files d)) (rc_segs c - 1) + 1.
Proof.
  unfold ring_new. destruct (Nat.eqb_spec (rc_segs c) 0) as [Z|Z]; [discriminate|]. cbv zeta.
  destruct (Nat.ltb_spec (rc_segs c - 1) (count (rc_typ c) (d_files d))) as [L|L]; intros H;
    injection H as <- <-; rewrite add_count, count_dropping, Nat.eqb_refl; lia.
Qed.

Lemma rotate_count c d cur d' cur' : 0 < rc_segs c -> count (rc_typ c) (d_files d) <= cur -> cur <= rc_segs c ->
  ring_rotate c d cur = (d', cur') -> count (rc_typ c) (d_files d') <= cur' /\ cur' <= rc_segs c.
Proof.
  intros H0 H1 H2. unfold ring_rotate. destruct (Nat.leb_spec (rc_segs c) cur) as [L|L]; intros H; injection H as <- <-;
    rewrite add_count, Nat.eqb_refl; [rewrite first_is_dropping, count_dropping|]; lia.
Qed.

Definition good_state (c : ring_config) (s : disk * option nat) : Prop :=
  0 < rc_segs c /\ count (rc_typ c) (d_files (fst s)) <= rc_segs c /\
  match snd s with Some cur => count (rc_typ c) (d_files (fst s)) <= cur /\ cur <= rc_segs c | None => True end.

Lemma other_count t o d : foreign t (EOther o) -> count t (d_files (do_other o d)) <= count t (d_files d).
Proof.
  intros F. destruct o as [t'|p]; cbn [do_other foreign] in *.
  - rewrite add_count. destruct (Nat.eqb_spec t' t); [contradiction|lia].
  - apply count_removed.
Qed.

Lemma step_good c s e s' : foreign (rc_typ c) e -> good_state c s -> estep c s e = Some s' -> good_state c s'.
Proof.
  intros F (P & G1 & G2) H. destruct s as [d r]. cbn [fst snd] in *. unfold good_state.
  destruct e as [| |o| |ok|ok], r as [cur|]; cbn [estep] in H; try discriminate.
  - destruct (ring_new c d) as [[d' cur]|] eqn:E; [|discriminate]. injection H as <-.
    destruct (new_count c d d' cur E) as (A & B & C & _). cbn [fst snd]; split; [|split; [|split]]; lia.
  - destruct (ring_rotate c d cur) as [d' cur'] eqn:E. injection H as <-.
    destruct (rotate_count c d cur d' cur' P (proj1 G2) (proj2 G2) E). cbn [fst snd]; split; [|split; [|split]]; lia.
  - injection H as <-. pose proof (other_count (rc_typ c) o d F). cbn [fst snd]; split; [|split; [|split]]; lia.
  - injection H as <-. pose proof (other_count (rc_typ c) o d F). cbn [fst snd]; split; [|split; [|exact I]]; lia.
  - injection H as <-. cbn [fst snd]; split; [|split; [|exact I]]; lia.
  - injection H as <-. cbn [fst snd]; split; [|split; [|exact I]]; lia.
  - destruct (ring_new c d) as [[d' cur]|] eqn:E; [|discriminate]. injection H as <-.
    destruct (new_count c d d' cur E) as (A & B & C & _). cbn [fst snd]; split; [|split; [|exact I]]; destruct ok; lia.
  - destruct (ring_rotate c d cur) as [d' cur'] eqn:E. injection H as <-.
    destruct (rotate_count c d cur d' cur' P (proj1 G2) (proj2 G2) E). cbn [fst snd]; split; [|split; [|exact I]]; destruct ok; lia.
Qed.

Lemma runs_good c : forall es s s', Forall (foreign (rc_typ c)) es -> good_state c s -> eruns c s es = Some s' -> good_state c s'.
Proof.
  induction es as [|e es IH]; intros s s' F G H; cbn [eruns] in H.
  - injection H as <-. exact G.
  - inversion F as [|x l Fe Fs]; subst. destruct (estep c s e) as [s1|] eqn:E; [|discriminate].
    apply (IH s1 s' Fs (step_good c s e s1 Fe G E) H).
Qed.

(** ** C37, bound.  From any directory whatever, once the ring logger has
    started, and for any history of rollovers, reboots, power losses and
    activity of other users of the file system that do not store files of the
    ring's type, the number of segment files never exceeds the configured one. *)
Theorem C37_never_more_than_configured : forall c d0 es d r,
  Forall (foreign (rc_typ c)) es ->
  eruns c (d0, None) (EBoot :: es) = Some (d, r) ->
  length (segments (rc_typ c) d) <= rc_segs c.
Proof.
  intros c d0 es d r F H. cbn [eruns estep] in H. destruct (ring_new c d0) as [[d1 cur]|] eqn:E; [|discriminate].
  destruct (new_count c d0 d1 cur E) as (A & B & C & _).
  assert (G : good_state c (d1, Some cur)) by (unfold good_state; cbn [fst snd]; split; [|split; [|split]]; lia).
  destruct (runs_good c es _ _ F G H) as (_ & K & _). exact K.
Qed.

(** ** C37, deletions. *)
Lemma inc_weaken : forall l lo lo', lo' <= lo -> increasing lo l -> increasing lo' l.
Proof. destruct l as [|e l]; cbn; intros; [exact I|]. split; [lia|tauto]. Qed.
Lemma inc_filter p : forall l lo, increasing lo l -> increasing lo (filter p l).
Proof.
  induction l as [|e l IH]; intros lo H; cbn; [exact I|]. destruct H as [H1 H2]. destruct (p e); cbn.
  - split; [exact H1|apply IH, H2].
  - apply IH, (inc_weaken l (e_id e)); [lia|exact H2].
Qed.
Lemma inc_all : forall l lo e, increasing lo l -> In e l -> lo < e_id e.
Proof.
  induction l as [|x l IH]; intros lo e H HI; [contradiction|]. destruct H as [H1 H2], HI as [->|HI]; [exact H1|].
  specialize (IH (e_id x) e H2 HI). lia.
Qed.
Lemma inc_split : forall l lo k a b, increasing lo l -> In a (firstn k l) -> In b (skipn k l) -> e_id a < e_id b.
Proof.
  induction l as [|x l IH]; intros lo k a b H Ha Hb; [rewrite firstn_nil in Ha; contradiction|].
  destruct k as [|k]; [contradiction|]. cbn in Ha, Hb. destruct H as [H1 H2]. destruct Ha as [<-|Ha].
  - apply (inc_all l (e_id x) b H2). rewrite <- (firstn_skipn k l). apply in_or_app. right. exact Hb.
  - apply (IH (e_id x) k a b H2 Ha Hb).
Qed.

Lemma own_after t k d : segments t (add_file t d (copy_dropping t k (d_files d))) = skipn k (segments t d) ++ [Entry (S (d_max d)) t].
Proof. unfold segments, add_file. cbn [d_files]. rewrite filter_app, dropping_own. cbn [filter]. unfold of_type at 2. cbn [e_typ]. rewrite Nat.eqb_refl. reflexivity. Qed.
Lemma others_after t k d : others t (add_file t d (copy_dropping t k (d_files d))) = others t d.
Proof. unfold others, add_file. cbn [d_files]. rewrite filter_app, dropping_other. cbn [filter]. unfold of_type at 2. cbn [e_typ]. rewrite Nat.eqb_refl. cbn. apply app_nil_r. Qed.

(** A start or a rollover adds exactly one new segment, deletes [k] segments
    which are the [k] oldest (all their ids are below those of the segments
    kept), and touches no file of another type.  On a start, [k] is exactly
    what the bound demands; on a rollover, at most one segment goes, and only
    when the logger believes the ring to be full. *)
Theorem C37_deletes_only_the_oldest : forall c d, sane d ->
  (forall d' cur, ring_new c d = Some (d', cur) ->
     let k := length (segments (rc_typ c) d) - (rc_segs c - 1) in
     segments (rc_typ c) d' = skipn k (segments (rc_typ c) d) ++ [Entry (S (d_max d)) (rc_typ c)] /\
     others (rc_typ c) d' = others (rc_typ c) d) /\
  (forall cur d' cur', ring_rotate c d cur = (d', cur') ->
     let k := if rc_segs c <=? cur then 1 else 0 in
     segments (rc_typ c) d' = skipn k (segments (rc_typ c) d) ++ [Entry (S (d_max d)) (rc_typ c)] /\
     others (rc_typ c) d' = others (rc_typ c) d) /\
  (forall k gone kept, In gone (firstn k (segments (rc_typ c) d)) -> In kept (skipn k (segments (rc_typ c) d)) -> e_id gone < e_id kept).
Proof.
  intros c d [SI SF]. split; [|split].
  - intros d' cur H. cbv zeta. unfold ring_new in H. destruct (Nat.eqb_spec (rc_segs c) 0) as [Z|Z]; [discriminate|]. cbv zeta in H.
    rewrite count_segments in H.
    destruct (Nat.ltb_spec (rc_segs c - 1) (length (segments (rc_typ c) d))) as [L|L]; injection H as <- <-.
    + rewrite own_after, others_after. split; [|reflexivity]. f_equal. f_equal. lia.
    + rewrite own_after, others_after. split; [|reflexivity]. f_equal. f_equal. lia.
  - intros cur d' cur' H. cbv zeta. unfold ring_rotate in H. destruct (rc_segs c <=? cur); injection H as <- <-.
    + rewrite first_is_dropping, own_after, others_after. split; reflexivity.
    + rewrite <- (dropping_0 (rc_typ c) (d_files d)) at 1. rewrite own_after. split; [reflexivity|].
      rewrite <- (others_after (rc_typ c) 0 d). rewrite dropping_0. reflexivity.
  - intros k gone kept Hg Hk. apply (inc_split _ 0 k gone kept (inc_filter _ _ _ SI) Hg Hk).
Qed.

(** directories stay sane *)
Lemma inc_app : forall l lo e, increasing lo l -> (forall x, In x l -> e_id x < e_id e) -> lo < e_id e -> increasing lo (l ++ [e]).
Proof.
  induction l as [|x l IH]; intros lo e H Hx Hl; cbn; [split; [exact Hl|exact I]|]. destruct H as [H1 H2]. split; [exact H1|].
  apply IH; [exact H2| |apply Hx; left; reflexivity]. intros y Hy. apply Hx. right. exact Hy.
Qed.
Lemma sane_add t d l : sane d -> increasing 0 l -> (forall x, In x l -> In x (d_files d)) -> sane (add_file t d l).
Proof.
  intros [_ SF] I1 Sub. rewrite Forall_forall in SF. split; unfold add_file; cbn [d_files d_max].
  - apply inc_app; [exact I1| |cbn; lia]. intros x Hx. cbn. specialize (SF x (Sub x Hx)). lia.
  - apply Forall_app. split; [|constructor; [cbn; lia|constructor]]. apply Forall_forall. intros x Hx. specialize (SF x (Sub x Hx)). lia.
Qed.
Lemma dropping_in t : forall l k x, In x (copy_dropping t k l) -> In x l.
Proof.
  induction l as [|e l IH]; intros k x H; cbn [copy_dropping In] in *; [exact H|]. destruct (of_type t e && (0 <? k)); [right; apply (IH _ _ H)|].
  destruct H as [H|H]; [left; exact H|right; apply (IH _ _ H)].
Qed.
Lemma dropping_inc t : forall l k lo, increasing lo l -> increasing lo (copy_dropping t k l).
Proof.
  induction l as [|e l IH]; intros k lo H; cbn [copy_dropping]; [exact I|]. destruct H as [H1 H2]. destruct (of_type t e && (0 <? k)).
  - apply IH, (inc_weaken l (e_id e)); [lia|exact H2].
  - cbn. split; [exact H1|apply IH, H2].
Qed.
Lemma sane_new c d d' cur : sane d -> ring_new c d = Some (d', cur) -> sane d'.
Proof.
  intros Sd H. unfold ring_new in H. destruct (rc_segs c =? 0); [discriminate|]. cbv zeta in H.
  destruct (if rc_segs c - 1 <? count (rc_typ c) (d_files d) then _ else _) as [rm cur0]. injection H as <- <-.
  apply sane_add; [exact Sd| |].
  - apply dropping_inc, Sd.
  - intros x. apply dropping_in.
Qed.
Lemma sane_rotate c d cur d' cur' : sane d -> ring_rotate c d cur = (d', cur') -> sane d'.
Proof.
  intros Sd H. unfold ring_rotate in H. destruct (rc_segs c <=? cur); injection H as <- <-.
  - rewrite first_is_dropping. apply sane_add; [exact Sd| |].
    + apply dropping_inc, Sd.
    + intros x. apply dropping_in.
  - apply sane_add; [exact Sd|apply Sd|auto].
Qed.
Theorem C37_directory_stays_ordered : forall c es s s', sane (fst s) -> eruns c s es = Some s' -> sane (fst s').
Proof.
  intros c. induction es as [|e es IH]; intros s s' Sd H; cbn [eruns] in H; [injection H as <-; exact Sd|].
  destruct (estep c s e) as [s1|] eqn:E; [|discriminate]. apply (IH s1 s'); [|exact H]. clear H IH.
  destruct s as [d r]. cbn [fst] in *. destruct e as [| |o| |ok|ok], r as [cur|]; cbn [estep] in E; try discriminate.
  - destruct (ring_new c d) as [[d' cur]|] eqn:EN; [|discriminate]. injection E as <-. apply (sane_new c d d' cur Sd EN).
  - destruct (ring_rotate c d cur) as [d' cur'] eqn:EN. injection E as <-. apply (sane_rotate c d cur d' cur' Sd EN).
  - injection E as <-. cbn [fst]. destruct o as [t|p]; cbn [do_other]; [apply sane_add; [exact Sd|apply Sd|auto]|].
    destruct Sd as [S1 S2]. split; cbn [d_files d_max]; [apply inc_filter, S1|]. rewrite Forall_forall in *. intros x Hx. apply filter_In in Hx. apply S2, Hx.
  - injection E as <-. cbn [fst]. destruct o as [t|p]; cbn [do_other]; [apply sane_add; [exact Sd|apply Sd|auto]|].
    destruct Sd as [S1 S2]. split; cbn [d_files d_max]; [apply inc_filter, S1|]. rewrite Forall_forall in *. intros x Hx. apply filter_In in Hx. apply S2, Hx.
  - injection E as <-. exact Sd.
  - injection E as <-. exact Sd.
  - destruct (ring_new c d) as [[d' cur]|] eqn:EN; [|discriminate]. injection E as <-. destruct ok; [apply (sane_new c d d' cur Sd EN)|exact Sd].
  - destruct (ring_rotate c d cur) as [d' cur'] eqn:EN. injection E as <-. destruct ok; [apply (sane_rotate c d cur d' cur' Sd EN)|exact Sd].
Qed.

(** ** C67.  The segment being written is the newest one.  A rollover does not
    delete it as long as nobody else deletes segments and the ring has at
    least two segments ... *)
Definition no_deletes (e : event) : Prop := match e with EOther (ORemove _) => False | _ => True end.


Definition exact_state (c : ring_config) (s : disk * option nat) : Prop :=
  match snd s with Some cur => count (rc_typ c) (d_files (fst s)) = cur /\ 1 <= cur <= rc_segs c | None => True end.

Lemma step_exact c s e s' : 0 < rc_segs c -> foreign (rc_typ c) e -> no_deletes e -> exact_state c s -> estep c s e = Some s' -> exact_state c s'.
Proof.
  intros P F N G E. destruct s as [d r]. unfold exact_state in *. cbn [fst snd] in *.
  destruct e as [| |o| |ok|ok], r as [cur0|]; cbn [estep] in E; try discriminate.
  - destruct (ring_new c d) as [[d' cur1]|] eqn:EN; [|discriminate]. injection E as <-.
    destruct (new_count c d d' cur1 EN) as (A & B & C & D). cbn [fst snd]. lia.
  - destruct (ring_rotate c d cur0) as [d' cur'] eqn:ER. injection E as <-. cbn [fst snd].
    unfold ring_rotate in ER. destruct (Nat.leb_spec (rc_segs c) cur0) as [L|L]; injection ER as <- <-; rewrite add_count, Nat.eqb_refl.
    + rewrite first_is_dropping, count_dropping. lia.
    + lia.
  - injection E as <-. cbn [fst snd]. destruct o as [t|p]; cbn [do_other foreign no_deletes] in *; [|contradiction].
    rewrite add_count. destruct (Nat.eqb_spec t (rc_typ c)); [contradiction|lia].
  - injection E as <-. exact I.
  - injection E as <-. exact I.
  - injection E as <-. exact I.
  - destruct (ring_new c d) as [[d' cur1]|] eqn:EN; [|discriminate]. injection E as <-. exact I.
  - destruct (ring_rotate c d cur0) as [d' cur'] eqn:ER. injection E as <-. exact I.
Qed.

Lemma runs_exact c : forall es s s', 0 < rc_segs c -> Forall (foreign (rc_typ c)) es -> Forall no_deletes es -> exact_state c s ->
  eruns c s es = Some s' -> exact_state c s'.
Proof.
  induction es as [|e es IH]; intros s s' P F N G H; cbn [eruns] in H.
  - injection H as <-. exact G.
  - inversion F as [|x l Fe Fs]; subst. inversion N as [|x l Ne Ns]; subst.
    destruct (estep c s e) as [s1|] eqn:E; [|discriminate]. apply (IH s1 s' P Fs Ns (step_exact c s e s1 P Fe Ne G E) H).
Qed.

(** The file being written is the newest of the type: the last segment. *)
Theorem C67_rollover_keeps_the_open_segment : forall c d0 es d cur d' cur' before open,
  2 <= rc_segs c -> Forall (foreign (rc_typ c)) es -> Forall no_deletes es ->
  eruns c (d0, None) (EBoot :: es) = Some (d, Some cur) ->
  ring_rotate c d cur = (d', cur') ->
  segments (rc_typ c) d = before ++ [open] ->
  In open (segments (rc_typ c) d').
Proof.
  intros c d0 es d cur d' cur' before open P F N H R Sg.
  assert (G : exact_state c (d, Some cur)).
  { apply (runs_exact c (EBoot :: es) (d0, None)); [lia| | |exact I|exact H]; constructor; try exact I; assumption. }
  unfold exact_state in G. cbn [fst snd] in G. rewrite count_segments in G. unfold ring_rotate in R.
  destruct (Nat.leb_spec (rc_segs c) cur) as [L|L]; injection R as <- <-.
  - rewrite first_is_dropping, own_after. apply in_or_app. left. rewrite Sg in *. rewrite app_length in G. cbn [length] in G.
    destruct before as [|b before]; [cbn in G; lia|]. cbn [app skipn]. apply in_or_app. right. left. reflexivity.
  - rewrite <- (dropping_0 (rc_typ c) (d_files d)). rewrite own_after. cbn [skipn]. rewrite Sg. apply in_or_app. left. apply in_or_app. right. left. reflexivity.
Qed.

(** After a start or a rollover the newest segment is the file just created:
    the file that is open is the last one of the type. *)
Theorem C67_open_segment_is_the_last : forall c d,
  (forall d' cur, ring_new c d = Some (d', cur) -> exists before, segments (rc_typ c) d' = before ++ [Entry (S (d_max d)) (rc_typ c)]) /\
  (forall cur d' cur', ring_rotate c d cur = (d', cur') -> exists before, segments (rc_typ c) d' = before ++ [Entry (S (d_max d)) (rc_typ c)]).
Proof.
  intros c d. split.
  - intros d' cur H. unfold ring_new in H. destruct (rc_segs c =? 0); [discriminate|]. cbv zeta in H.
    destruct (if rc_segs c - 1 <? count (rc_typ c) (d_files d) then _ else _) as [rm cur0]. injection H as <- <-.
    eexists. apply own_after.
  - intros cur d' cur' H. unfold ring_rotate in H. destruct (rc_segs c <=? cur); injection H as <- <-.
    + rewrite first_is_dropping. eexists. apply own_after.
    + rewrite <- (dropping_0 (rc_typ c) (d_files d)). eexists. apply own_after.
Qed.

(** ... and it does delete it otherwise.  The counter of segments is only read
    from the directory at start: when a user removes the finished segments
    (say after downloading them), the counter still says the ring is full,
    and the next rollover removes the very file that was just being written. *)
Definition ring2 := RingConfig 3 2.
Theorem C67_refuted_after_external_deletion : exists d cur d' cur' open,
  eruns ring2 (DiskD [] 0, None) [EBoot; ERotate; EOther (ORemove (fun e => e_id e =? 1))] = Some (d, Some cur) /\
  segments 3 d = [open] /\ ring_rotate ring2 d cur = (d', cur') /\ ~ In open (segments 3 d').
Proof.
  do 5 eexists. split; [reflexivity|]. split; [reflexivity|]. split; [reflexivity|].
  cbn. intros [H|H]; [discriminate H|exact H].
Qed.
Theorem C67_refuted_single_segment : exists d cur d' cur' open,
  eruns (RingConfig 3 1) (DiskD [] 0, None) [EBoot] = Some (d, Some cur) /\
  segments 3 d = [open] /\ ring_rotate (RingConfig 3 1) d cur = (d', cur') /\ ~ In open (segments 3 d').
Proof.
  do 5 eexists. split; [reflexivity|]. split; [reflexivity|]. split; [reflexivity|].
  cbn. intros [H|H]; [discriminate H|exact H].
Qed.

(** ** C37 needs the hypothesis that nobody else stores files of the type:
    two ring loggers of two segments each with one file type hold three
    segments, because the counters are private. *)
Theorem C37_refuted_shared_type : exists d1 c1 d2 c2 d3 c3,
  ring_new ring2 (DiskD [] 0) = Some (d1, c1) /\ ring_new ring2 d1 = Some (d2, c2) /\
  ring_rotate ring2 d2 c1 = (d3, c3) /\ rc_segs ring2 < length (segments 3 d3).
Proof.
  do 6 eexists. split; [reflexivity|]. split; [reflexivity|]. split; [reflexivity|]. cbn. lia.
Qed.

(** A ring of zero segments does not start (u32 underflow in 1 - segments). *)
Theorem C37_zero_segments_panics : forall t d, ring_new (RingConfig t 0) d = None.
Proof. reflexivity. Qed.

(** A non-trivial history: an over-full ring of 4 old segments among other
    files, the logger started with 3 segments, rolled over and power lost. *)
Example ring_example :
  eruns (RingConfig 7 3) (DiskD [Entry 1 7; Entry 2 4; Entry 3 7; Entry 4 7; Entry 6 7] 6, None)
    [EBoot; ERotate; EOther (OCreate 4); ERotatePowerLoss true; EBoot]
  = Some (DiskD [Entry 2 4; Entry 8 7; Entry 9 4; Entry 10 7; Entry 11 7] 11, Some 3).
Proof. reflexivity. Qed.
Example ring_example_sane : sane (DiskD [Entry 1 7; Entry 2 4; Entry 3 7; Entry 4 7; Entry 6 7] 6).
Proof. split; cbn; [intuition lia|repeat (constructor; [cbn; lia|]); constructor]. Qed.

(** ** C64: the file types of the rocket's firmware. *)

(** firmware-common/src/common/file_types.rs:3-30 *)
Definition file_types : list (string * nat) :=
  [("DEVICE_CONFIG_FILE_TYPE"%string, 0);
   ("BENCHMARK_FILE_TYPE"%string, 2);
   ("CALIBRATION_FILE_TYPE"%string, 3);
   ("AVIONICS_SENSORS_FILE_TYPE"%string, 4);
   ("AVIONICS_LOG_FILE_TYPE"%string, 5);
   ("AVIONICS_UP_RIGHT_FILE_TYPE"%string, 6);
   ("GROUND_TEST_LOG_FILE_TYPE"%string, 7);
   ("FLIGHT_PROFILE_FILE_TYPE"%string, 8);
   ("AVIONICS_GPS_LOGGER_TIER_1"%string, 9);
   ("AVIONICS_GPS_LOGGER_TIER_2"%string, 10);
   ("AVIONICS_LOW_G_IMU_LOGGER_TIER_1"%string, 9);
   ("AVIONICS_LOW_G_IMU_LOGGER_TIER_2"%string, 10);
   ("AVIONICS_HIGH_G_IMU_LOGGER_TIER_1"%string, 11);
   ("AVIONICS_HIGH_G_IMU_LOGGER_TIER_2"%string, 12);
   ("AVIONICS_BARO_LOGGER_TIER_1"%string, 13);
   ("AVIONICS_BARO_LOGGER_TIER_2"%string, 14);
   ("AVIONICS_MAG_LOGGER_TIER_1"%string, 15);
   ("AVIONICS_MAG_LOGGER_TIER_2"%string, 16);
   ("AVIONICS_BATTERY_LOGGER_TIER_1"%string, 17);
   ("AVIONICS_BATTERY_LOGGER_TIER_2"%string, 18);
   ("UPRIGHT_VECTOR_AND_GYRO_OFFSET_FILE_TYPE"%string, 19);
   ("GROUND_TEST_BARO_FILE_TYPE"%string, 20);
   ("VACUUM_TEST_LOG_FILE_TYPE"%string, 21);
   ("VACUUM_TEST_BARO_LOGGER"%string, 22);
   ("SG_READINGS"%string, 24);
   ("SG_BATTERY_LOGGER"%string, 25)].

(** the names of the type logged by selecting files with number [n] *)
Definition names_of (n : nat) : list string := map fst (filter (fun p => snd p =? n) file_types).

(** As it is, selecting the files of the GPS logger also gives those of the
    low-g IMU logger, in both tiers (both loggers run on the avionics board,
    avionics/mod.rs:187-195). *)
Theorem C64_refuted_gps_and_imu :
  names_of 9 = ["AVIONICS_GPS_LOGGER_TIER_1"; "AVIONICS_LOW_G_IMU_LOGGER_TIER_1"]%string /\
  names_of 10 = ["AVIONICS_GPS_LOGGER_TIER_2"; "AVIONICS_LOW_G_IMU_LOGGER_TIER_2"]%string.
Proof. split; reflexivity. Qed.

(** Those are the only collisions: any two declarations with the same number
    are the same declaration, or are this pair. *)
Definition pair_ok (p q : string * nat) : bool :=
  negb (snd p =? snd q) || String.eqb (fst p) (fst q) || (snd p =? 9) || (snd p =? 10).
Theorem C64_other_types_distinct_partial : forall n1 n2 k,
  In (n1, k) file_types -> In (n2, k) file_types -> k <> 9 -> k <> 10 -> n1 = n2.
Proof.
  assert (H : forallb (fun p => forallb (pair_ok p) file_types) file_types = true) by reflexivity.
  intros n1 n2 k H1 H2 K9 K10. rewrite forallb_forall in H. specialize (H _ H1). rewrite forallb_forall in H. specialize (H _ H2).
  unfold pair_ok in H. cbn [fst snd] in H. rewrite Nat.eqb_refl in H. cbn [negb orb] in H.
  destruct (Nat.eqb_spec k 9); [contradiction|]. destruct (Nat.eqb_spec k 10); [contradiction|].
  rewrite !orb_false_r in H. apply String.eqb_eq. exact H.
Qed.

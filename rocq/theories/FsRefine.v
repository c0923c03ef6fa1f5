(** * The implementation refines the abstract file store *)
From Coq Require Import Sorted Permutation.
From Verif Require Import Base Majority Flash FS Sectors SectorsProofs ATable TornCode TableCode TableScan TableBuild TableOps DirOps Chains FileIO FileFormat FileWrite WriteOps WriteSpec Disk Sessions DirState OpenOps Append OpenWrite FsSpec FsApi.
Local Open Scope N_scope.
Local Open Scope fs_scope.

(** ** The user's view of entries and contents *)
Lemma view_ids ents : forall C, length ents = length C -> map f_id (user_view ents C) = map e_id ents.
Proof. unfold user_view. induction ents as [|e ents IH]; intros [|c C] H; cbn in *; try lia; [auto|]. f_equal. apply IH. lia. Qed.
Lemma view_length ents C : length ents = length C -> length (user_view ents C) = length ents.
Proof. intros H. unfold user_view. rewrite map_length, combine_length. lia. Qed.
Lemma view_app ents C e c : length ents = length C -> user_view (ents ++ [e]) (C ++ [c]) = user_view ents C ++ [(e_id e, e_typ e, snd c)].
Proof. unfold user_view. revert C. induction ents as [|x ents IH]; intros [|y C] H; cbn in *; try lia; [auto|]. f_equal. apply IH. lia. Qed.
Lemma view_keys ents ents' : forall C C', map (fun e => (e_id e, e_typ e)) ents = map (fun e => (e_id e, e_typ e)) ents' -> map snd C = map snd C' ->
  user_view ents C = user_view ents' C'.
Proof.
  unfold user_view. revert ents'. induction ents as [|x ents IH]; intros [|y ents'] C C' H HC; cbn in H; try discriminate; [reflexivity|].
  destruct C as [|c C], C' as [|c' C']; cbn in HC; try discriminate; [reflexivity|]. cbn [combine map fst snd]. injection H as H1 H2 H3. injection HC as H4 H5.
  f_equal; [congruence|]. apply IH; auto.
Qed.
Lemma sel_view (P : file -> bool) (K : entry -> bool) ents : forall C, length ents = length C -> (forall e d, P (e_id e, e_typ e, d) = K e) ->
  user_view (filter K ents) (sel K ents C) = filter P (user_view ents C).
Proof.
  unfold user_view. induction ents as [|e ents IH]; intros [|c C] H HP; cbn [length] in H; try lia; [reflexivity|]. rewrite sel_cons.
  cbn [combine map filter fst snd]. rewrite HP. destruct (K e); cbn [combine map fst snd]; rewrite IH; auto.
Qed.
Lemma count_view (P : file -> bool) (K : entry -> bool) ents : forall C, length ents = length C -> (forall e d, P (e_id e, e_typ e, d) = K e) ->
  count_if K ents = count P (user_view ents C).
Proof.
  unfold user_view, count_if, count. intros C H HP. f_equal. revert C H. induction ents as [|e ents IH]; intros [|c C] H; cbn [length] in H; try lia; [reflexivity|].
  cbn [combine map filter fst snd]. rewrite HP. destruct (K e); cbn [length]; rewrite (IH C); auto.
Qed.
Lemma max_ids ents mx : maxid mx ents = fold_right N.max mx (map e_id ents).
Proof.
  unfold maxid. assert (K : forall l a b, fold_right N.max (N.max a b) l = N.max b (fold_right N.max a l)).
  { induction l as [|x l IH]; intros a b; cbn [fold_right]; [lia|]. rewrite IH. lia. }
  revert mx. induction ents as [|e ents IH]; intros mx; cbn [fold_left map fold_right]; [reflexivity|]. rewrite IH, K. reflexivity.
Qed.

(** looking a file up by its id *)
Lemma sorted_nodup ents : sorted_ids ents -> NoDup (map e_id ents).
Proof.
  intros S. apply (NoDup_nth_error (map e_id ents)). intros i j Hi E. rewrite map_length in Hi. rewrite !nth_error_map in E.
  destruct (nth_error ents i) as [a|] eqn:Ea; [|apply nth_error_None in Ea; lia]. destruct (nth_error ents j) as [b|] eqn:Eb; [|discriminate].
  cbn in E. injection E as E. eapply sorted_inj; eauto.
Qed.
Lemma find_view ents : forall C i e c, NoDup (map e_id ents) -> nth_error ents i = Some e -> nth_error C i = Some c ->
  find (fun x => f_id x =? e_id e) (user_view ents C) = Some (e_id e, e_typ e, snd c).
Proof.
  unfold user_view. induction ents as [|x ents IH]; intros C i e c N He Hc; [destruct i; discriminate|].
  destruct C as [|y C]; [destruct i; discriminate|]. cbn [combine map find fst snd]. unfold f_id at 1. cbn [fst snd]. inversion N; subst.
  destruct i as [|i]; cbn [nth_error] in He, Hc.
  - injection He as ->. injection Hc as ->. rewrite N.eqb_refl. reflexivity.
  - destruct (N.eqb_spec (e_id x) (e_id e)) as [E|E].
    + exfalso. apply H1. rewrite E. apply in_map. eapply nth_error_In; eauto.
    + eapply IH; eauto.
Qed.
Lemma find_view_none ents id : forall C, (forall e, In e ents -> e_id e <> id) -> find (fun x => f_id x =? id) (user_view ents C) = None.
Proof.
  unfold user_view. induction ents as [|x ents IH]; intros [|y C] H; try reflexivity. cbn [combine map find fst snd]. unfold f_id at 1. cbn [fst snd].
  destruct (N.eqb_spec (e_id x) id) as [E|E]; [exfalso; apply (H x); [left|]; auto|]. apply IH. intros e He. apply H. right; auto.
Qed.
Lemma set_none ents id d : forall C, (forall e, In e ents -> e_id e <> id) -> set_data id d (user_view ents C) = user_view ents C.
Proof.
  unfold user_view, set_data. induction ents as [|x ents IH]; intros [|y C] H; try reflexivity. cbn [combine map fst snd]. unfold f_id at 1. cbn [fst snd].
  destruct (N.eqb_spec (e_id x) id) as [E|E]; [exfalso; apply (H x); [left|]; auto|]. f_equal. apply IH. intros e He. apply H. right; auto.
Qed.
Lemma set_view ents : forall C i e c, NoDup (map e_id ents) -> nth_error ents i = Some e -> (i < length C)%nat ->
  user_view ents (upd C i c) = set_data (e_id e) (snd c) (user_view ents C).
Proof.
  induction ents as [|x ents IH]; intros C i e c N He Hc; [destruct i; discriminate|].
  destruct C as [|y C]; [cbn in Hc; lia|]. inversion N; subst. destruct i as [|i]; cbn [nth_error] in He.
  - injection He as ->. cbn [upd]. unfold user_view, set_data in *. cbn [combine map fst snd]. unfold f_id at 1. cbn [fst snd]. rewrite N.eqb_refl. f_equal.
    symmetry. apply (set_none ents (e_id e) (snd c)). intros e0 H0 E0. apply H1. rewrite <- E0. apply in_map; auto.
  - cbn [upd]. unfold user_view, set_data in *. cbn [combine map fst snd]. unfold f_id at 1. cbn [fst snd].
    destruct (N.eqb_spec (e_id x) (e_id e)) as [E|E]; [exfalso; apply H1; rewrite E; apply in_map; eapply nth_error_In; eauto|].
    f_equal. apply IH; auto. cbn in Hc. lia.
Qed.

(** ** The set of files in use *)
Lemma find_index_split id l k : find_index id l = Some k -> exists a b, l = a ++ id :: b /\ length a = k /\ ~ In id a.
Proof.
  revert k. induction l as [|x l IH]; intros k H; cbn [find_index] in H; [discriminate|].
  destruct (N.eqb_spec x id) as [E|E].
  - injection H as <-. exists [], l. subst. split; [reflexivity|]. split; [reflexivity|intros []].
  - destruct (find_index id l) as [j|] eqn:Ej; [|discriminate]. injection H as <-. destruct (IH j eq_refl) as (a & b & -> & <- & Hn).
    exists (x :: a), b. split; [reflexivity|]. split; [reflexivity|]. intros [->|Hin]; auto.
Qed.
Lemma find_index_none id l : find_index id l = None -> ~ In id l.
Proof.
  induction l as [|x l IH]; cbn [find_index]; intros H; [intros []|]. destruct (N.eqb_spec x id) as [E|E]; [discriminate|].
  destruct (find_index id l); [discriminate|]. intros [->|Hin]; [congruence|]. apply IH; auto.
Qed.
Lemma swap_remove_perm (a b : list N) id : Permutation (swap_remove (a ++ id :: b) (length a)) (a ++ b).
Proof.
  unfold swap_remove. rewrite upd_mid. destruct b as [|z b] using rev_ind.
  - rewrite last_last, removelast_last, app_nil_r. reflexivity.
  - clear IHb. replace (last (a ++ id :: b ++ [z]) 0) with z.
    2:{ rewrite app_comm_cons, app_assoc, last_last. reflexivity. }
    rewrite app_comm_cons, app_assoc, removelast_last. rewrite <- Permutation_middle. rewrite app_assoc. apply Permutation_cons_append.
Qed.
Lemma remove_mid (a b : list N) id : NoDup (a ++ id :: b) -> remove N.eq_dec id (a ++ id :: b) = a ++ b.
Proof.
  intros H. apply NoDup_remove_2 in H. rewrite remove_app. cbn [remove]. destruct (N.eq_dec id id); [|congruence].
  rewrite !notin_remove; auto; intros Hin; apply H; apply in_or_app; auto.
Qed.
Lemma remove_perm (l l' : list N) id : Permutation l l' -> Permutation (remove N.eq_dec id l) (remove N.eq_dec id l').
Proof.
  induction 1; cbn [remove]; auto.
  - destruct (N.eq_dec id x); auto.
  - destruct (N.eq_dec id y), (N.eq_dec id x); auto. apply perm_swap.
  - etransitivity; eauto.
Qed.
Lemma close_list_perm l l' id : Permutation l l' -> NoDup l' -> Permutation (close_list l id) (remove N.eq_dec id l').
Proof.
  intros Hp Hn. assert (Hn0 : NoDup l) by (eapply Permutation_NoDup; [symmetry; exact Hp|auto]).
  rewrite <- (remove_perm _ _ id Hp). unfold close_list. destruct (find_index id l) as [k|] eqn:E.
  - destruct (find_index_split _ _ _ E) as (a & b & -> & <- & _). rewrite remove_mid by auto. apply swap_remove_perm.
  - rewrite notin_remove; [reflexivity|]. apply find_index_none; auto.
Qed.
Lemma nodup_remove (l : list N) id : NoDup l -> NoDup (remove N.eq_dec id l).
Proof.
  induction 1 as [|x l Hx Hn IH]; cbn [remove]; [constructor|]. destruct (N.eq_dec id x); [auto|]. constructor; [|auto].
  intros Hin. apply Hx. apply in_remove in Hin. tauto.
Qed.
Lemma marked_perm l v id : Permutation l (v_open v) -> marked v id = existsb (fun x => x =? id) l.
Proof.
  intros Hp. unfold marked. apply eq_true_iff_eq. rewrite !existsb_exists. split; intros (x & Hx & E); exists x.
  - split; [eapply Permutation_in; [symmetry|]; eauto|]. rewrite N.eqb_sym; auto.
  - split; [eapply Permutation_in; eauto|]. rewrite N.eqb_sym; auto.
Qed.

Lemma upd_length_eq {A} (l : list A) i x : length (upd l i x) = length l.
Proof. revert i. induction l as [|y l IH]; intros [|i]; cbn [upd length]; auto. Qed.
Lemma map_upd {A B} (g : A -> B) l i x : map g (upd l i x) = upd (map g l) i (g x).
Proof. revert i. induction l as [|y l IH]; intros [|i]; cbn [upd map]; auto. rewrite IH. reflexivity. Qed.
Lemma map_without {A B} (g : A -> B) l k : map g (without l k) = without (map g l) k.
Proof. unfold without. rewrite map_app, firstn_map, skipn_map. reflexivity. Qed.
Lemma without_mid {A} (a b : list A) x : without (a ++ x :: b) (length a) = a ++ b.
Proof.
  unfold without. rewrite firstn_app, firstn_all, Nat.sub_diag, firstn_O, app_nil_r. f_equal.
  rewrite skipn_app, skipn_all2 by lia. replace (S (length a) - length a)%nat with 1%nat by lia. reflexivity.
Qed.

Section S.
Variable crc : list byte -> N.
Hypothesis crc_bound : crc32 crc.

Lemma state_perm s p seq ents mx C H W W' : Permutation W W' -> State crc s p seq ents mx C H W -> State crc s p seq ents mx C H W'.
Proof.
  intros Hp [A B D E F G]. constructor; auto.
  - eapply Permutation_Forall; eauto.
  - eapply Permutation_NoDup; [|exact G]. apply Permutation_map. exact Hp.
Qed.

(** ** Representation *)
Record Repr (y : sys) (v : view) : Prop := {
  rr_state : exists p ents C H W, State crc (sfs y) p (v_gen v) ents (v_top v) C H W /\ v_files v = user_view ents C /\
     sws y = map fst W /\ v_wr v = map (fun wc => (w_id (fst wc), snd wc)) W;
  rr_rd : srs y = v_rd v;
  rr_open : Permutation (a_open (atb (sfs y))) (v_open v);
  rr_nodup : NoDup (v_open v) }.

(** a flash that holds the files [F], remembering [top] as the largest id handed out, after [gen] directory changes *)
Definition Kept (f : flash) (F : list file) (top gen : N) : Prop :=
  exists p ents C, Disk crc f p gen ents top C /\ user_view ents C = F.

(** what a power loss during a call leaves; only calls that rewrite the directory may damage the remembered largest id *)
Definition Left (v : view) (c : call) (f : flash) : Prop :=
  exists F top gen, loses v c F /\ Kept f F top gen /\ ((top = v_top v /\ gen = v_gen v) \/ (rewrites c = true /\ gen = v_gen v + 1)).

Lemma full_free s p seq ents mx C H W : State crc s p seq ents mx C H W -> (forall x, data_sector x -> H x) -> free_bytes s = 0.
Proof.
  intros ST Hf. destruct (free_bytes_exact s H (st_al _ _ _ _ _ _ _ _ _ ST)) as (l & _ & Hl & ->).
  destruct l as [|x l]; [reflexivity|]. exfalso. destruct (Hl x) as [Hx _]. destruct (Hx (or_introl eq_refl)) as [Hd Hn]. auto.
Qed.

(** The operations again, for both ways of tearing at once *)
Lemma pair_eq {A} (x : fs * A) s1 s2 r1 r2 : x = (s1, r1) -> x = (s2, r2) -> s2 = s1.
Proof. intros ->. congruence. Qed.
Lemma create_both s p seq ents mx C H W typ : State crc s p seq ents mx C H W ->
  typ < 65535 -> (length ents + 1 < slot_blocks)%nat ->
  let e := new_entry ents mx typ None in
  exists s', (forall te, (te = true -> clean (fl s) p seq) ->
     traced te s s' (fun f' => either crc p seq ents mx C ents C f' \/ either crc p seq ents mx C (ents ++ [e]) (C ++ [([], [])]) f')) /\
   ((create_file typ s = (s', Ok e) /\
     State crc s' (next_slot p) (seq + 1) (ents ++ [e]) (maxid mx ents + 1) (C ++ [([], [])]) H W /\
     clean (fl s') (next_slot p) (seq + 1) /\ a_open (atb s') = a_open (atb s)) \/
    (create_file typ s = (s', Panic) /\ (2 ^ 64 <= seq + 1 \/ 2 ^ 64 <= maxid mx ents + 1))).
Proof.
  intros ST Ht Hl e. destruct (create_op crc false s p seq ents mx C H W typ ST) as (s' & _ & R); auto.
  { intros X. exfalso. exact (Bool.diff_false_true X). }
  exists s'. split; [|exact R]. intros te Hte. destruct (create_op crc te s p seq ents mx C H W typ ST Hte Ht Hl) as (s2 & T2 & R2).
  assert (E : s2 = s').
  { destruct R as [(E1 & _)|(E1 & _)], R2 as [(E2 & _)|(E2 & _)]; exact (pair_eq _ _ _ _ _ E1 E2). }
  rewrite <- E. exact T2.
Qed.
Lemma create_open_both s p seq ents mx C H W typ : State crc s p seq ents mx C H W ->
  typ < 65535 -> (length ents + 1 < slot_blocks)%nat ->
  let e x := new_entry ents mx typ (Some x) in
  exists s', (forall te, (te = true -> clean (fl s) p seq) ->
     traced te s s' (fun f' => either crc p seq ents mx C ents C f' \/ exists x, either crc p seq ents mx C (ents ++ [e x]) (C ++ [([x], [])]) f')) /\
   ((exists x, create_file_and_open_for_write typ s = (s', Ok (e x, x)) /\
     State crc s' (next_slot p) (seq + 1) (ents ++ [e x]) (maxid mx ents + 1) (C ++ [([x], [])]) (add H x) ((new_writer x (e_id (e x)), []) :: W) /\
     clean (fl s') (next_slot p) (seq + 1) /\ a_open (atb s') = a_open (atb s)) \/
    (create_file_and_open_for_write typ s = (s', Panic) /\
      (2 ^ 64 <= seq + 1 \/ 2 ^ 64 <= maxid mx ents + 1 \/ (forall x, data_sector x -> H x)))).
Proof.
  intros ST Ht Hl e. destruct (create_open_op crc false s p seq ents mx C H W typ ST) as (s' & _ & R); auto.
  { intros X. exfalso. exact (Bool.diff_false_true X). }
  exists s'. split; [|exact R]. intros te Hte. destruct (create_open_op crc te s p seq ents mx C H W typ ST Hte Ht Hl) as (s2 & T2 & R2).
  assert (E : s2 = s').
  { destruct R as [(x1 & E1 & _)|(E1 & _)], R2 as [(x2 & E2 & _)|(E2 & _)]; exact (pair_eq _ _ _ _ _ E1 E2). }
  rewrite <- E. exact T2.
Qed.
Lemma remove_both s p seq ents mx C H W flt : State crc s p seq ents mx C H W ->
  let dr := drops (a_open (atb s)) flt in
  let kp := keeps (a_open (atb s)) flt in
  (forall w cur e, In (w, cur) W -> In e ents -> e_id e = w_id w -> kp e = true) ->
  exists s', (forall te, (te = true -> clean (fl s) p seq) -> traced te s s' (either crc p seq ents mx C (filter kp ents) (sel kp ents C))) /\
   ((remove_files flt s = (s', Ok (count_if dr ents, count_if (fun e => flt e && kp e) ents)) /\
     exists H', State crc s' (next_slot p) (seq + 1) (filter kp ents) (maxid mx (filter kp ents)) (sel kp ents C) H' W /\
     clean (fl s') (next_slot p) (seq + 1) /\ a_open (atb s') = a_open (atb s)) \/
    (remove_files flt s = (s', Panic) /\ 2 ^ 64 <= seq + 1)).
Proof.
  intros ST dr kp Hk. destruct (remove_op crc false s p seq ents mx C H W flt ST) as (s' & _ & R); auto.
  { intros X. exfalso. exact (Bool.diff_false_true X). }
  exists s'. split; [|exact R]. intros te Hte. destruct (remove_op crc te s p seq ents mx C H W flt ST Hte Hk) as (s2 & T2 & R2).
  assert (E : s2 = s').
  { destruct R as [(E1 & _)|(E1 & _)], R2 as [(E2 & _)|(E2 & _)]; exact (pair_eq _ _ _ _ _ E1 E2). }
  rewrite <- E. exact T2.
Qed.
Section Writers.
Variables (s : fs) (p seq : N) (ents : list entry) (mx : N) (C : list (list N * list byte)) (H : N -> Prop) (w : writer) (cur : list byte)
  (W : list (writer * list byte)) (i : nat) (e : entry) (l0 : list N) (c0 : list byte).
Hypothesis ST : State crc s p seq ents mx C H ((w, cur) :: W).
Hypothesis He : nth_error ents i = Some e.
Hypothesis Hid : e_id e = w_id w.
Hypothesis Hc : nth_error C i = Some (l0, c0).
Lemma same_index i2 e2 l2 c2 : nth_error ents i2 = Some e2 -> e_id e2 = w_id w -> nth_error C i2 = Some (l2, c2) -> i2 = i /\ c2 = c0.
Proof.
  intros H1 H2 H3. assert (i2 = i).
  { eapply sorted_inj; [apply (dk_sorted _ _ _ _ _ _ _ (st_disk _ _ _ _ _ _ _ _ _ ST))|exact H1|exact He|congruence]. }
  subst i2. split; congruence.
Qed.
Lemma extend_both slice s' r : bytes_ok slice -> extend_from_slice crc w slice s = (s', r) ->
  forall te, traced te s s' (grown crc p seq ents mx C i c0 (c0 ++ cur ++ slice)).
Proof.
  intros Hb E te. destruct (extend_op crc crc_bound te s p seq ents mx C H w cur W slice ST Hb)
    as (i2 & e2 & l2 & c2 & A1 & A2 & A3 & s2 & w2 & cur2 & c2' & H2 & r2 & n2 & E2 & _ & T2 & _).
  destruct (same_index i2 e2 l2 c2 A1 A2 A3) as [-> ->]. rewrite <- (pair_eq _ _ _ _ _ E E2). exact T2.
Qed.
Lemma flush_both s' r : flush crc w s = (s', r) -> forall te, traced te s s' (grown crc p seq ents mx C i c0 (c0 ++ cur)).
Proof.
  intros E te. destruct (flush_op crc crc_bound te s p seq ents mx C H w cur W ST)
    as (i2 & e2 & l2 & c2 & A1 & A2 & A3 & s2 & w2 & r2 & E2 & _ & T2 & _).
  destruct (same_index i2 e2 l2 c2 A1 A2 A3) as [-> ->]. rewrite <- (pair_eq _ _ _ _ _ E E2). exact T2.
Qed.
Lemma close_both s' r : close_writer crc w s = (s', r) -> forall te, traced te s s' (grown crc p seq ents mx C i c0 (c0 ++ cur)).
Proof.
  intros E te. destruct (close_op crc crc_bound te s p seq ents mx C H w cur W ST)
    as (i2 & e2 & l2 & c2 & A1 & A2 & A3 & s2 & E2 & T2 & _).
  destruct (same_index i2 e2 l2 c2 A1 A2 A3) as [-> ->]. rewrite <- (pair_eq _ _ _ _ _ E E2). exact T2.
Qed.
End Writers.

(** whether erases may be torn in this call *)
Lemma lost_mode c y f : power_lost crc c y f -> exists te, (te = true -> torn_erase_ok c y) /\
  exists ops, lg (sfs (fst (perform crc c y))) = lg (sfs y) ++ ops /\ crash_m te (fl (sfs y)) ops f.
Proof.
  intros (ops & A & [Hc|[Ht Hc]]).
  - exists false. split; [intros X; exfalso; exact (Bool.diff_false_true X)|]. exists ops. auto.
  - exists true. split; [auto|]. exists ops. auto.
Qed.
Lemma lost_traced c y f s' (G : flash -> Prop) : sfs (fst (perform crc c y)) = s' ->
  (forall te, (te = true -> torn_erase_ok c y) -> traced te (sfs y) s' G) -> power_lost crc c y f -> G f.
Proof.
  intros Es T Hp. destruct (lost_mode c y f Hp) as (te & Hte & ops' & A' & Hc). destruct (T te Hte) as (ops & A & B & K).
  rewrite Es, A in A'. apply app_inv_head in A'. subst ops'. apply K. exact Hc.
Qed.
Lemma only_ae c y s' (G : flash -> Prop) : (torn_erase_ok c y -> False) -> traced false (sfs y) s' G ->
  forall te, (te = true -> torn_erase_ok c y) -> traced te (sfs y) s' G.
Proof. intros Hn T [] Hte; [destruct (Hn (Hte eq_refl))|exact T]. Qed.
Lemma torn_clean c y p seq ents mx C H W te : State crc (sfs y) p seq ents mx C H W ->
  match c with Create _ | CreateOpen _ | Remove _ => True | _ => False end ->
  (te = true -> torn_erase_ok c y) -> te = true -> clean (fl (sfs y)) p seq.
Proof.
  intros ST Hc Ht E. specialize (Ht E). pose proof (st_at _ _ _ _ _ _ _ _ _ ST) as Ea. unfold clean, next_slot.
  destruct c; try destruct Hc; unfold torn_erase_ok in Ht; rewrite Ea in Ht; exact Ht.
Qed.

(** What a call promises: its reply and the view afterwards; what is left after a power loss during it; and a device is
    reported full only when no sector is free *)
Definition Refined (y : sys) (v : view) (c : call) : Prop :=
  let (y', r) := perform crc c y in
  (exists v', does v c r v' /\ (r <> RPanic -> Repr y' v')) /\
  (forall f, power_lost crc c y f -> Left v c f) /\
  (r = RErr DeviceFull -> free_bytes (sfs y') = 0) /\
  (r = RPanic -> limit64 <= v_gen v + 1 \/ limit64 <= next_id v \/ free_bytes (sfs y) = 0).

Lemma next_id_eq v ents C mx : v_files v = user_view ents C -> length ents = length C -> v_top v = mx -> next_id v = maxid mx ents + 1.
Proof. intros E L T. unfold next_id. rewrite E, view_ids, T, max_ids by auto. lia. Qed.

Lemma stored_either p seq ents mx C D C' f : either crc p seq ents mx C D C' f ->
  (Kept f (user_view ents C) mx seq) \/ (exists m, Kept f (user_view D C') m (seq + 1)).
Proof.
  intros [Dk|(m & Dk)]; [left|right].
  - exists p, ents, C. auto.
  - exists m, (next_slot p), D, C'. auto.
Qed.

Lemma refine_create y v t : Repr y v -> allowed v (Create t) -> Refined y v (Create t).
Proof.
  intros [(p & ents & C & H & W & ST & EF & EW & EV) Hrd Hop Hnd] [Ht Hl]. pose proof (st_disk _ _ _ _ _ _ _ _ _ ST) as Dk.
  pose proof (disk_len _ _ _ _ _ _ _ Dk) as Hlen. rewrite EF, view_length in Hl by auto.
  pose proof (next_id_eq v ents C (v_top v) EF Hlen eq_refl) as Enx.
  destruct (create_both (sfs y) p (v_gen v) ents (v_top v) C H W t ST) as (s' & T & R); auto.
  { unfold slot_blocks. lia. }
  unfold Refined, perform, finish.
  assert (HL : forall f, sfs (fst (perform crc (Create t) y)) = s' -> power_lost crc (Create t) y f ->
     Left v (Create t) f).
  { intros f Es Hp. pose proof (lost_traced (Create t) y f s' _ Es (fun te Hte => T te (torn_clean (Create t) y _ _ _ _ _ _ _ te ST I Hte)) Hp) as G. unfold Left. cbn [loses rewrites]. rewrite EF.
    destruct G as [G|G]; apply stored_either in G; destruct G as [G|(m' & G)].
    - exists (user_view ents C), (v_top v), (v_gen v). auto.
    - exists (user_view ents C), m', (v_gen v + 1). auto.
    - exists (user_view ents C), (v_top v), (v_gen v). auto.
    - eexists _, _, _. split; [|split; [exact G|cbn [rewrites]; auto]]. right. rewrite view_app by auto. rewrite Enx. reflexivity. }
  cbn [perform finish] in HL. unfold finish in HL. destruct R as [(E & ST' & _ & O)|(E & Hs)]; rewrite E in *.
  - split; [|split; [|split]].
    + eexists. split; [left; split; [|reflexivity]; cbn [new_entry e_id]; rewrite Enx; reflexivity|].
      intros _. constructor; cbn [sfs srs sws v_rd v_open v_gen v_top v_files v_wr]; auto.
      * exists (next_slot p), (ents ++ [new_entry ents (v_top v) t None]), (C ++ [([], [])]), H, W. rewrite Enx. split; [exact ST'|].
        split; [|auto]. rewrite view_app, EF by auto. reflexivity.
      * rewrite O. exact Hop.
    + intros f Hp. apply HL; auto.
    + discriminate.
    + discriminate.
  - split; [|split; [|split]].
    + exists v. split; [|congruence]. right. split; [auto|]. rewrite Enx. exact Hs.
    + intros f Hp. apply HL; auto.
    + discriminate.
    + intros _. rewrite Enx. destruct Hs; auto.
Qed.

Lemma refine_create_open y v t : Repr y v -> allowed v (CreateOpen t) -> Refined y v (CreateOpen t).
Proof.
  intros [(p & ents & C & H & W & ST & EF & EW & EV) Hrd Hop Hnd] [Ht Hl]. pose proof (st_disk _ _ _ _ _ _ _ _ _ ST) as Dk.
  pose proof (disk_len _ _ _ _ _ _ _ Dk) as Hlen. rewrite EF, view_length in Hl by auto.
  pose proof (next_id_eq v ents C (v_top v) EF Hlen eq_refl) as Enx.
  destruct (create_open_both (sfs y) p (v_gen v) ents (v_top v) C H W t ST) as (s' & T & R); auto.
  { unfold slot_blocks. lia. }
  unfold Refined, perform, finish.
  assert (HL : forall f, sfs (fst (perform crc (CreateOpen t) y)) = s' -> power_lost crc (CreateOpen t) y f ->
     Left v (CreateOpen t) f).
  { intros f Es Hp. pose proof (lost_traced (CreateOpen t) y f s' _ Es (fun te Hte => T te (torn_clean (CreateOpen t) y _ _ _ _ _ _ _ te ST I Hte)) Hp) as G. unfold Left. cbn [loses rewrites]. rewrite EF.
    destruct G as [G|(x & G)]; apply stored_either in G; destruct G as [G|(m' & G)].
    - exists (user_view ents C), (v_top v), (v_gen v). auto.
    - exists (user_view ents C), m', (v_gen v + 1). auto.
    - exists (user_view ents C), (v_top v), (v_gen v). auto.
    - eexists _, _, _. split; [|split; [exact G|cbn [rewrites]; auto]]. right. rewrite view_app by auto. rewrite Enx. reflexivity. }
  cbn [perform finish] in HL. unfold finish in HL. destruct R as [(x & E & ST' & _ & O)|(E & Hs)]; rewrite E in *.
  - split; [|split; [|split]].
    + eexists. split; [left; split; [|reflexivity]; cbn [fst new_entry e_id]; rewrite Enx; reflexivity|].
      intros _. constructor; cbn [sfs srs sws v_rd v_open v_gen v_top v_files v_wr fst snd]; auto.
      * exists (next_slot p), (ents ++ [new_entry ents (v_top v) t (Some x)]), (C ++ [([x], [])]), (add H x),
          (W ++ [(new_writer x (e_id (new_entry ents (v_top v) t (Some x))), [])]). rewrite Enx. split.
        { eapply state_perm; [|exact ST']. apply Permutation_cons_append. }
        split; [rewrite view_app, EF by auto; reflexivity|]. rewrite !map_app, EW, EV. auto.
      * rewrite O. exact Hop.
    + intros f Hp. apply HL; auto.
    + discriminate.
    + discriminate.
  - split; [|split; [|split]].
    + exists v. split; [|congruence]. right. auto.
    + intros f Hp. apply HL; auto.
    + discriminate.
    + intros _. rewrite Enx. destruct Hs as [Hs|[Hs|Hs]]; auto. right. right. eapply full_free; eauto.
Qed.

Lemma refine_remove y v sel0 : Repr y v -> allowed v (Remove sel0) -> Refined y v (Remove sel0).
Proof.
  intros [(p & ents & C & H & W & ST & EF & EW & EV) Hrd Hop Hnd] Hal. pose proof (st_disk _ _ _ _ _ _ _ _ _ ST) as Dk.
  pose proof (disk_len _ _ _ _ _ _ _ Dk) as Hlen.
  set (flt := fun e => sel0 (e_id e) (e_typ e)).
  assert (Hmk : forall id, existsb (fun x => x =? id) (a_open (atb (sfs y))) = marked v id) by (intros id; symmetry; apply marked_perm; auto).
  assert (Edr : forall e d, goes v sel0 (e_id e, e_typ e, d) = drops (a_open (atb (sfs y))) flt e).
  { intros e d. unfold goes, drops, f_id, f_typ. cbn [fst snd]. rewrite Hmk. reflexivity. }
  assert (Ekp : forall e d, stays v sel0 (e_id e, e_typ e, d) = keeps (a_open (atb (sfs y))) flt e).
  { intros e d. unfold stays, keeps. rewrite Edr. reflexivity. }
  destruct (remove_both (sfs y) p (v_gen v) ents (v_top v) C H W flt ST) as (s' & T & R).
  { intros w cur e Hin He Eid. apply In_nth_error in He. destruct He as (i & He).
    assert (Hi : (i < length C)%nat) by (rewrite <- Hlen; apply nth_error_Some; congruence).
    destruct (nth_error C i) as [c|] eqn:Ec; [|apply nth_error_None in Ec; lia].
    rewrite <- (Ekp e (snd c)). unfold stays. rewrite (Hal (w_id w) cur (e_id e, e_typ e, snd c)); [reflexivity| |].
    - rewrite EV. apply in_map_iff. exists (w, cur). auto.
    - unfold lookup. rewrite EF, <- Eid. eapply find_view; eauto. apply sorted_nodup, (dk_sorted _ _ _ _ _ _ _ Dk). }
  assert (Efil : user_view (filter (keeps (a_open (atb (sfs y))) flt) ents) (sel (keeps (a_open (atb (sfs y))) flt) ents C) = filter (stays v sel0) (v_files v)).
  { rewrite EF. apply sel_view; auto. }
  unfold Refined, perform, finish. fold flt.
  assert (HL : forall f, sfs (fst (perform crc (Remove sel0) y)) = s' -> power_lost crc (Remove sel0) y f ->
     Left v (Remove sel0) f).
  { intros f Es Hp. pose proof (lost_traced (Remove sel0) y f s' _ Es (fun te Hte => T te (torn_clean (Remove sel0) y _ _ _ _ _ _ _ te ST I Hte)) Hp) as G. unfold Left. cbn [loses rewrites].
    apply stored_either in G; destruct G as [G|(m' & G)].
    - exists (user_view ents C), (v_top v), (v_gen v). rewrite EF. auto.
    - eexists _, _, _. split; [|split; [exact G|cbn [rewrites]; auto]]. right. exact Efil. }
  cbn [perform finish] in HL. unfold finish in HL. fold flt in HL. destruct R as [(E & H' & ST' & _ & O)|(E & Hs)]; rewrite E in *.
  - split; [|split; [|split]].
    + eexists. split; [left; split; [|reflexivity]|].
      { cbn [fst snd]. f_equal; rewrite EF; apply count_view; auto.
        intros e d. unfold f_id, f_typ. cbn [fst snd]. unfold flt, keeps, drops. rewrite Hmk. destruct (sel0 _ _), (marked _ _); reflexivity. }
      intros _. constructor; cbn [sfs srs sws v_rd v_open v_gen v_top v_files v_wr]; auto.
      * eexists (next_slot p), _, _, H', W. rewrite <- Efil. split; [|split; [reflexivity|auto]].
        rewrite view_ids, <- max_ids; [exact ST'|]. eapply disk_len. apply (st_disk _ _ _ _ _ _ _ _ _ ST').
      * rewrite O. exact Hop.
    + intros f Hp. apply HL; auto.
    + discriminate.
    + discriminate.
  - split; [|split; [|split]].
    + exists v. split; [|congruence]. right. auto.
    + intros f Hp. apply HL; auto.
    + discriminate.
    + auto.
Qed.

Lemma lookup_some y v p ents mx C H W gen id : State crc y p gen ents mx C H W -> v_files v = user_view ents C ->
  forall i e c, nth_error ents i = Some e -> e_id e = id -> nth_error C i = Some c -> lookup v id = Some (e_id e, e_typ e, snd c).
Proof.
  intros ST EF i e c He <- Hc. unfold lookup. rewrite EF. eapply find_view; eauto.
  apply sorted_nodup, (dk_sorted _ _ _ _ _ _ _ (st_disk _ _ _ _ _ _ _ _ _ ST)).
Qed.

Lemma marked_in l v id : Permutation l (v_open v) -> (In id l <-> marked v id = true).
Proof.
  intros Hp. rewrite (marked_perm l v id Hp), existsb_exists. split.
  - intros H. exists id. split; [auto|apply N.eqb_refl].
  - intros (x & Hx & E). apply N.eqb_eq in E. subst; auto.
Qed.

Lemma same_repr y v : Repr y v -> Repr (mkSys (sfs y) (sws y) (srs y)) v.
Proof. destruct y. auto. Qed.

Lemma stored_now y v : Repr y v -> Kept (fl (sfs y)) (v_files v) (v_top v) (v_gen v).
Proof.
  intros [(p & ents & C & H & W & ST & EF & EW & EV) _ _ _]. exists p, ents, C. split; [apply (st_disk _ _ _ _ _ _ _ _ _ ST)|auto].
Qed.

Lemma lost_quiet c y f s' : sfs (fst (perform crc c y)) = s' -> lg s' = lg (sfs y) -> power_lost crc c y f -> f = fl (sfs y).
Proof.
  intros Es El (ops & A & Hc). rewrite Es, El in A. assert (ops = []).
  { destruct ops; [auto|]. apply (f_equal (@length fop)) in A. rewrite app_length in A. cbn in A. lia. }
  subst ops. destruct Hc as [Hc|[_ Hc]]; inversion Hc; reflexivity.
Qed.

Lemma refine_open_read y v id : Repr y v -> allowed v (OpenRead id) -> Refined y v (OpenRead id).
Proof.
  intros RR _. pose proof (stored_now y v RR) as SN. pose proof RR as [(p & ents & C & H & W & ST & EF & EW & EV) Hrd Hop Hnd].
  pose proof (disk_len _ _ _ _ _ _ _ (st_disk _ _ _ _ _ _ _ _ _ ST)) as Hlen.
  assert (HL : forall s', sfs (fst (perform crc (OpenRead id) y)) = s' -> lg s' = lg (sfs y) -> forall f, power_lost crc (OpenRead id) y f ->
     Left v (OpenRead id) f).
  { intros s' Es El f Hp. rewrite (lost_quiet _ _ _ _ Es El Hp). exists (v_files v), (v_top v), (v_gen v). cbn [loses rewrites]. auto. }
  unfold Refined. cbn [perform] in *. unfold finish in *.
  destruct (open_read_op crc (sfs y) p (v_gen v) ents (v_top v) C H W id ST) as [(E & Hn)|(e & He & Eid & R)].
  { rewrite E in *. split; [|split; [apply (HL (sfs y)); auto|split; discriminate]]. exists v. split; [|intros _; apply same_repr; auto].
    cbn [does]. unfold lookup. rewrite EF, (find_view_none ents id C Hn). auto. }
  apply In_nth_error in He. destruct He as (i & He). assert (Hi : (i < length C)%nat) by (rewrite <- Hlen; apply nth_error_Some; congruence).
  destruct (nth_error C i) as [c|] eqn:Ec; [|apply nth_error_None in Ec; lia].
  pose proof (lookup_some _ v _ _ _ _ _ _ _ id ST EF i e c He Eid Ec) as El.
  pose proof (marked_in (a_open (atb (sfs y))) v id Hop) as Hm. pose proof (Permutation_length Hop) as Hlo.
  destruct R as [(E & Hin)|(Hin & [(E & L)|(s' & E & ST' & O & F & Lg & L)])]; rewrite E in *.
  - split; [|split; [apply (HL (sfs y)); auto|split; discriminate]]. exists v. split; [|intros _; apply same_repr; auto].
    cbn [does]. rewrite El. apply Hm in Hin. rewrite Hin. auto.
  - split; [|split; [apply (HL (sfs y)); auto|split; discriminate]]. exists v. split; [|intros _; apply same_repr; auto].
    cbn [does]. rewrite El. destruct (marked v id); [tauto|]. rewrite <- Hlo. destruct (Nat.leb_spec 32 (length (a_open (atb (sfs y))))); [auto|lia].
  - split; [|split; [apply (HL s'); auto|split; discriminate]]. eexists. split.
    + assert (Em : marked v id = false) by (destruct (marked v id); [exfalso; tauto|auto]).
      cbn [does]. rewrite El, Em, <- Hlo. destruct (Nat.leb_spec 32 (length (a_open (atb (sfs y))))); [exfalso; lia|].
      split; reflexivity.
    + intros _. constructor; cbn [sfs srs sws v_rd v_open v_gen v_top v_files v_wr]; auto.
      * exists p, ents, C, H, W. auto.
      * rewrite Hrd. reflexivity.
      * rewrite O. apply Permutation_app_tail; auto.
      * eapply Permutation_NoDup; [apply Permutation_cons_append|]. constructor; [|auto]. intros X. apply Hin. eapply Permutation_in; [symmetry; exact Hop|auto].
Qed.

Lemma open_lost p seq ents mx C i e l0 c0 f v H W s : State crc s p seq ents mx C H W -> nth_error ents i = Some e -> nth_error C i = Some (l0, c0) ->
  v_files v = user_view ents C -> open_crash crc p seq ents mx C i c0 f ->
  exists kept cut top gen, c0 = kept ++ cut /\ (length cut <= 4016)%nat /\ Kept f (set_data (e_id e) kept (v_files v)) top gen /\ ((top = mx /\ gen = seq) \/ gen = seq + 1).
Proof.
  intros ST He Hc EF (p' & seq' & ents' & mx' & c & d & Dk & Ed & Hd & Ek & Hs).
  exists (snd c), d, mx', seq'. split; [auto|]. split; [auto|]. split; [|auto]. exists p', ents', (upd C i c). split; [exact Dk|].
  rewrite (view_keys ents' ents (upd C i c) (upd C i c) Ek eq_refl). rewrite EF. apply set_view; auto.
  - apply sorted_nodup, (dk_sorted _ _ _ _ _ _ _ (st_disk _ _ _ _ _ _ _ _ _ ST)).
  - apply nth_error_Some. congruence.
Qed.

Lemma refine_open_write y v id : Repr y v -> allowed v (OpenWrite id) -> Refined y v (OpenWrite id).
Proof.
  intros RR Hal. pose proof (stored_now y v RR) as SN. pose proof RR as [(p & ents & C & H & W & ST & EF & EW & EV) Hrd Hop Hnd].
  pose proof (disk_len _ _ _ _ _ _ _ (st_disk _ _ _ _ _ _ _ _ _ ST)) as Hlen.
  pose proof (marked_in (a_open (atb (sfs y))) v id Hop) as Hm. pose proof (Permutation_length Hop) as Hlo.
  assert (Hset : forall d0, lookup v id = None -> set_data id d0 (v_files v) = v_files v).
  { intros d0 Hn. unfold set_data. rewrite <- (map_id (v_files v)) at 2. apply map_ext_in. intros a Ha. pose proof (find_none _ _ Hn a Ha) as Q. cbn in Q. rewrite Q. reflexivity. }
  assert (HL0 : sfs (fst (perform crc (OpenWrite id) y)) = sfs y -> forall f, power_lost crc (OpenWrite id) y f ->
     Left v (OpenWrite id) f).
  { intros Es f Hp. rewrite (lost_quiet _ _ _ _ Es eq_refl Hp). exists (v_files v), (v_top v), (v_gen v). cbn [loses rewrites]. split; [|auto].
    destruct (lookup v id) as [x|] eqn:El; [|auto]. exists (f_data x), []. rewrite app_nil_r. split; [auto|]. split; [cbn; lia|].
    unfold set_data. rewrite <- (map_id (v_files v)) at 1. apply map_ext_in. intros a Ha. destruct (N.eqb_spec (f_id a) id) as [E|E]; [|auto].
    assert (Ea : a = x).
    { unfold lookup in El. apply find_some in El. destruct El as [Hx Ex]. apply N.eqb_eq in Ex.
      assert (ND : NoDup (map f_id (v_files v))). { rewrite EF, view_ids by auto. apply sorted_nodup, (dk_sorted _ _ _ _ _ _ _ (st_disk _ _ _ _ _ _ _ _ _ ST)). }
      clear - ND Ha Hx Ex E. revert ND Ha Hx. induction (v_files v) as [|z l IH]; intros ND Ha Hx; [destruct Ha|]. cbn [map] in ND. inversion ND; subst.
      destruct Ha as [->|Ha], Hx as [->|Hx]; auto.
      - exfalso. apply H1. apply in_map_iff. exists x. split; [congruence|auto].
      - exfalso. apply H1. apply in_map_iff. exists a. split; [congruence|auto]. }
    subst a. destruct x as [[a1 a2] a3]. reflexivity. }
  unfold Refined. cbn [perform] in *. unfold finish in *.
  destruct (open_write_op crc (sfs y) p (v_gen v) ents (v_top v) C H W id ST) as [(E & Hn)|(i & e & l0 & c0 & He & Eid & Ec & R)].
  { intros Hnin w cur Hin Ew. apply (Hal ltac:(destruct (marked v id); [tauto|auto])). rewrite EV, map_map. apply in_map_iff. exists (w, cur). auto. }
  { rewrite E in *. split; [|split; [apply HL0; auto|split; discriminate]]. exists v. split; [|intros _; apply same_repr; auto].
    cbn [does]. unfold lookup. rewrite EF, (find_view_none ents id C Hn). auto. }
  pose proof (lookup_some _ v _ _ _ _ _ _ _ id ST EF i e (l0, c0) He Eid Ec) as El.
  destruct R as [(E & Hin)|(Hin & [(E & L)|(L & s' & T & R)])].
  - rewrite E in *. split; [|split; [apply HL0; auto|split; discriminate]]. exists v. split; [|intros _; apply same_repr; auto].
    cbn [does]. rewrite El. apply Hm in Hin. rewrite Hin. auto.
  - rewrite E in *. split; [|split; [apply HL0; auto|split; discriminate]]. exists v. split; [|intros _; apply same_repr; auto].
    cbn [does]. rewrite El. destruct (marked v id); [tauto|]. rewrite <- Hlo. destruct (Nat.leb_spec 32 (length (a_open (atb (sfs y))))); [auto|lia].
  - assert (Em : marked v id = false) by (destruct (marked v id); [tauto|auto]).
    assert (Elt : (32 <=? length (v_open v))%nat = false) by (rewrite <- Hlo; apply Nat.leb_gt; lia).
    assert (HL : sfs (fst (perform crc (OpenWrite id) y)) = s' -> forall f, power_lost crc (OpenWrite id) y f ->
       Left v (OpenWrite id) f).
    { intros Es f Hp. pose proof (lost_traced (OpenWrite id) y f s' _ Es (only_ae (OpenWrite id) y s' _ (fun X => X) T) Hp) as G.
      destruct (open_lost p (v_gen v) ents (v_top v) C i e l0 c0 f v H W (sfs y) ST He Ec EF G) as (kept & cut & top & gen & A1 & A2 & A3 & A4).
      exists (set_data id kept (v_files v)), top, gen. rewrite Eid in A3. split; [|split; [exact A3|cbn [rewrites]; tauto]]. cbn [loses]. rewrite El. exists kept, cut. auto. }
    cbn [perform] in HL. unfold finish in HL.
    assert (Hopn : forall op, op = a_open (atb (sfs y)) ++ [id] -> Permutation op (v_open v ++ [id])) by (intros op ->; apply Permutation_app_tail; auto).
    assert (Hndn : NoDup (v_open v ++ [id])).
    { eapply Permutation_NoDup; [apply Permutation_cons_append|]. constructor; [|auto]. intros X. apply Hin. eapply Permutation_in; [symmetry; exact Hop|auto]. }
    destruct R as [(E & (H' & ST' & Hfull) & O & _)|[(E & Hs)|(x & p' & seq' & ents' & mx' & C' & H' & E & ST' & O & Ek & Es & Hg & _)]]; rewrite E in *.
    + split; [|split; [apply HL; auto|split; [|discriminate]]].
      * eexists. split; [cbn [does]; rewrite El, Em, Elt; left; split; reflexivity|]. intros _.
        constructor; cbn [sfs srs sws v_rd v_open v_gen v_top v_files v_wr]; auto. exists p, ents, C, H', W. auto.
      * intros _. cbn [sfs]. eapply full_free; eauto.
    + split; [|split; [apply HL; auto|split; [discriminate|auto]]]. exists v. split; [|congruence]. cbn [does]. rewrite El, Em, Elt. right. left. auto.
    + split; [|split; [apply HL; auto|split; discriminate]]. eexists. split.
      * cbn [does]. rewrite El, Em, Elt. right. right. split; [reflexivity|]. exists mx', seq'. split; [reflexivity|].
        rewrite EF, view_ids, <- max_ids by auto. destruct Hg as [[-> ->]|[-> ->]]; auto.
      * intros _. constructor; cbn [sfs srs sws v_rd v_open v_gen v_top v_files v_wr]; auto.
        exists p', ents', C', H', (W ++ [(new_writer x id, [])]). split; [eapply state_perm; [apply Permutation_cons_append|exact ST']|].
        split; [rewrite EF; apply view_keys; auto|]. rewrite !map_app, EW, EV. auto.
Qed.

Lemma writer_at (y : sys) (v : view) (W : list (writer * list byte)) k id pend : sws y = map fst W -> v_wr v = map (fun wc => (w_id (fst wc), snd wc)) W ->
  nth_error (v_wr v) k = Some (id, pend) -> exists w A B, W = A ++ (w, pend) :: B /\ length A = k /\ w_id w = id /\ nth_error (sws y) k = Some w.
Proof.
  intros EW EV Hk. rewrite EV, nth_error_map in Hk. destruct (nth_error W k) as [[w cur]|] eqn:E; [|discriminate]. cbn in Hk. injection Hk as H1 H2.
  assert (E' := E). apply nth_error_mid in E. destruct E as (A & B & -> & <-). exists w, A, B. subst cur. split; [auto|]. split; [auto|]. split; [auto|].
  rewrite EW, nth_error_map, E'. reflexivity.
Qed.

Lemma wr_upd (A B : list (writer * list byte)) w cur w' cur' : 
  map (fun wc => (w_id (fst wc), snd wc)) (A ++ (w', cur') :: B) = upd (map (fun wc => (w_id (fst wc), snd wc)) (A ++ (w, cur) :: B)) (length A) (w_id w', cur').
Proof. rewrite !map_app. cbn [map fst snd]. rewrite <- (map_length (fun wc => (w_id (fst wc), snd wc)) A), upd_mid. reflexivity. Qed.
Lemma ws_upd (A B : list (writer * list byte)) w cur w' cur' : map fst (A ++ (w', cur') :: B) = upd (map fst (A ++ (w, cur) :: B)) (length A) w'.
Proof. rewrite !map_app. cbn [map fst]. rewrite <- (map_length fst A), upd_mid. reflexivity. Qed.

Lemma data_lost p seq ents mx C i e l0 c0 base all f v H W s : State crc s p seq ents mx C H W -> nth_error ents i = Some e -> nth_error C i = Some (l0, c0) ->
  v_files v = user_view ents C -> grown crc p seq ents mx C i base all f ->
  exists data, begins base data /\ begins data all /\ Kept f (set_data (e_id e) data (v_files v)) mx seq.
Proof.
  intros ST He Hc EF (c & Dk & A & B). exists (snd c). split; [exact A|]. split; [exact B|]. exists p, ents, (upd C i c). split; [exact Dk|].
  rewrite EF. apply set_view; auto.
  - apply sorted_nodup, (dk_sorted _ _ _ _ _ _ _ (st_disk _ _ _ _ _ _ _ _ _ ST)).
  - apply nth_error_Some. congruence.
Qed.

Lemma refine_append y v k d : Repr y v -> allowed v (Append k d) -> Refined y v (Append k d).
Proof.
  intros RR [Hd Hk]. pose proof RR as [(p & ents & C & H & W & ST & EF & EW & EV) Hrd Hop Hnd].
  destruct (nth_error (v_wr v) k) as [[id pend]|] eqn:Ek; [|apply nth_error_None in Ek; lia].
  destruct (writer_at y v W k id pend EW EV Ek) as (w & A & B & EWW & Lk & Eid & Enw).
  assert (ST1 : State crc (sfs y) p (v_gen v) ents (v_top v) C H ((w, pend) :: A ++ B)).
  { eapply state_perm; [|exact ST]. rewrite EWW. symmetry. apply Permutation_middle. }
  destruct (extend_op crc crc_bound false (sfs y) p (v_gen v) ents (v_top v) C H w pend (A ++ B) d ST1 Hd)
    as (i & e & l0 & c0 & He & Eie & Ec & s' & w' & cur' & c' & H' & r & n & E & ST' & T & Ew' & Hpre & Ecat & Hlen & Hr & Ea).
  assert (Eei : e_id e = id) by congruence.
  pose proof (lookup_some _ v _ _ _ _ _ _ _ id ST EF i e (l0, c0) He Eei Ec) as El.
  assert (HL : sfs (fst (perform crc (Append k d) y)) = s' -> forall f, power_lost crc (Append k d) y f ->
     Left v (Append k d) f).
  { intros Es f Hp. pose proof (lost_traced (Append k d) y f s' _ Es (fun te _ => extend_both _ _ _ _ _ _ _ _ _ _ _ _ _ _ ST1 He Eie Ec d s' _ Hd E te) Hp) as G.
    destruct (data_lost p (v_gen v) ents (v_top v) C i e l0 c0 _ _ f v H W (sfs y) ST He Ec EF G) as (data & A1 & A2 & A3). rewrite Eei in A3.
    eexists _, _, _. split; [|split; [exact A3|auto]]. cbn [loses]. rewrite Ek. exists (e_id e, e_typ e, c0), data. auto. }
  unfold Refined. cbn [perform] in *. rewrite Enw in *. unfold finish in *. rewrite E in *. cbn [fst snd] in *.
  split; [|split; [apply HL; auto|split]].
  - eexists. split.
    + cbn [does]. rewrite Ek. exists (e_id e, e_typ e, c0), (snd c'), cur', n. split; [exact El|]. split; [exact Hpre|]. split; [exact Ecat|]. split; [lia|].
      split; [reflexivity|]. destruct Hr as [[-> ->]|[-> _]]; auto.
    + intros _. constructor; cbn [sfs srs sws v_rd v_open v_gen v_top v_files v_wr]; auto.
      * exists p, ents, (upd C i c'), H', (A ++ (w', cur') :: B). split; [eapply state_perm; [apply Permutation_middle|exact ST']|].
        split; [|split].
        -- rewrite EF, <- Eei. symmetry. apply set_view; [|auto|apply nth_error_Some; congruence]. apply sorted_nodup, (dk_sorted _ _ _ _ _ _ _ (st_disk _ _ _ _ _ _ _ _ _ ST)).
        -- rewrite EW, EWW, <- Lk. symmetry. apply ws_upd.
        -- rewrite EV, EWW, <- Lk, <- Eid, <- Ew'. symmetry. apply wr_upd.
      * rewrite Ea. exact Hop.
  - intros Hr'. cbn [sfs]. destruct Hr as [[-> _]|[-> Hfull]]; [discriminate|]. eapply full_free; eauto.
  - destruct r; discriminate.
Qed.

Lemma refine_flush y v k : Repr y v -> allowed v (Flush k) -> Refined y v (Flush k).
Proof.
  intros RR Hk. cbn [allowed] in Hk. pose proof RR as [(p & ents & C & H & W & ST & EF & EW & EV) Hrd Hop Hnd].
  destruct (nth_error (v_wr v) k) as [[id pend]|] eqn:Ek; [|apply nth_error_None in Ek; lia].
  destruct (writer_at y v W k id pend EW EV Ek) as (w & A & B & EWW & Lk & Eid & Enw).
  assert (ST1 : State crc (sfs y) p (v_gen v) ents (v_top v) C H ((w, pend) :: A ++ B)).
  { eapply state_perm; [|exact ST]. rewrite EWW. symmetry. apply Permutation_middle. }
  destruct (flush_op crc crc_bound false (sfs y) p (v_gen v) ents (v_top v) C H w pend (A ++ B) ST1)
    as (i & e & l0 & c0 & He & Eie & Ec & s' & w' & r & E & Ew' & T & Hr).
  assert (Eei : e_id e = id) by congruence.
  pose proof (lookup_some _ v _ _ _ _ _ _ _ id ST EF i e (l0, c0) He Eei Ec) as El.
  assert (HL : sfs (fst (perform crc (Flush k) y)) = s' -> forall f, power_lost crc (Flush k) y f ->
     Left v (Flush k) f).
  { intros Es f Hp. pose proof (lost_traced (Flush k) y f s' _ Es (fun te _ => flush_both _ _ _ _ _ _ _ _ _ _ _ _ _ _ ST1 He Eie Ec s' _ E te) Hp) as G.
    destruct (data_lost p (v_gen v) ents (v_top v) C i e l0 c0 _ _ f v H W (sfs y) ST He Ec EF G) as (data & A1 & A2 & A3). rewrite Eei in A3.
    eexists _, _, _. split; [|split; [exact A3|auto]]. cbn [loses]. rewrite Ek. exists (e_id e, e_typ e, c0), data. auto. }
  unfold Refined. cbn [perform] in *. rewrite Enw in *. unfold finish in *. rewrite E in *. cbn [fst snd] in *.
  split; [|split; [apply HL; auto|split]].
  - destruct Hr as [(-> & l' & H' & ST' & Ea)|(-> & -> & -> & Hfull)].
    + eexists. split.
      * cbn [does]. rewrite Ek. exists (e_id e, e_typ e, c0). split; [exact El|]. left. split; reflexivity.
      * intros _. constructor; cbn [sfs srs sws v_rd v_open v_gen v_top v_files v_wr]; auto.
        -- exists p, ents, (upd C i (l', c0 ++ pend)), H', (A ++ (w', []) :: B). split; [eapply state_perm; [apply Permutation_middle|exact ST']|].
           split; [|split].
           ++ rewrite EF, <- Eei. symmetry. apply (set_view ents C i e (l', c0 ++ pend)); [|auto|apply nth_error_Some; congruence].
              apply sorted_nodup, (dk_sorted _ _ _ _ _ _ _ (st_disk _ _ _ _ _ _ _ _ _ ST)).
           ++ rewrite EW, EWW, <- Lk. symmetry. apply ws_upd.
           ++ rewrite EV, EWW, <- Lk, <- Eid, <- Ew'. symmetry. apply wr_upd.
        -- rewrite Ea. exact Hop.
    + exists v. split; [cbn [does]; rewrite Ek; exists (e_id e, e_typ e, c0); auto|]. intros _.
      assert (Eu : upd (sws y) k w = sws y) by (apply upd_same; auto). rewrite Eu. apply same_repr. exact RR.
  - intros Hr'. cbn [sfs]. destruct Hr as [[-> _]|(-> & -> & -> & Hfull)]; [discriminate|]. eapply full_free; eauto.
  - destruct r; discriminate.
Qed.

Lemma refine_close y v k : Repr y v -> allowed v (CloseWriter k) -> Refined y v (CloseWriter k).
Proof.
  intros RR Hk. cbn [allowed] in Hk. pose proof RR as [(p & ents & C & H & W & ST & EF & EW & EV) Hrd Hop Hnd].
  destruct (nth_error (v_wr v) k) as [[id pend]|] eqn:Ek; [|apply nth_error_None in Ek; lia].
  destruct (writer_at y v W k id pend EW EV Ek) as (w & A & B & EWW & Lk & Eid & Enw).
  assert (ST1 : State crc (sfs y) p (v_gen v) ents (v_top v) C H ((w, pend) :: A ++ B)).
  { eapply state_perm; [|exact ST]. rewrite EWW. symmetry. apply Permutation_middle. }
  destruct (close_op crc crc_bound false (sfs y) p (v_gen v) ents (v_top v) C H w pend (A ++ B) ST1)
    as (i & e & l0 & c0 & He & Eie & Ec & s' & E & T & ST' & Ea).
  assert (Eei : e_id e = id) by congruence.
  pose proof (lookup_some _ v _ _ _ _ _ _ _ id ST EF i e (l0, c0) He Eei Ec) as El.
  assert (HL : sfs (fst (perform crc (CloseWriter k) y)) = s' -> forall f, power_lost crc (CloseWriter k) y f ->
     Left v (CloseWriter k) f).
  { intros Es f Hp. pose proof (lost_traced (CloseWriter k) y f s' _ Es (fun te _ => close_both _ _ _ _ _ _ _ _ _ _ _ _ _ _ ST1 He Eie Ec s' _ E te) Hp) as G.
    destruct (data_lost p (v_gen v) ents (v_top v) C i e l0 c0 _ _ f v H W (sfs y) ST He Ec EF G) as (data & A1 & A2 & A3). rewrite Eei in A3.
    eexists _, _, _. split; [|split; [exact A3|auto]]. cbn [loses]. rewrite Ek. exists (e_id e, e_typ e, c0), data. auto. }
  unfold Refined. cbn [perform] in *. rewrite Enw in *. unfold finish in *. rewrite E in *. cbn [fst snd] in *.
  split; [|split; [apply HL; auto|split; discriminate]].
  eexists. split.
  - cbn [does]. rewrite Ek. exists (e_id e, e_typ e, c0). split; [exact El|]. split; reflexivity.
  - intros _. constructor; cbn [sfs srs sws v_rd v_open v_gen v_top v_files v_wr]; auto.
    + exists p, ents, (upd C i (l0, c0 ++ pend)), H, (A ++ B). split; [exact ST'|].
      split; [|split].
      * rewrite EF, <- Eei. symmetry. apply (set_view ents C i e (l0, c0 ++ pend)); [|auto|apply nth_error_Some; congruence].
        apply sorted_nodup, (dk_sorted _ _ _ _ _ _ _ (st_disk _ _ _ _ _ _ _ _ _ ST)).
      * rewrite EW, EWW, <- Lk, <- map_without, without_mid. reflexivity.
      * rewrite EV, EWW, <- Lk, <- map_without, without_mid. reflexivity.
    + rewrite Ea, Eid. apply close_list_perm; auto.
    + apply nodup_remove. auto.
Qed.

Lemma refine_close_reader y v k : Repr y v -> allowed v (CloseReader k) -> Refined y v (CloseReader k).
Proof.
  intros RR Hk. cbn [allowed] in Hk. pose proof (stored_now y v RR) as SN. pose proof RR as [(p & ents & C & H & W & ST & EF & EW & EV) Hrd Hop Hnd].
  destruct (nth_error (v_rd v) k) as [id|] eqn:Ek; [|apply nth_error_None in Ek; lia].
  assert (Ek' : nth_error (srs y) k = Some id) by congruence.
  assert (HL : forall s', sfs (fst (perform crc (CloseReader k) y)) = s' -> lg s' = lg (sfs y) -> forall f, power_lost crc (CloseReader k) y f ->
     Left v (CloseReader k) f).
  { intros s' Es El f Hp. rewrite (lost_quiet _ _ _ _ Es El Hp). exists (v_files v), (v_top v), (v_gen v). cbn [loses rewrites]. auto. }
  unfold Refined. cbn [perform] in *. rewrite Ek' in *. unfold finish in *. rewrite mark_closed_eq in *. cbn [fst snd sfs] in *.
  split; [|split; [eapply HL; reflexivity|split; discriminate]]. eexists. split.
  - cbn [does]. rewrite Ek. split; reflexivity.
  - intros _. constructor; cbn [sfs srs sws v_rd v_open v_gen v_top v_files v_wr]; auto.
    + exists p, ents, C, H, W. split; [apply state_reopen; exact ST|]. auto.
    + rewrite Hrd. reflexivity.
    + cbn [set_at atb a_open]. apply close_list_perm; auto.
    + apply nodup_remove. auto.
Qed.

Theorem refines y v c : Repr y v -> allowed v c -> Refined y v c.
Proof.
  destruct c.
  - apply refine_create.
  - apply refine_create_open.
  - apply refine_remove.
  - apply refine_open_write.
  - apply refine_open_read.
  - apply refine_append.
  - apply refine_flush.
  - apply refine_close.
  - apply refine_close_reader.
Qed.
End S.

(** * C104: listing and pulling all files of a type. *)
From Coq Require Import Sorted Permutation.
From Verif Require Import Base Majority Flash FS Sectors SectorsProofs ATable TornCode TableCode TableScan TableBuild TableOps DirOps Chains FileIO FileFormat FileWrite WriteOps WriteSpec Disk Sessions DirState OpenOps Append OpenWrite FsSpec FsApi FsRefine FsBoot FsHistory PropDirectory PropFiles Iter PropIter FsExec FsExamples Console PropConsole PullAll.
Local Open Scope N_scope.
Local Open Scope fs_scope.

(** ** Specification *)
(** the files of type [t] (of any type for [None]), oldest first: id and contents *)
Definition files_of (t : option N) (F : list file) : list (N * list byte) :=
  map (fun x => (f_id x, f_data x)) (filter (fun x => match t with Some t => f_typ x =? t | None => true end) F).

(** [fuel] is enough for every file and for the list *)
Definition enough (fuel : nat) (F : list file) : Prop := (length F < fuel)%nat /\ forall x, In x F -> (length (f_data x) + CHUNK - 1 < CHUNK * fuel)%nat.

(** ** Proofs *)
Definition above (sel : N -> N -> bool) (m : N) (ents : list entry) : list entry := filter (fun e => (m <? e_id e) && sel (e_id e) (e_typ e)) ents.

Lemma above_none sel m ents : (forall e, In e ents -> m < e_id e -> sel (e_id e) (e_typ e) = true -> False) -> above sel m ents = [].
Proof.
  unfold above. induction ents as [|e l IH]; intros H; [reflexivity|]. cbn [filter].
  rewrite IH by (intros x Hx; apply H; right; exact Hx).
  destruct (N.ltb_spec m (e_id e)) as [C|C]; [|reflexivity]. destruct (sel (e_id e) (e_typ e)) eqn:Es; [|reflexivity].
  exfalso. apply (H e (or_introl eq_refl) C Es).
Qed.

Lemma above_some sel m ents e : sorted_ids ents -> In e ents -> m < e_id e -> sel (e_id e) (e_typ e) = true ->
  (forall x, In x ents -> m < e_id x <= e_id e -> sel (e_id x) (e_typ x) = true -> x = e) ->
  above sel m ents = e :: above sel (e_id e) ents.
Proof.
  intros Hs. unfold sorted_ids in Hs. induction Hs as [|x l Hs IH Hf]; intros Hin Hm Hsel Hu; [destruct Hin|].
  unfold above in *. cbn [filter]. destruct Hin as [->|Hin].
  - apply N.ltb_lt in Hm. rewrite Hm, Hsel, N.ltb_irrefl. cbn [andb]. f_equal. apply filter_ext_in. intros y Hy. rewrite Forall_forall in Hf.
    specialize (Hf y Hy). apply N.ltb_lt in Hm. destruct (N.ltb_spec m (e_id y)), (N.ltb_spec (e_id e) (e_id y)); try lia; reflexivity.
  - rewrite Forall_forall in Hf. pose proof (Hf e Hin) as Hlt.
    destruct (N.ltb_spec (e_id e) (e_id x)); [lia|]. cbn [andb].
    destruct (N.ltb_spec m (e_id x)) as [C|C]; cbn [andb].
    + destruct (sel (e_id x) (e_typ x)) eqn:Ex; [exfalso|].
      * rewrite (Hu x (or_introl eq_refl)) in Hlt; [lia|lia|exact Ex].
      * apply IH; auto. intros y Hy. apply Hu. right. exact Hy.
    + apply IH; auto. intros y Hy. apply Hu. right. exact Hy.
Qed.

Lemma list_loop_spec s ents t : (forall i e, nth_error ents i = Some e -> entry_at s (N.of_nat i) = Ok e) ->
  a_count (atb s) = N.of_nat (length ents) -> sorted_ids ents ->
  forall fuel m last, tracks ents m last -> (length (above (of_type t) m ents) < fuel)%nat ->
  list_loop fuel t s last = Some (map e_id (above (of_type t) m ents)).
Proof.
  intros Hread Hcount Hsort. induction fuel as [|fuel IH]; intros m last T L; [lia|]. cbn [list_loop]. unfold get_listed_file.
  destruct (concurrent_next_spec s ents Hread Hcount Hsort (of_type t) m last T) as (r & last' & m' & E & Hm & T' & _ & Hsk & Hres).
  rewrite E. destruct r as [e|].
  - destruct Hres as (Hin & <- & Hlt & Hs).
    assert (A : above (of_type t) m ents = e :: above (of_type t) (e_id e) ents).
    { apply above_some; auto. intros x Hx Hr Hx2. specialize (Hsk x Hx Hr Hx2). injection Hsk as <-. reflexivity. }
    rewrite A in *. cbn [length map] in *. rewrite (IH _ _ T' ltac:(lia)). reflexivity.
  - rewrite above_none; [reflexivity|]. intros e He Hme Hs. specialize (Hsk e He (conj Hme (Hres e He)) Hs). discriminate.
Qed.

Lemma above_zero sel ents : (forall e, In e ents -> 0 < e_id e) -> above sel 0 ents = filter (fun e => sel (e_id e) (e_typ e)) ents.
Proof. intros H. apply filter_ext_in. intros e He. specialize (H e He). apply N.ltb_lt in H. rewrite H. reflexivity. Qed.

Lemma open_exact id s s' r : open_file_for_read id s = (s', Ok r) ->
  s' = set_at s (mkAT (a_seq (atb s)) (a_count (atb s)) (a_max (atb s)) (a_pos (atb s)) (a_open (atb s) ++ [id])).
Proof.
  unfold open_file_for_read. intros E. apply bind_inv in E. destruct E as (s1 & o & E1 & E). apply find_same in E1. subst s1.
  destruct o as [[e i]|]; [|discriminate]. apply bind_inv in E. destruct E as (s2 & b & E2 & E). unfold is_file_opened in E2. rewrite bind_get in E2. injection E2 as <- _.
  destruct b; [discriminate|]. apply bind_inv in E. destruct E as (s3 & u & E3 & E). unfold mark_file_opened in E3. rewrite bind_get in E3.
  destruct (Nat.leb 32 (length (a_open (atb s)))); [discriminate|]. injection E3 as <- _. injection E as <- _. reflexivity.
Qed.

Lemma close_exact id s : is_opened (atb s) id = false ->
  mark_file_closed id (set_at s (mkAT (a_seq (atb s)) (a_count (atb s)) (a_max (atb s)) (a_pos (atb s)) (a_open (atb s) ++ [id]))) = (s, Ok tt).
Proof.
  intros N. unfold mark_file_closed. rewrite bind_get. destruct s as [f l [sq ct mx ps op] sm]. cbn [atb set_at a_open a_seq a_count a_max a_pos] in *.
  unfold is_opened in N. cbn [a_open] in N.
  assert (F : find_index id (op ++ [id]) = Some (length op)).
  { clear -N. induction op as [|x l IH]; cbn; [now rewrite N.eqb_refl|]. cbn in N. apply orb_false_iff in N. destruct N as [-> N]. now rewrite IH. }
  rewrite F. unfold modify. cbn [set_at atb fl]. do 3 f_equal. unfold swap_remove. rewrite last_last.
  assert (U : upd (op ++ [id]) (length op) id = op ++ [id]) by (clear; induction op as [|x l IH]; cbn; [reflexivity|now rewrite IH]).
  now rewrite U, removelast_last.
Qed.

(** pulling one file leaves the file system exactly as it was *)
Lemma pull_one_spec crc y v id d fuel : Repr crc y v -> content (v_files v) id = Some d -> is_opened (atb (sfs y)) id = false ->
  (length (a_open (atb (sfs y))) < 32)%nat -> (length d + CHUNK - 1 < CHUNK * fuel)%nat ->
  pull_one crc fuel id (Con (sfs y) None) = Saved (Con (sfs y) None) d.
Proof.
  intros R Hct Hop Hlen Hf. destruct (can_read crc y v id d R Hct) as (s1 & rd & E1 & Rd).
  { rewrite (marked_now crc y v id R). exact Hop. }
  { destruct R as [_ _ Hp _]. rewrite <- (Permutation.Permutation_length Hp). exact Hlen. }
  unfold pull_one, con_open. cbn [cfs crd]. rewrite E1. destruct (pull_loop_spec crc fuel s1 id rd d []) as (r2 & E2); [intros k; apply Rd|exact Hf|].
  rewrite E2. unfold con_close. cbn [cfs crd app]. rewrite (open_exact _ _ _ _ E1), (close_exact id (sfs y) Hop). reflexivity.
Qed.

Lemma content_in F x : StronglySorted N.lt (map f_id F) -> In x F -> content F (f_id x) = Some (f_data x).
Proof.
  unfold content. induction F as [|a F IH]; intros Hs Hin; [destruct Hin|]. cbn [find]. cbn [map] in Hs. inversion Hs as [|? ? Hs' Hf]; subst. destruct Hin as [->|Hin].
  - rewrite N.eqb_refl. reflexivity.
  - destruct (N.eqb_spec (f_id a) (f_id x)) as [E|_]; [|exact (IH Hs' Hin)].
    exfalso. rewrite Forall_forall in Hf. specialize (Hf (f_id x) (in_map f_id F x Hin)). lia.
Qed.

Lemma pull_each_spec crc y v fuel : Repr crc y v -> (length (a_open (atb (sfs y))) < 32)%nat -> forall l, incl l (v_files v) ->
  StronglySorted N.lt (map f_id (v_files v)) ->
  (forall x, In x l -> is_opened (atb (sfs y)) (f_id x) = false /\ (length (f_data x) + CHUNK - 1 < CHUNK * fuel)%nat) ->
  pull_each crc fuel (map f_id l) (Con (sfs y) None) = Some (Con (sfs y) None, map (fun x => (f_id x, f_data x)) l, true).
Proof.
  intros R Hlen. induction l as [|x l IH]; intros Hi Hs Hx; [reflexivity|]. cbn [map pull_each].
  destruct (Hx x (or_introl eq_refl)) as [Ho Hd].
  rewrite (pull_one_spec crc y v (f_id x) (f_data x) fuel R (content_in _ x Hs (Hi x (or_introl eq_refl))) Ho Hlen Hd).
  rewrite IH; [reflexivity| |exact Hs|].
  - intros z Hz. apply Hi. right. exact Hz.
  - intros z Hz. apply Hx. right. exact Hz.
Qed.

Lemma list_files_spec crc es y t fuel r F : crc32 crc -> history crc es (On y) -> snapshot crc (fl (sfs y)) r = Some F -> (length F < fuel)%nat ->
  list_files fuel t (sfs y) = Some (map f_id (filter (fun x => of_type t (f_id x) (f_typ x)) F)).
Proof.
  intros Hc Hh Hsn Hf. destruct (running crc es y Hc Hh) as (v & Ar & R). rewrite (repr_snapshot crc y v r R) in Hsn. injection Hsn as <-.
  pose proof (aruns_positive es (AOn v) Ar) as Pos. cbn [a_listing] in Pos.
  destruct R as [(p & ents & C & H & W & ST & EF & EW & EV) _ _ _]. pose proof (st_disk _ _ _ _ _ _ _ _ _ ST) as Dk. pose proof (disk_len _ _ _ _ _ _ _ Dk) as L.
  destruct (state_dir _ _ _ _ _ _ _ _ _ ST) as [Rp Ea].
  assert (Hread : forall i e, nth_error ents i = Some e -> entry_at (sfs y) (N.of_nat i) = Ok e).
  { intros i e En. unfold entry_at. rewrite Ea. rewrite entry_addr. rewrite (ta_ents _ _ _ _ _ (rp_tab _ _ _ _ _ Rp) _ _ En). reflexivity. }
  assert (Hcount : a_count (atb (sfs y)) = N.of_nat (length ents)) by (rewrite Ea; reflexivity).
  assert (Hids : forall e, In e ents -> 0 < e_id e).
  { intros e He. assert (Hm : In (e_id e) (map f_id (v_files v))).
    { rewrite EF. clear -L He. unfold user_view. revert C L. induction ents as [|a l IH]; intros [|c C] L; cbn [length] in L; try lia; [destruct He|].
      cbn [combine map]. destruct He as [->|He]; [left; reflexivity|right; apply (IH He C); lia]. }
    apply in_map_iff in Hm. destruct Hm as (x & <- & Hx). exact (Pos x Hx). }
  unfold list_files. rewrite (list_loop_spec (sfs y) ents t Hread Hcount (dk_sorted _ _ _ _ _ _ _ Dk) fuel 0 None).
  - rewrite (above_zero _ _ Hids). f_equal. rewrite EF. clear -L. unfold user_view. revert C L. induction ents as [|e ents IH]; intros [|c C] L; cbn [length] in L; try lia; [reflexivity|].
    cbn [combine map filter fst snd]. specialize (IH C ltac:(lia)). unfold f_id at 2, f_typ at 1. cbn [fst snd]. destruct (of_type t (e_id e) (e_typ e)); cbn [map]; rewrite IH; reflexivity.
  - intros e He. exact (Hids e He).
  - rewrite (above_zero _ _ Hids). rewrite EF in Hf. unfold user_view in Hf. rewrite map_length, combine_length in Hf.
    assert (K : forall (P : entry -> bool) l, (length (filter P l) <= length l)%nat) by (clear; intros P; induction l as [|e l IH]; cbn [filter length]; [lia|]; destruct (P e); cbn [length]; lia).
    specialize (K (fun e => of_type t (e_id e) (e_typ e)) ents). lia.
Qed.

Lemma files_of_ids t F : map fst (files_of t F) = map f_id (filter (fun x => of_type t (f_id x) (f_typ x)) F).
Proof. unfold files_of. rewrite map_map. reflexivity. Qed.

(** In any state reached by any history of calls and power losses, the host's list is exactly the ids of the files of the type asked for,
    oldest first. *)
Theorem C104_list_is_exact : forall crc, crc32 crc -> forall es y t r F fuel, history crc es (On y) -> snapshot crc (fl (sfs y)) r = Some F ->
  (length F < fuel)%nat -> list_files fuel t (sfs y) = Some (map fst (files_of t F)).
Proof. intros crc Hc es y t r F fuel Hh Hsn Hf. rewrite files_of_ids. exact (list_files_spec crc es y t fuel r F Hc Hh Hsn Hf). Qed.

(** Pulling a type of which no file is in use saves every file of it, each with exactly its bytes, reports success, and leaves the
    device's file system exactly as it was. *)
Theorem C104_pull_files : forall crc, crc32 crc -> forall es y t r F fuel, history crc es (On y) -> snapshot crc (fl (sfs y)) r = Some F ->
  enough fuel F -> (length (a_open (atb (sfs y))) < 32)%nat ->
  (forall x, In x F -> f_typ x = t -> is_opened (atb (sfs y)) (f_id x) = false) ->
  pull_files crc fuel t (Con (sfs y) None) = Some (Con (sfs y) None, files_of (Some t) F, true).
Proof.
  intros crc Hc es y t r F fuel Hh Hsn [Hf1 Hf2] Hlen Hop. unfold pull_files. cbn [cfs].
  rewrite (list_files_spec crc es y (Some t) fuel r F Hc Hh Hsn Hf1).
  destruct (running crc es y Hc Hh) as (v & _ & R). pose proof (repr_sorted crc y v R) as S. rewrite (repr_snapshot crc y v r R) in Hsn. injection Hsn as <-.
  apply (pull_each_spec crc y v fuel R Hlen); [| exact S |].
  - intros x Hx. apply filter_In in Hx. apply Hx.
  - intros x Hx. apply filter_In in Hx. destruct Hx as [Hx Ht]. cbn [of_type] in Ht. apply N.eqb_eq in Ht. auto.
Qed.

Lemma pull_each_app crc fuel a : forall b c c' l, pull_each crc fuel a c = Some (c', l, true) ->
  pull_each crc fuel (a ++ b) c = match pull_each crc fuel b c' with Some (c2, l2, k) => Some (c2, l ++ l2, k) | None => None end.
Proof.
  induction a as [|id a IH]; intros b c c' l E; cbn [pull_each app] in *.
  - injection E as <- <-. destruct (pull_each crc fuel b c) as [[[c2 l2] k]|]; reflexivity.
  - destruct (pull_one crc fuel id c) as [|c1|c1 d]; try discriminate.
    destruct (pull_each crc fuel a c1) as [[[c2 l2] k]|] eqn:E2; [|discriminate]. injection E as <- <- ->.
    rewrite (IH b c1 c2 l2 E2). destruct (pull_each crc fuel b c2) as [[[c3 l3] k]|]; reflexivity.
Qed.

Lemma open_in_use crc y v x : Repr crc y v -> StronglySorted N.lt (map f_id (v_files v)) -> In x (v_files v) -> is_opened (atb (sfs y)) (f_id x) = true ->
  con_open (f_id x) (Con (sfs y) None) = Some (Con (sfs y) None, OpenError).
Proof.
  intros R S Hin Ho. destruct R as [(p & ents & C & H & W & ST & EF & EW & EV) _ _ _]. pose proof (st_disk _ _ _ _ _ _ _ _ _ ST) as D. pose proof (disk_len _ _ _ _ _ _ _ D) as L.
  unfold con_open. cbn [cfs crd].
  destruct (open_read_op crc (sfs y) p (v_gen v) ents (v_top v) C H W (f_id x) ST) as [(_ & Hno)|(e & Hin' & Eid & Q)].
  - exfalso. pose proof (content_in _ x S Hin) as K. unfold content in K. rewrite EF in K. rewrite (find_view_none ents (f_id x) C Hno) in K. discriminate.
  - destruct Q as [(E & _)|(Hno & _)].
    + rewrite E. reflexivity.
    + exfalso. apply Hno. unfold is_opened in Ho. apply existsb_exists in Ho. destruct Ho as (z & Hz & Ez). apply N.eqb_eq in Ez. subst z. exact Hz.
Qed.

(** A file of the type that is in use (a log being written, for example) stops the transfer with an error: the older ones have been saved,
    it and all newer ones have not. *)
Theorem C104_stops_at_a_file_in_use : forall crc, crc32 crc -> forall es y t r F fuel a x b, history crc es (On y) -> snapshot crc (fl (sfs y)) r = Some F ->
  enough fuel F -> (length (a_open (atb (sfs y))) < 32)%nat ->
  filter (fun z => f_typ z =? t) F = a ++ x :: b -> (forall z, In z a -> is_opened (atb (sfs y)) (f_id z) = false) -> is_opened (atb (sfs y)) (f_id x) = true ->
  pull_files crc fuel t (Con (sfs y) None) = Some (Con (sfs y) None, map (fun z => (f_id z, f_data z)) a, false).
Proof.
  intros crc Hc es y t r F fuel a x b Hh Hsn [Hf1 Hf2] Hlen Hfil Ha Hx. unfold pull_files. cbn [cfs].
  rewrite (list_files_spec crc es y (Some t) fuel r F Hc Hh Hsn Hf1). cbn [of_type]. rewrite Hfil.
  destruct (running crc es y Hc Hh) as (v & _ & R). pose proof (repr_sorted crc y v R) as S. rewrite (repr_snapshot crc y v r R) in Hsn. injection Hsn as <-.
  assert (Hincl : incl (a ++ x :: b) (v_files v)) by (rewrite <- Hfil; intros z Hz; apply filter_In in Hz; apply Hz).
  rewrite map_app. cbn [map].
  rewrite (pull_each_app crc fuel (map f_id a) _ _ _ _ (pull_each_spec crc y v fuel R Hlen a
     ltac:(intros z Hz; apply Hincl; apply in_or_app; left; exact Hz) S
     ltac:(intros z Hz; split; [exact (Ha z Hz)|apply Hf2; apply Hincl; apply in_or_app; left; exact Hz]))).
  cbn [pull_each]. unfold pull_one.
  rewrite (open_in_use crc y v x R S ltac:(apply Hincl; apply in_or_app; right; left; reflexivity) Hx). rewrite app_nil_r. reflexivity.
Qed.

(** An unreadable directory entry ends the list as if there were no more files: the host is told nothing. *)
Theorem C104_refuted_error_is_end_of_list : forall t s last fuel e, concurrent_next (of_type t) s last = Err e ->
  list_loop (S fuel) t s last = Some [].
Proof. intros t s last fuel e E. cbn [list_loop]. unfold get_listed_file. rewrite E. reflexivity. Qed.

(** ** A concrete case: three files of two types; then one of them open for writing *)
Definition three_files : list act :=
  [XBoot; XCall (Create 3); XCall (Create 4); XCall (Create 3); XCall (OpenWrite 1); XCall (Append 0 [1;2;3]); XCall (CloseWriter 0);
   XCall (OpenWrite 3); XCall (Append 0 [9]); XCall (CloseWriter 0)].
Definition three : list file := [(1, 3, [1;2;3]); (2, 4, []); (3, 3, [9])].

Lemma three_enough : enough 3 [(1, 3, [1;2;3]); (2, 4, [])] /\ enough 4 three.
Proof.
  Transparent CHUNK. unfold enough, three, CHUNK. split; (split; [cbn; lia|]); intros x Hx; cbn [In] in Hx.
  - destruct Hx as [<-|[<-|[]]]; cbn [f_data snd length]; lia.
  - destruct Hx as [<-|[<-|[<-|[]]]]; cbn [f_data snd length]; lia.
Qed.

Theorem C104_instance : exists es y, history sum es (On y) /\ snapshot sum (fl (sfs y)) (fun _ => 0) = Some three /\
  list_files 4 None (sfs y) = Some [1; 2; 3] /\
  pull_files sum 4 3 (Con (sfs y) None) = Some (Con (sfs y) None, [(1, [1;2;3]); (3, [9])], true).
Proof.
  destruct (reach three_files (fun y => match a_open (atb (sfs y)) with [] => true | _ => false end &&
     match snapshot sum (fl (sfs y)) (fun _ => 0) with Some F => same F three | None => false end))
    as (es & y & Hh & H); [vm_compute; reflexivity|].
  apply andb_prop in H. destruct H as [H1 H2]. exists es, y. split; [exact Hh|].
  assert (Hsn : snapshot sum (fl (sfs y)) (fun _ => 0) = Some three).
  { destruct (snapshot sum (fl (sfs y)) (fun _ => 0)) as [F|]; [f_equal; apply same_eq; exact H2|exfalso; exact (Bool.diff_false_true H2)]. }
  destruct (a_open (atb (sfs y))) as [|o l] eqn:Eo; [|exfalso; exact (Bool.diff_false_true H1)].
  split; [exact Hsn|]. split.
  - rewrite (C104_list_is_exact sum sum32 es y None (fun _ => 0) three 4 Hh Hsn ltac:(cbn; lia)). reflexivity.
  - rewrite (C104_pull_files sum sum32 es y 3 (fun _ => 0) three 4 Hh Hsn (proj2 three_enough)).
    + reflexivity.
    + rewrite Eo. cbn. lia.
    + intros x _ _. unfold is_opened. rewrite Eo. reflexivity.
Qed.

(** The oldest log being open for writing, a closed newer one is not saved either. *)
Theorem C104_refuted_closed_file_not_saved : exists es y, history sum es (On y) /\ snapshot sum (fl (sfs y)) (fun _ => 0) = Some three /\
  is_opened (atb (sfs y)) 3 = false /\ pull_files sum 4 3 (Con (sfs y) None) = Some (Con (sfs y) None, [], false).
Proof.
  destruct (reach (three_files ++ [XCall (OpenWrite 1)]) (fun y => match a_open (atb (sfs y)) with [i] => i =? 1 | _ => false end &&
     match snapshot sum (fl (sfs y)) (fun _ => 0) with Some F => same F three | None => false end))
    as (es & y & Hh & H); [vm_compute; reflexivity|].
  apply andb_prop in H. destruct H as [H1 H2]. exists es, y. split; [exact Hh|].
  assert (Hsn : snapshot sum (fl (sfs y)) (fun _ => 0) = Some three).
  { destruct (snapshot sum (fl (sfs y)) (fun _ => 0)) as [F|]; [f_equal; apply same_eq; exact H2|exfalso; exact (Bool.diff_false_true H2)]. }
  assert (Eo : a_open (atb (sfs y)) = [1]).
  { destruct (a_open (atb (sfs y))) as [|i [|j l]]; [exfalso; exact (Bool.diff_false_true H1)| |exfalso; exact (Bool.diff_false_true H1)].
    apply N.eqb_eq in H1. rewrite H1. reflexivity. }
  split; [exact Hsn|]. split; [unfold is_opened; rewrite Eo; reflexivity|].
  rewrite (C104_stops_at_a_file_in_use sum sum32 es y 3 (fun _ => 0) three 4 [] (1, 3, [1;2;3]) [(3, 3, [9])] Hh Hsn (proj2 three_enough)).
  - reflexivity.
  - rewrite Eo. cbn. lia.
  - reflexivity.
  - intros z [].
  - unfold is_opened. rewrite Eo. reflexivity.
Qed.

(** Two files, of which the entry of the second was damaged beyond repair while the device was off: the host sees one file and no error. *)
Definition damaged (s : fs) : fs := mkFS (fun a => if address_of_file_entry (atb s) 1 <=? a then 90 else fl s a) (lg s) (atb s) (sm s).
Theorem C104_refuted_damaged_entry : exists es y, history sum es (On y) /\ a_count (atb (sfs y)) = 2 /\ list_files 3 None (sfs y) = Some [1; 2] /\
  list_files 3 None (damaged (sfs y)) = Some [1] /\ exists last, concurrent_next (of_type None) (damaged (sfs y)) last = Err CorruptedFileEntry.
Proof.
  destruct (reach two_files (fun y => (a_count (atb (sfs y)) =? 2) &&
     match list_files 3 None (sfs y), list_files 3 None (damaged (sfs y)), concurrent_next (of_type None) (damaged (sfs y)) (Some (1, 0)) with
     | Some [i; j], Some [k], Err CorruptedFileEntry => (i =? 1) && (j =? 2) && (k =? 1) | _, _, _ => false end))
    as (es & y & Hh & H); [vm_compute; reflexivity|].
  apply andb_prop in H. destruct H as [H1 H]. exists es, y. split; [exact Hh|]. split; [apply N.eqb_eq; exact H1|].
  destruct (list_files 3 None (sfs y)) as [[|i [|j [|? ?]]]|]; try (exfalso; exact (Bool.diff_false_true H)).
  destruct (list_files 3 None (damaged (sfs y))) as [[|k [|? ?]]|]; try (exfalso; exact (Bool.diff_false_true H)).
  destruct (concurrent_next (of_type None) (damaged (sfs y)) (Some (1, 0))) as [?|[]|] eqn:Ec; try (exfalso; exact (Bool.diff_false_true H)).
  apply andb_prop in H. destruct H as [H H4]. apply andb_prop in H. destruct H as [H2 H3]. apply N.eqb_eq in H2, H3, H4. subst.
  split; [reflexivity|]. split; [reflexivity|]. exists (Some (1, 0)). exact Ec.
Qed.
Print Assumptions C104_pull_files.

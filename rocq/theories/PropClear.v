(** * C122: clearing the data of the strain-gauge board from the console.

    ClearData is firmware-common/src/common/console/sg_rpc.rs:118-121: [fs.remove_files(()).await.ok()], then an empty answer;
    the selection [()] accepts every file (vlfs/src/fs/iter.rs:49-53).  The files of the board are the segments of its two ring
    loggers (firmware-common/src/strain_gauges/mid_prio.rs:240-277; [ring_new], [ring_rotate] in Ring.v). *)
From Coq Require Import List Bool NArith Arith Lia.
From Verif Require Import Base Flash FS Sectors ATable Chains FileIO FileFormat Disk FsSpec FsApi FsRefine FsBoot FsHistory PropDirectory PropSpace FsExec FsExamples PropDelete.
From Verif Require Ring PropRing.
Import ListNotations.
Local Open Scope N_scope.

(** sg_rpc.rs:118-121; what remove_files replies is thrown away ([ok()]), except that a panic is a panic: the device afterwards, and whether
    the (empty) answer was sent *)
Definition clear_data (crc : list byte -> N) (y : sys) : sys * bool :=
  let '(y', r) := perform crc (Remove (fun _ _ => true)) y in (y', match r with RPanic => false | _ => true end).

(** ** Specification *)
(** the files in [old] that are marked as open in [y] *)
Definition in_use (y : sys) (old : list file) : list file := filter (fun x => is_opened (atb (sfs y)) (f_id x)) old.

Lemma clear_reply crc es y : crc32 crc -> history crc es (On y) ->
  exists y', (exists n m, perform crc (Remove (fun _ _ => true)) y = (y', RCounts n m)) \/
             (perform crc (Remove (fun _ _ => true)) y = (y', RPanic) /\ 2 ^ 64 <= a_seq (atb (sfs y)) + 1).
Proof.
  intros Hc Hh. destruct (running crc es y Hc Hh) as (v & _ & [(p & ents & C & H & W & ST & EF & EW & EV) _ _ _]).
  assert (ST0 : Sessions.State crc (sfs y) p (v_gen v) ents (v_top v) C H []) by (destruct ST as [A1 A2 A3 A4 A5 A6]; constructor; [exact A1|exact A2|exact A3|exact A4|constructor|constructor]).
  pose proof (Sessions.st_at _ _ _ _ _ _ _ _ _ ST) as Ea.
  destruct (remove_both crc (sfs y) p (v_gen v) ents (v_top v) C H [] (fun e => (fun _ _ => true) (e_id e) (e_typ e)) ST0) as (s' & _ & R); [intros w cur e []|].
  cbn [perform]. unfold finish. destruct R as [(E & _)|(E & Hs)]; rewrite E; eexists.
  - left. eexists _, _. reflexivity.
  - right. split; [reflexivity|]. rewrite Ea. exact Hs.
Qed.

(** Whatever the device holds and whoever has files open: after the answer exactly the files marked as open are left, as they
    were, and the space of all the others is free; the writers and readers are what they were.  (It is answered unless the
    directory has been rewritten 2^64 - 1 times.) *)
Theorem C122_clear_data : forall crc, crc32 crc -> forall es y r, history crc es (On y) -> a_seq (atb (sfs y)) + 1 < 2 ^ 64 ->
  exists y' old, clear_data crc y = (y', true) /\ snapshot crc (fl (sfs y)) r = Some old /\ snapshot crc (fl (sfs y')) r = Some (in_use y old) /\
    free_bytes (sfs y') = free_bytes (sfs y) + 4016 * fold_right N.add 0 (map (fun x => sectors_of y (f_id x)) (filter (fun x => negb (is_opened (atb (sfs y)) (f_id x))) old)) /\
    sws y' = sws y /\ srs y' = srs y.
Proof.
  intros crc Hc es y r Hh Hs. destruct (clear_reply crc es y Hc Hh) as (y' & [(n & m & E)|(E & K)]); [|exfalso; exact (N.lt_irrefl _ (N.lt_le_trans _ _ _ Hs K))].
  destruct (C07_removal_whatever_is_open crc Hc es y _ y' n m r Hh E) as (old & E1 & E2 & _ & _ & W & S). cbv zeta in E2.
  destruct (C23_remove_frees_exactly crc Hc es y _ y' n m r Hh E) as (old' & E1' & _ & Ef). rewrite E1 in E1'. injection E1' as <-.
  exists y', old. split; [unfold clear_data; rewrite E; reflexivity|]. split; [exact E1|]. split; [|split; [exact Ef|split; [exact W|exact S]]].
  rewrite E2. f_equal. unfold in_use. apply filter_ext. intros x. cbn [andb]. apply negb_involutive.
Qed.

(** The answer is only sent when this has been done. *)
Theorem C122_answered_means_done : forall crc, crc32 crc -> forall es y y' r, history crc es (On y) -> clear_data crc y = (y', true) ->
  exists old, snapshot crc (fl (sfs y)) r = Some old /\ snapshot crc (fl (sfs y')) r = Some (in_use y old) /\ sws y' = sws y /\ srs y' = srs y.
Proof.
  intros crc Hc es y y' r Hh E. unfold clear_data in E. destruct (clear_reply crc es y Hc Hh) as (y1 & [(n & m & E1)|(E1 & K)]); rewrite E1 in E.
  - apply pair_equal_spec in E as [<- _]. destruct (C07_removal_whatever_is_open crc Hc es y _ y1 n m r Hh E1) as (old & A1 & A2 & _ & _ & W & S). cbv zeta in A2.
    exists old. split; [exact A1|]. split; [|split; [exact W|exact S]]. rewrite A2. f_equal. unfold in_use. apply filter_ext. intros x. cbn [andb]. apply negb_involutive.
  - apply pair_equal_spec in E as [_ E]. exact (False_ind _ (Bool.diff_false_true E)).
Qed.

(** With nothing marked as open the device is empty. *)
Theorem C122_all_gone_when_idle : forall crc, crc32 crc -> forall es y r, history crc es (On y) -> a_seq (atb (sfs y)) + 1 < 2 ^ 64 -> a_open (atb (sfs y)) = [] ->
  exists y', clear_data crc y = (y', true) /\ snapshot crc (fl (sfs y')) r = Some [].
Proof.
  intros crc Hc es y r Hh Hs Ho. destruct (C122_clear_data crc Hc es y r Hh Hs) as (y' & old & E & _ & E2 & _). exists y'. split; [exact E|]. rewrite E2. f_equal.
  unfold in_use, is_opened. rewrite Ho. cbn [existsb]. clear. induction old as [|x l IH]; [reflexivity|exact IH].
Qed.

(** Power lost meanwhile: everything is still there, or only what was marked as open. *)
Theorem C122_power_loss : forall crc, crc32 crc -> forall es y f r, history crc es (On y) -> power_lost crc (Remove (fun _ _ => true)) y f ->
  exists old F, snapshot crc (fl (sfs y)) r = Some old /\ snapshot crc f r = Some F /\ (F = old \/ F = in_use y old).
Proof.
  intros crc Hc es y f r Hh Hp. destruct (C06_removal_whatever_is_open crc Hc es y _ f r Hh Hp) as (old & F & E1 & E2 & [->| ->]).
  - exists old, old. auto.
  - exists old. eexists. split; [exact E1|]. split; [exact E2|]. right. unfold in_use. apply filter_ext. intros x. cbn [andb]. apply negb_involutive.
Qed.

(** ** What is refuted *)
(** "nothing is left": a file that the console itself has open for reading stays, and the answer is the same *)
Theorem C122_refuted_open_file_stays : exists es y y', history sum es (On y) /\ srs y = [1] /\ clear_data sum y = (y', true) /\
  snapshot sum (fl (sfs y')) (fun _ => 0) = Some [(1, 3, [1; 2; 3; 4; 5])].
Proof.
  destruct (reach (two_files ++ [XCall (OpenRead 1)]) (fun y => match srs y with [i] => i =? 1 | _ => false end && snd (clear_data sum y) &&
      match snapshot sum (fl (sfs (fst (clear_data sum y)))) (fun _ => 0) with Some F => same F [(1, 3, [1; 2; 3; 4; 5])] | None => false end))
    as (es & y & Hh & H); [vm_compute; reflexivity|].
  apply andb_prop in H. destruct H as [H H3]. apply andb_prop in H. destruct H as [H1 H2].
  destruct (clear_data sum y) as [y' a] eqn:E. cbn [fst snd] in *. subst a. exists es, y, y'. split; [exact Hh|]. split.
  - destruct (srs y) as [|i [|j l]]; try (exfalso; exact (Bool.diff_false_true H1)). apply N.eqb_eq in H1. subst i. reflexivity.
  - split; [exact E|]. destruct (snapshot sum (fl (sfs y')) (fun _ => 0)) as [F|]; [f_equal; apply same_eq; exact H3|exfalso; exact (Bool.diff_false_true H3)].
Qed.

(** "the recording goes on": a segment that is being written is not marked as open (vlfs/src/fs/at_builder.rs:185-196); it is deleted
    while its writer stays in the logger's hands, so what is written through it is in no file *)
Theorem C122_refuted_segment_being_written : forall crc, crc32 crc -> forall es y r w, history crc es (On y) -> a_seq (atb (sfs y)) + 1 < 2 ^ 64 ->
  In w (sws y) -> is_opened (atb (sfs y)) (w_id w) = false ->
  exists y' new, clear_data crc y = (y', true) /\ In w (sws y') /\ snapshot crc (fl (sfs y')) r = Some new /\ forall z, In z new -> f_id z <> w_id w.
Proof.
  intros crc Hc es y r w Hh Hs Hw Ho. destruct (C122_clear_data crc Hc es y r Hh Hs) as (y' & old & E & _ & E2 & _ & W & _).
  exists y', (in_use y old). split; [exact E|]. split; [rewrite W; exact Hw|]. split; [exact E2|]. intros z Hz Ei. apply filter_In in Hz. destruct Hz as [_ Hz].
  rewrite Ei, Ho in Hz. exact (Bool.diff_false_true Hz).
Qed.

(** a segment of strain-gauge readings (type 24): the case occurs *)
Theorem C122_segment_instance : exists es y w, history sum es (On y) /\ a_seq (atb (sfs y)) + 1 < 2 ^ 64 /\ In w (sws y) /\ is_opened (atb (sfs y)) (w_id w) = false.
Proof.
  destruct (reach [XBoot; XCall (CreateOpen 24); XCall (Append 0 [1; 2; 3])] (fun y => (a_seq (atb (sfs y)) + 1 <? 2 ^ 64) && match sws y with w :: _ => negb (is_opened (atb (sfs y)) (w_id w)) | [] => false end))
    as (es & y & Hh & H); [vm_compute; reflexivity|].
  apply andb_prop in H. destruct H as [H1 H2]. apply N.ltb_lt in H1. destruct (sws y) as [|w l] eqn:E; [exfalso; exact (Bool.diff_false_true H2)|].
  exists es, y, w. split; [exact Hh|]. split; [exact H1|]. split; [rewrite E; left; reflexivity|]. apply negb_true_iff. exact H2.
Qed.

(** *** and the ring does not recover *)
(** [n] rollovers in a row *)
Fixpoint rollovers (c : Ring.ring_config) (n : nat) (d : Ring.disk) (cur : nat) : Ring.disk * nat :=
  match n with O => (d, cur) | S k => let '(d', cur') := Ring.ring_rotate c d cur in rollovers c k d' cur' end.

Lemma roll_last c n : forall d cur, (Ring.rc_segs c <= cur)%nat -> (length (PropRing.segments (Ring.rc_typ c) d) <= 1)%nat ->
  let '(d', cur') := rollovers c (S n) d cur in
  (Ring.rc_segs c <= cur')%nat /\ PropRing.segments (Ring.rc_typ c) d' = [Ring.Entry (S n + Ring.d_max d) (Ring.rc_typ c)].
Proof.
  induction n as [|n IH]; intros d cur Hc Hl.
  - cbn [rollovers]. unfold Ring.ring_rotate. apply Nat.leb_le in Hc. rewrite Hc. split; [lia|].
    rewrite Ring.first_is_dropping. unfold PropRing.segments, Ring.add_file in *. cbn [Ring.d_files]. rewrite filter_app, Ring.dropping_own.
    rewrite skipn_all2 by exact Hl. cbn [app filter]. unfold Ring.of_type. cbn [Ring.e_typ]. rewrite Nat.eqb_refl. reflexivity.
  - cbn [rollovers]. destruct (Ring.ring_rotate c d cur) as [d1 cur1] eqn:E. specialize (IH d1 cur1).
    unfold Ring.ring_rotate in E. pose proof Hc as Hc'. apply Nat.leb_le in Hc'. rewrite Hc' in E. injection E as <- <-.
    rewrite Ring.first_is_dropping in IH |- *. unfold PropRing.segments, Ring.add_file in IH |- *. cbn [Ring.d_files Ring.d_max] in IH |- *.
    rewrite filter_app, Ring.dropping_own, app_length in IH. unfold PropRing.segments in Hl. rewrite skipn_all2 in IH by exact Hl. cbn [length filter] in IH.
    assert (K : (length (if Ring.of_type (Ring.rc_typ c) (Ring.Entry (S (Ring.d_max d)) (Ring.rc_typ c)) then [Ring.Entry (S (Ring.d_max d)) (Ring.rc_typ c)] else []) <= 1)%nat)
      by (destruct (Ring.of_type _ _); cbn [length]; lia).
    specialize (IH (le_n _) K). change (rollovers c (S n)) with (fun d cur => let '(d', cur') := Ring.ring_rotate c d cur in rollovers c n d' cur') in IH. cbv beta in IH.
    destruct (let '(d', cur') := Ring.ring_rotate c _ _ in rollovers c n d' cur') as [d2 cur2]. destruct IH as [I1 I2]. split; [exact I1|]. rewrite I2. do 2 f_equal. lia.
Qed.

(** A logger whose ring was full when its data were cleared believes it to be full ever after (until a restart): after any
    number of rollovers it keeps the segment just begun and nothing else, each rollover deleting the segment that was
    being written. *)
Theorem C122_refuted_ring_keeps_one_segment : forall c d cur n, (Ring.rc_segs c <= cur)%nat ->
  let cleared := Ring.do_other (Ring.ORemove (fun _ => true)) d in
  PropRing.segments (Ring.rc_typ c) (fst (rollovers c (S n) cleared cur)) = [Ring.Entry (S n + Ring.d_max d) (Ring.rc_typ c)].
Proof.
  intros c d cur n Hc cleared. pose proof (roll_last c n cleared cur Hc) as H. destruct (rollovers c (S n) cleared cur) as [d' cur']. cbn [fst].
  apply H. unfold cleared, PropRing.segments. cbn [Ring.do_other Ring.d_files negb]. assert (E : forall l : list Ring.entry, filter (fun _ => false) l = []) by (induction l; auto). rewrite E. cbn. lia.
Qed.
(** the strain-gauge ring (60 segments) has become full: the case occurs *)
Theorem C122_ring_instance : exists d, Ring.eruns (Ring.RingConfig 24 60) (Ring.DiskD [] 0, None) (Ring.EBoot :: repeat Ring.ERotate 60) = Some (d, Some 60%nat) /\
  length (PropRing.segments 24 d) = 60%nat.
Proof. eexists. split; [vm_compute; reflexivity|reflexivity]. Qed.
Print Assumptions C122_clear_data.
Print Assumptions C122_answered_means_done.
Print Assumptions C122_refuted_segment_being_written.

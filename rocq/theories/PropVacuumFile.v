(** * C108, continued: the log file of the vacuum-chamber test after a power loss. *)
From Coq Require Import Lia.
From Verif Require Import PropBuffered Numerics VLP FlightCore PropFlight PropBackup Vacuum PropVacuum EnumLog PropEnumLog.
From Verif Require Import Base Majority Flash FS Sectors ATable DirOps FileIO FileFormat Disk Sessions FsSpec FsApi FsRefine FsBoot FsHistory PropDirectory PropFiles FsExec PropShared.
Local Open Scope nat_scope.

(** ** Specification: a log of records each of which is written and flushed (vacuum_test/mod.rs:122-135) *)
Section Log.
Context {V : Type}.
Variable c : codec V.
Definition rec_ops (l : list V) : list wop := flat_map (fun v => [WData (write_log c v); WSync]) l.
(** [doing] is the record in progress; [part] what has been done of it *)
Definition part_of (doing : list V) (part : list wop) : Prop := part = [] \/ exists v, doing = [v] /\ part = [WData (write_log c v)].
(** the call on the [k]-th writer that may be cut short next: the write of the record in progress if it has not been done, a flush *)
Definition own_call (doing : list V) (part : list wop) (k : nat) (w : list N) : Prop := part = [] /\ exists v, doing = [v] /\ w = write_log c v.

(** ** Proofs *)
Hypothesis ok : codec_ok c.
Lemma whole_past done : forall n l, length (file_of c done) <= n -> whole c n (done ++ l) = done ++ whole c (n - length (file_of c done)) l.
Proof.
  induction done as [|v done IH]; intros n l H; [rewrite Nat.sub_0_r; reflexivity|]. cbn [app whole]. cbn [file_of flat_map] in H. rewrite app_length in H. fold (file_of c done) in H.
  destruct (Nat.leb_spec (length (write_log c v)) n); [|lia]. f_equal. rewrite IH by lia. f_equal. f_equal. cbn [file_of flat_map]. rewrite app_length. fold (file_of c done). lia.
Qed.
Lemma whole_one n v : whole c n [v] = [] \/ whole c n [v] = [v].
Proof. cbn [whole]. destruct (length (write_log c v) <=? n); auto. Qed.
Lemma all_data_app a b : all_data (a ++ b) = all_data a ++ all_data b.
Proof. unfold all_data. rewrite map_app, concat_app. reflexivity. Qed.
Lemma rec_data l : all_data (rec_ops l) = file_of c l.
Proof. induction l as [|v l IH]; [reflexivity|]. unfold rec_ops. cbn [flat_map]. fold (rec_ops l). rewrite all_data_app, IH. unfold all_data. cbn. rewrite app_nil_r. reflexivity. Qed.

Theorem log_file crc : crc32 crc -> forall es y0 id y1 done doing part y2 k call f r, history crc es (On y0) ->
  opened crc y0 id [] y1 -> shared crc y1 (its_writer y0) (rec_ops done ++ part) y2 k -> length doing <= 1 -> part_of doing part ->
  (f = fl (sfs y2) /\ call = Flush k \/ legal y2 call /\ call <> OpenWrite id /\ power_lost crc call y2 f) ->
  (forall w, call = Append k w -> own_call doing part k w) ->
  exists F d, snapshot crc f r = Some F /\ content F id = Some d /\
    exists found, (forall pieces, parse_all c (EnumLog.Reader d pieces) = found) /\ (found = done \/ found = done ++ doing).
Proof.
  intros Hc es y0 id y1 done doing part y2 k call f r Hh Ho Sh Ld Pt Hf Own.
  destruct (C107_shared_survives crc Hc es y0 id [] y1 _ y2 k call f r Hh Ho Sh Hf) as (F & d & Sn & Ct & B1 & _ & B2).
  exists F, d. split; [exact Sn|]. split; [exact Ct|].
  assert (Bd : begins (file_of c done) d).
  { destruct done as [|v0 done0] using rev_ind; [exists d; reflexivity|]. clear IHdone0. 
    assert (E : rec_ops (done0 ++ [v0]) ++ part = (rec_ops done0 ++ [WData (write_log c v0)]) ++ WSync :: part).
    { unfold rec_ops. rewrite flat_map_app. cbn [flat_map app]. rewrite <- !app_assoc. reflexivity. }
    specialize (B2 _ _ E). rewrite all_data_app, rec_data in B2. cbn [app] in B2. unfold file_of. rewrite flat_map_app. cbn [flat_map]. rewrite app_nil_r.
    unfold all_data in B2 at 1. cbn [map concat wdata] in B2. rewrite app_nil_r in B2. exact B2. }
  assert (Bu : begins d (file_of c (done ++ doing))).
  { rewrite all_data_app, rec_data in B1. unfold file_of. rewrite flat_map_app. change (flat_map (write_log c) done) with (file_of c done). cbn [app] in B1.
    destruct Pt as [->|(v & -> & ->)].
    - rewrite app_nil_r in B1. assert (Nothing : begins d (file_of c done ++ []) -> begins d (file_of c done ++ flat_map (write_log c) doing)).
      { rewrite app_nil_r. intros B. eapply begins_trans; [exact B|]. eexists. reflexivity. }
      destruct call as [| | | | |j w| | |]; try exact (Nothing B1). destruct (Nat.eqb_spec j k) as [->|]; [|exact (Nothing B1)].
      destruct (Own w eq_refl) as (_ & v & -> & ->). cbn [flat_map]. rewrite app_nil_r. exact B1.
    - cbn [flat_map]. rewrite app_nil_r. unfold all_data in B1. cbn [map concat wdata] in B1. rewrite app_nil_r in B1.
      assert (Nothing : begins d ((file_of c done ++ write_log c v) ++ []) -> begins d (file_of c done ++ write_log c v)) by (rewrite app_nil_r; auto).
      destruct call as [| | | | |j w| | |]; try exact (Nothing B1). destruct (Nat.eqb_spec j k) as [->|]; [|exact (Nothing B1)].
      destruct (Own w eq_refl) as (X & _). discriminate X. }
  assert (Ed : d = firstn (length d) (file_of c (done ++ doing))) by (destruct Bu as (t & ->); rewrite firstn_app, firstn_all, Nat.sub_diag, firstn_O, app_nil_r; reflexivity).
  exists (whole c (length d) (done ++ doing)). split; [intros pieces; rewrite Ed at 1; apply C84_truncated_log_reads_back; exact ok|].
  rewrite whole_past by (apply begins_length; exact Bd). destruct doing as [|v [|]]; [left; apply app_nil_r| |cbn [length] in Ld; lia].
  destruct (whole_one (length d - length (file_of c done)) v) as [->| ->]; [left; apply app_nil_r|right; reflexivity].
Qed.
End Log.

(** power is lost at any moment of a chamber test, whatever other tasks do to other files: the file found decodes to the records
    completed, or those and the one in progress - a sequence of announced states in order, whatever was cut *)
Theorem C108_log_survives : forall {A : numerics} (c : codec (vrecord A)), codec_ok c -> forall crc, crc32 crc ->
  forall p vs s es y0 id y1 part y2 k call f r, vrun p v_new vs = Some s -> history crc es (On y0) ->
  opened crc y0 id [] y1 -> shared crc y1 (its_writer y0) (rec_ops c (v_logged s) ++ part) y2 k -> part_of c (in_progress s) part ->
  (f = fl (sfs y2) /\ call = Flush k \/ legal y2 call /\ call <> OpenWrite id /\ power_lost crc call y2 f) ->
  (forall w, call = Append k w -> own_call c (in_progress s) part k w) ->
  exists F d, snapshot crc f r = Some F /\ content F id = Some d /\
    exists found, (forall pieces, parse_all c (EnumLog.Reader d pieces) = found) /\
      (found = v_logged s \/ found = v_logged s ++ in_progress s) /\
      exists sts, announces p (fed vs) sts /\ subseq (map snd found) sts.
Proof.
  intros A c ok crc Hc p vs s es y0 id y1 part y2 k call f r Hv Hh Ho Sh Pt Hf Own.
  assert (Ld : length (in_progress s) <= 1) by (unfold in_progress; destruct (v_pos s); cbn; lia).
  destruct (log_file c ok crc Hc es y0 id y1 (v_logged s) (in_progress s) part y2 k call f r Hh Ho Sh Ld Pt Hf Own) as (F & d & Sn & Ct & found & Pa & Fo).
  exists F, d. split; [exact Sn|]. split; [exact Ct|]. exists found. split; [exact Pa|]. split; [exact Fo|].
  exists (changes (v_published s)). split; [exact (proj1 (published_order p vs s Hv))|].
  destruct (vinv_run p vs s Hv) as [_ _ Su _ Ta _ _]. assert (S1 : subseq (v_taken s) (changes (v_published s))) by (eapply subseq_app_l; exact Su).
  rewrite Ta in S1. destruct Fo as [->| ->]; [eapply subseq_app_l; exact S1|rewrite map_app; exact S1].
Qed.
Print Assumptions C108_log_survives.

(** ** A concrete case: the state Armed is in the log, power is lost in the middle of writing the drogue deployment *)
Definition vcodec : codec (vrecord exact) := Codec (vrecord exact) (fun _ => 0%N) (fun _ => Some 4)
  (fun v => [Z.to_N (QArith_base.Qnum (fst v)); Z.to_N (- QArith_base.Qnum (fst v)); N.pos (QArith_base.Qden (fst v)); state_code (snd v)])
  (fun _ b => (QArith_base.Qmake (Z.of_N (nth 0 b 0%N) - Z.of_N (nth 1 b 0%N)) (match nth 2 b 0%N with N.pos q => q | N0 => 1%positive end), state_of_code (nth 3 b 0%N))).
Lemma vcodec_ok : codec_ok vcodec.
Proof.
  intros [[n d] s]. split; [reflexivity|]. unfold vcodec. cbn [unarchive archive tag nth fst snd QArith_base.Qnum QArith_base.Qden].
  assert (E : (Z.of_N (Z.to_N n) - Z.of_N (Z.to_N (- n)))%Z = n) by lia. rewrite E. destruct s; reflexivity.
Qed.
Definition v_cut : list (vevent exact) :=
  [VStart; VTick (vread 0 30 0); vtake 1; vtake 1; VFinish; VTick (vread 1000 2000 (-30)); vtake 2; VTick (vread 3000 1900 (-30)); vtake 3; vtake 3].
Lemma v_cut_run : exists s, vrun (demo_profile exact) v_new v_cut = Some s /\ v_logged s = [(QArith_base.Qmake 1 1, Armed)] /\ in_progress s = [(QArith_base.Qmake 3 1, DrogueChuteDeployed)].
Proof.
  assert (E : option_map (fun s => (v_logged s, in_progress s)) (vrun (demo_profile exact) v_new v_cut) = Some ([(QArith_base.Qmake 1 1, Armed)], [(QArith_base.Qmake 3 1, DrogueChuteDeployed)])) by (vm_compute; reflexivity).
  destruct (vrun (demo_profile exact) v_new v_cut) as [s|]; [|discriminate E]. exists s. split; [reflexivity|]. cbn [option_map] in E. injection E as E1 E2. auto.
Qed.
Definition armed_bytes : list N := [0;1;0;1;1]%N.
Definition drogue_bytes : list N := [0;3;0;1;5]%N.
From Verif Require Import PropSpace PropRules FsExamples.
Example ex_C108_file : exists s es y0 y1 y2 k f, vrun (demo_profile exact) v_new v_cut = Some s /\ history sum es (On y0) /\ opened sum y0 2 [] y1 /\
  shared sum y1 (its_writer y0) (rec_ops vcodec (v_logged s) ++ []) y2 k /\ part_of vcodec (in_progress s) [] /\
  legal y2 (Append k drogue_bytes) /\ Append k drogue_bytes <> OpenWrite 2 /\ power_lost sum (Append k drogue_bytes) y2 f /\ own_call vcodec (in_progress s) [] k drogue_bytes /\
  snapshot sum f (fun _ => 0%N) = Some [(1, 3, [1;2;3;4;5]); (2, 4, armed_bytes)]%N.
Proof.
  destruct v_cut_run as (s & Es & El & Ep).
  destruct (reach two_files (fun y => legalb y (OpenWrite 2) && is_done (snd (perform sum (OpenWrite 2) y)) && Nat.eqb (its_writer y) 0 &&
      match snapshot sum (fl (sfs y)) (fun _ => 0%N) with Some F => same F [(1, 3, [1;2;3;4;5]); (2, 4, [])]%N | None => false end &&
      match mixed [Own (WData armed_bytes); Own WSync] (fst (perform sum (OpenWrite 2) y)) 0 with
      | Some (y2, k) => Nat.eqb k 0 && legalb y2 (Append 0 drogue_bytes) && after_loss (Append 0 drogue_bytes) 0 200 y2 [(1, 3, [1;2;3;4;5]); (2, 4, armed_bytes)]%N
      | None => false
      end)) as (es & y0 & Hh & H); [vm_compute; reflexivity|].
  apply andb_prop in H. destruct H as [H H5]. apply andb_prop in H. destruct H as [H H4]. apply andb_prop in H. destruct H as [H H3].
  apply andb_prop in H. destruct H as [H1 H2]. apply Nat.eqb_eq in H3.
  destruct (perform sum (OpenWrite 2) y0) as [y1 r1] eqn:E1. cbn [fst snd] in *. apply is_done_eq in H2. subst r1.
  destruct (mixed [Own (WData armed_bytes); Own WSync] y1 0) as [[y2 k]|] eqn:E2; [|exfalso; exact (Bool.diff_false_true H5)].
  apply andb_prop in H5. destruct H5 as [H H7]. apply andb_prop in H. destruct H as [H5 H6]. apply Nat.eqb_eq in H5. subst k.
  destruct (after_loss_sound _ _ _ _ _ H7) as (f & P & Sn). exists s, es, y0, y1, y2, 0%nat, f. split; [exact Es|]. split; [exact Hh|]. rewrite El, Ep. split.
  - destruct (snapshot sum (fl (sfs y0)) (fun _ => 0%N)) as [F|] eqn:ES; [|exfalso; exact (Bool.diff_false_true H4)]. apply same_eq in H4. subst F.
    eapply op_exists; [apply legalb_sound; exact H1|exact E1|exact ES|reflexivity].
  - rewrite H3. split; [exact (mixed_shared [Own (WData armed_bytes); Own WSync] y1 0%nat y2 0%nat E2)|]. split; [left; reflexivity|].
    split; [apply legalb_sound; exact H6|]. split; [discriminate|]. split; [exact P|]. split; [|exact Sn].
    split; [reflexivity|]. eexists. split; [reflexivity|]. reflexivity.
Qed.

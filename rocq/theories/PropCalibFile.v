(** * C101: the IMU calibration survives a restart; C101 power loss.
    [history], [legal], [unused]: FsApi.v, PropConfig.v. *)
From Coq Require Import String Permutation.
From Verif Require PropRing.
From Verif Require Import Base Majority Flash FS Sectors SectorsProofs ATable TornCode TableCode TableScan TableBuild TableOps DirOps Chains FileIO FileFormat FileWrite WriteOps WriteSpec Disk Sessions DirState OpenOps Append OpenWrite FsSpec FsApi FsRefine FsBoot FsHistory PropDirectory FsExec PropFiles PropRules Config FsExamples PropConfig CalibFile.
Local Open Scope N_scope.
Local Open Scope fs_scope.

(** ** The 156 bytes *)
Lemma word_back w : w < 2 ^ 32 -> w mod 256 + 256 * (w / 256 mod 256) + 65536 * (w / 65536 mod 256) + 16777216 * (w / 16777216 mod 256) = w.
Proof.
  intros H. change (2 ^ 32) with 4294967296 in H.
  assert (D2 : w / 65536 = w / 256 / 256) by (rewrite N.div_div by lia; reflexivity).
  assert (D3 : w / 16777216 = w / 256 / 256 / 256) by (rewrite !N.div_div by lia; reflexivity).
  rewrite D2, D3. set (a := w / 256) in *. set (b := a / 256) in *. set (c := b / 256) in *.
  pose proof (N.div_mod w 256 ltac:(lia)) as E1. fold a in E1. pose proof (N.div_mod a 256 ltac:(lia)) as E2. fold b in E2.
  pose proof (N.div_mod b 256 ltac:(lia)) as E3. fold c in E3.
  assert (c < 256) by (unfold c, b, a; rewrite !N.div_div by lia; apply N.div_lt_upper_bound; lia). rewrite (N.mod_small c) by assumption. lia.
Qed.
Lemma memory_length ws : length (memory ws) = (4 * length ws)%nat.
Proof. unfold memory. induction ws as [|w ws IH]; [reflexivity|]. cbn [flat_map]. rewrite app_length, IH. cbn [word_bytes length]. lia. Qed.
Lemma words_memory ws : Forall (fun w => w < 2 ^ 32) ws -> forall rest, words (length ws) (memory ws ++ rest) = ws.
Proof.
  induction 1 as [|w ws H Hs IH]; intros rest; [reflexivity|]. unfold memory. cbn [flat_map]. fold (memory ws). rewrite <- app_assoc. cbn [length words word_bytes app].
  rewrite word_back by exact H. f_equal. apply IH.
Qed.
Lemma range_here a l1 l2 l3 : length l1 = a -> range a (a + length l2) (l1 ++ l2 ++ l3) = l2.
Proof.
  intros <-. unfold range. rewrite skipn_app, skipn_all, Nat.sub_diag. cbn [app skipn]. replace (length l1 + length l2 - length l1)%nat with (length l2) by lia.
  rewrite firstn_app, firstn_all, Nat.sub_diag. cbn [firstn]. rewrite app_nil_r. reflexivity.
Qed.
Lemma serialize_length i : info_ok i -> length (serialize i) = 156%nat.
Proof. intros ((A & B & C & D & E & F & G) & _). unfold serialize. rewrite !app_length, !memory_length, A, B, C, D, E, F, G. reflexivity. Qed.
Lemma serialize_bytes i : bytes_ok (serialize i).
Proof.
  assert (M : forall ws, bytes_ok (memory ws)).
  { unfold memory. induction ws as [|w ws IH]; [constructor|]. cbn [flat_map]. apply Forall_app. split; [|exact IH].
    repeat constructor; apply N.mod_lt; discriminate. }
  unfold serialize. repeat (apply Forall_app; split; [apply M|]). apply M.
Qed.

(** the bytes and the calibration determine each other *)
Theorem C101_bytes_roundtrip : forall i, info_ok i -> length (serialize i) = 156%nat /\ bytes_ok (serialize i) /\ deserialize (serialize i) = i.
Proof.
  intros i H. split; [apply serialize_length; exact H|]. split; [apply serialize_bytes|]. destruct H as ((A & B & C & D & E & F & G) & W).
  destruct i as [ba kga bg am gm av gv]. cbn [i_b_a i_K_ga i_b_g i_acc_mat i_gyro_mat i_acc_var i_gyro_var] in *.
  apply Forall_app in W. destruct W as (W1 & W). apply Forall_app in W. destruct W as (W2 & W). apply Forall_app in W. destruct W as (W3 & W).
  apply Forall_app in W. destruct W as (W4 & W). apply Forall_app in W. destruct W as (W5 & W). apply Forall_app in W. destruct W as (W6 & W7).
  unfold deserialize, serialize. cbn [i_b_a i_K_ga i_b_g i_acc_mat i_gyro_mat i_acc_var i_gyro_var].
  pose proof (memory_length ba) as La. pose proof (memory_length kga) as Lb. pose proof (memory_length bg) as Lc. pose proof (memory_length am) as Ld. pose proof (memory_length gm) as Le. pose proof (memory_length av) as Lf. pose proof (memory_length gv) as Lg.
  rewrite A in La. rewrite B in Lb. rewrite C in Lc. rewrite D in Ld. rewrite E in Le. rewrite F in Lf. rewrite G in Lg. cbn in La, Lb, Lc, Ld, Le, Lf, Lg.
  set (m1 := memory ba) in *. set (m2 := memory kga) in *. set (m3 := memory bg) in *. set (m4 := memory am) in *. set (m5 := memory gm) in *. set (m6 := memory av) in *. set (m7 := memory gv) in *.
  assert (R2 : range 12 48 (m1 ++ m2 ++ m3 ++ m4 ++ m5 ++ m6 ++ m7) = m2) by (replace 48%nat with (12 + length m2)%nat by lia; apply range_here; exact La).
  assert (R3 : range 48 60 (m1 ++ m2 ++ m3 ++ m4 ++ m5 ++ m6 ++ m7) = m3).
  { replace 60%nat with (48 + length m3)%nat by lia. rewrite (app_assoc m1 m2). apply range_here. rewrite app_length. lia. }
  assert (R4 : range 60 96 (m1 ++ m2 ++ m3 ++ m4 ++ m5 ++ m6 ++ m7) = m4).
  { replace 96%nat with (60 + length m4)%nat by lia. rewrite (app_assoc m1 m2), (app_assoc (m1 ++ m2) m3). apply range_here. rewrite !app_length. lia. }
  assert (R5 : range 96 132 (m1 ++ m2 ++ m3 ++ m4 ++ m5 ++ m6 ++ m7) = m5).
  { replace 132%nat with (96 + length m5)%nat by lia. rewrite (app_assoc m1 m2), (app_assoc (m1 ++ m2) m3), (app_assoc ((m1 ++ m2) ++ m3) m4). apply range_here. rewrite !app_length. lia. }
  assert (R6 : range 132 144 (m1 ++ m2 ++ m3 ++ m4 ++ m5 ++ m6 ++ m7) = m6).
  { replace 144%nat with (132 + length m6)%nat by lia. rewrite (app_assoc m1 m2), (app_assoc (m1 ++ m2) m3), (app_assoc ((m1 ++ m2) ++ m3) m4), (app_assoc (((m1 ++ m2) ++ m3) ++ m4) m5). apply range_here. rewrite !app_length. lia. }
  assert (R7 : range 144 156 (m1 ++ m2 ++ m3 ++ m4 ++ m5 ++ m6 ++ m7) = m7).
  { replace 156%nat with (144 + length m7)%nat by lia. rewrite (app_assoc m1 m2), (app_assoc (m1 ++ m2) m3), (app_assoc ((m1 ++ m2) ++ m3) m4), (app_assoc (((m1 ++ m2) ++ m3) ++ m4) m5), (app_assoc ((((m1 ++ m2) ++ m3) ++ m4) ++ m5) m6).
    pose proof (range_here 144 (((((m1 ++ m2) ++ m3) ++ m4) ++ m5) ++ m6) m7 []) as Z. rewrite app_nil_r in Z. apply Z. rewrite !app_length. lia. }
  rewrite R2, R3, R4, R5, R6, R7. f_equal.
  - rewrite <- A. apply words_memory. exact W1.
  - rewrite <- B, <- (app_nil_r m2). apply words_memory. exact W2.
  - rewrite <- C, <- (app_nil_r m3). apply words_memory. exact W3.
  - rewrite <- D, <- (app_nil_r m4). apply words_memory. exact W4.
  - rewrite <- E, <- (app_nil_r m5). apply words_memory. exact W5.
  - rewrite <- F, <- (app_nil_r m6). apply words_memory. exact W6.
  - rewrite <- G, <- (app_nil_r m7). apply words_memory. exact W7.
Qed.

(** ** Reading *)
(** what a listing says *)
Definition calibration_of (F : list file) : outcome :=
  match find (fun x => f_typ x =? CALIBRATION_FILE_TYPE) F with
  | Some x => if Nat.leb 156 (length (f_data x)) then Loaded (deserialize (firstn 156 (f_data x))) else Panicked
  | None => Absent
  end.
Lemma read_spec crc y v : Repr crc y v ->
  (forall x, find (fun x => f_typ x =? CALIBRATION_FILE_TYPE) (v_files v) = Some x -> marked v (f_id x) = false) -> (length (v_open v) < 32)%nat ->
  read_calibration crc (sfs y) = calibration_of (v_files v).
Proof.
  intros R Hm Hl. unfold read_calibration, calibration_of. destruct (first_file crc y v CALIBRATION_FILE_TYPE R) as (o & -> & Eo).
  destruct (find (fun x => f_typ x =? CALIBRATION_FILE_TYPE) (v_files v)) as [x|] eqn:Ex; destruct o as [e|]; cbn [option_map] in Eo; try discriminate; [|reflexivity].
  injection Eo as Eo. pose proof (find_unique _ _ _ (repr_sorted crc y v R) Ex) as Eu.
  destruct (can_read crc y v (e_id e) (f_data x) R) as (s' & rd & E & Sv); [rewrite Eo; unfold content; rewrite Eu; reflexivity|rewrite Eo; apply Hm; reflexivity|exact Hl|].
  rewrite E. destruct (serves_step crc (fl s') rd (f_data x) 156 Sv) as (r' & st & E2 & _). rewrite E2. rewrite firstn_length.
  destruct (Nat.leb_spec 156 (length (f_data x))) as [Hle|Hgt].
  - rewrite Nat.min_l by exact Hle. rewrite Nat.eqb_refl. reflexivity.
  - rewrite Nat.min_r by lia. destruct (Nat.eqb_spec (length (f_data x)) 156) as [Eq|_]; [lia|reflexivity].
Qed.
Lemma booted_calibration crc f F top gen r : Holds crc f F top gen -> calibration_at_boot crc f r = calibration_of F.
Proof.
  intros Hh. destruct (boot_holds crc f F top gen r Hh) as (s & top' & E & RR & _). unfold calibration_at_boot. rewrite E.
  change s with (sfs (mkSys s [] [])). rewrite (read_spec crc _ _ RR); [reflexivity|reflexivity|cbn [v_open length]; lia].
Qed.
Lemma calibration_last F id d : calibration_of (other_files CALIBRATION_FILE_TYPE F ++ [(id, CALIBRATION_FILE_TYPE, d)]) =
  if Nat.leb 156 (length d) then Loaded (deserialize (firstn 156 d)) else Panicked.
Proof.
  unfold calibration_of. assert (E : find (fun x => f_typ x =? CALIBRATION_FILE_TYPE) (other_files CALIBRATION_FILE_TYPE F ++ [(id, CALIBRATION_FILE_TYPE, d)]) = Some (id, CALIBRATION_FILE_TYPE, d)); [|rewrite E; reflexivity].
  unfold other_files. induction F as [|a F IH]; cbn [filter app find].
  - unfold f_typ at 1. cbn [fst snd]. rewrite N.eqb_refl. reflexivity.
  - destruct (f_typ a =? CALIBRATION_FILE_TYPE) eqn:E; cbn [negb]; [exact IH|]. cbn [app find]. rewrite E. exact IH.
Qed.
Lemma calibration_none F : calibration_of (other_files CALIBRATION_FILE_TYPE F) = Absent.
Proof.
  unfold calibration_of. assert (E : find (fun x => f_typ x =? CALIBRATION_FILE_TYPE) (other_files CALIBRATION_FILE_TYPE F) = None); [|rewrite E; reflexivity].
  unfold other_files. induction F as [|a F IH]; [reflexivity|]. cbn [filter]. destruct (f_typ a =? CALIBRATION_FILE_TYPE) eqn:E; cbn [negb]; [exact IH|]. cbn [find]. rewrite E. exact IH.
Qed.

(** ** C101 *)
(** After any history, with no calibration file in use: once the calibration has been stored, every later start of the device reads
    exactly that calibration, bit for bit, and so does a read without a restart; the files of other types are as before. *)
Theorem C101_stored_calibration_is_read : forall crc, crc32 crc -> forall es y i y', history crc es (On y) ->
  unused y CALIBRATION_FILE_TYPE -> legal y (Create CALIBRATION_FILE_TYPE) -> info_ok i -> store_calibration crc i y = (y', RDone) ->
  (forall r, calibration_at_boot crc (fl (sfs y')) r = Loaded i) /\
  ((length (a_open (atb (sfs y'))) < 32)%nat -> read_calibration crc (sfs y') = Loaded i) /\
  (forall r, exists F F', snapshot crc (fl (sfs y)) r = Some F /\ snapshot crc (fl (sfs y')) r = Some F' /\
     other_files CALIBRATION_FILE_TYPE F' = other_files CALIBRATION_FILE_TYPE F).
Proof.
  intros crc Hc es y i y' Hh U L Ok E. destruct (running crc es y Hc Hh) as (v & _ & R). destruct (C101_bytes_roundtrip i Ok) as (Len & Bd & Rt).
  destruct (write_phases crc Hc y v CALIBRATION_FILE_TYPE (serialize i) R U L Bd) as [_ K]. destruct (K y' E) as (v' & id & R' & F' & M & Fr & _).
  assert (Ec : calibration_of (v_files v') = Loaded i).
  { rewrite F', calibration_last. rewrite Len. replace (Nat.leb 156 156) with true by (symmetry; apply Nat.leb_le; lia). rewrite firstn_all2 by lia. rewrite Rt. reflexivity. }
  split; [|split].
  - intros r. rewrite <- Ec. apply (booted_calibration crc _ _ (v_top v') (v_gen v')). left. apply repr_kept. exact R'.
  - intros Hl. rewrite (read_spec crc y' v' R'); [exact Ec| |rewrite <- (Permutation_length (rr_open crc y' v' R')); exact Hl].
    intros x Hx. enough (Ex : x = (id, CALIBRATION_FILE_TYPE, serialize i)) by (rewrite Ex; exact M).
    assert (E2 : find (fun x => f_typ x =? CALIBRATION_FILE_TYPE) (v_files v') = Some (id, CALIBRATION_FILE_TYPE, serialize i)); [|congruence].
    rewrite F'. clear. unfold other_files. induction (v_files v) as [|a F IH]; cbn [filter app find].
    + unfold f_typ at 1. cbn [fst snd]. rewrite N.eqb_refl. reflexivity.
    + destruct (f_typ a =? CALIBRATION_FILE_TYPE) eqn:E; cbn [negb]; [exact IH|]. cbn [app find]. rewrite E. exact IH.
  - intros r. exists (v_files v), (v_files v'). split; [apply repr_snapshot; exact R|]. split; [apply repr_snapshot; exact R'|].
    rewrite F'. apply other_last.
Qed.
Print Assumptions C101_stored_calibration_is_read.

(** A power loss at any moment of the storing: the next start finds the old calibration, none, the new one, or PANICS; it never reads
    a mixture.  (The property also asks for no panic: false, see below.) *)
Theorem C101_power_loss_partial : forall crc, crc32 crc -> forall es y i f r, history crc es (On y) ->
  unused y CALIBRATION_FILE_TYPE -> legal y (Create CALIBRATION_FILE_TYPE) -> info_ok i -> config_lost crc CALIBRATION_FILE_TYPE (serialize i) y f ->
  calibration_at_boot crc f r = calibration_at_boot crc (fl (sfs y)) r \/ calibration_at_boot crc f r = Absent \/
  calibration_at_boot crc f r = Loaded i \/ calibration_at_boot crc f r = Panicked.
Proof.
  intros crc Hc es y i f r Hh U L Ok (yi & c & Hin & Hlost). destruct (running crc es y Hc Hh) as (v & _ & R). destruct (C101_bytes_roundtrip i Ok) as (Len & Bd & Rt).
  destruct (write_phases crc Hc y v CALIBRATION_FILE_TYPE (serialize i) R U L Bd) as [K _]. destruct (K yi c Hin) as (vi & Ri & Ai & Ph).
  pose proof (refines crc Hc yi vi c Ri Ai) as Rf. unfold Refined in Rf. destruct (perform crc c yi) as [yo ro]. destruct Rf as [_ [Hl _]].
  destruct (Hl f Hlost) as (F' & top & gen & Ls & Kp & _). specialize (Ph F' Ls).
  assert (E1 : calibration_at_boot crc f r = calibration_of F') by (apply (booted_calibration crc f F' top gen); left; exact Kp).
  assert (E0 : calibration_at_boot crc (fl (sfs y)) r = calibration_of (v_files v)) by (apply (booted_calibration crc _ _ (v_top v) (v_gen v)); left; apply repr_kept; exact R).
  rewrite E1, E0. destruct Ph as [->|[->|(id & data & Fr & (tl & Eq) & ->)]]; [left; reflexivity|right; left; apply calibration_none|right; right].
  rewrite calibration_last. destruct (Nat.leb_spec 156 (length data)) as [Hle|_]; [left|right; reflexivity].
  assert (Z : length (serialize i) = (length data + length tl)%nat) by (rewrite Eq, app_length; reflexivity). rewrite Len in Z.
  destruct tl; [|cbn [length] in Z; lia]. rewrite app_nil_r in Eq. subst data. rewrite firstn_all2 by lia. rewrite Rt. reflexivity.
Qed.
Print Assumptions C101_power_loss_partial.

(** Finding.  In EVERY storing that would have succeeded there is a moment such that, if the power goes there, every later attempt to
    read the calibration panics (the file exists and is still empty). *)
Theorem C101_refuted_power_loss_panics : forall crc, crc32 crc -> forall es y i y', history crc es (On y) ->
  unused y CALIBRATION_FILE_TYPE -> legal y (Create CALIBRATION_FILE_TYPE) -> info_ok i -> store_calibration crc i y = (y', RDone) ->
  exists yi c, In (yi, c) (fst (config_run crc CALIBRATION_FILE_TYPE (serialize i) y)) /\ forall r, calibration_at_boot crc (fl (sfs yi)) r = Panicked.
Proof.
  intros crc Hc es y i y' Hh U L Ok E. destruct (running crc es y Hc Hh) as (v & _ & R). destruct (C101_bytes_roundtrip i Ok) as (Len & Bd & Rt).
  set (t := CALIBRATION_FILE_TYPE) in *. set (d := serialize i) in *.
  assert (Bd0 : bytes_ok []) by constructor.
  destruct (legal_create y v crc t R L) as [Ht Hlen]. pose proof (unused_view crc y v t R U) as UV. unfold store_calibration, config_write, config_run, of_type in *. fold t d in E.
  set (sel := fun _ ty : N => ty =? t) in *.
  assert (Gs : forall x, In x (v_files v) -> stays v sel x = negb (f_typ x =? t)).
  { intros x Hx. unfold stays, goes, sel. f_equal. destruct (N.eqb_spec (f_typ x) t) as [Z|_]; [|reflexivity]. destruct (UV x Hx Z) as [A _]. rewrite A. reflexivity. }
  assert (Ef : filter (stays v sel) (v_files v) = other_files t (v_files v)) by (apply filter_ext_in; exact Gs).
  assert (A0 : allowed v (Remove sel)).
  { cbn [allowed]. intros id pend x Hi Hl. apply find_some in Hl. destruct Hl as [Hx Hid]. apply N.eqb_eq in Hid. unfold goes, sel.
    destruct (N.eqb_spec (f_typ x) t) as [Z|_]; [|reflexivity]. exfalso. destruct (UV x Hx Z) as [_ B]. apply B. rewrite Hid. exact (in_map fst _ _ Hi). }
  pose proof (refines crc Hc y v _ R A0) as Rf. unfold Refined in Rf. destruct (perform crc (Remove sel) y) as [y1 r1]. destruct Rf as [(v1 & D1 & RR1) _].
  cbn [does] in D1. destruct D1 as [[-> Ev1]|[-> _]]; [|discriminate E].
  specialize (RR1 ltac:(discriminate)). assert (F1 : v_files v1 = other_files t (v_files v)) by (rewrite Ev1; exact Ef).
  assert (A1 : allowed v1 (Create t)).
  { cbn [allowed]. split; [exact Ht|]. rewrite F1. eapply Nat.le_lt_trans; [|exact Hlen]. unfold other_files. clear. induction (v_files v) as [|a l IH]; cbn [filter length]; [lia|].
    destruct (negb (f_typ a =? t)); cbn [length]; lia. }
  pose proof (refines crc Hc y1 v1 _ RR1 A1) as Rf. unfold Refined in Rf. destruct (perform crc (Create t) y1) as [y2 r2]. destruct Rf as [(v2 & D2 & RR2) _].
  cbn [does] in D2. destruct D2 as [[-> Ev2]|[-> _]]; [|discriminate E].
  specialize (RR2 ltac:(discriminate)).
  exists y2, (OpenWrite (next_id v1)). split.
  - cbn [fst snd] in *. destruct (perform crc (OpenWrite (next_id v1)) y2) as [y3 [| | | |]]; cbn [fst]; try (right; right; left; reflexivity).
    destruct (perform crc (Append (length (sws y)) d) y3) as [y4 [| | | |]]; cbn [fst]; right; right; left; reflexivity.
  - intros r. rewrite (booted_calibration crc _ (v_files v2) (v_top v2) (v_gen v2) r) by (left; apply repr_kept; exact RR2).
    rewrite Ev2. cbn [v_files]. rewrite F1. unfold t. rewrite calibration_last. reflexivity.
Qed.
Print Assumptions C101_refuted_power_loss_panics.

(** the hypotheses are met: a store that holds an older, short file of this type *)
Definition some_info : stored_info := StoredInfo [1065353216;0;3212836864] (repeat 1073741824 9) [0;0;1] (repeat 7 9) (repeat 4294967295 9) [1;2;3] [4;5;6].
Lemma some_info_ok : info_ok some_info.
Proof. split; [cbn; repeat split|]. cbn. repeat constructor. Qed.
Theorem C101_instance : exists es y y', history sum es (On y) /\ unused y CALIBRATION_FILE_TYPE /\ legal y (Create CALIBRATION_FILE_TYPE) /\
  info_ok some_info /\ store_calibration sum some_info y = (y', RDone).
Proof.
  destruct (reach old_config (fun y => unusedb y 3 && legalb y (Create 3) && is_done (snd (store_calibration sum some_info y)))) as (es & y & Hh & H); [vm_compute; reflexivity|].
  apply andb_prop in H. destruct H as [H H3]. apply andb_prop in H. destruct H as [H1 H2].
  destruct (store_calibration sum some_info y) as [y' r] eqn:E. cbn [fst snd] in *. exists es, y, y'. split; [exact Hh|]. split; [apply unusedb_sound; exact H1|].
  split; [apply legalb_sound; exact H2|]. split; [exact some_info_ok|]. rewrite E. f_equal. apply is_done_eq. exact H3.
Qed.

(** The type of the calibration file is that of common/file_types.rs, which no other kind of file has (the table of C64). *)
Theorem C101_its_own_type : forall name, In (name, N.to_nat CALIBRATION_FILE_TYPE) PropRing.file_types <-> name = "CALIBRATION_FILE_TYPE"%string.
Proof.
  intro name. split; [|intros ->; unfold PropRing.file_types, In; change (N.to_nat CALIBRATION_FILE_TYPE) with 3%nat; tauto].
  unfold PropRing.file_types, In. change (N.to_nat CALIBRATION_FILE_TYPE) with 3%nat. intro H.
  repeat (destruct H as [H|H]; [first [discriminate H|injection H; intros; subst; reflexivity]|]). destruct H.
Qed.

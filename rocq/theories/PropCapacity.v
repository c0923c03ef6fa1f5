(** * C12 in full is false: with 2518 files present, creating one more writes beyond the 32 KiB slot.
    (at_builder.rs:165-201, 248-258 never compare the number of files with MAX_FILES, mod.rs:43.) *)
From Coq Require Import Sorted Permutation.
From Verif Require Import Base Majority Flash FS Sectors SectorsProofs ATable TornCode TableCode TableScan TableBuild TableOps DirOps Chains FileIO FileFormat FileWrite WriteOps WriteSpec Disk Sessions DirState OpenOps Append OpenWrite FsSpec FsApi FsRefine FsBoot FsHistory PropDirectory.
Local Open Scope N_scope.
Local Open Scope fs_scope.

Lemma fold_max_eq l : forall t, Forall (fun x => x <= t) l -> fold_right N.max t l = t.
Proof. induction l as [|a l IH]; intros t Hf; cbn [fold_right]; [reflexivity|]. inversion Hf; subst. rewrite (IH t H2). lia. Qed.

Definition small (n : nat) (v : view) : Prop :=
  length (v_files v) = n /\ v_top v = N.of_nat n /\ Forall (fun x => f_id x <= N.of_nat n) (v_files v) /\ v_gen v <= N.of_nat n + 1.

Lemma many_files crc (Hc : crc32 crc) n : (n <= 2518)%nat -> exists es y v, history crc es (On y) /\ Repr crc y v /\ small n v.
Proof.
  induction n as [|n IH]; intros Hn.
  - assert (Hh : Holds crc blank [] 0 1) by (right; split; [apply blank_fresh|auto]).
    destruct (boot_holds crc blank [] 0 1 (fun _ => 0) Hh) as (s & top & E & R & _ & _).
    assert (Et : top = 0).
    { pose proof R as [(p & ents & C & H & W & ST & _) _ _ _]. cbn [sfs v_gen v_top] in ST.
      pose proof (dr_at _ _ _ _ _ (state_dir _ _ _ _ _ _ _ _ _ ST)) as Ea.
      assert (Ev : a_max (atb (fst (boot blank (fun _ => 0)))) = 0) by (vm_compute; reflexivity).
      rewrite E in Ev. cbn [fst] in Ev. rewrite Ea in Ev. exact Ev. }
    exists ([] ++ [ABoot]), (mkSys s [] []), (mkV [] [] [] [] top 1). split; [|split; [exact R|]].
    + eapply hi_step; [apply hi_new, FsBoot.blank_unused|exact I|]. eapply step_boot. exact E.
    + unfold small. cbn [v_files v_top v_gen length]. rewrite Et. repeat split; try lia. constructor.
  - destruct IH as (es & y & v & Hh & R & S1 & S2 & S3 & S4); [lia|].
    assert (HL : legal y (Create 1)).
    { split; [reflexivity|]. intros l El. destruct (repr_iter crc y v R) as (l' & El' & Em). rewrite El in El'. injection El' as <-.
      assert (Len : length l = length (v_files v)) by (rewrite <- (map_length (fun e => (e_id e, e_typ e))), Em, map_length; reflexivity). rewrite Len, S1. exact Hn. }
    pose proof (refines crc Hc y v (Create 1) R (legal_allowed crc y v _ R HL)) as Rf. unfold Refined in Rf.
    destruct (perform crc (Create 1) y) as [y' r] eqn:Ep. destruct Rf as [(v' & D & RR) _].
    assert (Hid : next_id v = N.of_nat (S n)).
    { unfold next_id. rewrite (fold_max_eq _ (v_top v)); [lia|]. rewrite Forall_map, S2. exact S3. }
    cbn [does] in D. destruct D as [[-> ->]|[-> Hlim]].
    + exists (es ++ [ACall (Create 1) (RId (next_id v))]), y'. eexists. split; [|split; [apply RR; discriminate|]].
      * eapply hi_step; [exact Hh|exact HL|]. eapply step_call; [exact Ep|discriminate].
      * unfold small. cbn [v_files v_top v_gen]. rewrite app_length. cbn [length]. repeat split; try lia.
        apply Forall_app. split; [|constructor; [unfold f_id; cbn [fst]; lia|constructor]]. eapply Forall_impl; [|exact S3]. cbv beta. intros x Hx. lia.
    + exfalso. unfold limit64 in Hlim. assert (N.of_nat (S n) < 10000) by lia. clear -Hlim Hid S4 H.
      assert (B : 2 ^ 64 = 18446744073709551616) by reflexivity. rewrite B in Hlim. lia.
Qed.

Lemma extend_fits p d s : d <> [] -> (length (pb_data p) + length d < 256)%nat -> pb_extend p d s = (s, Ok (mkPB (pb_addr p) (pb_data p ++ d))).
Proof.
  intros Hd H. unfold pb_extend. destruct d as [|x d]; [congruence|].
  cbn [pb_extend_loop]. destruct (Nat.ltb_spec (length (x :: d)) (256 - length (pb_data p))) as [L|L]; [reflexivity|exfalso; lia].
Qed.

Lemma loop_full k p d s : d <> [] -> (256 - length (pb_data p) <= length d)%nat ->
  pb_extend_loop (S k) p d s =
  pb_extend_loop k (mkPB (pb_addr p + 256) []) (skipn (256 - length (pb_data p)) d)
    (emit s (Prog (pb_addr p) ((pb_data p ++ firstn (256 - length (pb_data p)) d) ++
       repeat 255 (256 - length (pb_data p ++ firstn (256 - length (pb_data p)) d))))).
Proof.
  intros Hd H. destruct d as [|c d]; [congruence|]. cbn [pb_extend_loop].
  destruct (Nat.ltb_spec (length (c :: d)) (256 - length (pb_data p))) as [L|L]; [lia|].
  unfold pb_flush. cbn [pb_addr pb_data]. rewrite bind_assoc, bind_out, bind_ret. reflexivity.
Qed.
Lemma loop_fits k p d s : d <> [] -> (length d < 256 - length (pb_data p))%nat -> pb_extend_loop (S k) p d s = (s, Ok (mkPB (pb_addr p) (pb_data p ++ d))).
Proof.
  intros Hd H. destruct d as [|c d]; [congruence|]. cbn [pb_extend_loop].
  destruct (Nat.ltb_spec (length (c :: d)) (256 - length (pb_data p))) as [L|L]; [reflexivity|lia].
Qed.

(** a buffer of 248 bytes given 13 more: the page is programmed and 5 bytes remain for the next page *)
Lemma extend_splits A p d s : length (pb_data p) = 248%nat -> length d = 13%nat -> pb_addr p = A ->
  pb_extend p d s = (emit s (Prog A (pb_data p ++ firstn 8 d)), Ok (mkPB (A + 256) (skipn 8 d))).
Proof.
  intros Hp Hd <-. assert (Hne : d <> []) by (intros ->; discriminate Hd).
  assert (Ls : length (skipn 8 d) = 5%nat) by (rewrite skipn_length, Hd; reflexivity).
  assert (Hns : skipn 8 d <> []) by (intros X; rewrite X in Ls; discriminate Ls).
  unfold pb_extend. rewrite Hd, loop_full by (try exact Hne; lia). rewrite Hp. change (256 - 248)%nat with 8%nat.
  rewrite app_length, Hp, firstn_length, Hd. change (256 - (248 + Nat.min 8 13))%nat with 0%nat. cbn [repeat]. rewrite app_nil_r.
  rewrite loop_fits; [reflexivity|exact Hns|]. rewrite Ls. cbn [pb_data length]. lia.
Qed.

Lemma create_beyond s p seq ents mx typ : Dir s p seq ents mx -> seq + 1 < 2 ^ 64 -> length ents = 2518%nat -> maxid mx ents + 1 < 2 ^ 64 ->
  exists s' ops d, create_file typ s = (s', Ok (mkE (maxid mx ents + 1) typ None)) /\ a_pos (atb s') = next_slot p /\
    lg s' = lg s ++ ops ++ [Prog (next_slot p * 32768 + 32768) d] /\ firstn 5 d = skipn 8 (footer_serialize (maxid mx ents + 1)).
Proof.
  intros [R A] Hs Hl Hm. unfold create_file.
  destruct (new_spec false s (fun _ => True) p seq mx ents Hs A) as (s1 & b1 & E1 & B1 & F1 & M1 & K1 & A1).
  rewrite (bind_ok _ _ _ _ _ E1).
  destruct (copy_loop false s (fun _ => True) p seq mx ents R Hs ents loop_fuel s1 b1 0 [] mx B1 F1 eq_refl) as (s2 & b2 & E2 & B2 & M2 & A2 & K2).
  { lia. } { apply loop_fuel_big. unfold slot_blocks. lia. } { unfold slot_blocks. cbn [length]. lia. }
  cbn [app] in B2.
  assert (Em : b_max b2 = maxid mx ents) by apply (bi_max _ _ _ _ _ _ _ _ _ _ B2).
  pose proof (bi_w _ _ _ _ _ _ _ _ _ _ B2) as W2. pose proof (TableBuild.wi_tr _ _ _ _ _ _ _ W2) as T2. destruct T2 as (ops & L2 & _).
  assert (WL : length (written seq ents) = (13 * (2518 + 1))%nat) by (rewrite <- Hl; apply (written_length (fun _ => True) p); exact Hs).
  destruct (TableBuild.wi_pb _ _ _ _ _ _ _ W2) as (k & Epb & Hk & _). rewrite WL in Hk.
  assert (Ek : k = 127%nat) by lia.
  assert (Eaddr : pb_addr (b_pb b2) = next_slot p * 32768 + 32512) by (rewrite Epb, Ek; cbn [pb_addr]; lia).
  assert (Elen : length (pb_data (b_pb b2)) = 235%nat) by (rewrite Epb, Ek; cbn [pb_data]; rewrite skipn_length, WL; lia).
  pose proof (bi_count _ _ _ _ _ _ _ _ _ _ B2) as Ec.
  set (e := mkE (maxid mx ents + 1) typ None).
  destruct (entry_serialize_shape e) as [Le _]. destruct (entry_serialize_shape (footer_entry (maxid mx ents + 1))) as [Lf _].
  change (entry_serialize (footer_entry (maxid mx ents + 1))) with (footer_serialize (maxid mx ents + 1)) in Lf.
  assert (Ene : entry_serialize e <> []) by (intros X; rewrite X in Le; discriminate Le).
  set (p3 := mkPB (pb_addr (b_pb b2)) (pb_data (b_pb b2) ++ entry_serialize e)).
  assert (E3 : pb_extend (b_pb b2) (entry_serialize e) s2 = (s2, Ok p3)) by (apply extend_fits; [exact Ene|rewrite Elen, Le; lia]).
  set (b3 := mkB (b_cur b2) (b_cache b2) (b_ri b2) (b_fin b2) p3 (b_count b2 + 1) (maxid mx ents + 1)).
  assert (E4 : b_write_new_file b2 typ s2 = (s2, Ok (b3, e))).
  { unfold b_write_new_file, b_new_id, guard. rewrite Em. destruct (N.ltb_spec (maxid mx ents) (2 ^ 64 - 1)) as [_|C]; [|lia].
    rewrite bind_assoc. rewrite bind_ret, bind_ret. cbv beta iota. unfold b_write. cbn [b_pb b_count b_max b_cur b_cache b_ri b_fin]. fold e.
    rewrite bind_assoc, (bind_ok _ _ _ _ _ E3), bind_assoc. unfold guard.
    destruct (N.ltb_spec (b_count b2) 65535) as [_|G]; [|rewrite Ec, Hl in G; exfalso; clear -G; lia].
    rewrite bind_ret, bind_ret. cbv beta iota. unfold ret. unfold b3. cbn [e e_id].
    destruct (N.ltb_spec (maxid mx ents + 1) (maxid mx ents + 1)) as [G|_]; [lia|]. reflexivity. }
  set (s4 := set_at s2 (mkAT (a_seq (atb s2)) (b_count b3) (b_max b3) (a_pos (atb s2)) (a_open (atb s2)))).
  set (ft := footer_serialize (maxid mx ents + 1)) in *.
  assert (E5 : pb_extend p3 ft s4 = (emit s4 (Prog (next_slot p * 32768 + 32512) (pb_data p3 ++ firstn 8 ft)),
                                     Ok (mkPB (next_slot p * 32768 + 32512 + 256) (skipn 8 ft)))).
  { apply extend_splits; [|exact Lf|exact Eaddr]. unfold p3. cbn [pb_data]. rewrite app_length, Elen, Le. reflexivity. }
  set (s5 := emit s4 (Prog (next_slot p * 32768 + 32512) (pb_data p3 ++ firstn 8 ft))) in *.
  eexists _, (ops ++ [Prog (next_slot p * 32768 + 32512) (pb_data p3 ++ firstn 8 ft)]), (skipn 8 ft ++ repeat 255 (256 - length (skipn 8 ft))).
  split; [|split; [|split]].
  - apply in_builder_ok. rewrite (bind_ok _ _ _ _ _ E2), (bind_ok _ _ _ _ _ E4). unfold b_commit. rewrite bind_assoc, bind_modify.
    fold s4. cbn [b3 b_pb b_max]. fold ft. rewrite bind_assoc, (bind_ok _ _ _ _ _ E5). unfold pb_flush. rewrite bind_assoc, bind_assoc, bind_out.
    cbn [pb_addr pb_data]. rewrite bind_ret, bind_ret. reflexivity.
  - cbn [emit atb s5 s4 set_at a_pos]. rewrite A2, A1. reflexivity.
  - cbn [emit lg s5 s4 set_at]. rewrite L2, <- !app_assoc. cbn [app]. replace (next_slot p * 32768 + 32512 + 256) with (next_slot p * 32768 + 32768) by lia. reflexivity.
  - rewrite firstn_app, skipn_length, Lf. change (5 - (13 - 8))%nat with 0%nat. rewrite firstn_O, app_nil_r. apply firstn_all2. rewrite skipn_length, Lf. lia.
Qed.

(** A reachable file system with 2518 files: creating a file succeeds, builds its table in slot [q], and programs the bytes right
    after that slot (for q = 3 the first data sector, otherwise the header of another table). *)
Theorem C12_refuted : forall crc, crc32 crc -> exists es y y' id q d, history crc es (On y) /\
  perform crc (Create 1) y = (y', RId id) /\ q = a_pos (atb (sfs y')) /\
  In (Prog (q * 32768 + 32768) d) (flash_ops crc (Create 1) y) /\ Exists (fun b => b <> 255) d.
Proof.
  intros crc Hc. destruct (many_files crc Hc 2518 (le_n _)) as (es & y & v & Hh & R & S1 & S2 & S3 & S4).
  destruct R as [(p & ents & C & H & W & ST & EF & EW & EV) _ _ _]. pose proof (st_disk _ _ _ _ _ _ _ _ _ ST) as D.
  rewrite EF, view_length in S1 by (apply (disk_len _ _ _ _ _ _ _ D)).
  assert (Hid : maxid (v_top v) ents + 1 = 2519).
  { pose proof (next_id_eq v ents C (v_top v) EF (disk_len _ _ _ _ _ _ _ D) eq_refl) as En. unfold next_id in En.
    rewrite (fold_max_eq _ (v_top v)) in En; [lia|]. rewrite Forall_map, S2. exact S3. }
  assert (B : 2 ^ 64 = 18446744073709551616) by reflexivity.
  destruct (create_beyond (sfs y) p (v_gen v) ents (v_top v) 1 (state_dir _ _ _ _ _ _ _ _ _ ST)) as (s' & ops & d & E & Ep & El & Ed); [rewrite B; lia|exact S1|rewrite B; lia|].
  exists es, y, (mkSys s' (sws y) (srs y)), (maxid (v_top v) ents + 1), (next_slot p), d. split; [exact Hh|].
  assert (Epf : perform crc (Create 1) y = (mkSys s' (sws y) (srs y), RId (maxid (v_top v) ents + 1))) by (cbn [perform]; unfold finish; rewrite E; reflexivity).
  split; [exact Epf|]. split; [cbn [sfs]; symmetry; exact Ep|]. split.
  - unfold flash_ops. rewrite Epf. cbn [fst sfs]. rewrite El, skipn_app, skipn_all, Nat.sub_diag. cbn [skipn app]. apply in_or_app. right. left. reflexivity.
  - apply Exists_exists. exists (nth 4 d 255).
    assert (Hn : nth 4 d 255 = nth 12 (footer_serialize (maxid (v_top v) ents + 1)) 255).
    { transitivity (nth 4 (firstn 5 d) 255).
      - clear. do 5 (destruct d as [|? d]; [reflexivity|]). reflexivity.
      - rewrite Ed. apply nth_skipn. }
    assert (Hb : nth 12 (footer_serialize (maxid (v_top v) ents + 1)) 255 <> 255).
    { rewrite Hid. vm_compute. discriminate. }
    split; [|rewrite Hn; exact Hb]. apply nth_In. destruct (Nat.lt_ge_cases 4 (length d)) as [L|L]; [exact L|].
    exfalso. rewrite nth_overflow in Hn by exact L. congruence.
Qed.
Print Assumptions C12_refuted.

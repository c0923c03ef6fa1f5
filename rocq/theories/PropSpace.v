(** * Property theorems C23, C26: space accounting of the file store.
    [history], [snapshot], [perform], [legal]: see FsApi.v. *)
From Coq Require Import Sorted Permutation.
From Verif Require Import Base Majority Flash FS Sectors SectorsProofs ATable TornCode TableCode TableScan TableBuild TableOps DirOps Chains FileIO FileFormat FileWrite WriteOps WriteSpec Disk Sessions DirState OpenOps Append OpenWrite FsSpec FsApi FsRefine FsBoot FsHistory PropDirectory.
Local Open Scope N_scope.
Local Open Scope fs_scope.

(** ** C23 *)
Definition sectors_of (y : sys) (id : N) : N := match get_file_size id (sfs y) with (_, Ok (_, n)) => n | _ => 0 end.

Lemma sum_chains (P : file -> bool) (K : entry -> bool) (g : N -> N) ents : forall C, length ents = length C -> (forall e d, P (e_id e, e_typ e, d) = K e) ->
  (forall i e c, nth_error ents i = Some e -> nth_error C i = Some c -> g (e_id e) = N.of_nat (length (fst c))) ->
  N.of_nat (length (concat (chains_of K ents (map fst C)))) = fold_right N.add 0 (map (fun x => g (f_id x)) (filter P (user_view ents C))).
Proof.
  unfold user_view. induction ents as [|e ents IH]; intros [|c C] L HP Hg; cbn [length] in L; try lia; [reflexivity|].
  cbn [map combine filter chains_of fst snd]. rewrite HP. specialize (IH C ltac:(lia) HP (fun i e' c' He Hc' => Hg (S i) e' c' He Hc')).
  pose proof (Hg O e c eq_refl eq_refl) as Hg0. destruct (K e); [|exact IH]. cbn [concat map fold_right]. rewrite app_length, Nat2N.inj_add, IH.
  unfold f_id at 2. cbn [fst snd]. rewrite Hg0. reflexivity.
Qed.

Theorem C23_remove_frees_exactly : forall crc, crc32 crc -> forall es y sel y' n m r, history crc es (On y) ->
  perform crc (Remove sel) y = (y', RCounts n m) ->
  let removed x := sel (f_id x) (f_typ x) && negb (is_opened (atb (sfs y)) (f_id x)) in
  exists old, snapshot crc (fl (sfs y)) r = Some old /\
    snapshot crc (fl (sfs y')) r = Some (filter (fun x => negb (removed x)) old) /\
    free_bytes (sfs y') = free_bytes (sfs y) + 4016 * fold_right N.add 0 (map (fun x => sectors_of y (f_id x)) (filter removed old)).
Proof.
  intros crc Hc es y sel0 y' n m r Hh E removed.
  destruct (C07_removal_whatever_is_open crc Hc es y sel0 y' n m r Hh E) as (old & E1 & E2 & _). cbv zeta in E2.
  exists old. split; [exact E1|]. split; [exact E2|].
  destruct (running crc es y Hc Hh) as (v & _ & R). rewrite (repr_snapshot crc y v r R) in E1. injection E1 as <-.
  destruct R as [(p & ents & C & H & W & ST & EF & EW & EV) _ _ _]. pose proof (st_disk _ _ _ _ _ _ _ _ _ ST) as D. pose proof (disk_len _ _ _ _ _ _ _ D) as L.
  set (flt := fun e => sel0 (e_id e) (e_typ e)). pose proof (state_dir _ _ _ _ _ _ _ _ _ ST) as HD. pose proof (dr_at _ _ _ _ _ HD) as Ea.
  cbn [perform] in E. unfold finish in E. fold flt in E.
  destruct (N.lt_ge_cases (v_gen v + 1) (2 ^ 64)) as [Hs|Hs].
  2:{ assert (Ep : remove_files flt (sfs y) = (sfs y, Panic)) by (unfold remove_files; eapply new_overflow; [exact Ea|exact Hs]).
      rewrite Ep in E. apply (f_equal snd) in E. cbn [snd] in E. discriminate E. }
  destruct (remove_files_spec false H (sfs y) p (v_gen v) ents (v_top v) flt (map fst C) HD Hs (disk_chains _ _ _ _ _ _ _ D) (dk_nodup _ _ _ _ _ _ _ D)
     (st_al _ _ _ _ _ _ _ _ _ ST) (st_own _ _ _ _ _ _ _ _ _ ST)) as (s' & Er & _ & A' & _).
  rewrite Er in E. injection E as Ey' _ _. assert (Es : sfs y' = s') by (rewrite <- Ey'; reflexivity).
  rewrite Es. clear Ey' E2.
  destruct (free_bytes_exact (sfs y) H (st_al _ _ _ _ _ _ _ _ _ ST)) as (l & Nl & Hl1 & ->).
  destruct (free_bytes_exact s' _ A') as (l' & Nl' & Hl2 & ->).
  set (dr := drops (a_open (atb (sfs y))) flt) in *. set (X := concat (chains_of dr ents (map fst C))) in *.
  assert (NX : NoDup X) by (apply chains_of_nodup, (dk_nodup _ _ _ _ _ _ _ D)).
  assert (HX : forall x, In x X -> data_sector x /\ H x).
  { intros x Hx. apply chains_of_in in Hx. split; [apply (disk_data _ _ _ _ _ _ _ D); exact Hx|apply (st_own _ _ _ _ _ _ _ _ _ ST); exact Hx]. }
  assert (Hperm : Permutation l' (l ++ X)).
  { apply NoDup_Permutation; [exact Nl'| |].
    - apply nodup_app_iff. split; [exact Nl|]. split; [exact NX|]. intros x Hx Hx'. apply Hl1 in Hx. destruct Hx as [_ Hx]. apply Hx. apply HX. exact Hx'.
    - intros x. rewrite Hl2, in_app_iff, Hl1. unfold minus. split.
      + intros [Hd Hn]. destruct (in_dec N.eq_dec x X) as [Hi|Hi]; [auto|]. left. split; [exact Hd|]. intros Hx. apply Hn. auto.
      + intros [[Hd Hn]|Hx]; [split; [exact Hd|tauto]|]. split; [apply HX; exact Hx|tauto]. }
  rewrite (Permutation_length Hperm), app_length, Nat2N.inj_add.
  assert (Esum : N.of_nat (length X) = fold_right N.add 0 (map (fun x => sectors_of y (f_id x)) (filter removed (v_files v)))).
  { unfold X. rewrite EF. apply sum_chains; [exact L| |].
    - intros e d. unfold removed, dr, drops, flt, f_id, f_typ, is_opened. cbn [fst snd]. reflexivity.
    - intros i e c He Hcc. unfold sectors_of. rewrite (size_at crc (sfs y) p (v_gen v) ents (v_top v) C H W i e c ST He Hcc). reflexivity. }
  rewrite Esum. lia.
Qed.
Print Assumptions C23_remove_frees_exactly.

(** ** C26 *)
(** the sectors reached from a file's first sector by following the stored links (65535 ends the chain) *)
Inductive on_chain (f : flash) : option N -> N -> Prop :=
| oc_here x : on_chain f (Some x) x
| oc_next x n z : next_sector_at f x = Some n -> n <> 65535 -> on_chain f (Some n) z -> on_chain f (Some x) z.

Lemma chain_on f o l : chain f o l -> forall x, In x l <-> on_chain f o x.
Proof.
  induction 1 as [|x n l Hd Hn Hc IH]; intros z; [split; [intros []|intros Hx; inversion Hx]|]. cbn [In]. split.
  - intros [->|Hz]; [constructor|]. apply IH in Hz. unfold link in Hz. destruct (N.eqb_spec n 65535) as [->|Hne]; [inversion Hz|]. econstructor; eauto.
  - intros Hz. inversion Hz as [|? n' ? Hn' Hne Hz']; subst; [left; reflexivity|right]. rewrite Hn in Hn'. injection Hn' as <-. apply IH.
    unfold link. apply N.eqb_neq in Hne. rewrite Hne. exact Hz'.
Qed.

Lemma owned_on f ents L : chains f ents L -> forall x, owned L x <-> exists e, In e ents /\ on_chain f (e_first e) x.
Proof.
  unfold owned. induction 1 as [|e l ents L He Hes IH]; intros x; cbn [concat].
  - split; [intros []|intros (e & [] & _)].
  - rewrite in_app_iff, IH, (chain_on f _ l He). split.
    + intros [Hx|(e' & A & B)]; [exists e|exists e']; cbn [In]; auto.
    + intros (e' & [->|A] & B); [left; exact B|right; exists e'; auto].
Qed.

Lemma kept_boot_map crc f F t g r : Kept crc f F t g ->
  exists s l, boot f r = (s, Ok tt) /\ files_iter s (fun _ => true) = Ok l /\
    forall x, data_sector x -> (used_sector (sm s) x <-> exists e, In e l /\ on_chain (fl s) (e_first e) x).
Proof.
  intros (p & ents & C & D & EF). pose proof (disk_chains _ _ _ _ _ _ _ D) as Hch.
  destruct (boot_spec f r p g ents t (map fst C) (dk_rep _ _ _ _ _ _ _ D) Hch (dk_nodup _ _ _ _ _ _ _ D)) as (s & E & HD & A & Ef & El & Eo & Ha & Hb).
  exists s, ents. split; [exact E|]. split; [rewrite (files_iter_spec s p g ents t _ HD), filter_true; reflexivity|].
  intros x Hx. rewrite (ai_used _ _ A x Hx), Ef, Ha, Hb. cbn [app In]. rewrite <- (owned_on f ents (map fst C) Hch x). tauto.
Qed.

Theorem C26_boot_rebuilds_free_map : forall crc, crc32 crc -> forall es f r, history crc es (Off f) ->
  exists s l, boot f r = (s, Ok tt) /\ files_iter s (fun _ => true) = Ok l /\
    forall x, data_sector x -> (used_sector (sm s) x <-> exists e, In e l /\ on_chain (fl s) (e_first e) x).
Proof.
  intros crc Hc es f r Hh. destruct (history_refines crc Hc es (Off f) Hh) as (a & _ & Hr). destruct a as [F t g|v]; [|destruct Hr].
  destruct Hr as (t' & Hho & _). destruct Hho as [K|(Fr & -> & ->)]; [exact (kept_boot_map crc f F t' g r K)|].
  destruct (fresh_scan crc f Fr) as [Hi|(top & K)]; [|exact (kept_boot_map crc f [] top 1 r K)].
  assert (Hall : forall q, q < 4 -> invalid f (q * 32768)).
  { intros q Hq. destruct (N.eqb_spec q 0) as [->|H0]; [exact Hi|]. left. apply Fr. lia. }
  assert (Eb : boot f r = (emit (emit (boot_state f r) (Erase 0 4096)) (Prog 0 (image 1 [] 0 ++ repeat 255 230)), Ok tt)).
  { unfold boot, init. rewrite bind_get. cbn [boot_state fl atb]. rewrite (read_latest_none f at_default Hall). apply (format_run crc). }
  eexists _, []. split; [exact Eb|]. split; [reflexivity|]. intros x Hx. cbn [emit sm boot_state].
  pose proof (ai_used _ _ (alloc_new f [] at_default r) x Hx) as Hu. cbn [sm] in Hu. rewrite Hu. cbn [smng_new ahead aahead app In].
  split; [intros [[]|[]]|intros (e & [] & _)].
Qed.
Print Assumptions C26_boot_rebuilds_free_map.

(** * The file system in operation: directory operations *)
From Coq Require Import Sorted.
From Verif Require Import Base Majority Flash FS Sectors SectorsProofs ATable TornCode TableCode TableScan ChipRules TableBuild TableOps DirOps Chains FileIO FileFormat FileWrite WriteOps WriteSpec Disk Sessions.
Local Open Scope N_scope.
Local Open Scope fs_scope.

(** ** Lists *)
Lemma sorted_app ents e : sorted_ids ents -> (forall x, In x ents -> e_id x < e_id e) -> sorted_ids (ents ++ [e]).
Proof.
  unfold sorted_ids. induction 1 as [|x l Hs IH Hf]; intros H; cbn [app].
  - constructor; [constructor|constructor].
  - constructor; [apply IH; intros y Hy; apply H; right; auto|]. apply Forall_app. split; [auto|].
    constructor; [apply H; left; auto|constructor].
Qed.
Lemma sorted_filter P ents : sorted_ids ents -> sorted_ids (filter P ents).
Proof.
  unfold sorted_ids. induction 1 as [|x l Hs IH Hf]; cbn [filter]; [constructor|].
  destruct (P x); [|auto]. constructor; [auto|]. rewrite Forall_forall in *. intros y Hy. apply filter_In in Hy. apply Hf; tauto.
Qed.
Lemma sorted_map ents ents' : map e_id ents' = map e_id ents -> sorted_ids ents -> sorted_ids ents'.
Proof.
  intros E S. revert ents' E. unfold sorted_ids in *. induction S as [|x l Hs IH Hf]; intros [|y l'] E; cbn [map] in E; try discriminate; [constructor|].
  injection E as E1 E2. constructor; [apply IH; auto|].
  rewrite Forall_forall in *. intros a Ha. apply (in_map e_id) in Ha. rewrite E2 in Ha. apply in_map_iff in Ha. destruct Ha as (b & <- & Hb).
  rewrite E1. apply Hf; auto.
Qed.

Lemma forall2_app_one {A B} (R : A -> B -> Prop) l l' a b : Forall2 R l l' -> R a b -> Forall2 R (l ++ [a]) (l' ++ [b]).
Proof. intros H1 H2. apply Forall2_app; auto. Qed.

Lemma owns_app C c x : owns (C ++ [c]) x <-> owns C x \/ In x (fst c).
Proof. rewrite (owns_split (fun _ => 0)). assert (owns [] x <-> False) by (unfold owns, owned; cbn; tauto). tauto. Qed.

Lemma nodup_add (C : list (list N * list byte)) c : NoDup (concat (map fst C)) -> NoDup (fst c) -> (forall x, In x (fst c) -> ~ owns C x) ->
  NoDup (concat (map fst (C ++ [c]))).
Proof.
  intros A B D. apply nodup_split. repeat (split; auto).
  - constructor.
  - intros x Hx Hc. eapply D; eauto.
Qed.

(** the files whose entry satisfies [P] *)
Definition sel (P : entry -> bool) (ents : list entry) (C : list (list N * list byte)) : list (list N * list byte) :=
  map snd (filter (fun ec => P (fst ec)) (combine ents C)).

Lemma sel_cons P e ents c C : sel P (e :: ents) (c :: C) = if P e then c :: sel P ents C else sel P ents C.
Proof. unfold sel. cbn [combine filter fst]. destruct (P e); reflexivity. Qed.

Lemma sel_forall2 P (R : entry -> list N * list byte -> Prop) ents C : Forall2 R ents C -> Forall2 R (filter P ents) (sel P ents C).
Proof.
  induction 1 as [|e c ents C H H' IH]; [constructor|]. rewrite sel_cons. cbn [filter]. destruct (P e); [constructor; auto|auto].
Qed.

Lemma sel_chains P ents : forall C, length ents = length C -> map fst (sel P ents C) = chains_of P ents (map fst C).
Proof.
  induction ents as [|e ents IH]; intros [|c C] H; cbn in H; try lia; [reflexivity|]. rewrite sel_cons. cbn [map chains_of].
  destruct (P e); cbn [map]; rewrite IH by lia; reflexivity.
Qed.

Lemma sel_nth P ents : forall C i e c, nth_error ents i = Some e -> nth_error C i = Some c -> P e = true ->
  exists j, nth_error (filter P ents) j = Some e /\ nth_error (sel P ents C) j = Some c.
Proof.
  induction ents as [|e0 ents IH]; intros C i e c He Hc HP; destruct i as [|i]; try discriminate; destruct C as [|c0 C]; try discriminate;
    cbn [nth_error] in *; rewrite sel_cons; cbn [filter].
  - injection He as ->. injection Hc as ->. rewrite HP. exists O. auto.
  - destruct (IH C i e c He Hc HP) as (j & A & B). destruct (P e0); [exists (S j); auto|exists j; auto].
Qed.

Section S.
Variable crc : list byte -> N.
Hypothesis crc_bound : crc32 crc.

Lemma state_dir s p seq ents mx C H W : State crc s p seq ents mx C H W -> Dir s p seq ents mx.
Proof. intros [D A _ _ _ _]. constructor; [apply (dk_rep _ _ _ _ _ _ _ D)|exact A]. Qed.

Lemma disk_len f p seq ents mx C : Disk crc f p seq ents mx C -> length ents = length C.
Proof. intros D. apply (forall2_length _ _ _ (dk_files _ _ _ _ _ _ _ D)). Qed.

(** what an interrupted directory update leaves: the old directory or the new one *)
Definition either (p seq : N) (ents : list entry) (mx : N) (C : list (list N * list byte)) (D : list entry) (C' : list (list N * list byte)) (f' : flash) : Prop :=
  Disk crc f' p seq ents mx C \/ exists m', Disk crc f' (next_slot p) (seq + 1) D m' C'.

Lemma interrupted_disk te f0 p seq ents mx C (H : N -> Prop) D m C' f' : Disk crc f0 p seq ents mx C -> (forall x, owns C x -> H x) ->
  (te = true -> clean f0 p seq) -> seq + 1 < 2 ^ 64 -> dir_ok D m -> sorted_ids D ->
  (dsame H f0 f' -> Forall2 (file_ok crc f') D C') -> NoDup (concat (map fst C')) ->
  mid_update te (next_slot p) H f0 (image (seq + 1) D m) f' -> flash_ok f' -> either p seq ents mx C D C' f'.
Proof.
  intros Dk Ho Hcl Hs Hd Hsort Hf Hn Hm Hok. pose proof Hm as (_ & Hds & _). pose proof (disk_data _ _ _ _ _ _ _ Dk) as Hdat.
  destruct (interrupted_update te f0 f' p seq ents mx D m H (dk_rep _ _ _ _ _ _ _ Dk) Hcl Hs Hd Hm) as [R|(m' & R)].
  - left. constructor; auto; try apply Dk. eapply files_same; [apply (dk_files _ _ _ _ _ _ _ Dk)|]. intros x Hx. apply Hds; auto.
  - right. exists m'. constructor; auto.
Qed.

Lemma interrupted_same te f0 p seq ents mx C (H : N -> Prop) f' : Disk crc f0 p seq ents mx C -> (forall x, owns C x -> H x) ->
  (te = true -> clean f0 p seq) -> seq + 1 < 2 ^ 64 ->
  mid_update te (next_slot p) H f0 (written seq ents) f' -> flash_ok f' -> either p seq ents mx C ents C f'.
Proof.
  intros Dk Ho Hcl Hs Hm Hok. pose proof (rep_dir_ok _ _ _ _ _ (dk_rep _ _ _ _ _ _ _ Dk)) as Hd. pose proof (disk_data _ _ _ _ _ _ _ Dk) as Hdat.
  apply (mid_update_more _ _ _ _ _ (footer_serialize mx)) in Hm. rewrite written_image in Hm.
  apply (interrupted_disk te f0 p seq ents mx C H ents mx C f'); auto; [apply (dk_sorted _ _ _ _ _ _ _ Dk)| |apply (dk_nodup _ _ _ _ _ _ _ Dk)].
  intros Hds. eapply files_same; [apply (dk_files _ _ _ _ _ _ _ Dk)|]. intros x Hx. apply Hds; auto.
Qed.

(** ** A completed update *)
Lemma dir_done te s p seq ents mx C H W s' D m C' H' W' : State crc s p seq ents mx C H W -> seq + 1 < 2 ^ 64 -> dir_ok D m -> sorted_ids D ->
  Updated te H s s' p seq D m -> AllocInv s' H' -> Forall2 (file_ok crc (fl s')) D C' -> NoDup (concat (map fst C')) ->
  (forall x, owns C' x -> H' x) -> Forall (WSt crc (fl s') D C') W' -> NoDup (map (fun wc => w_id (fst wc)) W') ->
  State crc s' (next_slot p) (seq + 1) D m C' H' W' /\ clean (fl s') (next_slot p) (seq + 1) /\ a_open (atb s') = a_open (atb s).
Proof.
  intros ST Hs Hd Hsort U A F N Ho HW HI. destruct (updated_dir te H s s' p seq ents mx D m (state_dir _ _ _ _ _ _ _ _ ST) Hs Hd U) as ([R E] & Cl & Eo).
  split; [|auto]. pose proof (st_disk _ _ _ _ _ _ _ _ _ ST) as Dk. constructor; auto.
  constructor; auto. pose proof (up_tr _ _ _ _ _ _ _ _ U) as T. apply traced_ok in T; [|apply (dk_ok _ _ _ _ _ _ _ Dk)].
  apply (traced_fl _ _ _ _ T).
Qed.

Lemma traced_either te s p seq ents mx C H W s' D m C' : State crc s p seq ents mx C H W -> seq + 1 < 2 ^ 64 -> dir_ok D m -> sorted_ids D ->
  (te = true -> clean (fl s) p seq) -> (forall f', dsame H (fl s) f' -> Forall2 (file_ok crc f') D C') -> NoDup (concat (map fst C')) ->
  traced te s s' (mid_update te (next_slot p) H (fl s) (image (seq + 1) D m)) -> traced te s s' (either p seq ents mx C D C').
Proof.
  intros ST Hs Hd Hsort Hcl Hf Hn T. pose proof (st_disk _ _ _ _ _ _ _ _ _ ST) as Dk. pose proof (dk_ok _ _ _ _ _ _ _ Dk) as Hok.
  apply traced_ok in T; [|auto]. eapply traced_weaken; [|exact T]. intros f' [Hm Hf'].
  apply (interrupted_disk te (fl s) p seq ents mx C H D m C' f'); auto. apply (st_own _ _ _ _ _ _ _ _ _ ST).
Qed.

Lemma traced_same te s p seq ents mx C H W s' : State crc s p seq ents mx C H W -> seq + 1 < 2 ^ 64 ->
  (te = true -> clean (fl s) p seq) -> traced te s s' (mid_update te (next_slot p) H (fl s) (written seq ents)) ->
  traced te s s' (either p seq ents mx C ents C).
Proof.
  intros ST Hs Hcl T. pose proof (st_disk _ _ _ _ _ _ _ _ _ ST) as Dk. pose proof (dk_ok _ _ _ _ _ _ _ Dk) as Hok.
  apply traced_ok in T; [|auto]. eapply traced_weaken; [|exact T]. intros f' [Hm Hf'].
  apply (interrupted_same te (fl s) p seq ents mx C H f'); auto. apply (st_own _ _ _ _ _ _ _ _ _ ST).
Qed.

(** crash points of two consecutive pieces of work *)
Lemma crash_app te l1 : forall f l2 f', crash_m te f (l1 ++ l2) f' -> crash_m te f l1 f' \/ crash_m te (apply_ops f l1) l2 f'.
Proof.
  destruct te; cbn [crash_m].
  - induction l1 as [|o l1 IH]; intros f l2 f' Hc; cbn [app] in Hc; [right; exact Hc|]. inversion Hc; subst.
    + left. apply crash_at.
    + left. apply crash_torn; auto.
    + match goal with X : crash _ _ _ |- _ => apply IH in X; destruct X as [X|X] end; [left; apply crash_later; auto|right; auto].
  - induction l1 as [|o l1 IH]; intros f l2 f' Hc; cbn [app] in Hc; [right; exact Hc|]. inversion Hc; subst.
    + left. apply ae_at.
    + left. apply ae_torn; auto.
    + match goal with X : crash_ae _ _ _ |- _ => apply IH in X; destruct X as [X|X] end; [left; apply ae_later; auto|right; auto].
Qed.
Lemma traced_trans te s0 s1 s2 (G : flash -> Prop) : traced te s0 s1 G -> traced te s1 s2 G -> traced te s0 s2 G.
Proof.
  intros (o1 & A1 & B1 & C1 & R1) (o2 & A2 & B2 & C2 & R2). exists (o1 ++ o2). split; [rewrite A2, A1, app_assoc; reflexivity|].
  split; [rewrite B2, B1, apply_ops_app; reflexivity|]. split; [|apply rules_app; split; [exact R1|rewrite <- B1; exact R2]]. intros f' Hc. apply crash_app in Hc. rewrite <- B1 in Hc. destruct Hc; auto.
Qed.
Lemma traced_set te s a (G : flash -> Prop) : G (fl s) -> traced te s (set_at s a) G.
Proof. intros. eapply traced_ext; [| |apply traced_refl; auto]; reflexivity. Qed.

Lemma dsame_owned (H : N -> Prop) f g ents C : (forall x, owns C x -> H x) -> (forall x, owns C x -> data_sector x) ->
  Forall2 (file_ok crc f) ents C -> dsame H f g -> Forall2 (file_ok crc g) ents C.
Proof. intros A B F Hs. eapply files_same; [exact F|]. intros x Hx. apply Hs; auto. Qed.

(** an open writer is not affected by a change elsewhere *)
Lemma wst_same f g ents C wc : WSt crc f ents C wc -> (forall x, owns C x -> sector_same f g x) -> WSt crc g ents C wc.
Proof.
  destruct wc as [w cur]. intros (i & e & l & ds & q & A1 & A2 & A3 & A4 & A5 & A6) Hs.
  assert (K : forall x, In x (l ++ [w_sec w]) -> sector_same f g x) by (intros x Hx; apply Hs; apply (owns_nth C i (l ++ [w_sec w], concat ds)); auto).
  exists i, e, l, ds, q. split; [auto|]. split; [auto|]. split; [auto|]. split; [|split; [|auto]].
  - eapply seg_same; [exact A4|]. intros x Hx. apply K, in_or_app; auto.
  - eapply wrep_same; [exact A5|]. apply K, in_or_app; right; left; auto.
Qed.
Lemma wst_more f ents C e c wc : WSt crc f ents C wc -> WSt crc f (ents ++ [e]) (C ++ [c]) wc.
Proof.
  destruct wc as [w cur]. intros (i & e' & l & ds & q & A1 & A2 & A3). exists i, e', l, ds, q.
  split; [rewrite nth_error_app1; auto; apply nth_error_Some; congruence|].
  split; [rewrite nth_error_app1; auto; apply nth_error_Some; congruence|]. auto.
Qed.

Lemma new_sorted ents mx typ o : sorted_ids ents -> sorted_ids (ents ++ [new_entry ents mx typ o]).
Proof. intros S. apply sorted_app; [auto|]. intros x Hx. cbn [new_entry e_id]. pose proof (maxid_in mx ents x Hx). lia. Qed.

Lemma new_dir_ok ents mx m typ o : dir_ok ents mx -> (length ents + 1 < slot_blocks)%nat -> m < 2 ^ 64 -> maxid mx ents + 1 < 2 ^ 64 -> typ < 65535 ->
  match o with Some x => data_sector x | None => True end -> dir_ok (ents ++ [new_entry ents mx typ o]) m.
Proof.
  intros Hd Hl Hm Hi Ht Ho. eapply dir_ok_app; eauto.
  - unfold entry_ok, new_entry. cbn [e_id e_typ e_first]. split; [lia|]. split; [lia|].
    destruct o as [x|]; [|auto]. unfold data_sector, SECTORS_COUNT in Ho. lia.
  - unfold is_footer, new_entry. cbn [e_typ]. apply N.eqb_neq. lia.
Qed.

(** ** create_file *)
Theorem create_op te s p seq ents mx C H W typ : State crc s p seq ents mx C H W -> (te = true -> clean (fl s) p seq) ->
  typ < 65535 -> (length ents + 1 < slot_blocks)%nat ->
  let e := new_entry ents mx typ None in
  exists s', traced te s s' (fun f' => either p seq ents mx C ents C f' \/ either p seq ents mx C (ents ++ [e]) (C ++ [([], [])]) f') /\
   ((create_file typ s = (s', Ok e) /\
     State crc s' (next_slot p) (seq + 1) (ents ++ [e]) (maxid mx ents + 1) (C ++ [([], [])]) H W /\
     clean (fl s') (next_slot p) (seq + 1) /\ a_open (atb s') = a_open (atb s)) \/
    (create_file typ s = (s', Panic) /\ (2 ^ 64 <= seq + 1 \/ 2 ^ 64 <= maxid mx ents + 1))).
Proof.
  intros ST Hcl Ht Hl e. pose proof (state_dir _ _ _ _ _ _ _ _ ST) as HD. pose proof (st_disk _ _ _ _ _ _ _ _ _ ST) as Dk.
  pose proof (dk_rep _ _ _ _ _ _ _ Dk) as R. pose proof (rep_dir_ok _ _ _ _ _ R) as Hok.
  destruct (N.lt_ge_cases (seq + 1) (2 ^ 64)) as [Hs|Hs].
  2:{ exists s. split; [apply traced_refl; left; left; auto|]. right. split; [|auto].
      unfold create_file. destruct HD as [_ A]. eapply new_overflow; eauto. }
  destruct (N.lt_ge_cases (maxid mx ents + 1) (2 ^ 64)) as [Hm|Hm].
  2:{ destruct (create_overflow te H s p seq ents mx typ HD Hs Hl Hm) as [(s' & E & T) _]. exists s'. split; [|auto].
      eapply traced_weaken; [|eapply traced_same; eauto]. auto. }
  destruct (create_spec te H s p seq ents mx typ HD Hs Hl Hm) as (s' & E & U & M & K). fold e in E, U.
  pose proof (new_dir_ok ents mx (maxid mx ents + 1) typ None Hok Hl Hm Hm Ht I) as Hok'. fold e in Hok'.
  pose proof (new_sorted ents mx typ None (dk_sorted _ _ _ _ _ _ _ Dk)) as Hsort. fold e in Hsort.
  pose proof (disk_data _ _ _ _ _ _ _ Dk) as Hdat.
  assert (HF : forall f', dsame H (fl s) f' -> Forall2 (file_ok crc f') (ents ++ [e]) (C ++ [([], [])])).
  { intros f' Hds. apply forall2_app_one.
    - apply (dsame_owned H (fl s)); auto; [apply (st_own _ _ _ _ _ _ _ _ _ ST)|apply (dk_files _ _ _ _ _ _ _ Dk)].
    - exists []. split; [constructor|reflexivity]. }
  assert (HN : NoDup (concat (map fst (C ++ [([], [])])))).
  { apply nodup_add; [apply Dk|constructor|intros x []]. }
  exists s'. split.
  - eapply traced_weaken; [|eapply (traced_either te s p seq ents mx C H W s' (ents ++ [e]) (maxid mx ents + 1)); eauto; apply (up_tr _ _ _ _ _ _ _ _ U)]. auto.
  - left. split; [exact E|]. apply (dir_done te s p seq ents mx C H W s' (ents ++ [e]) (maxid mx ents + 1) (C ++ [([], [])]) H W); auto.
    + apply (binv_keep s s' I); auto. apply ST.
    + apply HF. pose proof (traced_fl _ _ _ _ (up_tr _ _ _ _ _ _ _ _ U)) as (_ & X & _). exact X.
    + intros x Hx. apply owns_app in Hx. destruct Hx as [Hx|[]]. apply (st_own _ _ _ _ _ _ _ _ _ ST); auto.
    + eapply Forall_impl; [|apply ST]. intros wc Hw. apply wst_more. eapply wst_same; [exact Hw|].
      intros x Hx. apply dkeep_same; auto.
    + apply (st_ids _ _ _ _ _ _ _ _ _ ST).
Qed.

(** ** create_file_and_open_for_write *)
Lemma traced_parts te s s1 s' (G G1 G2 : flash -> Prop) : traced te s s' G -> traced te s s1 G1 -> traced te s1 s' G2 ->
  traced te s s' (fun f => G f /\ (G1 f \/ G2 f)).
Proof.
  intros (o & A & B & C & R) (o1 & A1 & B1 & C1 & _) (o2 & A2 & B2 & C2 & _). exists o. split; [auto|]. split; [auto|]. split; [|exact R].
  intros f' Hc. split; [auto|]. assert (o = o1 ++ o2).
  { rewrite A2, A1, <- app_assoc in A. symmetry. eapply app_inv_head; exact A. }
  subst o. apply crash_app in Hc. rewrite <- B1 in Hc. destruct Hc; auto.
Qed.

Lemma erased_file f x : data_sector x -> sector_erased f x -> file_holds crc f (Some x) [x] [[]].
Proof.
  intros Hd He. apply seg_holds. apply (seg_one crc f x [] 65535); [auto|]. apply erased_unfinished.
  intros i Hi. rewrite (He (x * SECTOR_SIZE + 3840 + N.of_nat i)) by (unfold SECTOR_SIZE; lia). destruct i; reflexivity.
Qed.

Lemma fresh_writer f ents C e x l ds i : nth_error ents i = Some e -> nth_error C i = Some (l ++ [x], concat ds) ->
  file_seg crc f (e_first e) l ds (Some x) -> data_sector x -> sector_erased f x ->
  WSt crc f ents C (new_writer x (e_id e), []).
Proof.
  intros He Hc Hs Hd Hx. exists i, e, l, ds, 0. cbn [new_writer w_sec w_id]. split; [auto|]. split; [auto|]. split; [auto|].
  split; [auto|]. split; [apply new_writer_rep; auto|]. unfold settled. cbn. lia.
Qed.

Lemma nth_error_last {A} (l : list A) x : nth_error (l ++ [x]) (length l) = Some x.
Proof. rewrite nth_error_app2 by lia. rewrite Nat.sub_diag. reflexivity. Qed.

Theorem create_open_op te s p seq ents mx C H W typ : State crc s p seq ents mx C H W -> (te = true -> clean (fl s) p seq) ->
  typ < 65535 -> (length ents + 1 < slot_blocks)%nat ->
  let e x := new_entry ents mx typ (Some x) in
  exists s', traced te s s' (fun f' => either p seq ents mx C ents C f' \/ exists x, either p seq ents mx C (ents ++ [e x]) (C ++ [([x], [])]) f') /\
   ((exists x, create_file_and_open_for_write typ s = (s', Ok (e x, x)) /\
     State crc s' (next_slot p) (seq + 1) (ents ++ [e x]) (maxid mx ents + 1) (C ++ [([x], [])]) (add H x) ((new_writer x (e_id (e x)), []) :: W) /\
     clean (fl s') (next_slot p) (seq + 1) /\ a_open (atb s') = a_open (atb s)) \/
    (create_file_and_open_for_write typ s = (s', Panic) /\
      (2 ^ 64 <= seq + 1 \/ 2 ^ 64 <= maxid mx ents + 1 \/ (forall x, data_sector x -> H x)))).
Proof.
  intros ST Hcl Ht Hl e. pose proof (state_dir _ _ _ _ _ _ _ _ ST) as HD. pose proof (st_disk _ _ _ _ _ _ _ _ _ ST) as Dk.
  pose proof (dk_rep _ _ _ _ _ _ _ Dk) as R. pose proof (rep_dir_ok _ _ _ _ _ R) as Hok.
  pose proof (st_own _ _ _ _ _ _ _ _ _ ST) as Hown. pose proof (st_al _ _ _ _ _ _ _ _ _ ST) as HA.
  destruct (N.lt_ge_cases (seq + 1) (2 ^ 64)) as [Hs|Hs].
  2:{ exists s. split; [apply traced_refl; left; left; auto|]. right. split; [|auto].
      unfold create_file_and_open_for_write. destruct HD as [_ A]. eapply new_overflow; eauto. }
  destruct (N.lt_ge_cases (maxid mx ents + 1) (2 ^ 64)) as [Hm|Hm].
  2:{ destruct (create_overflow te H s p seq ents mx typ HD Hs Hl Hm) as [_ (s' & E & T)]. exists s'. split; [|auto].
      eapply traced_weaken; [|eapply traced_same; eauto]. auto. }
  destruct (create_open_spec te H s p seq ents mx typ HD Hs Hl Hm HA)
    as [(s' & x & E & U & A' & Hx & Hd & He & (s1 & T1 & He1 & T2) & Hfr)|((s' & E & T) & Hfull)].
  2:{ exists s'. split; [|right; split; [exact E|auto]]. eapply traced_weaken; [|eapply traced_same; eauto]. auto. }
  fold (e x) in E, U, T2.
  pose proof (new_dir_ok ents mx (maxid mx ents + 1) typ (Some x) Hok Hl Hm Hm Ht Hd) as Hok'. fold (e x) in Hok'.
  pose proof (new_sorted ents mx typ (Some x) (dk_sorted _ _ _ _ _ _ _ Dk)) as Hsort. fold (e x) in Hsort.
  pose proof (disk_data _ _ _ _ _ _ _ Dk) as Hdat.
  assert (HF : forall f', dsame H (fl s) f' -> sector_erased f' x -> Forall2 (file_ok crc f') (ents ++ [e x]) (C ++ [([x], [])])).
  { intros f' Hds Hex. apply forall2_app_one.
    - apply (dsame_owned H (fl s)); auto. apply (dk_files _ _ _ _ _ _ _ Dk).
    - exists [[]]. split; [apply erased_file; auto|reflexivity]. }
  assert (HN : NoDup (concat (map fst (C ++ [([x], [])])))).
  { apply nodup_add; [apply (dk_nodup _ _ _ _ _ _ _ Dk)| |].
    - constructor; [intros []|constructor].
    - intros y [<-|[]] Hy. apply Hx, Hown; auto. }
  pose proof (up_tr _ _ _ _ _ _ _ _ U) as T. exists s'. split.
  - pose proof (traced_ok te s s' _ (traced_parts te s s1 s' _ _ _ T T1 T2) (dk_ok _ _ _ _ _ _ _ Dk)) as T'.
    eapply traced_weaken; [|exact T']. intros f' [[G [G1|(_ & G2 & _)]] Hf'].
    + left. apply (interrupted_same te (fl s) p seq ents mx C H f'); auto.
    + right. exists x. apply (interrupted_disk te (fl s) p seq ents mx C H (ents ++ [e x]) (maxid mx ents + 1)); auto.
      intros Hds. apply HF; auto. intros a Ha. rewrite (G2 x Hd (or_introl eq_refl) a Ha). auto.
  - left. exists x. split; [exact E|].
    apply (dir_done te s p seq ents mx C H W s' (ents ++ [e x]) (maxid mx ents + 1) (C ++ [([x], [])]) (add H x)); auto.
    + apply HF; [|auto]. pose proof (traced_fl _ _ _ _ T) as (_ & X & _). exact X.
    + intros y Hy. apply owns_app in Hy. destruct Hy as [Hy|[<-|[]]]; [right; auto|left; auto].
    + constructor.
      * apply (fresh_writer _ _ _ (e x) x [] [] (length ents)); auto.
        -- apply nth_error_last.
        -- rewrite (disk_len _ _ _ _ _ _ Dk). apply nth_error_last.
        -- constructor.
      * eapply Forall_impl; [|apply (st_w _ _ _ _ _ _ _ _ _ ST)]. intros wc Hw. apply wst_more. eapply wst_same; [exact Hw|]. auto.
    + cbn [map fst new_writer w_id]. constructor; [|apply (st_ids _ _ _ _ _ _ _ _ _ ST)].
      intros Hin. apply in_map_iff in Hin. destruct Hin as ([w cur] & Ew & Hin). cbn [fst] in Ew.
      pose proof (st_w _ _ _ _ _ _ _ _ _ ST) as Hw. rewrite Forall_forall in Hw. destruct (Hw _ Hin) as (i & e' & l & ds & q & A1 & _ & A3 & _).
      apply nth_error_In in A1. pose proof (maxid_in mx ents e' A1). cbn [e new_entry e_id] in Ew. lia.
Qed.

(** ** remove_files *)
Lemma dir_ok_filter P ents mx m : dir_ok ents mx -> m < 2 ^ 64 -> dir_ok (filter P ents) m.
Proof.
  intros (A & B & C & D) Hm. split; [apply Forall_forall; intros y Hy; apply filter_In in Hy; rewrite Forall_forall in A; apply A; tauto|].
  split; [apply Forall_forall; intros y Hy; apply filter_In in Hy; rewrite Forall_forall in B; apply B; tauto|]. split; [|auto].
  eapply Nat.le_lt_trans; [|exact C]. clear. induction ents as [|e l IH]; cbn [filter length]; [lia|]. destruct (P e); cbn [length]; lia.
Qed.
Lemma dir_ok_ids ents mx : dir_ok ents mx -> Forall (fun e => e_id e < 2 ^ 64) ents.
Proof. intros (A & _). eapply Forall_impl; [|exact A]. intros e (H & _). exact H. Qed.

Lemma forall_filter {A} (Q : A -> Prop) P l : Forall Q l -> Forall Q (filter P l).
Proof. intros H. apply Forall_forall. intros y Hy. apply filter_In in Hy. rewrite Forall_forall in H. apply H; tauto. Qed.

Theorem remove_op te s p seq ents mx C H W flt : State crc s p seq ents mx C H W -> (te = true -> clean (fl s) p seq) ->
  let dr := drops (a_open (atb s)) flt in
  let kp := keeps (a_open (atb s)) flt in
  (forall w cur e, In (w, cur) W -> In e ents -> e_id e = w_id w -> kp e = true) ->
  exists s', traced te s s' (either p seq ents mx C (filter kp ents) (sel kp ents C)) /\
   ((remove_files flt s = (s', Ok (count_if dr ents, count_if (fun e => flt e && kp e) ents)) /\
     exists H', State crc s' (next_slot p) (seq + 1) (filter kp ents) (maxid mx (filter kp ents)) (sel kp ents C) H' W /\
     clean (fl s') (next_slot p) (seq + 1) /\ a_open (atb s') = a_open (atb s)) \/
    (remove_files flt s = (s', Panic) /\ 2 ^ 64 <= seq + 1)).
Proof.
  intros ST Hcl dr kp HW. pose proof (state_dir _ _ _ _ _ _ _ _ ST) as HD. pose proof (st_disk _ _ _ _ _ _ _ _ _ ST) as Dk.
  pose proof (dk_rep _ _ _ _ _ _ _ Dk) as R. pose proof (rep_dir_ok _ _ _ _ _ R) as Hok.
  pose proof (st_own _ _ _ _ _ _ _ _ _ ST) as Hown. pose proof (st_al _ _ _ _ _ _ _ _ _ ST) as HA.
  pose proof (disk_len _ _ _ _ _ _ Dk) as Hlen. pose proof (dk_nodup _ _ _ _ _ _ _ Dk) as HN. pose proof (disk_data _ _ _ _ _ _ _ Dk) as Hdat.
  destruct (N.lt_ge_cases (seq + 1) (2 ^ 64)) as [Hs|Hs].
  2:{ exists s. split; [apply traced_refl; left; auto|]. right. split; [|auto].
      unfold remove_files. destruct HD as [_ A]. eapply new_overflow; eauto. }
  destruct (remove_files_spec te H s p seq ents mx flt (map fst C) HD Hs (disk_chains _ _ _ _ _ _ _ Dk) HN HA Hown)
    as (s' & E & U & A' & K). fold dr in E, A'. fold kp in E, U.
  assert (Hm : maxid mx (filter kp ents) < 2 ^ 64).
  { apply maxid_bound; [apply Hok|]. apply forall_filter. eapply dir_ok_ids; eauto. }
  pose proof (dir_ok_filter kp ents mx _ Hok Hm) as Hok'.
  pose proof (sorted_filter kp ents (dk_sorted _ _ _ _ _ _ _ Dk)) as Hsort.
  assert (HF : forall f', dsame H (fl s) f' -> Forall2 (file_ok crc f') (filter kp ents) (sel kp ents C)).
  { intros f' Hds. apply sel_forall2. apply (dsame_owned H (fl s)); auto. apply (dk_files _ _ _ _ _ _ _ Dk). }
  assert (HN' : NoDup (concat (map fst (sel kp ents C)))).
  { rewrite sel_chains by auto. apply chains_of_nodup; auto. }
  exists s'. split; [|left; split; [exact E|]].
  - apply (traced_either te s p seq ents mx C H W s' (filter kp ents) (maxid mx (filter kp ents))); auto. apply (up_tr _ _ _ _ _ _ _ _ U).
  - exists (minus H (concat (chains_of dr ents (map fst C)))).
    apply (dir_done te s p seq ents mx C H W s' (filter kp ents) (maxid mx (filter kp ents)) (sel kp ents C) _ W); auto.
    + apply HF. pose proof (traced_fl _ _ _ _ (up_tr _ _ _ _ _ _ _ _ U)) as (_ & X & _). exact X.
    + intros x Hx. unfold owns in Hx. rewrite sel_chains in Hx by auto.
      apply (owned_split dr ents (map fst C)) in Hx; [|rewrite map_length; auto|auto]. destruct Hx as [Hx Hx']. split; [apply Hown; auto|auto].
    + pose proof (st_w _ _ _ _ _ _ _ _ _ ST) as Hw. rewrite Forall_forall in *. intros [w cur] Hin.
      destruct (wst_same (fl s) (fl s') ents C (w, cur) (Hw _ Hin)) as (i & e & l & ds & q & A1 & A2 & A3 & A4).
      { intros x Hx. apply dkeep_same; auto. }
      destruct (sel_nth kp ents C i e _ A1 A2) as (j & B1 & B2).
      { eapply HW; eauto. eapply nth_error_In; eauto. }
      exists j, e, l, ds, q. auto.
    + apply (st_ids _ _ _ _ _ _ _ _ _ ST).
Qed.
End S.

(** * Directory operations: representation invariant and specifications *)
From Verif Require Import Base Hamming HammingProofs Flash FS Sectors SectorsProofs ATable TornCode TableCode TableScan ChipRules TableBuild.
Local Open Scope N_scope.
Local Open Scope fs_scope.

Definition next_slot (p : N) : N := (p + 1) mod TABLE_COUNT.

(** The flash holds directory [ents] with highest id [mx], in slot [p], sequence number [seq]. *)
Record Rep (f : flash) (p seq : N) (ents : list entry) (mx : N) : Prop := {
  rp_pos : p < 4;
  rp_seq : 1 <= seq;
  rp_tab : table_at f (p * 32768) seq ents mx;
  rp_others : forall q, q < 4 -> q <> p -> harmless f (q * 32768) seq;
  rp_strict : forall q, q < 4 -> q <> p -> q <> next_slot p ->
     forall s, header_deserialize (rd f (q * 32768) 13) = Some s -> s < seq }.

(** no interrupted update has been left in the slot that is written next *)
Definition clean (f : flash) (p seq : N) : Prop :=
  forall s, header_deserialize (rd f (next_slot p * 32768) 13) = Some s -> s < seq.

Lemma next_slot_lt p : next_slot p < 4.
Proof. unfold next_slot, TABLE_COUNT. apply N.mod_lt. lia. Qed.
Lemma next_slot_neq p : p < 4 -> next_slot p <> p.
Proof. intros H. unfold next_slot, TABLE_COUNT. assert (p = 0 \/ p = 1 \/ p = 2 \/ p = 3) as [->|[->|[->| ->]]] by lia; discriminate. Qed.
Lemma next_slot2_neq p : p < 4 -> next_slot (next_slot p) <> p /\ next_slot (next_slot p) <> next_slot p.
Proof. intros H. unfold next_slot, TABLE_COUNT. assert (p = 0 \/ p = 1 \/ p = 2 \/ p = 3) as [->|[->|[->| ->]]] by lia; split; discriminate. Qed.

Lemma slots_disjoint p q x : p <> q -> in_slot (p * 32768) x -> ~ in_slot (q * 32768) x.
Proof. unfold in_slot. intros Hn Hp Hq. apply Hn. lia. Qed.

Definition dir_ok (ents : list entry) (mx : N) : Prop :=
  Forall entry_ok ents /\ Forall (fun e => is_footer e = false) ents /\ (length ents < slot_blocks)%nat /\ mx < 2 ^ 64.

Lemma rep_dir_ok f p seq ents mx : Rep f p seq ents mx -> dir_ok ents mx.
Proof.
  intros [_ _ T _ _]. destruct (table_ents_ok _ _ _ _ _ T) as (A & B & _). destruct T. repeat split; auto.
Qed.

(** ** Boot *)
Lemma rep_read_latest f p seq ents mx : Rep f p seq ents mx ->
  read_latest f at_default = Ok (mkAT seq (N.of_nat (length ents)) mx p [], true).
Proof. intros [A B C D _]. apply read_latest_table; auto. Qed.

Lemma rep_inj f p seq ents mx p' seq' ents' mx' : Rep f p seq ents mx -> Rep f p' seq' ents' mx' ->
  p = p' /\ seq = seq' /\ ents = ents' /\ mx = mx'.
Proof.
  intros R1 R2. pose proof (rep_read_latest _ _ _ _ _ R1) as E1. rewrite (rep_read_latest _ _ _ _ _ R2) in E1.
  injection E1 as E2 E3 E4 E5. subst. destruct R1 as [_ _ T1 _ _], R2 as [_ _ T2 _ _].
  destruct (table_at_inj _ _ _ _ _ _ _ _ T1 T2) as (? & ? & ?). auto.
Qed.

(** ** The result of an update, completed or not *)
Lemma rep_next f0 f p seq ents mx D m : Rep f0 p seq ents mx -> tsame_except (next_slot p) f0 f ->
  table_at f (next_slot p * 32768) (seq + 1) D m -> Rep f (next_slot p) (seq + 1) D m.
Proof.
  intros R Hf T. pose proof (rp_pos _ _ _ _ _ R) as Hp. pose proof (next_slot_lt p) as Ht.
  assert (L : forall q, q < 4 -> q <> next_slot p -> forall x, in_slot (q * 32768) x -> f0 x = f x).
  { intros q Hq Hn x Hx. symmetry. apply Hf; [apply (in_slot_table q); auto|].
    apply (slots_disjoint q); auto. }
  constructor; auto.
  - lia.
  - intros q Hq Hn. destruct (N.eq_dec q p) as [->|Hqp].
    + eapply table_harmless; [|apply N.lt_add_pos_r; lia]. eapply table_at_local; [|apply (rp_tab _ _ _ _ _ R)].
      apply L; auto.
    + eapply harmless_local; [apply L; auto|]. eapply harmless_mono; [|apply (rp_others _ _ _ _ _ R); auto]. lia.
  - intros q Hq Hn Hn2 s. rewrite <- (in_slot_rd f0 f (q * 32768) _ 13) by (try (apply L; assumption); lia).
    intros Hs. destruct (N.eq_dec q p) as [->|Hqp].
    + rewrite (ta_hdr _ _ _ _ _ (rp_tab _ _ _ _ _ R)) in Hs. injection Hs as <-. lia.
    + pose proof (rp_strict _ _ _ _ _ R q Hq Hqp Hn s Hs). lia.
Qed.

Lemma next_clean f0 f p seq ents mx : Rep f0 p seq ents mx -> tsame_except (next_slot p) f0 f ->
  clean f (next_slot p) (seq + 1).
Proof.
  intros R Hf s Hs. pose proof (rp_pos _ _ _ _ _ R) as Hp. destruct (next_slot2_neq p Hp) as [N1 N2].
  pose proof (next_slot_lt (next_slot p)) as Hq.
  rewrite <- (in_slot_rd f0 f (next_slot (next_slot p) * 32768) _ 13) in Hs; [| |lia|lia].
  - pose proof (rp_strict _ _ _ _ _ R _ Hq N1 N2 s Hs). lia.
  - intros x Hx. symmetry. apply Hf; [apply (in_slot_table (next_slot (next_slot p))); auto|].
    apply (slots_disjoint (next_slot (next_slot p))); auto.
Qed.

Lemma rep_old f0 f p seq ents mx : Rep f0 p seq ents mx -> tsame_except (next_slot p) f0 f ->
  harmless f (next_slot p * 32768) seq -> Rep f p seq ents mx.
Proof.
  intros R Hf Hh. pose proof (rp_pos _ _ _ _ _ R) as Hp. pose proof (next_slot_neq p Hp) as Hne.
  assert (L : forall q, q < 4 -> q <> next_slot p -> forall x, in_slot (q * 32768) x -> f0 x = f x).
  { intros q Hq Hn x Hx. symmetry. apply Hf; [apply (in_slot_table q); auto|].
    apply (slots_disjoint q); auto. }
  constructor.
  - exact Hp.
  - apply (rp_seq _ _ _ _ _ R).
  - eapply table_at_local; [|apply (rp_tab _ _ _ _ _ R)]. apply L; auto.
  - intros q Hq Hn. destruct (N.eq_dec q (next_slot p)) as [->|Hqn]; [auto|].
    eapply harmless_local; [apply L; auto|]. apply (rp_others _ _ _ _ _ R); auto.
  - intros q Hq Hn Hn2 s. rewrite <- (in_slot_rd f0 f (q * 32768) _ 13) by (try (apply L; assumption); lia).
    apply (rp_strict _ _ _ _ _ R q Hq Hn Hn2 s).
Qed.

Theorem interrupted_update te f0 f p seq ents mx D m H :
  Rep f0 p seq ents mx -> (te = true -> clean f0 p seq) -> seq + 1 < 2 ^ 64 -> dir_ok D m ->
  mid_update te (next_slot p) H f0 (image (seq + 1) D m) f ->
  Rep f p seq ents mx \/ (exists m', Rep f (next_slot p) (seq + 1) D m').
Proof.
  intros R Hcl Hq (D1 & D2 & D3 & D4) (M1 & M2 & [(pages & M3 & M4)|(k & M3)]).
  - left. apply (rep_old f0); auto. pose proof (rp_pos _ _ _ _ _ R) as Hp.
    pose proof (next_slot_neq p Hp) as Hne. pose proof (next_slot_lt p) as Hlt.
    pose proof (rp_others _ _ _ _ _ R _ Hlt Hne) as Hh.
    destruct te.
    + apply (partial_erase_harmless pages f0); auto. intros s. apply (Hcl eq_refl).
    + eapply harmless_local; [|exact Hh]. intros x Hx. rewrite (M3 x Hx), M4; auto.
  - destruct (prefix_scan f (next_slot p * 32768) (seq + 1) m D k Hq D4 D1 D2 D3 M3) as [Hi|(m' & T & _)].
    + left. apply (rep_old f0); auto. left. auto.
    + right. exists m'. eapply rep_next; eauto.
Qed.

Theorem completed_update te f0 f p seq ents mx D m H :
  Rep f0 p seq ents mx -> seq + 1 < 2 ^ 64 -> dir_ok D m ->
  mid_update te (next_slot p) H f0 (image (seq + 1) D m) f ->
  slot_holds f (next_slot p * 32768) (image (seq + 1) D m) ->
  Rep f (next_slot p) (seq + 1) D m /\ clean f (next_slot p) (seq + 1).
Proof.
  intros R Hq (D1 & D2 & D3 & D4) (M1 & M2 & _) Hs. split.
  - eapply rep_next; eauto. apply full_table; auto.
  - eapply next_clean; eauto.
Qed.

Lemma skipn_skipn_add {A} (l : list A) a b : skipn b (skipn a l) = skipn (a + b) l.
Proof.
  revert l. induction a as [|a IH]; intros l; [reflexivity|].
  destruct l as [|x l]; cbn [Nat.add skipn]; [apply skipn_nil|apply IH].
Qed.

(** ** The builder session *)
Definition maxid (m : N) (l : list entry) : N := fold_left (fun a e => N.max a (e_id e)) l m.

Lemma maxid_app m l1 l2 : maxid m (l1 ++ l2) = maxid (maxid m l1) l2.
Proof. apply fold_left_app. Qed.

Lemma maxid_ge m l : m <= maxid m l.
Proof. revert m. induction l as [|e l IH]; intros m; [apply N.le_refl|]. cbn [maxid fold_left]. etransitivity; [|apply IH]. lia. Qed.

Lemma maxid_in m l e : In e l -> e_id e <= maxid m l.
Proof.
  revert m. induction l as [|x l IH]; intros m []; cbn [maxid fold_left].
  - subst. etransitivity; [|apply maxid_ge]. lia.
  - apply IH; auto.
Qed.

Lemma maxid_bound m l b : m < b -> Forall (fun e => e_id e < b) l -> maxid m l < b.
Proof.
  intros Hm H. revert m Hm. induction H as [|e l He Hl IH]; intros m Hm; [auto|].
  cbn [maxid fold_left]. apply IH. lia.
Qed.

Lemma maxid_eq m l : Forall (fun e => e_id e <= m) l -> maxid m l = m.
Proof.
  induction 1 as [|e l He Hl IH]; [reflexivity|]. cbn [maxid fold_left]. rewrite N.max_l by auto. auto.
Qed.

Section Session.
  Variables (te : bool) (s0 : fs) (H : N -> Prop) (p seq mx : N) (ents : list entry).
  Hypotheses (HR : Rep (fl s0) p seq ents mx) (Hseq : seq + 1 < 2 ^ 64).
  Let t := next_slot p.
  Let Ht : t < 4 := next_slot_lt p.

  Definition written (D : list entry) : list byte := header_serialize (seq + 1) ++ concat (map entry_serialize D).

  Lemma written_length D : length (written D) = (13 * (length D + 1))%nat.
  Proof.
    unfold written. rewrite app_length, concat_length, map_length.
    - destruct (header_serialize_shape (seq + 1)) as [-> _]. lia.
    - apply Forall_forall. intros x Hx. apply in_map_iff in Hx. destruct Hx as (e & <- & _). apply entry_serialize_shape.
  Qed.
  Lemma written_snoc D e : written (D ++ [e]) = written D ++ entry_serialize e.
  Proof. unfold written. rewrite map_app, concat_app. cbn [map concat]. rewrite app_nil_r, app_assoc. reflexivity. Qed.

  Lemma written_image D m : written D ++ footer_serialize m = image (seq + 1) D m.
  Proof.
    unfold written, image, image_blocks. cbn [concat]. rewrite concat_app. cbn [concat]. rewrite app_nil_r, app_assoc. reflexivity.
  Qed.

  (** [r] entries have been read, the entries [D] have been written, [m] is the running maximum *)
  Record BInv (s : fs) (b : builder) (r : nat) (D : list entry) (m : N) : Prop := {
    bi_w : WInv te s0 t H s (written D) (b_pb b);
    bi_cur : b_cur b = p * 32768;
    bi_ri : b_ri b = N.of_nat r;
    bi_cache : (r mod 64 <> 0)%nat -> forall j, (j / 64 = r / 64)%nat -> (j < slot_blocks)%nat ->
       firstn 13 (skipn (13 * (j mod 64)) (b_cache b)) = rd (fl s0) (p * 32768 + 13 + 13 * N.of_nat j) 13;
    bi_count : b_count b = N.of_nat (length D);
    bi_max : b_max b = m }.

  Lemma cur_slot_same s W pb : WInv te s0 t H s W pb -> forall x, in_slot (p * 32768) x -> fl s x = fl s0 x.
  Proof.
    intros HW x Hx. destruct (wi_frame _ _ _ _ _ _ _ HW) as [F _].
    pose proof (rp_pos _ _ _ _ _ HR) as Hp. apply F; [apply (in_slot_table p); auto|].
    apply (slots_disjoint p); auto. intros E. symmetry in E. apply (next_slot_neq p Hp). exact E.
  Qed.

  Lemma binv_pos : p < 4 /\ (length ents < slot_blocks)%nat.
  Proof. split; [apply (rp_pos _ _ _ _ _ HR)|apply (ta_cap _ _ _ _ _ (rp_tab _ _ _ _ _ HR))]. Qed.

  Lemma new_spec : atb s0 = mkAT seq (N.of_nat (length ents)) mx p (a_open (atb s0)) ->
    exists s b, at_builder_new s0 = (s, Ok b) /\ BInv s b 0 [] mx /\ b_fin b = false /\ sm s = sm s0 /\ dkeep s0 s /\
      atb s = mkAT (seq + 1) (N.of_nat (length ents)) mx t (a_open (atb s0)).
  Proof.
    intros Ha. unfold at_builder_new. rewrite bind_get. rewrite Ha. cbn [a_seq a_count a_max a_pos a_open].
    unfold guard. destruct (N.ltb_spec seq (2 ^ 64 - 1)) as [_|C]; [|lia]. rewrite bind_ret, bind_modify.
    fold (next_slot p). fold t. unfold out. rewrite bind_modify.
    set (a' := mkAT (seq + 1) (N.of_nat (length ents)) mx t (a_open (atb s0))).
    assert (Ea : at_address a' = t * 32768) by (unfold at_address, a'; cbn [a_pos]; lia). rewrite Ea.
    set (s1 := emit (set_at s0 a') (Erase (t * 32768) (32 * 1024))).
    assert (W1 : WInv te s0 t H s1 [] (mkPB (t * 32768) [])).
    { assert (Gx : forall g, torn_m te (Erase (t * 32768) (32 * 1024)) (fl s0) g -> mid_update te t H (fl s0) [] g).
      { intros g Hg. unfold torn_m in Hg. destruct te; [|destruct Hg as (? & ? & ? & ? & _); discriminate].
        inversion Hg; subst.
        assert (Hout : forall x, ~ in_slot (t * 32768) x ->
           (if (t * 32768 <=? x) && (x <? t * 32768 + 32 * 1024) && pages ((x - t * 32768) / 256) then 255 else fl s0 x) = fl s0 x).
        { intros x Hx. unfold in_slot in Hx. destruct (N.leb_spec (t * 32768) x); [|reflexivity].
          destruct (N.ltb_spec x (t * 32768 + 32 * 1024)); [lia|reflexivity]. }
        destruct (frame_slot t H (fl s0) (fl s0) _ Ht (fun _ _ _ => eq_refl) (fun _ _ _ _ _ => eq_refl) Hout) as [F1 F2].
        split; [exact F1|]. split; [exact F2|]. left. exists pages. split; [|discriminate].
        intros x Hx. unfold in_slot in Hx. destruct (N.leb_spec (t * 32768) x); [|lia].
        destruct (N.ltb_spec x (t * 32768 + 32 * 1024)); [reflexivity|lia]. }
      assert (Hs : slot_holds (fl s1) (t * 32768) []).
      { intros j Hj. cbn [s1 emit fl set_at apply_op].
        destruct (N.leb_spec (t * 32768) (t * 32768 + N.of_nat j)); [|lia].
        destruct (N.ltb_spec (t * 32768 + N.of_nat j) (t * 32768 + 32 * 1024)); [|lia]. destruct j; reflexivity. }
      assert (Ge : mid_update te t H (fl s0) [] (fl s1)).
      { assert (Hout : forall x, ~ in_slot (t * 32768) x -> fl s1 x = fl s0 x).
        { intros x Hx. cbn [s1 emit fl set_at apply_op]. unfold in_slot in Hx. destruct (N.leb_spec (t * 32768) x); [|reflexivity].
          destruct (N.ltb_spec x (t * 32768 + 32 * 1024)); [lia|reflexivity]. }
        destruct (frame_slot t H (fl s0) (fl s0) _ Ht (fun _ _ _ => eq_refl) (fun _ _ _ _ _ => eq_refl) Hout) as [F1 F2].
        split; [exact F1|]. split; [exact F2|]. right. exists O. exact Hs. }
      constructor.
      - unfold s1. apply traced_emit.
        + apply (traced_ext te s0 s0); [reflexivity|reflexivity|]. apply traced_refl.
          split; [intros ? _ _; reflexivity|]. split; [intros ? _ _ ? _; reflexivity|].
          left. exists (fun _ => false). split; [|auto]. intros x _. reflexivity.
        + exact Gx.
        + exact Ge.
        + cbn [allowed_op]. split; [right; left; reflexivity|]. split; [apply N.mod_mul; discriminate|unfold DEVICE_BYTES; lia].
      - constructor.
      - exists O. split; [f_equal; lia|]. split; [cbn; lia|exact Hs]. }
    destruct (header_serialize_shape (seq + 1)) as [L O].
    destruct (extend_spec te s0 t H Ht s1 [] _ (header_serialize (seq + 1)) W1 O) as (s2 & p2 & E2 & W2 & M2 & B2 & K2).
    { cbn [app]. rewrite L. lia. }
    cbn [app] in W2. unfold a' at 1. cbn [a_seq]. rewrite (bind_ok _ _ _ _ _ E2).
    eexists s2, _. split; [reflexivity|]. split; [|split; [reflexivity|]].
    - constructor; cbn [b_pb b_cur b_ri b_cache b_count b_max].
      + unfold written. cbn [map concat]. rewrite app_nil_r. exact W2.
      + unfold at_address. cbn [a_pos]. lia.
      + reflexivity.
      + intros C. exfalso. apply C. reflexivity.
      + reflexivity.
      + reflexivity.
    - rewrite M2, B2. split; [reflexivity|]. split; [|reflexivity].
      eapply dkeep_trans; [|exact K2]. intros x Hx. cbn [s1 emit fl set_at apply_op].
      destruct (N.leb_spec (t * 32768) x); [|reflexivity]. destruct (N.ltb_spec x (t * 32768 + 32 * 1024)); [lia|reflexivity].
  Qed.

  Lemma read_next_spec s b r D m : BInv s b r D m -> b_fin b = false -> (r <= length ents)%nat ->
    exists b', b_read_next b s = (s, Ok (b', nth_error ents r)) /\ BInv s b' (S r) D m /\
      b_fin b' = (match nth_error ents r with Some _ => false | None => true end).
  Proof.
    intros [W C R K N M] Hf Hr. destruct binv_pos as [Hp Hcap].
    pose proof (cur_slot_same _ _ _ W) as Hsame.
    unfold b_read_next. rewrite Hf. unfold read_next_file_entry_slice. rewrite bind_assoc, bind_get, bind_ret.
    rewrite C, R.
    assert (Emod : N.of_nat r mod 64 = N.of_nat (r mod 64)).
    { rewrite Nat2N.inj_mod. reflexivity. }
    rewrite Emod. set (rm := (r mod 64)%nat) in *.
    assert (Hrm : (rm < 64)%nat) by (apply Nat.mod_upper_bound; lia).
    assert (Hdm : (r = 64 * (r / 64) + rm)%nat) by (apply Nat.div_mod; lia).
    set (cache := if N.of_nat rm =? 0 then rd (fl s) (p * 32768 + 13 + N.of_nat r * 13) (13 * 64) else b_cache b).
    assert (Kc : forall j, (j / 64 = r / 64)%nat -> (r <= j)%nat -> (j < slot_blocks)%nat ->
       firstn 13 (skipn (13 * (j mod 64)) cache) = rd (fl s0) (p * 32768 + 13 + 13 * N.of_nat j) 13).
    { intros j Hj Hjr Hjs. unfold cache. destruct (N.eqb_spec (N.of_nat rm) 0) as [E0|E0].
      - assert (Hjd : (j = 64 * (j / 64) + j mod 64)%nat) by (apply Nat.div_mod; lia).
        assert (Hjm : (j mod 64 < 64)%nat) by (apply Nat.mod_upper_bound; lia).
        set (jm := (j mod 64)%nat) in *.
        apply (nth_ext _ _ 255 255).
        { rewrite firstn_length, skipn_length, !rd_length. lia. }
        intros i Hi. rewrite firstn_length, skipn_length, rd_length in Hi.
        rewrite nth_firstn_lt by lia. rewrite nth_skipn. rewrite !rd_nth by lia.
        rewrite Hsame.
        + f_equal. lia.
        + unfold in_slot, slot_blocks in *. lia.
      - apply K; auto. lia. }
    replace (N.to_nat (N.of_nat rm * 13)) with (13 * rm)%nat by lia.
    assert (Esl : firstn 13 (skipn (13 * rm) cache) = rd (fl s0) (p * 32768 + 13 + 13 * N.of_nat r) 13).
    { apply Kc; auto. unfold slot_blocks in *. lia. }
    rewrite Esl.
    assert (BI : forall fin, BInv s (mkB (p * 32768) cache (N.of_nat r + 1) fin (b_pb b) (b_count b) (b_max b)) (S r) D m).
    { intros fin. constructor; cbn [b_pb b_cur b_ri b_cache b_count b_max]; auto; [lia|].
      intros Hne j Hj Hjs.
      assert (Hsd : (S r / 64 = r / 64)%nat).
      { assert (S r = 64 * (r / 64) + S rm)%nat by lia.
        destruct (Nat.eq_dec rm 63) as [E63|N63].
        - exfalso. apply Hne. replace (S r) with ((r / 64 + 1) * 64)%nat by lia. apply Nat.mod_mul. lia.
        - symmetry. apply (Nat.div_unique _ _ _ (S rm)); lia. }
      rewrite Hsd in Hj. destruct (N.eqb_spec (N.of_nat rm) 0) as [E0|E0].
      - apply Kc; auto. pose proof (Nat.div_mod j 64 ltac:(lia)). lia.
      - unfold cache. destruct (N.eqb_spec (N.of_nat rm) 0); [contradiction|]. apply K; auto. lia. }
    pose proof (rp_tab _ _ _ _ _ HR) as T.
    destruct (nth_error ents r) as [e|] eqn:En.
    - pose proof (ta_ents _ _ _ _ _ T r e En) as Er. unfold read_entry_at in Er. rewrite Er.
      pose proof (ta_nf _ _ _ _ _ T) as Hnf. rewrite Forall_forall in Hnf.
      rewrite (Hnf e) by (eapply nth_error_In; eauto).
      eexists. split; [reflexivity|]. rewrite Hf. split; [apply BI|reflexivity].
    - apply nth_error_None in En. assert (r = length ents) by lia.
      destruct (ta_foot _ _ _ _ _ T) as (e & Er & Ef & _). unfold read_entry_at in Er.
      rewrite H0, Er, Ef. cbn [b_cur b_cache b_ri b_pb b_count b_max].
      eexists. split; [reflexivity|]. rewrite <- H0. split; [apply BI|reflexivity].
  Qed.

  Lemma write_spec s b r D m e : BInv s b r D m -> (length D + 1 < slot_blocks)%nat ->
    exists s' b', b_write b e s = (s', Ok b') /\ BInv s' b' r (D ++ [e]) (N.max m (e_id e)) /\
      b_fin b' = b_fin b /\ sm s' = sm s /\ atb s' = atb s /\ dkeep s s'.
  Proof.
    intros [W C R K N M] Hc. unfold b_write.
    destruct (entry_serialize_shape e) as [L O].
    destruct (extend_spec te s0 t H Ht s (written D) (b_pb b) (entry_serialize e) W O) as (s' & p' & E & W' & Ms & Bs & Ks).
    { rewrite app_length, written_length, L. unfold slot_blocks in Hc. lia. }
    rewrite (bind_ok _ _ _ _ _ E). unfold guard.
    destruct (N.ltb_spec (b_count b) 65535) as [_|G]; [|rewrite N in G; unfold slot_blocks in Hc; lia].
    rewrite bind_ret. eexists s', _. split; [reflexivity|]. split; [|auto].
    constructor; cbn [b_pb b_cur b_ri b_cache b_count b_max]; auto.
    - rewrite written_snoc. exact W'.
    - rewrite N, app_length. cbn [length]. lia.
    - rewrite M. destruct (N.ltb_spec m (e_id e)); lia.
  Qed.

  Lemma commit_spec s b r D m : BInv s b r D m -> (length D < slot_blocks)%nat ->
    exists s', b_commit b s = (s', Ok tt) /\
      traced te s0 s' (mid_update te t H (fl s0) (image (seq + 1) D m)) /\
      slot_holds (fl s') (t * 32768) (image (seq + 1) D m) /\
      sm s' = sm s /\ dkeep s s' /\
      atb s' = mkAT (a_seq (atb s)) (N.of_nat (length D)) m (a_pos (atb s)) (a_open (atb s)).
  Proof.
    intros [W C R K N M] Hc. unfold b_commit. rewrite bind_modify.
    set (s1 := set_at s _).
    assert (W1 : WInv te s0 t H s1 (written D) (b_pb b)) by (apply (winv_same te s0 t H s s1); auto; reflexivity).
    destruct (entry_serialize_shape (footer_entry m)) as [L O].
    assert (Hlen : N.of_nat (length (written D ++ footer_serialize m)) <= 32760).
    { unfold footer_serialize. fold (footer_entry m). rewrite app_length, written_length, L. unfold slot_blocks in Hc. lia. }
    destruct (extend_spec te s0 t H Ht s1 (written D) (b_pb b) (footer_serialize m) W1 O Hlen) as (s2 & p2 & E & W2 & Ms & Bs & Ks).
    rewrite M. rewrite (bind_ok _ _ _ _ _ E).
    destruct (final_flush te s0 t H Ht s2 _ p2 W2 Hlen) as (s3 & p3 & E3 & T3 & S3 & Ms3 & Bs3 & Ks3).
    rewrite (bind_ok _ _ _ _ _ E3). exists s3. split; [reflexivity|].
    rewrite written_image in *. split; [exact T3|]. split; [exact S3|]. rewrite Ms3, Bs3, Ms, Bs.
    split; [reflexivity|]. split; [|unfold s1; cbn [set_at sm atb]; rewrite N, M; reflexivity].
    eapply dkeep_trans; [|exact Ks3]. exact Ks.
  Qed.

  Lemma binv_keep s s' : True -> dkeep s s' -> sm s' = sm s -> forall HH, AllocInv s HH -> AllocInv s' HH.
  Proof.
    intros _ K E HH HI. eapply client_inv; eauto. intros x Hd _ a Ha. apply K. eapply data_addr; eauto.
  Qed.

  (** sector claims and releases inside a session *)
  Lemma binv_same s s' b r D m : fl s' = fl s -> lg s' = lg s -> BInv s b r D m -> BInv s' b r D m.
  Proof. intros E1 E2 [W C R K N M]. constructor; auto. eapply winv_same; eauto. Qed.
  Lemma binv_alloc s s' (H' : N -> Prop) b r D m : alloc_frame H' s s' -> (forall x, H x -> H' x) -> BInv s b r D m -> BInv s' b r D m.
  Proof. intros F Hs [W C R K N M]. constructor; auto. eapply winv_alloc; eauto. Qed.

  (** copying the remaining entries *)
  Lemma copy_loop rest : forall fuel s b r D m, BInv s b r D m -> b_fin b = false ->
    skipn r ents = rest -> (r <= length ents)%nat -> (length rest < fuel)%nat ->
    (length D + length rest < slot_blocks)%nat ->
    exists s' b', b_loop fuel b_write b s = (s', Ok b') /\ BInv s' b' (S (length ents)) (D ++ rest) (maxid m rest) /\
      sm s' = sm s /\ atb s' = atb s /\ dkeep s s'.
  Proof.
    induction rest as [|e rest IH]; intros fuel s b r D m HB Hf Hs Hr Hfu Hc;
      (destruct fuel as [|fuel]; [cbn in Hfu; lia|]); cbn [b_loop].
    - assert (Hn : nth_error ents r = None).
      { apply nth_error_None. assert (length (skipn r ents) = 0)%nat by (rewrite Hs; auto). rewrite skipn_length in *. lia. }
      destruct (read_next_spec s b r D m HB Hf Hr) as (b1 & E1 & B1 & _). rewrite Hn in E1.
      rewrite (bind_ok _ _ _ _ _ E1). exists s, b1. split; [reflexivity|]. rewrite app_nil_r.
      assert (r = length ents) as -> by (apply nth_error_None in Hn; lia).
      split; [auto|]. split; [auto|]. split; [auto|apply dkeep_refl].
    - assert (Hn : nth_error ents r = Some e).
      { rewrite <- (firstn_skipn r ents), Hs, nth_error_app2 by (rewrite firstn_length; lia).
        rewrite firstn_length. replace (r - Nat.min r (length ents))%nat with 0%nat by lia. reflexivity. }
      assert (Hlt : (r < length ents)%nat) by (apply nth_error_Some; congruence).
      destruct (read_next_spec s b r D m HB Hf Hr) as (b1 & E1 & B1 & F1). rewrite Hn in E1, F1.
      rewrite (bind_ok _ _ _ _ _ E1). cbn [length] in *.
      destruct (write_spec s b1 (S r) D m e B1) as (s2 & b2 & E2 & B2 & F2 & M2 & A2 & K2); [lia|].
      rewrite (bind_ok _ _ _ _ _ E2).
      destruct (IH fuel s2 b2 (S r) (D ++ [e]) (N.max m (e_id e)) B2) as (s3 & b3 & E3 & B3 & M3 & A3 & K3).
      + rewrite F2, F1. auto.
      + replace (S r) with (r + 1)%nat by lia. rewrite <- skipn_skipn_add, Hs. reflexivity.
      + lia.
      + lia.
      + rewrite app_length. cbn [length]. lia.
      + exists s3, b3. split; [exact E3|]. rewrite <- app_assoc in B3. cbn [app] in B3.
        split; [exact B3|]. split; [congruence|]. split; [congruence|]. eapply dkeep_trans; eauto.
  Qed.
End Session.

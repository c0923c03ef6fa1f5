(** * Invariants of the sector allocator *)
From Coq Require FinFun.
From Verif Require Import Base Flash FS Sectors.
Local Open Scope N_scope.
Local Open Scope fs_scope.

(** ** Specification vocabulary *)
(** indices [0 .. 16351] of the data region *)
Definition data_idx : list N := map N.of_nat (seq 0 (N.to_nat DATA_REGION_SECTORS)).
(** a sector number that belongs to the data region (the first 32 sectors hold the tables) *)
Definition data_sector (x : N) : Prop := ALLOC_TABLES_SECTORS_USED <= x < SECTORS_COUNT.
Definition free_idx (m : smng) : list N := filter (fun i => negb (m4 m i)) data_idx.
Definition used_sector (m : smng) (x : N) : Prop := m4 m (x - ALLOC_TABLES_SECTORS_USED) = true.
(** every byte of sector [x] reads 0xFF *)
Definition sector_erased (f : flash) (x : N) : Prop :=
  forall a, x * SECTOR_SIZE <= a < (x + 1) * SECTOR_SIZE -> f a = 255.
Definition sector_same (f g : flash) (x : N) : Prop :=
  forall a, x * SECTOR_SIZE <= a < (x + 1) * SECTOR_SIZE -> g a = f a.

(** ** The bitmap invariant *)
Record MapInv (m : smng) : Prop := {
  mi_range : forall i, DATA_REGION_SECTORS <= i -> m4 m i = false;
  mi_count : nfree m = N.of_nat (length (free_idx m));
  mi_32 : forall b, b < DATA_REGION_SECTORS / 8 ->
            m32 m b = any_in (m4 m) (8 * b) 8;
  mi_64 : forall b, b < DATA_REGION_SECTORS / 16 ->
            m64 m b = any_in (m32 m) (2 * b) 2 }.

Lemma in_data_idx i : In i data_idx <-> i < DATA_REGION_SECTORS.
Proof.
  unfold data_idx. rewrite in_map_iff. split.
  - intros (k & <- & Hk). apply in_seq in Hk. lia.
  - intros H. exists (N.to_nat i). split; [lia|]. apply in_seq. lia.
Qed.

Lemma nodup_data_idx : NoDup data_idx.
Proof.
  unfold data_idx. apply FinFun.Injective_map_NoDup; [intros a b; lia | apply seq_NoDup].
Qed.

Lemma length_data_idx : length data_idx = N.to_nat DATA_REGION_SECTORS.
Proof. unfold data_idx. rewrite map_length, seq_length. reflexivity. Qed.

Lemma filter_ext_in' {A} (p q : A -> bool) l : (forall x, In x l -> p x = q x) -> filter p l = filter q l.
Proof. intros H. apply filter_ext_in. exact H. Qed.

Lemma filter_flip_out (p q : N -> bool) l i : NoDup l -> In i l -> p i = true -> q i = false ->
  (forall j, j <> i -> q j = p j) -> length (filter p l) = S (length (filter q l)).
Proof.
  intros Hn Hi Hp Hq Hj. induction l as [|x l IH]; [contradiction|].
  inversion Hn as [|? ? Hx Hn']; subst. cbn [filter].
  destruct (N.eq_dec x i) as [->|Hne].
  - rewrite Hp, Hq. cbn [length]. f_equal. f_equal. apply filter_ext_in'.
    intros j Hjl. symmetry. apply Hj. intros ->. contradiction.
  - destruct Hi as [->|Hi]; [congruence|]. specialize (IH Hn' Hi).
    rewrite (Hj x Hne). destruct (p x); cbn [length]; rewrite IH; reflexivity.
Qed.

Lemma any_in_ext m m' lo n : (forall j, lo <= j < lo + N.of_nat n -> m j = m' j) -> any_in m lo n = any_in m' lo n.
Proof.
  intros H. unfold any_in.
  assert (G : forall k, In k (seq 0 n) -> m (lo + N.of_nat k) = m' (lo + N.of_nat k)).
  { intros k Hk. apply in_seq in Hk. apply H. lia. }
  revert G. generalize (seq 0 n) as l. induction l as [|k l IH]; intros G; [reflexivity|].
  cbn [existsb]. rewrite (G k) by (left; auto). rewrite IH; [reflexivity|]. intros; apply G; right; auto.
Qed.

Lemma any_in_true m lo n : any_in m lo n = true <-> exists j, lo <= j < lo + N.of_nat n /\ m j = true.
Proof.
  unfold any_in. rewrite existsb_exists. split.
  - intros (k & Hk & Hm). apply in_seq in Hk. exists (lo + N.of_nat k). split; [lia|auto].
  - intros (j & Hj & Hm). exists (N.to_nat (j - lo)). split; [apply in_seq; lia|].
    replace (lo + N.of_nat (N.to_nat (j - lo))) with j by lia. auto.
Qed.

Lemma any_in_set_out m i v lo n : ~ (lo <= i < lo + N.of_nat n) -> any_in (setb m i v) lo n = any_in m lo n.
Proof.
  intros H. apply any_in_ext. intros j Hj. unfold setb. destruct (N.eqb_spec j i); [lia|auto].
Qed.

Lemma any_in_set_true m i lo n : lo <= i < lo + N.of_nat n -> any_in (setb m i true) lo n = true.
Proof. intros H. apply any_in_true. exists i. split; [auto|]. unfold setb. rewrite N.eqb_refl. auto. Qed.

Global Opaque data_idx.

Lemma mapinv_ext m m' : MapInv m -> m4 m' = m4 m -> m32 m' = m32 m -> m64 m' = m64 m -> nfree m' = nfree m -> MapInv m'.
Proof.
  intros [A B C D] E4 E32 E64 Ef. constructor; unfold free_idx; rewrite ?E4, ?E32, ?E64, ?Ef; assumption.
Qed.

Lemma set_used_inv m x m' : MapInv m -> set_sector_used m x = Some m' -> MapInv m'.
Proof.
  intros H. unfold set_sector_used.
  destruct (N.ltb_spec x ALLOC_TABLES_SECTORS_USED) as [Hx|Hx]; [discriminate|].
  set (i := x - ALLOC_TABLES_SECTORS_USED).
  destruct (N.leb_spec DATA_REGION_SECTORS i) as [Hi|Hi]; [discriminate|].
  destruct (m4 m i) eqn:E; [intros [= <-]; auto|].
  destruct (N.eqb_spec (nfree m) 0) as [Hf|Hf]; [discriminate|].
  intros [= <-]. destruct H as [H1 H2 H3 H4].
  assert (Hc : length (free_idx m) = S (length (filter (fun j => negb (setb (m4 m) i true j)) data_idx))).
  { unfold free_idx. apply (filter_flip_out _ _ _ i).
    - apply nodup_data_idx.
    - apply in_data_idx; auto.
    - rewrite E; auto.
    - unfold setb. rewrite N.eqb_refl. auto.
    - intros j Hj. unfold setb. destruct (N.eqb_spec j i); [congruence|auto]. }
  constructor; cbn [m4 m32 m64 nfree].
  - intros j Hj. unfold setb. destruct (N.eqb_spec j i); [lia|auto].
  - unfold free_idx; cbn [m4]. lia.
  - intros b Hb. destruct (N.eq_dec b (i / 8)) as [->|Hne].
    + rewrite any_in_set_true by lia. unfold setb. rewrite N.eqb_refl. auto.
    + rewrite any_in_set_out by lia. unfold setb.
      destruct (N.eqb_spec b (i/8)); [congruence|]. apply H3; auto.
  - intros b Hb. destruct (N.eq_dec b (i / 16)) as [->|Hne].
    + rewrite any_in_set_true by lia. unfold setb. rewrite N.eqb_refl. auto.
    + rewrite any_in_set_out by lia. unfold setb.
      destruct (N.eqb_spec b (i/16)); [congruence|]. apply H4; auto.
Qed.

Lemma set_unused_inv m x m' : MapInv m -> set_sector_unused m x = Some m' -> MapInv m'.
Proof.
  intros H. unfold set_sector_unused.
  destruct (N.ltb_spec x ALLOC_TABLES_SECTORS_USED) as [Hx|Hx]; [discriminate|].
  set (i := x - ALLOC_TABLES_SECTORS_USED).
  destruct (N.leb_spec DATA_REGION_SECTORS i) as [Hi|Hi]; [discriminate|].
  destruct (m4 m i) eqn:E; cbn [negb]; [|intros [= <-]; auto].
  intros [= <-]. destruct H as [H1 H2 H3 H4].
  set (m4' := setb (m4 m) i false).
  replace (8 * (i / 8) / 8) with (i / 8) by lia.
  replace (16 * (8 * (i / 8) / 16) / 16) with (i / 16) by lia.
  replace (16 * (8 * (i / 8) / 16) / 8) with (2 * (i / 16)) by lia.
  assert (Hc : length (filter (fun j => negb (m4' j)) data_idx) = S (length (free_idx m))).
  { unfold free_idx. apply (filter_flip_out _ _ _ i).
    - apply nodup_data_idx.
    - apply in_data_idx; auto.
    - unfold m4', setb. rewrite N.eqb_refl. auto.
    - rewrite E; auto.
    - intros j Hj. unfold m4', setb. destruct (N.eqb_spec j i); [congruence|auto]. }
  constructor; cbn [m4 m32 m64 nfree].
  - intros j Hj. unfold m4', setb. destruct (N.eqb_spec j i); [lia|auto].
  - unfold free_idx; cbn [m4]. lia.
  - intros b Hb. unfold setb at 1. destruct (N.eqb_spec b (i/8)) as [->|Hne]; [auto|].
    unfold m4'. rewrite any_in_set_out by lia. apply H3; auto.
  - intros b Hb. unfold setb at 1. destruct (N.eqb_spec b (i/16)) as [->|Hne]; [auto|].
    rewrite any_in_set_out by lia. apply H4; auto.
Qed.

Lemma smng_new_inv r : MapInv (smng_new r).
Proof.
  constructor; cbn [smng_new m4 m32 m64 nfree].
  - auto.
  - unfold free_idx. cbn [m4 smng_new].
    rewrite (filter_ext_in' _ (fun _ => true)) by auto.
    assert (G : forall l : list N, filter (fun _ => true) l = l).
    { induction l; cbn [filter]; congruence. }
    rewrite G, length_data_idx. lia.
  - intros b Hb. symmetry. apply Bool.not_true_is_false. rewrite any_in_true. intros (j & _ & H). discriminate.
  - intros b Hb. symmetry. apply Bool.not_true_is_false. rewrite any_in_true. intros (j & _ & H). discriminate.
Qed.

(** Characterisation of the two updates. *)
Lemma set_used_spec m x m' : set_sector_used m x = Some m' ->
  data_sector x /\
  (forall j, m4 m' j = if j =? x - ALLOC_TABLES_SECTORS_USED then true else m4 m j) /\
  ahead m' = ahead m /\ aahead m' = aahead m /\ rng m' = rng m.
Proof.
  unfold set_sector_used, data_sector, SECTORS_COUNT.
  destruct (N.ltb_spec x ALLOC_TABLES_SECTORS_USED) as [Hx|Hx]; [discriminate|].
  destruct (N.leb_spec DATA_REGION_SECTORS (x - ALLOC_TABLES_SECTORS_USED)) as [Hi|Hi]; [discriminate|].
  unfold ALLOC_TABLES_SECTORS_USED, DATA_REGION_SECTORS in *.
  destruct (m4 m (x - 32)) eqn:E.
  - intros [= <-]. repeat split; try lia. intros j. destruct (N.eqb_spec j (x - 32)); [subst; auto|auto].
  - destruct (nfree m =? 0); [discriminate|]. intros [= <-]. cbn. repeat split; try lia.
Qed.

Lemma set_used_ok m x : MapInv m -> data_sector x -> exists m', set_sector_used m x = Some m'.
Proof.
  intros H Hx. unfold set_sector_used, data_sector, SECTORS_COUNT in *.
  destruct (N.ltb_spec x ALLOC_TABLES_SECTORS_USED) as [Hx'|Hx']; [lia|].
  unfold ALLOC_TABLES_SECTORS_USED, DATA_REGION_SECTORS in *.
  destruct (N.leb_spec 16352 (x - 32)) as [Hi|Hi]; [lia|].
  destruct (m4 m (x - 32)) eqn:E; [eauto|].
  destruct (N.eqb_spec (nfree m) 0) as [Hf|Hf]; [|eauto].
  exfalso. destruct H as [_ H2 _ _]. rewrite Hf in H2.
  assert (Hin : In (x - 32) (free_idx m)).
  { unfold free_idx. apply filter_In. split; [apply in_data_idx; auto|rewrite E; auto]. }
  destruct (free_idx m); [contradiction|cbn [length] in H2; lia].
Qed.

Lemma set_unused_spec m x m' : set_sector_unused m x = Some m' ->
  data_sector x /\
  (forall j, m4 m' j = if j =? x - ALLOC_TABLES_SECTORS_USED then false else m4 m j) /\
  ahead m' = ahead m /\ aahead m' = aahead m /\ rng m' = rng m.
Proof.
  unfold set_sector_unused, data_sector, SECTORS_COUNT.
  destruct (N.ltb_spec x ALLOC_TABLES_SECTORS_USED) as [Hx|Hx]; [discriminate|].
  destruct (N.leb_spec DATA_REGION_SECTORS (x - ALLOC_TABLES_SECTORS_USED)) as [Hi|Hi]; [discriminate|].
  unfold ALLOC_TABLES_SECTORS_USED, DATA_REGION_SECTORS in *.
  destruct (m4 m (x - 32)) eqn:E; cbn [negb].
  - intros [= <-]. cbn. repeat split; try lia.
  - intros [= <-]. repeat split; try lia. intros j. destruct (N.eqb_spec j (x - 32)); [subst; auto|auto].
Qed.

Lemma set_unused_ok m x : data_sector x -> exists m', set_sector_unused m x = Some m'.
Proof.
  intros Hx. unfold set_sector_unused, data_sector, SECTORS_COUNT in *.
  destruct (N.ltb_spec x ALLOC_TABLES_SECTORS_USED) as [Hx'|Hx']; [lia|].
  unfold ALLOC_TABLES_SECTORS_USED, DATA_REGION_SECTORS in *.
  destruct (N.leb_spec 16352 (x - 32)) as [Hi|Hi]; [lia|].
  destruct (negb (m4 m (x - 32))); eauto.
Qed.

(** ** Search loops *)
Lemma search_some fuel i r n m j : 0 < n -> search fuel i r n m = Some j -> j < n /\ m j = false.
Proof.
  intros Hn. revert i. induction fuel as [|f IH]; intros i; [discriminate|]. cbn [search].
  destruct (m ((i + r) mod n)) eqn:E; [apply IH|].
  intros [= <-]. split; [apply N.mod_upper_bound; lia|auto].
Qed.

Lemma search_none fuel i r n m : search fuel i r n m = None ->
  forall k, i <= k < i + N.of_nat fuel -> m ((k + r) mod n) = true.
Proof.
  revert i. induction fuel as [|f IH]; intros i H k Hk; [lia|]. cbn [search] in H.
  destruct (m ((i + r) mod n)) eqn:E; [|discriminate].
  destruct (N.eq_dec k i) as [->|Hne]; [auto|]. apply (IH (i + 1)); [auto|lia].
Qed.

Lemma search_all_none r n m : 0 < n -> search_all r n m = None -> forall j, j < n -> m j = true.
Proof.
  intros Hn H j Hj. unfold search_all in H.
  set (k := (j + n - r mod n) mod n).
  assert (Hk : k < n) by (apply N.mod_upper_bound; lia).
  pose proof (search_none _ _ _ _ _ H k) as G.
  rewrite N.add_0_l, N2Nat.id in G. specialize (G ltac:(lia)).
  replace ((k + r) mod n) with j in G; [auto|].
  unfold k. rewrite N.add_mod_idemp_l by lia.
  pose proof (N.mod_upper_bound r n ltac:(lia)) as Hr.
  rewrite <- N.add_mod_idemp_r by lia.
  replace (j + n - r mod n + r mod n) with (j + 1 * n) by lia.
  rewrite N.mod_add by lia. symmetry. apply N.mod_small; auto.
Qed.

(** ** Claiming a region *)
Lemma claim_region_ok m m' i n : MapInv m -> claim_erase_region m = (m', Ok (i, n)) ->
  (n = 16 \/ n = 8 \/ n = 1) /\ i + n <= DATA_REGION_SECTORS /\
  (forall j, i <= j < i + n -> m4 m j = false) /\
  m4 m' = m4 m /\ m32 m' = m32 m /\ m64 m' = m64 m /\ nfree m' = nfree m /\
  ahead m' = ahead m /\ aahead m' = aahead m.
Proof.
  intros [H1 H2 H3 H4]. unfold claim_erase_region.
  destruct (N.eqb_spec (nfree m) 0) as [Hf|Hf]; [discriminate|].
  assert (A32 : forall b, b < DATA_REGION_SECTORS / 8 -> m32 m b = false ->
                 forall j, b * 8 <= j < b * 8 + 8 -> m4 m j = false).
  { intros b Hb Hm j Hj. rewrite H3 in Hm by auto.
    destruct (m4 m j) eqn:E; [|auto]. exfalso.
    assert (any_in (m4 m) (8 * b) 8 = true); [|congruence].
    apply any_in_true. exists j. split; [lia|auto]. }
  destruct (search_all _ _ (m64 m)) as [j64|] eqn:S64.
  { intros [= <- <- <-]. apply search_some in S64; [|reflexivity]. destruct S64 as [Hj Hm].
    unfold DATA_REGION_SECTORS in *.
    split; [auto|]. split; [lia|]. split; [|cbn; auto 10].
    intros j Hji. rewrite H4 in Hm by lia.
    assert (Hb : m32 m (j / 8) = false).
    { destruct (m32 m (j/8)) eqn:E; [|auto]. exfalso.
      assert (any_in (m32 m) (2 * j64) 2 = true); [|congruence].
      apply any_in_true. exists (j/8). split; [lia|auto]. }
    apply (A32 (j / 8)); [lia|auto|lia]. }
  destruct (search_all _ _ (m32 m)) as [j32|] eqn:S32.
  { intros [= <- <- <-]. apply search_some in S32; [|reflexivity]. destruct S32 as [Hj Hm].
    unfold DATA_REGION_SECTORS in *.
    split; [auto|]. split; [lia|]. split; [|cbn; auto 10].
    intros j Hji. apply (A32 j32); [lia|auto|lia]. }
  destruct (search_all _ _ (m4 m)) as [j4|] eqn:S4; [|discriminate].
  intros [= <- <- <-]. apply search_some in S4; [|reflexivity]. destruct S4 as [Hj Hm].
  split; [auto|]. split; [lia|]. split; [|cbn; auto 10].
  intros j Hji. replace j with j4 by lia. auto.
Qed.

Lemma claim_region_aligned m m' i n : claim_erase_region m = (m', Ok (i, n)) -> i mod n = 0.
Proof.
  unfold claim_erase_region. destruct (nfree m =? 0); [discriminate|]. destruct (search_all _ _ (m64 m)) as [j|].
  { intros [= _ <- <-]. apply N.mod_mul. discriminate. }
  destruct (search_all _ _ (m32 m)) as [j|].
  { intros [= _ <- <-]. apply N.mod_mul. discriminate. }
  destruct (search_all _ _ (m4 m)) as [j|]; [|discriminate]. intros [= _ <- <-]. apply N.mod_1_r.
Qed.

Lemma claim_region_total m : MapInv m ->
  (nfree m = 0 /\ claim_erase_region m = (m, Err DeviceFull)) \/
  (0 < nfree m /\ exists m' reg, claim_erase_region m = (m', Ok reg)).
Proof.
  intros [H1 H2 H3 H4]. unfold claim_erase_region.
  destruct (N.eqb_spec (nfree m) 0) as [Hf|Hf]; [left; auto|right]. split; [lia|].
  destruct (search_all _ _ (m64 m)); [eauto|].
  destruct (search_all _ _ (m32 m)); [eauto|].
  destruct (search_all _ _ (m4 m)) eqn:S4; [eauto|]. exfalso.
  assert (free_idx m = []) as G.
  { unfold free_idx. destruct (filter _ data_idx) as [|i l] eqn:E; [auto|].
    assert (Hin : In i (i :: l)) by (left; auto). rewrite <- E in Hin.
    apply filter_In in Hin. destruct Hin as [Hin Hm]. apply in_data_idx in Hin.
    assert (Hp : 0 < DATA_REGION_SECTORS) by reflexivity.
    rewrite (search_all_none _ _ _ Hp S4 i Hin) in Hm. discriminate. }
  rewrite G in H2. cbn in H2. lia.
Qed.

(** ** Taking the sectors of a region *)
Lemma take_spec n : forall (i : N) (async : bool) (m : smng),
  MapInv m -> i + N.of_nat n <= DATA_REGION_SECTORS ->
  (length (if async then aahead m else ahead m) + n <= 16)%nat ->
  exists m', take_sectors n i async m = Some m' /\ MapInv m' /\
    (forall j, m4 m' j = ((i <=? j) && (j <? i + N.of_nat n)) || m4 m j) /\
    exists new : list N, (forall x, In x new <-> i + 32 <= x < i + 32 + N.of_nat n) /\ NoDup new /\ length new = n /\
      ahead m' = (if async then ahead m else new ++ ahead m) /\
      aahead m' = (if async then new ++ aahead m else aahead m).
Proof.
  induction n as [|n IH]; intros i async m H Hi Hl; cbn [take_sectors].
  - exists m. split; [auto|]. split; [auto|]. split.
    + intros j. destruct (N.leb_spec i j), (N.ltb_spec j (i + N.of_nat 0)); cbn [andb orb]; auto; lia.
    + exists []. split; [intros x; cbn [In]; split; [contradiction|lia]|].
      split; [constructor|]. split; [auto|]. destruct async; auto.
  - destruct (set_used_ok m (i + ALLOC_TABLES_SECTORS_USED) H) as (m1 & E).
    { unfold data_sector, ALLOC_TABLES_SECTORS_USED, SECTORS_COUNT, DATA_REGION_SECTORS in *. lia. }
    rewrite E. pose proof (set_used_inv _ _ _ H E) as H1.
    destruct (set_used_spec _ _ _ E) as (_ & Hm4 & Ha & Hb & _).
    rewrite Ha, Hb.
    replace (i + ALLOC_TABLES_SECTORS_USED - ALLOC_TABLES_SECTORS_USED) with i in Hm4 by lia.
    assert (El : (16 <=? length (if async then aahead m else ahead m))%nat = false)
      by (apply Nat.leb_gt; lia).
    rewrite El.
    set (m2 := mkSM _ _ _ _ _ _ _).
    assert (H2 : MapInv m2) by (apply (mapinv_ext m1); auto).
    destruct (IH (i + 1) async m2 H2) as (m' & Em & Hm' & Hj & new & Hn1 & Hn2 & Hn3 & Hn4 & Hn5); [lia| |].
    { unfold m2; cbn [ahead aahead]. destruct async; cbn [length]; lia. }
    exists m'. split; [auto|]. split; [auto|]. split.
    + intros j. rewrite Hj. unfold m2; cbn [m4]. rewrite Hm4.
      destruct (N.eqb_spec j i) as [->|Hne].
      * rewrite Bool.orb_true_r. destruct (N.leb_spec i i), (N.ltb_spec i (i + N.of_nat (S n))); auto; lia.
      * f_equal. destruct (N.leb_spec (i+1) j), (N.leb_spec i j), (N.ltb_spec j (i + 1 + N.of_nat n)),
          (N.ltb_spec j (i + N.of_nat (S n))); auto; lia.
    + exists (new ++ [i + ALLOC_TABLES_SECTORS_USED]). unfold ALLOC_TABLES_SECTORS_USED in *. split; [|split; [|split; [|split]]].
      * intros x. rewrite in_app_iff, Hn1. cbn [In]. lia.
      * apply nodup_app. split; [auto|]. split; [repeat constructor; auto|].
        intros x Hx Hx'. rewrite Hn1 in Hx. cbn [In] in Hx'. lia.
      * rewrite app_length, Hn3. cbn [length]. lia.
      * rewrite Hn4. unfold m2; cbn [ahead]. destruct async; auto. rewrite <- app_assoc. reflexivity.
      * rewrite Hn5. unfold m2; cbn [aahead]. destruct async; auto. rewrite <- app_assoc. reflexivity.
Qed.

(** ** The allocator invariant.  [H x]: sector [x] is in the hands of a client (a file chain or
    an open writer). *)
Record AllocInv (s : fs) (H : N -> Prop) : Prop := {
  ai_map : MapInv (sm s);
  ai_nodup : NoDup (ahead (sm s) ++ aahead (sm s));
  ai_len : (length (ahead (sm s)) <= 16)%nat /\ (length (aahead (sm s)) <= 16)%nat;
  ai_free : forall x, In x (ahead (sm s) ++ aahead (sm s)) ->
      data_sector x /\ ~ H x /\ sector_erased (fl s) x;
  ai_held : forall x, H x -> data_sector x;
  ai_used : forall x, data_sector x ->
      (used_sector (sm s) x <-> H x \/ In x (ahead (sm s) ++ aahead (sm s))) }.

(** An erase that touches only data sectors that are not held. *)
Definition free_erase (H : N -> Prop) (o : fop) : Prop :=
  exists i n, o = Erase ((i + ALLOC_TABLES_SECTORS_USED) * SECTOR_SIZE) (n * SECTOR_SIZE) /\
    (forall x, i + ALLOC_TABLES_SECTORS_USED <= x < i + n + ALLOC_TABLES_SECTORS_USED ->
              data_sector x /\ ~ H x) /\ (n = 16 \/ n = 8 \/ n = 1) /\ i mod n = 0.

(** What an allocator call may do to the rest of the state. *)
Definition alloc_frame (H : N -> Prop) (s s' : fs) : Prop :=
  atb s' = atb s /\
  (exists ops, lg s' = lg s ++ ops /\ fl s' = apply_ops (fl s) ops /\ Forall (free_erase H) ops).

Lemma alloc_frame_refl H s : alloc_frame H s s.
Proof. split; [auto|]. exists []. rewrite app_nil_r. auto. Qed.

Lemma alloc_frame_trans H s1 s2 s3 : alloc_frame H s1 s2 -> alloc_frame H s2 s3 -> alloc_frame H s1 s3.
Proof.
  intros (A & o1 & L1 & F1 & P1) (B & o2 & L2 & F2 & P2). split; [congruence|].
  exists (o1 ++ o2). rewrite L2, L1, app_assoc, F2, F1, apply_ops_app. repeat split; auto.
  apply Forall_app; auto.
Qed.

Lemma apply_free_erase H o f : free_erase H o -> forall x, (~ data_sector x \/ H x) -> sector_same f (apply_op f o) x.
Proof.
  intros (i & n & -> & Hi & _) x Hx a Ha. cbn [apply_op].
  unfold SECTOR_SIZE, ALLOC_TABLES_SECTORS_USED in *.
  destruct (N.leb_spec ((i + 32) * 4096) a), (N.ltb_spec a ((i + 32) * 4096 + n * 4096)); cbn [andb]; auto.
  exfalso. destruct (Hi x) as [A B]; [lia|]. tauto.
Qed.

Lemma apply_free_erases H ops : Forall (free_erase H) ops ->
  forall f x, (~ data_sector x \/ H x) -> sector_same f (apply_ops f ops) x.
Proof.
  induction 1 as [|o l Ho Hl IH]; intros f x Hx a Ha; [reflexivity|].
  cbn [apply_ops fold_left]. fold (apply_ops (apply_op f o) l).
  rewrite (IH (apply_op f o) x Hx a Ha). apply (apply_free_erase H o f Ho x Hx a Ha).
Qed.

(** Erases never spoil an erased sector. *)
Lemma free_erase_keeps_erased H o f x : free_erase H o -> sector_erased f x -> sector_erased (apply_op f o) x.
Proof.
  intros (i & n & -> & _) Hx a Ha. cbn [apply_op]. rewrite (Hx a Ha). destruct (_ && _); auto.
Qed.

Lemma free_erases_keep_erased H ops f x : Forall (free_erase H) ops -> sector_erased f x ->
  sector_erased (apply_ops f ops) x.
Proof.
  intros Hl. revert f. induction Hl as [|o l Ho Hl IH]; intros f Hx; [auto|].
  cbn [apply_ops fold_left]. apply IH. eapply free_erase_keeps_erased; eauto.
Qed.

Lemma set_sm_same s : set_sm s (sm s) = s.
Proof. destruct s; reflexivity. Qed.

Lemma idx_sector x : data_sector x -> x = x - 32 + 32.
Proof. unfold data_sector, ALLOC_TABLES_SECTORS_USED. lia. Qed.

(** No free index means every data sector is used. *)
Lemma nfree_zero m x : MapInv m -> nfree m = 0 -> data_sector x -> used_sector m x.
Proof.
  intros [_ Hc _ _] Hf Hd. unfold used_sector. destruct (m4 m (x - ALLOC_TABLES_SECTORS_USED)) eqn:E; [auto|].
  exfalso. assert (In (x - ALLOC_TABLES_SECTORS_USED) (free_idx m)) as G.
  { apply filter_In. rewrite E. split; auto. apply in_data_idx.
    unfold data_sector, ALLOC_TABLES_SECTORS_USED, SECTORS_COUNT, DATA_REGION_SECTORS in *. lia. }
  rewrite Hf in Hc. destruct (free_idx m); [contradiction|cbn [length] in Hc; lia].
Qed.

Lemma claim_and_erase_spec s H (async : bool) : AllocInv s H ->
  (if async then aahead (sm s) else ahead (sm s)) = [] ->
  (nfree (sm s) = 0 /\ claim_and_erase async s = (s, Ok false)) \/
  (exists s', claim_and_erase async s = (s', Ok true) /\ AllocInv s' H /\ alloc_frame H s s' /\
     (if async then aahead (sm s') else ahead (sm s')) <> [] /\
     (if async then ahead (sm s') else aahead (sm s')) = (if async then ahead (sm s) else aahead (sm s))).
Proof.
  intros HI He. unfold claim_and_erase, bind, get.
  destruct (claim_region_total (sm s) (ai_map _ _ HI)) as [[Hz E]|[Hz (m1 & [i n] & E)]].
  { left. split; [auto|]. rewrite E. unfold modify, ret. rewrite set_sm_same. reflexivity. }
  right. rewrite E. unfold modify, erase_region, bind, out, get, modify. cbn [fst snd].
  destruct (claim_region_ok _ _ _ _ (ai_map _ _ HI) E) as (Hn & Hb & Hfree & E4 & E32 & E64 & Ef & Ea & Eb).
  set (s1 := emit (set_sm s m1) _).
  assert (Hm1 : MapInv m1).
  { apply (mapinv_ext (sm s)); auto. apply (ai_map _ _ HI). }
  assert (Hl : (length (if async then aahead m1 else ahead m1) + N.to_nat n <= 16)%nat).
  { rewrite Ea, Eb, He. cbn [length]. destruct Hn as [->|[->| ->]]; cbn; lia. }
  destruct (take_spec (N.to_nat n) i async m1 Hm1 ltac:(lia) Hl) as (m' & Et & Hm' & Hj & new & N1 & N2 & N3 & N4 & N5).
  change (sm s1) with m1. rewrite Et. unfold ret. cbn [set_sm].
  eexists. split; [reflexivity|].
  assert (Hnew : forall x, In x new -> data_sector x /\ ~ H x /\ ~ In x (ahead (sm s) ++ aahead (sm s))).
  { intros x Hx. apply N1 in Hx.
    assert (Hd : data_sector x).
    { unfold data_sector, ALLOC_TABLES_SECTORS_USED, SECTORS_COUNT, DATA_REGION_SECTORS in *. lia. }
    assert (Hu : ~ used_sector (sm s) x).
    { unfold used_sector, ALLOC_TABLES_SECTORS_USED. rewrite Hfree by lia. discriminate. }
    split; [auto|]. rewrite (ai_used _ _ HI x Hd) in Hu. tauto. }
  assert (Hop : free_erase H (Erase ((i + ALLOC_TABLES_SECTORS_USED) * SECTOR_SIZE) (n * SECTOR_SIZE))).
  { exists i, n. split; [auto|]. split; [|split; [exact Hn|exact (claim_region_aligned _ _ _ _ E)]]. unfold ALLOC_TABLES_SECTORS_USED. intros x Hx.
    destruct (Hnew x) as (A & B & _); [apply N1; lia|auto]. }
  assert (Hin : forall x, In x (ahead m' ++ aahead m') <-> In x new \/ In x (ahead (sm s) ++ aahead (sm s))).
  { intros x. rewrite N4, N5, Ea, Eb. destruct async; rewrite !in_app_iff; tauto. }
  split; [|split; [|split]].
  - constructor; cbn [sm fl set_sm emit s1].
    + auto.
    + rewrite N4, N5, Ea, Eb. pose proof (ai_nodup _ _ HI) as Hnd.
      destruct async; rewrite He in *; rewrite ?app_nil_r in *; cbn [app] in *.
      * apply nodup_app. split; [auto|]. split; [auto|]. intros x Hx Hx'.
        apply (Hnew x Hx'). auto.
      * apply nodup_app. split; [auto|]. split; [auto|]. intros x Hx Hx'. apply (Hnew x Hx). auto.
    + rewrite N4, N5, Ea, Eb. pose proof (ai_len _ _ HI) as [L1 L2].
      destruct async; rewrite He in *; rewrite ?app_nil_r, ?app_length, ?N3; cbn [length] in *;
        destruct Hn as [->|[->| ->]]; cbn; lia.
    + intros x Hx. apply Hin in Hx. destruct Hx as [Hx|Hx].
      * destruct (Hnew x Hx) as (A & B & _). split; [auto|]. split; [auto|].
        intros a Ha. cbn [apply_op]. apply N1 in Hx. unfold SECTOR_SIZE, ALLOC_TABLES_SECTORS_USED in *.
        destruct (N.leb_spec ((i + 32) * 4096) a), (N.ltb_spec a ((i + 32) * 4096 + n * 4096)); cbn [andb]; auto; lia.
      * destruct (ai_free _ _ HI x Hx) as (A & B & C). split; [auto|]. split; [auto|].
        eapply free_erase_keeps_erased; eauto.
    + apply (ai_held _ _ HI).
    + intros x Hd. rewrite Hin. unfold used_sector. rewrite Hj, E4.
      pose proof (ai_used _ _ HI x Hd) as Hu. unfold used_sector in Hu.
      rewrite Bool.orb_true_iff, Hu, N1. unfold ALLOC_TABLES_SECTORS_USED in *.
      unfold data_sector, ALLOC_TABLES_SECTORS_USED in Hd.
      rewrite Bool.andb_true_iff, N.leb_le, N.ltb_lt.
      assert (Hq : i <= x - 32 /\ x - 32 < i + N.of_nat (N.to_nat n) <-> i + 32 <= x < i + 32 + N.of_nat (N.to_nat n)) by lia.
      tauto.
  - split; [reflexivity|]. exists [Erase ((i + ALLOC_TABLES_SECTORS_USED) * SECTOR_SIZE) (n * SECTOR_SIZE)].
    cbn [set_sm emit s1 lg fl]. repeat split; auto.
  - cbn [set_sm sm]. rewrite N4, N5, Ea, Eb.
    destruct async; rewrite He; destruct new; cbn [app]; try discriminate;
      cbn [length] in N3; destruct Hn as [->|[->| ->]]; discriminate.
  - cbn [set_sm sm]. rewrite N4, N5, Ea, Eb. destruct async; auto.
Qed.

Definition add (H : N -> Prop) (x : N) : N -> Prop := fun y => y = x \/ H y.

Lemma free_erase_ext (H H' : N -> Prop) o : (forall x, H' x -> H x) -> free_erase H o -> free_erase H' o.
Proof. intros He (i & n & -> & Hi & Ha). exists i, n. split; [auto|]. split; [|exact Ha]. intros x Hx. destruct (Hi x Hx). auto. Qed.

(** Popping the head of the erase-ahead list. *)
Lemma pop_spec s H x l : AllocInv s H -> ahead (sm s) = x :: l ->
  exists s', pop_ahead s = (s', Ok (Some x)) /\ AllocInv s' (add H x) /\ ~ H x /\ data_sector x /\
    sector_erased (fl s') x /\ fl s' = fl s /\ lg s' = lg s /\ atb s' = atb s /\ ahead (sm s') = l /\ aahead (sm s') = aahead (sm s)
    /\ m4 (sm s') = m4 (sm s) /\ nfree (sm s') = nfree (sm s).
Proof.
  intros HI Hx. unfold pop_ahead, bind, get. rewrite Hx. unfold modify, ret.
  destruct (ai_free _ _ HI x) as (A & B & C); [rewrite Hx; left; auto|].
  eexists. split; [reflexivity|]. cbn [set_sm sm fl lg atb ahead aahead m4 nfree].
  split; [|split; [auto|]; split; [auto|]; repeat split; auto].
  pose proof (ai_nodup _ _ HI) as Hnd. rewrite Hx in Hnd. cbn [app] in Hnd.
  apply NoDup_cons_iff in Hnd. destruct Hnd as [Hnx Hnd].
  constructor; cbn [set_sm sm fl ahead aahead].
  - apply (mapinv_ext (sm s)); auto. apply (ai_map _ _ HI).
  - auto.
  - pose proof (ai_len _ _ HI) as [L1 L2]. rewrite Hx in L1. cbn [length] in L1. lia.
  - intros y Hy. destruct (ai_free _ _ HI y) as (A' & B' & C'); [rewrite Hx; right; auto|].
    split; [auto|]. split; [|auto]. intros [->|Hy']; auto.
  - intros y [->|Hy]; auto. apply (ai_held _ _ HI); auto.
  - intros y Hy. pose proof (ai_used _ _ HI y Hy) as Hu. rewrite Hx in Hu. cbn [app In] in Hu.
    unfold used_sector, add in *. cbn [m4]. rewrite Hu. intuition auto.
Qed.

Theorem claim_spec s H : AllocInv s H ->
  (exists s' x, claim_avaliable_sector_and_erase s = (s', Ok x) /\
     AllocInv s' (add H x) /\ ~ H x /\ data_sector x /\ sector_erased (fl s') x /\ alloc_frame H s s') \/
  (claim_avaliable_sector_and_erase s = (s, Err DeviceFull) /\ (forall x, data_sector x -> H x)).
Proof.
  intros HI. unfold claim_avaliable_sector_and_erase.
  destruct (ahead (sm s)) as [|x l] eqn:Ea.
  2:{ left. destruct (pop_spec s H x l HI Ea) as (s' & E & A & B & C & D & F & G & K & _).
      rewrite (bind_ok _ _ _ _ _ E). exists s', x. split; [reflexivity|].
      split; [auto|]. split; [auto|]. split; [auto|]. split; [auto|].
      split; [auto|]. exists []. rewrite app_nil_r. auto. }
  assert (E0 : pop_ahead s = (s, Ok None)) by (unfold pop_ahead, bind, get; rewrite Ea; reflexivity).
  rewrite (bind_ok _ _ _ _ _ E0). rewrite bind_get.
  destruct (aahead (sm s)) as [|y l'] eqn:Eb.
  - (* both empty *)
    destruct (claim_and_erase_spec s H false HI Ea) as [[Hz E1]|(s1 & E1 & I1 & F1 & N1 & O1)].
    + right. split.
      * rewrite bind_assoc, (bind_ok _ _ _ _ _ E1), bind_ret, (bind_ok _ _ _ _ _ E0). reflexivity.
      * intros x Hx. pose proof (nfree_zero _ _ (ai_map _ _ HI) Hz Hx) as Hu.
        apply (ai_used _ _ HI x Hx) in Hu. rewrite Ea, Eb in Hu. cbn in Hu. tauto.
    + left. rewrite bind_assoc, (bind_ok _ _ _ _ _ E1).
      assert (O1' : aahead (sm s1) = []) by (cbn in O1; congruence).
      destruct (claim_and_erase_spec s1 H true I1 O1') as [[Hz E2]|(s2 & E2 & I2 & F2 & N2 & O2)].
      * rewrite bind_assoc, (bind_ok _ _ _ _ _ E2), bind_ret.
        destruct (ahead (sm s1)) as [|x l] eqn:Ex; [contradiction|].
        destruct (pop_spec s1 H x l I1 Ex) as (s' & E & A & B & C & D & F & G & K & _).
        rewrite (bind_ok _ _ _ _ _ E). exists s', x. split; [reflexivity|].
        split; [auto|]. split; [auto|]. split; [auto|]. split; [auto|].
        eapply alloc_frame_trans; [exact F1|]. split; [auto|]. exists []. rewrite app_nil_r. auto.
      * rewrite bind_assoc, (bind_ok _ _ _ _ _ E2), bind_ret.
        destruct (ahead (sm s2)) as [|x l] eqn:Ex; [congruence|].
        destruct (pop_spec s2 H x l I2 Ex) as (s' & E & A & B & C & D & F & G & K & _).
        rewrite (bind_ok _ _ _ _ _ E). exists s', x. split; [reflexivity|].
        split; [auto|]. split; [auto|]. split; [auto|]. split; [auto|].
        eapply alloc_frame_trans; [exact F1|]. eapply alloc_frame_trans; [exact F2|].
        split; [auto|]. exists []. rewrite app_nil_r. auto.
  - (* swap the lists *)
    left. unfold swap_ahead at 1. rewrite bind_assoc, bind_modify.
    set (s1 := set_sm s _).
    assert (I1 : AllocInv s1 H).
    { destruct HI as [A1 A2 A3 A4 A5 A6].
      constructor; cbn [s1 set_sm sm fl ahead aahead]; try rewrite Ea, Eb in *; cbn [app] in *.
      - apply (mapinv_ext (sm s)); auto.
      - rewrite app_nil_r. auto.
      - tauto.
      - rewrite app_nil_r. auto.
      - auto.
      - rewrite app_nil_r. auto. }
    assert (Ha1 : aahead (sm s1) = []) by (cbn; auto).
    assert (Hb1 : ahead (sm s1) = y :: l') by (cbn; auto).
    assert (F0 : alloc_frame H s s1).
    { split; [reflexivity|]. exists []. rewrite app_nil_r. auto. }
    destruct (claim_and_erase_spec s1 H true I1 Ha1) as [[Hz E2]|(s2 & E2 & I2 & F2 & N2 & O2)].
    * rewrite bind_assoc, (bind_ok _ _ _ _ _ E2), bind_ret.
      destruct (pop_spec s1 H y l' I1 Hb1) as (s' & E & A & B & C & D & F & G & K & _).
      rewrite (bind_ok _ _ _ _ _ E). exists s', y. split; [reflexivity|].
      split; [auto|]. split; [auto|]. split; [auto|]. split; [auto|].
      eapply alloc_frame_trans; [exact F0|]. split; [auto|]. exists []. rewrite app_nil_r. auto.
    * rewrite bind_assoc, (bind_ok _ _ _ _ _ E2), bind_ret.
      rewrite Hb1 in O2.
      destruct (pop_spec s2 H y l' I2 O2) as (s' & E & A & B & C & D & F & G & K & _).
      rewrite (bind_ok _ _ _ _ _ E). exists s', y. split; [reflexivity|].
      split; [auto|]. split; [auto|]. split; [auto|]. split; [auto|].
      eapply alloc_frame_trans; [exact F0|]. eapply alloc_frame_trans; [exact F2|].
      split; [auto|]. exists []. rewrite app_nil_r. auto.
Qed.

Lemma ai_ext s (H H' : N -> Prop) : (forall x, H x <-> H' x) -> AllocInv s H -> AllocInv s H'.
Proof.
  intros He [A B C D E F]. constructor; auto.
  - intros x Hx. destruct (D x Hx) as (P & Q & R). rewrite He in Q. auto.
  - intros x Hx. apply E, He; auto.
  - intros x Hx. rewrite (F x Hx), He. tauto.
Qed.

Definition remv (H : N -> Prop) (x : N) : N -> Prop := fun y => y <> x /\ H y.

Lemma sm_update_inv s (H H' : N -> Prop) m' : AllocInv s H -> MapInv m' -> ahead m' = ahead (sm s) -> aahead m' = aahead (sm s) ->
  (forall x, H' x -> data_sector x) -> (forall x, In x (ahead (sm s) ++ aahead (sm s)) -> ~ H' x) ->
  (forall x, data_sector x -> (used_sector m' x <-> H' x \/ In x (ahead (sm s) ++ aahead (sm s)))) ->
  AllocInv (set_sm s m') H'.
Proof.
  intros [A B C D E F] Hm Ha Hb Hd Hn Hu. constructor; cbn [set_sm sm fl]; rewrite ?Ha, ?Hb; auto.
  intros x Hx. destruct (D x Hx) as (P & Q & R). auto.
Qed.

Lemma return_spec s H x : AllocInv s H -> H x ->
  exists s', return_sector x s = (s', Ok tt) /\ AllocInv s' (remv H x) /\
             fl s' = fl s /\ lg s' = lg s /\ atb s' = atb s.
Proof.
  intros HI Hx. pose proof (ai_held _ _ HI x Hx) as Hd.
  destruct (set_unused_ok (sm s) x Hd) as (m' & E).
  destruct (set_unused_spec _ _ _ E) as (_ & Hj & Ea & Eb & _).
  unfold return_sector, bind, get. rewrite E. unfold modify.
  eexists. split; [reflexivity|]. split; [|auto].
  apply (sm_update_inv s H); auto.
  - eapply set_unused_inv; eauto. apply (ai_map _ _ HI).
  - intros y [_ Hy]. apply (ai_held _ _ HI); auto.
  - intros y Hy [_ Hy']. apply (ai_free _ _ HI y Hy); auto.
  - intros y Hy. pose proof (ai_used _ _ HI y Hy) as Hu. unfold used_sector, remv in *. rewrite Hj.
    unfold data_sector, ALLOC_TABLES_SECTORS_USED in *.
    destruct (N.eqb_spec (y - 32) (x - 32)) as [Eq|Ne].
    + assert (y = x) by lia. subst y. split; [discriminate|]. intros [[? _]|G]; [congruence|].
      exfalso. apply (ai_free _ _ HI x G); auto.
    + rewrite Hu. assert (y <> x) by congruence. tauto.
Qed.

Lemma claim_sector_spec s H x : AllocInv s H -> data_sector x -> ~ In x (ahead (sm s) ++ aahead (sm s)) ->
  exists s', claim_sector x s = (s', Ok tt) /\ AllocInv s' (add H x) /\
             fl s' = fl s /\ lg s' = lg s /\ atb s' = atb s /\
             ahead (sm s') = ahead (sm s) /\ aahead (sm s') = aahead (sm s).
Proof.
  intros HI Hd Hn. destruct (set_used_ok (sm s) x (ai_map _ _ HI) Hd) as (m' & E).
  destruct (set_used_spec _ _ _ E) as (_ & Hj & Ea & Eb & _).
  unfold claim_sector, bind, get. rewrite E. unfold modify.
  eexists. split; [reflexivity|]. cbn [set_sm sm]. split; [|repeat split; auto].
  apply (sm_update_inv s H); auto.
  - eapply set_used_inv; eauto. apply (ai_map _ _ HI).
  - intros y [->|Hy]; auto. apply (ai_held _ _ HI); auto.
  - intros y Hy [->|Hy']; auto. apply (ai_free _ _ HI y Hy); auto.
  - intros y Hy. pose proof (ai_used _ _ HI y Hy) as Hu. unfold used_sector, add in *. rewrite Hj.
    unfold data_sector, ALLOC_TABLES_SECTORS_USED in *.
    destruct (N.eqb_spec (y - 32) (x - 32)) as [Eq|Ne].
    + assert (y = x) by lia. subst y. tauto.
    + rewrite Hu. assert (y <> x) by congruence. tauto.
Qed.

(** A flash operation by a client: any change confined to the table region and held sectors. *)
Definition client_change (H : N -> Prop) (f f' : flash) : Prop :=
  forall x, data_sector x -> ~ H x -> sector_same f f' x.

Lemma client_inv s s' H : AllocInv s H -> sm s' = sm s -> client_change H (fl s) (fl s') -> AllocInv s' H.
Proof.
  intros [A B C D E F] Hs Hc. constructor; rewrite ?Hs; auto.
  intros x Hx. destruct (D x Hx) as (P & Q & R). split; [auto|]. split; [auto|].
  intros a Ha. rewrite (Hc x P Q a Ha). apply R; auto.
Qed.

Lemma alloc_new f l a r : AllocInv (mkFS f l a (smng_new r)) (fun _ => False).
Proof.
  constructor; cbn.
  - apply smng_new_inv.
  - constructor.
  - lia.
  - contradiction.
  - contradiction.
  - intros x Hx. unfold used_sector. cbn. split; [discriminate|tauto].
Qed.

(** ** Histories of the allocator *)
Inductive alloc_run : fs -> (N -> Prop) -> Prop :=
| ar_new f l a r : alloc_run (mkFS f l a (smng_new r)) (fun _ => False)
  (* boot: mark the sectors of existing files, before anything is allocated *)
| ar_boot s H x s' : alloc_run s H -> ahead (sm s) = [] -> aahead (sm s) = [] ->
    claim_sector x s = (s', Ok tt) -> alloc_run s' (add H x)
| ar_claim s H x s' : alloc_run s H -> claim_avaliable_sector_and_erase s = (s', Ok x) -> alloc_run s' (add H x)
| ar_full s H s' : alloc_run s H -> claim_avaliable_sector_and_erase s = (s', Err DeviceFull) -> alloc_run s' H
| ar_return s H x s' : alloc_run s H -> H x -> return_sector x s = (s', Ok tt) -> alloc_run s' (remv H x)
  (* the clients program/erase sectors they hold, or the table region *)
| ar_client s H s' : alloc_run s H -> sm s' = sm s -> client_change H (fl s) (fl s') -> alloc_run s' H.

Lemma alloc_run_inv s H : alloc_run s H -> AllocInv s H.
Proof.
  induction 1 as [f l a r | s H x s' R IH Ha Hb E | s H x s' R IH E | s H s' R IH E | s H x s' R IH Hx E
                 | s H s' R IH Hs Hc].
  - apply alloc_new.
  - assert (Hd : data_sector x).
    { unfold claim_sector, bind, get in E. destruct (set_sector_used (sm s) x) eqn:E'; [|discriminate].
      apply set_used_spec in E'. tauto. }
    destruct (claim_sector_spec s H x IH Hd) as (s2 & E2 & I2 & _).
    { rewrite Ha, Hb. auto. }
    rewrite E in E2. injection E2 as <-. auto.
  - destruct (claim_spec s H IH) as [(s2 & y & E2 & I2 & _)|(E2 & _)]; rewrite E in E2; [|discriminate].
    injection E2 as <- <-. auto.
  - destruct (claim_spec s H IH) as [(s2 & y & E2 & I2 & _)|(E2 & _)]; rewrite E in E2; [discriminate|].
    injection E2 as <-. auto.
  - destruct (return_spec s H x IH Hx) as (s2 & E2 & I2 & _). rewrite E in E2. injection E2 as <-. auto.
  - eapply client_inv; eauto.
Qed.

(** ** Statements about the free space *)
Lemma nfree_exact m : MapInv m -> nfree m = N.of_nat (length (free_idx m)).
Proof. apply mi_count. Qed.

Lemma block32_exact m b : MapInv m -> b < 2044 ->
  (m32 m b = false <-> forall j, 8 * b <= j < 8 * b + 8 -> m4 m j = false).
Proof.
  intros [_ _ H _] Hb. rewrite H by (unfold DATA_REGION_SECTORS; lia). rewrite <- Bool.not_true_iff_false, any_in_true. split.
  - intros Hn j Hj. destruct (m4 m j) eqn:E; [|auto]. exfalso. apply Hn. exists j. split; [lia|auto].
  - intros Hn (j & Hj & E). rewrite Hn in E by lia. discriminate.
Qed.

Lemma block64_exact m b : MapInv m -> b < 1022 ->
  (m64 m b = false <-> forall j, 16 * b <= j < 16 * b + 16 -> m4 m j = false).
Proof.
  intros HI Hb. pose proof HI as [_ _ _ H]. rewrite H by (unfold DATA_REGION_SECTORS; lia). rewrite <- Bool.not_true_iff_false, any_in_true. split.
  - intros Hn j Hj. destruct (m32 m (j / 8)) eqn:E.
    + exfalso. apply Hn. exists (j / 8). split; [lia|auto].
    + rewrite (block32_exact m (j / 8) HI) in E by lia. apply E. lia.
  - intros Hn (j & Hj & E). assert (E' : m32 m j = false); [|congruence].
    apply (block32_exact m j HI); [lia|]. intros k Hk. apply Hn. lia.
Qed.

Lemma free_bytes_exact s H : AllocInv s H ->
  exists l, NoDup l /\ (forall x, In x l <-> data_sector x /\ ~ H x) /\
            free_bytes s = N.of_nat (length l) * 4016.
Proof.
  intros HI. exists (map (fun i => i + 32) (free_idx (sm s)) ++ ahead (sm s) ++ aahead (sm s)).
  assert (Hin : forall x, In x (map (fun i => i + 32) (free_idx (sm s))) <-> data_sector x /\ ~ used_sector (sm s) x).
  { intros x. rewrite in_map_iff. unfold free_idx, used_sector, data_sector, ALLOC_TABLES_SECTORS_USED, SECTORS_COUNT. split.
    - intros (i & <- & Hi). apply filter_In in Hi. destruct Hi as [Hi Hm]. apply in_data_idx in Hi.
      unfold DATA_REGION_SECTORS in Hi. split; [lia|]. replace (i + 32 - 32) with i by lia.
      intros E. rewrite E in Hm. discriminate.
    - intros [Hd Hu]. exists (x - 32). split; [lia|]. apply filter_In. split.
      + apply in_data_idx. unfold DATA_REGION_SECTORS. lia.
      + destruct (m4 (sm s) (x - 32)) eqn:E; [exfalso; apply Hu; reflexivity|reflexivity]. }
  split; [|split].
  - apply nodup_app. split; [|split].
    + apply FinFun.Injective_map_NoDup; [intros a b; lia|]. apply NoDup_filter, nodup_data_idx.
    + apply (ai_nodup _ _ HI).
    + intros x Hx Hx'. apply Hin in Hx. destruct Hx as [Hd Hu]. apply Hu, (ai_used _ _ HI x Hd). auto.
  - intros x. rewrite in_app_iff, Hin. split.
    + intros [[Hd Hu]|Hx].
      * split; [auto|]. intros Hh. apply Hu, (ai_used _ _ HI x Hd). auto.
      * destruct (ai_free _ _ HI x Hx). tauto.
    + intros [Hd Hh]. pose proof (ai_used _ _ HI x Hd) as Hu. unfold used_sector in *.
      destruct (m4 (sm s) (x - ALLOC_TABLES_SECTORS_USED)) eqn:E; [right; tauto|left; split; [auto|congruence]].
  - unfold free_bytes. rewrite !app_length, map_length, (mi_count _ (ai_map _ _ HI)). unfold MAX_SECTOR_DATA_SIZE. lia.
Qed.

(** * The file writer: specifications, including what a crash can leave *)
From Verif Require Import Base Majority Flash FS Sectors SectorsProofs ATable TornCode TableCode ChipRules TableBuild TableOps DirOps Chains FileIO FileFormat FileWrite.
Local Open Scope N_scope.
Local Open Scope fs_scope.

Definition prefix {A} (p l : list A) : Prop := exists t, l = p ++ t.
Lemma prefix_refl {A} (l : list A) : prefix l l.
Proof. exists []. rewrite app_nil_r. reflexivity. Qed.
Lemma prefix_trans {A} (a b c : list A) : prefix a b -> prefix b c -> prefix a c.
Proof. intros [t ->] [u ->]. exists (t ++ u). rewrite app_assoc. reflexivity. Qed.
Lemma prefix_app {A} (a b : list A) : prefix a (a ++ b).
Proof. exists b. reflexivity. Qed.
Lemma prefix_app_l {A} (a b c : list A) : prefix (a ++ b) c -> prefix a c.
Proof. intros [t ->]. exists (b ++ t). rewrite app_assoc. reflexivity. Qed.
Lemma prefix_app_r {A} (a b c : list A) : prefix b c -> prefix (a ++ b) (a ++ c).
Proof. intros [t ->]. exists t. rewrite app_assoc. reflexivity. Qed.

(** ** Allocation inside a traced operation *)
Lemma torn_free_erase te H o f f' : free_erase H o -> torn_m te o f f' ->
  (forall a, a < 131072 -> f' a = f a) /\ (forall y, H y -> data_sector y -> sector_same f f' y).
Proof.
  intros (i & n & -> & Hi & _) Ht. apply torn_m_torn in Ht. inversion Ht as [|a m pages g]; subst.
  unfold SECTOR_SIZE, ALLOC_TABLES_SECTORS_USED in *. split.
  - intros a Ha. destruct (N.leb_spec ((i + 32) * 4096) a); cbn [andb]; [lia|auto].
  - intros y Hy Hd a Ha. destruct (N.leb_spec ((i + 32) * 4096) a), (N.ltb_spec a ((i + 32) * 4096 + n * 4096)); cbn [andb]; auto.
    exfalso. destruct (Hi y) as [_ Hn]; [unfold SECTOR_SIZE in *; lia|]. auto.
Qed.

Lemma free_erase_tab H o f : free_erase H o -> forall a, a < 131072 -> apply_op f o a = f a.
Proof.
  intros (i & n & -> & Hi & _) a Ha. cbn [apply_op]. unfold SECTOR_SIZE, ALLOC_TABLES_SECTORS_USED in *.
  destruct (N.leb_spec ((i + 32) * 4096) a); cbn [andb]; [lia|auto].
Qed.

Lemma traced_alloc te s0 s s' (G : flash -> Prop) H : traced te s0 s G -> alloc_frame H s s' -> (forall y, H y -> data_sector y) ->
  (forall f', (forall a, a < 131072 -> f' a = fl s a) -> (forall y, H y -> sector_same (fl s) f' y) -> G f') ->
  traced te s0 s' G /\ (forall a, a < 131072 -> fl s' a = fl s a) /\ (forall y, H y -> sector_same (fl s) (fl s') y).
Proof.
  intros T (Ea & ops & Lg & Fl & Fr) Hd HG.
  assert (K : forall ops, Forall (free_erase H) ops -> forall s1, traced te s0 s1 G ->
     (forall a, a < 131072 -> fl s1 a = fl s a) -> (forall y, H y -> sector_same (fl s) (fl s1) y) ->
     let s2 := mkFS (apply_ops (fl s1) ops) (lg s1 ++ ops) (atb s1) (sm s1) in
     traced te s0 s2 G /\ (forall a, a < 131072 -> fl s2 a = fl s a) /\ (forall y, H y -> sector_same (fl s) (fl s2) y)).
  { clear - Hd HG. induction 1 as [|o ops Ho Hops IH]; intros s1 T1 A1 B1.
    - cbn [apply_ops fold_left fl]. split; [|auto]. eapply traced_ext; [| |exact T1]; [reflexivity|]. cbn [lg]. apply app_nil_r.
    - assert (A2 : forall a, a < 131072 -> apply_op (fl s1) o a = fl s a).
      { intros a Ha. rewrite (free_erase_tab H o) by auto. auto. }
      assert (B2 : forall y, H y -> sector_same (fl s) (apply_op (fl s1) o) y).
      { intros y Hy a Ha. etransitivity; [apply (apply_free_erase H o (fl s1) Ho y (or_intror Hy) a Ha)|apply (B1 y Hy a Ha)]. }
      specialize (IH (emit s1 o)). cbn [emit fl] in IH. destruct IH as (P & Q & R); auto.
      + apply traced_emit; auto; [|exact (free_erase_allowed _ _ _ Ho)]. intros f' Ht. destruct (torn_free_erase te H o _ _ Ho Ht) as [X Y]. apply HG.
        * intros a Ha. rewrite X; auto.
        * intros y Hy a Ha. etransitivity; [apply (Y y Hy (Hd y Hy) a Ha)|apply (B1 y Hy a Ha)].
      + cbv zeta. cbn [apply_ops fold_left]. split; [|split; [exact Q|exact R]].
        eapply traced_ext; [| |exact P]; cbn [fl lg emit]; [reflexivity|]. rewrite <- app_assoc. reflexivity. }
  destruct (K ops Fr s T) as (P & Q & R); auto. { intros y Hy a Ha; auto. }
  cbn [fl] in *. rewrite Fl. split; [|auto]. eapply traced_ext; [| |exact P]; [exact Fl|]. cbn [lg]. exact Lg.
Qed.

(** programming a blank page of a data sector *)
Lemma page_allowed f x k P : data_sector x -> k <= 15 -> length P = 256%nat -> bytes_ok P -> page_is f (x * SECTOR_SIZE + 256 * k) [] ->
  allowed_op f (Prog (x * SECTOR_SIZE + 256 * k) P).
Proof.
  intros Hx Hk Hl Ho Hb. unfold data_sector, SECTORS_COUNT, SECTOR_SIZE in *. split; [exact Hl|]. split; [exact Ho|]. split; [|split].
  - replace (x * 4096 + 256 * k) with ((x * 16 + k) * 256) by lia. apply N.mod_mul. discriminate.
  - unfold DEVICE_BYTES. lia.
  - intros a Ha. replace a with (x * 4096 + 256 * k + N.of_nat (N.to_nat (a - (x * 4096 + 256 * k)))) by lia.
    rewrite Hb by lia. destruct (N.to_nat _); reflexivity.
Qed.

Section Seg.
Variable crc : list byte -> N.
Hypothesis crc_bound : crc32 crc.

(** the sectors [l] with data [ds] lead from [o] to [o'] *)
Inductive file_seg (f : flash) : option N -> list N -> list (list byte) -> option N -> Prop :=
| fs_nil o : file_seg f o [] [] o
| fs_cons x d n l ds o' : data_sector x -> sec_holds crc f x d n -> file_seg f (link n) l ds o' ->
    file_seg f (Some x) (x :: l) (d :: ds) o'.

Lemma seg_app f o l ds o' l' ds' o'' : file_seg f o l ds o' -> file_seg f o' l' ds' o'' -> file_seg f o (l ++ l') (ds ++ ds') o''.
Proof. induction 1; intros H'; [auto|]. cbn [app]. econstructor; eauto. Qed.
Lemma seg_holds f o l ds : file_seg f o l ds None <-> file_holds crc f o l ds.
Proof.
  split.
  - intros H. remember None as o' eqn:E. revert E. induction H; intros ->; econstructor; eauto.
  - induction 1; econstructor; eauto.
Qed.
Lemma seg_same f g o l ds o' : file_seg f o l ds o' -> (forall x, In x l -> sector_same f g x) -> file_seg g o l ds o'.
Proof.
  induction 1 as [|x d n l ds o' Hd Hs Hf IH]; intros H; [constructor|]. econstructor; [auto| |].
  - eapply sec_holds_same; eauto. apply H. left; auto.
  - apply IH. intros y Hy. apply H. right; auto.
Qed.
Lemma seg_one f x d n : data_sector x -> sec_holds crc f x d n -> file_seg f (Some x) [x] [d] (link n).
Proof. intros Hx H. econstructor; eauto. constructor. Qed.
Lemma seg_data f o l ds o' : file_seg f o l ds o' -> Forall data_sector l.
Proof. induction 1; auto. Qed.
Lemma link_sector x : data_sector x -> link x = Some x.
Proof. intros H. unfold link. destruct (N.eqb_spec x 65535) as [->|_]; [unfold data_sector, SECTORS_COUNT in H; lia|auto]. Qed.

(** programming a page of sector [x] changes only that sector *)
Lemma prog_frame f x k P : data_sector x -> k < 16 -> (length P <= 256)%nat ->
  let g := apply_op f (Prog (x * SECTOR_SIZE + 256 * k) P) in
  (forall a, a < 131072 -> g a = f a) /\ (forall y, y <> x -> sector_same f g y).
Proof.
  intros Hx Hk HP g. unfold data_sector, SECTOR_SIZE, ALLOC_TABLES_SECTORS_USED in *. split.
  - intros a Ha. apply prog_outside. lia.
  - intros y Hy a Ha. apply prog_outside. unfold SECTOR_SIZE in *. lia.
Qed.

Section Session.
Variables (te : bool) (s0 : fs) (H0 : N -> Prop) (o : option N) (l0 : list N) (x0 : N) (base all : list byte).

(** What an interrupted write may leave. *)
Definition WCrash (f' : flash) : Prop :=
  (forall a, a < 131072 -> f' a = fl s0 a) /\ (forall y, H0 y -> y <> x0 -> sector_same (fl s0) f' y) /\
  exists l1 ds', file_holds crc f' o (l0 ++ x0 :: l1) ds' /\ NoDup (l0 ++ x0 :: l1) /\
    (forall y, In y l1 -> data_sector y /\ ~ H0 y) /\ prefix base (concat ds') /\ prefix (concat ds') all.

(** The finished sectors of the file ([l], data [ds]) lead to the writer's sector [x]. *)
Record SS (f : flash) (x : N) (l l1 : list N) (ds : list (list byte)) : Prop := {
  ss_seg : file_seg f o l ds (Some x);
  ss_path : l ++ [x] = l0 ++ x0 :: l1;
  ss_nodup : NoDup (l ++ [x]);
  ss_x : data_sector x;
  ss_new : forall y, In y l1 -> data_sector y /\ ~ H0 y;
  ss_tab : forall a, a < 131072 -> f a = fl s0 a;
  ss_old : forall y, H0 y -> y <> x0 -> sector_same (fl s0) f y;
  ss_base : prefix base (concat ds) }.

Definition held (H : N -> Prop) (l1 : list N) : Prop := forall y, H y <-> H0 y \/ In y l1.
Hypothesis H0_file : forall y, In y (l0 ++ [x0]) -> H0 y.

Lemma path_held x l l1 : l ++ [x] = l0 ++ x0 :: l1 -> forall y, In y l \/ y = x -> H0 y \/ In y l1.
Proof.
  intros E y Hy. assert (In y (l0 ++ x0 :: l1)).
  { rewrite <- E. apply in_or_app. destruct Hy as [Hy| ->]; [left; auto|right; left; auto]. }
  apply in_app_or in H. destruct H as [H|[H|H]]; [left; apply H0_file, in_or_app; auto| |right; auto].
  left. apply H0_file, in_or_app. right; left; auto.
Qed.

Lemma path_old x l l1 : l ++ [x] = l0 ++ x0 :: l1 -> (forall y, In y l1 -> data_sector y /\ ~ H0 y) -> H0 x -> x = x0.
Proof.
  intros E Hn Hx. destruct (exists_last (l := x0 :: l1)) as (t & z & Et); [discriminate|].
  rewrite Et, app_assoc in E. apply app_inj_tail in E. destruct E as [_ ->].
  assert (Hz : In z (x0 :: l1)) by (rewrite Et; apply in_or_app; right; left; auto).
  destruct Hz as [->|Hz]; [auto|]. destruct (Hn z Hz). contradiction.
Qed.

(** frame: flash changed only in the writer's sector or outside the held sectors *)
Lemma crash_tail f f' x l l1 ds t dt : SS f x l l1 ds ->
  (forall a, a < 131072 -> f' a = f a) -> (forall y, H0 y \/ In y l1 -> y <> x -> sector_same f f' y) ->
  file_holds crc f' (Some x) (x :: t) dt -> NoDup (l ++ x :: t) -> (forall y, In y t -> data_sector y /\ ~ H0 y) ->
  prefix (concat ds ++ concat dt) all -> WCrash f'.
Proof.
  intros S Ht Hs Hf Hn Hnew Hp. destruct S. split; [|split].
  - intros a Ha. rewrite Ht by auto. auto.
  - intros y Hy Hne a Ha. destruct (N.eq_dec y x) as [->|Hyx].
    + exfalso. apply Hne. eapply path_old; eauto.
    + etransitivity; [apply (Hs y (or_introl Hy) Hyx a Ha)|apply (ss_old0 y Hy Hne a Ha)].
  - exists (l1 ++ t), (ds ++ dt).
    assert (E : l0 ++ x0 :: l1 ++ t = l ++ x :: t).
    { change (l0 ++ x0 :: l1 ++ t) with (l0 ++ (x0 :: l1) ++ t). rewrite app_assoc, <- ss_path0, <- app_assoc. reflexivity. }
    rewrite E. split; [|split; [auto|split]].
    + apply seg_holds. eapply seg_app.
      * eapply seg_same; [exact ss_seg0|]. intros y Hy. apply Hs.
        -- eapply path_held; eauto.
        -- intros ->. apply NoDup_remove_2 in Hn. apply Hn. apply in_or_app; auto.
      * apply seg_holds. exact Hf.
    + intros y Hy. apply in_app_or in Hy. destruct Hy; auto.
    + rewrite concat_app. split; [|auto]. eapply prefix_trans; [exact ss_base0|]. apply prefix_app.
Qed.

(** unfinished or just finished without successor *)
Lemma crash_here f f' x l l1 ds d : SS f x l l1 ds ->
  (forall a, a < 131072 -> f' a = f a) -> (forall y, H0 y \/ In y l1 -> y <> x -> sector_same f f' y) ->
  sec_holds crc f' x d 65535 -> prefix (concat ds ++ d) all -> WCrash f'.
Proof.
  intros S Ht Hs Hh Hp. apply (crash_tail f f' x l l1 ds [] [d]); auto.
  - econstructor; [apply (ss_x _ _ _ _ _ S)|exact Hh|]. constructor.
  - apply (ss_nodup _ _ _ _ _ S).
  - intros y [].
  - cbn [concat]. rewrite app_nil_r. auto.
Qed.

Lemma ss_frame f f' x l l1 ds : SS f x l l1 ds ->
  (forall a, a < 131072 -> f' a = f a) -> (forall y, H0 y \/ In y l1 -> y <> x -> sector_same f f' y) ->
  SS f' x l l1 ds.
Proof.
  intros S Ht Hs. destruct S. constructor; auto.
  - eapply seg_same; [exact ss_seg0|]. intros y Hy. apply Hs; [eapply path_held; eauto|].
    intros ->. apply nodup_app_iff in ss_nodup0. destruct ss_nodup0 as (_ & _ & C). apply (C x Hy). left; auto.
  - intros a Ha. rewrite Ht; auto.
  - intros y Hy Hne a Ha. destruct (N.eq_dec y x) as [->|Hyx].
    + exfalso. apply Hne. eapply path_old; eauto.
    + etransitivity; [apply (Hs y (or_introl Hy) Hyx a Ha)|apply (ss_old0 y Hy Hne a Ha)].
Qed.

(** program page [k < 15] of the current sector *)
Lemma page_step s x l l1 ds k P : SS (fl s) x l l1 ds -> traced te s0 s WCrash -> k < 15 -> length P = 256%nat -> bytes_ok P -> page_is (fl s) (x * SECTOR_SIZE + 256 * k) [] ->
  page_is (fl s) (x * SECTOR_SIZE + 3840) [] -> prefix (concat ds) all ->
  let s' := emit s (Prog (x * SECTOR_SIZE + 256 * k) P) in
  traced te s0 s' WCrash /\ SS (fl s') x l l1 ds /\
  (forall a, a < x * SECTOR_SIZE + 256 * k \/ x * SECTOR_SIZE + 256 * k + 256 <= a -> fl s' a = fl s a).
Proof.
  intros S T Hk HP HPo Hblank Hb Hp s'.
  assert (K : forall j, let g := apply_op (fl s) (Prog (x * SECTOR_SIZE + 256 * k) (firstn j P)) in
     WCrash g /\ SS g x l l1 ds).
  { intros j g. assert (Hl : (length (firstn j P) <= 256)%nat) by (rewrite firstn_length; lia).
    destruct (prog_frame (fl s) x k (firstn j P) (ss_x _ _ _ _ _ S)) as [A B]; [lia|auto|]. fold g in A, B.
    split; [|apply (ss_frame (fl s)); auto].
    apply (crash_here (fl s) g x l l1 ds []); auto.
    - apply erased_unfinished. intros i Hi. unfold g. rewrite prog_outside by lia. apply Hb; auto.
    - rewrite app_nil_r. auto. }
  assert (K' := K 256%nat). rewrite firstn_all2 in K' by lia. destruct K' as [K1 K2].
  split; [|split; [exact K2|]].
  - apply traced_emit; auto; [|apply page_allowed; auto; [apply (ss_x _ _ _ _ _ S)|lia]]. intros f' Ht. apply torn_m_torn in Ht. inversion Ht; subst. apply K.
  - intros a Ha. apply prog_outside. lia.
Qed.

(** program the last page, which finishes the sector *)
Lemma finish_step s x l l1 ds cur A n : SS (fl s) x l l1 ds -> traced te s0 s WCrash ->
  N.of_nat (length cur) <= 4016 -> bytes_ok A -> length A = 240%nat ->
  (3780 < N.of_nat (length cur) -> exists post, A = sealed crc (chunk cur 15) ++ post) ->
  (forall k, k < 15 -> 252 * k < N.of_nat (length cur) -> page_holds crc (fl s) x k (chunk cur k)) ->
  page_is (fl s) (x * SECTOR_SIZE + 3840) [] -> prefix (concat ds ++ cur) all ->
  (n = 65535 \/ (data_sector n /\ ~ H0 n /\ ~ In n l1 /\ sector_erased (fl s) n)) ->
  let s' := emit s (Prog (x * SECTOR_SIZE + 3840) (A ++ u16x4 (N.of_nat (length cur)) ++ u16x4 n)) in
  traced te s0 s' WCrash /\ SS (fl s') x l l1 ds /\ sec_holds crc (fl s') x cur n /\
  (forall y, y <> x -> sector_same (fl s) (fl s') y) /\ (forall a, a < 131072 -> fl s' a = fl s a).
Proof.
  intros S T Hc HA HlA Hend Hpg Hb Hp Hn s'. set (P := A ++ u16x4 (N.of_nat (length cur)) ++ u16x4 n) in *.
  assert (Hn16 : n < 65536).
  { destruct Hn as [->|[Hn _]]; [lia|]. unfold data_sector, SECTORS_COUNT in Hn. lia. }
  assert (HlP : length P = 256%nat) by (unfold P; rewrite !app_length, !u16x4_length; lia).
  assert (K : forall j, let g := apply_op (fl s) (Prog (x * SECTOR_SIZE + 3840) (firstn j P)) in
     WCrash g /\ SS g x l l1 ds /\ ((256 <= j)%nat -> sec_holds crc g x cur n)).
  { intros j g. assert (Hl : (length (firstn j P) <= 256)%nat) by (rewrite firstn_length; lia).
    destruct (prog_frame (fl s) x 15 (firstn j P) (ss_x _ _ _ _ _ S)) as [F1 F2]; [lia|auto|].
    change (256 * 15) with 3840 in F1, F2. fold g in F1, F2.
    pose proof (finish_torn crc crc_bound (fl s) x cur n A j (ss_x _ _ _ _ _ S) Hc Hn16 HA HlA Hend Hpg Hb) as Hfin.
    cbv zeta in Hfin. fold P in Hfin. fold g in Hfin.
    split; [|split; [apply (ss_frame (fl s)); auto|intros Hj; destruct Hfin as [[_ C]|[[_ C]|C]]; [lia|lia|exact C]]].
    destruct Hfin as [[Hf _]|[[Hf _]|Hf]].
    - apply (crash_here (fl s) g x l l1 ds []); auto. rewrite app_nil_r. eapply prefix_app_l; eauto.
    - apply (crash_here (fl s) g x l l1 ds cur); auto.
    - destruct Hn as [->|(Hd & HnH & Hnl & He)]; [apply (crash_here (fl s) g x l l1 ds cur); auto|].
      assert (Hnx : n <> x).
      { intros ->. destruct (path_held x l l1 (ss_path _ _ _ _ _ S) x (or_intror eq_refl)); auto. }
      apply (crash_tail (fl s) g x l l1 ds [n] [cur; []]); auto.
      + econstructor; [apply (ss_x _ _ _ _ _ S)|exact Hf|]. rewrite link_sector by auto.
        eapply fh_cons with (n := 65535); [auto| |constructor].
        apply erased_unfinished. intros i Hi. rewrite (F2 n Hnx) by (unfold SECTOR_SIZE; lia).
        rewrite He by (unfold SECTOR_SIZE; lia). destruct i; reflexivity.
      + assert (Hx := ss_nodup _ _ _ _ _ S). change (l ++ [x; n]) with (l ++ [x] ++ [n]). rewrite app_assoc. apply nodup_app_iff.
        split; [auto|]. split; [constructor; [intros []|constructor]|]. intros y Hy [->|[]].
        apply in_app_or in Hy. destruct Hy as [Hy|[Hy|[]]]; [|congruence].
        destruct (path_held x l l1 (ss_path _ _ _ _ _ S) y (or_introl Hy)); auto.
      + intros y [<-|[]]. auto.
      + cbn [concat]. rewrite app_nil_r. auto. }
  destruct (prog_frame (fl s) x 15 P (ss_x _ _ _ _ _ S)) as [F1 F2]; [lia|lia|]. change (256 * 15) with 3840 in F1, F2.
  assert (K' := K 256%nat). rewrite firstn_all2 in K' by lia. destruct K' as (K1 & K2 & K3).
  split; [|split; [exact K2|split; [apply K3; lia|split; [exact F2|exact F1]]]].
  apply traced_emit; auto.
  { intros f' Ht. apply torn_m_torn in Ht. inversion Ht; subst. apply K. }
  change 3840 with (256 * 15). apply page_allowed; [apply (ss_x _ _ _ _ _ S)|lia|exact HlP| |change (256 * 15) with 3840; exact Hb].
  unfold P. apply Forall_app; split; [exact HA|apply Forall_app; split; apply u16x4_ok].
Qed.

(** the writer moves on to sector [n] *)
Lemma ss_advance f x l l1 ds cur n : SS f x l l1 ds -> sec_holds crc f x cur n -> data_sector n -> ~ H0 n -> ~ In n l1 ->
  SS f n (l ++ [x]) (l1 ++ [n]) (ds ++ [cur]).
Proof.
  intros S Hh Hd HnH Hnl. assert (Hnx : n <> x /\ ~ In n l).
  { split; [intros ->; destruct (path_held x l l1 (ss_path _ _ _ _ _ S) x (or_intror eq_refl)); auto|].
    intros Hi. destruct (path_held x l l1 (ss_path _ _ _ _ _ S) n (or_introl Hi)); auto. }
  destruct S. constructor; auto.
  - eapply seg_app; [exact ss_seg0|]. rewrite <- (link_sector n Hd). apply seg_one; auto.
  - rewrite ss_path0, <- app_assoc. reflexivity.
  - apply nodup_app_iff. split; [auto|]. split; [constructor; [intros []|constructor]|].
    intros y Hy [->|[]]. apply in_app_or in Hy. destruct Hy as [Hy|[Hy|[]]]; [|subst]; tauto.
  - intros y Hy. apply in_app_or in Hy. destruct Hy as [Hy|[<-|[]]]; auto.
  - rewrite concat_app. eapply prefix_trans; [exact ss_base0|apply prefix_app].
Qed.
End Session.
End Seg.

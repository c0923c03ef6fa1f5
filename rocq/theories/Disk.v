(** * The disk as a whole: directory plus file contents *)
From Verif Require Import Base Majority Flash FS Sectors SectorsProofs ATable TornCode TableCode TableScan ChipRules TableBuild TableOps DirOps Chains FileIO FileFormat FileWrite WriteOps WriteSpec.
Local Open Scope N_scope.
Local Open Scope fs_scope.

Definition flash_ok (f : flash) : Prop := forall a, byte_ok (f a).

Lemma land_ok a b : byte_ok a -> byte_ok (N.land a b).
Proof.
  unfold byte_ok. intros H. destruct (N.eq_dec (N.land a b) 0) as [->|Hn]; [lia|].
  destruct (N.eq_dec a 0) as [->|Ha]; [rewrite N.land_0_l in Hn; congruence|].
  change 256 with (2 ^ 8) in *. apply N.log2_lt_pow2; [lia|]. apply N.log2_lt_pow2 in H; [|lia].
  pose proof (N.log2_land a b). lia.
Qed.
Lemma apply_ok f o : flash_ok f -> flash_ok (apply_op f o).
Proof.
  intros H a. destruct o as [b n|b d]; cbn [apply_op].
  - destruct (_ && _); [unfold byte_ok; lia|apply H].
  - destruct (_ && _); [apply land_ok, H|apply H].
Qed.
Lemma torn_ok o f f' : torn o f f' -> flash_ok f -> flash_ok f'.
Proof.
  intros Ht H. inversion Ht; subst; [apply apply_ok; auto|].
  intros x. destruct (_ && _); [unfold byte_ok; lia|apply H].
Qed.
Lemma crash_ok te ops : forall f f', crash_m te f ops f' -> flash_ok f -> flash_ok f'.
Proof.
  assert (K : forall f f', crash f ops f' -> flash_ok f -> flash_ok f').
  { induction ops as [|o ops IH]; intros f f' Hc H; inversion Hc; subst; auto.
    - eapply torn_ok; eauto.
    - eapply IH; eauto. apply apply_ok; auto. }
  intros f f' Hc. destruct te; [apply K; auto|]. apply K, crash_ae_crash; auto.
Qed.
Lemma traced_ok te s0 s G : traced te s0 s G -> flash_ok (fl s0) -> traced te s0 s (fun f => G f /\ flash_ok f).
Proof. intros (ops & A & B & C & R) H. exists ops. split; [auto|]. split; [auto|]. split; [|exact R]. intros f' Hc. split; [auto|]. eapply crash_ok; eauto. Qed.

Section D.
Variable crc : list byte -> N.

(** a file: its sectors and its content *)
Definition file_ok (f : flash) (e : entry) (c : list N * list byte) : Prop :=
  exists ds, file_holds crc f (e_first e) (fst c) ds /\ concat ds = snd c.

Record Disk (f : flash) (p seq : N) (ents : list entry) (mx : N) (C : list (list N * list byte)) : Prop := {
  dk_rep : Rep f p seq ents mx;
  dk_sorted : sorted_ids ents;
  dk_files : Forall2 (file_ok f) ents C;
  dk_nodup : NoDup (concat (map fst C));
  dk_ok : flash_ok f }.

Definition owns (C : list (list N * list byte)) : N -> Prop := owned (map fst C).

Lemma disk_chains f p seq ents mx C : Disk f p seq ents mx C -> chains f ents (map fst C).
Proof.
  intros D. unfold chains. pose proof (dk_files _ _ _ _ _ _ D) as H. clear D.
  induction H as [|e c ents C (ds & He & _) H IH]; constructor; auto. eapply file_chain; eauto.
Qed.

Lemma disk_data f p seq ents mx C : Disk f p seq ents mx C -> forall x, owns C x -> data_sector x.
Proof.
  intros D x Hx. pose proof (chains_data _ _ _ (disk_chains _ _ _ _ _ _ D)) as H. rewrite Forall_forall in H. apply H; auto.
Qed.

Lemma file_ok_same f g e c : file_ok f e c -> (forall x, In x (fst c) -> sector_same f g x) -> file_ok g e c.
Proof. intros (ds & H & E) Hs. exists ds. split; [|auto]. eapply file_holds_same; eauto. Qed.

Lemma files_same f g ents C : Forall2 (file_ok f) ents C -> (forall x, owns C x -> sector_same f g x) -> Forall2 (file_ok g) ents C.
Proof.
  unfold owns, owned. induction 1 as [|e c ents C He H IH]; intros Hs; constructor.
  - eapply file_ok_same; eauto. intros x Hx. apply Hs. cbn [map concat]. apply in_or_app; auto.
  - apply IH. intros x Hx. apply Hs. cbn [map concat]. apply in_or_app; auto.
Qed.

(** the table region unchanged: same directory *)
Lemma rep_same f g p seq ents mx : Rep f p seq ents mx -> (forall a, a < 131072 -> g a = f a) -> Rep g p seq ents mx.
Proof.
  intros R H. eapply rep_old; [exact R|intros x Hx _; auto|].
  eapply harmless_local; [|apply (rp_others _ _ _ _ _ R); [apply next_slot_lt|apply next_slot_neq, (rp_pos _ _ _ _ _ R)]].
  intros x Hx. symmetry. apply H. eapply in_slot_table; [apply next_slot_lt|exact Hx].
Qed.

Lemma disk_same f g p seq ents mx C : Disk f p seq ents mx C -> (forall a, a < 131072 -> g a = f a) ->
  (forall x, owns C x -> sector_same f g x) -> flash_ok g -> Disk g p seq ents mx C.
Proof.
  intros [R S F N O] Ht Hs Hg. constructor; auto; [eapply rep_same; eauto|eapply files_same; eauto].
Qed.

(** one file changes *)
Lemma owns_split C1 c C2 x : owns (C1 ++ c :: C2) x <-> owns C1 x \/ In x (fst c) \/ owns C2 x.
Proof. unfold owns, owned. rewrite map_app, concat_app. cbn [map concat]. rewrite !in_app_iff. tauto. Qed.

Lemma nodup_split C1 c C2 : NoDup (concat (map fst (C1 ++ c :: C2))) <->
  NoDup (concat (map fst C1)) /\ NoDup (fst c) /\ NoDup (concat (map fst C2)) /\
  (forall x, owns C1 x -> ~ In x (fst c)) /\ (forall x, owns C1 x -> ~ owns C2 x) /\ (forall x, In x (fst c) -> ~ owns C2 x).
Proof.
  unfold owns, owned. rewrite map_app, concat_app. cbn [map concat]. rewrite !nodup_app_iff. split.
  - intros (A & (B & C & D) & E). repeat (split; auto). all: intros x Hx Hc; eapply E; eauto; apply in_or_app; auto.
  - intros (A & B & C & D & E & F). repeat (split; auto). intros x Hx Hc. apply in_app_or in Hc. destruct Hc; [eapply D|eapply E]; eauto.
Qed.

Lemma forall2_mid {A B} (R : A -> B -> Prop) a1 x a2 b1 y b2 : length a1 = length b1 ->
  (Forall2 R (a1 ++ x :: a2) (b1 ++ y :: b2) <-> Forall2 R a1 b1 /\ R x y /\ Forall2 R a2 b2).
Proof.
  revert b1. induction a1 as [|a a1 IH]; intros [|b b1] H; cbn in H; try lia; cbn [app].
  - split; [intros K; inversion K; subst; auto|intros (A1 & A2 & A3); constructor; auto].
  - injection H as H. split.
    + intros K. inversion K; subst. apply IH in H5; [|auto]. destruct H5 as (P & Q & S). auto.
    + intros (P & Q & S). inversion P; subst. constructor; auto. apply IH; auto.
Qed.

Lemma disk_upd f g p seq E1 e E2 mx C1 c C2 c' : Disk f p seq (E1 ++ e :: E2) mx (C1 ++ c :: C2) -> length E1 = length C1 ->
  (forall a, a < 131072 -> g a = f a) -> (forall x, owns C1 x \/ owns C2 x -> sector_same f g x) -> flash_ok g ->
  file_ok g e c' -> NoDup (fst c') -> (forall x, In x (fst c') -> In x (fst c) \/ ~ owns (C1 ++ c :: C2) x) ->
  Disk g p seq (E1 ++ e :: E2) mx (C1 ++ c' :: C2).
Proof.
  intros [R S F N O] Hl Ht Hs Hg Hc Hn Hin. constructor; auto; [eapply rep_same; eauto| |].
  - apply forall2_mid in F; [|auto]. apply forall2_mid; [auto|]. destruct F as (F1 & _ & F2).
    split; [eapply files_same; eauto|]. split; [auto|eapply files_same; eauto].
  - apply nodup_split in N. apply nodup_split. destruct N as (A & B & C & D & K & L). repeat (split; auto).
    + intros x Hx Hx'. destruct (Hin x Hx') as [H|H]; [eapply D; eauto|apply H, owns_split; auto].
    + intros x Hx Hx'. destruct (Hin x Hx) as [H|H]; [eapply L; eauto|apply H, owns_split; auto].
Qed.

(** ** What a user sees *)
(** a file as the user sees it: id, type, content *)
Definition user_view (ents : list entry) (C : list (list N * list byte)) : list (N * N * list byte) :=
  map (fun ec => (e_id (fst ec), e_typ (fst ec), snd (snd ec))) (combine ents C).
End D.

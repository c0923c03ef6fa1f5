(** * Property theorems C13-C16: sector allocation. *)
From Verif Require Import Base Flash FS Sectors SectorsProofs.
Local Open Scope N_scope.

(** C13 (bitmaps): any sequence of mark-used / mark-unused calls (on valid or already marked
    sectors; calls that panic end the history). *)
Inductive map_run : smng -> Prop :=
| mr_new r : map_run (smng_new r)
| mr_used m x m' : map_run m -> set_sector_used m x = Some m' -> map_run m'
| mr_unused m x m' : map_run m -> set_sector_unused m x = Some m' -> map_run m'.

Lemma map_run_inv m : map_run m -> MapInv m.
Proof. induction 1; [apply smng_new_inv | eapply set_used_inv | eapply set_unused_inv]; eauto. Qed.

Theorem C13_free_count_exact : forall m, map_run m ->
  nfree m = N.of_nat (length (filter (fun i => negb (m4 m i)) data_idx)).
Proof. intros m H. exact (nfree_exact m (map_run_inv m H)). Qed.
Print Assumptions C13_free_count_exact.

Theorem C13_block_marks_exact : forall m, map_run m ->
  (forall b, b < 2044 -> (m32 m b = false <-> forall j, 8 * b <= j < 8 * b + 8 -> m4 m j = false)) /\
  (forall b, b < 1022 -> (m64 m b = false <-> forall j, 16 * b <= j < 16 * b + 16 -> m4 m j = false)).
Proof. intros m H. exact (conj (fun b => block32_exact m b (map_run_inv m H)) (fun b => block64_exact m b (map_run_inv m H))). Qed.
Print Assumptions C13_block_marks_exact.

(** marking never panics on a data sector, and does exactly what it says *)
Theorem C13_marking : forall m x, map_run m -> data_sector x ->
  (exists m', set_sector_used m x = Some m' /\
     forall y, data_sector y -> (used_sector m' y <-> y = x \/ used_sector m y)) /\
  (exists m', set_sector_unused m x = Some m' /\
     forall y, data_sector y -> (used_sector m' y <-> y <> x /\ used_sector m y)).
Proof.
  intros m x H Hx. split.
  - destruct (set_used_ok m x (map_run_inv m H) Hx) as (m' & E). exists m'. split; [exact E|].
    destruct (set_used_spec _ _ _ E) as (_ & Hj & _). intros y Hy. unfold used_sector. rewrite Hj.
    unfold data_sector, ALLOC_TABLES_SECTORS_USED in *.
    destruct (N.eqb_spec (y - 32) (x - 32)); [assert (y = x) by lia; tauto | assert (y <> x) by congruence; tauto].
  - destruct (set_unused_ok m x Hx) as (m' & E). exists m'. split; [exact E|].
    destruct (set_unused_spec _ _ _ E) as (_ & Hj & _). intros y Hy. unfold used_sector. rewrite Hj.
    unfold data_sector, ALLOC_TABLES_SECTORS_USED in *.
    destruct (N.eqb_spec (y - 32) (x - 32)); [assert (y = x) by lia; split; [discriminate|tauto] | assert (y <> x) by congruence; tauto].
Qed.
Print Assumptions C13_marking.

(** C13 (free()): the reported free space is 4016 bytes per data sector not held by a client. *)
Theorem C13_free_space_exact : forall s H, alloc_run s H ->
  exists l, NoDup l /\ (forall x, In x l <-> data_sector x /\ ~ H x) /\
            free_bytes s = N.of_nat (length l) * 4016.
Proof. intros s H R. exact (free_bytes_exact s H (alloc_run_inv s H R)). Qed.
Print Assumptions C13_free_space_exact.

(** C14: [H] is the set of sectors handed out and not returned. *)
Theorem C14_never_handed_out_twice : forall s H s' x, alloc_run s H ->
  claim_avaliable_sector_and_erase s = (s', Ok x) -> data_sector x /\ ~ H x.
Proof.
  intros s H s' x R E. destruct (claim_spec s H (alloc_run_inv s H R)) as [(s2 & y & E2 & _ & A & B & _)|(E2 & _)];
    rewrite E in E2; [injection E2 as <- <-; exact (conj B A) | discriminate].
Qed.
Print Assumptions C14_never_handed_out_twice.

(** C15: the sector handed out is blank, and every held sector and the table region keep their
    contents, even if power is lost in the middle of the call (only free sectors are erased). *)
Theorem C15_claimed_sector_is_blank : forall s H s' x, alloc_run s H ->
  claim_avaliable_sector_and_erase s = (s', Ok x) ->
  sector_erased (fl s') x /\
  (forall y, H y \/ ~ data_sector y -> sector_same (fl s) (fl s') y) /\
  (exists ops, lg s' = lg s ++ ops /\ fl s' = apply_ops (fl s) ops /\ Forall (free_erase H) ops).
Proof.
  intros s H s' x R E. destruct (claim_spec s H (alloc_run_inv s H R)) as [(s2 & y & E2 & _ & A & B & C & D & ops & O1 & O2 & O3)|(E2 & _)];
    rewrite E in E2; [injection E2 as <- <- | discriminate].
  split; [exact C|]. split.
  - intros z Hz. rewrite O2. apply (apply_free_erases H ops O3). tauto.
  - exists ops. auto.
Qed.
Print Assumptions C15_claimed_sector_is_blank.

(** C16 *)
Theorem C16_full_only_if_full : forall s H s', alloc_run s H ->
  claim_avaliable_sector_and_erase s = (s', Err DeviceFull) -> forall x, data_sector x -> H x.
Proof.
  intros s H s' R E. destruct (claim_spec s H (alloc_run_inv s H R)) as [(s2 & y & E2 & _)|(E2 & A)];
    rewrite E in E2; [discriminate | exact A].
Qed.
Print Assumptions C16_full_only_if_full.

Theorem C16_claim_succeeds_while_space_left : forall s H x, alloc_run s H -> data_sector x -> ~ H x ->
  exists s' y, claim_avaliable_sector_and_erase s = (s', Ok y).
Proof.
  intros s H x R Hx Hn. destruct (claim_spec s H (alloc_run_inv s H R)) as [(s2 & y & E2 & _)|(E2 & A)];
    [exact (ex_intro _ s2 (ex_intro _ y E2)) | destruct (Hn (A x Hx))].
Qed.
Print Assumptions C16_claim_succeeds_while_space_left.

(** ** Non-vacuity: two claims and a return on a fresh device, with a concrete random stream. *)
Definition demo0 : fs := mkFS (fun _ => 0) [] (mkAT 1 0 0 0 []) (smng_new (fun k => 77 * N.of_nat k + 5)).
Definition demo1 := claim_avaliable_sector_and_erase demo0.
Definition demo2 := claim_avaliable_sector_and_erase (fst demo1).
Example demo_claims : snd demo1 = Ok 79 /\ snd demo2 = Ok 78.
Proof. vm_compute. auto. Qed.
Example demo_return : snd (Sectors.return_sector 79 (fst demo2)) = Ok tt /\ free_bytes (fst demo2) = 16350 * 4016.
Proof. vm_compute. auto. Qed.
Lemma run_claim s H x : alloc_run s H -> snd (claim_avaliable_sector_and_erase s) = Ok x ->
  alloc_run (fst (claim_avaliable_sector_and_erase s)) (add H x).
Proof.
  intros R E. apply (ar_claim s H); [exact R|]. rewrite <- E. apply surjective_pairing.
Qed.
Local Strategy opaque [claim_avaliable_sector_and_erase].
Example demo_reach : alloc_run (fst demo2) (add (add (fun _ => False) 79) 78).
Proof.
  destruct demo_claims as [E1 E2].
  unfold demo2 in *. unfold demo1 in *.
  refine (run_claim (fst (claim_avaliable_sector_and_erase demo0)) _ 78 _ E2).
  refine (run_claim demo0 _ 79 _ E1). unfold demo0. exact (ar_new _ _ _ _).
Qed.

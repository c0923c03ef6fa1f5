(** * The file system in operation: open_file_for_write *)
From Coq Require Import Sorted.
From Verif Require Import Base Majority Flash FS Sectors SectorsProofs ATable TornCode TableCode TableScan TableBuild TableOps DirOps Chains FileIO FileFormat FileWrite WriteOps WriteSpec Disk Sessions DirState OpenOps Append.
Local Open Scope N_scope.
Local Open Scope fs_scope.

Section S.
Variable crc : list byte -> N.
Hypothesis crc_bound : crc32 crc.

(** what a power loss during the call may leave: the directory as before or rewritten (same ids and types); of file [i] at
    most the last 4016 bytes are missing *)
Definition open_crash (p seq : N) (ents : list entry) (mx : N) (C : list (list N * list byte)) (i : nat) (c0 : list byte) (f' : flash) : Prop :=
  exists p' seq' ents' mx' c d, Disk crc f' p' seq' ents' mx' (upd C i c) /\ c0 = snd c ++ d /\ (length d <= 4016)%nat /\
    map (fun e => (e_id e, e_typ e)) ents' = map (fun e => (e_id e, e_typ e)) ents /\ ((mx' = mx /\ seq' = seq) \/ seq' = seq + 1).

Lemma keys_upd ents i e first : nth_error ents i = Some e ->
  map (fun e => (e_id e, e_typ e)) (set_first ents i first) = map (fun e => (e_id e, e_typ e)) ents.
Proof.
  intros En. rewrite (set_first_upd _ _ _ _ En). apply nth_error_mid in En. destruct En as (a & b & -> & <-). rewrite upd_mid, !map_app. reflexivity.
Qed.

Lemma disk_open p seq ents mx C i c0 l0 f' : nth_error C i = Some (l0, c0) -> Disk crc f' p seq ents mx C -> open_crash p seq ents mx C i c0 f'.
Proof.
  intros Hc D. exists p, seq, ents, mx, (l0, c0), []. rewrite (upd_same C i _ Hc), app_nil_r. split; [auto|]. split; [auto|]. split; [cbn; lia|auto].
Qed.

Theorem open_write_op s p seq ents mx C H W id : State crc s p seq ents mx C H W ->
  (~ In id (a_open (atb s)) -> forall w cur, In (w, cur) W -> w_id w <> id) ->
  (open_file_for_write id s = (s, Err FileDoesNotExist) /\ (forall e, In e ents -> e_id e <> id)) \/
  (exists i e l0 c0, nth_error ents i = Some e /\ e_id e = id /\ nth_error C i = Some (l0, c0) /\
   ((open_file_for_write id s = (s, Err FileInUse) /\ In id (a_open (atb s))) \/
    (~ In id (a_open (atb s)) /\
     ((open_file_for_write id s = (s, Err TooManyFilesOpen) /\ (32 <= length (a_open (atb s)))%nat) \/
      ((length (a_open (atb s)) < 32)%nat /\
       exists s', traced false s s' (open_crash p seq ents mx C i c0) /\
        ((open_file_for_write id s = (s', Err DeviceFull) /\ (exists H', State crc s' p seq ents mx C H' W /\ forall x, data_sector x -> H' x) /\
            a_open (atb s') = a_open (atb s) ++ [id] /\ (forall y, owns C y -> sector_same (fl s) (fl s') y)) \/
         (open_file_for_write id s = (s', Panic) /\ 2 ^ 64 <= seq + 1) \/
         (exists x p' seq' ents' mx' C' H', open_file_for_write id s = (s', Ok (new_writer x id)) /\
            State crc s' p' seq' ents' mx' C' H' ((new_writer x id, []) :: W) /\ a_open (atb s') = a_open (atb s) ++ [id] /\
            map (fun e => (e_id e, e_typ e)) ents' = map (fun e => (e_id e, e_typ e)) ents /\ map snd C' = map snd C /\
            ((seq' = seq /\ mx' = mx) \/ (seq' = seq + 1 /\ mx' = maxid mx ents)) /\
            (forall j ej cj, j <> i -> nth_error ents j = Some ej -> nth_error C j = Some cj -> nth_error ents' j = Some ej /\
               forall y, In y (fst cj) -> sector_same (fl s) (fl s') y)))))))).
Proof.
  intros ST Hw. pose proof (st_disk _ _ _ _ _ _ _ _ _ ST) as Dk. pose proof (disk_len _ _ _ _ _ _ _ Dk) as Hlen.
  destruct (find_spec s p seq ents mx id (state_dir _ _ _ _ _ _ _ _ _ ST) (dk_sorted _ _ _ _ _ _ _ Dk)) as (o & E & Ho).
  unfold open_file_for_write. rewrite (bind_ok _ _ _ _ _ E). destruct o as [[e k]|]; [right|left; auto].
  destruct Ho as [En Ei]. assert (Hi : (N.to_nat k < length C)%nat) by (rewrite <- Hlen; apply nth_error_Some; congruence).
  set (i := N.to_nat k) in *. destruct (nth_error C i) as [[l0 c0]|] eqn:Ec; [|apply nth_error_None in Ec; lia].
  exists i, e, l0, c0. split; [auto|]. split; [auto|]. split; [exact Ec|].
  unfold is_file_opened. rewrite bind_assoc, bind_get, bind_ret. unfold is_opened. rewrite Ei.
  destruct (existsb (fun x => x =? id) (a_open (atb s))) eqn:Ex.
  { left. split; [reflexivity|]. apply existsb_exists in Ex. destruct Ex as (y & Hy & Ey). apply N.eqb_eq in Ey. subst; auto. }
  right. assert (Hnot : ~ In id (a_open (atb s))).
  { intros Hin. enough (existsb (fun x => x =? id) (a_open (atb s)) = true) by congruence.
    apply existsb_exists. exists id. split; [auto|apply N.eqb_refl]. }
  split; [exact Hnot|].
  assert (HwW : forall w cur, In (w, cur) W -> w_id w <> e_id e) by (intros w cur Hin; rewrite Ei; exact (Hw Hnot w cur Hin)).
  destruct (mark_op crc s p seq ents mx C H W id ST) as [(s1 & E1 & ST1 & O1 & F1 & L1 & Hop)|(E1 & L)].
  2:{ left. rewrite (bind_err _ _ _ _ _ E1). auto. }
  right. split; [exact Hop|]. rewrite (bind_ok _ _ _ _ _ E1).
  destruct (claim_op crc false s1 p seq ents mx C H W ST1) as [(s2 & x & E2 & ST2 & Hnx & Hdx & Hex & Eat2 & T2 & Ht2 & Hs2)|(E2 & Hfull)].
  2:{ exists s1. split.
      - eapply traced_ext; [exact F1|exact L1|]. apply traced_refl. eapply disk_open; eauto.
      - left. rewrite (bind_err _ _ _ _ _ E2). split; [auto|]. split; [exists H; auto|]. split; [auto|]. intros y _ a Ha. rewrite F1. reflexivity. }
  assert (S2 : forall y, owns C y -> sector_same (fl s) (fl s2) y).
  { intros y Hy a Ha. rewrite <- F1. apply (Hs2 y (st_own _ _ _ _ _ _ _ _ _ ST y Hy) a Ha). }
  rewrite (bind_ok _ _ _ _ _ E2).
  assert (T2' : traced false s s2 (open_crash p seq ents mx C i c0)).
  { destruct T2 as (ops & A1 & A2 & A3 & A4). exists ops. rewrite F1, L1 in *. split; [auto|]. split; [auto|]. split; [|exact A4]. intros f' Hc. eapply disk_open; eauto. }
  assert (Hno : ~ owns C x) by (intros Hx; apply Hnx; apply (st_own _ _ _ _ _ _ _ _ _ ST); auto).
  assert (Hax : add H x x) by (left; auto).
  destruct (e_first e) as [first|] eqn:Ef.
  - (* appending *)
    destruct (append_body_op crc s2 p seq ents mx C (add H x) W i e first l0 c0 x ST2 En Ef Ec HwW Hax Hno Hdx Hex)
      as [(s3 & E3 & ST3 & Eat3 & T3 & _ & S3)|(E3 & Hfull)]; unfold append_body in E3.
    + exists s3. split.
      * apply (traced_trans false s s2 s3); [auto|]. eapply traced_weaken; [|exact T3]. intros f' (c & d & A & B & D).
        exists p, seq, ents, mx, c, d. split; [exact A|]. split; [exact B|]. split; [exact D|]. auto.
      * right. right. exists x, p, seq, ents, mx, (upd C i (l0 ++ [x], c0)), (add H x). rewrite (bind_ok _ _ _ _ _ E3).
        rewrite Ei in *. split; [reflexivity|]. split; [exact ST3|]. split; [congruence|]. split; [auto|]. split; [|split; [auto|]].
        { apply nth_error_mid in Ec. destruct Ec as (a & b & -> & <-). rewrite upd_mid, !map_app. reflexivity. }
        intros j ej cj Hj Hej Hcj. split; [exact Hej|]. intros y Hy a Ha. transitivity (fl s2 a); [exact (S3 j cj y Hj Hcj Hy a Ha)|].
        apply (S2 y); [eapply owns_nth; eauto|exact Ha].
    + exists s2. split; [exact T2'|]. left. rewrite (bind_err _ _ _ _ _ E3). split; [auto|]. split; [exists (add H x); auto|]. split; [congruence|exact S2].
  - (* an empty file *)
    assert (Hc0 : c0 = []).
    { pose proof (dk_files _ _ _ _ _ _ _ Dk) as HF. apply nth_error_mid in En, Ec. destruct En as (a1 & b1 & -> & X1), Ec as (a2 & b2 & -> & X2).
      apply forall2_mid in HF; [|congruence]. destruct HF as (_ & (ds & Hh & Eq) & _). rewrite Ef in Hh. inversion Hh; subst. cbn [snd concat] in Eq. congruence. }
    assert (Hte : false = true -> clean (fl s2) p seq) by (intros Hft; exfalso; exact (Bool.diff_false_true Hft)).
    pose proof (claimed_first crc false s2 p seq ents mx C (add H x) W i e x ST2 En Ef Hax Hdx Hex Hno Hte HwW) as K. cbv zeta in K. destruct K as (s3 & T3 & R).
    rewrite Ei in R.
    assert (Esd : map snd (upd C i ([x], [])) = map snd C).
    { apply nth_error_mid in Ec. destruct Ec as (a & b & -> & <-). rewrite upd_mid, !map_app. cbn [map snd]. rewrite Hc0. reflexivity. }
    exists s3. split.
    + apply (traced_trans false s s2 s3); [auto|]. eapply traced_weaken; [|exact T3]. intros f' [D|(m' & D)].
      * eapply disk_open; eauto.
      * exists (next_slot p), (seq + 1), (set_first ents i (Some x)), m', ([x], []), []. rewrite Hc0. split; [exact D|]. split; [reflexivity|]. split; [cbn; lia|].
        split; [|auto]. apply (keys_upd _ _ e). auto.
    + right. destruct R as [(E3 & ST3 & (Hcl & O3) & S3)|(E3 & Hs)].
      * right. exists x, (next_slot p), (seq + 1), (set_first ents i (Some x)), (maxid mx ents), (upd C i ([x], [])), (add H x).
        rewrite (bind_ok _ _ _ _ _ E3). split; [reflexivity|]. split; [exact ST3|]. split; [congruence|]. split; [apply (keys_upd _ _ e); auto|]. split; [auto|]. split; [auto|].
        intros j ej cj Hj Hej Hcj. split; [rewrite (set_first_upd ents i e) by exact En; rewrite nth_error_upd_other by (apply not_eq_sym; exact Hj); exact Hej|].
        intros y Hy a Ha. assert (Hoy : owns C y) by (eapply owns_nth; eauto). transitivity (fl s2 a); [exact (S3 y Hoy a Ha)|exact (S2 y Hoy a Ha)].
      * left. split; [|auto]. unfold bind. rewrite E3. reflexivity.
Qed.
End S.

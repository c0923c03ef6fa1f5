(** * Every history of the implementation is a history of the abstract store *)
From Coq Require Import Sorted Permutation.
From Verif Require Import Base Majority Flash FS Sectors SectorsProofs ATable TornCode TableCode TableScan TableBuild TableOps DirOps Chains FileIO FileFormat FileWrite WriteOps WriteSpec Disk Sessions DirState OpenOps Append OpenWrite FsSpec FsApi FsRefine FsBoot.
Local Open Scope N_scope.
Local Open Scope fs_scope.

Section S.
Variable crc : list byte -> N.
Hypothesis crc_bound : crc32 crc.

Definition Rel (m : machine) (a : astate) : Prop :=
  match m, a with
  | Off f, AOff F top gen => exists t, Holds crc f F t gen /\ (forall t0, top = Some t0 -> t0 = t /\ Kept crc f F t gen)
  | On y, AOn v => Repr crc y v
  | _, _ => False
  end.

Lemma repr_iter y v : Repr crc y v -> exists es, files_iter (sfs y) (fun _ => true) = Ok es /\ map (fun e => (e_id e, e_typ e)) es = map fst (v_files v).
Proof.
  intros [(p & ents & C & H & W & ST & EF & EW & EV) _ _ _]. exists ents.
  rewrite (files_iter_spec (sfs y) p (v_gen v) ents (v_top v) _ (state_dir _ _ _ _ _ _ _ _ _ ST)), filter_true. split; [reflexivity|].
  rewrite EF. pose proof (disk_len _ _ _ _ _ _ _ (st_disk _ _ _ _ _ _ _ _ _ ST)) as L. clear -L. revert C L. unfold user_view.
  induction ents as [|e ents IH]; intros [|c C] L; cbn in *; try lia; [reflexivity|]. f_equal. apply IH. lia.
Qed.

Lemma repr_wr y v : Repr crc y v -> map w_id (sws y) = map fst (v_wr v) /\ length (sws y) = length (v_wr v).
Proof.
  intros [(p & ents & C & H & W & ST & EF & EW & EV) _ _ _]. rewrite EW, EV, !map_map, !map_length. auto.
Qed.

Lemma legal_allowed y v c : Repr crc y v -> legal y c -> allowed v c.
Proof.
  intros RR. destruct (repr_iter y v RR) as (es & Ei & Em). destruct (repr_wr y v RR) as [Ew El]. pose proof RR as [_ Erd Hop Hnd].
  assert (Len : length es = length (v_files v)) by (rewrite <- (map_length (fun e => (e_id e, e_typ e))), Em, map_length; reflexivity).
  destruct c as [t|t|sel0|id|id|k d|k|k|k]; cbn [legal allowed].
  - intros [H1 H2]. split; [exact H1|]. rewrite <- Len. apply H2. exact Ei.
  - intros [H1 H2]. split; [exact H1|]. rewrite <- Len. apply H2. exact Ei.
  - intros H id pend x Hin Hl. unfold goes. unfold lookup in Hl. apply find_some in Hl. destruct Hl as [Hx Hid]. apply N.eqb_eq in Hid.
    destruct (sel0 (f_id x) (f_typ x)) eqn:Es; [|reflexivity]. cbn [andb]. rewrite (marked_perm (a_open (atb (sfs y))) v _ Hop).
    apply (in_map fst) in Hx. rewrite <- Em in Hx. apply in_map_iff in Hx. destruct Hx as (e & E1 & E2).
    assert (E3 : e_id e = f_id x /\ e_typ e = f_typ x). { unfold f_id, f_typ. rewrite <- E1. auto. } destruct E3 as [E3 E4].
    rewrite <- E3. change (existsb (fun z => z =? e_id e) (a_open (atb (sfs y)))) with (is_opened (atb (sfs y)) (e_id e)).
    rewrite (H es e Ei E2); [reflexivity| |].
    + rewrite Ew, E3, Hid. apply (in_map fst _ _ Hin).
    + rewrite E3, E4. exact Es.
  - intros H Hm Hin. rewrite <- Ew in Hin. apply H in Hin. rewrite (marked_perm (a_open (atb (sfs y))) v _ Hop) in Hm. unfold is_opened in Hin. congruence.
  - auto.
  - rewrite <- El. auto.
  - rewrite <- El. auto.
  - rewrite <- El. auto.
  - rewrite Erd. auto.
Qed.

Theorem simulation m a e m' : Rel m a -> legal_event m e -> step crc m e m' -> exists a', astep a e a' /\ Rel m' a'.
Proof.
  intros R L St. destruct St as [f r s E|f r f' Hc|y c y' r E Hr|y c f Hp|y].
  - destruct a as [F top gen|v]; [|destruct R]. destruct R as (t & Hh & Ht).
    destruct (boot_holds crc f F t gen r Hh) as (s' & top' & E' & RR & Etop & _). rewrite E in E'. injection E' as <-.
    exists (AOn (mkV F [] [] [] top' gen)). split; [|exact RR]. constructor. intros t0 H0. destruct (Ht t0 H0) as [-> K]. auto.
  - destruct a as [F top gen|v]; [|destruct R]. destruct R as (t & Hh & Ht).
    destruct (boot_holds crc f F t gen r Hh) as (s' & top' & E' & RR & Etop & Hcr). rewrite E' in Hc. cbn [fst] in Hc.
    destruct (Hcr f' Hc) as (t' & Hh' & Et'). exists (AOff F top gen). split; [constructor|]. exists t'. split; [exact Hh'|].
    intros t0 H0. destruct (Ht t0 H0) as [-> K]. rewrite (Et' K) in *. split; [reflexivity|].
    assert (El : lg s' = []). { destruct (boot_kept crc f F t gen r K) as (s2 & E2 & L2 & _). rewrite E' in E2. injection E2 as <-. exact L2. }
    rewrite El in Hc. inversion Hc; subst. exact K.
  - destruct a as [F top gen|v]; [destruct R|]. cbn [Rel] in R. cbn [legal_event] in L.
    pose proof (refines crc crc_bound y v c R (legal_allowed y v c R L)) as Rf. unfold Refined in Rf. rewrite E in Rf.
    destruct Rf as [(v' & D & RR) _]. exists (AOn v'). split; [constructor; [eapply legal_allowed; eauto|exact D|exact Hr]|exact (RR Hr)].
  - destruct a as [F top gen|v]; [destruct R|]. cbn [Rel] in R. cbn [legal_event] in L.
    pose proof (refines crc crc_bound y v c R (legal_allowed y v c R L)) as Rf. unfold Refined in Rf. destruct (perform crc c y) as [y' r].
    destruct Rf as [_ [Hl _]]. destruct (Hl f Hp) as (F & top & gen & Ls & K & [[-> ->]|[Hrw ->]]).
    + exists (AOff F (Some (v_top v)) (v_gen v)). split; [constructor; [eapply legal_allowed; eauto|exact Ls]|].
      exists (v_top v). split; [left; exact K|]. intros t0 H0. injection H0 as <-. auto.
    + exists (AOff F None (v_gen v + 1)). split; [apply as_loss_dir; [eapply legal_allowed; eauto|exact Ls|exact Hrw]|].
      exists top. split; [left; exact K|]. discriminate.
  - destruct a as [F top gen|v]; [destruct R|]. cbn [Rel] in R. exists (AOff (v_files v) (Some (v_top v)) (v_gen v)). split; [constructor|].
    pose proof (repr_kept crc y v R) as K. exists (v_top v). split; [left; exact K|]. intros t0 H0. injection H0 as <-. auto.
Qed.

Theorem history_refines es m : history crc es m -> exists a, aruns es a /\ Rel m a.
Proof.
  induction 1 as [|es m e m' Hh (a & Ha & Hr) Hl Hs].
  - exists (AOff [] None 1). split; [constructor|]. exists 0. split; [right; split; [apply unused_fresh; assumption|auto]|discriminate].
  - destruct (simulation m a e m' Hr Hl Hs) as (a' & Hs' & Hr'). exists a'. split; [econstructor; eauto|exact Hr'].
Qed.

(** what the flash shows *)
Lemma holds_snapshot f F t gen r : Holds crc f F t gen -> snapshot crc f r = Some F.
Proof.
  intros Hh. destruct (boot_holds crc f F t gen r Hh) as (s & top' & E & RR & _ & _).
  destruct RR as [(p & ents & C & H & W & ST & EF & EW & _) _ Hop _].
  cbn [sfs sws v_files v_gen v_top v_open] in *. unfold snapshot. rewrite E.
  rewrite (files_iter_spec s p gen ents top' _ (state_dir _ _ _ _ _ _ _ _ _ ST)), filter_true.
  rewrite (read_each_spec crc s ents C).
  - rewrite EF. reflexivity.
  - apply (disk_len _ _ _ _ _ _ _ (st_disk _ _ _ _ _ _ _ _ _ ST)).
  - intros i e c. apply (read_all_spec crc s p gen ents top' C H W i e c ST). apply Permutation_sym, Permutation_nil in Hop. exact Hop.
Qed.
End S.

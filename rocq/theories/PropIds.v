(** * Property C65: running out of file ids. *)
From Verif Require Import Base Flash FS Sectors SectorsProofs ATable TableOps FileIO FileFormat Disk Sessions DirState FsSpec FsApi FsRefine FsHistory PropDirectory FsExec.
Local Open Scope N_scope.

(** As long as no directory change has been interrupted by a power loss, creating a file cannot run out of ids: it panics only after
    2^64 directory changes or ids. *)
Theorem C65_create_panics_only_at_2_64_partial : forall crc, crc32 crc -> forall es y t y', history crc es (On y) -> legal y (Create t) ->
  perform crc (Create t) y = (y', RPanic) -> exists v, aruns es (AOn v) /\ Repr crc y v /\ (2 ^ 64 <= v_gen v + 1 \/ 2 ^ 64 <= next_id v).
Proof.
  intros crc Hc es y t y' Hh Hl E. destruct (running crc es y Hc Hh) as (v & Ar & R). exists v. split; [exact Ar|]. split; [exact R|].
  pose proof (refines crc Hc y v _ R (legal_allowed crc y v _ R Hl)) as Rf. unfold Refined in Rf. rewrite E in Rf. destruct Rf as [(v' & D & _) _].
  cbn [does] in D. unfold limit64 in D. destruct D as [[D _]|[_ D]]; [discriminate|exact D].
Qed.
Print Assumptions C65_create_panics_only_at_2_64_partial.

Lemma repr_top crc y v : Repr crc y v -> v_top v < 2 ^ 64.
Proof.
  intros [(p & ents & C & H & W & ST & _) _ _ _]. pose proof (st_disk _ _ _ _ _ _ _ _ _ ST) as D.
  destruct (rep_dir_ok _ _ _ _ _ (dk_rep _ _ _ _ _ _ _ D)) as (_ & _ & _ & K). exact K.
Qed.
Lemma next_id_above v : v_top v < next_id v.
Proof. unfold next_id. pose proof (fold_max_ge (map f_id (v_files v)) (v_top v)). lia. Qed.

Lemma few_legal crc y v : Repr crc y v -> (length (v_files v) < 2518)%nat -> legal y (Create 1).
Proof.
  intros R Hn. split; [lia|]. intros el Ei. destruct (repr_iter crc y v R) as (el' & Ei' & Em). rewrite Ei in Ei'. injection Ei' as <-.
  assert (Len : length el = length (v_files v)) by (rewrite <- (map_length (fun e => (e_id e, e_typ e))), Em, map_length; reflexivity). lia.
Qed.
Lemma creating_exhausts : forall crc, crc32 crc -> forall k es y v, history crc es (On y) -> Repr crc y v -> (length (v_files v) + k < 2518)%nat ->
  2 ^ 64 <= v_top v + 1 + N.of_nat k ->
  exists es2 y2 y3, history crc (es ++ es2) (On y2) /\ (length es2 <= k)%nat /\ legal y2 (Create 1) /\ perform crc (Create 1) y2 = (y3, RPanic).
Proof.
  intros crc Hc. induction k as [|k IH]; intros es y v Hh R Hn Hk.
  all: assert (Hl : legal y (Create 1)).
  1, 3: apply (few_legal crc y v R); lia.
  all: destruct (perform crc (Create 1) y) as [y' r] eqn:E.
  all: pose proof (refines crc Hc y v _ R (legal_allowed crc y v _ R Hl)) as Rf; unfold Refined in Rf; rewrite E in Rf; destruct Rf as [(v' & D & RR) RP].
  all: cbn [does] in D; destruct D as [[Dr Dv]|[Dr _]]; [|exists [], y, y'; rewrite app_nil_r; split; [exact Hh|split; [cbn; lia|split; [exact Hl|rewrite E, Dr; reflexivity]]]].
  all: assert (Hr : r <> RPanic) by (rewrite Dr; intros K; discriminate K); specialize (RR Hr); pose proof (next_id_above v) as Hab.
  - exfalso. pose proof (repr_top crc y' v' RR) as Ht. rewrite Dv in Ht. cbn [v_top] in Ht. change (N.of_nat 0) with 0 in Hk. lia.
  - assert (Hh' : history crc (es ++ [ACall (Create 1) r]) (On y')).
    { eapply hi_step; [exact Hh|exact Hl|]. apply step_call; [exact E|exact Hr]. }
    destruct (IH (es ++ [ACall (Create 1) r]) y' v' Hh' RR) as (es2 & y2 & y3 & A1 & A2 & A3 & A4).
    + rewrite Dv. cbn [v_files]. rewrite app_length. cbn [length]. lia.
    + rewrite Dv. cbn [v_top]. lia.
    + exists (ACall (Create 1) r :: es2), y2, y3. rewrite <- app_assoc in A1. split; [exact A1|]. split; [cbn [length]; lia|]. split; [exact A3|exact A4].
Qed.

(** One power loss while a directory footer is being programmed can set the recorded largest id close to 2^64; then create_file panics
    after at most 130 more files. *)
Definition exhaust_script : list act := [XBoot; XLoss (Create 1) 1 29; XBoot].
Definition near_limit (r : reply) : bool := match r with RId n => 18446744073709551616 <=? n + 1 + 130 | _ => false end.
Definition few (s : res (list entry)) : bool := match s with Ok l => Nat.ltb (length l) 10 | _ => false end.
Theorem C65_refuted : forall crc, crc32 crc -> exists es y y', history crc es (On y) /\ (length es <= 140)%nat /\ legal y (Create 1) /\ perform crc (Create 1) y = (y', RPanic).
Proof.
  intros crc Hc.
  set (chk := fun o : option (list aevent * machine) => match o with
    | Some (es, On y) => Some (Nat.leb (length es) 9, few (files_iter (sfs y) (fun _ => true)), near_limit (snd (perform crc (Create 1) y)))
    | _ => None end).
  assert (E : chk (play crc exhaust_script (Off blank)) = Some (true, true, true)) by (vm_compute; reflexivity).
  unfold chk in E. clear chk. destruct (play crc exhaust_script (Off blank)) as [[es m]|] eqn:Ep; [|exfalso; exact (none_some _ E)].
  destruct m as [f|y]; [exfalso; exact (none_some _ E)|].
  apply some_pair in E. destruct E as [E K3]. apply pair_equal_spec in E. destruct E as [K1 K2]. apply Nat.leb_le in K1.
  pose proof (play_history crc exhaust_script (Off blank) [] es (On y) (hi_new crc blank FsBoot.blank_unused) Ep) as Hh. cbn [app] in Hh.
  destruct (perform crc (Create 1) y) as [y1 r] eqn:E. cbn [snd] in K3.
  destruct (running crc es y Hc Hh) as (v & _ & R). destruct (repr_iter crc y v R) as (el & Ei & Em). rewrite Ei in K2. cbn [few] in K2. apply Nat.ltb_lt in K2.
  assert (Len : length el = length (v_files v)) by (rewrite <- (map_length (fun e => (e_id e, e_typ e))), Em, map_length; reflexivity).
  assert (Hl : legal y (Create 1)). { split; [lia|]. intros el' Ei'. rewrite Ei in Ei'. injection Ei' as <-. lia. }
  pose proof (refines crc Hc y v _ R (legal_allowed crc y v _ R Hl)) as Rf. unfold Refined in Rf. rewrite E in Rf. destruct Rf as [(v' & D & RR) _].
  cbn [does] in D. destruct D as [[Dr Dv]|[Dr _]]; rewrite Dr in K3; cbn [near_limit] in K3; [|exfalso; exact (Bool.diff_false_true K3)].
  apply N.leb_le in K3.
  assert (Hr : r <> RPanic) by (rewrite Dr; intros K; discriminate K). specialize (RR Hr).
  assert (Hh' : history crc (es ++ [ACall (Create 1) r]) (On y1)).
  { eapply hi_step; [exact Hh|exact Hl|]. apply step_call; [exact E|exact Hr]. }
  destruct (creating_exhausts crc Hc 130 _ y1 v' Hh' RR) as (es2 & y2 & y3 & A1 & A2 & A3 & A4).
  - rewrite Dv. cbn [v_files]. rewrite app_length. cbn [length]. lia.
  - rewrite Dv. cbn [v_top]. change (2 ^ 64) with 18446744073709551616. change (N.of_nat 130) with 130. exact K3.
  - exists ((es ++ [ACall (Create 1) r]) ++ es2), y2, y3. split; [exact A1|]. split; [rewrite !app_length; cbn [length]; lia|]. split; [exact A3|exact A4].
Qed.
Print Assumptions C65_refuted.

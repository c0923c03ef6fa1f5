(** * Property theorems C54 (configuration files) and C73 (removing one file).
    [history], [legal], [perform], [power_lost], [boot]: FsApi.v; [config_read], [config_write], [config_lost]: Config.v. *)
From Coq Require Import Sorted Permutation.
From Verif Require Import Base Majority Flash FS Sectors SectorsProofs ATable TornCode TableCode TableScan TableBuild TableOps DirOps Chains FileIO FileFormat FileWrite WriteOps WriteSpec Disk Sessions DirState OpenOps Append OpenWrite FsSpec FsApi FsRefine FsBoot FsHistory PropDirectory FsExec PropFiles PropRules Config FsExamples.
Local Open Scope N_scope.
Local Open Scope fs_scope.

(** ** Vocabulary *)
(** no file of type [t] is in use or has a writer *)
Definition unused (y : sys) (t : N) : Prop := forall es e, files_iter (sfs y) (fun _ => true) = Ok es -> In e es -> e_typ e = t ->
  is_opened (atb (sfs y)) (e_id e) = false /\ ~ In (e_id e) (map w_id (sws y)).
(** the configuration of [n] bytes read after a restart *)
Definition read_at_boot (crc : list byte -> N) (t : N) (n : nat) (f : flash) (r : nat -> N) : option (list byte) :=
  match boot f r with
  | (s, Ok _) => snd (config_read crc t n s)
  | _ => None
  end.
Definition other_files (t : N) (F : list file) : list file := filter (fun x => negb (f_typ x =? t)) F.

(** ** Lemmas *)
Lemma first_of_all flt f a fuel : forall i l, iter_all fuel f a flt i = Ok l -> first_from fuel f a flt i = Ok (hd_error l).
Proof.
  induction fuel as [|k IH]; intros i l E; cbn [iter_all first_from] in *; [discriminate|].
  destruct (a_count a <=? i); [injection E as <-; reflexivity|]. destruct (read_entry_at f (address_of_file_entry a i)) as [e|]; [|discriminate].
  destruct (iter_all k f a flt (i + 1)) as [l'| |] eqn:E'; try discriminate. injection E as <-. destruct (flt e); [reflexivity|]. apply IH. exact E'.
Qed.

Lemma hd_filter {A} (P : A -> bool) l : hd_error (filter P l) = find P l.
Proof. induction l as [|a l IH]; cbn [filter find]; [reflexivity|]. destruct (P a); [reflexivity|exact IH]. Qed.

Lemma find_typ t ents : forall C : list (list N * list byte), length ents = length C ->
  option_map e_id (find (fun e => e_typ e =? t) ents) = option_map f_id (find (fun x => f_typ x =? t) (user_view ents C)).
Proof.
  unfold user_view. induction ents as [|e ents IH]; intros [|c C] L; cbn [length] in L; try discriminate; [reflexivity|].
  cbn [combine map find]. unfold f_typ at 1. cbn [fst snd]. destruct (e_typ e =? t); [reflexivity|]. apply IH. lia.
Qed.

Lemma first_file crc y v t : Repr crc y v -> exists o, find_first_file (sfs y) (fun e => e_typ e =? t) = Ok o /\
  option_map e_id o = option_map f_id (find (fun x => f_typ x =? t) (v_files v)).
Proof.
  intros [(p & ents & C & H & W & ST & EF & EW & EV) _ _ _]. exists (find (fun e => e_typ e =? t) ents). split.
  - unfold find_first_file. erewrite first_of_all; [rewrite <- hd_filter; reflexivity|].
    exact (files_iter_spec (sfs y) p (v_gen v) ents (v_top v) _ (state_dir _ _ _ _ _ _ _ _ _ ST)).
  - rewrite EF. apply find_typ. exact (disk_len _ _ _ _ _ _ _ (st_disk _ _ _ _ _ _ _ _ _ ST)).
Qed.

(** a reader that answers every sequence of requests as a reader of [rest] does *)
Definition serves (crc : list byte -> N) (f : flash) (r : reader) (rest : list byte) : Prop := forall lens, read_many crc f r lens = Ok (expect rest lens).
Lemma serves_step crc f r rest n : serves crc f r rest -> exists r' st, read_slice crc f r n = Ok (r', firstn n rest, st) /\ serves crc f r' (skipn n rest).
Proof.
  intros Sv. pose proof (Sv [n]) as S1. cbn [read_many expect] in S1.
  destruct (read_slice crc f r n) as [[[r' d] st]| |] eqn:E; [|discriminate|discriminate]. injection S1 as Ed _.
  exists r', st. split; [rewrite Ed; reflexivity|]. intros lens. pose proof (Sv (n :: lens)) as S2. cbn [read_many expect] in S2. rewrite E in S2.
  destruct (read_many crc f r' lens); [injection S2 as _ _ <-; reflexivity|discriminate|discriminate].
Qed.

Lemma exact_read crc f r rest n : serves crc f r rest -> read_exact crc f r n = if Nat.leb n (length rest) then Some (firstn n rest) else None.
Proof.
  intros Sv. unfold read_exact. destruct n as [|n]; [reflexivity|]. cbn [read_exact_loop].
  destruct (serves_step crc f r rest (S n) Sv) as (r' & st & E & Sv'). rewrite E. clear E.
  destruct rest as [|b rest]; [reflexivity|]. rewrite firstn_cons. cbn [app].
  destruct (Nat.leb_spec (S n) (length (b :: rest))) as [Hle|Hgt]; cbn [length] in *.
  - rewrite firstn_length, Nat.min_l by lia. rewrite Nat.sub_diag. destruct n; reflexivity.
  - rewrite firstn_all2 by lia. replace (S n - S (length rest))%nat with (S (n - length rest - 1)) by lia.
    destruct n as [|n]; [lia|]. cbn [read_exact_loop].
    destruct (serves_step crc f r' _ (S (S n - length rest - 1)) Sv') as (r2 & st2 & E2 & _). rewrite E2.
    rewrite skipn_all2 by (cbn [length]; lia). rewrite firstn_nil. reflexivity.
Qed.

(** what a listing says the configuration is *)
Definition config_of (F : list file) (t : N) (n : nat) : option (list byte) :=
  match find (fun x => f_typ x =? t) F with
  | Some x => if Nat.leb n (length (f_data x)) then Some (firstn n (f_data x)) else None
  | None => None
  end.

Lemma find_unique F x P : StronglySorted N.lt (map f_id F) -> find P F = Some x -> find (fun z => f_id z =? f_id x) F = Some x.
Proof.
  intros S E. induction F as [|a F IH]; [discriminate|]. cbn [map find] in *. inversion S as [|? ? S1 S2]; subst. destruct (P a) eqn:Pa.
  - injection E as ->. rewrite N.eqb_refl. reflexivity.
  - destruct (N.eqb_spec (f_id a) (f_id x)) as [Eq|_]; [|apply IH; auto]. exfalso. apply find_some in E. destruct E as [Hx _].
    rewrite Forall_forall in S2. specialize (S2 (f_id x) (in_map f_id _ _ Hx)). lia.
Qed.

Lemma config_spec crc y v t n : Repr crc y v ->
  (forall x, find (fun x => f_typ x =? t) (v_files v) = Some x -> marked v (f_id x) = false) -> (length (v_open v) < 32)%nat ->
  snd (config_read crc t n (sfs y)) = config_of (v_files v) t n.
Proof.
  intros R Hm Hl. unfold config_read, config_of. destruct (first_file crc y v t R) as (o & -> & Eo).
  destruct (find (fun x => f_typ x =? t) (v_files v)) as [x|] eqn:Ex; destruct o as [e|]; cbn [option_map] in Eo; try discriminate; [|reflexivity].
  injection Eo as Eo. pose proof (find_unique _ _ _ (repr_sorted crc y v R) Ex) as Eu.
  destruct (can_read crc y v (e_id e) (f_data x) R) as (s' & rd & E & Sv); [rewrite Eo; unfold content; rewrite Eu; reflexivity|rewrite Eo; apply Hm; reflexivity|exact Hl|].
  rewrite E. cbn [snd]. apply exact_read. exact Sv.
Qed.

Lemma booted_config crc t n f F top gen r : Holds crc f F top gen -> read_at_boot crc t n f r = config_of F t n.
Proof.
  intros Hh. destruct (boot_holds crc f F top gen r Hh) as (s & top' & E & RR & _). unfold read_at_boot. rewrite E.
  change s with (sfs (mkSys s [] [])). rewrite (config_spec crc _ _ t n RR); [reflexivity|reflexivity|cbn [v_open length]; lia].
Qed.

Lemma writer_file crc y v id : Repr crc y v -> In id (map fst (v_wr v)) -> In id (map f_id (v_files v)).
Proof.
  intros [(p & ents & C & H & W & ST & EF & EW & EV) _ _ _] Hi. rewrite EV, map_map in Hi. apply in_map_iff in Hi. destruct Hi as ([w c] & Ei & Hi).
  pose proof (st_w _ _ _ _ _ _ _ _ _ ST) as Hw. rewrite Forall_forall in Hw. destruct (Hw _ Hi) as (i & e & l & ds & q & A1 & _ & A3 & _). cbn [fst] in Ei.
  rewrite EF, view_ids by (exact (disk_len _ _ _ _ _ _ _ (st_disk _ _ _ _ _ _ _ _ _ ST))). rewrite <- Ei, <- A3. apply in_map. eapply nth_error_In; eauto.
Qed.
Lemma fresh_id v : ~ In (next_id v) (map f_id (v_files v)).
Proof.
  unfold next_id. generalize (map f_id (v_files v)) (v_top v). intros l t0 Hi. assert (Hm : forall q b, In b q -> b <= fold_right N.max t0 q).
  { induction q as [|a q IH]; intros b Hb; [destruct Hb|]. cbn [fold_right]. destruct Hb as [->|Hb]; [lia|]. specialize (IH b Hb). lia. }
  pose proof (Hm _ _ Hi). lia.
Qed.

Lemma set_last F id t d d' : ~ In id (map f_id F) -> set_data id d' (F ++ [(id, t, d)]) = F ++ [(id, t, d')].
Proof.
  intros Hn. unfold set_data. induction F as [|a F IH]; cbn [app map].
  - change (f_id (id, t, d)) with id. change (f_typ (id, t, d)) with t. rewrite N.eqb_refl. reflexivity.
  - destruct (N.eqb_spec (f_id a) id) as [E|_]; [exfalso; apply Hn; left; exact E|]. apply (f_equal (cons a)). apply IH. intros Hi. apply Hn. right. exact Hi.
Qed.
Lemma look_last F id t d w rr o tp g : ~ In id (map f_id F) -> lookup (mkV (F ++ [(id, t, d)]) w rr o tp g) id = Some (id, t, d).
Proof.
  intros Hn. unfold lookup. cbn [v_files]. induction F as [|a F IH]; cbn [app find].
  - unfold f_id at 1. cbn [fst]. rewrite N.eqb_refl. reflexivity.
  - destruct (N.eqb_spec (f_id a) id) as [E|_]; [exfalso; apply Hn; left; exact E|]. apply IH. intros Hi. apply Hn. right. exact Hi.
Qed.

Lemma config_last F t id d n : config_of (other_files t F ++ [(id, t, d)]) t n = if Nat.leb n (length d) then Some (firstn n d) else None.
Proof.
  unfold config_of. assert (E : find (fun x => f_typ x =? t) (other_files t F ++ [(id, t, d)]) = Some (id, t, d)); [|rewrite E; reflexivity].
  unfold other_files. induction F as [|a F IH]; cbn [filter app find].
  - unfold f_typ at 1. cbn [fst snd]. rewrite N.eqb_refl. reflexivity.
  - destruct (f_typ a =? t) eqn:E; cbn [negb]; [exact IH|]. cbn [app find]. rewrite E. exact IH.
Qed.
Lemma config_none F t n : config_of (other_files t F) t n = None.
Proof.
  unfold config_of, other_files. assert (E : find (fun x => f_typ x =? t) (filter (fun x => negb (f_typ x =? t)) F) = None); [|rewrite E; reflexivity].
  induction F as [|a F IH]; [reflexivity|]. cbn [filter]. destruct (f_typ a =? t) eqn:E; cbn [negb]; [exact IH|]. cbn [find]. rewrite E. exact IH.
Qed.

Lemma other_other t F : other_files t (other_files t F) = other_files t F.
Proof.
  unfold other_files. induction F as [|a F IH]; [reflexivity|]. cbn [filter]. destruct (f_typ a =? t) eqn:E; cbn [negb]; [exact IH|]. cbn [filter]. rewrite E. cbn [negb]. rewrite IH. reflexivity.
Qed.
Lemma other_last t F id d : other_files t (other_files t F ++ [(id, t, d)]) = other_files t F.
Proof.
  rewrite <- (other_other t F) at 2. unfold other_files at 1. rewrite filter_app. cbn [filter]. change (f_typ (id, t, d)) with t. rewrite N.eqb_refl. cbn [negb]. rewrite app_nil_r. reflexivity.
Qed.

(** the listings a write goes through *)
Definition phase (F : list file) (t : N) (d : list byte) (F' : list file) : Prop :=
  F' = F \/ F' = other_files t F \/ exists id data, ~ In id (map f_id (other_files t F)) /\ begins data d /\ F' = other_files t F ++ [(id, t, data)].

Lemma legal_create y v crc t : Repr crc y v -> legal y (Create t) -> t < 65535 /\ (length (v_files v) < 2518)%nat.
Proof. intros R L. exact (legal_allowed crc y v (Create t) R L). Qed.

Lemma unused_view crc y v t : Repr crc y v -> unused y t -> forall x, In x (v_files v) -> f_typ x = t -> marked v (f_id x) = false /\ ~ In (f_id x) (map fst (v_wr v)).
Proof.
  intros R U x Hx Ht. destruct (repr_iter crc y v R) as (es & Ei & Em). destruct (repr_wr crc y v R) as [Ew _].
  apply (in_map fst) in Hx. rewrite <- Em in Hx. apply in_map_iff in Hx. destruct Hx as (e & E1 & E2).
  assert (E3 : e_id e = f_id x /\ e_typ e = f_typ x). { unfold f_id, f_typ. rewrite <- E1. auto. } destruct E3 as [E3 E4].
  destruct (U es e Ei E2) as [A B]; [congruence|]. rewrite <- E3. split; [|rewrite <- Ew; exact B].
  rewrite (marked_perm (a_open (atb (sfs y))) v _ (rr_open crc y v R)). exact A.
Qed.

Lemma write_phases crc (Hc : crc32 crc) y v t d : Repr crc y v -> unused y t -> legal y (Create t) -> bytes_ok d ->
  (forall yi c, In (yi, c) (fst (config_run crc t d y)) -> exists vi, Repr crc yi vi /\ allowed vi c /\ forall F', loses vi c F' -> phase (v_files v) t d F') /\
  (forall y', config_write crc t d y = (y', RDone) -> exists v' id, Repr crc y' v' /\ v_files v' = other_files t (v_files v) ++ [(id, t, d)] /\
     marked v' id = false /\ ~ In id (map f_id (other_files t (v_files v))) /\ v_wr v' = v_wr v /\ ~ In id (map fst (v_wr v))).
Proof.
  intros R U L Bd. destruct (legal_create y v crc t R L) as [Ht Hlen]. pose proof (unused_view crc y v t R U) as UV. unfold config_write, config_run, of_type.
  set (sel := fun _ ty : N => ty =? t). set (k := length (sws y)). destruct (repr_wr crc y v R) as [Ew Lw].
  assert (Gs : forall x, In x (v_files v) -> stays v sel x = negb (f_typ x =? t)).
  { intros x Hx. unfold stays, goes, sel. f_equal. destruct (N.eqb_spec (f_typ x) t) as [E|_]; [|reflexivity]. destruct (UV x Hx E) as [A _]. rewrite A. reflexivity. }
  assert (Ef : filter (stays v sel) (v_files v) = other_files t (v_files v)) by (apply filter_ext_in; exact Gs).
  assert (A0 : allowed v (Remove sel)).
  { cbn [allowed]. intros id pend x Hi Hl. apply find_some in Hl. destruct Hl as [Hx Hid]. apply N.eqb_eq in Hid. unfold goes, sel.
    destruct (N.eqb_spec (f_typ x) t) as [E|_]; [|reflexivity]. exfalso. destruct (UV x Hx E) as [_ B]. apply B. rewrite Hid. exact (in_map fst _ _ Hi). }
  assert (P0 : exists vi, Repr crc y vi /\ allowed vi (Remove sel) /\ forall F', loses vi (Remove sel) F' -> phase (v_files v) t d F').
  { exists v. split; [exact R|]. split; [exact A0|]. cbn [loses]. intros F' [->| ->]; [left; reflexivity|right; left; exact Ef]. }
  pose proof (refines crc Hc y v _ R A0) as Rf. unfold Refined in Rf. destruct (perform crc (Remove sel) y) as [y1 r1]. destruct Rf as [(v1 & D1 & RR1) _].
  cbn [does] in D1. destruct D1 as [[-> Ev1]|[-> _]].
  2:{ cbn [fst snd]. split; [intros yi c [E|[]]; injection E as <- <-; exact P0|intros y' E; discriminate]. }
  specialize (RR1 ltac:(discriminate)). assert (F1 : v_files v1 = other_files t (v_files v)) by (rewrite Ev1; exact Ef).
  assert (Wr1 : v_wr v1 = v_wr v) by (rewrite Ev1; reflexivity).
  assert (A1 : allowed v1 (Create t)).
  { cbn [allowed]. split; [exact Ht|]. rewrite F1. eapply Nat.le_lt_trans; [|exact Hlen]. unfold other_files. clear. induction (v_files v) as [|a l IH]; cbn [filter length]; [lia|].
    destruct (negb (f_typ a =? t)); cbn [length]; lia. }
  pose proof (fresh_id v1) as Fr. set (id := next_id v1) in *.
  assert (Fw : ~ In id (map fst (v_wr v))) by (intros Hi; rewrite <- Wr1 in Hi; apply Fr; apply (writer_file crc y1 v1); assumption).
  assert (P1 : exists vi, Repr crc y1 vi /\ allowed vi (Create t) /\ forall F', loses vi (Create t) F' -> phase (v_files v) t d F').
  { exists v1. split; [exact RR1|]. split; [exact A1|]. cbn [loses]. intros F' [->| ->]; [right; left; exact F1|right; right].
    exists id, []. rewrite <- F1. split; [exact Fr|]. split; [exists d; reflexivity|reflexivity]. }
  pose proof (refines crc Hc y1 v1 _ RR1 A1) as Rf. unfold Refined in Rf. destruct (perform crc (Create t) y1) as [y2 r2]. destruct Rf as [(v2 & D2 & RR2) _].
  cbn [does] in D2. destruct D2 as [[-> Ev2]|[-> _]].
  2:{ cbn [fst snd]. split; [intros yi c [E|[E|[]]]; injection E as <- <-; assumption|intros y' E; discriminate]. }
  specialize (RR2 ltac:(discriminate)). change (next_id v1) with id; fold id in Ev2.
  assert (A2 : allowed v2 (OpenWrite id)).
  { cbn [allowed]. intros _ Hi. rewrite Ev2 in Hi. cbn [v_wr] in Hi. apply Fr. apply (writer_file crc y1 v1); assumption. }
  assert (P2 : exists vi, Repr crc y2 vi /\ allowed vi (OpenWrite id) /\ forall F', loses vi (OpenWrite id) F' -> phase (v_files v) t d F').
  { exists v2. split; [exact RR2|]. split; [exact A2|]. cbn [loses]. rewrite Ev2, (look_last _ id t []) by exact Fr. cbn [f_data snd v_files].
    intros F' (kept & cut & Ek & _ & ->). symmetry in Ek. apply app_eq_nil in Ek. destruct Ek as [-> _]. rewrite set_last by exact Fr. right; right.
    exists id, []. rewrite <- F1. split; [exact Fr|]. split; [exists d; reflexivity|reflexivity]. }
  pose proof (refines crc Hc y2 v2 _ RR2 A2) as Rf. unfold Refined in Rf. destruct (perform crc (OpenWrite id) y2) as [y3 r3]. destruct Rf as [(v3 & D3 & RR3) _].
  cbn [does] in D3. assert (Lk2 : lookup v2 id = Some (id, t, [])) by (rewrite Ev2; apply look_last; exact Fr). rewrite Lk2 in D3.
  assert (Q3 : r3 = RDone /\ v_files v3 = v_files v2 /\ v_wr v3 = v_wr v2 ++ [(id, [])] \/ r3 = RPanic \/ exists e, r3 = RErr e).
  { destruct (marked v2 id); [right; right; destruct D3 as [-> _]; eauto|]. destruct (Nat.leb 32 (length (v_open v2))); [right; right; destruct D3 as [-> _]; eauto|].
    destruct D3 as [[-> _]|[[-> _]|(-> & top & gen & -> & _)]]; [right; right; eauto|right; left; reflexivity|left]. auto. }
  destruct Q3 as [(-> & F3 & W3)|[->|(e & ->)]].
  2,3: cbn [fst snd]; split; [intros yi c [E|[E|[E|[]]]]; injection E as <- <-; assumption|intros y' E; discriminate].
  clear D3. specialize (RR3 ltac:(discriminate)).
  assert (L3 : nth_error (v_wr v3) k = Some (id, [])).
  { rewrite W3, Ev2. cbn [v_wr]. rewrite Wr1. unfold k. rewrite Lw, nth_error_app2, Nat.sub_diag by lia. reflexivity. }
  assert (Lk3 : lookup v3 id = Some (id, t, [])) by (unfold lookup; rewrite F3; exact Lk2).
  assert (A3 : allowed v3 (Append k d)) by (cbn [allowed]; split; [exact Bd|apply nth_error_Some; congruence]).
  assert (F3' : v_files v3 = other_files t (v_files v) ++ [(id, t, [])]) by (rewrite F3, Ev2, <- F1; reflexivity).
  rewrite F1 in Fr.
  assert (P3 : exists vi, Repr crc y3 vi /\ allowed vi (Append k d) /\ forall F', loses vi (Append k d) F' -> phase (v_files v) t d F').
  { exists v3. split; [exact RR3|]. split; [exact A3|]. cbn [loses]. rewrite L3. intros F' (x & data & Ex & _ & Bg & ->). rewrite Lk3 in Ex. injection Ex as <-. cbn [f_data snd app] in Bg.
    right; right. exists id, data. split; [exact Fr|]. split; [exact Bg|]. rewrite F3', set_last by exact Fr. reflexivity. }
  pose proof (refines crc Hc y3 v3 _ RR3 A3) as Rf. unfold Refined in Rf. destruct (perform crc (Append k d) y3) as [y4 r4]. destruct Rf as [(v4 & D4 & RR4) _].
  cbn [does] in D4. rewrite L3 in D4. destruct D4 as (x & data & pend & n & Ex & Bg & Eq & _ & Ev4 & Er). rewrite Lk3 in Ex. injection Ex as <-. cbn [f_data snd app] in Eq.
  destruct Er as [[-> ->]| ->].
  2:{ cbn [fst snd]. split; [intros yi c [E|[E|[E|[E|[]]]]]; injection E as <- <-; assumption|intros y' E; discriminate]. }
  specialize (RR4 ltac:(discriminate)). rewrite firstn_all in Eq. rewrite F3', set_last in Ev4 by exact Fr.
  assert (L4 : nth_error (v_wr v4) k = Some (id, pend)) by (rewrite Ev4; cbn [v_wr]; apply upd_same; apply nth_error_Some; congruence).
  assert (Lk4 : lookup v4 id = Some (id, t, data)) by (rewrite Ev4; apply look_last; exact Fr).
  assert (A4 : allowed v4 (CloseWriter k)) by (cbn [allowed]; apply nth_error_Some; congruence).
  assert (P4 : exists vi, Repr crc y4 vi /\ allowed vi (CloseWriter k) /\ forall F', loses vi (CloseWriter k) F' -> phase (v_files v) t d F').
  { exists v4. split; [exact RR4|]. split; [exact A4|]. cbn [loses]. rewrite L4. intros F' (x & dt & Ex & _ & Bg4 & ->). rewrite Lk4 in Ex. injection Ex as <-. cbn [f_data snd] in Bg4.
    right; right. exists id, dt. split; [exact Fr|]. split; [rewrite <- Eq; exact Bg4|]. rewrite Ev4. cbn [v_files]. rewrite set_last by exact Fr. reflexivity. }
  cbn [fst snd]. split; [intros yi c [E|[E|[E|[E|[E|[]]]]]]; injection E as <- <-; assumption|].
  intros y' E5. pose proof (refines crc Hc y4 v4 _ RR4 A4) as Rf. unfold Refined in Rf. rewrite E5 in Rf. destruct Rf as [(v5 & D5 & RR5) _].
  specialize (RR5 ltac:(discriminate)). cbn [does] in D5. rewrite L4 in D5. destruct D5 as (x & Ex & _ & Ev5). rewrite Lk4 in Ex. injection Ex as <-. cbn [f_data snd] in Ev5. rewrite Eq in Ev5.
  assert (W5 : v_wr v5 = v_wr v).
  { rewrite Ev5, Ev4. cbn [v_wr]. rewrite W3, Ev2. cbn [v_wr]. rewrite Wr1. unfold k. rewrite Lw. unfold without.
    assert (Up : forall (l : list (N * list byte)) a b, upd (l ++ [a]) (length l) b = l ++ [b]) by (clear; induction l as [|x l IH]; intros a b; cbn; [reflexivity|now rewrite IH]).
    rewrite Up, firstn_app, Nat.sub_diag, firstn_all, firstn_O, app_nil_r, skipn_all2 by (rewrite app_length; cbn [length]; lia). apply app_nil_r. }
  exists v5, id. split; [exact RR5|]. rewrite Ev4 in Ev5. cbn [v_files] in Ev5. rewrite set_last in Ev5 by exact Fr. rewrite Ev5. cbn [v_files]. split; [reflexivity|]. split; [|split; [exact Fr|split; [rewrite <- Ev5; exact W5|exact Fw]]].
  unfold marked. cbn [v_open]. destruct (existsb _ _) eqn:Ex2; [|reflexivity]. apply existsb_exists in Ex2. destruct Ex2 as (z & Hz & Ez). apply N.eqb_eq in Ez. subst z.
  exfalso. exact (remove_In N.eq_dec _ _ Hz).
Qed.

(** ** C54 *)
Theorem C54_read_returns_written : forall crc, crc32 crc -> forall es y t d y', history crc es (On y) -> unused y t -> legal y (Create t) -> bytes_ok d ->
  config_write crc t d y = (y', RDone) ->
  (* after a restart *)
  (forall r, read_at_boot crc t (length d) (fl (sfs y')) r = Some d) /\
  (* without a restart, unless 32 files are open *)
  ((length (a_open (atb (sfs y'))) < 32)%nat -> snd (config_read crc t (length d) (sfs y')) = Some d) /\
  (* the files of other types are as before *)
  (forall r, exists F F', snapshot crc (fl (sfs y)) r = Some F /\ snapshot crc (fl (sfs y')) r = Some F' /\ other_files t F' = other_files t F).
Proof.
  intros crc Hc es y t d y' Hh U L Bd E. destruct (running crc es y Hc Hh) as (v & _ & R).
  destruct (write_phases crc Hc y v t d R U L Bd) as [_ K]. destruct (K y' E) as (v' & id & R' & F' & M & Fr & _).
  assert (Ec : config_of (v_files v') t (length d) = Some d) by (rewrite F', config_last, Nat.leb_refl, firstn_all; reflexivity).
  split; [|split].
  - intros r. rewrite <- Ec. apply (booted_config crc t _ _ _ (v_top v') (v_gen v')). left. apply repr_kept. exact R'.
  - intros Hl. rewrite (config_spec crc y' v' t _ R'); [exact Ec| |rewrite <- (Permutation_length (rr_open crc y' v' R')); exact Hl].
    intros x Hx. enough (Ex : x = (id, t, d)) by (rewrite Ex; exact M).
    assert (E2 : find (fun x => f_typ x =? t) (v_files v') = Some (id, t, d)); [|congruence].
    rewrite F'. clear. unfold other_files. induction (v_files v) as [|a F IH]; cbn [filter app find].
    + unfold f_typ at 1. cbn [fst snd]. rewrite N.eqb_refl. reflexivity.
    + destruct (f_typ a =? t) eqn:E; cbn [negb]; [exact IH|]. cbn [app find]. rewrite E. exact IH.
  - intros r. exists (v_files v), (v_files v'). split; [apply repr_snapshot; exact R|]. split; [apply repr_snapshot; exact R'|].
    rewrite F'. apply other_last.
Qed.
Print Assumptions C54_read_returns_written.

(** a power loss at any moment of a write: the old configuration, none, or the new one; never a mixture.  (The property also asks that
    it is never "none": that is false, [C54_refuted].) *)
Theorem C54_power_loss_partial : forall crc, crc32 crc -> forall es y t d f r, history crc es (On y) -> unused y t -> legal y (Create t) -> bytes_ok d ->
  config_lost crc t d y f ->
  let n := length d in
  (read_at_boot crc t n f r = read_at_boot crc t n (fl (sfs y)) r \/ read_at_boot crc t n f r = None \/ read_at_boot crc t n f r = Some d) /\
  (exists F F', snapshot crc (fl (sfs y)) r = Some F /\ snapshot crc f r = Some F' /\ other_files t F' = other_files t F).
Proof.
  intros crc Hc es y t d f r Hh U L Bd (yi & c & Hin & Hlost) n. destruct (running crc es y Hc Hh) as (v & _ & R).
  destruct (write_phases crc Hc y v t d R U L Bd) as [K _]. destruct (K yi c Hin) as (vi & Ri & Ai & Ph).
  pose proof (refines crc Hc yi vi c Ri Ai) as Rf. unfold Refined in Rf. destruct (perform crc c yi) as [yo ro]. destruct Rf as [_ [Hl _]].
  destruct (Hl f Hlost) as (F' & top & gen & Ls & Kp & _). specialize (Ph F' Ls).
  assert (E1 : read_at_boot crc t n f r = config_of F' t n) by (apply (booted_config crc t n f F' top gen); left; exact Kp).
  assert (E0 : read_at_boot crc t n (fl (sfs y)) r = config_of (v_files v) t n) by (apply (booted_config crc t n _ _ (v_top v) (v_gen v)); left; apply repr_kept; exact R).
  rewrite E1, E0. split.
  - destruct Ph as [->|[->|(id & data & Fr & (tl & ->) & ->)]]; [left; reflexivity|right; left; apply config_none|].
    rewrite config_last. unfold n. destruct (Nat.leb_spec (length (data ++ tl)) (length data)) as [Hle|_]; [|right; left; reflexivity].
    right; right. rewrite app_length in Hle. destruct tl; [|cbn [length] in Hle; lia]. rewrite app_nil_r, firstn_all. reflexivity.
  - exists (v_files v), F'. split; [apply repr_snapshot; exact R|]. split; [apply (kept_snapshot crc f F' top gen r Kp)|].
    destruct Ph as [->|[->|(id & data & _ & _ & ->)]]; [reflexivity|apply other_other|apply other_last].
Qed.
Print Assumptions C54_power_loss_partial.

(** ** Concrete cases: a store holding a configuration [1;2;3] of type 3 and a file of type 4; [4;5;6] is written *)
Definition old_config : list act := [XBoot; XCall (Create 4); XCall (Create 3); XCall (OpenWrite 2); XCall (Append 0 [1;2;3]); XCall (CloseWriter 0)].
Definition unusedb (y : sys) (t : N) : bool :=
  match files_iter (sfs y) (fun _ => true) with
  | Ok es => forallb (fun e => negb (e_typ e =? t) || (negb (is_opened (atb (sfs y)) (e_id e)) && negb (existsb (N.eqb (e_id e)) (map w_id (sws y))))) es
  | _ => true
  end.
Lemma unusedb_sound y t : unusedb y t = true -> unused y t.
Proof.
  unfold unusedb. intros H es e Ei Hin Ht. rewrite Ei in H. rewrite forallb_forall in H. specialize (H e Hin). rewrite Ht, N.eqb_refl in H. cbn [negb orb] in H.
  apply andb_prop in H. destruct H as [H1 H2]. apply Bool.negb_true_iff in H1, H2. split; [exact H1|]. apply existsb_in. exact H2.
Qed.
Definition same_opt (a b : option (list N)) : bool :=
  match a, b with
  | Some x, Some y => if list_eq_dec N.eq_dec x y then true else false
  | None, None => true
  | _, _ => false
  end.
Lemma same_opt_eq a b : same_opt a b = true -> a = b.
Proof. destruct a as [x|], b as [y|]; cbn [same_opt]; try discriminate; [|reflexivity]. destruct (list_eq_dec N.eq_dec x y) as [->|]; [reflexivity|discriminate]. Qed.
Lemma bytes456 : bytes_ok [4;5;6]. Proof. repeat constructor. Qed.

(** the i-th call of the write is interrupted after [full] flash operations and [bytes] bytes of the next *)
Definition cut_write (t : N) (d : list byte) (y : sys) (i full bytes : nat) (res : option (list N)) : bool :=
  match nth_error (fst (config_run sum t d y)) i with
  | Some (yi, c) => match strip (lg (sfs yi)) (lg (sfs (fst (perform sum c yi)))) with
                    | Some ops => same_opt (read_at_boot sum t (length d) (halt (fl (sfs yi)) ops full bytes) (fun _ => 0)) res
                    | None => false
                    end
  | None => false
  end.
Lemma cut_write_sound t d y i full bytes res : cut_write t d y i full bytes res = true ->
  exists f, config_lost sum t d y f /\ read_at_boot sum t (length d) f (fun _ => 0) = res.
Proof.
  unfold cut_write. destruct (nth_error (fst (config_run sum t d y)) i) as [[yi c]|] eqn:E; [|intros H; exfalso; exact (Bool.diff_false_true H)].
  destruct (strip _ _) as [ops|] eqn:Es; [|intros H; exfalso; exact (Bool.diff_false_true H)].
  intros H. exists (halt (fl (sfs yi)) ops full bytes). split; [|apply same_opt_eq; exact H]. exists yi, c. split; [eapply nth_error_In; exact E|apply lost_at; exact Es].
Qed.

(** power lost between the removal of the old file and the end of the write: no configuration at all.  Power lost early, or late:
    the old one, or the new one. *)
Theorem C54_refuted : exists es y f f0 f1, history sum es (On y) /\ unused y 3 /\ legal y (Create 3) /\
  read_at_boot sum 3 3 (fl (sfs y)) (fun _ => 0) = Some [1;2;3] /\
  config_lost sum 3 [4;5;6] y f /\ read_at_boot sum 3 3 f (fun _ => 0) = None /\
  config_lost sum 3 [4;5;6] y f0 /\ read_at_boot sum 3 3 f0 (fun _ => 0) = Some [1;2;3] /\
  config_lost sum 3 [4;5;6] y f1 /\ read_at_boot sum 3 3 f1 (fun _ => 0) = Some [4;5;6].
Proof.
  destruct (reach old_config (fun y => unusedb y 3 && legalb y (Create 3) && same_opt (read_at_boot sum 3 3 (fl (sfs y)) (fun _ => 0)) (Some [1;2;3]) &&
      cut_write 3 [4;5;6] y 1 0 0 None && cut_write 3 [4;5;6] y 0 0 0 (Some [1;2;3]) && cut_write 3 [4;5;6] y 4 100 0 (Some [4;5;6]))) as (es & y & Hh & H); [vm_compute; reflexivity|].
  apply andb_prop in H. destruct H as [H H6]. apply andb_prop in H. destruct H as [H H5]. apply andb_prop in H. destruct H as [H H4]. apply andb_prop in H. destruct H as [H H3]. apply andb_prop in H. destruct H as [H1 H2].
  destruct (cut_write_sound _ _ _ _ _ _ _ H4) as (f & L & Rd). destruct (cut_write_sound _ _ _ _ _ _ _ H5) as (f0 & L0 & Rd0). destruct (cut_write_sound _ _ _ _ _ _ _ H6) as (f1 & L1 & Rd1).
  exists es, y, f, f0, f1. split; [exact Hh|]. split; [apply unusedb_sound; exact H1|]. split; [apply legalb_sound; exact H2|]. split; [apply same_opt_eq; exact H3|].
  split; [exact L|]. split; [exact Rd|]. split; [exact L0|]. split; [exact Rd0|]. split; [exact L1|exact Rd1].
Qed.
Print Assumptions C54_refuted.

Example C54_example : exists es y y', history sum es (On y) /\ unused y 3 /\ legal y (Create 3) /\ bytes_ok [4;5;6] /\ config_write sum 3 [4;5;6] y = (y', RDone) /\
  (length (a_open (atb (sfs y'))) < 32)%nat.
Proof.
  destruct (reach old_config (fun y => unusedb y 3 && legalb y (Create 3) && is_done (snd (config_write sum 3 [4;5;6] y)) &&
     Nat.ltb (length (a_open (atb (sfs (fst (config_write sum 3 [4;5;6] y)))))) 32)) as (es & y & Hh & H); [vm_compute; reflexivity|].
  apply andb_prop in H. destruct H as [H H4]. apply andb_prop in H. destruct H as [H H3]. apply andb_prop in H. destruct H as [H1 H2].
  destruct (config_write sum 3 [4;5;6] y) as [y' r] eqn:E. cbn [fst snd] in *. exists es, y, y'. split; [exact Hh|]. split; [apply unusedb_sound; exact H1|].
  split; [apply legalb_sound; exact H2|]. split; [exact bytes456|]. split; [rewrite E; f_equal; apply is_done_eq; exact H3|apply Nat.ltb_lt; exact H4].
Qed.

(** why [unused]: while somebody reads the old configuration, a write reports success but the old configuration stays in force *)
Theorem C54_stale_when_open : exists es y y', history sum es (On y) /\ legal y (Create 3) /\ config_write sum 3 [4;5;6] y = (y', RDone) /\
  read_at_boot sum 3 3 (fl (sfs y')) (fun _ => 0) = Some [1;2;3].
Proof.
  destruct (reach (old_config ++ [XCall (OpenRead 2)]) (fun y => legalb y (Create 3) && is_done (snd (config_write sum 3 [4;5;6] y)) &&
     same_opt (read_at_boot sum 3 3 (fl (sfs (fst (config_write sum 3 [4;5;6] y)))) (fun _ => 0)) (Some [1;2;3]))) as (es & y & Hh & H); [vm_compute; reflexivity|].
  apply andb_prop in H. destruct H as [H H3]. apply andb_prop in H. destruct H as [H1 H2].
  destruct (config_write sum 3 [4;5;6] y) as [y' r] eqn:E. cbn [fst snd] in *. exists es, y, y'. split; [exact Hh|]. split; [apply legalb_sound; exact H1|].
  split; [rewrite E; f_equal; apply is_done_eq; exact H2|apply same_opt_eq; exact H3].
Qed.
Print Assumptions C54_stale_when_open.

(** ** C73: removing one file *)
(** file [id] is listed *)
Definition listed (F : list file) (id : N) : Prop := In id (map f_id F).
Theorem C73_remove_one_file : forall crc, crc32 crc -> forall es y id s' res r, history crc es (On y) -> legal y (Remove (fun i _ => i =? id)) ->
  remove_file id (sfs y) = (s', res) -> a_seq (atb (sfs y)) + 1 < 2 ^ 64 ->
  exists F F', snapshot crc (fl (sfs y)) r = Some F /\ snapshot crc (fl s') r = Some F' /\
   ((listed F id /\ is_opened (atb (sfs y)) id = false /\ res = Ok tt /\ F' = filter (fun x => negb (f_id x =? id)) F) \/
    (listed F id /\ is_opened (atb (sfs y)) id = true /\ res = Err FileInUse /\ F' = F) \/
    (~ listed F id /\ res = Err FileDoesNotExist /\ F' = F)).
Proof.
  intros crc Hc es y id s' res r Hh Hl E Hs. destruct (running crc es y Hc Hh) as (v & _ & R). pose proof (refines crc Hc y v _ R (legal_allowed crc y v _ R Hl)) as Rf.
  unfold Refined in Rf. cbn [perform] in Rf. unfold remove_file, bind in E.
  change (fun e : entry => (fun i _ : N => i =? id) (e_id e) (e_typ e)) with (fun e : entry => e_id e =? id) in Rf.
  assert (Eg : a_seq (atb (sfs y)) = v_gen v). { destruct R as [(p & ents & C & H & W & ST & _) _ _ _]. rewrite (st_at _ _ _ _ _ _ _ _ _ ST). reflexivity. }
  assert (Gs : forall b, map (fun x => f_id x) b = map f_id b) by reflexivity.
  pose proof (repr_sorted crc y v R) as Srt.
  destruct (remove_files (fun e : entry => e_id e =? id) (sfs y)) as [s1 [cn|er|]]; cbn [finish] in Rf.
  2:{ destruct Rf as [(v1 & [[D _]|[D _]] & _) _]; discriminate. }
  2:{ destruct Rf as [(v1 & [[D _]|[_ D]] & _) _]; [discriminate|]. unfold limit64 in D. lia. }
  destruct Rf as [(v1 & D & RR) _]. specialize (RR ltac:(discriminate)). cbn [does] in D. destruct D as [[Er Ev]|[D _]]; [|discriminate].
  injection Er as E1 E2. pose proof (repr_snapshot crc y v r R) as S0. pose proof (repr_snapshot crc _ v1 r RR) as S1. cbn [sfs] in S1.
  assert (Fl : fl s' = fl s1).
  { destruct cn as [c1 c2]. cbn [fst snd] in E. destruct (c1 =? 1); [injection E as <- _; reflexivity|]. destruct (c2 =? 1); injection E as <- _; reflexivity. }
  exists (v_files v), (v_files v1). rewrite Fl. split; [exact S0|]. split; [exact S1|]. rewrite Ev. cbn [v_files].
  assert (Mk : is_opened (atb (sfs y)) id = marked v id) by (rewrite (marked_perm (a_open (atb (sfs y))) v _ (rr_open crc y v R)); reflexivity).
  rewrite Mk. clear Mk Fl S0 S1 Ev RR Hs Eg. unfold goes in E1. cbn beta in E1, E2. rewrite E1, E2 in E.
  destruct (in_dec N.eq_dec id (map f_id (v_files v))) as [Hi|Hn].
  - assert (Ct : count (fun x => f_id x =? id) (v_files v) = 1).
    { unfold count. clear -Hi Srt. induction (v_files v) as [|a F IH]; [destruct Hi|]. cbn [map filter] in *. inversion Srt as [|? ? S1 S2]; subst. destruct (N.eqb_spec (f_id a) id) as [Ea|Na].
      - assert (En : filter (fun x => f_id x =? id) F = []); [|rewrite En; reflexivity]. rewrite Forall_forall in S2. rewrite Ea in S2. clear -S2. induction F as [|b F IH]; [reflexivity|]. cbn [filter].
        pose proof (S2 (f_id b) (or_introl eq_refl)) as Hb. destruct (N.eqb_spec (f_id b) id); [lia|]. apply IH. intros q Hq. apply S2. right. exact Hq.
      - apply IH; [exact S1|destruct Hi as [Hi|Hi]; [congruence|exact Hi]]. }
    destruct (marked v id) eqn:M.
    + right; left. assert (C0 : count (fun x => (f_id x =? id) && negb (marked v (f_id x))) (v_files v) = 0).
      { unfold count. assert (En : filter (fun x => (f_id x =? id) && negb (marked v (f_id x))) (v_files v) = []); [|rewrite En; reflexivity].
        clear -M. induction (v_files v) as [|a F IH]; [reflexivity|]. cbn [filter]. destruct (N.eqb_spec (f_id a) id) as [Ea|_]; [rewrite Ea, M|]; exact IH. }
      assert (C1 : count (fun x => (f_id x =? id) && marked v (f_id x)) (v_files v) = 1).
      { rewrite <- Ct. unfold count. do 2 f_equal. apply filter_ext. intros a. destruct (N.eqb_spec (f_id a) id) as [Ea|_]; [rewrite Ea, M|]; reflexivity. }
      rewrite C0, C1 in E. cbn in E. injection E as _ <-. split; [exact Hi|]. split; [reflexivity|]. split; [reflexivity|].
      unfold stays, goes. clear -M. induction (v_files v) as [|a F IH]; [reflexivity|]. cbn [filter].
      destruct (N.eqb_spec (f_id a) id) as [Ea|_]; [rewrite Ea, M|]; cbn [negb andb]; rewrite IH; reflexivity.
    + left. assert (C1 : count (fun x => (f_id x =? id) && negb (marked v (f_id x))) (v_files v) = 1).
      { rewrite <- Ct. unfold count. do 2 f_equal. apply filter_ext. intros a. destruct (N.eqb_spec (f_id a) id) as [Ea|_]; [rewrite Ea, M|]; reflexivity. }
      rewrite C1 in E. cbn in E. injection E as _ <-. split; [exact Hi|]. split; [reflexivity|]. split; [reflexivity|].
      unfold stays, goes. apply filter_ext. intros a. destruct (N.eqb_spec (f_id a) id) as [Ea|_]; [rewrite Ea, M|]; reflexivity.
  - right; right. assert (Nn : forall a, In a (v_files v) -> (f_id a =? id) = false).
    { intros a Ha. apply N.eqb_neq. intros Ea. apply Hn. rewrite <- Ea. apply in_map. exact Ha. }
    assert (Z : forall P : file -> bool, count (fun x => (f_id x =? id) && P x) (v_files v) = 0).
    { intros P. unfold count. assert (En : filter (fun x => (f_id x =? id) && P x) (v_files v) = []); [|rewrite En; reflexivity].
      clear -Nn. induction (v_files v) as [|a F IH]; [reflexivity|]. cbn [filter]. rewrite (Nn a (or_introl eq_refl)). cbn [andb]. apply IH. intros b Hb. apply Nn. right. exact Hb. }
    rewrite (Z (fun x => negb (marked v (f_id x)))), (Z (fun x => marked v (f_id x))) in E. cbn in E. injection E as _ <-.
    split; [exact Hn|]. split; [reflexivity|]. unfold stays, goes. clear -Nn. induction (v_files v) as [|a F IH]; [reflexivity|]. cbn [filter].
    rewrite (Nn a (or_introl eq_refl)). cbn [andb negb]. rewrite IH; [reflexivity|]. intros b Hb. apply Nn. right. exact Hb.
Qed.
Print Assumptions C73_remove_one_file.

Example C73_example : exists es y s', history sum es (On y) /\ legal y (Remove (fun i _ => i =? 2)) /\ remove_file 2 (sfs y) = (s', Ok tt) /\ a_seq (atb (sfs y)) + 1 < 2 ^ 64.
Proof.
  destruct (reach old_config (fun y => legalb y (Remove (fun i _ => i =? 2)) && match snd (remove_file 2 (sfs y)) with Ok _ => true | _ => false end && (a_seq (atb (sfs y)) + 1 <? 1000))) as (es & y & Hh & H); [vm_compute; reflexivity|].
  apply andb_prop in H. destruct H as [H H3]. apply andb_prop in H. destruct H as [H1 H2]. apply N.ltb_lt in H3.
  destruct (remove_file 2 (sfs y)) as [s' [u|e|]] eqn:E; cbn [snd] in H2; [|discriminate H2|discriminate H2]. exists es, y, s'. split; [exact Hh|]. split; [apply legalb_sound; exact H1|].
  split; [rewrite E; destruct u; reflexivity|lia].
Qed.

(** * Property theorems C05-C10, C12: the directory.
    [history crc es (On y)]: [y] is the running file system after some history [es] of boots, calls and power losses that
    started on an unused chip.  [snapshot crc f r] restarts on flash [f] and reads all files. *)
From Coq Require Import Sorted Permutation.
From Verif Require Import Base Majority Flash FS Sectors SectorsProofs ATable TornCode TableCode TableScan TableBuild TableOps DirOps Chains FileIO FileFormat FileWrite WriteOps WriteSpec Disk Sessions DirState OpenOps Append OpenWrite FsSpec FsApi FsRefine FsBoot FsHistory.
Local Open Scope N_scope.
Local Open Scope fs_scope.

(** ** C05 *)
Theorem C05_entry_roundtrip : forall id typ first, id < 2 ^ 64 -> typ < 65536 -> (forall x, first = Some x -> x < 65535) ->
  length (entry_serialize (mkE id typ first)) = 13%nat /\
  entry_deserialize (entry_serialize (mkE id typ first)) = Some (mkE id typ first).
Proof.
  intros id typ first H1 H2 H3. split; [apply entry_serialize_shape|]. apply entry_roundtrip. split; [exact H1|]. split; [exact H2|].
  cbn [e_first]. destruct first; [apply H3; reflexivity|exact I].
Qed.
Print Assumptions C05_entry_roundtrip.
Example C05_entry_case : entry_deserialize (entry_serialize (mkE 77 5 (Some 1234))) = Some (mkE 77 5 (Some 1234)) /\
  entry_deserialize (entry_serialize (mkE (2 ^ 64 - 1) 65535 None)) = Some (mkE (2 ^ 64 - 1) 65535 None).
Proof. split; vm_compute; reflexivity. Qed.

Theorem C05_header_roundtrip : forall seq, seq < 2 ^ 64 ->
  length (header_serialize seq) = 13%nat /\ header_deserialize (header_serialize seq) = Some seq.
Proof. intros seq H. split; [apply header_serialize_shape|]. apply header_roundtrip; exact H. Qed.
Print Assumptions C05_header_roundtrip.

(** ** What is known of a running file system *)
Lemma running crc es y : crc32 crc -> history crc es (On y) -> exists v, aruns es (AOn v) /\ Repr crc y v.
Proof.
  intros Hc H. destruct (history_refines crc Hc es (On y) H) as (a & Ha & Hr). destruct a as [F t g|v]; [destruct Hr|]. exists v. auto.
Qed.
Lemma kept_snapshot crc f F t g r : Kept crc f F t g -> snapshot crc f r = Some F.
Proof. intros K. apply (holds_snapshot crc f F t g r). left. exact K. Qed.
Lemma repr_snapshot crc y v r : Repr crc y v -> snapshot crc (fl (sfs y)) r = Some (v_files v).
Proof. intros R. eapply kept_snapshot. apply repr_kept. exact R. Qed.
Lemma marked_now crc y v id : Repr crc y v -> marked v id = is_opened (atb (sfs y)) id.
Proof. intros [_ _ Hop _]. apply marked_perm. exact Hop. Qed.
Lemma repr_sorted crc y v : Repr crc y v -> StronglySorted N.lt (map f_id (v_files v)).
Proof.
  intros [(p & ents & C & H & W & ST & EF & EW & EV) _ _ _]. pose proof (st_disk _ _ _ _ _ _ _ _ _ ST) as D.
  rewrite EF, view_ids by (apply (disk_len _ _ _ _ _ _ _ D)). pose proof (dk_sorted _ _ _ _ _ _ _ D) as S. clear -S.
  unfold sorted_ids in S. induction S as [|e l S IH Hf]; cbn [map]; constructor; auto. rewrite Forall_map. exact Hf.
Qed.

(** ** Boot always succeeds *)
Theorem C06_boot_succeeds : forall crc, crc32 crc -> forall es f r, history crc es (Off f) ->
  exists s F, boot f r = (s, Ok tt) /\ snapshot crc f r = Some F.
Proof.
  intros crc Hc es f r H. destruct (history_refines crc Hc es (Off f) H) as (a & _ & Hr). destruct a as [F t g|v]; [|destruct Hr].
  destruct Hr as (t' & Hh & _). destruct (boot_holds crc f F t' g r Hh) as (s & top & E & _). exists s, F. split; [exact E|].
  eapply holds_snapshot; eauto.
Qed.
Print Assumptions C06_boot_succeeds.

(** ** C06: a directory change interrupted anywhere leaves the old directory or the new one *)
Definition is_directory_change (c : call) : Prop := match c with Create _ | CreateOpen _ | Remove _ => True | _ => False end.

Theorem C06_update_atomic : forall crc, crc32 crc -> forall es y c f r, history crc es (On y) -> legal y c -> is_directory_change c ->
  snd (perform crc c y) <> RPanic -> power_lost crc c y f ->
  exists old new, snapshot crc (fl (sfs y)) r = Some old /\ snapshot crc (fl (sfs (fst (perform crc c y)))) r = Some new /\
    (snapshot crc f r = Some old \/ snapshot crc f r = Some new).
Proof.
  intros crc Hc es y c f r Hh Hl Hd Hp Hpl. destruct (running crc es y Hc Hh) as (v & _ & R).
  pose proof (refines crc Hc y v c R (legal_allowed crc y v c R Hl)) as Rf. unfold Refined in Rf. destruct (perform crc c y) as [y' rep] eqn:E.
  destruct Rf as [(v' & D & R') [L _]]. cbn [fst snd] in *. specialize (R' Hp). destruct (L f Hpl) as (F & top & gen & Ls & K & _).
  exists (v_files v), (v_files v'). split; [apply (repr_snapshot crc y v r R)|]. split; [apply (repr_snapshot crc y' v' r R')|].
  rewrite (kept_snapshot crc f F top gen r K). destruct c; cbn [is_directory_change] in Hd; try contradiction; cbn [does loses] in *.
  - destruct Ls as [->| ->]; [left; reflexivity|]. destruct D as [[_ ->]|[D _]]; [right; reflexivity|contradiction].
  - destruct Ls as [->| ->]; [left; reflexivity|]. destruct D as [[_ ->]|D]; [right; reflexivity|contradiction].
  - destruct Ls as [->| ->]; [left; reflexivity|]. destruct D as [[_ ->]|[D _]]; [right; reflexivity|contradiction].
Qed.
Print Assumptions C06_update_atomic.

(** the same for a change that panics (counter overflow, or a full device in create-and-open): nothing or exactly the new file *)
Theorem C06_panicking_update_atomic : forall crc, crc32 crc -> forall es y c f r, history crc es (On y) -> legal y c -> is_directory_change c ->
  power_lost crc c y f -> exists old F, snapshot crc (fl (sfs y)) r = Some old /\ snapshot crc f r = Some F /\
    (F = old \/
     match c with
     | Create t | CreateOpen t => exists id, F = old ++ [(id, t, [])] /\ forall x, In x old -> f_id x < id
     | Remove sel => F = filter (fun x => negb (sel (f_id x) (f_typ x) && negb (is_opened (atb (sfs y)) (f_id x)))) old
     | _ => False
     end).
Proof.
  intros crc Hc es y c f r Hh Hl Hd Hpl. destruct (running crc es y Hc Hh) as (v & _ & R).
  pose proof (refines crc Hc y v c R (legal_allowed crc y v c R Hl)) as Rf. unfold Refined in Rf. destruct (perform crc c y) as [y' rep] eqn:E.
  destruct Rf as [_ [L _]]. destruct (L f Hpl) as (F & top & gen & Ls & K & _).
  exists (v_files v), F. split; [apply (repr_snapshot crc y v r R)|]. split; [apply (kept_snapshot crc f F top gen r K)|].
  assert (Hnx : forall x, In x (v_files v) -> f_id x < next_id v).
  { intros x Hx. unfold next_id. assert (Hm : forall l t, In (f_id x) l -> f_id x <= fold_right N.max t l).
    { induction l as [|a l IH]; intros t Hin; [destruct Hin|]. cbn [fold_right]. destruct Hin as [->|Hin]; [lia|]. specialize (IH t Hin). lia. }
    pose proof (Hm (map f_id (v_files v)) (v_top v) (in_map f_id _ _ Hx)). lia. }
  destruct c; cbn [is_directory_change] in Hd; try contradiction; cbn [loses] in Ls; destruct Ls as [->| ->]; auto; right.
  - exists (next_id v). auto.
  - exists (next_id v). auto.
  - apply filter_ext. intros x. unfold stays, goes. rewrite (marked_now crc y v (f_id x) R). reflexivity.
Qed.
Print Assumptions C06_panicking_update_atomic.

(** the restriction in [torn_erase_ok] concerns only changes made after an interrupted one: once a change has completed, erases may be torn in the next
    one as well *)
Theorem C06_torn_erases_covered : forall crc, crc32 crc -> forall es y c y' rep c', history crc es (On y) -> legal y c -> is_directory_change c ->
  perform crc c y = (y', rep) -> rep <> RPanic -> is_directory_change c' -> torn_erase_ok c' y'.
Proof.
  intros crc Hc es y c y' rep c' Hh Hl Hd Hp Hr Hd'. destruct (running crc es y Hc Hh) as (v & _ & R).
  pose proof (legal_allowed crc y v c R Hl) as Al. destruct R as [(p & ents & C & H & W & ST & EF & EW & EV) _ Hop _].
  pose proof (st_disk _ _ _ _ _ _ _ _ _ ST) as Dk. pose proof (disk_len _ _ _ _ _ _ _ Dk) as Hlen.
  assert (K : forall s q g D m C2 H2 W2, State crc s q g D m C2 H2 W2 -> clean (fl s) q g -> s = sfs y' -> torn_erase_ok c' y').
  { intros s q g D m C2 H2 W2 St Cl ->. pose proof (st_at _ _ _ _ _ _ _ _ _ St) as Ea. unfold clean, next_slot in Cl.
    destruct c'; try destruct Hd'; unfold torn_erase_ok; rewrite Ea; exact Cl. }
  destruct c as [t|t|sel0|id|id|k d|k|k|k]; try destruct Hd; cbn [perform] in Hp; unfold finish in Hp.
  - destruct Al as [Ht Hlt]. rewrite EF, view_length in Hlt by auto.
    destruct (create_both crc (sfs y) p (v_gen v) ents (v_top v) C H W t ST Ht) as (s' & _ & Rr); [unfold slot_blocks; lia|].
    destruct Rr as [(E & S2 & Cl & _)|(E & _)]; rewrite E in Hp.
    + eapply K; [exact S2|exact Cl|]. injection Hp as <- _. reflexivity.
    + exfalso. apply Hr. injection Hp as _ <-. reflexivity.
  - destruct Al as [Ht Hlt]. rewrite EF, view_length in Hlt by auto.
    destruct (create_open_both crc (sfs y) p (v_gen v) ents (v_top v) C H W t ST Ht) as (s' & _ & Rr); [unfold slot_blocks; lia|].
    destruct Rr as [(x & E & S2 & Cl & _)|(E & _)]; rewrite E in Hp.
    + eapply K; [exact S2|exact Cl|]. injection Hp as <- _. reflexivity.
    + exfalso. apply Hr. injection Hp as _ <-. reflexivity.
  - set (flt := fun e => sel0 (e_id e) (e_typ e)) in *.
    destruct (remove_both crc (sfs y) p (v_gen v) ents (v_top v) C H W flt ST) as (s' & _ & Rr).
    { intros w cur e Hin He Eid. apply In_nth_error in He. destruct He as (i & He).
      assert (Hi : (i < length C)%nat) by (rewrite <- Hlen; apply nth_error_Some; congruence).
      destruct (nth_error C i) as [c|] eqn:Ec; [|apply nth_error_None in Ec; lia].
      assert (Hg : goes v sel0 (e_id e, e_typ e, snd c) = false).
      { apply (Al (w_id w) cur).
        - rewrite EV. apply in_map_iff. exists (w, cur). auto.
        - unfold lookup. rewrite EF, <- Eid. eapply find_view; eauto. apply sorted_nodup, (dk_sorted _ _ _ _ _ _ _ Dk). }
      unfold keeps, drops, flt. unfold goes, f_id, f_typ in Hg. cbn [fst snd] in Hg. rewrite <- (marked_perm (a_open (atb (sfs y))) v _ Hop), Hg. reflexivity. }
    destruct Rr as [(E & H2 & S2 & Cl & _)|(E & _)]; rewrite E in Hp.
    + eapply K; [exact S2|exact Cl|]. injection Hp as <- _. reflexivity.
    + exfalso. apply Hr. injection Hp as _ <-. reflexivity.
Qed.
Print Assumptions C06_torn_erases_covered.

(** opening for writing may rewrite the directory (first sector of an empty file): all ids and types stay *)
Theorem C06_open_keeps_directory : forall crc, crc32 crc -> forall es y id f r, history crc es (On y) -> legal y (OpenWrite id) ->
  power_lost crc (OpenWrite id) y f ->
  exists old F, snapshot crc (fl (sfs y)) r = Some old /\ snapshot crc f r = Some F /\ map fst F = map fst old /\
    (forall x, In x old -> f_id x <> id -> In x F).
Proof.
  intros crc Hc es y id f r Hh Hl Hpl. destruct (running crc es y Hc Hh) as (v & _ & R).
  pose proof (refines crc Hc y v (OpenWrite id) R (legal_allowed crc y v _ R Hl)) as Rf. unfold Refined in Rf. destruct (perform crc (OpenWrite id) y) as [y' rep] eqn:E.
  destruct Rf as [_ [L _]]. destruct (L f Hpl) as (F & top & gen & Ls & K & _).
  exists (v_files v), F. split; [apply (repr_snapshot crc y v r R)|]. split; [apply (kept_snapshot crc f F top gen r K)|].
  cbn [loses] in Ls. destruct (lookup v id) as [x|]; [|subst; auto]. destruct Ls as (kept & cut & _ & _ & ->). split.
  - unfold set_data. rewrite map_map. apply map_ext. intros [[a b] d]. cbn [f_id f_typ fst snd]. destruct (a =? id); reflexivity.
  - intros z Hz Hne. unfold set_data. apply in_map_iff. exists z. split; [|exact Hz]. apply N.eqb_neq in Hne. rewrite Hne. reflexivity.
Qed.
Print Assumptions C06_open_keeps_directory.

(** ** C07: what a completed change did is there after a restart *)
Theorem C07_restart_shows_the_listing : forall crc, crc32 crc -> forall es y r, history crc es (On y) ->
  exists F l, snapshot crc (fl (sfs y)) r = Some F /\ files_iter (sfs y) (fun _ => true) = Ok l /\
    map fst F = map (fun e => (e_id e, e_typ e)) l.
Proof.
  intros crc Hc es y r Hh. destruct (running crc es y Hc Hh) as (v & _ & R). destruct (repr_iter crc y v R) as (l & E1 & E2).
  exists (v_files v), l. split; [apply (repr_snapshot crc y v r R)|]. auto.
Qed.
Print Assumptions C07_restart_shows_the_listing.

Theorem C07_completed_change_is_durable : forall crc, crc32 crc -> forall es y c y' rep r, history crc es (On y) -> legal y c -> perform crc c y = (y', rep) ->
  exists old, snapshot crc (fl (sfs y)) r = Some old /\
    match c, rep with
    | Create t, RId id | CreateOpen t, RId id => snapshot crc (fl (sfs y')) r = Some (old ++ [(id, t, [])]) /\ (forall x, In x old -> f_id x < id)
    | Remove sel, RCounts removed in_use =>
        let selected x := sel (f_id x) (f_typ x) in
        let protected x := is_opened (atb (sfs y)) (f_id x) in
        snapshot crc (fl (sfs y')) r = Some (filter (fun x => negb (selected x && negb (protected x))) old) /\
        removed = N.of_nat (length (filter (fun x => selected x && negb (protected x)) old)) /\
        in_use = N.of_nat (length (filter (fun x => selected x && protected x) old))
    | _, _ => True
    end.
Proof.
  intros crc Hc es y c y' rep r Hh Hl E. destruct (running crc es y Hc Hh) as (v & _ & R).
  pose proof (refines crc Hc y v c R (legal_allowed crc y v c R Hl)) as Rf. unfold Refined in Rf. rewrite E in Rf.
  destruct Rf as [(v' & D & R') _]. exists (v_files v). split; [apply (repr_snapshot crc y v r R)|].
  assert (Hnx : forall x, In x (v_files v) -> f_id x < next_id v).
  { intros x Hx. unfold next_id. assert (Hm : forall l t, In (f_id x) l -> f_id x <= fold_right N.max t l).
    { induction l as [|a l IH]; intros t Hin; [destruct Hin|]. cbn [fold_right]. destruct Hin as [->|Hin]; [lia|]. specialize (IH t Hin). lia. }
    pose proof (Hm (map f_id (v_files v)) (v_top v) (in_map f_id _ _ Hx)). lia. }
  destruct c; try exact I; destruct rep; try exact I; cbn [does] in D.
  - destruct D as [[Ei Ev]|[D _]]; [|discriminate]. injection Ei as ->. rewrite (repr_snapshot crc y' v' r (R' ltac:(discriminate))), Ev. auto.
  - destruct D as [[Ei Ev]|D]; [|discriminate]. injection Ei as ->. rewrite (repr_snapshot crc y' v' r (R' ltac:(discriminate))), Ev. auto.
  - destruct D as [[Ei Ev]|[D _]]; [|discriminate]. injection Ei as -> ->. rewrite (repr_snapshot crc y' v' r (R' ltac:(discriminate))), Ev. cbn [v_files].
    split; [|split].
    + f_equal. apply filter_ext. intros x. unfold stays, goes. rewrite (marked_now crc y v (f_id x) R). reflexivity.
    + unfold count. do 2 f_equal. apply filter_ext. intros x. unfold goes. rewrite (marked_now crc y v (f_id x) R). reflexivity.
    + unfold count. do 2 f_equal. apply filter_ext. intros x. rewrite (marked_now crc y v (f_id x) R). reflexivity.
Qed.
Print Assumptions C07_completed_change_is_durable.

(** *** Removing files whatever its callers hold *)
(** the same device, forgetting the writers *)
Definition forget (y : sys) : sys := mkSys (sfs y) [] (srs y).
Lemma forget_repr crc y v : Repr crc y v -> Repr crc (forget y) (mkV (v_files v) [] (v_rd v) (v_open v) (v_top v) (v_gen v)).
Proof.
  intros [(p & ents & C & H & W & ST & EF & EW & EV) Hrd Hop Hnd]. constructor; [|exact Hrd|exact Hop|exact Hnd].
  exists p, ents, C, H, []. split; [|split; [exact EF|split; reflexivity]].
  destruct ST as [A1 A2 A3 A4 A5 A6]. constructor; [exact A1|exact A2|exact A3|exact A4|constructor|constructor].
Qed.
Lemma forget_remove crc sel y y' r : perform crc (Remove sel) y = (y', r) -> perform crc (Remove sel) (forget y) = (forget y', r) /\ sws y' = sws y /\ srs y' = srs y.
Proof.
  unfold perform, finish, forget. cbn [sfs sws srs]. destruct (remove_files _ (sfs y)) as [s [a|e|]]; intros E; apply pair_equal_spec in E; destruct E as [<- <-]; auto.
Qed.
Lemma forget_legal y sel : legal (forget y) (Remove sel).
Proof. intros es e _ _ []. Qed.
Lemma forget_lost crc sel y f : power_lost crc (Remove sel) y f -> power_lost crc (Remove sel) (forget y) f.
Proof.
  unfold power_lost. destruct (perform crc (Remove sel) y) as [y' r] eqn:E. destruct (forget_remove crc sel y y' r E) as [E' _]. rewrite E'. cbn [fst]. unfold forget. cbn [sfs].
  intros H. exact H.
Qed.

(** Removal does what it promises to the directory even when files are removed under the writers that are appending to them: it
    is unaware of writers that are not marked as open. *)
Theorem C07_removal_whatever_is_open : forall crc, crc32 crc -> forall es y sel y' removed in_use r, history crc es (On y) ->
  perform crc (Remove sel) y = (y', RCounts removed in_use) ->
  let selected x := sel (f_id x) (f_typ x) in
  let protected x := is_opened (atb (sfs y)) (f_id x) in
  exists old, snapshot crc (fl (sfs y)) r = Some old /\
    snapshot crc (fl (sfs y')) r = Some (filter (fun x => negb (selected x && negb (protected x))) old) /\
    removed = N.of_nat (length (filter (fun x => selected x && negb (protected x)) old)) /\
    in_use = N.of_nat (length (filter (fun x => selected x && protected x) old)) /\
    sws y' = sws y /\ srs y' = srs y.
Proof.
  intros crc Hc es y sel y' n m r Hh E selected protected. destruct (running crc es y Hc Hh) as (v & _ & R).
  destruct (forget_remove crc sel y y' _ E) as (E' & W' & S'). pose proof (forget_repr crc y v R) as R0.
  pose proof (refines crc Hc _ _ _ R0 (legal_allowed crc _ _ _ R0 (forget_legal y sel))) as Rf. unfold Refined in Rf. rewrite E' in Rf.
  destruct Rf as [(v' & D & R') _]. exists (v_files v). split; [apply (repr_snapshot crc y v r R)|].
  pose proof (fun id => marked_now crc _ _ id R0) as M. cbn [does] in D. destruct D as [[Ei Ev]|[D _]]; [|discriminate D]. injection Ei as -> ->.
  pose proof (repr_snapshot crc (forget y') v' r (R' ltac:(discriminate))) as Es. unfold forget in Es, M. cbn [sfs] in Es, M. rewrite Es, Ev. cbn [v_files].
  split; [|split; [|split; [|split; [exact W'|exact S']]]].
  - f_equal. apply filter_ext. intros x. unfold stays, goes. rewrite M. reflexivity.
  - unfold count. do 2 f_equal. apply filter_ext. intros x. unfold goes. rewrite M. reflexivity.
  - unfold count. do 2 f_equal. apply filter_ext. intros x. rewrite M. reflexivity.
Qed.
Print Assumptions C07_removal_whatever_is_open.

Theorem C06_removal_whatever_is_open : forall crc, crc32 crc -> forall es y sel f r, history crc es (On y) -> power_lost crc (Remove sel) y f ->
  exists old F, snapshot crc (fl (sfs y)) r = Some old /\ snapshot crc f r = Some F /\
    (F = old \/ F = filter (fun x => negb (sel (f_id x) (f_typ x) && negb (is_opened (atb (sfs y)) (f_id x)))) old).
Proof.
  intros crc Hc es y sel f r Hh Hp. destruct (running crc es y Hc Hh) as (v & _ & R). pose proof (forget_repr crc y v R) as R0.
  pose proof (refines crc Hc _ _ _ R0 (legal_allowed crc _ _ _ R0 (forget_legal y sel))) as Rf. unfold Refined in Rf.
  destruct (perform crc (Remove sel) (forget y)) as [y' rep]. destruct Rf as [_ [L _]]. destruct (L f (forget_lost crc sel y f Hp)) as (F & top & gen & Ls & K & _).
  exists (v_files v), F. split; [apply (repr_snapshot crc y v r R)|]. split; [apply (kept_snapshot crc f F top gen r K)|].
  pose proof (fun id => marked_now crc _ _ id R0) as M. unfold forget in M. cbn [sfs] in M.
  cbn [loses v_files] in Ls. destruct Ls as [->| ->]; [left; reflexivity|right]. apply filter_ext. intros x. unfold stays, goes. rewrite M. reflexivity.
Qed.
Print Assumptions C06_removal_whatever_is_open.

(** ** C08 *)
Definition issued (e : aevent) : list N :=
  match e with ACall (Create _) (RId id) | ACall (CreateOpen _) (RId id) => [id] | _ => [] end.
Definition interrupts_directory (e : aevent) : bool := match e with ALoss c => rewrites c | _ => false end.

Lemma fold_max_ge l : forall t, t <= fold_right N.max t l.
Proof. induction l as [|a l IH]; intros t; cbn [fold_right]; [lia|]. specialize (IH t). lia. Qed.

Definition below (ids : list N) (a : astate) : Prop :=
  match a with
  | AOff F (Some t) _ => forall id, In id ids -> id <= t
  | AOff F None _ => ids = []
  | AOn v => forall id, In id ids -> id <= v_top v
  end.

Lemma ids_below es a : aruns es a -> forallb (fun e => negb (interrupts_directory e)) es = true ->
  StronglySorted N.lt (flat_map issued es) /\ below (flat_map issued es) a.
Proof.
  induction 1 as [|es a e a' Hr IH St]; intros Hu; [split; [constructor|reflexivity]|].
  rewrite forallb_app in Hu. apply andb_prop in Hu. destruct Hu as [Hu He]. cbn [forallb] in He. rewrite andb_true_r in He.
  destruct (IH Hu) as [S B]. rewrite flat_map_app. cbn [flat_map]. rewrite app_nil_r.
  assert (Hsame : issued e = [] -> StronglySorted N.lt (flat_map issued es ++ issued e)) by (intros ->; rewrite app_nil_r; exact S).
  inversion St as [F top gen t Ht|F top gen|v c r v' Hal D Hn|v c F Hal Ls|v c F Hal Ls Hrw|v]; subst; cbn [issued interrupts_directory] in *.
  - split; [apply Hsame; reflexivity|]. rewrite app_nil_r. destruct top as [t0|]; cbn [below] in *.
    + rewrite (Ht t0 eq_refl). exact B.
    + rewrite B. intros id [].
  - split; [apply Hsame; reflexivity|]. rewrite app_nil_r. exact B.
  - cbn [below] in B.
    assert (Snoc : StronglySorted N.lt (flat_map issued es ++ [next_id v])).
    { assert (Hlt : forall id, In id (flat_map issued es) -> id < next_id v).
      { intros id Hid. specialize (B id Hid). unfold next_id. pose proof (fold_max_ge (map f_id (v_files v)) (v_top v)). lia. }
      clear -S Hlt. induction S as [|x l S IH Hf]; cbn [app]; [repeat constructor|]. constructor.
      - apply IH. intros id Hid. apply Hlt. right; exact Hid.
      - apply Forall_app. split; [exact Hf|]. constructor; [apply Hlt; left; reflexivity|constructor]. }
    assert (Hle : v_top v <= next_id v) by (unfold next_id; pose proof (fold_max_ge (map f_id (v_files v)) (v_top v)); lia).
    assert (Bn : forall id, In id (flat_map issued es ++ [next_id v]) -> id <= next_id v).
    { intros id Hid. apply in_app_or in Hid. destruct Hid as [Hid|[<-|[]]]; [specialize (B id Hid); lia|lia]. }
    destruct c as [t|t|sel0|id|id|k d|k|k|k]; cbn [does] in D.
    + destruct D as [[-> ->]|[-> _]]; [|congruence]. cbn [issued below v_top]. auto.
    + destruct D as [[-> ->]| ->]; [|congruence]. cbn [issued below v_top]. auto.
    + destruct D as [[-> ->]|[-> _]]; [|congruence]. cbn [issued below v_top]. rewrite app_nil_r. split; [exact S|].
      intros id Hid. specialize (B id Hid). pose proof (fold_max_ge (map f_id (filter (stays v sel0) (v_files v))) (v_top v)). lia.
    + assert (Er : (match r with RId _ => false | _ => true end) = true).
      { destruct (lookup v id); [|destruct D as [-> _]; reflexivity]. destruct (marked v id); [destruct D as [-> _]; reflexivity|].
        destruct (32 <=? length (v_open v))%nat; [destruct D as [-> _]; reflexivity|]. destruct D as [[-> _]|[[-> _]|[-> _]]]; reflexivity. }
      assert (Ei : issued (ACall (OpenWrite id) r) = []) by reflexivity. cbn [issued] in *. rewrite app_nil_r. split; [exact S|]. cbn [below].
      assert (Hge : v_top v <= v_top v').
      { destruct (lookup v id); [|destruct D as [_ ->]; lia]. destruct (marked v id); [destruct D as [_ ->]; lia|].
        destruct (32 <=? length (v_open v))%nat; [destruct D as [_ ->]; lia|]. destruct D as [[_ ->]|[[-> _]|[_ (top & gen & -> & [[-> _]|[-> _]])]]]; cbn [v_top]; try lia; [congruence|].
        apply fold_max_ge. }
      intros i Hi. specialize (B i Hi). lia.
    + cbn [issued]. rewrite app_nil_r. split; [exact S|]. cbn [below].
      assert (Et : v_top v' = v_top v).
      { destruct (lookup v id); [|destruct D as [_ ->]; reflexivity]. destruct (marked v id); [destruct D as [_ ->]; reflexivity|].
        destruct (32 <=? length (v_open v))%nat; destruct D as [_ ->]; reflexivity. }
      rewrite Et. exact B.
    + cbn [issued]. rewrite app_nil_r. split; [exact S|]. cbn [below]. destruct (nth_error (v_wr v) k) as [[id pend]|]; [|destruct D].
      destruct D as (x & data & pend' & n & _ & _ & _ & _ & -> & _). exact B.
    + cbn [issued]. rewrite app_nil_r. split; [exact S|]. cbn [below]. destruct (nth_error (v_wr v) k) as [[id pend]|]; [|destruct D].
      destruct D as (x & _ & [[_ ->]|[_ ->]]); exact B.
    + cbn [issued]. rewrite app_nil_r. split; [exact S|]. cbn [below]. destruct (nth_error (v_wr v) k) as [[id pend]|]; [|destruct D].
      destruct D as (x & _ & _ & ->); exact B.
    + cbn [issued]. rewrite app_nil_r. split; [exact S|]. cbn [below]. destruct (nth_error (v_rd v) k) as [id|]; [|destruct D].
      destruct D as (_ & ->); exact B.
  - split; [apply Hsame; reflexivity|]. rewrite app_nil_r. cbn [below]. exact B.
  - rewrite Hrw in He. discriminate.
  - split; [apply Hsame; reflexivity|]. rewrite app_nil_r. exact B.
Qed.

(** Partial: histories in which no power loss hits a call that rewrites the directory (it may hit anything else). *)
Theorem C08_ids_strictly_increase_partial : forall crc, crc32 crc -> forall es m, history crc es m ->
  forallb (fun e => negb (interrupts_directory e)) es = true -> StronglySorted N.lt (flat_map issued es).
Proof. intros crc Hc es m H Hu. destruct (history_refines crc Hc es m H) as (a & Ha & _). exact (proj1 (ids_below es a Ha Hu)). Qed.
Print Assumptions C08_ids_strictly_increase_partial.

(** after any history whatsoever a new file gets an id larger than those of all files in the directory *)
Theorem C08_new_id_above_all_present_partial : forall crc, crc32 crc -> forall es y t y' id r, history crc es (On y) -> legal y (Create t) ->
  perform crc (Create t) y = (y', RId id) -> exists F, snapshot crc (fl (sfs y)) r = Some F /\ forall x, In x F -> f_id x < id.
Proof.
  intros crc Hc es y t y' id r Hh Hl E. destruct (C07_completed_change_is_durable crc Hc es y (Create t) y' (RId id) r Hh Hl E) as (F & E1 & E2 & E3). exists F. auto.
Qed.
Print Assumptions C08_new_id_above_all_present_partial.

(** ** C09 *)
Theorem C09_lookup_exact : forall crc, crc32 crc -> forall es y id r, history crc es (On y) ->
  exists F, snapshot crc (fl (sfs y)) r = Some F /\
    exists o, find_file_entry id (sfs y) = (sfs y, Ok o) /\
      match find (fun x => f_id x =? id) F with
      | Some x => exists e k, o = Some (e, k) /\ e_id e = id /\ e_typ e = f_typ x
      | None => o = None
      end /\
      exists_file id (sfs y) = (sfs y, Ok (existsb (fun x => f_id x =? id) F)).
Proof.
  intros crc Hc es y id r Hh. destruct (running crc es y Hc Hh) as (v & _ & R). exists (v_files v). split; [apply (repr_snapshot crc y v r R)|].
  destruct R as [(p & ents & C & H & W & ST & EF & EW & EV) _ _ _]. pose proof (st_disk _ _ _ _ _ _ _ _ _ ST) as D. pose proof (disk_len _ _ _ _ _ _ _ D) as L.
  destruct (find_spec (sfs y) p (v_gen v) ents (v_top v) id (state_dir _ _ _ _ _ _ _ _ _ ST) (dk_sorted _ _ _ _ _ _ _ D)) as (o & E & Ho).
  exists o. split; [exact E|]. unfold exists_file. rewrite (bind_ok _ _ _ _ _ E). rewrite EF. destruct o as [[e k]|].
  - destruct Ho as [He Eid]. assert (Hi : (N.to_nat k < length C)%nat) by (rewrite <- L; apply nth_error_Some; congruence).
    destruct (nth_error C (N.to_nat k)) as [c|] eqn:Ec; [|apply nth_error_None in Ec; lia].
    pose proof (find_view ents C _ e c (sorted_nodup _ (dk_sorted _ _ _ _ _ _ _ D)) He Ec) as Ef. rewrite Eid in Ef. rewrite Ef. split.
    + exists e, k. split; [reflexivity|]. split; [exact Eid|reflexivity].
    + unfold ret. do 2 f_equal. symmetry. apply find_some in Ef. apply existsb_exists. eauto.
  - rewrite (find_view_none ents id C Ho). split; [reflexivity|]. unfold ret. do 2 f_equal. symmetry.
    destruct (existsb (fun x => f_id x =? id) (user_view ents C)) eqn:Ex; [|reflexivity]. apply existsb_exists in Ex. destruct Ex as (x & Hx & Ex).
    pose proof (find_none _ _ (find_view_none ents id C Ho) x Hx) as Q. cbn in Q. congruence.
Qed.
Print Assumptions C09_lookup_exact.

(** ** C10 *)
Theorem C10_iteration_exact : forall crc, crc32 crc -> forall es y sel r, history crc es (On y) ->
  exists F l, snapshot crc (fl (sfs y)) r = Some F /\ files_iter (sfs y) (fun e => sel (e_id e) (e_typ e)) = Ok l /\
    map (fun e => (e_id e, e_typ e)) l = map fst (filter (fun x => sel (f_id x) (f_typ x)) F) /\
    StronglySorted N.lt (map e_id l).
Proof.
  intros crc Hc es y sel r Hh. destruct (running crc es y Hc Hh) as (v & _ & R). pose proof (repr_sorted crc y v R) as S. pose proof (repr_snapshot crc y v r R) as Sn.
  destruct R as [(p & ents & C & H & W & ST & EF & EW & EV) _ _ _]. pose proof (st_disk _ _ _ _ _ _ _ _ _ ST) as D. pose proof (disk_len _ _ _ _ _ _ _ D) as L.
  exists (v_files v), (filter (fun e => sel (e_id e) (e_typ e)) ents). split; [exact Sn|].
  split; [apply (files_iter_spec (sfs y) p (v_gen v) ents (v_top v) _ (state_dir _ _ _ _ _ _ _ _ _ ST))|].
  rewrite EF. split.
  - clear -L. unfold user_view. revert C L. induction ents as [|e ents IH]; intros [|c C] L; cbn [length] in L; try lia; [reflexivity|].
    cbn [combine map filter fst snd]. unfold f_id at 1, f_typ at 1. cbn [fst snd]. specialize (IH C ltac:(lia)).
    destruct (sel (e_id e) (e_typ e)); cbn [map fst]; rewrite IH; reflexivity.
  - pose proof (sorted_filter (fun e => sel (e_id e) (e_typ e)) ents (dk_sorted _ _ _ _ _ _ _ D)) as S'. clear -S'. unfold sorted_ids in S'.
    induction S' as [|e l S IH Hf]; cbn [map]; constructor; auto. rewrite Forall_map. exact Hf.
Qed.
Print Assumptions C10_iteration_exact.

(** ** C12 *)
Lemma traced_lost crc c y f s' (G : flash -> Prop) : sfs (fst (perform crc c y)) = s' -> (forall te, traced te (sfs y) s' G) -> power_lost crc c y f -> G f.
Proof. intros E T. apply (lost_traced crc c y f s' G E). intros te _. apply T. Qed.

(** Partial (at most 2518 files, which [legal] demands but the code does not check): at no moment of the creation of a file has anything
    outside one 32 KiB table slot changed, and that slot is not the one that holds the current directory. *)
Theorem C12_create_confined_partial : forall crc, crc32 crc -> forall es y t f, history crc es (On y) -> legal y (Create t) -> power_lost crc (Create t) y f ->
  exists q, q < 4 /\ q <> a_pos (atb (sfs y)) /\ forall a, a < 67108864 -> ~ (q * 32768 <= a < q * 32768 + 32768) -> f a = fl (sfs y) a.
Proof.
  intros crc Hc es y t f Hh Hl Hp. destruct (running crc es y Hc Hh) as (v & _ & R). pose proof (legal_allowed crc y v _ R Hl) as [Ht Hlen].
  destruct R as [(p & ents & C & H & W & ST & EF & EW & EV) _ _ _]. pose proof (st_disk _ _ _ _ _ _ _ _ _ ST) as D.
  rewrite EF, view_length in Hlen by (apply (disk_len _ _ _ _ _ _ _ D)).
  pose proof (state_dir _ _ _ _ _ _ _ _ _ ST) as HD. pose proof (dr_at _ _ _ _ _ HD) as Ea. pose proof (rp_pos _ _ _ _ _ (dr_rep _ _ _ _ _ HD)) as Hpos.
  exists (next_slot p). split; [apply next_slot_lt|]. split; [rewrite Ea; cbn [a_pos]; apply next_slot_neq; exact Hpos|].
  assert (K' : forall te W0 g, mid_update te (next_slot p) (fun _ => True) (fl (sfs y)) W0 g ->
     forall a, a < 67108864 -> ~ (next_slot p * 32768 <= a < next_slot p * 32768 + 32768) -> g a = fl (sfs y) a).
  { intros te W0 g (A & B & _) a Ha Hn. destruct (N.lt_ge_cases a 131072) as [L|L]; [apply A; auto|].
    assert (Hd : data_sector (a / 4096)).
    { unfold data_sector, ALLOC_TABLES_SECTORS_USED, SECTORS_COUNT. split; [apply N.div_le_lower_bound; lia|apply N.div_lt_upper_bound; lia]. }
    assert (Hr : a / 4096 * SECTOR_SIZE <= a < (a / 4096 + 1) * SECTOR_SIZE).
    { unfold SECTOR_SIZE. pose proof (N.div_mod a 4096 ltac:(lia)). pose proof (N.mod_lt a 4096 ltac:(lia)). lia. }
    apply (B (a / 4096) Hd I a). exact Hr. }
  assert (Hcap : (length ents + 1 < slot_blocks)%nat) by (unfold slot_blocks; lia).
  destruct (N.lt_ge_cases (v_gen v + 1) (2 ^ 64)) as [Hs|Hs].
  2:{ assert (E : create_file t (sfs y) = (sfs y, Panic)) by (unfold create_file; eapply new_overflow; eauto).
      intros a _ _. replace f with (fl (sfs y)); [reflexivity|]. symmetry. eapply lost_quiet; [|reflexivity|exact Hp].
      cbn [perform]. unfold finish. rewrite E. reflexivity. }
  destruct (N.lt_ge_cases (maxid (v_top v) ents + 1) (2 ^ 64)) as [Hm|Hm].
  - destruct (create_spec false (fun _ => True) (sfs y) p (v_gen v) ents (v_top v) t HD Hs Hcap Hm) as (s' & E & U & _).
    apply (traced_lost crc (Create t) y f s' (fun g => forall a, a < 67108864 -> ~ (next_slot p * 32768 <= a < next_slot p * 32768 + 32768) -> g a = fl (sfs y) a)); [|intros te|exact Hp].
    { cbn [perform]. unfold finish. rewrite E. reflexivity. }
    destruct (create_spec te (fun _ => True) (sfs y) p (v_gen v) ents (v_top v) t HD Hs Hcap Hm) as (s2 & E2 & U2 & _).
    rewrite <- (pair_eq _ _ _ _ _ E E2). eapply traced_weaken; [|apply (up_tr _ _ _ _ _ _ _ _ U2)]. intros g Hg. eapply K'. exact Hg.
  - destruct (create_overflow false (fun _ => True) (sfs y) p (v_gen v) ents (v_top v) t HD Hs Hcap Hm) as [(s' & E & T) _].
    apply (traced_lost crc (Create t) y f s' (fun g => forall a, a < 67108864 -> ~ (next_slot p * 32768 <= a < next_slot p * 32768 + 32768) -> g a = fl (sfs y) a)); [|intros te|exact Hp].
    { cbn [perform]. unfold finish. rewrite E. reflexivity. }
    destruct (create_overflow te (fun _ => True) (sfs y) p (v_gen v) ents (v_top v) t HD Hs Hcap Hm) as [(s2 & E2 & T2) _].
    rewrite <- (pair_eq _ _ _ _ _ E E2). eapply traced_weaken; [|exact T2]. intros g Hg. eapply K'. exact Hg.
Qed.
Print Assumptions C12_create_confined_partial.

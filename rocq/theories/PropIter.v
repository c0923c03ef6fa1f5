(** * Property theorem C11: the concurrent directory iterator.
    [history], [legal], [perform]: FsApi.v; [files_iter]: the plain listing (C10); [concurrent_next]: Iter.v. *)
From Coq Require Import Sorted Permutation.
From Verif Require Import Base Majority Flash FS Sectors SectorsProofs ATable TornCode TableCode TableScan TableBuild TableOps DirOps Chains FileIO FileFormat FileWrite WriteOps WriteSpec Disk Sessions DirState OpenOps Append OpenWrite FsSpec FsApi FsRefine FsBoot FsHistory PropDirectory Iter FsExec FsExamples.
Local Open Scope N_scope.
Local Open Scope fs_scope.

(** Histories whose last interrupted directory change, if any, was followed by a completed one.  (The power loss may have damaged the
    directory's record of the largest id handed out; the next completed change repairs it.) *)
Definition completes (e : aevent) : bool :=
  match e with ACall (Create _) (RId _) | ACall (CreateOpen _) (RId _) | ACall (Remove _) (RCounts _ _) => true | _ => false end.
Fixpoint settled (ok : bool) (es : list aevent) : bool :=
  match es with
  | [] => ok
  | e :: t => settled (if interrupts_directory e then false else ok || completes e) t
  end.

(** An iterator that selects files by [sel], used while other calls change the directory: the system, the iterator's state and the
    files it has returned so far (id and type); [start] restricts the history before the iteration starts. *)
Inductive iterating (crc : list byte -> N) (start : list aevent -> bool) (sel : N -> N -> bool) : sys -> option (N * N) -> list (N * N) -> Prop :=
| it_start es y : history crc es (On y) -> start es = true -> iterating crc start sel y None []
| it_call y last seen c y' r : iterating crc start sel y last seen -> legal y c -> perform crc c y = (y', r) -> r <> RPanic -> iterating crc start sel y' last seen
| it_some y last seen e last' : iterating crc start sel y last seen -> concurrent_next sel (sfs y) last = Ok (Some e, last') ->
    iterating crc start sel y last' (seen ++ [(e_id e, e_typ e)])
| it_none y last seen last' : iterating crc start sel y last seen -> concurrent_next sel (sfs y) last = Ok (None, last') -> iterating crc start sel y last' seen.

(** ** How a call changes the listing *)
Definition keys (v : view) : list (N * N) := map fst (v_files v).
Definition aligned (v : view) : Prop := forall x, In x (v_files v) -> f_id x <= v_top v.
Lemma max_base F t0 : t0 <= fold_right N.max t0 (map f_id F).
Proof. induction F as [|a F IH]; cbn [map fold_right]; lia. Qed.
Lemma max_all F t0 x : In x F -> f_id x <= fold_right N.max t0 (map f_id F).
Proof. induction F as [|a F IH]; cbn [map fold_right]; intros Hx; [destruct Hx|]. destruct Hx as [->|Hx]; [lia|]. specialize (IH Hx). lia. Qed.
Lemma max_aligned F t0 : (forall x, In x F -> f_id x <= t0) -> fold_right N.max t0 (map f_id F) = t0.
Proof.
  induction F as [|a F IH]; cbn [map fold_right]; intros H; [reflexivity|]. rewrite IH by (intros x Hx; apply H; right; exact Hx).
  specialize (H a (or_introl eq_refl)). lia.
Qed.
Lemma set_keys i d F : map fst (set_data i d F) = map fst F.
Proof. unfold set_data. rewrite map_map. apply map_ext. intros x. destruct (f_id x =? i); [|reflexivity]. destruct x as [[a b] q]. reflexivity. Qed.
Lemma keys_ids (F G : list file) : map fst F = map fst G -> map f_id F = map f_id G.
Proof.
  intros H. assert (K : forall X : list file, map f_id X = map fst (map fst X)) by (intros X; rewrite map_map; reflexivity). rewrite !K. f_equal. exact H.
Qed.
Lemma aligned_ids v v' : map fst (v_files v') = map fst (v_files v) -> v_top v <= v_top v' -> aligned v -> aligned v'.
Proof.
  intros E Ht A x Hx. apply keys_ids in E. assert (Hi : In (f_id x) (map f_id (v_files v))) by (rewrite <- E; apply in_map; exact Hx).
  apply in_map_iff in Hi. destruct Hi as (z & Ez & Hz). specialize (A z Hz). lia.
Qed.

(** what a call does to the keys and the largest id *)
Lemma does_keys v c r v' : does v c r v' -> r <> RPanic ->
  (map fst (v_files v') = map fst (v_files v) /\ v_top v <= v_top v') \/
  (exists t, map fst (v_files v') = map fst (v_files v) ++ [(next_id v, t)] /\ v_top v' = next_id v) \/
  (exists P, v_files v' = filter P (v_files v) /\ v_top v' = fold_right N.max (v_top v) (map f_id (v_files v'))).
Proof.
  assert (Hsame : forall F w rd o g, map fst F = map fst (v_files v) -> (map fst (v_files (mkV F w rd o (v_top v) g)) = map fst (v_files v) /\ v_top v <= v_top (mkV F w rd o (v_top v) g))).
  { intros F w rd o g E. cbn [v_files v_top]. split; [exact E|lia]. }
  assert (Hrefl : map fst (v_files v) = map fst (v_files v) /\ v_top v <= v_top v) by (split; [reflexivity|lia]).
  intros D Hr. destruct c as [t|t|sel|i|i|k d|k|k|k]; cbn [does] in D.
  - destruct D as [[_ ->]|[-> _]]; [|congruence]. right. left. exists t. cbn [v_files v_top]. rewrite map_app. split; reflexivity.
  - destruct D as [[_ ->]| ->]; [|congruence]. right. left. exists t. cbn [v_files v_top]. rewrite map_app. split; reflexivity.
  - destruct D as [[_ ->]|[-> _]]; [|congruence]. right. right. exists (stays v sel). split; reflexivity.
  - left. destruct (lookup v i); [|destruct D as [_ ->]; exact Hrefl]. destruct (marked v i); [destruct D as [_ ->]; exact Hrefl|].
    destruct (32 <=? length (v_open v))%nat; [destruct D as [_ ->]; exact Hrefl|].
    destruct D as [[_ ->]|[[-> _]|(_ & top & gen & -> & [[-> ->]|[-> ->]])]]; [apply Hsame; reflexivity|congruence|apply Hsame; reflexivity|].
    cbn [v_files v_top]. split; [reflexivity|apply max_base].
  - left. destruct (lookup v i); [|destruct D as [_ ->]; exact Hrefl]. destruct (marked v i); [destruct D as [_ ->]; exact Hrefl|].
    destruct (32 <=? length (v_open v))%nat; [destruct D as [_ ->]; exact Hrefl|]. destruct D as [_ ->]. apply Hsame. reflexivity.
  - left. destruct (nth_error (v_wr v) k) as [[i pend]|]; [|destruct D]. destruct D as (x & data & pend' & n & _ & _ & _ & _ & -> & _). apply Hsame. apply set_keys.
  - left. destruct (nth_error (v_wr v) k) as [[i pend]|]; [|destruct D]. destruct D as (x & _ & [[_ ->]|[_ ->]]); [apply Hsame; apply set_keys|exact Hrefl].
  - left. destruct (nth_error (v_wr v) k) as [[i pend]|]; [|destruct D]. destruct D as (x & _ & _ & ->). apply Hsame. apply set_keys.
  - left. destruct (nth_error (v_rd v) k) as [i|]; [|destruct D]. destruct D as [_ ->]. apply Hsame. reflexivity.
Qed.

Lemma does_aligned v c r v' : does v c r v' -> r <> RPanic -> aligned v -> aligned v'.
Proof.
  intros D Hr A. destruct (does_keys v c r v' D Hr) as [[E T]|[(t & E & T)|(P & E & T)]].
  - exact (aligned_ids v v' E T A).
  - intros x Hx. assert (Hk : In (fst x) (map fst (v_files v'))) by (apply in_map; exact Hx). rewrite E in Hk. apply in_app_or in Hk. rewrite T.
    destruct Hk as [Hk|[Hk|[]]].
    + apply in_map_iff in Hk. destruct Hk as (z & Ez & Hz). unfold f_id. rewrite <- Ez. change (f_id z <= next_id v). unfold next_id. pose proof (max_all (v_files v) (v_top v) z Hz). lia.
    + unfold f_id. rewrite <- Hk. cbn [fst]. lia.
  - intros x Hx. rewrite T. apply max_all. exact Hx.
Qed.
Lemma completes_aligned v c r v' : does v c r v' -> completes (ACall c r) = true -> aligned v'.
Proof.
  assert (Ha : forall t w rd o g, aligned (mkV (v_files v ++ [(next_id v, t, [])]) w rd o (next_id v) g)).
  { intros t w rd o g x Hx. cbn [v_files v_top] in *. apply in_app_or in Hx. destruct Hx as [Hx|[<-|[]]]; [|unfold f_id; cbn [fst]; lia].
    unfold next_id. pose proof (max_all (v_files v) (v_top v) x Hx). lia. }
  intros D C. destruct c as [t|t|sel|i|i|k d|k|k|k]; try discriminate; cbn [does] in D.
  - destruct D as [[_ ->]|[-> _]]; [apply Ha|discriminate].
  - destruct D as [[_ ->]| ->]; [apply Ha|discriminate].
  - destruct D as [[_ ->]|[-> _]]; [|discriminate]. intros x Hx. cbn [v_files v_top] in *. apply max_all. exact Hx.
Qed.

Definition fine (ok : bool) (a : astate) : Prop :=
  ok = true -> match a with AOn v => aligned v | AOff F (Some t) _ => forall x, In x F -> f_id x <= t | AOff F None _ => F = [] end.
Lemma settled_snoc es : forall ok e, settled ok (es ++ [e]) = if interrupts_directory e then false else settled ok es || completes e.
Proof. induction es as [|x es IH]; intros ok e; cbn [app settled]; [reflexivity|apply IH]. Qed.
Lemma loses_ids v c F : loses v c F -> rewrites c = false -> map f_id F = map f_id (v_files v).
Proof.
  intros L R. destruct c as [t|t|sel|i|i|k d|k|k|k]; try discriminate; cbn [loses] in L; try (subst; reflexivity).
  - destruct (nth_error (v_wr v) k) as [[i pend]|]; [|destruct L]. destruct L as (x & data & _ & _ & _ & ->). apply keys_ids, set_keys.
  - destruct (nth_error (v_wr v) k) as [[i pend]|]; [|destruct L]. destruct L as (x & data & _ & _ & _ & ->). apply keys_ids, set_keys.
  - destruct (nth_error (v_wr v) k) as [[i pend]|]; [|destruct L]. destruct L as (x & data & _ & _ & _ & ->). apply keys_ids, set_keys.
Qed.
Lemma aruns_fine es a : aruns es a -> fine (settled true es) a.
Proof.
  induction 1 as [|es a e a' Hr IH St]; [intros _; reflexivity|]. rewrite settled_snoc. unfold fine in *.
  inversion St as [F top gen t Ht|F top gen|v c r v' Hal D Hn|v c F Hal Ls|v c F Hal Ls Hrw|v]; subst; cbn [interrupts_directory completes] in *.
  - rewrite orb_false_r. intros H. specialize (IH H). intros x Hx. cbn [v_files v_top] in *. destruct top as [t0|]; [rewrite (Ht t0 eq_refl); apply IH; exact Hx|subst F; destruct Hx].
  - rewrite orb_false_r. exact IH.
  - intros H. apply orb_prop in H. destruct H as [H|H]; [|exact (completes_aligned v c r v' D H)]. exact (does_aligned v c r v' D Hn (IH H)).
  - destruct (rewrites c) eqn:Ew; [discriminate|]. rewrite orb_false_r. intros H. specialize (IH H). intros x Hx.
    assert (Hi : In (f_id x) (map f_id (v_files v))) by (rewrite <- (loses_ids v c F Ls Ew); apply in_map; exact Hx).
    apply in_map_iff in Hi. destruct Hi as (z & Ez & Hz). rewrite <- Ez. apply IH. exact Hz.
  - rewrite Hrw. discriminate.
  - rewrite orb_false_r. intros H. exact (IH H).
Qed.

(** ** The iteration *)
Definition kle (m : N) (v : view) : list (N * N) := filter (fun k => fst k <=? m) (keys v).
(** [m]: everything up to [m] has been dealt with *)
Record Tracked (sel : N -> N -> bool) (v : view) (last : option (N * N)) (seen : list (N * N)) (m : N) : Prop := {
  tk_al : aligned v;
  tk_m : m <= v_top v;
  tk_last : match last with Some (lid, li) => lid = m /\ N.of_nat (length (kle m v)) <= li + 1 | None => forall k, In k (keys v) -> m < fst k end;
  tk_seen : forall k, In k seen -> fst k <= m;
  tk_sorted : StronglySorted N.lt (map fst seen);
  tk_all : forall k, In k (keys v) -> fst k <= m -> sel (fst k) (snd k) = true -> In k seen }.

Lemma filter_sub {A} (P Q : A -> bool) l : (length (filter P (filter Q l)) <= length (filter P l))%nat.
Proof. induction l as [|a l IH]; cbn [filter]; [lia|]. destruct (Q a); cbn [filter]; destruct (P a); cbn [length]; lia. Qed.

Lemma tracked_call sel v c r v' last seen m : does v c r v' -> r <> RPanic -> Tracked sel v last seen m -> Tracked sel v' last seen m.
Proof.
  intros D Hr [A M L S So Al]. pose proof (does_aligned v c r v' D Hr A) as A'.
  destruct (does_keys v c r v' D Hr) as [[E T]|[(t & E & T)|(P & E & T)]].
  - assert (Ek : keys v' = keys v) by exact E. constructor; [exact A'|lia| |exact S|exact So|rewrite Ek; exact Al].
    unfold kle. rewrite Ek. exact L.
  - assert (Ek : keys v' = keys v ++ [(next_id v, t)]) by exact E.
    assert (Hn : m < next_id v) by (unfold next_id; pose proof (max_base (v_files v) (v_top v)); lia).
    constructor; [exact A'|lia| |exact S|exact So|].
    + unfold kle. rewrite Ek. destruct last as [[lid li]|].
      * rewrite filter_app. cbn [filter fst]. apply N.leb_gt in Hn. rewrite Hn, app_nil_r. exact L.
      * intros k Hk. apply in_app_or in Hk. destruct Hk as [Hk|[<-|[]]]; [exact (L k Hk)|exact Hn].
    + rewrite Ek. intros k Hk Hm Hs. apply in_app_or in Hk. destruct Hk as [Hk|[<-|[]]]; [exact (Al k Hk Hm Hs)|]. cbn [fst] in Hm. lia.
  - assert (Ht : v_top v <= v_top v') by (rewrite T; apply max_base).
    assert (Hin : forall k, In k (keys v') -> In k (keys v)).
    { intros k Hk. unfold keys in *. rewrite E in Hk. apply in_map_iff in Hk. destruct Hk as (x & <- & Hx). apply filter_In in Hx. apply in_map. tauto. }
    constructor; [exact A'|lia| |exact S|exact So|].
    + destruct last as [[lid li]|]; [|intros k Hk; exact (L k (Hin k Hk))]. destruct L as [-> L]. split; [reflexivity|].
      assert (Hlen : (length (kle m v') <= length (kle m v))%nat).
      { unfold kle, keys. rewrite E. clear. induction (v_files v) as [|x l IH]; cbn [filter map]; [lia|]. destruct (P x); cbn [map filter]; destruct (fst (fst x) <=? m); cbn [length]; lia. }
      lia.
    + intros k Hk. exact (Al k (Hin k Hk)).
Qed.

Lemma tracked_next crc sel y v last seen m : crc32 crc -> Repr crc y v -> Tracked sel v last seen m ->
  exists r last' m', concurrent_next sel (sfs y) last = Ok (r, last') /\
    match r with
    | Some e => In (e_id e, e_typ e) (keys v) /\ sel (e_id e) (e_typ e) = true /\ (forall k, In k seen -> fst k < e_id e) /\ Tracked sel v last' (seen ++ [(e_id e, e_typ e)]) m'
    | None => (forall k, In k (keys v) -> sel (fst k) (snd k) = true -> In k seen) /\ Tracked sel v last' seen m'
    end.
Proof.
  intros Hc R [A M L S So Al]. pose proof R as [(p & ents & C & H & W & ST & EF & EW & EV) _ _ _]. pose proof (st_disk _ _ _ _ _ _ _ _ _ ST) as Dk.
  pose proof (state_dir _ _ _ _ _ _ _ _ _ ST) as [Rp Ea]. pose proof (disk_len _ _ _ _ _ _ _ Dk) as Hlen.
  assert (Ek : keys v = map (fun e => (e_id e, e_typ e)) ents).
  { unfold keys. rewrite EF. clear -Hlen. unfold user_view. revert C Hlen. induction ents as [|e l IH]; intros [|c C] Hl; cbn in *; try lia; [reflexivity|]. f_equal. apply IH. lia. }
  assert (Hread : forall i e, nth_error ents i = Some e -> entry_at (sfs y) (N.of_nat i) = Ok e).
  { intros i e En. unfold entry_at. rewrite Ea. rewrite entry_addr. rewrite (ta_ents _ _ _ _ _ (rp_tab _ _ _ _ _ Rp) _ _ En). reflexivity. }
  assert (Hcount : a_count (atb (sfs y)) = N.of_nat (length ents)) by (rewrite Ea; reflexivity).
  assert (Hlk : forall q, length (filter (fun e => e_id e <=? q) ents) = length (kle q v)).
  { intros q. unfold kle. rewrite Ek. clear. induction ents as [|e l IH]; [reflexivity|]. cbn [map filter fst]. destruct (e_id e <=? q); cbn [length]; rewrite IH; reflexivity. }
  assert (Hik : forall e, In e ents -> In (e_id e, e_typ e) (keys v)) by (intros e He; rewrite Ek; apply in_map_iff; exists e; auto).
  assert (Hki : forall k, In k (keys v) -> exists e, In e ents /\ k = (e_id e, e_typ e)).
  { intros k Hk. rewrite Ek in Hk. apply in_map_iff in Hk. destruct Hk as (e & <- & He). exists e. auto. }
  assert (Tr : tracks ents m last).
  { unfold tracks. destruct last as [[lid li]|]; [rewrite Hlk; exact L|]. intros e He. exact (L _ (Hik e He)). }
  destruct (concurrent_next_spec (sfs y) ents Hread Hcount (dk_sorted _ _ _ _ _ _ _ Dk) sel m last Tr) as (r & last' & m' & E & Hm & Tr' & Hm' & Hsk & Hres).
  exists r, last', m'. split; [exact E|].
  assert (L' : match last' with Some (lid, li) => lid = m' /\ N.of_nat (length (kle m' v)) <= li + 1 | None => forall k, In k (keys v) -> m' < fst k end).
  { unfold tracks in Tr'. destruct last' as [[lid li]|]; [rewrite Hlk in Tr'; exact Tr'|]. intros k Hk. destruct (Hki k Hk) as (e & He & ->). exact (Tr' e He). }
  assert (M' : m' <= v_top v).
  { destruct Hm' as [->|(e & He & <-)]; [exact M|]. pose proof (Hik e He) as Hk. unfold keys in Hk. apply in_map_iff in Hk. destruct Hk as (x & Ex & Hx).
    specialize (A x Hx). unfold f_id in A. rewrite Ex in A. exact A. }
  destruct r as [e|].
  - destruct Hres as (He & Ei & Hlt & Hs). split; [exact (Hik e He)|]. split; [exact Hs|]. split; [intros k Hk; specialize (S k Hk); lia|].
    constructor; [exact A|exact M'|exact L'| | |].
    + intros k Hk. apply in_app_or in Hk. destruct Hk as [Hk|[<-|[]]]; [specialize (S k Hk); lia|cbn; lia].
    + rewrite map_app. cbn [map fst]. assert (Hb : Forall (fun q => q < e_id e) (map fst seen)).
      { apply Forall_forall. intros q Hq. apply in_map_iff in Hq. destruct Hq as (k & <- & Hk). specialize (S k Hk). lia. }
      clear -So Hb. induction (map fst seen) as [|q l IH]; [repeat constructor|]. inversion So; subst. inversion Hb; subst. cbn [app]. constructor; [apply IH; assumption|].
      apply Forall_app. split; [assumption|]. constructor; [assumption|constructor].
    + intros k Hk Hk' Hsel. destruct (N.le_gt_cases (fst k) m) as [C1|C1]; [apply in_or_app; left; exact (Al k Hk C1 Hsel)|].
      destruct (Hki k Hk) as (e' & He' & ->). cbn [fst snd] in *. specialize (Hsk e' He' (conj C1 Hk') Hsel). injection Hsk as <-. apply in_or_app. right. left. reflexivity.
  - assert (Al' : forall k, In k (keys v) -> fst k <= m' -> sel (fst k) (snd k) = true -> In k seen).
    { intros k Hk Hk' Hsel. destruct (N.le_gt_cases (fst k) m) as [C1|C1]; [exact (Al k Hk C1 Hsel)|].
      destruct (Hki k Hk) as (e' & He' & ->). cbn [fst snd] in *. specialize (Hsk e' He' (conj C1 Hk') Hsel). discriminate. }
    split.
    + intros k Hk Hsel. apply Al'; [exact Hk| |exact Hsel]. destruct (Hki k Hk) as (e' & He' & ->). cbn [fst]. exact (Hres e' He').
    + constructor; [exact A|exact M'|exact L'| |exact So|exact Al']. intros k Hk. specialize (S k Hk). lia.
Qed.

(** ids start at 1 *)
Definition a_listing (a : astate) : list file := match a with AOn v => v_files v | AOff F _ _ => F end.
Lemma aruns_positive es a : aruns es a -> forall x, In x (a_listing a) -> 0 < f_id x.
Proof.
  assert (Hn : forall v, 0 < next_id v) by (intros v; unfold next_id; lia).
  assert (Kk : forall F G : list file, map f_id F = map f_id G -> (forall x, In x G -> 0 < f_id x) -> forall x, In x F -> 0 < f_id x).
  { intros F G E P x Hx. assert (Hi : In (f_id x) (map f_id G)) by (rewrite <- E; apply in_map; exact Hx). apply in_map_iff in Hi. destruct Hi as (z & <- & Hz). exact (P z Hz). }
  induction 1 as [|es a e a' Hr IH St]; [intros x []|].
  assert (Hl : forall v c F, loses v c F -> (forall x, In x (v_files v) -> 0 < f_id x) -> forall x, In x F -> 0 < f_id x).
  { intros v c F L P. destruct (rewrites c) eqn:Ew; [|exact (Kk F (v_files v) (loses_ids v c F L Ew) P)].
    destruct c as [t|t|sel|i|i|k d|k|k|k]; try discriminate; cbn [loses] in L.
    - destruct L as [->| ->]; [exact P|]. intros x Hx. apply in_app_or in Hx. destruct Hx as [Hx|[<-|[]]]; [exact (P x Hx)|apply Hn].
    - destruct L as [->| ->]; [exact P|]. intros x Hx. apply in_app_or in Hx. destruct Hx as [Hx|[<-|[]]]; [exact (P x Hx)|apply Hn].
    - destruct L as [->| ->]; [exact P|]. intros x Hx. apply filter_In in Hx. apply P. tauto.
    - destruct (lookup v i) as [x0|]; [|subst F; exact P]. destruct L as (kept & cut & _ & _ & ->). apply (Kk _ (v_files v)); [apply keys_ids, set_keys|exact P]. }
  inversion St as [F top gen t Ht|F top gen|v c r v' Hal D Hnp|v c F Hal Ls|v c F Hal Ls Hrw|v]; subst; cbn [a_listing v_files] in *; try exact IH.
  - destruct (does_keys v c r v' D Hnp) as [[E T]|[(t & E & T)|(P & E & T)]].
    + apply (Kk _ (v_files v)); [apply keys_ids; exact E|exact IH].
    + intros x Hx. assert (Hk : In (fst x) (map fst (v_files v'))) by (apply in_map; exact Hx). rewrite E in Hk. apply in_app_or in Hk. destruct Hk as [Hk|[Hk|[]]].
      * apply in_map_iff in Hk. destruct Hk as (z & Ez & Hz). unfold f_id. rewrite <- Ez. exact (IH z Hz).
      * unfold f_id. rewrite <- Hk. apply Hn.
    + rewrite E. intros x Hx. apply filter_In in Hx. apply IH. tauto.
  - exact (Hl v c F Ls IH).
  - exact (Hl v c F Ls IH).
Qed.

Lemma iterating_tracked crc sel y last seen : crc32 crc -> iterating crc (settled true) sel y last seen -> exists v m, Repr crc y v /\ Tracked sel v last seen m.
Proof.
  intros Hc. induction 1 as [es y Hh Hs|y last seen c y' r _ (v & m & R & T) Hl E Hr|y last seen e last' _ (v & m & R & T) E|y last seen last' _ (v & m & R & T) E].
  - destruct (running crc es y Hc Hh) as (v & Ar & R). pose proof (aruns_fine es (AOn v) Ar Hs) as A. cbn in A.
    assert (Hp : forall k, In k (keys v) -> 0 < fst k).
    { intros k Hk. unfold keys in Hk. apply in_map_iff in Hk. destruct Hk as (x & <- & Hx). exact (aruns_positive es (AOn v) Ar x Hx). }
    exists v, 0. split; [exact R|]. constructor; [exact A|lia| |intros k []|constructor|].
    + exact Hp.
    + intros k Hk Hk' Hsel. specialize (Hp k Hk). lia.
  - pose proof (refines crc Hc y v c R (legal_allowed crc y v c R Hl)) as Rf. unfold Refined in Rf. rewrite E in Rf. destruct Rf as [(v' & D & RR) _].
    exists v', m. split; [exact (RR Hr)|]. exact (tracked_call sel v c r v' last seen m D Hr T).
  - destruct (tracked_next crc sel y v last seen m Hc R T) as (r & l2 & m' & E2 & K). rewrite E in E2. injection E2 as <- <-. destruct K as (_ & _ & _ & K). exists v, m'. auto.
  - destruct (tracked_next crc sel y v last seen m Hc R T) as (r & l2 & m' & E2 & K). rewrite E in E2. injection E2 as <- <-. destruct K as (_ & K). exists v, m'. auto.
Qed.

(** ** C11 *)
(** At any moment of an iteration: the ids returned so far are strictly increasing; the next call of next() does not fail; if it
    returns a file, that file is listed now, is selected, and has a larger id than all files returned before; if it returns
    None, every selected file that is listed now has been returned. *)
Theorem C11_concurrent_iteration_partial : forall crc, crc32 crc -> forall sel y last seen, iterating crc (settled true) sel y last seen ->
  StronglySorted N.lt (map fst seen) /\
  exists listing r last', files_iter (sfs y) (fun e => sel (e_id e) (e_typ e)) = Ok listing /\ concurrent_next sel (sfs y) last = Ok (r, last') /\
    match r with
    | Some e => (exists e', In e' listing /\ e_id e' = e_id e /\ e_typ e' = e_typ e) /\ (forall k, In k seen -> fst k < e_id e)
    | None => forall e, In e listing -> In (e_id e, e_typ e) seen
    end.
Proof.
  intros crc Hc sel y last seen Hi. destruct (iterating_tracked crc sel y last seen Hc Hi) as (v & m & R & T). split; [exact (tk_sorted _ _ _ _ _ T)|].
  destruct (tracked_next crc sel y v last seen m Hc R T) as (r & last' & m' & E & K).
  pose proof R as [(p & ents & C & H & W & ST & EF & EW & EV) _ _ _]. pose proof (st_disk _ _ _ _ _ _ _ _ _ ST) as Dk. pose proof (disk_len _ _ _ _ _ _ _ Dk) as Hlen.
  assert (Ek : keys v = map (fun e => (e_id e, e_typ e)) ents).
  { unfold keys. rewrite EF. clear -Hlen. unfold user_view. revert C Hlen. induction ents as [|e l IH]; intros [|c C] Hl; cbn in *; try lia; [reflexivity|]. f_equal. apply IH. lia. }
  exists (filter (fun e => sel (e_id e) (e_typ e)) ents), r, last'.
  split; [exact (files_iter_spec (sfs y) p (v_gen v) ents (v_top v) _ (state_dir _ _ _ _ _ _ _ _ _ ST))|]. split; [exact E|]. destruct r as [e|].
  - destruct K as (K1 & K2 & K3 & _). split; [|exact K3]. rewrite Ek in K1. apply in_map_iff in K1. destruct K1 as (e' & Ee & He). injection Ee as Ei Et.
    exists e'. split; [apply filter_In; rewrite Ei, Et; auto|auto].
  - destruct K as (K1 & _). intros e He. apply filter_In in He. destruct He as [He Hs]. apply (K1 (e_id e, e_typ e)); [|exact Hs]. rewrite Ek. apply in_map_iff. exists e. auto.
Qed.
Print Assumptions C11_concurrent_iteration_partial.


(** ** C11 in full is false: after a power loss that damaged the record of the largest id (see C08), a file created during an iteration can
    get an id the iterator has already passed; next() then returns None although the listed file has not been returned. *)
Definition missed_script : list act :=
  [XBoot] ++ times 127 [XCall (Create 1); XCall everything] ++ [XCall (Create 1); XLoss (Remove (fun _ _ => false)) 1 38; XBoot].
Definition any (_ _ : N) : bool := true.
Theorem C11_refuted : forall crc, exists y last seen last' e, iterating crc (fun _ => true) any y last seen /\
  concurrent_next any (sfs y) last = Ok (None, last') /\ files_iter (sfs y) (fun _ => true) = Ok [e] /\ ~ In (e_id e, e_typ e) seen.
Proof.
  intros crc.
  set (chk := fun o : option (list aevent * machine) => match o with
    | Some (_, On y) =>
      match concurrent_next any (sfs y) None with
      | Ok (Some e, l) =>
        let y1 := fst (perform crc everything y) in let y2 := fst (perform crc (Create 2) y1) in
        match concurrent_next any (sfs y2) l, files_iter (sfs y2) (fun _ => true) with
        | Ok (None, _), Ok [e2] =>
           Some (legalb y everything, is_panic (snd (perform crc everything y)), legalb y1 (Create 2), is_panic (snd (perform crc (Create 2) y1)), (e_id e, e_typ e), (e_id e2, e_typ e2))
        | _, _ => None
        end
      | _ => None
      end
    | _ => None
    end).
  assert (E : chk (play crc missed_script (Off blank)) = Some (true, false, true, false, (128, 1), (128, 2))) by (vm_compute; reflexivity).
  unfold chk in E. clear chk. destruct (play crc missed_script (Off blank)) as [[es m]|] eqn:Ep; [|exfalso; exact (none_some _ E)].
  destruct m as [f|y]; [exfalso; exact (none_some _ E)|].
  pose proof (play_history crc missed_script (Off blank) [] es (On y) (hi_new crc blank FsBoot.blank_unused) Ep) as Hh. clear Ep.
  destruct (concurrent_next any (sfs y) None) as [[[e|] l]| |] eqn:En; try (exfalso; exact (none_some _ E)). cbv zeta in E.
  destruct (perform crc everything y) as [y1 r1] eqn:E1. cbn [fst snd] in E. destruct (perform crc (Create 2) y1) as [y2 r2] eqn:E2. cbn [fst snd] in E.
  destruct (concurrent_next any (sfs y2) l) as [[[e3|] l3]| |] eqn:En2; try (exfalso; exact (none_some _ E)).
  destruct (files_iter (sfs y2) (fun _ => true)) as [[|e2 [|e3 l4]]| |] eqn:Ef; try (exfalso; exact (none_some _ E)).
  apply some_pair in E. destruct E as [E K6]. apply pair_equal_spec in E. destruct E as [E K5]. apply pair_equal_spec in E. destruct E as [E K4].
  apply pair_equal_spec in E. destruct E as [E K3]. apply pair_equal_spec in E. destruct E as [K1 K2].
  exists y2, l, [(e_id e, e_typ e)], l3, e2. split; [|split; [exact En2|split; [exact Ef|]]].
  - apply (it_call crc _ any y1 l [(e_id e, e_typ e)] (Create 2) y2 r2); [|apply legalb_sound; exact K3|exact E2|intros ->; discriminate K4].
    apply (it_call crc _ any y l [(e_id e, e_typ e)] everything y1 r1); [|apply legalb_sound; exact K1|exact E1|intros ->; discriminate K2].
    apply (it_some crc _ any y None [] e l); [|exact En]. apply (it_start crc _ any ([] ++ es) y Hh). reflexivity.
  - rewrite K5, K6. intros [K|[]]. discriminate K.
Qed.
Print Assumptions C11_refuted.

(** a case that meets the hypotheses of C11: two files, the first is returned, it is removed and another one is created *)
Example ex_C11 : exists y last, iterating sum (settled true) any y last [(1, 3)] /\ concurrent_next any (sfs y) last <> Ok (None, last).
Proof.
  set (chk := fun o : option (list aevent * machine) => match o with
    | Some (es, On y) =>
      match concurrent_next any (sfs y) None with
      | Ok (Some e, l) =>
        let y1 := fst (perform sum (Remove (fun _ t => t =? 3)) y) in
        match concurrent_next any (sfs y1) l with
        | Ok (Some e2, _) => Some (legalb y (Remove (fun _ t => t =? 3)), is_panic (snd (perform sum (Remove (fun _ t => t =? 3)) y)), settled true es, (e_id e, e_typ e), e_id e2)
        | _ => None
        end
      | _ => None
      end
    | _ => None
    end).
  assert (E : chk (play sum two_files (Off blank)) = Some (true, false, true, (1, 3), 2)) by (vm_compute; reflexivity).
  unfold chk in E. clear chk. destruct (play sum two_files (Off blank)) as [[es m]|] eqn:Ep; [|exfalso; exact (none_some _ E)].
  destruct m as [f|y]; [exfalso; exact (none_some _ E)|].
  pose proof (play_history sum two_files (Off blank) [] es (On y) (hi_new sum blank FsBoot.blank_unused) Ep) as Hh. clear Ep.
  destruct (concurrent_next any (sfs y) None) as [[[e|] l]| |] eqn:En; try (exfalso; exact (none_some _ E)). cbv zeta in E.
  destruct (perform sum (Remove (fun _ t => t =? 3)) y) as [y1 r1] eqn:E1. cbn [fst snd] in E.
  destruct (concurrent_next any (sfs y1) l) as [[[e3|] l3]| |] eqn:En2; try (exfalso; exact (none_some _ E)).
  apply some_pair in E. destruct E as [E K5]. apply pair_equal_spec in E. destruct E as [E K4]. apply pair_equal_spec in E. destruct E as [E K3]. apply pair_equal_spec in E. destruct E as [K1 K2].
  exists y1, l. split; [|rewrite En2; discriminate]. rewrite <- K4.
  apply (it_call sum _ any y l [(e_id e, e_typ e)] (Remove (fun _ t => t =? 3)) y1 r1); [|apply legalb_sound; exact K1|exact E1|intros ->; discriminate K2].
  apply (it_some sum _ any y None [] e l); [|exact En]. apply (it_start sum _ any ([] ++ es) y Hh). exact K3.
Qed.

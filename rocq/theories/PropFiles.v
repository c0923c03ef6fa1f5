(** * Property theorems C17-C22: file contents.
    [history], [legal], [perform], [power_lost], [snapshot]: FsApi.v; [read_many] (any sequence of read requests on one reader) and
    [expect] (what it must return for a given content): FileFormat.v. *)
From Coq Require Import Sorted Permutation.
From Verif Require Import Base Majority Flash FS Sectors SectorsProofs ATable TornCode TableCode TableScan TableBuild TableOps DirOps Chains FileIO FileFormat FileWrite WriteOps WriteSpec Disk Sessions DirState OpenOps Append OpenWrite FsSpec FsApi FsRefine FsBoot FsHistory PropDirectory.
Local Open Scope N_scope.
Local Open Scope fs_scope.

(** ** Vocabulary *)
(** what a client does with a writer between opening and closing it *)
Inductive wop := WData (d : list byte) | WSync.
Definition wcall (k : nat) (o : wop) : call := match o with WData d => Append k d | WSync => Flush k end.
Definition wdata (o : wop) : list byte := match o with WData d => d | WSync => [] end.
Definition all_data (ops : list wop) : list byte := concat (map wdata ops).

(** the operations of [ops] on the k-th writer, all of them successful *)
Fixpoint session (crc : list byte -> N) (k : nat) (ops : list wop) (y : sys) : option sys :=
  match ops with
  | [] => Some y
  | o :: t => match perform crc (wcall k o) y with
              | (y', RDone) => session crc k t y'
              | _ => None
              end
  end.

(** the content of file [id] in a listing *)
Definition content (F : list file) (id : N) : option (list byte) := option_map f_data (find (fun x => f_id x =? id) F).

(** file [id], holding [d], gets a writer (the last one of [y1]): an existing file opened, or a new one *)
Inductive opened (crc : list byte -> N) (y0 : sys) (id : N) (d : list byte) (y1 : sys) : Prop :=
| op_exists r F : legal y0 (OpenWrite id) -> perform crc (OpenWrite id) y0 = (y1, RDone) -> snapshot crc (fl (sfs y0)) r = Some F ->
    content F id = Some d -> opened crc y0 id d y1
| op_new t : legal y0 (CreateOpen t) -> perform crc (CreateOpen t) y0 = (y1, RId id) -> d = [] -> opened crc y0 id d y1.
Definition its_writer (y0 : sys) : nat := length (sws y0).

(** events continuing a history *)
Inductive runs (crc : list byte -> N) : machine -> list aevent -> machine -> Prop :=
| rn_nil m : runs crc m [] m
| rn_step m e m1 es m2 : legal_event m e -> step crc m e m1 -> runs crc m1 es m2 -> runs crc m (e :: es) m2.
Definition flash_of (m : machine) : flash := match m with Off f => f | On y => fl (sfs y) end.

(** ** Abstract lemmas *)
Lemma find_set F id d : forall i, find (fun x => f_id x =? i) (set_data id d F) =
  match find (fun x => f_id x =? i) F with Some x => Some (if f_id x =? id then (f_id x, f_typ x, d) else x) | None => None end.
Proof.
  unfold set_data. induction F as [|x F IH]; intros i; [reflexivity|]. cbn [map find].
  destruct (f_id x =? id) eqn:E.
  - change (f_id (f_id x, f_typ x, d)) with (f_id x). destruct (f_id x =? i); [rewrite E; reflexivity|apply IH].
  - destruct (f_id x =? i); [rewrite E; reflexivity|apply IH].
Qed.
Lemma set_set F id d d' : set_data id d' (set_data id d F) = set_data id d' F.
Proof. unfold set_data. rewrite map_map. apply map_ext. intros x. destruct (f_id x =? id) eqn:E.
  - change (f_id (f_id x, f_typ x, d)) with (f_id x). change (f_typ (f_id x, f_typ x, d)) with (f_typ x). rewrite E. reflexivity.
  - rewrite E. reflexivity.
Qed.
Lemma content_set F id d : content F id <> None -> content (set_data id d F) id = Some d.
Proof.
  unfold content. rewrite find_set. destruct (find (fun x => f_id x =? id) F) as [x|] eqn:E; [|intros H; exfalso; apply H; reflexivity].
  intros _. apply find_some in E. destruct E as [_ ->]. reflexivity.
Qed.
Lemma content_other F id d i : i <> id -> content (set_data id d F) i = content F i.
Proof.
  unfold content. intros H. rewrite find_set. destruct (find (fun x => f_id x =? i) F) as [x|] eqn:E; [|reflexivity].
  apply find_some in E. destruct E as [_ E]. apply N.eqb_eq in E. destruct (N.eqb_spec (f_id x) id) as [E2|_]; [congruence|reflexivity].
Qed.
Lemma content_look v id x : lookup v id = Some x -> content (v_files v) id = Some (f_data x).
Proof. unfold lookup, content. intros ->. reflexivity. Qed.
Lemma look_content v id d : content (v_files v) id = Some d -> exists x, lookup v id = Some x /\ f_data x = d.
Proof. unfold lookup, content. destruct (find (fun x => f_id x =? id) (v_files v)) as [x|]; intros H; [|discriminate]. injection H as <-. eauto. Qed.
Lemma begins_refl a : begins a a. Proof. exists []. rewrite app_nil_r. reflexivity. Qed.
Lemma begins_trans a b c : begins a b -> begins b c -> begins a c.
Proof. intros [t ->] [u ->]. exists (t ++ u). rewrite app_assoc. reflexivity. Qed.
Lemma begins_length a b : begins a b -> (length a <= length b)%nat.
Proof. intros [t ->]. rewrite app_length. lia. Qed.
Lemma upd_same {A} (l : list A) k a : (k < length l)%nat -> nth_error (upd l k a) k = Some a.
Proof. revert k. induction l as [|x l IH]; intros [|k] H; cbn in *; try lia; [reflexivity|]. apply IH. lia. Qed.

(** one successful writer operation *)
Record writing (v : view) (k : nat) (id : N) (kept pend : list byte) : Prop := {
  wg_nth : nth_error (v_wr v) k = Some (id, pend);
  wg_content : content (v_files v) id = Some kept;
  wg_pend : (length pend <= 4016)%nat }.

Lemma write_one crc y v k id kept pend o y' : crc32 crc -> Repr crc y v -> writing v k id kept pend -> bytes_ok (wdata o) ->
  perform crc (wcall k o) y = (y', RDone) ->
  exists v' kept' pend', Repr crc y' v' /\ writing v' k id kept' pend' /\ kept' ++ pend' = kept ++ pend ++ wdata o /\ begins kept kept' /\
    v_files v' = set_data id kept' (v_files v) /\ v_open v' = v_open v /\ length (v_wr v') = length (v_wr v).
Proof.
  intros Hc R [W1 W2 W3] Ho E. pose proof (proj2 (repr_wr crc y v R)) as Lw.
  assert (Hk : (k < length (v_wr v))%nat) by (apply nth_error_Some; congruence).
  assert (Al : allowed v (wcall k o)) by (destruct o; cbn [wcall allowed]; auto).
  pose proof (refines crc Hc y v (wcall k o) R Al) as Rf. unfold Refined in Rf. rewrite E in Rf. destruct Rf as [(v' & D & RR) _].
  specialize (RR ltac:(discriminate)). destruct (look_content v id kept W2) as (x & Ex & Ed).
  assert (Hn : content (v_files v) id <> None) by congruence.
  destruct o as [d|]; cbn [wcall does wdata] in *; rewrite W1 in D.
  - destruct D as (x' & data & pend' & n & Ex' & Hb & Heq & Hlen & Ev & [[_ Hn']|Hr]); [|discriminate]. rewrite Ex in Ex'. injection Ex' as <-.
    rewrite Ed, Hn', firstn_all in *. exists v', data, pend'. split; [exact RR|]. rewrite Ev. cbn [v_wr v_files v_open]. split; [constructor; cbn [v_wr v_files]|].
    + apply upd_same. exact Hk.
    + apply content_set. exact Hn.
    + exact Hlen.
    + rewrite upd_length. auto.
  - destruct D as (x' & Ex' & [[_ Ev]|[Hr _]]); [|discriminate]. rewrite Ex in Ex'. injection Ex' as <-. rewrite Ed in Ev.
    exists v', (kept ++ pend), []. split; [exact RR|]. rewrite Ev. cbn [v_wr v_files v_open]. split; [constructor; cbn [v_wr v_files length]|].
    + apply upd_same. exact Hk.
    + apply content_set. exact Hn.
    + lia.
    + rewrite upd_length, !app_nil_r. split; [reflexivity|]. split; [exists pend; reflexivity|]. auto.
Qed.

Lemma write_many crc (Hc : crc32 crc) k id ops : forall y v kept pend y', Repr crc y v -> writing v k id kept pend -> Forall (fun o => bytes_ok (wdata o)) ops ->
  session crc k ops y = Some y' ->
  exists v' kept' pend', Repr crc y' v' /\ writing v' k id kept' pend' /\ kept' ++ pend' = kept ++ pend ++ all_data ops /\ begins kept kept' /\
    v_files v' = set_data id kept' (v_files v) /\ v_open v' = v_open v /\ length (v_wr v') = length (v_wr v).
Proof.
  induction ops as [|o ops IH]; intros y v kept pend y' R W Hb E.
  - cbn [session] in E. injection E as <-. exists v, kept, pend. split; [exact R|]. split; [exact W|]. unfold all_data. cbn [map concat]. rewrite app_nil_r.
    split; [reflexivity|]. split; [apply begins_refl|]. split; [|auto]. destruct W as [_ W2 _]. unfold content in W2.
    pose proof (repr_sorted crc y v R) as S. destruct (find (fun x => f_id x =? id) (v_files v)) as [x|] eqn:Ex; [|discriminate]. injection W2 as <-.
    clear -S Ex. unfold set_data. rewrite <- (map_id (v_files v)) at 1. apply map_ext_in. intros z Hz. destruct (N.eqb_spec (f_id z) id) as [Ez|_]; [|reflexivity].
    apply find_some in Ex. destruct Ex as [Hx Ex]. apply N.eqb_eq in Ex.
    assert (z = x) as ->; [|destruct x as [[a b] c]; reflexivity].
    revert S Hz Hx Ez Ex. generalize (v_files v). induction l as [|a l IH]; intros S Hz Hx Ez Ex; [destruct Hz|]. cbn [map] in S. inversion S as [|? ? S' Sf]; subst.
    rewrite Forall_map, Forall_forall in Sf. destruct Hz as [->|Hz], Hx as [->|Hx]; auto.
    + specialize (Sf x Hx). cbv beta in Sf. lia.
    + specialize (Sf z Hz). cbv beta in Sf. lia.
  - cbn [session] in E. inversion Hb as [|? ? Hb1 Hb2]; subst. destruct (perform crc (wcall k o) y) as [y1 r] eqn:E1. destruct r; try discriminate.
    destruct (write_one crc y v k id kept pend o y1 Hc R W Hb1 E1) as (v1 & kept1 & pend1 & R1 & W1 & Eq1 & Bg1 & F1 & O1 & L1).
    destruct (IH y1 v1 kept1 pend1 y' R1 W1 Hb2 E) as (v2 & kept2 & pend2 & R2 & W2 & Eq2 & Bg2 & F2 & O2 & L2).
    exists v2, kept2, pend2. split; [exact R2|]. split; [exact W2|]. unfold all_data. cbn [map concat]. fold (all_data ops).
    split; [rewrite Eq2, app_assoc, Eq1, <- !app_assoc; reflexivity|]. split; [eapply begins_trans; eauto|].
    split; [rewrite F2, F1, set_set; reflexivity|]. split; congruence.
Qed.

Lemma open_one crc es y0 id d y1 : crc32 crc -> history crc es (On y0) -> opened crc y0 id d y1 ->
  exists v0 v1, Repr crc y0 v0 /\ Repr crc y1 v1 /\ writing v1 (its_writer y0) id d [] /\ (v_files v1 = v_files v0 \/ exists t, v_files v1 = v_files v0 ++ [(id, t, [])]) /\
    length (v_wr v1) = S (its_writer y0).
Proof.
  intros Hc Hh Ho. destruct (running crc es y0 Hc Hh) as (v & _ & R). pose proof (proj2 (repr_wr crc y0 v R)) as Lw. unfold its_writer.
  destruct Ho as [r F Hl E Sn Ct|t Hl E Hd].
  - rewrite (repr_snapshot crc y0 v r R) in Sn. injection Sn as <-.
    pose proof (refines crc Hc y0 v _ R (legal_allowed crc y0 v _ R Hl)) as Rf. unfold Refined in Rf. rewrite E in Rf. destruct Rf as [(v1 & D & RR) _].
    specialize (RR ltac:(discriminate)). cbn [does] in D. destruct (look_content v id d Ct) as (x & Ex & Ed). rewrite Ex in D.
    destruct (marked v id); [destruct D; discriminate|]. destruct (Nat.leb 32 (length (v_open v))); [destruct D; discriminate|].
    destruct D as [[D _]|[[D _]|(_ & top & gen & Ev & _)]]; try discriminate.
    exists v, v1. split; [exact R|]. split; [exact RR|]. rewrite Ev. split; [|split; [left; reflexivity|cbn [v_wr]; rewrite app_length, Lw; cbn [length]; lia]].
    constructor; cbn [v_wr v_files length]; [|exact Ct|lia]. rewrite nth_error_app2, Lw, Nat.sub_diag by lia. reflexivity.
  - pose proof (refines crc Hc y0 v _ R (legal_allowed crc y0 v _ R Hl)) as Rf. unfold Refined in Rf. rewrite E in Rf. destruct Rf as [(v1 & D & RR) _].
    specialize (RR ltac:(discriminate)). cbn [does] in D. destruct D as [[Ei Ev]|D]; [|discriminate]. injection Ei as Ei.
    exists v, v1. split; [exact R|]. split; [exact RR|]. rewrite Ev. split; [|split; [right; exists t; cbn [v_files]; rewrite Ei; reflexivity|cbn [v_wr]; rewrite app_length, Lw; cbn [length]; lia]].
    constructor; cbn [v_wr v_files length]; [| |lia].
    + rewrite nth_error_app2, Lw, Nat.sub_diag by lia. rewrite Ei. reflexivity.
    + assert (Hfree : forall l t0, ~ In (1 + fold_right N.max t0 (map f_id l)) (map f_id l)).
      { intros l t0 Hi. assert (Hm : forall q b, In b q -> b <= fold_right N.max t0 q).
        { induction q as [|a q IH]; intros b Hb; [destruct Hb|]. cbn [fold_right]. destruct Hb as [->|Hb]; [lia|]. specialize (IH b Hb). lia. }
        pose proof (Hm _ _ Hi). lia. }
      unfold content. rewrite Hd. assert (Hn : find (fun x => f_id x =? id) (v_files v) = None).
      { destruct (find (fun x => f_id x =? id) (v_files v)) as [x|] eqn:Ex; [|reflexivity]. exfalso. apply find_some in Ex. destruct Ex as [Hx Ex]. apply N.eqb_eq in Ex.
        apply (Hfree (v_files v) (v_top v)). fold (next_id v). rewrite <- Ei, <- Ex. apply in_map. exact Hx. }
      rewrite <- Ei. clear -Hn. induction (v_files v) as [|a l IH]; cbn [app find] in *.
      * unfold f_id at 1. cbn [fst]. rewrite N.eqb_refl. reflexivity.
      * destruct (f_id a =? id); [discriminate|]. apply IH. exact Hn.
Qed.

(** reading a file of a running system *)
Lemma can_read crc y v id d : Repr crc y v -> content (v_files v) id = Some d -> marked v id = false -> (length (v_open v) < 32)%nat ->
  exists s' rd, open_file_for_read id (sfs y) = (s', Ok rd) /\ forall lens, read_many crc (fl s') rd lens = Ok (expect d lens).
Proof.
  intros R Hct Hm Hl. rewrite (marked_now crc y v id R) in Hm. destruct R as [(p & ents & C & H & W & ST & EF & EW & EV) _ Hop _].
  pose proof (st_disk _ _ _ _ _ _ _ _ _ ST) as D. rewrite EF in Hct. pose proof (disk_len _ _ _ _ _ _ _ D) as L.
  destruct (open_read_op crc (sfs y) p (v_gen v) ents (v_top v) C H W id ST) as [(_ & Hno)|(e & Hin & Eid & Q)].
  { exfalso. unfold content in Hct. rewrite (find_view_none ents id C Hno) in Hct. discriminate. }
  destruct Q as [(_ & Hin')|(_ & Q)].
  { exfalso. unfold is_opened in Hm. assert (X : existsb (fun x => x =? id) (a_open (atb (sfs y))) = true) by (apply existsb_exists; exists id; split; [exact Hin'|apply N.eqb_refl]). congruence. }
  destruct Q as [(_ & Hlen)|(s' & E' & ST' & Ho' & Ef & El & _)]; [rewrite (Permutation_length Hop) in Hlen; lia|].
  exists s', (new_reader (e_first e)). split; [exact E'|]. intros lens. rewrite Ef.
  apply In_nth_error in Hin. destruct Hin as (i & Hi). assert (Hc2 : exists c, nth_error C i = Some c).
  { destruct (nth_error C i) as [c|] eqn:Ec; [eauto|]. apply nth_error_None in Ec. assert (i < length ents)%nat by (apply nth_error_Some; congruence). lia. }
  destruct Hc2 as (c & Hc2). destruct (file_at crc (sfs y) p (v_gen v) ents (v_top v) C H W i e c ST Hi Hc2) as (Hn & ds & Hf & Ed).
  rewrite (read_many_spec crc (fl (sfs y)) (e_first e) (fst c) ds lens Hf Hn). rewrite Ed.
  unfold content in Hct. rewrite <- Eid, (find_view ents C i e c (sorted_nodup _ (dk_sorted _ _ _ _ _ _ _ D)) Hi Hc2) in Hct. cbn [option_map f_data snd] in Hct.
  injection Hct as ->. reflexivity.
Qed.

(** ** C17, C18 *)
Theorem C18_appending_keeps : forall crc, crc32 crc -> forall es y0 id old y1 ops y2 y3, history crc es (On y0) ->
  opened crc y0 id old y1 -> Forall (fun o => bytes_ok (wdata o)) ops -> session crc (its_writer y0) ops y1 = Some y2 ->
  perform crc (CloseWriter (its_writer y0)) y2 = (y3, RDone) ->
  (* after a restart *)
  (forall r, exists F F', snapshot crc (fl (sfs y0)) r = Some F /\ snapshot crc (fl (sfs y3)) r = Some F' /\ content F' id = Some (old ++ all_data ops) /\
     forall i, i <> id -> content F' i = content F i) /\
  (* without a restart, with any sequence of read requests *)
  ((length (a_open (atb (sfs y3))) < 32)%nat -> exists s rd, open_file_for_read id (sfs y3) = (s, Ok rd) /\
     forall lens, read_many crc (fl s) rd lens = Ok (expect (old ++ all_data ops) lens)).
Proof.
  intros crc Hc es y0 id old y1 ops y2 y3 Hh Ho Hb Hs Hcl.
  destruct (open_one crc es y0 id old y1 Hc Hh Ho) as (v0 & v1 & R0 & R1 & W1 & F1 & L1).
  destruct (write_many crc Hc (its_writer y0) id ops y1 v1 old [] y2 R1 W1 Hb Hs) as (v2 & kept & pend & R2 & W2 & Eq & Bg & F2 & O2 & L2).
  assert (Al : allowed v2 (CloseWriter (its_writer y0))) by (cbn [allowed]; lia).
  pose proof (refines crc Hc y2 v2 _ R2 Al) as Rf. unfold Refined in Rf. rewrite Hcl in Rf. destruct Rf as [(v3 & D & RR) _]. specialize (RR ltac:(discriminate)).
  cbn [does] in D. rewrite (wg_nth _ _ _ _ _ W2) in D. destruct D as (x & Ex & _ & Ev).
  pose proof (content_look v2 id x Ex) as Ec. rewrite (wg_content _ _ _ _ _ W2) in Ec. injection Ec as Ec. rewrite <- Ec, Eq in Ev. cbn [app] in Ev.
  assert (Ct : content (v_files v3) id = Some (old ++ all_data ops)).
  { rewrite Ev. cbn [v_files]. apply content_set. rewrite (wg_content _ _ _ _ _ W2). discriminate. }
  split.
  - intros r. exists (v_files v0), (v_files v3). split; [apply (repr_snapshot crc y0 v0 r R0)|]. split; [apply (repr_snapshot crc y3 v3 r RR)|]. split; [exact Ct|].
    intros i Hi. rewrite Ev. cbn [v_files]. rewrite content_other by exact Hi. rewrite F2, content_other by exact Hi.
    destruct F1 as [->|(t & ->)]; [reflexivity|]. unfold content. clear -Hi. induction (v_files v0) as [|a l IH]; cbn [app find].
    + unfold f_id at 1. cbn [fst]. destruct (N.eqb_spec id i); [congruence|reflexivity].
    + destruct (f_id a =? i); [reflexivity|exact IH].
  - intros Hl. pose proof RR as [_ _ Hop _]. apply (can_read crc y3 v3 id); [exact RR|exact Ct| |rewrite <- (Permutation_length Hop); exact Hl].
    unfold marked. rewrite Ev. cbn [v_open]. destruct (existsb (N.eqb id) (remove N.eq_dec id (v_open v2))) eqn:Ex2; [|reflexivity].
    apply existsb_exists in Ex2. destruct Ex2 as (z & Hz & Ez). apply N.eqb_eq in Ez. subst z. exfalso. exact (remove_In N.eq_dec _ _ Hz).
Qed.
Print Assumptions C18_appending_keeps.

Theorem C17_written_is_read : forall crc, crc32 crc -> forall es y t y0 id y1 ops y2 y3, history crc es (On y) ->
  (* a new file, opened, written to in any pieces with any flushes, closed *)
  legal y (Create t) -> perform crc (Create t) y = (y0, RId id) -> legal y0 (OpenWrite id) -> perform crc (OpenWrite id) y0 = (y1, RDone) ->
  Forall (fun o => bytes_ok (wdata o)) ops -> session crc (its_writer y0) ops y1 = Some y2 -> perform crc (CloseWriter (its_writer y0)) y2 = (y3, RDone) ->
  (forall r, exists F', snapshot crc (fl (sfs y3)) r = Some F' /\ content F' id = Some (all_data ops)) /\
  ((length (a_open (atb (sfs y3))) < 32)%nat -> exists s rd, open_file_for_read id (sfs y3) = (s, Ok rd) /\
     forall lens, read_many crc (fl s) rd lens = Ok (expect (all_data ops) lens)).
Proof.
  intros crc Hc es y t y0 id y1 ops y2 y3 Hh L0 E0 L1 E1 Hb Hs Hcl.
  assert (Hh0 : history crc (es ++ [ACall (Create t) (RId id)]) (On y0)).
  { eapply hi_step; [exact Hh|exact L0|]. apply step_call; [exact E0|discriminate]. }
  assert (Ho : opened crc y0 id [] y1).
  { destruct (C07_completed_change_is_durable crc Hc es y (Create t) y0 (RId id) (fun _ => 0) Hh L0 E0) as (old & _ & E2 & Hlt).
    apply (op_exists crc y0 id [] y1 (fun _ => 0) (old ++ [(id, t, [])]) L1 E1 E2). clear -Hlt. unfold content. induction old as [|a old IH]; cbn [app find].
    - unfold f_id at 1. cbn [fst]. rewrite N.eqb_refl. reflexivity.
    - destruct (N.eqb_spec (f_id a) id) as [Ea|_]; [specialize (Hlt a (or_introl eq_refl)); lia|]. apply IH. intros x Hx. apply Hlt. right. exact Hx. }
  destruct (C18_appending_keeps crc Hc _ y0 id [] y1 ops y2 y3 Hh0 Ho Hb Hs Hcl) as [A B]. cbn [app] in *. split; [|exact B].
  intros r. destruct (A r) as (F & F' & _ & E & E' & _). exists F'. auto.
Qed.
Print Assumptions C17_written_is_read.

(** ** C19 *)
(** events after which the file may be gone or shorter: its removal, and a power loss while it is being opened for writing *)
Definition harmless (id : N) (e : aevent) : Prop :=
  match e with
  | ACall (Remove sel) _ | ALoss (Remove sel) => forall t, sel id t = false
  | ALoss (OpenWrite i) => i <> id
  | _ => True
  end.
Definition a_files (a : astate) : list file := match a with AOff F _ _ => F | AOn v => v_files v end.
Definition holds_more (F : list file) (id : N) (d : list byte) : Prop := exists d', content F id = Some d' /\ begins d d'.

Lemma more_app F id d l : holds_more F id d -> holds_more (F ++ l) id d.
Proof.
  intros (d' & E & B). exists d'. split; [|exact B]. unfold content in *. clear B. induction F as [|a F IH]; cbn [app find] in *; [discriminate|].
  destruct (f_id a =? id); [exact E|apply IH; exact E].
Qed.
Lemma more_filter F id d (P : file -> bool) : (forall x, f_id x = id -> P x = true) -> holds_more F id d -> holds_more (filter P F) id d.
Proof.
  intros HP (d' & E & B). exists d'. split; [|exact B]. unfold content in *. clear B. induction F as [|a F IH]; cbn [filter find] in *; [discriminate|].
  destruct (N.eqb_spec (f_id a) id) as [Ea|Na].
  - rewrite (HP a Ea). cbn [find]. apply N.eqb_eq in Ea. rewrite Ea. exact E.
  - destruct (P a); [cbn [find]; apply N.eqb_neq in Na; rewrite Na|]; apply IH; exact E.
Qed.
Lemma more_set v id d i x data : lookup v i = Some x -> begins (f_data x) data -> holds_more (v_files v) id d -> holds_more (set_data i data (v_files v)) id d.
Proof.
  intros El Bg (d' & E & B). destruct (N.eq_dec id i) as [->|Hne].
  - pose proof (content_look v i x El) as Ec. rewrite E in Ec. injection Ec as ->. exists data. split; [apply content_set; congruence|eapply begins_trans; eauto].
  - exists d'. split; [rewrite content_other by exact Hne; exact E|exact B].
Qed.
Lemma more_step a e a' id d : astep a e a' -> harmless id e -> holds_more (a_files a) id d -> holds_more (a_files a') id d.
Proof.
  intros St Hh Hm. destruct St as [F top gen t Ht|F top gen|v c r v' Al D Hr|v c F Al Ls|v c F Al Ls Hrw|v]; cbn [a_files v_files] in *; auto.
  - destruct c as [t|t|sel|i|i|k w|k|k|k]; cbn [does harmless] in *.
    + destruct D as [[_ ->]|[D _]]; [|contradiction]. cbn [v_files]. apply more_app. exact Hm.
    + destruct D as [[_ ->]|D]; [|contradiction]. cbn [v_files]. apply more_app. exact Hm.
    + destruct D as [[_ ->]|[D _]]; [|contradiction]. cbn [v_files]. apply more_filter; [|exact Hm].
      intros x <-. unfold stays, goes. rewrite Hh. reflexivity.
    + destruct (lookup v i); [|destruct D as [_ ->]; exact Hm]. destruct (marked v i); [destruct D as [_ ->]; exact Hm|].
      destruct (Nat.leb 32 (length (v_open v))); [destruct D as [_ ->]; exact Hm|].
      destruct D as [[_ ->]|[[D _]|(_ & top & gen & -> & _)]]; [exact Hm|contradiction|exact Hm].
    + destruct (lookup v i); [|destruct D as [_ ->]; exact Hm]. destruct (marked v i); [destruct D as [_ ->]; exact Hm|].
      destruct (Nat.leb 32 (length (v_open v))); destruct D as [_ ->]; exact Hm.
    + destruct (nth_error (v_wr v) k) as [[i pend]|]; [|destruct D]. destruct D as (x & data & pend' & n & El & Bg & _ & _ & -> & _).
      cbn [v_files]. eapply more_set; eauto.
    + destruct (nth_error (v_wr v) k) as [[i pend]|]; [|destruct D]. destruct D as (x & El & [[_ ->]|[_ ->]]); [|exact Hm].
      cbn [v_files]. eapply more_set; [exact El|exists pend; reflexivity|exact Hm].
    + destruct (nth_error (v_wr v) k) as [[i pend]|]; [|destruct D]. destruct D as (x & El & _ & ->).
      cbn [v_files]. eapply more_set; [exact El|exists pend; reflexivity|exact Hm].
    + destruct (nth_error (v_rd v) k) as [i|]; [|destruct D]. destruct D as [_ ->]. exact Hm.
  - destruct c as [t|t|sel|i|i|k w|k|k|k]; cbn [loses harmless] in *.
    + destruct Ls as [->| ->]; [exact Hm|apply more_app; exact Hm].
    + destruct Ls as [->| ->]; [exact Hm|apply more_app; exact Hm].
    + destruct Ls as [->| ->]; [exact Hm|]. apply more_filter; [|exact Hm]. intros x <-. unfold stays, goes. rewrite Hh. reflexivity.
    + destruct (lookup v i); [|subst F; exact Hm]. destruct Ls as (kept & cut & _ & _ & ->). destruct Hm as (d' & E & B). exists d'.
      split; [rewrite content_other by congruence; exact E|exact B].
    + subst F. exact Hm.
    + destruct (nth_error (v_wr v) k) as [[i pend]|]; [|destruct Ls]. destruct Ls as (x & data & El & Bg & _ & ->). eapply more_set; eauto.
    + destruct (nth_error (v_wr v) k) as [[i pend]|]; [|destruct Ls]. destruct Ls as (x & data & El & Bg & _ & ->). eapply more_set; eauto.
    + destruct (nth_error (v_wr v) k) as [[i pend]|]; [|destruct Ls]. destruct Ls as (x & data & El & Bg & _ & ->). eapply more_set; eauto.
    + subst F. exact Hm.
  - destruct c as [t|t|sel|i|i|k w|k|k|k]; cbn [rewrites] in Hrw; try discriminate; cbn [loses harmless] in *.
    + destruct Ls as [->| ->]; [exact Hm|apply more_app; exact Hm].
    + destruct Ls as [->| ->]; [exact Hm|apply more_app; exact Hm].
    + destruct Ls as [->| ->]; [exact Hm|]. apply more_filter; [|exact Hm]. intros x <-. unfold stays, goes. rewrite Hh. reflexivity.
    + destruct (lookup v i); [|subst F; exact Hm]. destruct Ls as (kept & cut & _ & _ & ->). destruct Hm as (d' & E & B). exists d'.
      split; [rewrite content_other by congruence; exact E|exact B].
Qed.

Lemma runs_more crc (Hc : crc32 crc) id d m es m' : runs crc m es m' -> Forall (harmless id) es -> forall a, Rel crc m a -> holds_more (a_files a) id d ->
  exists a', Rel crc m' a' /\ holds_more (a_files a') id d.
Proof.
  induction 1 as [m|m e m1 es m2 L S _ IH]; intros Hf a Ha Hm; [exists a; auto|]. inversion Hf; subst.
  destruct (simulation crc Hc m a e m1 Ha L S) as (a1 & S1 & R1). apply (IH ltac:(assumption) a1 R1). eapply more_step; eauto.
Qed.
Lemma rel_snapshot crc m a r : Rel crc m a -> snapshot crc (flash_of m) r = Some (a_files a).
Proof.
  destruct m as [f|y], a as [F t g|v]; cbn [Rel flash_of a_files]; intros H; try contradiction.
  - destruct H as (t' & Hh & _). eapply holds_snapshot; eauto.
  - apply repr_snapshot. exact H.
Qed.

(** everything written up to a successful flush is there after whatever happens later: further writing, other calls, power losses
    at any moment, restarts - unless the file is removed, or power is lost while the file is being opened again *)
Theorem C19_flushed_survives : forall crc, crc32 crc -> forall es y0 id old y1 ops y2 y3 es2 m r, history crc es (On y0) ->
  opened crc y0 id old y1 -> Forall (fun o => bytes_ok (wdata o)) ops -> session crc (its_writer y0) ops y1 = Some y2 ->
  perform crc (Flush (its_writer y0)) y2 = (y3, RDone) -> runs crc (On y3) es2 m -> Forall (harmless id) es2 ->
  exists F d, snapshot crc (flash_of m) r = Some F /\ content F id = Some d /\ begins (old ++ all_data ops) d.
Proof.
  intros crc Hc es y0 id old y1 ops y2 y3 es2 m r Hh Ho Hb Hs Hf Hr Hha.
  destruct (open_one crc es y0 id old y1 Hc Hh Ho) as (v0 & v1 & R0 & R1 & W1 & F1 & L1).
  destruct (write_many crc Hc (its_writer y0) id ops y1 v1 old [] y2 R1 W1 Hb Hs) as (v2 & kept & pend & R2 & W2 & Eq & Bg & F2 & O2 & L2).
  destruct (write_one crc y2 v2 (its_writer y0) id kept pend WSync y3 Hc R2 W2 ltac:(constructor) Hf) as (v3 & kept3 & pend3 & R3 & W3 & Eq3 & Bg3 & _).
  assert (Al : allowed v2 (Flush (its_writer y0))) by (cbn [allowed]; lia).
  pose proof (refines crc Hc y2 v2 _ R2 Al) as Rf. unfold Refined in Rf. rewrite Hf in Rf. destruct Rf as [(v3' & D & RR) _]. specialize (RR ltac:(discriminate)).
  cbn [does] in D. rewrite (wg_nth _ _ _ _ _ W2) in D. destruct D as (x & Ex & [[_ Ev]|[D _]]); [|discriminate].
  pose proof (content_look v2 id x Ex) as Ec. rewrite (wg_content _ _ _ _ _ W2) in Ec. injection Ec as Ec. rewrite <- Ec, Eq in Ev. cbn [app] in Ev.
  assert (Hm : holds_more (a_files (AOn v3')) id (old ++ all_data ops)).
  { exists (old ++ all_data ops). split; [|apply begins_refl]. rewrite Ev. cbn [a_files v_files]. apply content_set. rewrite (wg_content _ _ _ _ _ W2). discriminate. }
  destruct (runs_more crc Hc id _ (On y3) es2 m Hr Hha (AOn v3') RR Hm) as (a & Ra & d & Ed & Bd).
  exists (a_files a), d. split; [apply rel_snapshot; exact Ra|]. auto.
Qed.
Print Assumptions C19_flushed_survives.

(** ** C20 *)
(** power fails while the file is being written: at rest after any number of successful operations, or in the middle of the next one.
    What is found is a beginning of what was written, and at most 4016 of the accepted bytes are missing. *)
Theorem C20_loss_bounded : forall crc, crc32 crc -> forall es y0 id old y1 ops y2 c f r, history crc es (On y0) ->
  opened crc y0 id old y1 -> Forall (fun o => bytes_ok (wdata o)) ops -> session crc (its_writer y0) ops y1 = Some y2 ->
  let k := its_writer y0 in
  (f = fl (sfs y2) /\ c = Flush k \/ (exists o, c = wcall k o /\ bytes_ok (wdata o)) /\ power_lost crc c y2 f \/ c = CloseWriter k /\ power_lost crc c y2 f) ->
  let accepted := old ++ all_data ops in
  exists F d, snapshot crc f r = Some F /\ content F id = Some d /\
    begins d (accepted ++ match c with Append _ w => w | _ => [] end) /\ (length accepted <= length d + 4016)%nat.
Proof.
  intros crc Hc es y0 id old y1 ops y2 c f r Hh Ho Hb Hs k Hf accepted.
  destruct (open_one crc es y0 id old y1 Hc Hh Ho) as (v0 & v1 & R0 & R1 & W1 & F1 & L1).
  destruct (write_many crc Hc (its_writer y0) id ops y1 v1 old [] y2 R1 W1 Hb Hs) as (v2 & kept & pend & R2 & W2 & Eq & Bg & F2 & O2 & L2).
  cbn [app] in Eq. fold accepted in Eq. pose proof (wg_pend _ _ _ _ _ W2) as Hp.
  assert (Hlen : (length accepted <= length kept + 4016)%nat) by (rewrite <- Eq, app_length; lia).
  destruct Hf as [[-> ->]|Hf].
  { exists (v_files v2), kept. split; [apply (repr_snapshot crc y2 v2 r R2)|]. split; [apply (wg_content _ _ _ _ _ W2)|]. split; [|exact Hlen].
    rewrite app_nil_r, <- Eq. exists pend. reflexivity. }
  assert (Hk : (k < length (v_wr v2))%nat) by (unfold k; lia).
  assert (Al : allowed v2 c /\ power_lost crc c y2 f /\ (exists o, c = wcall k o \/ c = CloseWriter k)).
  { destruct Hf as [[(o & -> & Hbo) Hpl]|[-> Hpl]].
    - split; [destruct o; cbn [wcall allowed]; auto|]. split; [exact Hpl|]. exists o. auto.
    - split; [exact Hk|]. split; [exact Hpl|]. exists WSync. auto. }
  destruct Al as (Al & Hpl & o & Hco).
  pose proof (refines crc Hc y2 v2 c R2 Al) as Rf. unfold Refined in Rf. destruct (perform crc c y2) as [y' rep]. destruct Rf as [_ [Lf _]].
  destruct (Lf f Hpl) as (F & top & gen & Ls & K & _).
  assert (Hq : exists x data, lookup v2 id = Some x /\ begins (f_data x) data /\ begins data (f_data x ++ pend ++ match c with Append _ w => w | _ => [] end) /\ F = set_data id data (v_files v2)).
  { assert (Ew : nth_error (v_wr v2) k = Some (id, pend)) by apply (wg_nth _ _ _ _ _ W2).
    destruct Hco as [->| ->]; [destruct o as [w|]|]; cbn [wcall loses] in *; rewrite Ew in Ls; rewrite ?app_nil_r; exact Ls. }
  destruct Hq as (x & data & Ex & B1 & B2 & ->).
  pose proof (content_look v2 id x Ex) as Ec. rewrite (wg_content _ _ _ _ _ W2) in Ec. injection Ec as Ec. rewrite <- Ec in *.
  exists (set_data id data (v_files v2)), data. split; [apply (kept_snapshot crc f _ top gen r K)|].
  split; [apply content_set; rewrite (wg_content _ _ _ _ _ W2); discriminate|]. split; [rewrite <- Eq, <- app_assoc; exact B2|].
  pose proof (begins_length _ _ B1). lia.
Qed.
Print Assumptions C20_loss_bounded.

(** ** C21 *)
Theorem C21_size_is_readable_bytes : forall crc, crc32 crc -> forall es y r, history crc es (On y) ->
  exists F, snapshot crc (fl (sfs y)) r = Some F /\ forall id,
    match content F id with
    | Some d => exists sectors, get_file_size id (sfs y) = (sfs y, Ok (N.of_nat (length d), sectors))
    | None => get_file_size id (sfs y) = (sfs y, Err FileDoesNotExist)
    end.
Proof.
  intros crc Hc es y r Hh. destruct (running crc es y Hc Hh) as (v & _ & R). exists (v_files v). split; [apply (repr_snapshot crc y v r R)|]. intros id.
  destruct R as [(p & ents & C & H & W & ST & EF & EW & EV) _ _ _]. pose proof (st_disk _ _ _ _ _ _ _ _ _ ST) as D. pose proof (disk_len _ _ _ _ _ _ _ D) as L.
  rewrite EF. unfold content.
  destruct (find_spec (sfs y) p (v_gen v) ents (v_top v) id (state_dir _ _ _ _ _ _ _ _ _ ST) (dk_sorted _ _ _ _ _ _ _ D)) as (o & Eo & Ho).
  destruct o as [[e k]|].
  - destruct Ho as [Hi Eid]. assert (Hc2 : exists c, nth_error C (N.to_nat k) = Some c).
    { destruct (nth_error C (N.to_nat k)) as [c|] eqn:Ec; [eauto|]. apply nth_error_None in Ec. assert (N.to_nat k < length ents)%nat by (apply nth_error_Some; congruence). lia. }
    destruct Hc2 as (c & Hc2). rewrite <- Eid, (find_view ents C _ e c (sorted_nodup _ (dk_sorted _ _ _ _ _ _ _ D)) Hi Hc2). cbn [option_map f_data snd].
    exists (N.of_nat (length (fst c))). apply (size_at crc (sfs y) p (v_gen v) ents (v_top v) C H W _ e c ST Hi Hc2).
  - rewrite (find_view_none ents id C Ho). cbn [option_map]. unfold get_file_size. rewrite (bind_ok _ _ _ _ _ Eo). reflexivity.
Qed.
Print Assumptions C21_size_is_readable_bytes.

(** ** C22: whatever is on the flash *)
(** [a] is a contiguous part of a block of bytes whose stored checksum (the 4 bytes after it, big endian) is right *)
Definition verified (crc : list byte -> N) (f : flash) (a : list byte) : Prop :=
  exists addr n pre post, rd f addr n = pre ++ a ++ post /\ crc (rd f addr n) = of_be (rd f (addr + N.of_nat n) 4).

Lemma verified_split crc f a n : verified crc f a -> verified crc f (firstn n a) /\ verified crc f (skipn n a).
Proof.
  intros (addr & m & pre & post & E & Hcrc). rewrite <- (firstn_skipn n a) in E. split; exists addr, m.
  - exists pre, (skipn n a ++ post). split; [rewrite E, <- app_assoc; reflexivity|exact Hcrc].
  - exists (pre ++ firstn n a), post. split; [rewrite E, <- !app_assoc; reflexivity|exact Hcrc].
Qed.

Lemma page_verified crc f r r' : read_next_page crc f r = Ok (r', StOk) -> r_ahead r' = [] \/ verified crc f (r_ahead r').
Proof.
  unfold read_next_page. destruct (r_sec r) as [x|]; [|intros H; discriminate].
  set (len := match r_len r with NotRead => _ | _ => _ end). clearbody len.
  set (unread := match len with Read v => Some (v - r_read r) | _ => None end). clearbody unread.
  assert (K : forall n padded addr nx, 
    match (nx : option (option N * N * sdl * N)) with
      | None => Panic
      | Some (sec, page, len', rdl) =>
        if crc (rd f addr (N.to_nat padded)) =? of_be (rd f (addr + padded) 4)
        then Ok (mkR sec page len' rdl (firstn (N.to_nat n) (rd f addr (N.to_nat padded))), StOk)
        else Ok (mkR sec page len' rdl [], StCorrupt addr)
      end = Ok (r', StOk) -> r_ahead r' = [] \/ verified crc f (r_ahead r')).
  { intros n padded addr nx H. destruct nx as [[[[sec page] len'] rdl]|]; [|discriminate].
    destruct (N.eqb_spec (crc (rd f addr (N.to_nat padded))) (of_be (rd f (addr + padded) 4))) as [Eq|_]; [|discriminate].
    injection H as <-. right. cbn [r_ahead]. set (dt := rd f addr (N.to_nat padded)) in *. exists addr, (N.to_nat padded), [], (skipn (N.to_nat n) dt).
    split; [cbn [app]; symmetry; apply firstn_skipn|]. rewrite N2Nat.id. exact Eq. }
  destruct unread as [[|u]|].
  - destruct (next_sector_at f x); [|discriminate]. intros H. injection H as <-. left. reflexivity.
  - apply K.
  - apply K.
Qed.

Lemma loop_verified crc f fuel : forall r len acc r' out st, (r_ahead r = [] \/ verified crc f (r_ahead r)) ->
  read_loop crc fuel f r len acc = Ok (r', out, st) ->
  exists parts, out = acc ++ concat parts /\ Forall (verified crc f) parts /\ (st = StOk -> r_ahead r' = [] \/ verified crc f (r_ahead r')).
Proof.
  induction fuel as [|k IH]; intros r len acc r' out st Ha H; cbn [read_loop] in H; [discriminate|].
  destruct (Nat.ltb (length acc) len).
  - destruct (r_ahead r) as [|b a] eqn:Ea.
    + destruct (read_next_page crc f r) as [[r1 s1]| |] eqn:En; try discriminate. destruct s1 as [| |ad].
      * apply (IH r1 len acc r' out st); [eapply page_verified; eauto|exact H].
      * injection H as <- <- <-. exists []. cbn [concat]. rewrite app_nil_r. split; [reflexivity|]. split; [constructor|]. discriminate.
      * injection H as <- <- <-. exists []. cbn [concat]. rewrite app_nil_r. split; [reflexivity|]. split; [constructor|]. discriminate.
    + destruct Ha as [Ha|Ha]; [discriminate|]. destruct (Nat.leb (length (b :: a)) (len - length acc)).
      * destruct (IH (mkR (r_sec r) (r_page r) (r_len r) (r_read r) []) len (acc ++ b :: a) r' out st (or_introl eq_refl) H) as (parts & E1 & E2 & E3).
        exists ((b :: a) :: parts). split; [rewrite E1, <- app_assoc; reflexivity|]. split; [constructor; assumption|exact E3].
      * destruct (verified_split crc f (b :: a) (len - length acc) Ha) as [V1 V2].
        destruct (IH (mkR (r_sec r) (r_page r) (r_len r) (r_read r) (skipn (len - length acc) (b :: a))) len (acc ++ firstn (len - length acc) (b :: a)) r' out st (or_intror V2) H) as (parts & E1 & E2 & E3).
        exists (firstn (len - length acc) (b :: a) :: parts). split; [rewrite E1, <- app_assoc; reflexivity|]. split; [constructor; assumption|exact E3].
  - injection H as <- <- <-. exists []. cbn [concat]. rewrite app_nil_r. split; [reflexivity|]. split; [constructor|]. intros _. exact Ha.
Qed.

(** On any flash whatsoever, all bytes ever delivered by a reader come from blocks whose checksum was right (until the first request that
    reports a corrupted page or the end of the file). *)
Fixpoint delivered (l : list (list byte * status)) : list byte :=
  match l with
  | [] => []
  | (d, StOk) :: t => d ++ delivered t
  | (d, _) :: _ => d
  end.
Theorem C22_delivered_data_is_verified : forall crc f first lens l, read_many crc f (new_reader first) lens = Ok l ->
  exists parts, delivered l = concat parts /\ Forall (verified crc f) parts.
Proof.
  intros crc f first lens l. assert (Ha : r_ahead (new_reader first) = [] \/ verified crc f (r_ahead (new_reader first))) by (left; reflexivity).
  revert Ha l. generalize (new_reader first). induction lens as [|n lens IH]; intros r Ha l H; cbn [read_many] in H.
  - injection H as <-. exists []. split; [reflexivity|constructor].
  - destruct (read_slice crc f r n) as [[[r1 d] st]| |] eqn:E1; try discriminate. destruct (read_many crc f r1 lens) as [l1| |] eqn:E2; try discriminate.
    injection H as <-. destruct (loop_verified crc f _ r n [] r1 d st Ha E1) as (parts & Ed & V & Hn). cbn [app] in Ed. cbn [delivered]. destruct st as [| |ad].
    + destruct (IH r1 (Hn eq_refl) l1 E2) as (parts2 & Ed2 & V2). exists (parts ++ parts2). rewrite Ed, Ed2, concat_app. split; [reflexivity|]. apply Forall_app. auto.
    + exists parts. auto.
    + exists parts. auto.
Qed.
Print Assumptions C22_delivered_data_is_verified.

(** A page whose checksum does not match is reported, and none of its bytes are handed out. Here the reader stands before page [k] of
    sector [x], with [u] > 0 unread bytes in the sector; the page holds min(u, max) of them, padded to a multiple of 4. *)
Theorem C22_corrupted_page_is_reported : forall crc f x k v done,
  let u := v - done in
  let max := if k =? 15 then 236 else 252 in
  let padded := 4 * ((N.min u max + 3) / 4) in
  0 < u -> v <= 4016 -> crc (rd f (x * 4096 + k * 256) (N.to_nat padded)) <> of_be (rd f (x * 4096 + k * 256 + padded) 4) ->
  match read_next_page crc f (mkR (Some x) k (Read v) done []) with
  | Ok (r, st) => st = StCorrupt (x * 4096 + k * 256) /\ r_ahead r = []
  | Err _ => False
  | Panic => k = 15 (* the link to the next sector is unreadable *)
  end.
Proof.
  intros crc f x k v done u max padded Hu Hv Hc. unfold read_next_page. cbn [r_sec r_page r_len r_read]. fold u.
  destruct u as [|q] eqn:Eu; [lia|]. rewrite <- Eu in *.
  assert (Em : (if k =? 15 then MAX_LAST_PAGE else MAX_PAGE) = max) by reflexivity. rewrite Em.
  assert (Ep : N.land (N.min u max + 3) (N.lnot 3 64) = padded).
  { rewrite pad4_land; [unfold padded, pad4; rewrite Eu; reflexivity|]. assert (max <= 252) by (unfold max; destruct (k =? 15); lia). change (2 ^ 60) with 1152921504606846976. lia. }
  rewrite Ep. unfold SECTOR_SIZE. apply N.eqb_neq in Hc. rewrite Hc.
  destruct (N.eqb_spec k 15) as [Ek|Ek].
  - destruct (find_most_common_u16_out_of_4 _) as [nx|]; [split; reflexivity|exact Ek].
  - split; reflexivity.
Qed.
Print Assumptions C22_corrupted_page_is_reported.

(** * C107: a file written by one task while the others use the file system. *)
From Coq Require Import Permutation.
From Verif Require Import Base Majority Flash FS Sectors SectorsProofs ATable TornCode TableCode TableScan TableBuild TableOps DirOps Chains FileIO FileFormat FileWrite WriteOps WriteSpec Disk Sessions DirState OpenOps Append OpenWrite FsSpec FsApi FsRefine FsBoot FsHistory PropDirectory PropFiles FsExec PropSpace PropRules FsExamples.
Local Open Scope N_scope.

(** ** Specification *)
(** a call that is not made on the [k]-th writer *)
Definition foreign (k : nat) (c : call) : Prop :=
  match c with Append j _ | Flush j | CloseWriter j => j <> k | _ => True end.
(** the place of the [k]-th writer after such a call: writers that go away make those behind them move up *)
Definition moved (k : nat) (c : call) : nat := match c with CloseWriter j => if Nat.ltb j k then pred k else k | _ => k end.

(** [shared crc y k ops y' k']: from [y] to [y'] the task holding the [k]-th writer performs [ops] on it, all of them successful, and between
    them other tasks make any calls of theirs, successful or not (legal ones: see [legal]) *)
Inductive shared (crc : list byte -> N) : sys -> nat -> list wop -> sys -> nat -> Prop :=
| sh_done y k : shared crc y k [] y k
| sh_own y k o y1 ops y' k' : bytes_ok (wdata o) -> perform crc (wcall k o) y = (y1, RDone) -> shared crc y1 k ops y' k' -> shared crc y k (o :: ops) y' k'
| sh_other y k c r y1 ops y' k' : legal y c -> foreign k c -> perform crc c y = (y1, r) -> r <> RPanic -> shared crc y1 (moved k c) ops y' k' ->
    shared crc y k ops y' k'.

(** ** Proofs *)
Lemma repr_nodup crc y v : Repr crc y v -> NoDup (map fst (v_wr v)).
Proof.
  intros [(p & ents & C & H & W & ST & EF & EW & EV) _ _ _]. rewrite EV, map_map. exact (st_ids _ _ _ _ _ _ _ _ _ ST).
Qed.

Lemma nodup_other (l : list (N * list byte)) j k i a id b : NoDup (map fst l) -> nth_error l j = Some (i, a) -> nth_error l k = Some (id, b) -> j <> k -> i <> id.
Proof.
  intros Nd Hj Hk D E. subst i. apply D. assert (A : nth_error (map fst l) j = Some id) by (rewrite nth_error_map, Hj; reflexivity).
  assert (B : nth_error (map fst l) k = Some id) by (rewrite nth_error_map, Hk; reflexivity).
  eapply NoDup_nth_error; [exact Nd|apply nth_error_Some; congruence|congruence].
Qed.

Lemma upd_other {A} (l : list A) j k a : j <> k -> nth_error (upd l j a) k = nth_error l k.
Proof. revert j k. induction l as [|x l IH]; intros [|j] [|k] H; cbn in *; try reflexivity; try congruence. apply IH. congruence. Qed.

Lemma nth_skip {A} (l : list A) n m : nth_error (skipn n l) m = nth_error l (n + m)%nat.
Proof. revert l. induction n as [|n IH]; intros [|x l]; cbn; try reflexivity; [destruct m; reflexivity|apply IH]. Qed.
Lemma nth_first {A} (l : list A) n m : (m < n)%nat -> nth_error (firstn n l) m = nth_error l m.
Proof. revert l m. induction n as [|n IH]; intros [|x l] [|m] H; cbn; try reflexivity; try lia. apply IH. lia. Qed.
Lemma nth_without {A} (l : list A) j k : (j < length l)%nat -> j <> k -> nth_error (without l j) (if Nat.ltb j k then pred k else k) = nth_error l k.
Proof.
  intros L D. unfold without. assert (Ln : length (firstn j l) = j) by (rewrite firstn_length; lia).
  destruct (Nat.ltb_spec j k) as [H|H].
  - rewrite nth_error_app2 by lia. rewrite Ln, nth_skip. f_equal. lia.
  - rewrite nth_error_app1 by lia. apply nth_first. lia.
Qed.

Lemma content_app F id d l : content F id = Some d -> content (F ++ l) id = Some d.
Proof.
  unfold content. induction F as [|a F IH]; cbn [app find]; [discriminate|]. destruct (f_id a =? id); [auto|exact IH].
Qed.
Lemma content_filter F id x (P : file -> bool) : find (fun z => f_id z =? id) F = Some x -> P x = true -> content (filter P F) id = Some (f_data x).
Proof.
  unfold content. induction F as [|a F IH]; cbn [find filter]; [discriminate|]. destruct (f_id a =? id) eqn:E.
  - intros [= ->] HP. rewrite HP. cbn [find]. rewrite E. reflexivity.
  - intros H HP. destruct (P a); [cbn [find]; rewrite E|]; exact (IH H HP).
Qed.

(** another task's call *)
Lemma foreign_step v k id kept pend c r v' : NoDup (map fst (v_wr v)) -> writing v k id kept pend -> allowed v c -> foreign k c -> does v c r v' -> r <> RPanic ->
  writing v' (moved k c) id kept pend.
Proof.
  intros Nd [W1 W2 W3] Al Fo D Hr. assert (Hk : (k < length (v_wr v))%nat) by (apply nth_error_Some; congruence).
  destruct c as [t|t|sel|i|i|j w|j|j|j]; cbn [does foreign moved allowed] in *.
  - destruct D as [[_ ->]|[D _]]; [|contradiction]. constructor; cbn [v_wr v_files]; [exact W1|apply content_app; exact W2|exact W3].
  - destruct D as [[_ ->]|D]; [|contradiction]. constructor; cbn [v_wr v_files]; [rewrite nth_error_app1 by exact Hk; exact W1|apply content_app; exact W2|exact W3].
  - destruct D as [[_ ->]|[D _]]; [|contradiction]. destruct (look_content v id kept W2) as (x & Ex & Ed).
    pose proof (Al id pend x (nth_error_In _ _ W1) Ex) as G.
    constructor; cbn [v_wr v_files]; [exact W1| |exact W3]. rewrite <- Ed. apply content_filter; [exact Ex|]. unfold stays. rewrite G. reflexivity.
  - assert (V : v' = v \/ exists a b top gen, v' = mkV (v_files v) (v_wr v ++ a) (v_rd v) b top gen).
    { destruct (lookup v i); [|left; tauto]. destruct (marked v i); [left; tauto|]. destruct (Nat.leb 32 (length (v_open v))); [left; tauto|].
      destruct D as [[_ ->]|[[D _]|(_ & top & gen & -> & _)]]; [right|contradiction|right].
      - exists [], (v_open v ++ [i]), (v_top v), (v_gen v). rewrite app_nil_r. reflexivity.
      - eexists _, _, top, gen. reflexivity. }
    destruct V as [->|(a & b & top & gen & ->)]; constructor; cbn [v_wr v_files]; try assumption. rewrite nth_error_app1 by exact Hk. exact W1.
  - assert (V : v' = v \/ exists a b, v' = mkV (v_files v) (v_wr v) a b (v_top v) (v_gen v)).
    { destruct (lookup v i); [|left; tauto]. destruct (marked v i); [left; tauto|]. destruct (Nat.leb 32 (length (v_open v))); [left; tauto|].
      destruct D as [_ ->]. right. eauto. }
    destruct V as [->|(a & b & ->)]; constructor; cbn [v_wr v_files]; assumption.
  - destruct (nth_error (v_wr v) j) as [[i pj]|] eqn:Ej; [|destruct D]. destruct D as (x & data & pend' & n & El & Bg & _ & _ & -> & _).
    pose proof (nodup_other _ _ _ _ _ _ _ Nd Ej W1 Fo) as Ne. constructor; cbn [v_wr v_files]; [rewrite upd_other by exact Fo; exact W1|rewrite content_other by congruence; exact W2|exact W3].
  - destruct (nth_error (v_wr v) j) as [[i pj]|] eqn:Ej; [|destruct D]. pose proof (nodup_other _ _ _ _ _ _ _ Nd Ej W1 Fo) as Ne.
    destruct D as (x & El & [[_ ->]|[_ ->]]); constructor; cbn [v_wr v_files]; try assumption.
    + rewrite upd_other by exact Fo. exact W1.
    + rewrite content_other by congruence. exact W2.
  - destruct (nth_error (v_wr v) j) as [[i pj]|] eqn:Ej; [|destruct D]. pose proof (nodup_other _ _ _ _ _ _ _ Nd Ej W1 Fo) as Ne.
    destruct D as (x & El & _ & ->). constructor; cbn [v_wr v_files]; [| |exact W3].
    + rewrite nth_without; [exact W1|exact Al|exact Fo].
    + rewrite content_other by congruence. exact W2.
  - destruct (nth_error (v_rd v) j); [|destruct D]. destruct D as [_ ->]. constructor; cbn [v_wr v_files]; assumption.
Qed.

(** the task's own operation *)
Lemma own_step crc y v k id kept pend o y' : crc32 crc -> Repr crc y v -> writing v k id kept pend -> bytes_ok (wdata o) ->
  perform crc (wcall k o) y = (y', RDone) ->
  exists v' kept' pend', Repr crc y' v' /\ writing v' k id kept' pend' /\ kept' ++ pend' = kept ++ pend ++ wdata o /\ begins kept kept' /\ (o = WSync -> pend' = []).
Proof.
  intros Hc R [W1 W2 W3] Ho E.
  assert (Hk : (k < length (v_wr v))%nat) by (apply nth_error_Some; congruence).
  assert (Al : allowed v (wcall k o)) by (destruct o; cbn [wcall allowed]; auto).
  pose proof (refines crc Hc y v (wcall k o) R Al) as Rf. unfold Refined in Rf. rewrite E in Rf. destruct Rf as [(v' & D & RR) _].
  specialize (RR ltac:(discriminate)). destruct (look_content v id kept W2) as (x & Ex & Ed).
  assert (Hn : content (v_files v) id <> None) by congruence.
  destruct o as [d|]; cbn [wcall does wdata] in *; rewrite W1 in D.
  - destruct D as (x' & data & pend' & n & Ex' & Hb & Heq & Hlen & Ev & [[_ Hn']|Hr]); [|discriminate]. rewrite Ex in Ex'. injection Ex' as <-.
    rewrite Ed, Hn', firstn_all in *. exists v', data, pend'. split; [exact RR|]. rewrite Ev. split; [constructor; cbn [v_wr v_files]|].
    + apply upd_same. exact Hk.
    + apply content_set. exact Hn.
    + exact Hlen.
    + split; [exact Heq|]. split; [exact Hb|discriminate].
  - destruct D as (x' & Ex' & [[_ Ev]|[Hr _]]); [|discriminate]. rewrite Ex in Ex'. injection Ex' as <-. rewrite Ed in Ev.
    exists v', (kept ++ pend), []. split; [exact RR|]. rewrite Ev. split; [constructor; cbn [v_wr v_files length]|].
    + apply upd_same. exact Hk.
    + apply content_set. exact Hn.
    + lia.
    + rewrite !app_nil_r. split; [reflexivity|]. split; [exists pend; reflexivity|auto].
Qed.

(** everything up to a successful flush is among what is durable *)
Definition flushed_in (base : list byte) (ops : list wop) (kept : list byte) : Prop :=
  forall ops1 ops2, ops = ops1 ++ WSync :: ops2 -> begins (base ++ all_data ops1) kept.

Lemma shared_inv crc (Hc : crc32 crc) id y k ops y' k' : shared crc y k ops y' k' -> forall v kept pend, Repr crc y v -> writing v k id kept pend ->
  exists v' kept' pend', Repr crc y' v' /\ writing v' k' id kept' pend' /\ kept' ++ pend' = kept ++ pend ++ all_data ops /\ begins kept kept' /\
    flushed_in (kept ++ pend) ops kept'.
Proof.
  induction 1 as [y k|y k o y1 ops y' k' Hb E S IH|y k c r y1 ops y' k' L Fo E Hr S IH]; intros v kept pend R W.
  - exists v, kept, pend. split; [exact R|]. split; [exact W|]. unfold all_data. cbn [map concat]. rewrite app_nil_r. split; [reflexivity|]. split; [apply begins_refl|].
    intros a b X. destruct a; discriminate X.
  - destruct (own_step crc y v k id kept pend o y1 Hc R W Hb E) as (v1 & kept1 & pend1 & R1 & W1 & Eq1 & Bg1 & Sy).
    destruct (IH v1 kept1 pend1 R1 W1) as (v2 & kept2 & pend2 & R2 & W2 & Eq2 & Bg2 & Fl).
    exists v2, kept2, pend2. split; [exact R2|]. split; [exact W2|]. unfold all_data. cbn [map concat]. fold (all_data ops).
    split; [rewrite Eq2, app_assoc, Eq1, <- !app_assoc; reflexivity|]. split; [eapply begins_trans; eauto|].
    intros [|o' ops1] ops2 X; cbn [app] in X; injection X as Xo Xt; subst o.
    + unfold all_data. cbn [map concat]. rewrite app_nil_r. rewrite (Sy eq_refl), app_nil_r in Eq1. cbn [wdata] in Eq1. rewrite app_nil_r in Eq1.
      rewrite <- Eq1. exact Bg2.
    + specialize (Fl ops1 ops2 Xt). rewrite Eq1 in Fl. unfold all_data in *. cbn [map concat]. repeat rewrite <- app_assoc in Fl. repeat rewrite <- app_assoc. exact Fl.
  - pose proof (legal_allowed crc y v c R L) as Al. pose proof (refines crc Hc y v c R Al) as Rf. unfold Refined in Rf. rewrite E in Rf.
    destruct Rf as [(v1 & D & RR) _]. specialize (RR Hr).
    exact (IH v1 kept pend RR (foreign_step v k id kept pend c r v1 (repr_nodup crc y v R) W Al Fo D Hr)).
Qed.

(** a power loss during any call *)
Lemma loss_step v k id kept pend c F : NoDup (map fst (v_wr v)) -> writing v k id kept pend -> allowed v c -> c <> OpenWrite id -> loses v c F ->
  exists d, content F id = Some d /\ begins kept d /\ begins d (kept ++ pend ++ match c with Append j w => if Nat.eqb j k then w else [] | _ => [] end).
Proof.
  intros Nd [W1 W2 W3] Al No Ls.
  assert (Same : content F id = Some kept -> forall w, exists d, content F id = Some d /\ begins kept d /\ begins d (kept ++ w)).
  { intros H w. exists kept. split; [exact H|]. split; [apply begins_refl|exists w; reflexivity]. }
  assert (Wr : forall j i pj w, nth_error (v_wr v) j = Some (i, pj) -> (exists x data, lookup v i = Some x /\ begins (f_data x) data /\ begins data (f_data x ++ pj ++ w) /\ F = set_data i data (v_files v)) ->
    exists d, content F id = Some d /\ begins kept d /\ begins d (kept ++ pend ++ if Nat.eqb j k then w else [])).
  { intros j i pj w Ej (x & data & El & B1 & B2 & ->). destruct (Nat.eqb_spec j k) as [->|Ne].
    - rewrite W1 in Ej. injection Ej as <- <-. pose proof (content_look v id x El) as Ec. rewrite W2 in Ec. injection Ec as ->.
      exists data. split; [apply content_set; congruence|]. auto.
    - apply Same. rewrite content_other by (intros X; exact (nodup_other _ _ _ _ _ _ _ Nd Ej W1 Ne (eq_sym X))). exact W2. }
  destruct c as [t|t|sel|i|i|j w|j|j|j]; cbn [loses allowed] in *.
  - apply Same. destruct Ls as [->| ->]; [exact W2|apply content_app; exact W2].
  - apply Same. destruct Ls as [->| ->]; [exact W2|apply content_app; exact W2].
  - apply Same. destruct Ls as [->| ->]; [exact W2|]. destruct (look_content v id kept W2) as (x & Ex & <-). apply content_filter; [exact Ex|].
    unfold stays. rewrite (Al id pend x (nth_error_In _ _ W1) Ex). reflexivity.
  - apply Same. destruct (lookup v i); [|subst F; exact W2]. destruct Ls as (kp & cut & _ & _ & ->). rewrite content_other by congruence. exact W2.
  - apply Same. subst F. exact W2.
  - destruct (nth_error (v_wr v) j) as [[i pj]|] eqn:Ej; [|destruct Ls]. exact (Wr j i pj w Ej Ls).
  - destruct (nth_error (v_wr v) j) as [[i pj]|] eqn:Ej; [|destruct Ls]. destruct Ls as (x & data & El & B1 & B2 & EF).
    destruct (Wr j i pj [] Ej) as (d & H1 & H2 & H3); [exists x, data; rewrite app_nil_r; auto|]. exists d. split; [exact H1|]. split; [exact H2|]. destruct (Nat.eqb j k); exact H3.
  - destruct (nth_error (v_wr v) j) as [[i pj]|] eqn:Ej; [|destruct Ls]. destruct Ls as (x & data & El & B1 & B2 & EF).
    destruct (Wr j i pj [] Ej) as (d & H1 & H2 & H3); [exists x, data; rewrite app_nil_r; auto|]. exists d. split; [exact H1|]. split; [exact H2|]. destruct (Nat.eqb j k); exact H3.
  - apply Same. subst F. exact W2.
Qed.

(** ** The theorems *)
(** power is lost after any such history - at rest, or in the middle of a call of any task. What is found is a beginning of what the task
    wrote; everything up to its last successful flush is there; at most 4016 accepted bytes are missing *)
Theorem C107_shared_survives : forall crc, crc32 crc -> forall es y0 id old y1 ops y2 k c f r, history crc es (On y0) ->
  opened crc y0 id old y1 -> shared crc y1 (its_writer y0) ops y2 k ->
  (f = fl (sfs y2) /\ c = Flush k \/ legal y2 c /\ c <> OpenWrite id /\ power_lost crc c y2 f) ->
  let accepted := old ++ all_data ops in
  exists F d, snapshot crc f r = Some F /\ content F id = Some d /\
    begins d (accepted ++ match c with Append j w => if Nat.eqb j k then w else [] | _ => [] end) /\ (length accepted <= length d + 4016)%nat /\
    forall ops1 ops2, ops = ops1 ++ WSync :: ops2 -> begins (old ++ all_data ops1) d.
Proof.
  intros crc Hc es y0 id old y1 ops y2 k c f r Hh Ho Hs Hf accepted.
  destruct (open_one crc es y0 id old y1 Hc Hh Ho) as (v0 & v1 & R0 & R1 & W1 & F1 & L1).
  destruct (shared_inv crc Hc id y1 _ ops y2 k Hs v1 old [] R1 W1) as (v2 & kept & pend & R2 & W2 & Eq & Bg & Fl).
  cbn [app] in Eq. rewrite app_nil_r in Fl. fold accepted in Eq. pose proof (wg_pend _ _ _ _ _ W2) as Hp.
  assert (Hlen : (length accepted <= length kept + 4016)%nat) by (rewrite <- Eq, app_length; lia).
  destruct Hf as [[-> ->]|(Lg & No & Hpl)].
  { exists (v_files v2), kept. split; [apply (repr_snapshot crc y2 v2 r R2)|]. split; [apply (wg_content _ _ _ _ _ W2)|]. split; [|split; [exact Hlen|exact Fl]].
    rewrite app_nil_r, <- Eq. exists pend. reflexivity. }
  pose proof (legal_allowed crc y2 v2 c R2 Lg) as Al.
  pose proof (refines crc Hc y2 v2 c R2 Al) as Rf. unfold Refined in Rf. destruct (perform crc c y2) as [y' rep]. destruct Rf as [_ [Lf _]].
  destruct (Lf f Hpl) as (F & top & gen & Ls & K & _).
  destruct (loss_step v2 k id kept pend c F (repr_nodup crc y2 v2 R2) W2 Al No Ls) as (d & Ed & B1 & B2).
  exists F, d. split; [apply (kept_snapshot crc f _ top gen r K)|]. split; [exact Ed|]. split; [rewrite <- Eq, <- app_assoc; exact B2|].
  split; [pose proof (begins_length _ _ B1); lia|]. intros ops1 ops2 X. eapply begins_trans; [exact (Fl ops1 ops2 X)|exact B1].
Qed.
Print Assumptions C107_shared_survives.

(** the task closes its file: the file holds what it had plus exactly what the task wrote, in order, nothing of what others wrote *)
Theorem C107_shared_closed : forall crc, crc32 crc -> forall es y0 id old y1 ops y2 k y3, history crc es (On y0) ->
  opened crc y0 id old y1 -> shared crc y1 (its_writer y0) ops y2 k -> perform crc (CloseWriter k) y2 = (y3, RDone) ->
  (forall r, exists F, snapshot crc (fl (sfs y3)) r = Some F /\ content F id = Some (old ++ all_data ops)) /\
  ((length (a_open (atb (sfs y3))) < 32)%nat -> exists s rd, open_file_for_read id (sfs y3) = (s, Ok rd) /\
     forall lens, read_many crc (fl s) rd lens = Ok (expect (old ++ all_data ops) lens)).
Proof.
  intros crc Hc es y0 id old y1 ops y2 k y3 Hh Ho Hs Hcl.
  destruct (open_one crc es y0 id old y1 Hc Hh Ho) as (v0 & v1 & R0 & R1 & W1 & F1 & L1).
  destruct (shared_inv crc Hc id y1 _ ops y2 k Hs v1 old [] R1 W1) as (v2 & kept & pend & R2 & W2 & Eq & Bg & Fl).
  assert (Al : allowed v2 (CloseWriter k)) by (cbn [allowed]; apply nth_error_Some; rewrite (wg_nth _ _ _ _ _ W2); discriminate).
  pose proof (refines crc Hc y2 v2 _ R2 Al) as Rf. unfold Refined in Rf. rewrite Hcl in Rf. destruct Rf as [(v3 & D & RR) _]. specialize (RR ltac:(discriminate)).
  cbn [does] in D. rewrite (wg_nth _ _ _ _ _ W2) in D. destruct D as (x & Ex & _ & Ev).
  pose proof (content_look v2 id x Ex) as Ec. rewrite (wg_content _ _ _ _ _ W2) in Ec. injection Ec as Ec. rewrite <- Ec, Eq in Ev. cbn [app] in Ev.
  assert (Ct : content (v_files v3) id = Some (old ++ all_data ops)).
  { rewrite Ev. cbn [v_files]. apply content_set. rewrite (wg_content _ _ _ _ _ W2). discriminate. }
  split.
  - intros r. exists (v_files v3). split; [apply (repr_snapshot crc y3 v3 r RR)|exact Ct].
  - intros Hl. pose proof RR as [_ _ Hop _]. apply (can_read crc y3 v3 id); [exact RR|exact Ct| |rewrite <- (Permutation_length Hop); exact Hl].
    unfold marked. rewrite Ev. cbn [v_open]. destruct (existsb (N.eqb id) (remove N.eq_dec id (v_open v2))) eqn:Ex2; [|reflexivity].
    apply existsb_exists in Ex2. destruct Ex2 as (z & Hz & Ez). apply N.eqb_eq in Ez. subst z. exfalso. exact (remove_In N.eq_dec _ _ Hz).
Qed.
Print Assumptions C107_shared_closed.

(** [session] is the special case without other tasks *)
Lemma session_shared crc k ops : forall y y', Forall (fun o => bytes_ok (wdata o)) ops -> session crc k ops y = Some y' -> shared crc y k ops y' k.
Proof.
  induction ops as [|o ops IH]; intros y y' Hb E; cbn [session] in E.
  - injection E as <-. constructor.
  - inversion Hb; subst. destruct (perform crc (wcall k o) y) as [y1 r] eqn:E1. destruct r; try discriminate. eapply sh_own; eauto.
Qed.

(** ** A concrete case: the file of the task is the second one open; another task writes to the first one, opens a third one, and closes the
    first one (the writer of the task moves up); power is lost in the middle of the other task's next append *)
Inductive mix := Own (o : wop) | Other (c : call).
Definition own_of (m : mix) : list wop := match m with Own o => [o] | Other _ => [] end.
Definition not_panic (r : reply) : bool := match r with RPanic => false | _ => true end.
Definition foreignb (k : nat) (c : call) : bool := match c with Append j _ | Flush j | CloseWriter j => negb (Nat.eqb j k) | _ => true end.
Fixpoint mixed (ms : list mix) (y : sys) (k : nat) : option (sys * nat) :=
  match ms with
  | [] => Some (y, k)
  | Own o :: t => if forallb (fun b => b <? 256) (wdata o) then
                    match perform sum (wcall k o) y with (y', RDone) => mixed t y' k | _ => None end
                  else None
  | Other c :: t => if legalb y c && foreignb k c then
                      let p := perform sum c y in if not_panic (snd p) then mixed t (fst p) (moved k c) else None
                    else None
  end.
Lemma mixed_shared ms : forall y k y' k', mixed ms y k = Some (y', k') -> shared sum y k (flat_map own_of ms) y' k'.
Proof.
  induction ms as [|[o|c] ms IH]; intros y k y' k' H; cbn [mixed flat_map own_of app] in *.
  - injection H as <- <-. constructor.
  - destruct (forallb _ (wdata o)) eqn:Hb; [|exfalso; exact (none_some _ H)]. destruct (perform sum (wcall k o) y) as [y1 r] eqn:E. destruct r; try (exfalso; exact (none_some _ H)).
    eapply sh_own; [|exact E|exact (IH _ _ _ _ H)]. apply Forall_forall. intros x Hx. rewrite forallb_forall in Hb. apply N.ltb_lt. exact (Hb x Hx).
  - destruct (legalb y c && foreignb k c) eqn:Hb; [|exfalso; exact (none_some _ H)]. apply andb_prop in Hb. destruct Hb as [Hl Hf].
    destruct (perform sum c y) as [y1 r] eqn:E. cbn [fst snd] in H. cbv zeta in H. destruct (not_panic r) eqn:Hp; [|exfalso; exact (none_some _ H)].
    eapply sh_other; [apply legalb_sound; exact Hl| |exact E| |exact (IH _ _ _ _ H)].
    + destruct c; cbn [foreign foreignb] in *; try exact Logic.I; apply Bool.negb_true_iff in Hf; apply Nat.eqb_neq in Hf; exact Hf.
    + intros ->. exact (Bool.diff_false_true Hp).
Qed.

Definition mix_ex : list mix := [Own (WData [21;22]); Other (Append 0 [31]); Other (CreateOpen 8); Own WSync; Other (CloseWriter 0); Own (WData [23])].
Example ex_C107 : exists es y0 y1 y2 f, history sum es (On y0) /\ opened sum y0 2 [] y1 /\ its_writer y0 = 1%nat /\
  shared sum y1 1 [WData [21;22]; WSync; WData [23]] y2 0 /\ legal y2 (Append 1 (repeat 9 300)) /\ power_lost sum (Append 1 (repeat 9 300)) y2 f /\
  snapshot sum f (fun _ => 0) = Some [(1, 3, [1;2;3;4;5;31]); (2, 4, [21;22]); (3, 8, [])].
Proof.
  destruct (reach (two_files ++ [XCall (OpenWrite 1)]) (fun y => legalb y (OpenWrite 2) && is_done (snd (perform sum (OpenWrite 2) y)) && Nat.eqb (its_writer y) 1 &&
      match snapshot sum (fl (sfs y)) (fun _ => 0) with Some F => same F [(1, 3, [1;2;3;4;5]); (2, 4, [])] | None => false end &&
      match mixed mix_ex (fst (perform sum (OpenWrite 2) y)) 1 with
      | Some (y2, k) => Nat.eqb k 0 && legalb y2 (Append 1 (repeat 9 300)) && after_loss (Append 1 (repeat 9 300)) 0 200 y2 [(1, 3, [1;2;3;4;5;31]); (2, 4, [21;22]); (3, 8, [])]
      | None => false
      end)) as (es & y0 & Hh & H); [vm_compute; reflexivity|].
  apply andb_prop in H. destruct H as [H H5]. apply andb_prop in H. destruct H as [H H4]. apply andb_prop in H. destruct H as [H H3].
  apply andb_prop in H. destruct H as [H1 H2]. apply Nat.eqb_eq in H3.
  destruct (perform sum (OpenWrite 2) y0) as [y1 r1] eqn:E1. cbn [fst snd] in *. apply is_done_eq in H2. subst r1.
  destruct (mixed mix_ex y1 1) as [[y2 k]|] eqn:E2; [|exfalso; exact (Bool.diff_false_true H5)].
  apply andb_prop in H5. destruct H5 as [H H7]. apply andb_prop in H. destruct H as [H5 H6]. apply Nat.eqb_eq in H5. subst k.
  destruct (after_loss_sound _ _ _ _ _ H7) as (f & P & Sn). exists es, y0, y1, y2, f. split; [exact Hh|]. split.
  - destruct (snapshot sum (fl (sfs y0)) (fun _ => 0)) as [F|] eqn:ES; [|exfalso; exact (Bool.diff_false_true H4)]. apply same_eq in H4. subst F.
    eapply op_exists; [apply legalb_sound; exact H1|exact E1|exact ES|reflexivity].
  - split; [exact H3|]. split; [exact (mixed_shared mix_ex y1 1%nat y2 0%nat E2)|]. split; [apply legalb_sound; exact H6|]. split; [exact P|exact Sn].
Qed.

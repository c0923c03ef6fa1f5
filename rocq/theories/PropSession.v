(** * C119: console sessions *)
From Coq Require Import Permutation.
From Verif Require Import Base Flash FS Sectors ATable FileIO FileFormat Disk Sessions DirState OpenOps FsSpec FsApi FsRefine FsBoot FsHistory PropDirectory PropFiles FsExec PropSpace PropRules FsExamples PropShared PropReader Console PropConsole ConSession.
Local Open Scope N_scope.

(** ** Specification *)
(** what the other tasks may do: their calls are legal and they close their own readers only; the laptop does not open a file that is being written *)
Definition fair (d : dev) (e : devent) : Prop :=
  match e with
  | Task c _ => legal (dsys d) c /\ forall k id r, nth_error (dcon d) k = Some (Some (Some (id, r))) -> not_mine id (dsys d) c
  | Req _ (ROpen id) _ => ~ In id (map w_id (sws (dsys d)))
  | _ => True
  end.
(** what can happen to a device after its start *)
Inductive goes_on (crc : list byte -> N) : dev -> list devent -> dev -> Prop :=
| go_nil d : goes_on crc d [] d
| go_step d e d1 es d2 : fair d e -> dstep crc d e d1 -> goes_on crc d1 es d2 -> goes_on crc d (e :: es) d2.
Definition device crc (es : list devent) (d : dev) : Prop := exists hs y, history crc hs (On y) /\ goes_on crc (dev_start y) es d.

(** the file that console [k] has open, judging by its requests and their responses *)
Definition opens (k : nat) (o : option N) (e : devent) : option N :=
  match e with
  | Req j (ROpen id) (AOpen Sucess) => if Nat.eqb j k then Some id else o
  | Req j RClose _ => if Nat.eqb j k then None else o
  | Unplug j => if Nat.eqb j k then None else o
  | _ => o
  end.
Definition open_on (k : nat) (es : list devent) : option N := fold_left (opens k) es None.
(** a console is in service: from the start (serial line), or once connected (USB), until its line fails *)
Definition serves (k : nat) (b : bool) (e : devent) : bool :=
  match e with
  | Plug => if Nat.eqb k USB then true else b
  | Unplug j => if Nat.eqb j k then false else b
  | _ => b
  end.
Definition in_service (k : nat) (es : list devent) : bool := fold_left (serves k) es (Nat.eqb k SERIAL).
(** the responses to the read requests of console [k] *)
Definition data_of (k : nat) (es : list devent) : list (list byte * bool) :=
  flat_map (fun e => match e with Req j RRead (AData d bad) => if Nat.eqb j k then [(d, bad)] else [] | _ => [] end) es.
(** console [k] keeps its file: it neither opens another one nor closes it nor is disconnected *)
Definition keeps_file (k : nat) (e : devent) : Prop :=
  match e with
  | Req j (ROpen _) (AOpen Sucess) | Req j RClose _ | Unplug j => j <> k
  | _ => True
  end.

(** ** The invariant *)
Section Inv.
Variable crc : list byte -> N.
Hypothesis Hcrc : crc32 crc.

Definition holds (d : dev) (k : nat) (id : N) (r : reader) : Prop := nth_error (dcon d) k = Some (Some (Some (id, r))).
Record DInv (d : dev) : Prop := {
  di_repr : exists v, Repr crc (dsys d) v;
  di_two : length (dcon d) = 2%nat;
  di_read : forall k id r, holds d k id r -> In id (srs (dsys d)) /\ exists dd rest, Reading crc (dsys d) id dd r rest;
  di_apart : forall k j id r r', holds d k id r -> holds d j id r' -> k = j }.

Lemma nth_upd_same {A} (l : list A) k x : (k < length l)%nat -> nth_error (upd l k x) k = Some x.
Proof. revert k. induction l as [|a l IH]; intros [|k] H; cbn [length upd nth_error] in *; try lia; [reflexivity|]. apply IH. lia. Qed.
Lemma nth_upd_other {A} (l : list A) k j x : j <> k -> nth_error (upd l k x) j = nth_error l j.
Proof. revert k j. induction l as [|a l IH]; intros [|k] [|j] H; cbn [upd nth_error]; try reflexivity; [congruence|]. apply IH. congruence. Qed.
Lemma len_upd {A} (l : list A) k x : length (upd l k x) = length l.
Proof. revert k. induction l as [|a l IH]; intros [|k]; cbn [upd length]; auto. Qed.

Lemma in_without_other {A} (l : list A) k x : In x l -> nth_error l k <> Some x -> In x (without l k).
Proof.
  intros H N. apply In_nth_error in H. destruct H as (i & Hi). unfold without. apply in_or_app.
  destruct (lt_eq_lt_dec i k) as [[L|E]|L].
  - left. apply (nth_error_In _ i). rewrite nth_first by exact L. exact Hi.
  - subst i. congruence.
  - right. apply (nth_error_In _ (i - S k)). rewrite nth_skip. replace (S k + (i - S k))%nat with i by lia. exact Hi.
Qed.
Lemma find_index_at id l : In id l -> exists j, find_index id l = Some j /\ nth_error l j = Some id /\ (j < length l)%nat.
Proof.
  intros H. destruct (find_index id l) as [j|] eqn:E; [|exfalso; exact (find_index_none _ _ E H)].
  exists j. split; [reflexivity|]. destruct (find_index_split _ _ _ E) as (a & b & -> & <- & _).
  split; [rewrite nth_error_app2 by lia; rewrite Nat.sub_diag; reflexivity|]. rewrite app_length. cbn [length]. lia.
Qed.

Lemma repr_now y id d r rest : Reading crc y id d r rest -> exists v, Repr crc y v.
Proof. intros (v & _ & _ & _ & R & _). exists v. exact R. Qed.
Lemma reading_marked y id d r rest : Reading crc y id d r rest -> is_opened (atb (sfs y)) id = true.
Proof. intros (v & e & L & m & R & Rb & _). rewrite <- (marked_now crc y v id R). apply (rb_marked _ _ _ Rb). Qed.

(** opening: the outcomes *)
Lemma open_cases y v id : Repr crc y v ->
  (exists st, forall r, con_open id (Con (sfs y) r) = Some (Con (sfs y) r, st) /\ st <> Sucess) \/
  (exists s rd d, open_file_for_read id (sfs y) = (s, Ok rd) /\ perform crc (OpenRead id) y = (mkSys s (sws y) (srs y ++ [id]), RDone) /\
     content (v_files v) id = Some d /\ is_opened (atb (sfs y)) id = false).
Proof.
  intros R. pose proof (refines crc Hcrc y v (OpenRead id) R Logic.I) as Rf. unfold Refined in Rf. cbn [perform] in Rf.
  unfold con_open. cbn [cfs crd].
  assert (Same : forall s e, open_file_for_read id (sfs y) = (s, Err e) -> s = sfs y).
  { intros s e. pose proof R as [(p & ents & C & H & W & ST & _) _ _ _].
    destruct (open_read_op crc (sfs y) p (v_gen v) ents (v_top v) C H W id ST) as [(Ec & _)|(en & He & Ei & [(Ec & _)|(_ & [(Ec & _)|(s' & Ec & _)])])];
      rewrite Ec; intros X; apply pair_equal_spec in X; destruct X as [X1 X2]; try exact (eq_sym X1); discriminate X2. }
  destruct (open_file_for_read id (sfs y)) as [s [rd|e|]] eqn:E; cbn [finish] in Rf; destruct Rf as [(v' & D & _) _].
  - right. cbn [does] in D. destruct (lookup v id) as [x|] eqn:Lk; [|destruct D as [D _]; discriminate D].
    destruct (marked v id) eqn:Mk; [destruct D as [D _]; discriminate D|].
    exists s, rd, (f_data x). split; [reflexivity|]. split; [cbn [perform]; rewrite E; reflexivity|]. split; [apply content_look; exact Lk|].
    rewrite <- (marked_now crc y v id R). exact Mk.
  - left. rewrite (Same s e eq_refl). destruct e; eexists; intros r; (split; [reflexivity|discriminate]).
  - exfalso. cbn [does] in D. destruct (lookup v id); [|destruct D as [D _]; discriminate D]. destruct (marked v id); [destruct D as [D _]; discriminate D|].
    destruct (Nat.leb 32 (length (v_open v))); destruct D as [D _]; discriminate D.
Qed.

Lemma close_done id s : exists s', mark_file_closed id s = (s', Ok tt) /\ fl s' = fl s.
Proof.
  unfold mark_file_closed. rewrite bind_get. destruct (find_index id (a_open (atb s))) as [j|]; eexists; (split; [reflexivity|reflexivity]).
Qed.
(** giving back a reader, seen as a call *)
Lemma forget_call y id s : In id (srs y) -> mark_file_closed id (sfs y) = (s, Ok tt) ->
  exists j, nth_error (srs y) j = Some id /\ (j < length (srs y))%nat /\ perform crc (CloseReader j) y = (mkSys s (sws y) (forget id (srs y)), RDone).
Proof.
  intros Hin E. destruct (find_index_at id (srs y) Hin) as (j & Ej & Hj & Hl). exists j. split; [exact Hj|]. split; [exact Hl|].
  cbn [perform]. rewrite Hj, E. unfold forget. rewrite Ej. reflexivity.
Qed.
Lemma call_repr y v c y' a : Repr crc y v -> legal y c -> perform crc c y = (y', a) -> a <> RPanic -> exists v', Repr crc y' v'.
Proof.
  intros R L E Ha. pose proof (refines crc Hcrc y v c R (legal_allowed crc y v c R L)) as Rf. unfold Refined in Rf. rewrite E in Rf.
  destruct Rf as [(v' & _ & RR) _]. exists v'. exact (RR Ha).
Qed.
Lemma srs_keep y c y' a id : perform crc c y = (y', a) -> a <> RPanic -> not_mine id y c -> In id (srs y) -> In id (srs y').
Proof.
  assert (F : forall A (x : fs * res A) g y1 a1, finish x g y = (y1, a1) -> In id (srs y) ->
    (forall s b, In id (srs (fst (g s b)))) -> In id (srs y1)).
  { intros A [s [b|e|]] g y1 a1 E Hin Hg; cbn [finish] in E.
    - pose proof (Hg s b) as X. rewrite E in X. exact X.
    - apply pair_equal_spec in E. destruct E as [<- _]. exact Hin.
    - apply pair_equal_spec in E. destruct E as [<- _]. exact Hin. }
  intros E Ha Nm Hin. destruct c; cbn [perform not_mine] in *.
  - apply (F _ _ _ _ _ E Hin). intros; exact Hin.
  - apply (F _ _ _ _ _ E Hin). intros; exact Hin.
  - apply (F _ _ _ _ _ E Hin). intros; exact Hin.
  - apply (F _ _ _ _ _ E Hin). intros; exact Hin.
  - apply (F _ _ _ _ _ E Hin). intros. cbn [fst srs]. apply in_or_app. left. exact Hin.
  - destruct (nth_error (sws y) k); [|apply pair_equal_spec in E; destruct E as [<- _]; exact Hin]. apply (F _ _ _ _ _ E Hin). intros; exact Hin.
  - destruct (nth_error (sws y) k); [|apply pair_equal_spec in E; destruct E as [<- _]; exact Hin]. apply (F _ _ _ _ _ E Hin). intros; exact Hin.
  - destruct (nth_error (sws y) k); [|apply pair_equal_spec in E; destruct E as [<- _]; exact Hin]. apply (F _ _ _ _ _ E Hin). intros; exact Hin.
  - destruct (nth_error (srs y) k) as [i|] eqn:Ei; [|apply pair_equal_spec in E; destruct E as [<- _]; exact Hin]. apply (F _ _ _ _ _ E Hin). intros. cbn [fst srs].
    apply in_without_other; [exact Hin|congruence].
Qed.

Lemma sys_eta y : mkSys (sfs y) (sws y) (srs y) = y.
Proof. destruct y; reflexivity. Qed.
Lemma upd_same {A} (l : list A) k x : nth_error l k = Some x -> upd l k x = l.
Proof. revert k. induction l as [|a l IH]; intros [|k] H; cbn [nth_error upd] in *; try discriminate; [now injection H as ->|]. f_equal. apply IH. exact H. Qed.

(** every console's reader is where it was, except that console [k] may have another one *)
Lemma holds_upd y y' cs k x j id r : holds (Dev y' (upd cs k x)) j id r -> (k < length cs)%nat ->
  (j = k /\ x = Some (Some (id, r))) \/ (j <> k /\ holds (Dev y cs) j id r).
Proof.
  unfold holds. cbn [dcon]. intros H L. destruct (Nat.eq_dec j k) as [->|N].
  - rewrite nth_upd_same in H by exact L. injection H as ->. left. split; reflexivity.
  - rewrite nth_upd_other in H by exact N. right. split; [exact N|exact H].
Qed.
Lemma ok3 {A B D} (a a' : A) (b b' : B) (c c' : D) : Ok (a, b, c) = Ok (a', b', c') -> a = a' /\ b = b'.
Proof. intros H. injection H. auto. Qed.
Lemma nth_lt {A} (l : list A) k x : nth_error l k = Some x -> (k < length l)%nat.
Proof. intros H. apply nth_error_Some. congruence. Qed.

(** what a step leaves of the readers of the consoles that keep their files *)
Definition Tracked (d : dev) (e : devent) (d' : dev) : Prop :=
  forall k id r dd rest, holds d k id r -> Reading crc (dsys d) id dd r rest -> keeps_file k e ->
  (data_of k [e] = [] /\ holds d' k id r /\ Reading crc (dsys d') id dd r rest) \/
  (data_of k [e] = [(firstn CHUNK rest, false)] /\ exists r', holds d' k id r' /\ Reading crc (dsys d') id dd r' (skipn CHUNK rest)).

Lemma inv_same_sys d cs : DInv d -> length cs = 2%nat -> (forall k id r, nth_error cs k = Some (Some (Some (id, r))) -> holds d k id r) -> DInv (Dev (dsys d) cs).
Proof.
  intros [I1 I2 I3 I4] L H. constructor; cbn [dsys dcon]; [exact I1|exact L| |].
  - intros k id r Hk. apply (I3 k id r (H k id r Hk)).
  - intros k j id r r' Hk Hj. exact (I4 k j id r r' (H k id r Hk) (H j id r' Hj)).
Qed.

Lemma step_task d c a y' : DInv d -> fair d (Task c a) -> perform crc c (dsys d) = (y', a) -> a <> RPanic ->
  DInv (Dev y' (dcon d)) /\ Tracked d (Task c a) (Dev y' (dcon d)).
Proof.
  intros [(v & R) I2 I3 I4] [L Nm] E Ha.
  assert (K : forall k id r dd rest, holds d k id r -> Reading crc (dsys d) id dd r rest -> Reading crc y' id dd r rest).
  { intros k id r dd rest Hk Rd. exact (reading_other crc Hcrc _ _ _ _ _ c a y' Rd L (Nm k id r Hk) E Ha). }
  split.
  - constructor; cbn [dsys dcon]; [exact (call_repr _ v c y' a R L E Ha)|exact I2| |exact I4].
    intros k id r Hk. destruct (I3 k id r Hk) as [Hin (dd & rest & Rd)]. split; [exact (srs_keep _ c y' a id E Ha (Nm k id r Hk) Hin)|].
    exists dd, rest. exact (K k id r dd rest Hk Rd).
  - intros k id r dd rest Hk Rd _. left. split; [reflexivity|]. split; [exact Hk|exact (K k id r dd rest Hk Rd)].
Qed.

(** opening *)
Lemma step_open d k r0 id s' r' a : DInv d -> fair d (Req k (ROpen id) a) -> nth_error (dcon d) k = Some (Some r0) ->
  serve_req crc (ROpen id) (sfs (dsys d)) r0 = Some (s', r', a) ->
  let d' := Dev (mkSys s' (sws (dsys d)) (readers_after (ROpen id) a r0 (srs (dsys d)))) (upd (dcon d) k (Some r')) in
  DInv d' /\ Tracked d (Req k (ROpen id) a) d' /\
  (a = AOpen Sucess -> forall c F dd, snapshot crc (fl (sfs (dsys d))) c = Some F -> content F id = Some dd -> exists r, holds d' k id r /\ Reading crc (dsys d') id dd r dd) /\
  (a <> AOpen Sucess -> r' = r0).
Proof.
  intros I Fr Hk E d'. pose proof I as [(v & R) I2 I3 I4]. cbn [fair] in Fr. cbn [serve_req] in E. destruct d as [y cs]. cbn [dsys dcon] in *.
  destruct (open_cases y v id R) as [(st & Eo)|(s & rd & dd0 & Eo & Ep & Ec & Em)].
  - destruct (Eo r0) as [E1 Ne]. rewrite E1 in E. cbn [cfs crd] in E. injection E as <- <- <-.
    assert (Ed : d' = Dev y cs).
    { unfold d', readers_after. destruct st; [congruence| |]; rewrite sys_eta, (upd_same _ _ _ Hk); reflexivity. }
    rewrite Ed. split; [exact I|]. split; [|split; [intros X; congruence|reflexivity]].
    intros j i r dj rest Hj Rd _. left. split; [reflexivity|]. split; [exact Hj|exact Rd].
  - unfold con_open in E. cbn [cfs crd] in E. rewrite Eo in E.
    set (y1 := mkSys s (sws y) (srs y ++ [id])) in *.
    assert (Nw : ~ In id (map fst (v_wr v))). { destruct (repr_wr crc y v R) as [<- _]. exact Fr. }
    pose proof (reading_start crc Hcrc y v id dd0 y1 s rd R Ec Nw Ep Eo) as Rn.
    assert (Rn' : forall c F dd, snapshot crc (fl (sfs y)) c = Some F -> content F id = Some dd -> dd0 = dd).
    { intros c F dd Sn Ct. rewrite (repr_snapshot crc y v c R) in Sn. injection Sn as <-. rewrite Ec in Ct. now injection Ct as ->. }
    assert (K1 : forall j i r dj rest, holds (Dev y cs) j i r -> Reading crc y i dj r rest -> Reading crc y1 i dj r rest).
    { intros j i r dj rest _ Rd. exact (reading_other crc Hcrc _ _ _ _ _ (OpenRead id) RDone y1 Rd Logic.I Logic.I Ep ltac:(discriminate)). }
    assert (Dif : forall j i r, holds (Dev y cs) j i r -> i <> id).
    { intros j i r Hj ->. destruct (I3 j id r Hj) as [_ (dj & rest & Rd)]. pose proof (reading_marked _ _ _ _ _ Rd) as X. cbn [dsys] in X. congruence. }
    assert (In1 : forall j i r, holds (Dev y cs) j i r -> In i (srs y1)).
    { intros j i r Hj. cbn [srs y1]. apply in_or_app. left. exact (proj1 (I3 j i r Hj)). }
    pose proof (nth_lt _ _ _ Hk) as Lk.
    (* the state in which the new reader is in place and the old one has been given back *)
    assert (G : exists y', d' = Dev y' (upd cs k (Some (Some (id, rd)))) /\ a = AOpen Sucess /\ (exists v', Repr crc y' v') /\ In id (srs y') /\ Reading crc y' id dd0 rd dd0 /\
      forall j i r dj rest, j <> k -> holds (Dev y cs) j i r -> Reading crc y i dj r rest -> In i (srs y') /\ Reading crc y' i dj r rest).
    { destruct r0 as [[old rold]|].
      - destruct (close_done old s) as (s2 & Ecl & _). rewrite Ecl in E. cbn [cfs crd] in E. injection E as <- <- <-.
        assert (Ho : In old (srs y1)) by exact (In1 k old rold Hk).
        destruct (forget_call y1 old s2 Ho Ecl) as (q & Hq & Lq & Epq). cbn [sws srs y1] in Epq. set (y2 := mkSys s2 (sws y) (forget old (srs y ++ [id]))) in *.
        assert (Nq : forall i, i <> old -> not_mine i y1 (CloseReader q)) by (intros i Hi; cbn [not_mine]; rewrite Hq; congruence).
        assert (Lg : legal y1 (CloseReader q)) by exact Lq.
        exists y2. split; [reflexivity|]. split; [reflexivity|]. pose proof (Dif k old rold Hk) as Dold.
        pose proof (reading_other crc Hcrc _ _ _ _ _ (CloseReader q) RDone y2 Rn Lg (Nq id (fun X => Dold (eq_sym X))) Epq ltac:(discriminate)) as Rn2.
        split; [exact (repr_now _ _ _ _ _ Rn2)|]. split; [apply (srs_keep y1 (CloseReader q) y2 RDone id Epq ltac:(discriminate)); [apply Nq; congruence|cbn [srs y1]; apply in_or_app; right; left; reflexivity]|].
        split; [exact Rn2|]. intros j i r dj rest Nj Hj Rd.
        assert (Di : i <> old) by (intros ->; exact (Nj (I4 j k old r rold Hj Hk))).
        split; [apply (srs_keep y1 (CloseReader q) y2 RDone i Epq ltac:(discriminate)); [apply Nq; exact Di|exact (In1 j i r Hj)]|].
        exact (reading_other crc Hcrc _ _ _ _ _ (CloseReader q) RDone y2 (K1 j i r dj rest Hj Rd) Lg (Nq i Di) Epq ltac:(discriminate)).
      - cbn [cfs crd] in E. injection E as <- <- <-. exists y1. split; [reflexivity|]. split; [reflexivity|]. split; [exact (repr_now _ _ _ _ _ Rn)|].
        split; [cbn [srs y1]; apply in_or_app; right; left; reflexivity|]. split; [exact Rn|].
        intros j i r dj rest Nj Hj Rd. split; [exact (In1 j i r Hj)|exact (K1 j i r dj rest Hj Rd)]. }
    destruct G as (y' & -> & -> & Rp & Hin & Rd' & Oth). split; [|split; [|split]].
    + constructor; cbn [dsys dcon]; [exact Rp|rewrite len_upd; exact I2| |].
      * intros j i r Hj. destruct (holds_upd y _ cs k _ j i r Hj Lk) as [[-> X]|[Nj Hj']].
        -- injection X as <- <-. split; [exact Hin|]. exists dd0, dd0. exact Rd'.
        -- destruct (I3 j i r Hj') as [_ (dj & rest & Rj)]. destruct (Oth j i r dj rest Nj Hj' Rj) as [A B]. split; [exact A|]. exists dj, rest. exact B.
      * intros j1 j2 i r1 r2 H1 H2. destruct (holds_upd y _ cs k _ j1 i r1 H1 Lk) as [[-> X1]|[N1 H1']]; destruct (holds_upd y _ cs k _ j2 i r2 H2 Lk) as [[-> X2]|[N2 H2']].
        -- reflexivity.
        -- exfalso. injection X1 as <- <-. exact (Dif j2 _ r2 H2' eq_refl).
        -- exfalso. injection X2 as <- <-. exact (Dif j1 _ r1 H1' eq_refl).
        -- exact (I4 j1 j2 i r1 r2 H1' H2').
    + intros j i r dj rest Hj Rd Kp. cbn [keeps_file] in Kp. left. split; [reflexivity|].
      assert (Nj : j <> k) by congruence. split; [unfold holds; cbn [dcon]; rewrite nth_upd_other by exact Nj; exact Hj|exact (proj2 (Oth j i r dj rest Nj Hj Rd))].
    + intros _ c F dd Sn Ct. rewrite <- (Rn' c F dd Sn Ct). exists rd. split; [unfold holds; cbn [dcon]; apply nth_upd_same; exact Lk|exact Rd'].
    + congruence.
Qed.

(** reading *)
Lemma step_read d k r0 s' r' a : DInv d -> nth_error (dcon d) k = Some (Some r0) -> serve_req crc RRead (sfs (dsys d)) r0 = Some (s', r', a) ->
  let d' := Dev (mkSys s' (sws (dsys d)) (readers_after RRead a r0 (srs (dsys d)))) (upd (dcon d) k (Some r')) in
  DInv d' /\ Tracked d (Req k RRead a) d'.
Proof.
  intros I Hk E d'. pose proof I as [(v & R) I2 I3 I4]. destruct d as [y cs]. cbn [dsys dcon serve_req] in *. pose proof (nth_lt _ _ _ Hk) as Lk.
  unfold con_read in E. cbn [cfs crd] in E. destruct r0 as [[id r]|].
  - destruct (I3 k id r Hk) as [Hin (dd & rest & Rd)]. cbn [dsys] in *.
    assert (Det : forall dj rj, Reading crc y id dj r rj -> exists r1, read_slice crc (fl (sfs y)) r CHUNK = Ok (r1, firstn CHUNK rj, if Nat.leb CHUNK (length rj) then StOk else StEnd) /\ Reading crc y id dj r1 (skipn CHUNK rj)).
    { intros dj rj Rj. exact (reading_read crc y id dj r rj CHUNK Rj). }
    destruct (Det dd rest Rd) as (r1 & E1 & Rd1). rewrite E1 in E. cbn [cfs crd] in E.
    assert (X : s' = sfs y /\ r' = Some (id, r1) /\ a = AData (firstn CHUNK rest) false).
    { destruct (Nat.leb CHUNK (length rest)); injection E as <- <- <-; auto. }
    destruct X as (-> & -> & ->). clear E. assert (Ed : d' = Dev y (upd cs k (Some (Some (id, r1))))). { unfold d'. cbn [readers_after]. rewrite sys_eta. reflexivity. }
    rewrite Ed. split.
    + constructor; cbn [dsys dcon]; [exists v; exact R|rewrite len_upd; exact I2| |].
      * intros j i q Hj. destruct (holds_upd y _ cs k _ j i q Hj Lk) as [[-> X]|[Nj Hj']].
        -- injection X as <- <-. split; [exact Hin|]. exists dd, (skipn CHUNK rest). exact Rd1.
        -- exact (I3 j i q Hj').
      * intros j1 j2 i r1' r2 H1 H2. destruct (holds_upd y _ cs k _ j1 i r1' H1 Lk) as [[-> X1]|[N1 H1']]; destruct (holds_upd y _ cs k _ j2 i r2 H2 Lk) as [[-> X2]|[N2 H2']].
        -- reflexivity.
        -- injection X1 as <- <-. exact (I4 k j2 id r r2 Hk H2').
        -- injection X2 as <- <-. exact (I4 j1 k id r1' r H1' Hk).
        -- exact (I4 j1 j2 i r1' r2 H1' H2').
    + intros j i q dj rj Hj Rj _. cbn [data_of flat_map app]. destruct (Nat.eqb_spec k j) as [<-|Nj].
      * right. unfold holds in Hj. cbn [dcon] in Hj. rewrite Hk in Hj. injection Hj as <- <-. destruct (Det dj rj Rj) as (r2 & E2 & Rd2). rewrite E1 in E2.
        destruct (ok3 _ _ _ _ _ _ E2) as [<- Ef]. cbn [app]. rewrite Ef. split; [reflexivity|]. exists r1. split; [unfold holds; cbn [dcon]; apply nth_upd_same; exact Lk|exact Rd2].
      * left. split; [reflexivity|]. split; [unfold holds; cbn [dcon]; rewrite nth_upd_other by congruence; exact Hj|exact Rj].
  - injection E as <- <- <-. assert (Ed : d' = Dev y cs). { unfold d'. cbn [readers_after]. rewrite sys_eta, (upd_same _ _ _ Hk). reflexivity. }
    rewrite Ed. split; [exact I|]. intros j i q dj rj Hj Rj _. left. cbn [data_of flat_map app]. destruct (Nat.eqb_spec k j) as [<-|Nj].
    + unfold holds in Hj. cbn [dcon] in Hj. congruence.
    + split; [reflexivity|]. split; [exact Hj|exact Rj].
Qed.

(** closing *)
Lemma step_close d k r0 s' r' a : DInv d -> nth_error (dcon d) k = Some (Some r0) -> serve_req crc RClose (sfs (dsys d)) r0 = Some (s', r', a) ->
  let d' := Dev (mkSys s' (sws (dsys d)) (readers_after RClose a r0 (srs (dsys d)))) (upd (dcon d) k (Some r')) in
  DInv d' /\ Tracked d (Req k RClose a) d' /\ r' = None /\ forall id r, r0 = Some (id, r) -> is_opened (atb s') id = false.
Proof.
  intros I Hk E d'. pose proof I as [(v & R) I2 I3 I4]. destruct d as [y cs]. cbn [dsys dcon serve_req] in *. pose proof (nth_lt _ _ _ Hk) as Lk.
  unfold con_close in E. cbn [cfs crd] in E. destruct r0 as [[old rold]|].
  - destruct (close_done old (sfs y)) as (s2 & Ecl & _). rewrite Ecl in E. cbn [cfs crd] in E. injection E as <- <- <-.
    destruct (I3 k old rold Hk) as [Ho (dd & rest & Rdo)]. cbn [dsys] in *.
    destruct (forget_call y old s2 Ho Ecl) as (q & Hq & Lq & Epq). cbn [readers_after] in d'. set (y2 := mkSys s2 (sws y) (forget old (srs y))) in *.
    assert (Nq : forall i, i <> old -> not_mine i y (CloseReader q)) by (intros i Hi; cbn [not_mine]; rewrite Hq; congruence).
    assert (Lg : legal y (CloseReader q)) by exact Lq.
    assert (Oth : forall j i r dj rj, j <> k -> holds (Dev y cs) j i r -> Reading crc y i dj r rj -> In i (srs y2) /\ Reading crc y2 i dj r rj).
    { intros j i r dj rj Nj Hj Rj. assert (Di : i <> old) by (intros ->; exact (Nj (I4 j k old r rold Hj Hk))).
      split; [apply (srs_keep y (CloseReader q) y2 RDone i Epq ltac:(discriminate)); [apply Nq; exact Di|exact (proj1 (I3 j i r Hj))]|].
      exact (reading_other crc Hcrc _ _ _ _ _ (CloseReader q) RDone y2 Rj Lg (Nq i Di) Epq ltac:(discriminate)). }
    split; [|split; [|split; [reflexivity|]]].
    + constructor; unfold d'; cbn [dsys dcon]; [exact (call_repr y v (CloseReader q) y2 RDone R Lg Epq ltac:(discriminate))|rewrite len_upd; exact I2| |].
      * intros j i r Hj. destruct (holds_upd y _ cs k _ j i r Hj Lk) as [[_ X]|[Nj Hj']]; [discriminate X|].
        destruct (I3 j i r Hj') as [_ (dj & rj & Rj)]. destruct (Oth j i r dj rj Nj Hj' Rj) as [A B]. split; [exact A|]. exists dj, rj. exact B.
      * intros j1 j2 i r1 r2 H1 H2. destruct (holds_upd y _ cs k _ j1 i r1 H1 Lk) as [[_ X1]|[N1 H1']]; [discriminate X1|]. destruct (holds_upd y _ cs k _ j2 i r2 H2 Lk) as [[_ X2]|[N2 H2']]; [discriminate X2|].
        exact (I4 j1 j2 i r1 r2 H1' H2').
    + intros j i r dj rj Hj Rj Kp. cbn [keeps_file] in Kp. left. split; [reflexivity|]. assert (Nj : j <> k) by congruence.
      split; [unfold holds, d'; cbn [dcon]; rewrite nth_upd_other by exact Nj; exact Hj|exact (proj2 (Oth j i r dj rj Nj Hj Rj))].
    + intros id r X. injection X as <- <-. pose proof R as [_ _ Hop Hnd]. unfold mark_file_closed in Ecl. rewrite bind_get in Ecl.
      destruct (find_index old (a_open (atb (sfs y)))) as [n|] eqn:En.
      * unfold modify in Ecl. apply pair_equal_spec in Ecl. destruct Ecl as [<- _]. cbn [atb a_open set_at]. destruct (find_index_split _ _ _ En) as (l1 & l2 & El & <- & _).
        rewrite El. assert (Nd : NoDup (l1 ++ old :: l2)) by (rewrite <- El; apply (Permutation_NoDup (Permutation_sym Hop) Hnd)).
        apply NoDup_remove_2 in Nd. destruct (is_opened (mkAT (a_seq (atb (sfs y))) (a_count (atb (sfs y))) (a_max (atb (sfs y))) (a_pos (atb (sfs y))) (swap_remove (l1 ++ old :: l2) (length l1))) old) eqn:Eo; [|reflexivity].
        exfalso. unfold is_opened in Eo. cbn [a_open] in Eo. apply existsb_exists in Eo. destruct Eo as (x & Hx & Ex). apply N.eqb_eq in Ex. subst x.
        apply Nd. exact (Permutation_in _ (swap_remove_perm l1 l2 old) Hx).
      * apply pair_equal_spec in Ecl. destruct Ecl as [<- _]. apply find_index_none in En. destruct (is_opened (atb (sfs y)) old) eqn:Eo; [|reflexivity].
        exfalso. unfold is_opened in Eo. apply existsb_exists in Eo. destruct Eo as (x & Hx & Ex). apply N.eqb_eq in Ex. subst x. exact (En Hx).
  - injection E as <- <- <-. assert (Ed : d' = Dev y cs). { unfold d'. cbn [readers_after]. rewrite sys_eta, (upd_same _ _ _ Hk). reflexivity. }
    rewrite Ed. split; [exact I|]. split; [|split; [reflexivity|intros id r X; discriminate X]]. intros j i q dj rj Hj Rj _. left. split; [reflexivity|]. split; [exact Hj|exact Rj].
Qed.

(** every step *)
Lemma step_inv d e d' : DInv d -> fair d e -> dstep crc d e d' -> DInv d' /\ Tracked d e d'.
Proof.
  intros I Fr St. inversion St as [d0 c a y' Ep Ha|d0 k r q s' r' a Hk E|d0 Hk|d0 k Hk]; subst.
  - exact (step_task d c a y' I Fr Ep Ha).
  - destruct q as [id| |].
    + destruct (step_open d k r id s' r' a I Fr Hk E) as (A & B & _). split; assumption.
    + exact (step_read d k r s' r' a I Hk E).
    + destruct (step_close d k r s' r' a I Hk E) as (A & B & _). split; assumption.
  - pose proof (nth_lt _ _ _ Hk) as Lk. split.
    + apply inv_same_sys; [exact I|rewrite len_upd; apply (di_two _ I)|]. intros k id r H. destruct (holds_upd (dsys d) (dsys d) _ _ _ k id r H Lk) as [[_ X]|[_ X]]; [discriminate X|exact X].
    + intros k id r dd rest H Rd _. left. split; [reflexivity|]. split; [|exact Rd]. unfold holds in *. cbn [dcon]. rewrite nth_upd_other; [exact H|]. intros ->. congruence.
  - pose proof (nth_lt _ _ _ Hk) as Lk. split.
    + apply inv_same_sys; [exact I|rewrite len_upd; apply (di_two _ I)|]. intros j id r H. destruct (holds_upd (dsys d) (dsys d) _ _ _ j id r H Lk) as [[_ X]|[_ X]]; [discriminate X|exact X].
    + intros j id r dd rest H Rd Kp. cbn [keeps_file] in Kp. left. split; [reflexivity|]. split; [|exact Rd]. unfold holds in *. cbn [dcon]. rewrite nth_upd_other by congruence. exact H.
Qed.

Lemma start_inv es y : history crc es (On y) -> DInv (dev_start y).
Proof.
  intros Hh. destruct (running crc es y Hcrc Hh) as (v & _ & R). assert (No : forall k id r, ~ holds (dev_start y) k id r).
  { intros [|[|[|k]]] id r H; unfold holds in H; cbn [dev_start dcon nth_error] in H; discriminate H. }
  constructor; cbn [dsys dcon dev_start]; [exists v; exact R|reflexivity|intros k id r H; destruct (No k id r H)|intros k j id r r' H; destruct (No k id r H)].
Qed.
Lemma go_inv d es d' : goes_on crc d es d' -> DInv d -> DInv d'.
Proof. induction 1 as [|d e d1 es d2 Fr St _ IH]; [auto|]. intros I. apply IH. exact (proj1 (step_inv d e d1 I Fr St)). Qed.
Lemma device_inv es d : device crc es d -> DInv d.
Proof. intros (hs & y & Hh & G). exact (go_inv _ _ _ G (start_inv hs y Hh)). Qed.
Lemma go_app d es1 d1 es2 d2 : goes_on crc d es1 d1 -> goes_on crc d1 es2 d2 -> goes_on crc d (es1 ++ es2) d2.
Proof. induction 1 as [|d e d' es1 d1' Fr St _ IH]; [auto|]. intros G. cbn [app]. econstructor; [exact Fr|exact St|exact (IH G)]. Qed.
Lemma go_snoc d es d1 e d2 : goes_on crc d es d1 -> fair d1 e -> dstep crc d1 e d2 -> goes_on crc d (es ++ [e]) d2.
Proof. intros G Fr St. apply (go_app _ _ _ _ _ G). econstructor; [exact Fr|exact St|constructor]. Qed.
Lemma go_split d es1 es2 d2 : goes_on crc d (es1 ++ es2) d2 -> exists d1, goes_on crc d es1 d1 /\ goes_on crc d1 es2 d2.
Proof.
  revert d. induction es1 as [|e es1 IH]; intros d G; cbn [app] in G; [exists d; split; [constructor|exact G]|].
  inversion G as [|? ? d1 ? ? Fr St G1]; subst. destruct (IH d1 G1) as (dm & A & B). exists dm. split; [econstructor; eassumption|exact B].
Qed.
End Inv.

Section State.
Variable crc : list byte -> N.
Hypothesis Hcrc : crc32 crc.

(** what a console's state has to do with its requests and responses *)
Definition about (k : nat) (o : option N) (b : bool) (c : option (option (option (N * reader)))) : Prop :=
  if b then match o with
            | None => c = Some (Some None)
            | Some id => exists r, c = Some (Some (Some (id, r)))
            end
  else c = Some None /\ o = None.

Lemma about_step d e d' k o b : DInv crc d -> fair d e -> dstep crc d e d' -> (k < 2)%nat -> about k o b (nth_error (dcon d) k) ->
  about k (opens k o e) (serves k b e) (nth_error (dcon d') k).
Proof.
  intros I Fr St Lk2 Ab. assert (Ln : forall j, (j < 2)%nat -> (j < length (dcon d))%nat) by (intros j; rewrite (di_two _ _ I); auto).
  inversion St as [d0 c a y' Ep Ha|d0 j r q s' r' a Hj E|d0 Hj|d0 j Hj]; subst; cbn [opens serves dcon].
  - exact Ab.
  - assert (Lj : (j < length (dcon d))%nat) by (apply nth_error_Some; congruence).
    destruct (Nat.eqb_spec j k) as [->|Nj].
    + rewrite nth_upd_same by exact Lj. rewrite Hj in Ab.
      destruct b; cbn [about] in Ab |- *; [|destruct Ab; discriminate].
      destruct q as [id| |].
      * destruct (step_open crc Hcrc d k r id s' r' a I Fr Hj E) as (_ & _ & S1 & S2).
        cbn [serve_req] in E. destruct (con_open id (Con (sfs (dsys d)) r)) as [[c st]|] eqn:Ec; [|discriminate E]. injection E as <- <- <-.
        assert (Ns : st <> Sucess -> crd c = r) by (intros N; apply S2; congruence).
        destruct st; [|rewrite Ns by discriminate; exact Ab|rewrite Ns by discriminate; exact Ab].
        destruct (di_repr _ _ I) as (v & R). destruct (open_cases crc Hcrc (dsys d) v id R) as [(st & Eo)|(s & rd & dd0 & Eo & Ep & Ect & Em)].
        { exfalso. destruct (Eo r) as [E1 Ne]. rewrite E1 in Ec. injection Ec as _ Es. exact (Ne Es). }
        destruct (S1 eq_refl (fun _ => 0) (v_files v) dd0 (repr_snapshot crc (dsys d) v _ R) Ect) as (r1 & Hh & _).
        unfold holds in Hh. cbn [dcon] in Hh. rewrite nth_upd_same in Hh by exact Lj. exists r1. exact Hh.
      * cbn [serve_req] in E. unfold con_read in E. cbn [crd cfs] in E. destruct r as [[id r]|].
        -- destruct (read_slice crc (fl (sfs (dsys d))) r CHUNK) as [[[r1 d1] st]|e|]; [|injection E as _ <- _; exact Ab|discriminate E]. cbn [cfs crd] in E. injection E as _ <- _.
           destruct o as [i|]; [|discriminate Ab]. destruct Ab as (r2 & X). injection X as -> _. exists r1. reflexivity.
        -- injection E as _ <- _. exact Ab.
      * destruct (step_close crc Hcrc d k r s' r' a I Hj E) as (_ & _ & -> & _). reflexivity.
    + rewrite nth_upd_other by congruence. destruct q as [id| |]; [destruct a as [st| |]; [destruct st|..]|..]; exact Ab.
  - destruct (Nat.eqb_spec k USB) as [->|N].
    + rewrite nth_upd_same by (apply Ln; unfold USB; lia). destruct b; cbn [about] in *.
      * destruct o as [i|]; [destruct Ab as (r & X); rewrite Hj in X; discriminate X|reflexivity].
      * destruct Ab as [_ ->]. reflexivity.
    + rewrite nth_upd_other by congruence. exact Ab.
  - destruct (Nat.eqb_spec j k) as [->|N].
    + rewrite nth_upd_same by (apply Ln; exact Lk2). cbn [about]. auto.
    + rewrite nth_upd_other by congruence. exact Ab.
Qed.

Lemma about_go d es d' k : goes_on crc d es d' -> (k < 2)%nat -> forall o b, DInv crc d -> about k o b (nth_error (dcon d) k) ->
  about k (fold_left (opens k) es o) (fold_left (serves k) es b) (nth_error (dcon d') k).
Proof.
  intros G Lk. induction G as [d|d e d1 es d2 Fr St G IH]; intros o b I Ab; [exact Ab|]. cbn [fold_left]. apply IH.
  - exact (proj1 (step_inv crc Hcrc d e d1 I Fr St)).
  - exact (about_step d e d1 k o b I Fr St Lk Ab).
Qed.
Lemma device_about es d k : device crc es d -> (k < 2)%nat -> about k (open_on k es) (in_service k es) (nth_error (dcon d) k).
Proof.
  intros (hs & y & Hh & G) Lk. unfold open_on, in_service. apply (about_go (dev_start y) es d k G Lk); [exact (start_inv crc Hcrc hs y Hh)|].
  destruct k as [|[|k]]; cbn [dev_start dcon nth_error Nat.eqb SERIAL about]; [reflexivity|auto|lia].
Qed.
End State.

(** ** The theorems *)
(** every request on a console that is in service is answered: whatever has happened before, no handler panics and none fails to respond *)
Theorem C119_requests_are_answered : forall crc, crc32 crc -> forall es d k q, device crc es d -> (k < 2)%nat -> in_service k es = true ->
  (forall id, q = ROpen id -> ~ In id (map w_id (sws (dsys d)))) ->
  exists a d', dstep crc d (Req k q a) d' /\ device crc (es ++ [Req k q a]) d'.
Proof.
  intros crc Hc es d k q Dv Lk Sv Nw. pose proof (device_inv crc Hc es d Dv) as I. pose proof (device_about crc Hc es d k Dv Lk) as Ab. rewrite Sv in Ab. cbn [about] in Ab.
  assert (Hs : exists r, nth_error (dcon d) k = Some (Some r)) by (destruct (open_on k es); [destruct Ab as (r & ->)|rewrite Ab]; eauto). destruct Hs as (r & Hk).
  assert (A : exists s' r' a, serve_req crc q (sfs (dsys d)) r = Some (s', r', a)).
  { destruct (di_repr _ _ I) as (v & R). destruct q as [id| |]; cbn [serve_req].
    - destruct (open_cases crc Hc (dsys d) v id R) as [(st & Eo)|(s & rd & dd0 & Eo & _)].
      + destruct (Eo r) as [-> _]. eauto.
      + unfold con_open. cbn [cfs crd]. rewrite Eo. destruct r as [[old rold]|]; [|eauto]. destruct (close_done old s) as (s2 & -> & _). eauto.
    - unfold con_read. cbn [crd cfs]. destruct r as [[id r]|]; [|eauto]. destruct (di_read _ _ I k id r Hk) as [_ (dd & rest & Rd)].
      destruct (reading_read crc (dsys d) id dd r rest CHUNK Rd) as (r1 & -> & _). eauto.
    - unfold con_close. cbn [crd cfs]. destruct r as [[id r]|]; [|eauto]. destruct (close_done id (sfs (dsys d))) as (s2 & -> & _). eauto. }
  destruct A as (s' & r' & a & E). exists a. eexists. split; [exact (ds_req crc d k r q s' r' a Hk E)|].
  destruct Dv as (hs & y & Hh & G). exists hs, y. split; [exact Hh|]. eapply go_snoc; [exact G| |exact (ds_req crc d k r q s' r' a Hk E)].
  destruct q as [id| |]; cbn [fair]; try exact Logic.I. apply Nw. reflexivity.
Qed.
Print Assumptions C119_requests_are_answered.

(** a pull among everything else: from the moment a console has opened a file until it lets go of it, its read requests get the file's content from the
    beginning in pieces of 128 bytes, without a gap or an error, whatever the other tasks and the other console do in between *)
Theorem C119_reads_are_exact : forall crc, crc32 crc -> forall es1 d1 k id d2 es2 d3 c F dd, device crc es1 d1 ->
  snapshot crc (fl (sfs (dsys d1))) c = Some F -> content F id = Some dd ->
  fair d1 (Req k (ROpen id) (AOpen Sucess)) -> dstep crc d1 (Req k (ROpen id) (AOpen Sucess)) d2 -> goes_on crc d2 es2 d3 -> Forall (keeps_file k) es2 ->
  data_of k es2 = map (fun p => (fst p, false)) (expect dd (repeat CHUNK (length (data_of k es2)))) /\
  forall c3, exists F3, snapshot crc (fl (sfs (dsys d3))) c3 = Some F3 /\ content F3 id = Some dd.
Proof.
  intros crc Hc es1 d1 k id d2 es2 d3 c F dd Dv Sn Ct Fr St G Kp. pose proof (device_inv crc Hc es1 d1 Dv) as I.
  pose proof (proj1 (step_inv crc Hc _ _ _ I Fr St)) as I2.
  assert (H2 : exists r, holds d2 k id r /\ Reading crc (dsys d2) id dd r dd).
  { inversion St as [|d0 j r q s' r' a Hj E| |]; subst. destruct (step_open crc Hc d1 k r id s' r' _ I Fr Hj E) as (_ & _ & S1 & _). exact (S1 eq_refl c F dd Sn Ct). }
  destruct H2 as (r & Hr & Rd). clear Sn Ct Fr St I Dv.
  assert (M : forall rest r, holds d2 k id r -> Reading crc (dsys d2) id dd r rest ->
    data_of k es2 = map (fun p => (fst p, false)) (expect rest (repeat CHUNK (length (data_of k es2)))) /\ exists r3 rest3, Reading crc (dsys d3) id dd r3 rest3).
  { clear r Hr Rd. induction G as [d|d e dm es d4 Fr St G IH]; intros rest r Hr Rd.
    - split; [reflexivity|]. exists r, rest. exact Rd.
    - inversion Kp as [|? ? K1 K2]; subst. destruct (step_inv crc Hc d e dm I2 Fr St) as [Im Tr].
      assert (Ed : data_of k (e :: es) = data_of k [e] ++ data_of k es).
      { unfold data_of. cbn [flat_map]. rewrite app_nil_r. reflexivity. }
      rewrite Ed. destruct (Tr k id r dd rest Hr Rd K1) as [(E0 & Hr1 & Rd1)|(E0 & r1 & Hr1 & Rd1)]; rewrite E0.
      + exact (IH K2 Im rest r Hr1 Rd1).
      + destruct (IH K2 Im (skipn CHUNK rest) r1 Hr1 Rd1) as [E1 X]. split; [|exact X]. cbn [app length repeat expect map fst]. rewrite <- E1. reflexivity. }
  destruct (M dd r Hr Rd) as [E (r3 & rest3 & (v3 & e3 & L3 & m3 & R3 & Rb3 & _))]. split; [exact E|].
  intros c3. exists (v_files v3). split; [apply (repr_snapshot crc (dsys d3) v3 c3 R3)|apply (rb_content _ _ _ Rb3)].
Qed.
Print Assumptions C119_reads_are_exact.

(** the file a console has open is in use - no other task can write to it or remove it - and is free again once the console has closed it *)
Theorem C119_in_use_until_closed : forall crc, crc32 crc -> forall es d k id, device crc es d -> (k < 2)%nat -> open_on k es = Some id ->
  is_opened (atb (sfs (dsys d))) id = true /\
  forall a d', dstep crc d (Req k RClose a) d' -> is_opened (atb (sfs (dsys d'))) id = false /\ fl (sfs (dsys d')) = fl (sfs (dsys d)).
Proof.
  intros crc Hc es d k id Dv Lk Op. pose proof (device_inv crc Hc es d Dv) as I. pose proof (device_about crc Hc es d k Dv Lk) as Ab. rewrite Op in Ab.
  destruct (in_service k es); cbn [about] in Ab; [|destruct Ab; discriminate]. destruct Ab as (r & Hk). destruct (di_read _ _ I k id r Hk) as [_ (dd & rest & Rd)].
  split; [exact (reading_marked crc _ _ _ _ _ Rd)|]. intros a d' St. inversion St as [|d0 j r0 q s' r' a0 Hj E| |]; subst. rewrite Hk in Hj. injection Hj as <-.
  destruct (step_close crc Hc d k _ s' r' a I Hk E) as (_ & _ & _ & X). cbn [dsys sfs]. split; [exact (X id r eq_refl)|].
  cbn [serve_req] in E. unfold con_close in E. cbn [crd cfs] in E. destruct (close_done id (sfs (dsys d))) as (s2 & E2 & Ef). rewrite E2 in E. injection E as <- _ _. exact Ef.
Qed.
Print Assumptions C119_in_use_until_closed.

(** the console makes the device panic in exactly one way: its line fails while a file is open *)
Theorem C119_panics_iff_unplugged_while_open : forall crc, crc32 crc -> forall es d e, device crc es d -> fair d e -> (forall c r, e <> Task c r) ->
  (panics crc d e <-> exists k, e = Unplug k /\ (k < 2)%nat /\ open_on k es <> None).
Proof.
  intros crc Hc es d e Dv Fr Nt. pose proof (device_inv crc Hc es d Dv) as I. destruct e as [c r|k q a| |k]; cbn [panics].
  - destruct (Nt c r eq_refl).
  - split; [|intros (j & X & _); discriminate X]. intros (r & Hk & E). exfalso.
    assert (Lk : (k < 2)%nat) by (rewrite <- (di_two _ _ I); apply nth_error_Some; congruence). pose proof (device_about crc Hc es d k Dv Lk) as Ab.
    destruct (in_service k es) eqn:Sv; [|cbn [about] in Ab; destruct Ab; congruence].
    destruct (C119_requests_are_answered crc Hc es d k q Dv Lk Sv) as (a' & d' & St & _).
    { intros id ->. exact Fr. }
    inversion St as [|d0 j r0 q0 s' r' a0 Hj Ej| |]; subst. congruence.
  - split; [intros []|intros (j & X & _); discriminate X].
  - split.
    + intros (x & Hk). exists k. split; [reflexivity|]. assert (Lk : (k < 2)%nat) by (rewrite <- (di_two _ _ I); apply nth_error_Some; congruence). split; [exact Lk|].
      pose proof (device_about crc Hc es d k Dv Lk) as Ab. intros Op. rewrite Op in Ab. destruct (in_service k es); cbn [about] in Ab; [congruence|destruct Ab; congruence].
    + intros (j & X & Lk & Op). injection X as <-. pose proof (device_about crc Hc es d k Dv Lk) as Ab. destruct (in_service k es); cbn [about] in Ab; [|destruct Ab; congruence].
      destruct (open_on k es) as [id|]; [|congruence]. destruct Ab as (r & ->). eauto.
Qed.
Print Assumptions C119_panics_iff_unplugged_while_open.

(** after one failure of its line the serial console is never served again, whereas the USB console is served again once it is plugged in *)
Theorem C119_serial_console_serves_once : forall crc, crc32 crc -> forall es d, device crc es d ->
  (In (Unplug SERIAL) es -> in_service SERIAL es = false /\ forall q a d', ~ dstep crc d (Req SERIAL q a) d') /\
  (in_service USB es = false -> exists d', dstep crc d Plug d' /\ in_service USB (es ++ [Plug]) = true).
Proof.
  intros crc Hc es d Dv. split.
  - intros Hin. assert (Sv : in_service SERIAL es = false).
    { assert (X : forall es0 b, (b = false \/ In (Unplug SERIAL) es0) -> fold_left (serves SERIAL) es0 b = false).
      { intros es0. clear. induction es0 as [|e es0 IH]; intros b Hb; cbn [fold_left]; [destruct Hb as [Hb|[]]; exact Hb|]. apply IH.
        destruct Hb as [->|[->|Hb]]; [|left; reflexivity|right; exact Hb].
        left. destruct e as [c r|j q a| |j]; cbn [serves]; try reflexivity. destruct (Nat.eqb j SERIAL); reflexivity. }
      apply X. right. exact Hin. }
    split; [exact Sv|]. intros q a d' St. pose proof (device_about crc Hc es d SERIAL Dv ltac:(unfold SERIAL; lia)) as Ab. rewrite Sv in Ab. cbn [about] in Ab.
    inversion St as [|d0 j r0 q0 s' r' a0 Hj Ej| |]; subst. destruct Ab as [Ab _]. congruence.
  - intros Sv. pose proof (device_about crc Hc es d USB Dv ltac:(unfold USB; lia)) as Ab. rewrite Sv in Ab. cbn [about] in Ab. destruct Ab as [Ab _].
    eexists. split; [exact (ds_plug crc d Ab)|]. unfold in_service. rewrite fold_left_app. reflexivity.
Qed.
Print Assumptions C119_serial_console_serves_once.

(** ** Concrete cases *)
(** a device with the two files of [two_files]; the laptop is plugged in, opens file 1 and asks for a piece, while another task creates a file and the serial
    console opens file 2; then the USB cable is pulled: the device panics *)
Lemma dev_run_step crc d es d1 e d2 : goes_on crc d es d1 -> fair d1 e -> dstep crc d1 e d2 -> goes_on crc d (es ++ [e]) d2.
Proof. intros G Fr St. exact (go_snoc crc d es d1 e d2 G Fr St). Qed.

Theorem C119_refuted_unplugged_during_a_pull : exists es d, device sum es d /\ in_service USB es = true /\ open_on USB es = Some 1 /\
  data_of USB es = [([1;2;3;4;5], false)] /\ open_on SERIAL es = Some 2 /\ fair d (Unplug USB) /\ panics sum d (Unplug USB) /\
  (exists a d1, dstep sum d (Req USB RClose a) d1 /\ ~ panics sum d1 (Unplug USB) /\ exists d2, dstep sum d1 (Unplug USB) d2).
Proof.
  destruct (reach two_files (fun y => is_done (snd (perform sum (OpenRead 1) y)) && forallb (fun w => negb (w_id w =? 1) && negb (w_id w =? 2)) (sws y) &&
      match snapshot sum (fl (sfs y)) (fun _ => 0) with Some F => same F [(1, 3, [1;2;3;4;5]); (2, 4, [])] | None => false end &&
      match serve_req sum (ROpen 1) (sfs y) None with
      | Some (s1, r1, AOpen Sucess) =>
        match serve_req sum (ROpen 2) s1 None with
        | Some (s2, _, AOpen Sucess) => match serve_req sum RRead s2 r1 with Some (_, _, AData [1;2;3;4;5] false) => true | _ => false end
        | _ => false
        end
      | _ => false
      end)) as (hs & y & Hh & H); [vm_compute; reflexivity|].
  apply andb_prop in H. destruct H as [H H4]. apply andb_prop in H. destruct H as [H H3]. apply andb_prop in H. destruct H as [_ H2].
  destruct (serve_req sum (ROpen 1) (sfs y) None) as [[[s1 r1] [[| |]| |]]|] eqn:E1; try (exfalso; exact (Bool.diff_false_true H4)).
  destruct (serve_req sum (ROpen 2) s1 None) as [[[s2 r2] [[| |]| |]]|] eqn:E2; try (exfalso; exact (Bool.diff_false_true H4)).
  destruct (serve_req sum RRead s2 r1) as [[[s3 r3] [st|dd bad|]]|] eqn:E3; try (exfalso; exact (Bool.diff_false_true H4)).
  assert (X : dd = [1;2;3;4;5] /\ bad = false).
  { clear -H4. repeat (match type of H4 with context [match ?x with _ => _ end] => destruct x; try (exfalso; exact (Bool.diff_false_true H4)) end). auto. }
  destruct X as [-> ->]. clear H4.
  assert (Nw : forall id, id = 1 \/ id = 2 -> ~ In id (map w_id (sws y))).
  { intros id Hid X. apply in_map_iff in X. destruct X as (w & Ew & Hw). rewrite forallb_forall in H2. specialize (H2 w Hw). rewrite Ew in H2.
    destruct Hid as [->| ->]; exact (Bool.diff_false_true H2). }
  set (d0 := dev_start y). set (d1 := Dev y [Some None; Some None]).
  set (y2 := mkSys s1 (sws y) (readers_after (ROpen 1) (AOpen Sucess) None (srs y))). set (d2 := Dev y2 [Some None; Some r1]).
  set (y3 := mkSys s2 (sws y2) (readers_after (ROpen 2) (AOpen Sucess) None (srs y2))). set (d3 := Dev y3 [Some r2; Some r1]).
  set (y4 := mkSys s3 (sws y3) (readers_after RRead (AData [1;2;3;4;5] false) r1 (srs y3))). set (d4 := Dev y4 [Some r2; Some r3]).
  set (es := [Plug; Req USB (ROpen 1) (AOpen Sucess); Req SERIAL (ROpen 2) (AOpen Sucess); Req USB RRead (AData [1;2;3;4;5] false)]).
  assert (Dv : device sum es d4).
  { exists hs, y. split; [exact Hh|]. unfold es. apply (go_step _ _ _ d1); [exact Logic.I|exact (ds_plug sum d0 eq_refl)|].
    apply (go_step _ _ _ d2); [apply Nw; left; reflexivity|exact (ds_req sum d1 USB None (ROpen 1) s1 r1 _ eq_refl E1)|].
    apply (go_step _ _ _ d3); [apply Nw; right; reflexivity|exact (ds_req sum d2 SERIAL None (ROpen 2) s2 r2 _ eq_refl E2)|].
    apply (go_step _ _ _ d4); [exact Logic.I|exact (ds_req sum d3 USB r1 RRead s3 r3 _ eq_refl E3)|constructor]. }
  assert (Op : open_on USB es = Some 1) by reflexivity. assert (Sv : in_service USB es = true) by reflexivity.
  exists es, d4. split; [exact Dv|]. split; [exact Sv|]. split; [exact Op|]. split; [reflexivity|]. split; [reflexivity|]. split; [exact Logic.I|]. split.
  - apply (C119_panics_iff_unplugged_while_open sum sum32 es d4 (Unplug USB) Dv Logic.I); [intros c r X; discriminate X|]. exists USB. split; [reflexivity|]. split; [unfold USB; lia|].
    rewrite Op. discriminate.
  - destruct (C119_requests_are_answered sum sum32 es d4 USB RClose Dv ltac:(unfold USB; lia) Sv ltac:(intros id X; discriminate X)) as (a & d5 & St & Dv5).
    exists a, d5. split; [exact St|].
    assert (Op5 : open_on USB (es ++ [Req USB RClose a]) = None) by reflexivity. assert (Sv5 : in_service USB (es ++ [Req USB RClose a]) = true) by reflexivity.
    split.
    + intros P. apply (C119_panics_iff_unplugged_while_open sum sum32 _ d5 (Unplug USB) Dv5 Logic.I) in P; [|intros c r X; discriminate X]. destruct P as (k & X & _ & N). injection X as <-. exact (N Op5).
    + pose proof (device_about sum sum32 _ d5 USB Dv5 ltac:(unfold USB; lia)) as Ab. rewrite Op5, Sv5 in Ab. cbn [about] in Ab. eexists. exact (ds_unplug sum d5 USB Ab).
Qed.
Print Assumptions C119_refuted_unplugged_during_a_pull.

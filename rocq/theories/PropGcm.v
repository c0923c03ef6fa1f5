(** * C103: what a ground-station console reports. *)
From Coq Require Import List Arith Lia Bool.
From Verif Require Import Gcm.
Import ListNotations.

(** ** Specification *)

(** [a] is [b] with elements left out. *)
Inductive subsequence {A} : list A -> list A -> Prop :=
| sub_nil : subsequence [] []
| sub_take x a b : subsequence a b -> subsequence (x :: a) (x :: b)
| sub_skip x a b : subsequence a b -> subsequence a (x :: b).

Section Spec.
Variables (P Q S : Type).

(** The packets heard, in order. *)
Definition heard (es : list (mevent P)) : list P := flat_map (fun e => match e with Heard p => [p] | _ => [] end) es.

(** The packets consoles got, in order. *)
Definition got (m : mailbox P) : list P := flat_map (fun x => match snd x with Some p => [p] | None => [] end) (polled m).

(** What happens as seen from outside: packets are heard and consoles poll. *)
Inductive outside := OHeard (p : P) | OPoll (c : nat).

(** The receive task runs after every reception: [join!] polls it before the radio task can receive again, as the radio task waits for
    the radio in between. *)
Definition prompt (os : list outside) : list (mevent P) :=
  flat_map (fun o => match o with OHeard p => [Heard p; Relay] | OPoll c => [Poll c] end) os.

(** The packets heard since the last poll (by any console). *)
Fixpoint since_poll (acc : list P) (os : list outside) : list P :=
  match os with
  | [] => acc
  | OHeard p :: os => since_poll (acc ++ [p]) os
  | OPoll _ :: os => since_poll [] os
  end.

(** No console has a call under way. *)
Definition all_idle (s : station Q S) : Prop := forall c, cl s c = Idle.

(** Every call begins when no other is under way. *)
Fixpoint one_at_a_time (gcm : bool) (s : station Q S) (es : list (event Q S)) : Prop :=
  match es with
  | [] => True
  | e :: es => (match e with Call _ _ => all_idle s | _ => True end) /\ one_at_a_time gcm (sstep gcm s e) es
  end.
End Spec.
Arguments heard {P}. Arguments got {P}. Arguments OHeard {P}. Arguments OPoll {P}. Arguments prompt {P}. Arguments since_poll {P}.
Arguments all_idle {Q S}. Arguments one_at_a_time {Q S}.

(** ** Proofs: downlink *)
Definition opt {A} (o : option A) : list A := match o with Some x => [x] | None => [] end.

Lemma sub_refl {A} (l : list A) : subsequence l l.
Proof. induction l; constructor; auto. Qed.

Lemma sub_nil_l {A} (l : list A) : subsequence [] l.
Proof. induction l; constructor; auto. Qed.

Lemma sub_app {A} (a b c d : list A) : subsequence a b -> subsequence c d -> subsequence (a ++ c) (b ++ d).
Proof. intros H K. induction H; cbn [app]; auto; constructor; auto. Qed.

Lemma sub_trans {A} (b c : list A) : subsequence b c -> forall a, subsequence a b -> subsequence a c.
Proof.
  induction 1 as [|x b c H IH|x b c H IH]; intros a K; auto.
  - inversion K; subst; constructor; auto.
  - constructor; auto.
Qed.

Lemma sub_drop_last {A} (a : list A) x b : subsequence (a ++ x) b -> subsequence a b.
Proof.
  intros H. eapply sub_trans; [exact H|]. rewrite <- (app_nil_r a) at 1. apply sub_app; [apply sub_refl|apply sub_nil_l].
Qed.

Lemma heard_app {P} (a b : list (mevent P)) : heard (a ++ b) = heard a ++ heard b.
Proof. unfold heard. apply flat_map_app. Qed.

Lemma mailbox_inv {P} (es : list (mevent P)) : subsequence (got (mrun es) ++ opt (chan (mrun es)) ++ opt (sig (mrun es))) (heard es).
Proof.
  induction es as [|e es IH] using rev_ind; [constructor|].
  unfold mrun in *. rewrite fold_left_app. cbn [fold_left]. rewrite heard_app. set (m := fold_left mstep es mailbox_new) in *. clearbody m.
  destruct e as [p| |c]; cbn [mstep].
  - unfold got in *. cbn [polled chan sig opt heard flat_map app]. rewrite app_assoc. apply sub_app; [|apply sub_refl].
    rewrite app_assoc in IH. apply sub_drop_last in IH. exact IH.
  - cbn [heard flat_map app]. rewrite app_nil_r. destruct (sig m) as [p|] eqn:Es; [|rewrite Es in *; exact IH].
    unfold got in *. cbn [polled chan sig opt]. destruct (chan m) as [q|] eqn:Ec; cbn [opt app] in *.
    + eapply sub_trans; [exact IH|]. apply sub_app; [apply sub_refl|]. apply sub_take, sub_skip, sub_nil.
    + exact IH.
  - cbn [heard flat_map app]. rewrite app_nil_r. unfold got in *. cbn [polled chan sig opt app]. rewrite flat_map_app. cbn [flat_map snd app].
    rewrite app_nil_r, <- app_assoc. destruct (chan m); exact IH.
Qed.

(** Packets are shown in the order they were heard, each at most once and to one console only, and none is invented. *)
Theorem C103_downlink_in_order : forall (P : Type) (es : list (mevent P)), subsequence (got (mrun es)) (heard es).
Proof. intros P es. eapply sub_drop_last. apply mailbox_inv. Qed.

Lemma since_snoc_h {P} (os : list (outside P)) acc p : since_poll acc (os ++ [OHeard p]) = since_poll acc os ++ [p].
Proof. revert acc. induction os as [|[q|c] os IH]; intros acc; cbn [since_poll app]; auto. Qed.

Lemma since_snoc_p {P} (os : list (outside P)) acc c : since_poll acc (os ++ [OPoll c]) = [].
Proof. revert acc. induction os as [|[q|d] os IH]; intros acc; cbn [since_poll app]; auto. Qed.

Lemma prompt_app {P} (a b : list (outside P)) : prompt (a ++ b) = prompt a ++ prompt b.
Proof. unfold prompt. apply flat_map_app. Qed.

Lemma prompt_inv {P} (os : list (outside P)) : sig (mrun (prompt os)) = None /\ chan (mrun (prompt os)) = hd_error (since_poll [] os).
Proof.
  induction os as [|o os IH] using rev_ind; [split; reflexivity|].
  unfold mrun in *. rewrite prompt_app, fold_left_app. set (m := fold_left mstep (prompt os) mailbox_new) in *. clearbody m. destruct IH as [I1 I2].
  destruct o as [p|c]; cbn [prompt flat_map app fold_left mstep sig chan].
  - split; [reflexivity|]. rewrite since_snoc_h, I2. destruct (since_poll [] os); reflexivity.
  - split; [exact I1|]. rewrite since_snoc_p. reflexivity.
Qed.

(** A poll answers with the first packet heard since the previous poll; with none exactly when none was heard. *)
Theorem C103_poll_answer_partial : forall (P : Type) (os : list (outside P)) c,
  polled (mrun (prompt (os ++ [OPoll c]))) = polled (mrun (prompt os)) ++ [(c, hd_error (since_poll [] os))].
Proof.
  intros P os c. rewrite prompt_app. unfold mrun. rewrite fold_left_app. cbn [prompt flat_map app fold_left mstep polled].
  destruct (prompt_inv os) as [_ I2]. unfold mrun in I2. rewrite I2. reflexivity.
Qed.

(** Not with the latest one: however many packets follow, the first one is shown — an old position, when the console polls rarely. *)
Theorem C103_refuted_stale : forall (P : Type) (old : P) (later : list P) c,
  polled (mrun (prompt (map OHeard (old :: later) ++ [OPoll c]))) = [(c, Some old)].
Proof.
  intros P old later c. rewrite C103_poll_answer_partial.
  assert (H : @since_poll P [] (map OHeard (old :: later)) = old :: later).
  { assert (G : forall (l acc : list P), since_poll acc (map OHeard l) = acc ++ l).
    { induction l as [|x l IH]; intros acc; cbn [map since_poll]; [rewrite app_nil_r; reflexivity|]. rewrite IH, <- app_assoc. reflexivity. }
    apply G. }
  rewrite H. cbn [hd_error]. assert (E : polled (mrun (prompt (map OHeard (old :: later)))) = []).
  { assert (G : forall l (m : mailbox P), polled (fold_left mstep (prompt (map OHeard l)) m) = polled m).
    { induction l as [|x l IH]; intros m; cbn [map prompt flat_map app fold_left]; auto. fold (prompt (map (@OHeard P) l)). rewrite IH. reflexivity. }
    unfold mrun. rewrite G. reflexivity. }
  rewrite E. reflexivity.
Qed.

(** ** Proofs: uplink *)
Section Uplink.
Variables (Q S : Type).
Notation station := (station Q S).

(** The response on its way. *)
Definition inflight (s : station) : list S := opt (resp s) ++ match sv s with Done p => [p] | _ => [] end.

Lemma srun_snoc gcm (es : list (event Q S)) e : srun gcm (es ++ [e]) = sstep gcm (srun gcm es) e.
Proof. unfold srun. rewrite fold_left_app. reflexivity. Qed.

(** Statuses are those of transmissions, each returned once, in order. *)
Theorem C103_statuses_in_order : forall gcm es, map snd (returned (srun gcm es)) ++ inflight (srun gcm es) = map snd (transmitted (srun (S := S) (Q := Q) gcm es)).
Proof.
  intros gcm es. induction es as [|e es IH] using rev_ind; [reflexivity|]. rewrite srun_snoc. set (s := srun gcm es) in *. clearbody s. unfold inflight in *.
  destruct e as [c q|c| |p| |c]; cbn [sstep].
  - destruct (cl s c); exact IH.
  - destruct (cl s c); try exact IH. destruct (req s); exact IH.
  - destruct gcm; try exact IH. destruct (sv s) eqn:Ev; try (rewrite Ev in *; exact IH). destruct (req s); [|rewrite Ev in *; exact IH]. exact IH.
  - destruct (sv s) eqn:Ev; try (rewrite Ev in *; exact IH). cbn [returned resp sv transmitted]. rewrite map_app, <- IH. cbn [map snd]. rewrite app_nil_r, app_assoc. reflexivity.
  - destruct (sv s) eqn:Ev; try (rewrite Ev in *; exact IH). destruct (resp s) eqn:Er; [rewrite Ev, Er in *; exact IH|]. exact IH.
  - destruct (cl s c) eqn:Ec; try exact IH. destruct (resp s) eqn:Er; [|rewrite Er in *; exact IH]. cbn [returned resp sv transmitted opt app]. rewrite map_app, <- app_assoc. exact IH.
Qed.

(** One call at a time: where the one call is. *)
Definition serial_inv (s : station) : Prop :=
  (all_idle s /\ req s = None /\ resp s = None /\ sv s = Ready /\ map (fun x => (snd (fst x), snd x)) (returned s) = transmitted s) \/
  exists c q, (forall d, d <> c -> cl s d = Idle) /\
    ((cl s c = Want q /\ req s = None /\ resp s = None /\ sv s = Ready /\ map (fun x => (snd (fst x), snd x)) (returned s) = transmitted s) \/
     (cl s c = Wait q /\ req s = Some q /\ resp s = None /\ sv s = Ready /\ map (fun x => (snd (fst x), snd x)) (returned s) = transmitted s) \/
     (cl s c = Wait q /\ req s = None /\ resp s = None /\ sv s = Busy q /\ map (fun x => (snd (fst x), snd x)) (returned s) = transmitted s) \/
     (exists p, cl s c = Wait q /\ req s = None /\ ((resp s = None /\ sv s = Done p) \/ (resp s = Some p /\ sv s = Ready)) /\
                map (fun x => (snd (fst x), snd x)) (returned s) ++ [(q, p)] = transmitted s)).

Lemma set_cl_same (f : nat -> cstate Q) c x : set_cl f c x c = x.
Proof. unfold set_cl. rewrite Nat.eqb_refl. reflexivity. Qed.

Lemma set_cl_other (f : nat -> cstate Q) c x d : d <> c -> set_cl f c x d = f d.
Proof. intros H. unfold set_cl. destruct (Nat.eqb_spec d c); [contradiction|reflexivity]. Qed.

Lemma serial_step gcm s e : serial_inv s -> (match e with Call _ _ => all_idle s | _ => True end) -> serial_inv (sstep gcm s e).
Proof.
  intros I G. destruct e as [c q|c| |p| |c]; cbn [sstep].
  - destruct I as [(A & B & C & D & E)|(c0 & q0 & O & I)].
    + rewrite (A c). right. exists c, q. cbn [cl req resp sv returned transmitted]. split; [intros d Hd; rewrite set_cl_other by auto; apply A|].
      left. rewrite set_cl_same. auto.
    + exfalso. specialize (G c0). destruct I as [I|[I|[I|(p & I)]]]; destruct I as (I & _); rewrite I in G; discriminate G.
  - destruct I as [(A & B & C & D & E)|(c0 & q0 & O & I)]; [rewrite (A c); left; auto 6|].
    destruct (Nat.eq_dec c c0) as [->|Hc]; [|rewrite (O c Hc); right; exists c0, q0; auto].
    destruct I as [(I1 & I2 & I3)|I].
    + rewrite I1, I2. right. exists c0, q0. cbn [cl req resp sv returned transmitted]. split; [intros d Hd; rewrite set_cl_other by auto; apply O; auto|].
      right. left. rewrite set_cl_same. tauto.
    + assert (W : cl s c0 = Wait q0) by (destruct I as [I|[I|(p & I)]]; apply I). rewrite W. right. exists c0, q0. auto.
  - destruct gcm; [|exact I]. destruct I as [(A & B & C & D & E)|(c0 & q0 & O & I)]; [rewrite B, D; left; auto 6|].
    destruct I as [(I1 & I2 & I3 & I4 & I5)|[(I1 & I2 & I3 & I4 & I5)|[(I1 & I2 & I3 & I4 & I5)|(p & I1 & I2 & I3 & I4)]]].
    + rewrite I2, I4. right. exists c0, q0. split; [exact O|]. left. auto.
    + rewrite I2, I4. right. exists c0, q0. cbn [cl req resp sv returned transmitted]. split; [exact O|]. right. right. left. auto.
    + rewrite I4. right. exists c0, q0. split; [exact O|]. right. right. left. auto.
    + assert (Z : (match sv s, req s with Ready, Some q => Station None (resp s) (cl s) (Busy q) (transmitted s) (returned s) | _, _ => s end) = s)
        by (rewrite I2; destruct (sv s); reflexivity). rewrite Z. right. exists c0, q0. split; [exact O|]. right. right. right. eauto 6.
  - destruct I as [(A & B & C & D & E)|(c0 & q0 & O & I)]; [rewrite D; left; auto 6|].
    destruct I as [(I1 & I2 & I3 & I4 & I5)|[(I1 & I2 & I3 & I4 & I5)|[(I1 & I2 & I3 & I4 & I5)|(p' & I1 & I2 & I3 & I4)]]].
    + rewrite I4. right. exists c0, q0. split; [exact O|]. left. auto.
    + rewrite I4. right. exists c0, q0. split; [exact O|]. right. left. auto.
    + rewrite I4. right. exists c0, q0. cbn [cl req resp sv returned transmitted]. split; [exact O|]. right. right. right. exists p. rewrite I5. split; [exact I1|]. split; [exact I2|]. split; [left; split; [exact I3|reflexivity]|reflexivity].
    + assert (Z : (match sv s with Busy q => Station (req s) (resp s) (cl s) (Done p) (transmitted s ++ [(q, p)]) (returned s) | _ => s end) = s)
        by (destruct I3 as [(_ & ->)|(_ & ->)]; reflexivity). rewrite Z. right. exists c0, q0. split; [exact O|]. right. right. right. eauto 6.
  - destruct I as [(A & B & C & D & E)|(c0 & q0 & O & I)]; [rewrite D; left; auto 6|].
    destruct I as [(I1 & I2 & I3 & I4 & I5)|[(I1 & I2 & I3 & I4 & I5)|[(I1 & I2 & I3 & I4 & I5)|(p' & I1 & I2 & I3 & I4)]]].
    + rewrite I4. right. exists c0, q0. split; [exact O|]. left. auto.
    + rewrite I4. right. exists c0, q0. split; [exact O|]. right. left. auto.
    + rewrite I4. right. exists c0, q0. split; [exact O|]. right. right. left. auto.
    + destruct I3 as [(E1 & E2)|(E1 & E2)]; rewrite E2; [rewrite E1|]; right; exists c0, q0; cbn [cl req resp sv returned transmitted]; (split; [exact O|]); right; right; right; exists p'; auto 8.
  - destruct I as [(A & B & C & D & E)|(c0 & q0 & O & I)]; [rewrite (A c); left; auto 6|].
    destruct (Nat.eq_dec c c0) as [->|Hc]; [|rewrite (O c Hc); right; exists c0, q0; auto].
    destruct I as [(I1 & I2 & I3 & I4 & I5)|[(I1 & I2 & I3 & I4 & I5)|[(I1 & I2 & I3 & I4 & I5)|(p' & I1 & I2 & I3 & I4)]]].
    + rewrite I1. right. exists c0, q0. split; [exact O|]. left. auto.
    + rewrite I1, I3. right. exists c0, q0. split; [exact O|]. right. left. auto.
    + rewrite I1, I3. right. exists c0, q0. split; [exact O|]. right. right. left. auto.
    + rewrite I1. destruct I3 as [(E1 & E2)|(E1 & E2)]; rewrite E1.
      * right. exists c0, q0. split; [exact O|]. right. right. right. exists p'. auto 6.
      * left. cbn [cl req resp sv returned transmitted]. repeat apply conj; auto.
        -- intros d. cbn [cl]. destruct (Nat.eq_dec d c0) as [->|Hd]; [apply set_cl_same|rewrite set_cl_other by auto; apply O; auto].
        -- rewrite map_app. cbn [map fst snd]. exact I4.
Qed.

(** When consoles send one command at a time, every console gets the status of the transmission of its own command. *)
Theorem C103_own_status_partial : forall gcm (es : list (event Q S)), one_at_a_time gcm station_new es ->
  exists pending : list (Q * S), map (fun x : nat * Q * S => (snd (fst x), snd x)) (returned (srun gcm es)) ++ pending = transmitted (srun (Q := Q) (S := S) gcm es) /\ length pending <= 1.
Proof.
  intros gcm es H. assert (I : serial_inv (srun gcm es)).
  { assert (G : forall l s, serial_inv s -> one_at_a_time gcm s l -> serial_inv (fold_left (sstep gcm) l s)).
    { induction l as [|e l IH]; intros s I O; cbn [fold_left one_at_a_time] in *; auto. destruct O as [O1 O2]. apply IH; auto. apply serial_step; auto. }
    apply G; auto. left. repeat apply conj; auto. intros c. reflexivity. }
  destruct I as [(_ & _ & _ & _ & E)|(c & q & _ & [I|[I|[I|(p & I)]]])].
  - exists []. rewrite app_nil_r. auto.
  - exists []. rewrite app_nil_r. split; [apply I|auto].
  - exists []. rewrite app_nil_r. split; [apply I|auto].
  - exists []. rewrite app_nil_r. split; [apply I|auto].
  - exists [(q, p)]. split; [apply I|auto].
Qed.

(** Outside ground-station mode nobody serves the channel: a call never returns, and the console that made it never serves anything again. *)
Theorem C103_refuted_hangs_outside_gcm : forall es, returned (srun (Q := Q) (S := S) false es) = [] /\
  forall c, cl (srun false es) c <> Idle -> forall es', cl (fold_left (sstep false) es' (srun false es)) c <> Idle.
Proof.
  assert (G : forall es s, resp s = None -> sv s = Ready -> returned s = [] ->
    let s' := fold_left (sstep (Q := Q) (S := S) false) es s in resp s' = None /\ sv s' = Ready /\ returned s' = [] /\ forall c, cl s c <> Idle -> cl s' c <> Idle).
  { induction es as [|e es IH]; intros s A B C; cbn [fold_left]; [repeat apply conj; auto|].
    assert (K : resp (sstep false s e) = None /\ sv (sstep false s e) = Ready /\ returned (sstep false s e) = [] /\ forall c, cl s c <> Idle -> cl (sstep false s e) c <> Idle).
    { destruct e as [c q|c| |p| |c]; cbn [sstep].
      - destruct (cl s c) eqn:Ec; repeat apply conj; auto. intros d Hd. cbn [cl]. destruct (Nat.eq_dec d c) as [->|N]; [rewrite set_cl_same; discriminate|rewrite set_cl_other; auto].
      - destruct (cl s c) eqn:Ec; try (repeat apply conj; auto; fail). destruct (req s); repeat apply conj; auto.
        intros d Hd. cbn [cl]. destruct (Nat.eq_dec d c) as [->|N]; [rewrite set_cl_same; discriminate|rewrite set_cl_other; auto].
      - repeat apply conj; auto.
      - rewrite B. repeat apply conj; auto.
      - rewrite B. repeat apply conj; auto.
      - rewrite A. destruct (cl s c); repeat apply conj; auto. }
    destruct K as (K1 & K2 & K3 & K4). destruct (IH _ K1 K2 K3) as (L1 & L2 & L3 & L4). repeat apply conj; auto. }
  intros es. destruct (G es station_new eq_refl eq_refl eq_refl) as (A & B & C & _). fold (srun (Q := Q) (S := S) false es) in *. split; [exact C|].
  intros c Hc es'. destruct (G es' _ A B C) as (_ & _ & _ & D). apply D. exact Hc.
Qed.
End Uplink.

(** Two consoles sending at the same time get each other's status: console 0 is told of the transmission of console 1's command, and the
    other way round. *)
Theorem C103_refuted_swapped_statuses : exists es : list (event nat nat),
  transmitted (srun true es) = [(10, 100); (11, 111)] /\ returned (srun true es) = [(1, 11, 100); (0, 10, 111)].
Proof.
  exists [Call 0 10; Send 0; Take; Call 1 11; Send 1; Transmit 100; Respond; Take; Return 1; Transmit 111; Respond; Return 0].
  split; reflexivity.
Qed.

(** Two commands, one after the other; three packets, of which two are shown. *)
Theorem C103_instance :
  let es := [Call 0 10; Send 0; Take; Transmit 100; Respond; Return 0; Call 1 11; Send 1; Take; Transmit 111; Respond; Return 1] : list (event nat nat) in
  one_at_a_time true station_new es /\ returned (srun true es) = [(0, 10, 100); (1, 11, 111)] /\
  polled (mrun (prompt [OHeard 1; OPoll 0; OPoll 1; OHeard 2; OHeard 3; OPoll 1])) = [(0, Some 1); (1, None); (1, Some 2)].
Proof.
  cbv zeta. split; [|split; reflexivity]. cbn [one_at_a_time]. repeat split; intros [|[|c]]; reflexivity.
Qed.

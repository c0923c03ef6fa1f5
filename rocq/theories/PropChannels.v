(** * C50, C71: the in-memory channels *)
From Coq Require Import List Arith Lia Bool.
From Verif Require Import Channels.
Import ListNotations.
Local Open Scope nat_scope.

Section Zero.
Context {T : Type}.
Variable n : nat.
Hypothesis Hn : 0 < n.

(** The schedules on which the channel promises losslessness: a send is only begun while fewer than [n]
    values wait to be received.  (What [try_start_send] would have to check; it does not.) *)
Fixpoint never_overrun (c : zc T) (es : list (zevent T)) : Prop :=
  match es with
  | [] => True
  | e :: es => (e = StartSend -> length (ready c) < n) /\ never_overrun (zstep n c e) es
  end.

Definition wrap (k : nat) : nat := k mod n.

Lemma wrap_next k : (if n <=? wrap k + 1 then 0 else wrap k + 1) = wrap (k + 1).
Proof.
  unfold wrap. assert (k mod n < n) by (apply Nat.mod_upper_bound; lia).
  rewrite <- Nat.add_mod_idemp_l by lia.
  destruct (n <=? k mod n + 1) eqn:E; [apply Nat.leb_le in E|apply Nat.leb_gt in E].
  - replace (k mod n + 1) with n by lia. now rewrite Nat.mod_same by lia.
  - rewrite (Nat.mod_small (k mod n + 1)) by lia. reflexivity.
Qed.

Lemma wrap_neq i k : i < k -> k < i + n -> wrap i <> wrap k.
Proof.
  unfold wrap. intros H1 H2 E.
  pose proof (Nat.div_mod i n ltac:(lia)). pose proof (Nat.div_mod k n ltac:(lia)).
  rewrite E in H. assert (n * (k / n) - n * (i / n) = k - i) by lia.
  rewrite <- Nat.mul_sub_distr_l in H3.
  destruct (k / n - i / n) as [|m]; [lia|]. nia.
Qed.

(** The invariant: with [a] values received out of [b] sent, the queue lists the slots of the values
    a, a+1, ..., b-1, each still holding its value. *)
Definition intact (c : zc T) (w : nat) (u : list T) : Prop :=
  ready c = map wrap (seq w (length u)) /\
  (forall j v, nth_error u j = Some v -> vals c (wrap (w + j)) = v).

Definition inv (c : zc T) : Prop :=
  curr c = wrap (length (sent c)) /\
  (forall i, rcv c <> RWant i) /\
  exists u, sent c = got c ++ u /\ length u <= n /\ (sending c = true -> length u < n) /\
            intact c (length (got c)) u /\
            (forall i, rcv c = RHold i -> exists w, length (got c) = S w /\ i = wrap w).

Lemma inv_new d : inv (zc_new d).
Proof.
  unfold inv, zc_new. cbn. split; [unfold wrap; now rewrite Nat.mod_0_l by lia|].
  split; [discriminate|]. exists []. cbn. repeat split; try lia; try discriminate.
  intros [|j] v; discriminate.
Qed.

Lemma seq_snoc w k : seq w (S k) = seq w k ++ [w + k].
Proof. revert w. induction k as [|k IH]; intros w; cbn; [now rewrite Nat.add_0_r|]. cbn in IH. rewrite IH. do 2 f_equal. f_equal. lia. Qed.

Lemma inv_step c e : inv c -> (e = StartSend -> length (ready c) < n) -> inv (zstep n c e).
Proof.
  intros I Hok. pose proof I as (Hc & Hw & u & Hs & Hl & Hsend & (Hr & Hv) & Hh).
  assert (Hrl : length (ready c) = length u) by (rewrite Hr, map_length, seq_length; reflexivity).
  destruct e; cbn [zstep].
  - destruct (sending c || held_by_receiver c (curr c)) eqn:E; [exact I|].
    unfold inv, intact. cbn. split; [exact Hc|]. split; [exact Hw|]. exists u. repeat split; auto.
    intros _. specialize (Hok eq_refl). lia.
  - destruct (sending c) eqn:E; [|exact I].
    unfold inv, intact. cbn. split; [exact Hc|]. split; [exact Hw|]. exists u. repeat split; auto.
    intros j w Hj. unfold put. assert (j < length u) by (apply nth_error_Some; congruence).
    destruct (wrap (length (got c) + j) =? curr c) eqn:E2; [|now apply Hv].
    apply Nat.eqb_eq in E2. exfalso. rewrite Hc in E2. revert E2.
    specialize (Hsend eq_refl). rewrite Hs, app_length. apply wrap_neq; lia.
  - destruct (sending c) eqn:E; [|exact I].
    specialize (Hsend eq_refl).
    unfold inv, intact. cbn. rewrite app_length. cbn [length].
    split; [rewrite Hc; apply wrap_next|]. split; [exact Hw|].
    exists (u ++ [vals c (curr c)]). rewrite app_length. cbn [length].
    split; [rewrite Hs, app_assoc; reflexivity|]. split; [lia|]. split; [discriminate|].
    split.
    + split.
      * unfold publish. destruct (length (ready c) =? n) eqn:E2; [apply Nat.eqb_eq in E2; lia|].
        rewrite Nat.add_1_r, seq_snoc, map_app. cbn. rewrite Hr, Hc, Hs, app_length. reflexivity.
      * intros j w Hj. destruct (Nat.lt_ge_cases j (length u)) as [L|L].
        -- rewrite nth_error_app1 in Hj by exact L. now apply Hv.
        -- assert (Hj' : nth_error (u ++ [vals c (curr c)]) j <> None) by (rewrite Hj; discriminate).
           apply nth_error_Some in Hj'. rewrite app_length in Hj'. cbn in Hj'.
           assert (j = length u) by lia. subst j.
           rewrite nth_error_app2, Nat.sub_diag in Hj by lia. cbn in Hj. injection Hj as <-.
           rewrite Hc, Hs, app_length. reflexivity.
    + exact Hh.
  - destruct (rcv c) as [|i|i] eqn:Er.
    + destruct u as [|x u]; cbn in Hr; rewrite Hr.
      * exact I.
      * unfold lock_slot. cbn [sending curr vals ready sent got].
        assert (Hne : sending c && (wrap (length (got c)) =? curr c) = false).
        { destruct (sending c); [|reflexivity]. specialize (Hsend eq_refl). cbn [andb].
          apply Nat.eqb_neq. rewrite Hc, Hs, app_length. cbn [length] in *. apply wrap_neq; lia. }
        rewrite Hne. unfold inv, intact. cbn. split; [exact Hc|]. split; [intros j; discriminate|].
        exists u. rewrite app_length. cbn [length].
        pose proof (Hv 0 x eq_refl) as H0. rewrite Nat.add_0_r in H0.
        split; [rewrite H0, <- app_assoc; exact Hs|]. cbn [length] in *.
        split; [lia|]. split; [intros h; specialize (Hsend h); lia|].
        rewrite Nat.add_1_r. repeat split.
        -- intros j w Hj. specialize (Hv (S j) w Hj). rewrite <- Hv. f_equal. f_equal. lia.
        -- intros j Hj. injection Hj as <-. exists (length (got c)). auto.
    + exfalso. exact (Hw i eq_refl).
    + exact I.
  - destruct (rcv c) as [|i|i] eqn:Er.
    + exact I.
    + exfalso. exact (Hw i eq_refl).
    + exact I.
  - destruct (rcv c) as [|i|i] eqn:Er.
    + exact I.
    + exfalso. exact (Hw i eq_refl).
    + unfold inv, intact. cbn. split; [exact Hc|]. split; [discriminate|]. exists u. repeat split; auto. discriminate.
Qed.

Lemma inv_run es : forall c, inv c -> never_overrun c es -> inv (zrun n c es).
Proof.
  induction es as [|e es IH]; intros c H Ho; [exact H|]. destruct Ho as (Ho & Hes).
  apply IH; [now apply inv_step|exact Hes].
Qed.

(** When the sender never begins a send with [n] values waiting: what has been received is an initial
    part of what was sent, in order, each once; the values not yet received are still in the channel, and
    [receive] never has to wait for the sender. *)
Theorem C50_lossless_partial d es :
  never_overrun (zc_new d) es ->
  let c := zrun n (zc_new d) es in
  exists unread, sent c = got c ++ unread /\ length (ready c) = length unread /\
                 map (vals c) (ready c) = unread /\ (forall i, rcv c <> RWant i).
Proof.
  intros H c. destruct (inv_run es _ (inv_new d) H) as (Hc & Hw & u & Hs & Hl & Hsend & (Hr & Hv) & Hh).
  exists u. fold c in Hs, Hr, Hv, Hw. split; [exact Hs|]. split; [rewrite Hr, map_length, seq_length; reflexivity|].
  split; [|exact Hw]. rewrite Hr, map_map.
  enough (forall l w, (forall j v, nth_error l j = Some v -> vals c (wrap (w + j)) = v) ->
            map (fun x => vals c (wrap x)) (seq w (length l)) = l) as Q by (apply Q; exact Hv).
  induction l as [|x l IH]; intros w Hl'; [reflexivity|]. cbn. f_equal.
  - specialize (Hl' 0 x eq_refl). rewrite Nat.add_0_r in Hl'. exact Hl'.
  - apply IH. intros j v Hj. rewrite <- (Hl' (S j) v Hj). do 2 f_equal. lia.
Qed.

(** And then every waiting value can be received at once: one poll of an idle receiver yields the oldest. *)
Theorem C50_receive_yields_oldest_partial d es x rest :
  never_overrun (zc_new d) es ->
  let c := zrun n (zc_new d) es in
  rcv c = RIdle -> sent c = got c ++ x :: rest ->
  got (zstep n c PollReceive) = got c ++ [x].
Proof.
  intros H c Hi Hs.
  destruct (inv_step c PollReceive (inv_run es _ (inv_new d) H) ltac:(discriminate)) as (_ & Hw' & _).
  destruct (C50_lossless_partial d es H) as (u & Hs' & Hl & Hm & Hw). fold c in Hs', Hl, Hm, Hw.
  assert (Hu : u = x :: rest) by (rewrite Hs in Hs'; now apply app_inv_head in Hs'). rewrite Hu in *. clear Hu u.
  cbn [zstep] in *. rewrite Hi in *. destruct (ready c) as [|i q]; [discriminate|]. cbn in Hm. injection Hm as Hx Hrest.
  unfold lock_slot in *. cbn in *.
  destruct (sending c && (i =? curr c)); cbn in *; [exfalso; exact (Hw' i eq_refl)|]. now rewrite Hx.
Qed.

(** On every schedule, overrun or not: a received value is a complete sent value, never a default or a
    half-written one. *)
Definition clean (c : zc T) : Prop :=
  incl (got c) (sent c) /\
  (forall i, In i (ready c) \/ rcv c = RWant i -> i < n /\ (~ (sending c = true /\ i = curr c) -> In (vals c i) (sent c))) /\
  curr c < n.

Lemma clean_step c e : clean c -> clean (zstep n c e).
Proof.
  intros I. pose proof I as (Hg & Hq & Hc).
  destruct e; cbn [zstep].
  - destruct (sending c || held_by_receiver c (curr c)) eqn:E; [exact I|].
    apply orb_false_iff in E. destruct E as [E _].
    unfold clean. cbn. split; [exact Hg|]. split; [|exact Hc].
    intros i Hi. destruct (Hq i Hi) as [A B]. split; [exact A|]. intros _. apply B. rewrite E. intros [? _]. discriminate.
  - destruct (sending c) eqn:E; [|exact I].
    unfold clean. cbn. split; [exact Hg|]. split; [|exact Hc].
    intros i Hi. destruct (Hq i Hi) as [A B]. split; [exact A|]. intros Hne. unfold put.
    destruct (i =? curr c) eqn:E2; [apply Nat.eqb_eq in E2; exfalso; apply Hne; auto|].
    apply B. exact Hne.
  - destruct (sending c) eqn:E; [|exact I].
    unfold clean. cbn. split; [intros x Hx; apply in_or_app; left; auto|].
    split; [|destruct (n <=? curr c + 1) eqn:E2; [lia|apply Nat.leb_gt in E2; exact E2]].
    intros i Hi.
    assert (Hi' : i = curr c \/ (In i (ready c) \/ rcv c = RWant i)).
    { destruct Hi as [Hi|Hi]; [|auto]. unfold publish in Hi. apply in_app_or in Hi. destruct Hi as [Hi|[Hi|[]]]; [|auto].
      destruct (length (ready c) =? n); [destruct (ready c) as [|y q]; cbn in Hi |]; auto. right. left. right. exact Hi. }
    destruct (Nat.eq_dec i (curr c)) as [->|Hne].
    + split; [exact Hc|]. intros _. apply in_or_app. right. left. reflexivity.
    + destruct Hi' as [?|Hi']; [contradiction|]. destruct (Hq i Hi') as [A B]. split; [exact A|]. intros _.
      apply in_or_app. left. apply B. intros [_ ?]. contradiction.
  - assert (L : forall i c0, clean c0 -> (i < n /\ (~ (sending c0 = true /\ i = curr c0) -> In (vals c0 i) (sent c0))) -> rcv c0 = RIdle \/ rcv c0 = RWant i -> clean (lock_slot i c0)).
    { intros i c0 (Hg0 & Hq0 & Hc0) [A B] Hr. unfold lock_slot.
      destruct (sending c0 && (i =? curr c0)) eqn:E.
      - unfold clean. cbn. split; [exact Hg0|]. split; [|exact Hc0]. intros j [Hj|Hj]; [apply Hq0; auto|].
        injection Hj as <-. auto.
      - unfold clean. cbn. split.
        + intros x Hx. apply in_app_or in Hx. destruct Hx as [Hx|[<-|[]]]; [auto|]. apply B. intros [S E2].
          rewrite S in E. cbn in E. apply Nat.eqb_neq in E. contradiction.
        + split; [|exact Hc0]. intros j [Hj|Hj]; [apply Hq0; auto|discriminate]. }
    destruct (rcv c) as [|i|i] eqn:Er.
    + destruct (ready c) as [|i q] eqn:E2; [exact I|].
      apply L; cbn; auto.
      * unfold clean. cbn. split; [exact Hg|]. split; [|exact Hc]. intros j [Hj|Hj]; [|discriminate]. apply Hq. left. right. exact Hj.
      * apply Hq. left. left. reflexivity.
    + apply L; auto.
    + exact I.
  - destruct (rcv c) as [|i|i] eqn:Er; unfold clean; cbn; rewrite ?Er; (split; [exact Hg|]; split; [|exact Hc]); auto.
    intros j [Hj|Hj]; [|discriminate]. apply Hq. auto.
  - destruct (rcv c) as [|i|i] eqn:Er; unfold clean; cbn; rewrite ?Er; (split; [exact Hg|]; split; [|exact Hc]); auto.
    intros j [Hj|Hj]; [|discriminate]. apply Hq. auto.
Qed.

Theorem C50_never_torn (d : T) es x : In x (got (zrun n (zc_new d) es)) -> In x (sent (zrun n (zc_new d) es)).
Proof.
  assert (H : forall es c, clean c -> clean (zrun n c es)).
  { clear es. induction es as [|e es IH]; intros c H; [exact H|]. apply IH. now apply clean_step. }
  apply (H es (zc_new d)). unfold clean, zc_new. cbn. split; [intros ? []|]. split; [|exact Hn]. intros i [[]|H0]. discriminate H0.
Qed.

(** The receiver's guard and the sender's guard never give access to the same slot. *)
Theorem C50_exclusive (d : T) es i :
  let c := zrun n (zc_new d) es in sending c = true -> rcv c = RHold i -> i <> curr c.
Proof.
  set (ex (c : zc T) := sending c = true -> forall i, rcv c = RHold i -> i <> curr c).
  assert (H : forall es c, ex c -> ex (zrun n c es)).
  { clear es. induction es as [|e es IH]; intros c H; [exact H|]. apply IH. clear IH. unfold ex in *.
    destruct e; cbn [zstep].
    - unfold held_by_receiver. destruct (sending c || match rcv c with RHold j => j =? curr c | _ => false end) eqn:E; [exact H|].
      cbn. intros _ k Hi. rewrite Hi in E. apply orb_false_iff in E. destruct E as [_ E]. now apply Nat.eqb_neq.
    - destruct (sending c) eqn:E; [|rewrite E; exact H]. cbn. auto.
    - destruct (sending c) eqn:E; [|rewrite E; exact H]. cbn. discriminate.
    - assert (L : forall j (c0 : zc T), sending (lock_slot j c0) = true -> forall i, rcv (lock_slot j c0) = RHold i -> i <> curr (lock_slot j c0)).
      { intros j c0. unfold lock_slot. destruct (sending c0 && (j =? curr c0)) eqn:E; cbn; intros S k Hi; [discriminate|].
        injection Hi as <-. rewrite S in E. now apply Nat.eqb_neq in E. }
      destruct (rcv c) eqn:Er; [destruct (ready c); [rewrite Er; exact H|apply L]|apply L|rewrite Er; exact H].
    - destruct (rcv c) eqn:Er; cbn; rewrite ?Er; auto. intros _ j Hj. discriminate.
    - destruct (rcv c) eqn:Er; cbn; rewrite ?Er; auto. intros _ j Hj. discriminate. }
  intros c Hs Hr. refine (H es (zc_new d) _ Hs i Hr). unfold ex. cbn. discriminate.
Qed.
End Zero.

(** A full round trip through a three-slot channel, wrapping around, meets the hypothesis of
    [C50_lossless_partial]. *)
Definition one (v : nat) : list (zevent nat) := [StartSend; Fill v; FinishSend].
Definition take1 : list (zevent nat) := [PollReceive; Release].
Example C50_example :
  let es := one 1 ++ one 2 ++ one 3 ++ take1 ++ one 4 ++ take1 ++ take1 ++ one 5 ++ [PollReceive] in
  never_overrun 3 (zc_new 0) es /\ got (zrun 3 (zc_new 0) es) = [1; 2; 3; 4] /\ sent (zrun 3 (zc_new 0) es) = [1; 2; 3; 4; 5].
Proof. vm_compute. repeat split; try lia; intros; try discriminate; lia. Qed.

(** The unconditional property fails: with three unread values a fourth send is accepted and overwrites
    the oldest unread one, which is lost. *)
Theorem C50_refuted_overwrite :
  let c := zrun 3 (zc_new 0) (one 1 ++ one 2 ++ one 3 ++ one 4 ++ take1 ++ take1 ++ take1 ++ take1) in
  sent c = [1; 2; 3; 4] /\ got c = [2; 3; 4] /\ ready c = [].
Proof. cbn. auto. Qed.

(** And a value can be delivered twice while another is lost, when the receiver picks the index of a slot
    the sender has begun to rewrite. *)
Theorem C50_refuted_duplicate :
  let c := zrun 2 (zc_new 0) (one 1 ++ one 2 ++ [StartSend; PollReceive; Fill 3; FinishSend; PollReceive; Release]
                              ++ take1 ++ take1) in
  sent c = [1; 2; 3] /\ got c = [3; 2; 3].
Proof. cbn. auto. Qed.

(** Nothing is sent that the sender did not start, and nothing received before something is sent. *)
Definition starts {T : Type} (es : list (zevent T)) : nat := length (filter (fun e => match e with StartSend => true | _ => false end) es).
Theorem C50_nothing_unsent : forall (T : Type) n (d : T) es, 0 < n -> let c := zrun n (zc_new d) es in
  length (sent c) <= starts es /\ (starts es = 0 -> got c = []).
Proof.
  intros T n d es Hn. cbv zeta. assert (K : forall es (c : zc T), length (sent (zrun n c es)) <= length (sent c) + (if sending c then 1 else 0) + starts es).
  { clear. induction es as [|e es IH]; intro c; [cbn; unfold zrun; cbn; destruct (sending c); lia|]. specialize (IH (zstep n c e)).
    change (zrun n c (e :: es)) with (zrun n (zstep n c e) es). unfold starts in *. cbn [filter].
    assert (S : length (sent (zstep n c e)) + (if sending (zstep n c e) then 1 else 0) <= length (sent c) + (if sending c then 1 else 0) + match e with StartSend => 1 | _ => 0 end).
    { clear IH. destruct e; cbn [zstep]; unfold lock_slot, held_by_receiver.
      all: repeat match goal with |- context [match ?x with _ => _ end] => match x with context [match _ with _ => _ end] => fail 1 | _ => destruct x eqn:? end end; cbn in *; try lia.
      all: rewrite ?app_length; cbn; try lia. }
    destruct e; cbn [length] in *; lia. }
  specialize (K es (zc_new d)). cbn [zc_new sent sending length] in K. split; [lia|]. intro Z. rewrite Z in K.
  destruct (got (zrun n (zc_new d) es)) as [|x l] eqn:G; [reflexivity|]. exfalso.
  assert (I : In x (sent (zrun n (zc_new d) es))) by (apply C50_never_torn; [exact Hn|rewrite G; left; reflexivity]).
  destruct (sent (zrun n (zc_new d) es)); [destruct I|cbn in K; lia].
Qed.

(** ** C71: request/response calls *)
Section Rpc.
Context {Q P : Type}.

Definition cancels (e : revent Q P) : bool := match e with CancelCall => true | _ => false end.

(** Without cancellation at most one request is in flight, and it is the client's. *)
Definition rinv (c : rpc Q P) : Prop :=
  Forall (fun r => fst r = fst (snd r)) (results c) /\
  match cl c with
  | CIdle | CSending _ => req c = None /\ resp c = None /\ sv c = SIdle
  | CAwaiting q =>
      (req c = Some q /\ resp c = None /\ sv c = SIdle) \/
      (req c = None /\ resp c = None /\ (sv c = SWorking q \/ exists p, sv c = SSending q p)) \/
      (req c = None /\ (exists p, resp c = Some (q, p)) /\ sv c = SIdle)
  end.

Lemma rinv_step c e : cancels e = false -> rinv c -> rinv (rstep c e).
Proof.
  intros He [Hr H]. destruct c as [rq rs k s res]. cbn in *.
  destruct e; cbn [rstep cl req resp sv results] in *; try discriminate;
    destruct k as [|q0|q0]; cbn in H;
    repeat match goal with
           | H : _ /\ _ |- _ => destruct H
           | H : _ \/ _ |- _ => destruct H
           | H : exists _, _ |- _ => destruct H
           end; subst; unfold rinv; cbn;
    (split; [try exact Hr; try (apply Forall_app; split; [exact Hr|repeat constructor])|]);
    eauto 10.
Qed.

(** If no call is abandoned, every finished call got the response the server computed for that very call. *)
Theorem C71_response_matches_request es :
  forallb (fun e => negb (cancels e)) es = true ->
  forall q served p, In (q, (served, p)) (results (rrun rpc_new es)) -> served = q.
Proof.
  intros H.
  assert (I : forall es (c : rpc Q P), forallb (fun e => negb (cancels e)) es = true -> rinv c -> rinv (rrun c es)).
  { clear. induction es as [|e es IH]; intros c H I; [exact I|]. cbn in H. apply andb_true_iff in H. destruct H as [H1 H2].
    apply IH; [exact H2|]. apply rinv_step; [now apply negb_true_iff|exact I]. }
  destruct (I es rpc_new H) as [F _].
  { unfold rinv. cbn. auto. }
  intros q s p Hin. rewrite Forall_forall in F. symmetry. exact (F _ Hin).
Qed.
End Rpc.

Example C71_example :
  results (rrun rpc_new [Call 1; PollCall; PollServer; Respond true; PollServer; PollCall;
                         Call 2; PollCall; PollServer; Respond false; PollServer; PollCall])
  = [(1, (1, true)); (2, (2, false))].
Proof. reflexivity. Qed.

(** An abandoned call leaves its response behind, and the next call returns it. *)
Theorem C71_refuted_when_cancelled :
  results (rrun rpc_new [Call 1; PollCall; CancelCall; PollServer; Respond true; PollServer;
                         Call 2; PollCall])
  = [(2, (1, true))].
Proof. reflexivity. Qed.

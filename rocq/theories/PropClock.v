(** * C82, C83: the unix clock is right, and nobody waiting for it is forgotten. *)
From Coq Require Import List Bool Arith QArith Qabs ZArith Lqa Lia Sorting.
From Verif Require Import Numerics Clock.
Import ListNotations.
Local Open Scope Q_scope.
Local Open Scope list_scope.

(** ** C83: the waker registry *)
Inductive wop := Register (w : nat) | Wake.
Inductive wout := Registered | Full | Woken (ws : list nat).

Definition wstep (s : slots) (o : wop) : slots * wout :=
  match o with
  | Register w => let '(s, ok) := mw_register w s in (s, if ok then Registered else Full)
  | Wake => let '(s, ws) := mw_wake s in (s, Woken ws)
  end.
Fixpoint wrun (s : slots) (ops : list wop) : slots * list wout :=
  match ops with [] => (s, []) | o :: ops => let '(s, x) := wstep s o in let '(s, xs) := wrun s ops in (s, x :: xs) end.

(** Specification: the tasks that registered with success since the last wake,
    without duplicates, in order. *)
Fixpoint pending (n : nat) (p : list nat) (ops : list wop) : list nat :=
  match ops with
  | [] => p
  | Register w :: ops => pending n (if in_dec Nat.eq_dec w p then p else if (length p <? n)%nat then p ++ [w] else p) ops
  | Wake :: ops => pending n [] ops
  end.
Definition answer (n : nat) (p : list nat) (o : wop) : wout :=
  match o with
  | Register w => if in_dec Nat.eq_dec w p then Registered else if (length p <? n)%nat then Registered else Full
  | Wake => Woken p
  end.

Definition shape (n : nat) (p : list nat) (s : slots) : Prop :=
  (length p <= n)%nat /\ NoDup p /\ s = map Some p ++ repeat None (n - length p).

Lemma exists_waker w p k : existsb (is_waker w) (map Some p ++ repeat None k) = if in_dec Nat.eq_dec w p then true else false.
Proof.
  induction p as [|x p IH].
  - cbn. induction k; [reflexivity | exact IHk].
  - cbn [map app existsb is_waker]. rewrite IH. destruct (Nat.eqb_spec x w) as [-> | N].
    + destruct (in_dec _ w (w :: p)) as [|X]; [reflexivity | destruct X; left; reflexivity].
    + cbn [orb]. destruct (in_dec Nat.eq_dec w p) as [I|I], (in_dec Nat.eq_dec w (x :: p)) as [J|J]; try reflexivity.
      * destruct J. right. exact I.
      * destruct J as [J|J]; [congruence | contradiction].
Qed.

Lemma fill_shape w p k : mw_fill w (map Some p ++ repeat None k) = match k with O => None | S k => Some (map Some (p ++ [w]) ++ repeat None k) end.
Proof.
  induction p as [|x p IH]; [destruct k; reflexivity|]. cbn [map app mw_fill]. rewrite IH. destruct k; reflexivity.
Qed.

Lemma wake_shape p k : mw_wake (map Some p ++ repeat None k) = (repeat None (length p + k), p).
Proof.
  unfold mw_wake. f_equal.
  - rewrite map_app, map_map. induction p as [|x p IH]; cbn; [|rewrite IH; reflexivity]. induction k; cbn; congruence.
  - rewrite flat_map_app. assert (Z : flat_map (fun o : option nat => match o with Some w => [w] | None => [] end) (repeat None k) = []) by (induction k; auto).
    rewrite Z, app_nil_r. induction p as [|x p IH]; [reflexivity|]. cbn. rewrite IH. reflexivity.
Qed.

Lemma register_shape n p s w : shape n p s ->
  exists s', mw_register w s = (s', if in_dec Nat.eq_dec w p then true else if (length p <? n)%nat then true else false) /\
  shape n (if in_dec Nat.eq_dec w p then p else if (length p <? n)%nat then p ++ [w] else p) s'.
Proof.
  intros (L & D & ->). unfold mw_register. rewrite exists_waker. destruct (in_dec Nat.eq_dec w p) as [I|I].
  - eexists. split; [reflexivity|]. split; [exact L | split; [exact D | reflexivity]].
  - rewrite fill_shape. destruct (Nat.ltb_spec (length p) n) as [K|K].
    + destruct (n - length p)%nat as [|k] eqn:E; [lia|]. eexists. split; [reflexivity|]. split; [|split].
      * rewrite app_length. cbn. lia.
      * apply NoDup_rev in D. rewrite <- (rev_involutive (p ++ [w])). apply NoDup_rev. rewrite rev_app_distr. cbn. constructor; [rewrite <- in_rev; exact I | exact D].
      * rewrite app_length. cbn [length]. replace (n - (length p + 1))%nat with k by lia. reflexivity.
    + replace (n - length p)%nat with 0%nat by lia. eexists. split; [reflexivity|]. split; [exact L | split; [exact D|]].
      replace (n - length p)%nat with 0%nat by lia. reflexivity.
Qed.

Lemma wake_shape' n p s : shape n p s -> exists s', mw_wake s = (s', p) /\ shape n [] s'.
Proof.
  intros (L & D & ->). rewrite wake_shape. eexists. split; [reflexivity|]. split; [apply Nat.le_0_l | split; [constructor|]].
  cbn. rewrite Nat.sub_0_r. f_equal. lia.
Qed.

Lemma wrun_shape n : forall ops p s, shape n p s ->
  exists s', wrun s ops = (s', snd (wrun s ops)) /\ shape n (pending n p ops) s' /\
  forall a o b, ops = a ++ o :: b -> nth_error (snd (wrun s ops)) (length a) = Some (answer n (pending n p a) o).
Proof.
  induction ops as [|o ops IH]; intros p s H.
  - exists s. split; [reflexivity|]. split; [exact H|]. intros a o b E. destruct a; discriminate E.
  - cbn [wrun]. destruct (wstep s o) as [s1 x] eqn:E.
    assert (K : x = answer n p o /\ shape n (pending n p [o]) s1).
    { destruct o as [w|]; cbn [wstep] in E.
      - destruct (register_shape n p s w H) as (s2 & R & SH). rewrite R in E. injection E as <- <-. cbn [answer pending].
        split; [|exact SH]. destruct (in_dec Nat.eq_dec w p); [reflexivity|]. destruct (length p <? n)%nat; reflexivity.
      - destruct (wake_shape' n p s H) as (s2 & R & SH). rewrite R in E. injection E as <- <-. split; [reflexivity | exact SH]. }
    destruct K as [-> K]. destruct (IH _ s1 K) as (s2 & R & SH & A). destruct (wrun s1 ops) as [s3 xs]. cbn [snd] in *.
    injection R as <-. exists s3. split; [reflexivity|]. split; [destruct o; exact SH|].
    intros a o' b X. destruct a as [|o'' a]; injection X as <- X.
    + reflexivity.
    + cbn [length nth_error]. rewrite (A a o' b X). destruct o; reflexivity.
Qed.

(** For every history of registrations and wake-ups: a registration succeeds
    unless N other tasks are already waiting, and a wake-up wakes exactly the
    tasks waiting, each once. *)
Theorem C83_registry : forall n ops a o b, ops = a ++ o :: b ->
  nth_error (snd (wrun (mw_new n) ops)) (length a) = Some (answer n (pending n [] a) o) /\ NoDup (pending n [] a).
Proof.
  intros n ops a o b E.
  assert (H : shape n [] (mw_new n)). { split; [apply Nat.le_0_l | split; [constructor|]]. cbn. rewrite Nat.sub_0_r. reflexivity. }
  destruct (wrun_shape n ops [] _ H) as (_ & _ & _ & A). split; [exact (A a o b E)|].
  destruct (wrun_shape n a [] _ H) as (_ & _ & (_ & D & _) & _). exact D.
Qed.

Lemma pending_app n : forall a b p, pending n p (a ++ b) = pending n (pending n p a) b.
Proof. induction a as [|[w|] a IH]; intros b p; cbn [app pending]; [reflexivity | apply IH | apply IH]. Qed.

Lemma pending_keeps n w : forall ops p, In w p -> ~ In Wake ops -> In w (pending n p ops).
Proof.
  induction ops as [|[x|] ops IH]; intros p I N; cbn [pending]; [exact I | |destruct N; left; reflexivity].
  apply IH; [|intros X; apply N; right; exact X]. destruct (in_dec Nat.eq_dec x p); [exact I|]. destruct (length p <? n)%nat; [apply in_or_app; left; exact I | exact I].
Qed.

(** In particular a task that registered with success is woken, once, by the next wake-up. *)
Theorem C83_registered_is_woken : forall n a w mid b ws,
  nth_error (snd (wrun (mw_new n) (a ++ Register w :: mid ++ Wake :: b))) (length a) = Some Registered -> ~ In Wake mid ->
  nth_error (snd (wrun (mw_new n) (a ++ Register w :: mid ++ Wake :: b))) (length (a ++ Register w :: mid)) = Some (Woken ws) ->
  In w ws /\ NoDup ws.
Proof.
  intros n a w mid b ws R N E.
  destruct (C83_registry n (a ++ Register w :: mid ++ Wake :: b) a (Register w) (mid ++ Wake :: b) eq_refl) as [A _]. rewrite A in R. injection R as R.
  assert (X : a ++ Register w :: mid ++ Wake :: b = (a ++ Register w :: mid) ++ Wake :: b) by (rewrite <- app_assoc; reflexivity).
  destruct (C83_registry n _ (a ++ Register w :: mid) Wake b X) as [B D].
  rewrite B in E. cbn [answer] in E. injection E as <-. split; [|exact D].
  rewrite pending_app. cbn [pending]. apply pending_keeps; [|exact N]. cbn [answer] in R.
  destruct (in_dec Nat.eq_dec w (pending n [] a)) as [I|I]; [exact I|]. destruct (length (pending n [] a) <? n)%nat; [|discriminate R].
  apply in_or_app. right. left. reflexivity.
Qed.

Theorem C83_instance : snd (wrun (mw_new 2) [Register 7; Register 7; Register 8; Register 9; Wake; Wake; Register 9])
  = [Registered; Registered; Registered; Full; Woken [7%nat; 8%nat]; Woken []; Registered].
Proof. reflexivity. Qed.

(** ** C82 *)
(** What the outside world does.  [D] is the unix time of boot (ms), [L] the longest
    time between a pulse and its being stamped. *)
Definition truthful (D L : Q) (e : uevent) : Prop :=
  match e with
  | GpsTime t ts => inject_Z ts * 1000 + L < t + D /\ t + D < inject_Z ts * 1000 + 1000
  | Pulse t => exists k : Z, inject_Z k * 1000 <= t + D /\ t + D <= inject_Z k * 1000 + L
  | Await _ => True
  end.
Definition event_time (e : uevent) : option Q := match e with GpsTime t _ | Pulse t => Some t | Await _ => None end.
(** events are stamped in order *)
Definition in_order (es : list uevent) : Prop :=
  forall a e b f c t u, es = a ++ e :: b ++ f :: c -> event_time e = Some t -> event_time f = Some u -> t <= u.
Definition late_pulses (es : list uevent) : Prop := forall t, In (Pulse t) es -> 800 <= t.

Definition uinv (D L : Q) (h : list uevent) (s : uclock) : Prop :=
  (u_latest s = (0, 0%Z) \/ In (GpsTime (fst (u_latest s)) (snd (u_latest s))) h) /\
  (forall o, u_offset s = Some o -> D - L <= o <= D).

Lemma pulse_second D L t1 ts t : truthful D L (GpsTime t1 ts) -> truthful D L (Pulse t) -> t1 <= t -> t - t1 < 800 ->
  exists k, k = (ts + 1)%Z /\ inject_Z k * 1000 <= t + D /\ t + D <= inject_Z k * 1000 + L.
Proof.
  intros [A1 A2] [k [B1 B2]] O C. exists k. split; [|split; assumption].
  assert (U : inject_Z ts < inject_Z k) by lra. rewrite <- Zlt_Qlt in U.
  assert (V : inject_Z k < inject_Z (ts + 2)). { rewrite inject_Z_plus. change (inject_Z 2) with 2. lra. }
  rewrite <- Zlt_Qlt in V. lia.
Qed.

Lemma ustep_inv D L h s e : 0 <= L -> in_order (h ++ [e]) -> Forall (truthful D L) (h ++ [e]) -> late_pulses (h ++ [e]) -> uinv D L h s ->
  uinv D L (h ++ [e]) (fst (ustep s e)) /\
  forall v ws, snd (ustep s e) = Published v ws -> exists t, e = Pulse t /\ v <= t + D /\ t + D <= v + L.
Proof.
  intros HL O T P [I1 I2]. rewrite Forall_forall in T. destruct e as [t ts | t | w]; cbn [ustep].
  - split; [|cbn; discriminate]. cbn [fst]. split; cbn [u_latest u_offset fst snd]; [right; apply in_or_app; right; left; reflexivity | exact I2].
  - destruct (Qltb (t - fst (u_latest s)) 800) eqn:E.
    + apply Qltb_iff in E. destruct I1 as [I1 | I1].
      * exfalso. rewrite I1 in E. cbn [fst] in E. assert (X : 800 <= t) by (apply P, in_or_app; right; left; reflexivity). lra.
      * assert (K : fst (u_latest s) <= t).
        { pose proof I1 as I1'. apply in_split in I1'. destruct I1' as [a [b EQ]]. refine (O a _ b (Pulse t) [] _ _ _ (eq_refl : event_time (GpsTime (fst (u_latest s)) (snd (u_latest s))) = _) eq_refl). rewrite EQ, <- app_assoc. reflexivity. }
        destruct (pulse_second D L _ _ t (T _ (in_or_app _ _ _ (or_introl I1))) (T (Pulse t) (in_or_app h [Pulse t] (Pulse t) (or_intror (or_introl eq_refl)))) K E) as (k & Hk & B1 & B2).
        destruct (mw_wake (u_wakers s)) as [ws woken]. cbn [fst snd]. rewrite <- Hk. split.
        -- split; cbn [u_latest u_offset]; [right; apply in_or_app; left; exact I1|]. intros o [= <-]. lra.
        -- intros v ws' [= <- _]. exists t. split; [reflexivity | split; assumption].
    + cbn [fst snd]. split; [|discriminate]. split; [|exact I2]. destruct I1 as [I1|I1]; [left; exact I1 | right; apply in_or_app; left; exact I1].
  - destruct (u_offset s) as [o|] eqn:E.
    + cbn [fst snd]. split; [|discriminate]. split; [|intros x X; apply I2; rewrite <- E; exact X]. destruct I1 as [I1|I1]; [left; exact I1 | right; apply in_or_app; left; exact I1].
    + destruct (mw_register w (u_wakers s)) as [ws ok]. cbn [fst snd]. split; [|destruct ok; discriminate].
      split; cbn [u_latest u_offset]; [|try rewrite E; discriminate]. destruct I1 as [I1|I1]; [left; exact I1 | right; apply in_or_app; left; exact I1].
Qed.

Lemma urun_app : forall a b s, urun s (a ++ b) = (fst (urun (fst (urun s a)) b), snd (urun s a) ++ snd (urun (fst (urun s a)) b)).
Proof.
  induction a as [|e a IH]; intros b s; cbn [app urun fst snd]; [destruct (urun s b); reflexivity|].
  destruct (ustep s e) as [s1 o]. rewrite IH. destruct (urun s1 a) as [s2 os]. cbn [fst snd]. reflexivity.
Qed.
Lemma urun_length : forall a s, length (snd (urun s a)) = length a.
Proof. induction a as [|e a IH]; intros s; cbn [urun]; [reflexivity|]. destruct (ustep s e) as [s1 o]. specialize (IH s1). destruct (urun s1 a). cbn in *. congruence. Qed.

Lemma in_order_prefix a b : in_order (a ++ b) -> in_order a.
Proof. intros H x e y f z t u E. apply (H x e y f (z ++ b) t u). rewrite E. rewrite <- !app_assoc. cbn. rewrite <- app_assoc. reflexivity. Qed.
Lemma late_prefix a b : late_pulses (a ++ b) -> late_pulses a.
Proof. intros H t I. apply H, in_or_app. left. exact I. Qed.

Lemma urun_inv D L : 0 <= L -> forall es, in_order es -> Forall (truthful D L) es -> late_pulses es -> uinv D L es (fst (urun uclock_new es)).
Proof.
  intros HL es. induction es as [|e es IH] using rev_ind; intros O T P.
  - split; [left; reflexivity | discriminate].
  - rewrite urun_app. cbn [fst urun]. specialize (IH (in_order_prefix _ _ O) (proj1 (proj1 (Forall_app _ _ _) T)) (late_prefix _ _ P)).
    pose proof (proj1 (ustep_inv D L es _ e HL O T P IH)) as K. destruct (ustep (fst (urun uclock_new es)) e). exact K.
Qed.

(** With a receiver that tells the time within the second and pulses at whole
    seconds, none of them in the first 800 ms after boot: once ready, the clock is
    slow by at most the stamping delay and never fast, and the times it announces
    are those of the pulses. *)
Theorem C82_right_time : forall D L es, 0 <= L -> in_order es -> Forall (truthful D L) es -> late_pulses es ->
  let s := fst (urun uclock_new es) in
  (u_ready s = true -> forall boot, boot + D - L <= to_unix s boot /\ to_unix s boot <= boot + D) /\
  (u_ready s = false -> forall boot, to_unix s boot == boot) /\
  (forall a e b v ws, es = a ++ e :: b -> nth_error (snd (urun uclock_new es)) (length a) = Some (Published v ws) ->
     exists t k, e = Pulse t /\ v = inject_Z k * 1000 /\ v <= t + D /\ t + D <= v + L).
Proof.
  intros D L es HL O T P. cbn zeta. destruct (urun_inv D L HL es O T P) as [_ I]. split; [|split].
  - unfold u_ready, to_unix. destruct (u_offset (fst (urun uclock_new es))) as [o|]; [|discriminate]. intros _ boot. specialize (I o eq_refl). lra.
  - unfold u_ready, to_unix. destruct (u_offset (fst (urun uclock_new es))) as [o|]; [discriminate|]. intros _ boot. lra.
  - intros a e b v ws E N. subst es.
    assert (X : a ++ e :: b = (a ++ [e]) ++ b) by (rewrite <- app_assoc; reflexivity).
    rewrite X in O, T, P. apply in_order_prefix in O. apply late_prefix in P. apply Forall_app in T. destruct T as [T _].
    pose proof (urun_inv D L HL a (in_order_prefix _ _ O) (proj1 (proj1 (Forall_app _ _ _) T)) (late_prefix _ _ P)) as IA.
    rewrite urun_app in N. cbn [snd] in N. rewrite nth_error_app2 in N by (rewrite urun_length; apply Nat.le_refl).
    rewrite urun_length, Nat.sub_diag in N. cbn [urun] in N. destruct (ustep (fst (urun uclock_new a)) e) as [s1 o] eqn:S.
    destruct (urun s1 b) as [s2 os]. cbn in N. injection N as ->.
    destruct (ustep_inv D L a _ e HL O T P IA) as [_ J]. rewrite S in J. cbn [snd] in J. destruct (J v ws eq_refl) as (t & -> & B1 & B2).
    exists t. cbn [ustep] in S. destruct (Qltb _ 800); [|discriminate S]. destruct (mw_wake _) as [w1 w2]. injection S as _ <- _.
    eexists. split; [reflexivity|]. split; [reflexivity | split; assumption].
Qed.

(** It becomes ready exactly when a pulse follows a time message by less than 800 ms
    (again none in the first 800 ms), and stays ready. *)
Theorem C82_ready_when : forall es, late_pulses es ->
  (u_ready (fst (urun uclock_new es)) = true <->
   exists a t1 ts b t c, es = a ++ GpsTime t1 ts :: b ++ Pulse t :: c /\ t - t1 < 800 /\ forall t2 ts2, ~ In (GpsTime t2 ts2) b).
Proof.
  intros es. induction es as [|e es IH] using rev_ind; intros P.
  - split; [discriminate|]. intros (a & t1 & ts & b & t & c & E & _). destruct a; discriminate E.
  - specialize (IH (late_prefix _ _ P)). rewrite urun_app. cbn [fst urun].
    assert (Latest : forall l, late_pulses l -> (u_latest (fst (urun uclock_new l)) = (0, 0%Z) /\ (forall t ts, ~ In (GpsTime t ts) l)) \/
              exists a b, l = a ++ GpsTime (fst (u_latest (fst (urun uclock_new l)))) (snd (u_latest (fst (urun uclock_new l)))) :: b /\ forall t ts, ~ In (GpsTime t ts) b).
    { intros l. induction l as [|x l IHl] using rev_ind; intros Pl; [left; split; [reflexivity | intros t ts []]|].
      specialize (IHl (late_prefix _ _ Pl)). rewrite urun_app. cbn [fst urun].
      assert (Step : forall s0, u_latest (fst (let '(s, o) := ustep s0 x in (s, [o]))) = match x with GpsTime t ts => (t, ts) | _ => u_latest s0 end).
      { intros s0. destruct x as [t ts|t|w]; cbn [ustep]; [reflexivity| |].
        - destruct (Qltb _ 800); [|reflexivity]. destruct (mw_wake _); reflexivity.
        - destruct (u_offset s0); [reflexivity|]. destruct (mw_register _ _); reflexivity. }
      rewrite !Step. destruct x as [t ts|t|w].
      - right. exists l, []. split; [reflexivity | intros ? ? []].
      - destruct IHl as [[E N] | (a & b & E & N)].
        + left. split; [exact E|]. intros t' ts' I. apply in_app_or in I. destruct I as [I|[I|[]]]; [exact (N _ _ I) | discriminate I].
        + right. exists a, (b ++ [Pulse t]). split.
          * rewrite E at 1. rewrite <- app_assoc. reflexivity.
          * intros t' ts' I. apply in_app_or in I. destruct I as [I|[I|[]]]; [exact (N _ _ I) | discriminate I].
      - destruct IHl as [[E N] | (a & b & E & N)].
        + left. split; [exact E|]. intros t' ts' I. apply in_app_or in I. destruct I as [I|[I|[]]]; [exact (N _ _ I) | discriminate I].
        + right. exists a, (b ++ [Await w]). split.
          * rewrite E at 1. rewrite <- app_assoc. reflexivity.
          * intros t' ts' I. apply in_app_or in I. destruct I as [I|[I|[]]]; [exact (N _ _ I) | discriminate I]. }
    specialize (Latest es (late_prefix _ _ P)).
    set (s := fst (urun uclock_new es)) in *.
    assert (Ext : (exists a t1 ts b t c, es ++ [e] = a ++ GpsTime t1 ts :: b ++ Pulse t :: c /\ t - t1 < 800 /\ (forall t2 ts2, ~ In (GpsTime t2 ts2) b)) <->
                  (exists a t1 ts b t c, es = a ++ GpsTime t1 ts :: b ++ Pulse t :: c /\ t - t1 < 800 /\ (forall t2 ts2, ~ In (GpsTime t2 ts2) b)) \/
                  (exists a t1 ts b t, e = Pulse t /\ es = a ++ GpsTime t1 ts :: b /\ t - t1 < 800 /\ (forall t2 ts2, ~ In (GpsTime t2 ts2) b))).
    { split.
      - intros (a & t1 & ts & b & t & c & E & C & N). destruct c as [|x c _] using rev_ind.
        + right. exists a, t1, ts, b, t.
          assert (E' : es ++ [e] = (a ++ GpsTime t1 ts :: b) ++ [Pulse t]) by (rewrite E, <- app_assoc; reflexivity).
          apply app_inj_tail in E'. destruct E' as [-> ->]. split; [reflexivity | split; [reflexivity | split; assumption]].
        + left. exists a, t1, ts, b, t, c. split; [|split; assumption].
          assert (E' : es ++ [e] = (a ++ GpsTime t1 ts :: b ++ Pulse t :: c) ++ [x]).
          { rewrite E, <- app_assoc. cbn. rewrite <- app_assoc. reflexivity. }
          apply app_inj_tail in E'. destruct E' as [E' _]. exact E'.
      - intros [(a & t1 & ts & b & t & c & E & C & N) | (a & t1 & ts & b & t & -> & E & C & N)].
        + exists a, t1, ts, b, t, (c ++ [e]). split; [|split; assumption]. rewrite E, <- app_assoc. cbn. rewrite <- app_assoc. reflexivity.
        + exists a, t1, ts, b, t, []. split; [|split; assumption]. rewrite E, <- app_assoc. reflexivity. }
    rewrite Ext, <- IH. clear Ext IH.
    assert (HR : u_ready (fst (ustep s e)) = true <-> u_ready s = true \/ (exists a t1 ts b t, e = Pulse t /\ es = a ++ GpsTime t1 ts :: b /\ t - t1 < 800 /\ (forall t2 ts2, ~ In (GpsTime t2 ts2) b))).
    { destruct e as [t ts|t|w]; cbn [ustep].
      - split; [left; assumption|]. intros [H | (a & t1 & ts1 & b & t' & E & _)]; [exact H | discriminate E].
      - destruct (Qltb (t - fst (u_latest s)) 800) eqn:Q.
        + destruct (mw_wake (u_wakers s)). split; [|reflexivity]. intros _. right. apply Qltb_iff in Q.
          destruct Latest as [[E N] | (a & b & E & N)].
          * exfalso. rewrite E in Q. cbn [fst] in Q. assert (X : 800 <= t) by (apply P, in_or_app; right; left; reflexivity). lra.
          * exists a, (fst (u_latest s)), (snd (u_latest s)), b, t. split; [reflexivity | split; [exact E | split; assumption]].
        + split; [left; assumption|]. intros [H | (a & t1 & ts1 & b & t' & [= <-] & E & C & N)]; [exact H|]. exfalso.
          destruct Latest as [[_ N'] | (a' & b' & E' & N')].
          * apply (N' t1 ts1). rewrite E. apply in_or_app. right. left. reflexivity.
          * assert (X : GpsTime t1 ts1 = GpsTime (fst (u_latest s)) (snd (u_latest s))).
            { assert (EE : a ++ GpsTime t1 ts1 :: b = a' ++ GpsTime (fst (u_latest s)) (snd (u_latest s)) :: b') by congruence.
              clear - EE N N'. revert a' EE. induction a as [|x a IHa]; intros [|x' a'] EE; injection EE as E1 E2.
              - congruence.
              - exfalso. subst b. apply (N (fst (u_latest s)) (snd (u_latest s))). apply in_or_app. right. left. reflexivity.
              - exfalso. subst b'. apply (N' t1 ts1). apply in_or_app. right. left. reflexivity.
              - exact (IHa a' E2). }
            injection X as X _. rewrite <- X in Q. assert (Q' : Qltb (t - t1) 800 = true) by (apply Qltb_iff; exact C). congruence.
      - split.
        + destruct (u_offset s) as [o|] eqn:E; [left; assumption|]. destruct (mw_register w (u_wakers s)). cbn. discriminate.
        + intros [H | (a & t1 & ts1 & b & t' & E & _)]; [|discriminate E]. unfold u_ready in H. destruct (u_offset s) as [o|] eqn:E; [|discriminate H]. cbn. unfold u_ready. rewrite E. reflexivity. }
    destruct (ustep s e) as [s1 o]. exact HR.
Qed.

(** A pulse in the first 0.8 s after boot, before any message: the clock claims to be
    ready and says it is the first second of 1970, although no message ever arrived. *)
Theorem C82_refuted_boot_pulse : forall D L, 0 <= L -> 1700000000000 <= D -> (exists k : Z, D + 500 == inject_Z k * 1000) ->
  in_order [Pulse 500] /\ Forall (truthful D L) [Pulse 500] /\
  let s := fst (urun uclock_new [Pulse 500]) in
  u_ready s = true /\ to_unix s 500 == 1000 /\ snd (urun uclock_new [Pulse 500]) = [Published 1000 []].
Proof.
  intros D L HL HD [k Hk]. split; [|split].
  - intros a e b f c t u E. destruct a as [|? [|]]; try discriminate E. destruct b; discriminate E.
  - constructor; [|constructor]. cbn. exists k. split; lra.
  - cbn zeta. split; [reflexivity|]. split; reflexivity.
Qed.

(** ** Waiters *)
Definition ops_of (s : uclock) (e : uevent) : list wop :=
  match e with
  | Pulse t => if Qltb (t - fst (u_latest s)) 800 then [Wake] else []
  | Await w => match u_offset s with Some _ => [] | None => [Register w] end
  | GpsTime _ _ => []
  end.

Definition waiting (es : list uevent) (w : nat) : Prop :=
  exists a b, es = a ++ Await w :: b /\ nth_error (snd (urun uclock_new es)) (length a) = Some Pending.

Lemma urun_snoc es e : urun uclock_new (es ++ [e]) = (fst (ustep (fst (urun uclock_new es)) e), snd (urun uclock_new es) ++ [snd (ustep (fst (urun uclock_new es)) e)]).
Proof. rewrite urun_app. cbn [urun]. destruct (ustep (fst (urun uclock_new es)) e). reflexivity. Qed.

Lemma waiting_snoc es e w : waiting (es ++ [e]) w -> waiting es w \/ (e = Await w /\ snd (ustep (fst (urun uclock_new es)) e) = Pending).
Proof.
  intros (a & b & E & N). rewrite urun_snoc in N. cbn [snd] in N. destruct b as [|x b _] using rev_ind.
  - right. apply app_inj_tail in E. destruct E as [-> ->]. split; [reflexivity|].
    rewrite nth_error_app2 in N by (rewrite urun_length; apply Nat.le_refl). rewrite urun_length, Nat.sub_diag in N. cbn [nth_error] in N. injection N as N. exact N.
  - left. assert (E' : es ++ [e] = (a ++ Await w :: b) ++ [x]) by (rewrite E, <- app_assoc; reflexivity).
    apply app_inj_tail in E'. destruct E' as [-> ->]. exists a, b. split; [reflexivity|].
    rewrite nth_error_app1 in N; [exact N|]. rewrite urun_length, app_length. cbn. lia.
Qed.

Lemma wait_shape : forall es, exists p, shape 10 p (u_wakers (fst (urun uclock_new es))) /\
  (u_ready (fst (urun uclock_new es)) = false -> forall w, waiting es w -> In w p).
Proof.
  induction es as [|e es IH] using rev_ind.
  - exists []. split; [split; [apply Nat.le_0_l | split; [constructor | reflexivity]]|]. intros _ w (a & b & E & _). destruct a; discriminate E.
  - destruct IH as (p & SH & I). rewrite urun_snoc. cbn [fst].
    assert (W : forall w, waiting (es ++ [e]) w -> waiting es w \/ (e = Await w /\ snd (ustep (fst (urun uclock_new es)) e) = Pending)) by (intros w; apply waiting_snoc).
    set (s := fst (urun uclock_new es)) in *. clearbody s. destruct e as [t ts|t|x]; cbn [ustep] in *.
    + exists p. split; [exact SH|]. intros NR w Hw. apply I; [exact NR|]. destruct (W w Hw) as [K | [K _]]; [exact K | discriminate K].
    + destruct (Qltb _ 800).
      * destruct (wake_shape' 10 p _ SH) as (s' & R & SH'). rewrite R in *. cbn [fst snd u_wakers u_offset] in *. exists []. split; [exact SH' | discriminate].
      * exists p. split; [exact SH|]. intros NR w Hw. apply I; [exact NR|]. destruct (W w Hw) as [K | [K _]]; [exact K | discriminate K].
    + destruct (u_offset s) as [o|] eqn:Eo.
      * exists p. split; [exact SH|]. intros NR w Hw. apply I; [exact NR|]. destruct (W w Hw) as [K | [_ K]]; [exact K | discriminate K].
      * destruct (register_shape 10 p _ x SH) as (s' & R & SH'). rewrite R in *. cbn [fst snd u_wakers u_offset] in *.
        eexists. split; [exact SH'|]. intros _ w Hw.
        assert (NR : u_ready s = false) by (unfold u_ready; rewrite Eo; reflexivity).
        destruct (W w Hw) as [K | [K1 K2]].
        -- specialize (I NR w K). destruct (in_dec Nat.eq_dec x p); [exact I|]. destruct (length p <? 10)%nat; [apply in_or_app; left; exact I | exact I].
        -- injection K1 as ->. destruct (in_dec Nat.eq_dec w p) as [J|J]; [exact J|]. destruct (length p <? 10)%nat; [apply in_or_app; right; left; reflexivity | discriminate K2].
Qed.

(** Every task told to wait is woken, once, by the pulse that makes the clock ready. *)
Theorem C82_waiters_are_woken : forall es t v ws,
  u_ready (fst (urun uclock_new es)) = false -> snd (ustep (fst (urun uclock_new es)) (Pulse t)) = Published v ws ->
  NoDup ws /\ forall w, waiting es w -> In w ws.
Proof.
  intros es t v ws NR E. destruct (wait_shape es) as (p & SH & I). specialize (I NR). cbn [ustep] in E. destruct (Qltb _ 800); [|discriminate E].
  destruct (wake_shape' 10 p _ SH) as (s' & R & _). rewrite R in E. cbn [snd] in E. injection E as _ <-. split; [apply SH | exact I].
Qed.

(** Ten tasks may wait; the eleventh brings the program down. *)
Theorem C82_refuted_eleventh_waiter :
  snd (urun uclock_new (map Await (seq 0 11))) = repeat Pending 10 ++ [Panics].
Proof. reflexivity. Qed.

(** the hypotheses are met by an ordinary start: boot at 12:00:00.3, messages 200 ms after each pulse *)
Theorem C82_instance : let es := [GpsTime 1000 1700000001; Await 3; Pulse 1702; GpsTime 2000 1700000002; Pulse 2701] in
  let D := 1700000000300 in
  in_order es /\ Forall (truthful D 5) es /\ late_pulses es /\
  snd (urun uclock_new es) = [Nothing; Pending; Published (1700000002 * 1000) [3%nat]; Nothing; Published (1700000003 * 1000) []] /\
  u_ready (fst (urun uclock_new es)) = true /\ to_unix (fst (urun uclock_new es)) 3000 == 3000 + D - 1.
Proof.
  cbn zeta. split; [|split; [|split; [|split; [reflexivity | split; reflexivity]]]].
  - assert (Gen : forall es, StronglySorted (fun e f => forall t u, event_time e = Some t -> event_time f = Some u -> t <= u) es -> in_order es).
    { intros es H. intros a e b f c t u E Et Eu. subst es. induction a as [|x a IH]; cbn [app] in H; apply StronglySorted_inv in H; destruct H as [H1 H2]; [|exact (IH H1)].
      rewrite Forall_forall in H2. eapply H2; [|exact Et|exact Eu]. apply in_or_app. right. left. reflexivity. }
    apply Gen. repeat constructor; cbn; intros t u; try discriminate; intros [= <-] [= <-]; lra.
  - assert (Q1 : forall a b : Q, Qltb a b = true -> a < b) by (intros a b H; apply Qltb_iff, H).
    assert (Q2 : forall a b : Q, Qle_bool a b = true -> a <= b) by (intros a b H; apply Qle_bool_iff, H).
    constructor; [split; apply Q1; reflexivity|]. constructor; [exact Logic.I|].
    constructor; [exists 1700000002%Z; split; apply Q2; reflexivity|].
    constructor; [split; apply Q1; reflexivity|]. constructor; [exists 1700000003%Z; split; apply Q2; reflexivity|]. constructor.
  - intros t H. cbn in H. destruct H as [H|[H|[H|[H|[H|[]]]]]]; try discriminate H; injection H as <-; lra.
Qed.

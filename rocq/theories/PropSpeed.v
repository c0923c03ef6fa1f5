(** * C79, C80: what the barometer filters guarantee. *)
From Coq Require Import List Bool Arith QArith Qabs Lqa Lia.
From Verif Require Import Numerics FlightCore VerticalSpeed VLP.
Import ListNotations.
Local Open Scope Q_scope.
Local Open Scope list_scope.

(** readings (time in ms, value) with strictly increasing times, the first after [t0] *)
Fixpoint after (t0 : Q) (l : list (Q * Q)) : Prop :=
  match l with [] => True | (t, _) :: l => t0 < t /\ after t l end.
Definition increasing (l : list (Q * Q)) : Prop := match l with [] => True | (t, _) :: l => after t l end.

(** ** C79 *)
Lemma physical_bound (t0 v0 t v : Q) s out : t0 < t -> physical_feed (A := exact) (Some (t0, v0)) t v = (s, out) ->
  s = Some (t, out) /\ v0 - 45 * ((t - t0) / 1000) <= out.
Proof.
  intros H. unfold physical_feed. cbn [exact lt32 lit32 div32 sub32 narrow div64 sub64 lit64 mul32 MAX_DECELERATION].
  assert (D : 0 < (t - t0) / 1000). { apply Qlt_shift_div_l; [reflexivity | lra]. }
  destruct (Qltb (-45) ((v - v0) / ((t - t0) / 1000))) eqn:E; intros [= <- <-]; (split; [reflexivity|]).
  - apply Qltb_iff in E.
    assert (X : -45 * ((t - t0) / 1000) < v - v0).
    { apply (Qmult_lt_r _ _ ((t - t0) / 1000)) in E; [|exact D]. rewrite Qmult_comm in E. rewrite (Qmult_comm ((v - v0) / _)) in E.
      rewrite Qmult_div_r in E by lra. rewrite Qmult_comm. exact E. }
    lra.
  - unfold MAX_DECELERATION. cbn [exact lit32]. apply Qle_refl.
Qed.

Section AnyLowPass.
Context {LP : Type}.
Variable lp_run : LP -> Q -> LP * Q.
Local Notation feed := (vsf_feed (A := exact) lp_run).
Local Notation runs := (vsf_run (A := exact) lp_run).

Lemma feed_inner_physical (s : vsf (A := exact)) ts alt : physical (fst (feed_inner (A := exact) lp_run s ts alt)) = physical s.
Proof.
  unfold feed_inner. destruct (lt64 ts (hold_end s)); [reflexivity|]. destruct (prev_alt s) as [[pt pa]|]; [|reflexivity].
  match goal with |- context [if ?c then _ else _] => destruct c end; [reflexivity|].
  destruct (lp_run (low_pass s) _) as [lp out]. reflexivity.
Qed.

Lemma feed_physical (s : vsf (A := exact)) ts alt s1 v : feed s ts alt = (s1, v) ->
  physical s1 = Some (ts, v) /\ forall t0 v0, physical s = Some (t0, v0) -> t0 < ts -> v0 - 45 * ((ts - t0) / 1000) <= v.
Proof.
  unfold vsf_feed. pose proof (feed_inner_physical s ts alt) as P. destruct (feed_inner (A := exact) lp_run s ts alt) as [s' o]. cbn [fst] in P.
  rewrite P. set (f := match o with Some v => v | None => _ end). clearbody f.
  destruct (physical s) as [[t0 v0]|].
  - destruct (physical_feed (Some (t0, v0)) ts f) as [ph out] eqn:E. intros [= <- <-]. cbn [physical].
    assert (K : ph = Some (ts, out)).
    { unfold physical_feed in E. match type of E with context [if ?c then _ else _] => destruct c end; congruence. }
    split; [exact K|]. intros t1 v1 [= <- <-] L. apply (physical_bound t0 v0 ts f ph out L E).
  - cbn [physical_feed]. intros [= <- <-]. cbn [physical]. split; [reflexivity | discriminate].
Qed.

Lemma div_1000 (x y : Q) : (x - y) / 1000 == x / 1000 - y / 1000.
Proof. field. Qed.

Lemma run_bound : forall l (s s2 : vsf (A := exact)) out t0 v0, runs s l = (s2, out) -> physical s = Some (t0, v0) -> after t0 l ->
  forall t v, In (t, v) out -> v0 - 45 * ((t - t0) / 1000) <= v.
Proof.
  induction l as [|[ts alt] l IH]; intros s s2 out t0 v0 E P S t v I; cbn [vsf_run] in E.
  - injection E as <- <-. destruct I.
  - destruct (feed s ts alt) as [s1 w] eqn:F. destruct (runs s1 l) as [s3 o] eqn:R. injection E as <- <-.
    destruct S as [S1 S2]. destruct (feed_physical s ts alt s1 w F) as [P1 B]. specialize (B t0 v0 P S1). destruct I as [[= <- <-] | I]; [exact B|].
    pose proof (IH s1 s3 o ts w R P1 S2 t v I) as K. rewrite div_1000 in *. lra.
Qed.

(** Whatever the sensor reports and whatever the low-pass filter computes, the
    vertical speed answered never falls by more than 45 m/s per second between
    any two readings. *)
Theorem C79_speed_falls_at_most_45 : forall lp l s out, increasing l -> runs (vsf_new (A := exact) lp) l = (s, out) ->
  forall a t1 v1 b t2 v2 c, out = a ++ (t1, v1) :: b ++ (t2, v2) :: c -> v1 - 45 * ((t2 - t1) / 1000) <= v2.
Proof.
  intros lp l s out I E. set (s0 := vsf_new lp) in E. clearbody s0.
  revert s0 s out E. induction l as [|[ts alt] l IH]; intros s0 s out E a t1 v1 b t2 v2 c X; cbn [vsf_run] in E.
  - injection E as <- <-. destruct a; discriminate X.
  - destruct (feed s0 ts alt) as [s1 w] eqn:F. destruct (runs s1 l) as [s3 o] eqn:R. injection E as <- <-.
    destruct a as [|[t' v'] a]; cbn [app] in X.
    + injection X as -> -> X. destruct (feed_physical s0 t1 alt s1 v1 F) as [P1 _].
      eapply run_bound; [exact R | exact P1 | exact I |]. rewrite X. apply in_or_app. right. left. reflexivity.
    + injection X as <- <- X. eapply IH; [|exact R | exact X]. destruct l as [|[t'' x''] l]; [exact Logic.I|]. cbn in I. apply I.
Qed.

(** the first answer is 0 *)
Lemma first_zero lp ts alt : snd (feed (vsf_new (A := exact) lp) ts alt) = 0.
Proof.
  unfold vsf_feed, feed_inner, vsf_new. cbn [hold_end prev_alt]. destruct (lt64 ts (lit64 0)); reflexivity.
Qed.

Lemma with_speed_run : forall l s, map (fun r => (r_ts r, r_speed r)) (with_speed (A := exact) lp_run s l) = snd (runs s l).
Proof.
  induction l as [|[ts alt] l IH]; intros s; cbn [with_speed vsf_run]; [reflexivity|].
  destruct (feed s ts alt) as [s1 v]. specialize (IH s1). destruct (runs s1 l) as [s2 o]. cbn [map snd r_ts r_speed] in *. rewrite IH. reflexivity.
Qed.

(** The backup core, fed by this filter, cannot take the flight for over too soon:
    when a reading at time [t] moves it out of the armed state although it had
    announced air speed [v1] at time [t1], more than (v1 + 20) / 45 seconds have passed. *)
Theorem C79_descent_takes_time : forall p lp l a r b, increasing l ->
  with_speed (A := exact) lp_run (vsf_new lp) l = a ++ r :: b ->
  forall st es st' e, brun p new_backup a = Some (st, es) -> b_state st = BArmed -> btick p st r = Some (st', e) -> b_state st' <> BArmed ->
  forall r1, In r1 a -> (r_speed r1 + 20) / 45 < (r_ts r - r_ts r1) / 1000.
Proof.
  intros p lp l a r b I W st es st' e _ Hst Ht Hst' r1 Hin.
  assert (V : r_speed r < -20).
  { unfold btick in Ht. rewrite Hst in Ht. destruct (lt32 (r_speed r) (lit32 (-20))) eqn:L; [apply Qltb_iff in L; exact L|].
    injection Ht as <- <-. destruct (Hst' eq_refl). }
  destruct (runs (vsf_new (A := exact) lp) l) as [s out] eqn:R.
  assert (O : out = map (fun r => (r_ts r, r_speed r)) (a ++ r :: b)) by (rewrite <- W, with_speed_run, R; reflexivity).
  apply in_split in Hin. destruct Hin as [a1 [a2 ->]].
  rewrite <- app_assoc in O. cbn [app] in O. rewrite map_app in O. cbn [map] in O. rewrite map_app in O. cbn [map] in O.
  pose proof (C79_speed_falls_at_most_45 lp l s out I R _ _ _ _ _ _ _ O) as K.
  apply Qlt_shift_div_r; [reflexivity|]. lra.
Qed.

(** In particular no pressure disturbance whatever makes it leave the armed state
    within 444 ms of the first reading. *)
Theorem C79_no_descent_at_once : forall p lp l r0 a r b, increasing l ->
  with_speed (A := exact) lp_run (vsf_new lp) l = r0 :: a ++ r :: b -> r_ts r - r_ts r0 <= 444 ->
  forall st es st' e, brun p new_backup (r0 :: a) = Some (st, es) -> b_state st = BArmed -> btick p st r = Some (st', e) -> b_state st' = BArmed.
Proof.
  intros p lp l r0 a r b I W L st es st' e Hr Hst Ht.
  assert (Dec : b_state st' = BArmed \/ b_state st' <> BArmed) by (destruct (b_state st'); try (right; discriminate); left; reflexivity).
  destruct Dec as [D | D]; [exact D|exfalso].
  pose proof (C79_descent_takes_time p lp l (r0 :: a) r b I W st es st' e Hr Hst Ht D r0 (or_introl eq_refl)) as K.
  assert (Z : r_speed r0 = 0).
  { destruct l as [|[ts alt] l]; [discriminate W|]. cbn [with_speed] in W. pose proof (first_zero lp ts alt) as F.
    destruct (feed (vsf_new (A := exact) lp) ts alt) as [s1 v]. cbn [snd] in F. injection W as <- _. cbn. exact F. }
  rewrite Z in K. assert (X : (0 + 20) / 45 == 4 # 9) by reflexivity. rewrite X in K.
  assert (Y : (r_ts r - r_ts r0) / 1000 <= 444 # 1000). { apply Qle_shift_div_r; [reflexivity|]. lra. }
  lra.
Qed.

End AnyLowPass.

(** What reaches the low-pass filter is never a jump of more than 3000 m/s: with a
    filter that keeps its inputs, all of them are within bounds. *)
Theorem C79_jumps_never_reach_the_filter : forall (g : list Q -> Q -> Q) l s out,
  vsf_run (A := exact) (fun seen v => (seen ++ [v], g seen v)) (vsf_new []) l = (s, out) ->
  Forall (fun v => Qabs v <= 3000) (low_pass s).
Proof.
  intros g l s out E. assert (H : Forall (fun v => Qabs v <= 3000) (low_pass (vsf_new (A := exact) (@nil Q)))) by constructor.
  set (s0 := vsf_new []) in *. clearbody s0. revert s0 s out H E.
  induction l as [|[ts alt] l IH]; intros s0 s out H E; cbn [vsf_run] in E; [injection E as <- <-; exact H|].
  destruct (vsf_feed _ s0 ts alt) as [s1 v] eqn:F. destruct (vsf_run _ s1 l) as [s2 o] eqn:R. injection E as <- <-.
  eapply IH; [|exact R]. unfold vsf_feed in F.
  assert (K : Forall (fun v => Qabs v <= 3000) (low_pass (fst (feed_inner (A := exact) (fun seen v => (seen ++ [v], g seen v)) s0 ts alt)))).
  { unfold feed_inner. destruct (lt64 ts (hold_end s0)); [exact H|]. destruct (prev_alt s0) as [[pt pa]|]; [|exact H].
    match goal with |- context [if ?c then _ else _] => destruct c eqn:J end; [exact H|].
    cbn [fst low_pass]. apply Forall_app. split; [exact H|]. constructor; [|constructor].
    cbn [exact lt32 lit32 abs32] in J. unfold Qltb in J. apply negb_false_iff in J. apply Qle_bool_iff in J. exact J. }
  destruct (feed_inner _ s0 ts alt) as [s' oo]. cbn [fst] in K.
  match type of F with (let '(ph, out) := ?x in _) = _ => destruct x as [ph out'] end. injection F as <- <-. exact K.
Qed.

(** After such a jump nothing is passed to the low-pass filter for half a second, and the first reading after that only
    starts anew: no speed is ever computed from the altitude that jumped, nor from the one before it. *)
Theorem C79_jump_is_forgotten : forall LP (lp : LP -> Q -> LP * Q) s pt pa ts alt l t2 a2 t3 a3 s1 o,
  hold_end (A := exact) s <= ts -> prev_alt (A := exact) s = Some (pt, pa) ->
  3000 < Qabs ((alt - pa) / ((ts - pt) / 1000)) ->
  Forall (fun r => fst r < ts + 500) l -> ts + 500 <= t2 -> t2 <= t3 ->
  vsf_run (A := exact) lp s ((ts, alt) :: l ++ [(t2, a2)]) = (s1, o) ->
  low_pass s1 = low_pass s /\
  (Qabs ((a3 - a2) / ((t3 - t2) / 1000)) <= 3000 ->
   low_pass (fst (vsf_feed (A := exact) lp s1 t3 a3)) = fst (lp (low_pass s) ((a3 - a2) / ((t3 - t2) / 1000)))).
Proof.
  intros LP lp s pt pa ts alt l t2 a2 t3 a3 s1 o Hh Hp HJ Hl H2 H3 E.
  assert (LT : forall a b : Q, lt64 (n := exact) a b = true <-> a < b).
  { intros a b. cbn [exact lt64]. unfold Qltb. rewrite negb_true_iff. split; intros K.
    - apply Qnot_le_lt. intros C. apply Qle_bool_iff in C. congruence.
    - apply not_true_is_false. intros C. apply Qle_bool_iff in C. lra. }
  cbn [vsf_run] in E. destruct (vsf_feed (A := exact) lp s ts alt) as [sj vj] eqn:Fj.
  assert (J : hold_end sj = ts + 500 /\ prev_alt sj = None /\ low_pass sj = low_pass s).
  { unfold vsf_feed, feed_inner in Fj. destruct (lt64 (n := exact) ts (hold_end s)) eqn:C; [apply LT in C; lra|]. rewrite Hp in Fj.
    match type of Fj with context [if ?c then _ else _] => destruct c eqn:D end.
    2:{ exfalso. cbn [exact lt32 lit32 abs32 div32 sub32 narrow sub64] in D. unfold Qltb in D. apply negb_false_iff in D. apply Qle_bool_iff in D.
        apply (Qlt_not_le _ _ HJ). exact D. }
    match type of Fj with (let '(ph, out) := ?x in _) = _ => destruct x as [ph out'] end. injection Fj as <- <-. cbn. auto. }
  destruct J as (J1 & J2 & J3). rewrite <- J3. clear Fj Hp HJ Hh J3.
  destruct (vsf_run (A := exact) lp sj (l ++ [(t2, a2)])) as [s2 o2] eqn:R. injection E as <- <-.
  revert sj o2 J1 J2 R. induction l as [|[tl al] l IH]; intros sj o2 J1 J2 R.
  - cbn [app vsf_run] in R. unfold vsf_feed, feed_inner in R. rewrite J1, J2 in R.
    destruct (lt64 (n := exact) t2 (ts + 500)) eqn:C; [apply LT in C; lra|].
    match type of R with context [physical_feed ?a ?b ?c] => destruct (physical_feed a b c) as [ph out'] end.
    injection R as <- <-. cbn [low_pass]. split; [reflexivity|]. intros K.
    unfold vsf_feed, feed_inner. cbn [hold_end prev_alt low_pass].
    destruct (lt64 (n := exact) t3 (ts + 500)) eqn:C3; [apply LT in C3; lra|].
    match goal with |- context [if ?c then _ else _] => destruct c eqn:D end.
    + exfalso. cbn [exact lt32 lit32 abs32 div32 sub32 narrow sub64] in D. unfold Qltb in D. apply negb_true_iff in D.
      apply Qle_bool_iff in K. change (Qle_bool (Qabs ((a3 - a2) / ((t3 - t2) / 1000))) 3000 = false) in D. congruence.
    + change (div32 (n := exact) (sub32 (n := exact) a3 a2) (div32 (n := exact) (narrow (n := exact) (sub64 (n := exact) t3 t2)) (lit32 (n := exact) 1000))) with ((a3 - a2) / ((t3 - t2) / 1000)).
      destruct (lp (low_pass sj) ((a3 - a2) / ((t3 - t2) / 1000))) as [l2 v2].
      match goal with |- context [physical_feed ?a ?b ?c] => destruct (physical_feed a b c) as [ph' out''] end. reflexivity.
  - inversion Hl as [|? ? Hl1 Hl2]; subst. cbn [fst] in Hl1. cbn [app vsf_run] in R.
    destruct (vsf_feed (A := exact) lp sj tl al) as [sk vk] eqn:Fk. destruct (vsf_run (A := exact) lp sk (l ++ [(t2, a2)])) as [s3 o3] eqn:R3. injection R as <- <-.
    assert (K : hold_end sk = hold_end sj /\ prev_alt sk = prev_alt sj /\ low_pass sk = low_pass sj).
    { unfold vsf_feed, feed_inner in Fk. rewrite J1 in Fk. destruct (lt64 (n := exact) tl (ts + 500)) eqn:C.
      2:{ exfalso. apply not_true_iff_false in C. apply C. apply LT. exact Hl1. }
      match type of Fk with context [physical_feed ?a ?b ?c] => destruct (physical_feed a b c) as [ph out'] end.
      injection Fk as <- <-. cbn. auto. }
    destruct K as (K1 & K2 & K3). rewrite <- K3. apply (IH Hl2 sk o3); [congruence|congruence|exact R3].
Qed.

(** While a jump is ignored, the speed answered is the one answered before the jump (when that was the low-pass filter's, not one
    limited to 45 m/s^2), through the reading after the half second too, which only starts anew. *)
Theorem C79_speed_is_held : forall LP (lp : LP -> Q -> LP * Q) s t0 a0 pt pa f lp' s1 ts alt l t2 a2 s2 o,
  hold_end (A := exact) s <= pt -> prev_alt (A := exact) s = Some (t0, a0) -> Qabs ((pa - a0) / ((pt - t0) / 1000)) <= 3000 ->
  lp (low_pass s) ((pa - a0) / ((pt - t0) / 1000)) = (lp', f) -> vsf_feed (A := exact) lp s pt pa = (s1, f) ->
  pt <= ts -> 3000 < Qabs ((alt - pa) / ((ts - pt) / 1000)) -> Forall (fun r => fst r < ts + 500) l -> ts + 500 <= t2 ->
  vsf_run (A := exact) lp s1 ((ts, alt) :: l ++ [(t2, a2)]) = (s2, o) ->
  map fst o = ts :: map fst l ++ [t2] /\ Forall (fun x => snd x = f) o.
Proof.
  intros LP lp s t0 a0 pt pa f lp' s1 ts alt l t2 a2 s2 o Hh Hp Hs Hlp F Ht HJ Hl H2 E.
  assert (LT : forall a b : Q, Qltb a b = true <-> a < b).
  { intros a b. unfold Qltb. rewrite negb_true_iff. split; intros K.
    - apply Qnot_le_lt. intros C. apply Qle_bool_iff in C. congruence.
    - apply not_true_is_false. intros C. apply Qle_bool_iff in C. lra. }
  assert (PH : forall p t, physical_feed (A := exact) (Some (p, f)) t f = (Some (t, f), f)).
  { intros p t. unfold physical_feed. cbn [exact lt32 lit32 div32 sub32 narrow div64 sub64 lit64].
    replace (Qltb (-45) ((f - f) / ((t - p) / 1000))) with true; [reflexivity|]. symmetry. apply LT.
    assert (Z : (f - f) / ((t - p) / 1000) == 0) by (unfold Qdiv; assert (Z : f - f == 0) by ring; rewrite Z; ring). rewrite Z. reflexivity. }
  assert (S1 : hold_end s1 <= pt /\ prev_alt s1 = Some (pt, pa) /\ last_speed s1 = Some f /\ physical s1 = Some (pt, f)).
  { unfold vsf_feed, feed_inner in F. change (lt64 (n := exact) pt (hold_end s)) with (Qltb pt (hold_end s)) in F.
    destruct (Qltb pt (hold_end s)) eqn:C; [apply LT in C; lra|]. rewrite Hp in F.
    change (div32 (n := exact) (sub32 (n := exact) pa a0) (div32 (n := exact) (narrow (n := exact) (sub64 (n := exact) pt t0)) (lit32 (n := exact) 1000))) with ((pa - a0) / ((pt - t0) / 1000)) in F.
    set (v := (pa - a0) / ((pt - t0) / 1000)) in *. change (lt32 (n := exact) (lit32 (n := exact) 3000) (abs32 (n := exact) v)) with (Qltb 3000 (Qabs v)) in F.
    destruct (Qltb 3000 (Qabs v)) eqn:D; [apply LT in D; lra|]. rewrite Hlp in F. cbn [low_pass hold_end prev_alt last_speed physical] in F.
    unfold physical_feed in F. destruct (physical s) as [[q w]|].
    - match type of F with context [if ?c then _ else _] => destruct c end; apply pair_equal_spec in F; destruct F as [<- F]; cbn [hold_end prev_alt last_speed physical]; [auto|]. rewrite F. auto.
    - injection F as <-. cbn [hold_end prev_alt last_speed physical]. auto. }
  destruct S1 as (A1 & A2 & A3 & A4). clear F Hlp Hs Hp Hh s.
  cbn [vsf_run] in E. destruct (vsf_feed (A := exact) lp s1 ts alt) as [sj vj] eqn:Fj.
  assert (J : hold_end sj = ts + 500 /\ prev_alt sj = None /\ last_speed sj = Some f /\ (exists p, physical sj = Some (p, f)) /\ vj = f).
  { unfold vsf_feed, feed_inner in Fj. change (lt64 (n := exact) ts (hold_end s1)) with (Qltb ts (hold_end s1)) in Fj.
    destruct (Qltb ts (hold_end s1)) eqn:C; [apply LT in C; lra|]. rewrite A2 in Fj.
    change (div32 (n := exact) (sub32 (n := exact) alt pa) (div32 (n := exact) (narrow (n := exact) (sub64 (n := exact) ts pt)) (lit32 (n := exact) 1000))) with ((alt - pa) / ((ts - pt) / 1000)) in Fj.
    set (v := (alt - pa) / ((ts - pt) / 1000)) in *. change (lt32 (n := exact) (lit32 (n := exact) 3000) (abs32 (n := exact) v)) with (Qltb 3000 (Qabs v)) in Fj.
    apply LT in HJ. rewrite HJ in Fj. cbn [low_pass hold_end prev_alt last_speed physical] in Fj. rewrite A3, A4, PH in Fj. injection Fj as <- <-.
    cbn [hold_end prev_alt last_speed physical]. split; [reflexivity|]. split; [reflexivity|]. split; [reflexivity|]. split; [exists ts; reflexivity|reflexivity]. }
  destruct J as (J1 & J2 & J3 & J4 & ->). clear A1 A2 A3 A4 Fj HJ.
  destruct (vsf_run (A := exact) lp sj (l ++ [(t2, a2)])) as [s3 o3] eqn:R. injection E as <- <-. cbn [map fst].
  assert (G : map fst o3 = map fst l ++ [t2] /\ Forall (fun x => snd x = f) o3).
  { revert sj o3 J1 J2 J3 J4 R. induction l as [|[tl al] l IH]; intros sj o3 J1 J2 J3 J4 R; destruct J4 as [p J4].
    - cbn [app vsf_run] in R. unfold vsf_feed, feed_inner in R. change (lt64 (n := exact) t2 (hold_end sj)) with (Qltb t2 (hold_end sj)) in R. rewrite J1, J2 in R.
      destruct (Qltb t2 (ts + 500)) eqn:C; [apply LT in C; lra|]. cbn [last_speed physical hold_end prev_alt low_pass] in R. rewrite J3, J4, PH in R. injection R as <- <-.
      split; [reflexivity|]. constructor; [reflexivity|constructor].
    - inversion Hl as [|? ? Hl1 Hl2]; subst. cbn [fst] in Hl1. cbn [app vsf_run] in R.
      destruct (vsf_feed (A := exact) lp sj tl al) as [sk vk] eqn:Fk. destruct (vsf_run (A := exact) lp sk (l ++ [(t2, a2)])) as [s4 o4] eqn:R4. injection R as <- <-.
      unfold vsf_feed, feed_inner in Fk. change (lt64 (n := exact) tl (hold_end sj)) with (Qltb tl (hold_end sj)) in Fk. rewrite J1 in Fk. apply LT in Hl1. rewrite Hl1 in Fk.
      rewrite J3, J4, PH in Fk. injection Fk as <- <-.
      pose (sk := Vsf (A := exact) (hold_end sj) (prev_alt sj) (low_pass sj) (Some f) (Some (tl, f))).
      destruct (IH Hl2 sk o4 J1 J2 eq_refl (ex_intro _ tl eq_refl) R4) as [I1 I2].
      cbn [map fst app]. rewrite I1. split; [reflexivity|]. constructor; [reflexivity|exact I2]. }
  destruct G as [G1 G2]. rewrite G1. split; [reflexivity|]. constructor; [reflexivity|exact G2].
Qed.

(** 100 m/s, a jump to 9 km ignored: 100 m/s all along *)
Theorem C79_held_instance :
  map (fun x => (Qred (fst x), Qred (snd x))) (snd (vsf_run (A := exact) (fun _ v => (tt, v)) (vsf_new tt) [(0, 0); (100, 10); (200, 9000); (300, 7000); (800, 80)]))
  = [(0, 0); (100, 100); (200, 100); (300, 100); (800, 100)].
Proof. reflexivity. Qed.

(** a dive from 100 m/s is cut to the allowed deceleration; hypotheses satisfied *)
Theorem C79_instance : increasing [(0, 0); (100, 10); (200, 20); (300, 0)] /\
  map (fun x => (Qred (fst x), Qred (snd x))) (snd (vsf_run (A := exact) (fun _ v => (tt, v)) (vsf_new tt) [(0, 0); (100, 10); (200, 20); (300, 0)]))
  = [(0, 0); (100, 100); (200, 100); (300, (191 # 2))].
Proof. split; [cbn; lra | reflexivity]. Qed.

(** ** C80 *)
(** pressure rising faster than 3000 Pa/s from one reading to the next *)
Definition steep (p c : Q * Q) : Prop := 3000 < (snd c - snd p) / ((fst c - fst p) / 1000).
(** [c] is the upper end of such a rise somewhere in the readings [h] *)
Definition spike_in (h : list (Q * Q)) (c : Q * Q) : Prop := exists a p b, h = a ++ p :: c :: b /\ steep p c.
(** what the filter must answer for [r] after the readings [h] *)
Definition right_answer (h : list (Q * Q)) (r : Q * Q) (o : bool * (Q * Q)) : Prop :=
  (fst o = true <-> exists c, spike_in (h ++ [r]) c /\ fst r < fst c + 500) /\
  (fst o = false -> snd o = r) /\
  (fst o = true -> spike_in (h ++ [r]) (snd o) /\ forall c, spike_in (h ++ [r]) c -> fst c <= fst (snd o)).

Definition lastn2 (h : list (Q * Q)) : list (Q * Q) := match rev h with b :: a :: _ => [a; b] | [b] => [b] | [] => [] end.

Definition binv (h : list (Q * Q)) (s : bfilter (A := exact)) : Prop :=
  bf_history s = lastn2 h /\
  (((forall c, ~ spike_in h c) /\ bf_end s = 0 /\ bf_held s = None) \/
   (exists c, bf_held s = Some c /\ bf_end s = fst c + 500 /\ spike_in h c /\ forall c', spike_in h c' -> fst c' <= fst c)).

Lemma spike_app h p r c : spike_in ((h ++ [p]) ++ [r]) c <-> spike_in (h ++ [p]) c \/ (c = r /\ steep p r).
Proof.
  split.
  - intros [a [q [b [E S]]]]. destruct b as [|y b] using rev_ind.
    + right. rewrite <- app_assoc in E. cbn in E.
      assert (E' : (h ++ [p]) ++ [r] = (a ++ [q]) ++ [c]) by (rewrite <- !app_assoc; exact E).
      apply app_inj_tail in E'. destruct E' as [E' ->]. apply app_inj_tail in E'. destruct E' as [-> ->]. split; [reflexivity | exact S].
    + clear IHb. left. exists a, q, b. split; [|exact S].
      assert (E' : (h ++ [p]) ++ [r] = (a ++ q :: c :: b) ++ [y]) by (rewrite E, <- app_assoc; reflexivity).
      apply app_inj_tail in E'. destruct E' as [E' _]. exact E'.
  - intros [[a [q [b [E S]]]] | [-> S]].
    + exists a, q, (b ++ [r]). split; [|exact S]. rewrite E, <- app_assoc. reflexivity.
    + exists h, p, []. split; [|exact S]. rewrite <- app_assoc. reflexivity.
Qed.

Lemma spike_in_In h c : spike_in h c -> In c h.
Proof. intros [a [p [b [-> _]]]]. apply in_or_app. right. right. left. reflexivity. Qed.

Lemma no_spike_one r c : ~ spike_in [r] c.
Proof. intros [a [p [b [E _]]]]. destruct a as [|x [|y a]]; discriminate E. Qed.
Lemma no_spike_nil c : ~ spike_in [] c.
Proof. intros [a [p [b [E _]]]]. destruct a; discriminate E. Qed.

Lemma feed_two (s : bfilter (A := exact)) (p r : Q * Q) :
  (if (length (bf_history s) =? 2)%nat then tl (bf_history s) else bf_history s) ++ [r] = [p; r] ->
  bfilter_feed (A := exact) s r =
  (let spike := Qltb 3000 ((snd r - snd p) / ((fst r - fst p) / 1000)) in
   let e := if spike then fst r + 500 else bf_end s in
   let held := if spike then Some r else bf_held s in
   if Qltb (fst r) e then match held with Some x => Some (BFilter (A := exact) [p; r] e held, (true, x)) | None => None end
   else Some (BFilter (A := exact) [p; r] e held, (false, r))).
Proof.
  intros H2. unfold bfilter_feed. match goal with |- context [@app ?T ?x ?l] => change (@app T x l = [p; r]) in H2; rewrite H2 end. reflexivity.
Qed.

Lemma feed_right (h : list (Q * Q)) s (r : Q * Q) : binv h s -> Forall (fun x => fst x < fst r) h -> 0 <= fst r ->
  exists s' o, bfilter_feed (A := exact) s r = Some (s', o) /\ binv (h ++ [r]) s' /\ right_answer h r o.
Proof.
  intros [Hh Hs] F Hr. destruct h as [|p h _] using rev_ind.
  - destruct Hs as [[_ [He Hd]] | [c [_ [_ [S _]]]]]; [|destruct (no_spike_nil c S)].
    unfold bfilter_feed. rewrite Hh. cbn [lastn2 rev length Nat.eqb negb app]. eexists. eexists. split; [reflexivity|].
    split.
    + split; [reflexivity|]. left. cbn [bf_end bf_held]. split; [apply no_spike_one | split; assumption].
    + split; [|split]; cbn [fst snd app].
      * split; [discriminate|]. intros [c [S _]]. destruct (no_spike_one r c S).
      * reflexivity.
      * discriminate.
  - assert (H2 : (if (length (bf_history s) =? 2)%nat then tl (bf_history s) else bf_history s) ++ [r] = [p; r]).
    { rewrite Hh. unfold lastn2. rewrite rev_app_distr. cbn [rev app]. destruct (rev h) as [|q l]; reflexivity. }
    assert (L2 : lastn2 ((h ++ [p]) ++ [r]) = [p; r]).
    { unfold lastn2. rewrite !rev_app_distr. reflexivity. }
    rewrite (feed_two s p r H2). cbn zeta.
    set (slope := (snd r - snd p) / ((fst r - fst p) / 1000)).
    assert (St : Qltb 3000 slope = true <-> steep p r) by (unfold steep; apply Qltb_iff).
    destruct (Qltb 3000 slope) eqn:K.
    + (* a rise *)
      assert (T : Qltb (fst r) (fst r + 500) = true) by (apply Qltb_iff; lra). rewrite T.
      assert (SP : spike_in ((h ++ [p]) ++ [r]) r) by (apply spike_app; right; split; [reflexivity | apply St; reflexivity]).
      assert (MX : forall c, spike_in ((h ++ [p]) ++ [r]) c -> fst c <= fst r).
      { intros c S. apply spike_app in S. destruct S as [S | [-> _]]; [|lra]. apply spike_in_In in S. rewrite Forall_forall in F. specialize (F c S). lra. }
      eexists. eexists. split; [reflexivity|]. split.
      * split; [cbn [bf_history]; symmetry; exact L2|]. right. exists r. cbn [bf_held bf_end]. split; [reflexivity|]. split; [reflexivity|]. split; [exact SP | exact MX].
      * split; [|split]; cbn [fst snd].
        -- split; [intros _; exists r; split; [exact SP | lra] | reflexivity].
        -- discriminate.
        -- intros _. split; [exact SP | exact MX].
    + assert (NS : ~ steep p r) by (intros X; apply St in X; discriminate X).
      assert (EQ : forall c, spike_in ((h ++ [p]) ++ [r]) c <-> spike_in (h ++ [p]) c).
      { intros c. rewrite spike_app. split; [intros [X | [_ X]]; [exact X | destruct (NS X)] | intros X; left; exact X]. }
      destruct Hs as [[N [He Hd]] | [c [Hd [He [S M]]]]].
      * rewrite He, Hd. assert (T : Qltb (fst r) 0 = false) by (unfold Qltb; apply negb_false_iff; apply Qle_bool_iff; exact Hr). rewrite T.
        eexists. eexists. split; [reflexivity|]. split.
        -- split; [cbn [bf_history]; symmetry; exact L2|]. left. cbn [bf_end bf_held]. split; [|split; reflexivity].
           intros c X. apply EQ in X. exact (N c X).
        -- split; [|split]; cbn [fst snd].
           ++ split; [discriminate|]. intros [c [X _]]. apply EQ in X. destruct (N c X).
           ++ reflexivity.
           ++ discriminate.
      * rewrite He, Hd. destruct (Qltb (fst r) (fst c + 500)) eqn:T.
        -- apply Qltb_iff in T. eexists. eexists. split; [reflexivity|]. split.
           ++ split; [cbn [bf_history]; symmetry; exact L2|]. right. exists c. cbn [bf_held bf_end]. split; [reflexivity|]. split; [reflexivity|].
              split; [apply EQ; exact S|]. intros c' X. apply EQ in X. apply M. exact X.
           ++ split; [|split]; cbn [fst snd].
              ** split; [intros _; exists c; split; [apply EQ; exact S | exact T] | reflexivity].
              ** discriminate.
              ** intros _. split; [apply EQ; exact S|]. intros c' X. apply EQ in X. apply M. exact X.
        -- assert (T' : fst c + 500 <= fst r) by (unfold Qltb in T; apply negb_false_iff in T; apply Qle_bool_iff in T; exact T).
           eexists. eexists. split; [reflexivity|]. split.
           ++ split; [cbn [bf_history]; symmetry; exact L2|]. right. exists c. cbn [bf_held bf_end]. split; [reflexivity|]. split; [reflexivity|].
              split; [apply EQ; exact S|]. intros c' X. apply EQ in X. apply M. exact X.
           ++ split; [|split]; cbn [fst snd].
              ** split; [discriminate|]. intros [c' [X Y]]. apply EQ in X. specialize (M c' X). lra.
              ** reflexivity.
              ** discriminate.
Qed.

Lemma after_later : forall l t0, after t0 l -> Forall (fun x => t0 < fst x) l.
Proof.
  induction l as [|[t x] l IH]; intros t0 H; [constructor|]. destruct H as [H1 H2]. constructor; [exact H1|].
  specialize (IH t H2). rewrite Forall_forall in *. intros y I. specialize (IH y I). cbn in *. lra.
Qed.

Lemma run_right : forall l h s, binv h s -> increasing l -> Forall (fun x => 0 <= fst x) l ->
  (forall x y, In x h -> In y l -> fst x < fst y) ->
  exists s' os, bfilter_run (A := exact) s l = Some (s', os) /\ length os = length l /\
    forall a r b, l = a ++ r :: b -> exists o, nth_error os (length a) = Some o /\ right_answer (h ++ a) r o.
Proof.
  induction l as [|r l IH]; intros h s B I P F.
  - exists s, []. split; [reflexivity|]. split; [reflexivity|]. intros a r b E. destruct a; discriminate E.
  - inversion P as [|? ? P1 P2]; subst.
    assert (F1 : Forall (fun x => fst x < fst r) h). { apply Forall_forall. intros x Hx. apply F; [exact Hx | left; reflexivity]. }
    destruct (feed_right h s r B F1 P1) as [s1 [o [E1 [B1 A1]]]].
    assert (I' : increasing l). { destruct r as [t x]. destruct l as [|[t' x'] l]; [exact Logic.I|]. apply I. }
    assert (F' : forall x y, In x (h ++ [r]) -> In y l -> fst x < fst y).
    { intros x y Hx Hy. apply in_app_or in Hx. destruct Hx as [Hx | [<- | []]]; [apply F; [exact Hx | right; exact Hy]|].
      destruct r as [t z]. pose proof (after_later l t I) as K. rewrite Forall_forall in K. apply K. exact Hy. }
    destruct (IH (h ++ [r]) s1 B1 I' P2 F') as [s2 [os [E2 [L2 A2]]]].
    exists s2, (o :: os). split; [cbn [bfilter_run]; rewrite E1, E2; reflexivity|]. split; [cbn; rewrite L2; reflexivity|].
    intros a r' b E. destruct a as [|x a]; cbn [app] in E; injection E as <- E.
    + exists o. split; [reflexivity|]. rewrite app_nil_r. exact A1.
    + destruct (A2 a r' b E) as [o' [N R]]. exists o'. split; [exact N|]. rewrite <- app_assoc in R. exact R.
Qed.

(** For readings at increasing times the filter never fails, and it marks a reading
    to be ignored exactly when at most 500 ms before it (or with it) the pressure
    rose faster than 3000 Pa/s; it then hands out the reading of the latest such
    rise, and otherwise the reading itself. *)
Theorem C80_ignores_exactly_the_spikes : forall l, increasing l -> Forall (fun x => 0 <= fst x) l ->
  exists s os, bfilter_run (A := exact) bfilter_new l = Some (s, os) /\ length os = length l /\
    forall a r b, l = a ++ r :: b -> exists o, nth_error os (length a) = Some o /\ right_answer a r o.
Proof.
  intros l I P. destruct (run_right l [] bfilter_new) as [s [os [E [L A]]]].
  - split; [reflexivity|]. left. split; [apply no_spike_nil | split; reflexivity].
  - exact I.
  - exact P.
  - intros x y [].
  - exists s, os. split; [exact E|]. split; [exact L | exact A].
Qed.

Lemma bfilter_feed_last {A : numerics} (s s' : bfilter (A := A)) r o : bfilter_feed s r = Some (s', o) -> last_reading s' = Some r.
Proof.
  unfold bfilter_feed, last_reading.
  set (h := (if (length (bf_history s) =? 2)%nat then tl (bf_history s) else bf_history s) ++ [r]).
  assert (L : last (map Some h) None = Some r) by (unfold h; rewrite map_app; apply last_last). clearbody h.
  destruct (negb (length h =? 2)%nat); [intro E; injection E as <- _; exact L|].
  destruct h as [|prev h']; [discriminate|].
  cbv zeta. intro E.
  match type of E with (if ?c then _ else _) = _ => destruct c end.
  - match type of E with match ?m with _ => _ end = _ => destruct m end; [|discriminate]. injection E as <- _. exact L.
  - injection E as <- _. exact L.
Qed.
(** What the filter gives as the last reading is the last one fed to it, ignored or not (in any arithmetic). *)
Theorem C80_last_reading : forall (A : numerics) l r s os, bfilter_run (A := A) bfilter_new (l ++ [r]) = Some (s, os) -> last_reading s = Some r.
Proof.
  intros A l r. generalize (bfilter_new (A := A)). induction l as [|x l IH]; intros b s os E; cbn [app bfilter_run] in E.
  - destruct (bfilter_feed b r) as [[s1 o]|] eqn:F; [|discriminate]. injection E as <- _. exact (bfilter_feed_last b s1 r o F).
  - destruct (bfilter_feed b x) as [[s1 o]|]; [|discriminate]. destruct (bfilter_run s1 (l ++ [r])) as [[s2 os2]|] eqn:R; [|discriminate].
    injection E as <- _. exact (IH s1 s2 os2 R).
Qed.

(** Before the first rise the filter assumes times are not negative: a reading
    from before time zero after another one makes it fail. *)
Theorem C80_refuted_negative_time : bfilter_run (A := exact) bfilter_new [(-20, 1000); (-10, 1000)] = None.
Proof. vm_compute. reflexivity. Qed.

(** an ejection charge at 20 ms: the next two readings are ignored, the one after half a second is not *)
Theorem C80_instance : let l := [(0, 1000); (10, 1001); (20, 1100); (30, 900); (519, 900); (520, 901)] in
  increasing l /\ Forall (fun x => 0 <= fst x) l /\
  option_map snd (bfilter_run (A := exact) bfilter_new l) =
    Some [(false, (0, 1000)); (false, (10, 1001)); (true, (20, 1100)); (true, (20, 1100)); (true, (20, 1100)); (false, (520, 901))].
Proof. cbn zeta. split; [cbn; lra|]. split; [repeat constructor; cbn; lra | vm_compute; reflexivity]. Qed.

Print Assumptions C79_speed_falls_at_most_45.
Print Assumptions C79_descent_takes_time.
Print Assumptions C79_jump_is_forgotten.
Print Assumptions C79_jumps_never_reach_the_filter.
Print Assumptions C80_ignores_exactly_the_spikes.

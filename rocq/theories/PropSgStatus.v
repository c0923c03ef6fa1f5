(** * C127: the strain-gauge board's light, and when it records. *)
From Coq Require Import List Bool ZArith Lia.
From Verif Require Import SgStatus.
Import ListNotations.
Local Open Scope Z_scope.
Local Open Scope list_scope.

(** ** Specification *)
Inductive status := UsbAtBoot | Faulty | Recording | Idle.
(** what the light is supposed to tell, most urgent first *)
Definition status_of (usb_at_boot error recording : bool) : status :=
  if usb_at_boot then UsbAtBoot else if error then Faulty else if recording then Recording else Idle.
Definition pattern (s : status) : list (bool * Z) :=
  match s with
  | UsbAtBoot => [(true, 50); (false, 100); (true, 50); (false, 800)]
  | Faulty => [(true, 100); (false, 100)]
  | Recording => [(true, 500); (false, 500)]
  | Idle => [(true, 50); (false, 950)]
  end.
(** [shows p out]: the levels of [p], in order, each kept at least for its time
    before the next one *)
Fixpoint shows (p : list (bool * Z)) (out : list (bool * Z)) : Prop :=
  match p, out with
  | [], [] => True
  | (lv, d) :: p', (lv', t) :: out' => lv = lv' /\ match out' with (_, t') :: _ => t + d <= t' | [] => True end /\ shows p' out'
  | _, _ => False
  end.
(** the last sample read, and whether the board said it records *)
Definition adc_failed (l : list bevent) : bool := fold_left (fun b e => match e with BSample ok => negb ok | _ => b end) l false.
Definition started (l : list bevent) : bool := existsb (fun e => match e with BStore => true | _ => false end) l.

(** the four patterns can be told apart *)
Theorem C127_patterns_differ a b : pattern a = pattern b -> a = b.
Proof. destruct a, b; cbn; intros H; reflexivity || discriminate H. Qed.

Lemma run_snoc r u l e : board_run r u (l ++ [e]) = bstep r (board_run r u l) e.
Proof. unfold board_run. rewrite fold_left_app. reflexivity. Qed.

Lemma flags_run r u l : let b := board_run r u l in
  b_usb_at_boot b = u /\ b_stored b = started l /\ f_can (b_flags b) = false /\ f_adc (b_flags b) = adc_failed l /\
  f_usb (b_flags b) = (u && started l) /\ f_rec (b_flags b) = (negb (u && r) && started l).
Proof.
  cbv zeta. induction l as [|e l IH] using rev_ind; [cbn; rewrite !andb_false_r; auto 7|].
  rewrite run_snoc. unfold adc_failed, started in *. rewrite fold_left_app, existsb_app. cbn [fold_left existsb]. rewrite orb_false_r.
  generalize dependent (board_run r u l). intros b [I1 [I2 [I3 [I4 [I5 I6]]]]].
  destruct e as [|ok|on|a ld|now]; cbn [bstep]; rewrite ?orb_false_r, ?orb_true_r.
  - rewrite I1, I2. destruct (existsb (fun e => match e with BStore => true | _ => false end) l) eqn:E.
    + rewrite ?andb_true_r in *. repeat (split; [assumption|]). assumption.
    + rewrite ?andb_false_r in *. destruct u, r; cbn [andb negb b_usb_at_boot b_stored b_flags f_can f_adc f_usb f_rec]; auto 7.
  - cbn [b_usb_at_boot b_stored b_flags f_can f_adc f_usb f_rec]. auto 7.
  - cbn [b_usb_at_boot b_stored b_flags f_can f_adc f_usb f_rec]. auto 7.
  - auto 7.
  - destruct (light_poll now (b_flags b) (b_light b)) as [lt o]. cbn [b_usb_at_boot b_stored b_flags]. auto 7.
Qed.

Lemma blink_pattern f : blink f = pattern (status_of (f_usb f) (f_can f || f_adc f) (f_rec f)).
Proof. unfold blink, status_of. destruct (f_usb f), (f_can f || f_adc f), (f_rec f); reflexivity. Qed.

(** what the light shows, cut into cycles: each cycle is one of the patterns,
    chosen by the flags at the moment it starts *)
Definition cycle_ok (r u : bool) (l : list bevent) (c : list (bool * Z)) (s : status) : Prop :=
  exists l1 t l2 lv rest, l = l1 ++ BLight t :: l2 /\ c = (lv, t) :: rest /\
    s = status_of (u && started l1) (adc_failed l1) (negb (u && r) && started l1).

(** C127: whatever happens, what the light shows is a sequence of cycles; each
    shows, completely except for the last one, the pattern of the status the
    board was in when the cycle started: USB present at boot, the last sample
    failed, recording, idle - in this order of urgency *)

Fixpoint so_far (p : list (bool * Z)) (out : list (bool * Z)) (lft : list (bool * Z)) (dl : Z) : Prop :=
  match p, out with
  | (lv, d) :: p', (lv', t) :: out' => lv = lv' /\
      match out' with
      | [] => lft = p' /\ dl = t + d
      | (_, t') :: _ => t + d <= t' /\ so_far p' out' lft dl
      end
  | _, _ => False
  end.
Lemma so_far_next p : forall out lv d r dl t, so_far p out ((lv, d) :: r) dl -> dl <= t -> so_far p (out ++ [(lv, t)]) r (t + d).
Proof.
  induction p as [|[a c] p IH]; intros out lv d r dl t H T; [destruct H|]. destruct out as [|[a' t0] out]; [destruct H|]. cbn [so_far app] in *.
  destruct H as [H1 H2]. split; [exact H1|]. destruct out as [|[a2 t2] out]; cbn [app].
  - destruct H2 as [<- ->]. split; [exact T|]. cbn. split; [reflexivity|]. split; reflexivity.
  - destruct H2 as [H2 H3]. split; [exact H2|]. exact (IH _ _ _ _ _ _ H3 T).
Qed.
Lemma so_far_done p : forall out dl, so_far p out [] dl -> shows p out.
Proof.
  induction p as [|[a c] p IH]; intros out dl H; [destruct H|]. destruct out as [|[a' t0] out]; [destruct H|]. cbn [so_far shows] in *.
  destruct H as [H1 H2]. split; [exact H1|]. destruct out as [|[a2 t2] out].
  - destruct H2 as [<- ->]. split; [exact I|]. exact I.
  - destruct H2 as [H2 H3]. split; [exact H2|]. exact (IH _ _ H3).
Qed.

Definition cycles_ok (r u : bool) (l : list bevent) (cs : list (list (bool * Z))) : Prop :=
  forall c, In c cs -> exists s, cycle_ok r u l c s /\ shows (pattern s) c.
Lemma cycle_more r u l e c s : cycle_ok r u l c s -> cycle_ok r u (l ++ [e]) c s.
Proof. intros [l1 [t [l2 [lv [rest [-> H]]]]]]. exists l1, t, (l2 ++ [e]), lv, rest. split; [rewrite <- app_assoc; reflexivity|exact H]. Qed.
Lemma cycles_more r u l e cs : cycles_ok r u l cs -> cycles_ok r u (l ++ [e]) cs.
Proof. intros H c C. destruct (H c C) as [s [H1 H2]]. exists s. split; [apply cycle_more; exact H1|exact H2]. Qed.

Lemma light_inv r u l : let b := board_run r u l in exists cs cur,
  b_shown b = concat cs ++ cur /\ cycles_ok r u l cs /\
  match b_light b with
  | None => cs = [] /\ cur = []
  | Some (lft, dl) => exists s, cycle_ok r u l cur s /\ so_far (pattern s) cur lft dl
  end.
Proof.
  cbv zeta. induction l as [|e l IH] using rev_ind; [exists [], []; cbn; split; [reflexivity|]; split; [intros c []|auto]|].
  pose proof (flags_run r u l) as F. cbv zeta in F. rewrite run_snoc. destruct IH as [cs [cur [E [C L]]]].
  revert F E L. generalize (board_run r u l). intros b [F1 [F2 [F3 [F4 [F5 F6]]]]] E L.
  assert (SAME : forall b', b_shown b' = b_shown b -> b_light b' = b_light b -> exists cs cur, b_shown b' = concat cs ++ cur /\ cycles_ok r u (l ++ [e]) cs /\
     match b_light b' with None => cs = [] /\ cur = [] | Some (lft, dl) => exists s, cycle_ok r u (l ++ [e]) cur s /\ so_far (pattern s) cur lft dl end).
  { intros b' -> ->. exists cs, cur. split; [exact E|]. split; [apply cycles_more; exact C|]. destruct (b_light b) as [[lft dl]|]; [|exact L].
    destruct L as [s [L1 L2]]. exists s. split; [apply cycle_more; exact L1|exact L2]. }
  destruct e as [|ok|on|a ld|now]; cbn [bstep].
  - apply SAME; destruct (b_stored b); try reflexivity; destruct (b_usb_at_boot b && r); reflexivity.
  - apply SAME; reflexivity.
  - apply SAME; reflexivity.
  - apply SAME; reflexivity.
  - assert (NEW : exists lv d rest, next_cycle now (b_flags b) = (rest, now + d, [(lv, now)]) /\ exists s,
      cycle_ok r u (l ++ [BLight now]) [(lv, now)] s /\ so_far (pattern s) [(lv, now)] rest (now + d)).
    { unfold next_cycle. rewrite blink_pattern, F3, F4, F5, F6, orb_false_l. set (s := status_of (u && started l) (adc_failed l) (negb (u && r) && started l)).
      destruct (pattern s) as [|[lv d] rest] eqn:P; [destruct s; discriminate P|]. exists lv, d, rest. split; [reflexivity|]. exists s.
      split; [exists l, now, [], lv, []; split; [reflexivity|]; split; reflexivity|]. rewrite P. cbn. auto. }
    unfold light_poll. destruct (b_light b) as [[lft dl]|] eqn:LT.
    + destruct L as [s [L1 L2]]. destruct (Z.leb_spec dl now) as [T|T].
      * destruct lft as [|[lv d] rest].
        -- destruct NEW as [lv [d [rest [N1 [s' [N2 N3]]]]]]. rewrite N1. cbn [b_shown b_light]. exists (cs ++ [cur]), [(lv, now)].
           split; [rewrite E, concat_app; cbn [concat]; rewrite app_nil_r; reflexivity|]. split; [|exists s'; split; assumption].
           intros c X. apply in_app_iff in X as [X|[<-|[]]]; [exact (cycles_more _ _ _ _ _ C c X)|]. exists s.
           split; [apply cycle_more; exact L1|exact (so_far_done _ _ _ L2)].
        -- cbn [b_shown b_light]. exists cs, (cur ++ [(lv, now)]). split; [rewrite E, app_assoc; reflexivity|]. split; [apply cycles_more; exact C|].
           exists s. split; [|exact (so_far_next _ _ _ _ _ _ _ L2 T)]. apply cycle_more. destruct L1 as [l1 [t [l2 [lv' [rest' [-> [-> H]]]]]]].
           exists l1, t, l2, lv', (rest' ++ [(lv, now)]). auto.
      * cbn [b_shown b_light]. exists cs, cur. rewrite app_nil_r. split; [exact E|]. split; [apply cycles_more; exact C|].
        exists s. split; [apply cycle_more; exact L1|exact L2].
    + destruct L as [-> ->]. destruct NEW as [lv [d [rest [N1 [s' [N2 N3]]]]]]. rewrite N1. cbn [b_shown b_light]. exists [], [(lv, now)].
      split; [rewrite E; reflexivity|]. split; [intros c []|]. exists s'. split; assumption.
Qed.

Theorem C127_light_shows_the_status_partial r u l : exists cs cur, b_shown (board_run r u l) = concat cs ++ cur /\
  (forall c, In c cs -> exists l1 t l2 lv rest, l = l1 ++ BLight t :: l2 /\ c = (lv, t) :: rest /\
     shows (pattern (status_of (u && started l1) (adc_failed l1) (negb (u && r) && started l1))) c) /\
  (cur = [] \/ exists l1 t l2 lv rest, l = l1 ++ BLight t :: l2 /\ cur = (lv, t) :: rest /\
     exists k, map fst cur = map fst (firstn k (pattern (status_of (u && started l1) (adc_failed l1) (negb (u && r) && started l1))))).
Proof.
  destruct (light_inv r u l) as [cs [cur [E [C L]]]]. exists cs, cur. split; [exact E|]. split.
  - intros c X. destruct (C c X) as [s [[l1 [t [l2 [lv [rest [-> [-> ->]]]]]]] S]]. exists l1, t, l2, lv, rest. auto.
  - destruct (b_light (board_run r u l)) as [[lft dl]|]; [|left; exact (proj2 L)]. right.
    destruct L as [s [[l1 [t [l2 [lv [rest [-> [-> ->]]]]]]] S]]. exists l1, t, l2, lv, rest. split; [reflexivity|]. split; [reflexivity|].
    revert S. set (p := pattern _). generalize ((lv, t) :: rest). clear. intros out. revert out lft dl.
    induction p as [|[a d] p IH]; intros out lft dl H; [destruct H|]. destruct out as [|[a' t'] out]; [destruct H|]. cbn [so_far] in H.
    destruct H as [<- H]. destruct out as [|[a2 t2] out]; [exists 1%nat; reflexivity|]. destruct H as [_ H]. destruct (IH _ _ _ H) as [k K].
    exists (S k). cbn [firstn map]. rewrite <- K. reflexivity.
Qed.

(** the recording starts by itself, unless USB was connected when a release
    build booted; the CAN bus has no say *)
Theorem C127_records_unless_usb_at_boot r u l : b_adc_on (board_run r u (l ++ [BStore])) = true \/ (u && r) = true \/ started l = true.
Proof.
  rewrite run_snoc. pose proof (flags_run r u l) as [F1 [F2 _]]. generalize dependent (board_run r u l). intros b F1 F2. cbn [bstep]. rewrite F1, F2.
  destruct (started l); [right; right; reflexivity|]. destruct (u && r); [right; left; reflexivity|]. left. reflexivity.
Qed.
Theorem C127_usb_at_boot_does_not_record l : Forall (fun e => match e with BSetAdc _ => False | _ => True end) l -> b_adc_on (board_run true true l) = false.
Proof.
  induction l as [|e l IH] using rev_ind; intros H; [reflexivity|]. apply Forall_app in H as [H He]. rewrite run_snoc.
  pose proof (flags_run true true l) as [F1 _]. specialize (IH H). inversion He as [|x y H1 H2]; subst.
  generalize dependent (board_run true true l). intros b IH F1. destruct e as [|ok|on|a ld|now]; cbn [bstep].
  - rewrite F1. cbn [andb]. destruct (b_stored b); exact IH.
  - exact IH.
  - destruct H1.
  - exact IH.
  - destruct (light_poll now (b_flags b) (b_light b)). exact IH.
Qed.

(** finding: the console turns the converter off, and the light goes on telling
    "recording" *)
Theorem C127_refuted_light_after_disabling : exists l, let b := board_run true false l in
  b_adc_on b = false /\ b_shown b = [(true, 10); (false, 510)] /\ shows (pattern Recording) (b_shown b).
Proof. exists [BStore; BSetAdc false; BLight 10; BLight 510]. cbn. split; [reflexivity|]. split; [reflexivity|]. split; [reflexivity|]. split; [lia|]. auto. Qed.
(** finding: messages on the CAN bus - a reset, the arming, the landing - change nothing *)
Theorem C127_refuted_can_is_ignored r u l a ld : board_run r u (l ++ [BCan a ld]) = board_run r u l.
Proof. rewrite run_snoc. reflexivity. Qed.

Example C127_case : b_shown (board_run true true [BLight 0; BStore; BLight 50; BLight 1000; BLight 1050; BLight 1149; BLight 1150; BLight 1200; BSample false; BLight 2000; BLight 2050])
  = [(true, 0); (false, 50); (true, 1000); (false, 1050); (true, 1150); (false, 1200); (true, 2000); (false, 2050)].
Proof. reflexivity. Qed.

Print Assumptions C127_patterns_differ.
Print Assumptions C127_light_shows_the_status_partial.
Print Assumptions C127_records_unless_usb_at_boot.
Print Assumptions C127_usb_at_boot_does_not_record.
Print Assumptions C127_refuted_light_after_disabling.
Print Assumptions C127_refuted_can_is_ignored.

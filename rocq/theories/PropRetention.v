(** * Property C132: how far back the flight recorder reaches. *)
From Coq Require Import List Bool Lia Arith QArith Lqa.
From Verif Require Import HostTime Storage PropStorage.
From Verif Require Import Ring PropRing.
Import ListNotations.
Local Open Scope nat_scope.
Local Open Scope list_scope.

(** ** Specification *)

(** The files the ring logger opens, in order: the one of the start, then one per rollover. *)
Fixpoint made (c : ring_config) (s : disk * option nat) (es : list Ring.event) : list entry :=
  match es with
  | [] => []
  | e :: es =>
      match estep c s e with
      | None => []
      | Some s' =>
          match e with
          | EBoot | ERotate => [Entry (S (d_max (fst s))) (rc_typ c)]
          | _ => []
          end ++ made c s' es
      end
  end.

Definition quiet (e : Ring.event) : Prop := match e with ERotate => True | EOther (OCreate _) => True | _ => False end.
Definition rollovers (es : list Ring.event) : nat := length (filter (fun e => match e with ERotate => true | _ => false end) es).

(** the last [n] elements *)
Definition last_ones {T} (n : nat) (l : list T) : list T := skipn (length l - n) l.

(** ** Proofs *)
Lemma skipn_S_app {T} k (l : list T) x : k <= length l -> skipn k (l ++ [x]) = skipn k l ++ [x].
Proof. intro H. rewrite skipn_app. replace (k - length l) with 0 by lia. reflexivity. Qed.

Lemma skipn_plus {T} (l : list T) : forall a b, skipn a (skipn b l) = skipn (a + b) l.
Proof. induction l as [|x l IH]; intros a b; [now rewrite !skipn_nil|]. destruct b; [now rewrite Nat.add_0_r|]. cbn [skipn]. rewrite IH, Nat.add_succ_r. reflexivity. Qed.

Lemma last_ones_length {T} n (l : list T) : length (last_ones n l) = Nat.min n (length l).
Proof. unfold last_ones. rewrite skipn_length. lia. Qed.

Lemma keeps_from c : forall es d cur d' r all,
  0 < rc_segs c -> Forall quiet es -> Forall (foreign (rc_typ c)) es ->
  segments (rc_typ c) d = last_ones (rc_segs c) all -> cur = Nat.min (rc_segs c) (length all) ->
  eruns c (d, Some cur) es = Some (d', r) ->
  segments (rc_typ c) d' = last_ones (rc_segs c) (all ++ made c (d, Some cur) es).
Proof.
  induction es as [|e es IH]; intros d cur d' r all P Q F S C H.
  - injection H as <- <-. cbn [made]. now rewrite app_nil_r.
  - inversion Q as [|x l Qe Qs]; subst x l. inversion F as [|x l Fe Fs]; subst x l.
    cbn [eruns made] in H |- *. destruct e as [| |o| | |]; try contradiction; cbn [estep fst] in H |- *.
    + destruct (ring_rotate c d cur) as [d1 cur1] eqn:R. rewrite app_assoc.
      assert (A : segments (rc_typ c) d1 = last_ones (rc_segs c) (all ++ [Entry (Datatypes.S (d_max d)) (rc_typ c)])
                  /\ cur1 = Nat.min (rc_segs c) (length (all ++ [Entry (Datatypes.S (d_max d)) (rc_typ c)]))).
      { unfold ring_rotate in R. unfold last_ones. rewrite app_length. cbn [length].
        destruct (Nat.leb_spec (rc_segs c) cur) as [L|L]; injection R as <- <-.
        - rewrite first_is_dropping, own_after, S. unfold last_ones. rewrite skipn_plus. split; [|lia].
          rewrite skipn_S_app by lia. f_equal. f_equal. lia.
        - rewrite <- (dropping_0 (rc_typ c) (d_files d)). rewrite own_after, S. unfold last_ones. rewrite skipn_plus. split; [|lia].
          rewrite skipn_S_app by lia. f_equal. f_equal. lia. }
      destruct A as [A1 A2]. exact (IH d1 cur1 d' r _ P Qs Fs A1 A2 H).
    + destruct o as [t|p]; [|contradiction]. cbn [foreign] in Fe. cbn [app].
      apply (IH _ cur d' r all P Qs Fs); [|exact C|exact H].
      rewrite <- S. unfold segments. cbn [do_other]. unfold add_file. cbn [d_files]. rewrite filter_app. cbn [filter]. unfold of_type at 2. cbn [e_typ].
      apply Nat.eqb_neq in Fe. rewrite Fe. apply app_nil_r.
Qed.

(** C132. While the logger runs and nobody else touches files of its type, the flash holds the newest files of that type, as
    many as the ring is configured for: those of earlier runs go first, then the logger's own, oldest first. *)
Theorem C132_keeps_the_newest c d0 es d r :
  Forall quiet es -> Forall (foreign (rc_typ c)) es ->
  eruns c (d0, None) (EBoot :: es) = Some (d, r) ->
  segments (rc_typ c) d = last_ones (rc_segs c) (segments (rc_typ c) d0 ++ made c (d0, None) (EBoot :: es)).
Proof.
  intros Q F H. cbn [eruns estep made fst] in H |- *. destruct (ring_new c d0) as [[d1 cur]|] eqn:E; [|discriminate].
  cbn [fst]. rewrite app_assoc.
  destruct (new_count c d0 d1 cur E) as (P & _ & _ & CUR).
  assert (A : segments (rc_typ c) d1 = last_ones (rc_segs c) (segments (rc_typ c) d0 ++ [Entry (S (d_max d0)) (rc_typ c)])).
  { unfold ring_new in E. rewrite (proj2 (Nat.eqb_neq _ _)) in E by lia. cbv zeta in E. unfold last_ones. rewrite app_length. cbn [length].
    destruct (Nat.ltb_spec (rc_segs c - 1) (count (rc_typ c) (d_files d0))) as [L|L]; injection E as <- _; rewrite own_after;
      rewrite count_segments in L; rewrite ?count_segments; rewrite skipn_S_app by lia; f_equal; f_equal; lia. }
  apply (keeps_from c es d1 cur d r _ P Q F A); [|exact H].
  rewrite app_length. cbn [length]. rewrite CUR, count_segments. lia.
Qed.

Lemma made_length c es : forall s s', Forall quiet es -> eruns c s es = Some s' -> length (made c s es) = rollovers es.
Proof.
  induction es as [|e es IH]; intros s s' Q H; [reflexivity|].
  inversion Q as [|x l Qe Qs]; subst x l. cbn [eruns made] in H |- *. destruct (estep c s e) as [s1|]; [|discriminate].
  specialize (IH s1 s' Qs H). unfold rollovers in *. destruct e as [| |[t|p]| | |]; try contradiction; cbn [filter app length]; lia.
Qed.

Lemma boot_made_length c d0 es s : Forall quiet es -> eruns c (d0, None) (EBoot :: es) = Some s ->
  length (made c (d0, None) (EBoot :: es)) = S (rollovers es).
Proof.
  intros Q H. cbn [eruns made estep] in H |- *. destruct (ring_new c d0) as [[d1 cur]|]; [|discriminate].
  cbn [app length]. now rewrite (made_length c es _ s Q H).
Qed.

(** ... so the file the logger opened [j] rollovers after its start is there as long as fewer than the configured number came after it. *)
Theorem C132_recent_file_is_there c d0 es d r j f :
  Forall quiet es -> Forall (foreign (rc_typ c)) es ->
  eruns c (d0, None) (EBoot :: es) = Some (d, r) ->
  nth_error (made c (d0, None) (EBoot :: es)) j = Some f -> rollovers es < j + rc_segs c ->
  In f (d_files d).
Proof.
  intros Q F H N J. pose proof (C132_keeps_the_newest c d0 es d r Q F H) as K.
  pose proof (boot_made_length c d0 es _ Q H) as L.
  assert (I : In f (segments (rc_typ c) d)); [|unfold segments in I; apply filter_In in I; tauto].
  rewrite K. unfold last_ones. revert N L. generalize (made c (d0, None) (EBoot :: es)) (segments (rc_typ c) d0). intros m old N L.
  rewrite app_length, L, skipn_app. apply in_or_app. right.
  apply nth_error_split in N. destruct N as (l1 & l2 & -> & LE). rewrite app_length in L. cbn [length] in L.
  rewrite skipn_app. apply in_or_app. right.
  replace (length old + S (rollovers es) - rc_segs c - length old - length l1) with 0 by lia. now left.
Qed.

(** C132. Put on the clock: [taken] are the times at which the logger takes its second, third ... file in use, each at some point of
    the change of file (Storage.changes).  Whatever was recorded at time [x] into file [j], no earlier than
    (segments - 1) segment lengths before [now] less the slack 2D + 2L, went to a file that is still on the flash at [now]. *)
Theorem C132_reaches_back c d0 es d r (first seg start L D late takes : Q) h (taken : list Q) (now x : Q) j f :
  Forall quiet es -> Forall (foreign (rc_typ c)) es ->
  eruns c (d0, None) (EBoot :: es) = Some (d, r) ->
  (0 <= late <= L)%Q -> (0 <= takes <= D)%Q -> Forall (steady L D) h -> (L + D <= seg * 1000)%Q ->
  length (changes first seg start late takes h) = rollovers es ->
  (forall k b e, nth_error (changes first seg start late takes h) k = Some (b, e) -> exists m, nth_error taken k = Some m /\ (b <= m <= e)%Q) ->
  (forall k b e, nth_error (changes first seg start late takes h) k = Some (b, e) -> b <= now)%Q ->
  (now - x <= (inject_Z (Z.of_nat (rc_segs c)) - 1) * (seg * 1000) - 2 * D - 2 * L)%Q ->
  nth_error (made c (d0, None) (EBoot :: es)) j = Some f ->
  (forall m, nth_error taken j = Some m -> x < m)%Q ->
  In f (d_files d).
Proof.
  intros Q F H HL HD HS LD LEN MK NOW BACK N X.
  apply (C132_recent_file_is_there c d0 es d r j f Q F H N).
  destruct (Nat.lt_ge_cases (rollovers es) (j + rc_segs c)) as [G|G]; [exact G|exfalso].
  pose proof (boot_made_length c d0 es _ Q H) as ML.
  assert (P : 0 < rc_segs c).
  { cbn [eruns estep] in H. destruct (ring_new c d0) as [[d1 cur]|] eqn:E; [|discriminate]. exact (proj1 (new_count c d0 d1 cur E)). }
  (* the change that ended file j *)
  destruct (nth_error (changes first seg start late takes h) j) as [[b e]|] eqn:EJ; [|apply nth_error_None in EJ; lia].
  destruct (MK j b e EJ) as (m & Em & Hm). specialize (X m Em).
  (* the latest change *)
  remember (rollovers es - 1) as n eqn:En.
  destruct (nth_error (changes first seg start late takes h) n) as [[b' e']|] eqn:EN; [|apply nth_error_None in EN; lia].
  specialize (NOW n b' e' EN).
  apply (C130_on_schedule _ _ _ L D) in EJ; [|assumption..]. apply (C130_on_schedule _ _ _ L D) in EN; [|assumption..].
  assert (Z1 : (Z.of_nat j + Z.of_nat (rc_segs c) - 1 <= Z.of_nat n)%Z) by lia.
  rewrite Zle_Qle in Z1. unfold Zminus in Z1. rewrite !inject_Z_plus in Z1. change (inject_Z (- (1))) with (- (1))%Q in Z1.
  revert Z1 BACK EJ EN. generalize (inject_Z (Z.of_nat j)) (inject_Z (Z.of_nat n)) (inject_Z (Z.of_nat (rc_segs c))).
  intros qj qn qs Z1 BACK [[EJ1 EJ2] EJ3] [[EN1 EN2] EN3].
  assert (SEG : (0 <= seg)%Q) by lra.
  assert (PR : ((qj + qs + - (1)) * seg <= qn * seg)%Q) by (apply Qmult_le_compat_r; assumption).
  lra.
Qed.

(** The flight computer's rings (avionics/mod.rs:94-97, 110-113): 6 segments of 5 minutes and 10 of 30: with changes and delays below
    a second and a half, the last 24 minutes 54 seconds, and the last 4 hours 29 minutes 54 seconds. *)
Lemma C132_tiers : forall L D : Q, (L <= 1500)%Q -> (D <= 1500)%Q ->
  ((24 * 60 + 54) * 1000 <= (inject_Z (Z.of_nat 6) - 1) * (300 * 1000) - 2 * D - 2 * L)%Q /\
  (((4 * 60 + 29) * 60 + 54) * 1000 <= (inject_Z (Z.of_nat 10) - 1) * (1800 * 1000) - 2 * D - 2 * L)%Q.
Proof. intros L D HL HD. change (inject_Z (Z.of_nat 6)) with 6%Q. change (inject_Z (Z.of_nat 10)) with 10%Q. split; lra. Qed.

(** *** Instance: the barometer's first tier on a flash with five old files, seven rollovers. *)
Definition baro1 := RingConfig 13 6.
Definition old_flash := DiskD [Entry 1 13; Entry 2 4; Entry 3 13; Entry 4 13; Entry 5 13; Entry 6 13] 6.
Definition flight : list Ring.event := [ERotate; ERotate; EOther (OCreate 9); ERotate; ERotate; ERotate; ERotate; ERotate].
Lemma C132_instance :
  Forall quiet flight /\ Forall (foreign 13) flight /\ rollovers flight = 7
  /\ made baro1 (old_flash, None) (EBoot :: flight) = map (fun n => Entry n 13) [7; 8; 9; 11; 12; 13; 14; 15]
  /\ option_map fst (eruns baro1 (old_flash, None) (EBoot :: flight))
     = Some (DiskD [Entry 2 4; Entry 9 13; Entry 10 9; Entry 11 13; Entry 12 13; Entry 13 13; Entry 14 13; Entry 15 13] 15)
  /\ length (changes 175 300 0 3 900 (repeat (3, 900)%Q 6)) = 7.
Proof.
  split; [repeat constructor|]. split; [repeat constructor; discriminate|]. split; [reflexivity|]. split; [reflexivity|].
  split; [reflexivity|]. reflexivity.
Qed.

(** ** It fails for the GPS and the IMU: their recorders share file types (file_types.rs:12-15, C64) *)

(** Two ring loggers with one configuration, [ours] first, on one flash: start both, then roll over in turn. *)
Fixpoint in_turn (n : nat) (c : ring_config) (d : disk) (cur1 cur2 : nat) (mine : list entry) : disk * list entry :=
  match n with
  | O => (d, mine)
  | S n => let '(d1, c1) := ring_rotate c d cur1 in
           let '(d2, c2) := ring_rotate c d1 cur2 in
           in_turn n c d2 c1 c2 (mine ++ [Entry (S (d_max d)) (rc_typ c)])
  end.
Definition both (n : nat) (c : ring_config) (d : disk) : option (disk * list entry) :=
  match ring_new c d with
  | Some (d1, c1) => match ring_new c d1 with
                     | Some (d2, c2) => Some (in_turn n c d2 c1 c2 [Entry (S (d_max d)) (rc_typ c)])
                     | None => None
                     end
  | None => None
  end.

(** The GPS recorder of the flight computer, the IMU's beside it, on a flash with the six files of an earlier flight: after five rollovers
    each, the GPS recorder's six files should all be there, and only the last three are: the log reaches back 10 minutes, not 25. *)
Theorem C132_refuted_shared_type :
  exists d mine, both 5 (RingConfig 9 6) (DiskD (map (fun n => Entry n 9) (seq 1 6)) 6) = Some (d, mine)
    /\ mine = map (fun n => Entry n 9) [7; 9; 11; 13; 15; 17]
    /\ filter (fun f => existsb (fun g => e_id f =? e_id g) (d_files d)) mine = map (fun n => Entry n 9) [13; 15; 17].
Proof. do 2 eexists. split; [reflexivity|]. split; reflexivity. Qed.

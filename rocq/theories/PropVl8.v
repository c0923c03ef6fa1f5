(** * Property theorems C56, C57, C75: the control protocol.  Model: Vl8.v *)
From Verif Require Import Base Vl8.
Local Open Scope N_scope.

(** ** C57: frames *)
(** packages as the Rust types hold them: a device id of 12 bytes, sentences in a buffer of 84 bytes *)
Definition package_ok (p : package) : Prop :=
  match p with
  | DeviceInfo d _ => length d = 12%nat
  | EventPackage _ (Some (EvNmea s _)) => length s = 84%nat
  | _ => True
  end.
(** a layout that can be read back and fits the 128-byte buffer *)
Record layout_ok (l : layout) : Prop := {
  lo_size : forall p, package_ok p -> length (lay_ser l p) = lay_size l (package_id p);
  lo_fits : forall id, (lay_size l id <= 126)%nat;
  lo_inv : forall p, package_ok p -> lay_de l (package_id p) (lay_ser l p) = p }.

Lemma id_small p : package_id p <= 10. Proof. destruct p; cbn; lia. Qed.

Theorem C57_round_trip : forall l, layout_ok l -> forall p, package_ok p -> decode_package l (encode_package l p) = Decoded p.
Proof.
  intros l [H1 H2 H3] p Hp. unfold encode_package, decode_package. pose proof (H2 (package_id p)) as Hf. rewrite <- H1 in Hf by exact Hp.
  rewrite N.mod_small by lia. rewrite Nat2N.id. cbn [length]. replace (Nat.eqb (S (S (length (lay_ser l p)))) (length (lay_ser l p) + 2)) with true by (symmetry; apply Nat.eqb_eq; lia).
  cbn [negb]. destruct (N.leb_spec (package_id p) 10) as [_|Hb]; [|pose proof (id_small p); lia]. rewrite H1, Nat.ltb_irrefl, Nat.sub_diag by exact Hp. cbn [skipn]. rewrite H3 by exact Hp. reflexivity.
Qed.
Print Assumptions C57_round_trip.

Theorem C57_bad_frames_rejected : forall l b,
  (* empty, or the length byte disagrees with the length *)
  ((forall n t, b = n :: t -> (length b <> N.to_nat n + 2)%nat) -> decode_package l b = LengthDoesNotMatch) /\
  (* unknown package id *)
  (forall n id body, b = n :: id :: body -> length body = N.to_nat n -> 10 < id -> decode_package l b = UnknownPackageId).
Proof.
  intros l b. split.
  - intros H. destruct b as [|n t]; [reflexivity|]. unfold decode_package. specialize (H n t eq_refl). destruct (Nat.eqb_spec (length (n :: t)) (N.to_nat n + 2)); [contradiction|reflexivity].
  - intros n id body -> Hl Hid. unfold decode_package. cbn [length]. replace (Nat.eqb (S (S (length body))) (N.to_nat n + 2)) with true by (symmetry; apply Nat.eqb_eq; lia).
    cbn [negb]. destruct (N.leb_spec id 10); [lia|reflexivity].
Qed.
Print Assumptions C57_bad_frames_rejected.

(** what is accepted is exactly as long as its length byte says and carries a known id; but a frame whose length byte is consistent and
    too small for its package is not rejected: the decoder reads in front of the buffer *)
Theorem C57_short_frame_refuted : forall l, layout_ok l -> forall id, id <= 10 -> (0 < lay_size l id)%nat -> decode_package l [0; id] = OutOfBounds.
Proof.
  intros l _ id Hi Hs. unfold decode_package. cbn [length N.to_nat Nat.add Nat.eqb negb]. destruct (N.leb_spec id 10); [|lia].
  destruct (Nat.ltb_spec 0 (lay_size l id)); [reflexivity|lia].
Qed.
Print Assumptions C57_short_frame_refuted.

(** two frames with the same package id byte carry packages of the same kind *)
Definition same_kind (p q : package) : Prop :=
  match p, q with
  | Ack, Ack | PyroCtrl _ _, PyroCtrl _ _ | GetDevice, GetDevice | DeviceInfo _ _, DeviceInfo _ _ | PollEvent, PollEvent | EventPackage _ _, EventPackage _ _
  | GetContinuity _, GetContinuity _ | ContinuityInfo _, ContinuityInfo _ | GetHardwareArming, GetHardwareArming
  | HardwareArmingInfo _, HardwareArmingInfo _ | CameraCtrl _, CameraCtrl _ => True
  | _, _ => False
  end.
Theorem C57_kinds_told_apart : forall l p q, nth_error (encode_package l p) 1 = nth_error (encode_package l q) 1 -> same_kind p q.
Proof. intros l p q H. destruct p, q; first [exact Logic.I|discriminate H]. Qed.
Print Assumptions C57_kinds_told_apart.

(** a layout of this kind: the fields in declaration order, [Option] and enums with a tag byte, padded to the largest case *)
Definition b2n (b : bool) : N := if b then 1 else 0.
Lemma n2b b : (b2n b =? 1) = b. Proof. destruct b; reflexivity. Qed.
Definition ex_ser (p : package) : list N :=
  match p with
  | Ack | GetDevice | PollEvent | GetHardwareArming => []
  | PyroCtrl c e => [c; b2n e]
  | DeviceInfo d m => m :: d
  | EventPackage n None => n :: 0 :: 0 :: repeat 0 84
  | EventPackage n (Some (EvContinuity c b)) => n :: 1 :: c :: b2n b :: repeat 0 83
  | EventPackage n (Some (EvHardwareArming a)) => n :: 2 :: b2n a :: repeat 0 84
  | EventPackage n (Some (EvNmea s k)) => n :: 3 :: k :: s
  | GetContinuity c => [c]
  | ContinuityInfo b | HardwareArmingInfo b | CameraCtrl b => [b2n b]
  end.
Definition ex_de (id : N) (b : list N) : package :=
  match id, b with
  | 1, [c; e] => PyroCtrl c (e =? 1)
  | 2, _ => GetDevice
  | 3, m :: d => DeviceInfo d m
  | 4, _ => PollEvent
  | 5, n :: 1 :: c :: x :: _ => EventPackage n (Some (EvContinuity c (x =? 1)))
  | 5, n :: 2 :: x :: _ => EventPackage n (Some (EvHardwareArming (x =? 1)))
  | 5, n :: 3 :: k :: s => EventPackage n (Some (EvNmea s k))
  | 5, n :: _ => EventPackage n None
  | 6, [c] => GetContinuity c
  | 7, [x] => ContinuityInfo (x =? 1)
  | 8, _ => GetHardwareArming
  | 9, [x] => HardwareArmingInfo (x =? 1)
  | 10, [x] => CameraCtrl (x =? 1)
  | _, _ => Ack
  end.
Definition ex_layout : layout :=
  mkLayout (fun id => match id with 1 => 2%nat | 3 => 13%nat | 5 => 87%nat | 6 | 7 | 9 | 10 => 1%nat | _ => 0%nat end) ex_ser ex_de.
Example C57_layout_example : layout_ok ex_layout /\ (0 < lay_size ex_layout 1)%nat /\ package_ok (PyroCtrl 2 true) /\ encode_package ex_layout (PyroCtrl 2 true) = [2; 1; 2; 1].
Proof.
  split; [|repeat split; cbn; lia]. constructor.
  - intros p Hp. destruct p as [|c e| |d m| |n [[c b|a|s k]|]|c|b| |b|b]; cbn [package_ok] in Hp; cbn [ex_layout lay_ser lay_size package_id ex_ser length]; try reflexivity; rewrite Hp; reflexivity.
  - intros id. cbn [ex_layout lay_size]. repeat (match goal with |- context [match ?x with _ => _ end] => destruct x end); lia.
  - intros p Hp. destruct p as [|c e| |d m| |n [[c b|a|s k]|]|c|b| |b|b]; cbn [ex_layout lay_de lay_ser package_id ex_ser ex_de repeat]; rewrite ?n2b; reflexivity.
Qed.

(** ** C56: the event queue *)
Inductive qop := QPush (e : event) | QPoll.
(** what the slave holds afterwards and the answers to the polls *)
Fixpoint qrun (q : list event) (ops : list qop) : list event * list package :=
  match ops with
  | [] => (q, [])
  | QPush e :: t => qrun (push_event q e) t
  | QPoll :: t => let (q1, r) := poll_event q in let (q2, l) := qrun q1 t in (q2, r :: l)
  end.
Definition pushed (ops : list qop) : list event := flat_map (fun o => match o with QPush e => [e] | QPoll => [] end) ops.
Definition delivered (rs : list package) : list event := flat_map (fun r => match r with EventPackage _ (Some e) => [e] | _ => [] end) rs.
(** [a] is obtained from [b] by leaving out elements *)
Inductive sub {A} : list A -> list A -> Prop :=
| sub_nil : sub [] []
| sub_skip x a b : sub a b -> sub a (x :: b)
| sub_keep x a b : sub a b -> sub (x :: a) (x :: b).
Lemma sub_refl {A} (l : list A) : sub l l. Proof. induction l; [apply sub_nil|apply sub_keep; assumption]. Qed.
Lemma sub_empty {A} (l : list A) : sub [] l. Proof. induction l; [apply sub_nil|apply sub_skip; assumption]. Qed.
Lemma sub_app_l {A} (c : list A) : forall a b, sub a b -> sub (c ++ a) (c ++ b).
Proof. induction c; intros; cbn; [assumption|apply sub_keep; auto]. Qed.
Lemma sub_trans {A} (b c : list A) : sub b c -> forall a, sub a b -> sub a c.
Proof.
  induction 1 as [|x b c H IH|x b c H IH]; intros a Ha; [exact Ha|apply sub_skip; auto|].
  inversion Ha; subst; [apply sub_skip; auto|apply sub_keep; auto].
Qed.

Lemma push_cases q e : (length q <= 5)%nat -> (length q < 5 /\ push_event q e = q ++ [e])%nat \/ exists x q', q = x :: q' /\ length q = 5%nat /\ push_event q e = q' ++ [e].
Proof.
  intros H. unfold push_event. destruct (Nat.eqb_spec (length q) 5) as [E|E]; [right|left; split; [lia|reflexivity]].
  destruct q as [|x q']; [discriminate|]. exists x, q'. auto.
Qed.

(** the queue is always the newest events (at most five) of those pushed, deliveries come in order, none twice *)
Lemma qrun_inv ops : forall q, (length q <= 5)%nat -> let (q2, rs) := qrun q ops in
  (length q2 <= 5)%nat /\ exists rest, q ++ pushed ops = rest ++ q2 /\ sub (delivered rs) rest.
Proof.
  induction ops as [|[e|] ops IH]; intros q Hq; cbn [qrun].
  - split; [exact Hq|]. exists []. cbn. rewrite app_nil_r. split; [reflexivity|constructor].
  - assert (Hp : (length (push_event q e) <= 5)%nat).
    { destruct (push_cases q e Hq) as [[L ->]|(x & q' & -> & L & ->)]; rewrite app_length; cbn [length] in *; lia. }
    specialize (IH (push_event q e) Hp). destruct (qrun (push_event q e) ops) as [q2 rs]. destruct IH as [H2 (rest & E & Hs)]. split; [exact H2|].
    change (pushed (QPush e :: ops)) with (e :: pushed ops). destruct (push_cases q e Hq) as [[_ Ep]|(x & q' & -> & _ & Ep)]; rewrite Ep in E; rewrite <- app_assoc in E.
    + exists rest. split; [exact E|exact Hs].
    + exists (x :: rest). split; [cbn [app]; f_equal; exact E|apply sub_skip; exact Hs].
  - destruct q as [|e q].
    + cbn [poll_event]. specialize (IH [] Hq). destruct (qrun [] ops) as [q2 rs]. exact IH.
    + cbn [poll_event]. assert (Hp : (length q <= 5)%nat) by (cbn [length] in Hq; lia). specialize (IH q Hp). destruct (qrun q ops) as [q2 rs].
      destruct IH as [H2 (rest & E & Hs)]. split; [exact H2|]. exists (e :: rest). split.
      * change (pushed (QPoll :: ops)) with (pushed ops). cbn [app]. f_equal. exact E.
      * cbn [delivered flat_map]. apply (sub_keep e). exact Hs.
Qed.

Theorem C56_order : forall ops q rs, qrun [] ops = (q, rs) -> (length q <= 5)%nat /\ exists rest, pushed ops = rest ++ q /\ sub (delivered rs) rest.
Proof. intros ops q rs E. pose proof (qrun_inv ops [] ltac:(cbn; lia)) as H. rewrite E in H. exact H. Qed.
Print Assumptions C56_order.

(** the number of events pending when each push happens: at most 4 means nothing is ever dropped *)
Fixpoint never_full (q : list event) (ops : list qop) : Prop :=
  match ops with
  | [] => True
  | QPush e :: t => (length q < 5)%nat /\ never_full (push_event q e) t
  | QPoll :: t => never_full (fst (poll_event q)) t
  end.
Theorem C56_lossless_below_six : forall ops q rs, never_full [] ops -> qrun [] ops = (q, rs) -> pushed ops = delivered rs ++ q.
Proof.
  intros ops. assert (G : forall q0 q rs, never_full q0 ops -> qrun q0 ops = (q, rs) -> q0 ++ pushed ops = delivered rs ++ q).
  { induction ops as [|[e|] ops IH]; intros q0 q rs Hn E; cbn [qrun never_full] in *.
    - injection E as <- <-. cbn. apply app_nil_r.
    - destruct Hn as [Hl Hn]. specialize (IH _ _ _ Hn E). unfold push_event in IH. destruct (Nat.eqb_spec (length q0) 5); [lia|]. rewrite <- app_assoc in IH. exact IH.
    - destruct q0 as [|e q0]; cbn [poll_event fst] in *.
      + destruct (qrun [] ops) as [q2 l] eqn:E2. injection E as <- <-. apply (IH [] q2 l Hn E2).
      + destruct (qrun q0 ops) as [q2 l] eqn:E2. injection E as <- <-. cbn [delivered flat_map app]. f_equal. apply (IH q0 q2 l Hn E2). }
  intros q rs Hn E. apply (G [] q rs Hn E).
Qed.
Print Assumptions C56_lossless_below_six.

(** a dropped event is the oldest one, and it is dropped only when five newer events are pending: after a push the queue holds the new
    event preceded by the newest events pending before it *)
Theorem C56_drops_oldest_of_six : forall ops q rs e, qrun [] ops = (q, rs) ->
  exists dropped, q ++ [e] = dropped ++ push_event q e /\ (length dropped <= 1)%nat /\ (dropped <> [] -> length (push_event q e) = 5%nat).
Proof.
  intros ops q rs e E. pose proof (qrun_inv ops [] ltac:(cbn; lia)) as H. rewrite E in H. destruct H as [Hl _].
  destruct (push_cases q e Hl) as [[L ->]|(x & q' & -> & L & ->)]; [exists []; split; [reflexivity|]; split; [cbn; lia|]; intros X; contradiction|]. exists [x]. cbn [app length] in *. split; [reflexivity|]. split; [lia|]. intros _. rewrite app_length. cbn. lia.
Qed.
Print Assumptions C56_drops_oldest_of_six.

(** each answer reports how many events stay pending *)
Theorem C56_events_left : forall q q' n o, poll_event q = (q', EventPackage n o) -> n = N.of_nat (length q') /\ (o = None <-> q = []).
Proof.
  intros [|e q] q' n o E; cbn [poll_event] in E; injection E as <- <- <-; (split; [reflexivity|split; intros X; try reflexivity; discriminate]).
Qed.
Print Assumptions C56_events_left.

Example C56_example : let ev i := EvContinuity i true in
  qrun [] (map (fun i => QPush (ev i)) [1;2;3;4;5;6;7] ++ [QPoll; QPoll]) = ([ev 5; ev 6; ev 7], [EventPackage 4 (Some (ev 3)); EventPackage 3 (Some (ev 4))]).
Proof. reflexivity. Qed.
Example C56_lossless_example : never_full [] [QPush (EvHardwareArming true); QPush (EvContinuity 1 true); QPoll; QPoll; QPoll].
Proof. cbn. repeat split; lia. Qed.

(** ** C75: requests *)
(** a response that does not arrive in time does not arrive at all *)
Definition no_late (x : nat -> fate) : Prop := forall i, x i <> Late.

Lemma take_empty {S} (k : link S) : l_wire k = [] -> take k = (k, None).
Proof. intros E. unfold take. rewrite E. reflexivity. Qed.

Lemma request_inv {S} (slave : S -> package -> S * package) c x : no_late x -> forall n i k k' o, l_wire k = [] ->
  request_from slave n k c x i = (k', o) ->
  l_wire k' = [] /\ exists m, (m <= Datatypes.S n)%nat /\ l_done k' = l_done k ++ repeat c m /\
   (forall r, o = Some r -> (0 < m)%nat /\ exists s, r = snd (slave s c) /\ l_slave k' = fst (slave s c)).
Proof.
  intros Hx. induction n as [|n IH]; intros i k k' o Hw E; cbn [request_from] in E.
  - destruct (request_once slave k c (x i)) as [k1 o1] eqn:E1. assert (R : k' = k1 /\ o = o1) by (destruct o1; injection E as <- <-; auto). destruct R as [-> ->]. clear E.
    specialize (Hx i). destruct (x i); cbn [request_once] in E1; try contradiction.
    + rewrite take_empty in E1 by exact Hw. injection E1 as <- <-. split; [exact Hw|]. exists 0%nat. cbn [repeat]. rewrite app_nil_r. split; [lia|]. split; [reflexivity|discriminate].
    + unfold executes in E1. destruct (slave (l_slave k) c) as [s r]. cbn [fst] in E1. rewrite take_empty in E1 by exact Hw. injection E1 as <- <-. split; [exact Hw|].
      exists 1%nat. split; [lia|]. split; [reflexivity|discriminate].
    + unfold executes in E1. destruct (slave (l_slave k) c) as [s r] eqn:Es. unfold deliver, take in E1. cbn [l_wire l_slave l_done] in E1. rewrite Hw in E1. cbn [app] in E1. injection E1 as <- <-. split; [reflexivity|].
      exists 1%nat. split; [lia|]. split; [reflexivity|]. intros r0 E0. injection E0 as <-. split; [lia|]. exists (l_slave k). rewrite Es. auto.
  - destruct (request_once slave k c (x i)) as [k1 o1] eqn:E1. assert (Q : l_wire k1 = [] /\ ((o1 = None /\ (l_done k1 = l_done k \/ l_done k1 = l_done k ++ [c])) \/
        (exists r, o1 = Some r /\ l_done k1 = l_done k ++ [c] /\ r = snd (slave (l_slave k) c) /\ l_slave k1 = fst (slave (l_slave k) c)))).
    { pose proof (Hx i) as Hi. destruct (x i); cbn [request_once] in E1; try contradiction.
      - rewrite take_empty in E1 by exact Hw. injection E1 as <- <-. auto.
      - unfold executes in E1. destruct (slave (l_slave k) c) as [s r]. cbn [fst] in E1. rewrite take_empty in E1 by exact Hw. injection E1 as <- <-. auto.
      - unfold executes in E1. destruct (slave (l_slave k) c) as [s r] eqn:Es. unfold deliver, take in E1. cbn [l_wire l_slave l_done] in E1. rewrite Hw in E1. cbn [app] in E1. injection E1 as <- <-.
        split; [reflexivity|]. right. exists r. auto. }
    destruct Q as [Hw1 [[-> Hd]|(r & -> & Hd & Er & Es)]].
    + destruct (IH _ _ _ _ Hw1 E) as [Hw' (m & Hm & Hd' & Hr)]. split; [exact Hw'|]. destruct Hd as [Hd|Hd]; rewrite Hd in Hd'.
      * exists m. split; [lia|]. auto.
      * exists (Datatypes.S m). split; [lia|]. split; [rewrite Hd', <- app_assoc; reflexivity|]. intros r0 E0. destruct (Hr r0 E0) as [A B]. split; [lia|exact B].
    + injection E as <- <-. split; [exact Hw1|]. exists 1%nat. split; [lia|]. split; [exact Hd|]. intros r0 E0. injection E0 as <-. split; [lia|]. exists (l_slave k). auto.
Qed.

(** without late responses: a request is carried out at most five times, its answer is the slave's answer to the last of these, and a
    command reported as acknowledged has been carried out *)
Theorem C75_answer_belongs_to_request : forall S (slave : S -> package -> S * package) k c x k' o, l_wire k = [] -> no_late x -> request slave k c x = (k', o) ->
  l_wire k' = [] /\ exists m, (m <= 5)%nat /\ l_done k' = l_done k ++ repeat c m /\
   (forall r, o = Some r -> (0 < m)%nat /\ exists s, r = snd (slave s c) /\ l_slave k' = fst (slave s c)).
Proof. intros S slave k c x k' o Hw Hx E. exact (request_inv slave c x Hx 4 0 k k' o Hw E). Qed.
Print Assumptions C75_answer_belongs_to_request.

Theorem C75_acknowledged_pyro_was_switched_partial : forall S (slave : S -> package -> S * package) k ch en x k', l_wire k = [] -> no_late x ->
  pyro_ctrl slave k ch en x = (k', true) -> exists m, (1 <= m <= 5)%nat /\ l_done k' = l_done k ++ repeat (PyroCtrl ch en) m /\
  exists s, slave s (PyroCtrl ch en) = (l_slave k', Ack).
Proof.
  intros S slave k ch en x k' Hw Hx E. unfold pyro_ctrl in E. destruct (request slave k (PyroCtrl ch en) x) as [k1 [r|]] eqn:Er; [|discriminate].
  destruct (C75_answer_belongs_to_request _ _ _ _ _ _ _ Hw Hx Er) as [_ (m & Hm & Hd & Hr)]. destruct (Hr r eq_refl) as [H0 (s0 & Es & El)].
  assert (k1 = k') by (destruct r; injection E as <-; reflexivity). subst k1. exists m. split; [lia|]. split; [exact Hd|].
  exists s0. rewrite (surjective_pairing (slave s0 (PyroCtrl ch en))), <- Es, <- El. f_equal. destruct r; try (injection E; discriminate). reflexivity.
Qed.
Print Assumptions C75_acknowledged_pyro_was_switched_partial.
Theorem C75_acknowledged_camera_was_switched_partial : forall S (slave : S -> package -> S * package) k en x k', l_wire k = [] -> no_late x ->
  camera_ctrl slave k en x = (k', true) -> exists m, (1 <= m <= 5)%nat /\ l_done k' = l_done k ++ repeat (CameraCtrl en) m /\
  exists s, slave s (CameraCtrl en) = (l_slave k', Ack).
Proof.
  intros S slave k en x k' Hw Hx E. unfold camera_ctrl in E. destruct (request slave k (CameraCtrl en) x) as [k1 [r|]] eqn:Er; [|discriminate].
  destruct (C75_answer_belongs_to_request _ _ _ _ _ _ _ Hw Hx Er) as [_ (m & Hm & Hd & Hr)]. destruct (Hr r eq_refl) as [H0 (s0 & Es & El)].
  assert (k1 = k') by (destruct r; injection E as <-; reflexivity). subst k1. exists m. split; [lia|]. split; [exact Hd|].
  exists s0. rewrite (surjective_pairing (slave s0 (CameraCtrl en))), <- Es, <- El. f_equal. destruct r; try (injection E; discriminate). reflexivity.
Qed.
Print Assumptions C75_acknowledged_camera_was_switched_partial.

(** a late response to an earlier command is taken for the acknowledgement of a pyro command that never arrived *)
Definition always_ack : unit -> package -> unit * package := fun s _ => (s, Ack).
Theorem C75_refuted : exists x1 x2 k1 k2, camera_ctrl always_ack (mkLink tt [] []) true x1 = (k1, true) /\ pyro_ctrl always_ack k1 1 true x2 = (k2, true) /\
  ~ In (PyroCtrl 1 true) (l_done k2).
Proof.
  exists (fun i => match i with O => Late | _ => InTime end), (fun _ => ReqLost). do 2 eexists. split; [reflexivity|]. split; [reflexivity|].
  cbn. intros [H|[H|[]]]; discriminate.
Qed.
Print Assumptions C75_refuted.

(** events: the slave forgets an event when it is polled, so an answer that gets lost loses the event *)
Definition event_slave (q : list event) (c : package) : list event * package :=
  match c with PollEvent => poll_event q | _ => (q, Ack) end.
Theorem C75_event_lost : exists x k', master_poll event_slave (mkLink [EvHardwareArming true; EvContinuity 1 false] [] []) x = (k', Some (Some (EvContinuity 1 false), 0)).
Proof. exists (fun i => match i with O => RespLost | _ => InTime end). eexists. reflexivity. Qed.
Print Assumptions C75_event_lost.
(** when no message is lost, polling delivers the oldest pending event and leaves the rest *)
Theorem C75_poll_delivers_oldest : forall e q k x, l_slave k = e :: q -> l_wire k = [] -> x O = InTime ->
  exists k', master_poll event_slave k x = (k', Some (Some e, N.of_nat (length q))) /\ l_slave k' = q /\ l_wire k' = [].
Proof.
  intros e q k x Hs Hw Hx. unfold master_poll, request. cbn [request_from]. rewrite Hx. cbn [request_once]. unfold executes. rewrite Hs. cbn [event_slave poll_event].
  unfold deliver, take. cbn [l_wire l_slave l_done]. rewrite Hw. cbn [app]. eexists. split; [reflexivity|]. auto.
Qed.
Print Assumptions C75_poll_delivers_oldest.
(** Responses are taken in the order in which they arrived, whatever happens to each attempt: none is skipped, repeated or overtaken. *)
Section InOrder.
Context {S : Type} (slave : S -> package -> S * package).
(** the responses that arrive, early or late, in order *)
Fixpoint arrivals (s : S) (l : list (package * fate)) : list package :=
  match l with
  | [] => []
  | (c, ReqLost) :: l => arrivals s l
  | (c, RespLost) :: l => arrivals (fst (slave s c)) l
  | (c, _) :: l => snd (slave s c) :: arrivals (fst (slave s c)) l
  end.
Fixpoint attempts (k : link S) (l : list (package * fate)) : link S * list package :=
  match l with
  | [] => (k, [])
  | (c, x) :: l => let (k1, o) := request_once slave k c x in let (k2, got) := attempts k1 l in
      (k2, match o with Some r => r :: got | None => got end)
  end.
Theorem C75_responses_in_order l : forall k k' got, attempts k l = (k', got) -> got ++ l_wire k' = l_wire k ++ arrivals (l_slave k) l.
Proof.
  induction l as [|[c x] l IH]; intros k k' got H; cbn [attempts] in H.
  - injection H as <- <-. cbn [arrivals]. rewrite app_nil_r. reflexivity.
  - destruct k as [s d w]. destruct x; cbn [arrivals l_wire l_slave]; unfold request_once, executes in H; cbn [l_slave l_done l_wire] in H;
      try (destruct (slave s c) as [s1 r]); unfold deliver, take in H; cbn [fst snd l_slave l_done l_wire] in H |- *.
    + destruct w as [|r0 w].
      * destruct (attempts (mkLink s d []) l) as [k2 g] eqn:E. injection H as <- <-. exact (IH _ _ _ E).
      * destruct (attempts (mkLink s d w) l) as [k2 g] eqn:E. injection H as <- <-. cbn [app]. f_equal. exact (IH _ _ _ E).
    + destruct w as [|r0 w].
      * destruct (attempts (mkLink s1 (d ++ [c]) []) l) as [k2 g] eqn:E. injection H as <- <-. exact (IH _ _ _ E).
      * destruct (attempts (mkLink s1 (d ++ [c]) w) l) as [k2 g] eqn:E. injection H as <- <-. cbn [app]. f_equal. exact (IH _ _ _ E).
    + destruct w as [|r0 w]; cbn [app] in H.
      * destruct (attempts (mkLink s1 (d ++ [c]) []) l) as [k2 g] eqn:E. injection H as <- <-. cbn [app]. f_equal. exact (IH _ _ _ E).
      * destruct (attempts (mkLink s1 (d ++ [c]) (w ++ [r])) l) as [k2 g] eqn:E. injection H as <- <-. cbn [app]. f_equal.
        rewrite (IH _ _ _ E). cbn [l_wire l_slave]. rewrite <- app_assoc. reflexivity.
    + destruct w as [|r0 w]; cbn [l_slave l_done l_wire app] in H.
      * destruct (attempts (mkLink s1 (d ++ [c]) [r]) l) as [k2 g] eqn:E. injection H as <- <-. cbn [app]. exact (IH _ _ _ E).
      * destruct (attempts (mkLink s1 (d ++ [c]) (w ++ [r])) l) as [k2 g] eqn:E. injection H as <- <-. cbn [app]. f_equal.
        rewrite (IH _ _ _ E). cbn [l_wire l_slave]. rewrite <- app_assoc. reflexivity.
Qed.
End InOrder.
Print Assumptions C75_responses_in_order.
Example C75_in_order_case : attempts (fun n c => (n + 1, EventPackage n None)) (mkLink 0 [] []) [(PollEvent, Late); (PollEvent, Late); (PollEvent, RespLost); (PollEvent, InTime)] =
  (mkLink 4 [PollEvent; PollEvent; PollEvent; PollEvent] [], [EventPackage 0 None; EventPackage 1 None; EventPackage 3 None]).
Proof. reflexivity. Qed.
Example C75_example : no_late (fun i => match i with O => ReqLost | 1%nat => RespLost | _ => InTime end) /\
  pyro_ctrl always_ack (mkLink tt [] []) 2 true (fun i => match i with O => ReqLost | 1%nat => RespLost | _ => InTime end) =
    (mkLink tt [PyroCtrl 2 true; PyroCtrl 2 true] [], true).
Proof. split; [intros [|[|i]]; discriminate|reflexivity]. Qed.

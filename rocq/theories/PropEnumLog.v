(** * C84, C85: enum logs come back, strain-gauge files are complete and dated. *)
From Coq Require Import List Bool Arith QArith NArith Lia.
From Verif Require Import HostTime PropTime EnumLog.
Import ListNotations.
Local Open Scope list_scope.
Local Open Scope nat_scope.

(** ** C84 *)
(** what is assumed of the archived forms: fixed size per number, and readable *)
Definition codec_ok {V} (c : codec V) : Prop :=
  forall v, size_of c (tag c v) = Some (length (archive c v)) /\ unarchive c (tag c v) (archive c v) = v.

Definition file_of {V} (c : codec V) (l : list V) : list byte := flat_map (write_log c) l.

Lemma read_exact_spec : forall fuel n acc r, n <= fuel ->
  exists r', read_exact fuel n acc r = (if n <=? length (left r) then Some (acc ++ firstn n (left r)) else None, r') /\
             (n <= length (left r) -> left r' = skipn n (left r)).
Proof.
  induction fuel as [|fuel IH]; intros n acc r F.
  - assert (n = 0) as -> by lia. exists r. cbn. rewrite app_nil_r. split; reflexivity.
  - cbn [read_exact]. destruct (Nat.eqb_spec n 0) as [-> | N0].
    + exists r. cbn [Nat.leb firstn skipn]. rewrite app_nil_r. split; reflexivity.
    + unfold read. set (k := match pieces r with [] => n | p :: _ => Nat.min n (S p) end).
      assert (K : 1 <= k <= n) by (unfold k; destruct (pieces r); lia). clearbody k.
      set (r1 := Reader (skipn k (left r)) (tl (pieces r))).
      assert (Lg : length (firstn k (left r)) = Nat.min k (length (left r))) by apply firstn_length.
      destruct (Nat.eqb_spec (length (firstn k (left r))) 0) as [Z | Z].
      * exists r1. assert (Q : length (left r) = 0) by lia. destruct (Nat.leb_spec n (length (left r))); [lia|]. split; [reflexivity | lia].
      * destruct (IH (n - length (firstn k (left r))) (acc ++ firstn k (left r)) r1) as (r2 & E & L); [lia|].
        exists r2. rewrite E. unfold r1 in *. cbn [left] in *. rewrite skipn_length in *. split.
        -- destruct (Nat.leb_spec n (length (left r))) as [B|B].
           ++ assert (M : length (firstn k (left r)) = k) by lia. rewrite M.
              destruct (Nat.leb_spec (n - k) (length (left r) - k)); [|lia]. f_equal. f_equal. rewrite <- app_assoc. f_equal.
              replace n with (k + (n - k)) at 2 by lia.
              rewrite <- (firstn_skipn k (left r)) at 3.
              rewrite firstn_app, M. replace (k + (n - k) - k) with (n - k) by lia. f_equal.
              rewrite firstn_firstn. f_equal. lia.
           ++ destruct (Nat.leb_spec (n - length (firstn k (left r))) (length (left r) - k)); [lia | reflexivity].
        -- intros B. assert (M : length (firstn k (left r)) = k) by lia. rewrite L by lia. rewrite M.
           clear - K. generalize (left r). intros l. replace n with (k + (n - k)) at 2 by lia. generalize (n - k). intros m. revert l. induction k as [|k IHk]; intros l; [reflexivity|].
           destruct l as [|x l]; [cbn; destruct m; reflexivity|]. cbn [skipn Nat.add].
           clear IHk K. revert l. induction k as [|k IHk]; intros l; [reflexivity|]. destruct l; [cbn; destruct m; reflexivity|]. cbn. apply IHk.
Qed.

Lemma exactly_spec n r : exists r', exactly n r = (if n <=? length (left r) then Some (firstn n (left r)) else None, r') /\
  (n <= length (left r) -> left r' = skipn n (left r)).
Proof. exact (read_exact_spec n n [] r (Nat.le_refl n)). Qed.

Section Codec.
Context {V : Type}.
Variable c : codec V.
Hypothesis ok : codec_ok c.

Lemma read_next_log v rest r : left r = write_log c v ++ rest -> exists r', read_next c r = (Some v, r') /\ left r' = rest.
Proof.
  intros E. unfold read_next, write_log in *. cbn [app] in E. destruct (exactly_spec 1 r) as (r1 & E1 & L1). rewrite E1. rewrite E in *. cbn [length Nat.leb firstn skipn] in *.
  specialize (L1 (le_n_S _ _ (Nat.le_0_l _))). destruct (ok v) as [S U]. rewrite S. destruct (exactly_spec (length (archive c v)) r1) as (r2 & E2 & L2). rewrite E2.
  assert (B : length (archive c v) <= length (left r1)) by (rewrite L1, app_length; lia). destruct (Nat.leb_spec (length (archive c v)) (length (left r1))); [|lia].
  exists r2. rewrite L1, firstn_app, Nat.sub_diag, firstn_all, firstn_O, app_nil_r, U. split; [reflexivity|].
  rewrite (L2 B), L1, skipn_app, Nat.sub_diag, skipn_all. reflexivity.
Qed.

Lemma read_next_short v r n : n < length (write_log c v) -> left r = firstn n (write_log c v) -> fst (read_next c r) = None.
Proof.
  intros L E. unfold read_next, write_log in *. cbn [length] in L. destruct (exactly_spec 1 r) as (r1 & E1 & L1). rewrite E1.
  destruct n as [|n]; [rewrite E; reflexivity|]. rewrite E in *. cbn [length Nat.leb firstn skipn] in *.
  specialize (L1 (le_n_S _ _ (Nat.le_0_l _))). destruct (ok v) as [S U]. rewrite S. destruct (exactly_spec (length (archive c v)) r1) as (r2 & E2 & _). rewrite E2.
  rewrite L1, firstn_length. destruct (Nat.leb_spec (length (archive c v)) (Nat.min n (length (archive c v)))); [lia | reflexivity].
Qed.

(** the logs that fit, whole, in the first [n] bytes *)
Fixpoint whole (n : nat) (l : list V) : list V :=
  match l with
  | [] => []
  | v :: l => if length (write_log c v) <=? n then v :: whole (n - length (write_log c v)) l else []
  end.

Lemma parse_whole : forall l n fuel r, left r = firstn n (file_of c l) -> length (left r) < fuel -> parse c fuel r = whole n l.
Proof.
  induction l as [|v l IH]; intros n fuel r E F; (destruct fuel as [|fuel]; [lia|]); cbn [parse whole].
  - cbn in E. rewrite firstn_nil in E. unfold read_next. destruct (exactly_spec 1 r) as (r1 & E1 & _). rewrite E1, E. reflexivity.
  - cbn [file_of flat_map] in E. destruct (Nat.leb_spec (length (write_log c v)) n) as [B|B].
    + rewrite firstn_app, firstn_all2 in E by exact B. destruct (read_next_log v _ r E) as (r' & E' & L'). rewrite E'. f_equal.
      apply IH; [exact L'|]. rewrite L'. rewrite E, app_length in F. unfold write_log in F at 1. cbn [length] in F. lia.
    + rewrite firstn_app in E. replace (n - length (write_log c v)) with 0 in E by lia. rewrite firstn_O, app_nil_r in E.
      pose proof (read_next_short v r n B E) as K. destruct (read_next c r) as [o r']. cbn [fst] in K. rewrite K. reflexivity.
Qed.

(** A file of logs, cut anywhere (as by a power loss), read in pieces of any sizes,
    gives back the logs that are whole, in order, and then ends. *)
Theorem C84_truncated_log_reads_back : forall l n pieces,
  parse_all c (Reader (firstn n (file_of c l)) pieces) = whole n l.
Proof. intros l n ps. unfold parse_all. apply parse_whole; [reflexivity | cbn [left]; lia]. Qed.

Lemma whole_all : forall l, whole (length (file_of c l)) l = l.
Proof.
  induction l as [|v l IH]; [reflexivity|]. cbn [whole file_of flat_map]. rewrite app_length. destruct (Nat.leb_spec (length (write_log c v)) (length (write_log c v) + length (flat_map (write_log c) l))); [|lia].
  f_equal. replace (length (write_log c v) + length (flat_map (write_log c) l) - length (write_log c v)) with (length (file_of c l)) by (unfold file_of; lia). exact IH.
Qed.

(** Uncut, all of them. *)
Theorem C84_log_reads_back : forall l pieces, parse_all c (Reader (file_of c l) pieces) = l.
Proof. intros l ps. rewrite <- (firstn_all (file_of c l)). rewrite C84_truncated_log_reads_back. apply whole_all. Qed.

(** [whole n l] is a prefix of [l], and the longest whose bytes fit. *)
Theorem C84_whole_is_longest : forall l n, exists rest, l = whole n l ++ rest /\ length (file_of c (whole n l)) <= n /\
  forall v rest', rest = v :: rest' -> n < length (file_of c (whole n l ++ [v])).
Proof.
  induction l as [|v l IH]; intros n.
  - exists []. cbn. split; [reflexivity|]. split; [lia|]. intros v rest' H; discriminate H.
  - cbn [whole]. destruct (Nat.leb_spec (length (write_log c v)) n) as [B|B].
    + destruct (IH (n - length (write_log c v))) as (rest & E & L & M). exists rest. cbn [app file_of flat_map]. rewrite app_length. fold (file_of c (whole (n - length (write_log c v)) l)).
      split; [rewrite <- E; reflexivity|]. split; [lia|]. intros w rest' H. specialize (M w rest' H). rewrite app_length. fold (file_of c (whole (n - length (write_log c v)) l ++ [w])). lia.
    + exists (v :: l). split; [reflexivity|]. split; [cbn; lia|]. intros w rest' [= <- <-]. cbn [app file_of flat_map]. rewrite app_nil_r. exact B.
Qed.

Lemma exact_one t rest ps : exists r', exactly 1 (Reader (t :: rest) ps) = (Some [t], r') /\ left r' = rest.
Proof. destruct (exactly_spec 1 (Reader (t :: rest) ps)) as (r' & E & L). exists r'. rewrite E. cbn [left length Nat.leb firstn skipn] in *. split; [reflexivity | apply L; lia]. Qed.

(** A number no log type has ends the log silently: what follows is not reported. *)
Theorem C84_unknown_number_ends_the_log : forall l t rest pieces, size_of c t = None ->
  parse_all c (Reader (file_of c l ++ t :: rest) pieces) = l.
Proof.
  intros l t rest ps U. unfold parse_all.
  assert (G : forall l fuel r, left r = file_of c l ++ t :: rest -> length (left r) < fuel -> parse c fuel r = l).
  { clear l ps. induction l as [|v l IH]; intros fuel r E F; (destruct fuel as [|fuel]; [lia|]); cbn [parse].
    - cbn in E. unfold read_next. destruct r as [lf ps]. cbn [left] in E. subst lf. destruct (exact_one t rest ps) as (r' & E1 & _). rewrite E1, U. reflexivity.
    - cbn [file_of flat_map] in E. rewrite <- app_assoc in E. destruct (read_next_log v _ r E) as (r' & E' & L'). rewrite E'. f_equal. apply IH; [exact L'|].
      rewrite L'. rewrite E, app_length in F. unfold write_log in F at 1. cbn [length] in F. lia. }
  apply G; [reflexivity | cbn [left]; lia].
Qed.

(** from_buffer reads what write_to_buffer wrote, whatever follows. *)
Theorem C84_buffer_round_trip : forall v rest, from_buffer c (write_log c v ++ rest) = Some v.
Proof.
  intros v rest. cbn [write_log app from_buffer]. destruct (ok v) as [S U]. rewrite S, app_length. destruct (Nat.ltb_spec (length (archive c v) + length rest) (length (archive c v))); [lia|].
  rewrite firstn_app, Nat.sub_diag, firstn_all, firstn_O, app_nil_r, U. reflexivity.
Qed.
End Codec.

(** a codec with two log types of different sizes, like SGReadingLog *)
Definition demo : codec (N + N * N) :=
  Codec _ (fun v => match v with inl _ => 0%N | inr _ => 1%N end)
        (fun t => match t with 0%N => Some 1 | 1%N => Some 2 | _ => None end)
        (fun v => match v with inl a => [a] | inr (a, b) => [a; b] end)
        (fun t b => match t, b with 0%N, [a] => inl a | _, [a; b] => inr (a, b) | _, _ => inl 0%N end).
Theorem C84_instance : codec_ok demo /\
  parse_all demo (Reader (firstn 6 (file_of demo [inl 7%N; inr (8%N, 9%N); inr (1%N, 2%N)])) [0; 0; 5]) = [inl 7%N; inr (8%N, 9%N)].
Proof. split; [intros [a | [a b]]; split; reflexivity | reflexivity]. Qed.

(** ** C85 *)
Section Store.
Context {R : Type}.
Implicit Types (s : sgstate R) (es : list (sgevent R)).

(** everything stored, oldest file first *)
Definition stored s : list (list (sglog R)) := closed s ++ [current s].
Definition logged es : list R := flat_map (fun e => match e with Log r => [r] | _ => [] end) es.

Lemma sgrun_app : forall a b s, sgrun s (a ++ b) = match sgrun s a with Some s => sgrun s b | None => None end.
Proof. induction a as [|e a IH]; intros b s; cbn [app sgrun]; [reflexivity|]. destruct (sgstep s e); [apply IH | reflexivity]. Qed.

Lemma sgrun_snoc a e s : sgrun s (a ++ [e]) = match sgrun s a with Some s => sgstep s e | None => None end.
Proof. rewrite sgrun_app. destruct (sgrun s a) as [s1|]; [|reflexivity]. cbn. destruct (sgstep s1 e); reflexivity. Qed.

(** Every reading is stored exactly once, in order, whatever the rotations do. *)
Theorem C85_nothing_lost : forall es s, sgrun sg_start es = Some s -> flat_map readings (stored s) = logged es.
Proof.
  induction es as [|e es IH] using rev_ind; intros s H.
  - injection H as <-. reflexivity.
  - rewrite sgrun_snoc in H. destruct (sgrun sg_start es) as [s1|] eqn:E; [|discriminate H]. specialize (IH s1 eq_refl).
    unfold logged, stored in *. rewrite flat_map_app, flat_map_app in *. rewrite <- IH. cbn [flat_map] in *. rewrite !app_nil_r in *.
    destruct e as [b u | r | | |]; cbn [sgstep] in H.
    + injection H as <-. cbn. rewrite !app_nil_r. reflexivity.
    + destruct (match unix_log s1 with Some (b, u, updated) => _ | None => _ end) as [wr ul] eqn:W. injection H as <-. cbn [closed current].
      unfold readings at 2. rewrite flat_map_app, flat_map_app. cbn [flat_map app]. rewrite app_assoc.
      assert (Z : flat_map (fun l : sglog R => match l with Reading r => [r] | TimeLog _ _ => [] end) wr = []).
      { destruct (unix_log s1) as [[[b u] upd]|]; [destruct (new_segment s1 || upd)|]; injection W as <- _; reflexivity. }
      rewrite Z. reflexivity.
    + destruct (ph s1); try discriminate H. injection H as <-. destruct (dirty s1); cbn; rewrite !app_nil_r; reflexivity.
    + destruct (ph s1); try discriminate H. injection H as <-. cbn [closed current]. rewrite flat_map_app. cbn. rewrite !app_nil_r. reflexivity.
    + destruct (ph s1); try discriminate H. injection H as <-. cbn. rewrite !app_nil_r. reflexivity.
Qed.

(** the last time received *)
Fixpoint latest (es : list (sgevent R)) : option (Q * Q) :=
  match es with [] => None | e :: es => match latest es with Some t => Some t | None => match e with Time b u => Some (b, u) | _ => None end end end.

Lemma latest_snoc es e : latest (es ++ [e]) = match e with Time b u => Some (b, u) | _ => latest es end.
Proof.
  induction es as [|x es IH]; [destruct e; reflexivity|]. cbn [app latest]. rewrite IH. destruct e; try reflexivity; destruct (latest es); reflexivity.
Qed.

Lemma unix_latest : forall es s, sgrun sg_start es = Some s -> option_map fst (unix_log s) = latest es.
Proof.
  induction es as [|e es IH] using rev_ind; intros s H; [injection H as <-; reflexivity|].
  rewrite sgrun_snoc in H. destruct (sgrun sg_start es) as [s1|] eqn:E; [|discriminate H]. specialize (IH s1 eq_refl). rewrite latest_snoc.
  destruct e as [b u | r | | |]; cbn [sgstep] in H.
  - injection H as <-. reflexivity.
  - rewrite <- IH. destruct (unix_log s1) as [[[b u] upd]|]; [destruct (new_segment s1 || upd)|]; injection H as <-; reflexivity.
  - destruct (ph s1); try discriminate H. injection H as <-. destruct (dirty s1); exact IH.
  - destruct (ph s1); try discriminate H. injection H as <-. exact IH.
  - destruct (ph s1); try discriminate H. injection H as <-. exact IH.
Qed.

Definition quiet (e : sgevent R) : bool := match e with Log _ => false | Time _ _ => false | _ => true end.

Lemma quiet_keeps : forall es s s', forallb quiet es = true -> sgrun s es = Some s' -> unix_log s' = unix_log s /\ (new_segment s = true -> new_segment s' = true).
Proof.
  induction es as [|e es IH]; intros s s' Q H; cbn [sgrun forallb] in *; [injection H as <-; auto|].
  apply andb_true_iff in Q. destruct Q as [Q1 Q2]. destruct (sgstep s e) as [s1|] eqn:E; [|discriminate H]. destruct (IH s1 s' Q2 H) as [A B]. clear IH H.
  destruct e; try discriminate Q1; cbn [sgstep] in E; destruct (ph s); try discriminate E; injection E as <-.
  - destruct (dirty s); auto.
  - auto.
  - cbn in A, B. auto.
Qed.

(** The first reading stored after a new time was received comes right after it in the file. *)
Theorem C85_time_precedes_reading : forall a b u mid r s, forallb quiet mid = true ->
  sgrun sg_start (a ++ Time b u :: mid ++ [Log r]) = Some s ->
  exists f, current s = f ++ [TimeLog b u; Reading r].
Proof.
  intros a b u mid r s Q H. rewrite sgrun_app in H. destruct (sgrun sg_start a) as [s1|]; [|discriminate H]. cbn [sgrun sgstep] in H.
  set (s2 := SG (closed s1) (current s1) (new_segment s1) (dirty s1) (ph s1) (Some (b, u, true))) in H.
  rewrite sgrun_app in H. destruct (sgrun s2 mid) as [s3|] eqn:E; [|discriminate H]. destruct (quiet_keeps mid s2 s3 Q E) as [U _].
  cbn [sgrun sgstep] in H. rewrite U in H. cbn [unix_log s2] in H. rewrite orb_true_r in H. injection H as <-. exists (current s3). reflexivity.
Qed.

(** The first reading stored after a rotation has finished comes right after the
    latest time known, in the new file or in the one after. *)
Theorem C85_time_again_after_rotation : forall a mid r s b u, forallb quiet mid = true -> latest a = Some (b, u) ->
  sgrun sg_start (a ++ Finish :: mid ++ [Log r]) = Some s ->
  exists f, current s = f ++ [TimeLog b u; Reading r].
Proof.
  intros a mid r s b u Q L H. rewrite sgrun_app in H. destruct (sgrun sg_start a) as [s1|] eqn:E1; [|discriminate H].
  pose proof (unix_latest a s1 E1) as U1. rewrite L in U1. cbn [sgrun sgstep] in H. destruct (ph s1); try discriminate H.
  set (s2 := SG (closed s1) (current s1) true false Idle (unix_log s1)) in H.
  rewrite sgrun_app in H. destruct (sgrun s2 mid) as [s3|] eqn:E; [|discriminate H]. destruct (quiet_keeps mid s2 s3 Q E) as [U N]. specialize (N eq_refl).
  cbn [sgrun sgstep] in H. rewrite U, N in H. cbn [unix_log s2 orb] in H.
  destruct (unix_log s1) as [[[b' u'] upd]|]; [|discriminate U1]. cbn in U1. injection U1 as -> ->. injection H as <-. exists (current s3). reflexivity.
Qed.

(** no reading is stored between the swap of the files and the end of the rotation *)
Fixpoint calm (p : bool) es : Prop :=
  match es with
  | [] => True
  | Swap :: es => calm true es
  | Finish :: es => calm false es
  | Log _ :: es => p = false /\ calm p es
  | _ :: es => calm p es
  end.

Fixpoint swapping (p : bool) es : bool := match es with [] => p | Swap :: es => swapping true es | Finish :: es => swapping false es | _ :: es => swapping p es end.
Lemma calm_snoc : forall es p e, calm p (es ++ [e]) -> calm p es /\ match e with Log _ => swapping p es = false | _ => True end.
Proof.
  induction es as [|x es IH]; intros p e H; cbn [app] in H.
  - split; [exact Logic.I|]. destruct e; try exact Logic.I. cbn in *. apply H.
  - destruct x; cbn [calm swapping] in *; try (apply IH; exact H). destruct H as [H1 H2]. destruct (IH p e H2) as [A B]. auto.
Qed.
Lemma swapping_snoc : forall es p e, swapping p (es ++ [e]) = match e with Swap => true | Finish => false | _ => swapping p es end.
Proof. induction es as [|x es IH]; intros p e; [destruct e; reflexivity|]. cbn [app swapping]. destruct x; apply IH. Qed.

Lemma swapping_phase : forall es s, sgrun sg_start es = Some s -> (swapping false es = true <-> ph s = Swapped).
Proof.
  induction es as [|e es IH] using rev_ind; intros s H; [injection H as <-; cbn; split; discriminate|].
  rewrite sgrun_snoc in H. destruct (sgrun sg_start es) as [s1|] eqn:E; [|discriminate H]. specialize (IH s1 eq_refl). rewrite swapping_snoc.
  destruct e as [b u | r | | |]; cbn [sgstep] in H.
  - injection H as <-. exact IH.
  - destruct (match unix_log s1 with Some (b, u, updated) => _ | None => _ end) as [wr ul]. injection H as <-. exact IH.
  - destruct (ph s1) eqn:P; try discriminate H. injection H as <-. destruct (dirty s1); cbn [ph]; rewrite ?P; rewrite IH; split; discriminate.
  - destruct (ph s1) eqn:P; try discriminate H. injection H as <-. cbn. tauto.
  - destruct (ph s1) eqn:P; try discriminate H. injection H as <-. cbn. split; discriminate.
Qed.

Lemma fresh_file : forall es s, calm false es -> sgrun sg_start es = Some s -> current s = [] -> ph s = Swapped \/ new_segment s = true.
Proof.
  induction es as [|e es IH] using rev_ind; intros s C H F; [injection H as <-; right; reflexivity|].
  rewrite sgrun_snoc in H. destruct (sgrun sg_start es) as [s1|] eqn:E; [|discriminate H]. destruct (calm_snoc es false e C) as [C1 C2]. specialize (IH s1 C1 eq_refl).
  destruct e as [b u | r | | |]; cbn [sgstep] in H.
  - injection H as <-. exact (IH F).
  - destruct (match unix_log s1 with Some (b, u, updated) => _ | None => _ end) as [wr ul]. injection H as <-. cbn [current] in F. exfalso.
    destruct (current s1); [destruct wr|]; discriminate F.
  - destruct (ph s1) eqn:P; try discriminate H. injection H as <-. destruct (dirty s1) eqn:D; cbn [ph new_segment current] in *; [|rewrite P; apply IH, F].
    destruct (IH F) as [X|X]; [discriminate X | right; exact X].
  - destruct (ph s1) eqn:P; try discriminate H. injection H as <-. left. reflexivity.
  - destruct (ph s1) eqn:P; try discriminate H. injection H as <-. right. reflexivity.
Qed.

(** If no reading is stored while an old file is being closed, every file begins
    with the latest time, once one is known. *)
Theorem C85_file_begins_with_time_partial : forall es r s s' b u, calm false (es ++ [Log r]) -> latest es = Some (b, u) ->
  sgrun sg_start es = Some s -> current s = [] -> sgrun sg_start (es ++ [Log r]) = Some s' ->
  current s' = [TimeLog b u; Reading r].
Proof.
  intros es r s s' b u C L H F H'. rewrite sgrun_snoc, H in H'. destruct (calm_snoc es false (Log r) C) as [C1 C2].
  pose proof (unix_latest es s H) as U. rewrite L in U.
  assert (N : new_segment s = true).
  { destruct (fresh_file es s C1 H F) as [P | N]; [|exact N]. apply (swapping_phase es s H) in P. congruence. }
  cbn [sgstep] in H'. destruct (unix_log s) as [[[b' u'] upd]|]; [|discriminate U]. cbn in U. injection U as -> ->. rewrite N in H'. cbn [orb] in H'. injection H' as <-.
  cbn [current]. rewrite F. reflexivity.
Qed.

(** A reading of a file gets a date exactly when the file holds at least two times. *)
Theorem C85_dated_iff_two_times : forall (start_time : R -> Q) f out, dated start_time f out ->
  map fst out = readings f /\ forall r d, In (r, d) out -> (d = None <-> length (times f) < 2).
Proof.
  intros st f out D. unfold dated in D. split.
  - induction D as [|r o rs os [E _] D IH]; [reflexivity|]. cbn. rewrite E, IH. reflexivity.
  - intros r d I. assert (G : get_unix_timestamp (sort_timestamps (times f)) (st r) d).
    { induction D as [|x o rs os [E G] D IH]; [destruct I|]. destruct I as [-> | I]; [cbn in *; subst x; exact G | exact (IH I)]. }
    pose proof (Permutation.Permutation_length (sort_perm (times f))) as PL.
    inversion G; subst; rewrite <- PL in *; split; try discriminate; try reflexivity; intros; try assumption; lia.
Qed.
End Store.

(** ... but a reading stored while the old file is being closed goes first into the new file,
    undated if nothing else comes; the rotation after it is then skipped as if the file were empty. *)
Theorem C85_refuted_file_begins_with_time :
  let s := SG [[TimeLog 0 10; Reading 1; TimeLog 5 15; Reading 2]] [Reading 3] true false Idle (Some ((5%Q, 15%Q), false)) in
  sgrun (R := nat) sg_start [Time 0 10; Log 1; Time 5 15; Log 2; Begin; Swap; Log 3; Finish] = Some s /\
  sgrun s [Begin] = Some s /\ times (current s) = [].
Proof. cbn zeta. split; [cbn; reflexivity|]. split; cbn; reflexivity. Qed.

(** an ordinary history meets the hypotheses *)
Theorem C85_instance : let es := [Time 0 10; Log 1%nat; Begin; Swap; Finish] in
  let s := SG [[TimeLog 0 10; Reading 1%nat]] [TimeLog 0 10; Reading 2%nat] false true Idle (Some ((0%Q, 10%Q), false)) in
  calm false (es ++ [Log 2%nat]) /\ latest es = Some (0%Q, 10%Q) /\ sgrun sg_start (es ++ [Log 2%nat]) = Some s.
Proof. cbn zeta. split; [cbn; auto|]. split; cbn; reflexivity. Qed.

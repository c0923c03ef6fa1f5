(** * Properties C32, C33, C35, C36: the delta log. *)
From Coq Require Import List Bool NArith Lia Arith.
From Coq.Strings Require Byte.
From Verif Require Import Base BitSlice DeltaLogger.
Import ListNotations.
Local Open Scope nat_scope.

(** ** Specification of a delta log's contents

    A reading whose interval to the last recorded timestamp is below the
    minimum is dropped.  Otherwise it is recorded: with a full timestamp and
    full data if there is no previous record or the timestamp difference cannot
    be encoded; else with the timestamp rebuilt from the quantised difference,
    and the data either rebuilt from its quantised difference or, when that
    cannot be encoded, in full.  Unix logs are recorded as they are. *)
Definition rebuilt {A X} (dl : deltable A X) (last : option A) (v : A) : option A :=
  match last with
  | None => None
  | Some l => match d_sub dl v l with Some x => d_add dl l x | None => None end
  end.

Fixpoint expected {T TX D X U} (S : setup T TX D X U) (lt : option T) (ld : option D) (cs : list (call (T:=T) (D:=D) (U:=U))) : list (item T D U) :=
  match cs with
  | [] => []
  | CUnix u :: cs => IUnix u :: expected S lt ld cs
  | CFlush :: cs => expected S lt ld cs
  | CLog t d :: cs =>
    if match lt with Some l => too_close S t l | None => false end then expected S lt ld cs
    else match rebuilt (td S) lt t with
         | None => IRead t d :: expected S (Some t) (Some d) cs
         | Some t' => let d' := match rebuilt (dd S) ld d with Some d' => d' | None => d end in
                      IRead t' d' :: expected S (Some t') (Some d') cs
         end
  end.

Definition is_read {T D U} (i : item T D U) : bool := match i with IRead _ _ => true | IUnix _ => false end.

(** two unix logs next to each other *)
Fixpoint adjacent_unix {T D U} (l : list (item T D U)) : bool :=
  match l with
  | IUnix _ :: ((IUnix _ :: _) as l') => true
  | _ :: l' => adjacent_unix l'
  | [] => false
  end.

(** adding back a delta that was just computed works *)
Definition delta_total {A X} (dl : deltable A X) : Prop := forall v l x, d_sub dl v l = Some x -> d_add dl l x <> None.

(** ** Proofs about the value-level behaviour *)
Section V.
Context {T TX D X U : Type} (S : setup T TX D X U).

Lemma push_rebuilt {A AX} (dl : deltable A AX) last v : delta_total dl ->
  match rebuilt dl last v with
  | Some v' => exists x, factory_push dl last v = Some (inr x, Some v')
  | None => factory_push dl last v = Some (inl v, Some v)
  end.
Proof.
  intros DT. unfold rebuilt, factory_push. destruct last as [l|]; [|reflexivity].
  destruct (d_sub dl v l) as [x|] eqn:E; [|reflexivity].
  destruct (d_add dl l x) as [l'|] eqn:E2; [eauto|]. exfalso. apply (DT v l x E E2).
Qed.

Lemma recorded_spec lt ld t d : delta_total (td S) -> delta_total (dd S) ->
  recorded S lt ld t d = Some (match rebuilt (td S) lt t with
    | None => (t, d)
    | Some t' => (t', match rebuilt (dd S) ld d with Some d' => d' | None => d end) end).
Proof.
  intros DT DD. unfold recorded. pose proof (push_rebuilt (td S) lt t DT) as P. destruct (rebuilt (td S) lt t) as [t'|].
  - destruct P as [x P]. rewrite P. pose proof (push_rebuilt (dd S) ld d DD) as Q. destruct (rebuilt (dd S) ld d) as [d'|].
    + destruct Q as [y Q]. rewrite Q. reflexivity.
    + rewrite Q. reflexivity.
  - rewrite P. reflexivity.
Qed.

(** readings come out complete and in order, whatever happens to unix logs *)
Lemma vrun_readings : delta_total (td S) -> delta_total (dd S) -> forall cs lt ld last pend items acc sf,
  vrun S (lt, ld, last, pend) cs = Some (items, acc, sf) ->
  filter is_read items = filter is_read (expected S lt ld cs).
Proof.
  intros DT DD. induction cs as [|c cs IH]; intros lt ld last pend items acc sf H; cbn [vrun] in H.
  - assert (items = []) as -> by congruence. reflexivity.
  - destruct (vstep S (lt, ld, last, pend) c) as [[[o a] s']|] eqn:E; [|discriminate].
    destruct (vrun S s' cs) as [[[o' a'] sf']|] eqn:E2; [|discriminate].
    assert (items = o ++ o') as -> by congruence. rewrite filter_app.
    destruct c as [t d|u|]; cbn [vstep] in E.
    + cbn [expected]. destruct (match lt with Some l => too_close S t l | None => false end).
      * assert (o = [] /\ s' = (lt, ld, last, pend)) as [-> ->] by (split; congruence). cbn [filter app]. apply (IH _ _ _ _ _ _ _ E2).
      * assert (G : forall o1 pend1, filter is_read o1 = [] ->
           match recorded S lt ld t d with
           | Some (t', d') => Some (o1 ++ [IRead t' d'], [(t, d)], (Some t', Some d', false, pend1))
           | None => None end = Some (o, a, s') ->
           filter is_read o ++ filter is_read o' = filter is_read
             (match rebuilt (td S) lt t with
              | None => IRead t d :: expected S (Some t) (Some d) cs
              | Some t' => let d' := match rebuilt (dd S) ld d with Some d' => d' | None => d end in
                      IRead t' d' :: expected S (Some t') (Some d') cs end)).
        { intros o1 pend1 F1 HH. rewrite (recorded_spec lt ld t d DT DD) in HH.
          destruct (rebuilt (td S) lt t) as [t'|].
          - cbv zeta. set (d' := match rebuilt (dd S) ld d with Some d' => d' | None => d end) in *.
            assert (o = o1 ++ [IRead t' d'] /\ s' = (Some t', Some d', false, pend1)) as [-> ->] by (split; congruence).
            rewrite filter_app, F1. cbn [filter is_read app]. f_equal. apply (IH _ _ _ _ _ _ _ E2).
          - assert (o = o1 ++ [IRead t d] /\ s' = (Some t, Some d, false, pend1)) as [-> ->] by (split; congruence).
            rewrite filter_app, F1. cbn [filter is_read app]. f_equal. apply (IH _ _ _ _ _ _ _ E2). }
        destruct pend as [u|].
        -- cbn [vunix] in E. destruct last; [apply (G [] _ eq_refl E)|apply (G [IUnix u] _ eq_refl E)].
        -- apply (G [] None eq_refl E).
    + cbn [expected filter is_read]. cbn [vunix] in E. destruct last.
      * assert (o = [] /\ s' = (lt, ld, true, Some u)) as [-> ->] by (split; congruence). cbn [filter app]. apply (IH _ _ _ _ _ _ _ E2).
      * assert (o = [IUnix u] /\ s' = (lt, ld, true, pend)) as [-> ->] by (split; congruence). cbn [filter app is_read]. apply (IH _ _ _ _ _ _ _ E2).
    + assert (o = [] /\ s' = (lt, ld, last, pend)) as [-> ->] by (split; congruence). cbn [filter app expected]. apply (IH _ _ _ _ _ _ _ E2).
Qed.

(** with no adjacent unix logs, everything is in order *)
Lemma vrun_expected : delta_total (td S) -> delta_total (dd S) -> forall cs lt ld last items acc sf,
  vrun S (lt, ld, last, None) cs = Some (items, acc, sf) ->
  (forall u, adjacent_unix ((if last then [IUnix u] else []) ++ expected S lt ld cs) = false) ->
  items = expected S lt ld cs.
Proof.
  intros DT DD. induction cs as [|c cs IH]; intros lt ld last items acc sf H NA; cbn [vrun] in H.
  - assert (items = []) as -> by congruence. reflexivity.
  - destruct (vstep S (lt, ld, last, None) c) as [[[o a] s']|] eqn:E; [|discriminate].
    destruct (vrun S s' cs) as [[[o' a'] sf']|] eqn:E2; [|discriminate].
    assert (items = o ++ o') as -> by congruence.
    destruct c as [t d|u|]; cbn [vstep] in E.
    + cbn [expected] in NA |- *. destruct (match lt with Some l => too_close S t l | None => false end).
      * assert (o = [] /\ s' = (lt, ld, last, None)) as [-> ->] by (split; congruence). apply (IH _ _ _ _ _ _ E2 NA).
      * rewrite (recorded_spec lt ld t d DT DD) in E. destruct (rebuilt (td S) lt t) as [t'|].
        -- cbv zeta in *. set (d' := match rebuilt (dd S) ld d with Some d' => d' | None => d end) in *.
           assert (o = [IRead t' d'] /\ s' = (Some t', Some d', false, None)) as [-> ->] by (split; cbn [app] in E; congruence).
           cbn [app]. f_equal. apply (IH _ _ _ _ _ _ E2). intros u. specialize (NA u). destruct last; cbn [app adjacent_unix] in NA |- *; exact NA.
        -- assert (o = [IRead t d] /\ s' = (Some t, Some d, false, None)) as [-> ->] by (split; cbn [app] in E; congruence).
           cbn [app]. f_equal. apply (IH _ _ _ _ _ _ E2). intros u. specialize (NA u). destruct last; cbn [app adjacent_unix] in NA |- *; exact NA.
    + cbn [expected] in NA |- *. cbn [vunix] in E. destruct last.
      * specialize (NA u). cbn [app adjacent_unix] in NA. discriminate.
      * assert (o = [IUnix u] /\ s' = (lt, ld, true, None)) as [-> ->] by (split; congruence).
        cbn [app]. f_equal. apply (IH _ _ _ _ _ _ E2). intros u'. specialize (NA u'). cbn [app] in *.
        destruct (expected S lt ld cs) as [|[t d|u2] l] eqn:EE; cbn [adjacent_unix] in *; congruence.
    + assert (o = [] /\ s' = (lt, ld, last, None)) as [-> ->] by (split; congruence). apply (IH _ _ _ _ _ _ E2 NA).
Qed.

(** errors do not accumulate *)
Lemma vrun_near (near_t : T -> T -> Prop) (near_d : D -> D -> Prop) :
  delta_total (td S) -> delta_total (dd S) ->
  (forall t, near_t t t) -> (forall d, near_d d d) ->
  (forall v l x l', d_sub (td S) v l = Some x -> d_add (td S) l x = Some l' -> near_t v l') ->
  (forall v l x l', d_sub (dd S) v l = Some x -> d_add (dd S) l x = Some l' -> near_d v l') ->
  forall cs s items acc sf, vrun S s cs = Some (items, acc, sf) ->
  Forall2 (fun logged i => exists t d, i = IRead t d /\ near_t (fst logged) t /\ near_d (snd logged) d) acc (filter is_read items).
Proof.
  intros DT DD RT RD NT ND.
  assert (RB : forall t lt, match rebuilt (td S) lt t with Some t' => near_t t t' | None => True end).
  { intros t [l|]; cbn [rebuilt]; [|exact I]. destruct (d_sub (td S) t l) as [x|] eqn:E; [|exact I].
    destruct (d_add (td S) l x) as [l'|] eqn:E2; [|exact I]. apply (NT t l x l' E E2). }
  assert (RBD : forall d ld, near_d d (match rebuilt (dd S) ld d with Some d' => d' | None => d end)).
  { intros d [l|]; cbn [rebuilt]; [|apply RD]. destruct (d_sub (dd S) d l) as [x|] eqn:E; [|apply RD].
    destruct (d_add (dd S) l x) as [l'|] eqn:E2; [|apply RD]. apply (ND d l x l' E E2). }
  induction cs as [|c cs IH]; intros s items acc sf H; cbn [vrun] in H.
  - assert (items = [] /\ acc = []) as [-> ->] by (split; congruence). constructor.
  - destruct (vstep S s c) as [[[o a] s']|] eqn:E; [|discriminate].
    destruct (vrun S s' cs) as [[[o' a'] sf']|] eqn:E2; [|discriminate].
    assert (items = o ++ o' /\ acc = a ++ a') as [-> ->] by (split; congruence). rewrite filter_app.
    apply Forall2_app; [|apply (IH _ _ _ _ E2)].
    destruct s as [[[lt ld] last] pend]. destruct c as [t d|u|]; cbn [vstep] in E.
    + destruct (match lt with Some l => too_close S t l | None => false end).
      * assert (o = [] /\ a = []) as [-> ->] by (split; congruence). constructor.
      * assert (G : forall o1 pend1, filter is_read o1 = [] ->
           match recorded S lt ld t d with
           | Some (t', d') => Some (o1 ++ [IRead t' d'], [(t, d)], (Some t', Some d', false, pend1))
           | None => None end = Some (o, a, s') ->
           Forall2 (fun logged i => exists t d, i = IRead t d /\ near_t (fst logged) t /\ near_d (snd logged) d) a (filter is_read o)).
        { intros o1 pend1 F1 HH. rewrite (recorded_spec lt ld t d DT DD) in HH. specialize (RB t lt). specialize (RBD d ld).
          destruct (rebuilt (td S) lt t) as [t'|].
          - set (d' := match rebuilt (dd S) ld d with Some d' => d' | None => d end) in *.
            assert (o = o1 ++ [IRead t' d'] /\ a = [(t, d)]) as [-> ->] by (split; congruence).
            rewrite filter_app, F1. cbn [filter is_read app]. constructor; [|constructor]. exists t', d'. cbn [fst snd]. split; [reflexivity|]. split; assumption.
          - assert (o = o1 ++ [IRead t d] /\ a = [(t, d)]) as [-> ->] by (split; congruence).
            rewrite filter_app, F1. cbn [filter is_read app]. constructor; [|constructor]. exists t, d. cbn [fst snd]. split; [reflexivity|]. split; [apply RT|apply RD]. }
        destruct pend as [u|].
        -- cbn [vunix] in E. destruct last; [apply (G [] _ eq_refl E)|apply (G [IUnix u] _ eq_refl E)].
        -- apply (G [] None eq_refl E).
    + cbn [vunix] in E. destruct last.
      * assert (o = [] /\ a = []) as [-> ->] by (split; congruence). constructor.
      * assert (o = [IUnix u] /\ a = []) as [-> ->] by (split; congruence). constructor.
    + assert (o = [] /\ a = []) as [-> ->] by (split; congruence). constructor.
Qed.
End V.

(** ** C32.  For every history of calls followed by a flush, every way the file
    system chunks the reads: the readings decoded are the expected ones, in
    order; and if no two unix logs are adjacent, the whole decoded sequence is
    the expected one.  (What is missing from the full property: unix logs may
    be reordered, replaced or lost otherwise — see the refutation below.) *)
Theorem C32_round_trip_partial : forall T TX D X U (S : setup T TX D X U) chunk n m cs acc l,
  good_setup S -> delta_total (td S) -> delta_total (dd S) -> reader_fits S m ->
  run S (l_new n) (cs ++ [CFlush]) = Some (acc, l) ->
  exists items, decode S chunk m (l_out l) = Some items /\
    filter is_read items = filter is_read (expected S None None cs) /\
    (adjacent_unix (expected S None None cs) = false -> items = expected S None None cs).
Proof.
  intros T TX D X U S chunk n m cs acc l G DT DD F R.
  destruct (decode_flushed S chunk n m cs acc l G F R) as (items & sf & V & Dc).
  exists items. split; [exact Dc|]. split; [apply (vrun_readings S DT DD _ _ _ _ _ _ _ _ V)|].
  intros NA. apply (vrun_expected S DT DD _ _ _ _ _ _ _ V). intros u. exact NA.
Qed.

(** ** C33.  Each reading the logger accepted (answered [Ok(true)]) is decoded,
    in order, to a value as near to it as one quantisation step, however many
    deltas came before. *)
Theorem C33_error_does_not_accumulate : forall T TX D X U (S : setup T TX D X U) chunk n m cs acc l
  (near_t : T -> T -> Prop) (near_d : D -> D -> Prop),
  good_setup S -> delta_total (td S) -> delta_total (dd S) -> reader_fits S m ->
  (forall t, near_t t t) -> (forall d, near_d d d) ->
  (** one encode/decode step of a single difference is near *)
  (forall v base x r, d_sub (td S) v base = Some x -> d_add (td S) base x = Some r -> near_t v r) ->
  (forall v base x r, d_sub (dd S) v base = Some x -> d_add (dd S) base x = Some r -> near_d v r) ->
  run S (l_new n) (cs ++ [CFlush]) = Some (acc, l) ->
  exists items, decode S chunk m (l_out l) = Some items /\
    Forall2 (fun logged i => exists t d, i = IRead t d /\ near_t (fst logged) t /\ near_d (snd logged) d) acc (filter is_read items).
Proof.
  intros T TX D X U S chunk n m cs acc l near_t near_d G DT DD F RT RD NT ND R.
  destruct (decode_flushed S chunk n m cs acc l G F R) as (items & sf & V & Dc).
  exists items. split; [exact Dc|]. apply (vrun_near S near_t near_d DT DD RT RD NT ND _ _ _ _ _ V).
Qed.

(** ** C36.  Any byte prefix of any file decodes, whatever the chunking, to a
    prefix of the entries of the whole file; so a log cut short by power loss
    holds a prefix of the expected entries. *)
Theorem C36_truncated_log_decodes_to_prefix : forall T TX D X U (S : setup T TX D X U) chunk chunk' m bytes k,
  reader_fits S m ->
  exists entries lost, decode S chunk m bytes = Some (entries ++ lost) /\ decode S chunk' m (firstn k bytes) = Some entries.
Proof. intros. apply decode_truncated. assumption. Qed.

Lemma prefix_app_inv {A} (a b c d : list A) : a ++ b = c ++ d -> length a <= length c -> exists e, c = a ++ e.
Proof.
  revert c. induction a as [|x a IH]; intros c H L; [exists c; reflexivity|].
  destruct c as [|y c]; [cbn in L; lia|]. cbn [app] in H. injection H as -> H. destruct (IH c H) as [e ->]; [cbn in L; lia|].
  exists e. reflexivity.
Qed.

Theorem C36_power_loss_keeps_a_prefix : forall T TX D X U (S : setup T TX D X U) chunk n m cs acc l k,
  good_setup S -> delta_total (td S) -> delta_total (dd S) -> reader_fits S m ->
  run S (l_new n) (cs ++ [CFlush]) = Some (acc, l) ->
  adjacent_unix (expected S None None cs) = false ->
  exists entries lost, decode S chunk m (firstn k (l_out l)) = Some entries /\ expected S None None cs = entries ++ lost.
Proof.
  intros T TX D X U S chunk n m cs acc l k G DT DD F R NA.
  destruct (C32_round_trip_partial _ _ _ _ _ S chunk n m cs acc l G DT DD F R) as (items & Dc & _ & E). specialize (E NA).
  destruct (decode_truncated S chunk chunk m (l_out l) k F) as (a & b & D1 & D2).
  exists a, b. split; [exact D2|]. congruence.
Qed.

(** ** C35.  The bit buffer of [size + 10] bytes suffices for records of at
    least 8 bytes; it does not for the 4-byte ADC readings. *)

(** the lengths used by the code: 64-bit timestamps, 128-bit unix logs, packed
    timestamp deltas of at most 32 bits, data that fits its in-memory size and
    deltas not longer than the data *)
Definition sized {T TX D X U} (S : setup T TX D X U) (size : nat) : Prop :=
  c_len (tc S) = 64 /\ c_len (uc S) = 128 /\ c_len (txc S) <= 32 /\ c_len (dc S) <= 8 * size /\ c_len (xc S) <= 8 * size.

Section Cap.
Context {T TX D X U : Type} (S : setup T TX D X U).

Lemma put_drain_fits n l k : (n > 0) -> bw_ok (l_bw l) n -> bw_len (l_bw l) < 8 -> 7 + length k < 8 * n ->
  exists w l', put (l_bw l) k = Some w /\ drain (D:=D) (T:=T) (U:=U) l w = Some l' /\ bw_ok (l_bw l') n /\ bw_len (l_bw l') < 8.
Proof.
  intros Hn K L F. unfold put. destruct (bw_put_fits (l_bw l) n k K) as [w P]; [lia|].
  destruct (bw_put_spec _ n _ w K P) as (Kw & _ & Lw).
  destruct (bw_clear_full_fits w n Kw) as [w' C]; [lia|].
  destruct (bw_clear_full_spec w n w' Kw C) as (Kw' & _ & Lw').
  exists w. eexists. split; [exact P|]. unfold drain. rewrite C. split; [reflexivity|]. cbn [l_bw]. split; [exact Kw'|].
  rewrite Lw'. apply Nat.mod_upper_bound. lia.
Qed.

Lemma log_unix_fits size l u : good (uc S) -> sized S size -> size >= 8 -> bw_ok (l_bw l) (size + 10) -> bw_len (l_bw l) < 8 ->
  exists l', log_unix S l u = Some l' /\ bw_ok (l_bw l') (size + 10) /\ bw_len (l_bw l') < 8.
Proof.
  intros G (S1 & S2 & S3 & S4 & S5) Hs K L. unfold log_unix. destruct (l_last_unix l).
  - eexists. split; [reflexivity|]. split; assumption.
  - destruct (put_drain_fits (size + 10) l (hdr_unix ++ c_enc (uc S) u)) as (w & l' & P & Dr & K' & L'); try assumption; [lia| |].
    + rewrite app_length, (proj1 (G u)), S2. cbn [hdr_unix length]. lia.
    + rewrite P, Dr. eexists. split; [reflexivity|]. split; assumption.
Qed.

Lemma log_fits size l t d : good_setup S -> delta_total (td S) -> delta_total (dd S) -> sized S size -> size >= 8 ->
  bw_ok (l_bw l) (size + 10) -> bw_len (l_bw l) < 8 ->
  exists b l', log S l t d = Some (b, l') /\ bw_ok (l_bw l') (size + 10) /\ bw_len (l_bw l') < 8.
Proof.
  intros G DT DD Sz Hs K L. pose proof G as (Gt & Gtx & Gd & Gx & Gu). pose proof Sz as (S1 & S2 & S3 & S4 & S5).
  unfold log. destruct (match l_ts l with Some lt => too_close S t lt | None => false end).
  { exists false, l. split; [reflexivity|]. split; assumption. }
  cbv zeta.
  assert (P1 : exists l1, match l_pending l with
              | Some u => log_unix S (Logger (l_data l) (l_ts l) (l_out l) (l_bw l) (l_last_unix l) None) u
              | None => Some l end = Some l1 /\ bw_ok (l_bw l1) (size + 10) /\ bw_len (l_bw l1) < 8).
  { destruct (l_pending l) as [u|].
    - apply (log_unix_fits size _ u Gu Sz Hs); assumption.
    - exists l. split; [reflexivity|]. split; assumption. }
  destruct P1 as (l1 & E1 & K1 & L1). rewrite E1.
  assert (KEY : forall bits (data' : option D) (ts' : option T), length bits <= 67 + 8 * size ->
    exists b l', match put (l_bw l1) bits with
       | Some w => match drain (Logger data' ts' (l_out l1) (l_bw l1) (l_last_unix l1) (l_pending l1)) w with
                   | Some l2 => Some (true, Logger (l_data l2) (l_ts l2) (l_out l2) (l_bw l2) false (l_pending l2))
                   | None => None end
       | None => None end = Some (b, l') /\ bw_ok (l_bw l') (size + 10) /\ bw_len (l_bw l') < 8).
  { intros bits data' ts' HL.
    destruct (put_drain_fits (size + 10) (Logger data' ts' (l_out l1) (l_bw l1) (l_last_unix l1) (l_pending l1)) bits) as (w & l' & P & Dr & K' & L');
      [lia|exact K1|exact L1|lia|]. cbn [l_bw] in P. rewrite P, Dr. eexists _, _. split; [reflexivity|]. split; assumption. }
  pose proof (push_rebuilt (td S) (l_ts l1) t DT) as PT. destruct (rebuilt (td S) (l_ts l1) t) as [t'|].
  - destruct PT as [tx PT]. rewrite PT. pose proof (push_rebuilt (dd S) (l_data l1) d DD) as PD. destruct (rebuilt (dd S) (l_data l1) d) as [d'|].
    + destruct PD as [x PD]. rewrite PD. apply KEY. rewrite !app_length, (proj1 (Gtx tx)), (proj1 (Gx x)). cbn [hdr_dd length]. lia.
    + rewrite PD. apply KEY. rewrite !app_length, (proj1 (Gtx tx)), (proj1 (Gd d)). cbn [hdr_df length]. lia.
  - rewrite PT. apply KEY. rewrite !app_length, (proj1 (Gt t)), (proj1 (Gd d)). cbn [hdr_ff length]. lia.
Qed.

Lemma run_fits size : good_setup S -> delta_total (td S) -> delta_total (dd S) -> sized S size -> size >= 8 ->
  forall cs l, bw_ok (l_bw l) (size + 10) -> bw_len (l_bw l) < 8 -> run S l cs <> None.
Proof.
  intros G DT DD Sz Hs. pose proof G as (Gt & Gtx & Gd & Gx & Gu).
  induction cs as [|c cs IH]; intros l K L; [discriminate|]. destruct c as [t d|u|]; cbn [run].
  - destruct (log_fits size l t d G DT DD Sz Hs K L) as (b & l' & E & K' & L'). rewrite E.
    specialize (IH l' K' L'). destruct (run S l' cs) as [[a lf]|]; [discriminate|congruence].
  - destruct (log_unix_fits size l u Gu Sz Hs K L) as (l' & E & K' & L'). rewrite E. apply (IH l' K' L').
  - unfold flush, put. destruct (bw_put_fits (l_bw l) (size + 10) hdr_eob K) as [w P]; [cbn [hdr_eob length]; lia|]. rewrite P.
    destruct (bw_put_spec _ (size + 10) _ w K P) as (Kw & _ & _). destruct (bw_clear_spec w (size + 10) Kw) as (KC & _ & LC).
    apply IH; cbn [l_bw]; [exact KC|lia].
Qed.
End Cap.

(** No history of calls makes the logger panic, for records of at least 8
    bytes (IMUData 24, BaroData 8, MagData 12, GPSData larger). *)
Theorem C35_never_overflows_partial : forall T TX D X U (S : setup T TX D X U) size cs,
  good_setup S -> delta_total (td S) -> delta_total (dd S) -> sized S size -> size >= 8 ->
  run S (l_new (size + 10)) cs <> None.
Proof.
  intros T TX D X U S size cs G DT DD Sz Hs. apply (run_fits S size G DT DD Sz Hs); cbn [l_new l_bw].
  - apply bw_new_ok.
  - cbn. lia.
Qed.

(** For smaller records the very first unix log panics. *)
Theorem C35_refuted_small_records : forall T TX D X U (S : setup T TX D X U) size u,
  good_setup S -> sized S size -> size <= 6 ->
  log_unix S (l_new (size + 10)) u = None.
Proof.
  intros T TX D X U S size u (Gt & Gtx & Gd & Gx & Gu) (S1 & S2 & _) Hs. unfold log_unix, put, bw_put. cbn [l_new l_last_unix l_bw bw_new bw_len bw_data].
  rewrite app_length, (proj1 (Gu u)), S2, repeat_length. cbn [hdr_unix length].
  destruct (Nat.leb_spec (0 + (2 + 128)) (8 * (size + 10))); [lia|reflexivity].
Qed.

(** ** A concrete instance: byte-valued timestamps and samples carried in
    64-bit fields, deltas in steps of 2 on one byte. *)
Definition bit_list (b : Byte.byte) : list bool :=
  let '(a, (b, (c, (d, (e, (f, (g, h))))))) := Byte.to_bits b in [a; b; c; d; e; f; g; h].
Definition of_bit_list (l : list bool) : Byte.byte :=
  match l with
  | a :: b :: c :: d :: e :: f :: g :: h :: _ => Byte.of_bits (a, (b, (c, (d, (e, (f, (g, h)))))))
  | _ => Byte.x00
  end.
Definition byte_codec (extra : nat) : codec Byte.byte := Codec (8 + extra) (fun b => bit_list b ++ repeat false extra) of_bit_list.

Lemma byte_codec_good extra : good (byte_codec extra).
Proof.
  intros b. cbn [c_len c_enc c_dec byte_codec]. split.
  - rewrite app_length, repeat_length. unfold bit_list. destruct (Byte.to_bits b) as (x0 & x1 & x2 & x3 & x4 & x5 & x6 & x7). reflexivity.
  - rewrite <- (Byte.of_bits_to_bits b) at 2. unfold bit_list. destruct (Byte.to_bits b) as (x0 & x1 & x2 & x3 & x4 & x5 & x6 & x7). reflexivity.
Qed.

Definition bn (b : Byte.byte) : nat := N.to_nat (Byte.to_N b).
Definition nb (n : nat) : option Byte.byte := Byte.of_N (N.of_nat n).
(** differences 0..40 in steps of 2 *)
Definition half_delta : deltable Byte.byte Byte.byte :=
  Deltable (fun v l => if (bn l <=? bn v) && (bn v - bn l <=? 40) then nb ((bn v - bn l) / 2) else None)
           (fun l x => nb (bn l + 2 * bn x)).

Lemma bn_lt b : bn b < 256.
Proof. unfold bn. pose proof (Byte.to_N_bounded b). lia. Qed.
Lemma bn_nb n b : nb n = Some b -> bn b = n.
Proof. unfold nb, bn. intros H. apply Byte.to_of_N in H. rewrite H. apply Nat2N.id. Qed.
Lemma nb_total n : n < 256 -> nb n <> None.
Proof. intros H E. unfold nb in E. apply Byte.of_N_None_iff in E. lia. Qed.

Lemma half_delta_total : delta_total half_delta.
Proof.
  intros v l x. cbn [d_sub d_add half_delta]. destruct (Nat.leb_spec (bn l) (bn v)); cbn [andb]; [|discriminate].
  destruct (Nat.leb_spec (bn v - bn l) 40); [|discriminate]. intros E. apply bn_nb in E. apply nb_total.
  pose proof (bn_lt v). pose proof (Nat.mul_div_le (bn v - bn l) 2). lia.
Qed.

Definition demo : setup Byte.byte Byte.byte Byte.byte Byte.byte Byte.byte :=
  Setup (byte_codec 56) (byte_codec 0) (byte_codec 56) (byte_codec 0) (byte_codec 120) half_delta half_delta
        (fun t l => bn t <? bn l + 1).

Lemma demo_good : good_setup demo.
Proof. split; [|split; [|split; [|split]]]; apply byte_codec_good. Qed.
Lemma demo_sized : sized demo 8.
Proof. unfold sized. cbn. repeat split; lia. Qed.
Lemma demo_fits : reader_fits demo 18.
Proof. unfold reader_fits. cbn. lia. Qed.

(** a history with a full record, a delta record, a dropped reading, a unix log
    and a record with full data *)
Definition demo_calls : list (call (T:=Byte.byte) (D:=Byte.byte) (U:=Byte.byte)) :=
  [CLog Byte.x05 Byte.x10; CLog Byte.x0a Byte.x15; CLog Byte.x09 Byte.x16; CUnix Byte.x77; CFlush; CLog Byte.x0f Byte.x80; CFlush].

Example demo_expected : expected demo None None demo_calls =
  [IRead Byte.x05 Byte.x10; IRead Byte.x09 Byte.x14; IUnix Byte.x77; IRead Byte.x0f Byte.x80].
Proof. vm_compute. reflexivity. Qed.

(** so the hypotheses of C32, C33, C35 and C36 are met, and their conclusions say: *)
Example demo_round_trip : exists acc l,
  run demo (l_new 18) (demo_calls ++ [CFlush]) = Some (acc, l) /\ length acc = 3 /\
  forall chunk, decode demo chunk 18 (l_out l) =
    Some [IRead Byte.x05 Byte.x10; IRead Byte.x09 Byte.x14; IUnix Byte.x77; IRead Byte.x0f Byte.x80].
Proof.
  pose proof (C35_never_overflows_partial _ _ _ _ _ demo 8 (demo_calls ++ [CFlush]) demo_good half_delta_total half_delta_total demo_sized (le_n 8)) as NN.
  destruct (run demo (l_new (8 + 10)) (demo_calls ++ [CFlush])) as [[acc l]|] eqn:E; [|contradiction (NN eq_refl)].
  change (8 + 10) with 18 in E. exists acc, l. split; [exact E|]. split.
  - destruct (decode_flushed demo (fun _ => 0) 18 18 demo_calls acc l demo_good demo_fits E) as (items & sf & V & _).
    vm_compute in V. assert (acc = [(Byte.x05, Byte.x10); (Byte.x0a, Byte.x15); (Byte.x0f, Byte.x80)]) as -> by congruence. reflexivity.
  - intros chunk. destruct (C32_round_trip_partial _ _ _ _ _ demo chunk 18 18 demo_calls acc l demo_good half_delta_total half_delta_total demo_fits E)
      as (items & Dc & _ & EQ). rewrite Dc. rewrite EQ; rewrite demo_expected; reflexivity.
Qed.

(** nearness for the instance: at most one below *)
Example demo_near : forall v l x l', d_sub half_delta v l = Some x -> d_add half_delta l x = Some l' -> bn l' <= bn v <= bn l' + 1.
Proof.
  intros v l x l'. cbn [d_sub d_add half_delta]. destruct (Nat.leb_spec (bn l) (bn v)); cbn [andb]; [|discriminate].
  destruct (Nat.leb_spec (bn v - bn l) 40); [|discriminate]. intros E1 E2. apply bn_nb in E1, E2.
  pose proof (Nat.div_mod_eq (bn v - bn l) 2). pose proof (Nat.mod_upper_bound (bn v - bn l) 2). lia.
Qed.

(** ** The full C32 fails: two unix logs in a row, and the second is written
    after the reading that followed it; a third replaces the second. *)
Theorem C32_refuted_order : exists cs acc l items,
  run demo (l_new 18) (cs ++ [CFlush]) = Some (acc, l) /\
  decode demo (fun _ => 0) 18 (l_out l) = Some items /\
  cs = [CUnix Byte.x01; CUnix Byte.x02; CLog Byte.x05 Byte.x10; CLog Byte.x0a Byte.x15] /\
  items = [IUnix Byte.x01; IRead Byte.x05 Byte.x10; IUnix Byte.x02; IRead Byte.x09 Byte.x14].
Proof.
  set (cs := [CUnix Byte.x01; CUnix Byte.x02; CLog Byte.x05 Byte.x10; CLog Byte.x0a Byte.x15]).
  pose proof (C35_never_overflows_partial _ _ _ _ _ demo 8 (cs ++ [CFlush]) demo_good half_delta_total half_delta_total demo_sized (le_n 8)) as NN.
  destruct (run demo (l_new (8 + 10)) (cs ++ [CFlush])) as [[acc l]|] eqn:E; [|contradiction (NN eq_refl)].
  change (8 + 10) with 18 in E.
  destruct (decode_flushed demo (fun _ => 0) 18 18 cs acc l demo_good demo_fits E) as (items & sf & V & Dc).
  exists cs, acc, l, items. split; [exact E|]. split; [exact Dc|]. split; [reflexivity|].
  vm_compute in V. congruence.
Qed.

Theorem C32_refuted_loss : exists cs acc l items,
  run demo (l_new 18) (cs ++ [CFlush]) = Some (acc, l) /\
  decode demo (fun _ => 0) 18 (l_out l) = Some items /\
  cs = [CLog Byte.x05 Byte.x10; CUnix Byte.x01; CUnix Byte.x02] /\ items = [IRead Byte.x05 Byte.x10; IUnix Byte.x01].
Proof.
  set (cs := [CLog Byte.x05 Byte.x10; CUnix Byte.x01; CUnix Byte.x02]).
  pose proof (C35_never_overflows_partial _ _ _ _ _ demo 8 (cs ++ [CFlush]) demo_good half_delta_total half_delta_total demo_sized (le_n 8)) as NN.
  destruct (run demo (l_new (8 + 10)) (cs ++ [CFlush])) as [[acc l]|] eqn:E; [|contradiction (NN eq_refl)].
  change (8 + 10) with 18 in E.
  destruct (decode_flushed demo (fun _ => 0) 18 18 cs acc l demo_good demo_fits E) as (items & sf & V & Dc).
  exists cs, acc, l, items. split; [exact E|]. split; [exact Dc|]. split; [reflexivity|].
  vm_compute in V. congruence.
Qed.

(** An ADC reading is one f32: 4 bytes, 32 bits. *)
Definition adc_like : setup Byte.byte Byte.byte Byte.byte Byte.byte Byte.byte :=
  Setup (byte_codec 56) (byte_codec 0) (byte_codec 24) (byte_codec 0) (byte_codec 120) half_delta half_delta (fun t l => bn t <? bn l + 1).
Theorem C35_refuted_adc : log_unix adc_like (l_new (4 + 10)) Byte.x01 = None.
Proof.
  apply (C35_refuted_small_records _ _ _ _ _ adc_like 4); [|unfold sized; cbn; repeat split; lia|lia].
  split; [|split; [|split; [|split]]]; apply byte_codec_good.
Qed.

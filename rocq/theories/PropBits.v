(** * Property C31: bit-packed streams round-trip under every drain and refill
    schedule. *)
From Coq Require Import List Bool NArith ZArith Lia Arith.
From Verif Require Import Base BitSlice.
Import ListNotations.
Local Open Scope nat_scope.

(** ** The schedules *)

(** what a producer does with a bit writer: write a value, or take the whole
    bytes out of it (view_full_byte_slice + clear_full_byte_slice) *)
Inductive wop := WPut (p : prim) (v : val) | WDrain.

(** the bytes taken out, and the final writer; [None] is a panic *)
Fixpoint wrun (w : bwriter) (ops : list wop) : option (list byte * bwriter) :=
  match ops with
  | [] => Some ([], w)
  | WPut p v :: ops => match bw_write w p v with Some w' => wrun w' ops | None => None end
  | WDrain :: ops =>
    match bw_clear_full w with
    | Some w' => match wrun w' ops with Some (out, wf) => Some (bw_full w ++ out, wf) | None => None end
    | None => None
    end
  end.

(** what a consumer does with a bit reader: ask for a value, or feed it the
    next [k] bytes of the stream, synchronously or through the callback *)
Inductive rop := RGet (p : prim) | RFill (k : nat) | RFillAsync (k : nat).

(** the answers to the [RGet]s, the final reader and the bytes left over *)
Fixpoint rrun (r : breader) (src : list byte) (ops : list rop) : option (list (prim * option val) * breader * list byte) :=
  match ops with
  | [] => Some ([], r, src)
  | RGet p :: ops =>
    let (v, r') := br_read r p in
    match rrun r' src ops with Some (res, rf, sf) => Some ((p, v) :: res, rf, sf) | None => None end
  | RFill k :: ops =>
    match br_replenish r (firstn k src) with Some r' => rrun r' (skipn k src) ops | None => None end
  | RFillAsync k :: ops =>
    match br_prepare r with
    | Some r' => match br_append r' (firstn k src) with Some r'' => rrun r'' (skipn k src) ops | None => None end
    | None => None
    end
  end.

(** the values written and the values actually read *)
Fixpoint written (ops : list wop) : list (prim * val) :=
  match ops with [] => [] | WPut p v :: ops => (p, v) :: written ops | WDrain :: ops => written ops end.
Fixpoint successes (res : list (prim * option val)) : list (prim * val) :=
  match res with [] => [] | (p, Some v) :: res => (p, v) :: successes res | (_, None) :: res => successes res end.

Definition well_typed (l : list (prim * val)) : Prop := Forall (fun x => wf_prim (fst x) /\ has_type (fst x) (snd x)) l.

(** ** Proofs *)
Definition enc_all (l : list (prim * val)) : list bool := flat_map (fun x => enc (fst x) (snd x)) l.

Lemma wrun_bits n : forall ops w out wf, bw_ok w n -> well_typed (written ops) -> wrun w ops = Some (out, wf) ->
  bw_ok wf n /\ bits_of_bytes out ++ bw_bits wf = bw_bits w ++ enc_all (written ops).
Proof.
  induction ops as [|[p v|] ops IH]; intros w out wf K T H; cbn [wrun written] in *.
  - assert (out = [] /\ wf = w) as [-> ->] by (split; congruence). split; [exact K|]. cbn. symmetry. apply app_nil_r.
  - inversion T as [|x l [Hw Ht] T' E]; subst x l. cbn [fst snd] in *.
    unfold bw_write in H. rewrite <- (enc_length p v Hw Ht) in H.
    destruct (bw_put w (enc p v) (length (enc p v))) as [w'|] eqn:E; [|discriminate].
    destruct (bw_put_spec w n _ w' K E) as (K' & B & _).
    destruct (IH w' out wf K' T' H) as [A C]. split; [exact A|]. rewrite C, B, <- app_assoc. reflexivity.
  - destruct (bw_clear_full w) as [w'|] eqn:E; [|discriminate].
    destruct (wrun w' ops) as [[o wf']|] eqn:E2; [|discriminate].
    assert (out = bw_full w ++ o /\ wf = wf') as [-> ->] by (split; congruence).
    destruct (bw_clear_full_spec w n w' K E) as (K' & B & _).
    destruct (IH w' o wf' K' T E2) as [A C]. split; [exact A|].
    unfold bits_of_bytes in *. rewrite flat_map_app. rewrite <- app_assoc. rewrite C, B.
    fold (bits_of_bytes (bw_full w)). rewrite (bw_full_bits w n K), app_assoc, firstn_skipn. reflexivity.
Qed.

Lemma flat_app {A} (a b : list byte) (c : list A) : bits_of_bytes (a ++ b) = bits_of_bytes a ++ bits_of_bytes b.
Proof. unfold bits_of_bytes. apply flat_map_app. Qed.

Lemma append_ok n r d r' : br_ok r n -> br_append r d = Some r' -> br_ok r' n /\ br_bits r' = br_bits r ++ bits_of_bytes d.
Proof.
  intros K H. assert (F : br_end r + 8 * length d <= 8 * n).
  { unfold br_append in H. cbv zeta in H. destruct K as (K1 & K2 & K3 & K4).
    destruct (Nat.leb_spec (8 * (br_end r / 8) + 8 * length d) (length (br_buf r))) as [G|G]; [|discriminate].
    pose proof (Nat.div_mod_eq (br_end r) 8). lia. }
  destruct (br_append_spec r n d K F) as (r2 & E & K' & B & _). assert (r' = r2) as -> by congruence. split; assumption.
Qed.

(** the reader's buffer plus the unread bytes is always the unread suffix of the stream *)
Lemma rrun_bits n : forall ops r src res rf sf vs pad, br_ok r n -> well_typed vs ->
  br_bits r ++ bits_of_bytes src = enc_all vs ++ pad ->
  rrun r src ops = Some (res, rf, sf) ->
  forall k, map fst (successes res) = firstn k (map fst vs) ->
  successes res = firstn k vs /\ br_ok rf n /\ br_bits rf ++ bits_of_bytes sf = enc_all (skipn (length (successes res)) vs) ++ pad.
Proof.
  induction ops as [|[p|m|m] ops IH]; intros r src res rf sf vs pad K T I H k S; cbn [rrun] in H.
  - assert (res = [] /\ rf = r /\ sf = src) as (-> & -> & ->) by (repeat split; congruence). cbn [successes map length skipn] in *.
    split; [|split; assumption]. destruct k, vs; try reflexivity; discriminate.
  - destruct (Nat.le_gt_cases (plen p) (br_len r)) as [L|L].
    + destruct (br_read_spec r n p K L) as (r' & E & K' & B & BL). rewrite E in H.
      destruct (rrun r' src ops) as [[[res' rf'] sf']|] eqn:E2; [|discriminate].
      assert (res = (p, Some (dec p (br_bits r))) :: res' /\ rf = rf' /\ sf = sf') as (-> & -> & ->) by (repeat split; congruence).
      cbn [successes map fst] in S. destruct k as [|k]; [discriminate|]. destruct vs as [|[p0 v0] vs]; [discriminate|].
      cbn [map fst firstn] in S. injection S as Sp S. subst p0.
      inversion T as [|x l [Hw Ht] T' Ex]; subst x l. cbn [fst snd] in Hw, Ht.
      assert (BB : br_bits r = enc p v0 ++ skipn (plen p) (br_bits r)).
      { rewrite <- (firstn_skipn (plen p) (br_bits r)) at 1. f_equal.
        assert (FA : firstn (plen p) (br_bits r ++ bits_of_bytes src) = enc p v0).
        { rewrite I. cbn [enc_all flat_map fst snd]. rewrite <- app_assoc, firstn_app, (enc_length p v0 Hw Ht), Nat.sub_diag.
          cbn [firstn]. rewrite app_nil_r. apply firstn_all2. rewrite (enc_length p v0 Hw Ht). lia. }
        rewrite <- FA, firstn_app. rewrite (br_bits_length r n K). replace (plen p - br_len r) with 0 by lia.
        cbn [firstn]. rewrite app_nil_r. reflexivity. }
      assert (DV : dec p (br_bits r) = v0) by (rewrite BB; apply dec_enc; assumption).
      assert (I' : br_bits r' ++ bits_of_bytes src = enc_all vs ++ pad).
      { rewrite BB in I. cbn [enc_all flat_map fst snd] in I. rewrite <- !app_assoc in I. apply app_inv_head in I. rewrite B. exact I. }
      destruct (IH r' src res' rf' sf' vs pad K' T' I' E2 k S) as (A1 & A2 & A3).
      cbn [successes length skipn firstn]. split; [|split; assumption]. rewrite DV, A1. reflexivity.
    + rewrite (br_read_none r p L) in H. destruct (rrun r src ops) as [[[res' rf'] sf']|] eqn:E2; [|discriminate].
      assert (res = (p, None) :: res' /\ rf = rf' /\ sf = sf') as (-> & -> & ->) by (repeat split; congruence).
      cbn [successes] in *. apply (IH r src res' rf' sf' vs pad K T I E2 k S).
  - unfold br_replenish in H. destruct (br_shift_spec r n K) as (r1 & E1 & K1 & B1 & _). rewrite E1 in H.
    destruct (br_append r1 (firstn m src)) as [r2|] eqn:E2; [|discriminate].
    destruct (append_ok n r1 _ r2 K1 E2) as [K2 B2].
    apply (IH r2 (skipn m src) res rf sf vs pad K2 T); [|exact H|exact S].
    rewrite B2, B1, <- app_assoc, <- (flat_app (A:=nat) _ _ []), firstn_skipn. exact I.
  - destruct (br_prepare_spec r n K) as (r1 & E1 & K1 & B1 & _). rewrite E1 in H.
    destruct (br_append r1 (firstn m src)) as [r2|] eqn:E2; [|discriminate].
    destruct (append_ok n r1 _ r2 K1 E2) as [K2 B2].
    apply (IH r2 (skipn m src) res rf sf vs pad K2 T); [|exact H|exact S].
    rewrite B2, B1, <- app_assoc, <- (flat_app (A:=nat) _ _ []), firstn_skipn. exact I.
Qed.

(** ** C31.  Whatever the values, the buffer sizes, the moments at which bytes
    are taken out of the writer and the chunks in which they are fed to the
    reader: if the reader asks for the types that were written, in order
    (failed requests, answered "not enough data", may be repeated), then it is
    given the values that were written. *)
Theorem C31_bit_stream_round_trip : forall (N M : nat) wops out wf rops res rf sf k,
  well_typed (written wops) ->
  wrun (bw_new N) wops = Some (out, wf) ->
  rrun (br_new M) (out ++ bw_all wf) rops = Some (res, rf, sf) ->
  map fst (successes res) = firstn k (map fst (written wops)) ->
  successes res = firstn k (written wops).
Proof.
  intros N M wops out wf rops res rf sf k T W R S.
  destruct (wrun_bits N wops (bw_new N) out wf (bw_new_ok N) T W) as [K B].
  destruct (bw_all_bits wf N K) as (pad & P & _).
  assert (I : br_bits (br_new M) ++ bits_of_bytes (out ++ bw_all wf) = enc_all (written wops) ++ pad).
  { unfold br_bits, br_new, slice. cbn [br_start br_end br_buf Nat.sub firstn app].
    rewrite (flat_app (A:=nat) _ _ []), P, app_assoc, B. reflexivity. }
  apply (proj1 (rrun_bits M rops (br_new M) _ res rf sf (written wops) pad (br_new_ok M) T I R k S)).
Qed.

(** "not enough data" is only ever said when data really is missing: once the
    whole stream has been fed, the next written value can be read. *)
Theorem C31_everything_readable : forall (N M : nat) wops out wf rops res rf k p v,
  well_typed (written wops) ->
  wrun (bw_new N) wops = Some (out, wf) ->
  rrun (br_new M) (out ++ bw_all wf) rops = Some (res, rf, []) ->
  successes res = firstn k (written wops) ->
  nth_error (written wops) k = Some (p, v) ->
  fst (br_read rf p) = Some v.
Proof.
  intros N M wops out wf rops res rf k p v T W R S Hn.
  destruct (wrun_bits N wops (bw_new N) out wf (bw_new_ok N) T W) as [K B].
  destruct (bw_all_bits wf N K) as (pad & P & _).
  assert (I : br_bits (br_new M) ++ bits_of_bytes (out ++ bw_all wf) = enc_all (written wops) ++ pad).
  { unfold br_bits, br_new, slice. cbn [br_start br_end br_buf Nat.sub firstn app].
    rewrite (flat_app (A:=nat) _ _ []), P, app_assoc, B. reflexivity. }
  assert (S' : map fst (successes res) = firstn k (map fst (written wops))) by (rewrite S, firstn_map; reflexivity).
  destruct (rrun_bits M rops (br_new M) _ res rf [] (written wops) pad (br_new_ok M) T I R k S') as (_ & KR & BR).
  assert (L : length (successes res) = k).
  { rewrite S. apply firstn_length_le. apply Nat.lt_le_incl. apply nth_error_Some. congruence. }
  rewrite L in BR.
  assert (SK : skipn k (written wops) = (p, v) :: skipn (1 + k) (written wops)).
  { clear - Hn. revert k Hn. induction (written wops) as [|x l IH]; intros [|k] Hn; try discriminate.
    - cbn in *. congruence.
    - apply (IH k Hn). }
  rewrite SK in BR. cbn [enc_all flat_map fst snd] in BR. cbn [bits_of_bytes flat_map] in BR. rewrite app_nil_r in BR.
  assert (wf_prim p /\ has_type p v) as [Hw Ht].
  { apply nth_error_In in Hn. unfold well_typed in T. rewrite Forall_forall in T. apply (T _ Hn). }
  assert (LB : plen p <= br_len rf).
  { rewrite <- (br_bits_length rf M KR), BR, !app_length, (enc_length p v Hw Ht). lia. }
  destruct (br_read_spec rf M p KR LB) as (r' & E & _). rewrite E. cbn [fst]. f_equal.
  rewrite BR, <- app_assoc. apply dec_enc; assumption.
Qed.

(** refilling never panics as long as no more than free_bytes() bytes are given *)
Theorem C31_refill_never_panics : forall (M : nat) src rops res rf sf d,
  rrun (br_new M) src rops = Some (res, rf, sf) -> length d <= br_free rf ->
  exists r', br_replenish rf d = Some r'.
Proof.
  intros M src rops res rf sf d R Hd.
  assert (K : br_ok rf M).
  { assert (G : forall ops r s res rf sf, br_ok r M -> rrun r s ops = Some (res, rf, sf) -> br_ok rf M).
    { clear. induction ops as [|[p|m|m] ops IH]; intros r s res rf sf K H; cbn [rrun] in H.
      - assert (rf = r) as -> by congruence. exact K.
      - destruct (Nat.le_gt_cases (plen p) (br_len r)) as [L|L].
        + destruct (br_read_spec r M p K L) as (r' & E & K' & _). rewrite E in H.
          destruct (rrun r' s ops) as [[[a b] c]|] eqn:E2; [|discriminate]. assert (rf = b) as -> by congruence. apply (IH r' s a b c K' E2).
        + rewrite (br_read_none r p L) in H. destruct (rrun r s ops) as [[[a b] c]|] eqn:E2; [|discriminate].
          assert (rf = b) as -> by congruence. apply (IH r s a b c K E2).
      - unfold br_replenish in H. destruct (br_shift_spec r M K) as (r1 & E1 & K1 & _). rewrite E1 in H.
        destruct (br_append r1 (firstn m s)) as [r2|] eqn:E2; [|discriminate].
        apply (IH r2 _ res rf sf (proj1 (append_ok M r1 _ r2 K1 E2)) H).
      - destruct (br_prepare_spec r M K) as (r1 & E1 & K1 & _). rewrite E1 in H.
        destruct (br_append r1 (firstn m s)) as [r2|] eqn:E2; [|discriminate].
        apply (IH r2 _ res rf sf (proj1 (append_ok M r1 _ r2 K1 E2)) H). }
    apply (G _ _ _ _ _ _ (br_new_ok M) R). }
  unfold br_replenish. destruct (br_shift_spec rf M K) as (r1 & E1 & K1 & _ & L1 & E8). rewrite E1.
  destruct (br_append_spec r1 M d K1) as (r2 & E2 & _); [|eauto].
  unfold br_free in Hd. destruct K as (A & B & C & D). destruct K1 as (A1 & B1 & C1 & D1). rewrite A in Hd.
  pose proof (Nat.div_mod_eq (br_end r1) 8).
  assert (8 * ((8 * M - br_len rf) / 8) <= 8 * M - br_len rf) by apply Nat.mul_div_le, Nat.neq_succ_0.
  pose proof (Nat.mod_upper_bound (br_len rf) 8). unfold br_len in *. lia.
Qed.

(** writing never panics while the values fit *)
Theorem C31_write_fits : forall (N : nat) wops out w p v,
  well_typed (written wops) -> wrun (bw_new N) wops = Some (out, w) ->
  wf_prim p -> has_type p v -> bw_len w + plen p <= 8 * N -> exists w', bw_write w p v = Some w'.
Proof.
  intros N wops out w p v T W Hw Ht F. destruct (wrun_bits N wops (bw_new N) out w (bw_new_ok N) T W) as [K _].
  unfold bw_write. rewrite <- (enc_length p v Hw Ht) in F |- *. apply (bw_put_fits w N _ K F).
Qed.

(** ** A concrete run: a 3-bit integer, an optional bool and an i64 through a
    12-byte writer drained in the middle and a 10-byte reader fed in three chunks. *)
Definition demo_w : list wop :=
  [WPut (TInt 3) (VN 5); WPut (TOpt TBool) (VO None); WDrain; WPut TI64 (VZ (-7)); WDrain; WPut (TArr 2 (TInt 4)) (VA [VN 9; VN 3])].
Definition demo_r : list rop :=
  [RGet TBool; RFill 1; RGet (TInt 3); RGet (TOpt TBool); RGet TI64; RFillAsync 6; RGet TI64; RFill 3; RGet TI64; RGet (TArr 2 (TInt 4))].

Example C31_demo : exists out wf res rf,
  well_typed (written demo_w) /\ wrun (bw_new 12) demo_w = Some (out, wf) /\
  rrun (br_new 10) (out ++ bw_all wf) demo_r = Some (res, rf, []) /\
  successes res = written demo_w /\ length res = 7 /\ length out = 8.
Proof.
  eexists _, _, _, _. split.
  - unfold well_typed. repeat constructor; cbn; try lia.
  - split; [vm_compute; reflexivity|]. split; [vm_compute; reflexivity|]. split; [|split]; reflexivity.
Qed.

(** The hypothesis that pairs have 64-bit components is needed: the declared
    length of a pair is the constant 128, whatever the component type. *)
Theorem C31_pair_length_refuted : exists p v, has_type p v /\ length (enc p v) <> plen p.
Proof. exists (TPair (TInt 8)), (VP (VN 1) (VN 2)). cbn. repeat split; lia. Qed.

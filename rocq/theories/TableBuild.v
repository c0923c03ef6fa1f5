(** * The table builder: what it leaves on flash, completed or interrupted *)
From Verif Require Import Base Hamming HammingProofs Flash FS Sectors SectorsProofs ATable TornCode TableCode TableScan ChipRules.
Local Open Scope N_scope.
Local Open Scope fs_scope.

(** ** Interruption of a growing list of operations.
    [te = true]: erases may be interrupted too. *)
Definition torn_m (te : bool) (o : fop) (f f' : flash) : Prop :=
  if te then torn o f f' else exists a d j, o = Prog a d /\ f' = apply_op f (Prog a (firstn j d)).
Definition crash_m (te : bool) : flash -> list fop -> flash -> Prop := if te then crash else crash_ae.

Lemma crash_ae_crash f l f' : crash_ae f l f' -> crash f l f'.
Proof. induction 1; [apply crash_at|apply crash_torn, torn_prog|apply crash_later; auto]. Qed.

Lemma torn_m_torn te o f f' : torn_m te o f f' -> torn o f f'.
Proof. destruct te; [auto|]. intros (a & d & j & -> & ->). apply torn_prog. Qed.

Lemma crash_m_nil te f f' : crash_m te f [] f' -> f' = f.
Proof. destruct te; intros H; inversion H; auto. Qed.

Lemma crash_snoc te l : forall f o f', crash_m te f (l ++ [o]) f' ->
  crash_m te f l f' \/ torn_m te o (apply_ops f l) f' \/ f' = apply_op (apply_ops f l) o.
Proof.
  destruct te; cbn [crash_m torn_m].
  - induction l as [|a l IH]; intros f o f' H; cbn [app] in H; inversion H; subst.
    + left. constructor.
    + auto.
    + right; right. match goal with H : crash _ [] _ |- _ => inversion H; auto end.
    + left. constructor.
    + left. constructor; auto.
    + cbn [apply_ops fold_left]. match goal with H : crash _ (l ++ [o]) _ |- _ => apply IH in H; destruct H as [H|[H|H]] end; auto.
      left. apply crash_later. auto.
  - induction l as [|a l IH]; intros f o f' H; cbn [app] in H; inversion H; subst.
    + left. constructor.
    + right; left. eauto.
    + right; right. match goal with H : crash_ae _ [] _ |- _ => inversion H; auto end.
    + left. constructor.
    + left. constructor; auto.
    + cbn [apply_ops fold_left]. match goal with H : crash_ae _ (l ++ [o]) _ |- _ => apply IH in H; destruct H as [H|[H|H]] end; auto.
      left. apply ae_later. auto.
Qed.

Lemma crash_m_end te l : forall f, crash_m te f l (apply_ops f l).
Proof.
  destruct te; cbn [crash_m]; induction l as [|o l IH]; intros f; cbn [apply_ops fold_left].
  - apply crash_at.
  - apply crash_later, IH.
  - apply ae_at.
  - apply ae_later, IH.
Qed.

(** the operations between [s0] and [s] obey the rules of the chip, and every state an interruption of them can leave satisfies [G] *)
Definition traced (te : bool) (s0 s : fs) (G : flash -> Prop) : Prop :=
  exists ops, lg s = lg s0 ++ ops /\ fl s = apply_ops (fl s0) ops /\
              (forall f', crash_m te (fl s0) ops f' -> G f') /\ by_the_rules (fl s0) ops.

Lemma traced_refl te s0 (G : flash -> Prop) : G (fl s0) -> traced te s0 s0 G.
Proof. intros H. exists []. rewrite app_nil_r. split; [auto|]. split; [auto|]. split; [|exact I]. intros f' Hc. apply crash_m_nil in Hc. subst; auto. Qed.

Lemma traced_fl te s0 s G : traced te s0 s G -> G (fl s).
Proof. intros (ops & A & B & C & _). rewrite B. apply C, crash_m_end. Qed.

Lemma traced_weaken te s0 s (G G' : flash -> Prop) : (forall f, G f -> G' f) -> traced te s0 s G -> traced te s0 s G'.
Proof. intros H (ops & A & B & C & R). exists ops. split; [exact A|]. split; [exact B|]. split; [|exact R]. intros f Hc. apply H, C, Hc. Qed.

Lemma traced_emit te s0 s (G : flash -> Prop) o : traced te s0 s G ->
  (forall f', torn_m te o (fl s) f' -> G f') -> G (apply_op (fl s) o) -> allowed_op (fl s) o -> traced te s0 (emit s o) G.
Proof.
  intros (ops & A & B & C & R) H1 H2 H3. exists (ops ++ [o]). cbn [emit lg fl].
  split; [rewrite A, app_assoc; reflexivity|]. split; [rewrite B, apply_ops_app; reflexivity|].
  split; [|apply rules_app; split; [exact R|rewrite <- B; split; [exact H3|exact I]]].
  intros f' Hc. apply crash_snoc in Hc. rewrite <- B in Hc. destruct Hc as [Hc|[Hc|Hc]]; auto.
  rewrite Hc. auto.
Qed.

Lemma traced_ext te s0 s s' G : fl s' = fl s -> lg s' = lg s -> traced te s0 s G -> traced te s0 s' G.
Proof. intros E1 E2 (ops & A & B & C & R). exists ops. rewrite E1, E2. exact (conj A (conj B (conj C R))). Qed.

Lemma free_erase_allowed H o f : free_erase H o -> allowed_op f o.
Proof.
  intros (i & n & -> & Hi & Hn & Ha). cbn [allowed_op]. unfold SECTOR_SIZE, ALLOC_TABLES_SECTORS_USED in *. split; [lia|].
  assert (Hb : i + n <= 16352).
  { destruct (Hi (i + n - 1 + 32)) as [Hd _]; [lia|]. unfold data_sector, SECTORS_COUNT in Hd. lia. }
  split; [|unfold DEVICE_BYTES; lia].
  apply N.div_exact in Ha; [|lia]. rewrite Ha. destruct Hn as [->|[->| ->]].
  - replace ((16 * (i / 16) + 32) * 4096) with ((i / 16 + 2) * (16 * 4096)) by lia. apply N.mod_mul. lia.
  - replace ((8 * (i / 8) + 32) * 4096) with ((i / 8 + 4) * (8 * 4096)) by lia. apply N.mod_mul. lia.
  - replace ((1 * (i / 1) + 32) * 4096) with ((i / 1 + 32) * (1 * 4096)) by lia. apply N.mod_mul. lia.
Qed.

(** ** The flash during a table update *)
Definition tsame_except (t : N) (f g : flash) : Prop :=
  forall x, x < 131072 -> ~ in_slot (t * 32768) x -> g x = f x.
(** the data sectors of [H] are untouched *)
Definition dsame (H : N -> Prop) (f g : flash) : Prop := forall x, data_sector x -> H x -> sector_same f g x.

Definition mid_update (te : bool) (t : N) (H : N -> Prop) (f0 : flash) (W : list byte) (f : flash) : Prop :=
  tsame_except t f0 f /\ dsame H f0 f /\
  ((exists pages, pages_erased (t * 32768) pages f0 f /\ (te = false -> forall i, pages i = false)) \/
   exists m, slot_holds f (t * 32768) (firstn m W)).

Lemma mid_update_more te t H f0 W X f : mid_update te t H f0 W f -> mid_update te t H f0 (W ++ X) f.
Proof.
  intros (A & B & [C|(m & C)]); split; auto; split; auto. right.
  exists (Nat.min m (length W)). rewrite firstn_app.
  replace (Nat.min m (length W) - length W)%nat with 0%nat by lia. rewrite firstn_O, app_nil_r.
  destruct (Nat.le_gt_cases m (length W)).
  - rewrite Nat.min_l by auto. auto.
  - rewrite Nat.min_r by lia. rewrite firstn_all. rewrite firstn_all2 in C by lia. auto.
Qed.

Lemma in_slot_table t x : t < 4 -> in_slot (t * 32768) x -> x < 131072.
Proof. unfold in_slot. lia. Qed.

Lemma data_addr x a : data_sector x -> x * SECTOR_SIZE <= a < (x + 1) * SECTOR_SIZE -> 131072 <= a.
Proof. unfold data_sector, SECTOR_SIZE, ALLOC_TABLES_SECTORS_USED. lia. Qed.

(** an operation confined to the slot keeps the frame *)
Lemma frame_slot t H f0 f g : t < 4 -> tsame_except t f0 f -> dsame H f0 f ->
  (forall x, ~ in_slot (t * 32768) x -> g x = f x) -> tsame_except t f0 g /\ dsame H f0 g.
Proof.
  intros Ht A B Hg. split.
  - intros x Hx Hn. rewrite Hg by auto. auto.
  - intros x Hd Hh a Ha. rewrite Hg; [apply (B x Hd Hh); auto|].
    intros Hi. apply (in_slot_table _ _ Ht) in Hi. pose proof (data_addr x a Hd Ha). lia.
Qed.

Lemma nth_skipn {A} (l : list A) n i d : nth i (skipn n l) d = nth (n + i) l d.
Proof.
  revert l. induction n as [|n IH]; intros l; [reflexivity|].
  destruct l as [|x l]; cbn [skipn Nat.add nth]; [destruct i; reflexivity|apply IH].
Qed.

(** programming (part of) page [k] of the slot *)
Lemma prog_slot f A W k i : bytes_ok W -> (256 * k <= length W)%nat -> (length W <= 256 * k + 256)%nat ->
  256 * N.of_nat k + 256 <= 32768 ->
  slot_holds f A (firstn (256 * k) W) ->
  let data := firstn i (skipn (256 * k) W ++ repeat 255 (256 - length (skipn (256 * k) W))) in
  slot_holds (apply_op f (Prog (A + 256 * N.of_nat k) data)) A (firstn (256 * k + i) W) /\
  (forall x, ~ in_slot A x -> apply_op f (Prog (A + 256 * N.of_nat k) data) x = f x).
Proof.
  intros Ho Hk1 Hk2 Hk H data.
  assert (Hsk : length (skipn (256 * k) W) = (length W - 256 * k)%nat) by apply skipn_length.
  assert (Hd : length data = Nat.min i 256).
  { unfold data. rewrite firstn_length, app_length, repeat_length, Hsk. lia. }
  split.
  - intros j Hj. cbn [apply_op]. rewrite Hd.
    destruct (N.leb_spec (A + 256 * N.of_nat k) (A + N.of_nat j)) as [H1|H1];
    [destruct (N.ltb_spec (A + N.of_nat j) (A + 256 * N.of_nat k + N.of_nat (Nat.min i 256))) as [H2|H2]|]; cbn [andb].
    + rewrite (H j Hj), nth_firstn_d. destruct (Nat.ltb_spec j (256 * k)) as [G|G]; [lia|].
      replace (N.to_nat (A + N.of_nat j - (A + 256 * N.of_nat k))) with (j - 256 * k)%nat by lia.
      rewrite nth_firstn_d. destruct (Nat.ltb_spec j (256 * k + i)); [|lia].
      assert (E : nth (j - 256 * k) data 255 = nth j W 255).
      { unfold data. rewrite nth_firstn_lt by lia. destruct (Nat.lt_ge_cases j (length W)) as [L|L].
        - rewrite app_nth1 by lia. rewrite nth_skipn. f_equal. lia.
        - rewrite app_nth2 by lia. rewrite nth_repeat. symmetry. apply nth_overflow; auto. }
      rewrite E. apply land_255. destruct (Nat.lt_ge_cases j (length W)) as [L|L].
      * unfold bytes_ok in Ho. rewrite Forall_forall in Ho. apply Ho, nth_In; auto.
      * rewrite nth_overflow by auto. reflexivity.
    + rewrite (H j Hj), !nth_firstn_d.
      destruct (Nat.ltb_spec j (256 * k)); [lia|]. destruct (Nat.ltb_spec j (256 * k + i)); [|reflexivity].
      symmetry. apply nth_overflow. lia.
    + rewrite (H j Hj), !nth_firstn_d.
      destruct (Nat.ltb_spec j (256 * k)), (Nat.ltb_spec j (256 * k + i)); try lia; reflexivity.
  - intros x Hx. cbn [apply_op]. rewrite Hd. unfold in_slot in Hx.
    destruct (N.leb_spec (A + 256 * N.of_nat k) x); [|reflexivity].
    destruct (N.ltb_spec x (A + 256 * N.of_nat k + N.of_nat (Nat.min i 256))); [|reflexivity]. lia.
Qed.

(** the data region is untouched *)
Definition dkeep (s s' : fs) : Prop := forall x, 131072 <= x -> fl s' x = fl s x.
Lemma dkeep_refl s : dkeep s s. Proof. intros x _; reflexivity. Qed.
Lemma dkeep_trans s1 s2 s3 : dkeep s1 s2 -> dkeep s2 s3 -> dkeep s1 s3.
Proof. intros A B x Hx. rewrite B, A; auto. Qed.

Section Build.
  Variables (te : bool) (s0 : fs) (t : N) (H : N -> Prop).
  Hypothesis (Ht : t < 4).
  Let A := t * 32768.
  Let G := mid_update te t H (fl s0).

  (** bytes [W] have been handed to the page buffer [p] *)
  Record WInv (s : fs) (W : list byte) (p : pbuf) : Prop := {
    wi_tr : traced te s0 s (G W);
    wi_ok : bytes_ok W;
    wi_pb : exists k, p = mkPB (A + 256 * N.of_nat k) (skipn (256 * k) W) /\
              (256 * k <= length W < 256 * k + 256)%nat /\ slot_holds (fl s) A (firstn (256 * k) W) }.

  Lemma wi_frame s W p : WInv s W p -> tsame_except t (fl s0) (fl s) /\ dsame H (fl s0) (fl s).
  Proof. intros [T _ _]. apply traced_fl in T. destruct T as (P & Q & _). auto. Qed.

  Lemma flush_step s W p X : WInv s W p -> bytes_ok X -> (length (pb_data p ++ X) <= 256)%nat ->
    N.of_nat (length (W ++ X)) <= 32760 ->
    exists s' k, pb_flush (mkPB (pb_addr p) (pb_data p ++ X)) s = (s', Ok (mkPB (pb_addr p + 256) [])) /\
      traced te s0 s' (G (W ++ X)) /\ pb_addr p = A + 256 * N.of_nat k /\
      (length (W ++ X) = 256 * k + length (pb_data p ++ X))%nat /\
      slot_holds (fl s') A (firstn (256 * k + 256) (W ++ X)) /\ sm s' = sm s /\ atb s' = atb s /\ dkeep s s'.
  Proof.
    intros HW HX Hl Hc. destruct (wi_frame _ _ _ HW) as [F1 F2]. destruct HW as [T O (k & -> & Hk & Hs)].
    cbn [pb_addr pb_data] in *.
    assert (Esk : skipn (256 * k) (W ++ X) = skipn (256 * k) W ++ X).
    { rewrite skipn_app. replace (256 * k - length W)%nat with 0%nat by lia. reflexivity. }
    assert (OX : bytes_ok (W ++ X)) by (apply Forall_app; auto).
    assert (Hl2 : (length (W ++ X) = 256 * k + length (skipn (256 * k) W ++ X))%nat).
    { rewrite !app_length, skipn_length. lia. }
    assert (Hs2 : slot_holds (fl s) A (firstn (256 * k) (W ++ X))).
    { rewrite firstn_app. replace (256 * k - length W)%nat with 0%nat by lia. rewrite firstn_O, app_nil_r. auto. }
    assert (Hlo : (256 * k <= length (W ++ X))%nat) by lia.
    assert (Hhi : (length (W ++ X) <= 256 * k + 256)%nat) by lia.
    assert (Hkk : 256 * N.of_nat k + 256 <= 32768) by lia.
    pose proof (prog_slot (fl s) A (W ++ X) k) as P.
    set (D := skipn (256 * k) W ++ X) in *.
    set (data := D ++ repeat 255 (256 - length D)).
    rewrite Esk in P. fold D data in P.
    assert (Hfull : firstn 256 data = data).
    { apply firstn_all2. unfold data. rewrite app_length, repeat_length. lia. }
    unfold pb_flush, out. rewrite bind_modify. cbn [pb_addr pb_data]. fold D data.
    exists (emit s (Prog (A + 256 * N.of_nat k) data)), k. split; [reflexivity|].
    destruct (P 256%nat OX Hlo Hhi Hkk Hs2) as [P1 P2]. rewrite Hfull in P1, P2.
    split; [|split; [auto|split; [auto|split; [exact P1|split; [reflexivity|split; [reflexivity|]]]]]].
    2:{ intros x Hx. cbn [emit fl]. apply P2. intros Hi. apply (in_slot_table t x Ht) in Hi. lia. }
    apply traced_emit.
    - eapply traced_weaken; [|exact T]. intros f. apply mid_update_more.
    - intros f' Hf. apply torn_m_torn in Hf. inversion Hf; subst.
      destruct (P j OX Hlo Hhi Hkk Hs2) as [Q1 Q2].
      destruct (frame_slot t H (fl s0) (fl s) _ Ht F1 F2 Q2) as [R1 R2].
      split; [exact R1|]. split; [exact R2|]. right. eexists. exact Q1.
    - destruct (frame_slot t H (fl s0) (fl s) _ Ht F1 F2 P2) as [R1 R2].
      split; [exact R1|]. split; [exact R2|]. right. eexists. exact P1.
    - assert (Ld : length data = 256%nat) by (unfold data; rewrite app_length, repeat_length; lia).
      cbn [allowed_op]. split; [exact Ld|]. split; [unfold data, D; apply Forall_app; split; [apply Forall_app; split; [apply bytes_ok_skipn, O|exact HX]|apply Forall_forall; intros b Hb; apply repeat_spec in Hb; subst b; reflexivity]|].
      split; [|split].
      + unfold A. replace (t * 32768 + 256 * N.of_nat k) with ((t * 128 + N.of_nat k) * 256) by lia. apply N.mod_mul. lia.
      + unfold A, DEVICE_BYTES. lia.
      + intros x Hx. replace x with (A + N.of_nat (N.to_nat (x - A))) by lia. rewrite Hs by lia. apply nth_overflow. rewrite firstn_length. lia.
  Qed.

  Lemma extend_loop fuel : forall s W p sl, WInv s W p -> bytes_ok sl -> (length sl < fuel)%nat ->
    N.of_nat (length (W ++ sl)) <= 32760 ->
    exists s' p', pb_extend_loop fuel p sl s = (s', Ok p') /\ WInv s' (W ++ sl) p' /\ sm s' = sm s /\ atb s' = atb s /\ dkeep s s'.
  Proof.
    induction fuel as [|fuel IH]; intros s W p sl HW Hsl Hf Hc; [lia|].
    cbn [pb_extend_loop]. destruct sl as [|c sl0].
    { exists s, p. rewrite app_nil_r. split; [reflexivity|]. split; [auto|]. split; [auto|]. split; [auto|apply dkeep_refl]. }
    set (sl := c :: sl0) in *.
    pose proof HW as HW'. destruct HW' as [T O (k & Ep & Hk & Hs)].
    assert (Hpl : length (pb_data p) = (length W - 256 * k)%nat) by (rewrite Ep; cbn [pb_data]; apply skipn_length).
    destruct (Nat.ltb_spec (length sl) (256 - length (pb_data p))) as [Hlt|Hge].
    - eexists _, _. split; [reflexivity|]. split; [|split; [auto|split; [auto|apply dkeep_refl]]]. constructor.
      + eapply traced_weaken; [|exact T]. intros f. apply mid_update_more.
      + apply Forall_app; auto.
      + exists k. rewrite Ep. cbn [pb_addr pb_data]. split; [|split].
        * f_equal. rewrite skipn_app. replace (256 * k - length W)%nat with 0%nat by lia. reflexivity.
        * rewrite app_length. lia.
        * rewrite firstn_app. replace (256 * k - length W)%nat with 0%nat by lia. rewrite firstn_O, app_nil_r. auto.
    - set (fr := (256 - length (pb_data p))%nat) in *.
      assert (Hfr : (0 < fr)%nat) by lia.
      assert (Hff : length (firstn fr sl) = fr) by (rewrite firstn_length; lia).
      assert (Hsf : bytes_ok (firstn fr sl) /\ bytes_ok (skipn fr sl)).
      { unfold bytes_ok in *. rewrite <- (firstn_skipn fr sl) in Hsl. apply Forall_app in Hsl. auto. }
      destruct Hsf as [Hs1 Hs2].
      destruct (flush_step s W p (firstn fr sl) HW Hs1) as (s1 & k1 & E1 & T1 & A1 & L1 & S1 & M1 & B1 & K1).
      { rewrite app_length. lia. }
      { rewrite app_length in *. lia. }
      rewrite (bind_ok _ _ _ _ _ E1).
      destruct (IH s1 (W ++ firstn fr sl) (mkPB (pb_addr p + 256) []) (skipn fr sl)) as (s' & p' & E' & W' & M' & B' & K').
      + constructor; [exact T1|apply Forall_app; auto|].
        exists (S k1). split; [|split].
        * f_equal; [lia|]. symmetry. apply skipn_all2. rewrite L1, app_length. lia.
        * rewrite L1, app_length. lia.
        * replace (256 * S k1)%nat with (256 * k1 + 256)%nat by lia. auto.
      + auto.
      + rewrite skipn_length. lia.
      + rewrite <- app_assoc, firstn_skipn. auto.
      + exists s', p'. split; [exact E'|]. rewrite <- app_assoc, firstn_skipn in W'.
        split; [exact W'|]. split; [congruence|]. split; [congruence|]. eapply dkeep_trans; eauto.
  Qed.

  Lemma extend_spec s W p sl : WInv s W p -> bytes_ok sl -> N.of_nat (length (W ++ sl)) <= 32760 ->
    exists s' p', pb_extend p sl s = (s', Ok p') /\ WInv s' (W ++ sl) p' /\ sm s' = sm s /\ atb s' = atb s /\ dkeep s s'.
  Proof. intros. apply extend_loop; auto. Qed.

  (** the last page *)
  Lemma final_flush s W p : WInv s W p -> N.of_nat (length W) <= 32760 ->
    exists s' p', pb_flush p s = (s', Ok p') /\ traced te s0 s' (G W) /\ slot_holds (fl s') A W /\
                  sm s' = sm s /\ atb s' = atb s /\ dkeep s s'.
  Proof.
    intros HW Hc. assert (Hpl : (length (pb_data p) < 256)%nat).
    { destruct HW as [_ _ (k & -> & Hk & _)]. cbn [pb_data]. rewrite skipn_length. lia. }
    destruct (flush_step s W p [] HW) as (s' & k & E & T & Ea & L & S & M & B & K); [constructor|..].
    { rewrite app_nil_r. lia. } { rewrite app_nil_r. auto. }
    rewrite !app_nil_r in *. exists s', (mkPB (pb_addr p + 256) []). split; [destruct p; exact E|].
    split; [auto|]. split; [|auto]. rewrite firstn_all2 in S by lia. auto.
  Qed.

  (** sector allocation in the middle of a table update *)
  Lemma winv_alloc s W p (H' : N -> Prop) s' : WInv s W p -> alloc_frame H' s s' -> (forall x, H x -> H' x) -> WInv s' W p.
  Proof.
    intros [T O P] (Ea & ops & Lg & Fl & Fr) Hsub.
    assert (K : forall ops, Forall (free_erase H') ops -> forall s1, traced te s0 s1 (G W) ->
        (exists k, p = mkPB (A + 256 * N.of_nat k) (skipn (256 * k) W) /\
              (256 * k <= length W < 256 * k + 256)%nat /\ slot_holds (fl s1) A (firstn (256 * k) W)) ->
        let s2 := mkFS (apply_ops (fl s1) ops) (lg s1 ++ ops) (atb s1) (sm s1) in
        traced te s0 s2 (G W) /\
        (exists k, p = mkPB (A + 256 * N.of_nat k) (skipn (256 * k) W) /\
              (256 * k <= length W < 256 * k + 256)%nat /\ slot_holds (fl s2) A (firstn (256 * k) W))).
    { clear - Hsub Ht. induction 1 as [|o ops Ho Hops IH]; intros s1 T1 P1.
      - cbn [apply_ops fold_left fl]. split; [|auto]. eapply traced_ext; [| |exact T1]; [reflexivity|]. cbn [lg]. rewrite app_nil_r. auto.
      - assert (Tout : forall x, x < 131072 \/ (exists y, data_sector y /\ H y /\ y * SECTOR_SIZE <= x < (y + 1) * SECTOR_SIZE) ->
             forall g, torn o (fl s1) g \/ g = apply_op (fl s1) o -> g x = fl s1 x).
        { intros x Hx g Hg. destruct Ho as (i & n & -> & Hi & _).
          assert (Hn : ~ ((i + ALLOC_TABLES_SECTORS_USED) * SECTOR_SIZE <= x < (i + ALLOC_TABLES_SECTORS_USED) * SECTOR_SIZE + n * SECTOR_SIZE)).
          { intros Hr. unfold ALLOC_TABLES_SECTORS_USED, SECTOR_SIZE in Hr.
            destruct Hx as [Hx|(y & Hy & Hh & Hr2)].
            - lia.
            - destruct (Hi y) as [_ Q]; [|apply Q; auto].
              unfold SECTOR_SIZE, ALLOC_TABLES_SECTORS_USED in *. lia. }
          destruct Hg as [Hg| ->].
          - inversion Hg; subst. destruct (N.leb_spec ((i + ALLOC_TABLES_SECTORS_USED) * SECTOR_SIZE) x); [|reflexivity].
            destruct (N.ltb_spec x ((i + ALLOC_TABLES_SECTORS_USED) * SECTOR_SIZE + n * SECTOR_SIZE)); [lia|reflexivity].
          - cbn [apply_op]. destruct (N.leb_spec ((i + ALLOC_TABLES_SECTORS_USED) * SECTOR_SIZE) x); [|reflexivity].
            destruct (N.ltb_spec x ((i + ALLOC_TABLES_SECTORS_USED) * SECTOR_SIZE + n * SECTOR_SIZE)); [lia|reflexivity]. }
        assert (Gg : forall g, torn o (fl s1) g \/ g = apply_op (fl s1) o -> G W g).
        { intros g Hg. pose proof (traced_fl _ _ _ _ T1) as (Q1 & Q2 & Q3).
          split; [|split].
          - intros x Hx Hn. rewrite (Tout x (or_introl Hx) g Hg). auto.
          - intros x Hd Hh a Ha. rewrite (Tout a) with (g := g); auto; [|right; exists x; auto].
            apply (Q2 x Hd Hh); auto.
          - destruct Q3 as [(pages & Q3 & Q4)|(m & Q3)].
            + left. exists pages. split; [|auto]. intros x Hx. rewrite <- (Q3 x Hx).
              apply Tout; auto. left. apply (in_slot_table t); auto.
            + right. exists m. intros j Hj. rewrite <- (Q3 j Hj). apply Tout; auto. left. lia. }
        destruct (IH (emit s1 o)) as [I1 I2].
        + apply traced_emit; auto; [|exact (free_erase_allowed _ _ _ Ho)]. intros g Hg. apply Gg. left. eapply torn_m_torn; eauto.
        + destruct P1 as (k & E1 & E2 & E3). exists k. split; [auto|]. split; [auto|].
          intros j Hj. cbn [emit fl]. rewrite <- (E3 j Hj). apply Tout; auto. left. unfold A. lia.
        + cbn [apply_ops fold_left]. split.
          * eapply traced_ext; [| |exact I1]; [reflexivity|]. cbn [lg emit]. rewrite <- app_assoc. reflexivity.
          * exact I2. }
    destruct (K ops Fr s T P) as [K1 (k & K2 & K3 & K4)]. constructor; auto.
    - eapply traced_ext; [| |exact K1]; auto.
    - exists k. split; [auto|]. split; [auto|]. rewrite Fl. exact K4.
  Qed.

  Lemma winv_same s s' W p : fl s' = fl s -> lg s' = lg s -> WInv s W p -> WInv s' W p.
  Proof.
    intros E1 E2 [T O (k & P1 & P2 & P3)]. constructor; auto.
    - eapply traced_ext; eauto.
    - exists k. rewrite E1. auto.
  Qed.
End Build.

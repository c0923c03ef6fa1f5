(** * Which table the boot scan selects; torn and partially erased slots *)
From Verif Require Import Base Hamming HammingProofs Flash FS Sectors ATable TornCode TableCode.
Local Open Scope N_scope.

Global Opaque scan_fuel.
Lemma scan_fuel_ge : exists more, scan_fuel = (slot_blocks + more)%nat.
Proof. exists (N.to_nat 65536 - slot_blocks)%nat. Transparent scan_fuel. unfold scan_fuel, slot_blocks. Opaque scan_fuel. lia. Qed.

(** The slot is not a table: no header, or a corrupted entry before any footer. *)
Definition invalid (f : flash) (b : N) : Prop :=
  header_deserialize (rd f b 13) = None \/ scan slot_blocks f (b + 13) 0 = SCorrupt.

(** The slot cannot be chosen when a table with sequence number [seq] exists elsewhere. *)
Definition harmless (f : flash) (b seq : N) : Prop :=
  invalid f b \/
  exists s c m, header_deserialize (rd f b 13) = Some s /\ scan slot_blocks f (b + 13) 0 = SFooter c m /\ s < seq.

Lemma in_slot_rd f g b a n : (forall x, in_slot b x -> f x = g x) -> b <= a -> a + N.of_nat n <= b + 32768 ->
  rd f a n = rd g a n.
Proof. intros H H1 H2. apply rd_same. intros x Hx. apply H. unfold in_slot. lia. Qed.

Lemma slot_scan_local f g b : (forall x, in_slot b x -> f x = g x) ->
  scan slot_blocks f (b + 13) 0 = scan slot_blocks g (b + 13) 0.
Proof. intros H. apply scan_local. unfold in_slot, slot_blocks in *. intros x Hx. apply H. lia. Qed.

Lemma invalid_local f g b : (forall x, in_slot b x -> f x = g x) -> invalid f b -> invalid g b.
Proof.
  unfold invalid. intros H. rewrite (slot_scan_local f g b H).
  rewrite (in_slot_rd f g b b 13) by (auto; lia). auto.
Qed.

Lemma harmless_local f g b seq : (forall x, in_slot b x -> f x = g x) -> harmless f b seq -> harmless g b seq.
Proof.
  unfold harmless. intros H [Hi|Hs]; [left; eapply invalid_local; eauto|right].
  rewrite <- (slot_scan_local f g b H), <- (in_slot_rd f g b b 13) by (auto; lia). auto.
Qed.

Lemma harmless_mono f b s s' : s <= s' -> harmless f b s -> harmless f b s'.
Proof.
  intros H [Hi|(q & c & m & A & B & C)]; [left; auto|right]. exists q, c, m.
  split; [auto|]. split; [auto|]. lia.
Qed.

Lemma table_harmless f b s ents mx s' : table_at f b s ents mx -> s < s' -> harmless f b s'.
Proof.
  intros T H. right. exists s, (N.of_nat (length ents)), mx.
  split; [apply (ta_hdr _ _ _ _ _ T)|]. split; [apply (table_scan _ _ _ _ _ T)|auto].
Qed.

Lemma fuel_scan f b r : scan slot_blocks f b 0 = r -> r <> SOverflow -> scan scan_fuel f b 0 = r.
Proof. intros H Hr. destruct scan_fuel_ge as (more & ->). rewrite scan_more; congruence. Qed.

Lemma try_invalid f i st : invalid f (i * 32768) -> try_slot scan_fuel f i st = Ok st.
Proof.
  unfold invalid, try_slot. replace (i * 32 * 1024) with (i * 32768) by lia. intros [->|H]; [reflexivity|].
  rewrite (fuel_scan _ _ _ H) by discriminate. destruct (header_deserialize _); reflexivity.
Qed.

Lemma try_harmless f i st seq : harmless f (i * 32768) seq -> seq <= a_seq (fst st) -> try_slot scan_fuel f i st = Ok st.
Proof.
  intros [H|(s & c & m & A & B & C)] Hs; [apply try_invalid; auto|].
  unfold try_slot. replace (i * 32 * 1024) with (i * 32768) by lia. rewrite A.
  rewrite (fuel_scan _ _ _ B) by discriminate.
  destruct (N.leb_spec (a_seq (fst st)) s); [lia|reflexivity].
Qed.

Lemma try_harmless' f i st seq : harmless f (i * 32768) seq -> a_seq (fst st) <= seq ->
  exists st', try_slot scan_fuel f i st = Ok st' /\ a_seq (fst st') <= seq /\ a_open (fst st') = a_open (fst st).
Proof.
  intros [H|(s & c & m & A & B & C)] Hs; [exists st; rewrite try_invalid; auto|].
  unfold try_slot. replace (i * 32 * 1024) with (i * 32768) by lia. rewrite A.
  rewrite (fuel_scan _ _ _ B) by discriminate.
  destruct (N.leb_spec (a_seq (fst st)) s).
  - eexists. split; [reflexivity|]. cbn. split; [lia|auto].
  - exists st. auto.
Qed.

Lemma try_table f i st seq ents mx : table_at f (i * 32768) seq ents mx -> a_seq (fst st) <= seq ->
  try_slot scan_fuel f i st = Ok (mkAT seq (N.of_nat (length ents)) mx i (a_open (fst st)), true).
Proof.
  intros T Hs. unfold try_slot. replace (i * 32 * 1024) with (i * 32768) by lia.
  rewrite (ta_hdr _ _ _ _ _ T). rewrite (fuel_scan _ _ _ (table_scan _ _ _ _ _ T)) by discriminate.
  destruct (N.leb_spec (a_seq (fst st)) seq); [reflexivity|lia].
Qed.

Lemma read_latest_table f p seq ents mx : p < 4 -> 1 <= seq -> table_at f (p * 32768) seq ents mx ->
  (forall q, q < 4 -> q <> p -> harmless f (q * 32768) seq) ->
  read_latest f at_default = Ok (mkAT seq (N.of_nat (length ents)) mx p [], true).
Proof.
  intros Hp Hs T Hh. unfold read_latest. cbn [fold_left].
  assert (K : forall i st, i < 4 -> i <> p -> seq <= a_seq (fst st) -> try_slot scan_fuel f i st = Ok st).
  { intros. eapply try_harmless; eauto. }
  assert (K' : forall i st, i < 4 -> i <> p -> a_seq (fst st) <= seq ->
     exists st', try_slot scan_fuel f i st = Ok st' /\ a_seq (fst st') <= seq /\ a_open (fst st') = a_open (fst st)).
  { intros. eapply try_harmless'; eauto. }
  assert (Hc : p = 0 \/ p = 1 \/ p = 2 \/ p = 3) by lia.
  destruct Hc as [->|[->|[->| ->]]].
  - rewrite (try_table f 0 _ _ _ _ T) by (cbn; lia). cbn [fst a_open at_default].
    rewrite !K by (cbn; lia). reflexivity.
  - destruct (K' 0 (at_default, false)) as (s0 & E0 & L0 & O0); [lia|lia|cbn; lia|]. rewrite E0.
    rewrite (try_table f 1 _ _ _ _ T) by auto. rewrite O0. rewrite !K by (cbn; lia). reflexivity.
  - destruct (K' 0 (at_default, false)) as (s0 & E0 & L0 & O0); [lia|lia|cbn; lia|]. rewrite E0.
    destruct (K' 1 s0) as (s1 & E1 & L1 & O1); [lia|lia|auto|]. rewrite E1.
    rewrite (try_table f 2 _ _ _ _ T) by auto. rewrite O1, O0. rewrite !K by (cbn; lia). reflexivity.
  - destruct (K' 0 (at_default, false)) as (s0 & E0 & L0 & O0); [lia|lia|cbn; lia|]. rewrite E0.
    destruct (K' 1 s0) as (s1 & E1 & L1 & O1); [lia|lia|auto|]. rewrite E1.
    destruct (K' 2 s1) as (s2 & E2 & L2 & O2); [lia|lia|auto|]. rewrite E2.
    rewrite (try_table f 3 _ _ _ _ T) by auto. rewrite O2, O1, O0. reflexivity.
Qed.

Lemma read_latest_none f a : (forall q, q < 4 -> invalid f (q * 32768)) -> read_latest f a = Ok (a, false).
Proof.
  intros H. unfold read_latest. cbn [fold_left]. rewrite !try_invalid by (apply H; lia). reflexivity.
Qed.

(** ** A slot programmed up to some byte *)
(** the slot holds the bytes [W] followed by erased flash *)
Definition slot_holds (f : flash) (b : N) (W : list byte) : Prop :=
  forall j, N.of_nat j < 32768 -> f (b + N.of_nat j) = nth j W 255.

Definition image_blocks (seq : N) (ents : list entry) (mx : N) : list (list byte) :=
  header_serialize seq :: map entry_serialize ents ++ [footer_serialize mx].
Definition image (seq : N) (ents : list entry) (mx : N) : list byte := concat (image_blocks seq ents mx).

Lemma concat_nth (B : list (list byte)) : Forall (fun x => length x = 13%nat) B ->
  forall k j, (k < length B)%nat -> (j < 13)%nat -> nth (13 * k + j) (concat B) 255 = nth j (nth k B []) 255.
Proof.
  induction 1 as [|x B Hx HB IH]; intros k j Hk Hj; [cbn in Hk; lia|].
  cbn [concat]. destruct k as [|k].
  - rewrite app_nth1 by lia. f_equal; lia.
  - rewrite app_nth2 by lia. cbn [nth]. rewrite <- IH by (cbn in Hk; lia). f_equal. lia.
Qed.

Lemma concat_length (B : list (list byte)) : Forall (fun x => length x = 13%nat) B ->
  length (concat B) = (13 * length B)%nat.
Proof. induction 1 as [|x B Hx HB IH]; [reflexivity|]. cbn [concat length]. rewrite app_length. lia. Qed.

Lemma nth_firstn_d {A} (l : list A) m j d : nth j (firstn m l) d = if (j <? m)%nat then nth j l d else d.
Proof.
  destruct (Nat.ltb_spec j m) as [H|H]; [apply nth_firstn_lt; auto|].
  apply nth_overflow. rewrite firstn_length. lia.
Qed.

Lemma torn_nth k bs j : (j < length bs)%nat ->
  nth j (torn_block k bs) 255 = if (j <? k)%nat then nth j bs 255 else 255.
Proof.
  intros H. unfold torn_block. destruct (Nat.ltb_spec j k) as [Hk|Hk].
  - rewrite app_nth1 by (rewrite firstn_length; lia). apply nth_firstn_lt; auto.
  - destruct (Nat.le_gt_cases (length (firstn k bs)) j) as [G|G].
    + rewrite app_nth2 by auto. apply nth_repeat.
    + rewrite firstn_length in G. lia.
Qed.

Lemma rd_block f b B m k : slot_holds f b (firstn m (concat B)) -> Forall (fun x => length x = 13%nat) B ->
  (k < length B)%nat -> 13 * N.of_nat k + 13 <= 32768 ->
  rd f (b + 13 * N.of_nat k) 13 = torn_block (m - 13 * k) (nth k B []).
Proof.
  intros H HB Hk Hs.
  assert (Hl : length (nth k B []) = 13%nat).
  { rewrite Forall_forall in HB. apply HB, nth_In; auto. }
  apply (nth_ext _ _ 255 255); [rewrite rd_length, torn_length; auto|].
  intros j Hj. rewrite rd_length in Hj. rewrite rd_nth by auto. rewrite torn_nth by lia.
  replace (b + 13 * N.of_nat k + N.of_nat j) with (b + N.of_nat (13 * k + j)) by lia.
  rewrite H by lia. rewrite nth_firstn_d, concat_nth by auto.
  destruct (Nat.ltb_spec (13 * k + j) m), (Nat.ltb_spec j (m - 13 * k)); try reflexivity; lia.
Qed.

Lemma image_blocks_13 seq ents mx : Forall (fun x => length x = 13%nat) (image_blocks seq ents mx).
Proof.
  unfold image_blocks. constructor; [apply header_serialize_shape|]. apply Forall_app. split.
  - apply Forall_forall. intros x Hx. apply in_map_iff in Hx. destruct Hx as (e & <- & _). apply entry_serialize_shape.
  - constructor; [apply entry_serialize_shape|constructor].
Qed.
Lemma image_blocks_length seq ents mx : length (image_blocks seq ents mx) = S (S (length ents)).
Proof. unfold image_blocks. cbn [length]. rewrite app_length, map_length. cbn [length]. lia. Qed.

Lemma image_length seq ents mx : length (image seq ents mx) = (13 * (length ents + 2))%nat.
Proof. unfold image. rewrite concat_length by apply image_blocks_13. rewrite image_blocks_length. lia. Qed.

Lemma image_ok seq ents mx : bytes_ok (image seq ents mx).
Proof.
  unfold image, bytes_ok. apply Forall_concat. unfold image_blocks. constructor; [apply header_serialize_shape|].
  apply Forall_app. split.
  - apply Forall_forall. intros x Hx. apply in_map_iff in Hx. destruct Hx as (e & <- & _). apply entry_serialize_shape.
  - constructor; [apply entry_serialize_shape|constructor].
Qed.

Lemma torn_zero bs : torn_block 0 bs = repeat 255 (length bs).
Proof. unfold torn_block. cbn [firstn app]. f_equal. lia. Qed.

Definition footer_entry (mx : N) : entry := mkE mx 65535 None.

Section Prefix.
  Variables (f : flash) (b seq mx : N) (ents : list entry) (m : nat).
  Hypotheses (Hs : seq < 2 ^ 64) (Hm : mx < 2 ^ 64)
    (He : Forall entry_ok ents) (Hnf : Forall (fun e => is_footer e = false) ents)
    (Hc : (length ents < slot_blocks)%nat)
    (Hh : slot_holds f b (firstn m (image seq ents mx))).

  Let n := length ents.

  Lemma hdr_rd : rd f b 13 = torn_block m (header_serialize seq).
  Proof.
    pose proof (rd_block f b _ m 0 Hh (image_blocks_13 seq ents mx)) as H.
    rewrite N.mul_0_r, N.add_0_r, Nat.mul_0_r, Nat.sub_0_r in H. apply H; [rewrite image_blocks_length|]; lia.
  Qed.

  Lemma ent_rd k e : nth_error (ents ++ [footer_entry mx]) k = Some e ->
    rd f (b + 13 + 13 * N.of_nat k) 13 = torn_block (m - 13 * (k + 1)) (entry_serialize e).
  Proof.
    intros Hk. assert (Hlt : (k < S n)%nat).
    { assert (k < length (ents ++ [footer_entry mx]))%nat by (apply nth_error_Some; congruence).
      rewrite app_length in *. cbn [length] in *. unfold n. lia. }
    replace (b + 13 + 13 * N.of_nat k) with (b + 13 * N.of_nat (S k)) by lia.
    rewrite (rd_block f b _ m (S k) Hh (image_blocks_13 seq ents mx)).
    - replace (13 * (k + 1))%nat with (13 * S k)%nat by lia. f_equal.
      unfold image_blocks. cbn [nth].
      replace (map entry_serialize ents ++ [footer_serialize mx]) with (map entry_serialize (ents ++ [footer_entry mx]))
        by (rewrite map_app; reflexivity).
      apply nth_error_nth. apply map_nth_error. auto.
    - rewrite image_blocks_length. fold n. lia.
    - unfold n, slot_blocks in *. lia.
  Qed.

  Lemma full_entries k e : (13 * (k + 2) <= m)%nat -> nth_error (ents ++ [footer_entry mx]) k = Some e ->
    read_entry_at f (b + 13 + 13 * N.of_nat k) = Some e.
  Proof.
    intros Hk En. unfold read_entry_at. rewrite (ent_rd k e En).
    rewrite torn_full by (destruct (entry_serialize_shape e) as [-> _]; lia).
    apply entry_roundtrip. assert (Hin : In e (ents ++ [footer_entry mx])) by (eapply nth_error_In; eauto).
    apply in_app_iff in Hin. destruct Hin as [Hin|[<-|[]]].
    - rewrite Forall_forall in He. auto.
    - split; [exact Hm|]. split; [reflexivity|exact I].
  Qed.

  Lemma blank_entries k : (m <= 13 * (k + 1))%nat -> (k <= n)%nat -> read_entry_at f (b + 13 + 13 * N.of_nat k) = None.
  Proof.
    intros Hk Hn. destruct (nth_error (ents ++ [footer_entry mx]) k) as [e|] eqn:En.
    2:{ apply nth_error_None in En. rewrite app_length in En. cbn [length] in En. unfold n in *. lia. }
    unfold read_entry_at. rewrite (ent_rd k e En). replace (m - 13 * (k + 1))%nat with O by lia.
    rewrite torn_zero. destruct (entry_serialize_shape e) as [-> _]. apply blank_entry.
  Qed.

  Lemma entry_at_lt k : (k < n)%nat -> exists e, nth_error (ents ++ [footer_entry mx]) k = Some e /\ nth_error ents k = Some e /\
    entry_ok e /\ is_footer e = false.
  Proof.
    intros Hk. destruct (nth_error ents k) as [e|] eqn:En; [|apply nth_error_None in En; unfold n in *; lia].
    exists e. rewrite nth_error_app1 by auto. split; [auto|]. split; [auto|].
    apply nth_error_In in En. rewrite Forall_forall in He, Hnf. auto.
  Qed.

  Lemma corrupt_at k : (k <= n)%nat -> (forall i, (i < k)%nat -> exists e, read_entry_at f (b + 13 + 13 * N.of_nat i) = Some e /\ is_footer e = false) ->
    read_entry_at f (b + 13 + 13 * N.of_nat k) = None -> invalid f b.
  Proof.
    intros Hk Hp Hn. right.
    replace slot_blocks with (k + S (slot_blocks - k - 1))%nat by (unfold n in *; lia).
    rewrite scan_skip by auto. cbn [scan]. rewrite Hn. reflexivity.
  Qed.

  Theorem prefix_scan :
    invalid f b \/
    (exists mx', table_at f b seq ents mx' /\ ((length (image seq ents mx) <= m)%nat -> mx' = mx)).
  Proof.
    destruct (Nat.le_gt_cases (13 * (n + 1)) m) as [Hbig|Hsmall].
    - (* header and all entries complete; the footer possibly torn *)
      assert (Hp : forall k e, nth_error ents k = Some e -> read_entry_at f (b + 13 + 13 * N.of_nat k) = Some e).
      { intros k e En. assert (k < n)%nat by (apply nth_error_Some; congruence).
        apply full_entries; [lia|]. rewrite nth_error_app1 by auto. auto. }
      destruct (read_entry_at f (b + 13 + 13 * N.of_nat n)) as [e|] eqn:Ef.
      + right. exists (e_id e). split.
        * constructor; auto.
          -- rewrite hdr_rd, torn_full by (destruct (header_serialize_shape seq) as [-> _]; lia).
             apply header_roundtrip; auto.
          -- exists e. split; [auto|]. split; [|auto]. unfold is_footer.
             unfold read_entry_at in Ef. rewrite (ent_rd n (footer_entry mx)) in Ef.
             ++ apply torn_entry_type in Ef; [rewrite Ef; reflexivity|].
                split; [exact Hm|]. split; [reflexivity|exact I].
             ++ rewrite nth_error_app2 by auto. fold n. rewrite Nat.sub_diag. reflexivity.
        * rewrite image_length. fold n. intros Hl.
          rewrite (full_entries n (footer_entry mx)) in Ef; [|lia|].
          -- injection Ef as <-. reflexivity.
          -- rewrite nth_error_app2 by auto. fold n. rewrite Nat.sub_diag. reflexivity.
      + left. apply (corrupt_at n); auto.
        intros i Hi. destruct (entry_at_lt i Hi) as (e & E1 & E2 & E3 & E4). exists e. split; auto.
    - left. set (k := (m / 13)%nat).
      assert (Hkm : (13 * k <= m < 13 * k + 13)%nat).
      { unfold k. pose proof (Nat.div_mod m 13 ltac:(lia)). pose proof (Nat.mod_upper_bound m 13 ltac:(lia)). lia. }
      destruct k as [|k].
      + apply (corrupt_at 0); [lia|intros; lia|]. apply blank_entries; lia.
      + assert (Hkn : (k < n)%nat) by lia.
        assert (Hp : forall i, (i < k)%nat -> exists e, read_entry_at f (b + 13 + 13 * N.of_nat i) = Some e /\ is_footer e = false).
        { intros i Hi. destruct (entry_at_lt i) as (e & E1 & E2 & E3 & E4); [lia|]. exists e.
          split; [|auto]. apply full_entries; [lia|auto]. }
        destruct (read_entry_at f (b + 13 + 13 * N.of_nat k)) as [e|] eqn:Er.
        * apply (corrupt_at (S k)); [lia| |apply blank_entries; lia].
          intros i Hi. assert (Hik : (i < k \/ i = k)%nat) by lia. destruct Hik as [Hik| ->]; [auto|].
          exists e. split; [auto|]. destruct (entry_at_lt k Hkn) as (e' & E1 & E2 & E3 & E4).
          unfold read_entry_at in Er. rewrite (ent_rd k e' E1) in Er. apply torn_entry_type in Er; auto.
          unfold is_footer in *. rewrite Er. auto.
        * apply (corrupt_at k); auto. lia.
  Qed.
End Prefix.

Lemma full_table f b seq mx ents : seq < 2 ^ 64 -> mx < 2 ^ 64 -> Forall entry_ok ents ->
  Forall (fun e => is_footer e = false) ents -> (length ents < slot_blocks)%nat ->
  slot_holds f b (image seq ents mx) -> table_at f b seq ents mx.
Proof.
  intros Hs Hm He Hnf Hc Hh. set (m := length (image seq ents mx)).
  assert (Hh' : slot_holds f b (firstn m (image seq ents mx))) by (unfold m; rewrite firstn_all; auto).
  assert (Hlen : m = (13 * (length ents + 2))%nat) by apply image_length.
  constructor; auto.
  - rewrite (hdr_rd f b seq mx ents m) by auto.
    rewrite torn_full by (destruct (header_serialize_shape seq) as [-> _]; lia).
    apply header_roundtrip; auto.
  - intros k e En. apply (full_entries f b seq mx ents m); auto.
    + assert (k < length ents)%nat by (apply nth_error_Some; congruence). lia.
    + rewrite nth_error_app1; [auto|]. apply nth_error_Some; congruence.
  - exists (footer_entry mx). split; [|split; reflexivity]. apply (full_entries f b seq mx ents m); auto.
    + lia.
    + rewrite nth_error_app2, Nat.sub_diag by auto. reflexivity.
Qed.

(** ** An interrupted erase of a slot that could not be chosen leaves it that way *)
Definition pages_erased (b : N) (pages : N -> bool) (f g : flash) : Prop :=
  forall x, in_slot b x -> g x = if pages ((x - b) / 256) then 255 else f x.

Lemma partial_erase_scan pages f g b : pages_erased b pages f g ->
  forall fuel idx c, (fuel + idx = slot_blocks)%nat ->
  pages ((12 + 13 * N.of_nat idx) / 256) = false ->
  scan fuel f (b + 13 + 13 * N.of_nat idx) c <> SOverflow ->
  scan fuel g (b + 13 + 13 * N.of_nat idx) c <> SOverflow.
Proof.
  intros Hp. induction fuel as [|k IH]; intros idx c Hk Hpg Hf; [exact Hf|].
  set (addr := b + 13 + 13 * N.of_nat idx) in *.
  assert (Hin : forall j, j < 13 -> in_slot b (addr + j)).
  { intros j Hj. unfold in_slot, addr, slot_blocks in *. lia. }
  destruct (pages ((25 + 13 * N.of_nat idx) / 256)) eqn:Hnext.
  - (* the block reaches into an erased page: the next block is blank *)
    assert (Hdiv : (12 + 13 * N.of_nat idx) / 256 <> (25 + 13 * N.of_nat idx) / 256) by congruence.
    assert (Hdiv2 : (25 + 13 * N.of_nat idx) / 256 <= 127).
    { unfold slot_blocks in Hk. pose proof (N.div_lt_upper_bound (25 + 13 * N.of_nat idx) 256 128). lia. }
    pose proof (N.div_mod (12 + 13 * N.of_nat idx) 256 ltac:(lia)) as D1.
    pose proof (N.mod_lt (12 + 13 * N.of_nat idx) 256 ltac:(lia)) as M1.
    pose proof (N.div_mod (25 + 13 * N.of_nat idx) 256 ltac:(lia)) as D2.
    pose proof (N.mod_lt (25 + 13 * N.of_nat idx) 256 ltac:(lia)) as M2.
    set (q1 := (12 + 13 * N.of_nat idx) / 256) in *. set (q2 := (25 + 13 * N.of_nat idx) / 256) in *.
    assert (Hq : q2 = q1 + 1) by lia.
    cbn [scan]. destruct (read_entry_at g addr) as [e|]; [|discriminate].
    destruct (is_footer e); [discriminate|].
    destruct k as [|k]; [exfalso; unfold slot_blocks in Hk; lia|].
    cbn [scan]. replace (read_entry_at g (addr + 13)) with (@None entry); [discriminate|].
    unfold read_entry_at. replace (rd g (addr + 13) 13) with (repeat 255 13); [symmetry; apply blank_entry|].
    apply (nth_ext _ _ 255 255); [rewrite rd_length, repeat_length; reflexivity|].
    intros j Hj. rewrite repeat_length in Hj. rewrite rd_nth, nth_repeat by auto.
    rewrite (Hp (addr + 13 + N.of_nat j)).
    + replace ((addr + 13 + N.of_nat j - b) / 256) with q2; [rewrite Hnext; reflexivity|].
      apply (N.div_unique _ _ _ (addr + 13 + N.of_nat j - b - 256 * q2)); unfold addr; lia.
    + unfold in_slot, addr. lia.
  - assert (Hsame : rd g addr 13 = rd f addr 13).
    { apply rd_same. intros x Hx. rewrite (Hp x).
      2:{ replace x with (addr + (x - addr)) by lia. apply Hin. lia. }
      assert (Hx2 : (x - b) / 256 = (12 + 13 * N.of_nat idx) / 256 \/ (x - b) / 256 = (25 + 13 * N.of_nat idx) / 256).
      { pose proof (N.div_mod (12 + 13 * N.of_nat idx) 256 ltac:(lia)) as D1.
        pose proof (N.mod_lt (12 + 13 * N.of_nat idx) 256 ltac:(lia)) as M1.
        pose proof (N.div_mod (25 + 13 * N.of_nat idx) 256 ltac:(lia)) as D2.
        pose proof (N.mod_lt (25 + 13 * N.of_nat idx) 256 ltac:(lia)) as M2.
        pose proof (N.div_mod (x - b) 256 ltac:(lia)) as D3.
        pose proof (N.mod_lt (x - b) 256 ltac:(lia)) as M3.
        unfold addr in Hx. lia. }
      destruct Hx2 as [-> | ->]; [rewrite Hpg|rewrite Hnext]; reflexivity. }
    cbn [scan] in *. unfold read_entry_at in *. rewrite Hsame.
    destruct (entry_deserialize (rd f addr 13)) as [e|]; [|discriminate].
    destruct (is_footer e); [discriminate|].
    replace (addr + 13) with (b + 13 + 13 * N.of_nat (S idx)) in * by (unfold addr; lia).
    apply IH; auto; [lia|].
    replace (12 + 13 * N.of_nat (S idx)) with (25 + 13 * N.of_nat idx) by lia. auto.
Qed.

Lemma partial_erase_harmless pages f g b seq : pages_erased b pages f g -> harmless f b seq ->
  (forall s, header_deserialize (rd f b 13) = Some s -> s < seq) -> harmless g b seq.
Proof.
  intros Hp Hh Hs. destruct (pages 0) eqn:H0.
  - left. left. replace (rd g b 13) with (repeat 255 13); [apply blank_header|].
    apply (nth_ext _ _ 255 255); [rewrite rd_length, repeat_length; reflexivity|].
    intros j Hj. rewrite repeat_length in Hj. rewrite rd_nth, nth_repeat by auto.
    rewrite (Hp (b + N.of_nat j)) by (unfold in_slot; lia).
    rewrite N.div_small by lia. rewrite H0. reflexivity.
  - assert (Hhd : rd g b 13 = rd f b 13).
    { apply rd_same. intros x Hx. rewrite (Hp x) by (unfold in_slot; lia). rewrite N.div_small by lia. rewrite H0. auto. }
    unfold harmless, invalid. rewrite Hhd.
    destruct (header_deserialize (rd f b 13)) as [s|] eqn:Eh; [|left; left; reflexivity].
    assert (Hov : scan slot_blocks g (b + 13) 0 <> SOverflow).
    { replace (b + 13) with (b + 13 + 13 * N.of_nat 0) by lia.
      apply (partial_erase_scan pages f g b Hp slot_blocks 0 0); [lia|exact H0|].
      replace (b + 13 + 13 * N.of_nat 0) with (b + 13) by lia.
      destruct Hh as [[Hx|Hx]|(q & c & m & A & B & C)]; congruence. }
    destruct (scan slot_blocks g (b + 13) 0) as [c m| |] eqn:Es; [|left; right; reflexivity|congruence].
    right. exists s, c, m. split; [reflexivity|]. split; [reflexivity|]. apply Hs. reflexivity.
Qed.

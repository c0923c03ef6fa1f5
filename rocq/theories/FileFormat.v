(** * On-flash format of file data, and correctness of reading *)
From Verif Require Import Base Majority Flash FS Sectors SectorsProofs ATable TableCode TableBuild TableOps DirOps Chains FileIO.
Local Open Scope N_scope.
Local Open Scope fs_scope.

Global Opaque read_fuel.

Definition pad4 (n : N) : N := 4 * ((n + 3) / 4).

Lemma round_land m : m < 2 ^ 64 -> N.land m (N.lnot 3 64) = 4 * (m / 4).
Proof.
  intros H. change (N.lnot 3 64) with (N.ldiff (N.ones 64) (N.ones 2)).
  assert (E : N.land m (N.ldiff (N.ones 64) (N.ones 2)) = N.ldiff m (N.ones 2)).
  { apply N.bits_inj. intros i. rewrite N.land_spec, !N.ldiff_spec. destruct (N.ltb_spec i 64).
    - rewrite (N.ones_spec_low 64) by lia. cbn [andb]. reflexivity.
    - rewrite (N.ones_spec_high 64) by lia. cbn [andb].
      destruct (N.eq_dec m 0) as [->|Hm]; [rewrite N.bits_0; reflexivity|].
      rewrite (N.bits_above_log2 m); [reflexivity|]. apply N.log2_lt_pow2 in H; lia. }
  rewrite E, N.ldiff_ones_r, N.shiftr_div_pow2, N.shiftl_mul_pow2. change (2 ^ 2) with 4. lia.
Qed.

Lemma pad4_land n : n < 2 ^ 60 -> N.land (n + 3) (N.lnot 3 64) = pad4 n.
Proof. intros H. rewrite round_land; [reflexivity|]. change (2 ^ 64) with (16 * 2 ^ 60). lia. Qed.

Lemma pad4_bounds n : n <= pad4 n < n + 4.
Proof. unfold pad4. lia. Qed.
Lemma pad4_le n m : n <= 4 * m -> pad4 n <= 4 * m.
Proof. unfold pad4. intros. lia. Qed.

(** [k]-th page worth of the data of a sector *)
Definition chunk (d : list byte) (k : N) : list byte := firstn 252 (skipn (N.to_nat (252 * k)) d).
Definition padding (c : list byte) : list byte := repeat 255 (N.to_nat (pad4 (N.of_nat (length c)) - N.of_nat (length c))).
Definition sec_len (f : flash) (x : N) : option N := find_most_common_u16_out_of_4 (rd f (x * SECTOR_SIZE + SECTOR_SIZE - 16) 8).

Lemma padded_length c : length (c ++ padding c) = N.to_nat (pad4 (N.of_nat (length c))).
Proof. unfold padding. rewrite app_length, repeat_length. pose proof (pad4_bounds (N.of_nat (length c))). lia. Qed.

(** the checksum engine returns 32-bit values *)
Definition crc32 (crc : list byte -> N) : Prop := forall l, crc l < 2 ^ 32.

Section Format.
Variable crc : list byte -> N.

(** page [k] of sector [x] holds [c], padded with 0xFF to a multiple of 4, followed by its checksum *)
Definition page_holds (f : flash) (x k : N) (c : list byte) : Prop :=
  rd f (x * SECTOR_SIZE + 256 * k) (length (c ++ padding c)) = c ++ padding c /\
  of_be (rd f (x * SECTOR_SIZE + 256 * k + N.of_nat (length (c ++ padding c))) 4) = crc (c ++ padding c).

(** the eight bytes of a quadruplicated field, completely written or cut off *)
Definition cut_field (v : N) (j : nat) : list byte := firstn j (u16x4 v) ++ repeat 255 (8 - j).

(** sector [x] holds the data [d] and links to [n] *)
Record sec_holds (f : flash) (x : N) (d : list byte) (n : N) : Prop := {
  sh_len : exists v, sec_len f x = Some v /\ ((v = N.of_nat (length d) /\ v <= 4016) \/ (v = 65535 /\ d = []));
  sh_next : next_sector_at f x = Some n;
  sh_raw : exists u j, u < 65536 /\ rd f (x * SECTOR_SIZE + SECTOR_SIZE - 16) 8 = cut_field u j;
  sh_page : forall k, 252 * k < N.of_nat (length d) -> page_holds f x k (chunk d k) }.

(** the chain starting at [o] consists of the sectors [l] with data [ds] *)
Inductive file_holds (f : flash) : option N -> list N -> list (list byte) -> Prop :=
| fh_nil : file_holds f None [] []
| fh_cons x d n l ds : data_sector x -> sec_holds f x d n -> file_holds f (link n) l ds ->
    file_holds f (Some x) (x :: l) (d :: ds).

Lemma file_chain f o l ds : file_holds f o l ds -> chain f o l.
Proof. induction 1; econstructor; eauto. eapply sh_next; eauto. Qed.

Lemma sec_holds_bound f x d n : sec_holds f x d n -> N.of_nat (length d) <= 4016.
Proof. intros [(v & _ & [[-> H]|[_ ->]]) _ _]; [auto|cbn; lia]. Qed.

Lemma chunk_length d k : length (chunk d k) = Nat.min 252 (length d - N.to_nat (252 * k)).
Proof. unfold chunk. rewrite firstn_length, skipn_length. reflexivity. Qed.

Lemma chunk_step d k : skipn (N.to_nat (252 * k)) d = chunk d k ++ skipn (N.to_nat (252 * (k + 1))) d.
Proof.
  unfold chunk. rewrite <- (firstn_skipn 252 (skipn (N.to_nat (252 * k)) d)) at 1. f_equal.
  rewrite skipn_skipn_add. f_equal. lia.
Qed.

Lemma rd_same_sector f g x a n : sector_same f g x -> x * SECTOR_SIZE <= a -> a + N.of_nat n <= (x + 1) * SECTOR_SIZE ->
  rd g a n = rd f a n.
Proof. intros H H1 H2. apply rd_ext. intros i Hi. apply H. lia. Qed.

Lemma page_holds_same f g x k c : sector_same f g x -> k < 16 -> N.of_nat (length c) <= 252 ->
  page_holds f x k c -> page_holds g x k c.
Proof.
  intros H Hk Hc [A B]. pose proof (padded_length c) as Hl. pose proof (pad4_le (N.of_nat (length c)) 63 ltac:(lia)).
  unfold page_holds, SECTOR_SIZE in *. split.
  - rewrite (rd_same_sector f g x); auto; unfold SECTOR_SIZE; lia.
  - rewrite (rd_same_sector f g x); auto; unfold SECTOR_SIZE; lia.
Qed.

Lemma sec_holds_same f g x d n : sector_same f g x -> sec_holds f x d n -> sec_holds g x d n.
Proof.
  intros H HS. pose proof (sec_holds_bound _ _ _ _ HS) as Hb. destruct HS as [A B R C]. constructor.
  - destruct A as (v & E & R'). exists v. split; [|auto]. rewrite <- E. unfold sec_len.
    f_equal. apply (rd_same_sector f g x); auto; unfold SECTOR_SIZE; lia.
  - rewrite <- B. apply next_same; auto.
  - destruct R as (u & j & Hu & E). exists u, j. split; [auto|]. rewrite <- E. apply (rd_same_sector f g x); auto; unfold SECTOR_SIZE; lia.
  - intros k Hk. apply (page_holds_same f g); auto; [lia|]. rewrite chunk_length. lia.
Qed.

Lemma file_holds_same f g o l ds : file_holds f o l ds -> (forall x, In x l -> sector_same f g x) -> file_holds g o l ds.
Proof.
  induction 1 as [|x d n l ds Hd Hs Hf IH]; intros H; [constructor|]. econstructor; [auto| |].
  - eapply sec_holds_same; eauto. apply H. left; auto.
  - apply IH. intros y Hy. apply H. right; auto.
Qed.

(** ** Reading *)
(** [RInv f L r rest m]: the reader [r] has [rest] left to read, all of it in sectors among [L] *)
Inductive RInv (f : flash) (L : list N) : reader -> list byte -> nat -> Prop :=
| RI_end p l rl a m : RInv f L (mkR None p l rl a) a m
| RI_in x k sl rl a d n l ds m :
    data_sector x -> sec_holds f x d n -> file_holds f (link n) l ds ->
    k <= 15 -> (k = 0 \/ 252 * (k - 1) < N.of_nat (length d)) ->
    rl = N.min (252 * k) (N.of_nat (length d)) ->
    (sl = Read (N.of_nat (length d)) \/ (sl = NotRead /\ k = 0)) ->
    (17 * (1 + length l) - N.to_nat k <= m)%nat -> incl (x :: l) L ->
    RInv f L (mkR (Some x) k sl rl a) (a ++ skipn (N.to_nat (252 * k)) d ++ concat ds) m.

Lemma rinv_file f L o l ds a : file_holds f o l ds -> incl l L ->
  RInv f L (mkR o 0 NotRead 0 a) (a ++ concat ds) (17 * length l).
Proof.
  intros H HL. inversion H as [|x d n l' ds' Hd Hs Hf]; subst.
  - cbn [concat]. rewrite app_nil_r. constructor.
  - cbn [concat]. assert (E : a ++ d ++ concat ds' = a ++ skipn (N.to_nat (252 * 0)) d ++ concat ds') by reflexivity.
    rewrite E. eapply RI_in; eauto; try lia; cbn [length]; lia.
Qed.

Lemma rinv_mono f L r rest m m' : (m <= m')%nat -> RInv f L r rest m -> RInv f L r rest m'.
Proof. intros H HR. inversion HR; subst; econstructor; eauto. lia. Qed.

(** the reader does not notice changes elsewhere *)
Lemma rinv_same f g L r rest m : (forall x, In x L -> sector_same f g x) -> RInv f L r rest m -> RInv g L r rest m.
Proof.
  intros HS HR. inversion HR as [p l rl a m0|x k sl rl a d n l ds m0 Hd Hs Hf Hk Hkd Hrl Hsl Hm HL]; subst; [constructor|].
  eapply RI_in; eauto.
  - eapply sec_holds_same; [|exact Hs]. apply HS, HL. left; reflexivity.
  - eapply file_holds_same; [exact Hf|]. intros y Hy. apply HS, HL. right; exact Hy.
Qed.

Lemma firstn_app_exact {A} (a b : list A) n : n = length a -> firstn n (a ++ b) = a.
Proof. intros ->. rewrite firstn_app, Nat.sub_diag, firstn_O, app_nil_r. apply firstn_all. Qed.

Lemma read_next_spec f L0 r rest m : RInv f L0 r rest m -> r_ahead r = [] ->
  (r_sec r = None /\ rest = [] /\ exists r', read_next_page crc f r = Ok (r', StEnd) /\ RInv f L0 r' [] m /\ r_ahead r' = []) \/
  (exists r' m', read_next_page crc f r = Ok (r', StOk) /\ RInv f L0 r' rest m' /\ (m' < m)%nat).
Proof.
  intros H Ha. inversion H as [p sl rl a m0 | x k sl rl a d n l ds m0 Hd Hs Hf Hk Hkd Hrl Hsl Hm HL0]; subst; cbn [r_ahead] in Ha; subst.
  { left. cbn [r_sec]. split; [auto|]. split; [auto|]. eexists. split; [reflexivity|]. split; [constructor|reflexivity]. }
  assert (HL1 : incl l L0) by (intros y Hy; apply HL0; right; exact Hy).
  right. pose proof (sec_holds_bound _ _ _ _ Hs) as Hb. pose proof Hs as Hs0. destruct Hs as [(v & Ev & Hv) Hn _ Hp].
  unfold read_next_page. cbn [r_sec r_page r_len r_read].
  set (L := match sl with NotRead => _ | _ => _ end).
  assert (EL : L = Read (N.of_nat (length d))).
  { unfold L. destruct Hsl as [->|[-> ->]]; [reflexivity|]. change (find_most_common_u16_out_of_4 _) with (sec_len f x).
    rewrite Ev. destruct Hv as [[-> Hv]|[-> ->]]; [|reflexivity].
    unfold MAX_SECTOR_DATA_SIZE. destruct (N.leb_spec (N.of_nat (length d)) 4016); [reflexivity|lia]. }
  clearbody L. subst L. cbv beta iota.
  destruct (N.of_nat (length d) - N.min (252 * k) (N.of_nat (length d))) as [|u] eqn:Eu.
  - (* jump to the next sector *)
    rewrite Hn. exists (mkR (link_of n) 0 NotRead 0 []), (17 * length l)%nat. split; [reflexivity|].
    rewrite (skipn_all2 d) by lia. cbn [app]. split; [|lia].
    pose proof (rinv_file f L0 (link n) l ds [] Hf HL1) as Hr. exact Hr.
  - assert (Hlt : 252 * k < N.of_nat (length d)) by lia. rewrite <- Eu. clear u Eu.
    set (max := if k =? 15 then MAX_LAST_PAGE else MAX_PAGE).
    set (c := chunk d k). pose proof (chunk_length d k) as Hcl. fold c in Hcl.
    assert (Hmax : N.min (N.of_nat (length d) - N.min (252 * k) (N.of_nat (length d))) max = N.of_nat (length c)).
    { unfold max, MAX_LAST_PAGE, MAX_PAGE. destruct (N.eqb_spec k 15); rewrite Hcl; lia. }
    rewrite Hmax, pad4_land by (change (2 ^ 60) with 1152921504606846976; lia).
    destruct (Hp k Hlt) as [P1 P2]. fold c in P1, P2. pose proof (padded_length c) as Hpl.
    rewrite <- Hpl. replace (x * SECTOR_SIZE + k * 256) with (x * SECTOR_SIZE + 256 * k) by lia.
    rewrite P1. replace (pad4 (N.of_nat (length c))) with (N.of_nat (length (c ++ padding c))) by lia.
    rewrite P2, N.eqb_refl, Nat2N.id, firstn_app_exact by auto.
    destruct (N.eqb_spec k 15) as [->|Hk15].
    + change (find_most_common_u16_out_of_4 (rd f (x * SECTOR_SIZE + 256 * 15 + 248) 8)) with
        (find_most_common_u16_out_of_4 (rd f (x * SECTOR_SIZE + 3840 + 248) 8)).
      replace (x * SECTOR_SIZE + 3840 + 248) with (x * SECTOR_SIZE + SECTOR_SIZE - 8) by (unfold SECTOR_SIZE; lia).
      change (find_most_common_u16_out_of_4 (rd f (x * SECTOR_SIZE + SECTOR_SIZE - 8) 8)) with (next_sector_at f x).
      rewrite Hn. eexists _, (17 * length l)%nat. split; [reflexivity|].
      rewrite chunk_step. fold c. rewrite (skipn_all2 d) by lia. cbn [app]. rewrite app_nil_r.
      split; [|lia]. apply (rinv_file f L0 (link n) l ds c Hf HL1).
    + eexists _, (17 * (1 + length l) - N.to_nat (k + 1))%nat. split; [reflexivity|]. cbn [app].
      rewrite chunk_step. fold c. rewrite <- app_assoc. split; [|lia].
      eapply (RI_in f L0 x (k + 1)); eauto; try lia.
Qed.

Lemma read_loop_spec f L0 : forall fuel r rest m acc len, RInv f L0 r rest m ->
  (length acc <= len)%nat -> (2 * m + (if r_ahead r then 0 else 1) + 1 < fuel)%nat ->
  exists r' m', (m' <= m)%nat /\
    read_loop crc fuel f r len acc =
      Ok (r', acc ++ firstn (len - length acc) rest, if Nat.leb (len - length acc) (length rest) then StOk else StEnd) /\
    RInv f L0 r' (skipn (len - length acc) rest) m'.
Proof.
  induction fuel as [|fuel IH]; intros r rest m acc len HR Hl Hf; [lia|]. cbn [read_loop].
  destruct (Nat.ltb_spec (length acc) len) as [Hlt|Hge].
  - destruct (r_ahead r) as [|b a] eqn:Ea.
    + destruct (read_next_spec f L0 r rest m HR Ea) as [(Hs & -> & r' & E & HR' & _)|(r' & m' & E & HR' & Hm)]; rewrite E.
      * exists r', m. split; [lia|]. rewrite firstn_nil, app_nil_r, skipn_nil. split; [|auto].
        destruct (Nat.leb_spec (len - length acc) (length (@nil byte))); [cbn in *; lia|reflexivity].
      * destruct (IH r' rest m' acc len HR' Hl) as (r2 & m2 & Hm2 & E2 & R2).
        { destruct (r_ahead r'); lia. }
        exists r2, m2. split; [lia|]. auto.
    + set (u := (len - length acc)%nat). remember (b :: a) as A eqn:EA.
      assert (Hrest : exists tail, rest = A ++ tail /\
         forall a', RInv f L0 (mkR (r_sec r) (r_page r) (r_len r) (r_read r) a') (a' ++ tail) m).
      { inversion HR as [p sl rl a0 m0 | x k sl rl a0 d n l ds m0 Hd Hs Hf' Hk Hkd Hrl Hsl Hm HL0]; subst; cbn [r_ahead] in Ea; subst;
          cbn [r_sec r_page r_len r_read].
        - exists []. rewrite app_nil_r. split; [auto|]. intros a'. rewrite app_nil_r. constructor.
        - eexists. split; [reflexivity|]. intros a'. econstructor; eauto. }
      destruct Hrest as (tail & -> & Hr').
      destruct (Nat.leb_spec (length A) u) as [Hle|Hgt].
      * destruct (IH _ _ m (acc ++ A) len (Hr' [])) as (r2 & m2 & Hm2 & E2 & R2).
        { rewrite app_length. lia. } { cbn [r_ahead]. lia. }
        exists r2, m2. split; [lia|]. rewrite E2. rewrite app_length in *.
        replace (len - (length acc + length A))%nat with (u - length A)%nat in * by lia.
        change ([] ++ tail) with tail in *. rewrite (firstn_app u A), (firstn_all2 A) by lia. rewrite <- app_assoc.
        rewrite skipn_app, (skipn_all2 A) by lia. cbn [app]. rewrite app_length. split; [|exact R2].
        f_equal. f_equal. destruct (Nat.leb_spec (u - length A) (length tail)), (Nat.leb_spec u (length A + length tail)); auto; lia.
      * destruct fuel as [|fuel]; [lia|]. cbn [read_loop].
        assert (Hlen : length (acc ++ firstn u A) = len) by (rewrite app_length, firstn_length; lia).
        rewrite Hlen, Nat.ltb_irrefl.
        exists (mkR (r_sec r) (r_page r) (r_len r) (r_read r) (skipn u A)), m. split; [lia|].
        rewrite firstn_app, skipn_app. replace (u - length A)%nat with 0%nat by lia.
        cbn [firstn skipn]. rewrite app_nil_r. rewrite app_length.
        split; [|apply Hr']. destruct (Nat.leb_spec u (length A + length tail)); [reflexivity|lia].
  - replace (len - length acc)%nat with 0%nat by lia. cbn [firstn skipn Nat.leb]. rewrite app_nil_r.
    exists r, m. split; [lia|]. auto.
Qed.

Lemma read_fuel_big n : (n <= N.to_nat 16352)%nat -> (2 * (17 * n) + 2 < read_fuel)%nat.
Proof. Transparent read_fuel. unfold read_fuel. Opaque read_fuel. lia. Qed.

Theorem read_slice_spec f L0 r rest m len : RInv f L0 r rest m -> (m <= 17 * N.to_nat 16352)%nat ->
  exists r' m', (m' <= m)%nat /\
    read_slice crc f r len = Ok (r', firstn len rest, if Nat.leb len (length rest) then StOk else StEnd) /\
    RInv f L0 r' (skipn len rest) m'.
Proof.
  intros HR Hm. unfold read_slice.
  destruct (read_loop_spec f L0 read_fuel r rest m [] len HR) as (r' & m' & A & B & C).
  - cbn; lia.
  - pose proof (read_fuel_big (N.to_nat 16352) (Nat.le_refl _)). destruct (r_ahead r); lia.
  - cbn [length app] in *. rewrite Nat.sub_0_r in *. eauto.
Qed.

(** reading a whole file with any sequence of requests *)
Fixpoint read_many (f : flash) (r : reader) (lens : list nat) : res (list (list byte * status)) :=
  match lens with
  | [] => Ok []
  | n :: t => match read_slice crc f r n with
              | Ok (r, d, st) => match read_many f r t with Ok l => Ok ((d, st) :: l) | e => e end
              | Err e => Err e
              | Panic => Panic
              end
  end.
(** what the requests must return for content [rest] *)
Fixpoint expect (rest : list byte) (lens : list nat) : list (list byte * status) :=
  match lens with
  | [] => []
  | n :: t => (firstn n rest, if Nat.leb n (length rest) then StOk else StEnd) :: expect (skipn n rest) t
  end.

Theorem read_many_spec f o l ds lens : file_holds f o l ds -> NoDup l ->
  read_many f (new_reader o) lens = Ok (expect (concat ds) lens).
Proof.
  intros Hf Hn. assert (Hl : (length l <= N.to_nat 16352)%nat).
  { apply all_data_length; auto. eapply chain_data. eapply file_chain; eauto. }
  assert (HR : RInv f l (new_reader o) (concat ds) (17 * length l)) by apply (rinv_file f l o l ds [] Hf (incl_refl l)).
  assert (Hm : (17 * length l <= 17 * N.to_nat 16352)%nat) by lia. clear Hf Hn Hl.
  revert HR Hm. generalize (new_reader o) (concat ds) (17 * length l)%nat.
  induction lens as [|n t IH]; intros r rest m HR Hm; [reflexivity|]. cbn [read_many expect].
  destruct (read_slice_spec f l r rest m n HR Hm) as (r' & m' & A & B & C). rewrite B.
  rewrite (IH r' (skipn n rest) m' C) by lia. reflexivity.
Qed.

(** ** File size *)
Lemma size_loop_spec f : forall fuel o l ds, file_holds f o l ds -> (length l < fuel)%nat -> forall sz sc,
  size_loop fuel f o sz sc = Ok (sz + N.of_nat (length (concat ds)), sc + N.of_nat (length l)).
Proof.
  intros fuel o l ds H. revert fuel. induction H as [|x d n l ds Hd Hs Hf IH]; intros fuel Hfu sz sc.
  - destruct fuel; cbn [size_loop concat length]; rewrite !N.add_0_r; reflexivity.
  - destruct fuel as [|fuel]; [cbn in Hfu; lia|]. cbn [size_loop].
    destruct Hs as [(v & Ev & Hv) Hn _ _]. change (find_most_common_u16_out_of_4 (rd f (x * SECTOR_SIZE + SECTOR_SIZE - 16) 8)) with (sec_len f x).
    rewrite Ev. replace (x * SECTOR_SIZE + SECTOR_SIZE - 16 + 8) with (x * SECTOR_SIZE + SECTOR_SIZE - 8) by (unfold SECTOR_SIZE; lia).
    change (find_most_common_u16_out_of_4 (rd f (x * SECTOR_SIZE + SECTOR_SIZE - 8) 8)) with (next_sector_at f x). rewrite Hn.
    assert (Ez : (if v =? 65535 then 0 else v) = N.of_nat (length d)).
    { destruct Hv as [[-> Hv]|[-> ->]]; [|reflexivity]. destruct (N.eqb_spec (N.of_nat (length d)) 65535); [lia|auto]. }
    rewrite Ez. unfold MAX_SECTOR_DATA_SIZE.
    destruct (N.ltb_spec 4016 (N.of_nat (length d))) as [C|_]; [destruct Hv as [[-> Hv]|[-> ->]]; cbn in *; lia|].
    change (link_of n) with (link n). rewrite (IH fuel) by (cbn [length] in Hfu; lia). cbn [concat length]. rewrite app_length. f_equal. f_equal; lia.
Qed.
End Format.

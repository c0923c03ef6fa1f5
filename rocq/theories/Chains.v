(** * Sector chains, removal, boot, and the file-system invariant *)
From Coq Require Import Sorted.
From Verif Require Import Base Hamming HammingProofs Majority Flash FS Sectors SectorsProofs ATable TornCode TableCode TableScan TableBuild TableOps DirOps.
Local Open Scope N_scope.
Local Open Scope fs_scope.

(** ** Chains of sectors *)
Definition link (n : N) : option N := if n =? 65535 then None else Some n.
Inductive chain (f : flash) : option N -> list N -> Prop :=
| ch_nil : chain f None []
| ch_cons x n l : data_sector x -> next_sector_at f x = Some n -> chain f (link n) l -> chain f (Some x) (x :: l).

Lemma chain_data f o l : chain f o l -> Forall data_sector l.
Proof. induction 1; auto. Qed.

Lemma next_same f g x : sector_same f g x -> next_sector_at g x = next_sector_at f x.
Proof.
  intros H. unfold next_sector_at. f_equal. apply rd_ext. intros i Hi. apply H. unfold SECTOR_SIZE. lia.
Qed.

Lemma chain_same f g o l : chain f o l -> (forall x, In x l -> sector_same f g x) -> chain g o l.
Proof.
  induction 1 as [|x n l Hd Hn Hc IH]; intros Hs; [constructor|].
  econstructor; [auto| |].
  - rewrite (next_same f g x); [eauto|]. apply Hs. left; auto.
  - apply IH. intros y Hy. apply Hs. right; auto.
Qed.

Lemma chain_fun f o l l' : chain f o l -> chain f o l' -> l = l'.
Proof.
  intros H. revert l'. induction H as [|x n l Hd Hn Hc IH]; intros l' H'; inversion H'; subst; [auto|].
  f_equal. apply IH. match goal with H1 : next_sector_at f x = Some ?a |- _ => rewrite Hn in H1; injection H1 as <- end. auto.
Qed.

Lemma all_data_length l : NoDup l -> Forall data_sector l -> (length l <= N.to_nat 16352)%nat.
Proof.
  intros Hn Hd. assert (Hi : incl l (map (fun i => i + 32) data_idx)).
  { intros x Hx. rewrite Forall_forall in Hd. apply Hd in Hx. apply in_map_iff. exists (x - 32).
    unfold data_sector, ALLOC_TABLES_SECTORS_USED, SECTORS_COUNT in Hx.
    split; [lia|]. apply in_data_idx. unfold DATA_REGION_SECTORS. lia. }
  apply (NoDup_incl_length Hn) in Hi. rewrite map_length, length_data_idx in Hi. exact Hi.
Qed.

Lemma chain_fuel_big l : NoDup l -> Forall data_sector l -> (length l < chain_fuel)%nat.
Proof.
  intros Hn Hd. pose proof (all_data_length l Hn Hd). Transparent chain_fuel. unfold chain_fuel. Opaque chain_fuel. lia.
Qed.

(** ** Releasing a chain *)
Definition minus (H : N -> Prop) (l : list N) : N -> Prop := fun y => H y /\ ~ In y l.

Lemma release_spec : forall l fuel o s H, chain (fl s) o l -> NoDup l -> AllocInv s H -> (forall x, In x l -> H x) ->
  (length l < fuel)%nat ->
  exists s', release_loop fuel o s = (s', Ok tt) /\ AllocInv s' (minus H l) /\
    fl s' = fl s /\ lg s' = lg s /\ atb s' = atb s.
Proof.
  induction l as [|x l IH]; intros fuel o s H Hc Hn HA Hin Hf; inversion Hc as [|x' n l' Hd Hnx Hc']; subst.
  - exists s. split; [destruct fuel; reflexivity|]. split; [|auto].
    eapply ai_ext; [|exact HA]. intros y. unfold minus. cbn [In]. tauto.
  - destruct fuel as [|fuel]; [cbn in Hf; lia|]. cbn [release_loop]. rewrite bind_get, Hnx.
    destruct (return_spec s H x HA) as (s1 & E1 & A1 & F1 & L1 & T1); [apply Hin; left; auto|].
    rewrite (bind_ok _ _ _ _ _ E1). inversion Hn as [|? ? Hx Hn']; subst. rewrite <- F1 in Hc'.
    destruct (IH fuel (link n) s1 (remv H x) Hc' Hn' A1) as (s2 & E2 & A2 & F2 & L2 & T2).
    { intros y Hy. split; [intros ->; contradiction|apply Hin; right; auto]. }
    { cbn [length] in Hf. lia. }
    exists s2. split; [exact E2|]. split; [|split; [congruence|split; congruence]].
    eapply ai_ext; [|exact A2]. intros y. unfold minus, remv. cbn [In]. split.
    + intros [[P Q] R]. split; [auto|]. intros [->|Hy]; [auto|contradiction].
    + intros [P Q]. split; [split; [intros ->; apply Q; auto|auto]|intros Hy; apply Q; auto].
Qed.

(** ** Removing files *)
Definition drops (opened : list N) (flt : entry -> bool) (e : entry) : bool :=
  flt e && negb (existsb (fun x => x =? e_id e) opened).
Definition keeps (opened : list N) (flt : entry -> bool) (e : entry) : bool := negb (drops opened flt e).
Definition count_if {A} (P : A -> bool) (l : list A) : N := N.of_nat (length (filter P l)).

(** the chains of the entries satisfying [P] *)
Fixpoint chains_of (P : entry -> bool) (ents : list entry) (L : list (list N)) : list (list N) :=
  match ents, L with
  | e :: es, l :: Ls => if P e then l :: chains_of P es Ls else chains_of P es Ls
  | _, _ => []
  end.
Definition chains (f : flash) (ents : list entry) (L : list (list N)) : Prop :=
  Forall2 (fun e l => chain f (e_first e) l) ents L.
Definition owned (L : list (list N)) : N -> Prop := fun x => In x (concat L).

Lemma chains_same f g ents L : chains f ents L -> (forall x, owned L x -> sector_same f g x) -> chains g ents L.
Proof.
  induction 1 as [|e l es Ls He Hes IH]; intros Hs; [constructor|]. constructor.
  - eapply chain_same; [exact He|]. intros x Hx. apply Hs. unfold owned. cbn [concat]. apply in_or_app; auto.
  - apply IH. intros x Hx. apply Hs. unfold owned. cbn [concat]. apply in_or_app; auto.
Qed.

Lemma chains_data f ents L : chains f ents L -> Forall data_sector (concat L).
Proof.
  induction 1 as [|e l es Ls He Hes IH]; [constructor|]. cbn [concat]. apply Forall_app. split; [|auto].
  eapply chain_data; eauto.
Qed.

Lemma chains_fun f ents L L' : chains f ents L -> chains f ents L' -> L = L'.
Proof.
  intros H. revert L'. induction H as [|e l es Ls He Hes IH]; intros L' H'; inversion H'; subst; [auto|].
  f_equal; [eapply chain_fun; eauto|]. apply IH; auto.
Qed.

Lemma dkeep_same s s' x : dkeep s s' -> data_sector x -> sector_same (fl s) (fl s') x.
Proof. intros H Hd a Ha. apply H. eapply data_addr; eauto. Qed.

Lemma dkeep_chains s s' ents L : dkeep s s' -> chains (fl s) ents L -> chains (fl s') ents L.
Proof.
  intros H Hc. pose proof (chains_data _ _ _ Hc) as Hd. rewrite Forall_forall in Hd.
  eapply chains_same; [exact Hc|]. intros x Hx. apply dkeep_same; auto.
Qed.

Lemma chains_filter f P ents L : chains f ents L -> chains f (filter P ents) (chains_of P ents L).
Proof.
  induction 1 as [|e l es Ls He Hes IH]; cbn [filter chains_of]; [constructor|].
  destruct (P e); [constructor; auto|auto].
Qed.

Lemma chains_of_in P ents : forall L x, In x (concat (chains_of P ents L)) -> In x (concat L).
Proof.
  induction ents as [|e es IH]; intros L x; destruct L as [|l L]; cbn [chains_of concat]; auto; try contradiction.
  destruct (P e); cbn [concat]; rewrite ?in_app_iff; intros H; [destruct H; auto|]; right; eauto.
Qed.

Lemma nodup_app_iff {A} (a b : list A) : NoDup (a ++ b) <-> NoDup a /\ NoDup b /\ forall x, In x a -> ~ In x b.
Proof.
  induction a as [|x a IH]; cbn [app].
  - split; [intros H; repeat split; auto; constructor|tauto].
  - rewrite !NoDup_cons_iff, IH, in_app_iff. cbn [In]. split.
    + intros (P & Q & R & S). repeat split; auto. intros y [<-|Hy]; auto.
    + intros ((P & Q) & R & S). repeat split; auto. intros [C|C]; [auto|]. apply (S x); auto.
Qed.

Lemma chains_of_nodup P ents : forall L, NoDup (concat L) -> NoDup (concat (chains_of P ents L)).
Proof.
  induction ents as [|e es IH]; intros L H; destruct L as [|l L]; cbn [chains_of concat]; try constructor.
  cbn [concat] in H. apply nodup_app_iff in H. destruct H as (H1 & H2 & H3).
  destruct (P e); [|auto]. cbn [concat]. apply nodup_app_iff. split; [auto|]. split; [auto|].
  intros x Hx Hy. apply (H3 x Hx). eapply chains_of_in; eauto.
Qed.

(** what remains owned after dropping *)
Lemma owned_split P ents : forall L, length L = length ents -> NoDup (concat L) ->
  forall x, owned (chains_of (fun e => negb (P e)) ents L) x <-> minus (owned L) (concat (chains_of P ents L)) x.
Proof.
  unfold owned, minus. induction ents as [|e es IH]; intros L HL Hn x; destruct L as [|l L]; try discriminate.
  - cbn. tauto.
  - cbn [chains_of concat]. cbn [concat] in Hn. apply nodup_app_iff in Hn. destruct Hn as (H1 & H2 & H3).
    injection HL as HL. specialize (IH L HL H2 x). destruct (P e); cbn [negb concat]; rewrite ?in_app_iff, ?IH.
    + split; [|tauto]. intros [A B]. split; [auto|]. intros [C|C]; [|auto]. apply (H3 x C A).
    + split; [|tauto]. intros [A|[A B]]; [|tauto]. split; [auto|]. intros C. apply (H3 x A). eapply chains_of_in; eauto.
Qed.

Lemma forall2_length {A B} (R : A -> B -> Prop) l l' : Forall2 R l l' -> length l = length l'.
Proof. induction 1; cbn [length]; congruence. Qed.

Section Remove.
  Variables (te : bool) (s0 : fs) (H : N -> Prop) (p seq mx : N) (ents : list entry).
  Hypotheses (HR : Rep (fl s0) p seq ents mx) (Hseq : seq + 1 < 2 ^ 64).
  Variable flt : entry -> bool.

  Lemma remove_loop_spec rest : forall fuel s b r D m Hs L rem kept, BInv te s0 H p seq s b r D m -> b_fin b = false ->
    skipn r ents = rest -> (r <= length ents)%nat -> (length rest < fuel)%nat -> (length D + length rest < slot_blocks)%nat ->
    chains (fl s) rest L -> NoDup (concat L) -> AllocInv s Hs -> (forall x, owned L x -> Hs x) ->
    let dr := drops (a_open (atb s)) flt in
    let kp := keeps (a_open (atb s)) flt in
    exists s' b', remove_loop fuel flt b rem kept s =
        (s', Ok (b', (rem + count_if dr rest, kept + count_if (fun e => flt e && kp e) rest))) /\
      BInv te s0 H p seq s' b' (S (length ents)) (D ++ filter kp rest) (maxid m (filter kp rest)) /\
      AllocInv s' (minus Hs (concat (chains_of dr rest L))) /\ atb s' = atb s /\ dkeep s s'.
  Proof.
    induction rest as [|e rest IH]; intros fuel s b r D m Hs L rem kept HB Hf Hsk Hr Hfu Hc HC HN HA Hin dr kp;
      destruct fuel as [|fuel]; try (cbn in Hfu; lia); cbn [remove_loop];
      destruct (read_next_spec te s0 H p seq mx ents HR Hseq s b r D m HB Hf Hr) as (b1 & E1 & B1 & F1);
      rewrite (bind_ok _ _ _ _ _ E1); inversion HC as [|e' l es Ls He Hes]; subst.
    - assert (En : nth_error ents r = None).
      { apply nth_error_None. assert (length (skipn r ents) = 0%nat) by (rewrite Hsk; auto). rewrite skipn_length in *. lia. }
      rewrite En. assert (r = length ents).
      { apply nth_error_None in En. lia. } subst r.
      exists s, b1. split; [unfold count_if; cbn [filter length]; rewrite !N.add_0_r; reflexivity|].
      cbn [filter maxid fold_left]. rewrite app_nil_r. split; [exact B1|].
      split; [eapply ai_ext; [|exact HA]; intros y; unfold minus; cbn; tauto|]. split; [auto|apply dkeep_refl].
    - assert (En : nth_error ents r = Some e).
      { rewrite <- (firstn_skipn r ents), Hsk, nth_error_app2 by (rewrite firstn_length; lia).
        rewrite firstn_length. replace (r - Nat.min r (length ents))%nat with 0%nat by lia. reflexivity. }
      assert (Hlt : (r < length ents)%nat) by (apply nth_error_Some; congruence).
      assert (Hsk' : skipn (S r) ents = rest).
      { replace (S r) with (r + 1)%nat by lia. rewrite <- skipn_skipn_add, Hsk. reflexivity. }
      rewrite En in F1. rewrite En.
      cbn [concat] in HN. apply nodup_app_iff in HN. destruct HN as (HN1 & HN2 & HN3).
      cbn [length] in Hfu, Hc.
      (* keeping an entry *)
      assert (Keep : forall kept', exists s' b', (b <- b_write b1 e;; remove_loop fuel flt b rem kept') s =
           (s', Ok (b', (rem + count_if dr rest, kept' + count_if (fun e => flt e && kp e) rest))) /\
           BInv te s0 H p seq s' b' (S (length ents)) (D ++ e :: filter kp rest) (maxid m (e :: filter kp rest)) /\
           AllocInv s' (minus Hs (concat (chains_of dr rest Ls))) /\ atb s' = atb s /\ dkeep s s').
      { intros kept'. destruct (write_spec te s0 H p seq Hseq s b1 (S r) D m e B1) as (s2 & b2 & E2 & B2 & F2 & M2 & A2 & K2); [lia|].
        rewrite (bind_ok _ _ _ _ _ E2).
        destruct (IH fuel s2 b2 (S r) (D ++ [e]) (N.max m (e_id e)) Hs Ls rem kept' B2) as (s3 & b3 & E3 & B3 & A3 & T3 & K3).
        - rewrite F2, F1. reflexivity.
        - auto.
        - lia.
        - lia.
        - rewrite app_length. cbn [length]. lia.
        - eapply dkeep_chains; eauto.
        - auto.
        - apply (binv_keep s s2 I); auto.
        - intros x Hx. apply Hin. unfold owned. cbn [concat]. apply in_or_app; auto.
        - rewrite A2 in *. exists s3, b3. split; [exact E3|]. rewrite <- app_assoc in B3. cbn [app] in B3.
          split; [exact B3|]. split; [exact A3|]. split; [auto|]. eapply dkeep_trans; eauto. }
      cbn [chains_of filter]. unfold count_if in *. cbn [filter].
      destruct (flt e) eqn:Ef.
      + rewrite bind_get. change (is_opened (atb s) (e_id e)) with (existsb (fun x => x =? e_id e) (a_open (atb s))).
        destruct (existsb (fun x => x =? e_id e) (a_open (atb s))) eqn:Eo.
        * assert (Ed : dr e = false) by (unfold dr, drops; rewrite Ef, Eo; reflexivity).
          assert (Ek : kp e = true) by (unfold kp, keeps; fold dr; rewrite Ed; reflexivity).
          rewrite Ed, Ek. cbn [andb length]. destruct (Keep (kept + 1)) as (s' & b' & E' & R').
          exists s', b'. split; [|exact R']. rewrite E', Nat2N.inj_succ. do 4 f_equal. lia.
        * assert (Ed : dr e = true) by (unfold dr, drops; rewrite Ef, Eo; reflexivity).
          assert (Ek : kp e = false) by (unfold kp, keeps; fold dr; rewrite Ed; reflexivity).
          rewrite Ed, Ek. cbn [andb length].
          destruct (release_spec l chain_fuel (e_first e) s Hs He HN1 HA) as (s2 & E2 & A2 & F2 & L2 & T2).
          { intros x Hx. apply Hin. unfold owned. cbn [concat]. apply in_or_app; auto. }
          { apply chain_fuel_big; [auto|]. eapply chain_data; eauto. }
          unfold release_file_sectors. rewrite (bind_ok _ _ _ _ _ E2).
          assert (B2 : BInv te s0 H p seq s2 b1 (S r) D m) by (apply (binv_same te s0 H p seq s s2); auto).
          destruct (IH fuel s2 b1 (S r) D m (minus Hs l) Ls (rem + 1) kept B2 F1 Hsk') as (s3 & b3 & E3 & B3 & A3 & T3 & K3).
          -- lia.
          -- lia.
          -- lia.
          -- rewrite F2. auto.
          -- auto.
          -- auto.
          -- intros x Hx. split; [apply Hin; unfold owned; cbn [concat]; apply in_or_app; auto|].
             intros Hl. apply (HN3 x Hl Hx).
          -- rewrite T2 in *. fold dr kp in E3, B3, A3. exists s3, b3. split.
             { rewrite E3, Nat2N.inj_succ. do 4 f_equal. lia. }
             split; [exact B3|]. split; [|split; [congruence|]].
             { eapply ai_ext; [|exact A3]. intros y. unfold minus. cbn [concat]. rewrite in_app_iff. tauto. }
             { intros x Hx. rewrite (K3 x Hx), F2. reflexivity. }
      + assert (Ed : dr e = false) by (unfold dr, drops; rewrite Ef; reflexivity).
        assert (Ek : kp e = true) by (unfold kp, keeps; fold dr; rewrite Ed; reflexivity).
        rewrite Ed, Ek. cbn [andb]. apply Keep.
  Qed.
End Remove.

Theorem remove_files_spec te H s p seq ents mx flt L : Dir s p seq ents mx -> seq + 1 < 2 ^ 64 ->
  chains (fl s) ents L -> NoDup (concat L) -> AllocInv s H -> (forall x, owned L x -> H x) ->
  let dr := drops (a_open (atb s)) flt in
  let kp := keeps (a_open (atb s)) flt in
  exists s', remove_files flt s = (s', Ok (count_if dr ents, count_if (fun e => flt e && kp e) ents)) /\
    Updated te H s s' p seq (filter kp ents) (maxid mx (filter kp ents)) /\
    AllocInv s' (minus H (concat (chains_of dr ents L))) /\ dkeep s s'.
Proof.
  intros [R A] Hs HC HN HA Hin dr kp. pose proof (ta_cap _ _ _ _ _ (rp_tab _ _ _ _ _ R)) as Hcap. unfold remove_files.
  destruct (new_spec te s H p seq mx ents Hs A) as (s1 & b1 & E1 & B1 & F1 & M1 & K1 & A1).
  rewrite (bind_ok _ _ _ _ _ E1).
  destruct (remove_loop_spec te s H p seq mx ents R Hs flt ents loop_fuel s1 b1 0 [] mx H L 0 0 B1 F1 eq_refl)
    as (s2 & b2 & E2 & B2 & A2 & T2 & K2); auto.
  { lia. } { apply loop_fuel_big; auto. } { eapply dkeep_chains; eauto. } { apply (binv_keep s s1 I); auto. }
  rewrite A1 in *. cbn [a_open] in *. fold dr kp in E2, B2, A2. cbn [app] in B2.
  destruct (commit_spec te s H p seq Hs s2 b2 (S (length ents)) _ _ B2) as (s3 & E3 & T3 & S3 & M3 & K3 & A3).
  { eapply Nat.le_lt_trans; [|exact Hcap]. clear. induction ents as [|e l IH]; cbn [filter length]; [lia|].
    destruct (kp e); cbn [length]; lia. }
  exists s3. split; [|split; [|split]].
  - apply in_builder_ok. rewrite (bind_ok _ _ _ _ _ E2). cbv beta iota. rewrite (bind_ok _ _ _ _ _ E3).
    rewrite !N.add_0_l. reflexivity.
  - constructor; [exact T3|exact S3|]. rewrite A3, T2. cbn [a_seq a_pos a_open]. reflexivity.
  - apply (binv_keep s2 s3 I); auto.
  - eapply dkeep_trans; [exact K1|]. eapply dkeep_trans; eauto.
Qed.

(** ** Boot *)
Lemma claim_loop_spec : forall l fuel o s H, chain (fl s) o l -> AllocInv s H -> ahead (sm s) = [] -> aahead (sm s) = [] ->
  (length l < fuel)%nat ->
  exists s', claim_loop fuel o s = (s', Ok tt) /\ AllocInv s' (fun y => H y \/ In y l) /\
    fl s' = fl s /\ lg s' = lg s /\ atb s' = atb s /\ ahead (sm s') = [] /\ aahead (sm s') = [].
Proof.
  induction l as [|x l IH]; intros fuel o s H Hc HA Ha Hb Hf; inversion Hc as [|x' n l' Hd Hnx Hc']; subst.
  - exists s. split; [destruct fuel; reflexivity|]. split; [|auto 10].
    eapply ai_ext; [|exact HA]. intros y. cbn [In]. tauto.
  - destruct fuel as [|fuel]; [cbn in Hf; lia|]. cbn [claim_loop].
    destruct (claim_sector_spec s H x HA Hd) as (s1 & E1 & A1 & F1 & L1 & T1 & P1 & Q1); [rewrite Ha, Hb; auto|].
    rewrite (bind_ok _ _ _ _ _ E1), bind_get, F1, Hnx. rewrite <- F1 in Hc'.
    destruct (IH fuel (link n) s1 (add H x) Hc' A1) as (s2 & E2 & A2 & F2 & L2 & T2 & P2 & Q2); try congruence.
    { cbn [length] in Hf. lia. }
    exists s2. split; [exact E2|]. split; [|split; [congruence|split; [congruence|split; [congruence|auto]]]].
    eapply ai_ext; [|exact A2]. intros y. unfold add. cbn [In]. intuition.
Qed.

Lemma claim_chains_spec : forall ents L s H, chains (fl s) ents L -> Forall (@NoDup N) L -> AllocInv s H -> ahead (sm s) = [] -> aahead (sm s) = [] ->
  exists s', claim_chains ents s = (s', Ok tt) /\ AllocInv s' (fun y => H y \/ owned L y) /\
    fl s' = fl s /\ lg s' = lg s /\ atb s' = atb s /\ ahead (sm s') = [] /\ aahead (sm s') = [].
Proof.
  induction ents as [|e es IH]; intros L s H HC HN HA Ha Hb; inversion HC as [|e' l es' Ls He Hes]; subst; cbn [claim_chains].
  - exists s. split; [reflexivity|]. split; [|auto]. eapply ai_ext; [|exact HA]. intros y. unfold owned. cbn. tauto.
  - inversion HN; subst.
    destruct (claim_loop_spec l chain_fuel (e_first e) s H He HA Ha Hb) as (s1 & E1 & A1 & F1 & L1 & T1 & P1 & Q1).
    { apply chain_fuel_big; auto. eapply chain_data; eauto. }
    rewrite (bind_ok _ _ _ _ _ E1). rewrite <- F1 in Hes.
    destruct (IH Ls s1 _ Hes ltac:(auto) A1 P1 Q1) as (s2 & E2 & A2 & F2 & L2 & T2 & P2 & Q2).
    exists s2. split; [exact E2|]. split; [|split; [congruence|split; [congruence|split; [congruence|auto]]]].
    eapply ai_ext; [|exact A2]. intros y. unfold owned. cbn [concat]. rewrite in_app_iff. tauto.
Qed.

Lemma nodup_concat {A} (L : list (list A)) : NoDup (concat L) -> Forall (@NoDup A) L.
Proof.
  induction L as [|l L IH]; intros H; [constructor|]. cbn [concat] in H. apply nodup_app_iff in H.
  destruct H as (A1 & B1 & _). constructor; auto.
Qed.

Lemma filter_true {A} (l : list A) : filter (fun _ => true) l = l.
Proof. induction l; cbn [filter]; congruence. Qed.

Theorem boot_spec f r p seq ents mx L : Rep f p seq ents mx -> chains f ents L -> NoDup (concat L) ->
  exists s, boot f r = (s, Ok tt) /\ Dir s p seq ents mx /\ AllocInv s (owned L) /\
    fl s = f /\ lg s = [] /\ a_open (atb s) = [] /\ ahead (sm s) = [] /\ aahead (sm s) = [].
Proof.
  intros R HC HN. unfold boot, init. rewrite bind_get. cbn [boot_state fl atb].
  rewrite (rep_read_latest _ _ _ _ _ R). rewrite bind_modify.
  set (s1 := set_at (boot_state f r) (mkAT seq (N.of_nat (length ents)) mx p [])).
  assert (D1 : Dir s1 p seq ents mx) by (constructor; [exact R|reflexivity]).
  unfold read_free_sectors. rewrite bind_get, (files_iter_spec s1 p seq ents mx _ D1), filter_true.
  destruct (claim_chains_spec ents L s1 (fun _ => False)) as (s2 & E2 & A2 & F2 & L2 & T2 & P2 & Q2); auto.
  { apply nodup_concat; auto. } { apply alloc_new. }
  exists s2. split; [exact E2|]. split; [|split; [|split; [auto|split; [auto|split; [rewrite T2; reflexivity|auto]]]]].
  - constructor; [rewrite F2; exact R|]. rewrite T2. reflexivity.
  - eapply ai_ext; [|exact A2]. cbn. tauto.
Qed.

(** * Specifications of the directory operations and of boot *)
From Coq Require Import Sorted.
From Verif Require Import Base Hamming HammingProofs Flash FS Sectors SectorsProofs ATable TornCode TableCode TableScan TableBuild TableOps.
Local Open Scope N_scope.
Local Open Scope fs_scope.

Global Opaque loop_fuel chain_fuel.
Lemma loop_fuel_big n : (n < slot_blocks)%nat -> (n < loop_fuel)%nat.
Proof. Transparent loop_fuel. unfold loop_fuel, slot_blocks. Opaque loop_fuel. lia. Qed.

(** ** The directory as seen by the program and on flash *)
Record Dir (s : fs) (p seq : N) (ents : list entry) (mx : N) : Prop := {
  dr_rep : Rep (fl s) p seq ents mx;
  dr_at : atb s = mkAT seq (N.of_nat (length ents)) mx p (a_open (atb s)) }.

(** A completed update: what a crash during it can leave, what it leaves itself. *)
Record Updated (te : bool) (H : N -> Prop) (s0 s : fs) (p seq : N) (D : list entry) (m : N) : Prop := {
  up_tr : traced te s0 s (mid_update te (next_slot p) H (fl s0) (image (seq + 1) D m));
  up_slot : slot_holds (fl s) (next_slot p * 32768) (image (seq + 1) D m);
  up_at : atb s = mkAT (seq + 1) (N.of_nat (length D)) m (next_slot p) (a_open (atb s0)) }.

Lemma updated_dir te H s0 s p seq ents mx D m : Dir s0 p seq ents mx -> seq + 1 < 2 ^ 64 -> dir_ok D m ->
  Updated te H s0 s p seq D m ->
  Dir s (next_slot p) (seq + 1) D m /\ clean (fl s) (next_slot p) (seq + 1) /\ a_open (atb s) = a_open (atb s0).
Proof.
  intros [R A] Hs Hd [T S E]. pose proof (traced_fl _ _ _ _ T) as Hm.
  destruct (completed_update te _ _ _ _ _ _ _ _ _ R Hs Hd Hm S) as [R' C']. split; [|split; [auto|]].
  - constructor; [exact R'|]. rewrite E. reflexivity.
  - rewrite E. reflexivity.
Qed.

Lemma in_builder_ok {A} (m : M A) s s' a : m s = (s', Ok a) -> in_builder m s = (s', Ok a).
Proof. intros E. unfold in_builder. rewrite E. reflexivity. Qed.

Lemma dir_ok_app ents mx e m : dir_ok ents mx -> entry_ok e -> is_footer e = false ->
  (length ents + 1 < slot_blocks)%nat -> m < 2 ^ 64 -> dir_ok (ents ++ [e]) m.
Proof.
  intros (A & B & C & D) He Hf Hl Hm. split; [apply Forall_app; auto|]. split; [apply Forall_app; auto|].
  split; [|auto]. rewrite app_length. cbn [length]. lia.
Qed.

(** ** Creating a file *)
Definition new_entry (ents : list entry) (mx typ : N) (first : option N) : entry :=
  mkE (maxid mx ents + 1) typ first.

Theorem create_spec te H s p seq ents mx typ : Dir s p seq ents mx -> seq + 1 < 2 ^ 64 ->
  (length ents + 1 < slot_blocks)%nat -> maxid mx ents + 1 < 2 ^ 64 ->
  exists s', create_file typ s = (s', Ok (new_entry ents mx typ None)) /\
    Updated te H s s' p seq (ents ++ [new_entry ents mx typ None]) (maxid mx ents + 1) /\
    sm s' = sm s /\ dkeep s s'.
Proof.
  intros [R A] Hs Hl Hm. unfold create_file.
  destruct (new_spec te s H p seq mx ents Hs A) as (s1 & b1 & E1 & B1 & F1 & M1 & K1 & A1).
  rewrite (bind_ok _ _ _ _ _ E1).
  destruct (copy_loop te s H p seq mx ents R Hs ents loop_fuel s1 b1 0 [] mx B1 F1 eq_refl) as (s2 & b2 & E2 & B2 & M2 & A2 & K2).
  { lia. } { apply loop_fuel_big. lia. } { cbn [length]. lia. }
  cbn [app] in B2.
  assert (Em : b_max b2 = maxid mx ents) by apply (bi_max _ _ _ _ _ _ _ _ _ _ B2).
  set (b2' := mkB (b_cur b2) (b_cache b2) (b_ri b2) (b_fin b2) (b_pb b2) (b_count b2) (b_max b2 + 1)).
  assert (B2' : BInv te s H p seq s2 b2' (S (length ents)) ents (maxid mx ents + 1)).
  { destruct B2 as [X1 X2 X3 X4 X5 X6]. constructor; auto. cbn [b2' b_max]. lia. }
  destruct (write_spec te s H p seq Hs s2 b2' (S (length ents)) ents (maxid mx ents + 1) (new_entry ents mx typ None) B2')
    as (s3 & b3 & E3 & B3 & F3 & M3 & A3 & K3); [lia|].
  assert (Emx : N.max (maxid mx ents + 1) (e_id (new_entry ents mx typ None)) = maxid mx ents + 1) by (cbn [new_entry e_id]; lia).
  rewrite Emx in B3.
  destruct (commit_spec te s H p seq Hs s3 b3 (S (length ents)) _ _ B3) as (s4 & E4 & T4 & S4 & M4 & K4 & A4).
  { rewrite app_length. cbn [length]. lia. }
  exists s4. split.
  - apply in_builder_ok. rewrite (bind_ok _ _ _ _ _ E2).
    unfold b_write_new_file, b_new_id, guard. rewrite Em.
    destruct (N.ltb_spec (maxid mx ents) (2 ^ 64 - 1)) as [_|C]; [|lia].
    unfold b2', new_entry in E3. rewrite Em in E3. unfold bind, ret. cbv beta iota. rewrite E3, E4. reflexivity.
  - split; [|split].
    + constructor; [exact T4|exact S4|]. rewrite A4, A3, A2, A1. cbn [a_seq a_pos a_open]. reflexivity.
    + congruence.
    + eapply dkeep_trans; [exact K1|]. eapply dkeep_trans; [exact K2|]. eapply dkeep_trans; [exact K3|exact K4].
Qed.

(** ** Creating a file and opening it: also claims a sector *)
Theorem create_open_spec te H s p seq ents mx typ : Dir s p seq ents mx -> seq + 1 < 2 ^ 64 ->
  (length ents + 1 < slot_blocks)%nat -> maxid mx ents + 1 < 2 ^ 64 -> AllocInv s H ->
  (exists s' x, create_file_and_open_for_write typ s = (s', Ok (new_entry ents mx typ (Some x), x)) /\
    Updated te H s s' p seq (ents ++ [new_entry ents mx typ (Some x)]) (maxid mx ents + 1) /\
    AllocInv s' (add H x) /\ ~ H x /\ data_sector x /\ sector_erased (fl s') x /\
    (exists s1, traced te s s1 (mid_update te (next_slot p) H (fl s) (written seq ents)) /\ sector_erased (fl s1) x /\
       traced te s1 s' (mid_update te (next_slot p) (add H x) (fl s1) (image (seq + 1) (ents ++ [new_entry ents mx typ (Some x)]) (maxid mx ents + 1)))) /\
    (forall y, H y -> sector_same (fl s) (fl s') y)) \/
  ((exists s', create_file_and_open_for_write typ s = (s', Panic) /\
      traced te s s' (mid_update te (next_slot p) H (fl s) (written seq ents))) /\ (forall x, data_sector x -> H x)).
Proof.
  intros [R A] Hs Hl Hm HA. unfold create_file_and_open_for_write.
  destruct (new_spec te s H p seq mx ents Hs A) as (s1 & b1 & E1 & B1 & F1 & M1 & K1 & A1).
  rewrite (bind_ok _ _ _ _ _ E1).
  destruct (copy_loop te s H p seq mx ents R Hs ents loop_fuel s1 b1 0 [] mx B1 F1 eq_refl) as (s2 & b2 & E2 & B2 & M2 & A2 & K2).
  { lia. } { apply loop_fuel_big. lia. } { cbn [length]. lia. }
  cbn [app] in B2.
  assert (Em : b_max b2 = maxid mx ents) by apply (bi_max _ _ _ _ _ _ _ _ _ _ B2).
  set (b2' := mkB (b_cur b2) (b_cache b2) (b_ri b2) (b_fin b2) (b_pb b2) (b_count b2) (b_max b2 + 1)).
  assert (HA2 : AllocInv s2 H).
  { apply (binv_keep s s2 I); auto; [|congruence]. eapply dkeep_trans; eauto. }
  destruct (claim_spec s2 H HA2) as [(s3 & x & E3 & HA3 & Hx & Hd & He & Hfr)|(E3 & Hfull)].
  2:{ right. split; [|auto]. exists s2. split; [|apply (wi_tr _ _ _ _ _ _ _ (bi_w _ _ _ _ _ _ _ _ _ _ B2))].
      unfold in_builder. rewrite (bind_ok _ _ _ _ _ E2).
      unfold b_write_new_file_and_open, b_new_id, guard. rewrite Em.
      destruct (N.ltb_spec (maxid mx ents) (2 ^ 64 - 1)) as [_|C]; [|lia].
      unfold bind, ret. cbv beta iota. rewrite E3. reflexivity. }
  assert (B2' : BInv te s H p seq s3 b2' (S (length ents)) ents (maxid mx ents + 1)).
  { apply (binv_alloc te s H p seq s2 s3 H); auto.
    destruct B2 as [X1 X2 X3 X4 X5 X6]. constructor; auto. cbn [b2' b_max]. lia. }
  set (e := new_entry ents mx typ (Some x)).
  destruct (write_spec te s H p seq Hs s3 b2' (S (length ents)) ents (maxid mx ents + 1) e B2')
    as (s4 & b4 & E4 & B4 & F4 & M4 & A4 & K4); [lia|].
  assert (Emx : N.max (maxid mx ents + 1) (e_id e) = maxid mx ents + 1) by (cbn [e new_entry e_id]; lia).
  rewrite Emx in B4.
  destruct (commit_spec te s H p seq Hs s4 b4 (S (length ents)) _ _ B4) as (s5 & E5 & T5 & S5 & M5 & K5 & A5).
  { rewrite app_length. cbn [length]. lia. }
  assert (BX : BInv te s3 (add H x) p seq s3 b2' (S (length ents)) ents (maxid mx ents + 1)).
  { destruct B2' as [X1 X2 X3 X4 X5 X6]. constructor; auto.
    - destruct X1 as [Y1 Y2 (k & Y3 & Y4 & Y5)]. constructor; auto; [|exists k; auto]. apply traced_refl.
      split; [intros z _ _; reflexivity|]. split; [intros z _ _ a _; reflexivity|]. right. exists (256 * k)%nat. exact Y5.
    - intros Hr j Hj Hjs. rewrite (X4 Hr j Hj Hjs). apply rd_ext. intros i Hi. symmetry.
      apply (cur_slot_same te s H p seq mx ents R s3 _ _ X1). unfold in_slot, slot_blocks in *. lia. }
  destruct (write_spec te s3 (add H x) p seq Hs s3 b2' (S (length ents)) ents (maxid mx ents + 1) e BX)
    as (s4' & b4' & E4' & B4' & _); [lia|].
  rewrite E4 in E4'. injection E4' as <- <-. rewrite Emx in B4'.
  destruct (commit_spec te s3 (add H x) p seq Hs s4 b4 (S (length ents)) _ _ B4') as (s5' & E5' & T5' & _).
  { rewrite app_length. cbn [length]. lia. }
  rewrite E5 in E5'. injection E5' as <-.
  left. exists s5, x. split.
  - apply in_builder_ok. rewrite (bind_ok _ _ _ _ _ E2).
    unfold b_write_new_file_and_open, b_new_id, guard. rewrite Em.
    destruct (N.ltb_spec (maxid mx ents) (2 ^ 64 - 1)) as [_|C]; [|lia].
    unfold b2', e, new_entry in E4. rewrite Em in E4. unfold bind, ret. cbv beta iota. rewrite E3, E4, E5. reflexivity.
  - destruct Hfr as [A3 _]. split; [|split; [|split; [auto|split; [auto|]]]].
    + constructor; [exact T5|exact S5|]. rewrite A5, A4, A3, A2, A1. cbn [a_seq a_pos a_open]. reflexivity.
    + apply (binv_keep s3 s5 I); auto; [|congruence]. eapply dkeep_trans; eauto.
    + split; [intros a Ha; rewrite (dkeep_trans _ _ _ K4 K5); [auto|]; eapply data_addr; eauto|]. split.
      * exists s3. split; [|split; [auto|exact T5']]. apply (wi_tr _ _ _ _ _ _ _ (bi_w _ _ _ _ _ _ _ _ _ _ B2')).
      * intros y Hy. pose proof (traced_fl _ _ _ _ T5) as (_ & Hds & _). apply Hds; auto. apply (ai_held _ _ HA); auto.
Qed.

(** ** The counters are exhausted: the program panics *)
Lemma new_overflow {A} s p seq (k : builder -> M A) c mx op : atb s = mkAT seq c mx p op -> 2 ^ 64 <= seq + 1 ->
  (b <- at_builder_new ;; k b) s = (s, Panic).
Proof.
  intros E Hs. unfold bind at 1. unfold at_builder_new. rewrite bind_get, E. cbn [a_seq]. unfold guard.
  destruct (N.ltb_spec seq (2 ^ 64 - 1)) as [C|_]; [lia|]. reflexivity.
Qed.

Theorem create_overflow te H s p seq ents mx typ : Dir s p seq ents mx -> seq + 1 < 2 ^ 64 ->
  (length ents + 1 < slot_blocks)%nat -> 2 ^ 64 <= maxid mx ents + 1 ->
  (exists s', create_file typ s = (s', Panic) /\ traced te s s' (mid_update te (next_slot p) H (fl s) (written seq ents))) /\
  (exists s', create_file_and_open_for_write typ s = (s', Panic) /\ traced te s s' (mid_update te (next_slot p) H (fl s) (written seq ents))).
Proof.
  intros [R A] Hs Hl Hm.
  destruct (new_spec te s H p seq mx ents Hs A) as (s1 & b1 & E1 & B1 & F1 & M1 & K1 & A1).
  destruct (copy_loop te s H p seq mx ents R Hs ents loop_fuel s1 b1 0 [] mx B1 F1 eq_refl) as (s2 & b2 & E2 & B2 & M2 & A2 & K2).
  { lia. } { apply loop_fuel_big. lia. } { cbn [length]. lia. }
  cbn [app] in B2.
  assert (Em : b_max b2 = maxid mx ents) by apply (bi_max _ _ _ _ _ _ _ _ _ _ B2).
  split; exists s2; (split; [|apply (wi_tr _ _ _ _ _ _ _ (bi_w _ _ _ _ _ _ _ _ _ _ B2))]).
  - unfold create_file. rewrite (bind_ok _ _ _ _ _ E1). unfold in_builder. rewrite (bind_ok _ _ _ _ _ E2).
    unfold b_write_new_file, b_new_id, guard. rewrite Em.
    destruct (N.ltb_spec (maxid mx ents) (2 ^ 64 - 1)) as [C|_]; [lia|]. reflexivity.
  - unfold create_file_and_open_for_write. rewrite (bind_ok _ _ _ _ _ E1). unfold in_builder. rewrite (bind_ok _ _ _ _ _ E2).
    unfold b_write_new_file_and_open, b_new_id, guard. rewrite Em.
    destruct (N.ltb_spec (maxid mx ents) (2 ^ 64 - 1)) as [C|_]; [lia|]. reflexivity.
Qed.

(** ** Lookup *)
Definition sorted_ids (ents : list entry) : Prop := StronglySorted (fun a b => e_id a < e_id b) ents.

Lemma sorted_nth ents : sorted_ids ents -> forall i j a b, (i < j)%nat ->
  nth_error ents i = Some a -> nth_error ents j = Some b -> e_id a < e_id b.
Proof.
  induction 1 as [|x l Hs IH Hf]; intros i j a b Hij Ha Hb; [destruct i; discriminate|].
  destruct j as [|j]; [lia|]. destruct i as [|i].
  - injection Ha as <-. rewrite Forall_forall in Hf. apply Hf. eapply nth_error_In; eauto.
  - apply (IH i j); auto. lia.
Qed.

Lemma entry_addr p seq c m op i : address_of_file_entry (mkAT seq c m p op) i = p * 32768 + 13 + 13 * i.
Proof. unfold address_of_file_entry, at_address. cbn [a_pos]. lia. Qed.

Lemma bsearch_spec f p seq ents mx op id : Rep f p seq ents mx -> sorted_ids ents ->
  forall fuel l r, (N.to_nat (r - l) < fuel)%nat -> l <= r -> r < N.of_nat (length ents) ->
  (forall i e, nth_error ents i = Some e -> N.of_nat i < l -> e_id e < id) ->
  (forall i e, nth_error ents i = Some e -> r < N.of_nat i -> id < e_id e) ->
  exists o, bsearch fuel f (mkAT seq (N.of_nat (length ents)) mx p op) id l r = Ok o /\
    match o with
    | Some (e, i) => nth_error ents (N.to_nat i) = Some e /\ e_id e = id
    | None => forall e, In e ents -> e_id e <> id
    end.
Proof.
  intros R Hsort. pose proof (rp_tab _ _ _ _ _ R) as T. pose proof (ta_cap _ _ _ _ _ T) as Hcap.
  assert (Rd : forall i, i < N.of_nat (length ents) -> exists e,
     nth_error ents (N.to_nat i) = Some e /\ read_entry_at f (p * 32768 + 13 + 13 * i) = Some e).
  { intros i Hi. destruct (nth_error ents (N.to_nat i)) as [e|] eqn:En.
    - exists e. split; [auto|]. rewrite <- (ta_ents _ _ _ _ _ T _ _ En). f_equal. lia.
    - apply nth_error_None in En. lia. }
  induction fuel as [|fuel IH]; intros l r Hf Hlr Hr Hlo Hhi; [lia|].
  cbn [bsearch]. destruct (N.ltb_spec l r) as [Hlt|Hge].
  - destruct (N.leb_spec 65536 (l + r)) as [C|_]; [unfold slot_blocks in Hcap; lia|].
    rewrite entry_addr. set (mid := (l + r) / 2).
    assert (Hmid : l <= mid < r).
    { unfold mid. split; [apply N.div_le_lower_bound; lia|apply N.div_lt_upper_bound; lia]. }
    destruct (Rd mid) as (e & En & Er); [lia|]. rewrite Er.
    destruct (N.ltb_spec (e_id e) id) as [H1|H1].
    + apply IH; try lia; auto.
      intros i e' En' Hi. destruct (N.eq_dec (N.of_nat i) mid) as [Ei|Ni].
      * replace (N.to_nat mid) with i in En by lia. congruence.
      * assert (e_id e' < e_id e); [|lia]. eapply (sorted_nth _ Hsort i (N.to_nat mid)); eauto. lia.
    + apply IH; try lia; auto.
      intros i e' En' Hi. assert (e_id e < e_id e'); [|lia]. eapply (sorted_nth _ Hsort (N.to_nat mid) i); eauto. lia.
  - assert (l = r) as -> by lia. destruct (Rd r) as (e & En & Er); [lia|]. rewrite entry_addr, Er.
    destruct (N.eqb_spec (e_id e) id) as [Eq|Ne].
    + eexists. split; [reflexivity|]. cbv beta iota. split; [exact En|exact Eq].
    + eexists. split; [reflexivity|]. cbv beta iota. intros e' Hin Eq. apply In_nth_error in Hin. destruct Hin as [i En'].
      destruct (N.lt_trichotomy (N.of_nat i) r) as [C|[C|C]].
      * pose proof (Hlo i e' En' C). lia.
      * replace (N.to_nat r) with i in En by lia. congruence.
      * pose proof (Hhi i e' En' C). lia.
Qed.

Theorem find_spec s p seq ents mx id : Dir s p seq ents mx -> sorted_ids ents ->
  exists o, find_file_entry id s = (s, Ok o) /\
    match o with
    | Some (e, i) => nth_error ents (N.to_nat i) = Some e /\ e_id e = id
    | None => forall e, In e ents -> e_id e <> id
    end.
Proof.
  intros [R A] Hs. unfold find_file_entry. rewrite bind_get. rewrite A. cbn [a_count].
  destruct (N.eqb_spec (N.of_nat (length ents)) 0) as [E0|N0].
  - exists None. split; [reflexivity|]. destruct ents; [intros e []|cbn in E0; lia].
  - destruct (bsearch_spec (fl s) p seq ents mx (a_open (atb s)) id R Hs (S (N.to_nat (N.of_nat (length ents)))) 0 (N.of_nat (length ents) - 1))
      as (o & E & Ho); try lia.
    { intros i e En Hi. assert (i < length ents)%nat by (apply nth_error_Some; congruence). lia. }
    exists o. split; [|auto]. unfold liftM. rewrite E. reflexivity.
Qed.

(** ** Listing *)
Lemma iter_all_spec f p seq ents mx op flt : table_at f (p * 32768) seq ents mx ->
  forall fuel i rest, skipn i ents = rest -> (i <= length ents)%nat -> (length rest < fuel)%nat ->
  iter_all fuel f (mkAT seq (N.of_nat (length ents)) mx p op) flt (N.of_nat i) = Ok (filter flt rest).
Proof.
  intros T. induction fuel as [|fuel IH]; intros i rest Hs Hi Hf; [lia|].
  cbn [iter_all a_count]. destruct (N.leb_spec (N.of_nat (length ents)) (N.of_nat i)) as [C|C].
  - rewrite skipn_all2 in Hs by lia. subst rest. reflexivity.
  - destruct rest as [|e rest].
    { assert (length (skipn i ents) = 0%nat) by (rewrite Hs; auto). rewrite skipn_length in *. lia. }
    assert (En : nth_error ents i = Some e).
    { rewrite <- (firstn_skipn i ents), Hs, nth_error_app2 by (rewrite firstn_length; lia).
      rewrite firstn_length. replace (i - Nat.min i (length ents))%nat with 0%nat by lia. reflexivity. }
    rewrite entry_addr. rewrite (ta_ents _ _ _ _ _ T _ _ En).
    replace (N.of_nat i + 1) with (N.of_nat (S i)) by lia. cbn [length] in Hf.
    rewrite (IH (S i) rest); [reflexivity| |lia|lia].
    replace (S i) with (i + 1)%nat by lia. rewrite <- skipn_skipn_add, Hs. reflexivity.
Qed.

Theorem files_iter_spec s p seq ents mx flt : Dir s p seq ents mx -> files_iter s flt = Ok (filter flt ents).
Proof.
  intros [R A]. unfold files_iter. rewrite A. cbn [a_count]. change 0 with (N.of_nat 0).
  apply (iter_all_spec (fl s) p seq ents mx (a_open (atb s)) flt (rp_tab _ _ _ _ _ R)); [reflexivity|lia|]. lia.
Qed.

(** ** Changing the first sector of a file *)
Definition set_first (ents : list entry) (i : nat) (first : option N) : list entry :=
  firstn i ents ++ match nth_error ents i with
                   | Some e => mkE (e_id e) (e_typ e) first :: skipn (S i) ents
                   | None => []
                   end.

Lemma set_first_split ents i e first : nth_error ents i = Some e ->
  set_first ents i first = firstn i ents ++ mkE (e_id e) (e_typ e) first :: skipn (S i) ents.
Proof. unfold set_first. intros ->. reflexivity. Qed.

Lemma nth_split_list {A} (l : list A) i e : nth_error l i = Some e -> l = firstn i l ++ e :: skipn (S i) l.
Proof.
  revert l. induction i as [|i IH]; intros [|x l] H; try discriminate.
  - injection H as ->. reflexivity.
  - cbn [firstn app]. change (skipn (S (S i)) (x :: l)) with (skipn (S i) l). f_equal. apply IH. exact H.
Qed.

Lemma set_first_ids ents i first : map e_id (set_first ents i first) = map e_id ents \/ (length ents <= i)%nat.
Proof.
  destruct (nth_error ents i) as [e|] eqn:En; [left|right; apply nth_error_None; auto].
  rewrite (set_first_split _ _ _ _ En). rewrite (nth_split_list _ _ _ En) at 3.
  rewrite !map_app. reflexivity.
Qed.

Lemma set_first_length ents i e first : nth_error ents i = Some e -> length (set_first ents i first) = length ents.
Proof.
  intros En. destruct (set_first_ids ents i first) as [E|E].
  - apply (f_equal (@length N)) in E. rewrite !map_length in E. auto.
  - assert (i < length ents)%nat by (apply nth_error_Some; congruence). lia.
Qed.

Section CopyN.
  Variables (te : bool) (s0 : fs) (H : N -> Prop) (p seq mx : N) (ents : list entry).
  Hypotheses (HR : Rep (fl s0) p seq ents mx) (Hseq : seq + 1 < 2 ^ 64).
  Lemma copy_n n : forall s b r D m, BInv te s0 H p seq s b r D m -> b_fin b = false ->
    (r + n <= length ents)%nat -> (length D + n < slot_blocks)%nat ->
    exists s' b', b_copy n b s = (s', Ok b') /\
      BInv te s0 H p seq s' b' (r + n) (D ++ firstn n (skipn r ents)) (maxid m (firstn n (skipn r ents))) /\
      b_fin b' = false /\ sm s' = sm s /\ atb s' = atb s /\ dkeep s s'.
  Proof.
    induction n as [|n IH]; intros s b r D m HB Hf Hr Hc; cbn [b_copy].
    - exists s, b. split; [reflexivity|]. cbn [firstn maxid fold_left]. rewrite app_nil_r, Nat.add_0_r.
      split; [auto|]. split; [auto|]. split; [auto|]. split; [auto|apply dkeep_refl].
    - destruct (read_next_spec te s0 H p seq mx ents HR Hseq s b r D m HB Hf) as (b1 & E1 & B1 & F1); [lia|].
      destruct (nth_error ents r) as [e|] eqn:En; [|apply nth_error_None in En; lia].
      rewrite (bind_ok _ _ _ _ _ E1).
      destruct (write_spec te s0 H p seq Hseq s b1 (S r) D m e B1) as (s2 & b2 & E2 & B2 & F2 & M2 & A2 & K2); [lia|].
      rewrite (bind_ok _ _ _ _ _ E2).
      destruct (IH s2 b2 (S r) (D ++ [e]) (N.max m (e_id e)) B2) as (s3 & b3 & E3 & B3 & F3 & M3 & A3 & K3).
      + rewrite F2, F1. auto.
      + lia.
      + rewrite app_length. cbn [length]. lia.
      + exists s3, b3. split; [exact E3|].
        assert (Esk : skipn r ents = e :: skipn (S r) ents).
        { rewrite (nth_split_list _ _ _ En) at 1. rewrite skipn_app, firstn_length, skipn_all2 by (rewrite firstn_length; lia).
          replace (r - Nat.min r (length ents))%nat with 0%nat by lia. reflexivity. }
        rewrite Esk. cbn [firstn]. rewrite <- app_assoc in B3. cbn [app] in B3.
        replace (r + S n)%nat with (S r + n)%nat by lia. split; [exact B3|].
        split; [auto|]. split; [congruence|]. split; [congruence|]. eapply dkeep_trans; eauto.
  Qed.
End CopyN.

Theorem set_first_spec te H s p seq ents mx id first : Dir s p seq ents mx -> sorted_ids ents -> seq + 1 < 2 ^ 64 ->
  (exists e i s', nth_error ents i = Some e /\ e_id e = id /\
     set_file_first_sector_index id first s = (s', Ok tt) /\
     Updated te H s s' p seq (set_first ents i first) (maxid mx ents) /\ sm s' = sm s /\ dkeep s s') \/
  (set_file_first_sector_index id first s = (s, Err FileDoesNotExist) /\ forall e, In e ents -> e_id e <> id).
Proof.
  intros HD Hsort Hs. destruct (find_spec s p seq ents mx id HD Hsort) as (o & Ef & Ho).
  unfold set_file_first_sector_index. rewrite (bind_ok _ _ _ _ _ Ef).
  destruct o as [[e0 iN]|]; [|right; split; [reflexivity|auto]]. left. destruct Ho as [En Eid].
  set (i := N.to_nat iN) in *. exists e0, i. destruct HD as [R A].
  pose proof (ta_cap _ _ _ _ _ (rp_tab _ _ _ _ _ R)) as Hcap.
  assert (Hi : (i < length ents)%nat) by (apply nth_error_Some; congruence).
  destruct (new_spec te s H p seq mx ents Hs A) as (s1 & b1 & E1 & B1 & F1 & M1 & K1 & A1).
  destruct (copy_n te s H p seq mx ents R Hs i s1 b1 0 [] mx B1 F1) as (s2 & b2 & E2 & B2 & F2 & M2 & A2 & K2).
  { lia. } { cbn [length]. lia. }
  cbn [skipn app Nat.add] in B2.
  destruct (read_next_spec te s H p seq mx ents R Hs s2 b2 i _ _ B2 F2) as (b3 & E3 & B3 & F3); [lia|].
  rewrite En in E3, F3.
  assert (Hfl : length (firstn i ents) = i) by (rewrite firstn_length; lia).
  destruct (write_spec te s H p seq Hs s2 b3 (S i) _ _ (mkE (e_id e0) (e_typ e0) first) B3) as (s4 & b4 & E4 & B4 & F4 & M4 & A4 & K4).
  { rewrite Hfl. lia. }
  destruct (copy_loop te s H p seq mx ents R Hs (skipn (S i) ents) loop_fuel s4 b4 (S i) _ _ B4) as (s5 & b5 & E5 & B5 & M5 & A5 & K5).
  { rewrite F4, F3. reflexivity. } { reflexivity. } { lia. }
  { rewrite skipn_length. apply loop_fuel_big. lia. }
  { rewrite app_length, Hfl, skipn_length. cbn [length]. lia. }
  assert (ED : (firstn i ents ++ [mkE (e_id e0) (e_typ e0) first]) ++ skipn (S i) ents = set_first ents i first).
  { rewrite (set_first_split _ _ _ _ En), <- app_assoc. reflexivity. }
  assert (Em : maxid (N.max (maxid mx (firstn i ents)) (e_id (mkE (e_id e0) (e_typ e0) first))) (skipn (S i) ents) = maxid mx ents).
  { rewrite (nth_split_list _ _ _ En) at 3. rewrite maxid_app. reflexivity. }
  rewrite ED, Em in B5.
  destruct (commit_spec te s H p seq Hs s5 b5 _ _ _ B5) as (s6 & E6 & T6 & S6 & M6 & K6 & A6).
  { rewrite (set_first_length _ _ _ _ En). auto. }
  exists s6. split; [auto|]. split; [auto|]. split; [|split; [|split]].
  - rewrite (bind_ok _ _ _ _ _ E1). apply in_builder_ok. rewrite (bind_ok _ _ _ _ _ E2).
    rewrite (bind_ok _ _ _ _ _ E3). rewrite (bind_ok _ _ _ _ _ E4). rewrite (bind_ok _ _ _ _ _ E5). exact E6.
  - constructor; [exact T6|exact S6|]. rewrite A6, A5, A4, A2, A1. cbn [a_seq a_pos a_open].
    reflexivity.
  - congruence.
  - eapply dkeep_trans; [exact K1|]. eapply dkeep_trans; [exact K2|]. eapply dkeep_trans; [exact K4|].
    eapply dkeep_trans; [exact K5|exact K6].
Qed.

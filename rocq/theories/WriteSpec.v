(** * The file writer: flush, close and extend *)
From Verif Require Import Base Majority Flash FS Sectors SectorsProofs ATable TornCode TableCode TableBuild TableOps DirOps Chains FileIO FileFormat FileWrite WriteOps.
Local Open Scope N_scope.
Local Open Scope fs_scope.

Section Ops.
Variable crc : list byte -> N.
Hypothesis crc_bound : crc32 crc.

(** ** Shape of the writer *)
Lemma wrep_addr f w cur q : WRep crc f w cur q -> (0 < w_off w)%nat -> page_address w = w_sec w * SECTOR_SIZE + 256 * q.
Proof.
  intros R Ho. pose proof (wr_len _ _ _ _ _ R) as El. pose proof (wr_off _ _ _ _ _ R) as Eo. pose proof (wr_q _ _ _ _ _ R) as Q.
  unfold page_address. rewrite El in *. destruct (N.eqb_spec (N.of_nat (length cur)) 0); [lia|].
  f_equal. replace ((N.of_nat (length cur) - 1) / 252) with q; [lia|].
  apply (N.div_unique (N.of_nat (length cur) - 1) 252 q (N.of_nat (length cur) - 1 - 252 * q)); lia.
Qed.

Lemma wrep_tail f w cur q : WRep crc f w cur q -> chunk cur q = skipn (N.to_nat (252 * q)) cur /\
  length (skipn (N.to_nat (252 * q)) cur) = w_off w.
Proof.
  intros R. pose proof (wr_off _ _ _ _ _ R) as Eo. pose proof (wr_q _ _ _ _ _ R) as Q.
  split; [|rewrite skipn_length; lia]. unfold chunk. apply firstn_all2. rewrite skipn_length. lia.
Qed.

Lemma wrep_bytes f w cur q : WRep crc f w cur q -> bytes_ok (skipn (N.to_nat (252 * q)) cur).
Proof.
  intros R. pose proof (wr_ok _ _ _ _ _ R) as H. rewrite <- (firstn_skipn (N.to_nat (252 * q)) cur) in H.
  apply Forall_app in H. tauto.
Qed.

Section Session.
Variables (te : bool) (s0 : fs) (H0 : N -> Prop) (o : option N) (l0 : list N) (x0 : N) (base all : list byte).
Hypothesis H0_file : forall y, In y (l0 ++ [x0]) -> H0 y.
Notation WC := (WCrash crc s0 H0 o l0 x0 base all).
Notation SSx := (SS crc s0 H0 o l0 x0 base).

(** the state in the middle of an operation *)
Record WInv (s : fs) (w : writer) (H : N -> Prop) (l l1 : list N) (ds : list (list byte)) (cur : list byte) (q : N) : Prop := {
  wi_ss : SSx (fl s) (w_sec w) l l1 ds;
  wi_rep : WRep crc (fl s) w cur q;
  wi_al : AllocInv s H;
  wi_held : forall y, H0 y \/ In y l1 -> H y;
  wi_tr : traced te s0 s WC;
  wi_at : atb s = atb s0 }.

Lemma held_file (H : N -> Prop) l1 x l : (forall y, H0 y \/ In y l1 -> H y) -> l ++ [x] = l0 ++ x0 :: l1 -> H x.
Proof. intros Hh E. apply Hh. apply (path_held H0 l0 x0 H0_file x l l1 E x). right; auto. Qed.

Lemma emit_alloc s H x a P : AllocInv s H -> H x -> (forall y, y <> x -> sector_same (fl s) (fl (emit s (Prog a P))) y) ->
  AllocInv (emit s (Prog a P)) H.
Proof.
  intros A Hx Hs. apply (client_inv s); auto. intros y Hd Hn. apply Hs. intros ->. auto.
Qed.

(** program the (partly) filled buffer as data page [q < 15] *)
Lemma data_page_step s w H l l1 ds cur q co : WInv s w H l l1 ds cur q -> q < 15 -> (0 < w_off w)%nat ->
  co = N.to_nat (pad4 (N.of_nat (w_off w))) -> prefix (concat ds) all ->
  exists s', write_page crc w (page_address w) (Some co) s = (s', Ok (mkW blank_page 0 (w_len w) (w_sec w) (w_id w))) /\
    SSx (fl s') (w_sec w) l l1 ds /\ AllocInv s' H /\ traced te s0 s' WC /\ atb s' = atb s0 /\
    (forall k, k <= q -> page_holds crc (fl s') (w_sec w) k (chunk cur k)) /\
    (forall a, w_sec w * SECTOR_SIZE + 256 * (q + 1) <= a < (w_sec w + 1) * SECTOR_SIZE -> fl s' a = 255).
Proof.
  intros I Hq Ho Hco Hp. destruct I as [Is Ir Ia Ih It Iat].
  pose proof (wrep_tail _ _ _ _ Ir) as [Ec El]. pose proof (wrep_bytes _ _ _ _ Ir) as Hb.
  set (b := skipn (N.to_nat (252 * q)) cur) in *.
  assert (Hb252 : (length b <= 252)%nat) by (pose proof (wr_q _ _ _ _ _ Ir); unfold b in *; rewrite El, (wr_off _ _ _ _ _ Ir); lia).
  unfold write_page. rewrite bind_out, (wr_buf _ _ _ _ _ Ir). fold b.
  rewrite (data_page_buffer crc b co) by (auto; rewrite El; auto).
  rewrite (wrep_addr _ _ _ _ Ir Ho).
  set (P := data_page crc b). assert (HlP : length P = 256%nat) by (apply data_page_length; auto).
  assert (HP : bytes_ok P) by (apply data_page_ok; auto).
  assert (Hlast : page_is (fl s) (w_sec w * SECTOR_SIZE + 3840) []).
  { change 3840 with (256 * 15). apply (wrep_blank crc _ _ cur q); auto; lia. }
  destruct (page_step crc te s0 H0 o l0 x0 base all H0_file s (w_sec w) l l1 ds q P) as (T' & S' & F'); auto.
  { apply (wrep_blank crc _ _ cur q); auto; lia. }
  set (s' := emit s (Prog (w_sec w * SECTOR_SIZE + 256 * q) P)) in *.
  exists s'. split; [reflexivity|]. split; [exact S'|].
  destruct (prog_frame (fl s) (w_sec w) q P (wr_sec _ _ _ _ _ Ir)) as [_ F2]; [lia|lia|].
  split.
  { apply (emit_alloc s H (w_sec w)); auto. eapply held_file; eauto. apply (ss_path _ _ _ _ _ _ _ _ _ _ _ _ Is). }
  split; [exact T'|]. split; [exact Iat|]. split.
  - intros k Hk. destruct (N.eq_dec k q) as [->|Hne].
    + rewrite Ec. fold b. apply (sealed_page_holds crc crc_bound _ _ _ b (repeat 255 (256 - length (sealed crc b)))); auto.
      apply (prog_page (fl s)); auto. apply (wrep_blank crc _ _ cur q); auto; lia.
    + assert (Hh := wr_pages _ _ _ _ _ Ir k ltac:(lia)). unfold page_holds in *.
      set (n := length (chunk cur k ++ padding (chunk cur k))) in *.
      assert (Hn : (n <= 252)%nat).
      { unfold n. rewrite padded_length. apply pad_le. rewrite chunk_length. lia. }
      rewrite <- (proj1 Hh), <- (proj2 Hh) at 1. split.
      * apply rd_ext. intros i Hi. apply F'. lia.
      * f_equal. apply rd_ext. intros i Hi. apply F'. lia.
  - intros a Ha. rewrite F' by lia. apply (wr_rest _ _ _ _ _ Ir). lia.
Qed.

(** finish a sector whose data pages are in place *)
Lemma tail_page_step s w H l l1 ds cur n : SSx (fl s) (w_sec w) l l1 ds -> AllocInv s H -> H (w_sec w) -> traced te s0 s WC ->
  w_len w = N.of_nat (length cur) -> w_buf w = blank_page -> N.of_nat (length cur) <= 3780 ->
  (forall k, k < 15 -> 252 * k < N.of_nat (length cur) -> page_holds crc (fl s) (w_sec w) k (chunk cur k)) ->
  page_is (fl s) (w_sec w * SECTOR_SIZE + 3840) [] -> prefix (concat ds ++ cur) all ->
  (n = 65535 \/ (data_sector n /\ ~ H0 n /\ ~ In n l1 /\ sector_erased (fl s) n)) ->
  exists s', write_page crc (write_length_and_next w n) (w_sec w * SECTOR_SIZE + (SECTOR_SIZE - PAGE_SIZE)) None s =
     (s', Ok (mkW blank_page 0 (w_len w) (w_sec w) (w_id w))) /\
    SSx (fl s') (w_sec w) l l1 ds /\ AllocInv s' H /\ traced te s0 s' WC /\ atb s' = atb s /\
    sec_holds crc (fl s') (w_sec w) cur n /\ (forall y, y <> w_sec w -> sector_same (fl s) (fl s') y).
Proof.
  intros Is Ia Hx It El Eb Hc Hpg Hb Hp Hn. unfold write_page, write_length_and_next. rewrite bind_out. cbn [w_buf w_len w_sec w_id w_off].
  rewrite Eb, El, tail_page_buffer. change (SECTOR_SIZE - PAGE_SIZE) with 3840.
  destruct (finish_step crc crc_bound te s0 H0 o l0 x0 base all H0_file s (w_sec w) l l1 ds cur (repeat 255 240) n) as (T & S & Hh & F1 & F2); try lia; try apply repeat_ok; auto.
  fold (tail_page (N.of_nat (length cur)) n) in T, S, Hh, F1, F2.
  set (s' := emit s _) in *. exists s'. split; [reflexivity|]. split; [exact S|]. split.
  { apply (emit_alloc s H (w_sec w)); auto. }
  split; [exact T|]. split; [reflexivity|]. split; [exact Hh|exact F1].
Qed.

(** program the last page with data and fields *)
Lemma end_page_step s w H l l1 ds cur n co : WInv s w H l l1 ds cur 15 -> (0 < w_off w)%nat ->
  co = N.to_nat (pad4 (N.of_nat (w_off w))) -> prefix (concat ds ++ cur) all ->
  (n = 65535 \/ (data_sector n /\ ~ H0 n /\ ~ In n l1 /\ sector_erased (fl s) n)) ->
  exists s', write_page crc (write_length_and_next w n) (page_address w) (Some co) s =
     (s', Ok (mkW blank_page 0 (w_len w) (w_sec w) (w_id w))) /\
    SSx (fl s') (w_sec w) l l1 ds /\ AllocInv s' H /\ traced te s0 s' WC /\ atb s' = atb s /\
    sec_holds crc (fl s') (w_sec w) cur n /\ (forall y, y <> w_sec w -> sector_same (fl s) (fl s') y).
Proof.
  intros I Ho Hco Hp Hn. destruct I as [Is Ir Ia Ih It Iat].
  pose proof (wrep_tail _ _ _ _ Ir) as [Ec El]. pose proof (wrep_bytes _ _ _ _ Ir) as Hb.
  set (b := skipn (N.to_nat (252 * 15)) cur) in *.
  assert (Hb236 : (length b <= 236)%nat) by (pose proof (wr_q _ _ _ _ _ Ir); rewrite El, (wr_off _ _ _ _ _ Ir); lia).
  unfold write_page, write_length_and_next. rewrite bind_out. cbn [w_buf w_len w_sec w_id w_off].
  rewrite (wr_buf _ _ _ _ _ Ir). fold b. rewrite fields_buffer by lia.
  rewrite (end_page_buffer crc b) by (auto; rewrite El; auto).
  rewrite (wrep_addr _ _ _ _ Ir Ho), (wr_len _ _ _ _ _ Ir). change (256 * 15) with 3840.
  set (A := sealed crc b ++ repeat 255 (240 - length (sealed crc b))).
  replace (end_page crc b (N.of_nat (length cur)) n) with (A ++ u16x4 (N.of_nat (length cur)) ++ u16x4 n)
    by (unfold A, end_page; rewrite <- app_assoc; reflexivity).
  assert (HlA : length A = 240%nat).
  { unfold A. rewrite app_length, repeat_length, sealed_length. pose proof (pad_le_last b Hb236). lia. }
  destruct (finish_step crc crc_bound te s0 H0 o l0 x0 base all H0_file s (w_sec w) l l1 ds cur A n) as (T & S & Hh & F1 & F2); auto.
  - pose proof (wr_q _ _ _ _ _ Ir). lia.
  - unfold A. apply Forall_app; split; [apply sealed_ok; auto|apply repeat_ok].
  - intros _. rewrite Ec. unfold A. eexists; reflexivity.
  - intros k Hk _. apply (wr_pages _ _ _ _ _ Ir); auto.
  - change 3840 with (256 * 15). apply (wrep_blank crc _ _ cur 15); auto; lia.
  - set (s' := emit s _) in *. exists s'. split; [reflexivity|]. split; [exact S|]. split.
    { apply (emit_alloc s H (w_sec w)); auto. eapply held_file; eauto. apply (ss_path _ _ _ _ _ _ _ _ _ _ _ _ Is). }
    split; [exact T|]. split; [reflexivity|]. split; [exact Hh|exact F1].
Qed.

(** ** flush_ (writer.rs:231-277) *)
Lemma flush__spec s w H l l1 ds cur q n : WInv s w H l l1 ds cur q -> prefix (concat ds ++ cur) all ->
  (n = 65535 \/ (data_sector n /\ ~ H0 n /\ ~ In n l1 /\ sector_erased (fl s) n)) ->
  exists s', flush_ crc w n s = (s', Ok (mkW blank_page 0 0 (w_sec w) (w_id w))) /\
    SSx (fl s') (w_sec w) l l1 ds /\ AllocInv s' H /\ traced te s0 s' WC /\ atb s' = atb s0 /\
    sec_holds crc (fl s') (w_sec w) cur n /\ (n <> 65535 -> sector_same (fl s) (fl s') n).
Proof.
  intros I Hp Hn. pose proof (wi_rep _ _ _ _ _ _ _ _ I) as Ir. pose proof (wi_ss _ _ _ _ _ _ _ _ I) as Is.
  pose proof (wr_q _ _ _ _ _ Ir) as Q. pose proof (wr_len _ _ _ _ _ Ir) as El. pose proof (wr_off _ _ _ _ _ Ir) as Eo.
  assert (Hx : H (w_sec w)) by (eapply held_file; [apply (wi_held _ _ _ _ _ _ _ _ I)|apply (ss_path _ _ _ _ _ _ _ _ _ _ _ _ Is)]).
  assert (Hnx : n <> 65535 -> n <> w_sec w).
  { intros Hne ->. destruct Hn as [Hn|(Hd & HnH & Hnl & _)]; [congruence|].
    destruct (path_held H0 l0 x0 H0_file _ _ _ (ss_path _ _ _ _ _ _ _ _ _ _ _ _ Is) (w_sec w) (or_intror eq_refl)); auto. }
  assert (Hlast : page_is (fl s) (w_sec w * SECTOR_SIZE + 3840) []).
  { change 3840 with (256 * 15). apply (wrep_blank crc _ _ cur q); auto; lia. }
  unfold flush_. destruct (N.eqb_spec (w_len w) 0) as [E0|E0].
  - destruct (tail_page_step s w H l l1 ds cur n) as (s' & E & A1 & A2 & A3 & A4 & A5 & A6); auto.
    + apply (wi_al _ _ _ _ _ _ _ _ I).
    + apply (wi_tr _ _ _ _ _ _ _ _ I).
    + rewrite (wr_buf _ _ _ _ _ Ir). rewrite skipn_all2 by lia. reflexivity.
    + lia.
    + intros k _ Hk. lia.
    + exists s'. rewrite E, E0. split; [reflexivity|]. split; [auto|]. split; [auto|]. split; [auto|].
      split; [rewrite A4; apply (wi_at _ _ _ _ _ _ _ _ I)|]. split; auto.
  - assert (Hco : N.to_nat (N.land (N.of_nat (w_off w) + 3) (N.lnot 3 64)) = N.to_nat (pad4 (N.of_nat (w_off w)))).
    { rewrite pad4_land; [reflexivity|]. pose proof (wr_q _ _ _ _ _ Ir). change (2 ^ 60) with 1152921504606846976. lia. }
    unfold is_last_data_page. destruct (N.ltb_spec (252 * 15) (w_len w)) as [Hl|Hl].
    + assert (q = 15) by lia. subst q.
      destruct (end_page_step s w H l l1 ds cur n _ I ltac:(lia) Hco Hp Hn) as (s' & E & A1 & A2 & A3 & A4 & A5 & A6).
      replace (page_address (write_length_and_next w n)) with (page_address w) by reflexivity.
      rewrite (bind_ok _ _ _ _ _ E). exists s'. split; [reflexivity|]. split; [auto|]. split; [auto|]. split; [auto|].
      split; [rewrite A4; apply (wi_at _ _ _ _ _ _ _ _ I)|]. split; auto.
    + destruct (Nat.ltb_spec 0 (w_off w)) as [Ho|Ho].
      * destruct (data_page_step s w H l l1 ds cur q _ I ltac:(lia) Ho Hco (prefix_app_l _ _ _ Hp)) as (s1 & E & B1 & B2 & B3 & B4 & B5 & B6).
        rewrite bind_assoc, (bind_ok _ _ _ _ _ E).
        set (w1 := mkW blank_page 0 (w_len w) (w_sec w) (w_id w)) in *.
        assert (Hsame : n <> 65535 -> sector_same (fl s) (fl s1) n).
        { intros Hne. unfold write_page in E. rewrite bind_out in E. unfold ret in E. apply (f_equal fst) in E. cbn [fst] in E. rewrite <- E.
          rewrite (wrep_addr _ _ _ _ Ir Ho), (wr_buf _ _ _ _ _ Ir).
          pose proof (wrep_tail _ _ _ _ Ir) as [_ Elb].
          rewrite (data_page_buffer crc) by (rewrite ?Elb; auto; lia).
          apply (prog_frame (fl s) (w_sec w) q); auto; [apply (wr_sec _ _ _ _ _ Ir)|lia|rewrite data_page_length; [lia|rewrite Elb; lia]]. }
        destruct (tail_page_step s1 w1 H l l1 ds cur n) as (s' & E' & A1 & A2 & A3 & A4 & A5 & A6); auto.
        -- lia.
        -- intros k _ Hk. apply B5. lia.
        -- intros i Hi. cbn [w1 w_sec]. rewrite B6 by (unfold SECTOR_SIZE; lia). destruct i; reflexivity.
        -- destruct Hn as [->|(Hd & HnH & Hnl & He)]; [left; auto|right]. split; [auto|]. split; [auto|]. split; [auto|].
           assert (Hne : n <> 65535) by (unfold data_sector, SECTORS_COUNT in Hd; lia).
           intros a Ha. etransitivity; [apply (Hsame Hne a Ha)|apply He; auto].
        -- rewrite (bind_ok _ _ _ _ _ E'). exists s'. split; [reflexivity|]. cbn [w1 w_sec] in *. split; [auto|]. split; [auto|]. split; [auto|].
           split; [congruence|]. split; [auto|]. intros Hne a Ha. etransitivity; [apply (A6 n (Hnx Hne) a Ha)|apply (Hsame Hne a Ha)].
      * rewrite bind_assoc, bind_ret.
        destruct (tail_page_step s w H l l1 ds cur n) as (s' & E' & A1 & A2 & A3 & A4 & A5 & A6); auto.
        -- apply (wi_al _ _ _ _ _ _ _ _ I).
        -- apply (wi_tr _ _ _ _ _ _ _ _ I).
        -- rewrite (wr_buf _ _ _ _ _ Ir), skipn_all2 by lia. reflexivity.
        -- lia.
        -- intros k _ Hk. apply (wr_pages _ _ _ _ _ Ir). lia.
        -- rewrite (bind_ok _ _ _ _ _ E'). exists s'. split; [reflexivity|]. split; [auto|]. split; [auto|]. split; [auto|].
           split; [rewrite A4; apply (wi_at _ _ _ _ _ _ _ _ I)|]. split; auto.
Qed.

(** ** Claiming the next sector *)
Lemma claim_step s w H l l1 ds cur q : WInv s w H l l1 ds cur q -> prefix (concat ds) all ->
  (exists s' n, claim_avaliable_sector_and_erase s = (s', Ok n) /\ WInv s' w (add H n) l l1 ds cur q /\
     data_sector n /\ ~ H n /\ sector_erased (fl s') n) \/
  (claim_avaliable_sector_and_erase s = (s, Err DeviceFull) /\ (forall x, data_sector x -> H x)).
Proof.
  intros I Hp. destruct I as [Is Ir Ia Ih It Iat].
  destruct (claim_spec s H Ia) as [(s' & n & E & A & B & C & D & F)|K]; [left|right; auto].
  assert (Hx : H (w_sec w)) by (eapply held_file; [apply Ih|apply (ss_path _ _ _ _ _ _ _ _ _ _ _ _ Is)]).
  destruct (traced_alloc te s0 s s' WC H It F) as (T & Ta & Ts).
  { intros y Hy. apply (ai_held _ _ Ia); auto. }
  { intros f' X Y. apply (crash_here crc s0 H0 o l0 x0 base all H0_file (fl s) f' (w_sec w) l l1 ds []); auto.
    - apply (sec_holds_same crc (fl s)); [apply (Y _ Hx)|apply (wrep_unfinished crc _ _ _ _ Ir)].
    - rewrite app_nil_r; auto. }
  exists s', n. split; [exact E|]. split; [|auto]. constructor; auto.
  - apply (ss_frame crc s0 H0 o l0 x0 base H0_file (fl s)); auto.
  - apply (wrep_same crc (fl s)); auto.
  - intros y Hy. right. apply Ih; auto.
  - destruct F as [-> _]. auto.
Qed.

(** the writer moves to the fresh sector [n] *)
Lemma advance_inv s' w (H : N -> Prop) l l1 ds cur n : SSx (fl s') (w_sec w) l l1 ds -> AllocInv s' H ->
  traced te s0 s' WC -> atb s' = atb s0 -> sec_holds crc (fl s') (w_sec w) cur n ->
  data_sector n -> ~ H0 n -> ~ In n l1 -> sector_erased (fl s') n -> H n -> (forall y, H0 y \/ In y l1 -> H y) ->
  WInv s' (mkW blank_page 0 0 n (w_id w)) H (l ++ [w_sec w]) (l1 ++ [n]) (ds ++ [cur]) [] 0.
Proof.
  intros S A T At Hh Hd N0 N1 He Hn Hall. constructor; auto; cbn [w_sec].
  - apply ss_advance; auto.
  - apply (new_writer_rep crc _ n (w_id w)); auto.
  - intros y [Hy|Hy]; [apply Hall; auto|]. apply in_app_or in Hy. destruct Hy as [Hy|[<-|[]]]; [apply Hall; auto|auto].
Qed.

Lemma concat_snoc {A} (ds : list (list A)) d : concat (ds ++ [d]) = concat ds ++ d.
Proof. rewrite concat_app. cbn [concat]. rewrite app_nil_r. reflexivity. Qed.

(** ** flush (writer.rs:212-229) *)
Lemma flush_step s w H l l1 ds cur q : WInv s w H l l1 ds cur q -> held H0 H l1 -> prefix (concat ds ++ cur) all ->
  exists s' w' H' l' l1' ds' r, flush crc w s = (s', Ok (w', r)) /\ ((r = None /\ WInv s' w' H' l' l1' ds' [] 0 /\ concat ds' = concat ds ++ cur) \/
     (r = Some DeviceFull /\ cur <> [] /\ s' = s /\ w' = w /\ H' = H /\ l' = l /\ l1' = l1 /\ ds' = ds /\ (forall x, data_sector x -> H x))) /\ held H0 H' l1' /\ w_id w' = w_id w.
Proof.
  intros I Hh Hp. unfold flush. pose proof (wi_rep _ _ _ _ _ _ _ _ I) as Ir.
  destruct (N.eqb_spec (w_len w) 0) as [E0|E0].
  - assert (cur = []) as ->.
    { rewrite (wr_len _ _ _ _ _ Ir) in E0. destruct cur; [auto|cbn in E0; lia]. }
    exists s, w, H, l, l1, ds, None. split; [reflexivity|]. split; [|auto]. left. split; [auto|]. split; [|rewrite app_nil_r; auto].
    assert (q = 0) as -> by (pose proof (wr_q _ _ _ _ _ Ir); cbn in *; lia). auto.
  - destruct (claim_step s w H l l1 ds cur q I (prefix_app_l _ _ _ Hp)) as [(s1 & n & E & I1 & Hd & Hn & He)|[E Hfull]]; rewrite E.
    + assert (N0 : ~ H0 n) by (intros Hc; apply Hn, Hh; auto).
      assert (N1 : ~ In n l1) by (intros Hc; apply Hn, Hh; auto).
      destruct (flush__spec s1 w (add H n) l l1 ds cur q n I1 Hp) as (s' & E' & A1 & A2 & A3 & A4 & A5 & A6); [right; auto|].
      rewrite (bind_ok _ _ _ _ _ E'). unfold ret. cbn [w_buf w_off w_len w_id].
      exists s', (mkW blank_page 0 0 n (w_id w)), (add H n), (l ++ [w_sec w]), (l1 ++ [n]), (ds ++ [cur]), None.
      split; [reflexivity|]. split; [|split; [|auto]].
      * left. split; [auto|]. split; [|apply concat_snoc]. apply advance_inv; auto.
        -- intros a Ha. etransitivity; [apply A6; auto|apply He; auto]. unfold data_sector, SECTORS_COUNT in Hd. lia.
        -- left; auto.
        -- intros y Hy. right. apply Hh; auto.
      * intros y. unfold add. rewrite in_app_iff. cbn [In]. rewrite (Hh y). intuition auto.
    + exists s, w, H, l, l1, ds, (Some DeviceFull). split; [reflexivity|]. split; [|auto]. right.
      split; [auto|]. split; [|do 6 (split; [auto|]); auto]. intros ->. apply E0. rewrite (wr_len _ _ _ _ _ Ir). reflexivity.
Qed.

(** ** extend_from_slice (writer.rs:301-360) *)
Definition room (w : writer) : nat := (256 - w_off w - if (252 * 15 <=? w_len w)%N then 20 else 4)%nat.

(** full pages are programmed at once, except the last one *)
Definition settled (cur : list byte) (q : N) : Prop := q < 15 -> N.of_nat (length cur) < 252 * q + 252.

Lemma wrep_room s w H l l1 ds cur q : WInv s w H l l1 ds cur q -> settled cur q ->
  room w = (N.to_nat (if (q =? 15)%N then 236 else 252) - w_off w)%nat /\ (252 * 15 <=? w_len w) = (q =? 15) /\
  (w_off w <= N.to_nat (if (q =? 15)%N then 236 else 252))%nat /\ (q <> 15 -> (0 < room w)%nat).
Proof.
  intros I St. pose proof (wi_rep _ _ _ _ _ _ _ _ I) as Ir. pose proof (wr_q _ _ _ _ _ Ir) as Q.
  pose proof (wr_len _ _ _ _ _ Ir) as El. pose proof (wr_off _ _ _ _ _ Ir) as Eo. unfold room, settled in *.
  destruct (N.leb_spec (252 * 15) (w_len w)), (N.eqb_spec q 15); lia.
Qed.

(** bytes put in the buffer *)
Lemma wrep_more f w cur q slice : WRep crc f w cur q -> bytes_ok slice ->
  (q < 15 -> N.of_nat (length cur + length slice) <= 252 * q + 252) -> N.of_nat (length cur + length slice) <= 4016 ->
  WRep crc f (mkW (splice (w_buf w) (w_off w) slice) (w_off w + length slice) (w_len w + N.of_nat (length slice)) (w_sec w) (w_id w))
    (cur ++ slice) q.
Proof.
  intros R Hs Hq Hl. pose proof (wrep_tail _ _ _ _ R) as [_ Et]. pose proof (wr_q _ _ _ _ _ R) as Q. destruct R.
  constructor; cbn [w_buf w_off w_len w_sec w_id]; rewrite ?app_length; auto.
  - lia.
  - lia.
  - lia.
  - rewrite wr_buf, <- Et, blanked_append by lia. f_equal. rewrite skipn_app.
    replace (N.to_nat (252 * q) - length cur)%nat with 0%nat by lia. reflexivity.
  - apply Forall_app; auto.
  - intros k Hk. replace (chunk (cur ++ slice) k) with (chunk cur k); [auto|]. unfold chunk. rewrite skipn_app, firstn_app, skipn_length.
    replace (252 - (length cur - N.to_nat (252 * k)))%nat with 0%nat by lia. rewrite firstn_O, app_nil_r. reflexivity.
Qed.

(** one full page, programmed *)
Lemma full_page_step s w H l l1 ds cur q slice : WInv s w H l l1 ds cur q -> settled cur q -> q < 15 -> bytes_ok slice ->
  length slice = room w -> prefix (concat ds) all ->
  let w1 := mkW (splice (w_buf w) (w_off w) slice) (w_off w + length slice) (w_len w + N.of_nat (length slice)) (w_sec w) (w_id w) in
  exists s', write_page crc w1 (page_address w1) (Some (w_off w1)) s = (s', Ok (mkW blank_page 0 (w_len w1) (w_sec w) (w_id w))) /\
    WInv s' (mkW blank_page 0 (w_len w1) (w_sec w) (w_id w)) H l l1 ds (cur ++ slice) (q + 1) /\ settled (cur ++ slice) (q + 1).
Proof.
  intros I St Hq Hb Hlen Hp w1. destruct (wrep_room _ _ _ _ _ _ _ _ I St) as (Hr & Hlast & Hoff & Hpos).
  pose proof (wi_rep _ _ _ _ _ _ _ _ I) as Ir. pose proof (wr_q _ _ _ _ _ Ir) as Q. pose proof (wr_off _ _ _ _ _ Ir) as Eo.
  specialize (Hpos ltac:(lia)). destruct (N.eqb_spec q 15); [lia|].
  assert (R1 : WRep crc (fl s) w1 (cur ++ slice) q) by (apply wrep_more; auto; lia).
  assert (I1 : WInv s w1 H l l1 ds (cur ++ slice) q) by (destruct I; constructor; auto).
  assert (Eo1 : w_off w1 = 252%nat) by (unfold w1; cbn [w_off]; lia).
  assert (Hlen1 : N.of_nat (length (cur ++ slice)) = 252 * (q + 1)) by (rewrite app_length; lia).
  destruct (data_page_step s w1 H l l1 ds (cur ++ slice) q (w_off w1) I1 Hq) as (s' & E & A1 & A2 & A3 & A4 & A5 & A6); auto; [lia|rewrite Eo1; reflexivity|].
  exists s'. split; [exact E|]. split.
  - constructor; auto; cbn [w_sec]; [|apply (wi_held _ _ _ _ _ _ _ _ I)].
    constructor; cbn [w_buf w_off w_len w_sec].
    + apply (wr_len _ _ _ _ _ R1).
    + lia.
    + lia.
    + rewrite skipn_all2 by lia. reflexivity.
    + apply (wr_ok _ _ _ _ _ R1).
    + apply (wr_sec _ _ _ _ _ R1).
    + intros k Hk. apply A5. lia.
    + intros a Ha. apply A6. exact Ha.
  - unfold settled. lia.
Qed.

(** the last page of a sector, programmed, and the next sector started *)
Lemma full_sector_step s w H l l1 ds cur slice : WInv s w H l l1 ds cur 15 -> held H0 H l1 -> bytes_ok slice ->
  length slice = room w -> prefix (concat ds ++ cur ++ slice) all ->
  let w1 := mkW (splice (w_buf w) (w_off w) slice) (w_off w + length slice) (w_len w + N.of_nat (length slice)) (w_sec w) (w_id w) in
  WInv s w1 H l l1 ds (cur ++ slice) 15 /\
  ((exists s1 n s', claim_avaliable_sector_and_erase s = (s1, Ok n) /\
     write_page crc (write_length_and_next w1 n) (page_address (write_length_and_next w1 n)) (Some (w_off (write_length_and_next w1 n))) s1
       = (s', Ok (mkW blank_page 0 (w_len w1) (w_sec w) (w_id w))) /\
     WInv s' (mkW blank_page 0 0 n (w_id w)) (add H n) (l ++ [w_sec w]) (l1 ++ [n]) (ds ++ [cur ++ slice]) [] 0 /\
     held H0 (add H n) (l1 ++ [n])) \/
   (claim_avaliable_sector_and_erase s = (s, Err DeviceFull) /\ (forall x, data_sector x -> H x))).
Proof.
  intros I Hh Hb Hlen Hp w1. destruct (wrep_room _ _ _ _ _ _ _ _ I) as (Hr & Hlast & Hoff & Hpos); [unfold settled; lia|].
  pose proof (wi_rep _ _ _ _ _ _ _ _ I) as Ir. pose proof (wr_q _ _ _ _ _ Ir) as Q. pose proof (wr_off _ _ _ _ _ Ir) as Eo.
  change (15 =? 15) with true in *. cbv iota in *.
  assert (R1 : WRep crc (fl s) w1 (cur ++ slice) 15) by (apply wrep_more; auto; lia).
  assert (I1 : WInv s w1 H l l1 ds (cur ++ slice) 15) by (destruct I; constructor; auto).
  split; [exact I1|].
  assert (Eo1 : w_off w1 = 236%nat) by (unfold w1; cbn [w_off]; lia).
  destruct (claim_step s w1 H l l1 ds (cur ++ slice) 15 I1 (prefix_app_l _ _ _ Hp)) as [(s1 & n & E & I2 & Hd & Hn & He)|[E Hfull]]; [left|right; auto].
  assert (N0 : ~ H0 n) by (intros Hc; apply Hn, Hh; auto).
  assert (N1 : ~ In n l1) by (intros Hc; apply Hn, Hh; auto).
  destruct (end_page_step s1 w1 (add H n) l l1 ds (cur ++ slice) n (w_off w1) I2) as (s' & E' & A1 & A2 & A3 & A4 & A5 & A6); auto; [lia|rewrite Eo1; reflexivity|].
  assert (Hx : n <> w_sec w1).
  { intros ->. apply Hn. eapply held_file; [apply (wi_held _ _ _ _ _ _ _ _ I)|apply (ss_path _ _ _ _ _ _ _ _ _ _ _ _ (wi_ss _ _ _ _ _ _ _ _ I))]. }
  exists s1, n, s'. split; [exact E|]. split; [exact E'|]. split.
  - apply (advance_inv s' w1); auto.
    + rewrite A4. apply (wi_at _ _ _ _ _ _ _ _ I2).
    + intros a Ha. etransitivity; [apply (A6 n Hx a Ha)|apply He; auto].
    + left; auto.
    + intros y Hy. right. apply Hh; auto.
  - intros y. unfold add. rewrite in_app_iff. cbn [In]. rewrite (Hh y). intuition auto.
Qed.

Lemma extend_step : forall fuel slice s w H l l1 ds cur q, WInv s w H l l1 ds cur q -> held H0 H l1 -> settled cur q -> bytes_ok slice ->
  (length slice + (if Nat.eqb (room w) 0 then 1 else 0) < fuel)%nat -> prefix (concat ds ++ cur ++ slice) all ->
  exists s' w' H' l' l1' ds' cur' q' r k, extend_loop crc fuel w slice s = (s', Ok (w', r)) /\
    WInv s' w' H' l' l1' ds' cur' q' /\ held H0 H' l1' /\ settled cur' q' /\ w_id w' = w_id w /\ prefix ds ds' /\
    concat ds' ++ cur' = concat ds ++ cur ++ firstn k slice /\
    ((r = None /\ k = length slice) \/ (r = Some DeviceFull /\ forall x, data_sector x -> H' x)).
Proof.
  induction fuel as [|fuel IH]; intros slice s w H l l1 ds cur q I Hh St Hb Hf Hp; [lia|].
  cbn [extend_loop]. destruct slice as [|b0 rest] eqn:Es.
  { exists s, w, H, l, l1, ds, cur, q, None, 0%nat. rewrite firstn_nil, app_nil_r.
    split; [reflexivity|]. split; [auto|]. split; [auto|]. split; [auto|]. split; [auto|]. split; [apply prefix_refl|]. split; [auto|]. left; auto. }
  rewrite <- Es in *. assert (Hne : (0 < length slice)%nat) by (rewrite Es; cbn; lia). clear Es b0 rest.
  destruct (wrep_room _ _ _ _ _ _ _ _ I St) as (Hr & Hlast & Hoff & Hpos).
  pose proof (wi_rep _ _ _ _ _ _ _ _ I) as Ir. pose proof (wr_q _ _ _ _ _ Ir) as Q. pose proof (wr_off _ _ _ _ _ Ir) as Eo.
  assert (Efree : (256 - w_off w - (if (252 * 15 <=? w_len w)%N then 20 else 4))%nat = room w) by reflexivity.
  rewrite Efree. destruct (Nat.ltb_spec (length slice) (room w)) as [Hlt|Hge].
  - exists s, (mkW (splice (w_buf w) (w_off w) slice) (w_off w + length slice) (w_len w + N.of_nat (length slice)) (w_sec w) (w_id w)),
      H, l, l1, ds, (cur ++ slice), q, None, (length slice). rewrite firstn_all.
    assert (Hsz : (q < 15 -> N.of_nat (length cur + length slice) < 252 * q + 252) /\ N.of_nat (length cur + length slice) <= 4016).
    { rewrite Hr in Hlt. destruct (N.eqb_spec q 15); lia. }
    split; [reflexivity|]. split; [|split; [auto|split; [unfold settled; rewrite app_length; lia|split; [auto|split; [apply prefix_refl|split; [auto|left; auto]]]]]].
    destruct I; constructor; auto. cbn [w_sec]. apply wrep_more; auto; lia.
  - set (sl := firstn (room w) slice). assert (Hsl : length sl = room w) by (unfold sl; rewrite firstn_length; lia).
    assert (Hbs : bytes_ok sl) by (apply bytes_ok_firstn; auto).
    assert (Hbr : bytes_ok (skipn (room w) slice)).
    { rewrite <- (firstn_skipn (room w) slice) in Hb. apply Forall_app in Hb. tauto. }
    assert (Esl : slice = sl ++ skipn (room w) slice) by (symmetry; apply firstn_skipn).
    assert (Hpre : forall k, concat ds ++ cur ++ sl ++ firstn k (skipn (room w) slice) = concat ds ++ cur ++ firstn (room w + k) slice).
    { intros k. do 2 f_equal. replace (firstn (room w + k) slice) with (firstn (room w + k) (sl ++ skipn (room w) slice)) by (rewrite <- Esl; reflexivity). rewrite firstn_app, Hsl, (firstn_all2 sl) by lia. do 2 f_equal. lia. }
    rewrite <- Hsl. rewrite Hlast. destruct (N.eqb_spec q 15) as [->|Hq15].
    + destruct (full_sector_step s w H l l1 ds cur sl I Hh Hbs Hsl) as [I1 [(s1 & n & s' & E1 & E2 & I2 & Hh2)|[E Hfull]]].
      { rewrite Esl in Hp. rewrite app_assoc in Hp. rewrite app_assoc in Hp. apply prefix_app_l in Hp. rewrite <- app_assoc in Hp. exact Hp. }
      * rewrite E1. rewrite (bind_ok _ _ _ _ _ E2). cbn [w_buf w_off w_len w_sec w_id]. rewrite Hsl.
        destruct (IH (skipn (room w) slice) s' (mkW blank_page 0 0 n (w_id w)) (add H n) (l ++ [w_sec w]) (l1 ++ [n]) (ds ++ [cur ++ sl]) [] 0)
          as (s2 & w2 & H2 & l2 & l12 & ds2 & cur2 & q2 & r2 & k2 & E & J1 & J2 & J3 & J4 & J5 & J6 & J7); auto.
        -- unfold settled; cbn; lia.
        -- unfold room at 2. cbn [w_off w_len]. change (252 * 15 <=? 0) with false. rewrite skipn_length.
           change (Nat.eqb (256 - 0 - 4) 0) with false. cbv iota. destruct (Nat.eqb_spec (room w) 0); lia.
        -- rewrite concat_snoc. cbn [app]. rewrite <- !app_assoc, <- Esl. exact Hp.
        -- exists s2, w2, H2, l2, l12, ds2, cur2, q2, r2, (room w + k2)%nat. split; [exact E|]. split; [auto|]. split; [auto|]. split; [auto|].
           split; [auto|]. split; [eapply prefix_trans; [apply prefix_app|exact J5]|]. split.
           ++ rewrite J6, concat_snoc. cbn [app]. rewrite <- Hpre, <- !app_assoc. reflexivity.
           ++ destruct J7 as [[-> ->]|J7]; [left|right; auto]. split; [auto|]. rewrite skipn_length. lia.
      * rewrite E. exists s, (mkW (splice (w_buf w) (w_off w) sl) (w_off w + length sl) (w_len w + N.of_nat (length sl)) (w_sec w) (w_id w)),
          H, l, l1, ds, (cur ++ sl), 15, (Some DeviceFull), (room w).
        split; [reflexivity|]. split; [exact I1|]. split; [auto|]. split; [unfold settled; lia|]. split; [auto|]. split; [apply prefix_refl|].
        split; [reflexivity|]. right; auto.
    + destruct (full_page_step s w H l l1 ds cur q sl I St ltac:(lia) Hbs Hsl) as (s1 & E1 & I1 & St1).
      { eapply prefix_app_l; exact Hp. }
      rewrite (bind_ok _ _ _ _ _ E1). rewrite Hsl.
      destruct (IH (skipn (room w) slice) s1 (mkW blank_page 0 (w_len w + N.of_nat (length sl)) (w_sec w) (w_id w)) H l l1 ds (cur ++ sl) (q + 1))
          as (s2 & w2 & H2 & l2 & l12 & ds2 & cur2 & q2 & r2 & k2 & E & J1 & J2 & J3 & J4 & J5 & J6 & J7); auto.
      * specialize (Hpos Hq15). unfold room at 2. cbn [w_off w_len]. rewrite skipn_length.
        destruct (252 * 15 <=? w_len w + N.of_nat (length sl)); cbn [Nat.sub Nat.eqb]; lia.
      * rewrite <- !app_assoc, <- Esl. exact Hp.
      * exists s2, w2, H2, l2, l12, ds2, cur2, q2, r2, (room w + k2)%nat. rewrite Hsl in E. split; [exact E|]. split; [auto|]. split; [auto|]. split; [auto|].
        split; [auto|]. split; [auto|]. split.
        -- rewrite J6, <- Hpre, <- !app_assoc. reflexivity.
        -- destruct J7 as [[-> ->]|J7]; [left|right; auto]. split; [auto|]. rewrite skipn_length. lia.
Qed.
End Session.
End Ops.

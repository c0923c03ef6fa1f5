(** * C112: the file system obeys the rules of the flash chip, and so behaves alike on the chip, in memory and in an image file. *)
From Coq Require Import Permutation.
From Verif Require Import Base Majority Flash FS Sectors SectorsProofs ATable TornCode TableCode TableScan ChipRules TableBuild TableOps DirOps Chains FileIO FileFormat FileWrite WriteOps WriteSpec Disk Sessions DirState OpenOps Append OpenWrite FsSpec FsApi FsRefine FsBoot FsHistory PropDirectory FsExec FsExamples.
Local Open Scope N_scope.

(** ** The stand-ins for the chip (specification)
    [MemoryFlash] (vlfs/src/flash/memory_flash.rs:46-100) and [FileFlash] (vlfs/src/flash/file_flash.rs:46-89) store the bytes they are
    given: they do not only clear bits, and would hide a page that is programmed twice. *)
Definition store_op (f : flash) (o : fop) : flash :=
  match o with
  | Erase a n => fun x => if (a <=? x) && (x <? a + n) then 255 else f x
  | Prog a d => fun x => if (a <=? x) && (x <? a + N.of_nat (length d)) then nth (N.to_nat (x - a)) d 255 else f x
  end.
Definition store_ops (f : flash) (l : list fop) : flash := fold_left store_op l f.

(** power lost during the operations, as in [crash], on such a flash *)
Inductive store_crash : flash -> list fop -> flash -> Prop :=
| sc_at f l : store_crash f l f
| sc_prog f a d j l : store_crash f (Prog a d :: l) (store_op f (Prog a (firstn j d)))
| sc_erase f a n (pages : N -> bool) l :
    store_crash f (Erase a n :: l) (fun x => if (a <=? x) && (x <? a + n) && pages ((x - a) / 256) then 255 else f x)
| sc_later f o l f' : store_crash (store_op f o) l f' -> store_crash f (o :: l) f'.

Definition alike (f g : flash) : Prop := forall x, f x = g x.

Lemma store_prog_same f g a d j : alike f g -> allowed_op f (Prog a d) -> alike (apply_op f (Prog a (firstn j d))) (store_op g (Prog a (firstn j d))).
Proof.
  intros E (Hl & Ho & _ & _ & Hb) x. cbn [apply_op store_op].
  destruct (N.leb_spec a x) as [L1|L1]; cbn [andb]; [|apply E].
  destruct (N.ltb_spec x (a + N.of_nat (length (firstn j d)))) as [L2|L2]; cbn [andb]; [|apply E].
  rewrite firstn_length in L2. rewrite Hb by lia. apply land_255. apply (proj1 (Forall_forall _ _) Ho). rewrite nth_firstn_d.
  destruct (Nat.ltb_spec (N.to_nat (x - a)) j); [|lia]. apply nth_In. lia.
Qed.
Lemma store_op_same f g o : alike f g -> allowed_op f o -> alike (apply_op f o) (store_op g o).
Proof.
  intros E A. destruct o as [a n|a d].
  - intros x. cbn [apply_op store_op]. rewrite (E x). reflexivity.
  - pose proof (store_prog_same f g a d (length d) E A) as K. rewrite firstn_all in K. exact K.
Qed.
Lemma allowed_same f g o : alike f g -> allowed_op f o -> allowed_op g o.
Proof. intros E. destruct o as [a n|a d]; cbn [allowed_op]; [auto|]. intros (A & B & C & D & F). repeat (split; [assumption|]). intros x Hx. rewrite <- E. auto. Qed.

Lemma store_ops_same l : forall f g, alike f g -> by_the_rules f l -> alike (apply_ops f l) (store_ops g l).
Proof.
  induction l as [|o l IH]; intros f g E R; [exact E|]. destruct R as [A R]. cbn [apply_ops store_ops fold_left].
  apply IH; [apply store_op_same; auto|exact R].
Qed.

(** ** Every call obeys the rules *)
Section S.
Variable crc : list byte -> N.
Hypothesis crc_bound : crc32 crc.

Definition ruled (s s' : fs) : Prop := exists ops, lg s' = lg s ++ ops /\ fl s' = apply_ops (fl s) ops /\ by_the_rules (fl s) ops.
Lemma traced_ruled te s s' G : traced te s s' G -> ruled s s'.
Proof. intros (ops & A & B & _ & R). exists ops. auto. Qed.
Lemma ruled_still s : ruled s s.
Proof. exists []. rewrite app_nil_r. split; [reflexivity|]. split; [reflexivity|exact I]. Qed.
Lemma ruled_quiet s s' : lg s' = lg s -> fl s' = fl s -> ruled s s'.
Proof. intros A B. exists []. rewrite app_nil_r. split; [exact A|]. split; [exact B|exact I]. Qed.

Lemma finish_fs {A} (r : fs * res A) good y s' : fst r = s' -> (forall s a, sfs (fst (good s a)) = s) -> sfs (fst (finish r good y)) = s'.
Proof. intros E H. destruct r as [s [a|e|]]; cbn [finish fst] in *; [rewrite H|cbn [sfs]|cbn [sfs]]; exact E. Qed.

Lemma finish_ruled {A} (r : fs * res A) good y s' : fst r = s' -> (forall s a, sfs (fst (good s a)) = s) -> ruled (sfs y) s' ->
  ruled (sfs y) (sfs (fst (finish r good y))).
Proof. intros E H R. rewrite (finish_fs r good y s' E H). exact R. Qed.

Lemma call_ruled y v c : Repr crc y v -> allowed v c -> ruled (sfs y) (sfs (fst (perform crc c y))).
Proof.
  intros RR Hal. pose proof RR as [(p & ents & C & H & W & ST & EF & EW & EV) Hrd Hop Hnd].
  pose proof (st_disk _ _ _ _ _ _ _ _ _ ST) as Dk. pose proof (disk_len _ _ _ _ _ _ _ Dk) as Hlen.
  destruct c as [t|t|sel0|id|id|k d|k|k|k]; cbn [perform].
  - destruct Hal as [Ht Hl]. rewrite EF, view_length in Hl by auto.
    destruct (create_both crc (sfs y) p (v_gen v) ents (v_top v) C H W t ST) as (s' & T & R); auto. { unfold slot_blocks. lia. }
    assert (T1 : ruled (sfs y) s') by exact (traced_ruled false _ _ _ (T false (fun X => False_ind _ (Bool.diff_false_true X)))). clear T.
    refine (finish_ruled _ _ y s' _ _ T1); [|intros; reflexivity].
    destruct R as [(E & _)|(E & _)]; rewrite E; reflexivity.
  - destruct Hal as [Ht Hl]. rewrite EF, view_length in Hl by auto.
    destruct (create_open_both crc (sfs y) p (v_gen v) ents (v_top v) C H W t ST) as (s' & T & R); auto. { unfold slot_blocks. lia. }
    assert (T1 : ruled (sfs y) s') by exact (traced_ruled false _ _ _ (T false (fun X => False_ind _ (Bool.diff_false_true X)))). clear T.
    refine (finish_ruled _ _ y s' _ _ T1); [|intros; reflexivity].
    destruct R as [(x & E & _)|(E & _)]; rewrite E; reflexivity.
  - assert (Hmk : forall id, existsb (fun x => x =? id) (a_open (atb (sfs y))) = marked v id) by (intros id; symmetry; apply marked_perm; auto).
    set (flt := fun e => sel0 (e_id e) (e_typ e)).
    destruct (remove_both crc (sfs y) p (v_gen v) ents (v_top v) C H W flt ST) as (s' & T & R).
    { intros w cur e Hin He Eid. apply In_nth_error in He. destruct He as (i & He).
      assert (Hi : (i < length C)%nat) by (rewrite <- Hlen; apply nth_error_Some; congruence).
      destruct (nth_error C i) as [c|] eqn:Ec; [|apply nth_error_None in Ec; lia].
      assert (G : goes v sel0 (e_id e, e_typ e, snd c) = false).
      { apply (Hal (w_id w) cur (e_id e, e_typ e, snd c)).
        - rewrite EV. apply in_map_iff. exists (w, cur). auto.
        - unfold lookup. rewrite EF, <- Eid. eapply find_view; eauto. apply sorted_nodup, (dk_sorted _ _ _ _ _ _ _ Dk). }
      unfold goes, f_id, f_typ in G. cbn [fst snd] in G. unfold keeps, drops. rewrite Hmk. unfold flt. rewrite G. reflexivity. }
    assert (T1 : ruled (sfs y) s') by exact (traced_ruled false _ _ _ (T false (fun X => False_ind _ (Bool.diff_false_true X)))). clear T.
    refine (finish_ruled _ _ y s' _ _ T1); [|intros; reflexivity].
    destruct R as [(E & _)|(E & _)]; rewrite E; reflexivity.
  - pose proof (marked_in (a_open (atb (sfs y))) v id Hop) as Hm.
    destruct (open_write_op crc (sfs y) p (v_gen v) ents (v_top v) C H W id ST) as [(E & Hn)|(i & e & l0 & c0 & He & Eid & Ec & R)].
    { intros Hnin w cur Hin Ew. apply (Hal ltac:(destruct (marked v id); [tauto|auto])). rewrite EV, map_map. apply in_map_iff. exists (w, cur). auto. }
    { rewrite E. apply ruled_still. }
    destruct R as [(E & Hin)|(Hin & [(E & L)|(L & s' & T & R)])]; [rewrite E; apply ruled_still|rewrite E; apply ruled_still|].
    apply (finish_ruled _ _ y s'); [|intros; reflexivity|exact (traced_ruled false _ _ _ T)].
    destruct R as [(E & _)|[(E & _)|(x & p' & seq' & ents' & mx' & C' & H' & E & _)]]; rewrite E; reflexivity.
  - destruct (open_read_op crc (sfs y) p (v_gen v) ents (v_top v) C H W id ST) as [(E & _)|(e & _ & _ & R)]; [rewrite E; apply ruled_still|].
    destruct R as [(E & _)|(_ & [(E & _)|(s' & E & _ & _ & F & Lg & _)])]; [rewrite E; apply ruled_still|rewrite E; apply ruled_still|].
    apply (finish_ruled _ _ y s'); [rewrite E; reflexivity|intros; reflexivity|]. apply ruled_quiet; auto.
  - destruct Hal as [Hd Hk]. destruct (nth_error (v_wr v) k) as [[id pend]|] eqn:Ek; [|apply nth_error_None in Ek; lia].
    destruct (writer_at y v W k id pend EW EV Ek) as (w & A & B & EWW & Lk & Eid & Enw).
    assert (ST1 : State crc (sfs y) p (v_gen v) ents (v_top v) C H ((w, pend) :: A ++ B)).
    { eapply state_perm; [|exact ST]. rewrite EWW. symmetry. apply Permutation_middle. }
    destruct (extend_op crc crc_bound false (sfs y) p (v_gen v) ents (v_top v) C H w pend (A ++ B) d ST1 Hd)
      as (i & e & l0 & c0 & He & Eie & Ec & s' & w' & cur' & c' & H' & r & n & E & ST' & T & _).
    rewrite Enw, E. apply (traced_ruled false _ _ _ T).
  - cbn [allowed] in Hal. destruct (nth_error (v_wr v) k) as [[id pend]|] eqn:Ek; [|apply nth_error_None in Ek; lia].
    destruct (writer_at y v W k id pend EW EV Ek) as (w & A & B & EWW & Lk & Eid & Enw).
    assert (ST1 : State crc (sfs y) p (v_gen v) ents (v_top v) C H ((w, pend) :: A ++ B)).
    { eapply state_perm; [|exact ST]. rewrite EWW. symmetry. apply Permutation_middle. }
    destruct (flush_op crc crc_bound false (sfs y) p (v_gen v) ents (v_top v) C H w pend (A ++ B) ST1)
      as (i & e & l0 & c0 & He & Eie & Ec & s' & w' & r & E & Ew' & T & _).
    rewrite Enw, E. apply (traced_ruled false _ _ _ T).
  - cbn [allowed] in Hal. destruct (nth_error (v_wr v) k) as [[id pend]|] eqn:Ek; [|apply nth_error_None in Ek; lia].
    destruct (writer_at y v W k id pend EW EV Ek) as (w & A & B & EWW & Lk & Eid & Enw).
    assert (ST1 : State crc (sfs y) p (v_gen v) ents (v_top v) C H ((w, pend) :: A ++ B)).
    { eapply state_perm; [|exact ST]. rewrite EWW. symmetry. apply Permutation_middle. }
    destruct (close_op crc crc_bound false (sfs y) p (v_gen v) ents (v_top v) C H w pend (A ++ B) ST1)
      as (i & e & l0 & c0 & He & Eie & Ec & s' & E & T & _).
    rewrite Enw, E. apply (traced_ruled false _ _ _ T).
  - cbn [allowed] in Hal. destruct (nth_error (v_rd v) k) as [id|] eqn:Ek; [|apply nth_error_None in Ek; lia].
    assert (Ek' : nth_error (srs y) k = Some id) by congruence. rewrite Ek', mark_closed_eq. apply ruled_quiet; reflexivity.
Qed.
End S.

Lemma skip_app {A} (l r : list A) : skipn (length l) (l ++ r) = r.
Proof. induction l; [reflexivity|assumption]. Qed.

Lemma format_shape : length (image 1 [] 0 ++ repeat 255 230) = 256%nat /\ bytes_ok (image 1 [] 0 ++ repeat 255 230).
Proof.
  destruct (header_serialize_shape 1) as [Lh Bh]. destruct (entry_serialize_shape (footer_entry 0)) as [Lf Bf].
  change (entry_serialize (footer_entry 0)) with (footer_serialize 0) in Lf, Bf.
  split; [rewrite app_length, image_26, repeat_length; reflexivity|].
  unfold image, image_blocks. cbn [map app concat]. apply Forall_app. split; [apply Forall_app; split; [exact Bh|apply Forall_app; split; [exact Bf|constructor]]|].
  apply Forall_forall. intros x Hx. apply repeat_spec in Hx. subst x. reflexivity.
Qed.

Lemma boot_ruled crc f F top gen r : Holds crc f F top gen -> by_the_rules f (lg (fst (boot f r))).
Proof.
  intros HH. assert (Hdec : (exists t, Kept crc f F t gen) \/ (Fresh f /\ invalid f 0)).
  { destruct HH as [K|(Fr & -> & ->)]; [left; eauto|]. destruct (fresh_scan crc f Fr) as [Hi|(t & K)]; [right; auto|left; eauto]. }
  destruct Hdec as [(t & K)|(Fr & Hi)].
  - destruct (boot_kept crc f F t gen r K) as (s & E & El & _). rewrite E. cbn [fst]. rewrite El. exact I.
  - assert (Hall : forall q, q < 4 -> invalid f (q * 32768)).
    { intros q Hq. destruct (N.eqb_spec q 0) as [->|H0]; [exact Hi|]. left. apply Fr. lia. }
    assert (Eb : boot f r = (emit (emit (boot_state f r) (Erase 0 4096)) (Prog 0 (image 1 [] 0 ++ repeat 255 230)), Ok tt)).
    { unfold boot, init. rewrite bind_get. cbn [boot_state fl atb]. rewrite (read_latest_none f at_default Hall). apply (format_run crc). }
    rewrite Eb. cbn [fst emit lg boot_state app]. destruct format_shape as [L B].
    set (d := image 1 [] 0 ++ repeat 255 230) in *. clearbody d. cbn [by_the_rules allowed_op].
    split; [split; [left; reflexivity|split; [reflexivity|apply N.leb_le; reflexivity]]|].
    split; [|exact I]. split; [exact L|]. split; [exact B|]. split; [reflexivity|]. split; [apply N.leb_le; reflexivity|].
    intros x Hx. cbn [apply_op]. destruct (N.leb_spec 0 x); [|lia]. destruct (N.ltb_spec x (0 + 4096)); [reflexivity|lia].
Qed.

(** ** C112 *)
(** Whatever call is made, in whatever state the file system can be in, and whether it succeeds, fails or panics: each erase it
    asks for is a whole sector or block at an address the chip can erase it at, each program is one whole page that is blank. *)
Theorem C112_calls_obey_the_chip crc es y c : crc32 crc -> history crc es (On y) -> legal y c ->
  by_the_rules (fl (sfs y)) (flash_ops crc c y) /\ fl (sfs (fst (perform crc c y))) = apply_ops (fl (sfs y)) (flash_ops crc c y).
Proof.
  intros Hc Hh Hl. destruct (running crc es y Hc Hh) as (v & _ & RR).
  destruct (call_ruled crc Hc y v c RR (legal_allowed crc y v c RR Hl)) as (ops & A & B & R).
  unfold flash_ops. rewrite A, skip_app. auto.
Qed.

(** so does starting the file system, on a chip in any state a life of calls and power losses can leave behind *)
Theorem C112_starting_obeys_the_chip crc es f r : crc32 crc -> history crc es (Off f) -> by_the_rules f (lg (fst (boot f r))).
Proof.
  intros Hc Hh. destruct (history_refines crc Hc es (Off f) Hh) as (a & Ha & Hr). destruct a as [F t g|v]; [|destruct Hr].
  destruct Hr as (t' & HH & _). exact (boot_ruled crc f F t' g r HH).
Qed.

(** Hence the stand-ins, which store whatever they are given, hold the same bytes as the chip after every call *)
Theorem C112_same_in_memory crc es y c g : crc32 crc -> history crc es (On y) -> legal y c -> alike (fl (sfs y)) g ->
  alike (fl (sfs (fst (perform crc c y)))) (store_ops g (flash_ops crc c y)).
Proof.
  intros Hc Hh Hl E. destruct (C112_calls_obey_the_chip crc es y c Hc Hh Hl) as [R B]. rewrite B. apply store_ops_same; auto.
Qed.

(** and after every power loss, at any point of the call or of the start *)
Lemma crash_same f g ops f' : alike f g -> by_the_rules f ops -> crash f ops f' -> exists g', store_crash g ops g' /\ alike f' g'.
Proof.
  intros E R H. revert g E R. induction H as [f l|f o l f' T|f o l f' H IH]; intros g E R.
  - exists g. split; [constructor|exact E].
  - destruct R as [A _]. destruct T as [a d j f|a n pages f].
    + exists (store_op g (Prog a (firstn j d))). split; [constructor|]. apply store_prog_same; auto.
    + eexists. split; [apply sc_erase|]. intros x. rewrite (E x). reflexivity.
  - destruct R as [A R]. destruct (IH (store_op g o) (store_op_same f g o E A) R) as (g' & S1 & S2). exists g'. split; [constructor; exact S1|exact S2].
Qed.
Lemma store_crash_same f g ops g' : alike f g -> by_the_rules f ops -> store_crash g ops g' -> exists f', crash f ops f' /\ alike f' g'.
Proof.
  intros E R H. revert f E R. induction H as [g l|g a d j l|g a n pages l|g o l g' H IH]; intros f E R.
  - exists f. split; [constructor|exact E].
  - destruct R as [A _]. exists (apply_op f (Prog a (firstn j d))). split; [apply crash_torn; constructor|]. apply store_prog_same; auto.
  - eexists. split; [apply crash_torn; apply torn_erase|]. intros x. rewrite (E x). reflexivity.
  - destruct R as [A R]. destruct (IH (apply_op f o) (store_op_same f g o E A) R) as (f' & S1 & S2). exists f'. split; [apply crash_later; exact S1|exact S2].
Qed.
Theorem C112_same_after_power_loss crc es y c g : crc32 crc -> history crc es (On y) -> legal y c -> alike (fl (sfs y)) g ->
  (forall f', crash (fl (sfs y)) (flash_ops crc c y) f' -> exists g', store_crash g (flash_ops crc c y) g' /\ alike f' g') /\
  (forall g', store_crash g (flash_ops crc c y) g' -> exists f', crash (fl (sfs y)) (flash_ops crc c y) f' /\ alike f' g').
Proof.
  intros Hc Hh Hl E. destruct (C112_calls_obey_the_chip crc es y c Hc Hh Hl) as [R _]. split; intros x Hx.
  - eapply crash_same; eauto.
  - eapply store_crash_same; eauto.
Qed.

(** The rules are what makes this true: a page programmed twice is one thing on the chip and another in memory, and a program that
    runs over the end of its page is not allowed either. *)
Theorem C112_rules_matter : exists ops, ~ by_the_rules blank ops /\ apply_ops blank ops 0 = 1 /\ store_ops blank ops 0 = 3.
Proof.
  exists [Prog 0 (5 :: repeat 0 255); Prog 0 (3 :: repeat 0 255)]. split; [|split; reflexivity].
  intros (_ & (_ & _ & _ & _ & K) & _). specialize (K 0 ltac:(lia)). cbn [apply_op blank] in K. discriminate K.
Qed.

(** concrete case: creating a file on a chip with two files erases one table block and writes one page; appending to an old file
    erases the sector that is rewritten *)
Definition op_shape (o : fop) : bool * N * N := match o with Erase a n => (true, a, n) | Prog a d => (false, a, N.of_nat (length d)) end.
Fixpoint shapes_eq (l k : list (bool * N * N)) : bool :=
  match l, k with
  | [], [] => true
  | (b, x, n) :: l', (b', x', n') :: k' => Bool.eqb b b' && (x =? x') && (n =? n') && shapes_eq l' k'
  | _, _ => false
  end.
Lemma shapes_eq_sound l : forall k, shapes_eq l k = true -> l = k.
Proof.
  induction l as [|[[a b] d] l IH]; intros [|[[a' b'] d'] k] H; cbn [shapes_eq] in H; try discriminate; [reflexivity|].
  apply andb_prop in H. destruct H as [H H4]. apply andb_prop in H. destruct H as [H H3]. apply andb_prop in H. destruct H as [H1 H2].
  apply N.eqb_eq in H2, H3. apply Bool.eqb_prop in H1. subst. f_equal. apply IH. exact H4.
Qed.
Example ex_C112 : exists es y, history sum es (On y) /\ legal y (Create 7) /\
  map op_shape (flash_ops sum (Create 7) y) = [(true, 0, 32768); (false, 0, 256)].
Proof.
  destruct (reach two_files (fun y => legalb y (Create 7) && shapes_eq (map op_shape (flash_ops sum (Create 7) y)) [(true, 0, 32768); (false, 0, 256)]))
    as (es & y & Hh & H); [vm_compute; reflexivity|].
  apply andb_prop in H. destruct H as [H1 H2]. exists es, y. split; [exact Hh|]. split; [apply legalb_sound; exact H1|apply shapes_eq_sound; exact H2].
Qed.

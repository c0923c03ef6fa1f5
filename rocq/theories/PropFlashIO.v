(** * C102: bytes streamed to flash are the bytes streamed back, in whatever pieces, with the same checksum. *)
From Verif Require Import Base Flash FlashIO.
Local Open Scope N_scope.

(** ** Specification *)

(** A driver may put any five bytes in front of the data, but five they are. *)
Definition five (dr : driver) : Prop := forall a h, length h = 5%nat -> length (dr a h) = 5%nat.

(** The 32-bit big-endian words of a byte string; up to three bytes at the end that make no word are left out. *)
Fixpoint whole_words (l : list byte) : list N :=
  match l with
  | b0 :: b1 :: b2 :: b3 :: rest => (b0 * 2 ^ 24 + b1 * 2 ^ 16 + b2 * 2 ^ 8 + b3) :: whole_words rest
  | _ => []
  end.

(** Position [j] of a read of [total] bytes is overwritten by the command of the [k]th transfer (the first has number 0). *)
Definition under_command (total : nat) (k j : nat) : Prop := (1 <= k /\ chunk * k < total /\ chunk * k <= j + 5 < chunk * k + 5)%nat.

(** ** Lists *)
Lemma chunk_five : (5 < chunk)%nat.
Proof. apply Nat.ltb_lt. reflexivity. Qed.

Lemma page_N : N.of_nat page = 256.
Proof. unfold page. apply N2Nat.id. Qed.

Lemma page_pos : (5 < page)%nat.
Proof. apply Nat.ltb_lt. reflexivity. Qed.

Lemma nth_app_in {A} (l1 l2 : list A) d i : nth i (l1 ++ l2) d = if Nat.ltb i (length l1) then nth i l1 d else nth (i - length l1) l2 d.
Proof.
  destruct (Nat.ltb_spec i (length l1)); [apply app_nth1; lia|apply app_nth2; lia].
Qed.

Lemma nth_skipn_at {A} (l : list A) n i d : nth i (skipn n l) d = nth (n + i) l d.
Proof.
  revert n. induction l as [|x l IH]; intros [|n]; cbn [skipn Nat.add nth]; auto. destruct i; reflexivity.
Qed.

Lemma nth_firstn_at {A} (l : list A) n i d : (i < n)%nat -> nth i (firstn n l) d = nth i l d.
Proof.
  revert n i. induction l as [|x l IH]; intros [|n] [|i] H; cbn [firstn nth]; auto; try lia. apply IH. lia.
Qed.

Section Driver.
Variable dr : driver.
Hypothesis F5 : five dr.

(** ** Reading *)
Lemma read_4kib_ok f a n buf : (5 + n <= length buf)%nat ->
  exists b, read_4kib dr f a n buf = Some b /\ length b = length buf /\
    (forall i, (i < 5)%nat -> nth i b 0 = nth i (dr a (firstn 5 buf)) 0) /\
    (forall i, (i < n)%nat -> nth (5 + i) b 0 = f (a + N.of_nat i)) /\
    (forall i, (5 + n <= i)%nat -> nth i b 0 = nth i buf 0).
Proof.
  intros H. unfold read_4kib. destruct (Nat.ltb_spec (length buf) (5 + n)); [lia|].
  assert (L5 : length (dr a (firstn 5 buf)) = 5%nat) by (apply F5; rewrite firstn_length; lia).
  eexists; split; [reflexivity|]. repeat apply conj.
  - rewrite !app_length, L5, rd_length, skipn_length. lia.
  - intros i Hi. rewrite nth_app_in, L5. destruct (Nat.ltb_spec i 5); [reflexivity|lia].
  - intros i Hi. rewrite nth_app_in, L5. destruct (Nat.ltb_spec (5 + i) 5); [lia|].
    rewrite nth_app_in, rd_length. destruct (Nat.ltb_spec (5 + i - 5) n); [|lia]. rewrite rd_nth by lia. f_equal. lia.
  - intros i Hi. rewrite nth_app_in, L5. destruct (Nat.ltb_spec i 5); [lia|].
    rewrite nth_app_in, rd_length. destruct (Nat.ltb_spec (i - 5) n); [lia|]. rewrite nth_skipn_at. f_equal. lia.
Qed.

(** After [done] bytes: the positions filled, command bytes included. *)
Definition filled (f : flash) (a : N) (done : nat) (b : list byte) : Prop :=
  (forall j, (j < done)%nat -> (forall k, ~ under_command done k j) -> nth (5 + j) b 0 = f (a + N.of_nat j)) /\
  (forall j k, under_command done k j -> (j < done)%nat ->
     nth (5 + j) b 0 = nth (j + 5 - chunk * k) (dr (a + N.of_nat (chunk * k)) (rd f (a + N.of_nat (chunk * k) - 5) 5)) 0).

Lemma under_step k done n j : (done = chunk * k)%nat -> (1 <= n)%nat -> (n <= chunk)%nat -> forall k',
  under_command (done + n) k' j <-> (under_command done k' j \/ (k' = k /\ (1 <= k)%nat /\ (done <= j + 5 < done + 5)%nat)).
Proof.
  intros E H1 H2 k'. pose proof chunk_five. unfold under_command. subst done. split.
  - intros (A & B & C). destruct (Nat.eq_dec k' k) as [->|Hn]; [right; lia|left]. assert (k' < k)%nat by nia. nia.
  - intros [(A & B & C)|(-> & A & B)]; [repeat apply conj; try lia|repeat apply conj; lia].
Qed.

Lemma read_loop_ok f a total : a + N.of_nat total <= 2 ^ 32 -> forall fuel k done buf,
  (done = chunk * k)%nat \/ done = total -> (done <= total)%nat -> (total - done < fuel)%nat -> (5 + total <= length buf)%nat -> filled f a done buf ->
  exists b, read_loop fuel dr f a total done buf = Some b /\ length b = length buf /\ filled f a total b.
Proof.
  intros Ha. pose proof chunk_five as C5. induction fuel as [|fuel IH]; intros k done buf E D F L Fi; [lia|].
  cbn [read_loop]. destruct (Nat.ltb_spec done total) as [Hlt|Hge].
  2:{ exists buf. replace total with done by lia. auto. }
  destruct E as [E|E]; [|lia].
  set (n := if Nat.ltb chunk (total - done) then chunk else (total - done)%nat).
  assert (Hn : (1 <= n <= chunk /\ n <= total - done)%nat) by (unfold n; destruct (Nat.ltb_spec chunk (total - done)); lia).
  assert (Hn' : (n = chunk \/ done + n = total)%nat) by (unfold n; destruct (Nat.ltb_spec chunk (total - done)); lia).
  destruct (N.leb_spec (2 ^ 32) (a + N.of_nat done)) as [X|_]; [exfalso; lia|].
  destruct (Nat.ltb_spec (length buf) done) as [X|_]; [exfalso; lia|].
  destruct (read_4kib_ok f (a + N.of_nat done) n (skipn done buf)) as (b & Eb & Lb & B1 & B2 & B3); [rewrite skipn_length; lia|].
  rewrite Eb. rewrite skipn_length in Lb.
  assert (Lf : length (firstn done buf) = done) by (rewrite firstn_length; lia).
  destruct (IH (S k) (done + n)%nat (firstn done buf ++ b)) as (b' & E' & L' & F').
  - destruct Hn' as [->|X]; [left; rewrite E; lia|right; lia].
  - lia.
  - lia.
  - rewrite app_length. lia.
  - assert (Old : forall i, (i < done)%nat -> nth i (firstn done buf ++ b) 0 = nth i buf 0).
    { intros i Hi. rewrite nth_app_in, Lf. destruct (Nat.ltb_spec i done); [|lia]. apply nth_firstn_at. lia. }
    assert (Cmd : forall i, (i < 5)%nat -> nth (done + i) (firstn done buf ++ b) 0 = nth i (dr (a + N.of_nat done) (firstn 5 (skipn done buf))) 0).
    { intros i Hi. rewrite nth_app_in, Lf. destruct (Nat.ltb_spec (done + i) done); [lia|]. replace (done + i - done)%nat with i by lia. apply B1. lia. }
    assert (Dat : forall i, (i < n)%nat -> nth (5 + (done + i)) (firstn done buf ++ b) 0 = f (a + N.of_nat (done + i))).
    { intros i Hi. rewrite nth_app_in, Lf. destruct (Nat.ltb_spec (5 + (done + i)) done); [lia|].
      replace (5 + (done + i) - done)%nat with (5 + i)%nat by lia. rewrite B2 by lia. f_equal. lia. }
    destruct Fi as (P1 & P2). pose proof (fun j => under_step k done n j E (proj1 (proj1 Hn)) (proj2 (proj1 Hn))) as St. split.
    + intros j Hj Hu. destruct (Nat.lt_ge_cases j done) as [Hlo|Hhi].
      * destruct (Nat.lt_ge_cases (5 + j) done) as [Hlo2|Hhi2].
        -- rewrite Old by lia. apply P1; auto. intros k' U. apply (Hu k'), St. auto.
        -- exfalso. destruct k as [|k]; [lia|]. apply (Hu (S k)), St. right. lia.
      * replace j with (done + (j - done))%nat by lia. apply Dat. lia.
    + intros j k' U Hj. apply St in U. destruct U as [U|(-> & K1 & K2)].
      * assert (Hj2 : (j < done /\ 5 + j < done)%nat).
        { destruct U as (A & B & C). assert (k' < k)%nat by nia. assert (chunk * k' + chunk <= done)%nat by (rewrite E; nia). lia. }
        rewrite Old by lia. apply P2; [exact U|lia].
      * replace (5 + j)%nat with (done + (j + 5 - done))%nat by lia. rewrite Cmd by lia. rewrite <- E. do 2 f_equal.
        apply (nth_ext_d _ _ 0); [rewrite firstn_length, skipn_length, rd_length; lia|]. intros i Hi. rewrite firstn_length, skipn_length in Hi.
        rewrite nth_firstn_at, nth_skipn_at by lia. rewrite rd_nth by lia.
        assert (Hi5 : (i < 5)%nat) by lia. assert (D5 : (5 < done)%nat) by (subst done; nia).
        replace (done + i)%nat with (5 + (done - 5 + i))%nat by lia. rewrite P1; [f_equal; lia|lia|].
        intros k' (A & B & C). subst done. assert (k' < k)%nat by nia. nia.
  - exists b'. rewrite E'. split; [reflexivity|]. split; [|exact F'].
    rewrite L', app_length. lia.
Qed.

Lemma filled_nil f a b : filled f a 0 b.
Proof. split; intros; lia. Qed.

Lemma flash_read_ok f a total buf : a + N.of_nat total <= 2 ^ 32 -> (5 + total <= length buf)%nat ->
  exists b got, flash_read dr f a total buf = Some (b, got) /\ length b = length buf /\ filled f a total b /\ got = firstn total (skipn 5 b) /\ length got = total.
Proof.
  intros Ha Lb. unfold flash_read.
  destruct (read_loop_ok f a total Ha (S total) 0 0 buf) as (b & E & L & F); auto using filled_nil; try lia.
  rewrite E. destruct (Nat.ltb_spec (length b) (5 + total)); [lia|].
  exists b, (firstn total (skipn 5 b)). split; [reflexivity|]. split; [exact L|]. split; [exact F|]. split; [reflexivity|]. rewrite firstn_length, skipn_length. lia.
Qed.

(** A read of at most 4096 bytes returns the bytes of the flash, whatever the driver does to the five bytes in front of them. *)
Theorem C102_read_partial f a n buf : (n <= chunk)%nat -> a + N.of_nat n <= 2 ^ 32 -> (5 + n <= length buf)%nat ->
  exists b, flash_read dr f a n buf = Some (b, rd f a n) /\ length b = length buf.
Proof.
  intros Hn Ha Lb. destruct (flash_read_ok f a n buf Ha Lb) as (b & got & E & L & (P1 & P2) & Eg & Lg).
  exists b. split; [|exact L]. rewrite E. do 2 f_equal. apply (nth_ext_d _ _ 0); [rewrite rd_length; exact Lg|].
  intros i Hi. rewrite Lg in Hi. rewrite rd_nth by lia. rewrite Eg, nth_firstn_at, nth_skipn_at by lia. apply P1; [lia|].
  intros k (A & B & C). nia.
Qed.

(** Longer reads: which bytes come back, exactly.  Those the command of a later transfer was put over are the command's. *)
Theorem C102_long_read f a n buf : a + N.of_nat n <= 2 ^ 32 -> (5 + n <= length buf)%nat ->
  exists b got, flash_read dr f a n buf = Some (b, got) /\ length got = n /\ forall j, (j < n)%nat ->
    ((forall k, ~ under_command n k j) -> nth j got 0 = f (a + N.of_nat j)) /\
    (forall k, under_command n k j -> nth j got 0 = nth (j + 5 - chunk * k) (dr (a + N.of_nat (chunk * k)) (rd f (a + N.of_nat (chunk * k) - 5) 5)) 0).
Proof.
  intros Ha Lb. destruct (flash_read_ok f a n buf Ha Lb) as (b & got & E & L & (P1 & P2) & Eg & Lg).
  exists b, got. repeat apply conj; auto. intros j Hj.
  assert (Z : nth j got 0 = nth (5 + j) b 0) by (rewrite Eg, nth_firstn_at, nth_skipn_at by lia; reflexivity). rewrite Z. split; auto.
Qed.

(** ** Writing *)

(** How many bytes [write] really programs: the length, rounded up to whole pages. *)
Definition rounded (n : nat) : nat := (page * ((n + (page - 1)) / page))%nat.

Lemma write_256b_ok f a buf : (5 + page <= length buf)%nat ->
  exists b, write_256b dr f a buf = Some (apply_op f (Prog a (firstn page (skipn 5 buf))), b) /\ length b = length buf /\
    (forall i, (5 <= i)%nat -> nth i b 0 = nth i buf 0).
Proof.
  intros H. unfold write_256b. destruct (Nat.ltb_spec (length buf) (5 + page)); [lia|].
  assert (L5 : length (dr a (firstn 5 buf)) = 5%nat) by (apply F5; rewrite firstn_length; lia).
  eexists; split; [reflexivity|]. split; [rewrite app_length, L5, skipn_length; lia|].
  intros i Hi. rewrite nth_app_in, L5. destruct (Nat.ltb_spec i 5); [lia|]. rewrite nth_skipn_at. f_equal. lia.
Qed.

(** [g] is [f] with the bytes [d] programmed from address [a] on (programming clears bits). *)
Definition programmed (f : flash) (a : N) (d : list byte) (g : flash) : Prop :=
  forall x, g x = if (a <=? x) && (x <? a + N.of_nat (length d)) then N.land (f x) (nth (N.to_nat (x - a)) d 0) else f x.

Lemma programmed_app f a d1 g d2 h : programmed f a d1 g -> programmed g (a + N.of_nat (length d1)) d2 h -> programmed f a (d1 ++ d2) h.
Proof.
  intros P Q x. rewrite (Q x), !(P x), app_length.
  destruct (N.lt_ge_cases x a) as [H1|H1].
  { destruct (N.leb_spec a x); [lia|]. destruct (N.leb_spec (a + N.of_nat (length d1)) x); [lia|]. cbn [andb]. reflexivity. }
  destruct (N.leb_spec a x) as [_|]; [|lia]. cbn [andb]. rewrite nth_app_in.
  destruct (N.lt_ge_cases x (a + N.of_nat (length d1))) as [H2|H2].
  { destruct (N.leb_spec (a + N.of_nat (length d1)) x); [lia|]. cbn [andb]. destruct (N.ltb_spec x (a + N.of_nat (length d1))) as [_|]; [|lia].
    destruct (N.ltb_spec x (a + N.of_nat (length d1 + length d2))) as [_|]; [|lia]. destruct (Nat.ltb_spec (N.to_nat (x - a)) (length d1)); [reflexivity|lia]. }
  destruct (N.leb_spec (a + N.of_nat (length d1)) x) as [_|]; [|lia]. cbn [andb]. destruct (N.ltb_spec x (a + N.of_nat (length d1))); [lia|].
  destruct (Nat.ltb_spec (N.to_nat (x - a)) (length d1)); [lia|].
  destruct (N.ltb_spec x (a + N.of_nat (length d1) + N.of_nat (length d2))); destruct (N.ltb_spec x (a + N.of_nat (length d1 + length d2))); try lia.
  do 2 f_equal. lia.
Qed.

Lemma programmed_nil f a : programmed f a [] f.
Proof. intros x. cbn [length]. destruct (N.leb_spec a x); destruct (N.ltb_spec x (a + N.of_nat 0)); cbn [andb]; auto. lia. Qed.

Lemma programmed_prog f a d : programmed f a d (apply_op f (Prog a d)).
Proof.
  intros x. cbn [apply_op]. destruct (N.leb_spec a x); destruct (N.ltb_spec x (a + N.of_nat (length d))); cbn [andb]; auto.
  f_equal. apply nth_indep. lia.
Qed.

Lemma firstn_page_more (l : list byte) m n : firstn (m + n) l = firstn m l ++ firstn n (skipn m l).
Proof.
  revert l. induction m as [|m IH]; intros l; cbn [Nat.add firstn skipn app]; auto. destruct l as [|x l]; [rewrite !firstn_nil; reflexivity|].
  rewrite IH. reflexivity.
Qed.

Lemma write_loop_ok f0 a total buf0 : a + N.of_nat (rounded total) <= 2 ^ 32 -> (5 + rounded total <= length buf0)%nat -> forall fuel k f buf,
  (page * k <= rounded total)%nat -> (total - page * k < fuel)%nat -> length buf = length buf0 ->
  (forall i, (5 + page * k <= i)%nat -> nth i buf 0 = nth i buf0 0) ->
  programmed f0 a (firstn (page * k) (skipn 5 buf0)) f ->
  exists g b, write_loop fuel dr f a total (Nat.min total (page * k)) buf = Some (g, b) /\ programmed f0 a (firstn (rounded total) (skipn 5 buf0)) g.
Proof.
  intros Ha Lb. pose proof page_pos as P5. induction fuel as [|fuel IH]; intros k f buf K F L T P; [lia|].
  cbn [write_loop].
  assert (R : (total <= rounded total < total + page)%nat).
  { unfold rounded. pose proof (Nat.div_mod (total + (page - 1)) page ltac:(lia)). pose proof (Nat.mod_upper_bound (total + (page - 1)) page ltac:(lia)). lia. }
  destruct (Nat.ltb_spec (Nat.min total (page * k)) total) as [Hlt|Hge].
  2:{ exists f, buf. split; [reflexivity|]. assert (page * k = rounded total)%nat as <-; [|exact P].
      unfold rounded in *. set (q := ((total + (page - 1)) / page)%nat) in *. assert (k <= q)%nat by nia. assert (~ (k < q)%nat) by nia. nia. }
  rewrite Nat.min_r in * by lia.
  set (n := if Nat.ltb page (total - page * k) then page else (total - page * k)%nat).
  assert (Hn : (page * k + n = Nat.min total (page * (S k)))%nat) by (unfold n; destruct (Nat.ltb_spec page (total - page * k)); lia).
  assert (K' : (page * S k <= rounded total)%nat).
  { unfold rounded in *. set (q := ((total + (page - 1)) / page)%nat) in *. assert (k < q)%nat by nia. nia. }
  destruct (N.leb_spec (2 ^ 32) (a + N.of_nat (page * k))) as [X|_]; [exfalso; lia|].
  destruct (Nat.ltb_spec (length buf) (page * k)) as [X|_]; [exfalso; lia|].
  destruct (write_256b_ok f (a + N.of_nat (page * k)) (skipn (page * k) buf)) as (b & Eb & Lb' & B); [rewrite skipn_length; lia|].
  rewrite Eb, Hn. rewrite skipn_length in Lb'.
  assert (Lf : length (firstn (page * k) buf) = (page * k)%nat) by (rewrite firstn_length; lia).
  apply (IH (S k)).
  - exact K'.
  - lia.
  - rewrite app_length. lia.
  - intros i Hi. rewrite nth_app_in, Lf. destruct (Nat.ltb_spec i (page * k)); [lia|]. rewrite B by lia. rewrite nth_skipn_at.
    rewrite <- T by lia. f_equal. lia.
  - replace (page * S k)%nat with (page * k + page)%nat by lia. rewrite firstn_page_more. eapply programmed_app; [exact P|].
    rewrite (firstn_length_le (skipn 5 buf0)) by (rewrite skipn_length; lia).
    assert (firstn page (skipn (page * k) (skipn 5 buf0)) = firstn page (skipn 5 (skipn (page * k) buf))) as ->; [|apply programmed_prog].
    apply (nth_ext_d _ _ 0); [rewrite !firstn_length, !skipn_length; lia|]. intros i Hi. rewrite firstn_length in Hi.
    rewrite !nth_firstn_at, !nth_skipn_at by lia. rewrite T by lia. f_equal. lia.
Qed.

(** [write] programs the bytes after the five in front, and only those: exactly [n] of them if [n] is a multiple of 256, and whole pages
    otherwise. *)
Theorem C102_write f a n buf : a + N.of_nat (rounded n) <= 2 ^ 32 -> (5 + rounded n <= length buf)%nat ->
  exists g b, flash_write dr f a n buf = Some (g, b) /\ programmed f a (firstn (rounded n) (skipn 5 buf)) g.
Proof.
  intros Ha Lb. unfold flash_write. pose proof page_pos.
  destruct (write_loop_ok f a n buf Ha Lb (S n) 0 f buf) as (g & b & E & P); auto; try lia.
  - rewrite Nat.mul_0_r. cbn [firstn]. apply programmed_nil.
  - rewrite Nat.mul_0_r, Nat.min_0_r in E. eauto.
Qed.

Lemma rounded_multiple k : rounded (page * k) = (page * k)%nat.
Proof.
  pose proof page_pos. unfold rounded. f_equal. rewrite Nat.mul_comm, Nat.div_add_l by lia. rewrite Nat.div_small by lia. lia.
Qed.
End Driver.

(** A driver that leaves the five bytes alone makes every read right, however long. *)
Theorem C102_read_keeping_driver f a n buf : a + N.of_nat n <= 2 ^ 32 -> (5 + n <= length buf)%nat ->
  exists b, flash_read keeps f a n buf = Some (b, rd f a n).
Proof.
  intros Ha Lb. destruct (C102_long_read keeps (fun _ _ H => H) f a n buf Ha Lb) as (b & got & E & Lg & P).
  exists b. rewrite E. do 2 f_equal. apply (nth_ext_d _ _ 0); [rewrite rd_length; exact Lg|]. intros j Hj. rewrite Lg in Hj. rewrite rd_nth by lia.
  destruct (P j Hj) as (P1 & P2). pose proof chunk_five.
  assert (exists k r, (j + 5 = chunk * k + r /\ r < chunk)%nat) as (k & r & Hk & Hr).
  { exists ((j + 5) / chunk)%nat, ((j + 5) mod chunk)%nat. split; [apply Nat.div_mod; lia|apply Nat.mod_upper_bound; lia]. }
  destruct (Nat.lt_ge_cases (j + 5) (chunk * k + 5)) as [H2|H2]; [|apply P1; intros k' (A & B & C); assert (k' <= k)%nat by nia; assert (~ (k' < k)%nat) by nia; nia].
  destruct (Nat.eq_dec k 0) as [K0|K0]; [exfalso; nia|].
  destruct (Nat.lt_ge_cases (chunk * k) n) as [H3|H3]; [|apply P1; intros k' (A & B & C); assert (k' <= k)%nat by nia; assert (~ (k' < k)%nat) by nia; nia].
  rewrite (P2 k) by (unfold under_command; lia). unfold keeps. rewrite rd_nth by lia. f_equal. nia.
Qed.

(** ** The checksum *)
Lemma of_be_four b0 b1 b2 b3 : of_be [b0; b1; b2; b3] = b0 * 2 ^ 24 + b1 * 2 ^ 16 + b2 * 2 ^ 8 + b3.
Proof. unfold of_be. cbn [fold_left]. lia. Qed.

Lemma by_four (P : list byte -> Prop) : (forall l, (length l < 4)%nat -> P l) ->
  (forall b0 b1 b2 b3 l, P l -> P (b0 :: b1 :: b2 :: b3 :: l)) -> forall l, P l.
Proof.
  intros H0 H4 l. remember (length l) as n eqn:E. revert l E. induction n as [n IH] using (well_founded_induction lt_wf). intros l ->.
  destruct l as [|b0 [|b1 [|b2 [|b3 l]]]]; try (apply H0; cbn [length]; lia).
  apply H4. eapply IH; [|reflexivity]. cbn [length]. lia.
Qed.

Lemma crc_words_spec : forall l ws, exists rest, crc_words ws l = (ws ++ whole_words l, rest) /\ (length rest < 4)%nat /\
  exists full, l = full ++ rest /\ (Nat.modulo (length full) 4 = 0)%nat.
Proof.
  apply (by_four (fun l => forall ws, exists rest, crc_words ws l = (ws ++ whole_words l, rest) /\ (length rest < 4)%nat /\
    exists full, l = full ++ rest /\ (Nat.modulo (length full) 4 = 0)%nat)).
  - intros l H ws. exists l. repeat apply conj; auto.
    + destruct l as [|b0 [|b1 [|b2 [|b3 l]]]]; cbn [crc_words whole_words]; rewrite ?app_nil_r; auto. cbn [length] in H. lia.
    + exists []. auto.
  - intros b0 b1 b2 b3 l IH ws. cbn [crc_words whole_words]. destruct (IH (ws ++ [of_be [b0; b1; b2; b3]])) as (rest & E & L & full & F & M).
    exists rest. repeat apply conj; auto.
    + rewrite E, <- app_assoc. cbn [app]. rewrite of_be_four. reflexivity.
    + exists (b0 :: b1 :: b2 :: b3 :: full). split; [rewrite F; reflexivity|]. cbn [length].
      replace (S (S (S (S (length full))))) with (length full + 1 * 4)%nat by lia. rewrite Nat.mod_add by lia. exact M.
Qed.

Lemma whole_words_app : forall l m, (Nat.modulo (length l) 4 = 0)%nat -> whole_words (l ++ m) = whole_words l ++ whole_words m.
Proof.
  apply (by_four (fun l => forall m, (Nat.modulo (length l) 4 = 0)%nat -> whole_words (l ++ m) = whole_words l ++ whole_words m)).
  - intros l H m M. rewrite Nat.mod_small in M by lia. destruct l; [reflexivity|cbn [length] in M; lia].
  - intros b0 b1 b2 b3 l IH m M. cbn [app whole_words]. rewrite IH; auto. cbn [length] in M.
    replace (S (S (S (S (length l))))) with (length l + 1 * 4)%nat in M by lia. rewrite Nat.mod_add in M by lia. exact M.
Qed.

Lemma whole_words_short l : (length l < 4)%nat -> whole_words l = [].
Proof. destruct l as [|b0 [|b1 [|b2 [|b3 l]]]]; cbn [length]; auto. lia. Qed.

(** The checksum unit has been given the words of [D], and holds back its last bytes. *)
Definition crc_inv (c : u8crc) (D : list byte) : Prop :=
  exists full tail, D = full ++ tail /\ (Nat.modulo (length full) 4 = 0)%nat /\ length tail = cidx c /\ (length tail < 4)%nat /\
    length (cbuf c) = 4%nat /\ firstn (cidx c) (cbuf c) = tail /\ fed c = whole_words full.

Lemma crc_inv_words c D : crc_inv c D -> fed c = whole_words D.
Proof.
  intros (full & tail & -> & M & _ & L & _ & _ & ->). rewrite whole_words_app by exact M. rewrite (whole_words_short tail) by exact L. rewrite app_nil_r. reflexivity.
Qed.

Lemma blit_length b i l : (i + length l <= length b)%nat -> length (blit b i l) = length b.
Proof. intros H. unfold blit. rewrite !app_length, firstn_length, skipn_length. lia. Qed.

Lemma blit_front b i l : (i <= length b)%nat -> firstn (i + length l) (blit b i l) = firstn i b ++ l.
Proof.
  intros H. unfold blit. rewrite app_assoc, firstn_app. rewrite app_length, firstn_length.
  replace (i + length l - (Nat.min i (length b) + length l))%nat with 0%nat by lia. cbn [firstn]. rewrite app_nil_r.
  apply firstn_all2. rewrite app_length, firstn_length. lia.
Qed.

Lemma crc_process_inv c D d : crc_inv c D -> crc_inv (crc_process c d) (D ++ d).
Proof.
  intros (full & tail & -> & M & Lt & L4 & Lc & Et & Ef). unfold crc_process. cbv zeta.
  set (off := match cidx c with O => O | i => (4 - i)%nat end).
  assert (Ho : (off = 0 /\ cidx c = 0 \/ (off = 4 - cidx c /\ 0 < cidx c))%nat) by (unfold off; destruct (cidx c); lia).
  destruct (Nat.ltb_spec (length d) off) as [Hs|Hs].
  - exists full, (tail ++ d). cbn [fed cbuf cidx]. rewrite <- app_assoc. repeat apply conj; auto.
    + rewrite app_length. lia.
    + rewrite app_length. lia.
    + rewrite blit_length; lia.
    + rewrite blit_front by lia. rewrite Et. reflexivity.
  - assert (Pre : exists full' cb, (match off with
                         | O => (fed c, cbuf c, cidx c)
                         | _ => (fed c ++ [of_be (blit (cbuf c) (cidx c) (firstn off d))], blit (cbuf c) (cidx c) (firstn off d), O)
                         end) = (whole_words full', cb, O) /\ length cb = 4%nat /\ (Nat.modulo (length full') 4 = 0)%nat /\ (full ++ tail) ++ d = full' ++ skipn off d).
    { destruct off as [|o'] eqn:Eo.
      - exists full, (cbuf c). destruct Ho as [(_ & Z)|Z]; [|lia]. rewrite Z, Ef. repeat apply conj; auto.
        rewrite Z in Lt. destruct tail; [|cbn [length] in Lt; lia]. rewrite app_nil_r. reflexivity.
      - destruct Ho as [Z|(Z1 & Z2)]; [lia|]. rewrite <- Eo in *. clear Eo o'.
        assert (Lo : length (firstn off d) = off) by (rewrite firstn_length; lia).
        assert (B : blit (cbuf c) (cidx c) (firstn off d) = tail ++ firstn off d).
        { rewrite <- Et, <- (blit_front (cbuf c) (cidx c) (firstn off d)) by lia. symmetry. apply firstn_all2. rewrite blit_length; lia. }
        exists (full ++ tail ++ firstn off d), (blit (cbuf c) (cidx c) (firstn off d)). repeat apply conj.
        + rewrite whole_words_app by exact M. rewrite Ef, B. do 3 f_equal.
          assert (L4' : length (tail ++ firstn off d) = 4%nat) by (rewrite app_length; lia).
          destruct (tail ++ firstn off d) as [|b0 [|b1 [|b2 [|b3 [|b4 l]]]]]; cbn [length] in L4'; try lia. rewrite of_be_four. reflexivity.
        + rewrite blit_length; lia.
        + rewrite !app_length, Lo, Z1, Lt. replace (length full + (cidx c + (4 - cidx c)))%nat with (length full + 1 * 4)%nat by lia. rewrite Nat.mod_add by lia. exact M.
        + rewrite <- !app_assoc. rewrite firstn_skipn. reflexivity. }
    destruct Pre as (full' & cb & -> & Lcb & M' & ->).
    destruct (crc_words_spec (skipn off d) (whole_words full')) as (rest & -> & Lr & w & Ew & Mw).
    assert (Mf : (Nat.modulo (length (full' ++ w)) 4 = 0)%nat).
    { rewrite app_length. rewrite Nat.add_mod by lia. rewrite M', Mw. reflexivity. }
    assert (Ew' : full' ++ skipn off d = (full' ++ w) ++ rest) by (rewrite Ew, app_assoc; reflexivity).
    assert (Wd : whole_words (skipn off d) = whole_words w).
    { rewrite Ew, whole_words_app by exact Mw. rewrite (whole_words_short rest Lr), app_nil_r. reflexivity. }
    exists (full' ++ w), rest. destruct rest as [|r0 rest]; cbn [fed cbuf cidx]; repeat apply conj; auto;
      try (rewrite whole_words_app by exact M'; rewrite Wd; reflexivity).
    + rewrite blit_length; lia.
    + apply (blit_front cb 0 (r0 :: rest)). lia.
Qed.

Lemma crc_new_inv : crc_inv crc_new [].
Proof. exists [], []. repeat apply conj; auto; cbn; lia. Qed.

(** The checksum sees the words of the whole stream, however it was cut into slices. *)
Theorem C102_checksum_any_pieces ss : fed (fold_left crc_process ss crc_new) = whole_words (concat ss).
Proof.
  assert (G : forall qs c D, crc_inv c D -> crc_inv (fold_left crc_process qs c) (D ++ concat qs)).
  { induction qs as [|s l IH]; intros c D I; [cbn [fold_left concat]; rewrite app_nil_r; exact I|]. cbn [fold_left concat].
    rewrite app_assoc. apply IH, crc_process_inv, I. }
  apply crc_inv_words. apply (G ss crc_new [] crc_new_inv).
Qed.

(** For a whole number of words it is the checksum of the same bytes in one buffer. *)
Theorem C102_checksum_is_calculate_partial ss : (Nat.modulo (length (concat ss)) 4 = 0)%nat ->
  fed (fold_left crc_process ss crc_new) = calculate_words (concat ss).
Proof.
  intros M. rewrite C102_checksum_any_pieces. unfold calculate_words.
  destruct (crc_words_spec (concat ss) []) as (rest & -> & L & full & E & Mf). destruct rest as [|r rest]; [reflexivity|exfalso].
  rewrite E, app_length in M. rewrite Nat.add_mod, Mf in M by lia. rewrite Nat.add_0_l, Nat.mod_mod, Nat.mod_small in M by lia. cbn [length] in M. lia.
Qed.

(** The one-shot checksum of any other length is that of the data completed with 0xFF to a whole word. *)
Theorem C102_calculate_completes data k : (k < 4)%nat -> (Nat.modulo (length data + k) 4 = 0)%nat ->
  calculate_words data = whole_words (data ++ repeat 255 k).
Proof.
  intros K M. unfold calculate_words. destruct (crc_words_spec data []) as (rest & -> & L & full & E & Mf). cbn [app].
  rewrite E. rewrite E, app_length, <- Nat.add_assoc, Nat.add_mod, Mf, Nat.add_0_l, Nat.mod_mod in M by lia.
  rewrite <- app_assoc, (whole_words_app full (rest ++ _)), (whole_words_app full rest), (whole_words_short rest L), app_nil_r by exact Mf.
  destruct rest as [|r rest]; cbn [length] in *.
  - assert (k = 0%nat) by (rewrite Nat.add_0_l, Nat.mod_small in M by lia; exact M). subst k. cbn [repeat app whole_words]. rewrite app_nil_r. reflexivity.
  - f_equal. destruct rest as [|r1 [|r2 [|r3 rest]]]; cbn [length] in *; try lia;
      destruct k as [|[|[|[|k]]]]; try lia; cbn in M; try lia; cbn [repeat Nat.sub app whole_words]; unfold of_be; cbn [fold_left]; f_equal; lia.
Qed.

(** Otherwise it is not: up to three bytes at the end of a stream do not count, so that a change in them goes unnoticed. *)
Theorem C102_refuted_last_bytes_unchecked D b b' : (Nat.modulo (length D) 4 < 3)%nat ->
  fed (crc_process crc_new (D ++ [b])) = fed (crc_process crc_new (D ++ [b'])).
Proof.
  intros H. pose proof (C102_checksum_any_pieces [D ++ [b]]) as E1. pose proof (C102_checksum_any_pieces [D ++ [b']]) as E2.
  cbn [fold_left concat] in E1, E2. rewrite app_nil_r in E1, E2. rewrite E1, E2.
  destruct (crc_words_spec D []) as (rest & _ & L & full & E & M). rewrite E, <- !app_assoc.
  rewrite !(whole_words_app full) by exact M. f_equal.
  assert (length rest < 3)%nat.
  { rewrite E, app_length in H. rewrite Nat.add_mod, M in H by lia. rewrite Nat.add_0_l, Nat.mod_mod, Nat.mod_small in H by lia. exact H. }
  rewrite !whole_words_short by (rewrite app_length; cbn [length]; lia). reflexivity.
Qed.

(** ** Streams *)

(** A stream of slices, and the final flush, through a new writer. *)
Fixpoint extend_all (dr : driver) (f : flash) (w : writer) (ss : list (list byte)) : option (flash * writer) :=
  match ss with
  | [] => Some (f, w)
  | s :: ss => match writer_extend dr f w s with Some (f', w') => extend_all dr f' w' ss | None => None end
  end.
Definition stream_out (dr : driver) (f : flash) (a : N) (ss : list (list byte)) : option (flash * writer) :=
  match extend_all dr f (writer_new a) ss with Some (f', w') => writer_flush dr f' w' | None => None end.

(** Successive reads, each into a buffer of its own. *)
Fixpoint stream_in (dr : driver) (f : flash) (r : reader) (reqs : list (list byte * nat)) : option (reader * list (list byte)) :=
  match reqs with
  | [] => Some (r, [])
  | (buf, n) :: reqs =>
    match read_slice dr f r buf n with
    | None => None
    | Some (r', _, got) => match stream_in dr f r' reqs with Some (r'', l) => Some (r'', got :: l) | None => None end
    end
  end.

Definition total (reqs : list (list byte * nat)) : nat := list_sum (map snd reqs).

(** What the writer [w] over the flash [f] stands for, when [D] was streamed from address [a] on, over [f0]. *)
Definition writer_inv (f0 : flash) (a : N) (D : list byte) (f : flash) (w : writer) : Prop :=
  exists full tail k, D = full ++ tail /\ length full = (page * k)%nat /\ (length tail < page)%nat /\ programmed f0 a full f /\
    w_page w = a + N.of_nat (page * k) /\ w_buf w = repeat 255 5 ++ tail ++ repeat 255 (page - length tail) /\ w_off w = (5 + length tail)%nat /\
    crc_inv (w_crc w) D.

Lemma blit_at p q m i : i = length p -> blit (p ++ q) i m = p ++ m ++ skipn (length m) q.
Proof.
  intros ->. unfold blit. rewrite firstn_app, Nat.sub_diag, firstn_all. cbn [firstn]. rewrite app_nil_r.
  rewrite skipn_app. rewrite (skipn_all2 p) by lia. replace (length p + length m - length p)%nat with (length m) by lia. reflexivity.
Qed.

Lemma skipn_repeat (x : byte) k n : skipn k (repeat x n) = repeat x (n - k).
Proof. revert k. induction n as [|n IH]; intros [|k]; cbn [repeat skipn Nat.sub]; auto. Qed.

Lemma blit_tail tail m : (length tail + length m <= page)%nat ->
  blit (repeat 255 5 ++ tail ++ repeat 255 (page - length tail)) (5 + length tail) m = repeat 255 5 ++ (tail ++ m) ++ repeat 255 (page - length (tail ++ m)).
Proof.
  intros H. rewrite (app_assoc (repeat 255 5)). rewrite blit_at by (rewrite app_length, repeat_length; lia).
  rewrite skipn_repeat, app_length, <- !app_assoc. do 4 f_equal. lia.
Qed.

Lemma buf_length tail : (length tail <= page)%nat -> length (repeat 255 5 ++ tail ++ repeat 255 (page - length tail)) = (5 + page)%nat.
Proof. intros H. rewrite !app_length, !repeat_length. lia. Qed.

(** One flush, of a page holding [tail]. *)
Lemma flush_ok dr f0 a full k tail f w : five dr -> length full = (page * k)%nat -> (length tail <= page)%nat -> programmed f0 a full f ->
  w_page w = a + N.of_nat (page * k) -> w_buf w = repeat 255 5 ++ tail ++ repeat 255 (page - length tail) -> a + N.of_nat (page * S k) < 2 ^ 32 ->
  exists g, writer_flush dr f w = Some (g, Writer (a + N.of_nat (page * S k)) blank 5 (w_crc w)) /\
            programmed f0 a (full ++ tail ++ repeat 255 (page - length tail)) g.
Proof.
  intros F5 Lf Lt P Ep Eb Ha. unfold writer_flush. rewrite Ep, Eb. pose proof page_N as PN.
  destruct (write_256b_ok dr F5 f (a + N.of_nat (page * k)) (repeat 255 5 ++ tail ++ repeat 255 (page - length tail))) as (b & -> & _ & _); [rewrite buf_length; lia|].
  replace (a + N.of_nat (page * k) + 256) with (a + N.of_nat (page * S k)) by lia.
  destruct (N.leb_spec (2 ^ 32) (a + N.of_nat (page * S k))) as [X|_]; [exfalso; lia|].
  eexists. split; [reflexivity|].
  change (skipn 5 (repeat 255 5 ++ tail ++ repeat 255 (page - length tail))) with (tail ++ repeat 255 (page - length tail)).
  rewrite firstn_all2 by (rewrite app_length, repeat_length; lia).
  eapply programmed_app; [exact P|]. rewrite Lf. apply programmed_prog.
Qed.

Lemma writer_new_inv f a : writer_inv f a [] f (writer_new a).
Proof.
  exists [], [], 0%nat. pose proof page_pos. rewrite Nat.mul_0_r. split; [reflexivity|]. split; [reflexivity|]. split; [cbn [length]; lia|].
  split; [apply programmed_nil|]. split; [cbn [writer_new w_page]; lia|]. split; [|split; [reflexivity|exact crc_new_inv]].
  cbn [writer_new w_buf length]. unfold blank. rewrite repeat_app, Nat.sub_0_r. reflexivity.
Qed.

Lemma extend_loop_ok dr f0 a : five dr -> forall fuel slice full tail k f w,
  length full = (page * k)%nat -> (length tail < page)%nat -> programmed f0 a full f ->
  w_page w = a + N.of_nat (page * k) -> w_buf w = repeat 255 5 ++ tail ++ repeat 255 (page - length tail) -> w_off w = (5 + length tail)%nat ->
  (length slice < fuel)%nat -> a + N.of_nat (length (full ++ tail ++ slice)) < 2 ^ 32 -> crc_inv (w_crc w) (full ++ tail ++ slice) ->
  exists g w', extend_loop fuel dr f w slice = Some (g, w') /\ writer_inv f0 a (full ++ tail ++ slice) g w'.
Proof.
  intros F5. pose proof page_pos as PP. induction fuel as [|fuel IH]; intros slice full tail k f w Lf Lt P Ep Eb Eo Hf Ha Hc; [lia|].
  cbn [extend_loop]. destruct slice as [|x slice0] eqn:Es.
  { exists f, w. split; [reflexivity|]. exists full, tail, k. rewrite app_nil_r in *. repeat apply conj; auto. }
  rewrite <- Es in *. assert (Ls : (1 <= length slice)%nat) by (rewrite Es; cbn [length]; lia). clear Es x slice0.
  assert (Efree : (length (w_buf w) - w_off w = page - length tail)%nat) by (rewrite Eb, buf_length by lia; lia).
  rewrite Efree. set (free := (page - length tail)%nat). assert (Hfree : (free + length tail = page /\ 1 <= free)%nat) by (unfold free; lia).
  clearbody free. rewrite !app_length in Ha.
  destruct (Nat.ltb_spec (length slice) free) as [Hs|Hs].
  - eexists; eexists. split; [reflexivity|]. exists full, (tail ++ slice), k. cbn [w_page w_buf w_off w_crc].
    repeat apply conj; auto.
    + rewrite app_length. lia.
    + rewrite Eb, Eo. apply blit_tail. lia.
    + rewrite app_length. lia.
  - assert (L1 : length (firstn free slice) = free) by (rewrite firstn_length; lia).
    destruct (flush_ok dr f0 a full k (tail ++ firstn free slice) f
                (Writer (w_page w) (blit (w_buf w) (w_off w) (firstn free slice)) (w_off w + free) (w_crc w)) F5 Lf) as (g & -> & Pg); auto.
    + rewrite app_length. lia.
    + cbn [w_buf]. rewrite Eb, Eo. apply blit_tail. lia.
    + lia.
    + cbn [w_crc]. assert (Z : full ++ tail ++ slice = (full ++ tail ++ firstn free slice) ++ [] ++ skipn free slice).
      { rewrite <- !app_assoc. cbn [app]. rewrite firstn_skipn. reflexivity. }
      rewrite Z. rewrite Z in Hc. apply (IH _ _ _ (S k)); cbn [length w_page w_buf w_off w_crc].
      * rewrite !app_length. lia.
      * lia.
      * replace (page - length (tail ++ firstn free slice))%nat with 0%nat in Pg by (rewrite app_length; lia). cbn [repeat] in Pg. rewrite app_nil_r in Pg. exact Pg.
      * reflexivity.
      * unfold blank. rewrite repeat_app, Nat.sub_0_r. reflexivity.
      * reflexivity.
      * rewrite skipn_length. lia.
      * rewrite <- Z, !app_length. exact Ha.
      * exact Hc.
Qed.

Lemma writer_extend_ok dr f0 a D f w s : five dr -> writer_inv f0 a D f w -> a + N.of_nat (length (D ++ s)) < 2 ^ 32 ->
  exists g w', writer_extend dr f w s = Some (g, w') /\ writer_inv f0 a (D ++ s) g w'.
Proof.
  intros F5 (full & tail & k & -> & Lf & Lt & P & Ep & Eb & Eo & Hc) Ha. unfold writer_extend. rewrite <- app_assoc in *.
  apply (extend_loop_ok dr f0 a F5 _ s full tail k); cbn [w_page w_buf w_off w_crc]; auto.
  rewrite app_assoc. apply crc_process_inv. exact Hc.
Qed.

Lemma extend_all_ok dr f0 a : five dr -> forall ss D f w, writer_inv f0 a D f w -> a + N.of_nat (length (D ++ concat ss)) < 2 ^ 32 ->
  exists g w', extend_all dr f w ss = Some (g, w') /\ writer_inv f0 a (D ++ concat ss) g w'.
Proof.
  intros F5. induction ss as [|s ss IH]; intros D f w I Ha; cbn [extend_all concat] in *.
  - exists f, w. rewrite app_nil_r in *. auto.
  - destruct (writer_extend_ok dr f0 a D f w s F5 I) as (g & w' & -> & I'); [rewrite !app_length in *; lia|].
    rewrite app_assoc in *. apply IH; auto.
Qed.

Lemma stream_in_ok dr f : five dr -> forall reqs r D0 a, crc_inv (r_crc r) D0 -> r_addr r = a ->
  Forall (fun q => (snd q <= chunk)%nat /\ (5 + snd q <= length (fst q))%nat) reqs -> a + N.of_nat (total reqs) < 2 ^ 32 ->
  exists r' l, stream_in dr f r reqs = Some (r', l) /\ concat l = rd f a (total reqs) /\ map (@length N) l = map snd reqs /\
               crc_inv (r_crc r') (D0 ++ rd f a (total reqs)) /\ r_addr r' = a + N.of_nat (total reqs).
Proof.
  intros F5. induction reqs as [|[buf n] reqs IH]; intros r D0 a Hc Er Hq Ha.
  - exists r, []. cbn [stream_in total map list_sum fold_right concat]. cbn. rewrite app_nil_r. repeat apply conj; auto. lia.
  - assert (T : total ((buf, n) :: reqs) = (n + total reqs)%nat) by reflexivity. rewrite T in *.
    apply Forall_cons_iff in Hq. destruct Hq as ((Q1 & Q2) & Hq). cbn [fst snd] in Q1, Q2. cbn [stream_in]. unfold read_slice. rewrite Er.
    destruct (C102_read_partial dr F5 f a n buf Q1) as (b & E & Lb); [lia|exact Q2|].
    assert (Eg : firstn n (skipn 5 b) = rd f a n).
    { unfold flash_read in E. destruct (read_loop (S n) dr f a n 0 buf) as [b'|]; [|discriminate E].
      destruct (Nat.ltb (length b') (5 + n)); [discriminate E|]. apply (f_equal (fun o => match o with Some p => p | None => ([], []) end)) in E.
      assert (Eb : b' = b) by exact (f_equal fst E). rewrite Eb in E. exact (f_equal snd E). }
    rewrite E. destruct (N.leb_spec (2 ^ 32) (a + N.of_nat n)) as [X|_]; [exfalso; lia|]. rewrite Eg.
    destruct (IH (Reader (a + N.of_nat n) (crc_process (r_crc r) (rd f a n))) (D0 ++ rd f a n) (a + N.of_nat n)) as (r' & l & -> & Cl & Ml & Hc' & Er').
    + cbn [r_crc]. apply crc_process_inv. exact Hc.
    + reflexivity.
    + exact Hq.
    + lia.
    + exists r', (rd f a n :: l). split; [reflexivity|]. rewrite rd_app. cbn [concat map snd]. rewrite Cl, Ml, rd_length. repeat apply conj; auto.
      * rewrite app_assoc. exact Hc'.
      * lia.
Qed.

(** Bytes streamed to erased flash in any slices come back in any slices, through any drivers; nothing else changes; and writer and reader
    computed the same checksum. *)
Theorem C102_stream_round_trip dr dr' f a ss : five dr -> five dr' -> bytes_ok (concat ss) ->
  (forall x, a <= x < a + N.of_nat (length (concat ss)) + 256 -> f x = 255) -> a + N.of_nat (length (concat ss)) + 256 < 2 ^ 32 ->
  exists g w, stream_out dr f a ss = Some (g, w) /\ fed (w_crc w) = whole_words (concat ss) /\
    (forall x, x < a \/ a + N.of_nat (length (concat ss)) <= x -> g x = f x) /\
    forall reqs, Forall (fun q => (snd q <= chunk)%nat /\ (5 + snd q <= length (fst q))%nat) reqs -> total reqs = length (concat ss) ->
      exists r l, stream_in dr' g (reader_new a) reqs = Some (r, l) /\ concat l = concat ss /\ map (@length N) l = map snd reqs /\
                  fed (r_crc r) = fed (w_crc w).
Proof.
  intros F5 F5' OK Er Ha. unfold stream_out. pose proof page_N as PN. pose proof page_pos as PP.
  destruct (extend_all_ok dr f a F5 ss [] f (writer_new a) (writer_new_inv f a)) as (f1 & w1 & -> & I1); [cbn [app]; lia|]. cbn [app] in I1.
  destruct I1 as (full & tail & k & ED & Lf & Lt & P & Ep & Eb & Eo & Hc).
  assert (LD : length (concat ss) = (page * k + length tail)%nat) by (rewrite ED, app_length, Lf; reflexivity).
  destruct (flush_ok dr f a full k tail f1 w1 F5 Lf) as (g & -> & Pg); auto; try lia.
  exists g, (Writer (a + N.of_nat (page * S k)) blank 5 (w_crc w1)). cbn [w_crc]. split; [reflexivity|].
  assert (W : fed (w_crc w1) = whole_words (concat ss)) by (apply crc_inv_words, Hc). split; [exact W|].
  rewrite app_assoc, <- ED in Pg. set (D := concat ss) in *.
  assert (Out : forall x, x < a \/ a + N.of_nat (length D) <= x -> g x = f x).
  { intros x Hx. rewrite Pg. rewrite app_length, repeat_length.
    destruct (N.leb_spec a x); destruct (N.ltb_spec x (a + N.of_nat (length D + (page - length tail)))); cbn [andb]; auto.
    rewrite nth_app_in. destruct (Nat.ltb_spec (N.to_nat (x - a)) (length D)); [lia|]. rewrite Er by lia.
    assert (In (nth (N.to_nat (x - a) - length D) (repeat 255 (page - length tail)) 0) (repeat 255 (page - length tail))) as Hin by (apply nth_In; rewrite repeat_length; lia).
    apply repeat_spec in Hin. rewrite Hin. reflexivity. }
  split; [exact Out|]. intros reqs Hq Ht.
  destruct (stream_in_ok dr' g F5' reqs (reader_new a) [] a crc_new_inv eq_refl Hq) as (r & l & E & Cl & Ml & Hc' & _); [lia|].
  assert (Rd : rd g a (total reqs) = D).
  { rewrite Ht. apply (nth_ext_d _ _ 0); [apply rd_length|]. intros i Hi. rewrite rd_length in Hi. rewrite rd_nth by lia. rewrite Pg.
    rewrite app_length, repeat_length. destruct (N.leb_spec a (a + N.of_nat i)); [|lia].
    destruct (N.ltb_spec (a + N.of_nat i) (a + N.of_nat (length D + (page - length tail)))); [|lia]. cbn [andb]. rewrite Er by lia.
    replace (N.to_nat (a + N.of_nat i - a)) with i by lia. rewrite nth_app_in. destruct (Nat.ltb_spec i (length D)); [|lia].
    apply land_255. unfold bytes_ok in OK. rewrite Forall_forall in OK. apply OK, nth_In. lia. }
  exists r, l. rewrite Rd in *. repeat apply conj; auto. rewrite W. apply crc_inv_words. exact Hc'.
Qed.

(** ** Instances and refutations *)

(** A driver that puts its command in the buffer, as an SPI driver does: the opcode and the address. *)
Definition spi : driver := fun a _ => 12 :: be_bytes 4 a.

Lemma spi_five : five spi.
Proof. intros a h _. unfold spi. cbn [length]. rewrite be_bytes_length. reflexivity. Qed.

(** A read of 4097 bytes of erased flash does not return the contents of the flash. *)
Theorem C102_refuted_long_read : exists f a n buf, a + N.of_nat n <= 2 ^ 32 /\ (5 + n <= length buf)%nat /\
  exists b got, flash_read spi f a n buf = Some (b, got) /\ got <> rd f a n.
Proof.
  assert (Z : exists n, n = S chunk) by eauto. destruct Z as (n & En). pose proof chunk_five as C5.
  assert (Hn : 0 + N.of_nat n <= 2 ^ 32). { rewrite En, Nat2N.inj_succ. unfold chunk. rewrite N2Nat.id. lia. }
  exists (fun _ => 255), 0, n, (repeat 0 (5 + n)).
  assert (Hb : (5 + n <= length (repeat 0%N (5 + n)))%nat) by (rewrite repeat_length; lia).
  split; [exact Hn|]. split; [exact Hb|].
  destruct (C102_long_read spi spi_five (fun _ => 255) 0 n _ Hn Hb) as (b & got & E & Lg & P). exists b, got. split; [exact E|].
  assert (U : under_command n 1 (chunk - 5)) by (unfold under_command; lia).
  destruct (P (chunk - 5)%nat ltac:(lia)) as (_ & P2). specialize (P2 1%nat U).
  replace (chunk - 5 + 5 - chunk * 1)%nat with 0%nat in P2 by lia. unfold spi in P2. cbn [nth] in P2.
  intros X. assert (Y : nth (chunk - 5) got 0 = nth (chunk - 5) (rd (fun _ => 255) 0 n) 0) by (rewrite X; reflexivity).
  rewrite P2, rd_nth in Y by lia. discriminate Y.
Qed.

(** Writing one byte programs a page: here, the 255 bytes after it as well. *)
Theorem C102_refuted_short_write : exists g b, flash_write spi (fun _ => 255) 0 1 (repeat 0 (5 + page)) = Some (g, b) /\ g 0 = 0 /\ g 255 = 0 /\ g 256 = 255.
Proof.
  pose proof page_pos. pose proof page_N. assert (R : rounded 1 = page).
  { unfold rounded. replace (1 + (page - 1))%nat with (1 * page)%nat by lia. rewrite Nat.div_mul by lia. lia. }
  destruct (C102_write spi spi_five (fun _ => 255) 0 1 (repeat 0 (5 + page))) as (g & b & E & P); [rewrite R; lia|rewrite R, repeat_length; lia|].
  exists g, b. split; [exact E|]. rewrite R in P. change (skipn 5 (repeat 0 (5 + page))) with (repeat 0 page) in P.
  rewrite firstn_all2 in P by (rewrite repeat_length; lia). rewrite !(P _), repeat_length, page_N. repeat apply conj; reflexivity.
Qed.

(** A stream of three slices, cut inside words and across a page, read back in two. *)
Theorem C102_instance : exists g w r l, stream_out spi (fun _ => 255) 8192 [[1; 2; 3]; repeat 7 300; [4; 5]] = Some (g, w) /\
  stream_in keeps g (reader_new 8192) [(repeat 0 100, 50%nat); (repeat 0 400, 255%nat)] = Some (r, l) /\
  concat l = [1; 2; 3] ++ repeat 7 300 ++ [4; 5] /\ fed (r_crc r) = fed (w_crc w) /\ firstn 2 (fed (w_crc w)) = [16909063; 117901063].
Proof.
  destruct (C102_stream_round_trip spi keeps (fun _ => 255) 8192 [[1; 2; 3]; repeat 7 300; [4; 5]]) as (g & w & E & W & _ & R).
  - exact spi_five.
  - intros a h H. exact H.
  - cbn [concat]. rewrite app_nil_r. unfold bytes_ok. rewrite !Forall_app. repeat apply conj.
    + repeat constructor.
    + apply Forall_forall. intros x Hx. apply repeat_spec in Hx. subst x. reflexivity.
    + repeat constructor.
  - reflexivity.
  - vm_compute. reflexivity.
  - destruct (R [(repeat 0 100, 50%nat); (repeat 0 400, 255%nat)]) as (r & l & E' & Cl & _ & Hc).
    + assert (C : forall n, (N.of_nat n <=? 4096) = true -> (n <= chunk)%nat) by (intros n Hn; unfold chunk; lia).
      apply Forall_cons; [|apply Forall_cons; [|apply Forall_nil]]; cbn [fst snd]; rewrite repeat_length; split; try (apply C; reflexivity); apply Nat.leb_le; reflexivity.
    + reflexivity.
    + exists g, w, r, l. repeat apply conj; auto. rewrite W. reflexivity.
Qed.

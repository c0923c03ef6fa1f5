(** * C95: strain-gauge processing *)
From Coq Require Import List Arith Lia Bool.
From Verif Require Import SgProcess.
Import ListNotations.
Local Open Scope nat_scope.

Section P.
Context {V F byte time : Type} (run : F -> V -> F * V) (add : V -> V -> V) (zero : V) (enc : V -> byte * byte).
Notation process := (process run add).
Notation lp_run := (@lp_run V F byte time run add zero enc).
Notation lp_step := (@lp_step V F byte time run add zero enc).

(** ** Specification *)
(** the low-pass filter over a whole stream *)
Fixpoint filtered (f : F) (xs : list V) : list V :=
  match xs with [] => [] | x :: xs => snd (run f x) :: filtered (fst (run f x)) xs end.
(** everything channel [c] ever measured *)
Definition stream (c : nat) (rs : list (@raw V time)) : list V := concat (map (fun r => channel r c) rs).
(** the filter's output at the end of raw read [n] of channel [c]: 213 samples per read *)
Definition sample (f : F) (c : nat) (rs : list raw) (n : nat) : V := nth (213 * n + 212) (filtered f (stream c rs)) zero.
(** samples as stored: two bytes each *)
Definition stored (vs : list V) : list byte := concat (map (fun v => [fst (enc v); snd (enc v)]) vs).
(** entry [j] of the summed frames of batch [b]: frame [k] of a batch is 2048 samples out of 2130 *)
Definition frame_sum (c b j : nat) (k : nat) (rs : list raw) : V :=
  fold_left add (map (fun k => nth (40 * 213 * b + 2130 * k + j) (stream c rs) zero) (seq 0 k)) zero.
Definition well_formed (r : raw) : Prop := forall c, c < 4 -> length (@channel V time r c) = 213.

(** ** The filter *)
Fixpoint filter_end (f : F) (xs : list V) : F := match xs with [] => f | x :: xs => filter_end (fst (run f x)) xs end.
Lemma filtered_length f xs : length (filtered f xs) = length xs.
Proof. revert f. induction xs; intros; cbn; auto. Qed.
Lemma filtered_app f a b : filtered f (a ++ b) = filtered f a ++ filtered (filter_end f a) b.
Proof. revert f. induction a; intros; cbn; [reflexivity|]. rewrite IHa. reflexivity. Qed.
Lemma filter_end_app f a b : filter_end f (a ++ b) = filter_end (filter_end f a) b.
Proof. revert f. induction a; intros; cbn; auto. Qed.

(** ** One raw read of one channel *)
Lemma constants : SAMPLES_PER_READ = 213 /\ READS_PER_BATCH = 40 /\ FFT_SIZE = 2048.
Proof. repeat split. Qed.

Definition after_sum (p : proc) (xs : list V) (j : nat) : V :=
  if (fi p <=? j) && (j <? Nat.min 2048 (fi p + length xs)) then add (@fsum V F p j) (nth (j - fi p) xs zero) else fsum p j.

Lemma loop_skip : forall n i xs p, n + i = 213 -> length xs = n -> (n = 0 \/ length (@slist V F p) < 40) ->
  exists p', process_loop run add n i xs (p, true) = Some (p', true) /\
  filt p' = filter_end (filt p) xs /\
  slist p' = slist p ++ (match n with 0 => [] | S m => [nth m (filtered (filt p) xs) zero] end) /\
  fi p' = fi p /\ fcount p' = fcount p /\ fsum p' = fsum p.
Proof.
  induction n as [|n IH]; intros i xs p NI L SL.
  - exists p. destruct xs; [|discriminate]. cbn. rewrite app_nil_r. auto 8.
  - destruct SL as [SL|SL]; [discriminate|]. destruct xs as [|x xs]; [discriminate|]. injection L as L.
    cbn [process_loop]. unfold process_one. destruct (run (filt p) x) as [f y] eqn:R.
    destruct constants as (-> & _ & _). change (213 - 1) with 212.
    destruct (Nat.eqb_spec i 212) as [E|E].
    + destruct n as [|n]; [|lia]. destruct (Nat.ltb_spec (length (slist p)) 40); [|lia].
      eexists. cbn [process_loop]. split; [reflexivity|]. destruct xs; [|discriminate]. cbn. rewrite R. auto 8.
    + destruct n as [|n]; [lia|].
      destruct (IH (S i) xs (Proc (fsum p) (fcount p) (fi p) (slist p) f)) as (p' & E' & A & B & C & D & G); [lia|exact L|right; exact SL|].
      exists p'. split; [exact E'|]. cbn [filt slist fi fcount fsum] in *. cbn [filter_end filtered nth]. rewrite R. cbn [fst snd].
      split; [exact A|]. split; [exact B|]. auto.
Qed.

Lemma loop_go : forall n i xs p, n + i = 213 -> length xs = n -> (n = 0 \/ length (@slist V F p) < 40) -> fi p < 2048 ->
  exists p' sk, process_loop run add n i xs (p, false) = Some (p', sk) /\
  filt p' = filter_end (filt p) xs /\
  slist p' = slist p ++ (match n with 0 => [] | S m => [nth m (filtered (filt p) xs) zero] end) /\
  fi p' = (if fi p + n <? 2048 then fi p + n else 0) /\
  fcount p' = fcount p + (if fi p + n <? 2048 then 0 else 1) /\
  (forall j, fsum p' j = after_sum p xs j).
Proof.
  induction n as [|n IH]; intros i xs p NI L SL FI.
  - exists p, false. destruct xs; [|discriminate]. cbn [process_loop filter_end filtered]. rewrite app_nil_r, !Nat.add_0_r.
    destruct (Nat.ltb_spec (fi p) 2048); [|lia]. repeat split; auto. intros j. unfold after_sum. cbn [length]. rewrite Nat.add_0_r.
    destruct (Nat.leb_spec (fi p) j); cbn [andb]; [|reflexivity]. destruct (Nat.ltb_spec j (Nat.min 2048 (fi p))); [lia|reflexivity].
  - destruct SL as [SL|SL]; [discriminate|]. destruct xs as [|x xs]; [discriminate|]. injection L as L.
    cbn [process_loop]. unfold process_one. destruct (run (filt p) x) as [f y] eqn:R.
    destruct constants as (-> & _ & ->). change (213 - 1) with 212.
    assert (G : forall sl, (if i =? 212 then if length (slist p) <? 40 then Some (slist p ++ [y]) else None else Some (slist p)) = Some sl ->
      exists p' sk,
       (if fi p <? 2048 then
          if S (fi p) =? 2048
          then process_loop run add n (S i) xs (Proc (bump add (fsum p) (fi p) x) (S (fcount p)) 0 sl f, true)
          else process_loop run add n (S i) xs (Proc (bump add (fsum p) (fi p) x) (fcount p) (S (fi p)) sl f, false)
        else None) = Some (p', sk) /\
       filt p' = filter_end (filt p) (x :: xs) /\
       slist p' = slist p ++ [nth n (filtered (filt p) (x :: xs)) zero] /\
       fi p' = (if fi p + S n <? 2048 then fi p + S n else 0) /\
       fcount p' = fcount p + (if fi p + S n <? 2048 then 0 else 1) /\
       (forall j, fsum p' j = after_sum p (x :: xs) j)).
    { intros sl E.
      assert (SL2 : n = 0 \/ length sl < 40).
      { destruct n; [left; reflexivity|right]. destruct (Nat.eqb_spec i 212); [lia|]. injection E as <-. exact SL. }
      assert (SLF : sl ++ match n with 0 => [] | S m => [nth m (filtered f xs) zero] end = slist p ++ [nth n (filtered (filt p) (x :: xs)) zero]).
      { cbn [filtered]. rewrite R. cbn [fst snd]. destruct n; cbn [nth].
        - assert (i = 212) by lia. subst i. destruct (Nat.eqb_spec 212 212); [|lia].
          destruct (length (slist p) <? 40); [|discriminate]. injection E as <-. rewrite app_nil_r. reflexivity.
        - destruct (Nat.eqb_spec i 212); [lia|]. injection E as <-. reflexivity. }
      destruct (Nat.ltb_spec (fi p) 2048); [|lia]. destruct (Nat.eqb_spec (S (fi p)) 2048) as [E2|E2].
      - destruct (loop_skip n (S i) xs (Proc (bump add (fsum p) (fi p) x) (S (fcount p)) 0 sl f)) as (p' & E' & A & B & C & D & G); [lia|exact L|exact SL2|].
        exists p', true. split; [exact E'|]. cbn [filt slist fi fcount fsum] in *. cbn [filter_end]. rewrite R. cbn [fst].
        split; [exact A|]. split; [rewrite B; exact SLF|].
        destruct (Nat.ltb_spec (fi p + S n) 2048); [lia|]. split; [exact C|]. split; [rewrite D; lia|].
        intros j. rewrite G. unfold bump, after_sum. cbn [length].
        destruct (Nat.eqb_spec j (fi p)) as [-> |NJ].
        + rewrite Nat.leb_refl. destruct (Nat.ltb_spec (fi p) (Nat.min 2048 (fi p + S (length xs)))); [|lia]. cbn [andb].
          rewrite Nat.sub_diag. reflexivity.
        + destruct (Nat.leb_spec (fi p) j); cbn [andb]; [|reflexivity].
          destruct (Nat.ltb_spec j (Nat.min 2048 (fi p + S (length xs)))); [lia|reflexivity].
      - destruct (IH (S i) xs (Proc (bump add (fsum p) (fi p) x) (fcount p) (S (fi p)) sl f)) as (p' & sk & E' & A & B & C & D & G); [lia|exact L|exact SL2|cbn [fi]; lia|].
        exists p', sk. split; [exact E'|]. cbn [filt slist fi fcount fsum] in *. cbn [filter_end]. rewrite R. cbn [fst].
        split; [exact A|]. split; [rewrite B; exact SLF|]. replace (fi p + S n) with (S (fi p) + n) by lia.
        split; [exact C|]. split; [exact D|]. intros j. rewrite G. unfold after_sum. cbn [fi fsum length]. unfold bump.
        replace (fi p + S (length xs)) with (S (fi p) + length xs) by lia.
        destruct (Nat.eqb_spec j (fi p)) as [-> |NJ].
        + destruct (Nat.leb_spec (S (fi p)) (fi p)); [lia|]. cbn [andb]. rewrite Nat.leb_refl. cbn [andb].
          destruct (Nat.ltb_spec (fi p) (Nat.min 2048 (S (fi p) + length xs))); [|lia]. rewrite Nat.sub_diag. reflexivity.
        + destruct (Nat.leb_spec (S (fi p)) j); destruct (Nat.leb_spec (fi p) j); try lia; cbn [andb]; [|reflexivity].
          destruct (Nat.ltb_spec j (Nat.min 2048 (S (fi p) + length xs))); [|reflexivity].
          f_equal. replace (j - fi p) with (S (j - S (fi p))) by lia. reflexivity. }
    destruct (Nat.eqb_spec i 212) as [E|E].
    + destruct (Nat.ltb_spec (length (slist p)) 40); [|lia].
      destruct (G _ eq_refl) as (p' & sk & X & Y). exists p', sk. split; [|exact Y].
      rewrite <- X. destruct (fi p <? 2048); [|reflexivity]. destruct (S (fi p) =? 2048); reflexivity.
    + destruct (G _ eq_refl) as (p' & sk & X & Y). exists p', sk. split; [|exact Y].
      rewrite <- X. destruct (fi p <? 2048); [|reflexivity]. destruct (S (fi p) =? 2048); reflexivity.
Qed.

Lemma process_spec xs p : length xs = 213 -> length (@slist V F p) < 40 -> fi p < 2048 ->
  exists p', process xs p = Some p' /\
  filt p' = filter_end (filt p) xs /\
  slist p' = slist p ++ [nth 212 (filtered (filt p) xs) zero] /\
  fi p' = (if fi p + 213 <? 2048 then fi p + 213 else 0) /\
  fcount p' = fcount p + (if fi p + 213 <? 2048 then 0 else 1) /\
  (forall j, fsum p' j = after_sum p xs j).
Proof.
  intros L SL FI. unfold SgProcess.process. destruct constants as (-> & _ & _).
  destruct (loop_go 213 0 xs p eq_refl L (or_intror SL) FI) as (p' & sk & E & X). exists p'. rewrite E. split; [reflexivity|exact X].
Qed.
(** ** Streams grow at the end *)
Lemma stream_app c a b : stream c (a ++ b) = stream c a ++ stream c b.
Proof. unfold stream. rewrite map_app, concat_app. reflexivity. Qed.
Lemma stream_length c rs : c < 4 -> Forall well_formed rs -> length (stream c rs) = 213 * length rs.
Proof.
  intros C W. induction W as [|r rs H W IH]; [reflexivity|]. unfold stream in *. cbn [map concat]. rewrite app_length, IH, (H c C).
  cbn [length]. lia.
Qed.
Lemma stream_one c r : stream c [r] = channel r c.
Proof. unfold stream. cbn. apply app_nil_r. Qed.
Lemma sample_app f c rs r n : c < 4 -> Forall well_formed rs -> n < length rs -> sample f c (rs ++ r) n = sample f c rs n.
Proof.
  intros C W N. unfold sample. rewrite stream_app, filtered_app. apply app_nth1. rewrite filtered_length, stream_length by assumption. lia.
Qed.
Lemma samples_app f c rs r lo n : c < 4 -> Forall well_formed rs -> lo + n <= length rs ->
  map (sample f c (rs ++ r)) (seq lo n) = map (sample f c rs) (seq lo n).
Proof. intros C W N. apply map_ext_in. intros x I. apply in_seq in I. apply sample_app; auto. lia. Qed.
Lemma frame_app c b j k rs r : c < 4 -> Forall well_formed rs -> j < 2048 -> (forall i, i < k -> 40 * 213 * b + 2130 * i + j < 213 * length rs) ->
  frame_sum c b j k (rs ++ r) = frame_sum c b j k rs.
Proof.
  intros C W J N. unfold frame_sum. f_equal. apply map_ext_in. intros x I. apply in_seq in I.
  rewrite stream_app. apply app_nth1. rewrite stream_length by assumption. apply N. lia.
Qed.

Variable f0 : F.

(** the state of one channel after the raw reads [rs], [10 * k + m] of them in the current batch [b] *)
Definition inv (c : nat) (rs : list raw) (b k m : nat) (p : @proc V F) : Prop :=
  filt p = filter_end f0 (stream c rs) /\
  slist p = map (sample f0 c rs) (seq (40 * b) (10 * k + m)) /\
  fi p = 213 * m /\ fcount p = k /\
  (forall j, j < 2048 -> fsum p j = frame_sum c b j (k + (if j <? 213 * m then 1 else 0)) rs).

Lemma frame_sum_S c b j k rs : frame_sum c b j (S k) rs = add (frame_sum c b j k rs) (nth (40 * 213 * b + 2130 * k + j) (stream c rs) zero).
Proof. unfold frame_sum. rewrite seq_S, map_app, fold_left_app. reflexivity. Qed.

Lemma inv_step c rs b k m p r : c < 4 -> Forall well_formed rs -> well_formed r ->
  length rs = 40 * b + 10 * k + m -> k < 4 -> m < 10 -> inv c rs b k m p ->
  exists p', process (channel r c) p = Some p' /\
  inv c (rs ++ [r]) b (if m =? 9 then S k else k) (if m =? 9 then 0 else S m) p' /\
  last_sample p' = Some (sample f0 c (rs ++ [r]) (length rs)).
Proof.
  intros C W WR LEN K M (A & B & D & E & G).
  assert (LS : length (slist p) = 10 * k + m) by (rewrite B, map_length, seq_length; reflexivity).
  destruct (process_spec (channel r c) p (WR c C)) as (p' & P & PA & PB & PC & PD & PE); [lia|lia|].
  exists p'. split; [exact P|].
  assert (SAMP : nth 212 (filtered (filt p) (channel r c)) zero = sample f0 c (rs ++ [r]) (length rs)).
  { unfold sample. rewrite stream_app, stream_one, filtered_app, <- A.
    rewrite app_nth2; rewrite filtered_length, stream_length by assumption; [|lia]. f_equal. lia. }
  rewrite SAMP in PB. split.
  - unfold inv. rewrite PA, stream_app, stream_one, filter_end_app, <- A. split; [reflexivity|]. split.
    { rewrite PB, B. replace (10 * (if m =? 9 then S k else k) + (if m =? 9 then 0 else S m)) with (S (10 * k + m)) by (destruct (Nat.eqb_spec m 9); lia).
      rewrite seq_S, map_app. cbn [map]. f_equal; [|f_equal; f_equal; lia]. symmetry. apply samples_app; auto. lia. }
    rewrite D in PC, PD. destruct (Nat.eqb_spec m 9) as [-> |M9].
    + destruct (Nat.ltb_spec (213 * 9 + 213) 2048); [lia|]. split; [rewrite PC; lia|]. split; [lia|]. intros j J.
      rewrite PE. unfold after_sum. rewrite D, (WR c C). destruct (Nat.ltb_spec j (213 * 0)); [lia|]. rewrite Nat.add_0_r.
      destruct (Nat.leb_spec (213 * 9) j) as [H1|H1]; cbn [andb].
      * destruct (Nat.ltb_spec j (Nat.min 2048 (213 * 9 + 213))); [|lia].
        rewrite G by exact J. destruct (Nat.ltb_spec j (213 * 9)); [lia|]. rewrite Nat.add_0_r, frame_sum_S. f_equal.
        -- symmetry. apply frame_app; auto. intros i I. lia.
        -- rewrite stream_app, stream_one, app_nth2; rewrite stream_length by assumption; [|lia]. f_equal. lia.
      * rewrite G by exact J. destruct (Nat.ltb_spec j (213 * 9)); [|lia]. rewrite Nat.add_1_r. symmetry. apply frame_app; auto. intros i I. lia.
    + destruct (Nat.ltb_spec (213 * m + 213) 2048); [|lia]. split; [rewrite PC; lia|]. split; [lia|]. intros j J.
      rewrite PE. unfold after_sum. rewrite D, (WR c C).
      destruct (Nat.leb_spec (213 * m) j) as [H1|H1]; cbn [andb].
      * destruct (Nat.ltb_spec j (Nat.min 2048 (213 * m + 213))) as [H2|H2].
        -- destruct (Nat.ltb_spec j (213 * S m)); [|lia]. rewrite G by exact J. destruct (Nat.ltb_spec j (213 * m)); [lia|].
           rewrite Nat.add_0_r, Nat.add_1_r, frame_sum_S. f_equal.
           ++ symmetry. apply frame_app; auto. intros i I. lia.
           ++ rewrite stream_app, stream_one, app_nth2; rewrite stream_length by assumption; [|lia]. f_equal. lia.
        -- destruct (Nat.ltb_spec j (213 * S m)); [lia|]. rewrite G by exact J. destruct (Nat.ltb_spec j (213 * m)); [lia|].
           symmetry. apply frame_app; auto. intros i I. lia.
      * destruct (Nat.ltb_spec j (213 * S m)); [|lia]. rewrite G by exact J. destruct (Nat.ltb_spec j (213 * m)); [|lia].
        symmetry. apply frame_app; auto. intros i I. lia.
  - unfold last_sample. rewrite PB, app_length. cbn [length]. rewrite Nat.add_sub, nth_error_app2 by lia. rewrite Nat.sub_diag. reflexivity.
Qed.

(** ** Storing the samples *)
Lemma put_app (pre : list byte) x y l : put (length pre) y (pre ++ x :: l) = Some (pre ++ y :: l).
Proof. induction pre as [|z pre IH]; cbn; [reflexivity|]. rewrite IH. reflexivity. Qed.
Lemma store_spec vs : forall i pre l, length pre = 2 * i -> length l = 2 * length vs ->
  store enc i vs (pre ++ l) = Some (pre ++ stored vs).
Proof.
  induction vs as [|v vs IH]; intros i pre l P L; cbn [store].
  - destruct l; [|discriminate]. reflexivity.
  - destruct l as [|x [|y l]]; cbn [length] in L; try lia.
    replace (i * 2) with (length pre) by lia. rewrite put_app.
    replace (length pre + 1) with (length (pre ++ [fst (enc v)])) by (rewrite app_length; reflexivity).
    replace (pre ++ fst (enc v) :: y :: l) with ((pre ++ [fst (enc v)]) ++ y :: l) by (rewrite <- app_assoc; reflexivity).
    rewrite put_app. replace ((pre ++ [fst (enc v)]) ++ snd (enc v) :: l) with ((pre ++ [fst (enc v); snd (enc v)]) ++ l) by (rewrite <- !app_assoc; reflexivity).
    rewrite IH; [|rewrite app_length; cbn [length]; lia|lia]. rewrite <- app_assoc. reflexivity.
Qed.

(** what must be in a finished reading of batch [b], channel [c] *)
Definition good (rs : list raw) (b c : nat) (d : done) : Prop :=
  (exists r, nth_error rs (40 * b) = Some r /\ start_time (rd d) = raw_time r) /\
  sg_i (rd d) = c /\
  samples (rd d) = stored (map (sample f0 c rs) (seq (40 * b) 40)) /\
  @frames V byte time d = 4 /\
  (forall j, j < 2048 -> bins d j = frame_sum c b j 4 rs).

Lemma fft_spec c rs b p old r : c < 4 -> inv c rs b 4 0 p -> length rs = 40 * b + 40 -> length (samples old) = 80 ->
  nth_error rs (40 * b) = Some r ->
  exists p' d, process_fft zero enc p old (raw_time r) c = Some (p', d) /\ inv c rs (S b) 0 0 p' /\ good rs b c d.
Proof.
  intros C (A & B & D & E & G) LEN L R. unfold process_fft.
  pose proof (store_spec (slist p) 0 [] (samples old) eq_refl) as ST. cbn [app] in ST. rewrite ST; [|rewrite B, map_length, seq_length; exact L].
  eexists _, _. split; [reflexivity|]. split.
  - unfold inv. cbn [filt slist fi fcount fsum]. split; [exact A|]. split; [reflexivity|]. split; [reflexivity|]. split; [reflexivity|].
    intros j J. destruct (Nat.ltb_spec j (213 * 0)); [lia|]. reflexivity.
  - unfold good. cbn [rd start_time sg_i samples frames bins]. split; [exists r; auto|]. split; [reflexivity|]. split; [rewrite B; reflexivity|].
    split; [exact E|]. intros j J. rewrite G by exact J. destruct (Nat.ltb_spec j (213 * 0)); [lia|]. reflexivity.
Qed.

Lemma good_app rs r b c d : c < 4 -> Forall well_formed rs -> 40 * b + 40 <= length rs -> good rs b c d -> good (rs ++ r) b c d.
Proof.
  intros C W L ((x & X & T) & I & S & FR & B). split; [exists x; split; [rewrite nth_error_app1 by lia; exact X|exact T]|].
  split; [exact I|]. split; [rewrite samples_app by (auto; lia); exact S|]. split; [exact FR|].
  intros j J. rewrite frame_app; auto. intros i H. lia.
Qed.

Lemma lp_run_snoc olds n s a r : lp_run olds n s (a ++ [r]) =
  match lp_run olds n s a with
  | None => None
  | Some (s1, l1, o1) =>
      match lp_step (olds (n + length a)) s1 r with None => None | Some (s2, l2, o2) => Some (s2, l1 ++ [l2], o1 ++ o2) end
  end.
Proof.
  revert n s. induction a as [|x a IH]; intros n s; cbn [app SgProcess.lp_run length].
  - rewrite Nat.add_0_r. destruct (lp_step (olds n) s r) as [[[s2 l2] o2]|]; [|reflexivity]. rewrite app_nil_r. reflexivity.
  - destruct (lp_step (olds n) s x) as [[[s1 l1] o1]|]; [|reflexivity]. rewrite IH, Nat.add_succ_r. cbn [Nat.add].
    destruct (lp_run olds (S n) s1 a) as [[[s2 l2] o2]|]; [|reflexivity].
    destruct (lp_step (olds (S (n + length a))) s2 r) as [[[s3 l3] o3]|]; [|reflexivity]. rewrite app_assoc. reflexivity.
Qed.

Definition live_of (rs : list raw) (n : nat) : V * V * V * V :=
  (sample f0 0 rs n, sample f0 1 rs n, sample f0 2 rs n, sample f0 3 rs n).

Lemma main_inv rs olds : Forall well_formed rs -> (forall n c, length (samples (olds n c)) = 80) ->
  exists s lives outs b k m, lp_run olds 0 (lp_new zero f0) rs = Some (s, lives, outs) /\
  length rs = 40 * b + 10 * k + m /\ k < 4 /\ m < 10 /\ idx s = 10 * k + m /\
  (idx s <> 0 -> exists r, nth_error rs (40 * b) = Some r /\ start s = Some (raw_time r)) /\
  (forall c, c < 4 -> inv c rs b k m (procs s c)) /\
  length outs = 4 * b /\ lives = map (live_of rs) (seq 0 (length rs)) /\
  (forall b' c, b' < b -> c < 4 -> exists d, nth_error outs (4 * b' + c) = Some d /\ good rs b' c d).
Proof.
  intros W O. induction rs as [|r rs IH] using rev_ind.
  - exists (lp_new zero f0), [], [], 0, 0, 0. split; [reflexivity|]. split; [reflexivity|]. split; [lia|]. split; [lia|].
    split; [reflexivity|]. split; [cbn; lia|]. split.
    { intros c C. unfold inv, lp_new, proc_new. cbn [procs filt slist fi fcount fsum]. split; [reflexivity|]. split; [reflexivity|]. split; [reflexivity|]. split; [reflexivity|].
      intros j J. destruct (Nat.ltb_spec j (213 * 0)); [lia|]. reflexivity. }
    split; [reflexivity|]. split; [reflexivity|]. intros; lia.
  - apply Forall_app in W. destruct W as [W WR]. apply Forall_inv in WR.
    destruct (IH W) as (s & lives & outs & b & k & m & E & LEN & K & M & ID & ST & IV & LO & LL & GD). clear IH.
    rewrite lp_run_snoc, E. cbn [Nat.add]. unfold SgProcess.lp_step.
    set (k' := if m =? 9 then S k else k). set (m' := if m =? 9 then 0 else S m).
    assert (KM : 10 * k' + m' = S (10 * k + m)) by (unfold k', m'; destruct (Nat.eqb_spec m 9); lia).
    assert (M' : m' < 10) by (unfold m'; destruct (Nat.eqb_spec m 9); lia).
    assert (PR : forall c, c < 4 -> exists p', process (channel r c) (procs s c) = Some p' /\ inv c (rs ++ [r]) b k' m' p' /\ last_sample p' = Some (sample f0 c (rs ++ [r]) (length rs))).
    { intros c C. apply inv_step; auto. }
    destruct (PR 0) as (p0 & P0 & I0 & L0); [lia|]. destruct (PR 1) as (p1 & P1 & I1 & L1); [lia|].
    destruct (PR 2) as (p2 & P2 & I2 & L2); [lia|]. destruct (PR 3) as (p3 & P3 & I3 & L3); [lia|]. clear PR.
    unfold four at 1. rewrite P0, P1, P2, P3. unfold four at 1. cbn [of4]. rewrite L0, L1, L2, L3.
    set (st := if idx s =? 0 then Some (raw_time r) else start s).
    assert (START : exists r', nth_error (rs ++ [r]) (40 * b) = Some r' /\ st = Some (raw_time r')).
    { unfold st. destruct (Nat.eqb_spec (idx s) 0) as [Z|Z].
      - exists r. split; [|reflexivity]. rewrite nth_error_app2 by lia. replace (40 * b - length rs) with 0 by lia. reflexivity.
      - destruct (ST Z) as (r' & A & B). exists r'. split; [|exact B]. rewrite nth_error_app1; [exact A|]. apply nth_error_Some. rewrite A. discriminate. }
    assert (LEN' : length (rs ++ [r]) = 40 * b + 10 * k' + m') by (rewrite app_length; cbn [length]; lia).
    assert (LIVES : lives ++ [live_of (rs ++ [r]) (length rs)] = map (live_of (rs ++ [r])) (seq 0 (length (rs ++ [r])))).
    { rewrite app_length. cbn [length]. rewrite Nat.add_1_r, seq_S, map_app. cbn [map]. f_equal. rewrite LL. apply map_ext_in.
      intros n I. apply in_seq in I. unfold live_of. rewrite !sample_app by (auto; lia). reflexivity. }
    destruct constants as (_ & -> & _). rewrite ID. destruct (Nat.eqb_spec (S (10 * k + m)) 40) as [FULL|NF].
    + destruct START as (r0 & R0 & S0). rewrite S0.
      assert (K4 : k' = 4 /\ m' = 0) by lia. destruct K4 as [-> ->].
      assert (FT : forall c p, c < 4 -> inv c (rs ++ [r]) b 4 0 p -> exists p' d, process_fft zero enc p (olds (length rs) c) (raw_time r0) c = Some (p', d) /\ inv c (rs ++ [r]) (S b) 0 0 p' /\ good (rs ++ [r]) b c d).
      { intros c p C I. eapply fft_spec; eauto. lia. }
      destruct (FT 0 p0) as (q0 & d0 & Q0 & J0 & G0); [lia|exact I0|]. destruct (FT 1 p1) as (q1 & d1 & Q1 & J1 & G1); [lia|exact I1|].
      destruct (FT 2 p2) as (q2 & d2 & Q2 & J2 & G2); [lia|exact I2|]. destruct (FT 3 p3) as (q3 & d3 & Q3 & J3 & G3); [lia|exact I3|].
      unfold four. cbn [of4]. rewrite Q0, Q1, Q2, Q3. cbn [snd].
      eexists _, _, _, (S b), 0, 0. split; [reflexivity|]. split; [lia|]. split; [lia|]. split; [lia|]. split; [reflexivity|].
      split; [cbn [idx]; lia|]. split.
      { intros c C. cbn [procs]. destruct c as [|[|[|[|c]]]]; [exact J0|exact J1|exact J2|exact J3|lia]. }
      split; [rewrite app_length; cbn [length]; lia|]. split; [exact LIVES|].
      intros b' c B C. destruct (Nat.eq_dec b' b) as [-> |NB].
      * rewrite nth_error_app2 by lia. replace (4 * b + c - length outs) with c by lia.
        destruct c as [|[|[|[|c]]]]; [exists d0|exists d1|exists d2|exists d3|lia]; auto.
      * destruct (GD b' c) as (d & D1 & D2); [lia|exact C|]. exists d. split; [rewrite nth_error_app1 by lia; exact D1|].
        apply good_app; auto. lia.
    + exists (LP (S (10 * k + m)) st (of4 (p0, p1, p2, p3))), (lives ++ [live_of (rs ++ [r]) (length rs)]), (outs ++ []), b, k', m'.
      split; [reflexivity|]. split; [exact LEN'|]. split; [unfold k'; destruct (Nat.eqb_spec m 9); lia|]. split; [exact M'|]. split; [cbn [idx]; lia|].
      split; [intros _; cbn [start]; exact START|]. split.
      { intros c C. cbn [procs]. destruct c as [|[|[|[|c]]]]; [exact I0|exact I1|exact I2|exact I3|lia]. }
      rewrite app_nil_r. split; [exact LO|]. split; [exact LIVES|].
      intros b' c B C. destruct (GD b' c B C) as (d & D1 & D2). exists d. split; [exact D1|]. apply good_app; auto. lia.
Qed.

(** C95.  Any number of raw reads, any filter, any content of the reused slots: the processing never
    panics; there is one reading per channel per 40 raw reads, dated by the first of them; it holds the
    filter's output at the end of each of the 40 reads, the filter having seen every sample since boot;
    the transform gets the sum of exactly four frames of 2048 consecutive samples; and what is published
    for real-time use is the newest filtered sample of each channel. *)
Theorem sg_processing rs olds : Forall well_formed rs -> (forall n c, length (samples (olds n c)) = 80) ->
  exists s lives outs, lp_run olds 0 (lp_new zero f0) rs = Some (s, lives, outs) /\
  length outs = 4 * (length rs / 40) /\
  lives = map (fun n => (sample f0 0 rs n, sample f0 1 rs n, sample f0 2 rs n, sample f0 3 rs n)) (seq 0 (length rs)) /\
  (forall b c, b < length rs / 40 -> c < 4 -> exists d r,
     nth_error outs (4 * b + c) = Some d /\ nth_error rs (40 * b) = Some r /\
     rd d = Reading (raw_time r) c (stored (map (sample f0 c rs) (seq (40 * b) 40))) /\
     frames d = 4 /\ (forall j, j < 2048 -> bins d j = frame_sum c b j 4 rs)).
Proof.
  intros W O. destruct (main_inv rs olds W O) as (s & lives & outs & b & k & m & E & LEN & K & M & ID & ST & IV & LO & LL & GD).
  assert (D : length rs / 40 = b). { symmetry. apply (Nat.div_unique _ 40 b (10 * k + m)); lia. }
  exists s, lives, outs. rewrite D. split; [exact E|]. split; [exact LO|]. split; [exact LL|].
  intros b' c B C. destruct (GD b' c B C) as (d & D1 & (r & R & T) & I & S & FR & BN). exists d, r.
  split; [exact D1|]. split; [exact R|]. split; [|split; [exact FR|exact BN]].
  destruct d as [[t i sm] bn fr]. cbn in *. subst. reflexivity.
Qed.

(** A reading is 80 bytes, all of them written. *)
Corollary stored_length vs : length (stored vs) = 2 * length vs.
Proof. induction vs as [|v vs IH]; [reflexivity|]. unfold stored in *. cbn [map concat]. rewrite app_length, IH. cbn [length]. lia. Qed.
End P.

(** The hypotheses are met by 80 raw reads of a constant signal, and two batches come out. *)
Example sg_example :
  let rs := repeat (Raw 7 (fun c => repeat c 213)) 80 in
  exists s lives outs,
    lp_run (fun f x => (f + x, f + x)) Nat.add 0 (fun v => (v, 0)) (fun _ _ => Reading 0 0 (repeat 9 80)) 0 (lp_new 0 0) rs = Some (s, lives, outs) /\
    length outs = 8 /\ length lives = 80.
Proof.
  cbv zeta.
  destruct (sg_processing (fun f x => (f + x, f + x)) Nat.add 0 (fun v => (v, 0)) 0 (repeat (Raw 7 (fun c => repeat c 213)) 80) (fun _ _ => Reading 0 0 (repeat 9 80)))
    as (s & lives & outs & E & L & LV & _).
  - apply Forall_forall. intros r I. apply repeat_spec in I. subst r. intros c _. apply repeat_length.
  - intros. apply repeat_length.
  - exists s, lives, outs. split; [exact E|]. split; [rewrite L, repeat_length; reflexivity|].
    rewrite LV, map_length, seq_length. apply repeat_length.
Qed.

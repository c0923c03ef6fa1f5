(** * C116: the simulators' virtual devices. *)
From Verif Require Import Base VSerial.
Local Open Scope nat_scope.

(** ** The serial line *)
Lemma lrun_bytes ops : forall l l' ds, Forall (fun o => o <> LSplit) ops -> lrun l ops = Some (l', ds) ->
  rest l ++ concat (queue l) ++ written ops = concat ds ++ rest l' ++ concat (queue l').
Proof.
  induction ops as [|o ops IH]; intros l l' ds F H; cbn [lrun] in H.
  - injection H as <- <-. cbn [written map concat app]. rewrite app_nil_r. reflexivity.
  - inversion F as [|x y F1 F2]; subst. destruct o as [d|n|]; [| |contradiction].
    + pose proof (IH _ _ _ F2 H) as E. cbn [vwrite fst queue rest] in E. rewrite concat_app in E. cbn [concat] in E. rewrite app_nil_r in E.
      rewrite <- E. unfold written. cbn [map concat]. rewrite <- !app_assoc. reflexivity.
    + destruct (vread l n) as [[l1 d]|] eqn:Er; [|discriminate]. destruct (lrun l1 ops) as [[l2 ds']|] eqn:El; [|discriminate].
      injection H as <- <-. pose proof (IH _ _ _ F2 El) as E. unfold written in *. cbn [map concat app]. rewrite <- app_assoc, <- E. clear E IH El.
      unfold vread in Er. destruct (Nat.ltb_spec 0 (length (rest l))) as [L|L].
      * injection Er as <- <-. cbn [rest queue]. rewrite !app_assoc, firstn_skipn. reflexivity.
      * destruct (rest l); [|cbn [length] in L; lia]. destruct (queue l) as [|c q]; [discriminate|]. injection Er as <- <-.
        cbn [rest queue concat app]. rewrite !app_assoc, firstn_skipn. reflexivity.
Qed.

(** Whatever the pieces in which bytes are written and read, and however writes and reads interleave, the bytes read are the bytes
    written, in order: what has been read is a beginning of what has been written, and the rest is still to come. *)
Theorem C116_serial_keeps_every_byte ops l ds : Forall (fun o => o <> LSplit) ops -> lrun line_new ops = Some (l, ds) ->
  written ops = concat ds ++ rest l ++ concat (queue l).
Proof. intros F H. exact (lrun_bytes ops line_new l ds F H). Qed.

(** A read gives at most as many bytes as asked for; and it waits only if everything written has been read *)
Theorem C116_serial_read_bounds ops l ds n : Forall (fun o => o <> LSplit) ops -> lrun line_new ops = Some (l, ds) ->
  match vread l n with Some (_, d) => length d <= n | None => written ops = concat ds end.
Proof.
  intros F H. pose proof (C116_serial_keeps_every_byte ops l ds F H) as E. unfold vread. destruct (Nat.ltb_spec 0 (length (rest l))) as [L|L].
  - rewrite firstn_length. lia.
  - destruct (rest l); [|cbn [length] in L; lia]. destruct (queue l) as [|c q]; [rewrite E; apply app_nil_r|]. rewrite firstn_length. lia.
Qed.

(** But the left-over bytes belong to the receiving half, and [split] makes a new one: bytes that were already taken off the channel
    are lost.  And a write of no bytes makes a read return 0 bytes, which readers take for the end of the stream. *)
Theorem C116_refuted_split_loses : exists l ds, lrun line_new [LWrite [1; 2; 3]%N; LRead 1; LSplit; LWrite [4%N]; LRead 9] = Some (l, ds) /\
  concat ds = [1; 4]%N /\ rest l = [] /\ queue l = [].
Proof. eexists _, _. split; [reflexivity|]. split; [reflexivity|]. split; reflexivity. Qed.
Theorem C116_refuted_empty_write : exists l, lrun line_new [LWrite []; LWrite [7%N]; LRead 5] = Some (l, [[]]) /\ queue l = [[7%N]].
Proof. eexists. split; reflexivity. Qed.
(** The launch simulator's line panics instead when a chunk is longer than the reader's buffer *)
Theorem C116_refuted_long_chunk : forall d q n, n < length d -> sread (d :: q) n = SPanic.
Proof. intros d q n H. unfold sread. destruct (Nat.leb_spec (length d) n); [lia|reflexivity]. Qed.

(** Otherwise it is faithful: as long as each chunk fits the buffer of its read, every read gives the next chunk, whole, once and in order *)
Fixpoint sreads (q : list (list byte)) (ns : list nat) : option (list (list byte) * list (list byte)) :=
  match ns with
  | [] => Some ([], q)
  | n :: ns => match sread q n with SOk q' d => match sreads q' ns with Some (ds, q2) => Some (d :: ds, q2) | None => None end | _ => None end
  end.
Theorem C116_short_chunks_arrive : forall sent ns more, Forall2 (fun d n => length d <= n) sent ns -> sreads (sent ++ more) ns = Some (sent, more).
Proof.
  intros sent ns more F. induction F as [|d n sent ns L F IH]; [reflexivity|]. cbn [app sreads]. unfold sread.
  destruct (Nat.leb_spec (length d) n); [|lia]. now rewrite IH.
Qed.

(** ** Switches *)
Fixpoint last_set (b : bool) (ops : list sop) : bool := match ops with [] => b | SSet c :: t => last_set c t | _ :: t => last_set b t end.
Fixpoint last_told (b : bool) (ops : list sop) : bool := match ops with [] => b | SWaitChange c :: t => last_told c t | _ :: t => last_told b t end.
Lemma srun_inv ops : forall s b s', srun s ops = Some s' -> (match sig s with Some c => c = now_on s | None => now_on s = b end) ->
  now_on s' = last_set (now_on s) ops /\ match sig s' with Some c => c = now_on s' | None => now_on s' = last_told b ops end.
Proof.
  induction ops as [|o ops IH]; intros s b s' H I; cbn [srun] in H; [injection H as <-; auto|]. destruct o as [c|c]; cbn [last_set last_told].
  - destruct (IH _ b _ H) as [A B].
    + unfold set_switch. destruct (Bool.eqb (now_on s) c); [exact I|reflexivity].
    + split; [|exact B]. rewrite A. f_equal. unfold set_switch. destruct (Bool.eqb (now_on s) c) eqn:E; [apply Bool.eqb_prop in E; exact E|reflexivity].
  - unfold wait_change in H. destruct (sig s) as [c'|] eqn:Es; [|discriminate]. destruct (Bool.eqb c c') eqn:E; [|discriminate]. apply Bool.eqb_prop in E. subst c'.
    destruct (IH _ c _ H) as [A B]; [cbn [sig now_on]; auto|]. split; [exact A|exact B].
Qed.

(** The state that is read is the one last set; and once no change is waiting to be told, the one who waits for changes knows it: what
    it was told last (off at the start) is the state. *)
Theorem C116_switch ops s : srun switch_new ops = Some s ->
  read_switch s = last_set false ops /\ (wait_change s = None -> last_told false ops = read_switch s) /\
  (forall s' b, wait_change s = Some (s', b) -> b = read_switch s).
Proof.
  intros H. destruct (srun_inv ops switch_new false s H eq_refl) as [A B]. unfold read_switch, wait_change. cbn [now_on switch_new] in A.
  split; [exact A|]. destruct (sig s) as [c|]; split.
  - discriminate.
  - intros s' b E. injection E as _ <-. exact B.
  - intros _. symmetry. exact B.
  - discriminate.
Qed.
(** But a change and its undoing between two looks are told as one event, which is no change *)
Theorem C116_refuted_told_change : exists s, srun switch_new [SSet true; SSet false; SWaitChange false] = Some s.
Proof. eexists. reflexivity. Qed.

(** ** Sensors *)
Fixpoint sets {R} (l : list (rop R)) : list R := match l with [] => [] | RSet r :: t => r :: sets t | RRead _ :: t => sets t end.
Fixpoint reads {R} (l : list (rop R)) : list R := match l with [] => [] | RSet _ :: t => reads t | RRead r :: t => r :: reads t end.
Inductive subseq {R} : list R -> list R -> Prop :=
| ss_nil l : subseq [] l
| ss_take x a b : subseq a b -> subseq (x :: a) (x :: b)
| ss_skip x a b : subseq a b -> subseq a (x :: b).
Lemma rrun_sub {R} (l : list (rop R)) s s' : rrun s l s' -> subseq (reads l) (match s with Some r => [r] | None => [] end ++ sets l).
Proof.
  induction 1 as [s|s r l s' H IH|r l s' H IH]; cbn [reads sets].
  - constructor.
  - destruct s as [r0|]; cbn [app] in *; [apply ss_skip; exact IH|exact IH].
  - cbn [app] in *. apply ss_take. exact IH.
Qed.
(** Every reading is handed out at most once and in order; a reading that is replaced before it is read is lost, and reading again
    before a new one has been set panics. *)
Theorem C116_sensor {R} (l : list (rop R)) s : rrun None l s -> subseq (reads l) (sets l).
Proof. intros H. exact (rrun_sub l None s H). Qed.
Theorem C116_sensor_read_twice {R} (l : list (rop R)) r r2 s : ~ rrun None (l ++ [RRead r; RRead r2]) s.
Proof.
  assert (K : forall (s0 : sensor R) l0 s1, rrun s0 l0 s1 -> forall l, l0 = l ++ [RRead r; RRead r2] -> False).
  { induction 1 as [s0|s0 x l0 s1 H IH|x l0 s1 H IH]; intros l1 E.
    - destruct l1; discriminate.
    - destruct l1 as [|o l1]; [discriminate|]. injection E as _ E. exact (IH l1 E).
    - destruct l1 as [|o l1]; [|injection E as _ E; exact (IH l1 E)]. injection E as _ ->. inversion H. }
  intros H. exact (K _ _ _ H l eq_refl).
Qed.

(** ** The mock radio *)
Fixpoint sent (l : list aop) : list (list byte) := match l with [] => [] | ATx d :: t => d :: sent t | ARx _ :: t => sent t end.
Fixpoint heard (l : list aop) : list (list byte) := match l with [] => [] | ARx d :: t => d :: heard t | ATx _ :: t => heard t end.
Lemma arun_sub a l a' : arun a l a' -> subseq (heard l) ((if seen a then [] else [packet a]) ++ sent l).
Proof.
  induction 1 as [a|a d a1 l a2 Ht H IH|a d a1 l a2 Hr H IH]; cbn [heard sent].
  - constructor.
  - unfold air_tx in Ht. destruct (length d <=? 222)%nat; [|discriminate]. injection Ht as <-. cbn [seen packet app] in IH.
    destruct (seen a); cbn [app]; [exact IH|apply ss_skip; exact IH].
  - unfold air_rx in Hr. destruct (seen a); [discriminate|]. injection Hr as <- <-. cbn [app seen packet] in *. apply ss_take. exact IH.
Qed.
(** Packets are received in the order sent, each at most once and unchanged; one that is followed by another before the receiver
    listens is lost, as it would be on the air. *)
Theorem C116_mock_radio l a : arun air_new l a -> subseq (heard l) (sent l).
Proof. intros H. exact (arun_sub air_new l a H). Qed.
Theorem C116_mock_radio_keeps_last l a d : arun air_new (l ++ [ATx d]) a -> air_rx a = Some (Air d true, d).
Proof.
  assert (K : forall a0 l0 a1, arun a0 l0 a1 -> forall l, l0 = l ++ [ATx d] -> air_rx a1 = Some (Air d true, d)).
  { induction 1 as [a0|a0 x a1 l0 a2 Ht H IH|a0 x a1 l0 a2 Hr H IH]; intros l1 E.
    - destruct l1; discriminate.
    - destruct l1 as [|o l1].
      + injection E as -> ->. inversion H; subst. unfold air_tx in Ht. destruct (length d <=? 222)%nat; [|discriminate]. injection Ht as <-. reflexivity.
      + injection E as _ E. exact (IH l1 E).
    - destruct l1 as [|o l1]; [discriminate|]. injection E as _ E. exact (IH l1 E). }
  intros H. exact (K _ _ _ H l eq_refl).
Qed.

(** concrete cases *)
Example ex_C116_serial : exists l, lrun line_new [LWrite [1; 2; 3]%N; LRead 2; LWrite [4; 5]%N; LRead 9; LRead 1] = Some (l, [[1; 2]; [3]; [4]]%N) /\ rest l = [5%N].
Proof. eexists. split; reflexivity. Qed.
Example ex_C116_switch : exists s, srun switch_new [SSet true; SWaitChange true; SSet true; SSet false] = Some s /\ sig s = Some false.
Proof. eexists. split; reflexivity. Qed.
Example ex_C116_radio : exists a, arun air_new [ATx [1%N]; ATx [2%N]; ARx [2%N]; ATx [3%N]] a.
Proof. eexists. repeat (econstructor; [reflexivity|]). constructor. Qed.

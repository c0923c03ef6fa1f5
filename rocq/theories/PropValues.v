(** * C114: integers written to a file come back, and a file cut short gives a prefix of them. *)
From Coq Require Import Sorted Permutation.
From Verif Require Import Base Majority Flash FS Sectors ATable FileIO FileFormat FsSpec FsApi FsRefine FsBoot FsHistory PropDirectory FsExec PropFiles FsExamples.
Local Open Scope N_scope.

(** ** The model: vlfs/src/utils/io_traits.rs *)
(** the widths of [extend_from_u8], [_u16], [_u32], [_u64] *)
Inductive width := W8 | W16 | W32 | W64.
Definition bytes_of (w : width) : nat := match w with W8 => 1 | W16 => 2 | W32 => 4 | W64 => 8 end.

(** io_traits.rs:73-93: [extend_from_slice(&value.to_be_bytes())] ([extend_from_u8]: one byte) *)
Definition put (w : width) (n : N) : list byte := match w with W8 => [n] | _ => be_bytes (bytes_of w) n end.

(** io_traits.rs:20-66: [read_slice] of so many bytes, then [from_be_bytes] if all of them came *)
Definition get (w : width) (d : list byte) : option N :=
  if (length d =? bytes_of w)%nat then match w with W8 => Some (nth 0 d 0) | _ => Some (of_be d) end else None.

(** a sequence of typed reads on one reader (fs/reader.rs [read_slice], as in [read_many]) *)
Fixpoint read_values (crc : list byte -> N) (f : flash) (r : reader) (ws : list width) : res (list (option N * status)) :=
  match ws with
  | [] => Ok []
  | w :: t => match read_slice crc f r (bytes_of w) with
              | Ok (r, d, st) => match read_values crc f r t with Ok l => Ok ((get w d, st) :: l) | e => e end
              | Err e => Err e
              | Panic => Panic
              end
  end.

(** ** Specification *)
(** a value that fits its type *)
Definition fits (v : width * N) : Prop := snd v < 256 ^ N.of_nat (bytes_of (fst v)).
(** what a client writes: values, with flushes in between *)
Inductive vop := VPut (w : width) (n : N) | VSync.
Definition vcall (o : vop) : wop := match o with VPut w n => WData (put w n) | VSync => WSync end.
Fixpoint values (ops : list vop) : list (width * N) :=
  match ops with [] => [] | VPut w n :: t => (w, n) :: values t | VSync :: t => values t end.
Definition encoded (vs : list (width * N)) : list byte := concat (map (fun v => put (fst v) (snd v)) vs).

(** ** Proofs *)
Lemma put_length w n : length (put w n) = bytes_of w.
Proof. destruct w; [reflexivity|apply be_bytes_length|apply be_bytes_length|apply be_bytes_length]. Qed.
Lemma put_ok w n : fits (w, n) -> bytes_ok (put w n).
Proof. intros F. destruct w; [|apply be_bytes_ok|apply be_bytes_ok|apply be_bytes_ok]. unfold fits in F. cbn [fst snd bytes_of] in F. constructor; [exact F|constructor]. Qed.
Lemma get_put w n : fits (w, n) -> get w (put w n) = Some n.
Proof.
  intros F. unfold get. rewrite put_length, Nat.eqb_refl. unfold fits in F. cbn [fst snd] in F.
  destruct w; [reflexivity|f_equal; apply of_be_be_bytes_id; exact F|f_equal; apply of_be_be_bytes_id; exact F|f_equal; apply of_be_be_bytes_id; exact F].
Qed.

Fixpoint typed (ws : list width) (l : list (list byte * status)) : list (option N * status) :=
  match ws, l with w :: ws, (d, st) :: l => (get w d, st) :: typed ws l | _, _ => [] end.
Lemma read_values_many crc f ws : forall r l, read_many crc f r (map bytes_of ws) = Ok l -> read_values crc f r ws = Ok (typed ws l).
Proof.
  induction ws as [|w ws IH]; intros r l H; cbn [map read_many read_values typed] in *; [reflexivity|].
  destruct (read_slice crc f r (bytes_of w)) as [[[r' d] st]|e|] eqn:E; [|discriminate|discriminate].
  destruct (read_many crc f r' (map bytes_of ws)) as [l'|e|] eqn:E'; [|discriminate|discriminate]. injection H as <-.
  rewrite (IH r' l' E'). reflexivity.
Qed.

Lemma all_data_values ops : all_data (map vcall ops) = encoded (values ops).
Proof.
  unfold all_data, encoded. induction ops as [|[w n|] ops IH]; cbn [map concat values vcall wdata]; [reflexivity| |].
  - rewrite IH. reflexivity.
  - rewrite IH. reflexivity.
Qed.

(** the values that are whole in the first [n] bytes, then nothing *)
Fixpoint expected (n : nat) (vs : list (width * N)) : list (option N * status) :=
  match vs with
  | [] => []
  | (w, v) :: t => if (bytes_of w <=? n)%nat then (Some v, StOk) :: expected (n - bytes_of w) t else map (fun _ => (None, StEnd)) vs
  end.
Lemma typed_empty (vs : list (width * N)) : typed (map fst vs) (expect [] (map bytes_of (map fst vs))) = map (fun _ => (None, StEnd)) vs.
Proof.
  induction vs as [|[w v] vs IH]; cbn [map fst expect typed]; [reflexivity|]. rewrite firstn_nil, skipn_nil. cbn [length].
  rewrite IH. destruct w; reflexivity.
Qed.
Lemma typed_cut vs : Forall fits vs -> forall n, typed (map fst vs) (expect (firstn n (encoded vs)) (map bytes_of (map fst vs))) = expected n vs.
Proof.
  induction vs as [|[w v] vs IH]; intros F n; [reflexivity|]. inversion F as [|x l F1 F2]; subst.
  change (encoded ((w, v) :: vs)) with (put w v ++ encoded vs). cbn [map fst expect typed expected].
  destruct (Nat.leb_spec (bytes_of w) n) as [L|L].
  - rewrite firstn_app, put_length, (firstn_all2 (put w v)) by (rewrite put_length; exact L).
    rewrite firstn_app, put_length, Nat.sub_diag. cbn [firstn]. rewrite app_nil_r, firstn_all2 by (rewrite put_length; lia).
    rewrite skipn_app, put_length, Nat.sub_diag. cbn [skipn]. rewrite skipn_all2 by (rewrite put_length; lia). cbn [app].
    rewrite app_length, put_length. destruct (Nat.leb_spec (bytes_of w) (bytes_of w + length (firstn (n - bytes_of w) (encoded vs)))) as [_|K]; [|lia].
    rewrite get_put by exact F1. rewrite IH by exact F2. reflexivity.
  - set (d := firstn n (put w v ++ encoded vs)). assert (Ld : (length d < bytes_of w)%nat) by (unfold d; rewrite firstn_length; lia).
    rewrite skipn_all2 by lia. rewrite typed_empty. rewrite firstn_all2 by lia. cbn [map]. unfold get.
    destruct (Nat.eqb_spec (length d) (bytes_of w)) as [K|_]; [lia|]. destruct (Nat.leb_spec (bytes_of w) (length d)) as [K|_]; [lia|]. reflexivity.
Qed.
Lemma expected_all vs : forall n, (length (encoded vs) <= n)%nat -> expected n vs = map (fun v => (Some (snd v), StOk)) vs.
Proof.
  induction vs as [|[w v] vs IH]; intros n Hn; [reflexivity|]. change (encoded ((w, v) :: vs)) with (put w v ++ encoded vs) in Hn.
  rewrite app_length, put_length in Hn. cbn [expected map snd]. destruct (Nat.leb_spec (bytes_of w) n) as [_|K]; [|lia]. rewrite IH by lia. reflexivity.
Qed.
Lemma wops_ok ops : Forall fits (values ops) -> Forall (fun o => bytes_ok (wdata o)) (map vcall ops).
Proof.
  induction ops as [|[w n|] ops IH]; cbn [values map vcall]; intros H; constructor.
  - inversion H; subst. cbn [wdata]. apply put_ok. assumption.
  - inversion H; subst. auto.
  - constructor.
  - auto.
Qed.

(** ** C114 *)
(** Values of any widths, written to a file in any order with flushes in between, are read back, in order, as the same values;
    a read beyond them says that the file has ended and gives no value. *)
Theorem C114_values_come_back : forall crc, crc32 crc -> forall es y t y0 id y1 ops y2 y3 extra, history crc es (On y) ->
  legal y (Create t) -> perform crc (Create t) y = (y0, RId id) -> legal y0 (OpenWrite id) -> perform crc (OpenWrite id) y0 = (y1, RDone) ->
  Forall fits (values ops) -> session crc (its_writer y0) (map vcall ops) y1 = Some y2 -> perform crc (CloseWriter (its_writer y0)) y2 = (y3, RDone) ->
  (length (a_open (atb (sfs y3))) < 32)%nat ->
  exists s rd, open_file_for_read id (sfs y3) = (s, Ok rd) /\
    read_values crc (fl s) rd (map fst (values ops) ++ extra) =
      Ok (map (fun v => (Some (snd v), StOk)) (values ops) ++ map (fun _ => (None, StEnd)) extra).
Proof.
  intros crc Hc es y t y0 id y1 ops y2 y3 extra Hh L0 E0 L1 E1 Hf Hs Hcl Hl.
  destruct (C17_written_is_read crc Hc es y t y0 id y1 (map vcall ops) y2 y3 Hh L0 E0 L1 E1 (wops_ok ops Hf) Hs Hcl) as [_ B].
  destruct (B Hl) as (s & rd & E & R). exists s, rd. split; [exact E|].
  rewrite (read_values_many crc (fl s) _ rd _ (R (map bytes_of (map fst (values ops) ++ extra)))). f_equal. rewrite all_data_values.
  revert Hf. generalize (values ops). clear. intros vs Hf. induction vs as [|[w v] vs IH].
  - cbn [map app encoded concat]. induction extra as [|w extra IHe]; [reflexivity|]. cbn [map expect typed]. rewrite firstn_nil, skipn_nil, IHe. destruct w; reflexivity.
  - inversion Hf as [|x l F1 F2]; subst. change (encoded ((w, v) :: vs)) with (put w v ++ encoded vs). cbn [map fst snd app expect typed].
    rewrite firstn_app, put_length, Nat.sub_diag. cbn [firstn]. rewrite app_nil_r, firstn_all2 by (rewrite put_length; lia).
    rewrite skipn_app, put_length, Nat.sub_diag. cbn [skipn]. rewrite skipn_all2 by (rewrite put_length; lia). cbn [app].
    rewrite app_length, put_length. destruct (Nat.leb_spec (bytes_of w) (bytes_of w + length (encoded vs))) as [_|K]; [|lia].
    rewrite get_put by exact F1. rewrite IH by exact F2. reflexivity.
Qed.

(** Power lost at any moment of the writing, of whatever call: after the restart the file gives the values that are whole in some
    prefix of what was written, in order and unchanged, and after that no value at all: no value is ever made up from a piece. *)
Theorem C114_cut_gives_a_prefix : forall crc, crc32 crc -> forall es y0 id y1 ops y2 o f r, history crc es (On y0) ->
  opened crc y0 id [] y1 -> Forall fits (values (ops ++ [o])) -> session crc (its_writer y0) (map vcall ops) y1 = Some y2 ->
  power_lost crc (wcall (its_writer y0) (vcall o)) y2 f ->
  exists s s' rd n, boot f r = (s, Ok tt) /\ open_file_for_read id s = (s', Ok rd) /\
    (length (encoded (values ops)) <= n + 4016)%nat /\
    read_values crc (fl s') rd (map fst (values (ops ++ [o]))) = Ok (expected n (values (ops ++ [o]))).
Proof.
  intros crc Hc es y0 id y1 ops y2 o f r Hh Ho Hf Hs Hp.
  assert (Hv : forall a b, values (a ++ b) = values a ++ values b) by (intros a b; induction a as [|[w n|] a IH]; cbn [app values]; [reflexivity|rewrite IH; reflexivity|exact IH]).
  assert (Hf1 : Forall fits (values ops)) by (rewrite Hv in Hf; apply Forall_app in Hf; apply Hf).
  assert (Hfo : bytes_ok (wdata (vcall o))).
  { rewrite Hv in Hf. apply Forall_app in Hf. destruct Hf as [_ Hf]. pose proof (wops_ok [o] Hf) as K. inversion K; subst. assumption. }
  pose proof (wops_ok ops Hf1) as Hb. set (k := its_writer y0) in *. set (c := wcall k (vcall o)) in *.
  destruct (C20_loss_bounded crc Hc es y0 id [] y1 (map vcall ops) y2 c f r Hh Ho Hb Hs) as (F & d & S1 & C1 & (tl & B1) & L1).
  { right. left. split; [|exact Hp]. exists (vcall o). split; [reflexivity|exact Hfo]. }
  destruct (open_one crc es y0 id [] y1 Hc Hh Ho) as (v0 & v1 & R0 & R1 & W1 & _ & L2).
  destruct (write_many crc Hc k id (map vcall ops) y1 v1 [] [] y2 R1 W1 Hb Hs) as (v2 & kept & pend & R2 & W2 & _ & _ & _ & _ & L3).
  assert (Al : allowed v2 c).
  { assert (Hk : (k < length (v_wr v2))%nat) by (apply nth_error_Some; rewrite (wg_nth _ _ _ _ _ W2); discriminate).
    unfold c. destruct o as [w n|]; cbn [vcall wcall allowed]; [split; [exact Hfo|exact Hk]|exact Hk]. }
  pose proof (refines crc Hc y2 v2 c R2 Al) as Rf. unfold Refined in Rf. destruct (perform crc c y2) as [y' rep]. destruct Rf as [_ [Lf _]].
  destruct (Lf f Hp) as (F' & top & gen & _ & K & _).
  pose proof (kept_snapshot crc f F' top gen r K) as S2. rewrite S1 in S2. injection S2 as <-.
  destruct (boot_kept crc f F top gen r K) as (s & E & _ & _ & RR).
  destruct (can_read crc (mkSys s [] []) (mkV F [] [] [] top gen) id d RR C1 eq_refl) as (s' & rd & E' & R); [cbn [v_open length]; lia|].
  cbn [sfs] in E'. exists s, s', rd, (length d). split; [exact E|]. split; [exact E'|].
  cbn [app] in L1. rewrite all_data_values in L1, B1. split; [exact L1|].
  assert (Ed : d = firstn (length d) (encoded (values (ops ++ [o])))).
  { assert (X : encoded (values (ops ++ [o])) = d ++ tl).
    { rewrite <- B1. cbn [app]. rewrite Hv. unfold encoded. rewrite map_app, concat_app. f_equal.
      unfold c. destruct o as [w n|]; cbn [values map concat vcall wcall fst snd]; [apply app_nil_r|reflexivity]. }
    rewrite X, firstn_app, firstn_all, Nat.sub_diag. cbn [firstn]. rewrite app_nil_r. reflexivity. }
  rewrite (read_values_many crc (fl s') _ rd _ (R (map bytes_of (map fst (values (ops ++ [o])))))). f_equal. rewrite Ed at 1. apply typed_cut. exact Hf.
Qed.

(** concrete case: three values of different widths, with a flush in between *)
Definition some_ops : list vop := [VPut W16 258; VSync; VPut W64 (2 ^ 40 + 5); VPut W8 9].
Example ex_C114 : exists es y y0 y1 y2 y3, history sum es (On y) /\ legal y (Create 7) /\ perform sum (Create 7) y = (y0, RId 3) /\
  legal y0 (OpenWrite 3) /\ perform sum (OpenWrite 3) y0 = (y1, RDone) /\ Forall fits (values some_ops) /\
  session sum (its_writer y0) (map vcall some_ops) y1 = Some y2 /\ perform sum (CloseWriter (its_writer y0)) y2 = (y3, RDone) /\
  (length (a_open (atb (sfs y3))) < 32)%nat.
Proof.
  destruct (reach two_files (fun y => legalb y (Create 7) &&
    let (y0, r0) := perform sum (Create 7) y in is_id r0 3 && legalb y0 (OpenWrite 3) &&
    let (y1, r1) := perform sum (OpenWrite 3) y0 in is_done r1 &&
    match session sum (its_writer y0) (map vcall some_ops) y1 with
    | Some y2 => let (y3, r3) := perform sum (CloseWriter (its_writer y0)) y2 in is_done r3 && (length (a_open (atb (sfs y3))) <? 32)%nat
    | None => false end)) as (es & y & Hh & H); [vm_compute; reflexivity|].
  apply andb_prop in H. destruct H as [H1 H]. destruct (perform sum (Create 7) y) as [y0 r0] eqn:E0.
  apply andb_prop in H. destruct H as [H H4]. apply andb_prop in H. destruct H as [H2 H3].
  destruct (perform sum (OpenWrite 3) y0) as [y1 r1] eqn:E1. apply andb_prop in H4. destruct H4 as [H4 H5].
  destruct (session sum (its_writer y0) (map vcall some_ops) y1) as [y2|] eqn:E2; [|exfalso; exact (Bool.diff_false_true H5)].
  destruct (perform sum (CloseWriter (its_writer y0)) y2) as [y3 r3] eqn:E3. apply andb_prop in H5. destruct H5 as [H5 H6].
  apply is_id_eq in H2. apply is_done_eq in H4, H5. subst r0 r1 r3. exists es, y, y0, y1, y2, y3.
  split; [exact Hh|]. split; [apply legalb_sound; exact H1|]. split; [exact E0|]. split; [apply legalb_sound; exact H3|]. split; [exact E1|].
  split; [apply Forall_forall; intros [w n] Hin; cbn [values some_ops In] in Hin; destruct Hin as [X|[X|[X|[]]]]; injection X as <- <-; reflexivity|].
  split; [exact E2|]. split; [exact E3|]. apply Nat.ltb_lt. exact H6.
Qed.

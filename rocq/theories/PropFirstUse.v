(** * C113: the first use of a chip, whatever it holds. *)
From Verif Require Import Base Majority Flash FS Sectors SectorsProofs ATable TornCode TableCode TableScan ChipRules TableBuild TableOps DirOps Chains FileIO FileFormat FileWrite WriteOps WriteSpec Disk Sessions DirState OpenOps Append OpenWrite FsSpec FsApi FsRefine FsBoot FsHistory PropDirectory FsExec FsExamples PropChip.
Local Open Scope N_scope.

(** no table can be read from the chip (allocation_table.rs:335-382): in each of the four slots the header is not accepted, or an
    entry that cannot be decoded comes before the footer *)
Definition no_table (f : flash) : Prop :=
  forall q, q < 4 -> header_deserialize (rd f (q * 32768) 13) = None \/ scan slot_blocks f (q * 32768 + 13) 0 = SCorrupt.

Lemma unused_no_table f : unused f -> no_table f.
Proof. intros [_ H] q Hq. left. exact (H q Hq). Qed.

(** Starting the file system on such a chip reports success, with no files: one sector is erased and one page written, and nothing
    else on the chip is touched.  Note that this is also what happens to a chip whose tables have all become unreadable: its files are
    given up without an error. *)
Theorem C113_no_table_is_formatted f r : no_table f ->
  exists s d, boot f r = (s, Ok tt) /\ files_iter s (fun _ => true) = Ok [] /\ lg s = [Erase 0 4096; Prog 0 d] /\ length d = 256%nat /\
    forall x, 4096 <= x -> fl s x = f x.
Proof.
  intros Hall.
  assert (Eb : boot f r = (emit (emit (boot_state f r) (Erase 0 4096)) (Prog 0 (image 1 [] 0 ++ repeat 255 230)), Ok tt)).
  { unfold boot, init. rewrite bind_get. cbn [boot_state fl atb]. rewrite (read_latest_none f at_default Hall). apply (format_run sum). }
  destruct format_shape as [L _]. set (d := image 1 [] 0 ++ repeat 255 230) in *. clearbody d.
  eexists _, d. split; [exact Eb|]. split; [reflexivity|]. split; [reflexivity|]. split; [exact L|].
  intros x Hx. cbn [emit fl boot_state apply_op]. rewrite L.
  destruct (N.ltb_spec x (0 + N.of_nat 256)) as [K|_]; [lia|]. rewrite Bool.andb_false_r.
  destruct (N.ltb_spec x (0 + 4096)) as [K|_]; [lia|]. rewrite Bool.andb_false_r. reflexivity.
Qed.

(** An unused chip (erased, zeros, someone else's data) holds no files before and after its first start, and also after any number of
    starts that were interrupted at any point, torn erases and pages included. *)
Theorem C113_first_start crc f r : crc32 crc -> unused f ->
  snapshot crc f r = Some [] /\
  exists s, boot f r = (s, Ok tt) /\ history crc [ABoot] (On (mkSys s [] [])) /\ snapshot crc (fl s) r = Some [].
Proof.
  intros Hc U. assert (HH : Holds crc f [] 0 1) by (right; split; [apply unused_fresh; exact U|auto]).
  split; [exact (holds_snapshot crc f [] 0 1 r HH)|].
  destruct (boot_holds crc f [] 0 1 r HH) as (s & top & E & R & _). exists s. split; [exact E|]. split.
  - apply (hi_step crc [] (Off f)); [apply hi_new; exact U|exact I|]. apply (step_boot crc f r s E).
  - exact (repr_snapshot crc (mkSys s [] []) _ r R).
Qed.
Theorem C113_first_start_interrupted crc es f r : crc32 crc -> history crc es (Off f) -> Forall (fun e => e = ABootLoss) es ->
  snapshot crc f r = Some [].
Proof.
  intros Hc Hh Hes. assert (K : forall es m, history crc es m -> Forall (fun e => e = ABootLoss) es -> exists f, m = Off f /\ exists t, Holds crc f [] t 1).
  { clear. intros es m Hh. induction Hh as [f U|es m e m' Hh IH L St]; intros Hes.
    - exists f. split; [reflexivity|]. exists 0. right. split; [apply unused_fresh; exact U|auto].
    - apply Forall_app in Hes. destruct Hes as [H1 H2]. destruct (IH H1) as (f & -> & t & HH). inversion H2 as [|x l Hx _]; subst.
      inversion St; subst. destruct (boot_holds crc f [] t 1 r HH) as (s & top & E & R & _ & C).
      rewrite E in *. cbn [fst] in *. exists f'. split; [reflexivity|]. match goal with H : crash _ _ _ |- _ => destruct (C _ H) as (t' & H' & _) end. exists t'. exact H'. }
  destruct (K es (Off f) Hh Hes) as (f0 & E & t & HH). injection E as <-. exact (holds_snapshot crc f [] t 1 r HH).
Qed.

(** Both stand-ins of the chip start out like this: an erased image, and the zeros of [MemoryFlash::new(None)] *)
Theorem C113_stand_ins_are_unused : unused blank /\ unused zeros.
Proof. split; [apply blank_unused|apply zeros_unused]. Qed.

(** concrete case: a file stored on a chip that started as zeros *)
Example ex_C113 : exists es y, history sum es (On y) /\ fl (sfs y) 60000000 = 0 /\ snapshot sum (fl (sfs y)) (fun _ => 0) = Some [(1, 3, [1;2;3;4;5]); (2, 4, [])].
Proof.
  assert (K : match play sum two_files (Off zeros) with
              | Some (_, On y) => (fl (sfs y) 60000000 =? 0) && match snapshot sum (fl (sfs y)) (fun _ => 0) with Some F => same F [(1, 3, [1;2;3;4;5]); (2, 4, [])] | None => false end
              | _ => false end = true) by (vm_compute; reflexivity).
  destruct (play sum two_files (Off zeros)) as [[es m]|] eqn:E; [|exfalso; exact (Bool.diff_false_true K)].
  destruct m as [f|y]; [exfalso; exact (Bool.diff_false_true K)|]. apply andb_prop in K. destruct K as [K1 K2].
  exists es, y. split; [exact (play_history sum two_files (Off zeros) [] es (On y) (hi_new sum zeros zeros_unused) E)|]. split; [apply N.eqb_eq; exact K1|].
  destruct (snapshot sum (fl (sfs y)) (fun _ => 0)) as [F|]; [f_equal; apply same_eq; exact K2|exfalso; exact (Bool.diff_false_true K2)].
Qed.

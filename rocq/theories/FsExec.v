(** * Running the file-system model on concrete scripts.
    [play] executes a script and checks the client's discipline on the way; [play_history] says that what it reaches is a
    [history].  Used for the examples that meet the hypotheses of the file-store theorems, and for the counterexample to the full
    form of C08. *)
From Verif Require Import Base Flash FS Sectors ATable FileIO FsSpec FsApi PropDirectory.
Local Open Scope N_scope.

Section Play.
Variable crc : list byte -> N.

Inductive act :=
| XBoot
| XCall (c : call)
| XLoss (c : call) (full : nat) (bytes : nat)   (* power lost in [c] after [full] flash operations and [bytes] bytes of the next program *)
| XOff.

Definition legalb (y : sys) (c : call) : bool :=
  match c with
  | Create t | CreateOpen t => (t <? 65535) && match files_iter (sfs y) (fun _ => true) with Ok es => N.of_nat (length es) <? 2518 | _ => true end
  | Remove sel => match files_iter (sfs y) (fun _ => true) with
                  | Ok es => forallb (fun e => negb (existsb (N.eqb (e_id e)) (map w_id (sws y))) || negb (sel (e_id e) (e_typ e)) || is_opened (atb (sfs y)) (e_id e)) es
                  | _ => true
                  end
  | OpenWrite id => negb (existsb (N.eqb id) (map w_id (sws y))) || is_opened (atb (sfs y)) id
  | OpenRead _ => true
  | Append k d => forallb (fun b => b <? 256) d && (k <? length (sws y))%nat
  | Flush k | CloseWriter k => (k <? length (sws y))%nat
  | CloseReader k => (k <? length (srs y))%nat
  end.

Lemma existsb_in id l : existsb (N.eqb id) l = false -> ~ In id l.
Proof.
  intros H Hi. assert (E : existsb (N.eqb id) l = true) by (apply existsb_exists; exists id; split; [exact Hi|apply N.eqb_refl]). congruence.
Qed.

Lemma legalb_sound y c : legalb y c = true -> legal y c.
Proof.
  destruct c as [t|t|sel|id|id|k d|k|k|k]; cbn [legalb legal]; intros H.
  - apply andb_prop in H. destruct H as [A B]. split; [apply N.ltb_lt; exact A|]. intros es E. rewrite E in B. clear E. apply N.ltb_lt in B. clear -B. change 2518%nat with (N.to_nat 2518). lia.
  - apply andb_prop in H. destruct H as [A B]. split; [apply N.ltb_lt; exact A|]. intros es E. rewrite E in B. clear E. apply N.ltb_lt in B. clear -B. change 2518%nat with (N.to_nat 2518). lia.
  - intros es e E Hin Hw Hs. rewrite E in H. rewrite forallb_forall in H. specialize (H e Hin). rewrite Hs in H. cbn [negb] in H. rewrite Bool.orb_false_r in H.
    destruct (existsb (N.eqb (e_id e)) (map w_id (sws y))) eqn:Ex; [exact H|]. exfalso. exact (existsb_in _ _ Ex Hw).
  - intros Hw. destruct (existsb (N.eqb id) (map w_id (sws y))) eqn:Ex; [exact H|]. exfalso. exact (existsb_in _ _ Ex Hw).
  - exact I.
  - apply andb_prop in H. destruct H as [A B]. split; [|apply Nat.ltb_lt; exact B].
    rewrite forallb_forall in A. apply Forall_forall. intros x Hx. apply N.ltb_lt. apply A. exact Hx.
  - apply Nat.ltb_lt. exact H.
  - apply Nat.ltb_lt. exact H.
  - apply Nat.ltb_lt. exact H.
Qed.

Definition halt (f : flash) (ops : list fop) (full bytes : nat) : flash :=
  let g := apply_ops f (firstn full ops) in
  match skipn full ops with
  | Prog a d :: _ => apply_op g (Prog a (firstn bytes d))
  | _ => g
  end.

Lemma halt_crash full bytes : forall ops f, crash_ae f ops (halt f ops full bytes).
Proof.
  induction full as [|n IH]; intros [|o ops] f; unfold halt; cbn [firstn skipn apply_ops fold_left]; try apply ae_at.
  - destruct o as [a l|a d]; [apply ae_at|apply ae_torn].
  - apply ae_later. exact (IH ops (apply_op f o)).
Qed.

Definition is_panic (r : reply) : bool := match r with RPanic => true | _ => false end.

(** The power loss can only be placed when the call's operations extend the log, as they always do. *)
Fixpoint strip (p l : list fop) : option (list fop) :=
  match p, l with
  | [], _ => Some l
  | Erase a n :: p', Erase a' n' :: l' => if (a =? a') && (n =? n') then strip p' l' else None
  | Prog a d :: p', Prog a' d' :: l' => if (a =? a') && (if list_eq_dec N.eq_dec d d' then true else false) then strip p' l' else None
  | _, _ => None
  end.
Lemma strip_some p : forall l o, strip p l = Some o -> l = p ++ o.
Proof.
  induction p as [|x p IH]; intros l o H; [cbn in H; injection H as <-; reflexivity|].
  destruct x as [a n|a d], l as [|[a' n'|a' d'] l]; cbn [strip] in H; try discriminate.
  - destruct (N.eqb_spec a a') as [->|]; [|discriminate]. destruct (N.eqb_spec n n') as [->|]; [|discriminate]. cbn [app]. f_equal. apply IH. exact H.
  - destruct (N.eqb_spec a a') as [->|]; [|discriminate]. destruct (list_eq_dec N.eq_dec d d') as [->|]; [|discriminate]. cbn [app]. f_equal. apply IH. exact H.
Qed.

Definition one (a : act) (m : machine) : option (aevent * machine) :=
  match a, m with
  | XBoot, Off f => match boot f (fun n => N.of_nat n) with (s, Ok _) => Some (ABoot, On (mkSys s [] [])) | _ => None end
  | XCall c, On y => if legalb y c then let '(y', r) := perform crc c y in if is_panic r then None else Some (ACall c r, On y') else None
  | XLoss c full bytes, On y =>
      if legalb y c then
        match strip (lg (sfs y)) (lg (sfs (fst (perform crc c y)))) with
        | Some ops => Some (ALoss c, Off (halt (fl (sfs y)) ops full bytes))
        | None => None
        end
      else None
  | XOff, On y => Some (APowerOff, Off (fl (sfs y)))
  | _, _ => None
  end.

Fixpoint play (l : list act) (m : machine) : option (list aevent * machine) :=
  match l with
  | [] => Some ([], m)
  | a :: t => match one a m with
              | Some (e, m') => match play t m' with Some (es, m2) => Some (e :: es, m2) | None => None end
              | None => None
              end
  end.

Lemma some_pair {A B} (a : A) (b : B) c d : Some (a, b) = Some (c, d) -> a = c /\ b = d.
Proof. intros H. injection H. auto. Qed.
Lemma none_some {A} (a : A) : None = Some a -> False.
Proof. discriminate. Qed.

Lemma one_step a m e m' : one a m = Some (e, m') -> legal_event m e /\ step crc m e m'.
Proof.
  destruct a as [|c|c full bytes|], m as [f|y]; unfold one; intros H; try (exfalso; exact (none_some _ H)).
  - destruct (boot f (fun n => N.of_nat n)) as [s r] eqn:E. destruct r as [u|x|]; [|exfalso; exact (none_some _ H)|exfalso; exact (none_some _ H)].
    apply some_pair in H. destruct H as [<- <-]. split; [exact I|]. destruct u. eapply step_boot. exact E.
  - destruct (legalb y c) eqn:L; [|exfalso; exact (none_some _ H)]. destruct (perform crc c y) as [y' r] eqn:E. destruct (is_panic r) eqn:P; [exfalso; exact (none_some _ H)|].
    apply some_pair in H. destruct H as [<- <-].
    split; [apply legalb_sound; exact L|]. eapply step_call; [exact E|]. intros ->. discriminate P.
  - destruct (legalb y c) eqn:L; [|exfalso; exact (none_some _ H)]. destruct (strip (lg (sfs y)) (lg (sfs (fst (perform crc c y))))) as [ops|] eqn:E; [|exfalso; exact (none_some _ H)].
    apply some_pair in H. destruct H as [<- <-].
    split; [apply legalb_sound; exact L|]. apply step_loss. exists ops. split; [apply strip_some; exact E|left; apply halt_crash].
  - apply some_pair in H. destruct H as [<- <-]. split; [exact I|apply step_off].
Qed.

Theorem play_history l : forall m es0 es m', history crc es0 m -> play l m = Some (es, m') -> history crc (es0 ++ es) m'.
Proof.
  induction l as [|a l IH]; intros m es0 es m' Hh H; cbn [play] in H.
  - apply some_pair in H. destruct H as [<- <-]. rewrite app_nil_r. exact Hh.
  - destruct (one a m) as [[e m1]|] eqn:E1; [|exfalso; exact (none_some _ H)]. destruct (play l m1) as [[es2 m2]|] eqn:E2; [|exfalso; exact (none_some _ H)].
    apply some_pair in H. destruct H as [<- <-].
    destruct (one_step a m e m1 E1) as [L S]. change (es0 ++ e :: es2) with (es0 ++ [e] ++ es2). rewrite app_assoc.
    apply (IH m1); [|exact E2]. econstructor; eauto.
Qed.
End Play.

(** ** C08 in full is false *)
Definition everything : call := Remove (fun _ _ => true).
Fixpoint times (n : nat) (l : list act) : list act := match n with O => [] | S k => l ++ times k l end.

(** 128 files are created and removed one after the other; the power fails in the last removal, while the page with the footer is
    being programmed (25 bytes of it have reached the flash); after the restart a file is created *)
Definition reuse_script : list act :=
  [XBoot] ++ times 127 [XCall (Create 1); XCall everything] ++ [XCall (Create 1); XLoss everything 1 25; XBoot; XCall (Create 1)].

Definition ids_and_end (o : option (list aevent * machine)) : option (list N * bool) :=
  match o with Some (es, m) => Some (flat_map issued es, match m with On _ => true | Off _ => false end) | None => None end.

Theorem C08_refuted : forall crc, exists es m, history crc es m /\ ~ NoDup (flat_map issued es).
Proof.
  intros crc.
  assert (E : ids_and_end (play crc reuse_script (Off blank)) = Some (map N.of_nat (seq 1 128) ++ [128], true)) by (vm_compute; reflexivity).
  destruct (play crc reuse_script (Off blank)) as [[es m]|] eqn:Ep; [|exfalso; cbn [ids_and_end] in E; exact (none_some _ E)].
  exists es, m. split; [apply (play_history crc reuse_script (Off blank) [] es m (hi_new crc blank FsBoot.blank_unused) Ep)|].
  unfold ids_and_end in E. apply some_pair in E. destruct E as [-> _]. intros H. apply NoDup_remove_2 in H. apply H. rewrite app_nil_r.
  apply in_map_iff. exists 128%nat. split; [reflexivity|]. apply in_seq. lia.
Qed.
Print Assumptions C08_refuted.

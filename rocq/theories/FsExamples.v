(** * Concrete cases that meet the hypotheses of the file-store theorems (C06-C10, C12, C17-C23, C26).
    The model is executed on scripts by the kernel; nothing here is needed by the theorems. *)
From Verif Require Import Base Flash FS Sectors ATable FileIO FileFormat FsSpec FsApi FsHistory PropDirectory PropSpace FsExec PropFiles PropRules.
Local Open Scope N_scope.

(** a 32-bit checksum for the examples (the theorems hold for any) *)
Definition sum (l : list byte) : N := fold_left (fun a b => (a * 31 + b) mod 4294967296) l 7.
Lemma sum32 : crc32 sum.
Proof.
  intros l. unfold sum. assert (K : forall k a, a < 4294967296 -> fold_left (fun a b => (a * 31 + b) mod 4294967296) k a < 4294967296).
  { induction k as [|b t IH]; intros a Ha; cbn [fold_left]; [exact Ha|]. apply IH. apply N.mod_lt. lia. }
  apply K. lia.
Qed.

Definition two_files : list act := [XBoot; XCall (Create 3); XCall (Create 4); XCall (OpenWrite 1); XCall (Append 0 [1;2;3;4;5]); XCall (CloseWriter 0)].

Lemma reach script (P : sys -> bool) :
  match play sum script (Off blank) with Some (_, On y) => P y | _ => false end = true -> exists es y, history sum es (On y) /\ P y = true.
Proof.
  destruct (play sum script (Off blank)) as [[es m]|] eqn:E; [|intros H; exfalso; exact (Bool.diff_false_true H)].
  destruct m as [f|y]; intros H; [exfalso; exact (Bool.diff_false_true H)|].
  exists es, y. split; [|exact H]. exact (play_history sum script (Off blank) [] es (On y) (hi_new sum blank FsBoot.blank_unused) E).
Qed.

Fixpoint same (l : list file) (k : list (N * N * list N)) : bool :=
  match l, k with
  | [], [] => true
  | (a, b, d) :: l', (a', b', d') :: k' => (a =? a') && (b =? b') && (if list_eq_dec N.eq_dec d d' then true else false) && same l' k'
  | _, _ => false
  end.
Lemma same_eq l : forall k, same l k = true -> l = k.
Proof.
  induction l as [|[[a b] d] l IH]; intros [|[[a' b'] d'] k] H; cbn [same] in H; try discriminate; [reflexivity|].
  apply andb_prop in H. destruct H as [H H4]. apply andb_prop in H. destruct H as [H H3]. apply andb_prop in H. destruct H as [H1 H2].
  apply N.eqb_eq in H1, H2. subst. destruct (list_eq_dec N.eq_dec d d') as [->|]; [|discriminate]. f_equal. apply IH. exact H4.
Qed.

Definition is_id (r : reply) (i : N) : bool := match r with RId j => j =? i | _ => false end.
Lemma is_id_eq r i : is_id r i = true -> r = RId i.
Proof. destruct r; cbn; intros H; try discriminate. apply N.eqb_eq in H. subst. reflexivity. Qed.
Definition is_done (r : reply) : bool := match r with RDone => true | _ => false end.
Lemma is_done_eq r : is_done r = true -> r = RDone.
Proof. destruct r; cbn; intros H; try discriminate. reflexivity. Qed.

(** ** Directory changes: a history with two files, a third file is created, or a file is removed, or power is lost in between *)
Example ex_C07_C12 : exists es y y', history sum es (On y) /\ legal y (Create 7) /\ perform sum (Create 7) y = (y', RId 3) /\
  snapshot sum (fl (sfs y)) (fun _ => 0) = Some [(1, 3, [1;2;3;4;5]); (2, 4, [])] /\
  snapshot sum (fl (sfs y')) (fun _ => 0) = Some [(1, 3, [1;2;3;4;5]); (2, 4, []); (3, 7, [])].
Proof.
  destruct (reach two_files (fun y => legalb y (Create 7) && is_id (snd (perform sum (Create 7) y)) 3 &&
     match snapshot sum (fl (sfs y)) (fun _ => 0) with Some F => same F [(1, 3, [1;2;3;4;5]); (2, 4, [])] | None => false end &&
     match snapshot sum (fl (sfs (fst (perform sum (Create 7) y)))) (fun _ => 0) with Some F => same F [(1, 3, [1;2;3;4;5]); (2, 4, []); (3, 7, [])] | None => false end))
    as (es & y & Hh & H); [vm_compute; reflexivity|].
  apply andb_prop in H. destruct H as [H H4]. apply andb_prop in H. destruct H as [H H3]. apply andb_prop in H. destruct H as [H1 H2].
  destruct (perform sum (Create 7) y) as [y' r] eqn:E. cbn [fst snd] in *. exists es, y, y'. split; [exact Hh|]. split; [apply legalb_sound; exact H1|].
  split; [rewrite E; f_equal; apply is_id_eq; exact H2|]. split.
  - destruct (snapshot sum (fl (sfs y)) (fun _ => 0)) as [F|]; [f_equal; apply same_eq; exact H3|exfalso; exact (Bool.diff_false_true H3)].
  - destruct (snapshot sum (fl (sfs y')) (fun _ => 0)) as [F|]; [f_equal; apply same_eq; exact H4|exfalso; exact (Bool.diff_false_true H4)].
Qed.

Lemma lost_at y c full bytes ops : strip (lg (sfs y)) (lg (sfs (fst (perform sum c y)))) = Some ops -> power_lost sum c y (halt (fl (sfs y)) ops full bytes).
Proof. intros E. exists ops. split; [apply strip_some; exact E|left; apply halt_crash]. Qed.

(** power lost inside the third page of the new directory: both outcomes of C06 occur *)
Definition after_loss (c : call) (full bytes : nat) (y : sys) (F : list (N * N * list N)) : bool :=
  match strip (lg (sfs y)) (lg (sfs (fst (perform sum c y)))) with
  | Some ops => match snapshot sum (halt (fl (sfs y)) ops full bytes) (fun _ => 0) with Some F' => same F' F | None => false end
  | None => false
  end.
Lemma after_loss_sound c full bytes y F : after_loss c full bytes y F = true ->
  exists f, power_lost sum c y f /\ snapshot sum f (fun _ => 0) = Some F.
Proof.
  unfold after_loss. destruct (strip _ _) as [ops|] eqn:E; [|intros H; exfalso; exact (Bool.diff_false_true H)].
  intros H. exists (halt (fl (sfs y)) ops full bytes). split; [apply lost_at; exact E|].
  destruct (snapshot sum _ _) as [F'|]; [f_equal; apply same_eq; exact H|exfalso; exact (Bool.diff_false_true H)].
Qed.
Example ex_C06 : exists es y f f', history sum es (On y) /\ legal y everything /\ power_lost sum everything y f /\ power_lost sum everything y f' /\
  snapshot sum f (fun _ => 0) = Some [(1, 3, [1;2;3;4;5]); (2, 4, [])] /\ snapshot sum f' (fun _ => 0) = Some [].
Proof.
  destruct (reach two_files (fun y => legalb y everything && after_loss everything 1 9 y [(1, 3, [1;2;3;4;5]); (2, 4, [])] && after_loss everything 1 26 y []))
    as (es & y & Hh & H); [vm_compute; reflexivity|].
  apply andb_prop in H. destruct H as [H H3]. apply andb_prop in H. destruct H as [H1 H2].
  destruct (after_loss_sound _ _ _ _ _ H2) as (f & P1 & S1). destruct (after_loss_sound _ _ _ _ _ H3) as (f' & P2 & S2).
  exists es, y, f, f'. split; [exact Hh|]. split; [apply legalb_sound; exact H1|]. split; [exact P1|]. split; [exact P2|]. split; [exact S1|exact S2].
Qed.

(** ** File contents: a file of 5 bytes is opened, 300 bytes and 4000 bytes are appended with a flush in between, and it is closed *)
Definition ops_ex : list wop := [WData (repeat 9 300); WSync; WData (repeat 8 4000)].
Example ex_C18 : exists es y0 y1 y2 y3, history sum es (On y0) /\ opened sum y0 1 [1;2;3;4;5] y1 /\ Forall (fun o => bytes_ok (wdata o)) ops_ex /\
  session sum (its_writer y0) ops_ex y1 = Some y2 /\ perform sum (CloseWriter (its_writer y0)) y2 = (y3, RDone) /\ (length (a_open (atb (sfs y3))) < 32)%nat.
Proof.
  destruct (reach two_files (fun y => legalb y (OpenWrite 1) && is_done (snd (perform sum (OpenWrite 1) y)) &&
      match snapshot sum (fl (sfs y)) (fun _ => 0) with Some F => same F [(1, 3, [1;2;3;4;5]); (2, 4, [])] | None => false end &&
      match session sum (its_writer y) ops_ex (fst (perform sum (OpenWrite 1) y)) with
      | Some y2 => is_done (snd (perform sum (CloseWriter (its_writer y)) y2)) && Nat.ltb (length (a_open (atb (sfs (fst (perform sum (CloseWriter (its_writer y)) y2)))))) 32
      | None => false
      end)) as (es & y0 & Hh & H); [vm_compute; reflexivity|].
  apply andb_prop in H. destruct H as [H H4]. apply andb_prop in H. destruct H as [H H3]. apply andb_prop in H. destruct H as [H1 H2].
  destruct (perform sum (OpenWrite 1) y0) as [y1 r1] eqn:E1. cbn [fst snd] in *. apply is_done_eq in H2. subst r1.
  destruct (session sum (its_writer y0) ops_ex y1) as [y2|] eqn:E2; [|exfalso; exact (Bool.diff_false_true H4)].
  destruct (perform sum (CloseWriter (its_writer y0)) y2) as [y3 r3] eqn:E3. cbn [fst snd] in *. apply andb_prop in H4. destruct H4 as [H4 H5]. apply is_done_eq in H4. subst r3.
  exists es, y0, y1, y2, y3. split; [exact Hh|]. split.
  - destruct (snapshot sum (fl (sfs y0)) (fun _ => 0)) as [F|] eqn:ES; [|exfalso; exact (Bool.diff_false_true H3)]. apply same_eq in H3. subst F.
    eapply op_exists; [apply legalb_sound; exact H1|exact E1|exact ES|reflexivity].
  - split; [|split; [exact E2|split; [exact E3|apply Nat.ltb_lt; exact H5]]].
    assert (K : forall n b, b < 256 -> bytes_ok (repeat b n)) by (intros n b Hb; apply Forall_forall; intros x Hx; apply repeat_spec in Hx; subst; exact Hb).
    unfold ops_ex. constructor; [apply K; reflexivity|]. constructor; [constructor|]. constructor; [apply K; reflexivity|constructor].
Qed.

(** the same for a new file (C17), up to the flush (C19), with power lost later during an append (C20) *)
Example ex_C17_C19_C20 : exists es y y0 y1 y2 y3 f, history sum es (On y) /\ legal y (Create 7) /\ perform sum (Create 7) y = (y0, RId 3) /\
  legal y0 (OpenWrite 3) /\ perform sum (OpenWrite 3) y0 = (y1, RDone) /\ session sum (its_writer y0) [WData [7;7]] y1 = Some y2 /\
  perform sum (Flush (its_writer y0)) y2 = (y3, RDone) /\
  power_lost sum (Append (its_writer y0) (repeat 9 300)) y3 f /\ snapshot sum f (fun _ => 0) = Some [(1, 3, [1;2;3;4;5]); (2, 4, []); (3, 7, [7;7])].
Proof.
  destruct (reach two_files (fun y => legalb y (Create 7) && is_id (snd (perform sum (Create 7) y)) 3 &&
      let y0 := fst (perform sum (Create 7) y) in
      legalb y0 (OpenWrite 3) && is_done (snd (perform sum (OpenWrite 3) y0)) &&
      match session sum (its_writer y0) [WData [7;7]] (fst (perform sum (OpenWrite 3) y0)) with
      | Some y2 => is_done (snd (perform sum (Flush (its_writer y0)) y2)) && 
                   after_loss (Append (its_writer y0) (repeat 9 300)) 0 200 (fst (perform sum (Flush (its_writer y0)) y2)) [(1, 3, [1;2;3;4;5]); (2, 4, []); (3, 7, [7;7])]
      | None => false
      end)) as (es & y & Hh & H); [vm_compute; reflexivity|].
  apply andb_prop in H. destruct H as [H H3]. apply andb_prop in H. destruct H as [H1 H2].
  destruct (perform sum (Create 7) y) as [y0 r0] eqn:E0. cbn [fst snd] in *. apply is_id_eq in H2. subst r0. cbv zeta in H3.
  apply andb_prop in H3. destruct H3 as [H H5]. apply andb_prop in H. destruct H as [H3 H4].
  destruct (perform sum (OpenWrite 3) y0) as [y1 r1] eqn:E1. cbn [fst snd] in *. apply is_done_eq in H4. subst r1.
  destruct (session sum (its_writer y0) [WData [7;7]] y1) as [y2|] eqn:E2; [|exfalso; exact (Bool.diff_false_true H5)].
  destruct (perform sum (Flush (its_writer y0)) y2) as [y3 r3] eqn:E3. cbn [fst snd] in *. apply andb_prop in H5. destruct H5 as [H5 H6]. apply is_done_eq in H5. subst r3.
  destruct (after_loss_sound _ _ _ _ _ H6) as (f & P & S). exists es, y, y0, y1, y2, y3, f.
  split; [exact Hh|]. split; [apply legalb_sound; exact H1|]. split; [exact E0|]. split; [apply legalb_sound; exact H3|]. split; [exact E1|]. split; [exact E2|].
  split; [exact E3|]. split; [exact P|exact S].
Qed.

(** ** Removal of one of two files (C23), and a restart with a file of two sectors (C26) *)
Example ex_C23 : exists es y y', history sum es (On y) /\ legal y (Remove (fun _ t => t =? 3)) /\ perform sum (Remove (fun _ t => t =? 3)) y = (y', RCounts 1 0).
Proof.
  destruct (reach two_files (fun y => legalb y (Remove (fun _ t => t =? 3)) &&
     match snd (perform sum (Remove (fun _ t => t =? 3)) y) with RCounts a b => (a =? 1) && (b =? 0) | _ => false end)) as (es & y & Hh & H); [vm_compute; reflexivity|].
  apply andb_prop in H. destruct H as [H1 H2]. destruct (perform sum (Remove (fun _ t => t =? 3)) y) as [y' r] eqn:E. cbn [snd] in H2.
  exists es, y, y'. split; [exact Hh|]. split; [apply legalb_sound; exact H1|]. destruct r; try (exfalso; exact (Bool.diff_false_true H2)).
  apply andb_prop in H2. destruct H2 as [A B]. apply N.eqb_eq in A, B. subst. exact E.
Qed.
Example ex_C26 : exists es f, history sum es (Off f) /\ snapshot sum f (fun _ => 0) = Some [(1, 3, [1;2;3;4;5] ++ repeat 6 4100); (2, 4, [])].
Proof.
  destruct (reach (two_files ++ [XCall (OpenWrite 1); XCall (Append 0 (repeat 6 4100)); XCall (CloseWriter 0)])
      (fun y => match snapshot sum (fl (sfs y)) (fun _ => 0) with Some F => same F [(1, 3, [1;2;3;4;5] ++ repeat 6 4100); (2, 4, [])] | None => false end))
    as (es & y & Hh & H); [vm_compute; reflexivity|].
  exists (es ++ [APowerOff]), (fl (sfs y)). split; [eapply hi_step; [exact Hh|exact I|apply step_off]|].
  destruct (snapshot sum (fl (sfs y)) (fun _ => 0)) as [F|]; [f_equal; apply same_eq; exact H|exfalso; exact (Bool.diff_false_true H)].
Qed.

(** ** A file is opened for reading, another file is created meanwhile (C24); then it is closed *)
Example ex_C24 : exists es y0 y1 y y', history sum es (On y0) /\ legal y0 (OpenRead 2) /\ perform sum (OpenRead 2) y0 = (y1, RDone) /\ meanwhile sum 2 y1 y /\
  y1 <> y /\ closes y (CloseReader 0) 2 /\ perform sum (CloseReader 0) y = (y', RDone).
Proof.
  destruct (reach two_files (fun y0 => legalb y0 (OpenRead 2) && is_done (snd (perform sum (OpenRead 2) y0)) &&
      let y1 := fst (perform sum (OpenRead 2) y0) in legalb y1 (Create 9) && is_id (snd (perform sum (Create 9) y1)) 3 &&
      let y := fst (perform sum (Create 9) y1) in match srs y with [i] => i =? 2 | _ => false end && is_done (snd (perform sum (CloseReader 0) y)) &&
      negb (length (lg (sfs y1)) =? length (lg (sfs y)))%nat)) as (es & y0 & Hh & H); [vm_compute; reflexivity|].
  apply andb_prop in H. destruct H as [H H3]. apply andb_prop in H. destruct H as [H1 H2].
  destruct (perform sum (OpenRead 2) y0) as [y1 r1] eqn:E1. cbn [fst snd] in *. apply is_done_eq in H2. subst r1. cbv zeta in H3.
  apply andb_prop in H3. destruct H3 as [H H5]. apply andb_prop in H. destruct H as [H3 H4].
  destruct (perform sum (Create 9) y1) as [y r2] eqn:E2. cbn [fst snd] in *. apply is_id_eq in H4. subst r2.
  apply andb_prop in H5. destruct H5 as [H H7]. apply andb_prop in H. destruct H as [H5 H6].
  destruct (perform sum (CloseReader 0) y) as [y' r3] eqn:E3. cbn [fst snd] in *. apply is_done_eq in H6. subst r3.
  exists es, y0, y1, y, y'. split; [exact Hh|]. split; [apply legalb_sound; exact H1|]. split; [exact E1|]. split.
  - eapply (mw_call sum 2 y1 (Create 9)); [apply legalb_sound; exact H3|exact (fun x => x)|exact E2|discriminate|apply mw_nil].
  - split; [intros ->; rewrite Nat.eqb_refl in H7; discriminate H7|]. split; [|exact E3]. cbn [closes]. destruct (srs y) as [|i [|j l]]; try discriminate H5. apply N.eqb_eq in H5. subst. reflexivity.
Qed.

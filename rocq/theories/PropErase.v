(** * Property C30: background erasing is invisible. *)
From Coq Require Import List Bool Lia.
From Verif Require Import Base ManagedErase.
Import ListNotations.
Local Open Scope N_scope.

(** ** Specification: a flash whose erases complete at once *)
Definition ideal_call (p : mop) (m : N -> N) : (N -> N) * list N :=
  let wipe a size := (fun x => if (a <=? x) && (x <? a + size) then 255 else m x) in
  match p with
  | MErase4 a => (wipe a 4096, [])
  | MErase32 a => (wipe a 32768, [])
  | MErase64 a => (wipe a 65536, [])
  | MRead a n => (m, map (fun i => m (a + N.of_nat i)) (seq 0 n))
  | MWrite a d => ((fun x => if (a <=? x) && (x <? a + N.of_nat (length d)) then N.land (m x) (nth (N.to_nat (x - a)) d 255) else m x), [])
  | MReset => (m, [])
  end.
Fixpoint ideal_calls (ps : list mop) (m : N -> N) : list (list N) :=
  match ps with [] => [] | p :: ps => let (m', r) := ideal_call p m in r :: ideal_calls ps m' end.

(** A call fits the most recent erase: its bytes begin inside the erased range or do not touch it. *)
Definition fits_range (last : option (N * N)) (a len : N) : Prop :=
  match last with None => True | Some (lo, hi) => (lo <= a < hi) \/ a + len <= lo \/ hi <= a end.
Definition last_erase (last : option (N * N)) (p : mop) : option (N * N) :=
  match p with MErase4 a => Some (a, a + 4096) | MErase32 a => Some (a, a + 32768) | MErase64 a => Some (a, a + 65536) | _ => last end.
Definition fits (last : option (N * N)) (p : mop) : Prop :=
  match p with
  | MRead a n => fits_range last a (N.of_nat n)
  | MWrite a d => fits_range last a (N.of_nat (length d))
  | MReset => False
  | _ => True
  end.
Fixpoint all_fit (last : option (N * N)) (ps : list mop) : Prop :=
  match ps with [] => True | p :: ps => fits last p /\ all_fit (last_erase last p) ps end.

Definition same (c : chip) (i : N -> N) : Prop := forall a, mem c a = i a.
Definition pending (lo hi : N) (susp : bool) (c : chip) (i : N -> N) : Prop :=
  (forall a, inside lo hi a = true -> i a = 255) /\ (forall a, inside lo hi a = false -> mem c a = i a) /\
  (running_job c = Some (mkJob lo hi susp) \/ (running_job c = None /\ same c i)).
Definition Rel (m : managed) (last : option (N * N)) (i : N -> N) : Prop :=
  match st m with
  | Idle => running_job (ch m) = None /\ same (ch m) i
  | Erasing lo hi susp => last = Some (lo, hi) /\ pending lo hi susp (ch m) i
  end.

Lemma advance_idle o c : running_job c = None -> advance o c = c.
Proof. intros E. unfold advance. rewrite E. reflexivity. Qed.
Lemma advance_pending o lo hi susp c i : pending lo hi susp c i -> pending lo hi susp (advance o c) i.
Proof.
  intros (H1 & H2 & H3). unfold advance. destruct H3 as [E|[E S]]; rewrite E; [|split; [exact H1|split; [exact H2|auto]]].
  destruct susp; [split; [exact H1|split; [exact H2|auto]]|]. destruct (fst o).
  - split; [exact H1|]. cbn [mem running_job]. split; [intros a Ha; rewrite Ha; auto|]. right. split; [reflexivity|].
    intros a. cbn [mem]. destruct (inside lo hi a) eqn:Ha; [symmetry|]; auto.
  - split; [exact H1|]. cbn [mem running_job]. split; [intros a Ha; rewrite Ha; auto|]. left. reflexivity.
Qed.

Lemma wait_rel o m last i : Rel m last i -> exists m', wait_prev_erase o m = Some m' /\ st m' = Idle /\ Rel m' last i.
Proof.
  intros R. unfold Rel in R. unfold wait_prev_erase. destruct (st m) as [|lo hi susp] eqn:Es.
  - exists m. split; [reflexivity|]. split; [exact Es|]. unfold Rel. rewrite Es. exact R.
  - destruct R as (_ & P).
    assert (G : forall c, pending lo hi false c i -> exists c', c_wait c = Some c' /\ running_job c' = None /\ same c' i).
    { intros c (H1 & H2 & [E|[E S]]); unfold c_wait; rewrite E.
      - eexists. split; [reflexivity|]. split; [reflexivity|]. intros a. cbn [mem]. destruct (inside lo hi a) eqn:Ha; [symmetry|]; auto.
      - exists c. auto. }
    destruct susp.
    + apply (advance_pending (o 0%nat)) in P. destruct P as (H1 & H2 & H3).
      assert (Hc : exists c, c_resume (advance (o 0%nat) (ch m)) = Some c /\ pending lo hi false c i).
      { unfold c_resume. destruct H3 as [E|[E S]]; rewrite E; (eexists; split; [reflexivity|]).
        - split; [exact H1|]. split; [exact H2|]. left. reflexivity.
        - split; [exact H1|]. split; [exact H2|]. right. auto. }
      destruct Hc as (c & -> & P). apply (advance_pending (o 1%nat)) in P. destruct (G _ P) as (c' & -> & E & S).
      eexists. split; [reflexivity|]. split; [reflexivity|]. unfold Rel. cbn. auto.
    + apply (advance_pending (o 1%nat)) in P. destruct (G _ P) as (c' & -> & E & S).
      eexists. split; [reflexivity|]. split; [reflexivity|]. unfold Rel. cbn. auto.
Qed.

Lemma suspend_rel o m last i : Rel m last i -> exists m', suspend_erase o m = Some m' /\ Rel m' last i /\
  match st m with Idle => m' = m | Erasing lo hi _ => st m' = Erasing lo hi true end.
Proof.
  intros R. pose proof R as R0. unfold Rel in R. unfold suspend_erase. destruct (st m) as [|lo hi susp] eqn:Es; [exists m; auto|].
  destruct susp; [exists m; auto|]. destruct R as (A1 & P). apply (advance_pending (o 0%nat)) in P. destruct P as (H1 & H2 & H3).
  unfold c_suspend. destruct H3 as [E|[E S]]; rewrite E; (eexists; split; [reflexivity|]); (split; [|reflexivity]); unfold Rel; cbn [st ch].
  - split; [exact A1|]. split; [exact H1|]. split; [exact H2|]. left. reflexivity.
  - split; [exact A1|]. split; [exact H1|]. split; [exact H2|]. right. auto.
Qed.

Lemma not_started lo hi a len : fits_range (Some (lo, hi)) a len -> inside lo hi a = false -> a + len <= lo \/ hi <= a.
Proof.
  intros [K|K] Hi; [|exact K]. exfalso. unfold inside in Hi. apply andb_false_iff in Hi. rewrite N.leb_gt, N.ltb_ge in Hi. lia.
Qed.

Lemma map_addresses c i a n : (forall k, (k < n)%nat -> mem c (a + N.of_nat k) = i (a + N.of_nat k)) ->
  map (mem c) (addresses a n) = map (fun k => i (a + N.of_nat k)) (seq 0 n).
Proof.
  intros H. unfold addresses. rewrite map_map. apply map_ext_in. intros k Hk. apply in_seq in Hk. apply H. lia.
Qed.

Lemma read_rel o m last i a n : Rel m last i -> fits_range last a (N.of_nat n) ->
  exists m', read_4kib o a n m = Some (m', map (fun k => i (a + N.of_nat k)) (seq 0 n)) /\ Rel m' last i.
Proof.
  intros R Ha. unfold read_4kib.
  assert (G : exists m1, match st m with Idle => Some m | Erasing lo hi susp => if inside lo hi a then wait_prev_erase o m else if susp then Some m else suspend_erase o m end = Some m1 /\
     Rel m1 last i /\ match st m1 with Idle => True | Erasing lo hi susp => susp = true /\ inside lo hi a = false end).
  { destruct (st m) as [|lo hi susp] eqn:Es; [exists m; rewrite Es; auto|]. destruct (inside lo hi a) eqn:Hi.
    - destruct (wait_rel o m last i R) as (m1 & E1 & E2 & E3). exists m1. rewrite E2. auto.
    - destruct susp; [exists m; rewrite Es; auto|]. destruct (suspend_rel o m last i R) as (m1 & E1 & E2 & E3). rewrite Es in E3. exists m1. rewrite E3. auto. }
  destruct G as (m1 & -> & R1 & C). unfold Rel in R1. unfold c_read. destruct (st m1) as [|lo hi susp] eqn:Es.
  - destruct R1 as (E1 & E2). rewrite (advance_idle _ _ E1). unfold c_busy. rewrite E1.
    eexists. split; [f_equal; f_equal; apply map_addresses; intros k _; apply E2|]. unfold Rel. cbn [st ch]. auto.
  - destruct C as [-> Hi]. destruct R1 as (A1 & P). rewrite A1 in Ha. pose proof (not_started lo hi a _ Ha Hi) as Hout. apply (advance_pending (o 2%nat)) in P. pose proof P as (H1 & H2 & H3).
    assert (B : c_busy (advance (o 2%nat) (ch m1)) = false) by (unfold c_busy; destruct H3 as [E|[E _]]; rewrite E; reflexivity). rewrite B.
    eexists. split; [f_equal; f_equal; apply map_addresses|unfold Rel; cbn [st ch]; auto].
    intros k Hk. apply H2. unfold inside. apply andb_false_iff. rewrite N.leb_gt, N.ltb_ge. lia.
Qed.

Lemma program_ideal m a d : forall x, program m a d x = (if (a <=? x) && (x <? a + N.of_nat (length d)) then N.land (m x) (nth (N.to_nat (x - a)) d 255) else m x).
Proof. reflexivity. Qed.
Lemma program_outside lo hi a (d : list N) x : (a <? hi) && (lo <? a + N.of_nat (length d)) = false -> inside lo hi x = true -> inside a (a + N.of_nat (length d)) x = false.
Proof.
  unfold inside. intros H1 H2. apply andb_true_iff in H2. destruct H2 as [H2 H3]. apply N.leb_le in H2. apply N.ltb_lt in H3.
  apply andb_false_iff in H1. apply andb_false_iff. rewrite N.leb_gt, N.ltb_ge. destruct H1 as [H1|H1]; apply N.ltb_ge in H1; lia.
Qed.

Lemma write_rel o m last i a d : Rel m last i -> fits_range last a (N.of_nat (length d)) ->
  exists m', write_256b o a d m = Some m' /\ Rel m' last (fst (ideal_call (MWrite a d) i)).
Proof.
  intros R Ha. unfold write_256b.
  assert (G : exists m1, match st m with Idle => Some m | Erasing lo hi _ => if inside lo hi a then wait_prev_erase o m else suspend_erase o m end = Some m1 /\
     Rel m1 last i /\ match st m1 with Idle => True | Erasing lo hi susp => susp = true /\ inside lo hi a = false end).
  { destruct (st m) as [|lo hi susp] eqn:Es; [exists m; rewrite Es; auto|]. destruct (inside lo hi a) eqn:Hi.
    - destruct (wait_rel o m last i R) as (m1 & E1 & E2 & E3). exists m1. rewrite E2. auto.
    - destruct (suspend_rel o m last i R) as (m1 & E1 & E2 & E3). rewrite Es in E3. exists m1. rewrite E3. auto. }
  destruct G as (m1 & -> & R1 & C). unfold Rel in R1. destruct (st m1) as [|lo hi susp] eqn:Es.
  - destruct R1 as (E1 & E2). rewrite (advance_idle _ _ E1). unfold c_write. rewrite E1. eexists. split; [reflexivity|].
    unfold Rel. cbn [st ch running_job]. split; [reflexivity|]. intros x. cbn [mem ideal_call fst]. rewrite program_ideal, (E2 x). reflexivity.
  - destruct C as [-> Hi]. destruct R1 as (A1 & P). rewrite A1 in Ha. pose proof (not_started lo hi a _ Ha Hi) as Hout. apply (advance_pending (o 2%nat)) in P. destruct P as (H1 & H2 & H3).
    set (c := advance (o 2%nat) (ch m1)) in *. set (i' := fst (ideal_call (MWrite a d) i)).
    assert (Hov : (a <? hi) && (lo <? a + N.of_nat (length d)) = false).
    { apply andb_false_iff. rewrite !N.ltb_ge. lia. }
    assert (Hc : exists c', c_write a d c = Some c' /\ pending lo hi true c' i').
    { unfold c_write. destruct H3 as [E|[E S]]; rewrite E; [rewrite Hov|]; (eexists; split; [reflexivity|]); (split; [|split]); cbn [mem running_job].
      - intros x Hx. unfold i'. cbn [ideal_call fst]. change ((a <=? x) && (x <? a + N.of_nat (length d))) with (inside a (a + N.of_nat (length d)) x).
        rewrite (program_outside lo hi a d x Hov Hx). auto.
      - intros x Hx. rewrite program_ideal, (H2 x Hx). reflexivity.
      - left. reflexivity.
      - intros x Hx. unfold i'. cbn [ideal_call fst]. change ((a <=? x) && (x <? a + N.of_nat (length d))) with (inside a (a + N.of_nat (length d)) x).
        rewrite (program_outside lo hi a d x Hov Hx). auto.
      - intros x Hx. rewrite program_ideal, (H2 x Hx). reflexivity.
      - right. split; [reflexivity|]. intros x. cbn [mem]. rewrite program_ideal, (S x). reflexivity. }
    destruct Hc as (c' & -> & P'). unfold resume_erase. cbn [st ch].
    apply (advance_pending (o 3%nat)) in P'. destruct P' as (P1 & P2 & P3).
    assert (Hr : exists c2, c_resume (advance (o 3%nat) c') = Some c2 /\ pending lo hi false c2 i').
    { unfold c_resume. destruct P3 as [E|[E S]]; rewrite E; (eexists; split; [reflexivity|]).
      - split; [exact P1|]. split; [exact P2|]. left. reflexivity.
      - split; [exact P1|]. split; [exact P2|]. right. auto. }
    destruct Hr as (c2 & -> & P). apply (advance_pending (o 4%nat)) in P. cbn [st ch]. eexists. split; [reflexivity|].
    unfold Rel. cbn [st ch]. pose proof P as (Q1 & Q2 & Q3). unfold c_busy. destruct Q3 as [E|[E S]]; rewrite E; auto.
Qed.

Lemma erase_rel o m last i size a : Rel m last i ->
  exists m', erase o size a m = Some m' /\ Rel m' (Some (a, a + size)) (fun x => if (a <=? x) && (x <? a + size) then 255 else i x).
Proof.
  intros R. unfold erase. destruct (wait_rel o m last i R) as (m1 & -> & E2 & R1). unfold Rel in R1. rewrite E2 in R1. destruct R1 as (J & S).
  rewrite (advance_idle _ _ J). unfold c_erase. rewrite J. eexists. split; [reflexivity|]. unfold Rel. cbn [st ch].
  split; [reflexivity|]. split; [|split]; cbn [mem running_job].
  - intros x Hx. unfold inside in Hx. rewrite Hx. reflexivity.
  - intros x Hx. unfold inside in Hx. rewrite Hx. apply S.
  - left. reflexivity.
Qed.

Lemma call_rel o p m last i : Rel m last i -> fits last p ->
  exists m', call o p m = Some (m', snd (ideal_call p i)) /\ Rel m' (last_erase last p) (fst (ideal_call p i)).
Proof.
  intros R A. destruct p as [a|a|a|a n|a d|]; cbn [call ideal_call fst snd fits last_erase] in *.
  - destruct (erase_rel o m last i 4096 a R) as (m' & -> & R'). exists m'. auto.
  - destruct (erase_rel o m last i 32768 a R) as (m' & -> & R'). exists m'. auto.
  - destruct (erase_rel o m last i 65536 a R) as (m' & -> & R'). exists m'. auto.
  - apply read_rel; auto.
  - destruct (write_rel o m last i a d R A) as (m' & -> & R'). exists m'. auto.
  - destruct A.
Qed.

(** Every sequence of erases, reads and page writes in which no read or write begins outside the most recently erased range and runs into
    it, on any idle chip, whatever the chip does between commands and whenever erases finish: the chip's protocol is respected and every
    read returns exactly the bytes of a flash whose erases are instantaneous. *)
Theorem C30_background_erase_invisible_partial : forall ps m0 os, all_fit None ps ->
  calls os ps (mkM Idle (mkChip m0 None)) = Some (ideal_calls ps m0).
Proof.
  assert (G : forall ps m last i os, all_fit last ps -> Rel m last i -> calls os ps m = Some (ideal_calls ps i)).
  { induction ps as [|p ps IH]; intros m last i os A R; [reflexivity|]. destruct A as [A1 A2]. cbn [calls ideal_calls].
    destruct (call_rel (os 0%nat) p m last i R A1) as (m' & -> & R'). destruct (ideal_call p i) as [i' r]. cbn [fst snd] in *.
    rewrite (IH m' _ i' (fun k => os (S k)) A2 R'). reflexivity. }
  intros ps m0 os A. apply (G ps _ None m0 os A). unfold Rel. cbn. split; [reflexivity|]. intros a. reflexivity.
Qed.
Print Assumptions C30_background_erase_invisible_partial.

(** non-vacuity: an erase, a read elsewhere, a write elsewhere, and a read of the erased sector *)
Definition ex_ops : list mop := [MErase4 4096; MRead 0 3; MWrite 8192 [1; 2]; MRead 8192 3; MRead 4096 2].
Example ex_C30 : all_fit None ex_ops /\ calls (fun k j => (Nat.even k, fun a => a)) ex_ops (mkM Idle (mkChip (fun _ => 7) None)) = Some [[]; [7; 7; 7]; []; [1; 2; 7]; [255; 255]].
Proof. split; [cbn; lia|vm_compute; reflexivity]. Qed.

(** In particular it holds when erases are aligned to 4 KiB, page writes to 256 bytes, and each read stays inside one 4 KiB sector. *)
Definition aligned (p : mop) : Prop :=
  match p with
  | MErase4 a | MErase32 a | MErase64 a => a mod 4096 = 0
  | MRead a n => a / 4096 = (a + N.of_nat n - 1) / 4096
  | MWrite a d => a mod 256 = 0 /\ (length d <= 256)%nat
  | MReset => False
  end.
Lemma aligned_fit ps : forall last, match last with None => True | Some (lo, hi) => lo mod 4096 = 0 /\ hi mod 4096 = 0 end -> Forall aligned ps -> all_fit last ps.
Proof.
  assert (D : forall b, b mod 4096 = 0 -> b = 4096 * (b / 4096)) by (intros b Hb; pose proof (N.div_mod b 4096 ltac:(lia)); lia).
  induction ps as [|p ps IH]; intros last L A; [exact I|]. inversion A as [|? ? A1 A2]; subst. cbn [all_fit]. split.
  - destruct p as [a|a|a|a n|a d|]; cbn [fits aligned] in *; auto; unfold fits_range; destruct last as [[lo hi]|]; auto; destruct L as [L1 L2].
    + pose proof (D lo L1). pose proof (D hi L2). destruct (N.le_gt_cases lo a) as [K|K]; [lia|].
      assert (a / 4096 < lo / 4096) by (apply N.div_lt_upper_bound; lia). right. left.
      pose proof (N.div_mod (a + N.of_nat n - 1) 4096 ltac:(lia)). pose proof (N.mod_lt (a + N.of_nat n - 1) 4096 ltac:(lia)). nia.
    + pose proof (D lo L1). pose proof (D hi L2). destruct A1 as [A1 A3]. destruct (N.le_gt_cases lo a) as [K|K]; [lia|]. right. left.
      pose proof (N.div_mod a 256 ltac:(lia)). nia.
  - apply IH; [|exact A2]. destruct p as [a|a|a|a n|a d|]; cbn [last_erase aligned] in *; auto; (split; [exact A1|]); rewrite N.add_mod, A1 by lia; reflexivity.
Qed.
Theorem C30_aligned_calls_partial : forall ps m0 os, Forall aligned ps -> calls os ps (mkM Idle (mkChip m0 None)) = Some (ideal_calls ps m0).
Proof. intros ps m0 os A. apply C30_background_erase_invisible_partial. apply aligned_fit; [exact I|exact A]. Qed.

(** False without the alignment of reads: only the first address of a read is compared with the range being erased, so a read that starts
    just below it returns whatever the half-finished erase has left. *)
Theorem C30_refuted_straddling_read : exists ps os m0, Forall (fun p => match p with MReset => False | _ => True end) ps /\
  exists r, calls os ps (mkM Idle (mkChip m0 None)) = Some r /\ r <> ideal_calls ps m0.
Proof.
  exists [MErase4 4096; MRead 4095 2], (fun _ _ => (false, fun _ => 42)), (fun _ => 0). split; [repeat constructor|].
  eexists. split; [vm_compute; reflexivity|]. vm_compute. discriminate.
Qed.
Print Assumptions C30_refuted_straddling_read.

(** False after a reset in the middle of an erase: the erase is lost, the wrapper does not notice. *)
Theorem C30_refuted_reset : exists ps os m0, exists r, calls os ps (mkM Idle (mkChip m0 None)) = Some r /\ r <> ideal_calls ps m0.
Proof.
  exists [MErase4 4096; MReset; MRead 4096 1], (fun _ _ => (false, fun _ => 42)), (fun _ => 0).
  eexists. split; [vm_compute; reflexivity|]. vm_compute. discriminate.
Qed.
Print Assumptions C30_refuted_reset.

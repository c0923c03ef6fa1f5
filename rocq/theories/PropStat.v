(** * Property C128: measuring the flash does not change it, and the figures are right. *)
From Verif Require Import Base StatFlash.
From Coq Require Import QArith Lia.
Local Open Scope N_scope.

(** ** Specification *)

(** The same calls made on the bare chip *)
Fixpoint direct {S R} (ch : chip S R) (s : S) (cs : list call) : list R * S :=
  match cs with
  | [] => ([], s)
  | c :: cs => let '(r, s') := ch s c in let '(rs, s'') := direct ch s' cs in (r :: rs, s'')
  end.

Definition returned {R} (o : list (seen R)) : list R := flat_map (fun x => match x with Returned r => [r] | Figures _ => [] end) o.

(** The calls that ran to completion, with their start and end, in order; [open] is the one in progress at the start *)
Fixpoint completed (open : option (call * Q)) (l : list event) : list (call * Q * Q) :=
  match l with
  | [] => []
  | Begin c t :: l => completed (Some (c, t)) l
  | End t :: l => match open with Some (c, t0) => (c, t0, t) :: completed None l | None => completed None l end
  | _ :: l => completed open l
  end.

(** The calls completed since the figures were last reset, oldest first: [done] so far *)
Fixpoint recent (open : option (call * Q)) (done : list (call * Q * Q)) (l : list event) : list (call * Q * Q) :=
  match l with
  | [] => done
  | Begin c t :: l => recent (Some (c, t)) done l
  | End t :: l => match open with Some (c, t0) => recent None (done ++ [(c, t0, t)]) l | None => recent None done l end
  | ResetStat :: l => recent open [] l
  | GetStat :: l => recent open done l
  end.

(** The five families the figures distinguish *)
Inductive family := F4 | F32 | F64 | FRead | FWrite.
Definition belongs (f : family) (c : call) : bool :=
  match f, c with
  | F4, EraseSector _ | F32, EraseBlock32 _ | F64, EraseBlock64 _ | FRead, Read4k _ _ _ | FWrite, Write256 _ _ => true
  | _, _ => false
  end.
Definition of_family (f : family) (l : list (call * Q * Q)) := filter (fun x => belongs f (fst (fst x))) l.
Definition total (l : list (call * Q * Q)) : Q := fold_right (fun x q => (snd x - snd (fst x) + q)%Q) 0%Q l.
Definition count_of (f : family) (s : stat) : N :=
  match f with F4 => erase_4k_count s | F32 => erase_32k_count s | F64 => erase_64k_count s | FRead => read_count s | FWrite => write_count s end.
Definition time_of (f : family) (s : stat) : Q :=
  match f with F4 => erase_4k_time s | F32 => erase_32k_time s | F64 => erase_64k_time s | FRead => read_time s | FWrite => write_time s end.

(** The figures a list of calls deserves *)
Definition deserved (l : list (call * Q * Q)) (s : stat) : Prop :=
  forall f, count_of f s = N.of_nat (length (of_family f l)) mod 2 ^ 32
            /\ (time_of f s == total (of_family f l))%Q.

(** ** Proofs *)

Lemma returned_app {R} (a b : list (seen R)) : returned (a ++ b) = returned a ++ returned b.
Proof. apply flat_map_app. Qed.

Lemma transparent_from {S R} (ch : chip S R) l : forall (w : wrapper S) o w',
  run ch w l = Some (o, w') ->
  direct ch (w_chip w) (map (fun x => fst (fst x)) (completed (w_busy w) l)) = (returned o, w_chip w').
Proof.
  induction l as [|e l IH]; intros w o w' H.
  - injection H as <- <-. reflexivity.
  - cbn [run] in H. destruct (step ch w e) as [[o1 w1]|] eqn:E; [|discriminate].
    destruct (run ch w1 l) as [[o2 w2]|] eqn:E2; [|discriminate].
    apply IH in E2. injection H as <- <-. rewrite returned_app.
    destruct w as [s st b]. destruct e as [c t|t| |]; cbn [step w_busy w_chip w_stat] in E.
    + destruct b as [[c0 t0]|]; [discriminate|]. injection E as <- <-. exact E2.
    + destruct b as [[c0 t0]|]; [|discriminate]. destruct (ch s c0) as [r s'] eqn:C.
      injection E as <- <-. cbn [completed map direct fst snd w_chip w_busy] in E2 |- *. rewrite C.
      rewrite E2. reflexivity.
    + injection E as <- <-. exact E2.
    + injection E as <- <-. exact E2.
Qed.

(** C128. Whatever the timing, and whoever resets or reads the figures meanwhile, the caller of the measuring flash gets
    exactly what the chip returns, errors included, and the chip goes through the same states. *)
Theorem C128_transparent {S R} (ch : chip S R) (s : S) l o w :
  run ch (start s) l = Some (o, w) ->
  direct ch s (map (fun x => fst (fst x)) (completed None l)) = (returned o, w_chip w).
Proof. intro H. exact (transparent_from ch l _ _ _ H). Qed.

Lemma of_family_app f a b : of_family f (a ++ b) = of_family f a ++ of_family f b.
Proof. apply filter_app. Qed.

Lemma total_app a b : (total (a ++ b) == total a + total b)%Q.
Proof.
  induction a as [|x a IH]; cbn [app total fold_right].
  - now rewrite Qplus_0_l.
  - fold (total (a ++ b)) (total a). rewrite IH. now rewrite Qplus_assoc.
Qed.

Lemma deserved_note c t0 t l s : deserved l s -> deserved (l ++ [(c, t0, t)]) (note c (t - t0)%Q s).
Proof.
  intros H f. specialize (H f). destruct H as [Hn Ht].
  rewrite of_family_app, total_app, app_length, Nat2N.inj_add.
  destruct s as [t4 n4 t32 n32 t64 n64 tr nr tw nw].
  assert (K : belongs f c = true ->
    ((count_of f (Stat t4 n4 t32 n32 t64 n64 tr nr tw nw) + 1) mod 2 ^ 32 = (N.of_nat (length (of_family f l)) + N.of_nat (length (of_family f [(c, t0, t)]))) mod 2 ^ 32)
    /\ (time_of f (Stat t4 n4 t32 n32 t64 n64 tr nr tw nw) + (t - t0) == total (of_family f l) + total (of_family f [(c, t0, t)]))%Q).
  { intro B. unfold of_family at 2 4. cbn [filter fst]. rewrite B. cbn [length total fold_right fst snd]. split.
    - rewrite Hn. change (N.of_nat 1) with 1. rewrite N.add_mod_idemp_l; [reflexivity|discriminate].
    - rewrite Ht. now rewrite Qplus_0_r. }
  assert (K2 : belongs f c = false ->
    (count_of f (Stat t4 n4 t32 n32 t64 n64 tr nr tw nw) = (N.of_nat (length (of_family f l)) + N.of_nat (length (of_family f [(c, t0, t)]))) mod 2 ^ 32)
    /\ (time_of f (Stat t4 n4 t32 n32 t64 n64 tr nr tw nw) == total (of_family f l) + total (of_family f [(c, t0, t)]))%Q).
  { intro B. unfold of_family at 2 4. cbn [filter fst]. rewrite B. cbn [length total fold_right]. split.
    - rewrite Hn. change (N.of_nat 0) with 0. now rewrite N.add_0_r.
    - rewrite Ht. now rewrite Qplus_0_r. }
  clear Hn Ht. unfold bump in *.
  destruct f, c; try exact (K eq_refl); exact (K2 eq_refl).
Qed.

Lemma deserved_none : deserved [] no_stat.
Proof. intros []; split; reflexivity. Qed.

Lemma figures_from {S R} (ch : chip S R) l : forall (w : wrapper S) done o w',
  deserved done (w_stat w) -> run ch w l = Some (o, w') -> deserved (recent (w_busy w) done l) (w_stat w').
Proof.
  induction l as [|e l IH]; intros w done o w' D H.
  - injection H as <- <-. exact D.
  - cbn [run] in H. destruct (step ch w e) as [[o1 w1]|] eqn:E; [|discriminate].
    destruct (run ch w1 l) as [[o2 w2]|] eqn:E2; [|discriminate]. injection H as <- <-.
    destruct w as [s st b]. destruct e as [c t|t| |]; cbn [step w_busy w_chip w_stat] in E, D |- *; cbn [recent].
    + destruct b as [[c0 t0]|]; [discriminate|]. injection E as <- <-. exact (let K := fun D => IH _ done _ _ D E2 in K D).
    + destruct b as [[c0 t0]|]; [|discriminate]. destruct (ch s c0) as [r s'] eqn:C.
      injection E as <- <-. exact (let K := fun D => IH _ (done ++ [(c0, t0, t)]) _ _ D E2 in K (deserved_note c0 t0 t done st D)).
    + injection E as <- <-. exact (let K := fun D => IH _ [] _ _ D E2 in K deserved_none).
    + injection E as <- <-. exact (let K := fun D => IH _ done _ _ D E2 in K D).
Qed.

(** C128. The figures are, for each of the five families, the number of calls completed since the last reset (modulo the
    width of the counter; failed calls count) and the time they took together. *)
Theorem C128_figures {S R} (ch : chip S R) (s : S) l o w :
  run ch (start s) l = Some (o, w) -> deserved (recent None [] l) (w_stat w).
Proof. intro H. exact (figures_from ch l (start s) [] _ _ deserved_none H). Qed.

(** ... and that is what [get_stat] hands out. *)
Theorem C128_reported {S R} (ch : chip S R) (s : S) l o w :
  run ch (start s) (l ++ [GetStat]) = Some (o, w) ->
  exists o' st, o = o' ++ [Figures st] /\ deserved (recent None [] l) st /\ w_stat w = st.
Proof.
  assert (A : forall (w0 : wrapper S) o w, run ch w0 (l ++ [GetStat]) = Some (o, w) ->
            exists o', run ch w0 l = Some (o', w) /\ o = o' ++ [Figures (w_stat w)]).
  { induction l as [|e l0 IH]; intros w0 o1 w1 H.
    - cbn [app run] in H. unfold step in H. destruct (w_busy w0); injection H as <- <-; exists []; split; reflexivity.
    - cbn [app run] in H |- *. destruct (step ch w0 e) as [[o2 w2]|]; [|discriminate].
      destruct (run ch w2 (l0 ++ [GetStat])) as [[o3 w3]|] eqn:E; [|discriminate]. injection H as <- <-.
      apply IH in E. destruct E as (o' & -> & ->). exists (o2 ++ o'). split; [reflexivity|]. now rewrite app_assoc. }
  intro H. apply A in H. destruct H as (o' & H & ->). exists o', (w_stat w).
  split; [reflexivity|]. split; [exact (C128_figures ch s l _ _ H)|reflexivity].
Qed.

(** The time totals never go down between resets when the clock does not: every call adds at least zero. *)
Theorem C128_time_not_negative {S R} (ch : chip S R) (s : S) l o w :
  run ch (start s) l = Some (o, w) ->
  (forall c t0 t, In (c, t0, t) (completed None l) -> (t0 <= t)%Q) ->
  forall f, (0 <= time_of f (w_stat w))%Q.
Proof.
  intros H M f. destruct (C128_figures ch s l o w H f) as [_ ->].
  assert (I : forall open done x, In x (recent open done l) -> In x done \/ In x (completed open l)).
  { clear. induction l as [|e l IH]; intros open done x; cbn [recent completed]; [tauto|].
    destruct e as [c t|t| |].
    - apply IH.
    - destruct open as [[c t0]|]; intro X; apply IH in X; [|exact X].
      rewrite in_app_iff in X. cbn [In] in X |- *. tauto.
    - intro X. apply IH in X. cbn [In] in X. tauto.
    - apply IH. }
  assert (P : forall x, In x (of_family f (recent None [] l)) -> (snd (fst x) <= snd x)%Q).
  { intros [[c t0] t] X. apply filter_In in X. destruct X as [X _]. apply I in X. destruct X as [[]|X]. exact (M _ _ _ X). }
  revert P. generalize (of_family f (recent None [] l)). clear. intros l P.
  induction l as [|x l IH]; cbn [total fold_right]; [apply Qle_refl|].
  fold (total l). apply (Qplus_le_compat 0 _ 0).
  - apply (Qplus_le_l _ _ (snd (fst x))). ring_simplify. apply P. now left.
  - apply IH. intros y Hy. apply P. now right.
Qed.

(** *** Instance: a chip that fails one erase; the figures are reset while a write is in progress. *)
Definition tiny : chip nat (option nat) := fun s c => match c with EraseSector _ => (None, s) | _ => (Some s, S s) end.
Definition day : list event :=
  [Begin (EraseSector 4096) 1; End 5; Begin (Write256 0 []) 6; ResetStat; End (27#2); GetStat; Begin Size 14; End 14;
   Begin (EraseSector 0) 20; End 24; Begin (EraseSector 0) 30; End 33; GetStat].

Lemma C128_instance :
  match run tiny (start 7%nat) day with
  | Some (o, w) => (returned o, erase_4k_count (w_stat w), Qred (erase_4k_time (w_stat w)), write_count (w_stat w), Qred (write_time (w_stat w)), read_count (w_stat w), w_chip w)
  | None => ([], 0, 0%Q, 0, 0%Q, 0, 0%nat)
  end = ([None; Some 7%nat; Some 8%nat; None; None], 2, 7%Q, 1, (15#2)%Q, 0, 9%nat).
Proof. vm_compute. reflexivity. Qed.

(** [size] and [reset] leave no trace in the figures. *)
Theorem C128_others_uncounted (f : family) l :
  (forall x, In x (recent None [] l) -> fst (fst x) = Size \/ fst (fst x) = ResetChip) -> of_family f (recent None [] l) = [].
Proof.
  generalize (recent None [] l). clear. intros l P. induction l as [|x l IH]; [reflexivity|].
  unfold of_family. cbn [filter]. destruct (P x (or_introl eq_refl)) as [->| ->].
  - destruct f; apply IH; intros y Hy; apply P; now right.
  - destruct f; apply IH; intros y Hy; apply P; now right.
Qed.

(** * The concurrent directory iterator (vlfs/src/fs/iter.rs:149-272) *)
From Coq Require Import Sorted.
From Verif Require Import Base Flash FS ATable DirOps.
Local Open Scope N_scope.

(** iter.rs:90-104 [read_file_entry] *)
Definition entry_at (s : fs) (i : N) : res entry :=
  match read_entry_at (fl s) (address_of_file_entry (atb s) i) with Some e => Ok e | None => Err CorruptedFileEntry end.

(** iter.rs:203-237: the loop of [immediate_next]; [keep] is the value [self.last_file] has when the loop starts *)
Fixpoint walk_back (fuel : nat) (s : fs) (keep : N * N) (cur : N) (plus : option entry) : res (option entry * option (N * N)) :=
  match fuel with
  | O => Panic
  | S k =>
    match entry_at s cur with
    | Ok e =>
      if e_id e <=? fst keep then
        match plus with
        | Some p => Ok (Some p, Some (e_id p, cur + 1))
        | None => Ok (None, Some keep)
        end
      else if cur =? 0 then Ok (Some e, Some (e_id e, cur))
      else walk_back k s keep (cur - 1) (Some e)
    | Err x => Err x
    | Panic => Panic
    end
  end.

(** iter.rs:177-247 [immediate_next]; the iterator's state is [last_file].  [last_file_id.0 + 1] is computed without overflow: the
    identifiers stay far below 2^64. *)
Definition immediate_next (s : fs) (last : option (N * N)) : res (option entry * option (N * N)) :=
  let count := a_count (atb s) in
  match last with
  | Some (lid, li) =>
    let down plus :=
      if count =? 0 then Ok (None, None)
      else let cur := N.min li (count - 1) in walk_back (S (N.to_nat cur)) s (lid, li) cur plus in
    if li + 1 <? count then
      match entry_at s (li + 1) with
      | Ok e => if e_id e =? lid + 1 then Ok (Some e, Some (e_id e, li + 1)) else down (Some e)
      | Err x => Err x
      | Panic => Panic
      end
    else down None
  | None =>
    if 0 <? count then
      match entry_at s 0 with
      | Ok e => Ok (Some e, Some (e_id e, 0))
      | Err x => Err x
      | Panic => Panic
      end
    else Ok (None, None)
  end.

(** iter.rs:260-267: the loop of [next] *)
Fixpoint walk_on (fuel : nat) (s : fs) (sel : N -> N -> bool) (e : entry) (li : N) : res (option entry * option (N * N)) :=
  match fuel with
  | O => Panic
  | S k =>
    if sel (e_id e) (e_typ e) then Ok (Some e, Some (e_id e, li))
    else if a_count (atb s) - 1 <=? li then Ok (None, Some (e_id e, li))
    else match entry_at s (li + 1) with
         | Ok e' => walk_on k s sel e' (li + 1)
         | Err x => Err x
         | Panic => Panic
         end
  end.

(** iter.rs:253-272 [next] *)
Definition concurrent_next (sel : N -> N -> bool) (s : fs) (last : option (N * N)) : res (option entry * option (N * N)) :=
  match immediate_next s last with
  | Ok (Some e, Some (lid, li)) => walk_on (S (N.to_nat (a_count (atb s)))) s sel e li
  | Ok (Some _, None) => Panic
  | Ok (None, l) => Ok (None, l)
  | Err x => Err x
  | Panic => Panic
  end.

(** ** On a well-formed directory *)
Section L.
Variables (s : fs) (ents : list entry).
Hypothesis Hread : forall i e, nth_error ents i = Some e -> entry_at s (N.of_nat i) = Ok e.
Hypothesis Hcount : a_count (atb s) = N.of_nat (length ents).
Hypothesis Hsort : sorted_ids ents.

Lemma walk_back_spec keep a b : ents = a ++ b -> Forall (fun e => e_id e <= fst keep) a -> Forall (fun e => fst keep < e_id e) b ->
  forall cur fuel, (cur < length ents)%nat -> (cur < fuel)%nat -> (length a <= S cur)%nat ->
  walk_back fuel s keep (N.of_nat cur) (nth_error ents (S cur)) =
    match b with [] => Ok (None, Some keep) | e :: _ => Ok (Some e, Some (e_id e, N.of_nat (length a))) end.
Proof.
  intros E Ha Hb. induction cur as [|cur IH]; intros fuel Hc Hf Hl; (destruct fuel as [|fuel]; [lia|]); cbn [walk_back].
  - destruct (nth_error ents 0) as [e|] eqn:E0; [|apply nth_error_None in E0; lia]. rewrite (Hread 0 e E0). destruct a as [|x a].
    + cbn [app] in E. subst b. destruct ents as [|e0 l]; [discriminate|]. cbn in E0. injection E0 as ->. inversion Hb; subst.
      destruct (N.leb_spec (e_id e) (fst keep)); [lia|]. reflexivity.
    + assert (a = []) as -> by (destruct a; [reflexivity|cbn in Hl; lia]). rewrite E in E0. cbn in E0. injection E0 as ->. inversion Ha; subst.
      destruct (N.leb_spec (e_id e) (fst keep)); [|lia]. cbn [app nth_error]. destruct b as [|y b]; [reflexivity|]. reflexivity.
  - destruct (nth_error ents (S cur)) as [e|] eqn:E0; [|apply nth_error_None in E0; lia]. rewrite (Hread (S cur) e E0).
    destruct (Nat.eq_dec (length a) (S (S cur))) as [El|Nl].
    + assert (He : e_id e <= fst keep).
      { rewrite E, nth_error_app1 in E0 by lia. apply nth_error_In in E0. rewrite Forall_forall in Ha. exact (Ha e E0). }
      destruct (N.leb_spec (e_id e) (fst keep)); [|lia]. rewrite E, nth_error_app2 by lia. replace (S (S cur) - length a)%nat with 0%nat by lia.
      destruct b as [|y b]; [reflexivity|]. cbn [nth_error]. replace (N.of_nat (S cur) + 1) with (N.of_nat (length a)) by lia. reflexivity.
    + assert (He : fst keep < e_id e).
      { rewrite E, nth_error_app2 in E0 by lia. apply nth_error_In in E0. rewrite Forall_forall in Hb. exact (Hb e E0). }
      destruct (N.leb_spec (e_id e) (fst keep)); [lia|]. destruct (N.eqb_spec (N.of_nat (S cur)) 0); [lia|].
      replace (N.of_nat (S cur) - 1) with (N.of_nat cur) by lia. apply IH; lia.
Qed.

(** the position of the first entry above [lid] *)
Lemma immediate_spec lid li a b : ents = a ++ b -> Forall (fun e => e_id e <= lid) a -> Forall (fun e => lid < e_id e) b -> N.of_nat (length a) <= li + 1 ->
  immediate_next s (Some (lid, li)) =
    match b with [] => Ok (None, match ents with [] => None | _ => Some (lid, li) end) | e :: _ => Ok (Some e, Some (e_id e, N.of_nat (length a))) end.
Proof.
  intros E Ha Hb Hl. unfold immediate_next. rewrite Hcount.
  assert (D : forall plus, plus = nth_error ents (S (N.to_nat (N.min li (N.of_nat (length ents) - 1)))) -> ents <> [] ->
     walk_back (S (N.to_nat (N.min li (N.of_nat (length ents) - 1)))) s (lid, li) (N.min li (N.of_nat (length ents) - 1)) plus =
     match b with [] => Ok (None, match ents with [] => None | _ => Some (lid, li) end) | e :: _ => Ok (Some e, Some (e_id e, N.of_nat (length a))) end).
  { intros plus -> Hne. set (cur := N.min li (N.of_nat (length ents) - 1)). 
    assert (Hlen : (0 < length ents)%nat) by (destruct ents; [congruence|cbn; lia]).
    assert (Hla : (length a <= length ents)%nat) by (rewrite E, app_length; lia).
    pose proof (walk_back_spec (lid, li) a b E Ha Hb (N.to_nat cur) (S (N.to_nat cur)) ltac:(lia) ltac:(lia) ltac:(lia)) as W. rewrite N2Nat.id in W. rewrite W.
    destruct b; [|reflexivity]. destruct ents; [congruence|reflexivity]. }
  destruct (N.ltb_spec (li + 1) (N.of_nat (length ents))) as [C|C].
  - destruct (nth_error ents (N.to_nat (li + 1))) as [e|] eqn:En; [|apply nth_error_None in En; lia].
    pose proof (Hread _ _ En) as Er. rewrite N2Nat.id in Er. rewrite Er. destruct (N.eqb_spec (e_id e) (lid + 1)) as [Ei|Ni].
    + assert (Hb' : exists y b', b = y :: b').
      { destruct b as [|y b']; [|eauto]. rewrite app_nil_r in E. subst a. exfalso. rewrite Forall_forall in Ha. pose proof (Ha e (nth_error_In _ _ En)). lia. }
      destruct Hb' as (y & b' & ->). assert (Ey : nth_error ents (length a) = Some y) by (rewrite E, nth_error_app2, Nat.sub_diag by lia; reflexivity).
      destruct (Nat.eq_dec (N.to_nat (li + 1)) (length a)) as [Ep|Np].
      * rewrite Ep in En. rewrite Ey in En. injection En as <-. replace (li + 1) with (N.of_nat (length a)) by lia. reflexivity.
      * exfalso. pose proof (sorted_nth ents Hsort (length a) (N.to_nat (li + 1)) y e ltac:(lia) Ey En) as K. inversion Hb; subst. lia.
    + destruct (N.eqb_spec (N.of_nat (length ents)) 0); [lia|]. apply D; [|destruct ents; [cbn in C; lia|discriminate]].
      rewrite <- En. f_equal. lia.
  - destruct (N.eqb_spec (N.of_nat (length ents)) 0) as [E0|N0].
    + destruct ents; [|cbn in E0; lia]. destruct a, b; try discriminate. reflexivity.
    + apply D; [|destruct ents; [cbn in N0; lia|discriminate]]. symmetry. apply nth_error_None. lia.
Qed.

Lemma walk_on_spec sel : forall fuel e j, nth_error ents j = Some e -> (length ents < fuel + j)%nat -> exists r j' e',
  walk_on fuel s sel e (N.of_nat j) = Ok (r, Some (e_id e', N.of_nat j')) /\ nth_error ents j' = Some e' /\ (j <= j')%nat /\
  (forall i x, (j <= i < j')%nat -> nth_error ents i = Some x -> sel (e_id x) (e_typ x) = false) /\
  ((r = Some e' /\ sel (e_id e') (e_typ e') = true) \/ (r = None /\ sel (e_id e') (e_typ e') = false /\ S j' = length ents)).
Proof.
  induction fuel as [|fuel IH]; intros e j En Hf; [assert (j < length ents)%nat by (apply nth_error_Some; congruence); lia|].
  assert (Hj : (j < length ents)%nat) by (apply nth_error_Some; congruence).
  cbn [walk_on]. destruct (sel (e_id e) (e_typ e)) eqn:Es.
  - exists (Some e), j, e. split; [reflexivity|]. split; [exact En|]. split; [lia|]. split; [intros; lia|]. left. auto.
  - rewrite Hcount. destruct (N.leb_spec (N.of_nat (length ents) - 1) (N.of_nat j)) as [C|C].
    + exists None, j, e. split; [reflexivity|]. split; [exact En|]. split; [lia|]. split; [intros; lia|]. right. split; [reflexivity|]. split; [exact Es|lia].
    + destruct (nth_error ents (S j)) as [e1|] eqn:E1; [|apply nth_error_None in E1; lia].
      replace (N.of_nat j + 1) with (N.of_nat (S j)) by lia. rewrite (Hread _ _ E1).
      destruct (IH e1 (S j) E1 ltac:(lia)) as (r & j' & e' & A1 & A2 & A3 & A4 & A5). exists r, j', e'. split; [exact A1|]. split; [exact A2|]. split; [lia|]. split; [|exact A5].
      intros i x Hi Hx. destruct (Nat.eq_dec i j) as [->|Ni]; [congruence|]. apply (A4 i x); [lia|exact Hx].
Qed.

(** [m]: everything up to [m] has been visited.  The iterator's state is sound for [m]. *)
Definition tracks (m : N) (last : option (N * N)) : Prop :=
  match last with
  | Some (lid, li) => lid = m /\ N.of_nat (length (filter (fun e => e_id e <=? m) ents)) <= li + 1
  | None => forall e, In e ents -> m < e_id e
  end.

Lemma split_at m : exists a b, ents = a ++ b /\ Forall (fun e => e_id e <= m) a /\ Forall (fun e => m < e_id e) b /\ filter (fun e => e_id e <=? m) ents = a.
Proof.
  clear Hread Hcount. induction ents as [|e l IH]; [exists [], []; repeat split; constructor|]. inversion Hsort as [|? ? Hs Hf]; subst. destruct (IH Hs) as (a & b & E & Ha & Hb & Hfl).
  destruct (N.leb_spec (e_id e) m) as [C|C].
  - exists (e :: a), b. split; [cbn; congruence|]. split; [constructor; assumption|]. split; [assumption|]. cbn [filter]. apply N.leb_le in C. rewrite C. f_equal. exact Hfl.
  - assert (Hall : Forall (fun x => m < e_id x) l). { rewrite Forall_forall in *. intros x Hx. specialize (Hf x Hx). lia. }
    exists [], (e :: l). split; [reflexivity|]. split; [constructor|]. split; [constructor; assumption|]. cbn [filter]. apply N.leb_gt in C. rewrite C.
    clear -Hall. induction Hall as [|x l Hx _ IHl]; [reflexivity|]. cbn [filter]. apply N.leb_gt in Hx. rewrite Hx. exact IHl.
Qed.

Lemma filter_upto j e : nth_error ents j = Some e -> length (filter (fun x => e_id x <=? e_id e) ents) = S j.
Proof.
  clear Hread Hcount. revert j. induction ents as [|x l IH]; intros [|j] En; try discriminate.
  - cbn in En. injection En as ->. cbn [filter]. rewrite N.leb_refl. cbn [length]. f_equal. inversion Hsort as [|? ? Hs Hf]; subst. clear -Hf.
    induction Hf as [|y l Hy _ IHl]; [reflexivity|]. cbn [filter]. apply N.leb_gt in Hy. rewrite Hy. exact IHl.
  - cbn in En. inversion Hsort as [|? ? Hs Hf]; subst. cbn [filter]. rewrite Forall_forall in Hf. pose proof (Hf e (nth_error_In _ _ En)) as Hlt.
    assert (Hle : e_id x <=? e_id e = true) by (apply N.leb_le; lia). rewrite Hle. cbn [length]. f_equal. apply (IH Hs j En).
Qed.

Theorem concurrent_next_spec sel m last : tracks m last -> exists r last' m', concurrent_next sel s last = Ok (r, last') /\ m <= m' /\ tracks m' last' /\
  (m' = m \/ exists e, In e ents /\ e_id e = m') /\
  (forall e, In e ents -> m < e_id e <= m' -> sel (e_id e) (e_typ e) = true -> r = Some e) /\
  match r with
  | Some e => In e ents /\ e_id e = m' /\ m < m' /\ sel (e_id e) (e_typ e) = true
  | None => forall e, In e ents -> e_id e <= m'
  end.
Proof.
  intros T. 
  assert (K : exists a b, ents = a ++ b /\ Forall (fun e => e_id e <= m) a /\ Forall (fun e => m < e_id e) b /\
     immediate_next s last = match b with [] => Ok (None, match ents with [] => None | _ => last end) | e :: _ => Ok (Some e, Some (e_id e, N.of_nat (length a))) end).
  { destruct last as [[lid li]|]; cbn [tracks] in T.
    - destruct T as [-> Tl]. destruct (split_at m) as (a & b & E & Ha & Hb & Hf). rewrite Hf in Tl. exists a, b. split; [exact E|]. split; [exact Ha|]. split; [exact Hb|].
      apply immediate_spec; assumption.
    - exists [], ents. split; [reflexivity|]. split; [constructor|]. split; [rewrite Forall_forall; exact T|]. unfold immediate_next. rewrite Hcount.
      destruct ents as [|e l] eqn:Ee; [reflexivity|]. cbn [length]. destruct (N.ltb_spec 0 (N.of_nat (S (length l)))); [|lia].
      pose proof (Hread 0 e eq_refl) as Er. change (N.of_nat 0) with 0 in Er. rewrite Er. reflexivity. }
  destruct K as (a & b & E & Ha & Hb & Ei). unfold concurrent_next. rewrite Ei. destruct b as [|e b].
  - exists None, (match ents with [] => None | _ => last end), m. split; [reflexivity|]. split; [lia|]. split.
    { unfold tracks in *. destruct ents as [|e0 l0]; [intros e []|exact T]. }
    split; [auto|]. rewrite app_nil_r in E. rewrite Forall_forall in Ha. split; [intros; lia|]. intros e He. apply Ha. rewrite <- E. exact He.
  - assert (Ej : nth_error ents (length a) = Some e) by (rewrite E, nth_error_app2, Nat.sub_diag by lia; reflexivity).
    destruct (walk_on_spec sel (S (N.to_nat (a_count (atb s)))) e (length a) Ej ltac:(rewrite Hcount; lia)) as (r & j' & e' & A1 & A2 & A3 & A4 & A5).
    rewrite A1. exists r, (Some (e_id e', N.of_nat j')), (e_id e'). split; [reflexivity|].
    assert (Hm : m < e_id e').
    { rewrite E, nth_error_app2 in A2 by lia. apply nth_error_In in A2. rewrite Forall_forall in Hb. exact (Hb e' A2). }
    split; [lia|]. split. { cbn [tracks]. split; [reflexivity|]. rewrite (filter_upto j' e' A2). lia. }
    split. { right. exists e'. split; [exact (nth_error_In _ _ A2)|reflexivity]. }
    split.
    + intros x Hx Hr Hs. apply In_nth_error in Hx. destruct Hx as (i & Hi).
      assert (Hia : (length a <= i)%nat).
      { destruct (Nat.lt_ge_cases i (length a)) as [C|C]; [|exact C]. rewrite E, nth_error_app1 in Hi by exact C. apply nth_error_In in Hi. rewrite Forall_forall in Ha. specialize (Ha x Hi). lia. }
      destruct (Nat.lt_trichotomy i j') as [C|[C|C]].
      * rewrite (A4 i x ltac:(lia) Hi) in Hs. discriminate.
      * subst i. rewrite A2 in Hi. injection Hi as <-. destruct A5 as [[-> _]|(_ & K & _)]; [reflexivity|congruence].
      * pose proof (sorted_nth ents Hsort j' i e' x C A2 Hi). lia.
    + destruct A5 as [[-> Hs]|(-> & Hs & Hl)].
      * split; [exact (nth_error_In _ _ A2)|]. auto.
      * intros x Hx. apply In_nth_error in Hx. destruct Hx as (i & Hi). assert (i < length ents)%nat by (apply nth_error_Some; congruence).
        destruct (Nat.eq_dec i j') as [->|Ni]; [rewrite A2 in Hi; injection Hi as <-; lia|].
        pose proof (sorted_nth ents Hsort i j' x e' ltac:(lia) Hi A2). lia.
Qed.
End L.

(** * The delta logger and its reader.

    Models firmware-common/src/common/delta_logger/delta_logger.rs (DeltaLogger,
    DeltaLoggerReader) and delta_factory.rs on top of the bit streams of
    BitSlice.v.  Generic in the sensor data type [D] with its delta type [X],
    the timestamp type [T] (f64 in the code) with its packed delta [TX], and
    the unix log record [U].
    Simplifications: the byte sink never fails (write_all / flush errors are
    not modelled); a record's serialize, which is a sequence of writer.write
    calls, is modelled as one write of the concatenated bits; a [None] result
    is a panic. *)
From Coq Require Import List Bool NArith Lia Arith.
From Verif Require Import Base BitSlice.
Import ListNotations.
Local Open Scope nat_scope.

(** BitArraySerializable (bitslice_serialize.rs:144-150) *)
Record codec (A : Type) := Codec { c_len : nat; c_enc : A -> list bool; c_dec : list bool -> A }.
Arguments Codec {A} _ _ _.
Arguments c_len {A} _.
Arguments c_enc {A} _ _.
Arguments c_dec {A} _ _.

(** Deltable (delta_factory.rs:3-9): [d_sub value last], [d_add last delta] *)
Record deltable (A X : Type) := Deltable { d_sub : A -> A -> option X; d_add : A -> X -> option A }.
Arguments Deltable {A X} _ _.
Arguments d_sub {A X} _ _ _.
Arguments d_add {A X} _ _ _.

Record setup (T TX D X U : Type) := Setup {
  tc : codec T; txc : codec TX; dc : codec D; xc : codec X; uc : codec U;
  td : deltable T TX; dd : deltable D X;
  too_close : T -> T -> bool;  (** reading.timestamp - last < FF::min() *)
}.
Arguments Setup {T TX D X U} _ _ _ _ _ _ _ _.
Arguments tc {T TX D X U} _. Arguments txc {T TX D X U} _. Arguments dc {T TX D X U} _.
Arguments xc {T TX D X U} _. Arguments uc {T TX D X U} _. Arguments td {T TX D X U} _.
Arguments dd {T TX D X U} _. Arguments too_close {T TX D X U} _ _ _.

Inductive item (T D U : Type) := IRead (t : T) (d : D) | IUnix (u : U).
Arguments IRead {T D U} _ _. Arguments IUnix {T D U} _.

Section Logger.
Context {T TX D X U : Type} (S : setup T TX D X U).

(** DeltaFactory::push (delta_factory.rs:20-30); [None] is the unwrap panic *)
Definition factory_push {A AX} (dl : deltable A AX) (last : option A) (v : A) : option ((A + AX) * option A) :=
  match last with
  | Some l =>
    match d_sub dl v l with
    | Some dx => match d_add dl l dx with Some l' => Some (inr dx, Some l') | None => None end
    | None => Some (inl v, Some v)
    end
  | None => Some (inl v, Some v)
  end.

(** UnDeltaFactory::push_delta (delta_factory.rs:55-63) *)
Definition undelta_push {A AX} (dl : deltable A AX) (last : option A) (dx : AX) : option A :=
  match last with Some l => d_add dl l dx | None => None end.

(** DeltaLogger (delta_logger.rs:92-106); [l_out] is what the sink received *)
Record logger := Logger {
  l_data : option D; l_ts : option T; l_out : list byte; l_bw : bwriter;
  l_last_unix : bool; l_pending : option U }.

(** new (115-124), with bit buffer capacity [n] = size_of::<D>() + 10 bytes *)
Definition l_new (n : nat) : logger := Logger None None [] (bw_new n) false None.

(** Header::serialize (55-63) *)
Definition hdr_dd := [true; false].
Definition hdr_df := [false; true].
Definition hdr_unix := [false; false].
Definition hdr_eob := [true; true; true].
Definition hdr_ff := [true; true; false].

(** write_all(view_full_byte_slice); clear_full_byte_slice (172-175, 193-196) *)
Definition drain (l : logger) (w : bwriter) : option logger :=
  match bw_clear_full w with
  | Some w' => Some (Logger (l_data l) (l_ts l) (l_out l ++ bw_full w) w' (l_last_unix l) (l_pending l))
  | None => None
  end.

Definition put (w : bwriter) (bits : list bool) : option bwriter := bw_put w bits (length bits).

(** log_unix_time (182-200) *)
Definition log_unix (l : logger) (u : U) : option logger :=
  if l_last_unix l
  then Some (Logger (l_data l) (l_ts l) (l_out l) (l_bw l) (l_last_unix l) (Some u))
  else
    match put (l_bw l) (hdr_unix ++ c_enc (uc S) u) with
    | Some w =>
      match drain l w with
      | Some l' => Some (Logger (l_data l') (l_ts l') (l_out l') (l_bw l') true (l_pending l'))
      | None => None
      end
    | None => None
    end.

(** log (136-180): the result is the returned bool and the new state *)
Definition log (l : logger) (t : T) (d : D) : option (bool * logger) :=
  if match l_ts l with Some lt => too_close S t lt | None => false end then Some (false, l)
  else
    (** 145-147: the buffered unix log is taken and logged again *)
    let l1 := match l_pending l with
              | Some u => log_unix (Logger (l_data l) (l_ts l) (l_out l) (l_bw l) (l_last_unix l) None) u
              | None => Some l
              end in
    match l1 with
    | None => None
    | Some l1 =>
      match factory_push (td S) (l_ts l1) t with
      | None => None
      | Some (et, ts') =>
        let enc_state :=
          match et with
          | inl t' => Some (hdr_ff ++ c_enc (tc S) t' ++ c_enc (dc S) d, Some d)
          | inr tx =>
            match factory_push (dd S) (l_data l1) d with
            | None => None
            | Some (inl d', data') => Some (hdr_df ++ c_enc (txc S) tx ++ c_enc (dc S) d', data')
            | Some (inr x, data') => Some (hdr_dd ++ c_enc (txc S) tx ++ c_enc (xc S) x, data')
            end
          end in
        match enc_state with
        | None => None
        | Some (bits, data') =>
          match put (l_bw l1) bits with
          | Some w =>
            match drain (Logger data' ts' (l_out l1) (l_bw l1) (l_last_unix l1) (l_pending l1)) w with
            | Some l2 => Some (true, Logger (l_data l2) (l_ts l2) (l_out l2) (l_bw l2) false (l_pending l2))
            | None => None
            end
          | None => None
          end
        end
      end
    end.

(** flush (202-210) *)
Definition flush (l : logger) : option logger :=
  match put (l_bw l) hdr_eob with
  | Some w => Some (Logger (l_data l) (l_ts l) (l_out l ++ bw_all w) (bw_clear w) (l_last_unix l) (l_pending l))
  | None => None
  end.

Inductive call := CLog (t : T) (d : D) | CUnix (u : U) | CFlush.

(** a history of calls: the logs answered Ok(true) and the final state *)
Fixpoint run (l : logger) (cs : list call) : option (list (T * D) * logger) :=
  match cs with
  | [] => Some ([], l)
  | CLog t d :: cs =>
    match log l t d with
    | Some (b, l') => match run l' cs with Some (acc, lf) => Some ((if b then (t, d) :: acc else acc), lf) | None => None end
    | None => None
    end
  | CUnix u :: cs => match log_unix l u with Some l' => run l' cs | None => None end
  | CFlush :: cs => match flush l with Some l' => run l' cs | None => None end
  end.

(** ** DeltaLoggerReader (213-400) *)

(** the reader: bit buffer, unread bytes of the source, delta state *)
Record lreader := LReader { r_data : option D; r_ts : option T; r_bits : breader; r_src : list byte }.

Definition r_new (n : nat) (src : list byte) : lreader := LReader None None (br_new n) src.

(** ensure_at_least_bits (378-390).  [chunk] decides how many bytes each call
    of the underlying reader returns: at least one unless the source is
    exhausted or the buffer offered is empty.  As the source only shrinks, a
    function of the number of unread bytes covers every behaviour. *)
Fixpoint ensure (chunk : nat -> nat) (fuel : nat) (r : lreader) (min : nat) : option (bool * lreader) :=
  match fuel with
  | 0 => None
  | Datatypes.S fuel =>
    if br_len (r_bits r) <? min then
      match br_prepare (r_bits r) with
      | None => None
      | Some b =>
        let k := Nat.min (br_room b) (Nat.min (length (r_src r)) (Datatypes.S (chunk (length (r_src r))))) in
        match br_append b (firstn k (r_src r)) with
        | None => None
        | Some b' =>
          let r' := LReader (r_data r) (r_ts r) b' (skipn k (r_src r)) in
          if k =? 0 then Some (false, r') else ensure chunk fuel r' min
        end
      end
    else Some (true, r)
  end.
Definition ensure_bits chunk (r : lreader) (min : nat) := ensure chunk (Datatypes.S (length (r_src r))) r min.

(** reader.read::<bits>().unwrap() of [n] bits *)
Definition take_bits (r : lreader) (n : nat) : option (list bool * lreader) :=
  if br_len (r_bits r) <? n then None
  else Some (firstn n (br_bits (r_bits r)),
             LReader (r_data r) (r_ts r) (BR (br_buf (r_bits r)) (br_start (r_bits r) + n) (br_end (r_bits r))) (r_src r)).

Inductive rres := REof (r : lreader) | RData (i : item T D U) (r : lreader) | RAgain (r : lreader).

(** ensure n bits and read them: [inl] = end of file *)
Definition fetch chunk (r : lreader) (n : nat) : option (lreader + (list bool * lreader)) :=
  match ensure_bits chunk r n with
  | None => None
  | Some (false, r') => Some (inl r')
  | Some (true, r') => match take_bits r' n with Some x => Some (inr x) | None => None end
  end.

(** the tail of inner_read once the timestamp is known (348-375) *)
Definition finish_data chunk (r : lreader) (ts : option T) (full : bool) : option rres :=
  if full then
    match fetch chunk r (c_len (dc S)) with
    | None => None
    | Some (inl r') => Some (REof r')
    | Some (inr (bits, r')) =>
      let d := c_dec (dc S) bits in
      let r'' := LReader (Some d) (r_ts r') (r_bits r') (r_src r') in
      match ts with Some t => Some (RData (IRead t d) r'') | None => Some (RAgain r'') end
    end
  else
    match fetch chunk r (c_len (xc S)) with
    | None => None
    | Some (inl r') => Some (REof r')
    | Some (inr (bits, r')) =>
      let od := undelta_push (dd S) (r_data r') (c_dec (xc S) bits) in
      let r'' := LReader od (r_ts r') (r_bits r') (r_src r') in
      match ts, od with Some t, Some d => Some (RData (IRead t d) r'') | _, _ => Some (RAgain r'') end
    end.

(** inner_read (270-376) *)
Definition inner_read chunk (r : lreader) : option rres :=
  match fetch chunk r 2 with
  | None => None
  | Some (inl r') => Some (REof r')
  | Some (inr (h, r1)) =>
    match h with
    | [true; true] =>
      match fetch chunk r1 1 with
      | None => None
      | Some (inl r') => Some (REof r')
      | Some (inr (h3, r2)) =>
        if hd false h3
        then Some (RAgain (LReader (r_data r2) (r_ts r2) (br_skip (r_bits r2)) (r_src r2)))
        else
          match fetch chunk r2 (c_len (tc S)) with
          | None => None
          | Some (inl r') => Some (REof r')
          | Some (inr (b, r3)) =>
            let t := c_dec (tc S) b in
            finish_data chunk (LReader (r_data r3) (Some t) (r_bits r3) (r_src r3)) (Some t) true
          end
      end
    | [false; false] =>
      match fetch chunk r1 (c_len (uc S)) with
      | None => None
      | Some (inl r') => Some (REof r')
      | Some (inr (b, r2)) => Some (RData (IUnix (c_dec (uc S) b)) r2)
      end
    | _ =>
      match fetch chunk r1 (c_len (txc S)) with
      | None => None
      | Some (inl r') => Some (REof r')
      | Some (inr (b, r2)) =>
        let ot := undelta_push (td S) (r_ts r2) (c_dec (txc S) b) in
        finish_data chunk (LReader (r_data r2) ot (r_bits r2) (r_src r2)) ot (match h with [false; true] => true | _ => false end)
      end
    end
  end.

(** read() until it returns None (252-268): the entries of a log file.  Every
    iteration consumes at least two bits, so the fuel is never exhausted
    ([decode_fuel] below). *)
Fixpoint decode_loop chunk (fuel : nat) (r : lreader) : option (list (item T D U)) :=
  match fuel with
  | 0 => None
  | Datatypes.S fuel =>
    match inner_read chunk r with
    | None => None
    | Some (REof _) => Some []
    | Some (RAgain r') => decode_loop chunk fuel r'
    | Some (RData i r') => match decode_loop chunk fuel r' with Some l => Some (i :: l) | None => None end
    end
  end.
Definition decode chunk (n : nat) (bytes : list byte) : option (list (item T D U)) :=
  decode_loop chunk (Datatypes.S (8 * length bytes)) (r_new n bytes).

(** ** Reading is parsing: an abstract parser over the remaining bits *)
Inductive pres := PEof | PData (i : item T D U) (ts : option T) (d : option D) (rest : list bool) | PAgain (ts : option T) (d : option D) (rest : list bool).

Definition pfetch (bits : list bool) (n : nat) : option (list bool * list bool) :=
  if length bits <? n then None else Some (firstn n bits, skipn n bits).

Definition pfinish (bits : list bool) (ts0 : option T) (data : option D) (ts : option T) (full : bool) : pres :=
  if full then
    match pfetch bits (c_len (dc S)) with
    | None => PEof
    | Some (b, rest) =>
      match ts with Some t => PData (IRead t (c_dec (dc S) b)) ts0 (Some (c_dec (dc S) b)) rest
                  | None => PAgain ts0 (Some (c_dec (dc S) b)) rest end
    end
  else
    match pfetch bits (c_len (xc S)) with
    | None => PEof
    | Some (b, rest) =>
      let od := undelta_push (dd S) data (c_dec (xc S) b) in
      match ts, od with Some t, Some d => PData (IRead t d) ts0 od rest | _, _ => PAgain ts0 od rest end
    end.

Definition pstep (ts : option T) (data : option D) (bits : list bool) : pres :=
  match pfetch bits 2 with
  | None => PEof
  | Some (h, b1) =>
    match h with
    | [true; true] =>
      match pfetch b1 1 with
      | None => PEof
      | Some (h3, b2) =>
        if hd false h3 then PAgain ts data (skipn (length b2 mod 8) b2)
        else match pfetch b2 (c_len (tc S)) with
             | None => PEof
             | Some (b, b3) => let t := c_dec (tc S) b in pfinish b3 (Some t) data (Some t) true
             end
      end
    | [false; false] =>
      match pfetch b1 (c_len (uc S)) with
      | None => PEof
      | Some (b, b2) => PData (IUnix (c_dec (uc S) b)) ts data b2
      end
    | _ =>
      match pfetch b1 (c_len (txc S)) with
      | None => PEof
      | Some (b, b2) =>
        let ot := undelta_push (td S) ts (c_dec (txc S) b) in
        pfinish b2 ot data ot (match h with [false; true] => true | _ => false end)
      end
    end
  end.

Fixpoint pdecode (fuel : nat) (ts : option T) (data : option D) (bits : list bool) : list (item T D U) :=
  match fuel with
  | 0 => []
  | Datatypes.S fuel =>
    match pstep ts data bits with
    | PEof => []
    | PAgain ts' d' rest => pdecode fuel ts' d' rest
    | PData i ts' d' rest => i :: pdecode fuel ts' d' rest
    end
  end.

(** the buffer is big enough for every field the reader asks for *)
Definition reader_fits (n : nat) : Prop :=
  2 <= 8 * n - 7 /\ c_len (tc S) <= 8 * n - 7 /\ c_len (txc S) <= 8 * n - 7 /\ c_len (dc S) <= 8 * n - 7 /\
  c_len (xc S) <= 8 * n - 7 /\ c_len (uc S) <= 8 * n - 7.

Definition rbits (r : lreader) : list bool := br_bits (r_bits r) ++ bits_of_bytes (r_src r).

Lemma bits_app a b : bits_of_bytes (a ++ b) = bits_of_bytes a ++ bits_of_bytes b.
Proof. unfold bits_of_bytes. apply flat_map_app. Qed.

Lemma ensure_spec chunk n min : min <= 8 * n - 7 -> forall fuel r, br_ok (r_bits r) n -> length (r_src r) < fuel ->
  exists ok r', ensure chunk fuel r min = Some (ok, r') /\ br_ok (r_bits r') n /\ rbits r' = rbits r /\
    r_data r' = r_data r /\ r_ts r' = r_ts r /\
    (if ok then min <= br_len (r_bits r') else length (rbits r) < min).
Proof.
  intros Hm. induction fuel as [|fuel IH]; intros r K F; [lia|]. cbn [ensure].
  destruct (Nat.ltb_spec (br_len (r_bits r)) min) as [L|L].
  2:{ exists true, r. split; [reflexivity|]. split; [exact K|]. split; [reflexivity|]. split; [reflexivity|]. split; [reflexivity|exact L]. }
  destruct (br_prepare_spec (r_bits r) n K) as (b & E & Kb & Bb & Lb & Eb & Rb). rewrite E.
  set (k := Nat.min (br_room b) (Nat.min (length (r_src r)) (Datatypes.S (chunk (length (r_src r)))))).
  assert (Room : 1 <= br_room b).
  { rewrite Rb. destruct Kb as (K1 & K2 & K3 & K4). pose proof (Nat.div_mod_eq (br_end b) 8). lia. }
  assert (Hk : k <= length (r_src r)) by (unfold k; lia).
  assert (Hlen : length (firstn k (r_src r)) = k) by (apply firstn_length_le; exact Hk).
  destruct (br_append_spec b n (firstn k (r_src r)) Kb) as (b' & E' & K' & B' & L').
  { rewrite Hlen. destruct Kb as (K1 & K2 & K3 & K4). pose proof (Nat.div_mod_eq (br_end b) 8). unfold k. rewrite Rb. lia. }
  rewrite E'. cbv zeta.
  assert (RB : rbits (LReader (r_data r) (r_ts r) b' (skipn k (r_src r))) = rbits r).
  { unfold rbits. cbn [r_bits r_src]. rewrite B', Bb, <- app_assoc, <- bits_app, firstn_skipn. reflexivity. }
  destruct (Nat.eqb_spec k 0) as [Z|Z].
  - exists false. eexists. split; [reflexivity|]. split; [exact K'|]. split; [exact RB|]. split; [reflexivity|]. split; [reflexivity|].
    assert (r_src r = []) as NS by (destruct (r_src r); [reflexivity|cbn [length] in *; unfold k in Z; lia]).
    unfold rbits. rewrite NS, app_length, (br_bits_length _ n K). cbn. lia.
  - destruct (IH (LReader (r_data r) (r_ts r) b' (skipn k (r_src r)))) as (ok & r' & E2 & K2 & R2 & D2 & T2 & C2).
    + exact K'.
    + cbn [r_src]. rewrite skipn_length. lia.
    + exists ok, r'. split; [exact E2|]. split; [exact K2|]. split; [rewrite R2; exact RB|]. split; [exact D2|]. split; [exact T2|].
      destruct ok; [exact C2|]. rewrite RB in C2. exact C2.
Qed.

Lemma fetch_spec chunk n r m : br_ok (r_bits r) n -> m <= 8 * n - 7 ->
  match pfetch (rbits r) m with
  | None => exists r', fetch chunk r m = Some (inl r')
  | Some (b, rest) => exists r', fetch chunk r m = Some (inr (b, r')) /\ br_ok (r_bits r') n /\ rbits r' = rest /\
                        r_data r' = r_data r /\ r_ts r' = r_ts r
  end.
Proof.
  intros K Hm. unfold fetch, ensure_bits.
  destruct (ensure_spec chunk n m Hm (Datatypes.S (length (r_src r))) r K (Nat.lt_succ_diag_r _)) as (ok & r' & E & K' & R & Dt & Ts & C).
  rewrite E. unfold pfetch. destruct ok.
  - assert (LL : m <= length (rbits r)).
    { rewrite <- R. unfold rbits. rewrite app_length, (br_bits_length _ n K'). lia. }
    destruct (Nat.ltb_spec (length (rbits r)) m) as [G|G]; [lia|].
    unfold take_bits. destruct (Nat.ltb_spec (br_len (r_bits r')) m) as [G2|G2]; [lia|].
    assert (BL : m <= length (br_bits (r_bits r'))) by (rewrite (br_bits_length _ n K'); exact C).
    eexists. split; [|split; [|split; [|split]]].
    + f_equal. f_equal. f_equal. rewrite <- R. unfold rbits. rewrite firstn_app.
      replace (m - length (br_bits (r_bits r'))) with 0 by lia. cbn [firstn]. rewrite app_nil_r. reflexivity.
    + cbn [r_bits]. destruct K' as (K1 & K2 & K3 & K4). unfold br_ok, br_len in *. cbn [br_buf br_start br_end].
      split; [exact K1|]. split; [lia|]. split; assumption.
    + unfold rbits at 1. cbn [r_bits r_src]. rewrite <- R. unfold rbits. rewrite skipn_app.
      replace (m - length (br_bits (r_bits r'))) with 0 by lia. cbn [skipn]. f_equal.
      unfold br_bits, slice. cbn [br_buf br_start br_end]. rewrite skipn_firstn_comm, skipn_skipn. f_equal; [lia|f_equal; lia].
    + exact Dt.
    + exact Ts.
  - destruct (Nat.ltb_spec (length (rbits r)) m) as [G|G]; [|lia]. eauto.
Qed.

(** one reader step is one parser step *)
Definition step_agrees (n : nat) (o : option rres) (p : pres) : Prop :=
  match p with
  | PEof => exists r', o = Some (REof r')
  | PData i ts d rest => exists r', o = Some (RData i r') /\ br_ok (r_bits r') n /\ rbits r' = rest /\ r_ts r' = ts /\ r_data r' = d
  | PAgain ts d rest => exists r', o = Some (RAgain r') /\ br_ok (r_bits r') n /\ rbits r' = rest /\ r_ts r' = ts /\ r_data r' = d
  end.

Lemma finish_spec chunk n r ts full : reader_fits n -> br_ok (r_bits r) n ->
  step_agrees n (finish_data chunk r ts full) (pfinish (rbits r) (r_ts r) (r_data r) ts full).
Proof.
  intros (F2 & Ft & Ftx & Fd & Fx & Fu) K. unfold finish_data, pfinish. destruct full.
  - pose proof (fetch_spec chunk n r (c_len (dc S)) K Fd) as P. destruct (pfetch (rbits r) (c_len (dc S))) as [[b rest]|].
    + destruct P as (r' & E & K' & R & Dt & Ts). rewrite E. cbv zeta. destruct ts; cbn [step_agrees]; eexists;
        (split; [reflexivity|]); cbn [r_bits r_src r_ts r_data];
        (split; [exact K'|]); (split; [exact R|]); (split; [exact Ts|reflexivity]).
    + destruct P as (r' & E). rewrite E. cbn [step_agrees]. eauto.
  - pose proof (fetch_spec chunk n r (c_len (xc S)) K Fx) as P. destruct (pfetch (rbits r) (c_len (xc S))) as [[b rest]|].
    + destruct P as (r' & E & K' & R & Dt & Ts). rewrite E. cbv zeta. rewrite Dt.
      destruct ts; destruct (undelta_push (dd S) (r_data r) (c_dec (xc S) b)); cbn [step_agrees]; eexists;
        (split; [reflexivity|]); cbn [r_bits r_src r_ts r_data];
        (split; [exact K'|]); (split; [exact R|]); (split; [exact Ts|reflexivity]).
    + destruct P as (r' & E). rewrite E. cbn [step_agrees]. eauto.
Qed.

Lemma pfetch_length bits m b rest : pfetch bits m = Some (b, rest) -> length b = m /\ bits = b ++ rest.
Proof.
  unfold pfetch. destruct (Nat.ltb_spec (length bits) m) as [G|G]; [discriminate|]. intros H.
  assert (b = firstn m bits /\ rest = skipn m bits) as [-> ->] by (split; congruence).
  split; [apply firstn_length_le; exact G | symmetry; apply firstn_skipn].
Qed.

Lemma inner_read_spec chunk n r : reader_fits n -> br_ok (r_bits r) n ->
  step_agrees n (inner_read chunk r) (pstep (r_ts r) (r_data r) (rbits r)).
Proof.
  intros F K. pose proof F as (F2 & Ft & Ftx & Fd & Fx & Fu). unfold inner_read, pstep.
  pose proof (fetch_spec chunk n r 2 K F2) as P.
  destruct (pfetch (rbits r) 2) as [[h b1]|] eqn:E2.
  2:{ destruct P as (r' & E). rewrite E. cbn [step_agrees]. eauto. }
  destruct P as (r1 & E & K1 & R1 & D1 & T1). rewrite E. clear E.
  apply pfetch_length in E2. destruct E2 as [Hh _].
  destruct h as [|h1 [|h2 [|h3 h]]]; try discriminate Hh. clear Hh.
  assert (DT : forall full,
    step_agrees n
      (match fetch chunk r1 (c_len (txc S)) with
       | None => None | Some (inl r') => Some (REof r')
       | Some (inr (b, r2)) => finish_data chunk (LReader (r_data r2) (undelta_push (td S) (r_ts r2) (c_dec (txc S) b)) (r_bits r2) (r_src r2))
            (undelta_push (td S) (r_ts r2) (c_dec (txc S) b)) full end)
      (match pfetch b1 (c_len (txc S)) with
       | None => PEof
       | Some (b, b2) => pfinish b2 (undelta_push (td S) (r_ts r) (c_dec (txc S) b)) (r_data r) (undelta_push (td S) (r_ts r) (c_dec (txc S) b)) full end)).
  { intros full. pose proof (fetch_spec chunk n r1 (c_len (txc S)) K1 Ftx) as P. rewrite R1 in P.
    destruct (pfetch b1 (c_len (txc S))) as [[b b2]|].
    - destruct P as (r2 & E & K2 & R2 & D2 & T2). rewrite E, T2, T1.
      pose proof (finish_spec chunk n (LReader (r_data r2) (undelta_push (td S) (r_ts r) (c_dec (txc S) b)) (r_bits r2) (r_src r2))
                    (undelta_push (td S) (r_ts r) (c_dec (txc S) b)) full F K2) as G.
      cbn [r_ts r_data] in G. unfold rbits in G at 1. cbn [r_bits r_src] in G. fold (rbits r2) in G. rewrite R2, D2, D1 in G. rewrite D2, D1. exact G.
    - destruct P as (r' & E). rewrite E. cbn [step_agrees]. eauto. }
  destruct h1, h2.
  - pose proof (fetch_spec chunk n r1 1 K1 ltac:(lia)) as P. rewrite R1 in P.
    destruct (pfetch b1 1) as [[h3 b2]|] eqn:E3.
    2:{ destruct P as (r' & E). rewrite E. cbn [step_agrees]. eauto. }
    destruct P as (r2 & E & K2 & R2 & D2 & T2). rewrite E. clear E.
    destruct (hd false h3).
    + cbn [step_agrees]. eexists. split; [reflexivity|]. cbn [r_bits r_src r_ts r_data].
      destruct (br_skip_spec (r_bits r2) n K2) as (KS & BS & LS).
      split; [exact KS|]. split.
      * unfold rbits. cbn [r_bits r_src]. rewrite BS. rewrite <- R2. unfold rbits.
        rewrite app_length, bits_of_bytes_length, (br_bits_length _ n K2).
        rewrite (Nat.mul_comm 8), Nat.mod_add by lia. rewrite skipn_app.
        replace (br_len (r_bits r2) mod 8 - length (br_bits (r_bits r2))) with 0; [reflexivity|].
        rewrite (br_bits_length _ n K2). pose proof (Nat.mod_le (br_len (r_bits r2)) 8). lia.
      * split; congruence.
    + pose proof (fetch_spec chunk n r2 (c_len (tc S)) K2 Ft) as P. rewrite R2 in P.
      destruct (pfetch b2 (c_len (tc S))) as [[b b3]|].
      * destruct P as (r3 & E & K3 & R3 & D3 & T3). rewrite E. cbv zeta.
        pose proof (finish_spec chunk n (LReader (r_data r3) (Some (c_dec (tc S) b)) (r_bits r3) (r_src r3)) (Some (c_dec (tc S) b)) true F K3) as G.
        cbn [r_ts r_data] in G. unfold rbits in G at 1. cbn [r_bits r_src] in G. fold (rbits r3) in G. rewrite R3, D3, D2, D1 in G. rewrite D3, D2, D1. exact G.
      * destruct P as (r' & E). rewrite E. cbn [step_agrees]. eauto.
  - apply (DT false).
  - apply (DT true).
  - pose proof (fetch_spec chunk n r1 (c_len (uc S)) K1 Fu) as P. rewrite R1 in P.
    destruct (pfetch b1 (c_len (uc S))) as [[b b2]|].
    + destruct P as (r2 & E & K2 & R2 & D2 & T2). rewrite E. cbn [step_agrees]. eexists. split; [reflexivity|].
      split; [exact K2|]. split; [exact R2|]. split; congruence.
    + destruct P as (r' & E). rewrite E. cbn [step_agrees]. eauto.
Qed.

(** every parser step consumes at least two bits *)
Lemma pstep_shrinks ts data bits :
  match pstep ts data bits with
  | PEof => True
  | PData _ _ _ rest | PAgain _ _ rest => length rest < length bits /\ exists pre, bits = pre ++ rest
  end.
Proof.
  assert (PF : forall bits n b rest, pfetch bits n = Some (b, rest) -> length rest + n = length bits /\ exists pre, bits = pre ++ rest).
  { intros bs n b rest H. apply pfetch_length in H. destruct H as [H ->]. rewrite app_length. split; [lia|eauto]. }
  assert (FIN : forall bs ts0 dt t full, match pfinish bs ts0 dt t full with
     | PEof => True | PData _ _ _ rest | PAgain _ _ rest => length rest <= length bs /\ exists pre, bs = pre ++ rest end).
  { intros bs ts0 dt t full. unfold pfinish. destruct full.
    - destruct (pfetch bs (c_len (dc S))) as [[b rest]|] eqn:E; [|exact I]. apply PF in E. destruct E as [L P].
      destruct t; (split; [lia|exact P]).
    - destruct (pfetch bs (c_len (xc S))) as [[b rest]|] eqn:E; [|exact I]. apply PF in E. destruct E as [L P]. cbv zeta.
      destruct t; destruct (undelta_push (dd S) dt (c_dec (xc S) b)); (split; [lia|exact P]). }
  assert (CONV : forall pre bs (p : pres) , (match p with PEof => True | PData _ _ _ rest | PAgain _ _ rest => length rest <= length bs /\ exists q, bs = q ++ rest end) ->
     1 <= length pre -> match p with PEof => True | PData _ _ _ rest | PAgain _ _ rest => length rest < length (pre ++ bs) /\ exists q, pre ++ bs = q ++ rest end).
  { intros pre bs p H L. destruct p as [|i a b rest|a b rest]; [exact I| |]; destruct H as [H1 [q ->]];
      rewrite !app_length in *; (split; [lia|]); exists (pre ++ q); apply app_assoc. }
  unfold pstep. destruct (pfetch bits 2) as [[h b1]|] eqn:E; [|exact I]. apply pfetch_length in E. destruct E as [Hh ->].
  assert (OT : forall full, match (match pfetch b1 (c_len (txc S)) with
       | None => PEof
       | Some (b, b2) => pfinish b2 (undelta_push (td S) ts (c_dec (txc S) b)) data (undelta_push (td S) ts (c_dec (txc S) b)) full end) with
       | PEof => True | PData _ _ _ rest | PAgain _ _ rest => length rest < length (h ++ b1) /\ exists q, h ++ b1 = q ++ rest end).
  { intros full. apply CONV; [|lia]. destruct (pfetch b1 (c_len (txc S))) as [[b b2]|] eqn:E2; [|exact I].
    apply pfetch_length in E2. destruct E2 as [L ->].
    pose proof (FIN b2 (undelta_push (td S) ts (c_dec (txc S) b)) data (undelta_push (td S) ts (c_dec (txc S) b)) full) as G.
    destruct (pfinish b2 _ data _ full) as [|i a c rest|a c rest]; [exact I| |];
      destruct G as [G1 [q ->]]; rewrite !app_length in *; (split; [lia|]); exists (b ++ q); apply app_assoc. }
  destruct h as [|h1 [|h2 [|h3 h]]]; try discriminate Hh.
  destruct h1, h2.
  - apply CONV; [|cbn; lia]. destruct (pfetch b1 1) as [[h3 b2]|] eqn:E3; [|exact I].
    apply pfetch_length in E3. destruct E3 as [L3 ->]. destruct (hd false h3).
    + rewrite skipn_length, app_length. split; [lia|]. exists (h3 ++ firstn (length b2 mod 8) b2). rewrite <- app_assoc, firstn_skipn. reflexivity.
    + destruct (pfetch b2 (c_len (tc S))) as [[b b3]|] eqn:E4; [|exact I]. apply pfetch_length in E4. destruct E4 as [L4 ->]. cbv zeta.
      pose proof (FIN b3 (Some (c_dec (tc S) b)) data (Some (c_dec (tc S) b)) true) as G.
      destruct (pfinish b3 _ data _ true) as [|i a c rest|a c rest]; [exact I| |];
        destruct G as [G1 [q ->]]; rewrite !app_length in *; (split; [lia|]); exists (h3 ++ b ++ q); rewrite !app_assoc; reflexivity.
  - apply (OT false).
  - apply (OT true).
  - apply CONV; [|cbn; lia]. destruct (pfetch b1 (c_len (uc S))) as [[b b2]|] eqn:E3; [|exact I].
    apply pfetch_length in E3. destruct E3 as [L3 ->]. rewrite app_length. split; [lia|eauto].
Qed.

Lemma pdecode_fuel : forall f1 f2 ts d bits, length bits < f1 -> length bits < f2 -> pdecode f1 ts d bits = pdecode f2 ts d bits.
Proof.
  induction f1 as [|f1 IH]; intros [|f2] ts d bits H1 H2; try lia. cbn [pdecode].
  pose proof (pstep_shrinks ts d bits) as P. destruct (pstep ts d bits) as [|i a b rest|a b rest]; [reflexivity| |];
    destruct P as [P _]; [f_equal|]; apply IH; lia.
Qed.

Lemma decode_loop_spec chunk n : reader_fits n -> forall fuel r, br_ok (r_bits r) n -> length (rbits r) < fuel ->
  decode_loop chunk fuel r = Some (pdecode fuel (r_ts r) (r_data r) (rbits r)).
Proof.
  intros F. induction fuel as [|fuel IH]; intros r K L; [lia|]. cbn [decode_loop pdecode].
  pose proof (inner_read_spec chunk n r F K) as G. pose proof (pstep_shrinks (r_ts r) (r_data r) (rbits r)) as P.
  destruct (pstep (r_ts r) (r_data r) (rbits r)) as [|i a b rest|a b rest]; cbn [step_agrees] in G.
  - destruct G as (r' & E). rewrite E. reflexivity.
  - destruct G as (r' & E & K' & R & T' & D'). destruct P as [P _]. rewrite E, (IH r' K') by (rewrite R; lia). rewrite R, T', D'. reflexivity.
  - destruct G as (r' & E & K' & R & T' & D'). destruct P as [P _]. rewrite E, (IH r' K') by (rewrite R; lia). rewrite R, T', D'. reflexivity.
Qed.

(** the reader never panics and its result does not depend on how the source
    chunks its bytes *)
Theorem decode_spec chunk n bytes : reader_fits n ->
  decode chunk n bytes = Some (pdecode (Datatypes.S (8 * length bytes)) None None (bits_of_bytes bytes)).
Proof.
  intros F. unfold decode. rewrite (decode_loop_spec chunk n F).
  - unfold rbits, r_new. cbn [r_bits r_src r_ts r_data]. reflexivity.
  - cbn [r_new r_bits]. apply br_new_ok.
  - unfold rbits, r_new. cbn [r_bits r_src]. rewrite app_length, bits_of_bytes_length. cbn. lia.
Qed.

(** ** Truncation *)
Lemma pfetch_prefix a b n x rest : pfetch a n = Some (x, rest) -> pfetch (a ++ b) n = Some (x, rest ++ b).
Proof.
  unfold pfetch. rewrite app_length. destruct (Nat.ltb_spec (length a) n) as [G|G]; [discriminate|].
  destruct (Nat.ltb_spec (length a + length b) n) as [G2|G2]; [lia|]. intros H.
  rewrite firstn_app, skipn_app. replace (n - length a) with 0 by lia. cbn [firstn skipn]. rewrite app_nil_r. congruence.
Qed.

Lemma pfinish_prefix a b ts0 dt t full : match pfinish a ts0 dt t full with
  | PEof => True
  | PData i ts d rest => pfinish (a ++ b) ts0 dt t full = PData i ts d (rest ++ b)
  | PAgain ts d rest => pfinish (a ++ b) ts0 dt t full = PAgain ts d (rest ++ b) end.
Proof.
  unfold pfinish. destruct full.
  - destruct (pfetch a (c_len (dc S))) as [[x rest]|] eqn:E; [|exact I]. rewrite (pfetch_prefix _ b _ _ _ E).
    destruct t; reflexivity.
  - destruct (pfetch a (c_len (xc S))) as [[x rest]|] eqn:E; [|exact I]. rewrite (pfetch_prefix _ b _ _ _ E). cbv zeta.
    destruct t; destruct (undelta_push (dd S) dt (c_dec (xc S) x)); reflexivity.
Qed.

Lemma pstep_prefix a b ts dt : length b mod 8 = 0 -> match pstep ts dt a with
  | PEof => True
  | PData i ts' d rest => pstep ts dt (a ++ b) = PData i ts' d (rest ++ b)
  | PAgain ts' d rest => pstep ts dt (a ++ b) = PAgain ts' d (rest ++ b) end.
Proof.
  intros Hb. unfold pstep. destruct (pfetch a 2) as [[h b1]|] eqn:E; [|exact I]. rewrite (pfetch_prefix _ b _ _ _ E).
  apply pfetch_length in E. destruct E as [Hh _]. destruct h as [|h1 [|h2 [|h3 h]]]; try discriminate Hh.
  destruct h1, h2.
  - destruct (pfetch b1 1) as [[h3 b2]|] eqn:E3; [|exact I]. rewrite (pfetch_prefix _ b _ _ _ E3). destruct (hd false h3).
    + f_equal. rewrite app_length. apply Nat.div_exact in Hb; [|lia].
      assert (M : (length b2 + length b) mod 8 = length b2 mod 8) by (rewrite Hb, (Nat.mul_comm 8), Nat.mod_add by lia; reflexivity).
      rewrite M, skipn_app. pose proof (Nat.mod_le (length b2) 8). replace (length b2 mod 8 - length b2) with 0 by lia. reflexivity.
    + destruct (pfetch b2 (c_len (tc S))) as [[x b3]|] eqn:E4; [|exact I]. rewrite (pfetch_prefix _ b _ _ _ E4). cbv zeta. apply pfinish_prefix.
  - destruct (pfetch b1 (c_len (txc S))) as [[x b2]|] eqn:E3; [|exact I]. rewrite (pfetch_prefix _ b _ _ _ E3). cbv zeta. apply pfinish_prefix.
  - destruct (pfetch b1 (c_len (txc S))) as [[x b2]|] eqn:E3; [|exact I]. rewrite (pfetch_prefix _ b _ _ _ E3). cbv zeta. apply pfinish_prefix.
  - destruct (pfetch b1 (c_len (uc S))) as [[x b2]|] eqn:E3; [|exact I]. rewrite (pfetch_prefix _ b _ _ _ E3). reflexivity.
Qed.

Lemma pdecode_prefix b : length b mod 8 = 0 -> forall fuel ts d a, length a + length b < fuel ->
  exists more, pdecode fuel ts d (a ++ b) = pdecode fuel ts d a ++ more.
Proof.
  intros Hb. induction fuel as [|fuel IH]; intros ts d a L; [lia|]. cbn [pdecode].
  pose proof (pstep_prefix a b ts d Hb) as P. pose proof (pstep_shrinks ts d a) as Q.
  destruct (pstep ts d a) as [|i a1 b1 rest|a1 b1 rest].
  - eexists. cbn [app]. reflexivity.
  - destruct Q as [Q _]. rewrite P. destruct (IH a1 b1 rest) as [more E]; [lia|]. exists more. rewrite E. reflexivity.
  - destruct Q as [Q _]. rewrite P. destruct (IH a1 b1 rest) as [more E]; [lia|]. exists more. rewrite E. reflexivity.
Qed.

(** ** Writing is emitting tokens *)
Inductive tok := KFull (t : T) (d : D) | KDF (tx : TX) (d : D) | KDD (tx : TX) (x : X) | KUnix (u : U) | KEnd (pad : list bool).

Definition tok_bits (k : tok) : list bool :=
  match k with
  | KFull t d => hdr_ff ++ c_enc (tc S) t ++ c_enc (dc S) d
  | KDF tx d => hdr_df ++ c_enc (txc S) tx ++ c_enc (dc S) d
  | KDD tx x => hdr_dd ++ c_enc (txc S) tx ++ c_enc (xc S) x
  | KUnix u => hdr_unix ++ c_enc (uc S) u
  | KEnd pad => hdr_eob ++ pad
  end.

(** what a token decodes to *)
Definition tok_item (ts : option T) (d : option D) (k : tok) : option (item T D U) * option T * option D :=
  match k with
  | KFull t v => (Some (IRead t v), Some t, Some v)
  | KDF tx v => let ot := undelta_push (td S) ts tx in
                (match ot with Some t => Some (IRead t v) | None => None end, ot, Some v)
  | KDD tx x => let ot := undelta_push (td S) ts tx in let od := undelta_push (dd S) d x in
                (match ot, od with Some t, Some v => Some (IRead t v) | _, _ => None end, ot, od)
  | KUnix u => (Some (IUnix u), ts, d)
  | KEnd _ => (None, ts, d)
  end.

Fixpoint toks_items (ts : option T) (d : option D) (ks : list tok) : list (item T D U) :=
  match ks with
  | [] => []
  | k :: ks => let '(o, ts', d') := tok_item ts d k in
               match o with Some i => i :: toks_items ts' d' ks | None => toks_items ts' d' ks end
  end.

(** codecs that round trip *)
Definition good {A} (c : codec A) : Prop := forall a, length (c_enc c a) = c_len c /\ c_dec c (c_enc c a) = a.
Definition good_setup : Prop := good (tc S) /\ good (txc S) /\ good (dc S) /\ good (xc S) /\ good (uc S).

Lemma pfetch_enc {A} (c : codec A) a rest : good c -> pfetch (c_enc c a ++ rest) (c_len c) = Some (c_enc c a, rest).
Proof.
  intros G. destruct (G a) as [L _]. unfold pfetch. rewrite app_length, L. destruct (Nat.ltb_spec (c_len c + length rest) (c_len c)); [lia|].
  rewrite firstn_app, skipn_app, L, Nat.sub_diag, firstn_all2, skipn_all2 by lia. cbn [firstn skipn app]. rewrite app_nil_r. reflexivity.
Qed.

(** token alignment: every end-of-byte token ends on a byte boundary, [off]
    being the bit offset at which the list starts *)
Fixpoint aligned (off : nat) (ks : list tok) : Prop :=
  match ks with
  | [] => True
  | k :: ks => match k with KEnd pad => length pad < 8 /\ (off + 3 + length pad) mod 8 = 0 | _ => True end /\
               aligned (off + length (tok_bits k)) ks
  end.

Definition toks_bits (ks : list tok) : list bool := flat_map tok_bits ks.

Lemma pfetch2 b1 b2 rest : pfetch (b1 :: b2 :: rest) 2 = Some ([b1; b2], rest).
Proof. reflexivity. Qed.

Lemma pstep_tok k ts d rest off : good_setup ->
  match k with KEnd pad => length pad < 8 /\ (off + 3 + length pad) mod 8 = 0 | _ => True end ->
  (off + length (tok_bits k) + length rest) mod 8 = 0 ->
  pstep ts d (tok_bits k ++ rest) =
  let '(o, ts', d') := tok_item ts d k in match o with Some i => PData i ts' d' rest | None => PAgain ts' d' rest end.
Proof.
  intros (Gt & Gtx & Gd & Gx & Gu) Ha Hl. unfold pstep, tok_bits, tok_item.
  destruct k as [t v|tx v|tx x|u|pad].
  - unfold hdr_ff. cbn [app]. rewrite pfetch2. change (pfetch (false :: (c_enc (tc S) t ++ c_enc (dc S) v) ++ rest) 1)
      with (Some ([false], (c_enc (tc S) t ++ c_enc (dc S) v) ++ rest)). cbn [hd].
    rewrite <- app_assoc, (pfetch_enc (tc S) t _ Gt). cbv zeta. unfold pfinish. rewrite (pfetch_enc (dc S) v _ Gd).
    rewrite (proj2 (Gt t)), (proj2 (Gd v)). reflexivity.
  - unfold hdr_df. cbn [app]. rewrite pfetch2. rewrite <- app_assoc, (pfetch_enc (txc S) tx _ Gtx). cbv zeta.
    unfold pfinish. rewrite (pfetch_enc (dc S) v _ Gd), (proj2 (Gtx tx)), (proj2 (Gd v)).
    destruct (undelta_push (td S) ts tx); reflexivity.
  - unfold hdr_dd. cbn [app]. rewrite pfetch2. rewrite <- app_assoc, (pfetch_enc (txc S) tx _ Gtx). cbv zeta.
    unfold pfinish. rewrite (pfetch_enc (xc S) x _ Gx), (proj2 (Gtx tx)), (proj2 (Gx x)). cbv zeta.
    destruct (undelta_push (td S) ts tx); destruct (undelta_push (dd S) d x); reflexivity.
  - unfold hdr_unix. cbn [app]. rewrite pfetch2. rewrite (pfetch_enc (uc S) u _ Gu), (proj2 (Gu u)). reflexivity.
  - unfold hdr_eob in *. cbn [app]. rewrite pfetch2. change (pfetch (true :: pad ++ rest) 1) with (Some ([true], pad ++ rest)). cbn [hd].
    f_equal. destruct Ha as [Hp Ho]. cbn [tok_bits app length] in Hl. unfold hdr_eob in Hl. cbn [app length] in Hl.
    assert (M : length (pad ++ rest) mod 8 = length pad).
    { rewrite app_length. set (p := length pad) in *. set (q := length rest) in *.
      assert (Q : q mod 8 = 0).
      { pose proof (Nat.div_mod_eq (off + 3 + p) 8). pose proof (Nat.div_mod_eq (off + Datatypes.S (Datatypes.S (Datatypes.S p)) + q) 8).
        pose proof (Nat.div_mod_eq q 8). pose proof (Nat.mod_upper_bound q 8). lia. }
      rewrite Nat.add_mod, Q, Nat.add_0_r, Nat.mod_mod by lia. apply Nat.mod_small. exact Hp. }
    rewrite M, skipn_app, skipn_all2, Nat.sub_diag by lia. reflexivity.
Qed.

Lemma pdecode_toks : good_setup -> forall ks fuel ts d off, aligned off ks -> (off + length (toks_bits ks)) mod 8 = 0 ->
  length (toks_bits ks) < fuel -> pdecode fuel ts d (toks_bits ks) = toks_items ts d ks.
Proof.
  intros G. induction ks as [|k ks IH]; intros fuel ts d off A L F.
  - destruct fuel as [|fuel]; [cbn in F; lia|]. reflexivity.
  - destruct fuel as [|fuel]; [lia|]. cbn [aligned] in A. destruct A as [A1 A2].
    cbn [toks_bits flat_map] in *. fold (toks_bits ks) in *. rewrite app_length in L, F. cbn [pdecode].
    rewrite (pstep_tok k ts d (toks_bits ks) off G A1) by (rewrite <- Nat.add_assoc; exact L).
    assert (2 <= length (tok_bits k)) by (destruct k; cbn; lia).
    cbn [toks_items]. destruct (tok_item ts d k) as [[o ts'] d'].
    assert (R : pdecode fuel ts' d' (toks_bits ks) = toks_items ts' d' ks).
    { apply (IH fuel ts' d' (off + length (tok_bits k)) A2); [rewrite <- Nat.add_assoc; exact L | lia]. }
    destruct o; rewrite R; reflexivity.
Qed.

(** ** The logger emits the tokens it should *)

(** the logger has so far emitted the tokens [ks] and the delta state of a
    reader that has read them all is the logger's own *)
Definition emitted (n : nat) (l : logger) (ks : list tok) : Prop :=
  bw_ok (l_bw l) n /\ bits_of_bytes (l_out l) ++ bw_bits (l_bw l) = toks_bits ks /\ aligned 0 ks.

Lemma toks_bits_app a b : toks_bits (a ++ b) = toks_bits a ++ toks_bits b.
Proof. apply flat_map_app. Qed.

Lemma aligned_app : forall a b off, aligned off (a ++ b) <-> aligned off a /\ aligned (off + length (toks_bits a)) b.
Proof.
  induction a as [|k a IH]; intros b off; cbn [app aligned].
  - cbn. rewrite Nat.add_0_r. tauto.
  - cbn [toks_bits flat_map]. fold (toks_bits a). rewrite IH, app_length, Nat.add_assoc. tauto.
Qed.

(** write a token's bits and drain *)
Lemma emit_drain n l ks k w l' : emitted n l ks -> (match k with KEnd _ => False | _ => True end) ->
  put (l_bw l) (tok_bits k) = Some w -> drain l w = Some l' ->
  emitted n l' (ks ++ [k]) /\ l_data l' = l_data l /\ l_ts l' = l_ts l /\ l_last_unix l' = l_last_unix l /\ l_pending l' = l_pending l
  /\ bw_len (l_bw l') = (bw_len (l_bw l) + length (tok_bits k)) mod 8.
Proof.
  intros (K & B & A) Hk P Dr. unfold put in P. destruct (bw_put_spec _ n _ w K P) as (Kw & Bw & Lw).
  unfold drain in Dr. destruct (bw_clear_full w) as [w'|] eqn:E; [|discriminate].
  destruct (bw_clear_full_spec w n w' Kw E) as (Kw' & Bw' & Lw').
  assert (l' = Logger (l_data l) (l_ts l) (l_out l ++ bw_full w) w' (l_last_unix l) (l_pending l)) as -> by congruence.
  cbn [l_bw l_out l_data l_ts l_last_unix l_pending]. split; [|repeat (split; [reflexivity|])].
  - unfold emitted. cbn [l_bw l_out]. split; [exact Kw'|]. split.
    + rewrite toks_bits_app, <- B. cbn [toks_bits flat_map]. rewrite app_nil_r.
      rewrite bits_app, (bw_full_bits w n Kw), Bw', <- !app_assoc, firstn_skipn, Bw. reflexivity.
    + apply aligned_app. split; [exact A|]. cbn [aligned]. split; [|exact I]. destruct k; [exact I|exact I|exact I|exact I|contradiction].
  - rewrite Lw', Lw. reflexivity.
Qed.

Lemma emit_end n l ks l' : emitted n l ks -> flush l = Some l' ->
  exists pad, emitted n l' (ks ++ [KEnd pad]) /\ bw_bits (l_bw l') = [] /\
    l_data l' = l_data l /\ l_ts l' = l_ts l /\ l_last_unix l' = l_last_unix l /\ l_pending l' = l_pending l /\ bw_len (l_bw l') = 0.
Proof.
  intros (K & B & A) Fl. unfold flush in Fl. destruct (put (l_bw l) hdr_eob) as [w|] eqn:P; [|discriminate].
  unfold put in P. destruct (bw_put_spec _ n _ w K P) as (Kw & Bw & Lw).
  assert (l' = Logger (l_data l) (l_ts l) (l_out l ++ bw_all w) (bw_clear w) (l_last_unix l) (l_pending l)) as -> by congruence.
  destruct (bw_all_bits w n Kw) as (pad & PA & PL & PM). destruct (bw_clear_spec w n Kw) as (KC & BC & LC).
  exists pad. cbn [l_bw l_out l_data l_ts l_last_unix l_pending].
  split; [|split; [exact BC|repeat (split; [reflexivity|]); exact LC]].
  unfold emitted. cbn [l_bw l_out]. split; [exact KC|]. split.
  - rewrite BC, app_nil_r, bits_app, PA, Bw, toks_bits_app. cbn [toks_bits flat_map tok_bits]. rewrite app_nil_r, <- B, <- !app_assoc. reflexivity.
  - apply aligned_app. split; [exact A|]. cbn [aligned]. split; [|exact I]. split; [exact PL|].
    cbn [Nat.add]. rewrite <- B, app_length, bits_of_bytes_length.
    assert (BLb : length (bw_bits (l_bw l)) = bw_len (l_bw l)) by (unfold bw_bits; rewrite firstn_length; destruct K; lia).
    rewrite BLb. change (length hdr_eob) with 3 in Lw.
    replace (8 * length (l_out l) + bw_len (l_bw l) + 3 + length pad) with ((bw_len w + length pad) + length (l_out l) * 8) by lia.
    rewrite Nat.mod_add by lia. exact PM.
Qed.

(** the delta state after a list of tokens *)
Fixpoint toks_state (ts : option T) (d : option D) (ks : list tok) : option T * option D :=
  match ks with [] => (ts, d) | k :: ks => let '(_, ts', d') := tok_item ts d k in toks_state ts' d' ks end.

Lemma toks_items_app : forall a b ts d, toks_items ts d (a ++ b) =
  toks_items ts d a ++ (let (ts', d') := toks_state ts d a in toks_items ts' d' b).
Proof.
  induction a as [|k a IH]; intros b ts d; [reflexivity|]. cbn [app toks_items toks_state].
  destruct (tok_item ts d k) as [[o ts'] d']. destruct o; rewrite IH; reflexivity.
Qed.

Lemma toks_state_app : forall a b ts d, toks_state ts d (a ++ b) = (let (ts', d') := toks_state ts d a in toks_state ts' d' b).
Proof. induction a as [|k a IH]; intros b ts d; [reflexivity|]. cbn [app toks_state]. destruct (tok_item ts d k) as [[o ts'] d']. apply IH. Qed.

(** ** Value-level behaviour of the logger *)

(** what gets recorded for a reading when the last recorded timestamp and data
    are [lt] and [ld] *)
Definition recorded (lt : option T) (ld : option D) (t : T) (d : D) : option (T * D) :=
  match factory_push (td S) lt t with
  | None => None
  | Some (inl _, _) => Some (t, d)
  | Some (inr _, Some t') => match factory_push (dd S) ld d with Some (_, Some d') => Some (t', d') | _ => None end
  | Some (inr _, None) => None
  end.

Definition vstate := (option T * option D * bool * option U)%type.

Definition vunix (s : vstate) (u : U) : list (item T D U) * vstate :=
  let '(lt, ld, last, pend) := s in
  if last then ([], (lt, ld, last, Some u)) else ([IUnix u], (lt, ld, true, pend)).

Definition vstep (s : vstate) (c : call) : option (list (item T D U) * list (T * D) * vstate) :=
  match c with
  | CFlush => Some ([], [], s)
  | CUnix u => let (o, s') := vunix s u in Some (o, [], s')
  | CLog t d =>
    let '(lt, ld, last, pend) := s in
    if match lt with Some l => too_close S t l | None => false end then Some ([], [], s)
    else
      let '(o1, s1) := match pend with Some u => vunix (lt, ld, last, None) u | None => ([], s) end in
      let '(_, _, _, pend1) := s1 in
      match recorded lt ld t d with
      | Some (t', d') => Some (o1 ++ [IRead t' d'], [(t, d)], (Some t', Some d', false, pend1))
      | None => None
      end
  end.

Fixpoint vrun (s : vstate) (cs : list call) : option (list (item T D U) * list (T * D) * vstate) :=
  match cs with
  | [] => Some ([], [], s)
  | c :: cs => match vstep s c with
               | Some (o, a, s') => match vrun s' cs with Some (o', a', sf) => Some (o ++ o', a ++ a', sf) | None => None end
               | None => None
               end
  end.

Definition vof (l : logger) : vstate := (l_ts l, l_data l, l_last_unix l, l_pending l).

Lemma factory_undelta {A AX} (dl : deltable A AX) last v dx last' : factory_push dl last v = Some (inr dx, last') ->
  undelta_push dl last dx = last' /\ exists v', last' = Some v'.
Proof.
  unfold factory_push, undelta_push. destruct last as [l0|]; [|congruence].
  destruct (d_sub dl v l0) as [x|]; [|congruence]. destruct (d_add dl l0 x) as [l1|] eqn:E; [|congruence].
  intros H. assert (x = dx /\ last' = Some l1) as [-> ->] by (split; congruence). split; [exact E|eauto].
Qed.

Lemma factory_full {A AX} (dl : deltable A AX) last v v' last' : factory_push dl last v = Some (inl v', last') -> v' = v /\ last' = Some v.
Proof.
  unfold factory_push. destruct last as [l0|]; [|intros H; split; congruence].
  destruct (d_sub dl v l0) as [x|]; [|intros H; split; congruence]. destruct (d_add dl l0 x); congruence.
Qed.

Definition inv (n : nat) (l : logger) (ks : list tok) : Prop :=
  emitted n l ks /\ toks_state None None ks = (l_ts l, l_data l).

Lemma log_unix_spec n l u ks l' : inv n l ks -> log_unix l u = Some l' ->
  exists ks', inv n l' (ks ++ ks') /\ (toks_items (l_ts l) (l_data l) ks', vof l') = vunix (vof l) u.
Proof.
  intros [Em St] H. unfold log_unix in H. unfold vof, vunix. destruct (l_last_unix l) eqn:E.
  - assert (l' = Logger (l_data l) (l_ts l) (l_out l) (l_bw l) true (Some u)) as -> by congruence.
    exists []. rewrite app_nil_r. split; [split; assumption|]. reflexivity.
  - destruct (put (l_bw l) (hdr_unix ++ c_enc (uc S) u)) as [w|] eqn:P; [|discriminate].
    destruct (drain l w) as [l1|] eqn:Dr; [|discriminate].
    destruct (emit_drain n l ks (KUnix u) w l1 Em I P Dr) as (Em' & D1 & T1 & L1 & P1 & _).
    assert (l' = Logger (l_data l1) (l_ts l1) (l_out l1) (l_bw l1) true (l_pending l1)) as -> by congruence.
    exists [KUnix u]. split.
    + split; [exact Em'|]. rewrite toks_state_app, St. cbn [toks_state tok_item l_ts l_data]. congruence.
    + cbn [toks_items tok_item l_ts l_data l_last_unix l_pending]. rewrite D1, T1, P1. reflexivity.
Qed.

(** 150-180: recording one reading *)
Lemma log_body n l1 t d ks b l' : inv n l1 ks ->
  (match factory_push (td S) (l_ts l1) t with
   | None => None
   | Some (et, ts') =>
     match
       match et with
       | inl t' => Some (hdr_ff ++ c_enc (tc S) t' ++ c_enc (dc S) d, Some d)
       | inr tx =>
         match factory_push (dd S) (l_data l1) d with
         | None => None
         | Some (inl d', data') => Some (hdr_df ++ c_enc (txc S) tx ++ c_enc (dc S) d', data')
         | Some (inr x, data') => Some (hdr_dd ++ c_enc (txc S) tx ++ c_enc (xc S) x, data')
         end
       end with
     | None => None
     | Some (bits, data') =>
       match put (l_bw l1) bits with
       | Some w =>
         match drain (Logger data' ts' (l_out l1) (l_bw l1) (l_last_unix l1) (l_pending l1)) w with
         | Some l2 => Some (true, Logger (l_data l2) (l_ts l2) (l_out l2) (l_bw l2) false (l_pending l2))
         | None => None
         end
       | None => None
       end
     end
   end) = Some (b, l') ->
  exists k t' d', b = true /\ recorded (l_ts l1) (l_data l1) t d = Some (t', d') /\
    inv n l' (ks ++ [k]) /\ toks_items (l_ts l1) (l_data l1) [k] = [IRead t' d'] /\
    vof l' = (Some t', Some d', false, l_pending l1).
Proof.
  intros [Em St] H. destruct (factory_push (td S) (l_ts l1) t) as [[et ts']|] eqn:FT; [|discriminate].
  assert (KEY : forall k data', (match k with KEnd _ => False | _ => True end) ->
    match put (l_bw l1) (tok_bits k) with
    | Some w => match drain (Logger data' ts' (l_out l1) (l_bw l1) (l_last_unix l1) (l_pending l1)) w with
                | Some l2 => Some (true, Logger (l_data l2) (l_ts l2) (l_out l2) (l_bw l2) false (l_pending l2))
                | None => None end
    | None => None end = Some (b, l') ->
    b = true /\ emitted n l' (ks ++ [k]) /\ vof l' = (ts', data', false, l_pending l1)).
  { intros k data' Hk HH. destruct (put (l_bw l1) (tok_bits k)) as [w|] eqn:P; [|discriminate].
    destruct (drain (Logger data' ts' (l_out l1) (l_bw l1) (l_last_unix l1) (l_pending l1)) w) as [l2|] eqn:Dr; [|discriminate].
    assert (Em2 : emitted n (Logger data' ts' (l_out l1) (l_bw l1) (l_last_unix l1) (l_pending l1)) ks) by exact Em.
    destruct (emit_drain n _ ks k w l2 Em2 Hk P Dr) as (Em' & D1 & T1 & L1 & P1 & _).
    assert (b = true /\ l' = Logger (l_data l2) (l_ts l2) (l_out l2) (l_bw l2) false (l_pending l2)) as [-> ->] by (split; congruence).
    split; [reflexivity|]. split; [exact Em'|]. unfold vof. cbn [l_data l_ts l_pending l_last_unix] in *. rewrite D1, T1, P1. reflexivity. }
  unfold recorded. rewrite FT. destruct et as [t'|tx].
  - apply factory_full in FT. destruct FT as [-> ->].
    destruct (KEY (KFull t d) (Some d) I H) as (-> & Em' & V).
    exists (KFull t d), t, d. split; [reflexivity|]. split; [reflexivity|]. split.
    + split; [exact Em'|]. rewrite toks_state_app, St. cbn [toks_state tok_item]. unfold vof in V. congruence.
    + split; [reflexivity|exact V].
  - apply factory_undelta in FT. destruct FT as [UT [t' ET]]. subst ts'.
    destruct (factory_push (dd S) (l_data l1) d) as [[[d0|x] data']|] eqn:FD; [| |discriminate].
    + apply factory_full in FD. destruct FD as [-> ->]. destruct (KEY (KDF tx d) (Some d) I H) as (-> & Em' & V).
      exists (KDF tx d), t', d. split; [reflexivity|]. split; [rewrite ET; reflexivity|]. split.
      * split; [exact Em'|]. rewrite toks_state_app, St. cbn [toks_state tok_item]. unfold vof in V. congruence.
      * split; [cbn [toks_items tok_item]; rewrite ET; reflexivity | rewrite ET in V; exact V].
    + apply factory_undelta in FD. destruct FD as [UD [d' ED]]. subst data'. destruct (KEY (KDD tx x) _ I H) as (-> & Em' & V).
      exists (KDD tx x), t', d'. split; [reflexivity|]. split; [rewrite ET, ED; reflexivity|]. split.
      * split; [exact Em'|]. rewrite toks_state_app, St. cbn [toks_state tok_item]. unfold vof in V. congruence.
      * split; [cbn [toks_items tok_item]; rewrite ET, ED; reflexivity | rewrite ET, ED in V; exact V].
Qed.

Lemma step_log n l t d ks b l' : inv n l ks -> log l t d = Some (b, l') ->
  exists ks', inv n l' (ks ++ ks') /\ vstep (vof l) (CLog t d) = Some (toks_items (l_ts l) (l_data l) ks', if b then [(t, d)] else [], vof l').
Proof.
  intros Iv H. unfold log in H. cbn [vstep]. unfold vof at 1.
  destruct (match l_ts l with Some lt => too_close S t lt | None => false end) eqn:TC.
  { assert (b = false /\ l' = l) as [-> ->] by (split; congruence). exists []. rewrite app_nil_r. split; [exact Iv|].
    unfold vof. reflexivity. }
  cbv zeta in H. destruct (l_pending l) as [u|] eqn:Pe.
  - set (l0 := Logger (l_data l) (l_ts l) (l_out l) (l_bw l) (l_last_unix l) None) in *.
    destruct (log_unix l0 u) as [l1|] eqn:LU; [|discriminate].
    assert (Iv0 : inv n l0 ks) by exact Iv.
    destruct (log_unix_spec n l0 u ks l1 Iv0 LU) as (ks1 & Iv1 & VU).
    assert (V0 : vof l0 = (l_ts l, l_data l, l_last_unix l, None)) by reflexivity. rewrite V0 in VU. rewrite <- VU.
    destruct (log_body n l1 t d (ks ++ ks1) b l' Iv1 H) as (k & t' & d' & -> & R & Iv2 & TI & V).
    assert (TS1 : l_ts l1 = l_ts l /\ l_data l1 = l_data l).
    { unfold vunix in VU. destruct (l_last_unix l); unfold vof in VU; injection VU as _ A1 A2; split; assumption. }
    destruct TS1 as [TS1 DS1]. unfold vof at 1. rewrite <- TS1, <- DS1, R.
    exists (ks1 ++ [k]). rewrite app_assoc. split; [exact Iv2|].
    f_equal. f_equal; [f_equal|].
    + rewrite toks_items_app. change (l_ts l0) with (l_ts l). change (l_data l0) with (l_data l). rewrite <- TS1, <- DS1. f_equal.
      assert (SS : toks_state (l_ts l1) (l_data l1) ks1 = (l_ts l1, l_data l1)).
      { destruct Iv as [_ St]. destruct Iv1 as [_ St1]. rewrite toks_state_app, St in St1. rewrite <- TS1, <- DS1 in St1. exact St1. }
      rewrite SS. symmetry. exact TI.
    + symmetry. exact V.
  - destruct (log_body n l t d ks b l' Iv H) as (k & t' & d' & -> & R & Iv2 & TI & V).
    exists [k]. split; [exact Iv2|]. rewrite TI, V. unfold vof. rewrite R, Pe. reflexivity.
Qed.

Lemma run_spec n : forall cs l ks acc lf, inv n l ks -> run l cs = Some (acc, lf) ->
  exists ks', inv n lf (ks ++ ks') /\ vrun (vof l) cs = Some (toks_items (l_ts l) (l_data l) ks', acc, vof lf).
Proof.
  induction cs as [|c cs IH]; intros l ks acc lf Iv H.
  - cbn [run] in H. assert (acc = [] /\ lf = l) as [-> ->] by (split; congruence). exists []. rewrite app_nil_r. split; [exact Iv|reflexivity].
  - assert (STEP : forall l' ks1 a acc', inv n l' (ks ++ ks1) -> vstep (vof l) c = Some (toks_items (l_ts l) (l_data l) ks1, a, vof l') ->
      run l' cs = Some (acc', lf) -> acc = a ++ acc' ->
      exists ks', inv n lf (ks ++ ks') /\ vrun (vof l) (c :: cs) = Some (toks_items (l_ts l) (l_data l) ks', acc, vof lf)).
    { intros l' ks1 a acc' Iv' VS HR ->. destruct (IH l' (ks ++ ks1) acc' lf Iv' HR) as (ks2 & Iv2 & VR).
      exists (ks1 ++ ks2). rewrite app_assoc. split; [exact Iv2|]. cbn [vrun]. rewrite VS, VR, toks_items_app.
      assert (SS : toks_state (l_ts l) (l_data l) ks1 = (l_ts l', l_data l')).
      { destruct Iv as [_ St]. destruct Iv' as [_ St']. rewrite toks_state_app, St in St'. exact St'. }
      rewrite SS. reflexivity. }
    destruct c as [t d|u|].
    + cbn [run] in H. destruct (log l t d) as [[b l']|] eqn:E; [|discriminate]. destruct (run l' cs) as [[acc' lf']|] eqn:ER; [|discriminate].
      assert (acc = (if b then [(t, d)] else []) ++ acc' /\ lf = lf') as [Ha ->] by (destruct b; cbn [app]; split; congruence).
      destruct (step_log n l t d ks b l' Iv E) as (ks1 & Iv1 & VS). apply (STEP l' ks1 _ acc' Iv1 VS ER Ha).
    + cbn [run] in H. destruct (log_unix l u) as [l'|] eqn:E; [|discriminate].
      destruct (log_unix_spec n l u ks l' Iv E) as (ks1 & Iv1 & VU).
      apply (STEP l' ks1 [] acc Iv1); [|exact H|reflexivity]. cbn [vstep]. rewrite <- VU. reflexivity.
    + cbn [run] in H. destruct (flush l) as [l'|] eqn:E; [|discriminate].
      destruct Iv as [Em St]. destruct (emit_end n l ks l' Em E) as (pad & Em' & _ & D1 & T1 & L1 & P1 & _).
      apply (STEP l' [KEnd pad] [] acc); [|  |exact H|reflexivity].
      * split; [exact Em'|]. rewrite toks_state_app, St. cbn [toks_state tok_item]. congruence.
      * cbn [vstep toks_items tok_item]. unfold vof. rewrite D1, T1, L1, P1. reflexivity.
Qed.

Lemma run_app : forall a b l, run l (a ++ b) = match run l a with
  | Some (x, l') => match run l' b with Some (y, lf) => Some (x ++ y, lf) | None => None end | None => None end.
Proof.
  induction a as [|c a IH]; intros b l.
  - cbn [app run]. destruct (run l b) as [[y lf]|]; reflexivity.
  - cbn [app]. destruct c as [t d|u|]; cbn [run].
    + destruct (log l t d) as [[bb l']|]; [|reflexivity]. rewrite IH. destruct (run l' a) as [[x l2]|]; [|reflexivity].
      destruct (run l2 b) as [[y lf]|]; [|reflexivity]. destruct bb; reflexivity.
    + destruct (log_unix l u) as [l'|]; [|reflexivity]. apply IH.
    + destruct (flush l) as [l'|]; [|reflexivity]. apply IH.
Qed.

Lemma inv_new n : inv n (l_new n) [].
Proof. split; [|reflexivity]. split; [apply bw_new_ok|]. split; [reflexivity|exact I]. Qed.

(** Flushed logs decode to exactly what the value-level semantics says. *)
Theorem decode_flushed chunk n m cs acc lf : good_setup -> reader_fits m ->
  run (l_new n) (cs ++ [CFlush]) = Some (acc, lf) ->
  exists items sf, vrun (None, None, false, None) cs = Some (items, acc, sf) /\ decode chunk m (l_out lf) = Some items.
Proof.
  intros G F R. rewrite run_app in R. destruct (run (l_new n) cs) as [[a l1]|] eqn:R1; [|discriminate].
  cbn [run] in R. destruct (flush l1) as [l2|] eqn:Fl; [|discriminate].
  assert (acc = a /\ lf = l2) as [-> ->] by (split; [rewrite app_nil_r in R; congruence | congruence]).
  destruct (run_spec n cs (l_new n) [] a l1 (inv_new n) R1) as (ks & Iv & VR). cbn [app] in Iv.
  destruct Iv as [Em St]. destruct (emit_end n l1 ks l2 Em Fl) as (pad & (K & B & A) & BN & _).
  exists (toks_items None None ks), (vof l1). split; [exact VR|].
  rewrite (decode_spec chunk m (l_out l2) F). f_equal. rewrite BN, app_nil_r in B. rewrite B.
  rewrite (pdecode_toks G (ks ++ [KEnd pad]) _ None None 0 A).
  - rewrite toks_items_app, St. cbn [toks_items tok_item]. apply app_nil_r.
  - cbn [Nat.add]. rewrite <- B, bits_of_bytes_length, Nat.mul_comm. apply Nat.mod_mul. lia.
  - rewrite <- B, bits_of_bytes_length. lia.
Qed.

(** Truncated files decode to a prefix. *)
Theorem decode_truncated chunk chunk' m bytes k : reader_fits m ->
  exists a b, decode chunk m bytes = Some (a ++ b) /\ decode chunk' m (firstn k bytes) = Some a.
Proof.
  intros F. rewrite !(decode_spec _ m) by exact F.
  set (pre := firstn k bytes). set (suf := skipn k bytes).
  assert (E : bytes = pre ++ suf) by (symmetry; apply firstn_skipn).
  destruct (pdecode_prefix (bits_of_bytes suf)) with (fuel := Datatypes.S (8 * length bytes)) (ts := @None T) (d := @None D) (a := bits_of_bytes pre) as [more M].
  - rewrite bits_of_bytes_length, Nat.mul_comm. apply Nat.mod_mul. lia.
  - rewrite !bits_of_bytes_length. rewrite E, app_length. lia.
  - exists (pdecode (Datatypes.S (8 * length pre)) None None (bits_of_bytes pre)), more. split; [|reflexivity].
    f_equal. rewrite E at 2. rewrite bits_app, M. f_equal. apply pdecode_fuel; rewrite bits_of_bytes_length; [|lia].
    rewrite E, app_length. lia.
Qed.

End Logger.

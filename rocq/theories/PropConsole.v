(** * C51, C52, C53, C72: the serial console *)
From Verif Require Import Base Flash FS Sectors ATable FileIO FileFormat FsSpec FsApi FsRefine FsBoot FsHistory PropDirectory PropFiles FsExec FsExamples Console.
From Verif Require VLP.
Local Open Scope N_scope.

Section Server.
Context {H : Type}.
Variable size : N -> option nat.
Variable handler : N -> list byte -> H -> H * list byte.
Notation serve := (serve size handler).
Notation serve1 := (serve1 size handler).
Variable max : nat.
(** no request is longer than [max]; 255 is not the id of an rpc (vl_rpc.rs uses 0..11) *)
Hypothesis size_max : forall id k, size id = Some k -> (k <= max)%nat.
Hypothesis no_255 : size 255 = None.

Lemma serve_app s a b : serve s (a ++ b) = serve (serve s a) b.
Proof. apply fold_left_app. Qed.
Lemma serve_cons s i l : serve s (i :: l) = serve (serve1 s i) l.
Proof. reflexivity. Qed.
Lemma serve_nil s : serve s [] = s.
Proof. reflexivity. Qed.

(** how many more bytes the server will take before it is back at a command boundary *)
Definition pending (s : server H) : nat :=
  match st s with
  | AtCommand => 0
  | InRequest id got => match size id with Some k => S k - length got | None => 0 end
  end.
Definition wf (s : server H) : Prop :=
  match st s with
  | AtCommand => True
  | InRequest id got => exists k, size id = Some k /\ (length got <= k)%nat
  end.

Lemma wf_step s i : wf s -> wf (serve1 s i).
Proof.
  destruct s as [q h c o]. unfold wf, serve1. cbn [st hs calls sent]. destruct i as [b|]; [|cbn; auto].
  destruct q as [|id got].
  - intros _. destruct (size b) as [k|] eqn:E; cbn; [exists k; split; [exact E|cbn; lia]|]. destruct (b =? 255); cbn; auto.
  - intros (k & E & L). rewrite E. destruct (Nat.leb_spec (length (got ++ [b])) k); cbn; [exists k; auto|].
    destruct (crc8 (id :: firstn k (got ++ [b])) =? b); cbn; [|auto]. destruct (handler id (firstn k (got ++ [b])) h); cbn; auto.
Qed.

Lemma wf_serve l : forall s, wf s -> wf (serve s l).
Proof. induction l as [|i l IH]; intros s W; [exact W|]. apply IH. now apply wf_step. Qed.

Lemma pending_bound s : wf s -> (pending s <= max + 1)%nat.
Proof.
  unfold wf, pending. destruct (st s) as [|id got]; [lia|]. intros (k & E & L). rewrite E. specialize (size_max id k E). lia.
Qed.

Lemma pending_255 s : wf s -> pending (serve1 s (Byte 255)) = pred (pending s).
Proof.
  destruct s as [q h c o]. unfold wf, pending, serve1. cbn [st hs calls sent]. destruct q as [|id got].
  - intros _. rewrite no_255. reflexivity.
  - intros (k & E & L). rewrite E. rewrite app_length. cbn [length].
    destruct (Nat.leb_spec (length got + 1) k).
    + cbn [st]. rewrite E, app_length. cbn [length]. lia.
    + destruct (crc8 (id :: firstn k (got ++ [255])) =? 255); [destruct (handler id (firstn k (got ++ [255])) h)|]; cbn [st]; lia.
Qed.

Lemma boundary s : wf s -> pending s = 0%nat -> st s = AtCommand.
Proof. unfold wf, pending. destruct (st s) as [|id got]; [auto|]. intros (k & E & L). rewrite E. lia. Qed.

Lemma flush_works n : forall s, wf s -> (pending s <= n)%nat -> st (serve s (repeat (Byte 255) n)) = AtCommand.
Proof.
  induction n as [|n IH]; intros s W P; [apply boundary; [exact W|cbn; lia]|].
  cbn [repeat]. change (serve s (Byte 255 :: repeat (Byte 255) n)) with (serve (serve1 s (Byte 255)) (repeat (Byte 255) n)).
  apply IH; [now apply wf_step|]. rewrite pending_255 by exact W. lia.
Qed.

(** C51.  Whatever was sent before, after the client's flush bytes (its constant being at least the longest request)
    the server waits for a command, and the reset command is answered with exactly FF 69 and has no other
    effect. *)
Theorem C51_resynchronises h0 garbage m : (max <= m)%nat ->
  let s := serve (server_new h0) (garbage ++ flush_bytes m) in
  st s = AtCommand /\
  let s' := serve s [Byte 255] in
  st s' = AtCommand /\ sent s' = sent s ++ [[255; 105]] /\ hs s' = hs s /\ calls s' = calls s.
Proof.
  intros Hn s.
  assert (W : wf (serve (server_new h0) garbage)) by (apply wf_serve; exact I).
  assert (E : st s = AtCommand).
  { unfold s, flush_bytes. rewrite serve_app. apply flush_works; [exact W|]. pose proof (pending_bound _ W). lia. }
  split; [exact E|]. cbn [fold_left]. unfold Console.serve. cbn [fold_left]. unfold Console.serve1.
  rewrite E, no_255. cbn. auto.
Qed.

(** ** C52 *)
Lemma serve_body id k : size id = Some k -> forall l h c o got, (length got + length l <= k)%nat ->
  serve (Server (InRequest id got) h c o) (map Byte l) = Server (InRequest id (got ++ l)) h c o.
Proof.
  intros E. induction l as [|b l IH]; intros h c o got L; [cbn; now rewrite app_nil_r|].
  cbn [map]. rewrite serve_cons. unfold Console.serve1. cbn [st hs calls sent]. rewrite E.
  cbn [length] in L. destruct (Nat.leb_spec (length (got ++ [b])) k) as [_|B]; [|rewrite app_length in B; cbn in B; lia].
  rewrite IH by (rewrite app_length; cbn; lia). now rewrite <- app_assoc.
Qed.

Lemma serve_frame id k args c h cs o : size id = Some k -> length args = k ->
  serve (Server AtCommand h cs o) (map Byte (id :: args ++ [c]))
  = if crc8 (id :: args) =? c
    then Server AtCommand (fst (handler id args h)) (cs ++ [(id, args)]) (o ++ [snd (handler id args h) ++ [crc8 (snd (handler id args h))]])
    else Server AtCommand h cs o.
Proof.
  intros E L. cbn [map]. rewrite serve_cons. unfold Console.serve1. cbn [st]. rewrite E. cbn [hs calls sent].
  rewrite map_app, serve_app. rewrite (serve_body id k E) by (cbn; lia).
  cbn [app map]. rewrite serve_cons, serve_nil. unfold Console.serve1. cbn [st hs calls sent]. rewrite E, app_length. cbn [length].
  destruct (Nat.leb_spec (length args + 1) k); [lia|].
  rewrite firstn_app, L, Nat.sub_diag. cbn [firstn]. rewrite app_nil_r, firstn_all2 by lia.
  destruct (crc8 (id :: args) =? c); [|reflexivity]. destruct (handler id args h); reflexivity.
Qed.

(** A frame arriving at a command boundary, with any checksum byte: a wrong checksum changes nothing and
    sends nothing; a right one runs that handler once on exactly the transmitted argument bytes and sends
    its response followed by the response's checksum.  Either way the server is at a boundary again. *)
Theorem C52_request id k args c s : size id = Some k -> length args = k -> st s = AtCommand ->
  let s' := serve s (map Byte (id :: args ++ [c])) in
  st s' = AtCommand /\
  (c <> crc8 (id :: args) -> hs s' = hs s /\ calls s' = calls s /\ sent s' = sent s) /\
  (c = crc8 (id :: args) ->
     let (h, r) := handler id args (hs s) in
     hs s' = h /\ calls s' = calls s ++ [(id, args)] /\ sent s' = sent s ++ [r ++ [crc8 r]]).
Proof.
  intros E L B. destruct s as [q h cs o]. cbn in B. subst q. cbn zeta. rewrite (serve_frame id k) by assumption.
  destruct (N.eqb_spec (crc8 (id :: args)) c) as [Q|Q].
  - split; [reflexivity|]. split; [congruence|]. intros _. cbn [hs calls sent]. destruct (handler id args h); cbn. auto.
  - split; [reflexivity|]. split; [auto|congruence].
Qed.

(** And there is no other way: on any input whatever, each handler run is one whose frame, with matching
    checksum, is a contiguous part of the received bytes (no end-of-file report inside). *)
Theorem C52_only_checked_requests_run h0 l id args :
  In (id, args) (calls (serve (server_new h0) l)) ->
  exists pre post, l = pre ++ map Byte (id :: args ++ [crc8 (id :: args)]) ++ post.
Proof.
  revert id args.
  enough (forall l, let s := serve (server_new h0) l in
    (forall id args, In (id, args) (calls s) -> exists pre post, l = pre ++ map Byte (id :: args ++ [crc8 (id :: args)]) ++ post) /\
    match st s with AtCommand => True | InRequest id got => exists pre k, size id = Some k /\ (length got <= k)%nat /\ l = pre ++ map Byte (id :: got) end) as Q
    by (intros id args; apply (Q l)).
  clear l. intros l. induction l as [|i l IH] using rev_ind; [cbn; split; [intros ? ? []|exact I]|].
  cbn zeta in *. rewrite serve_app. destruct IH as [IH1 IH2]. destruct (serve (server_new h0) l) as [q h c o] eqn:Es.
  cbn [st calls] in *. unfold Console.serve. cbn [fold_left].
  assert (K : forall id args, In (id, args) c -> exists pre post, l ++ [i] = pre ++ map Byte (id :: args ++ [crc8 (id :: args)]) ++ post).
  { intros id args Hin. destruct (IH1 id args Hin) as (pre & post & ->). exists pre, (post ++ [i]). now rewrite <- !app_assoc. }
  unfold Console.serve1. cbn [st hs calls sent]. destruct i as [b|]; [|cbn; auto]. destruct q as [|id got].
  - destruct (size b) as [k|] eqn:E; cbn [calls st].
    + split; [exact K|]. exists l, k. cbn. repeat split; [exact E|lia].
    + destruct (b =? 255); cbn; auto.
  - destruct IH2 as (pre & k & E & L & El). rewrite E.
    destruct (Nat.leb_spec (length (got ++ [b])) k) as [L2|L2].
    + cbn. split; [exact K|]. exists pre, k. repeat split; [exact E|exact L2|]. rewrite El, <- app_assoc. cbn. now rewrite map_app.
    + rewrite app_length in L2. cbn in L2. assert (Lk : length got = k) by lia.
      rewrite firstn_app, Lk, Nat.sub_diag. cbn [firstn]. rewrite app_nil_r, firstn_all2 by lia.
      destruct (N.eqb_spec (crc8 (id :: got)) b) as [Eb|Eb]; [|cbn; auto].
      destruct (handler id got h) as [h2 r]. cbn. split; [|exact I]. intros id2 args2 Hin. apply in_app_or in Hin.
      destruct Hin as [Hin|[Hin|[]]]; [now apply K|]. injection Hin as <- <-. exists pre, [].
      rewrite app_nil_r, El, <- app_assoc. cbn. rewrite map_app. cbn. now rewrite Eb.
Qed.

(** ** C72: a call over an idle link *)
(** The client writes its request, the server handles it, the client reads [n] bytes of response. *)
Theorem C72_call_returns_the_response id k args s n : size id = Some k -> length args = k -> st s = AtCommand ->
  length (snd (handler id args (hs s))) = n ->
  exists s' frame, serve s (map Byte (request id args)) = s' /\ sent s' = sent s ++ [frame] /\
    take_response n frame = (Some (snd (handler id args (hs s))), []) /\
    hs s' = fst (handler id args (hs s)) /\ calls s' = calls s ++ [(id, args)] /\ st s' = AtCommand.
Proof.
  intros E L B Hn. eexists. exists (snd (handler id args (hs s)) ++ [crc8 (snd (handler id args (hs s)))]).
  split; [reflexivity|]. destruct s as [q h cs o]. cbn in B. subst q. cbn [hs calls sent] in *. unfold request.
  rewrite (serve_frame id k) by assumption. rewrite N.eqb_refl. cbn [st hs calls sent].
  split; [reflexivity|]. split; [|auto]. unfold take_response. rewrite app_length, Hn. cbn [length].
  destruct (Nat.leb_spec (S n) (n + 1)); [|lia].
  rewrite firstn_app, Hn, Nat.sub_diag, firstn_all2 by lia. cbn [firstn]. rewrite app_nil_r.
  rewrite app_nth2 by lia. rewrite Hn, Nat.sub_diag. cbn [nth]. rewrite N.eqb_refl.
  rewrite skipn_all2 by (rewrite app_length; cbn; lia). reflexivity.
Qed.

(** A response whose checksum does not match is never returned. *)
Theorem C72_bad_response_rejected n link r rest : take_response n link = (Some r, rest) ->
  exists c, link = r ++ c :: rest /\ length r = n /\ c = crc8 r.
Proof.
  unfold take_response. destruct (Nat.leb_spec (S n) (length link)); [|discriminate].
  destruct (N.eqb_spec (crc8 (firstn n link)) (nth n link 0)) as [E|E]; [|discriminate]. intros Q. injection Q as <- <-.
  exists (nth n link 0). rewrite firstn_length. split; [|split; [lia|now rewrite E]].
  rewrite <- (firstn_skipn n link) at 1. f_equal. clear E. revert n H0. induction link as [|x l IH]; intros n Hl; [cbn in Hl; lia|].
  destruct n as [|n]; [reflexivity|]. cbn. rewrite IH by (cbn in Hl; lia). destruct l; reflexivity.
Qed.
End Server.

(** *** Concrete cases *)
(** two rpcs: 0 without arguments, 2 with one byte, which is stored and answered *)
Definition demo_size (id : N) : option nat := if id =? 0 then Some 0%nat else if id =? 2 then Some 1%nat else None.
Definition demo_handler (id : N) (args : list byte) (h : N) : N * list byte :=
  if id =? 2 then (nth 0 args 0, [nth 0 args 0]) else (h, [h]).
Lemma demo_max id k : demo_size id = Some k -> (k <= 1)%nat.
Proof. unfold demo_size. destruct (id =? 0); [intros E; injection E; lia|]. destruct (id =? 2); [intros E; injection E; lia|discriminate]. Qed.

(** garbage ending inside a request, then a reset, then two calls *)
Example C51_example :
  let s := serve demo_size demo_handler (server_new 7)
             (map Byte [9; 2] ++ repeat (Byte 255) 2 ++ map Byte (request 2 [5] ++ request 0 [])) in
  st s = AtCommand /\ calls s = [(2, [5]); (0, [])] /\ sent s = [[5; crc8 [5]]; [5; crc8 [5]]].
Proof. vm_compute. auto. Qed.

(** One byte less is not enough: the last flush byte is swallowed as the checksum of the open request. *)
Example C51_flush_too_short :
  st (serve demo_size demo_handler (server_new 7) (map Byte [2] ++ repeat (Byte 255) 1)) <> AtCommand.
Proof. vm_compute. discriminate. Qed.

(** Resynchronising can itself complete the interrupted request: when its checksum happens to be FF, the
    first flush byte runs the handler. *)
Theorem C51_flush_may_run_the_interrupted_request :
  exists args, crc8 (2 :: args) = 255 /\
  calls (serve demo_size demo_handler (server_new 7) (map Byte (2 :: args) ++ repeat (Byte 255) 2)) = [(2, args)].
Proof. exists [70]. vm_compute. auto. Qed.

(** Timeouts are not covered by C72: a response that arrives after the client has given up is taken for the
    response to the next call of the same size. *)
Theorem C72_refuted_after_timeout :
  let s1 := serve demo_size demo_handler (server_new 7) (map Byte (request 2 [5])) in
  let s2 := serve demo_size demo_handler s1 (map Byte (request 2 [6])) in
  (* call 1 timed out with nothing read; call 2 *)
  fst (take_response 1 (concat (sent s2))) = Some [5].
Proof. vm_compute. auto. Qed.

(** ** C53 *)
Lemma chunk_pos : (0 < CHUNK)%nat.
Proof. unfold CHUNK. lia. Qed.
Opaque CHUNK.
Definition reads_as crc (f : flash) (r : reader) (rest : list byte) : Prop :=
  forall k, read_many crc f r (repeat CHUNK k) = Ok (expect rest (repeat CHUNK k)).

Lemma reads_as_step crc f r rest : reads_as crc f r rest ->
  exists r', read_slice crc f r CHUNK = Ok (r', firstn CHUNK rest, if Nat.leb CHUNK (length rest) then StOk else StEnd) /\ reads_as crc f r' (skipn CHUNK rest).
Proof.
  intros R. pose proof (R 1%nat) as R1. cbn [repeat read_many expect] in R1.
  destruct (read_slice crc f r CHUNK) as [[[r' d] st]| |] eqn:E; try discriminate.
  injection R1 as Ed Est. exists r'. rewrite Ed, Est. split; [reflexivity|].
  intros k. pose proof (R (S k)) as Rk. cbn [repeat read_many expect] in Rk. rewrite E in Rk.
  destruct (read_many crc f r' (repeat CHUNK k)) as [l| |]; try discriminate. injection Rk as _ _ <-. reflexivity.
Qed.

Lemma pull_loop_spec crc : forall fuel s id r rest acc, reads_as crc (fl s) r rest -> (length rest + CHUNK - 1 < CHUNK * fuel)%nat ->
  exists r', pull_loop crc fuel (Con s (Some (id, r))) acc = Some (Con s (Some (id, r')), acc ++ rest).
Proof.
  induction fuel as [|fuel IH]; intros s id r rest acc R L; [pose proof chunk_pos; lia|].
  destruct (reads_as_step crc _ _ _ R) as (r' & E & R'). cbn [pull_loop]. unfold con_read. cbn [crd cfs]. rewrite E.
  destruct rest as [|b rest].
  - rewrite firstn_nil. exists r'. now rewrite app_nil_r.
  - remember (b :: rest) as l eqn:El. assert (Hf : exists x t, firstn CHUNK l = x :: t).
    { pose proof chunk_pos. destruct CHUNK as [|c]; [lia|]. rewrite El. cbn [firstn]. eauto. }
    destruct Hf as (x & t & Hf). rewrite Hf.
    destruct (Nat.eq_dec fuel 0) as [->|Hz].
    + exfalso. rewrite El in L. cbn [length] in L. lia.
    + destruct (IH s id r' (skipn CHUNK l) (acc ++ x :: t) R') as (r2 & E2); [rewrite skipn_length; pose proof chunk_pos; nia|].
      exists r2. rewrite E2. f_equal. f_equal. rewrite <- Hf, <- app_assoc, firstn_skipn. reflexivity.
Qed.

Lemma find_same id s s' r : find_file_entry id s = (s', Ok r) -> s' = s.
Proof.
  unfold find_file_entry. rewrite bind_get. destruct (a_count (atb s) =? 0); [intros E; now injection E|].
  unfold liftM. intros E. now injection E.
Qed.

Lemma open_effect id s s' r : open_file_for_read id s = (s', Ok r) ->
  fl s' = fl s /\ sm s' = sm s /\ a_open (atb s') = a_open (atb s) ++ [id].
Proof.
  unfold open_file_for_read. intros E. apply bind_inv in E. destruct E as (s1 & o & E1 & E). apply find_same in E1. subst s1.
  destruct o as [[e i]|]; [|discriminate]. apply bind_inv in E. destruct E as (s2 & b & E2 & E). unfold is_file_opened in E2. rewrite bind_get in E2. injection E2 as <- _.
  destruct b; [discriminate|]. apply bind_inv in E. destruct E as (s3 & u & E3 & E). unfold mark_file_opened in E3. rewrite bind_get in E3.
  destruct (Nat.leb 32 (length (a_open (atb s)))); [discriminate|]. injection E3 as <- _. injection E as <- _. cbn. auto.
Qed.

Lemma close_last id s l : a_open (atb s) = l ++ [id] -> existsb (fun x => x =? id) l = false ->
  exists s', mark_file_closed id s = (s', Ok tt) /\ fl s' = fl s /\ sm s' = sm s /\ a_open (atb s') = l.
Proof.
  intros E N. unfold mark_file_closed. rewrite bind_get, E.
  assert (F : find_index id (l ++ [id]) = Some (length l)).
  { clear E. induction l as [|x l IH]; cbn; [now rewrite N.eqb_refl|]. cbn in N. apply orb_false_iff in N. destruct N as [-> N]. now rewrite IH. }
  rewrite F. eexists. split; [reflexivity|]. cbn. split; [reflexivity|]. split; [reflexivity|]. unfold swap_remove. rewrite last_last.
  assert (U : upd (l ++ [id]) (length l) id = l ++ [id]) by (clear; induction l as [|x l IH]; cbn; [reflexivity|now rewrite IH]).
  now rewrite U, removelast_last.
Qed.

(** C53.  In any state reachable by any history of calls and power losses, pulling a file that is not in
    use writes to the host exactly the bytes the file holds, whatever their number, changes nothing on the
    flash, and leaves the same files open as before. *)
Theorem C53_pull_reproduces_the_file : forall crc, crc32 crc -> forall es y id d r F fuel, history crc es (On y) ->
  snapshot crc (fl (sfs y)) r = Some F -> content F id = Some d ->
  is_opened (atb (sfs y)) id = false -> (length (a_open (atb (sfs y))) < 32)%nat ->
  (length d + CHUNK - 1 < CHUNK * fuel)%nat ->
  exists s', pull_file crc fuel id (Con (sfs y) None) = Some (Con s' None, d) /\
             fl s' = fl (sfs y) /\ sm s' = sm (sfs y) /\ a_open (atb s') = a_open (atb (sfs y)).
Proof.
  intros crc Hc es y id d r F fuel Hh Hsn Hct Hop Hlen Hf.
  destruct (running crc es y Hc Hh) as (v & _ & R).
  rewrite (repr_snapshot crc y v r R) in Hsn. injection Hsn as <-.
  destruct (can_read crc y v id d R Hct) as (s1 & rd & E1 & Rd).
  { rewrite (marked_now crc y v id R). exact Hop. }
  { destruct R as [_ _ Hp _]. rewrite <- (Permutation.Permutation_length Hp). exact Hlen. }
  destruct (open_effect id _ _ _ E1) as (Ef & Em & Eo).
  unfold pull_file, con_open. cbn [cfs crd]. rewrite E1.
  destruct (pull_loop_spec crc fuel s1 id rd d []) as (r2 & E2).
  { intros k. apply Rd. }
  { exact Hf. }
  rewrite E2. unfold con_close. cbn [cfs crd app].
  destruct (close_last id s1 _ Eo Hop) as (s2 & E3 & Ef3 & Em3 & Eo3). rewrite E3.
  exists s2. rewrite Ef3, Em3, Ef, Em. auto.
Qed.
Print Assumptions C53_pull_reproduces_the_file.

(** The console cannot reopen the file it is reading (for example after an interrupted pull): the status
    is the generic error. *)
Theorem C53_reopen_same_file_fails : forall id s r, is_opened (atb s) id = true ->
  forall e i, find_file_entry id s = (s, Ok (Some (e, i))) -> e_id e = id ->
  con_open id (Con s (Some (id, r))) = Some (Con s (Some (id, r)), OpenError).
Proof.
  intros id s r Ho e i E1 Ee. unfold con_open. cbn [cfs crd]. unfold open_file_for_read. rewrite (bind_ok _ _ _ _ _ E1).
  unfold is_file_opened. rewrite bind_assoc, bind_get, bind_ret, Ee, Ho. reflexivity.
Qed.

(** Opening another file while one is being read: the file read before is no longer in use afterwards, the new one
    is, and every other file is as before; the flash is not touched. *)
Theorem C53_open_other_closes_old : forall id s old r c', In old (a_open (atb s)) ->
  con_open id (Con s (Some (old, r))) = Some (c', Sucess) ->
  fl (cfs c') = fl s /\ (exists r', crd c' = Some (id, r')) /\
  Permutation.Permutation (old :: a_open (atb (cfs c'))) (id :: a_open (atb s)).
Proof.
  intros id s old r c' Hin E. unfold con_open in E. cbn [cfs crd] in E.
  destruct (open_file_for_read id s) as [s1 [r1|e|]] eqn:E1; [|destruct e; discriminate|discriminate].
  destruct (open_effect id _ _ _ E1) as (Ef & Em & Eo).
  unfold mark_file_closed in E. rewrite bind_get in E.
  destruct (find_index old (a_open (atb s1))) as [k|] eqn:Ek.
  2:{ exfalso. apply (find_index_none _ _ Ek). rewrite Eo. apply in_or_app. now left. }
  unfold modify in E. injection E as <-. cbn [cfs crd fl atb a_open set_at].
  split; [exact Ef|]. split; [eauto|].
  destruct (find_index_split _ _ _ Ek) as (a & b & El & <- & _). rewrite El.
  eapply Permutation.perm_trans; [apply Permutation.perm_skip, swap_remove_perm|].
  eapply Permutation.perm_trans; [apply Permutation.Permutation_middle|]. rewrite <- El, Eo.
  apply Permutation.Permutation_sym, Permutation.Permutation_cons_append.
Qed.
Print Assumptions C53_open_other_closes_old.

(** A corrupted page at the start of a chunk ends the pull as if the file ended there: the rest is
    missing and nothing is reported to the host. *)
Theorem C53_refuted_corrupted_page : forall crc s id r r' a acc fuel,
  read_slice crc (fl s) r CHUNK = Ok (r', [], StCorrupt a) ->
  pull_loop crc (S fuel) (Con s (Some (id, r))) acc = Some (Con s (Some (id, r')), acc).
Proof. intros. cbn [pull_loop]. unfold con_read. cbn [crd cfs]. rewrite H. reflexivity. Qed.

(** A concrete state that meets the hypotheses of [C53_pull_reproduces_the_file]: two files, the first one
    with five bytes, none open. *)
Example C53_example : exists es y F, history sum es (On y) /\ snapshot sum (fl (sfs y)) (fun _ => 0) = Some F /\
  content F 1 = Some [1;2;3;4;5] /\ is_opened (atb (sfs y)) 1 = false /\ (length (a_open (atb (sfs y))) < 32)%nat.
Proof.
  destruct (reach two_files (fun y => negb (is_opened (atb (sfs y)) 1) && Nat.ltb (length (a_open (atb (sfs y)))) 32 &&
     match snapshot sum (fl (sfs y)) (fun _ => 0) with Some F => same F [(1, 3, [1;2;3;4;5]); (2, 4, [])] | None => false end))
    as (es & y & Hh & H); [vm_compute; reflexivity|].
  apply andb_prop in H. destruct H as [H H3]. apply andb_prop in H. destruct H as [H1 H2].
  destruct (snapshot sum (fl (sfs y)) (fun _ => 0)) as [F|] eqn:E; [|exfalso; exact (Bool.diff_false_true H3)].
  exists es, y, F. split; [exact Hh|]. split; [exact E|]. apply same_eq in H3. rewrite H3.
  split; [reflexivity|]. split; [now apply negb_true_iff|now apply Nat.ltb_lt].
Qed.

(** * Property C136: when the flight cores report height and speed. *)
From Coq Require Import List Bool Arith Lia.
From Verif Require Import Numerics VLP FlightCore PropFlight PropBackup.
Import ListNotations.
Local Open Scope nat_scope.
Local Open Scope list_scope.

Section C136.
Context {A : numerics}.

(** the reports among published events *)
Definition reports (es : list (event A)) : list (event A) := filter (fun e => match e with ChangeAltitude _ | ChangeAirSpeed _ => true | _ => false end) es.
Definition launched (cs : list core_state) : bool := existsb (fun s => match s with PowerAscend => true | _ => false end) cs.

Lemma run_split (p : profile A) : forall l c s c' es, run p c (l ++ [s]) = Some (c', es) ->
  exists c1 es1 e, run p c l = Some (c1, es1) /\ tick p c1 s = Some (c', e) /\ es = es1 ++ [e].
Proof.
  induction l as [|x l IH]; intros c s c' es H; cbn [app run] in H.
  - destruct (tick p c s) as [[c1 e]|] eqn:T; [|discriminate]. injection H as <- <-. exists c, [], e. split; [reflexivity|]. split; [exact T|reflexivity].
  - destruct (tick p c x) as [[c1 e]|] eqn:T; [|discriminate]. destruct (run p c1 (l ++ [s])) as [[c2 es2]|] eqn:R; [|discriminate]. injection H as <- <-.
    destruct (IH _ _ _ _ R) as (c3 & es3 & e3 & R3 & T3 & ->). exists c3, (e :: es3), e3. split; [|split; [exact T3|reflexivity]].
    cbn [run]. rewrite T, R3. reflexivity.
Qed.

Lemma step_reports_nothing (p : profile A) st f s st' f' ev : fstep p st f s = Some (st', f', ev) -> reports ev = [].
Proof.
  unfold fstep. intro H. destruct st as [h acc|acc alt ts|alt ts|alt ts d|alt [d|]| | ]; cbv zeta in H.
  - destruct (_ && _); [destruct (sn_upside_down s); [discriminate|]|]; injection H as _ _ <-; destruct f; reflexivity.
  - destruct (_ && _); injection H as _ _ <-; reflexivity.
  - destruct (le32 _ _); injection H as _ _ <-; reflexivity.
  - destruct (lt32 _ _); [|destruct (_ && _)]; injection H as _ _ <-; reflexivity.
  - destruct (le64 _ _); injection H as _ _ <-; reflexivity.
  - destruct (le32 _ _); injection H as _ _ <-; reflexivity.
  - destruct (lt32 _ _); injection H as _ _ <-; reflexivity.
  - injection H as _ _ <-. reflexivity.
Qed.

(** C136. The primary core reports its height and vertical speed once in every tick after the one that detected launch, and never before. *)
Theorem C136_reports_after_launch (p : profile A) l s c es e : run p new_core (l ++ [s]) = Some (c, es ++ [e]) ->
  reports e = if launched (changes (concat es)) then [ChangeAltitude (sn_height s); ChangeAirSpeed (sn_speed s)] else [].
Proof.
  intro H. destruct (run_split p l new_core s c _ H) as (c1 & es1 & e1 & R & T & E). apply app_inj_tail in E. destruct E as [<- <-].
  destruct (published_run p l c1 es R) as [K I].
  assert (AIR : launched (changes (concat es)) = in_air (c_state c1)).
  { destruct (c_state c1) as [h acc|acc alt ts|alt ts|alt ts d|alt d| | ]; cbn [in_air].
    - destruct I as [-> _]. destruct (c_first c1); reflexivity.
    - destruct I as [-> _]. reflexivity.
    - destruct I as [-> _]. reflexivity.
    - destruct I as [-> _]. reflexivity.
    - destruct I as [-> _]. reflexivity.
    - destruct I as [-> _]. reflexivity.
    - rewrite I. reflexivity. }
  rewrite AIR. destruct (tick_inv p c1 s c e T K) as (_ & _ & [(LN & _ & _ & ->)|(_ & ev & F & ->)]).
  - (* the first tick *)
    assert (L0 : l = []).
    { destruct l as [|x l] using rev_ind; [reflexivity|]. clear IHl. destruct (run_split p l new_core x c1 es R) as (c2 & es2 & e2 & R2 & T2 & _).
      destruct (published_run p l c2 es2 R2) as [K2 _]. destruct (tick_inv p c2 x c1 e2 T2 K2) as (_ & LL & _). rewrite LN in LL. discriminate. }
    subst l. injection R as <- _. reflexivity.
  - unfold reports. rewrite filter_app. fold (reports ev). rewrite (step_reports_nothing p _ _ _ _ _ _ F), app_nil_r. destruct (in_air (c_state c1)); reflexivity.
Qed.

(** C136. The backup core reports the vertical speed with every reading, armed, flying or landed; the manual core reports nothing. *)
Theorem C136_backup_reports_speed (p : profile A) b r b' e : btick p b r = Some (b', e) -> reports e = [ChangeAirSpeed (r_speed r)].
Proof.
  unfold btick. intro H. cbv zeta in H. destruct (b_state b) as [|d| |d| |].
  - injection H as _ <-. destruct (b_first b); reflexivity.
  - destruct (lt64 _ _); injection H as _ <-; reflexivity.
  - destruct (b_pad b); [|discriminate]. destruct (lt32 _ _); injection H as _ <-; reflexivity.
  - destruct (lt64 _ _); injection H as _ <-; reflexivity.
  - destruct (lt32 _ _); injection H as _ <-; reflexivity.
  - injection H as _ <-. reflexivity.
Qed.
Theorem C136_manual_reports_nothing (p : profile A) m i : reports (snd (mstep p m i)) = [].
Proof.
  destruct i as [ts|ts], m as [|d|d|]; cbn [mstep snd]; try reflexivity.
  - destruct (le64 d ts); reflexivity.
  - destruct (le64 d ts); reflexivity.
Qed.
End C136.

(** a flight in which both cases occur *)
Theorem C136_instance : option_map (fun o => (forallb (fun e => length (reports e) =? 0) (firstn 103 (snd o)), forallb (fun e => length (reports e) =? 2) (skipn 103 (snd o)), 110 <? length (snd o)))
  (run (demo_profile exact) new_core (demo_flight exact)) = Some (true, true, true).
Proof. vm_compute. reflexivity. Qed.

Print Assumptions C136_reports_after_launch.
Print Assumptions C136_backup_reports_speed.
Print Assumptions C136_manual_reports_nothing.
Print Assumptions C136_instance.

(** * C110: a configuration written on the laptop reaches the device, works, and can be replaced. *)
From Verif Require Import Base Flash FS ATable FileFormat FsSpec FsApi FsBoot FsExamples Config Boot PropConfig PropBoot HostConfig.
From Coq Require Import Lia.
Local Open Scope N_scope.

(** ** Specification *)
Definition bw_hz (b : bandwidth) : N :=
  match b with B7 => 7810 | B10 => 10420 | B15 => 15630 | B20 => 20830 | B31 => 31250 | B41 => 41670 | B62 => 62500 | B125 => 125000 | B250 => 250000 | B500 => 500000 end.
Definition sf_value (s : spreading_factor) : N := match s with SF5 => 5 | SF6 => 6 | SF7 => 7 | SF8 => 8 | SF9 => 9 | SF10 => 10 | SF11 => 11 | SF12 => 12 end.
Definition cr_value (c : coding_rate) : N := match c with R5 => 5 | R6 => 6 | R7 => 7 | R8 => 8 end.
(** settings a LoRa radio has *)
Definition radio_settings (l : lora_config) : Prop :=
  5 <= l_sf l <= 12 /\ 5 <= l_cr l <= 8 /\ In (l_bw l) [7810; 10420; 15630; 20830; 31250; 41670; 62500; 125000; 250000; 500000].
(** bytes that continue a character *)
Definition continuation (b : byte) : Prop := 128 <= b < 192.
(** [k] is between two characters of [s] *)
Definition boundary (s : list byte) (k : nat) : Prop := (length s <= k)%nat \/ exists b, nth_error s k = Some b /\ ~ continuation b.
Definition mode_asked (m : mode_config) : mode := match m with CAvionics => MAvionics | CGcm => MGcm | CGroundTest _ _ => MGroundTest | CVacuumTest => MVacuumTest end.

(** ** UTF-8 *)
Definition head_len (b : byte) : nat := if b <? 128 then 1 else if b <? 224 then 2 else if b <? 240 then 3 else 4.
Lemma cont_mod x : continuation (128 + x mod 64).
Proof. unfold continuation. pose proof (N.mod_upper_bound x 64 ltac:(discriminate)). lia. Qed.
Lemma char_shape c : scalar c -> exists h r, encode_char c = h :: r /\ ~ continuation h /\ Forall continuation r /\ S (length r) = head_len h.
Proof.
  intros [C _]. unfold encode_char, continuation.
  destruct (N.ltb_spec c 128) as [L|L]; [|destruct (N.ltb_spec c 2048) as [L2|L2]; [|destruct (N.ltb_spec c 65536) as [L3|L3]]]; eexists; eexists; (split; [reflexivity|]); unfold head_len.
  - split; [lia|]. split; [constructor|]. destruct (N.ltb_spec c 128); [reflexivity|lia].
  - assert (2 <= c / 64) by (apply N.div_le_lower_bound; lia). assert (c / 64 < 32) by (apply N.div_lt_upper_bound; lia).
    split; [lia|]. split; [repeat constructor; apply cont_mod|]. destruct (N.ltb_spec (192 + c / 64) 128); [lia|]. destruct (N.ltb_spec (192 + c / 64) 224); [reflexivity|lia].
  - assert (c / 4096 < 16) by (apply N.div_lt_upper_bound; lia).
    split; [lia|]. split; [repeat constructor; apply cont_mod|]. destruct (N.ltb_spec (224 + c / 4096) 128); [lia|]. destruct (N.ltb_spec (224 + c / 4096) 224); [lia|].
    destruct (N.ltb_spec (224 + c / 4096) 240); [reflexivity|lia].
  - split; [lia|]. split; [repeat constructor; apply cont_mod|]. destruct (N.ltb_spec (240 + c / 262144) 128); [lia|]. destruct (N.ltb_spec (240 + c / 262144) 224); [lia|].
    destruct (N.ltb_spec (240 + c / 262144) 240); [lia|reflexivity].
Qed.
Lemma app_split {A} (a b c d : list A) : a ++ b = c ++ d -> length a = length c -> a = c /\ b = d.
Proof. revert c. induction a as [|x a IH]; intros [|y c] H L; try discriminate; [auto|]. injection H as -> H. injection L as L. destruct (IH c H L) as [-> ->]. auto. Qed.

Lemma cut_text cs : forall k, Forall scalar cs -> boundary (flat_map encode_char cs) k -> text (firstn k (flat_map encode_char cs)).
Proof.
  induction cs as [|c cs IH]; intros k F B; [exists []; split; [constructor|destruct k; reflexivity]|]. inversion F as [|? ? Sc Fc]; subst. cbn [flat_map] in *.
  destruct (char_shape c Sc) as (h & r & E & Nh & Cr & _). destruct k as [|k]; [exists []; split; [constructor|reflexivity]|].
  destruct (Nat.lt_ge_cases (S k) (length (encode_char c))) as [Lt|Ge].
  - exfalso. destruct B as [B|(b & Hb & Nb)]; [rewrite app_length in B; lia|]. rewrite nth_error_app1 in Hb by exact Lt. rewrite E in Hb. cbn [nth_error] in Hb.
    apply Nb. apply nth_error_In in Hb. rewrite Forall_forall in Cr. auto.
  - rewrite firstn_app, firstn_all2 by exact Ge. assert (B' : boundary (flat_map encode_char cs) (S k - length (encode_char c))).
    { destruct B as [B|(b & Hb & Nb)]; [left; rewrite app_length in B; lia|right; exists b; split; [|exact Nb]]. rewrite nth_error_app2 in Hb by exact Ge. exact Hb. }
    destruct (IH _ Fc B') as (cs' & F' & E'). exists (c :: cs'). split; [constructor; auto|]. cbn [flat_map]. rewrite E'. reflexivity.
Qed.
Lemma text_cut cs' : forall cs k, Forall scalar cs' -> Forall scalar cs -> (k < length (flat_map encode_char cs))%nat -> firstn k (flat_map encode_char cs) = flat_map encode_char cs' ->
  boundary (flat_map encode_char cs) k.
Proof.
  induction cs' as [|c' cs' IH]; intros cs k F' F L E.
  - destruct cs as [|c cs]; [cbn in L; lia|]. inversion F as [|? ? Sc Fc]; subst. cbn [flat_map] in *. destruct (char_shape c Sc) as (h & r & Ec & Nh & _). rewrite Ec in *. cbn [app] in *.
    destruct k as [|k]; [right; exists h; split; [reflexivity|exact Nh]|discriminate].
  - destruct cs as [|c cs]; [cbn in L; lia|]. inversion F as [|? ? Sc Fc]; subst. inversion F' as [|? ? Sc' Fc']; subst. cbn [flat_map] in *.
    destruct (char_shape c Sc) as (h & r & Ec & Nh & _ & Ln). destruct (char_shape c' Sc') as (h' & r' & Ec' & _ & _ & Ln').
    assert (Hh : h = h' /\ k <> 0%nat) by (rewrite Ec, Ec' in E; destruct k; cbn [firstn app] in E; [discriminate|]; injection E as -> _; auto). destruct Hh as [<- Nk].
    assert (Lc : length (encode_char c') = length (encode_char c)) by (rewrite Ec, Ec'; cbn [length]; congruence).
    assert (Ge : (length (encode_char c) <= k)%nat).
    { pose proof (f_equal (@length N) E) as X. rewrite firstn_length, app_length in X. rewrite app_length in X. lia. }
    rewrite firstn_app, firstn_all2 in E by exact Ge. destruct (app_split _ _ _ _ E (eq_sym Lc)) as [_ E2].
    rewrite app_length in L. destruct (IH cs (k - length (encode_char c))%nat Fc' Fc ltac:(lia) E2) as [B|(b & Hb & Nb)].
    + left. rewrite app_length. lia.
    + right. exists b. split; [|exact Nb]. rewrite nth_error_app2 by exact Ge. exact Hb.
Qed.

(** A text cut after [k] bytes is a text exactly if the cut is between two characters. *)
Theorem C110_cut : forall s k, text s -> text (firstn k s) <-> boundary s k.
Proof.
  intros s k (cs & F & ->). split; [|apply cut_text; exact F]. intros (cs' & F' & E).
  destruct (Nat.lt_ge_cases k (length (flat_map encode_char cs))) as [L|L]; [eapply text_cut; eauto|left; exact L].
Qed.

(** ** The name *)
Lemma vec_slice s : as_slice (vec_from s) = firstn 64 s.
Proof.
  unfold as_slice, vec_from. cbv zeta. cbn [v_len v_data]. rewrite firstn_app, firstn_firstn, Nat.min_id, firstn_length.
  replace (Nat.min (length s) 64 - Nat.min (Nat.min (length s) 64) (length s))%nat with 0%nat by lia. rewrite firstn_O, app_nil_r.
  destruct (Nat.le_gt_cases (length s) 64) as [L|L]; [rewrite Nat.min_l, firstn_all, firstn_all2 by exact L; reflexivity|rewrite Nat.min_r by lia; reflexivity].
Qed.
Lemma name_slice h : as_slice (c_name (to_device h)) = firstn 64 (h_name h).
Proof.
  unfold to_device. cbv zeta. cbn [c_name]. rewrite vec_slice. destruct (Nat.ltb_spec 64 (length (h_name h))); [rewrite firstn_firstn; reflexivity|reflexivity].
Qed.
(** `vl-cli detect` prints the name that was set, up to its first 64 bytes, or panics: exactly if the 65th byte continues a character. *)
Theorem C110_name_shown_partial : forall h o, text (h_name h) -> printed_name (Some (to_device h)) o ->
  (boundary (h_name h) 64 -> o = Some (firstn 64 (h_name h))) /\ (~ boundary (h_name h) 64 -> o = None) /\
  ((length (h_name h) <= 64)%nat -> o = Some (h_name h)).
Proof.
  intros h o T P. inversion P as [|c o' A]; subst. destruct (C110_cut (h_name h) 64 T) as [C1 C2].
  assert (K : (boundary (h_name h) 64 -> o = Some (firstn 64 (h_name h))) /\ (~ boundary (h_name h) 64 -> o = None)).
  { inversion A as [X|X]; subst; rewrite name_slice in *; split; intros B; [reflexivity|exfalso; auto|exfalso; auto|reflexivity]. }
  split; [exact (proj1 K)|]. split; [exact (proj2 K)|]. intros L. rewrite (proj1 K (or_introl L)), firstn_all2 by exact L. reflexivity.
Qed.

(** ** The radio *)
(** A setting is converted exactly if radios have it, and then to what was asked for. *)
Lemma sf_in l : (exists s, sf_modulation l = Some s) <-> 5 <= l_sf l <= 12.
Proof.
  unfold sf_modulation. split.
  - intros (s & H). destruct (l_sf l) as [|p]; [discriminate|]. do 4 (try (destruct p; try discriminate; try lia)).
  - intros H. assert (K : l_sf l = 5 \/ l_sf l = 6 \/ l_sf l = 7 \/ l_sf l = 8 \/ l_sf l = 9 \/ l_sf l = 10 \/ l_sf l = 11 \/ l_sf l = 12) by lia.
    repeat (destruct K as [->|K]; [eexists; reflexivity|]). rewrite K. eexists. reflexivity.
Qed.
Lemma cr_in l : (exists s, cr_modulation l = Some s) <-> 5 <= l_cr l <= 8.
Proof.
  unfold cr_modulation. split.
  - intros (s & H). destruct (l_cr l) as [|p]; [discriminate|]. do 4 (try (destruct p; try discriminate; try lia)).
  - intros H. assert (K : l_cr l = 5 \/ l_cr l = 6 \/ l_cr l = 7 \/ l_cr l = 8) by lia.
    repeat (destruct K as [->|K]; [eexists; reflexivity|]). rewrite K. eexists. reflexivity.
Qed.
Lemma bw_in l : (exists b, bw_modulation l = Some b) <-> In (l_bw l) (map fst bw_table).
Proof.
  unfold bw_modulation. split.
  - intros (b & H). destruct (find (fun e => fst e =? l_bw l) bw_table) as [[x y]|] eqn:E; [|discriminate]. apply find_some in E. destruct E as [I E]. apply N.eqb_eq in E.
    cbn [fst] in E. rewrite <- E. apply in_map_iff. exists (x, y). auto.
  - intros H. destruct (find (fun e => fst e =? l_bw l) bw_table) as [[x y]|] eqn:E; [eexists; reflexivity|]. exfalso. apply in_map_iff in H. destruct H as (e & Ee & I).
    pose proof (find_none _ _ E e I) as X. cbn beta in X. rewrite Ee, N.eqb_refl in X. discriminate.
Qed.
Theorem C110_radio_settings : forall l, (modulation l <> None <-> radio_settings l) /\
  (forall s b c, modulation l = Some (s, b, c) -> sf_value s = l_sf l /\ bw_hz b = l_bw l /\ cr_value c = l_cr l).
Proof.
  intros l. pose proof (sf_in l) as Is. pose proof (cr_in l) as Ic. pose proof (bw_in l) as Ib. unfold modulation, radio_settings. change [7810; 10420; 15630; 20830; 31250; 41670; 62500; 125000; 250000; 500000] with (map fst bw_table). split.
  - rewrite <- Is, <- Ic, <- Ib. split.
    + intros H. destruct (sf_modulation l) as [s|]; [|congruence]. destruct (bw_modulation l) as [b|]; [|congruence]. destruct (cr_modulation l) as [c|]; [|congruence]. split; [exists s|split; [exists c|exists b]]; reflexivity.
    + intros ((s & ->) & (c & ->) & (b & ->)). discriminate.
  - intros s b c H. destruct (sf_modulation l) as [s'|] eqn:Es; [|discriminate]. destruct (bw_modulation l) as [b'|] eqn:Eb; [|discriminate].
    destruct (cr_modulation l) as [c'|] eqn:Ec; [|discriminate]. injection H as <- <- <-. clear Is Ic Ib. split; [|split].
    + unfold sf_modulation in Es. destruct (l_sf l) as [|p]; [discriminate|]. do 4 (try (destruct p; try discriminate)); injection Es as <-; reflexivity.
    + unfold bw_modulation in Eb. destruct (find (fun e => fst e =? l_bw l) bw_table) as [[x y]|] eqn:E; [|discriminate]. injection Eb as <-. apply find_some in E. destruct E as [I E]. apply N.eqb_eq in E.
      cbn [fst] in E. subst x. unfold bw_table in I. cbn [In] in I. repeat (destruct I as [I|I]; [injection I as <- <-; reflexivity|]). destruct I.
    + unfold cr_modulation in Ec. destruct (l_cr l) as [|p]; [discriminate|]. do 4 (try (destruct p; try discriminate)); injection Ec as <-; reflexivity.
Qed.

(** ** Configured devices *)
Lemma read_after_set crc t n es d es2 m r : crc32 crc -> life crc t n (es ++ [LSet d] ++ es2) m -> quiet es2 -> read_at_boot crc t n (flash_now m) r = Some d.
Proof.
  intros Hc L Q. pose proof (C105_start_reads_a_set_configuration crc Hc t n _ m r L) as H. rewrite app_assoc, candidates_quiet, candidates_snoc in H by exact Q.
  destruct H as [H|[]]. symmetry. exact H.
Qed.
Lemma into_same h : mode_into (h_mode h) = h_mode h /\ lora_into (h_lora h) = h_lora h.
Proof. split; [destruct (h_mode h) as [| |[] []|]; reflexivity|destruct (h_lora h); reflexivity]. Qed.

Section Configured.
Variables (encode : device_config -> list byte) (decode : list byte -> device_config) (n : nat) (crc : list byte -> N) (t : N).
(** the device with flash [f] is started *)
Definition starts (f : flash) (r : nat -> N) (usb : option N) : running device_config := started device_config mode_of decode n crc t f r None usb.

Lemma start_set h es es2 m r usb : crc32 crc -> decode (encode (to_device h)) = to_device h -> life crc t n (es ++ [LSet (encode (to_device h))] ++ es2) m -> quiet es2 ->
  starts (flash_now m) r usb = start mode_of None (Some (to_device h)) usb.
Proof.
  intros Hc De L Q. unfold starts, started. rewrite (read_after_set crc t n es _ es2 m r Hc L Q). cbn [option_map]. rewrite De. reflexivity.
Qed.
End Configured.

Lemma mode_to_device h : mode_of (to_device h) = mode_asked (h_mode h).
Proof. unfold mode_of, to_device. cbv zeta. cbn [c_mode]. destruct (h_mode h); reflexivity. Qed.
Lemma good_settings h : (exists x, modulation (c_lora (to_device h)) = Some x) \/ (modulation (c_lora (to_device h)) = None /\ ~ radio_settings (h_lora h)).
Proof.
  unfold to_device. cbv zeta. cbn [c_lora]. rewrite (proj2 (into_same h)). destruct (modulation (h_lora h)) as [x|] eqn:E; [left; eauto|right; split; [reflexivity|]].
  intros R. apply (proj2 (proj1 (C110_radio_settings (h_lora h)))) in R. contradiction.
Qed.

(** Started without USB after the configuration was set, whatever happened since, the device runs the mode asked for, with the radio
    settings and the key asked for and the name up to its first 64 bytes; the radio settings are the only thing in it that can make it
    panic, and they do not if radios have them. *)
Theorem C110_reaches_the_device : forall encode decode n crc t h es es2 m r, crc32 crc -> decode (encode (to_device h)) = to_device h ->
  life crc t n (es ++ [LSet (encode (to_device h))] ++ es2) m -> quiet es2 ->
  exists c, starts decode n crc t (flash_now m) r None = Runs (mode_asked (h_mode h)) c /\
    c_mode c = h_mode h /\ c_lora c = h_lora h /\ c_key c = h_key h /\ as_slice (c_name c) = firstn 64 (h_name h) /\
    (radio_settings (h_lora h) -> fate_of true (Runs (mode_asked (h_mode h)) c) = Fine).
Proof.
  intros encode decode n crc t h es es2 m r Hc De L Q. rewrite (start_set encode decode n crc t h es es2 m r None Hc De L Q). exists (to_device h).
  split; [unfold start; rewrite mode_to_device; destruct (mode_asked (h_mode h)); reflexivity|]. destruct (into_same h) as [Em El].
  split; [exact Em|]. split; [exact El|]. split; [reflexivity|]. split; [apply name_slice|]. intros R. destruct (good_settings h) as [(x & E)|[_ N]]; [|contradiction].
  unfold fate_of. rewrite E. destruct (mode_asked (h_mode h)); reflexivity.
Qed.

(** With USB connected the consoles are served, so that another configuration can be set: unless the mode is GCM and the radio is missing
    or its settings are not ones that radios have.  In this case they never are, with or without USB. *)
Theorem C110_can_be_replaced_partial : forall encode decode n crc t h es es2 m r ms radio, crc32 crc -> decode (encode (to_device h)) = to_device h ->
  life crc t n (es ++ [LSet (encode (to_device h))] ++ es2) m -> quiet es2 -> ms < 500 ->
  fate_of radio (starts decode n crc t (flash_now m) r (Some ms)) = Fine \/ (h_mode h = CGcm /\ (radio = false \/ ~ radio_settings (h_lora h))).
Proof.
  intros encode decode n crc t h es es2 m r ms radio Hc De L Q Hm. rewrite (start_set encode decode n crc t h es es2 m r (Some ms) Hc De L Q). unfold start, usb_connected. rewrite mode_to_device. apply N.ltb_lt in Hm. rewrite Hm.
  destruct (h_mode h) eqn:Em; cbn [mode_asked fate_of]; try (left; reflexivity). destruct radio; cbn [andb]; [|right; auto].
  destruct (good_settings h) as [(x & ->)|[-> N]]; [left; reflexivity|right; auto].
Qed.
Theorem C110_refuted_bricked : forall encode decode n crc t h es es2 m r usb radio, crc32 crc -> decode (encode (to_device h)) = to_device h ->
  life crc t n (es ++ [LSet (encode (to_device h))] ++ es2) m -> quiet es2 -> h_mode h = CGcm -> ~ radio_settings (h_lora h) ->
  fate_of radio (starts decode n crc t (flash_now m) r usb) = PanicsFirst.
Proof.
  intros encode decode n crc t h es es2 m r usb radio Hc De L Q Em Nr. rewrite (start_set encode decode n crc t h es es2 m r usb Hc De L Q). unfold start. rewrite mode_to_device, Em. cbn [mode_asked fate_of].
  destruct (good_settings h) as [(x & E)|[E N]]; [|rewrite E; destruct radio; reflexivity].
  exfalso. apply Nr. apply (proj1 (proj1 (C110_radio_settings (h_lora h)))). unfold to_device in E. cbv zeta in E. cbn [c_lora] in E. rewrite (proj2 (into_same h)) in E. rewrite E. discriminate.
Qed.
(** A device without a radio starts in the other modes whatever the radio settings are. *)
Theorem C110_without_a_radio : forall encode decode n crc t h es es2 m r usb, crc32 crc -> decode (encode (to_device h)) = to_device h ->
  life crc t n (es ++ [LSet (encode (to_device h))] ++ es2) m -> quiet es2 -> h_mode h <> CGcm ->
  fate_of false (starts decode n crc t (flash_now m) r usb) = Fine.
Proof.
  intros encode decode n crc t h es es2 m r usb Hc De L Q Em. rewrite (start_set encode decode n crc t h es es2 m r usb Hc De L Q). unfold start. rewrite mode_to_device.
  destruct (h_mode h) eqn:E; cbn [mode_asked]; try (exfalso; apply Em; reflexivity); destruct (usb_connected usb); reflexivity.
Qed.
(** A wrong radio setting also stops the flight computer, parachutes included, on the pad. *)
Theorem C110_refuted_no_flight : forall encode decode n crc t h es es2 m r, crc32 crc -> decode (encode (to_device h)) = to_device h ->
  life crc t n (es ++ [LSet (encode (to_device h))] ++ es2) m -> quiet es2 -> h_mode h = CAvionics -> ~ radio_settings (h_lora h) ->
  fate_of true (starts decode n crc t (flash_now m) r None) = PanicsLater.
Proof.
  intros encode decode n crc t h es es2 m r Hc De L Q Em Nr. rewrite (start_set encode decode n crc t h es es2 m r None Hc De L Q). unfold start. rewrite mode_to_device, Em. cbn [mode_asked fate_of usb_connected].
  destruct (good_settings h) as [(x & E)|[E N]]; [|rewrite E; reflexivity].
  exfalso. apply Nr. apply (proj1 (proj1 (C110_radio_settings (h_lora h)))). unfold to_device in E. cbv zeta in E. cbn [c_lora] in E. rewrite (proj2 (into_same h)) in E. rewrite E. discriminate.
Qed.

(** ** Concrete cases *)
Definition ground_station : host_config := mkHost (repeat 97 63 ++ [195; 169]) CGcm (mkLora 915000000 13 250000 8 22) (repeat 7 32).
(** the name is 63 times a and one é: 65 bytes *)
Lemma ground_text : text (h_name ground_station).
Proof. exists (repeat 97 63 ++ [233]). split; [apply Forall_forall; intros x X; apply in_app_or in X; destruct X as [X|[<-|[]]]; [apply repeat_spec in X; subst x|]; split; lia|reflexivity]. Qed.
Theorem C110_refuted_name_panics : text (h_name ground_station) /\ printed_name (Some (to_device ground_station)) None.
Proof.
  split; [exact ground_text|]. constructor. constructor. rewrite name_slice. intros T. apply (C110_cut _ 64 ground_text) in T. destruct T as [T|(b & Hb & Nb)]; [cbn in T; lia|].
  cbn in Hb. injection Hb as <-. apply Nb. unfold continuation. lia.
Qed.
Lemma ground_wrong : ~ radio_settings (h_lora ground_station).
Proof. intros (H & _). cbn in H. lia. Qed.
Definition flying : host_config := mkHost [86; 76] CAvionics (mkLora 915000000 12 250000 8 22) (repeat 7 32).
Lemma flying_right : radio_settings (h_lora flying).
Proof. split; [cbn; lia|]. split; [cbn; lia|]. cbn. auto 10. Qed.
(** a life in which a configuration of three bytes is set, followed by a restart and a file being created: with [ground_station] the device
    is lost, with [flying] it flies *)
Lemma a_life : exists y, life sum 0 3 ([LBoot] ++ [LSet [1;2;3]] ++ [LOff; LBoot; LCall (Create 4)]) (On y) /\ quiet [LOff; LBoot; LCall (Create 4)].
Proof.
  destruct C105_refuted_halts_after_interrupted_set as (y & f & L & _). exists y. split; [exact L|]. intros e [<-|[<-|[<-|[]]]]; exact Logic.I.
Qed.
Example ex_C110_bricked : exists y, forall r usb, fate_of true (starts (fun _ => to_device ground_station) 3 sum 0 (flash_now (On y)) r usb) = PanicsFirst.
Proof.
  destruct a_life as (y & L & Q). exists y. intros r usb.
  apply (C110_refuted_bricked (fun _ => [1;2;3]) (fun _ => to_device ground_station) 3 sum 0 ground_station [LBoot] _ (On y) r usb true sum32 eq_refl L Q eq_refl ground_wrong).
Qed.
Example ex_C110_flies : exists y, forall r, exists c, starts (fun _ => to_device flying) 3 sum 0 (flash_now (On y)) r None = Runs MAvionics c /\ as_slice (c_name c) = [86; 76] /\ fate_of true (Runs MAvionics c) = Fine.
Proof.
  destruct a_life as (y & L & Q). exists y. intros r.
  destruct (C110_reaches_the_device (fun _ => [1;2;3]) (fun _ => to_device flying) 3 sum 0 flying [LBoot] _ (On y) r sum32 eq_refl L Q) as (c & E & _ & _ & _ & En & Ef).
  exists c. split; [exact E|]. split; [exact En|exact (Ef flying_right)].
Qed.

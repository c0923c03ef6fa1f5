(** * Property C135: the window of the time-based nonces. *)
From Coq Require Import List ZArith NArith Lia.
From Verif Require Import Base VLP.
Import ListNotations.
Local Open Scope N_scope.

(** ** Proofs *)
Lemma le_injective n m : n < 2 ^ 64 -> m < 2 ^ 64 -> le_bytes8 n = le_bytes8 m -> n = m.
Proof.
  intros Hn Hm E. apply N.bits_inj. intro i. destruct (N.lt_ge_cases i 64) as [L|L].
  - assert (K : N.shiftr n (8 * (i / 8)) mod 256 = N.shiftr m (8 * (i / 8)) mod 256).
    { assert (J : (N.to_nat (i / 8) < 8)%nat) by (apply N.div_lt_upper_bound with (b := 8) (q := 8) in L; lia).
      apply (f_equal (fun l => nth (N.to_nat (i / 8)) l 0)) in E. unfold le_bytes8 in E.
      assert (G : forall x, nth (N.to_nat (i / 8)) (map (fun k => N.shiftr x (8 * N.of_nat k) mod 256) (seq 0 8)) 0 = N.shiftr x (8 * (i / 8)) mod 256).
      { intro x. set (g := fun k => N.shiftr x (8 * N.of_nat k) mod 256). rewrite (nth_indep _ 0 (g 0%nat)) by (rewrite map_length, seq_length; exact J).
        rewrite map_nth, seq_nth by exact J. unfold g. cbn [plus]. rewrite N2Nat.id. reflexivity. }
      rewrite !G in E. exact E. }
    assert (B : forall x, N.testbit x i = N.testbit (N.shiftr x (8 * (i / 8)) mod 256) (i mod 8)).
    { intro x. change 256 with (2 ^ 8). rewrite N.mod_pow2_bits_low by (apply N.mod_lt; discriminate). rewrite N.shiftr_spec'. f_equal.
      rewrite N.add_comm. apply N.div_mod. discriminate. }
    rewrite (B n), (B m), K. reflexivity.
  - rewrite <- (N.mod_small n (2 ^ 64) Hn), <- (N.mod_small m (2 ^ 64) Hm). rewrite !N.mod_pow2_bits_high by exact L. reflexivity.
Qed.

Lemma round_down n : n - n mod 100 = 100 * (n / 100).
Proof. pose proof (N.div_mod n 100 ltac:(discriminate)). lia. Qed.

Lemma in_window s r air : s < 2 ^ 64 - 1000 -> r < 2 ^ 64 - 1000 ->
  (In (time_nonce s) (time_nonces r air) <-> exists i, i < 10 /\ 100 * (s / 100) = 100 * ((r - air) / 100) - 500 + 100 * i).
Proof.
  intros HS HR. unfold time_nonce, time_nonces. cbv zeta. rewrite !round_down. rewrite in_map_iff.
  assert (RS : 100 * (s / 100) <= s) by (apply N.mul_div_le; discriminate).
  assert (RR : 100 * ((r - air) / 100) <= r) by (pose proof (N.mul_div_le (r - air) 100 ltac:(discriminate)); lia).
  split.
  - intros (i & E & I). apply in_seq in I. exists (N.of_nat i). split; [lia|]. symmetry. replace (100 * N.of_nat i) with (N.of_nat i * 100) by lia.
    apply le_injective; [lia|lia|exact E].
  - intros (i & I & E). exists (N.to_nat i). split; [|apply in_seq; lia]. f_equal. rewrite N2Nat.id. lia.
Qed.

(** C135. Enabled, the scheme accepts a packet whose sender's clock is at most half a second behind, or 0.4 s ahead of, the moment the
    receiver takes it to have been sent ([r], the time of reception, less the time on air) ... *)
Theorem C135_within_the_window s r air : s < 2 ^ 64 - 1000 -> r < 2 ^ 64 - 1000 -> air + 600 <= r ->
  r - air <= s + 500 -> s <= r - air + 400 -> In (time_nonce s) (time_nonces r air).
Proof.
  intros HS HR A L U. apply in_window; [exact HS|exact HR|].
  pose proof (N.div_mod s 100 ltac:(discriminate)) as E1. pose proof (N.mod_lt s 100 ltac:(discriminate)) as E2.
  pose proof (N.div_mod (r - air) 100 ltac:(discriminate)) as E3. pose proof (N.mod_lt (r - air) 100 ltac:(discriminate)) as E4.
  exists (s / 100 + 5 - (r - air) / 100). split; lia.
Qed.

(** ... and none that is 0.6 s behind or half a second ahead: a frame that is recorded is of no use 0.6 s (and the time on air) later. *)
Theorem C135_outside_the_window s r air : s < 2 ^ 64 - 1000 -> r < 2 ^ 64 - 1000 -> air + 600 <= r ->
  s + 600 <= r - air \/ r - air + 500 <= s -> ~ In (time_nonce s) (time_nonces r air).
Proof.
  intros HS HR A O I. apply in_window in I; [|exact HS|exact HR]. destruct I as (i & I & E).
  pose proof (N.div_mod s 100 ltac:(discriminate)) as E1. pose proof (N.mod_lt s 100 ltac:(discriminate)) as E2.
  pose proof (N.div_mod (r - air) 100 ltac:(discriminate)) as E3. pose proof (N.mod_lt (r - air) 100 ltac:(discriminate)) as E4. lia.
Qed.

(** C135. A nonce stands for one tenth of a second: two packets have the same one exactly when they are sent within the same. *)
Theorem C135_one_nonce_per_tenth s s' : s < 2 ^ 64 -> s' < 2 ^ 64 -> (time_nonce s = time_nonce s' <-> s / 100 = s' / 100).
Proof.
  intros H H'. unfold time_nonce. rewrite !round_down. split; [|intros ->; reflexivity]. intro E.
  assert (R : forall x, 100 * (x / 100) <= x) by (intro x; apply N.mul_div_le; discriminate).
  apply le_injective in E; [lia| |]; [pose proof (R s)|pose proof (R s')]; lia.
Qed.

(** C135 refuted, for the cipher: no nonce should serve twice.  Two packets sent within a tenth of a second have the same key stream
    even with the scheme enabled; as the source stands, all packets have. *)
Theorem C135_refuted_nonce_reuse : (exists s s', s <> s' /\ time_nonce s = time_nonce s') /\ (forall s s', get_nonce s = get_nonce s').
Proof. split; [exists 1700000000000, 1700000000099; split; [discriminate|vm_compute; reflexivity]|reflexivity]. Qed.

(** C135 refuted, as the source stands: the scheme is off and the time of sending does not matter. *)
Theorem C135_refuted_no_window s r air : In (get_nonce s) (get_past_nonce r air).
Proof. now left. Qed.

(** the hypotheses are met: a packet sent at 2024-ish, 250 ms on air, 80 ms of skew; and the same a second late *)
Theorem C135_instance : In (time_nonce 1700000000123) (time_nonces 1700000000453 250) /\ ~ In (time_nonce 1700000000123) (time_nonces 1700000001453 250).
Proof.
  split.
  - apply C135_within_the_window; [reflexivity|reflexivity|discriminate|discriminate|discriminate].
  - apply C135_outside_the_window; [reflexivity|reflexivity|discriminate|left; discriminate].
Qed.

Print Assumptions C135_within_the_window.
Print Assumptions C135_outside_the_window.
Print Assumptions C135_one_nonce_per_tenth.
Print Assumptions C135_refuted_nonce_reuse.
Print Assumptions C135_refuted_no_window.
Print Assumptions C135_instance.

(** [Paillier::open]: the extracted randomness re-encrypts the plaintext to the same ciphertext. *)
From Coq Require Import ZArith Znumtheory Lia.
From Verif Require Import ZArithX Paillier PaillierProofs Blame.
Local Open Scope Z_scope.

Lemma pow_eqm n a b k : 0 <= k -> eqm n a b -> eqm n (a ^ k) (b ^ k).
Proof.
  intros Hk E. revert k Hk. apply (natlike_ind (fun k => eqm n (a ^ k) (b ^ k))); [apply eqm_refl|].
  intros k Hk IH. rewrite !Z.pow_succ_r by exact Hk. apply eqm_mul; assumption.
Qed.
(** r^N modulo N^2 depends on r modulo N only. *)
Lemma pow_N_mod N r r' : 1 < N -> Z.gcd r N = 1 -> eqm N r r' -> eqm (N * N) (r ^ N) (r' ^ N).
Proof.
  intros HN Hg E. assert (HNN : 1 < N * N) by nia. assert (Hg2 : Z.gcd r (N * N) = 1) by (apply gcd_sq; exact Hg).
  destruct (mod_inv_complete r (N * N) HNN Hg2) as [i Hi]. apply mod_inv_sound in Hi; [|exact HNN]. destruct Hi as [Hi _].
  apply eqm_sym in E. apply eqm_divide in E; [|lia]. destruct E as [z Hz].
  assert (Hr' : eqm (N * N) r' (r * (1 + z * i * N))).
  { replace r' with (r + z * N) by lia. replace (r * (1 + z * i * N)) with (r + z * N * (r * i)) by ring. apply eqm_add; [apply eqm_refl|].
    eapply eqm_trans; [|apply eqm_mul; [apply eqm_refl|]; apply eqm_sym with (a := r * i) (b := 1); unfold eqm; rewrite Hi; symmetry; apply Z.mod_1_l; lia].
    unfold eqm; apply (f_equal (fun x => x mod (N * N))); ring. }
  apply eqm_sym. eapply eqm_trans; [apply pow_eqm; [lia|exact Hr']|]. rewrite pow_mul_base by lia.
  eapply eqm_trans; [apply eqm_mul; [apply eqm_refl|apply (pow1p (N * N) (z * i * N) N); [lia|]]|].
  - exists (z * i * (z * i)). ring.
  - unfold eqm. replace (r ^ N * (1 + N * (z * i * N))) with (r ^ N + r ^ N * (z * i) * (N * N)) by ring. apply Z_mod_plus_full.
Qed.
Lemma enc_mod N m m' r r' : 1 < N -> Z.gcd r N = 1 -> eqm N m m' -> eqm N r r' -> enc N m r = enc N m' r'.
Proof.
  intros HN Hg Em Er. unfold enc. rewrite !powm_spec by nia. change (eqm (N * N) ((m * N + 1) mod (N * N) * (r ^ N mod (N * N))) ((m' * N + 1) mod (N * N) * (r' ^ N mod (N * N)))).
  assert (E1 : eqm (N * N) (m * N + 1) (m' * N + 1)).
  { apply eqm_add; [|apply eqm_refl]. apply eqm_divide in Em; [|lia]. destruct Em as [z Hz]. apply eqm_divide; [nia|]. exists z. nia. }
  apply eqm_mul.
  - eapply eqm_trans; [apply eqm_mod|]. eapply eqm_trans; [exact E1|]. apply eqm_sym, eqm_mod.
  - eapply eqm_trans; [apply eqm_mod|]. eapply eqm_trans; [apply pow_N_mod; eassumption|]. apply eqm_sym, eqm_mod.
Qed.
(** Adding a multiple of N to the plaintext does not change the ciphertext. *)
Lemma enc_shift N m r : 1 < N -> Z.gcd r N = 1 -> enc N (m + N) r = enc N m r.
Proof.
  intros HN Hg. apply enc_mod; [exact HN|exact Hg| |apply eqm_refl]. unfold eqm. rewrite <- (Z.mul_1_l N) at 1. apply Z_mod_plus_full.
Qed.
Lemma root_prime p a r d z : prime p -> r mod p <> 0 -> 0 <= z -> 0 <= d -> a * d = 1 + z * (p - 1) -> 0 <= a -> eqm p ((r ^ a) ^ d) r.
Proof.
  intros Hp Hr Hz Hd E Ha. pose proof (prime_ge_2 p Hp). rewrite <- Z.pow_mul_r, E, Z.pow_add_r, Z.pow_1_r by nia.
  rewrite (Z.mul_comm z (p - 1)), Z.pow_mul_r by lia.
  eapply eqm_trans; [apply eqm_mul; [apply eqm_refl|apply (pow_eqm p (r ^ (p - 1)) 1); [exact Hz|]]|].
  - unfold eqm. rewrite fermat by assumption. symmetry. apply Z.mod_1_l. lia.
  - rewrite Z.pow_1_l by exact Hz. rewrite Z.mul_1_r. apply eqm_refl.
Qed.
Theorem popen_enc p1 p2 m r : good_key p1 p2 -> Z.gcd (p1 * p2) ((p1 - 1) * (p2 - 1)) = 1 -> Z.gcd r (p1 * p2) = 1 ->
  popen p1 p2 (enc (p1 * p2) m r) = (m mod (p1 * p2), r mod (p1 * p2)).
Proof.
  intros HK HG Hr. pose proof (good_key_gt1 _ _ HK) as HN. destruct HK as (Hp & Hq & Hne).
  pose proof (prime_ge_2 _ Hp). pose proof (prime_ge_2 _ Hq). unfold popen. rewrite dec_enc by (try exact Hr; exact (conj Hp (conj Hq Hne))). apply f_equal.
  assert (Hphi : 1 < (p1 - 1) * (p2 - 1)) by nia. destruct (mod_inv_complete _ _ Hphi HG) as [d Hd]. rewrite Hd. apply mod_inv_sound in Hd; [|exact Hphi].
  destruct Hd as [Hd [Hd0 _]]. set (N := p1 * p2) in *. set (phi := (p1 - 1) * (p2 - 1)) in *.
  assert (EN : N * d = 1 + (N * d / phi) * phi) by (pose proof (Z.div_mod (N * d) phi ltac:(lia)); lia).
  assert (Hz : 0 <= N * d / phi) by (apply Z.div_pos; nia). set (z := N * d / phi) in *.
  rewrite powm_spec by lia.
  assert (Ec : eqm N (enc N m r) (r ^ N)).
  { destruct (enc_is_enc N m r HN Hr) as (r0 & _ & _). clear r0. unfold enc. rewrite powm_spec by nia.
    eapply eqm_trans; [apply (eqm_weaken (N * N) N); [nia|lia|exists N; ring|apply eqm_mod]|].
    replace (r ^ N) with (1 * r ^ N) at 2 by ring. apply eqm_mul.
    - eapply eqm_trans; [apply (eqm_weaken (N * N) N); [nia|lia|exists N; ring|apply eqm_mod]|]. unfold eqm. rewrite Z.add_comm. apply Z_mod_plus_full.
    - apply (eqm_weaken (N * N) N); [nia|lia|exists N; ring|apply eqm_mod]. }
  assert (Ed : eqm N ((enc N m r mod N) ^ d) ((r ^ N) ^ d)) by (apply pow_eqm; [exact Hd0|]; eapply eqm_trans; [apply eqm_mod|exact Ec]).
  rewrite Ed. assert (W1 : eqm p1 ((r ^ N) ^ d) r).
  { apply (root_prime p1 N r d (z * (p2 - 1))); [assumption|apply (gcd_mod_prime p1 p2); assumption|apply Z.mul_nonneg_nonneg; lia|assumption| |lia].
    unfold phi in EN. rewrite EN. ring. }
  assert (W2 : eqm p2 ((r ^ N) ^ d) r).
  { apply (root_prime p2 N r d (z * (p1 - 1))); [assumption| |apply Z.mul_nonneg_nonneg; lia|assumption| |lia].
    - apply (gcd_mod_prime p2 p1); [assumption|]. rewrite Z.mul_comm. exact Hr.
    - unfold phi in EN. rewrite EN. ring. }
  apply (crt_unique p1 p2); try assumption; try (apply Z.mod_pos_bound; lia).
  - transitivity (((r ^ N) ^ d) mod p1); [apply (eqm_weaken N p1); [lia|lia|exists p2; unfold N; ring|apply eqm_mod]|]. rewrite W1.
    symmetry. apply (eqm_weaken N p1); [lia|lia|exists p2; unfold N; ring|apply eqm_mod].
  - transitivity (((r ^ N) ^ d) mod p2); [apply (eqm_weaken N p2); [lia|lia|exists p1; unfold N; ring|apply eqm_mod]|]. rewrite W2.
    symmetry. apply (eqm_weaken N p2); [lia|lia|exists p1; unfold N; ring|apply eqm_mod].
Qed.

(** Correctness of Paillier encryption, its homomorphisms, and [mod_pow]. *)
From Coq Require Import ZArith Znumtheory Lia List.
From Verif Require Import ZArithX Paillier.
Local Open Scope Z_scope.

Lemma mod_pow_pos b e n : 0 < n -> 0 <= e -> mod_pow b e n = Some ((b ^ e) mod n).
Proof.
  intros Hn He. unfold mod_pow.
  replace (n =? 0) with false by (symmetry; apply Z.eqb_neq; lia).
  replace (0 <=? e) with true by (symmetry; apply Z.leb_le; lia).
  rewrite Z.abs_eq by lia. rewrite powm_spec by lia. reflexivity.
Qed.

(** Characterisation of [mod_pow] with any exponent. *)
Lemma mod_pow_neg b e n x : 1 < n -> e < 0 -> mod_pow b e n = Some x ->
  exists i, (b * i) mod n = 1 /\ x = (i ^ (- e)) mod n.
Proof.
  intros Hn He. unfold mod_pow.
  replace (n =? 0) with false by (symmetry; apply Z.eqb_neq; lia).
  replace (0 <=? e) with false by (symmetry; apply Z.leb_gt; lia).
  rewrite Z.abs_eq by lia.
  destruct (mod_inv b n) as [i|] eqn:E; [|discriminate].
  apply mod_inv_sound in E; [|lia]. destruct E as [E _].
  intros H. injection H as <-. exists i. split; [assumption|]. apply powm_spec; lia.
Qed.

Lemma mod_pow_none b e n : 1 < n -> (mod_pow b e n = None <-> e < 0 /\ Z.gcd b n <> 1).
Proof.
  intros Hn. unfold mod_pow.
  replace (n =? 0) with false by (symmetry; apply Z.eqb_neq; lia).
  rewrite Z.abs_eq by lia.
  destruct (Z.leb_spec 0 e) as [He|He].
  - split; [discriminate|lia].
  - destruct (mod_inv b n) as [i|] eqn:E.
    + apply mod_inv_gcd in E; [|lia]. split; [discriminate|tauto].
    + apply mod_inv_none in E; [|lia]. tauto.
Qed.

Lemma mod_pow_range b e n x : 0 < n -> mod_pow b e n = Some x -> 0 <= x < n.
Proof.
  intros Hn H. unfold mod_pow in H.
  destruct (n =? 0); [discriminate|]. rewrite Z.abs_eq in H by lia.
  destruct (0 <=? e) eqn:E.
  - apply Z.leb_le in E. injection H as <-. rewrite powm_spec by lia. apply Z.mod_pos_bound; lia.
  - apply Z.leb_gt in E. destruct (mod_inv b n); [|discriminate]. injection H as <-.
    rewrite powm_spec by lia. apply Z.mod_pos_bound; lia.
Qed.

(** (1 + x)^k = 1 + k x modulo n when n divides x^2. *)
Lemma pow1p n x k : 0 <= k -> (n | x * x) -> eqm n ((1 + x) ^ k) (1 + k * x).
Proof.
  intros Hk Hx. pattern k. apply natlike_ind; [| |exact Hk].
  - rewrite Z.pow_0_r. unfold eqm; f_equal; ring.
  - intros j Hj IH. rewrite Z.pow_succ_r by lia.
    eapply eqm_trans; [apply eqm_mul; [apply eqm_refl|exact IH]|].
    destruct Hx as [c Hc].
    replace ((1 + x) * (1 + j * x)) with (1 + (Z.succ j) * x + (j * c) * n).
    + unfold eqm. rewrite Z_mod_plus_full. reflexivity.
    + replace (j * c * n) with (j * (c * n)) by ring. rewrite <- Hc. unfold Z.succ. ring.
Qed.

Lemma pow_mul_base a b k : 0 <= k -> (a * b) ^ k = a ^ k * b ^ k.
Proof. intros _. apply Z.pow_mul_l. Qed.

(** Euler for p^2: r^(p(p-1)) = 1 mod p^2. *)
Lemma euler_sq p r : prime p -> r mod p <> 0 -> eqm (p * p) (r ^ (p * (p - 1))) 1.
Proof.
  intros Hp Hr. pose proof (prime_ge_2 p Hp).
  rewrite (Z.mul_comm p (p - 1)), Z.pow_mul_r by lia.
  pose proof (fermat p r Hp Hr) as E.
  assert (D : exists k, r ^ (p - 1) = 1 + k * p).
  { exists (r ^ (p - 1) / p). pose proof (Z.div_mod (r ^ (p - 1)) p ltac:(lia)). lia. }
  destruct D as [k D]. rewrite D.
  eapply eqm_trans.
  - apply pow1p; [lia|]. exists (k * k). ring.
  - unfold eqm. replace (1 + p * (k * p)) with (1 + k * (p * p)) by ring.
    apply Z_mod_plus_full.
Qed.

Lemma eqm_weaken n m a b : 0 < n -> 0 < m -> (m | n) -> eqm n a b -> eqm m a b.
Proof.
  intros Hn Hm D H. apply eqm_divide in H; [|lia]. apply eqm_divide; [lia|].
  eapply Z.divide_trans; eassumption.
Qed.

(** [c] is an encryption of [m] under [N]. *)
Definition is_enc (N c m : Z) : Prop :=
  exists r, Z.gcd r N = 1 /\ eqm (N * N) c ((1 + m * N) * r ^ N).

Lemma enc_is_enc N m r : 1 < N -> Z.gcd r N = 1 -> is_enc N (enc N m r) m.
Proof.
  intros HN Hr. exists r. split; [assumption|]. unfold enc.
  rewrite powm_spec by nia.
  eapply eqm_trans; [apply eqm_mod|]. apply eqm_mul; [|apply eqm_mod].
  eapply eqm_trans; [apply eqm_mod|]. unfold eqm; f_equal; ring.
Qed.

Lemma gcd_mul a b n : Z.gcd a n = 1 -> Z.gcd b n = 1 -> Z.gcd (a * b) n = 1.
Proof.
  intros Ha Hb. apply Zgcd_1_rel_prime. apply rel_prime_sym, rel_prime_mult; apply rel_prime_sym;
  apply Zgcd_1_rel_prime; assumption.
Qed.

Lemma gcd_pow a k n : 0 <= k -> Z.gcd a n = 1 -> Z.gcd (a ^ k) n = 1.
Proof.
  intros Hk Ha. pattern k. apply natlike_ind; [| |exact Hk].
  - rewrite Z.pow_0_r. apply Z.gcd_1_l.
  - intros j Hj IH. rewrite Z.pow_succ_r by lia. apply gcd_mul; assumption.
Qed.

Lemma gcd_sq a n : Z.gcd a n = 1 -> Z.gcd a (n * n) = 1.
Proof. intros H. rewrite Z.gcd_comm. rewrite Z.gcd_comm in H. apply gcd_mul; assumption. Qed.

Lemma gcd_sq_inv a n : 0 < n -> Z.gcd a (n * n) = 1 -> Z.gcd a n = 1.
Proof.
  intros Hn H.
  assert (D : (Z.gcd a n | Z.gcd a (n * n))).
  { apply Z.gcd_greatest; [apply Z.gcd_divide_l|].
    eapply Z.divide_trans; [apply Z.gcd_divide_r|]. exists n; ring. }
  rewrite H in D. pose proof (Z.gcd_nonneg a n). apply Z.divide_1_r_nonneg in D; assumption.
Qed.

Lemma gcd_eqm a b n : 0 < n -> eqm n a b -> Z.gcd a n = Z.gcd b n.
Proof.
  intros Hn H. rewrite (Z.gcd_comm a), (Z.gcd_comm b), <- (Z.gcd_mod a n), <- (Z.gcd_mod b n) by lia.
  unfold eqm in H. rewrite H. reflexivity.
Qed.

Lemma is_enc_add N c1 c2 m1 m2 : 1 < N ->
  is_enc N c1 m1 -> is_enc N c2 m2 -> is_enc N (padd_c N c1 c2) (m1 + m2).
Proof.
  intros HN [r1 [G1 E1]] [r2 [G2 E2]]. exists (r1 * r2). split; [apply gcd_mul; assumption|].
  unfold padd_c. eapply eqm_trans; [apply eqm_mod|].
  eapply eqm_trans; [apply eqm_mul; eassumption|].
  rewrite Z.pow_mul_l.
  replace ((1 + m1 * N) * r1 ^ N * ((1 + m2 * N) * r2 ^ N))
    with (((1 + (m1 + m2) * N) + m1 * m2 * (N * N)) * (r1 ^ N * r2 ^ N)) by ring.
  apply eqm_mul; [|apply eqm_refl]. unfold eqm. apply Z_mod_plus_full.
Qed.

Lemma is_enc_mul N c m k : 1 < N -> 0 <= k -> is_enc N c m -> is_enc N (pmul_c N c k) (k * m).
Proof.
  intros HN Hk [r [G E]]. exists (r ^ k). split; [apply gcd_pow; assumption|].
  unfold pmul_c. rewrite powm_spec by nia.
  eapply eqm_trans; [apply eqm_mod|].
  eapply eqm_trans; [apply eqm_pow; eassumption|].
  rewrite Z.pow_mul_l. rewrite <- !Z.pow_mul_r by lia. rewrite (Z.mul_comm N k).
  apply eqm_mul; [|apply eqm_refl].
  eapply eqm_trans; [apply pow1p; [assumption|exists (m * m); ring]|].
  unfold eqm; f_equal; ring.
Qed.

Lemma is_enc_mod N c m : 1 < N -> is_enc N c m -> is_enc N c (m mod N).
Proof.
  intros HN [r [G E]]. exists r. split; [assumption|].
  eapply eqm_trans; [exact E|]. apply eqm_mul; [|apply eqm_refl].
  rewrite (Z.div_mod m N) at 1 by lia.
  replace (1 + (N * (m / N) + m mod N) * N) with (1 + m mod N * N + m / N * (N * N)) by ring.
  unfold eqm. apply Z_mod_plus_full.
Qed.

Lemma is_enc_gcd N c m : 1 < N -> is_enc N c m -> Z.gcd c (N * N) = 1.
Proof.
  intros HN [r [G E]]. assert (HNN : 0 < N * N) by nia. rewrite (gcd_eqm _ _ _ HNN E).
  apply gcd_mul.
  - apply gcd_sq. apply Zgcd_1_rel_prime. apply bezout_rel_prime.
    apply Bezout_intro with (u := 1) (v := - m). ring.
  - apply gcd_sq. apply gcd_pow; [lia|assumption].
Qed.

(** ** Decryption *)
Lemma gcd_mod_prime p q r : prime p -> Z.gcd r (p * q) = 1 -> r mod p <> 0.
Proof.
  intros Hp H E. pose proof (prime_ge_2 p Hp).
  apply Z.mod_divide in E; [|lia].
  assert (D : (p | Z.gcd r (p * q))) by (apply Z.gcd_greatest; [assumption|exists q; ring]).
  rewrite H in D. apply Z.divide_1_r_nonneg in D; lia.
Qed.

Lemma lfun_mod p x : 1 < p -> lfun ((1 + x * p) mod (p * p)) p = x mod p.
Proof.
  intros Hp. unfold lfun.
  assert (E : (1 + x * p) mod (p * p) = 1 + (x mod p) * p).
  { symmetry. apply Z.mod_unique with (q := x / p).
    - left. pose proof (Z.mod_pos_bound x p). nia.
    - pose proof (Z.div_mod x p ltac:(lia)) as D. rewrite D at 1. ring. }
  rewrite E. replace (1 + x mod p * p - 1) with (x mod p * p) by ring.
  apply Z.div_mul; lia.
Qed.

Lemma prime_ndiv p q : prime p -> prime q -> p <> q -> q mod p <> 0.
Proof.
  intros Hp Hq Hne E. pose proof (prime_ge_2 p Hp). apply Z.mod_divide in E; [|lia].
  apply prime_div_prime in E; auto.
Qed.

Lemma hfun_spec p q : prime p -> prime q -> p <> q ->
  (((- q) mod p) * hfun p (p * q)) mod p = 1.
Proof.
  intros Hp Hq Hne. pose proof (prime_ge_2 p Hp). unfold hfun.
  replace (1 - p * q) with (1 + (- q) * p) by ring. rewrite lfun_mod by lia.
  assert (G : Z.gcd ((- q) mod p) p = 1).
  { apply prime_gcd; [assumption|]. rewrite Z.mod_mod by lia.
    intros E. apply (prime_ndiv p q Hp Hq Hne).
    apply Z.mod_divide; [lia|]. apply Z.mod_divide in E; [|lia]. apply Z.divide_opp_r. assumption. }
  destruct (mod_inv_complete _ p ltac:(lia) G) as [h Hh]. rewrite Hh.
  apply mod_inv_sound in Hh; [|lia]. apply Hh.
Qed.

Lemma dec_half_spec p q c m : prime p -> prime q -> p <> q -> is_enc (p * q) c m ->
  dec_half p (p * q) c = m mod p.
Proof.
  intros Hp Hq Hne [r [G E]]. pose proof (prime_ge_2 p Hp). pose proof (prime_ge_2 q Hq).
  unfold dec_half. rewrite powm_spec by nia.
  assert (Ed : (c mod (p * p)) ^ (p - 1) mod (p * p) = (1 + (m * - q) * p) mod (p * p)).
  { change (eqm (p * p) ((c mod (p * p)) ^ (p - 1)) (1 + (m * - q) * p)).
    eapply eqm_trans; [apply eqm_pow; [lia|apply eqm_mod]|].
    apply (eqm_weaken _ (p * p)) in E; [|nia|nia|exists (q * q); ring].
    eapply eqm_trans; [apply eqm_pow; [lia|exact E]|].
    rewrite Z.pow_mul_l.
    eapply eqm_trans.
    - apply eqm_mul.
      + apply pow1p; [lia|]. exists (m * q * m * q). ring.
      + rewrite <- Z.pow_mul_r by nia.
        replace (p * q * (p - 1)) with (p * (p - 1) * q) by ring.
        rewrite Z.pow_mul_r by nia.
        apply eqm_pow; [lia|]. apply euler_sq; [assumption|].
        eapply gcd_mod_prime; eassumption.
    - rewrite Z.pow_1_l by lia. rewrite Z.mul_1_r.
      replace (1 + (p - 1) * (m * (p * q))) with (1 + m * - q * p + (m * q) * (p * p)) by ring.
      unfold eqm. apply Z_mod_plus_full. }
  rewrite Ed, lfun_mod by lia.
  pose proof (hfun_spec p q Hp Hq Hne) as Hh.
  rewrite Z.mul_mod_idemp_l by lia.
  replace (m * - q * hfun p (p * q)) with (m * (- q * hfun p (p * q))) by ring.
  rewrite <- Z.mul_mod_idemp_r by lia.
  rewrite Z.mul_mod_idemp_l in Hh by lia. rewrite Hh. rewrite Z.mul_1_r. reflexivity.
Qed.

Lemma crt_unique p q a b : prime p -> prime q -> p <> q ->
  0 <= a < p * q -> 0 <= b < p * q -> a mod p = b mod p -> a mod q = b mod q -> a = b.
Proof.
  intros Hp Hq Hne Ha Hb E1 E2. pose proof (prime_ge_2 p Hp). pose proof (prime_ge_2 q Hq).
  apply (proj1 (eqm_divide p a b ltac:(lia))) in E1.
  apply (proj1 (eqm_divide q a b ltac:(lia))) in E2.
  assert (D : (p * q | a - b)).
  { destruct E1 as [k Hk]. rewrite Hk in E2.
    rewrite Z.mul_comm in E2. apply Gauss in E2.
    - destruct E2 as [j Hj]. exists j. rewrite Hk. rewrite Hj. ring.
    - apply Zgcd_1_rel_prime. apply prime_gcd; [assumption|].
      apply prime_ndiv; auto. }
  destruct D as [k Hk].
  assert (k = 0) by nia. subst. lia.
Qed.

Theorem dec_spec p q c m : good_key p q -> is_enc (p * q) c m -> dec p q c = m mod (p * q).
Proof.
  intros [Hp [Hq Hne]] He. pose proof (prime_ge_2 p Hp). pose proof (prime_ge_2 q Hq).
  unfold dec. rewrite (dec_half_spec p q c m Hp Hq Hne He).
  assert (Hq2 : dec_half q (p * q) c = m mod q).
  { rewrite (Z.mul_comm p q). apply (dec_half_spec q p); auto. rewrite Z.mul_comm. assumption. }
  rewrite Hq2.
  destruct (mod_inv_complete p q) as [i Hi]; [lia|apply prime_gcd; [assumption|apply prime_ndiv; auto]|].
  rewrite Hi. apply mod_inv_sound in Hi; [|lia]. destruct Hi as [Hi _].
  set (u := ((m mod q - m mod p) mod q * i) mod q).
  assert (Hu : 0 <= u < q) by (apply Z.mod_pos_bound; lia).
  pose proof (Z.mod_pos_bound m p ltac:(lia)).
  apply (crt_unique p q); auto.
  - nia.
  - apply Z.mod_pos_bound; nia.
  - rewrite Z_mod_plus_full. rewrite Z.mod_mod by lia.
    symmetry. apply (eqm_weaken (p * q) p); [nia|lia|exists q; ring|apply eqm_mod].
  - transitivity (m mod q).
    + change (eqm q (m mod p + u * p) m).
      apply eqm_trans with (m mod p + (m mod q - m mod p) * (p * i)).
      * apply eqm_add; [apply eqm_refl|]. unfold u.
        eapply eqm_trans; [apply eqm_mul; [apply eqm_mod|apply eqm_refl]|].
        eapply eqm_trans; [apply eqm_mul; [apply eqm_mul; [apply eqm_mod|apply eqm_refl]|apply eqm_refl]|].
        unfold eqm; f_equal; ring.
      * apply eqm_trans with (m mod p + (m mod q - m mod p) * 1).
        -- apply eqm_add; [apply eqm_refl|]. apply eqm_mul; [apply eqm_refl|].
           unfold eqm. rewrite Hi. symmetry; apply Z.mod_1_l; lia.
        -- replace (m mod p + (m mod q - m mod p) * 1) with (m mod q) by ring. apply eqm_mod.
    + symmetry. apply (eqm_weaken (p * q) q); [nia|lia|exists p; ring|apply eqm_mod].
Qed.

Lemma good_key_gt1 p q : good_key p q -> 1 < p * q.
Proof. intros [Hp [Hq _]]. pose proof (prime_ge_2 p Hp). pose proof (prime_ge_2 q Hq). nia. Qed.

Lemma dec_enc p q m r : good_key p q -> Z.gcd r (p * q) = 1 ->
  dec p q (enc (p * q) m r) = m mod (p * q).
Proof.
  intros Hk Hr. apply dec_spec; [assumption|]. apply enc_is_enc; [|assumption].
  apply good_key_gt1; assumption.
Qed.

(** One ciphertext has one plaintext. *)
Lemma enc_inj p q m m' r r' : good_key p q -> Z.gcd r (p * q) = 1 -> Z.gcd r' (p * q) = 1 ->
  enc (p * q) m r = enc (p * q) m' r' -> m mod (p * q) = m' mod (p * q).
Proof.
  intros Hk Hr Hr' E. rewrite <- (dec_enc p q m r), <- (dec_enc p q m' r') by assumption.
  rewrite E. reflexivity.
Qed.

Lemma is_enc_fun p q c m m' : good_key p q -> is_enc (p * q) c m -> is_enc (p * q) c m' ->
  m mod (p * q) = m' mod (p * q).
Proof. intros Hk H1 H2. rewrite <- (dec_spec p q c m), <- (dec_spec p q c m') by assumption. reflexivity. Qed.

Lemma enc_range N m r : 1 < N -> 0 <= enc N m r < N * N.
Proof. intros. apply Z.mod_pos_bound. nia. Qed.

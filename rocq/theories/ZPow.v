(** Powers with integer exponents modulo [n] (specification side), and their link with
    GMP's [mod_pow]. *)
From Coq Require Import ZArith Znumtheory Lia.
From Verif Require Import ZArithX Paillier PaillierProofs.
Local Open Scope Z_scope.

(** b^k mod n for k >= 0, (b^-1)^(-k) mod n for k < 0 (meaningful for units). *)
Definition zpow (b k n : Z) : Z :=
  if 0 <=? k then (b ^ k) mod n
  else match mod_inv b n with Some i => (i ^ (- k)) mod n | None => 0 end.

Lemma zpow_nonneg b k n : 0 <= k -> zpow b k n = (b ^ k) mod n.
Proof. intros H. unfold zpow. apply Z.leb_le in H. rewrite H. reflexivity. Qed.

Lemma mod_pow_zpow b k n : 1 < n -> Z.gcd b n = 1 -> mod_pow b k n = Some (zpow b k n).
Proof.
  intros Hn Hg. unfold mod_pow, zpow.
  replace (n =? 0) with false by (symmetry; apply Z.eqb_neq; lia).
  rewrite Z.abs_eq by lia.
  destruct (Z.leb_spec 0 k) as [E|E].
  - rewrite powm_spec by lia. reflexivity.
  - destruct (mod_inv_complete b n Hn Hg) as [i Hi]. rewrite Hi.
    rewrite powm_spec by lia. reflexivity.
Qed.

Lemma zpow_range b k n : 1 < n -> 0 <= zpow b k n < n.
Proof.
  intros Hn. unfold zpow. destruct (0 <=? k); [apply Z.mod_pos_bound; lia|].
  destruct (mod_inv b n); [apply Z.mod_pos_bound; lia|lia].
Qed.

Lemma zpow_char b k K n : 1 < n -> Z.gcd b n = 1 -> 0 <= K -> 0 <= k + K ->
  eqm n (zpow b k n * b ^ K) (b ^ (k + K)).
Proof.
  intros Hn Hg HK HkK. unfold zpow. destruct (Z.leb_spec 0 k) as [E|E].
  - rewrite Z.pow_add_r by lia. apply eqm_mul; [apply eqm_mod|apply eqm_refl].
  - destruct (mod_inv_complete b n Hn Hg) as [i Hi]. rewrite Hi.
    apply mod_inv_sound in Hi; [|lia]. destruct Hi as [Hi _].
    eapply eqm_trans; [apply eqm_mul; [apply eqm_mod|apply eqm_refl]|].
    replace (b ^ K) with (b ^ (- k) * b ^ (k + K)) by (rewrite <- Z.pow_add_r by lia; f_equal; lia).
    rewrite Z.mul_assoc, <- Z.pow_mul_l.
    eapply eqm_trans; [apply eqm_mul; [apply (eqm_pow n (i * b) 1); [lia|]|apply eqm_refl]|].
    + unfold eqm. rewrite Z.mul_comm, Hi. symmetry. apply Z.mod_1_l; lia.
    + rewrite Z.pow_1_l by lia. rewrite Z.mul_1_l. apply eqm_refl.
Qed.

Lemma zpow_unit b k n : 1 < n -> Z.gcd b n = 1 -> Z.gcd (zpow b k n) n = 1.
Proof.
  intros Hn Hg. pose proof (zpow_char b k (Z.abs k) n Hn Hg ltac:(lia) ltac:(lia)) as E.
  apply gcd_eqm in E; [|lia]. rewrite (gcd_pow b (k + Z.abs k)) in E by (assumption || lia).
  apply Zgcd_1_rel_prime in E. apply Zgcd_1_rel_prime.
  apply rel_prime_sym. apply rel_prime_sym in E.
  destruct E as [E1 E2 E3]. constructor; [apply Z.divide_1_l|apply Z.divide_1_l|].
  intros x Hx1 Hx2. apply E3; [assumption|]. apply Z.divide_mul_l; assumption.
Qed.

Lemma zpow_add b i j n : 1 < n -> Z.gcd b n = 1 ->
  eqm n (zpow b (i + j) n) (zpow b i n * zpow b j n).
Proof.
  intros Hn Hg. set (K := Z.abs i + Z.abs j).
  apply (eqm_cancel_l n (b ^ K * b ^ K)); [lia|apply gcd_mul; apply gcd_pow; (assumption || lia)|].
  apply eqm_trans with (b ^ (i + j + (K + K))).
  - rewrite <- Z.pow_add_r by lia. rewrite Z.mul_comm. apply zpow_char; lia || assumption.
  - replace (i + j + (K + K)) with ((i + K) + (j + K)) by ring.
    rewrite Z.pow_add_r by lia. apply eqm_sym.
    replace (b ^ K * b ^ K * (zpow b i n * zpow b j n))
      with ((zpow b i n * b ^ K) * (zpow b j n * b ^ K)) by ring.
    apply eqm_mul; apply zpow_char; lia || assumption.
Qed.

Lemma zpow_sub b i j n : 1 < n -> Z.gcd b n = 1 ->
  eqm n (zpow b (i - j) n * zpow b j n) (zpow b i n).
Proof.
  intros Hn Hg. apply eqm_sym. replace i with ((i - j) + j) at 1 by ring. apply zpow_add; assumption.
Qed.

Lemma rem_nonneg a n : 0 < n -> 0 <= a -> Z.rem a n = a mod n.
Proof. intros. apply Z.rem_mod_nonneg; lia. Qed.

Lemma eqm_rem n a : 0 < n -> eqm n (Z.rem a n) a.
Proof.
  intros Hn. apply eqm_divide; [lia|]. exists (- Z.quot a n).
  pose proof (Z.quot_rem a n ltac:(lia)). lia.
Qed.

(** A congruence between two reduced values is an equality. *)
Lemma eqm_small n a b : 0 <= a < n -> 0 <= b < n -> eqm n a b -> a = b.
Proof. intros Ha Hb H. unfold eqm in H. rewrite !Z.mod_small in H by assumption. assumption. Qed.

(** Dividing by a unit. *)
Lemma eqm_div n a x c i : 1 < n -> (c * i) mod n = 1 -> eqm n (a * c) x -> eqm n a (x * i).
Proof.
  intros Hn Hi H. apply eqm_trans with ((a * c) * i); [|apply eqm_mul; [assumption|apply eqm_refl]].
  replace (a * c * i) with (a * (c * i)) by ring.
  apply eqm_trans with (a * 1); [unfold eqm; f_equal; ring|].
  apply eqm_mul; [apply eqm_refl|]. unfold eqm. rewrite Hi. apply Z.mod_1_l; lia.
Qed.
Lemma eqm_undiv n a x c i : 1 < n -> (c * i) mod n = 1 -> eqm n a (x * i) -> eqm n (a * c) x.
Proof.
  intros Hn Hi H. apply eqm_trans with ((x * i) * c); [apply eqm_mul; [assumption|apply eqm_refl]|].
  replace (x * i * c) with (x * (c * i)) by ring.
  apply eqm_trans with (x * 1); [|unfold eqm; f_equal; ring].
  apply eqm_mul; [apply eqm_refl|]. unfold eqm. rewrite Hi. symmetry; apply Z.mod_1_l; lia.
Qed.

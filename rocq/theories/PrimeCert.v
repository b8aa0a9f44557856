(** Primality of numbers k 2^m + 1 (Proth's theorem), used to give examples with primes of realistic size. *)
From Coq Require Import ZArith Znumtheory Lia Bool List.
From Verif Require Import ZArithX Paillier PaillierProofs.
Local Open Scope Z_scope.

Lemma prime_factor n : 1 < n -> exists p, prime p /\ (p | n).
Proof.
  intros H. assert (N0 : 0 <= n) by lia. revert H. refine (Z_lt_induction (fun n => 1 < n -> exists p, prime p /\ (p | n)) _ n N0).
  intros x IH X. destruct (prime_dec x) as [P|P]; [exists x; split; [exact P|apply Z.divide_refl]|].
  destruct (not_prime_divide x X P) as (d & D & DX). destruct (IH d ltac:(lia) ltac:(lia)) as (p & PP & PD). exists p. split; [exact PP|]. eapply Z.divide_trans; eassumption.
Qed.
Lemma two_part n : 0 < n -> exists i o, 0 <= i /\ Z.odd o = true /\ n = 2 ^ i * o.
Proof.
  intros H. assert (N0 : 0 <= n) by lia. revert H. refine (Z_lt_induction (fun n => 0 < n -> exists i o, 0 <= i /\ Z.odd o = true /\ n = 2 ^ i * o) _ n N0).
  intros x IH X. destruct (Z.odd x) eqn:O.
  - exists 0, x. rewrite Z.pow_0_r. split; [lia|]. split; [exact O|ring].
  - rewrite <- Z.negb_even in O. apply negb_false_iff, Z.even_spec in O. destruct O as [y ->]. destruct (IH y ltac:(lia) ltac:(lia)) as (i & o & I & OO & E). exists (i + 1), o. split; [lia|]. split; [exact OO|]. rewrite Z.pow_add_r, Z.pow_1_r by lia. rewrite E at 1. ring.
Qed.
Lemma neg1_pow_odd o : 0 <= o -> Z.odd o = true -> (-1) ^ o = -1.
Proof.
  intros O H. apply Z.odd_spec in H. destruct H as [j ->]. rewrite Z.pow_add_r, Z.pow_1_r, Z.pow_mul_r by lia. change ((-1) ^ 2) with 1. rewrite Z.pow_1_l by lia. reflexivity.
Qed.

Theorem proth k m a : 0 < k < 2 ^ m -> 1 <= m -> eqm (k * 2 ^ m + 1) (a ^ (k * 2 ^ (m - 1))) (-1) -> prime (k * 2 ^ m + 1).
Proof.
  intros K M A. set (N := k * 2 ^ m + 1) in *. assert (T : 2 ^ m = 2 * 2 ^ (m - 1)) by (rewrite <- Z.pow_succ_r by lia; f_equal; lia).
  assert (T1 : 1 <= 2 ^ (m - 1)) by (pose proof (Z.pow_pos_nonneg 2 (m - 1) ltac:(lia) ltac:(lia)); lia).
  assert (BIG : forall p, prime p -> (p | N) -> 2 ^ m < p).
  { intros p P D. pose proof (prime_ge_2 p P) as P2.
    assert (PO : 2 < p). { destruct (Z.eq_dec p 2) as [->|NE]; [|lia]. exfalso. destruct D as [c D]. unfold N in D. rewrite T in D. lia. }
    apply (eqm_weaken N p) in A; [|lia|unfold N; nia|exact D].
    assert (AP : a mod p <> 0).
    { intros Z0. assert (E : eqm p (a ^ (k * 2 ^ (m - 1))) 0). { eapply eqm_trans; [apply eqm_pow with (b := 0); [nia|unfold eqm; rewrite Z0; reflexivity]|]. rewrite Z.pow_0_l by nia. apply eqm_refl. }
      pose proof (eqm_trans _ _ _ _ (eqm_sym _ _ _ A) E) as F. apply eqm_divide in F; [|lia]. apply Z.divide_opp_r in F. cbn in F. apply Z.divide_pos_le in F; lia. }
    destruct (two_part (p - 1) ltac:(lia)) as (i & o & I & OO & E).
    assert (O1 : 1 <= o). { destruct (Z.le_gt_cases o 0) as [L|L]; [|lia]. exfalso. pose proof (Z.pow_pos_nonneg 2 i ltac:(lia) I). nia. }
    destruct (Z.le_gt_cases m i) as [L|L].
    - pose proof (Z.pow_le_mono_r 2 m i ltac:(lia) L). nia.
    - exfalso. apply (eqm_pow _ _ _ o ltac:(lia)) in A. rewrite neg1_pow_odd in A by (assumption || lia).
      assert (F : eqm p ((a ^ (k * 2 ^ (m - 1))) ^ o) 1).
      { rewrite <- Z.pow_mul_r by nia. replace (m - 1) with (i + (m - 1 - i)) by lia. rewrite Z.pow_add_r by lia.
        replace (k * (2 ^ i * 2 ^ (m - 1 - i)) * o) with ((p - 1) * (k * 2 ^ (m - 1 - i))) by (rewrite E; ring).
        assert (0 <= k * 2 ^ (m - 1 - i)) by (pose proof (Z.pow_nonneg 2 (m - 1 - i) ltac:(lia)); nia).
        rewrite Z.pow_mul_r by lia. eapply eqm_trans; [apply eqm_pow with (b := 1); [assumption|unfold eqm; rewrite fermat, Z.mod_1_l by (assumption || lia); reflexivity]|]. rewrite Z.pow_1_l by assumption. apply eqm_refl. }
      pose proof (eqm_trans _ _ _ _ (eqm_sym _ _ _ A) F) as G. apply eqm_divide in G; [|lia]. apply Z.divide_opp_r in G. cbn in G. apply Z.divide_pos_le in G; lia. }
  destruct (prime_dec N) as [P|P]; [exact P|exfalso]. assert (N1 : 1 < N) by (unfold N; nia).
  destruct (not_prime_divide N N1 P) as (u & U & [v V]). assert (V1 : 1 < v) by nia.
  assert (S : exists w, 1 < w /\ (w | N) /\ w * w <= N).
  { destruct (Z.le_gt_cases u v) as [L|L]; [exists u|exists v]; (split; [lia|]; split; [|nia]); [exists v; exact V|exists u; rewrite V; ring]. }
  destruct S as (w & W1 & WN & WW). destruct (prime_factor w W1) as (p & PP & PW). pose proof (BIG p PP (Z.divide_trans _ _ _ PW WN)) as B. apply Z.divide_pos_le in PW; [|lia].
  assert ((2 ^ m + 1) * (2 ^ m + 1) <= N) by nia. unfold N in *. nia.
Qed.
Lemma proth_check k m a : (0 <? k) && (k <? 2 ^ m) && (1 <=? m) && (powm a (k * 2 ^ (m - 1)) (k * 2 ^ m + 1) =? k * 2 ^ m) = true -> prime (k * 2 ^ m + 1).
Proof.
  intros H. rewrite !andb_true_iff in H. destruct H as (((K1 & K2) & M) & A). apply Z.ltb_lt in K1. apply Z.ltb_lt in K2. apply Z.leb_le in M. apply Z.eqb_eq in A.
  apply (proth k m a); [lia|lia|]. assert (T1 : 0 < 2 ^ (m - 1)) by (apply Z.pow_pos_nonneg; lia).
  rewrite powm_spec in A by nia. unfold eqm. rewrite A. symmetry. replace (-1) with (k * 2 ^ m + (-1) * (k * 2 ^ m + 1)) by ring. rewrite Z.mod_add, Z.mod_small by nia. reflexivity.
Qed.

Definition P68 : Z := 3 * 2 ^ 66 + 1.
Definition P73 : Z := 31 * 2 ^ 68 + 1.
Lemma prime_P68 : prime P68. Proof. apply (proth_check 3 66 5). vm_compute. reflexivity. Qed.
Lemma prime_P73 : prime P73. Proof. apply (proth_check 31 68 3). vm_compute. reflexivity. Qed.

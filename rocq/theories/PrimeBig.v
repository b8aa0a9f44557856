(** Two primes of 1024 bits of the form k 2^m + 1.

    An element [a] with a^(2^j) = -1 modulo N has order 2^(j+1) modulo every
    prime factor of N, so every divisor of N is 1 modulo F = 2^(j+1); when F^2
    divides N - 1 and N <= F^3 this leaves no room for two factors. *)
From Coq Require Import ZArith Znumtheory Lia Bool.
From Verif Require Import ZArithX Paillier PaillierProofs PrimeCert.
Local Open Scope Z_scope.

Lemma order_two_power N a j r : 1 < N -> 0 <= j -> eqm N (a ^ 2 ^ j) (-1) -> prime r -> 2 < r -> (r | N) -> (2 ^ (j + 1) | r - 1).
Proof.
  intros N1 J A R R2 D. apply (eqm_weaken N r) in A; [|lia|lia|exact D]. pose proof (Z.pow_pos_nonneg 2 j ltac:(lia) J) as TJ.
  assert (AP : a mod r <> 0).
  { intros Z0. assert (E : eqm r (a ^ 2 ^ j) 0). { eapply eqm_trans; [apply eqm_pow with (b := 0); [lia|unfold eqm; rewrite Z0; reflexivity]|]. rewrite Z.pow_0_l by lia. apply eqm_refl. }
    pose proof (eqm_trans _ _ _ _ (eqm_sym _ _ _ A) E) as F. apply eqm_divide in F; [|lia]. apply Z.divide_opp_r in F. cbn in F. apply Z.divide_pos_le in F; lia. }
  destruct (two_part (r - 1) ltac:(lia)) as (i & o & I & OO & E). pose proof (Z.pow_pos_nonneg 2 i ltac:(lia) I) as TI.
  assert (O1 : 1 <= o). { destruct (Z.le_gt_cases o 0) as [L|L]; [|lia]. exfalso. nia. }
  destruct (Z.le_gt_cases (j + 1) i) as [L|L].
  - exists (2 ^ (i - (j + 1)) * o). rewrite E. replace (2 ^ i) with (2 ^ (i - (j + 1)) * 2 ^ (j + 1)) by (rewrite <- Z.pow_add_r by lia; f_equal; lia). ring.
  - exfalso. assert (E1 : eqm r ((a ^ 2 ^ j) ^ o) (-1)) by (eapply eqm_trans; [apply eqm_pow with (b := -1); [lia|exact A]|]; rewrite neg1_pow_odd by (lia || exact OO); apply eqm_refl).
    assert (E2 : eqm r ((a ^ 2 ^ j) ^ o) 1).
    { rewrite <- Z.pow_mul_r by lia. replace (2 ^ j * o) with ((r - 1) * 2 ^ (j - i)) by (rewrite E; replace (2 ^ j) with (2 ^ i * 2 ^ (j - i)) by (rewrite <- Z.pow_add_r by lia; f_equal; lia); ring).
      rewrite Z.pow_mul_r by (lia || apply Z.pow_nonneg; lia). eapply eqm_trans; [apply eqm_pow with (b := 1); [apply Z.pow_nonneg; lia|unfold eqm; rewrite fermat, Z.mod_1_l by (assumption || lia); reflexivity]|]. rewrite Z.pow_1_l by (apply Z.pow_nonneg; lia). apply eqm_refl. }
    pose proof (eqm_trans _ _ _ _ (eqm_sym _ _ _ E2) E1) as F. apply eqm_divide in F; [|lia]. apply Z.divide_pos_le in F; lia.
Qed.
Lemma divisors_one N F : 0 < F -> (forall r, prime r -> (r | N) -> (F | r - 1)) -> forall d, 1 <= d -> (d | N) -> (F | d - 1).
Proof.
  intros F0 H d D1. assert (D0 : 0 <= d) by lia. revert D1. refine (Z_lt_induction (fun d => 1 <= d -> (d | N) -> (F | d - 1)) _ d D0).
  intros x IH X XN. destruct (Z.eq_dec x 1) as [->|X1]; [exists 0; reflexivity|]. destruct (prime_factor x ltac:(lia)) as (r & R & [y Y]). pose proof (prime_ge_2 _ R).
  assert (YN : (y | N)) by (apply (Z.divide_trans _ x); [exists r; rewrite Y; ring|exact XN]). assert (RN : (r | N)) by (apply (Z.divide_trans _ x); [exists y; exact Y|exact XN]).
  destruct (IH y ltac:(nia) ltac:(nia) YN) as [u U]. destruct (H r R RN) as [v V]. exists (y * v + u). replace (x - 1) with (y * (r - 1) + (y - 1)) by (rewrite Y; ring). rewrite U, V. ring.
Qed.
Lemma two_power_prime N a j : 1 < N -> 0 <= j -> (2 ^ (j + 1) * 2 ^ (j + 1) | N - 1) -> N <= 2 ^ (j + 1) * 2 ^ (j + 1) * 2 ^ (j + 1) -> eqm N (a ^ 2 ^ j) (-1) -> prime N.
Proof.
  intros N1 J FF BIG A. pose proof (Z.pow_pos_nonneg 2 j ltac:(lia) J) as TJ. assert (FE : 2 ^ (j + 1) = 2 * 2 ^ j) by (rewrite Z.pow_add_r, Z.pow_1_r by lia; ring). set (F := 2 ^ (j + 1)) in *.
  assert (ALL : forall d, 1 <= d -> (d | N) -> (F | d - 1)).
  { apply divisors_one; [lia|]. intros r R D. apply (order_two_power N a); try assumption. pose proof (prime_ge_2 _ R). destruct (Z.eq_dec r 2) as [->|]; [exfalso|lia]. destruct D as [c C]. destruct FF as [e E]. rewrite C, FE in E. lia. }
  destruct (prime_dec N) as [P|P]; [exact P|exfalso]. destruct (not_prime_divide N N1 P) as (r & R & [s S]).
  assert (S1 : 1 < s) by nia. destruct (ALL r ltac:(lia) ltac:(exists s; exact S)) as [u U]. destruct (ALL s ltac:(lia) ltac:(exists r; rewrite S; ring)) as [v V].
  assert (U1 : 1 <= u) by nia. assert (V1 : 1 <= v) by nia. assert (E : N - 1 = F * (u + v) + F * F * (u * v)) by (replace r with (u * F + 1) in S by lia; replace s with (v * F + 1) in S by lia; rewrite S; ring).
  destruct FF as [e G]. assert (D : (F | u + v)). { exists (e - u * v). apply (Z.mul_reg_l _ _ F); [lia|]. rewrite <- (Z.add_simpl_r (F * (u + v)) (F * F * (u * v))), <- E, G. ring. }
  apply Z.divide_pos_le in D; [|lia]. assert (UV : u + v - 1 <= u * v) by (assert (0 <= (u - 1) * (v - 1)) by (apply Z.mul_nonneg_nonneg; lia); lia).
  assert (X1 : F * F <= F * (u + v)) by (apply Z.mul_le_mono_nonneg_l; lia). assert (X2 : F * F * (F - 1) <= F * F * (u * v)) by (apply Z.mul_le_mono_nonneg_l; [apply Z.mul_nonneg_nonneg; lia|lia]).
  clear - E X1 X2 BIG. generalize dependent (F * (u + v)). generalize dependent (F * F * (u * v)). intros; lia.
Qed.

(** Squaring by Karatsuba splitting at bit [h], and reduction modulo k 2^m + 1. *)
Fixpoint ksq (n : nat) (h x : Z) : Z :=
  match n with
  | O => Z.square x
  | S n' =>
      let hi := Z.shiftr x h in
      let lo := x - Z.shiftl hi h in
      let h' := Z.div2 h in
      let a := ksq n' h' hi in
      let b := ksq n' h' lo in
      let c := ksq n' h' (hi + lo) in
      Z.shiftl (Z.shiftl a h + (c - a - b)) h + b
  end.
Lemma ksq_eq n : forall h x, 0 <= h -> ksq n h x = x * x.
Proof.
  induction n as [|n IH]; intros h x H; cbn [ksq]; [apply Z.square_spec|]. rewrite !IH by (apply Z.div2_nonneg; exact H). rewrite !Z.shiftl_mul_pow2 by exact H. ring.
Qed.
Definition red (k m x : Z) : Z :=
  let a := Z.shiftr x m in
  let b := x - Z.shiftl a m in
  let '(a', a'') := Z.div_eucl a k in
  Z.shiftl a'' m + b - a'.
Lemma red_eqm k m x : 0 < k -> 0 <= m -> eqm (k * 2 ^ m + 1) (red k m x) x.
Proof.
  intros K M. unfold red. set (a := Z.shiftr x m). pose proof (Z_div_mod a k ltac:(lia)) as D. destruct (Z.div_eucl a k) as [a' a'']. destruct D as [D _].
  rewrite !Z.shiftl_mul_pow2 by exact M. apply eqm_divide; [pose proof (Z.pow_pos_nonneg 2 m ltac:(lia) M); nia|]. exists (- a'). rewrite D. ring.
Qed.
Fixpoint sqs (n : nat) (k m x : Z) (j : nat) : Z :=
  match j with O => x | S j' => sqs n k m (red k m (ksq n 512 x)) j' end.
Lemma sqs_eqm n k m : 0 < k -> 0 <= m -> forall j x, eqm (k * 2 ^ m + 1) (sqs n k m x j) (x ^ 2 ^ Z.of_nat j).
Proof.
  intros K M. induction j as [|j IH]; intros x; cbn [sqs].
  - change (2 ^ Z.of_nat 0) with 1. rewrite Z.pow_1_r. apply eqm_refl.
  - eapply eqm_trans; [apply IH|]. rewrite Nat2Z.inj_succ, Z.pow_succ_r, Z.pow_mul_r by lia. apply eqm_pow; [apply Z.pow_nonneg; lia|]. eapply eqm_trans; [apply red_eqm; assumption|]. rewrite ksq_eq by lia. rewrite Z.pow_2_r. apply eqm_refl.
Qed.
Lemma two_power_fast n k m a (j : nat) : let F := 2 ^ (Z.of_nat j + 1) in
  (0 <? k) && (0 <? m) && ((k * 2 ^ m) mod (F * F) =? 0) && (k * 2 ^ m + 1 <=? F * F * F) && ((sqs n k m a j + 1) mod (k * 2 ^ m + 1) =? 0) = true -> prime (k * 2 ^ m + 1).
Proof.
  intros F H. rewrite !andb_true_iff in H. destruct H as ((((K & M) & D) & B) & A). apply Z.ltb_lt in K. apply Z.ltb_lt in M. apply Z.eqb_eq in D. apply Z.leb_le in B. apply Z.eqb_eq in A.
  assert (F1 : 0 < F) by (apply Z.pow_pos_nonneg; lia). pose proof (Z.pow_pos_nonneg 2 m ltac:(lia) ltac:(lia)) as T. assert (N1 : 1 < k * 2 ^ m + 1) by nia.
  apply (two_power_prime _ a (Z.of_nat j)); [exact N1|lia| |exact B|].
  - replace (k * 2 ^ m + 1 - 1) with (k * 2 ^ m) by ring. apply Z.mod_divide; [fold F; nia|exact D].
  - eapply eqm_trans; [apply eqm_sym, sqs_eqm; lia|]. apply eqm_divide; [lia|]. apply Z.mod_divide in A; [|lia]. replace (sqs n k m a j - -1) with (sqs n k m a j + 1) by ring. exact A.
Qed.
Definition Q1 : Z := 12309 * 2 ^ 1010 + 1.
Definition Q2 : Z := 7161 * 2 ^ 1011 + 1.
Lemma prime_Q1 : prime Q1.
Proof. apply (two_power_fast 3 12309 1010 0x30f8bd09e5f8136356f256dcfd5cf573c31116974f844d3b0ef3968eac6025399db2cba2cfece62c8ddca93642f51c3d41d8631c7fffe8201a73931fda585a4a9a74632730c907cd325bf7a48051adf4bf9bcf875f4cccbe282921281b1c5fbad33fa21198a3bd87cb0c62c9fc5cf1396008bb1067817b956c5f39a728ebc8d3 341). vm_cast_no_check (eq_refl true). Qed.
Lemma prime_Q2 : prime Q2.
Proof. apply (two_power_fast 3 7161 1011 0xa2cf4d16de4e543132abe23f075c22a197f97f82ff702025c460e7405481d57e9c8647fa85b9f57ac1f63ef25cbad18301fb25c21ae842df9fdeeb5920d46882a46b561212d6f96fd51395acb6b329cc85b9c9f97fbebc7326f1b17c3c08432dbd3d7dcc60dce9a6dbd4be03eb6a280ec5b030350c4db7c2a82afe9cf447d55c 341). vm_cast_no_check (eq_refl true). Qed.

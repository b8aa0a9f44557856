(** Plaintext relations and panic conditions of the range proofs. *)
From Coq Require Import ZArith Znumtheory Lia Bool List Field.
From Verif Require Import ZArithX Fq Curve Outcome Sigma Paillier PaillierProofs ZPow
  RangeProofs RangeProofsProofs BobProofs Forge.
Import ListNotations.
Local Open Scope Z_scope.

Lemma is_enc_zpow N c m k : 1 < N -> is_enc N c m -> is_enc N (zpow c k (N * N)) (k * m).
Proof.
  intros HN Hc. assert (HNN : 1 < N * N) by nia. assert (Gc := is_enc_gcd _ _ _ HN Hc).
  assert (HN0 : 0 <= N) by lia.
  destruct Hc as [r [Gr Er]].
  destruct (Z_le_gt_dec 0 k) as [Hk|Hk].
  - exists (r ^ k). split; [apply gcd_pow; assumption|]. rewrite zpow_nonneg by assumption.
    eapply eqm_trans; [apply eqm_mod|]. eapply eqm_trans; [apply eqm_pow; [assumption|exact Er]|].
    rewrite Z.pow_mul_l. rewrite <- !Z.pow_mul_r by assumption. rewrite (Z.mul_comm N k).
    apply eqm_mul; [|apply eqm_refl].
    replace (k * m * N) with (k * (m * N)) by ring. apply pow1p; [assumption|]. exists (m * m). ring.
  - assert (HKx : exists K, K = - k) by eauto. destruct HKx as [K EK]. assert (HK : 0 <= K) by lia.
    destruct (mod_inv_complete r N HN Gr) as [i Hi].
    assert (Gi : Z.gcd i N = 1 /\ eqm N (r * i) 1).
    { pose proof (mod_inv_sound r N i ltac:(lia) Hi) as [Ei _]. 
      split; [|unfold eqm; rewrite Ei, Z.mod_1_l by lia; reflexivity].
      apply gcd_factor_r with r. rewrite <- gcd_mod_1 by lia. rewrite Ei. apply Z.gcd_1_l. }
    destruct Gi as [Gi Ei].
    exists (i ^ K). split; [apply gcd_pow; assumption|].
    apply (eqm_cancel_l (N * N) (c ^ K)); [lia|apply gcd_pow; assumption|].
    rewrite (Z.mul_comm (c ^ K) (zpow c k (N * N))).
    eapply eqm_trans; [apply zpow_char; [assumption|assumption|assumption|lia]|].
    replace (k + K) with 0 by lia. rewrite Z.pow_0_r.
    apply eqm_sym. eapply eqm_trans; [apply eqm_mul; [apply eqm_pow; [assumption|exact Er]|apply eqm_refl]|].
    rewrite Z.pow_mul_l.
    eapply eqm_trans; [apply eqm_mul; [apply eqm_mul; [apply (pow1p (N * N) (m * N) K HK); exists (m * m); ring|apply eqm_refl]|apply eqm_refl]|].
    rewrite <- !Z.pow_mul_r by assumption. rewrite (Z.mul_comm N K).
    replace ((1 + K * (m * N)) * r ^ (K * N) * ((1 + k * m * N) * i ^ (K * N)))
      with (((1 + K * (m * N)) * (1 + k * m * N)) * (r ^ (K * N) * i ^ (K * N))) by ring.
    rewrite <- Z.pow_mul_l. rewrite Z.pow_mul_r, <- Z.pow_mul_r by assumption.
    rewrite (Z.mul_comm K N), Z.pow_mul_r by assumption.
    apply eqm_trans with (1 * 1); [|apply eqm_refl]. apply eqm_mul.
    + replace ((1 + K * (m * N)) * (1 + k * m * N)) with (1 + (K * k * m * m) * (N * N) + (K + k) * (m * N)) by ring.
      replace (K + k) with 0 by lia. rewrite Z.mul_0_l, Z.add_0_r. unfold eqm. apply Z_mod_plus_full.
    + apply eqm_trans with (1 ^ K); [|rewrite Z.pow_1_l by assumption; apply eqm_refl].
      apply eqm_pow; [assumption|]. rewrite <- (Z.pow_1_l N HN0) . apply pow_lift; assumption.
Qed.

Section E.
Context (C : Curve).
Notation q := (cq C).
Notation F := (Fq q).
Implicit Types (H : hashZ C).

Lemma q3_pos : 0 <= q ^ 3.
Proof. apply Z.pow_nonneg. pose proof (q_gt1 (cq_prime C)). lia. Qed.

Lemma inv_of_pow b e n : 1 < n -> Z.gcd b n = 1 -> exists i, mod_inv (zpow b e n) n = Some i.
Proof. intros Hn Hb. apply mod_inv_complete; [assumption|]. apply zpow_unit; assumption. Qed.

Lemma alice_panic_iff H p c N st : 1 < N -> good_st st ->
  (alice_verify H p c N st = Panic <->
   ap_s1 p <= q ^ 3 /\ ap_e p < 0 /\ (Z.gcd (ap_z p) (dl_N st) <> 1 \/ Z.gcd c (N * N) <> 1)).
Proof.
  intros HN Hst. pose proof Hst as [HNt [G1 G2]]. assert (HNN : 1 < N * N) by (clear - HN; nia).
  destruct (Z_lt_le_dec (ap_e p) 0) as [He|He].
  - unfold alice_verify. destruct (Z.ltb_spec (q ^ 3) (ap_s1 p)) as [Hs|Hs].
    { split; [discriminate|]. intros [K _]. exfalso. clear - Hs K. lia. }
    destruct (Z.eq_dec (Z.gcd (ap_z p) (dl_N st)) 1) as [Gz|Gz].
    + rewrite (mod_pow_zpow (ap_z p)) by assumption. cbn [unwrap obind].
      rewrite bn_inv_pos by (clear - HNt; lia).
      destruct (inv_of_pow (ap_z p) (ap_e p) (dl_N st) HNt Gz) as [zi ->].
      rewrite (mod_pow_zpow (dl_h1 st)), (mod_pow_zpow (dl_h2 st)) by assumption. cbn [unwrap obind].
      destruct (Z.eq_dec (Z.gcd c (N * N)) 1) as [Gc|Gc].
      * rewrite (mod_pow_zpow c) by assumption. cbn [unwrap obind]. rewrite bn_inv_pos by (clear - HNN; lia).
        destruct (inv_of_pow c (ap_e p) (N * N) HNN Gc) as [ci ->].
        rewrite mod_pow_pos by (clear - HN HNN; lia). cbn [unwrap obind].
        split; [discriminate|]. intros [_ [_ [K|K]]]; contradiction.
      * rewrite (proj2 (mod_pow_none c (ap_e p) (N * N) HNN)) by auto. cbn [unwrap obind]. split; auto.
    + rewrite (proj2 (mod_pow_none (ap_z p) (ap_e p) (dl_N st) HNt)) by auto. cbn [unwrap obind]. split; auto.
  - split; [|intros [_ [K _]]; exfalso; clear - He K; lia].
    destruct (alice_verify_cases C p c N st HN Hst He) as [[E _]|[_ [u [w [_ [_ [_ [_ E]]]]]]]]; rewrite E; discriminate.
Qed.

Lemma bobext_points p (u : pt C) a m N st (X : pt C) l : 1 < N -> good_st st -> Z.gcd a (N * N) = 1 -> 0 <= bp_e p ->
  (forall H, bobext_verify H p u a m N st X = Ok (H l =? bp_e p)) -> u <> pzero /\ X <> pzero.
Proof.
  intros HN Hst GA He Hl. 
  destruct (bob_verify_cases C p a m N st HN Hst GA He) as [[Hf _]|[Hs [zp [v [w [Q [_ [_ [_ [_ E]]]]]]]]]].
  - specialize (Hl (fun _ => bp_e p)). unfold bobext_verify in Hl. rewrite Hf, Z.eqb_refl in Hl. discriminate.
  - specialize (Hl (fun _ => bp_e p)). unfold bobext_verify in Hl. rewrite E in Hl.
    split; intros ->; revert Hl; cbn [bob_items].
    + unfold x_coord, y_coord. rewrite (proj2 (coords_zero C pzero) eq_refl).
      destruct (coords X) as [[? ?]|]; discriminate.
    + unfold x_coord at 1. rewrite (proj2 (coords_zero C pzero) eq_refl). discriminate.
Qed.

Lemma bobext_no_panic H p (u : pt C) a m N st (X : pt C) : 1 < N -> good_st st -> Z.gcd a (N * N) = 1 -> 0 <= bp_e p ->
  u <> pzero -> X <> pzero -> exists b, bobext_verify H p u a m N st X = Ok b.
Proof.
  intros HN Hst GA He Hu HX.
  destruct (bobext_cases C p u a m N st X HN Hst GA He Hu HX) as [E|[_ [zp [v [w [Xx [Xy [ux [uy [_ [_ [_ [_ E]]]]]]]]]]]]];
    rewrite E; eauto.
Qed.

Lemma bob_no_panic H p a m N st : 1 < N -> good_st st -> Z.gcd a (N * N) = 1 -> 0 <= bp_e p ->
  exists b, bob_verify H p a m N st None = Ok b.
Proof.
  intros HN Hst GA He.
  destruct (bob_verify_cases C p a m N st HN Hst GA He) as [[Hf _]|[Hs [zp [v [w [Q [_ [_ [_ [_ E]]]]]]]]]].
  - rewrite Hf. eauto.
  - rewrite E. cbn [bob_items obind]. eauto.
Qed.

(** A peer that replies with the identity commitment point crashes the verifier. *)
Lemma bobext_identity_panic H p (X : pt C) a m N st : 1 < N -> good_st st -> Z.gcd a (N * N) = 1 ->
  0 <= bp_e p -> bp_s1 p <= q ^ 3 -> Z.gcd (bp_z p ^ bp_e p) (dl_N st) = 1 -> Z.gcd (m ^ bp_e p) (N * N) = 1 ->
  Z.gcd (bp_t p ^ bp_e p) (dl_N st) = 1 ->
  bobext_verify H p pzero a m N st X = Panic.
Proof.
  intros HN Hst GA He Hs Gz Gm Gt. unfold bobext_verify.
  destruct (bob_verify_cases C p a m N st HN Hst GA He) as [[_ Hf]|[_ [zp [v [w [Q [_ [_ [_ [_ E]]]]]]]]]].
  - exfalso. destruct Hf as [K|[K|[K|K]]]; try contradiction. clear - K Hs. lia.
  - rewrite E. cbn [bob_items]. unfold x_coord, y_coord. rewrite (proj2 (coords_zero C pzero) eq_refl).
    destruct (coords X) as [[? ?]|]; reflexivity.
Qed.
Add Field cfield : (C_field C).
Lemma scal_div (a d : F) (P X : pt C) : smul a P = smul d X -> d <> f0 -> X = smul (a * finv d)%Fq P.
Proof.
  intros E Hd. apply (dlog_eq_iff C) in E. apply (dlog_eq_iff C). autorewrite with dlog in *.
  transitivity ((a * dlog P) * finv d)%Fq; [rewrite E|]; field; assumption.
Qed.
Lemma of_Z_sub_nz e e' : of_Z q e <> of_Z q e' -> of_Z q (e - e') <> f0.
Proof.
  rewrite of_Z_sub. intros Hne K. apply Hne.
  transitivity ((of_Z q e - of_Z q e') + of_Z q e')%Fq; [ring|]. rewrite K. ring.
Qed.
Lemma smul_gen_nz (s : F) : s <> f0 -> smul s (gen : pt C) <> pzero.
Proof.
  intros Hs K. apply Hs. apply (pzero_dlog C) in K. autorewrite with dlog in K. rewrite <- K. ring.
Qed.
End E.

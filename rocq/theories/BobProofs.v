(** Completeness of Bob's range proofs. *)
From Coq Require Import ZArith Znumtheory Lia Bool List.
From Verif Require Import ZArithX Fq Curve Outcome Sigma SigmaProofs Paillier PaillierProofs ZPow RangeProofs RangeProofsProofs.
Import ListNotations.
Local Open Scope Z_scope.

Section B.
Context (C : Curve).
Notation q := (cq C).
Notation F := (Fq q).
Add Field cfield : (C_field C).
Implicit Types (H : hashZ C).

Definition rand_ok (k : bob_rand) : Prop :=
  0 <= br_alpha k /\ 0 <= br_beta k /\ 0 <= br_gamma k /\ 0 <= br_ro k /\ 0 <= br_ro_prim k /\
  0 <= br_sigma k /\ 0 <= br_tau k.

(** The honest reply ciphertext. *)
Definition mta_reply (N a_enc b beta_prim r : Z) : Z :=
  padd_c N (pmul_c N a_enc b) (enc N beta_prim r).

Lemma mta_reply_eqm N a b bp r : 1 < N -> 0 <= b ->
  eqm (N * N) (mta_reply N a b bp r) (a ^ b * ((1 + bp * N) * r ^ N)).
Proof.
  intros HN Hb. assert (HNN : 1 < N * N) by nia.
  unfold mta_reply, padd_c, pmul_c, enc. rewrite !powm_spec by lia.
  eapply eqm_trans; [apply eqm_mod|]. apply eqm_mul; [apply eqm_mod|].
  eapply eqm_trans; [apply eqm_mod|]. apply eqm_mul; [|apply eqm_mod].
  eapply eqm_trans; [apply eqm_mod|]. unfold eqm; f_equal; ring.
Qed.

Lemma bob_complete H a (b : F) beta_prim N st r check k p u :
  1 < N -> good_st st -> (forall l, 0 <= H l) -> Z.gcd a (N * N) = 1 -> Z.gcd r N = 1 ->
  0 <= beta_prim -> rand_ok k ->
  bob_generate H a (mta_reply N a (to_Z b) beta_prim r) b beta_prim N st r check k = Ok (p, u) ->
  bp_s1 p = bp_e p * to_Z b + br_alpha k /\ 0 <= bp_e p /\
  bob_verify H p a (mta_reply N a (to_Z b) beta_prim r) N st
    (if check then Some (smul (of_Z q (br_alpha k)) gen, smul b gen) else None)
  = Ok (bp_s1 p <=? q ^ 3) /\
  u = (if check then Some (smul (of_Z q (br_alpha k)) gen) else None).
Proof.
  intros HN Hst HH GA Hr Hbp Hk Hgen.
  pose proof Hst as [HNt [G1 G2]].
  destruct Hk as [K1 [K2 [K3 [K4 [K5 [K6 K7]]]]]].
  set (m := mta_reply N a (to_Z b) beta_prim r) in *.
  assert (Hb : 0 <= to_Z b) by (apply (to_Z_range (cq_prime C)) ).
  unfold bob_generate in Hgen.
  apply obind_ok in Hgen. destruct Hgen as [ex [Hex Hgen]]. apply ok_inj in Hgen.
  set (ch := if check then _ else _) in Hex.
  set (z := Z.rem (powm (dl_h1 st) (to_Z b) (dl_N st) * _) _) in *.
  set (zp0 := Z.rem (powm (dl_h1 st) (br_alpha k) (dl_N st) * powm (dl_h2 st) (br_ro_prim k) (dl_N st)) (dl_N st)) in *.
  set (t := Z.rem (powm (dl_h1 st) beta_prim (dl_N st) * powm (dl_h2 st) (br_sigma k) (dl_N st)) (dl_N st)) in *.
  set (w0 := Z.rem (powm (dl_h1 st) (br_gamma k) (dl_N st) * powm (dl_h2 st) (br_tau k) (dl_N st)) (dl_N st)) in *.
  set (v0 := Z.rem (powm a (br_alpha k) (N * N) * (br_gamma k * N + 1) * powm (br_beta k) N (N * N)) (N * N)) in *.
  injection Hgen as Ep Eu.
  match type of Ep with p = {| bp_t := _; bp_z := _; bp_e := ?x; bp_s := _; bp_s1 := _; bp_s2 := _; bp_t1 := _; bp_t2 := _ |} =>
    set (e := x) in * end.
  assert (He : 0 <= e) by apply HH.
  assert (Ee : e = bp_e p) by (rewrite Ep; reflexivity).
  assert (Es1 : bp_s1 p = e * to_Z b + br_alpha k) by (rewrite Ep; reflexivity).
  assert (Es2 : bp_s2 p = e * br_ro k + br_ro_prim k) by (rewrite Ep; reflexivity).
  assert (Et1 : bp_t1 p = e * beta_prim + br_gamma k) by (rewrite Ep; reflexivity).
  assert (Et2 : bp_t2 p = e * br_sigma k + br_tau k) by (rewrite Ep; reflexivity).
  assert (Es : bp_s p = Z.rem (powm r e N * br_beta k) N) by (rewrite Ep; reflexivity).
  assert (Ez' : bp_z p = z) by (rewrite Ep; reflexivity).
  assert (Et' : bp_t p = t) by (rewrite Ep; reflexivity).
  split; [rewrite <- Ee; exact Es1|]. split; [rewrite <- Ee; exact He|].
  split; [|exact Eu].
  assert (HNN : 1 < N * N) by (clear - HN; nia). assert (HN0 : 0 <= N) by (clear - HN; lia).
  assert (HNN0 : N * N <> 0) by (clear - HNN; lia). assert (HNN1 : 0 < N * N) by (clear - HNN; lia).
  assert (HNt0 : 0 < dl_N st) by (clear - HNt; lia).
  destruct (rp_commit (dl_N st) (dl_h1 st) (dl_h2 st) (to_Z b) (br_ro k) HNt Hb K4) as [Rz Ez].
  destruct (rp_commit (dl_N st) (dl_h1 st) (dl_h2 st) (br_alpha k) (br_ro_prim k) HNt K1 K5) as [Rzp Ezp].
  destruct (rp_commit (dl_N st) (dl_h1 st) (dl_h2 st) beta_prim (br_sigma k) HNt Hbp K6) as [Rt Et].
  destruct (rp_commit (dl_N st) (dl_h1 st) (dl_h2 st) (br_gamma k) (br_tau k) HNt K3 K7) as [Rw Ew].
  fold z in Rz, Ez. fold zp0 in Rzp, Ezp. fold t in Rt, Et. fold w0 in Rw, Ew.
  assert (Gz : Z.gcd (bp_z p ^ bp_e p) (dl_N st) = 1).
  { rewrite <- Ee, Ez'. apply gcd_pow; [assumption|]. rewrite (gcd_eqm1 _ _ _ Ez HNt).
    apply gcd_mul; apply gcd_pow; assumption. }
  assert (Gt : Z.gcd (bp_t p ^ bp_e p) (dl_N st) = 1).
  { rewrite <- Ee, Et'. apply gcd_pow; [assumption|]. rewrite (gcd_eqm1 _ _ _ Et HNt).
    apply gcd_mul; apply gcd_pow; assumption. }
  pose proof (mta_reply_eqm N a (to_Z b) beta_prim r HN Hb) as Em. fold m in Em.
  assert (Gm : Z.gcd (m ^ bp_e p) (N * N) = 1).
  { rewrite <- Ee. apply gcd_pow; [assumption|]. rewrite (gcd_eqm1 _ _ _ Em HNN).
    apply gcd_mul; [apply gcd_pow; assumption|]. apply gcd_mul.
    - replace (1 + beta_prim * N) with (beta_prim * N + 1) by ring. apply unit_1pN.
    - apply gcd_pow; [assumption|]. apply gcd_sq; assumption. }
  assert (He' : 0 <= bp_e p) by (rewrite <- Ee; assumption).
  destruct (bob_verify_cases C p a m N st HN Hst GA He') as [[Hf Hor]|[Hs [zp [v [w [Q [Rzp' [Rw' [Rv [Rv0 E]]]]]]]]]].
  - rewrite Hf. f_equal. symmetry. apply Z.leb_gt. destruct Hor as [?|[?|[?|?]]]; [assumption|contradiction|contradiction|contradiction].
  - fold ch. rewrite E. rewrite Hex. cbn [obind]. f_equal. destruct Q as [_ [_ [_ [Q4 [Q5 Q6]]]]].
    rewrite <- Ee in Q4, Q5, Q6. rewrite <- Ee in Gz, Gt, Gm. rewrite Ez' in Q4, Gz. rewrite Et' in Q6, Gt.
    assert (zp = zp0).
    { apply eqm_small with (dl_N st); [assumption|assumption|].
      apply (eqm_cancel_l (dl_N st) (z ^ e)); [assumption|assumption|].
      rewrite !(Z.mul_comm (z ^ e)).
      eapply eqm_trans; [exact Q4|]. apply eqm_sym. rewrite Es1, Es2. apply rp_honest; assumption. }
    assert (w = w0).
    { apply eqm_small with (dl_N st); [assumption|assumption|].
      apply (eqm_cancel_l (dl_N st) (t ^ e)); [assumption|assumption|].
      rewrite !(Z.mul_comm (t ^ e)).
      eapply eqm_trans; [exact Q6|]. apply eqm_sym. rewrite Et1, Et2. apply rp_honest; assumption. }
    assert (v = v0).
    { assert (B0 : 0 <= powm (br_beta k) N (N * N)) by (rewrite powm_spec by assumption; apply Z.mod_pos_bound; assumption).
      assert (B1 : 0 <= powm a (br_alpha k) (N * N)) by (rewrite powm_spec by assumption; apply Z.mod_pos_bound; assumption).
      assert (Rv0' : 0 <= v0 < N * N).
      { unfold v0. pose proof (Z.mul_nonneg_nonneg (br_gamma k) N K3 HN0) as A0.
        pose proof (Z.mul_nonneg_nonneg _ (br_gamma k * N + 1) B1 (Z.add_nonneg_nonneg _ _ A0 Z.le_0_1)) as A1.
        pose proof (Z.mul_nonneg_nonneg _ _ A1 B0) as A2.
        rewrite rem_nonneg by assumption. apply Z.mod_pos_bound; assumption. }
      assert (Ht1p : 0 <= bp_t1 p) by (rewrite Et1; apply Z.add_nonneg_nonneg; [apply Z.mul_nonneg_nonneg|]; assumption).
      apply eqm_small with (N * N); [split; [apply Rv0; assumption|apply (Z.abs_lt v (N * N)) in Rv; apply Rv]|assumption|].
      apply (eqm_cancel_l (N * N) (m ^ e)); [assumption|assumption|].
      rewrite !(Z.mul_comm (m ^ e)).
      eapply eqm_trans; [exact Q5|]. apply eqm_sym.
      apply eqm_trans with ((a ^ br_alpha k * (br_gamma k * N + 1) * br_beta k ^ N) * (a ^ to_Z b * ((1 + beta_prim * N) * r ^ N)) ^ e).
      - apply eqm_mul; [|apply eqm_pow; assumption].
        unfold v0. eapply eqm_trans; [apply eqm_rem; assumption|]. rewrite !powm_spec by assumption.
        apply eqm_mul; [|apply eqm_mod]. apply eqm_mul; [apply eqm_mod|apply eqm_refl].
      - rewrite !Z.pow_mul_l.
        apply eqm_trans with ((a ^ br_alpha k * (br_gamma k * N + 1) * br_beta k ^ N) *
            ((a ^ to_Z b) ^ e * ((1 + e * (beta_prim * N)) * (r ^ N) ^ e))).
        + apply eqm_mul; [apply eqm_refl|]. apply eqm_mul; [apply eqm_refl|]. apply eqm_mul; [|apply eqm_refl].
          apply pow1p; [assumption|]. exists (beta_prim * beta_prim). ring.
        + rewrite Es1, zpow_nonneg by (apply Z.add_nonneg_nonneg; [apply Z.mul_nonneg_nonneg|]; assumption).
          apply eqm_trans with (a ^ (e * to_Z b + br_alpha k) * ((bp_t1 p * N + 1) * (r ^ e * br_beta k) ^ N)).
          * rewrite Z.pow_mul_l. rewrite Z.pow_add_r by (assumption || (apply Z.mul_nonneg_nonneg; assumption)).
            rewrite <- !Z.pow_mul_r by assumption. rewrite (Z.mul_comm N e), (Z.mul_comm (to_Z b) e).
            replace (a ^ br_alpha k * (br_gamma k * N + 1) * br_beta k ^ N *
                (a ^ (e * to_Z b) * ((1 + e * (beta_prim * N)) * r ^ (e * N))))
              with ((a ^ (e * to_Z b) * a ^ br_alpha k) * (((br_gamma k * N + 1) * (1 + e * (beta_prim * N))) * (r ^ (e * N) * br_beta k ^ N))) by ring.
            apply eqm_mul; [apply eqm_refl|]. apply eqm_mul; [|apply eqm_refl]. rewrite Et1.
            replace ((br_gamma k * N + 1) * (1 + e * (beta_prim * N)))
              with (((e * beta_prim + br_gamma k) * N + 1) + (br_gamma k * e * beta_prim) * (N * N)) by ring.
            unfold eqm. apply Z_mod_plus_full.
          * apply eqm_mul; [apply eqm_sym, eqm_mod|]. apply eqm_mul; [apply eqm_refl|].
            apply eqm_sym. apply pow_lift; [assumption|]. rewrite Es. apply resp_s; assumption. }
    subst zp v w.
    assert (Eq : H (bob_query C p a m N zp0 v0 w0 ++ ex) = e).
    { unfold e, bob_query. rewrite Ez', Et'. reflexivity. }
    rewrite Eq, <- Ee, Z.eqb_refl. symmetry. apply Z.leb_le. assumption.
Qed.

(** [generate] panics only when the check is requested for an identity point. *)
Lemma bob_generate_ok H a m (b : F) beta_prim N st r check k :
  check = false \/ (b <> f0 /\ of_Z q (br_alpha k) <> f0) ->
  exists p u, bob_generate H a m b beta_prim N st r check k = Ok (p, u).
Proof.
  intros Hc. unfold bob_generate.
  destruct (bob_items_ok C (if check then Some (smul (of_Z q (br_alpha k)) gen, smul b gen) else None))
    as [[ex E]|[_ [u [X [E Hz]]]]].
  - rewrite E. cbn [obind]. eauto.
  - exfalso. destruct check; [|discriminate]. destruct Hc as [Hc|[Hb Ha]]; [discriminate|].
    injection E as <- <-. destruct Hz as [Hz|Hz]; apply (pzero_dlog C) in Hz; autorewrite with dlog in Hz.
    + apply Ha. rewrite <- Hz. ring.
    + apply Hb. rewrite <- Hz. ring.
Qed.

Lemma bobext_complete H a (b : F) beta_prim N st r k p u :
  1 < N -> good_st st -> (forall l, 0 <= H l) -> Z.gcd a (N * N) = 1 -> Z.gcd r N = 1 ->
  0 <= beta_prim -> rand_ok k ->
  bob_generate H a (mta_reply N a (to_Z b) beta_prim r) b beta_prim N st r true k = Ok (p, Some u) ->
  bobext_verify H p u a (mta_reply N a (to_Z b) beta_prim r) N st (smul b gen) = Ok (bp_s1 p <=? q ^ 3).
Proof.
  intros HN Hst HH GA Hr Hbp Hk Hgen.
  destruct (bob_complete H a b beta_prim N st r true k p (Some u) HN Hst HH GA Hr Hbp Hk Hgen) as [Es1 [He [Hv Hu]]].
  injection Hu as ->. unfold bobext_verify. rewrite Hv. cbn [obind].
  destruct (bp_s1 p <=? q ^ 3); [|reflexivity]. f_equal. apply (pt_eqb_eq C).
  rewrite Es1. apply (dlog_eq_iff C). autorewrite with dlog.
  rewrite of_Z_add, of_Z_mul, of_Z_to_Z. ring.
Qed.
End B.

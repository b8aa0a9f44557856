(** Lemmas about the two-party protocols. *)
From Coq Require Import ZArith Znumtheory Lia Bool List Field.
From Verif Require Import ZArithX Fq Curve Outcome Sigma SigmaProofs Bytes Ecdsa EcdsaProofs Paillier PaillierProofs
  RangeProofs RangeProofsProofs PdlSlack PdlSlackProofs Mta MtaProofs TwoParty.
Import ListNotations.
Local Open Scope Z_scope.

Section P.
Context (C : Curve).
Notation q := (cq C).
Notation F := (Fq q).
Add Field cfield : (C_field C).

(** Final step shared by both protocols: the smaller of s and q - s. *)
Lemma low_s (s : F) yc : s <> f0 -> Z.min (to_Z s) (q - to_Z s) = to_Z (fst (normalize s yc)).
Proof.
  intros Hs. pose proof (nz_range C s Hs) as R. pose proof (q_gt1 (cq_prime C)) as Hq.
  unfold normalize. destruct (Z.ltb_spec (q - to_Z s) (to_Z s)); cbn [fst].
  - rewrite to_Z_of_Z, Z.mod_small by lia. lia.
  - lia.
Qed.

Lemma signing_output (R Q : pt C) (s : F) m x y :
  coords R = Some (x, y) -> s <> f0 -> sig_eqn R Q m (of_Z q x) s ->
  let r := x mod q in
  let s' := Z.min (to_Z s) (q - to_Z s) in
  ecdsa_eqn Q m r s' /\ 1 <= s' /\ 2 * s' < q /\ (r <> 0 -> ecdsa_valid Q m r s') /\
  (lindell_verify r s' Q m = Ok tt <-> x < q) /\ (cclst_verify r s' Q m = Ok tt <-> x < q) /\
  (x < q -> y < q -> recovers Q m r s' (if q - to_Z s <? to_Z s then Z.lxor (b2z (Z.odd (y mod q))) 1 else b2z (Z.odd (y mod q)))).
Proof.
  intros HR Hs Heq r s'. pose proof (coords_range C _ _ _ HR) as [Hx0 Hy0].
  pose proof (q_gt1 (cq_prime C)) as Hq.
  set (l := {| ls_r := of_Z q x; ls_R := R; ls_s := s; ls_m := m; ls_y := Q |}).
  assert (Et : sig_total l [] = s) by (unfold sig_total; cbn [ls_s l fsum]; ring).
  pose proof (gg20_output_complete C l [] x y HR) as O. rewrite Et in O. specialize (O Hs Heq).
  pose proof (gg20_output_sound C l [] _ O) as [O1 [O2 [O3 O4]]]. cbn [sg_r sg_s ls_y ls_m l] in *.
  assert (Es : s' = to_Z (fst (normalize s y))) by (apply low_s; assumption).
  assert (Er : r = to_Z (of_Z q x)) by reflexivity.
  rewrite <- Es, <- Er in O2, O3.
  pose proof (normalize_low C s y) as L. rewrite <- Es in L.
  assert (Hs1 : 1 <= s') by (unfold s'; pose proof (nz_range C s Hs); lia).
  assert (Hlow : 2 * s' < q).
  { destruct (q_is_odd C) as [k Hk]. lia. }
  assert (TV : two_party_ok r s' Q m <-> x < q).
  { unfold two_party_ok.
    assert (V : exists x', x_coord (vpoint Q (of_Z q m) (of_Z q r) (of_Z q s')) = Some x' /\ x' = x /\ of_Z q s' <> f0).
    { exists x. unfold s'. apply (sig_eqn_vpoint C) in Heq; [|assumption].
      assert (Erx : of_Z q r = of_Z q x) by (unfold r; apply of_Z_mod).
      rewrite Erx. fold s'. rewrite Es, of_Z_to_Z.
      destruct (normalize_cases C s y) as [[E _]|[E _]]; rewrite E; cbn [fst].
      - rewrite Heq. unfold x_coord. rewrite HR. auto.
      - rewrite vpoint_opp by assumption. rewrite x_coord_neg, Heq. unfold x_coord. rewrite HR.
        split; [reflexivity|]. split; [reflexivity|]. apply fopp_nz. assumption. }
    destruct V as [x' [V1 [-> V2]]].
    split.
    - intros (_ & _ & W). rewrite V1 in W. injection W as W.
      assert (Hr0 : 0 <= r < q) by (apply Z.mod_pos_bound; lia). lia.
    - intros Hlt. split; [assumption|]. split; [lia|]. rewrite V1. f_equal.
      unfold r. rewrite Z.mod_small by lia. lia. }
  refine (conj O2 (conj Hs1 (conj Hlow (conj _ (conj _ (conj _ _)))))).
  - intros Hr. apply O3. intros E. apply Hr. rewrite Er, E. apply to_Z_0.
  - rewrite lindell_verify_ok. exact TV.
  - rewrite cclst_verify_ok. exact TV.
  - intros Hxq Hyq. assert (Heq' : sig_eqn (ls_R l) (ls_y l) (ls_m l) (of_Z q x) (sig_total l [])) by (rewrite Et; exact Heq).
    pose proof (recid_correct C l [] _ x y HR Hxq Hyq Heq' O) as RC.
    cbn [sg_r sg_s sg_recid ls_y ls_m l] in RC. rewrite <- Es, <- Er in RC.
    replace (if q - to_Z s <? to_Z s then Z.lxor (b2z (Z.odd (y mod q))) 1 else b2z (Z.odd (y mod q)))
      with (snd (normalize s y)); [exact RC|].
    unfold normalize. destruct (q - to_Z s <? to_Z s); cbn [snd]; [|reflexivity].
    destruct (Z.odd (y mod q)); reflexivity.
Qed.

(** Modular inverse as a field inverse. *)
Lemma mod_inv_field (a : F) x : mod_inv (to_Z a) q = Some x -> of_Z q x = finv a /\ a <> f0.
Proof.
  intros H. pose proof (q_gt1 (cq_prime C)) as Hq. apply mod_inv_sound in H; [|assumption]. destruct H as [E _].
  assert (K : (a * of_Z q x = f1)%Fq).
  { rewrite <- (of_Z_to_Z a), <- of_Z_mul. apply of_Z_eq. rewrite E. symmetry. apply Z.mod_1_l, Hq. }
  assert (Ha : a <> f0).
  { intros ->. assert (K0 : (f0 * of_Z q x = f0 :> F)%Fq) by ring. rewrite K0 in K. symmetry in K. revert K. apply f1_neq_f0, cq_prime. }
  split; [|assumption]. transitivity (finv a * (a * of_Z q x))%Fq; [field; assumption|]. rewrite K. ring.
Qed.
Lemma mod_inv_exists (a : F) : a <> f0 -> exists x, mod_inv (to_Z a) q = Some x /\ of_Z q x = finv a.
Proof.
  intros Ha. pose proof (q_gt1 (cq_prime C)) as Hq.
  destruct (mod_inv_complete (to_Z a) q Hq) as [x Hx].
  { apply prime_gcd; [apply cq_prime|]. intros D. apply Ha. rewrite <- (of_Z_to_Z a). apply of_Z_0_iff. apply Z.mod_divide; [lia|exact D]. }
  exists x. split; [exact Hx|]. apply mod_inv_field. exact Hx.
Qed.
Lemma of_Z_mod_mul a b : of_Z q (mod_mul a b q) = (of_Z q a * of_Z q b)%Fq.
Proof. unfold mod_mul. rewrite of_Z_mod, of_Z_mul, !of_Z_mod. reflexivity. Qed.
Lemma mod_mul_range a b : 0 <= mod_mul a b q < q.
Proof. apply Z.mod_pos_bound. pose proof (q_gt1 (cq_prime C)). lia. Qed.

(** The value party one obtains from an honest party two, before normalisation. *)
Definition joint_s (k1 k2 x1 x2 : F) (m x : Z) : F :=
  ((of_Z q m + of_Z q x * (x1 * x2)) * finv (k1 * k2))%Fq.

Lemma joint_s_eqn (k1 k2 x1 x2 : F) m x : k1 <> f0 -> k2 <> f0 ->
  sig_eqn (smul k1 (smul k2 gen)) (smul (x1 * x2)%Fq gen) m (of_Z q x) (joint_s k1 k2 x1 x2 m x).
Proof.
  intros H1 H2. unfold sig_eqn, joint_s. apply (dlog_eq_iff C). autorewrite with dlog. field. split; assumption.
Qed.

Lemma joint_s_nz (k1 k2 x1 x2 : F) m x : k1 <> f0 -> k2 <> f0 ->
  (m + (x mod q) * (to_Z x1 * to_Z x2)) mod q <> 0 -> joint_s k1 k2 x1 x2 m x <> f0.
Proof.
  intros N1 N2 Hm E. apply Hm. unfold joint_s in E.
  assert (K : (of_Z q m + of_Z q x * (x1 * x2))%Fq = f0).
  { transitivity (((of_Z q m + of_Z q x * (x1 * x2)) * finv (k1 * k2)) * (k1 * k2))%Fq.
    - field. split; assumption.
    - rewrite E. ring. }
  apply (f_equal to_Z) in K. rewrite to_Z_0 in K. rewrite <- K.
  rewrite <- (to_Z_of_Z q (m + _)). f_equal. rewrite of_Z_add, !of_Z_mul, of_Z_mod, !of_Z_to_Z. reflexivity.
Qed.
Lemma joint_assoc (a b c : F) : (a * (b * c))%Fq = (a * b * c)%Fq.
Proof. ring. Qed.

Lemma nonce_nz (k1 k2 : F) : k1 <> f0 -> k2 <> f0 -> smul k1 (smul k2 (gen : pt C)) <> pzero.
Proof.
  intros H1 H2 E. apply (pzero_dlog C) in E. autorewrite with dlog in E.
  apply (fmul_nz (cq_prime C) k1 (k2 * f1)%Fq) in E; [assumption|assumption|].
  replace (k2 * f1)%Fq with k2 by ring. assumption.
Qed.

Lemma finvert_eq (k : F) : k <> f0 -> finvert k = Some (finv k).
Proof. intros. apply finvert_nz. assumption. Qed.

Lemma joint_assoc' (a b c : F) : (b * (a * c))%Fq = (a * b * c)%Fq.
Proof. ring. Qed.
Lemma mul_1_r' (a b : F) : (a * b)%Fq = (a * b * f1)%Fq.
Proof. ring. Qed.
Lemma mul_inv_cancel (s k : F) : k <> f0 -> (s * k * finv k)%Fq = s.
Proof. intros. field. assumption. Qed.
Lemma smul_nz (k : F) (P : pt C) : k <> f0 -> P <> pzero -> smul k P <> pzero.
Proof.
  intros Hk HP E. apply HP. apply (pzero_dlog C). apply (pzero_dlog C) in E. autorewrite with dlog in E.
  apply (fmul_integral (cq_prime C)) in E. destruct E; [contradiction|assumption].
Qed.
Lemma refresh_product (x1 x2 : F) f f2 : (f * f2) mod q = 1 ->
  (x1 * of_Z q f * (lindell_update x2 f2) = x1 * x2)%Fq.
Proof.
  intros H. unfold lindell_update. transitivity (x1 * x2 * (of_Z q f * of_Z q f2))%Fq; [ring|].
  rewrite <- of_Z_mul. replace (of_Z q (f * f2)) with (f1 : F); [ring|].
  apply fq_ext. rewrite to_Z_of_Z, H. apply (to_Z_1 (cq_prime C)).
Qed.

(** Which ciphertexts lead to an accepted signature. *)
Lemma lindell_only_honest (p : party1 C) c3 (k1 : ec_pair C) (k2 x2 : F) m x y r s :
  kp_sec k1 <> f0 -> k2 <> f0 -> coords (smul (kp_sec k1) (smul k2 (gen : pt C))) = Some (x, y) ->
  (m + (x mod q) * (to_Z (l1_x p) * to_Z x2)) mod q <> 0 ->
  lindell_compute p c3 k1 (smul k2 gen) = Ok (r, s) ->
  ecdsa_eqn (smul (l1_x p * x2)%Fq gen) m r s ->
  let good := ((of_Z q m + of_Z q x * (l1_x p * x2)) * finv k2)%Fq in
  let got := of_Z q (dec (l1_p1 p) (l1_p2 p) c3) in
  got = good \/ got = fopp good \/
  (exists x' (P : pt C), x_coord P = Some x' /\ x' <> x /\ x' mod q = x mod q).
Proof.
  intros N1 N2 HR Hm E V good got. destruct k1 as [P1 k1]. cbn [kp_sec] in *.
  unfold lindell_compute in E. cbn [kp_sec] in E. unfold x_coord in E. rewrite HR in E. cbn [option_map fst unwrap obind] in E.
  rewrite finvert_nz in E by assumption. cbn [unwrap obind] in E. apply ok_inj in E.
  remember (of_Z q (dec (l1_p1 p) (l1_p2 p) c3) * finv k1)%Fq as s2 eqn:Es2.
  assert (Er : r = x mod q) by congruence. assert (Es : s = Z.min (to_Z s2) (q - to_Z s2)) by congruence.
  clear E. subst r s.
  set (Q := smul (l1_x p * x2)%Fq (gen : pt C)) in *. set (R := smul k1 (smul k2 gen)) in *.
  set (s1 := joint_s k1 k2 (l1_x p) x2 m x).
  assert (Hs1 : s1 <> f0) by (apply joint_s_nz; assumption).
  set (l := {| ls_r := of_Z q x; ls_R := R; ls_s := s1; ls_m := m; ls_y := Q |}).
  assert (Et : sig_total l [] = s1) by (unfold sig_total; cbn [ls_s l fsum]; ring).
  assert (Et' : sig_total l [(s2 - s1)%Fq] = s2) by (unfold sig_total; cbn [ls_s l fsum]; ring).
  assert (Hx : x_coord R = Some x) by (unfold x_coord; rewrite HR; reflexivity).
  assert (Hs2 : s2 <> f0).
  { intros K. rewrite K, to_Z_0 in V. rewrite Z.min_l in V by (pose proof (q_gt1 (cq_prime C)); lia).
    apply (ecdsa_eqn_iff C) in V. destruct V as [V _]. apply V. apply of_Z_0_iff. exists 0; reflexivity. }
  assert (O : exists sg, gg20_output l [(s2 - s1)%Fq] = Ok sg).
  { unfold gg20_output. cbn [ls_R l]. rewrite Hx. unfold y_coord. rewrite HR. cbn [option_map snd unwrap obind].
    rewrite fold_left_fadd. fold (sig_total l [(s2 - s1)%Fq]). rewrite Et'.
    assert (G : gg20_verify (of_Z q x) (fst (normalize s2 y)) Q m = Ok tt).
    { apply gg20_verify_ok, ok_eqn_iff. rewrite <- (low_s s2 y Hs2), to_Z_of_Z. exact V. }
    rewrite of_Z_mod. cbn [ls_y ls_m l]. destruct (normalize s2 y) as [s3 rid]. cbn [fst] in G. rewrite G. eauto. }
  destruct O as [sg O].
  pose proof (gg20_output_tamper C l [] [(s2 - s1)%Fq] sg x) as T. rewrite Et, Et' in T.
  specialize (T Hx Hs1 (joint_s_eqn k1 k2 (l1_x p) x2 m x N1 N2) O).
  assert (Eg : got = (s2 * k1)%Fq) by (rewrite Es2; fold got; field; assumption).
  assert (Egg : good = (s1 * k1)%Fq) by (unfold good, s1, joint_s; field; split; assumption).
  destruct T as [T|[T|T]]; [left|right; left|right; right; exact T]; rewrite Eg, Egg, T; ring.
Qed.

(** Lindell signing between honest parties. *)
Lemma lindell_run p1 p2 (x1 x2 k1 k2 : F) r m rho renc :
  good_key p1 p2 -> Z.gcd r (p1 * p2) = 1 -> Z.gcd renc (p1 * p2) = 1 -> 0 <= rho < q ^ 2 -> q ^ 3 + q ^ 2 <= p1 * p2 ->
  k1 <> f0 -> k2 <> f0 ->
  let st := lindell_setup {| kp_pub := smul x1 gen; kp_sec := x1 |} p1 p2 r in
  let K1 := {| kp_pub := smul k1 gen; kp_sec := k1 |} in
  let K2 := {| kp_pub := smul k2 gen; kp_sec := k2 |} in
  exists c3 x y, coords (smul k1 (smul k2 (gen : pt C))) = Some (x, y) /\
    lindell_partial (p1 * p2) (snd st) x2 K2 (smul k1 gen) m rho renc = Ok c3 /\
    let s := joint_s k1 k2 x1 x2 m x in
    lindell_compute (fst st) c3 K1 (smul k2 gen) = Ok (x mod q, Z.min (to_Z s) (q - to_Z s)) /\
    lindell_compute_recid (fst st) c3 K1 (smul k2 gen) = Ok (x mod q, Z.min (to_Z s) (q - to_Z s),
      if q - to_Z s <? to_Z s then Z.lxor (b2z (Z.odd (y mod q))) 1 else b2z (Z.odd (y mod q))).
Proof.
  intros Hk Hr Hre Hrho HN N1 N2 st K1 K2. pose proof (good_key_gt1 _ _ Hk) as HN1.
  pose proof (q_gt1 (cq_prime C)) as Hq.
  destruct (coords_some C _ (nonce_nz k1 k2 N1 N2)) as [x [y HR]].
  destruct (mod_inv_exists k2 N2) as [k2i [Ei Ek]].
  assert (Hsym : smul k2 (smul k1 (gen : pt C)) = smul k1 (smul k2 gen)).
  { apply (dlog_eq_iff C). autorewrite with dlog. ring. }
  set (v := mod_mul k2i (mod_mul (x mod q) (to_Z x2) q) q).
  set (pl := rho * q + mod_mul k2i m q).
  exists (padd_c (p1 * p2) (pmul_c (p1 * p2) (enc (p1 * p2) (to_Z x1) r) v) (enc (p1 * p2) pl renc)), x, y.
  split; [exact HR|].
  assert (Ep : lindell_partial (p1 * p2) (snd st) x2 K2 (smul k1 gen) m rho renc =
    Ok (padd_c (p1 * p2) (pmul_c (p1 * p2) (enc (p1 * p2) (to_Z x1) r) v) (enc (p1 * p2) pl renc))).
  { unfold lindell_partial. cbn [K2 kp_sec st lindell_setup snd]. rewrite Hsym. unfold x_coord. rewrite HR.
    cbn [option_map fst unwrap obind]. rewrite Ei. cbn [unwrap obind]. reflexivity. }
  split; [exact Ep|].
  set (s := joint_s k1 k2 x1 x2 m x).
  assert (Hv : 0 <= v < q) by apply mod_mul_range.
  assert (Hpl : 0 <= mod_mul k2i m q < q) by apply mod_mul_range.
  assert (Hx1 : 0 <= to_Z x1 < q) by apply (to_Z_range (cq_prime C)).
  assert (D : dec p1 p2 (padd_c (p1 * p2) (pmul_c (p1 * p2) (enc (p1 * p2) (to_Z x1) r) v) (enc (p1 * p2) pl renc))
              = to_Z x1 * v + pl).
  { rewrite mta_dec; try assumption; try (apply Hx1); try (apply Hv). apply Z.mod_small.
    unfold pl. assert (to_Z x1 * v <= (q - 1) * (q - 1)) by (apply Z.mul_le_mono_nonneg; lia).
    assert (0 <= to_Z x1 * v) by (apply Z.mul_nonneg_nonneg; lia).
    assert (rho * q <= (q ^ 2 - 1) * q) by (apply Z.mul_le_mono_nonneg_r; lia).
    assert (0 <= rho * q) by (apply Z.mul_nonneg_nonneg; lia).
    assert (q ^ 3 = q ^ 2 * q) by ring. assert (q ^ 2 = q * q) by ring.
    clear - H H0 H1 H2 H3 H4 HN Hpl Hq. nia. }
  assert (S : to_Z (of_Z q (to_Z x1 * v + pl) * finv k1)%Fq = to_Z s).
  { f_equal. unfold s, joint_s, pl, v. rewrite !of_Z_add, !of_Z_mul, !of_Z_mod_mul, of_Z_mod, !of_Z_to_Z, of_Z_q, Ek.
    field. split; assumption. }
  cbn zeta. unfold lindell_compute, lindell_compute_recid. cbn [K1 kp_sec st lindell_setup fst l1_p1 l1_p2].
  unfold x_coord, y_coord. rewrite HR. cbn [option_map fst snd unwrap obind].
  rewrite (finvert_eq k1 N1). cbn [unwrap obind]. rewrite D, S. split; reflexivity.
Qed.

(** CCLST signing between honest parties. *)
Lemma cclst_run (E : CL C) (x1 x2 k1 k2 : F) r m r' :
  k1 <> f0 -> k2 <> f0 ->
  let K1 := {| kp_pub := smul k1 gen; kp_sec := k1 |} in
  let K2 := {| kp_pub := smul k2 gen; kp_sec := k2 |} in
  exists c3 x y, coords (smul k1 (smul k2 (gen : pt C))) = Some (x, y) /\
    cclst_partial (cclst_encrypt_share (E := E) {| kp_pub := smul x1 gen; kp_sec := x1 |} r) x2 K2 (smul k1 gen) m r' = Ok c3 /\
    let s := joint_s k1 k2 x1 x2 m x in
    cclst_compute c3 K1 (smul k2 gen) = Ok (x mod q, Z.min (to_Z s) (q - to_Z s)).
Proof.
  intros N1 N2 K1 K2. pose proof (q_gt1 (cq_prime C)) as Hq.
  destruct (coords_some C _ (nonce_nz k1 k2 N1 N2)) as [x [y HR]].
  destruct (mod_inv_exists k2 N2) as [k2i [Ei Ek]]. destruct (mod_inv_exists k1 N1) as [k1i [Ei1 Ek1]].
  assert (Hsym : smul k2 (smul k1 (gen : pt C)) = smul k1 (smul k2 gen)).
  { apply (dlog_eq_iff C). autorewrite with dlog. ring. }
  eexists _, x, y. split; [exact HR|]. split.
  { unfold cclst_partial. cbn [K2 kp_sec]. rewrite Hsym. unfold x_coord. rewrite HR.
    cbn [option_map fst unwrap obind]. rewrite Ei. cbn [unwrap obind]. reflexivity. }
  cbn zeta. unfold cclst_compute. cbn [K1 kp_sec]. unfold x_coord. rewrite HR. cbn [option_map fst unwrap obind].
  rewrite Ei1. cbn [unwrap obind].
  rewrite cl_dec_sum, cl_dec_enc, cl_dec_scal; try apply cl_enc_wf; try (apply cl_scal_wf, cl_enc_wf).
  unfold cclst_encrypt_share. rewrite cl_dec_enc. cbn [kp_sec].
  match goal with |- Ok (_, Z.min (mod_mul ?a ?b q) _) = _ =>
    replace (mod_mul a b q) with (to_Z (joint_s k1 k2 x1 x2 m x)) end; [reflexivity|].
  set (t := (of_Z q (mod_mul k2i m q) + _)%Fq).
  transitivity (to_Z (of_Z q (mod_mul k1i (to_Z t) q))).
  - f_equal. rewrite of_Z_mod_mul, Ek1, of_Z_to_Z. unfold t, joint_s. rewrite !of_Z_mod_mul, of_Z_mod, !of_Z_to_Z, Ek.
    field. split; assumption.
  - rewrite to_Z_of_Z. apply Z.mod_small, mod_mul_range.
Qed.

(** ** Checks *)
Context (Hb : list Z -> Z) (Hf : hashF C) (Hz : hashZ C).

Lemma kg2_verify_ok m1 (w : comm_wit C) : kg2_verify Hb Hf m1 w = Ok tt <->
  k1_pkc m1 = commit_pt Hb (cw_pub w) (cw_pkb w) /\ k1_zkc m1 = commit_pt Hb (dp_t (cw_proof w)) (cw_zkb w) /\
  dlog_verify Hf (cw_proof w) = true.
Proof.
  unfold kg2_verify. destruct (Z.eqb_spec (k1_pkc m1) (commit_pt Hb (cw_pub w) (cw_pkb w))) as [E|E]; cbn [andb].
  2: { cbn [negb]. split; [discriminate|tauto]. }
  destruct (Z.eqb_spec (k1_zkc m1) (commit_pt Hb (dp_t (cw_proof w)) (cw_zkb w))) as [E2|E2]; cbn [negb].
  2: { split; [discriminate|tauto]. }
  destruct (dlog_verify Hf (cw_proof w)); split; intros; try discriminate; auto. destruct H as [_ [_ H]]; discriminate.
Qed.

Lemma eph1_verify_ok m1 (w : eph_wit C) : eph1_verify Hb Hf Hz m1 w = Ok tt <->
  e2_pkc m1 = commit_pt Hb (ew_pub w) (ew_pkb w) /\ e2_zkc m1 = commit Hb (ddh_com Hz (ew_proof w)) (ew_zkb w) /\
  ddh_verify Hf (ew_proof w) (eph_stmt (ew_pub w) (ew_c w)) = true.
Proof.
  unfold eph1_verify. destruct (Z.eqb_spec (e2_pkc m1) (commit_pt Hb (ew_pub w) (ew_pkb w))) as [E|E]; cbn [andb].
  2: { cbn [negb]. split; [discriminate|tauto]. }
  destruct (Z.eqb_spec (e2_zkc m1) (commit Hb (ddh_com Hz (ew_proof w)) (ew_zkb w))) as [E2|E2]; cbn [negb].
  2: { split; [discriminate|tauto]. }
  destruct (ddh_verify Hf (ew_proof w) _); split; intros; try discriminate; auto. destruct H as [_ [_ H]]; discriminate.
Qed.

Lemma gen_h1_h2_good p' q' h1 xhi d : 1 < p' * q' -> 0 <= xhi -> gen_h1_h2 p' q' h1 xhi = Ok d ->
  good_st d /\ dl_N d = p' * q' /\ dl_h1 d = h1 /\ eqm (dl_N d) (dl_h2 d * h1 ^ xhi) 1.
Proof.
  intros HN Hx E. unfold gen_h1_h2 in E. apply obind_ok in E. destruct E as [i [Ei E]]. apply unwrap_ok in Ei.
  apply obind_ok in E. destruct E as [h2 [Eh E]]. apply unwrap_ok in Eh. apply ok_inj in E. subst d.
  unfold mod_pow in Eh. destruct (Z.eqb_spec (p' * q') 0); [discriminate|].
  destruct (Z.leb_spec 0 xhi); [|lia]. injection Eh as <-. rewrite Z.abs_eq by lia. rewrite powm_spec by lia.
  pose proof (mod_inv_gcd _ _ _ HN Ei) as G1. 
  pose proof (mod_inv_sound _ _ _ HN Ei) as [Si _].
  assert (Gi : Z.gcd i (p' * q') = 1).
  { apply Zgcd_1_rel_prime. apply bezout_rel_prime.
    pose proof (Z.div_mod (h1 * i) (p' * q')) as D. rewrite Si in D.
    apply (Bezout_intro _ _ _ h1 (- (h1 * i / (p' * q')))). lia. }
  unfold good_st. cbn [dl_N dl_h1 dl_h2]. refine (conj (conj HN (conj G1 _)) (conj eq_refl (conj eq_refl _))).
  - rewrite Z.gcd_mod by lia. rewrite Z.gcd_comm. apply gcd_pow; assumption.
  - eapply eqm_trans; [apply eqm_mul; [apply eqm_mod|apply eqm_refl]|].
    rewrite <- Z.pow_mul_l, (Z.mul_comm i). 
    assert (Q : eqm (p' * q') (h1 * i) 1) by (unfold eqm; rewrite Si, Z.mod_1_l by lia; reflexivity).
    apply (eqm_pow _ _ _ xhi) in Q; [|assumption]. rewrite Z.pow_1_l in Q by assumption. exact Q.
Qed.

Lemma pdl_verify_ok cd st p N c q1 : lindell_pdl_verify Hz cd st p N c q1 = Ok tt <->
  ps_N st = N /\ ps_c st = c /\ ps_Q st = q1 /\
  cd {| dl_N := ps_Nt st; dl_h1 := ps_h1 st; dl_h2 := ps_h2 st |} = true /\ pdls_verify Hz p st = Ok tt.
Proof.
  unfold lindell_pdl_verify.
  destruct (Z.eqb_spec (ps_N st) N) as [E1|E1]; cbn [negb orb]; [|split; [discriminate|tauto]].
  destruct (Z.eqb_spec (ps_c st) c) as [E2|E2]; cbn [negb orb]; [|split; [discriminate|tauto]].
  destruct (pt_eqb_spec C (ps_Q st) q1) as [E3|E3]; cbn [negb orb]; [|split; [discriminate|tauto]].
  destruct (cd _) eqn:E4; [|split; [discriminate|intros [_ [_ [_ [K _]]]]; discriminate]].
  destruct (pdls_verify Hz p st) as [[]| |]; split; intros K; try discriminate; auto;
    destruct K as [_ [_ [_ [_ K]]]]; discriminate.
Qed.

(** The proof emitted by pdl_proof for the current state is accepted by pdl_verify. *)
Definition p1_ok (p : party1 C) (c : Z) : Prop :=
  good_key (l1_p1 p) (l1_p2 p) /\ Z.gcd (l1_r p) (l1_p1 p * l1_p2 p) = 1 /\
  c = enc (l1_p1 p * l1_p2 p) (to_Z (l1_x p)) (l1_r p).
Definition pr_ok (pr : Z * Z * Z * Z) : Prop := let '(a, b, c, d) := pr in 0 <= a /\ 0 <= b /\ 0 <= c /\ 0 <= d.

Lemma pdl_honest cd (p : party1 C) c d pr : (forall l, 0 <= Hz l) -> p1_ok p c -> good_st d -> cd d = true -> pr_ok pr ->
  exists st pf, lindell_pdl_proof Hz p c d pr = Ok (st, pf) /\
    lindell_pdl_verify Hz cd st pf (l1_p1 p * l1_p2 p) c (smul (l1_x p) gen) = Ok tt.
Proof.
  intros HH [Hk [Hr Ec]] [D1 [D2 D3]] Hcd Hpr. destruct pr as [[[al be] rho] ga]. destruct Hpr as [P1 [P2 [P3 P4]]].
  pose proof (good_key_gt1 _ _ Hk) as HN. unfold lindell_pdl_proof.
  set (st := {| ps_c := c; ps_N := _; ps_Q := _; ps_G := _; ps_h1 := _; ps_h2 := _; ps_Nt := _ |}).
  assert (G : good_pst C st) by (unfold good_pst; cbn; auto).
  destruct (pdls_prove_ok C Hz (l1_x p) (l1_r p) st al be rho ga G HH P1 P2 P3 P4) as [pf Epf].
  exists st, pf. rewrite Epf. cbn [obind]. split; [reflexivity|]. apply pdl_verify_ok.
  refine (conj eq_refl (conj eq_refl (conj eq_refl (conj _ _)))).
  - cbn [st ps_Nt ps_h1 ps_h2]. destruct d. exact Hcd.
  - apply (pdls_complete C Hz (l1_x p) (l1_r p) st al be rho ga pf); try assumption; reflexivity.
Qed.

Lemma refresh_ok (p : party1 C) f p1' p2' r' d pr c' p' st pf :
  good_key p1' p2' -> Z.gcd r' (p1' * p2') = 1 ->
  lindell_refresh Hz p f p1' p2' r' d pr = Ok (c', p', st, pf) ->
  p1_ok p' c' /\ l1_x p' = (l1_x p * of_Z q f)%Fq /\ l1_p1 p' = p1' /\ l1_p2 p' = p2'.
Proof.
  intros Hk Hr E. unfold lindell_refresh in E. apply obind_ok in E. destruct E as [sp [Es E]].
  apply ok_inj in E. injection E as -> -> -> ->. unfold p1_ok. cbn [l1_x l1_p1 l1_p2 l1_r]. auto 6.
Qed.
Lemma zero_mul (a : F) : (of_Z q 0 * a)%Fq = f0.
Proof. replace (of_Z q 0) with (f0 : F); [ring|]. symmetry. apply of_Z_0_iff. exists 0. reflexivity. Qed.

Lemma cclst_share_zero (x : F) : cclst_share x = f0 <-> to_Z x < 3.
Proof.
  unfold cclst_share. rewrite of_Z_0_iff. pose proof (to_Z_range (cq_prime C) x) as R.
  assert (0 <= to_Z x / 3 < q).
  { split; [apply Z.div_pos; lia|]. apply Z.le_lt_trans with (to_Z x); [|lia]. apply Z.div_le_upper_bound; lia. }
  split; intros K.
  - destruct K as [k K]. assert (k = 0) by nia. subst k. rewrite Z.mul_0_l in K.
    pose proof (Z.div_mod (to_Z x) 3 ltac:(lia)). pose proof (Z.mod_pos_bound (to_Z x) 3 ltac:(lia)). lia.
  - rewrite Z.div_small by lia. apply Z.divide_0_r.
Qed.

Lemma ddh_one_challenge (p : ddh_proof C) (P c : pt C) (a b : F) :
  P = smul a gen -> c = smul b gen2 -> a <> b ->
  ddh_verify Hf p (eph_stmt P c) = true ->
  ddh_chal Hf (eph_stmt P c) (dd_a1 p) (dd_a2 p) = ((dlog (dd_a2 p) * finv (dlog (gen2 : pt C)) - dlog (dd_a1 p)) * finv (a - b))%Fq.
Proof.
  intros EP Ec Nab V. apply ddh_verify_iff in V. cbn zeta in V. set (e := ddh_chal _ _ _ _) in *. clearbody e.
  cbn [eph_stmt dd_g1 dd_h1 dd_g2 dd_h2] in V. subst P c. destruct V as [V1 V2].
  apply (f_equal dlog) in V1, V2. autorewrite with dlog in V1, V2.
  pose proof (gen2_nz C) as G. pose proof (fsub_nz C _ _ Nab) as N.
  set (g := dlog gen2) in *.
  assert (K : (e * (a - b))%Fq = (dlog (dd_a2 p) * finv g - dlog (dd_a1 p))%Fq).
  { transitivity ((dd_z p * g - e * (b * g)) * finv g - (dd_z p * f1 - e * (a * f1)))%Fq; [field; assumption|].
    rewrite V1, V2. field. assumption. }
  rewrite <- K. field. assumption.
Qed.

Lemma lindell_mta (p : party1 C) c (x2 : F) r bt t1 t2 m beta :
  p1_ok p c -> Z.gcd r (l1_p1 p * l1_p2 p) = 1 -> 0 <= bt ->
  lindell_to_mta2 Hf Hz x2 (l1_p1 p * l1_p2 p) c r bt t1 t2 = Ok (m, beta) ->
  (to_Z (l1_x p) * to_Z x2 + bt < l1_p1 p * l1_p2 p ->
     exists alpha sh, lindell_to_mta1 Hf p m = Ok (alpha, sh) /\ (alpha + beta = l1_x p * x2)%Fq) /\
  (forall alpha sh, lindell_to_mta1 Hf p m = Ok (alpha, sh) -> (alpha + beta = l1_x p * x2)%Fq) /\
  (forall X, verify_b_against_public X (dp_pk (mb_b m)) = true <-> X = smul x2 gen).
Proof.
  intros [Hk [Hr Ec]] Hr2 Hbt E. unfold lindell_to_mta2 in E.
  destruct (mta_b _ _ _ _ _ _ _ _ _ _) as [z| |] eqn:Em; try discriminate. apply ok_inj in E. subst z.
  pose proof (mta_b_ok C _ _ _ _ _ _ _ _ _ _ _ _ Em) as [_ [_ [_ [Eb [Ebt Ebeta]]]]].
  assert (Em' : mta_b Hz Hf x2 (l1_p1 p * l1_p2 p) (mta_a Hz (l1_x p) (l1_p1 p * l1_p2 p) (l1_r p) []) r bt (map fst (@nil (dlstmt * arand))) t1 t2 = Ok (m, beta)).
  { rewrite <- Em. unfold mta_a. cbn [map]. rewrite Ec. reflexivity. }
  pose proof (mta_run C Hz Hf _ _ _ _ _ _ _ _ _ _ _ _ Hk Hr Hr2 Em') as R.
  assert (A : forall alpha sh, lindell_to_mta1 Hf p m = Ok (alpha, sh) -> (alpha + beta = l1_x p * x2)%Fq).
  { intros alpha sh K. unfold lindell_to_mta1 in K. apply verify_alpha_ok in K. destruct K as [_ [_ [_ [_ K]]]].
    rewrite Eb, Ebt in K. cbn [dlog_prove dp_pk] in K. apply share_of_product in K. rewrite Ebeta. exact K. }
  refine (conj _ (conj A _)).
  - intros L. assert (S : (to_Z (l1_x p) * to_Z x2 + bt) mod (l1_p1 p * l1_p2 p) = to_Z (l1_x p) * to_Z x2 + bt).
    { apply Z.mod_small. split; [|exact L]. pose proof (to_Z_range (cq_prime C) (l1_x p)). pose proof (to_Z_range (cq_prime C) x2). nia. }
    rewrite S, pt_eqb_refl in R. eexists _, _. split; [exact R|]. eapply A. exact R.
  - intros X. unfold verify_b_against_public. rewrite Eb. cbn [dlog_prove dp_pk]. apply pt_eqb_eq.
Qed.

Lemma pdl_other_base cd (x : F) (Q1 : pt C) p1 p2 r d pr :
  (forall l, 0 <= Hz l) -> good_key p1 p2 -> Z.gcd r (p1 * p2) = 1 -> good_st d -> cd d = true -> pr_ok pr -> x <> f0 ->
  exists st pf, ps_G st = smul (finv x) Q1 /\
    pdls_prove Hz x r st (fst (fst (fst pr))) (snd (fst (fst pr))) (snd (fst pr)) (snd pr) = Ok pf /\
    lindell_pdl_verify Hz cd st pf (p1 * p2) (enc (p1 * p2) (to_Z x) r) Q1 = Ok tt.
Proof.
  intros HH Hk Hr [D1 [D2 D3]] Hcd Hpr Nx. destruct pr as [[[al be] rho] ga]. destruct Hpr as [P1 [P2 [P3 P4]]].
  pose proof (good_key_gt1 _ _ Hk) as HN. cbn [fst snd].
  set (st := {| ps_c := enc (p1 * p2) (to_Z x) r; ps_N := p1 * p2; ps_Q := Q1; ps_G := smul (finv x) Q1;
               ps_h1 := dl_h1 d; ps_h2 := dl_h2 d; ps_Nt := dl_N d |}).
  assert (G : good_pst C st) by (unfold good_pst; cbn; auto).
  destruct (pdls_prove_ok C Hz x r st al be rho ga G HH P1 P2 P3 P4) as [pf Epf].
  exists st, pf. split; [reflexivity|]. split; [exact Epf|]. apply pdl_verify_ok.
  refine (conj eq_refl (conj eq_refl (conj eq_refl (conj _ _)))); [destruct d; exact Hcd|].
  apply (pdls_complete C Hz x r st al be rho ga pf); try assumption; try reflexivity.
  cbn [st ps_Q ps_G]. apply (dlog_eq_iff C). autorewrite with dlog. field. assumption.
Qed.
End P.

(** C104: what proofs, commitments and replies reveal about the secrets. *)
From Coq Require Import ZArith Znumtheory Lia Bool List Field.
From Verif Require Import ZArithX Fq Curve Toy Outcome Sigma SigmaProofs Paillier PaillierProofs PaillierOpen ZPow RangeProofs RangeExtra Mta Mp Gg20Sign.
Import ListNotations.
Local Open Scope Z_scope.

Section Hide.
Context (C : Curve).
Notation F := (Fq (cq C)).
Add Field hfield : (C_field C).

Lemma dlog_honest_iff (H : hashF C) (x : F) p : (dlog_verify H p = true /\ dp_pk p = smul x gen) <-> exists t, p = dlog_prove H x t.
Proof.
  split.
  - intros (V & K). apply dlog_verify_iff in V. destruct p as [pk T z]. cbn [dp_pk dp_t dp_z] in *. subst pk. set (c := H [HPt T; HPt gen; HPt (smul x gen)]) in *.
    exists (z + c * x)%Fq. unfold dlog_prove. assert (ET : smul (z + c * x)%Fq gen = T) by (rewrite <- V; to_dlog; ring). rewrite ET. fold c. f_equal. ring.
  - intros (t & ->). split; [apply dlog_complete|reflexivity].
Qed.
Lemma dlog_prove_inj (H : hashF C) x t t' : dlog_prove H x t = dlog_prove H x t' -> t = t'.
Proof. intros E. apply (f_equal dp_t) in E. cbn [dp_t dlog_prove] in E. apply (f_equal dlog) in E. rewrite !dlog_smul, dlog_gen in E. replace t with (t * f1)%Fq by ring. rewrite E. ring. Qed.
Lemma ddh_honest_iff (H : hashF C) (x : F) d p : dd_h1 d = smul x (dd_g1 d) -> dd_h2 d = smul x (dd_g2 d) -> (ddh_verify H p d = true <-> exists s, p = ddh_prove H x s d).
Proof.
  intros E1 E2. split.
  - intros V. apply ddh_verify_iff in V. cbv zeta in V. destruct V as (A & B). destruct p as [a1 a2 z]. cbn [dd_a1 dd_a2 dd_z] in *. set (e := ddh_chal H d a1 a2) in *.
    exists (z - e * x)%Fq. unfold ddh_prove.
    assert (X1 : smul (z - e * x)%Fq (dd_g1 d) = a1). { rewrite E1 in A. apply (f_equal dlog) in A. rewrite !dlog_add, !dlog_smul in A. to_dlog. replace ((z - e * x) * dlog (dd_g1 d))%Fq with (z * dlog (dd_g1 d) - e * (x * dlog (dd_g1 d)))%Fq by ring. rewrite A. ring. }
    assert (X2 : smul (z - e * x)%Fq (dd_g2 d) = a2). { rewrite E2 in B. apply (f_equal dlog) in B. rewrite !dlog_add, !dlog_smul in B. to_dlog. replace ((z - e * x) * dlog (dd_g2 d))%Fq with (z * dlog (dd_g2 d) - e * (x * dlog (dd_g2 d)))%Fq by ring. rewrite B. ring. }
    rewrite X1, X2. fold e. f_equal. ring.
  - intros (s & ->). apply ddh_complete; assumption.
Qed.
Lemma ddh_prove_inj (H : hashF C) x d s s' : ddh_prove H x s d = ddh_prove H x s' d -> s = s'.
Proof.
  intros E. pose proof (f_equal dd_a1 E) as E1. pose proof (f_equal dd_a2 E) as E2. pose proof (f_equal dd_z E) as E3. cbn [ddh_prove dd_a1 dd_a2 dd_z] in E1, E2, E3. rewrite E1, E2 in E3.
  set (e := ddh_chal H d _ _) in *. replace s with (s + e * x - e * x)%Fq by ring. rewrite E3. ring.
Qed.
Lemma heg_z1 (x s1 e : F) : (if feqb x f0 then s1 else (s1 + x * e)%Fq) = (s1 + x * e)%Fq.
Proof. destruct (feqb_spec x f0) as [->|]; [ring|reflexivity]. Qed.
Lemma heg_honest_iff (H : hashF C) (r x : F) d p : he_D d = padd (smul x (he_H d)) (smul r (he_Y d)) -> he_E d = smul r (he_G d) ->
  (heg_verify H p d = true <-> exists s1 s2, p = heg_prove H r x s1 s2 d).
Proof.
  intros E1 E2. split.
  - intros V. apply heg_verify_iff in V. cbv zeta in V. destruct V as (A & B). destruct p as [T A3 z1 z2]. cbn [he_T he_A3 he_z1 he_z2] in *. set (e := heg_chal H d T A3) in *.
    exists (z1 - x * e)%Fq, (z2 - r * e)%Fq. unfold heg_prove.
    assert (X1 : padd (smul (z1 - x * e)%Fq (he_H d)) (smul (z2 - r * e)%Fq (he_Y d)) = T).
    { rewrite E1 in A. apply (f_equal dlog) in A. rewrite !dlog_add, !dlog_smul, !dlog_add, !dlog_smul in A. to_dlog.
      replace ((z1 - x * e) * dlog (he_H d) + (z2 - r * e) * dlog (he_Y d))%Fq with (z1 * dlog (he_H d) + z2 * dlog (he_Y d) - e * (x * dlog (he_H d) + r * dlog (he_Y d)))%Fq by ring. rewrite A. ring. }
    assert (X2 : smul (z2 - r * e)%Fq (he_G d) = A3). { rewrite E2 in B. apply (f_equal dlog) in B. rewrite !dlog_add, !dlog_smul in B. to_dlog. replace ((z2 - r * e) * dlog (he_G d))%Fq with (z2 * dlog (he_G d) - e * (r * dlog (he_G d)))%Fq by ring. rewrite B. ring. }
    rewrite X1, X2. fold e. rewrite heg_z1. f_equal; ring.
  - intros (s1 & s2 & ->). apply heg_complete; assumption.
Qed.
Lemma heg_prove_inj (H : hashF C) r x d s1 s2 s1' s2' : heg_prove H r x s1 s2 d = heg_prove H r x s1' s2' d -> s1 = s1' /\ s2 = s2'.
Proof.
  intros E. pose proof (f_equal he_T E) as E1. pose proof (f_equal he_A3 E) as E2. pose proof (f_equal he_z1 E) as E3. pose proof (f_equal he_z2 E) as E4. unfold heg_prove in E1, E2, E3, E4. cbn [he_T he_A3 he_z1 he_z2] in E1, E2, E3, E4. rewrite E1, E2 in E3, E4. rewrite !heg_z1 in E3.
  set (e := heg_chal H d _ _) in *. split.
  - replace s1 with (s1 + x * e - x * e)%Fq by ring. rewrite E3. ring.
  - replace s2 with (s2 + r * e - r * e)%Fq by ring. rewrite E4. ring.
Qed.
Lemma ped_hides (m l m' : F) : exists l', padd (smul m' (gen : pt C)) (smul l' gen2) = padd (smul m gen) (smul l gen2) /\ forall l'', padd (smul m' (gen : pt C)) (smul l'' gen2) = padd (smul m gen) (smul l gen2) -> l'' = l'.
Proof.
  pose proof (gen2_nz C) as NZ. set (h := dlog (gen2 : pt C)) in *.
  assert (K : forall l'', padd (smul m' (gen : pt C)) (smul l'' gen2) = padd (smul m gen) (smul l gen2) <-> l'' = (l + (m - m') * finv h)%Fq).
  { intros l''. split.
    - intros E. apply (f_equal dlog) in E. rewrite !dlog_add, !dlog_smul, !dlog_gen in E. fold h in E.
      assert (X : (l'' * h)%Fq = (m - m' + l * h)%Fq). { replace (l'' * h)%Fq with (m' * f1 + l'' * h - m' * f1)%Fq by ring. rewrite E. ring. }
      replace l'' with (l'' * h * finv h)%Fq by (field; exact NZ). rewrite X. field. exact NZ.
    - intros ->. to_dlog. fold h. field. exact NZ. }
  exists (l + (m - m') * finv h)%Fq. split; [apply K; reflexivity|]. intros l'' E. apply K, E.
Qed.
Lemma ped_reveals (H : hashF C) (m r s1 s2 : F) : let p := ped_prove H m r s1 s2 in let e := H [HPt gen; HPt gen2; HPt (pe_com p); HPt (pe_a1 p); HPt (pe_a2 p)] in
  e <> f0 -> smul (finv e) (padd (smul (pe_z1 p) gen) (pneg (pe_a1 p))) = smul m gen /\ smul (finv e) (padd (smul (pe_z2 p) gen2) (pneg (pe_a2 p))) = smul r gen2.
Proof.
  cbv zeta. unfold ped_prove, ped_chal. cbn [pe_com pe_a1 pe_a2 pe_z1 pe_z2]. set (e := H _). intros NZ. split; to_dlog; field; exact NZ.
Qed.
End Hide.

(** * C104 *)
(** The accepted Schnorr, ECDDH and homomorphic ElGamal proofs for a statement are exactly the honest ones, made with any witness of
    the statement, each by one choice of nonces: the distribution of an honest proof depends on the statement only. *)
Theorem C104_proofs_hide_witness : forall (C : Curve) (H : hashF C),
  (forall x p, dp_pk p = smul x gen -> (dlog_verify H p = true <-> exists t, p = dlog_prove H x t /\ forall t', p = dlog_prove H x t' -> t' = t)) /\
  (forall x d p, dd_h1 d = smul x (dd_g1 d) -> dd_h2 d = smul x (dd_g2 d) ->
     (ddh_verify H p d = true <-> exists s, p = ddh_prove H x s d /\ forall s', p = ddh_prove H x s' d -> s' = s)) /\
  (forall r x d p, he_D d = padd (smul x (he_H d)) (smul r (he_Y d)) -> he_E d = smul r (he_G d) ->
     (heg_verify H p d = true <-> exists s1 s2, p = heg_prove H r x s1 s2 d /\ forall s1' s2', p = heg_prove H r x s1' s2' d -> s1' = s1 /\ s2' = s2)).
Proof.
  intros C H. split; [|split].
  - intros x p K. split.
    + intros V. destruct (proj1 (dlog_honest_iff C H x p) (conj V K)) as (t & E). exists t. split; [exact E|]. intros t' E'. apply (dlog_prove_inj C H x). congruence.
    + intros (t & E & _). apply (dlog_honest_iff C H x p). exists t. exact E.
  - intros x d p E1 E2. rewrite (ddh_honest_iff C H x d p E1 E2). split.
    + intros (s & E). exists s. split; [exact E|]. intros s' E'. apply (ddh_prove_inj C H x d). congruence.
    + intros (s & E & _). exists s. exact E.
  - intros r x d p E1 E2. rewrite (heg_honest_iff C H r x d p E1 E2). split.
    + intros (s1 & s2 & E). exists s1, s2. split; [exact E|]. intros s1' s2' E'. apply (heg_prove_inj C H r x d). congruence.
    + intros (s1 & s2 & E & _). exists s1, s2. exact E.
Qed.
Print Assumptions C104_proofs_hide_witness.
(** The proof with nonce 8 is accepted, and only that nonce makes it *)
Definition hc2 : hashF toy := fun _ => tz 3.
Example C104_proofs_example : dlog_verify hc2 (dlog_prove hc2 (tz 5) (tz 8)) = true /\ filter (fun t => pt_eqb (dp_t (dlog_prove hc2 (tz 5) (tz t))) (dp_t (dlog_prove hc2 (tz 5) (tz 8)))) (map Z.of_nat (seq 0 31)) = [8].
Proof. split; vm_compute; reflexivity. Qed.

(** The commitment T_i alone hides sigma_i perfectly. *)
Theorem C104_commitment_hides : forall (C : Curve) (m l m' : Fq (cq C)),
  exists l', padd (smul m' (gen : pt C)) (smul l' gen2) = padd (smul m gen) (smul l gen2) /\
    forall l'', padd (smul m' (gen : pt C)) (smul l'' gen2) = padd (smul m gen) (smul l gen2) -> l'' = l'.
Proof. exact ped_hides. Qed.
Print Assumptions C104_commitment_hides.
(** The commitment to 5 with l = 4 opens to every value, each in one way *)
Example C104_commitment_example :
  map (fun m => length (filter (fun l => pt_eqb (padd (smul (tz m) (gen : pt toy)) (smul (tz l) gen2)) (padd (smul (tz 5) gen) (smul (tz 4) gen2))) (map Z.of_nat (seq 0 31)))) (map Z.of_nat (seq 0 31))
  = repeat 1%nat 31.
Proof. vm_compute. reflexivity. Qed.

(** But GG20's phase 3 publishes T_i together with a PedersenProof, and from that proof everybody computes sigma_i G (and l_i H): "the message
    reveals nothing about sigma_i" is false. *)
Definition opened {C} (H : hashF C) (p : ped_proof C) : pt C :=
  let e := H [HPt gen; HPt gen2; HPt (pe_com p); HPt (pe_a1 p); HPt (pe_a2 p)] in
  smul (finv e) (padd (smul (pe_z1 p) gen) (pneg (pe_a1 p))).
Theorem C104_phase3_reveals_refuted : forall (C : Curve) (Hf : hashF C) (sigma l s1 s2 : Fq (cq C)) T p,
  sg_t Hf sigma l s1 s2 = (T, p) ->
  Hf [HPt gen; HPt gen2; HPt (pe_com p); HPt (pe_a1 p); HPt (pe_a2 p)] <> f0 ->
  opened Hf p = smul sigma gen /\
  (forall sigma', sigma' <> sigma -> opened Hf p <> smul sigma' gen).
Proof.
  intros C Hf sigma l s1 s2 T p E NZ. unfold sg_t in E. assert (EP : p = ped_prove Hf sigma l s1 s2) by congruence. clear E. subst p.
  assert (O : opened Hf (ped_prove Hf sigma l s1 s2) = smul sigma gen) by (apply (ped_reveals C Hf sigma l s1 s2); exact NZ). split; [exact O|].
  intros sigma' NE. rewrite O. intros E. apply NE. symmetry. exact (smul_gen_inj C _ _ E).
Qed.
Print Assumptions C104_phase3_reveals_refuted.
(** On the toy curve, challenge 3, sigma = 5: everybody finds 5 G *)
Definition hc3 : hashF toy := fun _ => tz 3.
Example C104_phase3_example : pt_eqb (opened hc3 (snd (sg_t hc3 (tz 5) (tz 4) (tz 8) (tz 9)))) (smul (tz 5) gen) = true /\
  pt_eqb (opened hc3 (snd (sg_t hc3 (tz 5) (tz 4) (tz 8) (tz 9)))) (smul (tz 6) gen) = false.
Proof. split; vm_compute; reflexivity. Qed.

(** Bob's ciphertext in MtA hides b perfectly: for every other b' exactly one choice of (beta_tag, r) gives the same ciphertext. *)
Theorem C104_mta_reply_hides : forall p1 p2 c_a a b b' beta r,
  good_key p1 p2 -> Z.gcd (p1 * p2) ((p1 - 1) * (p2 - 1)) = 1 -> is_enc (p1 * p2) c_a a -> 0 <= b -> 0 <= b' ->
  let N := p1 * p2 in let reply b beta r := padd_c N (pmul_c N c_a b) (enc N beta r) in
  Z.gcd r N = 1 ->
  exists beta' r', (0 <= beta' < N /\ 0 <= r' < N /\ Z.gcd r' N = 1 /\ reply b' beta' r' = reply b beta r) /\
    forall beta'' r'', 0 <= beta'' < N -> 0 <= r'' < N -> Z.gcd r'' N = 1 -> reply b' beta'' r'' = reply b beta r -> beta'' = beta' /\ r'' = r'.
Proof.
  intros p1 p2 c_a a b b' beta r GK GP EA B B'. cbv zeta. set (N := p1 * p2) in *. intros GR. pose proof (good_key_gt1 _ _ GK) as HN. fold N in HN. assert (HNN : 1 < N * N) by nia.
  assert (IB := is_enc_mul N c_a a b HN B EA). assert (IE := enc_is_enc N beta r HN GR). assert (IR := is_enc_add N _ _ _ _ HN IB IE).
  assert (IB' := is_enc_mul N c_a a b' HN B' EA). set (D := pmul_c N c_a b') in *. assert (GD : Z.gcd D (N * N) = 1) by (eapply is_enc_gcd; eassumption).
  assert (IV := is_enc_zpow N D _ (-1) HN IB'). assert (IQ := is_enc_add N _ _ _ _ HN IR IV). apply is_enc_mod in IQ; [|exact HN].
  set (R := padd_c N (pmul_c N c_a b) (enc N beta r)) in *. set (beta' := (b * a + beta + -1 * (b' * a)) mod N) in *.
  destruct IQ as (r0 & G0 & E0). assert (GR0 : Z.gcd (r0 mod N) N = 1) by (rewrite (gcd_eqm _ r0) by (lia || apply eqm_mod); exact G0).
  assert (RR : 0 <= R < N * N) by (unfold R, padd_c; apply Z.mod_pos_bound; lia).
  assert (EE : enc N beta' (r0 mod N) = padd_c N R (zpow D (-1) (N * N))).
  { rewrite (enc_mod N beta' beta' (r0 mod N) r0) by (try exact HN; try exact GR0; try apply eqm_refl; apply eqm_mod). unfold padd_c in *. apply (eqm_small (N * N)); [apply enc_range; exact HN|apply Z.mod_pos_bound; lia|].
    eapply eqm_trans; [|apply eqm_sym, E0]. unfold enc. eapply eqm_trans; [apply eqm_mod|]. apply eqm_mul; [eapply eqm_trans; [apply eqm_mod|]; rewrite Z.add_comm; apply eqm_refl|]. rewrite powm_spec by lia. apply eqm_mod. }
  assert (SAME : padd_c N D (enc N beta' (r0 mod N)) = R).
  { rewrite EE. unfold padd_c. apply (eqm_small (N * N)); [apply Z.mod_pos_bound; lia|exact RR|]. eapply eqm_trans; [apply eqm_mod|]. eapply eqm_trans; [apply eqm_mul; [apply eqm_refl|apply eqm_mod]|].
    replace (D * (R * zpow D (-1) (N * N))) with (R * (zpow D (-1) (N * N) * D ^ 1)) by (rewrite Z.pow_1_r; ring). eapply eqm_trans; [apply eqm_mul; [apply eqm_refl|apply zpow_char; [exact HNN|exact GD|lia|lia]]|]. replace (-1 + 1) with 0 by lia. rewrite Z.pow_0_r, Z.mul_1_r. apply eqm_refl. }
  exists beta', (r0 mod N). split; [split; [apply Z.mod_pos_bound; lia|split; [apply Z.mod_pos_bound; lia|split; [exact GR0|exact SAME]]]|].
  intros beta'' r'' RB Rr G'' E. assert (EC : enc N beta'' r'' = enc N beta' (r0 mod N)).
  { rewrite <- SAME in E. unfold padd_c in E. apply (eqm_small (N * N)); [apply enc_range; exact HN|apply enc_range; exact HN|]. apply (eqm_cancel_l (N * N) D); [lia|exact GD|exact E]. }
  pose proof (popen_enc p1 p2 beta'' r'' GK GP G'') as O1. pose proof (popen_enc p1 p2 beta' (r0 mod N) GK GP GR0) as O2. fold N in O1, O2. rewrite EC, O2 in O1.
  rewrite (Z.mod_small beta''), (Z.mod_small r'') in O1 by assumption. assert (B0 : 0 <= beta' < N) by (apply Z.mod_pos_bound; lia). rewrite (Z.mod_small beta') in O1 by exact B0. rewrite Z.mod_mod in O1 by lia. split; congruence.
Qed.
Print Assumptions C104_mta_reply_hides.
(** With N = 35: the same ciphertext for b = 3, beta_tag = 4 and for b' = 5 *)
Example C104_mta_example : let N := 5 * 7 in let c_a := enc N 2 3 in
  Z.gcd N ((5 - 1) * (7 - 1)) = 1 /\ padd_c N (pmul_c N c_a 3) (enc N 4 11) = padd_c N (pmul_c N c_a 5) (enc N 0 9).
Proof. vm_compute. split; reflexivity. Qed.

(** Alice's integer response s1 = e a + alpha hides a up to the ends of the range: all but 2 q^2 of the q^3 nonces alpha have a partner
    that gives the same response for a'. *)
Theorem C104_alice_response_hides : forall (C : Curve) (H : hashZ C) (a a' : Fq (cq C)) cipher N st r alpha beta gamma ro,
  let q := cq C in let p := alice_generate H (to_Z a) cipher N st r alpha beta gamma ro in
  0 <= ap_e p < q -> q * q <= alpha < q * q * q - q * q ->
  exists alpha', 0 <= alpha' < q * q * q /\ ap_e p * to_Z a' + alpha' = ap_s1 p.
Proof.
  intros C H a a' cipher N st r alpha beta gamma ro q p E A. exists (ap_e p * to_Z a + alpha - ap_e p * to_Z a'). pose proof (to_Z_range (cq_prime C) a) as RA. pose proof (to_Z_range (cq_prime C) a') as RA'. unfold q in *. clear q.
  split; [|unfold p; cbn [alice_generate ap_e ap_s1]; lia]. set (e := ap_e p) in *. clearbody e. clear p.
  assert (B : forall z, 0 <= z < cq C -> 0 <= e * z <= cq C * cq C) by (intros z Z0; split; [nia|apply Z.mul_le_mono_nonneg; lia]). pose proof (B _ RA) as B1. pose proof (B _ RA') as B2. clear B. revert A B1 B2. generalize (e * to_Z a), (e * to_Z a'), (cq C * cq C * cq C), (cq C * cq C). clear. intros. lia.
Qed.
Print Assumptions C104_alice_response_hides.
(** q = 31: the response 2 * 30 + 1000 is also one for a' = 0 *)
Example C104_response_example : 31 * 31 <= 1000 < 31 * 31 * 31 - 31 * 31 /\ 2 * 0 + 1060 = 2 * 30 + 1000 /\ 0 <= 1060 < 31 * 31 * 31.
Proof. lia. Qed.

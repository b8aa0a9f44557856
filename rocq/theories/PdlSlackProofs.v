(** Lemmas about PDL with slack. *)
From Coq Require Import ZArith Znumtheory Lia Bool List.
From Verif Require Import ZArithX Fq Curve Outcome Sigma SigmaProofs Bytes Paillier PaillierProofs ZPow
  RangeProofs RangeProofsProofs BobProofs Forge PdlSlack.
Import ListNotations.
Local Open Scope Z_scope.

Lemma cuo_spec h1 h2 n x r : 1 < n -> (0 <= x \/ Z.gcd h1 n = 1) -> (0 <= r \/ Z.gcd h2 n = 1) ->
  cuo h1 h2 n x r = Some ((zpow h1 x n * zpow h2 r n) mod n).
Proof.
  intros Hn Hx Hr. unfold cuo.
  assert (E1 : mod_pow h1 x n = Some (zpow h1 x n)).
  { destruct Hx as [Hx|Hx]; [|apply mod_pow_zpow; assumption].
    rewrite mod_pow_pos, zpow_nonneg by lia. reflexivity. }
  rewrite E1. destruct (Z.ltb_spec r 0) as [Er|Er].
  - destruct Hr as [Hr|Hr]; [lia|]. rewrite bn_inv_pos by lia.
    destruct (mod_inv_complete h2 n Hn Hr) as [i Hi]. rewrite Hi.
    assert (E2 : zpow h2 r n = (i ^ (- r)) mod n).
    { unfold zpow. replace (0 <=? r) with false by (symmetry; apply Z.leb_gt; lia). rewrite Hi. reflexivity. }
    rewrite mod_pow_pos, E2 by lia. reflexivity.
  - rewrite mod_pow_pos, (zpow_nonneg h2) by lia. reflexivity.
Qed.

Lemma cuo_none_l h1 h2 n x r : 1 < n -> x < 0 -> Z.gcd h1 n <> 1 -> cuo h1 h2 n x r = None.
Proof. intros Hn Hx Hg. unfold cuo. rewrite (proj2 (mod_pow_none h1 x n Hn)) by auto. reflexivity. Qed.

Lemma cuo_none_r h1 h2 n x r : 1 < n -> r < 0 -> Z.gcd h2 n <> 1 -> cuo h1 h2 n x r = None.
Proof.
  intros Hn Hr Hg. unfold cuo. destruct (mod_pow h1 x n); [|reflexivity].
  replace (r <? 0) with true by (symmetry; apply Z.ltb_lt; lia).
  rewrite bn_inv_pos by lia. destruct (mod_inv h2 n) as [i|] eqn:E; [|reflexivity].
  apply mod_inv_gcd in E; [|lia]. contradiction.
Qed.

Lemma cuo_eqm h1 h2 n x r v : 1 < n -> (0 <= x \/ Z.gcd h1 n = 1) -> (0 <= r \/ Z.gcd h2 n = 1) ->
  cuo h1 h2 n x r = Some v -> 0 <= v < n /\ eqm n v (zpow h1 x n * zpow h2 r n).
Proof.
  intros Hn Hx Hr E. rewrite cuo_spec in E by assumption. injection E as <-.
  split; [apply Z.mod_pos_bound; lia|apply eqm_mod].
Qed.

Lemma zpow_neg_l b k n : 1 < n -> Z.gcd b n = 1 -> 0 <= k -> eqm n (zpow b (- k) n * b ^ k) 1.
Proof.
  intros Hn Hg Hk. eapply eqm_trans; [apply zpow_char; try assumption; lia|].
  replace (- k + k) with 0 by ring. rewrite Z.pow_0_r. apply eqm_refl.
Qed.

(** The divided commitment x * b^-k, as used for u2 and u3. *)
Lemma cuo_div t b n e : 1 < n -> 0 <= e -> (e = 0 \/ Z.gcd b n = 1) ->
  exists v, cuo t b n 1 (- e) = Some v /\ 0 <= v < n /\ eqm n (v * b ^ e) t.
Proof.
  intros Hn He Hb. eexists. split; [apply cuo_spec; [lia|left; lia|]|].
  - destruct Hb as [->|Hb]; [left; lia|right; assumption].
  - split; [apply Z.mod_pos_bound; lia|].
    eapply eqm_trans; [apply eqm_mul; [apply eqm_mod|apply eqm_refl]|].
    rewrite (zpow_nonneg t) by lia. rewrite Z.pow_1_r.
    destruct (Z.eq_dec e 0) as [->|Hne].
    + change (- 0) with 0. rewrite zpow_nonneg by lia. rewrite !Z.pow_0_r, Z.mod_1_l by lia.
      rewrite !Z.mul_1_r. apply eqm_mod.
    + destruct Hb as [Hb|Hb]; [contradiction|].
      rewrite <- Z.mul_assoc.
      apply eqm_trans with (t * 1); [|unfold eqm; f_equal; ring].
      apply eqm_mul; [apply eqm_mod|]. apply zpow_neg_l; assumption.
Qed.

Lemma div_unique n v v' b t : 1 < n -> Z.gcd b n = 1 -> 0 <= v < n -> 0 <= v' < n ->
  eqm n (v * b) t -> eqm n (v' * b) t -> v = v'.
Proof.
  intros Hn Hb Rv Rv' E E'. apply eqm_small with n; [assumption|assumption|].
  apply (eqm_cancel_l n b); [lia|assumption|]. rewrite !(Z.mul_comm b).
  eapply eqm_trans; [exact E|apply eqm_sym; exact E'].
Qed.

Lemma unit_N1 N : Z.gcd (N + 1) (N * N) = 1.
Proof. replace (N + 1) with (1 * N + 1) by ring. apply unit_1pN. Qed.

Lemma zpow_N1 N k : 1 < N -> eqm (N * N) (zpow (N + 1) k (N * N)) (k * N + 1).
Proof.
  intros HN. assert (HNN : 1 < N * N) by nia.
  apply (eqm_cancel_l (N * N) ((N + 1) ^ Z.abs k)); [lia|apply gcd_pow; [lia|apply unit_N1]|].
  rewrite Z.mul_comm with (m := zpow (N + 1) k (N * N)).
  eapply eqm_trans; [apply zpow_char; [assumption|apply unit_N1|lia|lia]|].
  replace (N + 1) with (1 + N) by ring.
  eapply eqm_trans; [apply pow1p; [lia|apply Z.divide_refl]|].
  apply eqm_sym. eapply eqm_trans; [apply eqm_mul; [apply pow1p; [lia|apply Z.divide_refl]|apply eqm_refl]|].
  replace ((1 + Z.abs k * N) * (k * N + 1)) with (1 + (k + Z.abs k) * N + Z.abs k * k * (N * N)) by ring.
  unfold eqm. apply Z_mod_plus_full.
Qed.

Section P.
Context (C : Curve).
Notation q := (cq C).
Notation F := (Fq q).
Add Field cfield : (C_field C).
Implicit Types (H : hashZ C).

Definition good_pst (st : pdls_stmt C) : Prop :=
  1 < ps_N st /\ 1 < ps_Nt st /\ Z.gcd (ps_h1 st) (ps_Nt st) = 1 /\ Z.gcd (ps_h2 st) (ps_Nt st) = 1.

Definition pdls_chal H (p : pdls_proof C) (st : pdls_stmt C) : Z :=
  H (pdls_query st (pp_z p) (pp_u1 p) (pp_u2 p) (pp_u3 p)).

(** The verification equations. *)
Definition pdls_eqs (p : pdls_proof C) (st : pdls_stmt C) (e : Z) : Prop :=
  let NN := ps_N st * ps_N st in
  smul (of_Z q (pp_s1 p)) (ps_G st) = padd (pp_u1 p) (smul (of_Z q e) (ps_Q st)) /\
  0 <= pp_u2 p < NN /\
  eqm NN (pp_u2 p * ps_c st ^ e) ((pp_s1 p * ps_N st + 1) * pp_s2 p ^ ps_N st) /\
  0 <= pp_u3 p < ps_Nt st /\
  eqm (ps_Nt st) (pp_u3 p * pp_z p ^ e)
      (zpow (ps_h1 st) (pp_s1 p) (ps_Nt st) * zpow (ps_h2 st) (pp_s3 p) (ps_Nt st)).

Lemma pdls_u1 (p : pdls_proof C) st e :
  pp_u1 p = padd (smul (of_Z q (pp_s1 p)) (ps_G st)) (smul (of_Z q (q - e)) (ps_Q st)) <->
  smul (of_Z q (pp_s1 p)) (ps_G st) = padd (pp_u1 p) (smul (of_Z q e) (ps_Q st)).
Proof.
  rewrite !(dlog_eq_iff C). autorewrite with dlog. rewrite of_Z_sub, of_Z_q.
  split; intros E.
  - rewrite E. ring.
  - rewrite E. ring.
Qed.

Lemma pdls_verify_iff H p st : good_pst st -> 0 <= pdls_chal H p st ->
  (pdls_chal H p st = 0 \/ (Z.gcd (ps_c st) (ps_N st * ps_N st) = 1 /\ Z.gcd (pp_z p) (ps_Nt st) = 1)) ->
  (pdls_verify H p st = Ok tt <-> pdls_eqs p st (pdls_chal H p st)) /\
  (pdls_verify H p st <> Panic).
Proof.
  intros [HN [HNt [G1 G2]]] He Hu. set (e := pdls_chal H p st) in *.
  assert (HNN : 1 < ps_N st * ps_N st) by (clear - HN; nia).
  set (NN := ps_N st * ps_N st) in *.
  assert (HN0 : 0 <= ps_N st) by (clear - HN; lia).
  unfold pdls_verify. fold (pdls_chal H p st). fold e NN.
  pose proof (cuo_spec (ps_N st + 1) (pp_s2 p) NN (pp_s1 p) (ps_N st) HNN
     (or_intror (unit_N1 _)) (or_introl HN0)) as E1.
  destruct (cuo_eqm _ _ _ _ _ _ HNN (or_intror (unit_N1 _)) (or_introl HN0) E1) as [R1 Q1].
  set (t2 := (zpow (ps_N st + 1) (pp_s1 p) NN * zpow (pp_s2 p) (ps_N st) NN) mod NN) in *.
  rewrite E1. cbn [unwrap obind].
  destruct (cuo_div t2 (ps_c st) NN e HNN He) as [v2 [E2 [R2 Q2]]]; [tauto|].
  rewrite E2. cbn [unwrap obind].
  pose proof (cuo_spec (ps_h1 st) (ps_h2 st) (ps_Nt st) (pp_s1 p) (pp_s3 p) HNt
     (or_intror G1) (or_intror G2)) as E3.
  destruct (cuo_eqm _ _ _ _ _ _ HNt (or_intror G1) (or_intror G2) E3) as [R3 Q3].
  set (t3 := (zpow (ps_h1 st) (pp_s1 p) (ps_Nt st) * zpow (ps_h2 st) (pp_s3 p) (ps_Nt st)) mod ps_Nt st) in *.
  rewrite E3. cbn [unwrap obind].
  destruct (cuo_div t3 (pp_z p) (ps_Nt st) e HNt He) as [v3 [E4 [R4 Q4]]]; [tauto|].
  rewrite E4. cbn [unwrap obind].
  split; [|destruct (_ && _); discriminate].
  assert (Q2' : eqm NN (v2 * ps_c st ^ e) ((pp_s1 p * ps_N st + 1) * pp_s2 p ^ ps_N st)).
  { eapply eqm_trans; [exact Q2|]. eapply eqm_trans; [exact Q1|].
    apply eqm_mul; [apply zpow_N1; assumption|]. rewrite zpow_nonneg by lia. apply eqm_mod. }
  assert (Q4' : eqm (ps_Nt st) (v3 * pp_z p ^ e) (zpow (ps_h1 st) (pp_s1 p) (ps_Nt st) * zpow (ps_h2 st) (pp_s3 p) (ps_Nt st))).
  { eapply eqm_trans; [exact Q4|exact Q3]. }
  assert (U2 : Z.gcd (ps_c st ^ e) NN = 1).
  { destruct Hu as [Hu|[Hu _]]; [rewrite Hu, Z.pow_0_r; apply Z.gcd_1_l|apply gcd_pow; assumption]. }
  assert (U3 : Z.gcd (pp_z p ^ e) (ps_Nt st) = 1).
  { destruct Hu as [Hu|[_ Hu]]; [rewrite Hu, Z.pow_0_r; apply Z.gcd_1_l|apply gcd_pow; assumption]. }
  unfold pdls_eqs. fold NN. rewrite <- pdls_u1.
  split.
  - intros E. destruct (pt_eqb _ _) eqn:K1; [|discriminate]. destruct (_ =? v2) eqn:K2; [|discriminate].
    destruct (_ =? v3) eqn:K3; [|discriminate]. clear E.
    apply (pt_eqb_eq C) in K1. apply Z.eqb_eq in K2, K3. rewrite K2, K3. auto.
  - intros [K1 [K2 [K3 [K4 K5]]]].
    rewrite (proj2 (pt_eqb_eq C _ _) K1).
    assert (pp_u2 p = v2) as -> by (apply (div_unique NN _ _ _ _ HNN U2 K2 R2 K3 Q2')).
    assert (pp_u3 p = v3) as -> by (apply (div_unique _ _ _ _ _ HNt U3 K4 R4 K5 Q4')).
    rewrite !Z.eqb_refl. reflexivity.
Qed.

(** Non-invertible values crash the verifier. *)
Lemma pdls_verify_panic H p st : good_pst st -> 0 < pdls_chal H p st ->
  Z.gcd (ps_c st) (ps_N st * ps_N st) <> 1 \/ Z.gcd (pp_z p) (ps_Nt st) <> 1 ->
  pdls_verify H p st = Panic.
Proof.
  intros [HN [HNt [G1 G2]]] He Hu. set (e := pdls_chal H p st) in *.
  assert (HNN : 1 < ps_N st * ps_N st) by (clear - HN; nia).
  unfold pdls_verify. fold (pdls_chal H p st). fold e.
  rewrite (cuo_spec (ps_N st + 1)) by (lia || (right; apply unit_N1) || (left; lia)). cbn [unwrap obind].
  destruct (Z.eq_dec (Z.gcd (ps_c st) (ps_N st * ps_N st)) 1) as [Ec|Ec].
  - rewrite cuo_spec by (lia || (left; lia) || (right; assumption)). cbn [unwrap obind].
    rewrite cuo_spec by (lia || (right; assumption)). cbn [unwrap obind].
    destruct Hu as [Hu|Hu]; [contradiction|].
    rewrite cuo_none_r by (lia || assumption). reflexivity.
  - rewrite cuo_none_r by (lia || assumption). reflexivity.
Qed.

Lemma pdls_complete H (x : F) r st alpha beta rho gamma p :
  good_pst st -> (forall l, 0 <= H l) ->
  0 <= alpha -> 0 <= beta -> 0 <= rho -> 0 <= gamma -> Z.gcd r (ps_N st) = 1 ->
  ps_c st = enc (ps_N st) (to_Z x) r -> ps_Q st = smul x (ps_G st) ->
  pdls_prove H x r st alpha beta rho gamma = Ok p -> pdls_verify H p st = Ok tt.
Proof.
  intros Hst HH Ha Hb Hrho Hg Hr Ec EQ Hp. pose proof Hst as [HN [HNt [G1 G2]]].
  assert (HNN : 1 < ps_N st * ps_N st) by (clear - HN; nia).
  assert (Hx : 0 <= to_Z x) by apply (to_Z_range (cq_prime C)).
  assert (HN0 : 0 <= ps_N st) by (clear - HN; lia).
  unfold pdls_prove in Hp.
  destruct (cuo (ps_h1 st) (ps_h2 st) (ps_Nt st) (to_Z x) rho) as [z|] eqn:E1; [|discriminate]. cbn [unwrap obind] in Hp.
  destruct (cuo (ps_N st + 1) beta (ps_N st * ps_N st) alpha (ps_N st)) as [u2|] eqn:E2; [|discriminate]. cbn [unwrap obind] in Hp.
  destruct (cuo (ps_h1 st) (ps_h2 st) (ps_Nt st) alpha gamma) as [u3|] eqn:E3; [|discriminate]. cbn [unwrap obind] in Hp.
  set (u1 := smul (of_Z q alpha) (ps_G st)) in *.
  set (e := H (pdls_query st z u1 u2 u3)) in *.
  assert (He : 0 <= e) by apply HH.
  destruct (cuo r beta (ps_N st) e 1) as [s2|] eqn:E4; [|discriminate]. cbn [unwrap obind] in Hp.
  apply ok_inj in Hp.
  assert (Ee : pdls_chal H p st = e) by (rewrite Hp; reflexivity).
  apply cuo_eqm in E1; [|assumption|left; assumption|left; assumption]. destruct E1 as [R1 Q1].
  apply cuo_eqm in E2; [|assumption|left; assumption|left; assumption]. destruct E2 as [R2 Q2].
  apply cuo_eqm in E3; [|assumption|left; assumption|left; assumption]. destruct E3 as [R3 Q3].
  apply cuo_eqm in E4; [|assumption|left; assumption|left; exact Z.le_0_1]. destruct E4 as [R4 Q4].
  assert (Uc : is_enc (ps_N st) (ps_c st) (to_Z x)) by (rewrite Ec; apply enc_is_enc; assumption).
  assert (Ucg := is_enc_gcd _ _ _ HN Uc).
  assert (Uz : Z.gcd z (ps_Nt st) = 1).
  { rewrite (gcd_eqm1 _ _ _ Q1 HNt). apply gcd_mul; apply zpow_unit; assumption. }
  apply pdls_verify_iff; [assumption|rewrite Ee; assumption|right; rewrite Hp; cbn [pp_z]; auto|].
  rewrite Ee, Hp. unfold pdls_eqs. cbn [pp_s1 pp_u1 pp_u2 pp_s2 pp_u3 pp_z pp_s3].
  refine (conj _ (conj R2 (conj _ (conj R3 _)))).
  - rewrite EQ. unfold u1. apply (dlog_eq_iff C). autorewrite with dlog.
    rewrite of_Z_add, of_Z_mul, of_Z_to_Z. ring.
  - assert (Ec' : eqm (ps_N st * ps_N st) (ps_c st) ((1 + to_Z x * ps_N st) * r ^ ps_N st)).
    { rewrite Ec. unfold enc. rewrite powm_spec by (assumption || (clear - HNN; lia)). eapply eqm_trans; [apply eqm_mod|].
      apply eqm_mul; [|apply eqm_mod]. eapply eqm_trans; [apply eqm_mod|]. unfold eqm; f_equal; ring. }
    apply eqm_trans with (((alpha * ps_N st + 1) * beta ^ ps_N st) * ((1 + to_Z x * ps_N st) * r ^ ps_N st) ^ e).
    + apply eqm_mul; [|apply eqm_pow; assumption].
      eapply eqm_trans; [exact Q2|]. apply eqm_mul; [apply zpow_N1; assumption|].
      rewrite zpow_nonneg by assumption. apply eqm_mod.
    + rewrite Z.pow_mul_l.
      apply eqm_trans with (((alpha * ps_N st + 1) * beta ^ ps_N st) * ((1 + e * (to_Z x * ps_N st)) * (r ^ ps_N st) ^ e)).
      * apply eqm_mul; [apply eqm_refl|]. apply eqm_mul; [|apply eqm_refl].
        apply pow1p; [assumption|]. exists (to_Z x * to_Z x). ring.
      * apply eqm_trans with (((e * to_Z x + alpha) * ps_N st + 1) * (r ^ e * beta) ^ ps_N st).
        -- rewrite Z.pow_mul_l. rewrite <- !Z.pow_mul_r by assumption. rewrite (Z.mul_comm (ps_N st) e).
           replace ((alpha * ps_N st + 1) * beta ^ ps_N st * ((1 + e * (to_Z x * ps_N st)) * r ^ (e * ps_N st)))
              with (((alpha * ps_N st + 1) * (1 + e * (to_Z x * ps_N st))) * (r ^ (e * ps_N st) * beta ^ ps_N st)) by ring.
           apply eqm_mul; [|apply eqm_refl].
           replace ((alpha * ps_N st + 1) * (1 + e * (to_Z x * ps_N st)))
              with (((e * to_Z x + alpha) * ps_N st + 1) + (alpha * e * to_Z x) * (ps_N st * ps_N st)) by ring.
           unfold eqm. apply Z_mod_plus_full.
        -- apply eqm_mul; [apply eqm_refl|]. apply eqm_sym. apply pow_lift; [assumption|].
           eapply eqm_trans; [exact Q4|]. rewrite !zpow_nonneg by (assumption || exact Z.le_0_1). rewrite Z.pow_1_r.
           apply eqm_mul; apply eqm_mod.
  - apply rp_honest; try assumption.
    + eapply eqm_trans; [exact Q1|]. rewrite !zpow_nonneg by assumption. apply eqm_mul; apply eqm_mod.
    + eapply eqm_trans; [exact Q3|]. rewrite !zpow_nonneg by assumption. apply eqm_mul; apply eqm_mod.
Qed.

Lemma pdls_prove_ok H (x : F) r st alpha beta rho gamma :
  good_pst st -> (forall l, 0 <= H l) ->
  0 <= alpha -> 0 <= beta -> 0 <= rho -> 0 <= gamma ->
  exists p, pdls_prove H x r st alpha beta rho gamma = Ok p.
Proof.
  intros [HN [HNt [G1 G2]]] HH Ha Hb Hrho Hg.
  assert (HNN : 1 < ps_N st * ps_N st) by (clear - HN; nia).
  assert (Hx : 0 <= to_Z x) by apply (to_Z_range (cq_prime C)).
  unfold pdls_prove.
  rewrite cuo_spec by (assumption || (left; assumption)). cbn [unwrap obind].
  rewrite cuo_spec by (assumption || (left; lia)). cbn [unwrap obind].
  rewrite cuo_spec by (assumption || (left; assumption)). cbn [unwrap obind].
  rewrite cuo_spec by (assumption || (left; apply HH) || (left; lia)). cbn [unwrap obind].
  eauto.
Qed.

Lemma pdls_sound H H' p p' st :
  good_pst st -> Z.gcd (ps_c st) (ps_N st * ps_N st) = 1 ->
  pp_z p = pp_z p' -> pp_u1 p = pp_u1 p' -> pp_u2 p = pp_u2 p' -> pp_u3 p = pp_u3 p' ->
  let e := pdls_chal H p st in let e' := pdls_chal H' p' st in
  0 <= e -> 0 <= e' -> e <> e' ->
  pdls_verify H p st = Ok tt -> pdls_verify H' p' st = Ok tt ->
  smul (of_Z q (pp_s1 p - pp_s1 p')) (ps_G st) = smul (of_Z q (e - e')) (ps_Q st) /\
  Z.gcd (pp_z p) (ps_Nt st) = 1 /\
  eqm (ps_Nt st) (zpow (pp_z p) (e - e') (ps_Nt st))
    (zpow (ps_h1 st) (pp_s1 p - pp_s1 p') (ps_Nt st) * zpow (ps_h2 st) (pp_s3 p - pp_s3 p') (ps_Nt st)) /\
  (Z.gcd (pp_s2 p) (ps_N st) = 1 -> exists sg, Z.gcd sg (ps_N st) = 1 /\
    eqm (ps_N st * ps_N st) (zpow (ps_c st) (e - e') (ps_N st * ps_N st))
      (((pp_s1 p - pp_s1 p') * ps_N st + 1) * sg ^ ps_N st)).
Proof.
  intros Hst Gc Ez E1 E2 E3 e e' He He' Hne V V'. pose proof Hst as [HN [HNt [G1 G2]]].
  assert (HNN : 1 < ps_N st * ps_N st) by (clear - HN; nia).
  assert (K : forall H p, 0 <= pdls_chal H p st -> pdls_verify H p st = Ok tt ->
     pdls_eqs p st (pdls_chal H p st) /\ Z.gcd (pp_z p ^ pdls_chal H p st) (ps_Nt st) = 1).
  { intros H0 p0 He0 V0.
    destruct (Z.eq_dec (pdls_chal H0 p0 st) 0) as [E0|E0].
    - split; [apply (pdls_verify_iff H0 p0 st Hst He0 (or_introl E0)); assumption|].
      rewrite E0, Z.pow_0_r. apply Z.gcd_1_l.
    - destruct (Z.eq_dec (Z.gcd (pp_z p0) (ps_Nt st)) 1) as [Ez0|Ez0].
      + split; [apply (pdls_verify_iff H0 p0 st Hst He0); auto|]. apply gcd_pow; assumption.
      + rewrite pdls_verify_panic in V0; [discriminate|assumption|lia|auto]. }
  destruct (K H p He V) as [[A1 [_ [A2 [_ A3]]]] A4]. destruct (K H' p' He' V') as [[B1 [_ [B2 [_ B3]]]] B4].
  fold e in A1, A2, A3, A4. fold e' in B1, B2, B3, B4.
  rewrite <- Ez, <- E3 in B3. rewrite <- E2 in B2. rewrite <- E1 in B1. rewrite <- Ez in B4.
  destruct (rp_sound _ _ _ _ _ _ _ _ _ _ _ HNt G1 G2 He He' Hne A4 B4 A3 B3) as [S1 S2].
  refine (conj _ (conj S1 (conj S2 _))).
  - apply (dlog_eq_iff C) in A1, B1. apply (dlog_eq_iff C). autorewrite with dlog in *.
    rewrite !of_Z_sub.
    transitivity (of_Z q (pp_s1 p) * dlog (ps_G st) - of_Z q (pp_s1 p') * dlog (ps_G st))%Fq; [ring|].
    rewrite A1, B1. ring.
  - intros Gs.
    destruct (pl_sound (ps_N st) 1 (ps_c st) (pp_u2 p) e e' 0 0 (pp_s2 p) (pp_s2 p') (pp_s1 p) (pp_s1 p')
     HN (Z.gcd_1_l _) He He' Hne) as [sg [Sg1 Sg2]]; try assumption.
    + apply gcd_pow; assumption.
    + apply gcd_pow; assumption.
    + rewrite zpow_1 by assumption. rewrite Z.mul_1_l. assumption.
    + rewrite zpow_1 by assumption. rewrite Z.mul_1_l. assumption.
    + exists sg. split; [assumption|]. rewrite zpow_1 in Sg2 by assumption. rewrite Z.mul_1_l in Sg2. assumption.
Qed.

(** Forgery: with s2 = 0 the ciphertext is not tied to Q. *)
Definition pdls_forged H (x : F) (st : pdls_stmt C) (alpha : Z) : pdls_proof C :=
  let z := (ps_h1 st ^ to_Z x) mod ps_Nt st in
  let u1 := smul (of_Z q alpha) (ps_G st) in
  let u3 := (ps_h1 st ^ alpha) mod ps_Nt st in
  let e := H (pdls_query st z u1 0 u3) in
  {| pp_z := z; pp_u1 := u1; pp_u2 := 0; pp_u3 := u3; pp_s1 := e * to_Z x + alpha; pp_s2 := 0; pp_s3 := 0 |}.

Lemma pdls_forged_ok H (x : F) st alpha :
  good_pst st -> (forall l, 0 <= H l) -> 0 <= alpha ->
  Z.gcd (ps_c st) (ps_N st * ps_N st) = 1 -> ps_Q st = smul x (ps_G st) ->
  pdls_verify H (pdls_forged H x st alpha) st = Ok tt.
Proof.
  intros Hst HH Ha Gc EQ. pose proof Hst as [HN [HNt [G1 G2]]].
  assert (HNN : 1 < ps_N st * ps_N st) by (clear - HN; nia).
  assert (Hx : 0 <= to_Z x) by apply (to_Z_range (cq_prime C)).
  set (p := pdls_forged H x st alpha). set (e := pdls_chal H p st).
  assert (He : 0 <= e) by apply HH.
  apply pdls_verify_iff; [assumption|exact He| |].
  - right. split; [assumption|]. cbn [p pdls_forged pp_z]. rewrite gcd_mod_1 by (clear - HNt; lia). apply gcd_pow; assumption.
  - fold e. unfold pdls_eqs. change (pp_s1 p) with (e * to_Z x + alpha). cbn [p pdls_forged pp_u1 pp_u2 pp_s2 pp_u3 pp_z pp_s3].
    refine (conj _ (conj _ (conj _ (conj _ _)))).
    + rewrite EQ. apply (dlog_eq_iff C). autorewrite with dlog. rewrite of_Z_add, of_Z_mul, of_Z_to_Z. ring.
    + clear - HNN. lia.
    + rewrite Z.pow_0_l by (clear - HN; lia). unfold eqm; f_equal; ring.
    + apply Z.mod_pos_bound. clear - HNt. lia.
    + replace 0 with (e * 0 + 0) at 1 by ring. apply rp_honest; try assumption; try exact (Z.le_refl 0).
      * rewrite Z.pow_0_r, Z.mul_1_r. apply eqm_mod.
      * rewrite Z.pow_0_r, Z.mul_1_r. apply eqm_mod.
Qed.
End P.

(** C111: signing several messages with one completed offline stage. *)
From Coq Require Import ZArith Znumtheory Lia Bool List Field.
From Verif Require Import ZArithX Fq Curve Toy Outcome Sigma SigmaProofs Bytes Vss VssProofs Paillier PaillierProofs RangeProofs RangeProofsProofs Pdl
  Ecdsa EcdsaProofs Mp MpProofs Gg20Keygen Gg18Keygen KeygenRun KeygenRunProofs Gg20Sign SignRun SignRunProofs Gg18Sign Gg18RunProofs TwoParty TwoPartyProofs SignProofs
  PropKeygen PropRange PropSign PropSign18 PropTwoParty WCurve Secp256k1 Pocklington PropSecp Reuse.
Import ListNotations.
Local Open Scope Z_scope.

Section Alg.
Context (C : Curve).
Notation q := (cq C).
Notation F := (Fq q).
Add Field cfield : (C_field C).

Lemma reuse_v (m r x s : F) : s <> f0 -> (m * finv s + r * finv s * x <> f0)%Fq ->
  s = (finv (m * finv s + r * finv s * x) * (m + r * x))%Fq.
Proof.
  intros Hs Hv. assert (E : (m * finv s + r * finv s * x = (m + r * x) * finv s)%Fq) by (field; exact Hs).
  rewrite E in *. assert (Hm : (m + r * x <> f0)%Fq).
  { intros Z. apply Hv. rewrite Z. ring. }
  field. split; assumption.
Qed.
Lemma vpoint_dlog (x m r s : F) : dlog (vpoint (smul x gen) m r s) = (m * finv s + r * finv s * x)%Fq.
Proof. unfold vpoint. autorewrite with dlog. ring. Qed.
Lemma finv_opp (a : F) : a <> f0 -> finv (fopp a) = fopp (finv a).
Proof. intros H. field. split; [exact H|]. intros E. apply H. transitivity (fopp (fopp a)); [ring|rewrite E; ring]. Qed.
Lemma mul_cancel_l (k a b : F) : k <> f0 -> (k * a = k * b)%Fq -> a = b.
Proof. intros Hk E. transitivity (finv k * (k * a))%Fq; [field; exact Hk|]. rewrite E. field. exact Hk. Qed.
Lemma opp_mul (a b : F) : (fopp a * b = fopp (a * b))%Fq.
Proof. ring. Qed.
Lemma min_sign (s : F) : of_Z q (Z.min (to_Z s) (q - to_Z s)) = s \/ of_Z q (Z.min (to_Z s) (q - to_Z s)) = fopp s.
Proof.
  destruct (Z.min_spec (to_Z s) (q - to_Z s)) as [[_ ->]|[_ ->]]; [left; apply of_Z_to_Z|right].
  rewrite of_Z_sub, of_Z_q, of_Z_to_Z. ring.
Qed.
Lemma joint_form (k1 k2 x1 x2 : F) m x : joint_s C k1 k2 x1 x2 m x = (finv (k1 * k2) * (of_Z q m + of_Z q x * (x1 * x2)))%Fq.
Proof. unfold joint_s. ring. Qed.
Lemma inv_prod_nz (k1 k2 : F) : k1 <> f0 -> k2 <> f0 -> finv (k1 * k2)%Fq <> f0.
Proof.
  intros H1 H2 E. apply (f1_neq_f0 (cq_prime C)). transitivity ((k1 * k2) * finv (k1 * k2))%Fq; [field; auto|rewrite E; ring].
Qed.
Lemma partial_alg (m1 m2 k r sg : F) : m1 <> m2 -> r <> f0 ->
  ((m1 * k + r * sg - (m2 * k + r * sg)) * finv (m1 - m2) = k)%Fq /\
  ((m1 * k + r * sg - m1 * (((m1 * k + r * sg) - (m2 * k + r * sg)) * finv (m1 - m2))) * finv r = sg)%Fq.
Proof.
  intros Hm Hr. assert (D : (m1 - m2 <> f0)%Fq).
  { intros E. apply Hm. transitivity ((m1 - m2) + m2)%Fq; [ring|rewrite E; ring]. }
  assert (E : ((m1 * k + r * sg - (m2 * k + r * sg)) * finv (m1 - m2) = k)%Fq) by (field; exact D).
  rewrite E. split; [reflexivity|]. field. exact Hr.
Qed.
End Alg.

(** ** The documented use: every message gets a valid signature from one completed offline stage *)
Theorem C111_signs_every_message :
  forall (C : Curve) Hb (Hz : hashZ C) (Hf : hashF C) n (f : list (Fq (cq C))) Ns dls sl (lks : nat -> local_key C) (rs : nat -> sign_rand C),
  (forall l, 0 <= Hz l) -> signers_ok n f Ns dls sl lks -> sign_rand_ok Hz dls sl lks rs ->
  exists x cs, sg_run C Hb Hz Hf sl lks rs = Ok cs /\
  forall msg, (msg + x * to_Z (hd f0 f)) mod cq C <> 0 ->
  exists sig, sg_online C msg cs = Ok (repeat sig (length sl)) /\ to_Z (sg_r sig) = x mod cq C /\
    (x mod cq C <> 0 -> ecdsa_valid (smul (hd f0 f) gen) msg (to_Z (sg_r sig)) (to_Z (sg_s sig))).
Proof.
  intros C Hb Hz Hf n f Ns dls sl lks rs HH KO RO.
  destruct (C34_gg20_sign_correct C Hb Hz Hf n f Ns dls sl lks rs 0 HH KO RO) as (R & x & y & cs & HR & EC & E & _).
  exists x, cs. split; [exact E|]. intros msg Hm.
  destruct (C34_gg20_sign_correct C Hb Hz Hf n f Ns dls sl lks rs msg HH KO RO) as (R' & x' & y' & cs' & HR' & EC' & E' & V & _).
  assert (Ecs : cs' = cs) by congruence. subst cs'.
  assert (ER : R' = R).
  { apply (dlog_inj C). apply (f_equal dlog) in HR, HR'. rewrite dlog_smul in HR, HR'.
    assert (Hk : fsum (map (fun p => sr_k (rs p)) (seq 0 (length sl))) <> f0) by (exact (proj1 (proj2 RO))).
    rewrite <- HR' in HR. symmetry. apply (mul_cancel_l C _ _ _ Hk). exact HR. }
  subst R'. assert (x' = x) by congruence. subst x'.
  destruct V as (sig & S1 & S2 & _ & _ & S5).
  { intros Z. apply Hm. apply (f_equal to_Z) in Z. rewrite to_Z_0 in Z.
    rewrite <- (of_Z_to_Z (hd f0 f)) in Z. rewrite <- of_Z_mul, <- of_Z_add, to_Z_of_Z in Z. exact Z. }
  exists sig. auto.
Qed.
Print Assumptions C111_signs_every_message.

(** ** Two published signatures on different messages give the private key to everybody. *)
Theorem C111_two_signatures_reveal_key_refuted :
  forall (C : Curve) Hb (Hz : hashZ C) (Hf : hashF C) n (f : list (Fq (cq C))) Ns dls sl (lks : nat -> local_key C) (rs : nat -> sign_rand C) cs msg1 msg2 l1 l2 sig1 sig2,
  (forall l, 0 <= Hz l) -> signers_ok n f Ns dls sl lks -> sign_rand_ok Hz dls sl lks rs ->
  sg_run C Hb Hz Hf sl lks rs = Ok cs ->
  sg_online C msg1 cs = Ok l1 -> In sig1 l1 -> sg_online C msg2 cs = Ok l2 -> In sig2 l2 ->
  msg1 mod cq C <> msg2 mod cq C -> sg_r sig1 <> f0 ->
  sg_r sig2 = sg_r sig1 /\
  reuse_find (smul (hd f0 f) gen) (sg_r sig1) msg1 msg2 (sg_s sig1) (sg_s sig2) = Some (hd f0 f).
Proof.
  intros C Hb Hz Hf n f Ns dls sl lks rs cs msg1 msg2 l1 l2 sig1 sig2 HH KO RO E O1 I1 O2 I2 Hm Hr.
  assert (Hk : s_ksum C sl rs <> f0) by (exact (proj1 (proj2 RO))).
  assert (HRG : smul (s_ksum C sl rs) (s_R C sl rs) = gen).
  { unfold s_R. rewrite smul_smul, fmul_finv by exact Hk. apply smul_1. }
  destruct (Curve.coords_some C (s_R C sl rs) (SignProofs.smul_nz C _ _ HRG)) as (x & y & EC).
  rewrite (sg_run_honest C Hb Hz Hf n f Ns dls sl lks rs HH KO RO) in E. injection E as <-.
  assert (G : forall msg l sig, sg_online C msg (map (s_out C n f sl lks rs) (seq 0 (length sl))) = Ok l -> In sig l ->
    sg_r sig = of_Z (cq C) x /\
    (sg_s sig = fmul (s_ksum C sl rs) (fadd (of_Z (cq C) msg) (fmul (of_Z (cq C) x) (hd f0 f))) \/
     sg_s sig = fopp (fmul (s_ksum C sl rs) (fadd (of_Z (cq C) msg) (fmul (of_Z (cq C) x) (hd f0 f)))))).
  { intros msg l sig O I. destruct (Fq_eq_dec (fmul (s_ksum C sl rs) (fadd (of_Z (cq C) msg) (fmul (of_Z (cq C) x) (hd f0 f)))) f0) as [Z|NZ].
    - exfalso. destruct (C34_gg20_sign_correct C Hb Hz Hf n f Ns dls sl lks rs msg HH KO RO) as (R' & x' & y' & cs' & HR' & EC' & E' & _ & V).
      rewrite (sg_run_honest C Hb Hz Hf n f Ns dls sl lks rs HH KO RO) in E'. injection E' as <-.
      assert (ER : R' = s_R C sl rs).
      { apply (dlog_inj C). apply (f_equal dlog) in HR', HRG. rewrite dlog_smul in HR', HRG. rewrite <- HRG in HR'.
        apply (mul_cancel_l C _ _ _ Hk). exact HR'. }
      subst R'. assert (x' = x) by congruence. subst x'.
      assert (Z' : fadd (of_Z (cq C) msg) (fmul (of_Z (cq C) x) (hd f0 f)) = f0).
      { destruct (Fq_eq_dec (fadd (of_Z (cq C) msg) (fmul (of_Z (cq C) x) (hd f0 f))) f0) as [A|A]; [exact A|].
        exfalso. revert Z. apply fmul_nz; [apply cq_prime|exact Hk|exact A]. }
      specialize (V Z'). congruence.
    - pose proof (sg_online_honest C Hz n f Ns dls sl lks rs KO RO msg x y EC NZ) as EO. cbv zeta in EO.
      assert (El : l = map (fun _ => {| sg_r := of_Z (cq C) x; sg_s := fst (normalize (fmul (s_ksum C sl rs) (fadd (of_Z (cq C) msg) (fmul (of_Z (cq C) x) (hd f0 f)))) y);
        sg_recid := snd (normalize (fmul (s_ksum C sl rs) (fadd (of_Z (cq C) msg) (fmul (of_Z (cq C) x) (hd f0 f)))) y) |}) (seq 0 (length sl))) by congruence.
      rewrite El in I. apply in_map_iff in I. destruct I as (p & <- & _). cbn [sg_r sg_s].
      split; [reflexivity|apply normalize_sign]. }
  destruct (G _ _ _ O1 I1) as [R1 S1]. destruct (G _ _ _ O2 I2) as [R2 S2].
  split; [congruence|]. rewrite R1 in *.
  eapply (reuse_signs C _ (s_ksum C sl rs)); [exact Hr|exact Hk| |reflexivity|reflexivity|exact S1|exact S2].
  intros A. apply Hm. apply of_Z_eq_iff. exact A.
Qed.
Print Assumptions C111_two_signatures_reveal_key_refuted.

(** ** The broadcast partial signatures give every signer's nonce share and sigma share, whatever happened before. *)
Theorem C111_partials_reveal_shares_refuted : forall (C : Curve) (k sigma : Fq (cq C)) (R y : pt C) msg1 msg2 l1 l2,
  gg20_local_sig k msg1 R sigma y = Ok l1 -> gg20_local_sig k msg2 R sigma y = Ok l2 ->
  msg1 mod cq C <> msg2 mod cq C -> ls_r l1 <> f0 ->
  k = reuse_nonce msg1 msg2 (ls_s l1) (ls_s l2) /\
  sigma = fmul (fsub (ls_s l1) (fmul (of_Z (cq C) msg1) (reuse_nonce msg1 msg2 (ls_s l1) (ls_s l2)))) (finv (ls_r l1)).
Proof.
  intros C k sigma R y msg1 msg2 l1 l2 E1 E2 Hm Hr. unfold gg20_local_sig in E1, E2.
  destruct (x_coord R) as [x|]; [|discriminate]. cbn [unwrap obind] in E1, E2.
  injection E1 as <-. injection E2 as <-. cbn [ls_r ls_s] in *. unfold reuse_nonce.
  destruct (partial_alg C (of_Z (cq C) msg1) (of_Z (cq C) msg2) k (of_Z (cq C) (x mod cq C)) sigma) as [A B]; [|exact Hr|].
  - intros A. apply Hm. apply of_Z_eq_iff. exact A.
  - split; [symmetry; exact A|symmetry; exact B].
Qed.
Print Assumptions C111_partials_reveal_shares_refuted.

(** ** Any two valid signatures on different messages with the same r, wherever they come from, if r is the x coordinate
    of only one pair of points (for secp256k1: r >= p - n, all but one r in 2^127). *)
Theorem C111_same_r_reveals_key : forall (C : Curve) (x : Fq (cq C)) m1 m2 r s1 s2,
  ecdsa_valid (smul x gen) m1 r s1 -> ecdsa_valid (smul x gen) m2 r s2 ->
  m1 mod cq C <> m2 mod cq C -> cp C <= r + cq C ->
  reuse_find (smul x gen) (of_Z (cq C) r) m1 m2 (of_Z (cq C) s1) (of_Z (cq C) s2) = Some x.
Proof.
  intros C x m1 m2 r s1 s2 (Hr & Hs1 & V1) (_ & Hs2 & V2) Hm Hp.
  apply ecdsa_eqn_iff in V1, V2. destruct V1 as (N1 & x1 & X1 & M1). destruct V2 as (N2 & x2 & X2 & M2).
  set (P1 := vpoint (smul x gen) (of_Z (cq C) m1) (of_Z (cq C) r) (of_Z (cq C) s1)) in *.
  set (P2 := vpoint (smul x gen) (of_Z (cq C) m2) (of_Z (cq C) r) (of_Z (cq C) s2)) in *.
  unfold x_coord in X1, X2. destruct (coords P1) as [[a1 b1]|] eqn:C1; [|discriminate]. destruct (coords P2) as [[a2 b2]|] eqn:C2; [|discriminate].
  cbn in X1, X2. injection X1 as ->. injection X2 as ->.
  assert (Hx : forall a, 0 <= a < cp C -> a mod cq C = r mod cq C -> a = r).
  { intros a Ha E. rewrite (Z.mod_small r) in E by lia. pose proof (Z.div_mod a (cq C) ltac:(lia)) as D. rewrite E in D.
    assert (Hd : a / cq C < 1 \/ 1 <= a / cq C) by lia.
    assert (0 <= a / cq C) by (apply Z.div_pos; lia).
    destruct Hd as [Hd|Hd]; [replace (a / cq C) with 0 in D by lia; lia|].
    assert (cq C * 1 <= cq C * (a / cq C)) by (apply Z.mul_le_mono_nonneg_l; lia). lia. }
  destruct (coords_range C _ _ _ C1) as [R1 _]. destruct (coords_range C _ _ _ C2) as [R2 _].
  assert (x1 = r) by (apply Hx; assumption). assert (x2 = r) by (apply Hx; assumption). subst x1 x2.
  assert (NZ : P1 <> pzero) by (intros E; apply coords_zero in E; congruence).
  assert (D1 : dlog P1 <> f0) by (intros E; apply NZ, pzero_dlog; exact E).
  assert (NZ2 : P2 <> pzero) by (intros E; apply coords_zero in E; congruence).
  assert (D2 : dlog P2 <> f0) by (intros E; apply NZ2, pzero_dlog; exact E).
  assert (Hr0 : of_Z (cq C) r <> f0) by (apply of_Z_nz; lia).
  assert (Hi : finv (dlog P1) <> f0) by (apply finv_nz; [apply cq_prime|exact D1]).
  pose proof (vpoint_dlog C x (of_Z (cq C) m1) (of_Z (cq C) r) (of_Z (cq C) s1)) as L1. fold P1 in L1.
  pose proof (vpoint_dlog C x (of_Z (cq C) m2) (of_Z (cq C) r) (of_Z (cq C) s2)) as L2. fold P2 in L2.
  eapply (reuse_find_ok C _ (finv (dlog P1))); [exact Hr0|exact Hi| | | ].
  - intros A. apply Hm. apply of_Z_eq_iff. exact A.
  - rewrite L1. apply reuse_v; [exact N1|rewrite <- L1; exact D1].
  - pose proof (reuse_v C (of_Z (cq C) m2) (of_Z (cq C) r) x (of_Z (cq C) s2) N2) as S2. rewrite <- L2 in S2. specialize (S2 D2).
    destruct (coords_same_x C _ _ _ _ _ C1 C2) as [E|E]; rewrite E in S2.
    + left. exact S2.
    + right. rewrite S2, dlog_neg, finv_opp by exact D1. apply opp_mul.
Qed.
Print Assumptions C111_same_r_reveals_key.

(** ** GG18: signing again with the same values of the earlier phases *)
Theorem C111_gg18_reveals_key_refuted :
  forall (C : Curve) Hb (Hz : hashZ C) (Hf : hashF C) n (f : list (Fq (cq C))) Ns vsss sv (ks : nat -> party18 C) (rs : nat -> rand18 C) msg1 msg2 l1 l2 sig1 sig2,
  signers18_ok C n f Ns vsss sv ks -> rand18_ok C sv ks rs ->
  e18_run C Hb Hz Hf sv ks rs msg1 = Ok l1 -> In sig1 l1 -> e18_run C Hb Hz Hf sv ks rs msg2 = Ok l2 -> In sig2 l2 ->
  msg1 mod cq C <> msg2 mod cq C -> sg_r sig1 <> f0 ->
  sg_r sig2 = sg_r sig1 /\
  reuse_find (smul (hd f0 f) gen) (sg_r sig1) msg1 msg2 (sg_s sig1) (sg_s sig2) = Some (hd f0 f).
Proof.
  intros C Hb Hz Hf n f Ns vsss sv ks rs msg1 msg2 l1 l2 sig1 sig2 KO RO O1 I1 O2 I2 Hm Hr.
  assert (Hk : h_ksum C sv rs <> f0) by (exact (proj1 (proj2 RO))).
  assert (HRG : smul (h_ksum C sv rs) (h_R C sv rs) = gen).
  { unfold h_R. rewrite smul_smul, fmul_finv by exact Hk. apply smul_1. }
  destruct (Curve.coords_some C (h_R C sv rs) (SignProofs.smul_nz C _ _ HRG)) as (x & y & EC).
  assert (G : forall msg l sig, e18_run C Hb Hz Hf sv ks rs msg = Ok l -> In sig l ->
    sg_r sig = of_Z (cq C) x /\ (sg_s sig = h_total C f sv rs msg x \/ sg_s sig = fopp (h_total C f sv rs msg x))).
  { intros msg l sig O I. destruct (Fq_eq_dec (h_total C f sv rs msg x) f0) as [Z|NZ].
    - pose proof (e18_out_zero C Hb Hz Hf n f Ns vsss sv ks rs msg KO RO x y EC Z). congruence.
    - pose proof (e18_out_honest C Hb Hz Hf n f Ns vsss sv ks rs msg KO RO x y EC NZ) as EO.
      assert (El : l = map (fun _ => {| sg_r := of_Z (cq C) x; sg_s := fst (normalize (h_total C f sv rs msg x) y);
        sg_recid := snd (normalize (h_total C f sv rs msg x) y) |}) (seq 0 (length sv))) by congruence.
      rewrite El in I. apply in_map_iff in I. destruct I as (p & <- & _). cbn [sg_r sg_s]. split; [reflexivity|apply normalize_sign]. }
  destruct (G _ _ _ O1 I1) as [R1 S1]. destruct (G _ _ _ O2 I2) as [R2 S2].
  split; [congruence|]. rewrite R1 in *.
  eapply (reuse_signs C _ (h_ksum C sv rs)); [exact Hr|exact Hk| |reflexivity|reflexivity|exact S1|exact S2].
  intros A. apply Hm. apply of_Z_eq_iff. exact A.
Qed.
Print Assumptions C111_gg18_reveals_key_refuted.

(** ** Two-party protocols: the same ephemeral keys for two messages *)
Theorem C111_lindell_reveals_key_refuted : forall (C : Curve) p1 p2 (x1 x2 k1 k2 : Fq (cq C)) r m m' rho rho' renc renc' c3 c3' sr ss sr' ss',
  good_key p1 p2 -> Z.gcd r (p1 * p2) = 1 -> Z.gcd renc (p1 * p2) = 1 -> Z.gcd renc' (p1 * p2) = 1 ->
  0 <= rho < cq C ^ 2 -> 0 <= rho' < cq C ^ 2 -> cq C ^ 3 + cq C ^ 2 <= p1 * p2 -> k1 <> f0 -> k2 <> f0 ->
  let st := lindell_setup {| kp_pub := smul x1 gen; kp_sec := x1 |} p1 p2 r in
  let K1 := {| kp_pub := smul k1 gen; kp_sec := k1 |} in
  let K2 := {| kp_pub := smul k2 gen; kp_sec := k2 |} in
  lindell_partial (p1 * p2) (snd st) x2 K2 (kp_pub K1) m rho renc = Ok c3 -> lindell_compute (fst st) c3 K1 (kp_pub K2) = Ok (sr, ss) ->
  lindell_partial (p1 * p2) (snd st) x2 K2 (kp_pub K1) m' rho' renc' = Ok c3' -> lindell_compute (fst st) c3' K1 (kp_pub K2) = Ok (sr', ss') ->
  m mod cq C <> m' mod cq C -> sr <> 0 ->
  sr' = sr /\ reuse_find (smul (fmul x1 x2) gen) (of_Z (cq C) sr) m m' (of_Z (cq C) ss) (of_Z (cq C) ss') = Some (fmul x1 x2).
Proof.
  intros C p1 p2 x1 x2 k1 k2 r m m' rho rho' renc renc' c3 c3' sr ss sr' ss' GK Gr Ge Ge' Hrho Hrho' HN N1 N2 st K1 K2 P S P' S' Hm Hs.
  destruct (lindell_run C p1 p2 x1 x2 k1 k2 r m rho renc GK Gr Ge Hrho HN N1 N2) as [d [x [y [HR [Ep [Ec _]]]]]].
  destruct (lindell_run C p1 p2 x1 x2 k1 k2 r m' rho' renc' GK Gr Ge' Hrho' HN N1 N2) as [d' [x' [y' [HR' [Ep' [Ec' _]]]]]].
  fold st K1 K2 in Ep, Ec, Ep', Ec'. cbn [kp_pub K1 K2] in P, S, P', S'.
  assert (d = c3) by congruence. assert (d' = c3') by congruence. assert (x' = x) by congruence. subst d d' x'.
  assert (Esr : sr = x mod cq C /\ ss = Z.min (to_Z (joint_s C k1 k2 x1 x2 m x)) (cq C - to_Z (joint_s C k1 k2 x1 x2 m x))) by (split; congruence).
  assert (Esr' : sr' = x mod cq C /\ ss' = Z.min (to_Z (joint_s C k1 k2 x1 x2 m' x)) (cq C - to_Z (joint_s C k1 k2 x1 x2 m' x))) by (split; congruence).
  destruct Esr as [-> ->]. destruct Esr' as [-> ->]. split; [reflexivity|]. rewrite of_Z_mod.
  eapply (reuse_signs C _ (finv (fmul k1 k2))); [| | |apply joint_form|apply joint_form|apply min_sign|apply min_sign].
  - intros E. apply Hs. apply (f_equal to_Z) in E. rewrite to_Z_of_Z, to_Z_0 in E. exact E.
  - apply inv_prod_nz; assumption.
  - intros A. apply Hm. apply of_Z_eq_iff. exact A.
Qed.
Print Assumptions C111_lindell_reveals_key_refuted.

Theorem C111_cclst_reveals_key_refuted : forall (C : Curve) (E : CL C) (x1 x2 k1 k2 : Fq (cq C)) r m m' r1 r1' c3 c3' sr ss sr' ss',
  k1 <> f0 -> k2 <> f0 ->
  let K1 := {| kp_pub := smul k1 gen; kp_sec := k1 |} in
  let K2 := {| kp_pub := smul k2 gen; kp_sec := k2 |} in
  let c := cclst_encrypt_share (E := E) {| kp_pub := smul x1 gen; kp_sec := x1 |} r in
  cclst_partial c x2 K2 (kp_pub K1) m r1 = Ok c3 -> cclst_compute c3 K1 (kp_pub K2) = Ok (sr, ss) ->
  cclst_partial c x2 K2 (kp_pub K1) m' r1' = Ok c3' -> cclst_compute c3' K1 (kp_pub K2) = Ok (sr', ss') ->
  m mod cq C <> m' mod cq C -> sr <> 0 ->
  sr' = sr /\ reuse_find (smul (fmul x1 x2) gen) (of_Z (cq C) sr) m m' (of_Z (cq C) ss) (of_Z (cq C) ss') = Some (fmul x1 x2).
Proof.
  intros C E x1 x2 k1 k2 r m m' r1 r1' c3 c3' sr ss sr' ss' N1 N2 K1 K2 c P S P' S' Hm Hs.
  destruct (cclst_run C E x1 x2 k1 k2 r m r1 N1 N2) as [d [x [y [HR [Ep Ec]]]]].
  destruct (cclst_run C E x1 x2 k1 k2 r m' r1' N1 N2) as [d' [x' [y' [HR' [Ep' Ec']]]]].
  fold K1 K2 c in Ep, Ec, Ep', Ec'. cbn [kp_pub K1 K2] in P, S, P', S'.
  assert (d = c3) by congruence. assert (d' = c3') by congruence. assert (x' = x) by congruence. subst d d' x'.
  assert (Esr : sr = x mod cq C /\ ss = Z.min (to_Z (joint_s C k1 k2 x1 x2 m x)) (cq C - to_Z (joint_s C k1 k2 x1 x2 m x))) by (split; congruence).
  assert (Esr' : sr' = x mod cq C /\ ss' = Z.min (to_Z (joint_s C k1 k2 x1 x2 m' x)) (cq C - to_Z (joint_s C k1 k2 x1 x2 m' x))) by (split; congruence).
  destruct Esr as [-> ->]. destruct Esr' as [-> ->]. split; [reflexivity|]. rewrite of_Z_mod.
  eapply (reuse_signs C _ (finv (fmul k1 k2))); [| | |apply joint_form|apply joint_form|apply min_sign|apply min_sign].
  - intros A. apply Hs. apply (f_equal to_Z) in A. rewrite to_Z_of_Z, to_Z_0 in A. exact A.
  - apply inv_prod_nz; assumption.
  - intros A. apply Hm. apply of_Z_eq_iff. exact A.
Qed.
Print Assumptions C111_cclst_reveals_key_refuted.

(** ** Examples *)
(** Toy curve, key 5: the signers sign 9 and 11 with one completed stage; the key is read from the two signatures.
    GG18, Lindell (key 5 * 9 = 14) and CCLST likewise. *)
Definition pub (l : list (sig_recid toy)) : Fq (cq toy) * Fq (cq toy) := match l with s :: _ => (sg_r s, sg_s s) | [] => (f0, f0) end.
Definition found (key r m1 m2 s1 s2 : Z) : option Z := option_map to_Z (reuse_find (smul (tz key) gen : pt toy) (tz r) m1 m2 (tz s1) (tz s2)).
Example C111_example :
  match sg_run toy exHb2 exH exHf2 [3; 1]%nat exlks exsrs with
  | Ok cs => match sg_online toy 9 cs, sg_online toy 11 cs with
    | Ok l, Ok l' => fst (pub l) = fst (pub l') /\ option_map to_Z (reuse_find (smul (tz 5) gen : pt toy) (fst (pub l)) 9 11 (snd (pub l)) (snd (pub l'))) = Some 5
    | _, _ => False end
  | _ => False end /\
  match e18_run toy exHb2 exH exHf2 [2; 0]%nat exks18 exrs18' 9, e18_run toy exHb2 exH exHf2 [2; 0]%nat exks18 exrs18' 11 with
  | Ok l, Ok l' => option_map to_Z (reuse_find (smul (tz 5) gen : pt toy) (fst (pub l)) 9 11 (snd (pub l)) (snd (pub l'))) = Some 5
  | _, _ => False end /\
  match lindell_obs 5 9 2 13 22 960, lindell_obs 5 9 2 13 8 930, cclst_obs 5 9 2 13 22, cclst_obs 5 9 2 13 8 with
  | [r; s; _; _], [_; s'; _; _], [r2; s2; _], [_; s2'; _] => found 14 r 22 8 s s' = Some 14 /\ found 14 r2 22 8 s2 s2' = Some 14
  | _, _, _, _ => False end.
Proof. vm_compute. auto. Qed.

(** secp256k1: the published signature of C105 and a second one with its nonce meet the hypotheses of
    [C111_same_r_reveals_key]; the private key 1 comes out of the formula. *)
Definition vec2_e : Z := 12345.
Definition vec2_s : Z := 0xabf46cb60a024a612bcdaf0b638bf81701e96e2ad45d13f22ce1ea6a08458d16.
Definition vec2_w : Z := 0xa7c142b4baf08457910b8e076cb3d4dba75fb1e502d40091d220a190d7bd0ef5.
Lemma vec2_eqn : ecdsa_eqn (gen : pt secp256k1) vec2_e vec_r vec2_s.
Proof.
  exists vec2_w, vec_x. split; [vm_compute; reflexivity|]. split; [|vm_compute; reflexivity]. unfold x_coord.
  replace (padd (Ecdsa.zmul (vec2_e * vec2_w) gen) (Ecdsa.zmul (vec_r * vec2_w) (gen : pt secp256k1))) with (smul (of_Z secp_n vec_k : Fq (cq secp256k1)) (gen : pt secp256k1)); [rewrite vec_point; reflexivity|].
  apply dlog_inj. unfold Ecdsa.zmul. rewrite dlog_add, !dlog_smul, dlog_gen. change (cq secp256k1) with secp_n. unfold f1. rewrite <- !of_Z_mul, <- of_Z_add. apply of_Z_eq. vm_compute. reflexivity.
Qed.
Example C111_example_secp256k1 :
  ecdsa_valid (gen : pt secp256k1) vec_e vec_r vec_s /\ ecdsa_valid (gen : pt secp256k1) vec2_e vec_r vec2_s /\
  vec_e mod cq secp256k1 <> vec2_e mod cq secp256k1 /\ cp secp256k1 <= vec_r + cq secp256k1 /\
  to_Z (reuse_key (of_Z (cq secp256k1) vec_r) vec_e vec2_e (of_Z (cq secp256k1) vec_s) (of_Z (cq secp256k1) vec2_s)) = 1.
Proof.
  refine (conj _ (conj _ (conj _ (conj _ _)))).
  - exact (proj2 C105_published_signature).
  - split; [split; [discriminate|reflexivity]|]. split; [split; [discriminate|reflexivity]|]. exact vec2_eqn.
  - vm_compute. discriminate.
  - vm_compute. discriminate.
  - vm_compute. reflexivity.
Qed.

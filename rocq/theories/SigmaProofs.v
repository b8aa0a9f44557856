From Coq Require Import ZArith Lia Bool List Field.
From Verif Require Import ZArithX Fq Curve Outcome Sigma.
Import ListNotations.
Local Open Scope Z_scope.

Section Proofs.
Context (C : Curve).
Notation q := (cq C).
Notation F := (Fq q).
Add Field cfield : (C_field C).

Lemma fsub_nz (a b : F) : a <> b -> (a - b)%Fq <> f0.
Proof. intros H E. apply H. transitivity ((a - b) + b)%Fq; [ring|]. rewrite E. ring. Qed.
Lemma fsub_0 (a b : F) : (a - b)%Fq = f0 -> a = b.
Proof. intros E. transitivity ((a - b) + b)%Fq; [ring|]. rewrite E. ring. Qed.
(** Solve a linear equation [a * x = b]. *)
Lemma fsolve (a x b : F) : a <> f0 -> (a * x)%Fq = b -> x = (b * finv a)%Fq.
Proof. intros Ha <-. field. assumption. Qed.
Lemma smul_solve (a b : F) (P Q : pt C) : a <> f0 -> smul a P = smul b Q -> P = smul (b * finv a)%Fq Q.
Proof.
  intros Ha E. apply (f_equal dlog) in E. autorewrite with dlog in E. to_dlog.
  rewrite (fsolve a (dlog P) _ Ha E). ring.
Qed.

(** ** DLog *)
Lemma dlog_complete H sk t : dlog_verify (C := C) H (dlog_prove H sk t) = true.
Proof. unfold dlog_verify, dlog_prove. cbn. apply pt_eqb_eq. to_dlog. ring. Qed.

Lemma dlog_verify_iff H (p : dlog_proof C) :
  dlog_verify H p = true <->
  padd (smul (dp_z p) gen) (smul (H [HPt (dp_t p); HPt gen; HPt (dp_pk p)]) (dp_pk p)) = dp_t p.
Proof. unfold dlog_verify. apply pt_eqb_eq. Qed.

Lemma dlog_special_sound H H' (p p' : dlog_proof C) :
  dlog_verify H p = true -> dlog_verify H' p' = true ->
  dp_pk p = dp_pk p' -> dp_t p = dp_t p' ->
  let c := H [HPt (dp_t p); HPt gen; HPt (dp_pk p)] in
  let c' := H' [HPt (dp_t p'); HPt gen; HPt (dp_pk p')] in
  c <> c' ->
  dp_pk p = smul ((dp_z p' - dp_z p) * finv (c - c'))%Fq gen.
Proof.
  intros V V' Epk Et c c' Hc. apply dlog_verify_iff in V, V'. fold c in V. fold c' in V'.
  rewrite <- Epk in V'. rewrite <- Et in V'.
  apply (smul_solve (c - c')%Fq); [apply fsub_nz; assumption|].
  apply (f_equal dlog) in V, V'. autorewrite with dlog in V, V'. to_dlog.
  transitivity (((dp_z p * f1 + c * dlog (dp_pk p)) - (dp_z p' * f1 + c' * dlog (dp_pk p))) +
                (dp_z p' - dp_z p) * f1)%Fq; [ring|].
  rewrite V, V'. ring.
Qed.

(** ** ECDDH *)
Lemma ddh_complete H x s (d : ddh_stmt C) :
  dd_h1 d = smul x (dd_g1 d) -> dd_h2 d = smul x (dd_g2 d) -> ddh_verify H (ddh_prove H x s d) d = true.
Proof.
  intros E1 E2. unfold ddh_verify, ddh_prove. cbn. apply andb_true_iff.
  split; apply pt_eqb_eq; [rewrite E1|rewrite E2]; to_dlog; ring.
Qed.

Lemma ddh_verify_iff H (p : ddh_proof C) d : ddh_verify H p d = true <->
  let e := ddh_chal H d (dd_a1 p) (dd_a2 p) in
  smul (dd_z p) (dd_g1 d) = padd (dd_a1 p) (smul e (dd_h1 d)) /\
  smul (dd_z p) (dd_g2 d) = padd (dd_a2 p) (smul e (dd_h2 d)).
Proof. unfold ddh_verify. cbn zeta. rewrite andb_true_iff, !pt_eqb_eq. reflexivity. Qed.

Lemma ddh_special_sound H H' (p p' : ddh_proof C) (d : ddh_stmt C) :
  ddh_verify H p d = true -> ddh_verify H' p' d = true ->
  dd_a1 p = dd_a1 p' -> dd_a2 p = dd_a2 p' ->
  let e := ddh_chal H d (dd_a1 p) (dd_a2 p) in
  let e' := ddh_chal H' d (dd_a1 p') (dd_a2 p') in
  e <> e' ->
  let x := ((dd_z p - dd_z p') * finv (e - e'))%Fq in
  dd_h1 d = smul x (dd_g1 d) /\ dd_h2 d = smul x (dd_g2 d).
Proof.
  intros V V' E1 E2 e e' He x. apply ddh_verify_iff in V, V'. cbn zeta in V, V'.
  fold e in V. fold e' in V'. destruct V as [V1 V2], V' as [V1' V2'].
  rewrite <- E1 in V1'. rewrite <- E2 in V2'.
  split; (apply (smul_solve (e - e')%Fq); [apply fsub_nz; assumption|]).
  - apply (f_equal dlog) in V1, V1'. autorewrite with dlog in V1, V1'. to_dlog.
    transitivity (dd_z p * dlog (dd_g1 d) - dd_z p' * dlog (dd_g1 d))%Fq; [rewrite V1, V1'; ring|ring].
  - apply (f_equal dlog) in V2, V2'. autorewrite with dlog in V2, V2'. to_dlog.
    transitivity (dd_z p * dlog (dd_g2 d) - dd_z p' * dlog (dd_g2 d))%Fq; [rewrite V2, V2'; ring|ring].
Qed.

(** ** Homomorphic ElGamal *)
Lemma heg_complete H r x s1 s2 (d : heg_stmt C) :
  he_D d = padd (smul x (he_H d)) (smul r (he_Y d)) -> he_E d = smul r (he_G d) ->
  heg_verify H (heg_prove H r x s1 s2 d) d = true.
Proof.
  intros E1 E2. unfold heg_verify, heg_prove. cbn.
  set (e := heg_chal H d _ _).
  assert (Z1 : (if feqb x f0 then s1 else (s1 + x * e)%Fq) = (s1 + x * e)%Fq).
  { destruct (feqb_spec x f0) as [->|]; [ring|reflexivity]. }
  rewrite Z1. apply andb_true_iff.
  split; apply pt_eqb_eq; [rewrite E1|rewrite E2]; to_dlog; ring.
Qed.

Lemma heg_verify_iff H (p : heg_proof C) d : heg_verify H p d = true <->
  let e := heg_chal H d (he_T p) (he_A3 p) in
  padd (smul (he_z1 p) (he_H d)) (smul (he_z2 p) (he_Y d)) = padd (he_T p) (smul e (he_D d)) /\
  smul (he_z2 p) (he_G d) = padd (he_A3 p) (smul e (he_E d)).
Proof. unfold heg_verify. cbn zeta. rewrite andb_true_iff, !pt_eqb_eq. reflexivity. Qed.

Lemma heg_special_sound H H' (p p' : heg_proof C) (d : heg_stmt C) :
  heg_verify H p d = true -> heg_verify H' p' d = true ->
  he_T p = he_T p' -> he_A3 p = he_A3 p' ->
  let e := heg_chal H d (he_T p) (he_A3 p) in
  let e' := heg_chal H' d (he_T p') (he_A3 p') in
  e <> e' ->
  let x := ((he_z1 p - he_z1 p') * finv (e - e'))%Fq in
  let r := ((he_z2 p - he_z2 p') * finv (e - e'))%Fq in
  he_D d = padd (smul x (he_H d)) (smul r (he_Y d)) /\ he_E d = smul r (he_G d).
Proof.
  intros V V' E1 E2 e e' He x r. apply heg_verify_iff in V, V'. cbn zeta in V, V'.
  fold e in V. fold e' in V'. destruct V as [V1 V2], V' as [V1' V2'].
  rewrite <- E1 in V1'. rewrite <- E2 in V2'. pose proof (fsub_nz _ _ He) as Hnz.
  apply (f_equal dlog) in V1, V1', V2, V2'. autorewrite with dlog in V1, V1', V2, V2'.
  split; to_dlog; unfold x, r.
  - transitivity ((((he_z1 p * dlog (he_H d) + he_z2 p * dlog (he_Y d)) -
      (he_z1 p' * dlog (he_H d) + he_z2 p' * dlog (he_Y d))) * finv (e - e')))%Fq; [|field; assumption].
    rewrite V1, V1'. field; assumption.
  - transitivity (((he_z2 p * dlog (he_G d) - he_z2 p' * dlog (he_G d)) * finv (e - e')))%Fq; [|field; assumption].
    rewrite V2, V2'. field; assumption.
Qed.

(** ** Pedersen *)
Lemma ped_complete H m r s1 s2 : ped_verify (C := C) H (ped_prove H m r s1 s2) = true.
Proof. unfold ped_verify, ped_prove. cbn. apply pt_eqb_eq. to_dlog. ring. Qed.

Lemma ped_verify_iff H (p : ped_proof C) : ped_verify H p = true <->
  padd (smul (pe_z1 p) gen) (smul (pe_z2 p) gen2) =
  padd (padd (pe_a1 p) (pe_a2 p)) (smul (ped_chal H (pe_com p) (pe_a1 p) (pe_a2 p)) (pe_com p)).
Proof. unfold ped_verify. cbn zeta. apply pt_eqb_eq. Qed.

Lemma ped_special_sound H H' (p p' : ped_proof C) :
  ped_verify H p = true -> ped_verify H' p' = true ->
  pe_com p = pe_com p' -> pe_a1 p = pe_a1 p' -> pe_a2 p = pe_a2 p' ->
  let e := ped_chal H (pe_com p) (pe_a1 p) (pe_a2 p) in
  let e' := ped_chal H' (pe_com p') (pe_a1 p') (pe_a2 p') in
  e <> e' ->
  pe_com p = padd (smul ((pe_z1 p - pe_z1 p') * finv (e - e'))%Fq gen)
                  (smul ((pe_z2 p - pe_z2 p') * finv (e - e'))%Fq gen2).
Proof.
  intros V V' Ec E1 E2 e e' He. apply ped_verify_iff in V, V'. fold e in V. fold e' in V'.
  rewrite <- Ec, <- E1, <- E2 in V'. pose proof (fsub_nz _ _ He) as Hnz.
  apply (f_equal dlog) in V, V'. autorewrite with dlog in V, V'. to_dlog.
  transitivity ((((pe_z1 p * f1 + pe_z2 p * dlog gen2) - (pe_z1 p' * f1 + pe_z2 p' * dlog gen2)) * finv (e - e')))%Fq;
    [|field; assumption].
  rewrite V, V'. field; assumption.
Qed.

(** Zero knowledge of the response: for a fixed challenge every response value is
    produced by exactly one nonce, and the commitment is determined by response
    and public key. *)
Lemma dlog_hvzk (sk c z : F) :
  exists t, (t - c * sk)%Fq = z /\ smul t (gen : pt C) = padd (smul z gen) (smul c (smul sk gen)) /\
    forall t', (t' - c * sk)%Fq = z -> t' = t.
Proof.
  exists (z + c * sk)%Fq. split; [ring|]. split; [to_dlog; ring|].
  intros t' <-. ring.
Qed.
End Proofs.

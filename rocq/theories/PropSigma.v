(** Property C53: the sigma protocols used by the code.  [H] and [H'] are arbitrary
    hash functions; two different hash functions agreeing on everything but the
    challenge are the usual forking situation. *)
From Coq Require Import ZArith Lia Bool List.
From Verif Require Import ZArithX Fq Curve Outcome Sigma Toy SigmaProofs.
Import ListNotations.
Local Open Scope Z_scope.

Theorem C53_dlog_complete : forall (C : Curve) (H : hashF C) (sk t : Fq (cq C)),
  dlog_verify H (dlog_prove H sk t) = true /\ dp_pk (dlog_prove H sk t) = smul sk gen.
Proof. intros. split; [apply dlog_complete|reflexivity]. Qed.
Print Assumptions C53_dlog_complete.

Theorem C53_dlog_sound : forall (C : Curve) (H H' : hashF C) (p p' : dlog_proof C),
  dlog_verify H p = true -> dlog_verify H' p' = true ->
  dp_pk p = dp_pk p' -> dp_t p = dp_t p' ->
  let c := H [HPt (dp_t p); HPt gen; HPt (dp_pk p)] in
  let c' := H' [HPt (dp_t p'); HPt gen; HPt (dp_pk p')] in
  c <> c' ->
  dp_pk p = smul ((dp_z p' - dp_z p) * finv (c - c'))%Fq gen.
Proof. exact dlog_special_sound. Qed.
Print Assumptions C53_dlog_sound.

Theorem C53_dlog_hvzk : forall (C : Curve) (sk c z : Fq (cq C)),
  exists t, (t - c * sk)%Fq = z /\ smul t (gen : pt C) = padd (smul z gen) (smul c (smul sk gen)) /\
    forall t', (t' - c * sk)%Fq = z -> t' = t.
Proof. exact dlog_hvzk. Qed.
Print Assumptions C53_dlog_hvzk.

Theorem C53_ecddh_complete : forall (C : Curve) (H : hashF C) (x s : Fq (cq C)) (d : ddh_stmt C),
  dd_h1 d = smul x (dd_g1 d) -> dd_h2 d = smul x (dd_g2 d) ->
  ddh_verify H (ddh_prove H x s d) d = true.
Proof. exact ddh_complete. Qed.
Print Assumptions C53_ecddh_complete.

Theorem C53_ecddh_sound : forall (C : Curve) (H H' : hashF C) (p p' : ddh_proof C) (d : ddh_stmt C),
  ddh_verify H p d = true -> ddh_verify H' p' d = true ->
  dd_a1 p = dd_a1 p' -> dd_a2 p = dd_a2 p' ->
  let e := H [HPt (dd_g1 d); HPt (dd_h1 d); HPt (dd_g2 d); HPt (dd_h2 d); HPt (dd_a1 p); HPt (dd_a2 p)] in
  let e' := H' [HPt (dd_g1 d); HPt (dd_h1 d); HPt (dd_g2 d); HPt (dd_h2 d); HPt (dd_a1 p'); HPt (dd_a2 p')] in
  e <> e' ->
  let x := ((dd_z p - dd_z p') * finv (e - e'))%Fq in
  dd_h1 d = smul x (dd_g1 d) /\ dd_h2 d = smul x (dd_g2 d).
Proof. exact ddh_special_sound. Qed.
Print Assumptions C53_ecddh_sound.

Theorem C53_homo_elgamal_complete : forall (C : Curve) (H : hashF C) (r x s1 s2 : Fq (cq C)) (d : heg_stmt C),
  he_D d = padd (smul x (he_H d)) (smul r (he_Y d)) -> he_E d = smul r (he_G d) ->
  heg_verify H (heg_prove H r x s1 s2 d) d = true.
Proof. exact heg_complete. Qed.
Print Assumptions C53_homo_elgamal_complete.

Theorem C53_homo_elgamal_sound : forall (C : Curve) (H H' : hashF C) (p p' : heg_proof C) (d : heg_stmt C),
  heg_verify H p d = true -> heg_verify H' p' d = true ->
  he_T p = he_T p' -> he_A3 p = he_A3 p' ->
  let st := [HPt (he_G d); HPt (he_H d); HPt (he_Y d); HPt (he_D d); HPt (he_E d)] in
  let e := H (HPt (he_T p) :: HPt (he_A3 p) :: st) in
  let e' := H' (HPt (he_T p') :: HPt (he_A3 p') :: st) in
  e <> e' ->
  let x := ((he_z1 p - he_z1 p') * finv (e - e'))%Fq in
  let r := ((he_z2 p - he_z2 p') * finv (e - e'))%Fq in
  he_D d = padd (smul x (he_H d)) (smul r (he_Y d)) /\ he_E d = smul r (he_G d).
Proof. exact heg_special_sound. Qed.
Print Assumptions C53_homo_elgamal_sound.

Theorem C53_pedersen_complete : forall (C : Curve) (H : hashF C) (m r s1 s2 : Fq (cq C)),
  ped_verify H (ped_prove H m r s1 s2) = true /\
  pe_com (ped_prove H m r s1 s2) = padd (smul m gen) (smul r gen2).
Proof. intros. split; [apply ped_complete|reflexivity]. Qed.
Print Assumptions C53_pedersen_complete.

Theorem C53_pedersen_sound : forall (C : Curve) (H H' : hashF C) (p p' : ped_proof C),
  ped_verify H p = true -> ped_verify H' p' = true ->
  pe_com p = pe_com p' -> pe_a1 p = pe_a1 p' -> pe_a2 p = pe_a2 p' ->
  let e := H [HPt gen; HPt gen2; HPt (pe_com p); HPt (pe_a1 p); HPt (pe_a2 p)] in
  let e' := H' [HPt gen; HPt gen2; HPt (pe_com p'); HPt (pe_a1 p'); HPt (pe_a2 p')] in
  e <> e' ->
  pe_com p = padd (smul ((pe_z1 p - pe_z1 p') * finv (e - e'))%Fq gen)
                  (smul ((pe_z2 p - pe_z2 p') * finv (e - e'))%Fq gen2).
Proof. exact ped_special_sound. Qed.
Print Assumptions C53_pedersen_sound.

(** Forked transcripts with different challenges exist, and a proof for a wrong
    statement is refused. *)
Definition hc (z : Z) : hashF toy := fun _ => tz z.
Example C53_example_dlog :
  let p := dlog_prove (hc 3) (tz 5) (tz 11) in let p' := dlog_prove (hc 4) (tz 5) (tz 11) in
  dlog_verify (hc 3) p = true /\ dlog_verify (hc 4) p' = true /\ dp_pk p = dp_pk p' /\ dp_t p = dp_t p' /\
  to_Z ((dp_z p' - dp_z p) * finv (tz 3 - tz 4))%Fq = 5 /\
  dlog_verify (hc 4) p = false.
Proof. cbn zeta. repeat apply conj; try toy_eq; vm_compute; reflexivity. Qed.
Definition ex_ddh (b : Z) : ddh_stmt toy :=
  {| dd_g1 := (tz 1 : pt toy); dd_h1 := (tz 6 : pt toy); dd_g2 := (tz 7 : pt toy); dd_h2 := (tz b : pt toy) |}.
Example C53_example_ddh :
  ddh_verify (hc 3) (ddh_prove (hc 3) (tz 6) (tz 9) (ex_ddh 42)) (ex_ddh 42) = true /\
  ddh_verify (hc 4) (ddh_prove (hc 4) (tz 6) (tz 9) (ex_ddh 42)) (ex_ddh 42) = true /\
  ddh_verify (hc 3) (ddh_prove (hc 3) (tz 6) (tz 9) (ex_ddh 41)) (ex_ddh 41) = false.
Proof. repeat apply conj; vm_compute; reflexivity. Qed.
Definition ex_heg (d : Z) : heg_stmt toy :=
  {| he_G := (tz 2 : pt toy); he_H := (tz 3 : pt toy); he_Y := (tz 1 : pt toy);
     he_D := (tz d : pt toy); he_E := (tz 10 : pt toy) |}.
Example C53_example_heg :
  heg_verify (hc 3) (heg_prove (hc 3) (tz 5) (tz 4) (tz 8) (tz 9) (ex_heg 17)) (ex_heg 17) = true /\
  heg_verify (hc 4) (heg_prove (hc 4) (tz 5) (tz 4) (tz 8) (tz 9) (ex_heg 17)) (ex_heg 17) = true /\
  heg_verify (hc 3) (heg_prove (hc 3) (tz 5) (tz 4) (tz 8) (tz 9) (ex_heg 18)) (ex_heg 18) = false.
Proof. repeat apply conj; vm_compute; reflexivity. Qed.
Example C53_example_ped :
  ped_verify (hc 3) (ped_prove (hc 3) (tz 5) (tz 4) (tz 8) (tz 9)) = true /\
  ped_verify (hc 4) (ped_prove (hc 4) (tz 5) (tz 4) (tz 8) (tz 9)) = true /\
  ped_verify (hc 4) (ped_prove (hc 3) (tz 5) (tz 4) (tz 8) (tz 9)) = false.
Proof. repeat apply conj; vm_compute; reflexivity. Qed.

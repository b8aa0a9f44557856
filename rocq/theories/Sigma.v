(** Sigma protocols of the curv crate used throughout the code: DLogProof,
    ECDDHProof, HomoELGamalProof, PedersenProof.  They are not in /repo (trusted
    reading of curv 0.9); the calls modelled are cited at each use. *)
From Coq Require Import ZArith Lia Bool List.
From Verif Require Import ZArithX Fq Curve Outcome.
Import ListNotations.
Local Open Scope Z_scope.

Section Sigma.
Context (C : Curve).
Notation q := (cq C).
Notation F := (Fq q).

(** Elements fed to the Fiat-Shamir hash: [chain_point] and [chain_bigint].  A hash
    is an arbitrary function of the sequence of elements, which covers every
    byte-level hash of their encodings. *)
Inductive hitem := HPt (P : pt C) | HInt (z : Z).
(** [result_scalar] *)
Definition hashF := list hitem -> F.
(** [result_bigint]: never negative. *)
Definition hashZ := list hitem -> Z.

(** ** Schnorr proof of knowledge of a discrete logarithm *)
Record dlog_proof := { dp_pk : pt C; dp_t : pt C; dp_z : F }.

Definition dlog_prove (H : hashF) (sk t : F) : dlog_proof :=
  let pk_t := smul t gen in
  let pk := smul sk gen in
  let c := H [HPt pk_t; HPt gen; HPt pk] in
  {| dp_pk := pk; dp_t := pk_t; dp_z := (t - c * sk)%Fq |}.

Definition dlog_verify (H : hashF) (p : dlog_proof) : bool :=
  let c := H [HPt (dp_t p); HPt gen; HPt (dp_pk p)] in
  pt_eqb (padd (smul (dp_z p) gen) (smul c (dp_pk p))) (dp_t p).

(** ** Chaum-Pedersen (ECDDH) *)
Record ddh_stmt := { dd_g1 : pt C; dd_h1 : pt C; dd_g2 : pt C; dd_h2 : pt C }.
Record ddh_proof := { dd_a1 : pt C; dd_a2 : pt C; dd_z : F }.

Definition ddh_chal (H : hashF) (d : ddh_stmt) (a1 a2 : pt C) : F :=
  H [HPt (dd_g1 d); HPt (dd_h1 d); HPt (dd_g2 d); HPt (dd_h2 d); HPt a1; HPt a2].

Definition ddh_prove (H : hashF) (x s : F) (d : ddh_stmt) : ddh_proof :=
  let a1 := smul s (dd_g1 d) in
  let a2 := smul s (dd_g2 d) in
  let e := ddh_chal H d a1 a2 in
  {| dd_a1 := a1; dd_a2 := a2; dd_z := (s + e * x)%Fq |}.

Definition ddh_verify (H : hashF) (p : ddh_proof) (d : ddh_stmt) : bool :=
  let e := ddh_chal H d (dd_a1 p) (dd_a2 p) in
  pt_eqb (smul (dd_z p) (dd_g1 d)) (padd (dd_a1 p) (smul e (dd_h1 d))) &&
  pt_eqb (smul (dd_z p) (dd_g2 d)) (padd (dd_a2 p) (smul e (dd_h2 d))).

(** ** Homomorphic ElGamal: knowledge of [x], [r] with D = x H + r Y, E = r G *)
Record heg_stmt := { he_G : pt C; he_H : pt C; he_Y : pt C; he_D : pt C; he_E : pt C }.
Record heg_proof := { he_T : pt C; he_A3 : pt C; he_z1 : F; he_z2 : F }.

Definition heg_chal (H : hashF) (d : heg_stmt) (T A3 : pt C) : F :=
  H [HPt T; HPt A3; HPt (he_G d); HPt (he_H d); HPt (he_Y d); HPt (he_D d); HPt (he_E d)].

(** The zero-witness special case is in the crate; it agrees with the general formula. *)
Definition heg_prove (H : hashF) (r x s1 s2 : F) (d : heg_stmt) : heg_proof :=
  let T := padd (smul s1 (he_H d)) (smul s2 (he_Y d)) in
  let A3 := smul s2 (he_G d) in
  let e := heg_chal H d T A3 in
  let z1 := if feqb x f0 then s1 else (s1 + x * e)%Fq in
  {| he_T := T; he_A3 := A3; he_z1 := z1; he_z2 := (s2 + r * e)%Fq |}.

Definition heg_verify (H : hashF) (p : heg_proof) (d : heg_stmt) : bool :=
  let e := heg_chal H d (he_T p) (he_A3 p) in
  pt_eqb (padd (smul (he_z1 p) (he_H d)) (smul (he_z2 p) (he_Y d))) (padd (he_T p) (smul e (he_D d))) &&
  pt_eqb (smul (he_z2 p) (he_G d)) (padd (he_A3 p) (smul e (he_E d))).

(** ** Pedersen: knowledge of an opening of com = m G + r G2 *)
Record ped_proof := { pe_a1 : pt C; pe_a2 : pt C; pe_com : pt C; pe_z1 : F; pe_z2 : F }.

Definition ped_chal (H : hashF) (com a1 a2 : pt C) : F :=
  H [HPt gen; HPt gen2; HPt com; HPt a1; HPt a2].

Definition ped_prove (H : hashF) (m r s1 s2 : F) : ped_proof :=
  let a1 := smul s1 gen in
  let a2 := smul s2 gen2 in
  let com := padd (smul m gen) (smul r gen2) in
  let e := ped_chal H com a1 a2 in
  {| pe_a1 := a1; pe_a2 := a2; pe_com := com;
     pe_z1 := (s1 + e * m)%Fq; pe_z2 := (s2 + e * r)%Fq |}.

Definition ped_verify (H : hashF) (p : ped_proof) : bool :=
  let e := ped_chal H (pe_com p) (pe_a1 p) (pe_a2 p) in
  pt_eqb (padd (smul (pe_z1 p) gen) (smul (pe_z2 p) gen2))
         (padd (padd (pe_a1 p) (pe_a2 p)) (smul e (pe_com p))).
End Sigma.

Arguments HPt {_} _.
Arguments HInt {_} _.
Arguments dp_pk {_}. Arguments dp_t {_}. Arguments dp_z {_}.
Arguments dd_g1 {_}. Arguments dd_h1 {_}. Arguments dd_g2 {_}. Arguments dd_h2 {_}.
Arguments dd_a1 {_}. Arguments dd_a2 {_}. Arguments dd_z {_}.
Arguments he_G {_}. Arguments he_H {_}. Arguments he_Y {_}. Arguments he_D {_}. Arguments he_E {_}.
Arguments he_T {_}. Arguments he_A3 {_}. Arguments he_z1 {_}. Arguments he_z2 {_}.
Arguments pe_a1 {_}. Arguments pe_a2 {_}. Arguments pe_com {_}. Arguments pe_z1 {_}. Arguments pe_z2 {_}.
Arguments dlog_prove {_}. Arguments dlog_verify {_}.
Arguments ddh_prove {_}. Arguments ddh_verify {_}. Arguments ddh_chal {_}.
Arguments heg_prove {_}. Arguments heg_verify {_}. Arguments heg_chal {_}.
Arguments ped_prove {_}. Arguments ped_verify {_}. Arguments ped_chal {_}.

(** Serialisations as in Codec.v, for any curve: used to show that theorems about every serialisation with a left inverse are not
    empty on secp256k1.  A point is written as its multiple of the generator, which the model can compute with and the code cannot. *)
From Coq Require Import String ZArith Bool Lia List.
From Verif Require Import ZArithX Fq Curve Outcome Sigma Bytes Vss Paillier RangeProofs Pdl PdlSlack Mta Ecdsa Mp Gg20Keygen Gg20Sign Stores RoundSM KeygenSM SignSM Codec.
Import ListNotations.
Local Open Scope nat_scope.

Section Any.
Context (C : Curve).
Definition aF : codec (Fq (cq C)) := cmap cZ to_Z (of_Z (cq C)) (fun a => of_Z_to_Z a).
Definition aP : codec (pt C) := cmap aF dlog (fun a => smul a gen) (fun P => eq_sym (pt_is_mul C P)).
Definition adec1 : codec (kg_dec1 C).
Proof. refine (cmap (cpair cZ aP) (fun d => (kd_blind d, kd_y d)) (fun '(a, b) => {| kd_blind := a; kd_y := b |}) _). intros []; reflexivity. Defined.
Definition avss : codec (vss C).
Proof. refine (cmap (cpair cnat (cpair cnat (clist aP))) (fun v => (vs_t v, (vs_n v, vs_com v))) (fun '(a, (b, c)) => {| vs_t := a; vs_n := b; vs_com := c |}) _). intros []; reflexivity. Defined.
Definition adlog : codec (dlog_proof C).
Proof. refine (cmap (cpair aP (cpair aP aF)) (fun p => (dp_pk p, (dp_t p, dp_z p))) (fun '(a, (b, c)) => {| dp_pk := a; dp_t := b; dp_z := c |}) _). intros []; reflexivity. Defined.
Definition akg : codec (kg_msg C).
Proof.
  refine (cmap (csum cbc1 (csum adec1 (csum (cpair avss aF) adlog)))
    (fun m => match m with KM1 b => inl b | KM2 d => inr (inl d) | KM3 x => inr (inr (inl x)) | KM4 p => inr (inr (inr p)) end)
    (fun x => match x with inl b => KM1 b | inr (inl d) => KM2 d | inr (inr (inl x)) => KM3 x | inr (inr (inr p)) => KM4 p end) _). intros []; reflexivity.
Defined.
Definition amb : codec (msg_b C).
Proof. refine (cmap (cpair cZ (cpair adlog adlog)) (fun m => (mb_c m, (mb_b m, mb_bt m))) (fun '(a, (b, c)) => {| mb_c := a; mb_b := b; mb_bt := c |}) _). intros []; reflexivity. Defined.
Definition aped : codec (ped_proof C).
Proof.
  refine (cmap (cpair aP (cpair aP (cpair aP (cpair aF aF)))) (fun p => (pe_a1 p, (pe_a2 p, (pe_com p, (pe_z1 p, pe_z2 p)))))
    (fun '(a, (b, (c, (d, e)))) => {| pe_a1 := a; pe_a2 := b; pe_com := c; pe_z1 := d; pe_z2 := e |}) _). intros []; reflexivity.
Defined.
Definition asd : codec (sign_dec C).
Proof. refine (cmap (cpair cZ aP) (fun d => (sd_blind d, sd_g d)) (fun '(a, b) => {| sd_blind := a; sd_g := b |}) _). intros []; reflexivity. Defined.
Definition apdl : codec (pdls_proof C).
Proof.
  refine (cmap (cpair cZ (cpair aP (cpair cZ (cpair cZ (cpair cZ (cpair cZ cZ)))))) (fun p => (pp_z p, (pp_u1 p, (pp_u2 p, (pp_u3 p, (pp_s1 p, (pp_s2 p, pp_s3 p)))))))
    (fun '(a, (b, (c, (d, (e, (f, g)))))) => {| pp_z := a; pp_u1 := b; pp_u2 := c; pp_u3 := d; pp_s1 := e; pp_s2 := f; pp_s3 := g |}) _). intros []; reflexivity.
Defined.
Definition aheg : codec (heg_proof C).
Proof.
  refine (cmap (cpair aP (cpair aP (cpair aF aF))) (fun p => (he_T p, (he_A3 p, (he_z1 p, he_z2 p)))) (fun '(a, (b, (c, d))) => {| he_T := a; he_A3 := b; he_z1 := c; he_z2 := d |}) _). intros []; reflexivity.
Defined.
Definition asg : codec (sg_msg C).
Proof.
  refine (cmap (csum (cpair cma cZ) (csum (cpair amb amb) (csum (cpair (cpair aF aP) aped) (csum asd (csum (cpair aP (clist apdl)) (cpair aP aheg))))))
    (fun m => match m with SM1 b => inl b | SM2 d => inr (inl d) | SM3 x => inr (inr (inl x)) | SM4 p => inr (inr (inr (inl p))) | SM5 p => inr (inr (inr (inr (inl p)))) | SM6 p => inr (inr (inr (inr (inr p)))) end)
    (fun x => match x with inl b => @SM1 C b | inr (inl d) => @SM2 C d | inr (inr (inl x)) => @SM3 C x | inr (inr (inr (inl p))) => @SM4 C p | inr (inr (inr (inr (inl p)))) => @SM5 C p | inr (inr (inr (inr (inr p)))) => @SM6 C p end) _).
  intros []; reflexivity.
Defined.
End Any.

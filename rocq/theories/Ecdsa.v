(** Signature verification and signature post-processing of the four protocol
    families, and an independent textbook ECDSA specification. *)
From Coq Require Import ZArith Lia Bool List.
From Verif Require Import ZArithX Fq Curve Outcome Bytes.
Import ListNotations.
Local Open Scope Z_scope.

(** ** Specification: SEC1 / FIPS 186 ECDSA, over integers *)
Section Spec.
Context (C : Curve).
Notation q := (cq C).

(** Multiplication of a point by an integer. *)
Definition zmul (k : Z) (P : pt C) : pt C := smul (of_Z q k) P.

(** Verification equation: with [w] the inverse of [s] modulo the order, the
    point [(e w) G + (r w) Q] has an x-coordinate congruent to [r]. *)
Definition ecdsa_eqn (Q : pt C) (e r s : Z) : Prop :=
  exists w x, (s * w) mod q = 1 /\
    x_coord (padd (zmul (e * w) gen) (zmul (r * w) Q)) = Some x /\
    x mod q = r mod q.

(** A valid signature. *)
Definition ecdsa_valid (Q : pt C) (e r s : Z) : Prop :=
  1 <= r < q /\ 1 <= s < q /\ ecdsa_eqn Q e r s.

(** Public key recovery (SEC1 4.1.6): [recid] bit 0 is the parity of the nonce
    point's y, bit 1 says that its x exceeds the order. *)
Definition recovers (Q : pt C) (e r s recid : Z) : Prop :=
  exists R x y, coords R = Some (x, y) /\ x = r + (recid / 2) * q /\ y mod 2 = recid mod 2 /\
    zmul r Q = psub (zmul s R) (zmul e gen).
End Spec.
Arguments zmul {_} _ _.

Section Model.
Context (C : Curve).
Notation q := (cq C).
Notation F := (Fq q).

(** src/protocols/multi_party_ecdsa/gg_2020/party_i.rs:913-936, [verify]. *)
Definition gg20_verify (r s : F) (y : pt C) (m : Z) : outcome error unit :=
  let* b := unwrap (finvert s) in
  let a := of_Z q m in
  let u1 := (a * b)%Fq in
  let u2 := (r * b)%Fq in
  let* x := unwrap (x_coord (padd (smul u1 gen) (smul u2 y))) in
  if feqb r (of_Z q (x mod q)) then Ok tt else Err InvalidSig.

(** src/protocols/multi_party_ecdsa/gg_2018/party_i.rs:714-737, [verify]. *)
Definition gg18_verify (r s : F) (y : pt C) (m : Z) : outcome error unit :=
  let* b := ok_or InvalidSig (finvert s) in
  let a := of_Z q m in
  let u1 := (a * b)%Fq in
  let u2 := (r * b)%Fq in
  let* x := ok_or InvalidSig (x_coord (padd (smul u1 gen) (smul u2 y))) in
  if feqb r (of_Z q (x mod q)) then Ok tt else Err InvalidSig.

(** [LocalSignature] of gg_2020/party_i.rs (fields used later). *)
Record local_sig := { ls_r : F; ls_R : pt C; ls_s : F; ls_m : Z; ls_y : pt C }.
(** [SignatureRecid] *)
Record sig_recid := { sg_r : F; sg_s : F; sg_recid : Z }.

(** gg_2020/party_i.rs:850-871, [phase7_local_sig]. *)
Definition gg20_local_sig (k_i : F) (m : Z) (R : pt C) (sigma_i : F) (y : pt C)
  : outcome error local_sig :=
  let m_fe := of_Z q m in
  let* x := unwrap (x_coord R) in
  let r := of_Z q (x mod q) in
  Ok {| ls_r := r; ls_R := R; ls_s := (m_fe * k_i + r * sigma_i)%Fq; ls_m := m; ls_y := y |}.

(** [bool as recid]; gg_2020/party_i.rs:896-897. *)
Definition b2z (b : bool) : Z := if b then 1 else 0.

(** Recovery id and low-s normalisation, gg_2020/party_i.rs:884-903 and
    gg_2018/party_i.rs:685-704. *)
Definition normalize (s : F) (yc : Z) : F * Z :=
  let ry := yc mod q in
  let recid := b2z (Z.odd ry) in
  let s_bn := to_Z s in
  let s_tag := q - s_bn in
  if s_tag <? s_bn then (of_Z q s_tag, 1 - recid) else (s, recid).

(** gg_2020/party_i.rs:873-910, [output_signature]. *)
Definition gg20_output (l : local_sig) (s_vec : list F) : outcome error sig_recid :=
  let s := fold_left fadd s_vec (ls_s l) in
  let* xc := unwrap (x_coord (ls_R l)) in
  let r := of_Z q (xc mod q) in
  let* yc := unwrap (y_coord (ls_R l)) in
  let '(s', recid) := normalize s yc in
  match gg20_verify r s' (ls_y l) (ls_m l) with
  | Ok _ => Ok {| sg_r := r; sg_s := s'; sg_recid := recid |}
  | Err _ => Err InvalidSig
  | Panic => Panic
  end.

(** gg_2018/party_i.rs:674-711, [output_signature]. *)
Definition gg18_output (l : local_sig) (s_vec : list F) : outcome error sig_recid :=
  let s := (ls_s l + fold_left fadd s_vec f0)%Fq in
  let* xc := ok_or InvalidSig (x_coord (ls_R l)) in
  let r := of_Z q (xc mod q) in
  let* yc := ok_or InvalidSig (y_coord (ls_R l)) in
  let '(s', recid) := normalize s yc in
  match gg18_verify r s' (ls_y l) (ls_m l) with
  | Ok _ => Ok {| sg_r := r; sg_s := s'; sg_recid := recid |}
  | Err _ => Err InvalidSig
  | Panic => Panic
  end.

(** gg_2020/state_machine/sign.rs:630-645 and sign/rounds.rs:671-693:
    [SignManual::new] then [SignManual::complete]. *)
Definition sign_manual_new := gg20_local_sig.
Definition sign_manual_complete := gg20_output.

(** src/protocols/two_party_ecdsa/lindell_2017/party_one.rs:567-592, [verify]. *)
Definition lindell_verify (r s : Z) (pk : pt C) (m : Z) : outcome error unit :=
  let s_fe := of_Z q s in
  let rx_fe := of_Z q r in
  let* s_inv := unwrap (finvert s_fe) in
  let e_fe := of_Z q (m mod q) in
  let u1 := smul s_inv (smul e_fe gen) in
  let u2 := smul s_inv (smul rx_fe pk) in
  let* x := unwrap (x_coord (padd u1 u2)) in
  if bytes_eqb (to_bytes r) (to_bytes x) && (s <? q - s) then Ok tt else Err InvalidSig.

(** src/protocols/two_party_ecdsa/cclst_2019/party_one.rs:394-419, [verify]. *)
Definition cclst_verify (r s : Z) (pk : pt C) (m : Z) : outcome error unit :=
  let s_fe := of_Z q s in
  let rx_fe := of_Z q r in
  let* s_inv := ok_or InvalidSig (finvert s_fe) in
  let e_fe := of_Z q (m mod q) in
  let u1 := smul s_inv (smul e_fe gen) in
  let u2 := smul s_inv (smul rx_fe pk) in
  let* x := unwrap (x_coord (padd u1 u2)) in
  if bytes_eqb (to_bytes r) (to_bytes x) && (s <? q - s) then Ok tt else Err InvalidSig.
End Model.

Arguments gg20_verify {_} _ _ _ _.
Arguments gg18_verify {_} _ _ _ _.
Arguments gg20_local_sig {_} _ _ _ _ _.
Arguments gg20_output {_} _ _.
Arguments gg18_output {_} _ _.
Arguments normalize {_} _ _.
Arguments lindell_verify {_} _ _ _ _.
Arguments cclst_verify {_} _ _ _ _.
Arguments ls_r {_}. Arguments ls_R {_}. Arguments ls_s {_}. Arguments ls_m {_}. Arguments ls_y {_}.
Arguments sg_r {_}. Arguments sg_s {_}. Arguments sg_recid {_}.
Arguments ecdsa_eqn {_} _ _ _ _.
Arguments ecdsa_valid {_} _ _ _ _.
Arguments recovers {_} _ _ _ _ _.

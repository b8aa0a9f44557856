(** Multiplicative-to-additive share conversion, src/utilities/mta/mod.rs. *)
From Coq Require Import ZArith Lia Bool List.
From Verif Require Import ZArithX Fq Curve Outcome Sigma Paillier RangeProofs.
Import ListNotations.
Local Open Scope Z_scope.

Section Mta.
Context (C : Curve).
Notation q := (cq C).
Notation F := (Fq q).
Notation ocm := (outcome error).
(** The hash of the range proofs and the hash of DLogProof. *)
Context (Hz : hashZ C) (Hf : hashF C).

(** MessageA, lines 35-39 *)
Record msg_a := { ma_c : Z; ma_proofs : list alice_proof }.
(** MessageB, lines 41-46 *)
Record msg_b := { mb_c : Z; mb_b : dlog_proof C; mb_bt : dlog_proof C }.

(** Values sampled by one AliceProof::generate. *)
Record arand := { ar_alpha : Z; ar_beta : Z; ar_gamma : Z; ar_ro : Z }.

(** MessageA::a_with_predefined_randomness, lines 62-87 (and ::a, 52-60, which samples
    [r] below N); one set of random values per statement. *)
Definition mta_a (a : F) (N r : Z) (sts : list (dlstmt * arand)) : msg_a :=
  let c_a := enc N (to_Z a) r in
  {| ma_c := c_a;
     ma_proofs := map (fun '(st, k) =>
        alice_generate Hz (to_Z a) c_a N st r (ar_alpha k) (ar_beta k) (ar_gamma k) (ar_ro k)) sts |}.

(** The lazy [zip.map(verify).all] of lines 123-130: stops at the first [false]. *)
Fixpoint verify_all (c N : Z) (ps : list alice_proof) (sts : list dlstmt) : ocm bool :=
  match ps, sts with
  | p :: ps', st :: sts' =>
      let* ok := alice_verify Hz p c N st in
      if ok then verify_all c N ps' sts' else Ok false
  | _, _ => Ok true
  end.

(** MessageB::b_with_predefined_randomness, lines 111-158 (and ::b, 91-109, which samples
    [r] and [beta_tag] below N); t1, t2 are the nonces of the two DLogProofs. *)
Definition mta_b (b : F) (N : Z) (m_a : msg_a) (r beta_tag : Z) (sts : list dlstmt) (t1 t2 : F)
  : ocm (msg_b * F) :=
  if negb (Nat.eqb (length (ma_proofs m_a)) (length sts)) then Err InvalidKey else
  let* ok := verify_all (ma_c m_a) N (ma_proofs m_a) sts in
  if negb ok then Err InvalidKey else
  let beta_tag_fe := of_Z q beta_tag in
  let c_beta_tag := enc N beta_tag r in
  let b_c_a := pmul_c N (ma_c m_a) (to_Z b) in
  let c_b := padd_c N b_c_a c_beta_tag in
  let beta := (f0 - beta_tag_fe)%Fq in
  Ok ({| mb_c := c_b; mb_b := dlog_prove Hf b t1; mb_bt := dlog_prove Hf beta_tag_fe t2 |}, beta).

(** MessageB::verify_proofs_get_alpha, lines 160-179; the decryption key is (p1, p2). *)
Definition verify_get_alpha (m : msg_b) (p1 p2 : Z) (a : F) : ocm (F * Z) :=
  let alice_share := dec p1 p2 (mb_c m) in
  let alpha := of_Z q alice_share in
  let g_alpha := smul alpha gen in
  let ba_btag := padd (smul a (dp_pk (mb_b m))) (dp_pk (mb_bt m)) in
  if dlog_verify Hf (mb_b m) && dlog_verify Hf (mb_bt m) && pt_eqb ba_btag g_alpha
  then Ok (alpha, alice_share)
  else Err InvalidKey.

(** MessageB::verify_proofs_get_alpha_gg18, lines 183-202; decryption through
    PartyPrivate::decrypt (gg_2018/party_i.rs:367-369). *)
Definition verify_get_alpha_gg18 (m : msg_b) (p1 p2 : Z) (a : F) : ocm F :=
  let alice_share := dec p1 p2 (mb_c m) in
  let alpha := of_Z q alice_share in
  let g_alpha := smul alpha gen in
  let ba_btag := padd (smul a (dp_pk (mb_b m))) (dp_pk (mb_bt m)) in
  if dlog_verify Hf (mb_b m) && dlog_verify Hf (mb_bt m) && pt_eqb ba_btag g_alpha
  then Ok alpha
  else Err InvalidKey.

(** MessageB::verify_b_against_public, lines 204-209 *)
Definition verify_b_against_public (public_gb mta_gb : pt C) : bool := pt_eqb public_gb mta_gb.
End Mta.
Arguments mb_c {_}. Arguments mb_b {_}. Arguments mb_bt {_}.
Arguments mta_a {_}. Arguments mta_b {_}. Arguments verify_all {_}.
Arguments verify_get_alpha {_}. Arguments verify_get_alpha_gg18 {_}. Arguments verify_b_against_public {_}.

(** Interactive PDL proof, src/utilities/zk_pdl/mod.rs.  The range proof of zk-paillier
    (RangeProofNi) is an oracle: a boolean saying whether it verifies. *)
From Coq Require Import ZArith Lia Bool List.
From Verif Require Import ZArithX Fq Curve Outcome Sigma Bytes Paillier.
Import ListNotations.
Local Open Scope Z_scope.

(** ZkPdlError, lines 39-45 *)
Inductive pdl_error := PdlMessage2 | PdlFinalize.

(** [BigInt::bit_length] *)
Definition bit_length (z : Z) : Z := if z =? 0 then 1 else Z.log2 (Z.abs z) + 1.

Section Pdl.
Context (C : Curve).
Notation q := (cq C).
Notation F := (Fq q).
(** SHA-256 of a byte string *)
Context (Hb : list Z -> Z).

(** lines 47-53 *)
Record pdl_stmt := { pd_c : Z; pd_N : Z; pd_Q : pt C; pd_G : pt C }.
(** lines 54-59; the decryption key is the pair of primes *)
Record pdl_wit := { pw_x : F; pw_r : Z; pw_p1 : Z; pw_p2 : Z }.
(** lines 61-70 *)
Record pdl_vstate := { pv_c_tag : Z; pv_c_tag_tag : Z; pv_a : Z; pv_b : Z; pv_blind : Z;
                       pv_q_tag : pt C; pv_c_hat : Z }.
(** lines 78-82 *)
Record pdl_vmsg1 := { v1_c_tag : Z; v1_c_tag_tag : Z }.
(** lines 84-88; the range proof is its verdict *)
Record pdl_pmsg1 := { p1_c_hat : Z; p1_range_ok : bool }.
(** lines 90-95 *)
Record pdl_vmsg2 := { v2_a : Z; v2_b : Z; v2_blind : Z }.
(** lines 97-106: PDLProverDecommit and PDLProverSecondMessage *)
Record pdl_decommit := { pc_q_hat : pt C; pc_blind : Z }.
(** lines 72-76 *)
Record pdl_pstate := { pp_decommit : pdl_decommit; pp_alpha : Z }.

Definition ab_concat (a b : Z) : Z := a + Z.shiftl b (bit_length a).

(** Verifier::message1, lines 112-148; a, b, the encryption randomness and the blinding
    factor are sampled. *)
Definition v_message1 (st : pdl_stmt) (a : F) (b renc blind : Z) : pdl_vmsg1 * pdl_vstate :=
  let b_enc := enc (pd_N st) b renc in
  let ac := pmul_c (pd_N st) (pd_c st) (to_Z a) in
  let c_tag := padd_c (pd_N st) ac b_enc in
  let c_tag_tag := commit Hb (ab_concat (to_Z a) b) blind in
  let q_tag := padd (smul a (pd_Q st)) (smul (of_Z q b) (pd_G st)) in
  ({| v1_c_tag := c_tag; v1_c_tag_tag := c_tag_tag |},
   {| pv_c_tag := c_tag; pv_c_tag_tag := c_tag_tag; pv_a := to_Z a; pv_b := b; pv_blind := blind;
      pv_q_tag := q_tag; pv_c_hat := 0 |}).

(** Verifier::message2, lines 150-168; the state is updated in both cases. *)
Definition v_message2 (m : pdl_pmsg1) (s : pdl_vstate) : pdl_vstate * outcome pdl_error pdl_vmsg2 :=
  ({| pv_c_tag := pv_c_tag s; pv_c_tag_tag := pv_c_tag_tag s; pv_a := pv_a s; pv_b := pv_b s;
      pv_blind := pv_blind s; pv_q_tag := pv_q_tag s; pv_c_hat := p1_c_hat m |},
   if p1_range_ok m
   then Ok {| v2_a := pv_a s; v2_b := pv_b s; v2_blind := pv_blind s |}
   else Err PdlMessage2).

(** Verifier::finalize, lines 170-187 *)
Definition v_finalize (m1 : pdl_pmsg1) (d : pdl_decommit) (s : pdl_vstate) : outcome pdl_error unit :=
  let c_hat_test := commit_pt Hb (pc_q_hat d) (pc_blind d) in
  if (p1_c_hat m1 =? c_hat_test) && pt_eqb (pc_q_hat d) (pv_q_tag s) then Ok tt else Err PdlFinalize.

(** Prover::message1, lines 191-214; [rp] is the verdict of the range proof it attaches. *)
Definition p_message1 (w : pdl_wit) (st : pdl_stmt) (m : pdl_vmsg1) (blind : Z) (rp : bool)
  : pdl_pmsg1 * pdl_pstate :=
  let alpha := dec (pw_p1 w) (pw_p2 w) (v1_c_tag m) in
  let q_hat := smul (of_Z q alpha) (pd_G st) in
  let c_hat := commit_pt Hb q_hat blind in
  ({| p1_c_hat := c_hat; p1_range_ok := rp |},
   {| pp_decommit := {| pc_q_hat := q_hat; pc_blind := blind |}; pp_alpha := alpha |}).

(** Prover::message2, lines 216-241 *)
Definition p_message2 (m1 : pdl_vmsg1) (m2 : pdl_vmsg2) (w : pdl_wit) (s : pdl_pstate)
  : outcome pdl_error pdl_decommit :=
  let c_tag_tag_test := commit Hb (ab_concat (v2_a m2) (v2_b m2)) (v2_blind m2) in
  let ax1 := v2_a m2 * to_Z (pw_x w) in
  let alpha_test := ax1 + v2_b m2 in
  if (alpha_test =? pp_alpha s) && (v1_c_tag_tag m1 =? c_tag_tag_test)
  then Ok (pp_decommit s) else Err PdlMessage2.
End Pdl.
Arguments pd_c {_}. Arguments pd_N {_}. Arguments pd_Q {_}. Arguments pd_G {_}.
Arguments pw_x {_}. Arguments pw_r {_}. Arguments pw_p1 {_}. Arguments pw_p2 {_}.
Arguments pv_c_tag {_}. Arguments pv_c_tag_tag {_}. Arguments pv_a {_}. Arguments pv_b {_}.
Arguments pv_blind {_}. Arguments pv_q_tag {_}. Arguments pv_c_hat {_}.
Arguments pc_q_hat {_}. Arguments pc_blind {_}. Arguments pp_decommit {_}. Arguments pp_alpha {_}.
Arguments v_message1 {_}. Arguments v_message2 {_}. Arguments v_finalize {_}.
Arguments p_message1 {_}. Arguments p_message2 {_}.

(** GG18 key generation: src/protocols/multi_party_ecdsa/gg_2018/party_i.rs.  The fields y_i and ek of Keys are
    computed from u_i and dk by every constructor (148-188, 332-363), so they are not stored. *)
From Coq Require Import ZArith Lia Bool List.
From Verif Require Import ZArithX Fq Curve Outcome Sigma Bytes Vss Mp Gg20Keygen.
Import ListNotations.
Local Open Scope Z_scope.

Section Kg18.
Context (C : Curve).
Notation q := (cq C).
Notation F := (Fq q).
Notation res := (outcome error).
Context (Hb : list Z -> Z) (Hf : hashF C).
(** NiCorrectKeyProof::verify(proof, ek) *)
Context (ck : Z -> Z -> bool).

(** Keys, 51-57 *)
Record keys18 := { k18_u : F; k18_p1 : Z; k18_p2 : Z; k18_i : nat }.
(** KeyGenBroadcastMessage1, 67-71 *)
Record bc18 := { b18_N : Z; b18_com : Z; b18_ck : Z }.

(** phase1_broadcast_phase3_proof_of_correct_key, 190-209 *)
Definition kg18_phase1 (k : keys18) (blind pck : Z) : bc18 * kg_dec1 C :=
  let y := smul (k18_u k) gen in
  ({| b18_N := k18_p1 k * k18_p2 k; b18_com := commit_pt Hb y blind; b18_ck := pck |},
   {| kd_blind := blind; kd_y := y |}).

(** phase1_verify_com_phase3_verify_correct_key_phase2_distribute, 212-240 *)
Definition kg18_check1 (x : kg_dec1 C * bc18) : bool :=
  let '(d, b) := x in
  (commit_pt Hb (kd_y d) (kd_blind d) =? b18_com b) && ck (b18_ck b) (b18_N b).
Definition kg18_phase1_verify (k : keys18) (t n : nat) (coefs : list F) (decom : list (kg_dec1 C)) (bc1 : list bc18)
  : res (vss C * list F * nat) :=
  let* _ := oassert (length decom =? n)%nat in
  let* _ := oassert (length bc1 =? n)%nat in
  let ok := forallb kg18_check1 (combine decom bc1) in
  let* sh := vss_share t n (k18_u k :: coefs) in
  if ok then Ok (fst sh, snd sh, k18_i k) else Err InvalidKey.

(** The test of one dealer, 255-260 *)
Definition kg18_check2 (index : nat) (x : pt C * F * vss C) : res bool :=
  let '(y, s, v) := x in
  match validate_share v s index with
  | Ok _ => let* c0 := nth_o (vs_com v) 0 in Ok (pt_eqb c0 y)
  | Err _ => Ok false
  | Panic => Panic
  end.
(** phase2_verify_vss_construct_keypair_phase3_pok_dlog, 242-269; [sum()] starts from zero. *)
Definition kg18_phase2 (n : nat) (y_vec : list (pt C)) (shares : list F) (vss_vec : list (vss C)) (index : nat) (nonce : F)
  : res (shared_keys C * dlog_proof C) :=
  let* _ := oassert (length y_vec =? n)%nat in
  let* _ := oassert (length shares =? n)%nat in
  let* _ := oassert (length vss_vec =? n)%nat in
  let* bad := first_bad (kg18_check2 index) 0 (combine (combine y_vec shares) vss_vec) in
  match bad with
  | None => let x_i := fold_left fadd shares f0 in
            Ok ({| sk_y := fold_left padd y_vec pzero; sk_x := x_i |}, dlog_prove Hf x_i nonce)
  | Some _ => Err InvalidSS
  end.

(** get_commitments_to_xi, 271-282 *)
Definition kg18_xi_commitments {E} (vss_vec : list (vss C)) : outcome E (list (pt C)) :=
  omapM (fun i => let* l := omapM (fun v => point_commitment v i) vss_vec in Ok (fold_left padd l pzero))
        (seq 1 (length vss_vec)).

(** verify_dlog_proofs, 295-311 *)
Definition kg18_verify_dlog (n : nat) (proofs : list (dlog_proof C)) (y_vec : list (pt C)) : res unit :=
  let* _ := oassert (length y_vec =? n)%nat in
  let* _ := oassert (length proofs =? n)%nat in
  if forallb (dlog_verify Hf) proofs then Ok tt else Err InvalidKey.
End Kg18.

Arguments k18_u {_}. Arguments k18_p1 {_}. Arguments k18_p2 {_}. Arguments k18_i {_}.
Arguments kg18_xi_commitments {_ _}.

(** PDL with slack, src/utilities/zk_pdl_with_slack/mod.rs. *)
From Coq Require Import ZArith Lia Bool List.
From Verif Require Import ZArithX Fq Curve Outcome Sigma Bytes Paillier RangeProofs.
Import ListNotations.
Local Open Scope Z_scope.

(** ZkPdlWithSlackError, lines 34-38 *)
Inductive pdls_error := PdlsVerify.

(** commitment_unknown_order, lines 182-199; [None] is a panic. *)
Definition cuo (h1 h2 n x r : Z) : option Z :=
  match mod_pow h1 x n with
  | None => None
  | Some h1_x =>
      let h2_r := if r <? 0 then
                    match bn_inv h2 n with
                    | None => None
                    | Some h2_inv => mod_pow h2_inv (- r) n
                    end
                  else mod_pow h2 r n in
      match h2_r with
      | None => None
      | Some y => Some ((h1_x * y) mod n)
      end
  end.

Section Pdls.
Context (C : Curve).
Notation q := (cq C).
Notation F := (Fq q).
Context (H : hashZ C).

(** lines 40-49 *)
Record pdls_stmt := { ps_c : Z; ps_N : Z; ps_Q : pt C; ps_G : pt C; ps_h1 : Z; ps_h2 : Z; ps_Nt : Z }.
(** lines 56-65 *)
Record pdls_proof := { pp_z : Z; pp_u1 : pt C; pp_u2 : Z; pp_u3 : Z; pp_s1 : Z; pp_s2 : Z; pp_s3 : Z }.

(** The hash input, lines 101-109 and 128-136 *)
Definition pdls_query (st : pdls_stmt) (z : Z) (u1 : pt C) (u2 u3 : Z) : list (hitem C) :=
  [HInt (pt_int (ps_G st)); HInt (pt_int (ps_Q st)); HInt (ps_c st); HInt z; HInt (pt_int u1); HInt u2; HInt u3].

(** PDLwSlackProof::prove, lines 68-125; witness (x, r); alpha < q^3, beta in [1, N-1),
    rho < q Nt, gamma < q^3 Nt are sampled. *)
Definition pdls_prove (x : F) (r : Z) (st : pdls_stmt) (alpha beta rho gamma : Z)
  : outcome pdls_error pdls_proof :=
  let N := ps_N st in
  let* z := unwrap (cuo (ps_h1 st) (ps_h2 st) (ps_Nt st) (to_Z x) rho) in
  let u1 := smul (of_Z q alpha) (ps_G st) in
  let* u2 := unwrap (cuo (N + 1) beta (N * N) alpha N) in
  let* u3 := unwrap (cuo (ps_h1 st) (ps_h2 st) (ps_Nt st) alpha gamma) in
  let e := H (pdls_query st z u1 u2 u3) in
  let* s2 := unwrap (cuo r beta N e 1) in
  Ok {| pp_z := z; pp_u1 := u1; pp_u2 := u2; pp_u3 := u3;
        pp_s1 := e * to_Z x + alpha; pp_s2 := s2; pp_s3 := e * rho + gamma |}.

(** PDLwSlackProof::verify, lines 127-179 *)
Definition pdls_verify (p : pdls_proof) (st : pdls_stmt) : outcome pdls_error unit :=
  let N := ps_N st in
  let e := H (pdls_query st (pp_z p) (pp_u1 p) (pp_u2 p) (pp_u3 p)) in
  let g_s1 := smul (of_Z q (pp_s1 p)) (ps_G st) in
  let y_minus_e := smul (of_Z q (q - e)) (ps_Q st) in
  let u1_test := padd g_s1 y_minus_e in
  let* u2_tmp := unwrap (cuo (N + 1) (pp_s2 p) (N * N) (pp_s1 p) N) in
  let* u2_test := unwrap (cuo u2_tmp (ps_c st) (N * N) 1 (- e)) in
  let* u3_tmp := unwrap (cuo (ps_h1 st) (ps_h2 st) (ps_Nt st) (pp_s1 p) (pp_s3 p)) in
  let* u3_test := unwrap (cuo u3_tmp (pp_z p) (ps_Nt st) 1 (- e)) in
  if pt_eqb (pp_u1 p) u1_test && (pp_u2 p =? u2_test) && (pp_u3 p =? u3_test)
  then Ok tt else Err PdlsVerify.
End Pdls.
Arguments ps_c {_}. Arguments ps_N {_}. Arguments ps_Q {_}. Arguments ps_G {_}.
Arguments ps_h1 {_}. Arguments ps_h2 {_}. Arguments ps_Nt {_}.
Arguments pp_z {_}. Arguments pp_u1 {_}. Arguments pp_u2 {_}. Arguments pp_u3 {_}.
Arguments pp_s1 {_}. Arguments pp_s2 {_}. Arguments pp_s3 {_}.
Arguments pdls_query {_}. Arguments pdls_prove {_}. Arguments pdls_verify {_}.

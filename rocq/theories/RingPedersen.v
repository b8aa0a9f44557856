(** Auxiliary parameters (N~, h1, h2) of GG20 key generation: src/protocols/multi_party_ecdsa/gg_2020/party_i.rs (P), and the proofs
    about them, CompositeDLogProof of zk-paillier (src/zkproofs/wi_dlog_proof.rs of that crate, modelled from its documented
    behaviour): ni = g^(-secret) mod N. *)
From Coq Require Import ZArith Lia Bool List.
From Verif Require Import ZArithX Outcome Paillier RangeProofs Mp.
Import ListNotations.
Local Open Scope Z_scope.

(** generate_h1_h2_N_tilde, P:137-156, for primes p1, p2 and samples h1 and xhi; None is another turn of the loop.  The
    results are the statement and the two secrets. *)
Definition gen_h1h2 (p1 p2 h1 xhi : Z) : option (dlstmt * Z * Z) :=
  let n := p1 * p2 in
  let phi := (p1 - 1) * (p2 - 1) in
  match mod_inv xhi phi with
  | None => None
  | Some inv => match mod_pow h1 xhi n with
                | None => None
                | Some h2 => Some ({| dl_N := n; dl_h1 := h1; dl_h2 := h2 |}, phi - xhi, phi - inv)
                end
  end.

Section Cd.
(** The challenge, computed from x, g, N and ni *)
Context (He : list Z -> Z).
Definition cd_e (d : dlstmt) (x : Z) : Z := He [x; dl_h1 d; dl_N d; dl_h2 d].
(** CompositeDLogProof::prove(statement, secret) with randomness r: the pair (x, y) *)
Definition cd_prove (d : dlstmt) (secret r : Z) : option (Z * Z) :=
  match mod_pow (dl_h1 d) r (dl_N d) with
  | None => None
  | Some x => Some (x, r + cd_e d x * secret)
  end.
(** CompositeDLogProof::verify: three assertions, then g^y ni^e = x *)
Definition cd_verify {E} (pf : Z * Z) (d : dlstmt) : outcome E bool :=
  let '(x, y) := pf in
  let* _ := oassert (2 ^ 128 <? dl_N d) in
  let* _ := oassert (Z.gcd (dl_h1 d) (dl_N d) =? 1) in
  let* _ := oassert (Z.gcd (dl_h2 d) (dl_N d) =? 1) in
  let* a := unwrap (mod_pow (dl_h2 d) (cd_e d x) (dl_N d)) in
  let* b := unwrap (mod_pow (dl_h1 d) y (dl_N d)) in
  Ok (x =? (b * a) mod dl_N d).
End Cd.

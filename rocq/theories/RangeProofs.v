(** Range proofs of MtA, src/utilities/mta/range_proofs.rs.  Random values are
    arguments; the Fiat-Shamir hash is an arbitrary function of the hashed items.
    [%] on GMP integers truncates towards zero ([Z.rem]). *)
From Coq Require Import ZArith Lia Bool List.
From Verif Require Import ZArithX Fq Curve Outcome Sigma Paillier.
Import ListNotations.
Local Open Scope Z_scope.

(** zk-paillier [DLogStatement] { N, g, ni }: h1 = g, h2 = ni. *)
Record dlstmt := { dl_N : Z; dl_h1 : Z; dl_h2 : Z }.

(** [BigInt::mod_inv] *)
Definition bn_inv (a n : Z) : option Z := mod_inv a (Z.abs n).

Section Range.
Context (C : Curve).
Notation q := (cq C).
Notation F := (Fq q).
Notation ocm := (outcome error).
Context (H : hashZ C).

(** lines 95-101 *)
Record alice_proof := { ap_z : Z; ap_e : Z; ap_s : Z; ap_s1 : Z; ap_s2 : Z }.

(** AliceProof::verify, lines 105-156 *)
Definition alice_verify (p : alice_proof) (cipher N : Z) (st : dlstmt) : ocm bool :=
  let NN := N * N in
  let Nt := dl_N st in
  if q ^ 3 <? ap_s1 p then Ok false else
  let* ze := unwrap (mod_pow (ap_z p) (ap_e p) Nt) in
  match bn_inv ze Nt with
  | None => Ok false
  | Some z_e_inv =>
      let* h1s := unwrap (mod_pow (dl_h1 st) (ap_s1 p) Nt) in
      let* h2s := unwrap (mod_pow (dl_h2 st) (ap_s2 p) Nt) in
      let w := Z.rem (h1s * h2s * z_e_inv) Nt in
      let gs1 := Z.rem (ap_s1 p * N + 1) NN in
      let* ce := unwrap (mod_pow cipher (ap_e p) NN) in
      match bn_inv ce NN with
      | None => Ok false
      | Some cipher_e_inv =>
          let* sN := unwrap (mod_pow (ap_s p) N NN) in
          let u := Z.rem (gs1 * sN * cipher_e_inv) NN in
          let e := H [HInt N; HInt (N + 1); HInt cipher; HInt (ap_z p); HInt u; HInt w] in
          Ok (e =? ap_e p)
      end
  end.

(** AliceZkpRound1::from (38-68), AliceZkpRound2::from (77-91), AliceProof::generate
    (160-193); alpha < q^3, beta in Z_N^*, gamma < q^3 Nt, ro < q Nt are sampled. *)
Definition alice_generate (a cipher N : Z) (st : dlstmt) (r alpha beta gamma ro : Z) : alice_proof :=
  let NN := N * N in
  let Nt := dl_N st in
  let z := Z.rem (powm (dl_h1 st) a Nt * powm (dl_h2 st) ro Nt) Nt in
  let u := Z.rem ((alpha * N + 1) * powm beta N NN) NN in
  let w := Z.rem (powm (dl_h1 st) alpha Nt * powm (dl_h2 st) gamma Nt) Nt in
  let e := H [HInt N; HInt (N + 1); HInt cipher; HInt z; HInt u; HInt w] in
  {| ap_z := z; ap_e := e;
     ap_s := Z.rem (powm r e N * beta) N;
     ap_s1 := e * a + alpha;
     ap_s2 := e * ro + gamma |}.

(** lines 308-317 *)
Record bob_proof := { bp_t : Z; bp_z : Z; bp_e : Z; bp_s : Z; bp_s1 : Z; bp_s2 : Z; bp_t1 : Z; bp_t2 : Z }.

(** The hashed items; the check's coordinates are unwrapped, lines 374-405. *)
Definition bob_items (check : option (pt C * pt C)) : ocm (list (hitem C)) :=
  match check with
  | None => Ok []
  | Some (u, X) =>
      let* Xx := unwrap (x_coord X) in
      let* Xy := unwrap (y_coord X) in
      let* ux := unwrap (x_coord u) in
      let* uy := unwrap (y_coord u) in
      Ok [HInt Xx; HInt Xy; HInt ux; HInt uy]
  end.

(** BobProof::verify, lines 321-412; [check] is BobCheck {u, X}. *)
Definition bob_verify (p : bob_proof) (a_enc mta_out N : Z) (st : dlstmt)
    (check : option (pt C * pt C)) : ocm bool :=
  let NN := N * N in
  let Nt := dl_N st in
  if q ^ 3 <? bp_s1 p then Ok false else
  let* ze := unwrap (mod_pow (bp_z p) (bp_e p) Nt) in
  match bn_inv ze Nt with
  | None => Ok false
  | Some z_e_inv =>
      let* h1s := unwrap (mod_pow (dl_h1 st) (bp_s1 p) Nt) in
      let* h2s := unwrap (mod_pow (dl_h2 st) (bp_s2 p) Nt) in
      let z_prim := Z.rem (h1s * h2s * z_e_inv) Nt in
      let* me := unwrap (mod_pow mta_out (bp_e p) NN) in
      match bn_inv me NN with
      | None => Ok false
      | Some mta_e_inv =>
          let* as1 := unwrap (mod_pow a_enc (bp_s1 p) NN) in
          let* sN := unwrap (mod_pow (bp_s p) N NN) in
          let v := Z.rem (as1 * sN * (bp_t1 p * N + 1) * mta_e_inv) NN in
          let* te := unwrap (mod_pow (bp_t p) (bp_e p) Nt) in
          match bn_inv te Nt with
          | None => Ok false
          | Some t_e_inv =>
              let* h1t := unwrap (mod_pow (dl_h1 st) (bp_t1 p) Nt) in
              let* h2t := unwrap (mod_pow (dl_h2 st) (bp_t2 p) Nt) in
              let w := Z.rem (h1t * h2t * t_e_inv) Nt in
              let* extra := bob_items check in
              let e := H ([HInt N; HInt (N + 1); HInt a_enc; HInt mta_out; HInt (bp_z p);
                           HInt z_prim; HInt (bp_t p); HInt v; HInt w] ++ extra) in
              Ok (e =? bp_e p)
          end
      end
  end.

(** Bob's random values: alpha < q^3, beta in Z_N^*, gamma < q^2 N, ro, sigma < q Nt,
    ro', tau < q^3 Nt. *)
Record bob_rand := { br_alpha : Z; br_beta : Z; br_gamma : Z; br_ro : Z; br_ro_prim : Z;
                     br_sigma : Z; br_tau : Z }.

(** BobZkpRound1::from (214-265), BobZkpRound2::from (276-298), BobProof::generate (414-487) *)
Definition bob_generate (a_enc mta_enc : Z) (b : F) (beta_prim N : Z) (st : dlstmt) (r : Z)
    (check : bool) (k : bob_rand) : ocm (bob_proof * option (pt C)) :=
  let NN := N * N in
  let Nt := dl_N st in
  let bz := to_Z b in
  let z := Z.rem (powm (dl_h1 st) bz Nt * powm (dl_h2 st) (br_ro k) Nt) Nt in
  let z_prim := Z.rem (powm (dl_h1 st) (br_alpha k) Nt * powm (dl_h2 st) (br_ro_prim k) Nt) Nt in
  let t := Z.rem (powm (dl_h1 st) beta_prim Nt * powm (dl_h2 st) (br_sigma k) Nt) Nt in
  let w := Z.rem (powm (dl_h1 st) (br_gamma k) Nt * powm (dl_h2 st) (br_tau k) Nt) Nt in
  let v := Z.rem (powm a_enc (br_alpha k) NN * (br_gamma k * N + 1) * powm (br_beta k) N NN) NN in
  let X := smul b gen in
  let u := smul (of_Z q (br_alpha k)) gen in
  let* extra := bob_items (if check then Some (u, X) else None) in
  let e := H ([HInt N; HInt (N + 1); HInt a_enc; HInt mta_enc; HInt z;
               HInt z_prim; HInt t; HInt v; HInt w] ++ extra) in
  Ok ({| bp_t := t; bp_z := z; bp_e := e;
         bp_s := Z.rem (powm r e N * br_beta k) N;
         bp_s1 := e * bz + br_alpha k;
         bp_s2 := e * br_ro k + br_ro_prim k;
         bp_t1 := e * beta_prim + br_gamma k;
         bp_t2 := e * br_sigma k + br_tau k |},
      if check then Some u else None).

(** BobProofExt::verify, lines 499-534 *)
Definition bobext_verify (p : bob_proof) (u : pt C) (a_enc mta_out N : Z) (st : dlstmt) (X : pt C) : ocm bool :=
  let* ok := bob_verify p a_enc mta_out N st (Some (u, X)) in
  if ok then
    Ok (pt_eqb (smul (of_Z q (bp_s1 p)) gen) (padd (smul (of_Z q (bp_e p)) X) u))
  else Ok false.
End Range.

Arguments alice_verify {_}. Arguments alice_generate {_}.
Arguments bob_verify {_}. Arguments bob_generate {_}. Arguments bobext_verify {_}.
Arguments bob_items {_}.

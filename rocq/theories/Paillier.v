(** Paillier encryption as implemented by the kzen-paillier crate (not in /repo;
    read from its documentation) and GMP's [mod_pow], as called from
    src/utilities/mta/mod.rs, src/utilities/zk_pdl*, lindell_2017 and gg_2018/gg_2020. *)
From Coq Require Import ZArith Znumtheory Lia.
From Verif Require Import ZArithX.
Local Open Scope Z_scope.

(** [BigInt::mod_pow(b, e, n)] with the GMP back end ([mpz_powm]): a negative exponent
    inverts the base; no inverse or a zero modulus is a division by zero, which kills
    the process ([None]). *)
Definition mod_pow (b e n : Z) : option Z :=
  if n =? 0 then None
  else if 0 <=? e then Some (powm b e (Z.abs n))
  else match mod_inv b (Z.abs n) with
       | Some i => Some (powm i (- e) (Z.abs n))
       | None => None
       end.

(** [EncryptionKey] is [n] with [nn = n*n].
    [Paillier::encrypt_with_chosen_randomness(ek, m, r)]: (m n + 1) * r^n mod nn. *)
Definition enc (N m r : Z) : Z :=
  (((m * N + 1) mod (N * N)) * powm r N (N * N)) mod (N * N).

(** [Paillier::add(ek, c1, c2)] *)
Definition padd_c (N c1 c2 : Z) : Z := (c1 * c2) mod (N * N).

(** [Paillier::mul(ek, c, m)] *)
Definition pmul_c (N c m : Z) : Z := powm c m (N * N).

(** L(u) = (u-1)/p *)
Definition lfun (u p : Z) : Z := (u - 1) / p.

(** [hp]: inverse of L_p((1 - n) mod p^2) modulo p, precomputed in [DecryptionKey].
    The [unwrap]s happen when the key is built; keys are pairs of distinct primes. *)
Definition hfun (p N : Z) : Z :=
  match mod_inv (lfun ((1 - N) mod (p * p)) p) p with Some h => h | None => 0 end.

Definition dec_half (p N c : Z) : Z :=
  let cp := c mod (p * p) in
  let dp := powm cp (p - 1) (p * p) in
  (lfun dp p * hfun p N) mod p.

(** [Paillier::decrypt(dk, c)] with dk = (p, q): both halves and CRT recombination. *)
Definition dec (p q c : Z) : Z :=
  let mp := dec_half p (p * q) c in
  let mq := dec_half q (p * q) c in
  let pinv := match mod_inv p q with Some i => i | None => 0 end in
  let diff := (mq - mp) mod q in
  let u := (diff * pinv) mod q in
  mp + u * p.

(** A well-formed key. *)
Definition good_key (p q : Z) : Prop := prime p /\ prime q /\ p <> q.

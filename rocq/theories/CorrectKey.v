(** NiCorrectKeyProof of zk-paillier (src/zkproofs/correct_key_ni.rs of that crate, modelled from its documented behaviour), which
    GG18 and GG20 key generation use: src/protocols/multi_party_ecdsa/gg_2020/party_i.rs:223, 283 and
    gg_2018/party_i.rs:194, 226; and Lindell's protocol, lindell_2017/party_one.rs:269, 362-364, party_two.rs:301-312. *)
From Coq Require Import ZArith Lia Bool List.
From Verif Require Import ZArithX Outcome Paillier Mp.
Import ListNotations.
Local Open Scope Z_scope.

(** M2, the number of values *)
Definition CK_M2 : nat := 11.
Section Ck.
(** The mask of the i-th seed for the modulus N (digest of N, the salt and i, expanded to the length of N), and the product of the
    small primes *)
Context (Hm : Z -> nat -> Z) (primorial : Z).
(** rho_vec *)
Definition ck_rho (N : Z) : list Z := map (fun i => Hm N i mod N) (seq 0 CK_M2).
(** extract_nroot of kzen-paillier: the power with the inverse of N modulo phi; the crate computes it modulo both primes and
    recombines.  None: the inverse does not exist (unwrap panics). *)
Definition extract_nroot (p1 p2 z : Z) : option Z :=
  match mod_inv (p1 * p2) ((p1 - 1) * (p2 - 1)) with
  | None => None
  | Some d => Some (powm (z mod (p1 * p2)) d (p1 * p2))
  end.
Fixpoint all_some {A} (l : list (option A)) : option (list A) :=
  match l with
  | [] => Some []
  | None :: _ => None
  | Some x :: l' => match all_some l' with None => None | Some r => Some (x :: r) end
  end.
(** NiCorrectKeyProof::proof(dk): sigma_vec *)
Definition ck_prove (p1 p2 : Z) : option (list Z) := all_some (map (extract_nroot p1 p2) (ck_rho (p1 * p2))).
(** NiCorrectKeyProof::verify(ek): sigma_vec[i] panics when the vector is too short *)
Definition ck_verify {E} (sigma : list Z) (N : Z) : outcome E bool :=
  let* derived := omapM (fun i => let* s := nth_o sigma i in unwrap (mod_pow s N N)) (seq 0 CK_M2) in
  Ok ((if list_eq_dec Z.eq_dec (ck_rho N) derived then true else false) && (Z.gcd primorial N =? 1)).
(** Used as a test: anything but success fails *)
Definition ck_ok (sigma : list Z) (N : Z) : bool := match ck_verify (E := unit) sigma N with Ok b => b | _ => false end.
End Ck.

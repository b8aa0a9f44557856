(** Two-party protocols: src/protocols/two_party_ecdsa/lindell_2017 (L1 = party_one.rs,
    L2 = party_two.rs) and src/protocols/two_party_ecdsa/cclst_2019 (K1, K2 likewise).
    Key generation and ephemeral exchange are the same code in both up to layout, and are modelled once. *)
From Coq Require Import ZArith Lia Bool List Field.
From Verif Require Import ZArithX Fq Curve Outcome Sigma Bytes Ecdsa Paillier RangeProofs PdlSlack Mta.
Import ListNotations.
Local Open Scope Z_scope.

(** curv's ProofError; PartyTwoError::PdlVerify (L2:46-50) *)
Inductive proof_error := ProofError.
Inductive party2_error := PdlVerify.

Section TwoParty.
Context (C : Curve).
Notation q := (cq C).
Notation F := (Fq q).
(** SHA-256 on bytes (commitments), as a scalar (proofs), as an integer (proofs). *)
Context (Hb : list Z -> Z) (Hf : hashF C) (Hz : hashZ C).

(** EcKeyPair L1:50-54 L2:55-59 K1:53-57 K2:49-53; EphEcKeyPair L1:118-122 L2:111-115 *)
Record ec_pair := { kp_pub : pt C; kp_sec : F }.

(** ** Key generation *)
(** KeyGenFirstMsg of party one, L1:70-74 *)
Record kg1_first := { k1_pkc : Z; k1_zkc : Z }.
(** CommWitness, L1:56-62 *)
Record comm_wit := { cw_pkb : Z; cw_zkb : Z; cw_pub : pt C; cw_proof : dlog_proof C }.

(** KeyGenFirstMsg::create_commitments_with_fixed_secret_share, L1:179-218, K1:182-221; [t], b1, b2 are the
    sampled nonce and blinding factors.  create_commitments is L1:138-177 with a random share and K1:137-179
    with a random share divided by three ([cclst_share]). *)
Definition kg1_create (x1 t : F) (b1 b2 : Z) : kg1_first * comm_wit * ec_pair :=
  let pub := smul x1 gen in
  let pf := dlog_prove Hf x1 t in
  ({| k1_pkc := commit_pt Hb pub b1; k1_zkc := commit_pt Hb (dp_t pf) b2 |},
   {| cw_pkb := b1; cw_zkb := b2; cw_pub := pub; cw_proof := pf |},
   {| kp_pub := pub; kp_sec := x1 |}).
(** K1:141-144 *)
Definition cclst_share (x : F) : F := of_Z q (to_Z x / 3).

(** KeyGenFirstMsg of party two, L2:61-65 *)
Record kg2_first := { k2_proof : dlog_proof C; k2_pub : pt C }.
(** L2:141-176, K2:127-162 *)
Definition kg2_create (x2 t : F) : kg2_first * ec_pair :=
  ({| k2_proof := dlog_prove Hf x2 t; k2_pub := smul x2 gen |}, {| kp_pub := smul x2 gen; kp_sec := x2 |}).

(** Party one's KeyGenSecondMsg::verify_and_decommit, L1:222-228, K1:224-230 *)
Definition kg1_verify_and_decommit (w : comm_wit) (p : dlog_proof C) : outcome proof_error comm_wit :=
  if dlog_verify Hf p then Ok w else Err ProofError.

(** Party two's KeyGenSecondMsg::verify_commitments_and_dlog_proof, L2:180-223, K2:166-209 *)
Definition kg2_verify (m1 : kg1_first) (w : comm_wit) : outcome proof_error unit :=
  let flag := (k1_pkc m1 =? commit_pt Hb (cw_pub w) (cw_pkb w)) &&
              (k1_zkc m1 =? commit_pt Hb (dp_t (cw_proof w)) (cw_zkb w)) in
  if negb flag then Err ProofError
  else if dlog_verify Hf (cw_proof w) then Ok tt else Err ProofError.

(** compute_pubkey, L1:231-236 and K1:233-238 (argument x1), L2:226-232 and K2:212-217 *)
Definition p1_pubkey (x1 : F) (other : pt C) : pt C := smul x1 other.
Definition p2_pubkey (kp : ec_pair) (other : pt C) : pt C := smul (kp_sec kp) other.

(** ** Ephemeral keys *)
(** EphKeyGenFirstMsg of party one, L1:124-129 *)
Record eph1_first := { e1_proof : ddh_proof C; e1_pub : pt C; e1_c : pt C }.
Definition eph_stmt (P c : pt C) : ddh_stmt C := {| dd_g1 := gen; dd_h1 := P; dd_g2 := gen2; dd_h2 := c |}.
(** EphKeyGenFirstMsg::create, L1:404-433, K1:281-309 *)
Definition eph1_create (k1 s : F) : eph1_first * ec_pair :=
  let pub := smul k1 gen in
  let c := smul k1 gen2 in
  ({| e1_proof := ddh_prove Hf k1 s (eph_stmt pub c); e1_pub := pub; e1_c := c |},
   {| kp_pub := pub; kp_sec := k1 |}).

(** L2:117-135 *)
Record eph2_first := { e2_pkc : Z; e2_zkc : Z }.
Record eph_wit := { ew_pkb : Z; ew_zkb : Z; ew_pub : pt C; ew_proof : ddh_proof C; ew_c : pt C }.
Definition ddh_com (p : ddh_proof C) : Z := Hz [HPt (dd_a1 p); HPt (dd_a2 p)].
(** EphKeyGenFirstMsg::create_commitments, L2:315-371, K2:254-309 *)
Definition eph2_create (k2 s : F) (b1 b2 : Z) : eph2_first * eph_wit * ec_pair :=
  let pub := smul k2 gen in
  let c := smul k2 gen2 in
  let pf := ddh_prove Hf k2 s (eph_stmt pub c) in
  ({| e2_pkc := commit_pt Hb pub b1; e2_zkc := commit Hb (ddh_com pf) b2 |},
   {| ew_pkb := b1; ew_zkb := b2; ew_pub := pub; ew_proof := pf; ew_c := c |},
   {| kp_pub := pub; kp_sec := k2 |}).

(** Party two's EphKeyGenSecondMsg::verify_and_decommit, L2:375-387, K2:313-325 *)
Definition eph2_verify_and_decommit (w : eph_wit) (m : eph1_first) : outcome proof_error eph_wit :=
  if ddh_verify Hf (e1_proof m) (eph_stmt (e1_pub m) (e1_c m)) then Ok w else Err ProofError.

(** Party one's EphKeyGenSecondMsg::verify_commitments_and_dlog_proof, L1:437-482, K1:313-356 *)
Definition eph1_verify (m1 : eph2_first) (w : eph_wit) : outcome proof_error unit :=
  let flag := (e2_pkc m1 =? commit_pt Hb (ew_pub w) (ew_pkb w)) &&
              (e2_zkc m1 =? commit Hb (ddh_com (ew_proof w)) (ew_zkb w)) in
  if negb flag then Err ProofError
  else if ddh_verify Hf (ew_proof w) (eph_stmt (ew_pub w) (ew_c w)) then Ok tt else Err ProofError.

(** ** Lindell 2017 *)
(** Party1Private, L1:100-105; the decryption key is (p1, p2). *)
Record party1 := { l1_x : F; l1_p1 : Z; l1_p2 : Z; l1_r : Z }.
(** PaillierKeyPair::generate_encrypted_share_from_fixed_paillier_keypair, L1:339-361 (and 319-337 with
    a fresh key), followed by set_private_key, L1:239-245: the private state and the encrypted share. *)
Definition lindell_setup (kp : ec_pair) (p1 p2 r : Z) : party1 * Z :=
  ({| l1_x := kp_sec kp; l1_p1 := p1; l1_p2 := p2; l1_r := r |}, enc (p1 * p2) (to_Z (kp_sec kp)) r).

(** generate_h1_h2_n_tilde, L1:594-607; the primes, h1 below phi and xhi are sampled. *)
Definition gen_h1_h2 (p' q' h1 xhi : Z) : outcome error dlstmt :=
  let n := p' * q' in
  let* h1_inv := unwrap (mod_inv h1 n) in
  let* h2 := unwrap (mod_pow h1_inv xhi n) in
  Ok {| dl_N := n; dl_h1 := h1; dl_h2 := h2 |}.

(** PaillierKeyPair::pdl_proof, L1:367-401, given the dlog statement; pr is the randomness of the proof
    (alpha, beta, rho, gamma).  The composite dlog proof is left out (oracle at the verifier). *)
Definition lindell_pdl_proof (p : party1) (c : Z) (d : dlstmt) (pr : Z * Z * Z * Z)
  : outcome pdls_error (pdls_stmt C * pdls_proof C) :=
  let '(al, be, rho, ga) := pr in
  let st := {| ps_c := c; ps_N := l1_p1 p * l1_p2 p; ps_Q := smul (l1_x p) gen; ps_G := gen;
               ps_h1 := dl_h1 d; ps_h2 := dl_h2 d; ps_Nt := dl_N d |} in
  let* pf := pdls_prove Hz (l1_x p) (l1_r p) st al be rho ga in Ok (st, pf).

(** Party1Private::refresh_private_key, L1:246-296; new primes and randomness sampled, factor a BigInt. *)
Definition lindell_refresh (p : party1) (factor p1' p2' r' : Z) (d : dlstmt) (pr : Z * Z * Z * Z)
  : outcome pdls_error (Z * party1 * pdls_stmt C * pdls_proof C) :=
  let x1' := (l1_x p * of_Z q factor)%Fq in
  let c' := enc (p1' * p2') (to_Z x1') r' in
  let p' := {| l1_x := x1'; l1_p1 := p1'; l1_p2 := p2'; l1_r := r' |} in
  let* sp := lindell_pdl_proof p' c' d pr in
  Ok (c', p', fst sp, snd sp).

(** Party2Private::update_private_key, L2:241-246 *)
Definition lindell_update (x2 : F) (factor : Z) : F := (x2 * of_Z q factor)%Fq.

(** PaillierPublic::pdl_verify, L2:275-300; [cd] is the verdict of the composite dlog proof on
    (N_tilde, h1, h2). *)
Definition lindell_pdl_verify (cd : dlstmt -> bool) (st : pdls_stmt C) (p : pdls_proof C) (N c : Z) (q1 : pt C)
  : outcome party2_error unit :=
  if negb (ps_N st =? N) || negb (ps_c st =? c) || negb (pt_eqb (ps_Q st) q1) then Err PdlVerify else
  if cd {| dl_N := ps_Nt st; dl_h1 := ps_h1 st; dl_h2 := ps_h2 st |}
  then match pdls_verify Hz p st with Ok _ => Ok tt | Err _ => Err PdlVerify | Panic => Panic end
  else Err PdlVerify.

(** to_mta_message_b of party one, L1:310-315, and of party two, L2:260-271. *)
Definition lindell_to_mta1 (p : party1) (m : msg_b C) : outcome error (F * Z) :=
  verify_get_alpha Hf m (l1_p1 p) (l1_p2 p) (l1_x p).
Definition lindell_to_mta2 (x2 : F) (N c r bt : Z) (t1 t2 : F) : outcome error (msg_b C * F) :=
  match mta_b Hz Hf x2 N {| ma_c := c; ma_proofs := [] |} r bt [] t1 t2 with
  | Ok x => Ok x | _ => Panic end.

(** [BigInt::mod_mul] *)
Definition mod_mul (a b n : Z) : Z := (a mod n * (b mod n)) mod n.

(** PartialSig::compute, L2:391-423; rho below q^2 and the encryption randomness are sampled. *)
Definition lindell_partial (N c_key : Z) (x2 : F) (k2 : ec_pair) (R1 : pt C) (m rho renc : Z)
  : outcome error Z :=
  let R := smul (kp_sec k2) R1 in
  let* xc := unwrap (x_coord R) in
  let rx := xc mod q in
  let* k2_inv := unwrap (mod_inv (to_Z (kp_sec k2)) q) in
  let partial := rho * q + mod_mul k2_inv m q in
  let c1 := enc N partial renc in
  let v := mod_mul k2_inv (mod_mul rx (to_Z x2) q) q in
  let c2 := pmul_c N c_key v in
  Ok (padd_c N c2 c1).

(** Signature::compute, L1:486-517: (r, s) *)
Definition lindell_compute (p : party1) (c3 : Z) (k1 : ec_pair) (R2 : pt C) : outcome error (Z * Z) :=
  let R := smul (kp_sec k1) R2 in
  let* xc := unwrap (x_coord R) in
  let rx := xc mod q in
  let* k1_inv := unwrap (finvert (kp_sec k1)) in
  let s_tag := dec (l1_p1 p) (l1_p2 p) c3 in
  let s_tag_tag := to_Z (of_Z q s_tag * k1_inv)%Fq in
  let s := Z.min s_tag_tag (q - s_tag_tag) in
  Ok (rx, s).

(** Signature::compute_with_recid, L1:519-564: (r, s, recid) *)
Definition lindell_compute_recid (p : party1) (c3 : Z) (k1 : ec_pair) (R2 : pt C) : outcome error (Z * Z * Z) :=
  let R := smul (kp_sec k1) R2 in
  let* xc := unwrap (x_coord R) in
  let rx := xc mod q in
  let* yc := unwrap (y_coord R) in
  let ry := yc mod q in
  let* k1_inv := unwrap (finvert (kp_sec k1)) in
  let s_tag := dec (l1_p1 p) (l1_p2 p) c3 in
  let s_tag_tag := to_Z (of_Z q s_tag * k1_inv)%Fq in
  let s := Z.min s_tag_tag (q - s_tag_tag) in
  let recid := b2z (Z.odd ry) in
  let recid := if q - s_tag_tag <? s_tag_tag then Z.lxor recid 1 else recid in
  Ok (rx, s, recid).
End TwoParty.
Arguments kp_pub {_}. Arguments kp_sec {_}.
Arguments cw_pkb {_}. Arguments cw_zkb {_}. Arguments cw_pub {_}. Arguments cw_proof {_}.
Arguments k2_proof {_}. Arguments k2_pub {_}. Arguments e1_proof {_}. Arguments e1_pub {_}. Arguments e1_c {_}.
Arguments ew_pkb {_}. Arguments ew_zkb {_}. Arguments ew_pub {_}. Arguments ew_proof {_}. Arguments ew_c {_}.
Arguments l1_x {_}. Arguments l1_p1 {_}. Arguments l1_p2 {_}. Arguments l1_r {_}.
Arguments kg1_create {_}. Arguments kg2_create {_}. Arguments kg1_verify_and_decommit {_}. Arguments kg2_verify {_}.
Arguments cclst_share {_}. Arguments p1_pubkey {_}. Arguments p2_pubkey {_}. Arguments eph_stmt {_}.
Arguments eph1_create {_}. Arguments eph2_create {_}. Arguments ddh_com {_}.
Arguments eph2_verify_and_decommit {_}. Arguments eph1_verify {_}.
Arguments lindell_setup {_}. Arguments lindell_pdl_proof {_}. Arguments lindell_refresh {_}. Arguments lindell_update {_}.
Arguments lindell_pdl_verify {_}. Arguments lindell_to_mta1 {_}. Arguments lindell_to_mta2 {_}.
Arguments lindell_partial {_}. Arguments lindell_compute {_}. Arguments lindell_compute_recid {_}.

(** ** CCLST 2019 *)
(** The CL encryption of the class_group crate: an abstract linearly homomorphic scheme over the
    scalars.  [cl_wf] are the ciphertexts produced by encryption and evaluation. *)
Record CL (C : Curve) := {
  cl_ct : Type;
  cl_wf : cl_ct -> Prop;
  cl_enc : Fq (cq C) -> Z -> cl_ct;              (* encrypt(group, pk, m) with its randomness *)
  cl_dec : cl_ct -> Fq (cq C);                   (* decrypt(group, sk, c) *)
  cl_scal : cl_ct -> Z -> cl_ct;                 (* eval_scal *)
  cl_sum : cl_ct -> cl_ct -> cl_ct;              (* eval_sum *)
  cl_enc_wf : forall m r, cl_wf (cl_enc m r);
  cl_scal_wf : forall c v, cl_wf c -> cl_wf (cl_scal c v);
  cl_sum_wf : forall c c', cl_wf c -> cl_wf c' -> cl_wf (cl_sum c c');
  cl_dec_enc : forall m r, cl_dec (cl_enc m r) = m;
  cl_dec_scal : forall c v, cl_wf c -> cl_dec (cl_scal c v) = fmul (of_Z (cq C) v) (cl_dec c);
  cl_dec_sum : forall c c', cl_wf c -> cl_wf c' -> cl_dec (cl_sum c c') = fadd (cl_dec c) (cl_dec c')
}.
Arguments cl_ct {_}. Arguments cl_wf {_ _}. Arguments cl_enc {_ _}. Arguments cl_dec {_ _}.
Arguments cl_scal {_ _}. Arguments cl_sum {_ _}.

Section Cclst.
Context (C : Curve) (E : CL C).
Notation q := (cq C).
Notation F := (Fq q).

(** HSMCL::generate_keypair_and_encrypted_share_and_proof, K1:250-278: the encrypted share.  The proof and the
    group setup are checked by verify_setup_and_zkcldl_proof, K2:228-250, through two oracles. *)
Definition cclst_encrypt_share (kp : ec_pair C) (r : Z) : cl_ct E := cl_enc (kp_sec kp) r.
Definition cclst_verify_setup (setup_ok proof_ok : bool) (c : cl_ct E) : outcome proof_error (cl_ct E) :=
  if proof_ok && setup_ok then Ok c else Err ProofError.

(** PartialSig::compute, K2:329-355 *)
Definition cclst_partial (c_key : cl_ct E) (x2 : F) (k2 : ec_pair C) (R1 : pt C) (m r : Z) : outcome error (cl_ct E) :=
  let R := smul (kp_sec k2) R1 in
  let* xc := unwrap (x_coord R) in
  let rx := xc mod q in
  let* k2_inv := unwrap (mod_inv (to_Z (kp_sec k2)) q) in
  let k2_inv_m := mod_mul k2_inv m q in
  let c1 := cl_enc (of_Z q k2_inv_m) r in
  let v := mod_mul k2_inv (to_Z x2) q in
  let v := mod_mul v rx q in
  let c2 := cl_scal c_key v in
  Ok (cl_sum c1 c2).

(** Signature::compute, K1:360-391 *)
Definition cclst_compute (c3 : cl_ct E) (k1 : ec_pair C) (R2 : pt C) : outcome error (Z * Z) :=
  let R := smul (kp_sec k1) R2 in
  let* xc := unwrap (x_coord R) in
  let rx := xc mod q in
  let* k1_inv := unwrap (mod_inv (to_Z (kp_sec k1)) q) in
  let s_tag := cl_dec c3 in
  let s_tag_tag := mod_mul k1_inv (to_Z s_tag) q in
  let s := Z.min s_tag_tag (q - s_tag_tag) in
  Ok (rx, s).
End Cclst.
Arguments cclst_encrypt_share {_ _}. Arguments cclst_partial {_ _}. Arguments cclst_compute {_ _}.
Arguments cclst_verify_setup {_ _}.

(** A concrete scheme over any curve: linear masking, c = (r, m + k r). *)
Section LinearCL.
Context (C : Curve) (k : Fq (cq C)).
Add Field cfield0 : (C_field C).
Definition linear_CL : CL C.
Proof.
  refine {| cl_ct := (Fq (cq C) * Fq (cq C))%type; cl_wf := fun _ => True;
    cl_enc := fun m r => (of_Z _ r, fadd m (fmul k (of_Z _ r)));
    cl_dec := fun c => fsub (snd c) (fmul k (fst c));
    cl_scal := fun c v => (fmul (of_Z _ v) (fst c), fmul (of_Z _ v) (snd c));
    cl_sum := fun c c' => (fadd (fst c) (fst c'), fadd (snd c) (snd c')) |}; try (intros; exact I);
  intros; cbn [fst snd]; ring.
Defined.
End LinearCL.

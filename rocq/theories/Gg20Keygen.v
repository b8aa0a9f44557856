(** GG20 key generation: src/protocols/multi_party_ecdsa/gg_2020/party_i.rs (P) and
    gg_2020/state_machine/keygen/rounds.rs (R).  The proofs of zk-paillier (NiCorrectKeyProof, CompositeDLogProof)
    are opaque identifiers checked by oracles; CompositeDLogProof::verify can panic on assertion failures.
    Indices are natural numbers (u16/usize in the code; no overflow). *)
From Coq Require Import ZArith Lia Bool List.
From Verif Require Import ZArithX Fq Curve Outcome Sigma Bytes Vss Paillier RangeProofs Pdl Mp.
Import ListNotations.
Local Open Scope Z_scope.

(** P:49-50 *)
Definition PAILLIER_MIN : Z := 2047.
Definition PAILLIER_MAX : Z := 2048.

Section Kg.
Context (C : Curve).
Notation q := (cq C).
Notation F := (Fq q).
Notation res := (outcome mp_error).
Context (Hb : list Z -> Z) (Hf : hashF C).
(** NiCorrectKeyProof::verify(proof, ek), CompositeDLogProof::verify(proof, statement) *)
Context (ck : Z -> Z -> bool) (cd : Z -> dlstmt -> res bool).

(** Keys, P:58-70, with the parts of the decryption key as primes; xhi, xhi_inv are only used by the external
    prover. *)
Record keys := { ky_u : F; ky_p1 : Z; ky_p2 : Z; ky_i : nat; ky_dl : dlstmt }.
(** KeyGenBroadcastMessage1, P:79-87 *)
Record kg_bc1 := { kb_N : Z; kb_dl : dlstmt; kb_com : Z; kb_ck : Z; kb_cd1 : Z; kb_cd2 : Z }.
(** KeyGenDecommitMessage1, P:89-93 *)
Record kg_dec1 := { kd_blind : Z; kd_y : pt C }.
(** SharedKeys, P:95-99 *)
Record shared_keys := { sk_y : pt C; sk_x : F }.

(** phase1_broadcast_phase3_..., P:219-258; blinding factor and proofs are inputs. *)
Definition kg_phase1 (k : keys) (blind pck pcd1 pcd2 : Z) : kg_bc1 * kg_dec1 :=
  let y := smul (ky_u k) gen in
  ({| kb_N := ky_p1 k * ky_p2 k; kb_dl := ky_dl k; kb_com := commit_pt Hb y blind;
      kb_ck := pck; kb_cd1 := pcd1; kb_cd2 := pcd2 |},
   {| kd_blind := blind; kd_y := y |}).

Definition swap_dl (d : dlstmt) : dlstmt := {| dl_N := dl_N d; dl_h1 := dl_h2 d; dl_h2 := dl_h1 d |}.
Definition bits_ok (n : Z) : bool := (PAILLIER_MIN <=? bit_length n) && (bit_length n <=? PAILLIER_MAX).

(** The test of one party's broadcast and opening, P:274-300. *)
Definition kg_check1 (x : kg_dec1 * kg_bc1) : res bool :=
  let '(d, b) := x in
  if (commit_pt Hb (kd_y d) (kd_blind d) =? kb_com b) && ck (kb_ck b) (kb_N b) && bits_ok (kb_N b) && bits_ok (dl_N (kb_dl b))
  then let* c1 := cd (kb_cd1 b) (kb_dl b) in
       if c1 then cd (kb_cd2 b) (swap_dl (kb_dl b)) else Ok false
  else Ok false.

(** phase1_verify_com_..._phase2_distribute, P:260-320; [coefs] are the random coefficients of the sharing. *)
Definition kg_phase1_verify (k : keys) (t n : nat) (coefs : list F) (decom : list kg_dec1) (bc1 : list kg_bc1)
  : res (vss C * list F * nat) :=
  let* _ := oassert (length decom =? n)%nat in
  let* _ := oassert (length bc1 =? n)%nat in
  let* bad := first_bad kg_check1 0 (combine decom bc1) in
  let* sh := vss_share t n (ky_u k :: coefs) in
  match bad with
  | None => Ok (fst sh, snd sh, ky_i k)
  | Some i => Err {| me_kind := EInvalidKey; me_bad := [i] |}
  end.

(** The test of one dealer, P:337-342; [commitments[0]] panics on an empty list. *)
Definition kg_check2 (index : nat) (x : pt C * F * vss C) : res bool :=
  let '(y, s, v) := x in
  match validate_share v s index with
  | Ok _ => let* c0 := nth_o (vs_com v) 0 in Ok (pt_eqb c0 y)
  | Err _ => Ok false
  | Panic => Panic
  end.

(** phase2_verify_vss_construct_keypair_phase3_pok_dlog, P:322-367; [nonce] is sampled by DLogProof::prove. *)
Definition kg_phase2 (n : nat) (y_vec : list (pt C)) (shares : list F) (vss_vec : list (vss C)) (index : nat) (nonce : F)
  : res (shared_keys * dlog_proof C) :=
  let* _ := oassert (length y_vec =? n)%nat in
  let* _ := oassert (length shares =? n)%nat in
  let* _ := oassert (length vss_vec =? n)%nat in
  let* bad := first_bad (kg_check2 index) 0 (combine (combine y_vec shares) vss_vec) in
  match bad with
  | None =>
      match y_vec with
      | [] => Panic
      | h :: tl =>
          let y := fold_left padd tl h in
          let x_i := fold_left fadd shares f0 in
          Ok ({| sk_y := y; sk_x := x_i |}, dlog_prove Hf x_i nonce)
      end
  | Some i => Err {| me_kind := EInvalidVss; me_bad := [i] |}
  end.

(** The inner loop of get_commitments_to_xi, P:376-379: panics if [com] is longer than the accumulator. *)
Fixpoint add_coms {E} (acc com : list (pt C)) : outcome E (list (pt C)) :=
  match com, acc with
  | [], _ => Ok acc
  | _ :: _, [] => Panic
  | c :: com', a :: acc' => let* r := add_coms acc' com' in Ok (padd a c :: r)
  end.
Fixpoint add_all {E} (acc : list (pt C)) (l : list (vss C)) : outcome E (list (pt C)) :=
  match l with [] => Ok acc | v :: r => let* a := add_coms acc (vs_com v) in add_all a r end.

(** get_commitments_to_xi, P:369-388 *)
Definition kg_xi_commitments {E} (vss_vec : list (vss C)) : outcome E (list (pt C)) :=
  match vss_vec with
  | [] => Panic
  | h :: tl =>
      let* g := add_all (vs_com h) tl in
      omapM (point_commitment {| vs_t := vs_t h; vs_n := vs_n h; vs_com := g |}) (seq 1 (length vss_vec))
  end.

(** update_commitments_to_xi, P:390-403 *)
Definition kg_update_commitment {E} (comm : pt C) (v : vss C) (index : nat) (s : list nat) : outcome E (pt C) :=
  let* li := map_share (vs_n v) index s in Ok (smul li comm).

(** verify_dlog_proofs_check_against_vss, P:405-438 *)
Definition kg_verify_dlog (n : nat) (proofs : list (dlog_proof C)) (y_vec : list (pt C)) (vss_vec : list (vss C)) : res unit :=
  let* _ := oassert (length y_vec =? n)%nat in
  let* _ := oassert (length proofs =? n)%nat in
  let* xi := kg_xi_commitments vss_vec in
  let* bad := first_bad (fun i => let* p := nth_o proofs i in let ver := dlog_verify Hf p in
                                  let* K := nth_o xi i in Ok (ver && pt_eqb K (dp_pk p))) 0 (seq 0 n) in
  match bad with None => Ok tt | Some i => Err {| me_kind := EBadDlogProof; me_bad := [i] |} end.

(** PartyPrivate, P:72-77; set_private 442-448; refresh_private_key 459-478 (u and y only: the Paillier and
    N_tilde parts are fresh); update_private_key 513-523 *)
Record party_private := { pr_u : F; pr_x : F; pr_p1 : Z; pr_p2 : Z }.
Definition set_private (k : keys) (s : shared_keys) : party_private :=
  {| pr_u := ky_u k; pr_x := sk_x s; pr_p1 := ky_p1 k; pr_p2 := ky_p2 k |}.
Definition refresh_private_key (p : party_private) (factor : F) (index : nat) (p1 p2 : Z) (dl : dlstmt) : keys :=
  {| ky_u := (pr_u p + factor)%Fq; ky_p1 := p1; ky_p2 := p2; ky_i := index; ky_dl := dl |}.
Definition update_private_key (p : party_private) (fu fx : F) : party_private :=
  {| pr_u := (pr_u p + fu)%Fq; pr_x := (pr_x p + fx)%Fq; pr_p1 := pr_p1 p; pr_p2 := pr_p2 p |}.

(** ** The rounds of the state machine, R:20-329.  [party_i] counts from 1. *)
Record kg_rand := { kr_u : F; kr_p1 : Z; kr_p2 : Z; kr_dl : dlstmt; kr_blind : Z; kr_ck : Z; kr_cd1 : Z; kr_cd2 : Z;
                    kr_coefs : list F; kr_nonce : F }.
Record kg_round1 := { r1_keys : keys; r1_bc : kg_bc1; r1_dec : kg_dec1; r1_i : nat; r1_t : nat; r1_n : nat }.
Record kg_round2 := { r2_keys : keys; r2_comm : list kg_bc1; r2_dec : kg_dec1; r2_i : nat; r2_t : nat; r2_n : nat }.
Record kg_round3 := { r3_keys : keys; r3_y : list (pt C); r3_bc : list kg_bc1; r3_vss : vss C; r3_share : F;
                      r3_i : nat; r3_t : nat; r3_n : nat }.
Record kg_round4 := { r4_keys : keys; r4_y : list (pt C); r4_bc : list kg_bc1; r4_shared : shared_keys;
                      r4_proof : dlog_proof C; r4_vss : list (vss C); r4_i : nat; r4_t : nat; r4_n : nat }.
(** LocalKey, R:311-323 *)
Record local_key := { lk_p1 : Z; lk_p2 : Z; lk_pk : list (pt C); lk_shared : shared_keys; lk_N : list Z; lk_y : pt C;
                      lk_dl : list dlstmt; lk_vss : vss C; lk_i : nat; lk_t : nat; lk_n : nat }.

(** Round0::proceed, R:27-48 *)
Definition kg_r0 (party_i t n : nat) (r : kg_rand) : res (kg_round1 * kg_bc1) :=
  let k := {| ky_u := kr_u r; ky_p1 := kr_p1 r; ky_p2 := kr_p2 r; ky_i := party_i; ky_dl := kr_dl r |} in
  let '(b, d) := kg_phase1 k (kr_blind r) (kr_ck r) (kr_cd1 r) (kr_cd2 r) in
  Ok ({| r1_keys := k; r1_bc := b; r1_dec := d; r1_i := party_i; r1_t := t; r1_n := n |}, b).

(** Round1::proceed, R:64-85; [input] are the others' messages in order *)
Definition kg_r1 (s : kg_round1) (input : list kg_bc1) : res (kg_round2 * kg_dec1) :=
  Ok ({| r2_keys := r1_keys s; r2_comm := incl_me (r1_i s - 1) (r1_bc s) input; r2_dec := r1_dec s;
         r2_i := r1_i s; r2_t := r1_t s; r2_n := r1_n s |}, r1_dec s).

(** Round2::proceed, R:106-153; the P2P messages as (receiver, body) *)
Definition kg_r2 (s : kg_round2) (coefs : list F) (input : list kg_dec1)
  : res (kg_round3 * list (nat * (vss C * F))) :=
  let decs := incl_me (r2_i s - 1) (r2_dec s) input in
  let* v := kg_phase1_verify (r2_keys s) (r2_t s) (r2_n s) coefs decs (r2_comm s) in
  let '(vs, shares, _) := v in
  let out := map (fun '(i, sh) => (S i, (vs, sh)))
               (filter (fun '(i, _) => negb (S i =? r2_i s)%nat) (combine (seq 0 (length shares)) shares)) in
  let* own := nth_o shares (r2_i s - 1) in
  Ok ({| r3_keys := r2_keys s; r3_y := map kd_y decs; r3_bc := r2_comm s; r3_vss := vs; r3_share := own;
         r3_i := r2_i s; r3_t := r2_t s; r3_n := r2_n s |}, out).

(** Round3::proceed, R:178-224 *)
Definition kg_r3 (s : kg_round3) (nonce : F) (input : list (vss C * F)) : res (kg_round4 * dlog_proof C) :=
  let all := incl_me (r3_i s - 1) (r3_vss s, r3_share s) input in
  let* p := kg_phase2 (r3_n s) (r3_y s) (map snd all) (map fst all) (r3_i s) nonce in
  let '(sk, pf) := p in
  Ok ({| r4_keys := r3_keys s; r4_y := r3_y s; r4_bc := r3_bc s; r4_shared := sk; r4_proof := pf; r4_vss := map fst all;
         r4_i := r3_i s; r4_t := r3_t s; r4_n := r3_n s |}, pf).

(** Round4::proceed, R:250-300 *)
Definition kg_r4 (s : kg_round4) (input : list (dlog_proof C)) : res local_key :=
  let proofs := incl_me (r4_i s - 1) (r4_proof s) input in
  let* _ := kg_verify_dlog (r4_n s) proofs (r4_y s) (r4_vss s) in
  let* pks := omapM (fun i => let* p := nth_o proofs i in Ok (dp_pk p)) (seq 0 (r4_n s)) in
  let* Ns := omapM (fun i => let* b := nth_o (r4_bc s) i in Ok (kb_N b)) (seq 0 (r4_n s)) in
  match r4_y s with
  | [] => Panic
  | h :: tl =>
      let* v := nth_o (r4_vss s) (r4_i s - 1) in
      Ok {| lk_p1 := ky_p1 (r4_keys s); lk_p2 := ky_p2 (r4_keys s); lk_pk := pks; lk_shared := r4_shared s; lk_N := Ns;
            lk_y := fold_left padd tl h; lk_dl := map kb_dl (r4_bc s); lk_vss := v;
            lk_i := r4_i s; lk_t := r4_t s; lk_n := r4_n s |}
  end.
End Kg.

Arguments ky_u {_}. Arguments ky_p1 {_}. Arguments ky_p2 {_}. Arguments ky_i {_}. Arguments ky_dl {_}.
Arguments kd_blind {_}. Arguments kd_y {_}.
Arguments sk_y {_}. Arguments sk_x {_}.
Arguments pr_u {_}. Arguments pr_x {_}. Arguments pr_p1 {_}. Arguments pr_p2 {_}.
Arguments kr_u {_}. Arguments kr_p1 {_}. Arguments kr_p2 {_}. Arguments kr_dl {_}. Arguments kr_blind {_}.
Arguments kr_ck {_}. Arguments kr_cd1 {_}. Arguments kr_cd2 {_}. Arguments kr_coefs {_}. Arguments kr_nonce {_}.
Arguments r1_keys {_}. Arguments r1_bc {_}. Arguments r1_dec {_}. Arguments r1_i {_}. Arguments r1_t {_}. Arguments r1_n {_}.
Arguments r2_keys {_}. Arguments r2_comm {_}. Arguments r2_dec {_}. Arguments r2_i {_}. Arguments r2_t {_}. Arguments r2_n {_}.
Arguments r3_keys {_}. Arguments r3_y {_}. Arguments r3_bc {_}. Arguments r3_vss {_}. Arguments r3_share {_}.
Arguments r3_i {_}. Arguments r3_t {_}. Arguments r3_n {_}.
Arguments r4_keys {_}. Arguments r4_y {_}. Arguments r4_bc {_}. Arguments r4_shared {_}. Arguments r4_proof {_}.
Arguments r4_vss {_}. Arguments r4_i {_}. Arguments r4_t {_}. Arguments r4_n {_}.
Arguments lk_p1 {_}. Arguments lk_p2 {_}. Arguments lk_pk {_}. Arguments lk_shared {_}. Arguments lk_N {_}. Arguments lk_y {_}.
Arguments lk_dl {_}. Arguments lk_vss {_}. Arguments lk_i {_}. Arguments lk_t {_}. Arguments lk_n {_}.
Arguments kg_xi_commitments {_ _}. Arguments kg_update_commitment {_ _}. Arguments kg_r1 {_}. Arguments kg_phase1 {_}.
Arguments add_coms {_ _}. Arguments add_all {_ _}. Arguments set_private {_}. Arguments refresh_private_key {_}.
Arguments update_private_key {_}.

(** GG20 threshold signing: the offline rounds and the phase functions they call.
    P = src/protocols/multi_party_ecdsa/gg_2020/party_i.rs, R = .../gg_2020/state_machine/sign/rounds.rs.
    The last, message-dependent round is in Ecdsa.v ([gg20_local_sig], [gg20_output]).
    Random values are inputs; usize/u16 conversions (values below 2^16 here) are not modelled. *)
From Coq Require Import ZArith Lia Bool List.
From Verif Require Import ZArithX Fq Curve Outcome Sigma Bytes Vss Paillier RangeProofs PdlSlack Mta Mp Gg20Keygen.
Import ListNotations.
Local Open Scope Z_scope.

Section Sg.
Context (C : Curve).
Notation q := (cq C).
Notation F := (Fq q).
Notation res := (outcome mp_error).
(** Commitment hash, hash of the range and PDL proofs, hash of the sigma proofs. *)
Context (Hb : list Z -> Z) (Hz : hashZ C) (Hf : hashF C).

(** SignKeys, P:126-132 *)
Record sign_keys := { sg_w : F; sg_gw : pt C; sg_k : F; sg_gamma : F; sg_ggamma : pt C }.
(** SignDecommitPhase1, P:139-143 *)
Record sign_dec := { sd_blind : Z; sd_g : pt C }.

(** g_w_vec, P:527-544; [pk_vec[s[i]]] panics out of range. *)
Definition sg_gw_vec (pk : list (pt C)) (s : list nat) (v : vss C) : res (list (pt C)) :=
  omapM (fun i => let* li := map_share (vs_n v) i s in let* P := nth_o pk i in Ok (smul li P)) s.

(** SignKeys::create, P:546-571 *)
Definition sg_create (x : F) (v : vss C) (index : nat) (s : list nat) (gamma k : F) : res sign_keys :=
  let* li := map_share (vs_n v) index s in
  let w := (li * x)%Fq in
  Ok {| sg_w := w; sg_gw := smul w gen; sg_k := k; sg_gamma := gamma; sg_ggamma := smul gamma gen |}.

(** phase1_broadcast, P:573-589; the commitment is to gamma_i G, the opening reveals the stored point. *)
Definition sg_phase1 (k : sign_keys) (blind : Z) : Z * sign_dec :=
  (commit_pt Hb (smul (sg_gamma k) gen) blind, {| sd_blind := blind; sd_g := sg_ggamma k |}).

(** phase2_delta_i, P:591-604, and phase2_sigma_i, P:606-618 *)
Definition sg_delta (k : sign_keys) (alphas betas : list F) : res F :=
  let* _ := oassert (length alphas =? length betas)%nat in
  Ok (fold_left fadd (map (fun '(a, b) => (a + b)%Fq) (combine alphas betas)) (sg_k k * sg_gamma k)%Fq).
Definition sg_sigma (k : sign_keys) (mius nis : list F) : res F :=
  let* _ := oassert (length mius =? length nis)%nat in
  Ok (fold_left fadd (map (fun '(a, b) => (a + b)%Fq) (combine mius nis)) (sg_k k * sg_w k)%Fq).

(** phase3_compute_t_i, P:620-634; [l] and the proof nonces are sampled. *)
Definition sg_t (sigma l s1 s2 : F) : pt C * ped_proof C :=
  (padd (smul sigma gen) (smul l gen2), ped_prove Hf sigma l s1 s2).

(** phase3_reconstruct_delta, P:635-640 *)
Definition sg_delta_inv (deltas : list F) : res F := unwrap (finvert (fold_left fadd deltas f0)).

(** The test of phase4 for the j-th other party, P:652-660: [x] pairs the proof with the position [ind]. *)
Definition sg_check4 (decs : list sign_dec) (coms : list Z) (x : nat * dlog_proof C) : res bool :=
  let '(i, p) := x in
  let* d := nth_o decs i in
  if pt_eqb (dp_pk p) (sd_g d)
  then let* c := nth_o coms i in Ok (commit_pt Hb (sd_g d) (sd_blind d) =? c)
  else Ok false.

(** [all] over (0..len) pushing [ind] of the first failure: like [first_bad], with the positions attached. *)
Fixpoint first_bad_at {E A} (f : nat * A -> outcome E bool) (l : list (nat * A)) : outcome E (option nat) :=
  match l with
  | [] => Ok None
  | x :: r => let* b := f x in if b then first_bad_at f r else Ok (Some (fst x))
  end.
(** The others' positions with their entries: [ind] of j for j in 0..len. *)
Definition with_ind {A} (index : nat) (l : list A) : list (nat * A) := combine (map (ind index) (seq 0 (length l))) l.

(** phase4, P:642-687 *)
Definition sg_phase4 (delta_inv : F) (b_proofs : list (dlog_proof C)) (decs : list sign_dec) (coms : list Z) (index : nat) : res (pt C) :=
  let* bad := first_bad_at (sg_check4 decs coms) (with_ind index b_proofs) in
  match decs with
  | [] => Panic
  | h :: tl =>
      match bad with
      | None => Ok (smul delta_inv (fold_left (fun acc d => padd acc (sd_g d)) tl (sd_g h)))
      | Some i => Err {| me_kind := EBadGamma; me_bad := [i] |}
      end
  end.

(** The statement of phase5_proof_pdl, P:702-710, and phase5_verify_pdl, P:738-746 *)
Definition sg_pdl_stmt (R' R : pt C) (c N : Z) (dl : dlstmt) : pdls_stmt C :=
  {| ps_c := c; ps_N := N; ps_Q := R'; ps_G := R; ps_h1 := dl_h1 dl; ps_h2 := dl_h2 dl; ps_Nt := dl_N dl |}.

(** phase5_verify_pdl, P:719-766; [ver_res.is_err()] makes every verification error a [false]. *)
Definition sg_check5 (R' R : pt C) (c N : Z) (dls : list dlstmt) (s : list nat) (x : nat * pdls_proof C) : res bool :=
  let '(ind_, p) := x in
  let* si := nth_o s ind_ in
  let* dl := nth_o dls si in
  match pdls_verify Hz p (sg_pdl_stmt R' R c N dl) with Ok _ => Ok true | Err _ => Ok false | Panic => Panic end.
Definition sg_phase5_verify (ps : list (pdls_proof C)) (R' R : pt C) (c N : Z) (dls : list dlstmt) (s : list nat) (i : nat) : res unit :=
  let* _ := oassert (0 <? length s)%nat in   (* s.len() - 1 *)
  if negb (length ps =? length s - 1)%nat then Err {| me_kind := EBadPdl; me_bad := [i] |} else
  let* bad := first_bad_at (sg_check5 R' R c N dls s) (with_ind i ps) in
  match bad with None => Ok tt | Some _ => Err {| me_kind := EBadPdl; me_bad := [i] |} end.

(** phase5_check_R_dash_sum, P:768-776 *)
Definition sg_check_R (Rs : list (pt C)) : outcome error unit :=
  let sum := fold_left padd Rs gen in
  if pt_eqb (psub sum gen) gen then Ok tt else Err Phase5BadSum.

(** phase6_compute_S_i_and_proof_of_consistency, P:778-799 *)
Definition sg_heg_stmt (R T Si : pt C) : heg_stmt C := {| he_G := R; he_H := gen2; he_Y := gen; he_D := T; he_E := Si |}.
Definition sg_S (R T : pt C) (sigma l s1 s2 : F) : pt C * heg_proof C :=
  let Si := smul sigma R in (Si, heg_prove Hf sigma l s1 s2 (sg_heg_stmt R T Si)).

(** phase6_verify_proof, P:801-833: a loop over all proofs, every failure is recorded. *)
Fixpoint sg_bad6 (Ss Rs Ts : list (pt C)) (i : nat) (ps : list (heg_proof C)) : res (list nat) :=
  match ps with
  | [] => Ok []
  | p :: r =>
      let* R := nth_o Rs i in let* T := nth_o Ts i in let* Si := nth_o Ss i in
      let ok := heg_verify Hf p (sg_heg_stmt R T Si) in
      let* l := sg_bad6 Ss Rs Ts (i + 1) r in
      Ok (if ok then l else i :: l)
  end.
Definition sg_phase6_verify (Ss : list (pt C)) (ps : list (heg_proof C)) (Rs Ts : list (pt C)) : res unit :=
  let* bad := sg_bad6 Ss Rs Ts 0 ps in
  match bad with [] => Ok tt | _ => Err {| me_kind := EPhase6; me_bad := bad |} end.

(** phase6_check_S_i_sum, P:835-848 *)
Definition sg_check_S (y : pt C) (Ss : list (pt C)) : outcome error unit :=
  let sum := psub (fold_left padd Ss gen) gen in
  if pt_eqb sum y then Ok tt else Err Phase6Error.

(** ** The rounds, R:52-645.  [i] counts from 1; [sl] are the signers' key generation indices (from 1). *)
(** Values one MessageB::b samples: encryption randomness, beta_tag and the two proof nonces. *)
Record brand := { br_r : Z; br_bt : Z; br_t1 : F; br_t2 : F }.
(** Values one PDLwSlackProof::prove samples. *)
Record prand := { pr_alpha : Z; pr_beta : Z; pr_rho : Z; pr_gamma : Z }.
(** Everything one signer samples; per-statement, per-peer values are indexed by position. *)
Record sign_rand := { sr_gamma : F; sr_k : F; sr_blind : Z; sr_r : Z; sr_ar : nat -> arand; sr_bg : nat -> brand; sr_bw : nat -> brand;
                      sr_l : F; sr_p1 : F; sr_p2 : F; sr_pdl : nat -> prand; sr_h1 : F; sr_h2 : F }.

Record sg_round1 := { s1_i : nat; s1_sl : list nat; s1_lk : local_key C; s1_ma : msg_a; s1_mar : Z; s1_keys : sign_keys; s1_com : Z; s1_dec : sign_dec }.
Record sg_round2 := { s2_i : nat; s2_sl : list nat; s2_lk : local_key C; s2_ma : msg_a; s2_mar : Z; s2_keys : sign_keys;
                      s2_betas : list F; s2_nis : list F; s2_coms : list Z; s2_mas : list msg_a; s2_dec : sign_dec }.
Record sg_round3 := { s3_i : nat; s3_sl : list nat; s3_lk : local_key C; s3_ma : msg_a; s3_mar : Z; s3_keys : sign_keys;
                      s3_mbs : list (msg_b C); s3_coms : list Z; s3_mas : list msg_a; s3_delta : F; s3_t : pt C; s3_l : F; s3_sigma : F;
                      s3_tp : ped_proof C; s3_dec : sign_dec }.
Record sg_round4 := { s4_i : nat; s4_sl : list nat; s4_lk : local_key C; s4_ma : msg_a; s4_mar : Z; s4_keys : sign_keys;
                      s4_mbs : list (msg_b C); s4_coms : list Z; s4_mas : list msg_a; s4_t : pt C; s4_l : F; s4_sigma : F;
                      s4_dinv : F; s4_ts : list (pt C); s4_dec : sign_dec }.
Record sg_round5 := { s5_i : nat; s5_sl : list nat; s5_lk : local_key C; s5_keys : sign_keys; s5_ts : list (pt C); s5_mas : list msg_a;
                      s5_t : pt C; s5_l : F; s5_sigma : F; s5_R : pt C; s5_Rd : pt C; s5_pdl : list (pdls_proof C) }.
(** CompletedOfflineStage, R:647-655 *)
Record completed := { co_i : nat; co_lk : local_key C; co_keys : sign_keys; co_ts : list (pt C); co_R : pt C; co_sigma : F }.
Record sg_round6 := { s6_S : pt C; s6_heg : heg_proof C; s6_sl : list nat; s6_out : completed }.

(** [s_l.iter().map(|&i| usize::from(i) - 1)] *)
Definition l_s (sl : list nat) : list nat := map pred sl.

(** Round0::proceed, R:67-109 *)
Definition sg_r0 (i : nat) (sl : list nat) (lk : local_key C) (r : sign_rand) : res (sg_round1 * (msg_a * Z)) :=
  let* me := nth_o sl (i - 1) in
  let* keys := sg_create (sk_x (lk_shared lk)) (lk_vss lk) (me - 1) (l_s sl) (sr_gamma r) (sr_k r) in
  let '(com, dec) := sg_phase1 keys (sr_blind r) in
  let* N := nth_o (lk_N lk) (lk_i lk - 1) in
  let ma := mta_a Hz (sg_k keys) N (sr_r r) (combine (lk_dl lk) (map (sr_ar r) (seq 0 (length (lk_dl lk))))) in
  Ok ({| s1_i := i; s1_sl := sl; s1_lk := lk; s1_ma := ma; s1_mar := sr_r r; s1_keys := keys; s1_com := com; s1_dec := dec |}, (ma, com)).

(** One MessageB::b call of R:156-168 / R:170-182 *)
Definition sg_b (b : F) (N : Z) (ma : msg_a) (k : brand) (dls : list dlstmt) : res (msg_b C * F) :=
  omap_err (fun _ => {| me_kind := EMta; me_bad := [] |}) (mta_b Hz Hf b N ma (br_r k) (br_bt k) dls (br_t1 k) (br_t2 k)).

(** Round1::proceed, R:121-218; output: (receiver, (GammaI, WI)) *)
Definition sg_r1 (s : sg_round1) (r : sign_rand) (input : list (msg_a * Z)) : res (sg_round2 * list (nat * (msg_b C * msg_b C))) :=
  let all := incl_me (s1_i s - 1) (s1_ma s, s1_com s) input in
  let mas := map fst all in
  let m := length (s1_sl s) in
  let ls := l_s (s1_sl s) in
  let* _ := oassert (0 <? m)%nat in
  let* bs := omapM (fun j =>
      let id := ind (s1_i s - 1) j in
      let* k := nth_o ls id in
      let* N := nth_o (lk_N (s1_lk s)) k in
      let* ma := nth_o mas id in
      let* g := sg_b (sg_gamma (s1_keys s)) N ma (sr_bg r id) (lk_dl (s1_lk s)) in
      let* w := sg_b (sg_w (s1_keys s)) N ma (sr_bw r id) (lk_dl (s1_lk s)) in
      Ok (g, w)) (seq 0 (m - 1)) in
  let receivers := filter (fun j => negb (j =? s1_i s)%nat) (seq 1 m) in
  let out := combine receivers (map (fun '(g, w) => (fst g, fst w)) bs) in
  Ok ({| s2_i := s1_i s; s2_sl := s1_sl s; s2_lk := s1_lk s; s2_ma := s1_ma s; s2_mar := s1_mar s; s2_keys := s1_keys s;
         s2_betas := map (fun x => snd (fst x)) bs; s2_nis := map (fun x => snd (snd x)) bs;
         s2_coms := map snd all; s2_mas := mas; s2_dec := s1_dec s |}, out).

(** verify_proofs_get_alpha with the error mapped, R:258-265 and 267-274 *)
Definition sg_alpha (m : msg_b C) (lk : local_key C) (k : F) : res F :=
  omap_err (fun _ => {| me_kind := EMta; me_bad := [] |}) (omap fst (verify_get_alpha Hf m (lk_p1 lk) (lk_p2 lk) k)).

(** Round2::proceed, R:233-326 *)
Definition sg_r2 (s : sg_round2) (r : sign_rand) (input : list (msg_b C * msg_b C)) : res (sg_round3 * (F * pt C * ped_proof C)) :=
  let ls := l_s (s2_sl s) in
  let* gws := sg_gw_vec (lk_pk (s2_lk s)) ls (lk_vss (s2_lk s)) in
  let* am := omapM (fun j =>
      let id := ind (s2_i s - 1) j in
      let* mb := nth_o input j in
      let* alpha := sg_alpha (fst mb) (s2_lk s) (sg_k (s2_keys s)) in
      let* miu := sg_alpha (snd mb) (s2_lk s) (sg_k (s2_keys s)) in
      let* gw := nth_o gws id in
      let* _ := oassert (pt_eqb (dp_pk (mb_b (snd mb))) gw) in
      Ok (alpha, miu)) (seq 0 (length (s2_sl s) - 1)) in
  let* delta := sg_delta (s2_keys s) (map fst am) (s2_betas s) in
  let* sigma := sg_sigma (s2_keys s) (map snd am) (s2_nis s) in
  let '(t, tp) := sg_t sigma (sr_l r) (sr_p1 r) (sr_p2 r) in
  Ok ({| s3_i := s2_i s; s3_sl := s2_sl s; s3_lk := s2_lk s; s3_ma := s2_ma s; s3_mar := s2_mar s; s3_keys := s2_keys s;
         s3_mbs := map fst input; s3_coms := s2_coms s; s3_mas := s2_mas s; s3_delta := delta; s3_t := t; s3_l := sr_l r; s3_sigma := sigma;
         s3_tp := tp; s3_dec := s2_dec s |}, (delta, t, tp)).

(** Round3::proceed, R:346-411 *)
Definition sg_r3 (s : sg_round3) (input : list (F * pt C * ped_proof C)) : res (sg_round4 * sign_dec) :=
  let all := incl_me (s3_i s - 1) (s3_delta s, s3_t s, s3_tp s) input in
  let* _ := omapM (fun '(_, t, p) => oassert (pt_eqb t (pe_com p))) all in
  let* dinv := sg_delta_inv (map (fun x => fst (fst x)) all) in
  let* _ := omapM (fun x => if ped_verify Hf (snd x) then Ok tt else Err {| me_kind := EPedersen; me_bad := [] |})
                  (firstn (length (s3_sl s)) all) in
  Ok ({| s4_i := s3_i s; s4_sl := s3_sl s; s4_lk := s3_lk s; s4_ma := s3_ma s; s4_mar := s3_mar s; s4_keys := s3_keys s;
         s4_mbs := s3_mbs s; s4_coms := s3_coms s; s4_mas := s3_mas s; s4_t := s3_t s; s4_l := s3_l s; s4_sigma := s3_sigma s;
         s4_dinv := dinv; s4_ts := map (fun x => snd (fst x)) all; s4_dec := s3_dec s |}, s3_dec s).

(** phase5_proof_pdl, P:691-717; PDLwSlackProof::prove unwraps. *)
Definition sg_pdl (R' R : pt C) (c N : Z) (k : F) (kr : Z) (dl : dlstmt) (p : prand) : res (pdls_proof C) :=
  match pdls_prove Hz k kr (sg_pdl_stmt R' R c N dl) (pr_alpha p) (pr_beta p) (pr_rho p) (pr_gamma p) with
  | Ok x => Ok x | _ => Panic end.

(** Round4::proceed, R:430-507 *)
Definition sg_r4 (s : sg_round4) (r : sign_rand) (input : list sign_dec) : res (sg_round5 * (pt C * list (pdls_proof C))) :=
  let decs := incl_me (s4_i s - 1) (s4_dec s) input in
  let m := length (s4_sl s) in
  let ls := l_s (s4_sl s) in
  let* bps := omapM (fun j => let* mb := nth_o (s4_mbs s) j in Ok (mb_b mb)) (seq 0 (m - 1)) in
  let* R := sg_phase4 (s4_dinv s) bps decs (s4_coms s) (s4_i s - 1) in
  let R' := smul (sg_k (s4_keys s)) R in
  let* pdl := omapM (fun j =>
      let id := ind (s4_i s - 1) j in
      let* me := nth_o ls (s4_i s - 1) in
      let* N := nth_o (lk_N (s4_lk s)) me in
      let* k := nth_o ls id in
      let* dl := nth_o (lk_dl (s4_lk s)) k in
      sg_pdl R' R (ma_c (s4_ma s)) N (sg_k (s4_keys s)) (s4_mar s) dl (sr_pdl r id)) (seq 0 (m - 1)) in
  Ok ({| s5_i := s4_i s; s5_sl := s4_sl s; s5_lk := s4_lk s; s5_keys := s4_keys s; s5_ts := s4_ts s; s5_mas := s4_mas s;
         s5_t := s4_t s; s5_l := s4_l s; s5_sigma := s4_sigma s; s5_R := R; s5_Rd := R'; s5_pdl := pdl |}, (R', pdl)).

(** Round5::proceed, R:524-601 *)
Definition sg_r5 (s : sg_round5) (r : sign_rand) (input : list (pt C * list (pdls_proof C))) : res (sg_round6 * (pt C * heg_proof C)) :=
  let all := incl_me (s5_i s - 1) (s5_Rd s, s5_pdl s) input in
  let ls := l_s (s5_sl s) in
  let* _ := omapM (fun i =>
      let* x := nth_o all i in
      let* ma := nth_o (s5_mas s) i in
      let* k := nth_o ls i in
      let* N := nth_o (lk_N (s5_lk s)) k in
      sg_phase5_verify (snd x) (fst x) (s5_R s) (ma_c ma) N (lk_dl (s5_lk s)) ls i) (seq 0 (length (s5_sl s))) in
  let* _ := omap_err (fun _ => {| me_kind := ERDashSum; me_bad := [] |}) (sg_check_R (map fst all)) in
  let '(Si, p) := sg_S (s5_R s) (s5_t s) (s5_sigma s) (s5_l s) (sr_h1 r) (sr_h2 r) in
  Ok ({| s6_S := Si; s6_heg := p; s6_sl := s5_sl s;
         s6_out := {| co_i := s5_i s; co_lk := s5_lk s; co_keys := s5_keys s; co_ts := s5_ts s; co_R := s5_R s; co_sigma := s5_sigma s |} |},
      (Si, p)).

(** Round6::proceed, R:611-645 *)
Definition sg_r6 (s : sg_round6) (input : list (pt C * heg_proof C)) : res completed :=
  let o := s6_out s in
  let all := incl_me (co_i o - 1) (s6_S s, s6_heg s) input in
  let Rs := repeat (co_R o) (length (s6_sl s)) in
  let* _ := sg_phase6_verify (map fst all) (map snd all) Rs (co_ts o) in
  let* _ := omap_err (fun _ => {| me_kind := ESiSum; me_bad := [] |}) (sg_check_S (lk_y (co_lk o)) (map fst all)) in
  Ok o.
End Sg.

Arguments sg_w {_}. Arguments sg_gw {_}. Arguments sg_k {_}. Arguments sg_gamma {_}. Arguments sg_ggamma {_}.
Arguments sd_blind {_}. Arguments sd_g {_}.
Arguments br_r {_}. Arguments br_bt {_}. Arguments br_t1 {_}. Arguments br_t2 {_}.
Arguments sr_gamma {_}. Arguments sr_k {_}. Arguments sr_blind {_}. Arguments sr_r {_}. Arguments sr_ar {_}. Arguments sr_bg {_}.
Arguments sr_bw {_}. Arguments sr_l {_}. Arguments sr_p1 {_}. Arguments sr_p2 {_}. Arguments sr_pdl {_}. Arguments sr_h1 {_}. Arguments sr_h2 {_}.
Arguments s1_i {_}. Arguments s1_sl {_}. Arguments s1_lk {_}. Arguments s1_ma {_}. Arguments s1_mar {_}. Arguments s1_keys {_}. Arguments s1_com {_}. Arguments s1_dec {_}.
Arguments s2_i {_}. Arguments s2_sl {_}. Arguments s2_lk {_}. Arguments s2_ma {_}. Arguments s2_mar {_}. Arguments s2_keys {_}. Arguments s2_betas {_}.
Arguments s2_nis {_}. Arguments s2_coms {_}. Arguments s2_mas {_}. Arguments s2_dec {_}.
Arguments s3_i {_}. Arguments s3_sl {_}. Arguments s3_lk {_}. Arguments s3_ma {_}. Arguments s3_mar {_}. Arguments s3_keys {_}. Arguments s3_mbs {_}.
Arguments s3_coms {_}. Arguments s3_mas {_}. Arguments s3_delta {_}. Arguments s3_t {_}. Arguments s3_l {_}. Arguments s3_sigma {_}. Arguments s3_tp {_}. Arguments s3_dec {_}.
Arguments s4_i {_}. Arguments s4_sl {_}. Arguments s4_lk {_}. Arguments s4_ma {_}. Arguments s4_mar {_}. Arguments s4_keys {_}. Arguments s4_mbs {_}.
Arguments s4_coms {_}. Arguments s4_mas {_}. Arguments s4_t {_}. Arguments s4_l {_}. Arguments s4_sigma {_}. Arguments s4_dinv {_}. Arguments s4_ts {_}. Arguments s4_dec {_}.
Arguments s5_i {_}. Arguments s5_sl {_}. Arguments s5_lk {_}. Arguments s5_keys {_}. Arguments s5_ts {_}. Arguments s5_mas {_}. Arguments s5_t {_}.
Arguments s5_l {_}. Arguments s5_sigma {_}. Arguments s5_R {_}. Arguments s5_Rd {_}. Arguments s5_pdl {_}.
Arguments co_i {_}. Arguments co_lk {_}. Arguments co_keys {_}. Arguments co_ts {_}. Arguments co_R {_}. Arguments co_sigma {_}.
Arguments s6_S {_}. Arguments s6_heg {_}. Arguments s6_sl {_}. Arguments s6_out {_}.
Arguments sg_gw_vec {_}. Arguments sg_create {_}. Arguments sg_phase1 {_}. Arguments sg_delta {_}. Arguments sg_sigma {_}. Arguments sg_t {_}.
Arguments sg_delta_inv {_}. Arguments sg_check4 {_}. Arguments sg_phase4 {_}. Arguments sg_pdl_stmt {_}. Arguments sg_check5 {_}.
Arguments sg_phase5_verify {_}. Arguments sg_check_R {_}. Arguments sg_heg_stmt {_}. Arguments sg_S {_}. Arguments sg_bad6 {_}. Arguments sg_phase6_verify {_}.
Arguments sg_check_S {_}. Arguments sg_b {_}. Arguments sg_alpha {_}. Arguments sg_pdl {_}.
Arguments sg_r0 {_}. Arguments sg_r1 {_}. Arguments sg_r2 {_}. Arguments sg_r3 {_}. Arguments sg_r4 {_}. Arguments sg_r5 {_}. Arguments sg_r6 {_}.

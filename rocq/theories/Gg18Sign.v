(** GG18 threshold signing: src/protocols/multi_party_ecdsa/gg_2018/party_i.rs (P), and the order in which
    examples/gg18_sign_client.rs (E) calls it.  output_signature and verify are in Ecdsa.v. *)
From Coq Require Import ZArith Lia Bool List.
From Verif Require Import ZArithX Fq Curve Outcome Sigma Bytes Vss Paillier RangeProofs Mta Ecdsa Mp Gg20Keygen Gg18Keygen KeygenRun Gg20Sign.
Import ListNotations.
Local Open Scope Z_scope.

(** [(0..n).all(f)] with an [f] that may panic: stops at the first [false]. *)
Fixpoint all_o {E A} (f : A -> outcome E bool) (l : list A) : outcome E bool :=
  match l with [] => Ok true | x :: r => let* b := f x in if b then all_o f r else Ok false end.

Section Sg18.
Context (C : Curve).
Notation q := (cq C).
Notation F := (Fq q).
Notation res := (outcome error).
Context (Hb : list Z -> Z) (Hz : hashZ C) (Hf : hashF C).

(** SignKeys::create, P:385-406 *)
Definition g18_create (x : F) (v : vss C) (index : nat) (s : list nat) (gamma k : F) : res (sign_keys C) :=
  let* li := map_share (vs_n v) index s in
  let w := (li * x)%Fq in
  Ok {| sg_w := w; sg_gw := smul w gen; sg_k := k; sg_gamma := gamma; sg_ggamma := smul gamma gen |}.
(** Keys::update_commitments_to_xi, P:284-293 *)
Definition g18_update_xi (comm : pt C) (v : vss C) (index : nat) (s : list nat) : res (pt C) :=
  let* li := map_share (vs_n v) index s in Ok (smul li comm).
(** phase1_broadcast, P:408-424 *)
Definition g18_phase1 (k : sign_keys C) (blind : Z) : Z * sign_dec C :=
  (commit_pt Hb (smul (sg_gamma k) gen) blind, {| sd_blind := blind; sd_g := sg_ggamma k |}).
(** phase2_delta_i, P:426-434, and phase2_sigma_i, P:436-444: the two vectors are chained. *)
Definition g18_delta (k : sign_keys C) (alphas betas : list F) : res F :=
  let* _ := oassert (length alphas =? length betas)%nat in
  Ok (sg_k k * sg_gamma k + fold_left fadd (alphas ++ betas) f0)%Fq.
Definition g18_sigma (k : sign_keys C) (mius nis : list F) : res F :=
  let* _ := oassert (length mius =? length nis)%nat in
  Ok (sg_k k * sg_w k + fold_left fadd (mius ++ nis) f0)%Fq.
(** phase3_reconstruct_delta, P:446-452 *)
Definition g18_delta_inv (deltas : list F) : res F := unwrap (finvert (fold_left fadd deltas f0)).
(** phase4, P:454-484 *)
Definition g18_check4 (b_proofs : list (dlog_proof C)) (decs : list (sign_dec C)) (coms : list Z) (i : nat) : res bool :=
  let* p := nth_o b_proofs i in
  let* d := nth_o decs i in
  if pt_eqb (dp_pk p) (sd_g d)
  then let* c := nth_o coms i in Ok (commit_pt Hb (sd_g d) (sd_blind d) =? c)
  else Ok false.
Definition g18_phase4 (dinv : F) (b_proofs : list (dlog_proof C)) (decs : list (sign_dec C)) (coms : list Z) : res (pt C) :=
  let* ok := all_o (g18_check4 b_proofs decs coms) (seq 0 (length b_proofs)) in
  if ok then Ok (smul dinv (fold_left padd (map sd_g decs) pzero)) else Err InvalidKey.

(** LocalSignature, P:106-113 *)
Record local18 := { l18_l : F; l18_rho : F; l18_R : pt C; l18_s : F; l18_m : Z; l18_y : pt C }.
(** phase5_local_sig, P:487-511 *)
Definition g18_local (k : F) (m : Z) (R : pt C) (sigma : F) (y : pt C) (l rho : F) : res local18 :=
  let* x := unwrap (x_coord R) in
  let r := of_Z q (x mod q) in
  Ok {| l18_l := l; l18_rho := rho; l18_R := R; l18_s := (of_Z q m * k + r * sigma)%Fq; l18_m := m; l18_y := y |}.

(** Digest of a list of points ([chain_points ... result_bigint]). *)
Definition hash_pts (l : list (pt C)) : Z := Hb (concat (map pt_bytes_full l)).
(** Phase5ADecom1, P:126-131; Phase5DDecom2, P:134-138 *)
Record dec5a := { a5_v : pt C; a5_a : pt C; a5_b : pt C; a5_blind : Z }.
Record dec5d := { d5_u : pt C; d5_t : pt C; d5_blind : Z }.
Definition g18_heg_stmt (R V A B : pt C) : heg_stmt C := {| he_G := A; he_H := R; he_Y := gen; he_D := V; he_E := B |}.
(** phase5a_broadcast_5b_zkproof, P:513-559; s1, s2, t are the proof nonces. *)
Definition g18_5a (s : local18) (blind : Z) (s1 s2 t : F) : Z * dec5a * heg_proof C * dlog_proof C :=
  let A := smul (l18_rho s) gen in
  let B := smul (l18_l s * l18_rho s)%Fq gen in
  let V := padd (smul (l18_s s) (l18_R s)) (smul (l18_l s) gen) in
  (commit Hb (hash_pts [V; A; B]) blind, {| a5_v := V; a5_a := A; a5_b := B; a5_blind := blind |},
   heg_prove Hf (l18_l s) (l18_s s) s1 s2 (g18_heg_stmt (l18_R s) V A B), dlog_prove Hf (l18_rho s) t).

(** phase5c, P:561-636 *)
Definition g18_check5c (decs : list dec5a) (coms : list Z) (hegs : list (heg_proof C)) (rhos : list (dlog_proof C)) (R : pt C) (i : nat) : res bool :=
  let* d := nth_o decs i in
  let* c := nth_o coms i in
  if commit Hb (hash_pts [a5_v d; a5_a d; a5_b d]) (a5_blind d) =? c then
    let* h := nth_o hegs i in
    if heg_verify Hf h (g18_heg_stmt R (a5_v d) (a5_a d) (a5_b d)) then
      let* p := nth_o rhos i in Ok (dlog_verify Hf p)
    else Ok false
  else Ok false.
Definition g18_5c (s : local18) (decs : list dec5a) (coms : list Z) (hegs : list (heg_proof C)) (rhos : list (dlog_proof C)) (vi R : pt C) (blind : Z)
  : res (Z * dec5d) :=
  let* _ := oassert (length decs =? length coms)%nat in
  let* ok := all_o (g18_check5c decs coms hegs rhos R) (seq 0 (length coms)) in
  let v := padd vi (fold_left padd (map a5_v decs) pzero) in
  let a := fold_left padd (map a5_a decs) pzero in
  let* x := ok_or InvalidSig (x_coord (l18_R s)) in
  let yr := smul (of_Z q (x mod q)) (l18_y s) in
  let gm := smul (of_Z q (l18_m s)) gen in
  let v := psub (psub v gm) yr in
  let u := smul (l18_rho s) v in
  let t := smul (l18_l s) a in
  if ok then Ok (commit Hb (hash_pts [u; t]) blind, {| d5_u := u; d5_t := t; d5_blind := blind |}) else Err InvalidCom.

(** phase5d, P:638-673 *)
Definition g18_check5d (decs : list dec5d) (coms : list Z) (i : nat) : res bool :=
  let* d := nth_o decs i in
  let* c := nth_o coms i in
  Ok (commit Hb (hash_pts [d5_u d; d5_t d]) (d5_blind d) =? c).
Definition g18_5d (s : local18) (decs2 : list dec5d) (coms2 : list Z) (decs1 : list dec5a) : res F :=
  let* _ := oassert (length decs2 =? length decs1)%nat in
  let* _ := oassert (length decs2 =? length coms2)%nat in
  let* ok := all_o (g18_check5d decs2 coms2) (seq 0 (length coms2)) in
  let tb := padd gen (fold_left padd (map d5_t decs2 ++ map a5_b decs1) pzero) in
  let d := psub tb (fold_left padd (map d5_u decs2) pzero) in
  if ok then if pt_eqb gen d then Ok (l18_s s) else Err InvalidKey else Err InvalidCom.
(** output_signature of this LocalSignature (it does not use the r of the shared record). *)
Definition g18_output (s : local18) (s_vec : list F) : res (sig_recid C) :=
  gg18_output {| ls_r := f0; ls_R := l18_R s; ls_s := l18_s s; ls_m := l18_m s; ls_y := l18_y s |} s_vec.

(** ** The client, E:60-487.  [p] is party_num_int - 1; [sv] the signers' 0-based key generation indices; the client
    stops with a panic whenever a call returns an error. *)
Definition must {A} (o : res A) : res A := match o with Ok x => Ok x | _ => Panic end.
(** The stored key share, E:33-58 *)
Record party18 := { p18_p1 : Z; p18_p2 : Z; p18_x : F; p18_vss : list (vss C); p18_N : list Z; p18_y : pt C }.
(** Everything one signer samples. *)
Record rand18 := { r18_gamma : F; r18_k : F; r18_blind : Z; r18_r : Z; r18_bg : nat -> brand C; r18_bw : nat -> brand C;
                   r18_l : F; r18_rho : F; r18_b5a : Z; r18_h1 : F; r18_h2 : F; r18_t : F; r18_b5c : Z }.

(** Round 1, E:100-121 *)
Definition e18_r1 (p : nat) (sv : list nat) (k : party18) (r : rand18) : res (sign_keys C * sign_dec C * (Z * msg_a)) :=
  let* me := nth_o sv p in
  let* v := nth_o (p18_vss k) me in
  let* keys := g18_create (p18_x k) v me sv (r18_gamma r) (r18_k r) in
  let '(com, dec) := g18_phase1 keys (r18_blind r) in
  let ma := mta_a Hz (sg_k keys) (p18_p1 k * p18_p2 k) (r18_r r) [] in
  Ok (keys, dec, (com, ma)).
(** Round 2, E:132-196: answers to the others' first messages, [(receiver, (gamma, w))]. *)
Definition e18_r2 (p : nat) (sv : list nat) (k : party18) (r : rand18) (keys : sign_keys C) (mas : list msg_a)
  : res (list F * list F * list (nat * (msg_b C * msg_b C))) :=
  let* bs := omapM (fun '(i, ma) =>
      let* id := nth_o sv i in
      let* N := nth_o (p18_N k) id in
      let* g := must (mta_b Hz Hf (sg_gamma keys) N ma (br_r (r18_bg r i)) (br_bt (r18_bg r i)) [] (br_t1 (r18_bg r i)) (br_t2 (r18_bg r i))) in
      let* w := must (mta_b Hz Hf (sg_w keys) N ma (br_r (r18_bw r i)) (br_bt (r18_bw r i)) [] (br_t1 (r18_bw r i)) (br_t2 (r18_bw r i))) in
      Ok (g, w)) (combine (others p (length sv)) mas) in
  Ok (map (fun x => snd (fst x)) bs, map (fun x => snd (snd x)) bs,
      combine (map S (others p (length sv))) (map (fun '(g, w) => (fst g, fst w)) bs)).
(** Round 3, E:198-256: own delta and sigma from the answers received (in party order). *)
Definition e18_r3 (p : nat) (sv : list nat) (k : party18) (keys : sign_keys C) (betas nis : list F) (mbs : list (msg_b C * msg_b C)) : res (F * F) :=
  let* xi := kg18_xi_commitments (p18_vss k) in
  let* am := omapM (fun '(i, mb) =>
      let* alpha := must (omap fst (verify_get_alpha Hf (fst mb) (p18_p1 k) (p18_p2 k) (sg_k keys))) in
      let* miu := must (omap fst (verify_get_alpha Hf (snd mb) (p18_p1 k) (p18_p2 k) (sg_k keys))) in
      let* id := nth_o sv i in
      let* com := nth_o xi id in
      let* v := nth_o (p18_vss k) id in
      let* gw := g18_update_xi com v id sv in
      let* _ := oassert (pt_eqb (dp_pk (mb_b (snd mb))) gw) in
      Ok (alpha, miu)) (combine (others p (length sv)) mbs) in
  let* delta := g18_delta keys (map fst am) betas in
  let* sigma := g18_sigma keys (map snd am) nis in
  Ok (delta, sigma).
(** Rounds 4 and 5, E:257-329: R from the others' openings plus the own one, the local signature, phase 5a. *)
Definition e18_r5 (k : party18) (r : rand18) (keys : sign_keys C) (dec : sign_dec C) (sigma : F) (deltas : list F) (bps : list (dlog_proof C))
  (decs : list (sign_dec C)) (coms : list Z) (m : Z) : res (local18 * (Z * dec5a * heg_proof C * dlog_proof C)) :=
  let* dinv := g18_delta_inv deltas in
  let* R0 := must (g18_phase4 dinv bps decs coms) in
  let R := padd R0 (smul dinv (sd_g dec)) in
  let* s := g18_local (sg_k keys) m R sigma (p18_y k) (r18_l r) (r18_rho r) in
  Ok (s, g18_5a s (r18_b5a r) (r18_h1 r) (r18_h2 r) (r18_t r)).
(** Rounds 6 and 7, E:330-411; the vectors exclude the own values. *)
Definition e18_r7 (s : local18) (r : rand18) (own : dec5a) (decs : list dec5a) (coms : list Z) (hegs : list (heg_proof C)) (rhos : list (dlog_proof C))
  : res (Z * dec5d) :=
  must (g18_5c s decs coms hegs rhos (a5_v own) (l18_R s) (r18_b5c r)).
(** Rounds 8 and 9, E:412-487; the vectors include the own values, except the last. *)
Definition e18_r9 (s : local18) (decs2 : list dec5d) (coms2 : list Z) (decs1 : list dec5a) : res F := must (g18_5d s decs2 coms2 decs1).
Definition e18_out (s : local18) (s_vec : list F) : res (sig_recid C) := must (g18_output s s_vec).
End Sg18.

Arguments l18_l {_}. Arguments l18_rho {_}. Arguments l18_R {_}. Arguments l18_s {_}. Arguments l18_m {_}. Arguments l18_y {_}.
Arguments a5_v {_}. Arguments a5_a {_}. Arguments a5_b {_}. Arguments a5_blind {_}. Arguments d5_u {_}. Arguments d5_t {_}. Arguments d5_blind {_}.
Arguments p18_p1 {_}. Arguments p18_p2 {_}. Arguments p18_x {_}. Arguments p18_vss {_}. Arguments p18_N {_}. Arguments p18_y {_}.
Arguments r18_gamma {_}. Arguments r18_k {_}. Arguments r18_blind {_}. Arguments r18_r {_}. Arguments r18_bg {_}. Arguments r18_bw {_}. Arguments r18_l {_}.
Arguments r18_rho {_}. Arguments r18_b5a {_}. Arguments r18_h1 {_}. Arguments r18_h2 {_}. Arguments r18_t {_}. Arguments r18_b5c {_}.
Arguments g18_create {_}. Arguments g18_update_xi {_}. Arguments g18_phase1 {_}. Arguments g18_delta {_}. Arguments g18_sigma {_}. Arguments g18_delta_inv {_}.
Arguments g18_check4 {_}. Arguments g18_phase4 {_}. Arguments g18_local {_}. Arguments hash_pts {_}. Arguments g18_heg_stmt {_}. Arguments g18_5a {_}.
Arguments g18_check5c {_}. Arguments g18_5c {_}. Arguments g18_check5d {_}. Arguments g18_5d {_}. Arguments g18_output {_}. Arguments must {_}.
Arguments e18_r1 {_}. Arguments e18_r2 {_}. Arguments e18_r3 {_}. Arguments e18_r5 {_}. Arguments e18_r7 {_}. Arguments e18_r9 {_}. Arguments e18_out {_}.

(** All signers together, every message delivered. *)
Section Run18.
Context (C : Curve) (Hb : list Z -> Z) (Hz : hashZ C) (Hf : hashF C).

Definition e18_run (sv : list nat) (ks : nat -> party18 C) (rs : nat -> rand18 C) (msg : Z) : outcome error (list (sig_recid C)) :=
  let ps := seq 0 (length sv) in
  let* l1 := omapM (fun p => e18_r1 Hb Hz p sv (ks p) (rs p)) ps in
  let coms := map (fun x => fst (snd x)) l1 in
  let* l2 := omapM (fun p => let* x := nth_o l1 p in e18_r2 Hz Hf p sv (ks p) (rs p) (fst (fst x)) (but p (map (fun x => snd (snd x)) l1))) ps in
  let* l3 := omapM (fun p => let* x := nth_o l1 p in let* y := nth_o l2 p in
                             let* mbs := omapM (fun z => match find (fun a => (fst a =? S p)%nat) (snd z) with Some a => Ok (snd a) | None => Panic end) (but p l2) in
                             let* ds := e18_r3 Hf p sv (ks p) (fst (fst x)) (fst (fst y)) (snd (fst y)) mbs in
                             Ok (ds, map (fun a => mb_b (fst a)) mbs)) ps in
  let* l5 := omapM (fun p => let* x := nth_o l1 p in let* z := nth_o l3 p in
                             e18_r5 Hb Hf (ks p) (rs p) (fst (fst x)) (snd (fst x)) (snd (fst z)) (map (fun a => fst (fst a)) l3) (snd z)
                                    (but p (map (fun a => snd (fst a)) l1)) (but p coms) msg) ps in
  let m5 := map snd l5 in
  let decs := map (fun a => snd (fst (fst a))) m5 in
  let* l7 := omapM (fun p => let* x := nth_o l5 p in let* own := nth_o decs p in
                             e18_r7 Hb Hf (fst x) (rs p) own (but p decs) (but p (map (fun a => fst (fst (fst a))) m5))
                                    (but p (map (fun a => snd (fst a)) m5)) (but p (map snd m5))) ps in
  let* l9 := omapM (fun p => let* x := nth_o l5 p in e18_r9 Hb (fst x) (map snd l7) (map fst l7) decs) ps in
  omapM (fun p => let* x := nth_o l5 p in e18_out (fst x) (but p l9)) ps.
End Run18.

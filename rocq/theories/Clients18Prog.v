(** examples/gg18_keygen_client.rs (K) and examples/gg18_sign_client.rs (E) as client programs over the relay. *)
From Coq Require Import String ZArith Bool Lia List.
From Verif Require Import ZArithX Fq Curve Outcome Sigma Bytes Vss Paillier RangeProofs Mta Ecdsa Mp Gg20Keygen Gg18Keygen KeygenRun Gg20Sign Gg18Sign Manager18 Clients18.
Import ListNotations.
Local Open Scope Z_scope.

(** The loops [for i in 1..=n { if i == me { push(own) } else { push(ans[j]); j += 1 } }], K:104-124, 162-176, 199-209, 238-247,
    E:86-95, 126-143 and format_vec_from_reads (E:492-508).  Indexing past the end panics. *)
Fixpoint merge_from {E A} (me : N) (own : A) (is : list N) (ans : list A) : outcome E (list A) :=
  match is with
  | [] => Ok []
  | i :: r => if N.eqb i me then omap (cons own) (merge_from me own r ans)
              else match ans with [] => Panic | x :: ans' => omap (cons x) (merge_from me own r ans') end
  end.
Definition merge {E A} (me : N) (n : nat) (own : A) (ans : list A) : outcome E (list A) := merge_from me own (map N.of_nat (seq 1 n)) ans.
(** [Vec::remove] *)
Definition remove_at {E A} (i : nat) (l : list A) : outcome E (list A) := if (i <? length l)%nat then Ok (but i l) else Panic.

Section Prog.
Context (C : Curve).
Notation q := (cq C).
Notation F := (Fq q).
Context (Hb : list Z -> Z) (Hz : hashZ C) (Hf : hashF C) (ck : Z -> Z -> bool).

(** ** Key generation *)
(** AEAD (common.rs:23-27), aes_encrypt under a nonce (52-70) and aes_decrypt (73-81); None is a failed authentication. *)
Record aead := { ae_text : list Z; ae_tag : list Z }.
Context (aenc : list Z -> list Z -> list Z -> aead) (adec : list Z -> aead -> option (list Z)).
Context (j_bc : json bc18) (j_dec : json (kg_dec1 C)) (j_aead : json aead) (j_vss : json (vss C)) (j_dlog : json (dlog_proof C)).

(** The encryption key of a pair, K:112-118: the x-coordinate of y_j * u_i, left-padded to 32 bytes.  The subtraction panics
    when there are more. *)
Definition aes_key (u : F) (y : pt C) : outcome error (list Z) :=
  let* x := unwrap (x_coord (smul u y)) in
  let b := to_bytes x in
  if (length b <=? 32)%nat then Ok (repeat 0 (32 - length b) ++ b) else Panic.

(** The file written at the end, K:252-264 *)
Record file18 := { f18_keys : keys18 C; f18_shared : shared_keys C; f18_i : nat; f18_vss : list (vss C); f18_N : list Z; f18_y : pt C }.

(** K:47-264.  [me] is the number given at signup; [nonces j] the AES nonce for party j (0-based). *)
Definition keygen18_client (t n : nat) (me : nat) (u : string) (r : kg18_rand C) (nonces : nat -> list Z) : prog file18 :=
  let nme := N.of_nat me in
  let keys := {| k18_u := kr18_u r; k18_p1 := kr18_p1 r; k18_p2 := kr18_p2 r; k18_i := me |} in
  let '(bc, dec) := kg18_phase1 C Hb keys (kr18_blind r) (kr18_ck r) in
  exchange j_bc nme n "round1" u bc (fun a1 =>
  need (E := error) (merge nme n bc a1) (fun bc1 =>
  exchange j_dec nme n "round2" u dec (fun a2 =>
  need (E := error) (merge nme n dec a2) (fun decs =>
  need (omapM (fun d => aes_key (kr18_u r) (kd_y d)) a2) (fun eks =>
  let points := map kd_y decs in
  need (E := error) (unwrap (hd_error points)) (fun p0 =>
  let ysum := fold_left padd (tl points) p0 in
  need (kg18_phase1_verify C Hb ck keys t n (kr18_coefs r) decs bc1) (fun vsi =>
  let '(vs, shares, _) := vsi in
  need (E := error) (omapM (fun x => let* s := nth_o shares (snd x) in Ok (aenc (fst x) (nonces (snd x)) (to_bytes (to_Z s))))
                           (combine eks (others (me - 1) n))) (fun packs =>
  exchange_p2p j_aead nme n "round3" u packs (fun a3 =>
  need (E := error) (omapM (fun x => let* b := unwrap (adec (fst x) (snd x)) in Ok (of_Z q (from_bytes b))) (combine eks a3)) (fun got =>
  need (E := error) (let* own := nth_o shares (me - 1) in merge nme n own got) (fun pshares =>
  exchange j_vss nme n "round4" u vs (fun a4 =>
  need (E := error) (merge nme n vs a4) (fun vsss =>
  need (kg18_phase2 C Hf n points pshares vsss me (kr18_nonce r)) (fun skp =>
  exchange j_dlog nme n "round5" u (snd skp) (fun a5 =>
  need (E := error) (merge nme n (snd skp) a5) (fun proofs =>
  need (kg18_verify_dlog C Hf n proofs points) (fun _ =>
  Done {| f18_keys := keys; f18_shared := fst skp; f18_i := me; f18_vss := vsss; f18_N := map b18_N bc1; f18_y := ysum |}))))))))))))))))).

(** ** Signing *)
Context (j_id : json Z) (j_1 : json (Z * msg_a)) (j_mb : json (msg_b C * msg_b C)) (j_F : json F) (j_dg : json (sign_dec C)) (j_com : json Z)
  (j_5a : json (dec5a C * heg_proof C * dlog_proof C)) (j_5d : json (dec5d C)).

(** check_sig (common.rs:192-225) and secp256k1's verification of a compact signature, which accepts only low s
    (secp256k1_ecdsa_verify): the message must fit into 32 bytes and the key must not be the identity. *)
Definition lib_verify (r s : F) (m : Z) (y : pt C) : bool :=
  negb (to_Z r =? 0) && negb (to_Z s =? 0) && (to_Z s <=? q / 2) &&
  match finvert s with
  | Some w => match x_coord (padd (smul (of_Z q m * w)%Fq gen) (smul (r * w)%Fq y)) with Some x => x mod q =? to_Z r | None => false end
  | None => false
  end.
Definition check_sig (r s : F) (m : Z) (y : pt C) : outcome error unit :=
  let* _ := oassert (length (to_bytes m) <=? 32)%nat in
  let* _ := oassert (negb (pt_eqb y pzero)) in
  oassert (lib_verify r s m y).

(** E:60-487: [me] is the number given at signup, [m] is THRESHOLD + 1 from params.json, [id] the key generation number
    (party_id of the key file), [msg] the message as a number.  The first values are what the file "signature" holds. *)
Definition sign18_client (m me id : nat) (u : string) (k : party18 C) (r : rand18 C) (msg : Z) : prog (sig_recid C) :=
  let nme := N.of_nat me in
  let p := (me - 1)%nat in
  exchange j_id nme m "round0" u (Z.of_nat id) (fun a0 =>
  need (E := error) (merge nme m (Z.of_nat id) a0) (fun ids =>
  need (E := error) (omapM (fun z => if 1 <=? z then Ok (Z.to_nat (z - 1)) else Panic) ids) (fun sv =>
  need (let* i := nth_o sv p in let* v := nth_o (p18_vss k) i in g18_create (p18_x k) v i sv (r18_gamma r) (r18_k r)) (fun keys =>
  need (E := error) (kg18_xi_commitments (p18_vss k)) (fun xi =>
  let '(com, dec) := g18_phase1 Hb keys (r18_blind r) in
  let ma := mta_a Hz (sg_k keys) (p18_p1 k * p18_p2 k) (r18_r r) [] in
  exchange j_1 nme m "round1" u (com, ma) (fun a1 =>
  need (E := error) (merge nme m com (map fst a1)) (fun bc1 =>
  need (E := error) (oassert (length sv =? length bc1)%nat) (fun _ =>
  need (omapM (fun x =>
      let* i := nth_o sv (fst x) in
      let* N := nth_o (p18_N k) i in
      let* g := must (mta_b Hz Hf (sg_gamma keys) N (snd x) (br_r (r18_bg r (fst x))) (br_bt (r18_bg r (fst x))) [] (br_t1 (r18_bg r (fst x))) (br_t2 (r18_bg r (fst x)))) in
      let* w := must (mta_b Hz Hf (sg_w keys) N (snd x) (br_r (r18_bw r (fst x))) (br_bt (r18_bw r (fst x))) [] (br_t1 (r18_bw r (fst x))) (br_t2 (r18_bw r (fst x)))) in
      Ok (g, w)) (combine (others p m) (map snd a1))) (fun bs =>
  exchange_p2p j_mb nme m "round2" u (map (fun x => (fst (fst x), fst (snd x))) bs) (fun a2 =>
  need (omapM (fun x =>
      let* alpha := must (omap fst (verify_get_alpha Hf (fst (snd x)) (p18_p1 k) (p18_p2 k) (sg_k keys))) in
      let* miu := must (omap fst (verify_get_alpha Hf (snd (snd x)) (p18_p1 k) (p18_p2 k) (sg_k keys))) in
      let* i := nth_o sv (fst x) in
      let* com := nth_o xi i in
      let* v := nth_o (p18_vss k) i in
      let* gw := g18_update_xi com v i sv in
      let* _ := oassert (pt_eqb (dp_pk (mb_b (snd (snd x)))) gw) in
      Ok (alpha, miu)) (combine (others p m) a2)) (fun am =>
  need (g18_delta keys (map fst am) (map (fun x => snd (fst x)) bs)) (fun delta =>
  need (g18_sigma keys (map snd am) (map (fun x => snd (snd x)) bs)) (fun sigma =>
  exchange j_F nme m "round3" u delta (fun a3 =>
  need (E := error) (merge nme m delta a3) (fun deltas =>
  need (g18_delta_inv deltas) (fun dinv =>
  exchange j_dg nme m "round4" u dec (fun a4 =>
  need (E := error) (merge nme m dec a4) (fun decs =>
  need (E := error) (remove_at p decs) (fun decs' =>
  need (E := error) (remove_at p bc1) (fun bc1' =>
  need (g18_phase4 Hb dinv (map (fun a => mb_b (fst a)) a2) decs' bc1') (fun R0 =>
  let R := padd R0 (smul dinv (sd_g dec)) in
  need (g18_local (sg_k keys) msg R sigma (p18_y k) (r18_l r) (r18_rho r)) (fun s =>
  let '(com5, dec5, heg, rho) := g18_5a Hb Hf s (r18_b5a r) (r18_h1 r) (r18_h2 r) (r18_t r) in
  exchange j_com nme m "round5" u com5 (fun a5 =>
  need (E := error) (merge nme m com5 a5) (fun coms5 =>
  exchange j_5a nme m "round6" u (dec5, heg, rho) (fun a6 =>
  need (E := error) (merge nme m (dec5, heg, rho) a6) (fun all6 =>
  need (E := error) (remove_at p all6) (fun all6' =>
  need (E := error) (remove_at p coms5) (fun coms5' =>
  need (g18_5c Hb Hf s (map (fun x => fst (fst x)) all6') coms5' (map (fun x => snd (fst x)) all6') (map snd all6') (a5_v dec5) R (r18_b5c r)) (fun cd =>
  exchange j_com nme m "round7" u (fst cd) (fun a7 =>
  need (E := error) (merge nme m (fst cd) a7) (fun coms7 =>
  exchange j_5d nme m "round8" u (snd cd) (fun a8 =>
  need (E := error) (merge nme m (snd cd) a8) (fun decs8 =>
  need (g18_5d Hb s decs8 coms7 (map (fun x => fst (fst x)) all6)) (fun s_i =>
  exchange j_F nme m "round9" u s_i (fun a9 =>
  need (E := error) (merge nme m s_i a9) (fun ss =>
  need (E := error) (remove_at p ss) (fun ss' =>
  need (g18_output s ss') (fun sig =>
  need (check_sig (sg_r sig) (sg_s sig) msg (p18_y k)) (fun _ =>
  Done sig))))))))))))))))))))))))))))))))))))))).
(** E:45-55 and 98: what the client takes from its key file *)
Definition party_of (f : file18) : party18 C :=
  {| p18_p1 := k18_p1 (f18_keys f); p18_p2 := k18_p2 (f18_keys f); p18_x := sk_x (f18_shared f); p18_vss := f18_vss f; p18_N := f18_N f; p18_y := f18_y f |}.
Definition sign18_main (m me : nat) (u : string) (f : file18) (r : rand18 C) (msg : Z) : prog (sig_recid C) :=
  sign18_client m me (f18_i f) u (party_of f) r msg.
End Prog.
Arguments f18_keys {_}. Arguments f18_shared {_}. Arguments f18_i {_}. Arguments f18_vss {_}. Arguments f18_N {_}. Arguments f18_y {_}.

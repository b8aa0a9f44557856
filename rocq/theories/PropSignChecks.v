(** Properties C83 and C84: what the signing rounds have checked once they let a party proceed. *)
From Coq Require Import ZArith Lia Bool List.
From Verif Require Import ZArithX Fq Curve Outcome Sigma SigmaProofs Bytes Vss VssProofs Toy Paillier RangeProofs PdlSlack
  Mta MtaProofs Ecdsa Mp MpProofs Gg20Keygen Gg18Keygen KeygenRun Gg20Sign SignProofs SignRun SignRunProofs Gg18Sign Gg18SignProofs PropRange PropMta PropSign PropSign18.
Import ListNotations.
Local Open Scope Z_scope.

Lemma omapM_in {E A B} (f : A -> outcome E B) l l' x : omapM f l = Ok l' -> In x l -> exists y, f x = Ok y.
Proof.
  intros H Hx. apply omapM_ok in H. induction H as [|a b l l' Ha _ IH]; [contradiction|]. destruct Hx as [<-|Hx]; [eauto|auto].
Qed.
Lemma Forall2_nth {A B} (R : A -> B -> Prop) l l' : Forall2 R l l' -> forall i b, nth_error l' i = Some b -> exists a, nth_error l i = Some a /\ R a b.
Proof. induction 1 as [|a b l l' Ha _ IH]; intros [|i] b' Hi; try discriminate; cbn in *; [injection Hi as <-; eauto|auto]. Qed.
(** An MtA answer passes: both proofs verify and the decrypted value is the claimed combination in the exponent. *)
Definition answer_ok {C : Curve} (Hf : hashF C) (m : msg_b C) (p1 p2 : Z) (k : Fq (cq C)) : Prop :=
  dlog_verify Hf (mb_b m) = true /\ dlog_verify Hf (mb_bt m) = true /\
  smul (of_Z (cq C) (dec p1 p2 (mb_c m))) gen = padd (smul k (dp_pk (mb_b m))) (dp_pk (mb_bt m)).
Lemma get_alpha_answer {C} (Hf : hashF C) m p1 p2 k r : verify_get_alpha Hf m p1 p2 k = Ok r -> answer_ok Hf m p1 p2 k /\ fst r = of_Z (cq C) (dec p1 p2 (mb_c m)).
Proof. destruct r as [a sh]. intros H. apply verify_alpha_ok in H. destruct H as (-> & -> & H1 & H2 & H3). unfold answer_ok. auto. Qed.
Lemma sg_alpha_answer {C} (Hf : hashF C) m (lk : local_key C) k a : sg_alpha Hf m lk k = Ok a -> answer_ok Hf m (lk_p1 lk) (lk_p2 lk) k.
Proof.
  unfold sg_alpha. destruct (verify_get_alpha Hf m (lk_p1 lk) (lk_p2 lk) k) as [r|e|] eqn:E; cbn [omap omap_err]; intros H; try discriminate.
  exact (proj1 (get_alpha_answer Hf _ _ _ _ _ E)).
Qed.

(** * C83 *)
(** Round 1: of every other signer there is a message with as many range proofs as there are parties in key generation, each of which verifies for the
    sender's Paillier key, the ciphertext sent and the parameters of the party in its place; and conversely, with those the round succeeds. *)
Theorem C83_round1_checks_every_range_proof :
  forall (C : Curve) (Hz : hashZ C) (Hf : hashF C) (s : sg_round1 C) r input, (0 < length (s1_sl s))%nat ->
  ((exists out, sg_r1 Hz Hf s r input = Ok out) <->
   forall j, (j < length (s1_sl s) - 1)%nat ->
   exists ma k N, nth_error (map fst (incl_me (s1_i s - 1) (s1_ma s, s1_com s) input)) (ind (s1_i s - 1) j) = Some ma /\
     nth_error (map pred (s1_sl s)) (ind (s1_i s - 1) j) = Some k /\ nth_error (lk_N (s1_lk s)) k = Some N /\
     length (ma_proofs ma) = length (lk_dl (s1_lk s)) /\
     forall l p dl, nth_error (ma_proofs ma) l = Some p -> nth_error (lk_dl (s1_lk s)) l = Some dl -> alice_verify Hz p (ma_c ma) N dl = Ok true).
Proof.
  intros C Hz Hf s r input LN. unfold sg_r1. rewrite (proj2 (Nat.ltb_lt _ _) LN). cbn [oassert obind].
  assert (B : forall b N ma k dls, (exists x, sg_b Hz Hf b N ma k dls = Ok x) <-> (length (ma_proofs ma) = length dls /\ forall i p st, nth_error (ma_proofs ma) i = Some p -> nth_error dls i = Some st -> alice_verify Hz p (ma_c ma) N st = Ok true)).
  { intros b N ma k dls. rewrite <- (C32_bob_answers_iff_proofs_verify C Hz Hf b N ma (br_r k) (br_bt k) dls (br_t1 k) (br_t2 k)). unfold sg_b.
    destruct (mta_b Hz Hf b N ma (br_r k) (br_bt k) dls (br_t1 k) (br_t2 k)) as [[m be]|e|]; cbn [omap_err]; (split; [intros (x & H)|intros (x & y & H)]); try discriminate; eauto. }
  split.
  - intros [out H] j Hj. apply obind_ok in H. destruct H as (bs & HM & _). destruct (omapM_in _ _ _ j HM ltac:(apply in_seq; lia)) as ([g w] & Hy). cbv zeta in Hy.
    apply obind_ok in Hy. destruct Hy as (k & H1 & Hy). apply obind_ok in Hy. destruct Hy as (N & H2 & Hy). apply obind_ok in Hy. destruct Hy as (ma & H3 & Hy). apply obind_ok in Hy. destruct Hy as (g' & H4 & _).
    apply nth_o_ok in H1, H2, H3. exists ma, k, N. split; [exact H3|]. split; [exact H1|]. split; [exact H2|]. apply (B (sg_gamma (s1_keys s)) N ma (sr_bg r (ind (s1_i s - 1) j))). eauto.
  - intros H. match goal with |- context [omapM ?f ?l] => assert (T : exists bs, omapM f l = Ok bs) end.
    { assert (OT : forall (f : nat -> outcome mp_error ((msg_b C * Fq (cq C)) * (msg_b C * Fq (cq C)))) l, (forall x, In x l -> exists y, f x = Ok y) -> exists bs, omapM f l = Ok bs).
      { induction l as [|a l IH]; intros Q; [exists []; reflexivity|]. destruct (Q a) as [y Y]; [left; reflexivity|]. destruct IH as [bs BS]; [intros x X; apply Q; right; exact X|]. exists (y :: bs). cbn [omapM]. rewrite Y. cbn [obind]. rewrite BS. reflexivity. }
      apply OT. intros j J. apply in_seq in J. destruct (H j ltac:(lia)) as (ma & k & N & H1 & H2 & H3 & H4). unfold nth_o, l_s. rewrite H2. cbn [obind]. rewrite H3. cbn [obind]. rewrite H1. cbn [obind].
      destruct (proj2 (B (sg_gamma (s1_keys s)) N ma (sr_bg r (ind (s1_i s - 1) j)) _) H4) as [g ->]. cbn [obind].
      destruct (proj2 (B (sg_w (s1_keys s)) N ma (sr_bw r (ind (s1_i s - 1) j)) _) H4) as [w ->]. cbn [obind]. eauto. }
    destruct T as [bs ->]. cbn [obind]. eauto.
Qed.
Print Assumptions C83_round1_checks_every_range_proof.
(** Signers 3 and 1 on the toy curve: the round succeeds, and not with one of the three proofs changed or missing. *)
Example C83_example_round1 :
  match sg_r0 exHb2 exH 1 [3; 1]%nat (exlks 0) (exsrs 0), sg_r0 exHb2 exH 2 [3; 1]%nat (exlks 1) (exsrs 1) with
  | Ok (s0, _), Ok (_, (ma, com)) =>
      let swap := {| ma_c := ma_c ma; ma_proofs := match ma_proofs ma with [a; b; c] => [a; b; {| ap_z := ap_z c; ap_e := ap_e c + 1; ap_s := ap_s c; ap_s1 := ap_s1 c; ap_s2 := ap_s2 c |}] | l => l end |} in let less := {| ma_c := ma_c ma; ma_proofs := tl (ma_proofs ma) |} in
      let code m := match sg_r1 exH exHf2 s0 (exsrs 0) [(m, com)] with Ok _ => 1 | Err _ => 2 | Panic => 3 end in
      map code [ma; swap; less] = [1; 2; 2]
  | _, _ => False end.
Proof. vm_compute. reflexivity. Qed.

(** Round 2: every answer received passes, and the one for w is for the sender's public share times its Lagrange
    coefficient. *)
Theorem C83_round2_checks_every_answer :
  forall (C : Curve) (Hf : hashF C) (s : sg_round2 C) r input out, sg_r2 Hf s r input = Ok out ->
  forall j, (j < length (s2_sl s) - 1)%nat ->
  exists mb k li P, nth_error input j = Some mb /\ nth_error (map pred (s2_sl s)) (ind (s2_i s - 1) j) = Some k /\
    map_share (E := mp_error) (vs_n (lk_vss (s2_lk s))) k (map pred (s2_sl s)) = Ok li /\ nth_error (lk_pk (s2_lk s)) k = Some P /\
    dp_pk (mb_b (snd mb)) = smul li P /\
    answer_ok Hf (fst mb) (lk_p1 (s2_lk s)) (lk_p2 (s2_lk s)) (sg_k (s2_keys s)) /\
    answer_ok Hf (snd mb) (lk_p1 (s2_lk s)) (lk_p2 (s2_lk s)) (sg_k (s2_keys s)).
Proof.
  intros C Hf s r input out H j Hj. unfold sg_r2 in H. apply obind_ok in H. destruct H as (gws & HG & H). apply obind_ok in H. destruct H as (am & HM & _).
  destruct (omapM_in _ _ _ j HM ltac:(apply in_seq; lia)) as ([a u] & Hy). cbv zeta in Hy.
  apply obind_ok in Hy. destruct Hy as (mb & H1 & Hy). apply obind_ok in Hy. destruct Hy as (al & H2 & Hy). apply obind_ok in Hy. destruct Hy as (mi & H3 & Hy).
  apply obind_ok in Hy. destruct Hy as (gw & H4 & Hy). apply obind_ok in Hy. destruct Hy as (u' & H5 & _).
  apply oassert_ok, pt_eqb_eq in H5. apply nth_o_ok in H1, H4. apply sg_alpha_answer in H2, H3.
  unfold sg_gw_vec in HG. apply omapM_ok in HG. fold (l_s (s2_sl s)).
  assert (K : forall i, nth_error gws i = Some gw -> exists k, nth_error (l_s (s2_sl s)) i = Some k /\
     (let* li := map_share (E := mp_error) (vs_n (lk_vss (s2_lk s))) k (l_s (s2_sl s)) in let* P := nth_o (lk_pk (s2_lk s)) k in Ok (smul li P)) = Ok gw).
  { intros i Hi. exact (Forall2_nth _ _ _ HG i gw Hi). }
  destruct (K _ H4) as (k & Hk & HK). apply obind_ok in HK. destruct HK as (li & HL & HK). apply obind_ok in HK. destruct HK as (P & HP & HK).
  apply ok_inj in HK. apply nth_o_ok in HP. exists mb, k, li, P. rewrite H5, HK. auto 10.
Qed.
Print Assumptions C83_round2_checks_every_answer.
(** Round 3: every T is the commitment inside its Pedersen proof, every proof verifies, and the delta sum is not 0. *)
Theorem C83_round3_checks_every_proof :
  forall (C : Curve) (Hf : hashF C) (s : sg_round3 C) input out, sg_r3 Hf s input = Ok out -> S (length input) = length (s3_sl s) ->
  (forall d t p, In (d, t, p) input -> t = pe_com p /\ ped_verify Hf p = true) /\
  fadd (s3_delta s) (fsum (map (fun x => fst (fst x)) input)) <> f0 /\
  fmul (s4_dinv (fst out)) (fadd (s3_delta s) (fsum (map (fun x => fst (fst x)) input))) = f1.
Proof.
  intros C Hf s input out H HL. unfold sg_r3 in H. apply obind_ok in H. destruct H as (u1 & H1 & H). apply obind_ok in H. destruct H as (dinv & H2 & H).
  apply obind_ok in H. destruct H as (u3 & H3 & H). apply ok_inj in H.
  set (all := incl_me (s3_i s - 1) (s3_delta s, s3_t s, s3_tp s) input) in *.
  assert (LA : length all = length (s3_sl s)) by (unfold all; rewrite incl_me_length; exact HL).
  rewrite <- LA, firstn_all in H3. split.
  - intros d t p Hp. assert (Hin : In (d, t, p) all).
    { unfold all, incl_me. apply in_or_app. rewrite <- (firstn_skipn (s3_i s - 1) input) in Hp. apply in_app_or in Hp. destruct Hp; [left|right; right]; assumption. }
    destruct (omapM_in _ _ _ _ H1 Hin) as (v & Hv). cbn in Hv. apply oassert_ok, pt_eqb_eq in Hv.
    destruct (omapM_in _ _ _ _ H3 Hin) as (w & Hw). cbn [snd] in Hw. destruct (ped_verify Hf p); [auto|discriminate].
  - assert (ES : fold_left fadd (map (fun x => fst (fst x)) all) f0 = fadd (s3_delta s) (fsum (map (fun x => fst (fst x)) input))).
    { unfold all. rewrite incl_me_map. cbn [fst]. apply fold_incl. }
    unfold sg_delta_inv in H2. rewrite ES in H2. destruct (finvert _) as [z|] eqn:EF; [|discriminate]. cbn in H2. apply ok_inj in H2. subst out. cbn [fst s4_dinv].
    apply finvert_some in EF. destruct EF as [E1 E2]. subst dinv. split; [exact E1|]. rewrite E2. apply finv_l; [apply cq_prime|exact E1].
Qed.
Print Assumptions C83_round3_checks_every_proof.
(** Round 5: every sender supplied exactly one PDL proof per other signer, and all of them verify, against the sender's
    first-round ciphertext and key and the statement of the receiver. *)
Theorem C83_round5_checks_every_pdl :
  forall (C : Curve) (Hz : hashZ C) (Hf : hashF C) (s : sg_round5 C) r input out, sg_r5 Hz Hf s r input = Ok out ->
  forall i, (i < length (s5_sl s))%nat ->
  exists x ma k N, nth_error (incl_me (s5_i s - 1) (s5_Rd s, s5_pdl s) input) i = Some x /\ nth_error (s5_mas s) i = Some ma /\
    nth_error (map pred (s5_sl s)) i = Some k /\ nth_error (lk_N (s5_lk s)) k = Some N /\
    length (snd x) = (length (s5_sl s) - 1)%nat /\
    forall j p, nth_error (snd x) j = Some p -> exists si dl, nth_error (map pred (s5_sl s)) (ind i j) = Some si /\ nth_error (lk_dl (s5_lk s)) si = Some dl /\
      pdls_verify Hz p {| ps_c := ma_c ma; ps_N := N; ps_Q := fst x; ps_G := s5_R s; ps_h1 := dl_h1 dl; ps_h2 := dl_h2 dl; ps_Nt := dl_N dl |} = Ok tt.
Proof.
  intros C Hz Hf s r input out H i Hi. unfold sg_r5 in H. apply obind_ok in H. destruct H as (u & H & _).
  destruct (omapM_in _ _ _ i H ltac:(apply in_seq; lia)) as ([] & Hy).
  apply obind_ok in Hy. destruct Hy as (x & H1 & Hy). apply obind_ok in Hy. destruct Hy as (ma & H2 & Hy). apply obind_ok in Hy. destruct Hy as (k & H3 & Hy).
  apply obind_ok in Hy. destruct Hy as (N & H4 & Hy). apply nth_o_ok in H1, H2, H3, H4. apply phase5_verify_ok in Hy. destruct Hy as (_ & HL & HP).
  exists x, ma, k, N. unfold l_s in HL. rewrite map_length in HL. auto 10.
Qed.
Print Assumptions C83_round5_checks_every_pdl.
(** Round 6: every consistency proof verifies for the sender's S and T. *)
Theorem C83_round6_checks_every_proof :
  forall (C : Curve) (Hf : hashF C) (s : sg_round6 C) input c, sg_r6 Hf s input = Ok c ->
  forall i x, nth_error (incl_me (co_i (s6_out s) - 1) (s6_S s, s6_heg s) input) i = Some x ->
  exists T, nth_error (co_ts (s6_out s)) i = Some T /\ (i < length (s6_sl s))%nat /\
    heg_verify Hf (snd x) {| he_G := co_R (s6_out s); he_H := gen2; he_Y := gen; he_D := T; he_E := fst x |} = true.
Proof.
  intros C Hf s input c H i x Hx. unfold sg_r6 in H. apply obind_ok in H. destruct H as (u & H & _). unfold sg_phase6_verify in H.
  apply obind_ok in H. destruct H as (bad & HB & H). destruct bad; [|discriminate].
  match type of HB with sg_bad6 _ (map fst ?a) _ _ _ _ = _ => set (all := a) in * end.
  destruct (bad6_nil_inv C Hf _ _ _ _ _ HB i (snd x)) as (R & T & Si & H1 & H2 & H3 & H4); [rewrite nth_error_map; fold all in Hx; rewrite Hx; reflexivity|].
  cbn [plus] in *. rewrite nth_error_map in H3. fold all in Hx. rewrite Hx in H3. injection H3 as H3.
  assert (Li : (i < length (s6_sl s))%nat). { rewrite <- (repeat_length (co_R (s6_out s)) (length (s6_sl s))). apply nth_error_Some. congruence. }
  exists T. split; [exact H2|]. split; [exact Li|]. apply nth_error_In, repeat_spec in H1. subst R Si. exact H4.
Qed.
Print Assumptions C83_round6_checks_every_proof.
(** GG18 client, round 3. *)
Theorem C83_gg18_round3_checks_every_answer :
  forall (C : Curve) (Hf : hashF C) p sv (k : party18 C) keys betas nis mbs out, e18_r3 Hf p sv k keys betas nis mbs = Ok out ->
  forall j i mb, nth_error (others p (length sv)) j = Some i -> nth_error mbs j = Some mb ->
  exists id v li xi P, nth_error sv i = Some id /\ nth_error (p18_vss k) id = Some v /\
    map_share (E := error) (vs_n v) id sv = Ok li /\ kg18_xi_commitments (E := error) (p18_vss k) = Ok xi /\ nth_error xi id = Some P /\
    dp_pk (mb_b (snd mb)) = smul li P /\
    answer_ok Hf (fst mb) (p18_p1 k) (p18_p2 k) (sg_k keys) /\ answer_ok Hf (snd mb) (p18_p1 k) (p18_p2 k) (sg_k keys).
Proof.
  intros C Hf p sv k keys betas nis mbs out H j i mb Hi Hm. unfold e18_r3 in H. apply obind_ok in H. destruct H as (xi & HX & H).
  apply obind_ok in H. destruct H as (am & HM & _).
  assert (Hin : In (i, mb) (combine (others p (length sv)) mbs)) by (apply (nth_error_In _ j), nth_error_combine; auto).
  destruct (omapM_in _ _ _ _ HM Hin) as (y & Hy). cbn beta iota in Hy.
  apply obind_ok in Hy. destruct Hy as (al & H2 & Hy). apply obind_ok in Hy. destruct Hy as (mi & H3 & Hy). apply obind_ok in Hy. destruct Hy as (id & H4 & Hy).
  apply obind_ok in Hy. destruct Hy as (com & H5 & Hy). apply obind_ok in Hy. destruct Hy as (v & H6 & Hy). apply obind_ok in Hy. destruct Hy as (gw & H7 & Hy).
  apply obind_ok in Hy. destruct Hy as (u & H8 & _). apply oassert_ok, pt_eqb_eq in H8. apply nth_o_ok in H4, H5, H6.
  unfold g18_update_xi in H7. apply obind_ok in H7. destruct H7 as (li & HL & H7). apply ok_inj in H7.
  exists id, v, li, xi, com. rewrite H8, H7. repeat (split; [assumption || reflexivity|]).
  unfold must in H2, H3. destruct (verify_get_alpha Hf (fst mb) _ _ _) as [r|e|] eqn:E1; try discriminate. destruct (verify_get_alpha Hf (snd mb) _ _ _) as [r'|e|] eqn:E2; try discriminate.
  split; [exact (proj1 (get_alpha_answer Hf _ _ _ _ _ E1))|exact (proj1 (get_alpha_answer Hf _ _ _ _ _ E2))].
Qed.
Print Assumptions C83_gg18_round3_checks_every_answer.
(** The honest run of C33_example goes through rounds 2 to 6; replacing one Pedersen proof's response stops Round 3,
    and an MtA answer for the wrong share stops Round 2. *)
Example C83_example :
  match sg_pre toy exHb2 exH exHf2 [3; 1]%nat exlks exsrs with
  | Ok [(s0, m0); (s1, (d, t, p))] =>
      let bad := {| pe_a1 := pe_a1 p; pe_a2 := pe_a2 p; pe_com := pe_com p; pe_z1 := tz 0; pe_z2 := pe_z2 p |} in
      ((match sg_r3 exHf2 s0 [(d, t, p)] with Ok _ => 1 | _ => 0 end) = 1 /\ (match sg_r3 exHf2 s0 [(d, t, bad)] with Err e => length (me_bad e) | _ => 9%nat end) = 0%nat)
  | _ => False end.
Proof. vm_compute. split; reflexivity. Qed.

(** * C84 *)
(** phase5d of GG18 with vectors of equal length: Ok exactly when every (U, T) opens the sender's phase 5c commitment
    and sum T + sum B = sum U; a failed opening is reported as InvalidCom before the sums are looked at. *)
Theorem C84_phase5d_accepts_iff :
  forall (C : Curve) Hb (s : local18 C) decs2 coms2 decs1, length decs2 = length decs1 -> length decs2 = length coms2 ->
  let opens := forall i d, nth_error decs2 i = Some d -> nth_error coms2 i = Some (commit Hb (hash_pts Hb [d5_u d; d5_t d]) (d5_blind d)) in
  let sums := padd (psum (map d5_t decs2)) (psum (map a5_b decs1)) = psum (map d5_u decs2) in
  (g18_5d Hb s decs2 coms2 decs1 = Ok (l18_s s) <-> opens /\ sums) /\
  (g18_5d Hb s decs2 coms2 decs1 = Err InvalidCom <-> ~ opens) /\
  (g18_5d Hb s decs2 coms2 decs1 = Err InvalidKey <-> opens /\ ~ sums).
Proof.
  intros C Hb s decs2 coms2 decs1 L1 L2 opens sums.
  assert (EO : opens5d C Hb decs2 coms2 <-> opens).
  { unfold opens5d, opens. split; intros H i d Hd; specialize (H i d Hd).
    - exact H.
    - exact H. }
  destruct (g18_5d_spec C Hb s decs2 coms2 decs1 L1 L2) as [(A & B & ->)|[(A & B & ->)|(A & ->)]]; rewrite EO in A; fold sums in B || idtac.
  - split; [tauto|]. split; (split; [discriminate|tauto]).
  - split; [split; [discriminate|tauto]|]. split; [split; [discriminate|tauto]|tauto].
  - split; [split; [discriminate|tauto]|]. split; [tauto|split; [discriminate|tauto]].
Qed.
Print Assumptions C84_phase5d_accepts_iff.
Example C84_example :
  let G z : pt toy := tz z in
  let s : local18 toy := {| l18_l := tz 3; l18_rho := tz 1; l18_R := G 2; l18_s := tz 2; l18_m := 9; l18_y := G 5 |} in
  let d u t : dec5d toy := {| d5_u := G u; d5_t := G t; d5_blind := 8 |} in
  let c u t := commit exHb2 (hash_pts exHb2 [G u; G t]) 8 in
  let b z : dec5a toy := {| a5_v := G 1; a5_a := G 1; a5_b := G z; a5_blind := 3 |} in
  let run c1 := match g18_5d exHb2 s [d 7 3; d 6 4] [c1; c 6 4] [b 5; b 1] with Ok x => to_Z x | Err InvalidCom => -1 | Err InvalidKey => -2 | _ => -3 end in
  run (c 7 3) = 2 /\ run (c 7 4) = -1 /\
  (match g18_5d exHb2 s [d 7 3] [c 7 3] [b 5] with Err InvalidKey => 1 | _ => 0 end) = 1.
Proof. vm_compute. repeat split. Qed.

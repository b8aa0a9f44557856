(** Properties C44-C51 and C78: the MtA range proofs and PDL with slack.
    [H] is an arbitrary Fiat-Shamir hash.  [good_st st] says 1 < N-tilde and that h1, h2
    are units modulo N-tilde; [zpow b k n] is b^k mod n for an integer k. *)
From Coq Require Import ZArith Znumtheory Lia Bool List.
From Verif Require Import ZArithX Fq Curve Outcome Sigma Toy Bytes Paillier PaillierProofs ZPow
  RangeProofs RangeProofsProofs BobProofs Forge RangeExtra PdlSlack PdlSlackProofs.
Import ListNotations.
Local Open Scope Z_scope.

(** Concrete parameters for the examples: Paillier modulus 143 = 11 * 13, N-tilde = 77. *)
Definition exst : dlstmt := {| dl_N := 77; dl_h1 := 4; dl_h2 := 9 |}.
Definition exH : hashZ toy := fun l => Z.of_nat (length l) * 5.
Lemma exst_good : good_st exst.
Proof. unfold good_st; cbn. repeat split; reflexivity. Qed.
Lemma exH_nonneg l : 0 <= exH l.
Proof. unfold exH. lia. Qed.
Lemma key143 : good_key 11 13.
Proof. refine (conj _ (conj _ _)); [apply prime_check; [lia|vm_compute; reflexivity]..|lia]. Qed.

Definition res_code {E} (r : outcome E bool) : Z :=
  match r with Ok true => 1 | Ok false => 0 | Err _ => 2 | Panic => 3 end.

(** *** C44 *)
Theorem C44_alice_honest_verifies : forall (C : Curve) (H : hashZ C) a N st r alpha beta gamma ro,
  1 < N -> good_st st -> (forall l, 0 <= H l) ->
  0 <= a -> 0 <= alpha -> 0 <= beta -> 0 <= gamma -> 0 <= ro -> Z.gcd r N = 1 ->
  let p := alice_generate H a (enc N a r) N st r alpha beta gamma ro in
  ap_s1 p = ap_e p * a + alpha /\
  (ap_s1 p <= cq C ^ 3 -> alice_verify H p (enc N a r) N st = Ok true) /\
  (cq C ^ 3 < ap_s1 p -> alice_verify H p (enc N a r) N st = Ok false).
Proof.
  intros C H a N st r alpha beta gamma ro HN Hst HH Ha Hal Hbe Hga Hro Hr p.
  destruct (alice_complete C H a N st r alpha beta gamma ro HN Hst HH Ha Hal Hbe Hga Hro Hr) as [E1 E2].
  fold p in E1, E2. refine (conj E1 (conj _ _)); intros Hs; rewrite E2; f_equal.
  - apply Z.leb_le; assumption.
  - apply Z.leb_gt; assumption.
Qed.
Print Assumptions C44_alice_honest_verifies.

Theorem C44_alice_accepted_bound : forall (C : Curve) (H : hashZ C) p c N st,
  alice_verify H p c N st = Ok true -> ap_s1 p <= cq C ^ 3.
Proof.
  intros C H p c N st E. unfold alice_verify in E.
  destruct (Z.ltb_spec (cq C ^ 3) (ap_s1 p)); [discriminate|assumption].
Qed.
Print Assumptions C44_alice_accepted_bound.

(** An accepted proof's challenge is the hash of its own recomputed first message, so it
    also satisfies the verification equations. *)
Theorem C44_alice_accepted_equations : forall (C : Curve) (H : hashZ C) p c N st,
  1 < N -> good_st st -> (forall l, 0 <= H l) -> alice_verify H p c N st = Ok true ->
  exists u w, ap_e p = H [HInt N; HInt (N + 1); HInt c; HInt (ap_z p); HInt u; HInt w] /\
    eqm (dl_N st) (w * ap_z p ^ ap_e p) (zpow (dl_h1 st) (ap_s1 p) (dl_N st) * zpow (dl_h2 st) (ap_s2 p) (dl_N st)) /\
    eqm (N * N) (u * c ^ ap_e p) ((ap_s1 p * N + 1) * ap_s p ^ N).
Proof.
  intros C H p c N st HN Hst HH V.
  destruct (alice_accept C H p c N st HN Hst HH V) as [_ [_ [u [w [[_ [_ [A B]]] E]]]]].
  exists u, w. auto.
Qed.
Print Assumptions C44_alice_accepted_equations.

Example C44_example :
  res_code (alice_verify exH (alice_generate exH 6 (enc 143 6 5) 143 exst 5 1000 17 23 5) (enc 143 6 5) 143 exst) = 1 /\
  res_code (alice_verify exH (alice_generate exH 6 (enc 143 6 5) 143 exst 5 29791 17 23 5) (enc 143 6 5) 143 exst) = 0.
Proof. vm_compute. auto. Qed.

(** *** C45 *)
(** Full statement: the same without the hypothesis on [ap_s p].  It is false
    ([C45_alice_special_sound_refuted]), because a response s = 0 makes the Paillier
    equation read 0 = 0. *)
Theorem C45_alice_special_sound_partial : forall (C : Curve) p p' c N st (l : list (hitem C)),
  1 < N -> good_st st -> 0 <= ap_e p -> 0 <= ap_e p' -> ap_e p <> ap_e p' ->
  (forall H : hashZ C, alice_verify H p c N st = Ok (H l =? ap_e p)) ->
  (forall H : hashZ C, alice_verify H p' c N st = Ok (H l =? ap_e p')) ->
  let de := ap_e p - ap_e p' in let ds1 := ap_s1 p - ap_s1 p' in
  ap_z p = ap_z p' /\
  eqm (dl_N st) (zpow (ap_z p) de (dl_N st))
    (zpow (dl_h1 st) ds1 (dl_N st) * zpow (dl_h2 st) (ap_s2 p - ap_s2 p') (dl_N st)) /\
  (Z.gcd (ap_s p) N = 1 ->
   (exists ds, Z.gcd ds N = 1 /\ eqm (N * N) (zpow c de (N * N)) ((ds1 * N + 1) * ds ^ N)) /\
   (forall p1 p2 m, good_key p1 p2 -> N = p1 * p2 -> is_enc N c m -> (de * m) mod N = ds1 mod N)).
Proof.
  intros C p p' c N st l HN Hst He He' Hne Hl Hl' de ds1.
  destruct (alice_sound C p p' c N st l HN Hst He He' Hne Hl Hl') as [A [_ [B D]]].
  refine (conj A (conj B _)). intros Gs. destruct (D Gs) as [sg [S1 S2]].
  split; [exists sg; auto|]. intros p1 p2 m Hk -> Hm.
  eapply is_enc_fun with (c := zpow c de (p1 * p2 * (p1 * p2))); [assumption|apply is_enc_zpow; assumption|].
  exists sg. split; [assumption|]. rewrite (Z.add_comm 1). exact S2.
Qed.
Print Assumptions C45_alice_special_sound_partial.

Definition bad_alice (e : Z) : alice_proof := {| ap_z := 1; ap_e := e; ap_s := 0; ap_s1 := 7; ap_s2 := 0 |}.

Theorem C45_alice_special_sound_refuted :
  exists p p' c (l : list (hitem toy)), ap_e p = 1 /\ ap_e p' = 2 /\
  (forall H : hashZ toy, alice_verify H p c 143 exst = Ok (H l =? ap_e p)) /\
  (forall H : hashZ toy, alice_verify H p' c 143 exst = Ok (H l =? ap_e p')) /\
  ~ (exists ds, Z.gcd ds 143 = 1 /\
       eqm (143 * 143) (zpow c (ap_e p - ap_e p') (143 * 143)) (((ap_s1 p - ap_s1 p') * 143 + 1) * ds ^ 143)).
Proof.
  exists (bad_alice 1), (bad_alice 2), (enc 143 6 5),
    [HInt 143; HInt 144; HInt (enc 143 6 5); HInt 1; HInt 0; HInt 60].
  refine (conj eq_refl (conj eq_refl (conj _ (conj _ _)))).
  - intros H. vm_compute. reflexivity.
  - intros H. vm_compute. reflexivity.
  - intros [ds [G E]].
    assert (E1 : is_enc (11 * 13) (enc 143 6 5) 6) by (apply enc_is_enc; [lia|reflexivity]).
    apply (is_enc_zpow _ _ _ (-1)) in E1; [|lia].
    assert (K := is_enc_fun 11 13 _ (-1 * 6) 0 key143 E1).
    assert (K1 : is_enc (11 * 13) (zpow (enc 143 6 5) (-1) (11 * 13 * (11 * 13))) 0).
    { exists ds. split; [exact G|]. cbn [bad_alice ap_s1 ap_e] in E.
      replace (1 + 0 * (11 * 13)) with ((7 - 7) * 143 + 1) by reflexivity. exact E. }
    specialize (K K1). vm_compute in K. discriminate.
Qed.
Print Assumptions C45_alice_special_sound_refuted.

(** The same on every curve, for every key, ciphertext and two challenges: the two accepted
    answers name no plaintext, because any plaintext would fit. *)
Theorem C45_alice_answers_bind_nothing : forall (C : Curve) p1 p2 st c m e e' s1,
  good_key p1 p2 -> good_st st -> is_enc (p1 * p2) c m -> 0 <= e -> 0 <= e' -> s1 <= cq C ^ 3 ->
  exists p p' (l : list (hitem C)), ap_e p = e /\ ap_e p' = e' /\ ap_s1 p = s1 /\ ap_s1 p' = s1 /\
    (forall H : hashZ C, alice_verify H p c (p1 * p2) st = Ok (H l =? e)) /\
    (forall H : hashZ C, alice_verify H p' c (p1 * p2) st = Ok (H l =? e')) /\
    ((exists ds, Z.gcd ds (p1 * p2) = 1 /\
        eqm (p1 * p2 * (p1 * p2)) (zpow c (e - e') (p1 * p2 * (p1 * p2))) ((0 * (p1 * p2) + 1) * ds ^ (p1 * p2))) <->
     ((e - e') * m) mod (p1 * p2) = 0).
Proof.
  intros C p1 p2 st c m e e' s1 Hk Hst Hc He He' Hs.
  pose proof (good_key_gt1 _ _ Hk) as HN. pose proof (is_enc_gcd _ _ _ HN Hc) as Gc.
  exists (alice_answer s1 e), (alice_answer s1 e'). eexists.
  refine (conj eq_refl (conj eq_refl (conj eq_refl (conj eq_refl (conj _ (conj _ _)))))).
  - intros H. apply alice_answer_ok; assumption.
  - intros H. apply alice_answer_ok; assumption.
  - pose proof (is_enc_zpow _ _ _ (e - e') HN Hc) as Z1. split.
    + intros [ds [G E]].
      assert (K1 : is_enc (p1 * p2) (zpow c (e - e') (p1 * p2 * (p1 * p2))) 0).
      { exists ds. split; [exact G|]. rewrite (Z.add_comm 1). exact E. }
      pose proof (is_enc_fun p1 p2 _ _ _ Hk Z1 K1) as K. rewrite K. apply Z.mod_0_l. lia.
    + intros E. apply is_enc_mod in Z1; [|exact HN]. rewrite E in Z1. destruct Z1 as [ds [G E1]].
      exists ds. split; [exact G|]. rewrite (Z.add_comm (0 * _)). exact E1.
Qed.
Print Assumptions C45_alice_answers_bind_nothing.

Example C45_bind_nothing_example :
  let c := enc 143 6 5 in good_key 11 13 /\ good_st exst /\ is_enc (11 * 13) c 6 /\
  ((1 - 2) * 6) mod (11 * 13) <> 0.
Proof.
  refine (conj key143 (conj exst_good (conj _ _))); [apply enc_is_enc; [lia|reflexivity]|vm_compute; discriminate].
Qed.

(** Two answers of an honest prover to the same first message meet the hypotheses of
    [C45_alice_special_sound_partial], with s coprime to N. *)
Definition ans_alice (e : Z) : alice_proof :=
  alice_generate (C := toy) (fun _ => e) 6 (enc 143 6 5) 143 exst 5 1000 17 23 5.
Example C45_example :
  let l := [HInt 143; HInt 144; HInt (enc 143 6 5); HInt (ap_z (ans_alice 1)); 
            HInt (Z.rem ((1000 * 143 + 1) * powm 17 143 (143 * 143)) (143 * 143));
            HInt (Z.rem (powm 4 1000 77 * powm 9 23 77) 77)] : list (hitem toy) in
  (forall H : hashZ toy, alice_verify H (ans_alice 3) (enc 143 6 5) 143 exst = Ok (H l =? 3)) /\
  (forall H : hashZ toy, alice_verify H (ans_alice 8) (enc 143 6 5) 143 exst = Ok (H l =? 8)) /\
  Z.gcd (ap_s (ans_alice 3)) 143 = 1.
Proof. refine (conj _ (conj _ _)); [intros H; vm_compute; reflexivity..|reflexivity]. Qed.

(** *** C46 *)
(** C46 (0 <= s1 for every accepted proof) is false: a proof with any negative response is
    accepted for every unit ciphertext. *)
Theorem C46_alice_negative_response_refuted : forall (C : Curve) (H : hashZ C) c N st s1,
  1 < N -> good_st st -> (forall l, 0 <= H l) -> Z.gcd c (N * N) = 1 -> s1 < 0 ->
  exists p, alice_verify H p c N st = Ok true /\ ap_s1 p = s1.
Proof.
  intros C H c N st s1 HN Hst HH Gc Hs. exists (alice_forged C H c N st s1). split; [|reflexivity].
  apply alice_forged_ok; try assumption. pose proof (q3_pos C). lia.
Qed.
Print Assumptions C46_alice_negative_response_refuted.

Example C46_example : res_code (alice_verify exH (alice_forged toy exH 100 143 exst (-5)) 100 143 exst) = 1.
Proof. vm_compute. reflexivity. Qed.

(** *** C47 *)
Theorem C47_bob_honest_verifies : forall (C : Curve) (H : hashZ C) a (b : Fq (cq C)) beta_prim N st r k,
  1 < N -> good_st st -> (forall l, 0 <= H l) -> Z.gcd a (N * N) = 1 -> Z.gcd r N = 1 ->
  0 <= beta_prim -> rand_ok k ->
  let m := padd_c N (pmul_c N a (to_Z b)) (enc N beta_prim r) in
  exists p, bob_generate H a m b beta_prim N st r false k = Ok (p, None) /\
    bp_s1 p = bp_e p * to_Z b + br_alpha k /\
    bob_verify H p a m N st None = Ok (bp_s1 p <=? cq C ^ 3).
Proof.
  intros C H a b bp N st r k HN Hst HH GA Hr Hbp Hk m.
  destruct (bob_generate_ok C H a m b bp N st r false k (or_introl eq_refl)) as [p [u E]].
  destruct (bob_complete C H a b bp N st r false k p u HN Hst HH GA Hr Hbp Hk E) as [E1 [_ [E2 E3]]].
  subst u. exists p. auto.
Qed.
Print Assumptions C47_bob_honest_verifies.

Theorem C47_bobext_honest_verifies : forall (C : Curve) (H : hashZ C) a (b : Fq (cq C)) beta_prim N st r k,
  1 < N -> good_st st -> (forall l, 0 <= H l) -> Z.gcd a (N * N) = 1 -> Z.gcd r N = 1 ->
  0 <= beta_prim -> rand_ok k -> b <> f0 -> of_Z (cq C) (br_alpha k) <> f0 ->
  let m := padd_c N (pmul_c N a (to_Z b)) (enc N beta_prim r) in
  exists p u, bob_generate H a m b beta_prim N st r true k = Ok (p, Some u) /\
    bp_s1 p = bp_e p * to_Z b + br_alpha k /\
    bobext_verify H p u a m N st (smul b gen) = Ok (bp_s1 p <=? cq C ^ 3).
Proof.
  intros C H a b bp N st r k HN Hst HH GA Hr Hbp Hk Hb Ha m.
  destruct (bob_generate_ok C H a m b bp N st r true k (or_intror (conj Hb Ha))) as [p [u E]].
  destruct (bob_complete C H a b bp N st r true k p u HN Hst HH GA Hr Hbp Hk E) as [E1 [_ [E2 E3]]].
  subst u. exists p. eexists. split; [exact E|]. split; [assumption|].
  apply (bobext_complete C H a b bp N st r k p _ HN Hst HH GA Hr Hbp Hk E).
Qed.
Print Assumptions C47_bobext_honest_verifies.

Definition exk : bob_rand := {| br_alpha := 1000; br_beta := 7; br_gamma := 99; br_ro := 3;
  br_ro_prim := 4; br_sigma := 5; br_tau := 6 |}.
Example C47_example : rand_ok exk /\
  res_code (let a := enc 143 6 5 in let m := padd_c 143 (pmul_c 143 a 4) (enc 143 9 3) in
   match bob_generate exH a m (tz 4) 9 143 exst 3 true exk with
   | Ok (p, Some u) => bobext_verify exH p u a m 143 exst (smul (tz 4) gen)
   | _ => Panic end) = 1.
Proof. split; [unfold rand_ok, exk; cbn; lia|vm_compute; reflexivity]. Qed.

(** *** C48 *)
Theorem C48_bobext_binds_point : forall (C : Curve) p p' (u u' : pt C) a m N st (X : pt C) l,
  1 < N -> good_st st -> Z.gcd a (N * N) = 1 -> 0 <= bp_e p -> 0 <= bp_e p' ->
  of_Z (cq C) (bp_e p) <> of_Z (cq C) (bp_e p') ->
  (forall H, bobext_verify H p u a m N st X = Ok (H l =? bp_e p)) ->
  (forall H, bobext_verify H p' u' a m N st X = Ok (H l =? bp_e p')) ->
  let de := bp_e p - bp_e p' in
  X = smul (of_Z (cq C) (bp_s1 p - bp_s1 p') * finv (of_Z (cq C) de))%Fq gen /\
  bp_z p = bp_z p' /\ bp_t p = bp_t p' /\
  eqm (dl_N st) (zpow (bp_z p) de (dl_N st))
    (zpow (dl_h1 st) (bp_s1 p - bp_s1 p') (dl_N st) * zpow (dl_h2 st) (bp_s2 p - bp_s2 p') (dl_N st)) /\
  eqm (dl_N st) (zpow (bp_t p) de (dl_N st))
    (zpow (dl_h1 st) (bp_t1 p - bp_t1 p') (dl_N st) * zpow (dl_h2 st) (bp_t2 p - bp_t2 p') (dl_N st)) /\
  (Z.gcd (bp_s p) N = 1 -> exists ds, Z.gcd ds N = 1 /\
    eqm (N * N) (zpow m de (N * N))
        (zpow a (bp_s1 p - bp_s1 p') (N * N) * (((bp_t1 p - bp_t1 p') * N + 1) * ds ^ N))).
Proof.
  intros C p p' u u' a m N st X l HN Hst GA He He' Hne Hl Hl' de.
  destruct (bobext_points C p u a m N st X l HN Hst GA He Hl) as [Hu HX].
  destruct (bobext_points C p' u' a m N st X l HN Hst GA He' Hl') as [Hu' _].
  assert (Hne' : bp_e p <> bp_e p') by congruence.
  destruct (bobext_sound C p p' u u' a m N st X l HN Hst GA He He' Hne' Hu Hu' HX Hl Hl') as [[R1 [R2 [_ [_ [R3 [R4 R5]]]]]] E].
  refine (conj _ (conj R1 (conj R2 (conj R3 (conj R4 R5))))).
  apply scal_div; [exact E|]. apply of_Z_sub_nz. assumption.
Qed.
Print Assumptions C48_bobext_binds_point.

(** Two honest answers to one first message. *)
Definition bob_ans (e s s1 s2 t1 t2 : Z) : bob_proof :=
  {| bp_t := 25; bp_z := 53; bp_e := e; bp_s := s; bp_s1 := s1; bp_s2 := s2; bp_t1 := t1; bp_t2 := t2 |}.
Example C48_example :
  let a := enc 143 6 5 in let m := padd_c 143 (pmul_c 143 a 4) (enc 143 9 3) in
  let l := map HInt [143; 144; a; m; 53; 71; 25; 13158; 71; 21; 18; 32; 40] : list (hitem toy) in
  forall H : hashZ toy,
  res_code (bobext_verify H (bob_ans 3 46 1012 13 126 21) (smul (tz 1000) gen) a m 143 exst (smul (tz 4) gen))
    = (if H l =? 3 then 1 else 0) /\
  res_code (bobext_verify H (bob_ans 8 24 1032 28 171 46) (smul (tz 1000) gen) a m 143 exst (smul (tz 4) gen))
    = (if H l =? 8 then 1 else 0).
Proof.
  intros a m l H. split; vm_compute; match goal with |- context [H ?l] => generalize (H l) end; clear;
  intros [|x|x]; try reflexivity; repeat (destruct x as [x|x|]; try reflexivity).
Qed.

(** *** C49 *)
(** C49 is false: a proof with e = -1 and z = 0 crashes AliceProof::verify, whatever the
    other values are (GMP's power function aborts). *)
Theorem C49_alice_verify_panics_refuted : forall (C : Curve) (H : hashZ C) c N st,
  1 < dl_N st -> exists p, alice_verify H p c N st = Panic.
Proof.
  intros C H c N st HNt. exists {| ap_z := 0; ap_e := -1; ap_s := 0; ap_s1 := 0; ap_s2 := 0 |}.
  unfold alice_verify. cbn [ap_s1 ap_z ap_e].
  replace (cq C ^ 3 <? 0) with false by (symmetry; apply Z.ltb_ge; apply q3_pos).
  rewrite (proj2 (mod_pow_none 0 (-1) (dl_N st) HNt)); [reflexivity|].
  split; [reflexivity|]. rewrite Z.gcd_0_l. lia.
Qed.
Print Assumptions C49_alice_verify_panics_refuted.

(** The exact condition. *)
Theorem C49_alice_verify_panics_iff : forall (C : Curve) (H : hashZ C) p c N st, 1 < N -> good_st st ->
  (alice_verify H p c N st = Panic <->
   ap_s1 p <= cq C ^ 3 /\ ap_e p < 0 /\ (Z.gcd (ap_z p) (dl_N st) <> 1 \/ Z.gcd c (N * N) <> 1)).
Proof. exact alice_panic_iff. Qed.
Print Assumptions C49_alice_verify_panics_iff.

Theorem C49_bobext_verify_panics_refuted : forall (C : Curve) (H : hashZ C) (X : pt C) a m N st,
  1 < N -> good_st st -> Z.gcd a (N * N) = 1 ->
  exists p, bobext_verify H p pzero a m N st X = Panic.
Proof.
  intros C H X a m N st HN Hst GA.
  exists {| bp_t := 1; bp_z := 1; bp_e := 0; bp_s := 1; bp_s1 := 0; bp_s2 := 0; bp_t1 := 0; bp_t2 := 0 |}.
  apply bobext_identity_panic; cbn [bp_e bp_s1 bp_z bp_t]; try assumption; rewrite ?Z.pow_0_r, ?Z.gcd_1_l; try reflexivity.
  apply q3_pos.
Qed.
Print Assumptions C49_bobext_verify_panics_refuted.

(** What holds: with a non-negative challenge, a unit ciphertext from Alice and non-identity
    points no proof crashes Bob's verifiers. *)
Theorem C49_bob_verify_total_partial : forall (C : Curve) (H : hashZ C) p a m N st,
  1 < N -> good_st st -> Z.gcd a (N * N) = 1 -> 0 <= bp_e p ->
  (exists b, bob_verify H p a m N st None = Ok b) /\
  forall u X : pt C, u <> pzero -> X <> pzero -> exists b, bobext_verify H p u a m N st X = Ok b.
Proof.
  intros C H p a m N st HN Hst GA He. split; [apply bob_no_panic; assumption|].
  intros u X Hu HX. apply bobext_no_panic; assumption.
Qed.
Print Assumptions C49_bob_verify_total_partial.

(** PDL with slack crashes exactly when it has to invert a non-unit. *)
Theorem C49_pdls_verify_panics_iff : forall (C : Curve) (H : hashZ C) p (st : pdls_stmt C),
  good_pst C st -> (forall l, 0 <= H l) ->
  let e := H (pdls_query st (pp_z p) (pp_u1 p) (pp_u2 p) (pp_u3 p)) in
  (pdls_verify H p st = Panic <->
   e <> 0 /\ (Z.gcd (ps_c st) (ps_N st * ps_N st) <> 1 \/ Z.gcd (pp_z p) (ps_Nt st) <> 1)).
Proof.
  intros C H p st Hst HH e. assert (He : 0 <= e) by apply HH. split.
  - intros E. destruct (Z.eq_dec e 0) as [E0|E0].
    + exfalso. apply (proj2 (pdls_verify_iff C H p st Hst He (or_introl E0))). assumption.
    + split; [assumption|].
      destruct (Z.eq_dec (Z.gcd (ps_c st) (ps_N st * ps_N st)) 1) as [G1|G1]; [|auto].
      destruct (Z.eq_dec (Z.gcd (pp_z p) (ps_Nt st)) 1) as [G2|G2]; [|auto].
      exfalso. apply (proj2 (pdls_verify_iff C H p st Hst He (or_intror (conj G1 G2)))). assumption.
  - intros [E0 Hu]. apply pdls_verify_panic; [assumption| |assumption]. unfold pdls_chal. fold e. lia.
Qed.
Print Assumptions C49_pdls_verify_panics_iff.

Definition expst (c Q : Z) : pdls_stmt toy :=
  {| ps_c := c; ps_N := 143; ps_Q := smul (tz Q) gen; ps_G := gen; ps_h1 := 4; ps_h2 := 9; ps_Nt := 77 |}.
Lemma expst_good c Q : good_pst toy (expst c Q).
Proof. unfold good_pst; cbn. repeat split; reflexivity. Qed.
Definition pdls_code (r : outcome pdls_error unit) : Z :=
  match r with Ok _ => 1 | Err _ => 2 | Panic => 3 end.

(** One message with z = 0 crashes the verifier for every statement. *)
Theorem C49_pdls_verify_panics_refuted : forall (C : Curve) (H : hashZ C) (st : pdls_stmt C),
  good_pst C st -> (forall l, 0 < H l) -> exists p, pdls_verify H p st = Panic.
Proof.
  intros C H st Hst HH.
  exists {| pp_z := 0; pp_u1 := gen; pp_u2 := 0; pp_u3 := 0; pp_s1 := 0; pp_s2 := 0; pp_s3 := 0 |}.
  apply C49_pdls_verify_panics_iff; [assumption|intros l; apply Z.lt_le_incl, HH|].
  cbn [pp_z pp_u1 pp_u2 pp_u3].
  match goal with |- H ?l <> 0 /\ _ => pose proof (HH l) end. split; [lia|right].
  rewrite Z.gcd_0_l. destruct Hst as [_ [HNt _]]. lia.
Qed.
Print Assumptions C49_pdls_verify_panics_refuted.

Example C49_example :
  pdls_code (pdls_verify exH {| pp_z := 0; pp_u1 := gen; pp_u2 := 0; pp_u3 := 0; pp_s1 := 0; pp_s2 := 0; pp_s3 := 0 |}
    (expst (enc 143 6 5) 6)) = 3 /\
  res_code (alice_verify exH {| ap_z := 0; ap_e := -1; ap_s := 0; ap_s1 := 0; ap_s2 := 0 |} 100 143 exst) = 3 /\
  res_code (bobext_verify exH {| bp_t := 1; bp_z := 1; bp_e := 0; bp_s := 1; bp_s1 := 0; bp_s2 := 0; bp_t1 := 0; bp_t2 := 0 |}
    pzero (enc 143 6 5) 100 143 exst gen) = 3.
Proof. vm_compute. auto. Qed.

(** *** C50 *)
Theorem C50_pdls_honest_verifies : forall (C : Curve) (H : hashZ C) (x : Fq (cq C)) r st alpha beta rho gamma,
  good_pst C st -> (forall l, 0 <= H l) ->
  0 <= alpha -> 0 <= beta -> 0 <= rho -> 0 <= gamma -> Z.gcd r (ps_N st) = 1 ->
  ps_c st = enc (ps_N st) (to_Z x) r -> ps_Q st = smul x (ps_G st) ->
  exists p, pdls_prove H x r st alpha beta rho gamma = Ok p /\ pdls_verify H p st = Ok tt.
Proof.
  intros C H x r st alpha beta rho gamma Hst HH Ha Hb Hrho Hg Hr Ec EQ.
  destruct (pdls_prove_ok C H x r st alpha beta rho gamma Hst HH Ha Hb Hrho Hg) as [p E].
  exists p. split; [assumption|].
  apply (pdls_complete C H x r st alpha beta rho gamma p Hst HH Ha Hb Hrho Hg Hr Ec EQ E).
Qed.
Print Assumptions C50_pdls_honest_verifies.

Example C50_example :
  match pdls_prove exH (tz 6) 5 (expst (enc 143 6 5) 6) 1000 17 3 23 with
  | Ok p => pdls_code (pdls_verify exH p (expst (enc 143 6 5) 6)) = 1 /\
            pdls_code (pdls_verify exH p (expst (enc 143 7 5) 6)) = 2 /\
            pdls_code (pdls_verify exH p (expst (enc 143 6 5) 7)) = 2
  | _ => False end.
Proof. vm_compute. auto. Qed.

(** *** C51 *)
(** Full statement: the same without [Z.gcd (pp_s2 p) N = 1]; refuted below. *)
Theorem C51_pdls_special_sound_partial : forall (C : Curve) (H H' : hashZ C) p p' (st : pdls_stmt C),
  good_pst C st -> Z.gcd (ps_c st) (ps_N st * ps_N st) = 1 ->
  pp_z p = pp_z p' -> pp_u1 p = pp_u1 p' -> pp_u2 p = pp_u2 p' -> pp_u3 p = pp_u3 p' ->
  let e := H [HInt (pt_int (ps_G st)); HInt (pt_int (ps_Q st)); HInt (ps_c st); HInt (pp_z p);
           HInt (pt_int (pp_u1 p)); HInt (pp_u2 p); HInt (pp_u3 p)] in
  let e' := H' [HInt (pt_int (ps_G st)); HInt (pt_int (ps_Q st)); HInt (ps_c st); HInt (pp_z p');
           HInt (pt_int (pp_u1 p')); HInt (pp_u2 p'); HInt (pp_u3 p')] in
  0 <= e -> 0 <= e' -> e <> e' ->
  pdls_verify H p st = Ok tt -> pdls_verify H' p' st = Ok tt ->
  let N := ps_N st in let ds1 := pp_s1 p - pp_s1 p' in
  smul (of_Z (cq C) (e - e')) (ps_Q st) = smul (of_Z (cq C) ds1) (ps_G st) /\
  eqm (ps_Nt st) (zpow (pp_z p) (e - e') (ps_Nt st))
    (zpow (ps_h1 st) ds1 (ps_Nt st) * zpow (ps_h2 st) (pp_s3 p - pp_s3 p') (ps_Nt st)) /\
  (Z.gcd (pp_s2 p) N = 1 ->
   (exists ds2, Z.gcd ds2 N = 1 /\ eqm (N * N) (zpow (ps_c st) (e - e') (N * N)) ((ds1 * N + 1) * ds2 ^ N)) /\
   (forall p1 p2 m, good_key p1 p2 -> N = p1 * p2 -> is_enc N (ps_c st) m -> ((e - e') * m) mod N = ds1 mod N)).
Proof.
  intros C H H' p p' st Hst Gc Ez E1 E2 E3 e e' He He' Hne V V' N ds1.
  destruct (pdls_sound C H H' p p' st Hst Gc Ez E1 E2 E3 He He' Hne V V') as [A [_ [B D]]].
  refine (conj (eq_sym A) (conj B _)). intros Gs. destruct (D Gs) as [sg [S1 S2]].
  split; [exists sg; auto|]. intros p1 p2 m Hk EN Hm.
  assert (HN : 1 < N) by apply Hst.
  pose proof (is_enc_zpow N (ps_c st) m (e - e') HN Hm) as Hz.
  rewrite EN. eapply is_enc_fun; [exact Hk|rewrite <- EN; exact Hz|].
  rewrite <- EN. exists sg. split; [assumption|]. rewrite (Z.add_comm 1). exact S2.
Qed.
Print Assumptions C51_pdls_special_sound_partial.

Example C51_example :
  match pdls_prove (C := toy) (fun _ => 3) (tz 6) 5 (expst (enc 143 6 5) 6) 1000 17 3 23,
        pdls_prove (C := toy) (fun _ => 8) (tz 6) 5 (expst (enc 143 6 5) 6) 1000 17 3 23 with
  | Ok p, Ok p' => pp_z p = pp_z p' /\ pt_eqb (pp_u1 p) (pp_u1 p') = true /\ pp_u2 p = pp_u2 p' /\ pp_u3 p = pp_u3 p' /\
      pdls_code (pdls_verify (fun _ => 3) p (expst (enc 143 6 5) 6)) = 1 /\
      pdls_code (pdls_verify (fun _ => 8) p' (expst (enc 143 6 5) 6)) = 1 /\ Z.gcd (pp_s2 p) 143 = 1
  | _, _ => False end.
Proof. vm_compute. repeat split; reflexivity. Qed.

(** C51 without the condition on s2: the ciphertext encrypts 50, Q is 6 G, and two
    transcripts with one first message and challenges 3 and 8 are accepted. *)
Theorem C51_pdls_special_sound_refuted :
  let st := expst (enc 143 50 5) 6 in
  exists p p', pp_z p = pp_z p' /\ pp_u1 p = pp_u1 p' /\ pp_u2 p = pp_u2 p' /\ pp_u3 p = pp_u3 p' /\
  pdls_verify (fun _ => 3) p st = Ok tt /\ pdls_verify (fun _ => 8) p' st = Ok tt /\
  ~ (exists ds2, Z.gcd ds2 143 = 1 /\
     eqm (143 * 143) (zpow (ps_c st) (3 - 8) (143 * 143)) (((pp_s1 p - pp_s1 p') * 143 + 1) * ds2 ^ 143)).
Proof.
  intros st.
  exists (pdls_forged toy (fun _ => 3) (tz 6) st 10), (pdls_forged toy (fun _ => 8) (tz 6) st 10).
  refine (conj eq_refl (conj eq_refl (conj eq_refl (conj eq_refl (conj _ (conj _ _)))))).
  - apply pdls_forged_ok; [apply expst_good|intros; discriminate|lia|vm_compute; reflexivity|reflexivity].
  - apply pdls_forged_ok; [apply expst_good|intros; discriminate|lia|vm_compute; reflexivity|reflexivity].
  - intros [ds [G E]].
    assert (E1 : is_enc (11 * 13) (enc 143 50 5) 50) by (apply enc_is_enc; [lia|reflexivity]).
    apply (is_enc_zpow _ _ _ (3 - 8)) in E1; [|lia].
    assert (K := is_enc_fun 11 13 _ ((3 - 8) * 50) ((3 - 8) * 6) key143 E1).
    assert (K1 : is_enc (11 * 13) (zpow (enc 143 50 5) (3 - 8) (11 * 13 * (11 * 13))) ((3 - 8) * 6)).
    { exists ds. split; [exact G|]. 
      replace (1 + (3 - 8) * 6 * (11 * 13)) with ((3 * 6 + 10 - (8 * 6 + 10)) * 143 + 1) by reflexivity. exact E. }
    specialize (K K1). vm_compute in K. discriminate.
Qed.
Print Assumptions C51_pdls_special_sound_refuted.

(** *** C78 *)
(** C78 (an accepted range or PDL proof says something about the ciphertext) is false. For
    every invertible ciphertext, without any knowledge of its plaintext, an accepted proof
    can be written down. *)
Theorem C78_alice_ties_ciphertext_refuted : forall (C : Curve) (H : hashZ C) c N st,
  1 < N -> good_st st -> (forall l, 0 <= H l) -> Z.gcd c (N * N) = 1 ->
  exists p, alice_verify H p c N st = Ok true.
Proof.
  intros C H c N st HN Hst HH Gc. exists (alice_forged C H c N st 0).
  apply alice_forged_ok; try assumption. apply q3_pos.
Qed.
Print Assumptions C78_alice_ties_ciphertext_refuted.

(** Bob knows b with X = b G and sends any unit as the reply.  The forged proof's response
    is e b + alpha, the same as an honest one. *)
Theorem C78_bobext_ties_ciphertext_refuted : forall (C : Curve) (H : hashZ C) a m N st (b : Fq (cq C)) alpha,
  1 < N -> good_st st -> (forall l, 0 <= H l) -> Z.gcd a (N * N) = 1 -> Z.gcd m (N * N) = 1 ->
  0 <= alpha -> of_Z (cq C) alpha <> f0 -> b <> f0 ->
  exists p, bp_s1 p = bp_e p * to_Z b + alpha /\
    (bp_s1 p <= cq C ^ 3 ->
     bobext_verify H p (smul (of_Z (cq C) alpha) gen) a m N st (smul b gen) = Ok true).
Proof.
  intros C H a m N st b alpha HN Hst HH GA Gm Hal Ha Hb.
  assert (NZ : forall s : Fq (cq C), s <> f0 -> smul s (gen : pt C) <> pzero) by (intros s Hs; apply smul_gen_nz; assumption).
  destruct (bob_items_some C (smul (of_Z (cq C) alpha) gen) (smul b gen) (NZ _ Ha) (NZ _ Hb))
    as [Xx [Xy [ux [uy [EX [Eu _]]]]]].
  exists (bob_forged C H a m N st b alpha Xx Xy ux uy). split; [reflexivity|]. intros Hs.
  rewrite (bob_forged_ok C H a m N st b alpha Xx Xy ux uy HN Hst HH GA Gm Hal EX Eu).
  f_equal. apply Z.leb_le. assumption.
Qed.
Print Assumptions C78_bobext_ties_ciphertext_refuted.

Theorem C78_pdls_ties_ciphertext_refuted : forall (C : Curve) (H : hashZ C) (x : Fq (cq C)) st,
  good_pst C st -> (forall l, 0 <= H l) ->
  Z.gcd (ps_c st) (ps_N st * ps_N st) = 1 -> ps_Q st = smul x (ps_G st) ->
  exists p, pdls_verify H p st = Ok tt.
Proof.
  intros C H x st Hst HH Gc EQ. exists (pdls_forged C H x st 0).
  apply pdls_forged_ok; try assumption. lia.
Qed.
Print Assumptions C78_pdls_ties_ciphertext_refuted.

(** The proofs are accepted for an encryption of 140, although q = 31 and Q = 6 G. *)
Example C78_example :
  res_code (alice_verify exH (alice_forged toy exH (enc 143 140 5) 143 exst 0) (enc 143 140 5) 143 exst) = 1 /\
  pdls_code (pdls_verify exH (pdls_forged toy exH (tz 6) (expst (enc 143 140 5) 6) 0) (expst (enc 143 140 5) 6)) = 1.
Proof. vm_compute. auto. Qed.

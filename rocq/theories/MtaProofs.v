(** Lemmas about MtA. *)
From Coq Require Import ZArith Znumtheory Lia Bool List Field.
From Verif Require Import ZArithX Fq Curve Outcome Sigma SigmaProofs Paillier PaillierProofs ZPow
  RangeProofs RangeProofsProofs Mta.
Import ListNotations.
Local Open Scope Z_scope.

Section P.
Context (C : Curve).
Notation q := (cq C).
Notation F := (Fq q).
Add Field cfield : (C_field C).
Implicit Types (Hz : hashZ C) (Hf : hashF C).

Definition arand_ok (k : arand) : Prop := 0 <= ar_alpha k /\ 0 <= ar_beta k /\ 0 <= ar_gamma k /\ 0 <= ar_ro k.

(** Bob's check, one proof per statement. *)
Lemma verify_all_true Hz c N ps sts : length ps = length sts ->
  (verify_all Hz c N ps sts = Ok true <-> Forall2 (fun p st => alice_verify Hz p c N st = Ok true) ps sts).
Proof.
  revert sts. induction ps as [|p ps IH]; intros [|st sts] L; try discriminate.
  - split; [constructor|reflexivity].
  - cbn [verify_all]. injection L as L. split.
    + destruct (alice_verify Hz p c N st) as [[|]| |] eqn:E; cbn [obind]; try discriminate.
      intros K. constructor; [assumption|]. apply IH; assumption.
    + intros K. inversion K as [|? ? ? ? K1 K2]; subst. rewrite K1. cbn [obind]. apply IH; assumption.
Qed.

Lemma mta_b_ok Hz Hf b N mA r bt sts t1 t2 m beta :
  mta_b Hz Hf b N mA r bt sts t1 t2 = Ok (m, beta) ->
  length (ma_proofs mA) = length sts /\
  Forall2 (fun p st => alice_verify Hz p (ma_c mA) N st = Ok true) (ma_proofs mA) sts /\
  mb_c m = padd_c N (pmul_c N (ma_c mA) (to_Z b)) (enc N bt r) /\
  mb_b m = dlog_prove Hf b t1 /\ mb_bt m = dlog_prove Hf (of_Z q bt) t2 /\ beta = (f0 - of_Z q bt)%Fq.
Proof.
  unfold mta_b. destruct (Nat.eqb_spec (length (ma_proofs mA)) (length sts)) as [L|L]; [|discriminate].
  cbn [negb]. destruct (verify_all Hz (ma_c mA) N (ma_proofs mA) sts) as [[|]| |] eqn:E; cbn [obind negb]; try discriminate.
  intros K. apply ok_inj in K. injection K as -> ->. cbn [mb_c mb_b mb_bt].
  apply verify_all_true in E; [|assumption]. auto 10.
Qed.

Lemma mta_b_accept Hz Hf b N mA r bt sts t1 t2 :
  length (ma_proofs mA) = length sts ->
  Forall2 (fun p st => alice_verify Hz p (ma_c mA) N st = Ok true) (ma_proofs mA) sts ->
  exists m beta, mta_b Hz Hf b N mA r bt sts t1 t2 = Ok (m, beta).
Proof.
  intros L K. unfold mta_b. rewrite L, Nat.eqb_refl. cbn [negb].
  apply verify_all_true in K; [|assumption]. rewrite K. cbn [obind negb]. eauto.
Qed.

(** The outcome other than Ok does not depend on b, the nonces or the randomness. *)
Lemma mta_b_refuse Hz Hf b b' N mA r r' bt bt' sts t1 t1' t2 t2' :
  (forall x, mta_b Hz Hf b N mA r bt sts t1 t2 <> Ok x) ->
  mta_b Hz Hf b N mA r bt sts t1 t2 = mta_b Hz Hf b' N mA r' bt' sts t1' t2'.
Proof.
  unfold mta_b. destruct (negb _); [reflexivity|].
  destruct (verify_all _ _ _ _ _) as [[|]| |]; cbn [obind negb]; try reflexivity.
  intros K. exfalso. eapply K. reflexivity.
Qed.

Lemma verify_alpha_ok Hf m p1 p2 a alpha sh :
  verify_get_alpha Hf m p1 p2 a = Ok (alpha, sh) <->
  sh = dec p1 p2 (mb_c m) /\ alpha = of_Z q sh /\
  dlog_verify Hf (mb_b m) = true /\ dlog_verify Hf (mb_bt m) = true /\
  smul alpha gen = padd (smul a (dp_pk (mb_b m))) (dp_pk (mb_bt m)).
Proof.
  unfold verify_get_alpha. split.
  - destruct (dlog_verify Hf (mb_b m)) eqn:E1; [|discriminate].
    destruct (dlog_verify Hf (mb_bt m)) eqn:E2; [|discriminate].
    destruct (pt_eqb _ _) eqn:E3; [|discriminate]. cbn [andb]. intros K. apply ok_inj in K. injection K as -> ->.
    apply (pt_eqb_eq C) in E3. auto 6.
  - intros [-> [-> [E1 [E2 E3]]]]. rewrite E1, E2. cbn [andb].
    rewrite (proj2 (pt_eqb_eq C _ _) (eq_sym E3)). reflexivity.
Qed.

Lemma verify_alpha_total Hf m p1 p2 a :
  verify_get_alpha Hf m p1 p2 a = Err InvalidKey \/ exists x, verify_get_alpha Hf m p1 p2 a = Ok x.
Proof. unfold verify_get_alpha. destruct (_ && _); eauto. Qed.

Lemma verify_alpha_gg18 Hf m p1 p2 a :
  verify_get_alpha_gg18 Hf m p1 p2 a = omap fst (verify_get_alpha Hf m p1 p2 a).
Proof. unfold verify_get_alpha_gg18, verify_get_alpha. destruct (_ && _); reflexivity. Qed.

(** Decryption of the honest reply. *)
Lemma mta_dec p1 p2 a b r r' bt : good_key p1 p2 -> 0 <= a -> 0 <= b ->
  Z.gcd r (p1 * p2) = 1 -> Z.gcd r' (p1 * p2) = 1 ->
  dec p1 p2 (padd_c (p1 * p2) (pmul_c (p1 * p2) (enc (p1 * p2) a r) b) (enc (p1 * p2) bt r'))
  = (a * b + bt) mod (p1 * p2).
Proof.
  intros Hk Ha Hb Hr Hr'. pose proof (good_key_gt1 _ _ Hk) as HN.
  apply dec_spec; [assumption|]. rewrite (Z.mul_comm a b).
  apply is_enc_add; [assumption| |apply enc_is_enc; assumption].
  apply is_enc_mul; [assumption|assumption|apply enc_is_enc; assumption].
Qed.

Lemma of_Z_0_iff z : of_Z q z = f0 <-> (q | z).
Proof.
  pose proof (q_gt1 (cq_prime C)) as Hq. split; intros H.
  - apply (f_equal to_Z) in H. rewrite to_Z_of_Z, to_Z_0 in H by assumption.
    apply Z.mod_divide; [lia|assumption].
  - apply fq_ext. rewrite to_Z_of_Z, to_Z_0 by assumption. apply Z.mod_divide; [lia|assumption].
Qed.

(** Reduction modulo N is visible modulo q unless q divides the quotient. *)
Lemma wrap_visible p1 p2 x : good_key p1 p2 -> p1 <> q -> p2 <> q -> q <= p1 * p2 ->
  0 <= x -> p1 * p2 <= x -> x < (q - 1) * (q - 1) + p1 * p2 ->
  of_Z q (x mod (p1 * p2)) <> of_Z q x.
Proof.
  intros [Hp1 [Hp2 _]] N1 N2 HqN Hx Hge Hlt E. pose proof (cq_prime C) as Hq.
  pose proof (q_gt1 Hq) as Hq1. set (N := p1 * p2) in *. 
  assert (HN0 : 0 < N) by (clear - HqN Hq1; lia).
  pose proof (Z.div_mod x N ltac:(clear - HN0; lia)) as D.
  assert (K : of_Z q (N * (x / N)) = f0).
  { replace (N * (x / N)) with (x - x mod N) by (clear - D; lia). rewrite of_Z_sub, E. ring. }
  apply of_Z_0_iff in K.
  apply prime_mult in K; [|assumption]. destruct K as [K|K].
  - unfold N in K. apply prime_mult in K; [|assumption].
    destruct K as [K|K]; apply prime_div_prime in K; auto.
  - assert (1 <= x / N) by (apply Z.div_le_lower_bound; clear - HN0 Hge; lia).
    assert (x / N < q).
    { apply Z.div_lt_upper_bound; [assumption|]. clear - Hlt HqN Hq1. nia. }
    apply Z.divide_pos_le in K; lia.
Qed.
End P.

Section Run.
Context (C : Curve).
Notation q := (cq C).
Notation F := (Fq q).
Add Field cfield3 : (C_field C).
Context (Hz : hashZ C) (Hf : hashF C).

(** The whole exchange between honest parties. *)
Lemma mta_run p1 p2 (a b : F) rA sts r bt t1 t2 m beta :
  good_key p1 p2 -> Z.gcd rA (p1 * p2) = 1 -> Z.gcd r (p1 * p2) = 1 ->
  mta_b Hz Hf b (p1 * p2) (mta_a Hz a (p1 * p2) rA sts) r bt (map fst sts) t1 t2 = Ok (m, beta) ->
  verify_get_alpha Hf m p1 p2 a =
  if pt_eqb (smul (of_Z q (to_Z a * to_Z b + bt)) gen)
            (smul (of_Z q ((to_Z a * to_Z b + bt) mod (p1 * p2))) (gen (c := C)))
  then Ok (of_Z q ((to_Z a * to_Z b + bt) mod (p1 * p2)), (to_Z a * to_Z b + bt) mod (p1 * p2))
  else Err InvalidKey.
Proof.
  intros Hk Hr Hr' E. apply mta_b_ok in E. destruct E as [_ [_ [Ec [Eb [Et _]]]]].
  unfold verify_get_alpha. rewrite Ec, Eb, Et. cbn [mta_a ma_c].
  rewrite mta_dec; try assumption; try apply (to_Z_range (cq_prime C)).
  rewrite !dlog_complete. cbn [andb].
  replace (padd (smul a (dp_pk (dlog_prove Hf b t1))) (dp_pk (dlog_prove Hf (of_Z q bt) t2)))
    with (smul (of_Z q (to_Z a * to_Z b + bt)) (gen (c := C))); [reflexivity|].
  cbn [dlog_prove dp_pk]. apply (dlog_eq_iff C). autorewrite with dlog.
  rewrite of_Z_add, of_Z_mul, !of_Z_to_Z. ring.
Qed.

Lemma mta_run_beta (a b : F) bt : (of_Z q (to_Z a * to_Z b + bt) + (f0 - of_Z q bt))%Fq = (a * b)%Fq.
Proof. rewrite of_Z_add, of_Z_mul, !of_Z_to_Z. ring. Qed.

Lemma mta_answers p1 p2 (a b : F) rA sts r bt t1 t2 :
  good_key p1 p2 -> Z.gcd rA (p1 * p2) = 1 -> (forall l, 0 <= Hz l) ->
  (forall st k, In (st, k) sts -> good_st st /\ arand_ok k) ->
  let mA := mta_a Hz a (p1 * p2) rA sts in
  ((exists m beta, mta_b Hz Hf b (p1 * p2) mA r bt (map fst sts) t1 t2 = Ok (m, beta)) <->
   Forall (fun p => ap_s1 p <= q ^ 3) (ma_proofs mA)) /\
  (mta_b Hz Hf b (p1 * p2) mA r bt (map fst sts) t1 t2 <> Panic).
Proof.
  intros Hk Hr HH Hs mA. pose proof (good_key_gt1 _ _ Hk) as HN.
  assert (L : length (ma_proofs mA) = length (map fst sts)) by (cbn [mA mta_a ma_proofs]; rewrite !map_length; reflexivity).
  assert (V : forall st k, In (st, k) sts ->
     let p := alice_generate Hz (to_Z a) (ma_c mA) (p1 * p2) st rA (ar_alpha k) (ar_beta k) (ar_gamma k) (ar_ro k) in
     alice_verify Hz p (ma_c mA) (p1 * p2) st = Ok (ap_s1 p <=? q ^ 3)).
  { intros st k I p. destruct (Hs _ _ I) as [Hst [K1 [K2 [K3 K4]]]].
    apply (alice_complete C Hz (to_Z a) (p1 * p2) st rA); try assumption. apply (to_Z_range (cq_prime C)). }
  split; [split|].
  - intros [m [beta E]]. apply mta_b_ok in E. destruct E as [_ [E _]].
    cbn [mA mta_a ma_proofs] in *. clear L Hs. induction sts as [|[st k] sts IH]; cbn [map fst] in *.
    + constructor.
    + inversion E as [|? ? ? ? E1 E2]; subst. rewrite V in E1 by (left; reflexivity). constructor.
      * apply ok_inj in E1. symmetry in E1. apply Z.leb_le in E1. exact E1.
      * apply IH; [|exact E2]. intros; apply V; right; assumption.
  - intros K. apply mta_b_accept; [assumption|].
    cbn [mA mta_a ma_proofs] in *. clear L Hs. induction sts as [|[st k] sts IH]; cbn [map fst] in *.
    + constructor.
    + apply Forall_cons_iff in K. destruct K as [K1 K2]. constructor.
      * rewrite V by (left; reflexivity). f_equal. apply Z.leb_le. exact K1.
      * apply IH; [|exact K2]. intros; apply V; right; assumption.
  - unfold mta_b. rewrite L, Nat.eqb_refl. cbn [negb].
    assert (W : exists x, verify_all Hz (ma_c mA) (p1 * p2) (ma_proofs mA) (map fst sts) = Ok x).
    { cbn [mA mta_a ma_proofs] in *. clear L Hs. induction sts as [|[st k] sts IH]; cbn [map fst verify_all] in *.
      - eauto.
      - rewrite V by (left; reflexivity). cbn [obind]. destruct (_ <=? _); [|eauto].
        apply IH. intros; apply V; right; assumption. }
    destruct W as [x ->]. cbn [obind]. destruct (negb x); discriminate.
Qed.
Lemma share_of_product (a b beta' alpha : F) :
  smul alpha (gen (c := C)) = padd (smul a (smul b gen)) (smul beta' gen) -> (alpha + (f0 - beta') = a * b)%Fq.
Proof.
  intros E. apply (dlog_eq_iff C) in E. autorewrite with dlog in E.
  replace alpha with (alpha * f1)%Fq by ring. rewrite E. ring.
Qed.
End Run.

(** Properties of MtA (C30-C32) and of the interactive PDL proof (C52). *)
From Coq Require Import ZArith Znumtheory Lia Bool List Field.
From Verif Require Import ZArithX Fq Curve Toy Outcome Sigma SigmaProofs Bytes Paillier PaillierProofs
  RangeProofs RangeProofsProofs PropRange PropCommit Mta MtaProofs Pdl PdlProofs.
Import ListNotations.
Local Open Scope Z_scope.

(** *** C30: additive shares of a product.
    Full statement: for honest messages, Ok alpha with alpha + beta = a*b when
    a*b + beta_tag < N, an error when it is not. *)
Theorem C30_mta_correct : forall (C : Curve) (Hz : hashZ C) (Hf : hashF C) p1 p2 (a b : Fq (cq C)) rA sts r bt t1 t2 m beta,
  good_key p1 p2 -> Z.gcd rA (p1 * p2) = 1 -> Z.gcd r (p1 * p2) = 1 -> 0 <= bt ->
  mta_b Hz Hf b (p1 * p2) (mta_a Hz a (p1 * p2) rA sts) r bt (map fst sts) t1 t2 = Ok (m, beta) ->
  to_Z a * to_Z b + bt < p1 * p2 ->
  exists alpha, verify_get_alpha Hf m p1 p2 a = Ok (alpha, to_Z a * to_Z b + bt) /\
    verify_get_alpha_gg18 Hf m p1 p2 a = Ok alpha /\
    (alpha + beta = a * b)%Fq.
Proof.
  intros C Hz Hf p1 p2 a b rA sts r bt t1 t2 m beta Hk HrA Hr Hbt E Hlt.
  pose proof (mta_run C Hz Hf p1 p2 a b rA sts r bt t1 t2 m beta Hk HrA Hr E) as R.
  assert (Hab := Z.mul_nonneg_nonneg _ _ (proj1 (to_Z_range (cq_prime C) a)) (proj1 (to_Z_range (cq_prime C) b))).
  rewrite Z.mod_small in R by lia. rewrite (pt_eqb_refl C) in R.
  exists (of_Z (cq C) (to_Z a * to_Z b + bt)). rewrite verify_alpha_gg18, R.
  refine (conj eq_refl (conj eq_refl _)).
  apply mta_b_ok in E. destruct E as [_ [_ [_ [_ [_ ->]]]]]. apply mta_run_beta.
Qed.
Print Assumptions C30_mta_correct.

Theorem C30_mta_wrap_is_error : forall (C : Curve) (Hz : hashZ C) (Hf : hashF C) p1 p2 (a b : Fq (cq C)) rA sts r bt t1 t2 m beta,
  good_key p1 p2 -> p1 <> cq C -> p2 <> cq C -> cq C <= p1 * p2 ->
  Z.gcd rA (p1 * p2) = 1 -> Z.gcd r (p1 * p2) = 1 -> 0 <= bt < p1 * p2 ->
  mta_b Hz Hf b (p1 * p2) (mta_a Hz a (p1 * p2) rA sts) r bt (map fst sts) t1 t2 = Ok (m, beta) ->
  p1 * p2 <= to_Z a * to_Z b + bt ->
  verify_get_alpha Hf m p1 p2 a = Err InvalidKey /\ verify_get_alpha_gg18 Hf m p1 p2 a = Err InvalidKey.
Proof.
  intros C Hz Hf p1 p2 a b rA sts r bt t1 t2 m beta Hk N1 N2 HqN HrA Hr Hbt E Hge.
  pose proof (mta_run C Hz Hf p1 p2 a b rA sts r bt t1 t2 m beta Hk HrA Hr E) as R.
  pose proof (to_Z_range (cq_prime C) a) as Ra. pose proof (to_Z_range (cq_prime C) b) as Rb.
  assert (Hab : to_Z a * to_Z b <= (cq C - 1) * (cq C - 1)) by (apply Z.mul_le_mono_nonneg; lia).
  assert (Hab0 := Z.mul_nonneg_nonneg _ _ (proj1 Ra) (proj1 Rb)).
  pose proof (wrap_visible C p1 p2 (to_Z a * to_Z b + bt) Hk N1 N2 HqN ltac:(lia) Hge ltac:(lia)) as W.
  destruct (pt_eqb _ _) eqn:P in R.
  - apply (pt_eqb_eq C) in P. apply (smul_gen_inj C) in P. congruence.
  - rewrite verify_alpha_gg18, R. split; reflexivity.
Qed.
Print Assumptions C30_mta_wrap_is_error.

(** No side condition on sizes: an accepted share is never wrong. *)
Theorem C30_mta_never_wrong_share : forall (C : Curve) (Hz : hashZ C) (Hf : hashF C) p1 p2 (a b : Fq (cq C)) rA sts r bt t1 t2 m beta alpha sh,
  good_key p1 p2 -> Z.gcd rA (p1 * p2) = 1 -> Z.gcd r (p1 * p2) = 1 ->
  mta_b Hz Hf b (p1 * p2) (mta_a Hz a (p1 * p2) rA sts) r bt (map fst sts) t1 t2 = Ok (m, beta) ->
  verify_get_alpha Hf m p1 p2 a = Ok (alpha, sh) -> (alpha + beta = a * b)%Fq.
Proof.
  intros C Hz Hf p1 p2 a b rA sts r bt t1 t2 m beta alpha sh Hk HrA Hr E V.
  rewrite (mta_run C Hz Hf p1 p2 a b rA sts r bt t1 t2 m beta Hk HrA Hr E) in V.
  destruct (pt_eqb _ _) eqn:P in V; [|discriminate].
  apply (pt_eqb_eq C) in P. apply (smul_gen_inj C) in P.
  apply ok_inj in V. apply (f_equal fst) in V. cbn [fst] in V. subst alpha. rewrite <- P.
  apply mta_b_ok in E. destruct E as [_ [_ [_ [_ [_ ->]]]]]. apply mta_run_beta.
Qed.
Print Assumptions C30_mta_never_wrong_share.

(** When Bob answers an honest Alice: exactly when no response exceeds q^3 (C44). *)
Theorem C30_mta_bob_answers : forall (C : Curve) (Hz : hashZ C) (Hf : hashF C) p1 p2 (a b : Fq (cq C)) rA sts r bt t1 t2,
  good_key p1 p2 -> Z.gcd rA (p1 * p2) = 1 -> (forall l, 0 <= Hz l) ->
  (forall st k, In (st, k) sts -> good_st st /\ arand_ok k) ->
  let mA := mta_a Hz a (p1 * p2) rA sts in
  ((exists m beta, mta_b Hz Hf b (p1 * p2) mA r bt (map fst sts) t1 t2 = Ok (m, beta)) <->
   Forall (fun p => ap_s1 p <= cq C ^ 3) (ma_proofs mA)) /\
  (mta_b Hz Hf b (p1 * p2) mA r bt (map fst sts) t1 t2 <> Panic).
Proof. intros. apply mta_answers; assumption. Qed.
Print Assumptions C30_mta_bob_answers.

(** Observing a run as integers: (kind, alpha, share, alpha+beta). *)
Definition exHf : hashF toy := fun l => tz (7 * Z.of_nat (length l)).
Definition exar : arand := {| ar_alpha := 1000; ar_beta := 17; ar_gamma := 23; ar_ro := 5 |}.
Definition mta_obs (a b bt : Z) : list Z :=
  match mta_b exH exHf (tz b) 143 (mta_a exH (tz a) 143 5 [(exst, exar)]) 3 bt [exst] (tz 8) (tz 9) with
  | Ok (m, beta) => match verify_get_alpha exHf m 11 13 (tz a) with
      | Ok (alpha, sh) => [1; to_Z alpha; sh; to_Z (alpha + beta)%Fq] | Err _ => [2] | Panic => [3] end
  | Err _ => [4] | Panic => [5] end.
Example C30_example :
  mta_obs 6 7 9 = [1; 51 mod 31; 51; 42 mod 31] /\ mta_obs 12 11 9 = [1; 141 mod 31; 141; 132 mod 31] /\
  mta_obs 12 11 11 = [2] /\ good_key 11 13 /\ arand_ok exar.
Proof. split; [vm_compute; reflexivity|]. split; [vm_compute; reflexivity|]. split; [vm_compute; reflexivity|].
  split; [exact key143|]. unfold arand_ok; cbn; lia. Qed.

(** *** C31: an accepted reply is bound to the points it carries. *)
Theorem C31_accepted_reply_bound : forall (C : Curve) (Hf : hashF C) (m : msg_b C) p1 p2 a alpha sh,
  verify_get_alpha Hf m p1 p2 a = Ok (alpha, sh) ->
  smul alpha gen = padd (smul a (dp_pk (mb_b m))) (dp_pk (mb_bt m)) /\
  to_Z alpha = dec p1 p2 (mb_c m) mod cq C /\
  dlog_verify Hf (mb_b m) = true /\ dlog_verify Hf (mb_bt m) = true /\
  verify_get_alpha_gg18 Hf m p1 p2 a = Ok alpha.
Proof.
  intros C Hf m p1 p2 a alpha sh E. rewrite verify_alpha_gg18, E.
  apply verify_alpha_ok in E. destruct E as [-> [-> [V1 [V2 V]]]].
  refine (conj V (conj _ (conj V1 (conj V2 eq_refl)))). apply to_Z_of_Z.
Qed.
Print Assumptions C31_accepted_reply_bound.

Theorem C31_gg18_accepted_reply_bound : forall (C : Curve) (Hf : hashF C) (m : msg_b C) p1 p2 a alpha,
  verify_get_alpha_gg18 Hf m p1 p2 a = Ok alpha ->
  smul alpha gen = padd (smul a (dp_pk (mb_b m))) (dp_pk (mb_bt m)) /\
  dlog_verify Hf (mb_b m) = true /\ dlog_verify Hf (mb_bt m) = true.
Proof.
  intros C Hf m p1 p2 a alpha E. rewrite verify_alpha_gg18 in E.
  destruct (verify_get_alpha Hf m p1 p2 a) as [[al sh]| |] eqn:V; try discriminate.
  apply ok_inj in E. cbn [fst] in E. subst al. apply verify_alpha_ok in V. tauto.
Qed.
Print Assumptions C31_gg18_accepted_reply_bound.

(** Whatever ciphertext was sent: after the public check for b*G, the returned share and the
    discrete log of B' are additive shares of a*b. *)
Theorem C31_public_check_gives_product : forall (C : Curve) (Hf : hashF C) (m : msg_b C) p1 p2 a b beta' alpha sh,
  verify_get_alpha Hf m p1 p2 a = Ok (alpha, sh) ->
  verify_b_against_public (smul b gen) (dp_pk (mb_b m)) = true ->
  dp_pk (mb_bt m) = smul beta' gen -> (alpha + (f0 - beta') = a * b)%Fq.
Proof.
  intros C Hf m p1 p2 a b beta' alpha sh E P B. apply verify_alpha_ok in E. destruct E as [_ [_ [_ [_ E]]]].
  apply (pt_eqb_eq C) in P. rewrite <- P, B in E. apply share_of_product. exact E.
Qed.
Print Assumptions C31_public_check_gives_product.

(** Every failed check gives InvalidKey; there is no panic. *)
Theorem C31_rejects_otherwise : forall (C : Curve) (Hf : hashF C) (m : msg_b C) p1 p2 a,
  (dlog_verify Hf (mb_b m) = false \/ dlog_verify Hf (mb_bt m) = false \/
   smul (of_Z (cq C) (dec p1 p2 (mb_c m))) gen <> padd (smul a (dp_pk (mb_b m))) (dp_pk (mb_bt m))) ->
  verify_get_alpha Hf m p1 p2 a = Err InvalidKey /\ verify_get_alpha_gg18 Hf m p1 p2 a = Err InvalidKey.
Proof.
  intros C Hf m p1 p2 a K. rewrite verify_alpha_gg18.
  destruct (verify_alpha_total C Hf m p1 p2 a) as [->|[[al sh] E]]; [split; reflexivity|]. exfalso.
  apply verify_alpha_ok in E. destruct E as [-> [-> [V1 [V2 V]]]].
  destruct K as [K|[K|K]]; congruence.
Qed.
Print Assumptions C31_rejects_otherwise.

(** A reply whose ciphertext is changed is refused; a reply with a consistent other b is not,
    which is what verify_b_against_public is for. *)
Example C31_example :
  let mk c b bt := {| mb_c := c; mb_b := dlog_prove exHf (tz b) (tz 8); mb_bt := dlog_prove exHf (tz bt) (tz 9) |} in
  let run m := match verify_get_alpha exHf m 11 13 (tz 6) with Ok (al, sh) => (to_Z al, sh) | _ => (-1, -1) end in
  run (mk (enc 143 51 2) 7 9) = (51 mod 31, 51) /\ run (mk (enc 143 52 2) 7 9) = (-1, -1) /\
  run (mk (enc 143 57 2) 8 9) = (57 mod 31, 57) /\
  verify_b_against_public (C := toy) (smul (tz 7) gen) (smul (tz 8) gen) = false.
Proof. vm_compute. auto. Qed.

(** *** C32: Bob checks first. *)
Theorem C32_bob_answers_iff_proofs_verify : forall (C : Curve) (Hz : hashZ C) (Hf : hashF C) b N mA r bt sts t1 t2,
  (exists m beta, mta_b Hz Hf b N mA r bt sts t1 t2 = Ok (m, beta)) <->
  (length (ma_proofs mA) = length sts /\
   forall i p st, nth_error (ma_proofs mA) i = Some p -> nth_error sts i = Some st ->
     alice_verify Hz p (ma_c mA) N st = Ok true).
Proof.
  intros C Hz Hf b N mA r bt sts t1 t2. split.
  - intros [m [beta E]]. apply mta_b_ok in E. destruct E as [L [F2 _]]. split; [exact L|].
    clear L. induction F2 as [|p0 st0 ps ss V F2 IH]; intros [|i] p st E1 E2; cbn in *; try discriminate.
    + congruence.
    + eapply IH; eassumption.
  - intros [L K]. apply mta_b_accept; [exact L|]. destruct mA as [c ps]. cbn [ma_proofs ma_c] in *.
    revert sts L K. induction ps as [|p ps IH]; intros [|st ss] L K; try discriminate; constructor.
    + exact (K O p st eq_refl eq_refl).
    + apply IH; [cbn in L; lia|]. intros i. exact (K (S i)).
Qed.
Print Assumptions C32_bob_answers_iff_proofs_verify.

(** A refusal carries nothing about b, the masks or the nonces. *)
Theorem C32_refusal_independent_of_secrets : forall (C : Curve) (Hz : hashZ C) (Hf : hashF C) b b' N mA r r' bt bt' sts t1 t1' t2 t2',
  (forall x, mta_b Hz Hf b N mA r bt sts t1 t2 <> Ok x) ->
  mta_b Hz Hf b N mA r bt sts t1 t2 = mta_b Hz Hf b' N mA r' bt' sts t1' t2'.
Proof. intros. apply mta_b_refuse. assumption. Qed.
Print Assumptions C32_refusal_independent_of_secrets.

(** Wrong number of proofs: always the InvalidKey error. *)
Theorem C32_wrong_number_of_proofs : forall (C : Curve) (Hz : hashZ C) (Hf : hashF C) b N mA r bt sts t1 t2,
  length (ma_proofs mA) <> length sts -> mta_b Hz Hf b N mA r bt sts t1 t2 = Err InvalidKey.
Proof.
  intros C Hz Hf b N mA r bt sts t1 t2 L. unfold mta_b. apply Nat.eqb_neq in L. rewrite L. reflexivity.
Qed.
Print Assumptions C32_wrong_number_of_proofs.

Example C32_example :
  let mA := mta_a exH (tz 6) 143 5 [(exst, exar)] in
  let code (o : outcome error (msg_b toy * Fq (cq toy))) := match o with Ok _ => 1 | Err InvalidKey => 2 | Err _ => 3 | Panic => 4 end in
  let tamper := {| ma_c := ma_c mA + 1; ma_proofs := ma_proofs mA |} in
  code (mta_b exH exHf (tz 7) 143 mA 3 9 [exst] (tz 8) (tz 9)) = 1 /\
  code (mta_b exH exHf (tz 7) 143 mA 3 9 [exst; exst] (tz 8) (tz 9)) = 2 /\
  code (mta_b exH exHf (tz 7) 143 {| ma_c := ma_c mA; ma_proofs := [] |} 3 9 [exst] (tz 8) (tz 9)) = 2.
Proof. vm_compute. auto. Qed.

(** *** C52: interactive PDL.
    [honest_pdl] says that c encrypts x under N = p1*p2 and Q = x*G. *)
Theorem C52_pdl_complete : forall (C : Curve) (Hb : list Z -> Z) (w : pdl_wit C) st (a : Fq (cq C)) b renc blind pblind,
  honest_pdl C w st -> Z.gcd renc (pd_N st) = 1 -> 0 <= b < cq C ^ 2 -> 2 * cq C ^ 2 <= pd_N st ->
  let v1 := v_message1 Hb st a b renc blind in
  let p1 := p_message1 Hb w st (fst v1) pblind true in
  let v2 := v_message2 (fst p1) (snd v1) in
  exists m2 d, snd v2 = Ok m2 /\ p_message2 Hb (fst v1) m2 w (snd p1) = Ok d /\
               v_finalize Hb (fst p1) d (fst v2) = Ok tt.
Proof.
  intros C Hb w st a b renc blind pblind Hh Hr Hb0 HN v1 p1 v2.
  destruct (pdl_run C Hb w st a b renc blind pblind Hh Hr (proj1 Hb0)) as [m2 [E [K _]]].
  assert (Hlt : to_Z a * to_Z (pw_x w) + b < pd_N st).
  { pose proof (to_Z_range (cq_prime C) a) as Ra. pose proof (to_Z_range (cq_prime C) (pw_x w)) as Rx.
    assert (to_Z a * to_Z (pw_x w) <= cq C * cq C) by (apply Z.mul_le_mono_nonneg; lia). nia. }
  destruct (K Hlt) as [d [K1 K2]]. exists m2, d. auto.
Qed.
Print Assumptions C52_pdl_complete.

(** The exact boundary: the prover aborts when a*x + b reaches N. *)
Theorem C52_pdl_wrap_aborts : forall (C : Curve) (Hb : list Z -> Z) (w : pdl_wit C) st (a : Fq (cq C)) b renc blind pblind,
  honest_pdl C w st -> Z.gcd renc (pd_N st) = 1 -> 0 <= b ->
  let v1 := v_message1 Hb st a b renc blind in
  let p1 := p_message1 Hb w st (fst v1) pblind true in
  let v2 := v_message2 (fst p1) (snd v1) in
  exists m2, snd v2 = Ok m2 /\
  ((exists d, p_message2 Hb (fst v1) m2 w (snd p1) = Ok d) <-> to_Z a * to_Z (pw_x w) + b < pd_N st).
Proof.
  intros C Hb w st a b renc blind pblind Hh Hr Hb0 v1 p1 v2.
  destruct (pdl_run C Hb w st a b renc blind pblind Hh Hr Hb0) as [m2 [E [K1 K2]]].
  exists m2. split; [exact E|]. split.
  - intros [d D]. destruct (Z_lt_ge_dec (to_Z a * to_Z (pw_x w) + b) (pd_N st)) as [L|G]; [exact L|].
    apply Z.ge_le in G. fold v1 in K2. fold p1 in K2. rewrite (K2 G) in D. discriminate.
  - intros L. destruct (K1 L) as [d [D _]]. exists d. exact D.
Qed.
Print Assumptions C52_pdl_wrap_aborts.

(** finalize accepts exactly the committed point a*Q + b*G, for any prover messages. *)
Theorem C52_finalize_iff : forall (C : Curve) (Hb : list Z -> Z) (st : pdl_stmt C) (a : Fq (cq C)) b renc blind m m1 d,
  v_finalize Hb m1 d (fst (v_message2 m (snd (v_message1 Hb st a b renc blind)))) = Ok tt <->
  pc_q_hat d = padd (smul a (pd_Q st)) (smul (of_Z (cq C) b) (pd_G st)) /\
  p1_c_hat m1 = commit_pt Hb (pc_q_hat d) (pc_blind d).
Proof. intros. rewrite finalize_iff. cbn [v_message2 v_message1 fst snd pv_q_tag]. tauto. Qed.
Print Assumptions C52_finalize_iff.

(** The verifier reveals a and b only after a range proof that verifies, and the prover its point only
    for the values committed to in the first message. *)
Theorem C52_openings_guarded : forall (C : Curve) (Hb : list Z -> Z) (w : pdl_wit C) m s m2 m1 ps d,
  (snd (v_message2 (C := C) m s) = Ok m2 -> p1_range_ok m = true /\ m2 = {| v2_a := pv_a s; v2_b := pv_b s; v2_blind := pv_blind s |}) /\
  (p_message2 Hb m1 m2 w ps = Ok d -> d = pp_decommit ps /\ pp_alpha ps = v2_a m2 * to_Z (pw_x w) + v2_b m2 /\
     v1_c_tag_tag m1 = commit Hb (ab_concat (v2_a m2) (v2_b m2)) (v2_blind m2)).
Proof.
  intros C Hb w m s m2 m1 ps d. split.
  - cbn [v_message2 snd]. destruct (p1_range_ok m); [|discriminate]. intros E. apply ok_inj in E. auto.
  - apply p_message2_iff.
Qed.
Print Assumptions C52_openings_guarded.

(** Why the check works: a point fixed before (a,b) are known that is accepted for two different pairs
    giving the prover the same plaintext shows Q = x*G for the encrypted x. *)
Theorem C52_interactive_sound : forall (C : Curve) (Hb : list Z -> Z) (st : pdl_stmt C) (a a' : Fq (cq C)) b b' x
    renc renc' blind blind' m m' m1 m1' d d',
  a <> a' -> (to_Z a * x + b) mod cq C = (to_Z a' * x + b') mod cq C -> pc_q_hat d = pc_q_hat d' ->
  v_finalize Hb m1 d (fst (v_message2 m (snd (v_message1 Hb st a b renc blind)))) = Ok tt ->
  v_finalize Hb m1' d' (fst (v_message2 m' (snd (v_message1 Hb st a' b' renc' blind')))) = Ok tt ->
  pd_Q st = smul (of_Z (cq C) x) (pd_G st).
Proof.
  intros C Hb st a a' b b' x renc renc' blind blind' m m' m1 m1' d d' N E D F1 F2.
  apply C52_finalize_iff in F1. apply C52_finalize_iff in F2. destruct F1 as [F1 _], F2 as [F2 _].
  apply (two_pairs C a a' (of_Z _ b) (of_Z _ b')); [exact N| |congruence].
  apply (of_Z_eq (cq C)) in E. rewrite !of_Z_add, !of_Z_mul, !of_Z_to_Z in E. exact E.
Qed.
Print Assumptions C52_interactive_sound.

(** Finding: message2 stores the prover's commitment in the state, but finalize compares against the
    message passed by the caller.  Handed a first message made after a and b were revealed, it accepts every
    statement, true or false, whatever commitment [m] was stored. *)
Theorem C52_late_commitment_refuted : forall (C : Curve) (Hb : list Z -> Z) (st : pdl_stmt C) (a : Fq (cq C)) b renc blind m,
  exists m1 d, v_finalize Hb m1 d (fst (v_message2 m (snd (v_message1 Hb st a b renc blind)))) = Ok tt.
Proof.
  intros. set (Qh := padd (smul a (pd_Q st)) (smul (of_Z (cq C) b) (pd_G st))).
  exists {| p1_c_hat := commit_pt Hb Qh 0; p1_range_ok := true |}, {| pc_q_hat := Qh; pc_blind := 0 |}.
  apply C52_finalize_iff. split; reflexivity.
Qed.
Print Assumptions C52_late_commitment_refuted.

Example C52_example :
  let st := {| pd_c := enc (47 * 53) 6 5; pd_N := 47 * 53; pd_Q := smul (tz 6) gen; pd_G := gen (c := toy) |} in
  let w := {| pw_x := tz 6; pw_r := 5; pw_p1 := 47; pw_p2 := 53 |} in
  let v1 := v_message1 ex_hash st (tz 20) 900 7 3 in
  let p1 := p_message1 ex_hash w st (fst v1) 4 true in
  let v2 := v_message2 (fst p1) (snd v1) in
  pp_alpha (snd p1) = 1020 /\
  match snd v2 with Ok m2 => match p_message2 ex_hash (fst v1) m2 w (snd p1) with
     Ok d => match v_finalize ex_hash (fst p1) d (fst v2) with Ok _ => true | _ => false end | _ => false end | _ => false end = true.
Proof. vm_compute. auto. Qed.

(** Properties of the two-party protocols: C09-C13, C16 (two-party part), C74-C76, C79-C81. *)
From Coq Require Import ZArith Znumtheory Lia Bool List Field.
From Verif Require Import ZArithX Fq Curve Toy Outcome Sigma SigmaProofs Bytes Ecdsa EcdsaProofs Paillier PaillierProofs
  RangeProofs RangeProofsProofs PdlSlack PdlSlackProofs PropCommit PropRange Mta MtaProofs PropMta TwoParty TwoPartyProofs.
Import ListNotations.
Local Open Scope Z_scope.

(** *** C09: Lindell signing.
    [x], [y] are the coordinates of the nonce point k1*k2*G.  s = 0 (m + r x1 x2 divisible by q) and r = 0 are
    the two cases in which ECDSA itself has no signature for the nonce. *)
Theorem C09_lindell_signing_correct : forall (C : Curve) p1 p2 (x1 x2 k1 k2 : Fq (cq C)) r m rho renc,
  good_key p1 p2 -> Z.gcd r (p1 * p2) = 1 -> Z.gcd renc (p1 * p2) = 1 ->
  0 <= rho < cq C ^ 2 -> cq C ^ 3 + cq C ^ 2 <= p1 * p2 -> k1 <> f0 -> k2 <> f0 ->
  let st := lindell_setup {| kp_pub := smul x1 gen; kp_sec := x1 |} p1 p2 r in
  let K1 := {| kp_pub := smul k1 gen; kp_sec := k1 |} in
  let K2 := {| kp_pub := smul k2 gen; kp_sec := k2 |} in
  let Q := smul (x1 * x2)%Fq gen in
  exists c3 x y sr ss rid, coords (smul (k1 * k2)%Fq (gen : pt C)) = Some (x, y) /\
    lindell_partial (p1 * p2) (snd st) x2 K2 (kp_pub K1) m rho renc = Ok c3 /\
    lindell_compute (fst st) c3 K1 (kp_pub K2) = Ok (sr, ss) /\
    lindell_compute_recid (fst st) c3 K1 (kp_pub K2) = Ok (sr, ss, rid) /\
    sr = x mod cq C /\
    ((m + sr * (to_Z x1 * to_Z x2)) mod cq C <> 0 ->
       (sr <> 0 -> ecdsa_valid Q m sr ss) /\ 2 * ss < cq C /\
       (lindell_verify sr ss Q m = Ok tt <-> x < cq C) /\
       (x < cq C -> y < cq C -> recovers Q m sr ss rid)).
Proof.
  intros C p1 p2 x1 x2 k1 k2 r m rho renc Hk Hr Hre Hrho HN N1 N2 st K1 K2 Q.
  destruct (lindell_run C p1 p2 x1 x2 k1 k2 r m rho renc Hk Hr Hre Hrho HN N1 N2) as [c3 [x [y [HR [Ep [Ec Er]]]]]].
  exists c3, x, y. eexists _, _, _.
  split. { replace (smul (k1 * k2)%Fq gen) with (smul k1 (smul k2 (gen : pt C))); [exact HR|].
    apply (dlog_eq_iff C). autorewrite with dlog. rewrite joint_assoc. reflexivity. }
  split; [exact Ep|]. split; [exact Ec|]. split; [exact Er|]. split; [reflexivity|].
  intros Hm. assert (Hs : joint_s C k1 k2 x1 x2 m x <> f0) by (apply joint_s_nz; assumption).
  destruct (signing_output C _ Q _ m x y HR Hs (joint_s_eqn C k1 k2 x1 x2 m x N1 N2)) as [_ [_ [L [V [LV [_ RC]]]]]].
  auto.
Qed.
Print Assumptions C09_lindell_signing_correct.

(** Toy: q = 31, N = 173 * 179 = 30967 > 31^3 + 31^2. *)
Lemma key_l : good_key 173 179.
Proof. refine (conj _ (conj _ _)); [apply prime_check; [lia|vm_compute; reflexivity]..|lia]. Qed.
Definition ekp (z : Z) : ec_pair toy := {| kp_pub := smul (tz z) gen; kp_sec := tz z |}.
Definition lindell_obs (x1 x2 k1 k2 m rho : Z) : list Z :=
  let st := lindell_setup (ekp x1) 173 179 7 in
  match lindell_partial (173 * 179) (snd st) (tz x2) (ekp k2) (smul (tz k1) gen) m rho 11 with
  | Ok c3 => match lindell_compute_recid (fst st) c3 (ekp k1) (smul (tz k2) gen) with
     | Ok (r, s, rid) => [r; s; rid; match lindell_verify r s (smul (tz (x1 * x2)) gen) m with Ok _ => 1 | Err _ => 2 | Panic => 3 end]
     | _ => [] end
  | _ => [] end.
Example C09_example : cq toy ^ 3 + cq toy ^ 2 <= 173 * 179 /\
  exists r s rid, lindell_obs 5 9 2 13 22 960 = [r; s; rid; 1] /\ 0 < r /\ 0 < s /\ 2 * s < 31.
Proof. split; [vm_compute; discriminate|]. vm_compute. do 3 eexists. split; [reflexivity|]. split; [|split]; reflexivity. Qed.

(** *** C10: CCLST signing, for every linearly homomorphic encryption over the scalars. *)
Theorem C10_cclst_signing_correct : forall (C : Curve) (E : CL C) (x1 x2 k1 k2 : Fq (cq C)) r m r',
  k1 <> f0 -> k2 <> f0 ->
  let K1 := {| kp_pub := smul k1 gen; kp_sec := k1 |} in
  let K2 := {| kp_pub := smul k2 gen; kp_sec := k2 |} in
  let Q := smul (x1 * x2)%Fq gen in
  exists c3 x y sr ss, coords (smul (k1 * k2)%Fq (gen : pt C)) = Some (x, y) /\
    cclst_partial (cclst_encrypt_share (E := E) {| kp_pub := smul x1 gen; kp_sec := x1 |} r) x2 K2 (kp_pub K1) m r' = Ok c3 /\
    cclst_compute c3 K1 (kp_pub K2) = Ok (sr, ss) /\ sr = x mod cq C /\
    ((m + sr * (to_Z x1 * to_Z x2)) mod cq C <> 0 ->
       (sr <> 0 -> ecdsa_valid Q m sr ss) /\ 2 * ss < cq C /\ (cclst_verify sr ss Q m = Ok tt <-> x < cq C)).
Proof.
  intros C E x1 x2 k1 k2 r m r' N1 N2 K1 K2 Q.
  destruct (cclst_run C E x1 x2 k1 k2 r m r' N1 N2) as [c3 [x [y [HR [Ep Ec]]]]].
  exists c3, x, y. eexists _, _.
  split. { replace (smul (k1 * k2)%Fq gen) with (smul k1 (smul k2 (gen : pt C))); [exact HR|].
    apply (dlog_eq_iff C). autorewrite with dlog. rewrite joint_assoc. reflexivity. }
  split; [exact Ep|]. split; [exact Ec|]. split; [reflexivity|].
  intros Hm. assert (Hs : joint_s C k1 k2 x1 x2 m x <> f0) by (apply joint_s_nz; assumption).
  destruct (signing_output C _ Q _ m x y HR Hs (joint_s_eqn C k1 k2 x1 x2 m x N1 N2)) as [_ [_ [L [V [_ [CV _]]]]]].
  auto.
Qed.
Print Assumptions C10_cclst_signing_correct.
(** With party two's check of the group setup and of party one's proof in between: the ciphertext it goes on with is the one it was sent, it goes on only if both checks pass, and then the two sign. *)
Theorem C10_cclst_signing_correct_through_setup : forall (C : Curve) (E : CL C) (x1 x2 k1 k2 : Fq (cq C)) r m r' setup_ok proof_ok,
  k1 <> f0 -> k2 <> f0 ->
  let K1 := {| kp_pub := smul k1 gen; kp_sec := k1 |} in
  let K2 := {| kp_pub := smul k2 gen; kp_sec := k2 |} in
  let Q := smul (x1 * x2)%Fq gen in
  let sent := cclst_encrypt_share (E := E) {| kp_pub := smul x1 gen; kp_sec := x1 |} r in
  (setup_ok = false \/ proof_ok = false -> cclst_verify_setup setup_ok proof_ok sent = Err ProofError) /\
  (setup_ok = true -> proof_ok = true -> exists c_key c3 sr ss, cclst_verify_setup setup_ok proof_ok sent = Ok c_key /\
     cclst_partial c_key x2 K2 (kp_pub K1) m r' = Ok c3 /\ cclst_compute c3 K1 (kp_pub K2) = Ok (sr, ss) /\
     ((m + sr * (to_Z x1 * to_Z x2)) mod cq C <> 0 -> sr <> 0 -> ecdsa_valid Q m sr ss)).
Proof.
  intros C E x1 x2 k1 k2 r m r' a b N1 N2 K1 K2 Q sent. split.
  - unfold cclst_verify_setup. intros [-> | ->]; [rewrite andb_false_r|]; reflexivity.
  - intros -> ->. destruct (C10_cclst_signing_correct C E x1 x2 k1 k2 r m r' N1 N2) as (c3 & x & y & sr & ss & _ & EP & EC & _ & V).
    exists sent, c3, sr, ss. split; [reflexivity|]. split; [exact EP|]. split; [exact EC|]. intros NZ NR. exact (proj1 (V NZ) NR).
Qed.
Print Assumptions C10_cclst_signing_correct_through_setup.

(** The scheme [linear_CL] exists over every curve; a run on the toy curve. *)
Definition cclst_obs (x1 x2 k1 k2 m : Z) : list Z :=
  match cclst_partial (cclst_encrypt_share (E := linear_CL toy (tz 3)) (ekp x1) 8) (tz x2) (ekp k2) (smul (tz k1) gen) m 12 with
  | Ok c3 => match cclst_compute c3 (ekp k1) (smul (tz k2) gen) with
     | Ok (r, s) => [r; s; match cclst_verify r s (smul (tz (x1 * x2)) gen) m with Ok _ => 1 | Err _ => 2 | Panic => 3 end]
     | _ => [] end
  | _ => [] end.
Example C10_example : exists r s, cclst_obs 5 9 2 13 22 = [r; s; 1] /\ 0 < r /\ 0 < s /\ 2 * s < 31.
Proof. vm_compute. do 2 eexists. split; [reflexivity|]. split; [|split]; reflexivity. Qed.

(** *** C11: what compute returns for arbitrary ciphertexts.
    False as stated: party two chooses s.  Every scalar s0 is returned (up to the low-s choice) for some c3;
    with s0 = 0 the returned pair is no signature for any key and message and verify panics on it. *)
Theorem C11_lindell_party_two_chooses_s_refuted : forall (C : Curve) (p : party1 C) (k1 : ec_pair C) (R2 : pt C) (s0 : Fq (cq C)) x,
  good_key (l1_p1 p) (l1_p2 p) -> cq C <= l1_p1 p * l1_p2 p -> kp_sec k1 <> f0 ->
  x_coord (smul (kp_sec k1) R2) = Some x ->
  exists c3, lindell_compute p c3 k1 R2 = Ok (x mod cq C, Z.min (to_Z s0) (cq C - to_Z s0)).
Proof.
  intros C p k1 R2 s0 x Hk HN N1 Hx. set (t := to_Z (s0 * kp_sec k1)%Fq).
  pose proof (to_Z_range (cq_prime C) (s0 * kp_sec k1)%Fq) as Ht. fold t in Ht.
  exists (enc (l1_p1 p * l1_p2 p) t 1). unfold lindell_compute. rewrite Hx. cbn [unwrap obind].
  rewrite (finvert_eq C _ N1). cbn [unwrap obind].
  rewrite dec_enc by (assumption || apply Z.gcd_1_l). rewrite (Z.mod_small t) by (split; [apply Ht|eapply Z.lt_le_trans; [apply Ht|exact HN]]). unfold t. rewrite of_Z_to_Z.
  rewrite mul_inv_cancel by assumption. reflexivity.
Qed.
Print Assumptions C11_lindell_party_two_chooses_s_refuted.

Theorem C11_lindell_invalid_output_refuted : forall (C : Curve) (p : party1 C) (k1 : ec_pair C) (R2 : pt C),
  good_key (l1_p1 p) (l1_p2 p) -> cq C <= l1_p1 p * l1_p2 p -> kp_sec k1 <> f0 -> R2 <> pzero ->
  exists c3 r s, lindell_compute p c3 k1 R2 = Ok (r, s) /\
    (forall (Q : pt C) m, ~ ecdsa_valid Q m r s) /\ (forall (Q : pt C) m, lindell_verify r s Q m = Panic).
Proof.
  intros C p k1 R2 Hk HN N1 HR.
  assert (HR1 : smul (kp_sec k1) R2 <> pzero) by (apply smul_nz; assumption).
  destruct (x_coord_some C _ HR1) as [x Hx].
  destruct (C11_lindell_party_two_chooses_s_refuted C p k1 R2 f0 x Hk HN N1 Hx) as [c3 E].
  exists c3. eexists _, _. split; [exact E|]. rewrite to_Z_0. pose proof (q_gt1 (cq_prime C)) as Hq.
  rewrite Z.min_l by lia. split.
  - intros Q m [_ [K _]]. lia.
  - intros Q m. apply lindell_panic_iff. left. apply of_Z_0_iff. exists 0. reflexivity.
Qed.
Print Assumptions C11_lindell_invalid_output_refuted.

(** What does hold: with the joint key and nonce, a returned pair satisfies the ECDSA equation only if the
    decrypted value is the honest one or its negation modulo q (or two curve points have different x-coordinates
    congruent modulo q).  So a caller that runs verify detects every other ciphertext. *)
Theorem C11_lindell_valid_only_if_honest_partial : forall (C : Curve) (p : party1 C) c3 (k1 : ec_pair C) (k2 x2 : Fq (cq C)) m x y r s,
  kp_sec k1 <> f0 -> k2 <> f0 -> coords (smul (kp_sec k1) (smul k2 (gen : pt C))) = Some (x, y) ->
  (m + (x mod cq C) * (to_Z (l1_x p) * to_Z x2)) mod cq C <> 0 ->
  lindell_compute p c3 k1 (smul k2 gen) = Ok (r, s) ->
  ecdsa_eqn (smul (l1_x p * x2)%Fq gen) m r s ->
  let good := ((of_Z (cq C) m + of_Z (cq C) x * (l1_x p * x2)) * finv k2)%Fq in
  let got := of_Z (cq C) (dec (l1_p1 p) (l1_p2 p) c3) in
  got = good \/ got = fopp good \/
  (exists x' (P : pt C), x_coord P = Some x' /\ x' <> x /\ x' mod cq C = x mod cq C).
Proof. exact lindell_only_honest. Qed.
Print Assumptions C11_lindell_valid_only_if_honest_partial.

Example C11_example :
  let p := fst (lindell_setup (ekp 5) 173 179 7) in
  match lindell_compute p (enc (173 * 179) 0 1) (ekp 4) (smul (tz 13) gen) with Ok (r, s) => s = 0 | _ => False end.
Proof. vm_compute. reflexivity. Qed.

(** *** C12: both parties compute the same public key. *)
Theorem C12_two_party_same_pubkey : forall (C : Curve) (Hb : list Z -> Z) (Hf : hashF C) (x1 x2 t1 t2 : Fq (cq C)) b1 b2,
  let '(m1, w1, kp1) := kg1_create Hb Hf x1 t1 b1 b2 in
  let '(m2, kp2) := kg2_create Hf x2 t2 in
  p1_pubkey (kp_sec kp1) (k2_pub m2) = smul (x1 * x2)%Fq gen /\
  p2_pubkey kp2 (cw_pub w1) = smul (x1 * x2)%Fq gen.
Proof.
  intros. cbn [kg1_create kg2_create kp_sec k2_pub cw_pub]. unfold p1_pubkey, p2_pubkey. cbn [kp_sec].
  split; apply (dlog_eq_iff C); autorewrite with dlog; [apply joint_assoc|apply joint_assoc'].
Qed.
Print Assumptions C12_two_party_same_pubkey.

(** For arbitrary (also malicious) public shares too: each party multiplies the peer's point. *)
Theorem C12_two_party_any_share : forall (C : Curve) (x1 x2 : Fq (cq C)) (P1 P2 : pt C),
  p1_pubkey x1 P2 = smul (x1 * dlog P2)%Fq gen /\
  (P1 = smul x1 gen -> P2 = smul x2 gen -> p1_pubkey x1 P2 = p2_pubkey {| kp_pub := P2; kp_sec := x2 |} P1).
Proof.
  intros. unfold p1_pubkey, p2_pubkey. cbn [kp_sec]. split.
  - apply (dlog_eq_iff C). autorewrite with dlog. apply mul_1_r'.
  - intros -> ->. apply (dlog_eq_iff C). autorewrite with dlog. rewrite joint_assoc. symmetry. apply joint_assoc'.
Qed.
Print Assumptions C12_two_party_any_share.

Example C12_example :
  pt_eqb (p1_pubkey (tz 5) (smul (tz 9) (gen (c := toy)))) (smul (tz 14) gen) = true /\
  pt_eqb (p2_pubkey (ekp 9) (smul (tz 5) (gen (c := toy)))) (smul (tz 14) gen) = true.
Proof. vm_compute. auto. Qed.

(** *** C13: refresh.
    A refresh multiplies x1 by f and x2 by f2 with f*f2 = 1 mod q, and replaces the Paillier key; [refreshes]
    is any finite sequence of them, as calls to refresh_private_key and update_private_key. *)
Inductive refreshes {C : Curve} (Hz : hashZ C) : party1 C * Z * Fq (cq C) -> party1 C * Z * Fq (cq C) -> Prop :=
| ref_nil s : refreshes Hz s s
| ref_step p c x2 f f2 p1' p2' r' d pr c' p' st pf s :
    (f * f2) mod cq C = 1 -> good_key p1' p2' -> Z.gcd r' (p1' * p2') = 1 ->
    lindell_refresh Hz p f p1' p2' r' d pr = Ok (c', p', st, pf) ->
    refreshes Hz (p', c', lindell_update x2 f2) s ->
    refreshes Hz (p, c, x2) s.

Lemma refreshes_inv (C : Curve) (Hz : hashZ C) s s' : refreshes Hz s s' ->
  p1_ok C (fst (fst s)) (snd (fst s)) ->
  p1_ok C (fst (fst s')) (snd (fst s')) /\ (l1_x (fst (fst s')) * snd s' = l1_x (fst (fst s)) * snd s)%Fq.
Proof.
  induction 1 as [s|p c x2 f f2 p1' p2' r' d pr c' p' st pf s Hf Hk Hr E _ IH]; intros Hok; [auto|].
  cbn [fst snd] in *. destruct (refresh_ok C Hz p f p1' p2' r' d pr c' p' st pf Hk Hr E) as [K1 [K2 _]].
  destruct (IH K1) as [I1 I2]. split; [exact I1|]. rewrite I2, K2. apply refresh_product. exact Hf.
Qed.

Theorem C13_refresh_preserves_key : forall (C : Curve) (Hz : hashZ C) p c x2 p' c' x2',
  p1_ok C p c -> refreshes Hz (p, c, x2) (p', c', x2') ->
  p1_pubkey (l1_x p') (smul x2' gen) = p1_pubkey (l1_x p) (smul x2 gen) /\
  p2_pubkey {| kp_pub := smul x2' gen; kp_sec := x2' |} (smul (l1_x p') gen) = p1_pubkey (l1_x p) (smul x2 gen).
Proof.
  intros C Hz p c x2 p' c' x2' Hok H. apply refreshes_inv in H; [|exact Hok]. cbn [fst snd] in H. destruct H as [_ H].
  unfold p1_pubkey, p2_pubkey. cbn [kp_sec]. split; apply (dlog_eq_iff C); autorewrite with dlog.
  - rewrite !joint_assoc, H. reflexivity.
  - rewrite joint_assoc', <- joint_assoc, joint_assoc, H, <- joint_assoc. reflexivity.
Qed.
Print Assumptions C13_refresh_preserves_key.

Theorem C13_refresh_never_fails : forall (C : Curve) (Hz : hashZ C) cd (p : party1 C) f p1' p2' r' pa qa h1 xhi d pr,
  (forall l, 0 <= Hz l) -> good_key p1' p2' -> Z.gcd r' (p1' * p2') = 1 ->
  1 < pa * qa -> 0 <= xhi -> gen_h1_h2 pa qa h1 xhi = Ok d -> cd d = true -> pr_ok pr ->
  exists c' p' st pf, lindell_refresh Hz p f p1' p2' r' d pr = Ok (c', p', st, pf) /\
    lindell_pdl_verify Hz cd st pf (p1' * p2') c' (smul (l1_x p * of_Z (cq C) f)%Fq gen) = Ok tt.
Proof.
  intros C Hz cd p f p1' p2' r' pa qa h1 xhi d pr HH Hk Hr HN Hx Hd Hcd Hpr.
  apply gen_h1_h2_good in Hd; [|assumption|assumption]. destruct Hd as [Hd _].
  set (x' := (l1_x p * of_Z (cq C) f)%Fq).
  set (p' := {| l1_x := x'; l1_p1 := p1'; l1_p2 := p2'; l1_r := r' |}).
  destruct (pdl_honest C Hz cd p' (enc (p1' * p2') (to_Z x') r') d pr HH) as [st [pf [E V]]]; try assumption.
  { split; [exact Hk|]. split; [exact Hr|reflexivity]. }
  exists (enc (p1' * p2') (to_Z x') r'), p', st, pf. split; [|exact V].
  unfold lindell_refresh. fold x'. fold p'. rewrite E. reflexivity.
Qed.
Print Assumptions C13_refresh_never_fails.

Theorem C13_signing_after_refresh : forall (C : Curve) (Hz : hashZ C) p c x2 p' c' x2' (k1 k2 : Fq (cq C)) m rho renc,
  p1_ok C p c -> refreshes Hz (p, c, x2) (p', c', x2') ->
  let N' := l1_p1 p' * l1_p2 p' in
  Z.gcd renc N' = 1 -> 0 <= rho < cq C ^ 2 -> cq C ^ 3 + cq C ^ 2 <= N' -> k1 <> f0 -> k2 <> f0 ->
  let K1 := {| kp_pub := smul k1 gen; kp_sec := k1 |} in
  let K2 := {| kp_pub := smul k2 gen; kp_sec := k2 |} in
  let Q := p1_pubkey (l1_x p) (smul x2 gen) in
  exists c3 x y sr ss, coords (smul (k1 * k2)%Fq (gen : pt C)) = Some (x, y) /\
    lindell_partial N' c' x2' K2 (kp_pub K1) m rho renc = Ok c3 /\
    lindell_compute p' c3 K1 (kp_pub K2) = Ok (sr, ss) /\ sr = x mod cq C /\
    ((m + sr * (to_Z (l1_x p') * to_Z x2')) mod cq C <> 0 -> sr <> 0 -> ecdsa_valid Q m sr ss /\ 2 * ss < cq C).
Proof.
  intros C Hz p c x2 p' c' x2' k1 k2 m rho renc Hok H N' Hre Hrho HN N1 N2 K1 K2 Q.
  pose proof (C13_refresh_preserves_key C Hz p c x2 p' c' x2' Hok H) as [EQ _].
  apply refreshes_inv in H; [|exact Hok]. cbn [fst snd] in H. destruct H as [[Hk [Hr Ec]] _].
  destruct (C09_lindell_signing_correct C (l1_p1 p') (l1_p2 p') (l1_x p') x2' k1 k2 (l1_r p') m rho renc Hk Hr Hre Hrho HN N1 N2)
    as [c3 [x [y [sr [ss [rid [HR [Ep [Es [_ [Er V]]]]]]]]]]].
  cbn [lindell_setup fst snd kp_sec] in Ep, Es. rewrite <- Ec in Ep.
  exists c3, x, y, sr, ss. split; [exact HR|]. split; [exact Ep|].
  split; [destruct p'; exact Es|]. split; [exact Er|].
  intros Hm Hr0. destruct (V Hm) as [V1 [V2 _]]. split; [|exact V2].
  unfold Q. rewrite <- EQ. replace (p1_pubkey (l1_x p') (smul x2' gen)) with (smul (l1_x p' * x2')%Fq (gen : pt C)); [auto|].
  unfold p1_pubkey. apply (dlog_eq_iff C). autorewrite with dlog. rewrite joint_assoc. reflexivity.
Qed.
Print Assumptions C13_signing_after_refresh.

(** A refresh step of the toy system with factor 7 and 7^-1 = 9 mod 31. *)
Example C13_example : exists s, refreshes exH (fst (lindell_setup (ekp 5) 11 13 7), snd (lindell_setup (ekp 5) 11 13 7), tz 9) s /\
  to_Z (l1_x (fst (fst s))) = 4 /\ to_Z (snd s) = 19.
Proof.
  destruct (C13_refresh_never_fails toy exH (fun _ => true) (fst (lindell_setup (ekp 5) 11 13 7)) 7 173 179 10 7 11 4 3
     {| dl_N := 77; dl_h1 := 4; dl_h2 := (58 * 58 * 58) mod 77 |} (1000, 17, 3, 23)) as [c' [p' [st [pf [E _]]]]].
  - exact exH_nonneg.
  - exact key_l.
  - reflexivity.
  - reflexivity.
  - lia.
  - vm_compute. reflexivity.
  - reflexivity.
  - cbn. lia.
  - pose proof (refresh_ok toy exH _ _ _ _ _ _ _ _ _ _ _ key_l (eq_refl : Z.gcd 10 (173 * 179) = 1) E) as [_ [Ex _]].
    eexists. split.
    + eapply (ref_step exH _ _ (tz 9) 7 9); [vm_compute; reflexivity|exact key_l| |exact E|apply ref_nil]. reflexivity.
    + cbn [fst snd]. rewrite Ex. split; vm_compute; reflexivity.
Qed.

(** *** C16 (two-party part): every message created by an honest party is accepted by the other. *)
Theorem C16_two_party_keygen_accepts : forall (C : Curve) Hb (Hf : hashF C) (x1 x2 t1 t2 : Fq (cq C)) b1 b2,
  let '(m1, w1, _) := kg1_create Hb Hf x1 t1 b1 b2 in
  let '(m2, _) := kg2_create Hf x2 t2 in
  kg1_verify_and_decommit Hf w1 (k2_proof m2) = Ok w1 /\ kg2_verify Hb Hf m1 w1 = Ok tt.
Proof.
  intros. cbn [kg1_create kg2_create k2_proof]. split.
  - unfold kg1_verify_and_decommit. rewrite dlog_complete. reflexivity.
  - apply kg2_verify_ok. cbn [k1_pkc k1_zkc cw_pub cw_pkb cw_zkb cw_proof]. split; [reflexivity|]. split; [reflexivity|].
    apply dlog_complete.
Qed.
Print Assumptions C16_two_party_keygen_accepts.

Theorem C16_two_party_ephemeral_accepts : forall (C : Curve) Hb (Hf : hashF C) (Hz : hashZ C) (k1 k2 s1 s2 : Fq (cq C)) b1 b2,
  let '(m1, _) := eph1_create Hf k1 s1 in
  let '(m2, w2, _) := eph2_create Hb Hf Hz k2 s2 b1 b2 in
  eph2_verify_and_decommit Hf w2 m1 = Ok w2 /\ eph1_verify Hb Hf Hz m2 w2 = Ok tt.
Proof.
  intros. cbn [eph1_create eph2_create]. split.
  - unfold eph2_verify_and_decommit. cbn [e1_proof e1_pub e1_c]. rewrite ddh_complete by reflexivity. reflexivity.
  - apply eph1_verify_ok. cbn [e2_pkc e2_zkc ew_pub ew_pkb ew_zkb ew_proof ew_c]. split; [reflexivity|]. split; [reflexivity|].
    apply ddh_complete; reflexivity.
Qed.
Print Assumptions C16_two_party_ephemeral_accepts.

(** Honest messages on the toy curve; a different blinding factor or point is refused. *)
Definition kg_obs (dx db : Z) : Z :=
  let '(m1, w1, _) := kg1_create ex_hash exHf (tz 5) (tz 6) 70 80 in
  match kg2_verify ex_hash exHf m1 {| cw_pkb := cw_pkb w1 + db; cw_zkb := cw_zkb w1; cw_pub := padd (cw_pub w1) (tz dx : pt toy); cw_proof := cw_proof w1 |} with
  | Ok _ => 1 | _ => 0 end.
Example C16_example : kg_obs 0 0 = 1 /\ kg_obs 1 0 = 0 /\ kg_obs 0 1 = 0.
Proof. vm_compute. auto. Qed.

(** *** C74 *)
Theorem C74_kg2_verify_iff : forall (C : Curve) Hb (Hf : hashF C) m1 (w : comm_wit C),
  kg2_verify Hb Hf m1 w = Ok tt <->
  k1_pkc m1 = Hb (to_bytes (pt_int (cw_pub w)) ++ to_bytes (cw_pkb w)) /\
  k1_zkc m1 = Hb (to_bytes (pt_int (dp_t (cw_proof w))) ++ to_bytes (cw_zkb w)) /\
  dlog_verify Hf (cw_proof w) = true.
Proof. intros. apply kg2_verify_ok. Qed.
Print Assumptions C74_kg2_verify_iff.

(** One first message, two accepted second messages: the same public share and proof nonce, or the openings
    are a collision. *)
Theorem C74_first_message_binds : forall (C : Curve) Hb (Hf : hashF C) m1 (w w' : comm_wit C),
  kg2_verify Hb Hf m1 w = Ok tt -> kg2_verify Hb Hf m1 w' = Ok tt ->
  (cw_pub w = cw_pub w' \/ collides Hb (opening (pt_int (cw_pub w)) (cw_pkb w)) (opening (pt_int (cw_pub w')) (cw_pkb w'))) /\
  (dp_t (cw_proof w) = dp_t (cw_proof w') \/
   collides Hb (opening (pt_int (dp_t (cw_proof w))) (cw_zkb w)) (opening (pt_int (dp_t (cw_proof w'))) (cw_zkb w'))).
Proof.
  intros C Hb Hf m1 w w' H H'. apply kg2_verify_ok in H, H'. destruct H as [A [B _]], H' as [A' [B' _]].
  split; apply commit_pt_binding; congruence.
Qed.
Print Assumptions C74_first_message_binds.

(** The full claim is false: the proof may be for another point than the public share, so the public share
    (here any point P, and with it the joint key x2*P) comes without a proof of knowledge. *)
Theorem C74_proof_for_other_point_refuted : forall (C : Curve) Hb (Hf : hashF C) (P : pt C) (x x2 : Fq (cq C)),
  P <> smul x gen ->
  exists m1 w, kg2_verify Hb Hf m1 w = Ok tt /\ dp_pk (cw_proof w) = smul x gen /\ dp_pk (cw_proof w) <> cw_pub w /\
    cw_pub w = P /\ p2_pubkey {| kp_pub := smul x2 gen; kp_sec := x2 |} (cw_pub w) = smul x2 P.
Proof.
  intros C Hb Hf P x x2 NP. set (pf := dlog_prove Hf x f1).
  exists {| k1_pkc := commit_pt Hb P 1; k1_zkc := commit_pt Hb (dp_t pf) 2 |},
    {| cw_pkb := 1; cw_zkb := 2; cw_pub := P; cw_proof := pf |}.
  split. { apply kg2_verify_ok. split; [reflexivity|]. split; [reflexivity|]. apply dlog_complete. }
  split; [reflexivity|]. split; [cbn [cw_proof cw_pub pf dlog_prove dp_pk]; congruence|]. split; reflexivity.
Qed.
Print Assumptions C74_proof_for_other_point_refuted.
Example C74_example : (tz 12 : pt toy) <> smul (tz 7) gen.
Proof. toy_neq. Qed.

(** *** C75 *)
Theorem C75_eph1_verify_iff : forall (C : Curve) Hb (Hf : hashF C) (Hz : hashZ C) m1 (w : eph_wit C),
  eph1_verify Hb Hf Hz m1 w = Ok tt <->
  e2_pkc m1 = Hb (to_bytes (pt_int (ew_pub w)) ++ to_bytes (ew_pkb w)) /\
  e2_zkc m1 = Hb (to_bytes (Hz [HPt (dd_a1 (ew_proof w)); HPt (dd_a2 (ew_proof w))]) ++ to_bytes (ew_zkb w)) /\
  ddh_verify Hf (ew_proof w) {| dd_g1 := gen; dd_h1 := ew_pub w; dd_g2 := gen2; dd_h2 := ew_c w |} = true.
Proof. intros. apply eph1_verify_ok. Qed.
Print Assumptions C75_eph1_verify_iff.

Theorem C75_first_message_binds : forall (C : Curve) Hb (Hf : hashF C) (Hz : hashZ C) m1 (w w' : eph_wit C),
  eph1_verify Hb Hf Hz m1 w = Ok tt -> eph1_verify Hb Hf Hz m1 w' = Ok tt ->
  ew_pub w = ew_pub w' \/ collides Hb (opening (pt_int (ew_pub w)) (ew_pkb w)) (opening (pt_int (ew_pub w')) (ew_pkb w')).
Proof.
  intros C Hb Hf Hz m1 w w' H H'. apply eph1_verify_ok in H, H'. destruct H as [A _], H' as [A' _].
  apply commit_pt_binding; congruence.
Qed.
Print Assumptions C75_first_message_binds.

(** The proof shows one scalar for both points: if the two points have different discrete logarithms there is,
    for each pair of first moves, exactly one challenge value for which any response is accepted, so the
    random oracle must hit it.  Both sides' checks have this form. *)
Theorem C75_unequal_scalars_one_challenge : forall (C : Curve) (Hf : hashF C) (p : ddh_proof C) (P c : pt C) (a b : Fq (cq C)),
  P = smul a gen -> c = smul b gen2 -> a <> b ->
  ddh_verify Hf p (eph_stmt P c) = true ->
  ddh_chal Hf (eph_stmt P c) (dd_a1 p) (dd_a2 p) = ((dlog (dd_a2 p) * finv (dlog (gen2 : pt C)) - dlog (dd_a1 p)) * finv (a - b))%Fq.
Proof. exact ddh_one_challenge. Qed.
Print Assumptions C75_unequal_scalars_one_challenge.

(** And the discrete logarithm is extracted from two accepted answers to the same first moves (in the forked
    execution with oracle Hf'). *)
Theorem C75_extraction : forall (C : Curve) (Hf Hf' : hashF C) (p p' : ddh_proof C) (P c : pt C),
  ddh_verify Hf p (eph_stmt P c) = true -> ddh_verify Hf' p' (eph_stmt P c) = true ->
  dd_a1 p = dd_a1 p' -> dd_a2 p = dd_a2 p' ->
  let e := ddh_chal Hf (eph_stmt P c) (dd_a1 p) (dd_a2 p) in
  let e' := ddh_chal Hf' (eph_stmt P c) (dd_a1 p') (dd_a2 p') in
  e <> e' ->
  let x := ((dd_z p - dd_z p') * finv (e - e'))%Fq in P = smul x gen /\ c = smul x gen2.
Proof. intros C Hf Hf' p p' P c V V' E1 E2 e e' Ne x. apply (ddh_special_sound C Hf Hf' p p' (eph_stmt P c) V V' E1 E2 Ne). Qed.
Print Assumptions C75_extraction.

Definition eph_obs (k dk : Z) : Z :=
  match eph2_verify_and_decommit exHf (snd (fst (eph2_create ex_hash exHf exH (tz 3) (tz 9) 4 5)))
   (let m := fst (eph1_create exHf (tz k) (tz 8)) in {| e1_proof := e1_proof m; e1_pub := e1_pub m; e1_c := padd (e1_c m) (tz dk : pt toy) |}) with
  | Ok _ => 1 | _ => 0 end.
Example C75_example : eph_obs 6 0 = 1 /\ eph_obs 6 1 = 0.
Proof. vm_compute. auto. Qed.

(** *** C76 *)
Theorem C76_party_two_always_answers : forall (C : Curve) (Hf : hashF C) (Hz : hashZ C) (x2 : Fq (cq C)) N c r bt t1 t2,
  exists m beta, lindell_to_mta2 Hf Hz x2 N c r bt t1 t2 = Ok (m, beta) /\ dp_pk (mb_b m) = smul x2 gen.
Proof.
  intros. unfold lindell_to_mta2.
  destruct (mta_b_accept C Hz Hf x2 N {| ma_c := c; ma_proofs := [] |} r bt [] t1 t2 eq_refl (Forall2_nil _)) as [m [beta E]].
  exists m, beta. rewrite E. split; [reflexivity|]. apply mta_b_ok in E. destruct E as [_ [_ [_ [E _]]]]. rewrite E. reflexivity.
Qed.
Print Assumptions C76_party_two_always_answers.

(** The key ciphertext of the Lindell setup, answered by party two: shares of x1*x2 unless the plaintext wraps
    modulo N, in which case party one reports an error; the public check accepts party two's share and no other. *)
Theorem C76_lindell_key_in_mta : forall (C : Curve) (Hf : hashF C) (Hz : hashZ C) (p : party1 C) c (x2 : Fq (cq C)) r bt t1 t2 m beta,
  p1_ok C p c -> Z.gcd r (l1_p1 p * l1_p2 p) = 1 -> 0 <= bt ->
  lindell_to_mta2 Hf Hz x2 (l1_p1 p * l1_p2 p) c r bt t1 t2 = Ok (m, beta) ->
  (to_Z (l1_x p) * to_Z x2 + bt < l1_p1 p * l1_p2 p ->
     exists alpha sh, lindell_to_mta1 Hf p m = Ok (alpha, sh) /\ (alpha + beta = l1_x p * x2)%Fq) /\
  (forall alpha sh, lindell_to_mta1 Hf p m = Ok (alpha, sh) -> (alpha + beta = l1_x p * x2)%Fq) /\
  (forall X, verify_b_against_public X (dp_pk (mb_b m)) = true <-> X = smul x2 gen).
Proof. exact lindell_mta. Qed.
Print Assumptions C76_lindell_key_in_mta.

Example C76_example :
  let p := fst (lindell_setup (ekp 5) 173 179 7) in
  match lindell_to_mta2 exHf exH (tz 9) (173 * 179) (snd (lindell_setup (ekp 5) 173 179 7)) 3 30000 (tz 4) (tz 6) with
  | Ok (m, beta) => match lindell_to_mta1 exHf p m with Ok (alpha, sh) => to_Z (alpha + beta)%Fq = 45 mod 31 | _ => False end
  | _ => False end.
Proof. vm_compute. reflexivity. Qed.

(** *** C79: does an accepted pdl_verify tie the encrypted share to Q1?
    Exact acceptance condition, then two refutations. *)
Theorem C79_pdl_verify_iff : forall (C : Curve) (Hz : hashZ C) cd st p N c q1,
  lindell_pdl_verify Hz cd st p N c q1 = Ok tt <->
  ps_N st = N /\ ps_c st = c /\ ps_Q st = q1 /\
  cd {| dl_N := ps_Nt st; dl_h1 := ps_h1 st; dl_h2 := ps_h2 st |} = true /\ pdls_verify Hz p st = Ok tt.
Proof. exact pdl_verify_ok. Qed.
Print Assumptions C79_pdl_verify_iff.

Theorem C79_honest_share_accepted : forall (C : Curve) (Hz : hashZ C) cd (p : party1 C) c d pr,
  (forall l, 0 <= Hz l) -> p1_ok C p c -> good_st d -> cd d = true -> pr_ok pr ->
  exists st pf, lindell_pdl_proof Hz p c d pr = Ok (st, pf) /\
    lindell_pdl_verify Hz cd st pf (l1_p1 p * l1_p2 p) c (smul (l1_x p) gen) = Ok tt.
Proof. exact pdl_honest. Qed.
Print Assumptions C79_honest_share_accepted.

(** Party one may encrypt anything: for every plaintext y a proof is accepted for Q1 = x1*G. *)
Theorem C79_any_plaintext_accepted_refuted : forall (C : Curve) (Hz : hashZ C) cd (x1 : Fq (cq C)) p1 p2 y r d,
  (forall l, 0 <= Hz l) -> good_key p1 p2 -> Z.gcd r (p1 * p2) = 1 -> 0 <= y -> good_st d -> cd d = true ->
  exists st pf, lindell_pdl_verify Hz cd st pf (p1 * p2) (enc (p1 * p2) y r) (smul x1 gen) = Ok tt.
Proof.
  intros C Hz cd x1 p1 p2 y r d HH Hk Hr Hy [D1 [D2 D3]] Hcd. pose proof (good_key_gt1 _ _ Hk) as HN.
  set (st := {| ps_c := enc (p1 * p2) y r; ps_N := p1 * p2; ps_Q := smul x1 gen; ps_G := (gen : pt C);
               ps_h1 := dl_h1 d; ps_h2 := dl_h2 d; ps_Nt := dl_N d |}).
  exists st, (pdls_forged C Hz x1 st 0). apply pdl_verify_ok.
  refine (conj eq_refl (conj eq_refl (conj eq_refl (conj _ _)))); [destruct d; exact Hcd|].
  apply pdls_forged_ok; try assumption; try reflexivity; [unfold good_pst; cbn; auto|].
  cbn [st ps_c ps_N]. apply (is_enc_gcd _ _ y HN). apply enc_is_enc; assumption.
Qed.
Print Assumptions C79_any_plaintext_accepted_refuted.

(** The base point of the statement is not compared with the generator: an honestly computed proof with
    another base makes any key x pass for any non-zero Q1. *)
Theorem C79_other_base_accepted_refuted : forall (C : Curve) (Hz : hashZ C) cd (x : Fq (cq C)) (Q1 : pt C) p1 p2 r d pr,
  (forall l, 0 <= Hz l) -> good_key p1 p2 -> Z.gcd r (p1 * p2) = 1 -> good_st d -> cd d = true -> pr_ok pr -> x <> f0 ->
  exists st pf, ps_G st = smul (finv x) Q1 /\
    pdls_prove Hz x r st (fst (fst (fst pr))) (snd (fst (fst pr))) (snd (fst pr)) (snd pr) = Ok pf /\
    lindell_pdl_verify Hz cd st pf (p1 * p2) (enc (p1 * p2) (to_Z x) r) Q1 = Ok tt.
Proof. exact pdl_other_base. Qed.
Print Assumptions C79_other_base_accepted_refuted.

Example C79_example : good_st {| dl_N := 77; dl_h1 := 4; dl_h2 := (58 * 58 * 58) mod 77 |} /\ pr_ok (1000, 17, 3, 23) /\
  exists st pf, lindell_pdl_verify exH (fun _ => true) st pf (173 * 179) (enc (173 * 179) 6 7) (smul (tz 5) (gen : pt toy)) = Ok tt.
Proof.
  assert (G : good_st {| dl_N := 77; dl_h1 := 4; dl_h2 := (58 * 58 * 58) mod 77 |}).
  { unfold good_st. cbn [dl_N dl_h1 dl_h2]. split; [lia|]. split; reflexivity. }
  split; [exact G|]. split; [cbn; lia|].
  apply (C79_any_plaintext_accepted_refuted toy exH (fun _ => true) (tz 5) 173 179 6 7 _ exH_nonneg key_l eq_refl ltac:(lia) G eq_refl).
Qed.

(** *** C80: party one's check of party two's first message looks at the proof only; any public share passes. *)
Theorem C80_public_share_unchecked_refuted : forall (C : Curve) (Hf : hashF C) (w : comm_wit C) (x1 x : Fq (cq C)) (P : pt C),
  P <> smul x gen ->
  exists m2, kg1_verify_and_decommit Hf w (k2_proof m2) = Ok w /\ dp_pk (k2_proof m2) = smul x gen /\
    dp_pk (k2_proof m2) <> k2_pub m2 /\ p1_pubkey x1 (k2_pub m2) = smul x1 P.
Proof.
  intros C Hf w x1 x P NP. exists {| k2_proof := dlog_prove Hf x f1; k2_pub := P |}. cbn [k2_proof k2_pub].
  split; [unfold kg1_verify_and_decommit; rewrite dlog_complete; reflexivity|].
  split; [reflexivity|]. split; [|reflexivity]. cbn [dlog_prove dp_pk]. congruence.
Qed.
Print Assumptions C80_public_share_unchecked_refuted.

Theorem C80_verify_and_decommit_iff_partial : forall (C : Curve) (Hf : hashF C) (w w' : comm_wit C) (p : dlog_proof C),
  kg1_verify_and_decommit Hf w p = Ok w' <->
  w' = w /\ padd (smul (dp_z p) gen) (smul (Hf [HPt (dp_t p); HPt gen; HPt (dp_pk p)]) (dp_pk p)) = dp_t p.
Proof.
  intros. rewrite <- dlog_verify_iff. unfold kg1_verify_and_decommit. destruct (dlog_verify Hf p).
  - split; [intros E; apply ok_inj in E; auto|intros [-> _]; reflexivity].
  - split; [discriminate|intros [_ E]; discriminate].
Qed.
Print Assumptions C80_verify_and_decommit_iff_partial.
Example C80_example : (tz 12 : pt toy) <> smul (tz 7) gen.
Proof. toy_neq. Qed.

(** *** C81: the joint key is not the identity. *)
Theorem C81_lindell_joint_key_nonzero : forall (C : Curve) (x1 x2 : Fq (cq C)), x1 <> f0 -> x2 <> f0 ->
  p1_pubkey x1 (smul x2 (gen : pt C)) <> pzero.
Proof. intros C x1 x2 H1 H2. apply smul_nz; [assumption|]. apply smul_nz; [assumption|]. apply gen_nz. Qed.
Print Assumptions C81_lindell_joint_key_nonzero.

(** False for CCLST, which divides the sampled share by three as an integer. *)
Theorem C81_cclst_zero_share_refuted : forall (C : Curve),
  exists x : Fq (cq C), x <> f0 /\ forall P2 : pt C, p1_pubkey (cclst_share x) P2 = pzero.
Proof.
  intros C. exists f1. split; [apply f1_neq_f0; apply cq_prime|]. intros P2. unfold cclst_share.
  rewrite (to_Z_1 (cq_prime C)). change (1 / 3) with 0. unfold p1_pubkey. apply (pzero_dlog C). autorewrite with dlog.
  apply zero_mul.
Qed.
Print Assumptions C81_cclst_zero_share_refuted.

Theorem C81_cclst_zero_share_iff : forall (C : Curve) (x : Fq (cq C)), cclst_share x = f0 <-> to_Z x < 3.
Proof. exact cclst_share_zero. Qed.
Print Assumptions C81_cclst_zero_share_iff.
Example C81_example : to_Z (cclst_share (tz 29)) = 9 /\ to_Z (cclst_share (tz 2)) = 0.
Proof. vm_compute. auto. Qed.

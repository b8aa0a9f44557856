(** C106: GG20 on secp256k1 with 2048-bit Paillier keys, from key generation to the signature. *)
From Coq Require Import ZArith Znumtheory Lia Bool Field List.
From Verif Require Import ZArithX Fq Curve Outcome Sigma SigmaProofs Bytes Vss VssProofs Paillier PaillierProofs RangeProofs RangeProofsProofs
  Mta MtaProofs Ecdsa EcdsaProofs PropEcdsa Pdl Mp MpProofs Gg20Keygen KeygenProofs KeygenRun KeygenRunProofs Gg20Sign SignProofs SignRun SignRunProofs KeygenExtra
  RingPedersen CorrectKey PropRingPedersen PropCorrectKey PropSign PrimeBig Pocklington Weierstrass Cyclic WCurve Secp256k1 PropSecp.
Import ListNotations.
Local Open Scope Z_scope.

(** ** Specification: what the samplers of the library return *)
(** The Paillier key and the auxiliary parameters of one party, with their proofs. *)
Definition made_by_library {C : Curve} Hm al He (rc : Z -> list Z) (rd : Z -> Z * Z) (k : kg_rand C) : Prop :=
  exists q1 q2 h1 xhi s1 s2 r r',
     (good_key (kr_p1 k) (kr_p2 k) /\ 2047 <= bit_length (kr_p1 k * kr_p2 k) <= 2048 /\
      Z.gcd (kr_p1 k * kr_p2 k) ((kr_p1 k - 1) * (kr_p2 k - 1)) = 1 /\ Z.gcd al (kr_p1 k * kr_p2 k) = 1 /\
      ck_prove Hm (kr_p1 k) (kr_p2 k) = Some (rc (kr_ck k))) /\
     (good_key q1 q2 /\ 2047 <= bit_length (q1 * q2) <= 2048 /\ Z.gcd h1 (q1 * q2) = 1 /\ 0 <= xhi < (q1 - 1) * (q2 - 1) /\
      gen_h1h2 q1 q2 h1 xhi = Some (kr_dl k, s1, s2) /\ 0 <= r /\ 0 <= r' /\
      cd_prove He (kr_dl k) s1 r = Some (rd (kr_cd1 k)) /\ cd_prove He (swap_dl (kr_dl k)) s2 r' = Some (rd (kr_cd2 k))).
(** The samples of one signer: units modulo the keys [N], and masks at least [2^256 n] and [n^2] below the ends of their ranges. *)
Definition sampled {C : Curve} (N : nat -> Z) (m p : nat) (r : sign_rand C) : Prop :=
  Z.gcd (sr_r r) (N p) = 1 /\
  (forall j, 0 <= ar_alpha (sr_ar r j) <= cq C ^ 3 - 2 ^ 256 * cq C /\ 0 <= ar_beta (sr_ar r j) /\ 0 <= ar_gamma (sr_ar r j) /\ 0 <= ar_ro (sr_ar r j)) /\
  (forall j, 0 <= pr_alpha (sr_pdl r j) /\ 0 <= pr_beta (sr_pdl r j) /\ 0 <= pr_rho (sr_pdl r j) /\ 0 <= pr_gamma (sr_pdl r j)) /\
  (forall id, (id < m)%nat -> id <> p ->
     Z.gcd (br_r (sr_bg r id)) (N id) = 1 /\ 0 <= br_bt (sr_bg r id) <= N id - cq C * cq C /\
     Z.gcd (br_r (sr_bw r id)) (N id) = 1 /\ 0 <= br_bt (sr_bw r id) <= N id - cq C * cq C).

Lemma alpha_room (C : Curve) (Hz : hashZ C) (a : Fq (cq C)) N r sts :
  (forall l, 0 <= Hz l < 2 ^ 256) -> (forall st k, In (st, k) sts -> ar_alpha k <= cq C ^ 3 - 2 ^ 256 * cq C) ->
  Forall (fun x => ap_s1 x <= cq C ^ 3) (ma_proofs (mta_a Hz a N r sts)).
Proof.
  intros HH HA. unfold mta_a. cbn [ma_proofs]. apply Forall_forall. intros x X. apply in_map_iff in X. destruct X as ([st k] & <- & X).
  specialize (HA _ _ X). cbn [alice_generate ap_s1]. set (e := Hz _). pose proof (HH [HInt N; HInt (N + 1); HInt (enc N (to_Z a) r); HInt (Z.rem (powm (dl_h1 st) (to_Z a) (dl_N st) * powm (dl_h2 st) (ar_ro k) (dl_N st)) (dl_N st));
     HInt (Z.rem ((ar_alpha k * N + 1) * powm (ar_beta k) N (N * N)) (N * N)); HInt (Z.rem (powm (dl_h1 st) (ar_alpha k) (dl_N st) * powm (dl_h2 st) (ar_gamma k) (dl_N st)) (dl_N st))]) as B. fold e in B. clearbody e.
  pose proof (to_Z_range (cq_prime C) a) as R.
  assert (e * to_Z a <= 2 ^ 256 * cq C). { apply Z.mul_le_mono_nonneg; lia. }
  lia.
Qed.

Lemma library_facts (C : Curve) Hm al He rc rd (k : kg_rand C) : (forall l, 0 <= He l) -> made_by_library Hm al He rc rd k ->
  (ck_ok Hm al (rc (kr_ck k)) (kr_p1 k * kr_p2 k) = true /\ cd_verify (E := mp_error) He (rd (kr_cd1 k)) (kr_dl k) = Ok true /\
   cd_verify (E := mp_error) He (rd (kr_cd2 k)) (swap_dl (kr_dl k)) = Ok true /\
   2047 <= bit_length (kr_p1 k * kr_p2 k) <= 2048 /\ 2047 <= bit_length (dl_N (kr_dl k)) <= 2048) /\ good_key (kr_p1 k) (kr_p2 k) /\ good_st (kr_dl k).
Proof.
  intros HE (q1 & q2 & h1 & xhi & s1 & s2 & r & r' & (K & B & G & GA & PC) & (K2 & B2 & G2 & X & GEN & R0 & R1 & PD1 & PD2)).
  destruct (C103_honest_key_accepted Hm al _ _ K G GA) as (sigma & S & _ & V). assert (ES : sigma = rc (kr_ck k)) by congruence. subst sigma.
  assert (BIG : 2 ^ 128 < q1 * q2).
  { destruct (Z.le_gt_cases (q1 * q2) (2 ^ 128)) as [L|L]; [|exact L]. exfalso. destruct K2 as (Q1 & Q2 & _). pose proof (prime_ge_2 _ Q1). pose proof (prime_ge_2 _ Q2).
    assert (bit_length (q1 * q2) <= 129); [|lia]. unfold bit_length. destruct (q1 * q2 =? 0); [lia|]. rewrite Z.abs_eq by nia. pose proof (Z.log2_le_mono _ _ L) as M. rewrite Z.log2_pow2 in M by lia. lia. }
  destruct (C102_honest_setup_accepted He q1 q2 h1 xhi _ s1 s2 HE K2 BIG G2 X GEN) as (DN & GD1 & GD2 & GD3 & A).
  destruct (A r R0) as (a1 & _ & A1 & _ & V1 & _). destruct (A r' R1) as (_ & a2 & _ & A2 & _ & V2).
  assert (E1 : a1 = rd (kr_cd1 k)) by congruence. assert (E2 : a2 = rd (kr_cd2 k)) by congruence. subst a1 a2.
  split; [|split; [exact K|]].
  - split; [|split; [exact V1|split; [exact V2|split; [exact B|rewrite DN; exact B2]]]]. unfold ck_ok.
    assert (VU : ck_verify (E := unit) Hm al (rc (kr_ck k)) (kr_p1 k * kr_p2 k) = Ok true); [|rewrite VU; reflexivity].
    apply (verify_any (E := mp_error)); [exact (good_key_gt1 _ _ K)|exact V].
  - unfold good_st. rewrite DN, GD1. pose proof (good_key_gt1 _ _ K2) as N1. split; [exact N1|]. split; [exact G2|].
    rewrite GD2, gcd_mod_1 by lia. apply gcd_pow; [lia|exact G2].
Qed.

Theorem C106_gg20_with_library : forall (C : Curve) Hb (Hz : hashZ C) (Hf : hashF C) Hm al He rc rd (t n : nat) (ks : nat -> kg_rand C) (sl : list nat) (rs : nat -> sign_rand C) (msg : Z),
  (t < n)%nat -> Z.of_nat n < cq C -> (forall l, 0 <= Hz l < 2 ^ 256) -> (forall l, 0 <= He l) ->
  (forall i, (i < n)%nat -> length (kr_coefs (ks i)) = t /\ made_by_library Hm al He rc rd (ks i)) ->
  NoDup sl -> (forall i, In i sl -> (1 <= i <= n)%nat) -> (t < length sl)%nat ->
  (forall p, (p < length sl)%nat -> sampled (fun p' => kr_p1 (ks (nth p' sl 0 - 1)%nat) * kr_p2 (ks (nth p' sl 0 - 1)%nat)) (length sl) p (rs p)) ->
  fsum (map (fun p => sr_k (rs p)) (seq 0 (length sl))) <> f0 -> fsum (map (fun p => sr_gamma (rs p)) (seq 0 (length sl))) <> f0 ->
  let Y := smul (fsum (map (fun j => kr_u (ks j)) (seq 0 n))) (gen : pt C) in
  exists keys R x y, kg_run C Hb Hf (fun z => ck_ok Hm al (rc z)) (fun z => cd_verify He (rd z)) t n ks = Ok keys /\ length keys = n /\
  smul (fsum (map (fun p => sr_k (rs p)) (seq 0 (length sl)))) R = gen /\ coords R = Some (x, y) /\
  forall lks : nat -> local_key C, (forall p i, nth_error sl p = Some i -> nth_error keys (i - 1) = Some (lks p)) ->
  exists cs, sg_run C Hb Hz Hf sl lks rs = Ok cs /\
  (x mod cq C <> 0 -> padd (smul (of_Z (cq C) msg) gen) (smul (of_Z (cq C) x) Y) <> pzero ->
   exists sig, sg_online C msg cs = Ok (repeat sig (length sl)) /\
   to_Z (sg_r sig) = x mod cq C /\ to_Z (sg_s sig) <= (cq C - 1) / 2 /\ ecdsa_valid Y msg (to_Z (sg_r sig)) (to_Z (sg_s sig))).
Proof.
  intros C Hb Hz Hf Hm al He rc rd t n ks sl rs msg Htn Hq HHz HHe Hks Hnd Hin Hs Hrs Hk0 Hg0 Y.
  assert (LF := fun i I => library_facts C Hm al He rc rd (ks i) HHe (proj2 (Hks i I))).
  set (ck := fun z => ck_ok Hm al (rc z)). set (cd := fun z => cd_verify (E := mp_error) He (rd z)).
  assert (KG : kg_run C Hb Hf ck cd t n ks = Ok (map (h_lk C t n ks) (seq 0 n))).
  { apply kg_run_honest; try assumption; intros i Hi; destruct (LF i Hi) as ((A & B & D & E1 & E2) & _); try assumption.
    - split; apply bits_ok_iff; assumption.
    - apply (Hks i Hi). }
  set (ksum := fsum (map (fun p => sr_k (rs p)) (seq 0 (length sl)))) in *.
  assert (HRG : smul ksum (smul (finv ksum) gen) = (gen : pt C)). { rewrite smul_smul, fmul_finv by exact Hk0. apply smul_1. }
  destruct (coords_some C _ (smul_nz C _ _ HRG)) as (x & y & EC).
  exists (map (h_lk C t n ks) (seq 0 n)), (smul (finv ksum) gen), x, y. split; [exact KG|]. split; [rewrite map_length, seq_length; reflexivity|].
  split; [exact HRG|]. split; [exact EC|]. intros lks Hlks.
  destruct (C34_gg20_end_to_end C Hb Hz Hf ck cd t n ks sl rs msg Htn Hq (fun l => proj1 (HHz l))) as (keys & KG2 & _ & SG).
  - intros i I. apply (Hks i I).
  - intros i I. apply (LF i I).
  - intros i I. apply (LF i I).
  - exact Hnd.
  - exact Hin.
  - exact Hs.
  - assert (keys = map (h_lk C t n ks) (seq 0 n)) by congruence. subst keys.
    destruct (SG lks Hlks) as (R & x' & y' & cs & RG & EC' & RUN & SIG).
    + assert (SN : forall p, (p < length sl)%nat -> s_N C lks p = kr_p1 (ks (nth p sl 0 - 1)%nat) * kr_p2 (ks (nth p sl 0 - 1)%nat)).
      { intros p P. destruct (nth_error sl p) as [i|] eqn:Ei; [|apply nth_error_None in Ei; lia]. specialize (Hlks p i Ei) as Hk. specialize (Hin i (nth_error_In _ _ Ei)) as Hi.
        rewrite (nth_error_nth _ _ 0%nat Ei). unfold s_N. apply (nth_o_ok (E := unit)) in Hk. rewrite nth_o_map_seq in Hk by lia. injection Hk as <-. reflexivity. }
      split; [|split; [exact Hk0|exact Hg0]]. intros p P. destruct (Hrs p P) as (S1 & S2 & S3 & S4).
      split; [rewrite SN by exact P; exact S1|]. split; [intros j; destruct (S2 j) as (A & B); split; [apply A|exact B]|]. split; [intros j; exact (S3 j)|]. split.
      * unfold s_ma. apply alpha_room; [exact HHz|]. intros st k I. apply in_combine_r, in_map_iff in I. destruct I as (j & <- & _). apply (S2 j).
      * intros id I NE. rewrite SN by exact I. destruct (S4 id I NE) as (A & B & D & E). split; (apply brand_small; [assumption|lia|lia]).
    + assert (R = smul (finv ksum) gen). { rewrite <- (smul_1 C R), <- (finv_l (cq_prime C) ksum Hk0), <- smul_smul. f_equal. exact RG. } subst R. assert (x' = x) by congruence. subst x'.
      exists cs. split; [exact RUN|]. intros X0 NZ. destruct (SIG NZ) as (sig & S1 & S2 & S3 & _ & S5). exists sig. auto.
Qed.
Print Assumptions C106_gg20_with_library.

(** ** On secp256k1 *)
(** No point has x = 0, and only the two points with x = n give r = 0. *)
Definition zero_r_y : Z := 0x670999be34f51e8894b9c14211c28801d9a70fde24b71d3753854b35d07c9a11.
Definition half_exp : positive := 57896044618658097711785492504343953926634992332820282019728792003954417335831.
Lemma seven_not_square : negb ((rpow (fr secp_c) 7 half_exp - 1) mod secp_p =? 0) = true.
Proof. vm_cast_no_check (eq_refl true). Qed.
Lemma half_exp_2 : 2 * Zpos half_exp = secp_p - 1. Proof. reflexivity. Qed.
Lemma no_x_zero y : (y * y) mod secp_p <> 7 mod secp_p.
Proof.
  intros E. pose proof seven_not_square as M. pose proof secp_p3 as P3. apply negb_true_iff, Z.eqb_neq in M. apply M.
  apply Z.mod_divide; [lia|]. apply eqm_divide; [lia|]. eapply eqm_trans; [apply rpow_eqm, fr_eqm|].
  eapply eqm_trans; [apply eqm_pow with (b := y ^ 2); [lia|]; unfold eqm; rewrite <- E; f_equal; ring|].
  rewrite <- Z.pow_mul_r by lia. rewrite half_exp_2. unfold eqm. rewrite fermat, Z.mod_1_l; [reflexivity|lia|exact secp_p_prime|].
  intros Z0. assert (F : 7 mod secp_p = 0). { rewrite <- E, Z.mul_mod, Z0 by lia. apply Z.mod_0_l. lia. } revert F. vm_compute. discriminate.
Qed.
Theorem C106_zero_r_points : 
  (exists R : pt secp256k1, coords R = Some (spec_n, zero_r_y)) /\
  forall (R : pt secp256k1) x y, coords R = Some (x, y) -> (x mod spec_n = 0 <-> x = spec_n /\ (y = zero_r_y \/ y = spec_p - zero_r_y)).
Proof.
  assert (PN : spec_n < spec_p < 2 * spec_n) by (vm_compute; split; reflexivity). assert (N0 : 0 < spec_n) by (vm_compute; reflexivity).
  assert (YR : 0 <= zero_r_y < spec_p) by (split; vm_compute; [discriminate|reflexivity]).
  destruct (proj1 (C105_points spec_n zero_r_y ltac:(lia) YR) ltac:(vm_compute; reflexivity)) as [R0 E0].
  split; [exists R0; exact E0|]. intros R x y E. pose proof (coords_range _ _ _ _ E) as [XR _]. change (cp secp256k1) with spec_p in XR. split.
  - intros X0. assert (X : x = 0 \/ x = spec_n).
    { apply Z.mod_divide in X0; [|lia]. destruct X0 as [k K]. assert (k = 0 \/ k = 1); [|subst; lia]. destruct (Z.lt_trichotomy k 0) as [L|[L|L]]; [|left; exact L|right].
      - exfalso. assert (k * spec_n <= -1 * spec_n) by (apply Z.mul_le_mono_nonneg_r; lia). lia.
      - destruct (Z.lt_trichotomy k 1) as [M|[M|M]]; [lia|exact M|]. exfalso. assert (2 * spec_n <= k * spec_n) by (apply Z.mul_le_mono_nonneg_r; lia). lia. }
    destruct X as [-> | ->].
    + exfalso. pose proof (coords_range _ _ _ _ E) as [_ Y]. change (cp secp256k1) with spec_p in Y.
      assert (PT : exists P : pt secp256k1, coords P = Some (0, y)) by (exists R; exact E). apply C105_points in PT; [|lia|lia]. apply (no_x_zero y). exact PT.
    + split; [reflexivity|]. destruct (coords_same_x _ _ _ _ _ _ E0 E) as [-> | ->].
      * left. rewrite E0 in E. congruence.
      * right. rewrite (coords_neg _ _ _ _ E0) in E. injection E as <-. reflexivity.
  - intros [-> _]. apply Z.mod_same. lia.
Qed.
Print Assumptions C106_zero_r_points.

(** Key generation and signing by any t + 1 of n parties: every signer outputs the same valid low-s signature under the joint key, unless x = n or s = 0. *)
Theorem C106_gg20_secp256k1 : forall Hb (Hz : hashZ secp256k1) (Hf : hashF secp256k1) Hm al He rc rd (t n : nat) (ks : nat -> kg_rand secp256k1) (sl : list nat) (rs : nat -> sign_rand secp256k1) (msg : Z),
  (t < n)%nat -> Z.of_nat n < 65536 -> (forall l, 0 <= Hz l < 2 ^ 256) -> (forall l, 0 <= He l) ->
  (forall i, (i < n)%nat -> length (kr_coefs (ks i)) = t /\ made_by_library Hm al He rc rd (ks i)) ->
  NoDup sl -> (forall i, In i sl -> (1 <= i <= n)%nat) -> (t < length sl)%nat ->
  (forall p, (p < length sl)%nat -> sampled (fun p' => kr_p1 (ks (nth p' sl 0 - 1)%nat) * kr_p2 (ks (nth p' sl 0 - 1)%nat)) (length sl) p (rs p)) ->
  fsum (map (fun p => sr_k (rs p)) (seq 0 (length sl))) <> f0 -> fsum (map (fun p => sr_gamma (rs p)) (seq 0 (length sl))) <> f0 ->
  let Y := smul (fsum (map (fun j => kr_u (ks j)) (seq 0 n))) (gen : pt secp256k1) in
  exists keys R x y, kg_run secp256k1 Hb Hf (fun z => ck_ok Hm al (rc z)) (fun z => cd_verify He (rd z)) t n ks = Ok keys /\ length keys = n /\
  smul (fsum (map (fun p => sr_k (rs p)) (seq 0 (length sl)))) R = gen /\ coords R = Some (x, y) /\
  forall lks : nat -> local_key secp256k1, (forall p i, nth_error sl p = Some i -> nth_error keys (i - 1) = Some (lks p)) ->
  exists cs, sg_run secp256k1 Hb Hz Hf sl lks rs = Ok cs /\
  (x <> spec_n -> padd (smul (of_Z spec_n msg : Fq (cq secp256k1)) gen) (smul (of_Z spec_n x : Fq (cq secp256k1)) Y) <> pzero ->
   exists sig, sg_online secp256k1 msg cs = Ok (repeat sig (length sl)) /\
   to_Z (sg_r sig) = x mod spec_n /\ to_Z (sg_s sig) <= (spec_n - 1) / 2 /\ ecdsa_valid Y msg (to_Z (sg_r sig)) (to_Z (sg_s sig))).
Proof.
  intros Hb Hz Hf Hm al He rc rd t n ks sl rs msg Htn Hn HHz HHe Hks Hnd Hin Hs Hrs Hk0 Hg0 Y.
  assert (Hq : Z.of_nat n < cq secp256k1). { apply Z.lt_trans with (m := 65536); [exact Hn|reflexivity]. }
  destruct (C106_gg20_with_library secp256k1 Hb Hz Hf Hm al He rc rd t n ks sl rs msg Htn Hq HHz HHe Hks Hnd Hin Hs Hrs Hk0 Hg0) as (keys & R & x & y & KG & L & RG & EC & SG).
  exists keys, R, x, y. split; [exact KG|]. split; [exact L|]. split; [exact RG|]. split; [exact EC|]. intros lks Hl. destruct (SG lks Hl) as (cs & RUN & OUT).
  exists cs. split; [exact RUN|]. intros XN NZ. apply OUT; [|exact NZ]. intros X0. apply XN. apply (proj2 C106_zero_r_points R x y EC). exact X0.
Qed.
Print Assumptions C106_gg20_secp256k1.

(** Three parties with 2048-bit keys, of which the third and the first sign, meet all hypotheses for every hash function with 256-bit values. *)
Definition ex_sr (k : Fq (cq secp256k1)) : sign_rand secp256k1 :=
  {| sr_gamma := f1; sr_k := k; sr_blind := 0; sr_r := 1; sr_ar := fun _ => {| ar_alpha := 10 ^ 200; ar_beta := 1; ar_gamma := 2; ar_ro := 3 |};
     sr_bg := fun _ => {| br_r := 1; br_bt := 10 ^ 600; br_t1 := f1; br_t2 := f1 |}; sr_bw := fun _ => {| br_r := 1; br_bt := 10 ^ 500; br_t1 := f1; br_t2 := f1 |};
     sr_l := f1; sr_p1 := f1; sr_p2 := f1; sr_pdl := fun _ => {| pr_alpha := 5; pr_beta := 6; pr_rho := 7; pr_gamma := 8 |}; sr_h1 := f1; sr_h2 := f1 |}.
Lemma big_modulus N : 0 < N -> 2047 <= bit_length N -> 2 ^ 2046 <= N.
Proof.
  intros N0 B. unfold bit_length in B. destruct (N =? 0) eqn:E; [lia|]. rewrite Z.abs_eq in B by lia. apply Z.le_trans with (m := 2 ^ Z.log2 N); [apply Z.pow_le_mono_r; lia|]. apply Z.log2_spec. lia.
Qed.
Lemma ex_sampled N k m p : (forall i, (i < m)%nat -> 2 ^ 2046 <= N i) -> sampled N m p (ex_sr k).
Proof.
  intros HN. unfold sampled, ex_sr. cbn [sr_r sr_ar sr_pdl sr_bg sr_bw ar_alpha ar_beta ar_gamma ar_ro pr_alpha pr_beta pr_rho pr_gamma br_r br_bt].
  assert (A : 0 <= 10 ^ 200 <= cq secp256k1 ^ 3 - 2 ^ 256 * cq secp256k1) by (split; vm_compute; discriminate).
  assert (B : 0 <= 10 ^ 600 <= 2 ^ 2046 - cq secp256k1 * cq secp256k1) by (split; vm_compute; discriminate).
  assert (D : 0 <= 10 ^ 500 <= 2 ^ 2046 - cq secp256k1 * cq secp256k1) by (split; vm_compute; discriminate).
  split; [apply Z.gcd_1_l|]. split; [intros _; split; [exact A|lia]|]. split; [intros _; lia|].
  intros id I _. specialize (HN id I). revert B D HN. generalize (10 ^ 600), (10 ^ 500), (2 ^ 2046), (cq secp256k1 * cq secp256k1). intros a b c d B D HN.
  split; [apply Z.gcd_1_l|]. split; [lia|]. split; [apply Z.gcd_1_l|lia].
Qed.
Section Half.
Context (C : Curve).
Add Field cfh : (fq_field (cq_prime C)).
Lemma half_two (a k : Fq (cq C)) : a <> f0 -> fmul a (fmul (finv a) k) = k.
Proof. intros A. field. exact A. Qed.
End Half.
Lemma fsum_two (a : Fq (cq secp256k1)) : fsum [a; a] = fmul (of_Z (cq secp256k1) 2) a.
Proof.
  cbn [fsum fold_right]. rewrite <- (of_Z_to_Z a). unfold f0. rewrite <- of_Z_mul, <- !of_Z_add. f_equal. ring.
Qed.
Lemma two_nz (a : Fq (cq secp256k1)) : a <> f0 -> fsum [a; a] <> f0.
Proof.
  intros A. rewrite fsum_two. apply fmul_nz; [apply cq_prime| |exact A]. intros E. apply (f_equal to_Z) in E. revert E. vm_compute. discriminate.
Qed.
Lemma one_nz : (f1 : Fq (cq secp256k1)) <> f0.
Proof. intros E. apply (f_equal to_Z) in E. revert E. vm_compute. discriminate. Qed.
Lemma ex_keys : exists rc rd (ks : nat -> kg_rand secp256k1),
  forall i, (i < 3)%nat -> length (kr_coefs (ks i)) = 1%nat /\ made_by_library exm 30030 (fun _ => 3) rc rd (ks i).
Proof. exact (C103_keygen_example secp256k1 ltac:(reflexivity)). Qed.
Lemma ex_moduli Hm al He rc rd (ks : nat -> kg_rand secp256k1) : (forall i, (i < 3)%nat -> length (kr_coefs (ks i)) = 1%nat /\ made_by_library Hm al He rc rd (ks i)) ->
  forall i, (i < 2)%nat -> 2 ^ 2046 <= kr_p1 (ks (nth i [3; 1] 0 - 1)%nat) * kr_p2 (ks (nth i [3; 1] 0 - 1)%nat).
Proof.
  intros H i I. assert (J : (nth i [3; 1] 0 - 1 < 3)%nat) by (destruct i as [|[|i]]; cbn; lia). destruct (H _ J) as (_ & q1 & q2 & h1 & xhi & s1 & s2 & r & r' & (K & B & _) & _).
  pose proof (good_key_gt1 _ _ K). apply big_modulus; lia.
Qed.
Example C106_example : exists rc rd (ks : nat -> kg_rand secp256k1) (rs : nat -> sign_rand secp256k1),
  (forall i, (i < 3)%nat -> length (kr_coefs (ks i)) = 1%nat /\ made_by_library exm 30030 (fun _ => 3) rc rd (ks i)) /\
  (forall p, (p < 2)%nat -> sampled (fun p' => kr_p1 (ks (nth p' [3; 1] 0 - 1)%nat) * kr_p2 (ks (nth p' [3; 1] 0 - 1)%nat)) 2 p (rs p)) /\
  fsum (map (fun p => sr_k (rs p)) (seq 0 2)) <> f0 /\ fsum (map (fun p => sr_gamma (rs p)) (seq 0 2)) <> f0.
Proof.
  destruct ex_keys as (rc & rd & ks & K). exists rc, rd, ks, (fun _ => ex_sr f1). split; [exact K|]. split; [|split; exact (two_nz f1 one_nz)].
  intros p _. apply ex_sampled. exact (ex_moduli _ _ _ _ _ ks K).
Qed.

(** The nonce point with x = n: the parties output r = 0, which is not a signature.  Such nonces exist, though nobody can compute one. *)
Theorem C106_zero_r_refuted : exists ksum : Fq (cq secp256k1), ksum <> f0 /\
  forall Hb (Hz : hashZ secp256k1) (Hf : hashF secp256k1) n (f : list (Fq (cq secp256k1))) Ns dls sl lks (rs : nat -> sign_rand secp256k1) (msg : Z),
  (forall l, 0 <= Hz l) -> signers_ok n f Ns dls sl lks -> sign_rand_ok Hz dls sl lks rs ->
  fsum (map (fun p => sr_k (rs p)) (seq 0 (length sl))) = ksum -> msg mod spec_n <> 0 ->
  exists cs sig, sg_run secp256k1 Hb Hz Hf sl lks rs = Ok cs /\ sg_online secp256k1 msg cs = Ok (repeat sig (length sl)) /\ to_Z (sg_r sig) = 0 /\
  forall Q : pt secp256k1, ~ ecdsa_valid Q msg (to_Z (sg_r sig)) (to_Z (sg_s sig)).
Proof.
  destruct (proj1 C106_zero_r_points) as [R0 E0].
  assert (D0 : dlog R0 <> f0). { intros D. assert (Z0 : R0 = pzero) by (apply dlog_inj; rewrite D, dlog_zero; reflexivity). apply coords_zero in Z0. congruence. }
  exists (finv (dlog R0)). split; [apply finv_nz; [apply cq_prime|exact D0]|].
  intros Hb Hz Hf n f Ns dls sl lks rs msg HH KO RO KS M0.
  destruct (C34_gg20_sign_correct secp256k1 Hb Hz Hf n f Ns dls sl lks rs msg HH KO RO) as (R & x & y & cs & RG & EC & RUN & OUT & _).
  rewrite KS in RG. assert (R = R0).
  { rewrite <- (smul_1 _ R), <- (fmul_finv _ (dlog R0) D0), <- smul_smul, RG. symmetry. apply pt_is_mul. }
  subst R. assert (x = spec_n) by congruence. subst x. exists cs.
  destruct OUT as (sig & S1 & S2 & _).
  - intros E. apply M0. apply (f_equal to_Z) in E. replace (of_Z (cq secp256k1) spec_n) with (f0 : Fq (cq secp256k1)) in E by (apply of_Z_eq_iff; reflexivity).
    rewrite <- (of_Z_to_Z (hd f0 f)) in E. unfold f0 in E. rewrite <- of_Z_mul, <- of_Z_add, !to_Z_of_Z in E. rewrite Z.mul_0_l, Z.add_0_r in E. exact E.
  - exists sig. split; [exact RUN|]. split; [exact S1|]. assert (RZ : to_Z (sg_r sig) = 0) by (rewrite S2; reflexivity). split; [exact RZ|].
    intros Q V. destruct V as (V & _). lia.
Qed.
Print Assumptions C106_zero_r_refuted.
(** Nonce shares adding up to any value, such as that one, with 2048-bit keys. *)
Lemma h_signers_ok (C : Curve) (t n : nat) (ks : nat -> kg_rand C) sl lks : (t < n)%nat -> Z.of_nat n < cq C ->
  (forall i, (i < n)%nat -> length (kr_coefs (ks i)) = t) -> (forall i, (i < n)%nat -> good_key (kr_p1 (ks i)) (kr_p2 (ks i)) /\ good_st (kr_dl (ks i))) ->
  NoDup sl -> (forall i, In i sl -> (1 <= i <= n)%nat) -> (t < length sl)%nat ->
  (forall p i, nth_error sl p = Some i -> nth_error (map (h_lk C t n ks) (seq 0 n)) (i - 1) = Some (lks p)) ->
  signers_ok n (h_sum C n ks) (map (fun j => kr_p1 (ks j) * kr_p2 (ks j)) (seq 0 n)) (map (fun j => kr_dl (ks j)) (seq 0 n)) sl lks.
Proof.
  intros Htn Hq Hco Hgd Hnd Hin Hs Hlks. assert (HL := h_sum_length C t n ks Htn Hco). refine (conj Hnd (conj Hin (conj Hq (conj _ (conj _ (conj _ (conj _ _))))))).
  - unfold h_sum. destruct n as [|n']; [lia|]. cbn [seq map]. apply poly_sum_nonempty. discriminate.
  - lia.
  - rewrite map_length, seq_length. reflexivity.
  - apply Forall_forall. intros d Hd. apply in_map_iff in Hd. destruct Hd as (j & <- & Hj). apply in_seq in Hj. apply Hgd. lia.
  - intros p Hp. destruct (nth_error sl p) as [i|] eqn:Ei; [|apply nth_error_None in Ei; lia].
    specialize (Hlks p i Ei) as Hk. specialize (Hin i (nth_error_In _ _ Ei)) as Hi.
    apply (nth_o_ok (E := unit)) in Hk. rewrite nth_o_map_seq in Hk by lia. injection Hk as <-. cbn [plus].
    assert (EI : s_idx sl p = (i - 1)%nat). { unfold s_idx. apply nth_error_nth. apply nth_error_l_s. exact Ei. }
    rewrite EI. apply kg_key_ok; [lia|]. apply Hgd. lia.
Qed.
Lemma ex_rand_ok (Hz : hashZ secp256k1) dls (lks : nat -> local_key secp256k1) k : (forall l, 0 <= Hz l < 2 ^ 256) -> k <> f0 ->
  (forall p, (p < 2)%nat -> 2 ^ 2046 <= lk_p1 (lks p) * lk_p2 (lks p)) -> sign_rand_ok Hz dls [3; 1]%nat lks (fun _ => ex_sr k).
Proof.
  intros HHz K0 BIG. split; [|split; [exact (two_nz k K0)|exact (two_nz f1 one_nz)]]. intros p P. destruct (ex_sampled (fun p => lk_p1 (lks p) * lk_p2 (lks p)) k 2 p BIG) as (S1 & S2 & S3 & S4).
  split; [exact S1|]. split; [intros j; destruct (S2 j) as (A & B); split; [apply A|exact B]|]. split; [intros j; exact (S3 j)|]. split.
  - unfold s_ma. apply alpha_room; [exact HHz|]. intros st a I. apply in_combine_r, in_map_iff in I. destruct I as (j & <- & _). apply (S2 j).
  - intros id I NE. destruct (S4 id I NE) as (A & B & D & E). unfold s_N. split; (apply brand_small; [assumption|lia|lia]).
Qed.
Example C106_zero_r_example : forall ksum : Fq (cq secp256k1), ksum <> f0 -> exists f Ns dls lks (rs : nat -> sign_rand secp256k1),
  signers_ok 3 f Ns dls [3; 1]%nat lks /\ sign_rand_ok (fun _ => 5) dls [3; 1]%nat lks rs /\ fsum (map (fun p => sr_k (rs p)) (seq 0 2)) = ksum.
Proof.
  intros ksum K0. destruct ex_keys as (rc & rd & ks & K).
  assert (LF := fun i I => library_facts secp256k1 exm 30030 (fun _ => 3) rc rd (ks i) (fun _ => ltac:(lia)) (proj2 (K i I))).
  set (lks := fun p => h_lk secp256k1 1 3 ks (nth p [3; 1] 0 - 1)%nat).
  assert (T0 : of_Z (cq secp256k1) 2 <> f0). { intros E. apply (f_equal to_Z) in E. revert E. vm_compute. discriminate. }
  set (k := fmul (finv (of_Z (cq secp256k1) 2)) ksum).
  assert (KN : k <> f0). { apply fmul_nz; [apply cq_prime| |exact K0]. apply finv_nz; [apply cq_prime|exact T0]. }
  exists (h_sum secp256k1 3 ks), (map (fun j => kr_p1 (ks j) * kr_p2 (ks j)) (seq 0 3)), (map (fun j => kr_dl (ks j)) (seq 0 3)), lks, (fun _ => ex_sr k). split; [|split].
  - apply (h_signers_ok secp256k1 1 3 ks); [lia|reflexivity|intros i I; apply (K i I)|intros i I; apply (LF i I)| | |cbn; lia|].
    + repeat constructor; cbn; intuition congruence.
    + intros i [<-|[<-|[]]]; lia.
    + intros [|[|p]] i E; cbn in E; [injection E as <-; reflexivity|injection E as <-; reflexivity|destruct p; discriminate].
  - apply ex_rand_ok; [intros _; lia|exact KN|]. intros p P. exact (ex_moduli _ _ _ _ _ ks K p P).
  - change (fsum [k; k] = ksum). rewrite fsum_two. unfold k. apply half_two, T0.
Qed.

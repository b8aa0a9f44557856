(** Further theorems on C52, C75, C79 and C84: what the verifier of zk_pdl is committed to, what
    party two checks before it opens its nonce, that the proof party one makes from its own key generation state is accepted, and what the phase 5 commitments of GG18 signing bind. *)
From Coq Require Import ZArith Znumtheory Lia Bool List.
From Verif Require Import ZArithX Fq Curve Toy Outcome Sigma SigmaProofs Bytes Ecdsa Paillier PaillierProofs RangeProofs RangeProofsProofs Pdl PdlProofs
  PdlSlack PdlSlackProofs PropCommit PropRange Mta MtaProofs PropMta TwoParty TwoPartyProofs PropTwoParty Mp MpProofs Gg20Sign Gg18Sign Gg18SignProofs.
Import ListNotations.
Local Open Scope Z_scope.

(** * C75: party two opens its commitments exactly when party one's proof for its nonce point verifies *)
Theorem C75_eph2_verify_iff : forall (C : Curve) (Hf : hashF C) (w w' : eph_wit C) (m : eph1_first C),
  eph2_verify_and_decommit Hf w m = Ok w' <->
  w' = w /\ let p := e1_proof m in
  let e := Hf [HPt gen; HPt (e1_pub m); HPt gen2; HPt (e1_c m); HPt (dd_a1 p); HPt (dd_a2 p)] in
  smul (dd_z p) gen = padd (dd_a1 p) (smul e (e1_pub m)) /\ smul (dd_z p) gen2 = padd (dd_a2 p) (smul e (e1_c m)).
Proof.
  intros C Hf w w' m. unfold eph2_verify_and_decommit, ddh_verify, ddh_chal, eph_stmt. cbn [dd_g1 dd_h1 dd_g2 dd_h2]. cbv zeta.
  destruct (pt_eqb_spec C (smul (dd_z (e1_proof m)) gen) (padd (dd_a1 (e1_proof m)) (smul (Hf [HPt gen; HPt (e1_pub m); HPt gen2; HPt (e1_c m); HPt (dd_a1 (e1_proof m)); HPt (dd_a2 (e1_proof m))]) (e1_pub m)))) as [E1|E1]; cbn [andb].
  2:{ split; [discriminate|tauto]. }
  destruct (pt_eqb_spec C (smul (dd_z (e1_proof m)) gen2) (padd (dd_a2 (e1_proof m)) (smul (Hf [HPt gen; HPt (e1_pub m); HPt gen2; HPt (e1_c m); HPt (dd_a1 (e1_proof m)); HPt (dd_a2 (e1_proof m))]) (e1_c m)))) as [E2|E2].
  - split; [intros E; apply ok_inj in E; auto|intros [-> _]; reflexivity].
  - split; [discriminate|tauto].
Qed.
Print Assumptions C75_eph2_verify_iff.

(** * C79: the state party one keeps after key generation, with auxiliary parameters it generated itself, gives an
    accepted proof about the ciphertext it sent. *)
Theorem C79_own_setup_accepted : forall (C : Curve) (Hz : hashZ C) cd (x1 : Fq (cq C)) p1 p2 r pa qa h1 xhi d pr,
  (forall l, 0 <= Hz l) -> good_key p1 p2 -> Z.gcd r (p1 * p2) = 1 ->
  1 < pa * qa -> 0 <= xhi -> gen_h1_h2 pa qa h1 xhi = Ok d -> cd d = true -> pr_ok pr ->
  let st := lindell_setup {| kp_pub := smul x1 gen; kp_sec := x1 |} p1 p2 r in
  exists s pf, lindell_pdl_proof Hz (fst st) (snd st) d pr = Ok (s, pf) /\
    lindell_pdl_verify Hz cd s pf (p1 * p2) (snd st) (smul x1 gen) = Ok tt.
Proof.
  intros C Hz cd x1 p1 p2 r pa qa h1 xhi d pr HH Hk Hr HN Hx Hd Hcd Hpr st.
  apply gen_h1_h2_good in Hd; [|assumption|assumption]. destruct Hd as [Hd _].
  exact (pdl_honest C Hz cd (fst st) (snd st) d pr HH (conj Hk (conj Hr eq_refl)) Hd Hcd Hpr).
Qed.
Print Assumptions C79_own_setup_accepted.
(** The auxiliary parameters party one makes: h2 is the xhi-th power of the inverse of h1, so it generates no more than h1. *)
Theorem C79_own_parameters : forall pa qa h1 xhi d, 1 < pa * qa -> 0 <= xhi -> gen_h1_h2 pa qa h1 xhi = Ok d ->
  dl_N d = pa * qa /\ dl_h1 d = h1 /\ Z.gcd h1 (pa * qa) = 1 /\ 0 <= dl_h2 d < pa * qa /\ (dl_h2 d * h1 ^ xhi) mod (pa * qa) = 1.
Proof.
  intros pa qa h1 xhi d HN Hx Hd. pose proof Hd as Hd'. apply gen_h1_h2_good in Hd; [|assumption|assumption].
  destruct Hd as [[_ [G _]] [EN [EH EM]]]. rewrite EN, EH in *. split; [reflexivity|]. split; [reflexivity|]. split; [exact G|]. split.
  - unfold gen_h1_h2 in Hd'. destruct (mod_inv h1 (pa * qa)) as [i|]; [|discriminate]. cbn [unwrap obind] in Hd'.
    destruct (mod_pow i xhi (pa * qa)) as [h2|] eqn:EP; [|discriminate]. cbn [unwrap obind] in Hd'. apply ok_inj in Hd'. subst d. cbn [dl_h2] in *.
    unfold mod_pow in EP. destruct (Z.eqb_spec (pa * qa) 0); [lia|]. destruct (Z.leb_spec 0 xhi); [|lia]. injection EP as <-.
    rewrite Z.abs_eq by lia. rewrite powm_spec by lia. apply Z.mod_pos_bound. lia.
  - rewrite EM. apply Z.mod_small. lia.
Qed.
Print Assumptions C79_own_parameters.
Example C79_own_example : exists d, gen_h1_h2 7 11 4 3 = Ok d /\ dl_h2 d = 71 /\ (71 * 4 ^ 3) mod 77 = 1.
Proof. eexists. split; [vm_compute; reflexivity|]. split; reflexivity. Qed.

(** * C84: what the phase 5 commitments bind *)
(** A list of points is encoded injectively. *)
Lemma pt_bytes_full_length {C : Curve} (P : pt C) : length (pt_bytes_full P) = 65%nat.
Proof.
  unfold pt_bytes_full. destruct (coords P) as [[x y]|]; [|reflexivity]. cbn [length]. rewrite app_length, !be_fixed_length. reflexivity.
Qed.
Lemma pt_bytes_full_inj {C : Curve} (P Q : pt C) : pt_bytes_full P = pt_bytes_full Q -> P = Q.
Proof.
  unfold pt_bytes_full. destruct (coords P) as [[x y]|] eqn:EP, (coords Q) as [[x' y']|] eqn:EQ; intros H.
  - apply cons_inv in H. destruct H as [_ H]. apply app_eq_len in H; [|rewrite !be_fixed_length; reflexivity]. destruct H as [Hx Hy].
    apply be_fixed_inj in Hx; [|apply (coord_bound _ _ _ _ EP)|apply (coord_bound _ _ _ _ EQ)].
    apply be_fixed_inj in Hy; [|apply (coord_bound _ _ _ _ EP)|apply (coord_bound _ _ _ _ EQ)]. subst x' y'.
    destruct (coords_same_x C P Q x y y EP EQ) as [E|E]; [auto|]. exfalso. subst Q. rewrite (coords_neg C _ _ _ EP) in EQ. injection EQ as E.
    pose proof (cp_odd C) as Ho. apply Zodd_bool_iff, Zodd_ex in Ho. destruct Ho as [k Hk]. lia.
  - discriminate.
  - discriminate.
  - apply coords_zero in EP, EQ. congruence.
Qed.
Lemma pts_bytes_inj {C : Curve} (l l' : list (pt C)) : length l = length l' -> concat (map pt_bytes_full l) = concat (map pt_bytes_full l') -> l = l'.
Proof.
  revert l'. induction l as [|P l IH]; intros [|Q l'] L E; try discriminate; [reflexivity|]. cbn [map concat] in E.
  apply app_eq_len in E; [|rewrite !pt_bytes_full_length; reflexivity]. destruct E as [E1 E2]. apply pt_bytes_full_inj in E1. subst Q.
  f_equal. apply IH; [injection L as L; exact L|exact E2].
Qed.
(** One byte string is a proper beginning of the other. *)
Definition proper_prefix (a b : list Z) : Prop := exists x l, b = a ++ x :: l.
Lemma app_prefix (a b c d : list Z) : a ++ b = c ++ d -> a = c \/ proper_prefix a c \/ proper_prefix c a.
Proof.
  revert c. induction a as [|x a IH]; intros [|y c] E; cbn in E.
  - auto.
  - right. left. exists y, c. reflexivity.
  - right. right. exists x, a. reflexivity.
  - injection E as -> E. destruct (IH c E) as [->|[(z & l & ->)|(z & l & ->)]]; [auto| |].
    + right. left. exists z, l. reflexivity.
    + right. right. exists z, l. reflexivity.
Qed.
(** The same points, or the two strings of points collide, or the two inputs of the outer hash collide, or the digest of one
    list of points is written as a beginning of the other's. *)
Definition bound {C : Curve} (Hb : list Z -> Z) (l l' : list (pt C)) (b b' : Z) : Prop :=
  let s := concat (map pt_bytes_full l) in let s' := concat (map pt_bytes_full l') in
  let h := to_bytes (Hb s) in let h' := to_bytes (Hb s') in
  l = l' \/ (s <> s' /\ h = h') \/ (h ++ to_bytes b <> h' ++ to_bytes b' /\ Hb (h ++ to_bytes b) = Hb (h' ++ to_bytes b')) \/
  proper_prefix h h' \/ proper_prefix h' h.
Lemma com_bound {C : Curve} Hb (l l' : list (pt C)) b b' : length l = length l' ->
  commit Hb (hash_pts Hb l) b = commit Hb (hash_pts Hb l') b' -> bound Hb l l' b b'.
Proof.
  intros L E. unfold bound, commit, hash_pts in *. cbv zeta.
  set (s := concat (map pt_bytes_full l)) in *. set (s' := concat (map pt_bytes_full l')) in *.
  destruct (list_Z_eq_dec (to_bytes (Hb s) ++ to_bytes b) (to_bytes (Hb s') ++ to_bytes b')) as [E'|E']; [|auto].
  apply app_prefix in E'. destruct E' as [E'|[E'|E']]; [|tauto|tauto].
  destruct (list_Z_eq_dec s s') as [ES|ES]; [|tauto]. left. apply pts_bytes_inj; assumption.
Qed.

(** Two openings of the commitments of phase 5a that phase 5c accepts, for any two parties and at any two points of time. *)
Theorem C84_phase5a_commitment_binds :
  forall (C : Curve) Hb (Hf : hashF C) (s s' : local18 C) coms decs decs' hegs hegs' rhos rhos' vi vi' R R' b b' out out' i d d',
  g18_5c Hb Hf s decs coms hegs rhos vi R b = Ok out -> g18_5c Hb Hf s' decs' coms hegs' rhos' vi' R' b' = Ok out' ->
  nth_error decs i = Some d -> nth_error decs' i = Some d' ->
  bound Hb [a5_v d; a5_a d; a5_b d] [a5_v d'; a5_a d'; a5_b d'] (a5_blind d) (a5_blind d').
Proof.
  intros C Hb Hf s s' coms decs decs' hegs hegs' rhos rhos' vi vi' R R' b b' out out' i d d' H H' D D'.
  assert (K : forall s decs hegs rhos vi R b out d, g18_5c Hb Hf s decs coms hegs rhos vi R b = Ok out -> nth_error decs i = Some d ->
    nth_error coms i = Some (commit Hb (hash_pts Hb [a5_v d; a5_a d; a5_b d]) (a5_blind d))).
  { clear. intros s decs hegs rhos vi R b out d H D.
    destruct (coords (l18_R s)) as [[x y]|] eqn:EC.
    - apply (g18_5c_ok C Hb Hf s decs coms hegs rhos vi R b x y out EC) in H. destruct H as (_ & H & _).
      destruct (H i d D) as (c & h & p & Hc & _ & _ & E & _). congruence.
    - exfalso. unfold g18_5c in H. cbv zeta in H. apply obind_ok in H. destruct H as (u & _ & H). apply obind_ok in H. destruct H as (ok & _ & H).
      unfold x_coord in H. rewrite EC in H. discriminate. }
  pose proof (K _ _ _ _ _ _ _ _ _ H D) as E1. pose proof (K _ _ _ _ _ _ _ _ _ H' D') as E2. rewrite E1 in E2. injection E2 as E2.
  apply com_bound; [reflexivity|exact E2].
Qed.
Print Assumptions C84_phase5a_commitment_binds.

(** The same for the commitments of phase 5c, opened in phase 5d. *)
Theorem C84_phase5c_commitment_binds :
  forall (C : Curve) Hb (s s' : local18 C) coms decs decs' ds ds' out out' i d d',
  length decs = length coms -> length decs' = length coms ->
  g18_5d Hb s decs coms ds = Ok out -> g18_5d Hb s' decs' coms ds' = Ok out' ->
  nth_error decs i = Some d -> nth_error decs' i = Some d' ->
  bound Hb [d5_u d; d5_t d] [d5_u d'; d5_t d'] (d5_blind d) (d5_blind d').
Proof.
  intros C Hb s s' coms decs decs' ds ds' out out' i d d' L L' H H' D D'.
  assert (K : forall (s : local18 C) decs ds out d, length decs = length coms -> g18_5d Hb s decs coms ds = Ok out -> nth_error decs i = Some d ->
    nth_error coms i = Some (commit Hb (hash_pts Hb [d5_u d; d5_t d]) (d5_blind d))).
  { clear. intros s decs ds out d L H D. destruct (Nat.eq_dec (length decs) (length ds)) as [LD|LD].
    - destruct (g18_5d_spec C Hb s decs coms ds LD L) as [(A & _ & _)|[(A & _ & _)|(A & E)]]; [exact (A i d D)|exact (A i d D)|congruence].
    - exfalso. unfold g18_5d in H. apply Nat.eqb_neq in LD. rewrite LD in H. discriminate. }
  pose proof (K _ _ _ _ _ L H D) as E1. pose proof (K _ _ _ _ _ L' H' D') as E2. rewrite E1 in E2. injection E2 as E2.
  apply com_bound; [reflexivity|exact E2].
Qed.
Print Assumptions C84_phase5c_commitment_binds.

(** The last two cases of [bound] cannot be dropped: the digest of the points and the blinding factor are joined without a
    length, so for any two different openings there is a hash under which neither pair of inputs collides and the
    commitments are the same. *)
Theorem C84_commitment_boundary_refuted :
  forall (C : Curve) (l l' : list (pt C)), length l = length l' -> l <> l' ->
  exists Hb b b', 0 <= b /\ 0 <= b' /\ commit Hb (hash_pts Hb l) b = commit Hb (hash_pts Hb l') b' /\
    let s := concat (map pt_bytes_full l) in let s' := concat (map pt_bytes_full l') in
    ~ (s <> s' /\ Hb s = Hb s') /\
    ~ (to_bytes (Hb s) ++ to_bytes b <> to_bytes (Hb s') ++ to_bytes b' /\ Hb (to_bytes (Hb s) ++ to_bytes b) = Hb (to_bytes (Hb s') ++ to_bytes b')).
Proof.
  intros C l l' L N. set (s := concat (map pt_bytes_full l)). set (s' := concat (map pt_bytes_full l')).
  assert (NS : s <> s') by (intros E; apply N, pts_bytes_inj; assumption).
  exists (fun x => if list_Z_eq_dec x s then 258 else 1), 3, 515. unfold commit, hash_pts. fold s s'. cbv zeta.
  destruct (list_Z_eq_dec s s) as [_|X]; [|contradiction]. destruct (list_Z_eq_dec s' s) as [X|_]; [congruence|].
  change (to_bytes 258 ++ to_bytes 3) with [1; 2; 3]. change (to_bytes 1 ++ to_bytes 515) with [1; 2; 3].
  split; [lia|]. split; [lia|]. split; [reflexivity|]. split; [lia|]. intros [X _]. contradiction.
Qed.
Print Assumptions C84_commitment_boundary_refuted.
Example C84_boundary_example :
  let l := [tz 3; tz 4; tz 5] : list (pt toy) in let l' := [tz 3; tz 4; tz 6] : list (pt toy) in
  length l = length l' /\ l <> l' /\ commit ex_hash (hash_pts ex_hash l) 7 <> commit ex_hash (hash_pts ex_hash l') 7.
Proof.
  cbv zeta. split; [reflexivity|]. split; [intros E; apply (f_equal (map (@to_Z _))) in E; vm_compute in E; discriminate|].
  intros E. vm_compute in E. discriminate.
Qed.

(** * C52: is the verifier of the interactive proof committed to its challenge (a, b)? *)
(** Full statement (false): two openings of the verifier's first message that the prover accepts show the same a and b.
    The committed integer is a + b * 2^(bit length of a), which does not determine a and b: for every key share x the
    challenge (3, 2x-1), sent as the code does, can be opened as (1, 4x-1) as well, with the same blinding factor (and so
    under every hash function), and the prover answers both. *)
Theorem C52_challenge_not_bound_refuted :
  forall (C : Curve) (Hb : list Z -> Z) (w : pdl_wit C) st renc blind pblind,
  honest_pdl C w st -> Z.gcd renc (pd_N st) = 1 -> 3 < cq C -> pw_x w <> f0 -> 5 * cq C <= pd_N st ->
  let x := to_Z (pw_x w) in
  let v1 := v_message1 Hb st (of_Z (cq C) 3) (2 * x - 1) renc blind in
  let p1 := p_message1 Hb w st (fst v1) pblind true in
  exists d, p_message2 Hb (fst v1) {| v2_a := 3; v2_b := 2 * x - 1; v2_blind := blind |} w (snd p1) = Ok d /\
            p_message2 Hb (fst v1) {| v2_a := 1; v2_b := 4 * x - 1; v2_blind := blind |} w (snd p1) = Ok d.
Proof.
  intros C Hb w st renc blind pblind Hh Hr Q3 NX HN x v1 p1.
  pose proof (to_Z_range (cq_prime C) (pw_x w)) as Rx. fold x in Rx.
  assert (X1 : 1 <= x).
  { pose proof (to_Z_nz _ NX) as Z0. fold x in Z0. lia. }
  assert (E3 : to_Z (of_Z (cq C) 3) = 3) by (rewrite to_Z_of_Z; apply Z.mod_small; lia).
  pose proof (pdl_alpha C Hb w st (of_Z (cq C) 3) (2 * x - 1) renc blind pblind true Hh Hr) as EA.
  change (pp_alpha (snd p1) = (to_Z (of_Z (cq C) 3) * x + (2 * x - 1)) mod pd_N st) in EA. rewrite E3, Z.mod_small in EA by lia.
  assert (EC : v1_c_tag_tag (fst v1) = commit Hb (8 * x - 1) blind).
  { unfold v1, v_message1. cbn [fst v1_c_tag_tag]. rewrite E3. unfold ab_concat. f_equal. change (bit_length 3) with 2. rewrite Z.shiftl_mul_pow2 by lia. lia. }
  exists (pp_decommit (snd p1)). split; apply p_message2_iff; cbn [v2_a v2_b v2_blind]; fold x; (split; [reflexivity|split; [lia|]]); rewrite EC; f_equal; unfold ab_concat.
  - change (bit_length 3) with 2. rewrite Z.shiftl_mul_pow2 by lia. lia.
  - change (bit_length 1) with 1. rewrite Z.shiftl_mul_pow2 by lia. lia.
Qed.
Print Assumptions C52_challenge_not_bound_refuted.

(** With the bit length of a fixed, the committed integer determines a and b. *)
Theorem C52_challenge_bound_partial : forall a b a' b', 0 <= a -> 0 <= b -> 0 <= a' -> 0 <= b' ->
  bit_length a = bit_length a' -> ab_concat a b = ab_concat a' b' -> a = a' /\ b = b'.
Proof.
  intros a b a' b' Ha Hb Ha' Hb' HL E. unfold ab_concat in E. rewrite <- HL in E.
  assert (LA : forall z, 0 <= z -> 0 < bit_length z /\ z < 2 ^ bit_length z).
  { intros z Hz. unfold bit_length. destruct (Z.eqb_spec z 0) as [->|N]; [lia|]. rewrite Z.abs_eq by lia.
    pose proof (Z.log2_nonneg z). split; [lia|]. apply Z.log2_spec. lia. }
  destruct (LA a Ha) as [L1 L2]. destruct (LA a' Ha') as [_ L3]. rewrite <- HL in L3. rewrite !Z.shiftl_mul_pow2 in E by lia.
  assert (EA : a = a').
  { rewrite <- (Z.mod_small a (2 ^ bit_length a)), <- (Z.mod_small a' (2 ^ bit_length a)) by lia.
    rewrite <- (Z_mod_plus_full a b), <- (Z_mod_plus_full a' b'), E. reflexivity. }
  split; [exact EA|]. nia.
Qed.
Print Assumptions C52_challenge_bound_partial.
Example C52_challenge_example :
  (honest_pdl toy {| pw_x := tz 6; pw_r := 5; pw_p1 := 47; pw_p2 := 53 |} {| pd_c := enc (47 * 53) 6 5; pd_N := 47 * 53; pd_Q := smul (tz 6) gen; pd_G := gen |}) /\
  5 * cq toy <= 47 * 53 /\ ab_concat 3 11 = ab_concat 1 23 /\ bit_length 20 = bit_length 21 /\ ab_concat 20 7 <> ab_concat 21 7.
Proof.
  split; [|vm_compute; repeat split; congruence].
  unfold honest_pdl, good_key. cbn [pd_N pw_p1 pw_p2 pw_r pw_x pd_c pd_Q pd_G].
  split; [refine (conj _ (conj _ _)); [apply prime_check; [lia|vm_compute; reflexivity]..|lia]|]. repeat split; reflexivity.
Qed.

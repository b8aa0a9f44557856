(** C103: the proof that a Paillier key is correct. *)
From Coq Require Import ZArith Znumtheory Lia Bool List.
From Verif Require Import ZArithX Fq Curve Toy Outcome Sigma Bytes Vss Pdl Paillier PaillierProofs PaillierOpen Mp MpProofs RangeProofs Gg20Keygen KeygenRun KeygenRunProofs PropKeygen PrimeCert PrimeBig RingPedersen PropRingPedersen CorrectKey.
Import ListNotations.
Local Open Scope Z_scope.

Lemma derived_spec {E} sigma N : 1 < N -> forall l, (forall i, In i l -> (i < length sigma)%nat) ->
  omapM (fun i => let* s := nth_o sigma i in unwrap (mod_pow s N N)) l = Ok (E := E) (map (fun i => (nth i sigma 0 ^ N) mod N) l).
Proof.
  intros HN l. induction l as [|i l IH]; intros H; cbn [omapM map]; [reflexivity|].
  unfold nth_o at 1. rewrite (nth_error_nth' sigma 0) by (apply H; left; reflexivity). cbn [unwrap obind]. rewrite mod_pow_pos by lia. cbn [unwrap obind]. rewrite IH by (intros j J; apply H; right; exact J). reflexivity.
Qed.
Lemma derived_panic {E} sigma N : 1 < N -> forall l, (exists i, In i l /\ (length sigma <= i)%nat) ->
  omapM (fun i => let* s := nth_o sigma i in unwrap (mod_pow s N N)) l = Panic (E := E).
Proof.
  intros HN l. induction l as [|i l IH]; intros (j & J & L); [destruct J|]. cbn [omapM]. unfold nth_o at 1. destruct (nth_error sigma i) as [s|] eqn:E1; cbn [unwrap obind]; [|reflexivity].
  rewrite mod_pow_pos by lia. cbn [unwrap obind]. rewrite IH; [reflexivity|]. exists j. split; [|exact L]. destruct J as [->|J]; [|exact J]. exfalso. apply nth_error_None in L. congruence.
Qed.

Lemma verify_any {E E'} Hm al sigma N b : 1 < N -> ck_verify (E := E) Hm al sigma N = Ok b -> ck_verify (E := E') Hm al sigma N = Ok b.
Proof.
  intros HN V. unfold ck_verify in V |- *. destruct (Nat.ltb_spec (length sigma) 11) as [L|L].
  - rewrite derived_panic in V; [discriminate|exact HN|exists (length sigma); split; [apply in_seq; unfold CK_M2; lia|lia]].
  - assert (I : forall i, In i (seq 0 CK_M2) -> (i < length sigma)%nat) by (intros j J; apply in_seq in J; unfold CK_M2 in J; lia).
    rewrite (derived_spec sigma N HN _ I) in V. rewrite (derived_spec sigma N HN _ I). cbn [obind] in V |- *. congruence.
Qed.

(** * C103 *)
(** Verification panics exactly for vectors that are too short, never fails otherwise, and accepts exactly when every derived value
    is the N-th power of the given one and N has no small factor. *)
Theorem C103_verify_iff : forall Hm al sigma N, 1 < N ->
  (ck_verify (E := mp_error) Hm al sigma N = Panic <-> (length sigma < 11)%nat) /\
  (forall e, ck_verify (E := mp_error) Hm al sigma N <> Err e) /\
  (ck_verify (E := mp_error) Hm al sigma N = Ok true <->
     Z.gcd al N = 1 /\ forall i, (i < 11)%nat -> exists s, nth_error sigma i = Some s /\ eqm N (s ^ N) (Hm N i)).
Proof.
  intros Hm al sigma N HN. unfold ck_verify. destruct (Nat.ltb_spec (length sigma) 11) as [L|L].
  - rewrite derived_panic; [|exact HN|exists (length sigma); split; [apply in_seq; unfold CK_M2; lia|lia]]. cbn [obind].
    split; [tauto|]. split; [discriminate|]. split; [discriminate|]. intros (_ & H). destruct (H (length sigma) L) as (s & S & _). apply (f_equal (fun o => match o with Some _ => true | None => false end)) in S. rewrite (proj2 (nth_error_None sigma (length sigma))) in S by lia. discriminate.
  - rewrite derived_spec; [|exact HN|intros i I; apply in_seq in I; unfold CK_M2 in I; lia]. cbn [obind].
    split; [split; [discriminate|lia]|]. split; [discriminate|]. unfold ck_rho. destruct (list_eq_dec Z.eq_dec _ _) as [Q|Q]; cbn [andb].
    + split.
      * intros H. injection H as H. apply Z.eqb_eq in H. split; [exact H|]. intros i I. exists (nth i sigma 0). split; [apply nth_error_nth'; lia|].
        apply (f_equal (fun l => nth_error l i)) in Q. rewrite !nth_error_map in Q. rewrite (nth_error_nth' _ 0%nat) in Q by (rewrite seq_length; exact I). rewrite seq_nth in Q by exact I. cbn [Nat.add option_map] in Q. unfold eqm. congruence.
      * intros (G & _). rewrite G. reflexivity.
    + split; [discriminate|]. intros (_ & H). exfalso. apply Q. apply map_ext_in. intros i I. apply in_seq in I. destruct (H i ltac:(unfold CK_M2 in I; lia)) as (s & S & R). rewrite (nth_error_nth _ _ 0 S). symmetry. exact R.
Qed.
Print Assumptions C103_verify_iff.
(** Modulo 35 every number is a 35th power; a wrong root, a short vector, and a small factor *)
Definition exm (N : Z) (i : nat) : Z := 100 + Z.of_nat i.
Example C103_verify_example :
  let ok := match ck_prove exm 5 7 with Some s => s | None => [] end in
  ck_verify (E := mp_error) exm 6 ok 35 = Ok true /\ ck_verify (E := mp_error) exm 6 (1 :: ok) 35 = Ok false /\
  ck_verify (E := mp_error) exm 6 (tl ok) 35 = Panic /\ ck_verify (E := mp_error) exm 10 ok 35 = Ok false.
Proof. vm_compute. repeat split. Qed.

(** Honest keys pass: two different primes whose product is prime to phi and to the small primes. *)
Lemma root_any p N d z k : prime p -> 0 < N -> 0 < d -> N * d = 1 + z * (p - 1) -> 0 <= z -> eqm p ((k ^ d) ^ N) k.
Proof.
  intros P HN HD E Z0. pose proof (prime_ge_2 p P). destruct (Z.eq_dec (k mod p) 0) as [K|K].
  - assert (K0 : eqm p k 0) by (unfold eqm; rewrite K; reflexivity). rewrite <- Z.pow_mul_r by lia. eapply eqm_trans; [apply eqm_pow with (b := 0); [nia|exact K0]|]. rewrite Z.pow_0_l by nia. apply eqm_sym, K0.
  - rewrite <- Z.pow_mul_r, Z.mul_comm, Z.pow_mul_r by lia. apply (root_prime p N k d z); assumption || lia.
Qed.
Lemma extract_nroot_spec p1 p2 k : good_key p1 p2 -> Z.gcd (p1 * p2) ((p1 - 1) * (p2 - 1)) = 1 -> exists s, extract_nroot p1 p2 k = Some s /\ eqm (p1 * p2) (s ^ (p1 * p2)) k.
Proof.
  intros GK G. pose proof (good_key_gt1 _ _ GK) as HN. destruct GK as (P1 & P2 & NE). pose proof (prime_ge_2 _ P1). pose proof (prime_ge_2 _ P2). unfold extract_nroot.
  assert (PH : 1 < (p1 - 1) * (p2 - 1)) by nia. destruct (mod_inv_complete _ _ PH G) as [d D]. rewrite D. apply mod_inv_sound in D; [|exact PH]. destruct D as [D D0].
  eexists. split; [reflexivity|]. set (N := p1 * p2) in *. set (phi := (p1 - 1) * (p2 - 1)) in *.
  assert (EN : N * d = 1 + (N * d / phi) * phi) by (pose proof (Z.div_mod (N * d) phi ltac:(lia)); lia). assert (Hz : 0 <= N * d / phi) by (apply Z.div_pos; nia). set (z := N * d / phi) in *.
  assert (D1 : 0 < d) by (destruct (Z.eq_dec d 0) as [->|]; [rewrite Z.mul_0_r, Z.mod_0_l in D by lia; discriminate|lia]).
  rewrite powm_spec by lia. eapply eqm_trans; [apply eqm_pow with (b := k ^ d); [lia|]; eapply eqm_trans; [apply eqm_mod|apply eqm_pow; [lia|apply eqm_mod]]|].
  unfold eqm. apply (crt_unique p1 p2); try assumption; try (apply Z.mod_pos_bound; fold N; lia); rewrite <- !Zmod_div_mod by (try lia; try (fold N; lia); unfold N; (exists p2; ring) || (exists p1; ring)).
  - apply (root_any p1 N d (z * (p2 - 1)) k); [assumption|lia|lia| |nia]. rewrite EN. unfold phi. ring.
  - apply (root_any p2 N d (z * (p1 - 1)) k); [assumption|lia|lia| |nia]. rewrite EN. unfold phi. ring.
Qed.
Lemma all_some_map {A B} (f : A -> option B) l : (forall x, In x l -> exists y, f x = Some y) -> exists r, all_some (map f l) = Some r /\ Forall2 (fun x y => f x = Some y) l r.
Proof.
  induction l as [|a l IH]; intros H; cbn [map all_some]; [exists []; split; [reflexivity|constructor]|]. destruct (H a (or_introl eq_refl)) as [y Y]. rewrite Y.
  destruct IH as (r & R & F); [intros x X; apply H; right; exact X|]. rewrite R. exists (y :: r). split; [reflexivity|]. constructor; assumption.
Qed.
Lemma F2_length {A B} (R : A -> B -> Prop) l r : Forall2 R l r -> length l = length r.
Proof. intros F. induction F; cbn [length]; congruence. Qed.
Lemma Forall2_nth {A B} (R : A -> B -> Prop) l r i x : Forall2 R l r -> nth_error l i = Some x -> exists y, nth_error r i = Some y /\ R x y.
Proof.
  intros F. revert i. induction F as [|a b l r H F IH]; intros [|i] E; cbn [nth_error] in *; try discriminate.
  - injection E as <-. exists b. split; [reflexivity|exact H].
  - apply IH, E.
Qed.
Theorem C103_honest_key_accepted : forall Hm al p1 p2,
  good_key p1 p2 -> Z.gcd (p1 * p2) ((p1 - 1) * (p2 - 1)) = 1 -> Z.gcd al (p1 * p2) = 1 ->
  exists sigma, ck_prove Hm p1 p2 = Some sigma /\ length sigma = 11%nat /\ ck_verify (E := mp_error) Hm al sigma (p1 * p2) = Ok true.
Proof.
  intros Hm al p1 p2 GK G GA. pose proof (good_key_gt1 _ _ GK) as HN. unfold ck_prove.
  destruct (all_some_map (extract_nroot p1 p2) (ck_rho Hm (p1 * p2))) as (sigma & S & F).
  { intros x _. destruct (extract_nroot_spec p1 p2 x GK G) as (s & E & _). exists s. exact E. }
  exists sigma. split; [exact S|]. split; [rewrite <- (F2_length _ _ _ F); unfold ck_rho; rewrite map_length, seq_length; reflexivity|].
  apply (C103_verify_iff Hm al sigma (p1 * p2) HN). split; [exact GA|]. intros i I.
  destruct (Forall2_nth _ _ _ i (Hm (p1 * p2) i mod (p1 * p2)) F) as (s & Y & E).
  { unfold ck_rho. rewrite nth_error_map, (nth_error_nth' _ 0%nat) by (rewrite seq_length; exact I). rewrite seq_nth by exact I. reflexivity. }
  exists s. split; [exact Y|]. destruct (extract_nroot_spec p1 p2 (Hm (p1 * p2) i mod (p1 * p2)) GK G) as (s' & E' & Q). assert (s' = s) by congruence. subst s'. eapply eqm_trans; [exact Q|apply eqm_mod].
Qed.
Print Assumptions C103_honest_key_accepted.
Example C103_honest_example :
  good_key P68 P73 /\ Z.gcd (P68 * P73) ((P68 - 1) * (P73 - 1)) = 1 /\ Z.gcd (2 * 3 * 5 * 7 * 11 * 13) (P68 * P73) = 1.
Proof.
  split; [refine (conj prime_P68 (conj prime_P73 _)); discriminate|]. split; vm_compute; reflexivity.
Qed.

(** What an accepted proof says about a modulus divisible by a square p^2: every derived value that is a unit lies in a subgroup of index
    p, so its residue modulo p decides its residue modulo p^2. *)
Theorem C103_square_factor : forall Hm al sigma N p,
  1 < N -> ck_verify (E := mp_error) Hm al sigma N = Ok true -> prime p -> (p * p | N) ->
  (forall i, (i < 11)%nat -> Hm N i mod p <> 0 -> eqm (p * p) (Hm N i ^ (p - 1)) 1) /\
  (forall i j, (i < 11)%nat -> (j < 11)%nat -> eqm p (Hm N i) (Hm N j) -> Hm N i mod p <> 0 -> eqm (p * p) (Hm N i) (Hm N j)).
Proof.
  intros Hm al sigma N p HN H P D. apply C103_verify_iff in H; [|exact HN]. destruct H as (_ & H). pose proof (prime_ge_2 _ P) as P2. destruct D as [c D]. assert (C0 : 0 < c) by nia.
  assert (W : forall i, (i < 11)%nat -> exists s, eqm (p * p) (s ^ (p * (p * c))) (Hm N i)).
  { intros i I. destruct (H i I) as (s & _ & Q). exists s. apply (eqm_weaken N); [lia|nia|exists c; exact D|]. replace (p * (p * c)) with N by lia. exact Q. }
  assert (U : forall i s, eqm (p * p) (s ^ (p * (p * c))) (Hm N i) -> Hm N i mod p <> 0 -> s mod p <> 0).
  { intros i s Q NZ S0. apply NZ. apply (eqm_weaken (p * p) p) in Q; [|nia|lia|exists p; ring]. unfold eqm in Q. rewrite <- Q. change (eqm p (s ^ (p * (p * c))) 0).
    eapply eqm_trans; [apply eqm_pow with (b := 0); [nia|unfold eqm; rewrite S0; reflexivity]|]. rewrite Z.pow_0_l by nia. apply eqm_refl. }
  assert (A : forall i, (i < 11)%nat -> Hm N i mod p <> 0 -> eqm (p * p) (Hm N i ^ (p - 1)) 1).
  { intros i I NZ. destruct (W i I) as (s & Q). eapply eqm_trans; [apply eqm_pow with (b := s ^ (p * (p * c))); [lia|apply eqm_sym, Q]|].
    rewrite <- Z.pow_mul_r by nia. replace (p * (p * c) * (p - 1)) with (p * (p - 1) * (p * c)) by ring. rewrite Z.pow_mul_r by nia.
    eapply eqm_trans; [apply eqm_pow with (b := 1); [nia|apply euler_sq; [exact P|eapply U; eassumption]]|]. rewrite Z.pow_1_l by nia. apply eqm_refl. }
  split; [exact A|]. intros i j I J E NZ. assert (NZj : Hm N j mod p <> 0) by (rewrite <- E; exact NZ).
  (* x = Hm N i, y = Hm N j, x^p = y^p modulo p^2 because x = y modulo p; cancel the (p-1)-th powers, which are 1 *)
  assert (Gx : Z.gcd (Hm N i) p = 1) by (apply prime_gcd; assumption).
  pose proof (pow_N_mod p _ _ ltac:(lia) Gx E) as F. 
  assert (S : forall x, eqm (p * p) (x ^ (p - 1)) 1 -> eqm (p * p) (x ^ p) x).
  { intros x Q. replace (x ^ p) with (x * x ^ (p - 1)) by (rewrite <- Z.pow_succ_r by lia; f_equal; lia). eapply eqm_trans; [apply eqm_mul; [apply eqm_refl|exact Q]|]. rewrite Z.mul_1_r. apply eqm_refl. }
  eapply eqm_trans; [apply eqm_sym, S, A; assumption|]. eapply eqm_trans; [exact F|]. apply S, A; assumption.
Qed.
Print Assumptions C103_square_factor.
(** With 25 and derived values 1 and 7 (both fourth roots of 1 modulo 25) the conclusions hold; 6 is no 25th power. *)
Example C103_square_example :
  ck_verify (E := mp_error) (fun _ i => if Nat.even i then 1 else 7) 6 [1; 7; 1; 7; 1; 7; 1; 7; 1; 7; 1] 25 = Ok true /\
  (7 ^ (5 - 1)) mod (5 * 5) = 1 /\ (6 ^ (5 - 1)) mod (5 * 5) <> 1.
Proof. vm_compute. repeat split. discriminate. Qed.

(** Likewise for two prime factors p and q of N with q = 1 modulo p (then N is not prime to phi(N)). *)
Theorem C103_common_factor : forall Hm al sigma N p q,
  1 < N -> ck_verify (E := mp_error) Hm al sigma N = Ok true -> prime p -> prime q -> (p | N) -> (q | N) -> (p | q - 1) ->
  forall i, (i < 11)%nat -> Hm N i mod q <> 0 -> eqm q (Hm N i ^ ((q - 1) / p)) 1.
Proof.
  intros Hm al sigma N p q HN H P Q DP DQ DPQ i I NZ. apply C103_verify_iff in H; [|exact HN]. destruct H as (_ & H). pose proof (prime_ge_2 _ P). pose proof (prime_ge_2 _ Q).
  destruct (H i I) as (s & _ & S). apply (eqm_weaken N q) in S; [|lia|lia|exact DQ]. destruct DPQ as [c DPQ]. rewrite DPQ, Z.div_mul by lia. assert (0 < c) by nia. destruct DP as [b DP]. assert (0 < b) by nia.
  assert (SQ : s mod q <> 0).
  { intros S0. apply NZ. unfold eqm in S. rewrite <- S. change (eqm q (s ^ N) 0). eapply eqm_trans; [apply eqm_pow with (b := 0); [lia|unfold eqm; rewrite S0; reflexivity]|]. rewrite Z.pow_0_l by lia. apply eqm_refl. }
  eapply eqm_trans; [apply eqm_pow with (b := s ^ N); [lia|apply eqm_sym, S]|]. rewrite <- Z.pow_mul_r by lia. replace (N * c) with ((q - 1) * b) by (rewrite DP, DPQ; ring). rewrite Z.pow_mul_r by lia.
  eapply eqm_trans; [apply eqm_pow with (b := 1); [lia|unfold eqm; rewrite fermat, Z.mod_1_l by (assumption || lia); reflexivity]|]. rewrite Z.pow_1_l by lia. apply eqm_refl.
Qed.
Print Assumptions C103_common_factor.
(** 11 = 1 modulo 5: for 55 only squares modulo 11 can be derived values. *)
Example C103_common_example :
  ck_verify (E := mp_error) (fun _ i => if Nat.even i then 1 else 54) 6 [1; 54; 1; 54; 1; 54; 1; 54; 1; 54; 1] 55 = Ok true /\ (5 | 11 - 1) /\
  (54 ^ ((11 - 1) / 5)) mod 11 = 1 /\ (2 ^ ((11 - 1) / 5)) mod 11 <> 1.
Proof. split; [vm_compute; reflexivity|]. split; [exists 2; reflexivity|]. split; vm_compute; [reflexivity|discriminate]. Qed.

(** "An accepted modulus is a product of two primes" is false: a prime N passes with the derived values themselves as the proof. *)
Theorem C103_prime_modulus_refuted : forall Hm al N, prime N -> Z.gcd al N = 1 -> ck_verify (E := mp_error) Hm al (ck_rho Hm N) N = Ok true.
Proof.
  intros Hm al N P G. pose proof (prime_ge_2 _ P). apply C103_verify_iff; [lia|]. split; [exact G|]. intros i I. exists (Hm N i mod N).
  split; [unfold ck_rho; rewrite nth_error_map, (nth_error_nth' _ 0%nat) by (rewrite seq_length; exact I); rewrite seq_nth by exact I; reflexivity|].
  eapply eqm_trans; [apply eqm_pow with (b := Hm N i); [lia|apply eqm_mod]|]. replace (Hm N i ^ N) with ((Hm N i ^ 1) ^ N) by (rewrite Z.pow_1_r; reflexivity). apply (root_any N N 1 1); [exact P|lia|lia|ring|lia].
Qed.
Print Assumptions C103_prime_modulus_refuted.
Example C103_prime_modulus_example : prime P73 /\ Z.gcd (2 * 3 * 5 * 7 * 11 * 13) P73 = 1 /\ ck_verify (E := mp_error) exm (2 * 3 * 5 * 7 * 11 * 13) (ck_rho exm P73) P73 = Ok true.
Proof. split; [exact prime_P73|]. split; vm_compute; reflexivity. Qed.

(** With the proofs of the library, honest parties finish key generation: C20 without assumptions about the proofs.  The proofs in
    messages are read by [rc] and [rd]. *)
Theorem C103_keygen_with_library_proofs : forall (C : Curve) Hb (Hf : hashF C) Hm al He (rc : Z -> list Z) (rd : Z -> Z * Z) (t n : nat) (rs : nat -> kg_rand C),
  (t < n)%nat -> Z.of_nat n < cq C -> (forall l, 0 <= He l) ->
  (forall i, (i < n)%nat -> length (kr_coefs (rs i)) = t) ->
  (forall i, (i < n)%nat -> exists q1 q2 h1 xhi s1 s2 r r',
     (good_key (kr_p1 (rs i)) (kr_p2 (rs i)) /\ 2047 <= bit_length (kr_p1 (rs i) * kr_p2 (rs i)) <= 2048 /\
      Z.gcd (kr_p1 (rs i) * kr_p2 (rs i)) ((kr_p1 (rs i) - 1) * (kr_p2 (rs i) - 1)) = 1 /\ Z.gcd al (kr_p1 (rs i) * kr_p2 (rs i)) = 1 /\
      ck_prove Hm (kr_p1 (rs i)) (kr_p2 (rs i)) = Some (rc (kr_ck (rs i)))) /\
     (good_key q1 q2 /\ 2047 <= bit_length (q1 * q2) <= 2048 /\ Z.gcd h1 (q1 * q2) = 1 /\ 0 <= xhi < (q1 - 1) * (q2 - 1) /\
      gen_h1h2 q1 q2 h1 xhi = Some (kr_dl (rs i), s1, s2) /\ 0 <= r /\ 0 <= r' /\
      cd_prove He (kr_dl (rs i)) s1 r = Some (rd (kr_cd1 (rs i))) /\ cd_prove He (swap_dl (kr_dl (rs i))) s2 r' = Some (rd (kr_cd2 (rs i))))) ->
  exists lks, kg_run C Hb Hf (fun z => ck_ok Hm al (rc z)) (fun z => cd_verify He (rd z)) t n rs = Ok lks /\ length lks = n /\
  forall lk, In lk lks -> lk_y lk = smul (secret_of n (fun j => kr_u (rs j))) gen.
Proof.
  intros C Hb Hf Hm al He rc rd t n rs Htn Hq HE Hco H.
  destruct (C20_gg20_keygen_correct C Hb Hf (fun z => ck_ok Hm al (rc z)) (fun z => cd_verify He (rd z)) t n rs Htn Hq Hco) as (lks & x & R & L & V & _).
  - intros i I. destruct (H i I) as (q1 & q2 & h1 & xhi & s1 & s2 & r & r' & (K & B & G & GA & PC) & (K2 & B2 & G2 & X & GEN & R0 & R1 & PD1 & PD2)).
    destruct (C103_honest_key_accepted Hm al _ _ K G GA) as (sigma & S & _ & V). assert (ES : sigma = rc (kr_ck (rs i))) by congruence. subst sigma.
    assert (BIG : 2 ^ 128 < q1 * q2).
    { destruct (Z.le_gt_cases (q1 * q2) (2 ^ 128)) as [L|L]; [|exact L]. exfalso. destruct K2 as (Q1 & Q2 & _). pose proof (prime_ge_2 _ Q1). pose proof (prime_ge_2 _ Q2).
      assert (bit_length (q1 * q2) <= 129); [|lia]. unfold bit_length. destruct (q1 * q2 =? 0); [lia|]. rewrite Z.abs_eq by nia. pose proof (Z.log2_le_mono _ _ L) as M. rewrite Z.log2_pow2 in M by lia. lia. }
    destruct (C102_honest_setup_accepted He q1 q2 h1 xhi _ s1 s2 HE K2 BIG G2 X GEN) as (DN & _ & _ & _ & A).
    destruct (A r R0) as (a1 & _ & A1 & _ & V1 & _). destruct (A r' R1) as (_ & a2 & _ & A2 & _ & V2).
    assert (E1 : a1 = rd (kr_cd1 (rs i))) by congruence. assert (E2 : a2 = rd (kr_cd2 (rs i))) by congruence. subst a1 a2.
    split; [|split; [exact V1|split; [exact V2|split; [exact B|rewrite DN; exact B2]]]]. unfold ck_ok.
    assert (VU : ck_verify (E := unit) Hm al (rc (kr_ck (rs i))) (kr_p1 (rs i) * kr_p2 (rs i)) = Ok true); [|rewrite VU; reflexivity].
    apply (verify_any (E := mp_error)); [exact (good_key_gt1 _ _ K)|exact V].
  - exists lks. split; [exact R|]. split; [exact L|]. intros lk K. apply In_nth_error in K. destruct K as [i K]. destruct (V i lk K) as (Y & _). exact Y.
Qed.
Print Assumptions C103_keygen_with_library_proofs.
(** Three parties with the 2048-bit modulus Q1 Q2 satisfy the hypotheses. *)
Example C103_keygen_example : forall C : Curve, 3 < cq C -> exists rc rd (rs : nat -> kg_rand C),
  forall i, (i < 3)%nat -> length (kr_coefs (rs i)) = 1%nat /\ exists q1 q2 h1 xhi s1 s2 r r',
     (good_key (kr_p1 (rs i)) (kr_p2 (rs i)) /\ 2047 <= bit_length (kr_p1 (rs i) * kr_p2 (rs i)) <= 2048 /\
      Z.gcd (kr_p1 (rs i) * kr_p2 (rs i)) ((kr_p1 (rs i) - 1) * (kr_p2 (rs i) - 1)) = 1 /\ Z.gcd 30030 (kr_p1 (rs i) * kr_p2 (rs i)) = 1 /\
      ck_prove exm (kr_p1 (rs i)) (kr_p2 (rs i)) = Some (rc (kr_ck (rs i)))) /\
     (good_key q1 q2 /\ 2047 <= bit_length (q1 * q2) <= 2048 /\ Z.gcd h1 (q1 * q2) = 1 /\ 0 <= xhi < (q1 - 1) * (q2 - 1) /\
      gen_h1h2 q1 q2 h1 xhi = Some (kr_dl (rs i), s1, s2) /\ 0 <= r /\ 0 <= r' /\
      cd_prove (fun _ => 3) (kr_dl (rs i)) s1 r = Some (rd (kr_cd1 (rs i))) /\ cd_prove (fun _ => 3) (swap_dl (kr_dl (rs i))) s2 r' = Some (rd (kr_cd2 (rs i)))).
Proof.
  intros C QC. assert (GK : good_key Q1 Q2) by (refine (conj prime_Q1 (conj prime_Q2 _)); intros E; apply (proj2 (Z.eqb_eq _ _)) in E; vm_compute in E; discriminate).
  assert (BL : 2047 <= bit_length (Q1 * Q2) <= 2048) by (split; vm_compute; discriminate). assert (G : Z.gcd (Q1 * Q2) ((Q1 - 1) * (Q2 - 1)) = 1) by (vm_compute; reflexivity).
  assert (GA : Z.gcd 30030 (Q1 * Q2) = 1) by (vm_compute; reflexivity). assert (G2 : Z.gcd 2 (Q1 * Q2) = 1) by (vm_compute; reflexivity).
  assert (BIG : 2 ^ 128 < Q1 * Q2) by (vm_compute; reflexivity). assert (PH : 1 < (Q1 - 1) * (Q2 - 1)) by (vm_compute; reflexivity).
  destruct (C103_honest_key_accepted exm 30030 Q1 Q2 GK G GA) as (sigma & S & _ & _).
  assert (exists d s1 s2, gen_h1h2 Q1 Q2 2 1 = Some (d, s1, s2)) as (d & s1 & s2 & GEN).
  { unfold gen_h1h2. destruct (mod_inv_complete 1 _ PH (Z.gcd_1_l _)) as [inv I]. rewrite I. rewrite mod_pow_pos by lia. eauto. }
  destruct (C102_honest_setup_accepted (fun _ => 3) Q1 Q2 2 1 d s1 s2 ltac:(lia) GK BIG G2 ltac:(lia) GEN) as (_ & _ & _ & _ & A). destruct (A 5 ltac:(lia)) as (a1 & a2 & A1 & A2 & _).
  exists (fun _ => sigma), (fun z => if z =? 0 then a1 else a2).
  exists (fun _ => {| kr_u := f1; kr_p1 := Q1; kr_p2 := Q2; kr_dl := d; kr_blind := 0; kr_ck := 0; kr_cd1 := 0; kr_cd2 := 1; kr_coefs := [f1]; kr_nonce := f1 |}).
  intros i _. cbn [kr_p1 kr_p2 kr_dl kr_ck kr_cd1 kr_cd2 kr_coefs length]. split; [reflexivity|]. exists Q1, Q2, 2, 1, s1, s2, 5, 5.
  split; [exact (conj GK (conj BL (conj G (conj GA S))))|]. refine (conj GK (conj BL (conj G2 (conj _ (conj GEN (conj _ (conj _ (conj A1 A2)))))))); lia.
Qed.

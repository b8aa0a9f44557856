(** C102: the auxiliary parameters of GG20 key generation and the proofs about them. *)
From Coq Require Import ZArith Znumtheory Lia Bool List.
From Verif Require Import ZArithX Fq Curve Toy Outcome Sigma Bytes Vss Paillier PaillierProofs ZPow RangeProofs Mp MpProofs Gg20Keygen PrimeCert RingPedersen.
Import ListNotations.
Local Open Scope Z_scope.

(** Powers of powers *)
Lemma zpow_pow b a k n : 1 < n -> Z.gcd b n = 1 -> 0 <= k -> eqm n (zpow b a n ^ k) (zpow b (a * k) n).
Proof.
  intros Hn Hg Hk. pattern k. apply natlike_ind; [| |exact Hk].
  - rewrite Z.pow_0_r, Z.mul_0_r. unfold eqm, zpow. cbn [Z.leb]. change (0 ?= 0) with Eq. cbn. rewrite Z.mod_mod by lia. reflexivity.
  - intros x Hx IH. rewrite Z.pow_succ_r by lia. replace (a * Z.succ x) with (a + a * x) by lia.
    eapply eqm_trans; [|apply eqm_sym, zpow_add; assumption]. apply eqm_mul; [apply eqm_refl|exact IH].
Qed.
Lemma euler p1 p2 a : good_key p1 p2 -> Z.gcd a (p1 * p2) = 1 -> eqm (p1 * p2) (a ^ ((p1 - 1) * (p2 - 1))) 1.
Proof.
  intros (P1 & P2 & NE) G. pose proof (prime_ge_2 p1 P1). pose proof (prime_ge_2 p2 P2).
  assert (N1 : a mod p1 <> 0) by (apply (gcd_mod_prime p1 p2); assumption).
  assert (N2 : a mod p2 <> 0) by (apply (gcd_mod_prime p2 p1); [assumption|rewrite Z.mul_comm; assumption]).
  assert (E : forall p k, prime p -> a mod p <> 0 -> 0 <= k -> (a ^ ((p - 1) * k)) mod p = 1 mod p).
  { intros p k P N K. pose proof (prime_ge_2 p P). rewrite Z.pow_mul_r by lia. change (eqm p ((a ^ (p - 1)) ^ k) 1).
    eapply eqm_trans; [apply eqm_pow with (b := 1); [exact K|unfold eqm; rewrite fermat, Z.mod_1_l by (assumption || lia); reflexivity]|]. rewrite Z.pow_1_l by lia. apply eqm_refl. }
  unfold eqm. apply (crt_unique p1 p2); try assumption.
  - apply Z.mod_pos_bound. nia.
  - apply Z.mod_pos_bound. nia.
  - rewrite <- !Znumtheory.Zmod_div_mod by (try lia; try nia; exists p2; ring). apply E; [assumption|assumption|lia].
  - rewrite <- !Znumtheory.Zmod_div_mod by (try lia; try nia; exists p1; ring). rewrite Z.mul_comm. apply E; [assumption|assumption|lia].
Qed.
Lemma zpow_order p1 p2 a k j : good_key p1 p2 -> Z.gcd a (p1 * p2) = 1 -> 0 <= j -> eqm (p1 * p2) (zpow a (k + (p1 - 1) * (p2 - 1) * j) (p1 * p2)) (zpow a k (p1 * p2)).
Proof.
  intros GK G J. pose proof GK as (P1 & P2 & _). pose proof (prime_ge_2 p1 P1). pose proof (prime_ge_2 p2 P2).
  eapply eqm_trans; [apply zpow_add; [nia|exact G]|]. eapply eqm_trans; [|rewrite <- (Z.mul_1_r (zpow a k _)); apply eqm_refl]. apply eqm_mul; [apply eqm_refl|].
  rewrite zpow_nonneg by nia. eapply eqm_trans; [apply eqm_mod|]. rewrite Z.pow_mul_r by nia.
  eapply eqm_trans; [apply eqm_pow with (b := 1); [exact J|apply euler; assumption]|]. rewrite Z.pow_1_l by lia. apply eqm_refl.
Qed.

(** * C102 *)
(** What the verification of a proof means: it answers exactly when N is large and both values are units (else it panics), and
    accepts exactly when x = g^y ni^e. *)
Theorem C102_verify_iff : forall He (x y : Z) (d : dlstmt),
  let N := dl_N d in let g := dl_h1 d in let ni := dl_h2 d in
  (cd_verify (E := mp_error) He (x, y) d = Panic <-> ~ (2 ^ 128 < N /\ Z.gcd g N = 1 /\ Z.gcd ni N = 1)) /\
  (forall e, cd_verify (E := mp_error) He (x, y) d <> Err e) /\
  (cd_verify (E := mp_error) He (x, y) d = Ok true <->
     2 ^ 128 < N /\ Z.gcd g N = 1 /\ Z.gcd ni N = 1 /\ x = (zpow g y N * zpow ni (He [x; g; N; ni]) N) mod N).
Proof.
  intros He x y d. cbv zeta. unfold cd_verify, cd_e.
  destruct (Z.ltb_spec (2 ^ 128) (dl_N d)) as [LN|LN]; cbn [oassert obind]; [|repeat split; try discriminate; lia].
  destruct (Z.eqb_spec (Z.gcd (dl_h1 d) (dl_N d)) 1) as [G1|G1]; cbn [oassert obind]; [|repeat split; try discriminate; tauto].
  destruct (Z.eqb_spec (Z.gcd (dl_h2 d) (dl_N d)) 1) as [G2|G2]; cbn [oassert obind]; [|repeat split; try discriminate; tauto].
  rewrite !mod_pow_zpow by (assumption || lia). cbn [unwrap obind]. split; [split; [discriminate|tauto]|]. split; [discriminate|].
  split.
  - intros E. injection E as E. apply Z.eqb_eq in E. auto.
  - intros (_ & _ & _ & E). rewrite (proj2 (Z.eqb_eq _ _) E). reflexivity.
Qed.
Print Assumptions C102_verify_iff.
(** A proof for the secret 7 with respect to a modulus of 141 bits, the same one with a wrong answer, and with h1 = 0 *)
Definition hsum (l : list Z) : Z := (fold_left Z.add l 0) mod 2 ^ 64.
Definition exN : Z := P68 * P73.
Definition exd (g : Z) : dlstmt := {| dl_N := exN; dl_h1 := g; dl_h2 := zpow 5 (-7) exN |}.
Example C102_verify_example :
  cd_prove hsum (exd 5) 7 1000 = Some (zpow 5 1000 exN, 1000 + hsum [zpow 5 1000 exN; 5; exN; zpow 5 (-7) exN] * 7) /\
  cd_verify (E := mp_error) hsum (zpow 5 1000 exN, 1000 + hsum [zpow 5 1000 exN; 5; exN; zpow 5 (-7) exN] * 7) (exd 5) = Ok true /\
  cd_verify (E := mp_error) hsum (zpow 5 1000 exN, 1001 + hsum [zpow 5 1000 exN; 5; exN; zpow 5 (-7) exN] * 7) (exd 5) = Ok false /\
  cd_verify (E := mp_error) hsum (0, 0) (exd 0) = Panic.
Proof. split; [vm_compute; reflexivity|]. split; [vm_compute; reflexivity|]. split; vm_compute; reflexivity. Qed.

(** Honest parameters with a unit h1 pass both proofs, and h1 and h2 are powers of each other. *)
Theorem C102_honest_setup_accepted : forall He p1 p2 h1 xhi d s1 s2,
  (forall l, 0 <= He l) -> good_key p1 p2 -> 2 ^ 128 < p1 * p2 -> Z.gcd h1 (p1 * p2) = 1 -> 0 <= xhi < (p1 - 1) * (p2 - 1) ->
  gen_h1h2 p1 p2 h1 xhi = Some (d, s1, s2) ->
  dl_N d = p1 * p2 /\ dl_h1 d = h1 /\ dl_h2 d = (h1 ^ xhi) mod (p1 * p2) /\ (exists k, 0 <= k /\ eqm (p1 * p2) (dl_h2 d ^ k) h1) /\
  forall r, 0 <= r -> exists pf1 pf2, cd_prove He d s1 r = Some pf1 /\ cd_prove He (swap_dl d) s2 r = Some pf2 /\
    cd_verify (E := mp_error) He pf1 d = Ok true /\ cd_verify (E := mp_error) He pf2 (swap_dl d) = Ok true.
Proof.
  intros He p1 p2 h1 xhi d s1 s2 HE GK LN G X H. pose proof GK as (P1 & P2 & _). pose proof (prime_ge_2 p1 P1). pose proof (prime_ge_2 p2 P2).
  set (N := p1 * p2) in *. set (phi := (p1 - 1) * (p2 - 1)) in *. assert (N1 : 1 < N) by lia.
  assert (PH : 1 < phi).
  { destruct (Z.le_gt_cases phi 1) as [L|L]; [|exact L]. exfalso. unfold phi, N in *. assert (p1 <= 2) by nia. assert (p2 <= 2) by nia. assert (p1 = 2) by lia. assert (p2 = 2) by lia. subst. vm_compute in LN. discriminate. }
  unfold gen_h1h2 in H. fold N phi in H. destruct (mod_inv xhi phi) as [inv|] eqn:EI; [|discriminate]. rewrite mod_pow_pos in H by lia.
  assert (DD : d = {| dl_N := N; dl_h1 := h1; dl_h2 := (h1 ^ xhi) mod N |}) by congruence. assert (S1 : s1 = phi - xhi) by congruence. assert (S2 : s2 = phi - inv) by congruence. clear H. subst d s1 s2.
  apply mod_inv_sound in EI; [|exact PH]. destruct EI as [EI IR]. cbn [dl_N dl_h1 dl_h2].
  assert (G2 : Z.gcd ((h1 ^ xhi) mod N) N = 1) by (rewrite (gcd_eqm _ (h1 ^ xhi)) by (lia || apply eqm_mod); apply gcd_pow; [lia|exact G]).
  set (h2 := (h1 ^ xhi) mod N) in *. assert (H2 : h2 = zpow h1 xhi N) by (rewrite zpow_nonneg by lia; reflexivity).
  assert (BACK : eqm N (h2 ^ inv) h1).
  { rewrite H2. eapply eqm_trans; [apply zpow_pow; [exact N1|exact G|lia]|].
    pose proof (Z.div_mod (xhi * inv) phi ltac:(lia)) as DM. rewrite EI in DM. replace (xhi * inv) with (1 + (p1 - 1) * (p2 - 1) * (xhi * inv / phi)) by (fold phi; lia).
    eapply eqm_trans; [apply zpow_order; [exact GK|exact G|apply Z.div_pos; nia]|]. fold N. rewrite zpow_nonneg, Z.pow_1_r by lia. apply eqm_mod. }
  refine (conj eq_refl (conj eq_refl (conj eq_refl (conj (ex_intro _ inv (conj _ BACK)) _)))); [lia|]. intros r R.
  unfold cd_prove, swap_dl. cbn [dl_N dl_h1 dl_h2]. rewrite !mod_pow_zpow by (assumption || lia). do 2 eexists. split; [reflexivity|]. split; [reflexivity|].
  assert (K : forall g ni sec e, Z.gcd g N = 1 -> Z.gcd ni N = 1 -> 0 <= e -> 0 <= sec -> eqm N (zpow g sec N) ni -> zpow g r N = (zpow g (r + e * (phi - sec)) N * zpow ni e N) mod N).
  { clear - GK N1 R. intros g ni sec e Gg Gn E0 S0 Q. apply (eqm_small N); [apply zpow_range; exact N1|apply Z.mod_pos_bound; lia|]. eapply eqm_trans; [|apply eqm_sym, eqm_mod].
    apply eqm_sym. eapply eqm_trans; [apply eqm_mul; [apply eqm_refl|rewrite zpow_nonneg by lia; eapply eqm_trans; [apply eqm_mod|]; eapply eqm_trans; [apply eqm_pow with (b := zpow g sec N); [lia|apply eqm_sym, Q]|apply zpow_pow; assumption]]|].
    eapply eqm_trans; [apply eqm_sym, zpow_add; assumption|]. replace (r + e * (phi - sec) + sec * e) with (r + (p1 - 1) * (p2 - 1) * e) by (fold phi; ring). apply zpow_order; assumption. }
  split.
  - apply (proj2 (proj2 (C102_verify_iff He _ _ _))). cbn [dl_N dl_h1 dl_h2]. refine (conj LN (conj G (conj G2 _))). apply K; [exact G|exact G2|apply HE|lia|]. rewrite <- H2. apply eqm_refl.
  - apply (proj2 (proj2 (C102_verify_iff He _ _ _))). cbn [dl_N dl_h1 dl_h2]. refine (conj LN (conj G2 (conj G _))). apply K; [exact G2|exact G|apply HE|lia|]. rewrite zpow_nonneg by lia. eapply eqm_trans; [apply eqm_mod|exact BACK].
Qed.
Print Assumptions C102_honest_setup_accepted.
Example C102_honest_example :
  (forall l, 0 <= hsum l) /\ good_key P68 P73 /\ 2 ^ 128 < P68 * P73 /\ Z.gcd 5 (P68 * P73) = 1 /\ 0 <= 2 ^ 100 + 1 < (P68 - 1) * (P73 - 1) /\
  match gen_h1h2 P68 P73 5 (2 ^ 100 + 1) with
  | Some (d, s1, s2) => match cd_prove hsum d s1 123, cd_prove hsum (swap_dl d) s2 123 with
                        | Some pf1, Some pf2 => cd_verify (E := mp_error) hsum pf1 d = Ok true /\ cd_verify (E := mp_error) hsum pf2 (swap_dl d) = Ok true /\
                                                cd_verify (E := mp_error) hsum pf2 d = Ok false
                        | _, _ => False
                        end
  | None => False
  end.
Proof.
  split; [intros l; apply Z.mod_pos_bound; reflexivity|]. split; [refine (conj prime_P68 (conj prime_P73 _)); discriminate|]. split; [reflexivity|]. split; [vm_compute; reflexivity|]. split; [split; [discriminate|reflexivity]|].
  vm_compute. repeat split.
Qed.

(** Two accepted answers to one x under different challenges: a power of ni is a power of g. *)
Theorem C102_special_soundness : forall He He' x y y' (d : dlstmt),
  cd_verify (E := mp_error) He (x, y) d = Ok true -> cd_verify (E := mp_error) He' (x, y') d = Ok true ->
  let N := dl_N d in let g := dl_h1 d in let ni := dl_h2 d in
  eqm N (zpow g (y - y') N) (zpow ni (He' [x; g; N; ni] - He [x; g; N; ni]) N).
Proof.
  intros He He' x y y' d A B. cbv zeta. apply C102_verify_iff in A. apply C102_verify_iff in B. destruct A as (LN & G1 & G2 & A). destruct B as (_ & _ & _ & B).
  set (N := dl_N d) in *. set (g := dl_h1 d) in *. set (ni := dl_h2 d) in *. set (e := He [x; g; N; ni]) in *. set (e' := He' [x; g; N; ni]) in *.
  assert (N1 : 1 < N) by lia. assert (E : eqm N (zpow g y N * zpow ni e N) (zpow g y' N * zpow ni e' N)) by (unfold eqm; congruence).
  apply (eqm_cancel_l N (zpow g y' N * zpow ni e N)); [lia|apply gcd_mul; apply zpow_unit; assumption|].
  apply eqm_trans with (zpow g y N * zpow ni e N).
  - replace (zpow g y' N * zpow ni e N * zpow g (y - y') N) with ((zpow g (y - y') N * zpow g y' N) * zpow ni e N) by ring. apply eqm_mul; [apply zpow_sub; assumption|apply eqm_refl].
  - eapply eqm_trans; [exact E|]. replace (zpow g y' N * zpow ni e N * zpow ni (e' - e) N) with (zpow g y' N * (zpow ni (e' - e) N * zpow ni e N)) by ring. apply eqm_mul; [apply eqm_refl|apply eqm_sym, zpow_sub; assumption].
Qed.
Print Assumptions C102_special_soundness.
Example C102_special_soundness_example :
  let x := zpow 5 1000 exN in let y c := 1000 + c * 7 in
  cd_verify (E := mp_error) (fun _ => 3) (x, y 3) (exd 5) = Ok true /\ cd_verify (E := mp_error) (fun _ => 4) (x, y 4) (exd 5) = Ok true /\
  zpow 5 (y 3 - y 4) exN = dl_h2 (exd 5).
Proof. vm_compute. repeat split. Qed.

(** "An accepted proof shows that ni is a power of g" is false: for every N with a prime factor p = 3 mod 4, every unit b and all
    secrets s, the value ni = - g^(-s) for g = b^2 is no power of g, but the proof made with s passes whenever the challenge is even. *)
Lemma neg_pow_even a k : 0 <= k -> Z.even k = true -> (- a) ^ k = a ^ k.
Proof. intros K E. apply Z.even_spec in E. destruct E as [j ->]. rewrite !Z.pow_mul_r by lia. f_equal. rewrite !Z.pow_2_r. ring. Qed.
Theorem C102_not_in_subgroup_refuted : forall He N p b s r,
  2 ^ 128 < N -> prime p -> (p | N) -> p mod 4 = 3 -> Z.gcd b N = 1 ->
  let g := (b * b) mod N in let ni := N - zpow g (- s) N in let d := {| dl_N := N; dl_h1 := g; dl_h2 := ni |} in
  let x := zpow g r N in let e := He [x; g; N; ni] in
  0 <= e -> Z.even e = true ->
  cd_prove He d s r = Some (x, r + e * s) /\ cd_verify (E := mp_error) He (x, r + e * s) d = Ok true /\ forall k, ~ eqm N ni (zpow g k N).
Proof.
  intros He N p b s r LN P DV P4 G g ni d x e E0 EV. assert (N1 : 1 < N) by lia. pose proof (prime_ge_2 p P) as Q2.
  assert (Gg : Z.gcd g N = 1) by (unfold g; rewrite (gcd_eqm _ (b * b)) by (lia || apply eqm_mod); apply gcd_mul; exact G).
  assert (NI : eqm N ni (- zpow g (- s) N)) by (apply eqm_divide; [lia|]; exists 1; unfold ni; lia).
  assert (Gn : Z.gcd ni N = 1) by (rewrite (gcd_eqm _ _ N ltac:(lia) NI), Z.gcd_opp_l; apply zpow_unit; assumption).
  split; [|split].
  - unfold cd_prove. cbn [dl_N dl_h1]. rewrite mod_pow_zpow by assumption. reflexivity.
  - apply (proj2 (proj2 (C102_verify_iff He _ _ _))). cbn [dl_N dl_h1 dl_h2 d]. refine (conj LN (conj Gg (conj Gn _))). fold x. fold e.
    apply (eqm_small N); [apply zpow_range; exact N1|apply Z.mod_pos_bound; lia|]. eapply eqm_trans; [|apply eqm_sym, eqm_mod]. apply eqm_sym.
    eapply eqm_trans; [apply eqm_mul; [apply eqm_refl|]|].
    + rewrite zpow_nonneg by exact E0. eapply eqm_trans; [apply eqm_mod|]. eapply eqm_trans; [apply eqm_pow with (b := - zpow g (- s) N); [exact E0|exact NI]|]. rewrite neg_pow_even by assumption. apply zpow_pow; assumption.
    + eapply eqm_trans; [apply eqm_sym, zpow_add; assumption|]. replace (r + e * s + - s * e) with r by ring. apply eqm_refl.
  - intros k Q.
    assert (J : eqm N (zpow g (k + s) N) (-1)).
    { eapply eqm_trans; [apply zpow_add; assumption|]. apply eqm_trans with (- zpow g (- s) N * zpow g s N); [apply eqm_mul; [eapply eqm_trans; [apply eqm_sym, Q|exact NI]|apply eqm_refl]|].
      replace (- zpow g (- s) N * zpow g s N) with (-1 * (zpow g (- s) N * zpow g s N)) by ring. apply eqm_trans with (-1 * zpow g (- s + s) N).
      - apply eqm_mul; [apply eqm_refl|apply eqm_sym, zpow_add; assumption].
      - rewrite Z.add_opp_diag_l, zpow_nonneg, Z.pow_0_r by lia. rewrite Z.mod_1_l by lia. apply eqm_refl. }
    set (j := k + s) in *. set (K := Z.abs j). assert (K0 : 0 <= K) by (unfold K; lia). assert (JK : 0 <= j + K) by (unfold K; lia).
    assert (R : eqm p (- g ^ K) (g ^ (j + K))).
    { apply (eqm_weaken N); [lia|lia|exact DV|]. apply eqm_sym. eapply eqm_trans; [apply eqm_sym, (zpow_char g j K N); assumption|]. replace (- g ^ K) with (-1 * g ^ K) by ring. apply eqm_mul; [exact J|apply eqm_refl]. }
    assert (GB : eqm p g (b * b)) by (apply (eqm_weaken N); [lia|lia|exact DV|apply eqm_mod]).
    assert (BP : b mod p <> 0). { destruct DV as [c DV]. apply (gcd_mod_prime p c); [exact P|]. rewrite Z.mul_comm, <- DV. exact G. }
    pose proof (Z.div_mod p 4 ltac:(lia)) as P4D. rewrite P4 in P4D. set (h := 2 * (p / 4) + 1). assert (PH : p - 1 = 2 * h) by (unfold h; lia).
    assert (OH : Z.odd h = true) by (apply Z.odd_spec; exists (p / 4); reflexivity).
    assert (ONE : forall i, 0 <= i -> eqm p ((g ^ i) ^ h) 1).
    { intros i I. rewrite <- Z.pow_mul_r by lia. eapply eqm_trans; [apply eqm_pow with (b := b * b); [nia|exact GB]|]. rewrite <- Z.pow_2_r, <- Z.pow_mul_r by nia.
      replace (2 * (i * h)) with ((p - 1) * i) by (rewrite PH; ring). rewrite Z.pow_mul_r by lia. eapply eqm_trans; [apply eqm_pow with (b := 1); [exact I|unfold eqm; rewrite fermat, Z.mod_1_l by (assumption || lia); reflexivity]|]. rewrite Z.pow_1_l by lia. apply eqm_refl. }
    assert (H0 : 0 <= h) by lia. apply (eqm_pow _ _ _ h H0) in R. assert (M : (- g ^ K) ^ h = - (g ^ K) ^ h).
    { apply Z.odd_spec in OH. destruct OH as [i Hi]. rewrite Hi. rewrite !Z.pow_add_r, !Z.pow_1_r by lia. rewrite neg_pow_even; [ring|lia|]. rewrite Z.even_mul. reflexivity. }
    rewrite M in R. assert (F : eqm p (-1) 1).
    { eapply eqm_trans; [|apply (ONE (j + K) JK)]. eapply eqm_trans; [|exact R]. replace (- (g ^ K) ^ h) with (-1 * (g ^ K) ^ h) by ring. apply eqm_trans with (-1 * 1); [apply eqm_refl|]. apply eqm_mul; [apply eqm_refl|apply eqm_sym, ONE, K0]. }
    apply eqm_divide in F; [|lia]. apply Z.divide_opp_r in F. cbn in F. apply Z.divide_pos_le in F; [|lia]. assert (p = 2) by lia. subst p. discriminate.
Qed.
Print Assumptions C102_not_in_subgroup_refuted.
Example C102_not_in_subgroup_example :
  let N := 3 * (2 ^ 131 + 1) in let g := (5 * 5) mod N in let ni := N - zpow g (-7) N in
  2 ^ 128 < N /\ prime 3 /\ (3 | N) /\ 3 mod 4 = 3 /\ Z.gcd 5 N = 1 /\ Z.even (hsum [zpow g 31 N; g; N; ni]) = true /\
  cd_verify (E := mp_error) hsum (zpow g 31 N, 31 + hsum [zpow g 31 N; g; N; ni] * 7) {| dl_N := N; dl_h1 := g; dl_h2 := ni |} = Ok true.
Proof.
  cbv zeta. split; [reflexivity|]. split; [exact prime_3|]. split; [exists (2 ^ 131 + 1); reflexivity|]. split; [reflexivity|]. split; [vm_compute; reflexivity|]. split; vm_compute; reflexivity.
Qed.

(** One party whose h1 or h2 is not a unit modulo its N~ (0, for example) makes every party that checks its broadcast panic. *)
Lemma first_bad_panic {E A} (f : A -> outcome E bool) l k x : forall i, (forall j y, (j < k)%nat -> nth_error l j = Some y -> f y = Ok true) -> nth_error l k = Some x -> f x = Panic -> first_bad f i l = Panic.
Proof.
  revert k. induction l as [|a l IH]; intros [|k] i H N P; cbn [nth_error] in N; try discriminate.
  - injection N as ->. cbn [first_bad]. rewrite P. reflexivity.
  - cbn [first_bad]. rewrite (H 0%nat a) by (lia || reflexivity). cbn [obind]. apply (IH k); [|exact N|exact P]. intros j y L. apply (H (S j) y). lia.
Qed.
Theorem C102_nonunit_panics_refuted : forall (C : Curve) Hb ck He (dec : Z -> Z * Z) (k : keys C) (t n : nat) coefs decom bc1 j d b,
  let cd := fun z => cd_verify (E := mp_error) He (dec z) in
  length decom = n -> length bc1 = n -> nth_error decom j = Some d -> nth_error bc1 j = Some b ->
  (forall i d' b', (i < j)%nat -> nth_error decom i = Some d' -> nth_error bc1 i = Some b' -> kg_check1 C Hb ck cd (d', b') = Ok true) ->
  commit_pt Hb (kd_y d) (kd_blind d) = kb_com b -> ck (kb_ck b) (kb_N b) = true -> bits_ok (kb_N b) = true -> bits_ok (dl_N (kb_dl b)) = true ->
  Z.gcd (dl_h1 (kb_dl b)) (dl_N (kb_dl b)) <> 1 \/ Z.gcd (dl_h2 (kb_dl b)) (dl_N (kb_dl b)) <> 1 ->
  kg_phase1_verify C Hb ck cd k t n coefs decom bc1 = Panic.
Proof.
  intros C Hb ck He dec k t n coefs decom bc1 j d b cd L1 L2 ED EB PRE COM CK B1 B2 NU. unfold kg_phase1_verify. rewrite L1, L2, Nat.eqb_refl. cbn [oassert obind].
  rewrite (first_bad_panic (kg_check1 C Hb ck cd) (combine decom bc1) j (d, b)); [reflexivity| |apply nth_error_combine; auto|].
  - intros i [d' b'] L E. apply nth_error_combine in E. destruct E as [E1 E2]. apply (PRE i); assumption.
  - unfold kg_check1. rewrite (proj2 (Z.eqb_eq _ _) COM), CK, B1, B2. cbn [andb]. unfold cd at 1. destruct (dec (kb_cd1 b)) as [x y].
    rewrite (proj2 (proj1 (C102_verify_iff He x y (kb_dl b)))); [reflexivity|]. tauto.
Qed.
Print Assumptions C102_nonunit_panics_refuted.
(** Sizes are right (N~ of 2048 bits), h1 = 0 *)
Example C102_nonunit_example :
  bits_ok (2 ^ 2047 + 1) = true /\ Z.gcd 0 (2 ^ 2047 + 1) <> 1 /\ cd_verify (E := mp_error) hsum (0, 0) {| dl_N := 2 ^ 2047 + 1; dl_h1 := 0; dl_h2 := 0 |} = Panic.
Proof. split; [vm_compute; reflexivity|]. split; [vm_compute; discriminate|vm_compute; reflexivity]. Qed.

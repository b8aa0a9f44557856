(** Lemmas about the MtA range proofs. *)
From Coq Require Import ZArith Znumtheory Lia Bool List.
From Verif Require Import ZArithX Fq Curve Outcome Sigma SigmaProofs Paillier PaillierProofs ZPow RangeProofs.
Import ListNotations.
Local Open Scope Z_scope.

Lemma bn_inv_pos a n : 0 < n -> bn_inv a n = mod_inv a n.
Proof. intros H. unfold bn_inv. rewrite Z.abs_eq by lia. reflexivity. Qed.

(** The verifier's recomputed first-message component. *)
Lemma chk_sound n x ze i : 1 < n -> mod_inv ze n = Some i -> eqm n (Z.rem (x * i) n * ze) x.
Proof.
  intros Hn Hi. apply mod_inv_sound in Hi; [|lia]. destruct Hi as [Hi _].
  apply eqm_undiv with i; [lia|assumption|]. apply eqm_rem; lia.
Qed.

Lemma chk_complete n x ze i w0 : 1 < n -> 0 <= x -> 0 <= w0 < n -> mod_inv ze n = Some i ->
  eqm n (w0 * ze) x -> Z.rem (x * i) n = w0.
Proof.
  intros Hn Hx Hw Hi E. apply mod_inv_sound in Hi; [|lia]. destruct Hi as [Hi Hir].
  rewrite rem_nonneg by nia. apply eqm_small with n; [apply Z.mod_pos_bound; lia|assumption|].
  eapply eqm_trans; [apply eqm_mod|]. apply eqm_sym. apply eqm_div with ze; assumption.
Qed.

Lemma hitem_eq_dec (C : Curve) (a b : hitem C) : {a = b} + {a <> b}.
Proof.
  destruct a as [P|x], b as [Q|y].
  - destruct (pt_eq_dec C P Q) as [E|E]; [left; congruence|right; congruence].
  - right; congruence.
  - right; congruence.
  - destruct (Z.eq_dec x y) as [E|E]; [left; congruence|right; congruence].
Qed.
Definition hlist_eq_dec (C : Curve) := list_eq_dec (hitem_eq_dec C).

(** The hash that answers [e] at [l] and [e+1] elsewhere. *)
Definition spike {C : Curve} (l : list (hitem C)) (e : Z) : hashZ C :=
  fun l' => if hlist_eq_dec C l' l then e else e + 1.
Lemma spike_at {C : Curve} (l : list (hitem C)) e : spike l e l = e.
Proof. unfold spike. destruct (hlist_eq_dec C l l); congruence. Qed.
Lemma spike_inv {C : Curve} (l l' : list (hitem C)) e : spike l e l' = e -> l' = l.
Proof. unfold spike. destruct (hlist_eq_dec C l' l); [auto|lia]. Qed.

Lemma gcd_eqm1 a b n : eqm n a b -> 1 < n -> Z.gcd a n = Z.gcd b n.
Proof. intros E Hn. apply gcd_eqm; [lia|assumption]. Qed.
Lemma gcd_factor_l a b n : Z.gcd (a * b) n = 1 -> Z.gcd a n = 1.
Proof.
  intros E. apply Zgcd_1_rel_prime in E. apply Zgcd_1_rel_prime.
  destruct E as [E1 E2 E3]. constructor; [apply Z.divide_1_l|apply Z.divide_1_l|].
  intros x Hx1 Hx2. apply E3; [|assumption]. apply Z.divide_mul_l; assumption.
Qed.
Lemma gcd_factor_r a b n : Z.gcd (a * b) n = 1 -> Z.gcd b n = 1.
Proof. rewrite Z.mul_comm. apply gcd_factor_l. Qed.
Lemma gcd_pow_inv a k n : 0 < k -> Z.gcd (a ^ k) n = 1 -> Z.gcd a n = 1.
Proof.
  intros Hk. replace k with (Z.succ (k - 1)) by lia. rewrite Z.pow_succ_r by lia. apply gcd_factor_l.
Qed.
Lemma unit_1pN N x : Z.gcd (x * N + 1) (N * N) = 1.
Proof.
  apply gcd_sq. apply Zgcd_1_rel_prime. apply bezout_rel_prime.
  apply Bezout_intro with (u := 1) (v := - x). ring.
Qed.

(** Special soundness of the ring-Pedersen equation. *)
Lemma rp_sound n h1 h2 z w e e' a b a' b' :
  1 < n -> Z.gcd h1 n = 1 -> Z.gcd h2 n = 1 -> 0 <= e -> 0 <= e' -> e <> e' ->
  Z.gcd (z ^ e) n = 1 -> Z.gcd (z ^ e') n = 1 ->
  eqm n (w * z ^ e) (zpow h1 a n * zpow h2 b n) ->
  eqm n (w * z ^ e') (zpow h1 a' n * zpow h2 b' n) ->
  Z.gcd z n = 1 /\ eqm n (zpow z (e - e') n) (zpow h1 (a - a') n * zpow h2 (b - b') n).
Proof.
  intros Hn G1 G2 He He' Hne Gz Gz' E E'.
  assert (Z1 : Z.gcd z n = 1).
  { destruct (Z_lt_le_dec 0 e); [eapply gcd_pow_inv; eassumption|].
    assert (0 < e') by lia. eapply gcd_pow_inv; eassumption. }
  split; [assumption|].
  assert (U : Z.gcd (w * z ^ e') n = 1).
  { rewrite (gcd_eqm1 _ _ _ E' Hn). apply gcd_mul; apply zpow_unit; assumption. }
  apply (eqm_cancel_l n (w * z ^ e')); [lia|assumption|].
  apply eqm_trans with (w * z ^ e).
  - replace (w * z ^ e' * zpow z (e - e') n) with (w * (zpow z (e - e') n * z ^ e')) by ring.
    apply eqm_mul; [apply eqm_refl|].
    eapply eqm_trans; [apply zpow_char; lia || assumption|]. unfold eqm; do 2 f_equal; ring.
  - eapply eqm_trans; [exact E|]. apply eqm_sym.
    eapply eqm_trans; [apply eqm_mul; [exact E'|apply eqm_refl]|].
    replace (zpow h1 a' n * zpow h2 b' n * (zpow h1 (a - a') n * zpow h2 (b - b') n))
      with ((zpow h1 (a - a') n * zpow h1 a' n) * (zpow h2 (b - b') n * zpow h2 b' n)) by ring.
    apply eqm_mul; apply zpow_sub; assumption.
Qed.

(** Special soundness of the Paillier equation, with an extra factor A^y. *)
Lemma pl_sound N A c u e e' y y' s s' x x' :
  1 < N -> Z.gcd A (N * N) = 1 -> 0 <= e -> 0 <= e' -> e <> e' ->
  Z.gcd (c ^ e) (N * N) = 1 -> Z.gcd (c ^ e') (N * N) = 1 -> Z.gcd s N = 1 ->
  eqm (N * N) (u * c ^ e) (zpow A y (N * N) * ((x * N + 1) * s ^ N)) ->
  eqm (N * N) (u * c ^ e') (zpow A y' (N * N) * ((x' * N + 1) * s' ^ N)) ->
  exists sg, Z.gcd sg N = 1 /\
    eqm (N * N) (zpow c (e - e') (N * N)) (zpow A (y - y') (N * N) * (((x - x') * N + 1) * sg ^ N)).
Proof.
  intros HN GA He He' Hne Gc Gc' Gs E E'.
  assert (Hn : 1 < N * N) by nia. set (n := N * N) in *.
  assert (C1 : Z.gcd c n = 1).
  { destruct (Z_lt_le_dec 0 e); [eapply gcd_pow_inv; eassumption|].
    assert (0 < e') by lia. eapply gcd_pow_inv; eassumption. }
  assert (U0 : Z.gcd u n = 1).
  { apply gcd_factor_l with (c ^ e). rewrite (gcd_eqm1 _ _ _ E Hn).
    apply gcd_mul; [apply zpow_unit; assumption|]. apply gcd_mul; [apply unit_1pN|].
    apply gcd_pow; [lia|]. apply gcd_sq; assumption. }
  assert (U : Z.gcd (u * c ^ e') n = 1) by (apply gcd_mul; assumption).
  assert (Gs' : Z.gcd s' n = 1).
  { pose proof U as U'. rewrite (gcd_eqm1 _ _ _ E' Hn) in U'.
    apply gcd_factor_r in U'. apply gcd_factor_r in U'. apply gcd_pow_inv in U'; [assumption|lia]. }
  destruct (mod_inv_complete s' n Hn Gs') as [i Hi].
  apply mod_inv_sound in Hi; [|lia]. destruct Hi as [Hi _].
  exists (s * i). split.
  { apply gcd_mul; [assumption|]. apply gcd_sq_inv; [lia|]. apply inv_gcd with s'; [lia|].
    rewrite Z.mul_comm. assumption. }
  apply (eqm_cancel_l n (u * c ^ e')); [lia|assumption|].
  apply eqm_trans with (u * c ^ e).
  - replace (u * c ^ e' * zpow c (e - e') n) with (u * (zpow c (e - e') n * c ^ e')) by ring.
    apply eqm_mul; [apply eqm_refl|].
    eapply eqm_trans; [apply zpow_char; lia || assumption|]. unfold eqm; do 2 f_equal; ring.
  - eapply eqm_trans; [exact E|]. apply eqm_sym.
    eapply eqm_trans; [apply eqm_mul; [exact E'|apply eqm_refl]|].
    rewrite Z.pow_mul_l.
    replace (zpow A y' n * ((x' * N + 1) * s' ^ N) * (zpow A (y - y') n * (((x - x') * N + 1) * (s ^ N * i ^ N))))
      with ((zpow A (y - y') n * zpow A y' n) * ((((x - x') * N + 1) * (x' * N + 1)) * (s ^ N * (s' ^ N * i ^ N)))) by ring.
    apply eqm_mul; [apply zpow_sub; assumption|]. apply eqm_mul.
    + replace (((x - x') * N + 1) * (x' * N + 1)) with (x * N + 1 + (x - x') * x' * (N * N)) by ring.
      unfold eqm, n. apply Z_mod_plus_full.
    + apply eqm_trans with (s ^ N * 1); [|unfold eqm; f_equal; ring].
      apply eqm_mul; [apply eqm_refl|]. rewrite <- Z.pow_mul_l.
      eapply eqm_trans; [apply (eqm_pow n (s' * i) 1); [lia|]|].
      * unfold eqm. rewrite Hi. symmetry. apply Z.mod_1_l; lia.
      * rewrite Z.pow_1_l by lia. apply eqm_refl.
Qed.

Lemma zpow_1 k n : 1 < n -> zpow 1 k n = 1.
Proof.
  intros Hn. apply eqm_small with n; [apply zpow_range; lia|lia|].
  pose proof (zpow_char 1 k (Z.abs k) n Hn (Z.gcd_1_l n) ltac:(lia) ltac:(lia)) as E.
  rewrite !Z.pow_1_l in E by lia. rewrite Z.mul_1_r in E. exact E.
Qed.

Section A.
Context (C : Curve).
Notation q := (cq C).
Notation F := (Fq q).
Add Field cfield : (C_field C).
Implicit Types (H : hashZ C).

(** *** Alice *)
Definition alice_eqs (p : alice_proof) (c N : Z) (st : dlstmt) (u w : Z) : Prop :=
  let Nt := dl_N st in let NN := N * N in
  Z.gcd (ap_z p ^ ap_e p) Nt = 1 /\ Z.gcd (c ^ ap_e p) NN = 1 /\
  eqm Nt (w * ap_z p ^ ap_e p) (zpow (dl_h1 st) (ap_s1 p) Nt * zpow (dl_h2 st) (ap_s2 p) Nt) /\
  eqm NN (u * c ^ ap_e p) ((ap_s1 p * N + 1) * ap_s p ^ N).

Definition good_st (st : dlstmt) : Prop :=
  1 < dl_N st /\ Z.gcd (dl_h1 st) (dl_N st) = 1 /\ Z.gcd (dl_h2 st) (dl_N st) = 1.

Definition alice_query (p : alice_proof) (c N : Z) (u w : Z) : list (hitem C) :=
  [HInt N; HInt (N + 1); HInt c; HInt (ap_z p); HInt u; HInt w].

Lemma gcd_mod_1 a n : 0 < n -> Z.gcd (a mod n) n = Z.gcd a n.
Proof. intros Hn. rewrite Z.gcd_mod by lia. apply Z.gcd_comm. Qed.

(** What the verifier does on non-negative challenges and good parameters. *)
Lemma alice_verify_cases p c N st : 1 < N -> good_st st -> 0 <= ap_e p ->
  ((forall H, alice_verify H p c N st = Ok false) /\
   (q ^ 3 < ap_s1 p \/ Z.gcd (ap_z p ^ ap_e p) (dl_N st) <> 1 \/ Z.gcd (c ^ ap_e p) (N * N) <> 1)) \/
  (ap_s1 p <= q ^ 3 /\ exists u w, alice_eqs p c N st u w /\ 0 <= w < dl_N st /\
    Z.abs u < N * N /\ (0 <= ap_s1 p -> 0 <= u) /\
    forall H, alice_verify H p c N st = Ok (H (alice_query p c N u w) =? ap_e p)).
Proof.
  intros HN [HNt [G1 G2]] He. set (Nt := dl_N st) in *. set (NN := N * N).
  assert (HNN : 1 < NN) by (unfold NN; nia).
  destruct (q ^ 3 <? ap_s1 p) eqn:Eb.
  { left. split; [|apply Z.ltb_lt in Eb; auto]. intros H. unfold alice_verify. rewrite Eb. reflexivity. }
  apply Z.ltb_ge in Eb.
  destruct (mod_inv ((ap_z p ^ ap_e p) mod Nt) Nt) as [zi|] eqn:Ez.
  2:{ left. split; [|right; left; apply mod_inv_none in Ez; [rewrite gcd_mod_1 in Ez by lia; exact Ez|lia]]. intros H. unfold alice_verify. replace (q ^ 3 <? ap_s1 p) with false by (symmetry; apply Z.ltb_ge; lia).
      fold Nt. rewrite mod_pow_pos by lia. cbn [unwrap obind]. rewrite bn_inv_pos, Ez by lia. reflexivity. }
  destruct (mod_inv ((c ^ ap_e p) mod NN) NN) as [ci|] eqn:Ec.
  2:{ left. split; [|right; right; apply mod_inv_none in Ec; [rewrite gcd_mod_1 in Ec by lia; exact Ec|lia]]. intros H. unfold alice_verify. replace (q ^ 3 <? ap_s1 p) with false by (symmetry; apply Z.ltb_ge; lia).
      fold Nt NN. rewrite mod_pow_pos by lia. cbn [unwrap obind]. rewrite bn_inv_pos, Ez by lia.
      rewrite !mod_pow_zpow by assumption. cbn [unwrap obind].
      rewrite mod_pow_pos by lia. cbn [unwrap obind]. rewrite bn_inv_pos, Ec by lia. reflexivity. }
  right. split; [lia|].
  set (w := Z.rem (zpow (dl_h1 st) (ap_s1 p) Nt * zpow (dl_h2 st) (ap_s2 p) Nt * zi) Nt).
  set (u := Z.rem (Z.rem (ap_s1 p * N + 1) NN * ((ap_s p ^ N) mod NN) * ci) NN).
  exists u, w.
  pose proof (zpow_range (dl_h1 st) (ap_s1 p) Nt HNt) as R1.
  pose proof (zpow_range (dl_h2 st) (ap_s2 p) Nt HNt) as R2.
  pose proof (mod_inv_sound _ _ _ HNt Ez) as [Ezi Rzi].
  pose proof (mod_inv_sound _ _ _ HNN Ec) as [Eci Rci].
  split; [|split; [|split; [|split]]].
  - unfold alice_eqs. fold Nt NN. refine (conj _ (conj _ (conj _ _))).
    + apply mod_inv_gcd in Ez; [|lia]. rewrite gcd_mod_1 in Ez by lia. assumption.
    + apply mod_inv_gcd in Ec; [|lia]. rewrite gcd_mod_1 in Ec by lia. assumption.
    + apply eqm_trans with (w * (ap_z p ^ ap_e p mod Nt)).
      * apply eqm_mul; [apply eqm_refl|apply eqm_sym, eqm_mod].
      * apply chk_sound; assumption.
    + apply eqm_trans with (u * (c ^ ap_e p mod NN)).
      * apply eqm_mul; [apply eqm_refl|apply eqm_sym, eqm_mod].
      * eapply eqm_trans; [apply chk_sound; assumption|].
        apply eqm_mul; [apply eqm_rem; lia|apply eqm_mod].
  - unfold w. rewrite rem_nonneg by (lia || (apply Z.mul_nonneg_nonneg; [apply Z.mul_nonneg_nonneg|]; lia)). apply Z.mod_pos_bound; lia.
  - unfold u. fold NN.
    pose proof (Z.rem_bound_abs (Z.rem (ap_s1 p * N + 1) NN * ((ap_s p ^ N) mod NN) * ci) NN). lia.
  - intros Hs. unfold u. assert (0 <= ap_s1 p * N) by (apply Z.mul_nonneg_nonneg; lia). rewrite (rem_nonneg (ap_s1 p * N + 1)) by lia.
    pose proof (Z.mod_pos_bound (ap_s1 p * N + 1) NN ltac:(lia)).
    pose proof (Z.mod_pos_bound (ap_s p ^ N) NN ltac:(lia)).
    rewrite rem_nonneg by (lia || (apply Z.mul_nonneg_nonneg; [apply Z.mul_nonneg_nonneg|]; lia)). apply Z.mod_pos_bound; lia.
  - intros H. unfold alice_verify.
    replace (q ^ 3 <? ap_s1 p) with false by (symmetry; apply Z.ltb_ge; lia).
    fold Nt NN. rewrite mod_pow_pos by lia. cbn [unwrap obind]. rewrite bn_inv_pos, Ez by lia.
    rewrite !mod_pow_zpow by assumption. cbn [unwrap obind].
    rewrite mod_pow_pos by lia. cbn [unwrap obind]. rewrite bn_inv_pos, Ec by lia.
    rewrite mod_pow_pos by lia. cbn [unwrap obind]. reflexivity.
Qed.

Lemma alice_query_inv p c N st l : 1 < N -> good_st st -> 0 <= ap_e p ->
  (forall H, alice_verify H p c N st = Ok (H l =? ap_e p)) ->
  ap_s1 p <= q ^ 3 /\ exists u w, l = alice_query p c N u w /\ alice_eqs p c N st u w.
Proof.
  intros HN Hst He Hl. destruct (alice_verify_cases p c N st HN Hst He) as [[Hf _]|[Hs [u [w [Heq [_ [_ [_ HH]]]]]]]].
  - specialize (Hl (fun _ => ap_e p)). rewrite Hf in Hl. rewrite Z.eqb_refl in Hl. discriminate.
  - split; [assumption|]. exists u, w. split; [|assumption].
    specialize (Hl (spike (alice_query p c N u w) (ap_e p))). rewrite HH in Hl.
    rewrite spike_at, Z.eqb_refl in Hl. apply ok_inj in Hl. apply Z.eqb_eq in Hl.
    apply spike_inv in Hl. assumption.
Qed.

Lemma alice_accept H p c N st : 1 < N -> good_st st -> (forall l, 0 <= H l) -> 
  alice_verify H p c N st = Ok true ->
  0 <= ap_e p /\ ap_s1 p <= q ^ 3 /\ exists u w, alice_eqs p c N st u w /\
     ap_e p = H (alice_query p c N u w).
Proof.
  intros HN Hst HH Hv.
  destruct (Z_lt_le_dec (ap_e p) 0) as [Hneg|He].
  - exfalso. unfold alice_verify in Hv.
    destruct (q ^ 3 <? ap_s1 p); [discriminate|].
    destruct (mod_pow _ _ _); cbn [unwrap obind] in Hv; [|discriminate].
    destruct (bn_inv _ _); [|discriminate].
    destruct (mod_pow _ _ _); cbn [unwrap obind] in Hv; [|discriminate].
    destruct (mod_pow _ _ _); cbn [unwrap obind] in Hv; [|discriminate].
    destruct (mod_pow _ _ _); cbn [unwrap obind] in Hv; [|discriminate].
    destruct (bn_inv _ _); [|discriminate].
    destruct (mod_pow _ _ _); cbn [unwrap obind] in Hv; [|discriminate].
    apply ok_inj in Hv. symmetry in Hv. apply Z.eqb_eq in Hv.
    match type of Hv with H ?l = _ => pose proof (HH l) end. lia.
  - split; [assumption|].
    destruct (alice_verify_cases p c N st HN Hst He) as [[Hf _]|[Hs [u [w [Heq [_ [_ [_ E]]]]]]]].
    + rewrite Hf in Hv. discriminate.
    + split; [assumption|]. exists u, w. split; [assumption|]. rewrite E in Hv.
      apply ok_inj in Hv. symmetry in Hv. apply Z.eqb_eq in Hv. auto.
Qed.

Lemma alice_sound p p' c N st l :
  1 < N -> good_st st -> 0 <= ap_e p -> 0 <= ap_e p' -> ap_e p <> ap_e p' ->
  (forall H, alice_verify H p c N st = Ok (H l =? ap_e p)) ->
  (forall H, alice_verify H p' c N st = Ok (H l =? ap_e p')) ->
  ap_z p = ap_z p' /\ Z.gcd (ap_z p) (dl_N st) = 1 /\
  eqm (dl_N st) (zpow (ap_z p) (ap_e p - ap_e p') (dl_N st))
    (zpow (dl_h1 st) (ap_s1 p - ap_s1 p') (dl_N st) * zpow (dl_h2 st) (ap_s2 p - ap_s2 p') (dl_N st)) /\
  (Z.gcd (ap_s p) N = 1 -> exists sg, Z.gcd sg N = 1 /\
     eqm (N * N) (zpow c (ap_e p - ap_e p') (N * N)) (((ap_s1 p - ap_s1 p') * N + 1) * sg ^ N)).
Proof.
  intros HN Hst He He' Hne Hl Hl'. pose proof Hst as [HNt [G1 G2]]. assert (HNN : 1 < N * N) by nia.
  apply alice_query_inv in Hl; try assumption. destruct Hl as [_ [u [w [El Q]]]].
  apply alice_query_inv in Hl'; try assumption. destruct Hl' as [_ [u' [w' [El' Q']]]].
  rewrite El in El'. unfold alice_query in El'. injection El' as Ez Eu Ew. subst u' w'.
  destruct Q as [A1 [A2 [A3 A4]]]. destruct Q' as [B1 [B2 [B3 B4]]].
  rewrite <- Ez in B1, B3.
  split; [assumption|].
  destruct (rp_sound _ _ _ _ _ _ _ _ _ _ _ HNt G1 G2 He He' Hne A1 B1 A3 B3) as [S1 S2].
  split; [assumption|]. split; [assumption|]. intros Gs.
  destruct (pl_sound N 1 c u (ap_e p) (ap_e p') 0 0 (ap_s p) (ap_s p') (ap_s1 p) (ap_s1 p')
     HN (Z.gcd_1_l _) He He' Hne A2 B2 Gs) as [sg [Sg1 Sg2]].
  - rewrite zpow_1 by lia. rewrite Z.mul_1_l. assumption.
  - rewrite zpow_1 by lia. rewrite Z.mul_1_l. assumption.
  - exists sg. split; [assumption|]. rewrite zpow_1 in Sg2 by lia. rewrite Z.mul_1_l in Sg2. assumption.
Qed.

(** Completeness of the ring-Pedersen equation. *)
Lemma rp_honest n h1 h2 z w e a b x y :
  1 < n -> 0 <= e -> 0 <= a -> 0 <= b -> 0 <= x -> 0 <= y ->
  eqm n z (h1 ^ x * h2 ^ y) -> eqm n w (h1 ^ a * h2 ^ b) ->
  eqm n (w * z ^ e) (zpow h1 (e * x + a) n * zpow h2 (e * y + b) n).
Proof.
  intros Hn He Ha Hb Hx Hy Ez Ew.
  rewrite !zpow_nonneg by nia.
  apply eqm_trans with ((h1 ^ a * h2 ^ b) * (h1 ^ x * h2 ^ y) ^ e).
  - apply eqm_mul; [assumption|]. apply eqm_pow; assumption.
  - apply eqm_sym. eapply eqm_trans; [apply eqm_mul; apply eqm_mod|].
    rewrite !Z.pow_mul_l, !Z.pow_add_r by nia. rewrite <- !Z.pow_mul_r by lia.
    rewrite (Z.mul_comm x e), (Z.mul_comm y e). unfold eqm; f_equal; ring.
Qed.

Lemma rp_commit n h1 h2 x y : 1 < n -> 0 <= x -> 0 <= y ->
  let z := Z.rem (powm h1 x n * powm h2 y n) n in
  0 <= z < n /\ eqm n z (h1 ^ x * h2 ^ y).
Proof.
  intros Hn Hx Hy. cbv zeta. rewrite !powm_spec by lia.
  pose proof (Z.mod_pos_bound (h1 ^ x) n ltac:(lia)). pose proof (Z.mod_pos_bound (h2 ^ y) n ltac:(lia)).
  rewrite rem_nonneg by nia. split; [apply Z.mod_pos_bound; lia|].
  eapply eqm_trans; [apply eqm_mod|]. apply eqm_mul; apply eqm_mod.
Qed.

Lemma resp_s N r e beta : 1 < N -> 0 <= e -> 0 <= beta ->
  eqm N (Z.rem (powm r e N * beta) N) (r ^ e * beta).
Proof.
  intros HN He Hb. eapply eqm_trans; [apply eqm_rem; lia|].
  rewrite powm_spec by lia. apply eqm_mul; [apply eqm_mod|apply eqm_refl].
Qed.

(** x = y mod N implies x^N = y^N mod N^2. *)
Lemma pow_lift N x y : 1 < N -> eqm N x y -> eqm (N * N) (x ^ N) (y ^ N).
Proof.
  intros HN E. apply eqm_divide in E; [|lia]. destruct E as [k Hk].
  replace x with (y + k * N) by lia.
  assert (G : forall j, 0 <= j ->
    eqm (N * N) ((y + k * N) ^ (Z.succ j)) (y ^ (Z.succ j) + Z.succ j * (k * N) * y ^ j)).
  { intros j Hj. pattern j. apply natlike_ind; [| |exact Hj].
    - rewrite !Z.pow_succ_r, !Z.pow_0_r by lia. unfold eqm. f_equal. ring.
    - intros i Hi IH. rewrite (Z.pow_succ_r (y + k * N) (Z.succ i)) by lia.
      eapply eqm_trans; [apply eqm_mul; [apply eqm_refl|exact IH]|].
      rewrite (Z.pow_succ_r y (Z.succ i)), (Z.pow_succ_r y i) by lia.
      replace ((y + k * N) * (y * y ^ i + Z.succ i * (k * N) * y ^ i))
        with (y * (y * y ^ i) + Z.succ (Z.succ i) * (k * N) * (y * y ^ i) + (k * Z.succ i * k * y ^ i) * (N * N))
        by (unfold Z.succ; ring).
      unfold eqm. apply Z_mod_plus_full. }
  pose proof (G (N - 1) ltac:(lia)) as E. replace (Z.succ (N - 1)) with N in E by lia.
  eapply eqm_trans; [exact E|].
  replace (y ^ N + N * (k * N) * y ^ (N - 1)) with (y ^ N + (k * y ^ (N - 1)) * (N * N)) by ring.
  unfold eqm. apply Z_mod_plus_full.
Qed.

Lemma alice_complete H a N st r alpha beta gamma ro :
  1 < N -> good_st st -> (forall l, 0 <= H l) -> 0 <= a -> 0 <= alpha -> 0 <= beta -> 0 <= gamma -> 0 <= ro ->
  Z.gcd r N = 1 ->
  let p := alice_generate H a (enc N a r) N st r alpha beta gamma ro in
  ap_s1 p = ap_e p * a + alpha /\
  alice_verify H p (enc N a r) N st = Ok (ap_s1 p <=? q ^ 3).
Proof.
  intros HN Hst HH Ha Hal Hbe Hga Hro Hr p. split; [reflexivity|].
  pose proof Hst as [HNt [G1 G2]].
  assert (He : 0 <= ap_e p) by apply HH.
  assert (Hs1 : ap_s1 p = ap_e p * a + alpha) by reflexivity.
  assert (Hs1p : 0 <= ap_s1 p) by (rewrite Hs1; pose proof (Z.mul_nonneg_nonneg _ _ He Ha); lia).
  set (w0 := Z.rem (powm (dl_h1 st) alpha (dl_N st) * powm (dl_h2 st) gamma (dl_N st)) (dl_N st)).
  set (u0 := Z.rem ((alpha * N + 1) * powm beta N (N * N)) (N * N)).
  set (c := enc N a r).
  assert (Ee : ap_e p = H (alice_query p c N u0 w0)) by reflexivity.
  assert (HNN : 1 < N * N) by nia.
  destruct (rp_commit (dl_N st) (dl_h1 st) (dl_h2 st) a ro HNt Ha Hro) as [Rz Ez].
  destruct (rp_commit (dl_N st) (dl_h1 st) (dl_h2 st) alpha gamma HNt Hal Hga) as [Rw Ew].
  fold w0 in Rw, Ew. change (Z.rem _ _) with (ap_z p) in Rz, Ez.
  assert (Gz : Z.gcd (ap_z p ^ ap_e p) (dl_N st) = 1).
  { apply gcd_pow; [assumption|]. rewrite (gcd_eqm1 _ _ _ Ez HNt).
    apply gcd_mul; apply gcd_pow; assumption. }
  assert (Henc : is_enc N c a) by (apply enc_is_enc; assumption).
  assert (Gc : Z.gcd (c ^ ap_e p) (N * N) = 1).
  { apply gcd_pow; [assumption|]. eapply is_enc_gcd; eassumption. }
  destruct (alice_verify_cases p c N st HN Hst He) as [[Hf Hor]|[Hs [u [w [Q [Ruw [Ru [Ru0 E]]]]]]]].
  - rewrite Hf. f_equal. symmetry. apply Z.leb_gt. destruct Hor as [?|[?|?]]; [lia|contradiction|contradiction].
  - rewrite E. f_equal. destruct Q as [_ [_ [Q3 Q4]]].
    assert (w = w0).
    { apply eqm_small with (dl_N st); [assumption|assumption|].
      apply (eqm_cancel_l (dl_N st) (ap_z p ^ ap_e p)); [lia|assumption|].
      rewrite !(Z.mul_comm (ap_z p ^ ap_e p)).
      eapply eqm_trans; [exact Q3|]. apply eqm_sym. rewrite Hs1. 
      change (ap_s2 p) with (ap_e p * ro + gamma). apply rp_honest; assumption. }
    assert (u = u0).
    { assert (B0 : 0 <= powm beta N (N * N)) by (rewrite powm_spec by lia; apply Z.mod_pos_bound; lia).
      assert (Ru0' : 0 <= u0 < N * N).
      { unfold u0. pose proof (Z.mul_nonneg_nonneg alpha N Hal ltac:(lia)) as A0.
        pose proof (Z.mul_nonneg_nonneg (alpha * N + 1) _ ltac:(lia) B0) as A1.
        rewrite rem_nonneg by lia. apply Z.mod_pos_bound; lia. }
      apply eqm_small with (N * N); [split; [apply Ru0; assumption|apply (Z.abs_lt u (N * N)) in Ru; apply Ru]|assumption|].
      apply (eqm_cancel_l (N * N) (c ^ ap_e p)); [lia|assumption|].
      rewrite !(Z.mul_comm (c ^ ap_e p)).
      eapply eqm_trans; [exact Q4|]. apply eqm_sym.
      assert (Ec : eqm (N * N) c ((1 + a * N) * r ^ N)).
      { unfold c, enc. rewrite powm_spec by lia. eapply eqm_trans; [apply eqm_mod|].
        apply eqm_mul; [|apply eqm_mod]. eapply eqm_trans; [apply eqm_mod|]. unfold eqm; f_equal; ring. }
      apply eqm_trans with (((alpha * N + 1) * beta ^ N) * ((1 + a * N) * r ^ N) ^ ap_e p).
      - apply eqm_mul; [|apply eqm_pow; assumption].
        unfold u0. eapply eqm_trans; [apply eqm_rem; lia|]. apply eqm_mul; [apply eqm_refl|].
        rewrite powm_spec by lia. apply eqm_mod.
      - rewrite Z.pow_mul_l.
        apply eqm_trans with (((alpha * N + 1) * beta ^ N) * ((1 + ap_e p * (a * N)) * (r ^ N) ^ ap_e p)).
        + apply eqm_mul; [apply eqm_refl|]. apply eqm_mul; [|apply eqm_refl].
          apply pow1p; [assumption|]. exists (a * a). ring.
        + apply eqm_trans with ((ap_s1 p * N + 1) * (r ^ ap_e p * beta) ^ N).
          * rewrite Z.pow_mul_l. rewrite <- !Z.pow_mul_r by lia. rewrite (Z.mul_comm N (ap_e p)).
            replace ((alpha * N + 1) * beta ^ N * ((1 + ap_e p * (a * N)) * r ^ (ap_e p * N)))
              with (((alpha * N + 1) * (1 + ap_e p * (a * N))) * (r ^ (ap_e p * N) * beta ^ N)) by ring.
            apply eqm_mul; [|apply eqm_refl]. rewrite Hs1.
            replace ((alpha * N + 1) * (1 + ap_e p * (a * N)))
              with (((ap_e p * a + alpha) * N + 1) + (alpha * ap_e p * a) * (N * N)) by ring.
            unfold eqm. apply Z_mod_plus_full.
          * apply eqm_mul; [apply eqm_refl|]. apply eqm_sym. apply pow_lift; [assumption|].
            apply resp_s; assumption. }
    subst u w. rewrite <- Ee, Z.eqb_refl. symmetry. apply Z.leb_le. assumption.
Qed.

(** *** Bob *)
Definition bob_eqs (p : bob_proof) (a m N : Z) (st : dlstmt) (zp v w : Z) : Prop :=
  let Nt := dl_N st in let NN := N * N in
  Z.gcd (bp_z p ^ bp_e p) Nt = 1 /\ Z.gcd (m ^ bp_e p) NN = 1 /\ Z.gcd (bp_t p ^ bp_e p) Nt = 1 /\
  eqm Nt (zp * bp_z p ^ bp_e p) (zpow (dl_h1 st) (bp_s1 p) Nt * zpow (dl_h2 st) (bp_s2 p) Nt) /\
  eqm NN (v * m ^ bp_e p) (zpow a (bp_s1 p) NN * ((bp_t1 p * N + 1) * bp_s p ^ N)) /\
  eqm Nt (w * bp_t p ^ bp_e p) (zpow (dl_h1 st) (bp_t1 p) Nt * zpow (dl_h2 st) (bp_t2 p) Nt).

Definition bob_query (p : bob_proof) (a m N : Z) (zp v w : Z) : list (hitem C) :=
  [HInt N; HInt (N + 1); HInt a; HInt m; HInt (bp_z p); HInt zp; HInt (bp_t p); HInt v; HInt w].

Lemma bob_verify_cases p a m N st : 1 < N -> good_st st -> Z.gcd a (N * N) = 1 -> 0 <= bp_e p ->
  ((forall H ch, bob_verify H p a m N st ch = Ok false) /\
   (q ^ 3 < bp_s1 p \/ Z.gcd (bp_z p ^ bp_e p) (dl_N st) <> 1 \/
    Z.gcd (m ^ bp_e p) (N * N) <> 1 \/ Z.gcd (bp_t p ^ bp_e p) (dl_N st) <> 1)) \/
  (bp_s1 p <= q ^ 3 /\ exists zp v w, bob_eqs p a m N st zp v w /\ 0 <= zp < dl_N st /\
    0 <= w < dl_N st /\ Z.abs v < N * N /\ (0 <= bp_t1 p -> 0 <= v) /\
    forall H ch, bob_verify H p a m N st ch =
      let* ex := bob_items ch in Ok (H (bob_query p a m N zp v w ++ ex) =? bp_e p)).
Proof.
  intros HN [HNt [G1 G2]] GA He. set (Nt := dl_N st) in *. set (NN := N * N) in *.
  assert (HNN : 1 < NN) by (unfold NN; nia).
  destruct (q ^ 3 <? bp_s1 p) eqn:Eb.
  { left. split; [|apply Z.ltb_lt in Eb; auto]. intros H ch. unfold bob_verify. rewrite Eb. reflexivity. }
  destruct (mod_inv ((bp_z p ^ bp_e p) mod Nt) Nt) as [zi|] eqn:Ez.
  2:{ left. split; [|right; left; apply mod_inv_none in Ez; [rewrite gcd_mod_1 in Ez by lia; exact Ez|lia]].
      intros H ch. unfold bob_verify. rewrite Eb.
      fold Nt. rewrite mod_pow_pos by lia. cbn [unwrap obind]. rewrite bn_inv_pos, Ez by lia. reflexivity. }
  destruct (mod_inv ((m ^ bp_e p) mod NN) NN) as [ci|] eqn:Ec.
  2:{ left. split; [|right; right; left; apply mod_inv_none in Ec; [rewrite gcd_mod_1 in Ec by lia; exact Ec|lia]].
      intros H ch. unfold bob_verify. rewrite Eb.
      fold Nt NN. rewrite mod_pow_pos by lia. cbn [unwrap obind]. rewrite bn_inv_pos, Ez by lia.
      rewrite !mod_pow_zpow by assumption. cbn [unwrap obind].
      rewrite mod_pow_pos by lia. cbn [unwrap obind]. rewrite bn_inv_pos, Ec by lia. reflexivity. }
  destruct (mod_inv ((bp_t p ^ bp_e p) mod Nt) Nt) as [ti|] eqn:Et.
  2:{ left. split; [|right; right; right; apply mod_inv_none in Et; [rewrite gcd_mod_1 in Et by lia; exact Et|lia]].
      intros H ch. unfold bob_verify. rewrite Eb.
      fold Nt NN. rewrite mod_pow_pos by lia. cbn [unwrap obind]. rewrite bn_inv_pos, Ez by lia.
      rewrite !(mod_pow_zpow (dl_h1 st)), !(mod_pow_zpow (dl_h2 st)) by assumption. cbn [unwrap obind].
      rewrite (mod_pow_pos m) by lia. cbn [unwrap obind]. rewrite bn_inv_pos, Ec by lia.
      rewrite (mod_pow_zpow a) by assumption. cbn [unwrap obind].
      rewrite (mod_pow_pos (bp_s p)) by lia. cbn [unwrap obind].
      rewrite (mod_pow_pos (bp_t p)) by lia. cbn [unwrap obind]. rewrite bn_inv_pos, Et by lia. reflexivity. }
  pose proof Eb as Eb'. apply Z.ltb_ge in Eb'.
  right. split; [assumption|].
  set (zp := Z.rem (zpow (dl_h1 st) (bp_s1 p) Nt * zpow (dl_h2 st) (bp_s2 p) Nt * zi) Nt).
  set (w := Z.rem (zpow (dl_h1 st) (bp_t1 p) Nt * zpow (dl_h2 st) (bp_t2 p) Nt * ti) Nt).
  set (v := Z.rem (zpow a (bp_s1 p) NN * ((bp_s p ^ N) mod NN) * (bp_t1 p * N + 1) * ci) NN).
  exists zp, v, w.
  pose proof (zpow_range (dl_h1 st) (bp_s1 p) Nt HNt) as R1.
  pose proof (zpow_range (dl_h2 st) (bp_s2 p) Nt HNt) as R2.
  pose proof (zpow_range (dl_h1 st) (bp_t1 p) Nt HNt) as R3.
  pose proof (zpow_range (dl_h2 st) (bp_t2 p) Nt HNt) as R4.
  pose proof (zpow_range a (bp_s1 p) NN HNN) as R5.
  pose proof (mod_inv_sound _ _ _ HNt Ez) as [Ezi Rzi].
  pose proof (mod_inv_sound _ _ _ HNt Et) as [Eti Rti].
  pose proof (mod_inv_sound _ _ _ HNN Ec) as [Eci Rci].
  refine (conj _ (conj _ (conj _ (conj _ (conj _ _))))).
  - unfold bob_eqs. fold Nt NN. refine (conj _ (conj _ (conj _ (conj _ (conj _ _))))).
    + apply mod_inv_gcd in Ez; [|lia]. rewrite gcd_mod_1 in Ez by lia. assumption.
    + apply mod_inv_gcd in Ec; [|lia]. rewrite gcd_mod_1 in Ec by lia. assumption.
    + apply mod_inv_gcd in Et; [|lia]. rewrite gcd_mod_1 in Et by lia. assumption.
    + apply eqm_trans with (zp * (bp_z p ^ bp_e p mod Nt)).
      * apply eqm_mul; [apply eqm_refl|apply eqm_sym, eqm_mod].
      * apply chk_sound; assumption.
    + apply eqm_trans with (v * (m ^ bp_e p mod NN)).
      * apply eqm_mul; [apply eqm_refl|apply eqm_sym, eqm_mod].
      * eapply eqm_trans; [apply chk_sound; assumption|].
        apply eqm_trans with (zpow a (bp_s1 p) NN * (bp_s p ^ N) * (bp_t1 p * N + 1)).
        -- apply eqm_mul; [|apply eqm_refl]. apply eqm_mul; [apply eqm_refl|apply eqm_mod].
        -- unfold eqm; f_equal; ring.
    + apply eqm_trans with (w * (bp_t p ^ bp_e p mod Nt)).
      * apply eqm_mul; [apply eqm_refl|apply eqm_sym, eqm_mod].
      * apply chk_sound; assumption.
  - unfold zp. rewrite rem_nonneg by (lia || (apply Z.mul_nonneg_nonneg; [apply Z.mul_nonneg_nonneg|]; lia)).
    apply Z.mod_pos_bound; lia.
  - unfold w. rewrite rem_nonneg by (lia || (apply Z.mul_nonneg_nonneg; [apply Z.mul_nonneg_nonneg|]; lia)).
    apply Z.mod_pos_bound; lia.
  - unfold v. fold NN.
    pose proof (Z.rem_bound_abs (zpow a (bp_s1 p) NN * (bp_s p ^ N mod NN) * (bp_t1 p * N + 1) * ci) NN). lia.
  - intros Ht. unfold v.
    assert (0 <= bp_t1 p * N) by (apply Z.mul_nonneg_nonneg; lia).
    pose proof (Z.mod_pos_bound (bp_s p ^ N) NN ltac:(lia)).
    rewrite rem_nonneg by (lia || (apply Z.mul_nonneg_nonneg; [apply Z.mul_nonneg_nonneg; [apply Z.mul_nonneg_nonneg|]|]; lia)).
    apply Z.mod_pos_bound; lia.
  - intros H ch. unfold bob_verify. rewrite Eb.
    fold Nt NN. rewrite mod_pow_pos by lia. cbn [unwrap obind]. rewrite bn_inv_pos, Ez by lia.
    rewrite !(mod_pow_zpow (dl_h1 st)), !(mod_pow_zpow (dl_h2 st)) by assumption. cbn [unwrap obind].
    rewrite (mod_pow_pos m) by lia. cbn [unwrap obind]. rewrite bn_inv_pos, Ec by lia.
    rewrite (mod_pow_zpow a) by assumption. cbn [unwrap obind].
    rewrite (mod_pow_pos (bp_s p)) by lia. cbn [unwrap obind].
    rewrite (mod_pow_pos (bp_t p)) by lia. cbn [unwrap obind]. rewrite bn_inv_pos, Et by lia.
    cbn [unwrap obind]. fold zp v w. reflexivity.
Qed.

Lemma bob_items_ok (ch : option (pt C * pt C)) : (exists ex, bob_items ch = Ok ex) \/
  (bob_items ch = Panic /\ exists u X, ch = Some (u, X) /\ (u = pzero \/ X = pzero)).
Proof.
  destruct ch as [[u X]|]; [|left; eexists; reflexivity]. cbn [bob_items].
  destruct (pt_eq_dec C X pzero) as [EX|EX].
  { right. split; [|exists u, X; auto]. rewrite (proj2 (x_coord_none C X) EX). reflexivity. }
  destruct (coords_some C X EX) as [Xx [Xy EcX]]. unfold x_coord, y_coord. rewrite EcX. cbn [option_map fst snd unwrap obind].
  destruct (pt_eq_dec C u pzero) as [Eu|Eu].
  { right. split; [|exists u, X; auto]. pose proof (proj2 (x_coord_none C u) Eu) as En.
    unfold x_coord in En. rewrite En. reflexivity. }
  destruct (coords_some C u Eu) as [ux [uy Ecu]]. rewrite Ecu. cbn [option_map fst snd unwrap obind].
  left. eexists; reflexivity.
Qed.

Lemma bob_items_some (u X : pt C) : u <> pzero -> X <> pzero -> exists Xx Xy ux uy,
  coords X = Some (Xx, Xy) /\ coords u = Some (ux, uy) /\
  bob_items (Some (u, X)) = Ok [HInt Xx; HInt Xy; HInt ux; HInt uy].
Proof.
  intros Hu HX. destruct (coords_some C X HX) as [Xx [Xy EX]]. destruct (coords_some C u Hu) as [ux [uy Eu]].
  exists Xx, Xy, ux, uy. split; [assumption|]. split; [assumption|].
  cbn [bob_items]. unfold x_coord, y_coord. rewrite EX, Eu. reflexivity.
Qed.

(** The ring-Pedersen and Paillier relations extracted from two plain Bob proofs. *)
Definition bob_rel (p p' : bob_proof) (a m N : Z) (st : dlstmt) : Prop :=
  let Nt := dl_N st in
  let d := bp_e p - bp_e p' in
  bp_z p = bp_z p' /\ bp_t p = bp_t p' /\ Z.gcd (bp_z p) Nt = 1 /\ Z.gcd (bp_t p) Nt = 1 /\
  eqm Nt (zpow (bp_z p) d Nt) (zpow (dl_h1 st) (bp_s1 p - bp_s1 p') Nt * zpow (dl_h2 st) (bp_s2 p - bp_s2 p') Nt) /\
  eqm Nt (zpow (bp_t p) d Nt) (zpow (dl_h1 st) (bp_t1 p - bp_t1 p') Nt * zpow (dl_h2 st) (bp_t2 p - bp_t2 p') Nt) /\
  (Z.gcd (bp_s p) N = 1 -> exists sg, Z.gcd sg N = 1 /\
    eqm (N * N) (zpow m d (N * N))
        (zpow a (bp_s1 p - bp_s1 p') (N * N) * (((bp_t1 p - bp_t1 p') * N + 1) * sg ^ N))).

Lemma bob_eqs_sound p p' a m N st zp v w : 1 < N -> good_st st -> Z.gcd a (N * N) = 1 ->
  0 <= bp_e p -> 0 <= bp_e p' -> bp_e p <> bp_e p' -> bp_z p = bp_z p' -> bp_t p = bp_t p' ->
  bob_eqs p a m N st zp v w -> bob_eqs p' a m N st zp v w -> bob_rel p p' a m N st.
Proof.
  intros HN Hst GA He He' Hne Ez Et Q Q'. pose proof Hst as [HNt [G1 G2]].
  destruct Q as [A1 [A2 [A3 [A4 [A5 A6]]]]]. destruct Q' as [B1 [B2 [B3 [B4 [B5 B6]]]]].
  rewrite <- Ez in B1, B4. rewrite <- Et in B3, B6.
  destruct (rp_sound _ _ _ _ _ _ _ _ _ _ _ HNt G1 G2 He He' Hne A1 B1 A4 B4) as [S1 S2].
  destruct (rp_sound _ _ _ _ _ _ _ _ _ _ _ HNt G1 G2 He He' Hne A3 B3 A6 B6) as [S3 S4].
  unfold bob_rel. refine (conj Ez (conj Et (conj S1 (conj S3 (conj S2 (conj S4 _)))))).
  intros Gs. exact (pl_sound N a m v (bp_e p) (bp_e p') (bp_s1 p) (bp_s1 p') (bp_s p) (bp_s p') (bp_t1 p) (bp_t1 p')
     HN GA He He' Hne A2 B2 Gs A5 B5).
Qed.

Lemma bob_sound p p' a m N st l : 1 < N -> good_st st -> Z.gcd a (N * N) = 1 ->
  0 <= bp_e p -> 0 <= bp_e p' -> bp_e p <> bp_e p' ->
  (forall H, bob_verify H p a m N st None = Ok (H l =? bp_e p)) ->
  (forall H, bob_verify H p' a m N st None = Ok (H l =? bp_e p')) ->
  bob_rel p p' a m N st.
Proof.
  intros HN Hst GA He He' Hne Hl Hl'.
  assert (K : forall p1, 0 <= bp_e p1 -> (forall H, bob_verify H p1 a m N st None = Ok (H l =? bp_e p1)) ->
     exists zp v w, l = bob_query p1 a m N zp v w /\ bob_eqs p1 a m N st zp v w).
  { intros p1 He1 Hl1. destruct (bob_verify_cases p1 a m N st HN Hst GA He1) as [[Hf _]|[_ [zp [v [w [Q [_ [_ [_ [_ E]]]]]]]]]].
    - specialize (Hl1 (fun _ => bp_e p1)). rewrite Hf, Z.eqb_refl in Hl1. discriminate.
    - exists zp, v, w. split; [|assumption].
      specialize (Hl1 (spike (bob_query p1 a m N zp v w) (bp_e p1))). rewrite E in Hl1. cbn [bob_items obind] in Hl1.
      rewrite app_nil_r, spike_at, Z.eqb_refl in Hl1. apply ok_inj, Z.eqb_eq, spike_inv in Hl1. assumption. }
  destruct (K p He Hl) as [zp [v [w [El Q]]]]. destruct (K p' He' Hl') as [zp' [v' [w' [El' Q']]]].
  rewrite El in El'. unfold bob_query in El'. injection El' as Ez Ezp Et Ev Ew. subst zp' v' w'.
  eapply bob_eqs_sound; eassumption.
Qed.

(** Extended proof: what acceptance means for a given hash. *)
Lemma bobext_cases p (u : pt C) a m N st (X : pt C) : 1 < N -> good_st st -> Z.gcd a (N * N) = 1 -> 0 <= bp_e p ->
  u <> pzero -> X <> pzero ->
  (forall H, bobext_verify H p u a m N st X = Ok false) \/
  (bp_s1 p <= q ^ 3 /\ exists zp v w Xx Xy ux uy, bob_eqs p a m N st zp v w /\
    coords X = Some (Xx, Xy) /\ coords u = Some (ux, uy) /\
    (smul (of_Z q (bp_s1 p)) gen = padd (smul (of_Z q (bp_e p)) X) u) /\
    forall H, bobext_verify H p u a m N st X =
      Ok (H (bob_query p a m N zp v w ++ [HInt Xx; HInt Xy; HInt ux; HInt uy]) =? bp_e p)).
Proof.
  intros HN Hst GA He Hu HX.
  destruct (bob_verify_cases p a m N st HN Hst GA He) as [[Hf _]|[Hs [zp [v [w [Q [_ [_ [_ [_ E]]]]]]]]]].
  - left. intros H. unfold bobext_verify. rewrite Hf. reflexivity.
  - destruct (bob_items_some u X Hu HX) as [Xx [Xy [ux [uy [EX [Eu Ei]]]]]].
    destruct (pt_eq_dec C (smul (of_Z q (bp_s1 p)) gen) (padd (smul (of_Z q (bp_e p)) X) u)) as [Ep|Ep].
    + right. split; [assumption|]. exists zp, v, w, Xx, Xy, ux, uy.
      refine (conj Q (conj EX (conj Eu (conj Ep _)))). intros H. unfold bobext_verify. rewrite E, Ei.
      cbn [obind]. rewrite Ep, pt_eqb_refl. destruct (_ =? _); reflexivity.
    + left. intros H. unfold bobext_verify. rewrite E, Ei. cbn [obind].
      apply pt_eqb_neq in Ep. rewrite Ep. destruct (_ =? _); reflexivity.
Qed.

Lemma bobext_sound p p' (u u' : pt C) a m N st (X : pt C) l : 1 < N -> good_st st -> Z.gcd a (N * N) = 1 ->
  0 <= bp_e p -> 0 <= bp_e p' -> bp_e p <> bp_e p' -> u <> pzero -> u' <> pzero -> X <> pzero ->
  (forall H, bobext_verify H p u a m N st X = Ok (H l =? bp_e p)) ->
  (forall H, bobext_verify H p' u' a m N st X = Ok (H l =? bp_e p')) ->
  bob_rel p p' a m N st /\
  smul (of_Z q (bp_s1 p - bp_s1 p')) gen = smul (of_Z q (bp_e p - bp_e p')) X.
Proof.
  intros HN Hst GA He He' Hne Hu Hu' HX Hl Hl'.
  assert (K : forall p1 u1, 0 <= bp_e p1 -> u1 <> pzero -> (forall H, bobext_verify H p1 u1 a m N st X = Ok (H l =? bp_e p1)) ->
     exists zp v w Xx Xy ux uy, l = bob_query p1 a m N zp v w ++ [HInt Xx; HInt Xy; HInt ux; HInt uy] /\
       bob_eqs p1 a m N st zp v w /\ coords u1 = Some (ux, uy) /\
       smul (of_Z q (bp_s1 p1)) gen = padd (smul (of_Z q (bp_e p1)) X) u1).
  { intros p1 u1 He1 Hu1 Hl1.
    destruct (bobext_cases p1 u1 a m N st X HN Hst GA He1 Hu1 HX) as [Hf|[_ [zp [v [w [Xx [Xy [ux [uy [Q [EX [Eu [Ep E]]]]]]]]]]]]].
    - specialize (Hl1 (fun _ => bp_e p1)). rewrite Hf, Z.eqb_refl in Hl1. discriminate.
    - exists zp, v, w, Xx, Xy, ux, uy. split; [|auto].
      specialize (Hl1 (spike (bob_query p1 a m N zp v w ++ [HInt Xx; HInt Xy; HInt ux; HInt uy]) (bp_e p1))).
      rewrite E, spike_at, Z.eqb_refl in Hl1. apply ok_inj, Z.eqb_eq, spike_inv in Hl1. assumption. }
  destruct (K p u He Hu Hl) as [zp [v [w [Xx [Xy [ux [uy [El [Q [Eu Ep]]]]]]]]]].
  destruct (K p' u' He' Hu' Hl') as [zp' [v' [w' [Xx' [Xy' [ux' [uy' [El' [Q' [Eu' Ep']]]]]]]]]].
  rewrite El in El'. unfold bob_query in El'. cbn [app] in El'.
  injection El' as Ez Ezp Et Ev Ew E1 E2 E3 E4. subst zp' v' w' Xx' Xy' ux' uy'.
  split; [eapply bob_eqs_sound; eassumption|].
  assert (Huu : u' = u) by (apply (coords_inj C u' u ux uy); assumption). subst u'.
  apply (dlog_eq_iff C) in Ep, Ep'. apply (dlog_eq_iff C). autorewrite with dlog in *.
  rewrite !of_Z_sub. 
  assert (K1 : dlog u = (of_Z q (bp_s1 p) - of_Z q (bp_e p) * dlog X)%Fq) by (transitivity ((of_Z q (bp_e p) * dlog X + dlog u) - of_Z q (bp_e p) * dlog X)%Fq; [ring|rewrite <- Ep; ring]).
  rewrite K1 in Ep'.
  transitivity (of_Z q (bp_s1 p) - (of_Z q (bp_e p') * dlog X + (of_Z q (bp_s1 p) - of_Z q (bp_e p) * dlog X)))%Fq; [|ring].
  rewrite <- Ep'. ring.
Qed.
End A.

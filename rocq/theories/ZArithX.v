(** Integer arithmetic helpers used by the model: extended Euclid, modular
    inverse, modular exponentiation, Fermat's little theorem. *)
From Coq Require Import ZArith Znumtheory Lia List Permutation Bool.
Import ListNotations.
Local Open Scope Z_scope.

(** Extended Euclid with fuel: returns [(g,x,y)] with [a*x+b*y = g]. *)
Fixpoint egcd (fuel : nat) (a b : Z) : Z * Z * Z :=
  match fuel with
  | O => (a, 1, 0)
  | S f =>
      if b =? 0 then (a, 1, 0)
      else let '(g, x, y) := egcd f b (a mod b) in (g, y, x - (a / b) * y)
  end.

Lemma egcd_bezout : forall f a b g x y,
  egcd f a b = (g, x, y) -> a * x + b * y = g.
Proof.
  induction f as [|f IH]; intros a b g x y H; cbn [egcd] in H.
  - inversion H; subst; ring.
  - destruct (b =? 0) eqn:Hb.
    + inversion H; subst; ring.
    + destruct (egcd f b (a mod b)) as [[g' x'] y'] eqn:E.
      apply IH in E. injection H as <- <- <-.
      apply Z.eqb_neq in Hb. rewrite <- E.
      pose proof (Z.mod_eq a b Hb) as D. rewrite D. ring.
Qed.

Lemma egcd_gcd : forall k a b f,
  0 <= b -> b < 2 ^ (Z.of_nat k) -> (2 * k + 1 <= f)%nat -> 0 <= a ->
  fst (fst (egcd f a b)) = Z.gcd a b.
Proof.
  induction k as [|k IH]; intros a b f Hb Hlt Hf Ha.
  - assert (b = 0) by (simpl in Hlt; lia). subst.
    destruct f; [lia|]. cbn [egcd]. rewrite Z.eqb_refl. cbn.
    rewrite Z.gcd_0_r. symmetry; apply Z.abs_eq; lia.
  - destruct f as [|f]; [lia|]. cbn [egcd].
    destruct (b =? 0) eqn:E0.
    { apply Z.eqb_eq in E0; subst. cbn. rewrite Z.gcd_0_r. symmetry; apply Z.abs_eq; lia. }
    apply Z.eqb_neq in E0.
    destruct f as [|f]; [lia|].
    assert (Hr : 0 <= a mod b < b) by (apply Z.mod_pos_bound; lia).
    set (r := a mod b) in *.
    assert (G1 : Z.gcd a b = Z.gcd b r).
    { unfold r. rewrite (Z.gcd_comm b), Z.gcd_mod by lia. apply Z.gcd_comm. }
    cbn [egcd]. destruct (r =? 0) eqn:Er.
    { apply Z.eqb_eq in Er. rewrite Er in *. cbn. rewrite G1, Z.gcd_0_r.
      symmetry; apply Z.abs_eq; lia. }
    apply Z.eqb_neq in Er.
    assert (Hr2 : 0 <= b mod r < r) by (apply Z.mod_pos_bound; lia).
    assert (Hs : b mod r < 2 ^ Z.of_nat k).
    { rewrite Nat2Z.inj_succ, Z.pow_succ_r in Hlt by lia.
      assert (b = r * (b / r) + b mod r) by (apply Z.div_mod; lia).
      assert (1 <= b / r) by (apply Z.div_le_lower_bound; lia).
      nia. }
    specialize (IH r (b mod r) f ltac:(lia) Hs ltac:(lia) ltac:(lia)).
    destruct (egcd f r (b mod r)) as [[g' x'] y'] eqn:E. cbn in *.
    rewrite IH, G1. rewrite (Z.gcd_comm b r).
    rewrite (Z.gcd_comm r (b mod r)). rewrite Z.gcd_mod by lia. reflexivity.
Qed.

(** [BigInt::mod_inv(a, n) : Option<BigInt>] (curv, GMP back end): the inverse
    of [a] modulo [n] in [[0,n)] when [gcd a n = 1], [None] otherwise. *)
Definition mod_inv (a n : Z) : option Z :=
  let am := a mod n in
  let '(g, x, _) := egcd (2 * Z.to_nat (Z.log2 n + 1) + 1) am n in
  if g =? 1 then Some (x mod n) else None.

Lemma log2_bound n : 0 < n -> n < 2 ^ Z.of_nat (Z.to_nat (Z.log2 n + 1)).
Proof.
  intros H. rewrite Z2Nat.id by (pose proof (Z.log2_nonneg n); lia).
  destruct (Z.log2_spec n H). rewrite <- Z.add_1_r in *. assumption.
Qed.

Lemma mod_inv_complete a n : 1 < n -> Z.gcd a n = 1 ->
  exists x, mod_inv a n = Some x.
Proof.
  intros Hn Hg. unfold mod_inv.
  pose proof (egcd_gcd (Z.to_nat (Z.log2 n + 1)) (a mod n) n
     (2 * Z.to_nat (Z.log2 n + 1) + 1)%nat ltac:(lia) (log2_bound n ltac:(lia))
     ltac:(lia) ltac:(apply Z.mod_pos_bound; lia)) as E.
  destruct (egcd _ (a mod n) n) as [[g x] y]. cbn in E.
  rewrite Z.gcd_mod in E by lia. rewrite Z.gcd_comm in E. rewrite Hg in E. subst g. cbn.
  eexists; reflexivity.
Qed.

Lemma mod_inv_sound a n x : 1 < n -> mod_inv a n = Some x ->
  (a * x) mod n = 1 /\ 0 <= x < n.
Proof.
  intros Hn H. unfold mod_inv in H.
  destruct (egcd _ (a mod n) n) as [[g x'] y'] eqn:E.
  destruct (g =? 1) eqn:Hg; [|discriminate].
  apply Z.eqb_eq in Hg; subst g. injection H as <-.
  apply egcd_bezout in E. split; [|apply Z.mod_pos_bound; lia].
  rewrite Zmult_mod_idemp_r.
  rewrite <- (Z.mod_1_l n) by lia. rewrite <- E.
  rewrite Z.add_mod, Z.mul_mod_idemp_l by lia.
  rewrite (Z.mul_comm n y'), Z.mod_mul, Z.add_0_r, Z.mod_mod by lia. reflexivity.
Qed.

Lemma mod_inv_none a n : 1 < n -> mod_inv a n = None -> Z.gcd a n <> 1.
Proof.
  intros Hn H Hg. destruct (mod_inv_complete a n Hn Hg) as [x Hx]. congruence.
Qed.

Lemma inv_gcd a x n : 1 < n -> (a * x) mod n = 1 -> Z.gcd a n = 1.
Proof.
  intros Hn H. apply Zgcd_1_rel_prime. apply bezout_rel_prime.
  apply Bezout_intro with (u := x) (v := - (a * x / n)).
  pose proof (Z.div_mod (a * x) n ltac:(lia)). lia.
Qed.

Lemma mod_inv_gcd a n x : 1 < n -> mod_inv a n = Some x -> Z.gcd a n = 1.
Proof. intros Hn H. apply mod_inv_sound in H; [|lia]. eapply inv_gcd; [lia|apply H]. Qed.

(** Binary modular exponentiation with a positive exponent. *)
Fixpoint powm_pos (b : Z) (e : positive) (n : Z) : Z :=
  match e with
  | xH => b mod n
  | xO e' => let t := powm_pos b e' n in (t * t) mod n
  | xI e' => let t := powm_pos b e' n in (b * ((t * t) mod n)) mod n
  end.

Lemma powm_pos_spec b e n : n <> 0 -> powm_pos b e n = (b ^ Z.pos e) mod n.
Proof.
  intros Hn. induction e as [e IH|e IH|]; cbn [powm_pos].
  - rewrite IH. rewrite <- Z.mul_mod by assumption.
    rewrite Z.mul_mod_idemp_r by assumption.
    f_equal. rewrite Pos2Z.inj_xI. rewrite Z.pow_add_r, Z.pow_1_r by lia.
    rewrite Z.pow_twice_r. ring.
  - rewrite IH. rewrite <- Z.mul_mod by assumption.
    f_equal. rewrite Pos2Z.inj_xO. rewrite Z.pow_twice_r. reflexivity.
  - rewrite Z.pow_1_r. reflexivity.
Qed.

(** [BigInt::mod_pow] with a non-negative exponent. *)
Definition powm (b e n : Z) : Z :=
  match e with
  | Z0 => 1 mod n
  | Zpos p => powm_pos b p n
  | Zneg _ => 0
  end.

Lemma powm_spec b e n : n <> 0 -> 0 <= e -> powm b e n = (b ^ e) mod n.
Proof.
  intros Hn He. destruct e; cbn [powm].
  - reflexivity.
  - apply powm_pos_spec; assumption.
  - lia.
Qed.

(** ** Congruences *)
Definition eqm (n a b : Z) : Prop := a mod n = b mod n.

Lemma eqm_refl n a : eqm n a a. Proof. reflexivity. Qed.
Lemma eqm_sym n a b : eqm n a b -> eqm n b a. Proof. unfold eqm; auto. Qed.
Lemma eqm_trans n a b c : eqm n a b -> eqm n b c -> eqm n a c.
Proof. unfold eqm; congruence. Qed.
Lemma eqm_mul n a b c d : eqm n a b -> eqm n c d -> eqm n (a * c) (b * d).
Proof.
  unfold eqm; intros H1 H2.
  rewrite (Z.mul_mod_idemp_l a c n) || rewrite Zmult_mod.
  rewrite H1, H2. rewrite <- Zmult_mod. reflexivity.
Qed.
Lemma eqm_add n a b c d : eqm n a b -> eqm n c d -> eqm n (a + c) (b + d).
Proof. unfold eqm; intros H1 H2. rewrite Zplus_mod, H1, H2, <- Zplus_mod. reflexivity. Qed.
Lemma eqm_pow n a b k : 0 <= k -> eqm n a b -> eqm n (a ^ k) (b ^ k).
Proof.
  intros Hk H. pattern k. apply natlike_ind; [| |exact Hk].
  - rewrite !Z.pow_0_r. apply eqm_refl.
  - intros x Hx IH. rewrite !Z.pow_succ_r by lia. apply eqm_mul; assumption.
Qed.
Lemma eqm_mod n a : eqm n (a mod n) a.
Proof. unfold eqm. apply Zmod_mod. Qed.
Lemma eqm_divide n a b : n <> 0 -> (eqm n a b <-> (n | a - b)).
Proof.
  intros Hn. unfold eqm. split; intros H.
  - apply Z.mod_divide; [assumption|]. rewrite Zminus_mod, H, Z.sub_diag. apply Z.mod_0_l; assumption.
  - destruct H as [k Hk]. replace a with (b + k * n) by lia. apply Z.mod_add; assumption.
Qed.

Lemma eqm_cancel_l n k a b : 0 < n -> Z.gcd k n = 1 -> eqm n (k * a) (k * b) -> eqm n a b.
Proof.
  intros Hn Hg H. apply eqm_divide in H; [|lia]. apply eqm_divide; [lia|].
  replace (k * a - k * b) with (k * (a - b)) in H by ring.
  apply Gauss with (2 := proj1 (Zgcd_1_rel_prime _ _) (eq_trans (Z.gcd_comm _ _) Hg)) in H.
  exact H.
Qed.

(** ** Fermat's little theorem *)
Definition zprod (l : list Z) : Z := fold_right Z.mul 1 l.

Lemma zprod_perm l l' : Permutation l l' -> zprod l = zprod l'.
Proof. induction 1; cbn [zprod fold_right] in *; unfold zprod in *; cbn; try lia; nia. Qed.

Lemma zprod_map_mul a p l : eqm p (zprod (map (fun x => (a * x) mod p) l))
                                  (a ^ Z.of_nat (length l) * zprod l).
Proof.
  induction l as [|x l IH]; cbn [map zprod fold_right length].
  - cbn. apply eqm_refl.
  - rewrite Nat2Z.inj_succ, Z.pow_succ_r by lia.
    eapply eqm_trans; [apply eqm_mul; [apply eqm_mod|exact IH]|].
    unfold zprod. unfold eqm. f_equal. ring.
Qed.

Definition units_list (p : Z) : list Z := map Z.of_nat (seq 1 (Z.to_nat (p - 1))).

Lemma units_list_in p x : In x (units_list p) <-> 1 <= x < p.
Proof.
  unfold units_list. rewrite in_map_iff. split.
  - intros [n [<- Hn]]. apply in_seq in Hn. lia.
  - intros H. exists (Z.to_nat x). split; [lia|]. apply in_seq. lia.
Qed.

Lemma units_list_nodup p : NoDup (units_list p).
Proof. unfold units_list. apply FinFun.Injective_map_NoDup; [intros a b; lia|apply seq_NoDup]. Qed.

Lemma prime_gcd p a : prime p -> a mod p <> 0 -> Z.gcd a p = 1.
Proof.
  intros Hp Ha. pose proof (prime_ge_2 p Hp).
  apply Zgcd_1_rel_prime. apply rel_prime_sym. apply prime_rel_prime; [assumption|].
  intros D. apply Ha. apply Z.mod_divide; [lia|assumption].
Qed.

Lemma fermat p a : prime p -> a mod p <> 0 -> (a ^ (p - 1)) mod p = 1.
Proof.
  intros Hp Ha. pose proof (prime_ge_2 p Hp) as Hp2.
  set (l := units_list p). set (f := fun x => (a * x) mod p).
  assert (Hperm : Permutation l (map f l)).
  { symmetry. apply NoDup_Permutation_bis.
    - apply (proj2 (NoDup_nth _ 0)).
      intros i j Hi Hj E. rewrite map_length in *.
      rewrite !(nth_indep _ 0 (f 0)) in E by (rewrite map_length; lia).
      rewrite !map_nth in E. unfold f in E.
      assert (Ei : In (nth i l 0) l) by (apply nth_In; assumption).
      assert (Ej : In (nth j l 0) l) by (apply nth_In; assumption).
      apply units_list_in in Ei, Ej.
      apply eqm_cancel_l in E; [|lia|apply prime_gcd; assumption].
      unfold eqm in E. rewrite !Z.mod_small in E by lia.
      apply (proj1 (NoDup_nth l 0) (units_list_nodup p)) in E; assumption.
    - rewrite map_length; lia.
    - intros y Hy. apply in_map_iff in Hy. destruct Hy as [x [<- Hx]].
      apply units_list_in in Hx. apply units_list_in. unfold f.
      assert (0 <= (a * x) mod p < p) by (apply Z.mod_pos_bound; lia).
      assert ((a * x) mod p <> 0); [|lia].
      intros E. apply Z.mod_divide in E; [|lia].
      apply prime_mult in E; [|assumption]. destruct E as [E|E].
      + apply Ha. apply Z.mod_divide; [lia|assumption].
      + apply Z.divide_pos_le in E; lia. }
  pose proof (zprod_map_mul a p l) as Hz. fold f in Hz.
  rewrite <- (zprod_perm _ _ Hperm) in Hz.
  assert (Hlen : Z.of_nat (length l) = p - 1).
  { unfold l, units_list. rewrite map_length, seq_length. lia. }
  rewrite Hlen in Hz.
  assert (Hg : Z.gcd (zprod l) p = 1).
  { assert (forall l', (forall x, In x l' -> 1 <= x < p) -> Z.gcd (zprod l') p = 1) as G.
    { induction l' as [|x l' IH]; intros Hl'.
      - cbn. apply Z.gcd_1_l.
      - cbn [zprod fold_right]. apply Zgcd_1_rel_prime. apply rel_prime_sym, rel_prime_mult.
        + apply rel_prime_le_prime; [assumption|apply Hl'; left; reflexivity] || 
          (apply rel_prime_sym, rel_prime_le_prime; [assumption|apply Hl'; left; reflexivity]).
        + apply rel_prime_sym, Zgcd_1_rel_prime, IH. intros; apply Hl'; right; assumption. }
    apply G. intros x Hx. apply units_list_in in Hx. assumption. }
  apply (eqm_cancel_l p (zprod l) 1 (a ^ (p - 1))) in Hg; [|lia|].
  - unfold eqm in Hg. rewrite <- Hg. apply Z.mod_1_l; lia.
  - rewrite Z.mul_1_r. eapply eqm_trans; [exact Hz|]. unfold eqm; f_equal; ring.
Qed.

(** Primality by trial division and by Pocklington's criterion; the field size and the group order of secp256k1 are prime. *)
From Coq Require Import ZArith Znumtheory Lia Bool List.
From Verif Require Import ZArithX Paillier PaillierProofs PrimeCert.
Import ListNotations.
Local Open Scope Z_scope.

Lemma no_small_factor N : 1 < N -> (forall p, prime p -> (p | N) -> N < p * p) -> prime N.
Proof.
  intros N1 H. destruct (prime_dec N) as [P|P]; [exact P|exfalso].
  destruct (not_prime_divide N N1 P) as (u & U & [v V]). assert (V1 : 1 < v) by nia.
  assert (S : exists w, 1 < w /\ (w | N) /\ w * w <= N).
  { destruct (Z.le_gt_cases u v) as [L|L]; [exists u|exists v]; (split; [lia|]; split; [|nia]); [exists v; exact V|exists u; rewrite V; ring]. }
  destruct S as (w & W1 & WN & WW). destruct (prime_factor w W1) as (p & PP & PW). pose proof (H p PP (Z.divide_trans _ _ _ PW WN)) as B. apply Z.divide_pos_le in PW; [|lia]. pose proof (prime_ge_2 _ PP). nia.
Qed.

(** Trial division *)
Fixpoint trial (n d : Z) (fuel : nat) : bool :=
  match fuel with
  | O => n <? d * d
  | S f => if n <? d * d then true else negb (n mod d =? 0) && trial n (d + 1) f
  end.
Lemma trial_ok n : forall fuel d, 1 < d -> trial n d fuel = true -> forall k, d <= k -> k * k <= n -> n mod k <> 0.
Proof.
  induction fuel as [|f IH]; intros d D H k K KK; cbn [trial] in H.
  - apply Z.ltb_lt in H. nia.
  - destruct (Z.ltb_spec n (d * d)) as [L|L]; [nia|]. apply andb_true_iff in H. destruct H as (A & B). destruct (Z.eq_dec k d) as [->|NE].
    + apply negb_true_iff, Z.eqb_neq in A. exact A.
    + apply (IH (d + 1) ltac:(lia) B k ltac:(lia) KK).
Qed.
Lemma trial_prime n fuel : 1 < n -> trial n 2 (Z.to_nat fuel) = true -> prime n.
Proof.
  intros N1 T. apply no_small_factor; [exact N1|]. intros p P D. destruct (Z.lt_ge_cases n (p * p)) as [L|L]; [exact L|exfalso].
  pose proof (prime_ge_2 _ P). apply (trial_ok n _ 2 ltac:(lia) T p ltac:(lia) L). apply Z.mod_divide; [lia|exact D].
Qed.

(** Pocklington: an element [b] of order exactly the prime [q] modulo every
    prime factor of N forces every prime factor to be 1 modulo [q]. *)
Lemma order_div N b q r : 1 < N -> prime q -> eqm N (b ^ q) 1 -> Z.gcd (b - 1) N = 1 -> prime r -> (r | N) -> (q | r - 1).
Proof.
  intros N1 Q A G R RN. pose proof (prime_ge_2 _ Q). pose proof (prime_ge_2 _ R).
  assert (BQ : eqm r (b ^ q) 1) by (apply (eqm_weaken N); [lia|lia|exact RN|exact A]).
  assert (BN : ~ eqm r b 1).
  { intros E. apply eqm_divide in E; [|lia]. pose proof (Z.gcd_greatest _ _ _ E RN) as K. rewrite G in K. apply Z.divide_pos_le in K; lia. }
  assert (BZ : b mod r <> 0).
  { intros E. assert (F : eqm r (b ^ q) 0) by (eapply eqm_trans; [apply eqm_pow with (b := 0); [lia|unfold eqm; rewrite E; reflexivity]|]; rewrite Z.pow_0_l by lia; apply eqm_refl).
    pose proof (eqm_trans _ _ _ _ (eqm_sym _ _ _ BQ) F) as K. unfold eqm in K. rewrite Z.mod_0_l, Z.mod_1_l in K by lia. discriminate. }
  destruct (Zdivide_dec q (r - 1)) as [Y|NY]; [exact Y|exfalso]. apply BN.
  destruct (Z.eq_dec r 2) as [->|R2].
  - unfold eqm. pose proof (Z.mod_pos_bound b 2 ltac:(lia)). change (1 mod 2) with 1. lia.
  - assert (GQ : Z.gcd q (r - 1) = 1) by (apply Zgcd_1_rel_prime, prime_rel_prime; assumption).
    destruct (mod_inv_complete q (r - 1) ltac:(lia) GQ) as [k K]. apply mod_inv_sound in K; [|lia]. destruct K as [K [K0 _]].
    pose proof (Z.div_mod (q * k) (r - 1) ltac:(lia)) as DM. rewrite K in DM. assert (Z0 : 0 <= q * k / (r - 1)) by (apply Z.div_pos; nia). set (z := q * k / (r - 1)) in *.
    assert (E1 : eqm r (b ^ (q * k)) 1) by (rewrite Z.pow_mul_r by lia; eapply eqm_trans; [apply eqm_pow with (b := 1); [lia|exact BQ]|]; rewrite Z.pow_1_l by lia; apply eqm_refl).
    assert (E2 : eqm r (b ^ (q * k)) b).
    { rewrite DM. assert (ZZ : 0 <= (r - 1) * z) by (apply Z.mul_nonneg_nonneg; lia). rewrite Z.pow_add_r, Z.pow_1_r, Z.pow_mul_r by (assumption || lia). apply eqm_trans with (1 * b); [apply eqm_mul; [|apply eqm_refl]|rewrite Z.mul_1_l; apply eqm_refl].
      eapply eqm_trans; [apply eqm_pow with (b := 1); [lia|unfold eqm; rewrite fermat, Z.mod_1_l by (assumption || lia); reflexivity]|]. rewrite Z.pow_1_l by lia. apply eqm_refl. }
    eapply eqm_trans; [apply eqm_sym, E2|exact E1].
Qed.
Lemma primes_product qs : forall m, NoDup qs -> (forall q, In q qs -> prime q /\ (q | m)) -> (fold_right Z.mul 1 qs | m).
Proof.
  induction qs as [|q qs IH]; intros m ND H; cbn [fold_right]; [apply Z.divide_1_l|]. inversion ND as [|? ? NI ND']; subst.
  destruct (H q (or_introl eq_refl)) as (Q & [m' M]). rewrite M, (Z.mul_comm m' q). apply Z.mul_divide_mono_l. apply IH; [exact ND'|]. intros q' I. destruct (H q' (or_intror I)) as (Q' & D). split; [exact Q'|].
  rewrite M in D. apply prime_mult in D; [|exact Q']. destruct D as [D|D]; [exact D|exfalso]. apply prime_div_prime in D; [|exact Q'|exact Q]. subst q'. exact (NI I).
Qed.

(** Exponentiation with any reduction that keeps the residue. *)
Fixpoint rpow (red : Z -> Z) (a : Z) (e : positive) : Z :=
  match e with
  | xH => a
  | xO e' => red (Z.square (rpow red a e'))
  | xI e' => red (a * red (Z.square (rpow red a e')))
  end.
Lemma rpow_eqm N red a e : (forall x, eqm N (red x) x) -> eqm N (rpow red a e) (a ^ Zpos e).
Proof.
  intros R. induction e as [e IH|e IH|]; cbn [rpow].
  - eapply eqm_trans; [apply R|]. replace (a ^ Zpos e~1) with (a * (a ^ Zpos e * a ^ Zpos e)) by (rewrite Pos2Z.inj_xI, Z.pow_add_r, Z.pow_1_r, Z.pow_twice_r by lia; ring). apply eqm_mul; [apply eqm_refl|]. eapply eqm_trans; [apply R|]. rewrite Z.square_spec. apply eqm_mul; exact IH.
  - eapply eqm_trans; [apply R|]. replace (a ^ Zpos e~0) with (a ^ Zpos e * a ^ Zpos e) by (rewrite Pos2Z.inj_xO, Z.pow_twice_r by lia; ring). rewrite Z.square_spec. apply eqm_mul; exact IH.
  - rewrite Z.pow_1_r. apply eqm_refl.
Qed.
(** Barrett reduction with an approximate inverse mu of N; the residue is right for every mu. *)
Definition barrett (N s t mu x : Z) : Z := x - N * Z.shiftr (mu * Z.shiftr x s) t.
Lemma barrett_eqm N s t mu x : 0 < N -> eqm N (barrett N s t mu x) x.
Proof. intros H. unfold barrett. apply eqm_divide; [lia|]. exists (- Z.shiftr (mu * Z.shiftr x s) t). ring. Qed.
(** Reduction modulo 2^k - c by folding the high bits. *)
Definition fold_red (c k x : Z) : Z := let hi := Z.shiftr x k in c * hi + (x - Z.shiftl hi k).
Lemma fold_red_eqm c k x : 0 <= k -> 0 < 2 ^ k - c -> eqm (2 ^ k - c) (fold_red c k x) x.
Proof. intros K H. unfold fold_red. rewrite Z.shiftl_mul_pow2 by exact K. apply eqm_divide; [lia|]. exists (- Z.shiftr x k). ring. Qed.

Definition pock (red : Z -> Z) (N : Z) (qbs : list (Z * Z)) : bool :=
  let P := fold_right Z.mul 1 (map fst qbs) in
  (1 <? N) && (N <? (P + 1) * (P + 1)) && (0 <? P) &&
  forallb (fun qb => match fst qb with Zpos e => ((rpow red (snd qb) e - 1) mod N =? 0) | _ => false end && (Z.gcd (snd qb - 1) N =? 1)) qbs.
Lemma pock_prime red N qbs : (1 < N -> forall x, eqm N (red x) x) -> NoDup (map fst qbs) -> Forall prime (map fst qbs) -> pock red N qbs = true -> prime N.
Proof.
  intros RE ND FP H. unfold pock in H. cbv zeta in H. set (P := fold_right Z.mul 1 (map fst qbs)) in *. rewrite !andb_true_iff in H. destruct H as (((N1 & B) & PZ) & F). apply Z.ltb_lt in N1. apply Z.ltb_lt in B. apply Z.ltb_lt in PZ. rewrite forallb_forall in F. rewrite Forall_forall in FP. specialize (RE N1).
  apply no_small_factor; [exact N1|]. intros r R RN. pose proof (prime_ge_2 _ R).
  assert (D : (P | r - 1)).
  { apply primes_product; [exact ND|]. intros q I. split; [apply FP, I|]. apply in_map_iff in I. destruct I as ((q' & b) & <- & I). cbn [fst]. specialize (F _ I). cbn [fst snd] in F. apply andb_true_iff in F. destruct F as (F1 & F2). apply Z.eqb_eq in F2.
    assert (Q : prime q') by (apply FP, in_map_iff; exists (q', b); split; [reflexivity|exact I]). destruct q' as [|e|e]; try discriminate. apply Z.eqb_eq in F1. apply Z.mod_divide in F1; [|lia].
    apply (order_div N b (Zpos e) r); [exact N1|exact Q| |exact F2|exact R|exact RN]. eapply eqm_trans; [apply eqm_sym, rpow_eqm, RE|]. apply eqm_divide; [lia|exact F1]. }
  apply Z.divide_pos_le in D; [|lia]. nia.
Qed.

Ltac nodup := repeat (constructor; [cbn; intuition discriminate|]); try constructor.

Lemma pr_96557 : prime 96557. Proof. apply (trial_prime _ 312); [lia|vm_cast_no_check (eq_refl true)]. Qed.
Lemma pr_7240687 : prime 7240687. Proof. apply (trial_prime _ 2692); [lia|vm_cast_no_check (eq_refl true)]. Qed.
Lemma pr_1627771 : prime 1627771. Proof. apply (trial_prime _ 1277); [lia|vm_cast_no_check (eq_refl true)]. Qed.
Lemma pr_28181 : prime 28181. Proof. apply (trial_prime _ 169); [lia|vm_cast_no_check (eq_refl true)]. Qed.
Lemma pr_9349 : prime 9349. Proof. apply (trial_prime _ 98); [lia|vm_cast_no_check (eq_refl true)]. Qed.
Lemma pr_120233 : prime 120233. Proof. apply (trial_prime _ 348); [lia|vm_cast_no_check (eq_refl true)]. Qed.
Lemma pr_53 : prime 53. Proof. apply (trial_prime _ 9); [lia|vm_cast_no_check (eq_refl true)]. Qed.
Lemma pr_29 : prime 29. Proof. apply (trial_prime _ 7); [lia|vm_cast_no_check (eq_refl true)]. Qed.
Lemma pr_7 : prime 7. Proof. apply (trial_prime _ 4); [lia|vm_cast_no_check (eq_refl true)]. Qed.
Lemma pr_297159362677 : prime 297159362677.
Proof.
  apply (pock_prime (barrett 297159362677 38 48 260369559815739) _ [(1627771, 114170894341)]);
  [intros H x; apply barrett_eqm; lia|nodup|exact (Forall_cons _ pr_1627771 (Forall_nil _))|vm_cast_no_check (eq_refl true)].
Qed.
Lemma pr_545358713 : prime 545358713.
Proof.
  apply (pock_prime (barrett 545358713 29 39 541199577716) _ [(28181, 420071726)]);
  [intros H x; apply barrett_eqm; lia|nodup|exact (Forall_cons _ pr_28181 (Forall_nil _))|vm_cast_no_check (eq_refl true)].
Qed.
Lemma pr_44706919 : prime 44706919.
Proof.
  apply (pock_prime (barrett 44706919 25 35 25788435669) _ [(9349, 24793509)]);
  [intros H x; apply barrett_eqm; lia|nodup|exact (Forall_cons _ pr_9349 (Forall_nil _))|vm_cast_no_check (eq_refl true)].
Qed.
Lemma pr_107590001 : prime 107590001.
Proof.
  apply (pock_prime (barrett 107590001 26 36 42863518687) _ [(53, 26896163); (29, 68236646); (7, 95730224)]);
  [intros H x; apply barrett_eqm; lia|nodup|exact (Forall_cons _ pr_53 (Forall_cons _ pr_29 (Forall_cons _ pr_7 (Forall_nil _))))|vm_cast_no_check (eq_refl true)].
Qed.
Lemma pr_127 : prime 255515944373312847190720520512484175977.
Proof.
  apply (pock_prime (barrett 255515944373312847190720520512484175977 127 137 116011448590638171089406205920954080977920) _ [(107590001, 82381214149343919061612748413412685903); (7240687, 111233916942653821000329437866037388564); (96557, 47418180093458530687350227428022525796)]);
  [intros H x; apply barrett_eqm; lia|nodup|exact (Forall_cons _ pr_107590001 (Forall_cons _ pr_7240687 (Forall_cons _ pr_96557 (Forall_nil _))))|vm_cast_no_check (eq_refl true)].
Qed.
Lemma pr_237 : prime 205115282021455665897114700593932402728804164701536103180137503955397371.
Proof.
  apply (pock_prime (barrett 205115282021455665897114700593932402728804164701536103180137503955397371 236 246 60877932049732853912660050763817983788571952174805796232710289060433917096) _ [(255515944373312847190720520512484175977, 53072002638256206696760401718638995221936714922431175139555783581918754)]);
  [intros H x; apply barrett_eqm; lia|nodup|exact (Forall_cons _ pr_127 (Forall_nil _))|vm_cast_no_check (eq_refl true)].
Qed.
(** The coordinate field and the group order of secp256k1 *)
Definition secp_p : Z := 2 ^ 256 - 4294968273.
Definition secp_n : Z := 2 ^ 256 - 432420386565659656852420866394968145599.
Lemma secp_p_prime : prime secp_p.
Proof.
  apply (pock_prime (fun x => fold_red 4294968273 256 (fold_red 4294968273 256 x)) _ [(205115282021455665897114700593932402728804164701536103180137503955397371, 30133174243114333125352536507925183895021889065932097717961225114769139489296)]);
  [intros H x; eapply eqm_trans; [apply (fold_red_eqm 4294968273 256); [lia|exact (eq_refl Lt)]|apply (fold_red_eqm 4294968273 256); [lia|exact (eq_refl Lt)]]|nodup|exact (Forall_cons _ pr_237 (Forall_nil _))|vm_cast_no_check (eq_refl true)].
Qed.
Lemma pr_94 : prime 29047611873442575647497758179.
Proof.
  apply (pock_prime (barrett 29047611873442575647497758179 94 104 13830207895060807695449386897627) _ [(297159362677, 16062460713643416818883781819); (545358713, 1548700731856248688196814844)]);
  [intros H x; apply barrett_eqm; lia|nodup|exact (Forall_cons _ pr_297159362677 (Forall_cons _ pr_545358713 (Forall_nil _)))|vm_cast_no_check (eq_refl true)].
Qed.
Lemma pr_108 : prime 341948486974166000522343609283189.
Proof.
  apply (pock_prime (barrett 341948486974166000522343609283189 108 118 315368515365736328699988557321192252) _ [(29047611873442575647497758179, 291782875431971620014836968593543)]);
  [intros H x; apply barrett_eqm; lia|nodup|exact (Forall_cons _ pr_94 (Forall_nil _))|vm_cast_no_check (eq_refl true)].
Qed.
Lemma pr_67 : prime 174723607534414371449.
Proof.
  apply (pock_prime (barrett 174723607534414371449 67 77 127634413650360126753317) _ [(44706919, 69188669156729060297); (120233, 97784642313376440036)]);
  [intros H x; apply barrett_eqm; lia|nodup|exact (Forall_cons _ pr_44706919 (Forall_cons _ pr_120233 (Forall_nil _)))|vm_cast_no_check (eq_refl true)].
Qed.
Lemma secp_n_prime : prime secp_n.
Proof.
  apply (pock_prime (fun x => fold_red 432420386565659656852420866394968145599 256 (fold_red 432420386565659656852420866394968145599 256 (fold_red 432420386565659656852420866394968145599 256 x))) _ [(341948486974166000522343609283189, 86644313145397489891193855759928671818841495415153161568930588450251036589538); (174723607534414371449, 58138579787377535003503259606714116115479494849592057519620557805018937774448)]);
  [intros H x; eapply eqm_trans; [apply (fold_red_eqm 432420386565659656852420866394968145599 256); [lia|exact (eq_refl Lt)]|eapply eqm_trans; [apply (fold_red_eqm 432420386565659656852420866394968145599 256); [lia|exact (eq_refl Lt)]|apply (fold_red_eqm 432420386565659656852420866394968145599 256); [lia|exact (eq_refl Lt)]]]|nodup|exact (Forall_cons _ pr_108 (Forall_cons _ pr_67 (Forall_nil _)))|vm_cast_no_check (eq_refl true)].
Qed.

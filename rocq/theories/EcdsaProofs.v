From Coq Require Import ZArith Lia Bool List Field Znumtheory.
From Verif Require Import ZArithX Fq Curve Outcome Bytes Ecdsa Toy.
Import ListNotations.
Local Open Scope Z_scope.

Section Proofs.
Context (C : Curve).
Notation q := (cq C).
Notation F := (Fq q).
Notation qp := (cq_prime C).
Add Field cfield : (C_field C).

Lemma qgt1 : 1 < q. Proof. apply q_gt1, qp. Qed.

Lemma inv_unique (s w : Z) : (s * w) mod q = 1 -> of_Z q s <> f0 /\ of_Z q w = finv (of_Z q s).
Proof.
  intros H. assert (E : (of_Z q s * of_Z q w = f1)%Fq).
  { rewrite <- of_Z_mul. apply of_Z_eq. rewrite H. symmetry. apply Z.mod_1_l, qgt1. }
  assert (Hs : of_Z q s <> f0).
  { intros Hs. rewrite Hs in E. apply (f1_neq_f0 qp). rewrite <- E. ring. }
  split; [assumption|].
  transitivity ((finv (of_Z q s) * (of_Z q s * of_Z q w))%Fq).
  - field. assumption.
  - rewrite E. field. assumption.
Qed.

Lemma inv_exists (s : Z) : of_Z q s <> f0 -> exists w, (s * w) mod q = 1 /\ of_Z q w = finv (of_Z q s).
Proof.
  intros Hs. exists (to_Z (finv (of_Z q s))). split.
  - assert (E : (of_Z q s * finv (of_Z q s) = f1)%Fq) by (field; assumption).
    apply (f_equal to_Z) in E. rewrite (to_Z_1 qp) in E. rewrite <- E. cbn.
    rewrite Zmult_mod_idemp_l. reflexivity.
  - apply of_Z_to_Z.
Qed.

(** The nonce point recomputed by a verifier. *)
Definition vpoint (y : pt C) (e r s : F) : pt C :=
  padd (smul (e * finv s)%Fq gen) (smul (r * finv s)%Fq y).

Lemma ecdsa_eqn_iff (Q : pt C) e r s :
  ecdsa_eqn Q e r s <->
  of_Z q s <> f0 /\ exists x, x_coord (vpoint Q (of_Z q e) (of_Z q r) (of_Z q s)) = Some x /\ x mod q = r mod q.
Proof.
  unfold ecdsa_eqn, vpoint, zmul. split.
  - intros (w & x & Hw & Hx & Hr). apply inv_unique in Hw. destruct Hw as [Hs Hw].
    split; [assumption|]. exists x. rewrite !of_Z_mul, Hw in Hx. auto.
  - intros (Hs & x & Hx & Hr). destruct (inv_exists s Hs) as (w & Hw & Ew).
    exists w, x. rewrite !of_Z_mul, Ew. auto.
Qed.

Lemma gg20_verify_ok (r s : F) y m :
  gg20_verify r s y m = Ok tt <->
  s <> f0 /\ exists x, x_coord (vpoint y (of_Z q m) r s) = Some x /\ x mod q = to_Z r.
Proof.
  unfold gg20_verify, vpoint. split.
  - intros H. apply obind_ok in H. destruct H as (b & Hb & H). apply unwrap_ok in Hb.
    apply finvert_some in Hb. destruct Hb as [Hs ->].
    apply obind_ok in H. destruct H as (x & Hx & H). apply unwrap_ok in Hx.
    split; [assumption|]. exists x. split; [assumption|].
    destruct (feqb_spec r (of_Z q (x mod q))) as [E|]; [|discriminate].
    rewrite E. cbn. symmetry; apply Zmod_mod.
  - intros (Hs & x & Hx & Hr). rewrite finvert_nz by assumption. cbn. rewrite Hx. cbn.
    replace (of_Z q (x mod q)) with r; [rewrite feqb_refl; reflexivity|].
    rewrite Hr. symmetry; apply of_Z_to_Z.
Qed.

Lemma gg18_verify_ok (r s : F) y m :
  gg18_verify r s y m = Ok tt <->
  s <> f0 /\ exists x, x_coord (vpoint y (of_Z q m) r s) = Some x /\ x mod q = to_Z r.
Proof.
  unfold gg18_verify, vpoint. split.
  - intros H. apply obind_ok in H. destruct H as (b & Hb & H).
    destruct (finvert s) as [b'|] eqn:E; [|discriminate]. injection Hb as <-.
    apply finvert_some in E. destruct E as [Hs ->].
    apply obind_ok in H. destruct H as (x & Hx & H).
    destruct (x_coord _) as [x'|] eqn:Ex; [|discriminate]. injection Hx as <-.
    split; [assumption|]. exists x'. split; [reflexivity|].
    destruct (feqb_spec r (of_Z q (x' mod q))) as [E|]; [|discriminate].
    rewrite E. cbn. symmetry; apply Zmod_mod.
  - intros (Hs & x & Hx & Hr). rewrite finvert_nz by assumption. cbn. rewrite Hx. cbn.
    replace (of_Z q (x mod q)) with r; [rewrite feqb_refl; reflexivity|].
    rewrite Hr. symmetry; apply of_Z_to_Z.
Qed.

Lemma of_to_nz (s : F) : s <> f0 <-> of_Z q (to_Z s) <> f0.
Proof. rewrite of_Z_to_Z. reflexivity. Qed.

Lemma ok_eqn_iff (r s : F) y m :
  (s <> f0 /\ exists x, x_coord (vpoint y (of_Z q m) r s) = Some x /\ x mod q = to_Z r) <->
  ecdsa_eqn y m (to_Z r) (to_Z s).
Proof.
  rewrite ecdsa_eqn_iff, !of_Z_to_Z. rewrite to_Z_mod. reflexivity.
Qed.

Lemma nz_range (s : F) : s <> f0 -> 1 <= to_Z s < q.
Proof. intros H. pose proof (to_Z_range qp s). pose proof (to_Z_nz s H). lia. Qed.
Lemma range_nz (s : F) : 1 <= to_Z s -> s <> f0.
Proof. intros H ->. rewrite to_Z_0 in H. lia. Qed.

(** C01 *)
Lemma gg20_verify_iff_valid (r s : F) y m : r <> f0 ->
  (gg20_verify r s y m = Ok tt <-> ecdsa_valid y m (to_Z r) (to_Z s)).
Proof.
  intros Hr. rewrite gg20_verify_ok, ok_eqn_iff. unfold ecdsa_valid. split.
  - intros H. pose proof (proj2 (ok_eqn_iff r s y m) H) as [Hs _].
    repeat split; try apply nz_range; assumption.
  - tauto.
Qed.

Lemma gg20_verify_sound (r s : F) y m : gg20_verify r s y m = Ok tt ->
  ecdsa_eqn y m (to_Z r) (to_Z s) /\ (r = f0 \/ ecdsa_valid y m (to_Z r) (to_Z s)).
Proof.
  intros H. split.
  - apply ok_eqn_iff, gg20_verify_ok, H.
  - destruct (Fq_eq_dec r f0) as [|Hr]; [auto|right]. apply gg20_verify_iff_valid; assumption.
Qed.

(** C06: exactly when the GG20 verification panics. *)
Lemma gg20_verify_panic_iff (r s : F) y m :
  gg20_verify r s y m = Panic <-> s = f0 \/ vpoint y (of_Z q m) r s = pzero.
Proof.
  unfold gg20_verify, vpoint. destruct (Fq_eq_dec s f0) as [->|Hs].
  - rewrite finvert_0. cbn. tauto.
  - rewrite finvert_nz by assumption. cbn [obind unwrap].
    destruct (x_coord _) as [x|] eqn:E; cbn.
    + split.
      * destruct (feqb _ _); discriminate.
      * intros [H|H]; [contradiction|]. apply x_coord_none in H. congruence.
    + apply x_coord_none in E. split; auto.
Qed.

(** C02 *)
Lemma gg18_verify_no_panic (r s : F) y m : gg18_verify r s y m <> Panic.
Proof.
  unfold gg18_verify. destruct (finvert s); cbn; [|discriminate].
  destruct (x_coord _); cbn; [|discriminate]. destruct (feqb _ _); discriminate.
Qed.
Lemma gg18_verify_err (r s : F) y m :
  s = f0 \/ vpoint y (of_Z q m) r s = pzero -> gg18_verify r s y m = Err InvalidSig.
Proof.
  intros H. unfold gg18_verify, vpoint in *. destruct (Fq_eq_dec s f0) as [->|Hs].
  - rewrite finvert_0. reflexivity.
  - rewrite finvert_nz by assumption. cbn [obind ok_or].
    destruct H as [H|H]; [contradiction|]. apply x_coord_none in H. rewrite H. reflexivity.
Qed.
Lemma gg18_verify_iff_valid (r s : F) y m : r <> f0 ->
  (gg18_verify r s y m = Ok tt <-> ecdsa_valid y m (to_Z r) (to_Z s)).
Proof.
  intros Hr. rewrite gg18_verify_ok, <- gg20_verify_ok. apply gg20_verify_iff_valid; assumption.
Qed.
Lemma gg18_verify_cases (r s : F) y m :
  gg18_verify r s y m = Ok tt \/ gg18_verify r s y m = Err InvalidSig.
Proof.
  unfold gg18_verify. destruct (finvert s); cbn; [|auto].
  destruct (x_coord _); cbn; [|auto]. destruct (feqb _ _); auto.
Qed.

(** Negating [s] negates the recomputed point. *)
Lemma vpoint_opp y e r s : s <> f0 -> vpoint y e r (fopp s) = pneg (vpoint y e r s).
Proof.
  intros Hs. unfold vpoint. to_dlog.
  assert (fopp s <> f0).
  { intros E. apply Hs. transitivity (fopp (fopp s)); [ring|]. rewrite E. ring. }
  field. auto.
Qed.
Lemma fopp_nz (s : F) : s <> f0 -> fopp s <> f0.
Proof. intros Hs E. apply Hs. transitivity (fopp (fopp s)); [ring|]. rewrite E. ring. Qed.
Lemma gg20_verify_opp (r s : F) y m : gg20_verify r s y m = Ok tt -> gg20_verify r (fopp s) y m = Ok tt.
Proof.
  rewrite !gg20_verify_ok. intros (Hs & x & Hx & Hr). split; [apply fopp_nz; assumption|].
  exists x. rewrite vpoint_opp by assumption. rewrite x_coord_neg. auto.
Qed.

(** ** Normalisation *)
Lemma normalize_low (s : F) yc : 2 * to_Z (fst (normalize s yc)) <= q.
Proof.
  unfold normalize. pose proof (to_Z_range qp s).
  destruct (Z.ltb_spec (q - to_Z s) (to_Z s)); cbn [fst].
  - rewrite to_Z_of_Z, Z.mod_small by lia. lia.
  - lia.
Qed.
Lemma q_is_odd : exists k, q = 2 * k + 1.
Proof.
  pose proof (cq_odd C). destruct (Z.Even_or_Odd q) as [[k Hk]|[k Hk]]; [|eauto].
  exfalso. assert (rel_prime 2 q) as R.
  { apply rel_prime_le_prime; [apply qp|lia]. }
  apply Zgcd_1_rel_prime in R. rewrite Hk in R.
  replace (2 * k) with (k * 2) in R by ring.
  pose proof (Z.gcd_divide_l 2 (k * 2)). assert (2 | Z.gcd 2 (k * 2)) as D.
  { apply Z.gcd_greatest; [exists 1; lia|exists k; lia]. }
  rewrite R in D. apply Z.divide_1_r_nonneg in D; lia.
Qed.
Lemma normalize_low' (s : F) yc : to_Z (fst (normalize s yc)) <= (q - 1) / 2.
Proof.
  pose proof (normalize_low s yc). destruct q_is_odd as [k Hk].
  apply Z.div_le_lower_bound; lia.
Qed.
Lemma normalize_cases (s : F) yc :
  (normalize s yc = (s, b2z (Z.odd (yc mod q))) /\ to_Z s <= q - to_Z s) \/
  (normalize s yc = (fopp s, 1 - b2z (Z.odd (yc mod q))) /\ q - to_Z s < to_Z s).
Proof.
  unfold normalize. destruct (Z.ltb_spec (q - to_Z s) (to_Z s)); [right|left]; split; try lia; auto.
  f_equal. rewrite of_Z_sub, of_Z_q, of_Z_to_Z. ring.
Qed.

(** C03 *)
Lemma gg20_output_sound (l : local_sig C) s_vec sg :
  gg20_output l s_vec = Ok sg ->
  gg20_verify (sg_r sg) (sg_s sg) (ls_y l) (ls_m l) = Ok tt /\
  ecdsa_eqn (ls_y l) (ls_m l) (to_Z (sg_r sg)) (to_Z (sg_s sg)) /\
  (sg_r sg <> f0 -> ecdsa_valid (ls_y l) (ls_m l) (to_Z (sg_r sg)) (to_Z (sg_s sg))) /\
  to_Z (sg_s sg) <= (q - 1) / 2.
Proof.
  unfold gg20_output. intros H.
  apply obind_ok in H. destruct H as (xc & Hx & H).
  apply obind_ok in H. destruct H as (yc & Hy & H).
  set (s0 := fold_left fadd s_vec (ls_s l)) in *.
  pose proof (normalize_low' s0 yc) as Hlow.
  destruct (normalize s0 yc) as [s' rc]. cbn [fst] in Hlow.
  destruct (gg20_verify _ _ _ _) as [[]| |] eqn:E; try discriminate.
  injection H as <-. cbn. split; [assumption|].
  pose proof (gg20_verify_sound _ _ _ _ E) as [H1 H2].
  split; [assumption|split; [|assumption]]. tauto.
Qed.

Lemma gg18_output_sound (l : local_sig C) s_vec sg :
  gg18_output l s_vec = Ok sg ->
  gg18_verify (sg_r sg) (sg_s sg) (ls_y l) (ls_m l) = Ok tt /\
  ecdsa_eqn (ls_y l) (ls_m l) (to_Z (sg_r sg)) (to_Z (sg_s sg)) /\
  (sg_r sg <> f0 -> ecdsa_valid (ls_y l) (ls_m l) (to_Z (sg_r sg)) (to_Z (sg_s sg))) /\
  to_Z (sg_s sg) <= (q - 1) / 2.
Proof.
  unfold gg18_output. intros H.
  apply obind_ok in H. destruct H as (xc & Hx & H).
  apply obind_ok in H. destruct H as (yc & Hy & H).
  set (s0 := (ls_s l + fold_left fadd s_vec f0)%Fq) in *.
  pose proof (normalize_low' s0 yc) as Hlow.
  destruct (normalize s0 yc) as [s' rc]. cbn [fst] in Hlow.
  destruct (gg18_verify _ _ _ _) as [[]| |] eqn:E; try discriminate.
  injection H as <-. cbn. split; [assumption|].
  apply gg18_verify_ok, gg20_verify_ok in E.
  pose proof (gg20_verify_sound _ _ _ _ E) as [H1 H2].
  split; [assumption|split; [|assumption]]. tauto.
Qed.

Lemma gg18_output_no_panic (l : local_sig C) s_vec : gg18_output l s_vec <> Panic.
Proof.
  unfold gg18_output. destruct (x_coord _); cbn; [|discriminate].
  destruct (y_coord _); cbn; [|discriminate].
  destruct (normalize _ _). destruct (gg18_verify_cases (of_Z q (z mod q)) f (ls_y l) (ls_m l)) as [->| ->];
  discriminate.
Qed.

(** The total of the partial signatures. *)
Definition sig_total (l : local_sig C) (s_vec : list F) : F := (ls_s l + fsum s_vec)%Fq.

(** Signing equation: [s R = m G + r y]. *)
Definition sig_eqn (R y : pt C) (m : Z) (r s : F) : Prop :=
  smul s R = padd (smul (of_Z q m) gen) (smul r y).

Lemma sig_eqn_vpoint R y m (r s : F) : s <> f0 -> (sig_eqn R y m r s <-> vpoint y (of_Z q m) r s = R).
Proof.
  intros Hs. unfold sig_eqn, vpoint. rewrite !dlog_eq_iff. autorewrite with dlog. split; intros H.
  - transitivity ((of_Z q m * f1 + r * dlog y) * finv s)%Fq; [ring|]. rewrite <- H. field. assumption.
  - rewrite <- H. field. assumption.
Qed.

(** Completeness of the output step: a non-zero total satisfying the signing
    equation is always output. *)
Lemma gg20_output_complete (l : local_sig C) s_vec x y :
  coords (ls_R l) = Some (x, y) ->
  sig_total l s_vec <> f0 ->
  sig_eqn (ls_R l) (ls_y l) (ls_m l) (of_Z q x) (sig_total l s_vec) ->
  gg20_output l s_vec = Ok {| sg_r := of_Z q x; sg_s := fst (normalize (sig_total l s_vec) y);
                              sg_recid := snd (normalize (sig_total l s_vec) y) |}.
Proof.
  intros HR Hs Heq. unfold gg20_output, x_coord, y_coord. rewrite HR. cbn [option_map fst snd unwrap obind].
  rewrite fold_left_fadd. fold (sig_total l s_vec). set (s := sig_total l s_vec) in *.
  rewrite (of_Z_mod x).
  assert (V : gg20_verify (of_Z q x) s (ls_y l) (ls_m l) = Ok tt).
  { apply gg20_verify_ok. split; [assumption|]. exists x.
    apply sig_eqn_vpoint in Heq; [|assumption]. rewrite Heq. unfold x_coord. rewrite HR.
    split; reflexivity. }
  destruct (normalize_cases s y) as [[-> _]|[-> _]]; cbn [fst snd].
  - rewrite V. reflexivity.
  - rewrite (gg20_verify_opp _ _ _ _ V). reflexivity.
Qed.

Lemma gg18_output_complete (l : local_sig C) s_vec x y :
  coords (ls_R l) = Some (x, y) ->
  sig_total l s_vec <> f0 ->
  sig_eqn (ls_R l) (ls_y l) (ls_m l) (of_Z q x) (sig_total l s_vec) ->
  gg18_output l s_vec = Ok {| sg_r := of_Z q x; sg_s := fst (normalize (sig_total l s_vec) y);
                              sg_recid := snd (normalize (sig_total l s_vec) y) |}.
Proof.
  intros HR Hs Heq. unfold gg18_output, x_coord, y_coord. rewrite HR. cbn [option_map fst snd ok_or obind].
  rewrite fold_left_fadd.
  replace (ls_s l + (f0 + fsum s_vec))%Fq with (sig_total l s_vec) by (unfold sig_total; ring).
  set (s := sig_total l s_vec) in *.
  rewrite (of_Z_mod x).
  assert (V : gg20_verify (of_Z q x) s (ls_y l) (ls_m l) = Ok tt).
  { apply gg20_verify_ok. split; [assumption|]. exists x.
    apply sig_eqn_vpoint in Heq; [|assumption]. rewrite Heq. unfold x_coord. rewrite HR.
    split; reflexivity. }
  pose proof (gg20_verify_opp _ _ _ _ V) as V'.
  apply gg20_verify_ok, gg18_verify_ok in V. apply gg20_verify_ok, gg18_verify_ok in V'.
  destruct (normalize_cases s y) as [[-> _]|[-> _]]; cbn [fst snd].
  - rewrite V. reflexivity.
  - rewrite V'. reflexivity.
Qed.

(** C05: which tampered totals can still be accepted. *)
Lemma gg20_output_tamper (l : local_sig C) s_vec s_vec' sg x :
  x_coord (ls_R l) = Some x ->
  sig_total l s_vec <> f0 ->
  sig_eqn (ls_R l) (ls_y l) (ls_m l) (of_Z q x) (sig_total l s_vec) ->
  gg20_output l s_vec' = Ok sg ->
  sig_total l s_vec' = sig_total l s_vec \/ sig_total l s_vec' = fopp (sig_total l s_vec) \/
  (exists x' (P : pt C), x_coord P = Some x' /\ x' <> x /\ x' mod q = x mod q).
Proof.
  intros Hx Hs Heq H. unfold gg20_output in H.
  rewrite Hx in H. cbn [unwrap obind] in H.
  apply obind_ok in H. destruct H as (yc & Hy & H).
  rewrite fold_left_fadd in H. fold (sig_total l s_vec') in H.
  set (s := sig_total l s_vec) in *. set (s' := sig_total l s_vec') in *.
  rewrite of_Z_mod in H.
  assert (V : gg20_verify (of_Z q x) s' (ls_y l) (ls_m l) = Ok tt).
  { destruct (normalize_cases s' yc) as [[E _]|[E _]]; rewrite E in H.
    - destruct (gg20_verify _ _ _ _) as [[]| |]; congruence.
    - destruct (gg20_verify _ _ _ _) as [[]| |] eqn:V; try discriminate.
      apply gg20_verify_opp in V. replace s' with (fopp (fopp s')) by ring. exact V. }
  apply gg20_verify_ok in V. destruct V as (Hs' & x' & Hx' & Hr).
  cbn in Hr. apply sig_eqn_vpoint in Heq; [|assumption].
  set (P' := vpoint (ls_y l) (of_Z q (ls_m l)) (of_Z q x) s') in *.
  assert (Hrel : smul s' P' = smul s (ls_R l)).
  { rewrite <- Heq. unfold P', vpoint. to_dlog. field. auto. }
  destruct (Z.eq_dec x' x) as [->|Hne].
  - assert (HRnz : dlog (ls_R l) <> f0).
    { intros E. apply pzero_dlog in E. apply x_coord_none in E. congruence. }
    apply (f_equal dlog) in Hrel. rewrite !dlog_smul in Hrel.
    destruct (x_coord_eq C (ls_R l) P' x Hx Hx') as [E|E]; rewrite E in Hrel.
    + left. transitivity ((s' * dlog (ls_R l)) * finv (dlog (ls_R l)))%Fq; [field; assumption|].
      rewrite Hrel. field; assumption.
    + right; left. rewrite dlog_neg in Hrel.
      transitivity (fopp ((s' * - dlog (ls_R l)) * finv (dlog (ls_R l))))%Fq; [field; assumption|].
      rewrite Hrel. field; assumption.
  - right; right. exists x', P'. auto.
Qed.

(** ** Recovery id *)
Lemma of_Z_zmul (a : F) (P : pt C) : zmul (to_Z a) P = smul a P.
Proof. unfold zmul. rewrite of_Z_to_Z. reflexivity. Qed.


Lemma b2z_odd z : b2z (Z.odd z) = z mod 2.
Proof. rewrite Zmod_odd. destruct (Z.odd z); reflexivity. Qed.

Lemma recid_correct (l : local_sig C) s_vec sg x y :
  coords (ls_R l) = Some (x, y) -> x < q -> y < q ->
  sig_eqn (ls_R l) (ls_y l) (ls_m l) (of_Z q x) (sig_total l s_vec) ->
  gg20_output l s_vec = Ok sg ->
  recovers (ls_y l) (ls_m l) (to_Z (sg_r sg)) (to_Z (sg_s sg)) (sg_recid sg).
Proof.
  intros HR Hxq Hyq Heq H. pose proof (coords_range C _ _ _ HR) as [Hx0 Hy0].
  unfold gg20_output, x_coord, y_coord in H. rewrite HR in H.
  cbn [option_map fst snd unwrap obind] in H.
  rewrite fold_left_fadd in H. fold (sig_total l s_vec) in H. set (s := sig_total l s_vec) in *.
  rewrite of_Z_mod in H.
  destruct (normalize_cases s y) as [[E _]|[E _]]; rewrite E in H;
    (destruct (gg20_verify _ _ _ _) as [[]| |] eqn:V; try discriminate); apply ok_inj in H; subst sg;
    cbn [sg_r sg_s sg_recid]; unfold recovers; rewrite (Z.mod_small y q) by lia; rewrite b2z_odd;
    pose proof (Z.mod_pos_bound y 2 ltac:(lia)) as Hm.
  - exists (ls_R l), x, y. repeat split.
    + assumption.
    + rewrite (Z.div_small (y mod 2) 2) by exact Hm. rewrite to_Z_of_Z, (Z.mod_small x q) by lia. lia.
    + rewrite Zmod_mod. reflexivity.
    + rewrite !of_Z_zmul. unfold zmul. apply (f_equal dlog) in Heq. autorewrite with dlog in Heq.
      to_dlog. rewrite Heq. ring.
  - exists (pneg (ls_R l)), x, (cp C - y). refine (conj _ (conj _ (conj _ _))).
    + apply coords_neg; assumption.
    + rewrite (Z.div_small (1 - y mod 2) 2) by lia. rewrite to_Z_of_Z, (Z.mod_small x q) by lia. lia.
    + pose proof (cp_odd C) as Ho. rewrite <- Z.bit0_odd in Ho.
      pose proof (Zmod_odd (cp C)) as Hp. rewrite (cp_odd C) in Hp.
      rewrite Zminus_mod, Hp. assert (y mod 2 = 0 \/ y mod 2 = 1) as [-> | ->] by lia; reflexivity.
    + rewrite !of_Z_zmul. unfold zmul. apply (f_equal dlog) in Heq. autorewrite with dlog in Heq.
      to_dlog. transitivity (s * dlog (ls_R l) - of_Z q (ls_m l) * f1)%Fq; [rewrite Heq; ring|ring].
Qed.

(** With an invertible [s], recovery succeeds exactly if the recovery id describes
    the verifier's nonce point. *)
Lemma recovers_iff (Q : pt C) e r s recid : of_Z q s <> f0 ->
  (recovers Q e r s recid <->
   exists x y, coords (vpoint Q (of_Z q e) (of_Z q r) (of_Z q s)) = Some (x, y) /\
     x = r + (recid / 2) * q /\ y mod 2 = recid mod 2).
Proof.
  intros Hs. unfold recovers.
  assert (K : forall R, zmul r Q = psub (zmul s R) (zmul e gen) <->
                        R = vpoint Q (of_Z q e) (of_Z q r) (of_Z q s)).
  { intros R. unfold zmul, vpoint. rewrite !dlog_eq_iff. rewrite dlog_psub. autorewrite with dlog.
    split; intros H.
    - transitivity ((of_Z q s * dlog R - of_Z q e * f1 + of_Z q e) * finv (of_Z q s))%Fq.
      + field. assumption.
      + rewrite <- H. ring.
    - rewrite H. field. assumption. }
  split.
  - intros (R & x & y & HR & Hx & Hy & E). apply K in E. subst R. eauto.
  - intros (x & y & HR & Hx & Hy). eexists _, x, y. split; [exact HR|].
    split; [assumption|]. split; [assumption|]. apply K. reflexivity.
Qed.

Lemma recid_general (l : local_sig C) s_vec sg x yR y1 :
  coords (ls_R l) = Some (x, yR) ->
  sig_total l s_vec <> f0 ->
  coords (vpoint (ls_y l) (of_Z q (ls_m l)) (of_Z q x) (sig_total l s_vec)) = Some (x, y1) ->
  gg20_output l s_vec = Ok sg ->
  (recovers (ls_y l) (ls_m l) (to_Z (sg_r sg)) (to_Z (sg_s sg)) (sg_recid sg) <->
   x < q /\ y1 mod 2 = (yR mod q) mod 2).
Proof.
  intros HR Hs Hv H. pose proof (coords_range C _ _ _ HR) as [Hx0 Hy0].
  unfold gg20_output, x_coord, y_coord in H. rewrite HR in H.
  cbn [option_map fst snd unwrap obind] in H.
  rewrite fold_left_fadd in H. fold (sig_total l s_vec) in H. set (s := sig_total l s_vec) in *.
  rewrite of_Z_mod in H. pose proof qgt1 as Hq.
  pose proof (Z.mod_pos_bound (yR mod q) 2 ltac:(lia)) as Hm.
  assert (Ho : cp C mod 2 = 1) by (rewrite Zmod_odd, (cp_odd C); reflexivity).
  assert (Hxq : forall k, (x = x mod q + k * q /\ k = 0) <-> (x < q /\ k = 0)).
  { intros k. split; intros [H1 H2]; subst k; split; try lia.
    - pose proof (Z.mod_pos_bound x q ltac:(lia)). lia.
    - rewrite Z.mod_small by lia. lia. }
  destruct (normalize_cases s yR) as [[E _]|[E _]]; rewrite E in H;
    (destruct (gg20_verify _ _ _ _) as [[]| |] eqn:V; try discriminate); apply ok_inj in H; subst sg;
    cbn [sg_r sg_s sg_recid]; rewrite b2z_odd, recovers_iff by (rewrite of_Z_to_Z; try apply fopp_nz; assumption);
    rewrite !of_Z_to_Z.
  - rewrite Hv, to_Z_of_Z. rewrite (Z.div_small ((yR mod q) mod 2) 2) by exact Hm. rewrite Zmod_mod.
    split.
    + intros (x' & y' & E' & Hx' & Hy'). injection E' as <- <-.
      split; [|assumption]. apply (Hxq 0). lia.
    + intros [H1 H2]. exists x, y1. repeat split; [|assumption]. apply (Hxq 0). lia.
  - rewrite vpoint_opp by assumption. rewrite (coords_neg C _ _ _ Hv), to_Z_of_Z.
    rewrite (Z.div_small (1 - (yR mod q) mod 2) 2) by lia.
    assert (Hpar : (cp C - y1) mod 2 = (1 - (yR mod q) mod 2) mod 2 <-> y1 mod 2 = (yR mod q) mod 2).
    { rewrite Zminus_mod, Ho. pose proof (Z.mod_pos_bound y1 2 ltac:(lia)).
      assert (y1 mod 2 = 0 \/ y1 mod 2 = 1) as [-> | ->] by lia;
      assert ((yR mod q) mod 2 = 0 \/ (yR mod q) mod 2 = 1) as [-> | ->] by lia; cbn; lia. }
    split.
    + intros (x' & y' & E' & Hx' & Hy'). injection E' as <- <-.
      split; [apply (Hxq 0); lia|]. apply Hpar, Hy'.
    + intros [H1 H2]. exists x, (cp C - y1). refine (conj eq_refl (conj _ _)).
      * apply (Hxq 0). lia.
      * apply Hpar, H2.
Qed.

Lemma parity_mod_q y : 0 <= y -> (y mod 2 = (y mod q) mod 2 <-> Z.even (y / q) = true).
Proof.
  intros Hy. pose proof qgt1. destruct q_is_odd as [k Hk].
  pose proof (Z.div_mod y q ltac:(lia)) as D. set (d := y / q) in *. set (m := y mod q) in *.
  assert (y mod 2 = (d + m) mod 2) as ->.
  { rewrite D, Hk. replace ((2 * k + 1) * d + m) with ((d + m) + (k * d) * 2) by ring.
    apply Z.mod_add; lia. }
  rewrite Zeven_mod. rewrite Zplus_mod.
  pose proof (Z.mod_pos_bound d 2 ltac:(lia)). pose proof (Z.mod_pos_bound m 2 ltac:(lia)).
  assert (d mod 2 = 0 \/ d mod 2 = 1) as [-> | ->] by lia;
  assert (m mod 2 = 0 \/ m mod 2 = 1) as [-> | ->] by lia; cbn; split; congruence.
Qed.

(** Exact condition for honest partial signatures. *)
Lemma recid_honest_iff (l : local_sig C) s_vec sg x y :
  coords (ls_R l) = Some (x, y) -> sig_total l s_vec <> f0 ->
  sig_eqn (ls_R l) (ls_y l) (ls_m l) (of_Z q x) (sig_total l s_vec) ->
  gg20_output l s_vec = Ok sg ->
  (recovers (ls_y l) (ls_m l) (to_Z (sg_r sg)) (to_Z (sg_s sg)) (sg_recid sg) <->
   x < q /\ Z.even (y / q) = true).
Proof.
  intros HR Hs Heq H. apply sig_eqn_vpoint in Heq; [|assumption].
  pose proof (coords_range C _ _ _ HR) as [Hx0 Hy0].
  rewrite <- parity_mod_q by lia.
  apply (recid_general l s_vec sg x y y); try assumption. rewrite Heq. assumption.
Qed.

(** Exact condition when somebody made the total the negated root. *)
Lemma recid_negated_iff (l : local_sig C) s_vec s_vec' sg x y :
  coords (ls_R l) = Some (x, y) -> sig_total l s_vec <> f0 ->
  sig_eqn (ls_R l) (ls_y l) (ls_m l) (of_Z q x) (sig_total l s_vec) ->
  sig_total l s_vec' = fopp (sig_total l s_vec) ->
  gg20_output l s_vec' = Ok sg ->
  (recovers (ls_y l) (ls_m l) (to_Z (sg_r sg)) (to_Z (sg_s sg)) (sg_recid sg) <->
   x < q /\ Z.even (y / q) = false).
Proof.
  intros HR Hs Heq Hneg H. apply sig_eqn_vpoint in Heq; [|assumption].
  pose proof (coords_range C _ _ _ HR) as [Hx0 Hy0].
  assert (Hp : cp C mod 2 = 1) by (rewrite Zmod_odd, (cp_odd C); reflexivity).
  rewrite (recid_general l s_vec' sg x y (cp C - y)); try assumption.
  - assert (K : (cp C - y) mod 2 = (y mod q) mod 2 <-> Z.even (y / q) = false).
    { rewrite <- not_true_iff_false, <- parity_mod_q by lia. rewrite Zminus_mod, Hp.
      pose proof (Z.mod_pos_bound y 2 ltac:(lia)). pose proof (Z.mod_pos_bound (y mod q) 2 ltac:(lia)).
      assert (y mod 2 = 0 \/ y mod 2 = 1) as [-> | ->] by lia;
      assert ((y mod q) mod 2 = 0 \/ (y mod q) mod 2 = 1) as [-> | ->] by lia; cbn; lia. }
    tauto.
  - rewrite Hneg. apply fopp_nz; assumption.
  - rewrite Hneg, vpoint_opp by assumption. rewrite Heq. apply coords_neg; assumption.
Qed.

(** GG18 and GG20 output the same signatures. *)
Lemma gg18_output_gg20 (l : local_sig C) s_vec sg :
  gg18_output l s_vec = Ok sg <-> gg20_output l s_vec = Ok sg.
Proof.
  unfold gg18_output, gg20_output. rewrite !fold_left_fadd.
  replace (ls_s l + (f0 + fsum s_vec))%Fq with (ls_s l + fsum s_vec)%Fq by ring.
  destruct (x_coord (ls_R l)) as [x|]; cbn [ok_or unwrap obind]; [|split; discriminate].
  destruct (y_coord (ls_R l)) as [y|]; cbn [ok_or unwrap obind]; [|split; discriminate].
  destruct (normalize _ _) as [s' rc].
  pose proof (gg18_verify_ok (of_Z q (x mod q)) s' (ls_y l) (ls_m l)) as A.
  pose proof (gg20_verify_ok (of_Z q (x mod q)) s' (ls_y l) (ls_m l)) as B.
  rewrite <- A in B. clear A.
  destruct (gg18_verify _ _ _ _) as [[]| |], (gg20_verify _ _ _ _) as [[]| |];
    split; intros E; try discriminate; try exact E;
    (apply proj2 in B; discriminate (B eq_refl)) || (apply proj1 in B; discriminate (B eq_refl)).
Qed.

(** ** Lindell / CCLST verification *)
Definition two_party_ok (r s : Z) (pk : pt C) (m : Z) : Prop :=
  of_Z q s <> f0 /\ s < q - s /\
  x_coord (vpoint pk (of_Z q m) (of_Z q r) (of_Z q s)) = Some (Z.abs r).

Lemma two_party_point (si : F) e r pk : padd (smul si (smul e gen)) (smul si (smul r pk)) =
  padd (smul (e * si)%Fq gen) (smul (r * si)%Fq pk) :> pt C.
Proof. to_dlog. ring. Qed.

Lemma lindell_verify_ok (r s : Z) (pk : pt C) m :
  lindell_verify r s pk m = Ok tt <-> two_party_ok r s pk m.
Proof.
  unfold lindell_verify, two_party_ok, vpoint. split.
  - intros H. apply obind_ok in H. destruct H as (b & Hb & H). apply unwrap_ok in Hb.
    apply finvert_some in Hb. destruct Hb as [Hs ->].
    apply obind_ok in H. destruct H as (x & Hx & H). apply unwrap_ok in Hx.
    rewrite two_party_point, of_Z_mod in Hx.
    rewrite to_bytes_eqb in H.
    destruct (Z.eqb_spec (Z.abs r) (Z.abs x)) as [E|]; [|discriminate].
    destruct (Z.ltb_spec s (q - s)); [|discriminate].
    repeat split; try assumption. rewrite Hx. f_equal.
    unfold x_coord in Hx. destruct (coords _) as [[x' y']|] eqn:E'; [|discriminate].
    injection Hx as <-. apply coords_range in E'. cbn in *. lia.
  - intros (Hs & Hlow & Hx). rewrite finvert_nz by assumption. cbn [unwrap obind].
    rewrite two_party_point, of_Z_mod, Hx. cbn [unwrap obind].
    rewrite to_bytes_eqb, Z.abs_involutive, Z.eqb_refl.
    destruct (Z.ltb_spec s (q - s)); [reflexivity|lia].
Qed.

Lemma cclst_verify_ok (r s : Z) (pk : pt C) m :
  cclst_verify r s pk m = Ok tt <-> two_party_ok r s pk m.
Proof.
  rewrite <- lindell_verify_ok. unfold cclst_verify, lindell_verify.
  destruct (finvert _); cbn; [reflexivity|]. split; discriminate.
Qed.

Lemma lindell_panic_iff (r s : Z) (pk : pt C) m :
  lindell_verify r s pk m = Panic <->
  of_Z q s = f0 \/ vpoint pk (of_Z q m) (of_Z q r) (of_Z q s) = pzero.
Proof.
  unfold lindell_verify, vpoint. destruct (Fq_eq_dec (of_Z q s) f0) as [E|Hs].
  - rewrite E, finvert_0. cbn. tauto.
  - rewrite finvert_nz by assumption. cbn [unwrap obind]. rewrite two_party_point, of_Z_mod.
    destruct (x_coord _) as [x|] eqn:Ex; cbn.
    + split; [destruct (_ && _); discriminate|].
      intros [H|H]; [contradiction|]. apply x_coord_none in H. congruence.
    + apply x_coord_none in Ex. tauto.
Qed.

Lemma cclst_panic_iff (r s : Z) (pk : pt C) m :
  cclst_verify r s pk m = Panic <->
  of_Z q s <> f0 /\ vpoint pk (of_Z q m) (of_Z q r) (of_Z q s) = pzero.
Proof.
  unfold cclst_verify, vpoint. destruct (Fq_eq_dec (of_Z q s) f0) as [E|Hs].
  - rewrite E, finvert_0. cbn. split; [discriminate|tauto].
  - rewrite finvert_nz by assumption. cbn [ok_or obind]. rewrite two_party_point, of_Z_mod.
    destruct (x_coord _) as [x|] eqn:Ex; cbn.
    + split; [destruct (_ && _); discriminate|].
      intros [_ H]. apply x_coord_none in H. congruence.
    + apply x_coord_none in Ex. tauto.
Qed.

Lemma cclst_zero_s (r s : Z) (pk : pt C) m : s mod q = 0 -> cclst_verify r s pk m = Err InvalidSig.
Proof.
  intros H. unfold cclst_verify. replace (of_Z q s) with (f0 : F).
  - rewrite finvert_0. reflexivity.
  - apply of_Z_eq. rewrite H. apply Zmod_0_l.
Qed.

(** Ok on a non-negative [r] implies the ECDSA equation. *)
Lemma two_party_sound (r s : Z) (pk : pt C) m : 0 <= r -> two_party_ok r s pk m ->
  ecdsa_eqn pk m r s /\ (0 < r < q -> ecdsa_valid pk m r (s mod q)).
Proof.
  intros Hr (Hs & Hlow & Hx). assert (E : ecdsa_eqn pk m r s).
  { apply ecdsa_eqn_iff. split; [assumption|]. exists r. rewrite Z.abs_eq in Hx by lia. auto. }
  split; [assumption|]. intros Hrq. unfold ecdsa_valid.
  assert (0 <= s mod q < q) by (apply Z.mod_pos_bound; pose proof qgt1; lia).
  assert (s mod q <> 0).
  { intros E0. apply Hs, of_Z_eq. rewrite E0. symmetry; apply Zmod_0_l. }
  repeat split; try lia. apply ecdsa_eqn_iff. apply ecdsa_eqn_iff in E. rewrite of_Z_mod. exact E.
Qed.

(** For canonical inputs acceptance is exactly: valid, low s, and the nonce
    x-coordinate itself (not only its residue) is r. *)
Lemma two_party_canonical (r s : Z) (pk : pt C) m : 0 < r < q -> 0 < s < q ->
  (two_party_ok r s pk m <->
   ecdsa_valid pk m r s /\ s < q - s /\
   x_coord (vpoint pk (of_Z q m) (of_Z q r) (of_Z q s)) = Some r).
Proof.
  intros Hr Hs. split.
  - intros H. pose proof (two_party_sound r s pk m ltac:(lia) H) as [E V].
    destruct H as (H1 & H2 & H3). rewrite Z.abs_eq in H3 by lia.
    rewrite Z.mod_small in V by lia. auto.
  - intros (V & H2 & H3). unfold two_party_ok. rewrite Z.abs_eq by lia.
    repeat split; auto. apply of_Z_nz; lia.
Qed.

(** High s is rejected. *)
Lemma two_party_high_s (r s : Z) (pk : pt C) m : q - s <= s -> ~ two_party_ok r s pk m.
Proof. intros H (_ & H' & _). lia. Qed.

(** Every accepted signature has infinitely many other accepted encodings. *)
Lemma two_party_malleable (r s k : Z) (pk : pt C) m : 0 < s -> 0 <= k -> two_party_ok r s pk m ->
  two_party_ok r (- s - k * q) pk m /\ two_party_ok r (s - k * q) pk m.
Proof.
  intros Hs Hk (H1 & H2 & H3). pose proof qgt1.
  assert (E1 : of_Z q (s - k * q) = of_Z q s).
  { apply of_Z_eq. replace (s - k * q) with (s + (- k) * q) by ring. apply Z.mod_add. lia. }
  assert (E2 : of_Z q (- s - k * q) = fopp (of_Z q s)).
  { rewrite <- of_Z_opp. apply of_Z_eq. replace (- s - k * q) with (- s + (- k) * q) by ring.
    apply Z.mod_add. lia. }
  split; unfold two_party_ok.
  - rewrite E2. repeat split; [apply fopp_nz; assumption|nia|].
    rewrite vpoint_opp by assumption. rewrite x_coord_neg. assumption.
  - rewrite E1. repeat split; [assumption|nia|assumption].
Qed.

(** A signature on [-m] is accepted, negated, as a signature on [m]. *)
Lemma two_party_neg_message (r s : Z) (pk : pt C) m : 0 < s -> two_party_ok r s pk m ->
  two_party_ok (- r) (- s) pk (- m).
Proof.
  intros Hs (H1 & H2 & H3). unfold two_party_ok. rewrite !of_Z_opp, Z.abs_opp.
  repeat split; [apply fopp_nz; assumption|pose proof qgt1; lia|].
  rewrite <- H3. f_equal. unfold vpoint. to_dlog. field. split; [assumption|apply fopp_nz; assumption].
Qed.
End Proofs.

Arguments vpoint {_} _ _ _ _.
Arguments sig_total {_} _ _.
Arguments sig_eqn {_} _ _ _ _ _.
Arguments two_party_ok {_} _ _ _ _.

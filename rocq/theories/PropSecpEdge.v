(** The exceptions of C04, C05, C07 and C08 exist on secp256k1, for every key and (almost) every message. *)
From Coq Require Import ZArith Znumtheory Lia Bool Field List.
From Verif Require Import ZArithX Fq Curve Outcome Bytes Ecdsa EcdsaProofs TwoParty PropEcdsa Toy SignProofs Pocklington Weierstrass Cyclic WCurve Secp256k1 PropSecp.
Import ListNotations.
Local Open Scope Z_scope.

Section Generic.
Context (C : Curve).
Notation F := (Fq (cq C)).
Add Field cfe : (fq_field (cq_prime C)).
Lemma share_for (R E : pt C) : R <> pzero -> E <> pzero -> exists s : F, s <> f0 /\ smul s R = E.
Proof.
  intros HR HE. assert (DR : dlog R <> f0) by (intros D; apply HR, dlog_inj; rewrite D, dlog_zero; reflexivity).
  assert (DE : dlog E <> f0) by (intros D; apply HE, dlog_inj; rewrite D, dlog_zero; reflexivity).
  exists (fmul (dlog E) (finv (dlog R))). split.
  - apply fmul_nz; [apply cq_prime|exact DE|]. apply finv_nz; [apply cq_prime|exact DR].
  - apply dlog_inj. rewrite dlog_smul. field. exact DR.
Qed.
Lemma coords_nz (R : pt C) x y : coords R = Some (x, y) -> R <> pzero.
Proof. intros E Z0. apply coords_zero in Z0. congruence. Qed.
(** A last share completing an honest signature with nonce point R. *)
Lemma honest_share (R Y : pt C) m x y (s1 : F) : coords R = Some (x, y) ->
  padd (smul (of_Z (cq C) m) gen) (smul (of_Z (cq C) x) Y) <> pzero ->
  exists s, fadd s1 (fsum [s]) <> f0 /\ smul (fadd s1 (fsum [s])) R = padd (smul (of_Z (cq C) m) gen) (smul (of_Z (cq C) x) Y).
Proof.
  intros EC NZ. destruct (share_for R _ (coords_nz _ _ _ EC) NZ) as (t & T0 & T). exists (fsub t s1).
  replace (fadd s1 (fsum [fsub t s1])) with t by (cbn [fsum fold_right]; ring). auto.
Qed.
(** A total satisfying the equation for another point with the same r is output as well. *)
Lemma output_other (l : local_sig C) v (R' : pt C) x y x' y' : coords (ls_R l) = Some (x, y) -> coords R' = Some (x', y') -> of_Z (cq C) x' = of_Z (cq C) x ->
  sig_total l v <> f0 -> smul (sig_total l v) R' = padd (smul (of_Z (cq C) (ls_m l)) gen) (smul (of_Z (cq C) x) (ls_y l)) ->
  gg20_output l v = Ok {| sg_r := of_Z (cq C) x; sg_s := fst (normalize (sig_total l v) y); sg_recid := snd (normalize (sig_total l v) y) |}.
Proof.
  intros HR HR' EX Hs Heq. unfold gg20_output, x_coord, y_coord. rewrite HR. cbn [option_map fst snd unwrap obind].
  rewrite fold_left_fadd. fold (sig_total l v). set (s := sig_total l v) in *. rewrite (of_Z_mod x).
  assert (V : gg20_verify (of_Z (cq C) x) s (ls_y l) (ls_m l) = Ok tt).
  { apply gg20_verify_ok. split; [assumption|]. exists x'. apply sig_eqn_vpoint in Heq; [|assumption]. rewrite Heq. unfold x_coord. rewrite HR'. split; [reflexivity|].
    rewrite <- EX. symmetry. apply to_Z_of_Z. }
  destruct (normalize_cases C s y) as [[-> _]|[-> _]]; cbn [fst snd].
  - rewrite V. reflexivity.
  - rewrite (gg20_verify_opp _ _ _ _ _ V). reflexivity.
Qed.
Lemma norm_pm (s : F) y : fst (normalize s y) = s \/ fst (normalize s y) = fopp s.
Proof. destruct (normalize_cases C s y) as [[-> _]|[-> _]]; [left|right]; reflexivity. Qed.
Lemma opp_opp (s : F) : fopp (fopp s) = s. Proof. ring. Qed.
Lemma opp_inj (s t : F) : fopp s = fopp t -> s = t. Proof. intros E. rewrite <- (opp_opp s), E. apply opp_opp. Qed.
(** Multiples by s and by -s of points with different x differ. *)
Lemma scale_neq (R R' : pt C) (s s' : F) x y x' y' : coords R = Some (x, y) -> coords R' = Some (x', y') -> x <> x' -> s <> f0 -> smul s R = smul s' R' -> s' <> s /\ s' <> fopp s.
Proof.
  intros E E' N S0 EQ. split; intros ->; apply N.
  - assert (R = R'); [|congruence]. apply dlog_inj. apply (f_equal dlog) in EQ. rewrite !dlog_smul in EQ. transitivity (fmul (finv s) (fmul s (dlog R))); [field; exact S0|]. rewrite EQ. field. exact S0.
  - assert (R = pneg R'). { apply dlog_inj. apply (f_equal dlog) in EQ. rewrite !dlog_smul in EQ. rewrite dlog_neg. transitivity (fmul (finv s) (fmul s (dlog R))); [field; exact S0|]. rewrite EQ. field. exact S0. }
    subst R. apply coords_neg in E'. congruence.
Qed.
Lemma opp_pneg (s : F) (R : pt C) : smul (fopp s) (pneg R) = smul s R.
Proof. apply dlog_inj. rewrite !dlog_smul, dlog_neg. ring. Qed.
(** Two-party verification compares the unreduced x. *)
Lemma two_party_refuse (R Y : pt C) m x y (s : F) : coords R = Some (x, y) -> cq C <= x -> s <> f0 -> smul s R = padd (smul (of_Z (cq C) m) gen) (smul (of_Z (cq C) x) Y) ->
  lindell_verify (x mod cq C) (to_Z s) Y m = Err InvalidSig /\ cclst_verify (x mod cq C) (to_Z s) Y m = Err InvalidSig.
Proof.
  intros EC XQ S0 EQ. apply sig_eqn_vpoint in EQ; [|exact S0]. pose proof (cq_odd C) as Q2. pose proof (Z.mod_pos_bound x (cq C) ltac:(lia)) as B.
  assert (NO : ~ two_party_ok (x mod cq C) (to_Z s) Y m).
  { intros (_ & _ & X). rewrite of_Z_to_Z, of_Z_mod, EQ in X. unfold x_coord in X. rewrite EC in X. cbn in X. injection X as X. lia. }
  assert (NP : ~ (of_Z (cq C) (to_Z s) = f0 \/ vpoint Y (of_Z (cq C) m) (of_Z (cq C) (x mod cq C)) (of_Z (cq C) (to_Z s)) = pzero)).
  { rewrite of_Z_to_Z, of_Z_mod, EQ. intros [A|A]; [contradiction|]. exact (coords_nz _ _ _ EC A). }
  split.
  - assert (CASES : forall o : outcome error unit, o = lindell_verify (x mod cq C) (to_Z s) Y m -> o = Ok tt \/ o = Panic \/ o = Err InvalidSig).
    { intros o ->. unfold lindell_verify. destruct (finvert _); cbn; [|auto]. destruct (x_coord _); cbn; [|auto]. destruct (_ && _); auto. }
    destruct (CASES _ eq_refl) as [V|[V|V]]; [exfalso; apply NO, lindell_verify_ok, V|exfalso; apply NP, lindell_panic_iff, V|exact V].
  - assert (CASES : forall o : outcome error unit, o = cclst_verify (x mod cq C) (to_Z s) Y m -> o = Ok tt \/ o = Panic \/ o = Err InvalidSig).
    { intros o ->. unfold cclst_verify. destruct (finvert _); cbn; [|auto]. destruct (x_coord _); cbn; [|auto]. destruct (_ && _); auto. }
    destruct (CASES _ eq_refl) as [V|[V|V]]; [exfalso; apply NO, cclst_verify_ok, V|exfalso; apply NP; right; apply cclst_panic_iff, V|exact V].
Qed.
Lemma sub0_inj (a : F) : fsub (of_Z (cq C) 0) a = f0 -> a = f0.
Proof. intros E. change (of_Z (cq C) 0) with (f0 : F) in E. replace a with (fsub f0 (fsub f0 a)) by ring. rewrite E. ring. Qed.
Lemma vpoint_neg (pk : pt C) m r s : of_Z (cq C) s <> f0 ->
  vpoint pk (of_Z (cq C) (- m)) (of_Z (cq C) (- r)) (of_Z (cq C) (- s)) = vpoint pk (of_Z (cq C) m) (of_Z (cq C) r) (of_Z (cq C) s).
Proof.
  intros S0. assert (N : forall k, of_Z (cq C) (- k) = fopp (of_Z (cq C) k)). { intros k. replace (- k) with (0 - k) by ring. rewrite of_Z_sub. change (of_Z (cq C) 0) with (f0 : F). ring. }
  rewrite !N. rewrite vpoint_opp by exact S0. unfold vpoint. apply dlog_inj. rewrite dlog_neg, !dlog_add, !dlog_smul. ring.
Qed.
Lemma mul1s (a b : F) : fadd (fmul a f1) (fmul b f1) = fadd a b. Proof. ring. Qed.
End Generic.

Definition xr : Z := spec_n + 2.
Definition yr : Z := 0x36b1aa62eb77c1973025cbcbea9740eed8eacdab8772268b395064453269d1d3.
Definition xs : Z := 0x95e74ce83a15b53a0c3e02f115c3c8d01f7f59529762b3291be6ea6914af9865.
Definition ys : Z := spec_n + 4.
Definition y2 : Z := 0x66fbe727b2ba09e09f5a98d70a5efce8424c5fa425bbda1c511f860657b8535e.
Lemma point_at x y : ((0 <=? x) && (x <? spec_p) && (0 <=? y) && (y <? spec_p) && ((y * y) mod spec_p =? (x * x * x + 7) mod spec_p)) = true ->
  exists P : pt secp256k1, coords P = Some (x, y).
Proof.
  intros H. repeat (apply andb_prop in H; destruct H as [H ?]).
  apply C105_points; [split; [apply Z.leb_le|apply Z.ltb_lt]; assumption|split; [apply Z.leb_le|apply Z.ltb_lt]; assumption|apply Z.eqb_eq; assumption].
Qed.
Lemma point_r : exists P : pt secp256k1, coords P = Some (xr, yr). Proof. apply point_at. vm_compute. reflexivity. Qed.
Lemma point_s : exists P : pt secp256k1, coords P = Some (xs, ys). Proof. apply point_at. vm_compute. reflexivity. Qed.
Lemma point_2 : exists P : pt secp256k1, coords P = Some (2, y2). Proof. apply point_at. vm_compute. reflexivity. Qed.

(** Signature equation of nonce x, key Y and message m. *)
Definition goal_pt (Y : pt secp256k1) (m x : Z) : pt secp256k1 := padd (smul (of_Z (cq secp256k1) m) gen) (smul (of_Z (cq secp256k1) x) Y).

(** * C04 *)
(** Nonce points with x >= n or y >= n: both protocols output a valid signature whose recovery id does not recover the key. *)
Theorem C04_secp256k1_refuted : forall x y, (x = xr /\ y = yr) \/ (x = xs /\ y = ys) ->
  forall (Y : pt secp256k1) m, goal_pt Y m x <> pzero ->
  exists l s sg, coords (ls_R l) = Some (x, y) /\ ls_y l = Y /\ ls_m l = m /\ smul (fadd (ls_s l) (fsum [s])) (ls_R l) = goal_pt Y m x /\
  gg20_output l [s] = Ok sg /\ gg18_output l [s] = Ok sg /\ ecdsa_valid Y m (to_Z (sg_r sg)) (to_Z (sg_s sg)) /\
  ~ recovers Y m (to_Z (sg_r sg)) (to_Z (sg_s sg)) (sg_recid sg).
Proof.
  intros x y XY Y m NZ.
  assert (PT : exists R : pt secp256k1, coords R = Some (x, y)) by (destruct XY as [[-> ->] | [-> ->]]; [exact point_r|exact point_s]). destruct PT as [R EC].
  assert (BAD : ~ (x < cq secp256k1 /\ Z.even (y / cq secp256k1) = true)).
  { destruct XY as [[-> ->] | [-> ->]]; intros [A B]; [revert A; vm_compute; discriminate|revert B; vm_compute; discriminate]. }
  assert (R0 : of_Z (cq secp256k1) x <> f0). { destruct XY as [[-> ->] | [-> ->]]; intros E; apply (f_equal to_Z) in E; revert E; vm_compute; discriminate. }
  destruct (honest_share secp256k1 R Y m x y f0 EC NZ) as (s & S0 & S).
  set (l := {| ls_r := f0; ls_R := R; ls_s := f0; ls_m := m; ls_y := Y |} : local_sig secp256k1).
  pose proof (gg20_output_complete secp256k1 l [s] x y EC S0 S) as O20. pose proof (gg18_output_complete secp256k1 l [s] x y EC S0 S) as O18.
  eexists l, s, _. refine (conj EC (conj eq_refl (conj eq_refl (conj S (conj O20 (conj O18 (conj _ _))))))).
  - apply gg20_output_sound in O20. destruct O20 as (_ & _ & V & _). exact (V R0).
  - intros RC. apply BAD. apply (recid_honest_iff secp256k1 l [s] _ x y EC S0 S O20). exact RC.
Qed.
Print Assumptions C04_secp256k1_refuted.

(** * C05 *)
(** The points with x = 2 and x = n + 2 give the same r: a changed share leads to another valid signature. *)
Theorem C05_secp256k1_collision_refuted : forall (Y : pt secp256k1) m, goal_pt Y m 2 <> pzero ->
  exists l s s' sg sg', coords (ls_R l) = Some (2, y2) /\ ls_y l = Y /\ ls_m l = m /\ smul (fadd (ls_s l) (fsum [s])) (ls_R l) = goal_pt Y m 2 /\
  fadd (ls_s l) (fsum [s']) <> fadd (ls_s l) (fsum [s]) /\ fadd (ls_s l) (fsum [s']) <> fopp (fadd (ls_s l) (fsum [s])) /\
  gg20_output l [s] = Ok sg /\ gg20_output l [s'] = Ok sg' /\ ecdsa_valid Y m (to_Z (sg_r sg')) (to_Z (sg_s sg')) /\ sg_s sg' <> sg_s sg.
Proof.
  intros Y m NZ. destruct point_2 as [R EC]. destruct point_r as [R' EC'].
  assert (XE : of_Z (cq secp256k1) xr = of_Z (cq secp256k1) 2) by (apply of_Z_eq_iff; reflexivity).
  assert (NZ' : goal_pt Y m xr <> pzero) by (unfold goal_pt; rewrite XE; exact NZ).
  destruct (honest_share secp256k1 R Y m 2 y2 f0 EC NZ) as (s & S0 & S).
  destruct (honest_share secp256k1 R' Y m xr yr f0 EC' NZ') as (s' & S0' & S').
  set (l := {| ls_r := f0; ls_R := R; ls_s := f0; ls_m := m; ls_y := Y |} : local_sig secp256k1).
  rewrite XE in S'.
  assert (EQ : smul (fadd f0 (fsum [s])) R = smul (fadd f0 (fsum [s'])) R') by (rewrite S, S'; reflexivity).
  destruct (scale_neq secp256k1 R R' _ _ _ _ _ _ EC EC' ltac:(vm_compute; discriminate) S0 EQ) as [N1 N2].
  pose proof (gg20_output_complete secp256k1 l [s] 2 y2 EC S0 S) as O. pose proof (output_other secp256k1 l [s'] R' 2 y2 xr yr EC EC' XE S0' S') as O'.
  assert (R0 : of_Z (cq secp256k1) 2 <> f0). { intros E; apply (f_equal to_Z) in E; revert E; vm_compute; discriminate. }
  eexists l, s, s', _, _. refine (conj EC (conj eq_refl (conj eq_refl (conj S (conj N1 (conj N2 (conj O (conj O' (conj _ _))))))))).
  - apply gg20_output_sound in O'. destruct O' as (_ & _ & V & _). exact (V R0).
  - cbn [sg_s]. unfold sig_total. cbn [ls_s l]. intros E. destruct (norm_pm secp256k1 (fadd f0 (fsum [s'])) y2) as [P | P]; destruct (norm_pm secp256k1 (fadd f0 (fsum [s])) y2) as [Q | Q]; rewrite P, Q in E.
    + exact (N1 E).
    + exact (N2 E).
    + apply N2. rewrite <- E. symmetry. apply opp_opp.
    + apply N1. apply opp_inj. exact E.
Qed.
Print Assumptions C05_secp256k1_collision_refuted.

(** * C07, C08 *)
(** A valid low-s signature whose nonce point has x = n + 2 is refused by both two-party verifications. *)
Theorem C07_secp256k1_completeness_refuted : forall (Y : pt secp256k1) m, goal_pt Y m 2 <> pzero ->
  exists s, ecdsa_valid Y m 2 s /\ s <= (spec_n - 1) / 2 /\ lindell_verify 2 s Y m = Err InvalidSig /\ cclst_verify 2 s Y m = Err InvalidSig.
Proof.
  intros Y m NZ. destruct point_r as [R EC]. assert (XE : of_Z (cq secp256k1) xr = of_Z (cq secp256k1) 2) by (apply of_Z_eq_iff; reflexivity).
  assert (NZ' : goal_pt Y m xr <> pzero) by (unfold goal_pt; rewrite XE; exact NZ).
  destruct (share_for secp256k1 R _ (coords_nz _ _ _ _ EC) NZ') as (s & S0 & S).
  destruct (total_valid secp256k1 R Y m xr yr s EC S0 S) as (_ & V & LOW). change (xr mod cq secp256k1) with 2 in V.
  set (s' := fst (normalize s yr)) in *. exists (to_Z s'). split; [apply V; discriminate|]. split; [exact LOW|].
  assert (exists R' : pt secp256k1, exists y', coords R' = Some (xr, y') /\ s' <> f0 /\ smul s' R' = goal_pt Y m xr) as (R' & y' & EC' & S0' & S').
  { destruct (norm_pm secp256k1 s yr) as [E|E]; fold s' in E; rewrite E.
    - exists R, yr. auto.
    - exists (pneg R), (cp secp256k1 - yr). split; [apply coords_neg, EC|]. split; [apply fopp_nz, S0|]. rewrite <- S. apply opp_pneg. }
  destruct (two_party_refuse secp256k1 R' Y m xr y' s' EC' ltac:(vm_compute; discriminate) S0' S') as [A B]. split; assumption.
Qed.
Print Assumptions C07_secp256k1_completeness_refuted.

(** On every curve: negating r, s and the message of an accepted signature gives an accepted pair that is not a signature. *)
Theorem C07_negated_refuted : forall (C : Curve) r s (pk : pt C) m, 0 < r < cq C -> 0 < s -> lindell_verify r s pk m = Ok tt ->
  lindell_verify (- r) (- s) pk (- m) = Ok tt /\ cclst_verify (- r) (- s) pk (- m) = Ok tt /\ ~ ecdsa_valid pk (- m) ((- r) mod cq C) ((- s) mod cq C).
Proof.
  intros C r s pk m R S V. apply lindell_verify_ok in V. destruct V as (S0 & LOW & X). pose proof (cq_odd C) as Q2.
  assert (VP : vpoint pk (of_Z (cq C) (- m)) (of_Z (cq C) (- r)) (of_Z (cq C) (- s)) = vpoint pk (of_Z (cq C) m) (of_Z (cq C) r) (of_Z (cq C) s)) by (apply vpoint_neg, S0).
  assert (S1 : of_Z (cq C) (- s) <> f0). { replace (- s) with (0 - s) by ring. rewrite of_Z_sub. intros E. apply S0. apply sub0_inj. exact E. }
  assert (T : two_party_ok (- r) (- s) pk (- m)). { split; [exact S1|]. split; [lia|]. rewrite VP, Z.abs_opp. exact X. }
  split; [apply lindell_verify_ok, T|]. split; [apply cclst_verify_ok, T|].
  intros (_ & _ & EQ). apply ecdsa_eqn_iff in EQ. destruct EQ as (_ & x & HX & XE). rewrite !of_Z_mod, VP, X in HX. injection HX as <-.
  rewrite Z.abs_eq, Z.mod_mod, Z.mod_opp_l_nz in XE by (try rewrite Z.mod_small by lia; lia). rewrite (Z.mod_small r) in XE by lia.
  destruct (q_is_odd C) as [k K]. lia.
Qed.
Print Assumptions C07_negated_refuted.

Theorem C08_secp256k1_completeness_refuted : forall (Y : pt secp256k1) m, goal_pt Y m 2 <> pzero ->
  exists s, ecdsa_valid Y m 2 s /\ s <= (spec_n - 1) / 2 /\ cclst_verify 2 s Y m = Err InvalidSig.
Proof. intros Y m NZ. destruct (C07_secp256k1_completeness_refuted Y m NZ) as (s & V & L & _ & R). exists s. auto. Qed.
Print Assumptions C08_secp256k1_completeness_refuted.

(** The hypothesis holds, for instance, when the private key and the message are 1. *)
Example C04_edge_example : goal_pt gen 1 xr <> pzero /\ goal_pt gen 1 xs <> pzero /\ goal_pt gen 1 2 <> pzero.
Proof.
  unfold goal_pt. assert (H : forall x, of_Z (cq secp256k1) (1 + x) <> f0 -> padd (smul (of_Z (cq secp256k1) 1) gen) (smul (of_Z (cq secp256k1) x) gen) <> (pzero : pt secp256k1)).
  { intros x N E. apply N. apply (f_equal dlog) in E. rewrite dlog_add, !dlog_smul, dlog_gen, dlog_zero in E. rewrite of_Z_add. rewrite <- E. symmetry. apply mul1s. }
  split; [|split]; apply H; intros E; apply (f_equal to_Z) in E; revert E; vm_compute; discriminate.
Qed.
Example C07_edge_example : exists s, ecdsa_valid (gen : pt secp256k1) 1 2 s /\ lindell_verify 2 s (gen : pt secp256k1) 1 = Err InvalidSig.
Proof. destruct (C07_secp256k1_completeness_refuted gen 1 (proj2 (proj2 C04_edge_example))) as (s & V & _ & R & _). exists s. auto. Qed.
Example C07_negated_example : lindell_verify 7 9 (tz 5 : pt toy) 9 = Ok tt /\ ~ ecdsa_valid (tz 5 : pt toy) (-9) ((-7) mod 31) ((-9) mod 31).
Proof. assert (V := proj1 C07_example). split; [exact V|]. apply (C07_negated_refuted toy 7 9 (tz 5) 9 (conj eq_refl eq_refl) eq_refl V). Qed.

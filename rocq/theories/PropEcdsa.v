(** Properties C01-C08: signature verification and signature output. *)
From Coq Require Import Field  ZArith Lia Bool List.
From Verif Require Import ZArithX Fq Curve Outcome Bytes Ecdsa Toy EcdsaProofs.
Import ListNotations.
Local Open Scope Z_scope.

(** Fixed toy data used in the examples: secret key 5, message 9, nonce 2 (or
    another nonce), all in the order-31 group. *)
Definition ex_sig (k : Z) : local_sig toy * Fq (cq toy) :=
  let R : pt toy := tz k in
  let r := match x_coord R with Some a => tz a | None => f0 end in
  let s := fmul (finv (tz k)) (fadd (tz 9) (fmul r (tz 5))) in
  ({| ls_r := r; ls_R := R; ls_s := f0; ls_m := 9; ls_y := (tz 5 : pt toy) |}, s).

(** Observation of an output as integers. *)
Definition out_is (o : outcome error (sig_recid toy)) (r s rc : Z) : bool :=
  match o with
  | Ok sg => (to_Z (sg_r sg) =? r mod 31) && (to_Z (sg_s sg) =? s mod 31) && (sg_recid sg =? rc)
  | _ => false
  end.
Definition toy_sig (r s rc : Z) : sig_recid toy := Build_sig_recid toy (tz r) (tz s) rc.
Lemma out_is_ok o r s rc : out_is o r s rc = true -> o = Ok (toy_sig r s rc).
Proof.
  destruct o as [[a b c]| |]; cbn [out_is sg_r sg_s sg_recid]; intros H; try discriminate.
  apply andb_true_iff in H. destruct H as [H H3]. apply andb_true_iff in H. destruct H as [H1 H2].
  unfold toy_sig. rewrite (tz_eqb _ _ H1), (tz_eqb _ _ H2). apply Z.eqb_eq in H3. subst. reflexivity.
Qed.
Definition out_err (o : outcome error (sig_recid toy)) : bool :=
  match o with Err InvalidSig => true | _ => false end.
Lemma out_err_ok o : out_err o = true -> o = Err InvalidSig.
Proof. destruct o as [|[]|]; cbn; congruence. Qed.
Ltac out_ok := apply out_is_ok; vm_compute; reflexivity.
Ltac out_bad := apply out_err_ok; vm_compute; reflexivity.

(** * C01 *)
Theorem C01_gg20_verify_is_ecdsa : forall (C : Curve) (r s : Fq (cq C)) (y : pt C) (m : Z),
  gg20_verify r s y m = Ok tt <-> ecdsa_eqn y m (to_Z r) (to_Z s).
Proof. intros. rewrite gg20_verify_ok. apply ok_eqn_iff. Qed.
Print Assumptions C01_gg20_verify_is_ecdsa.

Theorem C01_gg20_verify_valid : forall (C : Curve) (r s : Fq (cq C)) (y : pt C) (m : Z),
  r <> f0 -> (gg20_verify r s y m = Ok tt <-> ecdsa_valid y m (to_Z r) (to_Z s)).
Proof. exact gg20_verify_iff_valid. Qed.
Print Assumptions C01_gg20_verify_valid.

Example C01_example : gg20_verify (tz 7) (tz 9) (tz 5 : pt toy) 9 = Ok tt /\
  gg20_verify (tz 7) (tz 10) (tz 5 : pt toy) 9 = Err InvalidSig.
Proof. split; vm_compute; reflexivity. Qed.

(** Both roots are accepted, so GG20/GG18 [verify] does not enforce low s. *)
Theorem C01_gg20_verify_both_roots : forall (C : Curve) (r s : Fq (cq C)) (y : pt C) (m : Z),
  gg20_verify r s y m = Ok tt -> gg20_verify r (fopp s) y m = Ok tt.
Proof. exact gg20_verify_opp. Qed.

(** * C02 *)
Theorem C02_gg18_verify_total : forall (C : Curve) (r s : Fq (cq C)) (y : pt C) (m : Z),
  gg18_verify r s y m = Ok tt \/ gg18_verify r s y m = Err InvalidSig.
Proof. exact gg18_verify_cases. Qed.
Print Assumptions C02_gg18_verify_total.

Theorem C02_gg18_verify_is_ecdsa : forall (C : Curve) (r s : Fq (cq C)) (y : pt C) (m : Z),
  gg18_verify r s y m = Ok tt <-> ecdsa_eqn y m (to_Z r) (to_Z s).
Proof. intros. rewrite gg18_verify_ok. apply ok_eqn_iff. Qed.
Print Assumptions C02_gg18_verify_is_ecdsa.

(** On [s = 0] and on an infinite verification point the result is an error.  The
    hypothesis is stated with an explicit inverse [w] of [s]. *)
Theorem C02_gg18_verify_degenerate : forall (C : Curve) (r s : Fq (cq C)) (y : pt C) (m : Z),
  (to_Z s = 0 \/ exists w, (to_Z s * w) mod cq C = 1 /\
     padd (zmul (m * w) gen) (zmul (to_Z r * w) y) = pzero) ->
  gg18_verify r s y m = Err InvalidSig.
Proof.
  intros C r s y m H. apply gg18_verify_err. destruct H as [H|(w & Hw & H)].
  - left. apply fq_ext. transitivity 0; [exact H|symmetry; apply to_Z_0].
  - right. apply inv_unique in Hw. destruct Hw as [_ Hw]. unfold zmul in H.
    rewrite !of_Z_mul, Hw, !of_Z_to_Z in H. exact H.
Qed.
Print Assumptions C02_gg18_verify_degenerate.
Example C02_example :
  gg18_verify (tz 7) (tz 0) (tz 5 : pt toy) 9 = Err InvalidSig /\
  (exists w, (to_Z (tz 1) * w) mod 31 = 1 /\
     padd (zmul (27 * w) gen) (zmul (to_Z (tz 7) * w) (tz 5 : pt toy)) = (pzero : pt toy)) /\
  gg18_verify (tz 7) (tz 1) (tz 5 : pt toy) 27 = Err InvalidSig /\
  gg18_verify (tz 7) (tz 9) (tz 5 : pt toy) 9 = Ok tt.
Proof.
  split; [vm_compute; reflexivity|]. split; [|split; vm_compute; reflexivity].
  exists 1. split; [reflexivity|]. apply fq_ext. vm_compute. reflexivity.
Qed.

(** * C03 *)
Theorem C03_gg20_output_valid_low_s :
  forall (C : Curve) (l : local_sig C) (s_vec : list (Fq (cq C))) (sg : sig_recid C),
  gg20_output l s_vec = Ok sg ->
  ecdsa_eqn (ls_y l) (ls_m l) (to_Z (sg_r sg)) (to_Z (sg_s sg)) /\
  (sg_r sg <> f0 -> ecdsa_valid (ls_y l) (ls_m l) (to_Z (sg_r sg)) (to_Z (sg_s sg))) /\
  1 <= to_Z (sg_s sg) <= (cq C - 1) / 2.
Proof.
  intros C l v sg H. apply gg20_output_sound in H. destruct H as (H0 & H1 & H2 & H3).
  split; [assumption|]. split; [assumption|]. split; [|assumption].
  apply gg20_verify_ok in H0. apply nz_range, H0.
Qed.
Print Assumptions C03_gg20_output_valid_low_s.

Theorem C03_gg18_output_valid_low_s :
  forall (C : Curve) (l : local_sig C) (s_vec : list (Fq (cq C))) (sg : sig_recid C),
  gg18_output l s_vec = Ok sg ->
  ecdsa_eqn (ls_y l) (ls_m l) (to_Z (sg_r sg)) (to_Z (sg_s sg)) /\
  (sg_r sg <> f0 -> ecdsa_valid (ls_y l) (ls_m l) (to_Z (sg_r sg)) (to_Z (sg_s sg))) /\
  1 <= to_Z (sg_s sg) <= (cq C - 1) / 2.
Proof. intros C l v sg H. apply gg18_output_gg20 in H. apply (C03_gg20_output_valid_low_s _ _ _ _ H). Qed.
Print Assumptions C03_gg18_output_valid_low_s.

Theorem C03_gg18_output_total :
  forall (C : Curve) (l : local_sig C) (s_vec : list (Fq (cq C))), gg18_output l s_vec <> Panic.
Proof. exact gg18_output_no_panic. Qed.
Print Assumptions C03_gg18_output_total.

(** Conversely the output step never withholds a signature: a non-zero total that
    satisfies the signing equation is output. *)
Theorem C03_output_complete :
  forall (C : Curve) (l : local_sig C) (s_vec : list (Fq (cq C))) (x y : Z),
  coords (ls_R l) = Some (x, y) ->
  fadd (ls_s l) (fsum s_vec) <> f0 ->
  smul (fadd (ls_s l) (fsum s_vec)) (ls_R l) =
    padd (smul (of_Z (cq C) (ls_m l)) gen) (smul (of_Z (cq C) x) (ls_y l)) ->
  exists sg, gg20_output l s_vec = Ok sg /\ gg18_output l s_vec = Ok sg /\
             to_Z (sg_r sg) = x mod cq C /\
             (sg_s sg = fadd (ls_s l) (fsum s_vec) \/ sg_s sg = fopp (fadd (ls_s l) (fsum s_vec))).
Proof.
  intros C l v x y HR Hs E. eexists.
  pose proof (gg20_output_complete C l v x y HR Hs E) as H.
  split; [exact H|]. split; [apply gg18_output_gg20, H|]. cbn [sg_r sg_s].
  split; [reflexivity|]. destruct (normalize_cases C (sig_total l v) y) as [[-> _]|[-> _]]; cbn [fst]; auto.
Qed.
Print Assumptions C03_output_complete.

Example C03_example :
  gg20_output (fst (ex_sig 2)) [snd (ex_sig 2)] = Ok (toy_sig 7 9 0) /\
  gg20_output (fst (ex_sig 2)) [fadd (snd (ex_sig 2)) f1] = Err InvalidSig.
Proof. split; [out_ok|out_bad]. Qed.

(** * C04 *)
(** Full statement (false): every output signature satisfies [recovers].  The
    exact condition, when the total of the partial signatures satisfies the
    signing equation, is that the nonce point has [x < q] and [y / q] even (on
    secp256k1: [x < q] and [y < q]). *)
Theorem C04_recid_exact :
  forall (C : Curve) (l : local_sig C) (s_vec : list (Fq (cq C))) (sg : sig_recid C) (x y : Z),
  coords (ls_R l) = Some (x, y) ->
  fadd (ls_s l) (fsum s_vec) <> f0 ->
  smul (fadd (ls_s l) (fsum s_vec)) (ls_R l) =
    padd (smul (of_Z (cq C) (ls_m l)) gen) (smul (of_Z (cq C) x) (ls_y l)) ->
  gg20_output l s_vec = Ok sg ->
  (recovers (ls_y l) (ls_m l) (to_Z (sg_r sg)) (to_Z (sg_s sg)) (sg_recid sg) <->
   x < cq C /\ Z.even (y / cq C) = true).
Proof. exact recid_honest_iff. Qed.
Print Assumptions C04_recid_exact.

Theorem C04_recid_partial :
  forall (C : Curve) (l : local_sig C) (s_vec : list (Fq (cq C))) (sg : sig_recid C) (x y : Z),
  coords (ls_R l) = Some (x, y) -> x < cq C -> y < cq C ->
  smul (fadd (ls_s l) (fsum s_vec)) (ls_R l) =
    padd (smul (of_Z (cq C) (ls_m l)) gen) (smul (of_Z (cq C) x) (ls_y l)) ->
  gg20_output l s_vec = Ok sg \/ gg18_output l s_vec = Ok sg ->
  recovers (ls_y l) (ls_m l) (to_Z (sg_r sg)) (to_Z (sg_s sg)) (sg_recid sg).
Proof.
  intros C l v sg x y HR Hx Hy E [H|H]; [|apply gg18_output_gg20 in H];
  exact (recid_correct C l v sg x y HR Hx Hy E H).
Qed.
Print Assumptions C04_recid_partial.

(** A malicious co-signer can always make an honest party output a correct
    signature with the wrong recovery id: it shifts its share so that the total
    is the negated root. *)
Theorem C04_recid_malicious :
  forall (C : Curve) (l : local_sig C) (s_vec s_vec' : list (Fq (cq C))) (x y : Z),
  coords (ls_R l) = Some (x, y) -> y < cq C ->
  fadd (ls_s l) (fsum s_vec) <> f0 ->
  smul (fadd (ls_s l) (fsum s_vec)) (ls_R l) =
    padd (smul (of_Z (cq C) (ls_m l)) gen) (smul (of_Z (cq C) x) (ls_y l)) ->
  fadd (ls_s l) (fsum s_vec') = fopp (fadd (ls_s l) (fsum s_vec)) ->
  exists sg, gg20_output l s_vec' = Ok sg /\
    ecdsa_eqn (ls_y l) (ls_m l) (to_Z (sg_r sg)) (to_Z (sg_s sg)) /\
    ~ recovers (ls_y l) (ls_m l) (to_Z (sg_r sg)) (to_Z (sg_s sg)) (sg_recid sg).
Proof.
  intros C l v v' x y HR Hy Hs E Hneg.
  pose proof (coords_range C _ _ _ HR) as [Hx0 Hy0].
  assert (exists sg, gg20_output l v' = Ok sg) as [sg Hsg].
  { unfold gg20_output, x_coord, y_coord. rewrite HR. cbn [option_map fst snd unwrap obind].
    rewrite fold_left_fadd, Hneg. set (s := fadd (ls_s l) (fsum v)) in *.
    rewrite of_Z_mod.
    assert (V : gg20_verify (of_Z (cq C) x) s (ls_y l) (ls_m l) = Ok tt).
    { apply gg20_verify_ok. split; [assumption|]. exists x.
      apply (sig_eqn_vpoint C _ _ _ _ _ Hs) in E. rewrite E. unfold x_coord. rewrite HR. auto. }
    pose proof (gg20_verify_opp _ _ _ _ _ V) as V'.
    pose proof (gg20_verify_opp _ _ _ _ _ V') as V''.
    destruct (normalize_cases C (fopp s) y) as [[-> _]|[-> _]]; [rewrite V'|rewrite V'']; eauto. }
  exists sg. split; [assumption|]. split.
  - apply gg20_output_sound in Hsg. tauto.
  - intros R. apply (recid_negated_iff C l v v' sg x y HR Hs E Hneg Hsg) in R.
    destruct R as [_ R]. rewrite Z.div_small in R by lia. discriminate.
Qed.
Print Assumptions C04_recid_malicious.

(** Refutation with honest partial signatures: nonce 10 has y < q but x >= q, nonce
    9 has x < q but y >= q. *)
Theorem C04_recid_refuted :
  (exists l s_vec sg, gg20_output (C := toy) l s_vec = Ok sg /\
     (exists x y, coords (ls_R l) = Some (x, y) /\ x >= cq toy /\ y < cq toy /\
       smul (fadd (ls_s l) (fsum s_vec)) (ls_R l) =
         padd (smul (of_Z (cq toy) (ls_m l)) gen) (smul (of_Z (cq toy) x) (ls_y l))) /\
     ~ recovers (ls_y l) (ls_m l) (to_Z (sg_r sg)) (to_Z (sg_s sg)) (sg_recid sg)) /\
  (exists l s_vec sg, gg20_output (C := toy) l s_vec = Ok sg /\
     (exists x y, coords (ls_R l) = Some (x, y) /\ x < cq toy /\ y >= cq toy /\
       smul (fadd (ls_s l) (fsum s_vec)) (ls_R l) =
         padd (smul (of_Z (cq toy) (ls_m l)) gen) (smul (of_Z (cq toy) x) (ls_y l))) /\
     ~ recovers (ls_y l) (ls_m l) (to_Z (sg_r sg)) (to_Z (sg_s sg)) (sg_recid sg)).
Proof.
  assert (K : forall k x y sg, coords (tz k : pt toy) = Some (x, y) ->
     gg20_output (fst (ex_sig k)) [snd (ex_sig k)] = Ok sg ->
     smul (fadd f0 (fsum [snd (ex_sig k)])) (tz k : pt toy) =
         padd (smul (of_Z (cq toy) 9) gen) (smul (of_Z (cq toy) x) (tz 5 : pt toy)) ->
     fadd (ls_s (fst (ex_sig k))) (fsum [snd (ex_sig k)]) <> f0 ->
     ~ (x < cq toy /\ Z.even (y / cq toy) = true) ->
     ~ recovers (tz 5 : pt toy) 9 (to_Z (sg_r sg)) (to_Z (sg_s sg)) (sg_recid sg)).
  { intros k x y sg HR Hout E Hs Hn R.
    apply (recid_honest_iff toy (fst (ex_sig k)) [snd (ex_sig k)] sg x y HR Hs E Hout) in R.
    contradiction. }
  split.
  - exists (fst (ex_sig 10)), [snd (ex_sig 10)], (toy_sig 11 6 0).
    assert (O : gg20_output (fst (ex_sig 10)) [snd (ex_sig 10)] = Ok (toy_sig 11 6 0)) by out_ok.
    refine (conj O (conj _ _)).
    + exists 42, 7. refine (conj eq_refl (conj _ (conj eq_refl _))); [vm_compute; congruence|toy_eq].
    + apply (K 10 42 7 _ eq_refl O); [toy_eq|toy_neq|]. intros [E _]. vm_compute in E. discriminate.
  - exists (fst (ex_sig 9)), [snd (ex_sig 9)], (toy_sig 20 12 0).
    assert (O : gg20_output (fst (ex_sig 9)) [snd (ex_sig 9)] = Ok (toy_sig 20 12 0)) by out_ok.
    refine (conj O (conj _ _)).
    + exists 20, 40. refine (conj eq_refl (conj eq_refl (conj _ _))); [vm_compute; congruence|toy_eq].
    + apply (K 9 20 40 _ eq_refl O); [toy_eq|toy_neq|]. intros [_ E]. vm_compute in E. discriminate.
Qed.
Print Assumptions C04_recid_refuted.

(** Nonce 2: the point (7,7) has both coordinates below 31. *)
Example C04_example : coords (ls_R (fst (ex_sig 2))) = Some (7, 7) /\
  gg20_output (fst (ex_sig 2)) [snd (ex_sig 2)] = Ok (toy_sig 7 9 0) /\
  fadd (ls_s (fst (ex_sig 2))) (fsum [fopp (snd (ex_sig 2))]) =
    fopp (fadd (ls_s (fst (ex_sig 2))) (fsum [snd (ex_sig 2)])) /\
  gg20_output (fst (ex_sig 2)) [fopp (snd (ex_sig 2))] = Ok (toy_sig 7 9 1).
Proof. refine (conj eq_refl (conj _ (conj _ _))); [out_ok|toy_eq|out_ok]. Qed.

(** * C05 *)
(** The stated property with its only other exception made explicit: an accepted
    total is the honest one, its negation, or the curve has two points whose
    different x-coordinates agree modulo the order. *)
Theorem C05_tampered_partial_detected :
  forall (C : Curve) (l : local_sig C) (s_vec s_vec' : list (Fq (cq C))) (sg : sig_recid C) (x : Z),
  x_coord (ls_R l) = Some x ->
  fadd (ls_s l) (fsum s_vec) <> f0 ->
  smul (fadd (ls_s l) (fsum s_vec)) (ls_R l) =
    padd (smul (of_Z (cq C) (ls_m l)) gen) (smul (of_Z (cq C) x) (ls_y l)) ->
  gg20_output l s_vec' = Ok sg \/ gg18_output l s_vec' = Ok sg ->
  fsum s_vec' = fsum s_vec \/
  fadd (ls_s l) (fsum s_vec') = fopp (fadd (ls_s l) (fsum s_vec)) \/
  (exists x' (P : pt C), x_coord P = Some x' /\ x' <> x /\ x' mod cq C = x mod cq C).
Proof.
  intros C l v v' sg x Hx Hs E H.
  assert (H' : gg20_output l v' = Ok sg) by (destruct H as [H|H]; [|apply gg18_output_gg20 in H]; exact H).
  destruct (gg20_output_tamper C l v v' sg x Hx Hs E H') as [K|[K|K]]; auto. left.
  unfold sig_total in K. assert (G : fsub (fadd (ls_s l) (fsum v')) (ls_s l) = fsub (fadd (ls_s l) (fsum v)) (ls_s l)) by (rewrite K; reflexivity).
  pose proof (C_field C) as CF. destruct CF as [CR _ _ _].
  assert (A : forall a b : Fq (cq C), fsub (fadd a b) a = b).
  { intros a b. apply fq_ext. unfold fsub, fadd. rewrite !to_Z_of_Z, Zminus_mod_idemp_l.
    replace (to_Z a + to_Z b - to_Z a) with (to_Z b) by ring. apply to_Z_mod. }
  rewrite !A in G. exact G.
Qed.
Print Assumptions C05_tampered_partial_detected.

(** If x-coordinates below the field size are unique modulo q (no two points with
    x and x+q), a changed single partial signature that is not the negated root
    is refused. *)
Theorem C05_single_tamper_refused :
  forall (C : Curve) (l : local_sig C) (pre post : list (Fq (cq C))) (si si' : Fq (cq C)) (x : Z),
  (forall x1 x2 (P1 P2 : pt C), x_coord P1 = Some x1 -> x_coord P2 = Some x2 ->
      x1 mod cq C = x2 mod cq C -> x1 = x2) ->
  x_coord (ls_R l) = Some x ->
  fadd (ls_s l) (fsum (pre ++ si :: post)) <> f0 ->
  smul (fadd (ls_s l) (fsum (pre ++ si :: post))) (ls_R l) =
    padd (smul (of_Z (cq C) (ls_m l)) gen) (smul (of_Z (cq C) x) (ls_y l)) ->
  si' <> si ->
  fadd (ls_s l) (fsum (pre ++ si' :: post)) <> fopp (fadd (ls_s l) (fsum (pre ++ si :: post))) ->
  forall sg, gg20_output l (pre ++ si' :: post) <> Ok sg /\ gg18_output l (pre ++ si' :: post) <> Ok sg.
Proof.
  intros C l pre post si si' x Huniq Hx Hs E Hne Hneg sg.
  assert (K : ~ (gg20_output l (pre ++ si' :: post) = Ok sg \/ gg18_output l (pre ++ si' :: post) = Ok sg)).
  { intros H. destruct (C05_tampered_partial_detected C l _ _ sg x Hx Hs E H) as [K|[K|(x' & P & HP & Hne' & Hmod)]].
    - apply Hne. rewrite !fsum_app in K. cbn in K.
      apply (f_equal to_Z) in K. unfold fadd in K. rewrite !to_Z_of_Z in K.
      rewrite !Zplus_mod_idemp_r in K.
      apply fq_ext. rewrite <- (to_Z_mod si'), <- (to_Z_mod si).
      set (a := to_Z (fsum pre)) in *. set (b := to_Z (fsum post)) in *.
      replace (to_Z si') with ((a + (to_Z si' + b)) - (a + b)) by ring.
      replace (to_Z si) with ((a + (to_Z si + b)) - (a + b)) by ring.
      rewrite Zminus_mod, K, <- Zminus_mod. reflexivity.
    - contradiction.
    - apply Hne'. apply (Huniq _ _ _ _ HP Hx Hmod). }
  tauto.
Qed.
Print Assumptions C05_single_tamper_refused.

(** The remaining exception is real: on the toy curve x = 7 and x = 38 agree
    modulo 31 and a tampered share is accepted, giving another valid signature. *)
Theorem C05_collision_refuted :
  exists (l : local_sig toy) (s s' : Fq (cq toy)), s' <> s /\ s' <> fopp s /\
    gg20_output l [s] = Ok (toy_sig 7 9 0) /\ gg20_output l [s'] = Ok (toy_sig 7 5 1).
Proof.
  exists (fst (ex_sig 2)), (snd (ex_sig 2)), (tz 5).
  refine (conj _ (conj _ (conj _ _))); [toy_neq|toy_neq|out_ok|out_ok].
Qed.
Print Assumptions C05_collision_refuted.
Example C05_example :
  gg20_output (fst (ex_sig 2)) [snd (ex_sig 2)] = Ok (toy_sig 7 9 0) /\
  gg20_output (fst (ex_sig 2)) [fadd (snd (ex_sig 2)) f1] = Err InvalidSig /\
  gg18_output (fst (ex_sig 2)) [fadd (snd (ex_sig 2)) f1] = Err InvalidSig.
Proof. refine (conj _ (conj _ _)); [out_ok|out_bad|out_bad]. Qed.

(** * C06 *)
(** Full statement (false): [gg20_verify] never panics.  Exactly when it does: *)
Theorem C06_gg20_verify_panics_exactly :
  forall (C : Curve) (r s : Fq (cq C)) (y : pt C) (m : Z),
  gg20_verify r s y m = Panic <->
  s = f0 \/ exists w, fmul s w = f1 /\
     padd (smul (fmul (of_Z (cq C) m) w) gen) (smul (fmul r w) y) = pzero.
Proof.
  intros C r s y m. rewrite gg20_verify_panic_iff. unfold vpoint.
  pose proof (Field_theory.F_R (C_field C)) as FR.
  destruct (Fq_eq_dec s f0) as [->|Hs]; [tauto|].
  assert (I : fmul s (finv s) = f1) by (rewrite (Ring_theory.Rmul_comm FR); apply finv_l; [apply cq_prime|assumption]).
  split; (intros [H|H]; [contradiction|right]).
  - exists (finv s). auto.
  - destruct H as (w & Hw & H). replace (finv s) with w; [exact H|].
    rewrite <- (Ring_theory.Rmul_1_l FR w), <- (finv_l (cq_prime C) s Hs).
    rewrite <- (Ring_theory.Rmul_assoc FR), Hw, (Ring_theory.Rmul_comm FR).
    apply (Ring_theory.Rmul_1_l FR).
Qed.
Print Assumptions C06_gg20_verify_panics_exactly.

Theorem C06_gg20_verify_never_panics_refuted :
  (exists (r s : Fq (cq toy)) (y : pt toy) m, s = f0 /\ gg20_verify r s y m = Panic) /\
  (exists (r s : Fq (cq toy)) (y : pt toy) m, s <> f0 /\ r <> f0 /\ y <> pzero /\ gg20_verify r s y m = Panic).
Proof.
  split.
  - exists (tz 7), f0, (tz 5), 9. split; [reflexivity|]. vm_compute. reflexivity.
  - exists (tz 7), (tz 1), (tz 5), 27.
    refine (conj _ (conj _ (conj _ _))); [toy_neq|toy_neq|toy_neq|vm_compute; reflexivity].
Qed.
Print Assumptions C06_gg20_verify_never_panics_refuted.

(** The panic with s = 0 exists on every curve and for every key: any untrusted
    signature with s = 0 crashes the verifier. *)
Theorem C06_zero_s_crashes : forall (C : Curve) (r : Fq (cq C)) (y : pt C) (m : Z),
  gg20_verify r f0 y m = Panic.
Proof. intros. apply gg20_verify_panic_iff. auto. Qed.
Print Assumptions C06_zero_s_crashes.

Section Infinity.
Context (C : Curve).
Notation F := (Fq (cq C)).
Add Field cfield_inf : (C_field C).

Lemma inf_scale (s a b d w : F) : fmul s w = f1 ->
  fadd (fmul (fmul a w) f1) (fmul (fmul b w) d) = f0 <-> fmul a f1 = fopp (fmul b d).
Proof.
  intros I. split; intros E.
  - transitivity (fsub (fmul s (fadd (fmul (fmul a w) f1) (fmul (fmul b w) d))) (fmul b d)).
    + transitivity (fsub (fadd (fmul a (fmul s w)) (fmul (fmul b d) (fmul s w))) (fmul b d)); [rewrite I; ring|ring].
    + rewrite E. ring.
  - transitivity (fmul w (fadd (fmul a f1) (fmul b d))); [ring|]. rewrite E. ring.
Qed.

Lemma inf_inv (s : F) : s <> f0 -> fmul s (finv s) = f1.
Proof. intros Hs. field. exact Hs. Qed.

Lemma inf_msg (r d : F) : fmul (fopp (fmul r d)) f1 = fopp (fmul r d).
Proof. ring. Qed.
End Infinity.

(** The panic at infinity too: for every key and every r, s there is exactly one residue of
    the message that crashes the verifier. *)
Theorem C06_infinity_crashes : forall (C : Curve) (r s : Fq (cq C)) (y : pt C) (m : Z), s <> f0 ->
  (gg20_verify r s y m = Panic <-> smul (of_Z (cq C) m) gen = pneg (smul r y)).
Proof.
  intros C r s y m Hs. rewrite gg20_verify_panic_iff. unfold vpoint. rewrite !dlog_eq_iff.
  autorewrite with dlog. rewrite (inf_scale C s _ _ _ _ (inf_inv C s Hs)). tauto.
Qed.
Print Assumptions C06_infinity_crashes.

(** For each key, r and s there is such a message. *)
Theorem C06_infinity_reached : forall (C : Curve) (r s : Fq (cq C)) (y : pt C), s <> f0 ->
  exists m, 0 <= m < cq C /\ gg20_verify r s y m = Panic.
Proof.
  intros C r s y Hs. exists (to_Z (fopp (fmul r (dlog y)))). split.
  - apply to_Z_range, cq_prime.
  - apply C06_infinity_crashes; [assumption|]. rewrite of_Z_to_Z. apply dlog_inj. autorewrite with dlog.
    apply inf_msg.
Qed.
Print Assumptions C06_infinity_reached.

(** * C07 *)
(** Exact acceptance of Lindell verification on canonical values. *)
Theorem C07_lindell_verify_canonical :
  forall (C : Curve) (r s : Z) (pk : pt C) (m : Z), 0 < r < cq C -> 0 < s < cq C ->
  (lindell_verify r s pk m = Ok tt <->
   (s <= (cq C - 1) / 2 /\
    exists w, (s * w) mod cq C = 1 /\ x_coord (padd (zmul (m * w) gen) (zmul (r * w) pk)) = Some r)).
Proof.
  intros C r s pk m Hr Hs. rewrite lindell_verify_ok. unfold two_party_ok.
  destruct (q_is_odd C) as [k Hk].
  assert (Hlow : s < cq C - s <-> s <= (cq C - 1) / 2).
  { replace (cq C - 1) with (k * 2) by lia. rewrite Z.div_mul by lia. lia. }
  rewrite Hlow, Z.abs_eq by lia. split.
  - intros (H1 & H2 & H3). split; [assumption|].
    destruct (inv_exists C s H1) as (w & Hw & Ew). exists w. split; [assumption|].
    unfold zmul. rewrite !of_Z_mul, Ew. exact H3.
  - intros (H2 & w & Hw & H3). apply inv_unique in Hw. destruct Hw as [H1 Ew].
    unfold zmul in H3. rewrite !of_Z_mul, Ew in H3. auto.
Qed.
Print Assumptions C07_lindell_verify_canonical.

(** Sound for every integer pair with non-negative r. *)
Theorem C07_lindell_verify_sound_partial :
  forall (C : Curve) (r s : Z) (pk : pt C) (m : Z), 0 <= r ->
  lindell_verify r s pk m = Ok tt ->
  ecdsa_eqn pk m r s /\ (0 < r < cq C -> ecdsa_valid pk m r (s mod cq C)) /\ s < cq C - s.
Proof.
  intros C r s pk m Hr H. apply lindell_verify_ok in H.
  pose proof (two_party_sound C r s pk m Hr H) as [H1 H2].
  destruct H as (_ & H & _). auto.
Qed.
Print Assumptions C07_lindell_verify_sound_partial.

Theorem C07_lindell_high_s_rejected :
  forall (C : Curve) (r s : Z) (pk : pt C) (m : Z),
  lindell_verify r s pk m = Ok tt -> lindell_verify r (cq C - s) pk m <> Ok tt.
Proof.
  intros C r s pk m H H'. apply lindell_verify_ok in H. apply lindell_verify_ok in H'.
  destruct H as (_ & H & _). destruct H' as (_ & H' & _). lia.
Qed.
Print Assumptions C07_lindell_high_s_rejected.

(** "No other representation is accepted" is false for every accepted signature. *)
Theorem C07_lindell_unique_representation_refuted :
  forall (C : Curve) (r s k : Z) (pk : pt C) (m : Z), 0 < s -> 0 <= k ->
  lindell_verify r s pk m = Ok tt ->
  lindell_verify r (- s - k * cq C) pk m = Ok tt /\ lindell_verify r (s - k * cq C) pk m = Ok tt.
Proof. intros C r s k pk m Hs Hk. rewrite !lindell_verify_ok. apply two_party_malleable; assumption. Qed.
Print Assumptions C07_lindell_unique_representation_refuted.

(** With a negative r a pair is accepted that is not an ECDSA signature of the
    message: the negated signature of the negated message. *)
Theorem C07_lindell_validity_refuted :
  exists (r s : Z) (pk : pt toy) (m : Z),
    lindell_verify r s pk m = Ok tt /\ ~ ecdsa_valid pk m (r mod cq toy) (s mod cq toy).
Proof.
  exists (-7), (-9), (tz 5), (-9). split; [vm_compute; reflexivity|].
  intros (_ & _ & w & x & Hw & Hx & E).
  assert (W : w mod 31 = 24 mod 31).
  { change (((-9) mod cq toy) * w) with (22 * w) in Hw. change (cq toy) with 31 in Hw.
    assert (E1 : (24 * (22 * w)) mod 31 = 24 mod 31) by (rewrite <- Zmult_mod_idemp_r, Hw; reflexivity).
    rewrite <- E1. replace (24 * (22 * w)) with (w + (17 * w) * 31) by ring. rewrite Z.mod_add by lia. reflexivity. }
  assert (A : zmul (-9 * w) (gen : pt toy) = zmul (-9 * 24) gen).
  { unfold zmul. f_equal. apply of_Z_eq. change (cq toy) with 31.
    rewrite <- Zmult_mod_idemp_r, W, Zmult_mod_idemp_r. reflexivity. }
  assert (B : zmul ((-7) mod cq toy * w) (tz 5 : pt toy) = zmul ((-7) mod 31 * 24) (tz 5 : pt toy)).
  { unfold zmul. f_equal. apply of_Z_eq. change (cq toy) with 31.
    rewrite <- Zmult_mod_idemp_r, W, Zmult_mod_idemp_r. reflexivity. }
  rewrite A, B in Hx. vm_compute in Hx. injection Hx as <-. vm_compute in E. discriminate.
Qed.
Print Assumptions C07_lindell_validity_refuted.

(** Crash conditions, and an honest signature with nonce x >= q is refused. *)
Theorem C07_lindell_verify_panics_on_zero_s :
  forall (C : Curve) (r s : Z) (pk : pt C) (m : Z), s mod cq C = 0 -> lindell_verify r s pk m = Panic.
Proof.
  intros C r s pk m H. apply lindell_panic_iff. left. apply of_Z_eq. rewrite H, Zmod_0_l. reflexivity.
Qed.
Print Assumptions C07_lindell_verify_panics_on_zero_s.

Theorem C07_lindell_completeness_refuted :
  exists (r s : Z) (pk : pt toy) (m : Z),
    ecdsa_valid pk m r s /\ s <= (cq toy - 1) / 2 /\ lindell_verify r s pk m = Err InvalidSig.
Proof.
  exists 11, 6, (tz 5), 9. split; [|split; [vm_compute; congruence|vm_compute; reflexivity]].
  change 11 with (to_Z (tz 11)). change 6 with (to_Z (tz 6)). apply gg20_verify_iff_valid.
  - intros E. apply (f_equal to_Z) in E. vm_compute in E. discriminate.
  - vm_compute. reflexivity.
Qed.
Print Assumptions C07_lindell_completeness_refuted.

Example C07_example : lindell_verify 7 9 (tz 5 : pt toy) 9 = Ok tt /\
  lindell_verify 7 22 (tz 5 : pt toy) 9 = Err InvalidSig /\
  lindell_verify 7 (-9) (tz 5 : pt toy) 9 = Ok tt /\ lindell_verify 7 (9 - 31) (tz 5 : pt toy) 9 = Ok tt.
Proof. repeat split; vm_compute; reflexivity. Qed.

(** * C08 *)
Theorem C08_cclst_verify_sound_partial :
  forall (C : Curve) (r s : Z) (pk : pt C) (m : Z), 0 <= r ->
  cclst_verify r s pk m = Ok tt ->
  ecdsa_eqn pk m r s /\ (0 < r < cq C -> ecdsa_valid pk m r (s mod cq C)) /\ s < cq C - s.
Proof.
  intros C r s pk m Hr H. apply cclst_verify_ok, lindell_verify_ok in H.
  apply C07_lindell_verify_sound_partial; assumption.
Qed.
Print Assumptions C08_cclst_verify_sound_partial.

Theorem C08_cclst_zero_s_err :
  forall (C : Curve) (r s : Z) (pk : pt C) (m : Z), s mod cq C = 0 -> cclst_verify r s pk m = Err InvalidSig.
Proof. exact cclst_zero_s. Qed.
Print Assumptions C08_cclst_zero_s_err.

Theorem C08_cclst_high_s_rejected :
  forall (C : Curve) (r s : Z) (pk : pt C) (m : Z),
  cclst_verify r s pk m = Ok tt -> cclst_verify r (cq C - s) pk m <> Ok tt.
Proof.
  intros C r s pk m H H'. apply cclst_verify_ok in H. apply cclst_verify_ok in H'.
  destruct H as (_ & H & _). destruct H' as (_ & H' & _). lia.
Qed.
Print Assumptions C08_cclst_high_s_rejected.

(** On the same inputs CCLST accepts exactly what Lindell accepts. *)
Theorem C08_cclst_accepts_as_lindell :
  forall (C : Curve) (r s : Z) (pk : pt C) (m : Z),
  cclst_verify r s pk m = Ok tt <-> lindell_verify r s pk m = Ok tt.
Proof. intros. rewrite cclst_verify_ok, lindell_verify_ok. reflexivity. Qed.
Print Assumptions C08_cclst_accepts_as_lindell.

Theorem C08_cclst_validity_refuted :
  (exists (r s : Z) (pk : pt toy) (m : Z),
    cclst_verify r s pk m = Ok tt /\ ~ ecdsa_valid pk m (r mod cq toy) (s mod cq toy)) /\
  (exists (r s : Z) (pk : pt toy) (m : Z), 0 < r < cq toy /\ 0 < s < cq toy /\
    cclst_verify r s pk m = Panic).
Proof.
  split.
  - destruct C07_lindell_validity_refuted as (r & s & pk & m & H & H').
    exists r, s, pk, m. split; [apply C08_cclst_accepts_as_lindell, H|exact H'].
  - exists 7, 1, (tz 5), 27. repeat split; vm_compute; reflexivity.
Qed.
Print Assumptions C08_cclst_validity_refuted.
Example C08_example : cclst_verify 7 9 (tz 5 : pt toy) 9 = Ok tt /\
  cclst_verify 7 22 (tz 5 : pt toy) 9 = Err InvalidSig /\ cclst_verify 7 31 (tz 5 : pt toy) 9 = Err InvalidSig.
Proof. repeat split; vm_compute; reflexivity. Qed.

(** GG18 signing: the phases and the honest run. *)
From Coq Require Import ZArith Lia Bool List Field.
From Verif Require Import ZArithX Fq Curve Outcome Sigma SigmaProofs Bytes Vss VssProofs Paillier PaillierProofs RangeProofs
  Mta MtaProofs Ecdsa EcdsaProofs Mp MpProofs Gg20Keygen Gg18Keygen KeygenRun KeygenRunProofs Gg20Sign SignProofs SignRun SignRunProofs Gg18Sign.
Import ListNotations.
Local Open Scope Z_scope.

Lemma all_o_true {E A} (f : A -> outcome E bool) l : all_o f l = Ok true <-> forall x, In x l -> f x = Ok true.
Proof.
  induction l as [|a l IH]; cbn [all_o].
  - split; [intros _ x []|reflexivity].
  - destruct (f a) as [[|]|e|] eqn:Ea; cbn [obind].
    + rewrite IH. split; [intros H x [<-|Hx]; auto|intros H x Hx; apply H; right; exact Hx].
    + split; [discriminate|]. intros H. specialize (H a (or_introl eq_refl)). congruence.
    + split; [discriminate|]. intros H. specialize (H a (or_introl eq_refl)). congruence.
    + split; [discriminate|]. intros H. specialize (H a (or_introl eq_refl)). congruence.
Qed.
Lemma all_o_false {E A} (f : A -> outcome E bool) l : all_o f l = Ok false -> exists x, In x l /\ f x = Ok false.
Proof.
  induction l as [|a l IH]; cbn [all_o]; [discriminate|]. destruct (f a) as [[|]|e|] eqn:Ea; cbn [obind]; try discriminate.
  - intros H. destruct (IH H) as (x & Hx & Fx). exists x. split; [right; exact Hx|exact Fx].
  - intros _. exists a. split; [left; reflexivity|exact Ea].
Qed.
Lemma all_o_no_panic {E A} (f : A -> outcome E bool) l : (forall x, In x l -> exists b, f x = Ok b) -> exists b, all_o f l = Ok b.
Proof.
  induction l as [|a l IH]; intros H; cbn [all_o]; [eauto|]. destruct (H a (or_introl eq_refl)) as [b ->]. cbn [obind].
  destruct b; [|eauto]. apply IH. intros x Hx. apply H. right. exact Hx.
Qed.

Section P.
Context (C : Curve).
Notation q := (cq C).
Notation F := (Fq q).
Notation res := (outcome error).
Add Field cfield : (C_field C).
Context (Hb : list Z -> Z) (Hz : hashZ C) (Hf : hashF C).

(** phase4 *)
Lemma g18_check4_true bps decs coms i : g18_check4 (C := C) Hb bps decs coms i = Ok true <->
  exists p d c, nth_error bps i = Some p /\ nth_error decs i = Some d /\ nth_error coms i = Some c /\
    dp_pk p = sd_g d /\ commit_pt Hb (sd_g d) (sd_blind d) = c.
Proof.
  unfold g18_check4. split.
  - intros H. apply obind_ok in H. destruct H as (p & Hp & H). apply obind_ok in H. destruct H as (d & Hd & H).
    destruct (pt_eqb_spec C (dp_pk p) (sd_g d)) as [Ep|Ep]; [|discriminate]. apply obind_ok in H. destruct H as (c & Hc & H).
    injection H as H. apply Z.eqb_eq in H. apply nth_o_ok in Hp, Hd, Hc. exists p, d, c. auto 10.
  - intros (p & d & c & H1 & H2 & H3 & H4 & H5). rewrite (proj2 (nth_o_ok _ _ _) H1). cbn [obind]. rewrite (proj2 (nth_o_ok _ _ _) H2). cbn [obind].
    rewrite H4, pt_eqb_refl. rewrite (proj2 (nth_o_ok _ _ _) H3). cbn [obind]. rewrite H5, Z.eqb_refl. reflexivity.
Qed.
Lemma g18_phase4_ok dinv bps decs coms (R : pt C) : g18_phase4 Hb dinv bps decs coms = Ok R <->
  (forall i p, nth_error bps i = Some p -> exists d c, nth_error decs i = Some d /\ nth_error coms i = Some c /\
     dp_pk p = sd_g d /\ commit_pt Hb (sd_g d) (sd_blind d) = c) /\
  R = smul dinv (psum (map sd_g decs)).
Proof.
  unfold g18_phase4. rewrite fold_left_padd. replace (padd pzero (psum (map sd_g decs))) with (psum (map (sd_g (C := C)) decs)) by (apply dlog_inj; autorewrite with dlog; ring).
  destruct (all_o _ _) as [[|]|e|] eqn:EA; cbn [obind].
  - rewrite all_o_true in EA. split.
    + intros H. injection H as <-. split; [|reflexivity]. intros i p Hp.
      assert (Hi : (i < length bps)%nat) by (apply nth_error_Some; congruence).
      specialize (EA i ltac:(apply in_seq; lia)). apply g18_check4_true in EA. destruct EA as (p' & d & c & H1 & H2 & H3 & H4 & H5).
      rewrite Hp in H1. injection H1 as <-. exists d, c. auto.
    + intros [_ ->]. reflexivity.
  - split; [discriminate|]. intros [H _]. exfalso. apply all_o_false in EA. destruct EA as (i & Hi & Fi). apply in_seq in Hi.
    destruct (nth_error bps i) as [p|] eqn:Ep; [|apply nth_error_None in Ep; lia]. destruct (H i p Ep) as (d & c & H1 & H2 & H3 & H4).
    rewrite (proj2 (g18_check4_true bps decs coms i)) in Fi; [discriminate|]. exists p, d, c. auto.
  - split; [discriminate|]. intros [H _]. exfalso.
    rewrite (proj2 (all_o_true _ _)) in EA; [discriminate|]. intros i Hi. apply in_seq in Hi.
    destruct (nth_error bps i) as [p|] eqn:Ep; [|apply nth_error_None in Ep; lia]. destruct (H i p Ep) as (d & c & H1 & H2 & H3 & H4).
    apply g18_check4_true. exists p, d, c. auto.
  - split; [discriminate|]. intros [H _]. exfalso.
    rewrite (proj2 (all_o_true _ _)) in EA; [discriminate|]. intros i Hi. apply in_seq in Hi.
    destruct (nth_error bps i) as [p|] eqn:Ep; [|apply nth_error_None in Ep; lia]. destruct (H i p Ep) as (d & c & H1 & H2 & H3 & H4).
    apply g18_check4_true. exists p, d, c. auto.
Qed.

(** phase5c *)
Lemma g18_check5c_true decs coms hegs rhos (R : pt C) i : g18_check5c Hb Hf decs coms hegs rhos R i = Ok true <->
  exists d c h p, nth_error decs i = Some d /\ nth_error coms i = Some c /\ nth_error hegs i = Some h /\ nth_error rhos i = Some p /\
    commit Hb (hash_pts Hb [a5_v d; a5_a d; a5_b d]) (a5_blind d) = c /\
    heg_verify Hf h (g18_heg_stmt R (a5_v d) (a5_a d) (a5_b d)) = true /\ dlog_verify Hf p = true.
Proof.
  unfold g18_check5c. split.
  - intros H. apply obind_ok in H. destruct H as (d & Hd & H). apply obind_ok in H. destruct H as (c & Hc & H).
    destruct (Z.eqb_spec (commit Hb (hash_pts Hb [a5_v d; a5_a d; a5_b d]) (a5_blind d)) c) as [E1|E1]; [|discriminate].
    apply obind_ok in H. destruct H as (h & Hh & H). destruct (heg_verify _ _ _) eqn:E2; [|discriminate].
    apply obind_ok in H. destruct H as (p & Hp & H). injection H as H. apply nth_o_ok in Hd, Hc, Hh, Hp. exists d, c, h, p. auto 10.
  - intros (d & c & h & p & H1 & H2 & H3 & H4 & H5 & H6 & H7).
    rewrite (proj2 (nth_o_ok _ _ _) H1). cbn [obind]. rewrite (proj2 (nth_o_ok _ _ _) H2). cbn [obind]. rewrite H5, Z.eqb_refl.
    rewrite (proj2 (nth_o_ok _ _ _) H3). cbn [obind]. rewrite H6. rewrite (proj2 (nth_o_ok _ _ _) H4). cbn [obind]. rewrite H7. reflexivity.
Qed.
(** What party s commits to in phase 5c, given the V_j and A_j of the others. *)
Definition u_of (s : local18 C) (x : Z) (vi : pt C) (vs : list (pt C)) : pt C :=
  smul (l18_rho s) (psub (psub (padd vi (psum vs)) (smul (of_Z q (l18_m s)) gen)) (smul (of_Z q x) (l18_y s))).
Definition t_of (s : local18 C) (az : list (pt C)) : pt C := smul (l18_l s) (psum az).
Lemma fold_left_padd0 (l : list (pt C)) : fold_left padd l pzero = psum l.
Proof. rewrite fold_left_padd. apply dlog_inj. autorewrite with dlog. ring. Qed.
Lemma g18_5c_ok (s : local18 C) decs coms hegs rhos vi R blind x y out :
  coords (l18_R s) = Some (x, y) ->
  (g18_5c Hb Hf s decs coms hegs rhos vi R blind = Ok out <->
   length decs = length coms /\
   (forall i d, nth_error decs i = Some d -> exists c h p, nth_error coms i = Some c /\ nth_error hegs i = Some h /\ nth_error rhos i = Some p /\
      commit Hb (hash_pts Hb [a5_v d; a5_a d; a5_b d]) (a5_blind d) = c /\
      heg_verify Hf h (g18_heg_stmt R (a5_v d) (a5_a d) (a5_b d)) = true /\ dlog_verify Hf p = true) /\
   let u := u_of s x vi (map a5_v decs) in let t := t_of s (map a5_a decs) in
   out = (commit Hb (hash_pts Hb [u; t]) blind, {| d5_u := u; d5_t := t; d5_blind := blind |})).
Proof.
  intros EC. unfold g18_5c. cbv zeta. destruct (Nat.eqb_spec (length decs) (length coms)) as [EL|EL]; cbn [oassert obind].
  2:{ split; [discriminate|intros [? _]; contradiction]. }
  rewrite !fold_left_padd0. unfold x_coord. rewrite EC. cbn [option_map fst ok_or obind]. rewrite of_Z_mod. fold (u_of s x vi (map a5_v decs)) (t_of s (map a5_a decs)).
  assert (K : all_o (g18_check5c Hb Hf decs coms hegs rhos R) (seq 0 (length coms)) = Ok true <->
    forall i d, nth_error decs i = Some d -> exists c h p, nth_error coms i = Some c /\ nth_error hegs i = Some h /\ nth_error rhos i = Some p /\
      commit Hb (hash_pts Hb [a5_v d; a5_a d; a5_b d]) (a5_blind d) = c /\
      heg_verify Hf h (g18_heg_stmt R (a5_v d) (a5_a d) (a5_b d)) = true /\ dlog_verify Hf p = true).
  { rewrite all_o_true. split.
    - intros H i d Hd. assert (Hi : (i < length decs)%nat) by (apply nth_error_Some; congruence).
      specialize (H i ltac:(apply in_seq; lia)). apply g18_check5c_true in H. destruct H as (d' & c & h & p & H1 & H2). rewrite Hd in H1. injection H1 as <-. exists c, h, p. exact H2.
    - intros H i Hi. apply in_seq in Hi. destruct (nth_error decs i) as [d|] eqn:Ed; [|apply nth_error_None in Ed; lia].
      destruct (H i d Ed) as (c & h & p & H1). apply g18_check5c_true. exists d, c, h, p. auto. }
  destruct (all_o _ _) as [[|]|e|]; cbn [obind].
  - split; [intros H; injection H as <-; split; [exact EL|]; split; [apply K; reflexivity|reflexivity]|intros (_ & _ & ->); reflexivity].
  - split; [discriminate|]. intros (_ & H & _). apply K in H. discriminate.
  - split; [discriminate|]. intros (_ & H & _). apply K in H. discriminate.
  - split; [discriminate|]. intros (_ & H & _). apply K in H. discriminate.
Qed.

(** phase5d *)
Definition opens5d (decs : list (dec5d C)) (coms : list Z) : Prop :=
  forall i d, nth_error decs i = Some d -> nth_error coms i = Some (commit Hb (hash_pts Hb [d5_u d; d5_t d]) (d5_blind d)).
Lemma check5d_all decs coms : length decs = length coms ->
  exists b, all_o (g18_check5d (C := C) Hb decs coms) (seq 0 (length coms)) = Ok b /\ (b = true <-> opens5d decs coms).
Proof.
  intros EL. destruct (all_o_no_panic (g18_check5d (C := C) Hb decs coms) (seq 0 (length coms))) as [b Eb].
  { intros i Hi. apply in_seq in Hi. unfold g18_check5d. destruct (nth_error decs i) as [d|] eqn:Ed; [|apply nth_error_None in Ed; lia].
    destruct (nth_error coms i) as [c|] eqn:Ec; [|apply nth_error_None in Ec; lia].
    rewrite (proj2 (nth_o_ok _ _ _) Ed). cbn [obind]. rewrite (proj2 (nth_o_ok _ _ _) Ec). cbn [obind]. eauto. }
  exists b. split; [exact Eb|]. split.
  - intros ->. rewrite all_o_true in Eb. intros i d Hd. assert (Hi : (i < length decs)%nat) by (apply nth_error_Some; congruence).
    specialize (Eb i ltac:(apply in_seq; lia)). unfold g18_check5d in Eb. rewrite (proj2 (nth_o_ok _ _ _) Hd) in Eb. cbn [obind] in Eb.
    apply obind_ok in Eb. destruct Eb as (c & Hc & Eb). apply nth_o_ok in Hc. injection Eb as Eb. apply Z.eqb_eq in Eb. rewrite Eb. exact Hc.
  - intros H. destruct b; [reflexivity|]. exfalso. apply all_o_false in Eb. destruct Eb as (i & Hi & Fi). apply in_seq in Hi.
    destruct (nth_error decs i) as [d|] eqn:Ed; [|apply nth_error_None in Ed; lia]. specialize (H i d Ed).
    unfold g18_check5d in Fi. rewrite (proj2 (nth_o_ok _ _ _) Ed) in Fi. cbn [obind] in Fi. rewrite (proj2 (nth_o_ok _ _ _) H) in Fi. cbn [obind] in Fi.
    rewrite Z.eqb_refl in Fi. discriminate.
Qed.
Lemma g18_5d_spec (s : local18 C) decs2 coms2 decs1 : length decs2 = length decs1 -> length decs2 = length coms2 ->
  (opens5d decs2 coms2 /\ padd (psum (map d5_t decs2)) (psum (map a5_b decs1)) = psum (map d5_u decs2) /\ g18_5d Hb s decs2 coms2 decs1 = Ok (l18_s s)) \/
  (opens5d decs2 coms2 /\ padd (psum (map d5_t decs2)) (psum (map a5_b decs1)) <> psum (map d5_u decs2) /\ g18_5d Hb s decs2 coms2 decs1 = Err InvalidKey) \/
  (~ opens5d decs2 coms2 /\ g18_5d Hb s decs2 coms2 decs1 = Err InvalidCom).
Proof.
  intros E1 E2. unfold g18_5d. rewrite (proj2 (Nat.eqb_eq _ _) E1), (proj2 (Nat.eqb_eq _ _) E2). cbn [oassert obind].
  destruct (check5d_all decs2 coms2 E2) as (b & -> & Hb'). cbn [obind]. rewrite !fold_left_padd0, psum_app.
  destruct b; [|right; right; split; [intros H; apply Hb' in H; discriminate|reflexivity]].
  assert (K : gen = psub (padd gen (padd (psum (map d5_t decs2)) (psum (map a5_b decs1)))) (psum (map d5_u decs2)) <->
              padd (psum (map d5_t decs2)) (psum (map a5_b decs1)) = psum (map d5_u decs2)).
  { rewrite !(dlog_eq_iff C). autorewrite with dlog. split; intros H.
    - set (u := fsum (map dlog (map d5_u decs2))) in *. transitivity (u - f1 + f1)%Fq; [|ring]. rewrite H at 2. ring.
    - rewrite H. ring. }
  destruct (pt_eqb_spec C gen (psub (padd gen (padd (psum (map d5_t decs2)) (psum (map a5_b decs1)))) (psum (map d5_u decs2)))) as [Eg|Eg].
  - left. split; [apply Hb'; reflexivity|]. split; [apply K; exact Eg|reflexivity].
  - right. left. split; [apply Hb'; reflexivity|]. split; [intros H; apply Eg, K, H|reflexivity].
Qed.

(** The sums of phase 5, with the own A_i left out of T_i. *)
Fixpoint sumf (f : nat -> F) (m : nat) : F := match m with O => f0 | S k => (sumf f k + f k)%Fq end.
Lemma sumf_seq f m : fsum (map f (seq 0 m)) = sumf f m.
Proof. induction m as [|m IH]; [reflexivity|]. rewrite seq_S, map_app, fsum_app, IH. cbn [plus map fsum sumf]. ring. Qed.
Lemma sumf_ext f g m : (forall i, (i < m)%nat -> f i = g i) -> sumf f m = sumf g m.
Proof. induction m as [|m IH]; intros H; [reflexivity|]. cbn [sumf]. rewrite IH by (intros; apply H; lia). rewrite (H m) by lia. reflexivity. Qed.
Lemma sumf_mul c f m : sumf (fun i => (c * f i)%Fq) m = (c * sumf f m)%Fq.
Proof. induction m as [|m IH]; cbn [sumf]; [ring|rewrite IH; ring]. Qed.
Lemma sumf_mulr c f m : sumf (fun i => (f i * c)%Fq) m = (sumf f m * c)%Fq.
Proof. induction m as [|m IH]; cbn [sumf]; [ring|rewrite IH; ring]. Qed.
Lemma sumf_add f g m : sumf (fun i => (f i + g i)%Fq) m = (sumf f m + sumf g m)%Fq.
Proof. induction m as [|m IH]; cbn [sumf]; [ring|rewrite IH; ring]. Qed.
Lemma sumf_sub f g m : sumf (fun i => (f i - g i)%Fq) m = (sumf f m - sumf g m)%Fq.
Proof. induction m as [|m IH]; cbn [sumf]; [ring|rewrite IH; ring]. Qed.
Lemma fsum_others0 (g : nat -> F) i m : (i < m)%nat -> (g i + fsum (map g (others i m)))%Fq = fsum (map g (seq 0 m)).
Proof.
  intros Hi. unfold others. replace m with (i + (1 + (m - S i)))%nat at 2 by lia. rewrite !seq_app, !map_app, !fsum_app. cbn [plus seq map fsum].
  replace (i + 1)%nat with (S i) by lia. ring.
Qed.
Lemma phase5_sums (m : nat) (s l rho : nat -> F) (R Q : pt C) (mz r : F) :
  let V p := padd (smul (s p) R) (smul (l p) gen) in
  let A p := smul (rho p) gen in
  let B p := smul (l p * rho p)%Fq gen in
  let T p := smul (l p) (psum (map A (others p m))) in
  let U p := smul (rho p) (psub (psub (padd (V p) (psum (map V (others p m)))) (smul mz gen)) (smul r Q)) in
  let D := psub (psub (smul (fsum (map s (seq 0 m))) R) (smul mz gen)) (smul r Q) in
  padd (psum (map T (seq 0 m))) (psum (map B (seq 0 m))) = psum (map U (seq 0 m)) <-> smul (fsum (map rho (seq 0 m))) D = pzero.
Proof.
  intros V A B T U D.
  assert (ET : dlog (psum (map T (seq 0 m))) = (sumf l m * sumf rho m - sumf (fun p => l p * rho p)%Fq m)%Fq).
  { rewrite dlog_psum, map_map, sumf_seq. transitivity (sumf (fun p => (l p * sumf rho m - l p * rho p)%Fq) m).
    - apply sumf_ext. intros p Hp. unfold T. rewrite dlog_smul, dlog_psum, map_map.
      pose proof (fsum_others0 rho p m Hp) as E. rewrite sumf_seq in E.
      replace (fsum (map (fun x => dlog (A x)) (others p m))) with (fsum (map rho (others p m)) : F).
      2:{ f_equal. apply map_ext. intros a. unfold A. autorewrite with dlog. ring. }
      rewrite <- E. ring.
    - rewrite sumf_sub, sumf_mulr. reflexivity. }
  assert (EB : dlog (psum (map B (seq 0 m))) = sumf (fun p => l p * rho p)%Fq m).
  { rewrite dlog_psum, map_map, sumf_seq. apply sumf_ext. intros p _. unfold B. autorewrite with dlog. ring. }
  assert (EU : dlog (psum (map U (seq 0 m))) = (sumf rho m * (sumf s m * dlog R + sumf l m - mz - r * dlog Q))%Fq).
  { rewrite dlog_psum, map_map, sumf_seq. rewrite <- (sumf_mulr _ rho m). apply sumf_ext. intros p Hp. unfold U. autorewrite with dlog.
    pose proof (fsum_others0 (fun p => dlog (V p)) p m Hp) as E. rewrite sumf_seq in E.
    assert (EV : sumf (fun p => dlog (V p)) m = (sumf s m * dlog R + sumf l m)%Fq).
    { rewrite <- sumf_mulr, <- sumf_add. apply sumf_ext. intros a _. unfold V. autorewrite with dlog. ring. }
    rewrite EV in E. rewrite map_map, E. f_equal. ring. }
  assert (ED : dlog (smul (fsum (map rho (seq 0 m))) D) = (sumf rho m * (sumf s m * dlog R - mz - r * dlog Q))%Fq).
  { unfold D. autorewrite with dlog. rewrite !sumf_seq. ring. }
  rewrite !(dlog_eq_iff C), dlog_add, ET, EB, EU, ED, dlog_zero. split; intros H.
  - transitivity ((sumf rho m * (sumf s m * dlog R + sumf l m - mz - r * dlog Q)) - sumf rho m * sumf l m)%Fq; [ring|]. rewrite <- H. ring.
  - transitivity (sumf rho m * sumf l m + f0)%Fq; [ring|]. rewrite <- H. ring.
Qed.
End P.

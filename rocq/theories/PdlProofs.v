(** Lemmas about the interactive PDL proof. *)
From Coq Require Import ZArith Znumtheory Lia Bool List Field.
From Verif Require Import ZArithX Fq Curve Outcome Sigma Bytes Paillier PaillierProofs MtaProofs Pdl.
Import ListNotations.
Local Open Scope Z_scope.

Section P.
Context (C : Curve).
Notation q := (cq C).
Notation F := (Fq q).
Add Field cfield : (C_field C).
Context (Hb : list Z -> Z).

Lemma finalize_iff m1 (d : pdl_decommit C) s :
  v_finalize Hb m1 d s = Ok tt <-> p1_c_hat m1 = commit_pt Hb (pc_q_hat d) (pc_blind d) /\ pc_q_hat d = pv_q_tag s.
Proof.
  unfold v_finalize. destruct (Z.eqb_spec (p1_c_hat m1) (commit_pt Hb (pc_q_hat d) (pc_blind d))) as [E|E].
  - cbn [andb]. destruct (pt_eqb _ _) eqn:E2.
    + apply (pt_eqb_eq C) in E2. tauto.
    + apply (pt_eqb_neq C) in E2. split; [discriminate|tauto].
  - split; [discriminate|tauto].
Qed.

Lemma p_message2_iff m1 m2 (w : pdl_wit C) s d :
  p_message2 Hb m1 m2 w s = Ok d <->
  d = pp_decommit s /\ pp_alpha s = v2_a m2 * to_Z (pw_x w) + v2_b m2 /\
  v1_c_tag_tag m1 = commit Hb (ab_concat (v2_a m2) (v2_b m2)) (v2_blind m2).
Proof.
  unfold p_message2. destruct (Z.eqb_spec (v2_a m2 * to_Z (pw_x w) + v2_b m2) (pp_alpha s)) as [E|E];
  cbn [andb].
  - destruct (Z.eqb_spec (v1_c_tag_tag m1) (commit Hb (ab_concat (v2_a m2) (v2_b m2)) (v2_blind m2))) as [E2|E2].
    + split; [intros K; apply ok_inj in K; auto|intros [-> _]; reflexivity].
    + split; [discriminate|tauto].
  - split; [discriminate|]. intros [_ [K _]]. congruence.
Qed.

Definition honest_pdl (w : pdl_wit C) (st : pdl_stmt C) : Prop :=
  good_key (pw_p1 w) (pw_p2 w) /\ pd_N st = pw_p1 w * pw_p2 w /\ Z.gcd (pw_r w) (pd_N st) = 1 /\
  pd_c st = enc (pd_N st) (to_Z (pw_x w)) (pw_r w) /\ pd_Q st = smul (pw_x w) (pd_G st).

Lemma pdl_alpha w st (a : F) b renc blind pblind rp : honest_pdl w st -> Z.gcd renc (pd_N st) = 1 ->
  let (m1, vs) := v_message1 Hb st a b renc blind in
  pp_alpha (snd (p_message1 Hb w st m1 pblind rp)) = (to_Z a * to_Z (pw_x w) + b) mod pd_N st.
Proof.
  intros [Hk [EN [Hr [Ec EQ]]]] Hre. cbn [v_message1 p_message1 snd pp_alpha v1_c_tag].
  rewrite Ec, EN, mta_dec; try (rewrite <- EN; assumption); try assumption;
    try (apply (to_Z_range (cq_prime C))).
  rewrite (Z.mul_comm (to_Z (pw_x w))). reflexivity.
Qed.

Lemma pdl_run w st (a : F) b renc blind pblind : honest_pdl w st -> Z.gcd renc (pd_N st) = 1 -> 0 <= b ->
  let v1 := v_message1 Hb st a b renc blind in
  let p1 := p_message1 Hb w st (fst v1) pblind true in
  let v2 := v_message2 (fst p1) (snd v1) in
  exists m2, snd v2 = Ok m2 /\
  (to_Z a * to_Z (pw_x w) + b < pd_N st ->
     exists d, p_message2 Hb (fst v1) m2 w (snd p1) = Ok d /\ v_finalize Hb (fst p1) d (fst v2) = Ok tt) /\
  (pd_N st <= to_Z a * to_Z (pw_x w) + b -> p_message2 Hb (fst v1) m2 w (snd p1) = Err PdlMessage2).
Proof.
  intros Hh Hre Hb0 v1 p1 v2. eexists. split; [reflexivity|].
  pose proof (pdl_alpha w st a b renc blind pblind true Hh Hre) as Ea.
  change (pp_alpha (snd p1) = (to_Z a * to_Z (pw_x w) + b) mod pd_N st) in Ea.
  destruct Hh as [Hk [EN [Hr [Ec EQ]]]]. pose proof (good_key_gt1 _ _ Hk) as HN. rewrite <- EN in HN.
  assert (Ha := proj1 (to_Z_range (cq_prime C) a)). assert (Hx := proj1 (to_Z_range (cq_prime C) (pw_x w))).
  assert (Hax := Z.mul_nonneg_nonneg _ _ Ha Hx).
  split; intros Hlt.
  - rewrite Z.mod_small in Ea by lia.
    exists (pp_decommit (snd p1)). split.
    + apply p_message2_iff. split; [reflexivity|]. split; [exact Ea|reflexivity].
    + apply finalize_iff. split; [reflexivity|].
      change (pc_q_hat (pp_decommit (snd p1))) with (smul (of_Z q (pp_alpha (snd p1))) (pd_G st)).
      rewrite Ea. change (pv_q_tag (fst v2)) with (padd (smul a (pd_Q st)) (smul (of_Z q b) (pd_G st))).
      rewrite EQ. apply (dlog_eq_iff C). autorewrite with dlog. rewrite of_Z_add, of_Z_mul, !of_Z_to_Z. ring.
  - assert (Hm : (to_Z a * to_Z (pw_x w) + b) mod pd_N st < pd_N st) by (apply Z.mod_pos_bound; lia).
    unfold p_message2. 
    match goal with |- (if (?x =? _) && _ then _ else _) = _ => change x with (to_Z a * to_Z (pw_x w) + b) end.
    destruct (Z.eqb_spec (to_Z a * to_Z (pw_x w) + b) (pp_alpha (snd p1))) as [E|E]; [|reflexivity].
    exfalso. lia.
Qed.
Lemma two_pairs (a a' b b' x : F) (Q G : pt C) :
  a <> a' -> (a * x + b = a' * x + b')%Fq ->
  padd (smul a Q) (smul b G) = padd (smul a' Q) (smul b' G) -> Q = smul x G.
Proof.
  intros N E P.
  apply (dlog_eq_iff C). apply (dlog_eq_iff C) in P. autorewrite with dlog in *.
  set (dq := dlog Q) in *. set (dg := dlog G) in *.
  assert (Nz : (a - a')%Fq <> f0) by (intros K; apply N; replace a with ((a - a') + a')%Fq by ring; rewrite K; ring).
  assert (B : b' = (a * x + b - a' * x)%Fq) by (rewrite E; ring). subst b'.
  assert (Z0 : ((a - a') * (dq - x * dg))%Fq = f0).
  { transitivity ((a * dq + b * dg) - (a' * dq + (a * x + b - a' * x) * dg))%Fq; [ring|]. rewrite P. ring. }
  apply (fmul_integral (cq_prime C)) in Z0. destruct Z0 as [Z0|Z0]; [contradiction|].
  replace dq with ((dq - x * dg) + x * dg)%Fq by ring. rewrite Z0. ring.
Qed.
End P.

(** Lemmas about the GG20 signing phases. *)
From Coq Require Import ZArith Lia Bool List Field.
From Verif Require Import ZArithX ZPow Fq Curve Outcome Sigma SigmaProofs Bytes Vss VssProofs Paillier PaillierProofs RangeProofs RangeProofsProofs
  PdlSlack PdlSlackProofs Mta MtaProofs Mp MpProofs Gg20Keygen KeygenRun Gg20Sign Ecdsa EcdsaProofs.
Import ListNotations.
Local Open Scope Z_scope.

Lemma first_bad_at_none {E A} (f : nat * A -> outcome E bool) l :
  first_bad_at f l = Ok None <-> Forall (fun x => f x = Ok true) l.
Proof.
  induction l as [|x l IH]; cbn [first_bad_at].
  - split; intros; [constructor|reflexivity].
  - destruct (f x) as [[|]| |] eqn:E1; cbn [obind]; split; intros H; try discriminate.
    + constructor; [assumption|]. apply IH; assumption.
    + inversion H; subst. apply IH; assumption.
    + inversion H; congruence.
    + inversion H; congruence.
    + inversion H; congruence.
Qed.
Lemma first_bad_at_some {E A} (f : nat * A -> outcome E bool) l k :
  first_bad_at f l = Ok (Some k) <->
  exists pre x post, l = pre ++ x :: post /\ Forall (fun y => f y = Ok true) pre /\ f x = Ok false /\ k = fst x.
Proof.
  induction l as [|x l IH]; cbn [first_bad_at].
  - split; [discriminate|]. intros (pre & x & post & H & _). destruct pre; discriminate.
  - destruct (f x) as [[|]| |] eqn:E1; cbn [obind].
    + rewrite IH. split.
      * intros (pre & y & post & -> & Hp & Hy & Hk). exists (x :: pre), y, post. repeat split; auto.
      * intros (pre & y & post & H & Hp & Hy & Hk). destruct pre as [|z pre]; cbn in H; injection H as -> ->; [congruence|].
        inversion Hp; subst. exists pre, y, post. auto.
    + split.
      * intros H. injection H as <-. exists [], x, l. repeat split; auto.
      * intros (pre & y & post & H & Hp & Hy & Hk). destruct pre as [|z pre]; cbn in H; injection H as -> ->; [congruence|].
        inversion Hp; congruence.
    + split; [discriminate|]. intros (pre & y & post & H & Hp & Hy & Hk). destruct pre as [|z pre]; cbn in H; injection H as -> ->; [congruence|].
      inversion Hp; congruence.
    + split; [discriminate|]. intros (pre & y & post & H & Hp & Hy & Hk). destruct pre as [|z pre]; cbn in H; injection H as -> ->; [congruence|].
      inversion Hp; congruence.
Qed.
Lemma with_ind_map {A} (f : nat -> A) i m : (i < m)%nat -> with_ind i (map f (others i m)) = map (fun j => (j, f j)) (others i m).
Proof.
  intros H. unfold with_ind. rewrite map_length, others_length, ind_map by exact H. rewrite <- (map_id (others i m)) at 1. apply combine_map2.
Qed.
Lemma nth_with_ind {A} i (l : list A) j : nth_error (with_ind i l) j = option_map (fun x => (ind i j, x)) (nth_error l j).
Proof.
  unfold with_ind. destruct (nth_error l j) as [x|] eqn:E; cbn [option_map].
  - apply nth_error_combine. split; [|exact E]. rewrite nth_error_map.
    rewrite (nth_error_nth' _ 0%nat) by (rewrite seq_length; apply nth_error_Some; congruence).
    rewrite seq_nth by (apply nth_error_Some; congruence). reflexivity.
  - apply nth_error_None. rewrite combine_length, map_length, seq_length. apply nth_error_None in E. lia.
Qed.
Lemma nth_error_l_s sl p x : nth_error sl p = Some x -> nth_error (l_s sl) p = Some (x - 1)%nat.
Proof. intros H. unfold l_s. rewrite nth_error_map, H. cbn. f_equal. lia. Qed.

Section P.
Context (C : Curve).
Notation q := (cq C).
Notation F := (Fq q).
Add Field cfield : (C_field C).

(** ** Sums over all pairs *)
Lemma fsum_others (h : nat -> F) i m : (i < m)%nat ->
  fsum (map h (others i m)) = fsum (map (fun j => if (j =? i)%nat then f0 else h j) (seq 0 m)).
Proof.
  intros H. unfold others. replace m with (i + (1 + (m - S i)))%nat at 2 by lia. rewrite !seq_app, !map_app, !fsum_app. cbn [plus seq map fsum].
  rewrite Nat.add_0_r || idtac. rewrite (map_ext_in h (fun j => if (j =? i)%nat then f0 else h j) (seq 0 i)).
  2:{ intros j Hj. apply in_seq in Hj. destruct (Nat.eqb_spec j i); [lia|reflexivity]. }
  rewrite Nat.eqb_refl. replace (i + 1)%nat with (S i) by lia.
  rewrite (map_ext_in h (fun j => if (j =? i)%nat then f0 else h j) (seq (S i) (m - S i))).
  2:{ intros j Hj. apply in_seq in Hj. destruct (Nat.eqb_spec j i); [lia|reflexivity]. }
  ring.
Qed.
Lemma fsum_split (h : nat -> F) i m : (i < m)%nat -> (h i + fsum (map h (others i m)))%Fq = fsum (map h (seq 0 m)).
Proof.
  intros H. unfold others. replace m with (i + (1 + (m - S i)))%nat at 2 by lia. rewrite !seq_app, !map_app, !fsum_app. cbn [plus seq map fsum].
  replace (i + 1)%nat with (S i) by lia. ring.
Qed.
Lemma fsum_ext_in {A} (f g : A -> F) l : (forall x, In x l -> f x = g x) -> fsum (map f l) = fsum (map g l).
Proof. intros H. rewrite (map_ext_in f g l H). reflexivity. Qed.

(** Additive sharing of every product k_p g_i between p and i adds up to (sum k)(sum g). *)
Lemma dsum (k g : nat -> F) (a b : nat -> nat -> F) m :
  (forall p i, (p < m)%nat -> (i < m)%nat -> p <> i -> (a p i + b i p)%Fq = (k p * g i)%Fq) ->
  fsum (map (fun p => (k p * g p + fsum (map (fun i => (a p i + b p i)%Fq) (others p m)))%Fq) (seq 0 m)) =
  (fsum (map k (seq 0 m)) * fsum (map g (seq 0 m)))%Fq.
Proof.
  intros H.
  transitivity (fsum (map (fun p => fsum (map (fun i => (k p * g i)%Fq) (seq 0 m))) (seq 0 m)) : F).
  2:{ rewrite (map_ext _ (fun p => (k p * fsum (map g (seq 0 m)))%Fq)) by (intros; apply fsum_map_mul_l). apply fsum_map_mul_r. }
  transitivity (fsum (map (fun p => (k p * g p +
      (fsum (map (fun i => if (i =? p)%nat then f0 else a p i) (seq 0 m)) + fsum (map (fun i => if (i =? p)%nat then f0 else b i p) (seq 0 m))))%Fq) (seq 0 m)) : F).
  { rewrite fsum_map_add, fsum_map_add, fsum_map_add. f_equal. 
    transitivity (fsum (map (fun p => (fsum (map (fun i => if (i =? p)%nat then f0 else a p i) (seq 0 m)) +
       fsum (map (fun i => if (i =? p)%nat then f0 else b p i) (seq 0 m)))%Fq) (seq 0 m)) : F).
    - apply fsum_ext_in. intros p Hp. apply in_seq in Hp. rewrite fsum_map_add, !fsum_others by lia. reflexivity.
    - rewrite fsum_map_add. f_equal. rewrite fsum_swap. apply fsum_ext_in. intros i Hi. apply fsum_ext_in. intros p Hp.
      rewrite Nat.eqb_sym. reflexivity. }
  apply fsum_ext_in. intros p Hp. apply in_seq in Hp.
  transitivity (fsum (map (fun i => ((if (i =? p)%nat then k p * g p else f0) + (if (i =? p)%nat then f0 else k p * g i))%Fq) (seq 0 m)) : F).
  - rewrite fsum_map_add. f_equal; [|rewrite <- fsum_map_add].
    + symmetry. transitivity (k p * g p + f0)%Fq; [|ring].
      replace m with (p + (1 + (m - S p)))%nat by lia. rewrite !seq_app, !map_app, !fsum_app. cbn [plus seq map fsum]. rewrite Nat.eqb_refl.
      rewrite (fsum_ext_in _ (fun _ => f0) (seq 0 p)).
      2:{ intros j Hj. apply in_seq in Hj. destruct (Nat.eqb_spec j p); [lia|reflexivity]. }
      rewrite (fsum_ext_in _ (fun _ => f0) (seq (p + 1) (m - S p))).
      2:{ intros j Hj. apply in_seq in Hj. destruct (Nat.eqb_spec j p); [lia|reflexivity]. }
      rewrite !fsum_map_0. ring.
    + apply fsum_ext_in. intros i Hi. apply in_seq in Hi. destruct (Nat.eqb_spec i p); [ring|]. apply H; lia.
  - apply fsum_ext_in. intros i Hi. destruct (Nat.eqb_spec i p); [subst; ring|ring].
Qed.

Lemma smul_smul (a b : F) (P : pt C) : smul a (smul b P) = smul (a * b)%Fq P.
Proof. apply dlog_inj. autorewrite with dlog. ring. Qed.
Lemma smul_1 (P : pt C) : smul f1 P = P.
Proof. apply dlog_inj. autorewrite with dlog. ring. Qed.
Lemma fmul_finv (a : F) : a <> f0 -> (a * finv a)%Fq = f1.
Proof. intros H. field. exact H. Qed.
Lemma fmul_cancel (a b : F) : a <> f0 -> (a * b * finv a)%Fq = b.
Proof. intros H. field. exact H. Qed.
Lemma psum_smul_R {A} (f : A -> F) (R : pt C) l : psum (map (fun x => smul (f x) R) l) = smul (fsum (map f l)) R.
Proof.
  apply dlog_inj. rewrite dlog_psum, map_map, dlog_smul.
  rewrite (map_ext _ (fun x => (f x * dlog R)%Fq)) by (intros; apply dlog_smul). apply fsum_map_mul_r.
Qed.

Lemma check_R_ok (Rs : list (pt C)) : sg_check_R Rs = Ok tt <-> psum Rs = gen.
Proof.
  unfold sg_check_R. rewrite fold_left_padd.
  destruct (pt_eqb_spec C (psub (padd gen (psum Rs)) gen) gen) as [E|E]; split; intros H; try reflexivity; try discriminate.
  - apply dlog_inj. apply (dlog_eq_iff C) in E. rewrite dlog_psub, dlog_add in E.
    transitivity (dlog gen + dlog (psum Rs) - dlog gen)%Fq; [ring|]. exact E.
  - exfalso. apply E. apply dlog_inj. rewrite dlog_psub, dlog_add, H. ring.
Qed.
Lemma check_S_ok y (Ss : list (pt C)) : sg_check_S y Ss = Ok tt <-> psum Ss = y.
Proof.
  unfold sg_check_S. rewrite fold_left_padd.
  assert (E0 : psub (padd gen (psum Ss)) gen = psum Ss) by (apply dlog_inj; rewrite dlog_psub, dlog_add; ring).
  rewrite E0. destruct (pt_eqb_spec C (psum Ss) y); split; congruence.
Qed.

(** ** MtA in the GG20 rounds *)
Section Mta.
Context (Hz : hashZ C) (Hf : hashF C).
Definition honest_mb (b : F) (N c : Z) (k : brand C) : msg_b C :=
  {| mb_c := padd_c N (pmul_c N c (to_Z b)) (enc N (br_bt k) (br_r k)); mb_b := dlog_prove Hf b (br_t1 k);
     mb_bt := dlog_prove Hf (of_Z q (br_bt k)) (br_t2 k) |}.
Lemma sg_b_honest (b a : F) p1 p2 rA sts (k : brand C) :
  good_key p1 p2 -> Z.gcd rA (p1 * p2) = 1 -> (forall l, 0 <= Hz l) ->
  (forall st k, In (st, k) sts -> good_st st /\ arand_ok k) ->
  Forall (fun p => ap_s1 p <= q ^ 3) (ma_proofs (mta_a Hz a (p1 * p2) rA sts)) ->
  sg_b Hz Hf b (p1 * p2) (mta_a Hz a (p1 * p2) rA sts) k (map fst sts) =
  Ok (honest_mb b (p1 * p2) (enc (p1 * p2) (to_Z a) rA) k, (f0 - of_Z q (br_bt k))%Fq).
Proof.
  intros Hk Hr HH Hs HF.
  destruct (mta_answers C Hz Hf p1 p2 a b rA sts (br_r k) (br_bt k) (br_t1 k) (br_t2 k) Hk Hr HH Hs) as [[_ A] _].
  destruct (A HF) as (m & beta & E). unfold sg_b. rewrite E. cbn [omap_err].
  apply mta_b_ok in E. destruct E as (_ & _ & E1 & E2 & E3 & E4). destruct m as [mc mb mbt]. cbn in E1, E2, E3. subst. reflexivity.
Qed.
Lemma sg_alpha_honest (b a : F) p1 p2 rA (k : brand C) (lk : local_key C) :
  good_key p1 p2 -> lk_p1 lk = p1 -> lk_p2 lk = p2 -> Z.gcd rA (p1 * p2) = 1 -> Z.gcd (br_r k) (p1 * p2) = 1 ->
  0 <= br_bt k -> to_Z a * to_Z b + br_bt k < p1 * p2 ->
  sg_alpha Hf (honest_mb b (p1 * p2) (enc (p1 * p2) (to_Z a) rA) k) lk a = Ok (of_Z q (to_Z a * to_Z b + br_bt k)).
Proof.
  intros Hk E1 E2 Hr Hr' Hbt Hw. unfold sg_alpha. rewrite E1, E2.
  assert (V : verify_get_alpha Hf (honest_mb b (p1 * p2) (enc (p1 * p2) (to_Z a) rA) k) p1 p2 a =
     Ok (of_Z q (to_Z a * to_Z b + br_bt k), to_Z a * to_Z b + br_bt k)).
  { apply verify_alpha_ok. cbn [honest_mb mb_c mb_b mb_bt].
    pose proof (to_Z_range (cq_prime C) a) as Ra. pose proof (to_Z_range (cq_prime C) b) as Rb.
    rewrite mta_dec; try assumption; try lia.
    assert (Hm : (to_Z a * to_Z b + br_bt k) mod (p1 * p2) = to_Z a * to_Z b + br_bt k).
    { apply Z.mod_small. clear - Ra Rb Hbt Hw. nia. }
    rewrite Hm. split; [reflexivity|]. split; [reflexivity|]. split; [apply dlog_complete|]. split; [apply dlog_complete|].
    cbn [dlog_prove dp_pk]. apply (dlog_eq_iff C). autorewrite with dlog. rewrite of_Z_add, of_Z_mul, !of_Z_to_Z. ring. }
  rewrite V. reflexivity.
Qed.
End Mta.

Lemma sg_pdl_honest (Hz : hashZ C) (R : pt C) (k : F) N r dl (p : prand) :
  1 < N -> good_st dl -> (forall l, 0 <= Hz l) -> 0 <= pr_alpha p -> 0 <= pr_beta p -> 0 <= pr_rho p -> 0 <= pr_gamma p -> Z.gcd r N = 1 ->
  let st := sg_pdl_stmt (smul k R) R (enc N (to_Z k) r) N dl in
  exists pf, pdls_prove Hz k r st (pr_alpha p) (pr_beta p) (pr_rho p) (pr_gamma p) = Ok pf /\ pdls_verify Hz pf st = Ok tt.
Proof.
  intros HN (D1 & D2 & D3) HH Ha Hb0 Hr Hg Gr st.
  assert (Hst : good_pst C st) by (unfold st, good_pst, sg_pdl_stmt; cbn; auto).
  destruct (pdls_prove_ok C Hz k r st (pr_alpha p) (pr_beta p) (pr_rho p) (pr_gamma p) Hst HH Ha Hb0 Hr Hg) as [pf E].
  exists pf. split; [assumption|]. apply (pdls_complete C Hz k r st _ _ _ _ pf Hst HH Ha Hb0 Hr Hg Gr); try assumption; reflexivity.
Qed.

(** ** Phase 4 *)
(** Party [i]'s opening agrees with its MtA proof and its commitment. *)
Definition opens (Hb : list Z -> Z) (decs : list (sign_dec C)) (coms : list Z) (i : nat) (p : dlog_proof C) : Prop :=
  exists d c, nth_error decs i = Some d /\ nth_error coms i = Some c /\ dp_pk p = sd_g d /\ commit_pt Hb (sd_g d) (sd_blind d) = c.
Lemma check4_true Hb (decs : list (sign_dec C)) coms i p : sg_check4 Hb decs coms (i, p) = Ok true <-> opens Hb decs coms i p.
Proof.
  unfold sg_check4, opens. split.
  - intros H. apply obind_ok in H. destruct H as (d & Hd & H). apply nth_o_ok in Hd.
    destruct (pt_eqb_spec C (dp_pk p) (sd_g d)) as [E|E]; [|discriminate].
    apply obind_ok in H. destruct H as (c & Hc & H). apply nth_o_ok in Hc. injection H as H. apply Z.eqb_eq in H. eauto 10.
  - intros (d & c & Hd & Hc & E1 & E2). rewrite (proj2 (nth_o_ok _ _ _) Hd). cbn [obind]. rewrite E1, pt_eqb_refl.
    rewrite (proj2 (nth_o_ok _ _ _) Hc). cbn [obind]. rewrite E2, Z.eqb_refl. reflexivity.
Qed.
Lemma check4_false Hb (decs : list (sign_dec C)) coms i p : sg_check4 Hb decs coms (i, p) = Ok false ->
  exists d, nth_error decs i = Some d /\ (dp_pk p <> sd_g d \/ exists c, nth_error coms i = Some c /\ commit_pt Hb (sd_g d) (sd_blind d) <> c).
Proof.
  unfold sg_check4. intros H. apply obind_ok in H. destruct H as (d & Hd & H). apply nth_o_ok in Hd. exists d. split; [assumption|].
  destruct (pt_eqb_spec C (dp_pk p) (sd_g d)) as [E|E]; [|left; assumption].
  apply obind_ok in H. destruct H as (c & Hc & H). apply nth_o_ok in Hc. injection H as H. apply Z.eqb_neq in H. right. eauto.
Qed.
Lemma fold_left_dec (tl : list (sign_dec C)) a : fold_left (fun acc d => padd acc (sd_g d)) tl a = padd a (psum (map sd_g tl)).
Proof. rewrite <- fold_left_padd. revert a. induction tl as [|d tl IH]; intros a; [reflexivity|]. cbn [fold_left map]. apply IH. Qed.
Lemma phase4_ok Hb dinv ps (decs : list (sign_dec C)) coms i R : sg_phase4 Hb dinv ps decs coms i = Ok R <->
  decs <> [] /\ (forall j p, nth_error ps j = Some p -> opens Hb decs coms (ind i j) p) /\ R = smul dinv (psum (map sd_g decs)).
Proof.
  unfold sg_phase4. split.
  - intros H. apply obind_ok in H. destruct H as ([k|] & HB & H); destruct decs as [|h tl]; try discriminate.
    split; [discriminate|]. apply ok_inj in H. subst R. split; [|rewrite fold_left_dec; reflexivity].
    intros j p Hp. apply first_bad_at_none in HB. rewrite Forall_forall in HB. apply check4_true, HB.
    apply (nth_error_In _ j). rewrite nth_with_ind, Hp. reflexivity.
  - intros (Hne & Ho & ->). rewrite (proj2 (first_bad_at_none _ _)).
    + cbn [obind]. destruct decs as [|h tl]; [contradiction|]. rewrite fold_left_dec. reflexivity.
    + apply Forall_forall. intros x Hx. apply In_nth_error in Hx. destruct Hx as (j & Hj). rewrite nth_with_ind in Hj.
      destruct (nth_error ps j) as [p|] eqn:Ep; [|discriminate]. cbn in Hj. injection Hj as <-. apply check4_true, Ho. assumption.
Qed.
Lemma phase4_err Hb dinv ps (decs : list (sign_dec C)) coms i e : sg_phase4 Hb dinv ps decs coms i = Err e ->
  exists j p d, e = {| me_kind := EBadGamma; me_bad := [ind i j] |} /\ nth_error ps j = Some p /\ nth_error decs (ind i j) = Some d /\
    (dp_pk p <> sd_g d \/ exists c, nth_error coms (ind i j) = Some c /\ commit_pt Hb (sd_g d) (sd_blind d) <> c) /\
    forall j' p', (j' < j)%nat -> nth_error ps j' = Some p' -> opens Hb decs coms (ind i j') p'.
Proof.
  unfold sg_phase4. intros H. destruct (first_bad_at (sg_check4 Hb decs coms) (with_ind i ps)) as [o|e'|] eqn:EB; cbn [obind] in H; [| |discriminate].
  - destruct decs as [|h tl]; [discriminate|]. destruct o as [k|]; [|discriminate]. injection H as <-.
    apply first_bad_at_some in EB. destruct EB as (pre & x & post & HW & HP & HX & ->).
    assert (Hx : nth_error (with_ind i ps) (length pre) = Some x) by (rewrite HW, nth_error_app2, Nat.sub_diag by lia; reflexivity).
    rewrite nth_with_ind in Hx. destruct (nth_error ps (length pre)) as [p|] eqn:Ep; [|discriminate]. cbn in Hx. injection Hx as <-.
    apply check4_false in HX. destruct HX as (d & Hd & Hc). exists (length pre), p, d. cbn [fst]. repeat (split; [assumption || reflexivity|]).
    intros j' p' Hj' Hp'. apply check4_true. rewrite Forall_forall in HP. apply HP. apply (nth_error_In _ j').
    rewrite <- (nth_error_app1 pre ((ind i (length pre), p) :: post)) by assumption. rewrite <- HW, nth_with_ind, Hp'. reflexivity.
  - exfalso. clear H. revert EB. generalize (with_ind i ps). intros l. induction l as [|[a b] l IH]; [discriminate|]. cbn [first_bad_at].
    unfold sg_check4 at 1. unfold nth_o. destruct (nth_error decs a) as [d|]; cbn [obind]; [|discriminate].
    destruct (pt_eqb (dp_pk b) (sd_g d)); cbn [obind]; [|discriminate]. destruct (nth_error coms a); cbn [obind]; [|discriminate].
    destruct (_ =? _); [apply IH|discriminate].
Qed.

(** ** Phase 6 *)
Lemma bad6_spec (Hf : hashF C) Ss Rs Ts : forall ps i bad, sg_bad6 Hf Ss Rs Ts i ps = Ok bad ->
  forall k, In k bad <-> exists j p R T Si, k = (i + j)%nat /\ nth_error ps j = Some p /\ nth_error Rs k = Some R /\ nth_error Ts k = Some T /\
    nth_error Ss k = Some Si /\ heg_verify Hf p (sg_heg_stmt R T Si) = false.
Proof.
  induction ps as [|p ps IH]; intros i bad H k; cbn [sg_bad6] in H.
  - injection H as <-. split; [intros []|]. intros ([|j] & ? & ? & ? & ? & _ & Hp & _); discriminate.
  - apply obind_ok in H. destruct H as (R & HR & H). apply obind_ok in H. destruct H as (T & HT & H). apply obind_ok in H. destruct H as (Si & HS & H).
    apply obind_ok in H. destruct H as (l & Hl & H). apply ok_inj in H. apply nth_o_ok in HR, HT, HS. specialize (IH _ _ Hl).
    assert (K : (exists j p0 R T Si, k = (i + j)%nat /\ nth_error (p :: ps) j = Some p0 /\ nth_error Rs k = Some R /\ nth_error Ts k = Some T /\
       nth_error Ss k = Some Si /\ heg_verify Hf p0 (sg_heg_stmt R T Si) = false) <-> (k = i /\ heg_verify Hf p (sg_heg_stmt R T Si) = false) \/ In k l).
    { rewrite IH. split.
      - intros ([|j] & p0 & R' & T' & S' & -> & Hp & H1 & H2 & H3 & H4).
        + cbn in Hp. injection Hp as ->. rewrite Nat.add_0_r in *. left. split; [reflexivity|]. congruence.
        + right. exists j, p0, R', T', S'. split; [lia|]. repeat (split; [assumption|]). assumption.
      - intros [[-> Hv]|(j & p0 & R' & T' & S' & -> & Hp & H1 & H2 & H3 & H4)].
        + exists 0%nat, p, R, T, Si. rewrite Nat.add_0_r. repeat (split; [assumption || reflexivity|]). assumption.
        + exists (S j), p0, R', T', S'. split; [lia|]. repeat (split; [assumption|]). assumption. }
    rewrite K. subst bad. destruct (heg_verify Hf p (sg_heg_stmt R T Si)) eqn:EV.
    + split; [tauto|]. intros [[_ ?]|?]; [discriminate|assumption].
    + cbn [In]. split; [intros [<-|?]; auto|intros [[-> _]|?]; auto].
Qed.
Lemma bad6_nil (Hf : hashF C) Ss Rs Ts : forall ps i, (forall j p, nth_error ps j = Some p -> exists R T Si, nth_error Rs (i + j) = Some R /\ nth_error Ts (i + j) = Some T /\
    nth_error Ss (i + j) = Some Si /\ heg_verify Hf p (sg_heg_stmt R T Si) = true) -> sg_bad6 Hf Ss Rs Ts i ps = Ok [].
Proof.
  induction ps as [|p ps IH]; intros i H; [reflexivity|]. cbn [sg_bad6].
  destruct (H 0%nat p eq_refl) as (R & T & Si & H1 & H2 & H3 & H4). rewrite Nat.add_0_r in *.
  rewrite (proj2 (nth_o_ok _ _ _) H1), (proj2 (nth_o_ok _ _ _) H2), (proj2 (nth_o_ok _ _ _) H3). cbn [obind].
  rewrite IH; [cbn [obind]; rewrite H4; reflexivity|]. intros j p' Hp'. specialize (H (S j) p' Hp'). replace (i + 1 + j)%nat with (i + S j)%nat by lia. exact H.
Qed.
End P.
Arguments opens {_}. Arguments honest_mb {_}.

(** ** Further facts used by the property file *)
Section Q.
Context (C : Curve).
Notation q := (cq C).
Notation F := (Fq q).
Add Field cfield2 : (C_field C).

(** Consistent shares that pass both sum checks satisfy the signing equation. *)
Lemma sums_sign (ks ss : list F) (R y : pt C) (m r : F) : length ks = length ss ->
  psum (map (fun k => smul k R) ks) = gen -> psum (map (fun s => smul s R) ss) = y ->
  smul (fsum (map (fun '(k, s) => (m * k + r * s)%Fq) (combine ks ss))) R = padd (smul m gen) (smul r y).
Proof.
  intros HL H1 H2. rewrite (psum_smul_R C (fun k => k) R), map_id in H1. rewrite (psum_smul_R C (fun k => k) R), map_id in H2. subst y. rewrite <- H1.
  assert (E : fsum (map (fun '(k, s) => (m * k + r * s)%Fq) (combine ks ss)) = (m * fsum ks + r * fsum ss)%Fq).
  { clear - HL. revert ss HL. induction ks as [|k ks IH]; intros [|s ss] HL; cbn in HL; try discriminate; cbn [combine map fsum]; [ring|].
    rewrite IH by lia. ring. }
  rewrite E. apply dlog_inj. autorewrite with dlog. ring.
Qed.

(** ** phase5_verify_pdl *)
Lemma first_bad_at_err {E A} (f : nat * A -> outcome E bool) l e : first_bad_at f l = Err e -> exists x, In x l /\ f x = Err e.
Proof.
  induction l as [|x l IH]; cbn [first_bad_at]; [discriminate|]. destruct (f x) as [[|]|e'|] eqn:E1; cbn [obind]; intros H; try discriminate.
  - apply IH in H. destruct H as (y & Hy & Hf). exists y. split; [right; exact Hy|exact Hf].
  - injection H as ->. exists x. split; [left; reflexivity|exact E1].
Qed.
Lemma check5_not_err (Hz : hashZ C) R' R c N dls s x e : sg_check5 Hz R' R c N dls s x <> Err e.
Proof.
  destruct x as [i p]. unfold sg_check5, nth_o. destruct (nth_error s i); cbn [obind]; [|discriminate]. destruct (nth_error dls n); cbn [obind]; [|discriminate].
  destruct (pdls_verify _ _ _); discriminate.
Qed.
Lemma phase5_verify_err (Hz : hashZ C) ps R' R c N dls s i e : sg_phase5_verify Hz ps R' R c N dls s i = Err e ->
  e = {| me_kind := EBadPdl; me_bad := [i] |} /\
  (length ps <> (length s - 1)%nat \/
   exists j p si dl e', nth_error ps j = Some p /\ nth_error s (ind i j) = Some si /\ nth_error dls si = Some dl /\
     pdls_verify Hz p (sg_pdl_stmt R' R c N dl) = Err e').
Proof.
  unfold sg_phase5_verify. destruct (0 <? length s)%nat; cbn [oassert obind]; [|discriminate].
  destruct (Nat.eqb_spec (length ps) (length s - 1)) as [EL|EL]; cbn [negb].
  2:{ intros H. injection H as <-. auto. }
  destruct (first_bad_at _ _) as [[k|]|e'|] eqn:EB; cbn [obind]; intros H; try discriminate.
  - injection H as <-. split; [reflexivity|]. right. apply first_bad_at_some in EB. destruct EB as (pre & x & post & HW & _ & HX & _).
    assert (Hx : nth_error (with_ind i ps) (length pre) = Some x) by (rewrite HW, nth_error_app2, Nat.sub_diag by lia; reflexivity).
    rewrite nth_with_ind in Hx. destruct (nth_error ps (length pre)) as [p|] eqn:Ep; [|discriminate]. cbn in Hx. injection Hx as <-.
    unfold sg_check5 in HX. apply obind_ok in HX. destruct HX as (si & Hsi & HX). apply obind_ok in HX. destruct HX as (dl & Hdl & HX).
    apply nth_o_ok in Hsi, Hdl. destruct (pdls_verify _ _ _) as [|e'|] eqn:EV; try discriminate. eauto 10.
  - exfalso. apply first_bad_at_err in EB. destruct EB as (x & _ & HX). apply check5_not_err in HX. exact HX.
Qed.
Lemma phase5_verify_ok (Hz : hashZ C) ps R' R c N dls s i : sg_phase5_verify Hz ps R' R c N dls s i = Ok tt <->
  s <> [] /\ length ps = (length s - 1)%nat /\
  forall j p, nth_error ps j = Some p -> exists si dl, nth_error s (ind i j) = Some si /\ nth_error dls si = Some dl /\
     pdls_verify Hz p (sg_pdl_stmt R' R c N dl) = Ok tt.
Proof.
  unfold sg_phase5_verify. destruct s as [|s0 s]; [split; [discriminate|intros [[] _]; reflexivity]|]. set (s' := s0 :: s).
  change (0 <? length s')%nat with true. cbn [oassert obind].
  destruct (Nat.eqb_spec (length ps) (length s' - 1)) as [EL|EL]; cbn [negb]; [|split; [discriminate|intros (_ & ? & _); contradiction]].
  split.
  - intros H. split; [discriminate|]. split; [exact EL|]. intros j p Hp. destruct (first_bad_at _ _) as [[k|]|e'|] eqn:EB; cbn [obind] in H; try discriminate.
    apply first_bad_at_none in EB. rewrite Forall_forall in EB.
    specialize (EB (ind i j, p)). unfold sg_check5 in EB.
    assert (Hin : In (ind i j, p) (with_ind i ps)) by (apply (nth_error_In _ j); rewrite nth_with_ind, Hp; reflexivity).
    specialize (EB Hin). apply obind_ok in EB. destruct EB as (si & Hsi & HX). apply obind_ok in HX. destruct HX as (dl & Hdl & HX).
    apply nth_o_ok in Hsi, Hdl. exists si, dl. destruct (pdls_verify _ _ _) as [[]|e'|] eqn:EV; try discriminate. auto.
  - intros (_ & _ & H). rewrite (proj2 (first_bad_at_none _ _)); [reflexivity|]. apply Forall_forall. intros x Hx.
    apply In_nth_error in Hx. destruct Hx as (j & Hj). rewrite nth_with_ind in Hj. destruct (nth_error ps j) as [p|] eqn:Ep; [|discriminate].
    cbn in Hj. injection Hj as <-. destruct (H j p Ep) as (si & dl & H1 & H2 & H3). unfold sg_check5.
    rewrite (proj2 (nth_o_ok _ _ _) H1). cbn [obind]. rewrite (proj2 (nth_o_ok _ _ _) H2). cbn [obind]. rewrite H3. reflexivity.
Qed.

(** ** phase6_verify_proof *)
Lemma bad6_not_err (Hf : hashF C) Ss Rs Ts : forall ps i e, sg_bad6 Hf Ss Rs Ts i ps <> Err e.
Proof.
  induction ps as [|p ps IH]; intros i e; cbn [sg_bad6]; [discriminate|]. unfold nth_o.
  destruct (nth_error Rs i); cbn [obind]; [|discriminate]. destruct (nth_error Ts i); cbn [obind]; [|discriminate].
  destruct (nth_error Ss i); cbn [obind]; [|discriminate]. specialize (IH (i + 1)%nat). destruct (sg_bad6 _ _ _ _ _ _); cbn [obind]; try discriminate.
  intros H. injection H as ->. apply (IH e). reflexivity.
Qed.
Lemma phase6_verify_err (Hf : hashF C) Ss ps Rs Ts e : sg_phase6_verify Hf Ss ps Rs Ts = Err e ->
  me_kind e = EPhase6 /\ me_bad e <> [] /\
  forall k, In k (me_bad e) <-> exists p R T Si, nth_error ps k = Some p /\ nth_error Rs k = Some R /\ nth_error Ts k = Some T /\
    nth_error Ss k = Some Si /\ heg_verify Hf p (sg_heg_stmt R T Si) = false.
Proof.
  unfold sg_phase6_verify. destruct (sg_bad6 Hf Ss Rs Ts 0 ps) as [bad|e'|] eqn:EB; cbn [obind]; intros H; try discriminate.
  - assert (He : e = {| me_kind := EPhase6; me_bad := bad |} /\ bad <> []) by (destruct bad; [discriminate|]; injection H as <-; split; [reflexivity|discriminate]).
    destruct He as [-> Hne]. cbn [me_kind me_bad]. split; [reflexivity|]. split; [exact Hne|]. intros k. rewrite (bad6_spec C Hf Ss Rs Ts ps 0 bad EB k). split.
    + intros (j & p & R & T & Si & -> & H1 & H2 & H3 & H4 & H5). exists p, R, T, Si. auto 10.
    + intros (p & R & T & Si & H1 & H2 & H3 & H4 & H5). exists k, p, R, T, Si. auto 10.
  - exfalso. injection H as ->. apply bad6_not_err in EB. exact EB.
Qed.
Lemma bad6_total (Hf : hashF C) Ss Rs Ts : forall ps i,
  (i + length ps <= length Ss)%nat -> (i + length ps <= length Rs)%nat -> (i + length ps <= length Ts)%nat -> exists bad, sg_bad6 Hf Ss Rs Ts i ps = Ok bad.
Proof.
  induction ps as [|p ps IH]; intros i H1 H2 H3; cbn [sg_bad6]; [eauto|]. cbn [length] in *. unfold nth_o.
  destruct (nth_error Rs i) eqn:E1; cbn [obind]; [|apply nth_error_None in E1; lia].
  destruct (nth_error Ts i) eqn:E2; cbn [obind]; [|apply nth_error_None in E2; lia].
  destruct (nth_error Ss i) eqn:E3; cbn [obind]; [|apply nth_error_None in E3; lia].
  destruct (IH (i + 1)%nat ltac:(lia) ltac:(lia) ltac:(lia)) as [l ->]. cbn [obind]. eauto.
Qed.

(** ** A total satisfying the signing equation gives a valid signature *)
Lemma total_valid (R Y : pt C) (msg x y : Z) (s : F) : coords R = Some (x, y) -> s <> f0 ->
  smul s R = padd (smul (of_Z q msg) gen) (smul (of_Z q x) Y) ->
  let s' := to_Z (fst (normalize s y)) in
  ecdsa_eqn Y msg (x mod q) s' /\ (x mod q <> 0 -> ecdsa_valid Y msg (x mod q) s') /\ s' <= (q - 1) / 2.
Proof.
  intros HR Hs HE s'. set (l := {| ls_r := of_Z q x; ls_R := R; ls_s := s; ls_m := msg; ls_y := Y |}).
  assert (ET : sig_total l [] = s) by (unfold sig_total; cbn; ring).
  assert (HO := gg20_output_complete C l [] x y HR ltac:(rewrite ET; exact Hs) ltac:(rewrite ET; exact HE)).
  rewrite ET in HO. apply gg20_output_sound in HO. cbn [sg_r sg_s ls_y ls_m l] in HO. destruct HO as (_ & H1 & H2 & H3).
  rewrite to_Z_of_Z in H1, H2. split; [exact H1|]. split; [|exact H3]. intros Hx. apply H2. intros E. apply Hx.
  apply (f_equal to_Z) in E. rewrite to_Z_of_Z, to_Z_0 in E. exact E.
Qed.
Lemma coords_some (R : pt C) : R <> pzero -> exists x y, coords R = Some (x, y).
Proof.
  intros H. destruct (coords R) as [[x y]|] eqn:E; [eauto|]. exfalso. apply H. apply x_coord_none. unfold x_coord. rewrite E. reflexivity.
Qed.
Lemma smul_nz (a : F) (R : pt C) : smul a R = gen -> R <> pzero.
Proof. intros H E. subst R. apply (gen_nz C). rewrite <- H. apply dlog_inj. autorewrite with dlog. ring. Qed.
(** An honest PDL proof made for R1, checked by a party that computed R2. *)
Lemma pdl_other_view (Hz : hashZ C) (R1 R2 : pt C) (k : F) N r dl (pr : prand) p :
  1 < N -> good_st dl -> (forall l, 0 <= Hz l) -> 0 <= pr_alpha pr -> 0 <= pr_beta pr -> 0 <= pr_rho pr -> 0 <= pr_gamma pr -> Z.gcd r N = 1 ->
  let st R := sg_pdl_stmt (smul k R1) R (enc N (to_Z k) r) N dl in
  pdls_prove Hz k r (st R1) (pr_alpha pr) (pr_beta pr) (pr_rho pr) (pr_gamma pr) = Ok p ->
  let e R := Hz (pdls_query (st R) (pp_z p) (pp_u1 p) (pp_u2 p) (pp_u3 p)) in
  pdls_verify Hz p (st R1) = Ok tt /\ pdls_verify Hz p (st R2) <> Panic /\
  (pdls_verify Hz p (st R2) = Ok tt ->
   smul (of_Z q (e R1 * to_Z k + pr_alpha pr)) R2 = smul (of_Z q (e R2 * to_Z k + pr_alpha pr)) R1).
Proof.
  intros HN (D1 & D2 & D3) HH Ha Hb0 Hr Hg Gr st Hp e.
  assert (Hst : forall R, good_pst C (st R)) by (intros R; unfold st, good_pst, sg_pdl_stmt; cbn; auto).
  assert (V1 : pdls_verify Hz p (st R1) = Ok tt) by (apply (pdls_complete C Hz k r (st R1) _ _ _ _ p (Hst R1) HH Ha Hb0 Hr Hg Gr); try assumption; reflexivity).
  split; [exact V1|].
  assert (Hk : 0 <= to_Z k) by apply (to_Z_range (cq_prime C)).
  assert (Uc : Z.gcd (enc N (to_Z k) r) (N * N) = 1) by (apply (is_enc_gcd N _ (to_Z k) HN), enc_is_enc; assumption).
  unfold pdls_prove in Hp. cbn [st sg_pdl_stmt ps_c ps_N ps_Q ps_G ps_h1 ps_h2 ps_Nt] in Hp.
  destruct (cuo (dl_h1 dl) (dl_h2 dl) (dl_N dl) (to_Z k) (pr_rho pr)) as [z|] eqn:E1; [|discriminate]. cbn [unwrap obind] in Hp.
  destruct (cuo (N + 1) (pr_beta pr) (N * N) (pr_alpha pr) N) as [u2|] eqn:E2; [|discriminate]. cbn [unwrap obind] in Hp.
  destruct (cuo (dl_h1 dl) (dl_h2 dl) (dl_N dl) (pr_alpha pr) (pr_gamma pr)) as [u3|] eqn:E3; [|discriminate]. cbn [unwrap obind] in Hp.
  match type of Hp with context[cuo r (pr_beta pr) N ?E 1] => set (e1 := E) in *; destruct (cuo r (pr_beta pr) N e1 1) as [s2|] eqn:E4; [|discriminate] end.
  cbn [unwrap obind] in Hp. apply ok_inj in Hp.
  assert (Ee : e R1 = e1) by (unfold e; rewrite Hp; reflexivity).
  apply cuo_eqm in E1; [|assumption|left; assumption|left; assumption]. destruct E1 as [_ Q1].
  assert (Uz : Z.gcd z (dl_N dl) = 1) by (rewrite (gcd_eqm1 _ _ _ Q1 D1); apply gcd_mul; apply zpow_unit; assumption).
  assert (Uz' : Z.gcd (pp_z p) (dl_N dl) = 1) by (rewrite Hp; exact Uz).
  destruct (pdls_verify_iff C Hz p (st R2) (Hst R2) (HH _) (or_intror (conj Uc Uz'))) as [I NP]. split; [exact NP|].
  intros V. apply I in V. destruct V as (V & _). change (pdls_chal C Hz p (st R2)) with (e R2) in V.
  cbn [st sg_pdl_stmt ps_G ps_Q] in V. rewrite Ee. clear I NP V1. rewrite Hp in V at 1 2. cbn [pp_s1 pp_u1] in V. rewrite V.
  apply (dlog_eq_iff C). autorewrite with dlog. rewrite of_Z_add, of_Z_mul, of_Z_to_Z. ring.
Qed.
Lemma phase5_no_panic (Hz : hashZ C) ps R' R c N dls s i : s <> [] ->
  (forall j p, nth_error ps j = Some p -> exists si dl, nth_error s (ind i j) = Some si /\ nth_error dls si = Some dl /\
     pdls_verify Hz p (sg_pdl_stmt R' R c N dl) <> Panic) ->
  sg_phase5_verify Hz ps R' R c N dls s i <> Panic.
Proof.
  intros Hs H. unfold sg_phase5_verify. destruct s as [|s0 s]; [congruence|]. set (s' := s0 :: s) in *. change (0 <? length s')%nat with true. cbn [oassert obind].
  destruct (negb _); [discriminate|].
  assert (E : first_bad_at (sg_check5 Hz R' R c N dls s') (with_ind i ps) <> Panic).
  { assert (HI : forall x, In x (with_ind i ps) -> sg_check5 Hz R' R c N dls s' x <> Panic).
    { intros [k p] Hx. apply In_nth_error in Hx. destruct Hx as [j Hx]. rewrite nth_with_ind in Hx.
      destruct (nth_error ps j) as [p'|] eqn:Ep; [|discriminate]. cbn in Hx. injection Hx as <- <-.
      destruct (H j p' Ep) as (si & dl & S1 & S2 & S3). unfold sg_check5.
      rewrite (proj2 (nth_o_ok _ _ _) S1). cbn [obind]. rewrite (proj2 (nth_o_ok _ _ _) S2). cbn [obind].
      destruct (pdls_verify _ _ _); congruence. }
    revert HI. generalize (with_ind i ps). induction l as [|x l IH]; intros HI; cbn [first_bad_at]; [discriminate|].
    pose proof (HI x (or_introl eq_refl)) as Hx. destruct (sg_check5 _ _ _ _ _ _ _ x) as [[|]| |]; cbn [obind]; try discriminate; [|congruence].
    apply IH. intros y Hy. apply HI. right. exact Hy. }
  destruct (first_bad_at _ _) as [[k|]| |]; cbn [obind]; congruence.
Qed.
(** The own value inserted among the others. *)
Lemma fold_incl i (x : F) l : fold_left fadd (incl_me i x l) f0 = (x + fsum l)%Fq.
Proof.
  rewrite fold_left_fadd. unfold incl_me. rewrite <- (firstn_skipn i l) at 3. rewrite !fsum_app. cbn [fsum]. ring.
Qed.
Lemma bad6_nil_inv (Hf : hashF C) Ss Rs Ts : forall ps i, sg_bad6 Hf Ss Rs Ts i ps = Ok [] -> forall j p, nth_error ps j = Some p ->
  exists R T Si, nth_error Rs (i + j) = Some R /\ nth_error Ts (i + j) = Some T /\ nth_error Ss (i + j) = Some Si /\ heg_verify Hf p (sg_heg_stmt R T Si) = true.
Proof.
  induction ps as [|p ps IH]; intros i H j p' Hj; [destruct j; discriminate|]. cbn [sg_bad6] in H.
  apply obind_ok in H. destruct H as (R & HR & H). apply obind_ok in H. destruct H as (T & HT & H). apply obind_ok in H. destruct H as (Si & HS & H).
  apply obind_ok in H. destruct H as (l & Hl & H). apply ok_inj in H. apply nth_o_ok in HR, HT, HS.
  destruct (heg_verify Hf p (sg_heg_stmt R T Si)) eqn:E; [|discriminate]. subst l. destruct j as [|j].
  - cbn in Hj. injection Hj as <-. rewrite Nat.add_0_r. exists R, T, Si. auto.
  - cbn in Hj. destruct (IH _ Hl j p' Hj) as (R' & T' & Si' & H). rewrite <- Nat.add_assoc in H. exists R', T', Si'. exact H.
Qed.
Lemma psum_incl_me i (x : pt C) l : psum (incl_me i x l) = padd x (psum l).
Proof.
  unfold incl_me. rewrite <- (firstn_skipn i l) at 3. rewrite !psum_app. cbn [psum]. apply dlog_inj. autorewrite with dlog. ring.
Qed.
Lemma fsum_but {A} (g : A -> F) l i x : nth_error l i = Some x -> (g x + fsum (map g (but i l)))%Fq = fsum (map g l).
Proof.
  intros H. apply nth_error_split in H. destruct H as (l1 & l2 & -> & <-). unfold but.
  rewrite firstn_app, Nat.sub_diag, firstn_all, firstn_O, app_nil_r. replace (S (length l1)) with (length l1 + 1)%nat by lia.
  rewrite skipn_app, skipn_all2 by lia. replace (length l1 + 1 - length l1)%nat with 1%nat by lia. cbn [skipn app].
  rewrite !map_app, !fsum_app. cbn [map fsum]. ring.
Qed.
End Q.
Lemma incl_me_ind {A} i (x : A) l j : (i <= length l)%nat -> (j < length l)%nat -> nth_error (incl_me i x l) (ind i j) = nth_error l j.
Proof.
  intros Hi Hj. unfold incl_me, ind. destruct (Nat.ltb_spec j i) as [H|H].
  - rewrite nth_error_app1 by (rewrite firstn_length; lia). rewrite <- (firstn_skipn i l) at 2. rewrite nth_error_app1 by (rewrite firstn_length; lia). reflexivity.
  - rewrite nth_error_app2 by (rewrite firstn_length; lia). rewrite firstn_length_le by exact Hi. replace (S j - i)%nat with (S (j - i)) by lia. cbn [nth_error].
    rewrite <- (firstn_skipn i l) at 2. rewrite nth_error_app2 by (rewrite firstn_length; lia). rewrite firstn_length_le by exact Hi. reflexivity.
Qed.

(** Proofs about GG20 and GG18 key generation. *)
From Coq Require Import ZArith Lia Bool List.
From Verif Require Import ZArithX Fq Curve Outcome Sigma SigmaProofs Bytes Vss VssProofs Paillier RangeProofs Pdl Mp MpProofs
  Gg20Keygen Gg18Keygen.
Import ListNotations.
Local Open Scope Z_scope.

Section P.
Context (C : Curve).
Notation q := (cq C).
Notation F := (Fq q).
Add Field cfield : (C_field C).
Context (Hb : list Z -> Z) (Hf : hashF C) (ck : Z -> Z -> bool) (cd : Z -> dlstmt -> outcome mp_error bool).

(** The polynomial committed to by a dealer, and the sum of all of them. *)
Definition dealt (v : vss C) : list F := map dlog (vs_com v).
Definition dealt_at (l : list (vss C)) (i : nat) : F := fsum (map (fun v => peval (dealt v) (fidx i)) l).
(** The sum of the polynomials as one coefficient list. *)
Definition dealt_sum (l : list (vss C)) : list F := fold_right (fun v acc => padd2 C (dealt v) acc) [] l.

Lemma peval_dealt_sum l i : peval (dealt_sum l) (fidx i) = dealt_at l i.
Proof.
  unfold dealt_at. induction l as [|v l IH]; [reflexivity|].
  cbn [dealt_sum fold_right map fsum]. rewrite peval_padd2. fold (dealt_sum l). rewrite IH. reflexivity.
Qed.
Lemma hd_padd2 (a b : list F) : hd f0 (padd2 C a b) = (hd f0 a + hd f0 b)%Fq.
Proof. destruct a as [|x a], b as [|y b]; cbn; ring. Qed.
Lemma hd_dealt_sum l : hd f0 (dealt_sum l) = fsum (map (fun v => hd f0 (dealt v)) l).
Proof.
  induction l as [|v l IH]; [reflexivity|]. cbn [dealt_sum fold_right map fsum]. rewrite hd_padd2.
  fold (dealt_sum l). rewrite IH. reflexivity.
Qed.
Lemma length_dealt_sum k l : (forall v, In v l -> (length (vs_com v) <= k)%nat) -> (length (dealt_sum l) <= k)%nat.
Proof.
  induction l as [|v l IH]; intros H; [cbn; lia|]. cbn [dealt_sum fold_right]. rewrite length_padd2.
  fold (dealt_sum l). unfold dealt at 1. rewrite map_length.
  pose proof (H v (or_introl eq_refl)). specialize (IH (fun w Hw => H w (or_intror Hw))). lia.
Qed.

(** ** Summing commitments *)
Lemma add_coms_ok {E} : forall (com acc r : list (pt C)), add_coms (E := E) acc com = Ok r ->
  (length com <= length acc)%nat /\ length r = length acc /\
  forall x, peval (map dlog r) x = (peval (map dlog acc) x + peval (map dlog com) x)%Fq.
Proof.
  induction com as [|c com IH]; intros [|a acc] r H; cbn [add_coms] in H; try discriminate.
  - apply ok_inj in H. subst. cbn. split; [lia|]. split; [reflexivity|]. intros; ring.
  - apply ok_inj in H. subst. cbn [length]. split; [lia|]. split; [reflexivity|]. intros; cbn [map peval]; ring.
  - apply obind_ok in H. destruct H as (r' & Hr & H). apply ok_inj in H. subst r.
    apply IH in Hr. destruct Hr as (H1 & H2 & H3). cbn [length map peval]. split; [lia|]. split; [lia|].
    intros x. rewrite H3, dlog_add. ring.
Qed.
Lemma add_coms_total {E} : forall (com acc : list (pt C)), (length com <= length acc)%nat ->
  exists r, add_coms (E := E) acc com = Ok r.
Proof.
  induction com as [|c com IH]; intros [|a acc] H; cbn [length] in H; try lia; cbn [add_coms]; eauto.
  destruct (IH acc) as [r ->]; [lia|]. cbn. eauto.
Qed.
Lemma add_coms_panic {E} : forall (com acc : list (pt C)), (length acc < length com)%nat ->
  add_coms (E := E) acc com = Panic.
Proof.
  induction com as [|c com IH]; intros [|a acc] H; cbn [length] in H; try lia; cbn [add_coms]; [reflexivity|].
  rewrite IH by lia. reflexivity.
Qed.
Lemma add_all_ok {E} : forall (l : list (vss C)) acc r, add_all (E := E) acc l = Ok r ->
  (forall v, In v l -> (length (vs_com v) <= length acc)%nat) /\ length r = length acc /\
  forall x, peval (map dlog r) x = (peval (map dlog acc) x + fsum (map (fun v => peval (dealt v) x) l))%Fq.
Proof.
  induction l as [|v l IH]; intros acc r H; cbn [add_all] in H.
  - apply ok_inj in H. subst. split; [intros v []|]. split; [reflexivity|]. intros; cbn; ring.
  - apply obind_ok in H. destruct H as (a & Ha & H). apply add_coms_ok in Ha. destruct Ha as (A1 & A2 & A3).
    apply IH in H. destruct H as (H1 & H2 & H3). split; [|split; [lia|]].
    + intros w [<-|Hw]; [assumption|]. specialize (H1 w Hw). lia.
    + intros x. rewrite H3, A3. cbn [map fsum]. unfold dealt at 2. ring.
Qed.
Lemma add_all_total {E} : forall (l : list (vss C)) acc, (forall v, In v l -> (length (vs_com v) <= length acc)%nat) ->
  exists r, add_all (E := E) acc l = Ok r.
Proof.
  induction l as [|v l IH]; intros acc H; cbn [add_all]; [eauto|].
  destruct (add_coms_total (E := E) (vs_com v) acc (H v (or_introl eq_refl))) as [a Ha]. rewrite Ha. cbn [obind].
  apply add_coms_ok in Ha. destruct Ha as (_ & A2 & _).
  apply IH. intros w Hw. specialize (H w (or_intror Hw)). lia.
Qed.

(** GG20's get_commitments_to_xi: succeeds exactly when the first vector is not empty and no later one is longer. *)
Lemma xi_ok {E} (l : list (vss C)) xi : kg_xi_commitments (E := E) l = Ok xi <->
  (exists h tl, l = h :: tl /\ vs_com h <> [] /\ forall v, In v tl -> (length (vs_com v) <= length (vs_com h))%nat) /\
  xi = map (fun i => smul (dealt_at l i) gen) (seq 1 (length l)).
Proof.
  destruct l as [|h tl]; cbn [kg_xi_commitments].
  { split; [discriminate|]. intros ((h & tl & H & _) & _). discriminate. }
  split.
  - intros H. apply obind_ok in H. destruct H as (g & Hg & H). apply add_all_ok in Hg. destruct Hg as (G1 & G2 & G3).
    assert (Hne : g <> []).
    { intros ->. cbn [length seq omapM] in H. unfold point_commitment in H at 1. cbn in H. discriminate. }
    split.
    + exists h, tl. split; [reflexivity|]. split; [|assumption].
      intros E0. rewrite E0 in G2. destruct g; [contradiction|discriminate].
    + rewrite (omapM_all _ (fun i => smul (dealt_at (h :: tl) i) gen)) in H; [apply ok_inj in H; exact H|].
      intros i _. rewrite point_commitment_spec. cbn [vs_com]. destruct g as [|P g]; [contradiction|].
      f_equal. f_equal. rewrite G3. unfold dealt_at. cbn [map fsum]. reflexivity.
  - intros ((h' & tl' & HE & Hne & Hl) & ->). injection HE as <- <-.
    destruct (add_all_total (E := E) tl (vs_com h) Hl) as [g Hg]. rewrite Hg. cbn [obind].
    apply add_all_ok in Hg. destruct Hg as (_ & G2 & G3).
    apply omapM_all. intros i _. rewrite point_commitment_spec. cbn [vs_com]. destruct g as [|P g].
    { destruct (vs_com h); [contradiction|discriminate]. }
    f_equal. f_equal. rewrite G3. unfold dealt_at. cbn [map fsum]. reflexivity.
Qed.
Lemma xi18_ok {E} (l : list (vss C)) : (forall v, In v l -> vs_com v <> []) ->
  kg18_xi_commitments (E := E) l = Ok (map (fun i => smul (dealt_at l i) gen) (seq 1 (length l))).
Proof.
  intros H. unfold kg18_xi_commitments. apply omapM_all. intros i _.
  rewrite (omapM_all _ (fun v => smul (peval (dealt v) (fidx i)) gen)).
  - cbn [obind]. f_equal. rewrite fold_left_padd. apply dlog_inj.
    rewrite dlog_add, dlog_zero, dlog_psum, dlog_smul, dlog_gen. unfold dealt_at. rewrite map_map.
    rewrite (map_ext _ (fun v => peval (dealt v) (fidx i))); [ring|].
    intros v. rewrite dlog_smul, dlog_gen. ring.
  - intros v Hv. rewrite point_commitment_spec. specialize (H v Hv). destruct (vs_com v) eqn:Ev; [contradiction|].
    unfold dealt. rewrite Ev. reflexivity.
Qed.

(** ** Phase 2 *)
Lemma check2_ok index y (s : F) v : kg_check2 C index (y, s, v) = Ok true <->
  vs_com v <> [] /\ s = peval (dealt v) (fidx index) /\ y = smul (hd f0 (dealt v)) gen.
Proof.
  unfold kg_check2. destruct (vs_com v) as [|P l] eqn:Ev.
  { destruct (validate_share v s index) eqn:EV; [| |].
    - rewrite (proj2 (validate_share_panic C v s index) Ev) in EV. discriminate.
    - split; [discriminate|]. intros [H _]. contradiction.
    - split; [discriminate|]. intros [H _]. contradiction. }
  assert (Hne : vs_com v <> []) by (rewrite Ev; discriminate).
  pose proof (validate_share_spec C v s index Hne) as [Hs Ht]. fold (dealt v) in Hs.
  unfold dealt at 2. rewrite Ev. cbn [map hd].
  destruct Ht as [Ht|Ht]; rewrite Ht in *.
  - cbn [nth_o nth_error obind]. pose proof (proj1 Hs eq_refl) as Hs'.
    destruct (pt_eqb_spec C P y) as [<-|Hn].
    + split; [|reflexivity]. intros _. split; [discriminate|]. split; [assumption|]. to_dlog. ring.
    + split; [discriminate|]. intros (_ & _ & Hy). exfalso. apply Hn. rewrite Hy. to_dlog. ring.
  - split; [discriminate|]. intros (_ & He & _). apply Hs in He. discriminate.
Qed.
Lemma check2_total index y (s : F) v : vs_com v <> [] -> exists b, kg_check2 C index (y, s, v) = Ok b.
Proof.
  intros Hne. unfold kg_check2. destruct (validate_share_spec C v s index Hne) as [_ [-> | ->]]; [|eauto].
  destruct (vs_com v) eqn:Ev; [contradiction|]. unfold nth_o. cbn [nth_error obind]. eauto.
Qed.
Lemma check2_panic index y (s : F) v : vs_com v = [] -> kg_check2 C index (y, s, v) = Panic.
Proof. intros H. unfold kg_check2. rewrite (proj2 (validate_share_panic C v s index) H). reflexivity. Qed.
Lemma check2_18 index x : kg18_check2 C index x = match kg_check2 C index x with Ok b => Ok b | Err _ => Panic | Panic => Panic end.
Proof.
  destruct x as [[y s] v]. unfold kg18_check2, kg_check2. destruct (validate_share v s index); try reflexivity.
  unfold nth_o. destruct (nth_error (vs_com v) 0); reflexivity.
Qed.
Lemma check2_no_err index x e : kg_check2 C index x <> Err e.
Proof.
  destruct x as [[y s] v]. unfold kg_check2. destruct (validate_share v s index); try discriminate.
  unfold nth_o. destruct (nth_error (vs_com v) 0); discriminate.
Qed.

(** All dealers accepted: what the three vectors look like. *)
Lemma check2_all index : forall (ys : list (pt C)) (ss : list F) (vs : list (vss C)),
  length ss = length ys -> length vs = length ys ->
  (Forall (fun x => kg_check2 C index x = Ok true) (combine (combine ys ss) vs) <->
   (forall v, In v vs -> vs_com v <> []) /\
   ss = map (fun v => peval (dealt v) (fidx index)) vs /\ ys = map (fun v => smul (hd f0 (dealt v)) gen) vs).
Proof.
  induction ys as [|y ys IH]; intros [|s ss] [|v vs] H1 H2; try discriminate; cbn [combine map].
  - split; intros; [|constructor]. split; [intros v []|]. split; reflexivity.
  - cbn [length] in *. specialize (IH ss vs ltac:(lia) ltac:(lia)). split.
    + intros H. inversion H as [|? ? Hx Hr]; subst. apply IH in Hr. destruct Hr as (R1 & -> & ->).
      apply check2_ok in Hx. destruct Hx as (X1 & -> & ->). split; [|split; reflexivity].
      intros w [<-|Hw]; [assumption|apply R1; assumption].
    + intros (R1 & E1 & E2). injection E1 as -> ->. injection E2 as -> ->. constructor.
      * apply check2_ok. split; [apply R1; left; reflexivity|]. split; reflexivity.
      * apply IH. split; [intros w Hw; apply R1; right; assumption|]. split; reflexivity.
Qed.

Lemma phase2_ok n ys ss vs index nonce o : kg_phase2 C Hf n ys ss vs index nonce = Ok o <->
  length ys = n /\ length ss = n /\ length vs = n /\ n <> 0%nat /\
  (forall v, In v vs -> vs_com v <> []) /\
  ss = map (fun v => peval (dealt v) (fidx index)) vs /\ ys = map (fun v => smul (hd f0 (dealt v)) gen) vs /\
  o = ({| sk_y := psum ys; sk_x := fsum ss |}, dlog_prove Hf (fsum ss) nonce).
Proof.
  unfold kg_phase2. split.
  - intros H. apply obind_ok in H. destruct H as (u1 & H1 & H). apply oassert_ok, Nat.eqb_eq in H1.
    apply obind_ok in H. destruct H as (u2 & H2 & H). apply oassert_ok, Nat.eqb_eq in H2.
    apply obind_ok in H. destruct H as (u3 & H3 & H). apply oassert_ok, Nat.eqb_eq in H3.
    apply obind_ok in H. destruct H as (bad & Hbad & H). destruct bad as [k|]; [discriminate|].
    apply first_bad_none, check2_all in Hbad; [|lia|lia]. destruct Hbad as (B1 & B2 & B3).
    destruct ys as [|h tl]; [discriminate|]. apply ok_inj in H. subst o.
    repeat (split; [first [assumption|cbn in *; lia]|]).
    rewrite fold_left_padd, fold_left_fadd.
    assert (Z : (f0 + fsum ss)%Fq = fsum ss) by ring. rewrite Z. reflexivity.
  - intros (H1 & H2 & H3 & H0 & B1 & B2 & B3 & ->). rewrite H1, H2, H3, Nat.eqb_refl. cbn [oassert obind].
    assert (HF : first_bad (kg_check2 C index) 0 (combine (combine ys ss) vs) = Ok None).
    { apply first_bad_none, check2_all; [lia|lia|]. split; [assumption|]. split; assumption. }
    rewrite HF. cbn [obind]. destruct ys as [|h tl]; [cbn in H1; lia|].
    rewrite fold_left_padd, fold_left_fadd.
    assert (Z : (f0 + fsum ss)%Fq = fsum ss) by ring. rewrite Z. reflexivity.
Qed.

Lemma first_bad_18 index l : forall i, first_bad (kg18_check2 C index) i l =
  match first_bad (kg_check2 C index) i l with Ok b => Ok b | Err _ => Panic | Panic => Panic end.
Proof.
  induction l as [|x l IH]; intros i; cbn [first_bad]; [reflexivity|]. rewrite check2_18.
  destruct (kg_check2 C index x) as [[|]| |]; cbn [obind]; try reflexivity. apply IH.
Qed.
Lemma phase2_18_ok n ys ss vs index nonce o : kg18_phase2 C Hf n ys ss vs index nonce = Ok o <->
  length ys = n /\ length ss = n /\ length vs = n /\
  (forall v, In v vs -> vs_com v <> []) /\
  ss = map (fun v => peval (dealt v) (fidx index)) vs /\ ys = map (fun v => smul (hd f0 (dealt v)) gen) vs /\
  o = ({| sk_y := psum ys; sk_x := fsum ss |}, dlog_prove Hf (fsum ss) nonce).
Proof.
  assert (Z : forall ss : list F, fold_left fadd ss f0 = fsum ss) by (intros; rewrite fold_left_fadd; ring).
  assert (Zp : forall l : list (pt C), fold_left padd l pzero = psum l)
    by (intros; rewrite fold_left_padd; to_dlog; ring).
  unfold kg18_phase2. split.
  - intros H. apply obind_ok in H. destruct H as (u1 & H1 & H). apply oassert_ok, Nat.eqb_eq in H1.
    apply obind_ok in H. destruct H as (u2 & H2 & H). apply oassert_ok, Nat.eqb_eq in H2.
    apply obind_ok in H. destruct H as (u3 & H3 & H). apply oassert_ok, Nat.eqb_eq in H3.
    apply obind_ok in H. destruct H as (bad & Hbad & H). destruct bad as [k|]; [discriminate|].
    rewrite first_bad_18 in Hbad.
    destruct (first_bad (kg_check2 C index) 0 (combine (combine ys ss) vs)) as [bb| |] eqn:EB; try discriminate.
    injection Hbad as ->.
    apply first_bad_none, check2_all in EB; [|lia|lia]. destruct EB as (B1 & B2 & B3).
    apply ok_inj in H. subst o. rewrite Z, Zp.
    repeat (split; [assumption|]). reflexivity.
  - intros (H1 & H2 & H3 & B1 & B2 & B3 & ->). rewrite H1, H2, H3, Nat.eqb_refl. cbn [oassert obind].
    assert (HF : first_bad (kg_check2 C index) 0 (combine (combine ys ss) vs) = Ok None).
    { apply first_bad_none, check2_all; [lia|lia|]. split; [assumption|]. split; assumption. }
    rewrite first_bad_18, HF. cbn [obind]. rewrite Z, Zp. reflexivity.
Qed.

(** ** Dlog proofs against the commitments *)
Lemma verify_dlog_ok n proofs ys vs : kg_verify_dlog C Hf n proofs ys vs = Ok tt <->
  length ys = n /\ length proofs = n /\
  (exists h tl, vs = h :: tl /\ vs_com h <> [] /\ forall v, In v tl -> (length (vs_com v) <= length (vs_com h))%nat) /\
  (forall i, (i < n)%nat -> (i < length vs)%nat /\ exists p, nth_error proofs i = Some p /\ dlog_verify Hf p = true /\
     dp_pk p = smul (dealt_at vs (S i)) gen).
Proof.
  unfold kg_verify_dlog. split.
  - intros H. apply obind_ok in H. destruct H as (u1 & H1 & H). apply oassert_ok, Nat.eqb_eq in H1.
    apply obind_ok in H. destruct H as (u2 & H2 & H). apply oassert_ok, Nat.eqb_eq in H2.
    apply obind_ok in H. destruct H as (xi & Hxi & H). apply xi_ok in Hxi. destruct Hxi as (X1 & ->).
    apply obind_ok in H. destruct H as (bad & Hbad & H). destruct bad as [k|]; [discriminate|].
    apply first_bad_none in Hbad. rewrite Forall_forall in Hbad.
    split; [assumption|]. split; [assumption|]. split; [assumption|].
    intros i Hi. specialize (Hbad i ltac:(apply in_seq; lia)).
    apply obind_ok in Hbad. destruct Hbad as (p & Hp & Hbad). apply nth_o_ok in Hp.
    cbv zeta in Hbad. apply obind_ok in Hbad. destruct Hbad as (K & HK & Hbad).
    apply nth_o_ok in HK. apply ok_inj in Hbad. symmetry in Hbad. apply andb_true_iff in Hbad. destruct Hbad as [Hv He].
    assert (Hil : (i < length vs)%nat).
    { assert (nth_error (map (fun i0 => smul (dealt_at vs i0) gen) (seq 1 (length vs))) i <> None) as N by congruence.
      apply nth_error_Some in N. rewrite map_length, seq_length in N. exact N. }
    split; [exact Hil|]. exists p. split; [exact Hp|]. split; [exact Hv|].
    rewrite nth_error_seq_map in HK by exact Hil. injection HK as <-. apply pt_eqb_eq in He. symmetry. exact He.
  - intros (H1 & H2 & X1 & HA). rewrite H1, H2, Nat.eqb_refl. cbn [oassert obind].
    assert (HX : kg_xi_commitments (E := mp_error) vs = Ok (map (fun i => smul (dealt_at vs i) gen) (seq 1 (length vs)))).
    { apply xi_ok. split; [exact X1|reflexivity]. }
    rewrite HX. cbn [obind].
    match goal with |- obind (first_bad ?f 0 ?l) _ = _ => assert (HF : first_bad f 0 l = Ok None) end.
    { apply first_bad_none. apply Forall_forall. intros i Hi. apply in_seq in Hi.
      destruct (HA i ltac:(lia)) as (Hil & p & Hp & Hv & He).
      rewrite (proj2 (nth_o_ok proofs i p) Hp). cbn [obind]. cbv zeta.
      rewrite (nth_o_map_seq _ 1 (length vs) i Hil). cbn [obind plus]. rewrite Hv, He, pt_eqb_refl. reflexivity. }
    rewrite HF. reflexivity.
Qed.

(** Honest proofs verify for their own key. *)
Lemma dlog_prove_pk (x nonce : F) : dp_pk (dlog_prove Hf x nonce) = smul x gen.
Proof. reflexivity. Qed.
End P.
Arguments dealt {_} _. Arguments dealt_at {_} _ _. Arguments dealt_sum {_} _.

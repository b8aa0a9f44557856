(** Key generation: exact error conditions, sharings of too high degree, inconsistent dealers, refresh. *)
From Coq Require Import ZArith Lia Bool List.
From Verif Require Import ZArithX Fq Curve Outcome Sigma SigmaProofs Bytes Vss VssProofs Paillier RangeProofs Pdl Mp MpProofs
  Gg20Keygen Gg18Keygen KeygenProofs KeygenRun KeygenRunProofs.
Import ListNotations.
Local Open Scope Z_scope.

Section P.
Context (C : Curve).
Notation q := (cq C).
Notation F := (Fq q).
Add Field cfield : (C_field C).
Context (Hb : list Z -> Z) (Hf : hashF C) (ck : Z -> Z -> bool) (cd : Z -> dlstmt -> outcome mp_error bool).

(** ** Phase 1 *)
(** What a peer's broadcast and opening must satisfy. *)
Definition peer_ok (d : kg_dec1 C) (b : kg_bc1) : Prop :=
  commit_pt Hb (kd_y d) (kd_blind d) = kb_com b /\ ck (kb_ck b) (kb_N b) = true /\
  2047 <= bit_length (kb_N b) <= 2048 /\ 2047 <= bit_length (dl_N (kb_dl b)) <= 2048 /\
  cd (kb_cd1 b) (kb_dl b) = Ok true /\
  cd (kb_cd2 b) {| dl_N := dl_N (kb_dl b); dl_h1 := dl_h2 (kb_dl b); dl_h2 := dl_h1 (kb_dl b) |} = Ok true.
Lemma bits_ok_iff z : bits_ok z = true <-> 2047 <= bit_length z <= 2048.
Proof. unfold bits_ok, PAILLIER_MIN, PAILLIER_MAX. rewrite andb_true_iff, !Z.leb_le. lia. Qed.
Lemma check1_ok d b : kg_check1 C Hb ck cd (d, b) = Ok true <-> peer_ok d b.
Proof.
  unfold kg_check1, peer_ok. fold (swap_dl (kb_dl b)).
  destruct (commit_pt Hb (kd_y d) (kd_blind d) =? kb_com b) eqn:E1.
  2:{ cbn. apply Z.eqb_neq in E1. split; [discriminate|]. intros (H & _). contradiction. }
  apply Z.eqb_eq in E1. destruct (ck (kb_ck b) (kb_N b)) eqn:E2.
  2:{ cbn. split; [discriminate|]. intros (_ & H & _). discriminate. }
  destruct (bits_ok (kb_N b)) eqn:E3.
  2:{ cbn. split; [discriminate|]. intros (_ & _ & H & _). apply bits_ok_iff in H. congruence. }
  apply bits_ok_iff in E3. destruct (bits_ok (dl_N (kb_dl b))) eqn:E4.
  2:{ cbn. split; [discriminate|]. intros (_ & _ & _ & H & _). apply bits_ok_iff in H. congruence. }
  apply bits_ok_iff in E4. cbn [andb].
  destruct (cd (kb_cd1 b) (kb_dl b)) as [[|]| |] eqn:E5; cbn [obind].
  - split.
    + intros H. repeat (split; [assumption || reflexivity|]). exact H.
    + intros (_ & _ & _ & _ & _ & H). exact H.
  - split; [discriminate|]. intros (_ & _ & _ & _ & H & _). discriminate.
  - split; [discriminate|]. intros (_ & _ & _ & _ & H & _). discriminate.
  - split; [discriminate|]. intros (_ & _ & _ & _ & H & _). discriminate.
Qed.
Lemma check1_total d b : (forall z s, exists r, cd z s = Ok r) -> exists r, kg_check1 C Hb ck cd (d, b) = Ok r.
Proof.
  intros Hcd. unfold kg_check1. destruct (_ && _); [|eauto].
  destruct (Hcd (kb_cd1 b) (kb_dl b)) as [[|] ->]; cbn [obind]; [apply Hcd|eauto].
Qed.

Lemma phase1_verify_ok k t n coefs decom bc1 o :
  kg_phase1_verify C Hb ck cd k t n coefs decom bc1 = Ok o <->
  length decom = n /\ length bc1 = n /\ (t < n)%nat /\
  (forall i d b, nth_error decom i = Some d -> nth_error bc1 i = Some b -> peer_ok d b) /\
  o = ({| vs_t := t; vs_n := n; vs_com := map (fun c => smul c gen) (ky_u k :: coefs) |},
       map (fun j => peval (ky_u k :: coefs) (fidx j)) (seq 1 n), ky_i k).
Proof.
  unfold kg_phase1_verify. split.
  - intros H. apply obind_ok in H. destruct H as (u1 & H1 & H). apply oassert_ok, Nat.eqb_eq in H1.
    apply obind_ok in H. destruct H as (u2 & H2 & H). apply oassert_ok, Nat.eqb_eq in H2.
    apply obind_ok in H. destruct H as (bad & Hbad & H).
    apply obind_ok in H. destruct H as (sh & Hsh & H). destruct bad as [i|]; [discriminate|].
    apply first_bad_none in Hbad. rewrite Forall_forall in Hbad.
    unfold vss_share in Hsh. destruct (Nat.ltb_spec t n) as [Ht|]; cbn [oassert obind] in Hsh; [|discriminate].
    apply ok_inj in Hsh. subst sh. apply ok_inj in H. subst o. cbn [fst snd].
    split; [assumption|]. split; [assumption|]. split; [assumption|]. split; [|reflexivity].
    intros i d b Hd Hb'. apply check1_ok. apply Hbad. apply (nth_error_In _ i). apply nth_error_combine. auto.
  - intros (H1 & H2 & H3 & H4 & ->). rewrite H1, H2, Nat.eqb_refl. cbn [oassert obind].
    rewrite (proj2 (first_bad_none (kg_check1 C Hb ck cd) (combine decom bc1) 0)).
    2:{ apply Forall_forall. intros [d b] Hx. apply In_nth_error in Hx. destruct Hx as (i & Hi).
        apply nth_error_combine in Hi. destruct Hi. apply check1_ok. eapply H4; eassumption. }
    cbn [obind]. unfold vss_share. rewrite (proj2 (Nat.ltb_lt t n) H3). reflexivity.
Qed.
Lemma phase1_verify_err k t n coefs decom bc1 e : (forall z s e', cd z s <> Err e') ->
  kg_phase1_verify C Hb ck cd k t n coefs decom bc1 = Err e ->
  exists i d b, e = {| me_kind := EInvalidKey; me_bad := [i] |} /\
    nth_error decom i = Some d /\ nth_error bc1 i = Some b /\ ~ peer_ok d b /\
    forall j d' b', (j < i)%nat -> nth_error decom j = Some d' -> nth_error bc1 j = Some b' -> peer_ok d' b'.
Proof.
  intros Hcd. unfold kg_phase1_verify. intros H.
  destruct (length decom =? n)%nat; cbn [oassert obind] in H; [|discriminate].
  destruct (length bc1 =? n)%nat; cbn [oassert obind] in H; [|discriminate].
  destruct (first_bad (kg_check1 C Hb ck cd) 0 (combine decom bc1)) as [bad|e'|] eqn:EB; cbn [obind] in H.
  - unfold vss_share in H. destruct (t <? n)%nat; cbn [oassert obind] in H; [|discriminate].
    destruct bad as [i|]; [|discriminate]. injection H as <-.
    apply first_bad_some_nth in EB. destruct EB as (([d b] & Hx & Hfx) & HF). apply nth_error_combine in Hx. destruct Hx as [Hd Hb'].
    exists i, d, b. split; [reflexivity|]. split; [assumption|]. split; [assumption|]. split.
    + intros Hp. apply check1_ok in Hp. congruence.
    + intros j d' b' Hj Hd' Hb''. apply check1_ok. apply (HF j); [assumption|]. apply nth_error_combine. auto.
  - exfalso. revert EB. generalize 0%nat as i0. generalize (combine decom bc1) as l.
    induction l as [|[d b] l IH]; intros i0; cbn [first_bad]; [discriminate|].
    destruct (kg_check1 C Hb ck cd (d, b)) as [[|]|e2|] eqn:E; cbn [obind]; try discriminate; [apply IH|].
    intros _. unfold kg_check1 in E. destruct (_ && _) in E; [|discriminate].
    destruct (cd (kb_cd1 b) (kb_dl b)) as [[|]|e3|] eqn:E5; cbn [obind] in E; try discriminate.
    + exact (Hcd _ _ _ E).
    + exact (Hcd _ _ _ E5).
  - discriminate.
Qed.

(** ** Phase 2 *)
Definition dealer_ok (index : nat) (y : pt C) (s : F) (v : vss C) : Prop :=
  exists c0 rest, vs_com v = c0 :: rest /\ y = c0 /\ smul s gen = smul (peval (map dlog (vs_com v)) (fidx index)) gen.
Lemma check2_dealer index y s v : kg_check2 C index (y, s, v) = Ok true <-> dealer_ok index y s v.
Proof.
  rewrite check2_ok. unfold dealer_ok, dealt. destruct (vs_com v) as [|c0 rest] eqn:Ev.
  - split; [intros [H _]; contradiction|]. intros (c0 & rest & H & _). discriminate.
  - cbn [map hd]. split.
    + intros (_ & -> & ->). exists c0, rest. split; [reflexivity|]. split; [|reflexivity]. to_dlog. ring.
    + intros (c & r & H & -> & Hs). injection H as <- <-. split; [discriminate|].
      apply (smul_gen_inj C) in Hs. split; [assumption|]. to_dlog. ring.
Qed.
Lemma phase2_err n ys ss vs index nonce e : kg_phase2 C Hf n ys ss vs index nonce = Err e ->
  exists i y s v, e = {| me_kind := EInvalidVss; me_bad := [i] |} /\
    nth_error ys i = Some y /\ nth_error ss i = Some s /\ nth_error vs i = Some v /\ ~ dealer_ok index y s v /\
    forall j y' s' v', (j < i)%nat -> nth_error ys j = Some y' -> nth_error ss j = Some s' -> nth_error vs j = Some v' ->
      dealer_ok index y' s' v'.
Proof.
  unfold kg_phase2. intros H.
  destruct (length ys =? n)%nat; cbn [oassert obind] in H; [|discriminate].
  destruct (length ss =? n)%nat; cbn [oassert obind] in H; [|discriminate].
  destruct (length vs =? n)%nat; cbn [oassert obind] in H; [|discriminate].
  destruct (first_bad (kg_check2 C index) 0 (combine (combine ys ss) vs)) as [bad|e'|] eqn:EB; cbn [obind] in H.
  - destruct bad as [i|]; [|destruct ys; discriminate]. injection H as <-.
    apply first_bad_some_nth in EB. destruct EB as (([[y s] v] & Hx & Hfx) & HF).
    apply nth_error_combine in Hx. destruct Hx as [Hx Hv]. apply nth_error_combine in Hx. destruct Hx as [Hy Hs].
    exists i, y, s, v. repeat (split; [assumption || reflexivity|]). split.
    + intros Hd. apply check2_dealer in Hd. congruence.
    + intros j y' s' v' Hj H1 H2 H3. apply check2_dealer. apply (HF j); [assumption|].
      apply nth_error_combine. split; [|assumption]. apply nth_error_combine. auto.
  - exfalso. revert EB. generalize 0%nat as i0. generalize (combine (combine ys ss) vs) as l.
    induction l as [|x l IH]; intros i0; cbn [first_bad]; [discriminate|].
    destruct (kg_check2 C index x) as [[|]|e2|] eqn:E; cbn [obind]; try discriminate; [apply IH|].
    intros _. exact (check2_no_err C index x e2 E).
  - discriminate.
Qed.
Lemma phase2_not_panic n ys ss vs index nonce : length ys = n -> length ss = n -> length vs = n -> n <> 0%nat ->
  (forall v, In v vs -> vs_com v <> []) -> kg_phase2 C Hf n ys ss vs index nonce <> Panic.
Proof.
  intros H1 H2 H3 H0 Hne. unfold kg_phase2. rewrite H1, H2, H3, Nat.eqb_refl. cbn [oassert obind].
  destruct (first_bad_total (kg_check2 C index) (combine (combine ys ss) vs)) with (i := 0%nat) as [o ->].
  { intros [[y s] v] Hx. apply check2_total, Hne. apply in_combine_r in Hx. exact Hx. }
  cbn [obind]. destruct o; [discriminate|]. destruct ys; [cbn in H1; lia|discriminate].
Qed.
(** One empty commitment vector after valid ones crashes the receiver. *)
Lemma phase2_panic n ys ss vs index nonce k : length ys = n -> length ss = n -> length vs = n -> (k < n)%nat ->
  (forall j y s v, (j < k)%nat -> nth_error ys j = Some y -> nth_error ss j = Some s -> nth_error vs j = Some v -> dealer_ok index y s v) ->
  (exists v, nth_error vs k = Some v /\ vs_com v = []) ->
  kg_phase2 C Hf n ys ss vs index nonce = Panic.
Proof.
  intros H1 H2 H3 Hk Hok (v & Hv & He). unfold kg_phase2. rewrite H1, H2, H3, Nat.eqb_refl. cbn [oassert obind].
  assert (K : forall l i x, nth_error l i = Some x -> kg_check2 C index x = Panic ->
     (forall j z, (j < i)%nat -> nth_error l j = Some z -> kg_check2 C index z = Ok true) ->
     forall i0, first_bad (kg_check2 C index) i0 l = Panic).
  { induction l as [|z l IH]; intros [|i] x Hx Hp Hj i0; try discriminate; cbn [first_bad].
    - injection Hx as ->. rewrite Hp. reflexivity.
    - rewrite (Hj 0%nat z); [|lia|reflexivity]. cbn [obind]. apply (IH i x Hx Hp).
      intros j w Hjl Hw. apply (Hj (S j)); [lia|exact Hw]. }
  assert (Hex : exists y s, nth_error ys k = Some y /\ nth_error ss k = Some s).
  { destruct (nth_error ys k) eqn:E1; [|apply nth_error_None in E1; lia].
    destruct (nth_error ss k) eqn:E2; [|apply nth_error_None in E2; lia]. eauto. }
  destruct Hex as (y & s & Hy & Hs).
  rewrite (K _ k (y, s, v)); [reflexivity| | |].
  - apply nth_error_combine. split; [|assumption]. apply nth_error_combine. auto.
  - apply check2_panic. exact He.
  - intros j [[y' s'] v'] Hj Hn. apply nth_error_combine in Hn. destruct Hn as [Hn Hv']. apply nth_error_combine in Hn.
    destruct Hn. apply check2_dealer. eapply Hok; eassumption.
Qed.

(** ** Dlog proofs *)
Definition pk_ok (vs : list (vss C)) (i : nat) (p : dlog_proof C) : Prop :=
  dlog_verify Hf p = true /\ dp_pk p = smul (dealt_at vs (S i)) gen.
Definition coms_fit (vs : list (vss C)) : Prop :=
  exists h tl, vs = h :: tl /\ vs_com h <> [] /\ forall v, In v tl -> (length (vs_com v) <= length (vs_com h))%nat.
Lemma verify_dlog_err n proofs ys vs e : kg_verify_dlog C Hf n proofs ys vs = Err e <->
  length ys = n /\ length proofs = n /\ coms_fit vs /\
  exists k p, e = {| me_kind := EBadDlogProof; me_bad := [k] |} /\ (k < n)%nat /\ (k < length vs)%nat /\
    nth_error proofs k = Some p /\ ~ pk_ok vs k p /\
    forall j p', (j < k)%nat -> nth_error proofs j = Some p' -> pk_ok vs j p'.
Proof.
  unfold kg_verify_dlog.
  destruct (Nat.eqb_spec (length ys) n) as [H1|H1]; cbn [oassert obind].
  2:{ split; [discriminate|]. intros (H & _). contradiction. }
  destruct (Nat.eqb_spec (length proofs) n) as [H2|H2]; cbn [oassert obind].
  2:{ split; [discriminate|]. intros (_ & H & _). contradiction. }
  destruct (kg_xi_commitments (E := mp_error) vs) as [xi|e'|] eqn:EX; cbn [obind].
  - apply xi_ok in EX. destruct EX as (X1 & ->).
    match goal with |- context [first_bad ?g 0 ?l] => set (f := g) end.
    assert (Hchk : forall i p, (i < length vs)%nat -> nth_error proofs i = Some p -> exists b, f i = Ok b /\ (b = true <-> pk_ok vs i p)).
    { intros i p Hi Hp. unfold f. rewrite (proj2 (nth_o_ok proofs i p) Hp). cbn [obind]. cbv zeta.
      rewrite (nth_o_map_seq _ 1 (length vs) i Hi). cbn [obind plus]. eexists. split; [reflexivity|].
      unfold pk_ok. rewrite andb_true_iff, pt_eqb_eq. split; intros [A B]; split; auto. }
    assert (Hpan : forall i, (length vs <= i)%nat -> (i < n)%nat -> f i = Panic).
    { intros i Hi Hn. unfold f. destruct (nth_error proofs i) as [p|] eqn:Ep.
      - rewrite (proj2 (nth_o_ok proofs i p) Ep). cbn [obind]. cbv zeta.
        unfold nth_o at 1. rewrite (proj2 (nth_error_None _ i)); [reflexivity|]. rewrite map_length, seq_length. exact Hi.
      - apply nth_error_None in Ep. lia. }
    split.
    + intros H. apply obind_ok in H || destruct (first_bad f 0 (seq 0 n)) as [[k|]|e2|] eqn:EB; cbn [obind] in H; try discriminate.
      * injection H as <-. apply first_bad_some_nth in EB. destruct EB as ((x & Hx & Hfx) & HF).
        assert (Hk : (k < n)%nat).
        { assert (nth_error (seq 0 n) k <> None) as N by congruence. apply nth_error_Some in N. rewrite seq_length in N. exact N. }
        assert (x = k).
        { rewrite (nth_error_nth' _ 0%nat) in Hx by (rewrite seq_length; lia). rewrite seq_nth in Hx by lia. injection Hx as <-. lia. }
        subst x.
        destruct (nth_error proofs k) as [p|] eqn:Ep; [|apply nth_error_None in Ep; lia].
        destruct (Nat.lt_ge_cases k (length vs)) as [Hkv|Hkv].
        2:{ rewrite (Hpan k Hkv Hk) in Hfx. discriminate. }
        destruct (Hchk k p Hkv Ep) as (b & Hb1 & Hb2).
        split; [assumption|]. split; [assumption|]. split; [exact X1|]. exists k, p.
        repeat (split; [assumption || reflexivity|]). split.
        -- rewrite Hfx in Hb1. injection Hb1 as <-. intros K. apply Hb2 in K. discriminate.
        -- intros j p' Hj Hp'. destruct (Hchk j p' ltac:(lia) Hp') as (b' & Hb1' & Hb2'). apply Hb2'.
           assert (f j = Ok true) as E.
           { apply (HF j j Hj). rewrite (nth_error_nth' _ 0%nat) by (rewrite seq_length; lia). rewrite seq_nth by lia. reflexivity. }
           rewrite E in Hb1'. injection Hb1' as <-. reflexivity.
      * exfalso. clear - EB Hchk Hpan H2.
        assert (K : forall l i0, (forall x, In x l -> (x < n)%nat) -> first_bad f i0 l <> Err e2).
        { induction l as [|x l IH]; intros i0 HL; cbn [first_bad]; [discriminate|].
          assert (Hx : (x < n)%nat) by (apply HL; left; reflexivity).
          destruct (nth_error proofs x) as [p|] eqn:Ep; [|apply nth_error_None in Ep; lia].
          destruct (Nat.lt_ge_cases x (length vs)) as [Hkv|Hkv].
          - destruct (Hchk x p Hkv Ep) as (b & -> & _). destruct b; cbn [obind]; [|discriminate].
            apply IH. intros y Hy; apply HL; right; assumption.
          - rewrite (Hpan x Hkv Hx). discriminate. }
        apply (K (seq 0 n) 0%nat); [|exact EB]. intros x Hx. apply in_seq in Hx. lia.
    + intros (_ & _ & _ & k & p & -> & Hk & Hkv & Hp & Hnok & HF).
      assert (EB : first_bad f 0 (seq 0 n) = Ok (Some k)).
      { apply first_bad_some_nth. split.
        - exists k. split; [rewrite (nth_error_nth' _ 0%nat) by (rewrite seq_length; lia); rewrite seq_nth by lia; reflexivity|].
          destruct (Hchk k p Hkv Hp) as (b & -> & Hb2). destruct b; [|reflexivity]. exfalso. apply Hnok, Hb2. reflexivity.
        - intros i x Hi Hx.
          rewrite (nth_error_nth' _ 0%nat) in Hx by (rewrite seq_length; lia). rewrite seq_nth in Hx by lia. injection Hx as <-.
          cbn [plus]. destruct (nth_error proofs i) as [p'|] eqn:Ep; [|apply nth_error_None in Ep; lia].
          destruct (Hchk i p' ltac:(lia) Ep) as (b & -> & Hb2). f_equal. apply Hb2. apply (HF i); assumption. }
      rewrite EB. reflexivity.
  - exfalso. destruct vs as [|h tl]; [discriminate|]. cbn [kg_xi_commitments] in EX.
    destruct (add_all (E := mp_error) (vs_com h) tl) as [g|e2|] eqn:EA; cbn [obind] in EX.
    + revert EX. generalize (seq 1 (length (h :: tl))) as l. induction l as [|x l IH]; cbn [omapM]; [intros; discriminate|].
      rewrite point_commitment_spec. cbn [vs_com]. destruct g as [|g0 g']; cbn [obind]; [intros; discriminate|].
      destruct (omapM _ l); cbn [obind]; intros H; try discriminate. apply IH. congruence.
    + clear EX. revert EA. generalize (vs_com h). induction tl as [|v tl IH]; intros acc; cbn [add_all]; [intros; discriminate|].
      destruct (Nat.le_gt_cases (length (vs_com v)) (length acc)) as [L|L].
      * destruct (add_coms_total C (E := mp_error) (vs_com v) acc L) as [r ->]. cbn [obind]. apply IH.
      * rewrite (add_coms_panic C (vs_com v) acc L). intros; discriminate.
    + discriminate.
  - split; [discriminate|]. intros (_ & _ & HX & _). exfalso.
    assert (kg_xi_commitments (E := mp_error) vs = Ok (map (fun i => smul (dealt_at vs i) gen) (seq 1 (length vs)))) as E.
    { apply xi_ok. split; [exact HX|reflexivity]. }
    congruence.
Qed.
Lemma verify_dlog_panic n proofs ys h tl : length ys = n -> length proofs = n ->
  (vs_com h = [] \/ exists v, In v tl /\ (length (vs_com h) < length (vs_com v))%nat) ->
  kg_verify_dlog C Hf n proofs ys (h :: tl) = Panic.
Proof.
  intros H1 H2 Hbad. unfold kg_verify_dlog. rewrite H1, H2, Nat.eqb_refl. cbn [oassert obind].
  assert (EX : kg_xi_commitments (E := mp_error) (h :: tl) = Panic); [|rewrite EX; reflexivity].
  cbn [kg_xi_commitments].
  assert (K : forall (tl : list (vss C)) acc, (exists v, In v tl /\ (length acc < length (vs_com v))%nat) -> add_all (E := mp_error) acc tl = Panic).
  { clear. induction tl as [|v tl IH]; intros acc (w & Hw & Hl); [destruct Hw|]. cbn [add_all].
    destruct (Nat.le_gt_cases (length (vs_com v)) (length acc)) as [L|L].
    - destruct (add_coms_total C (E := mp_error) (vs_com v) acc L) as [r Hr]. rewrite Hr. cbn [obind]. apply IH.
      apply add_coms_ok in Hr. destruct Hr as (_ & R2 & _). exists w. destruct Hw as [->|Hw]; [lia|]. split; [assumption|lia].
    - rewrite (add_coms_panic C (vs_com v) acc L). reflexivity. }
  destruct Hbad as [He|Hv]; [|rewrite (K tl _ Hv); reflexivity].
  rewrite He. destruct (add_all (E := mp_error) [] tl) as [g|e2|] eqn:EA; cbn [obind]; [| |reflexivity].
  - apply add_all_ok in EA. destruct EA as (_ & G2 & _). destruct g; [|discriminate]. reflexivity.
  - exfalso. revert EA. clear - K. induction tl as [|v tl IH]; cbn [add_all]; [discriminate|].
    destruct (vs_com v); cbn [add_coms obind]; [apply IH|discriminate].
Qed.

(** ** Degree *)
Lemma padd2_long (l b : list F) a : (length b <= length l)%nat -> padd2 C (l ++ [a]) b = padd2 C l b ++ [a].
Proof.
  revert b; induction l as [|x l IH]; intros [|y b] H; cbn [app padd2 length] in *; try reflexivity; try lia.
  f_equal. apply IH. lia.
Qed.
Lemma reconstruct_high {E} (v : vss C) (l : list F) a n s : length l = length s -> a <> f0 -> NoDup s ->
  (forall i, In i s -> (i < n)%nat) -> Z.of_nat n < q -> length s = S (vs_t v) -> 
  exists w, vss_reconstruct (E := E) v s (map (fun i => peval (l ++ [a]) (fidx (i + 1))) s) = Ok w /\ w <> hd f0 (l ++ [a]).
Proof.
  intros Hl Ha Hnd Hb' Hn Hs.
  set (pts := map (fun i => fidx (C := C) (i + 1)) s).
  assert (Hnp : NoDup pts) by (apply (NoDup_fidx C n); assumption).
  assert (Hpl : length pts = length s) by apply map_length.
  assert (Hpe : pts <> []) by (intros E0; rewrite E0 in Hpl; cbn in Hpl; lia).
  destruct (interp_unique C pts (map (peval (l ++ [a])) pts) Hnp Hpe ltac:(rewrite map_length; reflexivity)) as (cs & (Hcl & HE) & _).
  exists (hd f0 cs). split.
  - unfold vss_reconstruct. rewrite map_length, Nat.eqb_refl. cbn [oassert obind].
    rewrite (proj2 (Nat.leb_le (vs_t v + 1) (length s)) ltac:(lia)). cbn [oassert obind].
    rewrite <- (map_map (fun i => fidx (i + 1)) (peval (l ++ [a]))). fold pts. rewrite <- HE.
    apply lagrange_at_zero_spec; [assumption|assumption|lia].
  - intros Hhd. apply Ha.
    apply (roots_zero C (f0 :: pts) (padd2 C (l ++ [a]) (pscale C (fopp f1) cs))).
    + constructor; [|assumption]. intros Hin. unfold pts in Hin. apply in_map_iff in Hin. destruct Hin as (i & Hi & Hin).
      revert Hi. apply fidx_nz; [lia|]. specialize (Hb' i Hin). lia.
    + intros x [<-|Hx]; rewrite peval_padd2, peval_pscale.
      * rewrite !peval_at_0, Hhd. ring.
      * assert (Hv : peval cs x = peval (l ++ [a]) x).
        { revert HE Hx. clear. induction pts as [|p ps IH]; intros HE Hx; [destruct Hx|]. cbn in HE. injection HE as E1 E2.
          destruct Hx as [->|Hx]; [assumption|]. apply IH; assumption. }
        rewrite Hv. ring.
    + rewrite length_padd2. unfold pscale. rewrite map_length, app_length. cbn [length]. lia.
    + rewrite padd2_long; [apply in_or_app; right; left; reflexivity|]. unfold pscale. rewrite map_length. lia.
Qed.

(** All parties share the polynomials [polys], whatever their degrees. *)
Section Any.
Context (t n : nat) (polys : nat -> list F) (nonce : nat -> F).
Definition a_vss (i : nat) : vss C := {| vs_t := t; vs_n := n; vs_com := map (fun c => smul c gen) (polys i) |}.
Definition a_x (j : nat) : F := fsum (map (fun i => peval (polys i) (fidx (S j))) (seq 0 n)).
Definition a_ys : list (pt C) := map (fun i => smul (hd f0 (polys i)) gen) (seq 0 n).
Definition a_pf (j : nat) : dlog_proof C := dlog_prove Hf (a_x j) (nonce j).
Context (Hne : forall i, (i < n)%nat -> polys i <> []).
Lemma a_vss_ne i : (i < n)%nat -> vs_com (a_vss i) <> [].
Proof. intros Hi. unfold a_vss. cbn [vs_com]. specialize (Hne i Hi). destruct (polys i); [contradiction|discriminate]. Qed.
Lemma a_phase2 j : (j < n)%nat -> kg_phase2 C Hf n a_ys (map (fun i => peval (polys i) (fidx (S j))) (seq 0 n)) (map a_vss (seq 0 n)) (S j) (nonce j) =
  Ok ({| sk_y := psum a_ys; sk_x := a_x j |}, a_pf j).
Proof.
  intros Hj. apply phase2_ok. unfold a_ys. rewrite !map_length, seq_length.
  repeat (split; [first [reflexivity|lia]|]). split; [|split; [|split; [|reflexivity]]].
  - intros v Hv. apply in_map_iff in Hv. destruct Hv as (i & <- & Hi). apply in_seq in Hi. apply a_vss_ne. lia.
  - rewrite map_map. apply map_ext. intros i. unfold a_vss. rewrite dealt_shared. reflexivity.
  - rewrite map_map. apply map_ext. intros i. unfold a_vss. rewrite dealt_shared. reflexivity.
Qed.
Lemma a_phase2_18 j : kg18_phase2 C Hf n a_ys (map (fun i => peval (polys i) (fidx (S j))) (seq 0 n)) (map a_vss (seq 0 n)) (S j) (nonce j) =
  Ok ({| sk_y := psum a_ys; sk_x := a_x j |}, a_pf j).
Proof.
  apply phase2_18_ok. unfold a_ys. rewrite !map_length, seq_length.
  repeat (split; [first [reflexivity|lia]|]). split; [|split; [|split; [|reflexivity]]].
  - intros v Hv. apply in_map_iff in Hv. destruct Hv as (i & <- & Hi). apply in_seq in Hi. apply a_vss_ne. lia.
  - rewrite map_map. apply map_ext. intros i. unfold a_vss. rewrite dealt_shared. reflexivity.
  - rewrite map_map. apply map_ext. intros i. unfold a_vss. rewrite dealt_shared. reflexivity.
Qed.
Lemma a_dealt_at j : dealt_at (map a_vss (seq 0 n)) (S j) = a_x j.
Proof. unfold dealt_at, a_x. f_equal. rewrite map_map. apply map_ext. intros i. unfold a_vss. rewrite dealt_shared. reflexivity. Qed.
Lemma a_verify : (0 < n)%nat -> (forall i, (i < n)%nat -> (length (polys i) <= length (polys 0%nat))%nat) ->
  kg_verify_dlog C Hf n (map a_pf (seq 0 n)) a_ys (map a_vss (seq 0 n)) = Ok tt.
Proof.
  intros Hn Hl. apply verify_dlog_ok. unfold a_ys. rewrite !map_length, seq_length. split; [reflexivity|]. split; [reflexivity|]. split.
  - assert (Hs : seq 0 n = 0%nat :: seq 1 (n - 1)) by (destruct n; [lia|cbn [seq]; f_equal; f_equal; lia]).
    rewrite Hs. cbn [map]. exists (a_vss 0), (map a_vss (seq 1 (n - 1))). split; [reflexivity|].
    split; [apply a_vss_ne; lia|]. intros v Hv. apply in_map_iff in Hv. destruct Hv as (j & <- & Hj). apply in_seq in Hj.
    unfold a_vss. cbn [vs_com]. rewrite !map_length. apply Hl. lia.
  - intros i Hi. split; [exact Hi|]. exists (a_pf i). split; [|split].
    + rewrite nth_error_map. rewrite (nth_error_nth' _ 0%nat) by (rewrite seq_length; lia). rewrite seq_nth by lia. reflexivity.
    + apply dlog_complete.
    + rewrite a_dealt_at. reflexivity.
Qed.
Lemma a_y : psum a_ys = smul (fsum (map (fun i => hd f0 (polys i)) (seq 0 n))) gen.
Proof.
  unfold a_ys. apply dlog_inj. rewrite dlog_psum, map_map, dlog_smul, dlog_gen.
  rewrite (map_ext _ (fun i => hd f0 (polys i))); [ring|]. intros i. rewrite dlog_smul, dlog_gen. ring.
Qed.
Lemma a_high {E} a s : (0 < n)%nat -> length (polys 0%nat) = S (S t) -> (forall i, (0 < i < n)%nat -> length (polys i) = S t) ->
  last (polys 0%nat) f0 = a -> a <> f0 -> NoDup s -> (forall i, In i s -> (i < n)%nat) -> Z.of_nat n < q -> length s = S t ->
  exists w, vss_reconstruct (E := E) (a_vss 1) s (map a_x s) = Ok w /\ w <> fsum (map (fun i => hd f0 (polys i)) (seq 0 n)).
Proof.
  intros Hn H0 Hr Hlast Ha Hnd Hin Hq Hs.
  assert (Hsq : seq 0 n = 0%nat :: seq 1 (n - 1)) by (destruct n; [lia|cbn [seq]; f_equal; f_equal; lia]).
  set (rest := poly_sum (map polys (seq 1 (n - 1)))).
  assert (Hp0 : polys 0%nat = removelast (polys 0%nat) ++ [a]).
  { rewrite <- Hlast. apply app_removelast_last. intros E0. rewrite E0 in H0. discriminate. }
  set (l := removelast (polys 0%nat)) in *.
  assert (Hll : length l = S t).
  { apply (f_equal (@length _)) in Hp0. rewrite app_length in Hp0. cbn [length] in Hp0. lia. }
  assert (Hrl : (length rest <= S t)%nat).
  { apply length_poly_sum. intros f Hf'. apply in_map_iff in Hf'. destruct Hf' as (i & <- & Hi). apply in_seq in Hi. rewrite Hr by lia. lia. }
  assert (Hsum : poly_sum (map polys (seq 0 n)) = padd2 C l rest ++ [a]).
  { rewrite Hsq. cbn [map]. unfold poly_sum at 1. cbn [fold_right]. fold (poly_sum (map polys (seq 1 (n - 1)))). fold rest.
    rewrite Hp0. apply padd2_long. lia. }
  assert (Hx : map a_x s = map (fun i => peval (padd2 C l rest ++ [a]) (fidx (i + 1))) s).
  { apply map_ext. intros i. rewrite <- Hsum, peval_poly_sum, map_map, Nat.add_1_r. reflexivity. }
  rewrite Hx.
  destruct (reconstruct_high (E := E) (a_vss 1) (padd2 C l rest) a n s) as (w & Hw & Hwn); try assumption.
  - rewrite length_padd2. lia.
  - exists w. split; [exact Hw|]. rewrite <- Hsum, hd_poly_sum, map_map in Hwn. exact Hwn.
Qed.
End Any.

(** ** A dealer who gives different polynomials to different parties *)
Lemma fidx_S i : fidx (C := C) (S i) = (fidx i + f1)%Fq.
Proof.
  unfold fidx. replace (Z.of_nat (S i)) with (Z.of_nat i + 1) by lia. rewrite of_Z_add. reflexivity.
Qed.
Lemma fidx_0 : fidx (C := C) 0 = f0. Proof. reflexivity. Qed.

(** Two key vectors: [1] and [2] are honest and hold valid shares; the dealer [0] used f towards [1] and
    f + c x (x-1) towards [2]. *)
Lemma framing (u a c : F) (g1 g2 : list F) (nonce : nat -> F) :
  3 < q -> c <> f0 -> length g1 = 2%nat -> length g2 = 2%nat ->
  let f := [u; a] in let f' := [u; (a - c)%Fq; c] in
  let V p := {| vs_t := 1; vs_n := 3; vs_com := map (fun c => smul c gen) p |} in
  let ys := [smul u gen; smul (hd f0 g1) gen; smul (hd f0 g2) gen] in
  let vs1 := [V f; V g1; V g2] in let vs2 := [V f'; V g1; V g2] in
  let at_ p i := peval p (fidx i) in
  let x0 := (at_ f 1%nat + (at_ g1 1%nat + at_ g2 1%nat))%Fq in
  let x1 := fsum [at_ f 2%nat; at_ g1 2%nat; at_ g2 2%nat] in
  let x2 := fsum [at_ f' 3%nat; at_ g1 3%nat; at_ g2 3%nat] in
  let proofs := [dlog_prove Hf x0 (nonce 0%nat); dlog_prove Hf x1 (nonce 1%nat); dlog_prove Hf x2 (nonce 2%nat)] in
  kg_phase2 C Hf 3 ys [at_ f 2%nat; at_ g1 2%nat; at_ g2 2%nat] vs1 2 (nonce 1%nat) =
    Ok ({| sk_y := psum ys; sk_x := x1 |}, dlog_prove Hf x1 (nonce 1%nat)) /\
  kg_phase2 C Hf 3 ys [at_ f' 3%nat; at_ g1 3%nat; at_ g2 3%nat] vs2 3 (nonce 2%nat) =
    Ok ({| sk_y := psum ys; sk_x := x2 |}, dlog_prove Hf x2 (nonce 2%nat)) /\
  kg_verify_dlog C Hf 3 proofs ys vs1 = Err {| me_kind := EBadDlogProof; me_bad := [2%nat] |} /\
  kg_verify_dlog C Hf 3 proofs ys vs2 = Err {| me_kind := EBadDlogProof; me_bad := [1%nat] |}.
Proof.
  intros Hq Hc L1 L2 f f' V ys vs1 vs2 at_ x0 x1 x2 proofs.
  assert (HV : forall p, dealt (V p) = p) by (intros; apply dealt_shared).
  assert (N1 : g1 <> []) by (intros ->; discriminate). assert (N2 : g2 <> []) by (intros ->; discriminate).
  assert (HVne : forall p, p <> [] -> vs_com (V p) <> []) by (intros [|] Hp; [contradiction|discriminate]).
  assert (D1 : forall i, dealt_at vs1 i = (at_ f i + (at_ g1 i + (at_ g2 i + f0)))%Fq).
  { intros i. unfold dealt_at, vs1. cbn [map fsum]. rewrite !HV. reflexivity. }
  assert (D2 : forall i, dealt_at vs2 i = (at_ f' i + (at_ g1 i + (at_ g2 i + f0)))%Fq).
  { intros i. unfold dealt_at, vs2. cbn [map fsum]. rewrite !HV. reflexivity. }
  assert (E1 : at_ f' 1%nat = at_ f 1%nat).
  { unfold at_, f, f'. cbn [peval]. rewrite fidx_S, fidx_0. ring. }
  assert (Q2 : (f1 + f1)%Fq <> (f0 : F)).
  { intros E0. apply (fidx_nz C 2); [lia|lia|]. rewrite !fidx_S, fidx_0. transitivity (f1 + f1 : F)%Fq; [ring|exact E0]. }
  assert (Q3 : (f1 + f1 + f1)%Fq <> (f0 : F)).
  { intros E0. apply (fidx_nz C 3); [lia|lia|]. rewrite !fidx_S, fidx_0. transitivity (f1 + f1 + f1 : F)%Fq; [ring|exact E0]. }
  assert (E2 : at_ f' 2%nat = (at_ f 2%nat + (f1 + f1) * c)%Fq).
  { unfold at_, f, f'. cbn [peval]. rewrite !fidx_S, fidx_0. ring. }
  assert (E3 : at_ f' 3%nat = (at_ f 3%nat + (f1 + f1) * (f1 + f1 + f1) * c)%Fq).
  { unfold at_, f, f'. cbn [peval]. rewrite !fidx_S, fidx_0. ring. }
  assert (NZ2 : ((f1 + f1) * c)%Fq <> f0) by (apply fmul_nz; [apply cq_prime|assumption|assumption]).
  assert (NZ6 : ((f1 + f1) * (f1 + f1 + f1) * c)%Fq <> f0).
  { apply fmul_nz; [apply cq_prime| |assumption]. apply fmul_nz; [apply cq_prime|assumption|assumption]. }
  split; [|split; [|split]].
  - apply phase2_ok. cbn [length]. repeat (split; [first [reflexivity|lia]|]). split; [|split; [|split; [|reflexivity]]].
    + intros v [<-|[<-|[<-|[]]]]; apply HVne; try assumption. discriminate.
    + unfold vs1. cbn [map]. rewrite !HV. reflexivity.
    + unfold vs1, ys. cbn [map]. rewrite !HV. reflexivity.
  - apply phase2_ok. cbn [length]. repeat (split; [first [reflexivity|lia]|]). split; [|split; [|split; [|reflexivity]]].
    + intros v [<-|[<-|[<-|[]]]]; apply HVne; try assumption. discriminate.
    + unfold vs2. cbn [map]. rewrite !HV. reflexivity.
    + unfold vs2, ys. cbn [map]. rewrite !HV. reflexivity.
  - apply verify_dlog_err. split; [reflexivity|]. split; [reflexivity|]. split.
    + exists (V f), [V g1; V g2]. split; [reflexivity|]. split; [discriminate|].
      intros v [<-|[<-|[]]]; unfold V; cbn [vs_com]; rewrite !map_length; unfold f; cbn [length]; lia.
    + exists 2%nat, (dlog_prove Hf x2 (nonce 2%nat)). split; [reflexivity|]. split; [lia|]. split; [cbn; lia|]. split; [reflexivity|]. split.
      * intros [_ He]. rewrite dlog_prove_pk in He. apply (smul_gen_inj C) in He. rewrite D1 in He.
        apply NZ6. unfold x2 in He. cbn [fsum] in He. rewrite E3 in He.
        transitivity ((at_ f 3%nat + (f1 + f1) * (f1 + f1 + f1) * c + (at_ g1 3%nat + (at_ g2 3%nat + f0))) -
                      (at_ f 3%nat + (at_ g1 3%nat + (at_ g2 3%nat + f0))))%Fq; [ring|]. rewrite He. ring.
      * intros j p Hj Hp. destruct j as [|[|j]]; [| |lia]; cbn in Hp; injection Hp as <-.
        -- split; [apply dlog_complete|]. rewrite dlog_prove_pk, D1. f_equal. unfold x0. ring.
        -- split; [apply dlog_complete|]. rewrite dlog_prove_pk, D1. reflexivity.
  - apply verify_dlog_err. split; [reflexivity|]. split; [reflexivity|]. split.
    + exists (V f'), [V g1; V g2]. split; [reflexivity|]. split; [discriminate|].
      intros v [<-|[<-|[]]]; unfold V; cbn [vs_com]; rewrite !map_length; unfold f'; cbn [length]; lia.
    + exists 1%nat, (dlog_prove Hf x1 (nonce 1%nat)). split; [reflexivity|]. split; [lia|]. split; [cbn; lia|]. split; [reflexivity|]. split.
      * intros [_ He]. rewrite dlog_prove_pk in He. apply (smul_gen_inj C) in He. rewrite D2 in He.
        apply NZ2. unfold x1 in He. cbn [fsum] in He. rewrite E2 in He.
        transitivity ((at_ f 2%nat + (f1 + f1) * c + (at_ g1 2%nat + (at_ g2 2%nat + f0))) -
                      (at_ f 2%nat + (at_ g1 2%nat + (at_ g2 2%nat + f0))))%Fq; [ring|]. rewrite He. ring.
      * intros j p Hj Hp. destruct j as [|j]; [|lia]. cbn in Hp; injection Hp as <-.
        split; [apply dlog_complete|]. rewrite dlog_prove_pk, D2, E1. f_equal. unfold x0. ring.
Qed.

(** ** Refresh *)
(** A refresh gives party i the increments (fu i, fx i); the x-increments are values of a polynomial with zero constant term. *)
Definition refresh_once (fu fx : nat -> F) (st : nat -> party_private C) : nat -> party_private C :=
  fun i => update_private_key (st i) (fu i) (fx i).
Lemma refresh_shares : forall (zs : list (list F)) (st : nat -> party_private C) (cs : list F) (fus : list F -> nat -> F),
  (forall i, pr_x (st i) = peval cs (fidx (i + 1))) ->
  forall i, pr_x (fold_left (fun s z => refresh_once (fus z) (fun i => peval z (fidx (i + 1))) s) zs st i) =
            peval (fold_left (padd2 C) zs cs) (fidx (i + 1)).
Proof.
  induction zs as [|z zs IH]; intros st cs fus H i; cbn [fold_left]; [apply H|].
  apply IH. intros j. unfold refresh_once, update_private_key. cbn [pr_x]. rewrite H, peval_padd2. reflexivity.
Qed.
Lemma refresh_hd : forall (zs : list (list F)) cs, (forall z, In z zs -> hd f0 z = f0) -> hd f0 (fold_left (padd2 C) zs cs) = hd f0 cs.
Proof.
  induction zs as [|z zs IH]; intros cs H; cbn [fold_left]; [reflexivity|].
  rewrite IH by (intros w Hw; apply H; right; assumption). rewrite (hd_padd2 C), (H z) by (left; reflexivity). ring.
Qed.
Lemma refresh_len : forall (zs : list (list F)) cs k, (length cs <= k)%nat -> (forall z, In z zs -> (length z <= k)%nat) ->
  (length (fold_left (padd2 C) zs cs) <= k)%nat.
Proof.
  induction zs as [|z zs IH]; intros cs k H1 H2; cbn [fold_left]; [assumption|].
  apply IH; [|intros w Hw; apply H2; right; assumption]. rewrite length_padd2. specialize (H2 z (or_introl eq_refl)). lia.
Qed.
Lemma fsum_map_add2 {A} (f g : A -> F) (l : list A) : fsum (map (fun v => (f v + g v)%Fq) l) = (fsum (map f l) + fsum (map g l))%Fq.
Proof. induction l as [|a l IH]; cbn [map fsum]; [ring|]. rewrite IH. ring. Qed.
Lemma fadd_0_r' (a : F) : (a + f0)%Fq = a.
Proof. ring. Qed.
Lemma psum_smul_map {A} (f : A -> F) (l : list A) : psum (map (fun v => smul (f v) (gen : pt C)) l) = smul (fsum (map f l)) gen.
Proof.
  apply dlog_inj. rewrite dlog_psum, map_map, dlog_smul, dlog_gen.
  rewrite (map_ext _ f); [ring|]. intros i. rewrite dlog_smul, dlog_gen. ring.
Qed.
(** Sum of the public shares weighted by the Lagrange coefficients. *)
Lemma weighted_pk {E} (v : vss C) (cs : list F) s : NoDup s -> (forall i, In i s -> (i < vs_n v)%nat) -> Z.of_nat (vs_n v) < q ->
  s <> [] -> (length cs <= length s)%nat ->
  exists ws, omapM (E := E) (fun i => kg_update_commitment (smul (peval cs (fidx (i + 1))) (gen : pt C)) v i s) s = Ok ws /\ psum ws = smul (hd f0 cs) gen.
Proof.
  intros Hnd Hin Hq Hne Hl.
  exists (map (fun i => smul (fmul (lam (vs_n v) s i) (peval cs (fidx (i + 1)))) gen) s). split.
  - apply omapM_all. intros i Hi. unfold kg_update_commitment. rewrite (map_share_ok C) by (auto; apply Hin; assumption).
    cbn [obind]. f_equal. apply dlog_inj. rewrite !dlog_smul, dlog_gen. ring.
  - rewrite psum_smul_map. f_equal. apply lam_sum; assumption.
Qed.
Lemma omapM_nth {E A B} (g : A -> B) (l : list A) n : length l = n -> (0 < n)%nat ->
  omapM (E := E) (fun i => let* p := nth_o l i in Ok (g p)) (seq 0 n) = Ok (map g l).
Proof.
  intros Hl Hn. destruct l as [|a0 l0]; [cbn in Hl; lia|]. set (l := a0 :: l0) in *.
  rewrite (omapM_all _ (fun i => g (nth i l a0))).
  - f_equal. rewrite <- (map_map (fun i => nth i l a0) g). f_equal. subst n. clear. generalize dependent l. intros l.
    induction l as [|a l IH]; [reflexivity|]. cbn [length seq map]. rewrite <- seq_shift, map_map. f_equal. exact IH.
  - intros i Hi. apply in_seq in Hi. unfold nth_o. rewrite (nth_error_nth' l a0) by lia. reflexivity.
Qed.
Lemma omapM_ext_in {E A B} (f g : A -> outcome E B) (l : list A) : (forall x, In x l -> f x = g x) -> omapM f l = omapM g l.
Proof.
  induction l as [|a l IH]; intros H; [reflexivity|]. cbn [omapM]. rewrite (H a) by (left; reflexivity).
  destruct (g a); cbn [obind]; [|reflexivity|reflexivity]. rewrite IH by (intros x Hx; apply H; right; assumption). reflexivity.
Qed.
Lemma hd_refreshed (cs zs : list (list F)) : (forall z, In z zs -> hd f0 z = f0) ->
  hd f0 (fold_right (padd2 C) [] (cs ++ zs)) = fsum (map (fun c => hd f0 c) cs).
Proof.
  intros H. induction cs as [|c cs IH]; cbn [app fold_right map fsum].
  - induction zs as [|z zs IH]; cbn [fold_right]; [reflexivity|]. rewrite hd_padd2, IH by (intros w Hw; apply H; right; assumption).
    rewrite (H z) by (left; reflexivity). ring.
  - rewrite hd_padd2, IH. reflexivity.
Qed.
End P.
Arguments peer_ok {_}. Arguments dealer_ok {_}. Arguments pk_ok {_}. Arguments refresh_once {_}. Arguments coms_fit {_}.

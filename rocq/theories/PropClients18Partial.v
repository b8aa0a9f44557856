(** C132: what a GG18 signer's partial signature is made of. *)
From Coq Require Import String Ascii ZArith NArith Bool Lia List Field.
From Verif Require Import ZArithX Fq Curve Toy Outcome Sigma SigmaProofs Bytes Vss VssProofs Ecdsa KeygenExtra SignRunProofs Gg18RunProofs Mp MpProofs Paillier Mta Gg20Keygen Gg20Sign Gg18Keygen Gg18Sign Gg18SignProofs KeygenRun KeygenProofs NetSim
  Manager18 Manager18Proofs Clients18 Clients18Proofs Clients18Prog Clients18Rounds Clients18KgProofs Clients18Ends PropKeygen PropSign18 PropManager18 Codec PropClients18 PropSign PropClients18Sign PropClients18Exact SmTags PropClients18Order PropSignChecks.
From Verif Require Import PropRange MtaProofs PropClients18Delta.
Import ListNotations.
Local Open Scope nat_scope.

Section Partial.
Context (C : Curve).
Notation q := (cq C).
Notation F := (Fq q).
Context (Hb : list Z -> Z) (Hz : hashZ C) (Hf : hashF C).
Context (j_id : json Z) (j_1 : json (Z * msg_a)) (j_mb : json (msg_b C * msg_b C)) (j_F : json F) (j_dg : json (sign_dec C)) (j_com : json Z)
  (j_5a : json (dec5a C * heg_proof C * dlog_proof C)) (j_5d : json (dec5d C)).
Add Field cfpartial : (C_field C).
Notation sclient := (sign18_client C Hb Hz Hf j_id j_1 j_mb j_F j_dg j_com j_5a j_5d).
(** k times the client's own factor, plus the decrypted answers minus its own masks *)
Definition mta_sum (m i : nat) (k : party18 C) (kn own : F) (mb : nat -> msg_b C) (bt : nat -> Z) : F :=
  fadd (fmul kn own) (fsum (map (fun j => fsub (of_Z q (Paillier.dec (p18_p1 k) (p18_p2 k) (mb_c (mb j)))) (of_Z q (bt j))) (others i m))).
(** Both answers of every other signer pass, the first for the point it opened in round 4, the second for its share of the key; the client's own delta is made of the first answers and its own gamma; the nonce point R is
    the one with (sum of delta_j) R = sum of Gamma_j; and the text is msg k + r sigma, where r is the x-coordinate of R and sigma is made of the second answers and the client's own share times its coefficient. *)
Definition partial_ok (m i id : nat) (u : string) (k : party18 C) (r : rand18 C) (msg : Z) (g : list rq) (v : string) : Prop :=
  exists (ids : nat -> Z) (a2 : nat -> msg_b C * msg_b C) (delta : nat -> F) (o4 : nat -> sign_dec C) (R : pt C) (x yc : Z) (vi : vss C) (li : F),
    let sv := map (fun j => Z.to_nat (ids j - 1)) (seq 0 m) in
    hears j_id m i u "round0" ids g /\ ids i = Z.of_nat id /\ (forall j, j < m -> (1 <= ids j)%Z) /\ hears2 j_mb m i u "round2" a2 g /\ hears j_F m i u "round3" delta g /\ hears j_dg m i u "round4" o4 g /\
    nth_error (p18_vss k) (id - 1) = Some vi /\ map_share (E := error) (vs_n vi) (id - 1) sv = Ok li /\
    but_me m i (fun j => answer_ok Hf (fst (a2 j)) (p18_p1 k) (p18_p2 k) (r18_k r) /\ answer_ok Hf (snd (a2 j)) (p18_p1 k) (p18_p2 k) (r18_k r) /\
      dp_pk (mb_b (fst (a2 j))) = sd_g (o4 j) /\ share_point C k sv (Z.to_nat (ids j - 1)) (dp_pk (mb_b (snd (a2 j))))) /\
    delta i = mta_sum m i k (r18_k r) (r18_gamma r) (fun j => fst (a2 j)) (fun j => br_bt (r18_bg r j)) /\ sd_g (o4 i) = smul (r18_gamma r) gen /\
    fsum (map delta (seq 0 m)) <> f0 /\ smul (fsum (map delta (seq 0 m))) R = psum (map (fun j => sd_g (o4 j)) (seq 0 m)) /\ coords R = Some (x, yc) /\
    v = js j_F (fadd (fmul (of_Z q msg) (r18_k r)) (fmul (of_Z q x) (mta_sum m i k (r18_k r) (fmul li (p18_x k)) (fun j => snd (a2 j)) (fun j => br_bt (r18_bw r j))))).

Ltac hear H J z x HX := apply hear_exchange in H; [|assumption|
    let E := fresh in intros E; apply bkey_inj in E; [destruct E as (_ & E & _); discriminate|reflexivity|reflexivity]];
  let I1 := fresh in let J' := fresh in destruct H as (z & x & HX & I1 & H); apply (fun h => hears_incl _ _ _ _ _ _ _ _ h J) in HX; pose proof (incl_tran I1 J) as J'; clear J I1; rename J' into J.
Ltac nd NX H J x E := let Q := fresh in let H' := fresh in let J' := fresh in
  destruct (talk_need _ _ _ _ H) as (x & E & Q); destruct (NX _ _ _ Q H J) as [H' J']; clear H J Q; rename H' into H; rename J' into J.
Ltac later H := repeat match type of H with
  | In _ (talk (need _ _) _) => let Q := fresh in destruct (talk_need _ _ _ _ H) as (? & _ & Q); rewrite Q in H; clear Q
  | In _ (talk (exchange _ _ _ _ _ _ _) _) => apply hear_exchange in H; [destruct H as (? & ? & _ & _ & H)|assumption|
    let E := fresh in intros E; apply bkey_inj in E; [destruct E as (_ & E & _); discriminate|reflexivity|reflexivity]]
  | In _ (talk (let '_ := g18_5a _ _ _ _ _ _ _ in _) _) => unfold g18_5a in H; cbv beta iota zeta in H
  end.

Lemma partial_talk m i id u k (r : rand18 C) msg z v G : i < m -> incl (talk (sclient m (S i) id u k r msg) z) G -> In (Stored (bkey (num i) "round9" u) v) (talk (sclient m (S i) id u k r msg) z) ->
  partial_ok m i id u k r msg G v.
Proof.
  intros L J H. unfold sign18_client in H, J. cbv zeta in H, J. fold (num i) in H, J. replace (S i - 1) with i in H, J by lia.
  assert (NX : forall (p p' : prog (sig_recid C)) z, p = p' -> In (Stored (bkey (num i) "round9" u) v) (talk p z) -> incl (talk p z) G -> In (Stored (bkey (num i) "round9" u) v) (talk p' z) /\ incl (talk p' z) G) by (intros p p' z' -> A B; auto).
  hear H J z0 x0 H0. nd NX H J ids E0. nd NX H J sv E1. nd NX H J kys HK. nd NX H J xi E2.
  assert (KX : exists ix vi li, nth_o (E := error) sv i = Ok ix /\ nth_error (p18_vss k) ix = Some vi /\ map_share (E := error) (vs_n vi) ix sv = Ok li /\ sg_k kys = r18_k r /\ sg_gamma kys = r18_gamma r /\
    sg_w kys = fmul li (p18_x k) /\ sg_ggamma kys = smul (r18_gamma r) gen).
  { apply obind_ok in HK. destruct HK as (ix & X1 & HK). apply obind_ok in HK. destruct HK as (vv & X2 & HK). unfold g18_create in HK. apply obind_ok in HK. destruct HK as (li & X3 & HK). injection HK as <-. apply nth_o_some in X2. exists ix, vv, li. auto 10. }
  destruct KX as (ix & vi & li & KI & KV & KL & KK & KG & KW & KGG). unfold g18_phase1 in H, J. cbv beta iota in H, J.
  hear H J z1 c1 HC1. nd NX H J bc1 HB. nd NX H J tt0 E3. nd NX H J bs E4.
  set (dv := {| mb_c := 0%Z; mb_b := dlog_prove Hf f0 f0; mb_bt := dlog_prove Hf f0 f0 |} : msg_b C).
  destruct (hear2_p2p (dv, dv) _ _ _ _ _ _ _ _ _ _ L H) as (z2 & a2 & HA2 & I2 & H').
  { intros j E. revert E. apply bkey_pkey; [reflexivity|apply round_ok_r; reflexivity]. }
  apply (fun h => hears2_incl _ _ _ _ _ _ _ _ h J) in HA2. pose proof (incl_tran I2 J) as J'. clear H J I2. rename H' into H. rename J' into J.
  nd NX H J am E5. nd NX H J dl E6. nd NX H J sigma E7.
  hear H J z3 delta HD. nd NX H J deltas E8. nd NX H J dinv E9. hear H J z4 o4 HO4. nd NX H J decs E10. nd NX H J decs' E11. nd NX H J bc1' E12. nd NX H J R0 E13. nd NX H J s E14.
  unfold g18_5a in H, J. cbv beta iota zeta in H, J.
  hear H J z5 c5 HC5. nd NX H J coms5 E15. hear H J z6 o6 HO6. nd NX H J all6 E16. nd NX H J all6' E17. nd NX H J coms5' E18. nd NX H J cd E19.
  hear H J z7 c7 HC7. nd NX H J coms7 E20. hear H J z8 o8 HO8. nd NX H J decs8 E21. nd NX H J si E22.
  assert (V : v = js j_F si).
  { clear - H L. apply own_exchange in H; [|exact L]. destruct H as [H|(a & b & H)]; [exact H|exfalso]. later H. exact H. }
  assert (SI : si = l18_s s).
  { unfold g18_5d in E22. do 3 (apply obind_ok in E22; destruct E22 as (? & _ & E22)). cbv zeta in E22. repeat match type of E22 with (if ?b then _ else _) = _ => destruct b end; try discriminate. injection E22 as <-. reflexivity. }
  subst si. clear E15 E16 E17 E18 E19 E20 E21 E22 HC5 HO6 HC7 HO8.
  rewrite map_map in HB. rewrite merge_with in HB by exact L. rewrite merge_with in E8 by exact L. rewrite merge_with in E10 by exact L. injection HB as <-. injection E8 as <-. injection E10 as <-.
  apply (remove_with _ _ _ _ _ L) in E11. apply (remove_with _ _ _ _ _ L) in E12. subst decs' bc1'.
  unfold g18_delta_inv in E9. destruct (finvert (fold_left fadd (map (with_own i dl delta) (seq 0 m)) f0)) as [dn|] eqn:FI; [|discriminate]. cbn [unwrap] in E9. injection E9 as ->. apply finvert_some in FI. destruct FI as [DN ->].
  rewrite fold_left_fadd in DN, E13, E14. rewrite fsum0 in DN, E13, E14. set (D := fsum (map (with_own i dl delta) (seq 0 m))) in *.
  set (ow4 := {| sd_blind := r18_blind r; sd_g := sg_ggamma kys |}) in *.
  apply g18_phase4_ok in E13. destruct E13 as (CK4 & ->).
  set (R := padd (smul (finv D) (psum (map (sd_g (C := C)) (map o4 (others i m))))) (smul (finv D) (sd_g ow4))) in *.
  unfold g18_local in E14. destruct (coords R) as [[x yc]|] eqn:ER; [|unfold x_coord in E14; rewrite ER in E14; discriminate].
  unfold x_coord in E14. rewrite ER in E14. cbn [option_map fst unwrap obind] in E14. rewrite of_Z_mod, KK in E14. injection E14 as <-. cbn [l18_s] in V.
  clear H J NX. rewrite merge_with in E0 by exact L. injection E0 as <-.
  rewrite omapM_map in E1. apply (omapM_val 0) in E1. destruct E1 as [E1 ->].
  assert (ID : forall j, j < m -> (1 <= with_own i (Z.of_nat id) x0 j)%Z).
  { intros j LJ. destruct (E1 j) as (y & Y); [apply in_seq; lia|]. destruct (Z.leb_spec 1 (with_own i (Z.of_nat id) x0 j)); [assumption|discriminate]. }
  set (w := with_own i (Z.of_nat id) x0) in *.
  assert (SV : map (fun j => val 0 (if (1 <=? w j)%Z then Ok (E := error) (Z.to_nat (w j - 1)) else Panic)) (seq 0 m) = map (fun j => Z.to_nat (w j - 1)) (seq 0 m)).
  { apply map_ext_in. intros j IJ. apply in_seq in IJ. rewrite (proj2 (Z.leb_le 1 (w j)) (ID j ltac:(lia))). reflexivity. }
  rewrite SV in *. clear SV E1. set (sv := map (fun j => Z.to_nat (w j - 1)) (seq 0 m)) in *.
  assert (NS : forall E j, j < m -> nth_o (E := E) sv j = Ok (Z.to_nat (w j - 1))) by (intros E j LJ; exact (nth_o_fun (fun j => Z.to_nat (w j - 1)) m j LJ)).
  rewrite combine_self, omapM_map in E5. cbn [fst snd] in E5. rewrite map_map, combine_self, omapM_map in E4. cbn [fst snd] in E4.
  apply (omapM_val ((dv, f0), (dv, f0))) in E4. destruct E4 as [E4 ->]. apply (omapM_val (f0, f0)) in E5. destruct E5 as [E5 ->].
  unfold g18_delta in E6. apply obind_ok in E6. destruct E6 as (tt1 & _ & E6). injection E6 as E6. rewrite KK, KG, fold_left_fadd, fsum_app, !map_map in E6.
  unfold g18_sigma in E7. apply obind_ok in E7. destruct E7 as (tt2 & _ & E7). injection E7 as E7. rewrite KK, KG, fold_left_fadd, fsum_app, !map_map in E7. rewrite KK in E5. rewrite KG in E4.
  assert (AN : forall j, In j (others i m) -> answer_ok Hf (fst (a2 j)) (p18_p1 k) (p18_p2 k) (r18_k r) /\ answer_ok Hf (snd (a2 j)) (p18_p1 k) (p18_p2 k) (r18_k r) /\
      share_point C k sv (Z.to_nat (w j - 1)) (dp_pk (mb_b (snd (a2 j))))).
  { intros j IJ. destruct (E5 j IJ) as (y & Y). apply obind_ok in Y. destruct Y as (al & A1 & Y). apply obind_ok in Y. destruct Y as (mi & A2 & Y).
    apply must_alpha in A1. destruct A1 as (x1 & A1 & _). apply must_alpha in A2. destruct A2 as (x2 & A2 & _). apply get_alpha_answer in A1. apply get_alpha_answer in A2.
    split; [apply A1|]. split; [apply A2|]. apply in_others in IJ. rewrite NS in Y by lia. cbn [obind] in Y. apply obind_ok in Y. destruct Y as (P & Y1 & Y). apply obind_ok in Y. destruct Y as (vv & Y2 & Y).
    apply obind_ok in Y. destruct Y as (gw & Y3 & Y). apply obind_ok in Y. destruct Y as (t9 & Y4 & _). apply nth_o_some in Y1. apply nth_o_some in Y2. apply (xi18_point C _ _ _ _ E2) in Y1. subst P.
    unfold g18_update_xi in Y3. apply obind_ok in Y3. destruct Y3 as (lj & Y3 & Q). injection Q as <-. destruct (pt_eqb _ _) eqn:PE in Y4; [|discriminate]. apply pt_eqb_eq in PE.
    exists vv, lj. split; [exact Y2|]. split; [exact Y3|]. rewrite PE. apply dlog_inj. rewrite !dlog_smul. ring. }
  assert (QA : forall j, In j (others i m) -> forall y, y = val (f0, f0) (
      let* alpha := must (omap fst (verify_get_alpha Hf (fst (a2 j)) (p18_p1 k) (p18_p2 k) (r18_k r))) in
      let* miu := must (omap fst (verify_get_alpha Hf (snd (a2 j)) (p18_p1 k) (p18_p2 k) (r18_k r))) in
      let* i := nth_o sv j in
      let* com := nth_o xi i in
      let* v := nth_o (p18_vss k) i in
      let* gw := g18_update_xi com v i sv in
      let* _ := oassert (pt_eqb (dp_pk (mb_b (snd (a2 j)))) gw) in
      Ok (alpha, miu)) -> fst y = of_Z q (Paillier.dec (p18_p1 k) (p18_p2 k) (mb_c (fst (a2 j)))) /\ snd y = of_Z q (Paillier.dec (p18_p1 k) (p18_p2 k) (mb_c (snd (a2 j))))).
  { intros j IJ y0 ->. destruct (E5 j IJ) as (y & Y). rewrite Y. cbn [val]. apply obind_ok in Y. destruct Y as (al & A1 & Y). apply obind_ok in Y. destruct Y as (mi & A2 & Y).
    apply must_alpha in A1. destruct A1 as (x1 & A1 & ->). apply get_alpha_answer in A1. apply must_alpha in A2. destruct A2 as (x2 & A2 & ->). apply get_alpha_answer in A2. do 5 (apply obind_ok in Y; destruct Y as (? & _ & Y)). injection Y as <-. split; [apply A1|apply A2]. }
  assert (MS : forall kn ow (mb : nat -> msg_b C) bt (fa fb : nat -> F), (forall j, In j (others i m) -> fa j = of_Z q (Paillier.dec (p18_p1 k) (p18_p2 k) (mb_c (mb j)))) -> (forall j, In j (others i m) -> fb j = fsub f0 (of_Z q (bt j))) ->
    fadd (fmul kn ow) (fadd f0 (fadd (fsum (map fa (others i m))) (fsum (map fb (others i m))))) = mta_sum m i k kn ow mb bt).
  { intros kn ow mb bt fa fb FA FB. unfold mta_sum. rewrite (map_ext_in _ _ _ FA), (map_ext_in _ _ _ FB), !fsum_map_sub, fsum_map_0. ring. }
  assert (DL : dl = mta_sum m i k (r18_k r) (r18_gamma r) (fun j => fst (a2 j)) (fun j => br_bt (r18_bg r j))).
  { rewrite <- E6. apply MS; intros j IJ; [exact (proj1 (QA j IJ _ eq_refl))|]. destruct (E4 j IJ) as (y & Y). rewrite Y. cbn [val]. apply obind_ok in Y. destruct Y as (ii & _ & Y). apply obind_ok in Y. destruct Y as (N & _ & Y). apply obind_ok in Y. destruct Y as (g & G1 & Y).
    apply obind_ok in Y. destruct Y as (w1 & _ & Y). injection Y as <-. cbn [fst snd]. apply must_ok in G1. destruct g as [gm gb]. apply mta_b_ok in G1. cbn [snd]. apply G1. }
  assert (SG : sigma = mta_sum m i k (r18_k r) (fmul li (p18_x k)) (fun j => snd (a2 j)) (fun j => br_bt (r18_bw r j))).
  { rewrite <- E7, <- KW. apply MS; intros j IJ; [exact (proj2 (QA j IJ _ eq_refl))|]. destruct (E4 j IJ) as (y & Y). rewrite Y. cbn [val]. apply obind_ok in Y. destruct Y as (ii & _ & Y). apply obind_ok in Y. destruct Y as (N & _ & Y). apply obind_ok in Y. destruct Y as (g & _ & Y).
    apply obind_ok in Y. destruct Y as (w1 & G1 & Y). injection Y as <-. cbn [fst snd]. apply must_ok in G1. destruct w1 as [gm gb]. apply mta_b_ok in G1. cbn [snd]. apply G1. }
  clear E6 E7 QA MS E4 E5.
  assert (IX : ix = id - 1). { rewrite NS in KI by exact L. unfold w in KI. rewrite with_own_at in KI. injection KI as <-. lia. }
  subst ix.
  exists w, a2, (with_own i dl delta), (with_own i ow4 o4), R, x, yc, vi, li. cbv zeta. fold sv D. rewrite !with_own_at.
  split; [apply hears_own, H0|]. split; [apply with_own_at|]. split; [exact ID|]. split; [exact HA2|]. split; [apply hears_own, HD|]. split; [apply hears_own, HO4|]. split; [exact KV|]. split; [exact KL|].
  split. { intros j Lj NJ. destruct (AN j) as (N1 & N2 & N3); [apply in_others; lia|]. split; [exact N1|]. split; [exact N2|]. split; [|exact N3]. rewrite with_own_ne by exact NJ. destruct (in_nth_others i m j L Lj NJ) as [n0 N0].
    destruct (CK4 n0 (mb_b (fst (a2 j)))) as (d & cc & D1 & _ & D3 & _); [rewrite !nth_error_map, N0; reflexivity|]. rewrite nth_error_map, N0 in D1. cbn [option_map] in D1. injection D1 as <-. exact D3. }
  split; [exact DL|]. split; [exact KGG|]. split; [exact DN|].
  split. { rewrite (psum_with C i m (fun j => sd_g (with_own i ow4 o4 j))) by exact L. rewrite with_own_at.
    replace (map (fun j => sd_g (with_own i ow4 o4 j)) (others i m)) with (map (fun j => sd_g (o4 j)) (others i m)) by (apply map_ext_in; intros j J; apply in_others in J; rewrite with_own_ne by lia; reflexivity).
    unfold R. rewrite map_map. set (PS := psum (map (fun j => sd_g (o4 j)) (others i m))). rewrite !(dlog_eq_iff C). autorewrite with dlog. field. exact DN. }
  split; [exact ER|]. rewrite V, SG. reflexivity.
Qed.

(** * C132 *)
(** Whatever the server holds, the other clients do and others store: when a signer is about to store its partial signature (round 9), the answers it was told in round 2 have passed, and the text is the one number that
    the checked answers, its own share and samples and the nonce point give (partial_ok). *)
Theorem C132_partial_signature_value oc ser par uuid (w : sys18 (sig_recid C)) l c m i id u k (r : rand18 C) msg v p' : i < m ->
  nth_error (y_cl w) c = Some (sclient m (S i) id u k r msg) ->
  nth_error (y_cl (exec18 oc ser par uuid w l)) c = Some (Put (bkey (num i) "round9" u) v p') ->
  partial_ok m i id u k r msg (log18 oc ser par uuid c w l) v.
Proof.
  intros L E E'. destruct (log_talk oc ser par uuid l w c _ E) as (p1 & E1 & Q). assert (p1 = Put (bkey (num i) "round9" u) v p') by congruence. subst p1. destruct (Q []) as [Q1 _]. rewrite app_nil_r in Q1.
  assert (H : partial_ok m i id u k r msg (talk (sclient m (S i) id u k r msg) (told (log18 oc ser par uuid c w l))) v).
  { apply (partial_talk m i id u k r msg (told (log18 oc ser par uuid c w l)) v _ L (incl_refl _)). rewrite Q1. apply in_app_iff. right. left. reflexivity. }
  destruct H as (ids & a2 & delta & o4 & R & x & yc & vi & li & H). cbv zeta in H. destruct H as (H1 & H2 & HI & H3 & H4 & H5 & H). exists ids, a2, delta, o4, R, x, yc, vi, li. cbv zeta.
  split; [exact (hears_log j_id m i u "round0" ids oc ser par uuid w l c _ _ E E' H1)|]. split; [exact H2|]. split; [exact HI|].
  split; [intros j J NJ; destruct (H3 j J NJ) as (t & T & X); exists t; split; [exact (told_log oc ser par uuid w l c _ _ _ _ E E' T)|exact X]|].
  split; [exact (hears_log j_F m i u "round3" delta oc ser par uuid w l c _ _ E E' H4)|]. split; [exact (hears_log j_dg m i u "round4" o4 oc ser par uuid w l c _ _ E E' H5)|exact H].
Qed.

(** A key file as key generation leaves it (C125): n dealers, polynomials of degree below m, the share is the sum of their values at the party's number, and the public key is the sum of their constant terms. *)
Definition key_file_ok (m n id : nat) (k : party18 C) : Prop :=
  (Z.of_nat n < q)%Z /\ length (p18_vss k) = n /\ (forall v, In v (p18_vss k) -> vs_n v = n /\ length (vs_com v) <= m) /\
  p18_x k = fsum (map (fun v => peval (map dlog (vs_com v)) (fidx id)) (p18_vss k)) /\
  dlog (p18_y k) = fsum (map (fun v => hd f0 (map dlog (vs_com v))) (p18_vss k)).
(** With such a file the partial signature of a signer that was told different numbers is k (m + r x) for the secret x of the public key, plus r times what the other signers' masks and its own leave: whatever the other
    signers and the server do, they can shift it only through the points that come with their second answers. *)
Theorem C132_partial_signature_of_key oc ser par uuid (w : sys18 (sig_recid C)) l c m n i id u k (r : rand18 C) msg v p' : i < m -> key_file_ok m n id k ->
  nth_error (y_cl w) c = Some (sclient m (S i) id u k r msg) ->
  nth_error (y_cl (exec18 oc ser par uuid w l)) c = Some (Put (bkey (num i) "round9" u) v p') ->
  exists (ids : nat -> Z) (a2 : nat -> msg_b C * msg_b C) (R : pt C) (x yc : Z), let g := log18 oc ser par uuid c w l in
    hears j_id m i u "round0" ids g /\ ids i = Z.of_nat id /\ hears2 j_mb m i u "round2" a2 g /\ coords R = Some (x, yc) /\
    (NoDup (map ids (seq 0 m)) -> v = js j_F (fadd (fmul (r18_k r) (fadd (of_Z q msg) (fmul (of_Z q x) (dlog (p18_y k)))))
      (fmul (of_Z q x) (fsum (map (fun j => fsub (dlog (dp_pk (mb_bt (snd (a2 j))))) (of_Z q (br_bt (r18_bw r j)))) (others i m)))))).
Proof.
  intros L (NQ & NL & NV & NX & NY) E E'. destruct (C132_partial_signature_value oc ser par uuid w l c m i id u k r msg v p' L E E') as (ids & a2 & delta & o4 & R & x & yc & vi & li & H). cbv zeta in H.
  destruct H as (H1 & H2 & HI & H3 & _ & _ & KV & KL & AN & _ & _ & _ & _ & ER & V). exists ids, a2, R, x, yc. cbv zeta. split; [exact H1|]. split; [exact H2|]. split; [exact H3|]. split; [exact ER|]. intros ND. rewrite V. clear V E E'.
  set (sf := fun j => Z.to_nat (ids j - 1)) in *. set (sv := map sf (seq 0 m)) in *. set (P := dealt_sum (p18_vss k)).
  assert (ID1 : (1 <= id)%nat) by (specialize (HI i L); lia). assert (SI : sf i = id - 1) by (unfold sf; rewrite H2; lia).
  assert (BD : forall j, j < m -> sf j < n).
  { intros j LJ. rewrite <- NL. apply nth_error_Some. destruct (Nat.eq_dec j i) as [->|NJ]; [rewrite SI, KV; discriminate|]. destruct (AN j LJ NJ) as (_ & _ & _ & vj & lj & VJ & _). fold (sf j) in VJ. rewrite VJ. discriminate. }
  assert (BS : forall y, In y sv -> (y < n)%nat) by (intros y I; apply in_map_iff in I; destruct I as (j & <- & I); apply in_seq in I; apply BD; lia).
  assert (NS : NoDup sv).
  { unfold sv. apply (NoDup_map_inv Z.of_nat). rewrite map_map. assert (EQ : map (fun y => Z.of_nat (sf y)) (seq 0 m) = map (fun z => (z - 1)%Z) (map ids (seq 0 m))) by (rewrite map_map; apply map_ext_in; intros j I; apply in_seq in I; specialize (HI j ltac:(lia)); unfold sf; lia).
    rewrite EQ. apply FinFun.Injective_map_NoDup; [intros a b; lia|exact ND]. }
  assert (PV : forall s, fsum (map (fun v => peval (map dlog (vs_com v)) (fidx s)) (p18_vss k)) = peval P (fidx s)) by (intros s; symmetry; apply (peval_dealt_sum C)).
  assert (HP : hd f0 P = dlog (p18_y k)) by (rewrite NY; apply (hd_dealt_sum C)).
  assert (LP : length P <= m) by (apply (length_dealt_sum C); intros v0 I; apply NV, I).
  assert (SUM : fsum (map (fun j => fmul (lam n sv (sf j)) (peval P (fidx (sf j + 1)))) (seq 0 m)) = dlog (p18_y k)).
  { rewrite <- HP. transitivity (fsum (map (fun y => fmul (lam n sv y) (peval P (fidx (y + 1)))) (map sf (seq 0 m)))); [rewrite map_map; reflexivity|]. apply (lam_sum C n P sv NS BS NQ); [|unfold sv; rewrite map_length, seq_length; exact LP].
    unfold sv. destruct m; [lia|discriminate]. }
  assert (MS : forall s v0, nth_error (p18_vss k) s = Some v0 -> forall lj : F, map_share (E := error) (vs_n v0) s sv = Ok lj -> lj = lam n sv s).
  { intros s v0 NE0 lj M0. rewrite (proj1 (NV v0 (nth_error_In _ _ NE0))) in M0. rewrite (map_share_ok C n s sv NQ) in M0; [injection M0 as <-; reflexivity| |exact BS]. rewrite <- NL. apply nth_error_Some. congruence. }
  assert (ALP : forall j, In j (others i m) -> of_Z q (Paillier.dec (p18_p1 k) (p18_p2 k) (mb_c (snd (a2 j)))) = fadd (fmul (r18_k r) (fmul (lam n sv (sf j)) (peval P (fidx (sf j + 1))))) (dlog (dp_pk (mb_bt (snd (a2 j)))))).
  { intros j IJ. apply in_others in IJ. destruct (AN j ltac:(lia) ltac:(lia)) as (_ & (_ & _ & AE) & _ & vj & lj & VJ & MJ & PJ). fold (sf j) in VJ, MJ, PJ. rewrite PV in PJ. rewrite (MS _ _ VJ _ MJ) in PJ. rewrite PJ in AE. apply (f_equal dlog) in AE. autorewrite with dlog in AE.
    replace (sf j + 1) with (S (sf j)) by lia. transitivity (fmul (of_Z q (Paillier.dec (p18_p1 k) (p18_p2 k) (mb_c (snd (a2 j))))) f1); [ring|rewrite AE; ring]. }
  unfold mta_sum. rewrite (map_ext_in (fun j => fsub (of_Z q (Paillier.dec (p18_p1 k) (p18_p2 k) (mb_c (snd (a2 j))))) (of_Z q (br_bt (r18_bw r j))))
     (fun j => fadd (fmul (r18_k r) (fmul (lam n sv (sf j)) (peval P (fidx (sf j + 1))))) (fsub (dlog (dp_pk (mb_bt (snd (a2 j))))) (of_Z q (br_bt (r18_bw r j)))))) by (intros j IJ; rewrite (ALP j IJ); ring).
  rewrite fsum_map_add, fsum_map_mul_l. rewrite (MS _ _ KV _ KL), NX, PV, <- SUM. rewrite <- (fsum_others0 C (fun j => fmul (lam n sv (sf j)) (peval P (fidx (sf j + 1)))) i m L). rewrite SI. replace (id - 1 + 1) with id by lia. f_equal. ring.
Qed.
End Partial.
Print Assumptions C132_partial_signature_value.
Print Assumptions C132_partial_signature_of_key.

(** ** Example *)
(** The two signers of C98_example: after 72 steps of the schedule the first is about to store its partial signature. *)
Lemma expartial l v p' : nth_error (y_cl (exec18 true exser expar exuuid exw0 l)) 0 = Some (Put (bkey (num 0) "round9" "u") v p') ->
  partial_ok toy exHf2 (jof cZ) (jof (cpair cmb cmb)) (jof cF) (jof csd) 2 0 (nth 0 [2; 0] 0 + 1) "u" (exks18 0) (exrs18' 0) 9 (log18 true exser expar exuuid 0 exw0 l) v.
Proof. apply (C132_partial_signature_value toy exHb2 exH exHf2 (jof cZ) (jof (cpair cZ cma)) (jof (cpair cmb cmb)) (jof cF) (jof csd) (jof cZ) (jof (cpair (cpair cdec5a cheg) cdlog)) (jof cdec5d)
    true exser expar exuuid exw0 l 0 2 0 (nth 0 [2; 0] 0 + 1) "u" (exks18 0) (exrs18' 0) 9 v p'); [lia|reflexivity]. Qed.
Example C132_example : exists v p', nth_error (y_cl (exec18 true exser expar exuuid exw0 (firstn 72 exl0))) 0 = Some (Put (bkey (num 0) "round9" "u") v p') /\
  partial_ok toy exHf2 (jof cZ) (jof (cpair cmb cmb)) (jof cF) (jof csd) 2 0 (nth 0 [2; 0] 0 + 1) "u" (exks18 0) (exrs18' 0) 9 (exlog 72 0) v.
Proof.
  destruct (next_put_ex (nth_error (y_cl (exec18 true exser expar exuuid exw0 (firstn 72 exl0))) 0) (bkey (num 0) "round9" "u")) as (v & p' & E); [vm_compute; reflexivity|].
  exists v, p'. split; [exact E|exact (expartial _ v p' E)].
Qed.
(** The first signer's file is one key generation leaves, and it is told the number 1, its own being 3: the partial signature is of the form the theorem gives. *)
Definition file_okb (m n id : nat) (k : party18 toy) : bool :=
  ((Z.of_nat n <? cq toy)%Z && (length (p18_vss k) =? n)%nat && forallb (fun v => (vs_n v =? n)%nat && (length (vs_com v) <=? m)%nat) (p18_vss k) &&
   feqb (p18_x k) (fsum (map (fun v => peval (map dlog (vs_com v)) (fidx id)) (p18_vss k))) &&
   feqb (dlog (p18_y k)) (fsum (map (fun v => hd f0 (map dlog (vs_com v))) (p18_vss k))))%bool.
Lemma file_okb_ok m n id k : file_okb m n id k = true -> key_file_ok toy m n id k.
Proof.
  unfold file_okb. intros H. apply andb_prop in H. destruct H as [H H5]. apply andb_prop in H. destruct H as [H H4]. apply andb_prop in H. destruct H as [H H3]. apply andb_prop in H. destruct H as [H1 H2].
  split; [apply Z.ltb_lt, H1|]. split; [apply Nat.eqb_eq, H2|]. split; [|split; [destruct (feqb_spec (p18_x k) (fsum (map (fun v => peval (map dlog (vs_com v)) (fidx id)) (p18_vss k)))); [assumption|discriminate]|
    destruct (feqb_spec (dlog (p18_y k)) (fsum (map (fun v => hd f0 (map dlog (vs_com v))) (p18_vss k)))); [assumption|discriminate]]].
  intros v I. rewrite forallb_forall in H3. specialize (H3 v I). apply andb_prop in H3. destruct H3 as [A B]. apply Nat.eqb_eq in A. apply Nat.leb_le in B. auto.
Qed.
Definition told_number (K : string) (z : Z) (e : rq) : bool := match e with Told k t => if String.eqb k K then match sj (jof cZ) t with Some y => (y =? z)%Z | None => true end else true | _ => true end.
Lemma exofkey l v p' : nth_error (y_cl (exec18 true exser expar exuuid exw0 l)) 0 = Some (Put (bkey (num 0) "round9" "u") v p') ->
  file_okb 2 3 (nth 0 [2; 0] 0 + 1) (exks18 0) = true -> forallb (told_number (bkey (num 1) "round0" "u") 1) (log18 true exser expar exuuid 0 exw0 l) = true ->
  exists (a2 : nat -> msg_b toy * msg_b toy) (R : pt toy) (x yc : Z), coords R = Some (x, yc) /\
    v = js (jof cF) (fadd (fmul (r18_k (exrs18' 0)) (fadd (of_Z (cq toy) 9) (fmul (of_Z (cq toy) x) (dlog (p18_y (exks18 0))))))
      (fmul (of_Z (cq toy) x) (fsum (map (fun j => fsub (dlog (dp_pk (mb_bt (snd (a2 j))))) (of_Z (cq toy) (br_bt (r18_bw (exrs18' 0) j)))) (others 0 2))))).
Proof.
  intros E FO TN. apply file_okb_ok in FO.
  destruct (C132_partial_signature_of_key toy exHb2 exH exHf2 (jof cZ) (jof (cpair cZ cma)) (jof (cpair cmb cmb)) (jof cF) (jof csd) (jof cZ) (jof (cpair (cpair cdec5a cheg) cdlog)) (jof cdec5d)
    true exser expar exuuid exw0 l 0 2 3 0 (nth 0 [2; 0] 0 + 1) "u" (exks18 0) (exrs18' 0) 9 v p' ltac:(lia) FO eq_refl E) as (ids & a2 & R & x & yc & H). cbv zeta in H. destruct H as (H1 & H2 & _ & ER & V).
  exists a2, R, x, yc. split; [exact ER|]. apply V. destruct (H1 1 ltac:(lia) ltac:(lia)) as (t & T & SJ). rewrite forallb_forall in TN. specialize (TN _ T). unfold told_number in TN. rewrite String.eqb_refl, SJ in TN. apply Z.eqb_eq in TN.
  cbn [seq map]. rewrite H2, TN. constructor; [cbn; intros [A|[]]; discriminate|]. constructor; [intros []|constructor].
Qed.
Example C132_of_key_example : exists v p' (a2 : nat -> msg_b toy * msg_b toy) (R : pt toy) (x yc : Z), nth_error (y_cl (exec18 true exser expar exuuid exw0 (firstn 72 exl0))) 0 = Some (Put (bkey (num 0) "round9" "u") v p') /\ coords R = Some (x, yc) /\
    v = js (jof cF) (fadd (fmul (r18_k (exrs18' 0)) (fadd (of_Z (cq toy) 9) (fmul (of_Z (cq toy) x) (dlog (p18_y (exks18 0))))))
      (fmul (of_Z (cq toy) x) (fsum (map (fun j => fsub (dlog (dp_pk (mb_bt (snd (a2 j))))) (of_Z (cq toy) (br_bt (r18_bw (exrs18' 0) j)))) (others 0 2))))).
Proof.
  destruct (next_put_ex (nth_error (y_cl (exec18 true exser expar exuuid exw0 (firstn 72 exl0))) 0) (bkey (num 0) "round9" "u")) as (v & p' & E); [vm_compute; reflexivity|].
  destruct (exofkey _ v p' E ltac:(vm_compute; reflexivity) ltac:(vm_compute; reflexivity)) as (a2 & R & x & yc & H). exists v, p', a2, R, x, yc. split; [exact E|exact H].
Qed.

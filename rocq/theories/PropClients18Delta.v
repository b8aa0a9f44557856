(** C131: what a GG18 signer has checked when it stores its delta. *)
From Coq Require Import String Ascii ZArith NArith Bool Lia List Field.
From Verif Require Import ZArithX Fq Curve Toy Outcome Sigma SigmaProofs Bytes Vss VssProofs Ecdsa KeygenExtra SignRunProofs Gg18RunProofs Mp MpProofs Paillier Mta Gg20Keygen Gg20Sign Gg18Keygen Gg18Sign Gg18SignProofs KeygenRun KeygenProofs NetSim
  Manager18 Manager18Proofs Clients18 Clients18Proofs Clients18Prog Clients18Rounds Clients18KgProofs Clients18Ends PropKeygen PropSign18 PropManager18 Codec PropClients18 PropSign PropClients18Sign PropClients18Exact SmTags PropClients18Order PropSignChecks.
From Verif Require Import PropRange MtaProofs.
Import ListNotations.
Local Open Scope nat_scope.

(** What the others sent to the client in a round with one message per pair *)
Definition hears2 {A} (c : json A) (m i : nat) (u rd : string) (x : nat -> A) (g : list rq) : Prop :=
  forall j, j < m -> j <> i -> exists t, In (Told (pkey (num j) (num i) rd u) t) g /\ sj c t = Some (x j).
Section Heard2.
Context {R : Type}.
Lemma hear2_p2p {A} (dv : A) (c : json A) i n rd u (own : list A) (f : list A -> prog R) z k v : i < n -> In (Stored k v) (talk (exchange_p2p c (num i) n rd u own f) z) -> (forall j, k <> pkey (num i) j rd u) ->
  exists b x, hears2 c n i u rd x (talk (exchange_p2p c (num i) n rd u own f) z) /\ incl (talk (f (map x (others i n))) b) (talk (exchange_p2p c (num i) n rd u own f) z) /\ In (Stored k v) (talk (f (map x (others i n))) b).
Proof.
  intros L H NK. unfold exchange_p2p in *. rewrite talk_puts in *. apply in_app_iff in H. destruct H as [H|H].
  { apply in_map_iff in H. destruct H as (y & E & I). apply in_map_iff in I. destruct I as (y' & <- & _). cbn [fst snd] in E. injection E as E _. symmetry in E. destruct (NK _ E). }
  destruct (talk_gets _ _ _ _ _ H) as (a & b & -> & LA & E). rewrite E in *. rewrite map_length, others_num, map_length in LA by exact L.
  apply in_app_iff in H. destruct H as [H|H]; [apply in_map_iff in H; destruct H as (y & Y & _); discriminate|].
  destruct (talk_need _ _ _ _ H) as (m & P & NE). rewrite NE in *. destruct (parse_fun c dv i n a m L LA P) as (t & x & -> & -> & PX).
  exists b, x. split; [|split; [intros e I; apply in_app_iff; right; apply in_app_iff; right; exact I|exact H]].
  intros j J NJ. assert (IJ : In j (others i n)) by (apply in_others; lia). exists (t j). split; [|apply PX, IJ]. apply in_app_iff. right. apply in_app_iff. left. rewrite others_num, map_map, combine_map, map_map by exact L. cbn [fst snd].
  apply in_map_iff. exists j. auto.
Qed.
Lemma hears2_incl {A} (c : json A) m i u rd x g g' : hears2 c m i u rd x g -> incl g g' -> hears2 c m i u rd x g'.
Proof. intros H I j J NJ. destruct (H j J NJ) as (t & T & Q). exists t. split; [apply I, T|exact Q]. Qed.
Lemma told_log oc ser par uuid (w : sys18 R) l cl p p' k t : nth_error (y_cl w) cl = Some p -> nth_error (y_cl (exec18 oc ser par uuid w l)) cl = Some p' ->
  In (Told k t) (talk p (told (log18 oc ser par uuid cl w l))) -> In (Told k t) (log18 oc ser par uuid cl w l).
Proof.
  intros E E' T. destruct (log_talk oc ser par uuid l w cl p E) as (p1 & E1 & Q). destruct (Q []) as [Q1 _]. rewrite app_nil_r in Q1. rewrite Q1 in T.
  apply in_app_iff in T. destruct T as [T|T]; [exact T|]. exfalso. revert T. clear. induction p1 as [r| |k0 v p1 IH|k0 f IH]; cbn [talk]; try tauto. intros [T|T]; [discriminate|exact (IH T)].
Qed.
End Heard2.

Section Delta.
Context (C : Curve).
Notation q := (cq C).
Notation F := (Fq q).
Context (Hb : list Z -> Z) (Hz : hashZ C) (Hf : hashF C).
Context (j_id : json Z) (j_1 : json (Z * msg_a)) (j_mb : json (msg_b C * msg_b C)) (j_F : json F) (j_dg : json (sign_dec C)) (j_com : json Z)
  (j_5a : json (dec5a C * heg_proof C * dlog_proof C)) (j_5d : json (dec5d C)).
Add Field cfdelta : (C_field C).
Notation sclient := (sign18_client C Hb Hz Hf j_id j_1 j_mb j_F j_dg j_com j_5a j_5d).

(** The point with which party s (0-based number in key generation) has to answer: the value at s + 1 of the committed polynomials of the key file, times the coefficient that the file's parameters and the list of signers give it. *)
Definition share_point (k : party18 C) (sv : list nat) (s : nat) (P : pt C) : Prop :=
  exists v li, nth_error (p18_vss k) s = Some v /\ map_share (E := error) (vs_n v) s sv = Ok li /\
    P = smul (fmul li (fsum (map (fun v => peval (map dlog (vs_com v)) (fidx (S s))) (p18_vss k)))) gen.
(** Both answers of every other signer pass (answer_ok), the second for that signer's share of the key; the text is k gamma plus the decrypted answers minus the client's own masks. *)
Definition delta_ok (m i id : nat) (u : string) (k : party18 C) (r : rand18 C) (g : list rq) (v : string) : Prop :=
  exists (ids : nat -> Z) (a2 : nat -> msg_b C * msg_b C),
    let sv := map (fun j => Z.to_nat (ids j - 1)) (seq 0 m) in
    hears j_id m i u "round0" ids g /\ ids i = Z.of_nat id /\ (forall j, j < m -> (1 <= ids j)%Z) /\ hears2 j_mb m i u "round2" a2 g /\
    but_me m i (fun j => answer_ok Hf (fst (a2 j)) (p18_p1 k) (p18_p2 k) (r18_k r) /\ answer_ok Hf (snd (a2 j)) (p18_p1 k) (p18_p2 k) (r18_k r) /\
      share_point k sv (Z.to_nat (ids j - 1)) (dp_pk (mb_b (snd (a2 j))))) /\
    v = js j_F (fadd (fmul (r18_k r) (r18_gamma r)) (fsum (map (fun j => fsub (of_Z q (Paillier.dec (p18_p1 k) (p18_p2 k) (mb_c (fst (a2 j))))) (of_Z q (br_bt (r18_bg r j)))) (others i m)))).

Ltac hear H J z x HX := apply hear_exchange in H; [|assumption|
    let E := fresh in intros E; apply bkey_inj in E; [destruct E as (_ & E & _); discriminate|reflexivity|reflexivity]];
  let I1 := fresh in let J' := fresh in destruct H as (z & x & HX & I1 & H); apply (fun h => hears_incl _ _ _ _ _ _ _ _ h J) in HX; pose proof (incl_tran I1 J) as J'; clear J I1; rename J' into J.
Ltac nd NX H J x E := let Q := fresh in let H' := fresh in let J' := fresh in
  destruct (talk_need _ _ _ _ H) as (x & E & Q); destruct (NX _ _ _ Q H J) as [H' J']; clear H J Q; rename H' into H; rename J' into J.
Lemma must_alpha (o : outcome error (F * Z)) a : must (omap fst o) = Ok a -> exists x, o = Ok x /\ a = fst x.
Proof. destruct o as [x|e|]; cbn [omap must]; try discriminate. intros H. injection H as <-. eauto. Qed.
Lemma must_ok {A} (o : outcome error A) a : must o = Ok a -> o = Ok a.
Proof. destruct o as [x|e|]; cbn [must]; try discriminate. auto. Qed.
Lemma nth_o_some {E A} (l : list A) n x : nth_o (E := E) l n = Ok x -> nth_error l n = Some x.
Proof. unfold nth_o. destruct (nth_error l n); [intros H; injection H as <-; reflexivity|discriminate]. Qed.
Lemma xi18_point {E} (l : list (vss C)) xi s P : kg18_xi_commitments (E := E) l = Ok xi -> nth_error xi s = Some P -> P = smul (fsum (map (fun v => peval (map dlog (vs_com v)) (fidx (S s))) l)) gen.
Proof.
  unfold kg18_xi_commitments. intros H EP. apply (omapM_val pzero) in H. destruct H as [H ->]. rewrite nth_error_map in EP. destruct (nth_error (seq 1 (length l)) s) as [a|] eqn:ES; [|discriminate].
  cbn [option_map] in EP. injection EP as EP. assert (LS : s < length l) by (rewrite <- (seq_length (length l) 1); apply nth_error_Some; congruence).
  assert (a = S s) as -> by (apply (nth_error_nth _ _ 0) in ES; rewrite seq_nth in ES by exact LS; lia).
  destruct (H (S s)) as (y & Y); [apply in_seq; lia|]. rewrite Y in EP. cbn [val] in EP. subst y. apply obind_ok in Y. destruct Y as (ps & Y & Q). injection Q as <-.
  apply (omapM_val pzero) in Y. destruct Y as [Y ->]. rewrite fold_left_padd0, <- psum_smul_map. f_equal. apply map_ext_in. intros v IV. destruct (Y v IV) as (y & YV). rewrite YV. cbn [val].
  rewrite point_commitment_spec in YV. destruct (vs_com v); [discriminate|]. injection YV as <-. reflexivity.
Qed.
Lemma combine_self {A X} (g : X -> A) l : combine l (map g l) = map (fun j => (j, g j)) l.
Proof. rewrite <- (map_id l) at 1. apply combine_map. Qed.
Lemma own_exchange {R A} (c : json A) i n rd u (own : A) (f : list A -> prog R) z v : i < n -> In (Stored (bkey (num i) rd u) v) (talk (exchange c (num i) n rd u own f) z) ->
  v = js c own \/ exists a b, In (Stored (bkey (num i) rd u) v) (talk (f a) b).
Proof.
  intros L H. unfold exchange in H. cbn [talk] in H. destruct H as [H|H]; [injection H as <-; left; reflexivity|right]. destruct (talk_gets _ _ _ _ _ H) as (a & b & -> & _ & E). rewrite E in H. apply in_app_iff in H.
  destruct H as [H|H]; [apply in_map_iff in H; destruct H as (y & Y & _); discriminate|]. destruct (talk_need _ _ _ _ H) as (x & _ & Q). rewrite Q in H. eauto.
Qed.
Ltac later H := repeat match type of H with
  | In _ (talk (need _ _) _) => let Q := fresh in destruct (talk_need _ _ _ _ H) as (? & _ & Q); rewrite Q in H; clear Q
  | In _ (talk (exchange _ _ _ _ _ _ _) _) => apply hear_exchange in H; [destruct H as (? & ? & _ & _ & H)|assumption|
    let E := fresh in intros E; apply bkey_inj in E; [destruct E as (_ & E & _); discriminate|reflexivity|reflexivity]]
  | In _ (talk (let '_ := g18_5a _ _ _ _ _ _ _ in _) _) => unfold g18_5a in H; cbv beta iota zeta in H
  end.

Lemma delta_talk m i id u k (r : rand18 C) msg z v G : i < m -> incl (talk (sclient m (S i) id u k r msg) z) G -> In (Stored (bkey (num i) "round3" u) v) (talk (sclient m (S i) id u k r msg) z) ->
  delta_ok m i id u k r G v.
Proof.
  intros L J H. unfold sign18_client in H, J. cbv zeta in H, J. fold (num i) in H, J. replace (S i - 1) with i in H, J by lia.
  assert (NX : forall (p p' : prog (sig_recid C)) z, p = p' -> In (Stored (bkey (num i) "round3" u) v) (talk p z) -> incl (talk p z) G -> In (Stored (bkey (num i) "round3" u) v) (talk p' z) /\ incl (talk p' z) G) by (intros p p' z' -> A B; auto).
  hear H J z0 x0 H0. nd NX H J ids E0. nd NX H J sv E1. nd NX H J kys HK. nd NX H J xi E2.
  assert (KK : sg_k kys = r18_k r /\ sg_gamma kys = r18_gamma r).
  { apply obind_ok in HK. destruct HK as (ix & _ & HK). apply obind_ok in HK. destruct HK as (vv & _ & HK). unfold g18_create in HK. apply obind_ok in HK. destruct HK as (li & _ & HK). injection HK as <-. auto. }
  destruct KK as [KK KG]. unfold g18_phase1 in H, J. cbv beta iota in H, J.
  hear H J z1 c1 HC1. nd NX H J bc1 HB. nd NX H J tt0 E3. nd NX H J bs E4.
  set (dv := {| mb_c := 0%Z; mb_b := dlog_prove Hf f0 f0; mb_bt := dlog_prove Hf f0 f0 |} : msg_b C).
  destruct (hear2_p2p (dv, dv) _ _ _ _ _ _ _ _ _ _ L H) as (z2 & a2 & HA2 & I2 & H').
  { intros j E. revert E. apply bkey_pkey; [reflexivity|apply round_ok_r; reflexivity]. }
  apply (fun h => hears2_incl _ _ _ _ _ _ _ _ h J) in HA2. pose proof (incl_tran I2 J) as J'. clear H J I2. rename H' into H. rename J' into J.
  nd NX H J am E5. nd NX H J dl E6. nd NX H J sigma E7.
  assert (V : v = js j_F dl).
  { clear - H L. apply own_exchange in H; [|exact L]. destruct H as [H|(a & b & H)]; [exact H|exfalso]. later H. exact H. }
  clear H J NX. rewrite merge_with in E0 by exact L. injection E0 as <-.
  rewrite omapM_map in E1. apply (omapM_val 0) in E1. destruct E1 as [E1 ->].
  assert (ID : forall j, j < m -> (1 <= with_own i (Z.of_nat id) x0 j)%Z).
  { intros j LJ. destruct (E1 j) as (y & Y); [apply in_seq; lia|]. destruct (Z.leb_spec 1 (with_own i (Z.of_nat id) x0 j)); [assumption|discriminate]. }
  set (w := with_own i (Z.of_nat id) x0) in *.
  assert (SV : map (fun j => val 0 (if (1 <=? w j)%Z then Ok (E := error) (Z.to_nat (w j - 1)) else Panic)) (seq 0 m) = map (fun j => Z.to_nat (w j - 1)) (seq 0 m)).
  { apply map_ext_in. intros j IJ. apply in_seq in IJ. rewrite (proj2 (Z.leb_le 1 (w j)) (ID j ltac:(lia))). reflexivity. }
  rewrite SV in *. clear SV E1. set (sv := map (fun j => Z.to_nat (w j - 1)) (seq 0 m)) in *.
  assert (NS : forall E j, j < m -> nth_o (E := E) sv j = Ok (Z.to_nat (w j - 1))) by (intros E j LJ; exact (nth_o_fun (fun j => Z.to_nat (w j - 1)) m j LJ)).
  rewrite combine_self, omapM_map in E5. cbn [fst snd] in E5. rewrite map_map, combine_self, omapM_map in E4. cbn [fst snd] in E4.
  apply (omapM_val ((dv, f0), (dv, f0))) in E4. destruct E4 as [E4 ->]. apply (omapM_val (f0, f0)) in E5. destruct E5 as [E5 ->].
  unfold g18_delta in E6. apply obind_ok in E6. destruct E6 as (tt1 & _ & E6). injection E6 as E6. rewrite KK, KG, fold_left_fadd, fsum_app, !map_map in E6. rewrite KK in E5. rewrite KG in E4.
  exists w, a2. cbv zeta. fold sv. split; [apply hears_own, H0|]. split; [apply with_own_at|]. split; [exact ID|]. split; [exact HA2|].
  assert (AN : forall j, In j (others i m) -> answer_ok Hf (fst (a2 j)) (p18_p1 k) (p18_p2 k) (r18_k r) /\ answer_ok Hf (snd (a2 j)) (p18_p1 k) (p18_p2 k) (r18_k r) /\
      share_point k sv (Z.to_nat (w j - 1)) (dp_pk (mb_b (snd (a2 j))))).
  { intros j IJ. destruct (E5 j IJ) as (y & Y). apply obind_ok in Y. destruct Y as (al & A1 & Y). apply obind_ok in Y. destruct Y as (mi & A2 & Y).
    apply must_alpha in A1. destruct A1 as (x1 & A1 & _). apply must_alpha in A2. destruct A2 as (x2 & A2 & _). apply get_alpha_answer in A1. apply get_alpha_answer in A2.
    split; [apply A1|]. split; [apply A2|]. apply in_others in IJ. rewrite NS in Y by lia. cbn [obind] in Y. apply obind_ok in Y. destruct Y as (P & Y1 & Y). apply obind_ok in Y. destruct Y as (vv & Y2 & Y).
    apply obind_ok in Y. destruct Y as (gw & Y3 & Y). apply obind_ok in Y. destruct Y as (t9 & Y4 & _). apply nth_o_some in Y1. apply nth_o_some in Y2. apply (xi18_point _ _ _ _ E2) in Y1. subst P.
    unfold g18_update_xi in Y3. apply obind_ok in Y3. destruct Y3 as (li & Y3 & Q). injection Q as <-. destruct (pt_eqb _ _) eqn:PE in Y4; [|discriminate]. apply pt_eqb_eq in PE.
    exists vv, li. split; [exact Y2|]. split; [exact Y3|]. rewrite PE. apply dlog_inj. rewrite !dlog_smul. ring. }
  split; [intros j LJ NJ; apply AN, in_others; lia|]. rewrite V, <- E6. f_equal. f_equal. rewrite fsum_map_sub.
  match goal with |- ?lhs = _ => match lhs with context [fadd (fsum (map ?A (others i m))) (fsum (map ?B (others i m)))] =>
    assert (QA : map A (others i m) = map (fun j => of_Z q (Paillier.dec (p18_p1 k) (p18_p2 k) (mb_c (fst (a2 j))))) (others i m));
    [|assert (QB : map B (others i m) = map (fun j => fsub f0 (of_Z q (br_bt (r18_bg r j)))) (others i m))] end end.
  - apply map_ext_in. intros j IJ. destruct (E5 j IJ) as (y & Y). rewrite Y. cbn [val]. apply obind_ok in Y. destruct Y as (al & A1 & Y). apply obind_ok in Y. destruct Y as (mi & _ & Y).
    apply must_alpha in A1. destruct A1 as (x1 & A1 & ->). apply get_alpha_answer in A1. do 4 (apply obind_ok in Y; destruct Y as (? & _ & Y)). apply obind_ok in Y. destruct Y as (? & _ & Y). injection Y as <-. apply A1.
  - apply map_ext_in. intros j IJ. destruct (E4 j IJ) as (y & Y). rewrite Y. cbn [val]. apply obind_ok in Y. destruct Y as (ii & _ & Y). apply obind_ok in Y. destruct Y as (N & _ & Y). apply obind_ok in Y. destruct Y as (g & G1 & Y).
    apply obind_ok in Y. destruct Y as (w1 & _ & Y). injection Y as <-. cbn [fst snd]. apply must_ok in G1. destruct g as [gm gb]. apply mta_b_ok in G1. cbn [snd]. apply G1.
  - rewrite QA, QB, !fsum_map_sub, fsum_map_0. ring.
Qed.

(** * C131 *)
(** Whatever the server holds, the other clients do and others store: when a signer is about to store its delta (round 3), the answers it was told have passed the checks of delta_ok: the other signers' second
    answers are for their own shares of the key, and what it stores is its own k gamma plus the decrypted first answers minus its own masks. *)
Theorem C131_delta_only_after_checks oc ser par uuid (w : sys18 (sig_recid C)) l c m i id u k (r : rand18 C) msg v p' : i < m ->
  nth_error (y_cl w) c = Some (sclient m (S i) id u k r msg) ->
  nth_error (y_cl (exec18 oc ser par uuid w l)) c = Some (Put (bkey (num i) "round3" u) v p') ->
  delta_ok m i id u k r (log18 oc ser par uuid c w l) v.
Proof.
  intros L E E'. destruct (log_talk oc ser par uuid l w c _ E) as (p1 & E1 & Q). assert (p1 = Put (bkey (num i) "round3" u) v p') by congruence. subst p1. destruct (Q []) as [Q1 _]. rewrite app_nil_r in Q1.
  assert (H : delta_ok m i id u k r (talk (sclient m (S i) id u k r msg) (told (log18 oc ser par uuid c w l))) v).
  { apply (delta_talk m i id u k r msg (told (log18 oc ser par uuid c w l)) v _ L (incl_refl _)). rewrite Q1. apply in_app_iff. right. left. reflexivity. }
  destruct H as (ids & a2 & H). cbv zeta in H. destruct H as (H1 & H2 & H3 & H4 & H). exists ids, a2. cbv zeta.
  split; [exact (hears_log j_id m i u "round0" ids oc ser par uuid w l c _ _ E E' H1)|]. split; [exact H2|]. split; [exact H3|]. split; [|exact H].
  intros j J NJ. destruct (H4 j J NJ) as (t & T & X). exists t. split; [exact (told_log oc ser par uuid w l c _ _ _ _ E E' T)|exact X].
Qed.

Lemma fsum_pairs_cancel (f : nat -> nat -> F) m : fsum (map (fun i => fsum (map (fun j => fsub (f j i) (f i j)) (others i m))) (seq 0 m)) = f0.
Proof.
  transitivity (fsum (map (fun i => fsum (map (fun j => fsub (f j i) (f i j)) (seq 0 m))) (seq 0 m)) : F).
  - apply (f_equal fsum), map_ext_in. intros i I. apply in_seq in I. rewrite <- (fsum_others0 C (fun j => fsub (f j i) (f i j)) i m ltac:(lia)). ring.
  - transitivity (fsum (map (fun i => fsub (fsum (map (fun j => f j i) (seq 0 m))) (fsum (map (fun j => f i j) (seq 0 m)))) (seq 0 m)) : F).
    + apply (f_equal fsum), map_ext. intros i. apply fsum_map_sub.
    + rewrite fsum_map_sub, (fsum_swap C (fun i j => f i j)). ring.
Qed.
(** Each signer's answers of round 2 are encrypted for one receiver and travel over the server.  If what the signers were told in round 2 carries the points of the senders' own gammas and masks, then the deltas
    they are about to store, each in its own execution, add up to the product of the sums of their k and gamma.  Nothing is assumed about the ciphertexts, the key files, the numbers of round 0 or the other messages. *)
Theorem C131_deltas_add_up oc ser par uuid m u (w : nat -> sys18 (sig_recid C)) (l : nat -> list act18) (c id : nat -> nat) (k : nat -> party18 C) (r : nat -> rand18 C) (msg : nat -> Z) (v : nat -> F) (p : nat -> prog (sig_recid C)) : json_ok j_F ->
  (forall i, i < m -> nth_error (y_cl (w i)) (c i) = Some (sclient m (S i) (id i) u (k i) (r i) (msg i))) ->
  (forall i, i < m -> nth_error (y_cl (exec18 oc ser par uuid (w i) (l i))) (c i) = Some (Put (bkey (num i) "round3" u) (js j_F (v i)) (p i))) ->
  (forall i j t a, i < m -> j < m -> j <> i -> In (Told (pkey (num j) (num i) "round2" u) t) (log18 oc ser par uuid (c i) (w i) (l i)) -> sj j_mb t = Some a ->
     dp_pk (mb_b (fst a)) = smul (r18_gamma (r j)) gen /\ dp_pk (mb_bt (fst a)) = smul (of_Z q (br_bt (r18_bg (r j) i))) gen) ->
  fsum (map v (seq 0 m)) = fmul (fsum (map (fun i => r18_k (r i)) (seq 0 m))) (fsum (map (fun i => r18_gamma (r i)) (seq 0 m))).
Proof.
  intros JF E E' T.
  assert (V : forall i, i < m -> v i = fadd (fmul (r18_k (r i)) (fsum (map (fun j => r18_gamma (r j)) (seq 0 m)))) (fsum (map (fun j => fsub (of_Z q (br_bt (r18_bg (r j) i))) (of_Z q (br_bt (r18_bg (r i) j)))) (others i m)))).
  { intros i L. destruct (C131_delta_only_after_checks oc ser par uuid (w i) (l i) (c i) m i (id i) u (k i) (r i) (msg i) _ _ L (E i L) (E' i L)) as (ids & a2 & _ & _ & _ & H2 & AN & V).
    apply (f_equal (sj j_F)) in V. rewrite !JF in V. injection V as ->. rewrite <- (fsum_others0 C (fun j => r18_gamma (r j)) i m L).
    transitivity (fadd (fmul (r18_k (r i)) (r18_gamma (r i))) (fsum (map (fun j => fadd (fmul (r18_k (r i)) (r18_gamma (r j))) (fsub (of_Z q (br_bt (r18_bg (r j) i))) (of_Z q (br_bt (r18_bg (r i) j))))) (others i m)))).
    - f_equal. apply (f_equal fsum), map_ext_in. intros j IJ. apply in_others in IJ. destruct (H2 j ltac:(lia) ltac:(lia)) as (t & TT & SJ). destruct (T i j t (a2 j) L ltac:(lia) ltac:(lia) TT SJ) as [B1 B2].
      destruct (AN j ltac:(lia) ltac:(lia)) as ((_ & _ & AE) & _). rewrite B1, B2 in AE. apply (f_equal dlog) in AE. autorewrite with dlog in AE.
      assert (AE' : of_Z q (Paillier.dec (p18_p1 (k i)) (p18_p2 (k i)) (mb_c (fst (a2 j)))) = fadd (fmul (r18_k (r i)) (r18_gamma (r j))) (of_Z q (br_bt (r18_bg (r j) i)))) by (transitivity (fmul (of_Z q (Paillier.dec (p18_p1 (k i)) (p18_p2 (k i)) (mb_c (fst (a2 j))))) f1); [ring|rewrite AE; ring]).
      rewrite AE'. ring.
    - rewrite fsum_map_add, fsum_map_mul_l. ring. }
  rewrite (map_ext_in _ (fun i => fadd (fmul (r18_k (r i)) (fsum (map (fun j => r18_gamma (r j)) (seq 0 m)))) (fsum (map (fun j => fsub (of_Z q (br_bt (r18_bg (r j) i))) (of_Z q (br_bt (r18_bg (r i) j)))) (others i m))))) by (intros i I; apply in_seq in I; apply V; lia).
  rewrite fsum_map_add, (fsum_pairs_cancel (fun a b => of_Z q (br_bt (r18_bg (r a) b)))), fsum_map_mul_r. ring.
Qed.
End Delta.
Print Assumptions C131_delta_only_after_checks.
Print Assumptions C131_deltas_add_up.

(** ** Example *)
(** The two signers of C98_example: after 24 steps of the schedule the first is about to store its delta. *)
Lemma exdelta l v p' : nth_error (y_cl (exec18 true exser expar exuuid exw0 l)) 0 = Some (Put (bkey (num 0) "round3" "u") v p') ->
  delta_ok toy exHf2 (jof cZ) (jof (cpair cmb cmb)) (jof cF) 2 0 (nth 0 [2; 0] 0 + 1) "u" (exks18 0) (exrs18' 0) (log18 true exser expar exuuid 0 exw0 l) v.
Proof. apply (C131_delta_only_after_checks toy exHb2 exH exHf2 (jof cZ) (jof (cpair cZ cma)) (jof (cpair cmb cmb)) (jof cF) (jof csd) (jof cZ) (jof (cpair (cpair cdec5a cheg) cdlog)) (jof cdec5d)
    true exser expar exuuid exw0 l 0 2 0 (nth 0 [2; 0] 0 + 1) "u" (exks18 0) (exrs18' 0) 9 v p'); [lia|reflexivity]. Qed.
Example C131_example : exists v p', nth_error (y_cl (exec18 true exser expar exuuid exw0 (firstn 24 exl0))) 0 = Some (Put (bkey (num 0) "round3" "u") v p') /\
  delta_ok toy exHf2 (jof cZ) (jof (cpair cmb cmb)) (jof cF) 2 0 (nth 0 [2; 0] 0 + 1) "u" (exks18 0) (exrs18' 0) (exlog 24 0) v.
Proof.
  destruct (next_put_ex (nth_error (y_cl (exec18 true exser expar exuuid exw0 (firstn 24 exl0))) 0) (bkey (num 0) "round3" "u")) as (v & p' & E); [vm_compute; reflexivity|].
  exists v, p'. split; [exact E|exact (exdelta _ v p' E)].
Qed.
Definition same_points (i j : nat) (a : msg_b toy * msg_b toy) : bool :=
  (pt_eqb (dp_pk (mb_b (fst a))) (smul (r18_gamma (exrs18' j)) gen) && pt_eqb (dp_pk (mb_bt (fst a))) (smul (of_Z (cq toy) (br_bt (r18_bg (exrs18' j) i))) gen))%bool.
Definition told_points (i j : nat) (e : rq) : bool :=
  match e with Told k t => if String.eqb k (pkey (num j) (num i) "round2" "u") then match sj (jof (cpair cmb cmb)) t with Some a => same_points i j a | None => true end else true | _ => true end.
Lemma exadd l (v : nat -> Fq (cq toy)) p : (forall i, i < 2 -> nth_error (y_cl (exec18 true exser expar exuuid exw0 l)) i = Some (Put (bkey (num i) "round3" "u") (js (jof cF) (v i)) (p i))) ->
  forallb (fun ij => forallb (told_points (fst ij) (snd ij)) (log18 true exser expar exuuid (fst ij) exw0 l)) [(0, 1); (1, 0)] = true ->
  fsum (map v (seq 0 2)) = fmul (fsum (map (fun i => r18_k (exrs18' i)) (seq 0 2))) (fsum (map (fun i => r18_gamma (exrs18' i)) (seq 0 2))).
Proof.
  intros E T. apply (C131_deltas_add_up toy exHb2 exH exHf2 (jof cZ) (jof (cpair cZ cma)) (jof (cpair cmb cmb)) (jof cF) (jof csd) (jof cZ) (jof (cpair (cpair cdec5a cheg) cdlog)) (jof cdec5d)
    true exser expar exuuid 2 "u" (fun _ => exw0) (fun _ => l) (fun i => i) (fun i => nth i [2; 0] 0 + 1) exks18 exrs18' (fun _ => 9%Z) v p); [apply jof_ok| |exact E|].
  - intros i L. destruct i as [|[|i]]; [reflexivity|reflexivity|lia].
  - intros i j t a L1 L2 NE I SJ. rewrite forallb_forall in T. assert (IJ : In (i, j) [(0, 1); (1, 0)]) by (destruct i as [|[|i]]; destruct j as [|[|j]]; try lia; cbn; tauto).
    specialize (T _ IJ). cbn [fst snd] in T. rewrite forallb_forall in T. specialize (T _ I). unfold told_points in T. rewrite String.eqb_refl, SJ in T. apply andb_prop in T. destruct T as [T1 T2]. apply pt_eqb_eq in T1. apply pt_eqb_eq in T2. auto.
Qed.
(** At that point the second is about to store its delta too; the two add up, and the sum is not 0. *)
Example C131_add_up_example : exists (v : nat -> Fq (cq toy)) p,
  (forall i, i < 2 -> nth_error (y_cl (exec18 true exser expar exuuid exw0 (firstn 24 exl0))) i = Some (Put (bkey (num i) "round3" "u") (js (jof cF) (v i)) (p i))) /\
  fsum (map v (seq 0 2)) = fmul (fsum (map (fun i => r18_k (exrs18' i)) (seq 0 2))) (fsum (map (fun i => r18_gamma (exrs18' i)) (seq 0 2))) /\ fsum (map v (seq 0 2)) <> f0.
Proof.
  destruct (next_put_ex (nth_error (y_cl (exec18 true exser expar exuuid exw0 (firstn 24 exl0))) 0) (bkey (num 0) "round3" "u")) as (v0 & p0 & E0); [vm_compute; reflexivity|].
  destruct (next_put_ex (nth_error (y_cl (exec18 true exser expar exuuid exw0 (firstn 24 exl0))) 1) (bkey (num 1) "round3" "u")) as (v1 & p1 & E1); [vm_compute; reflexivity|].
  assert (V0 : exists x, v0 = js (jof cF) x) by (destruct (exdelta _ v0 p0 E0) as (ids & a2 & _ & _ & _ & _ & _ & V); eexists; exact V).
  assert (V1 : exists x, v1 = js (jof cF) x).
  { destruct (C131_delta_only_after_checks toy exHb2 exH exHf2 (jof cZ) (jof (cpair cZ cma)) (jof (cpair cmb cmb)) (jof cF) (jof csd) (jof cZ) (jof (cpair (cpair cdec5a cheg) cdlog)) (jof cdec5d)
      true exser expar exuuid exw0 (firstn 24 exl0) 1 2 1 (nth 1 [2; 0] 0 + 1) "u" (exks18 1) (exrs18' 1) 9 v1 p1 ltac:(lia) eq_refl E1) as (ids & a2 & _ & _ & _ & _ & _ & V). eexists; exact V. }
  destruct V0 as [x0 ->]. destruct V1 as [x1 ->].
  assert (E : forall i, i < 2 -> nth_error (y_cl (exec18 true exser expar exuuid exw0 (firstn 24 exl0))) i = Some (Put (bkey (num i) "round3" "u") (js (jof cF) (nth i [x0; x1] f0)) (nth i [p0; p1] p0))).
  { intros i L. destruct i as [|[|i]]; [exact E0|exact E1|lia]. }
  exists (fun i => nth i [x0; x1] f0), (fun i => nth i [p0; p1] p0). split; [exact E|].
  pose proof (exadd _ (fun i => nth i [x0; x1] f0) (fun i => nth i [p0; p1] p0) E ltac:(vm_compute; reflexivity)) as S. split; [exact S|]. rewrite S. clear. intros H. apply (f_equal to_Z) in H. revert H. vm_compute. discriminate.
Qed.

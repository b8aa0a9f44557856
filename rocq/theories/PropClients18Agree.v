(** C128: GG18 signers that were told the same write the same signature. *)
From Coq Require Import String Ascii ZArith NArith Bool Lia List Field.
From Verif Require Import ZArithX Fq Curve Toy Outcome Sigma SigmaProofs Bytes Vss VssProofs Ecdsa KeygenExtra SignRunProofs Gg18RunProofs Mp MpProofs Mta Gg20Keygen Gg20Sign Gg18Keygen Gg18Sign Gg18SignProofs KeygenRun KeygenProofs NetSim
  Manager18 Manager18Proofs Clients18 Clients18Proofs Clients18Prog Clients18Rounds Clients18KgProofs Clients18Ends PropKeygen PropSign18 PropManager18 Codec PropClients18 PropSign PropClients18Sign PropClients18Exact SmTags PropClients18Order.
From Verif Require Import PropRange.
Import ListNotations.
Local Open Scope nat_scope.

(** Whatever of party j's message of a round the two were told or stored themselves is the same text. *)
Definition same_round (m : nat) (u rd : string) (g g' : list rq) : Prop :=
  forall j t t', j < m -> In (Told (bkey (num j) rd u) t) g \/ In (Stored (bkey (num j) rd u) t) g -> In (Told (bkey (num j) rd u) t') g' \/ In (Stored (bkey (num j) rd u) t') g' -> t = t'.

Section Done.
Context {R : Type}.
Lemma talk_gets_done ks : forall (f : list string -> prog R) z r, feed (gets ks f) z = Done r ->
  exists a b, z = a ++ b /\ length a = length ks /\ talk (gets ks f) z = map (fun x => Told (fst x) (snd x)) (combine ks a) ++ talk (f a) b /\ feed (f a) b = Done r.
Proof.
  induction ks as [|k0 ks IH]; intros f z r H; cbn [gets talk feed] in *; [exists [], z; auto|]. destruct z as [|v0 z]; [discriminate|].
  destruct (IH (fun l => f (v0 :: l)) z r H) as (a & b & -> & L & E & D). exists (v0 :: a), b. cbn [app length combine map fst snd]. rewrite E. auto.
Qed.
Lemma exchange_done {A} (c : json A) i n rd u (own : A) (f : list A -> prog R) z r G : i < n -> feed (exchange c (num i) n rd u own f) z = Done r -> incl (talk (exchange c (num i) n rd u own f) z) G ->
  exists b x, hears c n i u rd x G /\ In (Stored (bkey (num i) rd u) (js c own)) G /\ incl (talk (f (map x (others i n))) b) G /\ feed (f (map x (others i n))) b = Done r.
Proof.
  intros L H J. assert (SX : In (Stored (bkey (num i) rd u) (js c own)) G) by (apply J; left; reflexivity). unfold exchange in *. cbn [talk feed] in *.
  destruct (talk_gets_done _ _ _ _ H) as (a & b & -> & LA & E & D). rewrite E in J. rewrite map_length, others_num, map_length in LA by exact L.
  destruct (need_done _ _ _ _ D) as (m & P & D'). rewrite P in J. cbn [need] in J. destruct (parse_fun c own i n a m L LA P) as (t & x & -> & -> & PX).
  exists b, x. split; [|split; [exact SX|split; [intros e I; apply J; right; apply in_app_iff; right; exact I|exact D']]].
  intros j LJ NJ. assert (IJ : In j (others i n)) by (apply in_others; lia). exists (t j). split; [|apply PX, IJ]. apply J. right. apply in_app_iff. left. rewrite others_num, map_map, combine_map, map_map by exact L. cbn [fst snd].
  apply in_map_iff. exists j. auto.
Qed.
Lemma p2p_done {A} (c : json A) i n rd u (own : list A) (f : list A -> prog R) z r G : feed (exchange_p2p c (num i) n rd u own f) z = Done r -> incl (talk (exchange_p2p c (num i) n rd u own f) z) G ->
  exists b x, incl (talk (f x) b) G /\ feed (f x) b = Done r.
Proof.
  intros H J. unfold exchange_p2p in *. rewrite talk_puts in J. rewrite feed_puts in H. destruct (talk_gets_done _ _ _ _ H) as (a & b & -> & LA & E & D). rewrite E in J.
  destruct (need_done _ _ _ _ D) as (m & P & D'). rewrite P in J. cbn [need] in J. exists b, m. split; [|exact D']. intros e I. apply J. apply in_app_iff. right. apply in_app_iff. right. exact I.
Qed.
Lemma need_done_talk {E A} (o : outcome E A) (f : A -> prog R) z r G : feed (need o f) z = Done r -> incl (talk (need o f) z) G -> exists x, o = Ok x /\ feed (f x) z = Done r /\ incl (talk (f x) z) G.
Proof. destruct o as [x|e|]; cbn [need]; [eauto|discriminate|discriminate]. Qed.
End Done.

Section Agree.
Context (C : Curve).
Notation q := (cq C).
Notation F := (Fq q).
Context (Hb : list Z -> Z) (Hz : hashZ C) (Hf : hashF C).
Context (j_id : json Z) (j_1 : json (Z * msg_a)) (j_mb : json (msg_b C * msg_b C)) (j_F : json F) (j_dg : json (sign_dec C)) (j_com : json Z)
  (j_5a : json (dec5a C * heg_proof C * dlog_proof C)) (j_5d : json (dec5d C)).
Add Field cfagree : (C_field C).
Notation sclient := (sign18_client C Hb Hz Hf j_id j_1 j_mb j_F j_dg j_com j_5a j_5d).

Ltac ex H J z x HX SX := let H' := fresh in let J' := fresh in
  match type of H with feed _ _ = Done _ => destruct (exchange_done _ _ _ _ _ _ _ _ _ _ ltac:(eassumption) H J) as (z & x & HX & SX & J' & H') end; clear H J; rename H' into H; rename J' into J.
Ltac nd H J x E := let H' := fresh in let J' := fresh in destruct (need_done_talk _ _ _ _ _ H J) as (x & E & H' & J'); clear H J; rename H' into H; rename J' into J.

Lemma done_talk m i id u k (r : rand18 C) msg z sig G : i < m -> feed (sclient m (S i) id u k r msg) z = Done sig -> incl (talk (sclient m (S i) id u k r msg) z) G ->
  exists (delta : nat -> F) (o4 : nat -> sign_dec C) (s9 : nat -> F) (loc : local18 C),
    hears j_F m i u "round3" delta G /\ says j_F i u "round3" delta G /\ hears j_dg m i u "round4" o4 G /\ says j_dg i u "round4" o4 G /\ hears j_F m i u "round9" s9 G /\ says j_F i u "round9" s9 G /\
    fsum (map delta (seq 0 m)) <> f0 /\ smul (fsum (map delta (seq 0 m))) (l18_R loc) = psum (map (fun j => sd_g (o4 j)) (seq 0 m)) /\
    l18_m loc = msg /\ l18_y loc = p18_y k /\ l18_s loc = s9 i /\ g18_output loc (map s9 (others i m)) = Ok sig.
Proof.
  intros L H J. unfold sign18_client in H, J. cbv zeta in H, J. fold (num i) in H, J. replace (S i - 1) with i in H, J by lia.
  ex H J z0 x0 H0 S0. nd H J ids E0. nd H J sv E1. nd H J kys HK. nd H J xi E2.
  unfold g18_phase1 in H, J. cbv beta iota in H, J.
  ex H J z1 c1 HC1 SC1. nd H J bc1 HB. nd H J tt0 E3. nd H J bs E4.
  destruct (p2p_done _ _ _ _ _ _ _ _ _ _ H J) as (z2 & a2 & J' & H'). clear H J. rename H' into H. rename J' into J.
  nd H J am E5. nd H J dl E6. nd H J sigma E7.
  ex H J z3 delta HD SD. nd H J deltas E8. nd H J dinv E9. ex H J z4 o4 HO4 SO4. nd H J decs E10. nd H J decs' E11. nd H J bc1' E12. nd H J R0 E13. nd H J s E14.
  unfold g18_5a in H, J. cbv beta iota zeta in H, J.
  ex H J z5 c5 HC5 SC5. nd H J coms5 E15. ex H J z6 o6 HO6 SO6. nd H J all6 E16. nd H J all6' E17. nd H J coms5' E18. nd H J cd E19.
  ex H J z7 c7 HC7 SC7. nd H J coms7 E20. ex H J z8 o8 HO8 SO8. nd H J decs8 E21. nd H J si E22. ex H J z9 s9 HS9 SS9. nd H J ss E23. nd H J ss' E24. nd H J sg E25. nd H J t0 E26.
  cbn [feed] in H. injection H as ->.
  rewrite merge_with in E8 by exact L. rewrite merge_with in E10 by exact L. rewrite merge_with in E23 by exact L. injection E8 as <-. injection E10 as <-. injection E23 as <-.
  apply (remove_with _ _ _ _ _ L) in E11. apply (remove_with _ _ _ _ _ L) in E24. subst decs' ss'.
  unfold g18_delta_inv in E9. destruct (finvert (fold_left fadd (map (with_own i dl delta) (seq 0 m)) f0)) as [dv|] eqn:FI; [|discriminate]. cbn [unwrap] in E9. injection E9 as ->. apply finvert_some in FI. destruct FI as [DN ->].
  rewrite fold_left_fadd in DN, E13, E14. rewrite fsum0 in DN, E13, E14. set (D := fsum (map (with_own i dl delta) (seq 0 m))) in *.
  match type of SO4 with In (Stored _ (js _ ?a)) _ => set (ow4 := a) in * end.
  apply g18_phase4_ok in E13. destruct E13 as (_ & ->).
  assert (SI : si = l18_s s).
  { unfold g18_5d in E22. apply obind_ok in E22. destruct E22 as (? & _ & E22). apply obind_ok in E22. destruct E22 as (? & _ & E22). apply obind_ok in E22. destruct E22 as (ok & _ & E22).
    destruct ok; [|discriminate]. destruct (pt_eqb _ _); [|discriminate]. injection E22 as <-. reflexivity. }
  exists (with_own i dl delta), (with_own i ow4 o4), (with_own i si s9), s. unfold says. rewrite !with_own_at. fold D.
  split; [apply hears_own, HD|]. split; [exact SD|]. split; [apply hears_own, HO4|]. split; [exact SO4|]. split; [apply hears_own, HS9|]. split; [exact SS9|]. split; [exact DN|].
  unfold g18_local in E14. apply obind_ok in E14. destruct E14 as (xx & _ & E14). injection E14 as <-. cbn [l18_R l18_m l18_y l18_s] in *.
  split.
  { rewrite (psum_with C i m (fun j => sd_g (with_own i ow4 o4 j))) by exact L. rewrite with_own_at.
    replace (map (fun j => sd_g (with_own i ow4 o4 j)) (others i m)) with (map (fun j => sd_g (o4 j)) (others i m)) by (apply map_ext_in; intros j IJ; apply in_others in IJ; rewrite with_own_ne by lia; reflexivity).
    rewrite map_map. set (PS := psum (map (fun j => sd_g (o4 j)) (others i m))). rewrite !(dlog_eq_iff C). autorewrite with dlog. change (sd_g ow4) with (sg_ggamma kys). field. exact DN. }
  split; [reflexivity|]. split; [reflexivity|]. split; [symmetry; exact SI|]. rewrite with_own_map. exact E25.
Qed.

Lemma same_values {A} (cj : json A) m i i' u rd x x' g g' : json_ok cj -> i < m -> i' < m -> same_round m u rd g g' ->
  hears cj m i u rd x g -> says cj i u rd x g -> hears cj m i' u rd x' g' -> says cj i' u rd x' g' -> map x (seq 0 m) = map x' (seq 0 m).
Proof.
  intros OK L L' S H1 S1 H2 S2.
  assert (K1 : forall i (x : nat -> A) g, hears cj m i u rd x g -> says cj i u rd x g -> forall j, j < m -> exists t, (In (Told (bkey (num j) rd u) t) g \/ In (Stored (bkey (num j) rd u) t) g) /\ sj cj t = Some (x j)).
  { clear - OK. intros i x g H S j J. destruct (Nat.eq_dec j i) as [->|NJ]; [exists (js cj (x i)); split; [right; exact S|apply OK]|]. destruct (H j J NJ) as (t & T & Q). exists t. auto. }
  apply map_ext_in. intros j IJ. apply in_seq in IJ. destruct (K1 _ _ _ H1 S1 j) as (t & T & Q); [lia|]. destruct (K1 _ _ _ H2 S2 j) as (t' & T' & Q'); [lia|].
  assert (t = t') by (apply (S j); [lia|exact T|exact T']). subst t'. congruence.
Qed.
Lemma fsum_with (i m : nat) (x : nat -> F) : i < m -> fsum (map x (seq 0 m)) = fadd (x i) (fsum (map x (others i m))).
Proof.
  intros L. unfold others. replace m with (i + S (m - S i)) at 1 by lia. rewrite seq_app. cbn [seq Nat.add]. rewrite !map_app. cbn [map].
  assert (FA : forall a b : list F, fsum (a ++ b) = fadd (fsum a) (fsum b)) by (induction a as [|e a IH]; intros b; cbn [app fsum]; [ring|rewrite IH; ring]). rewrite !FA. cbn [fsum]. ring.
Qed.
Lemma output_same (a b : local18 C) v w : l18_R a = l18_R b -> l18_m a = l18_m b -> l18_y a = l18_y b -> fadd (l18_s a) (fsum v) = fadd (l18_s b) (fsum w) -> g18_output a v = g18_output b w.
Proof. intros E1 E2 E3 E4. unfold g18_output, gg18_output. cbn [ls_R ls_s ls_m ls_y ls_r]. rewrite !fold_left_fadd, !fsum0, E1, E2, E3, E4. reflexivity. Qed.

(** * C128 *)
(** Two signers, of one execution or of two, that have the same public key and message and finished.  If they were told the same deltas (round 3) and points (round 4), counting what each stored itself, their signatures have the same r
    and are both valid; if they were also told the same partial signatures (round 9), the signatures are the same, with the recovery id.  Nothing else need be the same: not the parties' numbers, the answers of the other rounds or what others do to the server. *)
Theorem C128_same_messages_same_signature oc ser par uuid (w w' : sys18 (sig_recid C)) l l' c c' m i i' id id' u k k' (r r' : rand18 C) msg sig sig' : json_ok j_F -> json_ok j_dg -> i < m -> i' < m -> p18_y k = p18_y k' ->
  nth_error (y_cl w) c = Some (sclient m (S i) id u k r msg) -> nth_error (y_cl w') c' = Some (sclient m (S i') id' u k' r' msg) ->
  nth_error (y_cl (exec18 oc ser par uuid w l)) c = Some (Done sig) -> nth_error (y_cl (exec18 oc ser par uuid w' l')) c' = Some (Done sig') ->
  let g := log18 oc ser par uuid c w l in let g' := log18 oc ser par uuid c' w' l' in
  same_round m u "round3" g g' -> same_round m u "round4" g g' ->
  sg_r sig = sg_r sig' /\ ecdsa_eqn (p18_y k) msg (to_Z (sg_r sig)) (to_Z (sg_s sig)) /\ ecdsa_eqn (p18_y k) msg (to_Z (sg_r sig)) (to_Z (sg_s sig')) /\
  (same_round m u "round9" g g' -> sig = sig').
Proof.
  intros JF JD L L' EY E1 E2 D1 D2 g g' S3 S4.
  assert (T : forall (w : sys18 (sig_recid C)) l c i id k r sig, i < m -> nth_error (y_cl w) c = Some (sclient m (S i) id u k r msg) -> nth_error (y_cl (exec18 oc ser par uuid w l)) c = Some (Done sig) ->
     feed (sclient m (S i) id u k r msg) (told (log18 oc ser par uuid c w l)) = Done sig /\ incl (talk (sclient m (S i) id u k r msg) (told (log18 oc ser par uuid c w l))) (log18 oc ser par uuid c w l)).
  { clear. intros w l c i id k r sig L E D. destruct (log_talk oc ser par uuid l w c _ E) as (p1 & P1 & Q). rewrite D in P1. injection P1 as <-. destruct (Q []) as [Q1 Q2]. rewrite app_nil_r in Q1, Q2. cbn [talk feed] in Q1, Q2. rewrite app_nil_r in Q1.
    split; [exact Q2|]. rewrite Q1. apply incl_refl. }
  destruct (T _ _ _ _ _ _ _ _ L E1 D1) as [F1 I1]. destruct (T _ _ _ _ _ _ _ _ L' E2 D2) as [F2 I2]. clear T. fold g in F1, I1. fold g' in F2, I2.
  destruct (done_talk _ _ _ _ _ _ _ _ _ _ L F1 I1) as (delta & o4 & s9 & loc & A1 & A2 & A3 & A4 & A5 & A6 & A7 & A8 & A9 & A10 & A11 & A12).
  destruct (done_talk _ _ _ _ _ _ _ _ _ _ L' F2 I2) as (delta' & o4' & s9' & loc' & B1 & B2 & B3 & B4 & B5 & B6 & B7 & B8 & B9 & B10 & B11 & B12).
  pose proof (same_values j_F _ _ _ _ _ _ _ _ _ JF L L' S3 A1 A2 B1 B2) as Q3. pose proof (same_values j_dg _ _ _ _ _ _ _ _ _ JD L L' S4 A3 A4 B3 B4) as Q4.
  assert (ER : l18_R loc = l18_R loc').
  { rewrite Q3 in A7, A8. rewrite <- (map_map o4 (sd_g (C := C))), Q4, map_map in A8. rewrite <- B8 in A8. rewrite (dlog_eq_iff C) in A8 |- *. autorewrite with dlog in A8.
    set (D := fsum (map delta' (seq 0 m))) in *. transitivity (fmul (finv D) (fmul D (dlog (l18_R loc)))); [field; exact A7|]. rewrite A8. field. exact A7. }
  destruct (C03_gg18_client_output _ _ _ _ A12) as (V1 & _ & _ & x & y & C1 & X1). destruct (C03_gg18_client_output _ _ _ _ B12) as (V2 & _ & _ & x' & y' & C2 & X2).
  rewrite ER, C2 in C1. injection C1 as -> ->. assert (RR : sg_r sig = sg_r sig') by (apply fq_ext; congruence).
  rewrite A9, A10 in V1. rewrite B9, B10, <- EY in V2. rewrite <- RR in V2. split; [exact RR|]. split; [exact V1|]. split; [exact V2|].
  intros S9. pose proof (same_values j_F _ _ _ _ _ _ _ _ _ JF L L' S9 A5 A6 B5 B6) as Q9.
  assert (OE : g18_output loc (map s9 (others i m)) = g18_output loc' (map s9' (others i' m))).
  { apply output_same; [exact ER|congruence|congruence|]. rewrite A11, B11, <- !fsum_with by assumption. rewrite Q9. reflexivity. }
  congruence.
Qed.
(** What is stored under k is not replaced by something else *)
Definition settled {R} oc ser par uuid (w : sys18 R) (l : list act18) (k : string) : Prop :=
  forall l1 l2 l3 t, l = l1 ++ l2 ++ l3 -> sm_get k (sv_map (y_sv (exec18 oc ser par uuid w l1))) = Some t -> sm_get k (sv_map (y_sv (exec18 oc ser par uuid w (l1 ++ l2)))) = Some t.
Lemma log_held {R} oc ser par uuid k t : forall l (w : sys18 R) c, In (Told k t) (log18 oc ser par uuid c w l) \/ In (Stored k t) (log18 oc ser par uuid c w l) ->
  exists l1 l2, l = l1 ++ l2 /\ sm_get k (sv_map (y_sv (exec18 oc ser par uuid w l1))) = Some t.
Proof.
  induction l as [|x l IH]; intros w c; cbn [log18]; [intros [[]|[]]|]. rewrite !in_app_iff.
  assert (T : In (Told k t) (log18 oc ser par uuid c (step18 oc ser par uuid w x) l) \/ In (Stored k t) (log18 oc ser par uuid c (step18 oc ser par uuid w x) l) -> exists l1 l2, x :: l = l1 ++ l2 /\ sm_get k (sv_map (y_sv (exec18 oc ser par uuid w l1))) = Some t).
  { intros H. destruct (IH _ _ H) as (l1 & l2 & -> & Q). exists (x :: l1), l2. split; [reflexivity|exact Q]. }
  assert (O : In (Told k t) (one18 c w x) \/ In (Stored k t) (one18 c w x) -> exists l1 l2, x :: l = l1 ++ l2 /\ sm_get k (sv_map (y_sv (exec18 oc ser par uuid w l1))) = Some t).
  { clear. unfold one18. destruct x as [d|d|e]; cbn [In]; try tauto. destruct (Nat.eqb_spec d c) as [->|]; [|intros [[]|[]]]. destruct (nth_error (y_cl w) c) as [[r| |k0 v p|k0 f]|] eqn:E; cbn [In]; try tauto.
    - intros [[Q|Q]|[Q|Q]]; try discriminate; try tauto. injection Q as -> ->. exists [Cl c], l. split; [reflexivity|]. cbn [exec18 fold_left step18]. rewrite E. cbn [y_sv step fst sv_map]. rewrite get_insert, String.eqb_refl. reflexivity.
    - destruct (sm_get k0 (sv_map (y_sv w))) as [v|] eqn:G; [|intros [[]|[]]]. cbn [In]. intros [[Q|Q]|[Q|Q]]; try discriminate; try tauto. injection Q as -> ->. exists [], (Cl c :: l). split; [reflexivity|exact G]. }
  intros [[H|H]|[H|H]]; auto.
Qed.
Lemma settled_same {R} oc ser par uuid (w : sys18 R) l k c c' t t' : settled oc ser par uuid w l k ->
  In (Told k t) (log18 oc ser par uuid c w l) \/ In (Stored k t) (log18 oc ser par uuid c w l) -> In (Told k t') (log18 oc ser par uuid c' w l) \/ In (Stored k t') (log18 oc ser par uuid c' w l) -> t = t'.
Proof.
  intros S A B. apply log_held in A, B. destruct A as (a1 & a2 & EA & A). destruct B as (b1 & b2 & EB & B).
  assert (P : forall (a1 a2 b1 b2 : list act18), a1 ++ a2 = b1 ++ b2 -> length a1 <= length b1 -> exists d, b1 = a1 ++ d /\ a2 = d ++ b2).
  { clear. induction a1 as [|x a1 IH]; intros a2 b1 b2 E L; [exists b1; auto|]. destruct b1 as [|y b1]; [cbn in L; lia|]. cbn [app length] in *. injection E as <- E. destruct (IH _ _ _ E) as (d & -> & ->); [lia|]. exists d. auto. }
  destruct (Nat.le_ge_cases (length a1) (length b1)) as [LE|LE].
  - destruct (P a1 a2 b1 b2) as (d & -> & ->); [congruence|exact LE|]. specialize (S a1 d b2 t EA A). congruence.
  - destruct (P b1 b2 a1 a2) as (d & -> & ->); [congruence|exact LE|]. specialize (S b1 d a2 t' EB B). congruence.
Qed.
(** Signers of one session that finish in one execution, with no message of rounds 3, 4 and 9 replaced by another one on the server, write the same signature, whoever stored those messages. *)
Theorem C128_settled_messages_same_signature oc ser par uuid (w : sys18 (sig_recid C)) l c c' m i i' id id' u k k' (r r' : rand18 C) msg sig sig' : json_ok j_F -> json_ok j_dg -> i < m -> i' < m -> p18_y k = p18_y k' ->
  nth_error (y_cl w) c = Some (sclient m (S i) id u k r msg) -> nth_error (y_cl w) c' = Some (sclient m (S i') id' u k' r' msg) ->
  nth_error (y_cl (exec18 oc ser par uuid w l)) c = Some (Done sig) -> nth_error (y_cl (exec18 oc ser par uuid w l)) c' = Some (Done sig') ->
  (forall j rd, j < m -> In rd ["round3"; "round4"; "round9"]%string -> settled oc ser par uuid w l (bkey (num j) rd u)) -> sig = sig'.
Proof.
  intros JF JD L L' EY E1 E2 D1 D2 S.
  assert (SR : forall rd, In rd ["round3"; "round4"; "round9"]%string -> same_round m u rd (log18 oc ser par uuid c w l) (log18 oc ser par uuid c' w l)).
  { intros rd I j t t' LJ. apply settled_same, S; assumption. }
  apply (C128_same_messages_same_signature oc ser par uuid w w l l c c' m i i' id id' u k k' r r' msg sig sig' JF JD L L' EY E1 E2 D1 D2); apply SR; cbn; tauto.
Qed.
End Agree.
Print Assumptions C128_same_messages_same_signature.
Print Assumptions C128_settled_messages_same_signature.

(** ** Example *)
(** The two signers of C98_example are told the same in every round, finish, and write the same signature. *)
Definition all_same (g g' : list rq) : bool :=
  let kv e := match e with Stored k v => (k, v) | Told k v => (k, v) end in
  forallb (fun e => forallb (fun e' => negb (String.eqb (fst (kv e)) (fst (kv e'))) || String.eqb (snd (kv e)) (snd (kv e'))) g') g.
Lemma all_same_ok g g' : all_same g g' = true -> forall m u rd, same_round m u rd g g'.
Proof.
  unfold all_same. rewrite forallb_forall. intros H m u rd j t t' _ A B.
  assert (P : forall e e', In e g -> In e' g' -> (e = Told (bkey (num j) rd u) t \/ e = Stored (bkey (num j) rd u) t) -> (e' = Told (bkey (num j) rd u) t' \/ e' = Stored (bkey (num j) rd u) t') -> t = t').
  { intros e e' I I' E E'. specialize (H e I). rewrite forallb_forall in H. specialize (H e' I'). apply String.eqb_eq. destruct E as [-> | ->]; destruct E' as [-> | ->]; cbn [fst snd] in H; rewrite String.eqb_refl in H; exact H. }
  destruct A as [A|A]; destruct B as [B|B]; (eapply P; [exact A|exact B|auto|auto]).
Qed.
Definition done_sig (o : option (prog (sig_recid toy))) : option (Z * Z * Z) := match o with Some (Done s) => Some (to_Z (sg_r s), to_Z (sg_s s), sg_recid s) | _ => None end.
Example C128_example : (forall m u rd, same_round m u rd (exlog 160 0) (exlog 160 1)) /\ length (exlog 160 0) = 20 /\
  map (fun c => done_sig (nth_error (y_cl (exec18 true exser expar exuuid exw0 (firstn 160 exl0))) c)) [0; 1] = [Some (7, 9, 0); Some (7, 9, 0)]%Z /\ json_ok (jof cF) /\ json_ok (jof csd) /\ p18_y (exks18 0) = p18_y (exks18 1).
Proof.
  split; [apply all_same_ok; vm_compute; reflexivity|]. split; [vm_compute; reflexivity|]. split; [vm_compute; reflexivity|]. split; [apply jof_ok|]. split; [apply jof_ok|]. vm_compute. reflexivity.
Qed.
(** Nothing is replaced in that run, although a stranger stores something again and again. *)
Fixpoint settled_b {R} oc ser par uuid (w : sys18 R) (l : list act18) (k : string) : bool :=
  match l with
  | [] => true
  | x :: t => let w' := step18 oc ser par uuid w x in
      match sm_get k (sv_map (y_sv w)), sm_get k (sv_map (y_sv w')) with Some a, Some b => String.eqb a b | Some _, None => false | None, _ => true end && settled_b oc ser par uuid w' t k
  end.
Lemma settled_b_ok {R} oc ser par uuid k : forall l (w : sys18 R), settled_b oc ser par uuid w l k = true -> settled oc ser par uuid w l k.
Proof.
  assert (H : forall l2 l3 (w : sys18 R) t, settled_b oc ser par uuid w (l2 ++ l3) k = true -> sm_get k (sv_map (y_sv w)) = Some t -> sm_get k (sv_map (y_sv (exec18 oc ser par uuid w l2))) = Some t).
  { induction l2 as [|x l2 IH]; intros l3 w t B G; [exact G|]. cbn [app settled_b] in B. apply andb_true_iff in B. destruct B as [B1 B2]. rewrite G in B1.
    destruct (sm_get k (sv_map (y_sv (step18 oc ser par uuid w x)))) as [b|] eqn:G'; [|discriminate]. apply String.eqb_eq in B1. subst b. exact (IH l3 _ t B2 G'). }
  intros l w B l1. revert l w B. induction l1 as [|x l1 IH]; intros l w B l2 l3 t -> G; [exact (H l2 l3 w t B G)|].
  cbn [app settled_b] in B. apply andb_true_iff in B. destruct B as [_ B]. exact (IH _ _ B l2 l3 t eq_refl G).
Qed.
Example C128_example_settled : forall j rd, j < 2 -> In rd ["round3"; "round4"; "round9"]%string -> settled true exser expar exuuid exw0 exl0 (bkey (num j) rd "u").
Proof.
  intros j rd L I. apply settled_b_ok. cbn [In] in I. assert (J : j = 0 \/ j = 1) by lia. destruct J as [-> | ->]; destruct I as [<-|[<-|[<-|[]]]]; vm_compute; reflexivity.
Qed.

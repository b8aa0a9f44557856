(** C114: key generation machines that finish agree on the key, even if a peer sends them different messages. *)
From Coq Require Import ZArith Lia Bool List Permutation.
From Verif Require Import ZArithX Fq Curve Toy Outcome Sigma Bytes Vss VssProofs Paillier RangeProofs Pdl PdlSlack Mta Ecdsa Mp MpProofs Gg20Keygen KeygenProofs KeygenExtra KeygenRun KeygenRunProofs Gg20Sign SignRun SignProofs Blame Stores RoundSM SmSpec SmProofs KeygenSM SignSM SmSim SmTheory SmFacts SmTags SmPanic SmCause SmCauseSg Network NetProofs NetSim PropRange PropExtract PropCommit PropVss PropKeygen PropSign PropSM PropNetwork PropPanic PropKgPanic PropSgPanic PropFixed Reshare PropReshare PropMobile SigmaProofs Secp256k1.
Import ListNotations.
Local Open Scope nat_scope.

(** ** Machines with complete inboxes finish *)
Section Gen.
Context {P B R : Type} (p : params P B R) (d0 : R).
Notation K := (g_K p).
Notation me := (g_me p).
Notation n := (g_n p).
Hypothesis Hme : 1 <= me <= n.
Hypothesis Hof : forall b, 1 <= g_of p b <= K.
Hypothesis Hexp : forall k, g_exp p k = false -> 0 < k /\ g_again p (k - 1) = true.
Notation inb := (inbox (g_of p) (g_p2p p) me n).
Notation runs := (runs (g_step p) d0).
Notation run := (run_ops (g_op p) (g_init p d0)).
Lemma settled_pick h d out : g_wants_to_proceed (fst (run h)) = false -> runs (inb h) (S K) d out -> picks (snd (run (h ++ [Pick]))) = [d].
Proof.
  intros W RR. pose proof (run_all p d0 Hme Hof Hexp h) as A. rewrite run_ops_app. destruct (run h) as [s rs]. destruct A as [I [_ L]]. cbn [fst snd] in *.
  pose proof (inv_round _ _ _ _ _ I) as Q. unfold LogInv in L. unfold g_wants_to_proceed in W. destruct (gs_round s) as [k' d'|d'|] eqn:G.
  - exfalso. rewrite (wants_inbox p d0 Hme h _ s k' d' I G) in W. destruct (inb h k') as [l|] eqn:N; [discriminate|]. destruct Q as [Q0 [Q _]].
    pose proof (runs_stuck p d0 h _ _ _ _ _ _ Q N RR). lia.
  - destruct (runs_det _ _ _ _ _ _ RR _ _ Q) as [-> _]. cbn [run_ops g_op]. unfold g_pick. rewrite G. cbn [snd]. rewrite picks_app. destruct L as [_ ->]. reflexivity.
  - cbn [run_ops]. destruct (gone_op p s Pick G) as (_ & _ & E & _). destruct (g_op p s Pick) as [s' r]. cbn [snd] in *. rewrite picks_app, E, app_nil_r.
    destruct L as [[_ [d' [-> Q2]]]|[_ [k' [o' [X _]]]]]; [destruct (runs_det _ _ _ _ _ _ RR _ _ Q2) as [-> _]; reflexivity|]. exfalso. exact (fails_runs p d0 h _ _ _ _ _ X RR).
Qed.
(** All messages [f k j] of rounds 1 to K, delivered in order *)
Definition full (f : nat -> nat -> B) : list (msg B) :=
  flat_map (fun k => map (fun j => {| m_from := j; m_to := if g_p2p p k then Some me else None; m_body := f k j |}) (peers me n)) (seq 1 K).
Lemma in_full f m : In m (full f) <-> exists k j, 1 <= k <= K /\ In j (peers me n) /\ m = {| m_from := j; m_to := if g_p2p p k then Some me else None; m_body := f k j |}.
Proof.
  unfold full. rewrite in_flat_map. split.
  - intros [k [I J]]. apply in_seq in I. apply in_map_iff in J. destruct J as [j [E J]]. exists k, j. split; [lia|]. auto.
  - intros [k [j [I [J ->]]]]. exists k. split; [apply in_seq; lia|]. apply in_map_iff. exists j. auto.
Qed.
Lemma deliveries_full (l : list (msg B)) rest : deliveries (map Deliver l ++ rest) = l ++ deliveries rest.
Proof. unfold deliveries. rewrite flat_map_app. f_equal. induction l as [|m l IH]; [reflexivity|]. cbn [map flat_map app]. rewrite IH. reflexivity. Qed.
Lemma got_full f rest k j : (forall k j, 1 <= k <= K -> g_of p (f k j) = k) -> 1 <= k <= K -> In j (peers me n) ->
  SmSpec.got (g_of p) (g_p2p p) me (map Deliver (full f) ++ rest) k j = Some (f k j).
Proof.
  intros F I J. unfold SmSpec.got. rewrite deliveries_full, find_app.
  destruct (find (proper (g_of p) (g_p2p p) me k j) (full f)) as [m|] eqn:E.
  - apply find_some in E. destruct E as [E1 E2]. apply in_full in E1. destruct E1 as [k' [j' [I' [J' ->]]]]. unfold proper in E2. cbn [m_body m_from] in E2. rewrite F in E2 by exact I'.
    apply andb_true_iff in E2. destruct E2 as [E2 _]. apply andb_true_iff in E2. destruct E2 as [E2 E3]. apply Nat.eqb_eq in E2, E3. subst. reflexivity.
  - exfalso. pose proof (find_none _ _ E {| m_from := j; m_to := if g_p2p p k then Some me else None; m_body := f k j |}) as Q. rewrite in_full in Q. specialize (Q ltac:(exists k, j; auto)).
    unfold proper, addressed_ok in Q. cbn [m_body m_from m_to] in Q. rewrite F, !Nat.eqb_refl in Q by exact I. destruct (g_p2p p k); cbn [negb andb] in Q; [rewrite Nat.eqb_refl in Q|]; discriminate.
Qed.
Lemma inbox_full f rest k : (forall k j, 1 <= k <= K -> g_of p (f k j) = k) -> 1 <= k <= K -> inb (map Deliver (full f) ++ rest) k = Some (map (f k) (peers me n)).
Proof.
  intros F I. unfold inbox. destruct (Nat.eqb_spec k 0) as [Z|_]; [lia|]. assert (Q : forall l, incl l (peers me n) -> all_some (map (SmSpec.got (g_of p) (g_p2p p) me (map Deliver (full f) ++ rest) k) l) = Some (map (f k) l)).
  { induction l as [|j l IH]; intros L; [reflexivity|]. cbn [map all_some]. rewrite (got_full f rest k j F I) by (apply L; left; reflexivity). rewrite IH; [reflexivity|]. intros x X. apply L. right. exact X. }
  apply Q, incl_refl.
Qed.
End Gen.

(** ** What a machine that finished holds *)
Section Kg.
Context (C : Curve).
Context (Hb : list Z -> Z) (Hf : hashF C) (ck : Z -> Z -> bool) (cd : Z -> dlstmt -> outcome mp_error bool) (rd : kg_rand C).
Notation hist := (kg_hist C Hb Hf ck cd rd).
Notation of := (kg_of C).
Notation p2p := kg_p2p.
Context (i t n : nat).
Notation P := (kgp C Hb Hf ck cd rd i n).
Notation D0 := (KR0 i t n : kg_r C).
Notation step := (kg_step C Hb Hf ck cd rd).
Notation inb := (inbox of p2p i n).
Lemma inb_item {A} (un : kg_msg C -> outcome mp_error A) h k l ms q d : 0 < k -> inb h k = Some l -> omapM un l = Ok ms -> nth_error ms q = Some d ->
  exists j b, nth_error (peers i n) q = Some j /\ SmSpec.got of p2p i h k j = Some b /\ un b = Ok d.
Proof.
  intros K I E N. destruct (omapM_nth_ok _ _ _ _ _ E N) as [x [X1 X2]]. unfold inbox in I. destruct (Nat.eqb_spec k 0) as [Z|_]; [lia|].
  pose proof (all_some_nth _ _ _ _ I X1) as Q. rewrite nth_error_map in Q. destruct (nth_error (peers i n) q) as [j|]; [|discriminate].
  injection Q as Q. exists j, x. auto.
Qed.
Definition key_poly (vs : list (vss C)) : list (Fq (cq C)) := fold_right (padd2 C) [] (map (fun v => map dlog (vs_com v)) vs).
Lemma key_poly_len k vs : (forall v, In v vs -> length (vs_com v) <= k) -> length (key_poly vs) <= k.
Proof.
  unfold key_poly. induction vs as [|v vs IH]; intros H; cbn [map fold_right]; [cbn; lia|]. rewrite length_padd2, map_length. specialize (IH (fun x X => H x (or_intror X))). specialize (H v (or_introl eq_refl)). lia.
Qed.
Lemma finished_facts h k out : 1 <= i <= n -> runs step D0 (inb h) 5 (KFinal k) out -> exists vs,
  lk_y k = smul (hd f0 (key_poly vs)) gen /\
  lk_pk k = map (fun j => smul (peval (key_poly vs) (fidx (S j))) gen) (seq 0 n) /\
  (forall j b, In j (peers i n) -> SmSpec.got of p2p i h 4 j = Some b -> exists p, b = KM4 p /\ dp_pk p = smul (peval (key_poly vs) (fidx j)) gen) /\
  (forall d3 o3 l3 d4 o4 m p, runs step D0 (inb h) 3 d3 o3 -> inb h 3 = Some l3 -> step 3 d3 l3 = Ok (d4, o4) -> In m o4 -> m_body m = KM4 p -> dp_pk p = smul (peval (key_poly vs) (fidx i)) gen) /\
  exists v0, (forall v, In v vs -> length (vs_com v) <= length (vs_com v0)) /\
    (i = 1 -> length (vs_com v0) = S (length (kr_coefs rd))) /\ (i <> 1 -> exists s, SmSpec.got of p2p i h 3 1 = Some (KM3 (v0, s))).
Proof.
  intros I R5. inversion R5 as [|k4 d4 o4 l4 d5 o5 R4 IN4 S4 EK ED EO]. subst d5. clear EK EO. inversion R4 as [|k3 d3 o3 l3 d4' o4' R3 IN3 S3 EK ED EO]. subst d4'. clear EK EO.
  pose proof (kg_shape_runs C Hb Hf ck cd rd i t n h 3 d3 o3 I R3) as SH. destruct d3 as [ | | |r| | | ]; cbn [kg_shape] in SH; try contradiction. destruct SH as (A1 & A2 & A3 & A4 & A5 & A6).
  pose proof S3 as S3'. cbn [kg_step] in S3. apply obind_ok in S3. destruct S3 as [ms3 [M3 S3]]. apply obind_ok in S3. destruct S3 as [[r4 pf] [X3 S3]]. apply ok_inj in S3. cbn [fst snd] in S3. injection S3 as ED' EO'. subst d4.
  cbn [kg_step] in S4. apply obind_ok in S4. destruct S4 as [ms4 [M4 S4]]. apply obind_ok in S4. destruct S4 as [x4 [X4 S4]]. apply ok_inj in S4. injection S4 as EX _. subst x4.
  destruct (C25_local_key_consistent C Hf r (kr_nonce rd) ms3 r4 pf ms4 k ltac:(lia) X3 X4) as (_ & _ & _ & LY & LP & _).
  assert (L3 : S (length ms3) = n) by (rewrite (omapM_len _ _ _ M3); apply (inbox_len C i n h 3); [exact I|lia|exact IN3]).
  assert (L4 : S (length ms4) = n) by (rewrite (omapM_len _ _ _ M4); apply (inbox_len C i n h 4); [exact I|lia|exact IN4]).
  pose proof X3 as X3'. unfold kg_r3 in X3'. apply obind_ok in X3'. destruct X3' as [[sk pf'] [P2 X3']]. apply ok_inj in X3'. injection X3' as E4 Epf. subst pf'.
  pose proof X4 as X4'. unfold kg_r4 in X4'. rewrite E4 in X4'. cbn [r4_keys r4_y r4_bc r4_shared r4_proof r4_vss r4_i r4_t r4_n] in X4'. apply obind_ok in X4'. destruct X4' as [[] [VD _]]. rewrite A1, A3 in *.
  set (vs := map fst (incl_me (i - 1) (r3_vss r, r3_share r) ms3)) in *. set (proofs := incl_me (i - 1) pf ms4) in *.
  destruct (C25_accepted_key_consistent C Hf _ _ _ _ _ _ _ _ _ P2 VD) as (B1 & B2 & B3 & B4 & B5). change (fold_right (padd2 C) [] (map (fun v => map dlog (vs_com v)) vs)) with (key_poly vs) in *.
  assert (OWN : dp_pk pf = smul (peval (key_poly vs) (fidx i)) gen).
  { destruct (B4 (i - 1) pf) as [E _]; [unfold proofs; apply incl_me_self; lia|]. rewrite E. replace (S (i - 1)) with i by lia. reflexivity. }
  exists vs. split; [rewrite LY, <- B1; exact B2|]. split; [|split; [|split]].
  - rewrite LP. apply (nth_ext _ _ pzero pzero).
    + rewrite !map_length, seq_length. unfold proofs. rewrite incl_me_length by lia. lia.
    + intros j Hj. rewrite map_length in Hj. apply nth_error_nth. destruct (nth_error proofs j) as [p|] eqn:Ep; [|apply nth_error_None in Ep; lia].
      destruct (B4 j p Ep) as [E1 _]. assert (LL : length proofs = n) by (unfold proofs; rewrite incl_me_length by lia; lia). rewrite (nth_indep _ pzero (smul (peval (key_poly vs) (fidx (S 0))) gen)) by (rewrite map_length, seq_length; lia).
      rewrite (map_nth (fun j0 => smul (peval (key_poly vs) (fidx (S j0))) gen)), seq_nth by lia. rewrite nth_error_map, Ep. cbn. rewrite E1. reflexivity.
  - intros j b J G. apply In_nth_error in J. destruct J as [q Q]. assert (QL : q < length (peers i n)) by (apply nth_error_Some; congruence). rewrite peers_length in QL by exact I.
    destruct (nth_error ms4 q) as [p|] eqn:N4; [|apply nth_error_None in N4; lia]. destruct (inb_item _ h 4 _ _ _ _ ltac:(lia) IN4 M4 N4) as (j' & b' & J' & G' & U). assert (j' = j) by congruence. subst j'. assert (b' = b) by congruence. subst b'.
    destruct b as [ | | |x]; try discriminate. cbn [kun4] in U. apply ok_inj in U. subst x. exists p. split; [reflexivity|].
    rewrite (PropSgPanic.peers_ind i n q I ltac:(lia)) in Q. injection Q as <-.
    refine (proj1 (B4 (ind (i - 1) q) p _)). unfold proofs. rewrite incl_me_ind by lia. exact N4.
  - intros d3' o3' l3' d4' o4'' m p R3' IN3' S3'' MI MB. destruct (runs_det _ _ _ _ _ _ R3 _ _ R3') as [ED1 ED2]; subst d3' o3'. rewrite IN3 in IN3'. injection IN3' as <-. rewrite S3' in S3''. apply ok_inj in S3''. injection S3'' as _ <-.
    rewrite EO' in MI. cbn [bcast] in MI. destruct MI as [MI|[]]. subst m. cbn [m_body] in MB. injection MB as <-. exact OWN.
  - apply verify_dlog_ok in VD. destruct VD as (_ & _ & (v0 & tl & EV & _ & LV) & _). exists v0. split; [|split].
    + intros v V. rewrite EV in V. destruct V as [<-|V]; [lia|exact (LV v V)].
    + intros E1. assert (N0 : nth_error vs 0 = Some (r3_vss r)). { unfold vs. rewrite nth_error_map. replace 0 with (i - 1) by lia. rewrite E1 in *. rewrite (incl_me_self 0) by lia. reflexivity. }
      rewrite EV in N0. injection N0 as ->. exact A6.
    + intros E1. assert (N0 : nth_error vs 0 = Some v0) by (rewrite EV; reflexivity). unfold vs in N0. rewrite nth_error_map in N0.
      assert (IZ : ind (i - 1) 0 = 0) by (unfold ind; destruct (Nat.ltb_spec 0 (i - 1)); lia). assert (NQ : nth_error (incl_me (i - 1) (r3_vss r, r3_share r) ms3) 0 = nth_error ms3 0) by (pose proof (incl_me_ind (i - 1) (r3_vss r, r3_share r) ms3 0 ltac:(lia) ltac:(lia)) as NZ; rewrite IZ in NZ; exact NZ). rewrite NQ in N0. destruct (nth_error ms3 0) as [[v s]|] eqn:N3; [|discriminate]. cbn in N0. injection N0 as ->.
      destruct (inb_item _ h 3 _ _ _ _ ltac:(lia) IN3 M3 N3) as (j' & b' & J' & G' & U). destruct b' as [ | |x| ]; try discriminate. cbn [kun3] in U. apply ok_inj in U. subst x.
      rewrite (PropSgPanic.peers_ind i n 0 I ltac:(lia)) in J'. injection J' as <-. exists s. rewrite <- G'. f_equal. unfold ind. destruct (Nat.ltb_spec 0 (i - 1)); lia.
Qed.
(** The commitments a machine deals have as many entries as it sampled coefficients, plus one. *)
Lemma dealt_len h s rs m v sh : hist i t n h s rs -> In m (sent_by (ks_queue s) rs) -> m_body m = KM3 (v, sh) -> length (vs_com v) = S (length (kr_coefs rd)).
Proof.
  intros H X B. destruct (kg_hist_run C Hb Hf ck cd rd _ _ _ _ _ _ H) as [I _]. destruct (kg_sent_origin C Hb Hf ck cd rd i t n h s rs m 2 H X) as (d & o & l & d' & o' & R & IN & S2 & MO); [rewrite B; reflexivity|].
  pose proof (kg_shape_runs C Hb Hf ck cd rd i t n h 3 _ _ I (runs_S _ _ _ _ _ _ _ _ _ R IN S2)) as SH.
  pose proof (kg_shape_runs C Hb Hf ck cd rd i t n h 2 d o I R) as SH2. destruct d as [ | |r| | | | ]; cbn [kg_shape] in SH2; try contradiction.
  cbn [kg_step] in S2. apply obind_ok in S2. destruct S2 as [ms [_ S2]]. apply obind_ok in S2. destruct S2 as [[r3 out] [S2 E]]. apply ok_inj in E. cbn [fst snd] in E. injection E as E1 E2. subst d' o'.
  unfold kg_r2 in S2. apply obind_ok in S2. destruct S2 as [[[vs shs] idx] [_ S2]]. apply obind_ok in S2. destruct S2 as [own [_ S2]]. apply ok_inj in S2. injection S2 as E3 E4. subst r3 out.
  cbn [kg_shape r3_vss] in SH. apply in_map_iff in MO. destruct MO as [y [<- MO]]. apply in_map_iff in MO. destruct MO as [[a b] [<- _]]. cbn [m_body snd] in B. injection B as <- _. exact (proj2 (proj2 (proj2 (proj2 (proj2 SH))))).
Qed.
End Kg.

(** ** Parties [I] follow the code; the messages between them arrive as sent *)
Definition links_ok {B} (I : list nat) (sent : nat -> list (msg B)) (H : nat -> list (op B)) : Prop :=
  (forall a b m, In a I -> In b I -> a <> b -> In (Deliver m) (H a) -> m_from m = b -> In m (sent b)) /\
  (forall a b m, In a I -> In b I -> a <> b -> In m (sent b) -> m_to m = None \/ m_to m = Some a -> In (Deliver m) (H a)).
Section Split.
Context (C : Curve).
Context (Hb : list Z -> Z) (Hf : hashF C) (ck : Z -> Z -> bool) (cd : Z -> dlstmt -> outcome mp_error bool).
Context (t n : nat) (I : list nat).
Notation F := (Fq (cq C)).
(** Every machine of [I] runs the code with samples [rd a] on the calls [H a] and hands out the key [lk a]. *)
Definition finishing (rd : nat -> kg_rand C) (H : nat -> list (op (kg_msg C))) st rets (lk : nat -> local_key C) : Prop :=
  (forall a, In a I -> kg_hist C Hb Hf ck cd (rd a) a t n (H a) (st a) (rets a) /\ picks (rets a) = [lk a] /\ length (kr_coefs (rd a)) = t) /\
  links_ok I (fun a => sent_by (ks_queue (st a)) (rets a)) H.

Lemma got_in (h : list (op (kg_msg C))) a k j b : SmSpec.got (kg_of C) kg_p2p a h k j = Some b -> exists m, In (Deliver m) h /\ m_from m = j /\ m_body m = b /\ kg_of C b = k.
Proof.
  unfold SmSpec.got. destruct (find _ (deliveries h)) as [m|] eqn:E; [|discriminate]. intros Q. injection Q as <-. apply find_some in E. destruct E as [E1 E2].
  unfold deliveries in E1. apply in_flat_map in E1. destruct E1 as [o [O1 O2]]. destruct o; try contradiction. destruct O2 as [<-|[]]. exists m0. split; [exact O1|].
  unfold proper in E2. apply andb_true_iff in E2. destruct E2 as [E2 _]. apply andb_true_iff in E2. destruct E2 as [E2 E3]. apply Nat.eqb_eq in E2, E3. auto.
Qed.
End Split.

(** More than t machines among which is the one of party 1: those that finish hold the same public key and the same
    public shares, whatever the other parties send to each of them. *)
Theorem C114_finished_keys_agree : forall (C : Curve) Hb (Hf : hashF C) ck cd t n I rd H st rets lk,
  NoDup I -> (Z.of_nat n < cq C)%Z -> In 1 I -> t < length I ->
  finishing C Hb Hf ck cd t n I rd H st rets lk ->
  forall a b, In a I -> In b I -> lk_y (lk a) = lk_y (lk b) /\ lk_pk (lk a) = lk_pk (lk b).
Proof.
  intros C Hb Hf ck cd t n I rd H st rets lk ND NQ I1 LT [FH [LK _]].
  assert (RG : forall a, In a I -> 1 <= a <= n) by (intros a A; exact (proj1 (kg_hist_run C Hb Hf ck cd (rd a) a t n _ _ _ (proj1 (FH a A))))).
  assert (X : forall a, In a I -> exists f : list (Fq (cq C)), lk_y (lk a) = smul (hd f0 f) gen /\ lk_pk (lk a) = map (fun j => smul (peval f (fidx (S j))) gen) (seq 0 n) /\ length f <= S t /\
     (forall b, In b I -> b <> a -> exists m p, In m (sent_by (ks_queue (st b)) (rets b)) /\ m_body m = KM4 p /\ dp_pk p = smul (peval f (fidx b)) gen) /\
     (forall m p, In m (sent_by (ks_queue (st a)) (rets a)) -> m_body m = KM4 p -> dp_pk p = smul (peval f (fidx a)) gen)).
  { intros a A. destruct (FH a A) as (HA & PA & CA). destruct (kg_picked_runs C Hb Hf ck cd (rd a) a t n _ _ _ _ HA PA) as [out R].
    destruct (finished_facts C Hb Hf ck cd (rd a) a t n _ _ _ (RG a A) R) as (vs & F1 & F2 & F3 & F4 & v0 & F5 & F6 & F7).
    assert (GOT : forall k b, In b I -> b <> a -> 1 <= k <= 4 -> exists x, SmSpec.got (kg_of C) kg_p2p a (H a) k b = Some x).
    { intros k b Bi N K. destruct (runs_below _ _ _ _ _ _ R k ltac:(lia)) as [_ [_ [l [_ [_ [_ [IN _]]]]]]]. unfold inbox in IN. destruct (Nat.eqb_spec k 0) as [Z|_]; [lia|].
      destruct (SmSpec.got (kg_of C) kg_p2p a (H a) k b) as [x|] eqn:G; [exists x; reflexivity|]. exfalso.
      assert (Q : In None (map (SmSpec.got (kg_of C) kg_p2p a (H a) k) (peers a n))) by (apply in_map_iff; exists b; split; [exact G|]; apply (in_peers a n (RG a A)); split; [exact (RG b Bi)|exact N]). apply all_some_none in Q. congruence. }
    exists (key_poly C vs). split; [exact F1|]. split; [exact F2|]. split; [|split].
    - apply key_poly_len. intros v V. specialize (F5 v V). destruct (Nat.eq_dec a 1) as [->|N1]; [rewrite (F6 eq_refl), CA in F5; exact F5|].
      destruct (F7 N1) as [s G]. destruct (got_in C _ _ _ _ _ G) as (m & M1 & M2 & M3 & _). destruct (FH 1 I1) as (H1 & _ & C1). rewrite (dealt_len C Hb Hf ck cd (rd 1) 1 t n _ _ _ m v0 s H1) in F5; [rewrite C1 in F5; exact F5| |exact M3].
      exact (LK a 1 m A I1 N1 M1 M2).
    - intros b Bi N. destruct (GOT 4 b Bi N ltac:(lia)) as [x G]. destruct (F3 b x) as [p [-> E]]; [apply (in_peers a n (RG a A)); split; [exact (RG b Bi)|exact N]|exact G|].
      destruct (got_in C _ _ _ _ _ G) as (m & M1 & M2 & M3 & _). exists m, p. split; [exact (LK a b m A Bi (fun e => N (eq_sym e)) M1 M2)|]. auto.
    - intros m p M B. destruct (kg_sent_origin C Hb Hf ck cd (rd a) a t n _ _ _ m 3 HA M) as (d & o & l & d' & o' & R3 & IN & S3 & MO); [rewrite B; reflexivity|]. exact (F4 _ _ _ _ _ _ _ R3 IN S3 MO B). }
  intros a b A Bi. destruct (Nat.eq_dec a b) as [->|NAB]; [split; reflexivity|]. destruct (X a A) as (f & A1 & A2 & A3 & A4 & A5). destruct (X b Bi) as (g & B1 & B2 & B3 & B4 & B5).
  assert (E : forall x, peval f x = peval g x).
  { apply (poly_unique C (map fidx I)).
    - clear -ND NQ RG. induction I as [|x l IH]; [constructor|]. inversion ND as [|? ? N1 N2]. cbn [map]. constructor; [|apply IH; [exact N2|intros y Y; apply RG; right; exact Y]].
      intros Q. apply in_map_iff in Q. destruct Q as [y [E Y]]. apply fidx_inj in E; [subst; contradiction| |]; [specialize (RG y (or_intror Y))|specialize (RG x (or_introl eq_refl))]; lia.
    - rewrite map_length. lia.
    - rewrite map_length. lia.
    - intros x Xi. apply in_map_iff in Xi. destruct Xi as [e [<- Ei]]. apply smul_gen_inj. destruct (Nat.eq_dec e a) as [->|Na].
      + destruct (B4 a A NAB) as (m & p & M1 & M2 & M3). rewrite <- M3. symmetry. exact (A5 m p M1 M2).
      + destruct (A4 e Ei Na) as (m & p & M1 & M2 & M3). destruct (Nat.eq_dec e b) as [->|Nb]; [rewrite <- M3; exact (B5 m p M1 M2)|].
        destruct (B4 e Ei Nb) as (m' & p' & M1' & M2' & M3'). destruct (X e Ei) as (k & _ & _ & _ & _ & K5). rewrite <- M3, <- M3', (K5 m p M1 M2), (K5 m' p' M1' M2'). reflexivity. }
  split; [|rewrite A2, B2; apply map_ext; intros j; rewrite E; reflexivity].
  rewrite A1, B1. specialize (E f0). rewrite !peval_at_0 in E. rewrite E. reflexivity.
Qed.

(** ** A machine fed the messages of one set of samples *)
Section Fed.
Context (C : Curve).
Context (Hb : list Z -> Z) (Hf : hashF C) (ck : Z -> Z -> bool) (cd : Z -> dlstmt -> outcome mp_error bool).
Context (t n : nat) (rs : nat -> kg_rand C).
Notation F := (Fq (cq C)).
Notation bc := (h_bc C Hb rs).
Notation dec := (h_dec C rs).
Notation vs := (h_vss C t n rs).
Notation sh := (h_share C rs).
Notation xx := (h_x C n rs).
(** Round k's message of party j to party i *)
Definition fed (k j i : nat) : kg_msg C :=
  match k with 1 => KM1 (bc (j - 1)) | 2 => KM2 (dec (j - 1)) | 3 => KM3 (vs (j - 1), sh (j - 1) (i - 1)) | _ => KM4 (dlog_prove Hf (xx (j - 1)) (kr_nonce (rs (j - 1)))) end.
Definition fed_state (i k : nat) : kg_r C :=
  match k with
  | 0 => KR0 i t n
  | 1 => KR1 {| r1_keys := h_keys C rs (i - 1); r1_bc := bc (i - 1); r1_dec := dec (i - 1); r1_i := i; r1_t := t; r1_n := n |}
  | 2 => KR2 {| r2_keys := h_keys C rs (i - 1); r2_comm := map bc (seq 0 n); r2_dec := dec (i - 1); r2_i := i; r2_t := t; r2_n := n |}
  | 3 => KR3 (h_r3 C Hb t n rs (i - 1))
  | 4 => KR4 {| r4_keys := h_keys C rs (i - 1); r4_y := map (fun j => smul (kr_u (rs j)) gen) (seq 0 n); r4_bc := map bc (seq 0 n);
     r4_shared := {| sk_y := psum (map (fun j => smul (kr_u (rs j)) gen) (seq 0 n)); sk_x := xx (i - 1) |};
     r4_proof := dlog_prove Hf (xx (i - 1)) (kr_nonce (rs (i - 1))); r4_vss := map vs (seq 0 n); r4_i := i; r4_t := t; r4_n := n |}
  | _ => KFinal (h_lk C t n rs (i - 1))
  end.
Context (Htn : t < n)
  (Hck : forall i, i < n -> ck (kr_ck (rs i)) (kr_p1 (rs i) * kr_p2 (rs i))%Z = true)
  (Hcd1 : forall i, i < n -> cd (kr_cd1 (rs i)) (kr_dl (rs i)) = Ok true)
  (Hcd2 : forall i, i < n -> cd (kr_cd2 (rs i)) (swap_dl (kr_dl (rs i))) = Ok true)
  (HN : forall i, i < n -> bits_ok (kr_p1 (rs i) * kr_p2 (rs i)) = true /\ bits_ok (dl_N (kr_dl (rs i))) = true)
  (Hcoefs : forall i, i < n -> length (kr_coefs (rs i)) <= length (kr_coefs (rs 0))).
Lemma peers_others {A} (f : nat -> A) i : 1 <= i <= n -> map (fun j => f (j - 1)) (peers i n) = map f (others (i - 1) n).
Proof. intros I. rewrite <- but_map_seq by lia. symmetry. apply but_peers. exact I. Qed.
Lemma fed_verify (nonce : nat -> F) : kg_verify_dlog C Hf n (map (fun i => dlog_prove Hf (xx i) (nonce i)) (seq 0 n))
  (map (fun j => smul (kr_u (rs j)) gen) (seq 0 n)) (map vs (seq 0 n)) = Ok tt.
Proof.
  apply verify_dlog_ok. rewrite !map_length, seq_length. split; [reflexivity|]. split; [reflexivity|]. split.
  - destruct n as [|m]; [lia|]. cbn [seq map]. exists (h_vss C t (S m) rs 0), (map (h_vss C t (S m) rs) (seq 1 m)). split; [reflexivity|].
    split; [discriminate|]. intros v Hv. apply in_map_iff in Hv. destruct Hv as (j & <- & Hj). apply in_seq in Hj.
    unfold h_vss, h_poly. cbn [vs_com]. rewrite !map_length. cbn [length]. specialize (Hcoefs j ltac:(lia)). lia.
  - intros i Hi. split; [exact Hi|]. exists (dlog_prove Hf (xx i) (nonce i)). split; [|split].
    + rewrite nth_error_map. rewrite (nth_error_nth' _ 0%nat) by (rewrite seq_length; lia). rewrite seq_nth by lia. reflexivity.
    + apply dlog_complete.
    + rewrite h_dealt_at. reflexivity.
Qed.
Definition fed_out (i k : nat) : list (msg (kg_msg C)) :=
  match k with
  | 0 => bcast i (KM1 (bc (i - 1))) | 1 => bcast i (KM2 (dec (i - 1)))
  | 2 => map (fun y => {| m_from := i; m_to := Some (fst y); m_body := KM3 (snd y) |}) (h_out C t n rs (i - 1))
  | 3 => bcast i (KM4 (dlog_prove Hf (xx (i - 1)) (kr_nonce (rs (i - 1))))) | _ => []
  end.
Lemma fed_step i k : 1 <= i <= n -> k <= 4 ->
  kg_step C Hb Hf ck cd (rs (i - 1)) k (fed_state i k) (if k =? 0 then [] else map (fun j => fed k j i) (peers i n)) = Ok (fed_state i (S k), fed_out i k).
Proof.
  intros I K. destruct i as [|i]; [lia|]. cbn [Nat.sub]. rewrite Nat.sub_0_r. destruct k as [|[|[|[|[|k]]]]]; [| | | | |lia]; cbn [Nat.eqb fed fed_state fed_out Nat.sub]; rewrite ?Nat.sub_0_r; cbn [kg_step].
  - reflexivity.
  - rewrite (omapM_map_ok _ _ (fun j => bc (j - 1))) by reflexivity. cbn [obind]. unfold kg_r1. cbn [r1_keys r1_bc r1_dec r1_i r1_t r1_n]. rewrite (peers_others bc) by lia. cbn [Nat.sub]. rewrite Nat.sub_0_r.
    rewrite (incl_me_others bc) by lia. reflexivity.
  - rewrite (omapM_map_ok _ _ (fun j => dec (j - 1))) by reflexivity. cbn [obind]. unfold kg_r2. cbn [r2_keys r2_comm r2_dec r2_i r2_t r2_n]. rewrite (peers_others dec) by lia. cbn [Nat.sub]. rewrite Nat.sub_0_r.
    rewrite (incl_me_others dec) by lia. unfold kg_phase1_verify. rewrite !map_length, seq_length, Nat.eqb_refl. cbn [oassert obind]. rewrite combine_map2.
    rewrite (proj2 (first_bad_none (kg_check1 C Hb ck cd) _ 0)).
    2:{ apply Forall_forall. intros x Hx. apply in_map_iff in Hx. destruct Hx as (j & <- & Hj). apply in_seq in Hj. apply (h_check1 C Hb ck cd n rs Hck Hcd1 Hcd2 HN). lia. }
    cbn [obind]. unfold vss_share. rewrite (proj2 (Nat.ltb_lt t n) Htn). cbn [oassert obind fst snd]. rewrite map_length, seq_length. cbn [h_keys ky_u].
    change (kr_u (rs i) :: kr_coefs (rs i)) with (h_poly C rs i). rewrite (nth_o_map_seq _ 1 n i) by lia. cbn [obind plus]. rewrite map_map. reflexivity.
  - rewrite (omapM_map_ok _ _ (fun j => (vs (j - 1), sh (j - 1) i))) by reflexivity. cbn [obind]. unfold kg_r3. cbn [h_r3 r3_keys r3_y r3_bc r3_vss r3_share r3_i r3_t r3_n].
    rewrite (peers_others (fun j => (vs j, sh j i))) by lia. cbn [Nat.sub]. rewrite Nat.sub_0_r. rewrite (incl_me_others (fun j => (vs j, sh j i))) by lia.
    rewrite !map_map. cbn [fst snd]. rewrite (h_phase2 C Hf t n rs Htn) by lia. reflexivity.
  - rewrite (omapM_map_ok _ _ (fun j => dlog_prove Hf (xx (j - 1)) (kr_nonce (rs (j - 1))))) by reflexivity. cbn [obind]. unfold kg_r4. cbn [r4_keys r4_y r4_bc r4_shared r4_proof r4_vss r4_i r4_t r4_n].
    rewrite (peers_others (fun j => dlog_prove Hf (xx j) (kr_nonce (rs j)))) by lia. cbn [Nat.sub]. rewrite Nat.sub_0_r. rewrite (incl_me_others (fun j => dlog_prove Hf (xx j) (kr_nonce (rs j)))) by lia.
    rewrite (fed_verify (fun j => kr_nonce (rs j))). cbn [obind].
    rewrite (omapM_all _ (fun j => smul (xx j) gen)) by (intros j Hj; apply in_seq in Hj; rewrite nth_o_map_seq by lia; reflexivity). cbn [obind].
    rewrite (omapM_all _ (fun j => kr_p1 (rs j) * kr_p2 (rs j))%Z) by (intros j Hj; apply in_seq in Hj; rewrite nth_o_map_seq by lia; reflexivity).
    cbn [obind]. rewrite nth_o_map_seq by lia. cbn [obind plus]. unfold h_lk. rewrite map_map. clear - Htn. destruct n as [|m]; [lia|]. cbn [seq map]. rewrite fold_left_padd. reflexivity.
Qed.
Lemma fed_of k j i : 1 <= k <= 4 -> kg_of C (fed k j i) = k.
Proof. intros K. destruct k as [|[|[|[|[|k]]]]]; try lia; reflexivity. Qed.
Lemma fed_out_3 i : h_out C t n rs i = map (fun r => (S r, (vs i, sh i r))) (filter (fun r => negb (S r =? S i)) (seq 0 n)).
Proof.
  unfold h_out. rewrite <- seq_shift, map_map. rewrite <- (map_id (seq 0 n)) at 1. rewrite combine_map2. generalize (seq 0 n). intros l. induction l as [|a l IH]; [reflexivity|]. cbn [map filter].
  destruct (negb (S a =? S i)); cbn [map]; rewrite IH; reflexivity.
Qed.
(** Everything machine i puts out *)
Definition fed_all (i : nat) : list (msg (kg_msg C)) := fed_out i 0 ++ fed_out i 1 ++ fed_out i 2 ++ fed_out i 3.
Lemma in_fed_all i a m : 1 <= i <= n -> In a (peers i n) -> (In m (fed_all i) /\ (m_to m = None \/ m_to m = Some a) <->
  exists k, 1 <= k <= 4 /\ m = {| m_from := i; m_to := if kg_p2p k then Some a else None; m_body := fed k i a |}).
Proof.
  intros I A. apply (in_peers i n I) in A. unfold fed_all. rewrite !in_app_iff. cbn [fed_out bcast]. split.
  - intros [[[E|[]]|[[E|[]]|[E|[E|[]]]]] T].
    + exists 1. split; [lia|]. subst m. reflexivity.
    + exists 2. split; [lia|]. subst m. reflexivity.
    + exists 3. split; [lia|]. rewrite fed_out_3, map_map in E. apply in_map_iff in E. destruct E as [r [E R]]. subst m. cbn [m_to fst snd] in *. destruct T as [T|T]; [discriminate|]. injection T as <-. cbn [fed kg_p2p Nat.eqb Nat.sub]. rewrite Nat.sub_0_r. reflexivity.
    + exists 4. split; [lia|]. subst m. reflexivity.
  - intros [k [K ->]]. cbn [m_to]. split; [|destruct (kg_p2p k); auto]. destruct k as [|[|[|[|[|k]]]]]; try lia; cbn [kg_p2p Nat.eqb fed].
    + left. left. reflexivity.
    + right. left. left. reflexivity.
    + right. right. left. rewrite fed_out_3, map_map. apply in_map_iff. exists (a - 1). cbn [fst snd]. replace (S (a - 1)) with a by lia. split; [reflexivity|]. apply filter_In. split; [apply in_seq; lia|].
      apply negb_true_iff, Nat.eqb_neq. lia.
    + right. right. right. left. reflexivity.
Qed.
Lemma fed_runs i inbx : 1 <= i <= n -> inbx 0 = Some [] -> (forall k, 1 <= k <= 4 -> inbx k = Some (map (fun j => fed k j i) (peers i n))) ->
  runs (kg_step C Hb Hf ck cd (rs (i - 1))) (KR0 i t n) inbx 5 (KFinal (h_lk C t n rs (i - 1))) (fed_all i).
Proof.
  intros I I0 I1. assert (E : fed_all i = (((([] ++ fed_out i 0) ++ fed_out i 1) ++ fed_out i 2) ++ fed_out i 3) ++ fed_out i 4) by (unfold fed_all; cbn [fed_out app]; rewrite <- !app_assoc, app_nil_r; reflexivity).
  rewrite E. change (KFinal (h_lk C t n rs (i - 1))) with (fed_state i 5).
  assert (Q : forall k, k <= 4 -> inbx k = Some (if k =? 0 then [] else map (fun j => fed k j i) (peers i n))) by (intros k K; destruct k; [exact I0|apply I1; lia]).
  assert (R0 : runs (kg_step C Hb Hf ck cd (rs (i - 1))) (KR0 i t n) inbx 0 (fed_state i 0) []) by constructor.
  pose proof (runs_S _ _ _ _ _ _ _ _ _ R0 (Q 0 ltac:(lia)) (fed_step i 0 I ltac:(lia))) as R1. pose proof (runs_S _ _ _ _ _ _ _ _ _ R1 (Q 1 ltac:(lia)) (fed_step i 1 I ltac:(lia))) as R2.
  pose proof (runs_S _ _ _ _ _ _ _ _ _ R2 (Q 2 ltac:(lia)) (fed_step i 2 I ltac:(lia))) as R3. pose proof (runs_S _ _ _ _ _ _ _ _ _ R3 (Q 3 ltac:(lia)) (fed_step i 3 I ltac:(lia))) as R4.
  exact (runs_S _ _ _ _ _ _ _ _ _ R4 (Q 4 ltac:(lia)) (fed_step i 4 I ltac:(lia))).
Qed.
(** The calls on machine i: all messages, enough calls of proceed, and pick_output *)
Definition fed_ops (i : nat) : list (op (kg_msg C)) := (map Deliver (full (kgp C Hb Hf ck cd (rs (i - 1)) i n) (fun k j => fed k j i)) ++ repeat Proceed 6) ++ [Pick].
Lemma fed_hist i : 2 <= n -> 1 <= t -> 1 <= i <= n -> exists s rets, kg_hist C Hb Hf ck cd (rs (i - 1)) i t n (fed_ops i) s rets /\ picks rets = [h_lk C t n rs (i - 1)] /\ sent_by (ks_queue s) rets = fed_all i.
Proof.
  intros N2 T1 I. set (rd := rs (i - 1)) in *. set (P := kgp C Hb Hf ck cd rd i n). set (s0 := kg_start C i t n). exists (fst (run_ops (kg_op C Hb Hf ck cd rd) s0 (fed_ops i))), (snd (run_ops (kg_op C Hb Hf ck cd rd) s0 (fed_ops i))).
  assert (H : kg_hist C Hb Hf ck cd rd i t n (fed_ops i) (fst (run_ops (kg_op C Hb Hf ck cd rd) s0 (fed_ops i))) (snd (run_ops (kg_op C Hb Hf ck cd rd) s0 (fed_ops i)))).
  { exists s0. split; [|destruct (run_ops _ s0 _); reflexivity]. unfold kg_new. rewrite (proj2 (Nat.ltb_ge n 2) N2), (proj2 (Nat.eqb_neq t 0)), (proj2 (Nat.leb_gt n t)), (proj2 (Nat.eqb_neq i 0)), (proj2 (Nat.ltb_ge n i)) by lia. reflexivity. }
  split; [exact H|]. destruct (kg_hist_run C Hb Hf ck cd rd _ _ _ _ _ _ H) as (_ & F1 & F2 & _).
  assert (IN : forall rest k, 1 <= k <= 4 -> inbox (kg_of C) kg_p2p i n (map Deliver (full P (fun k j => fed k j i)) ++ rest) k = Some (map (fun j => fed k j i) (peers i n))).
  { intros rest k K. exact (inbox_full P I (fun k j => fed k j i) rest k (fun k j => fed_of k j i) K). }
  set (h := map Deliver (full P (fun k j => fed k j i)) ++ repeat Proceed 6).
  pose proof (fed_runs i (inbox (kg_of C) kg_p2p i n h) I eq_refl (IN _)) as RR.
  assert (PK : picks (map (kg_ret C) (snd (run_ops (kg_op C Hb Hf ck cd rd) s0 (fed_ops i)))) = [KFinal (h_lk C t n rs (i - 1))]).
  { rewrite F2. refine (settled_pick P (KR0 i t n) I (kgp_of C Hb Hf ck cd rd i n) (kgp_exp C Hb Hf ck cd rd i n) h _ _ _ RR). exact (settled P (KR0 i t n) I (kgp_of C Hb Hf ck cd rd i n) (kgp_exp C Hb Hf ck cd rd i n) _). }
  split.
  - rewrite kg_picks in PK. destruct (picks (snd (run_ops (kg_op C Hb Hf ck cd rd) s0 (fed_ops i)))) as [|x [|y l]]; try discriminate. cbn [map] in PK. injection PK as ->. reflexivity.
  - rewrite F2 in PK. pose proof (picked_runs P (KR0 i t n) I (kgp_of C Hb Hf ck cd rd i n) (kgp_exp C Hb Hf ck cd rd i n) _ _ PK) as R2. unfold sent_by. rewrite <- (kg_sent C), F1, F2.
    refine (proj2 (runs_det _ _ _ _ _ _ _ _ _ R2)). apply (fed_runs i _ I eq_refl). intros k K. unfold fed_ops. rewrite <- app_assoc. apply IN. exact K.
Qed.
Lemma in_fed_ops i m : 1 <= i <= n -> In (Deliver m) (fed_ops i) <-> exists k j, 1 <= k <= 4 /\ In j (peers i n) /\ m = {| m_from := j; m_to := if kg_p2p k then Some i else None; m_body := fed k j i |}.
Proof.
  intros I. unfold fed_ops. rewrite !in_app_iff, in_map_iff. split.
  - intros [[[m' [E M]]|M]|[M|[]]]; [|apply repeat_spec in M; discriminate|discriminate]. injection E as ->. apply (in_full (kgp C Hb Hf ck cd (rs (i - 1)) i n) I) in M. exact M.
  - intros M. left. left. exists m. split; [reflexivity|]. apply (in_full (kgp C Hb Hf ck cd (rs (i - 1)) i n) I). exact M.
Qed.
End Fed.

(** ** One dealer, a different polynomial for every machine *)
Section Dealer.
Context (C : Curve) (c : nat) (u : nat -> Fq (cq C)) (coefs : nat -> list (Fq (cq C))) (ks : nat -> kg_rand C).
Add Field cfield114 : (C_field C).
(** The samples behind what machine a receives: party c+1 uses [u a] and [coefs a] with it. *)
Definition toward (a i : nat) : kg_rand C :=
  if i =? c then {| kr_u := u a; kr_p1 := kr_p1 (ks i); kr_p2 := kr_p2 (ks i); kr_dl := kr_dl (ks i); kr_blind := kr_blind (ks i); kr_ck := kr_ck (ks i);
                    kr_cd1 := kr_cd1 (ks i); kr_cd2 := kr_cd2 (ks i); kr_coefs := coefs a; kr_nonce := kr_nonce (ks i) |} else ks i.
Lemma toward_sum a n : c < n -> fsum (map (fun i => kr_u (toward a i)) (seq 0 n)) = fadd (u a) (fsum (map (fun i => kr_u (ks i)) (others c n))).
Proof.
  intros L. unfold others. replace (seq 0 n) with (seq 0 c ++ c :: seq (S c) (n - S c)) by (replace n with (c + S (n - S c)) at 2 by lia; rewrite seq_app; reflexivity).
  rewrite !map_app, !fsum_app. cbn [map]. unfold toward at 2. rewrite Nat.eqb_refl. cbn [kr_u].
  rewrite (map_ext_in (fun i => kr_u (toward a i)) (fun i => kr_u (ks i)) (seq 0 c)) by (intros i X; apply in_seq in X; unfold toward; rewrite (proj2 (Nat.eqb_neq i c)) by lia; reflexivity).
  rewrite (map_ext_in (fun i => kr_u (toward a i)) (fun i => kr_u (ks i)) (seq (S c) _)) by (intros i X; apply in_seq in X; unfold toward; rewrite (proj2 (Nat.eqb_neq i c)) by lia; reflexivity).
  cbn [fsum fold_right]. change (fold_right fadd f0 ?l) with (fsum l). ring.
Qed.
Lemma one_zero (x : Fq (cq C)) : fadd f0 x = fadd f1 x -> False.
Proof. intros E. apply (f1_neq_f0 (cq_prime C)). assert (Q : (f1 : Fq (cq C)) = fsub (fadd f1 x) x) by ring. rewrite Q, <- E. ring. Qed.
End Dealer.

(** Fewer than t+1 machines, or machines among which party 1 is missing: one party can make every machine of [I] finish
    with a public key of its own, all messages between them being delivered. The contributions [u a] it uses towards the
    machines are arbitrary and chosen beforehand; the other parties' samples are arbitrary. *)
Theorem C114_dealer_splits_refuted : forall (C : Curve) t n I (u : nat -> Fq (cq C)),
  1 <= t < n -> (Z.of_nat n < cq C)%Z -> NoDup I -> (forall a, In a I -> 1 <= a <= n) -> ~ In 1 I \/ length I <= t ->
  exists c, c < n /\ ~ In (S c) I /\ forall Hb (Hf : hashF C) ck cd ks, run_rand_ok C ck cd t n ks ->
  exists H st rets lk, finishing C Hb Hf ck cd t n I (fun a => ks (a - 1)) H st rets lk /\
    forall a, In a I -> lk_y (lk a) = smul (fadd (u a) (fsum (map (fun i => kr_u (ks i)) (others c n)))) gen.
Proof.
  intros C t n I u T NQ ND RG OR.
  assert (SEEN : NoDup (map pred I) /\ (forall i, In i (map pred I) -> i < n)).
  { split; [|intros i X; apply in_map_iff in X; destruct X as [a [<- A]]; specialize (RG a A); lia]. clear -ND RG. induction I as [|x l IH]; [constructor|]. inversion ND as [|? ? N1 N2]. cbn [map]. constructor; [|apply IH; [exact N2|intros y Y; apply RG; right; exact Y]].
    intros Q. apply in_map_iff in Q. destruct Q as [y [E Y]]. assert (y = x) by (specialize (RG y (or_intror Y)) as R1; specialize (RG x (or_introl eq_refl)) as R2; lia). subst y. contradiction. }
  destruct SEEN as [SN SI].
  assert (CC : exists c T', c < n /\ ~ In (S c) I /\ length I <= T' /\ T' < n /\ t <= T' /\ (T' = t \/ c = 0)).
  { destruct (in_dec Nat.eq_dec 1 I) as [I1|I1].
    - destruct OR as [OR|OR]; [contradiction|]. destruct (existsb (fun c => negb (existsb (Nat.eqb (S c)) I)) (seq 0 n)) eqn:E.
      + apply existsb_exists in E. destruct E as (c & X & E). apply in_seq in X. exists c, t. split; [lia|]. split; [|lia]. intros J. apply negb_true_iff in E.
        assert (Q : existsb (Nat.eqb (S c)) I = true) by (apply existsb_exists; exists (S c); split; [exact J|apply Nat.eqb_refl]). congruence.
      + exfalso. assert (X : incl (seq 1 n) I).
        { intros j J. apply in_seq in J. destruct (existsb (Nat.eqb (S (j - 1))) I) eqn:B; [apply existsb_exists in B; destruct B as (k & K & B); apply Nat.eqb_eq in B; replace j with k by lia; exact K|].
          assert (Q : existsb (fun c => negb (existsb (Nat.eqb (S c)) I)) (seq 0 n) = true) by (apply existsb_exists; exists (j - 1); split; [apply in_seq; lia|rewrite B; reflexivity]). congruence. }
        apply (NoDup_incl_length (seq_NoDup n 1)) in X. rewrite seq_length in X. lia.
    - exists 0, (n - 1). split; [lia|]. split; [exact I1|]. split; [|lia].
      assert (X : incl I (seq 2 (n - 1))) by (intros a A; apply in_seq; specialize (RG a A); assert (a <> 1) by (intros ->; contradiction); lia). apply (NoDup_incl_length ND) in X. rewrite seq_length in X. exact X. }
  destruct CC as (c & T' & C1 & C2 & C3 & C4 & C5 & C6).
  destruct (choices t n (proj2 T) (fun a r => length r = T' /\ forall i, In i (map pred I) -> peval (u a :: r) (fidx (S i)) = peval (f0 :: repeat f0 T') (fidx (S i))) [] n) as [coefs CO].
  { intros a _. apply (other_poly C f0 (u a) (repeat f0 T') (map pred I) T' n); [exact C4|exact NQ|apply repeat_length|exact SN|exact SI|rewrite map_length; exact C3]. }
  exists c. split; [exact C1|]. split; [exact C2|]. intros Hb Hf ck cd ks OK. set (tw := toward C c u coefs ks).
  assert (EQ : forall a i, S i <> S c -> tw a i = ks i) by (intros a i N; unfold tw, toward; rewrite (proj2 (Nat.eqb_neq i c)) by lia; reflexivity).
  assert (HC : forall a, In a I -> exists s rets, kg_hist C Hb Hf ck cd (tw a (a - 1)) a t n (fed_ops C Hb Hf ck cd t n (tw a) a) s rets /\ picks rets = [h_lk C t n (tw a) (a - 1)] /\ sent_by (ks_queue s) rets = fed_all C Hb Hf t n (tw a) a).
  { intros a A. specialize (RG a A) as R. assert (OK' : forall i, i < n -> ck (kr_ck (tw a i)) (kr_p1 (tw a i) * kr_p2 (tw a i))%Z = true /\ cd (kr_cd1 (tw a i)) (kr_dl (tw a i)) = Ok true /\ cd (kr_cd2 (tw a i)) (swap_dl (kr_dl (tw a i))) = Ok true /\
        (bits_ok (kr_p1 (tw a i) * kr_p2 (tw a i)) = true /\ bits_ok (dl_N (kr_dl (tw a i))) = true)).
    { intros i L. destruct (OK i L) as (_ & O1 & O2 & O3 & O4 & O5 & _). unfold tw, toward. destruct (i =? c); cbn [kr_ck kr_p1 kr_p2 kr_cd1 kr_cd2 kr_dl]; (split; [exact O1|]; split; [exact O2|]; split; [exact O3|]);
        unfold bits_ok, PAILLIER_MIN, PAILLIER_MAX; rewrite !andb_true_iff, !Z.leb_le; lia. }
    assert (LN : forall i, i < n -> length (kr_coefs (tw a i)) <= length (kr_coefs (tw a 0))).
    { assert (LC : length (coefs a) = T') by (apply CO; lia). intros i L. unfold tw, toward. destruct (OK i L) as [Li _]. destruct (OK 0 ltac:(lia)) as [L0 _]. destruct C6 as [->| ->].
      - destruct (i =? c), (0 =? c); cbn [kr_coefs]; lia.
      - cbn [Nat.eqb kr_coefs]. destruct (i =? 0); cbn [kr_coefs]; lia. }
    apply (fed_hist C Hb Hf ck cd t n (tw a) (proj2 T) (fun i L => proj1 (OK' i L)) (fun i L => proj1 (proj2 (OK' i L))) (fun i L => proj1 (proj2 (proj2 (OK' i L)))) (fun i L => proj2 (proj2 (proj2 (OK' i L)))) LN a); lia. }
  assert (CH : exists st rets, forall a, In a I -> kg_hist C Hb Hf ck cd (tw a (a - 1)) a t n (fed_ops C Hb Hf ck cd t n (tw a) a) (st a) (rets a) /\ picks (rets a) = [h_lk C t n (tw a) (a - 1)] /\ sent_by (ks_queue (st a)) (rets a) = fed_all C Hb Hf t n (tw a) a).
  { destruct (choices t n (proj2 T) (fun a (x : kg_sm C * list (ret mp_error (kg_msg C) (local_key C))) => In a I -> kg_hist C Hb Hf ck cd (tw a (a - 1)) a t n (fed_ops C Hb Hf ck cd t n (tw a) a) (fst x) (snd x) /\ picks (snd x) = [h_lk C t n (tw a) (a - 1)] /\ sent_by (ks_queue (fst x)) (snd x) = fed_all C Hb Hf t n (tw a) a)
      (kg_start C 0 t n, []) n) as [f FF].
    - intros a _. destruct (in_dec Nat.eq_dec a I) as [A|A]; [|exists (kg_start C 0 t n, []); intros B; contradiction]. destruct (HC a A) as (s & r & Q). exists (s, r). intros _. exact Q.
    - exists (fun a => fst (f a)), (fun a => snd (f a)). intros a A. apply FF; [|exact A]. specialize (RG a A). lia. }
  destruct CH as (st & rets & HH). exists (fun a => fed_ops C Hb Hf ck cd t n (tw a) a), st, rets, (fun a => h_lk C t n (tw a) (a - 1)).
  assert (NC : forall a, In a I -> S (a - 1) <> S c) by (intros a A E; apply C2; rewrite <- E; specialize (RG a A); replace (S (a - 1)) with a by lia; exact A).
  assert (XX : forall a b, In a I -> In b I -> h_x C n (tw a) (b - 1) = h_x C n (tw b) (b - 1)).
  { intros a b A B. unfold h_x. f_equal. apply map_ext_in. intros i L. apply in_seq in L. unfold h_share, h_poly. destruct (Nat.eq_dec i c) as [->|N]; [|rewrite !EQ by lia; reflexivity].
    unfold tw, toward. rewrite Nat.eqb_refl. cbn [kr_u kr_coefs]. specialize (RG a A) as Ra. specialize (RG b B) as Rb.
    rewrite (proj2 (CO a ltac:(lia)) (b - 1)), (proj2 (CO b ltac:(lia)) (b - 1)) by (apply in_map_iff; exists b; split; [lia|exact B]). reflexivity. }
  assert (FE : forall a b k x, In a I -> In b I -> fed C Hb Hf t n (tw a) k b x = fed C Hb Hf t n (tw b) k b x).
  { intros a b k x A B. unfold fed. rewrite (XX a b A B). unfold h_bc, h_dec, h_vss, h_share, h_poly. rewrite !(EQ _ (b - 1) (NC b B)). reflexivity. }
  split; [split; [|split]|].
  - intros a A. destruct (HH a A) as (H1 & H2 & _). rewrite (EQ a _ (NC a A)) in H1. split; [exact H1|]. split; [exact H2|]. apply OK. specialize (RG a A). lia.
  - intros a b m A B N M F. destruct (HH b B) as (_ & _ & ->). apply (in_fed_ops C Hb Hf ck cd t n (tw a) a m (RG a A)) in M. destruct M as (k & j & K & J & ->). cbn [m_from] in F. subst j.
    apply (in_fed_all C Hb Hf t n (tw b) (proj2 T) b a _ (RG b B)); [apply (in_peers b n (RG b B)); split; [exact (RG a A)|exact N]|]. exists k. split; [exact K|]. rewrite (FE a b k a A B). reflexivity.
  - intros a b m A B N M TO. destruct (HH b B) as (_ & _ & E). rewrite E in M. apply (in_fed_ops C Hb Hf ck cd t n (tw a) a m (RG a A)).
    destruct (proj1 (in_fed_all C Hb Hf t n (tw b) (proj2 T) b a m (RG b B) ltac:(apply (in_peers b n (RG b B)); split; [exact (RG a A)|exact N])) (conj M TO)) as (k & K & ->).
    exists k, b. split; [exact K|]. split; [apply (in_peers a n (RG a A)); split; [exact (RG b B)|intros Q; exact (N (eq_sym Q))]|]. rewrite (FE a b k a A B). reflexivity.
  - intros a A. cbn [h_lk lk_y]. rewrite psum_smul_map. unfold tw. rewrite toward_sum by exact C1. reflexivity.
Qed.
Print Assumptions C114_finished_keys_agree.
Print Assumptions C114_dealer_splits_refuted.

(** Both together: the machines of [I] that finish always agree iff there are more than t of them and party 1 is one of them. *)
Theorem C114_keys_agree_iff : forall (C : Curve) Hb (Hf : hashF C) ck cd t n I ks,
  1 <= t < n -> (Z.of_nat n < cq C)%Z -> NoDup I -> 2 <= length I -> (forall a, In a I -> 1 <= a <= n) -> run_rand_ok C ck cd t n ks ->
  ((forall rd H st rets lk, finishing C Hb Hf ck cd t n I rd H st rets lk -> forall a b, In a I -> In b I -> lk_y (lk a) = lk_y (lk b)) <-> In 1 I /\ t < length I).
Proof.
  intros C Hb Hf ck cd t n I ks T NQ ND L2 RG OK. split.
  - intros AG. destruct (in_dec Nat.eq_dec 1 I) as [I1|I1]; [destruct (Nat.lt_ge_cases t (length I)) as [L|L]; [auto|]|]; exfalso;
      destruct I as [|x [|y l]]; cbn [length] in L2; try lia; pose proof (proj1 (NoDup_cons_iff _ _) ND) as [NX _];
      (destruct (C114_dealer_splits_refuted C t n (x :: y :: l) (fun a => if a =? x then f0 else f1) T NQ ND RG) as (c & _ & _ & S); [first [left; exact I1|right; exact L]|]);
      destruct (S Hb Hf ck cd ks OK) as (HO & st & rets & lk & FI & KY); specialize (AG _ _ _ _ _ FI x y (or_introl eq_refl) (or_intror (or_introl eq_refl)));
      rewrite !KY in AG by (cbn; auto); apply smul_gen_inj in AG; rewrite Nat.eqb_refl in AG; rewrite (proj2 (Nat.eqb_neq y x)) in AG by (intros ->; apply NX; left; reflexivity);
      exact (one_zero C _ AG).
  - intros [I1 L] rd H st rets lk FI a b A B. exact (proj1 (C114_finished_keys_agree C Hb Hf ck cd t n I rd H st rets lk ND NQ I1 L FI a b A B)).
Qed.
Print Assumptions C114_keys_agree_iff.

(** Machines whose peers all follow the code finish: the hypotheses of the theorems above can be met for every [I]. *)
Lemma honest_finishing (C : Curve) Hb (Hf : hashF C) ck cd t n I ks : 1 <= t < n -> (forall a, In a I -> 1 <= a <= n) -> run_rand_ok C ck cd t n ks ->
  exists H st rets lk, finishing C Hb Hf ck cd t n I (fun a => ks (a - 1)) H st rets lk.
Proof.
  intros T RG OK.
  assert (HC : forall a, In a I -> exists s rets, kg_hist C Hb Hf ck cd (ks (a - 1)) a t n (fed_ops C Hb Hf ck cd t n ks a) s rets /\ picks rets = [h_lk C t n ks (a - 1)] /\ sent_by (ks_queue s) rets = fed_all C Hb Hf t n ks a).
  { intros a A. specialize (RG a A) as R. apply (fed_hist C Hb Hf ck cd t n ks (proj2 T)); try lia; intros i L; destruct (OK i L) as (O0 & O1 & O2 & O3 & O4 & O5 & _); try assumption.
    - unfold bits_ok, PAILLIER_MIN, PAILLIER_MAX. rewrite !andb_true_iff, !Z.leb_le. lia.
    - destruct (OK 0 ltac:(lia)) as [L0 _]. lia. }
  destruct (choices t n (proj2 T) (fun a (x : kg_sm C * list (ret mp_error (kg_msg C) (local_key C))) => In a I -> kg_hist C Hb Hf ck cd (ks (a - 1)) a t n (fed_ops C Hb Hf ck cd t n ks a) (fst x) (snd x) /\ picks (snd x) = [h_lk C t n ks (a - 1)] /\ sent_by (ks_queue (fst x)) (snd x) = fed_all C Hb Hf t n ks a)
      (kg_start C 0 t n, []) n) as [f FF].
  { intros a _. destruct (in_dec Nat.eq_dec a I) as [A|A]; [|exists (kg_start C 0 t n, []); intros B; contradiction]. destruct (HC a A) as (s & r & Q). exists (s, r). intros _. exact Q. }
  exists (fun a => fed_ops C Hb Hf ck cd t n ks a), (fun a => fst (f a)), (fun a => snd (f a)), (fun a => h_lk C t n ks (a - 1)).
  assert (HH : forall a, In a I -> kg_hist C Hb Hf ck cd (ks (a - 1)) a t n (fed_ops C Hb Hf ck cd t n ks a) (fst (f a)) (snd (f a)) /\ picks (snd (f a)) = [h_lk C t n ks (a - 1)] /\ sent_by (ks_queue (fst (f a))) (snd (f a)) = fed_all C Hb Hf t n ks a).
  { intros a A. apply FF; [|exact A]. specialize (RG a A). lia. }
  split; [|split].
  - intros a A. destruct (HH a A) as (H1 & H2 & _). split; [exact H1|]. split; [exact H2|]. apply OK. specialize (RG a A). lia.
  - intros a b m A B N M F. destruct (HH b B) as (_ & _ & E). cbv beta. rewrite E. apply (in_fed_ops C Hb Hf ck cd t n ks a m (RG a A)) in M. destruct M as (k & j & K & J & ->). cbn [m_from] in F. subst j.
    apply (in_fed_all C Hb Hf t n ks (proj2 T) b a _ (RG b B)); [apply (in_peers b n (RG b B)); split; [exact (RG a A)|exact N]|]. exists k. auto.
  - intros a b m A B N M TO. cbv beta in M. destruct (HH b B) as (_ & _ & E). rewrite E in M. apply (in_fed_ops C Hb Hf ck cd t n ks a m (RG a A)).
    destruct (proj1 (in_fed_all C Hb Hf t n ks (proj2 T) b a m (RG b B) ltac:(apply (in_peers b n (RG b B)); split; [exact (RG a A)|exact N])) (conj M TO)) as (k & K & ->).
    exists k, b. split; [exact K|]. split; [apply (in_peers a n (RG a A)); split; [exact (RG b B)|intros Q; exact (N (eq_sym Q))]|]. reflexivity.
Qed.
(** The hypotheses on secp256k1: parties 1 and 2 of three, threshold 1 *)
Example C114_example_hypotheses : exists Hb (Hf : hashF secp256k1) ck cd ks H st rets lk, run_rand_ok secp256k1 ck cd 1 3 ks /\ finishing secp256k1 Hb Hf ck cd 1 3 [1; 2] (fun a => ks (a - 1)) H st rets lk.
Proof.
  destruct C110_example_hypotheses as (ck & cd & ks & OK). exists (fun _ => 0%Z), (fun _ => f0), ck, cd, ks. destruct (honest_finishing secp256k1 (fun _ => 0%Z) (fun _ => f0) ck cd 1 3 [1; 2] ks) as (H & st & rets & lk & FI); [lia|intros a [<-|[<-|[]]]; lia|exact OK|].
  exists H, st, rets, lk. split; [exact OK|exact FI].
Qed.
(** Three parties, threshold 1: machines 1 and 2 get the key 13 of C20_example from an honest party 3.  A dishonest party 1 that deals the polynomial 0
    to machine 2 and (x-2)(x-3), one coefficient too many, to machine 3 leaves them with the keys 8 and 14. *)
Definition ex_machine (rs : nat -> kg_rand toy) (a : nat) : list (Z * Z * list Z) :=
  match kg_new toy exHb exHf3 (fun _ _ => true) (fun _ _ => Ok true) (rs (a - 1)) a 1 3 with
  | Ok s0 => map lk_obs (picks (snd (run_ops (kg_op toy exHb exHf3 (fun _ _ => true) (fun _ _ => Ok true) (rs (a - 1))) s0 (fed_ops toy exHb exHf3 (fun _ _ => true) (fun _ _ => Ok true) 1 3 rs a)))) | _ => [] end.
Definition ex_split : nat -> nat -> kg_rand toy := toward toy 0 (fun a => nth a [tz 0; tz 0; tz 0; tz 6] (tz 0)) (fun a => nth a [[]; []; [tz 0; tz 0]; [tz 26; tz 1]] []) exrs.
Example C114_example : map (ex_machine exrs) [1; 2] = [[(13, 14, [14; 15; 16])]; [(13, 15, [14; 15; 16])]]%Z /\
  map (fun a => map (fun x => fst (fst x)) (ex_machine (ex_split a) a)) [2; 3] = [[8]; [14]]%Z.
Proof. split; vm_compute; reflexivity. Qed.

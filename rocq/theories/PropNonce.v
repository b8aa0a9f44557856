(** C116: offline signing machines that finish on each other's round-5 messages have computed the same nonce point. *)
From Coq Require Import ZArith Lia Bool List Permutation Field.
From Verif Require Import ZArithX Fq Curve Toy Outcome Sigma Bytes Vss VssProofs Paillier RangeProofs Pdl PdlSlack Mta Ecdsa Mp MpProofs Gg20Keygen KeygenProofs KeygenExtra KeygenRun Gg20Sign SignRun SignProofs Blame Stores RoundSM SmSpec SmProofs KeygenSM SignSM SmSim SmTheory SmFacts SmTags SmPanic SmCause SmCauseSg Network PropRange PropExtract PropCommit PropKeygen PropSign PropSignChecks PropSM PropNetwork PropPanic PropKgPanic PropSgPanic PropFixed NetProofs BlameHonest.
Import ListNotations.
Local Open Scope nat_scope.

(** What PDLwSlackProof::verify hashes (zk_pdl_with_slack/mod.rs:129-137), written out: the base point, the statement's point, the
    ciphertext and the first four entries of the proof. *)
Definition hashed {C : Curve} (base R' : pt C) (c z : Z) (u1 : pt C) (u2 u3 : Z) : list (hitem C) :=
  [HInt (pt_int base); HInt (pt_int R'); HInt c; HInt z; HInt (pt_int u1); HInt u2; HInt u3].
(** Two answers e, e' of the hash under which a proof made for k with base R and blinding alpha also passes for the base R0: *)
Definition lucky {C : Curve} (k alpha e e' : Fq (cq C)) (R R0 : pt C) : Prop := smul (fadd (fmul e' k) alpha) R = smul (fadd (fmul e k) alpha) R0.

Section Eq.
Context (C : Curve).
Add Field CFnonce : (C_field C).
Lemma pt_int_inj (P Q : pt C) : pt_int P = pt_int Q -> P = Q.
Proof.
  intros E. pose proof (f_equal to_bytes E) as B. rewrite !to_bytes_pt_int in B. pose proof (pt_bytes_length C P) as LP. pose proof (pt_bytes_length C Q) as LQ.
  destruct (pt_eqb_spec C P pzero) as [->|NP], (pt_eqb_spec C Q pzero) as [->|NQ]; [reflexivity| | |exact (pt_bytes_inj C P Q B)].
  - rewrite <- B in LQ. discriminate.
  - rewrite B in LP. discriminate.
Qed.
Lemma hashed_base (R R0 R' u1 : pt C) c c0 z u2 u3 : R <> R0 -> hashed R R' c z u1 u2 u3 <> hashed R0 R' c0 z u1 u2 u3.
Proof. intros N E. unfold hashed in E. injection E as E _. exact (N (pt_int_inj _ _ E)). Qed.
Lemma of_Z_lin (e a : Z) (k : Fq (cq C)) : of_Z (cq C) (e * to_Z k + a) = fadd (fmul (of_Z (cq C) e) k) (of_Z (cq C) a).
Proof. rewrite of_Z_add, of_Z_mul, of_Z_to_Z. reflexivity. Qed.
(** The equation a proof made for one base has to meet to be accepted for another *)
Lemma accepted (Hz : hashZ C) k kr c N dl pr R (x : pdls_proof C) : sg_pdl Hz (smul k R) R c N k kr dl pr = Ok x ->
  forall R0 c0 N0 dl0, pdls_verify Hz x (sg_pdl_stmt (smul k R) R0 c0 N0 dl0) = Ok tt ->
  pp_u1 x = smul (of_Z (cq C) (pr_alpha pr)) R /\
  lucky k (of_Z (cq C) (pr_alpha pr)) (of_Z (cq C) (Hz (hashed R (smul k R) c (pp_z x) (pp_u1 x) (pp_u2 x) (pp_u3 x)))) (of_Z (cq C) (Hz (hashed R0 (smul k R) c0 (pp_z x) (pp_u1 x) (pp_u2 x) (pp_u3 x)))) R R0.
Proof.
  intros P R0 c0 N0 dl0 V. unfold sg_pdl in P. destruct (pdls_prove _ _ _ _ _ _ _ _) as [y|e|] eqn:Q; try discriminate. injection P as ->.
  unfold pdls_prove in Q. apply obind_ok in Q. destruct Q as (z & _ & Q). cbv zeta in Q. apply obind_ok in Q. destruct Q as (u2 & _ & Q). apply obind_ok in Q. destruct Q as (u3 & _ & Q). apply obind_ok in Q. destruct Q as (s2 & _ & Q).
  injection Q as <-. cbn [pp_z pp_u1 pp_u2 pp_u3 sg_pdl_stmt ps_G ps_Q ps_c]. split; [reflexivity|].
  unfold pdls_verify in V. cbv zeta in V. apply obind_ok in V. destruct V as (v1 & _ & V). apply obind_ok in V. destruct V as (v2 & _ & V). apply obind_ok in V. destruct V as (v3 & _ & V). apply obind_ok in V. destruct V as (v4 & _ & V).
  destruct (pt_eqb _ _ && _ && _)%bool eqn:EQ in V; [|discriminate]. clear V. apply andb_true_iff in EQ. destruct EQ as [EQ _]. apply andb_true_iff in EQ. destruct EQ as [EQ _].
  apply (reflect_iff _ _ (pt_eqb_spec C _ _)) in EQ. cbn [pp_z pp_u1 pp_u2 pp_u3 pp_s1 sg_pdl_stmt ps_G ps_Q ps_c] in EQ. unfold pdls_query in EQ. cbn [ps_G ps_Q ps_c sg_pdl_stmt] in EQ.
  unfold lucky, hashed. set (e0 := Hz (HInt (pt_int R0) :: _)) in EQ |- *. set (e := Hz (HInt (pt_int R) :: _)) in EQ |- *. clearbody e e0. rewrite of_Z_lin in EQ.
  apply (f_equal dlog) in EQ. rewrite dlog_add, !dlog_smul in EQ. apply dlog_inj. rewrite !dlog_smul. rewrite of_Z_sub, of_Z_q in EQ.
  set (al := of_Z (cq C) (pr_alpha pr)) in *. set (E := of_Z (cq C) e) in *. set (E0 := of_Z (cq C) e0) in *.
  transitivity (fadd (fmul al (dlog R)) (fmul E0 (fmul k (dlog R)))); [ring|]. rewrite EQ. ring.
Qed.
(** C116: for given k, alpha, e and points, at most one residue e' makes the pair lucky; and a pair of equal answers is lucky for different points only if
    it is the residue -alpha/k. *)
Theorem C116_one_lucky_answer (k alpha e e1 e2 : Fq (cq C)) (R R0 : pt C) : k <> f0 -> R <> pzero -> lucky k alpha e e1 R R0 -> lucky k alpha e e2 R R0 -> e1 = e2.
Proof.
  intros K NR L1 L2. unfold lucky in *. rewrite <- L2 in L1. apply (f_equal dlog) in L1. rewrite !dlog_smul in L1.
  assert (D : dlog R <> f0) by (intros D; apply NR; apply pzero_dlog; exact D).
  assert (E : e1 = fdiv (fsub (fdiv (fmul (fadd (fmul e1 k) alpha) (dlog R)) (dlog R)) alpha) k) by (field; auto). rewrite E, L1. field; auto.
Qed.
Theorem C116_equal_answers (k alpha e : Fq (cq C)) (R R0 : pt C) : lucky k alpha e e R R0 -> fadd (fmul e k) alpha <> f0 -> R = R0.
Proof.
  intros L N. unfold lucky in L. apply (f_equal dlog) in L. rewrite !dlog_smul in L. apply dlog_inj. set (w := fadd (fmul e k) alpha) in *.
  transitivity (fdiv (fmul w (dlog R)) w); [field; exact N|]. rewrite L. field. exact N.
Qed.
End Eq.
Print Assumptions C116_one_lucky_answer.
Print Assumptions C116_equal_answers.

Lemma seq_entry a m q x : nth_error (seq a m) q = Some x -> x = a + q /\ q < m.
Proof.
  intros E. assert (L : q < m) by (rewrite <- (seq_length m a); apply nth_error_Some; congruence). rewrite (nth_error_nth' _ 0) in E by (rewrite seq_length; exact L). rewrite seq_nth in E by exact L. injection E as <-. auto.
Qed.

Section Sg.
Context (C : Curve).
Context (Hb : list Z -> Z) (Hz : hashZ C) (Hf : hashF C).
Notation hist := (sg_hist C Hb Hz Hf).
Notation of := (sg_of C).
Notation p2p := sg_p2p.
Notation got := (SmSpec.got of p2p).

Section One.
Context (rd : sign_rand C) (i : nat) (sl : list nat) (lk : local_key C).
Notation n := (length sl).
Notation P := (sgp C Hb Hz Hf rd i n).
Notation D0 := (SR0 i sl lk : sg_st C).
Notation step := (sg_step C Hb Hz Hf rd).
Notation inb := (inbox of p2p i n).
Lemma sg_sent_origin h s rs m k : hist rd i sl lk h s rs -> In m (sent_by (sm_queue s) rs) -> of (m_body m) = S k ->
  exists d out l d' o, runs step D0 (inb h) k d out /\ inb h k = Some l /\ step k d l = Ok (d', o) /\ In m o.
Proof.
  intros H X E. destruct (sg_hist_run C Hb Hz Hf rd i sl lk h s rs H) as (I & E1 & E2 & _).
  destruct (run_runs P D0 I (sgp_of C Hb Hz Hf rd i n) (sgp_exp C Hb Hz Hf rd i n) h) as (k0 & d & L & Q & _).
  unfold sent_by in X. rewrite <- (sg_sent C), E1, E2 in X.
  destruct (runs_origin P D0 I (sg_good C i n) (round_tags sg_p2p i n 6) (sg_start_good C i sl lk) (fun k' d l d' o => sg_good_step C Hb Hz Hf rd i n I k' d l d' o) (sg_tags_in i sl) _ _ _ _ m Q L X) as (_ & k' & d' & out' & l & d'' & o & E' & L' & Q' & IN & S & MO).
  change (g_of P (m_body m)) with (of (m_body m)) in E'. assert (k' = k) by congruence. subst k'. exists d', out', l, d'', o. auto.
Qed.
Lemma shape4 h d out : 1 <= i <= n -> runs step D0 (inb h) 4 d out -> exists r, d = SR4 r /\ s4_i r = i /\ s4_sl r = sl /\ sg_k (s4_keys r) = sr_k rd.
Proof.
  intros I R. inversion R as [|k3 d3 o3 l3 d4 o4 R3 IN3 S3 EK ED EO]. subst d4. clear EK EO. inversion R3 as [|k2 d2 o2 l2 d3' o3' R2 IN2 S2 EK ED EO]. subst d3'. clear EK EO.
  pose proof (kept_runs C Hb Hz Hf rd i sl lk _ _ _ _ R2) as KP.
  inversion R2 as [|k1 d1 o1 l1 d2' o2' R1 IN1 S1 EK ED EO]. subst d2'. clear EK EO. inversion R1 as [|k0 dz oz l0 d1' o1' R0 IN0 S0 EK ED EO]. subst d1'. clear EK EO. inversion R0 as [EK ED EO|]. subst dz.
  cbn [sg_step] in S0. apply obind_ok in S0. destruct S0 as [x0 [X0 S0]]. injection S0 as <- _. cbn [sg_step] in S1. apply obind_ok in S1. destruct S1 as [m1 [_ S1]]. apply obind_ok in S1. destruct S1 as [x1 [X1 S1]]. injection S1 as <- _.
  cbn [kept] in KP. destruct KP as (K1 & K2 & _). cbn [sg_step] in S2. apply obind_ok in S2. destruct S2 as [m2 [M2 S2]]. apply obind_ok in S2. destruct S2 as [x2 [X2 S2]]. injection S2 as <- _.
  cbn [sg_step] in S3. apply obind_ok in S3. destruct S3 as [m3 [_ S3]]. apply obind_ok in S3. destruct S3 as [x3 [X3 S3]]. injection S3 as <- _. exists (fst x3). split; [reflexivity|].
  unfold sg_r3 in X3. apply obind_ok in X3. destruct X3 as [u1 [_ X3]]. apply obind_ok in X3. destruct X3 as [u2 [_ X3]]. apply obind_ok in X3. destruct X3 as [u3 [_ X3]]. injection X3 as <-. cbn [fst s4_i s4_sl s4_keys].
  unfold sg_r2 in X2. apply obind_ok in X2. destruct X2 as [v1 [_ X2]]. apply obind_ok in X2. destruct X2 as [v2 [_ X2]]. apply obind_ok in X2. destruct X2 as [v3 [_ X2]]. apply obind_ok in X2. destruct X2 as [v4 [_ X2]].
  destruct (sg_t _ _ _ _) as [tt0 tp]. injection X2 as <-. cbn [fst s3_i s3_sl s3_keys]. split; [exact K1|]. split; [exact K2|].
  unfold sg_r1 in X1. cbv zeta in X1. apply obind_ok in X1. destruct X1 as [w1 [_ X1]]. apply obind_ok in X1. destruct X1 as [w2 [_ X1]]. injection X1 as <-. cbn [fst s2_keys].
  unfold sg_r0 in X0. apply obind_ok in X0. destruct X0 as [y1 [_ X0]]. apply obind_ok in X0. destruct X0 as [y2 [Y X0]]. destruct (sg_phase1 _ _ _) as [com dec]. apply obind_ok in X0. destruct X0 as [y3 [_ X0]]. injection X0 as <-. cbn [fst s1_keys].
  unfold sg_create in Y. apply obind_ok in Y. destruct Y as [li [_ Y]]. injection Y as <-. reflexivity.
Qed.
(** Round 4 in the terms of the machine's samples *)
Lemma made4 h d out l d' o m R' ps : 1 <= i <= n -> runs step D0 (inb h) 4 d out -> step 4 d l = Ok (d', o) -> In m o -> m_body m = SM5 (R', ps) ->
  exists s5, d' = SR5 s5 /\ s5_i s5 = i /\ s5_sl s5 = sl /\ R' = smul (sr_k rd) (s5_R s5) /\ length ps = n - 1 /\
    forall q x, nth_error ps q = Some x -> exists c N kr dl, sg_pdl Hz R' (s5_R s5) c N (sr_k rd) kr dl (sr_pdl rd (ind (i - 1) q)) = Ok x.
Proof.
  intros I R S4 MO B. destruct (shape4 h d out I R) as (r & -> & A1 & A2 & A3). cbn [sg_step] in S4. apply obind_ok in S4. destruct S4 as [m4 [_ S4]]. apply obind_ok in S4. destruct S4 as [x4 [X4 S4]]. injection S4 as <- <-.
  exists (fst x4). split; [reflexivity|]. unfold sg_r4 in X4. cbv zeta in X4. apply obind_ok in X4. destruct X4 as [bps [_ X4]]. apply obind_ok in X4. destruct X4 as [RR [_ X4]]. apply obind_ok in X4. destruct X4 as [pdl [PD X4]]. injection X4 as <-.
  cbn [fst snd s5_i s5_sl s5_R] in *. cbn [In] in MO. destruct MO as [<-|[]]. cbn [m_body] in B. injection B as <- <-. rewrite A3 in *. rewrite A1, A2 in *.
  split; [reflexivity|]. split; [reflexivity|]. split; [reflexivity|]. split; [rewrite (omapM_len _ _ _ PD), seq_length; reflexivity|].
  intros q x Q. apply omapM_ok in PD. destruct (Forall2_nth _ _ _ PD q x Q) as (a & NA & F). destruct (seq_entry _ _ _ _ NA) as [-> _].
  apply obind_ok in F. destruct F as [me [_ F]]. apply obind_ok in F. destruct F as [N [_ F]]. apply obind_ok in F. destruct F as [k1 [_ F]]. apply obind_ok in F. destruct F as [dl [_ F]]. eauto.
Qed.
(** A machine that finishes has verified what round 5 brought against its own nonce point. *)
Lemma finished5 h s rs c : hist rd i sl lk h s rs -> picks rs = [c] ->
  exists s5 out ms x, runs step D0 (inb h) 5 (SR5 s5) out /\ inb h 5 = Some (map SM5 ms) /\ sg_r5 Hz Hf s5 rd ms = Ok x /\ co_R c = s5_R s5 /\ s5_i s5 = i /\ s5_sl s5 = sl.
Proof.
  intros H PK. destruct (sg_hist_run C Hb Hz Hf rd _ _ _ _ _ _ H) as [I _]. destruct (sg_picked_runs C Hb Hz Hf rd i sl lk _ _ _ _ H PK) as [o7 R7].
  inversion R7 as [|k6 d6 o6 l6 d7 o7' R6 IN6 S6 EK ED EO]. subst d7. clear EK EO. inversion R6 as [|k5 d5 o5 l5 d6' o6' R5 IN5 S5 EK ED EO]. subst d6'. clear EK EO.
  inversion R5 as [|k4 d4 o4 l4 d5' o5' R4 IN4 S4 EK ED EO]. subst d5' k4. subst o5. destruct (shape4 h d4 o4 I R4) as (r & -> & A1 & A2 & _).
  cbn [sg_step] in S4. apply obind_ok in S4. destruct S4 as [m4 [M4 S4]]. apply obind_ok in S4. destruct S4 as [x4 [X4 S4]]. injection S4 as <- <-.
  cbn [sg_step] in S5. apply obind_ok in S5. destruct S5 as [m5 [M5 S5]]. apply obind_ok in S5. destruct S5 as [x5 [X5 S5]]. injection S5 as <- _.
  apply (sun5_map C) in M5. subst l5. exists (fst x4), (o4 ++ [{| m_from := s4_i r; m_to := None; m_body := SM5 (snd x4) |}]), m5, x5. split; [exact R5|]. split; [exact IN5|]. split; [exact X5|].
  cbn [sg_step] in S6. apply obind_ok in S6. destruct S6 as [m6 [_ S6]]. apply obind_ok in S6. destruct S6 as [x6 [X6 S6]]. injection S6 as <- _.
  unfold sg_r6 in X6. apply obind_ok in X6. destruct X6 as [w1 [_ X6]]. apply obind_ok in X6. destruct X6 as [w2 [_ X6]]. injection X6 as <-.
  unfold sg_r5 in X5. apply obind_ok in X5. destruct X5 as [u1 [_ X5]]. apply obind_ok in X5. destruct X5 as [u2 [_ X5]]. destruct (sg_S _ _ _ _ _ _ _) as [Si pp]. injection X5 as <-. cbn [fst s6_out co_R].
  unfold sg_r4 in X4. cbv zeta in X4. apply obind_ok in X4. destruct X4 as [bps [_ X4]]. apply obind_ok in X4. destruct X4 as [RR [_ X4]]. apply obind_ok in X4. destruct X4 as [pdl [PD X4]]. injection X4 as <-. cbn [fst s5_i s5_sl]. auto.
Qed.
End One.

(** C116.  Two machines a and b sign with the same signers.  Both finish, and the round-5 message a takes as b's is one b has sent.
    Then they hold the same nonce point R, or b's proofs, made for its own R, pass for a's although the points differ: for every one of
    them the hash, asked by b and by a about lists that differ, gives a lucky pair (for k and R not zero, one residue out of q). *)
Theorem C116_nonce_points_agree rda ia lka rdb ib lkb sl ha sa rsa ca hb sb rsb cb m R' ps :
  hist rda ia sl lka ha sa rsa -> picks rsa = [ca] -> hist rdb ib sl lkb hb sb rsb -> picks rsb = [cb] ->
  In ib (peers ia (length sl)) -> In m (sent_by (sm_queue sb) rsb) -> m_body m = SM5 (R', ps) -> got ia ha 5 ib = Some (m_body m) ->
  co_R ca = co_R cb \/
  (R' = smul (sr_k rdb) (co_R cb) /\ length ps = length sl - 1 /\
   exists c0, forall q x, nth_error ps q = Some x -> exists c,
     let alpha := of_Z (cq C) (pr_alpha (sr_pdl rdb (ind (ib - 1) q))) in
     let asked := fun base c => hashed base R' c (pp_z x) (pp_u1 x) (pp_u2 x) (pp_u3 x) in
     asked (co_R cb) c <> asked (co_R ca) c0 /\ pp_u1 x = smul alpha (co_R cb) /\
     lucky (sr_k rdb) alpha (of_Z (cq C) (Hz (asked (co_R cb) c))) (of_Z (cq C) (Hz (asked (co_R ca) c0))) (co_R cb) (co_R ca)).
Proof.
  intros HA PA HB PB PE MS BM GT. destruct (pt_eqb_spec C (co_R ca) (co_R cb)) as [E|NE]; [left; exact E|right].
  destruct (sg_hist_run C Hb Hz Hf rda _ _ _ _ _ _ HA) as [IA _]. destruct (sg_hist_run C Hb Hz Hf rdb _ _ _ _ _ _ HB) as [IB _].
  destruct (finished5 rda ia sl lka _ _ _ _ HA PA) as (sa5 & oa & msa & xa & RA & NA & XA & CA & A1 & A2).
  destruct (finished5 rdb ib sl lkb _ _ _ _ HB PB) as (sb5 & ob & msb & xb & RB & _ & _ & CB & _ & _).
  destruct (sg_sent_origin rdb ib sl lkb _ _ _ m 4 HB MS) as (d & out & l & d' & o & R4 & IN4 & S4 & MO); [rewrite BM; reflexivity|].
  destruct (made4 rdb ib sl lkb hb d out l d' o m R' ps IB R4 S4 MO BM) as (s5 & -> & _ & _ & ER & LP & PP).
  assert (R5 : runs (sg_step C Hb Hz Hf rdb) (SR0 ib sl lkb) (inbox of p2p ib (length sl) hb) 5 (SR5 s5) (out ++ o)) by (econstructor; eassumption).
  destruct (runs_det _ _ _ _ _ _ R5 _ _ RB) as [QS _]. injection QS as <-. rewrite <- CB in ER, PP.
  split; [exact ER|]. split; [exact LP|].
  (* b's entry among those a checks *)
  apply (in_peers ia _ IA) in PE. destruct PE as [_ PN].
  destruct (BlameHonest.ind_surj (ia - 1) (ib - 1) (length sl)) as (qa & QL & QE & _); [lia|lia|lia|].
  pose proof (sg_inbox_len C ia sl ha 5 _ IA ltac:(lia) NA) as LM. rewrite map_length in LM.
  destruct (nth_error msa qa) as [x0|] eqn:NX; [|apply nth_error_None in NX; lia].
  destruct (inb_got C ia sl IA ha 5 _ qa (SM5 x0) ltac:(lia) NA (map_nth_error SM5 qa msa NX)) as (G & _).
  rewrite QE in G. replace (S (ib - 1)) with ib in G by lia. rewrite GT, BM in G. injection G as <-.
  destruct (C83_round5_checks_every_pdl C Hz Hf sa5 rda msa xa XA (ib - 1)) as (x1 & ma & k & N & X1 & _ & _ & _ & _ & V); [rewrite A2; lia|].
  rewrite A1, <- QE, incl_me_ind, NX in X1 by lia. injection X1 as <-. cbn [fst snd] in V.
  exists (ma_c ma). intros q x Q. destruct (PP q x Q) as (c & N1 & kr & dl & PR). exists c. cbv zeta. destruct (V q x Q) as (si & dl0 & _ & _ & VQ).
  rewrite ER in PR. destruct (accepted C Hz _ _ _ _ _ _ _ _ PR (s5_R sa5) (ma_c ma) N dl0) as [U L]; [rewrite <- ER; exact VQ|].
  rewrite <- ER, <- CA in L. split; [apply hashed_base; intros E; apply NE; symmetry; exact E|]. split; [exact U|exact L].
Qed.
End Sg.
Print Assumptions C116_nonce_points_agree.

(** The histories of both signers in the run of C65_example, with the pick at the end *)
Definition exhistp (p : nat) : list (op (sg_msg toy)) :=
  match omapM (fun i => sg_new (S i) [3; 1] (exlks i)) (seq 0 2) with
  | Ok sts => ops_of p (snd (net_exec (fun i => sg_op toy exHb2 exH exHf2 (exsrs (i - 1))) {| nt_st := sts; nt_wire := [] |} (concat (repeat exsturn 6) ++ [NProceed 2; NProceed 1]))) ++ [Pick]
  | _ => []
  end.
Definition exst5 (p : nat) : sg_sm toy := match sg_new p [3; 1] (exlks (p - 1)) with Ok s0 => s0 | _ => sg_start toy p [3; 1] (exlks (p - 1)) end.
Definition exrunp (p : nat) := run_ops (sg_op toy exHb2 exH exHf2 (exsrs (p - 1))) (exst5 p) (exhistp p).
Definition exmsg5 (p : nat) : option (msg (sg_msg toy)) := find (fun m => sg_of toy (m_body m) =? 5) (sent_by (sm_queue (fst (exrunp p))) (snd (exrunp p))).
(** A round-5 message in numbers *)
Definition obs5 (m : sg_msg toy) : option (Z * list (list Z)) :=
  match m with
  | SM5 (R', ps) => Some (to_Z (dlog R'), map (fun p => [pp_z p; to_Z (dlog (pp_u1 p)); pp_u2 p; pp_u3 p; pp_s1 p; pp_s2 p; pp_s3 p]) ps)
  | _ => None
  end.
Lemma obs5_inj a b v : obs5 a = Some v -> obs5 b = Some v -> a = b.
Proof.
  intros A B. destruct a as [x|x|x|x|[R ps]|x]; try discriminate. destruct b as [x|x|x|x|[R0 ps0]|x]; try discriminate. cbn [obs5] in A, B. rewrite <- A in B. injection B as E1 E2. f_equal. f_equal.
  - apply dlog_inj, fq_ext. symmetry. exact E1.
  - clear A E1. revert ps0 E2. induction ps as [|p ps IH]; intros [|p0 ps0] E2; try discriminate; [reflexivity|]. cbn [map] in E2. injection E2 as Q1 Q2 Q3 Q4 Q5 Q6 Q7 E2. f_equal; [|exact (IH _ E2)].
    destruct p as [a1 a2 a3 a4 a5 a6 a7], p0 as [b1 b2 b3 b4 b5 b6 b7]. cbn [pp_z pp_u1 pp_u2 pp_u3 pp_s1 pp_s2 pp_s3] in *. subst. f_equal. apply dlog_inj, fq_ext. symmetry. exact Q2.
Qed.
Definition exgot5 (p : nat) : option (sg_msg toy) := SmSpec.got (sg_of toy) sg_p2p p (exhistp p) 5 (3 - p).
(** Both signers of C65_example meet the hypotheses, each about the other, and hold the point (2, 18). *)
Example C116_example : map (fun p => map (fun c => fst (co_obs c)) (picks (snd (exrunp p)))) [1; 2] = [[(2, 18)]; [(2, 18)]]%Z /\
  forall a, In a [1; 2] -> exists sa rsa ca sb rsb cb m R' ps, let b := 3 - a in
    sg_hist toy exHb2 exH exHf2 (exsrs (a - 1)) a [3; 1] (exlks (a - 1)) (exhistp a) sa rsa /\ picks rsa = [ca] /\
    sg_hist toy exHb2 exH exHf2 (exsrs (b - 1)) b [3; 1] (exlks (b - 1)) (exhistp b) sb rsb /\ picks rsb = [cb] /\
    In b (peers a 2) /\ In m (sent_by (sm_queue sb) rsb) /\ m_body m = SM5 (R', ps) /\ SmSpec.got (sg_of toy) sg_p2p a (exhistp a) 5 b = Some (m_body m).
Proof.
  split; [vm_compute; reflexivity|].
  assert (L : forallb (fun p => match sg_new p [3; 1] (exlks (p - 1)) with Ok _ => true | _ => false end) [1; 2] = true) by (vm_compute; reflexivity).
  assert (L1 : forallb (fun p => length (picks (snd (exrunp p))) =? 1) [1; 2] = true) by (vm_compute; reflexivity).
  assert (L2 : forallb (fun p => match option_map (fun m => obs5 (m_body m)) (exmsg5 (3 - p)), option_map obs5 (exgot5 p) with
    | Some (Some (x, l)), Some (Some (y, l')) => (x =? y)%Z && (if list_eq_dec (list_eq_dec Z.eq_dec) l l' then true else false) | _, _ => false end) [1; 2] = true) by (vm_compute; reflexivity).
  rewrite forallb_forall in L, L1, L2.
  assert (HH : forall p, In p [1; 2] -> sg_hist toy exHb2 exH exHf2 (exsrs (p - 1)) p [3; 1] (exlks (p - 1)) (exhistp p) (fst (exrunp p)) (snd (exrunp p))).
  { intros p Q. exists (exst5 p). split; [|unfold exrunp; destruct (run_ops _ _ _); reflexivity]. specialize (L p Q). cbv beta in L. unfold exst5. destruct (sg_new p [3; 1] (exlks (p - 1))); [reflexivity|discriminate|discriminate]. }
  assert (PK : forall p, In p [1; 2] -> exists c, picks (snd (exrunp p)) = [c]).
  { intros p Q. specialize (L1 p Q). cbv beta in L1. apply Nat.eqb_eq in L1. revert L1. destruct (picks (snd (exrunp p))) as [|c [|c' l]]; intros E; try discriminate E. exists c. reflexivity. }
  intros a A. specialize (L2 a A). cbv beta in L2. assert (Bi : In (3 - a) [1; 2]) by (destruct A as [<-|[<-|[]]]; [right; left; reflexivity|left; reflexivity]).
  destruct (PK a A) as [ca CA]. destruct (PK _ Bi) as [cb CB]. destruct (exmsg5 (3 - a)) as [m|] eqn:F; [|discriminate L2]. cbn [option_map] in L2.
  destruct (obs5 (m_body m)) as [[x l]|] eqn:OM; [|discriminate L2]. destruct (exgot5 a) as [g|] eqn:G; [|discriminate L2]. cbn [option_map] in L2. destruct (obs5 g) as [[y l']|] eqn:OG; [|discriminate L2].
  apply andb_true_iff in L2. destruct L2 as [E1 E2]. apply Z.eqb_eq in E1. destruct (list_eq_dec (list_eq_dec Z.eq_dec) l l') as [E3|]; [|discriminate E2]. subst y l'. pose proof (obs5_inj _ _ _ OM OG) as <-.
  assert (B : exists R' ps, m_body m = SM5 (R', ps)) by (destruct (m_body m) as [z|z|z|z|[R' ps]|z]; try discriminate OM; exists R', ps; reflexivity). destruct B as (R' & ps & B).
  exists (fst (exrunp a)), (snd (exrunp a)), ca, (fst (exrunp (3 - a))), (snd (exrunp (3 - a))), cb, m, R', ps. cbv zeta.
  split; [exact (HH a A)|]. split; [exact CA|]. split; [exact (HH _ Bi)|]. split; [exact CB|]. split; [destruct A as [<-|[<-|[]]]; left; reflexivity|].
  split; [unfold exmsg5 in F; apply find_some in F; apply F|]. split; [exact B|exact G].
Qed.

(** C27 at the level of the key generation machine: histories as in PropSM.v. *)
From Coq Require Import ZArith Lia Bool List Field.
From Verif Require Import ZArithX Fq Curve Toy Outcome Sigma Bytes Vss VssProofs Paillier RangeProofs Mp MpProofs Gg20Keygen KeygenProofs KeygenExtra KeygenRun Stores RoundSM SmSpec SmProofs KeygenSM SmSim SmTheory SmFacts SmPanic Network PropKeygen PropNetwork.
Import ListNotations.
Local Open Scope nat_scope.

Lemma all_some_length {A} (l : list (option A)) r : all_some l = Some r -> length r = length l.
Proof.
  revert r. induction l as [|[a|] l IH]; intros r H; cbn [all_some] in H; [injection H as <-; reflexivity| |discriminate].
  destruct (all_some l) as [t|]; [|discriminate]. injection H as <-. cbn [length]. f_equal. apply IH. reflexivity.
Qed.
Lemma all_some_in {A} (l : list (option A)) r a : all_some l = Some r -> In a r -> In (Some a) l.
Proof.
  revert r. induction l as [|[x|] l IH]; intros r H I; cbn [all_some] in H; [injection H as <-; destruct I| |discriminate].
  destruct (all_some l) as [t|]; [|discriminate]. injection H as <-. destruct I as [->|I]; [left; reflexivity|right; exact (IH t eq_refl I)].
Qed.
(** Putting one's own message in is the same whatever stands at one place of the others' list. *)
Lemma incl_me_split {A} k (own : A) l1 l2 : exists a1 a2, (a1 = [] -> l1 = [] /\ 0 < k) /\ forall b, incl_me k own (l1 ++ b :: l2) = a1 ++ b :: a2.
Proof.
  destruct (Nat.le_gt_cases k (length l1)) as [L|L].
  - exists (firstn k l1 ++ own :: skipn k l1), l2. split; [intros Z; destruct (firstn k l1); discriminate|]. intros b. unfold incl_me. rewrite firstn_app, skipn_app.
    replace (k - length l1) with 0 by lia. cbn [firstn skipn]. rewrite app_nil_r, <- !app_assoc. reflexivity.
  - exists l1, (firstn (k - length l1 - 1) l2 ++ own :: skipn (k - length l1 - 1) l2). split; [intros ->; split; [reflexivity|cbn in L; lia]|]. intros b. unfold incl_me. rewrite firstn_app, skipn_app.
    destruct (k - length l1) as [|m] eqn:E; [lia|]. cbn [firstn skipn]. rewrite firstn_all2, skipn_all2 by lia.
    replace (S m - 1) with m by lia. rewrite <- app_assoc. reflexivity.
Qed.

Section Kg.
Context (C : Curve).
Context (Hb : list Z -> Z) (Hf : hashF C) (ck : Z -> Z -> bool) (cd : Z -> dlstmt -> outcome mp_error bool) (rd : kg_rand C).
Notation M := (kg_msg C).
Notation opf := (kg_op C Hb Hf ck cd rd).
Notation hist := (kg_hist C Hb Hf ck cd rd).
Notation of := (kg_of C).
Notation p2p := kg_p2p.
Context (i t n : nat).
Notation P := (kgp C Hb Hf ck cd rd i n).
Notation D0 := (KR0 i t n : kg_r C).
Notation step := (kg_step C Hb Hf ck cd rd).
Add Field kppfield : (C_field C).

(** What is known of the data of a round that is reached. *)
Definition kg_shape (k : nat) (d : kg_r C) : Prop :=
  match k, d with
  | 0, KR0 i' t' n' => i' = i /\ t' = t /\ n' = n
  | 1, KR1 r => r1_i r = i /\ r1_t r = t /\ r1_n r = n
  | 2, KR2 r => r2_i r = i /\ r2_t r = t /\ r2_n r = n /\ length (r2_comm r) = n
  | 3, KR3 r => r3_i r = i /\ r3_t r = t /\ r3_n r = n /\ length (r3_bc r) = n /\ length (r3_y r) = n /\
                length (vs_com (r3_vss r)) = S (length (kr_coefs rd))
  | 4, KR4 r => r4_i r = i /\ r4_t r = t /\ r4_n r = n /\ length (r4_bc r) = n /\ length (r4_y r) = n /\ length (r4_vss r) = n
  | 5, KFinal _ => True
  | _, _ => False
  end.
Lemma inbox_len h k l : 1 <= i <= n -> 0 < k -> inbox of p2p i n h k = Some l -> S (length l) = n.
Proof.
  intros I K H. unfold inbox in H. destruct k; [lia|]. cbn [Nat.eqb] in H. apply all_some_length in H. rewrite map_length, peers_length in H by lia. lia.
Qed.
Lemma inbox_delivered h k l b : 0 < k -> inbox of p2p i n h k = Some l -> In b l -> of b = k /\ exists m, In (Deliver m) h /\ m_body m = b.
Proof.
  intros K H B. unfold inbox in H. destruct k as [|k]; [lia|]. cbn [Nat.eqb] in H. pose proof (all_some_in _ _ _ H B) as Q. apply in_map_iff in Q.
  destruct Q as [j [Q _]]. unfold got in Q. destruct (find (proper of p2p i (S k) j) (deliveries h)) as [m|] eqn:F; [|discriminate]. injection Q as <-.
  apply find_some in F. destruct F as [F1 F2]. unfold proper in F2. apply andb_true_iff in F2. destruct F2 as [F2 _]. apply andb_true_iff in F2. destruct F2 as [F2 _].
  apply Nat.eqb_eq in F2. split; [exact F2|]. exists m. split; [|reflexivity]. unfold deliveries in F1. apply in_flat_map in F1. destruct F1 as [o [O1 O2]].
  destruct o as [m'| | |]; [|destruct O2|destruct O2|destruct O2]. destruct O2 as [->|[]]. exact O1.
Qed.
Lemma omapM_len {A E X} (f : X -> outcome E A) l r : omapM f l = Ok r -> length r = length l.
Proof.
  revert r. induction l as [|x l IH]; intros r H; cbn [omapM] in H; [injection H as <-; reflexivity|].
  apply obind_ok in H. destruct H as [a [_ H]]. apply obind_ok in H. destruct H as [s [H1 H2]]. injection H2 as <-. cbn [length]. f_equal. apply IH. exact H1.
Qed.
Lemma kg_shape_runs h k d out : 1 <= i <= n -> runs step D0 (inbox of p2p i n h) k d out -> kg_shape k d.
Proof.
  intros I R. induction R as [|k d out l d' o R IH IN S]; [cbn; auto|].
  destruct k as [|[|[|[|[|[|k]]]]]]; destruct d; cbn [kg_shape] in IH; try contradiction.
  - destruct IH as (-> & -> & ->). cbn [kg_step] in S. apply obind_ok in S. destruct S as [x [S1 S2]]. injection S2 as <- <-.
    unfold kg_r0 in S1. destruct (kg_phase1 _ _ _ _ _ _). injection S1 as <-. cbn. auto.
  - destruct IH as (A1 & A2 & A3). cbn [kg_step] in S. apply obind_ok in S. destruct S as [ms [S0 S]]. apply obind_ok in S. destruct S as [x [S1 S2]]. injection S2 as <- <-.
    unfold kg_r1 in S1. injection S1 as <-. cbn. split; [exact A1|]. split; [exact A2|]. split; [exact A3|].
    rewrite incl_me_length. apply omapM_len in S0. rewrite S0. apply (inbox_len h 1); [exact I|lia|exact IN].
  - destruct IH as (A1 & A2 & A3 & A4). cbn [kg_step] in S. apply obind_ok in S. destruct S as [ms [S0 S]]. apply obind_ok in S. destruct S as [x [S1 S2]]. injection S2 as <- <-.
    unfold kg_r2 in S1. apply obind_ok in S1. destruct S1 as [[[vs sh] id] [S1 S3]]. apply obind_ok in S3. destruct S3 as [own [S3 S4]]. injection S4 as <-. cbn.
    apply phase1_verify_ok in S1. destruct S1 as (_ & _ & _ & _ & E). injection E as -> -> ->.
    split; [exact A1|]. split; [exact A2|]. split; [exact A3|]. split; [exact A4|]. rewrite map_length, incl_me_length. apply omapM_len in S0. rewrite S0.
    split; [apply (inbox_len h 2); [exact I|lia|exact IN]|]. cbn; rewrite ?map_length; reflexivity.
  - destruct IH as (A1 & A2 & A3 & A4 & A5 & A6). cbn [kg_step] in S. apply obind_ok in S. destruct S as [ms [S0 S]]. apply obind_ok in S. destruct S as [x [S1 S2]]. injection S2 as <- <-.
    unfold kg_r3 in S1. apply obind_ok in S1. destruct S1 as [[sk pf] [S1 S3]]. injection S3 as <-. cbn.
    split; [exact A1|]. split; [exact A2|]. split; [exact A3|]. split; [exact A4|]. split; [exact A5|]. rewrite map_length, incl_me_length. apply omapM_len in S0. rewrite S0.
    apply (inbox_len h 3); [exact I|lia|exact IN].
  - cbn [kg_step] in S. apply obind_ok in S. destruct S as [ms [S0 S]]. apply obind_ok in S. destruct S as [x [S1 S2]]. injection S2 as <- <-. exact Logic.I.
  - cbn in S. discriminate S.
Qed.
Lemma in_incl {A} k (own : A) l x : In x (incl_me k own l) -> x = own \/ In x l.
Proof. unfold incl_me. intros X. apply in_app_iff in X. rewrite <- (firstn_skipn k l). destruct X as [X|[X|X]]; [right|left; auto|right]; apply in_app_iff; auto. Qed.
Lemma omapM_in {A E X} (f : X -> outcome E A) l r a : omapM f l = Ok r -> In a r -> exists x, In x l /\ f x = Ok a.
Proof.
  revert r. induction l as [|x l IH]; intros r H B; cbn [omapM] in H; [injection H as <-; destruct B|].
  apply obind_ok in H. destruct H as [b [H0 H]]. apply obind_ok in H. destruct H as [s [H1 H2]]. injection H2 as <-. destruct B as [->|B]; [exists x; split; [left; reflexivity|exact H0]|].
  destruct (IH s H1 B) as [y [Y1 Y2]]. exists y. split; [right; exact Y1|exact Y2].
Qed.
Lemma omapM_tot {A E X} (f : X -> outcome E A) l : (forall x, In x l -> exists a, f x = Ok a) -> exists r, omapM f l = Ok r.
Proof.
  induction l as [|x l IH]; intros F; [exists []; reflexivity|]. destruct (F x (or_introl eq_refl)) as [a E1]. destruct IH as [r E2]; [intros y Y; apply F; right; exact Y|].
  exists (a :: r). cbn [omapM]. rewrite E1. cbn [obind]. rewrite E2. reflexivity.
Qed.

(** C27, what holds: if the verifier of the composite discrete logarithm proofs answers, the machine samples t
    coefficients, and every round-3 message delivered carries t+1 commitments, the machine never panics, whatever else
    is delivered and in whatever order. *)
Theorem C27_keygen_machine_total h s rs : hist i t n h s rs -> (forall z x, exists r, cd z x = Ok r) -> length (kr_coefs rd) = t ->
  (forall m v sh, In (Deliver m) h -> m_body m = KM3 (v, sh) -> length (vs_com v) = S t) ->
  ~ In None (failures rs).
Proof.
  intros H Hcd Hco Hdel.
  destruct (kg_hist_run C Hb Hf ck cd rd _ _ _ _ _ _ H) as [I [E [E2 [K1 [K2 [N2 T]]]]]].
  assert (FAIL : forall k d out l, k <= 4 -> runs step D0 (inbox of p2p i n h) k d out -> inbox of p2p i n h k = Some l -> step k d l <> Panic).
  { intros k d out l L R IN.
    pose proof (kg_shape_runs h k d out I R) as SH.
    destruct k as [|[|[|[|[|k]]]]]; [| | | | |lia]; destruct d; cbn [kg_shape] in SH; try contradiction; cbn [kg_step].
    - unfold kg_r0. destruct (kg_phase1 _ _ _ _ _ _). discriminate.
    - destruct (omapM_tot (kun1 C) l) as [ms ->].
      { intros x X. destruct (inbox_delivered h 1 l x ltac:(lia) IN X) as [O _]. destruct x; try discriminate. eexists; reflexivity. }
      discriminate.
    - destruct (omapM_tot (kun2 C) l) as [ms MS].
      { intros x X. destruct (inbox_delivered h 2 l x ltac:(lia) IN X) as [O _]. destruct x; try discriminate. eexists; reflexivity. }
      rewrite MS. cbn [obind]. destruct SH as (A1 & A2 & A3 & A4). apply omapM_len in MS. pose proof (inbox_len h 2 l I ltac:(lia) IN) as LL.
      unfold kg_r2. destruct (kg_phase1_verify C Hb ck cd (r2_keys r) (r2_t r) (r2_n r) (kr_coefs rd) (incl_me (r2_i r - 1) (r2_dec r) ms) (r2_comm r)) as [[[vs sh] id]|e|] eqn:PV; cbn [obind].
      + apply phase1_verify_ok in PV. destruct PV as (_ & _ & _ & _ & EV). injection EV as -> -> ->.
        rewrite (proj2 (nth_o_ok _ (r2_i r - 1) (nth (r2_i r - 1) (map (fun j => peval (ky_u (r2_keys r) :: kr_coefs rd) (fidx j)) (seq 1 (r2_n r))) f0))); [discriminate|].
        apply nth_error_nth'. rewrite map_length, seq_length. lia.
      + discriminate.
      + exfalso. revert PV. apply C22_phase1_total; [exact Hcd|rewrite incl_me_length; lia|lia|lia].
    - destruct (omapM_tot (kun3 C) l) as [ms MS].
      { intros x X. destruct (inbox_delivered h 3 l x ltac:(lia) IN X) as [O _]. destruct x; try discriminate. eexists; reflexivity. }
      rewrite MS. cbn [obind]. destruct SH as (A1 & A2 & A3 & A4 & A5 & A6). pose proof (omapM_len _ _ _ MS) as ML. pose proof (inbox_len h 3 l I ltac:(lia) IN) as LL.
      unfold kg_r3. match goal with |- context [kg_phase2 ?a ?b ?c ?d ?e ?f ?g ?w] => destruct (kg_phase2 a b c d e f g w) as [[sk pf]|e0|] eqn:PV end; cbn [obind]; try discriminate.
      exfalso. revert PV. apply C27_phase2_total; [lia|rewrite map_length, incl_me_length; lia|rewrite map_length, incl_me_length; lia|lia|].
      intros v V. apply in_map_iff in V. destruct V as [[v' sh] [V1 V2]]. cbn [fst] in V1. subst v'. apply in_incl in V2. destruct V2 as [V2|V2].
      + injection V2 as -> _. intros Z. rewrite Z in A6. discriminate.
      + destruct (omapM_in _ _ _ _ MS V2) as [x [X1 X2]]. destruct x; try discriminate. cbn [kun3] in X2. injection X2 as ->.
        destruct (inbox_delivered h 3 l _ ltac:(lia) IN X1) as [_ [m [M1 M2]]]. pose proof (Hdel m v sh M1 M2) as Q. intros Z. rewrite Z in Q. discriminate.
    - destruct (omapM_tot (kun4 C) l) as [ms MS].
      { intros x X. destruct (inbox_delivered h 4 l x ltac:(lia) IN X) as [O _]. destruct x; try discriminate. eexists; reflexivity. }
      rewrite MS. cbn [obind]. destruct SH as (A1 & A2 & A3 & A4 & A5 & A6). pose proof (omapM_len _ _ _ MS) as ML. pose proof (inbox_len h 4 l I ltac:(lia) IN) as LL.
      assert (CM : forall v, In v (r4_vss r) -> length (vs_com v) = S t).
      { inversion R as [|k3 d2 o2 l2 d3 o3 R3 IN3 S3 EK ED EO]. clear EK EO. subst d3. pose proof (kg_shape_runs h 3 d2 o2 I R3) as SH3. destruct d2 as [ | | |r3| | | ]; cbn [kg_shape] in SH3; try contradiction.
        destruct SH3 as (_ & _ & _ & _ & _ & B6). cbn [kg_step] in S3. apply obind_ok in S3. destruct S3 as [m3 [MS3 S3]]. apply obind_ok in S3. destruct S3 as [x [S1 S2]]. injection S2 as <- <-.
        unfold kg_r3 in S1. apply obind_ok in S1. destruct S1 as [[sk pf] [S1 S4]]. injection S4 as <-. cbn. intros v V.
        apply in_map_iff in V. destruct V as [[v' sh] [V1 V2]]. cbn [fst] in V1. subst v'. apply in_incl in V2. destruct V2 as [V2|V2].
        + injection V2 as -> _. lia.
        + destruct (omapM_in _ _ _ _ MS3 V2) as [y [X1 X2]]. destruct y; try discriminate. cbn [kun3] in X2. injection X2 as ->.
          destruct (inbox_delivered h 3 l2 _ ltac:(lia) IN3 X1) as [_ [m [M1 M2]]]. exact (Hdel m v sh M1 M2). }
      unfold kg_r4. destruct (kg_verify_dlog C Hf (r4_n r) (incl_me (r4_i r - 1) (r4_proof r) ms) (r4_y r) (r4_vss r)) as [u|e|] eqn:V; cbn [obind]; [|discriminate|].
      + match goal with |- context [omapM ?f (seq 0 (r4_n r))] => destruct (omapM_tot f (seq 0 (r4_n r))) as [pks ->] end.
        { intros x X. apply in_seq in X. destruct (nth_error (incl_me (r4_i r - 1) (r4_proof r) ms) x) as [p|] eqn:Q; [rewrite (proj2 (nth_o_ok _ x p) Q); eexists; reflexivity|].
          apply nth_error_None in Q. rewrite incl_me_length in Q. lia. }
        cbn [obind]. match goal with |- context [omapM ?f (seq 0 (r4_n r))] => destruct (omapM_tot f (seq 0 (r4_n r))) as [Ns ->] end.
        { intros x X. apply in_seq in X. destruct (nth_error (r4_bc r) x) as [p|] eqn:Q; [rewrite (proj2 (nth_o_ok _ x p) Q); eexists; reflexivity|].
          apply nth_error_None in Q. lia. }
        cbn [obind]. destruct (r4_y r) as [|y0 yl]; [cbn in A5; lia|].
        destruct (nth_error (r4_vss r) (r4_i r - 1)) as [w|] eqn:Q; [rewrite (proj2 (nth_o_ok _ _ w) Q); discriminate|]. apply nth_error_None in Q. lia.
      + exfalso. unfold kg_verify_dlog in V. rewrite A5, incl_me_length, ML, A3, LL, Nat.eqb_refl in V. cbn [oassert obind] in V.
        destruct (kg_xi_commitments (E := mp_error) (r4_vss r)) as [xi|e|] eqn:X; cbn [obind] in V.
        * apply xi_ok in X. destruct X as (_ & ->). match type of V with context [first_bad ?f 0 ?q] => destruct (first_bad_total f q) with (i := 0) as [o O] end.
          { intros x Q. apply in_seq in Q. destruct (nth_error (incl_me (r4_i r - 1) (r4_proof r) ms) x) as [p|] eqn:QP; [|apply nth_error_None in QP; rewrite incl_me_length in QP; lia].
            rewrite (proj2 (nth_o_ok _ x p) QP). cbn [obind]. cbv zeta. rewrite nth_o_map_seq by lia. cbn [obind]. eexists. reflexivity. }
          rewrite O in V. cbn [obind] in V. destruct o; discriminate.
        * discriminate.
        * assert (X' : exists xi, kg_xi_commitments (E := mp_error) (r4_vss r) = Ok xi).
          { eexists. apply xi_ok. split; [|reflexivity]. destruct (r4_vss r) as [|h0 tl] eqn:RV; [cbn in A6; lia|]. exists h0, tl. split; [reflexivity|].
            pose proof (CM h0 (or_introl eq_refl)) as Q0. split; [intros Z; rewrite Z in Q0; discriminate|]. intros v Vin. rewrite Q0, (CM v (or_intror Vin)). lia. }
          destruct X' as [xi X']. rewrite X in X'. discriminate. }
  intros F. pose proof (run_all P D0 I (kgp_of C Hb Hf ck cd rd i n) (kgp_exp C Hb Hf ck cd rd i n) h) as A.
  destruct (run_ops (g_op P) (g_init P D0) h) as [gs grs] eqn:ER. cbn [fst snd] in E, E2. destruct A as [_ [_ LI]].
  rewrite <- (kg_failures C rs), E2 in F. unfold LogInv in LI.
  destruct (gs_round gs) as [k d|d|]; [destruct LI as [LI _]; rewrite LI in F; destruct F|destruct LI as [LI _]; rewrite LI in F; destruct F|].
  destruct LI as [[LI _]|[_ [k [o [[d [l [L [R [IN [ST NO]]]]]] LI]]]]]; rewrite LI in F; [destruct F|]. destruct F as [F|[]].
  destruct o as [x|e|]; [exact (NO x eq_refl)|discriminate|]. exact (FAIL k d _ l L R IN ST).
Qed.

Lemma kun3_split l1 x l2 ms : omapM (kun3 C) (l1 ++ x :: l2) = Ok ms -> exists ms1 b ms2, x = KM3 b /\ ms = ms1 ++ b :: ms2 /\ length ms1 = length l1 /\
  forall c, omapM (kun3 C) (l1 ++ KM3 c :: l2) = Ok (ms1 ++ c :: ms2).
Proof.
  revert ms. induction l1 as [|a l1 IH]; intros ms H; cbn [app omapM] in H.
  - apply obind_ok in H. destruct H as [b [H0 H]]. apply obind_ok in H. destruct H as [r [H1 H2]]. injection H2 as <-. destruct x; try discriminate. cbn [kun3] in H0. injection H0 as ->.
    exists [], b, r. split; [reflexivity|]. split; [reflexivity|]. split; [reflexivity|]. intros c. cbn [app omapM kun3 obind]. rewrite H1. reflexivity.
  - apply obind_ok in H. destruct H as [b [H0 H]]. apply obind_ok in H. destruct H as [r [H1 H2]]. injection H2 as <-. destruct (IH r H1) as [ms1 [b' [ms2 [E1 [E2 [E4 E3]]]]]].
    exists (b :: ms1), b', ms2. split; [exact E1|]. split; [rewrite E2; reflexivity|]. split; [cbn; rewrite E4; reflexivity|]. intros c. cbn [app omapM]. rewrite H0. cbn [obind]. rewrite E3. reflexivity.
Qed.
(** C27 refuted: in every history that got past round 3 without failing, replacing one other party's round-3 message by
    one without commitments makes the machine panic. *)
Theorem C27_keygen_machine_panics_refuted h s rs j v sh : hist i t n h s rs -> failures rs = [] -> 3 < kg_current_round s ->
  In j (peers i n) -> vs_com v = [] ->
  exists s' rs', hist i t n (swapped of p2p i 3 j (KM3 (v, sh)) h ++ repeat Proceed 6) s' rs' /\ failures rs' = [None].
Proof.
  intros H F L J V. destruct (kg_hist_run C Hb Hf ck cd rd _ _ _ _ _ _ H) as [I [E [E2 _]]].
  destruct (run_ops (g_op P) (g_init P D0) h) as [gs grs] eqn:ER. cbn [fst snd] in E, E2.
  destruct (swap_fails P D0 I (kgp_of C Hb Hf ck cd rd i n) (kgp_exp C Hb Hf ck cd rd i n) h gs grs 3 j ER) as [d [out [l1 [x [l2 [R1 [R2 [R3 [[y R4] R5]]]]]]]]].
  { rewrite <- E2, kg_failures. exact F. }
  { cbn. lia. }
  { rewrite <- E, (kg_current_sim C Hb Hf ck cd rd). exact L. }
  { exact J. }
  pose proof H as [s0 [N _]]. set (h' := swapped of p2p i 3 j (KM3 (v, sh)) h ++ repeat Proceed 6).
  exists (fst (run_ops opf s0 h')), (snd (run_ops opf s0 h')). assert (H' : hist i t n h' (fst (run_ops opf s0 h')) (snd (run_ops opf s0 h'))) by (exists s0; split; [exact N|destruct (run_ops opf s0 h'); reflexivity]).
  split; [exact H'|]. destruct (kg_hist_run C Hb Hf ck cd rd _ _ _ _ _ _ H') as [_ [_ [E2' _]]]. rewrite <- (kg_failures C), E2'.
  apply (R5 (KM3 (v, sh)) Panic); [reflexivity| |discriminate].
  pose proof (kg_shape_runs h 3 d out I R1) as SH. destruct d as [ | | |r| | | ]; cbn [kg_shape] in SH; try contradiction. destruct SH as (A1 & A2 & A3 & A4 & A5 & A6).
  cbn [kgp g_step kg_step] in R4 |- *. apply obind_ok in R4. destruct R4 as [ms [MS R4]]. destruct (kun3_split _ _ _ _ MS) as [ms1 [b [ms2 [X1 [X2 [_ X3]]]]]].
  rewrite X3. cbn [obind]. apply obind_ok in R4. destruct R4 as [z [R4 _]]. unfold kg_r3 in R4. apply obind_ok in R4. destruct R4 as [q [R4 _]]. rewrite X2 in R4.
  destruct (incl_me_split (r3_i r - 1) (r3_vss r, r3_share r) ms1 ms2) as [a1 [a2 [_ AA]]]. rewrite AA in R4.
  assert (DOK : forall j' y' w, nth_error (r3_y r) j' = Some y' -> nth_error (a1 ++ b :: a2) j' = Some w -> dealer_ok (r3_i r) y' (snd w) (fst w)).
  { intros j' y' [w1 w2] Y W. apply check2_dealer. unfold kg_phase2 in R4. apply obind_ok in R4. destruct R4 as [_ [_ R4]]. apply obind_ok in R4. destruct R4 as [_ [_ R4]]. apply obind_ok in R4. destruct R4 as [_ [_ R4]].
    apply obind_ok in R4. destruct R4 as [bad [R4 R6]]. destruct bad as [bi|]; [discriminate|]. apply first_bad_none in R4. rewrite Forall_forall in R4.
    apply R4. apply (nth_error_In _ j'). apply nth_error_combine. split; [apply nth_error_combine; split; [exact Y|]|]; rewrite nth_error_map, W; reflexivity. }
  rewrite (C27_empty_commitments_panic_refuted C Hf r (kr_nonce rd) (ms1 ++ (v, sh) :: ms2) (length a1) v sh); [reflexivity| | | |exact V|]; try rewrite AA.
  - assert (LL : length (incl_me (r3_i r - 1) (r3_vss r, r3_share r) (ms1 ++ b :: ms2)) = n).
    { rewrite incl_me_length, <- X2. apply omapM_len in MS. rewrite MS. apply (inbox_len h 3); [exact I|lia|exact R2]. }
    rewrite A3. rewrite AA, app_length in LL. rewrite app_length. exact LL.
  - lia.
  - rewrite nth_error_app2, Nat.sub_diag by lia. reflexivity.
  - intros j' y' w JL Y W. apply (DOK j' y' w Y). rewrite nth_error_app1 in W |- * by exact JL. exact W.
Qed.

Lemma peval_zeros l m x : peval (l ++ repeat f0 m) x = peval (C := C) l x.
Proof.
  induction l as [|a l IH]; cbn [app peval]; [|rewrite IH; reflexivity]. induction m as [|m IH]; cbn [repeat peval]; [reflexivity|]. rewrite IH. ring.
Qed.
(** C27 refuted, later: in every history that got past round 4 without failing, if a party other than the first sends the
    round-3 message it sent, with enough copies of the point at infinity appended to its commitments, round 3 accepts the
    message and round 4 panics. *)
Theorem C27_keygen_machine_panics_late_refuted h s rs j : hist i t n h s rs -> failures rs = [] -> 4 < kg_current_round s ->
  In j (peers i n) -> j <> 1 ->
  exists v sh m0, SmSpec.got of p2p i h 3 j = Some (KM3 (v, sh)) /\
  forall m, m0 <= m -> exists s' rs',
    hist i t n (swapped of p2p i 3 j (KM3 ({| vs_t := vs_t v; vs_n := vs_n v; vs_com := vs_com v ++ repeat pzero m |}, sh)) h ++ repeat Proceed 6) s' rs' /\ failures rs' = [None].
Proof.
  intros H F L J J1. destruct (kg_hist_run C Hb Hf ck cd rd _ _ _ _ _ _ H) as [I [E [E2 [_ [_ [N2 _]]]]]].
  destruct (run_ops (g_op P) (g_init P D0) h) as [gs grs] eqn:ER. cbn [fst snd] in E, E2.
  destruct (swap_fails_next P D0 I (kgp_of C Hb Hf ck cd rd i n) (kgp_exp C Hb Hf ck cd rd i n) h gs grs 3 j ER) as [d [out [l1 [x [l2 [l' [[d4 o4] [R1 [R2 [R3 [RP [R4 [R6 [_ R5]]]]]]]]]]]]]].
  { rewrite <- E2, kg_failures. exact F. }
  { lia. }
  { cbn. lia. }
  { rewrite <- E, (kg_current_sim C Hb Hf ck cd rd). exact L. }
  { exact J. }
  pose proof (kg_shape_runs h 3 d out I R1) as SH. destruct d as [ | | |r| | | ]; cbn [kg_shape] in SH; try contradiction. destruct SH as (A1 & A2 & A3 & A4 & A5 & A6).
  cbn [kgp g_step kg_step] in R4. apply obind_ok in R4. destruct R4 as [ms [MS R4]]. destruct (kun3_split _ _ _ _ MS) as [ms1 [[v sh] [ms2 [X1 [X2 [XL X3]]]]]].
  apply obind_ok in R4. destruct R4 as [z [R4 _]]. unfold kg_r3 in R4. apply obind_ok in R4. destruct R4 as [q [R4 _]]. rewrite X2 in R4.
  destruct (incl_me_split (r3_i r - 1) (r3_vss r, r3_share r) ms1 ms2) as [a1 [a2 [AE AA]]]. rewrite AA in R4.
  assert (NE : a1 <> []).
  { intros Z. destruct (AE Z) as [Z1 Z2]. rewrite Z1 in XL. destruct l1 as [|c l1]; [|discriminate]. specialize (RP eq_refl). cbn [kgp g_me g_n] in RP. rewrite A1 in Z2.
    apply J1. unfold peers in RP. destruct n as [|n']; [lia|]. cbn [seq filter] in RP. destruct (Nat.eqb_spec 1 i) as [Q|_]; [lia|]. cbn in RP. injection RP as <-. reflexivity. }
  exists v, sh, (S (length (vs_com (fst (hd (v, sh) a1))))). split; [rewrite <- X1; exact R3|]. intros m ML.
  set (v' := {| vs_t := vs_t v; vs_n := vs_n v; vs_com := vs_com v ++ repeat pzero m |}).
  pose proof H as [s0 [N _]]. set (h' := swapped of p2p i 3 j (KM3 (v', sh)) h ++ repeat Proceed 6).
  exists (fst (run_ops opf s0 h')), (snd (run_ops opf s0 h')). assert (H' : hist i t n h' (fst (run_ops opf s0 h')) (snd (run_ops opf s0 h'))) by (exists s0; split; [exact N|destruct (run_ops opf s0 h'); reflexivity]).
  split; [exact H'|]. destruct (kg_hist_run C Hb Hf ck cd rd _ _ _ _ _ _ H') as [_ [_ [E2' _]]]. rewrite <- (kg_failures C), E2'.
  apply phase2_ok in R4. destruct R4 as (B1 & B2 & B3 & B4 & B5 & B6 & B7 & B8).
  assert (DV : dealt v' = dealt v ++ repeat f0 m). { unfold dealt, v'. cbn [vs_com]. rewrite map_app. f_equal. clear. induction m as [|m IH]; cbn [repeat map]; [reflexivity|rewrite dlog_zero, IH; reflexivity]. }
  assert (VN : vs_com v <> []) by (apply B5, in_map_iff; exists (v, sh); split; [reflexivity|]; apply in_app_iff; right; left; reflexivity).
  assert (P2 : kg_phase2 C Hf (r3_n r) (r3_y r) (map snd (a1 ++ (v', sh) :: a2)) (map fst (a1 ++ (v', sh) :: a2)) (r3_i r) (kr_nonce rd) = Ok q).
  { apply phase2_ok. rewrite !map_app in *. cbn [map fst snd] in *. split; [exact B1|]. split; [exact B2|]. rewrite app_length in B3 |- *. split; [exact B3|]. split; [exact B4|].
    split; [|split; [|split; [|exact B8]]].
    - intros w W. apply in_app_iff in W. destruct W as [W|[<-|W]]; [apply B5, in_app_iff; left; exact W| |apply B5, in_app_iff; right; right; exact W].
      unfold v'. cbn [vs_com]. destruct (vs_com v); [contradiction|discriminate].
    - rewrite DV, peval_zeros. exact B6.
    - rewrite DV. assert (HD : hd f0 (dealt v ++ repeat f0 m) = hd f0 (dealt v)) by (unfold dealt; destruct (vs_com v); [contradiction|reflexivity]). rewrite HD. exact B7. }
  destruct q as [sk pf].
  eapply (R5 (KM3 (v', sh)) _ _ Panic); [reflexivity| | |discriminate].
  - cbn [kgp g_step kg_step]. rewrite X3. cbn [obind]. unfold kg_r3. rewrite AA, P2. cbn [obind fst snd]. reflexivity.
  - cbn [kgp g_step kg_step]. pose proof (inbox_len h 4 l' I ltac:(lia) R6) as LL. destruct (omapM_tot (kun4 C) l') as [ms' MS'].
    { intros y Y. destruct (inbox_delivered h 4 l' y ltac:(lia) R6 Y) as [O _]. destruct y; try discriminate. eexists; reflexivity. }
    rewrite MS'. cbn [obind]. apply omapM_len in MS'. destruct a1 as [|[w0 s0'] a1]; [contradiction|]. cbn [hd fst] in ML.
    rewrite (C27_longer_commitments_panic_refuted C Hf _ ms' w0 (map fst (a1 ++ (v', sh) :: a2)) v'); [reflexivity|reflexivity| | | |]; cbn [r4_y r4_n r4_i r4_proof].
    + apply in_map_iff. exists (v', sh). split; [reflexivity|]. apply in_app_iff. right. left. reflexivity.
    + unfold v'. cbn [vs_com]. rewrite app_length, repeat_length. lia.
    + lia.
    + rewrite incl_me_length. lia.
Qed.
End Kg.
Print Assumptions C27_keygen_machine_total.
Print Assumptions C27_keygen_machine_panics_refuted.
Print Assumptions C27_keygen_machine_panics_late_refuted.

(** The history of the first party in the run of C64_example: it ends with a key.  With the third party's round-3 message
    without commitments, or with three points at infinity added to its two commitments, it panics. *)
Definition exkhist : list (op (kg_msg toy)) :=
  match exnews with
  | Ok sts => ops_of 1 (snd (net_exec (fun i => kg_op toy exHb exHf3 exck excd (exrs (i - 1))) {| nt_st := sts; nt_wire := [] |} exsched))
  | _ => []
  end.
Definition exkrun (h : list (op (kg_msg toy))) : nat * list bool :=
  match kg_new toy exHb exHf3 exck excd (exrs 0) 1 1 3 with
  | Ok s0 => let '(s, rs) := run_ops (kg_op toy exHb exHf3 exck excd (exrs 0)) s0 h in
             (kg_current_round s, map (fun o => match o with None => true | _ => false end) (failures rs))
  | _ => (0, [])
  end.
Definition expad (m : nat) : kg_msg toy :=
  match SmSpec.got (kg_of toy) kg_p2p 1 exkhist 3 3 with
  | Some (KM3 (v, sh)) => KM3 ({| vs_t := vs_t v; vs_n := vs_n v; vs_com := vs_com v ++ repeat pzero m |}, sh)
  | _ => KM3 ({| vs_t := 0; vs_n := 0; vs_com := [] |}, f0)
  end.
Definition excoms : list nat := flat_map (fun o => match o with Deliver m => match m_body m with KM3 (v, _) => [length (vs_com v)] | _ => [] end | _ => [] end) exkhist.
Example C27_machine_example :
  exkrun exkhist = (5, []) /\ excoms = [2; 2] /\
  exkrun (swapped (kg_of toy) kg_p2p 1 3 3 (KM3 ({| vs_t := 1; vs_n := 3; vs_com := [] |}, tz 4)) exkhist ++ repeat Proceed 6) = (5, [true]) /\
  exkrun (swapped (kg_of toy) kg_p2p 1 3 3 (expad 0) exkhist ++ repeat Proceed 6) = (5, []) /\
  exkrun (swapped (kg_of toy) kg_p2p 1 3 3 (expad 3) exkhist ++ repeat Proceed 6) = (5, [true]).
Proof. vm_compute. repeat split. Qed.

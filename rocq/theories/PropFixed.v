(** C112: what the other parties contribute to the key and to the nonce is fixed before the machine reveals its own part. *)
From Coq Require Import ZArith Lia Bool List Permutation.
From Verif Require Import ZArithX Fq Curve Toy Outcome Sigma Bytes Vss VssProofs Paillier RangeProofs Pdl PdlSlack Mta Ecdsa Mp MpProofs Gg20Keygen KeygenProofs KeygenExtra KeygenRun Gg20Sign SignRun SignProofs Blame Stores RoundSM SmSpec SmProofs KeygenSM SignSM SmSim SmTheory SmFacts SmTags SmPanic SmCause SmCauseSg Network PropRange PropExtract PropCommit PropKeygen PropSign PropSM PropNetwork PropPanic PropKgPanic.
Import ListNotations.
Local Open Scope nat_scope.

Section Gen.
Context {P B R : Type} (p : params P B R) (d0 : R).
Notation K := (g_K p).
Notation me := (g_me p).
Notation n := (g_n p).
Hypothesis Hme : 1 <= me <= n.
Hypothesis Hof : forall b, 1 <= g_of p b <= K.
Hypothesis Hexp : forall k, g_exp p k = false -> 0 < k /\ g_again p (k - 1) = true.
Notation inb := (inbox (g_of p) (g_p2p p) me n).
Notation runs := (runs (g_step p) d0).
Notation run := (run_ops (g_op p) (g_init p d0)).
Lemma picked_runs h d : picks (snd (run h)) = [d] -> runs (inb h) (S K) d (sent (fst (run h)) (snd (run h))).
Proof.
  intros E. pose proof (run_all p d0 Hme Hof Hexp h) as A. destruct (run h) as [s rs]. destruct A as [_ [_ L]]. cbn [fst snd] in *.
  unfold LogInv in L. destruct (gs_round s); [destruct L as [_ L]; congruence|destruct L as [_ L]; congruence|].
  destruct L as [[_ [d' [L1 L2]]]|[L _]]; [|congruence]. rewrite E in L1. injection L1 as <-. exact L2.
Qed.
Lemma inb_app h h' k l : inb h k = Some l -> inb (h ++ h') k = Some l.
Proof. apply inbox_mono. Qed.
(** Once the rounds below k are complete, more calls do not change them. *)
Lemma runs_app h h' k d out : runs (inb h) k d out -> runs (inb (h ++ h')) k d out.
Proof. apply runs_mono. intros k' l. apply inb_app. Qed.
Lemma runs_incl inbx k d out k' d' out' : runs inbx k d out -> runs inbx k' d' out' -> k <= k' -> incl out out'.
Proof.
  intros H H'. revert k d out H. induction H' as [|k' d' out' l d2 o H' IH I S]; intros k d out H L.
  - assert (k = 0) by lia. subst k. inversion H. apply incl_refl.
  - destruct (Nat.eq_dec k (Datatypes.S k')) as [->|N].
    + destruct (runs_det _ _ _ _ _ _ (runs_S _ _ _ _ _ _ _ _ _ H' I S) _ _ H) as [_ ->]. apply incl_refl.
    + apply incl_appl. apply (IH k d out H). lia.
Qed.
(** What a machine that does not want to proceed has sent includes the output of all rounds that can be executed. *)
Lemma settled_sent h k d out : g_wants_to_proceed (fst (run h)) = false -> k <= S K -> runs (inb h) k d out -> incl out (sent (fst (run h)) (snd (run h))).
Proof.
  intros W KL RR. pose proof (run_all p d0 Hme Hof Hexp h) as A. destruct (run h) as [s rs]. destruct A as [I [_ L]]. cbn [fst snd] in *.
  pose proof (inv_round _ _ _ _ _ I) as Q. unfold LogInv in L. unfold g_wants_to_proceed in W. unfold sent. destruct (gs_round s) as [k' d'|d'|] eqn:G.
  - rewrite (wants_inbox p d0 Hme h _ s k' d' I G) in W. destruct (inb h k') as [l|] eqn:N; [discriminate|]. destruct Q as [_ [Q _]].
    apply (runs_incl _ _ _ _ _ _ _ RR Q). exact (runs_stuck p d0 h _ _ _ _ _ _ Q N RR).
  - exact (runs_incl _ _ _ _ _ _ _ RR Q KL).
  - destruct L as [[_ [d' [_ Q2]]]|[_ [k' [o' [[d' [l [A1 [A2 [A3 [A4 A5]]]]]] _]]]]]; [exact (runs_incl _ _ _ _ _ _ _ RR Q2 KL)|].
    apply (runs_incl _ _ _ _ _ _ _ RR A2). destruct (Nat.le_gt_cases k k') as [LE|LT]; [exact LE|]. exfalso.
    destruct (runs_below _ _ _ _ _ _ RR k' LT) as [e1 [oute [le [e2 [oe [B1 [B2 B3]]]]]]]. destruct (runs_det _ _ _ _ _ _ A2 _ _ B1) as [-> ->]. rewrite A3 in B2. injection B2 as <-. apply (A5 (e2, oe)). congruence.
Qed.
End Gen.
Section Gen2.
Context {P B R : Type} (p : params P B R) (d0 : R).
Notation K := (g_K p).
Hypothesis Hme : 1 <= g_me p <= g_n p.
Hypothesis Hof : forall b, 1 <= g_of p b <= K.
Hypothesis Hexp : forall k, g_exp p k = false -> 0 < k /\ g_again p (k - 1) = true.
Context (good : nat -> R -> Prop) (tags : nat -> list (nat * nat * option nat)).
Hypothesis G0 : good 0 d0.
Hypothesis Hstep : forall k d l d' o, k <= K -> good k d -> g_step p k d l = Ok (d', o) -> good (S k) d' /\ map (mtag p) o = tags k.
Hypothesis Htags : forall k x, In x (tags k) -> fst (fst x) = g_me p /\ snd (fst x) = S k.
Notation run := (run_ops (g_op p) (g_init p d0)).
(** A message of round k+1 leaves after round k has been executed. *)
Lemma sent_runs h m k : In m (sent (fst (run h)) (snd (run h))) -> g_of p (m_body m) = S k ->
  exists d out, k <= K /\ runs (g_step p) d0 (inbox (g_of p) (g_p2p p) (g_me p) (g_n p) h) (S k) d out.
Proof.
  intros X E. destruct (run_runs p d0 Hme Hof Hexp h) as (k0 & d & L & Q & _).
  destruct (runs_origin p d0 Hme good tags G0 Hstep Htags _ _ _ _ m Q L X) as (_ & k' & d' & out' & l & d'' & o & E' & L' & Q' & I & S & _).
  assert (k' = k) by congruence. subst k'. exists d'', (out' ++ o). split; [lia|]. exact (runs_S _ _ _ _ _ _ _ _ _ Q' I S).
Qed.
End Gen2.

Lemma all_some_nth {A} (l : list (option A)) r q a : all_some l = Some r -> nth_error r q = Some a -> nth_error l q = Some (Some a).
Proof.
  revert r q. induction l as [|[x|] l IH]; intros r q H N; cbn [all_some] in H; [injection H as <-; destruct q; discriminate| |discriminate].
  destruct (all_some l) as [t|]; [|discriminate]. injection H as <-. destruct q as [|q]; [injection N as <-; reflexivity|exact (IH t q eq_refl N)].
Qed.
Lemma omapM_nth_ok {A E X} (f : X -> outcome E A) l r q a : omapM f l = Ok r -> nth_error r q = Some a -> exists x, nth_error l q = Some x /\ f x = Ok a.
Proof.
  revert r q. induction l as [|x l IH]; intros r q H N; cbn [omapM] in H; [injection H as <-; destruct q; discriminate|].
  apply obind_ok in H. destruct H as [b [H0 H]]. apply obind_ok in H. destruct H as [s [H1 H2]]. injection H2 as <-. destruct q as [|q]; [injection N as <-; exists x; split; [reflexivity|exact H0]|].
  exact (IH s q H1 N).
Qed.
(** Two openings of one commitment, received from the same party in two histories *)
Definition opened_twice (C : Curve) (Hb : list Z -> Z) (a b : kg_dec1 C) : Prop :=
  to_bytes (pt_int (kd_y a)) ++ to_bytes (kd_blind a) <> to_bytes (pt_int (kd_y b)) ++ to_bytes (kd_blind b) /\
  Hb (to_bytes (pt_int (kd_y a)) ++ to_bytes (kd_blind a)) = Hb (to_bytes (pt_int (kd_y b)) ++ to_bytes (kd_blind b)).

(** The list of the others' messages with the entry of party j replaced *)
Definition rep (me n j : nat) {A} (b : A) (l : list A) : list A := map (fun x => if fst x =? j then b else snd x) (combine (peers me n) l).
Lemma rep_length me n j {A} (b : A) l : length l = length (peers me n) -> length (rep me n j b l) = length l.
Proof. intros H. unfold rep. rewrite map_length, combine_length. lia. Qed.
Lemma rep_map me n j {A B} (f : A -> B) b l : rep me n j (f b) (map f l) = map f (rep me n j b l).
Proof.
  unfold rep. generalize (peers me n). intros js. revert l. induction js as [|x js IH]; intros [|a l]; cbn [combine map fst snd]; try reflexivity. rewrite IH. destruct (x =? j); reflexivity.
Qed.

Section Kg.
Context (C : Curve).
Context (Hb : list Z -> Z) (Hf : hashF C) (ck : Z -> Z -> bool) (cd : Z -> dlstmt -> outcome mp_error bool) (rd : kg_rand C).
Notation M := (kg_msg C).
Notation opf := (kg_op C Hb Hf ck cd rd).
Notation hist := (kg_hist C Hb Hf ck cd rd).
Notation of := (kg_of C).
Notation p2p := kg_p2p.
Context (i t n : nat).
Notation P := (kgp C Hb Hf ck cd rd i n).
Notation D0 := (KR0 i t n : kg_r C).
Notation step := (kg_step C Hb Hf ck cd rd).
Notation inb := (inbox of p2p i n).

Lemma kg_sent_runs h s rs m k : hist i t n h s rs -> In m (sent_by (ks_queue s) rs) -> of (m_body m) = S k ->
  exists d out, k <= 4 /\ runs step D0 (inb h) (S k) d out.
Proof.
  intros H X E. destruct (kg_hist_run C Hb Hf ck cd rd i t n h s rs H) as (I & E1 & E2 & _).
  refine (sent_runs P D0 I (kgp_of C Hb Hf ck cd rd i n) (kgp_exp C Hb Hf ck cd rd i n) (kg_good C i n) (round_tags kg_p2p i n 4) (conj eq_refl (conj eq_refl eq_refl)) _ (kg_tags_in i n) h m k _ E).
  - intros k' d l d' o. exact (kg_good_step C Hb Hf ck cd rd i n k' d l d' o).
  - rewrite <- E1, <- E2, kg_sent. exact X.
Qed.
Lemma kg_picked_runs h s rs k : hist i t n h s rs -> picks rs = [k] -> exists out, runs step D0 (inb h) 5 (KFinal k) out.
Proof.
  intros H E. destruct (kg_hist_run C Hb Hf ck cd rd i t n h s rs H) as (I & E1 & E2 & _).
  eexists. apply (picked_runs P D0 I (kgp_of C Hb Hf ck cd rd i n) (kgp_exp C Hb Hf ck cd rd i n)). rewrite <- E2, kg_picks, E. reflexivity.
Qed.
(** From the end of key generation back to round 2 *)
Lemma kg_final_y h k out r o2 : runs step D0 (inb h) 5 (KFinal k) out -> runs step D0 (inb h) 2 (KR2 r) o2 ->
  exists l ms x, inb h 2 = Some l /\ omapM (kun2 C) l = Ok ms /\ kg_r2 C Hb ck cd r (kr_coefs rd) ms = Ok x /\
    exists h0 tl, r3_y (fst x) = h0 :: tl /\ lk_y k = fold_left padd tl h0.
Proof.
  intros R5 R2. inversion R5 as [|k4 d4 o4 l4 d5 o5 R4 IN4 S4 EK ED EO]. subst d5. clear EK EO. inversion R4 as [|k3 d3 o3 l3 d4' o4' R3 IN3 S3 EK ED EO]. subst d4'. clear EK EO.
  inversion R3 as [|k2 d2 o2' l2 d3' o3' R2' IN2 S2 EK ED EO]. subst d3'. clear EK EO.
  destruct (runs_det _ _ _ _ _ _ R2 _ _ R2') as [-> ->]. cbn [kg_step] in S2. apply obind_ok in S2. destruct S2 as [ms [MS S2]]. apply obind_ok in S2. destruct S2 as [x [X S2]]. injection S2 as <- _.
  exists l2, ms, x. split; [exact IN2|]. split; [exact MS|]. split; [exact X|].
  cbn [kg_step] in S3. apply obind_ok in S3. destruct S3 as [ms3 [_ S3]]. apply obind_ok in S3. destruct S3 as [x3 [X3 S3]]. injection S3 as <- _.
  unfold kg_r3 in X3. apply obind_ok in X3. destruct X3 as [[sk pf] [_ X3]]. injection X3 as <-.
  cbn [kg_step fst] in S4. apply obind_ok in S4. destruct S4 as [ms4 [_ S4]]. apply obind_ok in S4. destruct S4 as [x4 [X4 S4]]. injection S4 as <- _.
  unfold kg_r4 in X4. cbn [r4_y r4_n r4_i r4_vss r4_bc r4_proof] in X4. apply obind_ok in X4. destruct X4 as [u1 [_ X4]]. apply obind_ok in X4. destruct X4 as [u2 [_ X4]]. apply obind_ok in X4. destruct X4 as [u3 [_ X4]].
  destruct (r3_y (fst x)) as [|h0 tl]; [discriminate|]. apply obind_ok in X4. destruct X4 as [v [_ X4]]. injection X4 as <-. exists h0, tl. split; reflexivity.
Qed.
(** The openings used in round 2, with their senders *)
Lemma inb_opening h l ms q d : inb h 2 = Some l -> omapM (kun2 C) l = Ok ms -> nth_error ms q = Some d -> exists j, nth_error (peers i n) q = Some j /\ SmSpec.got of p2p i h 2 j = Some (KM2 d).
Proof.
  intros I E N. destruct (omapM_nth_ok _ _ _ _ _ E N) as [x [X1 X2]]. destruct x; try discriminate. cbn [kun2] in X2. injection X2 as ->.
  unfold inbox in I. cbn [Nat.eqb] in I. pose proof (all_some_nth _ _ _ _ I X1) as Q. rewrite nth_error_map in Q. destruct (nth_error (peers i n) q) as [j|]; [|discriminate].
  exists j. split; [reflexivity|]. injection Q as Q. exact Q.
Qed.

(** C112, key generation: once the machine has put its opening (its round-2 message) out, the key is fixed.  Two ways to
    go on that both end with a key give the same public key, unless another party shows two different openings with one
    hash value. *)
Theorem C112_key_fixed_when_opened h0 s0 rs0 m d0 h1 s1 rs1 k1 h2 s2 rs2 k2 :
  hist i t n h0 s0 rs0 -> In m (sent_by (ks_queue s0) rs0) -> m_body m = KM2 d0 ->
  hist i t n (h0 ++ h1) s1 rs1 -> picks rs1 = [k1] -> hist i t n (h0 ++ h2) s2 rs2 -> picks rs2 = [k2] ->
  lk_y k1 = lk_y k2 \/
  exists j a b, In j (peers i n) /\ SmSpec.got of p2p i (h0 ++ h1) 2 j = Some (KM2 a) /\ SmSpec.got of p2p i (h0 ++ h2) 2 j = Some (KM2 b) /\ opened_twice C Hb a b.
Proof.
  intros H X B H1 P1 H2 P2. destruct (kg_hist_run C Hb Hf ck cd rd _ _ _ _ _ _ H) as [I _].
  destruct (kg_sent_runs _ _ _ m 1 H X) as [d [out [_ R]]]; [rewrite B; reflexivity|].
  pose proof (kg_shape_runs C Hb Hf ck cd rd i t n h0 2 d out I R) as SH. destruct d as [ | |r| | | | ]; cbn [kg_shape] in SH; try contradiction.
  destruct (kg_picked_runs _ _ _ _ H1 P1) as [o1 R1]. destruct (kg_picked_runs _ _ _ _ H2 P2) as [o2 R2].
  destruct (kg_final_y _ _ _ _ _ R1 (runs_app P D0 h0 h1 _ _ _ R)) as [l1 [ms1 [x1 [I1 [M1 [X1 [a1 [t1 [Y1 F1]]]]]]]]].
  destruct (kg_final_y _ _ _ _ _ R2 (runs_app P D0 h0 h2 _ _ _ R)) as [l2 [ms2 [x2 [I2 [M2 [X2 [a2 [t2 [Y2 F2]]]]]]]]].
  destruct SH as (A1 & A2 & A3 & A4).
  assert (L1 : S (length ms1) = n) by (rewrite (omapM_len _ _ _ M1); apply (inbox_len C i n (h0 ++ h1) 2); [exact I|lia|exact I1]).
  assert (L2 : S (length ms2) = n) by (rewrite (omapM_len _ _ _ M2); apply (inbox_len C i n (h0 ++ h2) 2); [exact I|lia|exact I2]).
  assert (V : forall ms x, kg_r2 C Hb ck cd r (kr_coefs rd) ms = Ok x -> S (length ms) = n ->
     r3_y (fst x) = map kd_y (incl_me (i - 1) (r2_dec r) ms) /\
     forall q dd, nth_error ms q = Some dd -> exists b, nth_error (r2_comm r) (ind (i - 1) q) = Some b /\ commit_pt Hb (kd_y dd) (kd_blind dd) = kb_com b).
  { intros ms x Q L. unfold kg_r2 in Q. apply obind_ok in Q. destruct Q as [[[vs sh] id] [Q1 Q2]]. apply obind_ok in Q2. destruct Q2 as [own [_ Q2]]. injection Q2 as <-. cbn [fst r3_y]. rewrite A1 in *.
    split; [reflexivity|]. intros q dd N. apply phase1_verify_ok in Q1. destruct Q1 as (_ & _ & _ & PO & _). assert (q < length ms) by (apply nth_error_Some; congruence).
    destruct (nth_error (r2_comm r) (ind (i - 1) q)) as [b|] eqn:EB.
    - exists b. split; [reflexivity|]. refine (proj1 (PO (ind (i - 1) q) dd b _ EB)). rewrite incl_me_ind by lia. exact N.
    - apply nth_error_None in EB. unfold ind in EB. destruct (q <? i - 1) eqn:QI; [apply Nat.ltb_lt in QI|apply Nat.ltb_ge in QI]; lia. }
  destruct (V _ _ X1 L1) as [V1 W1]. destruct (V _ _ X2 L2) as [V2 W2].
  assert (D : map kd_y ms1 = map kd_y ms2 \/ exists q u v, nth_error ms1 q = Some u /\ nth_error ms2 q = Some v /\ kd_y u <> kd_y v).
  { clear -L1 L2. assert (L : length ms1 = length ms2) by lia. clear L1 L2. revert ms2 L. induction ms1 as [|u l IH]; intros [|v l2] L; try discriminate; [left; reflexivity|].
    destruct (pt_eqb (kd_y u) (kd_y v)) eqn:Q.
    - apply pt_eqb_eq in Q. destruct (IH l2) as [E|(q & a & b & Q1 & Q2 & Q3)]; [cbn in L; lia|left; cbn [map]; congruence|]. right. exists (S q), a, b. auto.
    - right. exists 0, u, v. split; [reflexivity|]. split; [reflexivity|]. intros E. apply pt_eqb_eq in E. congruence. }
  destruct D as [D|(q & u & v & U1 & U2 & NE)].
  - left. rewrite F1, F2. rewrite V1, incl_me_map in Y1. rewrite V2, incl_me_map, <- D in Y2. rewrite Y1 in Y2. injection Y2 as <- <-. reflexivity.
  - right. destruct (inb_opening _ _ _ _ _ I1 M1 U1) as [j [J1 G1]]. destruct (inb_opening _ _ _ _ _ I2 M2 U2) as [j' [J2 G2]]. rewrite J1 in J2. injection J2 as <-.
    exists j, u, v. split; [apply (nth_error_In _ q); exact J1|]. split; [exact G1|]. split; [exact G2|].
    destruct (W1 q u U1) as [b [B1 B2]]. destruct (W2 q v U2) as [b' [B3 B4]]. rewrite B1 in B3. injection B3 as <-. rewrite <- B4 in B2.
    destruct (C14_point_commitment_binding C Hb _ _ _ _ B2) as [E|E]; [contradiction|exact E].
Qed.

(** Nothing of round k+1 leaves before every other party's message of every round up to k is in. *)
Theorem C112_keygen_waits h s rs m k j : hist i t n h s rs -> In m (sent_by (ks_queue s) rs) -> 1 <= k < of (m_body m) -> In j (peers i n) ->
  exists b, SmSpec.got of p2p i h k j = Some b.
Proof.
  intros H X L J. destruct (of (m_body m)) as [|k1] eqn:E; [lia|]. destruct (kg_sent_runs _ _ _ m k1 H X E) as [d [out [_ R]]].
  destruct (runs_below _ _ _ _ _ _ R k ltac:(lia)) as [_ [_ [l [_ [_ [_ [IN _]]]]]]]. unfold inbox in IN. destruct (Nat.eqb_spec k 0) as [Z|_]; [lia|].
  destruct (SmSpec.got of p2p i h k j) as [b|] eqn:G; [exists b; reflexivity|]. exfalso.
  assert (N : In None (map (SmSpec.got of p2p i h k) (peers i n))) by (apply in_map_iff; exists j; auto). apply all_some_none in N. congruence.
Qed.

(** Nothing in the round-1 and round-2 messages names their sender. Party j that waits for this machine's messages and
    sends copies of them is accepted: whatever the history, as long as the machine got past round 2 in it, the machine
    with j's two messages replaced by its own goes on and deals j a share. *)
Notation rep := (rep i n).
Lemma swapped_rep k j b h l : 0 < k -> of b = k -> inb h k = Some l -> inb (swapped of p2p i k j b h) k = Some (rep j b l).
Proof.
  intros K OB IN. unfold inbox in *. destruct (Nat.eqb_spec k 0) as [Z|_]; [lia|]. unfold PropFixed.rep. revert l IN. induction (peers i n) as [|j' js IH]; intros l IN; cbn [map all_some] in *; [injection IN as <-; reflexivity|].
  rewrite (swapped_got of p2p i k j b h OB), Nat.eqb_refl. cbn [andb]. destruct (SmSpec.got of p2p i h k j') as [a|] eqn:G; [|discriminate]. destruct (all_some (map (SmSpec.got of p2p i h k) js)) as [r|] eqn:A; [|discriminate]. injection IN as <-.
  rewrite (IH r eq_refl). cbn [combine map fst snd]. destruct (j' =? j); reflexivity.
Qed.
Lemma kun1_map l ms : omapM (kun1 C) l = Ok ms <-> l = map KM1 ms.
Proof.
  split; [|intros ->; induction ms as [|a ms IH]; [reflexivity|cbn [map omapM kun1 obind]; rewrite IH; reflexivity]].
  revert ms. induction l as [|x l IH]; intros ms H; cbn [omapM] in H; [injection H as <-; reflexivity|]. apply obind_ok in H. destruct H as [b [H0 H]]. apply obind_ok in H. destruct H as [r [H1 H]]. injection H as <-.
  destruct x; try discriminate. injection H0 as <-. cbn [map]. rewrite (IH r H1). reflexivity.
Qed.
Lemma kun2_map l ms : omapM (kun2 C) l = Ok ms <-> l = map KM2 ms.
Proof.
  split; [|intros ->; induction ms as [|a ms IH]; [reflexivity|cbn [map omapM kun2 obind]; rewrite IH; reflexivity]].
  revert ms. induction l as [|x l IH]; intros ms H; cbn [omapM] in H; [injection H as <-; reflexivity|]. apply obind_ok in H. destruct H as [b [H0 H]]. apply obind_ok in H. destruct H as [r [H1 H]]. injection H as <-.
  destruct x; try discriminate. injection H0 as <-. cbn [map]. rewrite (IH r H1). reflexivity.
Qed.
Lemma kg_sent_origin h s rs m k : hist i t n h s rs -> In m (sent_by (ks_queue s) rs) -> of (m_body m) = S k ->
  exists d out l d' o, runs step D0 (inb h) k d out /\ inb h k = Some l /\ step k d l = Ok (d', o) /\ In m o.
Proof.
  intros H X E. destruct (kg_hist_run C Hb Hf ck cd rd i t n h s rs H) as (I & E1 & E2 & _).
  destruct (run_runs P D0 I (kgp_of C Hb Hf ck cd rd i n) (kgp_exp C Hb Hf ck cd rd i n) h) as (k0 & d & L & Q & _).
  unfold sent_by in X. rewrite <- (kg_sent C), E1, E2 in X.
  destruct (runs_origin P D0 I (kg_good C i n) (round_tags kg_p2p i n 4) (conj eq_refl (conj eq_refl eq_refl)) (fun k' d l d' o => kg_good_step C Hb Hf ck cd rd i n k' d l d' o) (kg_tags_in i n) _ _ _ _ m Q L X) as (_ & k' & d' & out' & l & d'' & o & E' & L' & Q' & IN & S & MO).
  change (g_of P (m_body m)) with (of (m_body m)) in E'. assert (k' = k) by congruence. subst k'. exists d', out', l, d'', o. auto.
Qed.
Theorem C112_copied_opening_accepted_refuted h s rs j b d m1 m2 m3 : hist i t n h s rs -> In j (peers i n) ->
  In m1 (sent_by (ks_queue s) rs) -> m_body m1 = KM1 b -> In m2 (sent_by (ks_queue s) rs) -> m_body m2 = KM2 d ->
  In m3 (sent_by (ks_queue s) rs) -> of (m_body m3) = 3 ->
  exists s' rs', hist i t n (swapped of p2p i 2 j (KM2 d) (swapped of p2p i 1 j (KM1 b) h) ++ repeat Proceed 6) s' rs' /\
    exists m v, In m (sent_by (ks_queue s') rs') /\ m_to m = Some j /\ m_body m = KM3 v.
Proof.
  intros H J X1 B1 X2 B2 X3 B3. destruct (kg_hist_run C Hb Hf ck cd rd _ _ _ _ _ _ H) as [I _].
  destruct (kg_sent_origin _ _ _ m1 0 H X1) as (d0 & o0 & l0 & d0' & q0 & R0 & N0 & S0 & M0); [rewrite B1; reflexivity|].
  destruct (kg_sent_origin _ _ _ m2 1 H X2) as (d1 & o1 & l1 & d1' & q1 & R1 & N1 & S1 & M1); [rewrite B2; reflexivity|].
  destruct (kg_sent_origin _ _ _ m3 2 H X3 B3) as (d2 & o2 & l2 & d2' & q2 & R2 & N2 & S2 & _).
  set (h' := swapped of p2p i 2 j (KM2 d) (swapped of p2p i 1 j (KM1 b) h) ++ repeat Proceed 6).
  assert (N0' : inb h' 0 = Some l0) by exact N0.
  assert (N1' : inb h' 1 = Some (rep j (KM1 b) l1)).
  { unfold h'. rewrite (inb_proceeds P). cbn [kgp g_of g_p2p g_me g_n]. rewrite swapped_inbox_other; [|reflexivity|lia]. apply swapped_rep; [lia|reflexivity|exact N1]. }
  assert (N2' : inb h' 2 = Some (rep j (KM2 d) l2)).
  { unfold h'. rewrite (inb_proceeds P). cbn [kgp g_of g_p2p g_me g_n]. apply swapped_rep; [lia|reflexivity|]. rewrite swapped_inbox_other; [exact N2|reflexivity|lia]. }
  pose proof (inbox_len C i n h 1 l1 I ltac:(lia) N1) as L1. pose proof (inbox_len C i n h 2 l2 I ltac:(lia) N2) as L2.
  (* round 0 *)
  pose proof R0 as R0'. inversion R0' as [EK ED EO|]. subst d0 o0. clear R0'.
  destruct (runs_det _ _ _ _ _ _ (runs_S _ _ _ _ _ _ _ _ _ R0 N0 S0) _ _ R1) as [E1 _]. subst d1.
  pose proof S0 as S0'. cbn [kg_step] in S0'. unfold kg_r0 in S0'. destruct (kg_phase1 _ _ _ _ _ _) as [b0 dd0] eqn:PH. cbn [obind fst snd] in S0'. injection S0' as <- <-.
  cbn [bcast] in M0. destruct M0 as [M0|[]]. subst m1. cbn [m_body] in B1. injection B1 as ->.
  (* round 1 *)
  destruct (runs_det _ _ _ _ _ _ (runs_S _ _ _ _ _ _ _ _ _ R1 N1 S1) _ _ R2) as [E2 _]. subst d2.
  cbn [kg_step] in S1. apply obind_ok in S1. destruct S1 as [ms1 [U1 S1]]. apply kun1_map in U1. subst l1. unfold kg_r1 in S1. cbn [obind fst snd r1_keys r1_bc r1_dec r1_i r1_t r1_n] in S1. injection S1 as <- <-.
  cbn [bcast] in M1. destruct M1 as [M1|[]]. subst m2. cbn [m_body] in B2. injection B2 as ->.
  (* round 2 *)
  cbn [kg_step] in S2. apply obind_ok in S2. destruct S2 as [ms2 [U2 S2]]. apply kun2_map in U2. subst l2. apply obind_ok in S2. destruct S2 as [x2 [S2 _]].
  unfold kg_r2 in S2. cbn [r2_keys r2_comm r2_dec r2_i r2_t r2_n] in S2. apply obind_ok in S2. destruct S2 as [v [V S2]]. pose proof V as V'. apply phase1_verify_ok in V'. destruct V' as (V1 & V2 & V3 & V4 & V5).
  rewrite map_length in L1, L2. pose proof (peers_length i n I) as PL.
  assert (W : kg_phase1_verify C Hb ck cd {| ky_u := kr_u rd; ky_p1 := kr_p1 rd; ky_p2 := kr_p2 rd; ky_i := i; ky_dl := kr_dl rd |} t n (kr_coefs rd) (incl_me (i - 1) d (rep j d ms2)) (incl_me (i - 1) b (rep j b ms1)) = Ok v).
  { apply phase1_verify_ok. rewrite !incl_me_length, !rep_length by lia. split; [lia|]. split; [lia|]. split; [exact V3|]. split; [|exact V5].
    intros x dx bx DX BX. destruct (Nat.eq_dec x (i - 1)) as [->|NX].
    - rewrite incl_me_self in DX by (rewrite rep_length by lia; lia). rewrite incl_me_self in BX by (rewrite rep_length by lia; lia). injection DX as <-. injection BX as <-. apply (V4 (i - 1)); apply incl_me_self; lia.
    - assert (XI : exists q, x = ind (i - 1) q).
      { unfold ind. destruct (Nat.lt_ge_cases x (i - 1)); [exists x|exists (x - 1)]; [destruct (Nat.ltb_spec x (i - 1))|destruct (Nat.ltb_spec (x - 1) (i - 1))]; lia. }
      destruct XI as [q ->]. rewrite PropExtract.incl_me_slot in DX by (rewrite rep_length by lia; lia). rewrite PropExtract.incl_me_slot in BX by (rewrite rep_length by lia; lia).
      unfold PropFixed.rep in DX, BX. rewrite nth_error_map in DX. rewrite nth_error_map in BX.
      destruct (nth_error (combine (peers i n) ms2) q) as [[p2 a2]|] eqn:C2; [|discriminate]. destruct (nth_error (combine (peers i n) ms1) q) as [[p1 a1]|] eqn:C1; [|discriminate].
      apply nth_error_combine in C2, C1. destruct C2 as [C2 C2']. destruct C1 as [C1 C1']. assert (p1 = p2) by congruence. subst p2. cbn [option_map fst snd] in DX, BX.
      destruct (p1 =? j); injection DX as <-; injection BX as <-.
      + apply (V4 (i - 1)); apply incl_me_self; lia.
      + apply (V4 (ind (i - 1) q)); rewrite PropExtract.incl_me_slot by lia; assumption. }
  assert (Y1 : step 1 (KR1 {| r1_keys := {| ky_u := kr_u rd; ky_p1 := kr_p1 rd; ky_p2 := kr_p2 rd; ky_i := i; ky_dl := kr_dl rd |}; r1_bc := b; r1_dec := d; r1_i := i; r1_t := t; r1_n := n |}) (rep j (KM1 b) (map KM1 ms1)) =
    Ok (KR2 {| r2_keys := {| ky_u := kr_u rd; ky_p1 := kr_p1 rd; ky_p2 := kr_p2 rd; ky_i := i; ky_dl := kr_dl rd |}; r2_comm := incl_me (i - 1) b (rep j b ms1); r2_dec := d; r2_i := i; r2_t := t; r2_n := n |}, bcast i (KM2 d))).
  { cbn [kg_step]. rewrite rep_map, (proj2 (kun1_map _ _) eq_refl). reflexivity. }
  destruct v as [[vs shares] iv]. apply obind_ok in S2. destruct S2 as [own [OW _]].
  match type of Y1 with _ = Ok (?q, _) => assert (Y2 : exists d3 o3, step 2 q (rep j (KM2 d) (map KM2 ms2)) = Ok (d3, o3)) end.
  { cbn [kg_step]. rewrite rep_map, (proj2 (kun2_map _ _) eq_refl). cbn [obind]. unfold kg_r2. cbn [r2_keys r2_comm r2_dec r2_i r2_t r2_n]. rewrite W. cbn [obind]. rewrite OW. cbn [obind]. eexists _, _. reflexivity. }
  destruct Y2 as [d3 [o3 Y2]].
  assert (RR0 : runs step D0 (inb h') 0 D0 []) by constructor.
  pose proof (runs_S _ _ _ _ _ _ _ _ _ RR0 N0' S0) as RR1. pose proof (runs_S _ _ _ _ _ _ _ _ _ RR1 N1' Y1) as RR2. pose proof (runs_S _ _ _ _ _ _ _ _ _ RR2 N2' Y2) as RR3.
  pose proof H as [s0 [N _]]. exists (fst (run_ops opf s0 h')), (snd (run_ops opf s0 h')).
  assert (H' : hist i t n h' (fst (run_ops opf s0 h')) (snd (run_ops opf s0 h'))) by (exists s0; split; [exact N|destruct (run_ops opf s0 h'); reflexivity]).
  split; [exact H'|]. destruct (kg_hist_run C Hb Hf ck cd rd _ _ _ _ _ _ H') as (_ & F1 & F2 & _).
  assert (GD : kg_good C i n 2 (KR2 {| r2_keys := {| ky_u := kr_u rd; ky_p1 := kr_p1 rd; ky_p2 := kr_p2 rd; ky_i := i; ky_dl := kr_dl rd |}; r2_comm := incl_me (i - 1) b (rep j b ms1); r2_dec := d; r2_i := i; r2_t := t; r2_n := n |})).
  { apply (runs_tags P D0 (kg_good C i n) (round_tags kg_p2p i n 4) (conj eq_refl (conj eq_refl eq_refl)) (fun k' d l d' o => kg_good_step C Hb Hf ck cd rd i n k' d l d' o) _ _ _ _ RR2). cbn. lia. }
  destruct (kg_good_step C Hb Hf ck cd rd i n 2 _ _ _ _ ltac:(lia) GD Y2) as [_ TG].
  assert (TJ : In (i, 3, Some j) (map (mtag P) o3)) by (rewrite TG; unfold round_tags; cbn [Nat.eqb kg_p2p]; apply in_map_iff; exists j; auto).
  apply in_map_iff in TJ. destruct TJ as [m [TM MI]]. exists m. unfold mtag in TM. injection TM as _ TM2 TM3. cbn [kgp g_of] in TM2.
  destruct (m_body m) as [ | |vv| ] eqn:MB; try discriminate. exists vv. split; [|split; [exact TM3|reflexivity]].
  unfold sent_by. rewrite <- (kg_sent C), F1, F2. refine (settled_sent P D0 I (kgp_of C Hb Hf ck cd rd i n) (kgp_exp C Hb Hf ck cd rd i n) h' 3 _ _ _ _ RR3 m _).
  - apply (settled P D0 I (kgp_of C Hb Hf ck cd rd i n) (kgp_exp C Hb Hf ck cd rd i n)).
  - cbn. lia.
  - rewrite !in_app_iff. right. exact MI.
Qed.
End Kg.
Print Assumptions C112_key_fixed_when_opened.
Print Assumptions C112_keygen_waits.
Print Assumptions C112_copied_opening_accepted_refuted.

Section Sg.
Context (C : Curve).
Context (Hb : list Z -> Z) (Hz : hashZ C) (Hf : hashF C) (rd : sign_rand C).
Notation M := (sg_msg C).
Notation opf := (sg_op C Hb Hz Hf rd).
Notation hist := (sg_hist C Hb Hz Hf rd).
Notation of := (sg_of C).
Notation p2p := sg_p2p.
Context (i : nat) (sl : list nat) (lk : local_key C).
Notation n := (length sl).
Notation P := (sgp C Hb Hz Hf rd i n).
Notation D0 := (SR0 i sl lk : sg_st C).
Notation step := (sg_step C Hb Hz Hf rd).
Notation inb := (inbox of p2p i n).

Lemma sg_sent_runs h s rs m k : hist i sl lk h s rs -> In m (sent_by (sm_queue s) rs) -> of (m_body m) = S k ->
  exists d out, k <= 6 /\ runs step D0 (inb h) (S k) d out.
Proof.
  intros H X E. destruct (sg_hist_run C Hb Hz Hf rd i sl lk h s rs H) as (I & E1 & E2 & _).
  refine (sent_runs P D0 I (sgp_of C Hb Hz Hf rd i n) (sgp_exp C Hb Hz Hf rd i n) (sg_good C i n) (round_tags sg_p2p i n 6) (sg_start_good C i sl lk) _ (sg_tags_in i sl) h m k _ E).
  - intros k' d l d' o. exact (sg_good_step C Hb Hz Hf rd i n I k' d l d' o).
  - rewrite <- E1, <- E2, sg_sent. exact X.
Qed.
Lemma sg_picked_runs h s rs k : hist i sl lk h s rs -> picks rs = [k] -> exists out, runs step D0 (inb h) 7 (SFinished k) out.
Proof.
  intros H E. destruct (sg_hist_run C Hb Hz Hf rd i sl lk h s rs H) as (I & E1 & E2 & _).
  eexists. apply (picked_runs P D0 I (sgp_of C Hb Hz Hf rd i n) (sgp_exp C Hb Hz Hf rd i n)). rewrite <- E2, sg_picks, E. reflexivity.
Qed.
(** Nothing of round k+1 leaves before every other signer's message of every round up to k is in. *)
Theorem C112_offline_waits h s rs m k j : hist i sl lk h s rs -> In m (sent_by (sm_queue s) rs) -> 1 <= k < of (m_body m) -> In j (peers i n) ->
  exists b, SmSpec.got of p2p i h k j = Some b.
Proof.
  intros H X L J. destruct (of (m_body m)) as [|k1] eqn:E; [lia|]. destruct (sg_sent_runs _ _ _ m k1 H X E) as [d [out [_ R]]].
  destruct (runs_below _ _ _ _ _ _ R k ltac:(lia)) as [_ [_ [l [_ [_ [_ [IN _]]]]]]]. unfold inbox in IN. destruct (Nat.eqb_spec k 0) as [Z|_]; [lia|].
  destruct (SmSpec.got of p2p i h k j) as [b|] eqn:G; [exists b; reflexivity|]. exfalso.
  assert (N : In None (map (SmSpec.got of p2p i h k) (peers i n))) by (apply in_map_iff; exists j; auto). apply all_some_none in N. congruence.
Qed.
Lemma sg_inbox_len h k l : 1 <= i <= n -> 0 < k -> inb h k = Some l -> S (length l) = n.
Proof. intros I K H. unfold inbox in H. destruct k; [lia|]. cbn [Nat.eqb] in H. apply all_some_length in H. rewrite map_length, peers_length in H by lia. lia. Qed.
Lemma sg_shape4 h d out : 1 <= i <= n -> runs step D0 (inb h) 4 d out -> exists r, d = SR4 r /\ s4_i r = i /\ s4_sl r = sl /\ length (s4_mbs r) = n - 1.
Proof.
  intros I R. inversion R as [|k3 d3 o3 l3 d4 o4 R3 IN3 S3 EK ED EO]. subst d4. clear EK EO. inversion R3 as [|k2 d2 o2 l2 d3' o3' R2 IN2 S2 EK ED EO]. subst d3'. clear EK EO.
  pose proof (kept_runs C Hb Hz Hf rd i sl lk _ _ _ _ R2) as KP.
  inversion R2 as [|k1 d1 o1 l1 d2' o2' R1 IN1 S1 EK ED EO]. subst d2'. clear EK EO. inversion R1 as [|k0 dz oz l0 d1' o1' R0 IN0 S0 EK ED EO]. subst d1'. clear EK EO. inversion R0 as [EK ED EO|]. subst dz.
  cbn [sg_step] in S0. apply obind_ok in S0. destruct S0 as [x0 [_ S0]]. injection S0 as <- _. cbn [sg_step] in S1. apply obind_ok in S1. destruct S1 as [m1 [_ S1]]. apply obind_ok in S1. destruct S1 as [x1 [_ S1]]. injection S1 as <- _.
  cbn [kept] in KP. destruct KP as (K1 & K2 & _). cbn [sg_step] in S2. apply obind_ok in S2. destruct S2 as [m2 [M2 S2]]. apply obind_ok in S2. destruct S2 as [x2 [X2 S2]]. injection S2 as <- _.
  cbn [sg_step] in S3. apply obind_ok in S3. destruct S3 as [m3 [_ S3]]. apply obind_ok in S3. destruct S3 as [x3 [X3 S3]]. injection S3 as <- _. exists (fst x3). split; [reflexivity|].
  unfold sg_r3 in X3. apply obind_ok in X3. destruct X3 as [u1 [_ X3]]. apply obind_ok in X3. destruct X3 as [u2 [_ X3]]. apply obind_ok in X3. destruct X3 as [u3 [_ X3]]. injection X3 as <-. cbn [fst s4_i s4_sl s4_mbs].
  unfold sg_r2 in X2. apply obind_ok in X2. destruct X2 as [v1 [_ X2]]. apply obind_ok in X2. destruct X2 as [v2 [_ X2]]. apply obind_ok in X2. destruct X2 as [v3 [_ X2]]. apply obind_ok in X2. destruct X2 as [v4 [_ X2]].
  destruct (sg_t _ _ _ _) as [tt0 tp]. injection X2 as <-. cbn [fst s3_i s3_sl s3_mbs]. split; [exact K1|]. split; [exact K2|].
  rewrite map_length, (omapM_len _ _ _ M2). pose proof (sg_inbox_len h 2 l2 I ltac:(lia) IN2). lia.
Qed.
Lemma map_eq_nth {A B T} (f : A -> T) (g : B -> T) l l' : length l = length l' -> (forall q a b, nth_error l q = Some a -> nth_error l' q = Some b -> f a = g b) -> map f l = map g l'.
Proof.
  revert l'. induction l as [|a l IH]; intros [|b l'] L H; try discriminate; [reflexivity|]. cbn [map]. rewrite (H 0 a b eq_refl eq_refl), (IH l'); [reflexivity|cbn in L; lia|]. intros q x y X Y. exact (H (S q) x y X Y).
Qed.

(** C112, signing: once the machine has put its opening (its round-4 message) out, the nonce point R is fixed: every way
    to go on that ends with a presignature ends with this point. *)
Theorem C112_nonce_fixed_when_opened h0 s0 rs0 m d0 :
  hist i sl lk h0 s0 rs0 -> In m (sent_by (sm_queue s0) rs0) -> m_body m = SM4 d0 ->
  exists R, forall h1 s1 rs1 c, hist i sl lk (h0 ++ h1) s1 rs1 -> picks rs1 = [c] -> co_R c = R.
Proof.
  intros H X B. destruct (sg_hist_run C Hb Hz Hf rd _ _ _ _ _ _ H) as [I _].
  destruct (sg_sent_runs _ _ _ m 3 H X) as [d [out [_ RR]]]; [rewrite B; reflexivity|].
  destruct (sg_shape4 h0 d out I RR) as [r [-> [A1 [A2 A3]]]].
  exists (smul (s4_dinv r) (padd (sd_g (s4_dec r)) (psum (map (fun mb => dp_pk (mb_b mb)) (s4_mbs r))))).
  intros h1 s1 rs1 c H1 P1. destruct (sg_picked_runs _ _ _ _ H1 P1) as [o7 R7].
  inversion R7 as [|k6 d6 o6 l6 d7 o7' R6 IN6 S6 EK ED EO]. subst d7. clear EK EO. inversion R6 as [|k5 d5 o5 l5 d6' o6' R5 IN5 S5 EK ED EO]. subst d6'. clear EK EO.
  inversion R5 as [|k4 d4 o4 l4 d5' o5' R4 IN4 S4 EK ED EO]. subst d5'. clear EK EO.
  destruct (runs_det _ _ _ _ _ _ (runs_app P D0 h0 h1 _ _ _ RR) _ _ R4) as [-> ->].
  cbn [sg_step] in S4. apply obind_ok in S4. destruct S4 as [m4 [M4 S4]]. apply obind_ok in S4. destruct S4 as [[s5 out4] [X4 S4]]. injection S4 as <- _.
  assert (L4 : length m4 = n - 1) by (rewrite (omapM_len _ _ _ M4); pose proof (sg_inbox_len _ 4 l4 I ltac:(lia) IN4); lia).
  destruct (C36_round4 C Hb Hz r rd m4 s5 out4) as [Q1 [_ [_ Q2]]]; [rewrite A1, A2; exact I|rewrite A2; exact L4|rewrite A2; exact A3|exact X4|].
  cbn [sg_step fst] in S5. apply obind_ok in S5. destruct S5 as [m5 [_ S5]]. apply obind_ok in S5. destruct S5 as [x5 [X5 S5]]. injection S5 as <- _.
  unfold sg_r5 in X5. apply obind_ok in X5. destruct X5 as [u1 [_ X5]]. apply obind_ok in X5. destruct X5 as [u2 [_ X5]]. destruct (sg_S _ _ _ _ _ _ _) as [Si pp]. injection X5 as <-.
  cbn [sg_step fst] in S6. apply obind_ok in S6. destruct S6 as [m6 [_ S6]]. apply obind_ok in S6. destruct S6 as [x6 [X6 S6]]. injection S6 as <- _.
  unfold sg_r6 in X6. apply obind_ok in X6. destruct X6 as [w1 [_ X6]]. apply obind_ok in X6. destruct X6 as [w2 [_ X6]]. injection X6 as <-. cbn [s6_out co_R].
  rewrite Q1. f_equal. f_equal. f_equal. apply map_eq_nth; [lia|]. intros q a b QA QB. destruct (Q2 q a b QA QB) as [E _]. congruence.
Qed.
End Sg.
Print Assumptions C112_offline_waits.
Print Assumptions C112_nonce_fixed_when_opened.

(** The first party's history in the runs of C27_machine_example and C66_example: how many calls were made, which messages
    (round, receiver) have been sent, how many results were picked. *)
Definition exkseen (h : list (op (kg_msg toy))) : list (nat * option nat) * nat :=
  match kg_new toy exHb exHf3 exck excd (exrs 0) 1 1 3 with
  | Ok s0 => let '(s, rs) := run_ops (kg_op toy exHb exHf3 exck excd (exrs 0)) s0 h in
             (map (fun m => (kg_of toy (m_body m), m_to m)) (sent_by (ks_queue s) rs), length (picks rs))
  | _ => ([], 0)
  end.
Definition exksent (k : nat) : kg_msg toy :=
  match kg_new toy exHb exHf3 exck excd (exrs 0) 1 1 3 with
  | Ok s0 => let '(s, rs) := run_ops (kg_op toy exHb exHf3 exck excd (exrs 0)) s0 exkhist in
             match find (fun m => kg_of toy (m_body m) =? k) (sent_by (ks_queue s) rs) with Some m => m_body m | None => KM2 {| kd_blind := 0; kd_y := pzero |} end
  | _ => KM2 {| kd_blind := 0; kd_y := pzero |}
  end.
Definition exsseen (h : list (op (sg_msg toy))) : list (nat * option nat) * nat :=
  match sg_new 1 [3; 1] (exlks 0) with
  | Ok s0 => let '(s, rs) := run_ops (sg_op toy exHb2 exH exHf2 (exsrs 0)) s0 h in
             (map (fun m => (sg_of toy (m_body m), m_to m)) (sent_by (sm_queue s) rs), length (picks rs))
  | _ => ([], 0)
  end.
(** The opening leaves with the fourth call (of 18) in key generation and with the eighth (of 19) in signing; both go on to
    a result.  With the third party's first two messages copied from the first party's, the third party is dealt a share. *)
Example C112_example :
  map (fun k => exkseen (firstn k exkhist)) [3; 4] = [([(1, None)], 0); ([(1, None); (2, None)], 0)] /\
  exkseen (exkhist ++ [Pick]) = ([(1, None); (2, None); (3, Some 2); (3, Some 3); (4, None)], 1) /\
  map (fun k => exsseen (firstn k (exhist1 6))) [7; 8] = [([(1, None); (2, Some 2)], 0); ([(1, None); (2, Some 2); (3, None); (4, None)], 0)] /\
  exsseen (exhist1 6 ++ [Pick]) = ([(1, None); (2, Some 2); (3, None); (4, None); (5, None); (6, None)], 1) /\
  exkseen (swapped (kg_of toy) kg_p2p 1 2 3 (exksent 2) (swapped (kg_of toy) kg_p2p 1 1 3 (exksent 1) exkhist) ++ repeat Proceed 6) =
    ([(1, None); (2, None); (3, Some 2); (3, Some 3)], 0).
Proof. vm_compute. repeat split. Qed.

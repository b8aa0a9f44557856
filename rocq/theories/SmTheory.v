(** Consequences of the invariant of SmProofs.v for histories of calls. *)
From Coq Require Import Arith Lia Bool List Permutation.
From Verif Require Import Outcome Mp MpProofs Stores RoundSM SmSpec SmProofs.
Import ListNotations.

(** Round failures reported along a history ([None]: a panic), and outputs handed over. *)
Definition failures {P B R} (rs : list (ret P B R)) : list (option P) :=
  flat_map (fun r => match r with RUnit (Err (EProceed e)) => [Some e] | RUnit Panic => [None] | _ => [] end) rs.
Definition picks {P B R} (rs : list (ret P B R)) : list R :=
  flat_map (fun r => match r with RPick (Some (Ok d)) => [d] | _ => [] end) rs.
Definition fail_of {P A} (o : outcome P A) : option P := match o with Err e => Some e | _ => None end.

Section Theory.
Context {P B R : Type} (p : params P B R) (d0 : R).
Notation K := (g_K p).
Notation me := (g_me p).
Notation n := (g_n p).
Hypothesis Hme : 1 <= me <= n.
Hypothesis Hof : forall b, 1 <= g_of p b <= K.
Hypothesis Hexp : forall k, g_exp p k = false -> 0 < k /\ g_again p (k - 1) = true.
Notation got := (got (g_of p) (g_p2p p) me).
Notation inb := (inbox (g_of p) (g_p2p p) me n).
Notation runs := (runs (g_step p) d0).
Notation fails := (fails p d0).
Notation Inv := (Inv p d0).
Notation Rest := (Rest p).
Notation fresh := (fresh p).
Notation run := (run_ops (g_op p) (g_init p d0)).

Lemma runs_ext h h' k d out : (forall k l, inb h k = Some l -> inb h' k = Some l) -> runs (inb h) k d out -> runs (inb h') k d out.
Proof. apply runs_mono. Qed.
Lemma fails_ext h h' out k o : (forall k l, inb h k = Some l -> inb h' k = Some l) -> fails h out k o -> fails h' out k o.
Proof.
  intros M [d [l [A1 [A2 [A3 A4]]]]]. exists d, l. split; [exact A1|]. split; [exact (runs_ext h h' _ _ _ M A2)|]. split; [exact (M _ _ A3)|exact A4].
Qed.
Lemma fails_det h out k o out' k' o' : fails h out k o -> fails h out' k' o' -> k' = k /\ out' = out /\ o' = o.
Proof.
  intros [d [l [A1 [A2 [A3 [A4 A5]]]]]] [d' [l' [A1' [A2' [A3' [A4' A5']]]]]].
  destruct (lt_eq_lt_dec k k') as [[L|E]|L].
  - exfalso. destruct (runs_below _ _ _ _ _ _ A2' k L) as [e [oute [le [e2 [oe [B1 [B2 B3]]]]]]].
    destruct (runs_det _ _ _ _ _ _ A2 _ _ B1) as [-> ->]. rewrite A3 in B2. injection B2 as <-. apply (A5 (e2, oe)). congruence.
  - subst k'. destruct (runs_det _ _ _ _ _ _ A2 _ _ A2') as [-> ->]. rewrite A3 in A3'. injection A3' as <-. split; [reflexivity|]. split; congruence.
  - exfalso. destruct (runs_below _ _ _ _ _ _ A2 k' L) as [e [oute [le [e2 [oe [B1 [B2 B3]]]]]]].
    destruct (runs_det _ _ _ _ _ _ A2' _ _ B1) as [-> ->]. rewrite A3' in B2. injection B2 as <-. apply (A5' (e2, oe)). congruence.
Qed.
Lemma fails_runs h out k o d out' : fails h out k o -> runs (inb h) (S K) d out' -> False.
Proof.
  intros [e [l [A1 [A2 [A3 [A4 A5]]]]]] H. destruct (runs_below _ _ _ _ _ _ H k (le_n_S _ _ A1)) as [e1 [oute [le [e2 [oe [B1 [B2 B3]]]]]]].
  destruct (runs_det _ _ _ _ _ _ A2 _ _ B1) as [-> ->]. rewrite A3 in B2. injection B2 as <-. apply (A5 (e2, oe)). congruence.
Qed.
Lemma fails_stuck h out k o d k' out' : fails h out k o -> runs (inb h) k' d out' -> inb h k' = None -> False.
Proof.
  intros [e [l [A1 [A2 [A3 [A4 A5]]]]]] H N. destruct (lt_eq_lt_dec k k') as [[L|E]|L].
  - destruct (runs_below _ _ _ _ _ _ H k L) as [e1 [oute [le [e2 [oe [B1 [B2 B3]]]]]]].
    destruct (runs_det _ _ _ _ _ _ A2 _ _ B1) as [-> ->]. rewrite A3 in B2. injection B2 as <-. apply (A5 (e2, oe)). congruence.
  - subst. congruence.
  - destruct (runs_below _ _ _ _ _ _ A2 k' L) as [e1 [oute [le [e2 [oe [B1 [B2 B3]]]]]]]. congruence.
Qed.
Lemma runs_stuck h k d out k' d' out' : runs (inb h) k d out -> inb h k = None -> runs (inb h) k' d' out' -> k' <= k.
Proof. intros H N H'. destruct (Nat.le_gt_cases k' k) as [L|L]; [exact L|]. destruct (runs_below _ _ _ _ _ _ H' k L) as [e1 [oute [le [e2 [oe [B1 [B2 B3]]]]]]]. congruence. Qed.

(** What has been reported so far determines why a machine is gone. *)
Definition LogInv (h : list (op B)) (rs : list (ret P B R)) (s : gstate B R) : Prop :=
  match gs_round s with
  | GGone => (failures rs = [] /\ exists d, picks rs = [d] /\ runs (inb h) (S K) d (drained rs ++ gs_queue s)) \/
             (picks rs = [] /\ exists k o, fails h (drained rs ++ gs_queue s) k o /\ failures rs = [fail_of o])
  | _ => failures rs = [] /\ picks rs = []
  end.

Lemma failures_app (a b : list (ret P B R)) : failures (a ++ b) = failures a ++ failures b. Proof. apply flat_map_app. Qed.
Lemma picks_app (a b : list (ret P B R)) : picks (a ++ b) = picks a ++ picks b. Proof. apply flat_map_app. Qed.
Lemma drained_app (a b : list (ret P B R)) : drained (a ++ b) = drained a ++ drained b. Proof. apply flat_map_app. Qed.

Lemma LogInv_gone h h' rs s s' rs' : gs_round s = GGone -> gs_round s' = GGone -> LogInv h rs s ->
  failures rs' = [] -> picks rs' = [] -> drained rs ++ gs_queue s = drained (rs ++ rs') ++ gs_queue s' -> LogInv (h ++ h') (rs ++ rs') s'.
Proof.
  unfold LogInv. intros G G' L F Q D. rewrite G in L. rewrite G'. rewrite failures_app, picks_app, F, Q, !app_nil_r, <- D.
  assert (M : forall k l, inb h k = Some l -> inb (h ++ h') k = Some l) by (intros k l; apply inbox_mono).
  destruct L as [[L1 [d [L2 L3]]]|[L1 [k [o [L2 L3]]]]]; [left; split; [exact L1|]; exists d; split; [exact L2|exact (runs_ext _ _ _ _ _ M L3)]|].
  right. split; [exact L1|]. exists k, o. split; [exact (fails_ext _ _ _ _ _ M L2)|exact L3].
Qed.

Lemma push_slot_nopanic {A} (st : store A) m : push_slot st m <> Panic.
Proof. unfold push_slot. destruct (_ =? _); [discriminate|]. destruct (nth_error _ _) as [[?|]|]; discriminate. Qed.
Lemma push_nopanic k st m : g_push p k st m <> Panic.
Proof.
  unfold g_push. destruct (g_p2p p k); [unfold push_p2p|unfold push_broadcast]; destruct (m_from m =? 0); try discriminate.
  - destruct (addr_eqb _ _); [apply push_slot_nopanic|discriminate].
  - destruct (m_to m); [discriminate|apply push_slot_nopanic].
Qed.
Lemma gone_op s o : gs_round s = GGone -> gs_round (fst (g_op p s o)) = GGone /\ failures [snd (g_op p s o)] = [] /\ picks [snd (g_op p s o)] = [] /\
  drained [snd (g_op p s o)] ++ gs_queue (fst (g_op p s o)) = gs_queue s.
Proof.
  intros G. destruct o as [m| | |]; cbn [g_op].
  - unfold g_handle. destruct (g_store s _) as [x|]; [|cbn; auto]. pose proof (push_nopanic (g_of p (m_body m)) x m) as NP.
    destruct (g_push p _ x m) as [x'|e|]; [|cbn; auto|contradiction].
    cbn [g_fuel g_proceed gs_round]. rewrite G. cbn. auto.
  - cbn [g_fuel g_proceed]. rewrite G. cbn. auto.
  - cbn. rewrite !app_nil_r. auto.
  - unfold g_pick. rewrite G. cbn. auto.
Qed.

Lemma op_log h rs s o : Inv h (drained rs) s -> Rest h s -> LogInv h rs s -> LogInv (h ++ [o]) (rs ++ [snd (g_op p s o)]) (fst (g_op p s o)).
Proof.
  intros I RS LI. assert (L : S K - g_current p s < g_fuel p) by (unfold g_fuel; lia).
  destruct (match gs_round s with GGone => true | _ => false end) eqn:GB.
  { assert (G : gs_round s = GGone) by (destruct (gs_round s); [discriminate|discriminate|reflexivity]).
    destruct (gone_op s o G) as [A1 [A2 [A3 A4]]]. apply (LogInv_gone h [o] rs s); auto. rewrite drained_app, <- app_assoc, A4. reflexivity. }
  assert (NG : gs_round s <> GGone) by (intros G; rewrite G in GB; discriminate).
  assert (FP : failures rs = [] /\ picks rs = []) by (unfold LogInv in LI; destruct (gs_round s); [exact LI|exact LI|discriminate]).
  destruct FP as [FF PP]. clear LI GB.
  assert (CONT : forall s' r, gs_round s' <> GGone -> failures [r] = [] -> picks [r] = [] -> LogInv (h ++ [o]) (rs ++ [r]) s').
  { intros s' r G' F' P'. unfold LogInv. rewrite failures_app, picks_app, FF, PP, F', P'. destruct (gs_round s'); [auto|auto|congruence]. }
  assert (FAIL : forall s' r k f, gs_round s' = GGone -> failures [r] = [fail_of f] -> picks [r] = [] -> drained [r] = [] ->
     fails (h ++ [o]) (drained rs ++ gs_queue s') k f -> LogInv (h ++ [o]) (rs ++ [r]) s').
  { intros s' r k f G' F' P' D' X. unfold LogInv. rewrite G', failures_app, picks_app, drained_app, FF, PP, F', P', D', (app_nil_r (drained rs)). right. split; [reflexivity|].
    exists k, f. split; [exact X|reflexivity]. }
  destruct o as [m| | |]; cbn [g_op].
  - destruct (fresh h m) eqn:F.
    + pose proof (handle_post p d0 Hme Hof h (drained rs) s m I RS F) as Q. destruct (g_handle p s m) as [s' r]. cbn [fst snd] in *.
      destruct Q as [[-> Q]|[G [k [[-> Q]|[pe [-> Q]]]]]].
      * apply CONT; [|reflexivity|reflexivity]. intros G. destruct (Q G) as [Q1 _]. contradiction.
      * apply (FAIL _ _ k Panic); auto.
      * apply (FAIL _ _ k (Err pe)); auto.
    + destruct (stale_same p d0 Hme Hof h (drained rs) s m I RS F) as [E Q]. destruct (g_handle p s m) as [s' r]. cbn [fst snd] in *. subst s'.
      destruct Q as [[-> _]|[[e ->]|[-> _]]]; apply CONT; auto.
  - destruct (proceed_inv p d0 Hme h (drained rs) true _ s I L) as [A1 [A2 A3]]. destruct (g_proceed p (g_fuel p) true s) as [s' r]. cbn [fst snd post] in *.
    assert (M : forall k l, inb h k = Some l -> inb (h ++ [Proceed]) k = Some l) by (intros k l; apply inbox_mono).
    destruct r as [[]|e|]; cbn [post] in A3.
    + apply CONT; [|reflexivity|reflexivity]. intros G. rewrite (A3 G) in G. contradiction.
    + destruct A3 as [G [k [pe [-> Q]]]]. apply (FAIL _ _ k (Err pe)); auto. exact (fails_ext _ _ _ _ _ M Q).
    + destruct A3 as [G [k Q]]. apply (FAIL _ _ k Panic); auto. exact (fails_ext _ _ _ _ _ M Q).
  - cbn [g_drain fst snd]. apply CONT; [exact NG|reflexivity|reflexivity].
  - unfold g_pick. pose proof (inv_round _ _ _ _ _ I) as IR. destruct (gs_round s) as [k d|d|] eqn:G; cbn [fst snd]; [|clear CONT|contradiction].
    + apply CONT; [rewrite G; discriminate|reflexivity|reflexivity].
    + unfold LogInv. cbn [gs_round gs_queue]. rewrite failures_app, picks_app, drained_app, FF, PP. left. split; [reflexivity|]. exists d. split; [reflexivity|].
      cbn [drained flat_map]. rewrite app_nil_r. apply (runs_ext h); [|exact IR]. intros k l. apply inbox_mono.
Qed.

Theorem run_all h : let '(s, rs) := run h in Inv h (drained rs) s /\ Rest h s /\ LogInv h rs s.
Proof.
  induction h as [|o h IH] using rev_ind.
  - cbn [run_ops]. destruct (init_inv p d0 Hme Hexp) as [A1 A2]. split; [exact A1|]. split; [exact A2|]. split; reflexivity.
  - rewrite run_ops_app. destruct (run h) as [s rs]. destruct IH as [I [RS LI]]. cbn [fst snd run_ops].
    pose proof (op_inv p d0 Hme Hof Hexp h (drained rs) s o I RS) as [A1 [A2 _]]. pose proof (op_log h rs s o I RS LI) as A3.
    destruct (g_op p s o) as [s' r]. cbn [fst snd] in *. split; [|split; [exact A2|exact A3]].
    rewrite drained_app. cbn [drained flat_map]. rewrite app_nil_r. exact A1.
Qed.

(** ** Consequences *)
Definition sent (s : gstate B R) (rs : list (ret P B R)) : list (msg B) := drained rs ++ gs_queue s.

Lemma run_extends h1 h2 : fst (run (h1 ++ h2)) = fst (run_ops (g_op p) (fst (run h1)) h2) /\
  snd (run (h1 ++ h2)) = snd (run h1) ++ snd (run_ops (g_op p) (fst (run h1)) h2).
Proof. rewrite run_ops_app. split; reflexivity. Qed.

(** Order does not matter *)
Lemma quiet_same h1 h2 : (forall k, inb h1 k = inb h2 k) -> picks (snd (run h1)) = [] -> picks (snd (run h2)) = [] ->
  g_wants_to_proceed (fst (run h1)) = false -> g_wants_to_proceed (fst (run h2)) = false ->
  gs_round (fst (run h1)) = gs_round (fst (run h2)) /\ sent (fst (run h1)) (snd (run h1)) = sent (fst (run h2)) (snd (run h2)) /\
  failures (snd (run h1)) = failures (snd (run h2)).
Proof.
  intros E P1 P2 W1 W2. pose proof (run_all h1) as A1. pose proof (run_all h2) as A2. destruct (run h1) as [s1 r1]. destruct (run h2) as [s2 r2].
  cbn [fst snd] in *. destruct A1 as [I1 [_ L1]]. destruct A2 as [I2 [_ L2]].
  assert (M : forall k l, inb h2 k = Some l -> inb h1 k = Some l) by (intros k l; rewrite E; auto).
  pose proof (inv_round _ _ _ _ _ I1) as Q1. pose proof (inv_round _ _ _ _ _ I2) as Q2. unfold sent.
  assert (STK : forall h dr s k d, Inv h dr s -> gs_round s = GRun k d -> g_wants_to_proceed s = false -> inb h k = None).
  { intros h dr s k d I G W. unfold g_wants_to_proceed in W. rewrite G, (wants_inbox p d0 Hme h dr s k d I G) in W. destruct (inb h k); [discriminate|reflexivity]. }
  unfold LogInv in L1, L2.
  destruct (gs_round s1) as [k1 d1|d1|] eqn:G1; destruct (gs_round s2) as [k2 d2|d2|] eqn:G2.
  - destruct Q1 as [_ [Q1 _]]. destruct Q2 as [_ [Q2 _]]. apply (runs_ext h2 h1) in Q2; [|exact M].
    pose proof (STK _ _ _ _ _ I1 G1 W1) as N1. pose proof (STK _ _ _ _ _ I2 G2 W2) as N2. rewrite <- E in N2.
    pose proof (runs_stuck _ _ _ _ _ _ _ Q1 N1 Q2). pose proof (runs_stuck _ _ _ _ _ _ _ Q2 N2 Q1). assert (k1 = k2) by lia. subst k2.
    destruct (runs_det _ _ _ _ _ _ Q1 _ _ Q2) as [-> ->]. destruct L1 as [-> _]. destruct L2 as [-> _]. auto.
  - exfalso. destruct Q1 as [K1 [Q1 _]]. apply (runs_ext h2 h1) in Q2; [|exact M]. pose proof (runs_stuck _ _ _ _ _ _ _ Q1 (STK _ _ _ _ _ I1 G1 W1) Q2). lia.
  - exfalso. destruct Q1 as [K1 [Q1 _]]. destruct L2 as [[_ [d [X _]]]|[_ [k [o [X _]]]]]; [congruence|].
    apply (fails_ext h2 h1) in X; [|exact M]. exact (fails_stuck _ _ _ _ _ _ _ X Q1 (STK _ _ _ _ _ I1 G1 W1)).
  - exfalso. destruct Q2 as [K1 [Q2 _]]. apply (runs_ext h2 h1) in Q2; [|exact M]. pose proof (STK _ _ _ _ _ I2 G2 W2) as N2. rewrite <- E in N2.
    pose proof (runs_stuck _ _ _ _ _ _ _ Q2 N2 Q1). lia.
  - apply (runs_ext h2 h1) in Q2; [|exact M]. destruct (runs_det _ _ _ _ _ _ Q1 _ _ Q2) as [-> ->]. destruct L1 as [-> _]. destruct L2 as [-> _]. auto.
  - exfalso. destruct L2 as [[_ [d [X _]]]|[_ [k [o [X _]]]]]; [congruence|]. apply (fails_ext h2 h1) in X; [|exact M]. exact (fails_runs _ _ _ _ _ _ X Q1).
  - exfalso. destruct L1 as [[_ [d [X _]]]|[_ [k [o [X _]]]]]; [congruence|]. destruct Q2 as [K1 [Q2 _]]. apply (runs_ext h2 h1) in Q2; [|exact M].
    pose proof (STK _ _ _ _ _ I2 G2 W2) as N2. rewrite <- E in N2. exact (fails_stuck _ _ _ _ _ _ _ X Q2 N2).
  - exfalso. destruct L1 as [[_ [d [X _]]]|[_ [k [o [X _]]]]]; [congruence|]. apply (runs_ext h2 h1) in Q2; [|exact M]. exact (fails_runs _ _ _ _ _ _ X Q2).
  - destruct L1 as [[_ [d [X _]]]|[_ [k [o [X F1]]]]]; [congruence|]. destruct L2 as [[_ [d [Y _]]]|[_ [k' [o' [Y F2]]]]]; [congruence|].
    apply (fails_ext h2 h1) in Y; [|exact M]. destruct (fails_det _ _ _ _ _ _ _ X Y) as [_ [-> ->]]. rewrite F1, F2. auto.
Qed.

(** Only the proper messages count, in any order *)
Definition counts (m : msg B) : bool :=
  addressed_ok (g_of p) (g_p2p p) me m && (1 <=? m_from m) && (m_from m <=? n) && negb (m_from m =? me).
Definition tag (m : msg B) : nat * nat := (g_of p (m_body m), m_from m).

Lemma got_counts h k j : In j (peers me n) -> got h k j = option_map m_body (find (proper (g_of p) (g_p2p p) me k j) (filter counts (deliveries h))).
Proof.
  intros J. unfold SmSpec.got. apply f_equal. induction (deliveries h) as [|m l IH]; [reflexivity|]. cbn [find filter].
  destruct (proper (g_of p) (g_p2p p) me k j m) eqn:Q.
  - pose proof (proper_round p Hme k j m Q) as [Q1 [Q2 Q3]]. apply (in_peers me n Hme) in J. unfold counts. rewrite Q3, Q2.
    destruct (Nat.leb_spec 1 j); [|lia]. destruct (Nat.leb_spec j n); [|lia]. destruct (Nat.eqb_spec j me); [lia|]. cbn [andb negb find]. rewrite Q. reflexivity.
  - destruct (counts m); cbn [find]; [rewrite Q|]; exact IH.
Qed.
Lemma find_perm k j (l l' : list (msg B)) : Permutation l l' -> NoDup (map tag l) -> find (proper (g_of p) (g_p2p p) me k j) l = find (proper (g_of p) (g_p2p p) me k j) l'.
Proof.
  intros E. induction E as [|x l l' E IH|x y l|l1 l2 l3 E1 IH1 E2 IH2]; intros ND; [reflexivity| | |].
  - cbn [find]. inversion ND; subst. rewrite IH by assumption. reflexivity.
  - cbn [find]. destruct (proper (g_of p) (g_p2p p) me k j x) eqn:X; [|reflexivity]. destruct (proper (g_of p) (g_p2p p) me k j y) eqn:Y; [|reflexivity].
    exfalso. apply (proper_round p Hme) in X. apply (proper_round p Hme) in Y. cbn [map] in ND. inversion ND as [|? ? N _]; subst. apply N. left.
    unfold tag. destruct X as [X1 [X2 _]]. destruct Y as [Y1 [Y2 _]]. congruence.
  - rewrite IH1 by exact ND. apply IH2. apply (Permutation_NoDup (Permutation_map tag E1) ND).
Qed.
Lemma inb_perm h1 h2 : Permutation (filter counts (deliveries h1)) (filter counts (deliveries h2)) -> NoDup (map tag (filter counts (deliveries h1))) ->
  forall k, inb h1 k = inb h2 k.
Proof.
  intros E ND k. apply inb_ext. intros j J. rewrite !got_counts by exact J. apply f_equal. apply find_perm; assumption.
Qed.

(** Failure is final *)
Lemma failed_final h1 h2 : failures (snd (run h1)) <> [] ->
  gs_round (fst (run (h1 ++ h2))) = GGone /\ picks (snd (run (h1 ++ h2))) = [] /\ failures (snd (run (h1 ++ h2))) = failures (snd (run h1)) /\
  sent (fst (run (h1 ++ h2))) (snd (run (h1 ++ h2))) = sent (fst (run h1)) (snd (run h1)).
Proof.
  intros F. induction h2 as [|o h2 IH] using rev_ind.
  - rewrite app_nil_r. pose proof (run_all h1) as A. destruct (run h1) as [s rs]. destruct A as [_ [_ L]]. cbn [fst snd] in *. unfold LogInv in L.
    destruct (gs_round s); [destruct L; contradiction|destruct L; contradiction|]. destruct L as [[L _]|[L _]]; [contradiction|auto].
  - rewrite app_assoc. destruct (run_extends (h1 ++ h2) [o]) as [E1 E2]. rewrite E1, E2. destruct (run (h1 ++ h2)) as [s rs]. cbn [fst snd run_ops] in *.
    destruct IH as [G [PK [FL SN]]]. pose proof (gone_op s o G) as Q. destruct (g_op p s o) as [s' r]. cbn [fst snd] in *. destruct Q as [Q1 [Q2 [Q3 Q4]]].
    split; [exact Q1|]. rewrite picks_app, failures_app, PK, FL, Q2, Q3, !app_nil_r. split; [reflexivity|]. split; [reflexivity|].
    rewrite <- SN. unfold sent. rewrite drained_app, <- app_assoc, Q4. reflexivity.
Qed.

(** pick_output *)
Lemma pick_spec h : let s := fst (run h) in let rs := snd (run h) in
  (g_pick s = (s, None : option (outcome (sm_error P) R)) /\ (exists k d, gs_round s = GRun k d) /\ failures rs = [] /\ picks rs = []) \/
  (exists d, gs_round s = GFinal d /\ snd (g_pick s) = Some (Ok d : outcome (sm_error P) R) /\ failures rs = [] /\ picks rs = []) \/
  (g_pick s = (s, Some (Err EDoublePick) : option (outcome (sm_error P) R)) /\ gs_round s = GGone /\ (failures rs <> [] /\ picks rs = [] \/ failures rs = [] /\ length (picks rs) = 1)).
Proof.
  cbn zeta. pose proof (run_all h) as A. destruct (run h) as [s rs]. destruct A as [_ [_ L]]. cbn [fst snd]. unfold LogInv in L. unfold g_pick.
  destruct (gs_round s) as [k d|d|] eqn:G.
  - left. destruct L. eauto 6.
  - right. left. exists d. destruct L. auto.
  - right. right. split; [reflexivity|]. split; [reflexivity|]. destruct L as [[L1 [d [L2 _]]]|[L1 [k [o [_ L2]]]]].
    + right. rewrite L2. auto.
    + left. rewrite L2. split; [discriminate|exact L1].
Qed.

(** Rounds only move forward *)
Lemma current_mono h1 h2 : g_current p (fst (run h1)) <= g_current p (fst (run (h1 ++ h2))).
Proof.
  induction h2 as [|o h2 IH] using rev_ind; [rewrite app_nil_r; lia|]. rewrite app_assoc. destruct (run_extends (h1 ++ h2) [o]) as [E1 _]. rewrite E1.
  pose proof (run_all (h1 ++ h2)) as A. destruct (run (h1 ++ h2)) as [s rs]. destruct A as [I [RS _]]. cbn [fst run_ops] in *.
  pose proof (op_inv p d0 Hme Hof Hexp _ _ s o I RS) as [_ [_ Q]]. destruct (g_op p s o) as [s' r]. cbn [fst] in *. lia.
Qed.

(** wants_to_proceed *)
Lemma wants_proceed h : let s := fst (run h) in
  (g_wants_to_proceed s = true -> g_current p s < g_current p (fst (g_proceed p (g_fuel p) true s))) /\
  (g_wants_to_proceed s = false -> g_proceed p (g_fuel p) true s = (s, Ok tt)).
Proof.
  cbn zeta. pose proof (run_all h) as A. destruct (run h) as [s rs]. destruct A as [I _]. cbn [fst]. unfold g_wants_to_proceed. cbn [g_fuel g_proceed].
  destruct (gs_round s) as [k d|d|] eqn:G; [|split; [discriminate|reflexivity]|split; [discriminate|reflexivity]].
  pose proof (inv_round _ _ _ _ _ I) as Q. rewrite G in Q. destruct Q as [Q1 _].
  split; intros W; [|rewrite W; reflexivity]. rewrite W. rewrite orb_true_r. cbn [andb].
  rewrite (wants_inbox p d0 Hme h _ s k d I G) in W. destruct (inb h k) as [l|] eqn:N; [|discriminate].
  assert (CU : g_current p s = k) by (unfold g_current; rewrite G; reflexivity).
  rewrite (exec_inbox p d0 Hme h _ s k d l I G N). destruct (g_step p k d l) as [[d' out]|pe|] eqn:ST; cbn [omap_err].
  - pose proof (exec_ok p d0 Hme h _ s k d l d' out I G N ST) as I'. set (s'' := Build_gstate _ _ _) in *.
    assert (CN : g_current p s'' = S k) by (unfold g_current, s'', g_next; cbn [gs_round]; destruct (Nat.eqb_spec k K) as [->|]; reflexivity).
    destruct (g_again p k); [|cbn [fst]; lia]. assert (LL : S K - g_current p s'' < S K) by lia.
    destruct (proceed_inv p d0 Hme h _ true _ s'' I' LL) as [_ [Q2 _]]. cbn [g_proceed] in Q2. lia.
  - cbn [fst]. unfold g_current at 2. rewrite take_round. lia.
  - cbn [fst]. unfold g_current at 2. rewrite take_round. lia.
Qed.

(** round_blame *)
Lemma blame_slots (f : nat -> option B) : forall (l : list nat) (s : store B), s_me s = me -> s_slots s = map f (peers me n) ->
  store_blame s = (length (filter (fun j => match f j with None => true | _ => false end) (peers me n)), filter (fun j => match f j with None => true | _ => false end) (peers me n)).
Proof.
  intros _ s E1 E2. unfold store_blame. rewrite E1, E2, map_length.
  assert (Q : forall l k, (forall i, i < length l -> nth_error l i = Some (if k + i <? me - 1 then k + i + 1 else k + i + 2)) ->
     flat_map (fun '(i, o) => match o with None => [if i <? me - 1 then i + 1 else i + 2] | Some _ => [] end) (combine (seq k (length l)) (map f l))
     = filter (fun j => match f j with None => true | _ => false end) l).
  { induction l as [|a l IH]; intros k H; [reflexivity|]. cbn [length seq map combine flat_map filter].
    rewrite (IH (S k)).
    - pose proof (H 0 (Nat.lt_0_succ _)) as H0. cbn [nth_error] in H0. injection H0 as H0. rewrite Nat.add_0_r in H0. rewrite <- H0.
      destruct (f a); reflexivity.
    - intros i Hi. specialize (H (S i) (proj1 (Nat.succ_lt_mono _ _) Hi)). cbn [nth_error] in H. rewrite H. replace (k + S i) with (S k + i) by lia. reflexivity. }
  rewrite Q; [reflexivity|]. intros i Hi. rewrite (peers_length me n Hme) in Hi. rewrite (nth_peers me n Hme) by exact Hi. reflexivity.
Qed.
Lemma blame_spec h : let s := fst (run h) in forall k d, gs_round s = GRun k d -> 0 < k ->
  g_blame s = (length (missing (g_of p) (g_p2p p) me n h k), missing (g_of p) (g_p2p p) me n h k).
Proof.
  cbn zeta. intros k d G L. pose proof (run_all h) as A. destruct (run h) as [s rs]. destruct A as [I _]. cbn [fst] in *. unfold g_blame. rewrite G.
  destruct k as [|k]; [lia|]. pose proof (inv_round _ _ _ _ _ I) as Q. rewrite G in Q. destruct Q as [Q1 [_ Q2]].
  pose proof (inv_stores _ _ _ _ _ I (S k) (conj L Q1)) as T. destruct (g_store s (S k)) as [x|] eqn:X; [|apply Q2 in X; lia].
  destruct T as [T1 [T2 _]]. cbn [blame_opt]. apply (blame_slots _ []); assumption.
Qed.

Lemma finished_blame h : let s := fst (run h) in forall d, gs_round s = GFinal d -> 0 < K -> blame_opt (g_store s K) = (0, []).
Proof.
  cbn zeta. intros d G L. pose proof (run_all h) as A. destruct (run h) as [s rs]. destruct A as [I _]. cbn [fst] in *.
  pose proof (inv_round _ _ _ _ _ I) as Q. rewrite G in Q. pose proof (inv_stores _ _ _ _ _ I K (conj L (le_n _))) as T.
  destruct (g_store s K) as [x|]; [|reflexivity]. destruct T as [T1 [T2 _]]. cbn [blame_opt]. rewrite (blame_slots _ [] x T1 T2).
  destruct (runs_below _ _ _ _ _ _ Q K (le_n _)) as [e1 [oute [le [e2 [oe [_ [B2 _]]]]]]].
  assert (N : forall j, In j (peers me n) -> got h K j <> None).
  { intros j J. unfold inbox in B2. destruct (Nat.eqb_spec K 0) as [?ZE|?ZN]; [lia|]. apply all_some_iff in B2. intros X.
    assert (In None (map (got h K) (peers me n))) as Y by (rewrite <- X; apply in_map; exact J).
    rewrite B2 in Y. apply in_map_iff in Y. destruct Y as [? [? _]]. discriminate. }
  assert (Z : filter (fun j => match got h K j with None => true | Some _ => false end) (peers me n) = []).
  { revert N. generalize (peers me n). induction l as [|j l IH]; intros N; [reflexivity|]. cbn. pose proof (N j (or_introl eq_refl)) as N0.
    destruct (got h K j); [|contradiction]. apply IH. intros i X. apply N. right. exact X. }
  rewrite Z. reflexivity.
Qed.

(** Every failure is a failure of a round; nothing internal goes wrong. *)
Lemma op_results h o : match snd (g_op p (fst (run h)) o) with
  | RUnit (Ok _) => True
  | RUnit (Err (EProceed pe)) => exists k out, fails (h ++ [o]) out k (Err pe)
  | RUnit (Err (EHandle _)) | RUnit (Err (EOutOfOrder _ _)) => exists m, o = Deliver m /\ fresh h m = false
  | RUnit (Err _) => False
  | RUnit Panic => exists k out, fails (h ++ [o]) out k Panic
  | RMsgs _ => o = Drain
  | RPick _ => o = Pick
  end.
Proof.
  pose proof (run_all h) as A. destruct (run h) as [s rs]. destruct A as [I [RS _]]. cbn [fst]. destruct o as [m| | |]; cbn [g_op].
  - destruct (fresh h m) eqn:F.
    + pose proof (handle_post p d0 Hme Hof h (drained rs) s m I RS F) as Q. destruct (g_handle p s m) as [s' r]. cbn [fst snd] in *.
      destruct Q as [[-> Q]|[G [k [[-> Q]|[pe [-> Q]]]]]]; [exact Logic.I|eauto|eauto].
    + destruct (stale_same p d0 Hme Hof h (drained rs) s m I RS F) as [E Q]. destruct (g_handle p s m) as [s' r]. cbn [fst snd] in *.
      destruct Q as [[-> _]|[[e ->]|[-> _]]]; [eauto|eauto|exact Logic.I].
  - assert (L : S K - g_current p s < g_fuel p) by (unfold g_fuel; lia).
    destruct (proceed_inv p d0 Hme h (drained rs) true _ s I L) as [A1 [A2 A3]]. destruct (g_proceed p (g_fuel p) true s) as [s' r]. cbn [fst snd post] in *.
    assert (M : forall k l, inb h k = Some l -> inb (h ++ [Proceed]) k = Some l) by (intros k l; apply inbox_mono).
    destruct r as [[]|e|]; cbn [post] in A3; [exact Logic.I| |].
    + destruct A3 as [G [k [pe [-> Q]]]]. exists k. eexists. exact (fails_ext _ _ _ _ _ M Q).
    + destruct A3 as [G [k Q]]. exists k. eexists. exact (fails_ext _ _ _ _ _ M Q).
  - reflexivity.
  - destruct (g_pick s). reflexivity.
Qed.

(** Two completed histories with the same proper messages picked the same output and sent the same messages. *)
Lemma picked_same h1 h2 d1 d2 : (forall k, inb h1 k = inb h2 k) -> In d1 (picks (snd (run h1))) -> In d2 (picks (snd (run h2))) ->
  d1 = d2 /\ sent (fst (run h1)) (snd (run h1)) = sent (fst (run h2)) (snd (run h2)).
Proof.
  intros E I1 I2. pose proof (run_all h1) as A1. pose proof (run_all h2) as A2. destruct (run h1) as [s1 r1]. destruct (run h2) as [s2 r2].
  cbn [fst snd] in *. destruct A1 as [_ [_ L1]]. destruct A2 as [_ [_ L2]]. unfold LogInv in L1, L2.
  assert (M : forall k l, inb h2 k = Some l -> inb h1 k = Some l) by (intros k l; rewrite E; auto).
  destruct (gs_round s1); [destruct L1 as [_ L1]; rewrite L1 in I1; destruct I1|destruct L1 as [_ L1]; rewrite L1 in I1; destruct I1|].
  destruct (gs_round s2); [destruct L2 as [_ L2]; rewrite L2 in I2; destruct I2|destruct L2 as [_ L2]; rewrite L2 in I2; destruct I2|].
  destruct L1 as [[_ [e1 [P1 Q1]]]|[P1 _]]; [|rewrite P1 in I1; destruct I1]. destruct L2 as [[_ [e2 [P2 Q2]]]|[P2 _]]; [|rewrite P2 in I2; destruct I2].
  rewrite P1 in I1. rewrite P2 in I2. destruct I1 as [<-|[]]. destruct I2 as [<-|[]]. apply (runs_ext h2 h1) in Q2; [|exact M].
  destruct (runs_det _ _ _ _ _ _ Q1 _ _ Q2) as [-> Q]. split; [reflexivity|]. unfold sent. symmetry. exact Q.
Qed.

(** Everything sent follows a fixed pattern, when the rounds do. *)
Definition mtag (m : msg B) : nat * nat * option nat := (m_from m, g_of p (m_body m), m_to m).
Lemma runs_tags (good : nat -> R -> Prop) (tags : nat -> list (nat * nat * option nat)) : good 0 d0 ->
  (forall k d l d' o, k <= K -> good k d -> g_step p k d l = Ok (d', o) -> good (S k) d' /\ map mtag o = tags k) ->
  forall inbx k d out, SmSpec.runs (g_step p) d0 inbx k d out -> k <= S K -> good k d /\ map mtag out = flat_map tags (seq 0 k).
Proof.
  intros G0 GS inbx k d out H. induction H as [|k d out l d' o H IH HI ST]; intros L; [split; [exact G0|reflexivity]|].
  destruct (IH (Nat.lt_le_incl _ _ L)) as [A1 A2]. destruct (GS k d l d' o (le_S_n _ _ L) A1 ST) as [B1 B2]. split; [exact B1|].
  rewrite map_app, A2, B2, seq_S, flat_map_app. cbn [flat_map plus]. rewrite app_nil_r. reflexivity.
Qed.
Lemma sent_tags (good : nat -> R -> Prop) (tags : nat -> list (nat * nat * option nat)) : good 0 d0 ->
  (forall k d l d' o, k <= K -> good k d -> g_step p k d l = Ok (d', o) -> good (S k) d' /\ map mtag o = tags k) ->
  forall h, exists k, k <= g_current p (fst (run h)) /\ map mtag (sent (fst (run h)) (snd (run h))) = flat_map tags (seq 0 k) /\
    (failures (snd (run h)) = [] -> k = g_current p (fst (run h))).
Proof.
  intros G0 GS h. pose proof (run_all h) as A. destruct (run h) as [s rs]. destruct A as [I [_ L]]. cbn [fst snd]. pose proof (inv_round _ _ _ _ _ I) as Q.
  unfold sent, g_current, LogInv in *. destruct (gs_round s) as [k d|d|] eqn:G.
  - destruct Q as [Q1 [Q2 _]]. exists k. split; [lia|]. split; [|reflexivity]. apply (runs_tags good tags G0 GS _ _ _ _ Q2). lia.
  - exists (S K). split; [lia|]. split; [|reflexivity]. apply (runs_tags good tags G0 GS _ _ _ _ Q). lia.
  - destruct L as [[L1 [d [_ L2]]]|[_ [k [o [[e [l [X1 [X2 _]]]] L2]]]]].
    + exists (S K). split; [lia|]. split; [|reflexivity]. apply (runs_tags good tags G0 GS _ _ _ _ L2). lia.
    + exists k. split; [lia|]. split; [|intros N; rewrite N in L2; discriminate]. apply (runs_tags good tags G0 GS _ _ _ _ X2). lia.
Qed.

(** Which error a message that is not accepted gets *)
Lemma handle_out_of_order h s m c r : s = fst (run h) -> snd (g_handle p s m) = Err (EOutOfOrder c r) ->
  c = g_current p s /\ r = g_rep p (g_of p (m_body m)) /\ g_store s (g_of p (m_body m)) = None.
Proof.
  intros -> E. pose proof (run_all h) as A. destruct (run h) as [s rs]. cbn [fst] in *. destruct A as [I [RS _]].
  destruct (fresh h m) eqn:F.
  - destruct (handle_post p d0 Hme Hof h (drained rs) s m I RS F) as [[Q _]|[_ [k [[Q _]|[pe [Q _]]]]]]; rewrite Q in E; discriminate.
  - destruct (stale_same p d0 Hme Hof h (drained rs) s m I RS F) as [_ [[Q N]|[[e Q]|[Q _]]]]; rewrite Q in E; [|discriminate|discriminate].
    injection E as <- <-. auto.
Qed.
Lemma fresh_ok h m : fresh h m = true -> match snd (g_handle p (fst (run h)) m) with Err (EProceed _) | Ok _ | Panic => True | Err _ => False end.
Proof.
  intros F. pose proof (run_all h) as A. destruct (run h) as [s rs]. cbn [fst] in *. destruct A as [I [RS _]].
  destruct (handle_post p d0 Hme Hof h (drained rs) s m I RS F) as [[Q _]|[_ [k [[Q _]|[pe [Q _]]]]]]; rewrite Q; exact Logic.I.
Qed.
Lemma stale_op h m : fresh h m = false -> fst (g_handle p (fst (run h)) m) = fst (run h) /\
  ((exists c r, snd (g_handle p (fst (run h)) m) = Err (EOutOfOrder c r)) \/ (exists e, snd (g_handle p (fst (run h)) m) = Err (EHandle e)) \/
   snd (g_handle p (fst (run h)) m) = Ok tt /\ m_from m = me).
Proof.
  intros F. pose proof (run_all h) as A. destruct (run h) as [s rs]. cbn [fst] in *. destruct A as [I [RS _]].
  destruct (stale_same p d0 Hme Hof h (drained rs) s m I RS F) as [Q1 [[Q N]|[Q|Q]]]; split; eauto.
Qed.
Lemma store_gone h k : 1 <= k <= K -> (exists r d, gs_round (fst (run h)) = GRun r d) -> (g_store (fst (run h)) k = None <-> k < g_current p (fst (run h))).
Proof.
  intros L [r [d E]]. pose proof (run_all h) as A. destruct (run h) as [s rs]. cbn [fst] in *. destruct A as [I _].
  pose proof (inv_round _ _ _ _ _ I) as Q. rewrite E in Q. unfold g_current. rewrite E. apply Q. exact L.
Qed.
End Theory.

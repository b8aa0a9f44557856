(** Honest machines: what each of them does is determined whatever the histories of calls, provided every message
    delivered was sent by one of them; and once everything sent has been delivered they have all finished. *)
From Coq Require Import Arith Lia Bool List Permutation.
From Verif Require Import Outcome Mp MpProofs Stores RoundSM SmSpec SmProofs SmTheory SmTags Network NetLog.
Import ListNotations.

Section Honest.
Context {P B R : Type} (n K : nat) (of : B -> nat) (p2p : nat -> bool) (pp : nat -> params P B R).
Hypothesis HK : forall i, g_K (pp i) = K.
Hypothesis Hme : forall i, g_me (pp i) = i.
Hypothesis Hn : forall i, g_n (pp i) = n.
Hypothesis Hofe : forall i, g_of (pp i) = of.
Hypothesis Hpe : forall i, g_p2p (pp i) = p2p.
Hypothesis Hof : forall b, 1 <= of b <= K.
Hypothesis Hexp : forall i k, g_exp (pp i) k = false -> 0 < k /\ g_again (pp i) (k - 1) = true.
(** The honest execution: data of party i at round k, body of the round-k message from j to i *)
Context (D : nat -> nat -> R) (body : nat -> nat -> nat -> B).
Hypothesis Hbody : forall k j i, 1 <= k <= K -> of (body k j i) = k.
Hypothesis Hbc : forall k j i, p2p k = false -> body k j i = body k j 0.
Definition mo (j k : nat) : list (msg B) :=
  if (k =? K) then []
  else if p2p (S k) then map (fun i => {| m_from := j; m_to := Some i; m_body := body (S k) j i |}) (peers j n)
  else [{| m_from := j; m_to := None; m_body := body (S k) j 0 |}].
Definition inp (i k : nat) : list B := if (k =? 0) then [] else map (fun j => body k j i) (peers i n).
Hypothesis Hstep : forall i k, 1 <= i <= n -> k <= K -> g_step (pp i) k (D i k) (inp i k) = Ok (D i (S k), mo i k).
(** Whatever the inputs, step k of party i sends round k+1 messages in the name of i. *)
Context (good : nat -> nat -> R -> Prop).
Hypothesis Hgood0 : forall i, 1 <= i <= n -> good i 0 (D i 0).
Hypothesis Hgood : forall i k d l d' o, 1 <= i <= n -> k <= K -> good i k d -> g_step (pp i) k d l = Ok (d', o) ->
  good i (S k) d' /\ forall m, In m o -> m_from m = i /\ of (m_body m) = S k.

Notation run i := (run_ops (g_op (pp i)) (g_init (pp i) (D i 0))).
Notation inb i := (inbox of p2p i n).
Notation runs i := (runs (g_step (pp i)) (D i 0)).
Definition sent_of (H : nat -> list (op B)) (j : nat) : list (msg B) := sent (fst (run j (H j))) (snd (run j (H j))).

Lemma mo_spec j k m : In m (mo j k) -> m_from m = j /\ k <> K /\ (forall i, In i (receivers n j m) -> m_body m = body (S k) j i /\ m_to m = (if p2p (S k) then Some i else None)).
Proof.
  unfold mo. destruct (Nat.eqb_spec k K) as [E|E]; [contradiction|]. destruct (p2p (S k)) eqn:Q.
  - rewrite in_map_iff. intros [i [<- I]]. cbn. split; [reflexivity|]. split; [exact E|]. intros i' [<-|[]]. split; reflexivity.
  - intros [<-|[]]. cbn. split; [reflexivity|]. split; [exact E|]. intros i _. split; [symmetry; apply Hbc; exact Q|reflexivity].
Qed.
Lemma mo_has j k i : k < K -> 1 <= j <= n -> 1 <= i <= n -> i <> j -> exists m, In m (mo j k) /\ In i (receivers n j m) /\ proper of p2p i (S k) j m = true /\ m_body m = body (S k) j i.
Proof.
  intros L J I N. assert (IP : In i (peers j n)) by (apply (in_peers j n J); lia).
  unfold mo. destruct (Nat.eqb_spec k K) as [E|E]; [lia|]. destruct (p2p (S k)) eqn:Q.
  - exists {| m_from := j; m_to := Some i; m_body := body (S k) j i |}. split; [apply (in_map (fun i => {| m_from := j; m_to := Some i; m_body := body (S k) j i |})); exact IP|].
    split; [left; reflexivity|]. split; [|reflexivity]. unfold proper, addressed_ok. cbn [m_body m_from m_to]. rewrite Hbody by lia. rewrite Q, !Nat.eqb_refl. reflexivity.
  - exists {| m_from := j; m_to := None; m_body := body (S k) j 0 |}. split; [left; reflexivity|]. split; [exact IP|].
    split; [|cbn [m_body]; symmetry; apply Hbc; exact Q]. unfold proper, addressed_ok. cbn [m_body m_from m_to]. rewrite Hbody by lia. rewrite Q, !Nat.eqb_refl. reflexivity.
Qed.

(** What a run consists of *)
Lemma runs_good i inbx k d out : 1 <= i <= n -> runs i inbx k d out -> k <= S K -> good i k d.
Proof.
  intros I H. induction H as [|k d out l d' o H IH HI ST]; intros L; [apply Hgood0; exact I|]. apply (proj1 (Hgood i k d l d' o I (le_S_n _ _ L) (IH (Nat.lt_le_incl _ _ L)) ST)).
Qed.
Lemma runs_out i inbx k d out m : 1 <= i <= n -> runs i inbx k d out -> k <= S K -> In m out ->
  exists k' d' out' l d'' o, k' < k /\ runs i inbx k' d' out' /\ inbx k' = Some l /\ g_step (pp i) k' d' l = Ok (d'', o) /\ In m o /\ m_from m = i /\ of (m_body m) = S k'.
Proof.
  intros I H. induction H as [|k d out l d' o H IH HI ST]; intros L M; [contradiction|]. apply in_app_iff in M. destruct M as [M|M].
  - destruct (IH (Nat.lt_le_incl _ _ L) M) as [k' [a [b [c [e [f [Q1 Q2]]]]]]]. exists k', a, b, c, e, f. split; [lia|exact Q2].
  - exists k, d, out, l, d', o. split; [lia|]. split; [exact H|]. split; [exact HI|]. split; [exact ST|]. split; [exact M|].
    apply (proj2 (Hgood i k d l d' o I (le_S_n _ _ L) (runs_good i inbx k d out I H (Nat.lt_le_incl _ _ L)) ST) m M).
Qed.
Lemma honest_inbox i h k l : (forall j, In j (peers i n) -> got of p2p i h k j = None \/ got of p2p i h k j = Some (body k j i)) -> inb i h k = Some l -> l = inp i k.
Proof.
  unfold inbox, inp. destruct (k =? 0); [congruence|]. intros Q E. apply all_some_iff in E.
  assert (E2 : map Some l = map Some (map (fun j => body k j i) (peers i n))).
  { rewrite <- E, map_map. apply map_ext_in. intros j J. destruct (Q j J) as [G|G]; [|exact G].
    exfalso. assert (In None (map (got of p2p i h k) (peers i n))) by (rewrite <- G; apply in_map; exact J). rewrite E in H. apply in_map_iff in H. destruct H as [? [? _]]. discriminate. }
  clear -E2. revert E2. generalize (map (fun j => body k j i) (peers i n)). induction l as [|a l IH]; intros [|b l'] E; cbn in E; try discriminate; [reflexivity|].
  injection E as -> E. rewrite (IH _ E). reflexivity.
Qed.
Lemma honest_runs i h k d out : 1 <= i <= n -> k <= S K -> (forall k' j, k' < k -> In j (peers i n) -> got of p2p i h k' j = None \/ got of p2p i h k' j = Some (body k' j i)) ->
  runs i (inb i h) k d out -> d = D i k /\ out = flat_map (mo i) (seq 0 k).
Proof.
  intros I L Q H. induction H as [|k d out l d' o H IH HI ST]; [split; reflexivity|].
  destruct (IH (Nat.lt_le_incl _ _ L)) as [-> ->]; [intros k' j K'; apply Q; lia|].
  apply (honest_inbox i h k l (fun j J => Q k j (le_n _) J)) in HI. subst l. rewrite (Hstep i k I (le_S_n _ _ L)) in ST. injection ST as <- <-.
  split; [reflexivity|]. rewrite seq_S, flat_map_app. cbn [flat_map plus]. rewrite app_nil_r. reflexivity.
Qed.

Section Histories.
Context (H : nat -> list (op B)).
(** Every message delivered was sent to that party by one of the machines. *)
Definition authentic : Prop := forall i m, 1 <= i <= n -> In m (deliveries (H i)) -> exists j, 1 <= j <= n /\ In m (sent_of H j) /\ In i (receivers n j m).
(** Every message sent was delivered. *)
Definition complete : Prop := forall i j m, 1 <= i <= n -> 1 <= j <= n -> In m (sent_of H j) -> In i (receivers n j m) -> In m (deliveries (H i)).

Lemma sent_runs i : 1 <= i <= n -> exists k d, k <= S K /\ runs i (inb i (H i)) k d (sent_of H i).
Proof.
  intros I. assert (A : let '(s, rs) := run i (H i) in Inv (pp i) (D i 0) (H i) (drained rs) s /\ Rest (pp i) (H i) s /\ LogInv (pp i) (D i 0) (H i) rs s).
  { apply run_all; [rewrite Hme, Hn; exact I|intros b; rewrite Hofe, HK; apply Hof|apply Hexp]. }
  unfold sent_of. destruct (run i (H i)) as [s rs]. cbn [fst snd]. destruct A as [A _]. pose proof (inv_round _ _ _ _ _ A) as Q.
  rewrite HK, Hofe, Hpe, Hme, Hn in Q. unfold sent. destruct (gs_round s) as [k d|d|].
  - destruct Q as [Q1 [Q2 _]]. exists k, d. split; [lia|exact Q2].
  - exists (S K), d. split; [lia|exact Q].
  - destruct Q as [[d Q]|[k [o [d [l [Q1 [Q2 _]]]]]]]; [exists (S K), d; split; [lia|exact Q]|]. rewrite HK in Q1. rewrite Hofe, Hpe, Hme, Hn in Q2. exists k, d. split; [lia|exact Q2].
Qed.

Hypothesis HA : authentic.
Lemma honest_got : forall k i j, 1 <= i <= n -> got of p2p i (H i) k j = None \/ got of p2p i (H i) k j = Some (body k j i).
Proof.
  intros k. induction k as [k IH] using lt_wf_ind. intros i j I. destruct (got of p2p i (H i) k j) as [b|] eqn:G; [right|left; reflexivity].
  unfold got in G. destruct (find (proper of p2p i k j) (deliveries (H i))) as [m|] eqn:F; [|discriminate]. cbn [option_map] in G. injection G as <-.
  apply find_some in F. destruct F as [F1 F2]. unfold proper in F2. rewrite !andb_true_iff, !Nat.eqb_eq in F2. destruct F2 as [[F2 F3] _].
  destruct (HA i m I F1) as [j' [J [S1 S2]]]. destruct (sent_runs j' J) as [ks [ds [L R1]]].
  destruct (runs_out j' _ _ _ _ m J R1 L S1) as [k' [d' [out' [l [d'' [o [K1 [K2 [K3 [K4 [K5 [K6 K7]]]]]]]]]]]].
  assert (E1 : k = S k') by congruence. assert (E2 : j' = j) by congruence. clear F2 F3 K6 K7. subst k j'.
  assert (L' : k' <= S K) by lia. destruct (honest_runs j (H j) k' d' out' J L' (fun k2 j2 L2 J2 => IH k2 (Nat.lt_lt_succ_r _ _ L2) j j2 J) K2) as [-> _].
  assert (l = inp j k') by (apply (honest_inbox j (H j)); [intros j2 J2; apply (IH k' (Nat.lt_succ_diag_r _) j j2 J)|exact K3]). subst l.
  assert (L2 : k' <= K) by lia. rewrite (Hstep j k' J L2) in K4. injection K4 as <- <-. f_equal. apply (mo_spec j k' m K5). exact S2.
Qed.
Lemma honest_run i k d out : 1 <= i <= n -> k <= S K -> runs i (inb i (H i)) k d out -> d = D i k /\ out = flat_map (mo i) (seq 0 k).
Proof. intros I L. apply (honest_runs i (H i) k d out I L). intros k' j _ _. apply honest_got. exact I. Qed.

(** Where an honest machine is *)
Lemma honest_state i : 1 <= i <= n -> let s := fst (run i (H i)) in let rs := snd (run i (H i)) in
  failures rs = [] /\ sent_of H i = flat_map (mo i) (seq 0 (g_current (pp i) s)) /\
  match gs_round s with
  | GRun k d => k <= K /\ d = D i k /\ picks rs = []
  | GFinal d => d = D i (S K) /\ picks rs = []
  | GGone => picks rs = [D i (S K)]
  end.
Proof.
  intros I. assert (A : let '(s, rs) := run i (H i) in Inv (pp i) (D i 0) (H i) (drained rs) s /\ Rest (pp i) (H i) s /\ LogInv (pp i) (D i 0) (H i) rs s).
  { apply run_all; [rewrite Hme, Hn; exact I|intros b; rewrite Hofe, HK; apply Hof|apply Hexp]. }
  cbn zeta. unfold sent_of. destruct (run i (H i)) as [s rs] eqn:ER. cbn [fst snd]. destruct A as [A [_ LI]]. pose proof (inv_round _ _ _ _ _ A) as Q.
  rewrite HK, Hofe, Hpe, Hme, Hn in Q. unfold LogInv in LI. unfold sent, g_current. destruct (gs_round s) as [k d|d|].
  - destruct Q as [Q1 [Q2 _]]. destruct LI as [-> ->]. assert (Q3 : k <= S K) by lia. destruct (honest_run i k d _ I Q3 Q2) as [-> E]. auto.
  - destruct LI as [-> ->]. destruct (honest_run i (S K) d _ I (le_n _) Q) as [-> E]. rewrite HK. auto.
  - destruct LI as [[L1 [d [L2 L3]]]|[L1 [k [o [[d [l [F1 [F2 [F3 [F4 F5]]]]]] _]]]]].
    + rewrite HK, Hofe, Hpe, Hme, Hn in L3. destruct (honest_run i (S K) d _ I (le_n _) L3) as [-> E]. rewrite HK. auto.
    + exfalso. rewrite Hofe, Hpe, Hme, Hn in F2, F3. rewrite HK in F1. assert (F6 : k <= S K) by lia. destruct (honest_run i k d _ I F6 F2) as [-> _].
      assert (l = inp i k) by (apply (honest_inbox i (H i)); [intros j _; apply honest_got; exact I|exact F3]). subst l. rewrite (Hstep i k I F1) in F4. exact (F5 _ (eq_sym F4)).
Qed.

Hypothesis HC : complete.
Hypothesis HQ : forall i, 1 <= i <= n -> g_wants_to_proceed (fst (run i (H i))) = false.
Lemma all_reach k : k <= S K -> forall i, 1 <= i <= n -> k <= g_current (pp i) (fst (run i (H i))).
Proof.
  induction k as [|k IH]; intros L i I; [lia|]. assert (Lk : k <= S K) by lia. specialize (IH Lk). pose proof (IH i I) as C1.
  destruct (Nat.eq_dec (g_current (pp i) (fst (run i (H i)))) k) as [E|E]; [|lia]. exfalso.
  pose proof (HQ i I) as W. assert (A : let '(s, rs) := run i (H i) in Inv (pp i) (D i 0) (H i) (drained rs) s /\ Rest (pp i) (H i) s /\ LogInv (pp i) (D i 0) (H i) rs s).
  { apply run_all; [rewrite Hme, Hn; exact I|intros b; rewrite Hofe, HK; apply Hof|apply Hexp]. }
  destruct (run i (H i)) as [s rs] eqn:ER. cbn [fst snd] in *. destruct A as [A _]. unfold g_current in E. unfold g_wants_to_proceed in W.
  destruct (gs_round s) as [k' d|d|] eqn:G; [|rewrite HK in E; lia|rewrite HK in E; lia]. subst k'.
  assert (Hmi : 1 <= g_me (pp i) <= g_n (pp i)) by (rewrite Hme, Hn; exact I).
  rewrite (wants_inbox (pp i) (D i 0) Hmi (H i) (drained rs) s k d A G) in W.
  rewrite Hofe, Hpe, Hme, Hn in W. destruct (inbox of p2p i n (H i) k) as [l|] eqn:IB; [discriminate|].
  unfold inbox in IB. destruct (Nat.eqb_spec k 0) as [Z|Z]; [discriminate|]. apply all_some_none in IB. apply in_map_iff in IB. destruct IB as [j [G0 J]].
  apply (in_peers i n I) in J. destruct J as [J N]. assert (Nij : i <> j) by lia. destruct k as [|k]; [lia|]. assert (Lk2 : k < K) by lia.
  destruct (mo_has j k i Lk2 J I Nij) as [m [M1 [M2 [M3 M4]]]].
  assert (MS : In m (sent_of H j)).
  { destruct (honest_state j J) as [_ [-> _]]. apply in_flat_map. exists k. split; [|exact M1]. apply in_seq. specialize (IH j J). lia. }
  apply (HC i j m I J MS) in M2. unfold got in G0. destruct (find (proper of p2p i (S k) j) (deliveries (H i))) as [x|] eqn:F; [discriminate|].
  apply (find_none _ _ F) in M2. congruence.
Qed.
Lemma all_final i : 1 <= i <= n -> let s := fst (run i (H i)) in let rs := snd (run i (H i)) in
  (gs_round s = GFinal (D i (S K)) /\ picks rs = []) \/ (gs_round s = GGone /\ picks rs = [D i (S K)]).
Proof.
  intros I. cbn zeta. pose proof (all_reach (S K) (le_n _) i I) as L. pose proof (honest_state i I) as Q. cbn zeta in Q. destruct Q as [_ [_ Q]].
  unfold g_current in L. destruct (gs_round (fst (run i (H i)))) as [k d|d|]; [lia| |right; auto]. destruct Q as [-> Q]. left. auto.
Qed.
End Histories.

(** ** Schedules *)
Definition pinit : net (gstate B R) B := {| nt_st := map (fun i => g_init (pp i) (D i 0)) (seq 1 n); nt_wire := [] |}.
Notation popf := (fun i => g_op (pp i)).
Notation pexec := (net_exec popf pinit).
Notation pqueue := (fun s : gstate B R => gs_queue s).
Notation pwants := (fun s : gstate B R => g_wants_to_proceed s).

Lemma Hrun_all i : 1 <= i <= n -> forall h, let '(s, rs) := run i h in Inv (pp i) (D i 0) h (drained rs) s /\ Rest (pp i) h s /\ LogInv (pp i) (D i 0) h rs s.
Proof. intros I h. apply run_all; [rewrite Hme, Hn; exact I|intros b; rewrite Hofe, HK; apply Hof|apply Hexp]. Qed.
Lemma pinit_len : length (nt_st pinit) = n.
Proof. cbn. rewrite map_length, seq_length. reflexivity. Qed.
Lemma pinit_nth i : 1 <= i <= n -> nth_error (nt_st pinit) (i - 1) = Some (g_init (pp i) (D i 0)).
Proof.
  intros I. cbn [pinit nt_st]. rewrite nth_error_map, (nth_error_nth' _ 0) by (rewrite seq_length; lia). rewrite seq_nth by lia. cbn [option_map]. replace (1 + (i - 1)) with i by lia. reflexivity.
Qed.
Lemma pdr i s o : o <> Drain -> drained [snd (g_op (pp i) s o)] = [].
Proof.
  intros N. destruct o as [m| | |]; cbn [g_op]; [destruct (g_handle (pp i) s m); reflexivity|destruct (g_proceed (pp i) (g_fuel (pp i)) true s); reflexivity|contradiction|destruct (g_pick s); reflexivity].
Qed.

(** The calls on party i *)
Definition hist (acts : list nact) (i : nat) : list (op B) := ops_of i (snd (pexec acts)).

Section Sched.
Context (acts : list nact).
Notation w := (fst (pexec acts)).
Notation log := (snd (pexec acts)).
Notation H := (hist acts).

Lemma sched_inv : exists lost, LInv popf (nt_st pinit) w log lost.
Proof. apply (exec_inv popf (nt_st pinit) (fun i s o N => pdr i s o N) acts). Qed.
Lemma sched_run i : 1 <= i <= n -> party w i = Some (fst (run i (H i))) /\ rets_of i log = snd (run i (H i)).
Proof.
  intros I. destruct sched_inv as [lost LI]. pose proof (li_runs _ _ _ _ _ LI i _ (eq_ind_r (fun x => 1 <= i <= x) I pinit_len) (pinit_nth i I)) as [Q1 Q2].
  split; [|exact Q2]. destruct i as [|k]; [lia|]. cbn [party]. replace (S k - 1) with k in Q1 by lia. exact Q1.
Qed.
Lemma sched_idx e : In e log -> 1 <= fst (fst e) <= length (nt_st pinit).
Proof. intros X. destruct sched_inv as [lost LI]. apply (li_idx _ _ _ _ _ LI e X). Qed.
Lemma in_sched_routed i m : In (i, m) (routed n log) <-> exists j, 1 <= j <= n /\ In m (drained (snd (run j (H j)))) /\ In i (receivers n j m).
Proof.
  pose proof (in_routed (nt_st pinit) log i m (fun e X => sched_idx e X)) as Q. rewrite pinit_len in Q. rewrite Q.
  split; intros [j [J [X1 X2]]]; exists j; (split; [exact J|]); (split; [|exact X2]); [rewrite (proj2 (sched_run j J)) in X1|rewrite (proj2 (sched_run j J))]; exact X1.
Qed.
Lemma sched_authentic : authentic H.
Proof.
  intros i m I X. apply deliveries_handed in X. destruct sched_inv as [lost LI]. pose proof (li_perm _ _ _ _ _ LI) as PM. rewrite pinit_len in PM.
  assert (X2 : In (i, m) (routed n log)) by (apply (Permutation_in _ PM); apply in_app_iff; left; exact X). apply in_sched_routed in X2. destruct X2 as [j [J [X3 X4]]].
  exists j. split; [exact J|]. split; [|exact X4]. unfold sent_of, sent. apply in_app_iff. left. exact X3.
Qed.
Lemma sched_complete : nt_wire w = [] -> (forall i s, party w i = Some s -> gs_queue s = []) -> complete H.
Proof.
  intros W Q i j m I J M X. destruct (sched_run j J) as [P1 P2]. pose proof (Q j _ P1) as QJ. unfold sent_of, sent in M. rewrite QJ, app_nil_r in M.
  assert (R1 : In (i, m) (routed n log)) by (apply in_sched_routed; exists j; auto). destruct sched_inv as [lost LI]. pose proof (li_perm _ _ _ _ _ LI) as PM. rewrite pinit_len in PM.
  apply (Permutation_in _ (Permutation_sym PM)) in R1. rewrite W, app_nil_r in R1. apply in_app_iff in R1. destruct R1 as [R1|R1]; [apply deliveries_handed; exact R1|].
  exfalso. pose proof (li_lost _ _ _ _ _ LI _ R1) as LL. rewrite pinit_len in LL. exact (LL I).
Qed.
Lemma sched_nopick i : 1 <= i <= n -> picks (snd (run i (H i))) = [].
Proof.
  intros I. rewrite <- (proj2 (sched_run i I)). assert (Z : forall e, In e log -> picks [snd e] = []).
  { intros [[j o] r] X. destruct sched_inv as [lost LI]. pose proof (li_idx _ _ _ _ _ LI _ X) as [J N]. cbn [fst snd] in *.
    rewrite pinit_len in J. destruct (in_split _ _ X) as [l1 [l2 E]].
    assert (RR : In r (snd (run j (H j))) /\ picks [r] = []); [|exact (proj2 RR)].
    assert (Q : forall h s, ~ In Pick h -> forall r, In r (snd (run_ops (g_op (pp j)) s h)) -> picks [r] = []).
    { clear. induction h as [|o h IH]; intros s N r X; [contradiction|]. cbn [run_ops] in X. destruct (g_op (pp j) s o) as [s1 r1] eqn:E. pose proof (IH s1 (fun Z => N (or_intror Z))) as IH'.
      destruct (run_ops (g_op (pp j)) s1 h) as [s2 rs]. cbn [snd] in *. destruct X as [<-|X]; [|exact (IH' r X)].
      destruct o as [m| | |]; cbn [g_op] in E; [destruct (g_handle (pp j) s m)|destruct (g_proceed (pp j) (g_fuel (pp j)) true s)|destruct (g_drain s)|exfalso; apply N; left; reflexivity]; injection E as _ <-; reflexivity. }
    assert (IR : In r (snd (run j (H j)))). { rewrite <- (proj2 (sched_run j J)). unfold rets_of. apply in_flat_map. exists (j, o, r). split; [exact X|]. rewrite Nat.eqb_refl. left. reflexivity. }
    split; [exact IR|]. apply (Q (H j) (g_init (pp j) (D j 0))); [|exact IR].
    intros PI. unfold hist, ops_of in PI. apply in_flat_map in PI. destruct PI as [[[j' o'] r'] [Y1 Y2]]. destruct (j' =? j); [|contradiction]. destruct Y2 as [->|[]]. apply (li_idx _ _ _ _ _ LI _ Y1). reflexivity. }
  assert (Q : forall l : list (nat * op B * ret P B R), (forall e, In e l -> picks [snd e] = []) -> picks (rets_of i l) = []).
  { clear. induction l as [|[[j o] r] l IH]; intros Z; [reflexivity|]. change (rets_of i ((j, o, r) :: l)) with ((if (j =? i) then [r] else []) ++ rets_of i l). rewrite picks_app, IH, app_nil_r by (intros e X; apply Z; right; exact X).
    destruct (j =? i); [|reflexivity]. exact (Z _ (or_introl eq_refl)). }
  apply Q. exact Z.
Qed.

(** Every machine is where the honest execution says. *)
Lemma sched_state i : 1 <= i <= n -> exists s, party w i = Some s /\
  ((exists k, k <= K /\ gs_round s = GRun k (D i k)) \/ gs_round s = GFinal (D i (S K))).
Proof.
  intros I. exists (fst (run i (H i))). split; [apply (sched_run i I)|]. pose proof (honest_state H sched_authentic i I) as Q. cbn zeta in Q. destruct Q as [_ [_ Q]]. pose proof (sched_nopick i I) as NP.
  destruct (gs_round (fst (run i (H i)))) as [k d|d|]; [destruct Q as [Q1 [-> _]]; left; eauto|destruct Q as [-> _]; right; reflexivity|rewrite NP in Q; discriminate].
Qed.
Lemma sched_final : nt_wire w = [] -> (forall i s, party w i = Some s -> gs_queue s = [] /\ g_wants_to_proceed s = false) ->
  forall i, 1 <= i <= n -> exists s, party w i = Some s /\ gs_round s = GFinal (D i (S K)).
Proof.
  intros W Q i I. exists (fst (run i (H i))). split; [apply (sched_run i I)|].
  assert (HC : complete H) by (apply sched_complete; [exact W|intros j s J; apply (Q j s J)]).
  assert (HQ : forall j, 1 <= j <= n -> g_wants_to_proceed (fst (run j (H j))) = false) by (intros j J; apply (Q j _ (proj1 (sched_run j J)))).
  pose proof (all_final H sched_authentic HC HQ i I) as A. cbn zeta in A. destruct A as [[A _]|[_ A]]; [exact A|]. rewrite (sched_nopick i I) in A. discriminate.
Qed.

(** No message is routed twice. *)
Lemma mo_of j k m : In m (mo j k) -> k < K -> of (m_body m) = S k.
Proof.
  unfold mo. destruct (k =? K); [contradiction|]. destruct (p2p (S k)); intros X L.
  - apply in_map_iff in X. destruct X as [i [<- _]]. cbn. apply Hbody. lia.
  - destruct X as [<-|[]]. cbn. apply Hbody. lia.
Qed.
Lemma copies_mo_nodup j k : 1 <= j <= n -> NoDup (copies n j (mo j k)).
Proof.
  intros J. unfold mo. destruct (k =? K); [constructor|]. destruct (p2p (S k)).
  - unfold copies. rewrite flat_map_concat_map, map_map. cbn [receivers m_to map]. rewrite <- flat_map_concat_map. apply nodup_flat_map; [apply peers_nodup|intros; constructor; [intros []|constructor]|].
    intros x y z _ _ [<-|[]] [E|[]]. congruence.
  - unfold copies. cbn [flat_map receivers m_to]. rewrite app_nil_r. apply FinFun.Injective_map_NoDup; [intros a b E; congruence|apply peers_nodup].
Qed.
Lemma copies_sent_nodup j c : 1 <= j <= n -> c <= S K -> NoDup (copies n j (flat_map (mo j) (seq 0 c))).
Proof.
  intros J L. assert (E : copies n j (flat_map (mo j) (seq 0 c)) = flat_map (fun k => copies n j (mo j k)) (seq 0 c)).
  { clear L. induction (seq 0 c) as [|a l IH]; [reflexivity|]. cbn [flat_map]. rewrite copies_app, IH. reflexivity. }
  rewrite E. apply nodup_flat_map; [apply seq_NoDup|intros k _; apply copies_mo_nodup; exact J|]. intros x y [i m] X Y Z1 Z2. apply in_seq in X. apply in_seq in Y.
  apply in_copies in Z1. apply in_copies in Z2. destruct Z1 as [Z1 _]. destruct Z2 as [Z2 _]. pose proof (mo_spec j x m Z1) as [_ [N1 _]]. pose proof (mo_spec j y m Z2) as [_ [N2 _]].
  assert (L1 : x < K) by lia. assert (L2 : y < K) by lia. pose proof (mo_of j x m Z1 L1). pose proof (mo_of j y m Z2 L2). lia.
Qed.
Lemma current_le i : 1 <= i <= n -> g_current (pp i) (fst (run i (H i))) <= S K.
Proof.
  intros I. pose proof (honest_state H sched_authentic i I) as Q. cbn zeta in Q. destruct Q as [_ [_ Q]]. unfold g_current. destruct (gs_round (fst (run i (H i)))) as [k d|d|]; [destruct Q as [Q _]; lia|rewrite HK; lia|rewrite HK; lia].
Qed.
Lemma drained_sent i : 1 <= i <= n -> exists q, drained (rets_of i log) ++ q = flat_map (mo i) (seq 0 (g_current (pp i) (fst (run i (H i))))).
Proof.
  intros I. rewrite (proj2 (sched_run i I)). pose proof (honest_state H sched_authentic i I) as Q. cbn zeta in Q. destruct Q as [_ [Q _]]. unfold sent_of, sent in Q. eexists. exact Q.
Qed.
Lemma routed_nodup : NoDup (routed n log).
Proof.
  pose proof (routed_perm (nt_st pinit) log (fun e X => sched_idx e X)) as PM. rewrite pinit_len in PM. apply (Permutation_NoDup (Permutation_sym PM)). apply nodup_flat_map; [apply seq_NoDup| |].
  - intros j J. apply in_seq in J. assert (J' : 1 <= j <= n) by lia. destruct (drained_sent j J') as [q E]. pose proof (copies_sent_nodup j _ J' (current_le j J')) as ND. rewrite <- E, copies_app in ND.
    exact (nodup_app_l _ _ ND).
  - intros x y [i m] X Y Z1 Z2. apply in_seq in X. apply in_seq in Y. assert (X' : 1 <= x <= n) by lia. assert (Y' : 1 <= y <= n) by lia.
    apply in_copies in Z1. apply in_copies in Z2. destruct Z1 as [Z1 _]. destruct Z2 as [Z2 _].
    assert (FR : forall j, 1 <= j <= n -> In m (drained (rets_of j log)) -> m_from m = j).
    { intros j J Z. destruct (drained_sent j J) as [q E]. assert (Z' : In m (flat_map (mo j) (seq 0 (g_current (pp j) (fst (run j (H j))))))) by (rewrite <- E; apply in_app_iff; left; exact Z).
      apply in_flat_map in Z'. destruct Z' as [k [_ Z']]. apply (mo_spec j k m Z'). }
    rewrite <- (FR x X' Z1). exact (FR y Y' Z2).
Qed.
(** A message on the wire is acceptable to its receiver. *)
Lemma routed_honest i m : In (i, m) (routed n log) -> exists j k, 1 <= j <= n /\ k < K /\ In m (mo j k) /\ In i (receivers n j m).
Proof.
  intros X. apply in_sched_routed in X. destruct X as [j [J [X1 X2]]]. rewrite <- (proj2 (sched_run j J)) in X1. destruct (drained_sent j J) as [q E].
  assert (Z : In m (flat_map (mo j) (seq 0 (g_current (pp j) (fst (run j (H j))))))) by (rewrite <- E; apply in_app_iff; left; exact X1).
  apply in_flat_map in Z. destruct Z as [k [K1 Z]]. apply in_seq in K1. pose proof (current_le j J). pose proof (mo_spec j k m Z) as [_ [N _]]. exists j, k. split; [exact J|]. split; [lia|]. split; [exact Z|exact X2].
Qed.
Lemma wire_fresh i m : In (i, m) (nt_wire w) -> 1 <= i <= n /\ fresh (pp i) (H i) m = true.
Proof.
  intros W. destruct sched_inv as [lost LI]. pose proof (li_perm _ _ _ _ _ LI) as PM. rewrite pinit_len in PM.
  assert (WR : In (i, m) (routed n log)) by (apply (Permutation_in _ PM); rewrite !in_app_iff; right; right; exact W).
  destruct (routed_honest i m WR) as [j [k [J [LK [M1 M2]]]]]. pose proof (mo_spec j k m M1) as [F1 [_ F2]]. destruct (F2 i M2) as [F3 F4].
  assert (PI : In i (peers j n)).
  { unfold receivers in M2. rewrite F4 in M2. destruct (p2p (S k)) eqn:Q; [|exact M2]. unfold mo in M1. destruct (Nat.eqb_spec k K); [contradiction|]. rewrite Q in M1. apply in_map_iff in M1. destruct M1 as [i' [<- M1]]. cbn in F4. injection F4 as ->. exact M1. }
  apply (in_peers j n J) in PI. split; [lia|]. unfold fresh. rewrite Hofe, Hpe, Hme, Hn. unfold addressed_ok. rewrite F1, (mo_of j k m M1 LK), F4.
  replace (match (if p2p (S k) then Some i else None) with None => negb (p2p (S k)) | Some j => p2p (S k) && (j =? i) end) with true by (destruct (p2p (S k)); cbn; [symmetry; apply Nat.eqb_refl|reflexivity]).
  destruct (Nat.leb_spec 1 j) as [?L1|?L1]; [|lia]. destruct (Nat.leb_spec j n) as [?L2|?L2]; [|lia]. destruct (Nat.eqb_spec j i) as [?L3|?L3]; [lia|]. cbn [andb negb].
  destruct (got of p2p i (H i) (S k) j) as [b|] eqn:G; [exfalso|reflexivity]. unfold got in G. destruct (find (proper of p2p i (S k) j) (deliveries (H i))) as [m'|] eqn:F; [|discriminate]. clear G.
  apply find_some in F. destruct F as [G1 G2]. unfold proper in G2. rewrite !andb_true_iff, !Nat.eqb_eq in G2. destruct G2 as [[G2 G3] _]. apply deliveries_handed in G1.
  assert (WR' : In (i, m') (routed n log)) by (apply (Permutation_in _ PM); rewrite in_app_iff; left; exact G1).
  destruct (routed_honest i m' WR') as [j' [k' [J' [LK' [M1' M2']]]]]. pose proof (mo_spec j' k' m' M1') as [F1' [_ F2']]. destruct (F2' i M2') as [F3' F4'].
  pose proof (mo_of j' k' m' M1' LK') as O'. assert (j' = j) by congruence. assert (k' = k) by lia. subst j' k'.
  assert (m' = m) by (destruct m as [ma mb mc], m' as [na nb nc]; cbn in *; congruence). subst m'.
  pose proof (Permutation_NoDup (Permutation_sym PM) routed_nodup) as ND. apply in_split in G1. destruct G1 as [l1 [l2 E]]. rewrite E in ND. rewrite <- app_assoc in ND. apply NoDup_remove_2 in ND.
  apply ND. rewrite !in_app_iff. right. right. right. exact W.
Qed.
End Sched.

Lemma sched_ops acts a i o s : 1 <= i <= n -> party (fst (pexec acts)) i = Some s ->
  snd (net_step popf (fst (pexec acts)) a) = [(i, o, snd (g_op (pp i) s o))] -> (forall m, o = Deliver m -> In (i, m) (nt_wire (fst (pexec acts)))) -> o <> Pick -> call_ok (i, o, snd (g_op (pp i) s o)).
Proof.
  intros I PS E W NP. destruct (sched_run acts i I) as [S1 S2]. rewrite S1 in PS. injection PS as <-.
  pose proof (sched_state (acts ++ [a]) i I) as ST. pose proof (honest_state _ (sched_authentic (acts ++ [a])) i I) as Q. cbn zeta in Q. destruct Q as [Q _].
  rewrite <- (proj2 (sched_run (acts ++ [a]) i I)) in Q. rewrite exec_snoc, E in Q. cbn [snd] in Q. rewrite rets_app in Q. unfold failures in Q. rewrite flat_map_app in Q. apply app_eq_nil in Q. destruct Q as [_ Q].
  unfold rets_of in Q. cbn [flat_map] in Q. rewrite Nat.eqb_refl in Q. cbn [app flat_map] in Q. rewrite app_nil_r in Q.
  assert (Hmi : 1 <= g_me (pp i) <= g_n (pp i)) by (rewrite Hme, Hn; exact I). assert (Hofi : forall b, 1 <= g_of (pp i) b <= g_K (pp i)) by (intros b; rewrite Hofe, HK; apply Hof).
  pose proof (op_results (pp i) (D i 0) Hmi Hofi (Hexp i) (hist acts i) o) as R1. unfold call_ok.
  destruct (snd (g_op (pp i) (fst (run i (hist acts i))) o)) as [[x|e|]|l|x]; [exact Logic.I| |discriminate|exact Logic.I|contradiction].
  destruct e; try contradiction; try discriminate.
  - destruct R1 as [m [-> R1]]. destruct (wire_fresh acts i m (W m eq_refl)) as [_ W2]. congruence.
  - destruct R1 as [m [-> R1]]. destruct (wire_fresh acts i m (W m eq_refl)) as [_ W2]. congruence.
Qed.
Lemma sched_ok acts : forall e, In e (snd (pexec acts)) -> call_ok e.
Proof.
  induction acts as [|a acts IH] using rev_ind; [intros e []|]. intros e. pose proof (exec_snoc popf pinit acts a) as ES.
  assert (PT : forall i s, 1 <= i <= length (nt_st (fst (pexec acts))) -> nth_error (nt_st (fst (pexec acts))) (i - 1) = Some s -> party (fst (pexec acts)) i = Some s).
  { intros i s I E. destruct i as [|k]; [lia|]. cbn [party]. replace (S k - 1) with k in E by lia. exact E. }
  assert (LN : length (nt_st (fst (pexec acts))) = n) by (destruct (sched_inv acts) as [lost LI]; rewrite (li_len _ _ _ _ _ LI); apply pinit_len).
  rewrite ES. cbn [snd]. rewrite in_app_iff. intros [X|X]; [exact (IH e X)|]. pose proof (sched_ops acts a) as SO. destruct a as [x|i|i]; cbn [net_step] in *.
  - destruct (nth_error (nt_wire (fst (pexec acts))) x) as [[i m]|] eqn:E; [|contradiction]. destruct (call_cases popf (nt_st (fst (pexec acts))) i (Deliver m)) as [[C1 C2]|[C1 [s [C2 C3]]]].
    + rewrite C2 in X. contradiction.
    + rewrite C3 in X, SO. cbn [snd] in X, SO. destruct X as [<-|[]]. apply SO; [rewrite LN in C1; exact C1|apply PT; assumption|reflexivity| |discriminate].
      intros m' Q. injection Q as <-. apply nth_error_In in E. exact E.
  - destruct (call_cases popf (nt_st (fst (pexec acts))) i Proceed) as [[C1 C2]|[C1 [s [C2 C3]]]]; [rewrite C2 in X; contradiction|].
    rewrite C3 in X, SO. cbn [snd] in X, SO. destruct X as [<-|[]]. apply SO; [rewrite LN in C1; exact C1|apply PT; assumption|reflexivity|discriminate|discriminate].
  - destruct (call_cases popf (nt_st (fst (pexec acts))) i Drain) as [[C1 C2]|[C1 [s [C2 C3]]]]; [rewrite C2 in X; contradiction|].
    rewrite C3 in X, SO. cbn [snd] in X, SO. destruct X as [<-|[]]. apply SO; [rewrite LN in C1; exact C1|apply PT; assumption|reflexivity|discriminate|discriminate].
Qed.

(** ** Every schedule is short *)
Definition cur (s : gstate B R) : nat := match gs_round s with GRun k _ => k | _ => S K end.
Lemma cur_current i s : g_current (pp i) s = cur s.
Proof. unfold g_current, cur. rewrite HK. reflexivity. Qed.
Definition taken (log : list (nat * op B * ret P B R)) : list (msg B) := flat_map (fun e => drained [snd e]) log.
Definition spent (acts : list nact) : nat :=
  list_sum (map cur (nt_st (fst (pexec acts)))) + length (taken (snd (pexec acts))) + length (handed (snd (pexec acts))).

Lemma nth_party acts i s : nth_error (nt_st (fst (pexec acts))) (i - 1) = Some s -> 1 <= i -> 1 <= i <= n /\ s = fst (run i (hist acts i)).
Proof.
  intros E I. assert (LN : length (nt_st (fst (pexec acts))) = n) by (destruct (sched_inv acts) as [lost LI]; rewrite (li_len _ _ _ _ _ LI); apply pinit_len).
  assert (L : i - 1 < n) by (rewrite <- LN; apply nth_error_Some; congruence). assert (I' : 1 <= i <= n) by lia. split; [exact I'|].
  destruct (sched_run acts i I') as [Q _]. destruct i as [|k]; [lia|]. cbn [party] in Q. replace (S k - 1) with k in E by lia. congruence.
Qed.
Lemma op_cur i h o : 1 <= i <= n -> cur (fst (run i h)) <= cur (fst (g_op (pp i) (fst (run i h)) o)).
Proof.
  intros I. pose proof (current_mono (pp i) (D i 0) (eq_ind_r (fun x => 1 <= x <= g_n (pp i)) (eq_ind_r (fun x => 1 <= i <= x) I (Hn i)) (Hme i)) (fun b => eq_ind_r (fun x => 1 <= x b <= g_K (pp i)) (eq_ind_r (fun x => 1 <= of b <= x) (Hof b) (HK i)) (Hofe i)) (Hexp i) h [o]) as Q.
  destruct (run_extends (pp i) (D i 0) h [o]) as [E _]. rewrite E in Q. cbn [run_ops] in Q. rewrite !cur_current in Q. destruct (g_op (pp i) (fst (run i h)) o) as [s r]. exact Q.
Qed.
Lemma wants_cur i h : 1 <= i <= n -> (g_wants_to_proceed (fst (run i h)) = true -> cur (fst (run i h)) < cur (fst (g_op (pp i) (fst (run i h)) Proceed))) /\
  (g_wants_to_proceed (fst (run i h)) = false -> fst (g_op (pp i) (fst (run i h)) Proceed) = fst (run i h)).
Proof.
  intros I. pose proof (wants_proceed (pp i) (D i 0) (eq_ind_r (fun x => 1 <= x <= g_n (pp i)) (eq_ind_r (fun x => 1 <= i <= x) I (Hn i)) (Hme i)) (fun b => eq_ind_r (fun x => 1 <= x b <= g_K (pp i)) (eq_ind_r (fun x => 1 <= of b <= x) (Hof b) (HK i)) (Hofe i)) (Hexp i) h) as Q.
  cbn zeta in Q. destruct Q as [Q1 Q2]. rewrite !cur_current in Q1. cbn [g_op]. destruct (g_proceed (pp i) (g_fuel (pp i)) true (fst (run i h))) as [s r]. cbn [fst] in *. split; [exact Q1|]. intros W. specialize (Q2 W). congruence.
Qed.
Lemma spent_step acts a : spent acts + (if enabled pwants pqueue (fst (pexec acts)) a then 1 else 0) <= spent (acts ++ [a]).
Proof.
  unfold spent. rewrite (exec_snoc popf pinit acts a). cbn [fst snd]. unfold taken at 2. rewrite flat_map_app, handed_app, !app_length. fold (taken (snd (pexec acts))).
  pose proof (nth_party acts) as NP. set (w := fst (pexec acts)) in *. set (lg := snd (pexec acts)) in *.
  assert (G : forall i o s, 1 <= i -> nth_error (nt_st w) (i - 1) = Some s -> list_sum (map cur (nt_st w)) <= list_sum (map cur (upd (nt_st w) (i - 1) (fst (g_op (pp i) s o)))) /\
     (o = Proceed -> g_wants_to_proceed s = true -> list_sum (map cur (nt_st w)) < list_sum (map cur (upd (nt_st w) (i - 1) (fst (g_op (pp i) s o)))))).
  { intros i o s I E. destruct (NP i s E I) as [I' ->]. pose proof (upd_sum cur (nt_st w) (i - 1) (fst (g_op (pp i) (fst (run i (hist acts i))) o)) _ E) as U. pose proof (op_cur i (hist acts i) o I') as L. split; [lia|].
    intros -> W. apply (wants_cur i (hist acts i) I') in W. lia. }
  assert (PT : forall i s, 1 <= i -> nth_error (nt_st w) (i - 1) = Some s -> party w i = Some s).
  { intros [|k] s I E; [lia|]. cbn [party]. replace (S k - 1) with k in E by lia. exact E. }
  assert (PN : forall i, ~ 1 <= i <= length (nt_st w) -> party w i = None).
  { intros [|k] N; [reflexivity|]. cbn [party]. apply nth_error_None. lia. }
  destruct a as [x|i|i]; cbn [net_step enabled].
  - destruct (nth_error (nt_wire w) x) as [[i m]|] eqn:E.
    + destruct (call_cases popf (nt_st w) i (Deliver m)) as [[C1 C2]|[C1 [s [C2 C3]]]].
      * exfalso. apply C1. apply nth_error_In in E. destruct (wire_fresh acts i m E) as [I _].
        destruct (sched_inv acts) as [lost LI]. pose proof (li_len _ _ _ _ _ LI) as LN. fold w in LN. rewrite LN, pinit_len. exact I.
      * rewrite C3. cbn [fst snd nt_st]. destruct (G i (Deliver m) s (proj1 C1) C2) as [L _]. change (length (handed [(i, Deliver m, snd (g_op (pp i) s (Deliver m)))])) with 1. destruct (x <? length (nt_wire w)); lia.
    + apply nth_error_None in E. destruct (Nat.ltb_spec x (length (nt_wire w))) as [L|L]; [lia|]. cbn [fst snd]. lia.
  - destruct (call_cases popf (nt_st w) i Proceed) as [[C1 C2]|[C1 [s [C2 C3]]]].
    + rewrite C2, (PN i C1). cbn [fst snd nt_st]. lia.
    + rewrite C3, (PT i s (proj1 C1) C2). cbn [fst snd nt_st]. destruct (G i Proceed s (proj1 C1) C2) as [L1 L2]. cbv beta. destruct (g_wants_to_proceed s) eqn:WS; [specialize (L2 eq_refl eq_refl)|]; cbn [taken handed flat_map snd app length]; lia.
  - destruct (call_cases popf (nt_st w) i Drain) as [[C1 C2]|[C1 [s [C2 C3]]]].
    + rewrite C2, (PN i C1). cbn [fst snd nt_st]. lia.
    + rewrite C3, (PT i s (proj1 C1) C2). cbn [fst snd nt_st]. destruct (G i Drain s (proj1 C1) C2) as [L1 _]. cbv beta. change (flat_map (fun e => drained [snd e]) [(i, Drain, snd (g_op (pp i) s Drain))]) with ((gs_queue s ++ []) ++ []). rewrite !app_nil_r. destruct (gs_queue s) as [|m q]; cbn [length handed flat_map app]; lia.
Qed.
Lemma work_spent acts : work popf pwants pqueue pinit acts <= spent acts.
Proof.
  induction acts as [|a acts IH] using rev_ind; [cbn; lia|]. rewrite work_snoc. pose proof (spent_step acts a). lia.
Qed.

Lemma sum_one i c l : NoDup l -> In i l -> list_sum (map (fun j => if (i =? j) then c else 0) l) = c.
Proof.
  intros N I. pose proof (flat_map_one (repeat tt c) i l N I) as Q. apply (f_equal (@length unit)) in Q. rewrite flat_map_len, repeat_length in Q. refine (eq_trans _ Q). apply f_equal. apply map_ext. intros j. destruct (i =? j); [rewrite repeat_length|]; reflexivity.
Qed.
Lemma sum_add {A} (f g : A -> nat) l : list_sum (map (fun x => f x + g x) l) = list_sum (map f l) + list_sum (map g l).
Proof. unfold list_sum. induction l as [|a l IH]; cbn; [reflexivity|]. rewrite IH. lia. Qed.
Lemma taken_sum (log : list (nat * op B * ret P B R)) : (forall e, In e log -> 1 <= fst (fst e) <= n) ->
  length (taken log) = list_sum (map (fun j => length (drained (rets_of j log))) (seq 1 n)).
Proof.
  induction log as [|[[i o] r] log IH]; intros IX.
  - cbn. rewrite sum_const. lia.
  - transitivity (list_sum (map (fun j => (if (i =? j) then length (drained [r]) else 0) + length (drained (rets_of j log))) (seq 1 n))).
    + rewrite sum_add, sum_one; [|apply seq_NoDup|apply in_seq; pose proof (IX _ (or_introl eq_refl)) as Q; cbn in Q; lia]. change (taken ((i, o, r) :: log)) with (drained [r] ++ taken log). rewrite app_length, IH; [reflexivity|].
      intros e X. apply IX. right. exact X.
    + apply f_equal. apply map_ext. intros j. change (rets_of j ((i, o, r) :: log)) with ((if (i =? j) then [r] else []) ++ rets_of j log). rewrite drained_app, app_length. destruct (i =? j); reflexivity.
Qed.
(** Messages one party sends over the whole protocol *)
Definition msgs : nat := list_sum (map (fun k => if p2p (S k) then n - 1 else 1) (seq 0 K)).
Lemma sent_len j c : 1 <= j <= n -> c <= S K -> length (flat_map (mo j) (seq 0 c)) <= msgs.
Proof.
  intros J L. apply Nat.le_trans with (length (flat_map (mo j) (seq 0 (S K)))).
  - replace (S K) with (c + (S K - c)) by lia. rewrite seq_app, flat_map_app, app_length. lia.
  - rewrite seq_S, flat_map_app, app_length. cbn [flat_map plus]. unfold mo at 2. rewrite Nat.eqb_refl. cbn [app length]. rewrite Nat.add_0_r, flat_map_len. unfold msgs. apply sum_le.
    intros k _. unfold mo. destruct (k =? K); [cbn; lia|]. destruct (p2p (S k)); [rewrite map_length, (peers_length j n J); lia|cbn; lia].
Qed.
Lemma copies_len j c : 1 <= j <= n -> c <= S K -> length (copies n j (flat_map (mo j) (seq 0 c))) <= K * (n - 1).
Proof.
  intros J L. apply Nat.le_trans with (length (copies n j (flat_map (mo j) (seq 0 (S K))))).
  - replace (S K) with (c + (S K - c)) by lia. rewrite seq_app, flat_map_app, copies_app, app_length. lia.
  - rewrite seq_S, flat_map_app, copies_app, app_length. cbn [flat_map plus]. unfold mo at 2. rewrite Nat.eqb_refl. cbn [app copies flat_map length]. rewrite Nat.add_0_r.
    assert (E : forall l, copies n j (flat_map (mo j) l) = flat_map (fun k => copies n j (mo j k)) l) by (induction l as [|a l IH]; [reflexivity|]; cbn [flat_map]; rewrite copies_app, IH; reflexivity).
    rewrite E, flat_map_len. rewrite <- (seq_length K 0) at 2. rewrite <- sum_const. apply sum_le. intros k _. unfold mo. destruct (k =? K); [cbn; lia|].
    destruct (p2p (S k)); unfold copies.
    + rewrite flat_map_len, map_map. cbn [receivers m_to map length]. rewrite sum_const, (peers_length j n J). lia.
    + cbn [flat_map receivers m_to]. rewrite app_nil_r, map_length, (peers_length j n J). lia.
Qed.
Lemma work_bound acts : work popf pwants pqueue pinit acts <= n * S K + n * msgs + n * (K * (n - 1)).
Proof.
  pose proof (work_spent acts) as W. unfold spent in W.
  assert (B1 : list_sum (map cur (nt_st (fst (pexec acts)))) <= n * S K).
  { assert (LN : length (nt_st (fst (pexec acts))) = n) by (destruct (sched_inv acts) as [lost LI]; rewrite (li_len _ _ _ _ _ LI); apply pinit_len).
    rewrite <- LN at 1. rewrite <- sum_const. apply sum_le. intros s X. apply In_nth_error in X. destruct X as [k X]. destruct (nth_party acts (S k) s) as [I ->]; [replace (S k - 1) with k by lia; exact X|lia|].
    rewrite <- (cur_current (S k)). apply current_le. exact I. }
  assert (B2 : length (taken (snd (pexec acts))) <= n * msgs).
  { rewrite taken_sum; [|intros e X; rewrite <- pinit_len; exact (sched_idx acts e X)]. apply Nat.le_trans with (list_sum (map (fun _ => msgs) (seq 1 n))); [|rewrite sum_const, seq_length; lia]. apply sum_le. intros j J. apply in_seq in J. assert (J' : 1 <= j <= n) by lia.
    destruct (drained_sent acts j J') as [q E]. pose proof (sent_len j _ J' (current_le acts j J')) as L. rewrite <- E, app_length in L. lia. }
  assert (B3 : length (handed (snd (pexec acts))) <= n * (K * (n - 1))).
  { destruct (sched_inv acts) as [lost LI]. pose proof (Permutation_length (li_perm _ _ _ _ _ LI)) as PL. rewrite pinit_len in PL. rewrite !app_length in PL.
    pose proof (Permutation_length (routed_perm (nt_st pinit) (snd (pexec acts)) (fun e X => sched_idx acts e X))) as PR. rewrite pinit_len in PR. rewrite flat_map_len in PR.
    apply Nat.le_trans with (length (routed n (snd (pexec acts)))); [lia|]. rewrite PR. apply Nat.le_trans with (list_sum (map (fun _ => K * (n - 1)) (seq 1 n))); [|rewrite sum_const, seq_length; lia]. apply sum_le. intros j J. apply in_seq in J. assert (J' : 1 <= j <= n) by lia.
    destruct (drained_sent acts j J') as [q E]. pose proof (copies_len j _ J' (current_le acts j J')) as L. rewrite <- E, copies_app, app_length in L. lia. }
  lia.
Qed.
(** An action with nothing to do changes nothing. *)
Lemma idle_step acts a : enabled pwants pqueue (fst (pexec acts)) a = false -> fst (net_step popf (fst (pexec acts)) a) = fst (pexec acts).
Proof.
  pose proof (nth_party acts) as NP. set (w := fst (pexec acts)) in *.
  assert (PT : forall i s, 1 <= i -> nth_error (nt_st w) (i - 1) = Some s -> party w i = Some s).
  { intros [|k] s I E; [lia|]. cbn [party]. replace (S k - 1) with k in E by lia. exact E. }
  destruct a as [x|i|i]; cbn [net_step enabled].
  - intros L. apply Nat.ltb_ge, nth_error_None in L. rewrite L. reflexivity.
  - destruct (call_cases popf (nt_st w) i Proceed) as [[C1 C2]|[C1 [s [C2 C3]]]].
    + rewrite C2. cbn [fst]. destruct w; reflexivity.
    + rewrite C3, (PT i s (proj1 C1) C2). cbn [fst]. intros W. destruct (NP i s C2 (proj1 C1)) as [I ->]. rewrite (proj2 (wants_cur i (hist acts i) I) W), (upd_id _ _ _ C2). destruct w; reflexivity.
  - destruct (call_cases popf (nt_st w) i Drain) as [[C1 C2]|[C1 [s [C2 C3]]]].
    + rewrite C2. cbn [fst routed flat_map]. rewrite app_nil_r. destruct w; reflexivity.
    + rewrite C3, (PT i s (proj1 C1) C2). cbn [fst snd]. cbv beta. destruct (gs_queue s) as [|m q] eqn:Q; [|discriminate]. intros _. cbn [g_op g_drain routed flat_map fst snd drained]. rewrite Q. cbn [app copies flat_map]. rewrite app_nil_r.
      assert (E : {| gs_round := gs_round s; gs_stores := gs_stores s; gs_queue := [] |} = s) by (destruct s; cbn in *; congruence). rewrite E, (upd_id _ _ _ C2). destruct w; reflexivity.
Qed.
(** ** What is needed to run the machines over a relay *)
Lemma drained_from acts j m : 1 <= j <= n -> In m (drained (rets_of j (snd (pexec acts)))) -> m_from m = j /\ (m_to m = None \/ exists i, m_to m = Some i /\ In i (peers j n)).
Proof.
  intros J X. destruct (drained_sent acts j J) as [q E].
  assert (Z : In m (flat_map (mo j) (seq 0 (g_current (pp j) (fst (run j (hist acts j))))))) by (rewrite <- E; apply in_app_iff; left; exact X).
  apply in_flat_map in Z. destruct Z as [k [_ Z]]. unfold mo in Z. destruct (k =? K); [contradiction|]. destruct (p2p (S k)).
  - apply in_map_iff in Z. destruct Z as [i [<- Z]]. cbn. split; [reflexivity|]. right. exists i. auto.
  - destruct Z as [<-|[]]. cbn. auto.
Qed.
Lemma taken_bound acts : length (taken (snd (pexec acts))) <= n * msgs.
Proof.
  rewrite taken_sum; [|intros e X; rewrite <- pinit_len; exact (sched_idx acts e X)]. apply Nat.le_trans with (list_sum (map (fun _ => msgs) (seq 1 n))); [|rewrite sum_const, seq_length; lia].
  apply sum_le. intros j J. apply in_seq in J. assert (J' : 1 <= j <= n) by lia. destruct (drained_sent acts j J') as [q E]. pose proof (sent_len j _ J' (current_le acts j J')) as L. rewrite <- E, app_length in L. lia.
Qed.
(** A finished machine has everybody's messages of every round. *)
Lemma final_got acts c s d k j : 1 <= c <= n -> party (fst (pexec acts)) c = Some s -> gs_round s = GFinal d -> 1 <= k <= K -> In j (peers c n) ->
  exists m, In m (deliveries (hist acts c)) /\ m_from m = j /\ got of p2p c (hist acts c) k j <> None.
Proof.
  intros I PS F KB J. destruct (sched_run acts c I) as [S1 _]. rewrite S1 in PS. injection PS as <-.
  pose proof (Hrun_all c I (hist acts c)) as A. destruct (run c (hist acts c)) as [s rs]. cbn [fst] in F. destruct A as [A _]. pose proof (inv_round _ _ _ _ _ A) as Q. rewrite F in Q.
  rewrite HK, Hofe, Hpe, Hme, Hn in Q. assert (L : k < S K) by lia. destruct (runs_below _ _ _ _ _ _ Q k L) as (d' & out' & l & d'' & o & _ & IB & _).
  unfold inbox in IB. destruct (Nat.eqb_spec k 0) as [Z|_]; [lia|]. assert (G : got of p2p c (hist acts c) k j <> None).
  { intros G. assert (X : In None (map (got of p2p c (hist acts c) k) (peers c n))) by (apply in_map_iff; exists j; auto). clear -IB X.
    revert l IB. induction (map (got of p2p c (hist acts c) k) (peers c n)) as [|x xs IH]; intros l IB; [contradiction|]. cbn [all_some] in IB. destruct x as [a|]; [|discriminate].
    destruct X as [X|X]; [discriminate|]. destruct (all_some xs) as [t|]; [|discriminate]. exact (IH X t eq_refl). }
  unfold got in G. destruct (find (proper of p2p c k j) (deliveries (hist acts c))) as [m|] eqn:FM; [|cbn in G; congruence]. pose proof (find_some _ _ FM) as [M1 M2].
  exists m. split; [exact M1|]. unfold proper in M2. rewrite !andb_true_iff, !Nat.eqb_eq in M2. split; [apply M2|]. unfold got. rewrite FM. discriminate.
Qed.
Lemma final_wire acts c s d m : 1 <= c <= n -> party (fst (pexec acts)) c = Some s -> gs_round s = GFinal d -> ~ In (c, m) (nt_wire (fst (pexec acts))).
Proof.
  intros I PS F W. destruct (wire_fresh acts c m W) as [_ FR]. unfold fresh in FR. rewrite !andb_true_iff in FR. destruct FR as [[[[_ L1] L2] L3] G]. rewrite Hn, Hme in *.
  apply Nat.leb_le in L1, L2. apply negb_true_iff, Nat.eqb_neq in L3. rewrite Hofe, Hpe in G.
  assert (J : In (m_from m) (peers c n)) by (apply (in_peers c n I); lia).
  destruct (final_got acts c s d (of (m_body m)) (m_from m) I PS F (Hof _) J) as (_ & _ & _ & N). destruct (got of p2p c (hist acts c) (of (m_body m)) (m_from m)); [discriminate|congruence].
Qed.
Lemma final_heard acts c s d j : 1 <= K -> 1 <= c <= n -> party (fst (pexec acts)) c = Some s -> gs_round s = GFinal d -> 1 <= j <= n -> j <> c -> drained (rets_of j (snd (pexec acts))) <> [].
Proof.
  intros K1 I PS F J N E. assert (P1 : In j (peers c n)) by (apply (in_peers c n I); lia). assert (L : 1 <= 1 <= K) by lia.
  destruct (final_got acts c s d 1 j I PS F L P1) as (m & M1 & M2 & _). apply deliveries_handed in M1. destruct (sched_inv acts) as [lost LI]. pose proof (li_perm _ _ _ _ _ LI) as PM. rewrite pinit_len in PM.
  assert (X2 : In (c, m) (routed n (snd (pexec acts)))) by (apply (Permutation_in _ PM); apply in_app_iff; left; exact M1).
  apply in_sched_routed in X2. destruct X2 as [j' [J' [X3 _]]]. rewrite <- (proj2 (sched_run acts j' J')) in X3. pose proof (drained_from acts j' m J' X3) as [Q _]. rewrite M2 in Q. subst j'. rewrite E in X3. exact X3.
Qed.
End Honest.

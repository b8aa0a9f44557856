(** Networks of Keygen and OfflineStage machines are instances of the honest network of NetProofs.v. *)
From Coq Require Import ZArith Lia Bool List Permutation.
From Verif Require Import ZArithX Fq Curve Outcome Sigma Bytes Vss Paillier RangeProofs Pdl PdlSlack Mta Ecdsa Mp MpProofs Gg20Keygen KeygenRun Gg20Sign SignRun KeygenRunProofs Blame Stores RoundSM SmSpec SmProofs KeygenSM SignSM SmSim SmTheory SmFacts SmTags Network NetLog NetProofs.
Import ListNotations.
Local Open Scope nat_scope.

Section Sim.
Context {S1 S2 P B O1 O2 : Type} (abs : S1 -> S2) (fr : ret P B O1 -> ret P B O2).
Context (opf1 : nat -> S1 -> op B -> S1 * ret P B O1) (opf2 : nat -> S2 -> op B -> S2 * ret P B O2).
Hypothesis Hop : forall i s o, opf2 i (abs s) o = (abs (fst (opf1 i s o)), fr (snd (opf1 i s o))).
Hypothesis Hfr : forall r, drained [fr r] = drained [r].
Context (wants1 : S1 -> bool) (wants2 : S2 -> bool) (queue1 : S1 -> list (msg B)) (queue2 : S2 -> list (msg B)).
Hypothesis Hw : forall s, wants2 (abs s) = wants1 s.
Hypothesis Hq : forall s, queue2 (abs s) = queue1 s.
Definition net_abs (w : net S1 B) : net S2 B := {| nt_st := map abs (nt_st w); nt_wire := nt_wire w |}.
Definition ent_abs (e : nat * op B * ret P B O1) : nat * op B * ret P B O2 := (fst e, fr (snd e)).

Lemma party_abs w i : party (net_abs w) i = option_map abs (party w i).
Proof. destruct i as [|k]; [reflexivity|]. cbn [party net_abs nt_st]. apply nth_error_map. Qed.
Lemma call_abs l i o : call opf2 (map abs l) i o = (map abs (fst (call opf1 l i o)), map ent_abs (snd (call opf1 l i o))).
Proof.
  unfold call. destruct i as [|k]; [reflexivity|]. rewrite nth_error_map. destruct (nth_error l k) as [s|]; [|reflexivity]. cbn [option_map]. rewrite Hop.
  destruct (opf1 (S k) s o) as [s' r]. cbn [fst snd]. rewrite upd_map1. reflexivity.
Qed.
Lemma routed_abs n e : routed n (map ent_abs e) = routed n e.
Proof.
  induction e as [|[[i o] r] e IH]; [reflexivity|]. cbn [map]. change (routed n (ent_abs (i, o, r) :: map ent_abs e)) with (copies n i (drained [fr r]) ++ routed n (map ent_abs e)). rewrite Hfr, IH. reflexivity.
Qed.
Lemma rets_abs j e : drained (rets_of j (map ent_abs e)) = drained (rets_of j e).
Proof.
  induction e as [|[[i o] r] e IH]; [reflexivity|]. cbn [map]. change (rets_of j (ent_abs (i, o, r) :: map ent_abs e)) with ((if i =? j then [fr r] else []) ++ rets_of j (map ent_abs e)).
  change (rets_of j ((i, o, r) :: e)) with ((if i =? j then [r] else []) ++ rets_of j e). rewrite !drained_app, IH. destruct (i =? j); [rewrite Hfr|]; reflexivity.
Qed.
Lemma taken_abs e : taken (map ent_abs e) = taken e.
Proof.
  induction e as [|[[i o] r] e IH]; [reflexivity|]. cbn [map]. change (taken (ent_abs (i, o, r) :: map ent_abs e)) with (drained [fr r] ++ taken (map ent_abs e)).
  change (taken ((i, o, r) :: e)) with (drained [r] ++ taken e). rewrite Hfr, IH. reflexivity.
Qed.
Lemma step_abs w a : net_step opf2 (net_abs w) a = (net_abs (fst (net_step opf1 w a)), map ent_abs (snd (net_step opf1 w a))).
Proof.
  destruct a as [x|i|i]; cbn [net_step net_abs nt_st nt_wire].
  - destruct (nth_error (nt_wire w) x) as [[i m]|]; [|reflexivity]. rewrite call_abs. destruct (call opf1 (nt_st w) i (Deliver m)). reflexivity.
  - rewrite call_abs. destruct (call opf1 (nt_st w) i Proceed). reflexivity.
  - assert (NP : nparties (net_abs w) = nparties w) by (unfold nparties; apply map_length).
    rewrite call_abs, NP. destruct (call opf1 (nt_st w) i Drain) as [l e]. cbn [fst snd]. rewrite routed_abs. reflexivity.
Qed.
Lemma exec_abs acts : forall w, net_exec opf2 (net_abs w) acts = (net_abs (fst (net_exec opf1 w acts)), map ent_abs (snd (net_exec opf1 w acts))).
Proof.
  induction acts as [|a acts IH]; intros w; [reflexivity|]. cbn [net_exec]. rewrite step_abs. destruct (net_step opf1 w a) as [w1 e1]. cbn [fst snd]. rewrite IH.
  destruct (net_exec opf1 w1 acts) as [w2 e2]. cbn [fst snd]. rewrite map_app. reflexivity.
Qed.
Lemma enabled_abs w a : enabled wants2 queue2 (net_abs w) a = enabled wants1 queue1 w a.
Proof.
  destruct a as [x|i|i]; cbn [enabled]; [reflexivity| |]; rewrite party_abs; destruct (party w i) as [s|]; cbn [option_map]; [apply Hw|reflexivity| |reflexivity]. rewrite Hq. reflexivity.
Qed.
Lemma work_abs acts : forall w, work opf2 wants2 queue2 (net_abs w) acts = work opf1 wants1 queue1 w acts.
Proof. induction acts as [|a acts IH]; intros w; [reflexivity|]. cbn [work]. rewrite enabled_abs, step_abs. cbn [fst]. rewrite IH. reflexivity. Qed.
Hypothesis Hinj : forall i s o, abs (fst (opf1 i s o)) = abs s -> fst (opf1 i s o) = s.
Lemma call_inj l i o : map abs (fst (call opf1 l i o)) = map abs l -> fst (call opf1 l i o) = l.
Proof.
  unfold call. destruct i as [|k]; [reflexivity|]. destruct (nth_error l k) as [s|] eqn:N; [|reflexivity]. pose proof (Hinj (S k) s o) as HI. destruct (opf1 (S k) s o) as [s' r]. cbn [fst] in *. intros E.
  assert (L : k < length l) by (apply nth_error_Some; congruence).
  assert (Q : abs s' = abs s) by (apply (f_equal (fun x => nth_error x k)) in E; rewrite !nth_error_map, (upd_nth_same l k s' L), N in E; cbn in E; injection E; auto).
  rewrite (HI Q). apply upd_id. exact N.
Qed.
Lemma step_inj w a : net_abs (fst (net_step opf1 w a)) = net_abs w -> fst (net_step opf1 w a) = w.
Proof.
  destruct w as [l z]. destruct a as [x|i|i]; cbn [net_step nt_st nt_wire].
  - destruct (nth_error z x) as [[i m]|]; [|reflexivity]. pose proof (call_inj l i (Deliver m)) as CI. destruct (call opf1 l i (Deliver m)) as [l' e]. cbn [fst] in *. unfold net_abs. cbn [nt_st nt_wire]. intros E. pose proof (f_equal nt_st E) as E1. pose proof (f_equal nt_wire E) as E2. cbn [nt_st nt_wire] in E1, E2. rewrite (CI E1), E2. reflexivity.
  - pose proof (call_inj l i Proceed) as CI. destruct (call opf1 l i Proceed) as [l' e]. cbn [fst] in *. unfold net_abs. cbn [nt_st nt_wire]. intros E. pose proof (f_equal nt_st E) as E1. cbn [nt_st] in E1. rewrite (CI E1). reflexivity.
  - pose proof (call_inj l i Drain) as CI. destruct (call opf1 l i Drain) as [l' e]. cbn [fst] in *. unfold net_abs. cbn [nt_st nt_wire]. intros E. pose proof (f_equal nt_st E) as E1. pose proof (f_equal nt_wire E) as E2. cbn [nt_st nt_wire] in E1, E2. rewrite (CI E1), E2. reflexivity.
Qed.
End Sim.

Lemma omapM_fun {E A} (f : nat -> outcome E A) n l : omapM f (seq 0 n) = Ok l -> 0 < n -> exists g, (forall i, i < n -> f i = Ok (g i)) /\ l = map g (seq 0 n).
Proof.
  intros H N. assert (L : length l = n) by (rewrite (omapM_length f _ _ H); apply seq_length). destruct l as [|d l]; [cbn in L; lia|].
  exists (fun i => nth i (d :: l) d). apply omapM_ok in H. split.
  - intros i I. rewrite <- L in H, I. revert H. clear -I. assert (Q : forall a (l : list A), Forall2 (fun x y => f x = Ok y) (seq a (length l)) l -> forall i, i < length l -> forall d, f (a + i) = Ok (nth i l d)).
    { clear. intros a l. revert a. induction l as [|b l IH]; intros a H i I d; [cbn in I; lia|]. cbn [length seq] in H. inversion H as [|? ? ? ? H1 H2]; subst. destruct i as [|i]; [rewrite Nat.add_0_r; exact H1|]. cbn [nth].
      replace (a + S i) with (S a + i) by lia. apply IH; [exact H2|cbn in I; lia]. }
    intros H. exact (Q 0 (d :: l) H i I d).
  - apply (nth_ext _ _ d d); [rewrite map_length, seq_length; exact L|]. intros i I. rewrite (nth_indep (map _ _) d (nth 0 (d :: l) d)) by (rewrite map_length, seq_length; lia).
    rewrite (map_nth (fun i => nth i (d :: l) d)). rewrite seq_nth by lia. reflexivity.
Qed.

Lemma but_peers {A} (f : nat -> A) i n : 1 <= i <= n -> but (i - 1) (map f (seq 0 n)) = map (fun j => f (j - 1)) (peers i n).
Proof.
  intros I. rewrite but_map_seq by lia. rewrite (peers_eq i n I). unfold others. rewrite !map_app. f_equal.
  - rewrite <- (seq_shift (i - 1) 0), map_map. apply map_ext. intros j. f_equal. lia.
  - replace (S (i - 1)) with i by lia. rewrite <- (seq_shift (n - i) i), map_map. apply map_ext. intros j. f_equal. lia.
Qed.
(** A list of messages to given addressees, as a function of the addressee *)
Definition pick_for {A} (d : A) (l : list (nat * A)) (i : nat) : A := match find (fun x => fst x =? i) l with Some x => snd x | None => d end.
Lemma pick_for_map {A} (d : A) l : NoDup (map fst l) -> l = map (fun i => (i, pick_for d l i)) (map fst l).
Proof.
  intros N. rewrite map_map. rewrite <- (map_id l) at 1. apply map_ext_in. intros [a x] X. cbn [fst]. f_equal. unfold pick_for.
  assert (Q : find (fun y => fst y =? a) l = Some (a, x)); [|rewrite Q; reflexivity]. clear -N X. induction l as [|[b y] l IH]; [contradiction|]. cbn [find fst]. cbn [map fst] in N. inversion N as [|? ? N1 N2]; subst.
  destruct X as [E|X]; [injection E as -> ->; rewrite Nat.eqb_refl; reflexivity|]. destruct (Nat.eqb_spec b a) as [->|NE]; [|exact (IH N2 X)]. exfalso. apply N1. apply (in_map fst) in X. exact X.
Qed.
Lemma addressed_pick {E A} (d : A) l i : In i (map fst l) -> addressed (E := E) i l = Ok (pick_for d l i).
Proof.
  intros I. unfold addressed, pick_for. destruct (find (fun x => fst x =? i) l) as [x|] eqn:F; [reflexivity|]. exfalso. apply in_map_iff in I. destruct I as [y [E1 Y]]. apply (find_none _ _ F) in Y. apply Nat.eqb_neq in Y. contradiction.
Qed.
Lemma omapM_map_ok {E A X Y} (f : X -> outcome E Y) (g : A -> X) (h : A -> Y) l : (forall a, In a l -> f (g a) = Ok (h a)) -> omapM f (map g l) = Ok (map h l).
Proof. intros H. induction l as [|a l IH]; [reflexivity|]. cbn. rewrite (H a (or_introl eq_refl)). cbn. rewrite IH; [reflexivity|]. intros b X1. apply H. right. exact X1. Qed.
Lemma nth_o_fun {E A} (g : nat -> A) n i : i < n -> nth_o (E := E) (map g (seq 0 n)) i = Ok (g i).
Proof. intros I. rewrite nth_o_map_seq by exact I. reflexivity. Qed.
Lemma tags_fst {A M} (of : M -> nat) (c : A -> M) a (l : list (nat * A)) k ps :
  map (fun m => (m_from m, of (m_body m), m_to m)) (map (fun y => {| m_from := a; m_to := Some (fst y); m_body := c (snd y) |}) l) = map (fun j => (a, k, Some j)) ps -> map fst l = ps.
Proof.
  rewrite map_map. cbn [m_from m_body m_to]. revert ps; induction l as [|[x y] l IH]; intros [|q ps] E; cbn in *; try discriminate; [reflexivity|]. injection E as _ -> E. rewrite (IH _ E). reflexivity.
Qed.

(** ** A concrete machine that is simulated by the generic one inherits the facts about honest networks. *)
Section Lift.
Context {S1 P B O1 R : Type} (abs : S1 -> gstate B R) (fr : ret P B O1 -> ret P B R) (opf : nat -> S1 -> op B -> S1 * ret P B O1).
Context (wants : S1 -> bool) (queue : S1 -> list (msg B)) (n K : nat) (of : B -> nat) (p2p : nat -> bool) (pp : nat -> params P B R) (st0 : list S1).
Context (D : nat -> nat -> R) (body : nat -> nat -> nat -> B) (good : nat -> nat -> R -> Prop).
Hypothesis Hop : forall i s o, g_op (pp i) (abs s) o = (abs (fst (opf i s o)), fr (snd (opf i s o))).
Hypothesis Hfr : forall r, drained [fr r] = drained [r].
Hypothesis Hcok : forall e, call_ok (ent_abs fr e) -> call_ok e.
Hypothesis Hinj : forall i s o, abs (fst (opf i s o)) = abs s -> fst (opf i s o) = s.
Hypothesis Hw : forall s, g_wants_to_proceed (abs s) = wants s.
Hypothesis Hq : forall s, gs_queue (abs s) = queue s.
Hypothesis Hst : map abs st0 = map (fun i => g_init (pp i) (D i 0)) (seq 1 n).
Hypothesis HK : forall i, g_K (pp i) = K.
Hypothesis Hme : forall i, g_me (pp i) = i.
Hypothesis Hn : forall i, g_n (pp i) = n.
Hypothesis Hofe : forall i, g_of (pp i) = of.
Hypothesis Hpe : forall i, g_p2p (pp i) = p2p.
Hypothesis Hof : forall b, 1 <= of b <= K.
Hypothesis Hexp : forall i k, g_exp (pp i) k = false -> 0 < k /\ g_again (pp i) (k - 1) = true.
Hypothesis Hbody : forall k j i, 1 <= k <= K -> of (body k j i) = k.
Hypothesis Hbc : forall k j i, p2p k = false -> body k j i = body k j 0.
Hypothesis Hstep : forall i k, 1 <= i <= n -> k <= K -> g_step (pp i) k (D i k) (inp n body i k) = Ok (D i (S k), mo n K p2p body i k).
Hypothesis Hgood0 : forall i, 1 <= i <= n -> good i 0 (D i 0).
Hypothesis Hgood : forall i k d l d' o, 1 <= i <= n -> k <= K -> good i k d -> g_step (pp i) k d l = Ok (d', o) ->
  good i (S k) d' /\ forall m, In m o -> m_from m = i /\ of (m_body m) = S k.
Definition net0 : net S1 B := {| nt_st := st0; nt_wire := [] |}.

Lemma net0_abs : net_abs abs net0 = pinit n pp D.
Proof. unfold net_abs, net0, pinit. cbn [nt_st nt_wire]. rewrite Hst. reflexivity. Qed.
Lemma lift_exec acts : net_exec (fun i => g_op (pp i)) (pinit n pp D) acts = (net_abs abs (fst (net_exec opf net0 acts)), map (ent_abs fr) (snd (net_exec opf net0 acts))).
Proof. rewrite <- net0_abs. apply (exec_abs abs fr opf (fun i => g_op (pp i)) Hop Hfr). Qed.

Theorem lift_network acts :
  let w := fst (net_exec opf net0 acts) in
  (forall e, In e (snd (net_exec opf net0 acts)) -> call_ok e) /\
  work opf wants queue net0 acts <= n * S K + n * msgs n K p2p + n * (K * (n - 1)) /\
  (forall a, enabled wants queue w a = false -> fst (net_step opf w a) = w) /\
  (forall i, 1 <= i <= n -> exists s, party w i = Some s /\ ((exists k, k <= K /\ gs_round (abs s) = GRun k (D i k)) \/ gs_round (abs s) = GFinal (D i (S K)))) /\
  ((forall a, enabled wants queue w a = false) -> forall i, 1 <= i <= n -> exists s, party w i = Some s /\ gs_round (abs s) = GFinal (D i (S K))).
Proof.
  pose proof (lift_exec acts) as EA. cbn zeta. set (w := fst (net_exec opf net0 acts)) in *. set (log := snd (net_exec opf net0 acts)) in *.
  refine (conj _ (conj _ (conj _ (conj _ _)))).
  - intros e X. apply Hcok. apply (sched_ok n K of p2p pp HK Hme Hn Hofe Hpe Hof Hexp D body Hbody Hbc Hstep good Hgood0 Hgood acts). rewrite EA. cbn [snd]. apply in_map. exact X.
  - pose proof (work_bound n K of p2p pp HK Hme Hn Hofe Hpe Hof Hexp D body Hbody Hbc Hstep good Hgood0 Hgood acts) as W. rewrite <- net0_abs in W.
    rewrite (work_abs abs fr opf (fun i => g_op (pp i)) Hop Hfr wants _ queue _ Hw Hq acts) in W. exact W.
  - intros a EN. pose proof (idle_step n K of pp HK Hme Hn Hofe Hof Hexp D acts a) as I. rewrite EA in I. cbn [fst] in I.
    rewrite (enabled_abs abs wants _ queue _ Hw Hq) in I. specialize (I EN). rewrite (step_abs abs fr opf (fun i => g_op (pp i)) Hop Hfr) in I. cbn [fst] in I. exact (step_inj abs opf Hinj w a I).
  - intros i I. destruct (sched_state n K of p2p pp HK Hme Hn Hofe Hpe Hof Hexp D body Hbc Hstep good Hgood0 Hgood acts i I) as [s [S2 S3]]. rewrite EA in S2. cbn [fst] in S2. rewrite party_abs in S2.
    destruct (party w i) as [s1|]; [|discriminate]. cbn in S2. injection S2 as <-. exists s1. auto.
  - intros Q i I.
    assert (W0 : nt_wire w = []) by (pose proof (Q (NDeliver 0)) as Q0; cbn [enabled] in Q0; destruct (nt_wire w); [reflexivity|discriminate]).
    pose proof (sched_final n K of p2p pp HK Hme Hn Hofe Hpe Hof Hexp D body Hbody Hbc Hstep good Hgood0 Hgood acts) as SF. rewrite EA in SF. cbn [fst] in SF.
    specialize (SF W0). destruct (fun X => SF X i I) as [s [S2 S3]].
    + intros j s S2. rewrite party_abs in S2. pose proof (Q (NSend j)) as Q1. pose proof (Q (NProceed j)) as Q2. cbn [enabled] in Q1, Q2. destruct (party w j) as [s1|]; [|discriminate]. cbn in S2. injection S2 as <-. rewrite Hq, Hw. destruct (queue s1); [auto|discriminate].
    + rewrite party_abs in S2. destruct (party w i) as [s1|]; [|discriminate]. cbn in S2. injection S2 as <-. exists s1. auto.
Qed.
(** What running over a relay needs *)
Context (fin : S1 -> bool).
Hypothesis Hfin : forall s, fin s = true <-> exists d, gs_round (abs s) = GFinal d.
Theorem lift_relay : 1 <= K ->
  (forall acts j m, 1 <= j <= n -> In m (drained (rets_of j (snd (net_exec opf net0 acts)))) -> m_from m = j /\ (m_to m = None \/ exists i, m_to m = Some i /\ In i (peers j n))) /\
  (forall acts, NoDup (routed n (snd (net_exec opf net0 acts)))) /\
  (forall acts c s m, 1 <= c <= n -> party (fst (net_exec opf net0 acts)) c = Some s -> fin s = true -> ~ In (c, m) (nt_wire (fst (net_exec opf net0 acts)))) /\
  (forall acts c s j, 1 <= c <= n -> party (fst (net_exec opf net0 acts)) c = Some s -> fin s = true -> 1 <= j <= n -> j <> c -> drained (rets_of j (snd (net_exec opf net0 acts))) <> []) /\
  (forall acts, length (taken (snd (net_exec opf net0 acts))) <= n * msgs n K p2p) /\
  (forall acts c s, party (fst (net_exec opf net0 acts)) c = Some s -> fin s = true -> wants s = false) /\
  (forall acts, (forall a, enabled wants queue (fst (net_exec opf net0 acts)) a = false) -> forall c s, party (fst (net_exec opf net0 acts)) c = Some s -> fin s = true).
Proof.
  intros K1.
  assert (PA : forall acts c s, party (fst (net_exec opf net0 acts)) c = Some s -> party (fst (net_exec (fun i => g_op (pp i)) (pinit n pp D) acts)) c = Some (abs s)) by (intros acts c s P1; rewrite lift_exec; cbn [fst]; rewrite party_abs, P1; reflexivity).
  refine (conj _ (conj _ (conj _ (conj _ (conj _ (conj _ _)))))); intros acts.
  - intros j m J X. apply (drained_from n K of p2p pp HK Hme Hn Hofe Hpe Hof Hexp D body Hbc Hstep good Hgood0 Hgood acts j m J). rewrite lift_exec. cbn [snd]. rewrite (rets_abs fr Hfr). exact X.
  - pose proof (routed_nodup n K of p2p pp HK Hme Hn Hofe Hpe Hof Hexp D body Hbody Hbc Hstep good Hgood0 Hgood acts) as Q. rewrite lift_exec in Q. cbn [snd] in Q. rewrite (routed_abs fr Hfr) in Q. exact Q.
  - intros c s m C P1 F W. apply Hfin in F. destruct F as [d F].
    apply (final_wire n K of p2p pp HK Hme Hn Hofe Hpe Hof Hexp D body Hbody Hbc Hstep good Hgood0 Hgood acts c (abs s) d m C (PA acts c s P1) F). rewrite lift_exec. exact W.
  - intros c s j C P1 F J N. apply Hfin in F. destruct F as [d F].
    pose proof (final_heard n K of p2p pp HK Hme Hn Hofe Hpe Hof Hexp D body Hbc Hstep good Hgood0 Hgood acts c (abs s) d j K1 C (PA acts c s P1) F J N) as Q.
    rewrite lift_exec in Q. cbn [snd] in Q. rewrite (rets_abs fr Hfr) in Q. exact Q.
  - pose proof (taken_bound n K of p2p pp HK Hme Hn Hofe Hpe Hof Hexp D body Hbc Hstep good Hgood0 Hgood acts) as Q. rewrite lift_exec in Q. cbn [snd] in Q. rewrite (taken_abs fr Hfr) in Q. exact Q.
  - intros c s P1 F. apply Hfin in F. destruct F as [d F]. rewrite <- Hw. unfold g_wants_to_proceed. rewrite F. reflexivity.
  - intros Q c s P1. pose proof (lift_network acts) as LN. cbn zeta in LN. destruct LN as (_ & _ & _ & _ & LN). apply Hfin.
    assert (C : 1 <= c <= n).
    { pose proof (PA acts c s P1) as P2. destruct (sched_inv n pp D acts) as [lost LI]. pose proof (li_len _ _ _ _ _ LI) as LL. rewrite pinit_len in LL. destruct c as [|k]; [discriminate|]. cbn [party] in P2.
      assert (k < length (nt_st (fst (net_exec (fun i => g_op (pp i)) (pinit n pp D) acts)))) by (apply nth_error_Some; congruence). lia. }
    destruct (LN Q c C) as (s' & P2 & F). rewrite P1 in P2. injection P2 as <-. eauto.
Qed.
End Lift.

(** ** Keygen *)
Section Kg.
Context (C : Curve).
Context (Hb : list Z -> Z) (Hf : hashF C) (ck : Z -> Z -> bool) (cd : Z -> dlstmt -> outcome mp_error bool) (t n : nat) (rs : nat -> kg_rand C).
Notation pp := (fun i => kgp C Hb Hf ck cd (rs (i - 1)) i n).

Lemma kg_honest lks : 2 <= n -> kg_run C Hb Hf ck cd t n rs = Ok lks -> exists (D : nat -> nat -> kg_r C) (body : nat -> nat -> nat -> kg_msg C),
  (forall i, D i 0 = KR0 i t n) /\ (forall i lk, nth_error lks i = Some lk -> D (S i) 5 = KFinal lk) /\ length lks = n /\
  (forall k j i, 1 <= k <= 4 -> kg_of C (body k j i) = k) /\ (forall k j i, kg_p2p k = false -> body k j i = body k j 0) /\
  (forall i k, 1 <= i <= n -> k <= 4 -> g_step (pp i) k (D i k) (inp n body i k) = Ok (D i (S k), mo n 4 kg_p2p body i k)).
Proof.
  intros N2 E. unfold kg_run in E. apply obind_ok in E. destruct E as [l0 [E0 E]]. apply obind_ok in E. destruct E as [l1 [E1 E]]. apply obind_ok in E. destruct E as [l2 [E2 E]]. apply obind_ok in E. destruct E as [l3 [E3 E4]].
  assert (N0 : 0 < n) by lia.
  apply omapM_fun in E0; [|exact N0]. destruct E0 as [g0 [G0 ->]]. apply omapM_fun in E1; [|exact N0]. destruct E1 as [g1 [G1 ->]]. apply omapM_fun in E2; [|exact N0]. destruct E2 as [g2 [G2 ->]].
  apply omapM_fun in E3; [|exact N0]. destruct E3 as [g3 [G3 ->]]. apply omapM_fun in E4; [|exact N0]. destruct E4 as [g4 [G4 ->]].
  assert (F1 : forall i, 1 <= i <= n -> kg_r1 (fst (g0 (i - 1))) (map (fun j => snd (g0 (j - 1))) (peers i n)) = Ok (g1 (i - 1))).
  { intros i I. assert (L : i - 1 < n) by lia. specialize (G1 (i - 1) L). rewrite (nth_o_fun g0 n _ L) in G1. cbn [obind] in G1. rewrite map_map, (but_peers (fun x => snd (g0 x)) i n I) in G1. exact G1. }
  assert (F2 : forall i, 1 <= i <= n -> kg_r2 C Hb ck cd (fst (g1 (i - 1))) (kr_coefs (rs (i - 1))) (map (fun j => snd (g1 (j - 1))) (peers i n)) = Ok (g2 (i - 1))).
  { intros i I. assert (L : i - 1 < n) by lia. specialize (G2 (i - 1) L). rewrite (nth_o_fun g1 n _ L) in G2. cbn [obind] in G2. rewrite map_map, (but_peers (fun x => snd (g1 x)) i n I) in G2. exact G2. }
  assert (F4 : forall i, 1 <= i <= n -> kg_r4 C Hf (fst (g3 (i - 1))) (map (fun j => snd (g3 (j - 1))) (peers i n)) = Ok (g4 (i - 1))).
  { intros i I. assert (L : i - 1 < n) by lia. specialize (G4 (i - 1) L). rewrite (nth_o_fun g3 n _ L) in G4. cbn [obind] in G4. rewrite map_map, (but_peers (fun x => snd (g3 x)) i n I) in G4. exact G4. }
  (* rounds 0 to 2, so that the addressees of round 3 are known *)
  assert (S0 : forall i, 1 <= i <= n -> kg_step C Hb Hf ck cd (rs (i - 1)) 0 (KR0 i t n) [] = Ok (KR1 (fst (g0 (i - 1))), bcast i (KM1 (snd (g0 (i - 1)))))).
  { intros i I. assert (L : i - 1 < n) by lia. specialize (G0 (i - 1) L). replace (S (i - 1)) with i in G0 by lia. unfold kg_step. rewrite G0. reflexivity. }
  assert (A1 : forall i, 1 <= i <= n -> kg_good C i n 1 (KR1 (fst (g0 (i - 1))))) by (intros i I; apply (kg_good_step C Hb Hf ck cd (rs (i - 1)) i n 0 (KR0 i t n) [] _ _ (Nat.le_0_l 4) (conj eq_refl (conj eq_refl eq_refl)) (S0 i I))).
  assert (S1 : forall i, 1 <= i <= n -> kg_step C Hb Hf ck cd (rs (i - 1)) 1 (KR1 (fst (g0 (i - 1)))) (map (fun j => KM1 (snd (g0 (j - 1)))) (peers i n)) = Ok (KR2 (fst (g1 (i - 1))), bcast i (KM2 (snd (g1 (i - 1)))))).
  { intros i I. unfold kg_step. rewrite (omapM_map_ok _ _ (fun j => snd (g0 (j - 1)))) by reflexivity. cbn [obind]. rewrite (F1 i I). cbn [obind]. destruct (A1 i I) as [_ [-> _]]. reflexivity. }
  assert (A2 : forall i, 1 <= i <= n -> kg_good C i n 2 (KR2 (fst (g1 (i - 1))))) by (intros i I; assert (L : 1 <= 4) by lia; apply (kg_good_step C Hb Hf ck cd (rs (i - 1)) i n 1 _ _ _ _ L (A1 i I) (S1 i I))).
  assert (S2 : forall i, 1 <= i <= n -> kg_step C Hb Hf ck cd (rs (i - 1)) 2 (KR2 (fst (g1 (i - 1)))) (map (fun j => KM2 (snd (g1 (j - 1)))) (peers i n)) =
     Ok (KR3 (fst (g2 (i - 1))), map (fun y => {| m_from := i; m_to := Some (fst y); m_body := KM3 (snd y) |}) (snd (g2 (i - 1))))).
  { intros i I. unfold kg_step. rewrite (omapM_map_ok _ _ (fun j => snd (g1 (j - 1)))) by reflexivity. cbn [obind]. rewrite (F2 i I). cbn [obind]. destruct (A2 i I) as [_ [-> _]]. reflexivity. }
  assert (L2 : 2 <= 4) by lia.
  assert (A3 : forall i, 1 <= i <= n -> kg_good C i n 3 (KR3 (fst (g2 (i - 1)))) /\ map fst (snd (g2 (i - 1))) = peers i n).
  { intros i I. destruct (kg_good_step C Hb Hf ck cd (rs (i - 1)) i n 2 _ _ _ _ L2 (A2 i I) (S2 i I)) as [Q1 Q2]. split; [exact Q1|]. unfold round_tags in Q2. cbn [Nat.eqb kg_p2p] in Q2. exact (tags_fst (kg_of C) KM3 i _ 3 _ Q2). }
  destruct (snd (g2 0)) as [|[x0 d] rest] eqn:Q0.
  { exfalso. assert (I1 : 1 <= 1 <= n) by lia. destruct (A3 1 I1) as [_ A]. cbn [Nat.sub] in A. rewrite Q0 in A. apply (f_equal (@length nat)) in A. rewrite (peers_length 1 n I1) in A. cbn in A. lia. }
  clear Q0 x0 rest. set (b3 := fun j i => pick_for d (snd (g2 (j - 1))) i).
  assert (B3 : forall j, 1 <= j <= n -> snd (g2 (j - 1)) = map (fun i => (i, b3 j i)) (peers j n)).
  { intros j J. destruct (A3 j J) as [_ A]. rewrite <- A. apply pick_for_map. rewrite A. apply peers_nodup. }
  assert (F3 : forall i, 1 <= i <= n -> kg_r3 C Hf (fst (g2 (i - 1))) (kr_nonce (rs (i - 1))) (map (fun j => b3 j i) (peers i n)) = Ok (g3 (i - 1))).
  { intros i I. assert (L : i - 1 < n) by lia. specialize (G3 (i - 1) L). rewrite (nth_o_fun g2 n _ L) in G3. cbn [obind] in G3. replace (S (i - 1)) with i in G3 by lia. rewrite map_map, (but_peers (fun x => snd (g2 x)) i n I) in G3.
    rewrite (omapM_map_ok _ _ (fun j => b3 j i)) in G3; [exact G3|]. intros j J. apply (in_peers i n I) in J. apply addressed_pick. rewrite (proj2 (A3 j (proj1 J))). apply (in_peers j n (proj1 J)). lia. }
  clear G1 G2 G3 G4.
  exists (fun i k => match k with 0 => KR0 i t n | 1 => KR1 (fst (g0 (i - 1))) | 2 => KR2 (fst (g1 (i - 1))) | 3 => KR3 (fst (g2 (i - 1))) | 4 => KR4 (fst (g3 (i - 1))) | _ => KFinal (g4 (i - 1)) end).
  exists (fun k j i => match k with 1 => KM1 (snd (g0 (j - 1))) | 2 => KM2 (snd (g1 (j - 1))) | 3 => KM3 (b3 j i) | _ => KM4 (snd (g3 (j - 1))) end).
  split; [reflexivity|]. split; [|split; [rewrite map_length; apply seq_length|split; [|split]]].
  - intros i lk Q. rewrite nth_error_map in Q. destruct (nth_error (seq 0 n) i) as [x|] eqn:X; [|discriminate]. cbn in Q. injection Q as <-.
    assert (Li : i < n) by (rewrite <- (seq_length n 0); apply nth_error_Some; congruence). rewrite (nth_error_nth' _ 0) in X by (rewrite seq_length; exact Li). rewrite seq_nth in X by exact Li. injection X as <-. cbn [Nat.sub]. rewrite Nat.sub_0_r. reflexivity.
  - intros k j i L. destruct k as [|[|[|[|[|k]]]]]; [lia|reflexivity|reflexivity|reflexivity|reflexivity|lia].
  - intros k j i L. destruct k as [|[|[|[|k]]]]; [reflexivity|reflexivity|reflexivity|discriminate|reflexivity].
  - intros i k I L. cbn [kgp g_step]. destruct k as [|[|[|[|[|k]]]]]; [| | | | |lia].
    + exact (S0 i I).
    + exact (S1 i I).
    + unfold inp, mo. cbn [Nat.eqb kg_p2p]. rewrite (S2 i I), (B3 i I), map_map. reflexivity.
    + unfold inp, mo. cbn [Nat.eqb kg_p2p]. unfold kg_step. rewrite (omapM_map_ok _ _ (fun j => b3 j i)) by reflexivity. cbn [obind]. rewrite (F3 i I). cbn [obind]. destruct (proj1 (A3 i I)) as [_ [-> _]]. reflexivity.
    + unfold inp, mo. cbn [Nat.eqb kg_p2p]. unfold kg_step. rewrite (omapM_map_ok _ _ (fun j => snd (g3 (j - 1)))) by reflexivity. cbn [obind]. rewrite (F4 i I). reflexivity.
Qed.

Lemma kg_good_msgs i k d l d' o : 1 <= i <= n -> k <= 4 -> kg_good C i n k d -> g_step (pp i) k d l = Ok (d', o) ->
  kg_good C i n (S k) d' /\ forall m, In m o -> m_from m = i /\ kg_of C (m_body m) = S k.
Proof.
  intros I L G E. cbn [kgp g_step] in E. destruct (kg_good_step C Hb Hf ck cd (rs (i - 1)) i n k d l d' o L G E) as [Q1 Q2]. split; [exact Q1|]. intros m M.
  apply (in_map (mtag (kgp C Hb Hf ck cd (rs (i - 1)) i n))) in M. rewrite Q2 in M. apply round_tags_spec in M. destruct M as [M1 [M2 _]]. split; [exact M1|exact M2].
Qed.


Notation opf := (fun i => kg_op C Hb Hf ck cd (rs (i - 1))).
Notation enab := (enabled (@kg_wants_to_proceed C) (@ks_queue C)).

Lemma kg_network lks sts acts : 2 <= n -> kg_run C Hb Hf ck cd t n rs = Ok lks -> sts = map (fun i => kg_start C i t n) (seq 1 n) ->
  let w0 := {| nt_st := sts; nt_wire := [] |} in let w := fst (net_exec opf w0 acts) in
  (forall e, In e (snd (net_exec opf w0 acts)) -> call_ok e) /\
  work opf (@kg_wants_to_proceed C) (@ks_queue C) w0 acts <= 5 * (n * n) + 3 * n /\
  (forall a, enab w a = false -> fst (net_step opf w a) = w) /\
  (forall i lk, nth_error lks i = Some lk -> exists s, party w (S i) = Some s /\ (kg_is_finished s = true -> ks_round s = KFinal lk)) /\
  ((forall a, enab w a = false) -> forall i lk, nth_error lks i = Some lk -> exists s, party w (S i) = Some s /\ ks_round s = KFinal lk).
Proof.
  intros N2 E ->. cbn zeta. destruct (kg_honest lks N2 E) as [D [body [D0 [DF [LL [Hbody [Hbc Hstep]]]]]]].
  assert (A1 : forall r : ret mp_error (kg_msg C) (local_key C), drained [kg_ret C r] = drained [r]) by (intros [o|l|o]; reflexivity).
  assert (A2 : forall e : nat * op (kg_msg C) * ret mp_error (kg_msg C) (local_key C), call_ok (ent_abs (kg_ret C) e) -> call_ok e) by (intros [[i o] [r|l|r]] X; [exact X|exact X|contradiction]).
  assert (A3 : forall i s o, kg_abs C (fst (kg_op C Hb Hf ck cd (rs (i - 1)) s o)) = kg_abs C s -> fst (kg_op C Hb Hf ck cd (rs (i - 1)) s o) = s).
  { intros i s o X. pose proof (kg_op_const C Hb Hf ck cd (rs (i - 1)) s o) as [Q1 Q2]. exact (kg_abs_inj C _ _ X Q1 Q2). }
  assert (A4 : map (kg_abs C) (map (fun i => kg_start C i t n) (seq 1 n)) = map (fun i => g_init (pp i) (D i 0)) (seq 1 n)).
  { rewrite map_map. apply map_ext. intros i. rewrite (kg_start_sim C Hb Hf ck cd (rs (i - 1))), D0. reflexivity. }
  pose proof (lift_network (kg_abs C) (kg_ret C) opf (@kg_wants_to_proceed C) (@ks_queue C) n 4 (kg_of C) kg_p2p pp (map (fun i => kg_start C i t n) (seq 1 n)) D body (fun i => kg_good C i n)
    (fun i s o => kg_op_sim C Hb Hf ck cd (rs (i - 1)) i n s o) A1 A2 A3 (kg_wants_sim C) (fun s => eq_refl) A4 (fun i => eq_refl) (fun i => eq_refl) (fun i => eq_refl) (fun i => eq_refl) (fun i => eq_refl)
    (fun b => kgp_of C Hb Hf ck cd (rs 0) 1 n b) (fun i k => kgp_exp C Hb Hf ck cd (rs (i - 1)) i n k) Hbody Hbc Hstep) as LN.
  assert (G0 : forall i, 1 <= i <= n -> kg_good C i n 0 (D i 0)) by (intros i _; rewrite D0; exact (conj eq_refl (conj eq_refl eq_refl))).
  specialize (LN G0 kg_good_msgs acts). cbn zeta in LN. unfold net0 in LN. destruct LN as [L1 [L2 [L3 [L4 L5]]]].
  assert (IN : forall i lk, nth_error lks i = Some lk -> 1 <= S i <= n) by (intros i lk X; assert (i < length lks) by (apply nth_error_Some; congruence); lia).
  refine (conj L1 (conj _ (conj L3 (conj _ _)))).
  - refine (Nat.le_trans _ _ _ L2 _). unfold msgs, list_sum. cbn [seq map fold_right kg_p2p Nat.eqb]. nia.
  - intros i lk X. destruct (L4 (S i) (IN i lk X)) as [s [S1 S2]]. exists s. split; [exact S1|]. intros F.
    destruct S2 as [[k [_ S2]]|S2]; [unfold kg_is_finished in F; cbn [kg_abs gs_round] in S2; destruct (ks_round s); discriminate|].
    destruct (kg_abs_inj_round C s _ S2) as [y [Y1 Y2]]. rewrite (DF i lk X) in Y2. rewrite Y1. injection Y2 as ->. reflexivity.
  - intros Q i lk X. destruct (L5 Q (S i) (IN i lk X)) as [s [S1 S2]]. exists s. split; [exact S1|].
    destruct (kg_abs_inj_round C s _ S2) as [y [Y1 Y2]]. rewrite (DF i lk X) in Y2. rewrite Y1. injection Y2 as ->. reflexivity.
Qed.
End Kg.

(** ** OfflineStage *)
Section Sg.
Context (C : Curve).
Context (Hb : list Z -> Z) (Hz : hashZ C) (Hf : hashF C) (sl : list nat) (lk : nat -> local_key C) (rs : nat -> sign_rand C).
Notation n := (length sl).
Notation pp := (fun i => sgp C Hb Hz Hf (rs (i - 1)) i n).

Lemma sg_honest cs : 2 <= n -> sg_run C Hb Hz Hf sl lk rs = Ok cs -> exists (D : nat -> nat -> sg_st C) (body : nat -> nat -> nat -> sg_msg C),
  (forall i, D i 0 = SR0 i sl (lk (i - 1))) /\ (forall i c, nth_error cs i = Some c -> D (S i) 7 = SFinished c) /\ length cs = n /\
  (forall k j i, 1 <= k <= 6 -> sg_of C (body k j i) = k) /\ (forall k j i, sg_p2p k = false -> body k j i = body k j 0) /\
  (forall i k, 1 <= i <= n -> k <= 6 -> g_step (pp i) k (D i k) (inp n body i k) = Ok (D i (S k), mo n 6 sg_p2p body i k)).
Proof.
  intros N2 E. unfold sg_run, sg_pre in E. cbn zeta in E. apply obind_ok in E. destruct E as [l2 [E2 E]]. apply obind_ok in E2. destruct E2 as [l0 [E0 E2]]. apply obind_ok in E2. destruct E2 as [l1 [E1 E2]].
  apply obind_ok in E. destruct E as [l3 [E3 E]]. apply obind_ok in E. destruct E as [l4 [E4 E]]. apply obind_ok in E. destruct E as [l5 [E5 E6]].
  assert (N0 : 0 < n) by lia.
  apply omapM_fun in E0; [|exact N0]. destruct E0 as [g0 [G0 ->]]. apply omapM_fun in E1; [|exact N0]. destruct E1 as [g1 [G1 ->]]. apply omapM_fun in E2; [|exact N0]. destruct E2 as [g2 [G2 ->]].
  apply omapM_fun in E3; [|exact N0]. destruct E3 as [g3 [G3 ->]]. apply omapM_fun in E4; [|exact N0]. destruct E4 as [g4 [G4 ->]]. apply omapM_fun in E5; [|exact N0]. destruct E5 as [g5 [G5 ->]]. apply omapM_fun in E6; [|exact N0]. destruct E6 as [g6 [G6 ->]].
  assert (F1 : forall i, 1 <= i <= n -> sg_r1 Hz Hf (fst (g0 (i - 1))) (rs (i - 1)) (map (fun j => snd (g0 (j - 1))) (peers i n)) = Ok (g1 (i - 1))).
  { intros i I. assert (L : i - 1 < n) by lia. specialize (G1 (i - 1) L). rewrite (nth_o_fun g0 n _ L) in G1. cbn [obind] in G1. rewrite map_map, (but_peers (fun x => snd (g0 x)) i n I) in G1. exact G1. }
  assert (F3 : forall i, 1 <= i <= n -> sg_r3 Hf (fst (g2 (i - 1))) (map (fun j => snd (g2 (j - 1))) (peers i n)) = Ok (g3 (i - 1))).
  { intros i I. assert (L : i - 1 < n) by lia. specialize (G3 (i - 1) L). rewrite (nth_o_fun g2 n _ L) in G3. cbn [obind] in G3. rewrite map_map, (but_peers (fun x => snd (g2 x)) i n I) in G3. exact G3. }
  assert (F4 : forall i, 1 <= i <= n -> sg_r4 Hb Hz (fst (g3 (i - 1))) (rs (i - 1)) (map (fun j => snd (g3 (j - 1))) (peers i n)) = Ok (g4 (i - 1))).
  { intros i I. assert (L : i - 1 < n) by lia. specialize (G4 (i - 1) L). rewrite (nth_o_fun g3 n _ L) in G4. cbn [obind] in G4. rewrite map_map, (but_peers (fun x => snd (g3 x)) i n I) in G4. exact G4. }
  assert (F5 : forall i, 1 <= i <= n -> sg_r5 Hz Hf (fst (g4 (i - 1))) (rs (i - 1)) (map (fun j => snd (g4 (j - 1))) (peers i n)) = Ok (g5 (i - 1))).
  { intros i I. assert (L : i - 1 < n) by lia. specialize (G5 (i - 1) L). rewrite (nth_o_fun g4 n _ L) in G5. cbn [obind] in G5. rewrite map_map, (but_peers (fun x => snd (g4 x)) i n I) in G5. exact G5. }
  assert (F6 : forall i, 1 <= i <= n -> sg_r6 Hf (fst (g5 (i - 1))) (map (fun j => snd (g5 (j - 1))) (peers i n)) = Ok (g6 (i - 1))).
  { intros i I. assert (L : i - 1 < n) by lia. specialize (G6 (i - 1) L). rewrite (nth_o_fun g5 n _ L) in G6. cbn [obind] in G6. rewrite map_map, (but_peers (fun x => snd (g5 x)) i n I) in G6. exact G6. }
  assert (S0 : forall i, 1 <= i <= n -> sg_step C Hb Hz Hf (rs (i - 1)) 0 (SR0 i sl (lk (i - 1))) [] = Ok (SR1 (fst (g0 (i - 1))), sbcast i (SM1 (snd (g0 (i - 1)))))).
  { intros i I. assert (L : i - 1 < n) by lia. specialize (G0 (i - 1) L). replace (S (i - 1)) with i in G0 by lia. unfold sg_step. rewrite G0. reflexivity. }
  assert (A1 : forall i, 1 <= i <= n -> sg_good C i n 1 (SR1 (fst (g0 (i - 1))))) by (intros i I; apply (sg_good_step C Hb Hz Hf (rs (i - 1)) i n I 0 (SR0 i sl (lk (i - 1))) [] _ _ (Nat.le_0_l 6) (conj eq_refl (conj eq_refl eq_refl)) (S0 i I))).
  assert (S1 : forall i, 1 <= i <= n -> sg_step C Hb Hz Hf (rs (i - 1)) 1 (SR1 (fst (g0 (i - 1)))) (map (fun j => SM1 (snd (g0 (j - 1)))) (peers i n)) =
     Ok (SR2 (fst (g1 (i - 1))), map (fun y => {| m_from := i; m_to := Some (fst y); m_body := SM2 (snd y) |}) (snd (g1 (i - 1))))).
  { intros i I. unfold sg_step. rewrite (omapM_map_ok _ _ (fun j => snd (g0 (j - 1)))) by reflexivity. cbn [obind]. rewrite (F1 i I). cbn [obind]. destruct (A1 i I) as [_ [-> _]]. reflexivity. }
  assert (K1 : 1 <= 6) by lia.
  assert (A2 : forall i, 1 <= i <= n -> sg_good C i n 2 (SR2 (fst (g1 (i - 1)))) /\ map fst (snd (g1 (i - 1))) = peers i n).
  { intros i I. destruct (sg_good_step C Hb Hz Hf (rs (i - 1)) i n I 1 _ _ _ _ K1 (A1 i I) (S1 i I)) as [Q1 Q2]. split; [exact Q1|]. unfold round_tags in Q2. cbn [Nat.eqb sg_p2p] in Q2. exact (tags_fst (sg_of C) SM2 i _ 2 _ Q2). }
  destruct (snd (g1 0)) as [|[x0 d] rest] eqn:Q0.
  { exfalso. assert (I1 : 1 <= 1 <= n) by lia. destruct (A2 1 I1) as [_ A]. cbn [Nat.sub] in A. rewrite Q0 in A. apply (f_equal (@length nat)) in A. rewrite (peers_length 1 n I1) in A. cbn in A. lia. }
  clear Q0 x0 rest. set (b2 := fun j i => pick_for d (snd (g1 (j - 1))) i).
  assert (B2 : forall j, 1 <= j <= n -> snd (g1 (j - 1)) = map (fun i => (i, b2 j i)) (peers j n)).
  { intros j J. destruct (A2 j J) as [_ A]. rewrite <- A. apply pick_for_map. rewrite A. apply peers_nodup. }
  assert (F2 : forall i, 1 <= i <= n -> sg_r2 Hf (fst (g1 (i - 1))) (rs (i - 1)) (map (fun j => b2 j i) (peers i n)) = Ok (g2 (i - 1))).
  { intros i I. assert (L : i - 1 < n) by lia. specialize (G2 (i - 1) L). rewrite (nth_o_fun g1 n _ L) in G2. cbn [obind] in G2. replace (S (i - 1)) with i in G2 by lia. rewrite map_map, (but_peers (fun x => snd (g1 x)) i n I) in G2.
    rewrite (omapM_map_ok _ _ (fun j => b2 j i)) in G2; [exact G2|]. intros j J. apply (in_peers i n I) in J. apply addressed_pick. rewrite (proj2 (A2 j (proj1 J))). apply (in_peers j n (proj1 J)). lia. }
  clear G0 G1 G2 G3 G4 G5 G6.
  assert (K2 : 2 <= 6) by lia. assert (K3 : 3 <= 6) by lia. assert (K4 : 4 <= 6) by lia. assert (K5 : 5 <= 6) by lia.
  assert (S2 : forall i, 1 <= i <= n -> sg_step C Hb Hz Hf (rs (i - 1)) 2 (SR2 (fst (g1 (i - 1)))) (map (fun j => SM2 (b2 j i)) (peers i n)) = Ok (SR3 (fst (g2 (i - 1))), sbcast i (SM3 (snd (g2 (i - 1)))))).
  { intros i I. unfold sg_step. rewrite (omapM_map_ok _ _ (fun j => b2 j i)) by reflexivity. cbn [obind]. rewrite (F2 i I). cbn [obind]. destruct (proj1 (A2 i I)) as [_ ->]. reflexivity. }
  assert (A3 : forall i, 1 <= i <= n -> sg_good C i n 3 (SR3 (fst (g2 (i - 1))))) by (intros i I; apply (sg_good_step C Hb Hz Hf (rs (i - 1)) i n I 2 _ _ _ _ K2 (proj1 (A2 i I)) (S2 i I))).
  assert (S3 : forall i, 1 <= i <= n -> sg_step C Hb Hz Hf (rs (i - 1)) 3 (SR3 (fst (g2 (i - 1)))) (map (fun j => SM3 (snd (g2 (j - 1)))) (peers i n)) = Ok (SR4 (fst (g3 (i - 1))), sbcast i (SM4 (snd (g3 (i - 1)))))).
  { intros i I. unfold sg_step. rewrite (omapM_map_ok _ _ (fun j => snd (g2 (j - 1)))) by reflexivity. cbn [obind]. rewrite (F3 i I). cbn [obind]. destruct (A3 i I) as [_ ->]. reflexivity. }
  assert (A4 : forall i, 1 <= i <= n -> sg_good C i n 4 (SR4 (fst (g3 (i - 1))))) by (intros i I; apply (sg_good_step C Hb Hz Hf (rs (i - 1)) i n I 3 _ _ _ _ K3 (A3 i I) (S3 i I))).
  assert (S4 : forall i, 1 <= i <= n -> sg_step C Hb Hz Hf (rs (i - 1)) 4 (SR4 (fst (g3 (i - 1)))) (map (fun j => SM4 (snd (g3 (j - 1)))) (peers i n)) = Ok (SR5 (fst (g4 (i - 1))), sbcast i (SM5 (snd (g4 (i - 1)))))).
  { intros i I. unfold sg_step. rewrite (omapM_map_ok _ _ (fun j => snd (g3 (j - 1)))) by reflexivity. cbn [obind]. rewrite (F4 i I). cbn [obind]. destruct (A4 i I) as [_ ->]. reflexivity. }
  assert (A5 : forall i, 1 <= i <= n -> sg_good C i n 5 (SR5 (fst (g4 (i - 1))))) by (intros i I; apply (sg_good_step C Hb Hz Hf (rs (i - 1)) i n I 4 _ _ _ _ K4 (A4 i I) (S4 i I))).
  exists (fun i k => match k with 0 => SR0 i sl (lk (i - 1)) | 1 => SR1 (fst (g0 (i - 1))) | 2 => SR2 (fst (g1 (i - 1))) | 3 => SR3 (fst (g2 (i - 1))) | 4 => SR4 (fst (g3 (i - 1))) | 5 => SR5 (fst (g4 (i - 1))) | 6 => SR6 (fst (g5 (i - 1))) | _ => SFinished (g6 (i - 1)) end).
  exists (fun k j i => match k with 1 => SM1 (snd (g0 (j - 1))) | 2 => SM2 (b2 j i) | 3 => SM3 (snd (g2 (j - 1))) | 4 => SM4 (snd (g3 (j - 1))) | 5 => SM5 (snd (g4 (j - 1))) | _ => SM6 (snd (g5 (j - 1))) end).
  split; [reflexivity|]. split; [|split; [rewrite map_length; apply seq_length|split; [|split]]].
  - intros i c Q. rewrite nth_error_map in Q. destruct (nth_error (seq 0 n) i) as [x|] eqn:X; [|discriminate]. cbn in Q. injection Q as <-.
    assert (Li : i < n) by (rewrite <- (seq_length n 0); apply nth_error_Some; congruence). rewrite (nth_error_nth' _ 0) in X by (rewrite seq_length; exact Li). rewrite seq_nth in X by exact Li. injection X as <-. cbn [Nat.sub]. rewrite Nat.sub_0_r. reflexivity.
  - intros k j i L. destruct k as [|[|[|[|[|[|[|k]]]]]]]; [lia|reflexivity|reflexivity|reflexivity|reflexivity|reflexivity|reflexivity|lia].
  - intros k j i L. destruct k as [|[|[|[|[|[|k]]]]]]; [reflexivity|reflexivity|discriminate|reflexivity|reflexivity|reflexivity|reflexivity].
  - intros i k I L. cbn [sgp g_step]. destruct k as [|[|[|[|[|[|[|k]]]]]]]; [| | | | | | |lia].
    + exact (S0 i I).
    + unfold inp, mo. cbn [Nat.eqb sg_p2p]. rewrite (S1 i I), (B2 i I), map_map. reflexivity.
    + exact (S2 i I).
    + exact (S3 i I).
    + exact (S4 i I).
    + unfold inp, mo. cbn [Nat.eqb sg_p2p]. unfold sg_step. rewrite (omapM_map_ok _ _ (fun j => snd (g4 (j - 1)))) by reflexivity. cbn [obind]. rewrite (F5 i I). cbn [obind]. destruct (A5 i I) as [_ ->]. reflexivity.
    + unfold inp, mo. cbn [Nat.eqb sg_p2p]. unfold sg_step. rewrite (omapM_map_ok _ _ (fun j => snd (g5 (j - 1)))) by reflexivity. cbn [obind]. rewrite (F6 i I). reflexivity.
Qed.

Lemma sg_good_msgs i k d l d' o : 1 <= i <= n -> k <= 6 -> sg_good C i n k d -> g_step (pp i) k d l = Ok (d', o) ->
  sg_good C i n (S k) d' /\ forall m, In m o -> m_from m = i /\ sg_of C (m_body m) = S k.
Proof.
  intros I L G E. cbn [sgp g_step] in E. destruct (sg_good_step C Hb Hz Hf (rs (i - 1)) i n I k d l d' o L G E) as [Q1 Q2]. split; [exact Q1|]. intros m M.
  apply (in_map (mtag (sgp C Hb Hz Hf (rs (i - 1)) i n))) in M. rewrite Q2 in M. apply round_tags_spec in M. destruct M as [M1 [M2 _]]. split; [exact M1|exact M2].
Qed.

Notation opf := (fun i => sg_op C Hb Hz Hf (rs (i - 1))).
Notation enab := (enabled (@sg_wants_to_proceed C) (@sm_queue C)).

Lemma sg_network cs sts acts : 2 <= n -> sg_run C Hb Hz Hf sl lk rs = Ok cs -> sts = map (fun i => sg_start C i sl (lk (i - 1))) (seq 1 n) ->
  let w0 := {| nt_st := sts; nt_wire := [] |} in let w := fst (net_exec opf w0 acts) in
  (forall e, In e (snd (net_exec opf w0 acts)) -> call_ok e) /\
  work opf (@sg_wants_to_proceed C) (@sm_queue C) w0 acts <= 7 * (n * n) + 5 * n /\
  (forall a, enab w a = false -> fst (net_step opf w a) = w) /\
  (forall i c, nth_error cs i = Some c -> exists s, party w (S i) = Some s /\ (sg_is_finished s = true -> sm_round s = SFinished c)) /\
  ((forall a, enab w a = false) -> forall i c, nth_error cs i = Some c -> exists s, party w (S i) = Some s /\ sm_round s = SFinished c).
Proof.
  intros N2 E ->. cbn zeta. destruct (sg_honest cs N2 E) as [D [body [D0 [DF [LL [Hbody [Hbc Hstep]]]]]]].
  assert (A1 : forall r : ret mp_error (sg_msg C) (completed C), drained [sg_ret C r] = drained [r]) by (intros [o|l|o]; reflexivity).
  assert (A2 : forall e : nat * op (sg_msg C) * ret mp_error (sg_msg C) (completed C), call_ok (ent_abs (sg_ret C) e) -> call_ok e) by (intros [[i o] [r|l|r]] X; [exact X|exact X|contradiction]).
  assert (A3 : forall i s o, sg_abs C (fst (sg_op C Hb Hz Hf (rs (i - 1)) s o)) = sg_abs C s -> fst (sg_op C Hb Hz Hf (rs (i - 1)) s o) = s).
  { intros i s o X. pose proof (sg_op_const C Hb Hz Hf (rs (i - 1)) s o) as [Q1 Q2]. exact (sg_abs_inj C _ _ X Q1 Q2). }
  assert (A4 : map (sg_abs C) (map (fun i => sg_start C i sl (lk (i - 1))) (seq 1 n)) = map (fun i => g_init (pp i) (D i 0)) (seq 1 n)).
  { rewrite map_map. apply map_ext. intros i. rewrite (sg_start_sim C Hb Hz Hf (rs (i - 1))), D0. reflexivity. }
  pose proof (lift_network (sg_abs C) (sg_ret C) opf (@sg_wants_to_proceed C) (@sm_queue C) n 6 (sg_of C) sg_p2p pp (map (fun i => sg_start C i sl (lk (i - 1))) (seq 1 n)) D body (fun i => sg_good C i n)
    (fun i s o => sg_op_sim C Hb Hz Hf (rs (i - 1)) i n s o) A1 A2 A3 (sg_wants_sim C) (fun s => eq_refl) A4 (fun i => eq_refl) (fun i => eq_refl) (fun i => eq_refl) (fun i => eq_refl) (fun i => eq_refl)
    (fun b => sgp_of C Hb Hz Hf (rs 0) 1 n b) (fun i k => sgp_exp C Hb Hz Hf (rs (i - 1)) i n k) Hbody Hbc Hstep) as LN.
  assert (G0 : forall i, 1 <= i <= n -> sg_good C i n 0 (D i 0)) by (intros i _; rewrite D0; exact (conj eq_refl (conj eq_refl eq_refl))).
  specialize (LN G0 sg_good_msgs acts). cbn zeta in LN. unfold net0 in LN. destruct LN as [L1 [L2 [L3 [L4 L5]]]].
  assert (IN : forall i c, nth_error cs i = Some c -> 1 <= S i <= n) by (intros i c X; assert (i < length cs) by (apply nth_error_Some; congruence); lia).
  assert (FF : forall s d, gs_round (sg_abs C s) = GFinal d -> d = sm_round s) by (intros s d X; cbn [sg_abs gs_round] in X; destruct (sm_round s); cbn [sg_abs_round] in X; congruence).
  refine (conj L1 (conj _ (conj L3 (conj _ _)))).
  - refine (Nat.le_trans _ _ _ L2 _). unfold msgs, list_sum. cbn [seq map fold_right sg_p2p Nat.eqb]. nia.
  - intros i c X. destruct (L4 (S i) (IN i c X)) as [s [S1 S2]]. exists s. split; [exact S1|]. intros F.
    destruct S2 as [[k [_ S2]]|S2]; [unfold sg_is_finished in F; cbn [sg_abs gs_round] in S2; destruct (sm_round s); discriminate|].
    rewrite <- (FF s _ S2). exact (DF i c X).
  - intros Q i c X. destruct (L5 Q (S i) (IN i c X)) as [s [S1 S2]]. exists s. split; [exact S1|]. rewrite <- (FF s _ S2). exact (DF i c X).
Qed.
End Sg.

(** ** A schedule can always be continued until nothing is left to do. *)
Section Finish.
Context {S P B O : Type} (opf : nat -> S -> op B -> S * ret P B O) (wants : S -> bool) (queue : S -> list (msg B)) (w0 : net S B) (bound : nat).
Hypothesis Hbound : forall acts, work opf wants queue w0 acts <= bound.
Definition some_action (w : net S B) : list nact := NDeliver 0 :: flat_map (fun i => [NProceed i; NSend i]) (seq 1 (nparties w)).
Lemma quiet_or_not w : (forall a, enabled wants queue w a = false) \/ exists a, enabled wants queue w a = true.
Proof.
  destruct (existsb (enabled wants queue w) (some_action w)) eqn:E; [right; apply existsb_exists in E; destruct E as [a [_ E]]; eauto|left].
  assert (Q : forall a, In a (some_action w) -> enabled wants queue w a = false).
  { intros a A. destruct (enabled wants queue w a) eqn:X; [|reflexivity]. rewrite <- E. symmetry. apply existsb_exists. eauto. }
  assert (PN : forall i s, party w i = Some s -> In i (seq 1 (nparties w))).
  { intros [|k] s X; [discriminate|]. cbn [party] in X. apply in_seq. unfold nparties. assert (k < length (nt_st w)) by (apply nth_error_Some; congruence). lia. }
  intros [x|i|i].
  - pose proof (Q (NDeliver 0) (or_introl eq_refl)) as Z. cbn [enabled] in *. destruct (nt_wire w); [reflexivity|discriminate].
  - destruct (party w i) as [s|] eqn:X; [|cbn [enabled]; rewrite X; reflexivity]. apply Q. right. apply in_flat_map. exists i. split; [exact (PN i s X)|left; reflexivity].
  - destruct (party w i) as [s|] eqn:X; [|cbn [enabled]; rewrite X; reflexivity]. apply Q. right. apply in_flat_map. exists i. split; [exact (PN i s X)|right; left; reflexivity].
Qed.
Lemma can_finish acts : exists more, forall a, enabled wants queue (fst (net_exec opf w0 (acts ++ more))) a = false.
Proof.
  assert (Q : forall d acts, bound - work opf wants queue w0 acts <= d -> exists more, forall a, enabled wants queue (fst (net_exec opf w0 (acts ++ more))) a = false).
  { clear acts. induction d as [|d IH]; intros acts D; (destruct (quiet_or_not (fst (net_exec opf w0 acts))) as [Z|[a A]]; [exists []; rewrite app_nil_r; exact Z|]);
      pose proof (work_snoc opf wants queue w0 acts a) as W; rewrite A in W; pose proof (Hbound (acts ++ [a])) as H1; pose proof (Hbound acts) as H2; [lia|].
    destruct (IH (acts ++ [a])) as [more M]; [lia|]. exists (a :: more). rewrite <- app_assoc in M. exact M. }
  exact (Q _ acts (le_n _)).
Qed.
End Finish.

(** ** Histories of calls, one per party, in place of schedules *)
(** Every message handed to party i was sent by some party to i. *)
Definition genuine {B} (n : nat) (sent : nat -> list (msg B)) (H : nat -> list (op B)) : Prop :=
  forall i m, 1 <= i <= n -> In m (deliveries (H i)) -> exists j, 1 <= j <= n /\ In m (sent j) /\ In i (receivers n j m).
(** Every message sent was handed to each of its receivers (at least once). *)
Definition all_delivered {B} (n : nat) (sent : nat -> list (msg B)) (H : nat -> list (op B)) : Prop :=
  forall i j m, 1 <= i <= n -> 1 <= j <= n -> In m (sent j) -> In i (receivers n j m) -> In m (deliveries (H i)).

Section KgHist.
Context (C : Curve).
Context (Hb : list Z -> Z) (Hf : hashF C) (ck : Z -> Z -> bool) (cd : Z -> dlstmt -> outcome mp_error bool) (t n : nat) (rs : nat -> kg_rand C).
Notation pp := (fun i => kgp C Hb Hf ck cd (rs (i - 1)) i n).
Lemma kg_histories lks (H : nat -> list (op (kg_msg C))) st rets : 2 <= n -> kg_run C Hb Hf ck cd t n rs = Ok lks ->
  (forall i, 1 <= i <= n -> kg_hist C Hb Hf ck cd (rs (i - 1)) i t n (H i) (st i) (rets i)) ->
  let sent := fun i => drained (rets i) ++ ks_queue (st i) in genuine n sent H ->
  (forall i, 1 <= i <= n -> failures (rets i) = []) /\
  (all_delivered n sent H -> (forall i, 1 <= i <= n -> kg_wants_to_proceed (st i) = false) ->
   forall i lk, nth_error lks i = Some lk -> (ks_round (st (S i)) = KFinal lk /\ picks (rets (S i)) = []) \/ picks (rets (S i)) = [lk]).
Proof.
  intros N2 E HH snt GE. destruct (kg_honest C Hb Hf ck cd t n rs lks N2 E) as [D [body [D0 [DF [LL [Hbody [Hbc Hstep]]]]]]].
  assert (RR : forall i, 1 <= i <= n -> kg_abs C (st i) = fst (run_ops (g_op (pp i)) (g_init (pp i) (D i 0)) (H i)) /\ map (kg_ret C) (rets i) = snd (run_ops (g_op (pp i)) (g_init (pp i) (D i 0)) (H i))).
  { intros i I. destruct (kg_hist_run C Hb Hf ck cd (rs (i - 1)) i t n _ _ _ (HH i I)) as [_ [Q1 [Q2 _]]]. rewrite D0. split; assumption. }
  assert (SS : forall i, 1 <= i <= n -> sent_of pp D H i = snt i).
  { intros i I. unfold sent_of. destruct (RR i I) as [Q1 Q2]. rewrite <- Q1, <- Q2. apply (kg_sent C). }
  assert (G0 : forall i, 1 <= i <= n -> kg_good C i n 0 (D i 0)) by (intros i _; rewrite D0; exact (conj eq_refl (conj eq_refl eq_refl))).
  assert (AU : authentic n pp D H) by (intros i m I X; destruct (GE i m I X) as [j [J [X1 X2]]]; exists j; rewrite (SS j J); auto).
  split.
  - intros i I. pose proof (honest_state n 4 (kg_of C) kg_p2p pp (fun i => eq_refl) (fun i => eq_refl) (fun i => eq_refl) (fun i => eq_refl) (fun i => eq_refl)
      (fun b => kgp_of C Hb Hf ck cd (rs 0) 1 n b) (fun i k => kgp_exp C Hb Hf ck cd (rs (i - 1)) i n k) D body Hbc Hstep (fun i => kg_good C i n) G0 (kg_good_msgs C Hb Hf ck cd n rs) H AU i I) as Q.
    cbn zeta in Q. destruct Q as [Q _]. destruct (RR i I) as [_ Q2]. rewrite <- Q2, (kg_failures C) in Q. exact Q.
  - intros AD W i lk X. assert (I : 1 <= S i <= n) by (assert (i < length lks) by (apply nth_error_Some; congruence); lia).
    assert (CO : complete n pp D H) by (intros a b m A B0 X1 X2; rewrite (SS b B0) in X1; exact (AD a b m A B0 X1 X2)).
    assert (WW : forall j, 1 <= j <= n -> g_wants_to_proceed (fst (run_ops (g_op (pp j)) (g_init (pp j) (D j 0)) (H j))) = false) by (intros j J; destruct (RR j J) as [Q1 _]; rewrite <- Q1, kg_wants_sim; exact (W j J)).
    pose proof (all_final n 4 (kg_of C) kg_p2p pp (fun i => eq_refl) (fun i => eq_refl) (fun i => eq_refl) (fun i => eq_refl) (fun i => eq_refl)
      (fun b => kgp_of C Hb Hf ck cd (rs 0) 1 n b) (fun i k => kgp_exp C Hb Hf ck cd (rs (i - 1)) i n k) D body Hbody Hbc Hstep (fun i => kg_good C i n) G0 (kg_good_msgs C Hb Hf ck cd n rs) H AU CO WW (S i) I) as Q.
    cbv zeta beta in Q. destruct (RR (S i) I) as [Q1 Q2]. cbv beta in Q1, Q2. rewrite <- Q1, <- Q2, (kg_picks C), (DF i lk X) in Q. destruct Q as [[A B0]|[A B0]].
    + left. destruct (kg_abs_inj_round C _ _ A) as [y [Y1 Y2]]. injection Y2 as ->. split; [exact Y1|]. destruct (picks (rets (S i))); [reflexivity|discriminate].
    + right. destruct (picks (rets (S i))) as [|a [|b l]]; [discriminate| |discriminate]. cbn in B0. injection B0 as ->. reflexivity.
Qed.
End KgHist.

Section SgHist.
Context (C : Curve).
Context (Hb : list Z -> Z) (Hz : hashZ C) (Hf : hashF C) (sl : list nat) (lk : nat -> local_key C) (rs : nat -> sign_rand C).
Notation n := (length sl).
Notation pp := (fun i => sgp C Hb Hz Hf (rs (i - 1)) i n).
Lemma sg_histories cs (H : nat -> list (op (sg_msg C))) st rets : 2 <= n -> sg_run C Hb Hz Hf sl lk rs = Ok cs ->
  (forall i, 1 <= i <= n -> sg_hist C Hb Hz Hf (rs (i - 1)) i sl (lk (i - 1)) (H i) (st i) (rets i)) ->
  let sent := fun i => drained (rets i) ++ sm_queue (st i) in genuine n sent H ->
  (forall i, 1 <= i <= n -> failures (rets i) = []) /\
  (all_delivered n sent H -> (forall i, 1 <= i <= n -> sg_wants_to_proceed (st i) = false) ->
   forall i c, nth_error cs i = Some c -> (sm_round (st (S i)) = SFinished c /\ picks (rets (S i)) = []) \/ picks (rets (S i)) = [c]).
Proof.
  intros N2 E HH snt GE. destruct (sg_honest C Hb Hz Hf sl lk rs cs N2 E) as [D [body [D0 [DF [LL [Hbody [Hbc Hstep]]]]]]].
  assert (RR : forall i, 1 <= i <= n -> sg_abs C (st i) = fst (run_ops (g_op (pp i)) (g_init (pp i) (D i 0)) (H i)) /\ map (sg_ret C) (rets i) = snd (run_ops (g_op (pp i)) (g_init (pp i) (D i 0)) (H i))).
  { intros i I. destruct (sg_hist_run C Hb Hz Hf (rs (i - 1)) i sl _ _ _ _ (HH i I)) as [_ [Q1 [Q2 _]]]. rewrite D0. split; assumption. }
  assert (SS : forall i, 1 <= i <= n -> sent_of pp D H i = snt i).
  { intros i I. unfold sent_of. destruct (RR i I) as [Q1 Q2]. rewrite <- Q1, <- Q2. apply (sg_sent C). }
  assert (G0 : forall i, 1 <= i <= n -> sg_good C i n 0 (D i 0)) by (intros i _; rewrite D0; exact (conj eq_refl (conj eq_refl eq_refl))).
  assert (AU : authentic n pp D H) by (intros i m I X; destruct (GE i m I X) as [j [J [X1 X2]]]; exists j; rewrite (SS j J); auto).
  split.
  - intros i I. pose proof (honest_state n 6 (sg_of C) sg_p2p pp (fun i => eq_refl) (fun i => eq_refl) (fun i => eq_refl) (fun i => eq_refl) (fun i => eq_refl)
      (fun b => sgp_of C Hb Hz Hf (rs 0) 1 n b) (fun i k => sgp_exp C Hb Hz Hf (rs (i - 1)) i n k) D body Hbc Hstep (fun i => sg_good C i n) G0 (sg_good_msgs C Hb Hz Hf sl rs) H AU i I) as Q.
    cbn zeta in Q. destruct Q as [Q _]. destruct (RR i I) as [_ Q2]. rewrite <- Q2, (sg_failures C) in Q. exact Q.
  - intros AD W i c X. assert (I : 1 <= S i <= n) by (assert (i < length cs) by (apply nth_error_Some; congruence); lia).
    assert (CO : complete n pp D H) by (intros a b m A B0 X1 X2; rewrite (SS b B0) in X1; exact (AD a b m A B0 X1 X2)).
    assert (WW : forall j, 1 <= j <= n -> g_wants_to_proceed (fst (run_ops (g_op (pp j)) (g_init (pp j) (D j 0)) (H j))) = false) by (intros j J; destruct (RR j J) as [Q1 _]; rewrite <- Q1, sg_wants_sim; exact (W j J)).
    pose proof (all_final n 6 (sg_of C) sg_p2p pp (fun i => eq_refl) (fun i => eq_refl) (fun i => eq_refl) (fun i => eq_refl) (fun i => eq_refl)
      (fun b => sgp_of C Hb Hz Hf (rs 0) 1 n b) (fun i k => sgp_exp C Hb Hz Hf (rs (i - 1)) i n k) D body Hbody Hbc Hstep (fun i => sg_good C i n) G0 (sg_good_msgs C Hb Hz Hf sl rs) H AU CO WW (S i) I) as Q.
    cbv zeta beta in Q. destruct (RR (S i) I) as [Q1 Q2]. cbv beta in Q1, Q2. rewrite <- Q1, <- Q2, (sg_picks C), (DF i c X) in Q. destruct Q as [[A B0]|[A B0]].
    + left. split; [|destruct (picks (rets (S i))); [reflexivity|discriminate]]. clear -A. cbn [sg_abs gs_round] in A. destruct (sm_round (st (S i))); cbn [sg_abs_round] in A; congruence.
    + right. destruct (picks (rets (S i))) as [|a [|b l]]; [discriminate| |discriminate]. cbn in B0. injection B0 as ->. reflexivity.
Qed.
End SgHist.

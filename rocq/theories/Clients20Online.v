(** The online stage machines in a network and in the system of clients and relay. *)
From Coq Require Import String ZArith Bool Lia List Permutation Arith.
From Verif Require Import ZArithX Fq Curve Outcome Ecdsa Mp MpProofs Gg20Sign Stores RoundSM SmSpec SmProofs SmTheory SignSM Network NetLog NetProofs Manager20 M20Spec Clients20 Clients20Proofs Clients20Own OnlineSM.
Import ListNotations.
Local Open Scope nat_scope.

Section Machine.
Context {C : Curve}.
Notation F := (Fq (cq C)).
Definition hasD (h : list (op F)) : bool := existsb (fun o => match o with Drain => true | _ => false end) h.
Lemma on_runs h : forall s : on_sm C, length (on_got s) <= on_n s - 1 ->
  let s' := fst (run_ops on_op s h) in
  on_n s' = on_n s /\ on_l s' = on_l s /\ on_got s' = firstn (on_n s - 1) (on_got s ++ map (@m_body F) (deliveries h)) /\
  on_queue s' = (if hasD h then [] else on_queue s) /\ drained (snd (run_ops on_op s h)) = (if hasD h then on_queue s else []).
Proof.
  induction h as [|o h IH]; intros s L; cbn zeta.
  - cbn. rewrite app_nil_r, firstn_all2 by exact L. auto.
  - cbn [run_ops]. destruct (on_op s o) as [s1 r] eqn:E. specialize (IH s1). cbn zeta in IH. destruct (run_ops on_op s1 h) as [s2 rs]. cbn [fst snd] in *. assert (DC : drained (r :: rs) = drained [r] ++ drained rs) by apply (drained_app [r] rs). rewrite DC. clear DC.
    destruct o as [m| | |]; cbn [on_op] in E; injection E as <- <-; cbn [hasD existsb orb deliveries flat_map app map drained] in *.
    + unfold on_deliver in *. destruct (Nat.ltb_spec (length (on_got s)) (on_n s - 1)) as [K|K]; cbn [on_n on_l on_queue on_got] in *.
      * rewrite app_length in IH. cbn [length] in IH. destruct (IH ltac:(lia)) as (I1 & I2 & I3 & I4 & I5). rewrite <- app_assoc in I3. exact (conj I1 (conj I2 (conj I3 (conj I4 I5)))).
      * destruct (IH L) as (I1 & I2 & I3 & I4 & I5). refine (conj I1 (conj I2 (conj _ (conj I4 I5)))). rewrite I3. replace (on_n s - 1) with (length (on_got s)) by lia. rewrite !firstn_app, !firstn_all, Nat.sub_diag. reflexivity.
    + exact (IH L).
    + destruct (IH L) as (I1 & I2 & I3 & I4 & I5). cbn [on_n on_l on_queue on_got] in *. refine (conj I1 (conj I2 (conj I3 (conj _ _)))); [rewrite I4; destruct (hasD h); reflexivity|].
      rewrite I5. cbn [app]. rewrite app_nil_r. destruct (hasD h); apply app_nil_r.
    + exact (IH L).
Qed.
Lemma on_drain i (s : on_sm C) o : o <> Drain -> drained [snd ((fun _ : nat => on_op) i s o)] = [].
Proof. destruct o; intros N; try reflexivity. contradiction. Qed.
End Machine.

Section Net.
Context {C : Curve} (n : nat) (ls : nat -> local_sig C).
Notation F := (Fq (cq C)).
Definition pm (i : nat) : msg F := {| m_from := i; m_to := None; m_body := ls_s (ls i) |}.
Definition on_start (i : nat) : on_sm C := {| on_n := n; on_l := ls i; on_queue := [pm i]; on_got := [] |}.
Notation s0 := (map on_start (seq 1 n)).
Notation net0 := {| nt_st := s0; nt_wire := [] |}.
Notation opf := (fun _ : nat => @on_op C).
Notation nexec := (net_exec opf net0).
Hypothesis Hn : 2 <= n.

Lemma s0_len : length s0 = n. Proof. rewrite map_length, seq_length. reflexivity. Qed.
Lemma s0_nth i : 1 <= i <= n -> nth_error s0 (i - 1) = Some (on_start i).
Proof. intros I. rewrite nth_error_map, (nth_error_nth' _ 0) by (rewrite seq_length; lia). rewrite seq_nth by lia. cbn [option_map]. do 2 f_equal. lia. Qed.

Lemma filter_handed i (log : list (nat * op F * ret unit F (outcome error (sig_recid C)))) : deliveries (ops_of i log) = map snd (filter (fun y => fst y =? i) (handed log)).
Proof.
  induction log as [|[[j o] r] log IH]; [reflexivity|]. change ((j, o, r) :: log) with ([(j, o, r)] ++ log). rewrite ops_app, handed_app, deliveries_app, filter_app, map_app, IH. f_equal.
  unfold ops_of, handed. cbn [flat_map]. rewrite !app_nil_r. destruct (Nat.eqb_spec j i) as [->|N]; destruct o as [m| | |]; try reflexivity; cbn [filter fst snd].
  - rewrite Nat.eqb_refl. reflexivity.
  - rewrite (proj2 (Nat.eqb_neq _ _) N). reflexivity.
Qed.
Section Sched.
Context (acts : list nact).
Notation w := (fst (nexec acts)).
Notation log := (snd (nexec acts)).
Definition sent (i : nat) : bool := hasD (ops_of i log).
Lemma o_state i : 1 <= i <= n -> exists s, party w i = Some s /\ on_n s = n /\ on_l s = ls i /\ on_got s = firstn (n - 1) (map (@m_body F) (deliveries (ops_of i log))) /\
  on_queue s = (if sent i then [] else [pm i]) /\ drained (rets_of i log) = (if sent i then [pm i] else []).
Proof.
  intros I. destruct (exec_inv opf s0 on_drain acts) as [lost LI]. destruct (li_runs _ _ _ _ _ LI i (on_start i)) as [R1 R2]; [rewrite s0_len; exact I|exact (s0_nth i I)|].
  destruct (on_runs (ops_of i log) (on_start i)) as (A1 & A2 & A3 & A4 & A5); [cbn; lia|]. cbn [on_start on_n on_l on_got on_queue app] in *.
  exists (fst (run_ops on_op (on_start i) (ops_of i log))). refine (conj _ (conj A1 (conj A2 (conj A3 (conj A4 _))))); [|rewrite R2; exact A5].
  destruct i as [|k]; [lia|]. cbn [party]. replace (S k - 1) with k in R1 by lia. exact R1.
Qed.
Lemma o_idx e : In e log -> 1 <= fst (fst e) <= n /\ snd (fst e) <> Pick.
Proof. intros X. destruct (exec_inv opf s0 on_drain acts) as [lost LI]. destruct (li_idx _ _ _ _ _ LI e X) as [A B]. rewrite s0_len in A. auto. Qed.
Lemma o_routed i m : In (i, m) (routed n log) <-> exists j, 1 <= j <= n /\ sent j = true /\ m = pm j /\ In i (peers j n).
Proof.
  pose proof (in_routed s0 log i m) as R. rewrite s0_len in R. rewrite (R (fun e X => proj1 (o_idx e X))). clear R. split.
  - intros (j & J & D & X). destruct (o_state j J) as (s & _ & _ & _ & _ & _ & E). rewrite E in D. exists j. destruct (sent j); [|contradiction]. destruct D as [<-|[]]. auto.
  - intros (j & J & S1 & -> & X). exists j. destruct (o_state j J) as (s & _ & _ & _ & _ & _ & E). rewrite E, S1. refine (conj J (conj (or_introl eq_refl) X)).
Qed.
Lemma pm_inj i j : pm i = pm j -> i = j. Proof. intros E. exact (f_equal (@m_from F) E). Qed.
Lemma o_nodup : NoDup (routed n log).
Proof.
  pose proof (routed_perm s0 log) as R. rewrite s0_len in R. apply (Permutation_NoDup (Permutation_sym (R (fun e X => proj1 (o_idx e X))))). apply nodup_flat_map; [apply seq_NoDup| |].
  - intros j J. apply in_seq in J. destruct (o_state j ltac:(lia)) as (s & _ & _ & _ & _ & _ & ->). destruct (sent j); [|constructor]. unfold copies. cbn [flat_map receivers pm m_to]. rewrite app_nil_r.
    apply FinFun.Injective_map_NoDup; [intros a b E; congruence|apply peers_nodup].
  - intros x y [i m] X Y Z1 Z2. apply in_seq in X, Y. apply in_copies in Z1, Z2. destruct Z1 as [Z1 _]. destruct Z2 as [Z2 _].
    destruct (o_state x ltac:(lia)) as (s & _ & _ & _ & _ & _ & E). destruct (o_state y ltac:(lia)) as (s' & _ & _ & _ & _ & _ & E'). rewrite E in Z1. rewrite E' in Z2.
    destruct (sent x); [|contradiction]. destruct (sent y); [|contradiction]. destruct Z1 as [<-|[]]. destruct Z2 as [Z2|[]]. symmetry. apply pm_inj. exact Z2.
Qed.
Lemma o_perm : Permutation (handed log ++ nt_wire w) (routed n log).
Proof.
  destruct (exec_inv opf s0 on_drain acts) as [lost LI]. pose proof (li_perm _ _ _ _ _ LI) as P. rewrite s0_len in P. destruct lost as [|[i m] l]; [exact P|exfalso].
  apply (li_lost _ _ _ _ _ LI (i, m) (or_introl eq_refl)). rewrite s0_len. cbn [fst]. assert (X : In (i, m) (routed n log)) by (apply (Permutation_in _ P), in_app_iff; right; left; reflexivity).
  apply o_routed in X. destruct X as (j & J & _ & _ & X). apply (in_peers j n J) in X. lia.
Qed.
Lemma o_got i : 1 <= i <= n -> Permutation (deliveries (ops_of i log) ++ map snd (filter (fun y => fst y =? i) (nt_wire w))) (map pm (filter sent (peers i n))).
Proof.
  intros I. rewrite filter_handed, <- map_app, <- filter_app.
  assert (FP : forall (a b : list (nat * msg F)) f, Permutation a b -> Permutation (filter f a) (filter f b)).
  { intros a b f P. induction P as [|x a b P IH|x y a|a b c P1 IH1 P2 IH2]; cbn [filter]; [constructor|destruct (f x); [constructor|]; exact IH| |eapply Permutation_trans; eassumption].
    destruct (f x), (f y); try apply Permutation_refl. apply perm_swap. }
  rewrite (FP _ _ (fun y => fst y =? i) o_perm). apply NoDup_Permutation.
  - assert (ND : NoDup (filter (fun y => fst y =? i) (routed n log))) by apply NoDup_filter, o_nodup. assert (FI : forall y, In y (filter (fun y => fst y =? i) (routed n log)) -> fst y = i) by (intros y Y; apply filter_In in Y; apply Nat.eqb_eq; tauto).
    clear -ND FI. induction (filter (fun y => fst y =? i) (routed n log)) as [|y l IH]; [constructor|]. inversion ND as [|? ? N1 N2]; subst. cbn [map]. constructor; [|apply IH; [exact N2|intros z Z; apply FI; right; exact Z]].
    intros X. apply in_map_iff in X. destruct X as (z & E & X). apply N1. assert (z = y); [|subst; exact X]. destruct y as [y1 y2], z as [z1 z2]. pose proof (FI (y1, y2) (or_introl eq_refl)). pose proof (FI (z1, z2) (or_intror X)). cbn in *. congruence.
  - apply FinFun.Injective_map_NoDup; [intros a b E; apply pm_inj; exact E|apply NoDup_filter, peers_nodup].
  - intros m. rewrite !in_map_iff. split.
    + intros ((i' & m') & <- & X). apply filter_In in X. destruct X as [X Y]. cbn in Y. apply Nat.eqb_eq in Y. subst i'. apply o_routed in X. destruct X as (j & J & S1 & E & X). exists j. split; [symmetry; exact E|]. apply filter_In. split; [|exact S1].
      apply (in_peers j n J) in X. apply (in_peers i n I). lia.
    + intros (j & <- & X). apply filter_In in X. destruct X as [X S1]. apply (in_peers i n I) in X. exists (i, pm j). split; [reflexivity|]. apply filter_In. split; [|apply Nat.eqb_refl]. apply o_routed. exists j.
      refine (conj _ (conj S1 (conj eq_refl _))); [lia|]. apply in_peers; lia.
Qed.
Lemma filter_full {A} (f : A -> bool) l : length l <= length (filter f l) -> forall x, In x l -> f x = true.
Proof.
  induction l as [|a l IH]; intros L x X; [contradiction|]. cbn [filter length] in L. assert (LE : length (filter f l) <= length l) by (clear; induction l as [|b l IH]; cbn [filter length]; [lia|]; destruct (f b); cbn [length]; lia).
  destruct (f a) eqn:E; cbn [length] in L; [|lia]. destruct X as [<-|X]; [exact E|apply IH; [lia|exact X]].
Qed.
Lemma filter_length_le' {A} (f : A -> bool) l : length (filter f l) <= length l.
Proof. induction l as [|b l IH]; cbn [filter length]; [lia|]. destruct (f b); cbn [length]; lia. Qed.
Lemma o_fin i s : 1 <= i <= n -> party w i = Some s -> on_finished s = true ->
  (forall j, In j (peers i n) -> sent j = true) /\ filter (fun y => fst y =? i) (nt_wire w) = [] /\ Permutation (on_got s) (map (fun j => ls_s (ls j)) (peers i n)).
Proof.
  intros I PS FN. destruct (o_state i I) as (s' & PS' & N1 & _ & G & _). rewrite PS in PS'. injection PS' as <-. unfold on_finished in FN. apply Nat.leb_le in FN. rewrite N1, G, firstn_length, map_length in FN.
  pose proof (o_got i I) as P. pose proof (Permutation_length P) as PL. rewrite app_length, !map_length in PL. pose proof (filter_length_le' sent (peers i n)) as LE. pose proof (peers_length i n I) as LP.
  assert (LF : length (filter sent (peers i n)) = n - 1) by lia. assert (LW : length (filter (fun y => fst y =? i) (nt_wire w)) = 0) by lia. apply length_zero_iff_nil in LW.
  refine (conj (filter_full sent _ _) (conj LW _)); [lia|]. rewrite LW, app_nil_r in P. rewrite G, firstn_all2 by (rewrite map_length; rewrite LW in PL; cbn in PL; lia).
  apply (Permutation_map (@m_body F)) in P. rewrite map_map in P. cbn [pm m_body] in P. rewrite P. apply Permutation_map. apply NoDup_Permutation; [apply NoDup_filter, peers_nodup|apply peers_nodup|].
  intros j. rewrite filter_In. split; [tauto|]. intros X. split; [exact X|]. apply (filter_full sent (peers i n)); [lia|exact X].
Qed.
End Sched.
Lemma o_ok acts e : In e (snd (nexec acts)) -> call_ok e.
Proof.
  intros X. destruct (o_idx acts e X) as [I NP]. destruct (exec_inv opf s0 on_drain acts) as [lost LI]. destruct e as [[i o] r]. cbn [fst snd] in *. destruct (li_runs _ _ _ _ _ LI i (on_start i)) as [R1 R2]; [rewrite s0_len; exact I|exact (s0_nth i I)|].
  assert (Y : In r (rets_of i (snd (nexec acts)))) by (apply in_flat_map; exists (i, o, r); rewrite Nat.eqb_refl; split; [exact X|left; reflexivity]).
  rewrite R2 in Y. assert (NPS : ~ In Pick (ops_of i (snd (nexec acts)))).
  { intros Q. apply in_flat_map in Q. destruct Q as ([[j o'] r'] & Q1 & Q2). pose proof (proj2 (o_idx acts _ Q1)) as Q3. cbn in Q3. destruct (j =? i); [|contradiction]. destruct Q2 as [Q2|[]]. congruence. }
  clear -Y NPS. revert Y NPS. generalize (ops_of i (snd (nexec acts))) as h, (on_start i) as s. induction h as [|o' h IH]; intros s Y NPS; [contradiction|]. cbn [run_ops] in Y. destruct (on_op s o') as [s1 r1] eqn:E.
  destruct (run_ops on_op s1 h) as [s2 rs] eqn:E2. cbn [snd] in Y. destruct Y as [<-|Y].
  - destruct o'; cbn in E; injection E as <- <-; cbn; auto. apply NPS. left. reflexivity.
  - apply (IH s1); [rewrite E2; exact Y|]. intros Q. apply NPS. right. exact Q.
Qed.
Lemma o_taken acts : length (taken (snd (nexec acts))) <= n.
Proof.
  rewrite (taken_sum n) by (intros e X; exact (proj1 (o_idx acts e X))). apply Nat.le_trans with (list_sum (map (fun _ => 1) (seq 1 n))); [|rewrite sum_const, seq_length; lia]. apply sum_le. intros j J. apply in_seq in J.
  destruct (o_state acts j ltac:(lia)) as (s & _ & _ & _ & _ & _ & ->). destruct (sent acts j); cbn; lia.
Qed.
Lemma o_handed acts : length (handed (snd (nexec acts))) <= n * (n - 1).
Proof.
  pose proof (Permutation_length (o_perm acts)) as P. rewrite app_length in P. pose proof (routed_perm s0 (snd (nexec acts))) as R. rewrite s0_len in R. pose proof (Permutation_length (R (fun e X => proj1 (o_idx acts e X)))) as Q. rewrite flat_map_len in Q.
  apply Nat.le_trans with (list_sum (map (fun _ => n - 1) (seq 1 n))); [|rewrite sum_const, seq_length; lia]. refine (Nat.le_trans _ _ _ _ (sum_le _ _ _ (fun j J => _))); [|].
  - rewrite <- Q. lia.
  - apply in_seq in J. destruct (o_state acts j ltac:(lia)) as (s & _ & _ & _ & _ & _ & ->). destruct (sent acts j); [|cbn; lia]. unfold copies. cbn [flat_map receivers pm m_to]. rewrite app_nil_r, map_length, peers_length by lia. lia.
Qed.
Lemma o_work acts : work opf on_wants on_queue net0 acts <= length (handed (snd (nexec acts))) + length (taken (snd (nexec acts))).
Proof.
  induction acts as [|a acts IH] using rev_ind; [cbn; lia|]. rewrite work_snoc, exec_snoc. cbn [snd]. rewrite handed_app, app_length. unfold taken in *. rewrite flat_map_app, app_length. fold (@taken unit F (outcome error (sig_recid C)) (snd (nexec acts))) in *.
  set (w1 := fst (nexec acts)) in *. enough (Q : (if enabled on_wants on_queue w1 a then 1 else 0) <= length (handed (snd (net_step opf w1 a))) + length (flat_map (fun e => drained [snd e]) (snd (net_step opf w1 a)))) by lia.
  destruct a as [x|i|i]; cbn [enabled].
  - destruct (Nat.ltb_spec x (length (nt_wire w1))) as [L|L]; [|lia]. cbn [net_step]. destruct (nth_error (nt_wire w1) x) as [[i m]|] eqn:E; [|apply nth_error_None in E; lia].
    assert (IR : 1 <= i <= n).
    { apply nth_error_In in E. assert (X : In (i, m) (routed n (snd (nexec acts)))) by (apply (Permutation_in _ (o_perm acts)), in_app_iff; right; exact E). apply o_routed in X. destruct X as (j & J & _ & _ & X). apply (in_peers j n J) in X. lia. }
    destruct (call_cases opf (nt_st w1) i (Deliver m)) as [[C1 C2]|[C1 [s [C2 C3]]]]; [|rewrite C3; cbn; lia].
    exfalso. apply C1. destruct (o_state acts i IR) as (s & PS & _). destruct i as [|k]; [lia|]. cbn [party] in PS. assert (k < length (nt_st w1)) by (apply nth_error_Some; unfold w1; congruence). lia.
  - destruct (party w1 i); cbn; lia.
  - destruct (party w1 i) as [s|] eqn:PS; [|lia]. destruct (on_queue s) as [|q0 q] eqn:EQ; [lia|]. cbn [net_step]. destruct i as [|k]; [discriminate|]. cbn [party] in PS. unfold call. rewrite PS. cbn [on_op snd flat_map drained]. rewrite EQ. cbn. lia.
Qed.

Context (start : nat -> Z -> option (on_sm C)) (crit : sm_error unit -> bool) (ser : msg F -> string) (par : string -> option (msg F)) (oc : bool) (room_id : string).
Notation sexec := (sys_exec opf (@on_wants C) (@on_finished C) (@on_queue C) start crit ser par oc room_id).
Notation swork := (sys_work opf (@on_wants C) (@on_finished C) (@on_queue C) start crit ser par oc room_id).
Notation senab := (sys_enabled (@on_wants C) (@on_finished C) (@on_queue C)).
Theorem on_clients c0 acts : 1 <= c0 <= n -> (forall c, 1 <= c <= n -> start c (Z.of_nat c) = Some (on_start c)) -> (forall m, par (ser m) = Some m) -> (Z.of_nat n <= 65535)%Z ->
  well_numbered (snd (sexec (sys_init n) (first c0 ++ acts))) ->
  let w := fst (sexec (sys_init n) (first c0 ++ acts)) in
  swork (sys_init n) (first c0 ++ acts) <= 4 + budget n n (n * n) /\
  (forall c, client w c <> Some CFailed) /\
  (forall c x r, client w c = Some (CDone x r) -> exists received, Permutation received (map (fun j => ls_s (ls j)) (peers c n)) /\ r = RPick (Some (Ok (gg20_output (ls c) received)))) /\
  ((forall a, senab w a = false) -> forall c, 1 <= c <= n -> exists x r, client w c = Some (CDone x r)) /\
  (settled n w -> exists more, well_numbered (snd (sexec (sys_init n) (first c0 ++ acts ++ more))) /\ forall c, 1 <= c <= n -> exists x r, client (fst (sexec (sys_init n) (first c0 ++ acts ++ more))) c = Some (CDone x r)).
Proof.
  intros C0 ST SP BD NU.
  assert (HS : forall c, 1 <= c <= n -> start c (Z.of_nat c) = nth_error s0 (c - 1)) by (intros c I; rewrite (ST c I), (s0_nth c I); reflexivity).
  assert (H1 : forall acts j m, 1 <= j <= n -> In m (drained (rets_of j (snd (nexec acts)))) -> m_from m = j /\ (m_to m = None \/ exists i, m_to m = Some i /\ In i (peers j n))).
  { intros a j m J X. destruct (o_state a j J) as (s & _ & _ & _ & _ & _ & E). rewrite E in X. destruct (sent a j); [|contradiction]. destruct X as [<-|[]]. cbn. auto. }
  assert (PR : forall acts c s, party (fst (nexec acts)) c = Some s -> 1 <= c <= n).
  { intros a c s PS. destruct (exec_inv opf s0 on_drain a) as [lost LI]. pose proof (li_len _ _ _ _ _ LI) as L. rewrite s0_len in L. destruct c as [|k]; [discriminate|]. cbn [party] in PS. assert (k < length (nt_st (fst (nexec a)))) by (apply nth_error_Some; congruence). lia. }
  assert (H2 : forall acts c s m, 1 <= c <= n -> party (fst (nexec acts)) c = Some s -> on_finished s = true -> ~ In (c, m) (nt_wire (fst (nexec acts)))).
  { intros a c s m I PS FN X. destruct (o_fin a c s I PS FN) as (_ & W & _). assert (Y : In (c, m) (filter (fun y => fst y =? c) (nt_wire (fst (nexec a))))) by (apply filter_In; split; [exact X|apply Nat.eqb_refl]). rewrite W in Y. exact Y. }
  assert (H3 : forall acts c s j, 1 <= c <= n -> party (fst (nexec acts)) c = Some s -> on_finished s = true -> 1 <= j <= n -> j <> c -> drained (rets_of j (snd (nexec acts))) <> []).
  { intros a c s j I PS FN J N. destruct (o_fin a c s I PS FN) as (SE & _). destruct (o_state a j J) as (s' & _ & _ & _ & _ & _ & ->). rewrite (SE j) by (apply (in_peers c n I); auto). discriminate. }
  assert (H4 : forall acts, work opf on_wants on_queue net0 acts <= n * n).
  { intros a. pose proof (o_work a). pose proof (o_handed a). pose proof (o_taken a). nia. }
  assert (H5 : forall acts c s, party (fst (nexec acts)) c = Some s -> on_finished s = true -> on_wants s = false) by reflexivity.
  assert (H6 : forall acts, (forall a, enabled on_wants on_queue (fst (nexec acts)) a = false) -> forall c s, party (fst (nexec acts)) c = Some s -> on_finished s = true).
  { intros a Q c s PS. pose proof (PR a c s PS) as I. assert (WE : nt_wire (fst (nexec a)) = []).
    { specialize (Q (NDeliver 0)). cbn [enabled] in Q. apply Nat.ltb_ge in Q. apply length_zero_iff_nil. lia. }
    assert (SA : forall j, 1 <= j <= n -> sent a j = true).
    { intros j J. destruct (o_state a j J) as (s' & PS' & _ & _ & _ & QE & _). specialize (Q (NSend j)). cbn [enabled] in Q. rewrite PS' in Q. rewrite QE in Q. destruct (sent a j); [reflexivity|discriminate]. }
    pose proof (o_got a c I) as P. rewrite WE in P. cbn [filter map] in P. rewrite app_nil_r in P. apply Permutation_length in P. rewrite map_length in P.
    assert (FE : filter (sent a) (peers c n) = peers c n).
    { assert (G : forall l, (forall j, In j l -> sent a j = true) -> filter (sent a) l = l) by (induction l as [|y l IH]; intros A; [reflexivity|]; cbn [filter]; rewrite (A y (or_introl eq_refl)), IH by (intros z Z; apply A; right; exact Z); reflexivity).
      apply G. intros j J. apply SA. apply (in_peers c n I) in J. tauto. }
    rewrite FE, (peers_length c n I) in P. destruct (o_state a c I) as (s' & PS' & N1 & _ & G & _). rewrite PS in PS'. injection PS' as <-. unfold on_finished. apply Nat.leb_le. rewrite N1, G, firstn_length, map_length. lia. }
  assert (BB : (Z.of_nat n <= 65535)%Z /\ (Z.of_nat n <= 65535)%Z) by auto.
  pose proof (sys_total opf (@on_wants C) (@on_finished C) (@on_queue C) start crit ser par oc room_id s0 n c0 n (n * n) s0_len Hn C0 HS SP on_drain o_ok H1 o_nodup H2 H3 o_taken H4 H5 H6 BB acts NU) as T. cbn zeta in T.
  destruct T as (T1 & T2 & (nacts & T3 & T3') & T4 & T5). cbn zeta. refine (conj T1 (conj T2 (conj _ (conj T5 _)))).
  - intros c x r E. destruct (T4 _ _ _ E) as [F1 F2]. assert (P1 : party (fst (nexec nacts)) c = Some (cr_st x)) by (apply T3'; right; exists r; auto). pose proof (PR nacts c _ P1) as I.
    destruct (o_fin nacts c _ I P1 F1) as (_ & _ & G). destruct (o_state nacts c I) as (s' & PS' & _ & LE & _). rewrite P1 in PS'. injection PS' as <-. exists (on_got (cr_st x)). split; [exact G|]. rewrite F2. cbn [on_op snd]. unfold on_complete. rewrite LE. reflexivity.
  - intros SE. exact (sys_can_finish opf (@on_wants C) (@on_finished C) (@on_queue C) start crit ser par oc room_id s0 n c0 n (n * n) s0_len Hn C0 HS SP on_drain o_ok H1 o_nodup H2 H3 o_taken H4 H5 H6 BB acts NU SE).
Qed.
End Net.

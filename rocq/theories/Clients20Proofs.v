(** Clients and relay together behave like the network of Network.v: an invariant of every execution in which one client
    has joined before the others start and everybody is given their own number. *)
From Coq Require Import String ZArith Bool Lia List Permutation Arith.
From Verif Require Import Outcome Mp MpProofs Stores RoundSM SmSpec SmProofs SmTheory SmTags Network NetLog NetProofs Manager20 M20Spec Manager20Proofs Manager20Facts Manager20Fate Manager20Work Clients20.
Import ListNotations.
Local Open Scope nat_scope.

Section Sys.
Context {S P B O : Type}.
Context (opf : nat -> S -> op B -> S * ret P B O) (wants fin : S -> bool) (queue : S -> list (msg B)).
Context (start : nat -> Z -> option S) (crit : sm_error P -> bool) (ser : msg B -> string) (par : string -> option (msg B)) (oc : bool) (room_id : string).
Context (s0 : list S) (n : nat) (c0 : nat) (bound wbound : nat).
Hypothesis Hlen : length s0 = n.
Hypothesis Hn : 2 <= n.
Hypothesis Hc0 : 1 <= c0 <= n.
Hypothesis Hstart : forall c, 1 <= c <= n -> start c (Z.of_nat c) = nth_error s0 (c - 1).
Hypothesis Hser : forall m, par (ser m) = Some m.
Notation net0 := {| nt_st := s0; nt_wire := [] |}.
Notation nexec := (net_exec opf net0).
Notation entry := (nat * op B * ret P B O)%type.
(** What is known about the network of the machines *)
Hypothesis Hdrain : forall i s, snd (opf i s Drain) = RMsgs (queue s) /\ queue (fst (opf i s Drain)) = [].
Hypothesis Hdr : forall i s o, o <> Drain -> drained [snd (opf i s o)] = [].
Hypothesis Nok : forall acts e, In e (snd (nexec acts)) -> call_ok e.
Hypothesis Nfrom : forall acts j m, 1 <= j <= n -> In m (drained (rets_of j (snd (nexec acts)))) -> m_from m = j /\ (m_to m = None \/ exists i, m_to m = Some i /\ In i (peers j n)).
Hypothesis Nnodup : forall acts, NoDup (routed n (snd (nexec acts))).
Hypothesis Ndone : forall acts c s m, 1 <= c <= n -> party (fst (nexec acts)) c = Some s -> fin s = true -> ~ In (c, m) (nt_wire (fst (nexec acts))).
Hypothesis Nheard : forall acts c s j, 1 <= c <= n -> party (fst (nexec acts)) c = Some s -> fin s = true -> 1 <= j <= n -> j <> c -> drained (rets_of j (snd (nexec acts))) <> [].
Hypothesis Nbound : forall acts, length (taken (snd (nexec acts))) <= bound.
Hypothesis Nwork : forall acts, work opf wants queue net0 acts <= wbound.
Hypothesis Nfw : forall acts c s, party (fst (nexec acts)) c = Some s -> fin s = true -> wants s = false.
Hypothesis Nquiet : forall acts, (forall a, enabled wants queue (fst (nexec acts)) a = false) -> forall c s, party (fst (nexec acts)) c = Some s -> fin s = true.
Hypothesis Hbound : (Z.of_nat bound <= 65535)%Z /\ (Z.of_nat n <= 65535)%Z.

Notation sys := (sys S P B O).
Notation stage := (stage S P B O).
Notation running := (running S B).
Notation cev := (cev P B O).
Notation sys_step := (sys_step opf wants fin queue start crit ser par oc room_id).
Notation sys_exec := (sys_exec opf wants fin queue start crit ser par oc room_id).

(** * Reading the log *)
Definition calls (log : list cev) : list entry :=
  flat_map (fun e => match e with ECall c o r => match o with Pick => [] | _ => [(c, o, r)] end | _ => [] end) log.
Definition asks (log : list cev) : list (nat * req) := flat_map (fun e => match e with EAsk c q => [(c, q)] | _ => [] end) log.
Definition posts (c : nat) (l : list (nat * req)) : list string :=
  flat_map (fun '(c', q) => if c' =? c then match q with RPub m => [m] | _ => [] end else []) l.
Definition ev_client (e : cev) : nat := match e with ECall c _ _ | EAsk c _ | EIndex c _ => c end.
(** The messages among the events that are for client c *)
Definition read_by (c : nat) (l : list string) : list (msg B) :=
  flat_map (fun s => match par s with Some m => if for_me (Z.of_nat c) m then [m] else [] | None => [] end) l.
Definition joined (t : nat) (tr : list obs) : Prop := In (OJoined t room_id 0 None) tr.

Definition issued_to (t : nat) (tr : list obs) : Prop := exists rid r i, In (OIssued t rid r i) tr.
Definition issue_only (ok : nat -> Prop) (log : list cev) (c : nat) : Prop := forall t, nth_error (asks log) t = Some (c, RIssue) -> ok t.

Record run_ok (tr : list obs) (log : list cev) (wn : net S B) (c : nat) (x : running) : Prop := {
  ro_idx : cr_idx x = Z.of_nat c;
  ro_st : party wn c = Some (cr_st x);
  ro_sub : nth_error (asks log) (cr_sub x) = Some (c, RSub None);
  ro_join : joined (cr_sub x) tr;
  ro_out : map ser (drained (rets_of c (calls log))) = posts c (asks log) ++ map ser (cr_out x);
  ro_pub : forall t s, nth_error (asks log) t = Some (c, RPub s) -> cr_post x = Some t \/ In t (pub_tasks tr);
  ro_post : forall t, cr_post x = Some t -> exists s, nth_error (asks log) t = Some (c, RPub s);
  ro_read : cr_read x <= length (gots (cr_sub x) tr);
  ro_del : deliveries (ops_of c (calls log)) = read_by c (firstn (cr_read x) (map snd (gots (cr_sub x) tr)));
  ro_iss : exists t0, issued_to t0 tr /\ forall t, nth_error (asks log) t = Some (c, RIssue) -> t0 = t }.
Definition silent (log : list cev) (c : nat) : Prop := posts c (asks log) = [] /\ ops_of c (calls log) = [].
Definition stage_ok (tr : list obs) (log : list cev) (wn : net S B) (c : nat) (st : stage) : Prop :=
  match st with
  | CIdle => silent log c /\ issue_only (fun _ => False) log c
  | CSubscribing t => silent log c /\ nth_error (asks log) t = Some (c, RSub None) /\ issue_only (fun _ => False) log c
  | CIssuing sub t => silent log c /\ nth_error (asks log) sub = Some (c, RSub None) /\ joined sub tr /\ nth_error (asks log) t = Some (c, RIssue) /\ issue_only (eq t) log c
  | CRunning x => run_ok tr log wn c x
  | CDone x r => run_ok tr log wn c x /\ may_leave fin queue x = true /\ r = snd (opf c (cr_st x) Pick)
  | CFailed => False
  end.
Definition sub_of (st : stage) : option nat :=
  match st with CSubscribing t => Some t | CIssuing t _ => Some t | CRunning x | CDone x _ => Some (cr_sub x) | _ => None end.

Record SInv (l : list act) (nacts : list nact) (w : sys) (log : list cev) : Prop := {
  si_exec : exec oc db_empty l = (sy_db w, sy_tr w);
  si_reqs : reqs l = map (fun a => (room_id, snd a)) (asks log);
  si_cl : length (sy_cl w) = n;
  si_net : snd (nexec nacts) = calls log;
  si_stage : forall c, 1 <= c <= n -> exists st, client w c = Some st /\ stage_ok (sy_tr w) log (fst (nexec nacts)) c st;
  si_ask : forall t c q, nth_error (asks log) t = Some (c, q) -> 1 <= c <= n;
  si_sub : forall t c last, nth_error (asks log) t = Some (c, RSub last) -> last = None /\ exists st, client w c = Some st /\ sub_of st = Some t;
  si_first : joined 0 (sy_tr w) /\ exists st, client w c0 = Some st /\ sub_of st = Some 0;
  si_cancel : forall t, In (Cancel t) l -> exists c x r, 1 <= c <= n /\ client w c = Some (CDone x r) /\ cr_sub x = t;
  si_done : forall c x r, client w c = Some (CDone x r) -> nth (cr_sub x) (db_tasks (sy_db w)) TEnd = TEnd;
  si_steady : steady room_id 0 0 (sy_db w);
  si_serves : Forall (serves room_id 0) (sy_tr w) }.

(** * Lists and logs *)
Lemma asks_app a b : asks (a ++ b) = asks a ++ asks b. Proof. apply flat_map_app. Qed.
Lemma calls_app a b : calls (a ++ b) = calls a ++ calls b. Proof. apply flat_map_app. Qed.
Lemma posts_app c a b : posts c (a ++ b) = posts c a ++ posts c b. Proof. apply flat_map_app. Qed.
Lemma read_by_app c a b : read_by c (a ++ b) = read_by c a ++ read_by c b. Proof. apply flat_map_app. Qed.
Lemma other_log c e : Forall (fun x => ev_client x <> c) e -> posts c (asks e) = [] /\ ops_of c (calls e) = [] /\ rets_of c (calls e) = [] /\ (forall t q, nth_error (asks e) t <> Some (c, q)).
Proof.
  induction e as [|x e IH]; intros F; [repeat split; intros [|t] q; discriminate|]. inversion F as [|? ? F1 F2]; subst. destruct (IH F2) as (I1 & I2 & I3 & I4).
  change (x :: e) with ([x] ++ e). rewrite asks_app, calls_app, posts_app, ops_app, rets_app, I1, I2, I3, !app_nil_r.
  assert (Q : posts c (asks [x]) = [] /\ ops_of c (calls [x]) = [] /\ rets_of c (calls [x]) = [] /\ (forall t q, nth_error (asks [x]) t <> Some (c, q))).
  { destruct x as [c' o r|c' q|c' i]; cbn [ev_client] in F1; apply Nat.eqb_neq in F1 as F3.
    - destruct o; cbn; rewrite ?F3; (split; [reflexivity|split; [reflexivity|split; [reflexivity|intros [|t] q; discriminate]]]).
    - cbn. rewrite F3. split; [reflexivity|split; [reflexivity|split; [reflexivity|]]]. intros [|[|t]] q' E; cbn in E; try discriminate. congruence.
    - cbn. split; [reflexivity|split; [reflexivity|split; [reflexivity|intros [|t] q; discriminate]]]. }
  destruct Q as (Q1 & Q2 & Q3 & Q4). refine (conj Q1 (conj Q2 (conj Q3 _))). intros t q E. destruct (Nat.lt_ge_cases t (length (asks [x]))) as [L|L].
  - rewrite nth_error_app1 in E by exact L. exact (Q4 t q E).
  - rewrite nth_error_app2 in E by exact L. exact (I4 _ q E).
Qed.
Lemma in_posts c s l : In s (posts c l) <-> exists t, nth_error l t = Some (c, RPub s).
Proof.
  unfold posts. rewrite in_flat_map. split.
  - intros [[c' q] [H1 H2]]. destruct (Nat.eqb_spec c' c) as [->|]; [|contradiction]. destruct q; try contradiction. destruct H2 as [->|[]]. apply In_nth_error. exact H1.
  - intros [t E]. apply nth_error_In in E. eexists. split; [exact E|]. cbn. rewrite Nat.eqb_refl. left. reflexivity.
Qed.
Lemma nodup_flat_map_pos {A X} (f : A -> list X) l i j a b x : NoDup (flat_map f l) -> nth_error l i = Some a -> nth_error l j = Some b -> In x (f a) -> In x (f b) -> i = j.
Proof.
  revert i j. induction l as [|y l IH]; intros i j N Ei Ej Xa Xb; [destruct i; discriminate|]. cbn [flat_map] in N.
  assert (DJ : forall z, In z (f y) -> ~ In z (flat_map f l)).
  { clear -N. induction (f y) as [|u r IHr]; intros z [] Q; inversion N as [|? ? N1 N2]; subst; [apply N1; apply in_app_iff; right; exact Q|exact (IHr N2 z H Q)]. }
  assert (NR : NoDup (flat_map f l)) by (clear -N; induction (f y) as [|u r IHr]; [exact N|]; inversion N; auto).
  assert (IN : forall k c, nth_error l k = Some c -> In x (f c) -> In x (flat_map f l)) by (intros k c K XC; apply in_flat_map; exists c; split; [eapply nth_error_In; exact K|exact XC]).
  destruct i as [|i], j as [|j]; cbn [nth_error] in *; [reflexivity| | |].
  - injection Ei as ->. exfalso. exact (DJ x Xa (IN _ _ Ej Xb)).
  - injection Ej as ->. exfalso. exact (DJ x Xb (IN _ _ Ei Xa)).
  - f_equal. eapply IH; eauto.
Qed.
Lemma nodup_copies j (l : list (msg B)) : (forall m, In m l -> receivers n j m <> []) -> NoDup (copies n j l) -> NoDup l.
Proof.
  induction l as [|m l IH]; intros R N; [constructor|]. cbn [copies flat_map] in N. fold (copies n j l) in N.
  assert (NL : NoDup (copies n j l)) by (clear -N; induction (map (fun j0 => (j0, m)) (receivers n j m)) as [|u r IHr]; [exact N|]; inversion N; auto).
  constructor; [|apply IH; [intros m' M; apply R; right; exact M|exact NL]].
  intros M. specialize (R m (or_introl eq_refl)). destruct (receivers n j m) as [|i r] eqn:RE; [contradiction|]. cbn [map] in N. inversion N as [|? ? N1 _]; subst. apply N1. apply in_app_iff. right. apply in_copies. split; [exact M|rewrite RE; left; reflexivity].
Qed.
Lemma numbered_snd k l : map snd (numbered k l) = l.
Proof. unfold numbered. revert k. induction l as [|x l IH]; intros k; [reflexivity|]. cbn [length seq map combine snd]. rewrite IH. reflexivity. Qed.

(** * Consequences of the invariant *)
Section Facts.
Context (l : list act) (nacts : list nact) (w : sys) (log : list cev).
Hypothesis I : SInv l nacts w log.
Notation tr := (sy_tr w).
Notation wn := (fst (nexec nacts)).

Lemma si_fate : MInv oc (sy_db w) tr /\ Fate oc l (sy_db w) tr. Proof. apply reach_fate, (si_exec _ _ _ _ I). Qed.
Lemma si_linv : exists lost, LInv opf s0 wn (calls log) lost.
Proof. rewrite <- (si_net _ _ _ _ I). apply (exec_inv opf s0). exact Hdr. Qed.
Lemma si_tasks : length (db_tasks (sy_db w)) = length (asks log).
Proof. destruct si_fate as [_ F]. rewrite (ft_len _ _ _ _ F), (si_reqs _ _ _ _ I), map_length. reflexivity. Qed.
Lemma req_of t rid q : nth_error (reqs l) t = Some (rid, q) -> rid = room_id /\ exists c, nth_error (asks log) t = Some (c, q).
Proof.
  rewrite (si_reqs _ _ _ _ I), nth_error_map. destruct (nth_error (asks log) t) as [[c q']|]; [|discriminate]. cbn. intros [= <- <-]. eauto.
Qed.
Lemma ask_req t c q : nth_error (asks log) t = Some (c, q) -> nth_error (reqs l) t = Some (room_id, q).
Proof. intros E. rewrite (si_reqs _ _ _ _ I), nth_error_map, E. reflexivity. Qed.
Lemma obs_published t rid r m : In (OPublished t rid r m) tr -> rid = room_id /\ r = 0 /\ exists c, nth_error (asks log) t = Some (c, RPub m).
Proof.
  intros X. destruct si_fate as [_ F]. pose proof (ft_obs _ _ _ _ F _ X) as Q. cbn in Q. apply req_of in Q. destruct Q as [-> [c Q]]. split; [reflexivity|]. split; [|eauto].
  pose proof (si_serves _ _ _ _ I) as SV. rewrite Forall_forall in SV. exact (SV _ X eq_refl).
Qed.
Lemma obs_joined t rid r last : In (OJoined t rid r last) tr -> rid = room_id /\ r = 0 /\ last = None /\ exists c, nth_error (asks log) t = Some (c, RSub None).
Proof.
  intros X. destruct si_fate as [_ F]. pose proof (ft_obs _ _ _ _ F _ X) as Q. cbn in Q. apply req_of in Q. destruct Q as [-> [c Q]]. split; [reflexivity|].
  pose proof (si_sub _ _ _ _ I _ _ _ Q) as [-> _]. pose proof (si_serves _ _ _ _ I) as SV. rewrite Forall_forall in SV. split; [exact (SV _ X eq_refl)|]. eauto.
Qed.

(** Messages posted and messages sent *)
Lemma posts_sent c : 1 <= c <= n -> exists rest, map ser (drained (rets_of c (calls log))) = posts c (asks log) ++ rest.
Proof.
  intros C. destruct (si_stage _ _ _ _ I c C) as (st & _ & K).
  assert (SL : silent log c -> exists rest, map ser (drained (rets_of c (calls log))) = posts c (asks log) ++ rest) by (intros [-> _]; eexists; reflexivity).
  destruct st as [|t|sub t|x|x r|]; cbn [stage_ok] in K.
  - exact (SL (proj1 K)).
  - exact (SL (proj1 K)).
  - exact (SL (proj1 K)).
  - rewrite (ro_out _ _ _ _ _ K). eauto.
  - rewrite (ro_out _ _ _ _ _ (proj1 K)). eauto.
  - contradiction.
Qed.
Lemma ser_inj a b : ser a = ser b -> a = b. Proof. intros E. apply (f_equal par) in E. rewrite !Hser in E. congruence. Qed.
Lemma post_msg t c s : nth_error (asks log) t = Some (c, RPub s) -> 1 <= c <= n /\ exists m, s = ser m /\ In m (drained (rets_of c (calls log))) /\ m_from m = c.
Proof.
  intros E. pose proof (si_ask _ _ _ _ I _ _ _ E) as C. split; [exact C|]. destruct (posts_sent c C) as [rest Q].
  assert (X : In s (map ser (drained (rets_of c (calls log))))) by (rewrite Q; apply in_app_iff; left; apply in_posts; eauto).
  apply in_map_iff in X. destruct X as (m & <- & X). exists m. split; [reflexivity|]. split; [exact X|]. rewrite <- (si_net _ _ _ _ I) in X. apply (Nfrom nacts c m C X).
Qed.
Lemma call_range e : In e (calls log) -> 1 <= fst (fst e) <= length s0.
Proof. intros X. destruct si_linv as [lost L]. apply (li_idx _ _ _ _ _ L e X). Qed.
Lemma drained_nodup c : 1 <= c <= n -> NoDup (drained (rets_of c (calls log))).
Proof.
  intros C. pose proof (Nnodup nacts) as N. rewrite (si_net _ _ _ _ I) in N.
  pose proof (routed_perm s0 (calls log) call_range) as PM. rewrite Hlen in PM. apply (Permutation_NoDup PM) in N.
  assert (NC : NoDup (copies n c (drained (rets_of c (calls log))))).
  { assert (IC : In c (seq 1 n)) by (apply in_seq; lia). clear PM. induction (seq 1 n) as [|j r IH]; [contradiction|]. cbn [flat_map] in N.
    destruct IC as [->|IC]; [exact (nodup_app_l _ _ N)|]. apply IH; [|exact IC]. clear -N. induction (copies n j (drained (rets_of j (calls log)))) as [|u v IHv]; [exact N|]. inversion N; auto. }
  apply (nodup_copies c); [|exact NC]. intros m M. rewrite <- (si_net _ _ _ _ I) in M. destruct (Nfrom nacts c m C M) as [_ [E|[i [E _]]]]; unfold receivers; rewrite E; [|discriminate].
  intros Z. assert (X : exists i, In i (peers c n)).
  { exists (if c =? 1 then 2 else 1). apply (in_peers c n C). destruct (Nat.eqb_spec c 1); lia. }
  destruct X as [i X]. rewrite Z in X. contradiction.
Qed.
Lemma map_ser_nodup (k : list (msg B)) : NoDup k -> NoDup (map ser k).
Proof. induction 1 as [|x k X N IH]; cbn; constructor; [|exact IH]. rewrite in_map_iff. intros (y & E & Y). apply ser_inj in E. congruence. Qed.
Lemma post_unique t1 t2 c1 c2 s : nth_error (asks log) t1 = Some (c1, RPub s) -> nth_error (asks log) t2 = Some (c2, RPub s) -> t1 = t2.
Proof.
  intros E1 E2. destruct (post_msg _ _ _ E1) as (C1 & m1 & -> & X1 & F1). destruct (post_msg _ _ _ E2) as (C2 & m2 & Q & X2 & F2). apply ser_inj in Q. subst m2.
  assert (CC : c2 = c1) by congruence. rewrite CC in E2. destruct (posts_sent c1 C1) as [rest R]. pose proof (map_ser_nodup _ (drained_nodup c1 C1)) as N. rewrite R in N. apply nodup_app_l in N.
  apply (nodup_flat_map_pos _ _ t1 t2 _ _ (ser m1) N E1 E2); cbv beta iota; rewrite Nat.eqb_refl; left; reflexivity.
Qed.
Lemma pubs_nodup : NoDup (pubs 0 tr).
Proof.
  destruct si_fate as [_ F]. pose proof (ft_once _ _ _ _ F) as ON. pose proof obs_published as OP. clear F. set (k := tr) in *. clearbody k.
  induction k as [|o k IH]; [constructor|].
  assert (OP' : forall t rid r m, In (OPublished t rid r m) k -> rid = room_id /\ r = 0 /\ exists c, nth_error (asks log) t = Some (c, RPub m)) by (intros t rid r m X; apply OP with (1 := or_intror X)).
  change (o :: k) with ([o] ++ k) in *. rewrite pubs_app. rewrite pub_tasks_app in ON.
  assert (ON' : NoDup (pub_tasks k)) by (clear -ON; induction (pub_tasks [o]) as [|u v IHv]; [exact ON|]; inversion ON; auto). specialize (IH ON' OP').
  destruct o as [t rid r last|t r i m|t rid r i|t rid r m|t r|t r|t r]; try exact IH.
  cbn [pubs flat_map app]. destruct (Nat.eqb_spec r 0) as [->|NR]; [|exact IH]. cbn [app]. constructor; [|exact IH].
  intros X. apply in_pubs in X. destruct X as (t' & rid' & X). destruct (OP' _ _ _ _ X) as (_ & _ & c' & E'). destruct (OP t rid 0 m (or_introl eq_refl)) as (_ & _ & c & E).
  assert (t' = t) by (eapply post_unique; eauto). subst t'. cbn in ON. inversion ON as [|? ? N1 _]; subst. apply N1. apply in_flat_map. eexists. split; [exact X|left; reflexivity].
Qed.
Lemma posts_total (a : list (nat * req)) : (forall x, In x a -> 1 <= fst x <= n) ->
  length (filter (fun x => match snd x with RPub _ => true | _ => false end) a) = list_sum (map (fun c => length (posts c a)) (seq 1 n)).
Proof.
  induction a as [|[c q] a IH]; intros R; [cbn; rewrite sum_const; lia|].
  assert (E : list_sum (map (fun c' => length (posts c' ((c, q) :: a))) (seq 1 n)) = list_sum (map (fun c' => (if c =? c' then match q with RPub _ => 1 | _ => 0 end else 0) + length (posts c' a)) (seq 1 n))).
  { f_equal. apply map_ext. intros c'. cbn [posts flat_map]. fold (posts c' a). rewrite app_length. destruct (c =? c'); [destruct q|]; reflexivity. }
  rewrite E, sum_add. rewrite sum_one; [|apply seq_NoDup|apply in_seq; specialize (R _ (or_introl eq_refl)); cbn in R; lia].
  rewrite <- IH by (intros x X; apply R; right; exact X). cbn [filter snd]. destruct q; reflexivity.
Qed.
Lemma pub_bound r : length (pubs r tr) <= bound.
Proof.
  apply Nat.le_trans with (length (pub_tasks tr)); [apply pubs_count|]. destruct si_fate as [_ F].
  assert (Q1 : length (pub_tasks tr) <= length (filter (fun x => match snd x with RPub _ => true | _ => false end) (asks log))).
  { set (f := fun x : nat * req => match snd x with RPub _ => true | _ => false end).
    assert (Q : incl (pub_tasks tr) (filter (fun t => match nth_error (asks log) t with Some x => f x | None => false end) (seq 0 (length (asks log))))).
    { intros t T. apply in_flat_map in T. destruct T as (o & X & T). destruct o; try contradiction. destruct T as [->|[]]. destruct (obs_published _ _ _ _ X) as (_ & _ & c & E).
      apply filter_In. split; [apply in_seq; apply nth_error_lt in E; lia|]. rewrite E. reflexivity. }
    pose proof (NoDup_incl_length (ft_once _ _ _ _ F) Q) as L. eapply Nat.le_trans; [exact L|]. clear. generalize (asks log) as a. induction a as [|x a IH]; [cbn; lia|].
    cbn [length seq filter nth_error]. rewrite <- seq_shift. assert (Z : length (filter (fun t => match nth_error (x :: a) t with Some y => f y | None => false end) (map Datatypes.S (seq 0 (length a)))) = length (filter (fun t => match nth_error a t with Some y => f y | None => false end) (seq 0 (length a)))).
    { clear IH. induction (seq 0 (length a)) as [|k r IHr]; [reflexivity|]. cbn [map filter nth_error]. destruct (nth_error a k) as [y|]; [destruct (f y)|]; cbn [length]; rewrite IHr; reflexivity. }
    destruct (f x); cbn [length]; rewrite Z; lia. }
  eapply Nat.le_trans; [exact Q1|]. rewrite posts_total by (intros [c q] X; apply In_nth_error in X; destruct X as [t X]; exact (si_ask _ _ _ _ I _ _ _ X)).
  pose proof (Nbound nacts) as B1. rewrite (si_net _ _ _ _ I) in B1. rewrite (taken_sum n (calls log)) in B1 by (intros e X; rewrite <- Hlen; exact (call_range e X)).
  eapply Nat.le_trans; [|exact B1]. apply sum_le. intros c C. apply in_seq in C. destruct (posts_sent c ltac:(lia)) as [rest R]. apply (f_equal (@length string)) in R. rewrite app_length, !map_length in R. lia.
Qed.

(** What a subscription has delivered: a prefix of the room's messages *)
Lemma gots_prefix t : joined t tr -> map snd (gots t tr) = firstn (length (gots t tr)) (pubs 0 tr) /\ length (gots t tr) <= length (pubs 0 tr).
Proof.
  intros J. destruct si_fate as [M _]. destruct (joined_once _ _ _ _ _ _ _ M J) as [_ F]. pose proof (pub_bound 0) as PB.
  destruct (fed_exact _ _ _ _ F) as (Q & L & _); [right; split; [lia|discriminate]|]. cbn [wanted_from] in *. cbn [skipn] in Q. split.
  - rewrite Q at 1. apply numbered_snd.
  - destruct L as [L|L]; [lia|]. rewrite L. cbn. lia.
Qed.

(** A subscriber that has not left is served *)
Lemma sub_alive c st t : 1 <= c <= n -> client w c = Some st -> sub_of st = Some t -> joined t tr -> (forall x r, st <> CDone x r) ->
  exists x, nth t (db_tasks (sy_db w)) TEnd = x /\ (exists k, x = TReady 0 k \/ exists e, x = TWaiting 0 k e) /\ t < length (db_tasks (sy_db w)) /\ ~ gone t tr.
Proof.
  intros C CL SU J ND. destruct si_fate as [M F]. pose proof (ft_obs _ _ _ _ F _ J) as Q. cbn in Q. pose proof (nth_error_lt _ _ _ Q) as TL. rewrite <- (ft_len _ _ _ _ F) in TL.
  pose proof (ft_task _ _ _ _ F _ _ _ Q) as K. eexists. split; [reflexivity|]. destruct (nth t (db_tasks (sy_db w)) TEnd) as [i q|i q|i r q|r nx|r nx seen|]; cbn [fate_of] in K.
  1-3: exfalso; destruct K as (_ & _ & K); exact (K _ J eq_refl).
  1-2: destruct K as (last & _ & K1 & K2); apply obs_joined in K1; destruct K1 as (_ & -> & _); split; [eauto|auto].
  exfalso. destruct K as [K|[K|(r & K1 & K2)]].
  - apply (si_cancel _ _ _ _ I) in K. destruct K as (c' & x & r & C' & CL' & SU'). pose proof (req_of _ _ _ Q) as [_ [c'' A]].
    destruct (si_stage _ _ _ _ I c' C') as (st' & CL'' & K'). rewrite CL' in CL''. injection CL'' as <-. cbn [stage_ok] in K'. destruct K' as [K' _]. pose proof (ro_sub _ _ _ _ _ K') as A'. rewrite SU' in A'.
    destruct (si_stage _ _ _ _ I c C) as (st'' & CL3 & K3). rewrite CL in CL3. injection CL3 as <-.
    assert (A3 : nth_error (asks log) t = Some (c, RSub None)).
    { destruct st as [|t'|t' t''|x'|x' r'|]; cbn [sub_of stage_ok] in *; try discriminate; injection SU as <-; [exact (proj1 (proj2 K3))|exact (proj1 (proj2 K3))|exact (ro_sub _ _ _ _ _ K3)|exact (ro_sub _ _ _ _ _ (proj1 K3))]. }
    assert (c' = c) by congruence. subst c'. rewrite CL in CL'. injection CL' as ->. exact (ND x r eq_refl).
  - discriminate.
  - pose proof (pub_bound r). lia.
Qed.

Lemma holders_pos r (k : list task) t : t < length k -> holding r (nth t k TEnd) = 1%Z -> (1 <= holders r k)%Z.
Proof.
  unfold holders. revert t. induction k as [|x k IH]; intros t T H; cbn [length] in T; [lia|]. cbn [map fold_right].
  assert (P0 : forall k', (0 <= fold_right Z.add 0 (map (holding r) k'))%Z).
  { clear. induction k' as [|y k' IH]; cbn; [lia|]. destruct y; cbn; try lia; destruct (Nat.eqb _ _); lia. }
  assert (P1 : (0 <= holding r x)%Z) by (destruct x; cbn; try lia; destruct (Nat.eqb _ _); lia).
  destruct t as [|t]; cbn [nth] in H; [specialize (P0 k); lia|]. specialize (IH t ltac:(lia) H). lia.
Qed.
Lemma holders_le r (k : list task) : (holders r k <= Z.of_nat (length (filter (fun x => match x with TReady _ _ | TWaiting _ _ _ => true | _ => false end) k)))%Z.
Proof. unfold holders. induction k as [|x k IH]; [cbn; lia|]. cbn [map fold_right filter]. destruct x; cbn [holding length]; try lia; destruct (Nat.eqb _ _); lia. Qed.
Lemma holders_bound : (holders 0 (db_tasks (sy_db w)) <= Z.of_nat n)%Z.
Proof.
  eapply Z.le_trans; [apply holders_le|]. apply inj_le. set (f := fun x => match x with TReady _ _ | TWaiting _ _ _ => true | _ => false end).
  set (T := filter (fun t => f (nth t (db_tasks (sy_db w)) TEnd)) (seq 0 (length (db_tasks (sy_db w))))).
  assert (E : length (filter f (db_tasks (sy_db w))) = length T).
  { unfold T. clear. induction (db_tasks (sy_db w)) as [|x k IH]; [reflexivity|]. cbn [length seq filter]. change (nth 0 (x :: k) TEnd) with x. rewrite <- seq_shift.
    assert (Z : length (filter (fun t => f (nth t (x :: k) TEnd)) (map Datatypes.S (seq 0 (length k)))) = length (filter (fun t => f (nth t k TEnd)) (seq 0 (length k)))).
    { clear IH. induction (seq 0 (length k)) as [|j r IHr]; [reflexivity|]. cbn [map filter]. change (nth (Datatypes.S j) (x :: k) TEnd) with (nth j k TEnd). destruct (f (nth j k TEnd)); cbn [length]; rewrite IHr; reflexivity. }
    destruct (f x); cbn [length]; rewrite Z, IH; reflexivity. }
  rewrite E. set (own_of := fun t => match nth_error (asks log) t with Some (c, _) => c | None => 0 end).
  assert (OW : forall t, In t T -> exists c, nth_error (asks log) t = Some (c, RSub None)).
  { intros t X. apply filter_In in X. destruct X as [X1 X2]. destruct si_fate as [_ F]. apply in_seq in X1. rewrite (ft_len _ _ _ _ F) in X1.
    destruct (nth_error (reqs l) t) as [[rid q]|] eqn:Q; [|apply nth_error_None in Q; lia]. pose proof (ft_task _ _ _ _ F _ _ _ Q) as K.
    destruct (nth t (db_tasks (sy_db w)) TEnd); try discriminate; destruct K as (last & -> & _); destruct (req_of _ _ _ Q) as [_ [c A]]; pose proof (si_sub _ _ _ _ I _ _ _ A) as [-> _]; eauto. }
  rewrite <- (map_length own_of T). rewrite <- (seq_length n 1). apply NoDup_incl_length.
  - assert (NT : NoDup T) by (apply NoDup_filter, seq_NoDup). clear E. clearbody T. induction T as [|t T IH]; [constructor|]. inversion NT as [|? ? N1 N2]; subst. cbn [map]. constructor.
    + rewrite in_map_iff. intros (t' & E & X). destruct (OW t (or_introl eq_refl)) as [c A]. destruct (OW t' (or_intror X)) as [c' A']. unfold own_of in E. rewrite A, A' in E. subst c'.
      pose proof (si_sub _ _ _ _ I _ _ _ A) as [_ (st & CL & SU)]. pose proof (si_sub _ _ _ _ I _ _ _ A') as [_ (st' & CL' & SU')]. assert (t' = t) by congruence. congruence.
    + apply IH; [intros t' X; apply OW; right; exact X|exact N2].
  - intros c X. apply in_map_iff in X. destruct X as (t & E1 & X). destruct (OW t X) as [c' A]. unfold own_of in E1. rewrite A in E1. subst c'. apply in_seq. pose proof (si_ask _ _ _ _ I _ _ _ A). lia.
Qed.
Lemma no_leak : leaked 0 tr = 0%Z.
Proof.
  destruct si_fate as [_ F]. assert (Q : forall t r, ~ In (OJoinPanic t r) tr).
  { intros t r X. pose proof (ft_obs _ _ _ _ F _ X) as Q. cbn in Q. destruct Q as (rid & last & Q1 & Q2). destruct (req_of _ _ _ Q1) as [_ [c A]]. pose proof (si_sub _ _ _ _ I _ _ _ A) as [-> _]. discriminate. }
  unfold leaked. revert Q. clear. generalize (sy_tr w) as k. induction k as [|o k IH]; intros Q; [reflexivity|]. cbn [map fold_right]. rewrite IH by (intros t r X; apply (Q t r); right; exact X).
  destruct o; try reflexivity. exfalso. apply (Q t ref). left. reflexivity.
Qed.
(** As long as one client is still there, the room is watched. *)
Definition all_done (w : sys) : Prop := forall c, 1 <= c <= n -> exists x r, client w c = Some (CDone x r).
Lemma done_all_running c x r : 1 <= c <= n -> client w c = Some (CDone x r) -> forall j, 1 <= j <= n -> exists y, client w j = Some (CRunning y) \/ exists r', client w j = Some (CDone y r').
Proof.
  intros C CL j J. destruct (Nat.eq_dec j c) as [->|NE]; [eauto|]. destruct (si_stage _ _ _ _ I c C) as (st & CL' & K). rewrite CL in CL'. injection CL' as <-. cbn [stage_ok] in K. destruct K as (K & ML & _).
  unfold may_leave in ML. apply andb_prop in ML. destruct ML as [FI _]. pose proof (Nheard nacts c _ j C (ro_st _ _ _ _ _ K) FI J NE) as H. rewrite (si_net _ _ _ _ I) in H.
  destruct (si_stage _ _ _ _ I j J) as (st' & CL' & K'). assert (SL : silent log j -> False).
  { intros [_ OP]. apply H. destruct si_linv as [lost L]. destruct (nth_error s0 (j - 1)) as [s|] eqn:E; [|apply nth_error_None in E; lia].
    destruct (li_runs _ _ _ _ _ L j s ltac:(lia) E) as [_ R]. rewrite OP in R. rewrite R. reflexivity. }
  destruct st' as [|t|sub t|y|y r'|]; cbn [stage_ok] in K'; try (exfalso; apply SL; tauto); eauto.
Qed.
Lemma watched_or_done : watched 0 tr \/ all_done w.
Proof.
  destruct si_fate as [M _].
  assert (W : forall c st t, 1 <= c <= n -> client w c = Some st -> sub_of st = Some t -> joined t tr -> (forall x r, st <> CDone x r) -> watched 0 tr).
  { intros c st t C CL SU J ND. destruct (sub_alive c st t C CL SU J ND) as (x & E & (k & X) & TL & _). unfold watched. rewrite no_leak, (mi_watch _ _ _ M 0), Z.add_0_r.
    pose proof holders_bound as HB. split; [|lia]. assert (H1 : (1 <= holders 0 (db_tasks (sy_db w)))%Z); [|lia]. apply (holders_pos 0 _ t TL). rewrite E. destruct X as [->|[e ->]]; reflexivity. }
  assert (DEC : (forall c, In c (seq 1 n) -> exists x r, client w c = Some (CDone x r)) \/ exists c st, In c (seq 1 n) /\ client w c = Some st /\ forall x r, st <> CDone x r).
  { assert (ST : forall c, In c (seq 1 n) -> exists st, client w c = Some st) by (intros c X; apply in_seq in X; destruct (si_stage _ _ _ _ I c ltac:(lia)) as (st & CL & _); eauto).
    induction (seq 1 n) as [|c r IH]; [left; intros c []|]. destruct (ST c (or_introl eq_refl)) as [st CL]. destruct IH as [IH|(c' & st' & X & Y)].
    - intros c' X. apply ST. right. exact X.
    - destruct st as [|t|sub t|x|x rr|]; try (right; exists c; eexists; split; [left; reflexivity|split; [exact CL|discriminate]]). left. intros c' [<-|X]; eauto.
    - right. exists c', st'. split; [right; exact X|exact Y]. }
  destruct DEC as [D|(c & st & C & CL & ND)]; [right; intros c C; apply D; apply in_seq; lia|left]. apply in_seq in C. assert (C' : 1 <= c <= n) by lia.
  destruct (si_stage _ _ _ _ I c C') as (st1 & CL1 & K). rewrite CL in CL1. injection CL1 as <-.
  destruct (si_first _ _ _ _ I) as [J0 (st0 & CL0 & SU0)].
  assert (DEC0 : (exists x r, st0 = CDone x r) \/ forall x r, st0 <> CDone x r) by (destruct st0; eauto; right; discriminate).
  destruct DEC0 as [(x0 & r0 & ->)|ND0].
  - destruct (done_all_running c0 x0 r0 Hc0 CL0 c C') as [y [Y|[r' Y]]]; rewrite CL in Y; injection Y as ->.
    + apply (W c (CRunning y) (cr_sub y) C' CL eq_refl (ro_join _ _ _ _ _ K) ND).
    + exfalso. exact (ND y r' eq_refl).
  - exact (W c0 st0 0 Hc0 CL0 SU0 J0 ND0).
Qed.
End Facts.

(** * Preservation *)
Lemma nth_app_l {A} (a b : list A) t x : nth_error a t = Some x -> nth_error (a ++ b) t = Some x.
Proof. intros E. rewrite nth_error_app1; [exact E|eapply nth_error_lt; exact E]. Qed.
Lemma issue_other ok log c e : issue_only ok log c -> Forall (fun y => ev_client y <> c) e -> issue_only ok (log ++ e) c.
Proof.
  intros H F t T. destruct (other_log c e F) as (_ & _ & _ & O4). rewrite asks_app in T. destruct (Nat.lt_ge_cases t (length (asks log))) as [L|L].
  - rewrite nth_error_app1 in T by exact L. exact (H t T).
  - rewrite nth_error_app2 in T by exact L. exfalso. exact (O4 _ _ T).
Qed.
Lemma run_grow tr log wn c x o e wn' : run_ok tr log wn c x -> Forall (fun y => ev_client y <> c) e -> party wn' c = party wn c -> run_ok (tr ++ o) (log ++ e) wn' c x.
Proof.
  intros [A1 A2 A3 A4 A5 A6 A7 A8 A9 A10] F PE. destruct (other_log c e F) as (O1 & O2 & O3 & O4). constructor.
  - exact A1.
  - rewrite PE. exact A2.
  - rewrite asks_app. apply nth_app_l. exact A3.
  - apply in_app_iff. left. exact A4.
  - rewrite calls_app, rets_app, O3, app_nil_r, asks_app, posts_app, O1, app_nil_r. exact A5.
  - intros t s T. rewrite asks_app in T. rewrite pub_tasks_app, in_app_iff. destruct (Nat.lt_ge_cases t (length (asks log))) as [L|L].
    + rewrite nth_error_app1 in T by exact L. destruct (A6 t s T); auto.
    + rewrite nth_error_app2 in T by exact L. exfalso. exact (O4 _ _ T).
  - intros t T. destruct (A7 t T) as [s Q]. exists s. rewrite asks_app. apply nth_app_l. exact Q.
  - rewrite gots_app, app_length. lia.
  - rewrite calls_app, ops_app, O2, app_nil_r, A9, gots_app, map_app. f_equal. rewrite firstn_app, map_length. replace (cr_read x - length (gots (cr_sub x) tr)) with 0 by lia. cbn [firstn]. rewrite app_nil_r. reflexivity.
  - destruct A10 as (t0 & (rid & r & i & X) & A10). exists t0. split; [exists rid, r, i; apply in_app_iff; left; exact X|]. exact (issue_other (eq t0) log c e A10 F).
Qed.
Lemma stage_grow tr log wn c st o e wn' : stage_ok tr log wn c st -> Forall (fun y => ev_client y <> c) e -> party wn' c = party wn c -> stage_ok (tr ++ o) (log ++ e) wn' c st.
Proof.
  intros K F PE. destruct (other_log c e F) as (O1 & O2 & O3 & O4).
  assert (SL : silent log c -> silent (log ++ e) c) by (intros [S1 S2]; unfold silent; rewrite asks_app, posts_app, calls_app, ops_app, S1, S2, O1, O2; auto).
  destruct st as [|t|sub t|x|x r|]; cbn [stage_ok] in *; rewrite ?asks_app.
  - destruct K as [K1 K2]. split; [auto|apply issue_other; assumption].
  - destruct K as (K1 & K2 & K3). refine (conj (SL K1) (conj (nth_app_l _ _ _ _ K2) _)). apply issue_other; assumption.
  - destruct K as (K1 & K2 & K3 & K4 & K5). refine (conj (SL K1) (conj (nth_app_l _ _ _ _ K2) (conj _ (conj (nth_app_l _ _ _ _ K4) _)))); [apply in_app_iff; left; exact K3|apply issue_other; assumption].
  - eapply run_grow; eauto.
  - destruct K as (K1 & K2 & K3). refine (conj _ (conj K2 K3)). eapply run_grow; eauto.
  - exact K.
Qed.
Lemma client_upd (d : db) (t : list obs) (k : list stage) c st j : 1 <= c <= length k -> 1 <= j ->
  client {| sy_db := d; sy_tr := t; sy_cl := Stores.upd k (c - 1) st |} j = if j =? c then Some st else nth_error k (j - 1).
Proof.
  intros C J. destruct j as [|j]; [lia|]. cbn [client sy_cl]. replace (Datatypes.S j - 1) with j by lia. destruct (Nat.eqb_spec (Datatypes.S j) c) as [<-|N].
  - replace (Datatypes.S j - 1) with j by lia. apply upd_nth_same. lia.
  - apply upd_nth_other. lia.
Qed.
Lemma client_nth (w : sys) j : 1 <= j -> client w j = nth_error (sy_cl w) (j - 1).
Proof. intros J. destruct j as [|j]; [lia|]. cbn [client]. f_equal. lia. Qed.

Lemma client_range (w : sys) c st : length (sy_cl w) = n -> client w c = Some st -> 1 <= c <= n.
Proof. intros L E. destruct c as [|c]; [discriminate|]. cbn [client] in E. apply nth_error_lt in E. lia. Qed.
Lemma run_tasks t s : db_tasks (fst (run_task oc t s)) = db_tasks s \/ exists x, db_tasks (fst (run_task oc t s)) = upd t (fun _ => x) (db_tasks s).
Proof.
  unfold run_task. destruct (nth t (db_tasks s) TEnd) as [i q|i q|i r q|r nx|r nx seen|].
  - destruct (lookup_step i s); right; eexists; reflexivity.
  - unfold create_step. destruct (find_room i (db_rooms s)) as [ref|]; [destruct (negb _)|]; right; eexists; reflexivity.
  - destruct q as [last| |m]; [destruct (start_at oc last)|destruct (issue_unique_idx _)|]; right; eexists; reflexivity.
  - destruct (nth_error _ _); [destruct (add16 oc nx)|]; right; eexists; reflexivity.
  - destruct (Nat.ltb _ _); [right; eexists; reflexivity|left; reflexivity].
  - left; reflexivity.
Qed.
Lemma end_stays s a s' o t : step oc s a = (s', o) -> t < length (db_tasks s) -> nth t (db_tasks s) TEnd = TEnd -> nth t (db_tasks s') TEnd = TEnd.
Proof.
  intros E L T. destruct a as [rid q|u|u]; cbn [step] in E.
  - destruct (good_req q); injection E as <- <-; [|exact T]. cbn [db_tasks]. rewrite app_nth1 by exact L. exact T.
  - destruct (Nat.eq_dec t u) as [->|N].
    + unfold run_task in E. rewrite T in E. injection E as <- <-. exact T.
    + pose proof (run_tasks u s) as Q. rewrite E in Q. cbn [fst] in Q. destruct Q as [->|[x ->]]; [exact T|]. rewrite Manager20Proofs.upd_nth. apply Nat.eqb_neq in N. rewrite N. exact T.
  - unfold cancel_task in E. destruct (nth u (db_tasks s) TEnd); injection E as <- <-; cbn [set_task set_room db_tasks]; rewrite Manager20Proofs.upd_nth; destruct (_ && _)%bool; auto.
Qed.
Lemma cancel_end t s : nth t (db_tasks (fst (cancel_task t s))) TEnd = TEnd.
Proof.
  unfold cancel_task. destruct (nth t (db_tasks s) TEnd) eqn:E; cbn [fst set_task set_room db_tasks]; rewrite Manager20Proofs.upd_nth, Nat.eqb_refl; cbn [andb]; destruct (Nat.ltb_spec t (length (db_tasks s))) as [L|L]; try reflexivity; apply nth_overflow; exact L.
Qed.

Lemma not_all_done w c : 1 <= c <= n -> (forall x r, client w c <> Some (CDone x r)) -> ~ all_done w.
Proof. intros C N D. destruct (D c C) as (x & r & E). exact (N x r E). Qed.

Lemma step_gen l nacts w log c st st' la db' o e na :
  SInv l nacts w log -> 1 <= c <= n -> client w c = Some st -> (forall x r, st <> CDone x r) ->
  (la = [] /\ db' = sy_db w /\ o = [] \/ exists a, la = [a] /\ step oc (sy_db w) a = (db', o)) ->
  Forall (fun x => ev_client x = c) e -> reqs la = map (fun a => (room_id, snd a)) (asks e) ->
  snd (nexec (nacts ++ na)) = calls (log ++ e) ->
  (forall j, j <> c -> party (fst (nexec (nacts ++ na))) j = party (fst (nexec nacts)) j) ->
  stage_ok (sy_tr w ++ o) (log ++ e) (fst (nexec (nacts ++ na))) c st' ->
  (forall t, sub_of st = Some t -> sub_of st' = Some t) ->
  (forall t c' last, nth_error (asks e) t = Some (c', RSub last) -> last = None /\ sub_of st' = Some (length (asks log) + t)) ->
  (forall t, In (Cancel t) la -> exists x r, st' = CDone x r /\ cr_sub x = t) ->
  (forall x r, st' = CDone x r -> nth (cr_sub x) (db_tasks db') TEnd = TEnd) ->
  SInv (l ++ la) (nacts ++ na) {| sy_db := db'; sy_tr := sy_tr w ++ o; sy_cl := Stores.upd (sy_cl w) (c - 1) st' |} (log ++ e).
Proof.
  intros I C CL ND LA EV RQ NE OT SK SUB1 SUB2 CAN DN. pose proof (si_cl _ _ _ _ I) as LN.
  assert (ND' : forall x r, client w c <> Some (CDone x r)) by (intros x r E; rewrite CL in E; injection E as ->; exact (ND x r eq_refl)).
  assert (WA : watched 0 (sy_tr w)) by (destruct (watched_or_done _ _ _ _ I) as [W|W]; [exact W|destruct (not_all_done w c C ND' W)]).
  destruct (si_fate _ _ _ _ I) as [M _].
  assert (CU : forall j, 1 <= j -> client {| sy_db := db'; sy_tr := sy_tr w ++ o; sy_cl := Stores.upd (sy_cl w) (c - 1) st' |} j = if j =? c then Some st' else client w j).
  { intros j J. rewrite client_upd by lia. rewrite (client_nth w j J). reflexivity. }
  assert (EX : exec oc (sy_db w) la = (db', o)).
  { destruct LA as [(-> & -> & ->)|(a & -> & E)]; [reflexivity|]. cbn [exec]. rewrite E, app_nil_r. reflexivity. }
  assert (STD : steady room_id 0 0 db' /\ Forall (serves room_id 0) o).
  { destruct LA as [(-> & -> & ->)|(a & -> & E)]; [split; [exact (si_steady _ _ _ _ I)|constructor]|].
    pose proof (steady_step oc room_id 0 0 (sy_db w) (sy_tr w) a M WA (si_steady _ _ _ _ I)) as Q. rewrite E in Q. destruct Q as [Q1 Q2]. split; [exact Q1|]. eapply Forall_impl; [|exact Q2]. intros x X. apply X. lia. }
  constructor; cbn [sy_db sy_tr sy_cl].
  - rewrite exec_app, (si_exec _ _ _ _ I), EX. reflexivity.
  - rewrite reqs_app, asks_app, map_app, (si_reqs _ _ _ _ I), RQ. reflexivity.
  - assert (UL : forall (k : list stage) i y, length (Stores.upd k i y) = length k) by (clear; induction k as [|a k IH]; intros [|i] y; cbn; auto). rewrite UL. exact LN.
  - exact NE.
  - intros j J. rewrite CU by lia. destruct (Nat.eqb_spec j c) as [->|N]; [eauto|]. destruct (si_stage _ _ _ _ I j J) as (sj & CJ & KJ). exists sj. split; [exact CJ|].
    eapply stage_grow; [exact KJ| |apply OT; exact N]. eapply Forall_impl; [|exact EV]. cbn. intros y -> Q. congruence.
  - intros t c' q T. rewrite asks_app in T. destruct (Nat.lt_ge_cases t (length (asks log))) as [L|L].
    + rewrite nth_error_app1 in T by exact L. exact (si_ask _ _ _ _ I _ _ _ T).
    + rewrite nth_error_app2 in T by exact L. apply nth_error_In in T. apply in_flat_map in T. destruct T as (y & Y1 & Y2). rewrite Forall_forall in EV. specialize (EV y Y1). destruct y; cbn in Y2; try contradiction. destruct Y2 as [[= <- <-]|[]]. cbn in EV. lia.
  - intros t c' last T. rewrite asks_app in T. destruct (Nat.lt_ge_cases t (length (asks log))) as [L|L].
    + rewrite nth_error_app1 in T by exact L. destruct (si_sub _ _ _ _ I _ _ _ T) as [-> (s1 & C1 & S1)]. split; [reflexivity|]. pose proof (si_ask _ _ _ _ I _ _ _ T) as CR. rewrite CU by lia.
      destruct (Nat.eqb_spec c' c) as [->|N]; [|eauto]. rewrite CL in C1. injection C1 as <-. eauto.
    + rewrite nth_error_app2 in T by exact L. destruct (SUB2 _ _ _ T) as [-> S1]. split; [reflexivity|].
      assert (c' = c). { apply nth_error_In in T. apply in_flat_map in T. destruct T as (y & Y1 & Y2). rewrite Forall_forall in EV. specialize (EV y Y1). destruct y; cbn in Y2; try contradiction. destruct Y2 as [[= <- _]|[]]. exact EV. }
      subst c'. rewrite CU by lia. rewrite Nat.eqb_refl. exists st'. split; [reflexivity|]. rewrite S1. f_equal. lia.
  - destruct (si_first _ _ _ _ I) as [J0 (st0 & CL0 & SU0)]. split; [apply in_app_iff; left; exact J0|]. rewrite CU by lia. destruct (Nat.eqb_spec c0 c) as [->|N]; [|eauto]. rewrite CL in CL0. injection CL0 as <-. eauto.
  - intros t T. apply in_app_iff in T. destruct T as [T|T].
    + destruct (si_cancel _ _ _ _ I t T) as (c' & x & r & C' & CL' & SU'). exists c', x, r. split; [exact C'|]. rewrite CU by lia. destruct (Nat.eqb_spec c' c) as [->|N]; [destruct (ND' x r CL')|auto].
    + destruct (CAN t T) as (x & r & -> & SU). exists c, x, r. split; [exact C|]. rewrite CU by lia. rewrite Nat.eqb_refl. auto.
  - intros c' x r CL'. assert (C' : 1 <= c') by (destruct c'; [discriminate|lia]). rewrite CU in CL' by exact C'. destruct (Nat.eqb_spec c' c) as [->|N]; [injection CL' as E; exact (DN x r E)|].
    pose proof (client_range _ _ _ LN CL') as CR. pose proof (si_done _ _ _ _ I _ _ _ CL') as TE. destruct (si_stage _ _ _ _ I c' CR) as (s2 & CL2 & K2). rewrite CL' in CL2. injection CL2 as <-. cbn [stage_ok] in K2. pose proof (ro_sub _ _ _ _ _ (proj1 K2)) as RS. apply nth_error_lt in RS. rewrite <- (si_tasks _ _ _ _ I) in RS.
    destruct LA as [(-> & -> & ->)|(a & -> & E)]; [exact TE|]. eapply end_stays; eauto.
  - exact (proj1 STD).
  - apply Forall_app. split; [exact (si_serves _ _ _ _ I)|exact (proj2 STD)].
Qed.

(** Nothing happens once everybody has left. *)
Lemma done_quiet l nacts w log t : SInv l nacts w log -> all_done w -> nth t (db_tasks (sy_db w)) TEnd = TEnd.
Proof.
  intros I D. destruct (si_fate _ _ _ _ I) as [M F].
  destruct (Nat.lt_ge_cases t (length (db_tasks (sy_db w)))) as [L|L]; [|apply nth_overflow; exact L].
  rewrite (si_tasks _ _ _ _ I) in L. destruct (nth_error (asks log) t) as [[c q]|] eqn:A; [|apply nth_error_None in A; lia].
  pose proof (si_ask _ _ _ _ I _ _ _ A) as C. pose proof (ask_req _ _ _ _ I _ _ _ A) as R. pose proof (ft_task _ _ _ _ F _ _ _ R) as K.
  destruct (D c C) as (x & r & CL). destruct (si_stage _ _ _ _ I c C) as (st & CL' & SK). rewrite CL in CL'. injection CL' as <-. cbn [stage_ok] in SK. destruct SK as (RK & ML & _).
  unfold may_leave in ML. apply andb_prop in ML. destruct ML as [FI ML]. destruct (queue (cr_st x)); [|discriminate]. destruct (cr_out x); [|discriminate]. destruct (cr_post x) eqn:PO; [discriminate|].
  assert (OB : (exists last, q = RSub last) \/ exists o, In o (sy_tr w) /\ obs_task o = t).
  { destruct q as [last| |m]; [left; eauto|right|right].
    - destruct (ro_iss _ _ _ _ _ RK) as (t0 & (rid & rr & i & X) & U). rewrite <- (U t A). eexists. split; [exact X|reflexivity].
    - destruct (ro_pub _ _ _ _ _ RK t m A) as [Q|Q]; [congruence|]. exact (in_pub_tasks _ _ Q). }
  destruct OB as [[last ->]|(o & O1 & O2)].
  - destruct (si_sub _ _ _ _ I _ _ _ A) as [-> (st & CL2 & SU)]. rewrite CL in CL2. injection CL2 as <-. cbn [sub_of] in SU. injection SU as <-. exact (si_done _ _ _ _ I _ _ _ CL).
  - destruct (nth t (db_tasks (sy_db w)) TEnd) as [i q'|i q'|i rr q'|rr nx|rr nx seen|] eqn:TN; cbn [fate_of] in K; [| | | | |reflexivity].
    1-3: exfalso; destruct K as (_ & _ & K); exact (K o O1 O2).
    1-2: exfalso; destruct K as (last & -> & K1 & K2); destruct (si_sub _ _ _ _ I _ _ _ A) as [-> (st & CL2 & SU)]; rewrite CL in CL2; injection CL2 as <-; cbn [sub_of] in SU; injection SU as <-;
      pose proof (si_done _ _ _ _ I _ _ _ CL) as TE; congruence.
Qed.

(** A server step *)
Lemma serve_inv l nacts w log t : SInv l nacts w log -> SInv (l ++ [Run t]) nacts (fst (sys_step w (CServe t))) log.
Proof.
  intros I. cbn [sys_step fst]. unfold serve. destruct (step oc (sy_db w) (Run t)) as [d o] eqn:E. destruct (si_fate _ _ _ _ I) as [M F].
  assert (ST : steady room_id 0 0 d /\ Forall (serves room_id 0) o).
  { destruct (watched_or_done _ _ _ _ I) as [W|W].
    - pose proof (steady_step oc room_id 0 0 (sy_db w) (sy_tr w) (Run t) M W (si_steady _ _ _ _ I)) as Q. rewrite E in Q. destruct Q as [Q1 Q2]. split; [exact Q1|]. eapply Forall_impl; [|exact Q2]. intros x X. apply X. lia.
    - cbn [step] in E. unfold run_task in E. rewrite (done_quiet _ _ _ _ t I W) in E. injection E as <- <-. split; [exact (si_steady _ _ _ _ I)|constructor]. }
  constructor; cbn [sy_db sy_tr sy_cl].
  - rewrite exec_app, (si_exec _ _ _ _ I). cbn [exec]. rewrite E, app_nil_r. reflexivity.
  - rewrite reqs_app. cbn [reqs flat_map app]. rewrite app_nil_r. exact (si_reqs _ _ _ _ I).
  - exact (si_cl _ _ _ _ I).
  - exact (si_net _ _ _ _ I).
  - intros c C. destruct (si_stage _ _ _ _ I c C) as (st & CL & K). exists st. split; [destruct c; [lia|exact CL]|].
    pose proof (stage_grow _ _ _ _ _ o [] (fst (nexec nacts)) K) as Q. rewrite app_nil_r in Q. apply Q; [constructor|reflexivity].
  - exact (si_ask _ _ _ _ I).
  - exact (si_sub _ _ _ _ I).
  - destruct (si_first _ _ _ _ I) as [J Q]. split; [apply in_app_iff; left; exact J|exact Q].
  - intros u U. apply in_app_iff in U. destruct U as [U|[U|[]]]; [exact (si_cancel _ _ _ _ I u U)|discriminate].
  - intros c x r CL. pose proof (client_range _ _ _ (si_cl _ _ _ _ I) CL) as C. pose proof (si_done _ _ _ _ I c x r CL) as TE. destruct (si_stage _ _ _ _ I c C) as (s2 & CL2 & K2). change (client w c = Some (CDone x r)) in CL. rewrite CL in CL2. injection CL2 as <-. cbn [stage_ok] in K2. pose proof (ro_sub _ _ _ _ _ (proj1 K2)) as RS. apply nth_error_lt in RS. rewrite <- (si_tasks _ _ _ _ I) in RS.
    eapply end_stays; eauto.
  - exact (proj1 ST).
  - apply Forall_app. split; [exact (si_serves _ _ _ _ I)|exact (proj2 ST)].
Qed.

(** A call on a machine, in the network *)
Lemma net_move nacts c s o a : 1 <= c <= n -> party (fst (nexec nacts)) c = Some s ->
  (a = NProceed c /\ o = Proceed \/ a = NSend c /\ o = Drain \/ exists x m, a = NDeliver x /\ o = Deliver m /\ nth_error (nt_wire (fst (nexec nacts))) x = Some (c, m)) ->
  snd (nexec (nacts ++ [a])) = snd (nexec nacts) ++ [(c, o, snd (opf c s o))] /\
  party (fst (nexec (nacts ++ [a]))) c = Some (fst (opf c s o)) /\
  (forall j, j <> c -> party (fst (nexec (nacts ++ [a]))) j = party (fst (nexec nacts)) j).
Proof.
  intros C PS A. rewrite exec_snoc. cbn [fst snd]. set (wn := fst (nexec nacts)) in *.
  assert (CC : call opf (nt_st wn) c o = (Stores.upd (nt_st wn) (c - 1) (fst (opf c s o)), [(c, o, snd (opf c s o))])).
  { destruct c as [|k]; [lia|]. cbn [party] in PS. unfold call. rewrite PS. replace (Datatypes.S k - 1) with k by lia. destruct (opf (Datatypes.S k) s o). reflexivity. }
  assert (PT : forall (wire : list (nat * msg B)) j, party {| nt_st := Stores.upd (nt_st wn) (c - 1) (fst (opf c s o)); nt_wire := wire |} j = if j =? c then Some (fst (opf c s o)) else party wn j).
  { intros wire j. destruct j as [|j]; [destruct c; [lia|reflexivity]|]. cbn [party nt_st]. destruct (Nat.eqb_spec (Datatypes.S j) c) as [<-|N].
    - replace (Datatypes.S j - 1) with j by lia. apply upd_nth_same. apply nth_error_lt in PS. exact PS.
    - apply upd_nth_other. lia. }
  assert (PN : forall wire : list (nat * msg B), party {| nt_st := Stores.upd (nt_st wn) (c - 1) (fst (opf c s o)); nt_wire := wire |} c = Some (fst (opf c s o)) /\ forall j, j <> c -> party {| nt_st := Stores.upd (nt_st wn) (c - 1) (fst (opf c s o)); nt_wire := wire |} j = party wn j).
  { intros wire. split; [rewrite PT, Nat.eqb_refl; reflexivity|]. intros j N. rewrite PT. apply Nat.eqb_neq in N. rewrite N. reflexivity. }
  destruct A as [[-> ->]|[[-> ->]|(x & m & -> & -> & W)]]; cbn [net_step].
  - rewrite CC. cbn [fst snd]. split; [reflexivity|apply PN].
  - rewrite CC. cbn [fst snd]. split; [reflexivity|apply PN].
  - rewrite W, CC. cbn [fst snd]. split; [reflexivity|apply PN].
Qed.

Lemma step_local l nacts w log c st st' e na :
  SInv l nacts w log -> client w c = Some st -> (forall x r, st <> CDone x r) -> (forall x r, st' <> CDone x r) ->
  Forall (fun x => ev_client x = c) e -> asks e = [] ->
  snd (nexec (nacts ++ na)) = calls (log ++ e) ->
  (forall j, j <> c -> party (fst (nexec (nacts ++ na))) j = party (fst (nexec nacts)) j) ->
  stage_ok (sy_tr w) (log ++ e) (fst (nexec (nacts ++ na))) c st' ->
  (forall t, sub_of st = Some t -> sub_of st' = Some t) ->
  SInv l (nacts ++ na) (set_client c st' w) (log ++ e).
Proof.
  intros I CL ND ND' EV AE NE OT SK SU. pose proof (client_range _ _ _ (si_cl _ _ _ _ I) CL) as C.
  pose proof (step_gen l nacts w log c st st' [] (sy_db w) [] e na I C CL ND (or_introl (conj eq_refl (conj eq_refl eq_refl))) EV) as Q. rewrite !app_nil_r in Q. unfold set_client. apply Q.
  - rewrite AE. reflexivity.
  - exact NE.
  - exact OT.
  - exact SK.
  - exact SU.
  - rewrite AE. intros [|t]; discriminate.
  - intros t [].
  - intros x r E. destruct (ND' x r E).
Qed.
Lemma step_ask l nacts w log c st st' q :
  SInv l nacts w log -> client w c = Some st -> (forall x r, st <> CDone x r) -> (forall x r, st' <> CDone x r) -> good_req q = true ->
  stage_ok (sy_tr w) (log ++ [EAsk c q]) (fst (nexec nacts)) c st' ->
  (forall t, sub_of st = Some t -> sub_of st' = Some t) ->
  (forall last, q = RSub last -> last = None /\ sub_of st' = Some (next_task w)) ->
  SInv (l ++ [Arrive room_id q]) nacts (fst (ask oc room_id c q st' w)) (log ++ [EAsk c q]).
Proof.
  intros I CL ND ND' GR SK SU SB. pose proof (client_range _ _ _ (si_cl _ _ _ _ I) CL) as C. unfold ask, serve. cbn [fst step]. rewrite GR. unfold set_client. cbn [sy_db sy_tr sy_cl].
  pose proof (fun d => step_gen l nacts w log c st st' [Arrive room_id q] d [] [EAsk c q] [] I C CL ND) as Q. setoid_rewrite (app_nil_r nacts) in Q. apply Q; clear Q.
  - right. eexists. split; [reflexivity|]. cbn [step]. rewrite GR. reflexivity.
  - constructor; [reflexivity|constructor].
  - cbn [reqs flat_map asks map snd app]. rewrite GR. reflexivity.
  - rewrite calls_app. cbn [calls flat_map]. rewrite app_nil_r. exact (si_net _ _ _ _ I).
  - reflexivity.
  - rewrite app_nil_r. exact SK.
  - exact SU.
  - intros [|[|t]] c' last T; cbn in T; try discriminate. injection T as <- E. destruct (SB last E) as [-> S1]. split; [reflexivity|]. rewrite S1. unfold next_task. rewrite (si_tasks _ _ _ _ I). f_equal. lia.
  - intros t [T|[]]. discriminate.
  - intros x r E. destruct (ND' x r E).
Qed.
Lemma asks_snoc log c (q : req) : asks (log ++ [EAsk c q]) = asks log ++ [(c, q)]. Proof. rewrite asks_app. reflexivity. Qed.
Lemma calls_ask log c (q : req) : calls (log ++ [EAsk c q]) = calls log. Proof. rewrite calls_app. cbn. apply app_nil_r. Qed.
Lemma nth_snoc {A} (a : list A) x t y : nth_error (a ++ [x]) t = Some y -> nth_error a t = Some y \/ t = length a /\ y = x.
Proof.
  intros E. destruct (Nat.lt_ge_cases t (length a)) as [L|L]; [rewrite nth_error_app1 in E by exact L; auto|]. rewrite nth_error_app2 in E by exact L. right.
  destruct (t - length a) as [|[|k]] eqn:D; cbn in E; try discriminate. injection E as ->. split; [lia|reflexivity].
Qed.
Lemma nth_last {A} (a : list A) x : nth_error (a ++ [x]) (length a) = Some x. Proof. rewrite nth_error_app2, Nat.sub_diag by lia. reflexivity. Qed.
Lemma silent_ask log c q : silent log c -> (forall m, q <> RPub m) -> silent (log ++ [EAsk c q]) c.
Proof.
  intros [S1 S2] N. unfold silent. rewrite asks_snoc, calls_ask, posts_app, S1. split; [|exact S2]. cbn. rewrite Nat.eqb_refl. destruct q; try reflexivity. exfalso. exact (N m eq_refl).
Qed.

Lemma start_inv l nacts w log c : SInv l nacts w log -> exists l', SInv l' nacts (fst (sys_step w (CStart c))) (log ++ snd (sys_step w (CStart c))).
Proof.
  intros I. cbn [sys_step]. destruct (client w c) as [st|] eqn:CL; [|exists l; cbn; rewrite app_nil_r; exact I]. destruct st; try (exists l; cbn; rewrite app_nil_r; exact I).
  pose proof (client_range _ _ _ (si_cl _ _ _ _ I) CL) as C. destruct (si_stage _ _ _ _ I c C) as (st & CL' & K). rewrite CL in CL'. injection CL' as <-. cbn [stage_ok] in K. destruct K as [K1 K2].
  eexists. change (snd (ask oc room_id c (RSub None) (CSubscribing (next_task w)) w)) with [EAsk (P:=P) (B:=B) (O:=O) c (RSub None)].
  eapply step_ask; [exact I|exact CL|discriminate|discriminate|reflexivity| | |].
  - cbn [stage_ok]. split; [apply silent_ask; [exact K1|discriminate]|]. unfold issue_only, next_task. rewrite (si_tasks _ _ _ _ I), asks_snoc. split; [apply nth_last|].
    intros t T. apply nth_snoc in T. destruct T as [T|[_ T]]; [exact (K2 t T)|discriminate].
  - discriminate.
  - intros last [= <-]. split; reflexivity.
Qed.
Lemma was_joined_in t tr : was_joined t tr = true -> exists rid r last, In (OJoined t rid r last) tr.
Proof. intros H. apply existsb_exists in H. destruct H as (o & X & E). destruct o; try discriminate. apply Nat.eqb_eq in E. subst. eauto. Qed.
Lemma was_published_in t tr : was_published t tr = true -> In t (pub_tasks tr).
Proof. intros H. apply existsb_exists in H. destruct H as (o & X & E). destruct o; try discriminate. apply Nat.eqb_eq in E. subst. apply in_flat_map. eexists. split; [exact X|left; reflexivity]. Qed.
Lemma was_issued_in t tr i : was_issued t tr = Some i -> exists rid r, In (OIssued t rid r i) tr.
Proof.
  unfold was_issued. destruct (find _ tr) as [o|] eqn:E; [|discriminate]. apply find_some in E. destruct E as [X E]. destruct o; try discriminate. intros [= <-]. apply Nat.eqb_eq in E. subst. eauto.
Qed.
Lemma joined_inv l nacts w log c : SInv l nacts w log -> exists l', SInv l' nacts (fst (sys_step w (CJoined c))) (log ++ snd (sys_step w (CJoined c))).
Proof.
  intros I. cbn [sys_step]. destruct (client w c) as [st|] eqn:CL; [|exists l; cbn; rewrite app_nil_r; exact I]. destruct st as [|t| | | |]; try (exists l; cbn; rewrite app_nil_r; exact I).
  destruct (was_joined t (sy_tr w)) eqn:WJ; [|exists l; cbn; rewrite app_nil_r; exact I].
  pose proof (client_range _ _ _ (si_cl _ _ _ _ I) CL) as C. destruct (si_stage _ _ _ _ I c C) as (st & CL' & K). rewrite CL in CL'. injection CL' as <-. cbn [stage_ok] in K. destruct K as (K1 & K2 & K3).
  eexists. change (snd (ask oc room_id c RIssue (CIssuing t (next_task w)) w)) with [EAsk (P:=P) (B:=B) (O:=O) c RIssue].
  eapply step_ask; [exact I|exact CL|discriminate|discriminate|reflexivity| | |].
  - cbn [stage_ok]. split; [apply silent_ask; [exact K1|discriminate]|]. unfold issue_only, next_task. rewrite (si_tasks _ _ _ _ I), asks_snoc. refine (conj (nth_app_l _ _ _ _ K2) (conj _ (conj (nth_last _ _) _))).
    + apply was_joined_in in WJ. destruct WJ as (rid & r & last & X). destruct (obs_joined _ _ _ _ I _ _ _ _ X) as (-> & -> & -> & _). exact X.
    + intros u T. apply nth_snoc in T. destruct T as [T|[T _]]; [destruct (K3 u T)|]. congruence.
  - intros u E. exact E.
  - discriminate.
Qed.
Lemma silent_party l nacts w log c : SInv l nacts w log -> 1 <= c <= n -> silent log c -> party (fst (nexec nacts)) c = nth_error s0 (c - 1) /\ rets_of c (calls log) = [].
Proof.
  intros I C [_ OP]. destruct (si_linv _ _ _ _ I) as [lost L]. destruct (nth_error s0 (c - 1)) as [s|] eqn:E; [|apply nth_error_None in E; lia].
  destruct (li_runs _ _ _ _ _ L c s ltac:(lia) E) as [R1 R]. rewrite OP in R, R1. split; [|exact R]. destruct c as [|c]; [lia|]. cbn [party]. replace (Datatypes.S c - 1) with c in R1 by lia. exact R1.
Qed.
Lemma indexed_inv l nacts w log c : SInv l nacts w log -> (forall c' i, In (EIndex c' i) (snd (sys_step w (CIndexed c))) -> i = Z.of_nat c') ->
  exists l', SInv l' nacts (fst (sys_step w (CIndexed c))) (log ++ snd (sys_step w (CIndexed c))).
Proof.
  intros I IX. exists l. revert IX. cbn [sys_step]. assert (Q0 : SInv l nacts w (log ++ [])) by (rewrite app_nil_r; exact I).
  destruct (client w c) as [st|] eqn:CL; [|intros _; exact Q0]. destruct st as [| |sub t| | |]; try (intros _; exact Q0). destruct (was_issued t (sy_tr w)) as [i|] eqn:WI; [|intros _; exact Q0].
  intros IX. assert (IE : i = Z.of_nat c) by (apply IX; destruct (start c i); left; reflexivity). clear IX. subst i.
  pose proof (client_range _ _ _ (si_cl _ _ _ _ I) CL) as C. destruct (si_stage _ _ _ _ I c C) as (st & CL' & K). rewrite CL in CL'. injection CL' as <-. cbn [stage_ok] in K. destruct K as (K1 & K2 & K3 & K4 & K5).
  destruct (silent_party _ _ _ _ c I C K1) as [PS RS]. rewrite (Hstart c C). rewrite <- PS. destruct (party (fst (nexec nacts)) c) as [s|] eqn:PE; [|symmetry in PS; apply nth_error_None in PS; lia].
  cbn [fst snd]. rewrite <- (app_nil_r nacts) at 1. eapply step_local; [exact I|exact CL|discriminate|discriminate|constructor; [reflexivity|constructor]|reflexivity| | | |].
  - rewrite app_nil_r, calls_app. cbn. rewrite app_nil_r. exact (si_net _ _ _ _ I).
  - intros j _. rewrite app_nil_r. reflexivity.
  - rewrite app_nil_r. cbn [stage_ok]. assert (AE : asks (log ++ [EIndex c (Z.of_nat c)]) = asks log) by (rewrite asks_app; cbn; apply app_nil_r). assert (CE : calls (log ++ [EIndex c (Z.of_nat c)]) = calls log) by (rewrite calls_app; cbn; apply app_nil_r).
    destruct K1 as [K1 K1']. constructor; cbn [cr_idx cr_st cr_sub cr_read cr_out cr_post]; rewrite ?AE, ?CE.
    + reflexivity.
    + exact PE.
    + exact K2.
    + exact K3.
    + rewrite RS, K1. reflexivity.
    + intros u sx U. exfalso. assert (X : In sx (posts c (asks log))) by (apply in_posts; eauto). rewrite K1 in X. contradiction.
    + discriminate.
    + lia.
    + rewrite K1'. reflexivity.
    + exists t. split; [|exact K5]. apply was_issued_in in WI. destruct WI as (rid & r & X). exists rid, r, (Z.of_nat c). exact X.
  - intros u E. exact E.
Qed.

Lemma firstn_snoc {A} (a : list A) k x : nth_error a k = Some x -> firstn (Datatypes.S k) a = firstn k a ++ [x].
Proof. revert k. induction a as [|y a IH]; intros [|k] E; cbn in *; try discriminate; [congruence|]. rewrite <- (IH k E). reflexivity. Qed.
Lemma calls_call log c o (r : ret P B O) : o <> Pick -> calls (log ++ [ECall c o r]) = calls log ++ [(c, o, r)].
Proof. intros N. rewrite calls_app. destruct o; [reflexivity|reflexivity|reflexivity|contradiction]. Qed.
Lemma asks_call log c o (r : ret P B O) : asks (log ++ [ECall c o r]) = asks log. Proof. rewrite asks_app. cbn. apply app_nil_r. Qed.
Lemma own_rets c o (r : ret P B O) : rets_of c [(c, o, r)] = [r] /\ ops_of c [(c, o, r)] = [o].
Proof. unfold rets_of, ops_of. cbn. rewrite Nat.eqb_refl. split; reflexivity. Qed.
Lemma good_entry nacts c o r : In (c, o, r) (snd (nexec nacts)) -> good_ret crit r = true.
Proof. intros X. apply Nok in X. cbn in X. destruct r as [[]| |]; try contradiction; reflexivity. Qed.

Definition nwork (acts : list nact) : nat := work opf wants queue net0 acts.
(** A call on a running client's machine *)
Lemma call_step l nacts w log c x o a x' :
  SInv l nacts w log -> client w c = Some (CRunning x) -> o <> Pick ->
  (a = NProceed c /\ o = Proceed \/ a = NSend c /\ o = Drain \/ exists k m, a = NDeliver k /\ o = Deliver m /\ nth_error (nt_wire (fst (nexec nacts))) k = Some (c, m)) ->
  cr_sub x' = cr_sub x -> cr_idx x' = cr_idx x -> cr_st x' = fst (opf c (cr_st x) o) -> cr_post x' = cr_post x -> cr_out x' = cr_out x ++ drained [snd (opf c (cr_st x) o)] ->
  cr_read x' <= length (gots (cr_sub x) (sy_tr w)) ->
  read_by c (firstn (cr_read x') (map snd (gots (cr_sub x) (sy_tr w)))) = read_by c (firstn (cr_read x) (map snd (gots (cr_sub x) (sy_tr w)))) ++ deliveries [o] ->
  SInv l (nacts ++ [a]) (set_client c (CRunning x') w) (log ++ [ECall c o (snd (opf c (cr_st x) o))]) /\ good_ret crit (snd (opf c (cr_st x) o)) = true.
Proof.
  intros I CL NP A E1 E2 E3 E4 E5 E6 E7. pose proof (client_range _ _ _ (si_cl _ _ _ _ I) CL) as C. destruct (si_stage _ _ _ _ I c C) as (st & CL' & K). rewrite CL in CL'. injection CL' as <-. cbn [stage_ok] in K.
  destruct (net_move nacts c (cr_st x) o a C (ro_st _ _ _ _ _ K) A) as (N1 & N2 & N3).
  split; [|apply (good_entry (nacts ++ [a]) c o); rewrite N1; apply in_app_iff; right; left; reflexivity].
  eapply step_local; [exact I|exact CL|discriminate|discriminate|constructor; [reflexivity|constructor]|reflexivity| |exact N3| |].
  - rewrite N1, (calls_call _ _ _ _ NP), (si_net _ _ _ _ I). reflexivity.
  - cbn [stage_ok]. destruct K as [A1 A2 A3 A4 A5 A6 A7 A8 A9 A10]. destruct (own_rets c o (snd (opf c (cr_st x) o))) as [W1 W2].
    constructor; rewrite ?E1, ?E2, ?E4, ?asks_call, ?(calls_call _ _ _ _ NP); try assumption.
    + rewrite N2, E3. reflexivity.
    + rewrite rets_app, W1, drained_app, map_app, A5, E5, map_app, app_assoc. reflexivity.
    + rewrite ops_app, W2, deliveries_app, A9. symmetry. exact E7.
  - cbn [sub_of]. rewrite E1. auto.
Qed.
Lemma proceed_inv l nacts w log c : SInv l nacts w log ->
  exists na, SInv l (nacts ++ na) (fst (sys_step w (CProceed c))) (log ++ snd (sys_step w (CProceed c))) /\ nwork nacts + (if sys_enabled wants fin queue w (CProceed c) then 1 else 0) <= nwork (nacts ++ na).
Proof.
  intros I. assert (Q0 : exists na, SInv l (nacts ++ na) w (log ++ []) /\ nwork nacts + 0 <= nwork (nacts ++ na)) by (exists []; rewrite !app_nil_r; split; [exact I|lia]).
  cbn [sys_step sys_enabled]. destruct (client w c) as [st|] eqn:CL; [|exact Q0]. destruct st as [| | |x| |]; try exact Q0. destruct (wants (cr_st x)) eqn:WA; [|exact Q0].
  pose proof (client_range _ _ _ (si_cl _ _ _ _ I) CL) as C. destruct (si_stage _ _ _ _ I c C) as (st & CL' & K). rewrite CL in CL'. injection CL' as <-. cbn [stage_ok] in K.
  destruct (call_step l nacts w log c x Proceed (NProceed c) (with_st x (fst (opf c (cr_st x) Proceed))) I CL) as [Q G]; try reflexivity; [discriminate|auto| | | |].
  - cbn [with_st cr_out]. rewrite Hdr by discriminate. rewrite app_nil_r. reflexivity.
  - exact (ro_read _ _ _ _ _ K).
  - cbn. rewrite app_nil_r. reflexivity.
  - exists [NProceed c]. unfold handle. destruct (opf c (cr_st x) Proceed) as [s r]. cbn [fst snd] in *. rewrite G. split; [exact Q|]. unfold nwork. rewrite work_snoc. cbn [enabled]. rewrite (ro_st _ _ _ _ _ K), WA. lia.
Qed.
Lemma take_inv l nacts w log c : SInv l nacts w log ->
  exists na, SInv l (nacts ++ na) (fst (sys_step w (CTake c))) (log ++ snd (sys_step w (CTake c))) /\ nwork nacts + (if sys_enabled wants fin queue w (CTake c) then 1 else 0) <= nwork (nacts ++ na).
Proof.
  intros I. assert (Q0 : exists na, SInv l (nacts ++ na) w (log ++ []) /\ nwork nacts + 0 <= nwork (nacts ++ na)) by (exists []; rewrite !app_nil_r; split; [exact I|lia]).
  cbn [sys_step sys_enabled]. destruct (client w c) as [st|] eqn:CL; [|exact Q0]. destruct st as [| | |x| |]; try exact Q0.
  destruct (queue (cr_st x)) as [|m0 q0] eqn:QE; [exact Q0|].
  pose proof (client_range _ _ _ (si_cl _ _ _ _ I) CL) as C. destruct (si_stage _ _ _ _ I c C) as (st & CL' & K). rewrite CL in CL'. injection CL' as <-. cbn [stage_ok] in K.
  destruct (call_step l nacts w log c x Drain (NSend c) (with_out (with_st x (fst (opf c (cr_st x) Drain))) (cr_out x ++ drained [snd (opf c (cr_st x) Drain)]) (cr_post x)) I CL) as [Q G]; try reflexivity; [discriminate|auto| | |].
  - exact (ro_read _ _ _ _ _ K).
  - cbn. rewrite app_nil_r. reflexivity.
  - exists [NSend c]. destruct (opf c (cr_st x) Drain) as [s r]. cbn [fst snd] in *. split; [exact Q|]. unfold nwork. rewrite work_snoc. cbn [enabled]. rewrite (ro_st _ _ _ _ _ K), QE. lia.
Qed.
(** What the next event of a running client is *)
Lemma next_event l nacts w log c x k e : SInv l nacts w log -> 1 <= c <= n -> run_ok (sy_tr w) log (fst (nexec nacts)) c x ->
  nth_error (gots (cr_sub x) (sy_tr w)) (cr_read x) = Some (k, e) ->
  exists m, e = ser m /\ 1 <= m_from m <= n /\ In m (drained (rets_of (m_from m) (calls log))) /\ (for_me (cr_idx x) m = true -> In (c, m) (nt_wire (fst (nexec nacts)))).
Proof.
  intros I C K E. set (g := gots (cr_sub x) (sy_tr w)) in *. destruct (gots_prefix _ _ _ _ I _ (ro_join _ _ _ _ _ K)) as [G1 G2]. fold g in G1, G2.
  assert (PI : forall e', In e' (map snd g) -> exists m, e' = ser m /\ 1 <= m_from m <= n /\ In m (drained (rets_of (m_from m) (calls log)))).
  { intros e' X. rewrite G1 in X. assert (X' : In e' (pubs 0 (sy_tr w))) by (rewrite <- (firstn_skipn (length g)); apply in_app_iff; left; exact X). apply in_pubs in X'. destruct X' as (t & rid & X').
    destruct (obs_published _ _ _ _ I _ _ _ _ X') as (_ & _ & j & J). destruct (post_msg _ _ _ _ I _ _ _ J) as (J1 & m & -> & J2 & J3). exists m. rewrite J3. auto. }
  assert (EE : nth_error (map snd g) (cr_read x) = Some e) by (rewrite nth_error_map, E; reflexivity).
  destruct (PI e (nth_error_In _ _ EE)) as (m & -> & M1 & M2). exists m. refine (conj eq_refl (conj M1 (conj M2 _))). intros FM. rewrite (ro_idx _ _ _ _ _ K) in FM. unfold for_me, client_filter in FM. apply andb_prop in FM. destruct FM as [F1 F2].
  apply negb_true_iff, Z.eqb_neq in F1. destruct (si_linv _ _ _ _ I) as [lost L].
  assert (RT : In (c, m) (routed n (calls log))).
  { pose proof (routed_perm s0 (calls log) (call_range _ _ _ _ I)) as PM. rewrite Hlen in PM. apply (Permutation_in _ (Permutation_sym PM)). apply in_flat_map. exists (m_from m). split; [apply in_seq; lia|]. apply in_copies. split; [exact M2|].
    unfold receivers. destruct (m_to m) as [i|]; cbn [option_map] in F2; [left; apply Z.eqb_eq in F2; lia|]. apply in_peers; [exact M1|]. lia. }
  pose proof (li_perm _ _ _ _ _ L) as PM. rewrite Hlen in PM. apply (Permutation_in _ (Permutation_sym PM)) in RT. rewrite !in_app_iff in RT. destruct RT as [RT|[RT|RT]]; [| |exact RT].
  - exfalso. apply deliveries_handed in RT. rewrite (ro_del _ _ _ _ _ K) in RT. fold g in RT. apply in_flat_map in RT. destruct RT as (e' & X1 & X2).
    assert (X3 : In e' (map snd g)) by (rewrite <- (firstn_skipn (cr_read x)); apply in_app_iff; left; exact X1). destruct (PI e' X3) as (m' & -> & _). rewrite Hser in X2. destruct (for_me _ m'); [|contradiction]. destruct X2 as [->|[]].
    assert (ND : NoDup (map snd g)) by (rewrite G1; pose proof (pubs_nodup _ _ _ _ I) as N; rewrite <- (firstn_skipn (length g)) in N; exact (nodup_app_l _ _ N)).
    pose proof (firstn_snoc _ _ _ EE) as FS. rewrite <- (firstn_skipn (Datatypes.S (cr_read x))), FS in ND. apply nodup_app_l in ND. clear -X1 ND. induction (firstn (cr_read x) (map snd g)) as [|u v IH]; [contradiction|]. cbn [app] in ND. inversion ND as [|? ? N1 N2]; subst. destruct X1 as [->|X1]; [apply N1; apply in_app_iff; right; left; reflexivity|exact (IH X1 N2)].
  - exfalso. apply (li_lost _ _ _ _ _ L) in RT. cbn [fst] in RT. lia.
Qed.
Lemma read_inv l nacts w log c : SInv l nacts w log ->
  exists na, SInv l (nacts ++ na) (fst (sys_step w (CRead c))) (log ++ snd (sys_step w (CRead c))) /\ nwork nacts <= nwork (nacts ++ na).
Proof.
  intros I. assert (Q0 : exists na, SInv l (nacts ++ na) w (log ++ []) /\ nwork nacts <= nwork (nacts ++ na)) by (exists []; rewrite !app_nil_r; split; [exact I|lia]).
  cbn [sys_step]. destruct (client w c) as [st|] eqn:CL; [|exact Q0]. destruct st as [| | |x| |]; try exact Q0.
  destruct (nth_error (gots (cr_sub x) (sy_tr w)) (cr_read x)) as [[k e]|] eqn:GE; [|exact Q0].
  pose proof (client_range _ _ _ (si_cl _ _ _ _ I) CL) as C. destruct (si_stage _ _ _ _ I c C) as (st & CL' & K). rewrite CL in CL'. injection CL' as <-. cbn [stage_ok] in K.
  destruct (next_event _ _ _ _ c x k e I C K GE) as (m & -> & M1 & M2 & M3). rewrite Hser.
  assert (LE : Datatypes.S (cr_read x) <= length (gots (cr_sub x) (sy_tr w))) by (apply nth_error_lt in GE; lia).
  assert (FS : firstn (Datatypes.S (cr_read x)) (map snd (gots (cr_sub x) (sy_tr w))) = firstn (cr_read x) (map snd (gots (cr_sub x) (sy_tr w))) ++ [ser m]) by (apply firstn_snoc; rewrite nth_error_map, GE; reflexivity).
  assert (RB : read_by c [ser m] = if for_me (cr_idx x) m then [m] else []) by (unfold read_by; cbn [flat_map]; rewrite Hser, app_nil_r, (ro_idx _ _ _ _ _ K); reflexivity).
  destruct (for_me (cr_idx x) m) eqn:FM.
  - specialize (M3 eq_refl). apply In_nth_error in M3. destruct M3 as [y Y].
    destruct (call_step l nacts w log c x (Deliver m) (NDeliver y) (with_st (with_read x) (fst (opf c (cr_st x) (Deliver m)))) I CL) as [Q G]; try reflexivity; [discriminate|right; right; eauto| | | |].
    + cbn [with_st with_read cr_out]. rewrite Hdr by discriminate. rewrite app_nil_r. reflexivity.
    + exact LE.
    + cbn [with_st with_read cr_read]. rewrite FS, read_by_app, RB. reflexivity.
    + exists [NDeliver y]. unfold handle. change (cr_st (with_read x)) with (cr_st x). destruct (opf c (cr_st x) (Deliver m)) as [s r]. cbn [fst snd] in *. rewrite G. split; [exact Q|]. unfold nwork. rewrite work_snoc. lia.
  - exists []. cbn [fst snd]. split; [|rewrite app_nil_r; lia]. eapply step_local; [exact I|exact CL|discriminate|discriminate|constructor|reflexivity| | | |auto].
    + rewrite !app_nil_r. exact (si_net _ _ _ _ I).
    + intros j _. rewrite app_nil_r. reflexivity.
    + rewrite !app_nil_r. cbn [stage_ok]. destruct K as [A1 A2 A3 A4 A5 A6 A7 A8 A9 A10]. constructor; cbn [with_read cr_idx cr_st cr_sub cr_read cr_out cr_post]; try assumption.
      rewrite FS, read_by_app, RB, app_nil_r. exact A9.
Qed.
Lemma post_inv l nacts w log c : SInv l nacts w log -> exists l', SInv l' nacts (fst (sys_step w (CPost c))) (log ++ snd (sys_step w (CPost c))).
Proof.
  intros I. assert (Q0 : exists l', SInv l' nacts w (log ++ [])) by (exists l; rewrite app_nil_r; exact I).
  cbn [sys_step]. destruct (client w c) as [st|] eqn:CL; [|exact Q0]. destruct st as [| | |x| |]; try exact Q0.
  destruct (cr_out x) as [|m out] eqn:OE; [exact Q0|]. destruct (cr_post x) as [u|] eqn:PE; [exact Q0|].
  pose proof (client_range _ _ _ (si_cl _ _ _ _ I) CL) as C. destruct (si_stage _ _ _ _ I c C) as (st & CL' & K). rewrite CL in CL'. injection CL' as <-. cbn [stage_ok] in K.
  exists (l ++ [Arrive room_id (RPub (ser m))]). apply (step_ask l nacts w log c (CRunning x)); [exact I|exact CL|discriminate|discriminate|reflexivity| |auto|discriminate].
  cbn [stage_ok]. destruct K as [A1 A2 A3 A4 A5 A6 A7 A8 A9 A10]. unfold next_task. rewrite (si_tasks _ _ _ _ I). constructor; cbn [with_out cr_idx cr_st cr_sub cr_read cr_out cr_post]; rewrite ?asks_snoc, ?calls_ask; try assumption.
  - apply nth_app_l. exact A3.
  - rewrite A5, OE, posts_app. cbn [posts flat_map]. rewrite Nat.eqb_refl. cbn [app]. rewrite <- app_assoc. reflexivity.
  - intros t s T. apply nth_snoc in T. destruct T as [T|[-> _]]; [|left; reflexivity]. destruct (A6 t s T) as [Q|Q]; [congruence|right; exact Q].
  - intros t [= <-]. exists (ser m). apply nth_last.
  - destruct A10 as (t0 & X & A10). exists t0. split; [exact X|]. intros t T. apply nth_snoc in T. destruct T as [T|[_ T]]; [exact (A10 t T)|discriminate].
Qed.
Lemma posted_inv l nacts w log c : SInv l nacts w log -> exists l', SInv l' nacts (fst (sys_step w (CPosted c))) (log ++ snd (sys_step w (CPosted c))).
Proof.
  intros I. assert (Q0 : exists l', SInv l' nacts w (log ++ [])) by (exists l; rewrite app_nil_r; exact I).
  cbn [sys_step]. destruct (client w c) as [st|] eqn:CL; [|exact Q0]. destruct st as [| | |x| |]; try exact Q0.
  destruct (cr_post x) as [t|] eqn:PE; [|exact Q0]. destruct (was_published t (sy_tr w)) eqn:WP; [|exact Q0].
  pose proof (client_range _ _ _ (si_cl _ _ _ _ I) CL) as C. destruct (si_stage _ _ _ _ I c C) as (st & CL' & K). rewrite CL in CL'. injection CL' as <-. cbn [stage_ok] in K.
  exists l. cbn [fst snd]. rewrite <- (app_nil_r nacts) at 1. eapply step_local; [exact I|exact CL|discriminate|discriminate|constructor|reflexivity| | | |auto].
  - rewrite !app_nil_r. exact (si_net _ _ _ _ I).
  - intros j _. rewrite app_nil_r. reflexivity.
  - rewrite !app_nil_r. cbn [stage_ok]. destruct K as [A1 A2 A3 A4 A5 A6 A7 A8 A9 A10]. constructor; cbn [with_out cr_idx cr_st cr_sub cr_read cr_out cr_post]; try assumption; [|discriminate].
    intros u s U. right. destruct (A6 u s U) as [Q|Q]; [|exact Q]. rewrite PE in Q. injection Q as ->. apply was_published_in. exact WP.
Qed.
Lemma leave_inv l nacts w log c : SInv l nacts w log -> exists l', SInv l' nacts (fst (sys_step w (CLeave c))) (log ++ snd (sys_step w (CLeave c))).
Proof.
  intros I. assert (Q0 : exists l', SInv l' nacts w (log ++ [])) by (exists l; rewrite app_nil_r; exact I).
  cbn [sys_step]. destruct (client w c) as [st|] eqn:CL; [|exact Q0]. destruct st as [| | |x| |]; try exact Q0.
  destruct (may_leave fin queue x) eqn:ML; [|exact Q0].
  pose proof (client_range _ _ _ (si_cl _ _ _ _ I) CL) as C. destruct (si_stage _ _ _ _ I c C) as (st & CL' & K). rewrite CL in CL'. injection CL' as <-. cbn [stage_ok] in K.
  destruct (opf c (cr_st x) Pick) as [s r] eqn:PK. exists (l ++ [Cancel (cr_sub x)]). cbn [fst snd]. unfold serve. destruct (step oc (sy_db w) (Cancel (cr_sub x))) as [d o] eqn:E. unfold set_client. cbn [sy_db sy_tr sy_cl].
  pose proof (step_gen l nacts w log c (CRunning x) (CDone x r) [Cancel (cr_sub x)] d o [ECall c Pick r] [] I C CL) as Q. rewrite (app_nil_r nacts) in Q.
  assert (AE : asks (log ++ [ECall c Pick r]) = asks log) by apply asks_call. assert (CE : calls (log ++ [ECall c Pick r]) = calls log) by (rewrite calls_app; cbn; apply app_nil_r).
  apply Q; clear Q.
  - discriminate.
  - right. eauto.
  - constructor; [reflexivity|constructor].
  - reflexivity.
  - rewrite CE. exact (si_net _ _ _ _ I).
  - reflexivity.
  - cbn [stage_ok]. refine (conj _ (conj ML _)); [|rewrite PK; reflexivity].
    pose proof (run_grow _ _ _ _ _ o [] (fst (nexec nacts)) K (Forall_nil _) eq_refl) as Q. rewrite app_nil_r in Q. destruct Q as [A1 A2 A3 A4 A5 A6 A7 A8 A9 A10]. constructor; unfold issue_only; rewrite ?AE, ?CE; assumption.
  - auto.
  - intros [|t]; discriminate.
  - intros t [[= <-]|[]]. eauto.
  - intros y ry [= <- <-]. cbn [step] in E. pose proof (cancel_end (cr_sub x) (sy_db w)) as T. rewrite E in T. exact T.
Qed.

(** * How much can happen *)
Definition cpot (c : nat) (log : list cev) (st : option stage) : nat :=
  match st with
  | Some (CSubscribing _) => 1
  | Some (CIssuing _ _) => 2
  | Some (CRunning x) => 3 + cr_read x + 2 * length (posts c (asks log)) + match cr_post x with None => 1 | Some _ => 0 end
  | Some (CDone x _) => 4 + cr_read x + 2 * length (posts c (asks log)) + match cr_post x with None => 1 | Some _ => 0 end
  | _ => 0
  end.
Definition csum (log : list cev) (w : sys) : nat := list_sum (map (fun c => cpot c log (client w c)) (seq 1 n)).
Lemma sum_move (f g : nat -> nat) c k : NoDup k -> In c k -> (forall j, j <> c -> f j = g j) -> list_sum (map g k) + f c = list_sum (map f k) + g c.
Proof.
  intros N C E. induction k as [|j k IH]; [contradiction|]. inversion N as [|? ? N1 N2]; subst. change (list_sum (map g (j :: k))) with (g j + list_sum (map g k)). change (list_sum (map f (j :: k))) with (f j + list_sum (map f k)).
  destruct (Nat.eq_dec j c) as [->|NE].
  - assert (Q : list_sum (map g k) = list_sum (map f k)); [|lia]. f_equal. apply map_ext_in. intros a A. symmetry. apply E. intros ->. contradiction.
  - destruct C as [C|C]; [congruence|]. specialize (IH N2 C). rewrite (E j NE). lia.
Qed.
Lemma csum_move d tr w log e c st st' : length (sy_cl w) = n -> client w c = Some st -> Forall (fun x => ev_client x = c) e ->
  csum (log ++ e) {| sy_db := d; sy_tr := tr; sy_cl := Stores.upd (sy_cl w) (c - 1) st' |} + cpot c log (Some st) = csum log w + cpot c (log ++ e) (Some st').
Proof.
  intros L CL F. pose proof (client_range _ _ _ L CL) as C. unfold csum.
  pose proof (sum_move (fun j => cpot j log (client w j)) (fun j => cpot j (log ++ e) (client {| sy_db := d; sy_tr := tr; sy_cl := Stores.upd (sy_cl w) (c - 1) st' |} j)) c (seq 1 n) (seq_NoDup n 1)) as Q. cbv beta in Q. rewrite client_upd, Nat.eqb_refl, CL in Q by lia. apply Q; [apply in_seq; lia|].
  intros [|j] N; [reflexivity|]. rewrite client_upd by lia. apply Nat.eqb_neq in N as N'. rewrite N'. rewrite (client_nth w (Datatypes.S j)) by lia.
  assert (PE : posts (Datatypes.S j) (asks (log ++ e)) = posts (Datatypes.S j) (asks log)).
  { rewrite asks_app, posts_app. destruct (other_log (Datatypes.S j) e) as [-> _]; [|apply app_nil_r]. eapply Forall_impl; [|exact F]. cbn. intros y -> E. congruence. }
  unfold cpot. rewrite PE. reflexivity.
Qed.
Definition client_act (a : cact) : bool := match a with CServe _ | CProceed _ | CTake _ => false | _ => true end.
Lemma csum_step w log a : length (sy_cl w) = n -> (forall c, client (fst (sys_step w a)) c <> Some CFailed) ->
  csum log w + (if sys_enabled wants fin queue w a && client_act a then 1 else 0) <= csum (log ++ snd (sys_step w a)) (fst (sys_step w a)).
Proof.
  intros L NF.
  assert (Q0 : csum log w + 0 <= csum (log ++ []) w) by (rewrite app_nil_r; lia).
  assert (FL : forall c d tr, 1 <= c <= n -> client {| sy_db := d; sy_tr := tr; sy_cl := Stores.upd (sy_cl w) (c - 1) (@CFailed S P B O) |} c = Some CFailed) by (intros c d tr C; rewrite client_upd, Nat.eqb_refl by lia; reflexivity).
  destruct a as [t|c|c|c|c|c|c|c|c|c]; cbn [sys_step sys_enabled client_act] in *; rewrite ?andb_true_r, ?andb_false_r.
  - unfold serve. destruct (step oc (sy_db w) (Run t)) as [d o]. cbn [fst snd]. rewrite app_nil_r. unfold csum. rewrite Nat.add_0_r. apply Nat.eq_le_incl. f_equal.
  - destruct (client w c) as [st|] eqn:CL; [|exact Q0]. destruct st; try exact Q0. unfold ask, set_client, serve. destruct (step oc (sy_db w) _) as [d o]. cbn [fst snd sy_db sy_tr sy_cl].
    pose proof (csum_move d (sy_tr w ++ o) w log [EAsk c (RSub None)] c CIdle (CSubscribing (next_task w)) L CL ltac:(constructor; [reflexivity|constructor])) as Q. cbn [cpot] in Q. lia.
  - destruct (client w c) as [st|] eqn:CL; [|exact Q0]. destruct st as [|t| | | |]; try exact Q0. destruct (was_joined t (sy_tr w)); [|exact Q0]. unfold ask, set_client, serve. destruct (step oc (sy_db w) _) as [d o]. cbn [fst snd sy_db sy_tr sy_cl].
    pose proof (csum_move d (sy_tr w ++ o) w log [EAsk c RIssue] c _ (CIssuing t (next_task w)) L CL ltac:(constructor; [reflexivity|constructor])) as Q. cbn [cpot] in Q. lia.
  - destruct (client w c) as [st|] eqn:CL; [|exact Q0]. pose proof (client_range _ _ _ L CL) as C. destruct st as [| |sub t| | |]; try exact Q0. destruct (was_issued t (sy_tr w)) as [i|]; [|exact Q0]. destruct (start c i) as [s|].
    + unfold set_client. cbn [fst snd sy_db sy_tr sy_cl].
      pose proof (csum_move (sy_db w) (sy_tr w) w log [EIndex c i] c _ (CRunning {| cr_sub := sub; cr_idx := i; cr_st := s; cr_read := 0; cr_out := []; cr_post := None |}) L CL ltac:(constructor; [reflexivity|constructor])) as Q. cbn [cpot] in Q. lia.
    + exfalso. apply (NF c). unfold set_client, serve. destruct (step oc (sy_db w) _) as [d o]. cbn [fst sy_db sy_tr sy_cl]. apply FL. exact C.
  - destruct (client w c) as [st|] eqn:CL; [|exact Q0]. pose proof (client_range _ _ _ L CL) as C. destruct st as [| | |x| |]; try exact Q0.
    destruct (nth_error (gots (cr_sub x) (sy_tr w)) (cr_read x)) as [[k e]|] eqn:GE.
    + assert (LE : (cr_read x <? length (gots (cr_sub x) (sy_tr w))) = true) by (apply Nat.ltb_lt; eapply nth_error_lt; exact GE). rewrite LE.
      destruct (par e) as [m|]; [|exfalso; apply (NF c); unfold set_client, serve; destruct (step oc (sy_db w) _) as [d o]; cbn [fst sy_db sy_tr sy_cl]; apply FL; exact C].
      destruct (for_me (cr_idx x) m).
      * unfold handle in *. destruct (opf c (cr_st (with_read x)) (Deliver m)) as [s r]. destruct (good_ret crit r).
        -- unfold set_client. cbn [fst snd sy_db sy_tr sy_cl]. pose proof (csum_move (sy_db w) (sy_tr w) w log [ECall c (Deliver m) r] c _ (CRunning (with_st (with_read x) s)) L CL ltac:(constructor; [reflexivity|constructor])) as Q. cbn [cpot with_st with_read cr_read cr_post] in Q. rewrite asks_call in Q. lia.
        -- exfalso. apply (NF c). unfold set_client, serve. destruct (step oc (sy_db w) _) as [d o]. cbn [fst sy_db sy_tr sy_cl]. apply FL. exact C.
      * unfold set_client. cbn [fst snd sy_db sy_tr sy_cl]. pose proof (csum_move (sy_db w) (sy_tr w) w log [] c _ (CRunning (with_read x)) L CL ltac:(constructor)) as Q. cbn [cpot with_read cr_read cr_post] in Q. rewrite app_nil_r in *. lia.
    + assert (LE : (cr_read x <? length (gots (cr_sub x) (sy_tr w))) = false) by (apply Nat.ltb_ge; apply nth_error_None; exact GE). rewrite LE. exact Q0.
  - destruct (client w c) as [st|] eqn:CL; [|exact Q0]. pose proof (client_range _ _ _ L CL) as C. destruct st as [| | |x| |]; try exact Q0. destruct (wants (cr_st x)); [|exact Q0]. unfold handle in *. destruct (opf c (cr_st x) Proceed) as [s r]. destruct (good_ret crit r).
    + unfold set_client. cbn [fst snd sy_db sy_tr sy_cl]. pose proof (csum_move (sy_db w) (sy_tr w) w log [ECall c Proceed r] c _ (CRunning (with_st x s)) L CL ltac:(constructor; [reflexivity|constructor])) as Q. cbn [cpot with_st cr_read cr_post] in Q. rewrite asks_call in Q. lia.
    + exfalso. apply (NF c). unfold set_client, serve. destruct (step oc (sy_db w) _) as [d o]. cbn [fst sy_db sy_tr sy_cl]. apply FL. exact C.
  - destruct (client w c) as [st|] eqn:CL; [|exact Q0]. destruct st as [| | |x| |]; try exact Q0. destruct (queue (cr_st x)) as [|m0 q0]; [exact Q0|]. destruct (opf c (cr_st x) Drain) as [s r].
    unfold set_client. cbn [fst snd sy_db sy_tr sy_cl]. pose proof (csum_move (sy_db w) (sy_tr w) w log [ECall c Drain r] c _ (CRunning (with_out (with_st x s) (cr_out x ++ drained [r]) (cr_post x))) L CL ltac:(constructor; [reflexivity|constructor])) as Q. cbn [cpot with_st with_out cr_read cr_post] in Q. rewrite asks_call in Q. lia.
  - destruct (client w c) as [st|] eqn:CL; [|exact Q0]. destruct st as [| | |x| |]; try exact Q0. destruct (cr_out x) as [|m out]; [exact Q0|]. destruct (cr_post x) as [u|] eqn:PE; [exact Q0|].
    unfold ask, set_client, serve. destruct (step oc (sy_db w) _) as [d o]. cbn [fst snd sy_db sy_tr sy_cl].
    pose proof (csum_move d (sy_tr w ++ o) w log [EAsk c (RPub (ser m))] c _ (CRunning (with_out x out (Some (next_task w)))) L CL ltac:(constructor; [reflexivity|constructor])) as Q. cbn [cpot with_out cr_read cr_post] in Q. rewrite PE, asks_snoc, posts_app, app_length in Q. cbn [posts flat_map] in Q. rewrite Nat.eqb_refl in Q. cbn [app length] in Q. lia.
  - destruct (client w c) as [st|] eqn:CL; [|exact Q0]. destruct st as [| | |x| |]; try exact Q0. destruct (cr_post x) as [t|] eqn:PE; [|exact Q0]. destruct (was_published t (sy_tr w)); [|exact Q0].
    unfold set_client. cbn [fst snd sy_db sy_tr sy_cl]. pose proof (csum_move (sy_db w) (sy_tr w) w log [] c _ (CRunning (with_out x (cr_out x) None)) L CL ltac:(constructor)) as Q. cbn [cpot with_out cr_read cr_post] in Q. rewrite PE in Q. rewrite app_nil_r in *. lia.
  - destruct (client w c) as [st|] eqn:CL; [|exact Q0]. destruct st as [| | |x| |]; try exact Q0. destruct (may_leave fin queue x); [|exact Q0]. destruct (opf c (cr_st x) Pick) as [s r]. unfold set_client, serve. destruct (step oc (sy_db w) _) as [d o]. cbn [fst snd sy_db sy_tr sy_cl].
    pose proof (csum_move d (sy_tr w ++ o) w log [ECall c Pick r] c _ (CDone x r) L CL ltac:(constructor; [reflexivity|constructor])) as Q. cbn [cpot] in Q. rewrite asks_call in Q. lia.
Qed.

Lemma sub_facts l nacts w log : SInv l nacts w log -> subs_ok bound (sy_db w) (sy_tr w).
Proof.
  intros I t r k X. destruct (si_fate _ _ _ _ I) as [M F].
  assert (T : t < length (db_tasks (sy_db w))) by (apply nth_end_lt; destruct X as [X|[e X]]; congruence).
  rewrite (ft_len _ _ _ _ F) in T. destruct (nth_error (reqs l) t) as [[rid q]|] eqn:R; [|apply nth_error_None in R; lia]. pose proof (ft_task _ _ _ _ F _ _ _ R) as K.
  assert (J : exists last, In (OJoined t rid r last) (sy_tr w)) by (destruct X as [X|[e X]]; rewrite X in K; destruct K as (last & _ & K & _); eauto). destruct J as [last J].
  destruct (obs_joined _ _ _ _ I _ _ _ _ J) as (-> & -> & -> & _). destruct (joined_once _ _ _ _ _ _ _ M J) as [JO _]. destruct (gots_prefix _ _ _ _ I t J) as [_ GP]. pose proof (pub_bound _ _ _ _ I 0) as PB.
  pose proof (mi_task _ _ _ M t) as TO. assert (KE : k = Z.of_nat (length (gots t (sy_tr w)))).
  { assert (Q : exists rid' last st, joins t (sy_tr w) = [(rid', 0, last)] /\ start_at oc last = Some st /\ k = ((st + Z.of_nat (length (gots t (sy_tr w)))) mod 65536)%Z) by (destruct X as [X|[e X]]; rewrite X in TO; cbn [task_ok] in TO; [exact TO|exact (proj1 TO)]).
    destruct Q as (rid' & last & st & Q1 & Q2 & Q3). rewrite JO in Q1. injection Q1 as <- <-. cbn in Q2. injection Q2 as <-. rewrite Z.mod_small in Q3; lia. }
  subst k. rewrite Nat2Z.id. refine (conj eq_refl (conj _ (conj GP PB))). lia.
Qed.
Lemma db_step w a : (forall t, a <> CServe t) -> let w' := fst (sys_step w a) in
  (sy_db w' = sy_db w /\ sy_tr w' = sy_tr w) \/
  (exists q, good_req q = true /\ sy_db w' = fst (step oc (sy_db w) (Arrive room_id q)) /\ sy_tr w' = sy_tr w) \/
  (exists t, sy_db w' = fst (cancel_task t (sy_db w)) /\ sy_tr w' = sy_tr w ++ snd (cancel_task t (sy_db w))).
Proof.
  intros N. cbn zeta. assert (Q0 : forall w' : sys, w' = w -> sy_db w' = sy_db w /\ sy_tr w' = sy_tr w) by (intros w' ->; auto).
  assert (AS : forall c q st, good_req q = true -> exists q', good_req q' = true /\ sy_db (fst (ask oc room_id c q st w)) = fst (step oc (sy_db w) (Arrive room_id q')) /\ sy_tr (fst (ask oc room_id c q st w)) = sy_tr w).
  { intros c q st G. exists q. split; [exact G|]. unfold ask, serve. cbn [step]. rewrite G. cbn. rewrite app_nil_r. auto. }
  assert (CA : forall c st t, exists t', sy_db (set_client c st (serve oc (Cancel t) w)) = fst (cancel_task t' (sy_db w)) /\ sy_tr (set_client c st (serve oc (Cancel t) w)) = sy_tr w ++ snd (cancel_task t' (sy_db w))).
  { intros c st t. exists t. unfold serve. cbn [step]. destruct (cancel_task t (sy_db w)). auto. }
  destruct a as [t|c|c|c|c|c|c|c|c|c]; cbn [sys_step]; [destruct (N t eq_refl)|..]; destruct (client w c) as [st|]; try (left; apply Q0; reflexivity); destruct st as [|t|sub t|x|x r|]; try (left; apply Q0; reflexivity).
  - right. left. apply AS. reflexivity.
  - destruct (was_joined t (sy_tr w)); [right; left; apply AS; reflexivity|left; auto].
  - destruct (was_issued t (sy_tr w)) as [i|]; [|left; auto]. destruct (start c i); [left; auto|right; right; apply CA].
  - destruct (nth_error _ _) as [[k e]|]; [|left; auto]. destruct (par e) as [m|]; [|right; right; apply CA]. destruct (for_me _ m); [|left; auto]. unfold handle. destruct (opf _ _ _) as [s r]. destruct (good_ret crit r); [left; auto|right; right; apply CA].
  - destruct (wants _); [|left; auto]. unfold handle. destruct (opf _ _ _) as [s r]. destruct (good_ret crit r); [left; auto|right; right; apply CA].
  - destruct (queue _); [left; auto|]. destruct (opf _ _ _) as [s r]. left; auto.
  - destruct (cr_out x); [left; auto|]. destruct (cr_post x); [left; auto|]. right. left. apply AS. reflexivity.
  - destruct (cr_post x); [|left; auto]. destruct (was_published _ _); left; auto.
  - destruct (may_leave _ _ _); [|left; auto]. destruct (opf _ _ _) as [s r]. right. right. apply CA.
Qed.
Definition pot (nacts : list nact) (w : sys) (log : list cev) : nat :=
  tsum bound (length (pubs 0 (sy_tr w))) (db_tasks (sy_db w)) + nwork nacts + csum log w.

Lemma step_inv l nacts w log a : SInv l nacts w log -> wait_ok (sy_db w) -> (forall c i, In (EIndex c i) (snd (sys_step w a)) -> i = Z.of_nat c) ->
  exists l' nacts', SInv l' nacts' (fst (sys_step w a)) (log ++ snd (sys_step w a)) /\ wait_ok (sy_db (fst (sys_step w a))) /\
    pot nacts w log + (if sys_enabled wants fin queue w a then 1 else 0) <= pot nacts' (fst (sys_step w a)) (log ++ snd (sys_step w a)).
Proof.
  intros I WO IX. pose proof (sub_facts _ _ _ _ I) as SO. destruct (si_fate _ _ _ _ I) as [M _].
  assert (G : exists l' nacts', SInv l' nacts' (fst (sys_step w a)) (log ++ snd (sys_step w a)) /\
     nwork nacts + (if sys_enabled wants fin queue w a && match a with CProceed _ | CTake _ => true | _ => false end then 1 else 0) <= nwork nacts').
  { destruct a as [t|c|c|c|c|c|c|c|c|c].
    - exists (l ++ [Run t]), nacts. change (snd (sys_step w (CServe t))) with (@nil cev). rewrite app_nil_r, andb_false_r. split; [apply serve_inv; exact I|lia].
    - destruct (start_inv _ _ _ _ c I) as [l' Q]. exists l', nacts. rewrite andb_false_r. split; [exact Q|lia].
    - destruct (joined_inv _ _ _ _ c I) as [l' Q]. exists l', nacts. rewrite andb_false_r. split; [exact Q|lia].
    - destruct (indexed_inv _ _ _ _ c I IX) as [l' Q]. exists l', nacts. rewrite andb_false_r. split; [exact Q|lia].
    - destruct (read_inv _ _ _ _ c I) as (na & Q1 & Q2). exists l, (nacts ++ na). rewrite andb_false_r. split; [exact Q1|lia].
    - destruct (proceed_inv _ _ _ _ c I) as (na & Q1 & Q2). exists l, (nacts ++ na). rewrite andb_true_r. split; [exact Q1|exact Q2].
    - destruct (take_inv _ _ _ _ c I) as (na & Q1 & Q2). exists l, (nacts ++ na). rewrite andb_true_r. split; [exact Q1|exact Q2].
    - destruct (post_inv _ _ _ _ c I) as [l' Q]. exists l', nacts. rewrite andb_false_r. split; [exact Q|lia].
    - destruct (posted_inv _ _ _ _ c I) as [l' Q]. exists l', nacts. rewrite andb_false_r. split; [exact Q|lia].
    - destruct (leave_inv _ _ _ _ c I) as [l' Q]. exists l', nacts. rewrite andb_false_r. split; [exact Q|lia]. }
  destruct G as (l' & nacts' & I' & NW). exists l', nacts'. split; [exact I'|].
  assert (NF : forall c, client (fst (sys_step w a)) c <> Some CFailed).
  { intros c E. pose proof (client_range _ _ _ (si_cl _ _ _ _ I') E) as C. destruct (si_stage _ _ _ _ I' c C) as (st & CL & K). rewrite E in CL. injection CL as <-. exact K. }
  pose proof (csum_step w log a (si_cl _ _ _ _ I) NF) as CS. unfold pot.
  assert (TS : wait_ok (sy_db (fst (sys_step w a))) /\ tsum bound (length (pubs 0 (sy_tr w))) (db_tasks (sy_db w)) + (if sys_enabled wants fin queue w a && match a with CServe _ => true | _ => false end then 1 else 0)
      <= tsum bound (length (pubs 0 (sy_tr (fst (sys_step w a))))) (db_tasks (sy_db (fst (sys_step w a))))).
  { assert (OT : (forall t, a <> CServe t) -> wait_ok (sy_db (fst (sys_step w a))) /\ tsum bound (length (pubs 0 (sy_tr w))) (db_tasks (sy_db w)) <= tsum bound (length (pubs 0 (sy_tr (fst (sys_step w a))))) (db_tasks (sy_db (fst (sys_step w a))))).
    { intros N. destruct (db_step w a N) as [[-> ->]|[(q & GQ & -> & ->)|(t & -> & ->)]]; [split; [exact WO|lia]| |].
      - destruct (arrive_work oc bound (sy_db w) (sy_tr w) room_id q WO GQ) as (Q1 & _ & Q2). split; assumption.
      - exact (cancel_work bound (sy_db w) (sy_tr w) t SO WO). }
    destruct a as [t|c|c|c|c|c|c|c|c|c]; rewrite ?andb_false_r, ?Nat.add_0_r; try (apply OT; discriminate).
    rewrite andb_true_r. pose proof (run_work oc bound (proj1 Hbound) (sy_db w) (sy_tr w) t M SO WO) as Q. cbn zeta in Q. cbn [sys_step fst]. unfold serve. cbn [step].
    change (sys_enabled wants fin queue w (CServe t)) with (has_work (sy_db w) t). destruct (run_task oc t (sy_db w)) as [d o]. exact Q. }
  destruct TS as [TS1 TS2]. split; [exact TS1|]. destruct (sys_enabled wants fin queue w a); destruct a; cbn [andb client_act] in *; lia.
Qed.
Lemma asks_count (f : req -> bool) (a : list (nat * req)) : (forall x, In x a -> 1 <= fst x <= n) ->
  (forall t t' c q q', nth_error a t = Some (c, q) -> nth_error a t' = Some (c, q') -> f q = true -> f q' = true -> t = t') -> length (filter (fun x => f (snd x)) a) <= n.
Proof.
  intros R U. rewrite <- (map_length fst). rewrite <- (seq_length n 1). apply NoDup_incl_length.
  - clear R. induction a as [|[c q] a IH]; [constructor|]. cbn [filter snd].
    assert (IH' : NoDup (map fst (filter (fun x => f (snd x)) a))) by (apply IH; intros t t' c' q1 q2 E1 E2 F1 F2; apply Nat.succ_inj; apply (U (Datatypes.S t) (Datatypes.S t') c' q1 q2); assumption).
    destruct (f q) eqn:F; [|exact IH']. cbn [map]. constructor; [|exact IH']. intros X. apply in_map_iff in X. destruct X as ([c' q'] & E & X). apply filter_In in X. destruct X as [X FX]. cbn [fst snd] in *. subst c'. apply In_nth_error in X. destruct X as [t X].
    specialize (U 0 (Datatypes.S t) c q q' eq_refl X F FX). discriminate.
  - intros c X. apply in_map_iff in X. destruct X as (x & <- & X). apply filter_In in X. destruct X as [X _]. apply in_seq. specialize (R x X). lia.
Qed.
Lemma posts_bound l nacts w log : SInv l nacts w log -> list_sum (map (fun c => length (posts c (asks log))) (seq 1 n)) <= bound.
Proof.
  intros I. pose proof (Nbound nacts) as B1. rewrite (si_net _ _ _ _ I) in B1. rewrite (taken_sum n (calls log)) in B1 by (intros e X; rewrite <- Hlen; exact (call_range _ _ _ _ I e X)).
  eapply Nat.le_trans; [|exact B1]. apply sum_le. intros c C. apply in_seq in C. destruct (posts_sent _ _ _ _ I c ltac:(lia)) as [rest R]. apply (f_equal (@length string)) in R. rewrite app_length, !map_length in R. lia.
Qed.
Lemma tasks_bound l nacts w log : SInv l nacts w log -> length (asks log) <= 2 * n + bound.
Proof.
  intros I. assert (RG : forall x, In x (asks log) -> 1 <= fst x <= n) by (intros [c q] X; apply In_nth_error in X; destruct X as [t X]; exact (si_ask _ _ _ _ I _ _ _ X)).
  set (f1 := fun q => match q with RSub _ => true | _ => false end). set (f2 := fun q => match q with RIssue => true | _ => false end). set (f3 := fun q => match q with RPub _ => true | _ => false end).
  assert (SP : length (asks log) = length (filter (fun x => f1 (snd x)) (asks log)) + length (filter (fun x => f2 (snd x)) (asks log)) + length (filter (fun x => f3 (snd x)) (asks log))).
  { clear. induction (asks log) as [|[c q] a IH]; [reflexivity|]. cbn [filter snd length]. destruct q; cbn [f1 f2 f3 length]; lia. }
  assert (B1 : length (filter (fun x => f1 (snd x)) (asks log)) <= n).
  { apply asks_count; [exact RG|]. intros t t' c q q' E1 E2 F1 F2. destruct q as [la| |]; try discriminate. destruct q' as [lb| |]; try discriminate.
    destruct (si_sub _ _ _ _ I _ _ _ E1) as [_ (st & CL & SU)]. destruct (si_sub _ _ _ _ I _ _ _ E2) as [_ (st' & CL' & SU')]. congruence. }
  assert (B2 : length (filter (fun x => f2 (snd x)) (asks log)) <= n).
  { apply asks_count; [exact RG|]. intros t t' c q q' E1 E2 F1 F2. destruct q as [la| |]; try discriminate. destruct q' as [lb| |]; try discriminate.
    pose proof (si_ask _ _ _ _ I _ _ _ E1) as C. destruct (si_stage _ _ _ _ I c C) as (st & _ & K).
    assert (Q : exists t0, forall u, nth_error (asks log) u = Some (c, RIssue) -> t0 = u).
    { destruct st as [|v|v v'|x|x r|]; cbn [stage_ok] in K.
      - destruct K as [_ K]. exists 0. intros u X. destruct (K u X).
      - destruct K as (_ & _ & K). exists 0. intros u X. destruct (K u X).
      - destruct K as (_ & _ & _ & _ & K). exists v'. exact K.
      - destruct (ro_iss _ _ _ _ _ K) as (t0 & _ & U). eauto.
      - destruct (ro_iss _ _ _ _ _ (proj1 K)) as (t0 & _ & U). eauto.
      - destruct K. }
    destruct Q as [t0 Q]. pose proof (Q t E1). pose proof (Q t' E2). congruence. }
  assert (B3 : length (filter (fun x => f3 (snd x)) (asks log)) <= bound) by (unfold f3; rewrite posts_total by exact RG; exact (posts_bound _ _ _ _ I)).
  lia.
Qed.
Lemma pot_bound l nacts w log : SInv l nacts w log -> pot nacts w log <= (2 * n + bound) * (3 * bound + 9) + wbound + (n * (5 + bound) + 2 * bound).
Proof.
  intros I. unfold pot. pose proof (Nwork nacts) as NW. fold (nwork nacts) in NW. pose proof (sub_facts _ _ _ _ I) as SO.
  assert (TB : tsum bound (length (pubs 0 (sy_tr w))) (db_tasks (sy_db w)) <= (2 * n + bound) * (3 * bound + 9)).
  { eapply Nat.le_trans; [apply tsum_bound|].
    - intros t r k _ Q. destruct (SO t r k Q) as (_ & _ & A & B1). lia.
    - apply Nat.mul_le_mono_r. rewrite (si_tasks _ _ _ _ I). exact (tasks_bound _ _ _ _ I). }
  assert (CB : csum log w <= n * (5 + bound) + 2 * bound).
  { unfold csum. apply Nat.le_trans with (list_sum (map (fun c => (5 + bound) + 2 * length (posts c (asks log))) (seq 1 n))).
    - apply sum_le. intros c C. apply in_seq in C. destruct (si_stage _ _ _ _ I c ltac:(lia)) as (st & CL & K). rewrite CL.
      assert (RB : forall x, run_ok (sy_tr w) log (fst (nexec nacts)) c x -> cr_read x <= bound) by (intros x KX; pose proof (ro_read _ _ _ _ _ KX); destruct (gots_prefix _ _ _ _ I _ (ro_join _ _ _ _ _ KX)); pose proof (pub_bound _ _ _ _ I 0); lia).
      destruct st as [|v|v v'|x|x r|]; cbn [cpot stage_ok] in *; try lia; [specialize (RB x K)|specialize (RB x (proj1 K))]; destruct (cr_post x); lia.
    - rewrite sum_add, sum_const, seq_length. pose proof (posts_bound _ _ _ _ I) as PB. assert (DB : list_sum (map (fun c => 2 * length (posts c (asks log))) (seq 1 n)) = 2 * list_sum (map (fun c => length (posts c (asks log))) (seq 1 n))); [|lia].
      clear. induction (seq 1 n) as [|a r IH]; [reflexivity|]. change (list_sum (map (fun c => 2 * length (posts c (asks log))) (a :: r))) with (2 * length (posts a (asks log)) + list_sum (map (fun c => 2 * length (posts c (asks log))) r)).
      change (list_sum (map (fun c => length (posts c (asks log))) (a :: r))) with (length (posts a (asks log)) + list_sum (map (fun c => length (posts c (asks log))) r)). lia. }
  lia.
Qed.

(** * When nothing is left to do *)
Lemma task_fate l nacts w log t c q : SInv l nacts w log -> nth_error (asks log) t = Some (c, q) -> (forall u, sys_enabled wants fin queue w (CServe u) = false) ->
  (exists last k e, q = RSub last /\ nth t (db_tasks (sy_db w)) TEnd = TWaiting 0 k e /\ joined t (sy_tr w) /\ length (pubs 0 (sy_tr w)) <= e) \/
  (nth t (db_tasks (sy_db w)) TEnd = TEnd /\ fate_of oc l (sy_tr w) t room_id q TEnd).
Proof.
  intros I A EN. destruct (si_fate _ _ _ _ I) as [M F]. pose proof (ask_req _ _ _ _ I _ _ _ A) as R. pose proof (ft_task _ _ _ _ F _ _ _ R) as K. specialize (EN t). cbn [sys_enabled] in EN.
  destruct (nth t (db_tasks (sy_db w)) TEnd) as [i q'|i q'|i r q'|r k|r k e|] eqn:E; try discriminate; [left|right; auto].
  destruct (sub_facts _ _ _ _ I t r k (or_intror (ex_intro _ e E))) as (-> & _). apply Nat.ltb_ge in EN. rewrite (ro_notify _ _ _ (mi_rooms _ _ _ M 0)) in EN. cbn [fate_of] in K. destruct K as (last & -> & K1 & _).
  destruct (obs_joined _ _ _ _ I _ _ _ _ K1) as (_ & _ & -> & _). exists None, k, e. auto.
Qed.
Lemma no_cancel l nacts w log t c q st : SInv l nacts w log -> nth_error (asks log) t = Some (c, q) -> client w c = Some st -> (forall x r, st <> CDone x r) -> ~ In (Cancel t) l.
Proof.
  intros I A CL ND X. apply (si_cancel _ _ _ _ I) in X. destruct X as (c' & x & r & C' & CL' & SU). destruct (si_stage _ _ _ _ I c' C') as (st' & CL2 & K). rewrite CL' in CL2. injection CL2 as <-. cbn [stage_ok] in K. pose proof (ro_sub _ _ _ _ _ (proj1 K)) as RS. rewrite SU in RS.
  rewrite RS in A. injection A as <- _. rewrite CL in CL'. injection CL' as ->. exact (ND x r eq_refl).
Qed.
Lemma quiet_done l nacts w log : SInv l nacts w log -> (forall a, sys_enabled wants fin queue w a = false) -> all_done w.
Proof.
  intros I EN. assert (ES : forall u, sys_enabled wants fin queue w (CServe u) = false) by (intros u; apply EN). destruct (si_fate _ _ _ _ I) as [M F].
  (* every client is running or gone *)
  assert (RUN : forall c, 1 <= c <= n -> exists x, run_ok (sy_tr w) log (fst (nexec nacts)) c x /\ (client w c = Some (CRunning x) \/ exists r, client w c = Some (CDone x r) /\ may_leave fin queue x = true)).
  { intros c C. destruct (si_stage _ _ _ _ I c C) as (st & CL & K). destruct st as [|t|sub t|x|x r|]; cbn [stage_ok] in K.
    - exfalso. specialize (EN (CStart c)). cbn [sys_enabled] in EN. rewrite CL in EN. discriminate.
    - exfalso. destruct K as (_ & A & _). specialize (EN (CJoined c)). cbn [sys_enabled] in EN. rewrite CL in EN.
      destruct (task_fate _ _ _ _ t c _ I A ES) as [(la & k & e & _ & _ & J & _)|[_ K]].
      + assert (WJ : was_joined t (sy_tr w) = true) by (apply existsb_exists; eexists; split; [exact J|cbn; apply Nat.eqb_refl]). congruence.
      + cbn [fate_of] in K. destruct K as [K|[K|(r & _ & K)]]; [|discriminate|pose proof (pub_bound _ _ _ _ I r); lia]. apply (no_cancel _ _ _ _ t c _ _ I A CL); [discriminate|exact K].
    - exfalso. destruct K as (_ & _ & _ & A & _). specialize (EN (CIndexed c)). cbn [sys_enabled] in EN. rewrite CL in EN.
      destruct (task_fate _ _ _ _ t c _ I A ES) as [(la & k & e & E & _)|[_ K]]; [discriminate|].
      cbn [fate_of] in K. destruct K as [K|(r & i & K)]; [apply (no_cancel _ _ _ _ t c _ _ I A CL); [discriminate|exact K]|].
      unfold was_issued in EN. destruct (find _ (sy_tr w)) as [o|] eqn:FE.
      + apply find_some in FE. destruct FE as [_ FE]. destruct o; discriminate.
      + apply (find_none _ _ FE) in K. cbn in K. rewrite Nat.eqb_refl in K. discriminate.
    - exists x. auto.
    - exists x. split; [exact (proj1 K)|]. right. exists r. split; [exact CL|exact (proj1 (proj2 K))].
    - destruct K. }
  (* nothing is left in the hands of a client *)
  assert (EMP : forall c x, 1 <= c <= n -> run_ok (sy_tr w) log (fst (nexec nacts)) c x -> (client w c = Some (CRunning x) \/ exists r, client w c = Some (CDone x r) /\ may_leave fin queue x = true) ->
     queue (cr_st x) = [] /\ cr_out x = [] /\ cr_post x = None /\ wants (cr_st x) = false).
  { intros c x C K [CL|(r & CL & ML)].
    - pose proof (EN (CProceed c)) as E1. pose proof (EN (CTake c)) as E2. pose proof (EN (CPost c)) as E3. pose proof (EN (CPosted c)) as E4. cbn [sys_enabled] in *. rewrite CL in *.
      destruct (queue (cr_st x)); [|discriminate]. assert (PN : cr_post x = None).
      { destruct (cr_post x) as [t|] eqn:PE; [|reflexivity]. exfalso. destruct (ro_post _ _ _ _ _ K t PE) as [m A]. destruct (task_fate _ _ _ _ t c _ I A ES) as [(la & k & e & E & _)|[_ Q]]; [discriminate|].
        cbn [fate_of] in Q. destruct Q as [Q|(r & Q)]; [apply (no_cancel _ _ _ _ t c _ _ I A CL); [discriminate|exact Q]|].
        assert (WP : was_published t (sy_tr w) = true) by (apply existsb_exists; eexists; split; [exact Q|cbn; apply Nat.eqb_refl]). congruence. }
      rewrite PN in *. destruct (cr_out x); [|discriminate]. auto.
    - unfold may_leave in ML. apply andb_prop in ML. destruct ML as [FI ML]. destruct (queue (cr_st x)); [|discriminate]. destruct (cr_out x); [|discriminate]. destruct (cr_post x); [discriminate|]. repeat split. exact (Nfw nacts c _ (ro_st _ _ _ _ _ K) FI). }
  (* the network is idle *)
  assert (PO : forall c s, party (fst (nexec nacts)) c = Some s -> 1 <= c <= n).
  { intros c s PS. destruct (si_linv _ _ _ _ I) as [lost L]. destruct c as [|c]; [discriminate|]. cbn [party] in PS. apply nth_error_lt in PS. rewrite (li_len _ _ _ _ _ L) in PS. lia. }
  assert (WE : nt_wire (fst (nexec nacts)) = []).
  { destruct (nt_wire (fst (nexec nacts))) as [|[c m] rest] eqn:WE; [reflexivity|]. exfalso. destruct (si_linv _ _ _ _ I) as [lost L]. pose proof (li_perm _ _ _ _ _ L) as PM. rewrite Hlen, WE in PM.
    assert (RT : In (c, m) (routed n (calls log))) by (apply (Permutation_in _ PM); rewrite !in_app_iff; right; right; left; reflexivity).
    pose proof (routed_perm s0 (calls log) (call_range _ _ _ _ I)) as RP. rewrite Hlen in RP. apply (Permutation_in _ RP) in RT. apply in_flat_map in RT. destruct RT as (j & J & RT). apply in_seq in J. assert (J' : 1 <= j <= n) by lia. apply in_copies in RT. destruct RT as [MD RC].
    assert (MD' : In m (drained (rets_of j (snd (nexec nacts))))) by (rewrite (si_net _ _ _ _ I); exact MD). destruct (Nfrom nacts j m J' MD') as [MF MT].
    assert (CJ : 1 <= c <= n /\ c <> j /\ (m_to m = None \/ m_to m = Some c)).
    { unfold receivers in RC. destruct MT as [MT|(i & MT & IP)]; rewrite MT in RC; [apply in_peers in RC; [|exact J']; tauto|]. destruct RC as [->|[]]. apply in_peers in IP; [|exact J']. tauto. }
    destruct CJ as (C & CN & CT). destruct (RUN c C) as (x & K & CL). destruct CL as [CL|(r & CL & ML)].
    2:{ unfold may_leave in ML. apply andb_prop in ML. destruct ML as [FI _]. apply (Ndone nacts c (cr_st x) m C (ro_st _ _ _ _ _ K) FI). rewrite WE. left. reflexivity. }
    (* it has been posted and published *)
    destruct (RUN j J') as (y & KY & CY). destruct (EMP j y J' KY CY) as (_ & OY & PY & _). pose proof (ro_out _ _ _ _ _ KY) as OUT. rewrite OY in OUT. cbn [map] in OUT. rewrite app_nil_r in OUT.
    assert (PI : In (ser m) (posts j (asks log))) by (rewrite <- OUT; apply in_map; exact MD). apply in_posts in PI. destruct PI as [t PI]. destruct (ro_pub _ _ _ _ _ KY t (ser m) PI) as [Q|Q]; [congruence|].
    apply in_flat_map in Q. destruct Q as (o & OI & Q). destruct o as [ | | |t' rid r m'| | | ]; try contradiction. destruct Q as [->|[]]. destruct (obs_published _ _ _ _ I _ _ _ _ OI) as (-> & -> & j' & A'). rewrite PI in A'. injection A' as <- <-.
    assert (PB : In (ser m) (pubs 0 (sy_tr w))) by (apply in_pubs; eauto).
    (* and read *)
    pose proof (EN (CRead c)) as ER. cbn [sys_enabled] in ER. rewrite CL in ER. apply Nat.ltb_ge in ER. pose proof (ro_read _ _ _ _ _ K) as RR. pose proof (ro_join _ _ _ _ _ K) as JO. destruct (gots_prefix _ _ _ _ I _ JO) as [G1 G2].
    destruct (task_fate _ _ _ _ (cr_sub x) c _ I (ro_sub _ _ _ _ _ K) ES) as [(la & k & e & _ & TW & _ & LE)|[TE _]].
    2:{ destruct (sub_alive _ _ _ _ I c (CRunning x) (cr_sub x) C CL eq_refl JO) as (z & Z1 & (k & Z2) & _); [discriminate|]. rewrite TE in Z1. subst z. destruct Z2 as [Z2|[e Z2]]; discriminate. }
    pose proof (mi_task _ _ _ M (cr_sub x)) as TO. rewrite TW in TO. cbn [task_ok] in TO. destruct TO as ((rid' & last & st & T1 & T2 & T3) & T4).
    destruct (joined_once _ _ _ _ _ _ _ M JO) as [JJ _]. rewrite JJ in T1. injection T1 as <- <-. cbn in T2. injection T2 as <-. pose proof (pub_bound _ _ _ _ I 0) as PBD. rewrite Z.add_0_l in T3. rewrite Z.mod_small in T3 by lia. subst k. rewrite Nat2Z.id in T4.
    assert (ALL : map snd (gots (cr_sub x) (sy_tr w)) = pubs 0 (sy_tr w)) by (rewrite G1; apply firstn_all2; lia).
    assert (DI : In m (deliveries (ops_of c (calls log)))).
    { rewrite (ro_del _ _ _ _ _ K). rewrite firstn_all2 by (rewrite map_length; lia). rewrite ALL. apply in_flat_map. exists (ser m). split; [exact PB|]. rewrite Hser.
      assert (FM : for_me (Z.of_nat c) m = true); [|rewrite FM; left; reflexivity]. unfold for_me, client_filter. rewrite MF. replace (Z.of_nat j =? Z.of_nat c)%Z with false by (symmetry; apply Z.eqb_neq; lia). cbn [negb andb]. destruct CT as [->| ->]; [reflexivity|]. cbn [option_map]. apply Z.eqb_refl. }
    apply deliveries_handed in DI. pose proof (Nnodup nacts) as ND. rewrite (si_net _ _ _ _ I) in ND. apply (Permutation_NoDup (Permutation_sym PM)) in ND.
    clear -DI ND. induction (handed (calls log)) as [|u v IH]; [contradiction|]. cbn [app] in ND. inversion ND as [|? ? N1 N2]; subst. destruct DI as [->|DI]; [|exact (IH DI N2)]. apply N1. rewrite !in_app_iff. right. right. left. reflexivity. }
  assert (ID : forall a, enabled wants queue (fst (nexec nacts)) a = false).
  { intros [x|i|i]; cbn [enabled].
    - rewrite WE. destruct x; reflexivity.
    - destruct (party (fst (nexec nacts)) i) as [s|] eqn:PS; [|reflexivity]. pose proof (PO i s PS) as C. destruct (RUN i C) as (x & K & CL). destruct (EMP i x C K CL) as (_ & _ & _ & W). rewrite (ro_st _ _ _ _ _ K) in PS. injection PS as <-. exact W.
    - destruct (party (fst (nexec nacts)) i) as [s|] eqn:PS; [|reflexivity]. pose proof (PO i s PS) as C. destruct (RUN i C) as (x & K & CL). destruct (EMP i x C K CL) as (W & _). rewrite (ro_st _ _ _ _ _ K) in PS. injection PS as <-. rewrite W. reflexivity. }
  intros c C. destruct (RUN c C) as (x & K & CL). destruct (EMP c x C K CL) as (Q1 & Q2 & Q3 & _). destruct CL as [CL|(r & CL & _)]; [|eauto]. exfalso.
  specialize (EN (CLeave c)). cbn [sys_enabled] in EN. rewrite CL in EN. unfold may_leave in EN. rewrite (Nquiet nacts ID c _ (ro_st _ _ _ _ _ K)), Q1, Q2, Q3 in EN. discriminate.
Qed.

(** * Executions *)
(** The first client joins before the others do anything. *)
Definition first : list cact := [CStart c0; CServe 0; CServe 0; CServe 0].
Definition first_state : sys :=
  {| sy_db := {| db_rooms := [(room_id, 0)]; db_heap := [set_subs inc16 room_empty]; db_tasks := [TReady 0 0%Z] |};
     sy_tr := [OJoined 0 room_id 0 None]; sy_cl := Stores.upd (repeat CIdle n) (c0 - 1) (CSubscribing 0) |}.
Lemma first_exec : sys_exec (sys_init n) first = (first_state, [EAsk c0 (RSub None)]).
Proof.
  assert (E : client (@sys_init S P B O n) c0 = Some CIdle) by (destruct c0 as [|k]; [lia|]; cbn [client sys_init sy_cl]; apply nth_error_repeat; lia).
  unfold first. cbn [sys_exec sys_step]. rewrite E. reflexivity.
Qed.
Lemma first_inv : SInv [Arrive room_id (RSub None); Run 0; Run 0; Run 0] [] first_state [EAsk c0 (RSub None)] /\ wait_ok (sy_db first_state).
Proof.
  assert (CLE : forall c, 1 <= c -> client first_state c = if c =? c0 then Some (CSubscribing 0) else nth_error (repeat CIdle n) (c - 1)) by (intros c C; apply client_upd; [rewrite repeat_length|]; lia).
  split; [constructor; cbn [sy_db sy_tr sy_cl first_state]|].
  - reflexivity.
  - reflexivity.
  - assert (UL : forall (k : list stage) i y, length (Stores.upd k i y) = length k) by (clear; induction k as [|a k IH]; intros [|i] y; cbn; auto). rewrite UL. apply repeat_length.
  - reflexivity.
  - intros c C. rewrite CLE by lia. destruct (Nat.eqb_spec c c0) as [->|N].
    + eexists. split; [reflexivity|]. cbn [stage_ok]. split; [split; [cbn; rewrite Nat.eqb_refl; reflexivity|reflexivity]|]. split; [reflexivity|]. intros [|[|t]] T; discriminate.
    + rewrite nth_error_repeat by lia. eexists. split; [reflexivity|]. cbn [stage_ok]. apply Nat.eqb_neq in N. rewrite Nat.eqb_sym in N. split; [split; [cbn; rewrite N; reflexivity|reflexivity]|]. intros [|[|t]] T; discriminate.
  - intros [|[|t]] c q T; cbn in T; try discriminate. injection T as <- <-. exact Hc0.
  - intros [|[|t]] c last T; cbn in T; try discriminate. injection T as <- <-. split; [reflexivity|]. change (client first_state c0) with (client first_state c0). eexists. rewrite CLE, Nat.eqb_refl by lia. split; reflexivity.
  - split; [left; reflexivity|]. eexists. rewrite CLE, Nat.eqb_refl by lia. split; reflexivity.
  - intros t [T|[T|[T|[T|[]]]]]; discriminate.
  - intros c x r E. change (client first_state c = Some (CDone x r)) in E. assert (C : 1 <= c) by (destruct c; [discriminate|lia]). rewrite CLE in E by exact C. destruct (c =? c0); [discriminate|]. apply nth_error_In, repeat_spec in E. discriminate.
  - constructor; cbn [db_rooms db_tasks].
    + cbn. rewrite String.eqb_refl. reflexivity.
    + intros [|[|t]] r q _ T; discriminate.
    + lia.
  - constructor; [cbn; auto|constructor].
  - intros [|[|t]] r k e T; discriminate.
Qed.

Theorem sys_reach acts : (forall c i, In (EIndex c i) (snd (sys_exec first_state acts)) -> i = Z.of_nat c) ->
  exists l nacts, SInv l nacts (fst (sys_exec first_state acts)) ([EAsk c0 (RSub None)] ++ snd (sys_exec first_state acts)) /\
    sys_work opf wants fin queue start crit ser par oc room_id first_state acts <= pot nacts (fst (sys_exec first_state acts)) ([EAsk c0 (RSub None)] ++ snd (sys_exec first_state acts)).
Proof.
  intros IX. destruct first_inv as [I W].
  assert (G : forall acts w log l nacts, SInv l nacts w log -> wait_ok (sy_db w) -> (forall c i, In (EIndex c i) (snd (sys_exec w acts)) -> i = Z.of_nat c) ->
    exists l' nacts', SInv l' nacts' (fst (sys_exec w acts)) (log ++ snd (sys_exec w acts)) /\
      pot nacts w log + sys_work opf wants fin queue start crit ser par oc room_id w acts <= pot nacts' (fst (sys_exec w acts)) (log ++ snd (sys_exec w acts))).
  { clear acts IX I W. induction acts as [|a acts IH]; intros w log l nacts I W IX.
    - exists l, nacts. cbn [sys_exec sys_work fst snd]. rewrite app_nil_r. split; [exact I|lia].
    - cbn [sys_exec sys_work] in *. destruct (step_inv l nacts w log a I W) as (l1 & nacts1 & I1 & W1 & P1).
      + intros c i X. apply IX. destruct (sys_step w a) as [w1 e1]. destruct (sys_exec w1 acts) as [w2 e2]. cbn [snd] in *. apply in_app_iff. left. exact X.
      + destruct (sys_step w a) as [w1 e1]. cbn [fst snd] in *. destruct (IH w1 (log ++ e1) l1 nacts1 I1 W1) as (l2 & nacts2 & I2 & P2).
        * intros c i X. apply IX. destruct (sys_exec w1 acts) as [w2 e2]. cbn [snd] in *. apply in_app_iff. right. exact X.
        * destruct (sys_exec w1 acts) as [w2 e2]. cbn [fst snd] in *. rewrite <- app_assoc in I2, P2. exists l2, nacts2. split; [exact I2|lia]. }
  destruct (G acts first_state _ _ _ I W IX) as (l & nacts & Q1 & Q2). exists l, nacts. split; [exact Q1|lia].
Qed.
(** * The whole system *)
Definition budget : nat := (2 * n + bound) * (3 * bound + 9) + wbound + (n * (5 + bound) + 2 * bound).
Notation s_work := (sys_work opf wants fin queue start crit ser par oc room_id).
Lemma exec_app w a b : sys_exec w (a ++ b) = (fst (sys_exec (fst (sys_exec w a)) b), snd (sys_exec w a) ++ snd (sys_exec (fst (sys_exec w a)) b)).
Proof.
  revert w. induction a as [|x a IH]; intros w; [cbn [app sys_exec fst snd]; destruct (sys_exec w b); reflexivity|]. cbn [app sys_exec]. destruct (sys_step w x) as [w1 e1]. rewrite IH.
  destruct (sys_exec w1 a) as [w2 e2]. cbn [fst snd]. rewrite app_assoc. reflexivity.
Qed.
Lemma work_app w a b : s_work w (a ++ b) = s_work w a + s_work (fst (sys_exec w a)) b.
Proof.
  revert w. induction a as [|x a IH]; intros w; [reflexivity|]. cbn [app sys_work sys_exec]. rewrite IH. destruct (sys_step w x) as [w1 e1]. cbn [fst]. destruct (sys_exec w1 a). cbn [fst]. lia.
Qed.
Definition well_numbered (log : list cev) : Prop := forall c i, In (EIndex c i) log -> i = Z.of_nat c.

Theorem sys_total acts : well_numbered (snd (sys_exec (sys_init n) (first ++ acts))) ->
  let w := fst (sys_exec (sys_init n) (first ++ acts)) in
  s_work (sys_init n) (first ++ acts) <= 4 + budget /\
  (forall c, client w c <> Some CFailed) /\
  (exists nacts, snd (nexec nacts) = calls (snd (sys_exec (sys_init n) (first ++ acts))) /\
     forall c x, client w c = Some (CRunning x) \/ (exists r, client w c = Some (CDone x r) /\ fin (cr_st x) = true /\ r = snd (opf c (cr_st x) Pick)) -> party (fst (nexec nacts)) c = Some (cr_st x)) /\
  (forall c x r, client w c = Some (CDone x r) -> fin (cr_st x) = true /\ r = snd (opf c (cr_st x) Pick)) /\
  ((forall a, sys_enabled wants fin queue w a = false) -> forall c, 1 <= c <= n -> exists x r, client w c = Some (CDone x r)).
Proof.
  intros NU. cbn zeta. rewrite exec_app, work_app, first_exec in *. cbn [fst snd] in *.
  destruct (sys_reach acts) as (l & nacts & I & PW); [intros c i X; apply NU; apply in_app_iff; right; exact X|].
  pose proof (pot_bound l nacts _ _ I) as PB. set (w := fst (sys_exec first_state acts)) in *.
  assert (ST : forall c st, client w c = Some st -> 1 <= c <= n /\ stage_ok (sy_tr w) ([EAsk c0 (RSub None)] ++ snd (sys_exec first_state acts)) (fst (nexec nacts)) c st).
  { intros c st E. pose proof (client_range w c st (si_cl _ _ _ _ I) E) as C. split; [exact C|]. destruct (si_stage _ _ _ _ I c C) as (st' & E' & K). rewrite E in E'. injection E' as <-. exact K. }
  refine (conj _ (conj _ (conj _ (conj _ _)))).
  - assert (W4 : s_work (sys_init n) first <= 4) by (unfold first; cbn [sys_work]; repeat match goal with |- context [if ?b then 1 else 0] => destruct b end; lia). unfold budget. lia.
  - intros c E. destruct (ST c _ E) as [_ []].
  - exists nacts. split; [exact (si_net _ _ _ _ I)|]. intros c x [E|(r & E & _)]; destruct (ST c _ E) as [_ K]; [exact (ro_st _ _ _ _ _ K)|exact (ro_st _ _ _ _ _ (proj1 K))].
  - intros c x r E. destruct (ST c _ E) as [_ (_ & K1 & K2)]. split; [|exact K2]. unfold may_leave in K1. apply andb_true_iff in K1. apply K1.
  - intros Q. exact (quiet_done l nacts w _ I Q).
Qed.

(** Once everybody runs, every schedule can be continued until everybody is done. *)
Definition settled (w : sys) : Prop := forall c, 1 <= c <= n -> exists x, client w c = Some (CRunning x) \/ exists r, client w c = Some (CDone x r).
Lemma client_set c' st (w : sys) c st' : client (set_client c' st w) c = Some st' -> client w c = Some st' \/ st' = st.
Proof.
  destruct c as [|k]; [discriminate|]. cbn [client set_client sy_cl]. destruct (Nat.eq_dec (c' - 1) k) as [->|N]; [|rewrite upd_nth_other by exact N; auto].
  destruct (Nat.lt_ge_cases k (length (sy_cl w))) as [L|L]; [rewrite upd_nth_same by exact L; intros E; injection E as <-; auto|].
  intros E. assert (UL : forall (l : list stage) i y, length (Stores.upd l i y) = length l) by (clear; induction l as [|a l IH]; intros [|i] y; cbn; auto).
  assert (k < length (Stores.upd (sy_cl w) k st)) by (apply nth_error_Some; congruence). rewrite UL in *. lia.
Qed.
Lemma client_serve a (w : sys) c : client (serve oc a w) c = client w c.
Proof. unfold serve. destruct (step oc (sy_db w) a). reflexivity. Qed.
Definition after (st : stage) : Prop := match st with CRunning _ | CDone _ _ | CFailed => True | _ => False end.
Lemma settled_step w a : length (sy_cl w) = n -> settled w -> (forall c st, client (fst (sys_step w a)) c = Some st -> after st) /\ (forall c i, ~ In (EIndex c i) (snd (sys_step w a))).
Proof.
  intros LN SE. assert (SC : forall c, match client w c with Some (CRunning _) | Some (CDone _ _) | None => True | _ => False end).
  { intros c. destruct (client w c) as [st|] eqn:E; [|exact Logic.I]. destruct (SE c (client_range w c st LN E)) as (x & [E'|(r & E')]); rewrite E in E'; injection E' as ->; exact Logic.I. }
  assert (OLD : forall c st, client w c = Some st -> after st) by (intros c st E; pose proof (SC c) as Q; rewrite E in Q; destruct st; cbn; auto).
  assert (SET : forall c' st (w' : sys), (forall c, client w' c = client w c) -> after st -> forall c st', client (set_client c' st w') c = Some st' -> after st').
  { intros c' st w' EW A c st' E. apply client_set in E. destruct E as [E| ->]; [rewrite EW in E; exact (OLD c st' E)|exact A]. }
  assert (HND : forall c x o, (forall c1 st, client (fst (handle opf crit oc c x o w)) c1 = Some st -> after st) /\ (forall c1 i, ~ In (EIndex c1 i) (snd (handle opf crit oc c x o w)))).
  { intros c x o. unfold handle. destruct (opf c (cr_st x) o) as [s r]. cbn [fst snd]. split.
    - destruct (good_ret crit r); apply SET; try exact Logic.I; [reflexivity|]. intros c1. apply client_serve.
    - intros c1 i [Q|[]]. discriminate. }
  assert (NOP : (forall c st, client (fst (w, @nil cev)) c = Some st -> after st) /\ (forall c i, ~ In (EIndex c i) (snd (w, @nil cev)))) by (split; [exact OLD|intros c i []]).
  destruct a as [t|c|c|c|c|c|c|c|c|c]; cbn [sys_step]; try (pose proof (SC c) as Q; destruct (client w c) as [[| | |x|x r|]|]; try contradiction; try exact NOP; clear Q).
  - cbn [fst snd]. split; [|intros c i []]. intros c st E. rewrite client_serve in E. exact (OLD c st E).
  - destruct (nth_error (gots (cr_sub x) (sy_tr w)) (cr_read x)) as [[k e]|]; [|exact NOP]. destruct (par e) as [m|].
    + destruct (for_me (cr_idx x) m); [apply HND|]. cbn [fst snd]. split; [apply SET; [reflexivity|exact Logic.I]|intros c1 i []].
    + cbn [fst snd]. split; [apply SET; [intros c1; apply client_serve|exact Logic.I]|intros c1 i []].
  - destruct (wants (cr_st x)); [apply HND|exact NOP].
  - destruct (queue (cr_st x)); [exact NOP|]. destruct (opf c (cr_st x) Drain) as [s r]. cbn [fst snd]. split; [apply SET; [reflexivity|exact Logic.I]|intros c1 i [Q|[]]; discriminate].
  - destruct (cr_out x) as [|m l]; [exact NOP|]. destruct (cr_post x); [exact NOP|]. unfold ask. cbn [fst snd]. split; [apply SET; [intros c1; apply client_serve|exact Logic.I]|intros c1 i [Q|[]]; discriminate].
  - destruct (cr_post x) as [t|]; [|exact NOP]. destruct (was_published t (sy_tr w)); [|exact NOP]. cbn [fst snd]. split; [apply SET; [reflexivity|exact Logic.I]|intros c1 i []].
  - destruct (may_leave fin queue x); [|exact NOP]. destruct (opf c (cr_st x) Pick) as [s r]. cbn [fst snd]. split; [apply SET; [intros c1; apply client_serve|exact Logic.I]|intros c1 i [Q|[]]; discriminate].
Qed.
Lemma sys_quiet_or_not (w : sys) : length (sy_cl w) = n -> (forall a, sys_enabled wants fin queue w a = false) \/ exists a, sys_enabled wants fin queue w a = true.
Proof.
  intros LN. set (all := map CServe (seq 0 (length (db_tasks (sy_db w)))) ++ flat_map (fun c => [CStart c; CJoined c; CIndexed c; CRead c; CProceed c; CTake c; CPost c; CPosted c; CLeave c]) (seq 1 n)).
  destruct (existsb (sys_enabled wants fin queue w) all) eqn:E; [right; apply existsb_exists in E; destruct E as [a [_ E]]; eauto|left].
  assert (Q : forall a, In a all -> sys_enabled wants fin queue w a = false).
  { intros a A. destruct (sys_enabled wants fin queue w a) eqn:X; [|reflexivity]. rewrite <- E. symmetry. apply existsb_exists. eauto. }
  assert (QC : forall c a, In a [CStart c; CJoined c; CIndexed c; CRead c; CProceed c; CTake c; CPost c; CPosted c; CLeave c] -> client w c = None \/ In a all).
  { intros c a A. destruct (client w c) as [st|] eqn:X; [right|left; reflexivity]. apply in_app_iff. right. apply in_flat_map. exists c. split; [|exact A]. apply in_seq. pose proof (client_range w c st LN X). lia. }
  intros a. destruct a as [t|c|c|c|c|c|c|c|c|c].
  1:{ destruct (Nat.lt_ge_cases t (length (db_tasks (sy_db w)))) as [L|L]; [apply Q; apply in_app_iff; left; apply in_map; apply in_seq; lia|]. cbn [sys_enabled]. rewrite nth_overflow by exact L. reflexivity. }
  all: match goal with |- sys_enabled _ _ _ _ ?a = _ => destruct (QC c a) as [X|X]; [cbn; tauto|cbn [sys_enabled]; rewrite X; reflexivity|exact (Q _ X)] end.
Qed.
Theorem sys_can_finish acts : well_numbered (snd (sys_exec (sys_init n) (first ++ acts))) -> settled (fst (sys_exec (sys_init n) (first ++ acts))) ->
  exists more, well_numbered (snd (sys_exec (sys_init n) (first ++ acts ++ more))) /\ forall c, 1 <= c <= n -> exists x r, client (fst (sys_exec (sys_init n) (first ++ acts ++ more))) c = Some (CDone x r).
Proof.
  assert (LEN : forall acts, well_numbered (snd (sys_exec (sys_init n) (first ++ acts))) -> length (sy_cl (fst (sys_exec (sys_init n) (first ++ acts)))) = n).
  { intros a NU. rewrite exec_app, first_exec in *. cbn [fst snd] in *. destruct (sys_reach a) as (l & nacts & I & _); [intros c i X; apply NU; apply in_app_iff; right; exact X|]. exact (si_cl _ _ _ _ I). }
  assert (Q : forall d acts, 4 + budget - s_work (sys_init n) (first ++ acts) <= d -> well_numbered (snd (sys_exec (sys_init n) (first ++ acts))) -> settled (fst (sys_exec (sys_init n) (first ++ acts))) ->
    exists more, well_numbered (snd (sys_exec (sys_init n) (first ++ acts ++ more))) /\ forall a, sys_enabled wants fin queue (fst (sys_exec (sys_init n) (first ++ acts ++ more))) a = false).
  { clear acts. induction d as [|d IH]; intros acts D NU SE; (destruct (sys_quiet_or_not _ (LEN acts NU)) as [Z|[a A]]; [exists []; rewrite app_nil_r; split; [exact NU|exact Z]|]);
      pose proof (settled_step _ a (LEN acts NU) SE) as [ST NI];
      assert (NU' : well_numbered (snd (sys_exec (sys_init n) (first ++ acts ++ [a])))) by
        (rewrite app_assoc, exec_app; cbn [snd sys_exec]; intros c i X; apply in_app_iff in X; destruct X as [X|X]; [exact (NU c i X)|]; exfalso; destruct (sys_step (fst (sys_exec (sys_init n) (first ++ acts))) a) as [w1 e1]; cbn [snd fst] in *; rewrite app_nil_r in X; exact (NI c i X));
      assert (W : s_work (sys_init n) (first ++ acts ++ [a]) = s_work (sys_init n) (first ++ acts) + 1) by (rewrite app_assoc, work_app; cbn [sys_work]; rewrite A; lia);
      pose proof (sys_total (acts ++ [a]) NU') as T; cbn zeta in T; destruct T as (T1 & T2 & _); [lia|].
    assert (SE' : settled (fst (sys_exec (sys_init n) (first ++ acts ++ [a])))).
    { intros c C. pose proof (LEN (acts ++ [a]) NU') as L1. specialize (T2 c). rewrite app_assoc, exec_app in L1, T2 |- *. cbn [fst sys_exec] in L1, T2 |- *. destruct (sys_step (fst (sys_exec (sys_init n) (first ++ acts))) a) as [w1 e1]. cbn [fst snd] in *.
      assert (CE : exists st, client w1 c = Some st) by (rewrite (client_nth w1 c) by lia; destruct (nth_error (sy_cl w1) (c - 1)) as [st|] eqn:E; [eauto|apply nth_error_None in E; lia]).
      destruct CE as [st E]. rewrite E in T2 |- *. specialize (ST c st E). destruct st; try contradiction; [eauto|eauto]. }
    assert (D' : 4 + budget - s_work (sys_init n) (first ++ acts ++ [a]) <= d) by lia. destruct (IH (acts ++ [a]) D' NU' SE') as (more & M1 & M2). exists (a :: more). rewrite <- app_assoc in M1, M2. exact (conj M1 M2). }
  intros NU SE. destruct (Q _ acts (le_n _) NU SE) as (more & M1 & M2). exists more. split; [exact M1|]. pose proof (sys_total (acts ++ more) M1) as T. cbn zeta in T. destruct T as (_ & _ & _ & _ & T). exact (T M2).
Qed.
End Sys.

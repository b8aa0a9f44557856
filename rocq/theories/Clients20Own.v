(** What holds in every execution of the clients and the relay, whatever numbers were given out: each machine's calls form
    a history of its own machine, it is only handed messages that pass the filter, and everything it is handed was sent by
    one of the machines. *)
From Coq Require Import String ZArith Bool Lia List Permutation Arith.
From Verif Require Import Outcome Mp MpProofs Stores RoundSM SmSpec SmProofs SmTheory Network NetLog Manager20 M20Spec Manager20Proofs Manager20Facts Manager20Fate Clients20.
Import ListNotations.
Local Open Scope nat_scope.

Section Own.
Context {S P B O : Type}.
Context (opf : nat -> S -> op B -> S * ret P B O) (wants fin : S -> bool) (queue : S -> list (msg B)).
Context (start : nat -> Z -> option S) (crit : sm_error P -> bool) (ser : msg B -> string) (par : string -> option (msg B)) (oc : bool) (room_id : string).
Hypothesis Hser : forall m, par (ser m) = Some m.
(** Texts the relay may have been sent by somebody who is not one of the clients *)
Context (extra : string -> Prop).
Notation sys := (sys S P B O).
Notation stage := (stage S P B O).
Notation running := (running S B).
Notation cev := (cev P B O).
Notation sys_step := (sys_step opf wants fin queue start crit ser par oc room_id).
Notation sys_exec := (sys_exec opf wants fin queue start crit ser par oc room_id).

(** The calls on client c's machine (but for the final pick_output) and their results *)
Definition cops (c : nat) (log : list cev) : list (op B) :=
  flat_map (fun e => match e with ECall c' o _ => if c' =? c then match o with Pick => [] | _ => [o] end else [] | _ => [] end) log.
Definition crets (c : nat) (log : list cev) : list (ret P B O) :=
  flat_map (fun e => match e with ECall c' o r => if c' =? c then match o with Pick => [] | _ => [r] end else [] | _ => [] end) log.
Definition given (c : nat) (log : list cev) : list Z := flat_map (fun e => match e with EIndex c' i => if c' =? c then [i] else [] | _ => [] end) log.
Lemma cops_app c a b : cops c (a ++ b) = cops c a ++ cops c b. Proof. apply flat_map_app. Qed.
Lemma crets_app c a b : crets c (a ++ b) = crets c a ++ crets c b. Proof. apply flat_map_app. Qed.
Lemma given_app c a b : given c (a ++ b) = given c a ++ given c b. Proof. apply flat_map_app. Qed.
Lemma in_given c i log : In (EIndex c i) log <-> In i (given c log).
Proof.
  unfold given. rewrite in_flat_map. split; [intros X; exists (EIndex c i); split; [exact X|rewrite Nat.eqb_refl; left; reflexivity]|].
  intros (e & X & Y). destruct e as [| |c' k]; try contradiction. destruct (Nat.eqb_spec c' c) as [->|N]; [|contradiction]. destruct Y as [->|[]]. exact X.
Qed.

(** Messages the machines have handed over for sending *)
Definition sent_by (log : list cev) (m : msg B) : Prop := exists c, In m (drained (crets c log)).
Definition seen (tr : list obs) (m : msg B) : Prop := exists t k e, In (k, e) (gots t tr) /\ par e = Some m.
Definition has_run (tr : list obs) (log : list cev) (c : nat) (i : Z) (s : S) : Prop :=
  exists s0, start c i = Some s0 /\ given c log = [i] /\ run_ops (opf c) s0 (cops c log) = (s, crets c log) /\
  forall m, In m (deliveries (cops c log)) -> for_me i m = true /\ seen tr m.
Definition own_ok (tr : list obs) (log : list cev) (c : nat) (st : stage) : Prop :=
  match st with
  | CRunning x => has_run tr log c (cr_idx x) (cr_st x) /\ incl (cr_out x) (drained (crets c log))
  | CDone x r => has_run tr log c (cr_idx x) (cr_st x) /\ may_leave fin queue x = true /\ r = snd (opf c (cr_st x) Pick)
  | CFailed => cops c log = [] /\ crets c log = [] \/ exists i s, has_run tr log c i s
  | _ => cops c log = [] /\ crets c log = [] /\ given c log = []
  end.
Record OInv (l : list act) (w : sys) (log : list cev) : Prop := {
  oi_exec : exec oc db_empty l = (sy_db w, sy_tr w);
  oi_pub : forall rid s, In (rid, RPub s) (reqs l) -> extra s \/ exists m, s = ser m /\ sent_by log m;
  oi_own : forall c st, client w c = Some st -> own_ok (sy_tr w) log c st;
  oi_none : forall c, client w c = None -> cops c log = [] /\ crets c log = [] /\ given c log = [] }.

Lemma got_published s tr t k e : MInv oc s tr -> In (k, e) (gots t tr) -> exists ref, In e (pubs ref tr).
Proof.
  intros M X. pose proof (mi_del _ _ _ M t) as D. unfold delivered in D. destruct (joins t tr) as [|[[rid ref] last] [|? ?]]; [rewrite D in X; contradiction| |contradiction].
  destruct D as (st & _ & R & G & L & _). exists ref. rewrite G in X. apply in_map_iff in X. destruct X as (j & E & J). apply in_seq in J. cbn in J. unfold event in E. injection E as _ <-. apply nth_In.
  specialize (L j (proj2 J)). pose proof (Z.mod_pos_bound (st + Z.of_nat j) 65536 eq_refl). lia.
Qed.
(** Everything a client sees was sent by a machine or is one of those texts. *)
Lemma seen_origin l w log m : OInv l w log -> seen (sy_tr w) m -> sent_by log m \/ exists s, extra s /\ par s = Some m.
Proof.
  intros I (t & k & e & X & E). destruct (reach_fate _ _ _ _ (oi_exec _ _ _ I)) as [M F]. destruct (got_published _ _ _ _ _ M X) as [ref Q]. apply in_pubs in Q. destruct Q as (u & rid & Q).
  pose proof (ft_obs _ _ _ _ F _ Q) as R. cbn in R. apply nth_error_In in R. destruct (oi_pub _ _ _ I _ _ R) as [QS|(m' & -> & SB)]; [right; eauto|]. rewrite Hser in E. injection E as ->. left. exact SB.
Qed.
Lemma seen_sent l w log m : (forall s, extra s -> par s = None) -> OInv l w log -> seen (sy_tr w) m -> sent_by log m.
Proof. intros QN I SE. destruct (seen_origin l w log m I SE) as [SB|(s & QS & E)]; [exact SB|]. rewrite (QN s QS) in E. discriminate. Qed.

Definition ev_client (e : cev) : nat := match e with ECall c _ _ | EAsk c _ | EIndex c _ => c end.
Lemma other c e : Forall (fun x => ev_client x <> c) e -> cops c e = [] /\ crets c e = [] /\ given c e = [].
Proof.
  induction e as [|x e IH]; intros F; [auto|]. inversion F as [|? ? F1 F2]; subst. destruct (IH F2) as (I1 & I2 & I3). change (x :: e) with ([x] ++ e). rewrite cops_app, crets_app, given_app, I1, I2, I3, !app_nil_r.
  destruct x as [c' o r|c' q|c' i]; cbn [ev_client] in F1; apply Nat.eqb_neq in F1; cbn; rewrite ?F1; auto.
Qed.
Lemma sent_grow log e m : sent_by log m -> sent_by (log ++ e) m.
Proof. intros [c X]. exists c. rewrite crets_app, drained_app. apply in_app_iff. auto. Qed.
Lemma seen_grow tr o m : seen tr m -> seen (tr ++ o) m.
Proof. intros (t & k & e & X & E). exists t, k, e. rewrite gots_app, in_app_iff. auto. Qed.
Lemma has_run_keep tr o log e c i s : cops c e = [] -> crets c e = [] -> given c e = [] -> has_run tr log c i s -> has_run (tr ++ o) (log ++ e) c i s.
Proof.
  intros E1 E2 E3 (s0 & H1 & H2 & H3 & H4). exists s0. rewrite cops_app, crets_app, given_app, E1, E2, E3, !app_nil_r. refine (conj H1 (conj H2 (conj H3 _))). intros m X. destruct (H4 m X) as [A1 A2]. split; [exact A1|apply seen_grow; exact A2].
Qed.
Lemma own_keep tr o log e c st : cops c e = [] -> crets c e = [] -> given c e = [] -> own_ok tr log c st -> own_ok (tr ++ o) (log ++ e) c st.
Proof.
  intros E1 E2 E3. destruct st as [|t|sub t|x|x r|]; cbn [own_ok].
  1-3: rewrite cops_app, crets_app, given_app, E1, E2, E3, !app_nil_r; auto.
  - intros [H1 H2]. split; [apply has_run_keep; assumption|]. rewrite crets_app, E2, app_nil_r. exact H2.
  - intros (H1 & H2). split; [apply has_run_keep; assumption|exact H2].
  - intros [[H1 H2]|(i & s & H)]; [left; rewrite cops_app, crets_app, E1, E2, !app_nil_r; auto|right]. exists i, s. apply has_run_keep; assumption.
Qed.

(** One action of client c, or of the server *)
Lemma client_set_cases c' st (w : sys) c : client (set_client c' st w) c = client w c \/ (c = c' \/ c = Datatypes.S (c' - 1)) /\ client (set_client c' st w) c = Some st.
Proof.
  destruct c as [|k]; [left; reflexivity|]. cbn [client set_client sy_cl]. destruct (Nat.eq_dec (c' - 1) k) as [<-|N]; [|rewrite upd_nth_other by exact N; auto].
  destruct (Nat.lt_ge_cases (c' - 1) (length (sy_cl w))) as [L|L]; [rewrite upd_nth_same by exact L; right; auto|left].
  assert (UL : forall (l : list stage) i y, length (Stores.upd l i y) = length l) by (clear; induction l as [|a l IH]; intros [|i] y; cbn; auto).
  rewrite (proj2 (nth_error_None (sy_cl w) _) L). apply nth_error_None. rewrite UL. exact L.
Qed.
Lemma client_some c st (w : sys) st0 : client w c = Some st0 -> client (set_client c st w) c = Some st.
Proof. destruct c as [|k]; [discriminate|]. cbn [client set_client sy_cl]. intros E. replace (Datatypes.S k - 1) with k by lia. apply upd_nth_same. apply nth_error_Some. congruence. Qed.
Lemma client_other c st (w : sys) j : 1 <= c -> j <> c -> client (set_client c st w) j = client w j.
Proof. intros C N. destruct (client_set_cases c st w j) as [E|[[E|E] _]]; [exact E|contradiction|lia]. Qed.

Lemma own_step l w log c st st' db' o la e :
  OInv l w log -> client w c = Some st -> Forall (fun x => ev_client x = c) e ->
  exec oc db_empty (l ++ la) = (db', sy_tr w ++ o) ->
  (forall rid s, In (rid, RPub s) (reqs la) -> extra s \/ exists m, s = ser m /\ sent_by (log ++ e) m) ->
  own_ok (sy_tr w ++ o) (log ++ e) c st' ->
  OInv (l ++ la) (set_client c st' {| sy_db := db'; sy_tr := sy_tr w ++ o; sy_cl := sy_cl w |}) (log ++ e).
Proof.
  intros I CL F EX PB OK. assert (C : 1 <= c) by (destruct c; [discriminate|lia]). set (w1 := {| sy_db := db'; sy_tr := sy_tr w ++ o; sy_cl := sy_cl w |}).
  assert (EC : forall j, client w1 j = client w j) by (intros [|k]; reflexivity).
  assert (NO : forall j, j <> c -> cops j e = [] /\ crets j e = [] /\ given j e = []) by (intros j N; apply other; apply (Forall_impl _ (fun x (X : ev_client x = c) => eq_ind_r (fun y => y <> j) (not_eq_sym N) X) F)).
  constructor; cbn [sy_db sy_tr set_client w1].
  - exact EX.
  - intros rid s X. rewrite reqs_app in X. apply in_app_iff in X. destruct X as [X|X]; [|exact (PB rid s X)]. destruct (oi_pub _ _ _ I rid s X) as [QS|(m & E & SB)]; [left; exact QS|right]. exists m. split; [exact E|apply sent_grow; exact SB].
  - intros j st1 E. change (client (set_client c st' w1) j = Some st1) in E. destruct (Nat.eq_dec j c) as [->|N].
    + rewrite (client_some c st' w1 st) in E by (rewrite EC; exact CL). injection E as <-. exact OK.
    + rewrite (client_other c st' w1 j C N), EC in E. destruct (NO j N) as (N1 & N2 & N3). apply own_keep; auto. exact (oi_own _ _ _ I j st1 E).
  - intros j E. change (client (set_client c st' w1) j = None) in E. destruct (Nat.eq_dec j c) as [->|N]; [rewrite (client_some c st' w1 st) in E by (rewrite EC; exact CL); discriminate|].
    rewrite (client_other c st' w1 j C N), EC in E. destruct (NO j N) as (N1 & N2 & N3). rewrite cops_app, crets_app, given_app, N1, N2, N3, !app_nil_r. exact (oi_none _ _ _ I j E).
Qed.
Lemma serve_exec l w log a : OInv l w log -> exists db' o, serve oc a w = {| sy_db := db'; sy_tr := sy_tr w ++ o; sy_cl := sy_cl w |} /\ exec oc db_empty (l ++ [a]) = (db', sy_tr w ++ o).
Proof.
  intros I. unfold serve. destruct (step oc (sy_db w) a) as [d o] eqn:E. exists d, o. split; [reflexivity|]. rewrite Manager20Facts.exec_app, (oi_exec _ _ _ I). cbn [exec]. rewrite E. rewrite app_nil_r. reflexivity.
Qed.
Lemma same_w (w : sys) : w = {| sy_db := sy_db w; sy_tr := sy_tr w ++ []; sy_cl := sy_cl w |}.
Proof. rewrite app_nil_r. destruct w; reflexivity. Qed.

Lemma own_local l w log c st st' e : OInv l w log -> client w c = Some st -> Forall (fun x => ev_client x = c) e -> own_ok (sy_tr w) (log ++ e) c st' -> OInv l (set_client c st' w) (log ++ e).
Proof.
  intros I CL F OK. rewrite (same_w w) at 1. rewrite <- (app_nil_r l). apply (own_step l w log c st); [exact I|exact CL|exact F| |intros rid s []|rewrite app_nil_r; exact OK].
  rewrite !app_nil_r. exact (oi_exec _ _ _ I).
Qed.
Lemma own_served l w log c st st' a e : OInv l w log -> client w c = Some st -> Forall (fun x => ev_client x = c) e ->
  (forall rid s, In (rid, RPub s) (reqs [a]) -> extra s \/ exists m, s = ser m /\ sent_by (log ++ e) m) ->
  (forall o, own_ok (sy_tr w ++ o) (log ++ e) c st') -> OInv (l ++ [a]) (set_client c st' (serve oc a w)) (log ++ e).
Proof.
  intros I CL F PB OK. destruct (serve_exec l w log a I) as (db' & o & -> & EX). apply (own_step l w log c st); auto.
Qed.

Lemma has_run_call tr log c i s o r : has_run tr log c i s -> o <> Pick -> r = snd (opf c s o) -> (forall m, o = Deliver m -> for_me i m = true /\ seen tr m) ->
  has_run tr (log ++ [ECall c o r]) c i (fst (opf c s o)).
Proof.
  intros (s0 & H1 & H2 & H3 & H4) N -> D. exists s0. rewrite cops_app, crets_app, given_app.
  assert (E : cops c [ECall c o (snd (opf c s o))] = [o] /\ crets c [ECall c o (snd (opf c s o))] = [snd (opf c s o)]) by (cbn; rewrite Nat.eqb_refl; destruct o; try contradiction; auto).
  destruct E as [-> ->]. cbn [given flat_map]. rewrite app_nil_r. refine (conj H1 (conj H2 (conj _ _))).
  - rewrite run_ops_snoc, H3. reflexivity.
  - intros m X. rewrite deliveries_app in X. apply in_app_iff in X. destruct X as [X|X]; [exact (H4 m X)|]. destruct o as [m'| | |]; cbn in X; try contradiction. destruct X as [->|[]]. exact (D m eq_refl).
Qed.
Lemma drained_call c (log : list cev) o r : incl (drained (crets c log)) (drained (crets c (log ++ [ECall c o r]))).
Proof. intros m X. rewrite crets_app, drained_app. apply in_app_iff. auto. Qed.

Lemma oinv_handle l w log c x x0 o : OInv l w log -> client w c = Some (CRunning x0) -> o <> Pick -> cr_idx x = cr_idx x0 -> cr_st x = cr_st x0 -> cr_out x = cr_out x0 ->
  (forall m, o = Deliver m -> for_me (cr_idx x) m = true /\ seen (sy_tr w) m) ->
  exists l', OInv l' (fst (handle opf crit oc c x o w)) (log ++ snd (handle opf crit oc c x o w)).
Proof.
  intros I CL N E1 E2 E3 D. pose proof (oi_own _ _ _ I c _ CL) as [HR IN]. cbn [own_ok] in *. rewrite <- E1, <- E2 in HR. pose proof (has_run_call _ _ _ _ _ o _ HR N eq_refl D) as HR'.
  unfold handle. destruct (opf c (cr_st x) o) as [s r]. cbn [fst snd] in *. destruct (good_ret crit r).
  - exists l. apply (own_local l w log c (CRunning x0)); [exact I|exact CL|constructor; [reflexivity|constructor]|]. cbn [own_ok with_st cr_idx cr_st cr_out]. split; [exact HR'|]. rewrite E3. intros m X. apply drained_call. exact (IN m X).
  - eexists. apply (own_served l w log c (CRunning x0)); [exact I|exact CL|constructor; [reflexivity|constructor]|intros rid u []|]. intros ob. cbn [own_ok]. right. exists (cr_idx x), s.
    pose proof (has_run_keep (sy_tr w) ob (log ++ [ECall c o r]) [] c (cr_idx x) s eq_refl eq_refl eq_refl HR') as Q. rewrite app_nil_r in Q. exact Q.
Qed.

Lemma own_act l w log a : OInv l w log -> exists l', OInv l' (fst (sys_step w a)) (log ++ snd (sys_step w a)).
Proof.
  intros I. assert (NOP : exists l', OInv l' (fst (w, @nil cev)) (log ++ snd (w, @nil cev))) by (exists l; cbn [fst snd]; rewrite app_nil_r; exact I).
  assert (SN : forall t (y : Z * string) k, nth_error (gots t (sy_tr w)) k = Some y -> forall m, par (snd y) = Some m -> seen (sy_tr w) m).
  { intros t [k e] j E m PM. exists t, k, e. split; [exact (nth_error_In _ _ E)|exact PM]. }
  destruct a as [t|c|c|c|c|c|c|c|c|c]; cbn [Clients20.sys_step].
  - cbn [fst snd]. rewrite app_nil_r. destruct (serve_exec l w log (Run t) I) as (db' & o & -> & EX). exists (l ++ [Run t]). constructor; cbn [sy_db sy_tr].
    + exact EX.
    + intros rid s X. rewrite reqs_app in X. cbn in X. rewrite app_nil_r in X. exact (oi_pub _ _ _ I rid s X).
    + intros c st E. change (client w c = Some st) in E. pose proof (own_keep (sy_tr w) o log [] c st eq_refl eq_refl eq_refl (oi_own _ _ _ I c st E)) as Q. rewrite app_nil_r in Q. exact Q.
    + intros c E. exact (oi_none _ _ _ I c E).
  - destruct (client w c) as [[| | | | |]|] eqn:CL; try exact NOP. eexists. unfold ask. cbn [fst snd]. eapply own_served; [exact I|exact CL|constructor; [reflexivity|constructor]|intros rid s [X|[]]; discriminate|].
    intros o. apply own_keep; try reflexivity. exact (oi_own _ _ _ I c _ CL).
  - destruct (client w c) as [[|t| | | |]|] eqn:CL; try exact NOP. destruct (was_joined t (sy_tr w)); [|exact NOP]. eexists. unfold ask. cbn [fst snd]. eapply own_served; [exact I|exact CL|constructor; [reflexivity|constructor]|intros rid s [X|[]]; discriminate|].
    intros o. apply own_keep; try reflexivity. exact (oi_own _ _ _ I c _ CL).
  - destruct (client w c) as [[| |sub t| | |]|] eqn:CL; try exact NOP. destruct (was_issued t (sy_tr w)) as [i|]; [|exact NOP]. pose proof (oi_own _ _ _ I c _ CL) as (E1 & E2 & E3).
    assert (X1 : cops c (log ++ [EIndex c i]) = [] /\ crets c (log ++ [EIndex c i]) = [] /\ given c (log ++ [EIndex c i]) = [i]) by (rewrite cops_app, crets_app, given_app, E1, E2, E3; cbn; rewrite Nat.eqb_refl; auto). destruct X1 as (X1 & X2 & X3).
    destruct (start c i) as [s|] eqn:ST; cbn [fst snd].
    + exists l. eapply own_local; [exact I|exact CL|constructor; [reflexivity|constructor]|]. cbn [own_ok cr_idx cr_st cr_out]. split; [|intros m []]. exists s. rewrite X1, X2. refine (conj ST (conj X3 (conj eq_refl _))). intros m [].
    + eexists. eapply own_served; [exact I|exact CL|constructor; [reflexivity|constructor]|intros rid s []|]. intros o. cbn [own_ok]. left. auto.
  - destruct (client w c) as [[| | |x| |]|] eqn:CL; try exact NOP. destruct (nth_error (gots (cr_sub x) (sy_tr w)) (cr_read x)) as [[k e]|] eqn:NE; [|exact NOP]. pose proof (oi_own _ _ _ I c _ CL) as OW. destruct (par e) as [m|] eqn:PE.
    + destruct (for_me (cr_idx x) m) eqn:FM.
      * apply (oinv_handle l w log c (with_read x) x (Deliver m) I CL); try reflexivity; [discriminate|]. intros m' [= <-]. split; [exact FM|exact (SN _ _ _ NE m PE)].
      * exists l. cbn [fst snd]. eapply own_local; [exact I|exact CL|constructor|]. rewrite app_nil_r. exact OW.
    + eexists. cbn [fst snd]. eapply own_served; [exact I|exact CL|constructor|intros rid s []|]. intros o. rewrite app_nil_r. cbn [own_ok]. right. exists (cr_idx x), (cr_st x).
      pose proof (has_run_keep (sy_tr w) o log [] c _ _ eq_refl eq_refl eq_refl (proj1 OW)) as Q. rewrite app_nil_r in Q. exact Q.
  - destruct (client w c) as [[| | |x| |]|] eqn:CL; try exact NOP. destruct (wants (cr_st x)); [|exact NOP]. apply (oinv_handle l w log c x x Proceed I CL); try reflexivity; [discriminate|discriminate].
  - destruct (client w c) as [[| | |x| |]|] eqn:CL; try exact NOP. destruct (queue (cr_st x)) as [|q0 q]; [exact NOP|]. pose proof (oi_own _ _ _ I c _ CL) as [HR IN]. cbn [own_ok] in *.
    assert (ND : @Drain B <> Pick) by discriminate. pose proof (has_run_call _ _ _ _ _ Drain _ HR ND eq_refl (fun m (E : Drain = Deliver m) => False_ind _ ltac:(discriminate E))) as HR'.
    destruct (opf c (cr_st x) Drain) as [s r]. cbn [fst snd] in *. exists l. eapply own_local; [exact I|exact CL|constructor; [reflexivity|constructor]|]. cbn [own_ok with_out with_st cr_idx cr_st cr_out]. split; [exact HR'|].
    intros m X. apply in_app_iff in X. destruct X as [X|X]; [apply drained_call; exact (IN m X)|]. rewrite crets_app, drained_app. apply in_app_iff. right. cbn [crets flat_map]. rewrite Nat.eqb_refl. exact X.
  - destruct (client w c) as [[| | |x| |]|] eqn:CL; try exact NOP. destruct (cr_out x) as [|m q] eqn:EO; [exact NOP|]. destruct (cr_post x); [exact NOP|]. pose proof (oi_own _ _ _ I c _ CL) as [HR IN]. cbn [own_ok] in *. rewrite EO in IN.
    eexists. unfold ask. cbn [fst snd]. eapply own_served; [exact I|exact CL|constructor; [reflexivity|constructor]| |].
    + intros rid s X. cbn in X. destruct X as [X|[]]. injection X as _ <-. right. exists m. split; [reflexivity|]. apply sent_grow. exists c. apply IN. left. reflexivity.
    + intros o. cbn [own_ok with_out cr_idx cr_st cr_out]. split; [apply has_run_keep; try reflexivity; exact HR|]. rewrite crets_app. cbn [crets flat_map]. rewrite app_nil_r. intros m' X. apply IN. right. exact X.
  - destruct (client w c) as [[| | |x| |]|] eqn:CL; try exact NOP. destruct (cr_post x) as [t|]; [|exact NOP]. destruct (was_published t (sy_tr w)); [|exact NOP]. exists l. cbn [fst snd]. eapply own_local; [exact I|exact CL|constructor|].
    rewrite app_nil_r. exact (oi_own _ _ _ I c _ CL).
  - destruct (client w c) as [[| | |x| |]|] eqn:CL; try exact NOP. destruct (may_leave fin queue x) eqn:ML; [|exact NOP]. pose proof (oi_own _ _ _ I c _ CL) as [HR _]. cbn [own_ok] in *.
    destruct (opf c (cr_st x) Pick) as [s r] eqn:EP. cbn [fst snd]. eexists. eapply own_served; [exact I|exact CL|constructor; [reflexivity|constructor]|intros rid u []|]. intros o. cbn [own_ok].
    refine (conj _ (conj ML _)); [|rewrite EP; reflexivity]. apply has_run_keep; [cbn; rewrite Nat.eqb_refl; reflexivity|cbn; rewrite Nat.eqb_refl; reflexivity|reflexivity|exact HR].
Qed.
Lemma own_init n : OInv [] (sys_init n) [].
Proof.
  constructor; [reflexivity|intros rid s []| |auto]. intros c st E. destruct c as [|k]; [discriminate|]. cbn [client sys_init sy_cl] in E. apply nth_error_In, repeat_spec in E. subst st. cbn. auto.
Qed.
Lemma sys_len n acts : length (sy_cl (fst (sys_exec (sys_init n) acts))) = n.
Proof.
  assert (UL : forall (l : list stage) i y, length (Stores.upd l i y) = length l) by (clear; induction l as [|a l IH]; intros [|i] y; cbn; auto).
  assert (SC : forall c st (w : sys), length (sy_cl (set_client c st w)) = length (sy_cl w)) by (intros c st w; apply UL).
  assert (SV : forall a (w : sys), length (sy_cl (serve oc a w)) = length (sy_cl w)) by (intros a w; unfold serve; destruct (step oc (sy_db w) a); reflexivity).
  assert (HD : forall c x o (w : sys), length (sy_cl (fst (handle opf crit oc c x o w))) = length (sy_cl w)).
  { intros c x o w. unfold handle. destruct (opf c (cr_st x) o) as [s r]. cbn [fst]. destruct (good_ret crit r); rewrite SC; [reflexivity|apply SV]. }
  assert (ST : forall (w : sys) a, length (sy_cl (fst (sys_step w a))) = length (sy_cl w)).
  { intros w a. destruct a as [t|c|c|c|c|c|c|c|c|c]; cbn [Clients20.sys_step]; [cbn [fst]; apply SV|..]; destruct (client w c) as [[|t|sub t|x|x r|]|]; try reflexivity; unfold ask.
    - cbn [fst]. rewrite SC, SV. reflexivity.
    - destruct (was_joined t (sy_tr w)); [cbn [fst]; rewrite SC, SV; reflexivity|reflexivity].
    - destruct (was_issued t (sy_tr w)) as [i|]; [|reflexivity]. destruct (start c i); cbn [fst]; rewrite SC; [reflexivity|apply SV].
    - destruct (nth_error (gots (cr_sub x) (sy_tr w)) (cr_read x)) as [[k e]|]; [|reflexivity]. destruct (par e) as [m|]; [|cbn [fst]; rewrite SC; apply SV]. destruct (for_me (cr_idx x) m); [apply HD|cbn [fst]; apply SC].
    - destruct (wants (cr_st x)); [apply HD|reflexivity].
    - destruct (queue (cr_st x)); [reflexivity|]. destruct (opf c (cr_st x) Drain). cbn [fst]. apply SC.
    - destruct (cr_out x) as [|m l]; [reflexivity|]. destruct (cr_post x); [reflexivity|]. cbn [fst]. rewrite SC. apply SV.
    - destruct (cr_post x) as [t|]; [|reflexivity]. destruct (was_published t (sy_tr w)); [cbn [fst]; apply SC|reflexivity].
    - destruct (may_leave fin queue x); [|reflexivity]. destruct (opf c (cr_st x) Pick). cbn [fst]. rewrite SC. apply SV. }
  assert (G : forall acts (w : sys), length (sy_cl (fst (sys_exec w acts))) = length (sy_cl w)).
  { clear acts. induction acts as [|a acts IH]; intros w; [reflexivity|]. cbn [Clients20.sys_exec]. specialize (ST w a). destruct (sys_step w a) as [w1 e1]. cbn [fst] in ST. specialize (IH w1). destruct (sys_exec w1 acts). cbn [fst] in *. congruence. }
  rewrite G. apply repeat_length.
Qed.
Theorem own_reach n acts : exists l, OInv l (fst (sys_exec (sys_init n) acts)) (snd (sys_exec (sys_init n) acts)).
Proof.
  assert (G : forall acts w log l, OInv l w log -> exists l', OInv l' (fst (sys_exec w acts)) (log ++ snd (sys_exec w acts))).
  { clear acts. induction acts as [|a acts IH]; intros w log l I; [exists l; cbn; rewrite app_nil_r; exact I|]. cbn [Clients20.sys_exec]. destruct (own_act l w log a I) as [l1 I1]. destruct (sys_step w a) as [w1 e1]. cbn [fst snd] in I1.
    destruct (IH _ _ _ I1) as [l2 I2]. destruct (sys_exec w1 acts) as [w2 e2]. cbn [fst snd] in *. rewrite <- app_assoc in I2. eauto. }
  exact (G acts _ _ _ (own_init n)).
Qed.
End Own.

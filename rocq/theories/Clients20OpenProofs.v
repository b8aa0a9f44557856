(** What holds in every execution of the clients on a server open to others. *)
From Coq Require Import String ZArith Bool Lia List.
From Verif Require Import Outcome Mp MpProofs Stores RoundSM SmSpec SmProofs SmTheory Network NetLog Manager20 M20Spec Manager20Proofs Manager20Facts Manager20Fate Clients20 Clients20Own Clients20Open.
Import ListNotations.
Local Open Scope nat_scope.

Section Open.
Context {S P B O : Type}.
Context (opf : nat -> S -> op B -> S * ret P B O) (wants fin : S -> bool) (queue : S -> list (msg B)).
Context (start : nat -> Z -> option S) (crit : sm_error P -> bool) (ser : msg B -> string) (par : string -> option (msg B)) (oc : bool) (room_id : string).
Notation sys := (sys S P B O).
Notation cev := (cev P B O).
Notation sys_step := (sys_step opf wants fin queue start crit ser par oc room_id).
Notation open_step := (open_step opf wants fin queue start crit ser par oc room_id).
Notation open_exec := (open_exec opf wants fin queue start crit ser par oc room_id).
Notation OInv := (OInv opf fin queue start ser par oc).

Lemma open_app y a b : open_exec y (a ++ b) = (fst (open_exec (fst (open_exec y a)) b), snd (open_exec y a) ++ snd (open_exec (fst (open_exec y a)) b)).
Proof.
  revert y. induction a as [|x a IH]; intros y; [cbn; destruct (open_exec y b); reflexivity|]. cbn [app Clients20Open.open_exec]. destruct (open_step y x) as [y1 e1]. rewrite IH.
  destruct (open_exec y1 a) as [y2 e2]. cbn [fst snd]. rewrite app_assoc. reflexivity.
Qed.

(** Requests that are not the clients' *)
Lemma oinv_serve (extra : string -> Prop) l w log a : (forall rid s, In (rid, RPub s) (reqs [a]) -> extra s) -> OInv extra l w log -> OInv extra (l ++ [a]) (serve oc a w) log.
Proof.
  intros X I. destruct (serve_exec opf fin queue start ser par oc extra l w log a I) as (db' & o & -> & EX). constructor; cbn [sy_db sy_tr].
  - exact EX.
  - intros rid s Y. rewrite reqs_app in Y. apply in_app_iff in Y. destruct Y as [Y|Y]; [exact (oi_pub _ _ _ _ _ _ _ _ _ _ _ I rid s Y)|left; exact (X rid s Y)].
  - intros c st E. change (client w c = Some st) in E. pose proof (own_keep opf fin queue start par (sy_tr w) o log [] c st eq_refl eq_refl eq_refl (oi_own _ _ _ _ _ _ _ _ _ _ _ I c st E)) as Q. rewrite app_nil_r in Q. exact Q.
  - intros c E. exact (oi_none _ _ _ _ _ _ _ _ _ _ _ I c E).
Qed.
Lemma oinv_step (extra : string -> Prop) l w own log a : (forall s, In s (foreign [a]) -> extra s) -> OInv extra l w log ->
  exists l', OInv extra l' (fst (fst (open_step (w, own) a))) (log ++ snd (open_step (w, own) a)).
Proof.
  intros X I. destruct a as [b|rid q|t]; cbn [Clients20Open.open_step].
  - destruct (own_act opf wants fin queue start crit ser par oc room_id extra l w log b I) as [l' I']. destruct (sys_step w b) as [w1 e]. exists l'. exact I'.
  - cbn [fst snd]. rewrite app_nil_r. exists (l ++ [Arrive rid q]). apply oinv_serve; [|exact I]. intros rid' s Y. apply X. unfold reqs in Y. cbn [flat_map] in Y. rewrite app_nil_r in Y. destruct (good_req q); [|contradiction].
    destruct Y as [Y|[]]. injection Y as _ ->. left. reflexivity.
  - cbn [fst snd]. rewrite app_nil_r. destruct (existsb (Nat.eqb t) own); [|exists l; exact I]. exists (l ++ [Cancel t]). apply oinv_serve; [intros ? ? []|exact I].
Qed.
Lemma foreign_app a b : foreign (a ++ b) = foreign a ++ foreign b. Proof. apply flat_map_app. Qed.
Lemma oinv_exec (extra : string -> Prop) acts : forall l w own log, (forall s, In s (foreign acts) -> extra s) -> OInv extra l w log ->
  exists l', OInv extra l' (fst (fst (open_exec (w, own) acts))) (log ++ snd (open_exec (w, own) acts)).
Proof.
  induction acts as [|a acts IH]; intros l w own log X I; [exists l; cbn; rewrite app_nil_r; exact I|]. change (a :: acts) with ([a] ++ acts) in X. rewrite foreign_app in X.
  destruct (oinv_step extra l w own log a (fun s Y => X s (proj2 (in_app_iff _ _ _) (or_introl Y))) I) as [l1 I1]. cbn [Clients20Open.open_exec]. destruct (open_step (w, own) a) as [[w1 own1] e1]. cbn [fst snd] in I1.
  destruct (IH l1 w1 own1 (log ++ e1) (fun s Y => X s (proj2 (in_app_iff _ _ _) (or_intror Y))) I1) as [l2 I2]. destruct (open_exec (w1, own1) acts) as [y2 e2]. cbn [fst snd] in *. rewrite <- app_assoc in I2. eauto.
Qed.
Theorem open_reach n acts : exists l, OInv (fun s => In s (foreign acts)) l (fst (fst (open_exec (sys_init n, []) acts))) (snd (open_exec (sys_init n, []) acts)).
Proof. exact (oinv_exec _ acts [] (sys_init n) [] [] (fun s X => X) (own_init opf fin queue start ser par oc _ n)). Qed.

(** What an action does to the trace and to the clients it is not of *)
Definition act_client (a : cact) : nat :=
  match a with CServe _ => 0 | CStart c | CJoined c | CIndexed c | CRead c | CProceed c | CTake c | CPost c | CPosted c | CLeave c => c end.
Definition framed (w w' : sys) (c : nat) (e : list cev) : Prop :=
  (exists o, sy_tr w' = sy_tr w ++ o) /\ length (sy_cl w') = length (sy_cl w) /\ Forall (fun x => ev_client x = c) e /\ forall j, j <> c -> client w' j = client w j.
Lemma serve_tr a (w : sys) : (exists o, sy_tr (serve oc a w) = sy_tr w ++ o) /\ sy_cl (serve oc a w) = sy_cl w.
Proof. unfold serve. destruct (step oc (sy_db w) a) as [d o]. split; [exists o|]; reflexivity. Qed.
Lemma upd_len {A} (l : list A) i y : length (Stores.upd l i y) = length l.
Proof. revert i. induction l as [|a l IH]; intros [|i]; cbn; auto. Qed.
Lemma frame_set c st (w w1 : sys) e : 1 <= c -> (exists o, sy_tr w1 = sy_tr w ++ o) -> sy_cl w1 = sy_cl w -> Forall (fun x => ev_client x = c) e -> framed w (set_client c st w1) c e.
Proof.
  intros C T CL F. refine (conj T (conj _ (conj F _))); [cbn [set_client sy_cl]; rewrite upd_len, CL; reflexivity|]. intros j N. rewrite (client_other c st w1 j C N). destruct j as [|k]; [reflexivity|]. cbn [client]. rewrite CL. reflexivity.
Qed.
Lemma frame_id (w : sys) c : framed w w c [].
Proof. refine (conj (ex_intro _ [] _) (conj eq_refl (conj (Forall_nil _) (fun j _ => eq_refl)))). symmetry. apply app_nil_r. Qed.
Lemma same_tr (w : sys) : exists o, sy_tr w = sy_tr w ++ o. Proof. exists []. symmetry. apply app_nil_r. Qed.
Lemma handle_frame c x o (w : sys) : 1 <= c -> framed w (fst (handle opf crit oc c x o w)) c (snd (handle opf crit oc c x o w)).
Proof.
  intros C. unfold handle. destruct (opf c (cr_st x) o) as [s r]. cbn [fst snd]. destruct (good_ret crit r).
  - apply frame_set; [exact C|apply same_tr|reflexivity|constructor; [reflexivity|constructor]].
  - destruct (serve_tr (Cancel (cr_sub x)) w) as [T L]. apply frame_set; [exact C|exact T|exact L|constructor; [reflexivity|constructor]].
Qed.
Lemma step_frame (w : sys) a : framed w (fst (sys_step w a)) (act_client a) (snd (sys_step w a)).
Proof.
  destruct a as [t|c|c|c|c|c|c|c|c|c]; cbn [Clients20.sys_step act_client].
  { destruct (serve_tr (Run t) w) as [T L]. cbn [fst snd]. refine (conj T (conj _ (conj (Forall_nil _) _))); [rewrite L; reflexivity|]. intros [|k] _; [reflexivity|]. cbn [client]. rewrite L. reflexivity. }
  all: destruct (client w c) as [st|] eqn:CL; [|apply frame_id]; assert (C : 1 <= c) by (destruct c; [discriminate|lia]); destruct st as [|t|su t|x|x r|]; try apply frame_id; unfold ask.
  - destruct (serve_tr (Arrive room_id (RSub None)) w) as [T L]. cbn [fst snd]. apply frame_set; [exact C|exact T|exact L|constructor; [reflexivity|constructor]].
  - destruct (was_joined t (sy_tr w)); [|apply frame_id]. destruct (serve_tr (Arrive room_id RIssue) w) as [T L]. cbn [fst snd]. apply frame_set; [exact C|exact T|exact L|constructor; [reflexivity|constructor]].
  - destruct (was_issued t (sy_tr w)) as [i|]; [|apply frame_id]. destruct (start c i) as [s|]; cbn [fst snd].
    + apply frame_set; [exact C|apply same_tr|reflexivity|constructor; [reflexivity|constructor]].
    + destruct (serve_tr (Cancel su) w) as [T L]. apply frame_set; [exact C|exact T|exact L|constructor; [reflexivity|constructor]].
  - destruct (nth_error (gots (cr_sub x) (sy_tr w)) (cr_read x)) as [[k e]|]; [|apply frame_id]. destruct (par e) as [m|].
    + destruct (for_me (cr_idx x) m); [apply handle_frame; exact C|]. cbn [fst snd]. apply frame_set; [exact C|apply same_tr|reflexivity|constructor].
    + destruct (serve_tr (Cancel (cr_sub x)) w) as [T L]. cbn [fst snd]. apply frame_set; [exact C|exact T|exact L|constructor].
  - destruct (wants (cr_st x)); [apply handle_frame; exact C|apply frame_id].
  - destruct (queue (cr_st x)); [apply frame_id|]. destruct (opf c (cr_st x) Drain) as [s r]. cbn [fst snd]. apply frame_set; [exact C|apply same_tr|reflexivity|constructor; [reflexivity|constructor]].
  - destruct (cr_out x) as [|m l]; [apply frame_id|]. destruct (cr_post x); [apply frame_id|]. destruct (serve_tr (Arrive room_id (RPub (ser m))) w) as [T L]. cbn [fst snd]. apply frame_set; [exact C|exact T|exact L|constructor; [reflexivity|constructor]].
  - destruct (cr_post x) as [t|]; [|apply frame_id]. destruct (was_published t (sy_tr w)); [|apply frame_id]. cbn [fst snd]. apply frame_set; [exact C|apply same_tr|reflexivity|constructor].
  - destruct (may_leave fin queue x); [|apply frame_id]. destruct (opf c (cr_st x) Pick) as [s r]. destruct (serve_tr (Cancel (cr_sub x)) w) as [T L]. cbn [fst snd]. apply frame_set; [exact C|exact T|exact L|constructor; [reflexivity|constructor]].
Qed.
Lemma open_len y acts : length (sy_cl (fst (fst (open_exec y acts)))) = length (sy_cl (fst y)).
Proof.
  revert y. induction acts as [|a acts IH]; intros [w own]; [reflexivity|]. cbn [Clients20Open.open_exec].
  assert (E : length (sy_cl (fst (fst (open_step (w, own) a)))) = length (sy_cl w)).
  { destruct a as [b|rid q|t]; cbn [Clients20Open.open_step].
    - pose proof (step_frame w b) as (_ & L & _). destruct (sys_step w b). exact L.
    - cbn [fst]. rewrite (proj2 (serve_tr _ w)). reflexivity.
    - cbn [fst]. destruct (existsb (Nat.eqb t) own); [rewrite (proj2 (serve_tr _ w))|]; reflexivity. }
  destruct (open_step (w, own) a) as [y1 e1]. specialize (IH y1). destruct (open_exec y1 acts) as [y2 e2]. cbn [fst] in *. congruence.
Qed.

(** ** A client whose room starts with a text it cannot parse *)
Definition stuck_stage (t : nat) (st : option (stage S P B O)) : Prop :=
  match st with
  | Some (CSubscribing u) | Some (CIssuing u _) => u = t
  | Some (CRunning x) | Some (CDone x _) => cr_sub x = t /\ cr_read x = 0
  | Some CFailed => True
  | _ => False
  end.
Record stuck (c t ref : nat) (junk : string) (w : sys) (log : list cev) : Prop := {
  sk_stage : stuck_stage t (client w c);
  sk_none : deliveries (cops c log) = [];
  sk_joined : In (OJoined t room_id ref None) (sy_tr w);
  sk_first : exists r, pubs ref (sy_tr w) = junk :: r }.
Lemma first_got s tr t ref junk k e : MInv oc s tr -> In (OJoined t room_id ref None) tr -> (exists r, pubs ref tr = junk :: r) -> nth_error (gots t tr) 0 = Some (k, e) -> e = junk.
Proof.
  intros M J [r PB] E. destruct (joined_once _ _ _ _ _ _ _ M J) as [_ (st & S1 & _ & G & _)]. cbn in S1. injection S1 as <-. destruct (gots t tr) as [|g gs]; [discriminate|]. cbn [length seq map] in G. injection G as G _. cbn in E. injection E as E. subst g.
  unfold event in G. rewrite PB in G. cbn in G. injection G as _ ->. reflexivity.
Qed.
Lemma stuck_tr c t ref junk w w' log e : stuck c t ref junk w log -> (exists o, sy_tr w' = sy_tr w ++ o) -> stuck_stage t (client w' c) -> deliveries (cops c e) = [] -> stuck c t ref junk w' (log ++ e).
Proof.
  intros [S1 S2 S3 [r S4]] [o T] ST D. constructor; [exact ST|rewrite cops_app, deliveries_app, S2, D; reflexivity|rewrite T; apply in_app_iff; left; exact S3|]. rewrite T, pubs_app, S4. exists (r ++ pubs ref o). reflexivity.
Qed.
Lemma stuck_step (extra : string -> Prop) l c t ref junk w own log a : par junk = None -> OInv extra l w log -> stuck c t ref junk w log ->
  stuck c t ref junk (fst (fst (open_step (w, own) a))) (log ++ snd (open_step (w, own) a)).
Proof.
  intros PJ I K. pose proof K as [S1 S2 S3 S4]. assert (SV : forall a', stuck c t ref junk (serve oc a' w) (log ++ [])).
  { intros a'. destruct (serve_tr a' w) as [T L]. apply (stuck_tr c t ref junk w); [exact K|exact T| |reflexivity]. destruct c as [|k]; [exact S1|]. cbn [client]. rewrite L. exact S1. }
  destruct a as [b|rid q|u]; cbn [Clients20Open.open_step]; [|exact (SV _)|cbn [fst snd]; destruct (existsb (Nat.eqb u) own); [exact (SV _)|rewrite app_nil_r; exact K]].
  pose proof (step_frame w b) as (T & _ & F & OT). destruct (Nat.eq_dec c (act_client b)) as [E|N].
  - assert (G : stuck_stage t (client (fst (sys_step w b)) c) /\ deliveries (cops c (snd (sys_step w b))) = []).
    2: { destruct (sys_step w b) as [w1 e]. cbn [fst snd] in *. apply (stuck_tr c t ref junk w); tauto. }
    assert (C : 1 <= c) by (destruct c; [contradiction|lia]).
    assert (HD : forall x x0 o, client w c = Some (CRunning x0) -> cr_sub x = t -> cr_read x = 0 -> (forall m, o <> Deliver m) -> stuck_stage t (client (fst (handle opf crit oc c x o w)) c) /\ deliveries (cops c (snd (handle opf crit oc c x o w))) = []).
    { intros x x0 o CL X1 X2 ND. unfold handle. destruct (opf c (cr_st x) o) as [s r]. cbn [fst snd]. split.
      - destruct (good_ret crit r); [rewrite (client_some c _ w _ CL); exact (conj X1 X2)|]. assert (CL' : client (serve oc (Cancel (cr_sub x)) w) c = Some (CRunning x0)) by (destruct c as [|k]; [lia|]; cbn [client]; rewrite (proj2 (serve_tr _ w)); exact CL). rewrite (client_some c _ _ _ CL'). exact Logic.I.
      - cbn [cops flat_map]. rewrite Nat.eqb_refl. destruct o as [m| | |]; [exfalso; exact (ND m eq_refl)|reflexivity|reflexivity|reflexivity]. }
    assert (SC : forall a' st st0, client w c = Some st0 -> client (set_client c st (serve oc a' w)) c = Some st).
    { intros a' st st0 CL. apply (client_some c st _ st0). destruct c as [|k]; [lia|]. cbn [client]. rewrite (proj2 (serve_tr _ w)). exact CL. }
    destruct b as [u|d|d|d|d|d|d|d|d|d]; cbn [act_client] in E; [lia|subst d..]; cbn [Clients20.sys_step]; unfold stuck_stage in S1; (destruct (client w c) as [[|u|su u|x|x r|]|] eqn:CL; try contradiction; try (cbn [fst snd]; rewrite CL; cbn; auto; fail)); unfold ask.
    + destruct (was_joined u (sy_tr w)); [|cbn [fst snd]; rewrite CL; cbn; auto]. cbn [fst snd]. rewrite (SC _ _ _ eq_refl). cbn. auto.
    + destruct (was_issued u (sy_tr w)) as [i|]; [|cbn [fst snd]; rewrite CL; cbn; auto]. destruct (start c i) as [s|]; cbn [fst snd]; [rewrite (client_some c _ w _ CL)|rewrite (SC _ _ _ eq_refl)]; cbn; auto.
    + destruct S1 as [X1 X2]. rewrite X1, X2. destruct (nth_error (gots t (sy_tr w)) 0) as [[k e]|] eqn:NE; [|cbn [fst snd]; rewrite CL; cbn; auto].
      destruct (reach_fate _ _ _ _ (oi_exec _ _ _ _ _ _ _ _ _ _ _ I)) as [M _]. rewrite (first_got _ _ _ _ _ _ _ M S3 S4 NE), PJ. cbn [fst snd]. rewrite (SC _ _ _ eq_refl). cbn. auto.
    + destruct S1 as [X1 X2]. destruct (wants (cr_st x)); [apply (HD x x Proceed eq_refl X1 X2); discriminate|cbn [fst snd]; rewrite CL; cbn; auto].
    + destruct S1 as [X1 X2]. destruct (queue (cr_st x)); [cbn [fst snd]; rewrite CL; cbn; auto|]. destruct (opf c (cr_st x) Drain) as [s r]. cbn [fst snd]. rewrite (client_some c _ w _ CL). cbn. rewrite Nat.eqb_refl. auto.
    + destruct S1 as [X1 X2]. destruct (cr_out x) as [|m q]; [cbn [fst snd]; rewrite CL; cbn; auto|]. destruct (cr_post x); [cbn [fst snd]; rewrite CL; cbn; auto|]. cbn [fst snd]. rewrite (SC _ _ _ eq_refl). cbn. auto.
    + destruct S1 as [X1 X2]. destruct (cr_post x) as [u|]; [|cbn [fst snd]; rewrite CL; cbn; auto]. destruct (was_published u (sy_tr w)); cbn [fst snd]; [rewrite (client_some c _ w _ CL)|rewrite CL]; cbn; auto.
    + destruct S1 as [X1 X2]. destruct (may_leave fin queue x); [|cbn [fst snd]; rewrite CL; cbn; auto]. destruct (opf c (cr_st x) Pick) as [s r]. cbn [fst snd]. rewrite (SC _ _ _ eq_refl). cbn. rewrite Nat.eqb_refl. auto.
  - assert (FN : Forall (fun x => ev_client x <> c) (snd (sys_step w b))) by (apply (Forall_impl _ (fun x (X : ev_client x = act_client b) => eq_ind_r (fun z => z <> c) (not_eq_sym N) X) F)).
    destruct (other c _ FN) as (E1 & _). specialize (OT c N). destruct (sys_step w b) as [w1 e]. cbn [fst snd] in *. apply (stuck_tr c t ref junk w); [exact K|exact T|rewrite OT; exact S1|rewrite E1; reflexivity].
Qed.
Theorem stuck_exec (extra : string -> Prop) acts : forall l w own log c t ref junk, par junk = None -> (forall s, In s (foreign acts) -> extra s) -> OInv extra l w log -> stuck c t ref junk w log ->
  stuck c t ref junk (fst (fst (open_exec (w, own) acts))) (log ++ snd (open_exec (w, own) acts)).
Proof.
  induction acts as [|a acts IH]; intros l w own log c t ref junk PJ X I K; [cbn; rewrite app_nil_r; exact K|]. change (a :: acts) with ([a] ++ acts) in X. rewrite foreign_app in X.
  assert (XA : forall s, In s (foreign [a]) -> extra s) by (intros s Y; apply X, in_app_iff; left; exact Y). assert (XB : forall s, In s (foreign acts) -> extra s) by (intros s Y; apply X, in_app_iff; right; exact Y).
  destruct (oinv_step extra l w own log a XA I) as [l1 I1]. pose proof (stuck_step extra l c t ref junk w own log a PJ I K) as K1. cbn [Clients20Open.open_exec]. destruct (open_step (w, own) a) as [[w1 own1] e1]. cbn [fst snd] in *.
  pose proof (IH l1 w1 own1 (log ++ e1) c t ref junk PJ XB I1 K1) as K2. destruct (open_exec (w1, own1) acts) as [y2 e2]. cbn [fst snd] in *. rewrite <- app_assoc in K2. exact K2.
Qed.
End Open.

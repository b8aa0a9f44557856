(** What holds in every execution of the clients and the relay about the messages themselves, whatever the machines do and
    whatever numbers were given out: every client posts what its machine handed over, in order and once, and reads its
    room's messages in the room's order, each once. *)
From Coq Require Import String ZArith Bool Lia Permutation Arith List.
From Verif Require Import Outcome Mp MpProofs Stores RoundSM SmSpec SmProofs SmTheory Network NetLog Manager20 M20Spec Manager20Proofs Manager20Facts Manager20Fate Clients20 Clients20Own.
Import ListNotations.
Local Open Scope nat_scope.

(** [sub a b]: a is b with some elements left out *)
Inductive sub {A} : list A -> list A -> Prop :=
  | sub_nil : sub [] []
  | sub_skip x a b : sub a b -> sub a (x :: b)
  | sub_take x a b : sub a b -> sub (x :: a) (x :: b).
Lemma sub_refl {A} (l : list A) : sub l l. Proof. induction l; constructor; assumption. Qed.
Lemma sub_empty {A} (l : list A) : sub [] l. Proof. induction l; constructor; assumption. Qed.
Lemma sub_app {A} (a b a' b' : list A) : sub a b -> sub a' b' -> sub (a ++ a') (b ++ b').
Proof. intros H H'. induction H; cbn; [exact H'|constructor; assumption|constructor; assumption]. Qed.
Lemma sub_in {A} (a b : list A) x : sub a b -> In x a -> In x b.
Proof. induction 1; intros X; [exact X|right; auto|destruct X as [->|X]; [left; reflexivity|right; auto]]. Qed.
Lemma sub_nodup {A} (a b : list A) : sub a b -> NoDup b -> NoDup a.
Proof. induction 1; intros N; [exact N|inversion N; auto|]. inversion N as [|? ? N1 N2]; subst. constructor; [|auto]. intros X. apply N1. eapply sub_in; eauto. Qed.
Lemma sub_length {A} (a b : list A) : sub a b -> length a <= length b.
Proof. induction 1; cbn; lia. Qed.
Lemma sub_trans {A} (a b c : list A) : sub a b -> sub b c -> sub a c.
Proof.
  intros H1 H2. revert a H1. induction H2 as [|x b c H IH|x b c H IH]; intros a H1; [exact H1|constructor; auto|]. inversion H1; subst; [apply sub_skip|apply sub_take]; auto.
Qed.
Lemma sub_map {A B} (f : A -> B) a b : sub a b -> sub (map f a) (map f b).
Proof. induction 1; cbn; constructor; assumption. Qed.
Lemma sub_unmap {A B} (f : A -> B) (g : B -> option A) a b : (forall x, g (f x) = Some x) -> sub (map f a) (map f b) -> sub a b.
Proof.
  intros G. revert a. induction b as [|y b IH]; intros a H; destruct a as [|x a]; cbn [map] in H; [constructor|inversion H|apply sub_empty|]. inversion H as [|z u v H1 E1 E2|z u v H1 E1 E2].
  - apply sub_skip, IH. exact H1.
  - assert (E : x = y) by (apply (f_equal g) in E1, E2; rewrite !G in *; congruence). subst y. apply sub_take, IH. exact H1.
Qed.

Section Log.
Context {S P B O : Type}.
Context (opf : nat -> S -> op B -> S * ret P B O) (wants fin : S -> bool) (queue : S -> list (msg B)).
Context (start : nat -> Z -> option S) (crit : sm_error P -> bool) (ser : msg B -> string) (par : string -> option (msg B)) (oc : bool) (room_id : string).
Hypothesis Hser : forall m, par (ser m) = Some m.
Hypothesis Hdr : forall i s o, o <> Drain -> drained [snd (opf i s o)] = [].
Notation sys := (sys S P B O).
Notation stage := (stage S P B O).
Notation running := (running S B).
Notation cev := (cev P B O).
Notation sys_step := (sys_step opf wants fin queue start crit ser par oc room_id).
Notation sys_exec := (sys_exec opf wants fin queue start crit ser par oc room_id).
Notation cops := (@cops P B O).
Notation crets := (@crets P B O).

(** The requests of all clients in order; the request numbered t is task t of the server *)
Definition asked (log : list cev) : list (nat * req) := flat_map (fun e => match e with EAsk c q => [(c, q)] | _ => [] end) log.
(** Is request t a message posted by client c? *)
Definition mine (c : nat) (a : list (nat * req)) (t : nat) : bool := match nth_error a t with Some (c', RPub _) => c' =? c | _ => false end.
Definition text (a : list (nat * req)) (t : nat) : string := match nth_error a t with Some (_, RPub s) => s | _ => EmptyString end.
Definition ptasks (c : nat) (a : list (nat * req)) : list nat := filter (mine c a) (seq 0 (length a)).
Definition pubt (c : nat) (a : list (nat * req)) (tr : list obs) : list nat := filter (mine c a) (pub_tasks tr).
Definition heard (i : Z) (l : list string) : list (msg B) :=
  flat_map (fun s => match par s with Some m => if for_me i m then [m] else [] | None => [] end) l.

Definition quiet (log : list cev) (c : nat) : Prop := cops c log = [] /\ drained (crets c log) = [] /\ ptasks c (asked log) = [].
Definition lg_run (tr : list obs) (log : list cev) (c : nat) (x : running) : Prop :=
  (exists ref, In (OJoined (cr_sub x) room_id ref None) tr) /\
  cr_read x <= length (gots (cr_sub x) tr) /\
  deliveries (cops c log) = heard (cr_idx x) (firstn (cr_read x) (map snd (gots (cr_sub x) tr))) /\
  map ser (drained (crets c log)) = map (text (asked log)) (ptasks c (asked log)) ++ map ser (cr_out x) /\
  exists pend, ptasks c (asked log) = pubt c (asked log) tr ++ pend /\ (pend = [] \/ exists t, cr_post x = Some t /\ pend = [t]).
Definition lg_ok (tr : list obs) (log : list cev) (c : nat) (st : stage) : Prop :=
  match st with
  | CIdle => quiet log c
  | CSubscribing t => quiet log c /\ nth_error (asked log) t = Some (c, RSub None)
  | CIssuing sub t => quiet log c /\ exists ref, In (OJoined sub room_id ref None) tr
  | CRunning x | CDone x _ => lg_run tr log c x
  | CFailed => quiet log c \/ exists x, lg_run tr log c x
  end.
Record XInv (l : list act) (w : sys) (log : list cev) : Prop := {
  xi_exec : exec oc db_empty l = (sy_db w, sy_tr w);
  xi_reqs : reqs l = map (fun a => (room_id, snd a)) (asked log);
  xi_cl : forall c st, client w c = Some st -> lg_ok (sy_tr w) log c st;
  xi_none : forall c, client w c = None -> quiet log c }.

Lemma asked_app a b : asked (a ++ b) = asked a ++ asked b. Proof. apply flat_map_app. Qed.
Lemma mine_grow c a b t : t < length a -> mine c (a ++ b) t = mine c a t.
Proof. intros L. unfold mine. rewrite nth_error_app1 by exact L. reflexivity. Qed.
Lemma text_grow a b t : t < length a -> text (a ++ b) t = text a t.
Proof. intros L. unfold text. rewrite nth_error_app1 by exact L. reflexivity. Qed.
Lemma mine_lt c a t : mine c a t = true -> t < length a.
Proof. unfold mine. destruct (nth_error a t) eqn:E; [|discriminate]. intros _. apply nth_error_Some. congruence. Qed.
Lemma ptasks_snoc c a x : ptasks c (a ++ [x]) = ptasks c a ++ (if mine c (a ++ [x]) (length a) then [length a] else []).
Proof.
  unfold ptasks. rewrite app_length. cbn [length]. rewrite Nat.add_1_r, seq_S, filter_app. cbn [plus filter]. f_equal. apply filter_ext_in. intros t T. apply in_seq in T. apply mine_grow. lia.
Qed.
Lemma in_ptasks c a t : In t (ptasks c a) <-> mine c a t = true.
Proof. unfold ptasks. rewrite filter_In. split; [tauto|]. intros M. split; [|exact M]. apply mine_lt in M. apply in_seq. lia. Qed.
Lemma ptasks_nodup c a : NoDup (ptasks c a). Proof. apply NoDup_filter, seq_NoDup. Qed.
Lemma text_ptasks c a b : map (text (a ++ b)) (ptasks c a) = map (text a) (ptasks c a).
Proof. apply map_ext_in. intros t T. apply in_ptasks, mine_lt in T. apply text_grow. exact T. Qed.

(** Facts about the trace *)
Definition pubs_fit (a : list (nat * req)) (tr : list obs) : Prop :=
  NoDup (pub_tasks tr) /\ forall t rid r s, In (OPublished t rid r s) tr -> exists c, nth_error a t = Some (c, RPub s).
Lemma xi_fit l tr db log : exec oc db_empty l = (db, tr) -> reqs l = map (fun a => (room_id, snd a)) (asked log) -> pubs_fit (asked log) tr.
Proof.
  intros E R. destruct (reach_fate _ _ _ _ E) as [_ F]. split; [exact (ft_once _ _ _ _ F)|]. intros t rid r s X. pose proof (ft_obs _ _ _ _ F _ X) as Q. cbn in Q. rewrite R in Q. rewrite nth_error_map in Q.
  destruct (nth_error (asked log) t) as [[c q]|]; [|discriminate]. cbn in Q. injection Q as _ <-. eauto.
Qed.
Lemma in_pub_tasks t tr : In t (pub_tasks tr) <-> exists rid r s, In (OPublished t rid r s) tr.
Proof.
  unfold pub_tasks. rewrite in_flat_map. split.
  - intros (o & X & Y). destruct o; try contradiction. destruct Y as [->|[]]. eauto.
  - intros (rid & r & s & X). eexists. split; [exact X|left; reflexivity].
Qed.
Lemma fit_lt a tr t : pubs_fit a tr -> In t (pub_tasks tr) -> t < length a.
Proof. intros [_ F] X. apply in_pub_tasks in X. destruct X as (rid & r & s & X). apply F in X. destruct X as [c X]. apply nth_error_Some. congruence. Qed.
Lemma pubt_grow c a b tr : pubs_fit a tr -> pubt c (a ++ b) tr = pubt c a tr.
Proof. intros F. apply filter_ext_in. intros t T. apply mine_grow. exact (fit_lt a tr t F T). Qed.

(** Growing trace *)
Lemma run_tr tr o log c x : pubs_fit (asked log) (tr ++ o) -> lg_run tr log c x -> lg_run (tr ++ o) log c x.
Proof.
  intros [ND F] ((ref & J) & RL & DE & DR & pend & PT & PE). split; [exists ref; apply in_app_iff; auto|].
  rewrite gots_app, map_app, app_length. split; [lia|]. split.
  { rewrite DE. f_equal. rewrite firstn_app, map_length. replace (cr_read x - length (gots (cr_sub x) tr)) with 0 by lia. cbn [firstn]. rewrite app_nil_r. reflexivity. }
  split; [exact DR|]. unfold pubt in *. rewrite pub_tasks_app in *. rewrite filter_app.
  set (new := filter (mine c (asked log)) (pub_tasks o)).
  assert (NI : forall t, In t new -> In t pend).
  { intros t T. apply filter_In in T. destruct T as [T1 T2]. pose proof T2 as T3. apply in_ptasks in T2. rewrite PT in T2. apply in_app_iff in T2. destruct T2 as [T2|T2]; [exfalso|exact T2].
    apply filter_In in T2. destruct T2 as [T2 _]. clear -ND T1 T2. induction (pub_tasks tr) as [|u v IH]; [contradiction|]. cbn in ND. inversion ND as [|? ? N1 N2]; subst. destruct T2 as [->|T2]; [apply N1, in_app_iff; auto|auto]. }
  assert (NN : NoDup new) by (apply NoDup_filter; clear -ND; induction (pub_tasks tr) as [|u v IH]; [exact ND|]; inversion ND; auto).
  destruct PE as [->|(t & PO & ->)].
  - exists []. destruct new as [|u v]; [rewrite !app_nil_r in *; auto|]. destruct (NI u (or_introl eq_refl)).
  - destruct new as [|u [|v y]].
    + exists [t]. rewrite app_nil_r. eauto.
    + exists []. destruct (NI u (or_introl eq_refl)) as [->|[]]. rewrite app_nil_r. auto.
    + exfalso. destruct (NI u (or_introl eq_refl)) as [<-|[]]. destruct (NI v (or_intror (or_introl eq_refl))) as [<-|[]]. inversion NN as [|? ? N1 _]. apply N1. left. reflexivity.
Qed.
Lemma lg_tr tr o log c st : pubs_fit (asked log) (tr ++ o) -> lg_ok tr log c st -> lg_ok (tr ++ o) log c st.
Proof.
  intros F. destruct st as [|t|su t|x|x r|]; cbn [lg_ok]; auto using run_tr.
  - intros [Q (ref & J)]. split; [exact Q|]. exists ref. apply in_app_iff. auto.
  - intros [Q|(x & Q)]; [left; exact Q|right; exists x; apply run_tr; assumption].
Qed.
(** Somebody else's events *)
Lemma asked_other c e : Forall (fun x => ev_client x <> c) e -> forall t q, nth_error (asked e) t <> Some (c, q).
Proof.
  intros F t q E. apply nth_error_In in E. apply in_flat_map in E. destruct E as (ev & X & Y). rewrite Forall_forall in F. apply F in X. destruct ev; try contradiction. destruct Y as [[= -> ->]|[]]. apply X. reflexivity.
Qed.
Lemma ptasks_other c a b : (forall t q, nth_error b t <> Some (c, q)) -> ptasks c (a ++ b) = ptasks c a.
Proof.
  intros N. unfold ptasks. rewrite app_length, seq_app, filter_app. assert (Z : filter (mine c (a ++ b)) (seq (0 + length a) (length b)) = []).
  { destruct (filter _ _) as [|u v] eqn:E; [reflexivity|exfalso]. assert (X : In u (u :: v)) by (left; reflexivity). rewrite <- E in X. apply filter_In in X. destruct X as [X M]. apply in_seq in X. unfold mine in M.
    rewrite nth_error_app2 in M by lia. destruct (nth_error b (u - length a)) as [[c' q]|] eqn:NB; [|discriminate]. destruct q; try discriminate. apply Nat.eqb_eq in M. subst c'. exact (N _ _ NB). }
  rewrite Z, app_nil_r. apply filter_ext_in. intros t T. apply in_seq in T. apply mine_grow. lia.
Qed.
Lemma quiet_other log e c : Forall (fun x => ev_client x <> c) e -> quiet log c -> quiet (log ++ e) c.
Proof.
  intros F (Q1 & Q2 & Q3). destruct (other c e F) as (E1 & E2 & _). unfold quiet. rewrite cops_app, crets_app, E1, E2, !app_nil_r, asked_app, (ptasks_other c _ _ (asked_other c e F)). auto.
Qed.
Lemma run_other tr log e c x : pubs_fit (asked log) tr -> Forall (fun x => ev_client x <> c) e -> lg_run tr log c x -> lg_run tr (log ++ e) c x.
Proof.
  intros PF F (J & RL & DE & DR & pend & PT & PE). destruct (other c e F) as (E1 & E2 & _). pose proof (asked_other c e F) as AO. unfold lg_run. rewrite cops_app, crets_app, E1, E2, !app_nil_r, asked_app, (ptasks_other c _ _ AO), text_ptasks, (pubt_grow c _ _ tr PF).
  refine (conj J (conj RL (conj DE (conj DR _)))). eauto.
Qed.
Lemma lg_other tr log e c st : pubs_fit (asked log) tr -> Forall (fun x => ev_client x <> c) e -> lg_ok tr log c st -> lg_ok tr (log ++ e) c st.
Proof.
  intros PF F. destruct st as [|t|su t|x|x r|]; cbn [lg_ok]; auto using run_other, quiet_other.
  - intros [Q A]. split; [auto using quiet_other|]. rewrite asked_app. rewrite nth_error_app1 by (apply nth_error_Some; congruence). exact A.
  - intros [Q A]. split; [auto using quiet_other|exact A].
  - intros [Q|(x & Q)]; [left; auto using quiet_other|right; exists x; auto using run_other].
Qed.

(** One action of client c *)
Lemma log_step l w log c st st' db' o la e :
  XInv l w log -> client w c = Some st -> Forall (fun x => ev_client x = c) e ->
  exec oc db_empty (l ++ la) = (db', sy_tr w ++ o) -> reqs la = map (fun a => (room_id, snd a)) (asked e) ->
  lg_ok (sy_tr w) (log ++ e) c st' ->
  XInv (l ++ la) (set_client c st' {| sy_db := db'; sy_tr := sy_tr w ++ o; sy_cl := sy_cl w |}) (log ++ e).
Proof.
  intros I CL F EX RQ OK. assert (C : 1 <= c) by (destruct c; [discriminate|lia]). set (w1 := {| sy_db := db'; sy_tr := sy_tr w ++ o; sy_cl := sy_cl w |}).
  assert (EC : forall j, client w1 j = client w j) by (intros [|k]; reflexivity).
  assert (RQ' : reqs (l ++ la) = map (fun a => (room_id, snd a)) (asked (log ++ e))) by (rewrite reqs_app, asked_app, map_app, (xi_reqs _ _ _ I), RQ; reflexivity).
  pose proof (xi_fit _ _ _ _ (xi_exec _ _ _ I) (xi_reqs _ _ _ I)) as PF. pose proof (xi_fit _ _ _ _ EX RQ') as PF'.
  assert (NO : forall j, j <> c -> Forall (fun x => ev_client x <> j) e) by (intros j N; apply (Forall_impl _ (fun x (X : ev_client x = c) => eq_ind_r (fun y => y <> j) (not_eq_sym N) X) F)).
  constructor; cbn [sy_db sy_tr set_client w1].
  - exact EX.
  - exact RQ'.
  - intros j st1 E. change (client (set_client c st' w1) j = Some st1) in E. apply lg_tr; [exact PF'|]. destruct (Nat.eq_dec j c) as [->|N].
    + rewrite (client_some c st' w1 st) in E by (rewrite EC; exact CL). injection E as <-. exact OK.
    + rewrite (client_other c st' w1 j C N), EC in E. apply lg_other; [exact PF|exact (NO j N)|]. exact (xi_cl _ _ _ I j st1 E).
  - intros j E. change (client (set_client c st' w1) j = None) in E. destruct (Nat.eq_dec j c) as [->|N]; [rewrite (client_some c st' w1 st) in E by (rewrite EC; exact CL); discriminate|].
    rewrite (client_other c st' w1 j C N), EC in E. apply quiet_other; [exact (NO j N)|exact (xi_none _ _ _ I j E)].
Qed.
Lemma serve_log l w log a : XInv l w log -> exists db' o, serve oc a w = {| sy_db := db'; sy_tr := sy_tr w ++ o; sy_cl := sy_cl w |} /\ exec oc db_empty (l ++ [a]) = (db', sy_tr w ++ o).
Proof.
  intros I. unfold serve. destruct (step oc (sy_db w) a) as [d o] eqn:E. exists d, o. split; [reflexivity|]. rewrite Manager20Facts.exec_app, (xi_exec _ _ _ I). cbn [exec]. rewrite E. rewrite app_nil_r. reflexivity.
Qed.
Lemma log_local l w log c st st' e : XInv l w log -> client w c = Some st -> Forall (fun x => ev_client x = c) e -> asked e = [] -> lg_ok (sy_tr w) (log ++ e) c st' -> XInv l (set_client c st' w) (log ++ e).
Proof.
  intros I CL F A OK. rewrite (same_w w) at 1. rewrite <- (app_nil_r l). apply (log_step l w log c st); [exact I|exact CL|exact F| |rewrite A; reflexivity|exact OK].
  rewrite !app_nil_r. exact (xi_exec _ _ _ I).
Qed.
Lemma log_served l w log c st st' a e : XInv l w log -> client w c = Some st -> Forall (fun x => ev_client x = c) e ->
  reqs [a] = map (fun a => (room_id, snd a)) (asked e) -> lg_ok (sy_tr w) (log ++ e) c st' -> XInv (l ++ [a]) (set_client c st' (serve oc a w)) (log ++ e).
Proof.
  intros I CL F RQ OK. destruct (serve_log l w log a I) as (db' & o & -> & EX). apply (log_step l w log c st); auto.
Qed.
Lemma tasks_asked l w log : XInv l w log -> next_task w = length (asked log).
Proof. intros I. destruct (reach_fate _ _ _ _ (xi_exec _ _ _ I)) as [_ F]. unfold next_task. rewrite (ft_len _ _ _ _ F), (xi_reqs _ _ _ I), map_length. reflexivity. Qed.

Lemma call_log c (log : list cev) o r : o <> Pick -> cops c (log ++ [ECall c o r]) = cops c log ++ [o] /\ crets c (log ++ [ECall c o r]) = crets c log ++ [r] /\ asked (log ++ [ECall c o r]) = asked log.
Proof. intros N. rewrite cops_app, crets_app, asked_app. cbn. rewrite Nat.eqb_refl. destruct o; try contradiction; cbn [app]; rewrite ?app_nil_r; auto. Qed.
Lemma quiet_event log e c : cops c e = [] -> crets c e = [] -> asked e = [] -> quiet log c -> quiet (log ++ e) c.
Proof. intros E1 E2 E3 (Q1 & Q2 & Q3). unfold quiet. rewrite cops_app, crets_app, asked_app, E1, E2, E3, !app_nil_r. auto. Qed.
Lemma quiet_ask log c q : (forall s, q <> RPub s) -> quiet log c -> quiet (log ++ [EAsk c q]) c.
Proof.
  intros N (Q1 & Q2 & Q3). unfold quiet. rewrite cops_app, crets_app, asked_app. cbn [cops crets asked flat_map Clients20Own.cops Clients20Own.crets app]. rewrite !app_nil_r, ptasks_snoc, Q3. refine (conj Q1 (conj Q2 _)). cbn [app]. unfold mine.
  rewrite nth_error_app2, Nat.sub_diag by lia. cbn [nth_error]. destruct q; try reflexivity. exfalso. exact (N m eq_refl).
Qed.
Lemma heard_snoc i l k s : nth_error l k = Some s -> heard i (firstn (Datatypes.S k) l) = heard i (firstn k l) ++ heard i [s].
Proof.
  intros E. assert (F : firstn (Datatypes.S k) l = firstn k l ++ [s]).
  { revert k E. induction l as [|y l IH]; intros [|k] E; cbn in E; try discriminate; [injection E as ->; reflexivity|]. cbn [firstn app]. f_equal. exact (IH k E). }
  rewrite F. apply flat_map_app.
Qed.

Lemma log_handle l w log c x x0 o : XInv l w log -> client w c = Some (CRunning x0) -> o <> Pick -> o <> Drain ->
  cr_sub x = cr_sub x0 -> cr_idx x = cr_idx x0 -> cr_out x = cr_out x0 -> cr_post x = cr_post x0 -> cr_read x <= length (gots (cr_sub x) (sy_tr w)) ->
  deliveries (cops c log) ++ deliveries [o] = heard (cr_idx x) (firstn (cr_read x) (map snd (gots (cr_sub x) (sy_tr w)))) ->
  exists l', XInv l' (fst (handle opf crit oc c x o w)) (log ++ snd (handle opf crit oc c x o w)).
Proof.
  intros I CL NP ND E1 E2 E3 E4 RL DE. pose proof (xi_cl _ _ _ I c _ CL) as (J & _ & _ & DR & PD). cbn [lg_ok] in *.
  assert (NEW : forall s, lg_run (sy_tr w) (log ++ [ECall c o (snd (opf c (cr_st x) o))]) c (with_st x s)).
  { intros s. destruct (call_log c log o (snd (opf c (cr_st x) o)) NP) as (C1 & C2 & C3). unfold lg_run. rewrite C1, C2, C3, deliveries_app, drained_app, (Hdr _ _ _ ND), app_nil_r. cbn [with_st cr_sub cr_idx cr_read cr_out cr_post].
    rewrite E3, E4. split; [rewrite E1; exact J|]. refine (conj RL (conj DE (conj DR PD))). }
  unfold handle. destruct (opf c (cr_st x) o) as [s r]. cbn [fst snd] in *. destruct (good_ret crit r).
  - exists l. apply (log_local l w log c (CRunning x0)); [exact I|exact CL|constructor; [reflexivity|constructor]|reflexivity|]. cbn [lg_ok]. apply NEW.
  - eexists. apply (log_served l w log c (CRunning x0)); [exact I|exact CL|constructor; [reflexivity|constructor]|reflexivity|]. cbn [lg_ok]. right. exists (with_st x s). apply NEW.
Qed.
Lemma log_act l w log a : XInv l w log -> exists l', XInv l' (fst (sys_step w a)) (log ++ snd (sys_step w a)).
Proof.
  intros I. assert (NOP : exists l', XInv l' (fst (w, @nil cev)) (log ++ snd (w, @nil cev))) by (exists l; cbn [fst snd]; rewrite app_nil_r; exact I).
  destruct a as [t|c|c|c|c|c|c|c|c|c]; cbn [Clients20.sys_step].
  - cbn [fst snd]. rewrite app_nil_r. destruct (serve_log l w log (Run t) I) as (db' & o & -> & EX). exists (l ++ [Run t]).
    assert (RQ : reqs (l ++ [Run t]) = map (fun a => (room_id, snd a)) (asked log)) by (rewrite reqs_app; cbn; rewrite app_nil_r; exact (xi_reqs _ _ _ I)).
    constructor; cbn [sy_db sy_tr]; [exact EX|exact RQ| |intros c E; exact (xi_none _ _ _ I c E)]. intros c st E. change (client w c = Some st) in E. apply lg_tr; [exact (xi_fit _ _ _ _ EX RQ)|exact (xi_cl _ _ _ I c st E)].
  - destruct (client w c) as [[| | | | |]|] eqn:CL; try exact NOP. eexists. unfold ask. cbn [fst snd]. eapply log_served; [exact I|exact CL|constructor; [reflexivity|constructor]|reflexivity|].
    cbn [lg_ok]. split; [apply quiet_ask; [discriminate|exact (xi_cl _ _ _ I c _ CL)]|]. rewrite (tasks_asked _ _ _ I), asked_app, nth_error_app2, Nat.sub_diag by lia. reflexivity.
  - destruct (client w c) as [[|t| | | |]|] eqn:CL; try exact NOP. destruct (was_joined t (sy_tr w)) eqn:WJ; [|exact NOP]. pose proof (xi_cl _ _ _ I c _ CL) as [Q A]. eexists. unfold ask. cbn [fst snd]. eapply log_served; [exact I|exact CL|constructor; [reflexivity|constructor]|reflexivity|].
    cbn [lg_ok]. split; [apply quiet_ask; [discriminate|exact Q]|]. unfold was_joined in WJ. apply existsb_exists in WJ. destruct WJ as (o & X & Y). destruct o as [u rid ref last| | | | | |]; try discriminate. apply Nat.eqb_eq in Y. subst u.
    destruct (reach_fate _ _ _ _ (xi_exec _ _ _ I)) as [_ F]. pose proof (ft_obs _ _ _ _ F _ X) as QQ. cbn in QQ. rewrite (xi_reqs _ _ _ I), nth_error_map, A in QQ. cbn in QQ. injection QQ as <- <-. exists ref. exact X.
  - destruct (client w c) as [[| |su t| | |]|] eqn:CL; try exact NOP. destruct (was_issued t (sy_tr w)) as [i|]; [|exact NOP]. pose proof (xi_cl _ _ _ I c _ CL) as [Q (ref & J)].
    assert (Q' : quiet (log ++ [EIndex c i]) c) by (apply quiet_event; auto).
    destruct (start c i) as [s|]; cbn [fst snd].
    + exists l. eapply log_local; [exact I|exact CL|constructor; [reflexivity|constructor]|reflexivity|]. cbn [lg_ok]. destruct Q' as (Q1 & Q2 & Q3). unfold lg_run. cbn [cr_sub cr_idx cr_read cr_out cr_post]. rewrite Q1, Q2, Q3.
      refine (conj (ex_intro _ ref J) (conj (Nat.le_0_l _) (conj eq_refl (conj eq_refl _)))). exists []. rewrite app_nil_r. split; [|left; reflexivity].
      unfold pubt. destruct (filter _ _) as [|u v] eqn:E; [reflexivity|exfalso]. assert (X : In u (u :: v)) by (left; reflexivity). rewrite <- E in X. apply filter_In in X. destruct X as [_ X]. apply in_ptasks in X. rewrite Q3 in X. contradiction.
    + eexists. eapply log_served; [exact I|exact CL|constructor; [reflexivity|constructor]|reflexivity|]. cbn [lg_ok]. left. exact Q'.
  - destruct (client w c) as [[| | |x| |]|] eqn:CL; try exact NOP. destruct (nth_error (gots (cr_sub x) (sy_tr w)) (cr_read x)) as [[k e]|] eqn:NE; [|exact NOP]. pose proof (xi_cl _ _ _ I c _ CL) as OW. cbn [lg_ok] in OW.
    assert (RL : Datatypes.S (cr_read x) <= length (gots (cr_sub x) (sy_tr w))) by (assert (L : cr_read x < length (gots (cr_sub x) (sy_tr w))) by (apply nth_error_Some; congruence); lia).
    pose proof (map_nth_error snd _ _ NE) as NE'. cbn [snd] in NE'. pose proof (heard_snoc (cr_idx x) _ _ _ NE') as HS. cbn [heard flat_map] in HS. rewrite app_nil_r in HS.
    destruct OW as (J & RL0 & DE & DR & PD). destruct (par e) as [m|] eqn:PE.
    + destruct (for_me (cr_idx x) m) eqn:FM.
      * apply (log_handle l w log c (with_read x) x (Deliver m) I CL); try reflexivity; [discriminate|discriminate|exact RL|]. cbn [with_read cr_idx cr_read cr_sub]. rewrite DE. symmetry. exact HS.
      * exists l. cbn [fst snd]. eapply log_local; [exact I|exact CL|constructor|reflexivity|]. rewrite app_nil_r. cbn [lg_ok]. unfold lg_run. cbn [with_read cr_idx cr_read cr_sub cr_out cr_post].
        refine (conj J (conj RL (conj _ (conj DR PD)))). rewrite DE. rewrite app_nil_r in HS. symmetry. exact HS.
    + eexists. cbn [fst snd]. eapply log_served; [exact I|exact CL|constructor|reflexivity|]. rewrite app_nil_r. cbn [lg_ok]. right. exists x. exact (conj J (conj RL0 (conj DE (conj DR PD)))).
  - destruct (client w c) as [[| | |x| |]|] eqn:CL; try exact NOP. destruct (wants (cr_st x)); [|exact NOP]. pose proof (xi_cl _ _ _ I c _ CL) as (J & RL0 & DE & _).
    apply (log_handle l w log c x x Proceed I CL); try reflexivity; [discriminate|discriminate|exact RL0|]. cbn [deliveries flat_map]. rewrite app_nil_r. exact DE.
  - destruct (client w c) as [[| | |x| |]|] eqn:CL; try exact NOP. destruct (queue (cr_st x)) as [|q0 q]; [exact NOP|]. pose proof (xi_cl _ _ _ I c _ CL) as (J & RL & DE & DR & PD). cbn [lg_ok] in *.
    destruct (opf c (cr_st x) Drain) as [s r]. cbn [fst snd] in *. exists l. eapply log_local; [exact I|exact CL|constructor; [reflexivity|constructor]|reflexivity|]. cbn [lg_ok].
    assert (NP : @Drain B <> Pick) by discriminate. destruct (call_log c log Drain r NP) as (C1 & C2 & C3). unfold lg_run. rewrite C1, C2, C3, deliveries_app, drained_app. cbn [with_out with_st cr_sub cr_idx cr_read cr_out cr_post].
    refine (conj J (conj RL (conj _ (conj _ PD)))); [cbn [deliveries flat_map]; rewrite app_nil_r; exact DE|]. rewrite !map_app, DR, app_assoc. reflexivity.
  - destruct (client w c) as [[| | |x| |]|] eqn:CL; try exact NOP. destruct (cr_out x) as [|m q] eqn:EO; [exact NOP|]. destruct (cr_post x) eqn:EP; [exact NOP|]. pose proof (xi_cl _ _ _ I c _ CL) as (J & RL & DE & DR & pend & PT & PE). cbn [lg_ok] in *.
    pose proof (xi_fit _ _ _ _ (xi_exec _ _ _ I) (xi_reqs _ _ _ I)) as PF. eexists. unfold ask. cbn [fst snd]. eapply log_served; [exact I|exact CL|constructor; [reflexivity|constructor]|reflexivity|].
    cbn [lg_ok]. unfold lg_run. rewrite cops_app, crets_app, asked_app. cbn [Clients20Own.cops Clients20Own.crets asked flat_map app]. rewrite !app_nil_r. cbn [with_out cr_sub cr_idx cr_read cr_out cr_post].
    assert (MN : mine c (asked log ++ [(c, RPub (ser m))]) (length (asked log)) = true) by (unfold mine; rewrite nth_error_app2, Nat.sub_diag by lia; cbn [nth_error]; apply Nat.eqb_refl).
    rewrite ptasks_snoc, MN, (pubt_grow c _ _ _ PF), map_app, text_ptasks. refine (conj J (conj RL (conj DE (conj _ _)))).
    + rewrite DR, EO. cbn [map]. rewrite <- app_assoc. cbn [app]. f_equal. f_equal. unfold text. rewrite nth_error_app2, Nat.sub_diag by lia. reflexivity.
    + exists [length (asked log)]. destruct PE as [->|(t & PO & _)]; [|rewrite EP in PO; discriminate]. rewrite PT, app_nil_r. split; [reflexivity|]. right. exists (length (asked log)). rewrite (tasks_asked _ _ _ I). auto.
  - destruct (client w c) as [[| | |x| |]|] eqn:CL; try exact NOP. destruct (cr_post x) as [t|] eqn:EP; [|exact NOP]. destruct (was_published t (sy_tr w)) eqn:WP; [|exact NOP]. exists l. cbn [fst snd]. eapply log_local; [exact I|exact CL|constructor|reflexivity|].
    rewrite app_nil_r. pose proof (xi_cl _ _ _ I c _ CL) as (J & RL & DE & DR & pend & PT & PE). cbn [lg_ok]. unfold lg_run. cbn [with_out cr_sub cr_idx cr_read cr_out cr_post]. refine (conj J (conj RL (conj DE (conj DR _)))). exists pend. split; [exact PT|]. left.
    destruct PE as [PE|(t' & PO & ->)]; [exact PE|exfalso]. rewrite EP in PO. injection PO as <-. pose proof (ptasks_nodup c (asked log)) as ND.
    assert (MT : mine c (asked log) t = true) by (apply in_ptasks; rewrite PT; apply in_app_iff; right; left; reflexivity).
    assert (IT : In t (pubt c (asked log) (sy_tr w))).
    { apply filter_In. split; [|exact MT]. unfold was_published in WP. apply existsb_exists in WP. destruct WP as (o & X & Y). destruct o; try discriminate. apply Nat.eqb_eq in Y. subst. apply in_pub_tasks. eauto. }
    rewrite PT in ND. clear -ND IT. induction (pubt c (asked log) (sy_tr w)) as [|u v IH]; [contradiction|]. cbn in ND. inversion ND as [|? ? N1 N2]; subst. destruct IT as [->|IT]; [apply N1, in_app_iff; right; left; reflexivity|auto].
  - destruct (client w c) as [[| | |x| |]|] eqn:CL; try exact NOP. destruct (may_leave fin queue x) eqn:ML; [|exact NOP]. pose proof (xi_cl _ _ _ I c _ CL) as HR. cbn [lg_ok] in *.
    destruct (opf c (cr_st x) Pick) as [s r] eqn:EP. cbn [fst snd]. eexists. eapply log_served; [exact I|exact CL|constructor; [reflexivity|constructor]|reflexivity|]. cbn [lg_ok].
    unfold lg_run. rewrite cops_app, crets_app, asked_app. cbn [Clients20Own.cops Clients20Own.crets asked flat_map app]. rewrite Nat.eqb_refl. cbn [app]. rewrite !app_nil_r. exact HR.
Qed.
Lemma log_init n : XInv [] (sys_init n) [].
Proof.
  constructor; [reflexivity|reflexivity| |intros c _; unfold quiet; cbn; auto]. intros c st E. destruct c as [|k]; [discriminate|]. cbn [client sys_init sy_cl] in E. apply nth_error_In, repeat_spec in E. subst st. cbn. unfold quiet. auto.
Qed.
Theorem log_reach n acts : exists l, XInv l (fst (sys_exec (sys_init n) acts)) (snd (sys_exec (sys_init n) acts)).
Proof.
  assert (G : forall acts w log l, XInv l w log -> exists l', XInv l' (fst (sys_exec w acts)) (log ++ snd (sys_exec w acts))).
  { clear acts. induction acts as [|a acts IH]; intros w log l I; [exists l; cbn; rewrite app_nil_r; exact I|]. cbn [Clients20.sys_exec]. destruct (log_act l w log a I) as [l1 I1]. destruct (sys_step w a) as [w1 e1]. cbn [fst snd] in I1.
    destruct (IH _ _ _ I1) as [l2 I2]. destruct (sys_exec w1 acts) as [w2 e2]. cbn [fst snd] in *. rewrite <- app_assoc in I2. eauto. }
  exact (G acts _ _ _ (log_init n)).
Qed.

(** The messages of a room with the clients that posted them *)
Definition room_log (a : list (nat * req)) (ref : nat) (tr : list obs) : list (nat * msg B) :=
  flat_map (fun o => match o with OPublished t _ r s => if Nat.eqb r ref then match nth_error a t, par s with Some (c, _), Some m => [(c, m)] | _, _ => [] end else [] | _ => [] end) tr.
Lemma posts_of l w log c : XInv l w log -> exists rest, map ser (drained (crets c log)) = map (text (asked log)) (ptasks c (asked log)) ++ rest.
Proof.
  intros I. assert (Q : quiet log c -> exists rest, map ser (drained (crets c log)) = map (text (asked log)) (ptasks c (asked log)) ++ rest) by (intros (_ & -> & ->); exists []; reflexivity).
  assert (R : forall x, lg_run (sy_tr w) log c x -> exists rest, map ser (drained (crets c log)) = map (text (asked log)) (ptasks c (asked log)) ++ rest) by (intros x (_ & _ & _ & -> & _); eauto).
  destruct (client w c) as [st|] eqn:E; [|exact (Q (xi_none _ _ _ I c E))]. pose proof (xi_cl _ _ _ I c st E) as K. destruct st as [|t|su t|x|x r|]; cbn [lg_ok] in K; [exact (Q K)|exact (Q (proj1 K))|exact (Q (proj1 K))|exact (R x K)|exact (R x K)|].
  destruct K as [K|(x & K)]; eauto.
Qed.
Lemma pend_of l w log c : XInv l w log -> exists pend, ptasks c (asked log) = pubt c (asked log) (sy_tr w) ++ pend.
Proof.
  intros I. assert (Q : quiet log c -> exists pend, ptasks c (asked log) = pubt c (asked log) (sy_tr w) ++ pend).
  { intros (_ & _ & Q3). rewrite Q3. exists []. unfold pubt. destruct (filter _ _) as [|u v] eqn:E; [reflexivity|exfalso]. assert (X : In u (u :: v)) by (left; reflexivity). rewrite <- E in X. apply filter_In in X. destruct X as [_ X]. apply in_ptasks in X. rewrite Q3 in X. contradiction. }
  assert (R : forall x, lg_run (sy_tr w) log c x -> exists pend, ptasks c (asked log) = pubt c (asked log) (sy_tr w) ++ pend) by (intros x (_ & _ & _ & _ & pend & K & _); eauto).
  destruct (client w c) as [st|] eqn:E; [|exact (Q (xi_none _ _ _ I c E))]. pose proof (xi_cl _ _ _ I c st E) as K. destruct st as [|t|su t|x|x r|]; cbn [lg_ok] in K; [exact (Q K)|exact (Q (proj1 K))|exact (Q (proj1 K))|exact (R x K)|exact (R x K)|].
  destruct K as [K|(x & K)]; eauto.
Qed.
Lemma text_par l w log t c : XInv l w log -> mine c (asked log) t = true -> exists m, text (asked log) t = ser m.
Proof.
  intros I M. destruct (posts_of l w log c I) as [rest E]. assert (X : In (text (asked log) t) (map ser (drained (crets c log)))) by (rewrite E; apply in_app_iff; left; apply in_map, in_ptasks, M).
  apply in_map_iff in X. destruct X as (m & X & _). eauto.
Qed.
Lemma room_texts l w log ref : XInv l w log -> map (fun y => ser (snd y)) (room_log (asked log) ref (sy_tr w)) = pubs ref (sy_tr w).
Proof.
  intros I. destruct (xi_fit _ _ _ _ (xi_exec _ _ _ I) (xi_reqs _ _ _ I)) as [_ F].
  assert (G : forall tr, (forall o, In o tr -> In o (sy_tr w)) -> map (fun y => ser (snd y)) (room_log (asked log) ref tr) = pubs ref tr).
  { induction tr as [|o tr IH]; intros IN; [reflexivity|]. change (o :: tr) with ([o] ++ tr). unfold room_log. rewrite flat_map_app, map_app, pubs_app. fold (room_log (asked log) ref tr). rewrite IH by (intros o' X; apply IN; right; exact X). f_equal.
    destruct o as [| | |t rid r s| | |]; try reflexivity. cbn [flat_map pubs]. destruct (Nat.eqb r ref); [|reflexivity]. destruct (F t rid r s (IN _ (or_introl eq_refl))) as [c A]. rewrite A.
    assert (M : mine c (asked log) t = true) by (unfold mine; rewrite A; apply Nat.eqb_refl). destruct (text_par l w log t c I M) as [m E]. unfold text in E. rewrite A in E. subst s. rewrite Hser. reflexivity. }
  apply G. auto.
Qed.
Lemma room_fifo l w log ref c : XInv l w log -> sub (map snd (filter (fun y => fst y =? c) (room_log (asked log) ref (sy_tr w)))) (drained (crets c log)).
Proof.
  intros I. destruct (xi_fit _ _ _ _ (xi_exec _ _ _ I) (xi_reqs _ _ _ I)) as [_ F]. apply (sub_unmap ser par _ _ Hser). destruct (posts_of l w log c I) as [rest ->]. destruct (pend_of l w log c I) as [pend ->]. rewrite map_app, <- app_assoc.
  rewrite <- (app_nil_r (map ser _)). apply sub_app; [|apply sub_empty].
  assert (G : forall tr, (forall o, In o tr -> In o (sy_tr w)) -> sub (map ser (map snd (filter (fun y => fst y =? c) (room_log (asked log) ref tr)))) (map (text (asked log)) (pubt c (asked log) tr))).
  { induction tr as [|o tr IH]; intros IN; [constructor|]. change (o :: tr) with ([o] ++ tr). unfold room_log, pubt. rewrite flat_map_app, filter_app, pub_tasks_app, filter_app, !map_app. fold (room_log (asked log) ref tr). fold (pubt c (asked log) tr).
    apply sub_app; [|apply IH; intros o' X; apply IN; right; exact X]. destruct o as [| | |t rid r s| | |]; try constructor. cbn [flat_map pub_tasks app]. destruct (F t rid r s (IN _ (or_introl eq_refl))) as [c' A]. rewrite A.
    cbn [filter]. unfold mine at 1. rewrite A. destruct (Nat.eqb r ref); cbn [app]; [|apply sub_empty].
    assert (M : mine c' (asked log) t = true) by (unfold mine; rewrite A; apply Nat.eqb_refl). destruct (text_par l w log t c' I M) as [m E]. unfold text in E. rewrite A in E. subst s. rewrite Hser. cbn [app filter fst].
    destruct (c' =? c); [|constructor]. cbn [map snd]. unfold text. rewrite A. apply sub_refl. }
  apply G. auto.
Qed.
Lemma heard_ser i (k : list (msg B)) : heard i (map ser k) = filter (for_me i) k.
Proof. induction k as [|m k IH]; [reflexivity|]. cbn [map heard flat_map filter]. fold (heard i (map ser k)). rewrite Hser, IH. destruct (for_me i m); reflexivity. Qed.

(** The messages delivered to a client *)
Lemma client_joined l w log c x : XInv l w log -> (client w c = Some (CRunning x) \/ exists r, client w c = Some (CDone x r)) -> exists ref, In (OJoined (cr_sub x) room_id ref None) (sy_tr w).
Proof. intros I CL. assert (K : lg_run (sy_tr w) log c x) by (destruct CL as [CL|[r CL]]; exact (xi_cl _ _ _ I c _ CL)). exact (proj1 K). Qed.
Theorem client_reads l w log c x ref : XInv l w log -> (client w c = Some (CRunning x) \/ exists r, client w c = Some (CDone x r)) -> In (OJoined (cr_sub x) room_id ref None) (sy_tr w) ->
  let L := room_log (asked log) ref (sy_tr w) in
  oc = true \/ (Z.of_nat (length L) <= 65535)%Z -> cr_read x <= length L /\ deliveries (cops c log) = filter (for_me (cr_idx x)) (firstn (cr_read x) (map snd L)).
Proof.
  intros I CL J. assert (K : lg_run (sy_tr w) log c x) by (destruct CL as [CL|[r CL]]; exact (xi_cl _ _ _ I c _ CL)). destruct K as (_ & RL & DE & _). cbn zeta. pose proof (room_texts l w log ref I) as RT.
  intros BD. destruct (reach_fate _ _ _ _ (xi_exec _ _ _ I)) as [M _]. destruct (joined_once _ _ _ _ _ _ _ M J) as [_ FD].
  assert (LE : length (pubs ref (sy_tr w)) = length (room_log (asked log) ref (sy_tr w))) by (rewrite <- RT; apply map_length).
  destruct (fed_exact _ _ _ _ FD) as (Q & L & _); [destruct BD as [BD|BD]; [left; exact BD|right; rewrite LE; split; [exact BD|discriminate]]|]. cbn [wanted_from] in *. cbn [skipn] in Q.
  assert (GL : length (gots (cr_sub x) (sy_tr w)) <= length (pubs ref (sy_tr w))) by (destruct L as [L|L]; [lia|rewrite L; cbn; lia]).
  split; [lia|]. rewrite DE. rewrite <- heard_ser. f_equal. rewrite <- firstn_map, map_map, RT.
  assert (G : map snd (gots (cr_sub x) (sy_tr w)) = firstn (length (gots (cr_sub x) (sy_tr w))) (pubs ref (sy_tr w))).
  { rewrite Q at 1. unfold numbered. generalize (firstn (length (gots (cr_sub x) (sy_tr w))) (pubs ref (sy_tr w))) as k. clear. intros k. generalize 0 at 1. induction k as [|y k IH]; intros n; [reflexivity|]. cbn [length seq map combine snd]. rewrite IH. reflexivity. }
  rewrite G, firstn_firstn. f_equal. lia.
Qed.
End Log.

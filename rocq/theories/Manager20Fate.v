(** What became of every request the relay took on. *)
From Coq Require Import String ZArith Bool Lia List.
From Verif Require Import Manager20 M20Spec Manager20Proofs Manager20Facts.
Import ListNotations.
Open Scope Z_scope.

(** The requests taken on, in order: the t-th one is served by task t. *)
Definition reqs (l : list act) : list (string * req) :=
  flat_map (fun a => match a with Arrive rid q => if good_req q then [(rid, q)] else [] | _ => [] end) l.
Definition pub_tasks (tr : list obs) : list nat := flat_map (fun o => match o with OPublished t _ _ _ => [t] | _ => [] end) tr.

Definition fate_of (oc : bool) (l : list act) (tr : list obs) (t : nat) (rid : string) (q : req) (x : task) : Prop :=
  match x with
  | TLookup i q' | TCreate i q' | TRoom i _ q' => i = rid /\ q' = q /\ (forall o, In o tr -> obs_task o <> t)
  | TReady r _ | TWaiting r _ _ => exists last, q = RSub last /\ In (OJoined t rid r last) tr /\ ~ gone t tr
  | TEnd => In (Cancel t) l \/
      match q with
      | RSub last => start_at oc last = None \/ exists r, In (OReadPanic t r) tr /\ 65536 <= Z.of_nat (length (pubs r tr))
      | RIssue => exists r i, In (OIssued t rid r i) tr
      | RPub m => exists r, In (OPublished t rid r m) tr
      end
  end.
Definition obs_ok (oc : bool) (rs : list (string * req)) (o : obs) : Prop :=
  match o with
  | OJoined t rid _ last => nth_error rs t = Some (rid, RSub last)
  | OIssued t rid _ _ => nth_error rs t = Some (rid, RIssue)
  | OPublished t rid _ m => nth_error rs t = Some (rid, RPub m)
  | OGot t _ _ _ | OLeft t _ | OReadPanic t _ => exists rid last, nth_error rs t = Some (rid, RSub last)
  | OJoinPanic t _ => exists rid last, nth_error rs t = Some (rid, RSub last) /\ start_at oc last = None
  end.
Record Fate (oc : bool) (l : list act) (s : db) (tr : list obs) : Prop := {
  ft_len : length (db_tasks s) = length (reqs l);
  ft_task : forall t rid q, nth_error (reqs l) t = Some (rid, q) -> fate_of oc l tr t rid q (nth t (db_tasks s) TEnd);
  ft_obs : forall o, In o tr -> obs_ok oc (reqs l) o;
  ft_once : NoDup (pub_tasks tr) }.

Lemma reqs_app a b : reqs (a ++ b) = reqs a ++ reqs b. Proof. apply flat_map_app. Qed.
Lemma own_task t o : own t o <-> obs_task o = t. Proof. destruct o; reflexivity. Qed.

Lemma fate_grow oc l l' tr o t u rid q x : Forall (own u) o -> t <> u -> (forall a, In a l -> In a l') -> fate_of oc l tr t rid q x -> fate_of oc l' (tr ++ o) t rid q x.
Proof.
  intros F N I H. rewrite Forall_forall in F.
  assert (P : (forall o0, In o0 tr -> obs_task o0 <> t) -> forall o0, In o0 (tr ++ o) -> obs_task o0 <> t).
  { intros Q o0 X. apply in_app_iff in X. destruct X as [X|X]; [exact (Q o0 X)|]. apply F, own_task in X. congruence. }
  assert (G : ~ gone t tr -> ~ gone t (tr ++ o)).
  { intros Q [r R]. apply Q. exists r. rewrite !in_app_iff in R. destruct R as [[R|R]|[R|R]]; auto; apply F in R; cbn in R; congruence. }
  destruct x as [i q'|i q'|i r q'|r nx|r nx seen|]; cbn [fate_of] in *.
  1-3: destruct H as (H1 & H2 & H3); auto.
  1-2: destruct H as (last & H1 & H2 & H3); exists last; rewrite in_app_iff; auto.
  destruct H as [H|H]; [left; auto|right]. destruct q as [last| |m].
  - destruct H as [H|(r & H1 & H2)]; [left; exact H|]. right. exists r. rewrite in_app_iff, pubs_app, app_length. split; [auto|lia].
  - destruct H as (r & i & H). exists r, i. rewrite in_app_iff. auto.
  - destruct H as (r & H). exists r. rewrite in_app_iff. auto.
Qed.

Lemma nth_error_lt {A} (l : list A) t x : nth_error l t = Some x -> (t < length l)%nat.
Proof. intros H. apply nth_error_Some. congruence. Qed.
Lemma pub_tasks_app a b : pub_tasks (a ++ b) = pub_tasks a ++ pub_tasks b. Proof. apply flat_map_app. Qed.
Lemma in_pub_tasks t tr : In t (pub_tasks tr) -> exists o, In o tr /\ obs_task o = t.
Proof. intros H. apply in_flat_map in H. destruct H as (o & H1 & H2). exists o. split; [exact H1|]. destruct o; cbn in H2; try contradiction. destruct H2 as [->|[]]. reflexivity. Qed.

(** A step of task [t] *)
Lemma fate_step oc l s tr t x h rm o a : Fate oc l s tr -> (t < length (db_tasks s))%nat -> reqs [a] = [] -> Forall (own t) o ->
  (forall rid q, nth_error (reqs l) t = Some (rid, q) -> fate_of oc (l ++ [a]) (tr ++ o) t rid q x) ->
  (forall rid q, nth_error (reqs l) t = Some (rid, q) -> Forall (obs_ok oc (reqs l)) o) ->
  (pub_tasks o = [] \/ (pub_tasks o = [t] /\ forall o0, In o0 tr -> obs_task o0 <> t)) ->
  Fate oc (l ++ [a]) (set_task t x {| db_rooms := rm; db_heap := h; db_tasks := db_tasks s |}) (tr ++ o).
Proof.
  intros [L K OB ON] T R OW FX FO PT.
  assert (RE : reqs (l ++ [a]) = reqs l) by (rewrite reqs_app, R, app_nil_r; reflexivity).
  assert (TE : exists rid q, nth_error (reqs l) t = Some (rid, q)).
  { destruct (nth_error (reqs l) t) as [[rid q]|] eqn:E; [eauto|]. apply nth_error_None in E. lia. }
  destruct TE as (rid & q & TE). constructor; rewrite ?RE; cbn [set_task db_tasks].
  - rewrite upd_length. exact L.
  - intros u rid' q' U. rewrite upd_nth. destruct (Nat.eqb_spec u t) as [->|N].
    + apply Nat.ltb_lt in T. rewrite T. cbn [andb]. apply FX. exact U.
    + cbn [andb]. apply (fate_grow oc l _ tr o u t); [exact OW|exact N|intros b; rewrite in_app_iff; auto|apply K; exact U].
  - intros o0 X. apply in_app_iff in X. destruct X as [X|X]; [apply OB; exact X|]. specialize (FO _ _ TE). rewrite Forall_forall in FO. apply FO. exact X.
  - rewrite pub_tasks_app. destruct PT as [->|[-> PT]]; [rewrite app_nil_r; exact ON|].
    apply NoDup_rev in ON. rewrite <- (rev_involutive (pub_tasks tr ++ [t])). apply NoDup_rev. rewrite rev_app_distr. cbn [rev app]. constructor; [|exact ON].
    intros X. apply in_rev in X. apply in_pub_tasks in X. destruct X as (o0 & X1 & X2). exact (PT o0 X1 X2).
Qed.
(** ... or of nothing *)
Lemma fate_idle oc l s tr a : Fate oc l s tr -> reqs [a] = [] -> Fate oc (l ++ [a]) s (tr ++ []).
Proof.
  intros [L K OB ON] R. assert (RE : reqs (l ++ [a]) = reqs l) by (rewrite reqs_app, R, app_nil_r; reflexivity).
  rewrite app_nil_r. constructor; rewrite ?RE; auto. intros t rid q T. specialize (K t rid q T). rewrite <- (app_nil_r tr).
  apply (fate_grow oc l _ tr [] t (Datatypes.S t)); [constructor|lia|intros b; rewrite in_app_iff; auto|exact K].
Qed.
Lemma db_eta s : {| db_rooms := db_rooms s; db_heap := db_heap s; db_tasks := db_tasks s |} = s. Proof. destruct s; reflexivity. Qed.
Lemma nth_end_lt (l : list task) t : nth t l TEnd <> TEnd -> (t < length l)%nat.
Proof. intros H. destruct (Nat.lt_ge_cases t (length l)) as [L|L]; [exact L|]. exfalso. apply H. apply nth_overflow. exact L. Qed.

Lemma fate_run oc l s tr t : MInv oc s tr -> Fate oc l s tr -> let '(s', o) := run_task oc t s in Fate oc (l ++ [Run t]) s' (tr ++ o).
Proof.
  intros M F. unfold run_task. pose proof (fun rid q => ft_task _ _ _ _ F t rid q) as K. pose proof (nth_end_lt (db_tasks s) t) as TL.
  destruct (nth t (db_tasks s) TEnd) as [i q|i q|i r q|r nx|r nx seen|] eqn:E.
  - assert (T : (t < length (db_tasks s))%nat) by (apply TL; discriminate).
    destruct (lookup_step i s) as [r|]; rewrite <- (db_eta s); apply fate_step; auto; intros rid q0 U; destruct (K rid q0 U) as (K1 & K2 & K3); rewrite app_nil_r; cbn [fate_of]; auto.
  - assert (T : (t < length (db_tasks s))%nat) by (apply TL; discriminate).
    destruct (create_step i s) as [r s'] eqn:C. assert (C' : exists rm h, s' = {| db_rooms := rm; db_heap := h; db_tasks := db_tasks s |}).
    { unfold create_step in C. destruct (find_room i (db_rooms s)) as [r0|]; [destruct (negb _)|]; injection C as <- <-; eauto. rewrite <- (db_eta s). eauto. }
    destruct C' as (rm & h & ->).
    apply fate_step; auto; intros rid q0 U; destruct (K rid q0 U) as (K1 & K2 & K3); rewrite app_nil_r; cbn [fate_of]; auto.
  - assert (T : (t < length (db_tasks s))%nat) by (apply TL; discriminate). destruct q as [last| |m].
    + destruct (start_at oc last) as [st|] eqn:ST; apply fate_step; auto; try (constructor; [reflexivity|constructor]; fail).
      * intros rid q0 U. destruct (K rid q0 U) as (K1 & K2 & K3). subst i q0. cbn [fate_of]. exists last. split; [reflexivity|]. split; [apply in_app_iff; right; left; reflexivity|].
        intros [r' G]. rewrite !in_app_iff in G. destruct G as [[G|[G|[]]]|[G|[G|[]]]]; try discriminate; apply (K3 _ G); reflexivity.
      * intros rid q0 U. destruct (K rid q0 U) as (K1 & K2 & K3). subst i q0. constructor; [exact U|constructor].
      * intros rid q0 U. destruct (K rid q0 U) as (K1 & K2 & K3). subst i q0. cbn [fate_of]. right. left. exact ST.
      * intros rid q0 U. destruct (K rid q0 U) as (K1 & K2 & K3). subst i q0. constructor; [cbn; eauto|constructor].
    + cbn [issue_unique_idx]. apply fate_step; auto; try (constructor; [reflexivity|constructor]; fail).
      * intros rid q0 U. destruct (K rid q0 U) as (K1 & K2 & K3). subst i q0. cbn [fate_of]. right. eexists _, _. apply in_app_iff. right. left. reflexivity.
      * intros rid q0 U. destruct (K rid q0 U) as (K1 & K2 & K3). subst i q0. constructor; [exact U|constructor].
    + assert (K' : exists rid q0, nth_error (reqs l) t = Some (rid, q0)).
      { destruct (nth_error (reqs l) t) as [[rid q]|] eqn:X; [eauto|]. apply nth_error_None in X. rewrite <- (ft_len _ _ _ _ F) in X. lia. }
      destruct K' as (rid & q0 & U). destruct (K rid q0 U) as (K1 & K2 & K3). subst i q0. apply fate_step; auto; try (constructor; [reflexivity|constructor]; fail).
      intros rid' q0 U'. rewrite U in U'. injection U' as <- <-. cbn [fate_of]. right. exists r. apply in_app_iff. right. left. reflexivity.
  - assert (T : (t < length (db_tasks s))%nat) by (apply TL; discriminate). rewrite (ro_msgs _ _ _ (mi_rooms _ _ _ M r)).
    destruct (nth_error (pubs r tr) (Z.to_nat nx)) as [m|] eqn:NE; [destruct (add16 oc nx) as [nx'|] eqn:AD|].
    + rewrite <- (db_eta s). apply fate_step; auto; try (constructor; [reflexivity|constructor]; fail).
      * intros rid q0 U. destruct (K rid q0 U) as (last & K1 & K2 & K3). subst q0. cbn [fate_of]. exists last. split; [reflexivity|]. split; [apply in_app_iff; left; exact K2|].
        intros [r' G]. apply K3. exists r'. rewrite !in_app_iff in G. destruct G as [[G|[G|[]]]|[G|[G|[]]]]; try discriminate; auto.
      * intros rid q0 U. destruct (K rid q0 U) as (last & K1 & K2 & K3). subst q0. constructor; [cbn; eauto|constructor].
    + apply fate_step; auto; try (constructor; [reflexivity|constructor]; fail).
      * intros rid q0 U. destruct (K rid q0 U) as (last & K1 & K2 & K3). subst q0. cbn [fate_of]. right. right. exists r. split; [apply in_app_iff; right; left; reflexivity|].
        rewrite pubs_app, app_length. apply nth_error_lt in NE. unfold add16 in AD. destruct (Z.ltb_spec (nx + 1) 65536); [discriminate|]. lia.
      * intros rid q0 U. destruct (K rid q0 U) as (last & K1 & K2 & K3). subst q0. constructor; [cbn; eauto|constructor].
    + rewrite <- (db_eta s). apply fate_step; auto; try (constructor; fail).
      intros rid q0 U. destruct (K rid q0 U) as (last & K1 & K2 & K3). rewrite app_nil_r. cbn [fate_of]. eauto.
  - assert (T : (t < length (db_tasks s))%nat) by (apply TL; discriminate). destruct (Nat.ltb seen (rm_notify (get_room r s))).
    + rewrite <- (db_eta s). apply fate_step; auto; try (constructor; fail).
      intros rid q0 U. destruct (K rid q0 U) as (last & K1 & K2 & K3). rewrite app_nil_r. cbn [fate_of]. eauto.
    + apply fate_idle; auto.
  - apply fate_idle; auto.
Qed.
Lemma fate_cancel oc l s tr t : Fate oc l s tr -> let '(s', o) := cancel_task t s in Fate oc (l ++ [Cancel t]) s' (tr ++ o).
Proof.
  intros F. unfold cancel_task. pose proof (fun rid q => ft_task _ _ _ _ F t rid q) as K. pose proof (nth_end_lt (db_tasks s) t) as TL.
  assert (CI : In (Cancel t) (l ++ [Cancel t])) by (apply in_app_iff; right; left; reflexivity).
  destruct (nth t (db_tasks s) TEnd) as [i q|i q|i r q|r nx|r nx seen|] eqn:E.
  1-3: assert (T : (t < length (db_tasks s))%nat) by (apply TL; discriminate); rewrite <- (db_eta s); apply fate_step; auto; try (constructor; fail); intros rid q0 U; cbn [fate_of]; auto.
  1-2: assert (T : (t < length (db_tasks s))%nat) by (apply TL; discriminate); apply fate_step; auto; try (constructor; [reflexivity|constructor]; fail);
    [intros rid q0 U; cbn [fate_of]; auto|intros rid q0 U; destruct (K rid q0 U) as (last & K1 & K2 & K3); subst q0; constructor; [cbn; eauto|constructor]].
  destruct (Nat.lt_ge_cases t (length (db_tasks s))) as [T|T].
  - rewrite <- (db_eta s). apply fate_step; auto; try (constructor; fail); intros rid q0 U; cbn [fate_of]; auto.
  - assert (Z : set_task t TEnd s = s).
    { destruct s as [rm h tk]. unfold set_task. cbn [db_rooms db_heap db_tasks] in *. f_equal. clear -T. revert t T. induction tk as [|x tk IH]; intros t T; [destruct t; reflexivity|]. destruct t as [|t]; cbn [length] in T; [lia|]. cbn [upd]. rewrite IH by lia. reflexivity. }
    rewrite Z. apply fate_idle; auto.
Qed.
Lemma fate_arrive oc l s tr rid q : Fate oc l s tr -> good_req q = true ->
  Fate oc (l ++ [Arrive rid q]) {| db_rooms := db_rooms s; db_heap := db_heap s; db_tasks := db_tasks s ++ [TLookup rid q] |} tr.
Proof.
  intros [L K OB ON] G. assert (RE : reqs (l ++ [Arrive rid q]) = reqs l ++ [(rid, q)]) by (rewrite reqs_app; cbn [reqs flat_map]; rewrite G; reflexivity).
  assert (OG : forall o, In o tr -> (obs_task o < length (reqs l))%nat).
  { intros o X. specialize (OB o X). destruct o; cbn [obs_ok obs_task] in *; try (apply nth_error_lt in OB; exact OB); destruct OB as (a & b & OB); try apply proj1 in OB; apply nth_error_lt in OB; exact OB. }
  constructor; rewrite ?RE; cbn [db_tasks].
  - rewrite !app_length, L. reflexivity.
  - intros t rid' q' T. destruct (Nat.lt_ge_cases t (length (reqs l))) as [TL|TL].
    + rewrite nth_error_app1 in T by exact TL. rewrite app_nth1 by lia. specialize (K t rid' q' T). rewrite <- (app_nil_r tr).
      apply (fate_grow oc l _ tr [] t (Datatypes.S t)); [constructor|lia|intros b; rewrite in_app_iff; auto|exact K].
    + rewrite nth_error_app2 in T by exact TL. rewrite app_nth2, L by lia. destruct (t - length (reqs l))%nat as [|k] eqn:TK; [|destruct k; discriminate].
      cbn [nth_error] in T. injection T as <- <-. cbn [nth fate_of]. split; [reflexivity|]. split; [reflexivity|]. intros o X Y. specialize (OG o X). lia.
  - intros o X. pose proof (OG o X) as XG. specialize (OB o X). destruct o; cbn [obs_ok obs_task] in *; try (rewrite nth_error_app1 by exact XG; exact OB); destruct OB as (a & b & OB); exists a, b; rewrite nth_error_app1 by exact XG; exact OB.
  - exact ON.
Qed.
Lemma fate_step_any oc l s tr a : MInv oc s tr -> Fate oc l s tr -> let '(s', o) := step oc s a in Fate oc (l ++ [a]) s' (tr ++ o).
Proof.
  intros M F. destruct a as [rid q|t|t]; cbn [step].
  - destruct (good_req q) eqn:G.
    + rewrite app_nil_r. apply fate_arrive; assumption.
    + apply fate_idle; [exact F|]. cbn [reqs flat_map]. rewrite G. reflexivity.
  - apply fate_run; assumption.
  - apply fate_cancel; assumption.
Qed.
Lemma fate_init oc : Fate oc [] db_empty [].
Proof. constructor; [reflexivity|intros [|t] rid q H; discriminate|intros o []|constructor]. Qed.

Lemma fate_exec oc l : forall l0 s tr, MInv oc s tr -> Fate oc l0 s tr -> let '(s', o) := exec oc s l in MInv oc s' (tr ++ o) /\ Fate oc (l0 ++ l) s' (tr ++ o).
Proof.
  induction l as [|a l IH]; intros l0 s tr M F; cbn [exec]; [rewrite !app_nil_r; auto|].
  pose proof (step_inv oc s tr a M) as M'. pose proof (fate_step_any oc l0 s tr a M F) as F'. destruct (step oc s a) as [s1 o1]. specialize (IH (l0 ++ [a]) s1 (tr ++ o1) M' F').
  destruct (exec oc s1 l) as [s2 o2]. rewrite <- !app_assoc in IH. exact IH.
Qed.
Lemma reach_fate oc l s tr : exec oc db_empty l = (s, tr) -> MInv oc s tr /\ Fate oc l s tr.
Proof. intros E. pose proof (fate_exec oc l [] db_empty [] (init_minv oc) (fate_init oc)) as Q. rewrite E in Q. exact Q. Qed.

(** Every message of a room was published by a request of its own. *)
Lemma pubs_count ref tr : (length (pubs ref tr) <= length (pub_tasks tr))%nat.
Proof. unfold pubs, pub_tasks. induction tr as [|o tr IH]; [cbn; lia|]. cbn [flat_map]. rewrite !app_length. destruct o; cbn [length]; try lia. destruct (Nat.eqb _ _); cbn [length]; lia. Qed.
Lemma in_pubs ref tr m : In m (pubs ref tr) <-> exists t rid, In (OPublished t rid ref m) tr.
Proof.
  unfold pubs. rewrite in_flat_map. split.
  - intros (o & H1 & H2). destruct o; cbn in H2; try contradiction. destruct (Nat.eqb_spec ref0 ref) as [->|]; [|contradiction]. destruct H2 as [->|[]]. eauto.
  - intros (t & rid & H). eexists. split; [exact H|]. cbn. rewrite Nat.eqb_refl. left. reflexivity.
Qed.

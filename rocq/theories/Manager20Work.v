(** The relay's own steps: how many there can be while a bounded number of messages is published. *)
From Coq Require Import String ZArith Bool Lia List Arith.
From Verif Require Import Manager20 M20Spec Manager20Proofs Manager20Facts Manager20Fate.
Import ListNotations.
Open Scope nat_scope.

Section Work.
Context (oc : bool) (bound : nat).
Hypothesis Hbound : (Z.of_nat bound <= 65535)%Z.

(** How far a task has come, when its room has [len] messages *)
Definition tpot (len : nat) (x : task) : nat :=
  match x with
  | TLookup _ _ => 0
  | TCreate _ _ => 1
  | TRoom _ _ _ => 2
  | TReady _ k => 3 + 3 * Z.to_nat k + (if Z.to_nat k <? len then 2 else 0)
  | TWaiting _ k _ => 4 + 3 * Z.to_nat k
  | TEnd => 3 * bound + 9
  end.
Definition tsum (len : nat) (l : list task) : nat := list_sum (map (tpot len) l).
Definition has_work (s : db) (t : nat) : bool :=
  match nth t (db_tasks s) TEnd with
  | TEnd => false
  | TWaiting ref _ seen => Nat.ltb seen (rm_notify (get_room ref s))
  | _ => true end.

Lemma tpot_mono a b x : a <= b -> tpot a x <= tpot b x.
Proof. intros L. destruct x; cbn [tpot]; try lia. destruct (Nat.ltb_spec (Z.to_nat next) a), (Nat.ltb_spec (Z.to_nat next) b); lia. Qed.
Lemma tsum_cons a x l : tsum a (x :: l) = tpot a x + tsum a l. Proof. reflexivity. Qed.
Lemma tsum_mono a b l : a <= b -> tsum a l <= tsum b l.
Proof. intros L. induction l as [|x l IH]; [cbn; lia|]. rewrite !tsum_cons. pose proof (tpot_mono a b x L). lia. Qed.
Lemma tsum_upd a b t x l : a <= b -> t < length l -> tsum a l + tpot b x <= tsum b (upd t (fun _ => x) l) + tpot a (nth t l TEnd).
Proof.
  intros L. revert t. induction l as [|y l IH]; intros [|t] T; cbn [length] in T; try lia.
  - cbn [upd nth]. pose proof (tsum_mono a b l L). rewrite !tsum_cons. lia.
  - cbn [upd]. change (nth (S t) (y :: l) TEnd) with (nth t l TEnd). specialize (IH t ltac:(lia)). pose proof (tpot_mono a b y L). rewrite !tsum_cons. lia.
Qed.
Lemma tsum_bound len l : (forall t r k, t < length l -> (nth t l TEnd = TReady r k \/ exists e, nth t l TEnd = TWaiting r k e) -> Z.to_nat k <= bound) -> tsum len l <= length l * (3 * bound + 9).
Proof.
  intros H. induction l as [|x l IH]; [cbn; lia|]. rewrite tsum_cons. cbn [length].
  assert (X : tpot len x <= 3 * bound + 9).
  { pose proof (H 0) as H0. cbn [length nth] in H0. destruct x as [i q|i q|i r q|r k|r k e|]; cbn [tpot]; try lia.
    - specialize (H0 r k ltac:(lia) (or_introl eq_refl)). destruct (Z.to_nat k <? len); lia.
    - specialize (H0 r k ltac:(lia) (or_intror (ex_intro _ e eq_refl))). lia. }
  specialize (IH (fun t r k T Q => H (S t) r k ltac:(cbn [length]; lia) Q)). lia.
Qed.

(** Subscribers are in room 0, not ahead of it, and have seen all they are past of. *)
Definition subs_ok (s : db) (tr : list obs) : Prop := forall t r k, (nth t (db_tasks s) TEnd = TReady r k \/ exists e, nth t (db_tasks s) TEnd = TWaiting r k e) ->
  r = 0 /\ (0 <= k)%Z /\ Z.to_nat k <= length (pubs 0 tr) /\ length (pubs 0 tr) <= bound.
Definition wait_ok (s : db) : Prop := forall t r k e, nth t (db_tasks s) TEnd = TWaiting r k e -> Z.to_nat k <= e.

Lemma wait_upd s t x r h : wait_ok s -> (forall r' k e, x = TWaiting r' k e -> Z.to_nat k <= e) -> wait_ok (set_task t x {| db_rooms := r; db_heap := h; db_tasks := db_tasks s |}).
Proof.
  intros W X u r' k e U. cbn [set_task db_tasks] in U. rewrite upd_nth in U. destruct (_ && _)%bool; [exact (X _ _ _ U)|exact (W _ _ _ _ U)].
Qed.
Lemma run_work s tr t : MInv oc s tr -> subs_ok s tr -> wait_ok s ->
  let s' := fst (run_task oc t s) in let tr' := tr ++ snd (run_task oc t s) in
  wait_ok s' /\ tsum (length (pubs 0 tr)) (db_tasks s) + (if has_work s t then 1 else 0) <= tsum (length (pubs 0 tr')) (db_tasks s').
Proof.
  intros M SO WO. cbn zeta. unfold has_work. destruct (nth t (db_tasks s) TEnd) as [i q|i q|i r q|r k|r k e|] eqn:E.
  6:{ unfold run_task. rewrite E. cbn [fst snd]. rewrite app_nil_r, Nat.add_0_r. auto. }
  all: assert (T : t < length (db_tasks s)) by (apply nth_end_lt; congruence).
  all: assert (UP : forall o x, tpot (length (pubs 0 tr)) (nth t (db_tasks s) TEnd) < tpot (length (pubs 0 (tr ++ o))) x ->
        tsum (length (pubs 0 tr)) (db_tasks s) + 1 <= tsum (length (pubs 0 (tr ++ o))) (upd t (fun _ => x) (db_tasks s)))
      by (intros o x Q; assert (LE : length (pubs 0 tr) <= length (pubs 0 (tr ++ o))) by (rewrite pubs_app, app_length; lia); pose proof (tsum_upd _ _ t x _ LE T); lia).
  all: rewrite E in UP; unfold run_task; rewrite E.
  - destruct (lookup_step i s) as [ref|]; cbn [fst snd]; (split; [destruct s; apply (wait_upd {| db_rooms := db_rooms; db_heap := db_heap; db_tasks := db_tasks |}); [exact WO|discriminate]|apply UP; cbn [tpot]; lia]).
  - assert (CT : db_tasks (snd (create_step i s)) = db_tasks s) by (unfold create_step; destruct (find_room i (db_rooms s)) as [ref|]; [destruct (negb _)|]; reflexivity).
    destruct (create_step i s) as [ref s2]. cbn [snd] in CT. cbn [fst snd set_task db_tasks]. rewrite CT. split; [|apply UP; cbn [tpot]; lia].
    destruct s2 as [a b c]. cbn in CT. subst c. apply wait_upd; [exact WO|discriminate].
  - destruct q as [last| |m].
    + destruct (start_at oc last) as [st|]; cbn [fst snd]; (split; [apply wait_upd; [exact WO|discriminate]|apply UP; cbn [tpot]; lia]).
    + unfold issue_unique_idx. cbn [fst snd]. split; [apply wait_upd; [exact WO|discriminate]|apply UP; cbn [tpot]; lia].
    + cbn [fst snd]. split; [apply wait_upd; [exact WO|discriminate]|apply UP; cbn [tpot]; lia].
  - destruct (SO t r k (or_introl E)) as (-> & K0 & K1 & K2). rewrite (ro_msgs _ _ _ (mi_rooms _ _ _ M 0)), (ro_notify _ _ _ (mi_rooms _ _ _ M 0)).
    destruct (nth_error (pubs 0 tr) (Z.to_nat k)) as [m|] eqn:NE.
    + apply nth_error_lt in NE. unfold add16. destruct (Z.ltb_spec (k + 1) 65536) as [L|L]; [|lia]. cbn [fst snd]. split; [destruct s; apply (wait_upd {| db_rooms := db_rooms; db_heap := db_heap; db_tasks := db_tasks |}); [exact WO|discriminate]|].
      apply UP. cbn [tpot]. apply Nat.ltb_lt in NE. rewrite NE. lia.
    + apply nth_error_None in NE. cbn [fst snd]. split; [destruct s; apply (wait_upd {| db_rooms := db_rooms; db_heap := db_heap; db_tasks := db_tasks |}); [exact WO|]; intros r' k' e' [= <- <- <-]; lia|].
      apply UP. cbn [tpot]. destruct (Nat.ltb_spec (Z.to_nat k) (length (pubs 0 tr))); lia.
  - destruct (SO t r k (or_intror (ex_intro _ e E))) as (-> & K0 & K1 & K2). rewrite (ro_notify _ _ _ (mi_rooms _ _ _ M 0)).
    destruct (Nat.ltb_spec e (length (pubs 0 tr))) as [L|L]; cbn [fst snd]; [|rewrite app_nil_r, Nat.add_0_r; auto].
    split; [destruct s; apply (wait_upd {| db_rooms := db_rooms; db_heap := db_heap; db_tasks := db_tasks |}); [exact WO|discriminate]|]. apply UP. pose proof (WO _ _ _ _ E) as W. rewrite app_nil_r. cbn [tpot].
    destruct (Nat.ltb_spec (Z.to_nat k) (length (pubs 0 tr))); lia.
Qed.
Lemma cancel_work s tr t : subs_ok s tr -> wait_ok s ->
  let s' := fst (cancel_task t s) in let tr' := tr ++ snd (cancel_task t s) in
  wait_ok s' /\ tsum (length (pubs 0 tr)) (db_tasks s) <= tsum (length (pubs 0 tr')) (db_tasks s').
Proof.
  intros SO WO. cbn zeta.
  assert (G : db_tasks (fst (cancel_task t s)) = upd t (fun _ => TEnd) (db_tasks s)) by (unfold cancel_task; destruct (nth t (db_tasks s) TEnd); reflexivity).
  split.
  - intros u r k e U. rewrite G, upd_nth in U. destruct (_ && _)%bool; [discriminate|exact (WO _ _ _ _ U)].
  - rewrite G. assert (LE : length (pubs 0 tr) <= length (pubs 0 (tr ++ snd (cancel_task t s)))) by (rewrite pubs_app, app_length; lia).
    destruct (Nat.lt_ge_cases t (length (db_tasks s))) as [T|T].
    + pose proof (tsum_upd _ _ t TEnd _ LE T) as Q.
      assert (X : tpot (length (pubs 0 tr)) (nth t (db_tasks s) TEnd) <= 3 * bound + 9).
      { pose proof (SO t) as S0. destruct (nth t (db_tasks s) TEnd) as [i q|i q|i r q|r k|r k e|]; cbn [tpot]; try lia.
        - destruct (S0 r k (or_introl eq_refl)) as (_ & _ & Q1 & Q2). destruct (_ <? _); lia.
        - destruct (S0 r k (or_intror (ex_intro _ e eq_refl))) as (_ & _ & Q1 & Q2). lia. }
      cbn [tpot] in Q. lia.
    + assert (U : upd t (fun _ => TEnd) (db_tasks s) = db_tasks s); [|rewrite U; apply tsum_mono; exact LE]. clear -T. revert t T. induction (db_tasks s) as [|x l IH]; intros [|t] T; cbn [length] in T; try lia; [reflexivity|reflexivity|]. cbn [upd]. rewrite IH by lia. reflexivity.
Qed.
Lemma arrive_work s tr rid q : wait_ok s -> good_req q = true ->
  let s' := fst (step oc s (Arrive rid q)) in wait_ok s' /\ snd (step oc s (Arrive rid q)) = [] /\ tsum (length (pubs 0 tr)) (db_tasks s) <= tsum (length (pubs 0 tr)) (db_tasks s').
Proof.
  intros WO G. cbn [step]. rewrite G. cbn [fst snd db_tasks]. split; [|split; [reflexivity|]].
  - intros t r k e U. cbn [db_tasks] in U. destruct (Nat.lt_ge_cases t (length (db_tasks s))) as [T|T]; [rewrite app_nth1 in U by exact T; exact (WO _ _ _ _ U)|]. rewrite app_nth2 in U by exact T. destruct (t - length (db_tasks s)) as [|[|]]; discriminate.
  - unfold tsum. rewrite map_app, list_sum_app. lia.
Qed.
End Work.

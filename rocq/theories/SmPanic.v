(** What one changed message does to a history: used for C63 and C66. *)
From Coq Require Import Arith Lia Bool List.
From Verif Require Import Outcome Mp MpProofs Stores RoundSM SmSpec SmProofs SmTheory.
Import ListNotations.

(** The history [h] with the body of party j's messages of round k replaced by [b] *)
Definition swap_msg {B} (of : B -> nat) (p2p : nat -> bool) (me k j : nat) (b : B) (m : msg B) : msg B :=
  if proper of p2p me k j m then {| m_from := m_from m; m_to := m_to m; m_body := b |} else m.
Definition swap_op {B} (of : B -> nat) (p2p : nat -> bool) (me k j : nat) (b : B) (o : op B) : op B :=
  match o with Deliver m => Deliver (swap_msg of p2p me k j b m) | o => o end.
Definition swapped {B} (of : B -> nat) (p2p : nat -> bool) (me k j : nat) (b : B) (h : list (op B)) : list (op B) := map (swap_op of p2p me k j b) h.

Section Swap.
Context {B : Type} (of : B -> nat) (p2p : nat -> bool) (me n : nat).
Notation got := (got of p2p me).
Lemma swapped_got k j b h : of b = k -> forall k' j', got (swapped of p2p me k j b h) k' j' =
  if (k' =? k) && (j' =? j) then option_map (fun _ => b) (got h k' j') else got h k' j'.
Proof.
  intros OB k' j'.
  assert (PS : forall m, proper of p2p me k' j' (swap_msg of p2p me k j b m) = proper of p2p me k' j' m).
  { intros m. unfold swap_msg. destruct (proper of p2p me k j m) eqn:E; [|reflexivity]. unfold proper, addressed_ok in *. cbn [m_from m_to m_body].
    rewrite !andb_true_iff, !Nat.eqb_eq in E. destruct E as [[E1 E2] E3]. rewrite OB, E1. reflexivity. }
  unfold SmSpec.got. assert (DV : deliveries (swapped of p2p me k j b h) = map (swap_msg of p2p me k j b) (deliveries h)).
  { unfold deliveries, swapped. induction h as [|[m| | |] h IH]; cbn [map flat_map swap_op app]; [reflexivity|rewrite IH; reflexivity|exact IH|exact IH|exact IH]. }
  rewrite DV. clear DV. induction (deliveries h) as [|m l IH]; cbn [map find option_map]; [destruct ((k' =? k) && (j' =? j)); reflexivity|].
  rewrite PS. destruct (proper of p2p me k' j' m) eqn:E; [|exact IH]. cbn [option_map]. unfold swap_msg.
  destruct ((k' =? k) && (j' =? j)) eqn:KJ.
  - rewrite andb_true_iff, !Nat.eqb_eq in KJ. destruct KJ as [-> ->]. rewrite E. reflexivity.
  - destruct (proper of p2p me k j m) eqn:E2; [|reflexivity]. exfalso. unfold proper in E, E2. rewrite !andb_true_iff, !Nat.eqb_eq in E, E2.
    destruct E as [[E3 E4] _]. destruct E2 as [[E5 E6] _]. rewrite <- E3, <- E4, E5, E6, !Nat.eqb_refl in KJ. discriminate.
Qed.
Lemma swapped_inbox_other k j b h k' : of b = k -> k' <> k -> inbox of p2p me n (swapped of p2p me k j b h) k' = inbox of p2p me n h k'.
Proof.
  intros OB N. unfold inbox. destruct (k' =? 0); [reflexivity|]. apply f_equal. apply map_ext. intros j'. rewrite (swapped_got k j b h OB).
  destruct (Nat.eqb_spec k' k) as [E|_]; [contradiction|reflexivity].
Qed.
(** Where the message of j comes in the list of the others' messages *)
Lemma swapped_inbox k j h l : 0 < k -> inbox of p2p me n h k = Some l -> In j (peers me n) ->
  exists l1 x l2, l = l1 ++ x :: l2 /\ got h k j = Some x /\ (l1 = [] -> hd_error (peers me n) = Some j) /\ forall b, of b = k -> inbox of p2p me n (swapped of p2p me k j b h) k = Some (l1 ++ b :: l2).
Proof.
  intros K E J. unfold inbox in *. destruct (Nat.eqb_spec k 0) as [Z|Z]; [lia|].
  assert (ND : NoDup (peers me n)) by (unfold peers; apply NoDup_filter, seq_NoDup).
  revert l E J ND. induction (peers me n) as [|j' js IH]; intros l E J ND; [destruct J|]. cbn [map all_some] in E. inversion ND as [|? ? NI ND']; subst x l0.
  destruct (got h k j') as [a|] eqn:G; [|discriminate]. destruct (all_some (map (got h k) js)) as [t|] eqn:T; [|discriminate]. injection E as <-.
  destruct (Nat.eq_dec j' j) as [->|NJ].
  - exists [], a, t. split; [reflexivity|]. split; [exact G|]. split; [reflexivity|]. intros b OB. cbn [map all_some]. rewrite (swapped_got k j b h OB), !Nat.eqb_refl, G. cbn [andb option_map].
    assert (Q : map (got (swapped of p2p me k j b h) k) js = map (got h k) js).
    { apply map_ext_in. intros y Y. rewrite (swapped_got k j b h OB). destruct (Nat.eqb_spec y j) as [->|_]; [contradiction|]. rewrite andb_false_r. reflexivity. }
    rewrite Q, T. reflexivity.
  - destruct J as [J|J]; [contradiction|]. destruct (IH t eq_refl J ND') as [l1 [y [l2 [E1 [E2 [_ E3]]]]]]. exists (a :: l1), y, l2.
    split; [rewrite E1; reflexivity|]. split; [exact E2|]. split; [discriminate|]. intros b OB. cbn [map all_some]. rewrite (swapped_got k j b h OB). destruct (Nat.eqb_spec j' j) as [?|_]; [contradiction|].
    rewrite andb_false_r, G, (E3 b OB). reflexivity.
Qed.
End Swap.

Section Panic.
Context {P B R : Type} (p : params P B R) (d0 : R).
Notation K := (g_K p).
Notation me := (g_me p).
Notation n := (g_n p).
Hypothesis Hme : 1 <= me <= n.
Hypothesis Hof : forall b, 1 <= g_of p b <= K.
Hypothesis Hexp : forall k, g_exp p k = false -> 0 < k /\ g_again p (k - 1) = true.
Notation got := (got (g_of p) (g_p2p p) me).
Notation inb := (inbox (g_of p) (g_p2p p) me n).
Notation runs := (runs (g_step p) d0).
Notation fails := (fails p d0).
Notation run := (run_ops (g_op p) (g_init p d0)).
Notation swapped := (swapped (g_of p) (g_p2p p) me).

(** A machine that does not want to proceed has reported the failure of its rounds, if there is one. *)
Lemma fails_reported h out k o : fails h out k o -> g_wants_to_proceed (fst (run h)) = false -> failures (snd (run h)) = [fail_of o].
Proof.
  intros F W. pose proof (run_all p d0 Hme Hof Hexp h) as A. destruct (run h) as [s rs]. destruct A as [I [_ L]]. cbn [fst snd] in *.
  pose proof (inv_round _ _ _ _ _ I) as Q. unfold LogInv in L. unfold g_wants_to_proceed in W. destruct (gs_round s) as [k' d|d|] eqn:G.
  - exfalso. rewrite (wants_inbox p d0 Hme h _ s k' d I G) in W. destruct (inb h k') as [l|] eqn:N; [discriminate|]. destruct Q as [_ [Q _]].
    exact (fails_stuck p d0 h out k o d k' _ F Q N).
  - exfalso. exact (fails_runs p d0 h out k o d _ F Q).
  - destruct L as [[_ [d [_ Q2]]]|[_ [k' [o' [Q2 Q3]]]]]; [exfalso; exact (fails_runs p d0 h out k o d _ F Q2)|].
    destruct (fails_det p d0 h _ _ _ _ _ _ F Q2) as [_ [_ ->]]. exact Q3.
Qed.
Lemma current_le h : g_current p (fst (run h)) <= S K.
Proof.
  pose proof (run_all p d0 Hme Hof Hexp h) as A. destruct (run h) as [s rs]. destruct A as [I _]. cbn [fst]. pose proof (inv_round _ _ _ _ _ I) as Q.
  unfold g_current. destruct (gs_round s); [destruct Q as [Q _]; lia|lia|lia].
Qed.
Lemma settles h m : g_wants_to_proceed (fst (run (h ++ repeat Proceed m))) = false \/ m <= g_current p (fst (run (h ++ repeat Proceed m))).
Proof.
  induction m as [|m IH]; [right; lia|]. replace (repeat Proceed (S m)) with (repeat (@Proceed B) m ++ [Proceed]) by (change [@Proceed B] with (repeat (@Proceed B) 1); rewrite <- repeat_app; f_equal; lia).
  rewrite app_assoc. destruct (run_extends p d0 (h ++ repeat Proceed m) [Proceed]) as [E _]. rewrite E. clear E. cbn [run_ops g_op].
  destruct (wants_proceed p d0 Hme Hof Hexp (h ++ repeat Proceed m)) as [W1 W2]. destruct IH as [IH|IH].
  - rewrite (W2 IH). cbn [fst]. left. exact IH.
  - destruct (g_wants_to_proceed (fst (run (h ++ repeat Proceed m)))) eqn:W.
    + specialize (W1 eq_refl). destruct (g_proceed p (g_fuel p) true (fst (run (h ++ repeat Proceed m)))) as [s' r]. cbn [fst] in *. right. lia.
    + rewrite (W2 eq_refl). cbn [fst]. left. exact W.
Qed.
Lemma settled h : g_wants_to_proceed (fst (run (h ++ repeat Proceed (S (S K))))) = false.
Proof. destruct (settles h (S (S K))) as [E|E]; [exact E|]. pose proof (current_le (h ++ repeat Proceed (S (S K)))). lia. Qed.
Lemma inb_proceeds h m k : inb (h ++ repeat Proceed m) k = inb h k.
Proof.
  apply inb_ext. intros j _. rewrite got_app. assert (E : got (repeat Proceed m) k j = None) by (induction m as [|m IH]; [reflexivity|exact IH]).
  rewrite E. destruct (got h k j); reflexivity.
Qed.
Lemma runs_prefix (a b : nat -> option (list B)) k d out : (forall k', k' < k -> a k' = b k') -> runs a k d out -> runs b k d out.
Proof.
  intros E H. induction H as [|k d out l d' o H IH I S]; [constructor|]. refine (runs_S _ _ _ _ _ _ _ _ _ (IH _) _ S); [intros k' L; apply E; lia|].
  rewrite <- E by lia. exact I.
Qed.
(** The history of a machine that got past round k: with the message of j changed so that round k fails, the machine
    reports that failure once it is asked to proceed. *)
Lemma swap_fails h s rs k j : run h = (s, rs) -> failures rs = [] -> 1 <= k <= K -> k < g_current p s -> In j (peers me n) ->
  exists d out l1 x l2, runs (inb h) k d out /\ inb h k = Some (l1 ++ x :: l2) /\ got h k j = Some x /\
    (exists y, g_step p k d (l1 ++ x :: l2) = Ok y) /\
    (forall b o, g_of p b = k -> g_step p k d (l1 ++ b :: l2) = o -> (forall y, o <> Ok y) ->
     failures (snd (run (swapped k j b h ++ repeat Proceed (S (S K))))) = [fail_of o]).
Proof.
  intros E F KB L J. pose proof (run_all p d0 Hme Hof Hexp h) as A. rewrite E in A. destruct A as [I [_ LI]]. pose proof (inv_round _ _ _ _ _ I) as Q.
  assert (RB : exists k' d out, k < k' /\ runs (inb h) k' d out).
  { unfold g_current in L. unfold LogInv in LI. destruct (gs_round s) as [k' d|d|]; [destruct Q as [_ [Q _]]; eauto|eauto|].
    destruct LI as [[_ [d [_ LI]]]|[_ [k' [o [_ LI]]]]]; [eauto|]. rewrite F in LI. discriminate. }
  destruct RB as [k' [d' [out' [KL RB]]]]. destruct (runs_below _ _ _ _ _ _ RB k KL) as [d [out [l [d2 [o2 [R1 [R2 R3]]]]]]].
  destruct (swapped_inbox (g_of p) (g_p2p p) me n k j h l ltac:(lia) R2 J) as [l1 [x [l2 [E1 [E2 [_ E3]]]]]].
  exists d, out, l1, x, l2. split; [exact R1|]. split; [rewrite <- E1; exact R2|]. split; [exact E2|]. split; [exists (d2, o2); rewrite <- E1; exact R3|]. intros b o OB ST NO.
  apply (fails_reported _ out k); [|apply settled]. exists d, (l1 ++ b :: l2). split; [lia|]. split; [|split; [|split; [exact ST|exact NO]]].
  - apply (runs_prefix (inb h)); [|exact R1]. intros k1 L1. rewrite inb_proceeds. symmetry. apply swapped_inbox_other; [exact OB|lia].
  - rewrite inb_proceeds. exact (E3 b OB).
Qed.
(** The same if the changed message makes round k succeed and round k+1 fail. *)
Lemma swap_fails_next h s rs k j : run h = (s, rs) -> failures rs = [] -> 1 <= k -> S k <= K -> S k < g_current p s -> In j (peers me n) ->
  exists d out l1 x l2 l' y, runs (inb h) k d out /\ inb h k = Some (l1 ++ x :: l2) /\ got h k j = Some x /\ (l1 = [] -> hd_error (peers me n) = Some j) /\
    g_step p k d (l1 ++ x :: l2) = Ok y /\ inb h (S k) = Some l' /\ (exists z, g_step p (S k) (fst y) l' = Ok z) /\
    (forall b d' o' o, g_of p b = k -> g_step p k d (l1 ++ b :: l2) = Ok (d', o') -> g_step p (S k) d' l' = o -> (forall y, o <> Ok y) ->
     failures (snd (run (swapped k j b h ++ repeat Proceed (S (S K))))) = [fail_of o]).
Proof.
  intros E F K1 KB L J. pose proof (run_all p d0 Hme Hof Hexp h) as A. rewrite E in A. destruct A as [I [_ LI]]. pose proof (inv_round _ _ _ _ _ I) as Q.
  assert (RB : exists k' d out, S k < k' /\ runs (inb h) k' d out).
  { unfold g_current in L. unfold LogInv in LI. destruct (gs_round s) as [k' d|d|]; [destruct Q as [_ [Q _]]; eauto|eauto|].
    destruct LI as [[_ [d [_ LI]]]|[_ [k' [o [_ LI]]]]]; [eauto|]. rewrite F in LI. discriminate. }
  destruct RB as [k' [dd [out' [KL RB]]]]. destruct (runs_below _ _ _ _ _ _ RB (S k) KL) as [d1 [out1 [l' [d2 [o2 [R1 [R2 R3]]]]]]].
  inversion R1 as [|k0 d out l d1' o1 R0 RI RS EK ED EO]. subst k0 d1'.
  destruct (swapped_inbox (g_of p) (g_p2p p) me n k j h l ltac:(lia) RI J) as [l1 [x [l2 [E1 [E2 [E4 E3]]]]]].
  exists d, out, l1, x, l2, l', (d1, o1). rewrite <- E1. cbn [fst]. split; [exact R0|]. split; [exact RI|]. split; [exact E2|]. split; [exact E4|]. split; [exact RS|]. split; [exact R2|]. split; [eauto|].
  intros b d' o' o OB ST ST' NO. apply (fails_reported _ (out ++ o') (S k)); [|apply settled]. exists d', l'. split; [lia|]. split; [|split; [|split; [exact ST'|exact NO]]].
  - apply (runs_S _ _ _ _ d out (l1 ++ b :: l2)); [|rewrite inb_proceeds; exact (E3 b OB)|exact ST].
    apply (runs_prefix (inb h)); [|exact R0]. intros k2 L2. rewrite inb_proceeds. symmetry. apply swapped_inbox_other; [exact OB|lia].
  - rewrite inb_proceeds, swapped_inbox_other; [exact R2|exact OB|lia].
Qed.
End Panic.

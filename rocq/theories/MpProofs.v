(** Lemmas on the shared helpers of the multi-party protocols. *)
From Coq Require Import ZArith Lia Bool List.
From Verif Require Import Outcome Mp.
Import ListNotations.

Lemma first_bad_none {E A} (f : A -> outcome E bool) l : forall i,
  first_bad f i l = Ok None <-> Forall (fun x => f x = Ok true) l.
Proof.
  induction l as [|x l IH]; intros i; cbn [first_bad].
  - split; intros; [constructor|reflexivity].
  - destruct (f x) as [[|]| |] eqn:Ef; cbn [obind].
    + rewrite IH. split; intros H; [constructor; assumption|inversion H; assumption].
    + split; intros H; [discriminate|inversion H; congruence].
    + split; intros H; [discriminate|inversion H; congruence].
    + split; intros H; [discriminate|inversion H; congruence].
Qed.

Lemma first_bad_some {E A} (f : A -> outcome E bool) l : forall i k,
  first_bad f i l = Ok (Some k) <->
  exists pre x post, l = pre ++ x :: post /\ Forall (fun y => f y = Ok true) pre /\ f x = Ok false /\ k = (i + length pre)%nat.
Proof.
  induction l as [|x l IH]; intros i k; cbn [first_bad].
  - split; intros H; [discriminate|]. destruct H as (pre & y & post & H & _). destruct pre; discriminate.
  - destruct (f x) as [[|]| |] eqn:Ef; cbn [obind].
    + rewrite IH. split.
      * intros (pre & y & post & -> & HF & Hy & ->). exists (x :: pre), y, post.
        split; [reflexivity|]. split; [constructor; assumption|]. split; [assumption|]. cbn [length]. lia.
      * intros (pre & y & post & HE & HF & Hy & ->). destruct pre as [|z pre]; cbn [app] in HE.
        -- injection HE as <- <-. congruence.
        -- injection HE as <- ->. inversion HF; subst. exists pre, y, post.
           split; [reflexivity|]. split; [assumption|]. split; [assumption|]. cbn [length]. lia.
    + split.
      * intros H. apply ok_inj in H. injection H as ->. exists [], x, l.
        split; [reflexivity|]. split; [constructor|]. split; [assumption|]. cbn [length]. lia.
      * intros (pre & y & post & HE & HF & Hy & ->). destruct pre as [|z pre]; cbn [app] in HE.
        -- cbn [length]. rewrite Nat.add_0_r. reflexivity.
        -- injection HE as E1 E2; subst. inversion HF; subst. congruence.
    + split; intros H; [discriminate|]. destruct H as (pre & y & post & HE & HF & Hy & ->).
      destruct pre as [|z pre]; cbn [app] in HE; injection HE as E1 E2; subst; [congruence|inversion HF; subst; congruence].
    + split; intros H; [discriminate|]. destruct H as (pre & y & post & HE & HF & Hy & ->).
      destruct pre as [|z pre]; cbn [app] in HE; injection HE as E1 E2; subst; [congruence|inversion HF; subst; congruence].
Qed.

Lemma first_bad_some_nth {E A} (f : A -> outcome E bool) l k :
  first_bad f 0 l = Ok (Some k) <->
  (exists x, nth_error l k = Some x /\ f x = Ok false) /\
  (forall i x, (i < k)%nat -> nth_error l i = Some x -> f x = Ok true).
Proof.
  rewrite first_bad_some. split.
  - intros (pre & x & post & -> & HF & Hx & ->). cbn [plus]. split.
    + exists x. rewrite nth_error_app2, Nat.sub_diag by lia. split; [reflexivity|assumption].
    + intros i y Hi Hy. rewrite nth_error_app1 in Hy by assumption. rewrite Forall_forall in HF. apply HF.
      eapply nth_error_In; eassumption.
  - intros ((x & Hx & Hf) & HF). apply nth_error_split in Hx. destruct Hx as (pre & post & -> & <-).
    exists pre, x, post. split; [reflexivity|]. split; [|split; [assumption|reflexivity]].
    apply Forall_forall. intros y Hy. apply In_nth_error in Hy. destruct Hy as (i & Hi).
    assert (Hl : (i < length pre)%nat) by (apply nth_error_Some; congruence).
    apply (HF i y Hl). rewrite nth_error_app1 by assumption. exact Hi.
Qed.

(** Without panics the loop always ends with an answer. *)
Lemma first_bad_total {E A} (f : A -> outcome E bool) l : (forall x, In x l -> exists b, f x = Ok b) ->
  forall i, exists o, first_bad f i l = Ok o.
Proof.
  induction l as [|x l IH]; intros H i; cbn [first_bad]; [eauto|].
  destruct (H x (or_introl eq_refl)) as [[|] ->]; cbn [obind]; [|eauto].
  apply IH. intros y Hy. apply H. right; assumption.
Qed.

Lemma first_bad_ext {E A} (f g : A -> outcome E bool) l : (forall x, In x l -> f x = g x) ->
  forall i, first_bad f i l = first_bad g i l.
Proof.
  induction l as [|x l IH]; intros H i; cbn [first_bad]; [reflexivity|].
  rewrite (H x (or_introl eq_refl)). destruct (g x) as [[|]| |]; cbn [obind]; try reflexivity.
  apply IH. intros y Hy. apply H. right; assumption.
Qed.

Lemma nth_o_ok {E A} (l : list A) i x : nth_o (E := E) l i = Ok x <-> nth_error l i = Some x.
Proof. unfold nth_o. destruct (nth_error l i); split; congruence. Qed.
Lemma nth_o_map_seq {E A} (f : nat -> A) a n i : (i < n)%nat -> nth_o (E := E) (map f (seq a n)) i = Ok (f (a + i)).
Proof.
  intros H. apply nth_o_ok. rewrite nth_error_map.
  rewrite (nth_error_nth' _ 0%nat) by (rewrite seq_length; exact H). rewrite seq_nth by exact H. reflexivity.
Qed.

Lemma omapM_all {E A B} (f : A -> outcome E B) (g : A -> B) l : (forall x, In x l -> f x = Ok (g x)) ->
  omapM f l = Ok (map g l).
Proof.
  induction l as [|x l IH]; intros H; cbn [omapM map]; [reflexivity|].
  rewrite (H x (or_introl eq_refl)), IH; [reflexivity|]. intros y Hy. apply H. right; assumption.
Qed.

Lemma incl_me_length {A} i (x : A) l : length (incl_me i x l) = S (length l).
Proof.
  unfold incl_me. rewrite app_length. cbn [length].
  rewrite <- (firstn_skipn i l) at 3. rewrite app_length. lia.
Qed.
Lemma incl_me_map {A B} (f : A -> B) i x l : map f (incl_me i x l) = incl_me i (f x) (map f l).
Proof. unfold incl_me. rewrite map_app, firstn_map, skipn_map. reflexivity. Qed.
Lemma incl_me_self {A} i (x : A) l : (i <= length l)%nat -> nth_error (incl_me i x l) i = Some x.
Proof.
  intros H. unfold incl_me. rewrite nth_error_app2; rewrite firstn_length_le by exact H; [|lia].
  rewrite Nat.sub_diag. reflexivity.
Qed.
Lemma others_length i m : (i < m)%nat -> length (others i m) = (m - 1)%nat.
Proof. intros H. unfold others. rewrite app_length, !seq_length. lia. Qed.
Lemma incl_me_others {A} (f : nat -> A) i m : (i < m)%nat -> incl_me i (f i) (map f (others i m)) = map f (seq 0 m).
Proof.
  intros H. unfold incl_me, others. rewrite map_app.
  rewrite firstn_app, skipn_app, !map_length, !seq_length, Nat.sub_diag. cbn [firstn skipn].
  rewrite app_nil_r.
  rewrite firstn_all2 by (rewrite map_length, seq_length; lia).
  rewrite skipn_all2 by (rewrite map_length, seq_length; lia). cbn [app].
  replace m with (i + S (m - S i)) at 2 by lia. rewrite seq_app, map_app. cbn [seq map]. reflexivity.
Qed.
Lemma ind_map i m : (i < m)%nat -> map (ind i) (seq 0 (m - 1)) = others i m.
Proof.
  intros H. unfold others. replace (m - 1)%nat with (i + (m - S i))%nat by lia. rewrite seq_app, map_app. f_equal.
  - rewrite <- (map_id (seq 0 i)) at 2. apply map_ext_in. intros j Hj. apply in_seq in Hj.
    unfold ind. rewrite (proj2 (Nat.ltb_lt j i)) by lia. reflexivity.
  - rewrite <- seq_shift. cbn [plus]. apply map_ext_in. intros j Hj. apply in_seq in Hj.
    unfold ind. rewrite (proj2 (Nat.ltb_ge j i)) by lia. reflexivity.
Qed.
Lemma in_others i m j : In j (others i m) <-> (j < m)%nat /\ j <> i /\ (i <= m)%nat \/ (m < i)%nat /\ (j < i)%nat.
Proof. unfold others. rewrite in_app_iff, !in_seq. lia. Qed.
Lemma ind_ne i j : ind i j <> i.
Proof. unfold ind. destruct (Nat.ltb_spec j i); lia. Qed.
Lemma ind_lt i j m : (i < m)%nat -> (j < m - 1)%nat -> (ind i j < m)%nat.
Proof. unfold ind. destruct (Nat.ltb_spec j i); lia. Qed.

Lemma combine_map2 {A B D} (f : A -> B) (g : A -> D) l : combine (map f l) (map g l) = map (fun x => (f x, g x)) l.
Proof. induction l as [|x l IH]; cbn; [reflexivity|]. rewrite IH. reflexivity. Qed.
Lemma map_seq_nth {A} (d : A) l : map (fun i => nth i l d) (seq 0 (length l)) = l.
Proof.
  induction l as [|x l IH]; cbn; [reflexivity|]. f_equal.
  rewrite <- seq_shift, map_map. exact IH.
Qed.

Lemma nth_error_combine {A B} (l : list A) (l' : list B) i x y :
  nth_error (combine l l') i = Some (x, y) <-> nth_error l i = Some x /\ nth_error l' i = Some y.
Proof.
  revert l' i. induction l as [|a l IH]; intros [|b l'] [|i]; cbn; try (split; [discriminate|intros []; discriminate]).
  - split; [intros H; injection H as -> ->; auto|intros [H1 H2]; injection H1 as ->; injection H2 as ->; reflexivity].
  - apply IH.
Qed.

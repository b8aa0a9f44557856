(** The state of the generic machine after any history of calls. *)
From Coq Require Import Arith Lia Bool List Permutation.
From Verif Require Import Outcome Mp MpProofs Stores RoundSM SmSpec.
Import ListNotations.

(** ** Lists *)
Lemma upd_length {A} (l : list A) i x : length (upd l i x) = length l.
Proof. revert i; induction l as [|a l IH]; intros [|i]; cbn; auto. Qed.
Lemma upd_same {A} (l : list A) i x d : i < length l -> nth i (upd l i x) d = x.
Proof. revert i; induction l as [|a l IH]; intros [|i]; cbn; intros L; try lia; auto. apply IH; lia. Qed.
Lemma upd_other {A} (l : list A) i j x d : i <> j -> nth j (upd l i x) d = nth j l d.
Proof. revert i j; induction l as [|a l IH]; intros [|i] [|j]; cbn; intros L; try lia; auto. Qed.
Lemma nth_error_Some_nth {A} (l : list A) i x d : nth_error l i = Some x -> nth i l d = x.
Proof. revert i; induction l as [|a l IH]; intros [|i]; cbn; intros H; try discriminate; [congruence|auto]. Qed.

Lemma upd_map {A X} (f : X -> A) (l : list X) i y x :
  nth_error l i = Some y -> NoDup l -> forall g, g y = x -> (forall z, z <> y -> g z = f z) -> upd (map f l) i x = map g l.
Proof.
  revert i; induction l as [|a l IH]; intros [|i] H ND g G1 G2; cbn in *; try discriminate.
  - injection H as ->. rewrite G1. apply f_equal. inversion ND as [|? ? N _]; subst. apply map_ext_in. intros z Z. symmetry. apply G2.
    intros ->. exact (N Z).
  - inversion ND as [|? ? N ND']; subst. rewrite (IH i H ND' g eq_refl G2). rewrite (G2 a); [reflexivity|].
    intros ->. apply N. exact (nth_error_In _ _ H).
Qed.

(** ** Peers *)
Section Peers.
Context (me n : nat) (Hme : 1 <= me <= n).
Lemma peers_eq : peers me n = seq 1 (me - 1) ++ seq (S me) (n - me).
Proof.
  unfold peers. replace n with ((me - 1) + (1 + (n - me))) at 1 by lia. rewrite !seq_app, !filter_app.
  replace (1 + (me - 1)) with me by lia. replace (me + 1) with (S me) by lia.
  assert (H : forall l, (forall x, In x l -> x <> me) -> filter (fun j => negb (j =? me)) l = l).
  { induction l as [|a l IH]; intros K; cbn [filter]; [reflexivity|]. destruct (Nat.eqb_spec a me) as [E|E].
    - exfalso. exact (K a (or_introl eq_refl) E).
    - cbn [negb]. rewrite IH; [reflexivity|]. intros x X. apply K. right. exact X. }
  rewrite H; [|intros x X; apply in_seq in X; lia]. cbn [seq filter]. rewrite Nat.eqb_refl. cbn [negb app].
  rewrite H; [reflexivity|]. intros x X; apply in_seq in X; lia.
Qed.
Lemma peers_length : length (peers me n) = n - 1.
Proof. rewrite peers_eq, app_length, !seq_length. lia. Qed.
Lemma in_peers j : In j (peers me n) <-> 1 <= j <= n /\ j <> me.
Proof. unfold peers. rewrite filter_In, in_seq, negb_true_iff, Nat.eqb_neq. lia. Qed.
Lemma peers_nodup : NoDup (peers me n).
Proof. apply NoDup_filter, seq_NoDup. Qed.
Lemma nth_slot j : 1 <= j <= n -> j <> me -> nth_error (peers me n) (slot_of me j) = Some j.
Proof.
  intros J N. rewrite peers_eq. unfold slot_of. destruct (Nat.ltb_spec j me) as [L|L].
  - rewrite nth_error_app1 by (rewrite seq_length; lia). rewrite (nth_error_nth' _ 0) by (rewrite seq_length; lia).
    rewrite seq_nth by lia. f_equal. lia.
  - rewrite nth_error_app2 by (rewrite seq_length; lia). rewrite seq_length.
    rewrite (nth_error_nth' _ 0) by (rewrite seq_length; lia). rewrite seq_nth by lia. f_equal. lia.
Qed.
Lemma nth_slot_out j : n < j -> nth_error (peers me n) (slot_of me j) = None.
Proof.
  intros J. apply nth_error_None. rewrite peers_length. unfold slot_of. destruct (Nat.ltb_spec j me); lia.
Qed.
Lemma nth_peers i : i < n - 1 -> nth_error (peers me n) i = Some (if i <? me - 1 then i + 1 else i + 2).
Proof.
  intros L. rewrite peers_eq. destruct (Nat.ltb_spec i (me - 1)) as [H|H].
  - rewrite nth_error_app1 by (rewrite seq_length; lia). rewrite (nth_error_nth' _ 0) by (rewrite seq_length; lia).
    rewrite seq_nth by lia. f_equal. lia.
  - rewrite nth_error_app2 by (rewrite seq_length; lia). rewrite seq_length.
    rewrite (nth_error_nth' _ 0) by (rewrite seq_length; lia). rewrite seq_nth by lia. f_equal. lia.
Qed.
End Peers.

Lemma all_some_iff {A} (l : list (option A)) r : all_some l = Some r <-> l = map Some r.
Proof.
  revert r; induction l as [|x l IH]; intros r; cbn [all_some].
  - split; intros H; [injection H as <-; reflexivity|]. destruct r; [reflexivity|discriminate].
  - destruct x as [a|]; [|split; [discriminate|destruct r; discriminate]].
    destruct (all_some l) as [t|] eqn:E.
    + split.
      * intros H. injection H as <-. cbn [map]. rewrite (proj1 (IH t) eq_refl). reflexivity.
      * destruct r as [|b r]; cbn [map]; intros H; [discriminate|]. injection H as -> H. apply IH in H. injection H as ->. reflexivity.
    + split; [discriminate|]. destruct r as [|b r]; cbn [map]; intros H; [discriminate|]. injection H as -> H. apply IH in H. discriminate.
Qed.
Lemma all_some_none {A} (l : list (option A)) : all_some l = None <-> In None l.
Proof.
  induction l as [|x l IH]; cbn [all_some In]; [split; [discriminate|contradiction]|].
  destruct x as [a|]; [|split; auto]. destruct (all_some l) as [t|].
  - split; [discriminate|]. intros [H|H]; [discriminate|]. apply IH in H. discriminate.
  - split; [|reflexivity]. intros _. right. apply IH. reflexivity.
Qed.
Lemma finish_some {A} (l : list A) : omapM unwrap (map Some l) = (Ok l : outcome store_err (list A)).
Proof. induction l as [|a l IH]; cbn; [reflexivity|]. rewrite IH. reflexivity. Qed.

Definition nones {A} (l : list (option A)) : nat := length (filter (fun o => match o with None => true | _ => false end) l).
Lemma nones_0 {A} (l : list (option A)) : nones l = 0 <-> ~ In None l.
Proof.
  unfold nones. induction l as [|[a|] l IH]; cbn [filter length In]; [tauto| |].
  - rewrite IH. split; [intros H [K|K]; [discriminate|exact (H K)]|tauto].
  - split; [lia|]. intros H. exfalso. apply H. left. reflexivity.
Qed.
Lemma nones_upd {A} (l : list (option A)) i x : nth_error l i = Some None -> nones (upd l i (Some x)) = nones l - 1.
Proof.
  unfold nones. revert i; induction l as [|a l IH]; intros [|i]; cbn [nth_error upd filter]; intros H; try discriminate.
  - injection H as ->. cbn [length]. lia.
  - destruct a as [a|]; [exact (IH i H)|]. cbn [length]. rewrite (IH i H).
    assert (0 < length (filter (fun o : option A => match o with None => true | _ => false end) l)).
    { clear IH. revert i H. induction l as [|b l IH]; intros [|i] H; cbn [nth_error] in H; try discriminate.
      - injection H as ->. cbn. lia.
      - cbn [filter]. destruct b; [exact (IH i H)|cbn [length]; lia]. }
    lia.
Qed.

(** ** Deliveries *)
Section Hist.
Context {B : Type} (of : B -> nat) (p2p : nat -> bool) (me n : nat).
Notation got := (got of p2p me).
Notation proper := (proper of p2p me).

Lemma deliveries_app (h1 h2 : list (op B)) : deliveries (h1 ++ h2) = deliveries h1 ++ deliveries h2.
Proof. apply flat_map_app. Qed.
Lemma find_app {A} (f : A -> bool) l1 l2 : find f (l1 ++ l2) = match find f l1 with Some x => Some x | None => find f l2 end.
Proof. induction l1 as [|a l IH]; cbn; [reflexivity|]. destruct (f a); [reflexivity|exact IH]. Qed.
Lemma got_app h h' k j : got (h ++ h') k j = match got h k j with Some x => Some x | None => got h' k j end.
Proof. unfold SmSpec.got. rewrite deliveries_app, find_app. destruct (find _ (deliveries h)); reflexivity. Qed.
Lemma got_deliver m k j : got [Deliver m] k j = if proper k j m then Some (m_body m) else None.
Proof. unfold SmSpec.got. cbn. destruct (proper k j m); reflexivity. Qed.
Lemma inbox_mono h h' k l : inbox of p2p me n h k = Some l -> inbox of p2p me n (h ++ h') k = Some l.
Proof.
  unfold inbox. destruct (k =? 0); [auto|]. intros H. apply all_some_iff in H. apply all_some_iff. rewrite <- H.
  assert (K : forall j, In j (peers me n) -> got h k j <> None).
  { intros j J E. assert (Q : In None (map (got h k) (peers me n))) by (rewrite <- E; apply in_map; exact J).
    rewrite H in Q. apply in_map_iff in Q. destruct Q as [? [? _]]. discriminate. }
  apply map_ext_in. intros j J. rewrite got_app. specialize (K j J). destruct (got h k j); congruence.
Qed.
Lemma inbox_none h k : 0 < k -> (inbox of p2p me n h k = None <-> nones (map (got h k) (peers me n)) <> 0).
Proof.
  intros K. unfold inbox. destruct (Nat.eqb_spec k 0) as [?ZE|?ZN]; [lia|]. rewrite all_some_none, nones_0. 
  destruct (all_some (map (got h k) (peers me n))) as [t|] eqn:E.
  - assert (Q : ~ In None (map (got h k) (peers me n))) by (intros Q; apply all_some_none in Q; congruence). tauto.
  - apply all_some_none in E. tauto.
Qed.
End Hist.

Section Runs.
Context {P B R : Type} (step : nat -> R -> list B -> outcome P (R * list (msg B))) (d0 : R).
Lemma runs_mono inb inb' k d out : (forall k l, inb k = Some l -> inb' k = Some l) -> runs step d0 inb k d out -> runs step d0 inb' k d out.
Proof. intros M H. induction H as [|k d out l d' o H IH I S]; [constructor|]. exact (runs_S _ _ _ _ _ _ _ _ _ IH (M _ _ I) S). Qed.
Lemma runs_det inb k d out : runs step d0 inb k d out -> forall d' out', runs step d0 inb k d' out' -> d' = d /\ out' = out.
Proof.
  intros H. induction H as [|k d out l d1 o H IH I S]; intros d' out' H'; inversion H' as [|k2 d2 out2 l2 d3 o2 A1 A2 A3]; subst; [split; reflexivity|].
  destruct (IH _ _ A1) as [-> ->]. rewrite I in A2. injection A2 as <-. rewrite S in A3. injection A3 as <- <-. split; reflexivity.
Qed.
Lemma runs_below inb k d out : runs step d0 inb k d out -> forall j, j < k -> exists d' out' l d'' o,
  runs step d0 inb j d' out' /\ inb j = Some l /\ step j d' l = Ok (d'', o).
Proof.
  intros H. induction H as [|k d out l d1 o H IH I S]; intros j J; [lia|].
  destruct (Nat.eq_dec j k) as [->|N]; [eauto 10|]. apply IH. lia.
Qed.
End Runs.

(** ** The invariant *)
Section Inv.
Context {P B R : Type} (p : params P B R) (d0 : R).
Notation K := (g_K p).
Notation me := (g_me p).
Notation n := (g_n p).
Notation st := (gstate B R).
Hypothesis Hme : 1 <= me <= n.
Hypothesis Hof : forall b, 1 <= g_of p b <= K.
Hypothesis Hexp : forall k, g_exp p k = false -> 0 < k /\ g_again p (k - 1) = true.
Notation got := (got (g_of p) (g_p2p p) me).
Notation inb := (inbox (g_of p) (g_p2p p) me n).
Notation runs := (runs (g_step p) d0).

Definition store_is (h : list (op B)) (k : nat) (s : store B) : Prop :=
  s_me s = me /\ s_slots s = map (got h k) (peers me n) /\ s_left s = nones (map (got h k) (peers me n)).

Definition fails (h : list (op B)) (out : list (msg B)) (k : nat) (o : outcome P (R * list (msg B))) : Prop :=
  exists d l, k <= K /\ runs (inb h) k d out /\ inb h k = Some l /\ g_step p k d l = o /\ (forall x, o <> Ok x).

Record Inv (h : list (op B)) (dr : list (msg B)) (s : st) : Prop := {
  inv_len : length (gs_stores s) = K;
  inv_stores : forall k, 1 <= k <= K ->
    match g_store s k with Some x => store_is h k x | None => exists l, inb h k = Some l end;
  inv_round : match gs_round s with
    | GRun k d => k <= K /\ runs (inb h) k d (dr ++ gs_queue s) /\ (forall j, 1 <= j <= K -> (g_store s j = None <-> j < k))
    | GFinal d => runs (inb h) (S K) d (dr ++ gs_queue s)
    | GGone => (exists d, runs (inb h) (S K) d (dr ++ gs_queue s)) \/ (exists k o, fails h (dr ++ gs_queue s) k o)
    end }.

Definition Rest (h : list (op B)) (s : st) : Prop :=
  forall k d, gs_round s = GRun k d -> g_exp p k = false -> inb h k = None.

Lemma wants_inbox h dr s k d : Inv h dr s -> gs_round s = GRun k d -> g_wants s k = match inb h k with None => true | Some _ => false end.
Proof.
  intros I E. pose proof (inv_round _ _ _ I) as J. rewrite E in J. destruct J as [J1 [_ J2]].
  unfold g_wants. destruct (Nat.ltb_spec 0 k) as [L|L]; cbn [andb].
  - pose proof (inv_stores _ _ _ I k (conj L J1)) as T. destruct (g_store s k) as [x|] eqn:X.
    + destruct T as [_ [_ T]]. cbn [wants_opt]. unfold wants_more. rewrite T. destruct (inb h k) as [l|] eqn:N.
      * apply Nat.ltb_ge. destruct (Nat.eq_dec (nones (map (got h k) (peers me n))) 0) as [Z|Z]; [lia|].
        apply (proj2 (inbox_none (g_of p) (g_p2p p) me n h k L)) in Z. congruence.
      * apply Nat.ltb_lt. apply (proj1 (inbox_none (g_of p) (g_p2p p) me n h k L)) in N. lia.
    + apply J2 in X; lia.
  - replace k with 0 by lia. reflexivity.
Qed.

Lemma exec_inbox h dr s k d l : Inv h dr s -> gs_round s = GRun k d -> inb h k = Some l -> g_exec p s k d = omap_err EProceed (g_step p k d l).
Proof.
  intros I E N. pose proof (inv_round _ _ _ I) as J. rewrite E in J. destruct J as [J1 [_ J2]].
  unfold g_exec. destruct (Nat.ltb_spec 0 k) as [L|L].
  - pose proof (inv_stores _ _ _ I k (conj L J1)) as T. destruct (g_store s k) as [x|] eqn:X; [|apply J2 in X; lia].
    destruct T as [_ [T2 T3]]. unfold take_all. cbn [ok_or obind]. unfold finish.
    assert (Z : nones (map (got h k) (peers me n)) = 0).
    { destruct (Nat.eq_dec (nones (map (got h k) (peers me n))) 0) as [Z|Z]; [exact Z|].
      apply (proj2 (inbox_none (g_of p) (g_p2p p) me n h k L)) in Z. congruence. }
    rewrite T3, Z. cbn [Nat.ltb Nat.leb]. rewrite T2. unfold inbox in N. destruct (Nat.eqb_spec k 0) as [?ZE|?ZN]; [lia|].
    apply all_some_iff in N. rewrite N, finish_some. reflexivity.
  - replace k with 0 in * by lia. cbn in N. injection N as <-. reflexivity.
Qed.

Lemma g_store_take (s : st) k j : 1 <= j -> length (gs_stores s) = K -> k <= K ->
  g_store (g_take s k) j = if (j =? k) then None else g_store s j.
Proof.
  intros J L KK. unfold g_take. destruct (Nat.ltb_spec 0 k) as [Z|Z].
  - unfold g_store. cbn [gs_stores]. destruct (Nat.eqb_spec j k) as [->|N]; [apply upd_same; lia|apply upd_other; lia].
  - destruct (Nat.eqb_spec j k) as [->|N]; [lia|reflexivity].
Qed.
Lemma take_queue (s : st) k : gs_queue (g_take s k) = gs_queue s. Proof. unfold g_take. destruct (0 <? k); reflexivity. Qed.
Lemma take_round (s : st) k : gs_round (g_take s k) = GGone. Proof. unfold g_take. destruct (0 <? k); reflexivity. Qed.
Lemma take_len (s : st) k : length (gs_stores (g_take s k)) = length (gs_stores s).
Proof. unfold g_take. destruct (0 <? k); [apply upd_length|reflexivity]. Qed.

Lemma take_stores h dr s k d l : Inv h dr s -> gs_round s = GRun k d -> inb h k = Some l -> forall j, 1 <= j <= K ->
  match g_store (g_take s k) j with Some x => store_is h j x | None => exists l, inb h j = Some l end.
Proof.
  intros I E N j J. pose proof (inv_round _ _ _ I) as Q. rewrite E in Q. destruct Q as [Q1 _].
  rewrite g_store_take by (try apply (inv_len _ _ _ I); lia). destruct (Nat.eqb_spec j k) as [->|_]; [eauto|]. exact (inv_stores _ _ _ I j J).
Qed.

(** One executed round *)
Lemma exec_ok h dr s k d l d' out : Inv h dr s -> gs_round s = GRun k d -> inb h k = Some l -> g_step p k d l = Ok (d', out) ->
  Inv h dr {| gs_round := g_next p k d'; gs_stores := gs_stores (g_take s k); gs_queue := gs_queue (g_take s k) ++ out |}.
Proof.
  intros I E N S. pose proof (inv_round _ _ _ I) as Q. rewrite E in Q. destruct Q as [Q1 [Q2 Q3]].
  assert (RR : runs (inb h) (Datatypes.S k) d' (dr ++ gs_queue (g_take s k) ++ out)).
  { rewrite app_assoc, take_queue. exact (runs_S _ _ _ _ _ _ _ _ _ Q2 N S). }
  split; cbn [gs_stores gs_round gs_queue].
  - rewrite take_len. exact (inv_len _ _ _ I).
  - intros j J. exact (take_stores h dr s k d l I E N j J).
  - unfold g_next. destruct (Nat.eqb_spec k K) as [->|NK]; [exact RR|]. split; [lia|]. split; [exact RR|].
    intros j J. unfold g_store. cbn [gs_stores]. fold (g_store (g_take s k) j).
    rewrite g_store_take by (try apply (inv_len _ _ _ I); lia). destruct (Nat.eqb_spec j k) as [->|Nj]; [split; [lia|reflexivity]|].
    rewrite (Q3 j J). lia.
Qed.
Lemma exec_fail h dr s k d l o : Inv h dr s -> gs_round s = GRun k d -> inb h k = Some l -> g_step p k d l = o -> (forall x, o <> Ok x) ->
  Inv h dr (g_take s k) /\ fails h (dr ++ gs_queue (g_take s k)) k o.
Proof.
  intros I E N S F. pose proof (inv_round _ _ _ I) as Q. rewrite E in Q. destruct Q as [Q1 [Q2 Q3]].
  assert (FF : fails h (dr ++ gs_queue (g_take s k)) k o).
  { exists d, l. rewrite take_queue. auto. }
  split; [|exact FF]. split.
  - rewrite take_len. exact (inv_len _ _ _ I).
  - intros j J. exact (take_stores h dr s k d l I E N j J).
  - rewrite take_round. right. exists k, o. exact FF.
Qed.

Definition post (h : list (op B)) (dr : list (msg B)) (s s' : st) (o : outcome (sm_error P) unit) : Prop :=
  match o with
  | Ok _ => gs_round s' = GGone -> s' = s
  | Err e => gs_round s' = GGone /\ exists k pe, e = EProceed pe /\ fails h (dr ++ gs_queue s') k (Err pe)
  | Panic => gs_round s' = GGone /\ exists k, fails h (dr ++ gs_queue s') k Panic
  end.

Lemma proceed_inv h dr mb : forall fuel s, Inv h dr s -> S K - g_current p s < fuel ->
  Inv h dr (fst (g_proceed p fuel mb s)) /\ g_current p s <= g_current p (fst (g_proceed p fuel mb s)) /\
  post h dr s (fst (g_proceed p fuel mb s)) (snd (g_proceed p fuel mb s)).
Proof.
  induction fuel as [|f IH]; intros s I L; [lia|]. cbn [g_proceed]. destruct (gs_round s) as [k d|d|] eqn:E.
  2,3: cbn [fst snd post]; auto with arith.
  rewrite (wants_inbox h dr s k d I E). destruct (inb h k) as [l|] eqn:N; cbn [negb andb].
  2: { cbn [fst snd post]; split; [exact I|]; split; [lia|auto]. }
  destruct (negb (g_exp p k) || mb).
  2: { cbn [fst snd post]; split; [exact I|]; split; [lia|auto]. }
  pose proof (inv_round _ _ _ I) as Q. rewrite E in Q. destruct Q as [Q1 _].
  assert (CU : g_current p s = k) by (unfold g_current; rewrite E; reflexivity).
  rewrite (exec_inbox h dr s k d l I E N). destruct (g_step p k d l) as [[d' out]|pe|] eqn:S; cbn [omap_err].
  - pose proof (exec_ok h dr s k d l d' out I E N S) as I'. set (s'' := Build_gstate _ _ _) in *.
    assert (CN : g_current p s'' = Datatypes.S k).
    { unfold g_current, s'', g_next. cbn [gs_round]. destruct (Nat.eqb_spec k K) as [->|]; reflexivity. }
    assert (NG : gs_round s'' <> GGone) by (unfold s'', g_next; cbn [gs_round]; destruct (k =? K); discriminate).
    destruct (g_again p k).
    + assert (LL : Datatypes.S K - g_current p s'' < f) by lia.
      destruct (IH s'' I' LL) as [A1 [A2 A3]]. split; [exact A1|]. split; [lia|].
      destruct (g_proceed p f mb s'') as [s3 o3] eqn:PQ. cbn [fst snd] in *. unfold post in *. destruct o3 as [u|e|]; [|exact A3|exact A3].
      intros G. specialize (A3 G). subst s3. contradiction.
    + cbn [fst snd]. split; [exact I'|]. split; [lia|]. cbn [post]. intros G. contradiction.
  - destruct (exec_fail h dr s k d l _ I E N S) as [F1 F2]; [discriminate|]. cbn [fst snd]. split; [exact F1|].
    split; [unfold g_current at 2; rewrite take_round; lia|]. split; [apply take_round|]. eauto.
  - destruct (exec_fail h dr s k d l _ I E N S) as [F1 F2]; [discriminate|]. cbn [fst snd]. split; [exact F1|].
    split; [unfold g_current at 2; rewrite take_round; lia|]. split; [apply take_round|]. eauto.
Qed.

Lemma proceed_rest h dr mb : forall fuel s, Inv h dr s -> S K - g_current p s < fuel -> Rest h (fst (g_proceed p fuel mb s)).
Proof.
  induction fuel as [|f IH]; intros s I L; [lia|]. cbn [g_proceed]. destruct (gs_round s) as [k d|d|] eqn:E.
  2,3: cbn [fst]; intros k' d' K1; congruence.
  rewrite (wants_inbox h dr s k d I E). destruct (inb h k) as [l|] eqn:N; cbn [negb andb].
  2: { cbn [fst]. intros k' d' K1 _. rewrite E in K1. injection K1 as <- <-. exact N. }
  destruct (negb (g_exp p k) || mb) eqn:X.
  2: { cbn [fst]. intros k' d' K1 K2. rewrite E in K1. injection K1 as <- <-. rewrite K2 in X. discriminate. }
  pose proof (inv_round _ _ _ I) as Q. rewrite E in Q. destruct Q as [Q1 _].
  assert (CU : g_current p s = k) by (unfold g_current; rewrite E; reflexivity).
  rewrite (exec_inbox h dr s k d l I E N). destruct (g_step p k d l) as [[d' out]|pe|] eqn:S; cbn [omap_err].
  2,3: cbn [fst]; intros k' d'' K1; rewrite take_round in K1; discriminate.
  pose proof (exec_ok h dr s k d l d' out I E N S) as I'. set (s'' := Build_gstate _ _ _) in *.
  assert (CN : g_current p s'' = Datatypes.S k).
  { unfold g_current, s'', g_next. cbn [gs_round]. destruct (Nat.eqb_spec k K) as [->|]; reflexivity. }
  destruct (g_again p k) eqn:AG.
  - apply (IH s'' I'). lia.
  - cbn [fst]. intros k' d'' K1 K2. destruct (Hexp k' K2) as [E1 E2]. exfalso.
    unfold s'', g_next in K1. cbn [gs_round] in K1. destruct (k =? K); [discriminate|]. injection K1 as <- _.
    replace (Datatypes.S k - 1) with k in E2 by lia. congruence.
Qed.

(** ** handle_incoming *)
Lemma inb_ext h h' k : (forall j, In j (peers me n) -> got h k j = got h' k j) -> inb h k = inb h' k.
Proof. intros E. unfold inbox. destruct (k =? 0); [reflexivity|]. apply f_equal. apply map_ext_in. exact E. Qed.
Lemma Inv_ext h h' dr s : (forall k j, In j (peers me n) -> got h k j = got h' k j) -> Inv h dr s -> Inv h' dr s.
Proof.
  intros E I. assert (X : forall k, inb h k = inb h' k) by (intros k; apply inb_ext; intros j; apply E).
  assert (M : forall k d out, runs (inb h) k d out -> runs (inb h') k d out).
  { intros k d out. apply runs_mono. intros k' l. rewrite X. auto. }
  destruct I as [I1 I2 I3]. split; [exact I1| |].
  - intros k Hk. specialize (I2 k Hk). destruct (g_store s k) as [x|]; [|rewrite <- X; exact I2].
    unfold store_is in *. assert (Y : map (got h k) (peers me n) = map (got h' k) (peers me n)) by (apply map_ext_in; intros j; apply E).
    rewrite <- Y. exact I2.
  - destruct (gs_round s) as [k d|d|].
    + destruct I3 as [A1 [A2 A3]]. split; [exact A1|]. split; [apply M; exact A2|exact A3].
    + apply M. exact I3.
    + destruct I3 as [[d I3]|[k [o [d [l [A1 [A2 [A3 A4]]]]]]]]; [left; exists d; apply M; exact I3|].
      right. exists k, o, d, l. split; [exact A1|]. split; [apply M; exact A2|]. rewrite <- X. auto.
Qed.
Lemma Rest_ext h h' s : (forall k j, In j (peers me n) -> got h k j = got h' k j) -> Rest h s -> Rest h' s.
Proof. intros E H k d K1 K2. rewrite <- (inb_ext h h' k (E k)). exact (H k d K1 K2). Qed.

Lemma rest_noop h dr s f : Inv h dr s -> Rest h s -> g_proceed p (S f) false s = (s, Ok tt).
Proof.
  intros I H. cbn [g_proceed]. destruct (gs_round s) as [k d|d|] eqn:E; [|reflexivity|reflexivity].
  rewrite (wants_inbox h dr s k d I E). destruct (g_exp p k) eqn:X; cbn [negb orb]; [rewrite andb_false_r; reflexivity|].
  rewrite (H k d E X). reflexivity.
Qed.

(** A message that counts: properly addressed, from a peer, the first of its round from that peer. *)
Definition fresh (h : list (op B)) (m : msg B) : bool :=
  addressed_ok (g_of p) (g_p2p p) me m && (1 <=? m_from m) && (m_from m <=? n) && negb (m_from m =? me) &&
  match got h (g_of p (m_body m)) (m_from m) with None => true | Some _ => false end.

Lemma proper_round k j m : proper (g_of p) (g_p2p p) me k j m = true -> g_of p (m_body m) = k /\ m_from m = j /\ addressed_ok (g_of p) (g_p2p p) me m = true.
Proof. unfold proper. rewrite !andb_true_iff, !Nat.eqb_eq. tauto. Qed.

Lemma stale_got h m : fresh h m = false -> forall k j, In j (peers me n) -> got h k j = got (h ++ [Deliver m]) k j.
Proof.
  intros F k j J. rewrite got_app, got_deliver. destruct (got h k j) as [x|] eqn:G; [reflexivity|].
  destruct (proper (g_of p) (g_p2p p) me k j m) eqn:Q; [|reflexivity]. exfalso. apply proper_round in Q. destruct Q as [<- [<- Q]].
  apply (in_peers me n Hme) in J. unfold fresh in F. rewrite Q, G in F. cbn [andb] in F.
  destruct (Nat.leb_spec 1 (m_from m)); [|lia]. destruct (Nat.leb_spec (m_from m) n); [|lia].
  destruct (Nat.eqb_spec (m_from m) me) as [?ZE|?ZN]; [lia|]. discriminate.
Qed.

Lemma stale_same h dr s m : Inv h dr s -> Rest h s -> fresh h m = false ->
  fst (g_handle p s m) = s /\
  (snd (g_handle p s m) = Err (EOutOfOrder (g_current p s) (g_rep p (g_of p (m_body m)))) /\ g_store s (g_of p (m_body m)) = None \/
   (exists e, snd (g_handle p s m) = Err (EHandle e)) \/
   snd (g_handle p s m) = Ok tt /\ m_from m = me).
Proof.
  intros I RS F. pose proof (Hof (m_body m)) as Hk. unfold g_handle. set (k := g_of p (m_body m)) in *.
  destruct (g_store s k) as [x|] eqn:X; [|cbn [fst snd]; auto].
  pose proof (inv_stores _ _ _ I k Hk) as T. rewrite X in T. destruct T as [T1 [T2 T3]].
  assert (PS : m_from m <> 0 -> addressed_ok (g_of p) (g_p2p p) me m = true ->
     push_slot x m = Ok x /\ m_from m = me \/ exists e, push_slot x m = Err e).
  { intros N0 AD. unfold push_slot. rewrite T1. destruct (Nat.eqb_spec (m_from m) me) as [E|NE]; [auto|]. right.
    rewrite T2. destruct (nth_error (map (got h k) (peers me n)) (slot_of me (m_from m))) as [[b|]|] eqn:NE2; [eauto| |eauto].
    exfalso. destruct (Nat.leb_spec (m_from m) n) as [LE|GT].
    - rewrite nth_error_map, (nth_slot me n Hme) in NE2 by lia. cbn [option_map] in NE2. injection NE2 as G.
      unfold fresh in F. fold k in F. rewrite AD, G in F. cbn [andb] in F.
      destruct (Nat.leb_spec 1 (m_from m)); [|lia]. destruct (Nat.leb_spec (m_from m) n); [|lia].
      destruct (Nat.eqb_spec (m_from m) me) as [?ZE|?ZN]; [lia|]. discriminate.
    - rewrite nth_error_map, (nth_slot_out me n Hme) in NE2 by lia. discriminate. }
  assert (PU : g_push p k x m = Ok x /\ m_from m = me \/ exists e, g_push p k x m = Err e).
  { unfold g_push. destruct (g_p2p p k) eqn:PP.
    - unfold push_p2p. destruct (Nat.eqb_spec (m_from m) 0) as [Z|Z]; [eauto|].
      destruct (addr_eqb (m_to m) (Some (s_me x))) eqn:AE; [|eauto]. apply PS; [exact Z|].
      unfold addressed_ok. fold k. rewrite PP. destruct (m_to m) as [r|]; cbn [addr_eqb] in AE; [|discriminate]. cbn [andb]. rewrite <- T1. exact AE.
    - unfold push_broadcast. destruct (Nat.eqb_spec (m_from m) 0) as [Z|Z]; [eauto|].
      destruct (m_to m) as [r|] eqn:MT; [eauto|]. apply PS; [exact Z|].
      unfold addressed_ok. fold k. rewrite PP, MT. reflexivity. }
  destruct PU as [[PU EQ]|[e PU]]; rewrite PU; [|cbn [fst snd]; eauto].
  assert (US : upd (gs_stores s) (k - 1) (Some x) = gs_stores s).
  { pose proof (inv_len _ _ _ I) as LL. unfold g_store in X. assert (L : k - 1 < length (gs_stores s)) by lia.
    revert L X. generalize (gs_stores s) (k - 1). induction l as [|a l IH]; intros [|i]; cbn; intros L X; try lia; [congruence|].
    rewrite IH; [reflexivity|lia|exact X]. }
  rewrite US. replace {| gs_round := gs_round s; gs_stores := gs_stores s; gs_queue := gs_queue s |} with s by (destruct s; reflexivity).
  unfold g_fuel. rewrite (rest_noop h dr s _ I RS). cbn [fst snd]. auto.
Qed.

Lemma push_fresh h dr s m : Inv h dr s -> fresh h m = true -> exists x x',
  g_store s (g_of p (m_body m)) = Some x /\ g_push p (g_of p (m_body m)) x m = Ok x' /\ store_is (h ++ [Deliver m]) (g_of p (m_body m)) x'.
Proof.
  intros I F. pose proof (Hof (m_body m)) as Hk. set (k := g_of p (m_body m)) in *.
  unfold fresh in F. fold k in F. rewrite !andb_true_iff in F. destruct F as [[[[F1 F2] F3] F4] F5].
  apply Nat.leb_le in F2. apply Nat.leb_le in F3. apply negb_true_iff, Nat.eqb_neq in F4.
  destruct (got h k (m_from m)) as [b|] eqn:G; [discriminate|]. clear F5.
  assert (JP : In (m_from m) (peers me n)) by (apply (in_peers me n Hme); lia).
  pose proof (inv_stores _ _ _ I k Hk) as T. destruct (g_store s k) as [x|] eqn:X.
  2: { exfalso. destruct T as [l T]. unfold inbox in T. destruct (Nat.eqb_spec k 0) as [?ZE|?ZN]; [lia|].
       assert (Q : all_some (map (got h k) (peers me n)) = None) by (apply all_some_none; rewrite <- G; apply in_map; exact JP). congruence. }
  destruct T as [T1 [T2 T3]].
  assert (NS : nth_error (s_slots x) (slot_of me (m_from m)) = Some None).
  { rewrite T2, nth_error_map, (nth_slot me n Hme) by lia. cbn [option_map]. rewrite G. reflexivity. }
  assert (PS : push_slot x m = Ok {| s_me := me; s_slots := upd (s_slots x) (slot_of me (m_from m)) (Some (m_body m)); s_left := s_left x - 1 |}).
  { unfold push_slot. rewrite T1. destruct (Nat.eqb_spec (m_from m) me) as [?ZE|?ZN]; [lia|]. rewrite NS. reflexivity. }
  exists x. eexists. split; [reflexivity|]. split.
  - unfold g_push. unfold addressed_ok in F1. fold k in F1. destruct (g_p2p p k).
    + unfold push_p2p. destruct (Nat.eqb_spec (m_from m) 0) as [?ZE|?ZN]; [lia|]. destruct (m_to m) as [r|]; cbn [andb negb] in F1; [|discriminate]. cbn [addr_eqb]. rewrite T1, F1. exact PS.
    + unfold push_broadcast. destruct (Nat.eqb_spec (m_from m) 0) as [?ZE|?ZN]; [lia|]. destruct (m_to m); [discriminate|]. exact PS.
  - assert (MU : upd (s_slots x) (slot_of me (m_from m)) (Some (m_body m)) = map (got (h ++ [Deliver m]) k) (peers me n)).
    { rewrite T2. apply (upd_map _ _ _ (m_from m)); [apply nth_slot; [exact Hme|lia|lia]|apply peers_nodup| |].
      - rewrite got_app, G, got_deliver. unfold proper. fold k. rewrite !Nat.eqb_refl, F1. reflexivity.
      - intros z Z. rewrite got_app, got_deliver. destruct (got h k z); [reflexivity|]. unfold proper.
        destruct (Nat.eqb_spec (m_from m) z) as [?ZE|?ZN]; [congruence|]. rewrite andb_false_r. reflexivity. }
    split; [reflexivity|]. cbn [s_slots s_left]. split; [exact MU|].
    rewrite <- MU. rewrite nones_upd by exact NS. rewrite T3, T2. reflexivity.
Qed.

Lemma fresh_inv h dr s m x' : Inv h dr s -> fresh h m = true -> store_is (h ++ [Deliver m]) (g_of p (m_body m)) x' ->
  g_store s (g_of p (m_body m)) <> None ->
  Inv (h ++ [Deliver m]) dr {| gs_round := gs_round s; gs_stores := upd (gs_stores s) (g_of p (m_body m) - 1) (Some x'); gs_queue := gs_queue s |}.
Proof.
  intros I F SI XN. pose proof (Hof (m_body m)) as Hk. set (k := g_of p (m_body m)) in *.
  assert (M : forall k d out, runs (inb h) k d out -> runs (inb (h ++ [Deliver m])) k d out).
  { intros k' d out. apply runs_mono. intros k2 l. apply inbox_mono. }
  pose proof (inv_len _ _ _ I) as IL.
  assert (GS : forall j, 1 <= j <= K -> g_store {| gs_round := gs_round s; gs_stores := upd (gs_stores s) (k - 1) (Some x'); gs_queue := gs_queue s |} j
     = if (j =? k) then Some x' else g_store s j).
  { intros j J. unfold g_store. cbn [gs_stores]. destruct (Nat.eqb_spec j k) as [->|N]; [apply upd_same; lia|apply upd_other; lia]. }
  split; cbn [gs_round gs_queue].
  - cbn [gs_stores]. rewrite upd_length. exact IL.
  - intros j J. rewrite (GS j J). destruct (Nat.eqb_spec j k) as [->|N]; [exact SI|].
    pose proof (inv_stores _ _ _ I j J) as T.
    assert (Y : map (got (h ++ [Deliver m]) j) (peers me n) = map (got h j) (peers me n)).
    { apply map_ext. intros z. rewrite got_app, got_deliver. destruct (got h j z); [reflexivity|]. unfold proper. fold k.
      destruct (Nat.eqb_spec k j) as [?ZE|?ZN]; [congruence|]. reflexivity. }
    destruct (g_store s j) as [y|]; [unfold store_is; rewrite Y; exact T|]. destruct T as [l T]. exists l. apply inbox_mono. exact T.
  - pose proof (inv_round _ _ _ I) as Q. destruct (gs_round s) as [k' d|d|].
    + destruct Q as [Q1 [Q2 Q3]]. split; [exact Q1|]. split; [apply M; exact Q2|]. intros j J. rewrite (GS j J).
      destruct (Nat.eqb_spec j k) as [->|N]; [|exact (Q3 j J)]. split; [discriminate|]. intros L. exfalso. apply XN. apply (Q3 k J). exact L.
    + apply M. exact Q.
    + destruct Q as [[d Q]|[k' [o [d [l [A1 [A2 [A3 A4]]]]]]]]; [left; exists d; apply M; exact Q|].
      right. exists k', o, d, l. split; [exact A1|]. split; [apply M; exact A2|]. split; [apply inbox_mono; exact A3|exact A4].
Qed.

Lemma handle_inv h dr s m : Inv h dr s -> Rest h s ->
  Inv (h ++ [Deliver m]) dr (fst (g_handle p s m)) /\ Rest (h ++ [Deliver m]) (fst (g_handle p s m)) /\
  g_current p s <= g_current p (fst (g_handle p s m)).
Proof.
  intros I RS. destruct (fresh h m) eqn:F.
  - destruct (push_fresh h dr s m I F) as [x [x' [X1 [X2 X3]]]]. unfold g_handle. rewrite X1, X2.
    assert (I' := fresh_inv h dr s m x' I F X3 (ltac:(rewrite X1; discriminate))). set (s1 := Build_gstate _ _ _) in *.
    assert (L : S K - g_current p s1 < g_fuel p) by (unfold g_fuel; lia).
    destruct (proceed_inv _ dr false _ s1 I' L) as [A1 [A2 A3]]. split; [exact A1|]. split; [exact (proceed_rest _ dr false _ s1 I' L)|exact A2].
  - destruct (stale_same h dr s m I RS F) as [E _]. rewrite E. pose proof (stale_got h m F) as SG.
    split; [exact (Inv_ext _ _ dr s SG I)|]. split; [exact (Rest_ext _ _ s SG RS)|lia].
Qed.
Lemma handle_post h dr s m : Inv h dr s -> Rest h s -> fresh h m = true ->
  snd (g_handle p s m) = Ok tt /\ (gs_round (fst (g_handle p s m)) = GGone -> gs_round s = GGone /\ gs_queue (fst (g_handle p s m)) = gs_queue s) \/
  gs_round (fst (g_handle p s m)) = GGone /\
   (exists k, snd (g_handle p s m) = Panic /\ fails (h ++ [Deliver m]) (dr ++ gs_queue (fst (g_handle p s m))) k Panic \/
    exists pe, snd (g_handle p s m) = Err (EProceed pe) /\ fails (h ++ [Deliver m]) (dr ++ gs_queue (fst (g_handle p s m))) k (Err pe)).
Proof.
  intros I RS F. destruct (push_fresh h dr s m I F) as [x [x' [X1 [X2 X3]]]]. unfold g_handle. rewrite X1, X2.
  assert (I' := fresh_inv h dr s m x' I F X3 (ltac:(rewrite X1; discriminate))). set (s1 := Build_gstate _ _ _) in *.
  assert (L : S K - g_current p s1 < g_fuel p) by (unfold g_fuel; lia).
  destruct (proceed_inv _ dr false _ s1 I' L) as [A1 [A2 A3]]. destruct (snd (g_proceed p (g_fuel p) false s1)) as [[]|e|]; cbn [post] in A3.
  - left. split; [reflexivity|]. intros G. specialize (A3 G). rewrite A3 in *. split; [exact G|reflexivity].
  - destruct A3 as [A3 [k [pe [-> A4]]]]. right. split; [exact A3|]. exists k. right. eauto.
  - destruct A3 as [A3 [k A4]]. right. split; [exact A3|]. exists k. left. auto.
Qed.

(** ** Histories *)
Lemma nodeliver_got h o : (forall m, o <> Deliver m) -> forall k j, In j (peers me n) -> got h k j = got (h ++ [o]) k j.
Proof. intros N k j _. rewrite got_app. destruct o; [exfalso; eapply N; reflexivity| | |]; destruct (got h k j); reflexivity. Qed.

Definition drained1 (r : ret P B R) : list (msg B) := match r with RMsgs l => l | _ => [] end.
Lemma op_inv h dr s o : Inv h dr s -> Rest h s ->
  Inv (h ++ [o]) (dr ++ drained1 (snd (g_op p s o))) (fst (g_op p s o)) /\ Rest (h ++ [o]) (fst (g_op p s o)) /\
  g_current p s <= g_current p (fst (g_op p s o)).
Proof.
  intros I RS. assert (L : S K - g_current p s < g_fuel p) by (unfold g_fuel; lia). destruct o as [m| | |].
  - cbn [g_op]. pose proof (handle_inv h dr s m I RS) as Q. destruct (g_handle p s m) as [s' r]. cbn [fst snd drained1] in *. rewrite app_nil_r. exact Q.
  - assert (E : forall k j, In j (peers me n) -> got h k j = got (h ++ [Proceed]) k j) by (apply nodeliver_got; discriminate).
    destruct (proceed_inv h dr true _ s I L) as [A1 [A2 A3]]. pose proof (proceed_rest h dr true _ s I L) as A4.
    cbn [g_op]. destruct (g_proceed p (g_fuel p) true s) as [s' r]. cbn [fst snd drained1] in *. rewrite app_nil_r.
    split; [exact (Inv_ext _ _ _ _ E A1)|]. split; [exact (Rest_ext _ _ _ E A4)|exact A2].
  - assert (E : forall k j, In j (peers me n) -> got h k j = got (h ++ [Drain]) k j) by (apply nodeliver_got; discriminate).
    cbn [g_op g_drain fst snd drained1]. split; [|split].
    + apply (Inv_ext h); [exact E|]. destruct I as [I1 I2 I3]. split; cbn [gs_stores gs_round gs_queue]; [exact I1|exact I2|]. rewrite app_nil_r. exact I3.
    + apply (Rest_ext h); [exact E|]. exact RS.
    + unfold g_current. cbn [gs_round]. lia.
  - assert (E : forall k j, In j (peers me n) -> got h k j = got (h ++ [Pick]) k j) by (apply nodeliver_got; discriminate).
    assert (G : Inv h dr (fst (g_pick (P := P) s)) /\ Rest h (fst (g_pick (P := P) s)) /\ g_current p s <= g_current p (fst (g_pick (P := P) s))).
    { unfold g_pick. destruct (gs_round s) as [k d|d|] eqn:ER; cbn [fst]; [auto with arith| |auto with arith].
      split; [|split].
      - destruct I as [I1 I2 I3]. rewrite ER in I3. split; cbn [gs_stores gs_round gs_queue]; [exact I1|exact I2|]. left. exists d. exact I3.
      - intros k d' Q. discriminate.
      - unfold g_current. cbn [gs_round]. rewrite ER. lia. }
    destruct G as [G1 [G2 G3]]. cbn [g_op]. destruct (g_pick s) as [s' r]. cbn [fst snd drained1] in *. rewrite app_nil_r.
    split; [exact (Inv_ext _ _ _ _ E G1)|]. split; [exact (Rest_ext _ _ _ E G2)|exact G3].
Qed.

Lemma nth_repeat_some {A} (x : A) m i : i < m -> nth i (repeat (Some x) m) None = Some x.
Proof. revert i; induction m as [|m IH]; intros [|i] L; cbn; try lia; [reflexivity|apply IH; lia]. Qed.
Lemma init_inv : Inv [] [] (g_init p d0) /\ Rest [] (g_init p d0).
Proof.
  split.
  - split; cbn [g_init gs_stores gs_round gs_queue app].
    + apply repeat_length.
    + intros k Hk. unfold g_store, g_init. cbn [gs_stores]. rewrite nth_repeat_some by lia.
      assert (E : map (got [] k) (peers me n) = repeat None (n - 1)).
      { rewrite <- (peers_length me n Hme). induction (peers me n) as [|a l IH]; cbn; [reflexivity|]. rewrite IH. reflexivity. }
      unfold store_is. rewrite E. split; [reflexivity|]. split; [reflexivity|]. cbn [store_new s_left].
      generalize (n - 1) as w. induction w as [|m IH]; cbn; [reflexivity|]. unfold nones in *. congruence.
    + split; [lia|]. split; [constructor|]. intros j J. unfold g_store, g_init. cbn [gs_stores]. rewrite nth_repeat_some by lia. split; [discriminate|lia].
  - intros k d E X. cbn in E. injection E as <- <-. destruct (Hexp 0 X). lia.
Qed.

Lemma run_ops_app {S' P' B' R'} (step : S' -> op B' -> S' * ret P' B' R') s h1 h2 :
  run_ops step s (h1 ++ h2) =
  (fst (run_ops step (fst (run_ops step s h1)) h2), snd (run_ops step s h1) ++ snd (run_ops step (fst (run_ops step s h1)) h2)).
Proof.
  revert s; induction h1 as [|o h1 IH]; intros s; cbn [run_ops app fst snd]; [destruct (run_ops step s h2); reflexivity|].
  destruct (step s o) as [s1 r]. rewrite IH. destruct (run_ops step s1 h1) as [s2 rs]. cbn [fst snd]. reflexivity.
Qed.

Theorem run_inv h : let '(s, rs) := run_ops (g_op p) (g_init p d0) h in Inv h (drained rs) s /\ Rest h s.
Proof.
  induction h as [|o h IH] using rev_ind; [exact init_inv|]. rewrite run_ops_app. destruct (run_ops (g_op p) (g_init p d0) h) as [s rs].
  destruct IH as [I RS]. cbn [fst snd run_ops]. destruct (op_inv h (drained rs) s o I RS) as [A1 [A2 _]].
  destruct (g_op p s o) as [s' r]. cbn [fst snd] in *. split; [|exact A2].
  unfold drained in *. rewrite flat_map_app. cbn [flat_map]. rewrite app_nil_r. exact A1.
Qed.
End Inv.

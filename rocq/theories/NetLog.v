(** The log of a schedule of a network determines the history of every machine and what is on the wire. *)
From Coq Require Import Arith Lia Bool List Permutation.
From Verif Require Import Outcome Mp MpProofs Stores RoundSM SmSpec SmProofs SmTheory SmTags Network.
Import ListNotations.

Lemma upd_nth_same {A} (l : list A) k x : k < length l -> nth_error (upd l k x) k = Some x.
Proof. revert k; induction l as [|a l IH]; intros [|k] L; cbn in *; [lia|lia|reflexivity|apply IH; lia]. Qed.
Lemma upd_nth_other {A} (l : list A) k j x : k <> j -> nth_error (upd l k x) j = nth_error l j.
Proof. revert k j; induction l as [|a l IH]; intros [|k] [|j] N; cbn; try reflexivity; [lia|]. apply IH. lia. Qed.
Lemma upd_id {A} (l : list A) k x : nth_error l k = Some x -> upd l k x = l.
Proof. revert k; induction l as [|a l IH]; intros [|k] E; cbn in *; try discriminate; [congruence|]. rewrite IH; [reflexivity|exact E]. Qed.
Lemma upd_sum {A} (f : A -> nat) (l : list A) k x y : nth_error l k = Some y -> list_sum (map f (upd l k x)) + f y = list_sum (map f l) + f x.
Proof. unfold list_sum. revert k; induction l as [|a l IH]; intros [|k] E; cbn in *; try discriminate; [injection E as ->; lia|]. specialize (IH k E). cbn in IH. lia. Qed.
Lemma perm_remove {A} (l : list A) x a : nth_error l x = Some a -> Permutation l (a :: firstn x l ++ skipn (S x) l).
Proof.
  revert x; induction l as [|b l IH]; intros [|x] E; cbn in *; try discriminate; [injection E as ->; reflexivity|].
  rewrite perm_swap. constructor. apply IH. exact E.
Qed.
Lemma flat_map_app_perm {A X} (f g : A -> list X) l : Permutation (flat_map (fun x => f x ++ g x) l) (flat_map f l ++ flat_map g l).
Proof.
  induction l as [|a l IH]; cbn [flat_map]; [reflexivity|]. rewrite IH, <- !app_assoc. apply Permutation_app_head. rewrite !app_assoc. apply Permutation_app_tail, Permutation_app_comm.
Qed.
Lemma flat_map_one {X} (y : list X) i l : NoDup l -> In i l -> flat_map (fun j => if (i =? j) then y else []) l = y.
Proof.
  induction l as [|a l IH]; intros N I; [contradiction|]. inversion N as [|? ? N1 N2]; subst. cbn [flat_map]. destruct (Nat.eqb_spec i a) as [->|E].
  - assert (Z : flat_map (fun j => if (a =? j) then y else []) l = []).
    { clear -N1. induction l as [|b l IH]; [reflexivity|]. cbn [flat_map]. destruct (Nat.eqb_spec a b) as [->|E]; [exfalso; apply N1; left; reflexivity|]. apply IH. intros Q. apply N1. right. exact Q. }
    rewrite Z, app_nil_r. reflexivity.
  - destruct I as [->|I]; [contradiction|]. apply IH; assumption.
Qed.
Lemma nodup_flat_map {A X} (f : A -> list X) l : NoDup l -> (forall x, In x l -> NoDup (f x)) ->
  (forall x y z, In x l -> In y l -> In z (f x) -> In z (f y) -> x = y) -> NoDup (flat_map f l).
Proof.
  induction l as [|a l IH]; intros N F D; [constructor|]. inversion N as [|? ? N1 N2]; subst. cbn [flat_map]. apply nodup_app.
  - apply F. left. reflexivity.
  - apply IH; [exact N2|intros x X1; apply F; right; exact X1|]. intros x y z X1 Y1. apply D; right; assumption.
  - intros z Z1 Z2. apply in_flat_map in Z2. destruct Z2 as [b [B1 B2]]. assert (a = b) by (apply (D a b z); [left; reflexivity|right; exact B1|exact Z1|exact B2]). subst b. contradiction.
Qed.
Lemma nodup_app_l {A} (l l' : list A) : NoDup (l ++ l') -> NoDup l.
Proof. induction l as [|a l IH]; intros N; [constructor|]. inversion N as [|? ? N1 N2]; subst. constructor; [intros X; apply N1; apply in_app_iff; left; exact X|exact (IH N2)]. Qed.
Lemma flat_map_len {A X} (f : A -> list X) l : length (flat_map f l) = list_sum (map (fun x => length (f x)) l).
Proof. unfold list_sum. induction l as [|a l IH]; cbn; [reflexivity|]. rewrite app_length, IH. reflexivity. Qed.
Lemma sum_le {A} (f g : A -> nat) l : (forall x, In x l -> f x <= g x) -> list_sum (map f l) <= list_sum (map g l).
Proof. unfold list_sum. induction l as [|a l IH]; intros H; cbn; [lia|]. pose proof (H a (or_introl eq_refl)). specialize (IH (fun x X => H x (or_intror X))). lia. Qed.
Lemma sum_const {A} (c : nat) (l : list A) : list_sum (map (fun _ => c) l) = length l * c.
Proof. unfold list_sum. induction l as [|a l IH]; cbn; [reflexivity|]. rewrite IH. reflexivity. Qed.

Section Log.
Context {S0 P B O : Type} (opf : nat -> S0 -> op B -> S0 * ret P B O).
Notation entry := (nat * op B * ret P B O)%type.
Notation exec := (net_exec opf).

Lemma exec_snoc w acts a : exec w (acts ++ [a]) =
  (fst (net_step opf (fst (exec w acts)) a), snd (exec w acts) ++ snd (net_step opf (fst (exec w acts)) a)).
Proof.
  revert w; induction acts as [|b acts IH]; intros w; cbn [app net_exec].
  - cbn [fst snd]. destruct (net_step opf w a) as [w1 e1]. rewrite app_nil_r. reflexivity.
  - destruct (net_step opf w b) as [w1 e1]. rewrite IH. destruct (exec w1 acts) as [w2 e2]. cbn [fst snd]. rewrite app_assoc. reflexivity.
Qed.
Lemma work_snoc wants queue w acts a : work opf wants queue w (acts ++ [a]) = work opf wants queue w acts + (if enabled wants queue (fst (exec w acts)) a then 1 else 0).
Proof.
  revert w; induction acts as [|b acts IH]; intros w; cbn [app work net_exec]; [cbn [fst]; lia|]. rewrite IH.
  destruct (net_step opf w b) as [w1 e1]. cbn [fst]. destruct (exec w1 acts) as [w2 e2]. cbn [fst]. lia.
Qed.
Lemma call_cases l i o : (~ 1 <= i <= length l /\ call opf l i o = (l, [])) \/
  (1 <= i <= length l /\ exists s, nth_error l (i - 1) = Some s /\ call opf l i o = (upd l (i - 1) (fst (opf i s o)), [(i, o, snd (opf i s o))])).
Proof.
  unfold call. destruct i as [|k]; [left; split; [lia|reflexivity]|]. destruct (nth_error l k) as [s|] eqn:E.
  - right. split; [assert (k < length l) by (apply nth_error_Some; congruence); lia|]. exists s. replace (S k - 1) with k by lia. split; [exact E|]. destruct (opf (S k) s o). reflexivity.
  - left. split; [apply nth_error_None in E; lia|reflexivity].
Qed.
Lemma ops_app i (a b : list entry) : ops_of i (a ++ b) = ops_of i a ++ ops_of i b. Proof. apply flat_map_app. Qed.
Lemma rets_app i (a b : list entry) : rets_of i (a ++ b) = rets_of i a ++ rets_of i b. Proof. apply flat_map_app. Qed.
Lemma handed_app (a b : list entry) : handed (a ++ b) = handed a ++ handed b. Proof. apply flat_map_app. Qed.
Lemma routed_app n (a b : list entry) : routed n (a ++ b) = routed n a ++ routed n b. Proof. apply flat_map_app. Qed.
Lemma copies_app n i (a b : list (msg B)) : copies n i (a ++ b) = copies n i a ++ copies n i b. Proof. apply flat_map_app. Qed.
Lemma in_copies n i j (m : msg B) l : In (j, m) (copies n i l) <-> In m l /\ In j (receivers n i m).
Proof.
  unfold copies. rewrite in_flat_map. split.
  - intros [x [X1 X2]]. apply in_map_iff in X2. destruct X2 as [j' [E X2]]. injection E as -> ->. auto.
  - intros [M J]. exists m. split; [exact M|]. apply in_map_iff. eauto.
Qed.
Lemma deliveries_handed i m (log : list entry) : In m (deliveries (ops_of i log)) <-> In (i, m) (handed log).
Proof.
  clear opf. induction log as [|[[j o] r] log IH]; [reflexivity|]. change ((j, o, r) :: log) with ([(j, o, r)] ++ log). rewrite ops_app, handed_app, deliveries_app, !in_app_iff, IH. apply or_iff_compat_r.
  unfold ops_of, handed. cbn [flat_map]. rewrite !app_nil_r. destruct (Nat.eqb_spec j i) as [->|N].
  - unfold deliveries. cbn [flat_map]. rewrite app_nil_r. destruct o as [x| | |]; cbn; [|tauto|tauto|tauto]. split; intros [E|[]]; left; congruence.
  - destruct o as [x| | |]; cbn; [|tauto|tauto|tauto]. split; [contradiction|]. intros [E|[]]. congruence.
Qed.

Context (s0 : list S0).
Notation n := (length s0).
Hypothesis Hdr : forall i s o, o <> Drain -> drained [snd (opf i s o)] = [].
Notation init := {| nt_st := s0; nt_wire := [] |}.

Record LInv (w : net S0 B) (log : list entry) (lost : list (nat * msg B)) : Prop := {
  li_len : length (nt_st w) = n;
  li_runs : forall i s, 1 <= i <= n -> nth_error s0 (i - 1) = Some s ->
     nth_error (nt_st w) (i - 1) = Some (fst (run_ops (opf i) s (ops_of i log))) /\ rets_of i log = snd (run_ops (opf i) s (ops_of i log));
  li_perm : Permutation (handed log ++ lost ++ nt_wire w) (routed n log);
  li_lost : forall x, In x lost -> ~ 1 <= fst x <= n;
  li_idx : forall e, In e log -> 1 <= fst (fst e) <= n /\ snd (fst e) <> Pick }.

Lemma run_ops_snoc i s h o : run_ops (opf i) s (h ++ [o]) = (fst (opf i (fst (run_ops (opf i) s h)) o), snd (run_ops (opf i) s h) ++ [snd (opf i (fst (run_ops (opf i) s h)) o)]).
Proof. rewrite run_ops_app. cbn [run_ops]. destruct (opf i (fst (run_ops (opf i) s h)) o). reflexivity. Qed.

Lemma step_runs (l : list S0) log i o s : length l = n ->
  (forall i s, 1 <= i <= n -> nth_error s0 (i - 1) = Some s -> nth_error l (i - 1) = Some (fst (run_ops (opf i) s (ops_of i log))) /\ rets_of i log = snd (run_ops (opf i) s (ops_of i log))) ->
  1 <= i <= n -> nth_error l (i - 1) = Some s ->
  forall j t, 1 <= j <= n -> nth_error s0 (j - 1) = Some t ->
  nth_error (upd l (i - 1) (fst (opf i s o))) (j - 1) = Some (fst (run_ops (opf j) t (ops_of j (log ++ [(i, o, snd (opf i s o))])))) /\
  rets_of j (log ++ [(i, o, snd (opf i s o))]) = snd (run_ops (opf j) t (ops_of j (log ++ [(i, o, snd (opf i s o))]))).
Proof.
  intros L R I E j t J T. destruct (R j t J T) as [R1 R2]. rewrite ops_app, rets_app. unfold ops_of at 2 4, rets_of at 2. cbn [flat_map]. rewrite !app_nil_r. destruct (Nat.eqb_spec i j) as [<-|N].
  - rewrite run_ops_snoc. cbn [fst snd]. rewrite R1 in E. injection E as <-. split; [apply upd_nth_same; lia|]. rewrite R2. reflexivity.
  - rewrite !app_nil_r. split; [|exact R2]. rewrite upd_nth_other by lia. exact R1.
Qed.

Lemma exec_inv acts : exists lost, LInv (fst (exec init acts)) (snd (exec init acts)) lost.
Proof.
  induction acts as [|a acts IH] using rev_ind.
  - exists []. constructor; [reflexivity|intros i s I E; split; [exact E|reflexivity]|apply Permutation_refl|intros x []|intros e []].
  - rewrite exec_snoc. destruct IH as [lost [L R Q LO IX]]. destruct (exec init acts) as [w log]. cbn [fst snd] in *. destruct a as [x|i|i]; cbn [net_step].
    + destruct (nth_error (nt_wire w) x) as [[i m]|] eqn:E; [|exists lost; cbn [fst snd]; rewrite app_nil_r; constructor; assumption].
      pose proof (perm_remove _ _ _ E) as PR. set (rest := firstn x (nt_wire w) ++ skipn (S x) (nt_wire w)) in *. destruct (call_cases (nt_st w) i (Deliver m)) as [[C1 C2]|[C1 [s [C2 C3]]]].
      * rewrite C2. cbn [fst snd]. rewrite app_nil_r. exists ((i, m) :: lost). constructor; cbn [nt_st nt_wire]; try assumption.
        -- rewrite <- Q, PR. apply Permutation_app_head. cbn [app]. apply Permutation_middle.
        -- intros y [<-|Y]; [cbn; lia|exact (LO y Y)].
      * rewrite C3. cbn [fst snd]. exists lost. rewrite L in C1. constructor; cbn [nt_st nt_wire].
        -- rewrite upd_length. exact L.
        -- apply step_runs; assumption.
        -- assert (Z : routed n [(i, Deliver m, snd (opf i s (Deliver m)))] = []) by (unfold routed; cbn [flat_map]; rewrite Hdr by discriminate; reflexivity).
           rewrite handed_app, routed_app, Z, app_nil_r, <- Q. unfold handed at 2. cbn [flat_map app]. rewrite PR, <- app_assoc. apply Permutation_app_head. cbn [app].
           apply Permutation_middle.
        -- exact LO.
        -- intros e. rewrite in_app_iff. intros [X|[<-|[]]]; [exact (IX e X)|]. cbn. split; [exact C1|discriminate].
    + destruct (call_cases (nt_st w) i Proceed) as [[C1 C2]|[C1 [s [C2 C3]]]].
      * rewrite C2. cbn [fst snd]. rewrite app_nil_r. exists lost. constructor; assumption.
      * rewrite C3. cbn [fst snd]. exists lost. rewrite L in C1. constructor; cbn [nt_st nt_wire].
        -- rewrite upd_length. exact L.
        -- apply step_runs; assumption.
        -- assert (Z : routed n [(i, Proceed, snd (opf i s Proceed))] = []) by (unfold routed; cbn [flat_map]; rewrite Hdr by discriminate; reflexivity).
           rewrite handed_app, routed_app, Z, app_nil_r, <- Q. unfold handed at 2. cbn [flat_map app]. rewrite app_nil_r. reflexivity.
        -- exact LO.
        -- intros e. rewrite in_app_iff. intros [X|[<-|[]]]; [exact (IX e X)|]. cbn. split; [exact C1|discriminate].
    + unfold nparties. rewrite L. destruct (call_cases (nt_st w) i Drain) as [[C1 C2]|[C1 [s [C2 C3]]]].
      * rewrite C2. cbn [fst snd routed flat_map]. rewrite !app_nil_r. exists lost. constructor; assumption.
      * rewrite C3. cbn [fst snd]. exists lost. rewrite L in C1. constructor; cbn [nt_st nt_wire].
        -- rewrite upd_length. exact L.
        -- apply step_runs; assumption.
        -- rewrite handed_app, routed_app, <- Q. unfold handed at 2. cbn [flat_map app]. rewrite app_nil_r, !app_assoc. reflexivity.
        -- exact LO.
        -- intros e. rewrite in_app_iff. intros [X|[<-|[]]]; [exact (IX e X)|]. cbn. split; [exact C1|discriminate].
Qed.

(** What was routed, party by party *)
Lemma routed_perm (log : list entry) : (forall e, In e log -> 1 <= fst (fst e) <= n) ->
  Permutation (routed n log) (flat_map (fun j => copies n j (drained (rets_of j log))) (seq 1 n)).
Proof.
  clear Hdr opf. induction log as [|[[i o] r] log IH]; intros IX.
  - cbn. assert (Z : forall l : list nat, flat_map (fun j => copies n j (drained (P := P) (R := O) (B := B) [])) l = []) by (induction l; [reflexivity|assumption]). unfold rets_of. cbn [flat_map]. rewrite Z. constructor.
  - assert (E : flat_map (fun j => copies n j (drained (rets_of j ((i, o, r) :: log)))) (seq 1 n) =
       flat_map (fun j => (if (i =? j) then copies n i (drained [r]) else []) ++ copies n j (drained (rets_of j log))) (seq 1 n)).
    { apply flat_map_ext. intros j. change (rets_of j ((i, o, r) :: log)) with ((if (i =? j) then [r] else []) ++ rets_of j log). unfold drained at 1. rewrite flat_map_app, copies_app. f_equal.
      destruct (Nat.eqb_spec i j) as [->|N]; reflexivity. }
    rewrite E, flat_map_app_perm, flat_map_one; [|apply seq_NoDup|apply in_seq; pose proof (IX _ (or_introl eq_refl)) as Q; cbn in Q; lia].
    change (routed n ((i, o, r) :: log)) with (copies n i (drained [r]) ++ routed n log). apply Permutation_app_head. apply IH. intros e X. apply IX. right. exact X.
Qed.
Lemma in_routed (log : list entry) i m : (forall e, In e log -> 1 <= fst (fst e) <= n) ->
  (In (i, m) (routed n log) <-> exists j, 1 <= j <= n /\ In m (drained (rets_of j log)) /\ In i (receivers n j m)).
Proof.
  clear Hdr opf. intros IX. split.
  - intros X. apply (Permutation_in _ (routed_perm log IX)) in X. apply in_flat_map in X. destruct X as [j [J X]]. apply in_seq in J. apply in_copies in X. exists j. split; [lia|exact X].
  - intros [j [J X]]. apply (Permutation_in _ (Permutation_sym (routed_perm log IX))). apply in_flat_map. exists j. split; [apply in_seq; lia|]. apply in_copies. exact X.
Qed.
End Log.

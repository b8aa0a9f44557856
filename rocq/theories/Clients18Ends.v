(** What holds of every result a client program can end with, whatever answers it gets. *)
From Coq Require Import String ZArith NArith Bool Lia List.
From Verif Require Import Outcome Bytes Manager18 Clients18 Clients18Proofs Clients18Prog.
Import ListNotations.
Local Open Scope nat_scope.

Inductive ends {R} (P : R -> Prop) : prog R -> Prop :=
  | en_done r : P r -> ends P (Done r)
  | en_crash : ends P Crash
  | en_put k v p : ends P p -> ends P (Put k v p)
  | en_get k f : (forall v, ends P (f v)) -> ends P (Get k f).
Section Ends.
Context {R : Type} (P : R -> Prop).
Lemma ends_need {E A} (o : outcome E A) f : (forall a, o = Ok a -> ends P (f a)) -> ends P (need o f).
Proof. intros H. unfold need. destruct o; [apply H; reflexivity|apply en_crash|apply en_crash]. Qed.
Lemma ends_gets ks : forall f, (forall l, length l = length ks -> ends P (f l)) -> ends P (gets ks f).
Proof.
  induction ks as [|k ks IH]; intros f H; cbn [gets]; [apply H; reflexivity|]. apply en_get. intros v. apply IH. intros l L. apply H. cbn [length]. rewrite L. reflexivity.
Qed.
Lemma ends_puts kv p : ends P p -> ends P (puts kv p).
Proof. intros H. induction kv as [|[k v] kv IH]; cbn [puts]; [exact H|]. apply en_put, IH. Qed.
Lemma ends_exchange {A} (c : json A) me n r u own f : (forall l, ends P (f l)) -> ends P (exchange c me n r u own f).
Proof. intros H. unfold exchange. apply en_put, ends_gets. intros l _. apply ends_need. intros a _. apply H. Qed.
Lemma ends_p2p {A} (c : json A) me n r u own f : (forall l, ends P (f l)) -> ends P (exchange_p2p c me n r u own f).
Proof. intros H. unfold exchange_p2p. apply ends_puts, ends_gets. intros l _. apply ends_need. intros a _. apply H. Qed.
End Ends.

Section Exec.
Context {R : Type} (oc : bool) (ser : party_signup -> string) (par : string -> option party_signup) (uuid : nat -> string) (P : nat -> R -> Prop).
Definition all_end (w : sys18 R) : Prop := forall c p, nth_error (y_cl w) c = Some p -> ends (P c) p.
Lemma set_nth_end w c p s : all_end w -> ends (P c) p -> all_end {| y_sv := s; y_cl := set_nth (y_cl w) c p |}.
Proof.
  intros A E d p' Q. cbn [y_cl] in Q. destruct (Nat.lt_ge_cases c (length (y_cl w))) as [L|L].
  - rewrite set_nth_nth in Q by exact L. destruct (Nat.eqb_spec d c) as [->|]; [congruence|apply A, Q].
  - assert (X : set_nth (y_cl w) c p = y_cl w) by (unfold set_nth; rewrite skipn_all2, firstn_all2, app_nil_r by lia; reflexivity). rewrite X in Q. apply A, Q.
Qed.
Lemma ends_step w a : all_end w -> all_end (step18 oc ser par uuid w a).
Proof.
  intros A. destruct a as [c|c|a]; cbn [step18].
  - destruct (nth_error (y_cl w) c) as [p|] eqn:E; [|exact A]. pose proof (A c p E) as Q. destruct p as [r| |k v p|k f]; try exact A.
    + apply set_nth_end; [exact A|]. inversion Q; assumption.
    + cbn [step]. destruct (sm_get k (sv_map (y_sv w))) as [v|]; [|exact A]. apply set_nth_end; [exact A|]. inversion Q as [| | |k1 f1 G E1]; subst. apply G.
  - destruct (nth_error (y_cl w) c) as [[r| |k v p|k f]|]; exact A.
  - exact A.
Qed.
Lemma ends_exec l : forall w, all_end w -> all_end (exec18 oc ser par uuid w l).
Proof. induction l as [|a l IH]; intros w A; [exact A|]. cbn [exec18 fold_left]. apply IH, ends_step, A. Qed.
Lemma ends_done l w c r : all_end w -> nth_error (y_cl (exec18 oc ser par uuid w l)) c = Some (Done r) -> P c r.
Proof. intros A E. apply (ends_exec l) in A. apply A in E. inversion E; assumption. Qed.
End Exec.

Lemma merge_from_length {E A} (own : A) me is : forall ans l, merge_from (E := E) me own is ans = Ok l -> length l = length is.
Proof.
  induction is as [|i is IH]; intros ans l; cbn [merge_from]; [intros H; injection H as <-; reflexivity|]. destruct (N.eqb i me).
  - destruct (merge_from me own is ans) as [l'| |] eqn:Q; cbn [omap]; try discriminate. intros H. injection H as <-. cbn [length]. rewrite (IH _ _ Q). reflexivity.
  - destruct ans as [|x ans]; [discriminate|]. destruct (merge_from me own is ans) as [l'| |] eqn:Q; cbn [omap]; try discriminate. intros H. injection H as <-. cbn [length]. rewrite (IH _ _ Q). reflexivity.
Qed.
Lemma merge_length {E A} (own : A) me n ans l : merge (E := E) me n own ans = Ok l -> length l = n.
Proof. unfold merge. intros H. apply merge_from_length in H. rewrite map_length, seq_length in H. exact H. Qed.
Lemma merge_from_own {E A} (own : A) me is : forall ans l k, merge_from (E := E) me own is ans = Ok l -> nth_error is k = Some me -> nth_error l k = Some own.
Proof.
  induction is as [|i is IH]; intros ans l k; [destruct k; discriminate|]. cbn [merge_from]. destruct (N.eqb_spec i me) as [->|N].
  - destruct (merge_from me own is ans) as [l'| |] eqn:Q; cbn [omap]; try discriminate. intros H. injection H as <-. destruct k as [|k]; [reflexivity|]. cbn [nth_error]. apply (IH _ _ _ Q).
  - destruct ans as [|x ans]; [discriminate|]. destruct (merge_from me own is ans) as [l'| |] eqn:Q; cbn [omap]; try discriminate. intros H. injection H as <-. destruct k as [|k]; cbn [nth_error]; [congruence|]. apply (IH _ _ _ Q).
Qed.
Lemma merge_own {E A} (own : A) me n ans l : merge (E := E) (N.of_nat me) n own ans = Ok l -> 1 <= me <= n -> nth_error l (me - 1) = Some own.
Proof.
  unfold merge. intros H B. apply (merge_from_own _ _ _ _ _ (me - 1) H). rewrite nth_error_map, (nth_error_nth' _ 0) by (rewrite seq_length; lia). rewrite seq_nth by lia. cbn [option_map]. do 2 f_equal. lia.
Qed.
Lemma to_bytes_short m k : length (to_bytes m) <= k -> (Z.abs m < 256 ^ Z.of_nat k)%Z.
Proof.
  intros L. rewrite <- (from_to_bytes m). unfold from_bytes. rewrite <- rev_length in L.
  assert (F : Forall (fun d => (0 <= d < 256)%Z) (rev (to_bytes m))) by (apply Forall_rev, to_bytes_bytes).
  assert (G : forall l, Forall (fun d => (0 <= d < 256)%Z) l -> (0 <= value_le l < 256 ^ Z.of_nat (length l))%Z).
  { induction 1 as [|d l D _ IH]; cbn [value_le length]; [lia|]. rewrite Nat2Z.inj_succ, Z.pow_succ_r by lia. lia. }
  apply Z.lt_le_trans with (256 ^ Z.of_nat (length (rev (to_bytes m))))%Z; [apply G, F|]. apply Z.pow_le_mono_r; lia.
Qed.

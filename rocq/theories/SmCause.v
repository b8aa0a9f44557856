(** Causality: a message of round k is only sent, and an output only reached, after everybody's messages of all earlier rounds came in. *)
From Coq Require Import String ZArith Bool Lia List Permutation Arith.
From Verif Require Import ZArithX Fq Curve Outcome Sigma Bytes Vss Paillier RangeProofs Pdl PdlSlack Mta Ecdsa Mp MpProofs Gg20Keygen Gg20Sign Blame Stores RoundSM SmSpec SmProofs KeygenSM SignSM SmSim SmTheory SmFacts SmTags.
Import ListNotations.
Local Open Scope nat_scope.

Section Cause.
Context {P B R : Type} (p : params P B R) (d0 : R).
Notation K := (g_K p).
Notation me := (g_me p).
Notation n := (g_n p).
Hypothesis Hme : 1 <= me <= n.
Hypothesis Hof : forall b, 1 <= g_of p b <= K.
Hypothesis Hexp : forall k, g_exp p k = false -> 0 < k /\ g_again p (k - 1) = true.
Notation inb := (inbox (g_of p) (g_p2p p) me n).
Notation proper := (proper (g_of p) (g_p2p p) me).
Notation run := (run_ops (g_op p) (g_init p d0)).
Context (good : nat -> R -> Prop) (tags : nat -> list (nat * nat * option nat)).
Hypothesis G0 : good 0 d0.
Hypothesis Hstep : forall k d l d' o, k <= K -> good k d -> g_step p k d l = Ok (d', o) -> good (S k) d' /\ map (mtag p) o = tags k.
Hypothesis Htags : forall k x, In x (tags k) -> fst (fst x) = me /\ snd (fst x) = S k.

Lemma inbox_all h r l j : 1 <= r -> inb h r = Some l -> In j (peers me n) -> exists m, In m (deliveries h) /\ proper r j m = true.
Proof.
  intros R1 I J. unfold inbox in I. destruct (Nat.eqb_spec r 0) as [E|_]; [lia|]. destruct (got (g_of p) (g_p2p p) me h r j) as [b|] eqn:G.
  - unfold got in G. destruct (find (proper r j) (deliveries h)) as [m|] eqn:F; [|discriminate]. apply find_some in F. exists m. exact F.
  - exfalso. assert (X : In None (map (got (g_of p) (g_p2p p) me h r) (peers me n))) by (apply in_map_iff; exists j; auto). apply all_some_none in X. congruence.
Qed.
(** A message in the output of rounds 0 .. k-1 was sent by the round before its own. *)
Lemma runs_origin inbx k d out m : runs (g_step p) d0 inbx k d out -> k <= S K -> In m out ->
  m_from m = me /\ exists k' d' out' l d'' o, g_of p (m_body m) = S k' /\ k' < k /\ runs (g_step p) d0 inbx k' d' out' /\ inbx k' = Some l /\ g_step p k' d' l = Ok (d'', o) /\ In m o.
Proof.
  intros H. induction H as [|k d out l d' o H IH HI ST]; intros L X; [destruct X|]. apply in_app_iff in X. destruct X as [X|X].
  - destruct (IH (Nat.lt_le_incl _ _ L) X) as (A & k' & d1 & out1 & l1 & d2 & o2 & A1 & A2 & A3). split; [exact A|]. exists k', d1, out1, l1, d2, o2. refine (conj A1 (conj _ A3)). lia.
  - destruct (runs_tags p d0 good tags G0 Hstep _ _ _ _ H (Nat.lt_le_incl _ _ L)) as [GD _]. destruct (Hstep k d l d' o (le_S_n _ _ L) GD ST) as [_ T].
    assert (Y : In (mtag p m) (tags k)) by (rewrite <- T; apply in_map; exact X). apply Htags in Y. cbn [mtag fst snd] in Y. destruct Y as [Y1 Y2]. split; [exact Y1|].
    exists k, d, out, l, d', o. refine (conj Y2 (conj _ (conj H (conj HI (conj ST X))))). lia.
Qed.
Lemma run_runs h : exists k d, k <= S K /\ runs (g_step p) d0 (inb h) k d (sent (fst (run h)) (snd (run h))) /\ (forall e, gs_round (fst (run h)) = GFinal e -> k = S K).
Proof.
  pose proof (run_all p d0 Hme Hof Hexp h) as A. destruct (run h) as [s rs]. destruct A as [I _]. cbn [fst snd]. pose proof (inv_round _ _ _ _ _ I) as Q. unfold sent. destruct (gs_round s) as [k d|d|].
  - destruct Q as [Q1 [Q2 _]]. exists k, d. refine (conj _ (conj Q2 _)); [lia|discriminate].
  - exists (S K), d. refine (conj (le_n _) (conj Q _)). reflexivity.
  - destruct Q as [[d Q]|(k & o & d & l & Q1 & Q2 & _)]; [exists (S K), d|exists k, d]; (refine (conj _ (conj _ _)); [lia|assumption|discriminate]).
Qed.
Lemma sent_needs h m : In m (sent (fst (run h)) (snd (run h))) -> m_from m = me /\
  forall r j, 1 <= r < g_of p (m_body m) -> In j (peers me n) -> exists m', In m' (deliveries h) /\ proper r j m' = true.
Proof.
  intros X. destruct (run_runs h) as (k & d & L & Q & _). destruct (runs_origin _ _ _ _ m Q L X) as (A & k' & d' & out' & l & d'' & o & E & L' & Q' & I & _). split; [exact A|]. intros r j RB J.
  assert (RK : r < k) by lia. destruct (runs_below _ _ _ _ _ _ Q r RK) as (_ & _ & l' & _ & _ & _ & I' & _). apply (inbox_all h r l' j); [lia|exact I'|exact J].
Qed.
Lemma final_needs h e : gs_round (fst (run h)) = GFinal e -> forall r j, 1 <= r <= K -> In j (peers me n) -> exists m', In m' (deliveries h) /\ proper r j m' = true.
Proof.
  intros F r j RB J. destruct (run_runs h) as (k & d & L & Q & FK). pose proof (FK e F) as ->. assert (RK : r < S K) by lia. destruct (runs_below _ _ _ _ _ _ Q r RK) as (_ & _ & l' & _ & _ & _ & I' & _).
  apply (inbox_all h r l' j); [lia|exact I'|exact J].
Qed.
End Cause.

Section Kg.
Context (C : Curve).
Context (Hb : list Z -> Z) (Hf : hashF C) (ck : Z -> Z -> bool) (cd : Z -> dlstmt -> outcome mp_error bool) (rd : kg_rand C) (i t n : nat).
Notation pr := (proper (kg_of C) kg_p2p i).
Lemma kg_tags_in k x : In x (round_tags kg_p2p i n 4 k) -> fst (fst x) = i /\ snd (fst x) = S k.
Proof. intros X. destruct (round_tags_spec _ _ _ _ _ _ X) as (A & B & _). auto. Qed.
Lemma kg_sent_needs h s rs m : kg_hist C Hb Hf ck cd rd i t n h s rs -> In m (drained rs) -> m_from m = i /\
  forall r j, 1 <= r < kg_of C (m_body m) -> In j (peers i n) -> exists m', In m' (deliveries h) /\ pr r j m' = true.
Proof.
  intros H X. destruct (kg_hist_run C Hb Hf ck cd rd i t n h s rs H) as (I & E1 & E2 & _).
  assert (Y : In m (sent (fst (run_ops (g_op (kgp C Hb Hf ck cd rd i n)) (g_init (kgp C Hb Hf ck cd rd i n) (KR0 i t n)) h)) (snd (run_ops (g_op (kgp C Hb Hf ck cd rd i n)) (g_init (kgp C Hb Hf ck cd rd i n) (KR0 i t n)) h)))).
  { rewrite <- E1, <- E2, kg_sent. apply in_app_iff. left. exact X. }
  refine (sent_needs (kgp C Hb Hf ck cd rd i n) (KR0 i t n) I (kgp_of C Hb Hf ck cd rd i n) (kgp_exp C Hb Hf ck cd rd i n) (kg_good C i n) (round_tags kg_p2p i n 4) (conj eq_refl (conj eq_refl eq_refl)) _ kg_tags_in h m Y).
  intros k d l d' o. exact (kg_good_step C Hb Hf ck cd rd i n k d l d' o).
Qed.
Lemma kg_final_needs h s rs : kg_hist C Hb Hf ck cd rd i t n h s rs -> kg_is_finished s = true -> forall r j, 1 <= r <= 4 -> In j (peers i n) -> exists m', In m' (deliveries h) /\ pr r j m' = true.
Proof.
  intros H F. destruct (kg_hist_run C Hb Hf ck cd rd i t n h s rs H) as (I & E1 & _).
  assert (G : exists e, gs_round (fst (run_ops (g_op (kgp C Hb Hf ck cd rd i n)) (g_init (kgp C Hb Hf ck cd rd i n) (KR0 i t n)) h)) = GFinal e).
  { rewrite <- E1. unfold kg_is_finished in F. cbn [kg_abs gs_round]. destruct (ks_round s); cbn [kg_abs_round]; try discriminate. eauto. }
  destruct G as [e G]. exact (final_needs (kgp C Hb Hf ck cd rd i n) (KR0 i t n) I (kgp_of C Hb Hf ck cd rd i n) (kgp_exp C Hb Hf ck cd rd i n) h e G).
Qed.
End Kg.

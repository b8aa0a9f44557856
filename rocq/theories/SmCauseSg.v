(** What the signing machine's second round sends and checks, in terms of the index and key it was made with, in every execution. *)
From Coq Require Import String ZArith Bool Lia Permutation Arith List.
From Verif Require Import ZArithX Fq Curve Outcome Sigma SigmaProofs Bytes Vss VssProofs Paillier RangeProofs Pdl PdlSlack Mta Ecdsa Mp MpProofs Gg20Keygen Gg20Sign Blame Stores RoundSM SmSpec SmProofs KeygenSM SignSM SmSim SmTheory SmFacts SmTags SmCause PropSignChecks.
Import ListNotations.
Local Open Scope nat_scope.

Section Sg.
Context (C : Curve).
Context (Hb : list Z -> Z) (Hz : hashZ C) (Hf : hashF C) (rd : sign_rand C) (i : nat) (sl : list nat) (lk : local_key C).
Notation n := (length sl).
Notation p := (sgp C Hb Hz Hf rd i n).
Notation pr := (proper (sg_of C) sg_p2p i).
Notation d0 := (SR0 i sl lk).
Lemma sg_tags_in k x : In x (round_tags sg_p2p i n 6 k) -> fst (fst x) = i /\ snd (fst x) = S k.
Proof. intros X. destruct (round_tags_spec _ _ _ _ _ _ X) as (A & B & _). auto. Qed.
(** The share the machine signs with: that of its key, scaled for the signer standing at its index. *)
Definition w_of (w : Fq (cq C)) : Prop :=
  exists me li, nth_error sl (i - 1) = Some me /\ map_share (E := mp_error) (vs_n (lk_vss lk)) (me - 1) (map pred sl) = Ok li /\ w = fmul li (sk_x (lk_shared lk)).
Definition kept (d : sg_st C) : Prop :=
  match d with
  | SR0 i' sl' lk' => i' = i /\ sl' = sl /\ lk' = lk
  | SR1 r => s1_i r = i /\ s1_sl r = sl /\ s1_lk r = lk /\ w_of (sg_w (s1_keys r))
  | SR2 r => s2_i r = i /\ s2_sl r = sl /\ s2_lk r = lk
  | _ => True
  end.
Lemma kept_step k d l d' o : kept d -> sg_step C Hb Hz Hf rd k d l = Ok (d', o) -> kept d'.
Proof.
  intros G E. destruct d as [i' sl' lk'|r|r|r|r|r|r|x|]; cbn [kept] in G; cbn [sg_step] in E; try discriminate.
  - destruct G as (-> & -> & ->). apply obind_ok in E. destruct E as (x & R & E). injection E as <- <-. unfold sg_r0 in R. apply obind_ok in R. destruct R as (me & R1 & R). apply obind_ok in R. destruct R as (keys & R2 & R).
    destruct (sg_phase1 _ _ _) as [com dec]. apply obind_ok in R. destruct R as (N & _ & R). apply ok_inj in R. subst x. cbn [fst kept s1_i s1_sl s1_lk s1_keys]. refine (conj eq_refl (conj eq_refl (conj eq_refl _))).
    unfold sg_create in R2. apply obind_ok in R2. destruct R2 as (li & R3 & R2). apply ok_inj in R2. subst keys. cbn [sg_w]. exists me, li. apply nth_o_ok in R1. auto.
  - destruct G as (G1 & G2 & G3 & _). apply obind_ok in E. destruct E as (ms & _ & E). apply obind_ok in E. destruct E as (x & R & E). injection E as <- _. unfold sg_r1 in R. cbv zeta in R.
    apply obind_ok in R. destruct R as (u & _ & R). apply obind_ok in R. destruct R as (bs & _ & R). apply ok_inj in R. subst x. cbn [fst kept s2_i s2_sl s2_lk]. auto.
  - apply obind_ok in E. destruct E as (ms & _ & E). apply obind_ok in E. destruct E as (x & R & E). injection E as <- _. exact I.
  - apply obind_ok in E. destruct E as (ms & _ & E). apply obind_ok in E. destruct E as (x & R & E). injection E as <- _. exact I.
  - apply obind_ok in E. destruct E as (ms & _ & E). apply obind_ok in E. destruct E as (x & R & E). injection E as <- _. exact I.
  - apply obind_ok in E. destruct E as (ms & _ & E). apply obind_ok in E. destruct E as (x & R & E). injection E as <- _. exact I.
  - apply obind_ok in E. destruct E as (ms & _ & E). apply obind_ok in E. destruct E as (x & R & E). injection E as <- _. exact I.
Qed.
Lemma kept_runs inbx k d out : runs (sg_step C Hb Hz Hf rd) d0 inbx k d out -> kept d.
Proof. induction 1 as [|k d out l d' o H IH HI ST]; [cbn; auto|]. exact (kept_step _ _ _ _ _ IH ST). Qed.

Lemma sg_start_good : sg_good C i n 0 d0.
Proof. cbn. auto. Qed.
(** Every round-2 message carries the public point of that share. *)
Lemma sg_sent2 h s rs m g w : sg_hist C Hb Hz Hf rd i sl lk h s rs -> In m (drained rs) -> m_body m = SM2 (g, w) ->
  m_from m = i /\ exists x, w_of x /\ dp_pk (mb_b w) = smul x gen.
Proof.
  intros H X BM. destruct (sg_hist_run C Hb Hz Hf rd i sl lk h s rs H) as (I & E1 & E2 & _).
  assert (Y : In m (sent (fst (run_ops (g_op p) (g_init p d0) h)) (snd (run_ops (g_op p) (g_init p d0) h)))).
  { rewrite <- E1, <- E2, sg_sent. apply in_app_iff. left. exact X. }
  destruct (run_runs p d0 I (sgp_of C Hb Hz Hf rd i n) (sgp_exp C Hb Hz Hf rd i n) h) as (k & d & L & Q & _).
  assert (HS : forall k d l d' o, k <= 6 -> sg_good C i n k d -> sg_step C Hb Hz Hf rd k d l = Ok (d', o) -> sg_good C i n (S k) d' /\ map (mtag p) o = round_tags sg_p2p i n 6 k).
  { intros k1 d1 l1 d1' o1. exact (sg_good_step C Hb Hz Hf rd i n I k1 d1 l1 d1' o1). }
  destruct (runs_origin p d0 I (sg_good C i n) (round_tags sg_p2p i n 6) sg_start_good HS sg_tags_in _ _ _ _ m Q L Y) as (A & k' & d' & out' & l & d'' & o & B1 & B2 & B3 & B4 & B5 & B6). split; [exact A|].
  cbn [g_of sgp] in B1. rewrite BM in B1. cbn [sg_of] in B1. assert (k' = 1) by lia. subst k'. assert (L1 : 1 <= 7) by lia.
  destruct (runs_tags p d0 (sg_good C i n) (round_tags sg_p2p i n 6) sg_start_good HS _ _ _ _ B3 L1) as [GD _].
  pose proof (kept_runs _ _ _ _ B3) as KD. destruct d' as [i' sl' lk'|r|r|r|r|r|r|x|]; cbn [sg_good] in GD; try (destruct GD as [GD _]; discriminate); [|contradiction].
  cbn [kept] in KD. destruct KD as (K1 & K2 & K3 & KW). cbn [g_step sgp sg_step] in B5. apply obind_ok in B5. destruct B5 as (ms & _ & B5). apply obind_ok in B5. destruct B5 as (x & R & B5). injection B5 as _ <-.
  unfold sg_r1 in R. cbv zeta in R. apply obind_ok in R. destruct R as (u & _ & R). apply obind_ok in R. destruct R as (bs & OB & R). apply ok_inj in R. subst x. cbn [snd] in B6.
  apply in_map_iff in B6. destruct B6 as ([j y] & EM & IY). subst m. cbn [m_body snd] in BM. injection BM as ->. apply in_combine_r in IY. apply in_map_iff in IY. destruct IY as ([gg ww] & EY & IB). injection EY as <- <-.
  apply omapM_ok in OB. destruct (In_nth_error _ _ IB) as [jj NB]. destruct (Forall2_nth _ _ _ OB jj _ NB) as (a & _ & F).
  apply obind_ok in F. destruct F as (k1 & _ & F). apply obind_ok in F. destruct F as (N & _ & F). apply obind_ok in F. destruct F as (ma & _ & F). apply obind_ok in F. destruct F as (g1 & _ & F). apply obind_ok in F. destruct F as (w1 & FW & F).
  apply ok_inj in F. injection F as -> ->. exists (sg_w (s1_keys r)). split; [exact KW|].
  unfold sg_b in FW. destruct (mta_b _ _ _ _ _ _ _ _ _ _) as [z|e|] eqn:MB; cbn [omap_err] in FW; [|discriminate|discriminate]. apply ok_inj in FW. subst z.
  unfold mta_b in MB. destruct (negb _); [discriminate|]. apply obind_ok in MB. destruct MB as (ok & _ & MB). destruct (negb ok); [discriminate|]. apply ok_inj in MB. rewrite MB. reflexivity.
Qed.
(** Whatever is sent after round 1 was preceded by everybody's messages of the earlier rounds. *)
Lemma sg_sent_needs h s rs m : sg_hist C Hb Hz Hf rd i sl lk h s rs -> In m (drained rs) -> m_from m = i /\
  forall r j, 1 <= r < sg_of C (m_body m) -> In j (peers i n) -> exists m', In m' (deliveries h) /\ pr r j m' = true.
Proof.
  intros H X. destruct (sg_hist_run C Hb Hz Hf rd i sl lk h s rs H) as (I & E1 & E2 & _).
  assert (Y : In m (sent (fst (run_ops (g_op p) (g_init p d0) h)) (snd (run_ops (g_op p) (g_init p d0) h)))).
  { rewrite <- E1, <- E2, sg_sent. apply in_app_iff. left. exact X. }
  refine (sent_needs p d0 I (sgp_of C Hb Hz Hf rd i n) (sgp_exp C Hb Hz Hf rd i n) (sg_good C i n) (round_tags sg_p2p i n 6) sg_start_good _ sg_tags_in h m Y).
  intros k d l d' o. exact (sg_good_step C Hb Hz Hf rd i n I k d l d' o).
Qed.
(** Whoever finishes has checked one against the public key share of every other signer. *)
Lemma sg_final2 h s rs : sg_hist C Hb Hz Hf rd i sl lk h s rs -> sg_is_finished s = true -> forall j, In j (peers i n) ->
  exists m g w k li P, In m (deliveries h) /\ m_body m = SM2 (g, w) /\ m_from m = j /\ nth_error (map pred sl) (j - 1) = Some k /\
    map_share (E := mp_error) (vs_n (lk_vss lk)) k (map pred sl) = Ok li /\ nth_error (lk_pk lk) k = Some P /\ dp_pk (mb_b w) = smul li P.
Proof.
  intros H FIN j J. destruct (sg_hist_run C Hb Hz Hf rd i sl lk h s rs H) as (I & E1 & E2 & _).
  assert (G : exists e, gs_round (fst (run_ops (g_op p) (g_init p d0) h)) = GFinal e).
  { rewrite <- E1. unfold sg_is_finished in FIN. cbn [sg_abs gs_round]. destruct (sm_round s); cbn [sg_abs_round]; try discriminate. eauto. }
  destruct G as [e G]. destruct (run_runs p d0 I (sgp_of C Hb Hz Hf rd i n) (sgp_exp C Hb Hz Hf rd i n) h) as (k & d & L & Q & FK). pose proof (FK e G) as ->. clear FK G e.
  assert (L2 : 2 < S 6) by lia. destruct (runs_below _ _ _ _ _ _ Q 2 L2) as (d' & out' & l & d'' & o & B3 & B4 & B5).
  assert (HS : forall k d l d' o, k <= 6 -> sg_good C i n k d -> sg_step C Hb Hz Hf rd k d l = Ok (d', o) -> sg_good C i n (S k) d' /\ map (mtag p) o = round_tags sg_p2p i n 6 k).
  { intros k1 d1 l1 d1' o1. exact (sg_good_step C Hb Hz Hf rd i n I k1 d1 l1 d1' o1). }
  assert (L1 : 2 <= 7) by lia. destruct (runs_tags p d0 (sg_good C i n) (round_tags sg_p2p i n 6) sg_start_good HS _ _ _ _ B3 L1) as [GD _].
  pose proof (kept_runs _ _ _ _ B3) as KD. destruct d' as [i' sl' lk'|r|r|r|r|r|r|x|]; cbn [sg_good] in GD; try (destruct GD as [GD _]; discriminate); [|contradiction].
  cbn [kept] in KD. destruct KD as (K1 & K2 & K3). cbn [g_step sgp sg_step] in B5. apply obind_ok in B5. destruct B5 as (ms & UM & B5). apply obind_ok in B5. destruct B5 as (x & R & _).
  unfold inbox in B4. cbn [Nat.eqb] in B4. apply all_some_iff in B4.
  assert (J' := J). apply (in_peers i n I) in J'. destruct J' as [J1 J2].
  set (a := if j <? i then j - 1 else j - 2).
  assert (AL : a < n - 1) by (unfold a; destruct (Nat.ltb_spec j i); lia).
  assert (AI : ind (i - 1) a = j - 1) by (unfold ind, a; destruct (Nat.ltb_spec j i); match goal with |- context [?u <? i - 1] => destruct (Nat.ltb_spec u (i - 1)) end; lia).
  assert (AN : nth_error (peers i n) a = Some j) by (rewrite (nth_peers i n I) by exact AL; f_equal; unfold a; destruct (Nat.ltb_spec j i); match goal with |- context [?u <? i - 1] => destruct (Nat.ltb_spec u (i - 1)) end; lia).
  assert (AL' : a < length (s2_sl r) - 1) by (rewrite K2; exact AL).
  destruct (C83_round2_checks_every_answer C Hf r rd ms x R a AL') as ([g w] & k & li & P & Q1 & Q2 & Q3 & Q4 & Q5 & _). rewrite K1, K2, AI in Q2. rewrite K2, K3 in Q3. rewrite K3 in Q4. cbn [snd] in Q5.
  apply omapM_ok in UM. destruct (Forall2_nth _ _ _ UM a _ Q1) as (b & N1 & N2). destruct b as [b|b|b|b|b|b]; cbn [sun2] in N2; try discriminate. injection N2 as ->.
  assert (GT : got (sg_of C) sg_p2p i h 2 j = Some (SM2 (g, w))).
  { pose proof (f_equal (fun z => nth_error z a) B4) as Z1. cbn beta in Z1. rewrite (map_nth_error Some a l N1) in Z1. cbn [g_of g_p2p g_me g_n sgp] in Z1. rewrite (map_nth_error (got (sg_of C) sg_p2p i h 2) a (peers i n) AN) in Z1. congruence. }
  unfold got in GT. destruct (find (pr 2 j) (deliveries h)) as [m|] eqn:F; [|discriminate]. cbn [option_map] in GT. injection GT as GT. apply find_some in F. destruct F as [F1 F2].
  unfold proper in F2. rewrite !andb_true_iff, !Nat.eqb_eq in F2. exists m, g, w, k, li, P. refine (conj F1 (conj GT (conj _ (conj Q2 (conj Q3 (conj Q4 Q5)))))). tauto.
Qed.
End Sg.

(** Lagrange coefficients of distinct indices are not zero. *)
Lemma lam_nz {C : Curve} n s i : (Z.of_nat n < cq C)%Z -> i < n -> (forall x, In x s -> x < n) -> lam n s i <> (f0 : Fq (cq C)).
Proof.
  intros Hn Hi Hs. unfold lam. apply fmul_nz; [apply cq_prime| |].
  - apply fprod_nz. intros y Hy. apply in_map_iff in Hy. destruct Hy as (x & <- & Hx). apply filter_In in Hx. destruct Hx as [Hx _]. apply Hs in Hx. apply fidx_nz; lia.
  - apply finv_nz; [apply cq_prime|]. apply fprod_nz. intros y Hy. apply in_map_iff in Hy. destruct Hy as (a & <- & Ha).
    apply in_map_iff in Ha. destruct Ha as (x & <- & Hx). apply filter_In in Hx. destruct Hx as [Hx Hne].
    apply fsub_nz. intros EE. apply fidx_inj in EE; [|specialize (Hs x Hx); lia|lia].
    assert (x = i) by lia. subst. rewrite Nat.eqb_refl in Hne. discriminate.
Qed.

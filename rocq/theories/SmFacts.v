(** The two state machines of the code as instances of RoundSM.v: histories from their constructors. *)
From Coq Require Import ZArith Lia Bool List Permutation.
From Verif Require Import ZArithX Fq Curve Outcome Sigma Bytes Vss Paillier RangeProofs Pdl PdlSlack Mta Ecdsa Mp MpProofs Gg20Keygen Gg20Sign Blame Stores RoundSM SmSpec SmProofs KeygenSM SignSM SmSim SmTheory.
Import ListNotations.
Local Open Scope nat_scope.

Lemma slots_inj {A B} (f : A -> B) : (forall x y, f x = f y -> x = y) -> forall l l', map (option_map f) l = map (option_map f) l' -> l = l'.
Proof.
  intros I. induction l as [|a l IH]; intros [|a' l']; cbn; intros E; try discriminate; [reflexivity|]. injection E as E1 E2. rewrite (IH _ E2).
  destruct a as [a|], a' as [a'|]; cbn in E1; try discriminate; [|reflexivity]. injection E1 as E1. rewrite (I _ _ E1). reflexivity.
Qed.
Lemma store_opt_inj {A B} (f : A -> B) (s s' : option (store A)) : option_map (store_map f) s = option_map (store_map f) s' -> (forall x y, f x = f y -> x = y) -> s = s'.
Proof.
  intros E I. destruct s as [s|], s' as [s'|]; cbn in E; try discriminate; [|reflexivity]. injection E as E1 E2 E3. apply (slots_inj f I) in E2.
  destruct s, s'. cbn in *. congruence.
Qed.

(** ** Keygen *)
Section Kg.
Context (C : Curve).
Context (Hb : list Z -> Z) (Hf : hashF C) (ck : Z -> Z -> bool) (cd : Z -> dlstmt -> outcome mp_error bool) (rd : kg_rand C).
Notation M := (kg_msg C).
Notation st := (kg_sm C).
Notation opf := (kg_op C Hb Hf ck cd rd).

(** [h] is a history of calls on a machine made by new, [s] the state and [rs] the results. *)
Definition kg_hist (i t n : nat) (h : list (op M)) (s : st) (rs : list (ret mp_error M (local_key C))) : Prop :=
  exists s0, kg_new C Hb Hf ck cd rd i t n = Ok s0 /\ run_ops opf s0 h = (s, rs).

Lemma kg_proceed_const fuel mb (s : st) : let s' := fst (kg_proceed_round C Hb Hf ck cd rd fuel mb s) in ks_i s' = ks_i s /\ ks_n s' = ks_n s.
Proof.
  revert s; induction fuel as [|f IH]; intros s; [cbn; auto|]. cbn [kg_proceed_round]. destruct (ks_round s); try (cbn; auto; fail).
  all: match goal with |- context [if ?c then _ else _] => destruct c; [|cbn; auto] end.
  all: match goal with |- context [match ?r with Ok _ => _ | Err _ => _ | Panic => _ end] => destruct r as [[nx out]|e|] end; try (cbn; auto; fail).
  all: match goal with IH : forall s : st, _ |- context [fst (kg_proceed_round _ _ _ _ _ _ _ _ ?x)] => exact (IH x) end.
Qed.
Lemma kg_handle_const (s : st) m : let s' := fst (kg_handle_incoming C Hb Hf ck cd rd s m) in ks_i s' = ks_i s /\ ks_n s' = ks_n s.
Proof.
  cbn zeta. unfold kg_handle_incoming. destruct (m_body m) as [b|b|b|b].
  - destruct (ks_m1 s) as [x|]; [|cbn; auto]. cbn [option_map]. destruct (push_broadcast x (msg_map (fun _ => b) m)); [|cbn; auto|cbn; auto]. cbn [omap].
    match goal with |- context [kg_proceed_round C Hb Hf ck cd rd kg_fuel false ?x] => exact (kg_proceed_const kg_fuel false x) end.
  - destruct (ks_m2 s) as [x|]; [|cbn; auto]. cbn [option_map]. destruct (push_broadcast x (msg_map (fun _ => b) m)); [|cbn; auto|cbn; auto]. cbn [omap].
    match goal with |- context [kg_proceed_round C Hb Hf ck cd rd kg_fuel false ?x] => exact (kg_proceed_const kg_fuel false x) end.
  - destruct (ks_m3 s) as [x|]; [|cbn; auto]. cbn [option_map]. destruct (push_p2p x (msg_map (fun _ => b) m)); [|cbn; auto|cbn; auto]. cbn [omap].
    match goal with |- context [kg_proceed_round C Hb Hf ck cd rd kg_fuel false ?x] => exact (kg_proceed_const kg_fuel false x) end.
  - destruct (ks_m4 s) as [x|]; [|cbn; auto]. cbn [option_map]. destruct (push_broadcast x (msg_map (fun _ => b) m)); [|cbn; auto|cbn; auto]. cbn [omap].
    match goal with |- context [kg_proceed_round C Hb Hf ck cd rd kg_fuel false ?x] => exact (kg_proceed_const kg_fuel false x) end.
Qed.
Lemma kg_op_const (s : st) o : let s' := fst (opf s o) in ks_i s' = ks_i s /\ ks_n s' = ks_n s.
Proof.
  destruct o as [m| | |]; cbn [kg_op].
  - pose proof (kg_handle_const s m) as Q. destruct (kg_handle_incoming C Hb Hf ck cd rd s m). exact Q.
  - pose proof (kg_proceed_const kg_fuel true s) as Q. unfold kg_proceed. destruct (kg_proceed_round C Hb Hf ck cd rd kg_fuel true s). exact Q.
  - cbn. auto.
  - unfold kg_pick_output. destruct (ks_round s); cbn; auto.
Qed.
Lemma kg_run_const h (s : st) : let s' := fst (run_ops opf s h) in ks_i s' = ks_i s /\ ks_n s' = ks_n s.
Proof.
  revert s; induction h as [|o h IH]; intros s; [cbn; auto|]. cbn [run_ops]. pose proof (kg_op_const s o) as Q.
  destruct (opf s o) as [s1 r]. specialize (IH s1). destruct (run_ops opf s1 h) as [s2 rs]. cbn [fst] in *. cbn zeta in *. destruct Q, IH. split; congruence.
Qed.
Lemma kg_abs_inj (s s' : st) : kg_abs C s = kg_abs C s' -> ks_i s = ks_i s' -> ks_n s = ks_n s' -> s = s'.
Proof.
  intros E E1 E2. destruct s as [r m1 m2 m3 m4 q a b], s' as [r' m1' m2' m3' m4' q' a' b']. cbn in E1, E2. subst a' b'.
  injection E as ER E3 E4 E5 E6 EQ. subst q'.
  apply (store_opt_inj KM1) in E3; [|intros ? ? X; injection X; auto]. subst m1'.
  apply (store_opt_inj KM2) in E4; [|intros ? ? X; injection X; auto]. subst m2'.
  apply (store_opt_inj KM3) in E5; [|intros ? ? X; injection X; auto]. subst m3'.
  apply (store_opt_inj KM4) in E6; [|intros ? ? X; injection X; auto]. subst m4'.
  assert (r = r') by (destruct r, r'; cbn in ER; congruence). subst r'. reflexivity.
Qed.

Section Hist.
Context (i t n : nat).
Notation P := (kgp C Hb Hf ck cd rd i n).
Notation D0 := (KR0 i t n : kg_r C).
Notation run := (run_ops (g_op P) (g_init P D0)).
Lemma kg_hist_run h s rs : kg_hist i t n h s rs ->
  1 <= i <= n /\ kg_abs C s = fst (run h) /\ map (kg_ret C) rs = snd (run h) /\ ks_i s = i /\ ks_n s = n /\ 2 <= n /\ 1 <= t < n.
Proof.
  intros [s0 [N E]]. apply (kg_new_ok C Hb Hf ck cd rd) in N. destruct N as [-> N]. pose proof (kg_run_sim C Hb Hf ck cd rd i n (kg_start C i t n) h) as Q.
  rewrite (kg_start_sim C Hb Hf ck cd rd) in Q. pose proof (kg_run_const h (kg_start C i t n)) as KC. rewrite E in Q, KC. rewrite Q. cbn [fst snd] in *. destruct KC as [K1 K2].
  cbn in K1, K2. split; [lia|]. split; [reflexivity|]. split; [reflexivity|]. split; [exact K1|]. split; [exact K2|]. lia.
Qed.
Lemma kg_hist_snoc h s rs o : kg_hist i t n h s rs -> kg_hist i t n (h ++ [o]) (fst (opf s o)) (rs ++ [snd (opf s o)]).
Proof.
  intros [s0 [N E]]. exists s0. split; [exact N|]. rewrite run_ops_app, E. cbn [fst snd run_ops]. destruct (opf s o); reflexivity.
Qed.
Lemma kg_hist_app h1 h2 s rs : kg_hist i t n h1 s rs -> kg_hist i t n (h1 ++ h2) (fst (run_ops opf s h2)) (rs ++ snd (run_ops opf s h2)).
Proof. intros [s0 [N E]]. exists s0. split; [exact N|]. rewrite run_ops_app, E. reflexivity. Qed.
Lemma kg_failures (rs : list (ret mp_error M (local_key C))) : failures (map (kg_ret C) rs) = failures rs.
Proof. induction rs as [|[o|l|o] rs IH]; [reflexivity| | |]; unfold failures in *; cbn [map flat_map kg_ret]; rewrite IH; reflexivity. Qed.
Lemma kg_picks (rs : list (ret mp_error M (local_key C))) : picks (map (kg_ret C) rs) = map KFinal (picks rs).
Proof.
  induction rs as [|r rs IH]; [reflexivity|]. unfold picks in *. destruct r as [o|l|o]; [exact IH|exact IH|].
  destruct o as [[a|e|]|]; cbn [map flat_map kg_ret option_map omap app]; [apply f_equal; exact IH|exact IH|exact IH|exact IH].
Qed.
Lemma kg_drained (rs : list (ret mp_error M (local_key C))) : drained (map (kg_ret C) rs) = drained rs.
Proof. induction rs as [|[o|l|o] rs IH]; [reflexivity| | |]; unfold drained in *; cbn [map flat_map kg_ret]; rewrite IH; reflexivity. Qed.
Lemma kg_sent (s : st) rs : sent (kg_abs C s) (map (kg_ret C) rs) = drained rs ++ ks_queue s.
Proof. unfold sent. rewrite kg_drained. reflexivity. Qed.
End Hist.
End Kg.

(** ** OfflineStage *)
Section Sg.
Context (C : Curve).
Context (Hb : list Z -> Z) (Hz : hashZ C) (Hf : hashF C) (rd : sign_rand C).
Notation M := (sg_msg C).
Notation st := (sg_sm C).
Notation opf := (sg_op C Hb Hz Hf rd).

(** [h] is a history of calls on a machine made by new, [s] the state and [rs] the results. *)
Definition sg_hist (i : nat) (sl : list nat) (lk : local_key C) (h : list (op M)) (s : st) (rs : list (ret mp_error M (completed C))) : Prop :=
  exists s0, sg_new i sl lk = Ok s0 /\ run_ops opf s0 h = (s, rs).

Lemma sg_proceed_const fuel mb (s : st) : let s' := fst (sg_proceed_round C Hb Hz Hf rd fuel mb s) in sm_i s' = sm_i s /\ sm_n s' = sm_n s.
Proof.
  revert s; induction fuel as [|f IH]; intros s; [cbn; auto|]. cbn [sg_proceed_round]. destruct (sm_round s); try (cbn; auto; fail).
  all: match goal with |- context [if ?c then _ else _] => destruct c; [|cbn; auto] end.
  all: match goal with |- context [match ?r with Ok _ => _ | Err _ => _ | Panic => _ end] => destruct r as [[nx out]|e|] end; try (cbn; auto; fail).
  all: match goal with IH : forall s : st, _ |- context [fst (sg_proceed_round _ _ _ _ _ _ _ ?x)] => exact (IH x) end.
Qed.
Lemma sg_handle_const (s : st) m : let s' := fst (sg_handle_incoming C Hb Hz Hf rd s m) in sm_i s' = sm_i s /\ sm_n s' = sm_n s.
Proof.
  cbn zeta. unfold sg_handle_incoming. destruct (m_body m) as [b|b|b|b|b|b].
  - destruct (sm_m1 s) as [x|]; [|cbn; auto]. cbn [option_map]. destruct (push_broadcast x (msg_map (fun _ => b) m)); [|cbn; auto|cbn; auto]. cbn [omap].
    match goal with |- context [sg_proceed_round C Hb Hz Hf rd sg_fuel false ?x] => exact (sg_proceed_const sg_fuel false x) end.
  - destruct (sm_m2 s) as [x|]; [|cbn; auto]. cbn [option_map]. destruct (push_p2p x (msg_map (fun _ => b) m)); [|cbn; auto|cbn; auto]. cbn [omap].
    match goal with |- context [sg_proceed_round C Hb Hz Hf rd sg_fuel false ?x] => exact (sg_proceed_const sg_fuel false x) end.
  - destruct (sm_m3 s) as [x|]; [|cbn; auto]. cbn [option_map]. destruct (push_broadcast x (msg_map (fun _ => b) m)); [|cbn; auto|cbn; auto]. cbn [omap].
    match goal with |- context [sg_proceed_round C Hb Hz Hf rd sg_fuel false ?x] => exact (sg_proceed_const sg_fuel false x) end.
  - destruct (sm_m4 s) as [x|]; [|cbn; auto]. cbn [option_map]. destruct (push_broadcast x (msg_map (fun _ => b) m)); [|cbn; auto|cbn; auto]. cbn [omap].
    match goal with |- context [sg_proceed_round C Hb Hz Hf rd sg_fuel false ?x] => exact (sg_proceed_const sg_fuel false x) end.
  - destruct (sm_m5 s) as [x|]; [|cbn; auto]. cbn [option_map]. destruct (push_broadcast x (msg_map (fun _ => b) m)); [|cbn; auto|cbn; auto]. cbn [omap].
    match goal with |- context [sg_proceed_round C Hb Hz Hf rd sg_fuel false ?x] => exact (sg_proceed_const sg_fuel false x) end.
  - destruct (sm_m6 s) as [x|]; [|cbn; auto]. cbn [option_map]. destruct (push_broadcast x (msg_map (fun _ => b) m)); [|cbn; auto|cbn; auto]. cbn [omap].
    match goal with |- context [sg_proceed_round C Hb Hz Hf rd sg_fuel false ?x] => exact (sg_proceed_const sg_fuel false x) end.
Qed.
Lemma sg_op_const (s : st) o : let s' := fst (opf s o) in sm_i s' = sm_i s /\ sm_n s' = sm_n s.
Proof.
  destruct o as [m| | |]; cbn [sg_op].
  - pose proof (sg_handle_const s m) as Q. destruct (sg_handle_incoming C Hb Hz Hf rd s m). exact Q.
  - pose proof (sg_proceed_const sg_fuel true s) as Q. unfold sg_proceed. destruct (sg_proceed_round C Hb Hz Hf rd sg_fuel true s). exact Q.
  - cbn. auto.
  - unfold sg_pick_output. destruct (sm_round s); cbn; auto.
Qed.
Lemma sg_run_const h (s : st) : let s' := fst (run_ops opf s h) in sm_i s' = sm_i s /\ sm_n s' = sm_n s.
Proof.
  revert s; induction h as [|o h IH]; intros s; [cbn; auto|]. cbn [run_ops]. pose proof (sg_op_const s o) as Q.
  destruct (opf s o) as [s1 r]. specialize (IH s1). destruct (run_ops opf s1 h) as [s2 rs]. cbn [fst] in *. cbn zeta in *. destruct Q, IH. split; congruence.
Qed.
Lemma sg_abs_inj (s s' : st) : sg_abs C s = sg_abs C s' -> sm_i s = sm_i s' -> sm_n s = sm_n s' -> s = s'.
Proof.
  intros E E1 E2. destruct s as [r m1 m2 m3 m4 m5 m6 q a b], s' as [r' m1' m2' m3' m4' m5' m6' q' a' b']. cbn in E1, E2. subst a' b'.
  injection E as ER E3 E4 E5 E6 E7 E8 EQ. subst q'.
  apply (store_opt_inj SM1) in E3; [|intros ? ? X; injection X; auto]. subst m1'.
  apply (store_opt_inj SM2) in E4; [|intros ? ? X; injection X; auto]. subst m2'.
  apply (store_opt_inj SM3) in E5; [|intros ? ? X; injection X; auto]. subst m3'.
  apply (store_opt_inj SM4) in E6; [|intros ? ? X; injection X; auto]. subst m4'.
  apply (store_opt_inj SM5) in E7; [|intros ? ? X; injection X; auto]. subst m5'.
  apply (store_opt_inj SM6) in E8; [|intros ? ? X; injection X; auto]. subst m6'.
  assert (r = r') by (destruct r, r'; cbn in ER; congruence). subst r'. reflexivity.
Qed.

Section Hist.
Context (i : nat) (sl : list nat) (lk : local_key C).
Notation P := (sgp C Hb Hz Hf rd i (length sl)).
Notation D0 := (SR0 i sl lk : sg_st C).
Notation run := (run_ops (g_op P) (g_init P D0)).
Lemma sg_hist_run h s rs : sg_hist i sl lk h s rs ->
  1 <= i <= (length sl) /\ sg_abs C s = fst (run h) /\ map (sg_ret C) rs = snd (run h) /\ sm_i s = i /\ sm_n s = (length sl) /\ 2 <= length sl.
Proof.
  intros [s0 [N E]]. apply sg_new_ok in N. destruct N as [-> N]. pose proof (sg_run_sim C Hb Hz Hf rd i (length sl) (sg_start C i sl lk) h) as Q.
  rewrite (sg_start_sim C Hb Hz Hf rd) in Q. pose proof (sg_run_const h (sg_start C i sl lk)) as KC. rewrite E in Q, KC. rewrite Q. cbn [fst snd] in *. destruct KC as [K1 K2].
  cbn in K1, K2. split; [lia|]. split; [reflexivity|]. split; [reflexivity|]. split; [exact K1|]. split; [exact K2|]. lia.
Qed.
Lemma sg_hist_snoc h s rs o : sg_hist i sl lk h s rs -> sg_hist i sl lk (h ++ [o]) (fst (opf s o)) (rs ++ [snd (opf s o)]).
Proof.
  intros [s0 [N E]]. exists s0. split; [exact N|]. rewrite run_ops_app, E. cbn [fst snd run_ops]. destruct (opf s o); reflexivity.
Qed.
Lemma sg_hist_app h1 h2 s rs : sg_hist i sl lk h1 s rs -> sg_hist i sl lk (h1 ++ h2) (fst (run_ops opf s h2)) (rs ++ snd (run_ops opf s h2)).
Proof. intros [s0 [N E]]. exists s0. split; [exact N|]. rewrite run_ops_app, E. reflexivity. Qed.
Lemma sg_failures (rs : list (ret mp_error M (completed C))) : failures (map (sg_ret C) rs) = failures rs.
Proof. induction rs as [|[o|l|o] rs IH]; [reflexivity| | |]; unfold failures in *; cbn [map flat_map sg_ret]; rewrite IH; reflexivity. Qed.
Lemma sg_picks (rs : list (ret mp_error M (completed C))) : picks (map (sg_ret C) rs) = map SFinished (picks rs).
Proof.
  induction rs as [|r rs IH]; [reflexivity|]. unfold picks in *. destruct r as [o|l|o]; [exact IH|exact IH|].
  destruct o as [[a|e|]|]; cbn [map flat_map sg_ret option_map omap app]; [apply f_equal; exact IH|exact IH|exact IH|exact IH].
Qed.
Lemma sg_drained (rs : list (ret mp_error M (completed C))) : drained (map (sg_ret C) rs) = drained rs.
Proof. induction rs as [|[o|l|o] rs IH]; [reflexivity| | |]; unfold drained in *; cbn [map flat_map sg_ret]; rewrite IH; reflexivity. Qed.
Lemma sg_sent (s : st) rs : sent (sg_abs C s) (map (sg_ret C) rs) = drained rs ++ sm_queue s.
Proof. unfold sent. rewrite sg_drained. reflexivity. Qed.
End Hist.
End Sg.

(** The clients and relay of Clients20.v with Keygen machines and with OfflineStage machines. *)
From Coq Require Import String ZArith Bool Lia List Permutation Arith.
From Verif Require Import ZArithX Fq Curve Outcome Sigma Bytes Vss Paillier RangeProofs Pdl PdlSlack Mta Ecdsa Mp MpProofs Gg20Keygen KeygenRun Gg20Sign SignRun KeygenRunProofs Blame Stores RoundSM SmSpec SmProofs KeygenSM SignSM SmSim SmTheory SmFacts SmTags Network NetLog NetProofs NetSim Manager20 M20Spec Clients20 Clients20Proofs.
Import ListNotations.
Local Open Scope nat_scope.

(** ** Keygen *)
Section Kg.
Context (C : Curve).
Context (Hb : list Z -> Z) (Hf : hashF C) (ck : Z -> Z -> bool) (cd : Z -> dlstmt -> outcome mp_error bool) (t n : nat) (rs : nat -> kg_rand C).
Context (start : nat -> Z -> option (kg_sm C)) (crit : sm_error mp_error -> bool) (ser : msg (kg_msg C) -> string) (par : string -> option (msg (kg_msg C))) (oc : bool) (room_id : string).
Notation opf := (fun i => kg_op C Hb Hf ck cd (rs (i - 1))).
Notation pp := (fun i => kgp C Hb Hf ck cd (rs (i - 1)) i n).
Notation s0 := (map (fun i => kg_start C i t n) (seq 1 n)).
Notation net0 := {| nt_st := s0; nt_wire := [] |}.

Lemma kg_relay lks : 2 <= n -> kg_run C Hb Hf ck cd t n rs = Ok lks ->
  (forall acts j m, 1 <= j <= n -> In m (drained (rets_of j (snd (net_exec opf net0 acts)))) -> m_from m = j /\ (m_to m = None \/ exists i, m_to m = Some i /\ In i (peers j n))) /\
  (forall acts, NoDup (routed n (snd (net_exec opf net0 acts)))) /\
  (forall acts c s m, 1 <= c <= n -> party (fst (net_exec opf net0 acts)) c = Some s -> kg_is_finished s = true -> ~ In (c, m) (nt_wire (fst (net_exec opf net0 acts)))) /\
  (forall acts c s j, 1 <= c <= n -> party (fst (net_exec opf net0 acts)) c = Some s -> kg_is_finished s = true -> 1 <= j <= n -> j <> c -> drained (rets_of j (snd (net_exec opf net0 acts))) <> []) /\
  (forall acts, length (taken (snd (net_exec opf net0 acts))) <= n * (n + 2)) /\
  (forall acts c s, party (fst (net_exec opf net0 acts)) c = Some s -> kg_is_finished s = true -> kg_wants_to_proceed s = false) /\
  (forall acts, (forall a, enabled (@kg_wants_to_proceed C) (@ks_queue C) (fst (net_exec opf net0 acts)) a = false) -> forall c s, party (fst (net_exec opf net0 acts)) c = Some s -> kg_is_finished s = true).
Proof.
  intros N2 E. destruct (kg_honest C Hb Hf ck cd t n rs lks N2 E) as [D [body [D0 [DF [LL [Hbody [Hbc Hstep]]]]]]].
  assert (A1 : forall r : ret mp_error (kg_msg C) (local_key C), drained [kg_ret C r] = drained [r]) by (intros [o|l|o]; reflexivity).
  assert (A2 : forall e : nat * op (kg_msg C) * ret mp_error (kg_msg C) (local_key C), call_ok (ent_abs (kg_ret C) e) -> call_ok e) by (intros [[i o] [r|l|r]] X; [exact X|exact X|contradiction]).
  assert (A3 : forall i s o, kg_abs C (fst (kg_op C Hb Hf ck cd (rs (i - 1)) s o)) = kg_abs C s -> fst (kg_op C Hb Hf ck cd (rs (i - 1)) s o) = s).
  { intros i s o X. pose proof (kg_op_const C Hb Hf ck cd (rs (i - 1)) s o) as [Q1 Q2]. exact (kg_abs_inj C _ _ X Q1 Q2). }
  assert (A4 : map (kg_abs C) s0 = map (fun i => g_init (pp i) (D i 0)) (seq 1 n)).
  { rewrite map_map. apply map_ext. intros i. rewrite (kg_start_sim C Hb Hf ck cd (rs (i - 1))), D0. reflexivity. }
  assert (G0 : forall i, 1 <= i <= n -> kg_good C i n 0 (D i 0)) by (intros i _; rewrite D0; exact (conj eq_refl (conj eq_refl eq_refl))).
  assert (FI : forall s : kg_sm C, kg_is_finished s = true <-> exists d, gs_round (kg_abs C s) = GFinal d).
  { intros s. unfold kg_is_finished. cbn [kg_abs gs_round]. destruct (ks_round s); cbn [kg_abs_round]; split; intros X; try discriminate; try (destruct X; discriminate); [eauto|reflexivity]. }
  assert (K1 : 1 <= 4) by lia.
  pose proof (lift_relay (kg_abs C) (kg_ret C) opf (@kg_wants_to_proceed C) (@ks_queue C) n 4 (kg_of C) kg_p2p pp s0 D body (fun i => kg_good C i n)
    (fun i s o => kg_op_sim C Hb Hf ck cd (rs (i - 1)) i n s o) A1 A2 A3 (kg_wants_sim C) (fun s => eq_refl) A4 (fun i => eq_refl) (fun i => eq_refl) (fun i => eq_refl) (fun i => eq_refl) (fun i => eq_refl)
    (fun b => kgp_of C Hb Hf ck cd (rs 0) 1 n b) (fun i k => kgp_exp C Hb Hf ck cd (rs (i - 1)) i n k) Hbody Hbc Hstep G0 (kg_good_msgs C Hb Hf ck cd n rs) (@kg_is_finished C) FI K1) as L. unfold NetSim.net0 in L.
  destruct L as (L1 & L2 & L3 & L4 & L5 & L6 & L7). refine (conj L1 (conj L2 (conj L3 (conj L4 (conj _ (conj L6 L7)))))).
  intros acts. refine (Nat.le_trans _ _ _ (L5 acts) _). unfold msgs, list_sum. cbn [seq map fold_right kg_p2p Nat.eqb]. nia.
Qed.

Notation sexec := (sys_exec opf (@kg_wants_to_proceed C) (@kg_is_finished C) (@ks_queue C) start crit ser par oc room_id).
Notation swork := (sys_work opf (@kg_wants_to_proceed C) (@kg_is_finished C) (@ks_queue C) start crit ser par oc room_id).
Notation senab := (sys_enabled (@kg_wants_to_proceed C) (@kg_is_finished C) (@ks_queue C)).

Theorem kg_clients lks c0 acts : 2 <= n -> kg_run C Hb Hf ck cd t n rs = Ok lks -> length lks = n -> 1 <= c0 <= n ->
  (forall c, 1 <= c <= n -> start c (Z.of_nat c) = Some (kg_start C c t n)) -> (forall m, par (ser m) = Some m) -> (Z.of_nat (n * (n + 2)) <= 65535)%Z ->
  well_numbered (snd (sexec (sys_init n) (first c0 ++ acts))) ->
  let w := fst (sexec (sys_init n) (first c0 ++ acts)) in
  swork (sys_init n) (first c0 ++ acts) <= 4 + budget n (n * (n + 2)) (5 * (n * n) + 3 * n) /\
  (forall c, client w c <> Some CFailed) /\
  (forall c x r, client w (S c) = Some (CDone x r) -> exists lk, nth_error lks c = Some lk /\ r = RPick (Some (Ok lk))) /\
  ((forall a, senab w a = false) -> forall c, 1 <= c <= n -> exists x r, client w c = Some (CDone x r)) /\
  (settled n w -> exists more, well_numbered (snd (sexec (sys_init n) (first c0 ++ acts ++ more))) /\ forall c, 1 <= c <= n -> exists x r, client (fst (sexec (sys_init n) (first c0 ++ acts ++ more))) c = Some (CDone x r)).
Proof.
  intros N2 R LL C0 ST SP BD NU. destruct (kg_relay lks N2 R) as (R1 & R2 & R3 & R4 & R5 & R6 & R7).
  pose proof (fun a => kg_network C Hb Hf ck cd t n rs lks s0 a N2 R eq_refl) as KN. cbn zeta in KN.
  assert (HL : length s0 = n) by (rewrite map_length, seq_length; reflexivity).
  assert (HS : forall c, 1 <= c <= n -> start c (Z.of_nat c) = nth_error s0 (c - 1)).
  { intros c I. rewrite (ST c I), nth_error_map, (nth_error_nth' _ 0) by (rewrite seq_length; lia). rewrite seq_nth by lia. cbn [option_map]. replace (1 + (c - 1)) with c by lia. reflexivity. }
  assert (HR : forall i s o, o <> Drain -> drained [snd (opf i s o)] = []).
  { intros i s o N. destruct o as [m| | |]; cbn [kg_op]; [destruct (kg_handle_incoming C Hb Hf ck cd (rs (i - 1)) s m); reflexivity|destruct (kg_proceed C Hb Hf ck cd (rs (i - 1)) s); reflexivity|contradiction|destruct (kg_pick_output s); reflexivity]. }
  assert (BB : (Z.of_nat (n * (n + 2)) <= 65535)%Z /\ (Z.of_nat n <= 65535)%Z) by (split; [exact BD|nia]).
  pose proof (sys_total opf (@kg_wants_to_proceed C) (@kg_is_finished C) (@ks_queue C) start crit ser par oc room_id s0 n c0 (n * (n + 2)) (5 * (n * n) + 3 * n)
    HL N2 C0 HS SP HR (fun a => proj1 (KN a)) R1 R2 R3 R4 R5 (fun a => proj1 (proj2 (KN a))) R6 R7 BB acts NU) as T. cbn zeta in T.
  destruct T as (T1 & T2 & (nacts & T3 & T3') & T4 & T5). cbn zeta. refine (conj T1 (conj T2 (conj _ (conj T5 _)))).
  - intros c x r E. destruct (T4 _ _ _ E) as [F1 F2]. assert (P1 : party (fst (net_exec opf net0 nacts)) (S c) = Some (cr_st x)) by (apply T3'; right; exists r; auto).
    assert (LC : c < n). { cbn [party] in P1. assert (X : c < length (nt_st (fst (net_exec opf net0 nacts)))) by (apply nth_error_Some; congruence).
      destruct (exec_inv opf s0 HR nacts) as [lost LI]. pose proof (li_len _ _ _ _ _ LI) as Q. rewrite HL in Q. lia. }
    destruct (nth_error lks c) as [lk|] eqn:X; [|apply nth_error_None in X; lia]. exists lk. split; [reflexivity|]. destruct (KN nacts) as (_ & _ & _ & K4 & _). destruct (K4 c lk X) as (s & P2 & F).
    rewrite P1 in P2. injection P2 as <-. rewrite F2. cbn [kg_op]. unfold kg_pick_output. rewrite (F F1). reflexivity.
  - intros SE. exact (sys_can_finish opf (@kg_wants_to_proceed C) (@kg_is_finished C) (@ks_queue C) start crit ser par oc room_id s0 n c0 (n * (n + 2)) (5 * (n * n) + 3 * n)
    HL N2 C0 HS SP HR (fun a => proj1 (KN a)) R1 R2 R3 R4 R5 (fun a => proj1 (proj2 (KN a))) R6 R7 BB acts NU SE).
Qed.
End Kg.

(** ** OfflineStage *)
Section Sg.
Context (C : Curve).
Context (Hb : list Z -> Z) (Hz : hashZ C) (Hf : hashF C) (sl : list nat) (lk : nat -> local_key C) (rs : nat -> sign_rand C).
Context (start : nat -> Z -> option (sg_sm C)) (crit : sm_error mp_error -> bool) (ser : msg (sg_msg C) -> string) (par : string -> option (msg (sg_msg C))) (oc : bool) (room_id : string).
Notation n := (length sl).
Notation opf := (fun i => sg_op C Hb Hz Hf (rs (i - 1))).
Notation pp := (fun i => sgp C Hb Hz Hf (rs (i - 1)) i n).
Notation s0 := (map (fun i => sg_start C i sl (lk (i - 1))) (seq 1 n)).
Notation net0 := {| nt_st := s0; nt_wire := [] |}.

Lemma sg_relay cs : 2 <= n -> sg_run C Hb Hz Hf sl lk rs = Ok cs ->
  (forall acts j m, 1 <= j <= n -> In m (drained (rets_of j (snd (net_exec opf net0 acts)))) -> m_from m = j /\ (m_to m = None \/ exists i, m_to m = Some i /\ In i (peers j n))) /\
  (forall acts, NoDup (routed n (snd (net_exec opf net0 acts)))) /\
  (forall acts c s m, 1 <= c <= n -> party (fst (net_exec opf net0 acts)) c = Some s -> sg_is_finished s = true -> ~ In (c, m) (nt_wire (fst (net_exec opf net0 acts)))) /\
  (forall acts c s j, 1 <= c <= n -> party (fst (net_exec opf net0 acts)) c = Some s -> sg_is_finished s = true -> 1 <= j <= n -> j <> c -> drained (rets_of j (snd (net_exec opf net0 acts))) <> []) /\
  (forall acts, length (taken (snd (net_exec opf net0 acts))) <= n * (n + 4)) /\
  (forall acts c s, party (fst (net_exec opf net0 acts)) c = Some s -> sg_is_finished s = true -> sg_wants_to_proceed s = false) /\
  (forall acts, (forall a, enabled (@sg_wants_to_proceed C) (@sm_queue C) (fst (net_exec opf net0 acts)) a = false) -> forall c s, party (fst (net_exec opf net0 acts)) c = Some s -> sg_is_finished s = true).
Proof.
  intros N2 E. destruct (sg_honest C Hb Hz Hf sl lk rs cs N2 E) as [D [body [D0 [DF [LL [Hbody [Hbc Hstep]]]]]]].
  assert (A1 : forall r : ret mp_error (sg_msg C) (completed C), drained [sg_ret C r] = drained [r]) by (intros [o|l|o]; reflexivity).
  assert (A2 : forall e : nat * op (sg_msg C) * ret mp_error (sg_msg C) (completed C), call_ok (ent_abs (sg_ret C) e) -> call_ok e) by (intros [[i o] [r|l|r]] X; [exact X|exact X|contradiction]).
  assert (A3 : forall i s o, sg_abs C (fst (sg_op C Hb Hz Hf (rs (i - 1)) s o)) = sg_abs C s -> fst (sg_op C Hb Hz Hf (rs (i - 1)) s o) = s).
  { intros i s o X. pose proof (sg_op_const C Hb Hz Hf (rs (i - 1)) s o) as [Q1 Q2]. exact (sg_abs_inj C _ _ X Q1 Q2). }
  assert (A4 : map (sg_abs C) s0 = map (fun i => g_init (pp i) (D i 0)) (seq 1 n)).
  { rewrite map_map. apply map_ext. intros i. rewrite (sg_start_sim C Hb Hz Hf (rs (i - 1))), D0. reflexivity. }
  assert (G0 : forall i, 1 <= i <= n -> sg_good C i n 0 (D i 0)) by (intros i _; rewrite D0; exact (conj eq_refl (conj eq_refl eq_refl))).
  assert (FI : forall s : sg_sm C, sg_is_finished s = true <-> exists d, gs_round (sg_abs C s) = GFinal d).
  { intros s. unfold sg_is_finished. cbn [sg_abs gs_round]. destruct (sm_round s); cbn [sg_abs_round]; split; intros X; try discriminate; try (destruct X; discriminate); [eauto|reflexivity]. }
  assert (K1 : 1 <= 6) by lia.
  pose proof (lift_relay (sg_abs C) (sg_ret C) opf (@sg_wants_to_proceed C) (@sm_queue C) n 6 (sg_of C) sg_p2p pp s0 D body (fun i => sg_good C i n)
    (fun i s o => sg_op_sim C Hb Hz Hf (rs (i - 1)) i n s o) A1 A2 A3 (sg_wants_sim C) (fun s => eq_refl) A4 (fun i => eq_refl) (fun i => eq_refl) (fun i => eq_refl) (fun i => eq_refl) (fun i => eq_refl)
    (fun b => sgp_of C Hb Hz Hf (rs 0) 1 n b) (fun i k => sgp_exp C Hb Hz Hf (rs (i - 1)) i n k) Hbody Hbc Hstep G0 (sg_good_msgs C Hb Hz Hf sl rs) (@sg_is_finished C) FI K1) as L. unfold NetSim.net0 in L.
  destruct L as (L1 & L2 & L3 & L4 & L5 & L6 & L7). refine (conj L1 (conj L2 (conj L3 (conj L4 (conj _ (conj L6 L7)))))).
  intros acts. refine (Nat.le_trans _ _ _ (L5 acts) _). unfold msgs, list_sum. cbn [seq map fold_right sg_p2p Nat.eqb]. nia.
Qed.

Notation sexec := (sys_exec opf (@sg_wants_to_proceed C) (@sg_is_finished C) (@sm_queue C) start crit ser par oc room_id).
Notation swork := (sys_work opf (@sg_wants_to_proceed C) (@sg_is_finished C) (@sm_queue C) start crit ser par oc room_id).
Notation senab := (sys_enabled (@sg_wants_to_proceed C) (@sg_is_finished C) (@sm_queue C)).

Theorem sg_clients cs c0 acts : 2 <= n -> sg_run C Hb Hz Hf sl lk rs = Ok cs -> length cs = n -> 1 <= c0 <= n ->
  (forall c, 1 <= c <= n -> start c (Z.of_nat c) = Some (sg_start C c sl (lk (c - 1)))) -> (forall m, par (ser m) = Some m) -> (Z.of_nat (n * (n + 4)) <= 65535)%Z ->
  well_numbered (snd (sexec (sys_init n) (first c0 ++ acts))) ->
  let w := fst (sexec (sys_init n) (first c0 ++ acts)) in
  swork (sys_init n) (first c0 ++ acts) <= 4 + budget n (n * (n + 4)) (7 * (n * n) + 5 * n) /\
  (forall c, client w c <> Some CFailed) /\
  (forall c x r, client w (S c) = Some (CDone x r) -> exists o, nth_error cs c = Some o /\ r = RPick (Some (Ok o))) /\
  ((forall a, senab w a = false) -> forall c, 1 <= c <= n -> exists x r, client w c = Some (CDone x r)) /\
  (settled n w -> exists more, well_numbered (snd (sexec (sys_init n) (first c0 ++ acts ++ more))) /\ forall c, 1 <= c <= n -> exists x r, client (fst (sexec (sys_init n) (first c0 ++ acts ++ more))) c = Some (CDone x r)).
Proof.
  intros N2 R LL C0 ST SP BD NU. destruct (sg_relay cs N2 R) as (R1 & R2 & R3 & R4 & R5 & R6 & R7).
  pose proof (fun a => sg_network C Hb Hz Hf sl lk rs cs s0 a N2 R eq_refl) as KN. cbn zeta in KN.
  assert (HL : length s0 = n) by (rewrite map_length, seq_length; reflexivity).
  assert (HS : forall c, 1 <= c <= n -> start c (Z.of_nat c) = nth_error s0 (c - 1)).
  { intros c I. rewrite (ST c I), nth_error_map, (nth_error_nth' _ 0) by (rewrite seq_length; lia). rewrite seq_nth by lia. cbn [option_map]. replace (1 + (c - 1)) with c by lia. reflexivity. }
  assert (HR : forall i s o, o <> Drain -> drained [snd (opf i s o)] = []).
  { intros i s o N. destruct o as [m| | |]; cbn [sg_op]; [destruct (sg_handle_incoming C Hb Hz Hf (rs (i - 1)) s m); reflexivity|destruct (sg_proceed C Hb Hz Hf (rs (i - 1)) s); reflexivity|contradiction|destruct (sg_pick_output s); reflexivity]. }
  assert (BB : (Z.of_nat (n * (n + 4)) <= 65535)%Z /\ (Z.of_nat n <= 65535)%Z) by (split; [exact BD|nia]).
  pose proof (sys_total opf (@sg_wants_to_proceed C) (@sg_is_finished C) (@sm_queue C) start crit ser par oc room_id s0 n c0 (n * (n + 4)) (7 * (n * n) + 5 * n)
    HL N2 C0 HS SP HR (fun a => proj1 (KN a)) R1 R2 R3 R4 R5 (fun a => proj1 (proj2 (KN a))) R6 R7 BB acts NU) as T. cbn zeta in T.
  destruct T as (T1 & T2 & (nacts & T3 & T3') & T4 & T5). cbn zeta. refine (conj T1 (conj T2 (conj _ (conj T5 _)))).
  - intros c x r E. destruct (T4 _ _ _ E) as [F1 F2]. assert (P1 : party (fst (net_exec opf net0 nacts)) (S c) = Some (cr_st x)) by (apply T3'; right; exists r; auto).
    assert (LC : c < n). { cbn [party] in P1. assert (X : c < length (nt_st (fst (net_exec opf net0 nacts)))) by (apply nth_error_Some; congruence).
      destruct (exec_inv opf s0 HR nacts) as [lost LI]. pose proof (li_len _ _ _ _ _ LI) as Q. rewrite HL in Q. lia. }
    destruct (nth_error cs c) as [o|] eqn:X; [|apply nth_error_None in X; lia]. exists o. split; [reflexivity|]. destruct (KN nacts) as (_ & _ & _ & K4 & _). destruct (K4 c o X) as (s & P2 & F).
    rewrite P1 in P2. injection P2 as <-. rewrite F2. cbn [sg_op]. unfold sg_pick_output. rewrite (F F1). reflexivity.
  - intros SE. exact (sys_can_finish opf (@sg_wants_to_proceed C) (@sg_is_finished C) (@sm_queue C) start crit ser par oc room_id s0 n c0 (n * (n + 4)) (7 * (n * n) + 5 * n)
    HL N2 C0 HS SP HR (fun a => proj1 (KN a)) R1 R2 R3 R4 R5 (fun a => proj1 (proj2 (KN a))) R6 R7 BB acts NU SE).
Qed.
End Sg.

(** Honest parties over an asynchronous network: C64, C65.  A schedule is any list of actions: deliver one of the
    messages on the wire (any of them), call proceed on a party, put a party's outgoing queue on the wire. *)
From Coq Require Import ZArith Lia Bool List Permutation.
From Verif Require Import ZArithX Fq Curve Toy Outcome Sigma Bytes Vss Paillier RangeProofs Pdl PdlSlack Mta Ecdsa Mp MpProofs Gg20Keygen KeygenRun Gg20Sign SignRun SignProofs SignRunProofs KeygenRunProofs Blame Stores RoundSM SmSpec SmProofs KeygenSM SignSM SmSim SmTheory SmFacts SmTags Network NetLog NetProofs NetSim PropKeygen PropRange PropSign.
Import ListNotations.
Local Open Scope nat_scope.

Lemma kg_news (C : Curve) Hb (Hf : hashF C) ck cd t n rs sts : 0 < n -> omapM (fun i => kg_new C Hb Hf ck cd (rs i) (S i) t n) (seq 0 n) = Ok sts ->
  sts = map (fun i => kg_start C i t n) (seq 1 n) /\ 2 <= n /\ t < n.
Proof.
  intros N E. apply omapM_fun in E; [|exact N]. destruct E as [g [G ->]].
  assert (Q : forall i, i < n -> g i = kg_start C (S i) t n /\ 2 <= n /\ t < n) by (intros i I; destruct (kg_new_ok C Hb Hf ck cd (rs i) (S i) t n _ (G i I)) as [Q1 [Q2 [Q3 _]]]; split; [exact Q1|lia]).
  split; [|exact (proj2 (Q 0 N))]. rewrite <- (seq_shift n 0), map_map. apply map_ext_in. intros i I. apply in_seq in I. apply Q. lia.
Qed.
Lemma sg_news (C : Curve) (sl : list nat) (lks : nat -> local_key C) sts : 0 < length sl -> omapM (fun i => sg_new (S i) sl (lks i)) (seq 0 (length sl)) = Ok sts ->
  sts = map (fun i => sg_start C i sl (lks (i - 1))) (seq 1 (length sl)) /\ 2 <= length sl.
Proof.
  intros N E. apply omapM_fun in E; [|exact N]. destruct E as [g [G ->]].
  assert (Q : forall i, i < length sl -> g i = sg_start C (S i) sl (lks i) /\ 2 <= length sl) by (intros i I; destruct (sg_new_ok C (S i) sl (lks i) _ (G i I)) as [Q1 [Q2 _]]; split; [exact Q1|lia]).
  split; [|exact (proj2 (Q 0 N))]. rewrite <- (seq_shift (length sl) 0), map_map. apply map_ext_in. intros i I. apply in_seq in I. cbn [Nat.sub]. rewrite Nat.sub_0_r. apply Q. lia.
Qed.

(** What a key generated by honest parties must satisfy: party i (from 0) holds the value x_i whose public image is in
    everybody's list, all hold the public key of the sum of the contributions, and any t+1 values give that sum. *)
Definition key_correct {C : Curve} (t n : nat) (rs : nat -> kg_rand C) (x : nat -> Fq (cq C)) (i : nat) (lk : local_key C) : Prop :=
  lk_y lk = smul (secret_of n (fun j => kr_u (rs j))) gen /\
  sk_y (lk_shared lk) = lk_y lk /\ sk_x (lk_shared lk) = x i /\
  lk_pk lk = map (fun j => smul (x j) gen) (seq 0 n) /\
  lk_N lk = map (fun j => (kr_p1 (rs j) * kr_p2 (rs j))%Z) (seq 0 n) /\ lk_dl lk = map (fun j => kr_dl (rs j)) (seq 0 n) /\
  lk_p1 lk = kr_p1 (rs i) /\ lk_p2 lk = kr_p2 (rs i) /\ lk_i lk = S i /\ lk_t lk = t /\ lk_n lk = n /\
  (forall s, NoDup s -> (forall j, In j s -> j < n) -> t < length s ->
     vss_reconstruct (E := unit) (lk_vss lk) s (map x s) = Ok (secret_of n (fun j => kr_u (rs j)))).
Definition keygen_setup {C : Curve} (ck : Z -> Z -> bool) (cd : Z -> dlstmt -> outcome mp_error bool) (t n : nat) (rs : nat -> kg_rand C) : Prop :=
  0 < n /\ (Z.of_nat n < cq C)%Z /\ (forall i, i < n -> length (kr_coefs (rs i)) = t) /\
  (forall i, i < n -> ck (kr_ck (rs i)) (kr_p1 (rs i) * kr_p2 (rs i))%Z = true /\ cd (kr_cd1 (rs i)) (kr_dl (rs i)) = Ok true /\
     cd (kr_cd2 (rs i)) {| dl_N := dl_N (kr_dl (rs i)); dl_h1 := dl_h2 (kr_dl (rs i)); dl_h2 := dl_h1 (kr_dl (rs i)) |} = Ok true /\
     (2047 <= bit_length (kr_p1 (rs i) * kr_p2 (rs i)) <= 2048)%Z /\ (2047 <= bit_length (dl_N (kr_dl (rs i))) <= 2048)%Z).
Lemma keygen_keys (C : Curve) Hb (Hf : hashF C) ck cd t n rs : t < n -> keygen_setup ck cd t n rs ->
  exists lks x, kg_run C Hb Hf ck cd t n rs = Ok lks /\ length lks = n /\ forall i lk, nth_error lks i = Some lk -> key_correct t n rs x i lk.
Proof.
  intros TN [N0 [Q [CO OR]]]. destruct (C20_gg20_keygen_correct C Hb Hf ck cd t n rs TN Q CO OR) as [lks [x [R [L [K V]]]]]. exists lks, x. split; [exact R|]. split; [exact L|]. intros i lk X.
  destruct (K i lk X) as (A1 & A2 & A3 & A4 & A5 & A6 & A7 & A8 & A9 & A10 & A11 & _). refine (conj A1 (conj A2 (conj A3 (conj A4 (conj A5 (conj A6 (conj A7 (conj A8 (conj A9 (conj A10 (conj A11 _))))))))))).
  intros s S1 S2 S3. exact (V lk s (nth_error_In _ _ X) S1 S2 S3).
Qed.

(** * C64 *)
(** Under every schedule no call fails or panics, at most 5 n^2 + 3 n actions have anything to do, and an action with
    nothing to do changes nothing; whoever has finished holds the correct key; when nothing is left to do everyone has
    finished, and pick_output returns the key. *)
Theorem C64_keygen_finishes_under_every_schedule :
  forall (C : Curve) Hb (Hf : hashF C) ck cd (t n : nat) (rs : nat -> kg_rand C) sts,
  keygen_setup ck cd t n rs -> omapM (fun i => kg_new C Hb Hf ck cd (rs i) (S i) t n) (seq 0 n) = Ok sts ->
  let opf := fun i => kg_op C Hb Hf ck cd (rs (i - 1)) in
  let w0 := {| nt_st := sts; nt_wire := [] |} in
  let enab := enabled (@kg_wants_to_proceed C) (@ks_queue C) in
  exists x : nat -> Fq (cq C), forall acts, let w := fst (net_exec opf w0 acts) in let log := snd (net_exec opf w0 acts) in
  (forall e, In e log -> call_ok e) /\
  work opf (@kg_wants_to_proceed C) (@ks_queue C) w0 acts <= 5 * (n * n) + 3 * n /\
  (forall a, enab w a = false -> fst (net_step opf w a) = w) /\
  (forall i s, i < n -> party w (S i) = Some s -> kg_is_finished s = true -> exists lk, snd (kg_pick_output s) = Some (Ok lk) /\ key_correct t n rs x i lk) /\
  ((forall a, enab w a = false) -> forall i, i < n -> exists s lk, party w (S i) = Some s /\ snd (kg_pick_output s) = Some (Ok lk) /\ key_correct t n rs x i lk).
Proof.
  intros C Hb Hf ck cd t n rs sts SU ST opf w0 enab. destruct (kg_news C Hb Hf ck cd t n rs sts (proj1 SU) ST) as [S1 [N2 TN]].
  destruct (keygen_keys C Hb Hf ck cd t n rs TN SU) as [lks [x [R [L K]]]]. exists x. intros acts w log.
  destruct (kg_network C Hb Hf ck cd t n rs lks sts acts N2 R S1) as [L1 [L2 [L3 [L4 L5]]]].
  assert (NE : forall i, i < n -> exists lk, nth_error lks i = Some lk) by (intros i I; destruct (nth_error lks i) eqn:X; [eauto|apply nth_error_None in X; lia]).
  assert (PO : forall (s : kg_sm C) lk, ks_round s = KFinal lk -> snd (kg_pick_output s) = Some (Ok lk)) by (intros s lk X; unfold kg_pick_output; rewrite X; reflexivity).
  refine (conj L1 (conj L2 (conj L3 (conj _ _)))).
  - intros i s I P F. destruct (NE i I) as [lk X]. destruct (L4 i lk X) as [s' [P' Q]]. assert (EP : Some s = Some s') by (rewrite <- P; exact P'). injection EP as <-. exists lk. split; [exact (PO s lk (Q F))|exact (K i lk X)].
  - intros Q i I. destruct (NE i I) as [lk X]. destruct (L5 Q i lk X) as [s [P F]]. exists s, lk. split; [exact P|]. split; [exact (PO s lk F)|exact (K i lk X)].
Qed.
Print Assumptions C64_keygen_finishes_under_every_schedule.
(** The network never gets stuck: every schedule can be continued until nothing is left to do. *)
Theorem C64_keygen_schedules_can_finish :
  forall (C : Curve) Hb (Hf : hashF C) ck cd (t n : nat) (rs : nat -> kg_rand C) sts,
  keygen_setup ck cd t n rs -> omapM (fun i => kg_new C Hb Hf ck cd (rs i) (S i) t n) (seq 0 n) = Ok sts ->
  let opf := fun i => kg_op C Hb Hf ck cd (rs (i - 1)) in
  forall acts, exists more, let w := fst (net_exec opf {| nt_st := sts; nt_wire := [] |} (acts ++ more)) in
  forall i, i < n -> exists s, party w (S i) = Some s /\ kg_is_finished s = true.
Proof.
  intros C Hb Hf ck cd t n rs sts SU ST opf acts. destruct (C64_keygen_finishes_under_every_schedule C Hb Hf ck cd t n rs sts SU ST) as [x A]. fold opf in A.
  destruct (can_finish opf (@kg_wants_to_proceed C) (@ks_queue C) {| nt_st := sts; nt_wire := [] |} (5 * (n * n) + 3 * n)) with (acts := acts) as [more M].
  - intros a. destruct (A a) as [_ [W _]]. exact W.
  - exists more. intros w i I. destruct (A (acts ++ more)) as [_ [_ [_ [_ F]]]]. destruct (F M i I) as [s [lk [P [Q _]]]]. exists s. split; [exact P|].
    clear -Q. unfold kg_pick_output in Q. unfold kg_is_finished. destruct (ks_round s); cbn in Q; try discriminate. reflexivity.
Qed.
Print Assumptions C64_keygen_schedules_can_finish.
(** The same for histories: each party's calls come in any order, messages may be delivered repeatedly, and nothing
    relates the parties' histories except that what is delivered was sent. *)
Theorem C64_keygen_any_genuine_history :
  forall (C : Curve) Hb (Hf : hashF C) ck cd (t n : nat) (rs : nat -> kg_rand C) (H : nat -> list (op (kg_msg C))) st rets,
  keygen_setup ck cd t n rs ->
  (forall i, 1 <= i <= n -> kg_hist C Hb Hf ck cd (rs (i - 1)) i t n (H i) (st i) (rets i)) ->
  let sent := fun i => drained (rets i) ++ ks_queue (st i) in genuine n sent H ->
  exists x : nat -> Fq (cq C),
  (forall i, 1 <= i <= n -> failures (rets i) = []) /\
  (all_delivered n sent H -> (forall i, 1 <= i <= n -> kg_wants_to_proceed (st i) = false) ->
   forall i, i < n -> exists lk, key_correct t n rs x i lk /\
     ((snd (kg_pick_output (st (S i))) = Some (Ok lk) /\ picks (rets (S i)) = []) \/ picks (rets (S i)) = [lk])).
Proof.
  intros C Hb Hf ck cd t n rs H st rets SU HH snt GE. assert (I1 : 1 <= 1 <= n) by (destruct SU; lia).
  destruct (kg_hist_run C Hb Hf ck cd (rs (1 - 1)) 1 t n _ _ _ (HH 1 I1)) as [_ [_ [_ [_ [_ [N2 [_ TN]]]]]]].
  destruct (keygen_keys C Hb Hf ck cd t n rs TN SU) as [lks [x [R [L K]]]]. exists x.
  destruct (kg_histories C Hb Hf ck cd t n rs lks H st rets N2 R HH GE) as [A1 A2]. split; [exact A1|]. intros AD W i I.
  destruct (nth_error lks i) as [lk|] eqn:X; [|apply nth_error_None in X; lia]. exists lk. split; [exact (K i lk X)|]. destruct (A2 AD W i lk X) as [[Q1 Q2]|Q]; [left|right; exact Q].
  split; [unfold kg_pick_output; rewrite Q1; reflexivity|exact Q2].
Qed.
Print Assumptions C64_keygen_any_genuine_history.

(** * C65 *)
(** Adding the partial signatures in any order gives the same output. *)
Section Perm.
Context (C : Curve).
Add Field pcfield : (C_field C).
Lemma fold_fadd_perm (l l' : list (Fq (cq C))) : Permutation l l' -> forall a, fold_left fadd l a = fold_left fadd l' a.
Proof.
  intros P. induction P as [|x l l' P IH|x y l|l l' l'' P1 IH1 P2 IH2]; intros a; [reflexivity|apply IH| |rewrite IH1; apply IH2].
  cbn [fold_left]. f_equal. ring.
Qed.
End Perm.
Lemma gg20_output_perm {C : Curve} (l : local_sig C) v v' : Permutation v v' -> gg20_output l v = gg20_output l v'.
Proof. intros P. unfold gg20_output. rewrite (fold_fadd_perm C _ _ P). reflexivity. Qed.
Lemma map_but {A B} (f : A -> B) i l : map f (but i l) = but i (map f l).
Proof. unfold but. rewrite map_app, firstn_map, skipn_map. reflexivity. Qed.

Definition sign_outputs_ok {C : Curve} (Y : pt C) (m x : Z) (cs : list (completed C)) : Prop :=
  exists sig, (to_Z (sg_r sig) = x mod cq C /\ to_Z (sg_s sig) <= (cq C - 1) / 2)%Z /\
  ecdsa_eqn Y m (to_Z (sg_r sig)) (to_Z (sg_s sig)) /\ ((x mod cq C <> 0)%Z -> ecdsa_valid Y m (to_Z (sg_r sig)) (to_Z (sg_s sig))) /\
  exists ls, omapM (fun c => sign_manual c m) cs = Ok ls /\
  forall i l received, nth_error ls i = Some l -> Permutation received (map ls_s (but i ls)) -> gg20_output l received = Ok sig.

Lemma offline_result (C : Curve) Hb (Hz : hashZ C) (Hf : hashF C) n (f : list (Fq (cq C))) Ns dls sl (lks : nat -> local_key C) (rs : nat -> sign_rand C) :
  (forall l, (0 <= Hz l)%Z) -> signers_ok n f Ns dls sl lks -> sign_rand_ok Hz dls sl lks rs ->
  exists (R : pt C) x y cs, smul (fsum (map (fun p => sr_k (rs p)) (seq 0 (length sl)))) R = gen /\ coords R = Some (x, y) /\
  length cs = length sl /\ (forall c, In c cs -> co_R c = R) /\
  (forall m, fadd (of_Z (cq C) m) (fmul (of_Z (cq C) x) (hd f0 f)) <> f0 -> sign_outputs_ok (smul (hd f0 f) gen) m x cs) /\
  sg_run C Hb Hz Hf sl lks rs = Ok cs.
Proof.
  intros HH KO RO.
  assert (Hk : fsum (map (fun p => sr_k (rs p)) (seq 0 (length sl))) <> f0) by (exact (proj1 (proj2 RO))).
  destruct (C34_gg20_sign_correct C Hb Hz Hf n f Ns dls sl lks rs 0%Z HH KO RO) as (R & x & y & cs & R1 & R2 & R3 & _).
  destruct (C33_gg20_presign_correct C Hb Hz Hf n f Ns dls sl lks rs HH KO RO) as (cs' & Q1 & Q2 & Q3 & _). rewrite R3 in Q1. injection Q1 as <-.
  exists R, x, y, cs. refine (conj R1 (conj R2 (conj Q2 (conj _ (conj _ R3))))).
  - intros c X. apply In_nth_error in X. destruct X as [p X]. destruct (Q3 p c X) as [E _].
    assert (INV : forall Z0 : pt C, smul (fsum (map (fun p => sr_k (rs p)) (seq 0 (length sl)))) Z0 = gen -> Z0 = smul (finv (fsum (map (fun p => sr_k (rs p)) (seq 0 (length sl))))) gen).
    { intros Z0 EZ. rewrite <- EZ, smul_smul, (finv_l (cq_prime C)) by exact Hk. symmetry. apply smul_1. }
    rewrite (INV _ E), (INV _ R1). reflexivity.
  - intros m NZ. destruct (C34_gg20_sign_correct C Hb Hz Hf n f Ns dls sl lks rs m HH KO RO) as (R' & x' & y' & cs' & R1' & R2' & R3' & R4 & _).
    rewrite R3 in R3'. injection R3' as <-.
    assert (RR : R' = R).
    { assert (INV : forall Z0 : pt C, smul (fsum (map (fun p => sr_k (rs p)) (seq 0 (length sl)))) Z0 = gen -> Z0 = smul (finv (fsum (map (fun p => sr_k (rs p)) (seq 0 (length sl))))) gen).
      { intros Z0 EZ. rewrite <- EZ, smul_smul, (finv_l (cq_prime C)) by exact Hk. symmetry. apply smul_1. }
      rewrite (INV _ R1), (INV _ R1'). reflexivity. }
    rewrite RR, R2 in R2'. injection R2' as <- <-. destruct (R4 NZ) as (sig & O1 & O2 & O3 & O4 & O5).
    exists sig. refine (conj (conj O2 O3) (conj O4 (conj O5 _))). unfold sg_online in O1. apply obind_ok in O1. destruct O1 as [ls [O1 O6]]. exists ls. split; [exact O1|].
    intros i l rcv X P. rewrite (gg20_output_perm l _ _ P). apply omapM_ok in O6. assert (LI : i < length cs) by (rewrite <- (omapM_length _ _ _ O1); apply nth_error_Some; congruence).
    assert (F2 : forall a k (r : list (sig_recid C)), Forall2 (fun i y => (let* l := nth_o ls i in gg20_output l (map ls_s (but i ls))) = Ok y) (seq a k) r -> Forall (fun y => y = sig) r -> forall j, a <= j < a + k -> (let* l := nth_o ls j in gg20_output l (map ls_s (but j ls))) = Ok sig).
    { clear. intros a k. revert a. induction k as [|k IH]; intros a r F A j J; [lia|]. cbn [seq] in F. inversion F as [|? b ? r' F1 F2]; subst. inversion A as [|? ? A1 A2]; subst. destruct (Nat.eq_dec a j) as [->|N]; [exact F1|]. apply (IH (S a) r' F2 A2). lia. }
    assert (FA : Forall (fun y => y = sig) (repeat sig (length sl))) by (apply Forall_forall; intros b Bi; apply repeat_spec in Bi; exact Bi).
    specialize (F2 0 (length cs) _ O6 FA i (conj (Nat.le_0_l i) LI)). unfold nth_o in F2. rewrite X in F2. exact F2.
Qed.
(** Whatever the schedule, no call fails or panics and the number of useful actions is bounded; when nothing is left to
    do every signer has finished, all with the same R, and then for every message (except those where the total s is
    0) SignManual gives everyone the same valid signature, in whatever order the others' partial signatures arrive. *)
Theorem C65_offline_stage_finishes_under_every_schedule :
  forall (C : Curve) Hb (Hz : hashZ C) (Hf : hashF C) n (f : list (Fq (cq C))) Ns dls sl (lks : nat -> local_key C) (rs : nat -> sign_rand C) sts,
  (forall l, (0 <= Hz l)%Z) -> signers_ok n f Ns dls sl lks -> sign_rand_ok Hz dls sl lks rs ->
  omapM (fun i => sg_new (S i) sl (lks i)) (seq 0 (length sl)) = Ok sts ->
  let opf := fun i => sg_op C Hb Hz Hf (rs (i - 1)) in
  let w0 := {| nt_st := sts; nt_wire := [] |} in
  let enab := enabled (@sg_wants_to_proceed C) (@sm_queue C) in
  exists (R : pt C) x y cs, smul (fsum (map (fun p => sr_k (rs p)) (seq 0 (length sl)))) R = gen /\ coords R = Some (x, y) /\
  length cs = length sl /\ (forall c, In c cs -> co_R c = R) /\
  (forall m, fadd (of_Z (cq C) m) (fmul (of_Z (cq C) x) (hd f0 f)) <> f0 -> sign_outputs_ok (smul (hd f0 f) gen) m x cs) /\
  forall acts, let w := fst (net_exec opf w0 acts) in let log := snd (net_exec opf w0 acts) in
  (forall e, In e log -> call_ok e) /\
  work opf (@sg_wants_to_proceed C) (@sm_queue C) w0 acts <= 7 * (length sl * length sl) + 5 * length sl /\
  (forall a, enab w a = false -> fst (net_step opf w a) = w) /\
  (forall i s, i < length sl -> party w (S i) = Some s -> sg_is_finished s = true -> exists c, nth_error cs i = Some c /\ snd (sg_pick_output s) = Some (Ok c)) /\
  ((forall a, enab w a = false) -> forall i, i < length sl -> exists s c, party w (S i) = Some s /\ nth_error cs i = Some c /\ snd (sg_pick_output s) = Some (Ok c)).
Proof.
  intros C Hb Hz Hf n f Ns dls sl lks rs sts HH KO RO ST opf w0 enab.
  assert (N0 : 0 < length sl) by (destruct KO as (_ & _ & _ & Hn & Hl & _); destruct f; [congruence|]; cbn [length] in Hl; lia).
  destruct (sg_news C sl lks sts N0 ST) as [S1 N2].
  destruct (offline_result C Hb Hz Hf n f Ns dls sl lks rs HH KO RO) as (R & x & y & cs & R1 & R2 & R4 & R5 & R6 & R3).
  exists R, x, y, cs. refine (conj R1 (conj R2 (conj R4 (conj R5 (conj R6 _))))).
  intros acts w log. destruct (sg_network C Hb Hz Hf sl lks rs cs sts acts N2 R3 S1) as [L1 [L2 [L3 [L4 L5]]]].
    assert (NE : forall i, i < length sl -> exists c, nth_error cs i = Some c) by (intros i I; destruct (nth_error cs i) eqn:X; [eauto|apply nth_error_None in X; lia]).
    assert (PO : forall (s : sg_sm C) c, sm_round s = SFinished c -> snd (sg_pick_output s) = Some (Ok c)) by (intros s c X; unfold sg_pick_output; rewrite X; reflexivity).
    refine (conj L1 (conj L2 (conj L3 (conj _ _)))).
    + intros i s I P F. destruct (NE i I) as [c X]. destruct (L4 i c X) as [s' [P' Q]]. assert (EP : Some s = Some s') by (rewrite <- P; exact P'). injection EP as <-. exists c. split; [exact X|exact (PO s c (Q F))].
    + intros Q i I. destruct (NE i I) as [c X]. destruct (L5 Q i c X) as [s [P F]]. exists s, c. split; [exact P|]. split; [exact X|exact (PO s c F)].
Qed.
Print Assumptions C65_offline_stage_finishes_under_every_schedule.
Theorem C65_offline_schedules_can_finish :
  forall (C : Curve) Hb (Hz : hashZ C) (Hf : hashF C) n (f : list (Fq (cq C))) Ns dls sl (lks : nat -> local_key C) (rs : nat -> sign_rand C) sts,
  (forall l, (0 <= Hz l)%Z) -> signers_ok n f Ns dls sl lks -> sign_rand_ok Hz dls sl lks rs ->
  omapM (fun i => sg_new (S i) sl (lks i)) (seq 0 (length sl)) = Ok sts ->
  let opf := fun i => sg_op C Hb Hz Hf (rs (i - 1)) in
  forall acts, exists more, let w := fst (net_exec opf {| nt_st := sts; nt_wire := [] |} (acts ++ more)) in
  forall i, i < length sl -> exists s, party w (S i) = Some s /\ sg_is_finished s = true.
Proof.
  intros C Hb Hz Hf n f Ns dls sl lks rs sts HH KO RO ST opf acts.
  destruct (C65_offline_stage_finishes_under_every_schedule C Hb Hz Hf n f Ns dls sl lks rs sts HH KO RO ST) as (R & x & y & cs & _ & _ & _ & _ & _ & A). fold opf in A.
  destruct (can_finish opf (@sg_wants_to_proceed C) (@sm_queue C) {| nt_st := sts; nt_wire := [] |} (7 * (length sl * length sl) + 5 * length sl)) with (acts := acts) as [more M].
  - intros a. destruct (A a) as [_ [W _]]. exact W.
  - exists more. intros w i I. destruct (A (acts ++ more)) as [_ [_ [_ [_ F]]]]. destruct (F M i I) as [s [c [P [_ Q]]]]. exists s. split; [exact P|].
    clear -Q. unfold sg_pick_output in Q. unfold sg_is_finished. destruct (sm_round s); cbn in Q; try discriminate. reflexivity.
Qed.
Print Assumptions C65_offline_schedules_can_finish.
Theorem C65_offline_any_genuine_history :
  forall (C : Curve) Hb (Hz : hashZ C) (Hf : hashF C) n (f : list (Fq (cq C))) Ns dls sl (lks : nat -> local_key C) (rs : nat -> sign_rand C) (H : nat -> list (op (sg_msg C))) st rets,
  (forall l, (0 <= Hz l)%Z) -> signers_ok n f Ns dls sl lks -> sign_rand_ok Hz dls sl lks rs ->
  (forall i, 1 <= i <= length sl -> sg_hist C Hb Hz Hf (rs (i - 1)) i sl (lks (i - 1)) (H i) (st i) (rets i)) ->
  let sent := fun i => drained (rets i) ++ sm_queue (st i) in genuine (length sl) sent H ->
  (forall i, 1 <= i <= length sl -> failures (rets i) = []) /\
  (all_delivered (length sl) sent H -> (forall i, 1 <= i <= length sl -> sg_wants_to_proceed (st i) = false) ->
   exists (R : pt C) x y cs, smul (fsum (map (fun p => sr_k (rs p)) (seq 0 (length sl)))) R = gen /\ coords R = Some (x, y) /\
   (forall i, i < length sl -> exists c, nth_error cs i = Some c /\ co_R c = R /\
     ((snd (sg_pick_output (st (S i))) = Some (Ok c) /\ picks (rets (S i)) = []) \/ picks (rets (S i)) = [c])) /\
   (forall m, fadd (of_Z (cq C) m) (fmul (of_Z (cq C) x) (hd f0 f)) <> f0 -> sign_outputs_ok (smul (hd f0 f) gen) m x cs)).
Proof.
  intros C Hb Hz Hf n f Ns dls sl lks rs H st rets HH KO RO HI snt GE.
  assert (N0 : 1 <= 1 <= length sl) by (destruct KO as (_ & _ & _ & Hn & Hl & _); destruct f; [congruence|]; cbn [length] in Hl; lia).
  assert (NW : exists sts, omapM (fun i => sg_new (S i) sl (lks i)) (seq 0 (length sl)) = Ok sts).
  { assert (Q : forall l : list nat, (forall i, In i l -> i < length sl) -> exists sts, omapM (fun i => sg_new (S i) sl (lks i)) l = Ok sts).
    { induction l as [|i l IH]; intros L; [exists []; reflexivity|]. destruct IH as [r IH]; [intros j J; apply L; right; exact J|]. assert (I : 1 <= S i <= length sl) by (specialize (L i (or_introl eq_refl)); lia).
      destruct (HI (S i) I) as [s0 [N _]]. cbn [Nat.sub] in N. rewrite Nat.sub_0_r in N. exists (s0 :: r). cbn [omapM]. rewrite N. cbn [obind]. rewrite IH. reflexivity. }
    apply Q. intros i I. apply in_seq in I. lia. }
  destruct NW as [sts ST]. destruct (sg_news C sl lks sts (proj2 N0) ST) as [_ N2].
  destruct (offline_result C Hb Hz Hf n f Ns dls sl lks rs HH KO RO) as (R & x & y & cs & R1 & R2 & R4 & R5 & R6 & R3).
  destruct (sg_histories C Hb Hz Hf sl lks rs cs H st rets N2 R3 HI GE) as [A1 A2]. split; [exact A1|]. intros AD W. specialize (A2 AD W).
  exists R, x, y, cs. refine (conj R1 (conj R2 (conj _ R6))). intros i I. destruct (nth_error cs i) as [c|] eqn:X; [|apply nth_error_None in X; lia]. exists c. split; [reflexivity|]. split; [exact (R5 c (nth_error_In _ _ X))|].
  destruct (A2 i c X) as [[Q1 Q2]|Q]; [left|right; exact Q]. split; [unfold sg_pick_output; rewrite Q1; reflexivity|exact Q2].
Qed.
Print Assumptions C65_offline_any_genuine_history.

(** * Concrete networks *)
Definition exck (_ _ : Z) : bool := true.
Definition excd (_ : Z) (_ : dlstmt) : outcome mp_error bool := Ok true.
Example C64_example_setup : keygen_setup exck excd 1 3 exrs.
Proof.
  refine (conj _ (conj _ (conj _ _))); [lia|reflexivity|intros [|[|[|i]]] H; [reflexivity|reflexivity|reflexivity|lia]|].
  assert (Q : forallb (fun i => let a := bit_length (kr_p1 (exrs i) * kr_p2 (exrs i)) in let b := bit_length (dl_N (kr_dl (exrs i))) in
    ((2047 <=? a) && (a <=? 2048) && (2047 <=? b) && (b <=? 2048))%Z) (seq 0 3) = true) by (vm_compute; reflexivity).
  rewrite forallb_forall in Q. intros i H. assert (I : In i (seq 0 3)) by (apply in_seq; lia). specialize (Q i I). cbn zeta in Q. rewrite !andb_true_iff, !Z.leb_le in Q.
  refine (conj eq_refl (conj eq_refl (conj eq_refl (conj _ _)))); [exact (conj (proj1 (proj1 (proj1 Q))) (proj2 (proj1 (proj1 Q))))|exact (conj (proj2 (proj1 Q)) (proj2 Q))].
Qed.
Definition exnews : outcome (sm_error mp_error) (list (kg_sm toy)) := omapM (fun i => kg_new toy exHb exHf3 exck excd (exrs i) (S i) 1 3) (seq 0 3).
(** One turn: everyone proceeds and sends, then the wire is emptied from the given end. *)
Definition exturn (last_first : bool) : list nact :=
  flat_map (fun i => [NProceed i; NSend i]) [3; 1; 2] ++ (if last_first then map NDeliver [11; 10; 9; 8; 7; 6; 5; 4; 3; 2; 1; 0] else repeat (NDeliver 0) 12).
Definition exsched : list nact := exturn true ++ exturn false ++ exturn true ++ exturn false ++ exturn true.
Definition exview (w : net (kg_sm toy) (kg_msg toy)) : list (option (Z * Z * list Z)) :=
  map (fun s => match snd (kg_pick_output s) with Some (Ok lk) => Some (lk_obs lk) | _ => None end) (nt_st w).
Definition exgo (acts : list nact) :=
  match exnews with
  | Ok sts => let '(w, log) := net_exec (fun i => kg_op toy exHb exHf3 exck excd (exrs (i - 1))) {| nt_st := sts; nt_wire := [] |} acts in (exview w, length (nt_wire w), length log)
  | _ => ([], 0, 0)
  end.
Example C64_example : exgo exsched = ([Some (13, 14, [14; 15; 16]); Some (13, 15, [14; 15; 16]); Some (13, 16, [14; 15; 16])]%Z, 0, 54) /\
  exgo (exturn true ++ exturn false) = ([None; None; None], 0, 24).
Proof. split; vm_compute; reflexivity. Qed.
(** Signers 3 and 1 of C33_example_hypotheses *)
Definition exsgo (acts : list nact) :=
  match omapM (fun i => sg_new (S i) [3; 1] (exlks i)) (seq 0 2) with
  | Ok sts => let '(w, log) := net_exec (fun i => sg_op toy exHb2 exH exHf2 (exsrs (i - 1))) {| nt_st := sts; nt_wire := [] |} acts in
              (map (fun s => match snd (sg_pick_output s) with Some (Ok c) => Some (co_obs c) | _ => None end) (nt_st w), length (nt_wire w), length log)
  | _ => ([], 0, 0)
  end.
Definition exsturn : list nact := [NProceed 2; NSend 2; NDeliver 0; NProceed 1; NSend 1; NDeliver 0].
Example C65_example : exsgo (exsturn ++ exsturn ++ exsturn ++ exsturn ++ exsturn ++ exsturn ++ [NProceed 2; NProceed 1]) = ([Some (2, 18, 14); Some (2, 18, 4)]%Z, 0, 38) /\
  exsgo (exsturn ++ exsturn) = ([None; None], 0, 12).
Proof. split; vm_compute; reflexivity. Qed.

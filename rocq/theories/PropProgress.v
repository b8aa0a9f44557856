(** C108: the Debug output of the GG20 state machines under every history of calls. *)
From Coq Require Import ZArith Lia Bool List String DecimalString DecimalNat.
From Verif Require Import ZArithX Fq Curve Toy Outcome Sigma Bytes Vss Paillier RangeProofs Pdl PdlSlack Mta Ecdsa Mp MpProofs Gg20Keygen KeygenRun Gg20Sign SignRun SignProofs Blame Stores RoundSM SmSpec SmProofs KeygenSM SignSM SmSim SmTheory SmFacts SmPanic PropSign KeygenExtra Network PropRange PropKeygen PropSM PropNetwork PropPanic Progress.
Import ListNotations.
Local Open Scope nat_scope.

(** The number of other parties from which a proper message of round k has been delivered *)
Definition received {B} (of : B -> nat) (p2p : nat -> bool) (me n : nat) (h : list (op B)) (k : nat) : nat :=
  List.length (filter (fun j => match got of p2p me h k j with Some _ => true | None => false end) (peers me n)).
(** What is printed of a store: nothing left of it, or "received/expected". *)
Definition shows (gone pre : string) (c : option (nat * nat)) : string :=
  match c with None => gone | Some (a, b) => ("[" ++ pre ++ dec a ++ "/" ++ dec b ++ "]")%string end.

(** The text for the round: its number while the protocol runs. *)
Definition stage_text (pre fin gone : string) (rounds current : nat) (finished : bool) : string :=
  if current <=? rounds then (pre ++ dec current)%string else if finished then fin else gone.
(** Numbers are printed so that they can be read back. *)
Theorem C108_dec_reads_back : forall n : nat, option_map Nat.of_uint (DecimalString.NilZero.uint_of_string (dec n)) = Some n.
Proof.
  intros n. unfold dec. rewrite DecimalString.NilZero.usu.
  - cbn [option_map]. rewrite DecimalNat.Unsigned.of_to. reflexivity.
  - intros X. pose proof (DecimalNat.Unsigned.of_to n) as Y. rewrite X in Y. subst n. discriminate X.
Qed.
Print Assumptions C108_dec_reads_back.

Lemma app_assoc_s (a b c : string) : ((a ++ b) ++ c)%string = (a ++ (b ++ c))%string.
Proof. induction a; cbn; congruence. Qed.

Section Gen.
Context {P B R : Type} (p : params P B R) (d0 : R).
Hypothesis Hme : 1 <= g_me p <= g_n p.
Notation rec := (received (g_of p) (g_p2p p) (g_me p) (g_n p)).
Lemma count_split {A} (f : A -> option B) (l : list A) :
  List.length (filter (fun j => match f j with Some _ => true | None => false end) l) + nones (map f l) = List.length l /\
  List.length (filter (fun j => match f j with Some _ => false | None => true end) l) = nones (map f l).
Proof. unfold nones. induction l as [|a l [I1 I2]]; [auto|]. cbn [filter map List.length]. destruct (f a); cbn [List.length]; lia. Qed.
Lemma kg_cell_is {E} h k x : store_is p h k x -> kg_cell (Some x) = (Ok (shows "[None]" "" (Some (rec h k, g_n p - 1))) : outcome E string).
Proof.
  intros (_ & S & L). unfold kg_cell, st_received, st_total, checked_sub. rewrite S, L, map_length, (peers_length _ _ Hme).
  destruct (count_split (got (g_of p) (g_p2p p) (g_me p) h k) (peers (g_me p) (g_n p))) as [Q _]. rewrite (peers_length _ _ Hme) in Q.
  replace (nones _ <=? g_n p - 1) with true by (symmetry; apply Nat.leb_le; lia). cbn [obind shows String.append].
  unfold received. do 4 f_equal. lia.
Qed.
Lemma sg_cell_is {E} ty h k x : store_is p h k x -> sg_cell ty (Some x) = (Ok (shows "[gone]" (ty ++ " ") (Some (rec h k, g_n p - 1))) : outcome E string).
Proof.
  intros (M & S & L). unfold sg_cell, st_total, checked_sub. rewrite (blame_slots p Hme (got (g_of p) (g_p2p p) (g_me p) h k) [] x M S). cbn [snd].
  rewrite S, map_length, (peers_length _ _ Hme).
  destruct (count_split (got (g_of p) (g_p2p p) (g_me p) h k) (peers (g_me p) (g_n p))) as [Q Q2]. rewrite (peers_length _ _ Hme) in Q. rewrite Q2.
  replace (nones _ <=? g_n p - 1) with true by (symmetry; apply Nat.leb_le; lia). cbn [obind shows]. rewrite app_assoc_s. unfold received. rewrite <- Q at 1. rewrite Nat.add_sub. reflexivity.
Qed.
End Gen.

Lemma kg_cell_map {E A B} (f : A -> B) (s : option (store A)) : kg_cell (option_map (store_map f) s) = (kg_cell s : outcome E string).
Proof. destruct s as [s|]; [|reflexivity]. cbn [option_map kg_cell]. unfold st_received, st_total. cbn [store_map s_slots s_left]. rewrite map_length. reflexivity. Qed.
Lemma sg_cell_map {E A B} ty (f : A -> B) (s : option (store A)) : sg_cell ty (option_map (store_map f) s) = (sg_cell ty s : outcome E string).
Proof.
  destruct s as [s|]; [|reflexivity]. pose proof (blame_map f (Some s)) as Q. cbn [option_map blame_opt] in Q. cbn [option_map sg_cell]. rewrite Q. unfold st_total. cbn [store_map s_slots]. rewrite map_length. reflexivity.
Qed.

Section Cells.
Context {P B R : Type} (p : params P B R) (d0 : R).
Hypothesis Hme : 1 <= g_me p <= g_n p.
Hypothesis Hof : forall b, 1 <= g_of p b <= g_K p.
Hypothesis Hexp : forall k, g_exp p k = false -> 0 < k /\ g_again p (k - 1) = true.
Notation rec := (received (g_of p) (g_p2p p) (g_me p) (g_n p)).
(** What the store of round k shows. *)
Definition cell_ok (h : list (op B)) (k : nat) (c : option (nat * nat)) : Prop :=
  match c with Some (a, b) => a = rec h k /\ b = g_n p - 1 | None => missing (g_of p) (g_p2p p) (g_me p) (g_n p) h k = [] end.
Definition cell_of (h : list (op B)) (s : gstate B R) (k : nat) : option (nat * nat) :=
  match g_store s k with Some _ => Some (rec h k, g_n p - 1) | None => None end.
Lemma cells h : let s := fst (run_ops (g_op p) (g_init p d0) h) in forall k, 1 <= k <= g_K p ->
  cell_ok h k (cell_of h s k) /\
  (forall E, kg_cell (g_store s k) = (Ok (shows "[None]" "" (cell_of h s k)) : outcome E string)) /\
  (forall E ty, sg_cell ty (g_store s k) = (Ok (shows "[gone]" (ty ++ " ") (cell_of h s k)) : outcome E string)) /\
  (forall r d, gs_round s = GRun r d -> (cell_of h s k = None <-> k < r)).
Proof.
  cbn zeta. intros k Hk. pose proof (run_inv p d0 Hme Hof Hexp h) as A. destruct (run_ops (g_op p) (g_init p d0) h) as [s rs]. destruct A as [I _]. cbn [fst].
  pose proof (inv_stores _ _ _ _ _ I k Hk) as S. unfold cell_of. split; [|split; [|split]].
  - destruct (g_store s k); cbn [cell_ok]; [auto|]. destruct S as (l & S). unfold inbox in S. destruct (Nat.eqb_spec k 0); [lia|]. apply all_some_iff in S. unfold missing.
    assert (N : forall j, In j (peers (g_me p) (g_n p)) -> got (g_of p) (g_p2p p) (g_me p) h k j <> None).
    { intros j J X. assert (Y : In None (map (got (g_of p) (g_p2p p) (g_me p) h k) (peers (g_me p) (g_n p)))) by (rewrite <- X; apply in_map; exact J). rewrite S in Y. apply in_map_iff in Y. destruct Y as [? [? _]]. discriminate. }
    revert N. generalize (peers (g_me p) (g_n p)). induction l0 as [|j l0 IH]; intros N; [reflexivity|]. cbn. pose proof (N j (or_introl eq_refl)) as N0. destruct (got _ _ _ h k j); [|contradiction]. apply IH. intros i X. apply N. right. exact X.
  - intros E. destruct (g_store s k); [apply (kg_cell_is p Hme), S|reflexivity].
  - intros E ty. destruct (g_store s k); [apply (sg_cell_is p Hme), S|reflexivity].
  - intros r d G. pose proof (inv_round _ _ _ _ _ I) as Q. rewrite G in Q. destruct Q as (_ & _ & Q). rewrite <- (Q k Hk). destruct (g_store s k); split; intros; try discriminate; reflexivity.
Qed.
End Cells.

(** ** Keygen *)
(** Formatting never panics; it shows the round, for every round how many parties' messages have been delivered (or that
    all have and were used) and how many messages wait to be sent. *)
Theorem C108_keygen_debug : forall (C : Curve) Hb (Hf : hashF C) ck cd rd i t n h s rs, kg_hist C Hb Hf ck cd rd i t n h s rs ->
  exists c : nat -> option (nat * nat),
    (forall E, kg_debug s = (Ok ("{Keygen at round=" ++ stage_text "" "[Final]" "[Gone]" 4 (kg_current_round s) (kg_is_finished s) ++ " msgs1=" ++ shows "[None]" "" (c 1) ++ " msgs2=" ++ shows "[None]" "" (c 2) ++
       " msgs3=" ++ shows "[None]" "" (c 3) ++ " msgs4=" ++ shows "[None]" "" (c 4) ++ " queue=[len=" ++ dec (List.length (ks_queue s)) ++ "]}")%string : outcome E string)) /\
    forall k, 1 <= k <= 4 ->
      match c k with Some (a, b) => a = received (kg_of C) kg_p2p i n h k /\ b = n - 1 | None => missing (kg_of C) kg_p2p i n h k = [] end /\
      (kg_current_round s <= 4 -> (c k = None <-> k < kg_current_round s)).
Proof.
  intros C Hb Hf ck cd rd i t n h s rs H. destruct (kg_hist_run C Hb Hf ck cd rd _ _ _ _ _ _ H) as [L [E _]].
  pose proof (cells (kgp C Hb Hf ck cd rd i n) (KR0 i t n) L (kgp_of C Hb Hf ck cd rd i n) (kgp_exp C Hb Hf ck cd rd i n) h) as Q. cbn zeta in Q. rewrite <- E in Q.
  exists (cell_of (kgp C Hb Hf ck cd rd i n) h (kg_abs C s)). split.
  - intros X. unfold kg_debug.
    pose proof (proj1 (proj2 (Q 1 ltac:(cbn; lia))) X) as Q1. pose proof (proj1 (proj2 (Q 2 ltac:(cbn; lia))) X) as Q2.
    pose proof (proj1 (proj2 (Q 3 ltac:(cbn; lia))) X) as Q3. pose proof (proj1 (proj2 (Q 4 ltac:(cbn; lia))) X) as Q4.
    change (g_store (kg_abs C s) 1) with (option_map (store_map (KM1 (C := C))) (ks_m1 s)) in Q1. change (g_store (kg_abs C s) 2) with (option_map (store_map (KM2 (C := C))) (ks_m2 s)) in Q2.
    change (g_store (kg_abs C s) 3) with (option_map (store_map (KM3 (C := C))) (ks_m3 s)) in Q3. change (g_store (kg_abs C s) 4) with (option_map (store_map (KM4 (C := C))) (ks_m4 s)) in Q4.
    rewrite kg_cell_map in Q1. rewrite kg_cell_map in Q2. rewrite kg_cell_map in Q3. rewrite kg_cell_map in Q4. rewrite Q1, Q2, Q3, Q4. replace (stage_text _ _ _ _ _ _) with (kg_stage (ks_round s)) by (unfold kg_current_round, kg_is_finished; destruct (ks_round s); reflexivity). reflexivity.
  - intros k Hk. destruct (Q k Hk) as (A & _ & _ & D). split; [exact A|]. intros CR. unfold kg_current_round in *. destruct (ks_round s) eqn:G; try (cbn in CR; lia); cbn [kg_abs gs_round] in D; rewrite G in D; eapply D; reflexivity.
Qed.
Print Assumptions C108_keygen_debug.

(** ** OfflineStage *)
Theorem C108_offline_debug : forall (C : Curve) Hb (Hz : hashZ C) (Hf : hashF C) rd i sl lk h s rs, sg_hist C Hb Hz Hf rd i sl lk h s rs ->
  exists c : nat -> option (nat * nat),
    (forall E, sg_debug s = (Ok ("OfflineStageProgress { round: " ++ stage_text "R" "Finished" "Gone" 6 (sg_current_round s) (sg_is_finished s) ++ ", round1_msgs: " ++ shows "[gone]" "bc " (c 1) ++ ", round2_msgs: " ++ shows "[gone]" "p2p " (c 2) ++
       ", round3_msgs: " ++ shows "[gone]" "bc " (c 3) ++ ", round4_msgs: " ++ shows "[gone]" "bc " (c 4) ++ ", round5_msgs: " ++ shows "[gone]" "bc " (c 5) ++
       ", msgs_queue: OutgoingMessages { len: " ++ dec (List.length (sm_queue s)) ++ " } }")%string : outcome E string)) /\
    forall k, 1 <= k <= 5 ->
      match c k with Some (a, b) => a = received (sg_of C) sg_p2p i (List.length sl) h k /\ b = List.length sl - 1 | None => missing (sg_of C) sg_p2p i (List.length sl) h k = [] end /\
      (sg_current_round s <= 6 -> (c k = None <-> k < sg_current_round s)).
Proof.
  intros C Hb Hz Hf rd i sl lk h s rs H. destruct (sg_hist_run C Hb Hz Hf rd _ _ _ _ _ _ H) as [L [E _]].
  pose proof (cells (sgp C Hb Hz Hf rd i (List.length sl)) (SR0 i sl lk) L (sgp_of C Hb Hz Hf rd i (List.length sl)) (sgp_exp C Hb Hz Hf rd i (List.length sl)) h) as Q. cbn zeta in Q. rewrite <- E in Q.
  exists (cell_of (sgp C Hb Hz Hf rd i (List.length sl)) h (sg_abs C s)). split.
  - intros X. unfold sg_debug.
    pose proof (proj1 (proj2 (proj2 (Q 1 ltac:(cbn; lia)))) X "bc"%string) as Q1. pose proof (proj1 (proj2 (proj2 (Q 2 ltac:(cbn; lia)))) X "p2p"%string) as Q2.
    pose proof (proj1 (proj2 (proj2 (Q 3 ltac:(cbn; lia)))) X "bc"%string) as Q3. pose proof (proj1 (proj2 (proj2 (Q 4 ltac:(cbn; lia)))) X "bc"%string) as Q4.
    pose proof (proj1 (proj2 (proj2 (Q 5 ltac:(cbn; lia)))) X "bc"%string) as Q5.
    change (g_store (sg_abs C s) 1) with (option_map (store_map (SM1 (C := C))) (sm_m1 s)) in Q1. change (g_store (sg_abs C s) 2) with (option_map (store_map (SM2 (C := C))) (sm_m2 s)) in Q2.
    change (g_store (sg_abs C s) 3) with (option_map (store_map (SM3 (C := C))) (sm_m3 s)) in Q3. change (g_store (sg_abs C s) 4) with (option_map (store_map (SM4 (C := C))) (sm_m4 s)) in Q4.
    change (g_store (sg_abs C s) 5) with (option_map (store_map (SM5 (C := C))) (sm_m5 s)) in Q5.
    rewrite sg_cell_map in Q1. rewrite sg_cell_map in Q2. rewrite sg_cell_map in Q3. rewrite sg_cell_map in Q4. rewrite sg_cell_map in Q5. rewrite Q1, Q2, Q3, Q4, Q5. replace (stage_text _ _ _ _ _ _) with (sg_stage (sm_round s)) by (unfold sg_current_round, sg_is_finished; destruct (sm_round s); reflexivity). reflexivity.
  - intros k Hk. destruct (Q k ltac:(cbn; lia)) as (A & _ & _ & D). split; [exact A|]. intros CR. unfold sg_current_round in *. destruct (sm_round s) eqn:G; try (cbn in CR; lia); cbn [sg_abs gs_round] in D; rewrite G in D; eapply D; reflexivity.
Qed.
Print Assumptions C108_offline_debug.

(** ** No contents *)
(** States that differ in secrets and in the contents of messages only: same round, the same slots filled, as many
    messages to send. *)
Definition shape {A} (s : option (store A)) : option (nat * list bool * nat) :=
  match s with Some s => Some (s_me s, map (fun o => match o with Some _ => true | None => false end) (s_slots s), s_left s) | None => None end.
Lemma shape_store {A B} (s : option (store A)) (s' : option (store B)) : shape s = shape s' -> option_map (store_map (fun _ => tt)) s = option_map (store_map (fun _ => tt)) s'.
Proof.
  destruct s as [[m l k]|], s' as [[m' l' k']|]; cbn; try discriminate; [|reflexivity]. intros E. injection E as -> E ->. unfold store_map. cbn. do 2 f_equal.
  revert l' E. induction l as [|[a|] l IH]; intros [|[a'|] l'] E; cbn in *; try discriminate; [reflexivity| |]; f_equal; apply IH; now injection E.
Qed.
Theorem C108_keygen_debug_no_contents : forall (C C' : Curve) (s : kg_sm C) (s' : kg_sm C') E,
  kg_current_round s = kg_current_round s' -> kg_is_finished s = kg_is_finished s' ->
  shape (ks_m1 s) = shape (ks_m1 s') -> shape (ks_m2 s) = shape (ks_m2 s') -> shape (ks_m3 s) = shape (ks_m3 s') -> shape (ks_m4 s) = shape (ks_m4 s') ->
  List.length (ks_queue s) = List.length (ks_queue s') -> kg_debug s = (kg_debug s' : outcome E string).
Proof.
  intros C C' s s' E R FN S1 S2 S3 S4 Q. unfold kg_debug. apply shape_store in S1, S2, S3, S4.
  rewrite <- (kg_cell_map (fun _ => tt) (ks_m1 s)), <- (kg_cell_map (fun _ => tt) (ks_m2 s)), <- (kg_cell_map (fun _ => tt) (ks_m3 s)), <- (kg_cell_map (fun _ => tt) (ks_m4 s)), S1, S2, S3, S4, Q.
  rewrite !kg_cell_map. replace (kg_stage (ks_round s)) with (kg_stage (ks_round s')); [reflexivity|].
  unfold kg_current_round, kg_is_finished in *. destruct (ks_round s), (ks_round s'); try reflexivity; cbn in *; discriminate.
Qed.
Print Assumptions C108_keygen_debug_no_contents.
Theorem C108_offline_debug_no_contents : forall (C C' : Curve) (s : sg_sm C) (s' : sg_sm C') E,
  sg_current_round s = sg_current_round s' -> sg_is_finished s = sg_is_finished s' ->
  shape (sm_m1 s) = shape (sm_m1 s') -> shape (sm_m2 s) = shape (sm_m2 s') -> shape (sm_m3 s) = shape (sm_m3 s') -> shape (sm_m4 s) = shape (sm_m4 s') -> shape (sm_m5 s) = shape (sm_m5 s') ->
  List.length (sm_queue s) = List.length (sm_queue s') -> sg_debug s = (sg_debug s' : outcome E string).
Proof.
  intros C C' s s' E R FN S1 S2 S3 S4 S5 Q. unfold sg_debug. apply shape_store in S1, S2, S3, S4, S5.
  rewrite <- (sg_cell_map "bc" (fun _ => tt) (sm_m1 s)), <- (sg_cell_map "p2p" (fun _ => tt) (sm_m2 s)), <- (sg_cell_map "bc" (fun _ => tt) (sm_m3 s)), <- (sg_cell_map "bc" (fun _ => tt) (sm_m4 s)), <- (sg_cell_map "bc" (fun _ => tt) (sm_m5 s)), S1, S2, S3, S4, S5, Q.
  rewrite !sg_cell_map. replace (sg_stage (sm_round s)) with (sg_stage (sm_round s')); [reflexivity|].
  unfold sg_current_round, sg_is_finished in *. destruct (sm_round s), (sm_round s'); try reflexivity; cbn in *; discriminate.
Qed.
Print Assumptions C108_offline_debug_no_contents.

(** ** Round 6 is not shown *)
(** While the machine waits in round 6, delivering another party's message of that round changes what round_blame says
    (the sender is no longer missing) but not what is printed. *)
Theorem C108_round6_not_shown_refuted : forall (C : Curve) Hb (Hz : hashZ C) (Hf : hashF C) rd i sl lk h s rs m b,
  sg_hist C Hb Hz Hf rd i sl lk h s rs -> sg_current_round s = 6 -> m_body m = SM6 b -> acceptable (sg_of C) sg_p2p i (List.length sl) h m ->
  let s' := fst (sg_handle_incoming C Hb Hz Hf rd s m) in
  (forall E, sg_debug s' = (sg_debug s : outcome E string)) /\ sg_current_round s' = 6 /\
  In (m_from m) (snd (sg_round_blame s)) /\ ~ In (m_from m) (snd (sg_round_blame s')).
Proof.
  intros C Hb Hz Hf rd i sl lk h s rs m b H R MB ACC s'.
  destruct (C56_offline_good_accepted C Hb Hz Hf rd i sl lk h s rs m H ACC) as [_ GOT].
  pose proof (C62_offline_blame C Hb Hz Hf rd i sl lk h s rs H) as B. rewrite R in B. cbn [Nat.leb andb] in B.
  assert (SH : exists m6, s' = {| sm_round := sm_round s; sm_m1 := sm_m1 s; sm_m2 := sm_m2 s; sm_m3 := sm_m3 s; sm_m4 := sm_m4 s; sm_m5 := sm_m5 s; sm_m6 := m6; sm_queue := sm_queue s; sm_i := sm_i s; sm_n := sm_n s |}).
  { unfold s', sg_handle_incoming. rewrite MB. destruct (sm_m6 s) as [x|] eqn:M6; [|exists None; destruct s; cbn in *; subst; reflexivity]. cbn [option_map].
    destruct (push_broadcast x (msg_map (fun _ => b) m)) as [y|e|]; [|exists (Some x); destruct s; cbn in *; subst; reflexivity|exists (Some x); destruct s; cbn in *; subst; reflexivity].
    exists (Some y). cbn [omap]. destruct s as [r m1 m2 m3 m4 m5 m6 qu si sn]. cbn in *. unfold sg_current_round in R. cbn in R. destruct r; try discriminate R. cbn. rewrite andb_false_r. reflexivity. }
  assert (R' : sg_current_round s' = 6) by (destruct SH as (m6 & ->); exact R).
  split; [intros E; destruct SH as (m6 & ->); reflexivity|]. split; [exact R'|].
  pose proof (sg_hist_snoc C Hb Hz Hf rd i sl lk h s rs (Deliver m) H) as H'.
  assert (S' : fst (sg_op C Hb Hz Hf rd s (Deliver m)) = s') by (unfold s'; cbn [sg_op]; destruct (sg_handle_incoming C Hb Hz Hf rd s m); reflexivity).
  rewrite S' in H'. pose proof (C62_offline_blame C Hb Hz Hf rd i sl lk _ _ _ H') as B'. rewrite R' in B'. cbn [Nat.leb andb] in B'.
  rewrite B, B'. cbn [snd]. destruct ACC as (A1 & A2 & A3). assert (K6 : sg_of C (m_body m) = 6) by (rewrite MB; reflexivity). rewrite K6 in *. unfold missing. split.
  - apply filter_In. split; [exact A1|]. rewrite A3. reflexivity.
  - intros X. apply filter_In in X. destruct X as [_ X]. rewrite GOT in X. discriminate.
Qed.
Print Assumptions C108_round6_not_shown_refuted.

(** ** Examples *)
(** After party 2's first broadcast (PropSM): one of two messages of round 1, one message to send. *)
Example C108_keygen_example : kg_debug (fst (exrun exh1)) = (Ok "{Keygen at round=1 msgs1=[1/2] msgs2=[0/2] msgs3=[0/2] msgs4=[0/2] queue=[len=1]}"%string : outcome unit string).
Proof. vm_compute. reflexivity. Qed.
Example C108_keygen_example2 : kg_debug (fst (exrun exha)) = (Ok "{Keygen at round=3 msgs1=[None] msgs2=[None] msgs3=[0/2] msgs4=[0/2] queue=[len=4]}"%string : outcome unit string).
Proof. vm_compute. reflexivity. Qed.
Definition exdebug1 (k : nat) : outcome mp_error string :=
  match sg_new 1 [3; 1] (exlks 0) with Ok s0 => sg_debug (fst (run_ops (sg_op toy exHb2 exH exHf2 (exsrs 0)) s0 (exhist1 k))) | _ => Panic end.
(** The run of PropPanic for signers [3; 1]: after two deliveries party 1 waits in round 3; after five it waits in round 6, whose
    store is not printed; after six it has finished. *)
Example C108_offline_example : exdebug1 2 = Ok "OfflineStageProgress { round: R3, round1_msgs: [gone], round2_msgs: [gone], round3_msgs: [bc 0/1], round4_msgs: [bc 0/1], round5_msgs: [bc 0/1], msgs_queue: OutgoingMessages { len: 1 } }"%string.
Proof. vm_compute. reflexivity. Qed.
Example C108_offline_example2 : exdebug1 5 = Ok "OfflineStageProgress { round: R6, round1_msgs: [gone], round2_msgs: [gone], round3_msgs: [gone], round4_msgs: [gone], round5_msgs: [gone], msgs_queue: OutgoingMessages { len: 1 } }"%string.
Proof. vm_compute. reflexivity. Qed.
Example C108_offline_example3 : exdebug1 6 = Ok "OfflineStageProgress { round: Finished, round1_msgs: [gone], round2_msgs: [gone], round3_msgs: [gone], round4_msgs: [gone], round5_msgs: [gone], msgs_queue: OutgoingMessages { len: 0 } }"%string.
Proof. vm_compute. reflexivity. Qed.

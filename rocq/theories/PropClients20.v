(** The example client programs and the relay server as one system: C90, C91, C92.  A schedule is any list of actions of the
    clients and of the server's tasks (see Clients20.v). *)
From Coq Require Import String ZArith Lia Bool List Permutation.
From Verif Require Import ZArithX Fq Curve Toy Outcome Sigma Bytes Vss Paillier RangeProofs Pdl PdlSlack Mta Ecdsa Mp MpProofs Gg20Keygen KeygenRun Gg20Sign SignRun SignProofs SignRunProofs KeygenRunProofs Blame Stores RoundSM SmSpec SmProofs KeygenSM SignSM SmSim SmTheory SmFacts Network PropRange PropKeygen PropSign PropSmNew PropNetwork Manager20 M20Spec Driver Clients20 Clients20Proofs SmCause Clients20Nets Clients20Own Clients20Prog Codec.
Import ListNotations.
Local Open Scope nat_scope.

(** Every client gets the number under which its party takes part. *)
Definition own_numbers {P B O} (log : list (cev P B O)) : Prop := forall c i, In (EIndex c i) log -> i = Z.of_nat c.
(** Every client has been given its number. *)
Definition all_started {S P B O} (n : nat) (w : sys S P B O) : Prop := forall c, 1 <= c <= n -> exists x, client w c = Some (CRunning x) \/ exists r, client w c = Some (CDone x r).
(** One client's subscription is answered before anybody else sends anything (without this two rooms may be made, C70). *)
Definition room_first (c0 : nat) : list cact := [CStart c0; CServe 0; CServe 0; CServe 0].

(** An action with nothing to do changes nothing. *)
Lemma sys_idle {S P B O} opf wants fin queue start crit ser par oc room (w : sys S P B O) a :
  sys_enabled wants fin queue w a = false -> sys_step opf wants fin queue start crit ser par oc room w a = (w, []).
Proof.
  assert (SV : forall t, sys_enabled wants fin queue w (CServe t) = false -> serve oc (Run t) w = w).
  { intros t E. unfold serve. cbn [step]. unfold run_task. cbn [sys_enabled] in E. destruct (nth t (db_tasks (sy_db w)) TEnd); try discriminate; [rewrite E|]; rewrite app_nil_r; destruct w; reflexivity. }
  destruct a as [t|c|c|c|c|c|c|c|c|c]; [intros E; cbn [sys_step]; rewrite SV by exact E; reflexivity|..]; cbn [sys_enabled sys_step]; destruct (client w c) as [[|t|sub t|x|x r|]|]; try reflexivity; try discriminate; intros E.
  - rewrite E. reflexivity.
  - destruct (was_issued t (sy_tr w)); [discriminate|reflexivity].
  - apply Nat.ltb_ge in E. rewrite (proj2 (nth_error_None _ _) E). reflexivity.
  - rewrite E. reflexivity.
  - destruct (queue (cr_st x)); [reflexivity|discriminate].
  - destruct (cr_out x); [reflexivity|]. destruct (cr_post x); [reflexivity|discriminate].
  - destruct (cr_post x); [|reflexivity]. rewrite E. reflexivity.
  - rewrite E. reflexivity.
Qed.

(** * C90 *)
(** gg20_keygen clients 1..n over one relay.  If each is given its own number then, under every schedule: no client fails,
    at most a fixed number of actions have anything to do, a client that has left holds the correct key, when nothing is
    left to do all have left, and once all have their numbers every schedule can be continued until all have left. *)
Theorem C90_keygen_clients_finish :
  forall (C : Curve) Hb (Hf : hashF C) ck cd (t n : nat) (rs : nat -> kg_rand C) ser par oc room c0,
  keygen_setup ck cd t n rs -> 1 <= t < n -> (Z.of_nat (n * (n + 2)) <= 65535)%Z -> 1 <= c0 <= n -> (forall m, par (ser m) = Some m) ->
  let go := kg_world C Hb Hf ck cd t n rs ser par oc room in
  let enab := sys_enabled (@kg_wants_to_proceed C) (@kg_is_finished C) (@ks_queue C) in
  let M := n * (n + 2) in
  exists x : nat -> Fq (cq C), forall acts, own_numbers (snd (go (room_first c0 ++ acts))) -> let w := fst (go (room_first c0 ++ acts)) in
  (forall c, client w c <> Some CFailed) /\
  kg_world_work C Hb Hf ck cd t n rs ser par oc room (room_first c0 ++ acts) <= 4 + ((2 * n + M) * (3 * M + 9) + (5 * (n * n) + 3 * n) + (n * (5 + M) + 2 * M)) /\
  (forall a, enab w a = false -> go (room_first c0 ++ acts ++ [a]) = (w, snd (go (room_first c0 ++ acts)))) /\
  (forall i y r, client w (S i) = Some (CDone y r) -> exists lk, r = RPick (Some (Ok lk)) /\ key_correct t n rs x i lk) /\
  ((forall a, enab w a = false) -> forall c, 1 <= c <= n -> exists y r, client w c = Some (CDone y r)) /\
  (all_started n w -> exists more, own_numbers (snd (go (room_first c0 ++ acts ++ more))) /\ forall c, 1 <= c <= n -> exists y r, client (fst (go (room_first c0 ++ acts ++ more))) c = Some (CDone y r)).
Proof.
  intros C Hb Hf ck cd t n rs ser par oc room c0 SU TN BD C0 SP go enab M.
  destruct (keygen_keys C Hb Hf ck cd t n rs (proj2 TN) SU) as [lks [x [R [L K]]]]. exists x. intros acts NU w.
  assert (ST : forall c, 1 <= c <= n -> kg_program C Hb Hf ck cd t n rs c (Z.of_nat c) = Some (kg_start C c t n)).
  { intros c I. unfold kg_program. assert (N2 : 2 <= n) by lia. pose proof (C54_keygen_new C Hb Hf ck cd (rs (c - 1)) c t n) as Q. destruct (kg_new C Hb Hf ck cd (rs (c - 1)) c t n) as [s|e|] eqn:E; [|exfalso|contradiction].
    - rewrite (proj1 (kg_new_ok C Hb Hf ck cd (rs (c - 1)) c t n s E)). reflexivity.
    - destruct e; lia. }
  assert (N2 : 2 <= n) by lia.
  destruct (kg_clients C Hb Hf ck cd t n rs (kg_program C Hb Hf ck cd t n rs) kg_is_critical ser par oc room lks c0 acts N2 R L C0 ST SP BD NU) as (T1 & T2 & T3 & T4 & T5).
  refine (conj T2 (conj T1 (conj _ (conj _ (conj T4 T5))))).
  - intros a E. unfold go, kg_world. rewrite app_assoc, exec_app. cbn [sys_exec]. unfold go, kg_world in w. fold w. rewrite (sys_idle _ _ _ _ _ _ _ _ _ _ w a E). cbn [fst snd]. rewrite app_nil_r. reflexivity.
  - intros i y r E. destruct (T3 i y r E) as (lk & NE & ->). exists lk. split; [reflexivity|exact (K i lk NE)].
Qed.
Print Assumptions C90_keygen_clients_finish.

(** * C91 *)
(** gg20_signing clients, offline stage: client p holds the share of signer number p of the list. *)
Theorem C91_offline_clients_finish :
  forall (C : Curve) Hb (Hz : hashZ C) (Hf : hashF C) n (f : list (Fq (cq C))) Ns dls sl (lks : nat -> local_key C) (rs : nat -> sign_rand C) ser par oc room c0,
  (forall l, (0 <= Hz l)%Z) -> signers_ok n f Ns dls sl lks -> sign_rand_ok Hz dls sl lks rs ->
  (forall c, 1 <= c <= length sl -> exists s, sg_new c sl (lks (c - 1)) = Ok s) ->
  let k := length sl in
  (Z.of_nat (k * (k + 4)) <= 65535)%Z -> 1 <= c0 <= k -> (forall m, par (ser m) = Some m) ->
  let go := sg_world C Hb Hz Hf sl lks rs ser par oc room in
  let enab := sys_enabled (@sg_wants_to_proceed C) (@sg_is_finished C) (@sm_queue C) in
  let M := k * (k + 4) in
  exists (R : pt C) x y cs, smul (fsum (map (fun p => sr_k (rs p)) (seq 0 k))) R = gen /\ coords R = Some (x, y) /\
  length cs = k /\ (forall c, In c cs -> co_R c = R) /\
  (forall m, fadd (of_Z (cq C) m) (fmul (of_Z (cq C) x) (hd f0 f)) <> f0 -> sign_outputs_ok (smul (hd f0 f) gen) m x cs) /\
  forall acts, own_numbers (snd (go (room_first c0 ++ acts))) -> let w := fst (go (room_first c0 ++ acts)) in
  (forall c, client w c <> Some CFailed) /\
  sg_world_work C Hb Hz Hf sl lks rs ser par oc room (room_first c0 ++ acts) <= 4 + ((2 * k + M) * (3 * M + 9) + (7 * (k * k) + 5 * k) + (k * (5 + M) + 2 * M)) /\
  (forall a, enab w a = false -> go (room_first c0 ++ acts ++ [a]) = (w, snd (go (room_first c0 ++ acts)))) /\
  (forall i z r, client w (S i) = Some (CDone z r) -> exists o, nth_error cs i = Some o /\ r = RPick (Some (Ok o))) /\
  ((forall a, enab w a = false) -> forall c, 1 <= c <= k -> exists z r, client w c = Some (CDone z r)) /\
  (all_started k w -> exists more, own_numbers (snd (go (room_first c0 ++ acts ++ more))) /\ forall c, 1 <= c <= k -> exists z r, client (fst (go (room_first c0 ++ acts ++ more))) c = Some (CDone z r)).
Proof.
  intros C Hb Hz Hf n f Ns dls sl lks rs ser par oc room c0 HH KO RO NW k BD C0 SP go enab M.
  destruct (offline_result C Hb Hz Hf n f Ns dls sl lks rs HH KO RO) as (R & x & y & cs & R1 & R2 & R4 & R5 & R6 & R3).
  exists R, x, y, cs. refine (conj R1 (conj R2 (conj R4 (conj R5 (conj R6 _))))). intros acts NU w.
  assert (ST : forall c, 1 <= c <= length sl -> sg_program C sl lks c (Z.of_nat c) = Some (sg_start C c sl (lks (c - 1)))).
  { intros c I. unfold sg_program. rewrite Nat2Z.id. destruct (NW c I) as [s E]. rewrite E. rewrite (proj1 (sg_new_ok C c sl (lks (c - 1)) s E)). reflexivity. }
  assert (N2 : 2 <= length sl) by (destruct (NW c0 C0) as [s E]; exact (proj1 (proj2 (sg_new_ok C c0 sl (lks (c0 - 1)) s E)))).
  destruct (sg_clients C Hb Hz Hf sl lks rs (sg_program C sl lks) sg_is_critical ser par oc room cs c0 acts N2 R3 R4 C0 ST SP BD NU) as (T1 & T2 & T3 & T4 & T5).
  refine (conj T2 (conj T1 (conj _ (conj T3 (conj T4 T5))))).
  intros a E. unfold go, sg_world. rewrite app_assoc, exec_app. cbn [sys_exec]. unfold go, sg_world in w. fold w. rewrite (sys_idle _ _ _ _ _ _ _ _ _ _ w a E). cbn [fst snd]. rewrite app_nil_r. reflexivity.
Qed.
Print Assumptions C91_offline_clients_finish.

(** * C92 *)
(** Whoever finishes has heard everybody, so everybody must have been given the number of its party.  Nothing is assumed
    of the schedule, of the randomness, or of the values given on the command lines. *)
Lemma sender_history {S P B O} (opf : nat -> S -> op B -> S * ret P B O) fin queue start (ser : msg B -> string) par oc ex l (w : sys S P B O) log c m :
  OInv opf fin queue start ser par oc ex l w log -> In m (drained (crets c log)) -> exists i s, has_run opf start par (sy_tr w) log c i s.
Proof.
  intros I X. destruct (client w c) as [st|] eqn:E; [|destruct (oi_none _ _ _ _ _ _ _ _ _ _ _ I c E) as (_ & Q & _); rewrite Q in X; contradiction].
  pose proof (oi_own _ _ _ _ _ _ _ _ _ _ _ I c st E) as K. destruct st as [|t|sub t|x|x r|]; cbn [own_ok] in K.
  1-3: destruct K as (_ & Q & _); rewrite Q in X; contradiction.
  - eexists. eexists. exact (proj1 K).
  - eexists. eexists. exact (proj1 K).
  - destruct K as [[_ Q]|K]; [rewrite Q in X; contradiction|exact K].
Qed.
Lemma keygen_numbers (C : Curve) Hb (Hf : hashF C) ck cd (t n : nat) (rs : nat -> kg_rand C) ser par oc (ex : string -> Prop) l (w : sys (kg_sm C) mp_error (kg_msg C) (local_key C)) log :
  (forall m, par (ser m) = Some m) -> (forall s, ex s -> par s = None) -> length (sy_cl w) = n ->
  OInv (fun c => kg_op C Hb Hf ck cd (rs (c - 1))) (@kg_is_finished C) (@ks_queue C) (kg_program C Hb Hf ck cd t n rs) ser par oc ex l w log ->
  (exists d y r, client w d = Some (CDone y r)) ->
  own_numbers log /\ (forall c, 1 <= c <= n -> In (EIndex c (Z.of_nat c)) log) /\
  forall c, 1 <= c <= n -> exists m, In m (deliveries (cops c log)).
Proof.
  intros SP EX LN I (d & y & r & CD). set (opf := fun c => kg_op C Hb Hf ck cd (rs (c - 1))) in *. set (st := kg_program C Hb Hf ck cd t n rs) in *.
  assert (HH : forall c i s, has_run opf st par (sy_tr w) log c i s -> kg_hist C Hb Hf ck cd (rs (c - 1)) c t n (cops c log) s (crets c log) /\ given c log = [i] /\ forall m, In m (deliveries (cops c log)) -> for_me i m = true /\ sent_by log m).
  { intros c i s (s0 & H1 & H2 & H3 & H4). refine (conj _ (conj H2 _)).
    - exists s0. split; [|exact H3]. unfold st, kg_program in H1. destruct (kg_new C Hb Hf ck cd (rs (c - 1)) c t n) as [s1| |]; [|discriminate|discriminate]. injection H1 as <-. reflexivity.
    - intros m X. destruct (H4 m X) as [A1 A2]. split; [exact A1|exact (seen_sent opf (@kg_is_finished C) (@ks_queue C) st ser par oc SP ex l w log m EX I A2)]. }
  assert (R3 : forall c i s m, has_run opf st par (sy_tr w) log c i s -> In m (deliveries (cops c log)) -> kg_of C (m_body m) = 3 -> addressed_ok (kg_of C) kg_p2p c m = true -> i = Z.of_nat c).
  { intros c i s m H X E A. destruct (HH c i s H) as (_ & _ & D). destruct (D m X) as [F _]. unfold for_me, client_filter in F. apply andb_true_iff in F. destruct F as [_ F]. unfold addressed_ok in A. rewrite E in A. cbn [kg_p2p Nat.eqb] in A.
    destruct (m_to m) as [j|]; [|discriminate]. cbn [option_map] in F. cbn [andb] in A. apply Nat.eqb_eq in A. apply Z.eqb_eq in F. subst j. symmetry. exact F. }
  assert (PP : forall i k j m, proper (kg_of C) kg_p2p i k j m = true -> kg_of C (m_body m) = k /\ m_from m = j /\ addressed_ok (kg_of C) kg_p2p i m = true).
  { intros i k j m Q. unfold proper in Q. rewrite !andb_true_iff, !Nat.eqb_eq in Q. tauto. }
  pose proof (oi_own _ _ _ _ _ _ _ _ _ _ _ I d _ CD) as (HD & ML & _). unfold may_leave in ML. apply andb_true_iff in ML. destruct ML as [FIN _].
  destruct (HH d _ _ HD) as (KH & GD & DD). pose proof (kg_hist_run C Hb Hf ck cd (rs (d - 1)) d t n _ _ _ KH) as (DR & _ & _ & _ & _ & N2 & _).
  assert (ALL' : forall c, 1 <= c <= n -> given c log = [Z.of_nat c] /\ exists m, In m (deliveries (cops c log))).
  { intros c CR. destruct (Nat.eq_dec c d) as [->|NE].
    - assert (J : exists j, In j (peers d n)) by (exists (if d =? 1 then 2 else 1); apply (in_peers d n DR); destruct (Nat.eqb_spec d 1); lia). destruct J as [j J]. assert (L3 : 1 <= 3 <= 4) by lia.
      destruct (kg_final_needs C Hb Hf ck cd (rs (d - 1)) d t n _ _ _ KH FIN 3 j L3 J) as (m & M1 & M2). destruct (PP _ _ _ _ M2) as (Q1 & _ & Q3). rewrite GD, (R3 d _ _ m HD M1 Q1 Q3). split; [reflexivity|exists m; exact M1].
    - assert (J : In c (peers d n)) by (apply (in_peers d n DR); lia). assert (L4 : 1 <= 4 <= 4) by lia.
      destruct (kg_final_needs C Hb Hf ck cd (rs (d - 1)) d t n _ _ _ KH FIN 4 c L4 J) as (m & M1 & M2). destruct (PP _ _ _ _ M2) as (Q1 & Q2 & _). destruct (DD m M1) as [_ [e SB]].
      destruct (sender_history opf (@kg_is_finished C) (@ks_queue C) st ser par oc ex l w log e m I SB) as (i & s & HE). destruct (HH e i s HE) as (KE & GE & _).
      destruct (kg_sent_needs C Hb Hf ck cd (rs (e - 1)) e t n _ _ _ m KE SB) as [EF NEED]. rewrite Q2 in EF. subst e. rewrite Q1 in NEED. assert (J' : In d (peers c n)) by (apply (in_peers c n CR); lia). assert (L3 : 1 <= 3 < 4) by lia.
      destruct (NEED 3 d L3 J') as (m' & N1 & N3). destruct (PP _ _ _ _ N3) as (Q1' & _ & Q3'). rewrite GE, (R3 c i s m' HE N1 Q1' Q3'). split; [reflexivity|exists m'; exact N1]. }
  pose proof (fun c H => proj1 (ALL' c H)) as ALL. refine (conj _ (conj _ (fun c H => proj2 (ALL' c H)))).
  - intros c i X. apply in_given in X. assert (CR : 1 <= c <= n).
    { destruct (client w c) as [s|] eqn:E; [|assert (Q : given c log = []) by exact (proj2 (proj2 (oi_none _ _ _ _ _ _ _ _ _ _ _ I c E))); rewrite Q in X; contradiction].
      destruct c as [|k]; [discriminate|]. cbn [client] in E. assert (LK : k < length (sy_cl w)) by (apply nth_error_Some; congruence).
      lia. }
    rewrite (ALL c CR) in X. destruct X as [<-|[]]. reflexivity.
  - intros c CR. apply in_given. rewrite (ALL c CR). left. reflexivity.
Qed.
Theorem C92_keygen_finish_needs_own_numbers :
  forall (C : Curve) Hb (Hf : hashF C) ck cd (t n : nat) (rs : nat -> kg_rand C) ser par oc room acts,
  (forall m, par (ser m) = Some m) ->
  let w := fst (kg_world C Hb Hf ck cd t n rs ser par oc room acts) in let log := snd (kg_world C Hb Hf ck cd t n rs ser par oc room acts) in
  (exists d y r, client w d = Some (CDone y r)) ->
  own_numbers log /\ forall c, 1 <= c <= n -> In (EIndex c (Z.of_nat c)) log.
Proof.
  intros C Hb Hf ck cd t n rs ser par oc room acts SP w log DN. assert (LN : length (sy_cl w) = n) by apply sys_len.
  destruct (own_reach (fun c => kg_op C Hb Hf ck cd (rs (c - 1))) (@kg_wants_to_proceed C) (@kg_is_finished C) (@ks_queue C) (kg_program C Hb Hf ck cd t n rs) kg_is_critical ser par oc room (fun _ => False) n acts) as [l I].
  destruct (keygen_numbers C Hb Hf ck cd t n rs ser par oc _ l w log SP (fun s F => False_ind _ F) LN I DN) as (A1 & A2 & _). exact (conj A1 A2).
Qed.
Print Assumptions C92_keygen_finish_needs_own_numbers.
(** Joining in another order than the [--index] numbers is fatal: once one client holds another number than its own, no client
    will ever finish, however the system goes on. *)
Theorem C92_join_order_refuted :
  forall (C : Curve) Hb (Hf : hashF C) ck cd (t n : nat) (rs : nat -> kg_rand C) ser par oc room acts c i,
  (forall m, par (ser m) = Some m) ->
  let go := kg_world C Hb Hf ck cd t n rs ser par oc room in
  In (EIndex c i) (snd (go acts)) -> i <> Z.of_nat c -> forall more d y r, client (fst (go (acts ++ more))) d <> Some (CDone y r).
Proof.
  intros C Hb Hf ck cd t n rs ser par oc room acts c i SP go IX NE more d y r CD.
  destruct (C92_keygen_finish_needs_own_numbers C Hb Hf ck cd t n rs ser par oc room (acts ++ more) SP) as [OW _]; [eauto|].
  apply NE. apply (OW c i). unfold go, kg_world in *. rewrite exec_app. cbn [snd]. apply in_app_iff. left. exact IX.
Qed.
Print Assumptions C92_join_order_refuted.

(** * Concrete systems *)
(** The clients arrive one after the other, in the given order; task numbers grow by two per client. *)
Fixpoint exarrive (k : nat) (order : list nat) : list cact :=
  match order with
  | [] => []
  | c :: l => [CStart c] ++ repeat (CServe k) 3 ++ [CJoined c] ++ repeat (CServe (S k)) 3 ++ [CIndexed c] ++ exarrive (S (S k)) l
  end.
(** Then all take turns: proceed, take the queue, post one message, wait for it, read what there is. *)
Definition exround (n tasks : nat) : list cact :=
  flat_map (fun c => [CProceed c; CTake c; CPost c]) (seq 1 n) ++ flat_map (fun t => repeat (CServe t) 4) (rev (seq 0 tasks)) ++ map CPosted (seq 1 n) ++ flat_map (fun c => repeat (CRead c) 4) (seq 1 n) ++ map CLeave (seq 1 n).
Definition exall (n tasks rounds : nat) : list cact := List.concat (repeat (exround n tasks) rounds).
Definition exkgo (order : list nat) (rounds : nat) :=
  let '(w, log) := kg_world toy exHb exHf3 exck excd 1 3 exrs kg_ser kg_par true "default-keygen" (exarrive 0 order ++ exall 3 21 rounds) in
  (map (fun st => match st with CDone _ (RPick (Some (Ok lk))) => Some (lk_obs lk) | _ => None end) (sy_cl w),
   flat_map (fun e => match e with EIndex c i => [(c, i)] | _ => [] end) log, length (gots 0 (sy_tr w))).
Example C90_example : exkgo [1; 2; 3] 8 = ([Some (13, 14, [14; 15; 16]); Some (13, 15, [14; 15; 16]); Some (13, 16, [14; 15; 16])]%Z, [(1, 1%Z); (2, 2%Z); (3, 3%Z)], 15) /\
  exkgo [1; 2; 3] 4 = ([None; None; None], [(1, 1%Z); (2, 2%Z); (3, 3%Z)], 12) /\ keygen_setup exck excd 1 3 exrs /\ (forall m, kg_par (kg_ser m) = Some m).
Proof. refine (conj _ (conj _ (conj C64_example_setup (of_to_string _)))); vm_compute; reflexivity. Qed.
Definition exsgco (order : list nat) (rounds : nat) :=
  let '(w, log) := sg_world toy exHb2 exH exHf2 [3; 1] exlks exsrs sg_ser sg_par true "default-signing-offline" (exarrive 0 order ++ exall 2 16 rounds) in
  (map (fun st => match st with CDone _ (RPick (Some (Ok o))) => Some (co_obs o) | _ => None end) (sy_cl w),
   flat_map (fun e => match e with EIndex c i => [(c, i)] | _ => [] end) log, length (gots 0 (sy_tr w))).
Example C91_example : exsgco [1; 2] 8 = ([Some (2, 18, 14); Some (2, 18, 4)]%Z, [(1, 1%Z); (2, 2%Z)], 12) /\ (forall m, sg_par (sg_ser m) = Some m).
Proof. refine (conj _ (of_to_string _)). vm_compute. reflexivity. Qed.
(** Everybody asks for an index before anything is sent, but client 2 asks first: the numbers are 1 for client 2 and 2 for
    client 1, and after any number of rounds nobody has finished (this run gets no further than round 1). *)
Example C92_example : exkgo [2; 1; 3] 8 = ([None; None; None], [(2, 1%Z); (1, 2%Z); (3, 3%Z)], 4).
Proof. vm_compute. reflexivity. Qed.

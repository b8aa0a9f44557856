(** Whoever can reach the server can be a party: C121. *)
From Coq Require Import String ZArith Lia Bool Permutation List.
From Verif Require Import ZArithX Fq Curve Toy Outcome Sigma Bytes Vss Paillier RangeProofs Pdl PdlSlack Mta Ecdsa Mp MpProofs Gg20Keygen KeygenRun Gg20Sign SignRunProofs Stores RoundSM SmSpec SmProofs KeygenSM SignSM SmTheory NetLog PropRange PropKeygen PropSign PropNetwork Manager20 M20Spec Manager20Fate Driver Clients20 Clients20Own Clients20Prog Clients20Open Clients20OpenProofs Codec PropClients20 PropClients20Sign PropOpen SmSim PropSM PropSmNew Clients20Arrive.
Import ListNotations.
Local Open Scope nat_scope.

(** * C121 *)
Section Sim.
Context {S P B O : Type}.
Context (opf : nat -> S -> op B -> S * ret P B O) (wants fin : S -> bool) (queue : S -> list (msg B)).
Context (start : nat -> Z -> option S) (crit : sm_error P -> bool) (ser : msg B -> string) (par : string -> option (msg B)) (oc : bool) (room : string).
Context (J : nat -> bool).
Notation sys := (sys S P B O).
Notation cev := (cev P B O).
Notation sys_step := (sys_step opf wants fin queue start crit ser par oc room).
Notation sys_exec := (sys_exec opf wants fin queue start crit ser par oc room).
Notation open_step := (open_step opf wants fin queue start crit ser par oc room).
Notation open_exec := (open_exec opf wants fin queue start crit ser par oc room).
Definition honest_log (log : list cev) : list cev := filter (fun e => negb (J (ev_client e))) log.
(** The requests a client has open, as far as it may close them *)
Definition sub_of (st : option (stage S P B O)) : list nat :=
  match st with Some (CSubscribing t) | Some (CIssuing t _) => [t] | Some (CRunning x) => [cr_sub x] | _ => [] end.
Definition rel (w : sys) (y : osys S P B O) : Prop :=
  sy_db w = sy_db (fst y) /\ sy_tr w = sy_tr (fst y) /\ length (sy_cl w) = length (sy_cl (fst y)) /\
  (forall c, J c = false -> client w c = client (fst y) c) /\
  (forall c, J c = true -> incl (sub_of (client w c)) (snd y) /\ forall st, client (fst y) c = Some st -> st = CIdle).
Lemma serve_rel a (w w' : sys) : sy_db w = sy_db w' -> sy_tr w = sy_tr w' -> sy_db (serve oc a w) = sy_db (serve oc a w') /\ sy_tr (serve oc a w) = sy_tr (serve oc a w').
Proof. intros E1 E2. unfold serve. rewrite E1. destruct (step oc (sy_db w') a) as [d o]. cbn. rewrite E2. auto. Qed.
Lemma serve_client a (w : sys) c : client (serve oc a w) c = client w c.
Proof. destruct c as [|k]; [reflexivity|]. cbn [client]. rewrite (proj2 (serve_tr oc a w)). reflexivity. Qed.
Lemma set_db c st (w : sys) : sy_db (set_client c st w) = sy_db w /\ sy_tr (set_client c st w) = sy_tr w. Proof. split; reflexivity. Qed.

(** The same step of an honest client on both sides *)
Lemma rel_same w w' own a : J (act_client a) = false -> rel w (w', own) -> rel (fst (sys_step w a)) (fst (sys_step w' a), own) /\ snd (sys_step w a) = snd (sys_step w' a).
Proof.
  intros NJ (D & T & L & H1 & H2). cbn [fst snd] in *.
  assert (KEY : sy_db (fst (sys_step w a)) = sy_db (fst (sys_step w' a)) /\ sy_tr (fst (sys_step w a)) = sy_tr (fst (sys_step w' a)) /\ snd (sys_step w a) = snd (sys_step w' a) /\
     (act_client a <> 0 -> client (fst (sys_step w a)) (act_client a) = client (fst (sys_step w' a)) (act_client a))).
  { destruct a as [t|c|c|c|c|c|c|c|c|c]; cbn [act_client] in *; cbn [Clients20.sys_step].
    { cbn [fst snd]. destruct (serve_rel (Run t) w w' D T) as [A1 A2]. repeat split; auto. }
    all: rewrite <- (H1 c NJ); destruct (client w c) as [st|] eqn:CL; [|cbn [fst snd]; rewrite <- (H1 c NJ); auto]; pose proof (eq_trans (eq_sym (H1 c NJ)) CL) as CL'.
    all: assert (SS : forall st1, client (set_client c st1 w) c = client (set_client c st1 w') c) by (intros st1; rewrite (client_some c st1 w _ CL), (client_some c st1 w' _ CL'); reflexivity).
    all: assert (SV : forall a1 st1, client (set_client c st1 (serve oc a1 w)) c = client (set_client c st1 (serve oc a1 w')) c)
           by (intros a1 st1; rewrite (client_some c st1 (serve oc a1 w) st), (client_some c st1 (serve oc a1 w') st); [reflexivity|rewrite serve_client; exact CL'|rewrite serve_client; exact CL]).
    all: assert (DT : forall a1, sy_db (serve oc a1 w) = sy_db (serve oc a1 w') /\ sy_tr (serve oc a1 w) = sy_tr (serve oc a1 w')) by (intros a1; apply serve_rel; assumption).
    all: assert (NT : next_task w = next_task w') by (unfold next_task; rewrite D; reflexivity).
    all: assert (HD : forall x o, sy_db (fst (handle opf crit oc c x o w)) = sy_db (fst (handle opf crit oc c x o w')) /\ sy_tr (fst (handle opf crit oc c x o w)) = sy_tr (fst (handle opf crit oc c x o w')) /\
           snd (handle opf crit oc c x o w) = snd (handle opf crit oc c x o w') /\ (c <> 0 -> client (fst (handle opf crit oc c x o w)) c = client (fst (handle opf crit oc c x o w')) c))
           by (intros x o; unfold handle; destruct (opf c (cr_st x) o) as [s r]; cbn [fst snd]; destruct (good_ret crit r); cbn [set_client sy_db sy_tr]; [|destruct (DT (Cancel (cr_sub x)))]; auto).
    all: destruct st as [|t|su t|x|x r|]; try (cbn [fst snd]; rewrite CL, CL'; auto; fail); unfold ask; rewrite <- ?T.
    - cbn [fst snd]. rewrite <- NT. destruct (DT (Arrive room (RSub None))). auto.
    - destruct (was_joined t (sy_tr w)); cbn [fst snd]; [|rewrite CL, CL'; auto]. rewrite <- NT. destruct (DT (Arrive room RIssue)). auto.
    - destruct (was_issued t (sy_tr w)) as [i|]; [|cbn [fst snd]; rewrite CL, CL'; auto]. destruct (start c i) as [s|]; cbn [fst snd]; [auto|]. destruct (DT (Cancel su)). auto.
    - destruct (nth_error (gots (cr_sub x) (sy_tr w)) (cr_read x)) as [[k e]|]; [|cbn [fst snd]; rewrite CL, CL'; auto]. destruct (par e) as [m|]; [destruct (for_me (cr_idx x) m); [apply HD|cbn [fst snd]; auto]|]. cbn [fst snd]. destruct (DT (Cancel (cr_sub x))). auto.
    - destruct (wants (cr_st x)); [apply HD|cbn [fst snd]; rewrite CL, CL'; auto].
    - destruct (queue (cr_st x)); [cbn [fst snd]; rewrite CL, CL'; auto|]. destruct (opf c (cr_st x) Drain) as [s r]. cbn [fst snd]. auto.
    - destruct (cr_out x) as [|m l]; [cbn [fst snd]; rewrite CL, CL'; auto|]. destruct (cr_post x); [cbn [fst snd]; rewrite CL, CL'; auto|]. cbn [fst snd]. rewrite <- NT. destruct (DT (Arrive room (RPub (ser m)))). auto.
    - destruct (cr_post x) as [t|]; [|cbn [fst snd]; rewrite CL, CL'; auto]. destruct (was_published t (sy_tr w)); cbn [fst snd]; [auto|rewrite CL, CL'; auto].
    - destruct (may_leave fin queue x); [|cbn [fst snd]; rewrite CL, CL'; auto]. destruct (opf c (cr_st x) Pick) as [s r]. cbn [fst snd]. destruct (DT (Cancel (cr_sub x))). auto. }
  destruct KEY as (K1 & K2 & K3 & K4). split; [|exact K3]. destruct (step_frame opf wants fin queue start crit ser par oc room w a) as (_ & L1 & _ & O1). destruct (step_frame opf wants fin queue start crit ser par oc room w' a) as (_ & L2 & _ & O2).
  refine (conj K1 (conj K2 (conj _ (conj _ _)))); cbn [fst snd].
  - congruence.
  - intros c NC. destruct (Nat.eq_dec c (act_client a)) as [->|N]; [|rewrite O1, O2 by exact N; exact (H1 c NC)]. destruct (act_client a) eqn:E; [reflexivity|]. apply K4. discriminate.
  - intros c JC. assert (N : c <> act_client a) by (intros ->; congruence). rewrite O1, O2 by exact N. exact (H2 c JC).
Qed.
(** A step of a client in J, made by a stranger *)
Definition xrel (w : sys) (y : osys S P B O) (l : list xact) (y' : osys S P B O) : Prop :=
  open_exec y l = (y', []) /\ rel w y' /\ Forall (fun a => match a with XClient _ => False | _ => True end) l.
Lemma rel_nop w y c st : J c = true -> 1 <= c -> rel w y -> incl (sub_of (Some st)) (snd y) -> rel (set_client c st w) y.
Proof.
  intros JC C (D & T & L & H1 & H2) IN. refine (conj D (conj T (conj _ (conj _ _)))).
  - cbn [set_client sy_cl]. rewrite upd_len. exact L.
  - intros d ND. rewrite client_other; [exact (H1 d ND)|exact C|intros ->; congruence].
  - intros d JD. destruct (H2 d JD) as [A1 A2]. split; [|exact A2]. destruct (client_set_cases c st w d) as [->|[_ ->]]; [exact A1|exact IN].
Qed.
Lemma rel_ask w w' own c st q : J c = true -> 1 <= c -> good_req q = true -> rel w (w', own) -> incl (sub_of (Some st)) (next_task w :: own) ->
  rel (set_client c st (serve oc (Arrive room q) w)) (serve oc (Arrive room q) w', next_task w' :: own).
Proof.
  intros JC C G R IN. pose proof R as (D & T & L & H1 & H2). cbn [fst snd] in *. assert (NT : next_task w = next_task w') by (unfold next_task; rewrite D; reflexivity).
  apply rel_nop; [exact JC|exact C| |rewrite <- NT; exact IN]. destruct (serve_rel (Arrive room q) w w' D T) as [D' T']. refine (conj D' (conj T' (conj _ (conj _ _)))); cbn [fst snd].
  - rewrite !(proj2 (serve_tr oc _ _)). exact L.
  - intros d ND. rewrite !serve_client. exact (H1 d ND).
  - intros d JD. rewrite !serve_client. destruct (H2 d JD) as [A1 A2]. split; [|exact A2]. intros t X. right. exact (A1 t X).
Qed.
Lemma rel_gone w w' own c st t : J c = true -> 1 <= c -> In t own -> rel w (w', own) -> incl (sub_of (Some st)) own ->
  rel (set_client c st (serve oc (Cancel t) w)) (serve oc (Cancel t) w', own) /\ open_step (w', own) (XGone t) = ((serve oc (Cancel t) w', own), []).
Proof.
  intros JC C IT R IN. pose proof R as (D & T & L & H1 & H2). cbn [fst snd] in *. split.
  - apply rel_nop; [exact JC|exact C| |exact IN]. destruct (serve_rel (Cancel t) w w' D T) as [D' T']. refine (conj D' (conj T' (conj _ (conj _ _)))); cbn [fst snd].
    + rewrite !(proj2 (serve_tr oc _ _)). exact L.
    + intros d ND. rewrite !serve_client. exact (H1 d ND).
    + intros d JD. rewrite !serve_client. exact (H2 d JD).
  - cbn [Clients20Open.open_step]. assert (E : existsb (Nat.eqb t) own = true) by (apply existsb_exists; exists t; split; [exact IT|apply Nat.eqb_refl]). rewrite E. reflexivity.
Qed.
Lemma rel_strange w w' own a : J (act_client a) = true -> J 0 = false -> rel w (w', own) -> exists l y', xrel (fst (sys_step w a)) (w', own) l y'.
Proof.
  intros JA J0 R. pose proof R as (D & T & L & H1 & H2). cbn [fst snd] in *.
  assert (NOP : exists l y', xrel w (w', own) l y') by (exists [], (w', own); split; [reflexivity|split; [exact R|constructor]]).
  destruct a as [t|c|c|c|c|c|c|c|c|c]; cbn [act_client] in *; [congruence|..].
  all: assert (C : 1 <= c) by (destruct c; [congruence|lia]); destruct (H2 c JA) as [SB _]; cbn [Clients20.sys_step].
  all: destruct (client w c) as [st|] eqn:CL; [|exact NOP].
  all: assert (LOC : forall st1, incl (sub_of (Some st1)) own -> exists l y', xrel (set_client c st1 w) (w', own) l y')
         by (intros st1 I1; exists [], (w', own); split; [reflexivity|split; [apply rel_nop; assumption|constructor]]).
  all: assert (ASK : forall q st1, good_req q = true -> incl (sub_of (Some st1)) (next_task w :: own) -> exists l y', xrel (set_client c st1 (serve oc (Arrive room q) w)) (w', own) l y')
         by (intros q st1 G I1; exists [XAsk room q], (serve oc (Arrive room q) w', next_task w' :: own); split; [cbn [Clients20Open.open_exec Clients20Open.open_step]; rewrite G; reflexivity|split; [apply rel_ask; assumption|repeat constructor]]).
  all: assert (GON : forall t st1, In t own -> incl (sub_of (Some st1)) own -> exists l y', xrel (set_client c st1 (serve oc (Cancel t) w)) (w', own) l y')
         by (intros t st1 IT I1; destruct (rel_gone w w' own c st1 t JA C IT R I1) as [G1 G2]; exists [XGone t], (serve oc (Cancel t) w', own); split; [cbn [Clients20Open.open_exec]; rewrite G2; reflexivity|split; [exact G1|repeat constructor]]).
  all: assert (NIL : forall l : list nat, incl [] l) by (intros l z []).
  all: destruct st as [|t|su t|x|x r|]; try exact NOP; cbn [sub_of] in SB; unfold ask; cbn [fst].
  - apply ASK; [reflexivity|]. intros z [<-|[]]. left. reflexivity.
  - destruct (was_joined t (sy_tr w)); [|exact NOP]. apply ASK; [reflexivity|]. intros z [<-|[]]. right. apply SB. left. reflexivity.
  - destruct (was_issued t (sy_tr w)) as [i|]; [|exact NOP]. destruct (start c i) as [s|]; cbn [fst]; [apply LOC; exact SB|]. apply GON; [apply SB; left; reflexivity|apply NIL].
  - destruct (nth_error (gots (cr_sub x) (sy_tr w)) (cr_read x)) as [[k e]|]; [|exact NOP]. destruct (par e) as [m|].
    + destruct (for_me (cr_idx x) m); [|apply LOC; exact SB]. unfold handle. destruct (opf c (cr_st (with_read x)) (Deliver m)) as [s r]. cbn [fst]. destruct (good_ret crit r); [apply LOC; exact SB|]. apply GON; [apply SB; left; reflexivity|apply NIL].
    + cbn [fst]. apply GON; [apply SB; left; reflexivity|apply NIL].
  - destruct (wants (cr_st x)); [|exact NOP]. unfold handle. destruct (opf c (cr_st x) Proceed) as [s r]. cbn [fst]. destruct (good_ret crit r); [apply LOC; exact SB|]. apply GON; [apply SB; left; reflexivity|apply NIL].
  - destruct (queue (cr_st x)); [exact NOP|]. destruct (opf c (cr_st x) Drain) as [s r]. cbn [fst]. apply LOC. exact SB.
  - destruct (cr_out x) as [|m l]; [exact NOP|]. destruct (cr_post x); [exact NOP|]. cbn [fst]. apply ASK; [reflexivity|]. intros z [<-|[]]. right. apply SB. left. reflexivity.
  - destruct (cr_post x) as [t|]; [|exact NOP]. destruct (was_published t (sy_tr w)); [|exact NOP]. apply LOC. exact SB.
  - destruct (may_leave fin queue x); [|exact NOP]. destruct (opf c (cr_st x) Pick) as [s r]. cbn [fst]. apply GON; [apply SB; left; reflexivity|apply NIL].
Qed.
Lemma honest_app a b : honest_log (a ++ b) = honest_log a ++ honest_log b. Proof. apply filter_app. Qed.
Lemma honest_of a (w : sys) : honest_log (snd (sys_step w a)) = if J (act_client a) then [] else snd (sys_step w a).
Proof.
  destruct (step_frame opf wants fin queue start crit ser par oc room w a) as (_ & _ & F & _). unfold honest_log. induction F as [|e l E F IH]; [destruct (J (act_client a)); reflexivity|]. cbn [filter]. rewrite E. destruct (J (act_client a)); cbn [negb]; [exact IH|rewrite IH; reflexivity].
Qed.
Lemma sim acts : J 0 = false -> forall w y, rel w y -> exists l, rel (fst (sys_exec w acts)) (fst (open_exec y l)) /\ snd (open_exec y l) = honest_log (snd (sys_exec w acts)) /\ (forall a, In (XClient a) l -> J (act_client a) = false).
Proof.
  intros J0. induction acts as [|a acts IH]; intros w [w' own] R; [exists []; split; [exact R|split; [reflexivity|intros a []]]|]. cbn [Clients20.sys_exec]. pose proof (honest_of a w) as HO. destruct (J (act_client a)) eqn:JA.
  - destruct (rel_strange w w' own a JA J0 R) as (l & y' & E & R' & F). destruct (sys_step w a) as [w1 e1]. cbn [fst snd] in *. destruct (IH w1 y' R') as (l2 & R2 & L2 & F2). exists (l ++ l2). destruct (sys_exec w1 acts) as [w2 e2]. cbn [fst snd] in *.
    rewrite (open_app opf wants fin queue start crit ser par oc room (w', own) l l2), E. cbn [fst snd app]. rewrite honest_app, HO. split; [exact R2|split; [exact L2|]].
    intros b X. apply in_app_iff in X. destruct X as [X|X]; [|exact (F2 b X)]. rewrite Forall_forall in F. destruct (F _ X).
  - destruct (rel_same w w' own a JA R) as [R' E]. destruct (sys_step w a) as [w1 e1]. cbn [fst snd] in *. destruct (IH w1 _ R') as (l2 & R2 & L2 & F2). exists (XClient a :: l2). destruct (sys_exec w1 acts) as [w2 e2]. cbn [fst snd] in *.
    cbn [Clients20Open.open_exec Clients20Open.open_step]. destruct (sys_step w' a) as [w1' e1']. cbn [fst snd] in *. destruct (open_exec (w1', own) l2) as [y2 e2']. cbn [fst snd] in *. rewrite honest_app, HO, E, L2. split; [exact R2|split; [reflexivity|]].
    intros b [X|X]; [injection X as <-; exact JA|exact (F2 b X)].
Qed.
End Sim.

(** Take any execution of n clients, and any of the clients.  There is an execution in which those clients do nothing at all,
    and strangers send their requests instead, which nobody else can tell apart: the server saw and answered the same, and all
    other clients made the same calls with the same results and end in the same state. *)
Theorem C121_strangers_pass_for_clients :
  forall S P B O (opf : nat -> S -> op B -> S * ret P B O) wants fin queue start crit ser par oc room n acts (J : nat -> bool), J 0 = false ->
  let w := fst (sys_exec opf wants fin queue start crit ser par oc room (sys_init n) acts) in
  let log := snd (sys_exec opf wants fin queue start crit ser par oc room (sys_init n) acts) in
  exists xs, let '((w', _), log') := open_exec opf wants fin queue start crit ser par oc room (sys_init n, []) xs in
  sy_tr w' = sy_tr w /\ log' = filter (fun e => negb (J (ev_client e))) log /\
  (forall c, J c = false -> client w' c = client w c) /\ (forall c, J c = true -> 1 <= c <= n -> client w' c = Some CIdle) /\
  forall a, In (XClient a) xs -> J (act_client a) = false.
Proof.
  intros S P B O opf wants fin queue start crit ser par oc room n acts J J0 w log.
  assert (R0 : rel J (sys_init n : sys S P B O) (sys_init n, [])).
  { refine (conj eq_refl (conj eq_refl (conj eq_refl (conj (fun c _ => eq_refl) _)))). intros c _. cbn [fst snd]. split.
    - destruct c as [|k]; [intros z []|]. destruct (client (sys_init n) (Datatypes.S k)) as [st|] eqn:E; [|intros z []]. cbn [client sys_init sy_cl] in E. apply nth_error_In, repeat_spec in E. subst st. intros z [].
    - intros st E. destruct c as [|k]; [discriminate|]. cbn [client sys_init sy_cl] in E. apply nth_error_In, repeat_spec in E. exact E. }
  destruct (sim opf wants fin queue start crit ser par oc room J acts J0 _ _ R0) as (xs & (D & T & L & H1 & H2) & E & F). exists xs.
  assert (LN : length (sy_cl w) = n) by apply sys_len. fold w in L, T, H1, H2.
  destruct (open_exec opf wants fin queue start crit ser par oc room (sys_init n, []) xs) as [[w' own] log']. cbn [fst snd] in *.
  refine (conj (eq_sym T) (conj E (conj (fun c NC => eq_sym (H1 c NC)) (conj _ F)))). intros c JC RC. destruct (client w' c) as [st|] eqn:CL; [rewrite (proj2 (H2 c JC) st CL); reflexivity|].
  exfalso. destruct c as [|k]; [lia|]. cbn [client] in CL. apply nth_error_None in CL. lia.
Qed.
Print Assumptions C121_strangers_pass_for_clients.

(** ** The clients can all finish *)
(** What C90 and C91 say of executions with the right numbers is not empty: whatever the sizes, there is one in which everybody
    gets the right number and everybody finishes. *)
Theorem C90_keygen_clients_can_finish :
  forall (C : Curve) Hb (Hf : hashF C) ck cd (t n : nat) (rs : nat -> kg_rand C) ser par oc room,
  keygen_setup ck cd t n rs -> 1 <= t < n -> (Z.of_nat (n * (n + 2)) <= 65535)%Z -> (forall m, par (ser m) = Some m) ->
  exists acts, let r := kg_world C Hb Hf ck cd t n rs ser par oc room (room_first 1 ++ acts) in
  own_numbers (snd r) /\ forall c, 1 <= c <= n -> exists y r', client (fst r) c = Some (CDone y r').
Proof.
  intros C Hb Hf ck cd t n rs ser par oc room SU TN BD SP. assert (R1 : 1 <= 1 <= n) by lia.
  destruct (C90_keygen_clients_finish C Hb Hf ck cd t n rs ser par oc room 1 SU TN BD R1 SP) as [x H]. unfold kg_world in *.
  destruct (arrive_all (fun c => kg_op C Hb Hf ck cd (rs (c - 1))) (@kg_wants_to_proceed C) (@kg_is_finished C) (@ks_queue C) (kg_program C Hb Hf ck cd t n rs) kg_is_critical ser par oc room n) as [A1 A2]; [lia|nia| |].
  - intros c I. unfold kg_program. pose proof (C54_keygen_new C Hb Hf ck cd (rs (c - 1)) c t n) as Q. destruct (kg_new C Hb Hf ck cd (rs (c - 1)) c t n) as [s|e|] eqn:E; [|exfalso|contradiction].
    + eexists. reflexivity.
    + destruct e; lia.
  - unfold arrivals in A1, A2. destruct (H _ A2) as (_ & _ & _ & _ & _ & K). destruct (K A1) as (more & M1 & M2). eexists. split; [exact M1|exact M2].
Qed.
Print Assumptions C90_keygen_clients_can_finish.
Theorem C91_offline_clients_can_finish :
  forall (C : Curve) Hb (Hz : hashZ C) (Hf : hashF C) n (f : list (Fq (cq C))) Ns dls sl (lks : nat -> local_key C) (rs : nat -> sign_rand C) ser par oc room,
  (forall l, (0 <= Hz l)%Z) -> signers_ok n f Ns dls sl lks -> sign_rand_ok Hz dls sl lks rs ->
  (forall c, 1 <= c <= length sl -> exists s, sg_new c sl (lks (c - 1)) = Ok s) ->
  let k := length sl in
  1 <= k -> (Z.of_nat (k * (k + 4)) <= 65535)%Z -> (forall m, par (ser m) = Some m) ->
  exists acts, let r := sg_world C Hb Hz Hf sl lks rs ser par oc room (room_first 1 ++ acts) in
  own_numbers (snd r) /\ forall c, 1 <= c <= k -> exists y r', client (fst r) c = Some (CDone y r').
Proof.
  intros C Hb Hz Hf n f Ns dls sl lks rs ser par oc room HH KO RO NW k K1 BD SP. assert (R1 : 1 <= 1 <= k) by lia.
  destruct (C91_offline_clients_finish C Hb Hz Hf n f Ns dls sl lks rs ser par oc room 1 HH KO RO NW BD R1 SP) as (R & x & y & cs & _ & _ & _ & _ & _ & H). unfold sg_world in *.
  destruct (arrive_all (fun c => sg_op C Hb Hz Hf (rs (c - 1))) (@sg_wants_to_proceed C) (@sg_is_finished C) (@sm_queue C) (sg_program C sl lks) sg_is_critical ser par oc room k) as [A1 A2]; [exact K1|nia| |].
  - intros c I. unfold sg_program. rewrite Nat2Z.id. destruct (NW c I) as [s E]. exists s. rewrite E. reflexivity.
  - unfold arrivals in A1, A2. destruct (H _ A2) as (_ & _ & _ & _ & _ & Q). destruct (Q A1) as (more & M1 & M2). eexists. split; [exact M1|exact M2].
Qed.
Print Assumptions C91_offline_clients_can_finish.

(** ** Keys shared with strangers *)
(** Claimed: a key made in a room belongs to the parties whose clients were started.  Take any of the parties: there is an
    execution in which their clients are never started, all other clients finish with correct keys, and the server saw exactly
    what it sees in an execution of all n clients, in which the missing ones obtain their shares of the same key; so whoever
    sent their requests has those shares. *)
Theorem C121_key_with_strangers_refuted :
  forall (C : Curve) Hb (Hf : hashF C) ck cd (t n : nat) (rs : nat -> kg_rand C) ser par oc room (J : nat -> bool),
  keygen_setup ck cd t n rs -> 1 <= t < n -> (Z.of_nat (n * (n + 2)) <= 65535)%Z -> (forall m, par (ser m) = Some m) -> J 0 = false ->
  exists (x : nat -> Fq (cq C)) xs acts,
  let w' := fst (fst (kg_open C Hb Hf ck cd t n rs ser par oc room xs)) in
  let w := fst (kg_world C Hb Hf ck cd t n rs ser par oc room acts) in
  (forall c, J c = true -> 1 <= c <= n -> client w' c = Some CIdle) /\ (forall a, In (XClient a) xs -> J (act_client a) = false) /\
  (forall i, i < n -> J (S i) = false -> exists y lk, client w' (S i) = Some (CDone y (RPick (Some (Ok lk)))) /\ key_correct t n rs x i lk) /\
  sy_tr w' = sy_tr w /\
  (forall i, i < n -> J (S i) = true -> exists y lk, client w (S i) = Some (CDone y (RPick (Some (Ok lk)))) /\ key_correct t n rs x i lk).
Proof.
  intros C Hb Hf ck cd t n rs ser par oc room J SU TN BD SP J0. assert (R1 : 1 <= 1 <= n) by lia.
  destruct (C90_keygen_clients_finish C Hb Hf ck cd t n rs ser par oc room 1 SU TN BD R1 SP) as [x H].
  destruct (C90_keygen_clients_can_finish C Hb Hf ck cd t n rs ser par oc room SU TN BD SP) as (more & OW & DN).
  destruct (H more OW) as (_ & _ & _ & KC & _). unfold kg_open, kg_world in *.
  destruct (C121_strangers_pass_for_clients _ _ _ _ (fun c => kg_op C Hb Hf ck cd (rs (c - 1))) (@kg_wants_to_proceed C) (@kg_is_finished C) (@ks_queue C) (kg_program C Hb Hf ck cd t n rs) kg_is_critical ser par oc room n (room_first 1 ++ more) J J0) as [xs Q].
  exists x, xs, (room_first 1 ++ more). destruct (open_exec _ _ _ _ _ _ _ _ _ _ _ xs) as [[w' own] log']. cbn [fst snd]. destruct Q as (Q1 & Q2 & Q3 & Q4 & Q5).
  assert (D : forall i, i < n -> exists y lk, client (fst (sys_exec (fun c => kg_op C Hb Hf ck cd (rs (c - 1))) (@kg_wants_to_proceed C) (@kg_is_finished C) (@ks_queue C) (kg_program C Hb Hf ck cd t n rs) kg_is_critical ser par oc room (sys_init n) (room_first 1 ++ more))) (S i) = Some (CDone y (RPick (Some (Ok lk)))) /\ key_correct t n rs x i lk).
  { intros i I. destruct (DN (S i) ltac:(lia)) as (y & r & E). destruct (KC i y r E) as (lk & -> & K). exists y, lk. split; [exact E|exact K]. }
  refine (conj Q4 (conj Q5 (conj _ (conj Q1 _)))); intros i I NJ; [|exact (D i I)]. destruct (D i I) as (y & lk & E & K). exists y, lk. split; [|exact K]. rewrite (Q3 (S i) NJ). exact E.
Qed.
Print Assumptions C121_key_with_strangers_refuted.

(** Three parties; client 2 is never started, and a stranger asks what it would have asked (without closing its connection).
    Clients 1 and 3 finish with the keys of C90_example; the share 15 is the stranger's. *)
Fixpoint exdisguise (J : nat -> bool) (w : sys (kg_sm toy) mp_error (kg_msg toy) (local_key toy)) (acts : list cact) : list xact :=
  match acts with
  | [] => []
  | a :: l => let '(w1, e) := sys_step (fun c => kg_op toy exHb exHf3 exck excd (exrs (c - 1))) (@kg_wants_to_proceed toy) (@kg_is_finished toy) (@ks_queue toy) (kg_program toy exHb exHf3 exck excd 1 3 exrs) kg_is_critical kg_ser kg_par true "default-keygen" w a in
      (if J (act_client a) then flat_map (fun e => match e with EAsk _ q => [XAsk "default-keygen" q] | _ => [] end) e else [XClient a]) ++ exdisguise J w1 l
  end.
Definition exxs := exdisguise (Nat.eqb 2) (sys_init 3) (arrivals 3 ++ exall 3 21 8).
Example C121_example :
  exopen exxs = ([Some (13, 14, [14; 15; 16]); None; Some (13, 16, [14; 15; 16])]%Z, [false; false; false], [(1, 1%Z); (3, 3%Z)]) /\
  length (asks exxs) = 7 /\ forallb (fun a => match a with XClient b => negb (Nat.eqb 2 (act_client b)) | _ => true end) exxs = true /\
  keygen_setup exck excd 1 3 exrs /\ Nat.eqb 2 0 = false.
Proof. refine (conj _ (conj _ (conj _ (conj C64_example_setup eq_refl)))); vm_compute; reflexivity. Qed.

(** The clients of Clients20.v arriving one after the other: such an execution exists whatever the number of clients. *)
From Coq Require Import String ZArith Bool Lia List.
From Verif Require Import RoundSM Stores SmSpec NetLog Manager20 Manager20Proofs Driver Clients20 Clients20Proofs Clients20Log Clients20Own Clients20Open Clients20OpenProofs PropClients20 PropOpen.
Import ListNotations.
Local Open Scope nat_scope.

(** Client c subscribes, is answered, asks for its index, is answered, starts; k requests were made before *)
Definition arrive1 (k c : nat) : list cact := [CStart c; CServe k; CServe k; CJoined c; CServe (S k); CServe (S k); CIndexed c].
(** The first client's request creates the room; the others follow in order. *)
Definition arrivals (n : nat) : list cact := room_first 1 ++ [CJoined 1; CServe 1; CServe 1; CIndexed 1] ++ flat_map (fun j => arrive1 (2 * j) (S j)) (seq 1 (n - 1)).

Lemma nth_last {A} (l : list A) x d k : k = length l -> nth k (l ++ [x]) d = x.
Proof. intros ->. rewrite app_nth2, Nat.sub_diag by lia. reflexivity. Qed.
Lemma upd_last {A} (l : list A) x (f : A -> A) k : k = length l -> Manager20.upd k f (l ++ [x]) = l ++ [f x].
Proof. intros ->. induction l as [|y l IH]; cbn; [reflexivity|f_equal; exact IH]. Qed.

Section Arrive.
Context {S P B O : Type}.
Context (opf : nat -> S -> op B -> S * ret P B O) (wants fin : S -> bool) (queue : S -> list (msg B)).
Context (start : nat -> Z -> option S) (crit : sm_error P -> bool) (ser : msg B -> string) (par : string -> option (msg B)) (oc : bool) (room : string).
Notation sys := (sys S P B O).
Notation sys_step := (sys_step opf wants fin queue start crit ser par oc room).
Notation sys_exec := (sys_exec opf wants fin queue start crit ser par oc room).
Definition the_room (k : nat) : Manager20.room := {| rm_msgs := []; rm_notify := 0; rm_subs := Z.of_nat k; rm_next := Z.of_nat k + 1 |}.
Definition mk (r : Manager20.room) ts tr cl : sys := {| sy_db := {| db_rooms := [(room, 0)]; db_heap := [r]; db_tasks := ts |}; sy_tr := tr; sy_cl := cl |}.
Lemma serve_sub r ts tr cl k : k = length ts -> (rm_subs r <> 0)%Z -> serve oc (Run k) (serve oc (Run k) (serve oc (Arrive room (RSub None)) (mk r ts tr cl))) =
  mk (set_subs inc16 r) (ts ++ [TReady 0 0%Z]) (tr ++ [OJoined k room 0 None]) cl.
Proof.
  intros LK NZ. unfold serve at 3. cbn [step good_req mk sy_db sy_tr sy_cl db_rooms db_heap db_tasks]. unfold serve at 2. cbn [step sy_db sy_tr sy_cl]. unfold run_task at 1. cbn [db_tasks]. rewrite (nth_last ts _ _ k LK).
  unfold lookup_step. cbn [db_rooms find_room]. rewrite String.eqb_refl. unfold get_room, is_abandoned. cbn [db_heap nth]. apply Z.eqb_neq in NZ. rewrite NZ. unfold set_task. cbn [db_rooms db_heap db_tasks]. rewrite (upd_last ts _ _ k LK).
  unfold serve. cbn [step sy_db sy_tr sy_cl]. unfold run_task. cbn [db_tasks]. rewrite (nth_last ts _ _ k LK). cbn [start_at]. unfold set_task, set_room. cbn [db_rooms db_heap db_tasks]. rewrite (upd_last ts _ _ k LK).
  unfold mk. rewrite !app_nil_r. reflexivity.
Qed.
Lemma serve_issue r ts tr cl k : k = length ts -> (rm_subs r <> 0)%Z -> serve oc (Run k) (serve oc (Run k) (serve oc (Arrive room RIssue) (mk r ts tr cl))) =
  mk (snd (issue_unique_idx r)) (ts ++ [TEnd]) (tr ++ [OIssued k room 0 (rm_next r)]) cl.
Proof.
  intros LK NZ. unfold serve at 3. cbn [step good_req mk sy_db sy_tr sy_cl db_rooms db_heap db_tasks]. unfold serve at 2. cbn [step sy_db sy_tr sy_cl]. unfold run_task at 1. cbn [db_tasks]. rewrite (nth_last ts _ _ k LK).
  unfold lookup_step. cbn [db_rooms find_room]. rewrite String.eqb_refl. unfold get_room, is_abandoned. cbn [db_heap nth]. apply Z.eqb_neq in NZ. rewrite NZ. unfold set_task. cbn [db_rooms db_heap db_tasks]. rewrite (upd_last ts _ _ k LK).
  unfold serve. cbn [step sy_db sy_tr sy_cl]. unfold run_task. cbn [db_tasks]. rewrite (nth_last ts _ _ k LK). unfold get_room. cbn [issue_unique_idx db_heap nth]. unfold set_task, set_room. cbn [db_rooms db_heap db_tasks]. rewrite (upd_last ts _ _ k LK).
  unfold mk. rewrite !app_nil_r. reflexivity.
Qed.
Lemma serve_set a c st (w : sys) : serve oc a (set_client c st w) = set_client c st (serve oc a w).
Proof. unfold serve. cbn [set_client sy_db sy_tr sy_cl]. destruct (step oc (sy_db w) a). reflexivity. Qed.
Lemma set_set c st st' (w : sys) : set_client c st (set_client c st' w) = set_client c st w.
Proof. unfold set_client. cbn [sy_db sy_tr sy_cl]. f_equal. generalize (c - 1). clear. intros i. revert i. generalize (sy_cl w). intros l. induction l as [|y l IH]; intros [|i]; cbn; try reflexivity. f_equal. apply IH. Qed.

Record arrived (n k : nat) (w : sys) : Prop := {
  ar_db : exists ts, sy_db w = {| db_rooms := [(room, 0)]; db_heap := [the_room k]; db_tasks := ts |} /\ length ts = 2 * k;
  ar_tr : forall t rid ref i, In (OIssued t rid ref i) (sy_tr w) -> t < 2 * k;
  ar_len : length (sy_cl w) = n;
  ar_run : forall c, 1 <= c <= k -> exists x, client w c = Some (CRunning x);
  ar_idle : forall c, k < c <= n -> client w c = Some CIdle }.
Lemma joined_last t rid ref tr : was_joined t (tr ++ [OJoined t rid ref None]) = true.
Proof. unfold was_joined. rewrite existsb_app. cbn. rewrite Nat.eqb_refl. apply orb_true_r. Qed.
Lemma issued_last t rid ref i tr : (forall t' rid' ref' i', In (OIssued t' rid' ref' i') tr -> t' < t) -> was_issued t (tr ++ [OIssued t rid ref i]) = Some i.
Proof.
  intros F. unfold was_issued. assert (E : find (fun o => match o with OIssued u _ _ _ => Nat.eqb u t | _ => false end) (tr ++ [OIssued t rid ref i]) = Some (OIssued t rid ref i)); [|rewrite E; reflexivity].
  induction tr as [|o tr IH]; cbn [find app]; [rewrite Nat.eqb_refl; reflexivity|]. assert (IH' : find (fun o => match o with OIssued u _ _ _ => Nat.eqb u t | _ => false end) (tr ++ [OIssued t rid ref i]) = Some (OIssued t rid ref i)) by (apply IH; intros; apply (F t' rid' ref' i'); right; assumption).
  destruct o as [| |u r' f' i'| | | |]; try exact IH'. pose proof (F u r' f' i' (or_introl eq_refl)). destruct (Nat.eqb_spec u t); [lia|exact IH'].
Qed.
Lemma arrive_one n k w s : 1 <= k < n -> (Z.of_nat n <= 65534)%Z -> arrived n k w -> start (Datatypes.S k) (Z.of_nat (Datatypes.S k)) = Some s ->
  let r := sys_exec w (arrive1 (2 * k) (Datatypes.S k)) in
  arrived n (Datatypes.S k) (fst r) /\ snd r = [EAsk (Datatypes.S k) (RSub None); EAsk (Datatypes.S k) RIssue; EIndex (Datatypes.S k) (Z.of_nat (Datatypes.S k))].
Proof.
  intros KN BD [[ts [DB LT]] TR LN RN ID] ST. set (c := Datatypes.S k) in *. pose proof (ID c ltac:(unfold c; lia)) as CI.
  destruct w as [d tr cl]. cbn [sy_db sy_tr sy_cl] in *. subst d. change {| sy_db := _; sy_tr := tr; sy_cl := cl |} with (mk (the_room k) ts tr cl) in *.
  assert (LI : c - 1 < length cl) by (unfold c; lia).
  assert (NT : next_task (mk (the_room k) ts tr cl) = 2 * k) by exact LT.
  set (ts1 := ts ++ [TReady 0 0%Z]). assert (L1 : length ts1 = Datatypes.S (2 * k)) by (unfold ts1; rewrite app_length; cbn; lia).
  set (w1 := mk (set_subs inc16 (the_room k)) ts1 (tr ++ [OJoined (2 * k) room 0 None]) cl).
  assert (C1 : forall st, client (set_client c st w1) c = Some st) by (intros st; apply (client_some c st w1 CIdle); exact CI).
  assert (S1 : sys_exec (mk (the_room k) ts tr cl) [CStart c; CServe (2 * k); CServe (2 * k)] = (set_client c (CSubscribing (2 * k)) w1, [EAsk c (RSub None)])).
  { cbn [Clients20.sys_exec Clients20.sys_step]. rewrite CI. unfold ask. rewrite NT. cbn [app]. rewrite !serve_set, (serve_sub (the_room k) ts tr cl (2 * k) (eq_sym LT)) by (cbn; lia). reflexivity. }
  set (w2 := mk (snd (issue_unique_idx (set_subs inc16 (the_room k)))) (ts1 ++ [TEnd]) ((tr ++ [OJoined (2 * k) room 0 None]) ++ [OIssued (Datatypes.S (2 * k)) room 0 (rm_next (the_room k))]) cl).
  assert (C2 : forall st, client (set_client c st w2) c = Some st) by (intros st; apply (client_some c st w2 CIdle); exact CI).
  assert (S2 : sys_exec (set_client c (CSubscribing (2 * k)) w1) [CJoined c; CServe (Datatypes.S (2 * k)); CServe (Datatypes.S (2 * k))] = (set_client c (CIssuing (2 * k) (Datatypes.S (2 * k))) w2, [EAsk c RIssue])).
  { cbn [Clients20.sys_exec Clients20.sys_step]. rewrite C1. change (sy_tr (set_client c (CSubscribing (2 * k)) w1)) with (tr ++ [OJoined (2 * k) room 0 None]). rewrite joined_last. unfold ask.
    assert (NT1 : next_task (set_client c (CSubscribing (2 * k)) w1) = Datatypes.S (2 * k)) by exact L1. rewrite NT1. cbn [app]. rewrite !serve_set, set_set. unfold w1. rewrite (serve_issue _ ts1 _ cl _ (eq_sym L1)); [reflexivity|]. cbn. unfold inc16. rewrite Z.mod_small; lia. }
  assert (EN : rm_next (the_room k) = Z.of_nat c) by (cbn; unfold c; lia).
  set (st' := (CRunning {| cr_sub := 2 * k; cr_idx := Z.of_nat c; cr_st := s; cr_read := 0; cr_out := []; cr_post := None |} : stage S P B O)).
  assert (S3 : sys_exec (set_client c (CIssuing (2 * k) (Datatypes.S (2 * k))) w2) [CIndexed c] = (set_client c st' w2, [EIndex c (Z.of_nat c)])).
  { cbn [Clients20.sys_exec Clients20.sys_step]. rewrite C2. change (sy_tr (set_client c (CIssuing (2 * k) (Datatypes.S (2 * k))) w2)) with ((tr ++ [OJoined (2 * k) room 0 None]) ++ [OIssued (Datatypes.S (2 * k)) room 0 (rm_next (the_room k))]).
    rewrite issued_last by (intros t' rid ref i X; apply in_app_iff in X; destruct X as [X|[X|[]]]; [specialize (TR _ _ _ _ X); lia|discriminate]).
    rewrite EN, ST. cbn [app]. rewrite set_set. reflexivity. }
  change (arrive1 (2 * k) c) with ([CStart c; CServe (2 * k); CServe (2 * k)] ++ [CJoined c; CServe (Datatypes.S (2 * k)); CServe (Datatypes.S (2 * k))] ++ [CIndexed c]).
  rewrite exec_app, S1. cbn [fst snd]. rewrite exec_app, S2. cbn [fst snd]. rewrite S3. cbn [fst snd app]. split; [|reflexivity].
  constructor.
  - exists (ts1 ++ [TEnd]). split; [|rewrite app_length, L1; unfold c; cbn; lia]. cbn [set_client sy_db w2 mk]. f_equal. unfold the_room, set_subs, issue_unique_idx, inc16. cbn [rm_msgs rm_notify rm_subs rm_next snd]. unfold c. rewrite !Z.mod_small by lia. do 2 f_equal; lia.
  - cbn [set_client sy_tr w2 mk]. intros t rid ref i X. apply in_app_iff in X. destruct X as [X|[X|[]]].
    + apply in_app_iff in X. destruct X as [X|[X|[]]]; [|discriminate]. specialize (TR _ _ _ _ X). unfold c. lia.
    + injection X as <- _ _ _. unfold c. lia.
  - cbn [set_client sy_cl w2 mk]. rewrite upd_len. exact LN.
  - intros d RD. destruct (Nat.eq_dec d c) as [->|N]; [rewrite C2; unfold st'; eauto|]. rewrite client_other by (unfold c in *; lia). apply RN. unfold c in *. lia.
  - intros d RD. rewrite client_other by (unfold c in *; lia). apply ID. unfold c in *. lia.
Qed.
Lemma arrive_first n s : 1 <= n -> start 1 1%Z = Some s -> let r := sys_exec (sys_init n) (room_first 1 ++ [CJoined 1; CServe 1; CServe 1; CIndexed 1]) in
  arrived n 1 (fst r) /\ snd r = [EAsk 1 (RSub None); EAsk 1 RIssue; EIndex 1 1%Z].
Proof.
  intros R ST. destruct n as [|n]; [lia|]. unfold room_first. cbn [app Clients20.sys_exec Clients20.sys_step sys_init client sy_cl nth_error repeat]. unfold ask, serve, next_task. cbn. unfold serve. cbn. unfold lookup_step. cbn. rewrite String.eqb_refl. cbn. rewrite ST. cbn. split; [|reflexivity]. constructor; cbn [sy_db sy_tr sy_cl].
  - eexists. split; [reflexivity|reflexivity].
  - intros t rid ref i [X|[X|[]]]; [discriminate|]. injection X as <- _ _ _. lia.
  - cbn. rewrite repeat_length. reflexivity.
  - intros c RC. replace c with 1 by lia. eexists. reflexivity.
  - intros c RC. destruct c as [|[|k]]; [lia|lia|]. exact (idle n (Datatypes.S k) ltac:(lia)).
Qed.
Lemma arrive_all n : 1 <= n -> (Z.of_nat n <= 65534)%Z -> (forall c, 1 <= c <= n -> exists s, start c (Z.of_nat c) = Some s) ->
  all_started n (fst (sys_exec (sys_init n) (arrivals n))) /\ own_numbers (snd (sys_exec (sys_init n) (arrivals n))).
Proof.
  intros R BD ST. unfold arrivals. rewrite app_assoc.
  assert (K : forall j, Datatypes.S j <= n -> let r := sys_exec (sys_init n) ((room_first 1 ++ [CJoined 1; CServe 1; CServe 1; CIndexed 1]) ++ flat_map (fun i => arrive1 (2 * i) (Datatypes.S i)) (seq 1 j)) in arrived n (Datatypes.S j) (fst r) /\ own_numbers (snd r)).
  { induction j as [|j IH]; intros J.
    - cbn [seq flat_map]. rewrite app_nil_r. destruct (ST 1 ltac:(lia)) as [s E]. destruct (arrive_first n s R E) as [A1 A2]. split; [exact A1|]. rewrite A2. intros c i [X|[X|[X|[]]]]; try discriminate. injection X as <- <-. reflexivity.
    - destruct (IH ltac:(lia)) as [A1 A2]. rewrite seq_S, flat_map_app, app_assoc. cbn [flat_map]. rewrite app_nil_r. change (1 + j) with (Datatypes.S j). rewrite exec_app. cbn [fst snd].
      destruct (ST (Datatypes.S (Datatypes.S j)) ltac:(lia)) as [s E]. destruct (arrive_one n (Datatypes.S j) _ s ltac:(lia) BD A1 E) as [B1 B2]. split; [exact B1|].
      intros c i X. apply in_app_iff in X. destruct X as [X|X]; [exact (A2 c i X)|]. rewrite B2 in X. destruct X as [X|[X|[X|[]]]]; try discriminate. injection X as <- <-. reflexivity. }
  destruct (K (n - 1) ltac:(lia)) as [A1 A2]. replace (Datatypes.S (n - 1)) with n in A1 by lia. split; [|exact A2]. intros c RC. destruct (ar_run _ _ _ A1 c RC) as [x E]. exists x. left. exact E.
Qed.
End Arrive.

(** C67-C70: the GG20 relay server under every interleaving of its handlers. *)
From Coq Require Import String ZArith Bool Lia FinFun List.
From Verif Require Import Manager20 M20Spec Manager20Proofs Manager20Facts.
Import ListNotations.
Open Scope string_scope.
Open Scope list_scope.
Open Scope Z_scope.

(** * C67: a subscriber gets what was published after its last-seen id, in order, once, with consecutive ids.
    The bound on the number of messages is needed in release builds only, where ids wrap around. *)
Theorem C67_delivery : forall oc l s tr, exec oc db_empty l = (s, tr) ->
  forall t rid ref last, In (OJoined t rid ref last) tr ->
  (oc = true \/ Z.of_nat (length (pubs ref tr)) <= 65535 /\ last <> Some 65535) ->
  let k := wanted_from last in
  gots t tr = numbered k (firstn (length (gots t tr)) (skipn k (pubs ref tr))) /\ joins t tr = [(rid, ref, last)].
Proof.
  intros oc l s tr E t rid ref last J N. apply reach_minv in E. destruct (joined_once _ _ _ _ _ _ _ E J) as [JO F].
  destruct (fed_exact _ _ _ _ F N) as (Q & _). split; [exact Q|exact JO].
Qed.
Print Assumptions C67_delivery.

(** No message is forgotten: as long as the subscriber is there and something it wants has been published, its task
    delivers the next message within two steps.  In particular no wake-up is lost between reading and waiting. *)
Theorem C67_progress : forall oc l s tr, exec oc db_empty l = (s, tr) ->
  forall t rid ref last, In (OJoined t rid ref last) tr -> ~ gone t tr ->
  (oc = true \/ Z.of_nat (length (pubs ref tr)) <= 65535 /\ last <> Some 65535) ->
  let k := (wanted_from last + length (gots t tr))%nat in
  (k < length (pubs ref tr))%nat -> Z.of_nat k < 65535 ->
  exists m rest, nth_error (pubs ref tr) k = Some m /\ gots t (snd (exec oc s [Run t; Run t])) = (Z.of_nat k, m) :: rest.
Proof. intros oc l s tr E. apply reach_minv in E. intros. eapply progress; eauto. Qed.
Print Assumptions C67_progress.

(** Three messages, a subscriber from the start and one that saw message 0, interleaved *)
Definition exm : list act :=
  [Arrive "r" (RSub None); Run 0; Run 0; Run 0; Run 0;
   Arrive "r" (RPub "a"); Run 1; Run 1; Arrive "r" (RSub (Some 0)); Arrive "r" (RPub "b"); Run 2; Run 3; Run 0; Run 3; Run 2; Run 2;
   Arrive "r" (RPub "c"); Run 0; Run 4; Run 4; Run 0; Run 2; Cancel 2].
Example C67_example : let tr := snd (exec true db_empty exm) in
  pubs 0 tr = ["a"; "b"; "c"] /\ gots 0 tr = [(0, "a"); (1, "b")] /\ gots 2 tr = [(1, "b"); (2, "c")] /\
  joins 0 tr = [("r", 0%nat, None)] /\ joins 2 tr = [("r", 0%nat, Some 0)] /\
  gots 0 (snd (exec true (fst (exec true db_empty exm)) [Run 0; Run 0])) = [(2, "c")].
Proof. vm_compute. auto 10. Qed.

(** Without overflow checks the 65536th message is followed by the first one again: ids repeat. *)
Section Wrap.
Definition wroom (n : nat) : room := {| rm_msgs := repeat "m" n; rm_notify := n; rm_subs := 1; rm_next := 1 |}.
Definition wdb (n : nat) (next : Z) : db := {| db_rooms := [("r", 0%nat)]; db_heap := [wroom n]; db_tasks := TReady 0 next :: repeat TEnd n |}.
Lemma wjoin : exec false db_empty [Arrive "r" (RSub None); Run 0; Run 0; Run 0] = (wdb 0 0, [OJoined 0 "r" 0 None]).
Proof. reflexivity. Qed.
Lemma repeat_snoc {A} (x : A) n : repeat x n ++ [x] = repeat x (S n).
Proof. induction n as [|n IH]; [reflexivity|]. cbn [repeat app]. rewrite IH. reflexivity. Qed.
Lemma upd_snoc {A} (l : list A) x f : upd (length l) f (l ++ [x]) = l ++ [f x].
Proof. induction l as [|y l IH]; [reflexivity|]. cbn [length app upd]. rewrite IH. reflexivity. Qed.
Lemma wpub n : exec false (wdb n 0) [Arrive "r" (RPub "m"); Run (S n); Run (S n)] = (wdb (S n) 0, [OPublished (S n) "r" 0 "m"]).
Proof.
  set (T := TReady 0 0 :: repeat TEnd n). assert (L : length T = S n) by (unfold T; cbn [length]; rewrite repeat_length; reflexivity).
  cbn [exec step good_req wdb db_rooms db_heap db_tasks]. fold T.
  unfold run_task at 1. cbn [db_tasks]. rewrite <- L, app_nth2, Nat.sub_diag by lia. cbn [nth]. unfold lookup_step. cbn [db_rooms find_room String.eqb Ascii.eqb Bool.eqb].
  unfold get_room, is_abandoned. cbn [db_heap nth wroom rm_subs Z.eqb]. unfold set_task. cbn [db_rooms db_heap db_tasks]. rewrite upd_snoc.
  unfold run_task. cbn [db_tasks]. rewrite app_nth2, Nat.sub_diag by lia. cbn [nth]. unfold set_task, set_room. cbn [db_rooms db_heap db_tasks upd]. rewrite upd_snoc.
  rewrite !app_nil_r, L. f_equal. unfold wdb. f_equal.
  - unfold publish. cbn [wroom rm_msgs rm_notify rm_subs rm_next]. rewrite repeat_snoc. reflexivity.
  - unfold T. cbn [app repeat]. rewrite repeat_snoc. reflexivity.
Qed.
Lemma wpubs n : exists l o, exec false db_empty l = (wdb n 0, OJoined 0 "r" 0 None :: o).
Proof.
  induction n as [|n (l & o & IH)].
  - exists [Arrive "r" (RSub None); Run 0; Run 0; Run 0], []. apply wjoin.
  - exists (l ++ [Arrive "r" (RPub "m"); Run (S n); Run (S n)]), (o ++ [OPublished (S n) "r" 0 "m"]). rewrite exec_app, IH, wpub. reflexivity.
Qed.
Lemma wread n next : 0 <= next < Z.of_nat n -> Z.of_nat n = 65536 -> run_task false 0 (wdb n next) = (wdb n ((next + 1) mod 65536), [OGot 0 0 next "m"]).
Proof.
  intros B N. unfold run_task, wdb at 1. cbn [db_tasks nth]. unfold get_room, wdb at 1. cbn [db_heap nth wroom rm_msgs].
  assert (E : nth_error (repeat "m" n) (Z.to_nat next) = Some "m") by (apply nth_error_repeat; lia). rewrite E. unfold add16.
  destruct (Z.ltb_spec (next + 1) 65536).
  - rewrite Z.mod_small by lia. reflexivity.
  - assert (next = 65535) as -> by lia. reflexivity.
Qed.
Lemma wreads n : Z.of_nat n = 65536 -> forall k next, 0 <= next < 65536 ->
  exists s o, exec false (wdb n next) (repeat (Run 0) k) = (s, o) /\ length (gots 0 o) = k.
Proof.
  intros N. induction k as [|k IH]; intros next B; cbn [repeat exec step]; [eexists _, _; split; reflexivity|].
  rewrite wread by lia. destruct (IH ((next + 1) mod 65536) (Z.mod_pos_bound (next + 1) 65536 eq_refl)) as (s & o & E & L). rewrite E. eexists _, _. split; [reflexivity|].
  unfold gots in *. cbn [app flat_map Nat.eqb length]. rewrite L. reflexivity.
Qed.
End Wrap.
Theorem C67_release_wrap_refuted : exists l s tr, exec false db_empty l = (s, tr) /\ exists t, ~ NoDup (map fst (gots t tr)).
Proof.
  set (n := Z.to_nat 65536). assert (N : Z.of_nat n = 65536) by (apply Z2Nat.id; discriminate). clearbody n.
  destruct (wpubs n) as (l & o & E). destruct (wreads n N (S n) 0 ltac:(lia)) as (s & o' & E' & L).
  assert (R : exec false db_empty (l ++ repeat (Run 0) (S n)) = (s, (OJoined 0 "r"%string 0 None :: o) ++ o')) by (rewrite exec_app, E, E'; reflexivity).
  exists (l ++ repeat (Run 0) (S n)), s, ((OJoined 0 "r"%string 0 None :: o) ++ o'). split; [exact R|]. exists 0%nat.
  apply reach_minv in R. destruct (joined_once _ _ _ 0 "r"%string 0%nat None R ltac:(left; reflexivity)) as [_ (st & S1 & S2 & G & _)].
  injection S1 as <-. set (tr := (OJoined 0 "r"%string 0 None :: o) ++ o') in *.
  assert (LG : (S n <= length (gots 0 tr))%nat) by (unfold tr; rewrite gots_app, app_length, L; lia).
  intros ND. rewrite G, map_map in ND. rewrite (NoDup_nth _ 0) in ND.
  assert (X : 0%nat = n); [|subst n; cbn in N; lia]. apply ND; try (rewrite map_length, seq_length; lia).
  assert (K : forall j, (j < length (gots 0 tr))%nat -> nth j (map (fun x => fst (event (pubs 0 tr) 0 x)) (seq 0 (length (gots 0 tr)))) 0 = Z.of_nat j mod 65536).
  { intros j J. rewrite (nth_indep _ _ (fst (event (pubs 0 tr) 0 0))) by (rewrite map_length, seq_length; exact J). rewrite (map_nth (fun x => fst (event (pubs 0 tr) 0 x))), seq_nth by exact J. reflexivity. }
  rewrite !K by lia. rewrite N. reflexivity.
Qed.
Print Assumptions C67_release_wrap_refuted.

(** * C68: the indices issued in one room are 1, 2, 3, ... (modulo 2^16). *)
Theorem C68_consecutive : forall oc l s tr, exec oc db_empty l = (s, tr) -> forall ref,
  (Z.of_nat (length (issued ref tr)) <= 65535 -> issued ref tr = map Z.of_nat (seq 1 (length (issued ref tr))) /\ NoDup (issued ref tr)) /\
  (forall k i, nth_error (issued ref tr) k = Some i -> i = (1 + Z.of_nat k) mod 65536).
Proof.
  intros oc l s tr E ref. apply reach_minv in E. pose proof (mi_issued _ _ _ E ref) as I. set (L := issued ref tr) in *. clearbody L. split.
  - intros B. assert (Q : L = map Z.of_nat (seq 1 (length L))).
    { rewrite I at 1. apply map_ext_in. intros k K. apply in_seq in K. apply Z.mod_small. lia. }
    split; [exact Q|]. rewrite Q. apply Injective_map_NoDup; [intros a b; apply Nat2Z.inj|apply seq_NoDup].
  - intros k i K. assert (KL : (k < length L)%nat) by (apply nth_error_Some; congruence).
    rewrite I, nth_error_map in K. rewrite (nth_error_nth' (seq 1 (length L)) 0%nat) in K by (rewrite seq_length; exact KL). rewrite seq_nth in K by exact KL.
    cbn [option_map] in K. injection K as <-. f_equal. lia.
Qed.
Print Assumptions C68_consecutive.
(** A room with a subscriber: interleaved requests get 1 and 2.  *)
Example C68_example : issued 0 (snd (exec true db_empty
  [Arrive "r" (RSub None); Run 0; Run 0; Run 0; Arrive "r" RIssue; Arrive "r" RIssue; Run 2; Run 1; Run 2; Run 1])) = [1; 2].
Proof. vm_compute. reflexivity. Qed.

(** By room id the claim is false: with nobody subscribed every request starts a new room, and every caller is party 1. *)
Definition issue_alone (oc : bool) (rid : string) (s : db) : db * list obs :=
  let t := length (db_tasks s) in exec oc s [Arrive rid RIssue; Run t; Run t; Run t].
Definition unwatched (rid : string) (s : db) : Prop := forall ref, find_room rid (db_rooms s) = Some ref -> is_abandoned (get_room ref s) = true.

(** What serving one request alone does when nobody watches the room *)
Lemma serve_lonely oc rid s q : unwatched rid s -> good_req q = true ->
  let t := length (db_tasks s) in let n := length (db_heap s) in
  exec oc s [Arrive rid q; Run t; Run t] =
    ({| db_rooms := (rid, n) :: db_rooms s; db_heap := db_heap s ++ [room_empty]; db_tasks := db_tasks s ++ [TRoom rid n q] |}, []).
Proof.
  intros U G t n. cbn [exec step]. rewrite G.
  assert (R1 : run_task oc t {| db_rooms := db_rooms s; db_heap := db_heap s; db_tasks := db_tasks s ++ [TLookup rid q] |} =
    ({| db_rooms := db_rooms s; db_heap := db_heap s; db_tasks := db_tasks s ++ [TCreate rid q] |}, [])).
  { unfold run_task. cbn [db_tasks]. rewrite app_nth2 by (subst t; lia). subst t. rewrite Nat.sub_diag. cbn [nth].
    replace (lookup_step rid _) with (@None nat).
    - unfold set_task. cbn [db_rooms db_heap db_tasks]. rewrite upd_snoc. reflexivity.
    - unfold lookup_step. cbn [db_rooms]. specialize (U). destruct (find_room rid (db_rooms s)) as [r|] eqn:F; [|reflexivity]. specialize (U r F). unfold get_room in *. cbn [db_heap]. rewrite U. reflexivity. }
  rewrite R1. unfold run_task. cbn [db_tasks]. rewrite app_nth2 by (subst t; lia). subst t. rewrite Nat.sub_diag. cbn [nth].
  replace (create_step rid _) with (n, {| db_rooms := (rid, n) :: db_rooms s; db_heap := db_heap s ++ [room_empty]; db_tasks := db_tasks s ++ [TCreate rid q] |}).
  - unfold set_task. cbn [db_rooms db_heap db_tasks app]. rewrite upd_snoc. reflexivity.
  - unfold create_step. cbn [db_rooms db_heap db_tasks]. destruct (find_room rid (db_rooms s)) as [r|] eqn:F; [|reflexivity]. specialize (U r F). unfold get_room in *. cbn [db_heap]. rewrite U. reflexivity.
Qed.
Lemma run_snoc oc s tk i r q h rs : nth r h room_empty = room_empty -> s = {| db_rooms := rs; db_heap := h; db_tasks := tk ++ [TRoom i r q] |} ->
  run_task oc (length tk) s = match q with
    | RSub last => match start_at oc last with
        | Some next => ({| db_rooms := rs; db_heap := upd r (set_subs inc16) h; db_tasks := tk ++ [TReady r next] |}, [OJoined (length tk) i r last])
        | None => ({| db_rooms := rs; db_heap := upd r (set_subs inc16) h; db_tasks := tk ++ [TEnd] |}, [OJoinPanic (length tk) r]) end
    | RIssue => ({| db_rooms := rs; db_heap := upd r (fun r => snd (issue_unique_idx r)) h; db_tasks := tk ++ [TEnd] |}, [OIssued (length tk) i r 1])
    | RPub m => ({| db_rooms := rs; db_heap := upd r (publish m) h; db_tasks := tk ++ [TEnd] |}, [OPublished (length tk) i r m]) end.
Proof.
  intros E ->. unfold run_task. cbn [db_tasks]. rewrite app_nth2, Nat.sub_diag by lia. cbn [nth]. unfold set_task, set_room, get_room. cbn [db_rooms db_heap db_tasks].
  destruct q as [last| |m]; [destruct (start_at oc last)|cbn [issue_unique_idx]|]; rewrite ?upd_snoc, ?E; reflexivity.
Qed.
Lemma nth_snoc {A} (l : list A) x d : nth (length l) (l ++ [x]) d = x.
Proof. rewrite app_nth2, Nat.sub_diag by lia. reflexivity. Qed.

Theorem C68_unwatched_refuted : forall oc l s tr rid, exec oc db_empty l = (s, tr) -> unwatched rid s ->
  let '(s1, o1) := issue_alone oc rid s in let '(s2, o2) := issue_alone oc rid s1 in
  exists t1 t2 r1 r2, o1 = [OIssued t1 rid r1 1] /\ o2 = [OIssued t2 rid r2 1] /\ t1 <> t2.
Proof.
  intros oc l s tr rid _ U.
  assert (K : forall s, unwatched rid s -> exists s', issue_alone oc rid s = (s', [OIssued (length (db_tasks s)) rid (length (db_heap s)) 1]) /\ unwatched rid s' /\ length (db_tasks s') = S (length (db_tasks s))).
  { clear. intros s U. unfold issue_alone. change [Arrive rid RIssue; Run (length (db_tasks s)); Run (length (db_tasks s)); Run (length (db_tasks s))] with
      ([Arrive rid RIssue; Run (length (db_tasks s)); Run (length (db_tasks s))] ++ [Run (length (db_tasks s))]).
    rewrite exec_app, serve_lonely by auto. cbn [exec step]. rewrite (run_snoc oc _ (db_tasks s) rid (length (db_heap s)) RIssue (db_heap s ++ [room_empty]) ((rid, length (db_heap s)) :: db_rooms s)) by (rewrite ?nth_snoc; reflexivity).
    eexists. split; [reflexivity|]. split; [|cbn [db_tasks]; rewrite app_length; cbn; lia].
    intros ref. cbn [db_rooms find_room]. rewrite String.eqb_refl. intros [= <-]. unfold get_room. cbn [db_heap]. rewrite upd_snoc, nth_snoc. reflexivity. }
  destruct (K s U) as (s1 & E1 & U1 & L1). rewrite E1. destruct (K s1 U1) as (s2 & E2 & _). rewrite E2. rewrite L1. repeat eexists. lia.
Qed.
Print Assumptions C68_unwatched_refuted.
Example C68_unwatched_example : unwatched "r" db_empty /\ snd (issue_alone true "r" db_empty) = [OIssued 0 "r" 0 1] /\
  snd (issue_alone true "r" (fst (issue_alone true "r" db_empty))) = [OIssued 1 "r" 1 1].
Proof. split; [discriminate|vm_compute; auto]. Qed.

(** * C69 and C70, the part that holds: while somebody keeps watching the room a room id stands for, every request for
    that id arriving from then on is served in this room, and so a subscriber starting from the beginning gets
    everything published there, also what was published before it came. *)
Theorem C70_one_room_partial : forall oc l1 s1 tr1 l2 s2 tr2 rid ref,
  exec oc db_empty l1 = (s1, tr1) -> exec oc s1 l2 = (s2, tr2) -> find_room rid (db_rooms s1) = Some ref ->
  (forall p q, l2 = p ++ q -> 0 < watchers ref (tr1 ++ snd (exec oc s1 p)) + leaked ref (tr1 ++ snd (exec oc s1 p)) < 65536) ->
  forall t, (arrivals l1 <= t)%nat -> forall r,
    (forall last, In (OJoined t rid r last) tr2 -> r = ref) /\ (forall i, In (OIssued t rid r i) tr2 -> r = ref) /\ (forall m, In (OPublished t rid r m) tr2 -> r = ref).
Proof.
  intros oc l1 s1 tr1 l2 s2 tr2 rid ref E1 E2 F W t T r. pose proof (reach_minv _ _ _ _ E1) as M.
  assert (NL : length (db_tasks s1) = arrivals l1) by (pose proof (tasks_arrivals oc l1 db_empty) as Q; rewrite E1 in Q; exact Q).
  assert (ST : steady rid ref (arrivals l1) s1).
  { constructor; [exact F| |lia]. intros u a b U Q. rewrite nth_overflow in Q by lia. discriminate. }
  pose proof (steady_exec oc rid ref (arrivals l1) l2 s1 tr1 M ST W) as Q. rewrite E2 in Q. destruct Q as [_ Q]. rewrite Forall_forall in Q.
  split; [|split]; intros x I; exact (Q _ I T eq_refl).
Qed.
Print Assumptions C70_one_room_partial.
Theorem C69_kept_partial : forall oc l1 s1 tr1 l2 s2 tr2 rid ref,
  exec oc db_empty l1 = (s1, tr1) -> exec oc s1 l2 = (s2, tr2) -> find_room rid (db_rooms s1) = Some ref ->
  (forall p q, l2 = p ++ q -> 0 < watchers ref (tr1 ++ snd (exec oc s1 p)) + leaked ref (tr1 ++ snd (exec oc s1 p)) < 65536) ->
  (oc = true \/ Z.of_nat (length (pubs ref (tr1 ++ tr2))) <= 65535) ->
  forall t r, (arrivals l1 <= t)%nat -> In (OJoined t rid r None) tr2 ->
  gots t (tr1 ++ tr2) = numbered 0 (firstn (length (gots t (tr1 ++ tr2))) (pubs ref tr1 ++ pubs ref tr2)).
Proof.
  intros oc l1 s1 tr1 l2 s2 tr2 rid ref E1 E2 F W B t r T J.
  destruct (C70_one_room_partial _ _ _ _ _ _ _ _ _ E1 E2 F W t T r) as [R _]. specialize (R _ J). subst r.
  assert (E : exec oc db_empty (l1 ++ l2) = (s2, tr1 ++ tr2)) by (rewrite exec_app, E1, E2; reflexivity).
  destruct (C67_delivery _ _ _ _ E t rid ref None ltac:(apply in_or_app; right; exact J)) as [Q _].
  - destruct B as [B|B]; [left; exact B|right; split; [exact B|discriminate]].
  - rewrite <- pubs_app. exact Q.
Qed.
Print Assumptions C69_kept_partial.
(** A message published before the second subscriber arrives, while the first one watches *)
Definition exl1 : list act := [Arrive "r" (RSub None); Run 0; Run 0; Run 0; Arrive "r" (RPub "a"); Run 1; Run 1].
Definition exl2 : list act := [Arrive "r" (RSub None); Run 2; Run 2; Run 2].
Example C69_example : let s1 := fst (exec true db_empty exl1) in let tr1 := snd (exec true db_empty exl1) in
  find_room "r" (db_rooms s1) = Some 0%nat /\ arrivals exl1 = 2%nat /\
  forallb (fun k => (watchers 0 (tr1 ++ snd (exec true s1 (firstn k exl2))) + leaked 0 (tr1 ++ snd (exec true s1 (firstn k exl2))) =? (if Nat.ltb k 3 then 1 else 2))) (seq 0 5) = true /\
  snd (exec true s1 exl2) = [OJoined 2 "r" 0 None; OGot 2 0 0 "a"].
Proof. vm_compute. auto. Qed.

(** C69 is false: a message accepted while nobody watches is thrown away when the next subscriber comes. *)
Theorem C69_lost_refuted : forall oc l s tr rid m, exec oc db_empty l = (s, tr) -> unwatched rid s ->
  let t := length (db_tasks s) in
  exists r r' s', exec oc s [Arrive rid (RPub m); Run t; Run t; Run t; Arrive rid (RSub None); Run (S t); Run (S t); Run (S t)] =
      (s', [OPublished t rid r m; OJoined (S t) rid r' None]) /\ r <> r' /\
    (* the new subscriber waits, and goes on waiting however often it is run *)
    forall k, snd (exec oc s' (repeat (Run (S t)) k)) = [].
Proof.
  intros oc l s tr rid m _ U t. set (n := length (db_heap s)).
  set (s1 := {| db_rooms := (rid, n) :: db_rooms s; db_heap := db_heap s ++ [publish m room_empty]; db_tasks := db_tasks s ++ [TEnd] |}).
  assert (P : exec oc s [Arrive rid (RPub m); Run t; Run t; Run t] = (s1, [OPublished t rid n m])).
  { change [Arrive rid (RPub m); Run t; Run t; Run t] with ([Arrive rid (RPub m); Run t; Run t] ++ [Run t]). unfold t. rewrite exec_app, serve_lonely by auto. cbn [exec step].
    rewrite (run_snoc oc _ (db_tasks s) rid n (RPub m) (db_heap s ++ [room_empty]) ((rid, n) :: db_rooms s)) by (unfold n; rewrite ?nth_snoc; reflexivity). unfold n. rewrite upd_snoc. reflexivity. }
  assert (U1 : unwatched rid s1).
  { intros ref. unfold s1. cbn [db_rooms find_room]. rewrite String.eqb_refl. intros [= <-]. unfold get_room. cbn [db_heap]. unfold n. rewrite nth_snoc. reflexivity. }
  assert (L1 : length (db_tasks s1) = S t) by (unfold s1, t; cbn [db_tasks]; rewrite app_length; cbn; lia).
  assert (L2 : length (db_heap s1) = S n) by (unfold s1, n; cbn [db_heap]; rewrite app_length; cbn; lia).
  set (s2 := {| db_rooms := (rid, S n) :: db_rooms s1; db_heap := db_heap s1 ++ [set_subs inc16 room_empty]; db_tasks := db_tasks s1 ++ [TReady (S n) 0] |}).
  assert (Q : exec oc s1 [Arrive rid (RSub None); Run (S t); Run (S t); Run (S t)] = (s2, [OJoined (S t) rid (S n) None])).
  { change [Arrive rid (RSub None); Run (S t); Run (S t); Run (S t)] with ([Arrive rid (RSub None); Run (S t); Run (S t)] ++ [Run (S t)]). rewrite <- L1. rewrite exec_app, serve_lonely by auto. cbn [exec step].
    rewrite (run_snoc oc _ (db_tasks s1) rid (length (db_heap s1)) (RSub None) (db_heap s1 ++ [room_empty]) ((rid, length (db_heap s1)) :: db_rooms s1)) by (rewrite ?nth_snoc; reflexivity).
    cbn [start_at]. rewrite upd_snoc, L2. reflexivity. }
  exists n, (S n), s2. split; [|split; [lia|]].
  - change [Arrive rid (RPub m); Run t; Run t; Run t; Arrive rid (RSub None); Run (S t); Run (S t); Run (S t)] with
      ([Arrive rid (RPub m); Run t; Run t; Run t] ++ [Arrive rid (RSub None); Run (S t); Run (S t); Run (S t)]). rewrite exec_app, P, Q. reflexivity.
  - assert (G : rm_msgs (get_room (S n) s2) = [] /\ rm_notify (get_room (S n) s2) = 0%nat) by (unfold get_room, s2; cbn [db_heap]; rewrite <- L2, nth_snoc; auto).
    destruct G as [G1 G2].
    assert (LT : (S t < length (db_tasks s2))%nat) by (unfold s2; cbn [db_tasks]; rewrite app_length, L1; cbn; lia).
    assert (W : forall k, exec oc (set_task (S t) (TWaiting (S n) 0 0) s2) (repeat (Run (S t)) k) = (set_task (S t) (TWaiting (S n) 0 0) s2, [])).
    { induction k as [|k IH]; cbn [repeat exec step]; [reflexivity|]. unfold run_task. rewrite set_task_nth by exact LT. rewrite get_set_task, G2. cbn [Nat.ltb Nat.leb]. rewrite IH. reflexivity. }
    intros [|k]; cbn [repeat exec step]; [reflexivity|]. unfold run_task.
    replace (nth (S t) (db_tasks s2) TEnd) with (TReady (S n) 0) by (unfold s2; cbn [db_tasks]; rewrite <- L1, nth_snoc; reflexivity).
    rewrite G1. cbn [Z.to_nat nth_error]. rewrite G2, W. reflexivity.
Qed.
Print Assumptions C69_lost_refuted.
Example C69_lost_example : unwatched "r" db_empty. Proof. discriminate. Qed.

(** C70 is false: two subscribers whose requests overlap can end up in different rooms of the same id; what is published
    afterwards reaches only one of them, although both are connected. *)
Theorem C70_race_refuted : exists l s tr, exec true db_empty l = (s, tr) /\
  exists r0 r1 m, In (OJoined 0 "r" r0 None) tr /\ In (OJoined 1 "r" r1 None) tr /\ ~ gone 0 tr /\ ~ gone 1 tr /\
    In (OPublished 2 "r" r1 m) tr /\ gots 1 tr = [(0, m)] /\
    forall k, gots 0 (tr ++ snd (exec true s (repeat (Run 0) k))) = [].
Proof.
  set (l := [Arrive "r" (RSub None); Arrive "r" (RSub None); Run 0; Run 0; Run 1; Run 1; Run 0; Run 1; Arrive "r" (RPub "a"); Run 2; Run 2; Run 1; Run 0]).
  exists l, (fst (exec true db_empty l)), (snd (exec true db_empty l)). split; [apply surjective_pairing|].
  exists 0%nat, 1%nat, "a". set (e := exec true db_empty l).
  assert (TR : snd e = [OJoined 0 "r" 0 None; OJoined 1 "r" 1 None; OPublished 2 "r" 1 "a"; OGot 1 1 0 "a"]) by (vm_compute; reflexivity).
  rewrite TR. refine (conj (or_introl eq_refl) (conj (or_intror (or_introl eq_refl)) (conj _ (conj _ (conj (or_intror (or_intror (or_introl eq_refl))) (conj eq_refl _)))))).
  - intros [r [H|H]]; repeat (destruct H as [H|H]; [discriminate|]); exact H.
  - intros [r [H|H]]; repeat (destruct H as [H|H]; [discriminate|]); exact H.
  - assert (W : forall k, exec true (fst e) (repeat (Run 0) k) = (fst e, [])).
    { assert (R : run_task true 0 (fst e) = (fst e, [])) by (vm_compute; reflexivity).
      induction k as [|k IH]; cbn [repeat exec step]; [reflexivity|]. rewrite R, IH. reflexivity. }
    intros k. rewrite W. reflexivity.
Qed.
Print Assumptions C70_race_refuted.

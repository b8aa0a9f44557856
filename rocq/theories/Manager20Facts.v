(** Consequences of the relay's invariant used by the property file. *)
From Coq Require Import String ZArith Bool Lia List.
From Verif Require Import Manager20 M20Spec Manager20Proofs.
Import ListNotations.
Open Scope Z_scope.

Lemma exec_app oc a : forall s b, exec oc s (a ++ b) = let '(s1, o1) := exec oc s a in let '(s2, o2) := exec oc s1 b in (s2, o1 ++ o2).
Proof.
  induction a as [|x a IH]; intros s b; cbn [app exec]; [destruct (exec oc s b); reflexivity|].
  destruct (step oc s x) as [s1 o1]. rewrite IH. destruct (exec oc s1 a) as [s2 o2]. destruct (exec oc s2 b) as [s3 o3]. rewrite app_assoc. reflexivity.
Qed.

(** * Delivery *)
Lemma joins_in t rid ref last tr : In (OJoined t rid ref last) tr -> In (rid, ref, last) (joins t tr).
Proof. intros H. apply in_flat_map. exists (OJoined t rid ref last). split; [exact H|]. rewrite Nat.eqb_refl. left. reflexivity. Qed.
Lemma joined_once oc s tr t rid ref last : MInv oc s tr -> In (OJoined t rid ref last) tr ->
  joins t tr = [(rid, ref, last)] /\ fed oc (pubs ref tr) last (gots t tr).
Proof.
  intros M H. apply joins_in in H. pose proof (mi_del _ _ _ M t) as D. unfold delivered in D.
  destruct (joins t tr) as [|[[a b] c] [|]]; cbn [In] in H; try contradiction. destruct H as [[= -> -> ->]|[]]. auto.
Qed.
Lemma start_no_wrap oc last st : start_at oc last = Some st -> 0 <= st -> (oc = true \/ last <> Some 65535) -> (forall i, last = Some i -> 0 <= i < 65536) -> Z.to_nat st = wanted_from last.
Proof.
  intros S P N G. unfold start_at, add16 in S. destruct last as [i|]; [|injection S as <-; reflexivity]. specialize (G i eq_refl).
  unfold wanted_from. destruct (Z.ltb_spec (i + 1) 65536); [injection S as <-; reflexivity|]. assert (i = 65535) by lia. subst i.
  destruct oc; [discriminate|]. destruct N as [N|N]; [discriminate|congruence].
Qed.

Lemma numbered_ext k (l : list string) (f : nat -> Z * string) n : n = length l ->
  (forall j, (j < n)%nat -> f j = (Z.of_nat (k + j), nth j l EmptyString)) -> map f (seq 0 n) = numbered k l.
Proof.
  intros -> H. unfold numbered. revert k f H. induction l as [|x l IH]; intros k f H; [reflexivity|].
  cbn [length seq map combine]. f_equal; [rewrite (H 0%nat) by (cbn; lia); rewrite Nat.add_0_r; reflexivity|].
  rewrite <- seq_shift, map_map. apply (IH (S k) (fun j => f (S j))). intros j J. rewrite H by (cbn; lia). cbn [nth]. do 2 f_equal. lia.
Qed.

Lemma nth_firstn_lt {A} n j (l : list A) d : (j < n)%nat -> nth j (firstn n l) d = nth j l d.
Proof. revert j l. induction n as [|n IH]; intros j l H; [lia|]. destruct l as [|x l]; [reflexivity|]. destruct j as [|j]; cbn [firstn nth]; [reflexivity|]. apply IH. lia. Qed.
Lemma nth_skipn_plus {A} k j (l : list A) d : nth j (skipn k l) d = nth (k + j) l d.
Proof. revert l. induction k as [|k IH]; intros l; [reflexivity|]. destruct l as [|x l]; cbn [skipn Nat.add nth]; [destruct j; reflexivity|]. apply IH. Qed.

Lemma fed_exact oc P last g : fed oc P last g -> (oc = true \/ Z.of_nat (length P) <= 65535 /\ last <> Some 65535) ->
  let k := wanted_from last in g = numbered k (firstn (length g) (skipn k P)) /\ (k + length g <= length P \/ g = [])%nat /\
    exists st, start_at oc last = Some st /\ Z.to_nat st = k /\ 0 <= st < 65536.
Proof.
  intros (st & S1 & S2 & E & B & O & G') N. cbn zeta.
  assert (G : forall i, last = Some i -> 0 <= i < 65536).
  { intros i ->. cbn [good_req] in G'. apply andb_prop in G'. destruct G' as [G1 G2]. apply Z.leb_le in G1. apply Z.ltb_lt in G2. lia. }
  assert (K : Z.to_nat st = wanted_from last) by (apply (start_no_wrap oc); auto; tauto).
  rewrite <- K. set (k := Z.to_nat st). assert (SK : st = Z.of_nat k) by (unfold k; lia).
  assert (NW : forall j, (j < length g)%nat -> st + Z.of_nat j < 65536).
  { destruct N as [N|[N _]]; [intros j J; specialize (O N); lia|].
    intros j. induction j as [|j IH]; intros J; [lia|]. specialize (IH ltac:(lia)). specialize (B j ltac:(lia)). rewrite Z.mod_small in B by lia. lia. }
  assert (L : (k + length g <= length P \/ g = [])%nat).
  { destruct g as [|x g]; [auto|]. left. cbn [length] in *. specialize (B (length g) ltac:(lia)). specialize (NW (length g) ltac:(lia)). rewrite Z.mod_small in B by lia. lia. }
  split; [|split; [exact L|exists st; auto]]. rewrite E at 1. apply numbered_ext.
  - rewrite firstn_length, skipn_length. destruct L as [L|L]; [lia|]. rewrite L. cbn [length]. lia.
  - intros j J. unfold event. specialize (NW j J). rewrite Z.mod_small by lia. f_equal; [lia|].
    rewrite nth_firstn_lt by exact J. rewrite nth_skipn_plus. f_equal. lia.
Qed.

(** * A subscriber with something left to read gets it after at most two steps. *)
Lemma next_step oc s tr t rid ref last : MInv oc s tr -> In (OJoined t rid ref last) tr -> ~ gone t tr ->
  exists st, start_at oc last = Some st /\
  let id := (st + Z.of_nat (length (gots t tr))) mod 65536 in
  (exists x, nth t (db_tasks s) TEnd = x /\ (x = TReady ref id \/ exists seen, x = TWaiting ref id seen /\ (seen <= Z.to_nat id)%nat)) /\ (t < length (db_tasks s))%nat.
Proof.
  intros M J NG. destruct (joined_once _ _ _ _ _ _ _ M J) as [JO _]. pose proof (mi_task _ _ _ M t) as K. pose proof (mi_new _ _ _ M t) as NW.
  destruct (Nat.lt_ge_cases t (length (db_tasks s))) as [T|T]; [|apply NW in T; destruct T as [T _]; rewrite JO in T; discriminate].
  destruct (nth t (db_tasks s) TEnd) as [rid' q|rid' q|rid' ref' q|ref' next|ref' next seen|] eqn:E; cbn [task_ok] in K;
    try (destruct K as [K _]; rewrite JO in K; discriminate).
  - destruct K as (a & b & st & K1 & K2 & K3). rewrite JO in K1. injection K1 as <- <- <-. exists st. split; [exact K2|]. cbn zeta. rewrite <- K3.
    split; [|exact T]. eexists. split; [reflexivity|]. left. reflexivity.
  - destruct K as ((a & b & st & K1 & K2 & K3) & K4). rewrite JO in K1. injection K1 as <- <- <-. exists st. split; [exact K2|]. cbn zeta. rewrite <- K3.
    split; [|exact T]. eexists. split; [reflexivity|]. right. exists seen. auto.
  - exfalso. destruct K as [K|K]; [rewrite JO in K; discriminate|contradiction].
Qed.

Lemma get_set_task t x s r : get_room r (set_task t x s) = get_room r s. Proof. reflexivity. Qed.
Lemma set_task_nth t x s : (t < length (db_tasks s))%nat -> nth t (db_tasks (set_task t x s)) TEnd = x.
Proof. intros T. cbn [set_task db_tasks]. rewrite upd_nth, Nat.eqb_refl. apply Nat.ltb_lt in T. rewrite T. reflexivity. Qed.

Lemma ready_step oc s tr t ref id m : MInv oc s tr -> (t < length (db_tasks s))%nat -> nth t (db_tasks s) TEnd = TReady ref id -> 0 <= id < 65536 -> (oc = true -> id < 65535) ->
  nth_error (pubs ref tr) (Z.to_nat id) = Some m ->
  exists s', run_task oc t s = (s', [OGot t ref id m]).
Proof.
  intros M T E B O N. unfold run_task. rewrite E. destruct (mi_rooms _ _ _ M ref) as [A1 _ _ _]. rewrite A1, N. unfold add16.
  destruct (Z.ltb_spec (id + 1) 65536); [eexists; reflexivity|]. destruct oc; [specialize (O eq_refl); lia|eexists; reflexivity].
Qed.

Lemma progress oc s tr t rid ref last : MInv oc s tr -> In (OJoined t rid ref last) tr -> ~ gone t tr ->
  (oc = true \/ Z.of_nat (length (pubs ref tr)) <= 65535 /\ last <> Some 65535) ->
  let k := (wanted_from last + length (gots t tr))%nat in
  (k < length (pubs ref tr))%nat -> Z.of_nat k < 65535 ->
  exists m rest, nth_error (pubs ref tr) k = Some m /\ gots t (snd (exec oc s [Run t; Run t])) = (Z.of_nat k, m) :: rest.
Proof.
  intros M J NG W k KL KB. destruct (next_step _ _ _ _ _ _ _ M J NG) as (st & S & (x & E & X) & T).
  destruct (joined_once _ _ _ _ _ _ _ M J) as [JO F]. destruct (fed_exact _ _ _ _ F W) as (_ & _ & st' & S' & SK & SB). assert (st' = st) by congruence. subst st'.
  assert (ID : (st + Z.of_nat (length (gots t tr))) mod 65536 = Z.of_nat k) by (rewrite Z.mod_small; unfold k; lia). rewrite ID in X.
  destruct (nth_error (pubs ref tr) k) as [m|] eqn:N; [|apply nth_error_None in N; lia]. exists m.
  assert (N' : nth_error (pubs ref tr) (Z.to_nat (Z.of_nat k)) = Some m) by (rewrite Nat2Z.id; exact N).
  destruct X as [X|(seen & X & SE)]; rewrite X in E.
  - destruct (ready_step oc s tr t ref (Z.of_nat k) m M T E ltac:(lia) ltac:(lia) N') as [s' R].
    exists (gots t (snd (exec oc s' [Run t]))). split; [reflexivity|]. cbn [exec step]. rewrite R. destruct (run_task oc t s') as [s2 o2]. cbn [snd].
    rewrite gots_app. unfold gots at 1. cbn [flat_map app]. rewrite Nat.eqb_refl. reflexivity.
  - assert (R1 : run_task oc t s = (set_task t (TReady ref (Z.of_nat k)) s, [])).
    { unfold run_task. rewrite E. destruct (mi_rooms _ _ _ M ref) as [_ A2 _ _]. rewrite A2.
      replace (Nat.ltb seen (length (pubs ref tr))) with true by (symmetry; apply Nat.ltb_lt; lia). reflexivity. }
    pose proof (run_minv oc s tr t M) as M'. rewrite R1, app_nil_r in M'.
    destruct (ready_step oc _ tr t ref (Z.of_nat k) m M' ltac:(cbn [set_task db_tasks]; rewrite upd_length; exact T) ltac:(apply set_task_nth; exact T) ltac:(lia) ltac:(lia) N') as [s' R].
    exists []. split; [reflexivity|]. cbn [exec step]. rewrite R1, R. cbn [snd app]. unfold gots. cbn [flat_map app]. rewrite Nat.eqb_refl. reflexivity.
Qed.

(** * While a room is watched, every new request for its id is served in it. *)
Definition task_rid (x : task) : option string := match x with TLookup i _ | TCreate i _ | TRoom i _ _ => Some i | _ => None end.
Definition serves (rid : string) (ref : nat) (o : obs) : Prop :=
  match o with OJoined _ i r _ | OIssued _ i r _ | OPublished _ i r _ => i = rid -> r = ref | _ => True end.
Definition obs_task (o : obs) : nat :=
  match o with OJoined u _ _ _ | OGot u _ _ _ | OIssued u _ _ _ | OPublished u _ _ _ | OLeft u _ | OJoinPanic u _ | OReadPanic u _ => u end.
Definition watched (ref : nat) (tr : list obs) : Prop := 0 < watchers ref tr + leaked ref tr < 65536.
Lemma watched_open oc s tr ref : MInv oc s tr -> watched ref tr -> is_abandoned (get_room ref s) = false.
Proof. intros M W. unfold is_abandoned. rewrite (ro_subs _ _ _ (mi_rooms _ _ _ M ref)). unfold watched in W. rewrite Z.mod_small by lia. apply Z.eqb_neq. lia. Qed.

Record steady (rid : string) (ref n0 : nat) (s : db) : Prop := {
  sd_map : find_room rid (db_rooms s) = Some ref;
  sd_tasks : forall t r q, (n0 <= t)%nat -> nth t (db_tasks s) TEnd = TRoom rid r q -> r = ref;
  sd_len : (n0 <= length (db_tasks s))%nat }.

Lemma steady_set rid ref n0 s t x f : steady rid ref n0 s -> (forall r q, (n0 <= t)%nat -> x = TRoom rid r q -> r = ref) ->
  steady rid ref n0 (set_task t x (set_room f (fun r => r) s)).
Proof.
  intros [A B D] X. rewrite set_room_id. constructor; cbn [set_task db_rooms db_heap db_tasks]; [exact A| |rewrite upd_length; exact D].
  intros u r q U. rewrite upd_nth. destruct (Nat.eqb_spec u t) as [->|ZN]; cbn [andb]; [destruct (Nat.ltb t (length (db_tasks s)))|]; eauto.
Qed.
Lemma steady_heap rid ref n0 s h : steady rid ref n0 s -> steady rid ref n0 {| db_rooms := db_rooms s; db_heap := h; db_tasks := db_tasks s |}.
Proof. intros [A B D]. constructor; auto. Qed.
Lemma steady_task rid ref n0 s t x : steady rid ref n0 s -> (forall r q, (n0 <= t)%nat -> x = TRoom rid r q -> r = ref) -> steady rid ref n0 (set_task t x s).
Proof. intros H X. rewrite <- (set_room_id 0 s). apply steady_set; assumption. Qed.

Lemma steady_step oc rid ref n0 s tr a : MInv oc s tr -> watched ref tr -> steady rid ref n0 s ->
  let '(s', o) := step oc s a in steady rid ref n0 s' /\ Forall (fun x => (n0 <= obs_task x)%nat -> serves rid ref x) o.
Proof.
  intros M W H. pose proof (watched_open _ _ _ _ M W) as OP.
  assert (SR : forall r f, steady rid ref n0 (set_room r f s)) by (intros r f; apply steady_heap; exact H).
  destruct a as [i q|t|t]; cbn [step].
  - destruct (good_req q); [|auto]. split; [|constructor]. destruct H as [A B D]. constructor; cbn [db_rooms db_heap db_tasks]; [exact A| |rewrite app_length; lia].
    intros t r q' T. destruct (Nat.lt_ge_cases t (length (db_tasks s))) as [L|L]; [rewrite app_nth1 by exact L; eauto|].
    rewrite app_nth2 by exact L. destruct (t - length (db_tasks s))%nat as [|[|]]; discriminate.
  - unfold run_task. destruct (nth t (db_tasks s) TEnd) as [i q|i q|i r q|r next|r next seen|] eqn:E.
    + unfold lookup_step. destruct (find_room i (db_rooms s)) as [r|] eqn:FR; [destruct (is_abandoned (get_room r s))|]; (split; [|constructor]); apply steady_task; auto; try discriminate.
      intros r' q' _ [= -> -> ->]. rewrite (sd_map _ _ _ _ H) in FR. congruence.
    + unfold create_step. set (s1 := {| db_rooms := (i, length (db_heap s)) :: db_rooms s; db_heap := db_heap s ++ [room_empty]; db_tasks := db_tasks s |}).
      assert (N : i <> rid -> steady rid ref n0 (set_task t (TRoom i (length (db_heap s)) q) s1)).
      { intros NI. apply steady_task.
        - destruct H as [A B D]. constructor; cbn [s1 db_rooms db_tasks find_room]; auto. destruct (String.eqb_spec rid i) as [?ZE|?ZN]; [congruence|exact A].
        - intros r' q' _ [= -> _ _]. contradiction. }
      destruct (find_room i (db_rooms s)) as [r|] eqn:FR.
      * destruct (negb (is_abandoned (get_room r s))) eqn:AB.
        -- split; [|constructor]. apply steady_task; auto. intros r' q' _ [= -> -> ->]. rewrite (sd_map _ _ _ _ H) in FR. congruence.
        -- split; [|constructor]. apply N. intros ->. rewrite (sd_map _ _ _ _ H) in FR. injection FR as <-. rewrite OP in AB. discriminate.
      * split; [|constructor]. apply N. intros ->. rewrite (sd_map _ _ _ _ H) in FR. discriminate.
    + destruct q as [last| |m].
      * destruct (start_at oc last) as [st|]; (split; [apply steady_task; [apply SR|discriminate]|]); repeat constructor.
        cbn [serves obs_task]. intros T ->. exact (sd_tasks _ _ _ _ H _ _ _ T E).
      * cbn [issue_unique_idx]. split; [apply steady_task; [apply SR|discriminate]|]. repeat constructor. cbn [serves obs_task]. intros T ->. exact (sd_tasks _ _ _ _ H _ _ _ T E).
      * split; [apply steady_task; [apply SR|discriminate]|]. repeat constructor. cbn [serves obs_task]. intros T ->. exact (sd_tasks _ _ _ _ H _ _ _ T E).
    + destruct (nth_error _ _); [destruct (add16 oc next)|]; (split; [apply steady_task; auto; discriminate|]); repeat constructor.
    + destruct (Nat.ltb _ _); (split; [|constructor]); auto. apply steady_task; auto; discriminate.
    + split; [exact H|constructor].
  - unfold cancel_task. destruct (nth t (db_tasks s) TEnd); (split; [apply steady_task; auto; discriminate|]); repeat constructor.
Qed.

Lemma steady_exec oc rid ref n0 l : forall s tr, MInv oc s tr -> steady rid ref n0 s ->
  (forall p q, l = p ++ q -> watched ref (tr ++ snd (exec oc s p))) ->
  let '(s', o) := exec oc s l in steady rid ref n0 s' /\ Forall (fun x => (n0 <= obs_task x)%nat -> serves rid ref x) o.
Proof.
  induction l as [|a l IH]; intros s tr M H W; cbn [exec]; [auto|].
  pose proof (W [] (a :: l) eq_refl) as W0. cbn [exec snd] in W0. rewrite app_nil_r in W0.
  pose proof (steady_step oc rid ref n0 s tr a M W0 H) as Q. pose proof (step_inv oc s tr a M) as M'. destruct (step oc s a) as [s1 o1] eqn:E. destruct Q as [Q1 Q2].
  assert (W' : forall p q, l = p ++ q -> watched ref ((tr ++ o1) ++ snd (exec oc s1 p))).
  { intros p q ->. specialize (W (a :: p) q eq_refl). cbn [exec] in W. rewrite E in W. destruct (exec oc s1 p) as [s2 o2]. cbn [snd] in *. rewrite <- app_assoc. exact W. }
  specialize (IH s1 (tr ++ o1) M' Q1 W'). destruct (exec oc s1 l) as [s2 o2]. destruct IH as [I1 I2]. split; [exact I1|]. apply Forall_app. auto.
Qed.

Lemma tasks_arrivals oc l : forall s, length (db_tasks (fst (exec oc s l))) = (length (db_tasks s) + arrivals l)%nat.
Proof.
  induction l as [|a l IH]; intros s; cbn [exec]; [cbn; lia|].
  assert (Q : length (db_tasks (fst (step oc s a))) = (length (db_tasks s) + arrivals [a])%nat).
  { destruct a as [i q|t|t]; cbn [step].
    - unfold arrivals. cbn [filter]. destruct (good_req q); cbn [fst db_tasks length]; [rewrite app_length; cbn; lia|lia].
    - assert (U : length (db_tasks (fst (run_task oc t s))) = length (db_tasks s)); [|rewrite U; cbn; lia].
      unfold run_task, create_step. destruct (nth t (db_tasks s) TEnd) as [i q|i q|i r q|r next|r next seen|].
      + destruct (lookup_step i s); apply upd_length.
      + destruct (find_room i (db_rooms s)) as [r|]; [destruct (negb _)|]; apply upd_length.
      + destruct q as [last| |m]; [destruct (start_at oc last)|cbn [issue_unique_idx]|]; apply upd_length.
      + destruct (nth_error _ _); [destruct (add16 oc next)|]; apply upd_length.
      + destruct (Nat.ltb _ _); [apply upd_length|reflexivity].
      + reflexivity.
    - assert (U : length (db_tasks (fst (cancel_task t s))) = length (db_tasks s)); [|rewrite U; cbn; lia].
      unfold cancel_task. destruct (nth t (db_tasks s) TEnd); apply upd_length. }
  destruct (step oc s a) as [s1 o1]. cbn [fst] in Q. specialize (IH s1). destruct (exec oc s1 l) as [s2 o2]. cbn [fst] in *. rewrite IH, Q.
  unfold arrivals. change (a :: l) with ([a] ++ l). rewrite filter_app, app_length. lia.
Qed.

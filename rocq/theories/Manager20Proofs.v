(** Invariant of the GG20 relay under every interleaving. *)
From Coq Require Import String ZArith Bool Lia List.
From Verif Require Import Manager20 M20Spec.
Import ListNotations.
Open Scope Z_scope.

(** * Lists *)
Lemma upd_length {A} k (f : A -> A) l : length (upd k f l) = length l.
Proof. revert k. induction l as [|x l IH]; intros [|k]; cbn; auto. Qed.
Lemma upd_nth {A} k j (f : A -> A) l d : nth j (upd k f l) d = if Nat.eqb j k && Nat.ltb k (length l) then f (nth j l d) else nth j l d.
Proof.
  revert k j. induction l as [|x l IH]; intros k j; cbn [upd length].
  - destruct k, j; cbn [nth]; try reflexivity; rewrite ?andb_false_r; reflexivity.
  - destruct k as [|k], j as [|j]; cbn [nth upd]; try reflexivity.
    rewrite IH. cbn [Nat.eqb]. reflexivity.
Qed.
Lemma pubs_app r a b : pubs r (a ++ b) = pubs r a ++ pubs r b. Proof. apply flat_map_app. Qed.
Lemma issued_app r a b : issued r (a ++ b) = issued r a ++ issued r b. Proof. apply flat_map_app. Qed.
Lemma gots_app r a b : gots r (a ++ b) = gots r a ++ gots r b. Proof. apply flat_map_app. Qed.
Lemma joins_app r a b : joins r (a ++ b) = joins r a ++ joins r b. Proof. apply flat_map_app. Qed.
Lemma sum_app {A} (f : A -> Z) a b : fold_right Z.add 0 (map f (a ++ b)) = fold_right Z.add 0 (map f a) + fold_right Z.add 0 (map f b).
Proof. induction a as [|x a IH]; cbn [app map fold_right]; [|rewrite IH]; lia. Qed.
Lemma watchers_app r a b : watchers r (a ++ b) = watchers r a + watchers r b. Proof. apply sum_app. Qed.
Lemma leaked_app r a b : leaked r (a ++ b) = leaked r a + leaked r b. Proof. apply sum_app. Qed.

(** * The invariant *)
Definition holding (ref : nat) (x : task) : Z := match x with TReady r _ | TWaiting r _ _ => if Nat.eqb r ref then 1 else 0 | _ => 0 end.
Definition holders (ref : nat) (l : list task) : Z := fold_right Z.add 0 (map (holding ref) l).
Definition task_ref (x : task) : option nat := match x with TRoom _ r _ | TReady r _ | TWaiting r _ _ => Some r | _ => None end.
Definition task_req (x : task) : option req := match x with TLookup _ q | TCreate _ q | TRoom _ _ q => Some q | _ => None end.

Definition event (P : list string) (st : Z) (j : nat) : Z * string :=
  let id := (st + Z.of_nat j) mod 65536 in (id, nth (Z.to_nat id) P EmptyString).
Definition fed (oc : bool) (P : list string) (last : option Z) (g : list (Z * string)) : Prop :=
  exists st, start_at oc last = Some st /\ 0 <= st < 65536 /\ g = map (event P st) (seq 0 (length g)) /\
    (forall j, (j < length g)%nat -> (st + Z.of_nat j) mod 65536 < Z.of_nat (length P)) /\
    (oc = true -> st + Z.of_nat (length g) <= 65535) /\ good_req (RSub last) = true.
Definition delivered (oc : bool) (t : nat) (tr : list obs) : Prop :=
  match joins t tr with
  | [] => gots t tr = []
  | [(_, ref, last)] => fed oc (pubs ref tr) last (gots t tr)
  | _ => False
  end.
Definition task_ok (oc : bool) (tr : list obs) (t : nat) (x : task) : Prop :=
  match x with
  | TLookup _ q | TCreate _ q | TRoom _ _ q => joins t tr = [] /\ good_req q = true
  | TReady ref next => exists rid last st, joins t tr = [(rid, ref, last)] /\ start_at oc last = Some st /\ next = (st + Z.of_nat (length (gots t tr))) mod 65536
  | TWaiting ref next seen =>
      (exists rid last st, joins t tr = [(rid, ref, last)] /\ start_at oc last = Some st /\ next = (st + Z.of_nat (length (gots t tr))) mod 65536) /\
      (seen <= Z.to_nat next)%nat
  | TEnd => joins t tr = [] \/ gone t tr
  end.
Record room_ok (tr : list obs) (ref : nat) (r : room) : Prop := {
  ro_msgs : rm_msgs r = pubs ref tr;
  ro_notify : rm_notify r = length (pubs ref tr);
  ro_next : rm_next r = (1 + Z.of_nat (length (issued ref tr))) mod 65536;
  ro_subs : rm_subs r = (watchers ref tr + leaked ref tr) mod 65536 }.
Record MInv (oc : bool) (s : db) (tr : list obs) : Prop := {
  mi_rooms : forall ref, room_ok tr ref (get_room ref s);
  mi_issued : forall ref, issued ref tr = map (fun k => Z.of_nat k mod 65536) (seq 1 (length (issued ref tr)));
  mi_watch : forall ref, watchers ref tr = holders ref (db_tasks s);
  mi_refs : forall t r, task_ref (nth t (db_tasks s) TEnd) = Some r -> (r < length (db_heap s))%nat;
  mi_map : forall rid r, find_room rid (db_rooms s) = Some r -> (r < length (db_heap s))%nat;
  mi_new : forall t, (length (db_tasks s) <= t)%nat -> joins t tr = [] /\ gots t tr = [];
  mi_task : forall t, task_ok oc tr t (nth t (db_tasks s) TEnd);
  mi_del : forall t, delivered oc t tr }.

Lemma init_minv oc : MInv oc db_empty [].
Proof.
  constructor; intros; cbn; auto.
  - unfold get_room, db_empty. cbn [db_heap]. destruct ref; cbn; constructor; reflexivity.
  - destruct t; discriminate.
  - discriminate.
  - destruct t; left; reflexivity.
Qed.

(** * Preservation *)
Lemma holders_upd ref t f l : (t < length l)%nat -> holders ref (upd t f l) = holders ref l + holding ref (f (nth t l TEnd)) - holding ref (nth t l TEnd).
Proof.
  unfold holders. revert t. induction l as [|x l IH]; intros t H; cbn [length] in H; [lia|].
  destruct t as [|t]; cbn [upd map fold_right nth]; [lia|]. rewrite IH by lia. lia.
Qed.
Lemma fed_grow oc P Q last g : fed oc P last g -> fed oc (P ++ Q) last g.
Proof.
  intros (st & S1 & S2 & E & B & O). exists st. refine (conj S1 (conj S2 (conj _ (conj _ O)))).
  - rewrite E at 1. apply map_ext_in. intros j J. apply in_seq in J. unfold event. rewrite app_nth1; [reflexivity|].
    specialize (B j ltac:(lia)). pose proof (Z.mod_pos_bound (st + Z.of_nat j) 65536). lia.
  - intros j J. rewrite app_length. specialize (B j J). lia.
Qed.

(** A step that observes nothing about subscriptions other than [t] *)
Definition quiet_for (t : nat) (o : list obs) : Prop := joins t o = [] /\ gots t o = [].
Lemma delivered_grow oc t tr o : quiet_for t o -> delivered oc t tr -> delivered oc t (tr ++ o).
Proof.
  intros [J G] D. unfold delivered in *. rewrite joins_app, gots_app, J, G, !app_nil_r.
  destruct (joins t tr) as [|[[rid ref] last] [|]]; auto. rewrite pubs_app. apply fed_grow, D.
Qed.
Lemma task_ok_grow oc t tr o x : quiet_for t o -> task_ok oc tr t x -> task_ok oc (tr ++ o) t x.
Proof. intros [J G] D. destruct x; cbn [task_ok] in *; rewrite ?joins_app, ?gots_app, ?J, ?G, ?app_nil_r; auto. destruct D as [D|[r D]]; [left; exact D|right; exists r; rewrite !in_app_iff; tauto]. Qed.

Definition own (t : nat) (o : obs) : Prop :=
  match o with OJoined u _ _ _ | OGot u _ _ _ | OIssued u _ _ _ | OPublished u _ _ _ | OLeft u _ | OJoinPanic u _ | OReadPanic u _ => u = t end.
Lemma own_quiet t u o : Forall (own t) o -> u <> t -> quiet_for u o.
Proof.
  intros H N. induction H as [|x o X H [J G]]; [split; reflexivity|]. unfold quiet_for, joins, gots in *. cbn [flat_map].
  rewrite J, G, !app_nil_r. destruct x; cbn [own] in X; subst; auto; destruct (Nat.eqb_spec t u) as [?ZE|?ZN]; subst; auto; contradiction.
Qed.

(** One step of task [t] turning it into [x], changing at most room [ref] by [f] *)
Lemma step_minv oc s tr t x ref f o :
  MInv oc s tr -> (t < length (db_tasks s))%nat -> Forall (own t) o ->
  (forall r, task_ref x = Some r -> (r < length (db_heap s))%nat) ->
  (forall r, r <> ref -> pubs r o = [] /\ issued r o = [] /\ watchers r o = 0 /\ leaked r o = 0 /\ holding r x = holding r (nth t (db_tasks s) TEnd)) ->
  ((ref < length (db_heap s))%nat /\ room_ok (tr ++ o) ref (f (get_room ref s)) \/ (length (db_heap s) <= ref)%nat /\ pubs ref o = [] /\ issued ref o = [] /\ watchers ref o = 0 /\ leaked ref o = 0) ->
  issued ref (tr ++ o) = map (fun k => Z.of_nat k mod 65536) (seq 1 (length (issued ref (tr ++ o)))) ->
  watchers ref o = holding ref x - holding ref (nth t (db_tasks s) TEnd) ->
  task_ok oc (tr ++ o) t x -> delivered oc t (tr ++ o) ->
  MInv oc (set_task t x (set_room ref f s)) (tr ++ o).
Proof.
  intros M T O X Q R IS W K D. constructor; cbn [set_task set_room db_rooms db_heap db_tasks].
  - intros r. unfold get_room. cbn [set_task set_room db_rooms db_heap db_tasks]. rewrite upd_nth.
    destruct (mi_rooms _ _ _ M r) as [A1 A2 A3 A4]. unfold get_room in A1, A2, A3, A4.
    assert (N : pubs r o = [] -> issued r o = [] -> watchers r o = 0 -> leaked r o = 0 -> room_ok (tr ++ o) r (nth r (db_heap s) room_empty)).
    { intros P1 P2 P3 P4. constructor; rewrite ?pubs_app, ?issued_app, ?watchers_app, ?leaked_app, ?P1, ?P2, ?P3, ?P4, ?app_nil_r, ?Z.add_0_r; auto. }
    destruct (Nat.eqb_spec r ref) as [ZE|ZN].
    + subst r. destruct R as [[R1 R2]|[R1 [R2 [R3 [R4 R5]]]]].
      * apply Nat.ltb_lt in R1. rewrite R1. exact R2.
      * apply Nat.ltb_ge in R1. rewrite R1. cbn [andb]. apply N; auto.
    + cbn [andb]. destruct (Q r ZN) as (Q1 & Q2 & Q3 & Q4 & _). apply N; auto.
  - intros r. destruct (Nat.eq_dec r ref) as [->|ZN]; [exact IS|]. rewrite issued_app. destruct (Q r ZN) as (_ & -> & _). rewrite app_nil_r. apply (mi_issued _ _ _ M).
  - intros r. rewrite watchers_app, (mi_watch _ _ _ M), holders_upd by exact T. destruct (Nat.eq_dec r ref) as [->|ZN]; [rewrite W; lia|].
    destruct (Q r ZN) as (_ & _ & -> & _ & ->). lia.
  - intros u r. rewrite upd_length, upd_nth. destruct (Nat.eqb_spec u t) as [ZE|ZN]; cbn [andb].
    + apply Nat.ltb_lt in T. rewrite T. apply X.
    + apply (mi_refs _ _ _ M).
  - intros rid r. rewrite upd_length. apply (mi_map _ _ _ M).
  - intros u. rewrite upd_length. intros U. destruct (own_quiet t u o O ltac:(lia)) as [J G]. rewrite joins_app, gots_app, J, G, !app_nil_r. apply (mi_new _ _ _ M), U.
  - intros u. rewrite upd_nth. destruct (Nat.eqb_spec u t) as [ZE|ZN]; cbn [andb].
    + apply Nat.ltb_lt in T. rewrite T. subst u. exact K.
    + apply task_ok_grow; [apply (own_quiet t); auto|apply (mi_task _ _ _ M)].
  - intros u. destruct (Nat.eq_dec u t) as [->|ZN]; [exact D|]. apply delivered_grow; [apply (own_quiet t); auto|apply (mi_del _ _ _ M)].
Qed.
Lemma upd_id {A} k (l : list A) : upd k (fun x => x) l = l.
Proof. revert k. induction l as [|x l IH]; intros [|k]; cbn [upd]; rewrite ?IH; reflexivity. Qed.
Lemma set_room_id ref s : set_room ref (fun r => r) s = s.
Proof. destruct s as [a b c]. unfold set_room. cbn [db_rooms db_heap db_tasks]. rewrite upd_id. reflexivity. Qed.

(** A step that observes nothing and keeps what the task holds *)
Lemma silent_minv oc s tr t x :
  MInv oc s tr -> (t < length (db_tasks s))%nat ->
  (forall r, task_ref x = Some r -> (r < length (db_heap s))%nat) ->
  (forall r, holding r x = holding r (nth t (db_tasks s) TEnd)) ->
  task_ok oc tr t x -> MInv oc (set_task t x s) tr.
Proof.
  intros M T X H K. rewrite <- (set_room_id 0 s), <- (app_nil_r tr). apply step_minv; auto.
  - rewrite app_nil_r. destruct (Nat.lt_ge_cases 0 (length (db_heap s))) as [L|L]; [left|right]; split; auto. apply (mi_rooms _ _ _ M).
  - rewrite app_nil_r. apply (mi_issued _ _ _ M).
  - rewrite H. cbn. lia.
  - rewrite app_nil_r. exact K.
  - rewrite app_nil_r. apply (mi_del _ _ _ M).
Qed.

Lemma create_minv oc rid s tr : MInv oc s tr ->
  let '(ref, s') := create_step rid s in
  MInv oc s' tr /\ (ref < length (db_heap s'))%nat /\ db_tasks s' = db_tasks s /\ find_room rid (db_rooms s') = Some ref.
Proof.
  intros M. unfold create_step.
  set (s1 := {| db_rooms := (rid, length (db_heap s)) :: db_rooms s; db_heap := db_heap s ++ [room_empty]; db_tasks := db_tasks s |}).
  assert (N : MInv oc s1 tr /\ (length (db_heap s) < length (db_heap s1))%nat /\ db_tasks s1 = db_tasks s /\ find_room rid (db_rooms s1) = Some (length (db_heap s))).
  { assert (L : length (db_heap s1) = S (length (db_heap s))) by (cbn [s1 db_heap]; rewrite app_length; cbn; lia).
    split; [|rewrite L; cbn [s1 db_tasks db_rooms find_room]; rewrite String.eqb_refl; auto with arith].
    destruct M as [M1 M2 M3 M4 M5 M6 M7 M8]. constructor; auto.
    - intros ref. specialize (M1 ref). unfold get_room in *. cbn [s1 db_heap]. destruct (Nat.lt_trichotomy ref (length (db_heap s))) as [Q|[Q|Q]].
      + rewrite app_nth1 by exact Q. exact M1.
      + subst ref. rewrite app_nth2, Nat.sub_diag by lia. rewrite nth_overflow in M1 by lia. exact M1.
      + rewrite nth_overflow in * by (rewrite ?app_length; cbn; lia). exact M1.
    - intros t r Q. rewrite L. apply M4 in Q. lia.
    - intros rid' r. rewrite L. cbn [s1 db_rooms find_room]. destruct (String.eqb rid' rid); [intros [= <-]; lia|]. intros Q. apply M5 in Q. lia. }
  destruct (find_room rid (db_rooms s)) as [ref|] eqn:E; [|exact N].
  destruct (negb (is_abandoned (get_room ref s))); [|exact N].
  refine (conj M (conj _ (conj eq_refl E))). apply (mi_map _ _ _ M _ _ E).
Qed.

Lemma event_snoc P st g m : (st + Z.of_nat (length g)) mod 65536 < Z.of_nat (length P) -> 
  nth_error P (Z.to_nat ((st + Z.of_nat (length g)) mod 65536)) = Some m ->
  g = map (event P st) (seq 0 (length g)) ->
  g ++ [((st + Z.of_nat (length g)) mod 65536, m)] = map (event P st) (seq 0 (length (g ++ [((st + Z.of_nat (length g)) mod 65536, m)]))).
Proof.
  intros L N E. rewrite app_length. cbn [length]. rewrite Nat.add_1_r, seq_S, map_app. cbn [map Nat.add]. rewrite <- E. f_equal. f_equal.
  unfold event. f_equal. symmetry. apply nth_error_nth. exact N.
Qed.

Lemma start_range oc q last st : good_req (RSub last) = true -> start_at oc last = Some st -> q = last -> 0 <= st < 65536 /\ (oc = true -> st <= 65535).
Proof.
  intros G S _. unfold start_at, add16 in S. destruct last as [i|]; [|injection S as <-; lia].
  cbn [good_req] in G. apply andb_prop in G. destruct G as [G1 G2]. apply Z.leb_le in G1. apply Z.ltb_lt in G2.
  destruct (Z.ltb_spec (i + 1) 65536); [injection S as <-; lia|]. destruct oc; [discriminate|]. injection S as <-. lia.
Qed.
Lemma dec_mod a : dec16 (a mod 65536) = (a - 1) mod 65536.
Proof. unfold dec16. rewrite Zminus_mod_idemp_l. reflexivity. Qed.
Lemma inc_mod a : inc16 (a mod 65536) = (a + 1) mod 65536.
Proof. unfold inc16. rewrite Zplus_mod_idemp_l. reflexivity. Qed.

(** The subscription of task [t] ends. *)
Lemma leave_minv oc s tr t ref o :
  MInv oc s tr -> (t < length (db_tasks s))%nat -> task_ref (nth t (db_tasks s) TEnd) = Some ref ->
  (forall r, holding r (nth t (db_tasks s) TEnd) = if Nat.eqb ref r then 1 else 0) -> (o = OLeft t ref \/ o = OReadPanic t ref) ->
  MInv oc (set_task t TEnd (set_room ref (set_subs dec16) s)) (tr ++ [o]).
Proof.
  intros M T R H O. pose proof (mi_refs _ _ _ M _ _ R) as L.
  assert (P : (forall r, pubs r [o] = []) /\ (forall r, issued r [o] = []) /\ (forall r, watchers r [o] = - if Nat.eqb ref r then 1 else 0) /\ (forall r, leaked r [o] = 0) /\ quiet_for t [o]).
  { destruct O as [-> | ->]; (refine (conj _ (conj _ (conj _ (conj _ _)))); [| | | |split; reflexivity]; intros r; cbn; try reflexivity; destruct (Nat.eqb ref r); reflexivity). }
  destruct P as (P1 & P2 & P3 & P4 & P5). apply step_minv; auto.
  - destruct O as [-> | ->]; repeat constructor.
  - discriminate.
  - intros r N. rewrite P1, P2, P3, P4, H. cbn [holding]. destruct (Nat.eqb_spec ref r) as [?ZE|?ZN]; [congruence|auto].
  - left. split; [exact L|]. destruct (mi_rooms _ _ _ M ref) as [A1 A2 A3 A4].
    constructor; cbn [set_subs rm_msgs rm_notify rm_subs rm_next]; rewrite ?pubs_app, ?issued_app, ?watchers_app, ?leaked_app, ?P1, ?P2, ?P3, ?P4, ?app_nil_r, ?Z.add_0_r; auto.
    rewrite A4, dec_mod, Nat.eqb_refl. f_equal. lia.
  - rewrite issued_app, P2, app_nil_r. apply (mi_issued _ _ _ M).
  - rewrite P3, H. cbn [holding]. lia.
  - right. exists ref. rewrite !in_app_iff. destruct O as [-> | ->]; cbn; auto.
  - apply delivered_grow; [exact P5|apply (mi_del _ _ _ M)].
Qed.

Lemma run_minv oc s tr t : MInv oc s tr -> let '(s', o) := run_task oc t s in MInv oc s' (tr ++ o).
Proof.
  intros M. unfold run_task.
  destruct (Nat.lt_ge_cases t (length (db_tasks s))) as [T|T]; [|rewrite nth_overflow by exact T; rewrite app_nil_r; exact M].
  pose proof (mi_task _ _ _ M t) as K. pose proof (mi_refs _ _ _ M t) as F. pose proof (mi_del _ _ _ M t) as D.
  destruct (nth t (db_tasks s) TEnd) as [rid q|rid q|rid ref q|ref next|ref next seen|] eqn:E.
  - (* lookup *)
    unfold lookup_step. destruct (find_room rid (db_rooms s)) as [ref|] eqn:FR; [destruct (is_abandoned (get_room ref s))|]; rewrite app_nil_r;
      (apply silent_minv; [exact M|exact T|intros r Q; cbn [task_ref] in Q; try discriminate|intros r; rewrite E; reflexivity|exact K]).
    injection Q as <-. exact (mi_map _ _ _ M _ _ FR).
  - (* create *)
    pose proof (create_minv oc rid s tr M) as Q. destruct (create_step rid s) as [ref s']. destruct Q as (M' & L & TK & _). rewrite app_nil_r.
    apply silent_minv; auto; rewrite ?TK; auto; [|intros r; rewrite E; reflexivity]. intros r [= <-]. exact L.
  - pose proof (F ref eq_refl) as L. destruct K as [K1 K2]. pose proof (mi_rooms _ _ _ M ref) as [A1 A2 A3 A4].
    assert (G0 : gots t tr = []) by (unfold delivered in D; rewrite K1 in D; exact D).
    destruct q as [last| |m].
    + (* subscribe *)
      destruct (start_at oc last) as [st|] eqn:ST.
      * assert (GO : gots t [OJoined t rid ref last] = []) by reflexivity.
        assert (JO : joins t [OJoined t rid ref last] = [(rid, ref, last)]) by (cbn; rewrite Nat.eqb_refl; reflexivity).
        destruct (start_range oc last last st K2 ST eq_refl) as [R1 R2].
        apply step_minv; [exact M|exact T|..].
        -- repeat constructor.
        -- intros r [= <-]. exact L.
        -- intros r N. cbn. rewrite E. cbn [holding]. destruct (Nat.eqb_spec ref r) as [?ZE|?ZN]; [congruence|auto].
        -- left. split; [exact L|]. constructor; cbn [set_subs rm_msgs rm_notify rm_subs rm_next]; rewrite ?pubs_app, ?issued_app, ?watchers_app, ?leaked_app; cbn [pubs issued flat_map]; rewrite ?app_nil_r; auto.
           rewrite A4, inc_mod. f_equal. cbn. rewrite Nat.eqb_refl. lia.
        -- rewrite issued_app. cbn [issued flat_map]. rewrite app_nil_r. apply (mi_issued _ _ _ M).
        -- rewrite E. cbn. rewrite Nat.eqb_refl. reflexivity.
        -- exists rid, last, st. rewrite joins_app, gots_app, K1, G0, JO, GO. cbn [app length]. split; [reflexivity|split; [exact ST|]]. rewrite Z.add_0_r, Z.mod_small by lia. reflexivity.
        -- unfold delivered. rewrite joins_app, gots_app, K1, G0, JO, GO. cbn [app]. exists st. cbn [length]. repeat split; auto; try lia.
      * assert (GO : gots t [OJoinPanic t ref] = []) by reflexivity. assert (JO : joins t [OJoinPanic t ref] = []) by reflexivity.
        apply step_minv; [exact M|exact T|..].
        -- repeat constructor.
        -- discriminate.
        -- intros r N. cbn. rewrite E. cbn [holding]. destruct (Nat.eqb_spec ref r) as [?ZE|?ZN]; [congruence|auto].
        -- left. split; [exact L|]. constructor; cbn [set_subs rm_msgs rm_notify rm_subs rm_next]; rewrite ?pubs_app, ?issued_app, ?watchers_app, ?leaked_app; cbn [pubs issued flat_map]; rewrite ?app_nil_r; auto.
           rewrite A4, inc_mod. f_equal. cbn. rewrite Nat.eqb_refl. lia.
        -- rewrite issued_app. cbn [issued flat_map]. rewrite app_nil_r. apply (mi_issued _ _ _ M).
        -- rewrite E. reflexivity.
        -- left. rewrite joins_app, K1, JO. reflexivity.
        -- apply delivered_grow; [split; auto|exact D].
    + (* issue *)
      cbn [issue_unique_idx]. set (idx := rm_next (get_room ref s)) in *.
      assert (IO : issued ref [OIssued t rid ref idx] = [idx]) by (cbn; rewrite Nat.eqb_refl; reflexivity).
      apply step_minv; [exact M|exact T|..].
      * repeat constructor.
      * discriminate.
      * intros r N. cbn. rewrite E. cbn [holding]. destruct (Nat.eqb_spec ref r) as [?ZE|?ZN]; [congruence|auto].
      * left. split; [exact L|]. constructor; cbn [issue_unique_idx snd rm_msgs rm_notify rm_subs rm_next]; rewrite ?pubs_app, ?issued_app, ?watchers_app, ?leaked_app; cbn [pubs flat_map]; rewrite ?app_nil_r; auto.
        -- rewrite IO, app_length. cbn [length]. fold idx. rewrite A3, inc_mod. f_equal. lia.
        -- rewrite A4. f_equal. cbn. lia.
      * rewrite issued_app, IO, app_length. cbn [length]. rewrite Nat.add_1_r, seq_S, map_app. rewrite (mi_issued _ _ _ M ref) at 1. f_equal. cbn [map]. f_equal. rewrite A3. f_equal. lia.
      * rewrite E. reflexivity.
      * left. rewrite joins_app, K1. reflexivity.
      * apply delivered_grow; [split; auto|exact D].
    + (* publish *)
      assert (PO : pubs ref [OPublished t rid ref m] = [m]) by (cbn; rewrite Nat.eqb_refl; reflexivity).
      apply step_minv; [exact M|exact T|..].
      * repeat constructor.
      * discriminate.
      * intros r N. cbn. rewrite E. cbn [holding]. destruct (Nat.eqb_spec ref r) as [?ZE|?ZN]; [congruence|auto].
      * left. split; [exact L|]. constructor; cbn [publish rm_msgs rm_notify rm_subs rm_next]; rewrite ?pubs_app, ?issued_app, ?watchers_app, ?leaked_app, ?PO; cbn [issued flat_map]; rewrite ?app_nil_r; auto.
        -- rewrite A1. reflexivity.
        -- rewrite A2, app_length. cbn [length]. lia.
        -- rewrite A4. f_equal. cbn. lia.
      * rewrite issued_app. cbn [issued flat_map]. rewrite app_nil_r. apply (mi_issued _ _ _ M).
      * rewrite E. reflexivity.
      * left. rewrite joins_app, K1. reflexivity.
      * apply delivered_grow; [split; auto|exact D].
  - (* next *)
    pose proof (F ref eq_refl) as L. destruct K as (rid & last & st & K1 & K2 & K3).
    pose proof (mi_rooms _ _ _ M ref) as [A1 A2 A3 A4]. rewrite A1.
    unfold delivered in D. rewrite K1 in D. destruct D as (st' & D1 & D2 & D3 & D4 & D5 & D6). assert (st' = st) by congruence. subst st'. clear D1.
    pose proof (Z.mod_pos_bound (st + Z.of_nat (length (gots t tr))) 65536 ltac:(lia)) as NB. rewrite <- K3 in NB.
    destruct (nth_error (pubs ref tr) (Z.to_nat next)) as [m|] eqn:NE.
    + assert (NL : next < Z.of_nat (length (pubs ref tr))) by (assert (nth_error (pubs ref tr) (Z.to_nat next) <> None) as Q by congruence; apply nth_error_Some in Q; lia).
      destruct (add16 oc next) as [next'|] eqn:AD.
      * assert (GO : gots t [OGot t ref next m] = [(next, m)]) by (cbn; rewrite Nat.eqb_refl; reflexivity).
        assert (JO : joins t [OGot t ref next m] = []) by reflexivity.
        assert (NX : next' = (next + 1) mod 65536 /\ (oc = true -> next + 1 <= 65535)).
        { unfold add16 in AD. destruct (Z.ltb_spec (next + 1) 65536).
          - injection AD as <-. rewrite Z.mod_small by lia. split; [reflexivity|lia].
          - destruct oc; [discriminate|]. injection AD as <-. assert (next = 65535) as -> by lia. split; [reflexivity|discriminate]. }
        destruct NX as [NX1 NX2].
        rewrite <- (set_room_id ref s). apply step_minv; [exact M|exact T|..].
        -- repeat constructor.
        -- intros r [= <-]. exact L.
        -- intros r N. cbn. rewrite E. cbn [holding]. auto.
        -- left. split; [exact L|]. constructor; rewrite ?pubs_app, ?issued_app, ?watchers_app, ?leaked_app; cbn [pubs issued flat_map]; rewrite ?app_nil_r; auto. cbn. rewrite !Z.add_0_r. exact A4.
        -- rewrite issued_app. cbn [issued flat_map]. rewrite app_nil_r. apply (mi_issued _ _ _ M).
        -- rewrite E. cbn [holding]. cbn. lia.
        -- exists rid, last, st. rewrite joins_app, gots_app, JO, GO, app_nil_r, app_length. cbn [length]. refine (conj K1 (conj K2 _)).
           rewrite NX1, K3, Zplus_mod_idemp_l. f_equal. lia.
        -- unfold delivered. rewrite joins_app, gots_app, JO, GO, app_nil_r, K1, pubs_app. cbn [pubs flat_map]. rewrite app_nil_r.
           exists st. refine (conj K2 (conj D2 (conj _ (conj _ (conj _ D6))))).
           ++ rewrite K3 in NE, NL |- *. apply event_snoc; assumption.
           ++ intros j. rewrite app_length. cbn [length]. intros J. destruct (Nat.eq_dec j (length (gots t tr))) as [->|ZN]; [rewrite <- K3; exact NL|apply D4; lia].
           ++ intros O. rewrite app_length. cbn [length]. specialize (D5 O). specialize (NX2 O). rewrite Z.mod_small in K3 by lia. lia.
      * apply leave_minv; auto; rewrite E; auto.
    + rewrite app_nil_r. apply silent_minv; [exact M|exact T|..].
      * intros r [= <-]. exact L.
      * intros r. rewrite E. reflexivity.
      * split; [exists rid, last, st; auto|]. rewrite A2. apply nth_error_None, NE.
  - (* wake up *)
    destruct (Nat.ltb seen (rm_notify (get_room ref s))); rewrite app_nil_r; [|exact M].
    apply silent_minv; [exact M|exact T|exact F|..].
    + intros r. rewrite E. reflexivity.
    + destruct K as [K _]. exact K.
  - rewrite app_nil_r. exact M.
Qed.

Lemma cancel_minv oc s tr t : MInv oc s tr -> let '(s', o) := cancel_task t s in MInv oc s' (tr ++ o).
Proof.
  intros M. unfold cancel_task.
  destruct (Nat.lt_ge_cases t (length (db_tasks s))) as [T|T].
  - pose proof (mi_task _ _ _ M t) as K. destruct (nth t (db_tasks s) TEnd) as [rid q|rid q|rid ref q|ref next|ref next seen|] eqn:E; rewrite ?app_nil_r;
      try (apply silent_minv; [exact M|exact T|discriminate|intros r; rewrite E; reflexivity|exact (or_introl (proj1 K))]);
      try (apply leave_minv; auto; rewrite E; auto; fail).
    apply silent_minv; [exact M|exact T|discriminate|intros r; rewrite E; reflexivity|exact K].
  - rewrite nth_overflow by exact T. rewrite app_nil_r. replace (set_task t TEnd s) with s; [exact M|].
    destruct s as [a b c]. unfold set_task. cbn [db_rooms db_heap db_tasks] in *. f_equal. clear M. revert t T. induction c as [|x c IH]; intros [|t] T; cbn [upd length] in *; try reflexivity; try lia. f_equal. apply IH. lia.
Qed.

Lemma step_inv oc s tr a : MInv oc s tr -> let '(s', o) := step oc s a in MInv oc s' (tr ++ o).
Proof.
  intros M. destruct a as [rid q|t|t]; cbn [step]; [|apply run_minv, M|apply cancel_minv, M].
  destruct (good_req q) eqn:G; rewrite app_nil_r; [|exact M].
  destruct M as [M1 M2 M3 M4 M5 M6 M7 M8]. constructor; cbn [db_rooms db_heap db_tasks]; auto.
  - intros ref. rewrite M3. unfold holders. rewrite map_app, fold_right_app. cbn. reflexivity.
  - intros t r Q. destruct (Nat.lt_trichotomy t (length (db_tasks s))) as [L|[L|L]].
    + rewrite app_nth1 in Q by exact L. apply (M4 _ _ Q).
    + subst t. rewrite app_nth2, Nat.sub_diag in Q by lia. discriminate.
    + rewrite nth_overflow in Q by (rewrite app_length; cbn; lia). discriminate.
  - intros t. rewrite app_length. cbn [length]. intros L. apply M6. lia.
  - intros t. destruct (Nat.lt_trichotomy t (length (db_tasks s))) as [L|[L|L]].
    + rewrite app_nth1 by exact L. apply M7.
    + subst t. rewrite app_nth2, Nat.sub_diag by lia. cbn [nth task_ok]. split; [apply M6; lia|exact G].
    + rewrite nth_overflow by (rewrite app_length; cbn; lia). left. apply M6. lia.
Qed.

Lemma exec_minv oc l : forall s tr, MInv oc s tr -> let '(s', o) := exec oc s l in MInv oc s' (tr ++ o).
Proof.
  induction l as [|a l IH]; intros s tr M; cbn [exec]; [rewrite app_nil_r; exact M|].
  pose proof (step_inv oc s tr a M) as Q. destruct (step oc s a) as [s1 o1]. specialize (IH _ _ Q). destruct (exec oc s1 l) as [s2 o2].
  rewrite app_assoc. exact IH.
Qed.
Lemma reach_minv oc l s tr : exec oc db_empty l = (s, tr) -> MInv oc s tr.
Proof. intros E. pose proof (exec_minv oc l _ _ (init_minv oc)) as Q. rewrite E in Q. exact Q. Qed.

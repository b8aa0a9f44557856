(** Rounds of broadcasts and of point-to-point messages: the table of a session, and how a round of a client runs under it. *)
From Coq Require Import String ZArith NArith Nnat Bool Lia List.
From Verif Require Import Outcome Stores Mp MpProofs KeygenRun Manager18 Manager18Proofs PropManager18 Clients18 Clients18Proofs Clients18Prog.
Import ListNotations.
Local Open Scope nat_scope.

(** Client i (from 0) has number i + 1. *)
Definition num (i : nat) : N := N.of_nat (S i).
Lemma num_inj i j : num i = num j -> i = j. Proof. unfold num. lia. Qed.
Lemma forallb_filter_id {A} (f : A -> bool) l : forallb f l = true -> filter f l = l.
Proof. induction l as [|x l IH]; cbn [forallb filter]; [reflexivity|]. intros H. apply andb_true_iff in H. destruct H as [-> H]. rewrite IH by exact H. reflexivity. Qed.
Lemma others_num i m : i < m -> others_n (num i) m = map num (others i m).
Proof.
  intros L. unfold others_n, others. rewrite <- seq_shift, map_map.
  replace m with (i + S (m - S i)) at 1 by lia. rewrite seq_app. cbn [seq Nat.add]. rewrite map_app, filter_app, map_app. cbn [map filter].
  unfold num at 2. rewrite N.eqb_refl. cbn [negb]. f_equal; rewrite forallb_filter_id; try reflexivity.
  - apply forallb_forall. intros x X. apply in_map_iff in X. destruct X as (y & <- & Y). apply in_seq in Y. apply negb_true_iff, N.eqb_neq. unfold num. lia.
  - apply forallb_forall. intros x X. apply in_map_iff in X. destruct X as (y & <- & Y). apply in_seq in Y. apply negb_true_iff, N.eqb_neq. unfold num. lia.
Qed.
Lemma in_others i j m : In j (others i m) <-> (j < i \/ i < j) /\ (i < m -> j < m) /\ (j < i \/ j < m).
Proof. unfold others. rewrite in_app_iff, !in_seq. lia. Qed.
Lemma merge_from_all {E A} (own : A) me is : forall (f : N -> A) ans, (forall i, i = me -> f i = own) -> ans = map f (filter (fun i => negb (N.eqb i me)) is) ->
  merge_from (E := E) me own is ans = Ok (map f is).
Proof.
  induction is as [|i is IH]; intros f ans H ->; cbn [merge_from filter map]; [reflexivity|]. destruct (N.eqb_spec i me) as [Q|Q]; cbn [negb map].
  - rewrite (IH f) by auto. cbn [omap]. rewrite (H i Q). reflexivity.
  - rewrite (IH f) by auto. reflexivity.
Qed.
Lemma merge_ok {E A} (x : nat -> A) i m : i < m -> merge (E := E) (num i) m (x i) (map x (others i m)) = Ok (map x (seq 0 m)).
Proof.
  intros L. unfold merge. rewrite (merge_from_all _ _ _ (fun k => x (N.to_nat k - 1))).
  - f_equal. rewrite <- seq_shift, !map_map. apply map_ext. intros k. rewrite Nat2N.id. f_equal. lia.
  - intros k ->. f_equal. unfold num. rewrite Nat2N.id. lia.
  - pose proof (others_num i m L) as Q. unfold others_n in Q. rewrite Q, map_map. apply map_ext. intros k. f_equal. unfold num. rewrite Nat2N.id. lia.
Qed.
Lemma but_seq {A} (x : nat -> A) i m : i < m -> but i (map x (seq 0 m)) = map x (others i m).
Proof.
  intros L. unfold but, others. rewrite firstn_map, skipn_map, <- map_app. f_equal. f_equal.
  - replace m with (i + (m - i)) by lia. rewrite seq_app, firstn_app, seq_length, Nat.sub_diag, firstn_all2 by (rewrite seq_length; lia). cbn [firstn]. apply app_nil_r.
  - replace m with (S i + (m - S i)) at 1 by lia. rewrite seq_app, skipn_app, seq_length, Nat.sub_diag, skipn_all2 by (rewrite seq_length; lia). reflexivity.
Qed.
Lemma remove_ok {E A} (x : nat -> A) i m : i < m -> remove_at (E := E) i (map x (seq 0 m)) = Ok (map x (others i m)).
Proof. intros L. unfold remove_at. rewrite map_length, seq_length, but_seq by exact L. apply Nat.ltb_lt in L. rewrite L. reflexivity. Qed.

(** ** The table of a session *)
Section Table.
Context (u : string) (B : string -> nat -> string) (P : string -> nat -> nat -> string).
Inductive table : string -> string -> Prop :=
  | tb_b i r : round_ok r -> table (bkey (num i) r u) (B r i)
  | tb_p i j r : round_ok r -> table (pkey (num i) (num j) r u) (P r i j).
(** The keys of a session *)
Definition session_key (k : string) : Prop := exists i r, round_ok r /\ (k = bkey i r u \/ exists j, k = pkey i j r u).
Lemma table_fun k v v' : table k v -> table k v' -> v = v'.
Proof.
  intros H H'. inversion H as [i r [O1 O2] E1 E2|i j r [O1 O2] E1 E2]; subst; inversion H' as [i' r' [O1' O2'] E1' E2'|i' j' r' [O1' O2'] E1' E2']; subst.
  - apply bkey_inj in E1'; auto. destruct E1' as (A & -> & _). apply num_inj in A. congruence.
  - symmetry in E1'. apply bkey_pkey in E1'; auto. contradiction.
  - apply bkey_pkey in E1'; auto. contradiction.
  - apply pkey_inj in E1'; auto. destruct E1' as (A & A' & -> & _). apply num_inj in A, A'. congruence.
Qed.
Lemma table_mine k v : table k v -> session_key k.
Proof. intros [i r O|i j r O]; unfold session_key; eauto 8. Qed.
Lemma session_free k : session_key k -> ~ reserved k.
Proof. intros (i & r & _ & [-> | [j ->]]); unfold bkey, pkey; apply key_not_reserved. Qed.

Lemma parse_all {A X} (c : json A) (x : X -> A) l : json_ok c -> omapM (parse c) (map (fun j => js c (x j)) l) = Ok (map x l).
Proof. intros J. induction l as [|j l IH]; [reflexivity|]. cbn [map omapM]. unfold parse at 1. rewrite J. cbn [unwrap obind]. rewrite IH. reflexivity. Qed.
Context {R : Type}.

(** A round: its rank, its name and whether its messages are point-to-point *)
Definition round_events (m i : nat) (r : nat * string * bool) : list ev18 :=
  let '(k, nm, p2p) := r in
  if p2p : bool then map (EPut k) (map (fun j => pkey (num i) (num j) nm u) (others i m)) ++ map (EGet k) (map (fun j => pkey (num j) (num i) nm u) (others i m))
  else EPut k (bkey (num i) nm u) :: map (EGet k) (map (fun j => bkey (num j) nm u) (others i m)).

Lemma plays_exchange {A} (c : json A) (x : nat -> A) k nm i m (f : list A -> prog R) l r : json_ok c -> round_ok nm -> i < m ->
  (forall j, j < m -> B nm j = js c (x j)) -> plays table (f (map x (others i m))) l r ->
  plays table (exchange c (num i) m nm u (x i) f) (round_events m i (k, nm, false) ++ l) r.
Proof.
  intros J O L H Q. unfold exchange, round_events. cbn [app]. apply pl_put; [rewrite <- H by exact L; apply tb_b, O|].
  rewrite others_num, map_map by exact L.
  assert (G : forall ks (g : list string -> prog R), (forall j, In j ks -> j < m) -> plays table (g (map (fun j => js c (x j)) ks)) l r ->
    plays table (gets (map (fun j => bkey (num j) nm u) ks) g) (map (EGet k) (map (fun j => bkey (num j) nm u) ks) ++ l) r).
  { induction ks as [|j ks IH]; intros g HI HP; cbn [map gets app]; [exact HP|]. apply (pl_get _ k _ _ (js c (x j))); [rewrite <- H by (apply HI; left; reflexivity); apply tb_b, O|].
    apply (IH (fun l0 => g (js c (x j) :: l0))); [intros j' I; apply HI; right; exact I|exact HP]. }
  apply G; [intros j I; apply in_others in I; lia|]. rewrite (parse_all c x (others i m) J). exact Q.
Qed.
Lemma plays_p2p {A} (c : json A) (x : nat -> nat -> A) k nm i m (f : list A -> prog R) l r : json_ok c -> round_ok nm -> i < m ->
  (forall a b, a < m -> b < m -> P nm a b = js c (x a b)) -> plays table (f (map (fun j => x j i) (others i m))) l r ->
  plays table (exchange_p2p c (num i) m nm u (map (x i) (others i m)) f) (round_events m i (k, nm, true) ++ l) r.
Proof.
  intros J O L H Q. unfold exchange_p2p, round_events. rewrite others_num, map_map by exact L. rewrite <- app_assoc.
  assert (IN : forall j, In j (others i m) -> j < m) by (intros j I; apply in_others in I; lia).
  assert (G : forall ks (g : list string -> prog R), (forall j, In j ks -> j < m) -> plays table (g (map (fun j => js c (x j i)) ks)) l r ->
    plays table (gets (map (fun j => pkey (num j) (num i) nm u) ks) g) (map (EGet k) (map (fun j => pkey (num j) (num i) nm u) ks) ++ l) r).
  { induction ks as [|j ks IH]; intros g HI HP; cbn [map gets app]; [exact HP|]. apply (pl_get _ k _ _ (js c (x j i))); [rewrite <- H; [apply tb_p, O|apply HI; left; reflexivity|exact L]|].
    apply (IH (fun l0 => g (js c (x j i) :: l0))); [intros j' I; apply HI; right; exact I|exact HP]. }
  assert (S : forall ks p l', (forall j, In j ks -> j < m) -> plays table p l' r ->
    plays table (puts (map (fun y => (pkey (num i) (fst y) nm u, js c (snd y))) (combine (map num ks) (map (x i) ks))) p) (map (EPut k) (map (fun j => pkey (num i) (num j) nm u) ks) ++ l') r).
  { induction ks as [|j ks IH]; intros p l' HI HP; cbn [map combine puts app fst snd]; [exact HP|]. apply pl_put; [rewrite <- H; [apply tb_p, O|exact L|apply HI; left; reflexivity]|].
    apply IH; [intros j' I; apply HI; right; exact I|exact HP]. }
  apply S; [exact IN|]. apply G; [exact IN|]. rewrite (parse_all c (fun j => x j i) (others i m) J). exact Q.
Qed.

(** ** The order of a client's rounds *)
Definition rounds_of (m i : nat) (rs : list (nat * string * bool)) : list ev18 := flat_map (round_events m i) rs.
Fixpoint increasing (from : nat) (rs : list (nat * string * bool)) : Prop :=
  match rs with [] => True | (k, _, _) :: t => from <= k /\ increasing (S k) t end.
Lemma in_round_put m i k nm p2p k' s : In (EPut k' s) (round_events m i (k, nm, p2p)) -> k' = k.
Proof.
  unfold round_events. destruct p2p; [rewrite in_app_iff, !in_map_iff; intros [(x & E & _)|(x & E & _)]; congruence|].
  intros [E|E]; [congruence|]. apply in_map_iff in E. destruct E as (x & E & _). congruence.
Qed.
Lemma increasing_put m i rs : forall from k s, increasing from rs -> In (EPut k s) (rounds_of m i rs) -> from <= k.
Proof.
  induction rs as [|[[k0 nm] p2p] rs IH]; intros from k s I Q; cbn [rounds_of flat_map] in Q; [destruct Q|]. destruct I as [I1 I2]. apply in_app_iff in Q. destruct Q as [Q|Q].
  - apply in_round_put in Q. lia.
  - apply (IH _ _ _ I2) in Q. lia.
Qed.
Lemma rounds_ordered m i rs : forall from, increasing from rs -> ordered (rounds_of m i rs).
Proof.
  induction rs as [|[[k nm] p2p] rs IH]; intros from I; cbn [rounds_of flat_map]; [exact Logic.I|]. destruct I as [I1 I2]. pose proof (IH _ I2) as O.
  assert (G : forall ks, ordered (map (EGet k) ks ++ rounds_of m i rs)).
  { intros ks. apply ordered_gets; [|exact O]. intros r' s Q. apply (increasing_put _ _ _ _ _ _ I2) in Q. lia. }
  unfold round_events. destruct p2p.
  - rewrite <- app_assoc. apply ordered_puts. apply G.
  - cbn [app ordered]. apply G.
Qed.
Lemma rounds_owner m i rs k s : i < m -> In (EGet k s) (rounds_of m i rs) -> exists d, d < m /\ In (EPut k s) (rounds_of m d rs).
Proof.
  intros L Q. unfold rounds_of in Q. apply in_flat_map in Q. destruct Q as ([[k0 nm] p2p] & R1 & Q). unfold round_events in Q.
  assert (X : exists j, j < m /\ j <> i /\ k0 = k /\ s = if p2p then pkey (num j) (num i) nm u else bkey (num j) nm u).
  { destruct p2p.
    - rewrite in_app_iff, !in_map_iff in Q. destruct Q as [(x & E & _)|(x & E & I)]; [discriminate|]. injection E as <- <-. apply in_map_iff in I. destruct I as (j & <- & I). apply in_others in I. exists j. repeat split; lia.
    - destruct Q as [E|Q]; [discriminate|]. apply in_map_iff in Q. destruct Q as (x & E & I). injection E as <- <-. apply in_map_iff in I. destruct I as (j & <- & I). apply in_others in I. exists j. repeat split; lia. }
  destruct X as (j & Lj & Nj & -> & ->). exists j. split; [exact Lj|]. unfold rounds_of. apply in_flat_map. exists (k, nm, p2p). split; [exact R1|]. unfold round_events. destruct p2p.
  - apply in_app_iff. left. apply in_map, in_map_iff. exists i. split; [reflexivity|]. apply in_others. lia.
  - left. reflexivity.
Qed.
Lemma others_length i m : i < m -> length (others i m) = m - 1.
Proof. intros L. unfold others. rewrite app_length, !seq_length. lia. Qed.
Lemma round_events_length m i r : i < m -> length (round_events m i r) <= 2 * m.
Proof.
  intros L. destruct r as [[k nm] p2p]. unfold round_events. pose proof (others_length i m L) as Q. destruct p2p; cbn [length]; rewrite ?app_length, !map_length, Q; lia.
Qed.
Lemma rounds_length m i rs : i < m -> length (rounds_of m i rs) <= 2 * m * length rs.
Proof.
  intros L. induction rs as [|r rs IH]; [cbn; lia|]. cbn [rounds_of flat_map length]. rewrite app_length. pose proof (round_events_length m i r L). fold (rounds_of m i rs). nia.
Qed.
End Table.

(** ** The result for a session *)
Section Session.
Context {R : Type} (oc : bool) (ser : party_signup -> string) (par : string -> option party_signup) (uuid : nat -> string).
Context (u : string) (B : string -> nat -> string) (P : string -> nat -> nat -> string) (m : nat) (rs : list (nat * string * bool)).
Context (prg : nat -> prog R) (res : nat -> R).
Hypothesis H_inc : increasing 0 rs.
Hypothesis H_plays : forall c, c < m -> plays (table u B P) (prg c) (rounds_of u m c rs) (res c).
(** What other users of the server do: anything but storing under a key of this session. *)
Definition outside (a : act18) : Prop := match a with Env (ASet k _) => ~ session_key u k | _ => True end.
Theorem session_runs s : (forall k, session_key u k -> sm_get k (sv_map s) = None) ->
  forall l, Forall outside l -> let w := exec18 oc ser par uuid {| y_sv := s; y_cl := map prg (seq 0 m) |} l in
  (forall c, c < m -> nth_error (y_cl w) c <> Some Crash /\ forall r, nth_error (y_cl w) c = Some (Done r) -> r = res c) /\
  work18 oc ser par uuid {| y_sv := s; y_cl := map prg (seq 0 m) |} l <= 2 * m * m * length rs /\
  ((forall c, ready w c = false) -> forall c, c < m -> nth_error (y_cl w) c = Some (Done (res c))) /\
  exists l', Forall (fun a => exists c, c < m /\ a = Cl c) l' /\ forall c, c < m -> nth_error (y_cl (exec18 oc ser par uuid w l')) c = Some (Done (res c)).
Proof.
  intros F l A w. set (V := table u B P) in *. set (tr := fun c => rounds_of u m c rs).
  assert (VF := table_fun u B P). assert (VM := table_mine u B P). assert (MF := session_free u).
  assert (HO : forall c, c < m -> ordered (tr c)) by (intros c L; apply (rounds_ordered u m c rs 0 H_inc)).
  assert (HW : forall c r k, c < m -> In (EGet r k) (tr c) -> exists d, d < m /\ In (EPut r k) (tr d)) by (intros c r k L Q; apply (rounds_owner u m c rs r k L Q)).
  assert (ST : Forall (stranger (session_key u)) l) by exact A.
  pose proof (kinv_init (session_key u) V m prg res tr H_plays s F) as I0.
  pose proof (kinv_exec oc ser par uuid (session_key u) V VF VM MF m prg res tr H_plays l _ I0 ST) as I. fold w in I.
  split; [|split; [|split]].
  - intros c L. exact (kinv_safe (session_key u) V m res tr w c I L).
  - destruct (kinv_rests (session_key u) V m res tr _ I0) as (rest & R1 & R2).
    pose proof (work_bound oc ser par uuid (session_key u) V VF VM MF m prg res tr H_plays l _ rest I0 ST R1) as Q.
    assert (T : total m tr <= 2 * m * m * length rs).
    { unfold total. replace (2 * m * m * length rs) with (length (seq 0 m) * (2 * m * length rs)) by (rewrite seq_length; nia).
      assert (LE : forall c, In c (seq 0 m) -> length (tr c) <= 2 * m * length rs) by (intros c X; apply in_seq in X; destruct X as [_ X]; exact (rounds_length u m c rs X)).
      clear - LE. induction (seq 0 m) as [|c l0 IH]; [cbn; lia|]. cbn [map list_sum fold_right length]. specialize (IH (fun d D => LE d (or_intror D))). pose proof (LE c (or_introl eq_refl)). unfold list_sum in IH. nia. }
    lia.
  - intros NR c L. destruct (done_or (session_key u) V m res tr HO HW w I) as [D|(d & _ & Y)]; [apply D, L|]. rewrite NR in Y. discriminate.
  - destruct (kinv_rests (session_key u) V m res tr _ I) as (rest & R1 & _).
    destruct (can_finish oc ser par uuid (session_key u) V VF VM MF m prg res tr H_plays HO HW w rest I R1) as (l' & X1 & _ & X2). exists l'. split; [exact X1|exact X2].
Qed.
End Session.

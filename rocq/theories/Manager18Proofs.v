(** Proofs about the GG18 relay. *)
From Coq Require Import String Ascii ZArith Bool Lia Decimal DecimalString DecimalN List.
From Verif Require Import Manager18.
Import ListNotations.
Open Scope Z_scope.

(** * Specification vocabulary: functions of the observed trace *)
(** Values set under a key *)
Definition sets (k : string) (tr : list obs) : list string :=
  flat_map (fun o => match o with OSet k' v => if String.eqb k k' then [v] else [] | _ => [] end) tr.
Definition last_opt {A} (l : list A) : option A := fold_left (fun _ x => Some x) l None.
(** Replies given to the signups of one kind, in the order they were completed *)
Definition signed (d : signup_kind) (tr : list obs) : list party_signup :=
  flat_map (fun o => match o, d with OSigned _ Keygen p, Keygen => [p] | OSigned _ Sign p, Sign => [p] | _, _ => [] end) tr.
Definition reserved (k : string) : Prop := k = signup_key Keygen \/ k = signup_key Sign.

Lemma last_opt_snoc {A} (l : list A) x : last_opt (l ++ [x]) = Some x.
Proof. unfold last_opt. rewrite fold_left_app. reflexivity. Qed.
Lemma sets_app k a b : sets k (a ++ b) = sets k a ++ sets k b. Proof. apply flat_map_app. Qed.
Lemma signed_app k a b : signed k (a ++ b) = signed k a ++ signed k b. Proof. apply flat_map_app. Qed.
Lemma get_insert k k' v m : sm_get k (sm_insert k' v m) = if String.eqb k k' then Some v else sm_get k m. Proof. reflexivity. Qed.

Section P.
Variable oc : bool.
Variable ser : party_signup -> string.
Variable par : string -> option party_signup.
Variable uuid : nat -> string.
Let step := step oc ser par uuid.
Let exec := exec oc ser par uuid.
Let sv_init := sv_init ser uuid.

Lemma exec_app a : forall s b, exec s (a ++ b) = let '(s1, o1) := exec s a in let '(s2, o2) := exec s1 b in (s2, o1 ++ o2).
Proof.
  induction a as [|x a IH]; intros s b; cbn [app exec Manager18.exec]; [destruct (exec s b); reflexivity|].
  unfold exec in *. cbn [Manager18.exec]. destruct (Manager18.step oc ser par uuid s x) as [s1 o1]. rewrite IH.
  destruct (Manager18.exec oc ser par uuid s1 a) as [s2 o2]. destruct (Manager18.exec oc ser par uuid s2 b) as [s3 o3]. rewrite app_assoc. reflexivity.
Qed.

(** * get returns the last value set *)
Definition store_ok (s : server) (tr : list obs) : Prop := forall k, ~ reserved k -> sm_get k (sv_map s) = last_opt (sets k tr).
Lemma reserved_key d : reserved (signup_key d). Proof. destruct d; [left|right]; reflexivity. Qed.
Lemma store_step s tr a : store_ok s tr -> let '(s', o) := step s a in
  store_ok s' (tr ++ o) /\ (forall o1 k r o2, o = o1 ++ OGet k r :: o2 -> ~ reserved k -> r = last_opt (sets k (tr ++ o1))).
Proof.
  intros H. destruct a as [k v|k|d p|t]; unfold step; cbn [Manager18.step].
  - split.
    + intros k' R. cbn [sv_map]. rewrite get_insert, sets_app. unfold sets at 2. cbn [flat_map]. destruct (String.eqb_spec k' k) as [?ZE|?ZN]; cbn [app].
      * rewrite last_opt_snoc. reflexivity.
      * rewrite app_nil_r. apply H, R.
    + intros [|x [|]] ? ? ?; discriminate.
  - split.
    + intros k' R. rewrite sets_app. cbn [sets flat_map]. rewrite app_nil_r. apply H, R.
    + intros [|x [|]] k' r o2; try discriminate. cbn [app]. intros [= <- <- _] R. rewrite app_nil_r. apply H, R.
  - assert (N : forall s' o, sv_map s' = sv_map s -> (o = [] \/ o = [OPanic d]) -> store_ok s' (tr ++ o) /\
      (forall o1 k r o2, o = o1 ++ OGet k r :: o2 -> ~ reserved k -> r = last_opt (sets k (tr ++ o1)))).
    { intros s' o E O. split.
      - intros k R. rewrite E, sets_app. destruct O as [-> | ->]; cbn [sets flat_map]; rewrite app_nil_r; apply H, R.
      - intros o1 k r o2 Q. exfalso. destruct O as [-> | ->]; destruct o1 as [|x [|]]; discriminate. }
    destruct (sm_get (signup_key d) (sv_map s)) as [v|]; [|apply N; auto].
    destruct (par v) as [cur|]; [|apply N; auto]. destruct (session_size oc d p) as [size|]; [|apply N; auto].
    destruct (next_signup size cur (uuid (sv_uuids s))) as [q drawn]. apply N; auto.
  - destruct (nth t (sv_pending s) None) as [[d p]|].
    + split.
      * intros k R. cbn [sv_map]. rewrite get_insert, sets_app. cbn [sets flat_map]. rewrite app_nil_r.
        destruct (String.eqb_spec k (signup_key d)) as [?ZE|?ZN]; [subst k; destruct (R (reserved_key d))|apply H, R].
      * intros [|x [|]] ? ? ?; discriminate.
    + split; [rewrite app_nil_r; exact H|]. intros [|x [|]] ? ? ?; discriminate.
Qed.
Lemma store_exec l : forall s tr, store_ok s tr -> let '(s', o) := exec s l in
  store_ok s' (tr ++ o) /\ (forall o1 k r o2, o = o1 ++ OGet k r :: o2 -> ~ reserved k -> r = last_opt (sets k (tr ++ o1))).
Proof.
  induction l as [|a l IH]; intros s tr H; unfold exec; cbn [Manager18.exec].
  - split; [rewrite app_nil_r; exact H|]. intros [|x o1] ? ? ?; discriminate.
  - pose proof (store_step s tr a H) as Q. unfold step in Q. destruct (Manager18.step oc ser par uuid s a) as [s1 o1] eqn:E. destruct Q as [Q1 Q2].
    specialize (IH s1 (tr ++ o1) Q1). unfold exec in IH. destruct (Manager18.exec oc ser par uuid s1 l) as [s2 o2]. destruct IH as [I1 I2].
    split; [rewrite app_assoc; exact I1|]. intros p k r q EQ R.
    destruct (le_lt_dec (length o1) (length p)) as [L|L].
    + assert (P : p = o1 ++ skipn (length o1) p).
      { apply (f_equal (firstn (length o1))) in EQ. rewrite firstn_app, Nat.sub_diag, firstn_all in EQ. cbn [firstn] in EQ. rewrite app_nil_r in EQ.
        rewrite firstn_app in EQ. replace (length o1 - length p)%nat with 0%nat in EQ by lia. cbn [firstn] in EQ. rewrite app_nil_r in EQ. rewrite EQ at 1. symmetry. apply firstn_skipn. }
      rewrite P, <- app_assoc in EQ. apply app_inv_head in EQ. rewrite P, app_assoc. exact (I2 _ _ _ _ EQ R).
    + assert (P : exists q', o1 = p ++ OGet k r :: q').
      { exists (skipn (S (length p)) o1). apply (f_equal (firstn (length o1))) in EQ. rewrite firstn_app, Nat.sub_diag, firstn_all in EQ. cbn [firstn] in EQ. rewrite app_nil_r in EQ.
        rewrite firstn_app in EQ. rewrite (firstn_all2 p) in EQ by lia. destruct (length o1 - length p)%nat as [|m] eqn:M; [lia|]. cbn [firstn] in EQ.
        rewrite EQ at 2. rewrite skipn_app, skipn_all2 by lia. replace (S (length p) - length p)%nat with 1%nat by lia. cbn [skipn app]. exact EQ. }
      destruct P as [q' P]. exact (Q2 _ _ _ _ P R).
Qed.
Lemma store_init : store_ok sv_init [].
Proof.
  intros k R. unfold sv_init, Manager18.sv_init. cbn [sv_map]. rewrite !get_insert. cbn [sets flat_map last_opt fold_left sm_get].
  destruct (String.eqb_spec k (signup_key Sign)) as [?ZE|?ZN]; [destruct R; right; assumption|].
  destruct (String.eqb_spec k (signup_key Keygen)) as [?ZE'|?ZN']; [destruct R; left; assumption|reflexivity].
Qed.

(** * Signups *)
Hypothesis ser_par : forall p, par (ser p) = Some p.
Variable size : signup_kind -> Z.
Variable pr : signup_kind -> Z.
Hypothesis Hsize : forall d, session_size oc d (pr d) = Some (size d).
Hypothesis Hpos : forall d, 1 <= size d.

Definition tame (a : act) : Prop := match a with ASet k _ => ~ reserved k | ARead d p => p = pr d | _ => True end.
Lemma keys_differ d d' : signup_key d = signup_key d' -> d = d'. Proof. destruct d, d'; cbn; congruence. Qed.
Lemma clear_nth t u l : nth u (clear t l) None = if Nat.eqb u t then None else nth u l None.
Proof.
  revert t u. induction l as [|x l IH]; intros t u; [destruct t, u; cbn [clear nth]; destruct (Nat.eqb _ _); reflexivity|].
  destruct t as [|t], u as [|u]; cbn [clear nth Nat.eqb]; auto.
Qed.
Lemma clear_length t l : length (clear t l) = length l.
Proof. revert t. induction l as [|x l IH]; intros [|t]; cbn [clear length]; auto. Qed.

Record Bound (s : server) : Prop := {
  bd_map : forall d, exists cur, sm_get (signup_key d) (sv_map s) = Some (ser cur) /\ 0 <= ps_number cur <= size d;
  bd_pend : forall t d p, nth t (sv_pending s) None = Some (d, p) -> 1 <= ps_number p <= size d }.
Definition good_obs (o : obs) : Prop := match o with OSigned _ d p => 1 <= ps_number p <= size d | OPanic _ => False | _ => True end.
Lemma bound_init : Bound sv_init.
Proof.
  constructor.
  - intros d. unfold sv_init, Manager18.sv_init. cbn [sv_map]. rewrite !get_insert. pose proof (Hpos d). destruct d; cbn [signup_key]; eexists; (split; [reflexivity|cbn [ps_number]; lia]).
  - intros t d p. cbn. destruct t; discriminate.
Qed.
Lemma next_bound sz cur f : 1 <= sz -> 0 <= ps_number cur <= sz -> 1 <= ps_number (fst (next_signup sz cur f)) <= sz.
Proof. intros P B. unfold next_signup. destruct (Z.ltb_spec (ps_number cur) sz); cbn [fst ps_number]; lia. Qed.
Lemma bound_step s a : Bound s -> tame a -> let '(s', o) := step s a in Bound s' /\ Forall good_obs o.
Proof.
  intros [B1 B2] T. destruct a as [k v|k|d p|t]; unfold step; cbn [Manager18.step tame] in *.
  - split; [|repeat constructor]. constructor; [|exact B2]. intros d. cbn [sv_map]. rewrite get_insert.
    destruct (String.eqb_spec (signup_key d) k) as [?ZE|?ZN]; [subst k; destruct T; apply reserved_key|apply B1].
  - split; [constructor; assumption|repeat constructor].
  - subst p. destruct (B1 d) as (cur & E & R). rewrite E, ser_par, Hsize.
    pose proof (next_bound (size d) cur (uuid (sv_uuids s)) (Hpos d) R) as NB. destruct (next_signup (size d) cur (uuid (sv_uuids s))) as [q drawn]. cbn [fst] in NB.
    split; [|constructor]. constructor; cbn [sv_map sv_pending]; [exact B1|]. intros t d' p'.
    destruct (Nat.lt_trichotomy t (length (sv_pending s))) as [L|[L|L]].
    + rewrite app_nth1 by exact L. apply B2.
    + subst t. rewrite app_nth2, Nat.sub_diag by lia. cbn [nth]. intros [= <- <-]. exact NB.
    + rewrite nth_overflow by (rewrite app_length; cbn; lia). discriminate.
  - destruct (nth t (sv_pending s) None) as [[d p]|] eqn:E; [|split; [constructor; assumption|constructor]].
    pose proof (B2 _ _ _ E) as BP. split; [|repeat constructor; exact (proj1 BP) || exact (proj2 BP)].
    constructor; cbn [sv_map sv_pending].
    + intros d'. rewrite get_insert. destruct (String.eqb_spec (signup_key d') (signup_key d)) as [?ZE|?ZN]; [|apply B1].
      apply keys_differ in ZE. subst d'. exists p. split; [reflexivity|lia].
    + intros u d' p'. rewrite clear_nth. destruct (Nat.eqb u t); [discriminate|apply B2].
Qed.
Lemma bound_exec l : forall s, Bound s -> Forall tame l -> let '(s', o) := exec s l in Bound s' /\ Forall good_obs o.
Proof.
  induction l as [|a l IH]; intros s B T; unfold exec; cbn [Manager18.exec]; [auto|]. inversion T as [|? ? T1 T2]; subst.
  pose proof (bound_step s a B T1) as Q. unfold step in Q. destruct (Manager18.step oc ser par uuid s a) as [s1 o1]. destruct Q as [Q1 Q2].
  specialize (IH s1 Q1 T2). unfold exec in IH. destruct (Manager18.exec oc ser par uuid s1 l) as [s2 o2]. destruct IH. split; [assumption|apply Forall_app; auto].
Qed.

(** * Signups served one at a time *)
Inductive sop := SSet (k v : string) | SGet (k : string) | SSignup (d : signup_kind).
Definition srun1 (s : server) (a : sop) : server * list obs :=
  match a with
  | SSet k v => exec s [ASet k v]
  | SGet k => exec s [AGet k]
  | SSignup d => signup_alone oc ser par uuid d (pr d) s
  end.
Fixpoint srun (s : server) (l : list sop) : server * list obs :=
  match l with [] => (s, []) | a :: l' => let '(s1, o1) := srun1 s a in let '(s2, o2) := srun s1 l' in (s2, o1 ++ o2) end.
Definition stame (a : sop) : Prop := match a with SSet k _ => ~ reserved k | _ => True end.

(** [ids]: the uuids of the sessions opened so far, as positions in the stream *)
Record Sess (d : signup_kind) (s : server) (tr : list obs) (ids : list nat) : Prop := {
  se_nodup : NoDup ids;
  se_old : Forall (fun i => (i < sv_uuids s)%nat) ids;
  se_cur : exists c, sm_get (signup_key d) (sv_map s) = Some (ser {| ps_number := c; ps_uuid := uuid (last ids 0%nat) |}) /\
             Z.of_nat (length (signed d tr)) = size d * (Z.of_nat (length ids) - 1) + c /\ 0 <= c <= size d /\ (c = 0 -> length ids = 1%nat);
  se_ne : ids <> [];
  se_signed : signed d tr = map (fun k => {| ps_number := 1 + Z.of_nat k mod size d; ps_uuid := uuid (nth (Z.to_nat (Z.of_nat k / size d)) ids 0%nat) |}) (seq 0 (length (signed d tr))) }.

Lemma alone_ok d s cur : sm_get (signup_key d) (sv_map s) = Some (ser cur) ->
  signup_alone oc ser par uuid d (pr d) s =
    let '(p, drawn) := next_signup (size d) cur (uuid (sv_uuids s)) in
    ({| sv_map := sm_insert (signup_key d) (ser p) (sv_map s); sv_pending := sv_pending s ++ [None]; sv_uuids := if drawn then S (sv_uuids s) else sv_uuids s |},
     [OSigned (length (sv_pending s)) d p]).
Proof.
  intros E. unfold signup_alone. cbn [Manager18.exec Manager18.step]. rewrite E, ser_par, Hsize.
  destruct (next_signup (size d) cur (uuid (sv_uuids s))) as [p drawn]. cbn [sv_pending]. rewrite app_nth2, Nat.sub_diag by lia. cbn [nth sv_map sv_uuids app].
  replace (clear (length (sv_pending s)) (sv_pending s ++ [Some (d, p)])) with (sv_pending s ++ [@None (signup_kind * party_signup)]); [reflexivity|].
  induction (sv_pending s) as [|x l IH]; [reflexivity|]. cbn [length app clear]. rewrite <- IH. reflexivity.
Qed.

Lemma sess_other d s tr ids s' o : Sess d s tr ids -> (sv_uuids s <= sv_uuids s')%nat -> sm_get (signup_key d) (sv_map s') = sm_get (signup_key d) (sv_map s) ->
  signed d o = [] -> Sess d s' (tr ++ o) ids.
Proof.
  intros [A B (c & C1 & C2) D E] U M O. constructor; auto.
  - eapply Forall_impl; [|exact B]. cbn. intros; lia.
  - exists c. rewrite M, signed_app, O, app_nil_r. auto.
  - rewrite signed_app, O, app_nil_r. exact E.
Qed.

Lemma sess_step d s tr ids a : Sess d s tr ids -> (forall d', exists cur, sm_get (signup_key d') (sv_map s) = Some (ser cur)) -> stame a ->
  let '(s', o) := srun1 s a in (exists ids', Sess d s' (tr ++ o) ids') /\ (forall d', exists cur, sm_get (signup_key d') (sv_map s') = Some (ser cur)).
Proof.
  intros S ALL T. destruct a as [k v|k|d']; cbn [srun1 stame] in *; unfold exec; cbn [Manager18.exec Manager18.step].
  - assert (G : forall d', sm_get (signup_key d') (sm_insert k v (sv_map s)) = sm_get (signup_key d') (sv_map s)).
    { intros d'. rewrite get_insert. destruct (String.eqb_spec (signup_key d') k) as [?ZE|?ZN]; [subst k; destruct T; apply reserved_key|reflexivity]. }
    split; [exists ids; apply (sess_other d s); auto; apply G|]. intros d'. cbn [sv_map]. rewrite G. apply ALL.
  - split; [exists ids; apply (sess_other d s); auto|exact ALL].
  - destruct (ALL d') as [cur EC]. rewrite (alone_ok _ _ _ EC).
    destruct (next_signup (size d') cur (uuid (sv_uuids s))) as [p drawn] eqn:NS. split.
    2:{ intros d2. cbn [sv_map]. rewrite get_insert. destruct (String.eqb (signup_key d2) (signup_key d')); [exists p; reflexivity|apply ALL]. }
    assert (KD : d = d' \/ signup_key d <> signup_key d' /\ signed d [OSigned (length (sv_pending s)) d' p] = []) by (destruct d, d'; [left; reflexivity|right; split; [discriminate|reflexivity]|right; split; [discriminate|reflexivity]|left; reflexivity]).
    destruct KD as [<-|[KD KS]].
    2:{ exists ids. apply (sess_other d s); auto; cbn [sv_uuids sv_map]; [destruct drawn; lia|]. rewrite get_insert. destruct (String.eqb_spec (signup_key d) (signup_key d')); [contradiction|reflexivity]. }
    assert (SO : signed d [OSigned (length (sv_pending s)) d p] = [p]) by (destruct d; reflexivity).
    destruct S as [A B (c & C1 & C2 & C3 & C4) D E]. rewrite C1 in EC. injection EC as EC.
    assert (CUR : cur = {| ps_number := c; ps_uuid := uuid (last ids 0%nat) |}) by (apply (f_equal par) in EC; rewrite !ser_par in EC; congruence).
    subst cur. clear EC. unfold next_signup in NS. cbn [ps_number ps_uuid] in NS. pose proof (Hpos d) as HP.
    set (n := length (signed d tr)) in *. set (m := length ids) in *.
    assert (MP : (1 <= m)%nat) by (unfold m; destruct ids; [contradiction|cbn; lia]).
    destruct (Z.ltb_spec c (size d)) as [LT|GE]; injection NS as <- <-.
    + assert (DV : Z.of_nat n / size d = Z.of_nat m - 1) by (symmetry; apply (Z.div_unique_pos _ _ _ c); lia).
      assert (MD : Z.of_nat n mod size d = c) by (symmetry; apply (Z.mod_unique_pos _ _ (Z.of_nat m - 1)); lia).
      exists ids. constructor; auto.
      * exists (c + 1). cbn [sv_map]. rewrite get_insert, String.eqb_refl, signed_app, SO, app_length. cbn [length]. fold n. fold m. repeat split; lia.
      * rewrite signed_app, SO, app_length. cbn [length]. fold n. rewrite Nat.add_1_r, seq_S, map_app. rewrite E at 1. fold n. f_equal. cbn [map Nat.add]. f_equal. f_equal; [lia|].
        f_equal. rewrite DV. replace (Z.to_nat (Z.of_nat m - 1)) with (m - 1)%nat by lia. unfold m.
        rewrite (app_removelast_last 0%nat D) at 2 3. rewrite app_length. cbn [length]. rewrite Nat.add_sub, app_nth2, Nat.sub_diag by lia. reflexivity.
    + assert (c = size d) by lia. subst c.
      assert (DV : Z.of_nat n / size d = Z.of_nat m) by (symmetry; apply (Z.div_unique_pos _ _ _ 0); lia).
      assert (MD : Z.of_nat n mod size d = 0) by (symmetry; apply (Z.mod_unique_pos _ _ (Z.of_nat m)); lia).
      exists (ids ++ [sv_uuids s]). constructor.
      * apply NoDup_rev in A. rewrite <- rev_involutive, rev_app_distr. apply NoDup_rev. cbn [rev app]. constructor; [|exact A].
        intros I. apply in_rev in I. rewrite Forall_forall in B. apply B in I. lia.
      * cbn [sv_uuids]. apply Forall_app. split; [eapply Forall_impl; [|exact B]; cbn; intros; lia|repeat constructor].
      * exists 1. cbn [sv_map]. rewrite get_insert, String.eqb_refl, signed_app, SO, !app_length, last_last. cbn [length]. fold n. fold m. repeat split; lia.
      * destruct ids; discriminate.
      * rewrite signed_app, SO, app_length. cbn [length]. fold n. rewrite Nat.add_1_r, seq_S, map_app. rewrite E at 1. fold n. f_equal.
        -- apply map_ext_in. intros k K. apply in_seq in K. f_equal. f_equal. rewrite app_nth1; [reflexivity|]. fold m.
           assert (Z.of_nat k / size d < Z.of_nat m) by (apply Z.div_lt_upper_bound; lia). pose proof (Z.div_pos (Z.of_nat k) (size d)). lia.
        -- cbn [map Nat.add]. f_equal. rewrite MD, DV. f_equal. rewrite Nat2Z.id, app_nth2 by (fold m; lia). fold m. rewrite Nat.sub_diag. reflexivity.
Qed.
Lemma sess_init d : Sess d sv_init [] [match d with Keygen => 0%nat | Sign => 1%nat end].
Proof.
  constructor; try discriminate.
  - repeat constructor. auto.
  - destruct d; repeat constructor.
  - exists 0. pose proof (Hpos d). destruct d; (split; [reflexivity|]); cbn [signed flat_map length]; repeat split; lia.
  - destruct d; reflexivity.
Qed.
Lemma srun_sess d l : forall s tr ids, Sess d s tr ids -> (forall d', exists cur, sm_get (signup_key d') (sv_map s) = Some (ser cur)) -> Forall stame l ->
  let '(s', o) := srun s l in exists ids', Sess d s' (tr ++ o) ids'.
Proof.
  induction l as [|a l IH]; intros s tr ids S ALL T; cbn [srun]; [exists ids; rewrite app_nil_r; exact S|]. inversion T as [|? ? T1 T2]; subst.
  pose proof (sess_step d s tr ids a S ALL T1) as Q. destruct (srun1 s a) as [s1 o1]. destruct Q as [[ids1 Q] ALL1].
  specialize (IH s1 (tr ++ o1) ids1 Q ALL1 T2). destruct (srun s1 l) as [s2 o2]. rewrite app_assoc. exact IH.
Qed.
Lemma init_parse d' : exists cur, sm_get (signup_key d') (sv_map sv_init) = Some (ser cur).
Proof. destruct d'; eexists; reflexivity. Qed.
End P.

(** * Keys *)
Fixpoint nodash (s : string) : bool := match s with EmptyString => true | String c s' => negb (Ascii.eqb c "-"%char) && nodash s' end.
Lemma app_sep a a' b b' : nodash a = true -> nodash a' = true -> (a ++ dash ++ b = a' ++ dash ++ b')%string -> a = a' /\ b = b'.
Proof.
  revert a'. induction a as [|c a IH]; intros a' N N' E; destruct a' as [|c' a']; cbn [append nodash dash] in *.
  - injection E as E. auto.
  - injection E as <- E. discriminate.
  - injection E as -> E. discriminate.
  - injection E as <- E. apply andb_prop in N, N'. destruct (IH a' (proj2 N) (proj2 N') E) as [-> ->]. auto.
Qed.
Lemma digits_nodash d : nodash (NilEmpty.string_of_uint d) = true.
Proof. induction d as [|d IH|d IH|d IH|d IH|d IH|d IH|d IH|d IH|d IH|d IH]; cbn; auto. Qed.
Lemma dec_nodash n : nodash (dec n) = true.
Proof. unfold dec, NilZero.string_of_uint. destruct (N.to_uint n); try apply digits_nodash. reflexivity. Qed.
Lemma to_uint_nonnil n : N.to_uint n <> Decimal.Nil.
Proof. intros E. pose proof (DecimalN.Unsigned.of_to n) as Q. rewrite E in Q. cbn in Q. subst n. discriminate. Qed.
Lemma dec_inj n m : dec n = dec m -> n = m.
Proof.
  intros E. unfold dec in E. apply (f_equal NilZero.uint_of_string) in E. rewrite !NilZero.usu in E by apply to_uint_nonnil. injection E as E. apply DecimalN.Unsigned.to_uint_inj, E.
Qed.
Lemma app_assoc_s (a b c : string) : ((a ++ b) ++ c = a ++ b ++ c)%string.
Proof. induction a as [|x a IH]; cbn [append]; [reflexivity|rewrite IH; reflexivity]. Qed.
Lemma bkey_inj p r u p' r' u' : nodash r = true -> nodash r' = true -> bkey p r u = bkey p' r' u' -> p = p' /\ r = r' /\ u = u'.
Proof.
  intros N N' E. unfold bkey in E. apply app_sep in E; [|apply dec_nodash|apply dec_nodash]. destruct E as [E1 E2]. apply dec_inj in E1.
  apply app_sep in E2; auto.
Qed.
Lemma pkey_inj p q r u p' q' r' u' : nodash r = true -> nodash r' = true -> pkey p q r u = pkey p' q' r' u' -> p = p' /\ q = q' /\ r = r' /\ u = u'.
Proof.
  intros N N' E. unfold pkey in E. apply app_sep in E; [|apply dec_nodash|apply dec_nodash]. destruct E as [E1 E2]. apply dec_inj in E1.
  apply app_sep in E2; [|apply dec_nodash|apply dec_nodash]. destruct E2 as [E2 E3]. apply dec_inj in E2. apply app_sep in E3; auto.
Qed.
Lemma bkey_pkey p r u p' q' r' u' : nodash r = true -> (forall n, r <> dec n) -> bkey p r u <> pkey p' q' r' u'.
Proof.
  intros N D E. unfold bkey, pkey in E. apply app_sep in E; [|apply dec_nodash|apply dec_nodash]. destruct E as [_ E2].
  apply app_sep in E2; [|exact N|apply dec_nodash]. exact (D _ (proj1 E2)).
Qed.
Lemma dec_not_s n s : dec n <> String "s"%char s.
Proof. unfold dec, NilZero.string_of_uint. destruct (N.to_uint n); cbn; discriminate. Qed.
Lemma key_not_reserved n s : ~ reserved (dec n ++ dash ++ s)%string.
Proof.
  intros [E|E]; cbn [signup_key] in E.
  - change "signup-keygen"%string with ("signup" ++ dash ++ "keygen")%string in E. apply app_sep in E; [|apply dec_nodash|reflexivity]. apply (dec_not_s n _ (proj1 E)).
  - change "signup-sign"%string with ("signup" ++ dash ++ "sign")%string in E. apply app_sep in E; [|apply dec_nodash|reflexivity]. apply (dec_not_s n _ (proj1 E)).
Qed.

(** * Polling *)
Lemma all_some_map {A B} (f : A -> option B) (g : A -> B) l : (forall x, In x l -> f x = Some (g x)) -> all_some (map f l) = Some (map g l).
Proof. induction l as [|x l IH]; intros H; [reflexivity|]. cbn [map all_some]. rewrite H by (left; reflexivity). rewrite IH; [reflexivity|]. intros y Y. apply H. right. exact Y. Qed.
Lemma all_some_none {A B} (f : A -> option B) l x : In x l -> f x = None -> all_some (map f l) = None.
Proof. induction l as [|y l IH]; intros I E; [destruct I|]. destruct I as [->|I]; cbn [map all_some]; [rewrite E; reflexivity|]. rewrite (IH I E). destruct (f y); reflexivity. Qed.
Lemma last_in {A} (l : list A) x : last_opt l = Some x -> In x l.
Proof. destruct l as [|y l] using rev_ind; [discriminate|]. rewrite last_opt_snoc. intros [= ->]. apply in_or_app. right. left. reflexivity. Qed.
Lemma last_none {A} (l : list A) : last_opt l = None -> l = [].
Proof. destruct l as [|y l] using rev_ind; [reflexivity|]. rewrite last_opt_snoc. discriminate. Qed.
Lemma in_sets k v tr : In v (sets k tr) <-> In (OSet k v) tr.
Proof.
  unfold sets. rewrite in_flat_map. split.
  - intros ([k' v'| | |] & I & V); try contradiction. destruct (String.eqb_spec k k') as [->|?ZN]; [|contradiction]. destruct V as [->|[]]. exact I.
  - intros I. exists (OSet k v). split; [exact I|]. rewrite String.eqb_refl. left. reflexivity.
Qed.

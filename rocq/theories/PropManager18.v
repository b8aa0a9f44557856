(** C71-C73, C89: the GG18 relay server and its clients. *)
From Coq Require Import String Ascii ZArith Bool Lia Sorted List.
From Verif Require Import Manager18 Manager18Proofs.
Import ListNotations.
Open Scope string_scope.
Open Scope list_scope.
Open Scope Z_scope.

(** * C72: get returns the value of the latest set, under every interleaving, for every key but the two signup keys. *)
Theorem C72_get_last_set : forall oc ser par uuid l s tr, exec oc ser par uuid (sv_init ser uuid) l = (s, tr) ->
  forall tr1 k r tr2, tr = tr1 ++ OGet k r :: tr2 -> k <> "signup-keygen" -> k <> "signup-sign" -> r = last_opt (sets k tr1).
Proof.
  intros oc ser par uuid l s tr E tr1 k r tr2 T N1 N2. pose proof (store_exec oc ser par uuid l _ _ (store_init ser uuid)) as Q. rewrite E in Q.
  destruct Q as [_ Q]. apply (Q _ _ _ _ T). intros [->| ->]; [apply N1|apply N2]; reflexivity.
Qed.
Print Assumptions C72_get_last_set.
(** The specification functions, on a trace *)
Example C72_example : last_opt (sets "a" [OSet "a" "1"; OSet "b" "2"; OSet "a" "3"; OSet "c" "4"]) = Some "3" /\ last_opt (sets "d" [OSet "a" "1"]) = None.
Proof. split; reflexivity. Qed.
Definition exser (p : party_signup) : string := dec (Z.to_N (ps_number p)) ++ dash ++ ps_uuid p.
(** What reads back the records written by [exser], for numbers up to 9 *)
Definition expar (s : string) : option party_signup :=
  match s with
  | String c (String "-" u) => Some {| ps_number := Z.of_nat (nat_of_ascii c) - 48; ps_uuid := u |}
  | _ => None
  end.
Definition exuuid (k : nat) : string := dec (N.of_nat k).
Example C72_run_example : snd (exec true exser expar exuuid (sv_init exser exuuid) [AGet "a"; ASet "a" "1"; ARead Keygen 2; ASet "b" "2"; AWrite 0; AGet "a"; ASet "a" "3"; AGet "a"; AGet "b"]) =
  [OGet "a" None; OSet "a" "1"; OSet "b" "2"; OSigned 0 Keygen {| ps_number := 1; ps_uuid := "0" |}; OGet "a" (Some "1"); OSet "a" "3"; OGet "a" (Some "3"); OGet "b" (Some "2")].
Proof. vm_compute. reflexivity. Qed.
(** The two signup keys live in the same table: they have a value although nobody set one. *)
Theorem C72_signup_keys_refuted : forall oc ser par uuid, exists l s tr tr1 k r tr2,
  exec oc ser par uuid (sv_init ser uuid) l = (s, tr) /\ tr = tr1 ++ OGet k r :: tr2 /\ r <> last_opt (sets k tr1).
Proof.
  intros oc ser par uuid. exists [AGet "signup-keygen"], (sv_init ser uuid), [OGet "signup-keygen" (Some (ser {| ps_number := 0; ps_uuid := uuid 0%nat |}))], [], "signup-keygen",
    (Some (ser {| ps_number := 0; ps_uuid := uuid 0%nat |})), []. split; [reflexivity|split; [reflexivity|discriminate]].
Qed.
Print Assumptions C72_signup_keys_refuted.

(** * C71: signups *)
Section C71.
Variables (oc : bool) (ser : party_signup -> string) (par : string -> option party_signup) (uuid : nat -> string).
Hypothesis ser_par : forall p, par (ser p) = Some p.
Hypothesis uuid_fresh : forall i j, uuid i = uuid j -> i = j.
(** The numbers in params.json, and how many signups make a session: key generation has as many parties as params.json
    says, signing one more than the threshold in it. *)
Definition parties_of (d : signup_kind) (param : Z) : Z := match d with Keygen => param | Sign => param + 1 end.
Variable pr : signup_kind -> Z.
Hypothesis Hpr : forall d, 1 <= parties_of d (pr d) < 65536.
Notation size d := (parties_of d (pr d)).
Lemma Hsize d : session_size oc d (pr d) = Some (size d).
Proof. pose proof (Hpr d) as H. destruct d; cbn in *; [reflexivity|]. replace (_ <? _) with true by (symmetry; apply Z.ltb_lt; lia). reflexivity. Qed.
Lemma Hpos d : 1 <= size d.
Proof. exact (proj1 (Hpr d)). Qed.

(** Served one at a time, with any gets and sets (of other keys) in between, the signups of a kind get the numbers
    1 .. size of a first session, then 1 .. size of a second one, and so on; different sessions have different uuids. *)
Theorem C71_sequential : forall l s tr, Forall stame l -> srun oc ser par uuid pr (sv_init ser uuid) l = (s, tr) -> forall d,
  exists session : nat -> string,
    (forall k k', (k < length (signed d tr))%nat -> (k' < length (signed d tr))%nat -> session (Z.to_nat (Z.of_nat k / size d)) = session (Z.to_nat (Z.of_nat k' / size d)) -> Z.of_nat k / size d = Z.of_nat k' / size d) /\
    forall k p, nth_error (signed d tr) k = Some p -> ps_number p = 1 + Z.of_nat k mod size d /\ ps_uuid p = session (Z.to_nat (Z.of_nat k / size d)).
Proof.
  intros l s tr T E d. pose proof (srun_sess oc ser par uuid ser_par (fun d => size d) pr Hsize Hpos d l _ _ _ (sess_init ser uuid (fun d => size d) Hpos d) (init_parse ser uuid) T) as Q.
  rewrite E in Q. destruct Q as [ids [A B (c & C1 & C2 & C3 & C4) D S]]. cbn [app] in *. exists (fun i => uuid (nth i ids 0%nat)). pose proof (Hpos d) as HP.
  assert (IN : forall k, (k < length (signed d tr))%nat -> (Z.to_nat (Z.of_nat k / size d) < length ids)%nat).
  { intros k K. assert (Z.of_nat k / size d < Z.of_nat (length ids)) by (apply Z.div_lt_upper_bound; nia). pose proof (Z.div_pos (Z.of_nat k) (size d)). lia. }
  split.
  - intros k k' K K' U. apply uuid_fresh in U. rewrite (NoDup_nth ids 0%nat) in A. specialize (A _ _ (IN k K) (IN k' K') U).
    pose proof (Z.div_pos (Z.of_nat k) (size d)). pose proof (Z.div_pos (Z.of_nat k') (size d)). lia.
  - intros k p N. assert (KL : (k < length (signed d tr))%nat) by (apply nth_error_Some; congruence).
    rewrite S, nth_error_map, (nth_error_nth' _ 0%nat), seq_nth in N by (rewrite ?seq_length; exact KL). cbn [option_map Nat.add] in N. injection N as <-. auto.
Qed.

(** Hence within one session no number is given twice. *)
Theorem C71_distinct : forall l s tr, Forall stame l -> srun oc ser par uuid pr (sv_init ser uuid) l = (s, tr) -> forall d k k' p p',
  nth_error (signed d tr) k = Some p -> nth_error (signed d tr) k' = Some p' -> ps_uuid p = ps_uuid p' -> ps_number p = ps_number p' -> k = k'.
Proof.
  intros l s tr T E d k k' p p' N N' U V. destruct (C71_sequential l s tr T E d) as (ss & F & G). destruct (G _ _ N) as [G1 G2]. destruct (G _ _ N') as [G3 G4].
  assert (KL : (k < length (signed d tr))%nat) by (apply nth_error_Some; congruence). assert (KL' : (k' < length (signed d tr))%nat) by (apply nth_error_Some; congruence).
  rewrite G2, G4 in U. apply F in U; auto. pose proof (Hpos d). pose proof (Z.div_mod (Z.of_nat k) (size d)). pose proof (Z.div_mod (Z.of_nat k') (size d)).
  rewrite U in *. lia.
Qed.

(** Under every interleaving, concurrent signups included: no number outside 1 .. size is given and no request crashes,
    as long as nobody overwrites the signup records. *)
Theorem C71_range : forall l s tr, Forall (tame pr) l -> exec oc ser par uuid (sv_init ser uuid) l = (s, tr) ->
  (forall t d p, In (OSigned t d p) tr -> 1 <= ps_number p <= size d) /\ (forall d, ~ In (OPanic d) tr).
Proof.
  intros l s tr T E. pose proof (bound_exec oc ser par uuid ser_par (fun d => size d) pr Hsize Hpos l _ (bound_init ser uuid (fun d => size d) Hpos) T) as Q. rewrite E in Q.
  destruct Q as [_ Q]. rewrite Forall_forall in Q. split; [intros t d p I; exact (Q _ I)|intros d I; exact (Q _ I)].
Qed.

(** The claim is false for concurrent signups: in every state with a place left, two requests that both read before
    either writes get the same number in the same session. *)
Theorem C71_concurrent_refuted : forall s d cur, sm_get (signup_key d) (sv_map s) = Some (ser cur) -> ps_number cur < size d ->
  let t := length (sv_pending s) in
  exists s' p, exec oc ser par uuid s [ARead d (pr d); ARead d (pr d); AWrite t; AWrite (S t)] = (s', [OSigned t d p; OSigned (S t) d p]).
Proof.
  intros s d cur E L t. cbn [exec step]. rewrite E, ser_par, Hsize. unfold next_signup. apply Z.ltb_lt in L. rewrite L. cbn [sv_map sv_pending sv_uuids]. rewrite ?E, ?ser_par, ?Hsize, ?L.
  cbn [sv_map sv_pending sv_uuids]. set (p := {| ps_number := ps_number cur + 1; ps_uuid := ps_uuid cur |}).
  rewrite <- app_assoc. cbn [app]. subst t. rewrite app_nth2, Nat.sub_diag by lia. cbn [nth sv_pending].
  replace (nth (S (length (sv_pending s))) _ None) with (Some (d, p)).
  - cbn [app]. eexists _, p. reflexivity.
  - rewrite clear_nth. replace (Nat.eqb (S (length (sv_pending s))) (length (sv_pending s))) with false by (symmetry; apply Nat.eqb_neq; lia).
    rewrite app_nth2 by lia. replace (S (length (sv_pending s)) - length (sv_pending s))%nat with 1%nat by lia. reflexivity.
Qed.
(** Nor does it survive a client that sets the key of the signup record to something else: every signup then crashes. *)
Theorem C71_overwritten_refuted : forall s d v, par v = None -> exists s1, exec oc ser par uuid s [ASet (signup_key d) v] = (s1, [OSet (signup_key d) v]) /\
  snd (exec oc ser par uuid s1 [ARead d (pr d)]) = [OPanic d].
Proof.
  intros s d v P. eexists. split; [reflexivity|]. cbn [exec step sv_map]. rewrite get_insert, String.eqb_refl, P. reflexivity.
Qed.
End C71.
Print Assumptions C71_sequential.
Print Assumptions C71_distinct.
Print Assumptions C71_range.
Print Assumptions C71_concurrent_refuted.
Print Assumptions C71_overwritten_refuted.
Definition expr (d : signup_kind) : Z := match d with Keygen => 3 | Sign => 1 end.
Example C71_example : (forall d, 1 <= parties_of d (expr d) < 65536) /\
  let tr := snd (srun true exser expar exuuid expr (sv_init exser exuuid) [SSignup Keygen; SSignup Sign; SSignup Keygen; SSet "k" "v"; SSignup Keygen; SSignup Keygen; SGet "k"; SSignup Sign; SSignup Sign]) in
  map (fun p => (ps_number p, ps_uuid p)) (signed Keygen tr) = [(1, "0"); (2, "0"); (3, "0"); (1, "2")] /\
  map (fun p => (ps_number p, ps_uuid p)) (signed Sign tr) = [(1, "1"); (2, "1"); (1, "3")].
Proof. split; [intros []; cbn; lia|vm_compute; auto]. Qed.
Example C71_concurrent_example : snd (exec true exser expar exuuid (sv_init exser exuuid) [ARead Keygen 3; ARead Keygen 3; AWrite 0; AWrite 1]) =
  [OSigned 0 Keygen {| ps_number := 1; ps_uuid := "0" |}; OSigned 1 Keygen {| ps_number := 1; ps_uuid := "0" |}].
Proof. vm_compute. reflexivity. Qed.
(** A serialisation and a stream of uuids that meet the hypotheses *)
Fixpoint ones (n : nat) (s : string) : string := match n with O => s | S n' => String "1" (ones n' s) end.
Fixpoint unones (s : string) : option (nat * string) :=
  match s with
  | String "1" s' => match unones s' with Some (n, u) => Some (S n, u) | None => None end
  | String "-" u => Some (0%nat, u)
  | _ => None
  end.
Definition unser (p : party_signup) : string := String (if ps_number p <? 0 then "n" else "p") (ones (Z.to_nat (Z.abs (ps_number p))) (String "-" (ps_uuid p))).
Definition unpar (s : string) : option party_signup :=
  match s with
  | String c s' => match unones s' with
      | Some (n, u) => Some {| ps_number := if Ascii.eqb c "n" then - Z.of_nat n else Z.of_nat n; ps_uuid := u |} | None => None end
  | _ => None
  end.
Example C71_hypotheses_example : (forall p, unpar (unser p) = Some p) /\ (forall i j, exuuid i = exuuid j -> i = j).
Proof.
  split.
  - intros [n u]. unfold unser, unpar. cbn [ps_number ps_uuid].
    assert (Q : forall k, unones (ones k (String "-" u)) = Some (k, u)) by (induction k as [|k IH]; cbn [ones unones]; [reflexivity|rewrite IH; reflexivity]).
    rewrite Q. do 2 f_equal. destruct (Z.ltb_spec n 0); cbn [Ascii.eqb Bool.eqb]; lia.
  - intros i j E. apply dec_inj in E. lia.
Qed.

(** * C73: relay keys *)
Theorem C73_injective : forall p q r u p' q' r' u', nodash r = true -> nodash r' = true ->
  (bkey p r u = bkey p' r' u' -> p = p' /\ r = r' /\ u = u') /\
  (pkey p q r u = pkey p' q' r' u' -> p = p' /\ q = q' /\ r = r' /\ u = u') /\
  ((forall n, r <> dec n) -> bkey p r u <> pkey p' q' r' u') /\
  (bkey p r u <> "signup-keygen" /\ bkey p r u <> "signup-sign" /\ pkey p q r u <> "signup-keygen" /\ pkey p q r u <> "signup-sign").
Proof.
  intros p q r u p' q' r' u' N N'. split; [apply bkey_inj; assumption|]. split; [apply pkey_inj; assumption|]. split; [apply bkey_pkey; assumption|].
  repeat split; intros E; unfold bkey, pkey in E; [apply (key_not_reserved p (r ++ dash ++ u))|apply (key_not_reserved p (r ++ dash ++ u))|
    apply (key_not_reserved p (dec q ++ dash ++ r ++ dash ++ u))|apply (key_not_reserved p (dec q ++ dash ++ r ++ dash ++ u))]; [left|right|left|right]; exact E.
Qed.
Print Assumptions C73_injective.
(** The round names the clients use meet the conditions. *)
Lemma round_not_dec s n : String "r" s <> dec n.
Proof. unfold dec, DecimalString.NilZero.string_of_uint. destruct (N.to_uint n); cbn; discriminate. Qed.
Example C73_example : Forall (fun r => nodash r = true /\ forall n, r <> dec n) ["round0"; "round1"; "round2"; "round3"; "round4"; "round5"; "round6"; "round7"; "round8"; "round9"] /\
  bkey 1 "round1" "u" = "1-round1-u" /\ pkey 12 3 "round2" "u" = "12-3-round2-u".
Proof. split; [repeat constructor; intros n; apply round_not_dec|split; reflexivity]. Qed.
(** For arbitrary round names the claim is false: a broadcast can take the key of a point-to-point message, and two
    broadcasts of different rounds and sessions can share a key. *)
Theorem C73_dashes_refuted : forall p q r u, bkey p (dec q ++ dash ++ r)%string u = pkey p q r u /\
  bkey p (r ++ dash ++ u)%string "x" = bkey p r (u ++ dash ++ "x")%string /\ r <> (r ++ dash ++ u)%string.
Proof.
  intros p q r u. split; [|split].
  - unfold bkey, pkey. rewrite !app_assoc_s. reflexivity.
  - unfold bkey. rewrite !app_assoc_s. reflexivity.
  - intros E. induction r as [|c r IH]; [discriminate|]. cbn [append] in E. injection E as E. contradiction.
Qed.
Print Assumptions C73_dashes_refuted.

(** * C89: polling returns every peer's own message *)
(** Clients following the protocol: every value set is the sender's message for that round and session (and receiver). *)
Definition round_ok (r : string) : Prop := nodash r = true /\ forall n, r <> dec n.
Inductive proper_set (B : N -> string -> string -> string) (P : N -> N -> string -> string -> string) : act -> Prop :=
  | ps_broadcast i r u : round_ok r -> proper_set B P (ASet (bkey i r u) (B i r u))
  | ps_p2p i j r u : round_ok r -> proper_set B P (ASet (pkey i j r u) (P i j r u))
  | ps_get k : proper_set B P (AGet k)
  | ps_read d p : proper_set B P (ARead d p)
  | ps_write t : proper_set B P (AWrite t).

Lemma obs_set oc ser par uuid l : forall s k v, In (OSet k v) (snd (exec oc ser par uuid s l)) -> In (ASet k v) l.
Proof.
  induction l as [|a l IH]; intros s k v; cbn [exec]; [cbn; auto|].
  assert (Q : In (OSet k v) (snd (step oc ser par uuid s a)) -> a = ASet k v).
  { destruct a as [k' v'|k'|d p|t]; cbn [step].
    - cbn. intros [[= -> ->]|[]]. reflexivity.
    - cbn. intros [E|[]]. discriminate.
    - destruct (sm_get _ _) as [x|]; [destruct (par x); [destruct (session_size oc d p); [destruct (next_signup _ _ _)|]|]|]; cbn; intros H; repeat destruct H as [H|H]; try discriminate; contradiction.
    - destruct (nth t (sv_pending s) None) as [[d p]|]; cbn; intros H; repeat destruct H as [H|H]; try discriminate; contradiction. }
  destruct (step oc ser par uuid s a) as [s1 o1]. specialize (IH s1 k v). destruct (exec oc ser par uuid s1 l) as [s2 o2]. cbn [snd] in *.
  rewrite in_app_iff. intros [I|I]; [left; auto|right; auto].
Qed.

(** The other parties of an [n]-party session, in order *)
Definition the_others (me : N) (n : nat) (o : list N) : Prop := StronglySorted N.lt o /\ forall i, In i o <-> (1 <= i <= N.of_nat n)%N /\ i <> me.
Lemma others_others me n : the_others me n (others_n me n).
Proof.
  unfold others_n. split.
  - enough (forall k, StronglySorted N.lt (filter (fun i => negb (N.eqb i me)) (map N.of_nat (seq k n)))) as Q by apply Q.
    induction n as [|n IH]; intros k; cbn [seq map filter]; [constructor|].
    destruct (negb _); [|apply IH]. constructor; [apply IH|]. apply Forall_forall. intros x X. apply filter_In in X. destruct X as [X _]. apply in_map_iff in X.
    destruct X as (y & <- & Y). apply in_seq in Y. lia.
  - intros i. rewrite filter_In, in_map_iff, negb_true_iff, N.eqb_neq. split.
    + intros [(y & <- & Y) E]. apply in_seq in Y. lia.
    + intros [B E]. split; [|exact E]. exists (N.to_nat i). rewrite in_seq. lia.
Qed.
Lemma sorted_ext (l l' : list N) : StronglySorted N.lt l -> StronglySorted N.lt l' -> (forall i, In i l <-> In i l') -> l = l'.
Proof.
  intros S. revert l'. induction S as [|x l S IH F]; intros l' S' E.
  - destruct l' as [|y l']; [reflexivity|]. destruct (proj2 (E y)); left; reflexivity.
  - destruct S' as [|y l' S' F']; [destruct (proj1 (E x)); left; reflexivity|]. rewrite Forall_forall in F, F'.
    assert (x = y). { destruct (proj1 (E x) (or_introl eq_refl)) as [A|A]; [auto|]. destruct (proj2 (E y) (or_introl eq_refl)) as [B|B]; [auto|]. apply F in B. apply F' in A. lia. }
    subst y. f_equal. apply IH; [exact S'|]. intros i. split; intros I.
    + destruct (proj1 (E i) (or_intror I)) as [A|A]; [|exact A]. apply F in I. lia.
    + destruct (proj2 (E i) (or_intror I)) as [A|A]; [|exact A]. apply F' in I. lia.
Qed.
Lemma others_unique me n o : the_others me n o -> o = others_n me n.
Proof. intros [S E]. destruct (others_others me n) as [S' E']. apply sorted_ext; auto. intros i. rewrite E, E'. reflexivity. Qed.

Theorem C89_poll_broadcasts : forall oc ser par uuid B P l s tr, Forall (proper_set B P) l -> exec oc ser par uuid (sv_init ser uuid) l = (s, tr) ->
  forall me n o r u, round_ok r -> the_others me n o ->
  ((forall i, In i o -> exists v, In (OSet (bkey i r u) v) tr) -> poll_broadcasts (sv_map s) me n r u = Some (map (fun i => B i r u) o)) /\
  ((exists i, In i o /\ forall v, ~ In (OSet (bkey i r u) v) tr) -> poll_broadcasts (sv_map s) me n r u = None).
Proof.
  intros oc ser par uuid B P l s tr H E me n o r u [R1 R2] O. rewrite (others_unique _ _ _ O). clear o O. pose proof (store_exec oc ser par uuid l _ _ (store_init ser uuid)) as Q. rewrite E in Q. destruct Q as [Q _]. cbn [app] in Q.
  assert (V : forall i v, In (OSet (bkey i r u) v) tr -> v = B i r u).
  { intros i v I. assert (A : In (ASet (bkey i r u) v) l) by (apply (obs_set oc ser par uuid l (sv_init ser uuid)); rewrite E; exact I).
    rewrite Forall_forall in H. apply H in A. inversion A as [i' r' u' [X1 X2] K|i' j' r' u' [X1 X2] K| | |].
    - destruct (bkey_inj _ _ _ _ _ _ X1 R1 K) as (-> & -> & ->). reflexivity.
    - exfalso. symmetry in K. exact (bkey_pkey _ _ _ _ _ _ _ R1 R2 K). }
  assert (NR : forall i, ~ reserved (bkey i r u)) by (intros i; apply key_not_reserved).
  unfold poll_broadcasts. split.
  - intros ALL. apply all_some_map. intros i I. rewrite (Q _ (NR i)). destruct (ALL i I) as [v IV].
    destruct (last_opt (sets (bkey i r u) tr)) as [w|] eqn:L.
    + apply last_in, in_sets, V in L. congruence.
    + apply last_none in L. apply in_sets in IV. rewrite L in IV. destruct IV.
  - intros (i & I & NV). apply (all_some_none _ _ i I). rewrite (Q _ (NR i)). destruct (last_opt (sets (bkey i r u) tr)) as [w|] eqn:L; [|reflexivity].
    apply last_in, in_sets in L. destruct (NV w L).
Qed.
Print Assumptions C89_poll_broadcasts.
Theorem C89_poll_p2p : forall oc ser par uuid B P l s tr, Forall (proper_set B P) l -> exec oc ser par uuid (sv_init ser uuid) l = (s, tr) ->
  forall me n o r u, round_ok r -> the_others me n o ->
  ((forall i, In i o -> exists v, In (OSet (pkey i me r u) v) tr) -> poll_p2p (sv_map s) me n r u = Some (map (fun i => P i me r u) o)) /\
  ((exists i, In i o /\ forall v, ~ In (OSet (pkey i me r u) v) tr) -> poll_p2p (sv_map s) me n r u = None).
Proof.
  intros oc ser par uuid B P l s tr H E me n o r u [R1 R2] O. rewrite (others_unique _ _ _ O). clear o O. pose proof (store_exec oc ser par uuid l _ _ (store_init ser uuid)) as Q. rewrite E in Q. destruct Q as [Q _]. cbn [app] in Q.
  assert (V : forall i v, In (OSet (pkey i me r u) v) tr -> v = P i me r u).
  { intros i v I. assert (A : In (ASet (pkey i me r u) v) l) by (apply (obs_set oc ser par uuid l (sv_init ser uuid)); rewrite E; exact I).
    rewrite Forall_forall in H. apply H in A. inversion A as [i' r' u' [X1 X2] K|i' j' r' u' [X1 X2] K| | |].
    - exfalso. exact (bkey_pkey _ _ _ _ _ _ _ X1 X2 K).
    - destruct (pkey_inj _ _ _ _ _ _ _ _ X1 R1 K) as (-> & -> & -> & ->). reflexivity. }
  assert (NR : forall i, ~ reserved (pkey i me r u)) by (intros i; apply key_not_reserved).
  unfold poll_p2p. split.
  - intros ALL. apply all_some_map. intros i I. rewrite (Q _ (NR i)). destruct (ALL i I) as [v IV].
    destruct (last_opt (sets (pkey i me r u) tr)) as [w|] eqn:L.
    + apply last_in, in_sets, V in L. congruence.
    + apply last_none in L. apply in_sets in IV. rewrite L in IV. destruct IV.
  - intros (i & I & NV). apply (all_some_none _ _ i I). rewrite (Q _ (NR i)). destruct (last_opt (sets (pkey i me r u) tr)) as [w|] eqn:L; [|reflexivity].
    apply last_in, in_sets in L. destruct (NV w L).
Qed.
Print Assumptions C89_poll_p2p.
(** Party 2 of 3 polls: parties 1 and 3 in order, in spite of other rounds, sessions and messages in between *)
Example C89_example : let l := [ASet (bkey 3 "round1" "u") "c"; ASet (bkey 1 "round2" "u") "x"; ASet (pkey 1 2 "round1" "u") "y"; ASet (bkey 1 "round1" "u") "a"; ASet (bkey 1 "round1" "w") "z"] in
  the_others 2 3 [1; 3]%N /\
  poll_broadcasts (sv_map (fst (exec true exser expar exuuid (sv_init exser exuuid) l))) 2 3 "round1" "u" = Some ["a"; "c"] /\
  poll_broadcasts (sv_map (fst (exec true exser expar exuuid (sv_init exser exuuid) (firstn 3 l)))) 2 3 "round1" "u" = None.
Proof. split; [exact (others_others 2 3)|vm_compute; auto]. Qed.

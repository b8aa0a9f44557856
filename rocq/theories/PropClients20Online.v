(** The online stage of the example signing clients over the relay: C95. *)
From Coq Require Import String ZArith Lia Bool Permutation Field List.
From Verif Require Import ZArithX Fq Curve Toy Outcome Sigma SigmaProofs Bytes Vss VssProofs Paillier RangeProofs Pdl PdlSlack Mta Ecdsa EcdsaProofs Mp MpProofs Gg20Keygen KeygenRun Gg20Sign SignRun SignProofs SignRunProofs KeygenRunProofs Blame Stores RoundSM SmSpec SmProofs KeygenSM SignSM SmSim SmTheory SmFacts Network NetSim PropEcdsa PropRange PropKeygen PropSign PropSmNew PropNetwork Manager20 MtaProofs M20Spec Clients20 Clients20Proofs SmCause Clients20Nets Clients20Own Clients20Log Clients20Prog Codec PropClients20 PropClients20Log OnlineSM Clients20Online.
Import ListNotations.
Local Open Scope nat_scope.

Section Setup.
Context (C : Curve).
Add Field onfield : (C_field C).
Notation F := (Fq (cq C)).
Notation q := (cq C).
Lemma fsum_lin (a b : F) (f g : nat -> F) l : fsum (map (fun i => fadd (fmul a (f i)) (fmul b (g i))) l) = fadd (fmul a (fsum (map f l))) (fmul b (fsum (map g l))).
Proof. induction l as [|i l IH]; cbn [map fsum]; [ring|]. rewrite IH. ring. Qed.
Lemma fsum_perm (l l' : list F) : Permutation l l' -> fsum l = fsum l'.
Proof. intros P. induction P as [|x a b P IH|x y a|a b c P1 IH1 P2 IH2]; cbn [fsum]; [reflexivity|rewrite IH; reflexivity|ring|congruence]. Qed.
Lemma perm_peers i n : 1 <= i <= n -> Permutation (seq 1 n) (i :: peers i n).
Proof.
  intros I. apply NoDup_Permutation; [apply seq_NoDup|constructor; [intros X; apply (in_peers i n I) in X; lia|apply peers_nodup]|].
  intros j. rewrite in_seq. cbn [In]. rewrite (in_peers i n I). lia.
Qed.
Lemma lin_solve (m a b : F) : fadd (fmul m a) b = f0 -> a <> f0 -> m = fmul (fopp b) (finv a).
Proof.
  intros E N. assert (B : b = fopp (fmul m a)) by (transitivity (fsub (fadd (fmul m a) b) (fmul m a)); [ring|rewrite E; ring]). rewrite B. field. exact N.
Qed.
Lemma total_eqn (ks M X s : F) (R : pt C) : smul ks R = gen -> smul (fmul ks (fadd M (fmul X s))) R = padd (smul M gen) (smul X (smul s gen)).
Proof.
  intros E. transitivity (smul (fadd M (fmul X s)) (smul ks R)); [rewrite smul_smul; f_equal; ring|]. rewrite E. apply dlog_inj. autorewrite with dlog. ring.
Qed.
Lemma same_total (M X kc ki oc oi p T sc si : F) : sc = fadd (fmul M kc) (fmul X oc) -> si = fadd (fmul M ki) (fmul X oi) -> fadd sc p = T -> T = fadd si p -> kc <> ki ->
  M = fmul (fopp (fmul X (fsub oc oi))) (finv (fsub kc ki)).
Proof.
  intros -> -> E1 E2 N. apply lin_solve; [|intros Z; apply N; transitivity (fadd (fsub kc ki) ki); [ring|rewrite Z; ring]].
  rewrite E2 in E1. transitivity (fsub (fadd (fadd (fmul M kc) (fmul X oc)) p) (fadd (fadd (fmul M ki) (fmul X oi)) p)); [ring|rewrite E1; ring].
Qed.
Lemma neg_total (M X kc ki oc oi p T sc si ks s : F) : sc = fadd (fmul M kc) (fmul X oc) -> si = fadd (fmul M ki) (fmul X oi) -> fadd sc p = fopp T -> T = fadd si p ->
  T = fmul ks (fadd M (fmul X s)) -> fsub ki kc <> fadd ks ks ->
  M = fmul (fopp (fadd (fmul X (fsub oc oi)) (fmul (fadd ks ks) (fmul X s)))) (finv (fadd (fsub kc ki) (fadd ks ks))).
Proof.
  intros -> -> E1 E2 E3 N. apply lin_solve; [|intros Z; apply N; transitivity (fsub (fadd ks ks) (fadd (fsub kc ki) (fadd ks ks))); [ring|rewrite Z; ring]].
  transitivity (fadd (fsub (fadd (fadd (fmul M kc) (fmul X oc)) p) (fadd (fadd (fmul M ki) (fmul X oi)) p)) (fadd (fmul ks (fadd M (fmul X s))) (fmul ks (fadd M (fmul X s))))); [ring|].
  rewrite E1, <- E2, <- E3. ring.
Qed.
(** The partial signatures of an honest offline stage *)
Lemma online_setup Hb (Hz : hashZ C) (Hf : hashF C) n (f : list F) Ns dls sl (lks : nat -> local_key C) (rs : nat -> sign_rand C) (cf : nat -> completed C) :
  (forall l, (0 <= Hz l)%Z) -> signers_ok n f Ns dls sl lks -> sign_rand_ok Hz dls sl lks rs ->
  let k := length sl in let ksum := fsum (map (fun p => sr_k (rs p)) (seq 0 k)) in
  sg_run C Hb Hz Hf sl lks rs = Ok (map cf (seq 0 k)) ->
  exists (R : pt C) x y, smul ksum R = gen /\ coords R = Some (x, y) /\
  (forall m, fadd (of_Z q m) (fmul (of_Z q x) (hd f0 f)) <> f0 -> sign_outputs_ok (smul (hd f0 f) gen) m x (map cf (seq 0 k))) /\
  forall m, exists ls : nat -> local_sig C,
  (forall c, 1 <= c <= k -> sign_manual (cf (c - 1)) m = Ok (ls c) /\ ls_R (ls c) = R /\ ls_y (ls c) = smul (hd f0 f) gen /\ ls_m (ls c) = m /\
     ls_s (ls c) = fadd (fmul (of_Z q m) (sr_k (rs (c - 1)))) (fmul (of_Z q x) (co_sigma (cf (c - 1))))) /\
  fsum (map (fun c => ls_s (ls c)) (seq 1 k)) = fmul ksum (fadd (of_Z q m) (fmul (of_Z q x) (hd f0 f))).
Proof.
  intros HH KO RO k ksum RUN. destruct (offline_result C Hb Hz Hf n f Ns dls sl lks rs HH KO RO) as (R & x & y & cs & R1 & R2 & R4 & R5 & R6 & R3). rewrite RUN in R3. injection R3 as <-.
  destruct (C33_gg20_presign_correct C Hb Hz Hf n f Ns dls sl lks rs HH KO RO) as (cs & Q1 & Q2 & Q3 & _ & Q5 & _). rewrite RUN in Q1. injection Q1 as <-. fold k in R1, Q5. fold ksum in R1, Q5.
  exists R, x, y. refine (conj R1 (conj R2 (conj R6 _))). intros m.
  assert (Hx : x_coord R = Some x) by (unfold x_coord; rewrite R2; reflexivity).
  set (ls := fun c => {| ls_r := of_Z q (x mod q); ls_R := R; ls_s := fadd (fmul (of_Z q m) (sr_k (rs (c - 1)))) (fmul (of_Z q x) (co_sigma (cf (c - 1)))); ls_m := m; ls_y := smul (hd f0 f) gen |}).
  exists ls. split.
  - intros c I. refine (conj _ (conj eq_refl (conj eq_refl (conj eq_refl eq_refl)))). assert (L : c - 1 < k) by lia.
    assert (E : nth_error (map cf (seq 0 k)) (c - 1) = Some (cf (c - 1))) by (rewrite nth_error_map, (nth_error_nth' _ 0) by (rewrite seq_length; exact L); rewrite seq_nth by exact L; reflexivity).
    destruct (Q3 _ _ E) as (_ & _ & E2 & E3 & _). unfold sign_manual, gg20_local_sig. rewrite E2, E3, (R5 _ (nth_error_In _ _ E)), Hx. cbn [unwrap obind].
    destruct KO as (_ & _ & _ & _ & _ & _ & _ & KEYS). destruct (KEYS _ L) as (_ & _ & _ & _ & _ & _ & K7 & _). rewrite K7. unfold ls. rewrite of_Z_mod. reflexivity.
  - rewrite <- seq_shift, map_map. unfold ls. cbn [ls_s].
    rewrite (map_ext _ (fun p => fadd (fmul (of_Z q m) (sr_k (rs p))) (fmul (of_Z q x) (co_sigma (cf p))))) by (intros p; replace (S p - 1) with p by lia; reflexivity).
    rewrite fsum_lin. fold ksum. rewrite map_map in Q5. rewrite Q5. ring.
Qed.
End Setup.

(** * C95 *)
(** gg20_signing clients, online stage.  Client c had number c in the offline room and holds the result [cf (c - 1)] of an
    honest offline stage.  If each is given the same number again then, whatever the message and the schedule: no client
    fails, at most a fixed number of actions have anything to do, a client that has left printed one and the same valid
    signature, when nothing is left to do all have left, and every schedule can be continued until all have left. *)
Theorem C95_online_clients_sign :
  forall (C : Curve) Hb (Hz : hashZ C) (Hf : hashF C) n (f : list (Fq (cq C))) Ns dls sl (lks : nat -> local_key C) (rs : nat -> sign_rand C) (cf : nat -> completed C) ser par oc room,
  (forall l, (0 <= Hz l)%Z) -> signers_ok n f Ns dls sl lks -> sign_rand_ok Hz dls sl lks rs ->
  let k := length sl in
  sg_run C Hb Hz Hf sl lks rs = Ok (map cf (seq 0 k)) ->
  2 <= k -> (Z.of_nat k <= 65535)%Z -> (forall m, par (ser m) = Some m) ->
  let enab := sys_enabled (@on_wants C) (@on_finished C) (@on_queue C) in
  exists (R : pt C) x y, smul (fsum (map (fun p => sr_k (rs p)) (seq 0 k))) R = gen /\ coords R = Some (x, y) /\
  forall m, fadd (of_Z (cq C) m) (fmul (of_Z (cq C) x) (hd f0 f)) <> f0 ->
  let go := on_world k cf m ser par oc room in
  exists sig, to_Z (sg_r sig) = (x mod cq C)%Z /\ (to_Z (sg_s sig) <= (cq C - 1) / 2)%Z /\
  ecdsa_eqn (smul (hd f0 f) gen) m (to_Z (sg_r sig)) (to_Z (sg_s sig)) /\
  ((x mod cq C <> 0)%Z -> ecdsa_valid (smul (hd f0 f) gen) m (to_Z (sg_r sig)) (to_Z (sg_s sig))) /\
  forall c0 acts, 1 <= c0 <= k -> own_numbers (snd (go (room_first c0 ++ acts))) -> let w := fst (go (room_first c0 ++ acts)) in
  (forall c, client w c <> Some CFailed) /\
  on_world_work k cf m ser par oc room (room_first c0 ++ acts) <= 4 + ((2 * k + k) * (3 * k + 9) + k * k + (k * (5 + k) + 2 * k)) /\
  (forall a, enab w a = false -> go (room_first c0 ++ acts ++ [a]) = (w, snd (go (room_first c0 ++ acts)))) /\
  (forall c z r, client w c = Some (CDone z r) -> r = RPick (Some (Ok (Ok sig)))) /\
  ((forall a, enab w a = false) -> forall c, 1 <= c <= k -> exists z r, client w c = Some (CDone z r)) /\
  (all_started k w -> exists more, own_numbers (snd (go (room_first c0 ++ acts ++ more))) /\ forall c, 1 <= c <= k -> exists z r, client (fst (go (room_first c0 ++ acts ++ more))) c = Some (CDone z r)).
Proof.
  intros C Hb Hz Hf n f Ns dls sl lks rs cf ser par oc room HH KO RO k RUN K2 BD SP enab.
  destruct (online_setup C Hb Hz Hf n f Ns dls sl lks rs cf HH KO RO RUN) as (R & x & y & R1 & R2 & R3 & R4). fold k in R1, R3, R4.
  exists R, x, y. refine (conj R1 (conj R2 _)). intros m NZ go. destruct (R3 m NZ) as (sig & (S1 & S2) & S3 & S4 & lss & S5 & S6). destruct (R4 m) as (ls & L1 & _).
  exists sig. refine (conj S1 (conj S2 (conj S3 (conj S4 _)))). intros c0 acts C0 NU w.
  assert (LE : lss = map (fun p => ls (S p)) (seq 0 k)).
  { assert (omapM (fun c => sign_manual c m) (map cf (seq 0 k)) = Ok (map (fun p => ls (S p)) (seq 0 k))); [|congruence]. clear -L1.
    assert (G : forall l, (forall p, In p l -> p < k) -> omapM (fun c => sign_manual c m) (map cf l) = Ok (map (fun p => ls (S p)) l)).
    { induction l as [|p l IH]; intros A; [reflexivity|]. cbn [map omapM]. assert (P : p < k) by (apply A; left; reflexivity). destruct (L1 (S p) ltac:(lia)) as [E _]. replace (S p - 1) with p in E by lia. rewrite E. cbn [obind].
      rewrite IH by (intros p' X; apply A; right; exact X). reflexivity. }
    apply G. intros p X. apply in_seq in X. lia. }
  assert (ST : forall c, 1 <= c <= k -> on_program k cf m c (Z.of_nat c) = Some (on_start k ls c)).
  { intros c I. unfold on_program, on_new. rewrite (proj1 (L1 c I)). reflexivity. }
  destruct (on_clients k ls K2 (on_program k cf m) (fun _ => true) ser par oc room c0 acts C0 ST SP BD NU) as (T1 & T2 & T3 & T4 & T5).
  refine (conj T2 (conj T1 (conj _ (conj _ (conj T4 T5))))).
  - intros a E. unfold go, on_world. rewrite app_assoc, exec_app. cbn [sys_exec]. unfold go, on_world in w. fold w. rewrite (sys_idle _ _ _ _ _ _ _ _ _ _ w a E). cbn [fst snd]. rewrite app_nil_r. reflexivity.
  - intros c z r E. assert (IC : 1 <= c <= k).
    { destruct c as [|j]; [discriminate|]. cbn [client] in E. assert (LK : j < length (sy_cl w)) by (apply nth_error_Some; congruence). assert (LN : length (sy_cl w) = k); [|lia]. clear. unfold w, go, on_world. apply sys_len. }
    destruct (T3 c z r E) as (rcv & P & ->). do 3 f_equal. apply (S6 (c - 1)).
    + rewrite LE, nth_error_map, (nth_error_nth' _ 0) by (rewrite seq_length; lia). rewrite seq_nth by lia. cbn [option_map]. do 2 f_equal. lia.
    + rewrite LE, (but_peers (fun p => ls (S p)) c k IC), map_map. rewrite P. apply Permutation_refl'. apply map_ext_in. intros j J. apply (in_peers c k IC) in J. do 2 f_equal. lia.
Qed.
Print Assumptions C95_online_clients_sign.

(** What a client adds up, whatever numbers the room gave and however the schedule went: the partial signatures of n-1
    different clients, none of them the client whose offline number is the number this client got in the online room. *)
Theorem C95_online_received :
  forall (C : Curve) n (cf : nat -> completed C) m (ls : nat -> local_sig C) ser par oc room acts,
  (forall c, 1 <= c <= n -> sign_manual (cf (c - 1)) m = Ok (ls c)) -> (forall m, par (ser m) = Some m) ->
  let w := fst (on_world n cf m ser par oc room acts) in counted oc (sy_tr w) ->
  forall c x r, client w c = Some (CDone x r) ->
  exists js, NoDup js /\ length js = n - 1 /\ (forall j, In j js -> 1 <= j <= n /\ Z.of_nat j <> cr_idx x) /\
  r = RPick (Some (Ok (gg20_output (ls c) (map (fun j => ls_s (ls j)) js)))).
Proof.
  intros C n cf m ls ser par oc room acts LS SP w CT c x r CD. set (log := snd (on_world n cf m ser par oc room acts)). set (opf := fun _ : nat => @on_op C). set (st := on_program n cf m).
  destruct (own_reach opf (@on_wants C) (@on_finished C) (@on_queue C) st (fun _ => true) ser par oc room (fun _ => False) n acts) as [l I0].
  assert (I : OInv opf (@on_finished C) (@on_queue C) st ser par oc (fun _ => False) l w log) by exact I0. clear I0.
  destruct (C94_each_once _ _ _ _ opf (@on_wants C) (@on_finished C) (@on_queue C) st (fun _ => true) ser par oc room n acts SP on_drain CT c x (or_intror (ex_intro _ r CD))) as [SN0 ND0].
  assert (SN : forall m, In m (deliveries (cops c log)) -> exists c', In m (drained (crets c' log))) by exact SN0.
  assert (ND : (forall c, NoDup (drained (crets c log))) -> (forall c c' m, In m (drained (crets c log)) -> In m (drained (crets c' log)) -> c = c') -> NoDup (deliveries (cops c log))) by exact ND0. clear SN0 ND0.
  assert (RNG : forall c x, client w c = Some x -> 1 <= c <= n).
  { intros c' x' E. destruct c' as [|k]; [discriminate|]. cbn [client] in E. assert (LK : k < length (sy_cl w)) by (apply nth_error_Some; congruence). assert (LN : length (sy_cl w) = n); [|lia]. clear. unfold w, on_world. apply sys_len. }
  assert (HH : forall c i s, has_run opf st par (sy_tr w) log c i s -> 1 <= c <= n -> on_n s = n /\ on_l s = ls c /\ on_got s = firstn (n - 1) (map (@m_body _) (deliveries (cops c log))) /\
     drained (crets c log) = (if hasD (cops c log) then [pm ls c] else []) /\ forall m, In m (deliveries (cops c log)) -> for_me i m = true).
  { intros c' i s (s0 & H1 & H2 & H3 & H4) IC. unfold st, on_program, on_new in H1. rewrite (LS c' IC) in H1. cbn [obind] in H1. injection H1 as <-.
    destruct (on_runs (cops c' log) (on_start n ls c')) as (A1 & A2 & A3 & A4 & A5); [cbn; lia|]. unfold on_start, pm in *. unfold opf in H3. rewrite H3 in A1, A2, A3, A4, A5. cbn [fst snd on_n on_l on_got on_queue app] in *.
    refine (conj A1 (conj A2 (conj A3 (conj A5 (fun m X => proj1 (H4 m X)))))). }
  assert (DS : forall c m, In m (drained (crets c log)) -> 1 <= c <= n /\ m = pm ls c /\ drained (crets c log) = [pm ls c]).
  { intros c' m' X. destruct (sender_history opf (@on_finished C) (@on_queue C) st ser par oc (fun _ => False) l w log c' m' I X) as (i & s & H).
    assert (IC : 1 <= c' <= n). { destruct (client w c') as [s'|] eqn:E; [exact (RNG c' s' E)|]. destruct (oi_none _ _ _ _ _ _ _ _ _ _ _ I c' E) as (_ & Q & _). rewrite Q in X. contradiction. }
    destruct (HH c' i s H IC) as (_ & _ & _ & E & _). rewrite E in X |- *. destruct (hasD (cops c' log)); [|contradiction]. destruct X as [<-|[]]. auto. }
  pose proof (oi_own _ _ _ _ _ _ _ _ _ _ _ I c _ CD) as (HD & ML & RE). unfold may_leave in ML. apply andb_true_iff in ML. destruct ML as [FIN _]. pose proof (RNG c _ CD) as IC.
  destruct (HH c _ _ HD IC) as (G1 & G2 & G3 & _ & G5). unfold on_finished in FIN. apply Nat.leb_le in FIN. rewrite G1, G3, firstn_length, map_length in FIN. assert (NDD : NoDup (deliveries (cops c log))).
  { apply ND; [|intros a b m' X Y; destruct (DS a m' X) as (_ & E & _); destruct (DS b m' Y) as (_ & E' & _); rewrite E in E'; exact (f_equal (@m_from _) E')].
    intros c'. destruct (drained (crets c' log)) as [|m' t] eqn:E; [constructor|]. assert (X : In m' (drained (crets c' log))) by (rewrite E; left; reflexivity). destruct (DS c' m' X) as (_ & _ & E'). rewrite <- E, E'. constructor; [intros []|constructor]. }
  set (js := map (@m_from _) (firstn (n - 1) (deliveries (cops c log)))). exists js.
  assert (IN : forall m', In m' (firstn (n - 1) (deliveries (cops c log))) -> In m' (deliveries (cops c log))) by (intros m' X; rewrite <- (firstn_skipn (n - 1) (deliveries (cops c log))); apply in_app_iff; left; exact X).
  assert (PM : forall m', In m' (deliveries (cops c log)) -> m' = pm ls (m_from m') /\ 1 <= m_from m' <= n).
  { intros m' X. destruct (SN m' X) as [c' Y]. destruct (DS c' m' Y) as (A & -> & _). cbn [pm m_from]. auto. }
  assert (NF : NoDup (firstn (n - 1) (deliveries (cops c log)))).
  { rewrite <- (firstn_skipn (n - 1) (deliveries (cops c log))) in NDD. clear -NDD. induction (firstn (n - 1) (deliveries (cops c log))) as [|y u IH]; [constructor|]. cbn in NDD. inversion NDD as [|? ? N1 N2]; subst. constructor; [|exact (IH N2)]. intros X. apply N1, in_app_iff. left. exact X. }
  refine (conj _ (conj _ (conj _ _))).
  - unfold js. clear -NF IN PM. induction (firstn (n - 1) (deliveries (cops c log))) as [|y u IH]; [constructor|]. inversion NF as [|? ? N1 N2]; subst. cbn [map]. constructor; [|apply IH; [intros m' X; apply IN; right; exact X|exact N2]].
    intros X. apply in_map_iff in X. destruct X as (y' & E & X). apply N1. destruct (PM y (IN y (or_introl eq_refl))) as [E1 _]. destruct (PM y' (IN y' (or_intror X))) as [E2 _]. rewrite E1, <- E, <- E2. exact X.
  - unfold js. rewrite map_length, firstn_length. lia.
  - intros j X. apply in_map_iff in X. destruct X as (m' & <- & X). apply IN in X. destruct (PM m' X) as [_ A]. split; [exact A|]. intros E. specialize (G5 m' X). rewrite addressed_for_me in G5. unfold addressed in G5. destruct (Z.eq_dec (Z.of_nat (m_from m')) (cr_idx x)); [discriminate|contradiction].
  - rewrite RE. unfold opf. cbn [on_op snd]. unfold on_complete. rewrite G2, G3. do 4 f_equal. unfold js. rewrite firstn_map, map_map. apply map_ext_in. intros m' X. destruct (PM m' (IN m' X)) as [E _]. rewrite E at 1. reflexivity.
Qed.
Print Assumptions C95_online_received.

(** Joining the online room in another order than the offline room: a client c that got the number i of somebody else takes
    its own partial signature for the missing one, and ends without a signature, unless the message is one of at most two
    (modulo the order), or another point's x-coordinate agrees with that of R. *)
Theorem C95_join_order_refuted :
  forall (C : Curve) Hb (Hz : hashZ C) (Hf : hashF C) n (f : list (Fq (cq C))) Ns dls sl (lks : nat -> local_key C) (rs : nat -> sign_rand C) (cf : nat -> completed C) ser par c i,
  (forall l, (0 <= Hz l)%Z) -> signers_ok n f Ns dls sl lks -> sign_rand_ok Hz dls sl lks rs ->
  let k := length sl in let ksum := fsum (map (fun p => sr_k (rs p)) (seq 0 k)) in
  sg_run C Hb Hz Hf sl lks rs = Ok (map cf (seq 0 k)) ->
  1 <= c <= k -> 1 <= i <= k -> c <> i ->
  sr_k (rs (c - 1)) <> sr_k (rs (i - 1)) -> fsub (sr_k (rs (i - 1))) (sr_k (rs (c - 1))) <> fadd ksum ksum ->
  (forall m, par (ser m) = Some m) ->
  exists (R : pt C) x bad, smul ksum R = gen /\ x_coord R = Some x /\ length bad <= 2 /\
  ((forall (P : pt C) x', x_coord P = Some x' -> (x' mod cq C = x mod cq C)%Z -> x' = x) ->
   forall m, fadd (of_Z (cq C) m) (fmul (of_Z (cq C) x) (hd f0 f)) <> f0 -> ~ In (of_Z (cq C) m) bad ->
   forall oc room acts, let w := fst (on_world k cf m ser par oc room acts) in counted oc (sy_tr w) ->
   forall z r, client w c = Some (CDone z r) -> cr_idx z = Z.of_nat i -> forall sig, r <> RPick (Some (Ok (Ok sig)))).
Proof.
  intros C Hb Hz Hf n f Ns dls sl lks rs cf ser par c i HH KO RO k ksum RUN IC II CI KD KS SP. pose proof (C_field C) as CF. pose proof (proj1 (proj2 RO)) as Hk. change (ksum <> f0) in Hk.
  destruct (online_setup C Hb Hz Hf n f Ns dls sl lks rs cf HH KO RO RUN) as (R & x & y & R1 & R2 & R3 & R4). fold k ksum in R1, R3, R4.
  set (a := fsub (sr_k (rs (c - 1))) (sr_k (rs (i - 1)))). set (b := fmul (of_Z (cq C) x) (fsub (co_sigma (cf (c - 1))) (co_sigma (cf (i - 1))))).
  set (t := fadd ksum ksum). set (u := fmul t (fmul (of_Z (cq C) x) (hd f0 f))).
  (* m a + b = 0, or m a + b = - (m t + u) *)
  exists R, x, [fmul (fopp b) (finv a); fmul (fopp (fadd b u)) (finv (fadd a t))].
  assert (Hx : x_coord R = Some x) by (unfold x_coord; rewrite R2; reflexivity).
  refine (conj R1 (conj Hx (conj (le_n 2) _))). intros NC m NZ NB oc room acts w CT z r CD IX sig RE.
  destruct (R4 m) as (ls & L1 & L2). destruct (C95_online_received C k cf m ls ser par oc room acts (fun c I => proj1 (L1 c I)) SP CT c z r CD) as (js & J1 & J2 & J3 & J4).
  rewrite RE in J4. injection J4 as J4. symmetry in J4.
  assert (JP : Permutation js (peers i k)).
  { apply NoDup_Permutation_bis; [exact J1|rewrite (peers_length i k II); lia|]. intros j X. destruct (J3 j X) as [A B]. apply (in_peers i k II). split; [exact A|]. intros ->. apply B. symmetry. exact IX. }
  rewrite (gg20_output_perm _ _ _ (Permutation_map (fun j => ls_s (ls j)) JP)) in J4.
  destruct (L1 c IC) as (_ & Lc1 & Lc2 & Lc3 & Lc4). destruct (L1 i II) as (_ & _ & _ & _ & Li4).
  pose proof (fsum_perm C _ _ (Permutation_map (fun j => ls_s (ls j)) (perm_peers c k IC))) as PC. pose proof (fsum_perm C _ _ (Permutation_map (fun j => ls_s (ls j)) (perm_peers i k II))) as PI. rewrite L2 in PC, PI. cbn [map fsum] in PC, PI.
  assert (TZ : sig_total (ls c) (map (fun j => ls_s (ls j)) (peers c k)) = fmul ksum (fadd (of_Z (cq C) m) (fmul (of_Z (cq C) x) (hd f0 f)))) by (unfold sig_total; symmetry; exact PC).
  assert (A1 : x_coord (ls_R (ls c)) = Some x) by (rewrite Lc1; exact Hx).
  assert (A2 : sig_total (ls c) (map (fun j => ls_s (ls j)) (peers c k)) <> f0) by (rewrite TZ; apply fmul_nz; [apply cq_prime|exact Hk|exact NZ]).
  assert (A3 : sig_eqn (ls_R (ls c)) (ls_y (ls c)) (ls_m (ls c)) (of_Z (cq C) x) (sig_total (ls c) (map (fun j => ls_s (ls j)) (peers c k)))) by (rewrite TZ; unfold sig_eqn; rewrite Lc1, Lc2, Lc3; exact (total_eqn C _ _ _ _ R R1)).
  destruct (gg20_output_tamper C (ls c) _ _ sig x A1 A2 A3 J4) as [K|[K|K]].
  - apply NB. left. symmetry. unfold sig_total in K. rewrite <- PC in K. exact (same_total C _ _ _ _ _ _ _ _ _ _ Lc4 Li4 K PI KD).
  - apply NB. right. left. symmetry. unfold sig_total in K. rewrite <- PC in K. exact (neg_total C _ _ _ _ _ _ _ _ _ _ _ _ Lc4 Li4 K PI eq_refl KS).
  - destruct K as (x' & P & K1 & K2 & K3). exact (K2 (NC P x' K1 K3)).
Qed.
Print Assumptions C95_join_order_refuted.

(** The two signers 3 and 1 of three parties with k = 4 + 21 = 25, so R = 5 G, whose x-coordinate is 12; message 6.  Joining the
    online room in the order of the offline room both print the signature; in the other order both fail. *)
Definition on_ser : msg TF -> string := to_string (cmsg cF).
Definition on_par : string -> option (msg TF) := of_string (cmsg cF).
Definition exsrs5 (p : nat) : sign_rand toy := nth p [exsr 4 9; exsr 21 3] (exsr 0 0).
Lemma exsrs5_ok : sign_rand_ok exH [exst; exst; exst] [3; 1] exlks exsrs5.
Proof.
  unfold sign_rand_ok. split; [|split; intros E; apply (f_equal (@to_Z 31)) in E; vm_compute in E; discriminate].
  intros p Hp. destruct p as [|[|p]]; [| |cbn in Hp; lia];
    (split; [reflexivity|]; split; [intros; unfold arand_ok; cbn; lia|]; split; [intros; unfold prand_ok; cbn; lia|]; split;
      [apply Forall_forall; intros a Ha; apply Z.leb_le; revert a Ha; apply forallb_forall; vm_compute; reflexivity|]).
  all: intros [|[|id]] Hid Hne; try (cbn in Hid; lia); try congruence; split; (apply brand_small; [reflexivity|cbn; lia|cbn; lia]).
Qed.
Definition excs (r : outcome mp_error (list (completed toy))) : list (completed toy) := match r with Ok cs => cs | _ => [] end.
Definition excs5 : list (completed toy) := excs (sg_run toy exHb2 exH exHf2 [3; 1] exlks exsrs5).
Definition exon (m : Z) (order : list nat) :=
  match excs5 with
  | d :: _ => let '(w, log) := on_world 2 (fun i => nth i excs5 d) m on_ser on_par true "default-signing-online" (exarrive 0 order ++ exall 2 16 8) in
     (map (fun st => match st with CDone _ (RPick (Some (Ok (Ok s)))) => Some (to_Z (sg_r s), to_Z (sg_s s), sg_recid s) | _ => None end) (sy_cl w),
      map (fun st => match st with CDone _ (RPick (Some (Ok (Err _)))) => true | _ => false end) (sy_cl w),
      flat_map (fun e => match e with EIndex c i => [(c, i)] | _ => [] end) log)
  | [] => ([], [], [])
  end.
(** No other point has this x-coordinate modulo the order. *)
Lemma exon_x (P : pt toy) x' : x_coord P = Some x' -> (x' mod 31 = 12 mod 31)%Z -> x' = 12%Z.
Proof.
  intros H E. assert (Q : forallb (fun i => match toy_coords_Z (Z.of_nat i) with Some (a, _) => (negb (a mod 31 =? 12) || (a =? 12))%Z | None => true end) (seq 0 31) = true) by (vm_compute; reflexivity).
  rewrite forallb_forall in Q. pose proof (to_Z_range (cq_prime toy) (P : TF)) as RG; change (0 <= to_Z (P : TF) < 31)%Z in RG. specialize (Q (Z.to_nat (to_Z (P : TF)))). rewrite Z2Nat.id in Q by lia.
  unfold x_coord in H. change (option_map fst (toy_coords_Z (to_Z (P : TF))) = Some x') in H. destruct (toy_coords_Z (to_Z (P : TF))) as [[a b]|]; [|discriminate]. injection H as <-.
  rewrite E in Q. change (12 mod 31 =? 12)%Z with true in Q. cbn [negb orb] in Q. apply Z.eqb_eq, Q. apply in_seq. lia.
Qed.
Example C95_example : exon 6 [1; 2] = ([Some (12%Z, 7%Z, 0%Z); Some (12%Z, 7%Z, 0%Z)], [false; false], [(1, 1%Z); (2, 2%Z)]) /\
  exon 6 [2; 1] = ([None; None], [true; true], [(2, 1%Z); (1, 2%Z)]) /\ (forall m, on_par (on_ser m) = Some m) /\
  (exists d, sg_run toy exHb2 exH exHf2 [3; 1] exlks exsrs5 = Ok (map (fun i => nth i excs5 d) (seq 0 2))) /\
  signers_ok 3 [tz 5; tz 7] exNs [exst; exst; exst] [3; 1] exlks /\ sign_rand_ok exH [exst; exst; exst] [3; 1] exlks exsrs5 /\
  sr_k (exsrs5 0) <> sr_k (exsrs5 1) /\ fsub (sr_k (exsrs5 1)) (sr_k (exsrs5 0)) <> tz 50 /\ fsub (sr_k (exsrs5 0)) (sr_k (exsrs5 1)) <> tz 50.
Proof.
  destruct C33_example_hypotheses as (HH & KO & _). pose proof exsrs5_ok as RO.
  refine (conj _ (conj _ (conj (of_to_string _) (conj _ (conj KO (conj RO (conj _ (conj _ _)))))))); [vm_compute; reflexivity|vm_compute; reflexivity| | | |].
  - destruct (C33_gg20_presign_correct toy exHb2 exH exHf2 3 [tz 5; tz 7] exNs [exst; exst; exst] [3; 1] exlks exsrs5 HH KO RO) as (cs & E & L & _). unfold excs5. rewrite E.
    destruct cs as [|a [|b [|c cs]]]; try discriminate L. exists a. reflexivity.
  - intros E. apply (f_equal (@to_Z 31)) in E. revert E. vm_compute. discriminate.
  - intros E. apply (f_equal (@to_Z 31)) in E. revert E. vm_compute. discriminate.
  - intros E. apply (f_equal (@to_Z 31)) in E. revert E. vm_compute. discriminate.
Qed.

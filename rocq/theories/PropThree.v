(** The GG20 clients from key generation to the signature, through three rooms of the relay: C123. *)
From Coq Require Import String ZArith Lia Bool List.
From Verif Require Import ZArithX Fq Curve Outcome Sigma Bytes Vss Paillier RangeProofs RangeProofsProofs Pdl PdlSlack Mta Ecdsa Mp MpProofs KeygenProofs KeygenExtra SigmaProofs Gg20Keygen KeygenRun Gg20Sign SignRun SignProofs SignRunProofs KeygenRunProofs Stores RoundSM SmSpec SmProofs KeygenSM SignSM SmSim SmTheory SmFacts Network PropSign PropSmNew PropNetwork Manager20 M20Spec Driver Clients20 Clients20Proofs Clients20Nets Clients20Own Clients20Prog Clients20Arrive OnlineSM Clients20Online PropClients20 PropClients20Online PropImpostor Secp256k1 PropSecp PropSecpRun Codec CodecAny CorrectKey RingPedersen PropCorrectKey.
Import ListNotations.
Local Open Scope nat_scope.

(** * C123 *)
(** Client c has ended and wrote o. *)
Definition wrote {S P B O} (w : sys S P B O) (c : nat) (o : O) : Prop := exists z, client w c = Some (CDone z (RPick (Some (Ok o)))).

Lemma wrote_fun {S P B O} (w : sys S P B O) c o o' : wrote w c o -> wrote w c o' -> o = o'.
Proof. intros [z E] [z' E']. rewrite E in E'. injection E' as _ H. exact H. Qed.

(** The list of the values a function has on 0 .. n-1 *)
Lemma list_of_fun {A} (l : list A) (g : nat -> A) : (forall i, i < length l -> nth_error l i = Some (g i)) -> l = map g (seq 0 (length l)).
Proof.
  revert g. induction l as [|a l IH]; intros g H; [reflexivity|]. cbn [length seq map]. pose proof (H 0 (Nat.lt_0_succ _)) as E. injection E as ->. f_equal.
  rewrite <- seq_shift, map_map. apply IH. intros i I. apply (H (S i)). cbn [length]. lia.
Qed.

(** The online stage can be carried out, whatever the number of signers. *)
Theorem C95_online_clients_can_finish :
  forall (C : Curve) Hb (Hz : hashZ C) (Hf : hashF C) n (f : list (Fq (cq C))) Ns dls sl (lks : nat -> local_key C) (rs : nat -> sign_rand C) (cf : nat -> completed C) ser par oc room m,
  (forall l, (0 <= Hz l)%Z) -> signers_ok n f Ns dls sl lks -> sign_rand_ok Hz dls sl lks rs ->
  let k := length sl in
  sg_run C Hb Hz Hf sl lks rs = Ok (map cf (seq 0 k)) ->
  2 <= k -> (Z.of_nat k <= 65534)%Z -> (forall m, par (ser m) = Some m) ->
  (forall (R : pt C) x y, smul (fsum (map (fun p => sr_k (rs p)) (seq 0 k))) R = gen -> coords R = Some (x, y) -> fadd (of_Z (cq C) m) (fmul (of_Z (cq C) x) (hd f0 f)) <> f0) ->
  exists acts, let r := on_world k cf m ser par oc room (room_first 1 ++ acts) in
  own_numbers (snd r) /\ forall c, 1 <= c <= k -> exists y r', client (fst r) c = Some (CDone y r').
Proof.
  intros C Hb Hz Hf n f Ns dls sl lks rs cf ser par oc room m HH KO RO k RUN K2 BD SP NZ. assert (R1 : 1 <= 1 <= k) by lia.
  assert (BD' : (Z.of_nat k <= 65535)%Z) by lia.
  destruct (C95_online_clients_sign C Hb Hz Hf n f Ns dls sl lks rs cf ser par oc room HH KO RO RUN K2 BD' SP) as (R & x & y & E1 & E2 & H).
  destruct (H m (NZ R x y E1 E2)) as (sig & _ & _ & _ & _ & Q). unfold on_world in *.
  destruct (online_setup C Hb Hz Hf n f Ns dls sl lks rs cf HH KO RO RUN) as (R0 & x0 & y0 & _ & _ & _ & L). destruct (L m) as (ls & L1 & _). fold k in L1.
  destruct (arrive_all (fun _ => @on_op C) (@on_wants C) (@on_finished C) (@on_queue C) (on_program k cf m) (fun _ => true) ser par oc room k) as [A1 A2]; [lia|exact BD| |].
  - intros c I. unfold on_program, on_new. rewrite (proj1 (L1 c I)). cbn [obind]. eexists. reflexivity.
  - unfold arrivals in A1, A2. destruct (Q 1 _ R1 A2) as (_ & _ & _ & _ & _ & QQ). destruct (QQ A1) as (more & M1 & M2). eexists. split; [exact M1|exact M2].
Qed.
Print Assumptions C95_online_clients_can_finish.

(** n clients run gg20_keygen in one room.  Later the parties listed in [sl], at least t+1, run gg20_signing with the key files
    they wrote: presigning in a second room, then, for any message, exchanging partial signatures in a third.  Nothing is assumed
    about the schedules, except that in every room one client's subscription is answered first and, in the two signing rooms, that
    the clients join in the order of [sl] (in the key generation room this follows from the files being there).
    All three exchanges can be carried out; the third can only end with one and the same signature, valid under the key of the
    files, written by everybody. *)
Theorem C123_keygen_to_signature :
  forall (C : Curve) Hb (Hz : hashZ C) (Hf : hashF C) ck cd (t n : nat) (ks : nat -> kg_rand C) (sl : list nat) serK parK serS parS serO parO oc roomK roomS roomO,
  (forall m, parK (serK m) = Some m) -> (forall m, parS (serS m) = Some m) -> (forall m, parO (serO m) = Some m) -> (forall l, (0 <= Hz l)%Z) ->
  keygen_setup ck cd t n ks -> (forall i, i < n -> good_key (kr_p1 (ks i)) (kr_p2 (ks i)) /\ good_st (kr_dl (ks i))) ->
  1 <= t < n -> (Z.of_nat (n * (n + 4)) <= 65535)%Z ->
  NoDup sl -> (forall i, In i sl -> 1 <= i <= n) -> t < length sl ->
  let k := length sl in
  let Y := smul (fsum (map (fun j => kr_u (ks j)) (seq 0 n))) (gen : pt C) in
  let keygen := kg_world C Hb Hf ck cd t n ks serK parK oc roomK in
  (exists acts files, forall i, 1 <= i <= n -> wrote (fst (keygen (room_first 1 ++ acts))) i (files i)) /\
  forall c0 acts files, 1 <= c0 <= n -> (forall i, In i sl -> wrote (fst (keygen (room_first c0 ++ acts))) i (files i)) ->
  let lks := fun p => files (nth p sl 0) in
  (exists xs, forall i, In i sl -> key_correct t n ks xs (i - 1) (files i)) /\
  forall rs, sign_rand_ok Hz (map (fun j => kr_dl (ks j)) (seq 0 n)) sl lks rs ->
  let presign := sg_world C Hb Hz Hf sl lks rs serS parS oc roomS in
  exists (R : pt C) x y, smul (fsum (map (fun p => sr_k (rs p)) (seq 0 k))) R = gen /\ coords R = Some (x, y) /\
  (exists acts1 cf, own_numbers (snd (presign (room_first 1 ++ acts1))) /\ forall p, p < k -> wrote (fst (presign (room_first 1 ++ acts1))) (S p) (cf p)) /\
  forall c1 acts1 cf, 1 <= c1 <= k -> own_numbers (snd (presign (room_first c1 ++ acts1))) ->
  (forall p, p < k -> wrote (fst (presign (room_first c1 ++ acts1))) (S p) (cf p)) ->
  forall msg, padd (smul (of_Z (cq C) msg) gen) (smul (of_Z (cq C) x) Y) <> pzero ->
  let online := on_world k cf msg serO parO oc roomO in
  exists sig, to_Z (sg_r sig) = (x mod cq C)%Z /\ (to_Z (sg_s sig) <= (cq C - 1) / 2)%Z /\ ecdsa_eqn Y msg (to_Z (sg_r sig)) (to_Z (sg_s sig)) /\
  ((x mod cq C <> 0)%Z -> ecdsa_valid Y msg (to_Z (sg_r sig)) (to_Z (sg_s sig))) /\
  (exists acts2, own_numbers (snd (online (room_first 1 ++ acts2))) /\ forall c, 1 <= c <= k -> wrote (fst (online (room_first 1 ++ acts2))) c (Ok sig)) /\
  forall c2 acts2, 1 <= c2 <= k -> own_numbers (snd (online (room_first c2 ++ acts2))) -> let w := fst (online (room_first c2 ++ acts2)) in
  (forall c, client w c <> Some CFailed) /\ (forall c z r, client w c = Some (CDone z r) -> wrote w c (Ok sig)) /\
  ((forall a, sys_enabled (@on_wants C) (@on_finished C) (@on_queue C) w a = false) -> forall c, 1 <= c <= k -> wrote w c (Ok sig)).
Proof.
  intros C Hb Hz Hf ck cd t n ks sl serK parK serS parS serO parO oc roomK roomS roomO SPK SPS SPO HH SU GD TN BD ND IN TL k Y keygen.
  assert (SU' := SU). destruct SU' as (N0 & NQ & CO & OR). assert (TN1 : t < n) by lia. assert (N2 : 2 <= n) by lia. assert (KN : k <= n).
  { unfold k. rewrite <- (seq_length n 1). apply NoDup_incl_length; [exact ND|]. intros i I. apply in_seq. specialize (IN i I). lia. }
  assert (K2 : 2 <= k) by (unfold k; lia).
  assert (BDK : (Z.of_nat (n * (n + 2)) <= 65535)%Z) by nia. assert (BDS : (Z.of_nat (k * (k + 4)) <= 65535)%Z) by nia. assert (BDO : (Z.of_nat k <= 65534)%Z) by nia.
  assert (RUN : kg_run C Hb Hf ck cd t n ks = Ok (map (h_lk C t n ks) (seq 0 n))).
  { apply kg_run_honest; try assumption; intros i Hi; destruct (OR i Hi) as (A & B & D & E1 & E2); try assumption. split; apply bits_ok_iff; assumption. }
  assert (ST : forall c, 1 <= c <= n -> kg_program C Hb Hf ck cd t n ks c (Z.of_nat c) = Some (kg_start C c t n)).
  { intros c I. unfold kg_program. pose proof (C54_keygen_new C Hb Hf ck cd (ks (c - 1)) c t n) as Q. destruct (kg_new C Hb Hf ck cd (ks (c - 1)) c t n) as [s|e|] eqn:E; [|exfalso|contradiction].
    - rewrite (proj1 (kg_new_ok C Hb Hf ck cd (ks (c - 1)) c t n s E)). reflexivity.
    - destruct e; lia. }
  assert (KEY : forall c0 acts i y r, 1 <= c0 <= n -> 1 <= i <= n -> client (fst (keygen (room_first c0 ++ acts))) i = Some (CDone y r) -> r = RPick (Some (Ok (h_lk C t n ks (i - 1))))).
  { intros c0 acts i y r C0 I E.
    destruct (C92_keygen_finish_needs_own_numbers C Hb Hf ck cd t n ks serK parK oc roomK (room_first c0 ++ acts) SPK (ex_intro _ i (ex_intro _ y (ex_intro _ r E)))) as [NU _].
    destruct (kg_clients C Hb Hf ck cd t n ks (kg_program C Hb Hf ck cd t n ks) kg_is_critical serK parK oc roomK _ c0 acts N2 RUN ltac:(rewrite map_length, seq_length; reflexivity) C0 ST SPK BDK NU) as (_ & _ & T3 & _).
    destruct i as [|i]; [lia|]. destruct (T3 i y r E) as (lk & L1 & L2). rewrite L2. do 3 f_equal. replace (S i - 1) with i by lia.
    rewrite nth_error_map, (nth_error_nth' _ 0), seq_nth in L1 by (try rewrite seq_length; lia). injection L1 as <-. reflexivity. }
  split.
  { destruct (C90_keygen_clients_can_finish C Hb Hf ck cd t n ks serK parK oc roomK SU TN BDK SPK) as (acts & _ & FIN). exists acts, (fun i => h_lk C t n ks (i - 1)). intros i I. destruct (FIN i I) as (y & r & E).
    exists y. rewrite <- (KEY 1 acts i y r ltac:(lia) I E). exact E. }
  intros c0 acts files C0 FI lks.
  assert (FE : forall i, In i sl -> files i = h_lk C t n ks (i - 1)).
  { intros i I. destruct (FI i I) as [z E]. pose proof (KEY c0 acts i z _ C0 (IN i I) E) as X. injection X as X. exact X. }
  assert (NL : forall p i, nth_error sl p = Some i -> lks p = h_lk C t n ks (i - 1)).
  { intros p i E. unfold lks. rewrite (nth_error_nth _ _ 0 E). apply FE. exact (nth_error_In _ _ E). }
  assert (KO : signers_ok n (h_sum C n ks) (map (fun j => (kr_p1 (ks j) * kr_p2 (ks j))%Z) (seq 0 n)) (map (fun j => kr_dl (ks j)) (seq 0 n)) sl lks).
  { apply (h_signers_ok C t n ks sl lks TN1 NQ CO GD ND IN TL). intros p i E. rewrite (NL p i E). specialize (IN i (nth_error_In _ _ E)).
    rewrite nth_error_map, (nth_error_nth' _ 0), seq_nth by (try rewrite seq_length; lia). reflexivity. }
  split.
  { destruct (keygen_keys C Hb Hf ck cd t n ks TN1 SU) as (l & xs & L1 & _ & L3). rewrite RUN in L1. injection L1 as <-. exists xs. intros i I. rewrite (FE i I). specialize (IN i I). apply L3.
    rewrite nth_error_map, (nth_error_nth' _ 0), seq_nth by (try rewrite seq_length; lia). reflexivity. }
  intros rs RO presign.
  assert (NW : forall c, 1 <= c <= length sl -> exists s, sg_new c sl (lks (c - 1)) = Ok s).
  { intros c I. destruct (nth_error sl (c - 1)) as [i|] eqn:E; [|apply nth_error_None in E; lia]. rewrite (NL _ _ E).
    pose proof (C55_offline_new C c sl (h_lk C t n ks (i - 1))) as Q. cbn zeta in Q. destruct (sg_new c sl (h_lk C t n ks (i - 1))) as [s|e|]; [eexists; reflexivity|exfalso|contradiction].
    assert (RG : Forall (fun j => 1 <= j <= lk_n (h_lk C t n ks (i - 1))) sl) by (apply Forall_forall; exact IN).
    destruct e; try contradiction; try (unfold k in *; lia); destruct Q as (_ & Q); try (destruct Q as (_ & Q); apply Q; split; assumption). }
  assert (STS : forall c, 1 <= c <= length sl -> sg_program C sl lks c (Z.of_nat c) = Some (sg_start C c sl (lks (c - 1)))).
  { intros c I. unfold sg_program. rewrite Nat2Z.id. destruct (NW c I) as [s E]. rewrite E. rewrite (proj1 (sg_new_ok C c sl (lks (c - 1)) s E)). reflexivity. }
  destruct (offline_result C Hb Hz Hf n _ _ _ sl lks rs HH KO RO) as (R & x & y & cs & R1 & R2 & R4 & R5 & R6 & R3). fold k in R1, R4.
  exists R, x, y. refine (conj R1 (conj R2 _)).
  assert (PRE : forall c1 acts1 p z r, 1 <= c1 <= k -> own_numbers (snd (presign (room_first c1 ++ acts1))) -> client (fst (presign (room_first c1 ++ acts1))) (S p) = Some (CDone z r) -> exists o, nth_error cs p = Some o /\ r = RPick (Some (Ok o))).
  { intros c1 acts1 p z r C1 NU E. destruct (sg_clients C Hb Hz Hf sl lks rs (sg_program C sl lks) sg_is_critical serS parS oc roomS cs c1 acts1 K2 R3 R4 C1 STS SPS BDS NU) as (_ & _ & T3 & _). exact (T3 p z r E). }
  split.
  { destruct (C91_offline_clients_can_finish C Hb Hz Hf n _ _ _ sl lks rs serS parS oc roomS HH KO RO NW ltac:(unfold k in *; lia) BDS SPS) as (acts1 & NU & FIN).
    destruct cs as [|c0' cs']; [cbn in R4; lia|]. exists acts1, (fun p => nth p (c0' :: cs') c0'). split; [exact NU|]. intros p P. assert (P1 : 1 <= S p <= length sl) by (unfold k in *; lia). destruct (FIN (S p) P1) as (z & r & E).
    destruct (PRE 1 acts1 p z r ltac:(lia) NU E) as (o & O1 & O2). exists z. rewrite (nth_error_nth _ _ c0' O1), <- O2. exact E. }
  intros c1 acts1 cf C1 NU WR msg NZ online.
  assert (CS : cs = map cf (seq 0 k)).
  { rewrite <- R4. apply list_of_fun. intros p P. rewrite R4 in P. destruct (WR p P) as [z E]. destruct (PRE c1 acts1 p z _ C1 NU E) as (o & O1 & O2). injection O2 as ->. exact O1. }
  rewrite CS in R3. assert (HY : smul (hd f0 (h_sum C n ks)) gen = Y) by (rewrite h_sum_hd; reflexivity).
  assert (NZ' : fadd (of_Z (cq C) msg) (fmul (of_Z (cq C) x) (hd f0 (h_sum C n ks))) <> f0).
  { intros E. apply NZ. rewrite <- HY, smul_smul, <- padd_smul, E. apply smul_0. }
  assert (UNI : forall R' x' y', smul (fsum (map (fun p => sr_k (rs p)) (seq 0 k))) R' = gen -> coords R' = Some (x', y') -> x' = x).
  { intros R' x' y' E1 E2. assert (R' = R).
    { apply dlog_inj. apply (f_equal dlog) in E1. pose proof (f_equal dlog R1) as E3. rewrite dlog_smul in E1, E3. assert (K0 : fsum (map (fun p => sr_k (rs p)) (seq 0 k)) <> f0) by exact (proj1 (proj2 RO)).
      rewrite (fsolve C _ _ _ K0 E1), (fsolve C _ _ _ K0 E3). reflexivity. }
    subst R'. congruence. }
  destruct (C95_online_clients_can_finish C Hb Hz Hf n _ _ _ sl lks rs cf serO parO oc roomO msg HH KO RO R3 K2 BDO SPO) as (acts2 & NU2 & FIN2).
  { intros R' x' y' E1 E2. rewrite (UNI R' x' y' E1 E2). exact NZ'. }
  assert (ON : exists sig, to_Z (sg_r sig) = (x mod cq C)%Z /\ (to_Z (sg_s sig) <= (cq C - 1) / 2)%Z /\ ecdsa_eqn Y msg (to_Z (sg_r sig)) (to_Z (sg_s sig)) /\
    ((x mod cq C <> 0)%Z -> ecdsa_valid Y msg (to_Z (sg_r sig)) (to_Z (sg_s sig))) /\
    forall c2 acts2, 1 <= c2 <= k -> own_numbers (snd (online (room_first c2 ++ acts2))) -> let w := fst (online (room_first c2 ++ acts2)) in
    (forall c, client w c <> Some CFailed) /\ (forall c z r, client w c = Some (CDone z r) -> wrote w c (Ok sig)) /\
    ((forall a, sys_enabled (@on_wants C) (@on_finished C) (@on_queue C) w a = false) -> forall c, 1 <= c <= k -> wrote w c (Ok sig))).
  2:{ destruct ON as (sig & S1 & S2 & S3 & S4 & S5). exists sig. refine (conj S1 (conj S2 (conj S3 (conj S4 (conj _ S5))))). exists acts2. split; [exact NU2|]. intros c I. destruct (FIN2 c I) as (z & r & E).
      exact (proj1 (proj2 (S5 1 acts2 ltac:(lia) NU2)) c z r E). }
  assert (BDO' : (Z.of_nat k <= 65535)%Z) by lia.
  destruct (C95_online_clients_sign C Hb Hz Hf n _ _ _ sl lks rs cf serO parO oc roomO HH KO RO R3 K2 BDO' SPO) as (Ra & xa & ya & A1 & A2 & A3).
  assert (xa = x) by exact (UNI Ra xa ya A1 A2). subst xa. destruct (A3 msg NZ') as (sig & S1 & S2 & S3 & S4 & S5). rewrite HY in S3, S4.
  exists sig. refine (conj S1 (conj S2 (conj S3 (conj S4 _)))). intros c2 acts3 C2 NU3 w. destruct (S5 c2 acts3 C2 NU3) as (F1 & _ & _ & F4 & F5 & _).
  refine (conj F1 (conj _ _)).
  - intros c z r E. exists z. rewrite <- (F4 c z r E). exact E.
  - intros EN c I. destruct (F5 EN c I) as (z & r & E). exists z. rewrite <- (F4 c z r E). exact E.
Qed.
Print Assumptions C123_keygen_to_signature.

Section Opp.
Context (C : Curve).
Add Field cf123 : (fq_field (cq_prime C)).
Lemma opp_of (m x u : Fq (cq C)) : fadd (fmul m f1) (fmul x (fmul u f1)) = f0 -> m = fopp (fmul x u).
Proof. intros E. transitivity (fsub (fadd (fmul m f1) (fmul x (fmul u f1))) (fmul x u)); [ring|rewrite E; ring]. Qed.
End Opp.
(** On secp256k1, three parties with 2048-bit keys, signers 3 and 1, nonces adding up to 1: every message but those of one residue
    class modulo the order can be signed, and the signature is valid. *)
Example C123_example : exists ck cd (ks : nat -> kg_rand secp256k1) (rs : nat -> sign_rand secp256k1) acts0 acts1 files cf,
  let kser := to_string (cmsg (akg secp256k1)) in let kpar := of_string (cmsg (akg secp256k1)) in
  let sser := to_string (cmsg (asg secp256k1)) in let spar := of_string (cmsg (asg secp256k1)) in
  let oser := to_string (cmsg (aF secp256k1)) in let opar := of_string (cmsg (aF secp256k1)) in
  let Y := smul (fsum (map (fun j => kr_u (ks j)) (seq 0 3))) (gen : pt secp256k1) in
  (forall i, In i [3; 1] -> wrote (fst (kg_world secp256k1 (fun _ => 5%Z) (fun _ => f1) ck cd 1 3 ks kser kpar true "default-keygen" acts0)) i (files i) /\ lk_y (files i) = Y) /\
  (forall p, p < 2 -> wrote (fst (sg_world secp256k1 (fun _ => 5%Z) (fun _ => 5%Z) (fun _ => f1) [3; 1] (fun p => files (nth p [3; 1] 0)) rs sser spar true "default-signing-offline" acts1)) (S p) (cf p)) /\
  exists bad, forall msg, of_Z (cq secp256k1) msg <> bad -> exists acts2 sig,
  (forall c, 1 <= c <= 2 -> wrote (fst (on_world 2 cf msg oser opar true "default-signing-online" acts2)) c (Ok sig)) /\ ecdsa_valid Y msg (to_Z (sg_r sig)) (to_Z (sg_s sig)).
Proof.
  destruct ex_keys as (rc & rd & ks & K).
  assert (LF := fun i I => library_facts secp256k1 exm 30030 (fun _ => 3%Z) rc rd (ks i) (fun _ => ltac:(lia)) (proj2 (K i I))).
  set (ck := fun z => ck_ok exm 30030 (rc z)). set (cd := fun z => cd_verify (E := mp_error) (fun _ => 3%Z) (rd z)).
  assert (T0 : of_Z (cq secp256k1) 2 <> f0). { intros E. apply (f_equal to_Z) in E. revert E. vm_compute. discriminate. }
  set (k := fmul (finv (of_Z (cq secp256k1) 2)) f1).
  assert (KN : k <> f0). { apply fmul_nz; [apply cq_prime| |exact one_nz]. apply finv_nz; [apply cq_prime|exact T0]. }
  assert (SU : keygen_setup ck cd 1 3 ks).
  { split; [lia|]. split; [reflexivity|]. split; [intros i I; apply (K i I)|]. intros i I. exact (proj1 (LF i I)). }
  destruct (C123_keygen_to_signature secp256k1 (fun _ => 5%Z) (fun _ => 5%Z) (fun _ => f1) ck cd 1 3 ks [3; 1] _ _ _ _ _ _ true "default-keygen" "default-signing-offline" "default-signing-online"
    (of_to_string (cmsg (akg secp256k1))) (of_to_string (cmsg (asg secp256k1))) (of_to_string (cmsg (aF secp256k1)))) as [(acts0 & files & W0) G];
    [lia|exact SU|intros i I; exact (proj2 (LF i I))|lia|cbn; lia|repeat constructor; cbn; intuition congruence|intros i [<-|[<-|[]]]; lia|cbn; lia|].
  assert (IN : forall i, In i [3; 1] -> 1 <= i <= 3) by (intros i [<-|[<-|[]]]; lia).
  destruct (G 1 _ files ltac:(lia) (fun i I => W0 i (IN i I))) as [(xs & KC) G1].
  destruct (G1 (fun _ => ex_sr k)) as (R & x & y & R1 & R2 & (acts1 & cf & N1 & W1) & G2).
  { apply ex_rand_ok; [intros _; lia|exact KN|]. intros p P. assert (E : exists i, nth p [3; 1] 0 = i /\ In i [3; 1]) by (eexists; split; [reflexivity|apply nth_In; exact P]). destruct E as (i & E & I).
    destruct (KC i I) as (_ & _ & _ & _ & _ & _ & K1 & K2 & _). rewrite E, K1, K2, <- E. exact (ex_moduli _ _ _ _ _ ks K p P). }
  exists ck, cd, ks, (fun _ => ex_sr k), (room_first 1 ++ acts0), (room_first 1 ++ acts1), files, cf. cbv zeta. refine (conj (fun i I => conj (W0 i (IN i I)) (proj1 (KC i I))) (conj W1 _)).
  set (u := fsum (map (fun j => kr_u (ks j)) (seq 0 3))) in *.
  assert (RG : R = gen).
  { change (smul (fsum [k; k]) R = gen) in R1. rewrite fsum_two in R1. unfold k in R1. rewrite half_two, smul_1 in R1 by exact T0. exact R1. }
  exists (fopp (fmul (of_Z (cq secp256k1) x) u)). intros msg NB.
  destruct (G2 1 _ cf ltac:(cbn; lia) N1 W1 msg) as (sig & S1 & S2 & S3 & S4 & (acts2 & _ & W2) & _).
  { intros E. apply NB. apply (f_equal dlog) in E. rewrite dlog_add, !dlog_smul, dlog_gen, dlog_zero in E. exact (opp_of secp256k1 _ _ _ E). }
  exists (room_first 1 ++ acts2), sig. split; [exact W2|]. apply S4. rewrite RG, (proj1 C105_base_points) in R2. injection R2 as <- _. vm_compute. discriminate.
Qed.

(** The presigning clients: numbers given by the room must be the positions of the shares: C93. *)
From Coq Require Import String ZArith Lia Bool Permutation List.
From Verif Require Import ZArithX Fq Curve Toy Outcome Sigma SigmaProofs Bytes Vss VssProofs Paillier RangeProofs Pdl PdlSlack Mta Ecdsa Mp MpProofs Gg20Keygen KeygenRun Gg20Sign SignRun SignProofs SignRunProofs KeygenRunProofs Blame Stores RoundSM SmSpec SmProofs KeygenSM SignSM SmSim SmTheory SmFacts Network PropRange PropKeygen PropSign PropSmNew PropNetwork Manager20 M20Spec Driver Clients20 Clients20Proofs SmCause SmCauseSg Clients20Nets Clients20Own Clients20Prog Codec PropClients20.
Import ListNotations.
Local Open Scope nat_scope.

(** * C93 *)
(** The signers' key shares are pairwise different. *)
Definition distinct_shares {C : Curve} (sl : list nat) (lks : nat -> local_key C) : Prop :=
  forall p p', p < length sl -> p' < length sl -> sk_x (lk_shared (lks p)) = sk_x (lk_shared (lks p')) -> p = p'.
Lemma offline_numbers (C : Curve) Hb (Hz : hashZ C) (Hf : hashF C) n (f : list (Fq (cq C))) Ns dls sl (lks : nat -> local_key C) (rs : nat -> sign_rand C) ser par oc (ex : string -> Prop) l (w : sys (sg_sm C) mp_error (sg_msg C) (completed C)) log :
  signers_ok n f Ns dls sl lks -> distinct_shares sl lks -> (forall m, par (ser m) = Some m) -> (forall s, ex s -> par s = None) -> length (sy_cl w) = length sl ->
  OInv (fun c => sg_op C Hb Hz Hf (rs (c - 1))) (@sg_is_finished C) (@sm_queue C) (sg_program C sl lks) ser par oc ex l w log ->
  (exists d y r, client w d = Some (CDone y r)) ->
  own_numbers log /\ (forall c, 1 <= c <= length sl -> In (EIndex c (Z.of_nat c)) log) /\
  forall c, 1 <= c <= length sl -> exists m, In m (deliveries (cops c log)).
Proof.
  intros KO DS SP EX LN I (d & y & r & CD). set (opf := fun c => sg_op C Hb Hz Hf (rs (c - 1))) in *. set (st := sg_program C sl lks) in *.
  assert (HH : forall c i s, has_run opf st par (sy_tr w) log c i s -> sg_hist C Hb Hz Hf (rs (c - 1)) (Z.to_nat i) sl (lks (c - 1)) (cops c log) s (crets c log) /\ given c log = [i] /\ forall m, In m (deliveries (cops c log)) -> sent_by log m).
  { intros c i s (s0 & H1 & H2 & H3 & H4). refine (conj _ (conj H2 _)).
    - exists s0. split; [|exact H3]. unfold st, sg_program in H1. destruct (sg_new (Z.to_nat i) sl (lks (c - 1))) as [s1| |]; [|discriminate|discriminate]. injection H1 as <-. reflexivity.
    - intros m X. destruct (H4 m X) as [A1 A2]. exact (seen_sent opf (@sg_is_finished C) (@sm_queue C) st ser par oc SP ex l w log m EX I A2). }
  assert (RNG : forall c x, client w c = Some x -> 1 <= c <= length sl).
  { intros c x E. destruct c as [|k]; [discriminate|]. cbn [client] in E. assert (LK : k < length (sy_cl w)) by (apply nth_error_Some; congruence).
    lia. }
  assert (GR : forall c i, In i (given c log) -> 1 <= c <= length sl).
  { intros c i X. destruct (client w c) as [s|] eqn:E; [exact (RNG c s E)|]. assert (Q : given c log = []) by exact (proj2 (proj2 (oi_none _ _ _ _ _ _ _ _ _ _ _ I c E))). rewrite Q in X. contradiction. }
  pose proof (oi_own _ _ _ _ _ _ _ _ _ _ _ I d _ CD) as (HD & ML & _). unfold may_leave in ML. apply andb_true_iff in ML. destruct ML as [FIN _].
  destruct (HH d _ _ HD) as (SH & GD & DD). set (di := Z.to_nat (cr_idx y)) in *. assert (SHR := sg_hist_run C Hb Hz Hf _ _ _ _ _ _ _ SH). destruct SHR as (DR & _ & _ & _ & _ & N2).
  pose proof (RNG d _ CD) as RD. destruct KO as (ND & SR & NQ & FN & FL & DL & GS & KEYS).
  assert (LSN : forall x, In x (map pred sl) -> x < n) by (intros x X; apply in_map_iff in X; destruct X as (z & <- & X); apply SR in X; lia).
  assert (ALLP' : forall c, In c (peers di (length sl)) -> given c log = [Z.of_nat c] /\ exists m, In m (deliveries (cops c log))).
  { intros c J. destruct (sg_final2 C Hb Hz Hf _ _ _ _ _ _ _ SH FIN c J) as (m & g & ww & k & li & P & M1 & M2 & M3 & M4 & M5 & M6 & M7).
    apply (in_peers di (length sl) DR) in J. destruct J as [JR JN].
    destruct (DD m M1) as [e SB]. destruct (sender_history opf (@sg_is_finished C) (@sm_queue C) st ser par oc ex l w log e m I SB) as (i & s & HE). destruct (HH e i s HE) as (SE & GE & _).
    destruct (sg_sent2 C Hb Hz Hf _ _ _ _ _ _ _ m g ww SE SB M2) as [EF (x & (me & li' & W1 & W2 & W3) & W4)]. rewrite M3 in EF.
    assert (RE : 1 <= e <= length sl) by (apply (GR e i); rewrite GE; left; reflexivity).
    rewrite <- EF in W1. pose proof (map_nth_error pred _ _ W1) as MW. rewrite MW in M4. injection M4 as M4.
    assert (KN : k < n) by (apply LSN; exact (nth_error_In _ _ (eq_trans MW (f_equal Some M4)))).
    assert (D1 : d - 1 < length sl) by lia. assert (E1 : e - 1 < length sl) by lia. assert (C1 : c - 1 < length sl) by lia.
    destruct (KEYS _ D1) as (_ & _ & V1 & V2 & _). destruct (KEYS _ E1) as (_ & X1 & V3 & _). destruct (KEYS _ C1) as (_ & X2 & _).
    rewrite V1, (map_share_ok C n k _ NQ KN LSN) in M5. apply ok_inj in M5. rewrite V3 in W2. replace (me - 1) with k in W2 by lia. rewrite (map_share_ok C n k _ NQ KN LSN) in W2. apply ok_inj in W2.
    rewrite V2 in M6. assert (SK : nth_error (seq 0 n) k = Some k) by (rewrite (nth_error_nth' _ 0) by (rewrite seq_length; exact KN); rewrite seq_nth by exact KN; reflexivity). rewrite (map_nth_error _ _ _ SK) in M6. injection M6 as M6.
    rewrite M7, W3, <- M6, W2, M5 in W4. rewrite smul_smul in W4. apply (smul_gen_inj C) in W4.
    assert (SX : s_idx sl (c - 1) = k) by (unfold s_idx, l_s; apply nth_error_nth; rewrite MW; f_equal; exact M4).
    assert (EC : e - 1 = c - 1).
    { apply (DS _ _ E1 C1). rewrite X2, SX. pose proof (lam_nz n (map pred sl) k NQ KN LSN) as NZ. rewrite (fsolve C _ _ _ NZ W4). rewrite (fmul_cancel C) by exact NZ. reflexivity. }
    assert (e = c) by lia. subst e. split; [rewrite GE; f_equal; lia|].
    assert (JC : In di (peers (Z.to_nat i) (length sl))) by (rewrite <- EF; apply (in_peers c (length sl) JR); lia). destruct (sg_sent_needs C Hb Hz Hf _ _ _ _ _ _ _ m SE SB) as [_ ND2]. rewrite M2 in ND2. cbn [sg_of] in ND2. assert (L12 : 1 <= 1 < 2) by lia.
    destruct (ND2 1 di L12 JC) as (m' & N1 & _). exists m'. exact N1. }
  pose proof (fun c H => proj1 (ALLP' c H)) as ALLP.
  assert (DI : given d log = [Z.of_nat d]).
  { destruct (Nat.eq_dec d di) as [E|NE]; [|apply ALLP, (in_peers di (length sl) DR); lia]. rewrite GD. f_equal. unfold di in *. lia. }
  assert (DE : di = d) by (rewrite GD in DI; injection DI as DI; unfold di; rewrite DI; apply Nat2Z.id).
  assert (ALL : forall c, 1 <= c <= length sl -> given c log = [Z.of_nat c]).
  { intros c CR. destruct (Nat.eq_dec c d) as [->|NE]; [exact DI|]. apply ALLP. rewrite DE. rewrite DE in DR. apply (in_peers d (length sl) DR). lia. }
  refine (conj _ (conj _ _)).
  - intros c i X. apply in_given in X. rewrite (ALL c (GR c i X)) in X. destruct X as [<-|[]]. reflexivity.
  - intros c CR. apply in_given. rewrite (ALL c CR). left. reflexivity.
  - intros c CR. destruct (Nat.eq_dec c d) as [->|NE]; [|apply ALLP'; rewrite DE in *; apply (in_peers d (length sl) DR); lia].
    assert (J : exists j, In j (peers di (length sl))) by (exists (if di =? 1 then 2 else 1); apply (in_peers di (length sl) DR); destruct (Nat.eqb_spec di 1); lia). destruct J as [j J].
    destruct (sg_final2 C Hb Hz Hf _ _ _ _ _ _ _ SH FIN j J) as (m & g & ww & k & li & PP & M1 & _). exists m. exact M1.
Qed.
(** If any client finishes, every client got the number that is the position of its share in the list of signers.  Nothing is
    assumed of the schedule, the sampled values or the hash functions. *)
Theorem C93_offline_finish_needs_own_numbers :
  forall (C : Curve) Hb (Hz : hashZ C) (Hf : hashF C) n (f : list (Fq (cq C))) Ns dls sl (lks : nat -> local_key C) (rs : nat -> sign_rand C) ser par oc room acts,
  signers_ok n f Ns dls sl lks -> distinct_shares sl lks -> (forall m, par (ser m) = Some m) ->
  let w := fst (sg_world C Hb Hz Hf sl lks rs ser par oc room acts) in let log := snd (sg_world C Hb Hz Hf sl lks rs ser par oc room acts) in
  (exists d y r, client w d = Some (CDone y r)) ->
  own_numbers log /\ forall c, 1 <= c <= length sl -> In (EIndex c (Z.of_nat c)) log.
Proof.
  intros C Hb Hz Hf n f Ns dls sl lks rs ser par oc room acts KO DS SP w log DN. assert (LN : length (sy_cl w) = length sl) by apply sys_len.
  destruct (own_reach (fun c => sg_op C Hb Hz Hf (rs (c - 1))) (@sg_wants_to_proceed C) (@sg_is_finished C) (@sm_queue C) (sg_program C sl lks) sg_is_critical ser par oc room (fun _ => False) (length sl) acts) as [l I].
  destruct (offline_numbers C Hb Hz Hf n f Ns dls sl lks rs ser par oc _ l w log KO DS SP (fun s F => False_ind _ F) LN I DN) as (A1 & A2 & _). exact (conj A1 A2).
Qed.
Print Assumptions C93_offline_finish_needs_own_numbers.
(** Joining the room in another order than the shares are listed is fatal, however the system goes on. *)
Theorem C93_join_order_refuted :
  forall (C : Curve) Hb (Hz : hashZ C) (Hf : hashF C) n (f : list (Fq (cq C))) Ns dls sl (lks : nat -> local_key C) (rs : nat -> sign_rand C) ser par oc room acts c i,
  signers_ok n f Ns dls sl lks -> distinct_shares sl lks -> (forall m, par (ser m) = Some m) ->
  let go := sg_world C Hb Hz Hf sl lks rs ser par oc room in
  In (EIndex c i) (snd (go acts)) -> i <> Z.of_nat c -> forall more d y r, client (fst (go (acts ++ more))) d <> Some (CDone y r).
Proof.
  intros C Hb Hz Hf n f Ns dls sl lks rs ser par oc room acts c i KO DS SP go IX NE more d y r CD.
  destruct (C93_offline_finish_needs_own_numbers C Hb Hz Hf n f Ns dls sl lks rs ser par oc room (acts ++ more) KO DS SP) as [OW _]; [eauto|].
  apply NE. apply (OW c i). unfold go, sg_world in *. rewrite exec_app. cbn [snd]. apply in_app_iff. left. exact IX.
Qed.
Print Assumptions C93_join_order_refuted.

(** The two signers 3 and 1 of three parties: the shares differ; joining as 1, 2 both finish (C91_example), joining in the other
    order neither does (this run ends in round 2). *)
Example C93_example : exsgco [2; 1] 8 = ([None; None], [(2, 1%Z); (1, 2%Z)], 3) /\ exsgco [1; 2] 8 = ([Some (2, 18, 14); Some (2, 18, 4)]%Z, [(1, 1%Z); (2, 2%Z)], 12) /\
  signers_ok 3 [tz 5; tz 7] exNs [exst; exst; exst] [3; 1] exlks /\ distinct_shares [3; 1] exlks.
Proof.
  refine (conj _ (conj (proj1 C91_example) (conj (proj1 (proj2 C33_example_hypotheses)) _))); [vm_compute; reflexivity|].
  intros p p' P P'. cbn [length] in P, P'. assert (D : to_Z (sk_x (lk_shared (exlks 0))) <> to_Z (sk_x (lk_shared (exlks 1)))) by (vm_compute; discriminate).
  destruct p as [|[|p]]; [| |lia]; (destruct p' as [|[|p']]; [| |lia]); intros E; try reflexivity; exfalso; apply D; rewrite E; reflexivity.
Qed.

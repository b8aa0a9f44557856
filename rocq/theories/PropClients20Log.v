(** Messages between the clients of one room, whatever machines they run and whatever numbers they were given: C94. *)
From Coq Require Import String ZArith Lia Bool Permutation List.
From Verif Require Import ZArithX Fq Curve Toy Outcome Sigma Bytes Vss Paillier RangeProofs Pdl PdlSlack Mta Ecdsa Mp MpProofs Gg20Keygen KeygenRun Gg20Sign Stores RoundSM SmSpec SmProofs KeygenSM SignSM PropRange PropKeygen PropSign PropNetwork Manager20 M20Spec Clients20 Clients20Own Clients20Log Clients20Prog Codec PropClients20.
Import ListNotations.
Local Open Scope nat_scope.

(** * C94 *)
(** A message is for the client with number i: somebody else sent it, to everybody or to i. *)
Definition addressed {B} (i : Z) (m : msg B) : bool :=
  if Z.eq_dec (Z.of_nat (m_from m)) i then false else match m_to m with None => true | Some j => if Z.eq_dec (Z.of_nat j) i then true else false end.
Lemma addressed_for_me {B} i (m : msg B) : for_me i m = addressed i m.
Proof.
  unfold for_me, client_filter, addressed. destruct (Z.eq_dec (Z.of_nat (m_from m)) i) as [E|N]; [rewrite E, Z.eqb_refl; reflexivity|]. rewrite (proj2 (Z.eqb_neq _ _) N). cbn [negb andb].
  destruct (m_to m) as [j|]; cbn [option_map]; [|reflexivity]. destruct (Z.eq_dec (Z.of_nat j) i) as [E|M]; [rewrite E; apply Z.eqb_refl|apply Z.eqb_neq; exact M].
Qed.
(** Client c runs or has left *)
Definition at_work {S P B O} (w : sys S P B O) (c : nat) (x : running S B) : Prop := client w c = Some (CRunning x) \/ exists r, client w c = Some (CDone x r).
(** The relay kept count: either the build checks overflow or no room got more messages than fit its 16-bit counter *)
Definition counted (oc : bool) (tr : list obs) : Prop := oc = true \/ forall ref, (Z.of_nat (length (pubs ref tr)) <= 65535)%Z.

(** Every room has one list of messages with the clients that posted them, such that
    - the texts are what the relay accepted, in that order;
    - each client's messages come in the order its machine handed them over, none twice;
    - every client belongs to a room, and the messages handed to its machine are a beginning of the room's list, without
      those not addressed to its number. *)
Theorem C94_clients_read_their_room :
  forall S P B O (opf : nat -> S -> op B -> S * ret P B O) wants fin queue start crit ser par oc room n acts,
  (forall m, par (ser m) = Some m) -> (forall i s o, o <> Drain -> drained [snd (opf i s o)] = []) ->
  let w := fst (sys_exec opf wants fin queue start crit ser par oc room (sys_init n) acts) in
  let log := snd (sys_exec opf wants fin queue start crit ser par oc room (sys_init n) acts) in
  exists L : nat -> list (nat * msg B),
  (forall ref, map (fun y => ser (snd y)) (L ref) = pubs ref (sy_tr w)) /\
  (forall ref c, sub (map snd (filter (fun y => fst y =? c) (L ref))) (drained (crets c log))) /\
  (forall c x, at_work w c x -> exists ref, In (OJoined (cr_sub x) room ref None) (sy_tr w)) /\
  (counted oc (sy_tr w) -> forall c x ref, at_work w c x -> In (OJoined (cr_sub x) room ref None) (sy_tr w) ->
     exists k, k <= length (L ref) /\ deliveries (cops c log) = filter (addressed (cr_idx x)) (firstn k (map snd (L ref)))).
Proof.
  intros S P B O opf wants fin queue start crit ser par oc room n acts SP DR w log. destruct (log_reach opf wants fin queue start crit ser par oc room DR n acts) as [l I]. fold w log in I.
  exists (fun ref => room_log par (asked log) ref (sy_tr w)). assert (RT := fun ref => room_texts start ser par oc room SP l w log ref I).
  refine (conj RT (conj (fun ref c => room_fifo start ser par oc room SP l w log ref c I) (conj (fun c x CL => client_joined ser par oc room l w log c x I CL) _))).
  intros CT c x ref CL J. destruct (client_reads start ser par oc room SP l w log c x ref I CL J) as [K1 K2].
  - destruct CT as [CT|CT]; [left; exact CT|right]. specialize (CT ref). rewrite <- RT, map_length in CT. exact CT.
  - exists (cr_read x). split; [exact K1|]. rewrite K2. apply filter_ext. intros m. apply addressed_for_me.
Qed.
Print Assumptions C94_clients_read_their_room.

Lemma firstn_prefix {A} (l : list A) j k : exists r, firstn j l = firstn k l ++ r \/ firstn k l = firstn j l ++ r.
Proof.
  destruct (Nat.le_ge_cases k j) as [H|H].
  - exists (skipn k (firstn j l)). left. rewrite <- (firstn_skipn k (firstn j l)) at 1. rewrite firstn_firstn, Nat.min_l by exact H. reflexivity.
  - exists (skipn j (firstn k l)). right. rewrite <- (firstn_skipn j (firstn k l)) at 1. rewrite firstn_firstn, Nat.min_l by exact H. reflexivity.
Qed.
Lemma filter_and {A} (f g : A -> bool) l : filter f (filter g l) = filter (fun x => g x && f x) l.
Proof. induction l as [|x l IH]; [reflexivity|]. cbn [filter]. destruct (g x); cbn [filter andb]; rewrite IH; reflexivity. Qed.
(** Two clients of one room get what is addressed to both of them in the same order: one of the two may be behind. *)
Theorem C94_same_order :
  forall S P B O (opf : nat -> S -> op B -> S * ret P B O) wants fin queue start crit ser par oc room n acts,
  (forall m, par (ser m) = Some m) -> (forall i s o, o <> Drain -> drained [snd (opf i s o)] = []) ->
  let w := fst (sys_exec opf wants fin queue start crit ser par oc room (sys_init n) acts) in
  let log := snd (sys_exec opf wants fin queue start crit ser par oc room (sys_init n) acts) in
  counted oc (sy_tr w) -> forall c x c' x' ref, at_work w c x -> at_work w c' x' ->
  In (OJoined (cr_sub x) room ref None) (sy_tr w) -> In (OJoined (cr_sub x') room ref None) (sy_tr w) ->
  let both := fun m => addressed (cr_idx x) m && addressed (cr_idx x') m in
  let a := filter both (deliveries (cops c log)) in let a' := filter both (deliveries (cops c' log)) in
  exists r, a = a' ++ r \/ a' = a ++ r.
Proof.
  intros S P B O opf wants fin queue start crit ser par oc room n acts SP DR w log CT c x c' x' ref A A' J J' both a a'.
  destruct (C94_clients_read_their_room S P B O opf wants fin queue start crit ser par oc room n acts SP DR) as (L & _ & _ & _ & RD). fold w log in RD.
  destruct (RD CT c x ref A J) as (k & _ & E). destruct (RD CT c' x' ref A' J') as (k' & _ & E'). unfold a, a'. rewrite E, E', !filter_and.
  assert (F : forall l, filter (fun m => addressed (cr_idx x) m && both m) l = filter both l) by (intros l; apply filter_ext; intros m; unfold both; destruct (addressed (cr_idx x) m); reflexivity).
  assert (F' : forall l, filter (fun m => addressed (cr_idx x') m && both m) l = filter both l) by (intros l; apply filter_ext; intros m; unfold both; destruct (addressed (cr_idx x) m), (addressed (cr_idx x') m); reflexivity).
  rewrite F, F'. destruct (firstn_prefix (map snd (L ref)) k k') as [r [->| ->]]; exists (filter both r); rewrite filter_app; auto.
Qed.
Print Assumptions C94_same_order.

Lemma nodup_parts {B} (L : list (nat * msg B)) : (forall c, NoDup (map snd (filter (fun y => fst y =? c) L))) ->
  (forall c c' m, In (c, m) L -> In (c', m) L -> c = c') -> NoDup (map snd L).
Proof.
  induction L as [|[c m] L IH]; intros ND OW; [constructor|]. cbn [map snd]. constructor.
  - intros X. apply in_map_iff in X. destruct X as ((c' & m') & E & X). cbn in E. subst m'. assert (c' = c) by (apply (OW c' c m); [right; exact X|left; reflexivity]). subst c'.
    specialize (ND c). cbn [filter fst] in ND. rewrite Nat.eqb_refl in ND. cbn [map snd] in ND. inversion ND as [|? ? N1 _]; subst. apply N1. apply in_map_iff. exists (c, m). split; [reflexivity|]. apply filter_In. split; [exact X|apply Nat.eqb_refl].
  - apply IH; [|intros a b q X Y; apply (OW a b q); right; assumption]. intros a. specialize (ND a). cbn [filter] in ND. destruct (fst (c, m) =? a); [inversion ND; assumption|exact ND].
Qed.
(** If no machine hands over a message twice and no two machines the same one, no client gets a message twice; and every
    message a client gets was handed over by some client's machine. *)
Theorem C94_each_once :
  forall S P B O (opf : nat -> S -> op B -> S * ret P B O) wants fin queue start crit ser par oc room n acts,
  (forall m, par (ser m) = Some m) -> (forall i s o, o <> Drain -> drained [snd (opf i s o)] = []) ->
  let w := fst (sys_exec opf wants fin queue start crit ser par oc room (sys_init n) acts) in
  let log := snd (sys_exec opf wants fin queue start crit ser par oc room (sys_init n) acts) in
  counted oc (sy_tr w) -> forall c x, at_work w c x ->
  (forall m, In m (deliveries (cops c log)) -> exists c', In m (drained (crets c' log))) /\
  ((forall c, NoDup (drained (crets c log))) -> (forall c c' m, In m (drained (crets c log)) -> In m (drained (crets c' log)) -> c = c') -> NoDup (deliveries (cops c log))).
Proof.
  intros S P B O opf wants fin queue start crit ser par oc room n acts SP DR w log CT c x A.
  destruct (C94_clients_read_their_room S P B O opf wants fin queue start crit ser par oc room n acts SP DR) as (L & _ & FI & JO & RD). fold w log in FI, JO, RD.
  destruct (JO c x A) as [ref J]. destruct (RD CT c x ref A J) as (k & _ & E).
  assert (IN : forall c m, In (c, m) (L ref) -> In m (drained (crets c log))).
  { intros c1 m X. apply (sub_in _ _ m (FI ref c1)). apply in_map_iff. exists (c1, m). split; [reflexivity|]. apply filter_In. split; [exact X|apply Nat.eqb_refl]. }
  split.
  - intros m X. rewrite E in X. apply filter_In in X. destruct X as [X _]. assert (Y : In m (map snd (L ref))) by (rewrite <- (firstn_skipn k (map snd (L ref))); apply in_app_iff; left; exact X).
    apply in_map_iff in Y. destruct Y as ((c1 & m1) & <- & Y). exists c1. exact (IN c1 m1 Y).
  - intros ND OW. rewrite E. apply NoDup_filter. assert (N : NoDup (map snd (L ref))).
    { apply nodup_parts; [intros a; exact (sub_nodup _ _ (FI ref a) (ND a))|]. intros a b m X Y. apply (OW a b m); apply IN; assumption. }
    rewrite <- (firstn_skipn k (map snd (L ref))) in N. clear -N. induction (firstn k (map snd (L ref))) as [|y u IH]; [constructor|]. cbn in N. inversion N as [|? ? N1 N2]; subst. constructor; [|exact (IH N2)]. intros X. apply N1, in_app_iff. left. exact X.
Qed.
Print Assumptions C94_each_once.

(** Key generation with three parties, client 2 joining first, so that clients 1 and 2 have each other's numbers (C92): client 3 gets both
    of the others' first messages; clients 1 and 2 are given their own first message instead of each other's. *)
Definition exlog :=
  let '(w, log) := kg_world toy exHb exHf3 exck excd 1 3 exrs kg_ser kg_par true "default-keygen" (exarrive 0 [2; 1; 3] ++ exall 3 21 3) in
  (flat_map (fun s => match kg_par s with Some m => [m_from m] | None => [] end) (pubs 0 (sy_tr w)),
   map (fun c => (map (@m_from _) (deliveries (cops c log)), map (@m_from _) (drained (crets c log)))) [1; 2; 3], map (fun st => match st with CRunning x => cr_idx x | _ => 0%Z end) (sy_cl w)).
Example C94_example : exlog = ([3; 2; 1; 3], [([3; 1; 3], [1]); ([3; 2; 3], [2]); ([2; 1], [3; 3])], [2%Z; 1%Z; 3%Z]).
Proof. vm_compute. reflexivity. Qed.

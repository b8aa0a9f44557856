(** Strangers on the server of the GG20 clients: C120. *)
From Coq Require Import String ZArith Lia Bool Permutation List.
From Verif Require Import ZArithX Fq Curve Toy Outcome Sigma Bytes Vss Paillier RangeProofs Pdl PdlSlack Mta Ecdsa Mp MpProofs Gg20Keygen KeygenRun Gg20Sign SignRunProofs Stores RoundSM SmSpec SmProofs KeygenSM SignSM SmTheory NetLog PropRange PropKeygen PropSign PropNetwork Manager20 M20Spec Manager20Fate Driver Clients20 Clients20Own Clients20Prog Clients20Open Clients20OpenProofs Codec PropClients20 PropClients20Sign.
Import ListNotations.
Local Open Scope nat_scope.

(** * C120 *)
(** Whatever strangers do, a message given to a client's machine was handed over by one of the clients' machines or is
    what a text posted by a stranger says. *)
Theorem C120_delivered_origin :
  forall S P B O (opf : nat -> S -> op B -> S * ret P B O) wants fin queue start crit ser par oc room n acts c x,
  (forall m, par (ser m) = Some m) ->
  let w := fst (fst (open_exec opf wants fin queue start crit ser par oc room (sys_init n, []) acts)) in
  let log := snd (open_exec opf wants fin queue start crit ser par oc room (sys_init n, []) acts) in
  client w c = Some x -> forall m, In m (deliveries (cops c log)) ->
  (exists c', In m (drained (crets c' log))) \/ exists s, In s (foreign acts) /\ par s = Some m.
Proof.
  intros S P B O opf wants fin queue start crit ser par oc room n acts c x SP w log CL m X.
  destruct (open_reach opf wants fin queue start crit ser par oc room n acts) as [l I]. fold w log in I.
  assert (HR : exists i s, has_run opf start par (sy_tr w) log c i s).
  { pose proof (oi_own _ _ _ _ _ _ _ _ _ _ _ I c x CL) as K. destruct x as [|u|su u|x|x r|]; cbn [own_ok] in K.
    1-3: destruct K as [K _]; rewrite K in X; contradiction.
    - eexists. eexists. exact (proj1 K).
    - eexists. eexists. exact (proj1 K).
    - destruct K as [[K _]|K]; [rewrite K in X; contradiction|exact K]. }
  destruct HR as (i & s & s0 & _ & _ & _ & H). destruct (H m X) as [_ SE]. exact (seen_origin opf fin queue start ser par oc SP _ l w log m I SE).
Qed.
Print Assumptions C120_delivered_origin.

(** As long as strangers post nothing a client can parse, nobody finishes unless everybody was given its own number and
    was given some message. *)
Definition gibberish {B} (par : string -> option (msg B)) (acts : list xact) : Prop := forall s, In s (foreign acts) -> par s = None.
Theorem C120_keygen_needs_numbers :
  forall (C : Curve) Hb (Hf : hashF C) ck cd (t n : nat) (rs : nat -> kg_rand C) ser par oc room acts,
  (forall m, par (ser m) = Some m) -> gibberish par acts ->
  let w := fst (fst (kg_open C Hb Hf ck cd t n rs ser par oc room acts)) in let log := snd (kg_open C Hb Hf ck cd t n rs ser par oc room acts) in
  (exists d y r, client w d = Some (CDone y r)) ->
  own_numbers log /\ (forall c, 1 <= c <= n -> In (EIndex c (Z.of_nat c)) log) /\ forall c, 1 <= c <= n -> exists m, In m (deliveries (cops c log)).
Proof.
  intros C Hb Hf ck cd t n rs ser par oc room acts SP GB w log DN.
  destruct (open_reach (fun c => kg_op C Hb Hf ck cd (rs (c - 1))) (@kg_wants_to_proceed C) (@kg_is_finished C) (@ks_queue C) (kg_program C Hb Hf ck cd t n rs) kg_is_critical ser par oc room n acts) as [l I].
  assert (LN : length (sy_cl w) = n) by (unfold w, kg_open; rewrite open_len; apply repeat_length).
  exact (keygen_numbers C Hb Hf ck cd t n rs ser par oc _ l w log SP GB LN I DN).
Qed.
Print Assumptions C120_keygen_needs_numbers.
Theorem C120_offline_needs_numbers :
  forall (C : Curve) Hb (Hz : hashZ C) (Hf : hashF C) n (f : list (Fq (cq C))) Ns dls sl (lks : nat -> local_key C) (rs : nat -> sign_rand C) ser par oc room acts,
  signers_ok n f Ns dls sl lks -> distinct_shares sl lks -> (forall m, par (ser m) = Some m) -> gibberish par acts ->
  let w := fst (fst (sg_open C Hb Hz Hf sl lks rs ser par oc room acts)) in let log := snd (sg_open C Hb Hz Hf sl lks rs ser par oc room acts) in
  (exists d y r, client w d = Some (CDone y r)) ->
  own_numbers log /\ (forall c, 1 <= c <= length sl -> In (EIndex c (Z.of_nat c)) log) /\ forall c, 1 <= c <= length sl -> exists m, In m (deliveries (cops c log)).
Proof.
  intros C Hb Hz Hf n f Ns dls sl lks rs ser par oc room acts KO DS SP GB w log DN.
  destruct (open_reach (fun c => sg_op C Hb Hz Hf (rs (c - 1))) (@sg_wants_to_proceed C) (@sg_is_finished C) (@sm_queue C) (sg_program C sl lks) sg_is_critical ser par oc room (length sl) acts) as [l I].
  assert (LN : length (sy_cl w) = length sl) by (unfold w, sg_open; rewrite open_len; apply repeat_length).
  exact (offline_numbers C Hb Hz Hf n f Ns dls sl lks rs ser par oc _ l w log KO DS SP GB LN I DN).
Qed.
Print Assumptions C120_offline_needs_numbers.

(** ** One request *)
(** Client c0 is the first to subscribe; before anything is posted a stranger posts one text. *)
Definition posted_first (room : string) (c0 : nat) (junk : string) : list xact := map XClient (room_first c0) ++ [XAsk room (RPub junk)] ++ repeat (XClient (CServe 1)) 2.
(** Client 1 is the first to subscribe; before it asks for its index a stranger asks for one. *)
Definition indexed_first (room : string) : list xact :=
  map XClient (room_first 1) ++ [XAsk room RIssue] ++ repeat (XClient (CServe 1)) 2 ++ [XClient (CJoined 1)] ++ repeat (XClient (CServe 2)) 2 ++ [XClient (CIndexed 1)].
Lemma idle {S P B O} n c : 1 <= c <= n -> client (sys_init n : sys S P B O) c = Some CIdle.
Proof. intros R. destruct c as [|k]; [lia|]. cbn [client sys_init sy_cl]. rewrite (nth_error_nth' _ CIdle) by (rewrite repeat_length; lia). rewrite nth_repeat. reflexivity. Qed.
Section Start.
Context {S P B O : Type}.
Context (opf : nat -> S -> op B -> S * ret P B O) (wants fin : S -> bool) (queue : S -> list (msg B)).
Context (start : nat -> Z -> option S) (crit : sm_error P -> bool) (ser : msg B -> string) (par : string -> option (msg B)) (oc : bool) (room : string).
Notation go n := (open_exec opf wants fin queue start crit ser par oc room (sys_init n, [])).
Lemma posted_run n c0 junk : 1 <= c0 <= n -> let r := go n (posted_first room c0 junk) in
  sy_tr (fst (fst r)) = [OJoined 0 room 0 None; OPublished 1 room 0 junk] /\ client (fst (fst r)) c0 = Some (CSubscribing 0) /\ snd r = [EAsk c0 (RSub None)].
Proof.
  intros R. unfold posted_first, room_first. cbn [map app repeat open_exec open_step sys_step]. rewrite (idle n c0 R). unfold ask, serve, next_task. cbn. unfold serve. cbn. unfold lookup_step. cbn. rewrite String.eqb_refl. cbn.
  refine (conj eq_refl (conj _ eq_refl)). destruct c0 as [|k]; [lia|]. cbn [client sy_cl]. replace (Datatypes.S k - 1) with k by lia. apply upd_nth_same. rewrite repeat_length. lia.
Qed.
Lemma posted_stuck n c0 junk : 1 <= c0 <= n -> stuck room c0 0 0 junk (fst (fst (go n (posted_first room c0 junk)))) (snd (go n (posted_first room c0 junk))).
Proof.
  intros R. destruct (posted_run n c0 junk R) as (T & CL & L). constructor; [rewrite CL; reflexivity|rewrite L; reflexivity|rewrite T; left; reflexivity|]. rewrite T. exists []. reflexivity.
Qed.
Lemma indexed_run n : 1 <= n -> In (EIndex 1 2%Z) (snd (go n (indexed_first room))).
Proof.
  intros R. destruct n as [|n]; [lia|]. unfold indexed_first, room_first. cbn [map app repeat open_exec open_step sys_step sys_init client sy_cl nth_error]. unfold ask, serve, next_task. cbn. unfold serve. cbn. unfold lookup_step. cbn. rewrite String.eqb_refl. cbn.
  unfold serve. cbn. unfold lookup_step. cbn. rewrite String.eqb_refl. cbn. destruct (start 1 2%Z); cbn; auto.
Qed.
(** A stranger's text at the head of the room, and any continuation: the client that was there first is never given a message. *)
Lemma never_given n c0 junk acts : 1 <= c0 <= n -> par junk = None -> deliveries (cops c0 (snd (go n (posted_first room c0 junk ++ acts)))) = [].
Proof.
  intros R PJ. destruct (open_reach opf wants fin queue start crit ser par oc room n (posted_first room c0 junk)) as [l I].
  assert (I' : OInv opf fin queue start ser par oc (fun _ => True) l (fst (fst (go n (posted_first room c0 junk)))) (snd (go n (posted_first room c0 junk)))).
  { destruct I as [I1 I2 I3 I4]. constructor; [exact I1| |exact I3|exact I4]. intros rid s X. left. exact Logic.I. }
  rewrite open_app. cbn [snd]. pose proof (stuck_exec opf wants fin queue start crit ser par oc room (fun _ => True) acts l) as Q. destruct (fst (go n (posted_first room c0 junk))) as [w own] eqn:E. cbn [fst] in *.
  refine (sk_none _ _ _ _ _ _ _ (Q w own _ c0 0 0 junk PJ (fun _ _ => Logic.I) I' _)). pose proof (posted_stuck n c0 junk R) as K. rewrite E in K. exact K.
Qed.
End Start.

(** One text no client can parse, posted before anybody's first message: whatever happens afterwards, nobody ever finishes, unless
    somebody posts messages in the clients' stead.  The stranger needs to know the name of the room and nothing else. *)
Theorem C120_text_stops_keygen_refuted :
  forall (C : Curve) Hb (Hf : hashF C) ck cd (t n : nat) (rs : nat -> kg_rand C) ser par oc room c0 junk,
  (forall m, par (ser m) = Some m) -> 1 <= c0 <= n -> par junk = None ->
  let pre := posted_first room c0 junk in
  asks pre = [(room, RPub junk)] /\
  forall acts, gibberish par acts -> forall d y r, client (fst (fst (kg_open C Hb Hf ck cd t n rs ser par oc room (pre ++ acts)))) d <> Some (CDone y r).
Proof.
  intros C Hb Hf ck cd t n rs ser par oc room c0 junk SP R PJ pre. split; [reflexivity|]. intros acts GB d y r CD.
  assert (GB' : gibberish par (pre ++ acts)) by (intros s X; rewrite foreign_app in X; apply in_app_iff in X; destruct X as [[<-|[]]|X]; [exact PJ|exact (GB s X)]).
  destruct (C120_keygen_needs_numbers C Hb Hf ck cd t n rs ser par oc room (pre ++ acts) SP GB' (ex_intro _ d (ex_intro _ y (ex_intro _ r CD)))) as (_ & _ & H). destruct (H c0 R) as [m X].
  unfold kg_open, pre in X. rewrite (never_given _ _ _ _ _ _ ser par oc room n c0 junk acts R PJ) in X. contradiction.
Qed.
Print Assumptions C120_text_stops_keygen_refuted.
Theorem C120_text_stops_signing_refuted :
  forall (C : Curve) Hb (Hz : hashZ C) (Hf : hashF C) n (f : list (Fq (cq C))) Ns dls sl (lks : nat -> local_key C) (rs : nat -> sign_rand C) ser par oc room c0 junk,
  signers_ok n f Ns dls sl lks -> distinct_shares sl lks -> (forall m, par (ser m) = Some m) -> 1 <= c0 <= length sl -> par junk = None ->
  let pre := posted_first room c0 junk in
  asks pre = [(room, RPub junk)] /\
  forall acts, gibberish par acts -> forall d y r, client (fst (fst (sg_open C Hb Hz Hf sl lks rs ser par oc room (pre ++ acts)))) d <> Some (CDone y r).
Proof.
  intros C Hb Hz Hf n f Ns dls sl lks rs ser par oc room c0 junk KO DS SP R PJ pre. split; [reflexivity|]. intros acts GB d y r CD.
  assert (GB' : gibberish par (pre ++ acts)) by (intros s X; rewrite foreign_app in X; apply in_app_iff in X; destruct X as [[<-|[]]|X]; [exact PJ|exact (GB s X)]).
  destruct (C120_offline_needs_numbers C Hb Hz Hf n f Ns dls sl lks rs ser par oc room (pre ++ acts) KO DS SP GB' (ex_intro _ d (ex_intro _ y (ex_intro _ r CD)))) as (_ & _ & H). destruct (H c0 R) as [m X].
  unfold sg_open, pre in X. rewrite (never_given _ _ _ _ _ _ ser par oc room (length sl) c0 junk acts R PJ) in X. contradiction.
Qed.
Print Assumptions C120_text_stops_signing_refuted.
(** One request for an index, sent while the first client is joining, does the same: that client gets number 2. *)
Theorem C120_index_stops_keygen_refuted :
  forall (C : Curve) Hb (Hf : hashF C) ck cd (t n : nat) (rs : nat -> kg_rand C) ser par oc room,
  (forall m, par (ser m) = Some m) -> 1 <= n ->
  let pre := indexed_first room in
  asks pre = [(room, RIssue)] /\
  forall acts, gibberish par acts -> forall d y r, client (fst (fst (kg_open C Hb Hf ck cd t n rs ser par oc room (pre ++ acts)))) d <> Some (CDone y r).
Proof.
  intros C Hb Hf ck cd t n rs ser par oc room SP R pre. split; [reflexivity|]. intros acts GB d y r CD.
  assert (GB' : gibberish par (pre ++ acts)) by (intros s X; rewrite foreign_app in X; exact (GB s X)).
  destruct (C120_keygen_needs_numbers C Hb Hf ck cd t n rs ser par oc room (pre ++ acts) SP GB' (ex_intro _ d (ex_intro _ y (ex_intro _ r CD)))) as (OW & _ & _).
  assert (X : In (EIndex 1 2%Z) (snd (kg_open C Hb Hf ck cd t n rs ser par oc room (pre ++ acts)))) by (unfold kg_open; rewrite open_app; cbn [snd]; apply in_app_iff; left; apply indexed_run; exact R).
  specialize (OW 1 2%Z X). lia.
Qed.
Print Assumptions C120_index_stops_keygen_refuted.
Theorem C120_index_stops_signing_refuted :
  forall (C : Curve) Hb (Hz : hashZ C) (Hf : hashF C) n (f : list (Fq (cq C))) Ns dls sl (lks : nat -> local_key C) (rs : nat -> sign_rand C) ser par oc room,
  signers_ok n f Ns dls sl lks -> distinct_shares sl lks -> (forall m, par (ser m) = Some m) -> 1 <= length sl ->
  let pre := indexed_first room in
  asks pre = [(room, RIssue)] /\
  forall acts, gibberish par acts -> forall d y r, client (fst (fst (sg_open C Hb Hz Hf sl lks rs ser par oc room (pre ++ acts)))) d <> Some (CDone y r).
Proof.
  intros C Hb Hz Hf n f Ns dls sl lks rs ser par oc room KO DS SP R pre. split; [reflexivity|]. intros acts GB d y r CD.
  assert (GB' : gibberish par (pre ++ acts)) by (intros s X; rewrite foreign_app in X; exact (GB s X)).
  destruct (C120_offline_needs_numbers C Hb Hz Hf n f Ns dls sl lks rs ser par oc room (pre ++ acts) KO DS SP GB' (ex_intro _ d (ex_intro _ y (ex_intro _ r CD)))) as (OW & _ & _).
  assert (X : In (EIndex 1 2%Z) (snd (sg_open C Hb Hz Hf sl lks rs ser par oc room (pre ++ acts)))) by (unfold sg_open; rewrite open_app; cbn [snd]; apply in_app_iff; left; apply indexed_run; exact R).
  specialize (OW 1 2%Z X). lia.
Qed.
Print Assumptions C120_index_stops_signing_refuted.

(** Three parties making a key.  With a stranger who only subscribes to the room, leaves again and posts in another room, all
    finish with the keys of C90_example; with one text posted in their room, or one index taken, nobody does. *)
Definition exopen (acts : list xact) :=
  let '((w, own), log) := kg_open toy exHb exHf3 exck excd 1 3 exrs kg_ser kg_par true "default-keygen" acts in
  (map (fun st => match st with CDone _ (RPick (Some (Ok lk))) => Some (lk_obs lk) | _ => None end) (sy_cl w),
   map (fun st => match st with CFailed => true | _ => false end) (sy_cl w), flat_map (fun e => match e with EIndex c i => [(c, i)] | _ => [] end) log).
(** Client 1 is in; the others arrive, then all take turns; [k] requests were made so far *)
Definition exrest (k : nat) : list xact := map XClient (CJoined 1 :: repeat (CServe k) 3 ++ [CIndexed 1] ++ exarrive (S k) [2; 3] ++ exall 3 (k + 20) 8).
Example C120_example :
  exopen (map XClient (room_first 1) ++ [XAsk "default-keygen" (RSub None)] ++ repeat (XClient (CServe 1)) 3 ++ [XGone 1; XAsk "else" (RPub "?")] ++ repeat (XClient (CServe 2)) 3 ++ exrest 3)
    = ([Some (13, 14, [14; 15; 16]); Some (13, 15, [14; 15; 16]); Some (13, 16, [14; 15; 16])]%Z, [false; false; false], [(1, 1%Z); (2, 2%Z); (3, 3%Z)]) /\
  exopen (posted_first "default-keygen" 1 "?" ++ exrest 2) = ([None; None; None], [true; true; true], [(1, 1%Z); (2, 2%Z); (3, 3%Z)]) /\
  exopen (map XClient (room_first 1) ++ [XAsk "default-keygen" RIssue] ++ repeat (XClient (CServe 1)) 2 ++ exrest 2) = ([None; None; None], [false; false; false], [(1, 2%Z); (2, 3%Z); (3, 4%Z)]) /\
  kg_par "?" = None /\ signers_ok 3 [tz 5; tz 7] exNs [exst; exst; exst] [3; 1] exlks /\ distinct_shares [3; 1] exlks.
Proof. refine (conj _ (conj _ (conj _ (conj _ (proj2 (proj2 C93_example)))))); vm_compute; reflexivity. Qed.

(** Strangers in other rooms of the GG20 server: C122. *)
From Coq Require Import String ZArith Lia Bool Permutation List.
From Verif Require Import ZArithX Fq Curve Toy Outcome Sigma Bytes Vss Paillier RangeProofs Pdl PdlSlack Mta Ecdsa Mp MpProofs Gg20Keygen KeygenRun Gg20Sign SignRunProofs Stores RoundSM SmSpec SmProofs KeygenSM SignSM SmTheory NetLog PropRange PropKeygen PropSign PropNetwork Manager20 M20Spec Manager20Fate Driver Clients20 Clients20Proofs Clients20Own Clients20Prog Clients20Open Clients20OpenProofs Clients20Iso Codec PropClients20 PropClients20Sign PropOpen.
Import ListNotations.
Local Open Scope nat_scope.

(** * C122 *)
(** Nobody but the clients uses the room. *)
Definition elsewhere (room : string) (xs : list xact) : Prop := Forall (fun p => fst p <> room) (asks xs).
(** A client's state without the numbers the server's tasks happen to have *)
Definition shape {S P B O} (st : stage S P B O) : stage S P B O :=
  let bare x := {| cr_sub := 0; cr_idx := cr_idx x; cr_st := cr_st x; cr_read := cr_read x; cr_out := cr_out x; cr_post := option_map (fun _ => 0) (cr_post x) |} in
  match st with CSubscribing _ => CSubscribing 0 | CIssuing _ _ => CIssuing 0 0 | CRunning x => CRunning (bare x) | CDone x r => CDone (bare x) r | CIdle => CIdle | CFailed => CFailed end.
Lemma shape_ren {S P B O} T (st : stage S P B O) : shape (stren T st) = shape st.
Proof. destruct st as [|t|su t|x|x r|]; cbn; try reflexivity; destruct (cr_post x); reflexivity. Qed.

(** Whatever strangers do in other rooms, the clients might be alone on the server: there is an execution without strangers in
    which they make the same calls, with the same results, send the same requests, and end in the same states. *)
Theorem C122_other_rooms_do_not_matter :
  forall S P B O (opf : nat -> S -> op B -> S * ret P B O) wants fin queue start crit ser par oc room n xs, elsewhere room xs ->
  let r := open_exec opf wants fin queue start crit ser par oc room (sys_init n, []) xs in
  exists acts, let w := sys_exec opf wants fin queue start crit ser par oc room (sys_init n) acts in
  snd r = snd w /\ forall c, option_map shape (client (fst (fst r)) c) = option_map shape (client (fst w) c).
Proof.
  intros S P B O opf wants fin queue start crit ser par oc room n xs EL r. destruct (iso_exec opf wants fin queue start crit ser par oc room xs EL [] _ _ [] (srel_init room n)) as (T & acts & R & E). exists acts. split; [exact E|].
  intros c. unfold r. rewrite (client_rel room T _ _ _ c R). destruct (client _ c) as [st|]; [|reflexivity]. cbn [option_map]. rewrite shape_ren. reflexivity.
Qed.
Print Assumptions C122_other_rooms_do_not_matter.

(** The first of the clients to come, on a server that has already been used by strangers in [pre] *)
Definition first_client (k c : nat) : list xact := map XClient [CStart c; CServe k; CServe k; CServe k].
Section First.
Context {S P B O : Type}.
Context (opf : nat -> S -> op B -> S * ret P B O) (wants fin : S -> bool) (queue : S -> list (msg B)).
Context (start : nat -> Z -> option S) (crit : sm_error P -> bool) (ser : msg B -> string) (par : string -> option (msg B)) (oc : bool) (room : string).
Notation op n := (open_exec opf wants fin queue start crit ser par oc room (sys_init n, [])).
Notation cl n := (sys_exec opf wants fin queue start crit ser par oc room (sys_init n)).
Lemma among n pre c xs : 1 <= c <= n -> Forall before pre -> elsewhere room pre -> elsewhere room xs ->
  let k := next_task (fst (fst (op n pre))) in
  exists T acts, srel room T (fst (cl n (room_first c ++ acts))) (fst (fst (op n (pre ++ first_client k c ++ xs)))) (snd (fst (op n (pre ++ first_client k c ++ xs)))) /\
    snd (op n (pre ++ first_client k c ++ xs)) = snd (cl n (room_first c ++ acts)).
Proof.
  intros RC BF E1 E2 k. destruct (before_exec opf wants fin queue start crit ser par oc room pre BF E1 _ _ [] (srel_init room n)) as [R1 L1]. fold (op n pre) in *.
  assert (CI : client (sys_init n : sys S P B O) c = Some CIdle) by (apply idle; exact RC).
  destruct (fst (op n pre)) as [w1 own1] eqn:EP. cbn [fst snd] in *. destruct (first_exec opf wants fin queue start crit ser par oc room _ w1 own1 c R1 CI) as (R2 & O2 & L2). fold k in R2, O2, L2. fold (first_client k c) in R2, O2, L2.
  destruct (fst (open_exec opf wants fin queue start crit ser par oc room (w1, own1) (first_client k c))) as [w2 own2] eqn:EF. cbn [fst snd] in *. subst own2. change [CStart c; CServe 0; CServe 0; CServe 0] with (room_first c) in *.
  destruct (iso_exec opf wants fin queue start crit ser par oc room xs E2 _ _ _ _ R2) as (T & acts & R3 & L3). exists T, acts.
  rewrite (open_app opf wants fin queue start crit ser par oc room _ pre), (open_app opf wants fin queue start crit ser par oc room _ (first_client k c)). rewrite EP. rewrite EF. cbn [fst snd]. rewrite exec_app. cbn [fst snd]. split; [exact R3|]. rewrite L1, L2, L3. reflexivity.
Qed.
End First.

(** Key generation clients finish as in C90, on a server used by any number of strangers in other rooms, before and while the clients
    are there. *)
Theorem C122_keygen_clients_finish :
  forall (C : Curve) Hb (Hf : hashF C) ck cd (t n : nat) (rs : nat -> kg_rand C) ser par oc room c0,
  keygen_setup ck cd t n rs -> 1 <= t < n -> (Z.of_nat (n * (n + 2)) <= 65535)%Z -> 1 <= c0 <= n -> (forall m, par (ser m) = Some m) ->
  let go := kg_open C Hb Hf ck cd t n rs ser par oc room in
  let enab := sys_enabled (@kg_wants_to_proceed C) (@kg_is_finished C) (@ks_queue C) in
  exists x : nat -> Fq (cq C), forall pre xs, Forall before pre -> elsewhere room pre -> elsewhere room xs ->
  let xs0 := pre ++ first_client (next_task (fst (fst (go pre)))) c0 ++ xs in
  own_numbers (snd (go xs0)) -> let w := fst (fst (go xs0)) in
  (forall c, client w c <> Some CFailed) /\
  (forall i y r, client w (S i) = Some (CDone y r) -> exists lk, r = RPick (Some (Ok lk)) /\ key_correct t n rs x i lk) /\
  ((forall a, enab w a = false) -> forall c, 1 <= c <= n -> exists y r, client w c = Some (CDone y r)) /\
  (all_started n w -> exists more, asks more = [] /\ own_numbers (snd (go (xs0 ++ more))) /\ forall c, 1 <= c <= n -> exists y r, client (fst (fst (go (xs0 ++ more)))) c = Some (CDone y r)).
Proof.
  intros C Hb Hf ck cd t n rs ser par oc room c0 SU TN BD C0 SP go enab.
  destruct (C90_keygen_clients_finish C Hb Hf ck cd t n rs ser par oc room c0 SU TN BD C0 SP) as [x H]. exists x. intros pre xs BF E1 E2 xs0 OW w.
  destruct (among (fun c => kg_op C Hb Hf ck cd (rs (c - 1))) (@kg_wants_to_proceed C) (@kg_is_finished C) (@ks_queue C) (kg_program C Hb Hf ck cd t n rs) kg_is_critical ser par oc room n pre c0 xs C0 BF E1 E2) as (T & acts & R & E).
  fold (kg_open C Hb Hf ck cd t n rs ser par oc room pre) in R, E. fold go in R, E. fold xs0 in R, E. fold (kg_open C Hb Hf ck cd t n rs ser par oc room xs0) in R, E. fold go in R, E. fold (kg_world C Hb Hf ck cd t n rs ser par oc room (room_first c0 ++ acts)) in R, E.
  rewrite E in OW. destruct (H acts OW) as (NF & _ & _ & KC & FI & ST).
  assert (CR : forall c, client w c = option_map (stren T) (client (fst (kg_world C Hb Hf ck cd t n rs ser par oc room (room_first c0 ++ acts))) c)) by (intros c; exact (client_rel room T _ _ _ c R)).
  refine (conj _ (conj _ (conj _ _))).
  - intros c X. rewrite CR in X. destruct (client _ c) as [st|] eqn:CL; [|discriminate]. cbn in X. destruct st; try discriminate. exact (NF c CL).
  - intros i y r X. rewrite CR in X. destruct (client _ (S i)) as [st|] eqn:CL; [|discriminate]. cbn in X. destruct st as [| | | |y' r'|]; try discriminate. cbn in X. injection X as _ <-. exact (KC i y' r' CL).
  - intros NE c RC. destruct (FI ltac:(intros a; destruct (sys_enabled (@kg_wants_to_proceed C) (@kg_is_finished C) (@ks_queue C) (fst (kg_world C Hb Hf ck cd t n rs ser par oc room (room_first c0 ++ acts))) a) eqn:EA; [|reflexivity]; destruct (enab_rel _ _ _ room T _ _ _ a R EA) as [b EB]; specialize (NE b); unfold enab, w in NE; congruence) c RC) as (y & r & CL).
    rewrite CR, CL. cbn. eauto.
  - intros AS. assert (AS' : all_started n (fst (kg_world C Hb Hf ck cd t n rs ser par oc room (room_first c0 ++ acts)))).
    { intros c RC. destruct (AS c RC) as (y & X). rewrite CR in X. destruct (client _ c) as [st|]; [|destruct X as [X|[r X]]; discriminate]. cbn in X. destruct st as [| | |y'|y' r'|]; try (destruct X as [X|[r X]]; discriminate); eauto. }
    destruct (ST AS') as (more & M1 & M2). unfold kg_world in R. destruct (lift_exec (fun c => kg_op C Hb Hf ck cd (rs (c - 1))) (@kg_wants_to_proceed C) (@kg_is_finished C) (@ks_queue C) (kg_program C Hb Hf ck cd t n rs) kg_is_critical ser par oc room more _ _ _ _ R) as (T' & ys & R' & E' & A').
    exists ys. split; [exact A'|]. unfold go, kg_open in R', E' |- *. rewrite (open_app _ _ _ _ _ _ _ _ _ _ _ xs0 ys). unfold go, kg_open in E. rewrite <- surjective_pairing in R', E'. cbn [fst snd]. rewrite E, E'. unfold kg_world in *. rewrite app_assoc, exec_app in M1, M2. cbn [fst snd] in M1, M2. split; [exact M1|].
    intros c RC. destruct (M2 c RC) as (y & r & CL). rewrite (client_rel room T' _ _ _ c R'), CL. cbn. eauto.
Qed.
Print Assumptions C122_keygen_clients_finish.
Theorem C122_offline_clients_finish :
  forall (C : Curve) Hb (Hz : hashZ C) (Hf : hashF C) n (f : list (Fq (cq C))) Ns dls sl (lks : nat -> local_key C) (rs : nat -> sign_rand C) ser par oc room c0,
  (forall l, (0 <= Hz l)%Z) -> signers_ok n f Ns dls sl lks -> sign_rand_ok Hz dls sl lks rs ->
  (forall c, 1 <= c <= length sl -> exists s, sg_new c sl (lks (c - 1)) = Ok s) ->
  let k := length sl in
  (Z.of_nat (k * (k + 4)) <= 65535)%Z -> 1 <= c0 <= k -> (forall m, par (ser m) = Some m) ->
  let go := sg_open C Hb Hz Hf sl lks rs ser par oc room in
  let enab := sys_enabled (@sg_wants_to_proceed C) (@sg_is_finished C) (@sm_queue C) in
  exists (R : pt C) x y cs, smul (fsum (map (fun p => sr_k (rs p)) (seq 0 k))) R = gen /\ coords R = Some (x, y) /\
  length cs = k /\ (forall c, In c cs -> co_R c = R) /\
  (forall m, fadd (of_Z (cq C) m) (fmul (of_Z (cq C) x) (hd f0 f)) <> f0 -> sign_outputs_ok (smul (hd f0 f) gen) m x cs) /\
  forall pre xs, Forall before pre -> elsewhere room pre -> elsewhere room xs ->
  let xs0 := pre ++ first_client (next_task (fst (fst (go pre)))) c0 ++ xs in
  own_numbers (snd (go xs0)) -> let w := fst (fst (go xs0)) in
  (forall c, client w c <> Some CFailed) /\
  (forall i z r, client w (S i) = Some (CDone z r) -> exists o, nth_error cs i = Some o /\ r = RPick (Some (Ok o))) /\
  ((forall a, enab w a = false) -> forall c, 1 <= c <= k -> exists z r, client w c = Some (CDone z r)) /\
  (all_started k w -> exists more, asks more = [] /\ own_numbers (snd (go (xs0 ++ more))) /\ forall c, 1 <= c <= k -> exists z r, client (fst (fst (go (xs0 ++ more)))) c = Some (CDone z r)).
Proof.
  intros C Hb Hz Hf n f Ns dls sl lks rs ser par oc room c0 HH KO RO NW k BD C0 SP go enab.
  destruct (C91_offline_clients_finish C Hb Hz Hf n f Ns dls sl lks rs ser par oc room c0 HH KO RO NW BD C0 SP) as (R0 & x & y & cs & B1 & B2 & B3 & B4 & B5 & H). exists R0, x, y, cs. refine (conj B1 (conj B2 (conj B3 (conj B4 (conj B5 _))))). intros pre xs BF E1 E2 xs0 OW w.
  destruct (among (fun c => sg_op C Hb Hz Hf (rs (c - 1))) (@sg_wants_to_proceed C) (@sg_is_finished C) (@sm_queue C) (sg_program C sl lks) sg_is_critical ser par oc room k pre c0 xs C0 BF E1 E2) as (T & acts & R & E).
  unfold k in R, E. fold (sg_open C Hb Hz Hf sl lks rs ser par oc room pre) in R, E. fold go in R, E. fold xs0 in R, E. fold (sg_open C Hb Hz Hf sl lks rs ser par oc room xs0) in R, E. fold go in R, E. fold (sg_world C Hb Hz Hf sl lks rs ser par oc room (room_first c0 ++ acts)) in R, E.
  rewrite E in OW. destruct (H acts OW) as (NF & _ & _ & KC & FI & ST).
  assert (CR : forall c, client w c = option_map (stren T) (client (fst (sg_world C Hb Hz Hf sl lks rs ser par oc room (room_first c0 ++ acts))) c)) by (intros c; exact (client_rel room T _ _ _ c R)).
  refine (conj _ (conj _ (conj _ _))).
  - intros c X. rewrite CR in X. destruct (client _ c) as [st|] eqn:CL; [|discriminate]. cbn in X. destruct st; try discriminate. exact (NF c CL).
  - intros i z r X. rewrite CR in X. destruct (client _ (S i)) as [st|] eqn:CL; [|discriminate]. cbn in X. destruct st as [| | | |y' r'|]; try discriminate. cbn in X. injection X as _ <-. exact (KC i y' r' CL).
  - intros NE c RC. destruct (FI ltac:(intros a; destruct (sys_enabled (@sg_wants_to_proceed C) (@sg_is_finished C) (@sm_queue C) (fst (sg_world C Hb Hz Hf sl lks rs ser par oc room (room_first c0 ++ acts))) a) eqn:EA; [|reflexivity]; destruct (enab_rel _ _ _ room T _ _ _ a R EA) as [b EB]; specialize (NE b); unfold enab, w in NE; congruence) c RC) as (z & r & CL).
    rewrite CR, CL. cbn. eauto.
  - intros AS. assert (AS' : all_started k (fst (sg_world C Hb Hz Hf sl lks rs ser par oc room (room_first c0 ++ acts)))).
    { intros c RC. destruct (AS c RC) as (z & X). rewrite CR in X. destruct (client _ c) as [st|]; [|destruct X as [X|[r X]]; discriminate]. cbn in X. destruct st as [| | |y'|y' r'|]; try (destruct X as [X|[r X]]; discriminate); eauto. }
    destruct (ST AS') as (more & M1 & M2). unfold sg_world in R. destruct (lift_exec (fun c => sg_op C Hb Hz Hf (rs (c - 1))) (@sg_wants_to_proceed C) (@sg_is_finished C) (@sm_queue C) (sg_program C sl lks) sg_is_critical ser par oc room more _ _ _ _ R) as (T' & ys & R' & E' & A').
    exists ys. split; [exact A'|]. unfold go, sg_open in R', E' |- *. rewrite (open_app _ _ _ _ _ _ _ _ _ _ _ xs0 ys). unfold go, sg_open in E. rewrite <- surjective_pairing in R', E'. cbn [fst snd]. rewrite E, E'. unfold sg_world in *. rewrite app_assoc, exec_app in M1, M2. cbn [fst snd] in M1, M2. split; [exact M1|].
    intros c RC. destruct (M2 c RC) as (z & r & CL). rewrite (client_rel room T' _ _ _ c R'), CL. cbn. eauto.
Qed.
Print Assumptions C122_offline_clients_finish.

(** Three parties making a key, after and during other people's use of two other rooms: an unparsable text, an index, a
    subscription that is closed again.  Everybody finishes with the keys of C90_example; the room the clients use is the second one
    in the server's memory and their requests are numbered from 2 on. *)
Definition expre : list xact := [XAsk "a" (RPub "?"); XAsk "b" (RSub None)] ++ map XClient (flat_map (fun t => repeat (CServe t) 3) [0; 1]).
Definition exxs : list xact :=
  [XAsk "b" RIssue; XGone 1; XAsk "a" (RPub "??")] ++ map XClient (repeat (CServe 4) 3 ++ CJoined 1 :: repeat (CServe 5) 3 ++ [CIndexed 1] ++ exarrive 6 [2; 3] ++ exall 3 25 8).
Example C122_example :
  exopen (expre ++ first_client 2 1 ++ exxs) = ([Some (13, 14, [14; 15; 16]); Some (13, 15, [14; 15; 16]); Some (13, 16, [14; 15; 16])]%Z, [false; false; false], [(1, 1%Z); (2, 2%Z); (3, 3%Z)]) /\
  next_task (fst (fst (kg_open toy exHb exHf3 exck excd 1 3 exrs kg_ser kg_par true "default-keygen" expre))) = 2 /\
  Forall before expre /\ elsewhere "default-keygen" expre /\ elsewhere "default-keygen" exxs /\ length (asks (expre ++ exxs)) = 4 /\ keygen_setup exck excd 1 3 exrs.
Proof.
  refine (conj _ (conj _ (conj _ (conj _ (conj _ (conj _ C64_example_setup)))))); try (vm_compute; reflexivity).
  - repeat constructor.
  - repeat (constructor; [discriminate|]). constructor.
  - repeat (constructor; [discriminate|]). vm_compute. repeat (constructor; [discriminate|]). constructor.
Qed.

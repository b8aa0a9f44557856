(** C130: GG18 key generation clients that were told the same hold shares of one key. *)
From Coq Require Import String Ascii ZArith NArith Bool Lia List Field.
From Verif Require Import ZArithX Fq Curve Toy Outcome Sigma SigmaProofs Bytes Vss VssProofs Ecdsa KeygenExtra Gg18RunProofs Mp MpProofs Gg20Keygen Gg18Keygen KeygenRun KeygenProofs NetSim
  Manager18 Manager18Proofs Clients18 Clients18Proofs Clients18Prog Clients18Rounds Clients18KgProofs Clients18Ends PropKeygen PropManager18 Codec PropClients18 PropClients18Exact PropClients18Order PropClients18Agree PropClients18Shares.
Import ListNotations.
Local Open Scope nat_scope.

Section AgreeKeys.
Context (C : Curve).
Notation q := (cq C).
Notation F := (Fq q).
Context (Hb : list Z -> Z) (Hf : hashF C) (ck : Z -> Z -> bool).
Context (aenc : list Z -> list Z -> list Z -> aead) (adec : list Z -> aead -> option (list Z)).
Context (j_bc : json bc18) (j_dec : json (kg_dec1 C)) (j_aead : json aead) (j_vss : json (vss C)) (j_dlog : json (dlog_proof C)).
Add Field cfagreek : (C_field C).
Notation kclient := (keygen18_client C Hb Hf ck aenc adec j_bc j_dec j_aead j_vss j_dlog).
Ltac ex H J z x HX SX := let H' := fresh in let J' := fresh in
  match type of H with feed _ _ = Done _ => destruct (exchange_done _ _ _ _ _ _ _ _ _ _ ltac:(eassumption) H J) as (z & x & HX & SX & J' & H') end; clear H J; rename H' into H; rename J' into J.
Ltac nd H J x E := let H' := fresh in let J' := fresh in destruct (need_done_talk _ _ _ _ _ H J) as (x & E & H' & J'); clear H J; rename H' into H; rename J' into J.

Lemma kdone_talk t n i u (r : kg18_rand C) nonces z f G : i < n -> feed (kclient t n (S i) u r nonces) z = Done f -> incl (talk (kclient t n (S i) u r nonces) z) G ->
  exists (b : nat -> bc18) (v : nat -> vss C), hears j_bc n i u "round1" b G /\ says j_bc i u "round1" b G /\ hears j_vss n i u "round4" v G /\ says j_vss i u "round4" v G /\
    f18_vss f = map v (seq 0 n) /\ f18_N f = map (fun j => b18_N (b j)) (seq 0 n).
Proof.
  intros L H J. unfold keygen18_client, kg18_phase1 in H, J. cbv zeta in H, J. fold (num i) in H, J. replace (S i - 1) with i in H, J by lia. cbv beta iota in H, J.
  ex H J z1 b HB SB. nd H J bc1 E1. ex H J z2 d HD SD. nd H J decs E2. nd H J eks E3. nd H J p0 E4. nd H J vsi E5. destruct vsi as [[vs shares] ix]. nd H J packs E6.
  destruct (p2p_done _ _ _ _ _ _ _ _ _ _ H J) as (z3 & a3 & J' & H'). clear H J. rename H' into H. rename J' into J.
  nd H J got E7. nd H J psh E8. ex H J z4 v HV SV. nd H J vsss E9. nd H J skp E10. ex H J z5 p HP SP. nd H J prs E11. nd H J tt0 E12. cbn [feed] in H. injection H as <-. cbn [f18_vss f18_N].
  rewrite merge_with in E1 by exact L. rewrite merge_with in E9 by exact L. injection E1 as <-. injection E9 as <-.
  match type of SB with In (Stored _ (js _ ?a)) _ => exists (with_own i a b) end. exists (with_own i vs v). unfold says. rewrite !with_own_at.
  split; [apply hears_own, HB|]. split; [exact SB|]. split; [apply hears_own, HV|]. split; [exact SV|]. split; [reflexivity|]. rewrite map_map. reflexivity.
Qed.

(** * C130 *)
(** Two key generation clients of one session, of one execution or of two, that finished.  If they were told the same commitments of round 4, counting what each stored itself, their files hold the same public key, and their shares are the values at their numbers of one polynomial
    whose constant term is the secret of that key; if they were told the same in round 1, the files hold the same Paillier keys. *)
Theorem C130_same_messages_same_key oc ser par uuid (w w' : sys18 (file18 C)) l l' c c' t t' n i i' u (r r' : kg18_rand C) nonces nonces' f f' : json_ok j_bc -> json_ok j_vss -> i < n -> i' < n ->
  nth_error (y_cl w) c = Some (kclient t n (S i) u r nonces) -> nth_error (y_cl w') c' = Some (kclient t' n (S i') u r' nonces') ->
  nth_error (y_cl (exec18 oc ser par uuid w l)) c = Some (Done f) -> nth_error (y_cl (exec18 oc ser par uuid w' l')) c' = Some (Done f') ->
  let g := log18 oc ser par uuid c w l in let g' := log18 oc ser par uuid c' w' l' in
  (same_round n u "round4" g g' -> f18_vss f = f18_vss f' /\ f18_y f = f18_y f' /\
     exists P, f18_y f = smul (hd f0 P) gen /\ sk_x (f18_shared f) = peval P (fidx (S i)) /\ sk_x (f18_shared f') = peval P (fidx (S i'))) /\
  (same_round n u "round1" g g' -> f18_N f = f18_N f').
Proof.
  intros JB JV L L' E1 E2 D1 D2 g g'.
  assert (T : forall (w : sys18 (file18 C)) l c t i r nonces f, i < n -> nth_error (y_cl w) c = Some (kclient t n (S i) u r nonces) -> nth_error (y_cl (exec18 oc ser par uuid w l)) c = Some (Done f) ->
     exists (b : nat -> bc18) (v : nat -> vss C), let G := log18 oc ser par uuid c w l in hears j_bc n i u "round1" b G /\ says j_bc i u "round1" b G /\ hears j_vss n i u "round4" v G /\ says j_vss i u "round4" v G /\
       f18_vss f = map v (seq 0 n) /\ f18_N f = map (fun j => b18_N (b j)) (seq 0 n)).
  { clear. intros w l c t i r nonces f L E D. destruct (log_talk oc ser par uuid l w c _ E) as (p1 & P1 & Q). rewrite D in P1. injection P1 as <-. destruct (Q []) as [Q1 Q2]. rewrite app_nil_r in Q1, Q2. cbn [talk feed] in Q1, Q2. rewrite app_nil_r in Q1.
    apply (kdone_talk t n i u r nonces _ f _ L Q2). rewrite Q1. apply incl_refl. }
  assert (Y : forall (w : sys18 (file18 C)) l c t i r nonces f, i < n -> nth_error (y_cl w) c = Some (kclient t n (S i) u r nonces) -> nth_error (y_cl (exec18 oc ser par uuid w l)) c = Some (Done f) ->
     f18_y f = psum (map (fun v => hd pzero (vs_com v)) (f18_vss f)) /\ sk_x (f18_shared f) = fsum (map (fun v => peval (map dlog (vs_com v)) (fidx (S i))) (f18_vss f))).
  { clear. intros w l c t i r nonces f L E D. destruct (C125_written_file_made_from_checked_messages C Hb Hf ck aenc adec j_bc j_dec j_aead j_vss j_dlog oc ser par uuid w l c t n i u r nonces f L E D) as (b & d & e & v & p & _ & _ & PP & ->).
    unfold the_file. cbv zeta. cbn [f18_y f18_vss f18_shared sk_x]. split; [|reflexivity]. rewrite map_map. f_equal. apply map_ext_in. intros j IJ. apply in_seq in IJ. destruct (Nat.eq_dec j i) as [->|NJ]; [rewrite !with_own_at; reflexivity|].
    rewrite !with_own_ne by exact NJ. destruct (PP j ltac:(lia) NJ) as (_ & _ & Q & _). exact Q. }
  destruct (T _ _ _ _ _ _ _ _ L E1 D1) as (b & v & A1 & A2 & A3 & A4 & A5 & A6). destruct (T _ _ _ _ _ _ _ _ L' E2 D2) as (b' & v' & B1 & B2 & B3 & B4 & B5 & B6).
  destruct (Y _ _ _ _ _ _ _ _ L E1 D1) as [Y1 X1]. destruct (Y _ _ _ _ _ _ _ _ L' E2 D2) as [Y2 X2]. clear T Y. split.
  - intros S4. pose proof (same_values j_vss _ _ _ _ _ _ _ _ _ JV L L' S4 A3 A4 B3 B4) as Q4.
    assert (EV : f18_vss f = f18_vss f') by congruence. split; [exact EV|]. rewrite <- EV in Y2, X2. split; [congruence|].
    exists (fold_right (padd2 C) [] (map (fun v => map dlog (vs_com v)) (f18_vss f))). rewrite Y1, X1, X2. clear.
    assert (PE : forall l x, fsum (map (fun v => peval (map dlog (vs_com v)) x) l) = peval (fold_right (padd2 C) [] (map (fun v : vss C => map dlog (vs_com v)) l)) x).
    { induction l as [|a l IH]; intros x; cbn [map fsum fold_right]; [reflexivity|]. rewrite peval_padd2, IH. reflexivity. }
    split; [|split; apply PE]. induction (f18_vss f) as [|a l IH]; cbn [map psum fold_right].
    { apply (dlog_eq_iff C). cbn [hd]. autorewrite with dlog. ring. }
    rewrite IH. set (P := fold_right (padd2 C) [] (map (fun v : vss C => map dlog (vs_com v)) l)). apply (dlog_eq_iff C). autorewrite with dlog. destruct (vs_com a) as [|h s]; destruct P as [|h' s']; cbn [map padd2 hd]; autorewrite with dlog; ring.
  - intros S1. pose proof (same_values j_bc _ _ _ _ _ _ _ _ _ JB L L' S1 A1 A2 B1 B2) as Q1. rewrite A6, B6, <- (map_map b b18_N), <- (map_map b' b18_N), Q1. reflexivity.
Qed.
(** In one execution this is so if no message of round 4 is replaced by another one on the server, whoever stored it. *)
Theorem C130_settled_messages_same_key oc ser par uuid (w : sys18 (file18 C)) l c c' t t' n i i' u (r r' : kg18_rand C) nonces nonces' f f' : json_ok j_bc -> json_ok j_vss -> i < n -> i' < n ->
  nth_error (y_cl w) c = Some (kclient t n (S i) u r nonces) -> nth_error (y_cl w) c' = Some (kclient t' n (S i') u r' nonces') ->
  nth_error (y_cl (exec18 oc ser par uuid w l)) c = Some (Done f) -> nth_error (y_cl (exec18 oc ser par uuid w l)) c' = Some (Done f') ->
  (forall j, j < n -> settled oc ser par uuid w l (bkey (num j) "round4" u)) -> f18_y f = f18_y f' /\
  exists P, f18_y f = smul (hd f0 P) gen /\ sk_x (f18_shared f) = peval P (fidx (S i)) /\ sk_x (f18_shared f') = peval P (fidx (S i')).
Proof.
  intros JB JV L L' E1 E2 D1 D2 S. apply (C130_same_messages_same_key oc ser par uuid w w l l c c' t t' n i i' u r r' nonces nonces' f f' JB JV L L' E1 E2 D1 D2).
  intros j x x' LJ. apply settled_same, S, LJ.
Qed.
End AgreeKeys.
Print Assumptions C130_same_messages_same_key.
Print Assumptions C130_settled_messages_same_key.

(** ** Example *)
(** Clients 1 and 4 of C96_example are told the same, finish and write the key 15; nothing is replaced on the server. *)
Definition done_key (o : option (prog (file18 toy))) : option (Z * Z) := match o with Some (Done f) => Some (to_Z (f18_y f : Fq 31), to_Z (sk_x (f18_shared f))) | _ => None end.
Example C130_example : (forall m u rd, same_round m u rd (log18 true exser expar exuuid 0 exw1 exl1) (log18 true exser expar exuuid 3 exw1 exl1)) /\ length (log18 true exser expar exuuid 0 exw1 exl1) = 22 /\
  map (fun c => done_key (nth_error (y_cl (exec18 true exser expar exuuid exw1 exl1)) c)) [0; 3] = [Some (15, 9); Some (15, 14)]%Z /\ json_ok (jof cbc18) /\ json_ok (jof cvss) /\
  (forall j, j < 4 -> settled true exser expar exuuid exw1 exl1 (bkey (num j) "round4" "u")).
Proof.
  split; [apply all_same_ok; vm_compute; reflexivity|]. split; [vm_compute; reflexivity|]. split; [vm_compute; reflexivity|]. split; [apply jof_ok|]. split; [apply jof_ok|].
  intros [|[|[|[|j]]]] L; [| | | |lia]; apply settled_b_ok; vm_compute; reflexivity.
Qed.

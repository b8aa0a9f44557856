(** C115: is_critical and callers that rely on it.  A caller that goes on after a non-critical error and gives up at a
    critical one is not disturbed in the offline stage of signing by messages that should be refused, while any such message
    that does not bear the own index ends a key generation. *)
From Coq Require Import ZArith Lia Bool List.
From Verif Require Import ZArithX Fq Curve Toy Outcome Sigma Bytes Vss Paillier RangeProofs Pdl PdlSlack Mta Ecdsa Mp MpProofs Gg20Keygen Gg20Sign Blame BlameProofs Stores RoundSM SmSpec SmProofs KeygenSM SignSM SmSim SmTheory SmFacts SmTags PropKeygen PropSign PropRange PropNetwork PropPanic PropSM Driver.
Import ListNotations.
Local Open Scope nat_scope.

Lemma should_accept_iff {B} (of : B -> nat) p2p me n h m : should_accept of p2p me n h m = true <-> acceptable of p2p me n h m.
Proof.
  unfold should_accept, acceptable. rewrite !andb_true_iff, existsb_exists. split.
  - intros [[[x [I E]] A] G]. apply Nat.eqb_eq in E. subst x. split; [exact I|]. split; [exact A|]. destruct (got of p2p me h (of (m_body m)) (m_from m)); [discriminate|reflexivity].
  - intros [I [A G]]. split; [split; [exists (m_from m); split; [exact I|apply Nat.eqb_refl]|exact A]|]. rewrite G. reflexivity.
Qed.
Lemma drive_app {S P B R} crit (step : S -> op B -> S * ret P B R) h1 : forall s h2,
  fst (drive crit step s (h1 ++ h2)) = match fst (drive crit step s h1) with None => None | Some s1 => fst (drive crit step s1 h2) end.
Proof.
  induction h1 as [|o h1 IH]; intros s h2; [reflexivity|]. cbn [drive app]. destruct (step s o) as [s1 r]. destruct (gives_up crit r); [reflexivity|].
  specialize (IH s1 h2). destruct (drive crit step s1 (h1 ++ h2)), (drive crit step s1 h1). exact IH.
Qed.
(** A caller that does not give up does what run_ops does. *)
Lemma drive_run {S P B R} crit (step : S -> op B -> S * ret P B R) h : forall s x, fst (drive crit step s h) = Some x -> run_ops step s h = (x, snd (drive crit step s h)).
Proof.
  induction h as [|o h IH]; intros s x E; [injection E as <-; reflexivity|]. cbn [drive run_ops] in *. destruct (step s o) as [s1 r]. destruct (gives_up crit r); [discriminate|].
  specialize (IH s1 x). destruct (drive crit step s1 h) as [y rs]. cbn [fst snd] in *. rewrite (IH E). reflexivity.
Qed.

(** ** Offline stage *)
Section Sg.
Context (C : Curve).
Context (Hb : list Z -> Z) (Hz : hashZ C) (Hf : hashF C) (rd : sign_rand C).
Notation opf := (sg_op C Hb Hz Hf rd).
Notation hist := (sg_hist C Hb Hz Hf rd).
Notation of := (sg_of C).
Notation p2p := sg_p2p.
Context (i : nat) (sl : list nat) (lk : local_key C).
Notation P := (sgp C Hb Hz Hf rd i (length sl)).
Notation D0 := (SR0 i sl lk : sg_st C).

Lemma picks_after h s rs h2 : hist i sl lk h s rs -> picks rs <> [] -> picks (snd (run_ops opf s h2)) = [].
Proof.
  intros H N. pose proof (sg_hist_app C Hb Hz Hf rd _ _ _ h h2 s rs H) as H2. pose proof (C58_offline_pick C Hb Hz Hf rd i sl lk _ _ _ H2) as Q.
  destruct (sg_pick_output (fst (run_ops opf s h2))) as [s' r]. destruct Q as [_ Q]. unfold picks in *. rewrite flat_map_app, app_length in Q.
  destruct (flat_map _ rs) as [|a l]; [contradiction|]. destruct (flat_map _ (snd (run_ops opf s h2))); [reflexivity|]. cbn in Q. lia.
Qed.

Lemma pick_only s o q : snd (opf s o) = RPick q -> o = Pick.
Proof.
  destruct o as [m| | |]; unfold sg_op; [destruct (sg_handle_incoming C Hb Hz Hf rd s m); discriminate|destruct (sg_proceed C Hb Hz Hf rd s); discriminate|destruct (sg_drain s); discriminate|reflexivity].
Qed.
(** An error of any call of any history.  If it is not critical, the machine is what it was before the call.  If it is
    critical, no later history of calls ever yields an output. *)
Theorem C115_offline_is_critical h s rs o e : hist i sl lk h s rs -> snd (opf s o) = RUnit (Err e) \/ snd (opf s o) = RPick (Some (Err e)) ->
  (sg_is_critical e = false -> fst (opf s o) = s) /\
  (sg_is_critical e = true -> forall h2, picks (snd (run_ops opf (fst (opf s o)) h2)) = []).
Proof.
  intros H [E|E].
  - destruct (sg_hist_run C Hb Hz Hf rd _ _ _ _ _ _ H) as [L [A _]].
    pose proof (op_results P D0 L (sgp_of C Hb Hz Hf rd i (length sl)) (sgp_exp C Hb Hz Hf rd i (length sl)) h o) as Q.
    rewrite <- A, (sg_op_sim C Hb Hz Hf rd) in Q. cbn [snd] in Q. rewrite E in Q. cbn [sg_ret] in Q.
    assert (ST : (exists m, o = Deliver m /\ fresh P h m = false) -> fst (opf s o) = s).
    { intros [m [-> F]]. pose proof (C56_offline_bad_refused C Hb Hz Hf rd i sl lk h s rs m H) as B.
      cbn [sg_op]. destruct (sg_handle_incoming C Hb Hz Hf rd s m) as [s' r]. apply B. intros G. apply (fresh_acceptable P h m L) in G. congruence. }
    destruct e; try contradiction.
    + split; [discriminate|]. intros _ h2. pose proof (sg_hist_snoc C Hb Hz Hf rd _ _ _ h s rs o H) as H1.
      destruct (run_ops opf (fst (opf s o)) h2) as [s2 r2] eqn:E2. cbn [snd].
      assert (FN : failures (rs ++ [snd (opf s o)]) <> []).
      { rewrite E. unfold failures. rewrite flat_map_app. intros X. apply app_eq_nil in X. destruct X as [_ X]. discriminate X. }
      destruct (C59_offline_final C Hb Hz Hf rd i sl lk _ h2 _ _ s2 r2 H1 FN E2) as [PK _]. unfold picks in *. rewrite flat_map_app in PK. apply app_eq_nil in PK. exact (proj2 PK).
    + split; [intros _; exact (ST Q)|discriminate].
    + split; [intros _; exact (ST Q)|discriminate].
  - assert (OP : o = Pick) by exact (pick_only s o _ E). subst o. cbn [sg_op] in *.
    pose proof (C58_offline_pick C Hb Hz Hf rd i sl lk h s rs H) as Q. destruct (sg_pick_output s) as [s' r] eqn:PO. cbn [fst snd] in *. injection E as ->.
    destruct Q as [[-> [-> D]] _]. split; [reflexivity|]. intros _ h2. destruct D as [[D _]|[_ D]]; [exact (picks_after h s rs h2 H D)|].
    destruct (run_ops opf s h2) as [s2 r2] eqn:E2. cbn [snd]. destruct (C59_offline_final C Hb Hz Hf rd i sl lk h h2 s rs s2 r2 H D E2) as [PK _].
    unfold picks in *. rewrite flat_map_app in PK. apply app_eq_nil in PK. exact (proj2 PK).
Qed.

Lemma drive_clean h : forall pre s rs, hist i sl lk pre s rs ->
  let d := drive sg_is_critical opf s h in let d' := drive sg_is_critical opf s (without_refused of p2p i (length sl) pre h) in
  fst d = fst d' /\ picks (snd d) = picks (snd d') /\ drained (snd d) = drained (snd d').
Proof.
  induction h as [|o h IH]; intros pre s rs H; [cbn; auto|]. cbn zeta.
  pose proof (IH _ _ _ (sg_hist_snoc C Hb Hz Hf rd _ _ _ pre s rs o H)) as Q. cbn zeta in Q.
  assert (STEP : forall h', h' = without_refused of p2p i (length sl) (pre ++ [o]) h ->
    fst (drive sg_is_critical opf s (o :: h)) = fst (drive sg_is_critical opf s (o :: h')) /\
    picks (snd (drive sg_is_critical opf s (o :: h))) = picks (snd (drive sg_is_critical opf s (o :: h'))) /\
    drained (snd (drive sg_is_critical opf s (o :: h))) = drained (snd (drive sg_is_critical opf s (o :: h')))).
  { intros h' ->. cbn [drive]. destruct (opf s o) as [s1 r]. cbn [fst snd] in Q. destruct (gives_up sg_is_critical r); [cbn; auto|].
    destruct (drive sg_is_critical opf s1 h) as [x l], (drive sg_is_critical opf s1 _) as [x' l']. cbn [fst snd] in *. destruct Q as [Q1 [Q2 Q3]].
    unfold picks, drained in *. cbn [flat_map]. rewrite Q2, Q3. auto. }
  destruct o as [m| | |]; cbn [without_refused]; [|exact (STEP _ eq_refl)..].
  destruct (should_accept of p2p i (length sl) pre m) eqn:A; [exact (STEP _ eq_refl)|]. clear STEP. cbn [app].
  assert (N : ~ acceptable of p2p i (length sl) pre m) by (intros G; apply should_accept_iff in G; congruence).
  pose proof (C56_offline_bad_refused C Hb Hz Hf rd i sl lk pre s rs m H N) as B. cbn [drive sg_op] in *.
  destruct (sg_handle_incoming C Hb Hz Hf rd s m) as [s' r]. cbn [fst snd] in Q. destruct B as [-> [_ B]].
  assert (G : gives_up sg_is_critical (RUnit r : ret mp_error (sg_msg C) (completed C)) = false) by (destruct B as [->|[[c [mr ->]]|[e ->]]]; reflexivity).
  rewrite G. destruct (drive sg_is_critical opf s h) as [x l]. cbn [fst snd] in *. destruct Q as [Q1 [Q2 Q3]]. unfold picks, drained in *. cbn [flat_map app]. auto.
Qed.
(** The caller of an offline machine, on any history from the start: leaving out all messages that should be refused changes
    neither whether it gives up, nor the state of the machine in the end, nor the output handed over, nor what was sent. *)
Theorem C115_offline_junk_ignored s0 h : sg_new i sl lk = Ok s0 ->
  let d := drive sg_is_critical opf s0 h in let d' := drive sg_is_critical opf s0 (without_refused of p2p i (length sl) [] h) in
  fst d = fst d' /\ picks (snd d) = picks (snd d') /\ drained (snd d) = drained (snd d').
Proof. intros N. apply (drive_clean h [] s0 []). exists s0. split; [exact N|reflexivity]. Qed.
End Sg.
Print Assumptions C115_offline_is_critical.
Print Assumptions C115_offline_junk_ignored.

(** ** Key generation *)
Section Kg.
Context (C : Curve).
Context (Hb : list Z -> Z) (Hf : hashF C) (ck : Z -> Z -> bool) (cd : Z -> dlstmt -> outcome mp_error bool) (rd : kg_rand C).
Notation opf := (kg_op C Hb Hf ck cd rd).
Context (i t n : nat).

(** Critical or not, the caller of key generation gives up at every error.  A message that should be refused changes nothing
    in the machine (it could go on), but the caller gives up on it, whatever came before and comes after, unless it bears the
    own index. *)
Theorem C115_keygen_refused_critical_refuted s0 h1 m h2 : kg_new C Hb Hf ck cd rd i t n = Ok s0 ->
  m_from m <> i -> ~ acceptable (kg_of C) kg_p2p i n h1 m ->
  (forall s rs, run_ops opf s0 h1 = (s, rs) -> fst (opf s (Deliver m)) = s) /\
  fst (drive kg_is_critical opf s0 (h1 ++ Deliver m :: h2)) = None.
Proof.
  intros N F A.
  assert (B : forall s rs, run_ops opf s0 h1 = (s, rs) -> fst (opf s (Deliver m)) = s /\ exists e, snd (opf s (Deliver m)) = RUnit (Err e)).
  { intros s rs E. pose proof (C56_keygen_bad_refused C Hb Hf ck cd rd i t n h1 s rs m (ex_intro _ s0 (conj N E)) A) as Q. cbn [kg_op].
    destruct (kg_handle_incoming C Hb Hf ck cd rd s m) as [s' r]. cbn [fst snd]. destruct Q as [-> [Q _]]. split; [reflexivity|]. destruct (Q F) as [e ->]. exists e. reflexivity. }
  split; [intros s rs E; exact (proj1 (B s rs E))|]. rewrite drive_app. destruct (fst (drive kg_is_critical opf s0 h1)) as [s|] eqn:D; [|reflexivity].
  apply drive_run in D. destruct (B _ _ D) as [_ [e E]]. cbn [drive]. destruct (opf s (Deliver m)) as [s' r]. cbn [snd] in E. subst r. reflexivity.
Qed.
End Kg.
Print Assumptions C115_keygen_refused_critical_refuted.

(** ** Examples: the runs of C66_example and C57_example, every message delivered twice.  The first signer's caller is still
    handed the output; the key generation caller gives up, though it does not on the messages delivered once. *)
Definition twice {B} (h : list (op B)) : list (op B) := flat_map (fun o => match o with Deliver m => [o; o] | _ => [o] end) h.
Definition exdrive (h : list (op (sg_msg toy))) : option (option nat * nat * nat) :=
  match sg_new 1 [3; 1] (exlks 0) with
  | Ok s0 => let d := drive sg_is_critical (sg_op toy exHb2 exH exHf2 (exsrs 0)) s0 h in
             Some (option_map (@sg_current_round toy) (fst d), length (picks (snd d)), length (filter (fun r => match r with RUnit (Err _) => true | _ => false end) (snd d)))
  | _ => None
  end.
Example C115_offline_example :
  exdrive (exhist1 6 ++ [Pick]) = Some (Some 7, 1, 0) /\ exdrive (twice (exhist1 6) ++ [Pick]) = Some (Some 7, 1, 6) /\
  length (without_refused (sg_of toy) sg_p2p 1 2 [] (twice (exhist1 6))) = length (exhist1 6).
Proof. vm_compute. repeat split. Qed.
Example C115_keygen_example :
  let d h := fst (drive kg_is_critical exop (kg_start toy 1 1 3) h) in
  option_map (@kg_current_round toy) (d exha) = Some 3 /\ option_map (@kg_current_round toy) (d (twice exha)) = None /\
  kg_current_round (fst (exrun (twice exha))) = 3.
Proof. vm_compute. repeat split. Qed.

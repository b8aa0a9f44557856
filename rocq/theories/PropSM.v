(** Properties of the two GG20 state machines (keygen.rs, sign.rs) under every history of calls: C54 to C63.
    A history is a list of handle_incoming, proceed, message-queue and pick_output calls in any order, with any
    messages; [kg_hist] and [sg_hist] relate it to the state and the results of a machine made by the constructor. *)
From Coq Require Import ZArith Lia Bool List Permutation.
From Verif Require Import ZArithX Fq Curve Toy Outcome Sigma Bytes Vss Paillier RangeProofs Pdl PdlSlack Mta Ecdsa Mp MpProofs Gg20Keygen Gg20Sign Blame BlameProofs Stores RoundSM SmSpec SmProofs KeygenSM SignSM SmSim SmTheory SmFacts SmTags PropKeygen PropSign.
Import ListNotations.
Local Open Scope nat_scope.

(** A message the machine should accept after history [h]: from another party, correctly addressed, the first one of
    its round from that party. *)
Definition acceptable {B} (of : B -> nat) (p2p : nat -> bool) (me n : nat) (h : list (op B)) (m : msg B) : Prop :=
  In (m_from m) (peers me n) /\ addressed_ok of p2p me m = true /\ got of p2p me h (of (m_body m)) (m_from m) = None.
(** The deliveries of a history that come from another party and are correctly addressed *)
Definition proper_msgs {B} (of : B -> nat) (p2p : nat -> bool) (me n : nat) (h : list (op B)) : list (msg B) :=
  filter (fun m => addressed_ok of p2p me m && (1 <=? m_from m) && (m_from m <=? n) && negb (m_from m =? me)) (deliveries h).
(** Everything put in the outgoing queue so far *)
Definition sent_by {P B R} (queue : list (msg B)) (rs : list (ret P B R)) : list (msg B) := drained rs ++ queue.

Lemma fresh_acceptable {P B R} (p : params P B R) h m : 1 <= g_me p <= g_n p ->
  (fresh p h m = true <-> acceptable (g_of p) (g_p2p p) (g_me p) (g_n p) h m).
Proof.
  intros L. unfold fresh, acceptable. rewrite (in_peers _ _ L), !andb_true_iff, !Nat.leb_le, negb_true_iff, Nat.eqb_neq.
  destruct (got _ _ _ h _ _); split; intros; intuition (try discriminate; auto).
Qed.
Lemma fresh_not {P B R} (p : params P B R) h m : 1 <= g_me p <= g_n p ->
  ~ acceptable (g_of p) (g_p2p p) (g_me p) (g_n p) h m -> fresh p h m = false.
Proof. intros L N. destruct (fresh p h m) eqn:F; [|reflexivity]. apply (fresh_acceptable p h m L) in F. contradiction. Qed.


(** ** Keygen *)
Section Kg.
Context (C : Curve).
Context (Hb : list Z -> Z) (Hf : hashF C) (ck : Z -> Z -> bool) (cd : Z -> dlstmt -> outcome mp_error bool) (rd : kg_rand C).
Notation M := (kg_msg C).
Notation opf := (kg_op C Hb Hf ck cd rd).
Notation hist := (kg_hist C Hb Hf ck cd rd).
Notation of := (kg_of C).
Notation p2p := kg_p2p.
Context (i t n : nat).
Notation P := (kgp C Hb Hf ck cd rd i n).
Notation D0 := (KR0 i t n : kg_r C).

(** C56: a message that is not acceptable leaves the machine exactly as it was and is answered with an error, or
    ignored if it bears the machine's own index.  An acceptable one is never refused. *)
Theorem C56_keygen_bad_refused h s rs m : hist i t n h s rs -> ~ acceptable of p2p i n h m ->
  let '(s', r) := kg_handle_incoming C Hb Hf ck cd rd s m in s' = s /\ (m_from m <> i -> exists e, r = Err e) /\
  (r = Ok tt \/ (exists cur mr, r = Err (EOutOfOrder cur mr)) \/ (exists e, r = Err (EHandle e))).
Proof.
  intros H A. destruct (kg_hist_run C Hb Hf ck cd rd _ _ _ _ _ _ H) as [L [E [_ [K1 [K2 _]]]]].
  pose proof (fresh_not P h m L A) as F. destruct (stale_op P D0 L (kgp_of C Hb Hf ck cd rd i n) (kgp_exp C Hb Hf ck cd rd i n) h m F) as [Q1 Q2].
  pose proof (kg_handle_sim C Hb Hf ck cd rd i n s m) as S. rewrite <- E in Q1, Q2. rewrite S in Q1, Q2.
  pose proof (kg_handle_const C Hb Hf ck cd rd s m) as KC. destruct (kg_handle_incoming C Hb Hf ck cd rd s m) as [s' r]. cbn [fst snd] in *. destruct KC as [KC1 KC2].
  split; [exact (kg_abs_inj C s' s Q1 KC1 KC2)|]. destruct Q2 as [[c [mr ->]]|[[e ->]|[-> Q2]]].
  - split; [intros _; eexists; reflexivity|]. right. left. exists c, mr. reflexivity.
  - split; [intros _; eexists; reflexivity|]. right. right. exists e. reflexivity.
  - split; [intros N; exfalso; exact (N Q2)|]. left. reflexivity.
Qed.
Theorem C56_keygen_good_accepted h s rs m : hist i t n h s rs -> acceptable of p2p i n h m ->
  match snd (kg_handle_incoming C Hb Hf ck cd rd s m) with Ok _ | Panic | Err (EProceed _) => True | Err _ => False end /\
  got of p2p i (h ++ [Deliver m]) (of (m_body m)) (m_from m) = Some (m_body m).
Proof.
  intros H A. destruct (kg_hist_run C Hb Hf ck cd rd _ _ _ _ _ _ H) as [L [E _]].
  pose proof (proj2 (fresh_acceptable P h m L) A) as F. pose proof (fresh_ok P D0 L (kgp_of C Hb Hf ck cd rd i n) (kgp_exp C Hb Hf ck cd rd i n) h m F) as Q.
  rewrite <- E, (kg_handle_sim C Hb Hf ck cd rd i n s m) in Q. cbn [snd] in Q. split.
  - destruct (snd (kg_handle_incoming C Hb Hf ck cd rd s m)) as [u|[]|]; auto.
  - rewrite got_app, got_deliver. destruct A as [_ [A1 A2]]. rewrite A2. unfold proper. rewrite !Nat.eqb_refl, A1. reflexivity.
Qed.

(** C57: two histories with the same proper messages (no two of the same round and sender), in any order, with any
    bad messages and any proceed and queue calls in between.  Once neither machine wants to proceed, both are in the
    same round with the same data (or finished with the same output, or failed with the same error), and have sent
    the same messages. *)
Theorem C57_keygen_order h1 s1 r1 h2 s2 r2 : hist i t n h1 s1 r1 -> hist i t n h2 s2 r2 -> ~ In Pick h1 -> ~ In Pick h2 ->
  Permutation (proper_msgs of p2p i n h1) (proper_msgs of p2p i n h2) ->
  NoDup (map (fun m => (of (m_body m), m_from m)) (proper_msgs of p2p i n h1)) ->
  kg_wants_to_proceed s1 = false -> kg_wants_to_proceed s2 = false ->
  ks_round s1 = ks_round s2 /\ sent_by (ks_queue s1) r1 = sent_by (ks_queue s2) r2 /\ failures r1 = failures r2 /\
  snd (kg_pick_output s1) = snd (kg_pick_output s2).
Proof.
  intros H1 H2 P1 P2 PM ND W1 W2. destruct (kg_hist_run C Hb Hf ck cd rd _ _ _ _ _ _ H1) as [L [E1 [R1 _]]]. destruct (kg_hist_run C Hb Hf ck cd rd _ _ _ _ _ _ H2) as [_ [E2 [R2 _]]].
  pose proof (inb_perm P L h1 h2 PM ND) as I.
  assert (NP : forall h, ~ In Pick h -> forall s, picks (snd (run_ops (g_op P) s h)) = []).
  { clear. induction h as [|o h IH]; intros N s; [reflexivity|]. cbn [run_ops]. pose proof (IH (fun X => N (or_intror X)) (fst (g_op P s o))) as Q.
    assert (O : picks [snd (g_op P s o)] = []).
    { destruct o; cbn [g_op]; [destruct (g_handle P s m)|destruct (g_proceed P (g_fuel P) true s)| |exfalso; apply N; left; reflexivity]; reflexivity. }
    destruct (g_op P s o) as [s' r]. cbn [fst snd] in *. destruct (run_ops (g_op P) s' h) as [s2 rs]. cbn [snd] in *. unfold picks in *. cbn [flat_map] in *.
    rewrite app_nil_r in O. rewrite O, Q. reflexivity. }
  destruct (quiet_same P D0 L (kgp_of C Hb Hf ck cd rd i n) (kgp_exp C Hb Hf ck cd rd i n) h1 h2 I) as [Q1 [Q2 Q3]];
    [apply NP; exact P1|apply NP; exact P2|rewrite <- E1, kg_wants_sim; exact W1|rewrite <- E2, kg_wants_sim; exact W2|].
  rewrite <- E1, <- E2 in Q1, Q2. rewrite <- R1, <- R2 in Q2, Q3. rewrite !kg_failures in Q3. rewrite !kg_sent in Q2.
  assert (RR : ks_round s1 = ks_round s2).
  { cbn [kg_abs gs_round] in Q1. destruct (ks_round s1), (ks_round s2); cbn in Q1; congruence. }
  split; [exact RR|]. split; [exact Q2|]. split; [exact Q3|]. unfold kg_pick_output. rewrite RR. destruct (ks_round s2); reflexivity.
Qed.
(** Outputs handed over are the same too. *)
Theorem C57_keygen_output h1 s1 r1 h2 s2 r2 o1 o2 : hist i t n h1 s1 r1 -> hist i t n h2 s2 r2 ->
  Permutation (proper_msgs of p2p i n h1) (proper_msgs of p2p i n h2) ->
  NoDup (map (fun m => (of (m_body m), m_from m)) (proper_msgs of p2p i n h1)) ->
  In (RPick (Some (Ok o1))) r1 -> In (RPick (Some (Ok o2))) r2 -> o1 = o2 /\ sent_by (ks_queue s1) r1 = sent_by (ks_queue s2) r2.
Proof.
  intros H1 H2 PM ND O1 O2. destruct (kg_hist_run C Hb Hf ck cd rd _ _ _ _ _ _ H1) as [L [E1 [R1 _]]]. destruct (kg_hist_run C Hb Hf ck cd rd _ _ _ _ _ _ H2) as [_ [E2 [R2 _]]].
  pose proof (inb_perm P L h1 h2 PM ND) as I.
  assert (IN : forall o r, In (RPick (Some (Ok o))) r -> In (KFinal o) (picks (map (kg_ret C) r))).
  { intros o r X. rewrite kg_picks. apply in_map. unfold picks. apply in_flat_map. eexists. split; [exact X|]. left. reflexivity. }
  destruct (picked_same P D0 L (kgp_of C Hb Hf ck cd rd i n) (kgp_exp C Hb Hf ck cd rd i n) h1 h2 (KFinal o1) (KFinal o2) I) as [Q1 Q2];
    [rewrite <- R1; apply IN; exact O1|rewrite <- R2; apply IN; exact O2|].
  injection Q1 as Q1. split; [exact Q1|]. rewrite <- E1, <- E2, <- R1, <- R2, !kg_sent in Q2. exact Q2.
Qed.

(** C58: what pick_output returns, for every history: None exactly while a round is still to be executed and none has
    failed; the output once, when finished; DoublePickOutput after that and after a failed round.  No history hands
    over two outputs. *)
Theorem C58_keygen_pick h s rs : hist i t n h s rs ->
  let '(s', r) := kg_pick_output s in
  match r with
  | None => s' = s /\ kg_current_round s <= 4 /\ failures rs = [] /\ picks rs = []
  | Some (Ok o) => ks_round s = KFinal o /\ ks_round s' = KGone /\ failures rs = [] /\ picks rs = []
  | Some (Err e) => s' = s /\ e = EDoublePick /\ (picks rs <> [] /\ failures rs = [] \/ picks rs = [] /\ failures rs <> [])
  | Some Panic => False
  end /\ length (picks rs) <= 1.
Proof.
  intros H. destruct (kg_hist_run C Hb Hf ck cd rd _ _ _ _ _ _ H) as [L [E [R _]]].
  pose proof (pick_spec P D0 L (kgp_of C Hb Hf ck cd rd i n) (kgp_exp C Hb Hf ck cd rd i n) h) as Q. cbn zeta in Q. rewrite <- E, <- R in Q.
  rewrite kg_failures, kg_picks, map_length in Q.
  assert (PN : map (KFinal (C:=C)) (picks rs) = [] -> picks rs = []) by (destruct (picks rs); [reflexivity|discriminate]).
  destruct Q as [[_ [[k [d G]] [F PK]]]|[[d [G [_ [F PK]]]]|[_ [G D]]]].
  - unfold kg_pick_output. cbn [kg_abs gs_round] in G. unfold kg_current_round. destruct (ks_round s); cbn in G; try discriminate; rewrite (PN PK); cbn; repeat split; auto; lia.
  - unfold kg_pick_output. cbn [kg_abs gs_round] in G. destruct (ks_round s) eqn:ER; cbn in G; try discriminate; rewrite (PN PK); cbn; repeat split; auto; lia.
  - unfold kg_pick_output. cbn [kg_abs gs_round] in G. destruct (ks_round s); cbn in G; try discriminate. split.
    + split; [reflexivity|]. split; [reflexivity|]. destruct D as [[D1 D2]|[D1 D2]]; [right; split; [apply PN; exact D2|exact D1]|left; split; [|exact D1]].
      intros X. rewrite X in D2. discriminate.
    + destruct D as [[_ D]|[_ D]]; [rewrite (PN D); cbn; lia|rewrite D; lia].
Qed.

(** C59: after a failed round, whatever is called later: no output, no further message. *)
Theorem C59_keygen_final h1 h2 s1 r1 s2 r2 : hist i t n h1 s1 r1 -> failures r1 <> [] -> run_ops opf s1 h2 = (s2, r2) ->
  picks (r1 ++ r2) = [] /\ sent_by (ks_queue s2) (r1 ++ r2) = sent_by (ks_queue s1) r1 /\ failures r2 = [] /\ kg_is_finished s2 = false.
Proof.
  intros H F E2. pose proof (kg_hist_app C Hb Hf ck cd rd _ _ _ h1 h2 s1 r1 H) as H2. rewrite E2 in H2. cbn [fst snd] in H2.
  destruct (kg_hist_run C Hb Hf ck cd rd _ _ _ _ _ _ H) as [L [E [R _]]]. destruct (kg_hist_run C Hb Hf ck cd rd _ _ _ _ _ _ H2) as [_ [E' [R' _]]].
  destruct (failed_final P D0 L (kgp_of C Hb Hf ck cd rd i n) (kgp_exp C Hb Hf ck cd rd i n) h1 h2) as [Q1 [Q2 [Q3 Q4]]].
  { rewrite <- R, kg_failures. exact F. }
  rewrite <- E, <- R, <- E', <- R', ?kg_failures, ?kg_sent in *. rewrite kg_picks in Q2. split; [|split; [|split]].
  - destruct (picks (r1 ++ r2)); [reflexivity|discriminate].
  - exact Q4.
  - rewrite failures_app in Q3. rewrite <- (app_nil_r (failures r1)) in Q3 at 2. apply app_inv_head in Q3. exact Q3.
  - cbn [kg_abs gs_round] in Q1. unfold kg_is_finished. destruct (ks_round s2); cbn in Q1; try discriminate; reflexivity.
Qed.

(** C60: current_round never decreases. *)
Theorem C60_keygen_monotone h1 h2 s1 r1 s2 r2 : hist i t n h1 s1 r1 -> run_ops opf s1 h2 = (s2, r2) -> kg_current_round s1 <= kg_current_round s2.
Proof.
  intros H E2. pose proof (kg_hist_app C Hb Hf ck cd rd _ _ _ h1 h2 s1 r1 H) as H2. rewrite E2 in H2. cbn [fst snd] in H2.
  destruct (kg_hist_run C Hb Hf ck cd rd _ _ _ _ _ _ H) as [L [E _]]. destruct (kg_hist_run C Hb Hf ck cd rd _ _ _ _ _ _ H2) as [_ [E' _]].
  rewrite <- !(kg_current_sim C Hb Hf ck cd rd i n), E, E'. apply (current_mono P D0 L (kgp_of C Hb Hf ck cd rd i n) (kgp_exp C Hb Hf ck cd rd i n)).
Qed.
(** ... and what has been sent is, in order, the message(s) of rounds 1, 2, ... up to the current round: all with the
    machine's index as sender, one broadcast per round, or one message per peer in the point-to-point round. *)
Theorem C60_keygen_sent h s rs : hist i t n h s rs ->
  let out := map (fun m => (m_from m, of (m_body m), m_to m)) (sent_by (ks_queue s) rs) in
  NoDup out /\
  (forall m, In m (sent_by (ks_queue s) rs) -> m_from m = i /\ if p2p (of (m_body m)) then exists j, m_to m = Some j /\ In j (peers i n) else m_to m = None) /\
  exists k, k <= kg_current_round s /\ out = flat_map (round_tags p2p i n 4) (seq 0 k) /\ (failures rs = [] -> k = kg_current_round s).
Proof.
  intros H. destruct (kg_hist_run C Hb Hf ck cd rd _ _ _ _ _ _ H) as [L [E [R [_ [_ SD]]]]].
  destruct (sent_tags P D0 L (kgp_of C Hb Hf ck cd rd i n) (kgp_exp C Hb Hf ck cd rd i n) (kg_good C i n) (round_tags p2p i n 4)) with (h := h) as [k [Q1 [Q2 Q3]]].
  { cbn. auto. }
  { intros k d l d' o LK G ST. exact (kg_good_step C Hb Hf ck cd rd i n k d l d' o LK G ST). }
  rewrite <- E in Q1, Q2, Q3. rewrite <- R in Q2, Q3. rewrite kg_failures, (kg_current_sim C Hb Hf ck cd rd) in Q3. rewrite (kg_current_sim C Hb Hf ck cd rd) in Q1. rewrite kg_sent in Q2.
  change (mtag P) with (fun m : msg M => (m_from m, of (m_body m), m_to m)) in Q2. cbn zeta. unfold sent_by. rewrite Q2. split; [apply round_tags_nodup; exact L|]. split; [|exists k; auto].
  intros m I. apply (in_map (fun m : msg M => (m_from m, of (m_body m), m_to m))) in I. rewrite Q2 in I. apply in_flat_map in I. destruct I as [j [_ I]].
  apply round_tags_spec in I. cbn [fst snd] in I. destruct I as [I1 [I2 I3]]. rewrite I2. auto.
Qed.

(** C61: wants_to_proceed says whether proceed would execute a round: then current_round goes up (it also does when
    the round fails); otherwise proceed is a successful no-op. *)
Theorem C61_keygen_wants h s rs : hist i t n h s rs ->
  (kg_wants_to_proceed s = true <-> kg_current_round s < kg_current_round (fst (kg_proceed C Hb Hf ck cd rd s))) /\
  (kg_wants_to_proceed s = false <-> kg_proceed C Hb Hf ck cd rd s = (s, Ok tt)).
Proof.
  intros H. destruct (kg_hist_run C Hb Hf ck cd rd _ _ _ _ _ _ H) as [L [E [_ [K1 [K2 _]]]]].
  pose proof (wants_proceed P D0 L (kgp_of C Hb Hf ck cd rd i n) (kgp_exp C Hb Hf ck cd rd i n) h) as Q. cbn zeta in Q. rewrite <- E in Q. rewrite kg_wants_sim in Q.
  unfold kg_proceed. change (g_fuel P) with kg_fuel in Q. rewrite !kg_proceed_sim in Q. cbn [fst] in Q. rewrite !(kg_current_sim C Hb Hf ck cd rd) in Q.
  pose proof (kg_proceed_const C Hb Hf ck cd rd kg_fuel true s) as KC.
  destruct (kg_proceed_round C Hb Hf ck cd rd kg_fuel true s) as [s' r]. cbn [fst snd] in *. destruct KC as [KC1 KC2]. destruct Q as [Q1 Q2].
  assert (Q2' : kg_wants_to_proceed s = false -> s' = s /\ r = Ok tt).
  { intros W. specialize (Q2 W). pose proof (f_equal fst Q2) as X1. pose proof (f_equal snd Q2) as X2. cbn [fst snd] in X1, X2.
    split; [|exact X2]. exact (kg_abs_inj C s' s X1 KC1 KC2). }
  destruct (kg_wants_to_proceed s); split; split; intros X; try discriminate; auto.
  - exfalso. injection X as -> ->. specialize (Q1 eq_refl). lia.
  - exfalso. destruct (Q2' eq_refl) as [-> _]. lia.
  - destruct (Q2' eq_refl) as [-> ->]. reflexivity.
Qed.

(** C62: in a round that waits for messages, round_blame gives the number and the list of the parties from which no
    proper message of that round has been delivered; before the first round and after the last it gives nobody. *)
Theorem C62_keygen_blame h s rs : hist i t n h s rs -> kg_round_blame s =
  (if (1 <=? kg_current_round s) && (kg_current_round s <=? 4)
   then (length (missing of p2p i n h (kg_current_round s)), missing of p2p i n h (kg_current_round s)) else (0, [])).
Proof.
  intros H. destruct (kg_hist_run C Hb Hf ck cd rd _ _ _ _ _ _ H) as [L [E _]].
  pose proof (blame_spec P D0 L (kgp_of C Hb Hf ck cd rd i n) (kgp_exp C Hb Hf ck cd rd i n) h) as Q. cbn zeta in Q. rewrite <- E in Q.
  rewrite <- kg_blame_sim. unfold kg_current_round. destruct (ks_round s) eqn:G; cbn [Nat.leb andb].
  1: unfold g_blame; cbn [kg_abs gs_round kg_abs_round]; rewrite G; reflexivity.
  1,2,3,4: apply (Q _ (ks_round s)); [cbn [kg_abs gs_round]; rewrite G; reflexivity|lia].
  all: unfold g_blame; cbn [kg_abs gs_round]; rewrite G; reflexivity.
Qed.

(** C63: the rounds reported with an out-of-order message. *)
Theorem C63_keygen_rounds h s rs m cur mr : hist i t n h s rs -> snd (kg_handle_incoming C Hb Hf ck cd rd s m) = Err (EOutOfOrder cur mr) ->
  cur = kg_current_round s /\ mr = of (m_body m).
Proof.
  intros H X. destruct (kg_hist_run C Hb Hf ck cd rd _ _ _ _ _ _ H) as [L [E _]].
  destruct (handle_out_of_order P D0 L (kgp_of C Hb Hf ck cd rd i n) (kgp_exp C Hb Hf ck cd rd i n) h (kg_abs C s) m cur mr E) as [Q1 [Q2 _]].
  { rewrite kg_handle_sim. exact X. }
  rewrite (kg_current_sim C Hb Hf ck cd rd) in Q1. auto.
Qed.

(** Every error or panic a call reports is that of a round function, executed on the messages delivered so far; the
    machine itself never panics, never reports an internal error, and the bound on the recursion of proceed_round is
    never reached. *)
Theorem C66_keygen_wrapper_partial h s rs o : hist i t n h s rs ->
  match snd (opf s o) with
  | RUnit (Err (EProceed e)) => exists k d l out, runs (kg_step C Hb Hf ck cd rd) D0 (inbox of p2p i n (h ++ [o])) k d out /\
      inbox of p2p i n (h ++ [o]) k = Some l /\ kg_step C Hb Hf ck cd rd k d l = Err e
  | RUnit Panic => exists k d l out, runs (kg_step C Hb Hf ck cd rd) D0 (inbox of p2p i n (h ++ [o])) k d out /\
      inbox of p2p i n (h ++ [o]) k = Some l /\ kg_step C Hb Hf ck cd rd k d l = Panic
  | RUnit (Err (EInternal _)) => False
  | _ => True
  end.
Proof.
  intros H. destruct (kg_hist_run C Hb Hf ck cd rd _ _ _ _ _ _ H) as [L [E _]].
  pose proof (op_results P D0 L (kgp_of C Hb Hf ck cd rd i n) (kgp_exp C Hb Hf ck cd rd i n) h o) as Q. rewrite <- E, (kg_op_sim C Hb Hf ck cd rd) in Q. cbn [snd] in Q.
  destruct (snd (opf s o)) as [u|l|q]; cbn [kg_ret] in Q; [|auto|auto]. destruct u as [u|e|]; [auto| |].
  - destruct e; auto. destruct Q as [k [out [d [l [_ [Q1 [Q2 [Q3 _]]]]]]]]. exists k, d, l, out. auto.
  - destruct Q as [k [out [d [l [_ [Q1 [Q2 [Q3 _]]]]]]]]. exists k, d, l, out. auto.
Qed.
End Kg.
Print Assumptions C56_keygen_bad_refused.
Print Assumptions C56_keygen_good_accepted.
Print Assumptions C57_keygen_order.
Print Assumptions C57_keygen_output.
Print Assumptions C58_keygen_pick.
Print Assumptions C59_keygen_final.
Print Assumptions C60_keygen_monotone.
Print Assumptions C60_keygen_sent.
Print Assumptions C61_keygen_wants.
Print Assumptions C62_keygen_blame.
Print Assumptions C63_keygen_rounds.
Print Assumptions C66_keygen_wrapper_partial.

(** ** OfflineStage *)
Section Sg.
Context (C : Curve).
Context (Hb : list Z -> Z) (Hz : hashZ C) (Hf : hashF C) (rd : sign_rand C).
Notation M := (sg_msg C).
Notation opf := (sg_op C Hb Hz Hf rd).
Notation hist := (sg_hist C Hb Hz Hf rd).
Notation of := (sg_of C).
Notation p2p := sg_p2p.
Context (i : nat) (sl : list nat) (lk : local_key C).
Notation P := (sgp C Hb Hz Hf rd i (length sl)).
Notation D0 := (SR0 i sl lk : sg_st C).

(** C56: a message that is not acceptable leaves the machine exactly as it was and is answered with an error, or
    ignored if it bears the machine's own index.  An acceptable one is never refused. *)
Theorem C56_offline_bad_refused h s rs m : hist i sl lk h s rs -> ~ acceptable of p2p i (length sl) h m ->
  let '(s', r) := sg_handle_incoming C Hb Hz Hf rd s m in s' = s /\ (m_from m <> i -> exists e, r = Err e) /\
  (r = Ok tt \/ (exists cur mr, r = Err (EOutOfOrder cur mr)) \/ (exists e, r = Err (EHandle e))).
Proof.
  intros H A. destruct (sg_hist_run C Hb Hz Hf rd _ _ _ _ _ _ H) as [L [E [_ [K1 [K2 _]]]]].
  pose proof (fresh_not P h m L A) as F. destruct (stale_op P D0 L (sgp_of C Hb Hz Hf rd i (length sl)) (sgp_exp C Hb Hz Hf rd i (length sl)) h m F) as [Q1 Q2].
  pose proof (sg_handle_sim C Hb Hz Hf rd i (length sl) s m) as S. rewrite <- E in Q1, Q2. rewrite S in Q1, Q2.
  pose proof (sg_handle_const C Hb Hz Hf rd s m) as KC. destruct (sg_handle_incoming C Hb Hz Hf rd s m) as [s' r]. cbn [fst snd] in *. destruct KC as [KC1 KC2].
  split; [exact (sg_abs_inj C s' s Q1 KC1 KC2)|]. destruct Q2 as [[c [mr ->]]|[[e ->]|[-> Q2]]].
  - split; [intros _; eexists; reflexivity|]. right. left. exists c, mr. reflexivity.
  - split; [intros _; eexists; reflexivity|]. right. right. exists e. reflexivity.
  - split; [intros N; exfalso; exact (N Q2)|]. left. reflexivity.
Qed.
Theorem C56_offline_good_accepted h s rs m : hist i sl lk h s rs -> acceptable of p2p i (length sl) h m ->
  match snd (sg_handle_incoming C Hb Hz Hf rd s m) with Ok _ | Panic | Err (EProceed _) => True | Err _ => False end /\
  got of p2p i (h ++ [Deliver m]) (of (m_body m)) (m_from m) = Some (m_body m).
Proof.
  intros H A. destruct (sg_hist_run C Hb Hz Hf rd _ _ _ _ _ _ H) as [L [E _]].
  pose proof (proj2 (fresh_acceptable P h m L) A) as F. pose proof (fresh_ok P D0 L (sgp_of C Hb Hz Hf rd i (length sl)) (sgp_exp C Hb Hz Hf rd i (length sl)) h m F) as Q.
  rewrite <- E, (sg_handle_sim C Hb Hz Hf rd i (length sl) s m) in Q. cbn [snd] in Q. split.
  - destruct (snd (sg_handle_incoming C Hb Hz Hf rd s m)) as [u|[]|]; auto.
  - rewrite got_app, got_deliver. destruct A as [_ [A1 A2]]. rewrite A2. unfold proper. rewrite !Nat.eqb_refl, A1. reflexivity.
Qed.

(** C57: two histories with the same proper messages (no two of the same round and sender), in any order, with any
    bad messages and any proceed and queue calls in between.  Once neither machine wants to proceed, both are in the
    same round with the same data (or finished with the same output, or failed with the same error), and have sent
    the same messages. *)
Theorem C57_offline_order h1 s1 r1 h2 s2 r2 : hist i sl lk h1 s1 r1 -> hist i sl lk h2 s2 r2 -> ~ In Pick h1 -> ~ In Pick h2 ->
  Permutation (proper_msgs of p2p i (length sl) h1) (proper_msgs of p2p i (length sl) h2) ->
  NoDup (map (fun m => (of (m_body m), m_from m)) (proper_msgs of p2p i (length sl) h1)) ->
  sg_wants_to_proceed s1 = false -> sg_wants_to_proceed s2 = false ->
  sm_round s1 = sm_round s2 /\ sent_by (sm_queue s1) r1 = sent_by (sm_queue s2) r2 /\ failures r1 = failures r2 /\
  snd (sg_pick_output s1) = snd (sg_pick_output s2).
Proof.
  intros H1 H2 P1 P2 PM ND W1 W2. destruct (sg_hist_run C Hb Hz Hf rd _ _ _ _ _ _ H1) as [L [E1 [R1 _]]]. destruct (sg_hist_run C Hb Hz Hf rd _ _ _ _ _ _ H2) as [_ [E2 [R2 _]]].
  pose proof (inb_perm P L h1 h2 PM ND) as I.
  assert (NP : forall h, ~ In Pick h -> forall s, picks (snd (run_ops (g_op P) s h)) = []).
  { clear. induction h as [|o h IH]; intros N s; [reflexivity|]. cbn [run_ops]. pose proof (IH (fun X => N (or_intror X)) (fst (g_op P s o))) as Q.
    assert (O : picks [snd (g_op P s o)] = []).
    { destruct o; cbn [g_op]; [destruct (g_handle P s m)|destruct (g_proceed P (g_fuel P) true s)| |exfalso; apply N; left; reflexivity]; reflexivity. }
    destruct (g_op P s o) as [s' r]. cbn [fst snd] in *. destruct (run_ops (g_op P) s' h) as [s2 rs]. cbn [snd] in *. unfold picks in *. cbn [flat_map] in *.
    rewrite app_nil_r in O. rewrite O, Q. reflexivity. }
  destruct (quiet_same P D0 L (sgp_of C Hb Hz Hf rd i (length sl)) (sgp_exp C Hb Hz Hf rd i (length sl)) h1 h2 I) as [Q1 [Q2 Q3]];
    [apply NP; exact P1|apply NP; exact P2|rewrite <- E1, sg_wants_sim; exact W1|rewrite <- E2, sg_wants_sim; exact W2|].
  rewrite <- E1, <- E2 in Q1, Q2. rewrite <- R1, <- R2 in Q2, Q3. rewrite !sg_failures in Q3. rewrite !sg_sent in Q2.
  assert (RR : sm_round s1 = sm_round s2).
  { cbn [sg_abs gs_round] in Q1. destruct (sm_round s1), (sm_round s2); cbn in Q1; congruence. }
  split; [exact RR|]. split; [exact Q2|]. split; [exact Q3|]. unfold sg_pick_output. rewrite RR. destruct (sm_round s2); reflexivity.
Qed.
(** Outputs handed over are the same too. *)
Theorem C57_offline_output h1 s1 r1 h2 s2 r2 o1 o2 : hist i sl lk h1 s1 r1 -> hist i sl lk h2 s2 r2 ->
  Permutation (proper_msgs of p2p i (length sl) h1) (proper_msgs of p2p i (length sl) h2) ->
  NoDup (map (fun m => (of (m_body m), m_from m)) (proper_msgs of p2p i (length sl) h1)) ->
  In (RPick (Some (Ok o1))) r1 -> In (RPick (Some (Ok o2))) r2 -> o1 = o2 /\ sent_by (sm_queue s1) r1 = sent_by (sm_queue s2) r2.
Proof.
  intros H1 H2 PM ND O1 O2. destruct (sg_hist_run C Hb Hz Hf rd _ _ _ _ _ _ H1) as [L [E1 [R1 _]]]. destruct (sg_hist_run C Hb Hz Hf rd _ _ _ _ _ _ H2) as [_ [E2 [R2 _]]].
  pose proof (inb_perm P L h1 h2 PM ND) as I.
  assert (IN : forall o r, In (RPick (Some (Ok o))) r -> In (SFinished o) (picks (map (sg_ret C) r))).
  { intros o r X. rewrite sg_picks. apply in_map. unfold picks. apply in_flat_map. eexists. split; [exact X|]. left. reflexivity. }
  destruct (picked_same P D0 L (sgp_of C Hb Hz Hf rd i (length sl)) (sgp_exp C Hb Hz Hf rd i (length sl)) h1 h2 (SFinished o1) (SFinished o2) I) as [Q1 Q2];
    [rewrite <- R1; apply IN; exact O1|rewrite <- R2; apply IN; exact O2|].
  injection Q1 as Q1. split; [exact Q1|]. rewrite <- E1, <- E2, <- R1, <- R2, !sg_sent in Q2. exact Q2.
Qed.

(** C58: what pick_output returns, for every history: None exactly while a round is still to be executed and none has
    failed; the output once, when finished; DoublePickOutput after that and after a failed round.  No history hands
    over two outputs. *)
Theorem C58_offline_pick h s rs : hist i sl lk h s rs ->
  let '(s', r) := sg_pick_output s in
  match r with
  | None => s' = s /\ sg_current_round s <= 6 /\ failures rs = [] /\ picks rs = []
  | Some (Ok o) => sm_round s = SFinished o /\ sm_round s' = SGone /\ failures rs = [] /\ picks rs = []
  | Some (Err e) => s' = s /\ e = EDoublePick /\ (picks rs <> [] /\ failures rs = [] \/ picks rs = [] /\ failures rs <> [])
  | Some Panic => False
  end /\ length (picks rs) <= 1.
Proof.
  intros H. destruct (sg_hist_run C Hb Hz Hf rd _ _ _ _ _ _ H) as [L [E [R _]]].
  pose proof (pick_spec P D0 L (sgp_of C Hb Hz Hf rd i (length sl)) (sgp_exp C Hb Hz Hf rd i (length sl)) h) as Q. cbn zeta in Q. rewrite <- E, <- R in Q.
  rewrite sg_failures, sg_picks, map_length in Q.
  assert (PN : map (SFinished (C:=C)) (picks rs) = [] -> picks rs = []) by (destruct (picks rs); [reflexivity|discriminate]).
  destruct Q as [[_ [[k [d G]] [F PK]]]|[[d [G [_ [F PK]]]]|[_ [G D]]]].
  - unfold sg_pick_output. cbn [sg_abs gs_round] in G. unfold sg_current_round. destruct (sm_round s); cbn in G; try discriminate; rewrite (PN PK); cbn; repeat split; auto; lia.
  - unfold sg_pick_output. cbn [sg_abs gs_round] in G. destruct (sm_round s) eqn:ER; cbn in G; try discriminate; rewrite (PN PK); cbn; repeat split; auto; lia.
  - unfold sg_pick_output. cbn [sg_abs gs_round] in G. destruct (sm_round s); cbn in G; try discriminate. split.
    + split; [reflexivity|]. split; [reflexivity|]. destruct D as [[D1 D2]|[D1 D2]]; [right; split; [apply PN; exact D2|exact D1]|left; split; [|exact D1]].
      intros X. rewrite X in D2. discriminate.
    + destruct D as [[_ D]|[_ D]]; [rewrite (PN D); cbn; lia|rewrite D; lia].
Qed.

(** C59: after a failed round, whatever is called later: no output, no further message. *)
Theorem C59_offline_final h1 h2 s1 r1 s2 r2 : hist i sl lk h1 s1 r1 -> failures r1 <> [] -> run_ops opf s1 h2 = (s2, r2) ->
  picks (r1 ++ r2) = [] /\ sent_by (sm_queue s2) (r1 ++ r2) = sent_by (sm_queue s1) r1 /\ failures r2 = [] /\ sg_is_finished s2 = false.
Proof.
  intros H F E2. pose proof (sg_hist_app C Hb Hz Hf rd _ _ _ h1 h2 s1 r1 H) as H2. rewrite E2 in H2. cbn [fst snd] in H2.
  destruct (sg_hist_run C Hb Hz Hf rd _ _ _ _ _ _ H) as [L [E [R _]]]. destruct (sg_hist_run C Hb Hz Hf rd _ _ _ _ _ _ H2) as [_ [E' [R' _]]].
  destruct (failed_final P D0 L (sgp_of C Hb Hz Hf rd i (length sl)) (sgp_exp C Hb Hz Hf rd i (length sl)) h1 h2) as [Q1 [Q2 [Q3 Q4]]].
  { rewrite <- R, sg_failures. exact F. }
  rewrite <- E, <- R, <- E', <- R', ?sg_failures, ?sg_sent in *. rewrite sg_picks in Q2. split; [|split; [|split]].
  - destruct (picks (r1 ++ r2)); [reflexivity|discriminate].
  - exact Q4.
  - rewrite failures_app in Q3. rewrite <- (app_nil_r (failures r1)) in Q3 at 2. apply app_inv_head in Q3. exact Q3.
  - cbn [sg_abs gs_round] in Q1. unfold sg_is_finished. destruct (sm_round s2); cbn in Q1; try discriminate; reflexivity.
Qed.

(** C60: current_round never decreases. *)
Theorem C60_offline_monotone h1 h2 s1 r1 s2 r2 : hist i sl lk h1 s1 r1 -> run_ops opf s1 h2 = (s2, r2) -> sg_current_round s1 <= sg_current_round s2.
Proof.
  intros H E2. pose proof (sg_hist_app C Hb Hz Hf rd _ _ _ h1 h2 s1 r1 H) as H2. rewrite E2 in H2. cbn [fst snd] in H2.
  destruct (sg_hist_run C Hb Hz Hf rd _ _ _ _ _ _ H) as [L [E _]]. destruct (sg_hist_run C Hb Hz Hf rd _ _ _ _ _ _ H2) as [_ [E' _]].
  rewrite <- !(sg_current_sim C Hb Hz Hf rd i (length sl)), E, E'. apply (current_mono P D0 L (sgp_of C Hb Hz Hf rd i (length sl)) (sgp_exp C Hb Hz Hf rd i (length sl))).
Qed.
(** ... and what has been sent is, in order, the message(s) of rounds 1, 2, ... up to the current round: all with the
    machine's index as sender, one broadcast per round, or one message per peer in the point-to-point round. *)
Theorem C60_offline_sent h s rs : hist i sl lk h s rs ->
  let out := map (fun m => (m_from m, of (m_body m), m_to m)) (sent_by (sm_queue s) rs) in
  NoDup out /\
  (forall m, In m (sent_by (sm_queue s) rs) -> m_from m = i /\ if p2p (of (m_body m)) then exists j, m_to m = Some j /\ In j (peers i (length sl)) else m_to m = None) /\
  exists k, k <= sg_current_round s /\ out = flat_map (round_tags p2p i (length sl) 6) (seq 0 k) /\ (failures rs = [] -> k = sg_current_round s).
Proof.
  intros H. destruct (sg_hist_run C Hb Hz Hf rd _ _ _ _ _ _ H) as [L [E [R [_ [_ SD]]]]].
  destruct (sent_tags P D0 L (sgp_of C Hb Hz Hf rd i (length sl)) (sgp_exp C Hb Hz Hf rd i (length sl)) (sg_good C i (length sl)) (round_tags p2p i (length sl) 6)) with (h := h) as [k [Q1 [Q2 Q3]]].
  { cbn. auto. }
  { intros k d l d' o LK G ST. exact (sg_good_step C Hb Hz Hf rd i (length sl) L k d l d' o LK G ST). }
  rewrite <- E in Q1, Q2, Q3. rewrite <- R in Q2, Q3. rewrite sg_failures, (sg_current_sim C Hb Hz Hf rd) in Q3. rewrite (sg_current_sim C Hb Hz Hf rd) in Q1. rewrite sg_sent in Q2.
  change (mtag P) with (fun m : msg M => (m_from m, of (m_body m), m_to m)) in Q2. cbn zeta. unfold sent_by. rewrite Q2. split; [apply round_tags_nodup; exact L|]. split; [|exists k; auto].
  intros m I. apply (in_map (fun m : msg M => (m_from m, of (m_body m), m_to m))) in I. rewrite Q2 in I. apply in_flat_map in I. destruct I as [j [_ I]].
  apply round_tags_spec in I. cbn [fst snd] in I. destruct I as [I1 [I2 I3]]. rewrite I2. auto.
Qed.

(** C61: wants_to_proceed says whether proceed would execute a round: then current_round goes up (it also does when
    the round fails); otherwise proceed is a successful no-op. *)
Theorem C61_offline_wants h s rs : hist i sl lk h s rs ->
  (sg_wants_to_proceed s = true <-> sg_current_round s < sg_current_round (fst (sg_proceed C Hb Hz Hf rd s))) /\
  (sg_wants_to_proceed s = false <-> sg_proceed C Hb Hz Hf rd s = (s, Ok tt)).
Proof.
  intros H. destruct (sg_hist_run C Hb Hz Hf rd _ _ _ _ _ _ H) as [L [E [_ [K1 [K2 _]]]]].
  pose proof (wants_proceed P D0 L (sgp_of C Hb Hz Hf rd i (length sl)) (sgp_exp C Hb Hz Hf rd i (length sl)) h) as Q. cbn zeta in Q. rewrite <- E in Q. rewrite sg_wants_sim in Q.
  unfold sg_proceed. change (g_fuel P) with sg_fuel in Q. rewrite !sg_proceed_sim in Q. cbn [fst] in Q. rewrite !(sg_current_sim C Hb Hz Hf rd) in Q.
  pose proof (sg_proceed_const C Hb Hz Hf rd sg_fuel true s) as KC.
  destruct (sg_proceed_round C Hb Hz Hf rd sg_fuel true s) as [s' r]. cbn [fst snd] in *. destruct KC as [KC1 KC2]. destruct Q as [Q1 Q2].
  assert (Q2' : sg_wants_to_proceed s = false -> s' = s /\ r = Ok tt).
  { intros W. specialize (Q2 W). pose proof (f_equal fst Q2) as X1. pose proof (f_equal snd Q2) as X2. cbn [fst snd] in X1, X2.
    split; [|exact X2]. exact (sg_abs_inj C s' s X1 KC1 KC2). }
  destruct (sg_wants_to_proceed s); split; split; intros X; try discriminate; auto.
  - exfalso. injection X as -> ->. specialize (Q1 eq_refl). lia.
  - exfalso. destruct (Q2' eq_refl) as [-> _]. lia.
  - destruct (Q2' eq_refl) as [-> ->]. reflexivity.
Qed.

(** C62: in a round that waits for messages, round_blame gives the number and the list of the parties from which no
    proper message of that round has been delivered; before the first round and after the last it gives nobody. *)
Theorem C62_offline_blame h s rs : hist i sl lk h s rs -> sg_round_blame s =
  (if (1 <=? sg_current_round s) && (sg_current_round s <=? 6)
   then (length (missing of p2p i (length sl) h (sg_current_round s)), missing of p2p i (length sl) h (sg_current_round s)) else (0, [])).
Proof.
  intros H. destruct (sg_hist_run C Hb Hz Hf rd _ _ _ _ _ _ H) as [L [E _]].
  pose proof (blame_spec P D0 L (sgp_of C Hb Hz Hf rd i (length sl)) (sgp_exp C Hb Hz Hf rd i (length sl)) h) as Q. cbn zeta in Q. rewrite <- E in Q.
  pose proof (finished_blame P D0 L (sgp_of C Hb Hz Hf rd i (length sl)) (sgp_exp C Hb Hz Hf rd i (length sl)) h) as QF. cbn zeta in QF. rewrite <- E in QF.
  unfold sg_current_round. destruct (sm_round s) eqn:G; cbn [Nat.leb andb].
  1: unfold sg_round_blame; rewrite G; reflexivity.
  1,2,3,4,5,6: rewrite <- (sg_blame_sim C s) by (right; intros o; rewrite G; discriminate); apply (Q _ (sm_round s)); [cbn [sg_abs gs_round]; rewrite G; reflexivity|lia].
  - unfold sg_round_blame. rewrite G. specialize (QF (sm_round s)). cbn [sg_abs gs_round] in QF. rewrite G in QF. specialize (QF eq_refl).
    unfold g_store in QF. cbn in QF. rewrite <- (blame_map SM6). apply QF. lia.
  - unfold sg_round_blame. rewrite G. reflexivity.
Qed.

(** C63: the rounds reported with an out-of-order message. *)
Theorem C63_offline_rounds h s rs m cur mr : hist i sl lk h s rs -> snd (sg_handle_incoming C Hb Hz Hf rd s m) = Err (EOutOfOrder cur mr) ->
  cur = sg_current_round s /\ mr = Nat.min (of (m_body m)) 2.
Proof.
  intros H X. destruct (sg_hist_run C Hb Hz Hf rd _ _ _ _ _ _ H) as [L [E _]].
  destruct (handle_out_of_order P D0 L (sgp_of C Hb Hz Hf rd i (length sl)) (sgp_exp C Hb Hz Hf rd i (length sl)) h (sg_abs C s) m cur mr E) as [Q1 [Q2 _]].
  { rewrite sg_handle_sim. exact X. }
  rewrite (sg_current_sim C Hb Hz Hf rd) in Q1. auto.
Qed.

(** Every error or panic a call reports is that of a round function, executed on the messages delivered so far; the
    machine itself never panics, never reports an internal error, and the bound on the recursion of proceed_round is
    never reached. *)
Theorem C66_offline_wrapper_partial h s rs o : hist i sl lk h s rs ->
  match snd (opf s o) with
  | RUnit (Err (EProceed e)) => exists k d l out, runs (sg_step C Hb Hz Hf rd) D0 (inbox of p2p i (length sl) (h ++ [o])) k d out /\
      inbox of p2p i (length sl) (h ++ [o]) k = Some l /\ sg_step C Hb Hz Hf rd k d l = Err e
  | RUnit Panic => exists k d l out, runs (sg_step C Hb Hz Hf rd) D0 (inbox of p2p i (length sl) (h ++ [o])) k d out /\
      inbox of p2p i (length sl) (h ++ [o]) k = Some l /\ sg_step C Hb Hz Hf rd k d l = Panic
  | RUnit (Err (EInternal _)) => False
  | _ => True
  end.
Proof.
  intros H. destruct (sg_hist_run C Hb Hz Hf rd _ _ _ _ _ _ H) as [L [E _]].
  pose proof (op_results P D0 L (sgp_of C Hb Hz Hf rd i (length sl)) (sgp_exp C Hb Hz Hf rd i (length sl)) h o) as Q. rewrite <- E, (sg_op_sim C Hb Hz Hf rd) in Q. cbn [snd] in Q.
  destruct (snd (opf s o)) as [u|l|q]; cbn [sg_ret] in Q; [|auto|auto]. destruct u as [u|e|]; [auto| |].
  - destruct e; auto. destruct Q as [k [out [d [l [_ [Q1 [Q2 [Q3 _]]]]]]]]. exists k, d, l, out. auto.
  - destruct Q as [k [out [d [l [_ [Q1 [Q2 [Q3 _]]]]]]]]. exists k, d, l, out. auto.
Qed.
End Sg.
Print Assumptions C56_offline_bad_refused.
Print Assumptions C56_offline_good_accepted.
Print Assumptions C57_offline_order.
Print Assumptions C57_offline_output.
Print Assumptions C58_offline_pick.
Print Assumptions C59_offline_final.
Print Assumptions C60_offline_monotone.
Print Assumptions C60_offline_sent.
Print Assumptions C61_offline_wants.
Print Assumptions C62_offline_blame.
Print Assumptions C63_offline_rounds.
Print Assumptions C66_offline_wrapper_partial.

(** ** Concrete histories: the machine of party 1 in a key generation of three parties on the toy curve *)
Definition exop := kg_op toy exHb exHf3 (fun _ _ => true) (fun _ _ => Ok true) (exrs 0).
Definition exrun (h : list (op (kg_msg toy))) := run_ops exop (kg_start toy 1 1 3) h.
Definition exto (j : nat) (b : kg_msg toy) : msg (kg_msg toy) := {| m_from := j; m_to := None; m_body := b |}.
Definition exb1 (j : nat) := exto j (KM1 (exbc (j - 1) (2 ^ 2046)%Z)).
Definition exb2 (j : nat) (db : Z) := exto j (KM2 (exdec (j - 1) db)).
Definition exobs (s : kg_sm toy) := (kg_current_round s, kg_wants_to_proceed s, kg_round_blame s, map (fun m => (m_from m, kg_of toy (m_body m), m_to m)) (ks_queue s)).
Definition excode_sm (r : outcome (sm_error mp_error) unit) : nat :=
  match r with Ok _ => 0 | Err (EProceed _) => 1 | Err (EHandle _) => 2 | Err (EOutOfOrder c r) => 100 + 10 * c + r | Err _ => 3 | Panic => 4 end.
Lemma ex_hist h : kg_hist toy exHb exHf3 (fun _ _ => true) (fun _ _ => Ok true) (exrs 0) 1 1 3 h (fst (exrun h)) (snd (exrun h)).
Proof. exists (kg_start toy 1 1 3). split; [reflexivity|]. unfold exrun, exop. apply surjective_pairing. Qed.

(** After party 2's first broadcast: its repetition, senders 4 and 0, a wrong address and the own index change
    nothing; party 3's broadcast is accepted and moves on to round 2; then a late round 1 message is out of order. *)
Definition exh1 : list (op (kg_msg toy)) := [Proceed; Deliver (exb1 2)].
Example C56_example :
  let s := fst (exrun exh1) in
  exobs s = (1, false, (1, [3]), [(1, 1, None)]) /\
  map (fun m => (excode_sm (snd (kg_handle_incoming toy exHb exHf3 (fun _ _ => true) (fun _ _ => Ok true) (exrs 0) s m)),
                 exobs (fst (kg_handle_incoming toy exHb exHf3 (fun _ _ => true) (fun _ _ => Ok true) (exrs 0) s m))))
      [exb1 2; exb1 4; exb1 0; {| m_from := 3; m_to := Some 1; m_body := m_body (exb1 3) |}; exb1 1]
    = [(2, exobs s); (2, exobs s); (2, exobs s); (2, exobs s); (0, exobs s)] /\
  (let s2 := fst (exrun (exh1 ++ [Deliver (exb1 3)])) in
   exobs s2 = (2, false, (2, [2; 3]), [(1, 1, None); (1, 2, None)]) /\
   excode_sm (snd (kg_handle_incoming toy exHb exHf3 (fun _ _ => true) (fun _ _ => Ok true) (exrs 0) s2 (exb1 3))) = 121).
Proof. vm_compute. auto. Qed.

(** The same four messages in two orders, the second one with a repetition and early messages. *)
Definition exha : list (op (kg_msg toy)) := [Proceed; Deliver (exb1 2); Deliver (exb1 3); Deliver (exb2 2 0); Deliver (exb2 3 0); Proceed].
Definition exhb : list (op (kg_msg toy)) := [Deliver (exb2 3 0); Deliver (exb1 3); Proceed; Deliver (exb2 2 0); Drain; Deliver (exb1 7); Deliver (exb1 2); Proceed].
Example C57_example :
  map (fun m => (kg_of toy (m_body m), m_from m)) (proper_msgs (kg_of toy) kg_p2p 1 3 exha) = [(1, 2); (1, 3); (2, 2); (2, 3)] /\
  map (fun m => (kg_of toy (m_body m), m_from m)) (proper_msgs (kg_of toy) kg_p2p 1 3 exhb) = [(2, 3); (1, 3); (2, 2); (1, 2)] /\
  kg_wants_to_proceed (fst (exrun exha)) = false /\ kg_wants_to_proceed (fst (exrun exhb)) = false /\
  (kg_current_round (fst (exrun exha)), kg_current_round (fst (exrun exhb))) = (3, 3) /\
  map (fun m => (m_from m, kg_of toy (m_body m), m_to m)) (sent_by (ks_queue (fst (exrun exha))) (snd (exrun exha))) =
    [(1, 1, None); (1, 2, None); (1, 3, Some 2); (1, 3, Some 3)] /\
  map (fun m => (m_from m, kg_of toy (m_body m), m_to m)) (sent_by (ks_queue (fst (exrun exhb))) (snd (exrun exhb))) =
    [(1, 1, None); (1, 2, None); (1, 3, Some 2); (1, 3, Some 3)].
Proof. vm_compute. auto 10. Qed.
(** The tags expected of the first three rounds *)
Example C60_example : flat_map (round_tags kg_p2p 1 3 4) (seq 0 3) = [(1, 1, None); (1, 2, None); (1, 3, Some 2); (1, 3, Some 3)].
Proof. reflexivity. Qed.

(** Party 2 opens its commitment wrongly: round 2 fails and blames it. *)
Definition exhf : list (op (kg_msg toy)) := [Proceed; Deliver (exb1 2); Deliver (exb1 3); Deliver (exb2 2 1); Deliver (exb2 3 0); Proceed].
Example C59_example :
  failures (snd (exrun exhf)) = [Some {| me_kind := EInvalidKey; me_bad := [1] |}] /\
  (kg_current_round (fst (exrun exhf)), kg_is_finished (fst (exrun exhf)), kg_wants_to_proceed (fst (exrun exhf))) = (5, false, false) /\
  map (fun m => (m_from m, kg_of toy (m_body m), m_to m)) (ks_queue (fst (exrun exhf))) = [(1, 1, None); (1, 2, None)].
Proof. vm_compute. auto. Qed.
(** C58, the part that is false: pick_output does not return None before the protocol finishes.  After a failed round
    it reports that the output was already picked, although no output ever existed. *)
Lemma failed_pick (C : Curve) Hb (Hf : hashF C) ck cd rd i t n h s rs : kg_hist C Hb Hf ck cd rd i t n h s rs -> failures rs <> [] ->
  picks rs = [] /\ kg_is_finished s = false /\ snd (kg_pick_output s) = Some (Err EDoublePick).
Proof.
  intros H F. pose proof (C58_keygen_pick C Hb Hf ck cd rd i t n h s rs H) as Q.
  destruct (C59_keygen_final C Hb Hf ck cd rd i t n h [] s rs s [] H F eq_refl) as [_ [_ [_ N]]].
  destruct (kg_pick_output s) as [s' [[o|e|]|]]; cbn [snd]; destruct Q as [Q _].
  - destruct Q as [_ [_ [Q _]]]. contradiction.
  - destruct Q as [_ [-> [[_ Q]|[Q _]]]]; [contradiction|auto].
  - contradiction.
  - destruct Q as [_ [_ [Q _]]]. contradiction.
Qed.
Theorem C58_double_pick_without_output_refuted :
  exists C Hb Hf ck cd rd i t n h s rs, kg_hist C Hb Hf ck cd rd i t n h s rs /\
    picks rs = [] /\ kg_is_finished s = false /\ snd (kg_pick_output s) = Some (Err EDoublePick).
Proof.
  exists toy, exHb, exHf3, (fun _ _ => true), (fun _ _ => Ok true), (exrs 0), 1, 1, 3, exhf, (fst (exrun exhf)), (snd (exrun exhf)).
  split; [exact (ex_hist exhf)|]. apply (failed_pick _ _ _ _ _ _ _ _ _ _ _ _ (ex_hist exhf)). destruct C59_example as [F _]. rewrite F. discriminate.
Qed.
Print Assumptions C58_double_pick_without_output_refuted.
Example C61_example : map (fun h => (kg_wants_to_proceed (fst (exrun h)), kg_current_round (fst (exrun h)), kg_current_round (fst (exrun (h ++ [Proceed])))))
  [[]; [Proceed]; [Proceed; Deliver (exb1 2)]; [Deliver (exb1 2); Deliver (exb1 3)]; exhf] = [(true, 0, 1); (false, 1, 1); (false, 1, 1); (true, 0, 2); (false, 5, 5)].
Proof. vm_compute. reflexivity. Qed.
Example C62_example : missing (kg_of toy) kg_p2p 1 3 (exh1 ++ [Deliver (exb2 3 0)]) 1 = [3] /\ missing (kg_of toy) kg_p2p 1 3 (exh1 ++ [Deliver (exb2 3 0)]) 2 = [2].
Proof. vm_compute. auto. Qed.

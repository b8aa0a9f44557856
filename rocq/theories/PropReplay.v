(** C118: messages recorded in one run are of no use in another. *)
From Coq Require Import ZArith Lia Bool List Field.
From Verif Require Import ZArithX Fq Curve Toy Outcome Sigma SigmaProofs Bytes Vss VssProofs Paillier RangeProofs Pdl PdlSlack Mta MtaProofs Ecdsa Mp MpProofs Gg20Keygen Gg18Keygen KeygenProofs KeygenExtra KeygenRun KeygenRunProofs Gg20Sign SignRun SignProofs Blame BlameHonest Stores RoundSM SmSpec SmProofs KeygenSM SignSM SmSim SmTheory SmFacts SmTags SmPanic SmCause SmCauseSg Network NetProofs NetSim PropRange PropCommit PropVss PropKeygen PropMta PropSign PropSignChecks PropSM PropNetwork PropPanic PropKgPanic PropSgPanic PropFixed PropSplit PropNonce.
Import ListNotations.
Local Open Scope nat_scope.

(** ** Key generation machines *)
Section Kg.
Context (C : Curve).
Context (Hb : list Z -> Z) (Hf : hashF C) (ck : Z -> Z -> bool) (cd : Z -> dlstmt -> outcome mp_error bool).
Notation of := (kg_of C).
Notation p2p := kg_p2p.
Notation got := (SmSpec.got of p2p).
Notation F := (Fq (cq C)).
Add Field cfreplay : (C_field C).
(** What a machine deals: the value at j of the polynomial it sampled *)
Definition dealt_to (rd : kg_rand C) (j : nat) : F := peval (kr_u rd :: kr_coefs rd) (fidx j).
Lemma dealt_at_mine k (own : vss C) (sh : F) (ms : list (vss C * F)) j :
  dealt_at (map fst (incl_me k (own, sh) ms)) j = fadd (peval (dealt own) (fidx j)) (dealt_at (map fst ms) j).
Proof.
  unfold dealt_at, incl_me. rewrite !map_app. cbn [map fst]. rewrite fsum_app. cbn [fsum fold_right]. change (fold_right fadd f0) with (fsum (C := C)).
  rewrite <- (firstn_skipn k ms) at 3. rewrite !map_app, fsum_app. ring.
Qed.
Section One.
Context (rd : kg_rand C) (i t n : nat).
Notation hist := (kg_hist C Hb Hf ck cd rd i t n).
Notation D0 := (KR0 i t n : kg_r C).
Notation step := (kg_step C Hb Hf ck cd rd).
Notation inb := (inbox of p2p i n).
Lemma finished_view h s rs k : hist h s rs -> picks rs = [k] -> exists l ms, inb h 3 = Some l /\ omapM (kun3 C) l = Ok ms /\
  forall j b, In j (peers i n) -> got i h 4 j = Some b -> exists p, b = KM4 p /\ dp_pk p = smul (fadd (dealt_to rd j) (dealt_at (map fst ms) j)) gen.
Proof.
  intros H PK. destruct (kg_hist_run C Hb Hf ck cd rd _ _ _ _ _ _ H) as [I _]. destruct (kg_picked_runs C Hb Hf ck cd rd i t n _ _ _ _ H PK) as [out R5].
  inversion R5 as [|k4 d4 o4 l4 d5 o5 R4 IN4 S4 EK ED EO]. subst d5. clear EK EO. inversion R4 as [|k3 d3 o3 l3 d4' o4' R3 IN3 S3 EK ED EO]. subst d4'. clear EK EO.
  pose proof (kg_shape_runs C Hb Hf ck cd rd i t n h 3 d3 o3 I R3) as SH.
  inversion R3 as [|k2 d2 o2 l2 d3' o3' R2 IN2 S2 EK ED EO]. subst d3'. clear EK EO. inversion R2 as [|k1 d1 o1 l1 d2' o2' R1 IN1 S1 EK ED EO]. subst d2'. clear EK EO.
  inversion R1 as [|k0 dz oz l0 d1' o1' R0 IN0 S0 EK ED EO]. subst d1'. clear EK EO. inversion R0 as [EK ED EO|]. subst dz.
  cbn [kg_step] in S0. apply obind_ok in S0. destruct S0 as [[r1 b1] [X0 S0]]. injection S0 as <- _. unfold kg_r0 in X0. destruct (kg_phase1 _ _ _ _ _ _) as [b d]. injection X0 as <- _.
  cbn [kg_step fst] in S1. apply obind_ok in S1. destruct S1 as [ms1 [_ S1]]. apply obind_ok in S1. destruct S1 as [[r2 b2] [X1 S1]]. injection S1 as <- _. unfold kg_r1 in X1. injection X1 as <- _.
  cbn [kg_step fst] in S2. apply obind_ok in S2. destruct S2 as [ms2 [_ S2]]. apply obind_ok in S2. destruct S2 as [[r3 b3] [X2 S2]]. injection S2 as <- _. unfold kg_r2 in X2. cbn [r2_keys r2_t r2_n r2_i r2_comm r2_dec r1_keys r1_t r1_n r1_i] in X2.
  apply obind_ok in X2. destruct X2 as [[[own shs] ix] [PV X2]]. apply obind_ok in X2. destruct X2 as [ow [_ X2]]. injection X2 as E3 _.
  unfold kg_phase1_verify in PV. apply obind_ok in PV. destruct PV as [[] [_ PV]]. apply obind_ok in PV. destruct PV as [[] [_ PV]]. apply obind_ok in PV. destruct PV as [bad [_ PV]]. apply obind_ok in PV. destruct PV as [[v0 s0] [VS PV]]. destruct bad; [discriminate|]. injection PV as E1 _ _. cbn [fst] in E1. subst v0.
  unfold vss_share in VS. apply obind_ok in VS. destruct VS as [[] [_ VS]]. injection VS as EV _. cbn [ky_u] in EV. subst r3. cbn [kg_shape r3_i r3_n r3_vss] in SH. destruct SH as (A1 & _ & A3 & _).
  cbn [kg_step fst] in S3. apply obind_ok in S3. destruct S3 as [ms3 [M3 S3]]. apply obind_ok in S3. destruct S3 as [[r4 pf] [X3 S3]]. injection S3 as ED' EO'. subst d4.
  cbn [kg_step fst] in S4. apply obind_ok in S4. destruct S4 as [ms4 [M4 S4]]. apply obind_ok in S4. destruct S4 as [x4 [X4 S4]]. injection S4 as EX _. subst x4.
  unfold kg_r3 in X3. cbn [r3_keys r3_y r3_bc r3_vss r3_share r3_i r3_t r3_n] in X3. apply obind_ok in X3. destruct X3 as [[sk pf'] [P2 X3]]. injection X3 as E4 Epf. subst pf' r4.
  unfold kg_r4 in X4. cbn [r4_keys r4_y r4_bc r4_shared r4_proof r4_vss r4_i r4_t r4_n] in X4. apply obind_ok in X4. destruct X4 as [[] [VD _]].
  apply verify_dlog_ok in VD. destruct VD as (_ & LP & _ & VD).
  exists l3, ms3. split; [exact IN3|]. split; [exact M3|]. intros j b0 J G.
  assert (L4 : S (length ms4) = n) by (rewrite (omapM_len _ _ _ M4); apply (inbox_len C i n h 4); [exact I|lia|exact IN4]).
  apply In_nth_error in J. destruct J as [q Q]. assert (QL : q < length (peers i n)) by (apply nth_error_Some; congruence). rewrite peers_length in QL by exact I.
  destruct (nth_error ms4 q) as [p|] eqn:N4; [|apply nth_error_None in N4; lia]. destruct (inb_item C i n _ h 4 _ _ _ _ ltac:(lia) IN4 M4 N4) as (j' & b' & J' & G' & U). assert (j' = j) by congruence. subst j'. assert (b' = b0) by congruence. subst b'.
  destruct b0 as [ | | |x]; try discriminate. cbn [kun4] in U. injection U as ->. exists p. split; [reflexivity|].
  rewrite (PropSgPanic.peers_ind i n q I ltac:(lia)) in Q. injection Q as <-.
  assert (JL : ind (i - 1) q < n) by (unfold ind; destruct (Nat.ltb_spec q (i - 1)); lia).
  destruct (VD _ JL) as (_ & p' & NP & _ & EP). rewrite incl_me_ind in NP by lia. assert (p' = p) by congruence. subst p'. rewrite EP, dealt_at_mine. unfold dealt_to. rewrite <- EV. pose proof (dealt_shared C t n (kr_u rd :: kr_coefs rd)) as DS. cbn [map] in DS. rewrite DS. reflexivity.
Qed.
End One.
(** Whatever the peers' messages are: if two runs of a machine, with samples of their own, finish on the same round-3 messages and the same
    round-4 message of j, then they dealt the same share to j.  Messages fixed beforehand fit one value of the dealt share out of q. *)
Theorem C118_keygen_messages_fit_one_share i t t' n rd rd' h h' s s' rs rs' k k' j :
  kg_hist C Hb Hf ck cd rd i t n h s rs -> picks rs = [k] -> kg_hist C Hb Hf ck cd rd' i t' n h' s' rs' -> picks rs' = [k'] ->
  (forall l, In l (peers i n) -> got i h 3 l = got i h' 3 l) -> In j (peers i n) -> got i h 4 j = got i h' 4 j -> dealt_to rd j = dealt_to rd' j.
Proof.
  intros H P H' P' G3 J G4. destruct (finished_view rd i t n h s rs k H P) as (l & ms & L & M & V). destruct (finished_view rd' i t' n h' s' rs' k' H' P') as (l' & ms' & L' & M' & V').
  assert (EL : inbox of p2p i n h 3 = inbox of p2p i n h' 3) by (unfold inbox; cbn [Nat.eqb]; f_equal; apply map_ext_in; exact G3).
  rewrite L, L' in EL. injection EL as <-. rewrite M in M'. injection M' as <-.
  destruct (got i h 4 j) as [b|] eqn:B.
  2:{ exfalso. destruct (kg_picked_runs C Hb Hf ck cd rd i t n _ _ _ _ H P) as [out R5]. inversion R5 as [|k4 d4 o4 l4 d5 o5 R4 IN4 S4 EK ED EO].
      unfold inbox in IN4. cbn [Nat.eqb] in IN4. apply In_nth_error in J. destruct J as [q Q].
      pose proof (all_some_length _ _ IN4) as LN. rewrite map_length in LN.
      destruct (nth_error l4 q) as [x|] eqn:X; [|apply nth_error_None in X; assert (q < length (peers i n)) by (apply nth_error_Some; congruence); lia].
      pose proof (all_some_nth _ _ _ _ IN4 X) as Y. rewrite nth_error_map, Q in Y. cbn in Y. congruence. }
  destruct (V j b J B) as (p & -> & E). destruct (V' j (KM4 p) J (eq_sym G4)) as (p' & Ep & E'). injection Ep as <-. rewrite E in E'. apply smul_gen_inj in E'.
  transitivity (fsub (fadd (dealt_to rd j) (dealt_at (map fst ms) j)) (dealt_at (map fst ms) j)); [ring|]. rewrite E'. ring.
Qed.
(** With more than t peers the whole polynomial is the same, so the machine's contribution to the key is. *)
Theorem C118_keygen_messages_fit_one_secret i t n rd rd' h h' s s' rs rs' k k' :
  kg_hist C Hb Hf ck cd rd i t n h s rs -> picks rs = [k] -> kg_hist C Hb Hf ck cd rd' i t n h' s' rs' -> picks rs' = [k'] ->
  (forall r l, r = 3 \/ r = 4 -> In l (peers i n) -> got i h r l = got i h' r l) -> length (kr_coefs rd) = t -> length (kr_coefs rd') = t -> t + 1 < n -> (Z.of_nat n < cq C)%Z ->
  kr_u rd = kr_u rd' /\ kr_coefs rd = kr_coefs rd'.
Proof.
  intros H P H' P' G L L' TN NQ. destruct (kg_hist_run C Hb Hf ck cd rd _ _ _ _ _ _ H) as [I _].
  assert (Q : kr_u rd :: kr_coefs rd = kr_u rd' :: kr_coefs rd').
  { apply (poly_unique_coefs C (map fidx (peers i n))).
    - apply NoDup_nth_error. intros a b LA E. rewrite !nth_error_map in E. rewrite map_length in LA. destruct (nth_error (peers i n) a) as [x|] eqn:X; [|apply nth_error_None in X; lia]. destruct (nth_error (peers i n) b) as [y|] eqn:Y; [|discriminate]. cbn [option_map] in E. assert (EF : @fidx C x = fidx y) by congruence. clear E. rename EF into E.
      pose proof (proj1 (in_peers i n I x) (nth_error_In _ _ X)) as BX. pose proof (proj1 (in_peers i n I y) (nth_error_In _ _ Y)) as BY. apply fidx_inj in E; [|lia|lia]. subst y.
      apply (proj1 (NoDup_nth_error _) (peers_nodup i n) a b LA). congruence.
    - cbn [length]. lia.
    - cbn [length]. rewrite map_length, peers_length by exact I. lia.
    - intros x X. apply in_map_iff in X. destruct X as [j [<- J]]. exact (C118_keygen_messages_fit_one_share i t t n rd rd' h h' s s' rs rs' k k' j H P H' P' (fun l LL => G 3 l (or_introl eq_refl) LL) J (G 4 j (or_intror eq_refl) J)). }
  injection Q as Q1 Q2. auto.
Qed.
End Kg.
Print Assumptions C118_keygen_messages_fit_one_share.
Print Assumptions C118_keygen_messages_fit_one_secret.

(** ** Signing machines *)
Section Sg.
Context (C : Curve).
Context (Hb : list Z -> Z) (Hz : hashZ C) (Hf : hashF C).
Notation hist := (sg_hist C Hb Hz Hf).
Notation of := (sg_of C).
Notation p2p := sg_p2p.
Notation got := (SmSpec.got of p2p).
Notation F := (Fq (cq C)).
Add Field cfreplay2 : (C_field C).
Lemma scaled_inj (a a' : F) (B T X : pt C) : X = padd (smul a B) T -> X = padd (smul a' B) T -> B <> pzero -> a = a'.
Proof.
  intros E E' N. rewrite E in E'. apply (f_equal dlog) in E'. rewrite !dlog_add, !dlog_smul in E'.
  assert (NB : dlog B <> f0) by (intros Z; apply N, dlog_inj; rewrite dlog_zero; exact Z).
  transitivity (fdiv (fsub (fadd (fmul a (dlog B)) (dlog T)) (dlog T)) (dlog B)); [field; exact NB|]. rewrite E'. field. exact NB.
Qed.
(** One MtA reply passes the check of GG20 (and of GG18) for one value of the asker's secret only. *)
Theorem C118_reply_fits_one_secret (m : msg_b C) p1 p2 (a a' : F) al al' : verify_get_alpha_gg18 Hf m p1 p2 a = Ok al -> verify_get_alpha_gg18 Hf m p1 p2 a' = Ok al' -> dp_pk (mb_b m) <> pzero -> a = a'.
Proof.
  unfold verify_get_alpha_gg18. intros E E' N. destruct (_ && _ && pt_eqb _ _)%bool eqn:V; [|discriminate]. apply andb_true_iff in V. destruct V as [_ V]. apply (pt_eqb_eq C) in V.
  destruct (_ && _ && pt_eqb _ _)%bool eqn:V' in E'; [|discriminate]. apply andb_true_iff in V'. destruct V' as [_ V']. apply (pt_eqb_eq C) in V'.
  exact (scaled_inj a a' _ _ _ (eq_sym V) (eq_sym V') N).
Qed.
Section One.
Context (rd : sign_rand C) (i : nat) (sl : list nat) (lk : local_key C).
Notation n := (length sl).
Notation D0 := (SR0 i sl lk : sg_st C).
Notation step := (sg_step C Hb Hz Hf rd).
Notation inb := (inbox of p2p i n).
(** A machine that finishes has checked the replies it took in round 2 for its own k. *)
Lemma finished2 h s rs c j b : hist rd i sl lk h s rs -> picks rs = [c] -> In j (peers i n) -> got i h 2 j = Some b ->
  exists g w, b = SM2 (g, w) /\ answer_ok Hf g (lk_p1 lk) (lk_p2 lk) (sr_k rd) /\ answer_ok Hf w (lk_p1 lk) (lk_p2 lk) (sr_k rd).
Proof.
  intros H PK J G. destruct (sg_hist_run C Hb Hz Hf rd _ _ _ _ _ _ H) as [I _]. destruct (sg_picked_runs C Hb Hz Hf rd i sl lk _ _ _ _ H PK) as [o7 R7].
  inversion R7 as [|k6 d6 o6 l6 d7 o7' R6 IN6 S6 EK ED EO]. clear S6 EK ED EO. inversion R6 as [|k5 d5 o5 l5 d6' o6' R5 IN5 S5 EK ED EO]. clear S5 EK ED EO.
  inversion R5 as [|k4 d4 o4 l4 d5' o5' R4 IN4 S4 EK ED EO]. clear S4 EK ED EO. inversion R4 as [|k3 d3 o3 l3 d4' o4' R3 IN3 S3 EK ED EO]. clear S3 EK ED EO.
  inversion R3 as [|k2 d2 o2 l2 d3' o3' R2 IN2 S2 EK ED EO]. subst d3'. clear EK EO. pose proof (kept_runs C Hb Hz Hf rd i sl lk _ _ _ _ R2) as KP.
  inversion R2 as [|k1 d1 o1 l1 d2' o2' R1 IN1 S1 EK ED EO]. subst d2'. clear EK EO. inversion R1 as [|k0 dz oz l0 d1' o1' R0 IN0 S0 EK ED EO]. subst d1'. clear EK EO. inversion R0 as [EK ED EO|]. subst dz.
  cbn [sg_step] in S0. apply obind_ok in S0. destruct S0 as [x0 [X0 S0]]. injection S0 as <- _. cbn [sg_step] in S1. apply obind_ok in S1. destruct S1 as [m1 [_ S1]]. apply obind_ok in S1. destruct S1 as [x1 [X1 S1]]. injection S1 as <- _.
  cbn [kept] in KP. destruct KP as (K1 & K2 & K3). cbn [sg_step] in S2. apply obind_ok in S2. destruct S2 as [m2 [M2 S2]]. apply obind_ok in S2. destruct S2 as [x2 [X2 S2]]. clear S2.
  assert (KK : sg_k (s2_keys (fst x1)) = sr_k rd).
  { unfold sg_r1 in X1. cbv zeta in X1. apply obind_ok in X1. destruct X1 as [w1 [_ X1]]. apply obind_ok in X1. destruct X1 as [w2 [_ X1]]. injection X1 as <-. cbn [fst s2_keys].
    unfold sg_r0 in X0. apply obind_ok in X0. destruct X0 as [y1 [_ X0]]. apply obind_ok in X0. destruct X0 as [y2 [Y X0]]. destruct (sg_phase1 _ _ _) as [com dec]. apply obind_ok in X0. destruct X0 as [y3 [_ X0]]. injection X0 as <-. cbn [fst s1_keys].
    unfold sg_create in Y. apply obind_ok in Y. destruct Y as [li [_ Y]]. injection Y as <-. reflexivity. }
  apply (in_peers i _ I) in J. destruct J as [NJ JN]. destruct (BlameHonest.ind_surj (i - 1) (j - 1) n) as (q & QL & QE & _); [lia|lia|lia|].
  destruct (C83_round2_checks_every_answer C Hf _ _ _ _ X2 q) as (mb & kk & li & P & NB & _ & _ & _ & _ & A1 & A2); [rewrite K2; lia|]. rewrite K3, KK in A1, A2.
  destruct (omapM_nth_ok _ _ _ _ _ M2 NB) as [y [Y1 Y2]]. destruct y as [ |y| | | | ]; try discriminate. cbn in Y2. injection Y2 as ->.
  destruct (inb_got C i sl I h 2 _ q (SM2 mb) ltac:(lia) IN2 Y1) as (G' & _). rewrite QE in G'. replace (S (j - 1)) with j in G' by lia. rewrite G in G'. injection G' as ->.
  destruct mb as [g w]. exists g, w. auto.
Qed.
End One.
(** If two runs of a signer, with samples of their own, finish on the same round-2 message of one peer, they had the same k, unless both points of that message are zero. *)
Theorem C118_signing_messages_fit_one_nonce i sl sl' lk rd rd' h h' s s' rs rs' c c' j g w :
  hist rd i sl lk h s rs -> picks rs = [c] -> hist rd' i sl' lk h' s' rs' -> picks rs' = [c'] ->
  In j (peers i (length sl)) -> In j (peers i (length sl')) -> got i h 2 j = Some (SM2 (g, w)) -> got i h' 2 j = Some (SM2 (g, w)) ->
  dp_pk (mb_b g) <> pzero \/ dp_pk (mb_b w) <> pzero -> sr_k rd = sr_k rd'.
Proof.
  intros H P H' P' J J' G G' N. destruct (finished2 rd i sl lk _ _ _ _ _ _ H P J G) as (g0 & w0 & E & A1 & A2). injection E as <- <-.
  destruct (finished2 rd' i sl' lk _ _ _ _ _ _ H' P' J' G') as (g0 & w0 & E & A1' & A2'). injection E as <- <-.
  destruct A1 as (_ & _ & A1), A2 as (_ & _ & A2), A1' as (_ & _ & A1'), A2' as (_ & _ & A2').
  destruct N as [N|N]; [exact (scaled_inj _ _ _ _ _ A1 A1' N)|exact (scaled_inj _ _ _ _ _ A2 A2' N)].
Qed.
End Sg.
Print Assumptions C118_reply_fits_one_secret.
Print Assumptions C118_signing_messages_fit_one_nonce.

(** ** GG18 key generation *)
Section Kg18.
Context (C : Curve).
Context (Hb : list Z -> Z) (Hf : hashF C) (ck : Z -> Z -> bool).
Notation F := (Fq (cq C)).
Add Field cfreplay3 : (C_field C).
(** One party's part of [kg18_run]: number i (from 0), samples r, and what it takes as the other parties' messages.  [kg18_alone_run] is the tie to [kg18_run]. *)
Definition kg18_alone (t n i : nat) (r : kg18_rand C) (m1 : nat -> bc18 * kg_dec1 C) (d : nat -> vss C * F) (p : nat -> dlog_proof C) : outcome error (shared_keys C * list (pt C)) :=
  let k := kg18_keys C (fun _ => r) i in
  let at_ {A} (own : A) (f : nat -> A) := map (fun j => if j =? i then own else f j) (seq 0 n) in
  let m := at_ (kg18_phase1 C Hb k (kr18_blind r) (kr18_ck r)) m1 in
  let* v := kg18_phase1_verify C Hb ck k t n (kr18_coefs r) (map snd m) (map fst m) in
  let* own := nth_o (snd (fst v)) i in
  let vs := at_ (fst (fst v), own) d in
  let* s := kg18_phase2 C Hf n (map (fun x => kd_y (snd x)) m) (map snd vs) (map fst vs) (S i) (kr18_nonce r) in
  let* _ := kg18_verify_dlog C Hf n (at_ (snd s) p) (map (fun x => kd_y (snd x)) m) in
  let* xi := kg18_xi_commitments (map fst vs) in
  Ok (fst s, xi).
(** What party j sends in the run with samples rs; the share is the one for i. *)
Definition sent1 (rs : nat -> kg18_rand C) (j : nat) := kg18_phase1 C Hb (kg18_keys C rs j) (kr18_blind (rs j)) (kr18_ck (rs j)).
Definition sent2 t n rs (i j : nat) : vss C * F := (g_vss C t n rs j, g_share C rs j i).
Definition sent3 n rs (j : nat) : dlog_proof C := dlog_prove Hf (g_x C n rs j) (kr18_nonce (rs j)).
Lemma alone_any (t n i : nat) (rs : nat -> kg18_rand C) (p : nat -> dlog_proof C) : t < n -> i < n ->
  (forall i, i < n -> ck (kr18_ck (rs i)) (kr18_p1 (rs i) * kr18_p2 (rs i))%Z = true) -> (forall j, j < n -> dlog_verify Hf (p j) = true) ->
  kg18_alone t n i (rs i) (sent1 rs) (sent2 t n rs i) p =
  Ok ({| sk_y := psum (map (fun j => smul (kr18_u (rs j)) gen) (seq 0 n)); sk_x := g_x C n rs i |}, map (fun j => smul (g_x C n rs j) gen) (seq 0 n)).
Proof.
  intros TN IN CK PV. unfold kg18_alone. cbv zeta.
  assert (M : map (fun j => if j =? i then kg18_phase1 C Hb (kg18_keys C (fun _ => rs i) i) (kr18_blind (rs i)) (kr18_ck (rs i)) else sent1 rs j) (seq 0 n) = map (sent1 rs) (seq 0 n)).
  { apply map_ext. intros j. destruct (Nat.eqb_spec j i) as [->|_]; reflexivity. }
  rewrite M. rewrite !map_map. unfold kg18_phase1_verify. rewrite !map_length, seq_length, Nat.eqb_refl. cbn [oassert obind].
  unfold vss_share. rewrite (proj2 (Nat.ltb_lt t n) TN). cbn [oassert obind fst snd]. rewrite combine_map2.
  assert (HA : forallb (kg18_check1 C Hb ck) (map (fun x => (snd (sent1 rs x), fst (sent1 rs x))) (seq 0 n)) = true).
  { apply forallb_forall. intros x Hx. apply in_map_iff in Hx. destruct Hx as (j & <- & Hj). apply in_seq in Hj.
    unfold sent1, kg18_phase1. cbn [fst snd kg18_check1 kd_y kd_blind b18_com b18_ck b18_N k18_u k18_p1 k18_p2 kg18_keys]. rewrite Z.eqb_refl, CK by lia. reflexivity. }
  rewrite HA. cbn [obind fst snd]. rewrite nth_o_map_seq by lia. cbn [obind plus].
  assert (V : map (fun j => if j =? i then ({| vs_t := t; vs_n := n; vs_com := map (fun c => smul c gen) (k18_u (kg18_keys C (fun _ => rs i) i) :: kr18_coefs (rs i)) |}, peval (k18_u (kg18_keys C (fun _ => rs i) i) :: kr18_coefs (rs i)) (fidx (S i))) else sent2 t n rs i j) (seq 0 n) = map (sent2 t n rs i) (seq 0 n)).
  { apply map_ext. intros j. destruct (Nat.eqb_spec j i) as [->|_]; reflexivity. }
  rewrite V, !map_map. unfold sent2. cbn [fst snd].
  assert (P2 : kg18_phase2 C Hf n (map (fun x => kd_y (snd (sent1 rs x))) (seq 0 n)) (map (fun x => g_share C rs x i) (seq 0 n)) (map (fun x => g_vss C t n rs x) (seq 0 n)) (S i) (kr18_nonce (rs i)) =
    Ok ({| sk_y := psum (map (fun j => smul (kr18_u (rs j)) gen) (seq 0 n)); sk_x := g_x C n rs i |}, dlog_prove Hf (g_x C n rs i) (kr18_nonce (rs i)))).
  { apply phase2_18_ok. rewrite !map_length, seq_length. repeat (split; [reflexivity|]). split; [|split; [|split; [|reflexivity]]].
    - intros v Hv. apply in_map_iff in Hv. destruct Hv as (j & <- & _). discriminate.
    - rewrite map_map. apply map_ext. intros j. unfold g_vss. rewrite dealt_shared. reflexivity.
    - rewrite map_map. apply map_ext. intros j. unfold g_vss. rewrite dealt_shared. reflexivity. }
  rewrite P2. cbn [obind fst snd]. unfold kg18_verify_dlog. rewrite !map_length, seq_length, Nat.eqb_refl. cbn [oassert obind].
  assert (HB : forallb (dlog_verify Hf) (map (fun j => if j =? i then dlog_prove Hf (g_x C n rs i) (kr18_nonce (rs i)) else p j) (seq 0 n)) = true).
  { apply forallb_forall. intros x Hp. apply in_map_iff in Hp. destruct Hp as (j & <- & Hj). apply in_seq in Hj. destruct (j =? i); [apply dlog_complete|apply PV; lia]. }
  rewrite HB. cbn [obind]. rewrite xi18_ok.
  - cbn [obind]. rewrite map_length, seq_length. f_equal. f_equal. rewrite <- seq_shift, map_map. apply map_ext. intros j. change (map (fun x => g_vss C t n rs x) (seq 0 n)) with (map (g_vss C t n rs) (seq 0 n)). rewrite g_dealt_at. reflexivity.
  - intros v Hv. apply in_map_iff in Hv. destruct Hv as (j & <- & _). discriminate.
Qed.
(** With the messages of the run, the party ends as in the run. *)
Theorem C118_alone_is_run t n i (rs : nat -> kg18_rand C) outs : t < n -> i < n -> (forall i, i < n -> ck (kr18_ck (rs i)) (kr18_p1 (rs i) * kr18_p2 (rs i))%Z = true) ->
  kg18_run C Hb Hf ck t n rs = Ok outs -> exists o, nth_error outs i = Some o /\ kg18_alone t n i (rs i) (sent1 rs) (sent2 t n rs i) (sent3 n rs) = Ok o.
Proof.
  intros TN IN CK R. rewrite (kg18_run_honest C Hb Hf ck t n rs TN CK) in R. injection R as <-.
  eexists. split; [rewrite nth_error_map, (nth_error_nth' _ 0) by (rewrite seq_length; lia); rewrite seq_nth by lia; reflexivity|]. apply alone_any; auto. intros j _. apply dlog_complete.
Qed.
(** "A party of GG18 key generation that finishes had the others in its run" is false: with samples r' of its own and everything the others sent in a
    run with rs it finishes, with a public key that is not the run's (unless it repeats u_i) and for which the others hold other shares than those it lists (unless it
    deals them what it dealt before). *)
Theorem C118_gg18_recorded_run_accepted_refuted t n i (rs : nat -> kg18_rand C) (r' : kg18_rand C) : t < n -> i < n ->
  (forall j, j < n -> ck (kr18_ck (rs j)) (kr18_p1 (rs j) * kr18_p2 (rs j))%Z = true) -> ck (kr18_ck r') (kr18_p1 r' * kr18_p2 r')%Z = true ->
  exists o old, kg18_alone t n i r' (sent1 rs) (sent2 t n rs i) (sent3 n rs) = Ok o /\ kg18_run C Hb Hf ck t n rs = Ok old /\
    (forall j x, nth_error old j = Some x -> (sk_y (fst o) = sk_y (fst x) <-> kr18_u r' = kr18_u (rs i)) /\
       (nth_error (snd o) j = Some (smul (sk_x (fst x)) gen) <-> peval (kr18_u r' :: kr18_coefs r') (fidx (S j)) = peval (kr18_u (rs i) :: kr18_coefs (rs i)) (fidx (S j)))).
Proof.
  intros TN IN CK CK'. set (rs' := fun j => if j =? i then r' else rs j).
  assert (RI : rs' i = r') by (unfold rs'; rewrite Nat.eqb_refl; reflexivity). assert (RO : forall j, j <> i -> rs' j = rs j) by (intros j N; unfold rs'; destruct (Nat.eqb_spec j i); [contradiction|reflexivity]).
  assert (CKK : forall j, j < n -> ck (kr18_ck (rs' j)) (kr18_p1 (rs' j) * kr18_p2 (rs' j))%Z = true) by (intros j J; destruct (Nat.eq_dec j i) as [->|N]; [rewrite RI; exact CK'|rewrite (RO j N); exact (CK j J)]).
  pose proof (alone_any t n i rs' (sent3 n rs) TN IN CKK (fun j _ => dlog_complete C Hf _ _)) as A. rewrite RI in A.
  assert (EQ : kg18_alone t n i r' (sent1 rs) (sent2 t n rs i) (sent3 n rs) = kg18_alone t n i r' (sent1 rs') (sent2 t n rs' i) (sent3 n rs)).
  { unfold kg18_alone. cbv zeta.
    assert (M : forall own, map (fun j => if j =? i then own else sent1 rs j) (seq 0 n) = map (fun j => if j =? i then own else sent1 rs' j) (seq 0 n)).
    { intros own. apply map_ext. intros j. destruct (Nat.eqb_spec j i) as [|N]; [reflexivity|]. unfold sent1, kg18_keys. rewrite (RO j N). reflexivity. }
    assert (V : forall own, map (fun j => if j =? i then own else sent2 t n rs i j) (seq 0 n) = map (fun j => if j =? i then own else sent2 t n rs' i j) (seq 0 n)).
    { intros own. apply map_ext. intros j. destruct (Nat.eqb_spec j i) as [|N]; [reflexivity|]. unfold sent2, g_vss, g_share, g_poly. rewrite (RO j N). reflexivity. }
    rewrite M. destruct (kg18_phase1_verify _ _ _ _ _ _ _ _ _) as [v| |]; [|reflexivity|reflexivity]. cbn [obind]. destruct (nth_o _ _) as [own| |]; [|reflexivity|reflexivity]. cbn [obind]. rewrite V. reflexivity. }
  eexists. eexists. split; [rewrite EQ; exact A|]. split; [exact (kg18_run_honest C Hb Hf ck t n rs TN CK)|].
  intros j x X. assert (JN : j < n) by (rewrite <- (seq_length n 0), <- (map_length (fun i0 => ({| sk_y := psum (map (fun j => smul (kr18_u (rs j)) gen) (seq 0 n)); sk_x := g_x C n rs i0 |}, map (fun j => smul (g_x C n rs j) gen) (seq 0 n)))); apply nth_error_Some; congruence).
  rewrite nth_error_map, (nth_error_nth' _ 0) in X by (rewrite seq_length; exact JN). rewrite seq_nth in X by exact JN. cbn in X. injection X as <-. cbn [fst snd sk_y sk_x].
  assert (SUM : forall f g : nat -> F, (forall j, j <> i -> f j = g j) -> (fsum (map f (seq 0 n)) = fsum (map g (seq 0 n)) <-> f i = g i)).
  { intros f g E. rewrite <- !(fsum_split C _ i n IN). rewrite (fsum_ext_in C f g (others i n)) by (intros z Z; apply E; apply in_others in Z; lia).
    split; [intros Q|intros ->; reflexivity]. set (S := fsum _) in Q. transitivity (fsub (fadd (f i) S) S); [ring|rewrite Q; ring]. }
  split.
  - rewrite !psum_smul_map. rewrite <- RI. rewrite <- (SUM (fun j => kr18_u (rs' j)) (fun j => kr18_u (rs j))) by (intros z Z; rewrite (RO z Z); reflexivity). split; [apply smul_gen_inj|intros ->; reflexivity].
  - rewrite nth_error_map, (nth_error_nth' _ 0) by (rewrite seq_length; exact JN). rewrite seq_nth by exact JN. cbn [option_map plus].
    rewrite <- RI. change (peval (kr18_u (rs' i) :: kr18_coefs (rs' i)) (fidx (S j))) with (g_share C rs' i j). change (peval (kr18_u (rs i) :: kr18_coefs (rs i)) (fidx (S j))) with (g_share C rs i j).
    rewrite <- (SUM (fun z => g_share C rs' z j) (fun z => g_share C rs z j)) by (intros z Z; unfold g_share, g_poly; rewrite (RO z Z); reflexivity).
    change (fsum (map (fun z => g_share C rs' z j) (seq 0 n))) with (g_x C n rs' j). change (fsum (map (fun z => g_share C rs z j) (seq 0 n))) with (g_x C n rs j).
    split; [intros E; apply smul_gen_inj; congruence|intros ->; reflexivity].
Qed.
End Kg18.
Print Assumptions C118_alone_is_run.
Print Assumptions C118_gg18_recorded_run_accepted_refuted.

(** ** Examples *)
Definition rec_picks Hb (Hf : hashF toy) ck cd (rd : kg_rand toy) (h : list (op (kg_msg toy))) : list (local_key toy) :=
  match kg_new toy Hb Hf ck cd rd 1 1 3 with Ok s0 => picks (snd (run_ops (kg_op toy Hb Hf ck cd rd) s0 h)) | _ => [] end.
Lemma rec_hist Hb (Hf : hashF toy) ck cd rd h : length (rec_picks Hb Hf ck cd rd h) = 1 -> exists s rs k, kg_hist toy Hb Hf ck cd rd 1 1 3 h s rs /\ picks rs = [k].
Proof.
  unfold rec_picks. destruct (kg_new toy Hb Hf ck cd rd 1 1 3) as [s0| |] eqn:N; try discriminate. destruct (run_ops _ s0 h) as [s rs] eqn:E. cbn [snd]. intros L. destruct (picks rs) as [|k [|]] eqn:P; try discriminate L.
  exists s, rs, k. split; [|exact P]. exists s0. auto.
Qed.
(** Machine 1 of the run C20_example, with other samples and the messages the others sent in that run: it finishes if it only uses another nonce (for its
    last proof) and fails if it samples another polynomial, even one with the same secret. *)
Definition exmsgs : list (op (kg_msg toy)) := fed_ops toy exHb exHf3 (fun _ _ => true) (fun _ _ => Ok true) 1 3 exrs 1.
Definition exrec (rd : kg_rand toy) : list (local_key toy) := rec_picks exHb exHf3 (fun _ _ => true) (fun _ _ => Ok true) rd exmsgs.
Example C118_example_keygen : map (fun rd => map lk_obs (exrec rd)) [exkr 5 3 11; exkr 5 3 20; exkr 6 3 11; exkr 5 4 11] = [[(13, 14, [14; 15; 16])]; [(13, 14, [14; 15; 16])]; []; []]%Z.
Proof. vm_compute. reflexivity. Qed.
Example C118_example_keygen_hypotheses : exists s rs k s' rs' k',
  kg_hist toy exHb exHf3 (fun _ _ => true) (fun _ _ => Ok true) (exkr 5 3 11) 1 1 3 exmsgs s rs /\ picks rs = [k] /\
  kg_hist toy exHb exHf3 (fun _ _ => true) (fun _ _ => Ok true) (exkr 5 3 20) 1 1 3 exmsgs s' rs' /\ picks rs' = [k'].
Proof.
  assert (E1 : (length (rec_picks exHb exHf3 (fun _ _ => true) (fun _ _ => Ok true) (exkr 5 3 11) exmsgs) =? 1) = true) by (vm_compute; reflexivity). assert (E2 : (length (rec_picks exHb exHf3 (fun _ _ => true) (fun _ _ => Ok true) (exkr 5 3 20) exmsgs) =? 1) = true) by (vm_compute; reflexivity). apply Nat.eqb_eq in E1, E2.
  destruct (rec_hist _ _ _ _ _ _ E1) as (s & rs & k & A & B). destruct (rec_hist _ _ _ _ _ _ E2) as (s' & rs' & k' & A' & B'). exists s, rs, k, s', rs', k'. auto.
Qed.
(** Signer 1 of C65_example with the messages recorded there: it finishes with another nonce for its last proof, and fails with another k. *)
Definition exsr' (g k h : Z) : sign_rand toy := let r := exsr g k in
  {| sr_gamma := sr_gamma r; sr_k := sr_k r; sr_blind := sr_blind r; sr_r := sr_r r; sr_ar := sr_ar r; sr_bg := sr_bg r; sr_bw := sr_bw r; sr_l := sr_l r; sr_p1 := sr_p1 r; sr_p2 := sr_p2 r; sr_pdl := sr_pdl r; sr_h1 := tz h; sr_h2 := sr_h2 r |}.
Definition exsrec (rd : sign_rand toy) : nat := length (picks (snd (run_ops (sg_op toy exHb2 exH exHf2 rd) (exst5 1) (exhistp 1)))).
Example C118_example_signing : map exsrec [exsr' 4 9 2; exsr' 4 9 8; exsr' 4 10 2] = [1; 1; 0].
Proof. vm_compute. reflexivity. Qed.
(** Party 1 (from 0) of C21_example with u = 17 instead of 9 and the other parties' recorded messages: the public key is 54 mod 31 instead of 46 mod 31. *)
Definition ex18 (u : Z) : kg18_rand toy := {| kr18_u := tz u; kr18_p1 := 11; kr18_p2 := 13; kr18_blind := 77 + u; kr18_ck := 0; kr18_coefs := [tz 20; tz 4]; kr18_nonce := tz 12 |}.
Example C118_example_gg18 : map (fun u => match kg18_alone toy exHb exHf3 (fun _ N => N =? 143)%Z 2 4 1 (ex18 u) (sent1 toy exHb exrs18) (sent2 toy 2 4 exrs18 1) (sent3 toy exHf3 4 exrs18) with
   | Ok o => [to_Z (dlog (sk_y (fst o)))] | _ => [] end) [9; 17]%Z = [[15]; [23]]%Z.
Proof. vm_compute. reflexivity. Qed.

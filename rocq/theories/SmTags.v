(** What the rounds of the two machines send: sender, round and addressee. *)
From Coq Require Import ZArith Lia Bool List.
From Verif Require Import ZArithX Fq Curve Outcome Sigma Bytes Vss VssProofs Paillier RangeProofs Pdl PdlSlack Mta Ecdsa Mp MpProofs Gg20Keygen Gg20Sign Blame Stores RoundSM SmSpec SmProofs KeygenSM SignSM SmSim SmTheory SmFacts.
Import ListNotations.
Local Open Scope nat_scope.

(** Round k (0 .. K-1) sends the messages of round k+1: one broadcast, or one message to each peer. *)
Definition round_tags (p2p : nat -> bool) (me n K k : nat) : list (nat * nat * option nat) :=
  if (k =? K) then [] else if p2p (S k) then map (fun j => (me, S k, Some j)) (peers me n) else [(me, S k, None)].

Lemma nodup_app {A} (l1 l2 : list A) : NoDup l1 -> NoDup l2 -> (forall x, In x l1 -> In x l2 -> False) -> NoDup (l1 ++ l2).
Proof.
  intros N1 N2 D. induction l1 as [|a l1 IH]; [exact N2|]. inversion N1; subst. cbn. constructor.
  - rewrite in_app_iff. intros [I|I]; [contradiction|]. exact (D a (or_introl eq_refl) I).
  - apply IH; [assumption|]. intros x X1 X2. exact (D x (or_intror X1) X2).
Qed.
Lemma round_tags_spec p2p me n K k x : In x (round_tags p2p me n K k) -> fst (fst x) = me /\ snd (fst x) = S k /\
  (if p2p (S k) then exists j, snd x = Some j /\ In j (peers me n) else snd x = None).
Proof.
  unfold round_tags. destruct (k =? K); [contradiction|]. destruct (p2p (S k)).
  - rewrite in_map_iff. intros [j [<- J]]. cbn. eauto.
  - intros [<-|[]]. cbn. auto.
Qed.
Lemma round_tags_nodup p2p me n K m : 1 <= me <= n -> NoDup (flat_map (round_tags p2p me n K) (seq 0 m)).
Proof.
  intros Hme. induction m as [|m IH]; [constructor|]. rewrite seq_S, flat_map_app. cbn [flat_map plus]. rewrite app_nil_r. apply nodup_app; [exact IH| |].
  - unfold round_tags. destruct (m =? K); [constructor|]. destruct (p2p (S m)); [|constructor; [intros []|constructor]].
    apply FinFun.Injective_map_NoDup; [intros a b E; congruence|]. apply peers_nodup.
  - intros x X1 X2. apply in_flat_map in X1. destruct X1 as [k [K1 K2]]. apply in_seq in K1. apply round_tags_spec in K2. apply round_tags_spec in X2.
    destruct K2 as [_ [K2 _]]. destruct X2 as [_ [X2 _]]. lia.
Qed.

Section Kg.
Context (C : Curve).
Context (Hb : list Z -> Z) (Hf : hashF C) (ck : Z -> Z -> bool) (cd : Z -> dlstmt -> outcome mp_error bool) (rd : kg_rand C).
Context (i n : nat).
Definition kg_good (k : nat) (d : kg_r C) : Prop :=
  match d with
  | KR0 i' _ n' => k = 0 /\ i' = i /\ n' = n
  | KR1 r => k = 1 /\ r1_i r = i /\ r1_n r = n
  | KR2 r => k = 2 /\ r2_i r = i /\ r2_n r = n
  | KR3 r => k = 3 /\ r3_i r = i /\ r3_n r = n
  | KR4 r => k = 4 /\ r4_i r = i /\ r4_n r = n
  | KFinal _ => k = 5
  | KGone => False
  end.
Lemma shares_tags {A} (a : nat) (l : list A) : forall k, map fst (map (fun '(i0, sh) => (S i0, sh)) (filter (fun '(i0, _) => negb (S i0 =? a)) (combine (seq k (length l)) l))) = filter (fun j => negb (j =? a)) (seq (S k) (length l)).
Proof.
  induction l as [|x l IH]; intros k; [reflexivity|]. cbn [length seq combine filter]. destruct (S k =? a) eqn:E; cbn [negb map fst]; rewrite IH; reflexivity.
Qed.
Lemma kg_good_step k d l d' o : k <= 4 -> kg_good k d -> kg_step C Hb Hf ck cd rd k d l = Ok (d', o) ->
  kg_good (S k) d' /\ map (mtag (kgp C Hb Hf ck cd rd i n)) o = round_tags kg_p2p i n 4 k.
Proof.
  intros L G E. destruct d as [i' t' n'|r|r|r|r|x|]; cbn [kg_good] in G; cbn [kg_step] in E.
  - destruct G as [-> [-> ->]]. cbn in E. injection E as <- <-. cbn. auto.
  - destruct G as [-> [G1 G2]]. destruct (omapM (kun1 C) l); [|discriminate|discriminate]. cbn in E. injection E as <- <-. cbn. rewrite G1. auto.
  - destruct G as [-> [G1 G2]]. destruct (omapM (kun2 C) l) as [ms|e|]; [|discriminate|discriminate]. cbn [obind] in E.
    destruct (kg_r2 C Hb ck cd r (kr_coefs rd) ms) as [x|e|] eqn:R; [|discriminate|discriminate]. cbn [obind] in E. injection E as <- <-.
    unfold kg_r2, kg_phase1_verify in R.
    destruct (oassert _) as [u|e|]; [|discriminate|discriminate]. cbn [obind] in R.
    destruct (oassert _) as [u'|e|]; [|discriminate|discriminate]. cbn [obind] in R.
    destruct (first_bad _ _ _) as [bad|e|]; [|discriminate|discriminate]. cbn [obind] in R.
    destruct (vss_share (r2_t r) (r2_n r) (ky_u (r2_keys r) :: kr_coefs rd)) as [[v sh]|e|] eqn:VS; [|discriminate|discriminate]. cbn [obind] in R.
    destruct bad; [discriminate|]. cbn [obind fst snd] in R. destruct (nth_o sh (r2_i r - 1)); [|discriminate|discriminate]. cbn [obind] in R. injection R as <-.
    cbn [fst snd kg_good r3_i r3_n]. split; [auto|]. apply vss_share_ok in VS. assert (LS : length sh = n) by (destruct VS as [_ [_ [_ [_ ->]]]]; rewrite map_length, seq_length; exact G2).
    unfold round_tags. cbn [Nat.eqb kg_p2p]. unfold peers. rewrite map_map. unfold mtag. cbn [kgp g_of kg_of m_from m_to m_body fst snd].
    rewrite <- LS, <- (shares_tags i sh 0), LS, !map_map, G1. apply map_ext. intros [x0 y0]. reflexivity.
  - destruct G as [-> [G1 G2]]. destruct (omapM (kun3 C) l) as [ms|e|]; [|discriminate|discriminate]. cbn [obind] in E.
    destruct (kg_r3 C Hf r (kr_nonce rd) ms) as [x|e|] eqn:R; [|discriminate|discriminate]. cbn [obind] in E. injection E as <- <-.
    unfold kg_r3 in R. destruct (kg_phase2 _ _ _ _ _ _ _ _) as [[sk pf]|e|]; [|discriminate|discriminate]. cbn [obind] in R. injection R as <-.
    cbn. rewrite G1. auto.
  - destruct G as [-> [G1 G2]]. destruct (omapM (kun4 C) l) as [ms|e|]; [|discriminate|discriminate]. cbn [obind] in E.
    destruct (kg_r4 C Hf r ms) as [x|e|] eqn:R; [|discriminate|discriminate]. cbn [obind] in E. injection E as <- <-. cbn. auto.
  - discriminate.
  - discriminate.
Qed.
End Kg.

Section Sg.
Context (C : Curve).
Context (Hb : list Z -> Z) (Hz : hashZ C) (Hf : hashF C) (rd : sign_rand C).
Context (i n : nat) (Hi : 1 <= i <= n).
Definition sg_good (k : nat) (d : sg_st C) : Prop :=
  match d with
  | SR0 i' sl _ => k = 0 /\ i' = i /\ length sl = n
  | SR1 r => k = 1 /\ s1_i r = i /\ length (s1_sl r) = n
  | SR2 r => k = 2 /\ s2_i r = i
  | SR3 r => k = 3 /\ s3_i r = i
  | SR4 r => k = 4 /\ s4_i r = i
  | SR5 r => k = 5 /\ s5_i r = i
  | SR6 r => k = 6 /\ co_i (s6_out r) = i
  | SFinished c => k = 7 /\ co_i c = i
  | SGone => False
  end.
Lemma omapM_length {E A B} (f : A -> outcome E B) l r : omapM f l = Ok r -> length r = length l.
Proof.
  revert r; induction l as [|a l IH]; cbn; intros r H; [injection H as <-; reflexivity|]. destruct (f a); cbn in H; try discriminate.
  destruct (omapM f l) as [t|e|]; cbn in H; try discriminate. injection H as <-. cbn. rewrite (IH t eq_refl). reflexivity.
Qed.
Lemma combine_fst {A B} (l : list A) (l' : list B) : length l = length l' -> map fst (combine l l') = l.
Proof. revert l'; induction l as [|a l IH]; intros [|b l']; cbn; intros E; try discriminate; [reflexivity|]. rewrite IH by congruence. reflexivity. Qed.
Lemma sg_good_step k d l d' o : k <= 6 -> sg_good k d -> sg_step C Hb Hz Hf rd k d l = Ok (d', o) ->
  sg_good (S k) d' /\ map (mtag (sgp C Hb Hz Hf rd i n)) o = round_tags sg_p2p i n 6 k.
Proof.
  intros L G E. destruct d as [i' sl lk|r|r|r|r|r|r|x|]; cbn [sg_good] in G; cbn [sg_step] in E.
  - destruct G as [-> [-> G]]. destruct (sg_r0 Hb Hz i sl lk rd) as [x|e|] eqn:R; [|discriminate|discriminate]. cbn [obind] in E. injection E as <- <-.
    unfold sg_r0 in R. destruct (nth_o sl (i - 1)); [|discriminate|discriminate]. cbn [obind] in R.
    destruct (sg_create _ _ _ _ _ _); [|discriminate|discriminate]. cbn [obind] in R. destruct (sg_phase1 _ _ _). destruct (nth_o (lk_N lk) _); [|discriminate|discriminate].
    cbn [obind] in R. injection R as <-. cbn. auto.
  - destruct G as [-> [G1 G2]]. destruct (omapM (sun1 C) l) as [ms|e|]; [|discriminate|discriminate]. cbn [obind] in E.
    destruct (sg_r1 Hz Hf r rd ms) as [x|e|] eqn:R; [|discriminate|discriminate]. cbn [obind] in E. injection E as <- <-.
    unfold sg_r1 in R. cbn zeta in R. destruct (oassert _); [|discriminate|discriminate]. cbn [obind] in R.
    destruct (omapM _ (seq 0 (length (s1_sl r) - 1))) as [bs|e|] eqn:O; [|discriminate|discriminate]. cbn [obind] in R. injection R as <-.
    cbn [fst snd sg_good s2_i]. split; [auto|]. apply omapM_length in O. rewrite seq_length in O.
    unfold round_tags. cbn [Nat.eqb sg_p2p]. rewrite map_map. unfold mtag. cbn [sgp g_of sg_of m_from m_to m_body fst snd].
    rewrite G1, G2. rewrite <- (map_map fst (fun j => (i, 2, Some j))). fold (peers i n). rewrite combine_fst; [reflexivity|].
    rewrite (peers_length i n Hi), map_length, <- G2. lia.
  - destruct G as [-> G1]. destruct (omapM (sun2 C) l) as [ms|e|]; [|discriminate|discriminate]. cbn [obind] in E.
    destruct (sg_r2 Hf r rd ms) as [x|e|] eqn:R; [|discriminate|discriminate]. cbn [obind] in E. injection E as <- <-.
    unfold sg_r2 in R. cbn zeta in R. destruct (sg_gw_vec _ _ _); [|discriminate|discriminate]. cbn [obind] in R. destruct (omapM _ _); [|discriminate|discriminate].
    cbn [obind] in R. destruct (sg_delta _ _ _); [|discriminate|discriminate]. cbn [obind] in R. destruct (sg_sigma _ _ _); [|discriminate|discriminate].
    cbn [obind] in R. destruct (sg_t _ _ _ _). injection R as <-. cbn. rewrite G1. auto.
  - destruct G as [-> G1]. destruct (omapM (sun3 C) l) as [ms|e|]; [|discriminate|discriminate]. cbn [obind] in E.
    destruct (sg_r3 Hf r ms) as [x|e|] eqn:R; [|discriminate|discriminate]. cbn [obind] in E. injection E as <- <-.
    unfold sg_r3 in R. cbn zeta in R. destruct (omapM _ _); [|discriminate|discriminate]. cbn [obind] in R. destruct (sg_delta_inv _); [|discriminate|discriminate].
    cbn [obind] in R. destruct (omapM _ _); [|discriminate|discriminate]. cbn [obind] in R. injection R as <-. cbn. rewrite G1. auto.
  - destruct G as [-> G1]. destruct (omapM (sun4 C) l) as [ms|e|]; [|discriminate|discriminate]. cbn [obind] in E.
    destruct (sg_r4 Hb Hz r rd ms) as [x|e|] eqn:R; [|discriminate|discriminate]. cbn [obind] in E. injection E as <- <-.
    unfold sg_r4 in R. cbn zeta in R. destruct (omapM _ _); [|discriminate|discriminate]. cbn [obind] in R. destruct (sg_phase4 _ _ _ _ _ _); [|discriminate|discriminate].
    cbn [obind] in R. destruct (omapM _ _); [|discriminate|discriminate]. cbn [obind] in R. injection R as <-. cbn. rewrite G1. auto.
  - destruct G as [-> G1]. destruct (omapM (sun5 C) l) as [ms|e|]; [|discriminate|discriminate]. cbn [obind] in E.
    destruct (sg_r5 Hz Hf r rd ms) as [x|e|] eqn:R; [|discriminate|discriminate]. cbn [obind] in E. injection E as <- <-.
    unfold sg_r5 in R. cbn zeta in R. destruct (omapM _ _); [|discriminate|discriminate]. cbn [obind] in R. destruct (omap_err _ _); [|discriminate|discriminate].
    cbn [obind] in R. destruct (sg_S _ _ _ _ _ _ _). injection R as <-. cbn. rewrite G1. auto.
  - destruct G as [-> G1]. destruct (omapM (sun6 C) l) as [ms|e|]; [|discriminate|discriminate]. cbn [obind] in E.
    destruct (sg_r6 Hf r ms) as [x|e|] eqn:R; [|discriminate|discriminate]. cbn [obind] in E. injection E as <- <-.
    unfold sg_r6 in R. cbn zeta in R. destruct (sg_phase6_verify _ _ _ _ _); [|discriminate|discriminate]. cbn [obind] in R.
    destruct (omap_err _ _); [|discriminate|discriminate]. cbn [obind] in R. injection R as <-. cbn. rewrite G1. auto.
  - discriminate.
  - discriminate.
Qed.
End Sg.

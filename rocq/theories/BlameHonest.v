(** Consequences of the blame functions for honest parties and for framers. *)
From Coq Require Import ZArith Znumtheory Lia Bool List Field Sorted.
From Verif Require Import ZArithX Fq Curve Outcome Sigma SigmaProofs Bytes Paillier PaillierProofs RangeProofs Mta MtaProofs Mp MpProofs
  VssProofs SignProofs SignRunProofs KeygenRunProofs KeygenExtra Blame BlameProofs PaillierOpen.
Import ListNotations.
Local Open Scope Z_scope.

Section P.
Context (C : Curve).
Notation q := (cq C).
Notation F := (Fq q).
Notation res := (outcome mp_error).
Add Field cfield : (C_field C).
Context (Hz : hashZ C) (Hf : hashF C).

Lemma to_Z_nonneg (x : F) : 0 <= to_Z x.
Proof. apply (to_Z_range (cq_prime C) x). Qed.
(** * Specification of phase 5, independent of the loops. *)
Section Phase5.
Context (m : nat) (k : nat -> F) (kr : nat -> Z) (g : nat -> F) (br bt : nat -> nat -> Z) (N : nat -> Z) (d : nat -> F)
    (gg : nat -> pt C) (ma : nat -> msg_a) (mb : nat -> nat -> msg_b C).
Notation st := (state5 C m k kr g br bt N d gg ma mb).

(** The opened gamma does not belong to the revealed point. *)
Definition gamma_bad (i : nat) : Prop := gg i <> smul (g i) gen.
(** The opened k and randomness do not give the broadcast ciphertext. *)
Definition k_bad (i : nat) : Prop := enc (N i) (to_Z (k i)) (kr i) <> ma_c (ma i).
(** The answer that [p]'s openings give to [i]'s opened first message. *)
Definition answer (i p : nat) : Z :=
  padd_c (N i) (pmul_c (N i) (enc (N i) (to_Z (k i)) (kr i)) (to_Z (g p))) (enc (N i) (bt i p) (br i p)).
(** Some answer of [p] to a consistent first message is not the one its openings give. *)
Definition answer_bad (p : nat) : Prop := exists i, In i (others p m) /\ ~ k_bad i /\ mb_c (mb i p) <> answer i p.
Definition opened5 : Prop := forall i, (i < m)%nat -> ~ gamma_bad i /\ ~ k_bad i /\ forall p, In p (others i m) -> mb_c (mb i p) = answer i p.
(** delta_i from the opened values. *)
Definition rdelta (i : nat) : F :=
  (k i * fsum (map g (seq 0 m)) + fsum (map (fun p => of_Z q (bt i p) - of_Z q (bt p i)) (others i m)))%Fq.

Lemma others_self i p : (i < m)%nat -> In p (others i m) -> (p < m)%nat /\ p <> i.
Proof. intros Hi H. apply in_others in H. lia. Qed.
Lemma others_sym i p : (i < m)%nat -> In p (others i m) -> In i (others p m).
Proof. intros Hi H. apply in_others in H. apply in_others. lia. Qed.
Lemma okG_iff i : okG C g gg i = false <-> gamma_bad i.
Proof. unfold okG, gamma_bad. rewrite <- not_true_iff_false, pt_eqb_eq. reflexivity. Qed.
Lemma okA_iff i : okA C k kr N ma i = false <-> k_bad i.
Proof. unfold okA, k_bad, ct_a. rewrite Z.eqb_neq. reflexivity. Qed.
Lemma okA_true i : okA C k kr N ma i = true <-> ~ k_bad i.
Proof. rewrite <- okA_iff. destruct (okA C k kr N ma i); intuition congruence. Qed.
Lemma in_badB i x : In x (badB C m k kr g br bt N mb i) <-> In x (others i m) /\ mb_c (mb i x) <> answer i x.
Proof.
  unfold badB. rewrite filter_In, negb_true_iff. unfold okB. rewrite Z.eqb_neq. unfold ct_b, ct_a. fold (answer i x). split; intros [H1 H2]; split; try exact H1; congruence.
Qed.
Lemma delta_rd i : (i < m)%nat -> delta5 C m k g bt i = rdelta i.
Proof.
  intros Hi. unfold delta5, rdelta. rewrite <- (fsum_split C g i m Hi).
  assert (E : forall l, (fsum (map (fun p => k i * g p - beta5 C bt i p) l) + fsum (map (fun p => beta5 C bt p i) l) =
    k i * fsum (map g l) + fsum (map (fun p => of_Z q (bt i p) - of_Z q (bt p i)) l))%Fq).
  { induction l as [|p l IH]; cbn [map fsum]; [ring|]. unfold beta5 in *. 
    match goal with |- (?a + ?b + (?c + ?d))%Fq = _ => transitivity (a + c + (b + d))%Fq; [ring|] end. rewrite IH. ring. }
  match goal with |- (?a + ?b + ?c)%Fq = _ => transitivity (a + (b + c))%Fq; [ring|] end. rewrite E. ring.
Qed.
Lemma opened5_iff : scan C m k kr g br bt N ma mb (seq 0 m) (badG C m g gg) = [] <-> opened5.
Proof.
  rewrite scan_nil. unfold badG, opened5. split.
  - intros [H1 H2] i Hi. assert (Hs : In i (seq 0 m)) by (apply in_seq; lia). destruct (H2 i Hs) as [A B]. split; [|split].
    + intros K. apply okG_iff in K. assert (Q : In i (filter (fun i => negb (okG C g gg i)) (seq 0 m))) by (apply filter_In; rewrite K; split; [exact Hs|reflexivity]). rewrite H1 in Q. destruct Q.
    + apply okA_true. exact A.
    + intros p Hp. destruct (Z.eq_dec (mb_c (mb i p)) (answer i p)) as [E|E]; [exact E|]. exfalso.
      assert (Q : In p (badB C m k kr g br bt N mb i)) by (apply in_badB; split; assumption). rewrite B in Q. destruct Q.
  - intros H. split.
    + destruct (filter _ (seq 0 m)) as [|x l] eqn:E; [reflexivity|]. exfalso. assert (Q : In x (filter (fun i => negb (okG C g gg i)) (seq 0 m))) by (rewrite E; left; reflexivity).
      apply filter_In in Q. destruct Q as [Q1 Q2]. apply in_seq in Q1. apply negb_true_iff, okG_iff in Q2. destruct (H x ltac:(lia)) as [K _]. exact (K Q2).
    + intros i Hi. apply in_seq in Hi. destruct (H i ltac:(lia)) as (K1 & K2 & K3). split; [apply okA_true; exact K2|].
      destruct (badB C m k kr g br bt N mb i) as [|x l] eqn:E; [reflexivity|]. exfalso. assert (Q : In x (badB C m k kr g br bt N mb i)) by (rewrite E; left; reflexivity).
      apply in_badB in Q. destruct Q as [Q1 Q2]. exact (Q2 (K3 x Q1)).
Qed.
Lemma opened5_dec : opened5 \/ ~ opened5.
Proof. rewrite <- opened5_iff. destruct (scan _ _ _ _ _ _ _ _ _ _ _ _); [left; reflexivity|right; discriminate]. Qed.

Theorem phase5_spec : exists bad, phase5_blame Hz Hf st = Err {| me_kind := EPhase6Blame; me_bad := bad |} /\ Sorted lt bad /\
  (forall i, In i bad -> (i < m)%nat /\ (gamma_bad i \/ k_bad i \/ answer_bad i \/ (opened5 /\ d i <> rdelta i))) /\
  (forall i, (i < m)%nat -> gamma_bad i \/ k_bad i -> In i bad) /\
  (~ opened5 -> bad <> []) /\
  (opened5 -> forall i, In i bad <-> (i < m)%nat /\ d i <> rdelta i).
Proof.
  exists (blame_list (bad5 C m k kr g br bt N d gg ma mb)). split; [apply phase5_eq|]. split; [apply blame_sorted|].
  pose proof opened5_iff as HO. unfold bad5. destruct (scan C m k kr g br bt N ma mb (seq 0 m) (badG C m g gg)) as [|y l] eqn:E.
  - assert (O : opened5) by (apply HO; reflexivity).
    assert (K : forall i, In i (blame_list (filter (fun i => negb (feqb (d i) (delta5 C m k g bt i))) (seq 0 m))) <-> (i < m)%nat /\ d i <> rdelta i).
    { intros i. rewrite in_blame, filter_In, in_seq, negb_true_iff, <- not_true_iff_false, feqb_eq. split; intros [H1 H2]; (split; [lia|]); [rewrite delta_rd in H2 by lia; exact H2|rewrite delta_rd by lia; exact H2]. }
    split; [|split; [|split]].
    + intros i Hi. apply K in Hi. destruct Hi as [H1 H2]. split; [exact H1|]. right; right; right. split; [exact O|exact H2].
    + intros i Hi [H|H]; exfalso; destruct (O i Hi) as (K1 & K2 & _); [exact (K1 H)|exact (K2 H)].
    + intros H. contradiction.
    + intros _ i. apply K.
  - assert (NO : ~ opened5) by (intros O; apply HO in O; discriminate). rewrite <- E. split; [|split; [|split]].
    + intros i Hi. apply in_blame, scan_in in Hi. destruct Hi as [Hi|[[H1 H2]|(j & H1 & H2 & H3)]].
      * apply filter_In in Hi. destruct Hi as [H1 H2]. apply in_seq in H1. apply negb_true_iff, okG_iff in H2. split; [lia|left; exact H2].
      * apply in_seq in H1. apply okA_iff in H2. split; [lia|right; left; exact H2].
      * apply in_seq in H1. apply in_badB in H3. destruct H3 as [H3 H4]. pose proof (others_self j i ltac:(lia) H3) as [H5 H6]. split; [exact H5|]. right; right; left.
        exists j. split; [apply others_sym; [lia|exact H3]|]. split; [apply okA_true; exact H2|exact H4].
    + intros i Hi [H|H]; apply in_blame.
      * apply scan_keep. apply filter_In. split; [apply in_seq; lia|]. apply okG_iff in H. rewrite H. reflexivity.
      * apply scan_A; [apply in_seq; lia|]. apply okA_iff. exact H.
    + intros _ K. apply (proj1 (blame_nil _)) in K. rewrite E in K. discriminate K.
    + intros O. contradiction.
Qed.

(** The recomputed shares always add up to k * gamma. *)
Lemma fsum_swap_sub (f : nat -> nat -> F) l : fsum (map (fun i => fsum (map (fun p => (f i p - f p i)%Fq) l)) l) = f0.
Proof.
  transitivity (fsum (map (fun i => fsum (map (fun p => f i p) l)) l) - fsum (map (fun i => fsum (map (fun p => f p i) l)) l))%Fq.
  - rewrite <- fsum_map_sub. apply (f_equal fsum). apply map_ext. intros i. apply (fsum_map_sub C (fun p => f i p)).
  - rewrite (fsum_swap C (fun a b => f b a)). ring.
Qed.
Lemma rdelta_sum : fsum (map rdelta (seq 0 m)) = (fsum (map k (seq 0 m)) * fsum (map g (seq 0 m)))%Fq.
Proof.
  unfold rdelta. rewrite fsum_map_add.
  rewrite (fsum_map_mul_r C k).
  assert (E : fsum (map (fun i => fsum (map (fun p => (of_Z q (bt i p) - of_Z q (bt p i))%Fq) (others i m))) (seq 0 m)) = f0).
  { rewrite <- (fsum_swap_sub (fun i p => of_Z q (bt i p)) (seq 0 m)). apply (f_equal fsum). apply map_ext_in. intros i Hi. apply in_seq in Hi.
    rewrite <- (fsum_split C (fun p => (of_Z q (bt i p) - of_Z q (bt p i))%Fq) i m) by lia. ring. }
  rewrite E. ring.
Qed.

(** Party [p] did everything it should up to the abort: it published its gamma point, sent the ciphertext of its k, answered
    each first message it received, and added up delta_p from the answers it decrypted. *)
Definition honest5 (p1 p2 : Z) (p : nat) : Prop :=
  gg p = smul (g p) gen /\ ma_c (ma p) = enc (N p) (to_Z (k p)) (kr p) /\
  (forall i, In i (others p m) -> mb_c (mb i p) = padd_c (N i) (pmul_c (N i) (ma_c (ma i)) (to_Z (g p))) (enc (N i) (bt i p) (br i p))) /\
  N p = p1 * p2 /\ good_key p1 p2 /\ Z.gcd (kr p) (N p) = 1 /\
  d p = (k p * g p + fsum (map (fun i => of_Z q (dec p1 p2 (mb_c (mb p i)))) (others p m)) + fsum (map (fun i => f0 - of_Z q (bt i p)) (others p m)))%Fq.
(** What the others opened for their exchange with [p] was possible for an honest party. *)
Definition openings_in_range (p : nat) : Prop :=
  forall i, In i (others p m) -> Z.gcd (br p i) (N p) = 1 /\ 0 <= bt p i /\ to_Z (k p) * to_Z (g i) + bt p i < N p.

Lemma honest5_delta p1 p2 p : (p < m)%nat -> honest5 p1 p2 p -> openings_in_range p -> opened5 -> d p = rdelta p.
Proof.
  intros Hp (H1 & H2 & H3 & H4 & H5 & H6 & H7) HR O. rewrite H7, <- delta_rd by exact Hp. unfold delta5, beta5.
  apply (f_equal2 fadd); [|reflexivity]. apply (f_equal2 fadd); [reflexivity|]. apply (f_equal fsum). apply map_ext_in. intros i Hi.
  destruct (O p Hp) as (_ & _ & O3). rewrite (O3 i Hi). unfold answer. destruct (HR i Hi) as (R1 & R2 & R3). rewrite H4 in *.
  rewrite mta_dec by (try assumption; apply to_Z_nonneg). rewrite Z.mod_small.
  - rewrite of_Z_add, of_Z_mul, !of_Z_to_Z. ring.
  - split; [|exact R3]. pose proof (to_Z_nonneg (k p)). pose proof (to_Z_nonneg (g i)). nia.
Qed.
Theorem honest5_not_listed p1 p2 p bad : (p < m)%nat -> honest5 p1 p2 p -> openings_in_range p ->
  phase5_blame Hz Hf st = Err {| me_kind := EPhase6Blame; me_bad := bad |} -> ~ In p bad.
Proof.
  intros Hp HH HR E Hin. destruct phase5_spec as (bad' & E' & _ & S1 & _). rewrite E in E'. injection E' as <-.
  destruct (S1 p Hin) as (_ & S2). pose proof HH as (H1 & H2 & H3 & H4 & H5 & H6 & H7). destruct S2 as [K|[K|[K|[O K]]]].
  - exact (K H1).
  - exact (K (eq_sym H2)).
  - destruct K as (i & K1 & K2 & K3). apply K3. rewrite (H3 i K1). unfold answer. unfold k_bad in K2.
    destruct (Z.eq_dec (enc (N i) (to_Z (k i)) (kr i)) (ma_c (ma i))) as [->|K4]; [reflexivity|contradiction].
  - apply K. exact (honest5_delta p1 p2 p Hp HH HR O).
Qed.
Lemma all_honest_opened keys : (forall p, (p < m)%nat -> honest5 (fst (keys p)) (snd (keys p)) p) -> opened5.
Proof.
  intros H i Hi. destruct (H i Hi) as (H1 & H2 & _). split; [intros K; exact (K H1)|]. split; [intros K; exact (K (eq_sym H2))|].
  intros p Hp. destruct (others_self i p Hi Hp) as [Hpm _]. destruct (H p Hpm) as (_ & _ & H3 & _). rewrite (H3 i (others_sym i p Hi Hp)).
  unfold answer. rewrite H2. reflexivity.
Qed.
End Phase5.

Lemma sorted_singleton a l : Sorted lt l -> (forall i, In i l <-> i = a) -> l = [a].
Proof.
  intros HS H. destruct l as [|x l]; [exfalso; assert (K : In a []) by (apply H; reflexivity); destruct K|].
  assert (x = a) by (apply H; left; reflexivity). subst. destruct l as [|y l]; [reflexivity|]. exfalso.
  assert (y = a) by (apply H; right; left; reflexivity). subst. apply Sorted_inv in HS. destruct HS as [_ HS]. inversion HS; lia.
Qed.
Lemma fsum_pick m (x : F) b : (b < m)%nat -> fsum (map (fun p => if (p =? b)%nat then x else f0) (seq 0 m)) = x.
Proof.
  intros Hb. rewrite <- (fsum_split C (fun p => if (p =? b)%nat then x else f0) b m Hb). rewrite Nat.eqb_refl.
  assert (E : fsum (map (fun p => if (p =? b)%nat then x else f0) (others b m)) = f0).
  { transitivity (fsum (map (fun _ => (f0 : F)) (others b m))); [|apply fsum_map_0]. apply (f_equal fsum). apply map_ext_in. intros p Hp. apply in_others in Hp. destruct (Nat.eqb_spec p b); [lia|reflexivity]. }
  rewrite E. ring.
Qed.

(** [b] opens beta_tag + N_a instead of beta_tag in its exchange with [a], and broadcasts a matching delta. *)
Definition frame_bt (bt : nat -> nat -> Z) (N : nat -> Z) (a b i p : nat) : Z := if (i =? a)%nat && (p =? b)%nat then bt i p + N a else bt i p.
Definition frame_d (d : nat -> F) (N : nat -> Z) (a b i : nat) : F := if (i =? b)%nat then (d i - of_Z q (N a))%Fq else d i.

Section Frame5.
Context (m : nat) (k : nat -> F) (kr : nat -> Z) (g : nat -> F) (br bt : nat -> nat -> Z) (N : nat -> Z) (d : nat -> F)
    (gg : nat -> pt C) (ma : nat -> msg_a) (mb : nat -> nat -> msg_b C) (keys : nat -> Z * Z) (a b : nat).
Context (HH : forall p, (p < m)%nat -> honest5 m k kr g br bt N d gg ma mb (fst (keys p)) (snd (keys p)) p)
  (HR : forall p, (p < m)%nat -> openings_in_range m k g br bt N p) (Ha : (a < m)%nat) (Hb : (b < m)%nat) (Hab : a <> b).
Notation bt' := (frame_bt bt N a b).
Notation d' := (frame_d d N a b).

Lemma frame_answer i p : (i < m)%nat -> In p (others i m) -> answer k kr g br bt' N i p = answer k kr g br bt N i p.
Proof.
  intros Hi Hp. unfold answer. apply f_equal. unfold frame_bt. destruct (Nat.eqb_spec i a) as [->|]; [|reflexivity]. destruct (Nat.eqb_spec p b) as [->|]; [|reflexivity].
  cbn [andb]. destruct (HH a Ha) as (_ & _ & _ & E & G & _). apply enc_shift; [rewrite E; apply good_key_gt1; exact G|]. apply (HR a Ha b Hp).
Qed.
Lemma frame_opened : opened5 m k kr g br bt' N gg ma mb.
Proof.
  pose proof (all_honest_opened m k kr g br bt N d gg ma mb keys HH) as O. intros i Hi. destruct (O i Hi) as (O1 & O2 & O3).
  split; [exact O1|]. split; [exact O2|]. intros p Hp. rewrite frame_answer by assumption. exact (O3 p Hp).
Qed.
Lemma rdelta_full bb i : (i < m)%nat -> rdelta m k g bb i = (k i * fsum (map g (seq 0 m)) + fsum (map (fun p => of_Z q (bb i p) - of_Z q (bb p i)) (seq 0 m)))%Fq.
Proof. intros Hi. unfold rdelta. rewrite <- (fsum_split C (fun p => (of_Z q (bb i p) - of_Z q (bb p i))%Fq) i m Hi). ring. Qed.
Lemma frame_rdelta i : (i < m)%nat -> rdelta m k g bt' i =
  (rdelta m k g bt i + (if (i =? a)%nat then of_Z q (N a) else f0) - (if (i =? b)%nat then of_Z q (N a) else f0))%Fq.
Proof.
  intros Hi. rewrite !rdelta_full by exact Hi.
  transitivity (k i * fsum (map g (seq 0 m)) + (fsum (map (fun p => of_Z q (bt i p) - of_Z q (bt p i)) (seq 0 m)) +
    (fsum (map (fun p => if (p =? b)%nat then (if (i =? a)%nat then of_Z q (N a) else f0) else f0) (seq 0 m)) -
     fsum (map (fun p => if (p =? a)%nat then (if (i =? b)%nat then of_Z q (N a) else f0) else f0) (seq 0 m)))))%Fq.
  - apply (f_equal2 fadd); [reflexivity|]. rewrite <- fsum_map_sub, <- fsum_map_add. apply (f_equal fsum). apply map_ext. intros p. unfold frame_bt.
    destruct (Nat.eqb_spec i a) as [E1|E1]; destruct (Nat.eqb_spec p b) as [E2|E2]; destruct (Nat.eqb_spec p a) as [E3|E3]; destruct (Nat.eqb_spec i b) as [E4|E4];
      cbn [andb]; try (exfalso; congruence); rewrite ?of_Z_add; ring.
  - rewrite !fsum_pick by assumption. ring.
Qed.
Theorem frame5 : of_Z q (N a) <> f0 ->
  (forall p, (p < m)%nat -> p <> b -> honest5 m k kr g br bt' N d' gg ma mb (fst (keys p)) (snd (keys p)) p) /\
  phase5_blame Hz Hf (state5 C m k kr g br bt' N d' gg ma mb) = Err {| me_kind := EPhase6Blame; me_bad := [a] |}.
Proof.
  intros HN. split.
  - intros p Hp Hpb. destruct (HH p Hp) as (H1 & H2 & H3 & H4 & H5 & H6 & H7). unfold honest5. 
    assert (EB : forall i, bt' i p = bt i p). { intros i. unfold frame_bt. destruct (Nat.eqb_spec p b); [contradiction|]. rewrite andb_false_r. reflexivity. }
    split; [exact H1|]. split; [exact H2|]. split; [intros i Hi; rewrite EB; exact (H3 i Hi)|]. split; [exact H4|]. split; [exact H5|]. split; [exact H6|].
    unfold frame_d. destruct (Nat.eqb_spec p b); [contradiction|]. rewrite H7. apply (f_equal2 fadd); [reflexivity|]. apply (f_equal fsum). apply map_ext. intros i. rewrite EB. reflexivity.
  - destruct (phase5_spec m k kr g br bt' N d' gg ma mb) as (bad & E & ES & _ & _ & _ & EL). rewrite E. apply f_equal, f_equal.
    apply sorted_singleton; [exact ES|]. intros i. rewrite (EL frame_opened). split.
    + intros [Hi K]. destruct (Nat.eq_dec i a) as [|Hia]; [assumption|]. exfalso. apply K. rewrite frame_rdelta by exact Hi.
      rewrite <- (honest5_delta m k kr g br bt N d gg ma mb _ _ i Hi (HH i Hi) (HR i Hi) (all_honest_opened m k kr g br bt N d gg ma mb keys HH)).
      unfold frame_d. destruct (Nat.eqb_spec i a); [contradiction|]. destruct (i =? b)%nat; ring.
    + intros ->. split; [exact Ha|]. intros K. rewrite frame_rdelta in K by exact Ha.
      rewrite <- (honest5_delta m k kr g br bt N d gg ma mb _ _ a Ha (HH a Ha) (HR a Ha) (all_honest_opened m k kr g br bt N d gg ma mb keys HH)) in K.
      unfold frame_d in K. rewrite Nat.eqb_refl in K. destruct (Nat.eqb_spec a b) as [|Q]; [contradiction|]. apply HN.
      transitivity ((d a + of_Z q (N a) - f0) - d a)%Fq; [ring|]. rewrite <- K. ring.
Qed.
End Frame5.

(** * Phase 6 *)
Section Phase6.
Context (m : nat) (k : nat -> F) (kr : nat -> Z) (miu mr : nat -> nat -> Z) (gw : nat -> pt C) (N : nat -> Z) (pf : nat -> ddh_proof C)
    (Sv : nat -> pt C) (ma : nat -> msg_a) (mb : nat -> nat -> msg_b C) (R : pt C).
Notation st := (state6 C m k kr miu mr gw N pf Sv ma mb).
(** An opening of [i] does not re-encrypt to the broadcast ciphertext. *)
Definition open_bad (i : nat) : Prop :=
  enc (N i) (to_Z (k i)) (kr i) <> ma_c (ma i) \/ exists p, In p (others i m) /\ enc (N i) (miu i p) (mr i p) <> mb_c (mb i p).
(** sigma_i in the exponent, from the opened values and the public points g^w. *)
Definition rsigma (i : nat) : pt C :=
  padd (smul (fsum (map k (seq 0 m))) (gw i)) (psum (map (fun p => smul (of_Z q (miu i p) - of_Z q (miu p i))%Fq gen) (others i m))).
Definition proof_bad (i : nat) : Prop := ddh_verify Hf (pf i) {| dd_g1 := gen; dd_h1 := rsigma i; dd_g2 := R; dd_h2 := Sv i |} = false.

Lemma gsig_rs i : (i < m)%nat -> gsig C m k miu gw i = rsigma i.
Proof.
  intros Hi. unfold gsig, rsigma. rewrite <- (fsum_split C k i m Hi).
  assert (E : forall l, padd (psum (map (fun p => smul (of_Z q (miu i p)) gen) l)) (psum (map (fun p => psub (smul (k p) (gw i)) (smul (of_Z q (miu p i)) gen)) l)) =
    padd (smul (fsum (map k l)) (gw i)) (psum (map (fun p => smul (of_Z q (miu i p) - of_Z q (miu p i))%Fq gen) l))).
  { intros l. apply dlog_inj. rewrite !dlog_add, !dlog_smul, !dlog_psum, !map_map. induction l as [|p l IH]; cbn [map fsum]; [ring|].
    rewrite dlog_psub, !dlog_smul in *. rewrite dlog_gen in *.
    match goal with |- (?a + ?b + (?c + ?d))%Fq = _ => transitivity (a + c + (b + d))%Fq; [ring|] end. rewrite IH. ring. }
  specialize (E (others i m)). apply (f_equal dlog) in E. apply dlog_inj. rewrite !dlog_add, !dlog_smul in *.
  match goal with |- (?a + ?b + ?c)%Fq = _ => transitivity (a + (b + c))%Fq; [ring|] end. rewrite E. ring.
Qed.
Theorem phase6_spec : exists bad, phase6_blame Hz Hf st R = Err {| me_kind := EPhase6Blame; me_bad := bad |} /\ Sorted lt bad /\
  forall i, In i bad <-> (i < m)%nat /\ (open_bad i \/ ((forall j, (j < m)%nat -> ~ open_bad j) /\ proof_bad i)).
Proof.
  exists (blame_list (bad6_all C Hf m k kr miu mr gw N pf Sv ma mb R)). split; [apply phase6_eq|]. split; [apply blame_sorted|].
  assert (HO : forall i, In i (bad6_open C m k kr miu mr N ma mb) <-> (i < m)%nat /\ open_bad i).
  { intros i. rewrite in_bad6_open. unfold open_bad, okK, okM. rewrite Z.eqb_neq. split; intros [H1 [H2|(p & H2 & H3)]]; (split; [exact H1|]).
    - left; exact H2.
    - right. exists p. apply Z.eqb_neq in H3. split; assumption.
    - left; exact H2.
    - right. exists p. apply Z.eqb_neq in H3. split; assumption. }
  intros i. rewrite in_blame. unfold bad6_all. destruct (bad6_open C m k kr miu mr N ma mb) as [|x l].
  - rewrite filter_In, in_seq, negb_true_iff. unfold okP, proof_bad. split.
    + intros [H1 H2]. rewrite gsig_rs in H2 by lia. split; [lia|]. right. split; [|exact H2]. intros j Hj K. apply (proj2 (HO j)). split; assumption.
    + intros [H1 [H2|[_ H2]]]; [exfalso; apply (proj2 (HO i)); split; assumption|]. split; [lia|]. rewrite gsig_rs by exact H1. exact H2.
  - rewrite HO. split; [intros [H1 H2]; split; [exact H1|left; exact H2]|]. intros [H1 [H2|[H2 _]]]; [split; assumption|].
    exfalso. destruct (proj1 (HO x) (or_introl eq_refl)) as [K1 K2]. exact (H2 x K1 K2).
Qed.

(** Party [p] did everything it should: [w] is its share, [bn i], [rn i] the mask and randomness of its answer to [i]. *)
Definition honest6 (w sig t : F) (bn rn : nat -> Z) (p : nat) : Prop :=
  ma_c (ma p) = enc (N p) (to_Z (k p)) (kr p) /\
  (forall i, In i (others p m) -> enc (N p) (miu p i) (mr p i) = mb_c (mb p i)) /\
  (forall i, In i (others p m) -> mb_c (mb i p) = padd_c (N i) (pmul_c (N i) (ma_c (ma i)) (to_Z w)) (enc (N i) (bn i) (rn i))) /\
  gw p = smul w gen /\
  sig = (k p * w + fsum (map (fun i => of_Z q (miu p i)) (others p m)) + fsum (map (fun i => f0 - of_Z q (bn i)) (others p m)))%Fq /\
  Sv p = smul sig R /\ pf p = blame6_proof Hf sig R (Sv p) t.
(** The others' openings of their exchanges with [p] are possible, and [p]'s answers did not wrap around. *)
Definition openings6_in_range (w : F) (bn rn : nat -> Z) (p : nat) : Prop :=
  forall i, In i (others p m) -> exists p1 p2, N i = p1 * p2 /\ good_key p1 p2 /\ Z.gcd (kr i) (N i) = 1 /\ Z.gcd (rn i) (N i) = 1 /\
    Z.gcd (mr i p) (N i) = 1 /\ 0 <= miu i p < N i /\ 0 <= bn i /\ to_Z (k i) * to_Z w + bn i < N i.

Lemma honest6_sigma w sig t bn rn p : (p < m)%nat -> honest6 w sig t bn rn p -> openings6_in_range w bn rn p -> (forall j, (j < m)%nat -> ~ open_bad j) ->
  rsigma p = smul sig gen.
Proof.
  intros Hp (H1 & H2 & H3 & H4 & H5 & H6 & H7) HR HO. rewrite H5. unfold rsigma. rewrite H4, <- (fsum_split C k p m Hp).
  assert (E : forall i, In i (others p m) -> of_Z q (miu i p) = (k i * w + of_Z q (bn i))%Fq).
  { intros i Hi. destruct (HR i Hi) as (p1 & p2 & E1 & E2 & E3 & E4 & E5 & E6 & E7 & E8). destruct (others_self m p i Hp Hi) as [Him _].
    assert (K1 : enc (N i) (to_Z (k i)) (kr i) = ma_c (ma i)).
    { destruct (Z.eq_dec (enc (N i) (to_Z (k i)) (kr i)) (ma_c (ma i))) as [K|K]; [exact K|]. exfalso. apply (HO i Him). left. exact K. }
    assert (K2 : enc (N i) (miu i p) (mr i p) = mb_c (mb i p)).
    { destruct (Z.eq_dec (enc (N i) (miu i p) (mr i p)) (mb_c (mb i p))) as [K|K]; [exact K|]. exfalso. apply (HO i Him). right. exists p.
      split; [apply others_sym; assumption|exact K]. }
    rewrite (H3 i Hi), <- K1 in K2. apply (f_equal (dec p1 p2)) in K2. rewrite E1 in *.
    rewrite mta_dec, dec_enc in K2 by (try assumption; apply to_Z_nonneg). pose proof (to_Z_nonneg (k i)). pose proof (to_Z_nonneg w).
    rewrite !Z.mod_small in K2 by nia. rewrite K2, of_Z_add, of_Z_mul, !of_Z_to_Z. reflexivity. }
  apply dlog_inj. rewrite dlog_add, !dlog_smul, dlog_psum, !map_map, dlog_gen.
  assert (G : forall l, (forall i, In i l -> In i (others p m)) -> (fsum (map k l) * w + fsum (map (fun x => dlog (smul (of_Z q (miu p x) - of_Z q (miu x p)) gen)) l) =
     fsum (map (fun i => of_Z q (miu p i)) l) + fsum (map (fun i => f0 - of_Z q (bn i)) l))%Fq).
  { induction l as [|i l IH]; intros Hl; cbn [map fsum]; [ring|]. rewrite dlog_smul, dlog_gen, (E i) by (apply Hl; left; reflexivity).
    assert (IH' := IH (fun x Hx => Hl x (or_intror Hx))). clear IH.
    match goal with |- _ = (?a + ?b + (?c + ?d))%Fq => transitivity (a + c + (b + d))%Fq; [|ring] end. rewrite <- IH'. ring. }
  specialize (G (others p m) (fun i Hi => Hi)).
  match goal with |- _ = ((?a + ?b + ?c) * _)%Fq => transitivity (a + (b + c))%Fq; [|ring] end. rewrite <- G. ring.
Qed.
Theorem honest6_not_listed w sig t bn rn p bad : (p < m)%nat -> honest6 w sig t bn rn p -> openings6_in_range w bn rn p ->
  phase6_blame Hz Hf st R = Err {| me_kind := EPhase6Blame; me_bad := bad |} -> ~ In p bad.
Proof.
  intros Hp HH HR E Hin. destruct phase6_spec as (bad' & E' & _ & S1). rewrite E in E'. injection E' as <-. apply S1 in Hin. destruct Hin as [_ K].
  pose proof HH as (H1 & H2 & H3 & H4 & H5 & H6 & H7). destruct K as [[K|(i & K1 & K2)]|[K1 K2]].
  - exact (K (eq_sym H1)).
  - exact (K2 (H2 i K1)).
  - unfold proof_bad in K2. rewrite (honest6_sigma w sig t bn rn p Hp HH HR K1), H7 in K2. unfold blame6_proof in K2. rewrite ddh_complete in K2; [discriminate|reflexivity|exact H6].
Qed.
End Phase6.

(** [b] opens miu + N_b for its exchange with [a] and publishes S_b and the proof for the sigma_b that results. *)
Definition frame_miu (miu : nat -> nat -> Z) (N : nat -> Z) (a b i p : nat) : Z := if (i =? b)%nat && (p =? a)%nat then miu i p + N b else miu i p.
Definition frame_S (Sv : nat -> pt C) (sig : nat -> F) (N : nat -> Z) (R : pt C) (b i : nat) : pt C :=
  if (i =? b)%nat then smul (sig b + of_Z q (N b))%Fq R else Sv i.
Definition frame_pf (pf : nat -> ddh_proof C) (sig t : nat -> F) (N : nat -> Z) (R : pt C) (b i : nat) : ddh_proof C :=
  if (i =? b)%nat then blame6_proof Hf (sig b + of_Z q (N b))%Fq R (smul (sig b + of_Z q (N b))%Fq R) (t b) else pf i.

(** A proof made for one statement fails for another one with a different first point, unless the challenge is zero. *)
Lemma ddh_other_h1 x s (g2 h2 h1 : pt C) : h2 = smul x g2 -> g2 <> pzero -> h1 <> smul x gen ->
  let d := {| dd_g1 := gen; dd_h1 := h1; dd_g2 := g2; dd_h2 := h2 |} in
  ddh_chal Hf d (smul s gen) (smul s g2) <> f0 ->
  ddh_verify Hf (ddh_prove Hf x s {| dd_g1 := gen; dd_h1 := smul x gen; dd_g2 := g2; dd_h2 := h2 |}) d = false.
Proof.
  intros H2 Hg Hh d He. destruct (ddh_verify _ _ _) eqn:V; [|reflexivity]. exfalso. apply ddh_verify_iff in V. cbn zeta in V.
  unfold ddh_prove in V. subst d. cbn [dd_a1 dd_a2 dd_z dd_g1 dd_g2 dd_h1 dd_h2] in V. destruct V as [V1 V2]. subst h2.
  match type of V1 with smul (s + ?e * x)%Fq _ = padd _ (smul ?f _) => set (e1 := e) in *; set (e2 := f) in * end.
  change (e2 <> f0) in He. apply (f_equal dlog) in V1, V2. rewrite !dlog_add, !dlog_smul, !dlog_gen in V1. rewrite !dlog_add, !dlog_smul in V2.
  assert (Hg' : dlog g2 <> f0) by (intros K; apply Hg, dlog_inj; rewrite K; symmetry; apply dlog_zero).
  assert (A : (e1 * x = e2 * x)%Fq).
  { assert (B : ((e1 * x - e2 * x) * dlog g2 = f0)%Fq).
    { transitivity ((s + e1 * x) * dlog g2 - (s * dlog g2 + e2 * (x * dlog g2)))%Fq; [ring|]. rewrite V2. ring. }
    apply (fmul_integral (cq_prime C)) in B. destruct B as [B|B]; [|contradiction]. transitivity (e1 * x - e2 * x + e2 * x)%Fq; [ring|]. rewrite B. ring. }
  apply Hh, dlog_inj. rewrite dlog_smul, dlog_gen.
  assert (B : (e2 * (dlog h1 - x) = f0)%Fq).
  { transitivity ((s * f1 + e2 * dlog h1) - (s + e2 * x))%Fq; [ring|]. rewrite <- A, <- V1. ring. }
  apply (fmul_integral (cq_prime C)) in B. destruct B as [B|B]; [contradiction|]. transitivity (dlog h1 - x + x)%Fq; [ring|]. rewrite B. ring.
Qed.

Section Frame6.
Context (m : nat) (k : nat -> F) (kr : nat -> Z) (miu mr : nat -> nat -> Z) (gw : nat -> pt C) (N : nat -> Z) (pf : nat -> ddh_proof C)
    (Sv : nat -> pt C) (ma : nat -> msg_a) (mb : nat -> nat -> msg_b C) (R : pt C)
    (w sig t : nat -> F) (bn rn : nat -> nat -> Z) (a b : nat).
Context (HH : forall p, (p < m)%nat -> honest6 m k kr miu mr gw N pf Sv ma mb R (w p) (sig p) (t p) (bn p) (rn p) p)
  (HR : forall p, (p < m)%nat -> openings6_in_range m k kr miu mr N (w p) (bn p) (rn p) p)
  (Ha : (a < m)%nat) (Hb : (b < m)%nat) (Hab : a <> b).
Notation miu' := (frame_miu miu N a b).
Notation S' := (frame_S Sv sig N R b).
Notation pf' := (frame_pf pf sig t N R b).

Lemma all_honest6_open : forall j, (j < m)%nat -> ~ open_bad m k kr miu mr N ma mb j.
Proof. intros j Hj [K|(i & K1 & K2)]; destruct (HH j Hj) as (H1 & H2 & _); [exact (K (eq_sym H1))|exact (K2 (H2 i K1))]. Qed.
Lemma frame_enc i p : (i < m)%nat -> In p (others i m) -> enc (N i) (miu' i p) (mr i p) = enc (N i) (miu i p) (mr i p).
Proof.
  intros Hi Hp. unfold frame_miu. destruct (Nat.eqb_spec i b) as [->|]; [|reflexivity]. destruct (Nat.eqb_spec p a) as [->|]; [|reflexivity]. cbn [andb].
  destruct (HR a Ha b) as (p1 & p2 & E & G & _ & _ & G5 & _); [apply others_sym; assumption|]. apply enc_shift; [rewrite E; apply good_key_gt1; exact G|exact G5].
Qed.
Lemma frame6_open : forall j, (j < m)%nat -> ~ open_bad m k kr miu' mr N ma mb j.
Proof.
  intros j Hj [K|(i & K1 & K2)]; apply (all_honest6_open j Hj); [left; exact K|]. right. exists i. split; [exact K1|]. rewrite frame_enc in K2 by assumption. exact K2.
Qed.
Lemma rsigma_full mu i : (i < m)%nat -> rsigma m k mu gw i =
  padd (smul (fsum (map k (seq 0 m))) (gw i)) (smul (fsum (map (fun p => of_Z q (mu i p) - of_Z q (mu p i)) (seq 0 m))%Fq) gen).
Proof.
  intros Hi. unfold rsigma. apply (f_equal2 padd); [reflexivity|]. rewrite <- (fsum_split C (fun p => (of_Z q (mu i p) - of_Z q (mu p i))%Fq) i m Hi).
  rewrite (psum_smul_R C (fun p => (of_Z q (mu i p) - of_Z q (mu p i))%Fq) gen). apply (f_equal2 smul); [|reflexivity]. ring.
Qed.
Lemma frame_rsigma i : (i < m)%nat -> rsigma m k miu' gw i =
  padd (rsigma m k miu gw i) (smul ((if (i =? b)%nat then of_Z q (N b) else f0) - (if (i =? a)%nat then of_Z q (N b) else f0))%Fq gen).
Proof.
  intros Hi. rewrite !rsigma_full by exact Hi. apply dlog_inj. rewrite !dlog_add, !dlog_smul, !dlog_gen.
  assert (E : fsum (map (fun p => of_Z q (miu' i p) - of_Z q (miu' p i))%Fq (seq 0 m)) =
    (fsum (map (fun p => of_Z q (miu i p) - of_Z q (miu p i)) (seq 0 m)) + ((if (i =? b)%nat then of_Z q (N b) else f0) - (if (i =? a)%nat then of_Z q (N b) else f0)))%Fq).
  { rewrite <- (fsum_pick m (if (i =? b)%nat then of_Z q (N b) else f0) a Ha), <- (fsum_pick m (if (i =? a)%nat then of_Z q (N b) else f0) b Hb).
    rewrite <- fsum_map_sub, <- fsum_map_add. apply (f_equal fsum). apply map_ext. intros p. unfold frame_miu.
    destruct (Nat.eqb_spec i a) as [E1|E1]; destruct (Nat.eqb_spec p b) as [E2|E2]; destruct (Nat.eqb_spec p a) as [E3|E3]; destruct (Nat.eqb_spec i b) as [E4|E4];
      cbn [andb]; try (exfalso; congruence); rewrite ?of_Z_add; ring. }
  rewrite E. ring.
Qed.
Theorem frame6 : of_Z q (N b) <> f0 -> R <> pzero ->
  ddh_chal Hf {| dd_g1 := gen; dd_h1 := rsigma m k miu' gw a; dd_g2 := R; dd_h2 := Sv a |} (smul (t a) gen) (smul (t a) R) <> f0 ->
  (forall p, (p < m)%nat -> p <> b -> honest6 m k kr miu' mr gw N pf' S' ma mb R (w p) (sig p) (t p) (bn p) (rn p) p) /\
  phase6_blame Hz Hf (state6 C m k kr miu' mr gw N pf' S' ma mb) R = Err {| me_kind := EPhase6Blame; me_bad := [a] |}.
Proof.
  intros HN HR0 Hchal. split.
  - intros p Hp Hpb. destruct (HH p Hp) as (H1 & H2 & H3 & H4 & H5 & H6 & H7). unfold honest6.
    assert (EM : forall i, miu' p i = miu p i). { intros i. unfold frame_miu. destruct (Nat.eqb_spec p b); [contradiction|]. reflexivity. }
    assert (ES : S' p = Sv p). { unfold frame_S. destruct (Nat.eqb_spec p b); [contradiction|]. reflexivity. }
    assert (EP : pf' p = pf p). { unfold frame_pf. destruct (Nat.eqb_spec p b); [contradiction|]. reflexivity. }
    rewrite ES, EP. split; [exact H1|]. split; [intros i Hi; rewrite EM; exact (H2 i Hi)|]. split; [exact H3|]. split; [exact H4|]. split; [|split; [exact H6|exact H7]].
    rewrite H5. apply (f_equal2 fadd); [|reflexivity]. apply (f_equal2 fadd); [reflexivity|]. apply (f_equal fsum). apply map_ext. intros i. rewrite EM. reflexivity.
  - destruct (phase6_spec m k kr miu' mr gw N pf' S' ma mb R) as (bad & E & ES & EL). rewrite E. apply f_equal, f_equal.
    apply sorted_singleton; [exact ES|]. intros i. rewrite EL. split.
    + intros [Hi [K|[_ K]]]; [exfalso; exact (frame6_open i Hi K)|]. destruct (Nat.eq_dec i a) as [|Hia]; [assumption|]. exfalso.
      unfold proof_bad in K. rewrite frame_rsigma in K by exact Hi. destruct (Nat.eqb_spec i a); [contradiction|].
      rewrite (honest6_sigma m k kr miu mr gw N pf Sv ma mb R _ _ _ _ _ i Hi (HH i Hi) (HR i Hi) all_honest6_open) in K.
      destruct (HH i Hi) as (_ & _ & _ & _ & _ & H6 & H7). unfold frame_pf, frame_S in K. destruct (Nat.eqb_spec i b) as [->|Hib].
      * assert (EQ : padd (smul (sig b) gen) (smul (of_Z q (N b) - f0)%Fq gen) = smul (sig b + of_Z q (N b))%Fq (gen : pt C)).
        { apply dlog_inj. rewrite dlog_add, !dlog_smul. ring. }
        rewrite EQ in K. unfold blame6_proof in K. rewrite ddh_complete in K; [discriminate|reflexivity|reflexivity].
      * assert (EQ : padd (smul (sig i) gen) (smul (f0 - f0)%Fq gen) = smul (sig i) (gen : pt C)) by (apply dlog_inj; rewrite dlog_add, !dlog_smul; ring).
        rewrite EQ, H7 in K. unfold blame6_proof in K. rewrite ddh_complete in K; [discriminate|reflexivity|exact H6].
    + intros ->. split; [exact Ha|]. right. split; [exact frame6_open|]. unfold proof_bad, frame_pf, frame_S. destruct (Nat.eqb_spec a b) as [|_]; [contradiction|].
      destruct (HH a Ha) as (_ & _ & _ & _ & _ & H6 & H7). rewrite H7. unfold blame6_proof. apply ddh_other_h1; [exact H6|exact HR0| |exact Hchal].
      rewrite frame_rsigma by exact Ha. rewrite Nat.eqb_refl. destruct (Nat.eqb_spec a b) as [|_]; [contradiction|].
      rewrite (honest6_sigma m k kr miu mr gw N pf Sv ma mb R _ _ _ _ _ a Ha (HH a Ha) (HR a Ha) all_honest6_open).
      intros K. apply (f_equal dlog) in K. rewrite dlog_add, !dlog_smul, dlog_gen in K. apply HN.
      transitivity (sig a * f1 - (sig a * f1 + (f0 - of_Z q (N b)) * f1))%Fq; [ring|]. rewrite K. ring.
Qed.
End Frame6.

(** * From local to global states *)
Theorem to_global5_eq m k kr g (brl btl : nat -> nat -> Z) N d gg ma mb :
  to_global5 (map N (seq 0 m)) (map d (seq 0 m)) (map gg (seq 0 m)) (map ma (seq 0 m)) (map (fun i => map (mb i) (others i m)) (seq 0 m))
    (map (fun p => {| l5_k := k p; l5_kr := kr p; l5_g := g p; l5_br := map (brl p) (others p m); l5_bt := map (btl p) (others p m) |}) (seq 0 m)) =
  Ok (state5 C m k kr g (fun i p => brl p i) (fun i p => btl p i) N d gg ma mb).
Proof.
  unfold to_global5.
  assert (T : forall (f : local5 C -> list Z) (h : nat -> nat -> Z),
    (forall p, f {| l5_k := k p; l5_kr := kr p; l5_g := g p; l5_br := map (brl p) (others p m); l5_bt := map (btl p) (others p m) |} = map (h p) (others p m)) ->
    transpose f (map (fun p => {| l5_k := k p; l5_kr := kr p; l5_g := g p; l5_br := map (brl p) (others p m); l5_bt := map (btl p) (others p m) |}) (seq 0 m)) =
    Ok (map (fun i => map (fun p => h p i) (others i m)) (seq 0 m))).
  { intros f h Hfh. unfold transpose. rewrite map_length, seq_length. apply omapM_all. intros i Hi. apply in_seq in Hi.
    rewrite <- ind_map, map_map by lia. apply omapM_all. intros j Hj. apply in_seq in Hj. pose proof (ind_lt i j m ltac:(lia) ltac:(lia)) as Hid.
    rewrite nth_o_map_seq by exact Hid. cbn [obind plus]. rewrite Hfh, nth_o_others by (try exact Hid; apply ind2_lt; lia). rewrite ind_ind2. reflexivity. }
  rewrite (T l5_br brl), (T l5_bt btl) by reflexivity. cbn [obind]. rewrite !map_map. reflexivity.
Qed.
Theorem to_global6_eq m k kr (miu mr : nat -> nat -> Z) gw N pf Sv ma mb :
  to_global6 (map N (seq 0 m)) (map Sv (seq 0 m)) (map gw (seq 0 m)) (map ma (seq 0 m)) (map (fun i => map (mb i) (others i m)) (seq 0 m))
    (map (fun p => {| l6_k := k p; l6_kr := kr p; l6_miu := map (miu p) (others p m); l6_mr := map (mr p) (others p m); l6_proof := pf p |}) (seq 0 m)) =
  Ok (state6 C m k kr miu mr gw N pf Sv ma mb).
Proof.
  unfold to_global6. rewrite map_length, seq_length.
  assert (T : forall (f : local6 C -> list Z) (h : nat -> nat -> Z),
    (forall p, f {| l6_k := k p; l6_kr := kr p; l6_miu := map (miu p) (others p m); l6_mr := map (mr p) (others p m); l6_proof := pf p |} = map (h p) (others p m)) ->
    omapM (E := mp_error) (fun l => omapM (fun j => nth_o (f l) j) (seq 0 (m - 1)))
      (map (fun p => {| l6_k := k p; l6_kr := kr p; l6_miu := map (miu p) (others p m); l6_mr := map (mr p) (others p m); l6_proof := pf p |}) (seq 0 m)) =
    Ok (map (fun i => map (h i) (others i m)) (seq 0 m))).
  { intros f h Hfh. assert (Q : forall l, (forall i, In i l -> (i < m)%nat) -> omapM (E := mp_error) (fun l => omapM (fun j => nth_o (f l) j) (seq 0 (m - 1)))
      (map (fun p => {| l6_k := k p; l6_kr := kr p; l6_miu := map (miu p) (others p m); l6_mr := map (mr p) (others p m); l6_proof := pf p |}) l) =
      Ok (map (fun i => map (h i) (others i m)) l)).
    { induction l as [|i l IH]; intros Hl; [reflexivity|]. cbn [map omapM]. rewrite Hfh. rewrite (omapM_all _ (fun j => h i (ind i j))).
      - cbn [obind]. rewrite IH by (intros x Hx; apply Hl; right; exact Hx). cbn [obind]. rewrite <- ind_map, map_map by (apply Hl; left; reflexivity). reflexivity.
      - intros j Hj. apply in_seq in Hj. apply nth_o_others; [apply Hl; left; reflexivity|lia]. }
    apply Q. intros i Hi. apply in_seq in Hi. lia. }
  rewrite (T l6_mr mr), (T l6_miu miu) by reflexivity. cbn [obind]. rewrite !map_map. reflexivity.
Qed.

Lemma frame_d_sum d (N : nat -> Z) m a b : (b < m)%nat -> fsum (map (frame_d d N a b) (seq 0 m)) = (fsum (map d (seq 0 m)) - of_Z q (N a))%Fq.
Proof.
  intros Hb. rewrite <- (fsum_pick m (of_Z q (N a)) b Hb), <- fsum_map_sub. apply (f_equal fsum). apply map_ext. intros i. unfold frame_d.
  destruct (i =? b)%nat; [reflexivity|]. ring.
Qed.
Lemma fsub_self_0 (x y : F) : (x - y)%Fq = x -> y = f0.
Proof. intros H. transitivity (x - (x - y))%Fq; [ring|]. rewrite H. ring. Qed.
Lemma local_sig_eqn kk sg mz (R y : pt C) l : Ecdsa.gg20_local_sig kk mz R sg y = Ok l ->
  smul (Ecdsa.ls_s l) R = padd (smul (of_Z q mz) (smul kk R)) (smul (Ecdsa.ls_r l) (smul sg R)).
Proof.
  unfold Ecdsa.gg20_local_sig. intros H. apply obind_ok in H. destruct H as (x & _ & H). injection H as <-. cbn [Ecdsa.ls_s Ecdsa.ls_r].
  apply dlog_inj. rewrite dlog_add, !dlog_smul. ring.
Qed.
Lemma phase7_total (ss : list F) Rds Ss (R : pt C) mz r : length Rds = length ss -> length Ss = length ss ->
  (forall i s Rd Si, nth_error ss i = Some s -> nth_error Rds i = Some Rd -> nth_error Ss i = Some Si -> smul s R = padd (smul mz Rd) (smul r Si)) ->
  smul (fsum ss) R = padd (smul mz (psum Rds)) (smul r (psum Ss)).
Proof.
  intros H1 H2 H. apply dlog_inj. rewrite dlog_add, !dlog_smul, !dlog_psum.
  revert Rds Ss H1 H2 H. induction ss as [|s ss IH]; intros [|Rd Rds] [|Si Ss] H1 H2 H; try discriminate; cbn [map fsum]; [ring|].
  pose proof (H 0%nat s Rd Si eq_refl eq_refl eq_refl) as E. apply (f_equal dlog) in E. rewrite dlog_add, !dlog_smul in E.
  assert (E2 := IH Rds Ss ltac:(injection H1; auto) ltac:(injection H2; auto) (fun i => H (S i))).
  transitivity (s * dlog R + fsum ss * dlog R)%Fq; [ring|]. rewrite E, E2. ring.
Qed.
End P.

Lemma sorted_filter_seq f a n : Sorted lt (filter f (seq a n)).
Proof.
  apply StronglySorted_Sorted. revert a. induction n as [|n IH]; intros a; cbn [seq filter]; [constructor|]. destruct (f a); [|apply IH]. constructor; [apply IH|].
  apply Forall_forall. intros x Hx. apply filter_In in Hx. destruct Hx as [Hx _]. apply in_seq in Hx. lia.
Qed.
Lemma omapM_noerr {E A B} (f : A -> outcome E B) l : (forall x, In x l -> forall e, f x <> Err e) -> forall e, omapM f l <> Err e.
Proof.
  induction l as [|a l IH]; intros H e; cbn [omapM]; [discriminate|]. pose proof (H a (or_introl eq_refl)) as Ha. destruct (f a) as [y|e'|]; cbn [obind]; [|exfalso; exact (Ha e' eq_refl)|discriminate].
  assert (IH' := IH (fun x Hx => H x (or_intror Hx))). destruct (omapM f l) as [ys|e'|]; cbn [obind]; [discriminate|exfalso; exact (IH' e' eq_refl)|discriminate].
Qed.
Lemma omapM_panic {E A B} (f : A -> outcome E B) l x : (forall x, In x l -> forall e, f x <> Err e) -> In x l -> f x = Panic -> omapM f l = Panic.
Proof.
  induction l as [|a l IH]; intros H Hx Hp; [destruct Hx|]. cbn [omapM]. pose proof (H a (or_introl eq_refl)) as Ha.
  destruct (f a) as [y|e'|] eqn:E1; cbn [obind]; [|exfalso; exact (Ha e' eq_refl)|reflexivity].
  destruct Hx as [->|Hx]; [congruence|]. rewrite IH; [reflexivity| |exact Hx|exact Hp]. intros z Hz. apply H. right. exact Hz.
Qed.
Lemma nth_o_noerr {E A} (l : list A) i e : nth_o (E := E) l i <> Err e.
Proof. unfold nth_o. destruct (nth_error l i); discriminate. Qed.
Lemma nth_o_out {E A} (l : list A) i : (length l <= i)%nat -> nth_o (E := E) l i = Panic.
Proof. intros H. unfold nth_o. rewrite (proj2 (nth_error_None l i) H). reflexivity. Qed.
(** The index of [i] in the list of the party at position [p <> i]. *)
Lemma ind_surj i p m : (i < m)%nat -> (p < m)%nat -> p <> i -> exists j, (j < m - 1)%nat /\ ind i j = p /\ ind2 i j = (if (p <? i)%nat then i - 1 else i)%nat.
Proof.
  intros Hi Hp Hne. exists (if (p <? i)%nat then p else p - 1)%nat. unfold ind, ind2. destruct (Nat.ltb_spec p i) as [L|L].
  - destruct (Nat.ltb_spec p i); lia.
  - destruct (Nat.ltb_spec (p - 1) i); lia.
Qed.
Lemma transpose_panic {C A} (f : local5 C -> list A) ls l : In l ls -> (length (f l) < length ls - 1)%nat -> transpose f ls = Panic.
Proof.
  intros Hl Hs. apply In_nth_error in Hl. destruct Hl as [p Hp]. assert (Hpm : (p < length ls)%nat) by (apply nth_error_Some; congruence).
  set (i := if (p =? length ls - 1)%nat then (length ls - 2)%nat else (length ls - 1)%nat).
  assert (Hi : (i < length ls)%nat /\ p <> i) by (unfold i; destruct (Nat.eqb_spec p (length ls - 1)); lia). destruct Hi as [Hi Hne].
  destruct (ind_surj i p (length ls) Hi Hpm Hne) as (j & Hj & E1 & E2).
  assert (NE : forall i j e, (let* l0 := nth_o (E := mp_error) ls (ind i j) in nth_o (f l0) (ind2 i j)) <> Err e).
  { intros i' j' e. unfold nth_o at 1. destruct (nth_error ls (ind i' j')); cbn [obind]; [apply nth_o_noerr|discriminate]. }
  unfold transpose. apply (omapM_panic _ _ i); [intros x _; apply omapM_noerr; intros y _; apply NE|apply in_seq; lia|].
  apply (omapM_panic _ _ j); [intros y _; apply NE|apply in_seq; lia|].
  unfold nth_o at 1. rewrite E1, Hp. cbn [obind]. apply nth_o_out. rewrite E2. unfold i. destruct (Nat.eqb_spec p (length ls - 1)).
  - destruct (Nat.ltb_spec p (length ls - 2)); lia.
  - destruct (Nat.ltb_spec p (length ls - 1)); lia.
Qed.
Lemma transpose_noerr {C A} (f : local5 C -> list A) ls e : transpose f ls <> Err e.
Proof.
  unfold transpose. apply omapM_noerr. intros i _. apply omapM_noerr. intros j _ e'. unfold nth_o at 1. destruct (nth_error ls (ind i j)); cbn [obind]; [apply nth_o_noerr|discriminate].
Qed.
Lemma short_opening_panics {C} Ns ds ggs mas mbs (ls : list (local5 C)) l : In l ls ->
  (length (l5_br l) < length ls - 1 \/ length (l5_bt l) < length ls - 1)%nat -> to_global5 Ns ds ggs mas mbs ls = Panic.
Proof.
  intros Hl [H|H]; unfold to_global5.
  - rewrite (transpose_panic l5_br ls l Hl H). reflexivity.
  - pose proof (transpose_noerr l5_br ls). destruct (transpose l5_br ls) as [x|e|]; cbn [obind]; [|exfalso; apply (H0 e); reflexivity|reflexivity].
    rewrite (transpose_panic l5_bt ls l Hl H). reflexivity.
Qed.
Lemma short_miu_panics {C} Ns Ss gws mas mbs (ls : list (local6 C)) l : In l ls ->
  (length (l6_miu l) < length ls - 1 \/ length (l6_mr l) < length ls - 1)%nat -> to_global6 Ns Ss gws mas mbs ls = Panic.
Proof.
  intros Hl H. assert (T : forall f : local6 C -> list Z, (length (f l) < length ls - 1)%nat ->
    omapM (E := mp_error) (fun l => omapM (fun j => nth_o (f l) j) (seq 0 (length ls - 1))) ls = Panic).
  { intros f Hs. apply (omapM_panic _ _ l); [intros x _; apply omapM_noerr; intros; apply nth_o_noerr|exact Hl|].
    apply (omapM_panic _ _ (length (f l))); [intros; apply nth_o_noerr|apply in_seq; lia|]. apply nth_o_out. lia. }
  assert (NE : forall (f : local6 C -> list Z) e, omapM (E := mp_error) (fun l => omapM (fun j => nth_o (f l) j) (seq 0 (length ls - 1))) ls <> Err e).
  { intros f. apply omapM_noerr. intros x _. apply omapM_noerr. intros; apply nth_o_noerr. }
  unfold to_global6. pose proof (NE l6_mr) as NE1. destruct H as [H|H].
  - destruct (omapM _ ls) as [x|e|] eqn:E1; cbn [obind]; [|exfalso; apply (NE1 e); reflexivity|reflexivity]. rewrite (T l6_miu H). reflexivity.
  - rewrite (T l6_mr H). reflexivity.
Qed.

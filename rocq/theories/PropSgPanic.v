(** C66 at the level of the signing machine: everything that can make it panic.  Histories as in PropSM.v. *)
From Coq Require Import ZArith Lia Bool List.
From Verif Require Import ZArithX ZPow Fq Curve Toy Outcome Sigma Bytes Vss VssProofs Paillier PaillierProofs RangeProofs RangeProofsProofs RangeExtra Pdl PdlSlack PdlSlackProofs Mta Ecdsa Mp MpProofs Gg20Keygen KeygenRun Gg20Sign SignRun SignProofs SignRunProofs Blame Stores RoundSM SmSpec SmProofs KeygenSM SignSM SmSim SmTheory SmFacts SmTags SmPanic SmCause SmCauseSg Network PropRange PropExtract PropSmNew PropSign PropSM PropNetwork PropPanic PropKgPanic PropFixed.
Import ListNotations.
Local Open Scope nat_scope.

(** ** Where a panic comes from *)
Lemma obind_panic {E A B} (x : outcome E A) (f : A -> outcome E B) : obind x f = Panic -> x = Panic \/ exists a, x = Ok a /\ f a = Panic.
Proof. destruct x as [a|e|]; cbn [obind]; intros H; [right; exists a; auto|discriminate|left; reflexivity]. Qed.
Lemma omapM_panic {E A B} (f : A -> outcome E B) l : omapM f l = Panic -> exists x, In x l /\ f x = Panic.
Proof.
  induction l as [|a l IH]; cbn [omapM]; intros H; [discriminate|]. apply obind_panic in H. destruct H as [H|[b [_ H]]]; [exists a; split; [left; reflexivity|exact H]|].
  apply obind_panic in H. destruct H as [H|[r [_ H]]]; [|discriminate]. destruct (IH H) as [x [X1 X2]]. exists x. split; [right; exact X1|exact X2].
Qed.
Lemma first_bad_at_panic {E A} (f : nat * A -> outcome E bool) l : first_bad_at f l = Panic -> exists x, In x l /\ f x = Panic.
Proof.
  induction l as [|a l IH]; cbn [first_bad_at]; intros H; [discriminate|]. apply obind_panic in H. destruct H as [H|[b [_ H]]]; [exists a; split; [left; reflexivity|exact H]|].
  destruct b; [|discriminate]. destruct (IH H) as [x [X1 X2]]. exists x. split; [right; exact X1|exact X2].
Qed.
Lemma nth_o_panic {E A} (l : list A) q : nth_o (E := E) l q = Panic -> length l <= q.
Proof. unfold nth_o. intros H. destruct (nth_error l q) eqn:N; [discriminate|]. apply nth_error_None. exact N. Qed.
Lemma oassert_panic {E} b : (oassert b : outcome E unit) = Panic -> b = false.
Proof. destruct b; [discriminate|reflexivity]. Qed.
Lemma omap_err_panic {E E' A} (f : E -> E') (x : outcome E A) : omap_err f x = Panic -> x = Panic.
Proof. destruct x; cbn; intros H; [discriminate|discriminate|reflexivity]. Qed.
Lemma in_with_ind {A} k (l : list A) x : In x (with_ind k l) -> exists q, nth_error l q = Some (snd x) /\ fst x = ind k q.
Proof.
  intros X. apply In_nth_error in X. destruct X as [q X]. destruct x as [a b]. unfold with_ind in X. apply nth_error_combine in X. destruct X as [X1 X2].
  exists q. split; [exact X2|]. cbn [fst]. rewrite nth_error_map in X1. destruct (nth_error (seq 0 (length l)) q) as [q'|] eqn:S; [|discriminate]. injection X1 as <-.
  assert (L : q < length l) by (apply nth_error_Some; congruence). rewrite nth_error_nth' with (d := 0) in S by (rewrite seq_length; exact L). injection S as <-. rewrite seq_nth by exact L. reflexivity.
Qed.
Lemma ind_lt k q m : k < m -> q < m - 1 -> ind k q < m.
Proof. unfold ind. destruct (Nat.ltb_spec q k); lia. Qed.
Lemma ind_neq k q : ind k q <> k.
Proof. unfold ind. destruct (Nat.ltb_spec q k); lia. Qed.
Lemma is_ind k x m : k < m -> x < m -> x <> k -> exists q, q < m - 1 /\ x = ind k q.
Proof.
  intros K L N. unfold ind. destruct (Nat.lt_ge_cases x k); [exists x|exists (x - 1)]; [destruct (Nat.ltb_spec x k)|destruct (Nat.ltb_spec (x - 1) k)]; lia.
Qed.
Lemma peers_ind me n q : 1 <= me <= n -> q < n - 1 -> nth_error (peers me n) q = Some (S (ind (me - 1) q)).
Proof.
  intros I L. rewrite peers_eq by exact I. unfold ind. destruct (Nat.ltb_spec q (me - 1)) as [Q|Q].
  - rewrite nth_error_app1 by (rewrite seq_length; exact Q). rewrite nth_error_nth' with (d := 0) by (rewrite seq_length; exact Q). rewrite seq_nth by exact Q. reflexivity.
  - rewrite nth_error_app2 by (rewrite seq_length; exact Q). rewrite seq_length. rewrite nth_error_nth' with (d := 0) by (rewrite seq_length; lia). rewrite seq_nth by lia. f_equal. lia.
Qed.
Lemma verify_all_panic (C : Curve) (Hz : hashZ C) c N ps sts : verify_all Hz c N ps sts = Panic -> exists p st, In p ps /\ In st sts /\ alice_verify Hz p c N st = Panic.
Proof.
  revert sts. induction ps as [|p ps IH]; intros [|st sts] H; cbn [verify_all] in H; try discriminate. apply obind_panic in H. destruct H as [H|[ok [_ H]]].
  - exists p, st. split; [left; reflexivity|]. split; [left; reflexivity|exact H].
  - destruct ok; [|discriminate]. destruct (IH sts H) as [p' [st' [P1 [P2 P3]]]]. exists p', st'. split; [right; exact P1|]. split; [right; exact P2|exact P3].
Qed.
Lemma mta_b_panic (C : Curve) (Hz : hashZ C) Hf b N ma r bt sts t1 t2 : mta_b Hz Hf b N ma r bt sts t1 t2 = Panic ->
  exists p st, In p (ma_proofs ma) /\ In st sts /\ alice_verify Hz p (ma_c ma) N st = Panic.
Proof.
  unfold mta_b. destruct (negb _); [discriminate|]. intros H. apply obind_panic in H. destruct H as [H|[ok [_ H]]]; [exact (verify_all_panic C Hz _ _ _ _ H)|].
  destruct (negb ok); discriminate.
Qed.
Lemma unit_z (C : Curve) (Hz : hashZ C) x r st al be rho ga p : good_pst C st -> pdls_prove Hz x r st al be rho ga = Ok p -> (0 <= rho)%Z -> Z.gcd (pp_z p) (ps_Nt st) = 1%Z.
Proof.
  intros (G1 & G2 & G3 & G4) H Hr. unfold pdls_prove in H. apply obind_ok in H. destruct H as [z [Z0 H]]. apply unwrap_ok in Z0.
  assert (EP : pp_z p = z).
  { apply obind_ok in H. destruct H as [u2 [_ H]]. apply obind_ok in H. destruct H as [u3 [_ H]]. apply obind_ok in H. destruct H as [s2 [_ H]]. injection H as <-. reflexivity. }
  rewrite EP. assert (Hx : (0 <= to_Z x)%Z) by apply (to_Z_range (cq_prime C)).
  rewrite cuo_spec in Z0 by (assumption || (left; assumption)). injection Z0 as <-. rewrite !zpow_nonneg by assumption.
  assert (M : forall a, Z.gcd a (ps_Nt st) = 1%Z -> Z.gcd (a mod ps_Nt st) (ps_Nt st) = 1%Z) by (intros a A; rewrite <- A; rewrite Z.gcd_mod, Z.gcd_comm by lia; reflexivity).
  apply M, gcd_mul; apply M, gcd_pow; assumption.
Qed.

Section Sg.
Context (C : Curve).
Context (Hb : list Z -> Z) (Hz : hashZ C) (Hf : hashF C) (rd : sign_rand C).
Notation M := (sg_msg C).
Notation opf := (sg_op C Hb Hz Hf rd).
Notation hist := (sg_hist C Hb Hz Hf rd).
Notation of := (sg_of C).
Notation p2p := sg_p2p.
Context (i : nat) (sl : list nat) (lk : local_key C).
Notation n := (length sl).
Notation P := (sgp C Hb Hz Hf rd i n).
Notation D0 := (SR0 i sl lk : sg_st C).
Notation step := (sg_step C Hb Hz Hf rd).
Notation inb := (inbox of p2p i n).
Notation got := (SmSpec.got of p2p i).

(** The Paillier modulus the key file has for the signer at position j *)
Definition modulus (j : nat) (N : Z) : Prop := exists k, nth_error sl (j - 1) = Some k /\ nth_error (lk_N lk) (k - 1) = Some N.
(** The public point of that signer's additive share *)
Definition share_point (j : nat) (W : pt C) : Prop := exists k li X,
  nth_error sl (j - 1) = Some k /\ map_share (E := mp_error) (vs_n (lk_vss lk)) (k - 1) (map pred sl) = Ok li /\ nth_error (lk_pk lk) (k - 1) = Some X /\ W = smul li X.

(** The key file is complete and belongs to this signer, and the sampled values are in their domains. *)
Definition key_fits : Prop :=
  vs_n (lk_vss lk) = lk_n lk /\ (Z.of_nat (lk_n lk) < cq C)%Z /\ length (lk_pk lk) = lk_n lk /\ length (lk_N lk) = lk_n lk /\ length (lk_dl lk) = lk_n lk /\
  Forall (fun N => (1 < N)%Z) (lk_N lk) /\ Forall good_st (lk_dl lk) /\ nth_error sl (i - 1) = Some (lk_i lk) /\
  (forall N, nth_error (lk_N lk) (lk_i lk - 1) = Some N -> Z.gcd (sr_r rd) N = 1%Z) /\ (forall j, prand_ok (sr_pdl rd j)).

(** What another signer can have sent to make the machine panic *)
Definition bad_range_proof (h : list (op M)) : Prop := exists j ma com N st p,
  In j (peers i n) /\ got h 1 j = Some (SM1 (ma, com)) /\ modulus j N /\ In st (lk_dl lk) /\ In p (ma_proofs ma) /\
  (ap_e p < 0)%Z /\ (Z.gcd (ap_z p) (dl_N st) <> 1%Z \/ Z.gcd (ma_c ma) (N * N) <> 1%Z).
Definition bad_ciphertext (h : list (op M)) : Prop := exists j ma com N,
  In j (peers i n) /\ got h 1 j = Some (SM1 (ma, com)) /\ modulus j N /\ Z.gcd (ma_c ma) (N * N) <> 1%Z.
Definition bad_share_point (h : list (op M)) : Prop := exists j g w W,
  In j (peers i n) /\ got h 2 j = Some (SM2 (g, w)) /\ share_point j W /\ dp_pk (mb_b w) <> W.
Definition bad_pedersen_point (h : list (op M)) : Prop := exists j delta T p,
  In j (peers i n) /\ got h 3 j = Some (SM3 (delta, T, p)) /\ T <> pe_com p.
Definition zero_delta (h : list (op M)) (sent : list (msg M)) : Prop := exists m delta T p ms,
  In m sent /\ m_body m = SM3 (delta, T, p) /\ all_some (map (got h 3) (peers i n)) = Some (map SM3 ms) /\ fadd delta (fsum (map (fun x => fst (fst x)) ms)) = f0.
Definition bad_pdl_proof (h : list (op M)) : Prop := exists j R ps p st,
  In j (peers i n) /\ got h 5 j = Some (SM5 (R, ps)) /\ In p ps /\ In st (lk_dl lk) /\ Z.gcd (pp_z p) (dl_N st) <> 1%Z.

Section Fits.
Context (HHz : forall l, (0 <= Hz l)%Z) (KF : key_fits) (I : 1 <= i <= n) (SR : Forall (fun j => 1 <= j <= lk_n lk) sl).

Lemma idx_lt q k : nth_error sl q = Some k -> 1 <= k <= lk_n lk.
Proof. intros H. rewrite Forall_forall in SR. apply SR. exact (nth_error_In _ _ H). Qed.
Lemma sl_some q : q < n -> exists k, nth_error sl q = Some k.
Proof. intros L. destruct (nth_error sl q) as [k|] eqn:E; [exists k; reflexivity|]. apply nth_error_None in E. lia. Qed.
Lemma ls_nth q k : nth_error (l_s sl) q = Some k <-> exists k', nth_error sl q = Some k' /\ k = k' - 1.
Proof.
  unfold l_s. rewrite nth_error_map. destruct (nth_error sl q) as [k'|]; cbn [option_map]; split.
  - intros H. injection H as <-. exists k'. split; [reflexivity|lia].
  - intros [k1 [H ->]]. injection H as ->. f_equal. lia.
  - discriminate.
  - intros [k1 [H _]]. discriminate.
Qed.
Lemma ls_len : length (l_s sl) = n.
Proof. apply map_length. Qed.
Lemma ls_lt q k : nth_error (l_s sl) q = Some k -> k < lk_n lk.
Proof. intros H. apply ls_nth in H. destruct H as [k' [H ->]]. apply idx_lt in H. lia. Qed.
Lemma N_ok k N : nth_error (lk_N lk) k = Some N -> (1 < N)%Z.
Proof. intros H. destruct KF as (_ & _ & _ & _ & _ & F & _). rewrite Forall_forall in F. exact (F _ (nth_error_In _ _ H)). Qed.
Lemma dl_ok st : In st (lk_dl lk) -> good_st st.
Proof. intros H. destruct KF as (_ & _ & _ & _ & _ & _ & F & _). rewrite Forall_forall in F. exact (F _ H). Qed.
Lemma share_ok k : k < lk_n lk -> exists li, map_share (E := mp_error) (C := C) (vs_n (lk_vss lk)) k (l_s sl) = Ok li.
Proof.
  intros K. destruct KF as (E & Q & _). rewrite E. eexists. apply map_share_ok; [exact Q|exact K|]. intros x X. apply In_nth_error in X. destruct X as [q X]. exact (ls_lt q x X).
Qed.

(** The machine's own first message *)
Definition own_ma (ma : msg_a) : Prop := forall N, modulus i N -> Z.gcd (ma_c ma) (N * N) = 1%Z.
Definition mas_of (h : list (op M)) (own : msg_a) (mas : list msg_a) : Prop := exists ms, inb h 1 = Some (map SM1 ms) /\ mas = incl_me (i - 1) own (map fst ms).
Definition sg_shape (h : list (op M)) (k : nat) (d : sg_st C) : Prop :=
  match k, d with
  | 0, SR0 i' sl' lk' => i' = i /\ sl' = sl /\ lk' = lk
  | 1, SR1 r => s1_i r = i /\ s1_sl r = sl /\ s1_lk r = lk /\ own_ma (s1_ma r)
  | 2, SR2 r => s2_i r = i /\ s2_sl r = sl /\ s2_lk r = lk /\ own_ma (s2_ma r) /\ mas_of h (s2_ma r) (s2_mas r) /\
                length (s2_betas r) = n - 1 /\ length (s2_nis r) = n - 1 /\ length (s2_coms r) = n
  | 3, SR3 r => s3_i r = i /\ s3_sl r = sl /\ s3_lk r = lk /\ own_ma (s3_ma r) /\ mas_of h (s3_ma r) (s3_mas r) /\
                length (s3_mbs r) = n - 1 /\ length (s3_coms r) = n /\ s3_t r = pe_com (s3_tp r)
  | 4, SR4 r => s4_i r = i /\ s4_sl r = sl /\ s4_lk r = lk /\ own_ma (s4_ma r) /\ mas_of h (s4_ma r) (s4_mas r) /\
                length (s4_mbs r) = n - 1 /\ length (s4_coms r) = n /\ length (s4_ts r) = n
  | 5, SR5 r => s5_i r = i /\ s5_sl r = sl /\ s5_lk r = lk /\ (exists own, own_ma own /\ mas_of h own (s5_mas r)) /\ length (s5_ts r) = n /\
                forall q p, nth_error (s5_pdl r) q = Some p -> exists k dl, nth_error (l_s sl) (ind (i - 1) q) = Some k /\ nth_error (lk_dl lk) k = Some dl /\ Z.gcd (pp_z p) (dl_N dl) = 1%Z
  | 6, SR6 r => s6_sl r = sl /\ co_i (s6_out r) = i /\ length (co_ts (s6_out r)) = n
  | 7, SFinished _ => True
  | _, _ => False
  end.
Lemma un_map {A} (un : M -> outcome mp_error A) (con : A -> M) l ms : (forall x a, un x = Ok a <-> x = con a) -> (omapM un l = Ok ms <-> l = map con ms).
Proof.
  intros U. split.
  - revert ms. induction l as [|x l IH]; intros ms H; cbn [omapM] in H; [injection H as <-; reflexivity|]. apply obind_ok in H. destruct H as [b [H0 H]]. apply obind_ok in H. destruct H as [r [H1 H]]. injection H as <-.
    apply U in H0. subst x. cbn [map]. rewrite <- (IH r H1). reflexivity.
  - intros ->. induction ms as [|a ms IH]; [reflexivity|]. cbn [map omapM]. rewrite (proj2 (U (con a) a) eq_refl). cbn [obind]. rewrite IH. reflexivity.
Qed.
Lemma sun1_map l ms : omapM (sun1 C) l = Ok ms <-> l = map SM1 ms.
Proof. apply un_map. intros [x|x|x|x|x|x] a; cbn [sun1]; split; intros H; try discriminate; injection H as ->; reflexivity. Qed.
Lemma sun2_map l ms : omapM (sun2 C) l = Ok ms <-> l = map SM2 ms.
Proof. apply un_map. intros [x|x|x|x|x|x] a; cbn [sun2]; split; intros H; try discriminate; injection H as ->; reflexivity. Qed.
Lemma sun3_map l ms : omapM (sun3 C) l = Ok ms <-> l = map SM3 ms.
Proof. apply un_map. intros [x|x|x|x|x|x] a; cbn [sun3]; split; intros H; try discriminate; injection H as ->; reflexivity. Qed.
Lemma sun4_map l ms : omapM (sun4 C) l = Ok ms <-> l = map SM4 ms.
Proof. apply un_map. intros [x|x|x|x|x|x] a; cbn [sun4]; split; intros H; try discriminate; injection H as ->; reflexivity. Qed.
Lemma sun5_map l ms : omapM (sun5 C) l = Ok ms <-> l = map SM5 ms.
Proof. apply un_map. intros [x|x|x|x|x|x] a; cbn [sun5]; split; intros H; try discriminate; injection H as ->; reflexivity. Qed.
Lemma sun6_map l ms : omapM (sun6 C) l = Ok ms <-> l = map SM6 ms.
Proof. apply un_map. intros [x|x|x|x|x|x] a; cbn [sun6]; split; intros H; try discriminate; injection H as ->; reflexivity. Qed.
(** The messages of a complete round are of that round, one from every other signer. *)
Lemma inb_got h k l q b : 0 < k -> inb h k = Some l -> nth_error l q = Some b -> got h k (S (ind (i - 1) q)) = Some b /\ In (S (ind (i - 1) q)) (peers i n) /\ of b = k.
Proof.
  intros K H N. pose proof (sg_inbox_len C i sl h k l I K H) as LL. unfold inbox in H. destruct (Nat.eqb_spec k 0) as [Z|_]; [lia|]. pose proof (all_some_nth _ _ _ _ H N) as Q. rewrite nth_error_map in Q.
  assert (L : q < n - 1) by (assert (q < length l) by (apply nth_error_Some; congruence); lia). rewrite (peers_ind i n q I L) in Q. cbn [option_map] in Q. injection Q as Q. split; [exact Q|].
  split; [exact (nth_error_In _ _ (peers_ind i n q I L))|]. unfold SmSpec.got in Q. destruct (find (proper of p2p i k (S (ind (i - 1) q))) (deliveries h)) as [m|] eqn:F; [|discriminate]. injection Q as <-.
  apply find_some in F. destruct F as [_ F]. unfold proper in F. apply andb_true_iff in F. destruct F as [F _]. apply andb_true_iff in F. destruct F as [F _]. apply Nat.eqb_eq. exact F.
Qed.
Lemma inb_un {A} (un : M -> outcome mp_error A) h k l : 0 < k -> inb h k = Some l -> (forall b, of b = k -> exists a, un b = Ok a) -> exists ms, omapM un l = Ok ms.
Proof.
  intros K H U. apply omapM_tot. intros x X. apply In_nth_error in X. destruct X as [q X]. destruct (inb_got h k l q x K H X) as (_ & _ & O). exact (U x O).
Qed.
Lemma own_modulus : exists N, modulus i N /\ nth_error (lk_N lk) (lk_i lk - 1) = Some N.
Proof.
  destruct KF as (_ & _ & _ & LN & _ & _ & _ & E & _). pose proof (idx_lt _ _ E) as L. destruct (nth_error (lk_N lk) (lk_i lk - 1)) as [N|] eqn:Q; [|apply nth_error_None in Q; lia].
  exists N. split; [exists (lk_i lk); auto|reflexivity].
Qed.
Lemma sg_shape_runs h k d out : runs step D0 (inb h) k d out -> sg_shape h k d.
Proof.
  intros R. induction R as [|k d out l d' o R IH IN S]; [cbn; auto|].
  destruct k as [|[|[|[|[|[|[|[|k]]]]]]]]; destruct d as [i' sl' lk'|r|r|r|r|r|r|x|]; cbn [sg_shape] in IH; try contradiction; cbn [sg_step] in S; try discriminate.
  - destruct IH as (-> & -> & ->). apply obind_ok in S. destruct S as [x [S1 S2]]. injection S2 as <- _. unfold sg_r0 in S1. apply obind_ok in S1. destruct S1 as [me [_ S1]]. apply obind_ok in S1. destruct S1 as [keys [_ S1]].
    destruct (sg_phase1 _ _ _) as [com dec]. apply obind_ok in S1. destruct S1 as [N [SN S1]]. injection S1 as <-. cbn [fst sg_shape s1_i s1_sl s1_lk s1_ma]. split; [reflexivity|]. split; [reflexivity|]. split; [reflexivity|].
    intros N' [k [E1 E2]]. pose proof KF as (_ & _ & _ & _ & _ & _ & _ & E & G & _). rewrite E in E1. injection E1 as <-. apply nth_o_ok in SN. rewrite SN in E2. injection E2 as <-.
    cbn [mta_a ma_c]. apply (is_enc_gcd _ _ (to_Z (sg_k keys))); [exact (N_ok _ _ SN)|]. apply enc_is_enc; [exact (N_ok _ _ SN)|exact (G N SN)].
  - destruct IH as (A1 & A2 & A3 & A4). apply obind_ok in S. destruct S as [ms [S0 S]]. apply sun1_map in S0. subst l. apply obind_ok in S. destruct S as [x [S1 S2]]. injection S2 as <- _.
    pose proof (sg_inbox_len C i sl h 1 _ I ltac:(lia) IN) as LL. rewrite map_length in LL.
    unfold sg_r1 in S1. cbv zeta in S1. apply obind_ok in S1. destruct S1 as [u [_ S1]]. apply obind_ok in S1. destruct S1 as [bs [B S1]]. injection S1 as <-. apply omapM_len in B. rewrite seq_length, A2 in B.
    cbn [fst sg_shape s2_i s2_sl s2_lk s2_ma s2_mas s2_betas s2_nis s2_coms]. rewrite !map_length, incl_me_length, A1. repeat split; auto; try lia. exists ms. split; [exact IN|]. rewrite map_incl_me. reflexivity.
  - destruct IH as (A1 & A2 & A3 & A4 & A5 & A6 & A7 & A8). apply obind_ok in S. destruct S as [ms [S0 S]]. apply sun2_map in S0. subst l. apply obind_ok in S. destruct S as [x [S1 S2]]. injection S2 as <- _.
    pose proof (sg_inbox_len C i sl h 2 _ I ltac:(lia) IN) as LL. rewrite map_length in LL.
    unfold sg_r2 in S1. apply obind_ok in S1. destruct S1 as [g [_ S1]]. apply obind_ok in S1. destruct S1 as [am [_ S1]]. apply obind_ok in S1. destruct S1 as [de [_ S1]]. apply obind_ok in S1. destruct S1 as [si [_ S1]].
    destruct (sg_t _ _ _ _) as [t tp] eqn:T. injection S1 as <-. cbn [fst sg_shape s3_i s3_sl s3_lk s3_ma s3_mas s3_mbs s3_coms s3_t s3_tp]. rewrite map_length. repeat split; auto; try lia. unfold sg_t in T. injection T as <- <-. reflexivity.
  - destruct IH as (A1 & A2 & A3 & A4 & A5 & A6 & A7 & A8). apply obind_ok in S. destruct S as [ms [S0 S]]. apply sun3_map in S0. subst l. apply obind_ok in S. destruct S as [x [S1 S2]]. injection S2 as <- _.
    pose proof (sg_inbox_len C i sl h 3 _ I ltac:(lia) IN) as LL. rewrite map_length in LL.
    unfold sg_r3 in S1. apply obind_ok in S1. destruct S1 as [u1 [_ S1]]. apply obind_ok in S1. destruct S1 as [u2 [_ S1]]. apply obind_ok in S1. destruct S1 as [u3 [_ S1]]. injection S1 as <-.
    cbn [fst sg_shape s4_i s4_sl s4_lk s4_ma s4_mas s4_mbs s4_coms s4_ts]. rewrite map_length, incl_me_length. repeat split; auto; lia.
  - destruct IH as (A1 & A2 & A3 & A4 & A5 & A6 & A7 & A8). apply obind_ok in S. destruct S as [ms [S0 S]]. apply sun4_map in S0. subst l. apply obind_ok in S. destruct S as [x [S1 S2]]. injection S2 as <- _.
    unfold sg_r4 in S1. apply obind_ok in S1. destruct S1 as [bp [_ S1]]. apply obind_ok in S1. destruct S1 as [R0 [_ S1]]. apply obind_ok in S1. destruct S1 as [pdl [PD S1]]. injection S1 as <-.
    cbn [fst sg_shape s5_i s5_sl s5_lk s5_mas s5_ts s5_pdl]. split; [exact A1|]. split; [exact A2|]. split; [exact A3|]. split; [exists (s4_ma r); auto|]. split; [exact A8|].
    intros q p Q. destruct (omapM_nth_ok _ _ _ _ _ PD Q) as [j [J F]]. assert (JQ : j = q).
    { assert (L : q < length (seq 0 (length (s4_sl r) - 1))) by (apply nth_error_Some; congruence). rewrite nth_error_nth' with (d := 0) in J by exact L. rewrite seq_length in L. rewrite seq_nth in J by exact L. injection J as <-. reflexivity. }
    subst j. clear J. rewrite A1, A2, A3 in F. apply obind_ok in F. destruct F as [me [_ F]]. apply obind_ok in F. destruct F as [N [FN F]]. apply obind_ok in F. destruct F as [k [FK F]]. apply obind_ok in F. destruct F as [dl [FD F]].
    apply nth_o_ok in FN, FK, FD. exists k, dl. split; [exact FK|]. split; [exact FD|]. unfold sg_pdl in F. destruct (pdls_prove _ _ _ _ _ _ _ _) as [y|e|] eqn:PP in F; [|discriminate|discriminate]. injection F as <-.
    destruct KF as (_ & _ & _ & _ & _ & _ & _ & _ & _ & PR). destruct (PR (ind (i - 1) q)) as (_ & _ & Hr & _). destruct (dl_ok dl (nth_error_In _ _ FD)) as (D1 & D2 & D3).
    match type of PP with pdls_prove _ _ _ ?st _ _ _ _ = _ => change (dl_N dl) with (ps_Nt st) end.
    refine (unit_z C Hz _ _ _ _ _ _ _ y _ PP Hr). unfold good_pst, sg_pdl_stmt. cbn. split; [exact (N_ok _ _ FN)|auto].
  - destruct IH as (A1 & A2 & A3 & A4 & A5 & A6). apply obind_ok in S. destruct S as [ms [S0 S]]. apply obind_ok in S. destruct S as [x [S1 S2]]. injection S2 as <- _.
    unfold sg_r5 in S1. apply obind_ok in S1. destruct S1 as [u1 [_ S1]]. apply obind_ok in S1. destruct S1 as [u2 [_ S1]]. destruct (sg_S _ _ _ _ _ _ _) as [Si pp]. injection S1 as <-.
    cbn [fst sg_shape s6_sl s6_out co_i co_ts]. auto.
  - apply obind_ok in S. destruct S as [ms [S0 S]]. apply obind_ok in S. destruct S as [x [S1 S2]]. injection S2 as <- _. exact Logic.I.
Qed.
(** Positions in the list of all signers' messages *)
Lemma all_slot {A} (own : A) l q : S (length l) = n -> q < n - 1 -> nth_error (incl_me (i - 1) own l) (ind (i - 1) q) = nth_error l q.
Proof. intros L Q. apply incl_me_slot. lia. Qed.
Lemma msg_at {A} (con : A -> M) h k ms q a : 0 < k -> inb h k = Some (map con ms) -> nth_error ms q = Some a -> got h k (S (ind (i - 1) q)) = Some (con a) /\ In (S (ind (i - 1) q)) (peers i n).
Proof.
  intros K H N. destruct (inb_got h k (map con ms) q (con a) K H) as (G & J & _); [rewrite nth_error_map, N; reflexivity|]. auto.
Qed.
Lemma modulus_at q k N : nth_error (l_s sl) q = Some k -> nth_error (lk_N lk) k = Some N -> modulus (S q) N.
Proof. intros A B. apply ls_nth in A. destruct A as [k' [A ->]]. exists k'. replace (S q - 1) with q by lia. auto. Qed.

Lemma step0_total h l : inb h 0 = Some l -> step 0 D0 l <> Panic.
Proof.
  intros _ H. cbn [sg_step] in H. apply obind_panic in H. destruct H as [H|[x [_ H]]]; [|discriminate]. unfold sg_r0 in H.
  pose proof KF as (_ & _ & _ & LN & _ & _ & _ & E & _). pose proof (idx_lt _ _ E) as LI.
  rewrite (proj2 (nth_o_ok _ _ _) E) in H. cbn [obind] in H. apply obind_panic in H. destruct H as [H|[keys [_ H]]].
  - unfold sg_create in H. destruct (share_ok (lk_i lk - 1)) as [li L]; [lia|]. rewrite L in H. discriminate.
  - destruct (sg_phase1 _ _ _). apply obind_panic in H. destruct H as [H|[N [_ H]]]; [|discriminate]. apply nth_o_panic in H. lia.
Qed.
Lemma step1_panic h r l : sg_shape h 1 (SR1 r) -> inb h 1 = Some l -> step 1 (SR1 r) l = Panic -> bad_range_proof h.
Proof.
  intros (A1 & A2 & A3 & A4) IN H. pose proof KF as (_ & _ & _ & LN & LD & _). cbn [sg_step] in H. apply obind_panic in H. destruct H as [H|[ms [MS H]]].
  { destruct (inb_un (sun1 C) h 1 l ltac:(lia) IN) as [ms MS]; [|congruence]. intros [x|x|x|x|x|x] O; try discriminate. exists x. reflexivity. }
  apply sun1_map in MS. subst l. pose proof (sg_inbox_len C i sl h 1 _ I ltac:(lia) IN) as LL. rewrite map_length in LL.
  apply obind_panic in H. destruct H as [H|[x [_ H]]]; [|discriminate]. unfold sg_r1 in H. cbv zeta in H. rewrite A1, A2, A3 in H.
  apply obind_panic in H. destruct H as [H|[u [_ H]]]; [apply oassert_panic, Nat.ltb_ge in H; lia|]. apply obind_panic in H. destruct H as [H|[bs [_ H]]]; [|discriminate].
  apply omapM_panic in H. destruct H as [q [Q H]]. apply in_seq in Q. assert (QL : q < n - 1) by lia. pose proof (ind_lt (i - 1) q n ltac:(lia) QL) as IL.
  apply obind_panic in H. destruct H as [H|[k [K H]]]; [apply nth_o_panic in H; rewrite ls_len in H; lia|]. apply nth_o_ok in K. pose proof (ls_lt _ _ K) as KL.
  apply obind_panic in H. destruct H as [H|[N [NN H]]]; [apply nth_o_panic in H; lia|]. apply nth_o_ok in NN.
  apply obind_panic in H. destruct H as [H|[ma [MA H]]]; [apply nth_o_panic in H; rewrite map_length, incl_me_length in H; lia|]. apply nth_o_ok in MA.
  rewrite map_incl_me, all_slot in MA by (rewrite ?map_length; lia). rewrite nth_error_map in MA. destruct (nth_error ms q) as [[ma' com]|] eqn:MQ; [|discriminate]. cbn [option_map fst] in MA. injection MA as ->.
  destruct (msg_at SM1 h 1 ms q _ ltac:(lia) IN MQ) as [G J].
  assert (B : forall b br, sg_b Hz Hf b N ma br (lk_dl lk) = Panic -> bad_range_proof h).
  { intros b br B. unfold sg_b in B. apply omap_err_panic in B. apply mta_b_panic in B. destruct B as [p [st [P1 [P2 P3]]]]. apply alice_panic_iff in P3; [|exact (N_ok _ _ NN)|exact (dl_ok st P2)]. destruct P3 as (_ & P4 & P5).
    exists (S (ind (i - 1) q)), ma, com, N, st, p. split; [exact J|]. split; [exact G|]. split; [exact (modulus_at _ _ _ K NN)|]. auto. }
  apply obind_panic in H. destruct H as [H|[g [_ H]]]; [exact (B _ _ H)|]. apply obind_panic in H. destruct H as [H|[w [_ H]]]; [exact (B _ _ H)|discriminate].
Qed.
Lemma step2_panic h r l : sg_shape h 2 (SR2 r) -> inb h 2 = Some l -> step 2 (SR2 r) l = Panic -> bad_share_point h.
Proof.
  intros (A1 & A2 & A3 & A4 & A5 & A6 & A7 & A8) IN H. pose proof KF as (VN & _ & LP & LN & LD & _). cbn [sg_step] in H. apply obind_panic in H. destruct H as [H|[ms [MS H]]].
  { destruct (inb_un (sun2 C) h 2 l ltac:(lia) IN) as [ms MS]; [|congruence]. intros [x|x|x|x|x|x] O; try discriminate. exists x. reflexivity. }
  apply sun2_map in MS. subst l. pose proof (sg_inbox_len C i sl h 2 _ I ltac:(lia) IN) as LL. rewrite map_length in LL.
  apply obind_panic in H. destruct H as [H|[x [_ H]]]; [|discriminate]. unfold sg_r2 in H. rewrite A1, A2, A3 in H.
  apply obind_panic in H. destruct H as [H|[gws [GW H]]].
  { exfalso. unfold sg_gw_vec in H. apply omapM_panic in H. destruct H as [k [K H]]. apply In_nth_error in K. destruct K as [q K]. apply ls_lt in K. destruct (share_ok k K) as [li L]. rewrite L in H. cbn [obind] in H.
    apply obind_panic in H. destruct H as [H|[y [_ H]]]; [apply nth_o_panic in H; lia|discriminate]. }
  apply obind_panic in H. destruct H as [H|[am [AM H]]].
  - apply omapM_panic in H. destruct H as [q [Q H]]. apply in_seq in Q. assert (QL : q < n - 1) by lia. pose proof (ind_lt (i - 1) q n ltac:(lia) QL) as IL.
    apply obind_panic in H. destruct H as [H|[[g w] [MB H]]]; [apply nth_o_panic in H; lia|]. apply nth_o_ok in MB.
    assert (AL : forall m, sg_alpha Hf m lk (sg_k (s2_keys r)) <> Panic).
    { intros m0 E. unfold sg_alpha in E. apply omap_err_panic in E. unfold verify_get_alpha in E. match type of E with context [if ?c then _ else _] => destruct c; discriminate end. }
    apply obind_panic in H. destruct H as [H|[al [_ H]]]; [exfalso; exact (AL _ H)|]. apply obind_panic in H. destruct H as [H|[mi [_ H]]]; [exfalso; exact (AL _ H)|].
    pose proof (omapM_len _ _ _ GW) as GL. rewrite ls_len in GL.
    apply obind_panic in H. destruct H as [H|[gw [NG H]]]; [apply nth_o_panic in H; lia|]. apply nth_o_ok in NG.
    apply obind_panic in H. destruct H as [H|[u [_ H]]]; [|discriminate]. apply oassert_panic in H.
    destruct (msg_at SM2 h 2 ms q _ ltac:(lia) IN MB) as [G J]. exists (S (ind (i - 1) q)), g, w, gw. split; [exact J|]. split; [exact G|]. split.
    + unfold sg_gw_vec in GW. destruct (omapM_nth_ok _ _ _ _ _ GW NG) as [k [K F]]. apply ls_nth in K. destruct K as [k' [K ->]]. apply obind_ok in F. destruct F as [li [F1 F]]. apply obind_ok in F. destruct F as [X [F2 F]]. injection F as <-. apply nth_o_ok in F2.
      exists k', li, X. replace (S (ind (i - 1) q) - 1) with (ind (i - 1) q) by lia. auto.
    + intros E. cbn [snd] in H. rewrite E, (proj2 (pt_eqb_eq _ _ _) eq_refl) in H. discriminate.
  - exfalso. apply omapM_len in AM. rewrite seq_length in AM. unfold sg_delta, sg_sigma in H. rewrite !map_length, AM, A6, A7, Nat.eqb_refl in H. cbn [oassert obind] in H. destruct (sg_t _ _ _ _ _); discriminate.
Qed.
Lemma step3_panic h r l : sg_shape h 3 (SR3 r) -> inb h 3 = Some l -> step 3 (SR3 r) l = Panic ->
  bad_pedersen_point h \/ exists ms, inb h 3 = Some (map SM3 ms) /\ fadd (s3_delta r) (fsum (map (fun x => fst (fst x)) ms)) = f0.
Proof.
  intros (A1 & A2 & A3 & A4 & A5 & A6 & A7 & A8) IN H. cbn [sg_step] in H. apply obind_panic in H. destruct H as [H|[ms [MS H]]].
  { destruct (inb_un (sun3 C) h 3 l ltac:(lia) IN) as [ms MS]; [|congruence]. intros [x|x|x|x|x|x] O; try discriminate. exists x. reflexivity. }
  apply sun3_map in MS. subst l. apply obind_panic in H. destruct H as [H|[x [_ H]]]; [|discriminate]. unfold sg_r3 in H. rewrite A1, A2 in H.
  apply obind_panic in H. destruct H as [H|[u [_ H]]].
  - left. apply omapM_panic in H. destruct H as [[[de T] p] [X H]]. apply oassert_panic in H. apply in_incl_me in X. destruct X as [X|X].
    + exfalso. injection X as -> -> ->. rewrite A8, (proj2 (pt_eqb_eq _ _ _) eq_refl) in H. discriminate.
    + apply In_nth_error in X. destruct X as [q X]. destruct (msg_at SM3 h 3 ms q _ ltac:(lia) IN X) as [G J]. exists (S (ind (i - 1) q)), de, T, p. split; [exact J|]. split; [exact G|].
      intros E. rewrite E, (proj2 (pt_eqb_eq _ _ _) eq_refl) in H. discriminate.
  - right. exists ms. split; [exact IN|]. apply obind_panic in H. destruct H as [H|[di [_ H]]].
    + unfold sg_delta_inv in H. rewrite map_incl_me in H. cbn [fst] in H. rewrite fold_incl in H. unfold finvert in H. destruct (feqb_spec (fadd (s3_delta r) (fsum (map (fun x => fst (fst x)) ms))) f0) as [E|_]; [exact E|discriminate].
    + apply obind_panic in H. destruct H as [H|[v [_ H]]]; [|discriminate]. apply omapM_panic in H. destruct H as [y [_ H]]. destruct (ped_verify Hf (snd y)); discriminate.
Qed.
Lemma step4_total h r l : sg_shape h 4 (SR4 r) -> inb h 4 = Some l -> step 4 (SR4 r) l <> Panic.
Proof.
  intros (A1 & A2 & A3 & A4 & A5 & A6 & A7 & A8) IN H. pose proof KF as (_ & _ & _ & LN & LD & _ & _ & E & _ & PR). cbn [sg_step] in H. apply obind_panic in H. destruct H as [H|[ms [MS H]]].
  { destruct (inb_un (sun4 C) h 4 l ltac:(lia) IN) as [ms MS]; [|congruence]. intros [x|x|x|x|x|x] O; try discriminate. exists x. reflexivity. }
  apply sun4_map in MS. subst l. pose proof (sg_inbox_len C i sl h 4 _ I ltac:(lia) IN) as LL. rewrite map_length in LL.
  apply obind_panic in H. destruct H as [H|[x [_ H]]]; [|discriminate]. unfold sg_r4 in H. rewrite A1, A2, A3 in H.
  apply obind_panic in H. destruct H as [H|[bps [BP H]]].
  { apply omapM_panic in H. destruct H as [q [Q H]]. apply in_seq in Q. apply obind_panic in H. destruct H as [H|[y [_ H]]]; [apply nth_o_panic in H; lia|discriminate]. }
  apply omapM_len in BP. rewrite seq_length in BP. apply obind_panic in H. destruct H as [H|[R0 [_ H]]].
  - unfold sg_phase4 in H. apply obind_panic in H. destruct H as [H|[bad [_ H]]].
    + apply first_bad_at_panic in H. destruct H as [[a p] [X H]]. apply in_with_ind in X. destruct X as [q [X1 X2]]. cbn [fst snd] in X1, X2. subst a. assert (QL : q < n - 1) by (rewrite <- BP; apply nth_error_Some; congruence).
      pose proof (ind_lt (i - 1) q n ltac:(lia) QL) as IL. unfold sg_check4 in H. apply obind_panic in H. destruct H as [H|[d [_ H]]]; [apply nth_o_panic in H; rewrite incl_me_length in H; lia|].
      destruct (pt_eqb (dp_pk p) (sd_g d)); [|discriminate]. apply obind_panic in H. destruct H as [H|[c [_ H]]]; [apply nth_o_panic in H; lia|discriminate].
    + destruct (incl_me (i - 1) (s4_dec r) ms) as [|d0 ds] eqn:EI; [apply (f_equal (@length _)) in EI; rewrite incl_me_length in EI; discriminate|]. destruct bad; discriminate.
  - apply obind_panic in H. destruct H as [H|[pdl [_ H]]]; [|discriminate]. apply omapM_panic in H. destruct H as [q [Q H]]. apply in_seq in Q. assert (QL : q < n - 1) by lia. pose proof (ind_lt (i - 1) q n ltac:(lia) QL) as IL.
    apply obind_panic in H. destruct H as [H|[me [ME H]]]; [apply nth_o_panic in H; rewrite ls_len in H; lia|]. apply nth_o_ok in ME. pose proof (ls_lt _ _ ME) as MEL.
    apply obind_panic in H. destruct H as [H|[N [NN H]]]; [apply nth_o_panic in H; lia|]. apply nth_o_ok in NN.
    apply obind_panic in H. destruct H as [H|[k [K H]]]; [apply nth_o_panic in H; rewrite ls_len in H; lia|]. apply nth_o_ok in K. pose proof (ls_lt _ _ K) as KL.
    apply obind_panic in H. destruct H as [H|[dl [DL H]]]; [apply nth_o_panic in H; lia|]. apply nth_o_ok in DL.
    unfold sg_pdl in H. destruct (PR (ind (i - 1) q)) as (P1 & P2 & P3 & P4). destruct (dl_ok dl (nth_error_In _ _ DL)) as (D1 & D2 & D3).
    match type of H with context [pdls_prove Hz ?x ?rr ?st ?a ?b ?c ?d] => destruct (pdls_prove_ok C Hz x rr st a b c d) as [y Y] end; [unfold good_pst, sg_pdl_stmt; cbn; split; [exact (N_ok _ _ NN)|auto]|exact HHz|exact P1|exact P2|exact P3|exact P4|].
    rewrite Y in H. discriminate.
Qed.
Lemma step5_panic h r l : sg_shape h 5 (SR5 r) -> inb h 5 = Some l -> step 5 (SR5 r) l = Panic -> bad_ciphertext h \/ bad_pdl_proof h.
Proof.
  intros (A1 & A2 & A3 & [own [OW [ms1 [IN1 A4]]]] & A5 & A6) IN H. pose proof KF as (_ & _ & _ & LN & LD & _ & _ & E & _). cbn [sg_step] in H. apply obind_panic in H. destruct H as [H|[ms [MS H]]].
  { destruct (inb_un (sun5 C) h 5 l ltac:(lia) IN) as [ms MS]; [|congruence]. intros [x|x|x|x|x|x] O; try discriminate. exists x. reflexivity. }
  apply sun5_map in MS. subst l. pose proof (sg_inbox_len C i sl h 5 _ I ltac:(lia) IN) as LL. rewrite map_length in LL. pose proof (sg_inbox_len C i sl h 1 _ I ltac:(lia) IN1) as L1. rewrite map_length in L1.
  apply obind_panic in H. destruct H as [H|[x [_ H]]]; [|discriminate]. unfold sg_r5 in H. rewrite A1, A2, A3 in H.
  apply obind_panic in H. destruct H as [H|[u [_ H]]].
  2:{ apply obind_panic in H. destruct H as [H|[v [_ H]]]; [apply omap_err_panic in H; unfold sg_check_R in H; destruct (pt_eqb _ _) in H; discriminate|]. destruct (sg_S _ _ _ _ _ _ _) in H. discriminate. }
  apply omapM_panic in H. destruct H as [p [Q H]]. apply in_seq in Q. assert (QL : p < n) by lia.
  apply obind_panic in H. destruct H as [H|[[R' ps] [X H]]]; [apply nth_o_panic in H; rewrite incl_me_length in H; lia|]. apply nth_o_ok in X.
  apply obind_panic in H. destruct H as [H|[ma [MA H]]]; [apply nth_o_panic in H; rewrite A4, incl_me_length, map_length in H; lia|]. apply nth_o_ok in MA.
  apply obind_panic in H. destruct H as [H|[k [K H]]]; [apply nth_o_panic in H; rewrite ls_len in H; lia|]. apply nth_o_ok in K. pose proof (ls_lt _ _ K) as KL.
  apply obind_panic in H. destruct H as [H|[N [NN H]]]; [apply nth_o_panic in H; lia|]. apply nth_o_ok in NN. pose proof (modulus_at _ _ _ K NN) as MO.
  unfold sg_phase5_verify in H. cbn [fst snd] in H. apply obind_panic in H. destruct H as [H|[v [_ H]]]; [apply oassert_panic, Nat.ltb_ge in H; rewrite ls_len in H; lia|].
  destruct (Nat.eqb_spec (length ps) (length (l_s sl) - 1)) as [PL|_]; [|discriminate]. cbn [negb] in H. rewrite ls_len in PL. apply obind_panic in H. destruct H as [H|[bad [_ H]]]; [|destruct bad; discriminate].
  apply first_bad_at_panic in H. destruct H as [[a pf] [Y H]]. apply in_with_ind in Y. destruct Y as [q [Y1 Y2]]. cbn [fst snd] in Y1, Y2. subst a. assert (QQ : q < n - 1) by (rewrite <- PL; apply nth_error_Some; congruence).
  pose proof (ind_lt p q n QL QQ) as IL. unfold sg_check5 in H. apply obind_panic in H. destruct H as [H|[si [SI H]]]; [apply nth_o_panic in H; rewrite ls_len in H; lia|]. apply nth_o_ok in SI. pose proof (ls_lt _ _ SI) as SIL.
  apply obind_panic in H. destruct H as [H|[dl [DL H]]]; [apply nth_o_panic in H; lia|]. apply nth_o_ok in DL. pose proof (nth_error_In _ _ DL) as DLI. destruct (dl_ok dl DLI) as (D1 & D2 & D3).
  destruct (pdls_verify Hz pf (sg_pdl_stmt R' (s5_R r) (ma_c ma) N dl)) as [w|e|] eqn:PV; [discriminate|discriminate|]. clear H.
  apply C49_pdls_verify_panics_iff in PV; [|unfold good_pst, sg_pdl_stmt; cbn; split; [exact (N_ok _ _ NN)|auto]|exact HHz]. destruct PV as [_ PV]. cbn [sg_pdl_stmt ps_c ps_N ps_Nt] in PV.
  rewrite A4 in MA. destruct (Nat.eq_dec p (i - 1)) as [->|NP].
  - exfalso. rewrite incl_me_self in MA by (rewrite map_length; lia). injection MA as <-. rewrite incl_me_self in X by lia. injection X as <- <-. replace (S (i - 1)) with i in MO by lia.
    destruct PV as [PV|PV]; [exact (PV (OW N MO))|]. destruct (A6 q pf Y1) as [k' [dl' [B1 [B2 B3]]]]. rewrite B1 in SI. injection SI as <-. rewrite B2 in DL. injection DL as <-. exact (PV B3).
  - destruct (is_ind (i - 1) p n ltac:(lia) QL NP) as [q' [Q' ->]]. rewrite all_slot in MA by (rewrite ?map_length; lia). rewrite all_slot in X by lia.
    destruct PV as [PV|PV].
    + left. rewrite nth_error_map in MA. destruct (nth_error ms1 q') as [[ma' com]|] eqn:MQ; [|discriminate]. cbn [option_map fst] in MA. injection MA as ->.
      destruct (msg_at SM1 h 1 ms1 q' _ ltac:(lia) IN1 MQ) as [G J]. exists (S (ind (i - 1) q')), ma, com, N. auto.
    + right. destruct (msg_at SM5 h 5 ms q' _ ltac:(lia) IN X) as [G J]. exists (S (ind (i - 1) q')), R', ps, pf, dl. split; [exact J|]. split; [exact G|]. split; [exact (nth_error_In _ _ Y1)|]. auto.
Qed.
Lemma bad6_total Ss Rs Ts a ps : a + length ps <= length Ss -> a + length ps <= length Rs -> a + length ps <= length Ts -> sg_bad6 Hf Ss Rs Ts a ps <> Panic.
Proof.
  revert a. induction ps as [|p ps IH]; intros a L1 L2 L3 H; cbn [sg_bad6] in H; [discriminate|]. cbn [length] in *.
  apply obind_panic in H. destruct H as [H|[x [_ H]]]; [apply nth_o_panic in H; lia|]. apply obind_panic in H. destruct H as [H|[y [_ H]]]; [apply nth_o_panic in H; lia|].
  apply obind_panic in H. destruct H as [H|[z [_ H]]]; [apply nth_o_panic in H; lia|]. apply obind_panic in H. destruct H as [H|[w [_ H]]]; [|discriminate]. revert H. apply IH; lia.
Qed.
Lemma step6_total h r l : sg_shape h 6 (SR6 r) -> inb h 6 = Some l -> step 6 (SR6 r) l <> Panic.
Proof.
  intros (A1 & A2 & A3) IN H. cbn [sg_step] in H. apply obind_panic in H. destruct H as [H|[ms [MS H]]].
  { destruct (inb_un (sun6 C) h 6 l ltac:(lia) IN) as [ms MS]; [|congruence]. intros [x|x|x|x|x|x] O; try discriminate. exists x. reflexivity. }
  apply sun6_map in MS. subst l. pose proof (sg_inbox_len C i sl h 6 _ I ltac:(lia) IN) as LL. rewrite map_length in LL.
  apply obind_panic in H. destruct H as [H|[x [_ H]]]; [|discriminate]. unfold sg_r6 in H. apply obind_panic in H. destruct H as [H|[u [_ H]]].
  - unfold sg_phase6_verify in H. apply obind_panic in H. destruct H as [H|[bad [_ H]]]; [|destruct bad; discriminate]. revert H. apply bad6_total; rewrite ?map_length, ?repeat_length, ?incl_me_length, ?A1; lia.
  - apply obind_panic in H. destruct H as [H|[v [_ H]]]; [|discriminate]. apply omap_err_panic in H. unfold sg_check_S in H. destruct (pt_eqb _ _) in H; discriminate.
Qed.
End Fits.

(** C66, what holds: with a complete key file of its own and sampled values in their domains, the only things that make
    the machine panic, in any history, are one of five malformed messages or deltas that sum to zero. *)
Theorem C66_offline_panic_causes h s rs : (forall l, (0 <= Hz l)%Z) -> key_fits -> hist i sl lk h s rs -> In None (failures rs) ->
  bad_range_proof h \/ bad_share_point h \/ bad_pedersen_point h \/ zero_delta h (sent_by (sm_queue s) rs) \/ bad_ciphertext h \/ bad_pdl_proof h.
Proof.
  intros HHz KF H F. destruct (sg_hist_run C Hb Hz Hf rd _ _ _ _ _ _ H) as [I [E [E2 _]]].
  assert (SR : Forall (fun j => 1 <= j <= lk_n lk) sl).
  { destruct H as [s0 [N _]]. pose proof (C55_offline_new C i sl lk) as Q. cbn zeta in Q. rewrite N in Q. apply Q. }
  pose proof (run_all P D0 I (sgp_of C Hb Hz Hf rd i n) (sgp_exp C Hb Hz Hf rd i n) h) as A.
  assert (SQ : sent_by (sm_queue s) rs = drained (snd (run_ops (g_op P) (g_init P D0) h)) ++ gs_queue (fst (run_ops (g_op P) (g_init P D0) h))).
  { unfold sent_by. rewrite <- (sg_sent C), E, E2. reflexivity. }
  destruct (run_ops (g_op P) (g_init P D0) h) as [gs grs] eqn:ER. cbn [fst snd] in E, E2, SQ. destruct A as [_ [_ LI]].
  rewrite <- (sg_failures C rs), E2 in F. unfold LogInv in LI.
  destruct (gs_round gs) as [k d|d|]; [destruct LI as [LI _]; rewrite LI in F; destruct F|destruct LI as [LI _]; rewrite LI in F; destruct F|].
  destruct LI as [[LI _]|[_ [k [o [[d [l [L [R [IN [ST NO]]]]]] LI]]]]]; rewrite LI in F; [destruct F|]. destruct F as [F|[]].
  destruct o as [x|e|]; [exfalso; exact (NO x eq_refl)|discriminate|]. clear F NO LI.
  pose proof (sg_shape_runs KF I h k d _ R) as SH.
  cbn [sgp g_K g_step g_of g_p2p g_me g_n] in L, R, IN, ST.
  destruct k as [|[|[|[|[|[|[|k]]]]]]]; [| | | | | | |lia]; destruct d as [i' sl' lk'|r|r|r|r|r|r|x|]; cbn [sg_shape] in SH; try contradiction.
  - destruct SH as (-> & -> & ->). exfalso. exact (step0_total KF I SR h l IN ST).
  - left. exact (step1_panic KF I SR h r l SH IN ST).
  - right; left. exact (step2_panic KF I SR h r l SH IN ST).
  - destruct (step3_panic I h r l SH IN ST) as [B|[ms [B1 B2]]]; [right; right; left; exact B|]. right; right; right; left. rewrite SQ.
    inversion R as [|k2 d2 o2 l2 d3 o3 R2 IN2 S2 EK ED EO]. subst d3.
    pose proof (sg_shape_runs KF I h 2 d2 _ R2) as SH2. destruct d2 as [i' sl' lk'|r2|r2|r2|r2|r2|r2|x|]; cbn [sg_shape] in SH2; try contradiction.
    cbn [sg_step] in S2. apply obind_ok in S2. destruct S2 as [m2 [_ S2]]. apply obind_ok in S2. destruct S2 as [x2 [X2 S2]]. injection S2 as S2 S3.
    exists {| m_from := s2_i r2; m_to := None; m_body := SM3 (snd x2) |}. destruct (snd x2) as [[de T] p] eqn:SX. exists de, T, p, ms.
    split; [rewrite <- S3; apply in_app_iff; right; left; reflexivity|]. split; [reflexivity|]. split; [exact B1|].
    assert (ED : s3_delta r = de); [|rewrite <- ED; exact B2]. rewrite <- S2. unfold sg_r2 in X2. apply obind_ok in X2. destruct X2 as [v1 [_ X2]]. apply obind_ok in X2. destruct X2 as [v2 [_ X2]]. apply obind_ok in X2. destruct X2 as [v3 [_ X2]]. apply obind_ok in X2. destruct X2 as [v4 [_ X2]].
    destruct (sg_t _ _ _ _) as [tt0 tp]. injection X2 as <-. cbn [snd] in SX. injection SX as <- _ _. reflexivity.
  - exfalso. exact (step4_total HHz KF I SR h r l SH IN ST).
  - destruct (step5_panic HHz KF I SR h r l SH IN ST) as [B|B]; auto 8.
  - exfalso. exact (step6_total I h r l SH IN ST).
Qed.
End Sg.
Print Assumptions C66_offline_panic_causes.

(** The key file and the randomness of the first signer of the two-signer run meet the hypotheses; the altered round-3
    message is one of the causes; and with it the machine does panic. *)
Definition gcds (l : list Z) : bool := forallb (fun N => Z.gcd (sr_r (exsrs 0)) N =? 1)%Z l.
Definition swaphist : list (op (sg_msg toy)) := swapped (sg_of toy) sg_p2p 1 3 2 exbad (exhist1 6) ++ repeat Proceed 8.
Example C66_panic_causes_example :
  key_fits toy (exsrs 0) 1 [3; 1] (exlks 0) /\ bad_pedersen_point toy 1 [3; 1] swaphist /\ exrun1 swaphist = (7, [true], 0).
Proof.
  split; [|split; [|exact (proj2 C66_example)]].
  - assert (A : vs_n (lk_vss (exlks 0)) = lk_n (exlks 0)) by (vm_compute; reflexivity).
    assert (B : (Z.of_nat (lk_n (exlks 0)) < cq toy)%Z) by (vm_compute; reflexivity).
    split; [exact A|]. split; [exact B|]. split; [vm_compute; reflexivity|]. split; [vm_compute; reflexivity|]. split; [vm_compute; reflexivity|].
    split; [|split; [|split; [vm_compute; reflexivity|split]]].
    + apply Forall_forall. assert (E : forallb (fun N => 1 <? N)%Z (lk_N (exlks 0)) = true) by (vm_compute; reflexivity). rewrite forallb_forall in E. intros N X. apply Z.ltb_lt. exact (E N X).
    + apply Forall_forall. assert (E : forallb (fun st => (1 <? dl_N st) && (Z.gcd (dl_h1 st) (dl_N st) =? 1) && (Z.gcd (dl_h2 st) (dl_N st) =? 1))%Z (lk_dl (exlks 0)) = true) by (vm_compute; reflexivity).
      rewrite forallb_forall in E. intros st X. specialize (E st X). apply andb_true_iff in E. destruct E as [E E3]. apply andb_true_iff in E. destruct E as [E1 E2].
      unfold good_st. split; [apply Z.ltb_lt; exact E1|]. split; apply Z.eqb_eq; assumption.
    + assert (E : gcds (lk_N (exlks 0)) = true) by (vm_compute; reflexivity). unfold gcds in E. rewrite forallb_forall in E. intros N X. apply Z.eqb_eq. exact (E N (nth_error_In _ _ X)).
    + intros j. unfold prand_ok. cbn. lia.
  - exists 2, (tz 1), (smul (tz 1) gen), {| pe_a1 := gen; pe_a2 := gen; pe_com := smul (tz 2) gen; pe_z1 := tz 0; pe_z2 := tz 0 |}.
    split; [vm_compute; auto|]. split; [|cbn [pe_com]].
    { unfold swaphist. rewrite got_app, (swapped_got (sg_of toy) sg_p2p 1 3 2 exbad (exhist1 6) eq_refl).
      assert (G : (match SmSpec.got (sg_of toy) sg_p2p 1 (exhist1 6) 3 2 with Some _ => true | None => false end) = true) by (vm_compute; reflexivity).
      destruct (SmSpec.got (sg_of toy) sg_p2p 1 (exhist1 6) 3 2) as [x|]; [reflexivity|discriminate]. }
    intros E.
    assert (F : @pt_eqb toy (smul (tz 1) gen) (smul (tz 2) gen) = false) by (vm_compute; reflexivity). rewrite E, (proj2 (pt_eqb_eq _ _ _) eq_refl) in F. discriminate.
Qed.

(** C107: what the encrypted backups of to_encrypted_segment allow to recover. *)
From Coq Require Import ZArith Lia Bool Field List.
From Verif Require Import ZArithX Fq Curve Outcome Sigma Bytes Vss VssProofs Toy Paillier RangeProofs Pdl Mp MpProofs Gg20Keygen KeygenProofs KeygenRun KeygenRunProofs KeygenExtra PropKeygen
  TwoParty TwoPartyProofs PropTwoParty Segments.
Import ListNotations.
Local Open Scope Z_scope.

(** The holder of the key sk decrypts a ciphertext to the segment x. *)
Definition opens {C : Curve} (sk : Fq (cq C)) (size : Z) (g : pt C) (c : helgamal C) (x : Z) : Prop :=
  0 <= x < 2 ^ size /\ eg_D c = padd (smul (of_Z (cq C) x) g) (smul sk (eg_E c)).
(** The number with the given digits in base 2^size. *)
Fixpoint value (size : Z) (xs : list Z) : Z := match xs with [] => 0 | x :: l => x + 2 ^ size * value size l end.

Section Lemmas.
Context (C : Curve).
Notation q := (cq C).
Notation F := (Fq q).
Add Field csg : (fq_field (cq_prime C)).
Lemma segment_bits (s : F) size k : 0 <= size -> 0 <= k -> get_segment s size k = of_Z q ((to_Z s / 2 ^ (size * k)) mod 2 ^ size).
Proof.
  intros HS HK. unfold get_segment. rewrite of_Z_mod. f_equal.
  assert (L : 0 <= size * k) by nia.
  replace (2 ^ (size * (k + 1)) - 1 - (2 ^ (size * k) - 1)) with (Z.shiftl (Z.ones size) (size * k)).
  2:{ rewrite Z.shiftl_mul_pow2, Z.ones_equiv by exact L. replace (size * (k + 1)) with (size + size * k) by ring. rewrite Z.pow_add_r by assumption. unfold Z.pred. ring. }
  rewrite Z.shiftr_land, Z.shiftr_shiftl_l, Z.sub_diag, Z.shiftl_0_r by exact L.
  rewrite Z.land_comm, Z.land_ones by exact HS. rewrite Z.shiftr_div_pow2 by exact L. reflexivity.
Qed.
Fixpoint digits (size v : Z) (n : nat) : list Z := match n with O => [] | S m => v mod 2 ^ size :: digits size (v / 2 ^ size) m end.
Lemma digits_length size n : forall v, length (digits size v n) = n.
Proof. induction n; intros; cbn; congruence. Qed.
Lemma digits_value size n : 0 <= size -> forall v, value size (digits size v n) = v mod 2 ^ (size * Z.of_nat n).
Proof.
  intros HS. assert (P : 0 < 2 ^ size) by (apply Z.pow_pos_nonneg; lia). induction n as [|n IH]; intros v.
  - cbn [digits value]. rewrite Z.mul_0_r, Z.pow_0_r, Z.mod_1_r. reflexivity.
  - cbn [digits value]. rewrite IH. replace (size * Z.of_nat (S n)) with (size + size * Z.of_nat n) by lia. rewrite Z.pow_add_r by nia.
    rewrite Z.rem_mul_r by (try apply Z.neq_sym; try apply Z.pow_pos_nonneg; nia). reflexivity.
Qed.
Lemma digits_segments size (s : F) n : 0 <= size -> forall k, 0 <= k ->
  map (of_Z q) (digits size (to_Z s / 2 ^ (size * k)) n) = map (fun i => get_segment s size (k + Z.of_nat i)) (seq 0 n).
Proof.
  intros HS. induction n as [|n IH]; intros k HK; [reflexivity|]. cbn [digits map seq]. f_equal.
  - rewrite Z.add_0_r. symmetry. apply segment_bits; assumption.
  - rewrite Z.div_div by (try apply Z.neq_sym; try apply Z.pow_pos_nonneg; nia). rewrite <- Z.pow_add_r by nia.
    replace (size * k + size) with (size * (k + 1)) by ring. rewrite IH by lia. rewrite <- seq_shift, map_map. apply map_ext. intros i. f_equal. lia.
Qed.
Lemma digits_range size n : 0 <= size -> forall v, Forall (fun x => 0 <= x < 2 ^ size) (digits size v n).
Proof. intros HS. induction n; intros v; constructor; auto. apply Z.mod_pos_bound, Z.pow_pos_nonneg; lia. Qed.
Lemma assemble_value size xs : assemble size (map (of_Z q) xs) = of_Z q (value size xs).
Proof. induction xs as [|x l IH]; [reflexivity|]. cbn [map assemble fold_right value]. fold (assemble size (map (of_Z q) l)). rewrite IH, of_Z_add, of_Z_mul. reflexivity. Qed.
Lemma open_enc (x r sk : F) (g : pt C) : padd (smul r (smul sk g)) (smul x g) = padd (smul x g) (smul sk (smul r g)).
Proof. apply dlog_inj. rewrite !dlog_add, !dlog_smul. ring. Qed.
Lemma open_all size (g : pt C) (sk : F) : forall xs (rs : list F), length xs = length rs -> Forall (fun x => 0 <= x < 2 ^ size) xs ->
  Forall2 (opens sk size g) (map (fun '(x, r) => encrypt_segment x r (smul sk g) g) (combine (map (of_Z q) xs) rs)) xs.
Proof.
  induction xs as [|x l IH]; intros [|r rs] L H; try discriminate; [constructor|]. apply Forall_cons_iff in H. destruct H as [H1 H2]. cbn [map combine]. constructor.
  - split; [exact H1|]. apply open_enc.
  - apply IH; [now injection L|exact H2].
Qed.
Lemma open_unique size (g : pt C) (sk : F) c x x' : g <> pzero -> 2 ^ size <= q -> opens sk size g c x -> opens sk size g c x' -> x = x'.
Proof.
  intros G Q (R & E) (R' & E'). rewrite E in E'. apply (f_equal dlog) in E'. rewrite !dlog_add, !dlog_smul in E'.
  assert (DG : dlog g <> f0) by (intros D; apply G, dlog_inj; rewrite D, dlog_zero; reflexivity).
  assert (EQ : of_Z q x = of_Z q x').
  { transitivity (fmul (fmul (of_Z q x) (dlog g)) (finv (dlog g))); [field; exact DG|].
    replace (fmul (of_Z q x) (dlog g)) with (fsub (fadd (fmul (of_Z q x) (dlog g)) (fmul sk (dlog (eg_E c)))) (fmul sk (dlog (eg_E c)))) by ring.
    rewrite E'. field. exact DG. }
  apply of_Z_eq_iff in EQ. rewrite !Z.mod_small in EQ by lia. exact EQ.
Qed.
Lemma open_unique_all size (g : pt C) (sk : F) : g <> pzero -> 2 ^ size <= q -> forall cs xs xs', Forall2 (opens sk size g) cs xs -> Forall2 (opens sk size g) cs xs' -> xs = xs'.
Proof.
  intros G Q cs xs xs' H. revert xs'. induction H as [|c x cs xs H1 H2 IH]; intros xs' H'; inversion H'; subst; [reflexivity|].
  f_equal; [eapply open_unique; eassumption|apply IH; assumption].
Qed.
Lemma cancel_factor (a b c : F) : a <> f0 -> b <> f0 -> fmul a (fmul b f1) = fmul (fmul a (fmul b c)) f1 -> c = f1.
Proof. intros A B E. transitivity (fmul (fmul (finv a) (finv b)) (fmul (fmul a (fmul b c)) f1)); [field; split; assumption|]. rewrite <- E. field. split; assumption. Qed.
Lemma smul2 (a b : F) (P : pt C) : smul a (smul b P) = smul (fmul a b) P. Proof. apply dlog_inj. rewrite !dlog_smul. ring. Qed.
Lemma shift_back (y s : F) : fmul (fadd s (fsub y s)) f1 = y. Proof. ring. Qed.
Lemma mul_one (a : F) : fmul a f1 = a. Proof. ring. Qed.
Lemma neq_add (a d : F) : d <> f0 -> a <> fadd a d.
Proof. intros D E. apply D. transitivity (fsub (fadd a d) a); [ring|]. rewrite <- E. ring. Qed.
Lemma bump_ring (u x a p : F) : fadd u (fmul x (fadd (fadd a f1) p)) = fadd (fadd u (fmul x (fadd a p))) x. Proof. ring. Qed.
Lemma to_Z_f1 : 2 < q -> to_Z (f1 : F) = 1.
Proof. intros Q. unfold f1. rewrite to_Z_of_Z. apply Z.mod_small. lia. Qed.
Lemma fsum_bump (f g : nat -> F) d k l : NoDup l -> In k l -> (forall j, j <> k -> g j = f j) -> g k = fadd (f k) d -> fsum (map g l) = fadd (fsum (map f l)) d.
Proof.
  intros ND I H HK. induction l as [|a l IH]; [destruct I|]. inversion ND as [|a' l' NI ND']; subst. cbn [map fsum]. destruct (Nat.eq_dec a k) as [->|NE].
  - rewrite HK. replace (map g l) with (map f l); [ring|]. apply map_ext_in. intros j J. symmetry. apply H. intros ->. contradiction.
  - destruct I as [I|I]; [congruence|]. rewrite (IH ND' I), (H a NE). ring.
Qed.
End Lemmas.

(** ** Recovery *)
(** The holder of sk can open every backup, in one way only, to the segments of the witness; together they are the secret
    modulo 2^(size * number). *)
Theorem C107_backup_opens : forall (C : Curve) (secret sk : Fq (cq C)) size rs g, 0 <= size -> (length rs <= 255)%nat ->
  exists xs, Forall2 (opens sk size g) (snd (to_segments secret size rs (smul sk g) g)) xs /\ length xs = length rs /\
    value size xs = to_Z secret mod 2 ^ (size * Z.of_nat (length rs)) /\
    fst (to_segments secret size rs (smul sk g) g) = (map (of_Z (cq C)) xs, rs) /\
    (g <> pzero -> 2 ^ size <= cq C -> forall xs', Forall2 (opens sk size g) (snd (to_segments secret size rs (smul sk g) g)) xs' -> xs' = xs).
Proof.
  intros C secret sk size rs g HS _. exists (digits size (to_Z secret) (length rs)).
  pose proof (digits_segments C size secret (length rs) HS 0 (Z.le_refl 0)) as D. rewrite Z.mul_0_r, Z.pow_0_r, Z.div_1_r in D.
  assert (O : Forall2 (opens sk size g) (snd (to_segments secret size rs (smul sk g) g)) (digits size (to_Z secret) (length rs))).
  { unfold to_segments. cbn [snd]. change (map (fun k => get_segment secret size (Z.of_nat k)) (seq 0 (length rs))) with (map (fun k => get_segment secret size (0 + Z.of_nat k)) (seq 0 (length rs))).
    rewrite <- D. apply open_all; [apply digits_length|apply digits_range, HS]. }
  split; [exact O|]. split; [apply digits_length|]. split; [apply digits_value, HS|]. split.
  - unfold to_segments. cbn [fst]. rewrite D. reflexivity.
  - intros G Q xs' O'. exact (open_unique_all C size g sk G Q _ _ _ O' O).
Qed.
Print Assumptions C107_backup_opens.

(** Enough segments: whatever opens the backup assembles to the secret. *)
Theorem C107_backup_recovers : forall (C : Curve) (secret sk : Fq (cq C)) size rs g xs, 0 <= size -> (length rs <= 255)%nat ->
  g <> pzero -> 2 ^ size <= cq C -> cq C <= 2 ^ (size * Z.of_nat (length rs)) ->
  Forall2 (opens sk size g) (snd (to_segments secret size rs (smul sk g) g)) xs ->
  assemble size (map (of_Z (cq C)) xs) = secret.
Proof.
  intros C secret sk size rs g xs HS L G Q Q2 O. destruct (C107_backup_opens C secret sk size rs g HS L) as (ys & _ & _ & V & _ & U).
  rewrite (U G Q xs O), assemble_value, V. pose proof (to_Z_range (cq_prime C) secret) as B. rewrite Z.mod_small by lia. apply of_Z_to_Z.
Qed.
Print Assumptions C107_backup_recovers.

(** Too few segments (the caller chooses both numbers and nothing checks them): some share is not recovered. *)
Theorem C107_truncated_refuted : forall (C : Curve) size n, 0 <= size -> (n <= 255)%nat -> 2 ^ (size * Z.of_nat n) < cq C ->
  exists secret, forall (sk : Fq (cq C)) rs g xs, length rs = n -> g <> pzero -> 2 ^ size <= cq C ->
    Forall2 (opens sk size g) (snd (to_segments secret size rs (smul sk g) g)) xs -> assemble size (map (of_Z (cq C)) xs) <> secret.
Proof.
  intros C size n HS L Q. exists (of_Z (cq C) (2 ^ (size * Z.of_nat n))). intros sk rs g xs <- G Q2 O.
  destruct (C107_backup_opens C (of_Z (cq C) (2 ^ (size * Z.of_nat (length rs)))) sk size rs g HS L) as (ys & _ & _ & V & _ & U).
  assert (P : 0 < 2 ^ (size * Z.of_nat (length rs))) by (apply Z.pow_pos_nonneg; lia).
  rewrite (U G Q2 xs O), assemble_value, V. rewrite to_Z_of_Z, (Z.mod_small _ (cq C)), Z.mod_same by lia. intros E. apply of_Z_eq_iff in E. rewrite Z.mod_0_l, Z.mod_small in E by lia. lia.
Qed.
Print Assumptions C107_truncated_refuted.

(** ** The protocols *)
(** Whoever opens the backup cs with sk obtains v. *)
Definition restored {C : Curve} (sk : Fq (cq C)) (size : Z) (g : pt C) (b : (list (Fq (cq C)) * list (Fq (cq C))) * list (helgamal C)) (v : Fq (cq C)) : Prop :=
  exists xs, Forall2 (opens sk size g) (snd b) xs /\ v = assemble size (map (of_Z (cq C)) xs).
(** Sizes that suit the group order; [n] segments. *)
Definition sizes_ok (C : Curve) (size : Z) (n : nat) : Prop :=
  0 <= size /\ (n <= 255)%nat /\ 2 ^ size <= cq C /\ cq C <= 2 ^ (size * Z.of_nat n).
Lemma restored_iff (C : Curve) (secret sk : Fq (cq C)) size rs g v : g <> pzero -> sizes_ok C size (length rs) ->
  restored sk size g (to_segments secret size rs (smul sk g) g) v <-> v = secret.
Proof.
  intros G (HS & L & Q & Q2). split.
  - intros (xs & O & ->). exact (C107_backup_recovers C secret sk size rs g xs HS L G Q Q2 O).
  - intros ->. destruct (C107_backup_opens C secret sk size rs g HS L) as (xs & O & _). exists xs. split; [exact O|]. symmetry. exact (C107_backup_recovers C secret sk size rs g xs HS L G Q Q2 O).
Qed.

(** Lindell: the backups of both parties, made after any number of refreshes, give the private key. *)
Theorem C107_lindell_backups : forall (C : Curve) (Hz : hashZ C) p c x2 p' c' x2' sk size rs1 rs2 (g : pt C) v1 v2,
  p1_ok C p c -> refreshes Hz (p, c, x2) (p', c', x2') -> g <> pzero -> sizes_ok C size (length rs1) -> sizes_ok C size (length rs2) ->
  restored sk size g (l1_backup p' size rs1 (smul sk g) g) v1 -> restored sk size g (l2_backup x2' size rs2 (smul sk g) g) v2 ->
  p1_pubkey (l1_x p) (smul x2 gen) = smul (fmul v1 v2) gen.
Proof.
  intros C Hz p c x2 p' c' x2' sk size rs1 rs2 g v1 v2 OK RF G S1 S2 V1 V2. apply restored_iff in V1, V2; try assumption. subst v1 v2.
  destruct (C13_refresh_preserves_key C Hz p c x2 p' c' x2' OK RF) as [E _]. rewrite <- E. unfold p1_pubkey. apply smul2.
Qed.
Print Assumptions C107_lindell_backups.
(** A backup of one party from before a refresh and one of the other party from after it do not. *)
Theorem C107_mixed_backups_refuted : forall (C : Curve) (p : party1 C) (x2 : Fq (cq C)) (f f2 : Z) (sk : Fq (cq C)) size (rs1 rs2 : list (Fq (cq C))) (g : pt C) v1 v2,
  (f * f2) mod cq C = 1 -> f mod cq C <> 1 -> l1_x p <> f0 -> x2 <> f0 -> g <> pzero -> sizes_ok C size (length rs1) -> sizes_ok C size (length rs2) ->
  restored sk size g (l1_backup p size rs1 (smul sk g) g) v1 -> restored sk size g (l2_backup (lindell_update x2 f2) size rs2 (smul sk g) g) v2 ->
  p1_pubkey (l1_x p) (smul x2 gen) <> smul (fmul v1 v2) gen.
Proof.
  intros C p x2 f f2 sk size rs1 rs2 g v1 v2 FF F1 X1 X2 G S1 S2 V1 V2. apply restored_iff in V1, V2; try assumption. subst v1 v2.
  unfold p1_pubkey, lindell_update. intros E. apply (f_equal dlog) in E. rewrite !dlog_smul, !dlog_gen in E. apply F1.
  assert (U : of_Z (cq C) f2 = f1) by exact (cancel_factor C _ _ _ X1 X2 E).
  pose proof (cq_odd C) as Q2. replace 1 with (to_Z (f1 : Fq (cq C))) by (apply to_Z_f1; lia). rewrite <- to_Z_of_Z. f_equal.
  assert (P : fmul (of_Z (cq C) f) (of_Z (cq C) f2) = f1). { rewrite <- of_Z_mul. unfold f1. apply of_Z_eq_iff. rewrite FF. symmetry. apply Z.mod_small. lia. }
  rewrite U in P. rewrite <- P. symmetry. apply mul_one.
Qed.
Print Assumptions C107_mixed_backups_refuted.

(** GG20: the backups of all parties give the private key. *)
Theorem C107_gg20_backups : forall (C : Curve) Hb (Hf : hashF C) ck cd (t n : nat) (rs : nat -> kg_rand C) lks (ps : nat -> party_private C) sk size (ms : nat -> list (Fq (cq C))) g (v : nat -> Fq (cq C)),
  (t < n)%nat -> Z.of_nat n < cq C ->
  (forall i, (i < n)%nat -> length (kr_coefs (rs i)) = t) ->
  (forall i, (i < n)%nat -> ck (kr_ck (rs i)) (kr_p1 (rs i) * kr_p2 (rs i)) = true /\ cd (kr_cd1 (rs i)) (kr_dl (rs i)) = Ok true /\
     cd (kr_cd2 (rs i)) {| dl_N := dl_N (kr_dl (rs i)); dl_h1 := dl_h2 (kr_dl (rs i)); dl_h2 := dl_h1 (kr_dl (rs i)) |} = Ok true /\
     2047 <= bit_length (kr_p1 (rs i) * kr_p2 (rs i)) <= 2048 /\ 2047 <= bit_length (dl_N (kr_dl (rs i))) <= 2048) ->
  kg_run C Hb Hf ck cd t n rs = Ok lks -> (forall i, (i < n)%nat -> pr_u (ps i) = kr_u (rs i)) -> g <> pzero ->
  (forall i, (i < n)%nat -> sizes_ok C size (length (ms i)) /\ restored sk size g (gg_backup (ps i) size (ms i) (smul sk g) g) (v i)) ->
  forall i lk, nth_error lks i = Some lk -> lk_y lk = smul (fsum (map v (seq 0 n))) gen.
Proof.
  intros C Hb Hf ck cd t n rs lks ps sk size ms g v TN NQ CO OR RUN PS G V i lk LK.
  destruct (C20_gg20_keygen_correct C Hb Hf ck cd t n rs TN NQ CO OR) as (lks' & x & RUN' & _ & Y & _).
  assert (lks' = lks) by congruence. subst lks'. destruct (Y i lk LK) as (-> & _). unfold secret_of. do 2 f_equal. apply map_ext_in. intros j J. apply in_seq in J.
  destruct (V j ltac:(lia)) as [S R]. apply restored_iff in R; [|exact G|exact S]. rewrite R. symmetry. apply PS. lia.
Qed.
Print Assumptions C107_gg20_backups.

(** But a party's backup holds u_i and not the share x_i it signs with: with the same u of all parties, hence the same
    backups and the same key, x_i differs. *)
Theorem C107_share_not_in_backup_refuted : forall (C : Curve) Hb (Hf : hashF C) ck cd (t n i : nat) (rs : nat -> kg_rand C),
  (0 < t < n)%nat -> (i < n)%nat -> Z.of_nat n < cq C ->
  (forall i, (i < n)%nat -> length (kr_coefs (rs i)) = t) ->
  (forall i, (i < n)%nat -> ck (kr_ck (rs i)) (kr_p1 (rs i) * kr_p2 (rs i)) = true /\ cd (kr_cd1 (rs i)) (kr_dl (rs i)) = Ok true /\
     cd (kr_cd2 (rs i)) {| dl_N := dl_N (kr_dl (rs i)); dl_h1 := dl_h2 (kr_dl (rs i)); dl_h2 := dl_h1 (kr_dl (rs i)) |} = Ok true /\
     2047 <= bit_length (kr_p1 (rs i) * kr_p2 (rs i)) <= 2048 /\ 2047 <= bit_length (dl_N (kr_dl (rs i))) <= 2048) ->
  exists rs' lks lks' lk lk', (forall j, kr_u (rs' j) = kr_u (rs j)) /\
    kg_run C Hb Hf ck cd t n rs = Ok lks /\ kg_run C Hb Hf ck cd t n rs' = Ok lks' /\ nth_error lks i = Some lk /\ nth_error lks' i = Some lk' /\
    lk_y lk = lk_y lk' /\ sk_x (lk_shared lk) <> sk_x (lk_shared lk').
Proof.
  intros C Hb Hf ck cd t n i rs TN HI NQ CO OR.
  set (bump := fun l : list (Fq (cq C)) => match l with [] => [] | a :: r => fadd a f1 :: r end).
  set (rs' := fun j => if (j =? i)%nat then {| kr_u := kr_u (rs j); kr_p1 := kr_p1 (rs j); kr_p2 := kr_p2 (rs j); kr_dl := kr_dl (rs j); kr_blind := kr_blind (rs j);
     kr_ck := kr_ck (rs j); kr_cd1 := kr_cd1 (rs j); kr_cd2 := kr_cd2 (rs j); kr_coefs := bump (kr_coefs (rs j)); kr_nonce := kr_nonce (rs j) |} else rs j).
  assert (CO' : forall j, (j < n)%nat -> length (kr_coefs (rs' j)) = t).
  { intros j J. unfold rs'. destruct (j =? i)%nat; [|auto]. cbn [kr_coefs]. rewrite <- (CO j J). destruct (kr_coefs (rs j)); reflexivity. }
  assert (U : forall j, kr_u (rs' j) = kr_u (rs j)) by (intros j; unfold rs'; destruct (j =? i)%nat; reflexivity).
  exists rs', (map (h_lk C t n rs) (seq 0 n)), (map (h_lk C t n rs') (seq 0 n)), (h_lk C t n rs i), (h_lk C t n rs' i). split; [exact U|]. split; [|split; [|split; [|split; [|split]]]].
  - apply kg_run_honest; try lia; try assumption; intros j Hj; destruct (OR j Hj) as (A & B & D & E1 & E2); try assumption. split; apply bits_ok_iff; assumption.
  - apply kg_run_honest; try lia; try assumption; intros j Hj; destruct (OR j Hj) as (A & B & D & E1 & E2); unfold rs'; destruct (j =? i)%nat; try assumption; cbn [kr_dl kr_p1 kr_p2]; split; apply bits_ok_iff; assumption.
  - rewrite nth_error_map, (nth_error_nth' _ 0%nat), seq_nth by (rewrite ?seq_length; lia). reflexivity.
  - rewrite nth_error_map, (nth_error_nth' _ 0%nat), seq_nth by (rewrite ?seq_length; lia). reflexivity.
  - unfold h_lk. cbn [lk_y]. f_equal. apply map_ext. intros j. rewrite U. reflexivity.
  - unfold h_lk. cbn [lk_shared sk_x]. unfold h_x.
    rewrite (fsum_bump C (fun j => h_share C rs j i) (fun j => h_share C rs' j i) (fidx (S i)) i (seq 0 n)).
    + apply neq_add. unfold fidx. intros E. apply (f_equal to_Z) in E. rewrite to_Z_of_Z, to_Z_0, Z.mod_small in E by lia. lia.
    + apply seq_NoDup.
    + apply in_seq. lia.
    + intros j NE. unfold h_share, h_poly. rewrite U. unfold rs'. replace (j =? i)%nat with false by (symmetry; apply Nat.eqb_neq; exact NE). reflexivity.
    + unfold h_share, h_poly. rewrite U. unfold rs'. rewrite Nat.eqb_refl. cbn [kr_coefs]. pose proof (CO i HI) as L. destruct (kr_coefs (rs i)) as [|a r]; [cbn in L; lia|].
      cbn [bump peval]. apply bump_ring.
Qed.
Print Assumptions C107_share_not_in_backup_refuted.

(** The backups of all parties but one say nothing about the key, whatever the threshold. *)
Theorem C107_missing_backup_refuted : forall (C : Curve) Hb (Hf : hashF C) ck cd (t n i : nat) (rs : nat -> kg_rand C),
  (t < n)%nat -> (i < n)%nat -> Z.of_nat n < cq C ->
  (forall i, (i < n)%nat -> length (kr_coefs (rs i)) = t) ->
  (forall i, (i < n)%nat -> ck (kr_ck (rs i)) (kr_p1 (rs i) * kr_p2 (rs i)) = true /\ cd (kr_cd1 (rs i)) (kr_dl (rs i)) = Ok true /\
     cd (kr_cd2 (rs i)) {| dl_N := dl_N (kr_dl (rs i)); dl_h1 := dl_h2 (kr_dl (rs i)); dl_h2 := dl_h1 (kr_dl (rs i)) |} = Ok true /\
     2047 <= bit_length (kr_p1 (rs i) * kr_p2 (rs i)) <= 2048 /\ 2047 <= bit_length (dl_N (kr_dl (rs i))) <= 2048) ->
  forall Y : pt C, exists rs' lks', (forall j, j <> i -> rs' j = rs j) /\ kg_run C Hb Hf ck cd t n rs' = Ok lks' /\ length lks' = n /\
    forall lk, In lk lks' -> lk_y lk = Y.
Proof.
  intros C Hb Hf ck cd t n i rs TN HI NQ CO OR Y. set (d := fsub (dlog Y) (secret_of n (fun j => kr_u (rs j)))).
  set (rs' := fun j => if (j =? i)%nat then {| kr_u := fadd (kr_u (rs j)) d; kr_p1 := kr_p1 (rs j); kr_p2 := kr_p2 (rs j); kr_dl := kr_dl (rs j); kr_blind := kr_blind (rs j);
     kr_ck := kr_ck (rs j); kr_cd1 := kr_cd1 (rs j); kr_cd2 := kr_cd2 (rs j); kr_coefs := kr_coefs (rs j); kr_nonce := kr_nonce (rs j) |} else rs j).
  destruct (C20_gg20_keygen_correct C Hb Hf ck cd t n rs' TN NQ) as (lks' & x & RUN & LEN & Y' & _).
  { intros j J. unfold rs'. destruct (j =? i)%nat; apply (CO j J). }
  { intros j J. unfold rs'. destruct (j =? i)%nat; apply (OR j J). }
  exists rs', lks'. split; [|split; [exact RUN|split; [exact LEN|]]].
  - intros j NE. unfold rs'. replace (j =? i)%nat with false by (symmetry; apply Nat.eqb_neq; exact NE). reflexivity.
  - intros lk I. apply In_nth_error in I. destruct I as (k & K). destruct (Y' k lk K) as (-> & _). unfold secret_of.
    rewrite (fsum_bump C (fun j => kr_u (rs j)) (fun j => kr_u (rs' j)) d i (seq 0 n)).
    + apply dlog_inj. rewrite dlog_smul, dlog_gen. unfold d. apply shift_back.
    + apply seq_NoDup.
    + apply in_seq. lia.
    + intros j NE. unfold rs'. replace (j =? i)%nat with false by (symmetry; apply Nat.eqb_neq; exact NE). reflexivity.
    + unfold rs'. rewrite Nat.eqb_refl. reflexivity.
Qed.
Print Assumptions C107_missing_backup_refuted.

(** ** Examples: 13 = 1 + 3*4 + 0*16 in three segments of two bits, recovered; in two segments 29 is not. *)
Example C107_example :
  map to_Z (fst (fst (to_segments (tz 13 : Fq (cq toy)) 2 [tz 3; tz 4; tz 5] (smul (tz 6) gen) gen))) = [1; 3; 0] /\
  restored (C := toy) (tz 6) 2 gen (to_segments (tz 13) 2 [tz 3; tz 4; tz 5] (smul (tz 6) gen) gen) (tz 13) /\
  map to_Z (fst (fst (to_segments (tz 29 : Fq (cq toy)) 2 [tz 3; tz 4] (smul (tz 6) gen) gen))) = [1; 3].
Proof.
  split; [vm_compute; reflexivity|]. split; [|vm_compute; reflexivity].
  apply (restored_iff toy (tz 13) (tz 6) 2 [tz 3; tz 4; tz 5] gen); [intros E; apply (f_equal to_Z) in E; vm_compute in E; discriminate| |reflexivity].
  split; [lia|]. split; [cbn; lia|]. split; vm_compute; discriminate.
Qed.
(** Three parties, threshold 1 (C20_example): the u are 5, 9, 30; changing only party 1's next coefficient changes its share 14. *)
Example C107_gg20_example :
  match kg_run toy exHb exHf3 (fun _ _ => true) (fun _ _ => Ok true) 1 3 (fun i => nth i [exkr 5 4 11; exkr 9 21 12; exkr 30 8 13] (exkr 0 0 0)) with
  | Ok lks => map lk_obs lks = [(13, 15, [15; 17; 19]); (13, 17, [15; 17; 19]); (13, 19, [15; 17; 19])]
  | _ => False end.
Proof. vm_compute. reflexivity. Qed.

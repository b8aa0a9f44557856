(** C110: repeating key generation with refreshed Keys (refresh_private_key). *)
From Coq Require Import ZArith Znumtheory Lia Bool List Field.
From Verif Require Import ZArithX Fq Curve Toy Outcome Sigma SigmaProofs Bytes Vss VssProofs Paillier PaillierProofs RangeProofs RangeProofsProofs Pdl
  Ecdsa Mp MpProofs Gg20Keygen Gg18Keygen KeygenRun KeygenRunProofs KeygenExtra Gg20Sign SignRun SignRunProofs Gg18Sign Gg18RunProofs SmCauseSg PropKeygen PropRange PropSign PropSign18 RingPedersen CorrectKey PropRingPedersen PropCorrectKey WCurve Secp256k1 PropSecpRun Reshare.
Import ListNotations.
Local Open Scope Z_scope.

(** What is sampled in a GG20 run by n honest parties and accepted by the two external verifiers *)
Definition run_rand_ok (C : Curve) ck (cd : Z -> dlstmt -> outcome mp_error bool) (t n : nat) (ks : nat -> kg_rand C) : Prop :=
  forall i, (i < n)%nat -> length (kr_coefs (ks i)) = t /\ ck (kr_ck (ks i)) (kr_p1 (ks i) * kr_p2 (ks i)) = true /\ cd (kr_cd1 (ks i)) (kr_dl (ks i)) = Ok true /\
     cd (kr_cd2 (ks i)) {| dl_N := dl_N (kr_dl (ks i)); dl_h1 := dl_h2 (kr_dl (ks i)); dl_h2 := dl_h1 (kr_dl (ks i)) |} = Ok true /\
     2047 <= bit_length (kr_p1 (ks i) * kr_p2 (ks i)) <= 2048 /\ 2047 <= bit_length (dl_N (kr_dl (ks i))) <= 2048 /\
     good_key (kr_p1 (ks i)) (kr_p2 (ks i)) /\ good_st (kr_dl (ks i)).
(** The sum of all factors of all repetitions *)
Definition drift {C : Curve} {A} (n : nat) (es : list ((nat -> Fq (cq C)) * A)) : Fq (cq C) := fsum (map (fun e => fsum (map (fst e) (seq 0 n))) es).

Section Proofs.
Context (C : Curve).
Notation F := (Fq (cq C)).
Add Field cfield : (C_field C).
Context (Hb : list Z -> Z) (Hf : hashF C) (ck : Z -> Z -> bool) (cd : Z -> dlstmt -> outcome mp_error bool) (t n : nat).
Context (Htn : (t < n)%nat).

Lemma run_honest ks : run_rand_ok C ck cd t n ks -> kg_run C Hb Hf ck cd t n ks = Ok (map (h_lk C t n ks) (seq 0 n)).
Proof.
  intros H. apply kg_run_honest; try assumption; intros i Hi; destruct (H i Hi) as (H0 & A & B & D & E1 & E2 & _); try assumption.
  split; apply bits_ok_iff; assumption.
Qed.
Lemma add_cancel (u d d' : F) : fadd u d = fadd u d' -> d = d'.
Proof. intros E. transitivity (fsub (fadd u d) u); [field|]. rewrite E. field. Qed.
Lemma add_0_r (u : F) : fadd u f0 = u.
Proof. field. Qed.
Lemma stale_alg (l a b r : F) : fadd (fmul l a) r = fadd (fadd (fmul l b) r) (fmul l (fsub a b)).
Proof. field. Qed.
Lemma add_assoc3 (a b c : F) : fadd a (fadd b c) = fadd (fadd a b) c.
Proof. field. Qed.
Lemma stale_zero (h l a : F) : fadd h (fmul l (fsub a a)) = h.
Proof. field. Qed.
Lemma zero_of (h l a b : F) : fadd h (fmul l (fsub a b)) = h -> l = f0 \/ a = b.
Proof.
  intros E. rewrite <- (add_0_r h) in E at 2. apply add_cancel in E. destruct (Fq_eq_dec l f0) as [->|N]; [left; reflexivity|right].
  transitivity (fadd (fmul (finv l) (fmul l (fsub a b))) b); [field; exact N|]. rewrite E. field. exact N.
Qed.
Lemma drift_cons {A} (e : (nat -> F) * A) es : drift n (e :: es) = fadd (fsum (map (fst e) (seq 0 n))) (drift n es).
Proof. reflexivity. Qed.

Definition st_of (rs : nat -> kg_rand C) : list (party_private C) := privates n rs (map (h_lk C t n rs) (seq 0 n)).
Lemma st_of_nth rs i : (i < n)%nat -> nth_error (st_of rs) i = Some {| pr_u := kr_u (rs i); pr_x := h_x C n rs i; pr_p1 := kr_p1 (rs i); pr_p2 := kr_p2 (rs i) |}.
Proof.
  intros Hi. unfold st_of, privates. rewrite nth_error_map.
  assert (E : nth_error (combine (seq 0 n) (map (h_lk C t n rs) (seq 0 n))) i = Some (i, h_lk C t n rs i)).
  { apply nth_error_combine. rewrite nth_error_map, !(nth_error_nth' _ 0%nat) by (rewrite seq_length; exact Hi). rewrite seq_nth by exact Hi. split; reflexivity. }
  rewrite E. reflexivity.
Qed.
Lemma st_of_u rs : map pr_u (st_of rs) = map (fun i => kr_u (rs i)) (seq 0 n).
Proof.
  unfold st_of, privates. rewrite map_map. generalize (seq 0 n). intros l. induction l as [|a l IH]; [reflexivity|]. cbn [map combine]. rewrite IH. reflexivity.
Qed.
Lemma next_ok rs fac rs1 : run_rand_ok C ck cd t n rs1 -> run_rand_ok C ck cd t n (next_rand (st_of rs) fac rs1) /\
  fsum (map (fun i => kr_u (next_rand (st_of rs) fac rs1 i)) (seq 0 n)) = fadd (fsum (map (fun i => kr_u (rs i)) (seq 0 n))) (fsum (map fac (seq 0 n))).
Proof.
  intros H. split.
  - intros i Hi. specialize (H i Hi). unfold next_rand. rewrite (st_of_nth rs i Hi). cbn [refresh_private_key ky_u ky_p1 ky_p2 ky_dl kr_u kr_p1 kr_p2 kr_dl kr_ck kr_cd1 kr_cd2 kr_coefs]. exact H.
  - rewrite <- fsum_map_add. f_equal. apply map_ext_in. intros i Hi. apply in_seq in Hi. unfold next_rand. rewrite (st_of_nth rs i) by lia. reflexivity.
Qed.
Lemma reshares_ok : forall es rs, run_rand_ok C ck cd t n rs -> (forall fac rs1, In (fac, rs1) es -> run_rand_ok C ck cd t n rs1) ->
  exists rs', run_rand_ok C ck cd t n rs' /\ reshares C Hb Hf ck cd t n es (st_of rs) (map (h_lk C t n rs) (seq 0 n)) = Ok (st_of rs', map (h_lk C t n rs') (seq 0 n)) /\
  fsum (map (fun i => kr_u (rs' i)) (seq 0 n)) = fadd (fsum (map (fun i => kr_u (rs i)) (seq 0 n))) (drift n es).
Proof.
  induction es as [|[fac rs1] es IH]; intros rs H HE.
  - exists rs. split; [exact H|]. split; [reflexivity|]. unfold drift. cbn [map fsum fold_right]. change (fsum []) with (f0 : F). field.
  - destruct (next_ok rs fac rs1 (HE _ _ (or_introl eq_refl))) as [N1 N2]. cbn [reshares]. rewrite (run_honest _ N1). cbn [obind].
    destruct (IH (next_rand (st_of rs) fac rs1) N1) as (rs' & R1 & R2 & R3); [intros f r I; apply (HE f r); right; exact I|].
    exists rs'. split; [exact R1|]. split; [exact R2|]. rewrite R3, N2. rewrite drift_cons. cbn [fst]. field.
Qed.
Lemma life_ok rs0 es : run_rand_ok C ck cd t n rs0 -> (forall fac rs1, In (fac, rs1) es -> run_rand_ok C ck cd t n rs1) ->
  exists rs', run_rand_ok C ck cd t n rs' /\ life C Hb Hf ck cd t n rs0 es = Ok (st_of rs', map (h_lk C t n rs') (seq 0 n)) /\
  fsum (map (fun i => kr_u (rs' i)) (seq 0 n)) = fadd (fsum (map (fun i => kr_u (rs0 i)) (seq 0 n))) (drift n es).
Proof. intros H HE. unfold life. rewrite (run_honest _ H). cbn [obind]. apply (reshares_ok es rs0 H HE). Qed.
End Proofs.

(** ** GG20 *)
(** After any number of repetitions every party holds the same public key: the first one plus (sum of all factors) G; the u_i of the
    parties add up to the private key, and any t+1 of the new x_i determine it. *)
Theorem C110_gg20_reshared_key : forall (C : Curve) Hb (Hf : hashF C) ck cd t n ks es,
  (t < n)%nat -> Z.of_nat n < cq C -> run_rand_ok C ck cd t n ks -> (forall fac rs, In (fac, rs) es -> run_rand_ok C ck cd t n rs) ->
  let x := fadd (fsum (map (fun i => kr_u (ks i)) (seq 0 n))) (drift n es) in
  exists st keys, life C Hb Hf ck cd t n ks es = Ok (st, keys) /\ length st = n /\ length keys = n /\
  (forall lk, In lk keys -> lk_y lk = smul x gen) /\ fsum (map pr_u st) = x /\
  (forall i p lk, nth_error st i = Some p -> nth_error keys i = Some lk -> pr_x p = sk_x (lk_shared lk)) /\
  forall v s, vs_t v = t -> NoDup s -> (forall i, In i s -> (i < n)%nat) -> (t < length s)%nat ->
  forall xs, (forall i p, In i s -> nth_error st i = Some p -> xs i = pr_x p) -> vss_reconstruct (E := unit) v s (map xs s) = Ok x.
Proof.
  intros C Hb Hf ck cd t n ks es Htn Hq H HE x. destruct (life_ok C Hb Hf ck cd t n Htn ks es H HE) as (rs & R1 & R2 & R3).
  assert (NTH : forall i, (i < n)%nat -> nth_error (map (h_lk C t n rs) (seq 0 n)) i = Some (h_lk C t n rs i)).
  { intros i Hi. rewrite nth_error_map, (nth_error_nth' _ 0%nat) by (rewrite seq_length; exact Hi). rewrite seq_nth by exact Hi. reflexivity. }
  exists (st_of C t n rs), (map (h_lk C t n rs) (seq 0 n)). split; [exact R2|]. split; [rewrite <- (map_length pr_u), st_of_u, map_length, seq_length; reflexivity|].
  split; [rewrite map_length, seq_length; reflexivity|]. split; [|split; [|split]].
  - intros lk Hlk. apply in_map_iff in Hlk. destruct Hlk as (j & <- & _). cbn [h_lk lk_y]. unfold x. rewrite <- R3. apply psum_smul_map.
  - rewrite st_of_u. exact R3.
  - intros i p lk P L. assert (Hi : (i < n)%nat) by (rewrite <- (seq_length n 0), <- (map_length (h_lk C t n rs)); apply nth_error_Some; congruence).
    rewrite (st_of_nth C t n rs i Hi) in P. rewrite (NTH i Hi) in L. injection P as <-. injection L as <-. reflexivity.
  - intros v s Hv Hnd Hin Hs xs Hxs. assert (XS : map xs s = map (fun i => peval (h_sum C n rs) (fidx (i + 1))) s).
    { apply map_ext_in. intros i Hi. rewrite (Hxs i _ Hi (st_of_nth C t n rs i (Hin i Hi))). cbn [pr_x]. rewrite h_x_poly. f_equal. f_equal. lia. }
    rewrite XS. unfold x. rewrite <- R3, <- (h_sum_hd C n rs). apply (reconstruct_ok C v _ n); try assumption; [|lia]. rewrite Hv. apply h_sum_length; [exact Htn|]. intros i Hi. apply (R1 i Hi).
Qed.
Print Assumptions C110_gg20_reshared_key.

(** The public key stays exactly if the factors add up to 0; nothing in the code checks it. *)
Theorem C110_gg20_key_kept_iff : forall (C : Curve) Hb (Hf : hashF C) ck cd t n ks es,
  (t < n)%nat -> Z.of_nat n < cq C -> run_rand_ok C ck cd t n ks -> (forall fac rs, In (fac, rs) es -> run_rand_ok C ck cd t n rs) ->
  exists keys0 st keys, kg_run C Hb Hf ck cd t n ks = Ok keys0 /\ life C Hb Hf ck cd t n ks es = Ok (st, keys) /\
  forall lk0 lk, In lk0 keys0 -> In lk keys -> (lk_y lk = lk_y lk0 <-> drift n es = f0).
Proof.
  intros C Hb Hf ck cd t n ks es Htn Hq H HE.
  destruct (C110_gg20_reshared_key C Hb Hf ck cd t n ks es Htn Hq H HE) as (st & keys & L & _ & _ & Y & _).
  destruct (C110_gg20_reshared_key C Hb Hf ck cd t n ks [] Htn Hq H) as (st0 & keys0 & L0 & _ & _ & Y0 & _); [intros ? ? []|].
  exists keys0, st, keys. split; [unfold life in L0; apply obind_ok in L0; destruct L0 as (l & E & L0); cbn in L0; congruence|]. split; [exact L|].
  intros lk0 lk I0 I. rewrite (Y lk I), (Y0 lk0 I0). unfold drift at 2. cbn [map]. change (fsum []) with (f0 : Fq (cq C)). split.
  - intros E. apply smul_gen_inj in E. apply add_cancel in E. exact E.
  - intros ->. reflexivity.
Qed.
Print Assumptions C110_gg20_key_kept_iff.

(** Any t+1 or more parties sign with the keys of the last run, and the signature is valid under the first public key. *)
Theorem C110_gg20_reshared_signers : forall (C : Curve) Hb (Hz : hashZ C) (Hf : hashF C) ck cd t n ks es (sl : list nat) (rs : nat -> sign_rand C) msg,
  (t < n)%nat -> Z.of_nat n < cq C -> (forall l, 0 <= Hz l) -> run_rand_ok C ck cd t n ks -> (forall fac rs, In (fac, rs) es -> run_rand_ok C ck cd t n rs) -> drift n es = f0 ->
  NoDup sl -> (forall i, In i sl -> (1 <= i <= n)%nat) -> (t < length sl)%nat ->
  let Y := smul (fsum (map (fun j => kr_u (ks j)) (seq 0 n))) (gen : pt C) in
  exists st keys, life C Hb Hf ck cd t n ks es = Ok (st, keys) /\
  forall lks : nat -> local_key C, (forall p i, nth_error sl p = Some i -> nth_error keys (i - 1) = Some (lks p)) ->
  sign_rand_ok Hz (lk_dl (lks 0%nat)) sl lks rs ->
  exists R x y cs, smul (fsum (map (fun p => sr_k (rs p)) (seq 0 (length sl)))) R = gen /\ coords R = Some (x, y) /\
  sg_run C Hb Hz Hf sl lks rs = Ok cs /\
  (padd (smul (of_Z (cq C) msg) gen) (smul (of_Z (cq C) x) Y) <> pzero ->
   exists sig, sg_online C msg cs = Ok (repeat sig (length sl)) /\
   to_Z (sg_r sig) = x mod cq C /\ to_Z (sg_s sig) <= (cq C - 1) / 2 /\
   ecdsa_eqn Y msg (to_Z (sg_r sig)) (to_Z (sg_s sig)) /\
   (x mod cq C <> 0 -> ecdsa_valid Y msg (to_Z (sg_r sig)) (to_Z (sg_s sig)))).
Proof.
  intros C Hb Hz Hf ck cd t n ks es sl rs msg Htn Hq HH H HE HD Hnd Hin Hs Y. destruct (life_ok C Hb Hf ck cd t n Htn ks es H HE) as (rs' & R1 & R2 & R3).
  eexists _, _. split; [exact R2|]. intros lks Hlks RO.
  destruct (C34_gg20_end_to_end C Hb Hz Hf ck cd t n rs' sl rs msg) as (keys & K1 & _ & K3); try assumption; try (intros i Hi; destruct (R1 i Hi) as (A1 & A2 & A3 & A4 & A5 & A6 & A7 & A8); auto 10).
  rewrite (run_honest C Hb Hf ck cd t n Htn rs' R1) in K1. apply ok_inj in K1. subst keys.
  assert (DL' : map (fun j => kr_dl (rs' j)) (seq 0 n) = lk_dl (lks 0%nat)).
  { destruct sl as [|i sl]; [cbn in Hs; lia|]. pose proof (Hlks 0%nat i eq_refl) as E. rewrite nth_error_map in E.
    destruct (nth_error (seq 0 n) (i - 1)); [|discriminate]. injection E as <-. reflexivity. }
  rewrite <- DL' in RO. assert (YE : fsum (map (fun j => kr_u (rs' j)) (seq 0 n)) = fsum (map (fun j => kr_u (ks j)) (seq 0 n))) by (rewrite R3, HD; apply (add_0_r C)).
  specialize (K3 lks Hlks RO). rewrite YE in K3. exact K3.
Qed.
Print Assumptions C110_gg20_reshared_signers.

(** Repeating key generation revokes nothing: the keys of the run before still sign for the public key of the last run. *)
Theorem C110_old_keys_revoked_refuted : forall (C : Curve) Hb (Hz : hashZ C) (Hf : hashF C) ck cd t n ks es (sl : list nat) (rs : nat -> sign_rand C) msg,
  (t < n)%nat -> Z.of_nat n < cq C -> (forall l, 0 <= Hz l) -> run_rand_ok C ck cd t n ks -> (forall fac rs, In (fac, rs) es -> run_rand_ok C ck cd t n rs) -> drift n es = f0 ->
  NoDup sl -> (forall i, In i sl -> (1 <= i <= n)%nat) -> (t < length sl)%nat ->
  exists keys0 st keys, kg_run C Hb Hf ck cd t n ks = Ok keys0 /\ life C Hb Hf ck cd t n ks es = Ok (st, keys) /\
  forall (lks : nat -> local_key C) lk, (forall p i, nth_error sl p = Some i -> nth_error keys0 (i - 1) = Some (lks p)) -> In lk keys ->
  sign_rand_ok Hz (lk_dl (lks 0%nat)) sl lks rs ->
  exists R x y cs, smul (fsum (map (fun p => sr_k (rs p)) (seq 0 (length sl)))) R = gen /\ coords R = Some (x, y) /\ sg_run C Hb Hz Hf sl lks rs = Ok cs /\
  (padd (smul (of_Z (cq C) msg) gen) (smul (of_Z (cq C) x) (lk_y lk)) <> pzero -> x mod cq C <> 0 ->
   exists sig, sg_online C msg cs = Ok (repeat sig (length sl)) /\ ecdsa_valid (lk_y lk) msg (to_Z (sg_r sig)) (to_Z (sg_s sig))).
Proof.
  intros C Hb Hz Hf ck cd t n ks es sl rs msg Htn Hq HH H HE HD Hnd Hin Hs.
  destruct (C110_gg20_reshared_key C Hb Hf ck cd t n ks es Htn Hq H HE) as (st & keys & L & _ & _ & Y & _).
  destruct (C110_gg20_reshared_signers C Hb Hz Hf ck cd t n ks [] sl rs msg) as (st0 & keys0 & L0 & S0); try assumption; [intros ? ? []|reflexivity|].
  exists keys0, st, keys. split; [unfold life in L0; apply obind_ok in L0; destruct L0 as (l & E & L0); cbn in L0; congruence|]. split; [exact L|].
  intros lks lk Hlks Hlk RO. destruct (S0 lks Hlks RO) as (R & x & y & cs & E1 & E2 & E3 & E4). exists R, x, y, cs. split; [exact E1|]. split; [exact E2|]. split; [exact E3|].
  rewrite (Y lk Hlk), HD, (add_0_r C). intros A B. destruct (E4 A) as (sig & S1 & _ & _ & _ & S2). exists sig. auto.
Qed.
Print Assumptions C110_old_keys_revoked_refuted.

(** ** Mixing runs *)
(** One signer that still has its share f(j) of an earlier run, the others with shares of f' (same secret): the additive shares
    (SignKeys::create) add up to the private key only if the share had not changed. *)
Theorem C110_stale_share_iff : forall (C : Curve) n (f f' : list (Fq (cq C))) s j (v : vss C) (gamma k : Fq (cq C)) (w : nat -> Fq (cq C)),
  NoDup s -> (forall i, In i s -> (i < n)%nat) -> Z.of_nat n < cq C -> (length f' <= length s)%nat -> In j s -> vs_n v = n ->
  (forall i, In i s -> exists keys, sg_create (peval (if (i =? j)%nat then f else f') (fidx (i + 1))) v i s gamma k = Ok keys /\ w i = sg_w keys) ->
  (fsum (map w s) = hd f0 f' <-> peval f (fidx (j + 1)) = peval f' (fidx (j + 1))).
Proof.
  intros C n f f' s j v gamma k w Hnd Hin Hq Hl Hj Hv Hw.
  assert (W : forall i, In i s -> w i = fmul (lam n s i) (peval (if (i =? j)%nat then f else f') (fidx (i + 1)))).
  { intros i Hi. destruct (Hw i Hi) as (keys & E & ->). unfold sg_create in E. rewrite Hv, (map_share_ok C n i s Hq (Hin i Hi) Hin) in E. cbn [obind] in E. apply ok_inj in E. subst keys. reflexivity. }
  assert (D : fsum (map w s) = fadd (hd f0 f') (fmul (lam n s j) (fsub (peval f (fidx (j + 1))) (peval f' (fidx (j + 1)))))).
  { rewrite <- (lam_sum C n f' s Hnd Hin Hq ltac:(intros ->; destruct Hj) Hl). clear - Hnd Hj W C. set (L := lam n s) in *. clearbody L. revert Hnd Hj W. induction s as [|a s IH]; intros Hnd Hj W; [destruct Hj|].
    inversion Hnd as [|? ? Ha Hs]; subst. cbn [map fsum]. rewrite (W a (or_introl eq_refl)). destruct (Nat.eqb_spec a j) as [->|Hn].
    - assert (T : map w s = map (fun i => fmul (L i) (peval f' (fidx (i + 1)))) s).
      { apply map_ext_in. intros i Hi. rewrite (W i (or_intror Hi)). destruct (Nat.eqb_spec i j) as [->|]; [contradiction|reflexivity]. }
      rewrite T. apply (stale_alg C).
    - destruct Hj as [Hj|Hj]; [congruence|]. rewrite (IH Hs Hj (fun i Hi => W i (or_intror Hi))). apply (add_assoc3 C). }
  rewrite D. split.
  - intros E. apply (zero_of C) in E. destruct E as [E|E]; [exfalso; revert E; apply lam_nz; auto|exact E].
  - intros ->. apply (stale_zero C).
Qed.
Print Assumptions C110_stale_share_iff.

(** ** GG18 *)
Definition run_rand18_ok (C : Curve) ck (t n : nat) (kr : nat -> kg18_rand C) : Prop :=
  forall i, (i < n)%nat -> length (kr18_coefs (kr i)) = t /\ ck (kr18_ck (kr i)) (kr18_p1 (kr i) * kr18_p2 (kr i)) = true /\ good_key (kr18_p1 (kr i)) (kr18_p2 (kr i)).
Section Proofs18.
Context (C : Curve).
Notation F := (Fq (cq C)).
Add Field cfield18 : (C_field C).
Context (Hb : list Z -> Z) (Hf : hashF C) (ck : Z -> Z -> bool) (t n : nat).
Context (Htn : (t < n)%nat).
Definition outs18 (rs : nat -> kg18_rand C) : list (shared_keys C * list (pt C)) :=
  map (fun i => ({| sk_y := psum (map (fun j => smul (kr18_u (rs j)) gen) (seq 0 n)); sk_x := g_x C n rs i |}, map (fun j => smul (g_x C n rs j) gen) (seq 0 n))) (seq 0 n).
Lemma run18_honest kr : run_rand18_ok C ck t n kr -> kg18_run C Hb Hf ck t n kr = Ok (outs18 kr).
Proof. intros H. apply kg18_run_honest; try assumption; intros i Hi; apply (H i Hi). Qed.
Lemma outs18_nth rs i : (i < n)%nat -> nth_error (outs18 rs) i =
  Some ({| sk_y := psum (map (fun j => smul (kr18_u (rs j)) gen) (seq 0 n)); sk_x := g_x C n rs i |}, map (fun j => smul (g_x C n rs j) gen) (seq 0 n)).
Proof. intros Hi. unfold outs18. rewrite nth_error_map, (nth_error_nth' _ 0%nat) by (rewrite seq_length; exact Hi). rewrite seq_nth by exact Hi. reflexivity. Qed.
Lemma privates18_nth rs i : (i < n)%nat -> nth_error (privates18 n rs (outs18 rs)) i =
  Some {| pr_u := kr18_u (rs i); pr_x := g_x C n rs i; pr_p1 := kr18_p1 (rs i); pr_p2 := kr18_p2 (rs i) |}.
Proof.
  intros Hi. unfold privates18. rewrite nth_error_map.
  assert (E : nth_error (combine (seq 0 n) (outs18 rs)) i = Some (i, ({| sk_y := psum (map (fun j => smul (kr18_u (rs j)) gen) (seq 0 n)); sk_x := g_x C n rs i |}, map (fun j => smul (g_x C n rs j) gen) (seq 0 n)))).
  { apply nth_error_combine. rewrite outs18_nth, (nth_error_nth' _ 0%nat) by (try exact Hi; rewrite seq_length; exact Hi). rewrite seq_nth by exact Hi. split; reflexivity. }
  rewrite E. reflexivity.
Qed.
Lemma next18_ok rs fac rs1 : run_rand18_ok C ck t n rs1 -> let rs' := next_rand18 (privates18 n rs (outs18 rs)) fac rs1 in
  run_rand18_ok C ck t n rs' /\ fsum (map (fun i => kr18_u (rs' i)) (seq 0 n)) = fadd (fsum (map (fun i => kr18_u (rs i)) (seq 0 n))) (fsum (map fac (seq 0 n))).
Proof.
  intros H rs'. unfold rs'. split.
  - intros i Hi. specialize (H i Hi). unfold next_rand18. rewrite (privates18_nth rs i Hi). cbn [refresh_private_key18 k18_u k18_p1 k18_p2 kr18_u kr18_p1 kr18_p2 kr18_ck kr18_coefs]. exact H.
  - rewrite <- fsum_map_add. f_equal. apply map_ext_in. intros i Hi. apply in_seq in Hi. unfold next_rand18. rewrite (privates18_nth rs i) by lia. reflexivity.
Qed.
Lemma reshares18_ok : forall es rs, run_rand18_ok C ck t n rs -> (forall fac rs1, In (fac, rs1) es -> run_rand18_ok C ck t n rs1) ->
  exists rs', run_rand18_ok C ck t n rs' /\ reshares18 C Hb Hf ck t n es rs (outs18 rs) = Ok (rs', outs18 rs') /\
  fsum (map (fun i => kr18_u (rs' i)) (seq 0 n)) = fadd (fsum (map (fun i => kr18_u (rs i)) (seq 0 n))) (drift n es).
Proof.
  induction es as [|[fac rs1] es IH]; intros rs H HE.
  - exists rs. split; [exact H|]. split; [reflexivity|]. symmetry. apply (add_0_r C).
  - destruct (next18_ok rs fac rs1 (HE _ _ (or_introl eq_refl))) as [N1 N2]. cbn [reshares18]. cbv zeta. rewrite (run18_honest _ N1). cbn [obind].
    destruct (IH _ N1) as (rs' & R1 & R2 & R3); [intros f r I; apply (HE f r); right; exact I|].
    exists rs'. split; [exact R1|]. split; [exact R2|]. rewrite R3, N2, drift_cons. cbn [fst]. field.
Qed.
Lemma life18_ok rs0 es : run_rand18_ok C ck t n rs0 -> (forall fac rs1, In (fac, rs1) es -> run_rand18_ok C ck t n rs1) ->
  exists rs', run_rand18_ok C ck t n rs' /\ life18 C Hb Hf ck t n rs0 es = Ok (rs', outs18 rs') /\
  fsum (map (fun i => kr18_u (rs' i)) (seq 0 n)) = fadd (fsum (map (fun i => kr18_u (rs0 i)) (seq 0 n))) (drift n es).
Proof. intros H HE. unfold life18. rewrite (run18_honest _ H). cbn [obind]. apply (reshares18_ok es rs0 H HE). Qed.
End Proofs18.

Theorem C110_gg18_key_kept_iff : forall (C : Curve) Hb (Hf : hashF C) ck t n kr es,
  (t < n)%nat -> run_rand18_ok C ck t n kr -> (forall fac rs, In (fac, rs) es -> run_rand18_ok C ck t n rs) ->
  let u := fsum (map (fun i => kr18_u (kr i)) (seq 0 n)) in
  exists rs' outs, life18 C Hb Hf ck t n kr es = Ok (rs', outs) /\ length outs = n /\
  (forall o, In o outs -> sk_y (fst o) = smul (fadd u (drift n es)) gen /\ (sk_y (fst o) = smul u gen <-> drift n es = f0)).
Proof.
  intros C Hb Hf ck t n kr es Htn H HE u. destruct (life18_ok C Hb Hf ck t n Htn kr es H HE) as (rs' & R1 & R2 & R3). exists rs', (outs18 C n rs').
  split; [exact R2|]. split; [unfold outs18; rewrite map_length, seq_length; reflexivity|]. intros o Ho. apply in_map_iff in Ho. destruct Ho as (i & <- & _). cbn [fst sk_y].
  rewrite psum_smul_map, R3. fold u. split; [reflexivity|]. split.
  - intros E. apply smul_gen_inj in E. rewrite <- (add_0_r C u) in E at 2. apply add_cancel in E. exact E.
  - intros ->. rewrite (add_0_r C). reflexivity.
Qed.
Print Assumptions C110_gg18_key_kept_iff.

Theorem C110_gg18_reshared_signers : forall (C : Curve) Hb (Hz : hashZ C) (Hf : hashF C) ck t n kr es (sv : list nat) (rs : nat -> rand18 C) msg,
  (t < n)%nat -> Z.of_nat n < cq C -> run_rand18_ok C ck t n kr -> (forall fac rs, In (fac, rs) es -> run_rand18_ok C ck t n rs) -> drift n es = f0 ->
  NoDup sv -> (forall i, In i sv -> (i < n)%nat) -> (t < length sv)%nat ->
  let Y := smul (fsum (map (fun j => kr18_u (kr j)) (seq 0 n))) (gen : pt C) in
  exists rs' outs, life18 C Hb Hf ck t n kr es = Ok (rs', outs) /\
  forall ks : nat -> party18 C,
  (forall p i o, nth_error sv p = Some i -> nth_error outs i = Some o ->
     ks p = {| p18_p1 := kr18_p1 (rs' i); p18_p2 := kr18_p2 (rs' i); p18_x := sk_x (fst o);
               p18_vss := map (fun j => {| vs_t := t; vs_n := n; vs_com := map (fun c => smul c gen) (kr18_u (rs' j) :: kr18_coefs (rs' j)) |}) (seq 0 n);
               p18_N := map (fun j => kr18_p1 (rs' j) * kr18_p2 (rs' j)) (seq 0 n); p18_y := sk_y (fst o) |}) ->
  rand18_ok C sv ks rs ->
  exists R x y, smul (fsum (map (fun p => r18_k (rs p)) (seq 0 (length sv)))) R = gen /\ coords R = Some (x, y) /\
  (padd (smul (of_Z (cq C) msg) gen) (smul (of_Z (cq C) x) Y) <> pzero ->
   exists sig, e18_run C Hb Hz Hf sv ks rs msg = Ok (repeat sig (length sv)) /\
   to_Z (sg_r sig) = x mod cq C /\ to_Z (sg_s sig) <= (cq C - 1) / 2 /\
   ecdsa_eqn Y msg (to_Z (sg_r sig)) (to_Z (sg_s sig)) /\
   (x mod cq C <> 0 -> ecdsa_valid Y msg (to_Z (sg_r sig)) (to_Z (sg_s sig)))).
Proof.
  intros C Hb Hz Hf ck t n kr es sv rs msg Htn Hq H HE HD Hnd Hin Hs Y. destruct (life18_ok C Hb Hf ck t n Htn kr es H HE) as (rs' & R1 & R2 & R3).
  exists rs', (outs18 C n rs'). split; [exact R2|]. intros ks Hks RO.
  destruct (C35_gg18_end_to_end C Hb Hz Hf ck t n rs' sv rs msg) as (outs & K1 & _ & K3); try assumption; try (intros i Hi; apply (R1 i Hi)).
  rewrite (run18_honest C Hb Hf ck t n Htn rs' R1) in K1. apply ok_inj in K1. subst outs. specialize (K3 ks Hks RO).
  assert (YE : fsum (map (fun j => kr18_u (rs' j)) (seq 0 n)) = fsum (map (fun j => kr18_u (kr j)) (seq 0 n))) by (rewrite R3, HD; apply (add_0_r C)).
  rewrite YE in K3. exact K3.
Qed.
Print Assumptions C110_gg18_reshared_signers.

(** ** Examples *)
(** GG20, three parties, threshold 1 (C20_example): factors 1, 2, 28 add up to 0 mod 31, so the key stays 13; new shares 25, 6, 18.
    With 29 instead of 28 it becomes 14. *)
Definition ex_fac (a b c : Z) (i : nat) : Fq (cq toy) := nth i [tz a; tz b; tz c] (tz 0).
Definition ex_life (es : list ((nat -> Fq (cq toy)) * (nat -> kg_rand toy))) :=
  match life toy exHb exHf3 (fun _ _ => true) (fun _ _ => Ok true) 1 3 exrs es with
  | Ok (st, lks) => (map (fun p => (to_Z (pr_u p), to_Z (pr_x p))) st, map lk_obs lks) | _ => ([], []) end.
Definition exrs_b (i : nat) : kg_rand toy := nth i [exkr 0 4 21; exkr 0 9 22; exkr 0 30 23] (exkr 0 0 0).
Example C110_example :
  ex_life [(ex_fac 1 2 28, exrs_b)] = ([(6, 25); (11, 6); (27, 18)], [(13, 25, [25; 6; 18]); (13, 6, [25; 6; 18]); (13, 18, [25; 6; 18])]) /\
  ex_life [(ex_fac 1 2 29, exrs_b)] = ([(6, 26); (11, 7); (28, 19)], [(14, 26, [26; 7; 19]); (14, 7, [26; 7; 19]); (14, 19, [26; 7; 19])]).
Proof. split; vm_compute; reflexivity. Qed.
(** GG18: key 5, signers 3 and 1, with the keys of the last run; and signer 3 with the last keys, signer 1 with the first ones. *)
Definition exkr18 (i : nat) : kg18_rand toy :=
  let mk p1 p2 u a nonce := {| kr18_u := tz u; kr18_p1 := p1; kr18_p2 := p2; kr18_blind := 77 + u; kr18_ck := 0; kr18_coefs := [tz a]; kr18_nonce := tz nonce |} in
  nth i [mk 37 41 1 2 11; mk 43 47 3 1 12; mk 53 59 1 4 13] (mk 0 0 0 0 0).
Definition exkr18b (i : nat) : kg18_rand toy :=
  let mk p1 p2 u a nonce := {| kr18_u := tz u; kr18_p1 := p1; kr18_p2 := p2; kr18_blind := 77 + u; kr18_ck := 0; kr18_coefs := [tz a]; kr18_nonce := tz nonce |} in
  nth i [mk 61 67 0 3 21; mk 71 73 0 5 22; mk 79 83 0 10 23] (mk 0 0 0 0 0).
Definition p18_of (rs : nat -> kg18_rand toy) (outs : list (shared_keys toy * list (pt toy))) (i : nat) : party18 toy :=
  match nth_error outs i with
  | Some o => {| p18_p1 := kr18_p1 (rs i); p18_p2 := kr18_p2 (rs i); p18_x := sk_x (fst o);
               p18_vss := map (fun j => {| vs_t := 1; vs_n := 3; vs_com := map (fun c => smul c gen) (kr18_u (rs j) :: kr18_coefs (rs j)) |}) (seq 0 3);
               p18_N := map (fun j => kr18_p1 (rs j) * kr18_p2 (rs j)) (seq 0 3); p18_y := sk_y (fst o) |}
  | None => exk18 0 end.
Definition sigs18 (ks : nat -> party18 toy) : option (list (Z * Z * Z)) :=
  match e18_run toy exHb2 exH exHf2 [2; 0]%nat ks exrs18' 9 with
  | Ok l => Some (map (fun s : sig_recid toy => (to_Z (sg_r s), to_Z (sg_s s), sg_recid s)) l) | _ => None end.
Definition ex_sign18 (es : list ((nat -> Fq (cq toy)) * (nat -> kg18_rand toy))) :=
  match life18 toy exHb2 exHf2 (fun _ _ => true) 1 3 exkr18 es with
  | Ok (rs, outs) => Some (sigs18 (fun p => p18_of rs outs (nth p [2; 0]%nat 0%nat)),
                           sigs18 (fun p => nth p [p18_of rs outs 2; exk18 0] (exk18 0)), map (fun o : shared_keys toy * list (pt toy) => (to_Z (sk_y (fst o) : Fq 31), to_Z (sk_x (fst o)))) outs)
  | _ => None end.
Example C110_gg18_example :
  ex_sign18 [] = Some (Some [(7, 9, 0); (7, 9, 0)], Some [(7, 9, 0); (7, 9, 0)], [(5, 12); (5, 19); (5, 26)]) /\
  ex_sign18 [(ex_fac 1 2 28, exkr18b)] = Some (Some [(7, 9, 0); (7, 9, 0)], None, [(5, 23); (5, 10); (5, 28)]) /\
  ex_sign18 [(ex_fac 1 2 29, exkr18b); (ex_fac 5 4 21, exkr18b)] = Some (Some [(7, 9, 0); (7, 9, 0)], None, [(5, 23); (5, 10); (5, 28)]).
Proof. split; [|split]; vm_compute; reflexivity. Qed.
Example C110_stale_example : peval [tz 5; tz 7] (fidx 1 : Fq (cq toy)) = tz 12 /\ peval [tz 5; tz 18] (fidx 1 : Fq (cq toy)) = tz 23.
Proof. split; apply fq_ext; vm_compute; reflexivity. Qed.
Lemma ex_run18 : run_rand18_ok toy (fun _ _ => true) 1 3 exkr18 /\ run_rand18_ok toy (fun _ _ => true) 1 3 exkr18b.
Proof.
  split; intros i Hi; (split; [destruct i as [|[|[|i]]]; [reflexivity|reflexivity|reflexivity|lia]|]); (split; [reflexivity|]);
    (destruct i as [|[|[|i]]]; [| | |lia]; refine (conj _ (conj _ _)); try (apply prime_check; [cbn; lia|vm_compute; reflexivity]); cbn; lia).
Qed.
(** Keys of different runs do not work together, although both sets work by themselves. *)
Theorem C110_runs_mix_refuted : exists (es : list ((nat -> Fq (cq toy)) * (nat -> kg18_rand toy))) rs outs,
  run_rand18_ok toy (fun _ _ => true) 1 3 exkr18 /\ (forall fac r, In (fac, r) es -> run_rand18_ok toy (fun _ _ => true) 1 3 r) /\ drift 3 es = f0 /\
  life18 toy exHb2 exHf2 (fun _ _ => true) 1 3 exkr18 [] = Ok (exkr18, outs18 toy 3 exkr18) /\ life18 toy exHb2 exHf2 (fun _ _ => true) 1 3 exkr18 es = Ok (rs, outs) /\
  let old i := p18_of exkr18 (outs18 toy 3 exkr18) i in let new i := p18_of rs outs i in
  sigs18 (fun p => nth p [old 2; old 0] (old 0))%nat <> None /\ sigs18 (fun p => nth p [new 2; new 0] (new 0))%nat <> None /\ sigs18 (fun p => nth p [new 2; old 0] (old 0))%nat = None.
Proof.
  exists [(ex_fac 1 2 28, exkr18b)], (next_rand18 (privates18 3 exkr18 (outs18 toy 3 exkr18)) (ex_fac 1 2 28) exkr18b), (outs18 toy 3 (next_rand18 (privates18 3 exkr18 (outs18 toy 3 exkr18)) (ex_fac 1 2 28) exkr18b)).
  split; [exact (proj1 ex_run18)|]. split; [intros fac r [E|[]]; injection E as _ <-; exact (proj2 ex_run18)|]. split; [apply fq_ext; vm_compute; reflexivity|].
  assert (R0 := run18_honest toy exHb2 exHf2 (fun _ _ => true) 1 3 ltac:(lia) exkr18 (proj1 ex_run18)).
  assert (R1 := run18_honest toy exHb2 exHf2 (fun _ _ => true) 1 3 ltac:(lia) _ (proj1 (next18_ok toy (fun _ _ => true) 1 3 ltac:(lia) exkr18 (ex_fac 1 2 28) exkr18b (proj2 ex_run18)))).
  split; [unfold life18; rewrite R0; reflexivity|]. split; [unfold life18; rewrite R0; cbn [obind reshares18]; cbv zeta; rewrite R1; reflexivity|].
  cbv zeta. split; [|split]; vm_compute; [discriminate|discriminate|reflexivity].
Qed.
Print Assumptions C110_runs_mix_refuted.
Example C110_example_hypotheses : exists ck cd (ks : nat -> kg_rand secp256k1), run_rand_ok secp256k1 ck cd 1 3 ks.
Proof.
  destruct ex_keys as (rc & rd & ks & K). exists (fun p N => ck_ok exm 30030 (rc p) N), (fun p st => cd_verify (fun _ => 3) (rd p) st), ks. intros i Hi.
  destruct (library_facts secp256k1 exm 30030 (fun _ => 3) rc rd (ks i) (fun _ => ltac:(lia)) (proj2 (K i Hi))) as ((A1 & A2 & A3 & A4 & A5) & A6 & A7).
  split; [apply (K i Hi)|]. auto 10.
Qed.

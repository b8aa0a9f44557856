(** The honest GG20 signing run computes the expected values. *)
From Coq Require Import ZArith Lia Bool List Field.
From Verif Require Import ZArithX Fq Curve Outcome Sigma SigmaProofs Bytes Vss VssProofs Paillier PaillierProofs RangeProofs RangeProofsProofs
  PdlSlack PdlSlackProofs Mta MtaProofs Ecdsa EcdsaProofs Mp MpProofs Gg20Keygen KeygenRun KeygenRunProofs Gg20Sign SignProofs SignRun.
Import ListNotations.
Local Open Scope Z_scope.

Lemma omapM_ind {E A} (f : nat -> outcome E A) (g : nat -> A) i m : (i < m)%nat ->
  (forall id, In id (others i m) -> f id = Ok (g id)) -> omapM (fun j => f (ind i j)) (seq 0 (m - 1)) = Ok (map g (others i m)).
Proof.
  intros Hi H. rewrite (omapM_all _ (fun j => g (ind i j))).
  - rewrite <- (map_map (ind i) g), ind_map by exact Hi. reflexivity.
  - intros j Hj. apply in_seq in Hj. apply H. rewrite <- ind_map by exact Hi. apply in_map_iff. exists j. split; [reflexivity|]. apply in_seq. lia.
Qed.
Lemma nth_o_others {E A} (f : nat -> A) i m j : (i < m)%nat -> (j < m - 1)%nat -> nth_o (E := E) (map f (others i m)) j = Ok (f (ind i j)).
Proof. intros Hi Hj. rewrite <- ind_map, map_map by exact Hi. rewrite nth_o_map_seq by exact Hj. reflexivity. Qed.
Lemma filter_all {A} (f : A -> bool) l : (forall x, In x l -> f x = true) -> filter f l = l.
Proof. induction l as [|a l IH]; intros H; [reflexivity|]. cbn [filter]. rewrite (H a (or_introl eq_refl)), IH; [reflexivity|]. intros x Hx. apply H. right. exact Hx. Qed.
Lemma filter_receivers i m : (i < m)%nat -> filter (fun j => negb (j =? S i)%nat) (seq 1 m) = map S (others i m).
Proof.
  intros H. unfold others. replace m with (i + (1 + (m - S i)))%nat at 1 by lia. rewrite !seq_app, !filter_app. cbn [plus seq filter].
  rewrite Nat.eqb_refl. cbn [negb app]. rewrite map_app, !seq_shift. f_equal.
  - apply filter_all. intros x Hx. apply in_seq in Hx. destruct (Nat.eqb_spec x (S i)); [lia|reflexivity].
  - replace (S (i + 1)) with (S (S i)) by lia. apply filter_all. intros x Hx. apply in_seq in Hx. destruct (Nat.eqb_spec x (S i)); [lia|reflexivity].
Qed.
Lemma addressed_others {E A} (f : nat -> A) r l : In r l -> addressed (E := E) (S r) (combine (map S l) (map f l)) = Ok (f r).
Proof.
  intros H. unfold addressed. rewrite combine_map2.
  assert (K : find (fun x => (fst x =? S r)%nat) (map (fun x => (S x, f x)) l) = Some (S r, f r)).
  { induction l as [|a l IH]; [destruct H|]. cbn [map find fst]. destruct (Nat.eqb_spec (S a) (S r)) as [E1|E1]; [injection E1 as ->; reflexivity|].
    apply IH. destruct H as [->|H]; [congruence|exact H]. }
  rewrite K. reflexivity.
Qed.

Section P.
Context (C : Curve).
Notation q := (cq C).
Notation F := (Fq q).
Notation res := (outcome mp_error).
Add Field cfield : (C_field C).

(** What key generation leaves with the party of (0-based) index [i]: its share of the polynomial [f], everybody's
    public share, modulus and setup, the public key and its own Paillier primes. *)
Definition key_ok (n : nat) (f : list F) (Ns : list Z) (dls : list dlstmt) (i : nat) (lk : local_key C) : Prop :=
  lk_i lk = S i /\ sk_x (lk_shared lk) = peval f (fidx (i + 1)) /\ vs_n (lk_vss lk) = n /\
  lk_pk lk = map (fun j => smul (peval f (fidx (j + 1))) gen) (seq 0 n) /\ lk_N lk = Ns /\ lk_dl lk = dls /\
  lk_y lk = smul (hd f0 f) gen /\ good_key (lk_p1 lk) (lk_p2 lk) /\ nth_error Ns i = Some (lk_p1 lk * lk_p2 lk).
Definition prand_ok (p : prand) : Prop := 0 <= pr_alpha p /\ 0 <= pr_beta p /\ 0 <= pr_rho p /\ 0 <= pr_gamma p.
(** The values sampled for the answer with secret [b] to the holder of [a] and modulus [N]: the plaintext a * b + beta' does not wrap modulo N. *)
Definition brand_ok (N : Z) (a b : F) (k : brand C) : Prop := Z.gcd (br_r k) N = 1 /\ 0 <= br_bt k /\ to_Z a * to_Z b + br_bt k < N.
Lemma brand_small N a b k : Z.gcd (br_r k) N = 1 -> 0 <= br_bt k -> q * q + br_bt k <= N -> brand_ok N a b k.
Proof.
  intros G B L. split; [exact G|]. split; [exact B|]. pose proof (to_Z_range (cq_prime C) a) as Ra. pose proof (to_Z_range (cq_prime C) b) as Rb. nia.
Qed.

Section Honest.
Context (Hb : list Z -> Z) (Hz : hashZ C) (Hf : hashF C).
Context (n : nat) (f : list F) (Ns : list Z) (dls : list dlstmt) (sl : list nat) (lks : nat -> local_key C) (rs : nat -> sign_rand C).
Notation m := (length sl).

Definition s_idx (p : nat) : nat := nth p (l_s sl) 0%nat.
Definition s_k (p : nat) : F := sr_k (rs p).
Definition s_g (p : nat) : F := sr_gamma (rs p).
Definition s_w (p : nat) : F := (lam n (l_s sl) (s_idx p) * peval f (fidx (s_idx p + 1)))%Fq.
(** The same number from what the signer holds *)
Definition s_wk (p : nat) : F := (lam (vs_n (lk_vss (lks p))) (l_s sl) (s_idx p) * sk_x (lk_shared (lks p)))%Fq.
Definition s_N (p : nat) : Z := lk_p1 (lks p) * lk_p2 (lks p).
Definition s_keys (p : nat) : sign_keys C :=
  {| sg_w := s_w p; sg_gw := smul (s_w p) gen; sg_k := s_k p; sg_gamma := s_g p; sg_ggamma := smul (s_g p) gen |}.
Definition s_com (p : nat) : Z := commit_pt Hb (smul (s_g p) gen) (sr_blind (rs p)).
Definition s_dec (p : nat) : sign_dec C := {| sd_blind := sr_blind (rs p); sd_g := smul (s_g p) gen |}.
Definition s_ma (p : nat) : msg_a := mta_a Hz (s_k p) (s_N p) (sr_r (rs p)) (combine dls (map (sr_ar (rs p)) (seq 0 (length dls)))).
Definition s_c (p : nat) : Z := enc (s_N p) (to_Z (s_k p)) (sr_r (rs p)).
Definition s_mbg (p id : nat) : msg_b C := honest_mb Hf (s_g p) (s_N id) (s_c id) (sr_bg (rs p) id).
Definition s_mbw (p id : nat) : msg_b C := honest_mb Hf (s_w p) (s_N id) (s_c id) (sr_bw (rs p) id).
Definition s_beta (p id : nat) : F := (f0 - of_Z q (br_bt (sr_bg (rs p) id)))%Fq.
Definition s_ni (p id : nat) : F := (f0 - of_Z q (br_bt (sr_bw (rs p) id)))%Fq.
Definition s_alpha (p id : nat) : F := of_Z q (to_Z (s_k p) * to_Z (s_g id) + br_bt (sr_bg (rs id) p)).
Definition s_miu (p id : nat) : F := of_Z q (to_Z (s_k p) * to_Z (s_w id) + br_bt (sr_bw (rs id) p)).
Definition s_delta (p : nat) : F := (s_k p * s_g p + fsum (map (fun i => (s_alpha p i + s_beta p i)%Fq) (others p m)))%Fq.
Definition s_sigma (p : nat) : F := (s_k p * s_w p + fsum (map (fun i => (s_miu p i + s_ni p i)%Fq) (others p m)))%Fq.
Definition s_T (p : nat) : pt C := padd (smul (s_sigma p) gen) (smul (sr_l (rs p)) gen2).
Definition s_tp (p : nat) : ped_proof C := ped_prove Hf (s_sigma p) (sr_l (rs p)) (sr_p1 (rs p)) (sr_p2 (rs p)).
Definition s_ksum : F := fsum (map s_k (seq 0 m)).
Definition s_gsum : F := fsum (map s_g (seq 0 m)).
Definition s_R : pt C := smul (finv s_ksum) gen.
Definition s_Rd (p : nat) : pt C := smul (s_k p) s_R.
Definition s_dl (p : nat) : dlstmt := nth (s_idx p) dls {| dl_N := 0; dl_h1 := 0; dl_h2 := 0 |}.
Definition s_pdl (p id : nat) : pdls_proof C :=
  match pdls_prove Hz (s_k p) (sr_r (rs p)) (sg_pdl_stmt (s_Rd p) s_R (s_c p) (s_N p) (s_dl id))
     (pr_alpha (sr_pdl (rs p) id)) (pr_beta (sr_pdl (rs p) id)) (pr_rho (sr_pdl (rs p) id)) (pr_gamma (sr_pdl (rs p) id)) with
  | Ok x => x
  | _ => {| pp_z := 0; pp_u1 := gen; pp_u2 := 0; pp_u3 := 0; pp_s1 := 0; pp_s2 := 0; pp_s3 := 0 |}
  end.
Definition s_S (p : nat) : pt C := smul (s_sigma p) s_R.
Definition s_heg (p : nat) : heg_proof C :=
  heg_prove Hf (s_sigma p) (sr_l (rs p)) (sr_h1 (rs p)) (sr_h2 (rs p)) (sg_heg_stmt s_R (s_T p) (s_S p)).
Definition s_out (p : nat) : completed C :=
  {| co_i := S p; co_lk := lks p; co_keys := s_keys p; co_ts := map s_T (seq 0 m); co_R := s_R; co_sigma := s_sigma p |}.

Definition signers_ok : Prop :=
  NoDup sl /\ (forall x, In x sl -> (1 <= x <= n)%nat) /\ Z.of_nat n < q /\ f <> [] /\ (length f <= m)%nat /\
  length dls = n /\ Forall good_st dls /\ (forall p, (p < m)%nat -> key_ok n f Ns dls (s_idx p) (lks p)).
(** Side conditions on the sampled values: Paillier randomness coprime to the modulus, non-negative masks, no wrap-around
    in the Paillier plaintext, range proof responses within the bound, no zero sums. *)
Definition sign_rand_ok : Prop :=
  (forall p, (p < m)%nat -> Z.gcd (sr_r (rs p)) (s_N p) = 1 /\ (forall j, arand_ok (sr_ar (rs p) j)) /\ (forall j, prand_ok (sr_pdl (rs p) j)) /\
     Forall (fun a => ap_s1 a <= q ^ 3) (ma_proofs (s_ma p)) /\
     (forall id, (id < m)%nat -> id <> p -> brand_ok (s_N id) (s_k id) (s_g p) (sr_bg (rs p) id) /\ brand_ok (s_N id) (s_k id) (s_wk p) (sr_bw (rs p) id))) /\
  s_ksum <> f0 /\ s_gsum <> f0.

Context (HHz : forall l, 0 <= Hz l) (KO : signers_ok) (RO : sign_rand_ok).

Lemma m_pos : (0 < m)%nat.
Proof. destruct KO as (_ & _ & _ & Hn & Hl & _). destruct f; [congruence|]. cbn [length] in Hl. lia. Qed.
Lemma l_s_length : length (l_s sl) = m.
Proof. apply map_length. Qed.
Lemma l_s_nth p : (p < m)%nat -> nth_error (l_s sl) p = Some (s_idx p).
Proof. intros H. unfold s_idx. apply nth_error_nth'. rewrite l_s_length. exact H. Qed.
Lemma l_s_eq : l_s sl = map s_idx (seq 0 m).
Proof. rewrite <- (map_seq_nth 0%nat (l_s sl)) at 1. rewrite l_s_length. reflexivity. Qed.
Lemma l_s_in x : In x (l_s sl) -> (x < n)%nat.
Proof. intros H. apply in_map_iff in H. destruct H as (y & <- & Hy). apply KO in Hy. lia. Qed.
Lemma idx_lt p : (p < m)%nat -> (s_idx p < n)%nat.
Proof. intros H. apply l_s_in. apply (nth_error_In _ p). apply l_s_nth, H. Qed.
Lemma l_s_NoDup : NoDup (l_s sl).
Proof.
  destruct KO as (Hnd & Hr & _). clear - Hnd Hr. induction sl as [|a l IH]; [constructor|]. inversion Hnd; subst. cbn [l_s map]. constructor.
  - intros Hin. apply in_map_iff in Hin. destruct Hin as (y & E & Hy). assert (y = a); [|subst; contradiction].
    pose proof (Hr y (or_intror Hy)). pose proof (Hr a (or_introl eq_refl)). lia.
  - apply IH; [assumption|]. intros x Hx. apply Hr. right. exact Hx.
Qed.
Lemma s_sl_nth p : (p < m)%nat -> exists x, nth_error sl p = Some x /\ (x - 1)%nat = s_idx p.
Proof.
  intros H. destruct (nth_error sl p) as [x|] eqn:E; [|apply nth_error_None in E; lia]. exists x. split; [reflexivity|].
  apply nth_error_l_s in E. rewrite l_s_nth in E by exact H. congruence.
Qed.
Lemma w_sum : fsum (map s_w (seq 0 m)) = hd f0 f.
Proof.
  destruct KO as (_ & _ & Hq & Hf0 & Hl & _). rewrite <- (lam_sum C n f (l_s sl) l_s_NoDup l_s_in Hq).
  - transitivity (fsum (map (fun i => (lam n (l_s sl) i * peval f (fidx (i + 1)))%Fq) (map s_idx (seq 0 m))) : F);
      [rewrite map_map; reflexivity|rewrite <- l_s_eq; reflexivity].
  - intros E. apply (f_equal (@length nat)) in E. rewrite l_s_length in E. pose proof m_pos. cbn in E. lia.
  - rewrite l_s_length. exact Hl.
Qed.
Lemma delta_sum : fsum (map s_delta (seq 0 m)) = (s_ksum * s_gsum)%Fq.
Proof. apply (dsum C s_k s_g s_alpha s_beta). intros p i _ _ _. apply mta_run_beta. Qed.
Lemma sigma_sum : fsum (map s_sigma (seq 0 m)) = (s_ksum * hd f0 f)%Fq.
Proof. rewrite <- w_sum. apply (dsum C s_k s_w s_miu s_ni). intros p i _ _ _. apply mta_run_beta. Qed.
Lemma fst_combine {A B} (l : list A) (l' : list B) : length l = length l' -> map fst (combine l l') = l.
Proof. revert l'. induction l as [|a l IH]; intros [|b l'] H; cbn in H; try discriminate; [reflexivity|]. cbn. rewrite IH by lia. reflexivity. Qed.
Lemma s_key p : (p < m)%nat -> good_key (lk_p1 (lks p)) (lk_p2 (lks p)).
Proof. intros H. apply KO in H. apply H. Qed.
Lemma s_N_gt1 p : (p < m)%nat -> 1 < s_N p.
Proof. intros H. apply good_key_gt1, s_key, H. Qed.
Lemma s_nthN p i : (p < m)%nat -> (i < m)%nat -> nth_error (lk_N (lks p)) (s_idx i) = Some (s_N i).
Proof.
  intros Hp Hi. destruct KO as (_ & _ & _ & _ & _ & _ & _ & HK).
  destruct (HK p Hp) as (_ & _ & _ & _ & -> & _). destruct (HK i Hi) as (_ & _ & _ & _ & _ & _ & _ & _ & E). exact E.
Qed.
Lemma s_dl_ok i : (i < m)%nat -> nth_error dls (s_idx i) = Some (s_dl i) /\ good_st (s_dl i).
Proof.
  intros Hi. destruct KO as (_ & _ & _ & _ & _ & HL & HG & _). pose proof (idx_lt i Hi).
  assert (E : nth_error dls (s_idx i) = Some (s_dl i)) by (apply nth_error_nth'; lia). split; [exact E|].
  rewrite Forall_forall in HG. apply HG. apply nth_error_In in E. exact E.
Qed.
Lemma s_b p id (b : F) (k : brand C) : (p < m)%nat -> (id < m)%nat ->
  sg_b Hz Hf b (s_N id) (s_ma id) k dls = Ok (honest_mb Hf b (s_N id) (s_c id) k, (f0 - of_Z q (br_bt k))%Fq).
Proof.
  intros Hp Hi. destruct RO as (HR & _). destruct (HR id Hi) as (Hr & Ha & _ & HF & _).
  pose proof (sg_b_honest C Hz Hf b (s_k id) (lk_p1 (lks id)) (lk_p2 (lks id)) (sr_r (rs id))
     (combine dls (map (sr_ar (rs id)) (seq 0 (length dls)))) k (s_key id Hi) Hr HHz) as L.
  rewrite fst_combine in L by (rewrite map_length, seq_length; reflexivity). apply L; [|exact HF].
  intros st k0 Hin. split.
  - apply in_combine_l in Hin. destruct KO as (_ & _ & _ & _ & _ & _ & HG & _). rewrite Forall_forall in HG. apply HG, Hin.
  - apply in_combine_r, in_map_iff in Hin. destruct Hin as (j & <- & _). apply Ha.
Qed.
Lemma s_wk_ok p : (p < m)%nat -> s_wk p = s_w p.
Proof. intros H. destruct KO as (_ & _ & _ & _ & _ & _ & _ & HK). destruct (HK p H) as (_ & EX & EV & _). unfold s_wk, s_w. rewrite EX, EV. reflexivity. Qed.
Lemma s_alpha_ok p id : (p < m)%nat -> (id < m)%nat -> id <> p -> sg_alpha Hf (s_mbg id p) (lks p) (s_k p) = Ok (s_alpha p id).
Proof.
  intros Hp Hi Hne. destruct RO as (HR & _). destruct (HR id Hi) as (_ & _ & _ & _ & HB). destruct (HB p Hp ltac:(congruence)) as [(B1 & B2 & B3) _].
  destruct (HR p Hp) as (Hr & _). apply (sg_alpha_honest C Hf (s_g id) (s_k p) _ _ (sr_r (rs p))); try reflexivity; try assumption. apply s_key, Hp.
Qed.
Lemma s_miu_ok p id : (p < m)%nat -> (id < m)%nat -> id <> p -> sg_alpha Hf (s_mbw id p) (lks p) (s_k p) = Ok (s_miu p id).
Proof.
  intros Hp Hi Hne. destruct RO as (HR & _). destruct (HR id Hi) as (_ & _ & _ & _ & HB). destruct (HB p Hp ltac:(congruence)) as [_ (B1 & B2 & B3)]. rewrite s_wk_ok in B3 by exact Hi.
  destruct (HR p Hp) as (Hr & _). apply (sg_alpha_honest C Hf (s_w id) (s_k p) _ _ (sr_r (rs p))); try reflexivity; try assumption. apply s_key, Hp.
Qed.
Lemma s_lam i : (i < n)%nat -> map_share (E := mp_error) (C := C) n i (l_s sl) = Ok (lam n (l_s sl) i).
Proof. intros H. apply map_share_ok; [apply KO|exact H|apply l_s_in]. Qed.
Lemma s_gw_vec p : (p < m)%nat -> sg_gw_vec (lk_pk (lks p)) (l_s sl) (lk_vss (lks p)) = Ok (map (fun i => smul (s_w i) gen) (seq 0 m)).
Proof.
  intros Hp. destruct KO as (_ & _ & _ & _ & _ & _ & _ & HK). destruct (HK p Hp) as (_ & _ & EV & EP & _). unfold sg_gw_vec. rewrite EV, EP.
  rewrite (omapM_all _ (fun i => smul (lam n (l_s sl) i * peval f (fidx (i + 1)))%Fq gen)).
  - f_equal. transitivity (map (fun i => smul (lam n (l_s sl) i * peval f (fidx (i + 1)))%Fq (gen (c := C))) (map s_idx (seq 0 m)));
      [rewrite <- l_s_eq; reflexivity|rewrite map_map; reflexivity].
  - intros i Hi. apply l_s_in in Hi. rewrite s_lam by exact Hi. cbn [obind]. rewrite nth_o_map_seq by exact Hi. cbn [obind plus].
    f_equal. apply dlog_inj. autorewrite with dlog. ring.
Qed.
Lemma s_R_eq : smul (finv (fsum (map s_delta (seq 0 m)))) (psum (map (fun p => smul (s_g p) gen) (seq 0 m))) = s_R.
Proof.
  destruct RO as (_ & Hk & Hg). rewrite delta_sum. rewrite (psum_smul_R C s_g gen). fold s_gsum. unfold s_R.
  apply dlog_inj. autorewrite with dlog. field. auto.
Qed.
Lemma s_pdl_ok p id : (p < m)%nat -> (id < m)%nat ->
  sg_pdl Hz (s_Rd p) s_R (s_c p) (s_N p) (s_k p) (sr_r (rs p)) (s_dl id) (sr_pdl (rs p) id) = Ok (s_pdl p id) /\
  pdls_verify Hz (s_pdl p id) (sg_pdl_stmt (s_Rd p) s_R (s_c p) (s_N p) (s_dl id)) = Ok tt.
Proof.
  intros Hp Hi. destruct RO as (HR & _). destruct (HR p Hp) as (Hr & _ & Hpd & _). destruct (Hpd id) as (P1 & P2 & P3 & P4).
  destruct (sg_pdl_honest C Hz s_R (s_k p) (s_N p) (sr_r (rs p)) (s_dl id) (sr_pdl (rs p) id) (s_N_gt1 p Hp) (proj2 (s_dl_ok id Hi)) HHz P1 P2 P3 P4 Hr)
    as (pf & E1 & E2).
  assert (E3 : s_pdl p id = pf) by (unfold s_pdl, s_Rd, s_c; rewrite E1; reflexivity).
  rewrite E3. split; [|exact E2]. unfold sg_pdl, s_Rd, s_c. rewrite E1. reflexivity.
Qed.

Lemma sg_pre_honest : sg_pre C Hb Hz Hf sl lks rs =
  Ok (map (fun p => ({| s3_i := S p; s3_sl := sl; s3_lk := lks p; s3_ma := s_ma p; s3_mar := sr_r (rs p); s3_keys := s_keys p;
     s3_mbs := map (fun id => s_mbg id p) (others p m); s3_coms := map s_com (seq 0 m); s3_mas := map s_ma (seq 0 m); s3_delta := s_delta p; s3_t := s_T p;
     s3_l := sr_l (rs p); s3_sigma := s_sigma p; s3_tp := s_tp p; s3_dec := s_dec p |}, (s_delta p, s_T p, s_tp p))) (seq 0 m)).
Proof.
  unfold sg_pre. cbv zeta. pose proof KO as (_ & _ & _ & _ & _ & HL & _ & HK). pose proof RO as (_ & Hk0 & Hg0).
  (* round 0 *)
  rewrite (omapM_all _ (fun p => ({| s1_i := S p; s1_sl := sl; s1_lk := lks p; s1_ma := s_ma p; s1_mar := sr_r (rs p); s1_keys := s_keys p;
     s1_com := s_com p; s1_dec := s_dec p |}, (s_ma p, s_com p)))).
  2:{ intros p Hp. apply in_seq in Hp. destruct (HK p ltac:(lia)) as (K1 & K2 & K3 & K4 & K5 & K6 & K7 & K8 & K9).
      destruct (s_sl_nth p ltac:(lia)) as (x & Ex & Ix). unfold sg_r0. replace (S p - 1)%nat with p by lia.
      rewrite (proj2 (nth_o_ok _ _ _) Ex). cbn [obind]. unfold sg_create. rewrite K3, Ix, s_lam by (apply idx_lt; lia). cbn [obind].
      unfold sg_phase1. rewrite K1. replace (S (s_idx p) - 1)%nat with (s_idx p) by lia.
      rewrite (proj2 (nth_o_ok _ _ _) (s_nthN p p ltac:(lia) ltac:(lia))). cbn [obind sg_k sg_gamma sg_ggamma]. rewrite K2, K6. reflexivity. }
  cbn [obind].
  (* round 1 *)
  rewrite (omapM_all _ (fun p => ({| s2_i := S p; s2_sl := sl; s2_lk := lks p; s2_ma := s_ma p; s2_mar := sr_r (rs p); s2_keys := s_keys p;
     s2_betas := map (s_beta p) (others p m); s2_nis := map (s_ni p) (others p m); s2_coms := map s_com (seq 0 m); s2_mas := map s_ma (seq 0 m);
     s2_dec := s_dec p |}, combine (map S (others p m)) (map (fun id => (s_mbg p id, s_mbw p id)) (others p m))))).
  2:{ intros p Hp. apply in_seq in Hp. rewrite nth_o_map_seq by lia. cbn [obind plus fst]. unfold sg_r1.
      cbn [s1_i s1_sl s1_lk s1_ma s1_mar s1_keys s1_com s1_dec]. rewrite map_map. cbn [snd]. rewrite but_map_seq by lia.
      replace (S p - 1)%nat with p by lia. rewrite (incl_me_others (fun p => (s_ma p, s_com p))) by lia. rewrite !map_map. cbn [fst snd].
      rewrite (proj2 (Nat.ltb_lt 0 m) m_pos). cbn [oassert obind].
      rewrite (omapM_ind (fun id => let* k := nth_o (l_s sl) id in let* N := nth_o (lk_N (lks p)) k in let* ma := nth_o (map (fun x => s_ma x) (seq 0 m)) id in
         let* g := sg_b Hz Hf (sg_gamma (s_keys p)) N ma (sr_bg (rs p) id) (lk_dl (lks p)) in
         let* w := sg_b Hz Hf (sg_w (s_keys p)) N ma (sr_bw (rs p) id) (lk_dl (lks p)) in Ok (g, w))
         (fun id => ((s_mbg p id, s_beta p id), (s_mbw p id, s_ni p id)))).
      - cbn [obind]. rewrite !map_map. cbn [fst snd]. rewrite filter_receivers by lia. reflexivity.
      - lia.
      - intros id Hid. apply in_others in Hid. destruct (HK p ltac:(lia)) as (_ & _ & _ & _ & _ & K6 & _).
        rewrite (proj2 (nth_o_ok _ _ _) (l_s_nth id ltac:(lia))). cbn [obind].
        rewrite (proj2 (nth_o_ok _ _ _) (s_nthN p id ltac:(lia) ltac:(lia))). cbn [obind].
        rewrite nth_o_map_seq by lia. cbn [obind plus]. rewrite K6. rewrite (s_b p) by lia. cbn [obind]. rewrite (s_b p) by lia. cbn [obind]. reflexivity. }
  cbn [obind].
  (* round 2 *)
  apply omapM_all.
  intros p Hp. apply in_seq in Hp. rewrite nth_o_map_seq by lia. cbn [obind plus fst]. rewrite map_map. cbn [snd]. rewrite but_map_seq by lia.
      assert (HI : forall l, (forall j, In j l -> (j < m)%nat /\ j <> p) ->
        omapM (addressed (E := mp_error) (S p)) (map (fun j => combine (map S (others j m)) (map (fun id => (s_mbg j id, s_mbw j id)) (others j m))) l) =
        Ok (map (fun j => (s_mbg j p, s_mbw j p)) l)).
      { induction l as [|a l IH]; intros H; [reflexivity|]. destruct (H a (or_introl eq_refl)). cbn [map omapM].
        rewrite (addressed_others (fun id => (s_mbg a id, s_mbw a id))) by (apply in_others; lia). cbn [obind].
        rewrite IH; [reflexivity|]. intros j Hj. apply H. right. exact Hj. }
      rewrite HI by (intros j Hj; apply in_others in Hj; lia). cbn [obind]. unfold sg_r2.
      cbn [s2_i s2_sl s2_lk s2_ma s2_mar s2_keys s2_betas s2_nis s2_coms s2_mas s2_dec]. replace (S p - 1)%nat with p by lia.
      rewrite s_gw_vec by lia. cbn [obind].
      rewrite (omapM_all _ (fun j => (s_alpha p (ind p j), s_miu p (ind p j)))).
      2:{ intros j Hj. apply in_seq in Hj. rewrite nth_o_others by lia. cbn [obind fst snd sg_k s_keys].
          pose proof (ind_lt p j m ltac:(lia) ltac:(lia)). pose proof (ind_ne p j). rewrite s_alpha_ok, s_miu_ok by (lia || assumption). cbn [obind].
          rewrite nth_o_map_seq by lia. cbn [obind plus s_mbw honest_mb mb_b dlog_prove dp_pk]. rewrite pt_eqb_refl. reflexivity. }
      cbn [obind]. rewrite !map_map. cbn [fst snd].
      rewrite <- (map_map (ind p) (s_alpha p)), <- (map_map (ind p) (s_miu p)), ind_map by lia.
      unfold sg_delta, sg_sigma. rewrite !map_length, Nat.eqb_refl. cbn [oassert obind sg_k sg_gamma sg_w s_keys].
      rewrite !combine_map2, !map_map, !fold_left_fadd. unfold sg_t. reflexivity.
Qed.
Lemma sg_run_honest : sg_run C Hb Hz Hf sl lks rs = Ok (map s_out (seq 0 m)).
Proof.
  unfold sg_run. cbv zeta. rewrite sg_pre_honest. pose proof KO as (_ & _ & _ & _ & _ & HL & _ & HK). pose proof RO as (_ & Hk0 & Hg0).
  cbn [obind].
  (* round 3 *)
  rewrite (omapM_all _ (fun p => ({| s4_i := S p; s4_sl := sl; s4_lk := lks p; s4_ma := s_ma p; s4_mar := sr_r (rs p); s4_keys := s_keys p;
     s4_mbs := map (fun id => s_mbg id p) (others p m); s4_coms := map s_com (seq 0 m); s4_mas := map s_ma (seq 0 m); s4_t := s_T p;
     s4_l := sr_l (rs p); s4_sigma := s_sigma p; s4_dinv := finv (fsum (map s_delta (seq 0 m))); s4_ts := map s_T (seq 0 m); s4_dec := s_dec p |}, s_dec p))).
  2:{ intros p Hp. apply in_seq in Hp. rewrite nth_o_map_seq by lia. cbn [obind plus fst]. rewrite map_map. cbn [snd]. rewrite but_map_seq by lia.
      unfold sg_r3. cbn [s3_i s3_sl s3_lk s3_ma s3_mar s3_keys s3_mbs s3_coms s3_mas s3_delta s3_t s3_l s3_sigma s3_tp s3_dec].
      replace (S p - 1)%nat with p by lia. rewrite (incl_me_others (fun p => (s_delta p, s_T p, s_tp p))) by lia.
      rewrite (omapM_all _ (fun _ => tt)).
      2:{ intros x Hx. apply in_map_iff in Hx. destruct Hx as (j & <- & _). unfold s_tp, s_T, ped_prove. cbn [pe_com]. rewrite pt_eqb_refl. reflexivity. }
      cbn [obind]. rewrite !map_map. cbn [fst snd]. unfold sg_delta_inv. rewrite fold_left_fadd.
      assert (E0 : (f0 + fsum (map s_delta (seq 0 m)))%Fq = fsum (map s_delta (seq 0 m))) by ring.
      change (map (fun x => s_delta x) (seq 0 m)) with (map s_delta (seq 0 m)). rewrite E0.
      rewrite finvert_nz. 2:{ rewrite delta_sum. apply fmul_nz; try assumption. apply cq_prime. }
      cbn [unwrap obind]. rewrite (omapM_all _ (fun _ => tt)).
      2:{ intros x Hx. 
          assert (Hx' : In x (map (fun p0 => (s_delta p0, s_T p0, s_tp p0)) (seq 0 m))).
          { rewrite <- (firstn_skipn m). apply in_or_app. left. exact Hx. }
          apply in_map_iff in Hx'. destruct Hx' as (j & <- & _). cbn [snd]. unfold s_tp. rewrite ped_complete. reflexivity. }
      cbn [obind]. reflexivity. }
  cbn [obind].
  (* round 4 *)
  rewrite (omapM_all _ (fun p => ({| s5_i := S p; s5_sl := sl; s5_lk := lks p; s5_keys := s_keys p; s5_ts := map s_T (seq 0 m); s5_mas := map s_ma (seq 0 m);
     s5_t := s_T p; s5_l := sr_l (rs p); s5_sigma := s_sigma p; s5_R := s_R; s5_Rd := s_Rd p; s5_pdl := map (s_pdl p) (others p m) |},
     (s_Rd p, map (s_pdl p) (others p m))))).
  2:{ intros p Hp. apply in_seq in Hp. rewrite nth_o_map_seq by lia. cbn [obind plus fst]. rewrite map_map. cbn [snd]. rewrite but_map_seq by lia.
      unfold sg_r4. cbn [s4_i s4_sl s4_lk s4_ma s4_mar s4_keys s4_mbs s4_coms s4_mas s4_t s4_l s4_sigma s4_dinv s4_ts s4_dec].
      replace (S p - 1)%nat with p by lia. rewrite (incl_me_others s_dec) by lia.
      rewrite (omapM_all _ (fun j => mb_b (s_mbg (ind p j) p))).
      2:{ intros j Hj. apply in_seq in Hj. rewrite nth_o_others by lia. reflexivity. }
      cbn [obind]. rewrite <- (map_map (ind p) (fun j => mb_b (s_mbg j p))), ind_map by lia.
      rewrite (proj2 (phase4_ok C Hb _ _ _ _ _ s_R)).
      2:{ split; [|split].
          - intros E. apply (f_equal (@length _)) in E. rewrite map_length, seq_length in E. pose proof m_pos. cbn in E. lia.
          - intros j pf Hj. rewrite <- ind_map, map_map, nth_error_map in Hj by lia.
            destruct (nth_error (seq 0 (m - 1)) j) as [j'|] eqn:Ej; [|discriminate].
            assert (Hjl : (j < m - 1)%nat) by (rewrite <- (seq_length (m - 1) 0); apply nth_error_Some; congruence).
            rewrite (nth_error_nth' _ 0%nat), seq_nth in Ej by (rewrite ?seq_length; lia). cbn in Ej. injection Ej as <-. cbn in Hj. injection Hj as <-.
            pose proof (ind_lt p j m ltac:(lia) ltac:(lia)).
            exists (s_dec (ind p j)), (s_com (ind p j)).
            split; [apply (nth_o_ok (E := mp_error)); rewrite nth_o_map_seq by lia; reflexivity|].
            split; [apply (nth_o_ok (E := mp_error)); rewrite nth_o_map_seq by lia; reflexivity|]. split; reflexivity.
          - rewrite map_map. cbn [s_dec sd_g]. symmetry. apply s_R_eq. }
      cbn [obind sg_k s_keys].
      rewrite (omapM_ind (fun id => let* me := nth_o (l_s sl) p in let* N := nth_o (lk_N (lks p)) me in let* k := nth_o (l_s sl) id in
          let* dl := nth_o (lk_dl (lks p)) k in sg_pdl Hz (smul (s_k p) s_R) s_R (ma_c (s_ma p)) N (s_k p) (sr_r (rs p)) dl (sr_pdl (rs p) id)) (s_pdl p)).
      - reflexivity.
      - lia.
      - intros id Hid. apply in_others in Hid. destruct (HK p ltac:(lia)) as (_ & _ & _ & _ & _ & K6 & _).
        rewrite (proj2 (nth_o_ok _ _ _) (l_s_nth p ltac:(lia))). cbn [obind].
        rewrite (proj2 (nth_o_ok _ _ _) (s_nthN p p ltac:(lia) ltac:(lia))). cbn [obind].
        rewrite (proj2 (nth_o_ok _ _ _) (l_s_nth id ltac:(lia))). cbn [obind]. rewrite K6.
        rewrite (proj2 (nth_o_ok _ _ _) (proj1 (s_dl_ok id ltac:(lia)))). cbn [obind].
        apply (s_pdl_ok p id); lia. }
  cbn [obind].
  (* round 5 *)
  rewrite (omapM_all _ (fun p => ({| s6_S := s_S p; s6_heg := s_heg p; s6_sl := sl; s6_out := s_out p |}, (s_S p, s_heg p)))).
  2:{ intros p Hp. apply in_seq in Hp. rewrite nth_o_map_seq by lia. cbn [obind plus fst]. rewrite map_map. cbn [snd]. rewrite but_map_seq by lia.
      unfold sg_r5. cbn [s5_i s5_sl s5_lk s5_keys s5_ts s5_mas s5_t s5_l s5_sigma s5_R s5_Rd s5_pdl].
      replace (S p - 1)%nat with p by lia. rewrite (incl_me_others (fun p => (s_Rd p, map (s_pdl p) (others p m)))) by lia.
      rewrite (omapM_all _ (fun _ => tt)).
      2:{ intros i Hi. apply in_seq in Hi. rewrite !nth_o_map_seq by lia. cbn [obind plus].
          rewrite (proj2 (nth_o_ok _ _ _) (l_s_nth i ltac:(lia))). cbn [obind].
          rewrite (proj2 (nth_o_ok _ _ _) (s_nthN p i ltac:(lia) ltac:(lia))). cbn [obind fst snd].
          destruct (HK p ltac:(lia)) as (_ & _ & _ & _ & _ & K6 & _). rewrite K6.
          unfold sg_phase5_verify. rewrite map_length, l_s_length, others_length, Nat.eqb_refl by lia.
          rewrite (proj2 (Nat.ltb_lt 0 m) m_pos). cbn [oassert obind negb].
          rewrite with_ind_map by lia. rewrite (proj2 (first_bad_at_none _ _)); [reflexivity|].
          apply Forall_forall. intros x Hx. apply in_map_iff in Hx. destruct Hx as (id & <- & Hid). apply in_others in Hid.
          unfold sg_check5. rewrite (proj2 (nth_o_ok _ _ _) (l_s_nth id ltac:(lia))). cbn [obind].
          rewrite (proj2 (nth_o_ok _ _ _) (proj1 (s_dl_ok id ltac:(lia)))). cbn [obind].
          change (ma_c (s_ma i)) with (s_c i). rewrite (proj2 (s_pdl_ok i id ltac:(lia) ltac:(lia))). reflexivity. }
      cbn [obind]. rewrite map_map. cbn [fst].
      rewrite (proj2 (check_R_ok C _)).
      2:{ unfold s_Rd. rewrite (psum_smul_R C s_k s_R). fold s_ksum. unfold s_R. apply dlog_inj. autorewrite with dlog. field. exact Hk0. }
      cbn [omap_err obind]. reflexivity. }
  cbn [obind].
  (* round 6 *)
  apply omapM_all. intros p Hp. apply in_seq in Hp. rewrite nth_o_map_seq by lia. cbn [obind plus fst]. rewrite map_map. cbn [snd]. rewrite but_map_seq by lia.
  unfold sg_r6. cbn [s6_S s6_heg s6_sl s6_out s_out co_i co_lk co_R co_ts].
  replace (S p - 1)%nat with p by lia. rewrite (incl_me_others (fun p => (s_S p, s_heg p))) by lia. rewrite !map_map. cbn [fst snd].
  unfold sg_phase6_verify. rewrite bad6_nil.
  2:{ intros j pf Hj. rewrite nth_error_map in Hj. destruct (nth_error (seq 0 m) j) as [j'|] eqn:Ej; [|discriminate].
      assert (Hjl : (j < m)%nat) by (rewrite <- (seq_length m 0); apply nth_error_Some; congruence).
      rewrite (nth_error_nth' _ 0%nat), seq_nth in Ej by (rewrite ?seq_length; lia). cbn in Ej. injection Ej as <-. cbn in Hj. injection Hj as <-.
      exists s_R, (s_T j), (s_S j). cbn [plus].
      split; [rewrite (nth_error_nth' _ s_R) by (rewrite repeat_length; lia); rewrite nth_repeat by lia; reflexivity|].
      split; [apply (nth_o_ok (E := mp_error)); rewrite nth_o_map_seq by lia; reflexivity|].
      split; [apply (nth_o_ok (E := mp_error)); rewrite nth_o_map_seq by lia; reflexivity|].
      apply heg_complete; cbn [sg_heg_stmt he_D he_H he_Y he_E he_G]; [|reflexivity]. unfold s_T. apply dlog_inj. autorewrite with dlog. ring. }
  cbn [obind]. rewrite (proj2 (check_S_ok C _ _)); [reflexivity|].
  destruct (HK p ltac:(lia)) as (_ & _ & _ & _ & _ & _ & K7 & _). rewrite K7.
  unfold s_S. rewrite (psum_smul_R C s_sigma s_R), sigma_sum. unfold s_R. apply dlog_inj. autorewrite with dlog. field. exact Hk0.
Qed.

(** ** The online round *)
Lemma online_total (msg : Z) (r : F) :
  fsum (map (fun p => (of_Z q msg * s_k p + r * s_sigma p)%Fq) (seq 0 m)) = (s_ksum * (of_Z q msg + r * hd f0 f))%Fq.
Proof. rewrite fsum_map_add, !fsum_map_mul_l, sigma_sum. fold s_ksum. ring. Qed.
Lemma sg_online_honest (msg x y : Z) : coords s_R = Some (x, y) ->
  let s := (s_ksum * (of_Z q msg + of_Z q x * hd f0 f))%Fq in
  s <> f0 ->
  sg_online C msg (map s_out (seq 0 m)) =
  Ok (map (fun _ => {| sg_r := of_Z q x; sg_s := fst (normalize s y); sg_recid := snd (normalize s y) |}) (seq 0 m)).
Proof.
  intros HR s Hs. unfold sg_online. pose proof KO as (_ & _ & _ & _ & _ & _ & _ & HK). pose proof RO as (_ & Hk0 & _).
  assert (Hx : x_coord s_R = Some x) by (unfold x_coord; rewrite HR; reflexivity).
  assert (HM : forall l, (forall p, In p l -> (p < m)%nat) ->
    omapM (fun c => gg20_local_sig (sg_k (co_keys c)) msg (co_R c) (co_sigma c) (lk_y (co_lk c))) (map s_out l) =
    Ok (map (fun p => {| ls_r := of_Z q x; ls_R := s_R; ls_s := (of_Z q msg * s_k p + of_Z q x * s_sigma p)%Fq; ls_m := msg; ls_y := smul (hd f0 f) gen |}) l)).
  { induction l as [|p l IH]; intros HL; [reflexivity|]. cbn [map omapM]. unfold gg20_local_sig at 1.
    cbn [s_out co_keys co_R co_sigma co_lk sg_k s_keys]. rewrite Hx. cbn [unwrap obind].
    destruct (HK p (HL p (or_introl eq_refl))) as (_ & _ & _ & _ & _ & _ & K7 & _). rewrite K7.
    rewrite IH by (intros p' Hp'; apply HL; right; exact Hp'). cbn [obind]. rewrite !of_Z_mod. reflexivity. }
  rewrite HM by (intros p Hp; apply in_seq in Hp; lia). cbn [obind]. rewrite map_length, seq_length.
  apply omapM_all. intros p Hp. apply in_seq in Hp. rewrite nth_o_map_seq by lia. cbn [obind plus]. rewrite but_map_seq, map_map by lia. cbn [ls_s].
  match goal with |- gg20_output ?l ?v = _ => assert (ET : sig_total l v = s) end.
  { unfold sig_total. cbn [ls_s]. unfold s. rewrite <- online_total.
    apply (fsum_split C (fun j => (of_Z q msg * s_k j + of_Z q x * s_sigma j)%Fq)). lia. }
  rewrite (gg20_output_complete C _ _ x y); rewrite ?ET; try assumption; [reflexivity|].
  unfold sig_eqn. cbn [ls_R ls_y ls_m]. unfold s, s_R. apply dlog_inj. autorewrite with dlog. field. exact Hk0.
Qed.
(** A zero total makes every signer's verification step panic. *)
Lemma sg_online_zero (msg x y : Z) : coords s_R = Some (x, y) -> (of_Z q msg + of_Z q x * hd f0 f)%Fq = f0 ->
  sg_online C msg (map s_out (seq 0 m)) = Panic.
Proof.
  intros HR Hs. unfold sg_online. pose proof KO as (_ & _ & _ & _ & _ & _ & _ & HK). pose proof m_pos as Hm.
  assert (Hx : x_coord s_R = Some x) by (unfold x_coord; rewrite HR; reflexivity).
  assert (HM : forall l, (forall p, In p l -> (p < m)%nat) ->
    omapM (fun c => gg20_local_sig (sg_k (co_keys c)) msg (co_R c) (co_sigma c) (lk_y (co_lk c))) (map s_out l) =
    Ok (map (fun p => {| ls_r := of_Z q x; ls_R := s_R; ls_s := (of_Z q msg * s_k p + of_Z q x * s_sigma p)%Fq; ls_m := msg; ls_y := smul (hd f0 f) gen |}) l)).
  { induction l as [|p l IH]; intros HL; [reflexivity|]. cbn [map omapM]. unfold gg20_local_sig at 1.
    cbn [s_out co_keys co_R co_sigma co_lk sg_k s_keys]. rewrite Hx. cbn [unwrap obind].
    destruct (HK p (HL p (or_introl eq_refl))) as (_ & _ & _ & _ & _ & _ & K7 & _). rewrite K7.
    rewrite IH by (intros p' Hp'; apply HL; right; exact Hp'). cbn [obind]. rewrite !of_Z_mod. reflexivity. }
  rewrite HM by (intros p Hp; apply in_seq in Hp; lia). cbn [obind]. rewrite map_length, seq_length.
  assert (E : seq 0 m = 0%nat :: seq 1 (m - 1)) by (clear - Hm; destruct m; [lia|]; cbn [seq]; do 2 f_equal; lia).
  match goal with |- omapM ?g _ = _ => transitivity (omapM g (0%nat :: seq 1 (m - 1))); [f_equal; exact E|] end. cbn [omapM].
  rewrite nth_o_map_seq by lia. cbn [obind plus]. rewrite but_map_seq, map_map by lia. cbn [ls_s].
  match goal with |- context [gg20_output ?l ?v] => assert (ET : fold_left fadd v (ls_s l) = f0) end.
  { rewrite fold_left_fadd. cbn [ls_s].
    transitivity (s_ksum * (of_Z q msg + of_Z q x * hd f0 f))%Fq; [|rewrite Hs; ring]. rewrite <- online_total.
    apply (fsum_split C (fun j => (of_Z q msg * s_k j + of_Z q x * s_sigma j)%Fq)). lia. }
  unfold gg20_output. rewrite ET. cbn [ls_R ls_y ls_m]. rewrite Hx. cbn [unwrap obind].
  assert (Hy : y_coord s_R = Some y) by (unfold y_coord; rewrite HR; reflexivity). rewrite Hy. cbn [unwrap obind].
  destruct (normalize_cases C f0 y) as [[-> _]|[_ B]].
  - unfold gg20_verify. rewrite finvert_0. reflexivity.
  - rewrite to_Z_0 in B. pose proof (q_gt1 (cq_prime C)). lia.
Qed.
End Honest.

(** ** Key generation leaves well-formed keys *)
Lemma kg_key_ok t n (rs : nat -> kg_rand C) i : (i < n)%nat -> good_key (kr_p1 (rs i)) (kr_p2 (rs i)) ->
  key_ok n (h_sum C n rs) (map (fun j => kr_p1 (rs j) * kr_p2 (rs j)) (seq 0 n)) (map (fun j => kr_dl (rs j)) (seq 0 n)) i (h_lk C t n rs i).
Proof.
  intros Hi HG. unfold key_ok, h_lk. cbn [lk_i lk_shared sk_x lk_vss h_vss vs_n lk_pk lk_N lk_dl lk_y lk_p1 lk_p2].
  split; [reflexivity|]. split; [rewrite h_x_poly, Nat.add_1_r; reflexivity|]. split; [reflexivity|].
  split; [apply map_ext; intros j; rewrite h_x_poly, Nat.add_1_r; reflexivity|]. split; [reflexivity|]. split; [reflexivity|].
  split; [rewrite h_sum_hd; exact (psum_smul_R C (fun j => kr_u (rs j)) gen (seq 0 n))|]. split; [exact HG|].
  apply (nth_o_ok (E := mp_error)). rewrite nth_o_map_seq by exact Hi. reflexivity.
Qed.
Lemma total_eqn (k a : F) (x : F) (m : F) : k <> f0 ->
  smul (k * (m + x * a))%Fq (smul (finv k) gen) = padd (smul m gen) (smul x (smul a (gen : pt C))).
Proof. intros H. apply dlog_inj. autorewrite with dlog. field. exact H. Qed.
Lemma padd_smul (a b : F) (P : pt C) : smul (a + b)%Fq P = padd (smul a P) (smul b P).
Proof. apply dlog_inj. autorewrite with dlog. ring. Qed.
Lemma smul_0 (P : pt C) : smul f0 P = pzero.
Proof. apply dlog_inj. autorewrite with dlog. ring. Qed.
Lemma poly_sum_nonempty (p : list F) ps : p <> [] -> poly_sum (p :: ps) <> [].
Proof. intros H E. apply (f_equal (@length _)) in E. cbn [poly_sum fold_right] in E. rewrite length_padd2 in E. destruct p; [congruence|]. cbn [length] in E. lia. Qed.
Lemma map_const_seq {A} (x : A) n : forall a, map (fun _ => x) (seq a n) = repeat x n.
Proof. induction n as [|n IH]; intros a; cbn; [reflexivity|]. rewrite IH. reflexivity. Qed.
End P.
Arguments key_ok {_}. Arguments brand_ok {_}. Arguments brand_small {_}. Arguments signers_ok {_}. Arguments sign_rand_ok {_}.

(** The honest GG18 signing run. *)
From Coq Require Import ZArith Lia Bool List Field.
From Verif Require Import ZArithX Fq Curve Outcome Sigma SigmaProofs Bytes Vss VssProofs Paillier PaillierProofs RangeProofs
  Mta MtaProofs Ecdsa EcdsaProofs Mp MpProofs Gg20Keygen Gg18Keygen KeygenRun KeygenRunProofs Gg20Sign SignProofs SignRun SignRunProofs Gg18Sign Gg18SignProofs.
Import ListNotations.
Local Open Scope Z_scope.

Lemma combine_self {A B} (g : A -> B) l : combine l (map g l) = map (fun i => (i, g i)) l.
Proof. induction l as [|a l IH]; [reflexivity|]. cbn [map combine]. rewrite IH. reflexivity. Qed.
Lemma omapM_map {E A B D} (f : B -> outcome E D) (g : A -> B) l : omapM f (map g l) = omapM (fun x => f (g x)) l.
Proof. induction l as [|a l IH]; [reflexivity|]. cbn [map omapM]. rewrite IH. reflexivity. Qed.

Section P.
Context (C : Curve).
Notation q := (cq C).
Notation F := (Fq q).
Notation res := (outcome error).
Add Field cfield : (C_field C).

Lemma honest_alpha (Hf : hashF C) (b a : F) p1 p2 rA (k : brand C) :
  good_key p1 p2 -> Z.gcd rA (p1 * p2) = 1 -> Z.gcd (br_r k) (p1 * p2) = 1 -> 0 <= br_bt k -> to_Z a * to_Z b + br_bt k < p1 * p2 ->
  verify_get_alpha Hf (honest_mb Hf b (p1 * p2) (enc (p1 * p2) (to_Z a) rA) k) p1 p2 a =
  Ok (of_Z q (to_Z a * to_Z b + br_bt k), to_Z a * to_Z b + br_bt k).
Proof.
  intros Hk Hr Hr' Hbt Hw. apply verify_alpha_ok. cbn [honest_mb mb_c mb_b mb_bt].
  pose proof (to_Z_range (cq_prime C) a) as Ra. pose proof (to_Z_range (cq_prime C) b) as Rb.
  rewrite mta_dec; try assumption; try lia.
  assert (Hm : (to_Z a * to_Z b + br_bt k) mod (p1 * p2) = to_Z a * to_Z b + br_bt k).
  { apply Z.mod_small. clear - Ra Rb Hbt Hw. nia. }
  rewrite Hm. split; [reflexivity|]. split; [reflexivity|]. split; [apply dlog_complete|]. split; [apply dlog_complete|].
  cbn [dlog_prove dp_pk]. apply (dlog_eq_iff C). autorewrite with dlog. rewrite of_Z_add, of_Z_mul, !of_Z_to_Z. ring.
Qed.
Lemma chain_sum {A} (a b : A -> F) l : fsum (map a l ++ map b l) = fsum (map (fun i => (a i + b i)%Fq) l).
Proof. rewrite fsum_app. induction l as [|x l IH]; cbn [map fsum]; [ring|]. rewrite <- IH. ring. Qed.
Lemma psum_app_smul (l : list (pt C)) d (P : pt C) : smul d (psum (l ++ [P])) = padd (smul d (psum l)) (smul d P).
Proof. rewrite psum_app. cbn [psum]. apply dlog_inj. autorewrite with dlog. ring. Qed.
Lemma smul_pzero_iff (a : F) (P : pt C) : a <> f0 -> (smul a P = pzero <-> P = pzero).
Proof.
  intros Ha. split; [|intros ->; apply dlog_inj; autorewrite with dlog; ring].
  intros H. apply (f_equal (smul (finv a))) in H. rewrite smul_smul in H. replace (finv a * a)%Fq with (f1 : F) in H by (field; exact Ha).
  rewrite smul_1 in H. rewrite H. apply dlog_inj. autorewrite with dlog. ring.
Qed.
Lemma psub2_zero (A B D : pt C) : psub (psub A B) D = pzero <-> A = padd B D.
Proof.
  split; intros H.
  - apply (f_equal dlog) in H. autorewrite with dlog in H. apply dlog_inj. autorewrite with dlog.
    transitivity (dlog A - dlog B - dlog D + (dlog B + dlog D))%Fq; [ring|]. rewrite H. ring.
  - rewrite H. apply dlog_inj. autorewrite with dlog. ring.
Qed.
Lemma smul_dlog (P : pt C) : smul (dlog P) gen = P.
Proof. apply dlog_inj. autorewrite with dlog. ring. Qed.
Lemma fmul_0_r' (a : F) : (a * f0)%Fq = f0.
Proof. ring. Qed.
(** A zero total is refused. *)
Lemma gg18_output_zero (l : local_sig C) s_vec : sig_total l s_vec = f0 -> coords (ls_R l) <> None -> exists e, gg18_output l s_vec = Err e.
Proof.
  intros HS HR. unfold gg18_output, x_coord, y_coord. destruct (coords (ls_R l)) as [[x y]|]; [|congruence]. cbn [option_map fst snd ok_or obind].
  rewrite fold_left_fadd. replace (ls_s l + (f0 + fsum s_vec))%Fq with (sig_total l s_vec) by (unfold sig_total; ring). rewrite HS.
  assert (HN : normalize (C := C) f0 y = (f0, b2z (Z.odd (y mod q)))).
  { unfold normalize. rewrite to_Z_0. pose proof (cq_prime C) as Hp. apply Znumtheory.prime_ge_2 in Hp. destruct (Z.ltb_spec (q - 0) 0); [lia|reflexivity]. }
  rewrite HN. unfold gg18_verify. unfold finvert. rewrite feqb_refl. cbn [ok_or obind]. eauto.
Qed.

Section Honest.
Context (Hb : list Z -> Z) (Hz : hashZ C) (Hf : hashF C).
Context (n : nat) (f : list F) (Ns : list Z) (vsss : list (vss C)) (sv : list nat) (ks : nat -> party18 C) (rs : nat -> rand18 C) (msg : Z).
Notation m := (length sv).
Definition h_idx (p : nat) : nat := nth p sv 0%nat.
Definition h_k (p : nat) : F := r18_k (rs p).
Definition h_g (p : nat) : F := r18_gamma (rs p).
Definition h_w (p : nat) : F := (lam n sv (h_idx p) * peval f (fidx (h_idx p + 1)))%Fq.
(** The same number from what the signer holds *)
Definition h_wk (p : nat) : F := (lam (length (p18_vss (ks p))) sv (h_idx p) * p18_x (ks p))%Fq.
Definition h_N (p : nat) : Z := p18_p1 (ks p) * p18_p2 (ks p).
Definition h_c (p : nat) : Z := enc (h_N p) (to_Z (h_k p)) (r18_r (rs p)).
Definition h_keys (p : nat) : sign_keys C :=
  {| sg_w := h_w p; sg_gw := smul (h_w p) gen; sg_k := h_k p; sg_gamma := h_g p; sg_ggamma := smul (h_g p) gen |}.
Definition h_com (p : nat) : Z := commit_pt Hb (smul (h_g p) gen) (r18_blind (rs p)).
Definition h_dec (p : nat) : sign_dec C := {| sd_blind := r18_blind (rs p); sd_g := smul (h_g p) gen |}.
Definition h_mbg (p id : nat) : msg_b C := honest_mb Hf (h_g p) (h_N id) (h_c id) (r18_bg (rs p) id).
Definition h_mbw (p id : nat) : msg_b C := honest_mb Hf (h_w p) (h_N id) (h_c id) (r18_bw (rs p) id).
Definition h_beta (p id : nat) : F := (f0 - of_Z q (br_bt (r18_bg (rs p) id)))%Fq.
Definition h_ni (p id : nat) : F := (f0 - of_Z q (br_bt (r18_bw (rs p) id)))%Fq.
Definition h_alpha (p id : nat) : F := of_Z q (to_Z (h_k p) * to_Z (h_g id) + br_bt (r18_bg (rs id) p)).
Definition h_miu (p id : nat) : F := of_Z q (to_Z (h_k p) * to_Z (h_w id) + br_bt (r18_bw (rs id) p)).
Definition h_delta (p : nat) : F := (h_k p * h_g p + fsum (map (fun i => (h_alpha p i + h_beta p i)%Fq) (others p m)))%Fq.
Definition h_sigma (p : nat) : F := (h_k p * h_w p + fsum (map (fun i => (h_miu p i + h_ni p i)%Fq) (others p m)))%Fq.
Definition h_ksum : F := fsum (map h_k (seq 0 m)).
Definition h_gsum : F := fsum (map h_g (seq 0 m)).
Definition h_R : pt C := smul (finv h_ksum) gen.
Definition h_y : pt C := smul (hd f0 f) gen.

(** What key generation leaves with each signer; [vsss] are everyone's VSS commitments. *)
Definition signers18_ok : Prop :=
  NoDup sv /\ (forall x, In x sv -> (x < n)%nat) /\ Z.of_nat n < q /\ f <> [] /\ (length f <= m)%nat /\
  length vsss = n /\ (forall v, In v vsss -> vs_n v = n) /\
  kg18_xi_commitments (E := error) vsss = Ok (map (fun j => smul (peval f (fidx (j + 1))) gen) (seq 0 n)) /\
  forall p, (p < m)%nat -> good_key (p18_p1 (ks p)) (p18_p2 (ks p)) /\ p18_x (ks p) = peval f (fidx (h_idx p + 1)) /\
    p18_vss (ks p) = vsss /\ p18_N (ks p) = Ns /\ nth_error Ns (h_idx p) = Some (h_N p) /\ p18_y (ks p) = h_y.
(** No wrap-around in the Paillier plaintexts, randomness coprime to the moduli, no zero sums. *)
Definition rand18_ok : Prop :=
  (forall p, (p < m)%nat -> Z.gcd (r18_r (rs p)) (h_N p) = 1 /\
     (forall id, (id < m)%nat -> id <> p -> brand_ok (h_N id) (h_k id) (h_g p) (r18_bg (rs p) id) /\ brand_ok (h_N id) (h_k id) (h_wk p) (r18_bw (rs p) id))) /\
  h_ksum <> f0 /\ h_gsum <> f0.
Context (KO : signers18_ok) (RO : rand18_ok).

Lemma h_m_pos : (0 < m)%nat.
Proof. destruct KO as (_ & _ & _ & Hn & Hl & _). destruct f; [congruence|]. cbn [length] in Hl. lia. Qed.
Lemma h_wk_ok p : (p < m)%nat -> h_wk p = h_w p.
Proof. intros H. destruct KO as (_ & _ & _ & _ & _ & LV & _ & _ & HK). destruct (HK p H) as (_ & EX & EV & _). unfold h_wk, h_w. rewrite EX, EV, LV. reflexivity. Qed.
Lemma sv_nth p : (p < m)%nat -> nth_error sv p = Some (h_idx p).
Proof. intros H. apply nth_error_nth'. exact H. Qed.
Lemma h_idx_lt p : (p < m)%nat -> (h_idx p < n)%nat.
Proof. intros H. apply KO. apply (nth_error_In _ p), sv_nth, H. Qed.
Lemma h_lam i : (i < n)%nat -> map_share (E := error) (C := C) n i sv = Ok (lam n sv i).
Proof. intros H. apply map_share_ok; [apply KO|exact H|apply KO]. Qed.
Lemma h_vss i : (i < n)%nat -> exists v, nth_error vsss i = Some v /\ vs_n v = n.
Proof.
  intros H. destruct KO as (_ & _ & _ & _ & _ & HL & HV & _). destruct (nth_error vsss i) as [v|] eqn:E; [|apply nth_error_None in E; lia].
  exists v. split; [reflexivity|]. apply HV, (nth_error_In _ i), E.
Qed.
Lemma h_w_sum : fsum (map h_w (seq 0 m)) = hd f0 f.
Proof.
  destruct KO as (Hnd & Hin & Hq & Hf0 & Hl & _). rewrite <- (lam_sum C n f sv Hnd Hin Hq).
  - transitivity (fsum (map (fun i => (lam n sv i * peval f (fidx (i + 1)))%Fq) (map h_idx (seq 0 m))) : F); [rewrite map_map; reflexivity|].
    unfold h_idx. rewrite map_seq_nth. reflexivity.
  - intros E. pose proof h_m_pos as Hm. rewrite E in Hm. cbn in Hm. lia.
  - exact Hl.
Qed.
Lemma h_delta_sum : fsum (map h_delta (seq 0 m)) = (h_ksum * h_gsum)%Fq.
Proof. apply (dsum C h_k h_g h_alpha h_beta). intros p i _ _ _. apply mta_run_beta. Qed.
Lemma h_sigma_sum : fsum (map h_sigma (seq 0 m)) = (h_ksum * hd f0 f)%Fq.
Proof. rewrite <- h_w_sum. apply (dsum C h_k h_w h_miu h_ni). intros p i _ _ _. apply mta_run_beta. Qed.

(** The local signatures and the phase 5 values. *)
Context (x y : Z) (HR : coords h_R = Some (x, y)).
Definition h_s (p : nat) : F := (of_Z q msg * h_k p + of_Z q x * h_sigma p)%Fq.
Definition h_ls (p : nat) : local18 C := {| l18_l := r18_l (rs p); l18_rho := r18_rho (rs p); l18_R := h_R; l18_s := h_s p; l18_m := msg; l18_y := h_y |}.
Definition h_5a (p : nat) := g18_5a Hb Hf (h_ls p) (r18_b5a (rs p)) (r18_h1 (rs p)) (r18_h2 (rs p)) (r18_t (rs p)).
Definition h_V (p : nat) : pt C := padd (smul (h_s p) h_R) (smul (r18_l (rs p)) gen).
Definition h_A (p : nat) : pt C := smul (r18_rho (rs p)) gen.
Definition h_B (p : nat) : pt C := smul (r18_l (rs p) * r18_rho (rs p))%Fq gen.
Definition h_U (p : nat) : pt C := u_of C (h_ls p) x (h_V p) (map h_V (others p m)).
Definition h_T (p : nat) : pt C := t_of C (h_ls p) (map h_A (others p m)).
Definition h_dec2 (p : nat) : dec5d C := {| d5_u := h_U p; d5_t := h_T p; d5_blind := r18_b5c (rs p) |}.
Definition h_com2 (p : nat) : Z := commit Hb (hash_pts Hb [h_U p; h_T p]) (r18_b5c (rs p)).
Definition h_total : F := (h_ksum * (of_Z q msg + of_Z q x * hd f0 f))%Fq.
Lemma h_s_sum : fsum (map h_s (seq 0 m)) = h_total.
Proof.
  unfold h_total.
  transitivity (of_Z q msg * fsum (map h_k (seq 0 m)) + of_Z q x * fsum (map h_sigma (seq 0 m)))%Fq.
  - clear. generalize (seq 0 m) as l. induction l as [|a l IH]; [cbn [map fsum]; ring|].
    change (h_s a + fsum (map h_s l) = of_Z q msg * (h_k a + fsum (map h_k l)) + of_Z q x * (h_sigma a + fsum (map h_sigma l)))%Fq.
    rewrite IH. unfold h_s. ring.
  - rewrite h_sigma_sum. unfold h_ksum. ring.
Qed.
Lemma h_total_eqn : smul h_total h_R = padd (smul (of_Z q msg) gen) (smul (of_Z q x) h_y).
Proof. apply total_eqn. exact (proj1 (proj2 RO)). Qed.

Lemma e18_run_honest :
  e18_run C Hb Hz Hf sv ks rs msg = omapM (fun p => e18_out (h_ls p) (map h_s (others p m))) (seq 0 m).
Proof.
  unfold e18_run. cbv zeta. pose proof KO as (_ & _ & _ & _ & _ & HL & HV & HX & HK). pose proof RO as (HRr & Hk0 & Hg0).
  (* round 1 *)
  rewrite (omapM_all _ (fun p => (h_keys p, h_dec p, (h_com p, {| ma_c := h_c p; ma_proofs := [] |})))).
  2:{ intros p Hp. apply in_seq in Hp. destruct (HK p ltac:(lia)) as (K1 & K2 & K3 & K4 & K5 & K6). unfold e18_r1.
      rewrite (proj2 (nth_o_ok _ _ _) (sv_nth p ltac:(lia))). cbn [obind]. rewrite K3.
      destruct (h_vss (h_idx p) (h_idx_lt p ltac:(lia))) as (v & Ev & Nv). rewrite (proj2 (nth_o_ok _ _ _) Ev). cbn [obind].
      unfold g18_create. rewrite Nv, h_lam by (apply h_idx_lt; lia). cbn [obind]. rewrite K2. reflexivity. }
  cbn [obind]. rewrite !map_map. cbn [fst snd].
  (* round 2 *)
  rewrite (omapM_all _ (fun p => (map (h_beta p) (others p m), map (h_ni p) (others p m),
     combine (map S (others p m)) (map (fun id => (h_mbg p id, h_mbw p id)) (others p m))))).
  2:{ intros p Hp. apply in_seq in Hp. destruct (HK p ltac:(lia)) as (_ & _ & _ & K4 & _). rewrite nth_o_map_seq by lia. cbn [obind plus fst].
      rewrite but_map_seq by lia. unfold e18_r2. rewrite combine_self, omapM_map.
      rewrite (omapM_all _ (fun i => ((h_mbg p i, h_beta p i), (h_mbw p i, h_ni p i)))).
      2:{ intros i Hi. apply in_others in Hi. rewrite (proj2 (nth_o_ok _ _ _) (sv_nth i ltac:(lia))). cbn [obind]. rewrite K4.
          destruct (HK i ltac:(lia)) as (_ & _ & _ & _ & K5 & _). rewrite (proj2 (nth_o_ok _ _ _) K5). cbn [obind]. reflexivity. }
      cbn [obind]. rewrite !map_map. cbn [fst snd]. reflexivity. }
  cbn [obind].
  (* round 3 *)
  rewrite (omapM_all _ (fun p => ((h_delta p, h_sigma p), map (fun id => mb_b (h_mbg id p)) (others p m)))).
  2:{ intros p Hp. apply in_seq in Hp. destruct (HK p ltac:(lia)) as (K1 & K2 & K3 & K4 & K5 & K6). rewrite !nth_o_map_seq by lia. cbn [obind plus fst snd].
      rewrite but_map_seq by lia. rewrite omapM_map. cbn [snd].
      rewrite (omapM_all _ (fun j => (h_mbg j p, h_mbw j p))).
      2:{ intros j Hj. apply in_others in Hj.
          pose proof (addressed_others (E := error) (fun id => (h_mbg j id, h_mbw j id)) p (others j m) ltac:(apply in_others; lia)) as HA.
          unfold addressed in HA. exact HA. }
      cbn [obind]. unfold e18_r3. rewrite K3, HX. cbn [obind]. rewrite combine_self, omapM_map.
      rewrite (omapM_all _ (fun i => (h_alpha p i, h_miu p i))).
      2:{ intros i Hi. apply in_others in Hi. cbn [fst snd]. destruct (HRr p ltac:(lia)) as (G1 & _). destruct (HRr i ltac:(lia)) as (_ & G2).
          destruct (G2 p ltac:(lia) ltac:(lia)) as ((B1 & B2 & B3) & (W1 & W2 & W3)). rewrite h_wk_ok in W3 by lia. cbn [sg_k h_keys].
          unfold h_mbg at 1, h_c, h_N. rewrite honest_alpha by assumption. cbn [omap obind must fst].
          unfold h_mbw at 1, h_c, h_N. rewrite honest_alpha by assumption. cbn [omap obind must fst].
          rewrite (proj2 (nth_o_ok _ _ _) (sv_nth i ltac:(lia))). cbn [obind].
          rewrite nth_o_map_seq by (apply h_idx_lt; lia). cbn [obind plus].
          destruct (h_vss (h_idx i) (h_idx_lt i ltac:(lia))) as (v & Ev & Nv). rewrite (proj2 (nth_o_ok _ _ _) Ev). cbn [obind].
          unfold g18_update_xi. rewrite Nv, h_lam by (apply h_idx_lt; lia). cbn [obind h_mbw honest_mb mb_b dlog_prove dp_pk].
          rewrite smul_smul. fold (h_w i). rewrite pt_eqb_refl. reflexivity. }
      cbn [obind]. rewrite !map_map. cbn [fst snd]. unfold g18_delta, g18_sigma. rewrite !map_length, Nat.eqb_refl. cbn [oassert obind].
      rewrite !fold_left_fadd, !chain_sum. cbn [h_keys sg_k sg_gamma sg_w].
      assert (Z0 : forall a b : F, (a + (f0 + b))%Fq = (a + b)%Fq) by (intros; ring). rewrite !Z0. reflexivity. }
  cbn [obind]. rewrite !map_map. cbn [fst snd].
  (* rounds 4 and 5 *)
  rewrite (omapM_all _ (fun p => (h_ls p, h_5a p))).
  2:{ intros p Hp. apply in_seq in Hp. destruct (HK p ltac:(lia)) as (_ & _ & _ & _ & _ & K6). rewrite !nth_o_map_seq by lia. cbn [obind plus fst snd].
      rewrite !but_map_seq by lia. unfold e18_r5, g18_delta_inv. rewrite fold_left_fadd.
      assert (E0 : (f0 + fsum (map (fun a => h_delta a) (seq 0 m)))%Fq = (h_ksum * h_gsum)%Fq).
      { change (map (fun a => h_delta a) (seq 0 m)) with (map h_delta (seq 0 m)). rewrite h_delta_sum. ring. }
      rewrite E0, finvert_nz by (apply fmul_nz; [apply cq_prime|assumption|assumption]). cbn [unwrap obind].
      rewrite (proj2 (g18_phase4_ok C Hb _ _ _ _ (smul (finv (h_ksum * h_gsum)%Fq) (psum (map sd_g (map (fun x0 => h_dec x0) (others p m))))))).
      2:{ split; [|reflexivity]. intros i b Hi. rewrite nth_error_map in Hi. destruct (nth_error (others p m) i) as [j|] eqn:Ej; [|discriminate].
          cbn in Hi. injection Hi as <-. exists (h_dec j), (h_com j). rewrite !nth_error_map, Ej. auto 10. }
      cbn [must obind]. rewrite map_map. cbn [sd_g h_dec sg_k h_keys].
      assert (ER : padd (smul (finv (h_ksum * h_gsum)%Fq) (psum (map (fun x0 => smul (h_g x0) gen) (others p m)))) (smul (finv (h_ksum * h_gsum)%Fq) (smul (h_g p) gen)) = h_R).
      { pose proof (fsum_split C h_g p m ltac:(lia)) as ES. fold h_gsum in ES. rewrite (psum_smul_R C h_g gen). unfold h_R. apply dlog_inj. autorewrite with dlog.
        transitivity (finv (h_ksum * h_gsum) * (h_g p + fsum (map h_g (others p m))))%Fq; [ring|]. rewrite ES. field. auto. }
      rewrite ER. unfold g18_local, x_coord. rewrite HR. cbn [option_map fst unwrap obind]. rewrite of_Z_mod, K6. reflexivity. }
  cbn [obind]. rewrite !map_map. cbn [fst snd].
  (* rounds 6 and 7 *)
  rewrite (omapM_all _ (fun p => (h_com2 p, h_dec2 p))).
  2:{ intros p Hp. apply in_seq in Hp. rewrite !nth_o_map_seq by lia. cbn [obind plus fst snd]. rewrite !but_map_seq by lia.
      unfold e18_r7. rewrite (proj2 (g18_5c_ok C Hb Hf (h_ls p) _ _ _ _ _ _ _ x y (h_com2 p, h_dec2 p) HR)); [reflexivity|].
      rewrite !map_length. split; [reflexivity|]. split.
      - intros i d Hd. rewrite nth_error_map in Hd. destruct (nth_error (others p m) i) as [j|] eqn:Ej; [|discriminate].
        cbn in Hd. injection Hd as <-.
        exists (fst (fst (fst (h_5a j)))), (snd (fst (h_5a j))), (snd (h_5a j)). rewrite !nth_error_map, Ej.
        split; [reflexivity|]. split; [reflexivity|]. split; [reflexivity|]. split; [reflexivity|].
        cbn [g18_5a fst snd a5_v a5_a a5_b h_5a l18_R h_ls l18_s l18_l l18_rho]. split.
        + apply heg_complete; cbn [g18_heg_stmt he_G he_H he_Y he_D he_E]; [reflexivity|]. rewrite smul_smul. reflexivity.
        + apply dlog_complete.
      - cbv zeta. rewrite !map_map. cbn [g18_5a fst snd a5_v a5_a a5_b h_5a l18_R h_ls l18_s l18_l l18_rho]. reflexivity. }
  cbn [obind]. rewrite !map_map. cbn [fst snd].
  (* rounds 8 and 9 *)
  rewrite (omapM_all _ h_s).
  2:{ intros p Hp. apply in_seq in Hp. rewrite !nth_o_map_seq by lia. cbn [obind plus fst snd]. unfold e18_r9.
      destruct (g18_5d_spec C Hb (h_ls p) (map (fun x0 => h_dec2 x0) (seq 0 m)) (map (fun x0 => h_com2 x0) (seq 0 m)) (map (fun x0 => snd (fst (fst (h_5a x0)))) (seq 0 m)))
        as [(_ & _ & ->)|[(_ & HN & _)|(HN & _)]]; [rewrite !map_length; reflexivity|rewrite !map_length; reflexivity|reflexivity| |].
      - exfalso. apply HN. rewrite !map_map. cbn [h_dec2 d5_t d5_u h_5a g18_5a fst snd a5_b h_ls l18_l l18_rho].
        apply (proj2 (phase5_sums C m h_s (fun p => r18_l (rs p)) (fun p => r18_rho (rs p)) h_R h_y (of_Z q msg) (of_Z q x))).
        rewrite h_s_sum, h_total_eqn. apply dlog_inj. autorewrite with dlog. ring.
      - exfalso. apply HN. intros i d Hd. rewrite nth_error_map in Hd. rewrite nth_error_map. destruct (nth_error (seq 0 m) i); [|discriminate]. cbn in Hd |- *.
        injection Hd as <-. reflexivity. }
  cbn [obind].
  assert (HE : forall l, (forall p, In p l -> (p < m)%nat) ->
    omapM (fun p => let* x0 := nth_o (map (fun x => (h_ls x, h_5a x)) (seq 0 m)) p in e18_out (fst x0) (but p (map h_s (seq 0 m)))) l =
    omapM (fun p => e18_out (h_ls p) (map h_s (others p m))) l).
  { induction l as [|a l IH]; intros HI; [reflexivity|]. cbn [omapM]. rewrite IH by (intros p Hp; apply HI; right; exact Hp).
    specialize (HI a (or_introl eq_refl)). rewrite nth_o_map_seq by lia. cbn [obind plus fst]. rewrite but_map_seq by lia. reflexivity. }
  apply HE. intros p Hp. apply in_seq in Hp. lia.
Qed.
Lemma h_tot p : (p < m)%nat -> sig_total {| ls_r := f0; ls_R := h_R; ls_s := h_s p; ls_m := msg; ls_y := h_y |} (map h_s (others p m)) = h_total.
Proof. intros Hp. unfold sig_total. cbn [ls_s]. rewrite (fsum_split C h_s p m Hp). apply h_s_sum. Qed.
Lemma e18_out_honest : h_total <> f0 -> e18_run C Hb Hz Hf sv ks rs msg =
  Ok (map (fun _ => {| sg_r := of_Z q x; sg_s := fst (normalize h_total y); sg_recid := snd (normalize h_total y) |}) (seq 0 m)).
Proof.
  intros Hs. rewrite e18_run_honest. apply omapM_all. intros p Hp. apply in_seq in Hp. unfold e18_out, g18_output.
  cbn [h_ls l18_R l18_s l18_m l18_y].
  rewrite (gg18_output_complete C _ _ x y); cbn [ls_R ls_y ls_m]; rewrite ?h_tot by lia; [reflexivity|exact HR|exact Hs|exact h_total_eqn].
Qed.
Lemma e18_out_zero : h_total = f0 -> e18_run C Hb Hz Hf sv ks rs msg = Panic.
Proof.
  intros Hs. rewrite e18_run_honest. pose proof h_m_pos as Hm. destruct m as [|m'] eqn:Em; [lia|]. cbn [seq omapM]. unfold e18_out at 1, g18_output.
  cbn [h_ls l18_R l18_s l18_m l18_y].
  destruct (gg18_output_zero {| ls_r := f0; ls_R := h_R; ls_s := h_s 0; ls_m := msg; ls_y := h_y |} (map h_s (others 0 m))) as [e He].
  - rewrite h_tot by lia. exact Hs.
  - cbn [ls_R]. rewrite HR. discriminate.
  - rewrite Em in He. rewrite He. reflexivity.
Qed.
End Honest.
End P.

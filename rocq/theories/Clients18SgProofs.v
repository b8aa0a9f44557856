(** The signing client follows the honest run of Gg18RunProofs.v. *)
From Coq Require Import String Ascii ZArith NArith Nnat Field Bool Lia List.
From Verif Require Import ZArithX Fq Curve Outcome Sigma SigmaProofs Bytes Vss VssProofs Paillier RangeProofs Mta MtaProofs Ecdsa EcdsaProofs Mp MpProofs Gg20Keygen Gg18Keygen KeygenRun KeygenRunProofs
  Gg20Sign NetSim SignProofs SignRun SignRunProofs Gg18Sign Gg18SignProofs Gg18RunProofs
  Manager18 Manager18Proofs PropManager18 Clients18 Clients18Proofs Clients18Prog Clients18Rounds Clients18KgProofs.
Import ListNotations.
Local Open Scope nat_scope.

(** The check at the end accepts exactly the valid signatures with low s, for messages of at most 32 bytes and keys other than
    the identity. *)
Lemma check_sig_ok (C : Curve) (r s : Fq (cq C)) m y :
  check_sig C r s m y = Ok tt <-> length (to_bytes m) <= 32 /\ y <> pzero /\ (to_Z s <= cq C / 2)%Z /\ ecdsa_valid y m (to_Z r) (to_Z s).
Proof.
  unfold check_sig. destruct (Nat.leb_spec (length (to_bytes m)) 32) as [L|L]; cbn [oassert obind]; [|split; [discriminate|lia]].
  destruct (pt_eqb_spec C y pzero) as [Y|Y]; cbn [negb oassert obind]; [split; [discriminate|tauto]|].
  assert (Q : lib_verify C r s m y = true <-> (to_Z s <= cq C / 2)%Z /\ ecdsa_valid y m (to_Z r) (to_Z s)).
  { unfold lib_verify. rewrite !andb_true_iff, !negb_true_iff, !Z.eqb_neq, Z.leb_le. unfold ecdsa_valid. rewrite <- ok_eqn_iff. unfold vpoint.
    pose proof (to_Z_range (cq_prime C) r) as RR. pose proof (to_Z_range (cq_prime C) s) as RS. split.
    - intros (((R0 & S0) & S1) & V). destruct (finvert s) as [w|] eqn:W; [|discriminate]. apply finvert_some in W. destruct W as [S2 ->].
      destruct (x_coord _) as [x|] eqn:X; [|discriminate]. apply Z.eqb_eq in V. refine (conj S1 (conj _ (conj _ (conj S2 _)))); [lia|lia|]. eauto.
    - intros (S1 & R0 & S0 & S2 & x & X & V). rewrite finvert_nz, X, V, Z.eqb_refl by exact S2. repeat split; try lia. }
  destruct (lib_verify C r s m y); cbn [oassert].
  - split; [intros _|reflexivity]. split; [exact L|]. split; [exact Y|]. apply Q. reflexivity.
  - split; [discriminate|]. intros (_ & _ & H). apply Q in H. discriminate.
Qed.

Section Sg.
Context (C : Curve).
Notation q := (cq C).
Notation F := (Fq q).
Add Field sgF : (C_field C).
Context (Hb : list Z -> Z) (Hz : hashZ C) (Hf : hashF C).
Context (j_id : json Z) (j_1 : json (Z * msg_a)) (j_mb : json (msg_b C * msg_b C)) (j_F : json F) (j_dg : json (sign_dec C)) (j_com : json Z)
  (j_5a : json (dec5a C * heg_proof C * dlog_proof C)) (j_5d : json (dec5d C)).
Hypothesis J0 : json_ok j_id. Hypothesis J1 : json_ok j_1. Hypothesis J2 : json_ok j_mb. Hypothesis J3 : json_ok j_F. Hypothesis J4 : json_ok j_dg.
Hypothesis J5 : json_ok j_com. Hypothesis J6 : json_ok j_5a. Hypothesis J7 : json_ok j_5d.
Context (n : nat) (f : list F) (Ns : list Z) (vsss : list (vss C)) (sv : list nat) (ks : nat -> party18 C) (rs : nat -> rand18 C) (msg : Z) (u : string).
Notation m := (length sv).
Hypothesis KO : signers18_ok C n f Ns vsss sv ks.
Hypothesis RO : rand18_ok C sv ks rs.
Context (x y : Z) (HR : coords (h_R C sv rs) = Some (x, y)).
Hypothesis HT : h_total C f sv rs msg x <> f0.

Definition sg_1 (i : nat) : Z * msg_a := (h_com C Hb rs i, {| ma_c := h_c C ks rs i; ma_proofs := [] |}).
Definition sg_2 (i j : nat) : msg_b C * msg_b C := (h_mbg C Hf ks rs i j, h_mbw C Hf n f sv ks rs i j).
Notation a5 i := (h_5a C Hb Hf n f sv rs msg x i).
Definition sg_6 (i : nat) : dec5a C * heg_proof C * dlog_proof C := (snd (fst (fst (a5 i))), snd (fst (a5 i)), snd (a5 i)).
(** What the clients store *)
Definition sg_B (r : string) (i : nat) : string :=
  if String.eqb r "round0" then js j_id (Z.of_nat (S (h_idx sv i))) else if String.eqb r "round1" then js j_1 (sg_1 i) else
  if String.eqb r "round3" then js j_F (h_delta C sv rs i) else if String.eqb r "round4" then js j_dg (h_dec C rs i) else
  if String.eqb r "round5" then js j_com (fst (fst (fst (a5 i)))) else if String.eqb r "round6" then js j_5a (sg_6 i) else
  if String.eqb r "round7" then js j_com (h_com2 C Hb n f sv rs msg x i) else if String.eqb r "round8" then js j_5d (h_dec2 C n f sv rs msg x i) else
  js j_F (h_s C n f sv rs msg x i).
Definition sg_P (r : string) (i j : nat) : string := js j_mb (sg_2 i j).
Definition sg_rounds : list (nat * string * bool) :=
  [(0, "round0"%string, false); (1, "round1"%string, false); (2, "round2"%string, true); (3, "round3"%string, false); (4, "round4"%string, false); (5, "round5"%string, false);
   (6, "round6"%string, false); (7, "round7"%string, false); (8, "round8"%string, false); (9, "round9"%string, false)].
Definition sg_sig : sig_recid C :=
  {| sg_r := of_Z q x; sg_s := fst (normalize (h_total C f sv rs msg x) y); sg_recid := snd (normalize (h_total C f sv rs msg x) y) |}.
Hypothesis HC : check_sig C (sg_r sg_sig) (sg_s sg_sig) msg (h_y C f) = Ok tt.

Lemma sg_plays i : i < m -> plays (table u sg_B sg_P)
  (sign18_client C Hb Hz Hf j_id j_1 j_mb j_F j_dg j_com j_5a j_5d m (S i) (S (h_idx sv i)) u (ks i) (rs i) msg) (rounds_of u m i sg_rounds) sg_sig.
Proof.
  intros L. pose proof KO as (_ & _ & _ & _ & _ & HL & HV & HX & HK). pose proof RO as (HRr & Hk0 & Hg0). destruct (HK i L) as (K1 & K2 & K3 & K4 & K5 & K6).
  assert (IN : forall j, In j (others i m) -> j < m /\ j <> i) by (intros j I; apply Clients18Rounds.in_others in I; lia).
  unfold sign18_client, rounds_of, sg_rounds. cbn [flat_map]. fold (num i). replace (S i - 1) with i by lia.
  (* round 0 *)
  apply (plays_exchange u sg_B sg_P j_id (fun j => Z.of_nat (S (h_idx sv j)))); [exact J0|apply round_ok_r; reflexivity|exact L|reflexivity|].
  rewrite (merge_ok (fun j => Z.of_nat (S (h_idx sv j))) i m L). cbn [need].
  rewrite Gg18RunProofs.omapM_map, (omapM_all _ (h_idx sv)).
  2:{ intros j _. replace (1 <=? Z.of_nat (S (h_idx sv j)))%Z with true by (symmetry; apply Z.leb_le; lia). f_equal. lia. }
  cbn [need]. assert (SV : map (h_idx sv) (seq 0 m) = sv) by (unfold h_idx; apply map_seq_nth). rewrite SV.
  rewrite (proj2 (nth_o_ok _ _ _) (sv_nth sv i L)). cbn [obind]. rewrite K3.
  destruct (h_vss C n f Ns vsss sv ks KO (h_idx sv i) (h_idx_lt C n f Ns vsss sv ks KO i L)) as (v & Ev & Nv). rewrite (proj2 (nth_o_ok _ _ _) Ev). cbn [obind].
  unfold g18_create. rewrite Nv, (h_lam C n f Ns vsss sv ks KO) by (apply (h_idx_lt C n f Ns vsss sv ks KO); exact L). cbn [obind need]. rewrite K2.
  rewrite HX. cbn [need]. fold (h_w C n f sv i). unfold g18_phase1. cbn [sg_k sg_gamma sg_ggamma sg_w].
  change {| sg_w := h_w C n f sv i; sg_gw := smul (h_w C n f sv i) gen; sg_k := r18_k (rs i); sg_gamma := r18_gamma (rs i); sg_ggamma := smul (r18_gamma (rs i)) gen |} with (h_keys C n f sv rs i).
  match goal with |- plays _ (exchange _ _ _ _ _ ?own _) _ _ => change own with (sg_1 i) end.
  (* round 1 *)
  apply (plays_exchange u sg_B sg_P j_1 sg_1); [exact J1|apply round_ok_r; reflexivity|exact L|reflexivity|].
  rewrite !map_map. change (commit_pt Hb (smul (r18_gamma (rs i)) gen) (r18_blind (rs i))) with (fst (sg_1 i)).
  rewrite (merge_ok (fun j => fst (sg_1 j)) i m L). cbn [need]. rewrite map_length, seq_length, Nat.eqb_refl. cbn [oassert need].
  rewrite combine_self, Gg18RunProofs.omapM_map. cbn [fst snd].
  rewrite (omapM_all _ (fun j => ((h_mbg C Hf ks rs i j, h_beta C rs i j), (h_mbw C Hf n f sv ks rs i j, h_ni C rs i j)))).
  2:{ intros j Ij. apply IN in Ij. rewrite (proj2 (nth_o_ok _ _ _) (sv_nth sv j ltac:(lia))). cbn [obind]. rewrite K4.
      destruct (HK j ltac:(lia)) as (_ & _ & _ & _ & K5' & _). rewrite (proj2 (nth_o_ok _ _ _) K5'). cbn [obind]. reflexivity. }
  cbn [need]. rewrite !map_map. cbn [fst snd].
  (* round 2 *)
  apply (plays_p2p u sg_B sg_P j_mb sg_2); [exact J2|apply round_ok_r; reflexivity|exact L|reflexivity|].
  rewrite combine_self, Gg18RunProofs.omapM_map. cbn [fst snd sg_2].
  rewrite (omapM_all _ (fun j => (h_alpha C rs i j, h_miu C n f sv rs i j))).
  2:{ intros j Ij. apply IN in Ij. destruct (HRr i L) as (G1 & _). destruct (HRr j ltac:(lia)) as (_ & G2).
      destruct (G2 i L ltac:(lia)) as ((B1 & B2 & B3) & (W1 & W2 & W3)). rewrite (h_wk_ok C n f Ns vsss sv ks KO) in W3 by lia. cbn [sg_k h_keys].
      unfold h_mbg at 1, h_c, h_N. rewrite honest_alpha by assumption. cbn [omap obind must fst].
      unfold h_mbw at 1, h_c, h_N. rewrite honest_alpha by assumption. cbn [omap obind must fst].
      rewrite (proj2 (nth_o_ok _ _ _) (sv_nth sv j ltac:(lia))). cbn [obind].
      rewrite nth_o_map_seq by (apply (h_idx_lt C n f Ns vsss sv ks KO); lia). cbn [obind plus].
      destruct (h_vss C n f Ns vsss sv ks KO (h_idx sv j) (h_idx_lt C n f Ns vsss sv ks KO j ltac:(lia))) as (v' & Ev' & Nv'). rewrite (proj2 (nth_o_ok _ _ _) Ev'). cbn [obind].
      unfold g18_update_xi. rewrite Nv', (h_lam C n f Ns vsss sv ks KO) by (apply (h_idx_lt C n f Ns vsss sv ks KO); lia). cbn [obind h_mbw honest_mb mb_b dlog_prove dp_pk].
      rewrite smul_smul. fold (h_w C n f sv j). rewrite pt_eqb_refl. reflexivity. }
  cbn [need]. rewrite !map_map. cbn [fst snd].
  assert (ED : g18_delta (h_keys C n f sv rs i) (map (fun j => h_alpha C rs i j) (others i m)) (map (fun j => h_beta C rs i j) (others i m)) = Ok (h_delta C sv rs i)).
  { unfold g18_delta. rewrite !map_length, Nat.eqb_refl. cbn [oassert obind]. rewrite fold_left_fadd, chain_sum. cbn [h_keys sg_k sg_gamma]. f_equal. unfold h_delta. ring. }
  assert (ES : g18_sigma (h_keys C n f sv rs i) (map (fun j => h_miu C n f sv rs i j) (others i m)) (map (fun j => h_ni C rs i j) (others i m)) = Ok (h_sigma C n f sv rs i)).
  { unfold g18_sigma. rewrite !map_length, Nat.eqb_refl. cbn [oassert obind]. rewrite fold_left_fadd, chain_sum. cbn [h_keys sg_k sg_w]. f_equal. unfold h_sigma. ring. }
  rewrite ED. cbn [need]. rewrite ES. cbn [need]. clear ED ES.
  (* round 3 *)
  apply (plays_exchange u sg_B sg_P j_F (h_delta C sv rs)); [exact J3|apply round_ok_r; reflexivity|exact L|reflexivity|].
  rewrite (merge_ok (h_delta C sv rs) i m L). cbn [need]. unfold g18_delta_inv. rewrite fold_left_fadd.
  assert (E0 : (f0 + fsum (map (h_delta C sv rs) (seq 0 m)))%Fq = (h_ksum C sv rs * h_gsum C sv rs)%Fq) by (rewrite (h_delta_sum C sv rs); ring).
  rewrite E0, finvert_nz by (apply fmul_nz; [apply cq_prime|assumption|assumption]). cbn [unwrap need].
  (* round 4 *)
  match goal with |- plays _ (exchange _ _ _ _ _ ?own _) _ _ => change own with (h_dec C rs i) end.
  apply (plays_exchange u sg_B sg_P j_dg (h_dec C rs)); [exact J4|apply round_ok_r; reflexivity|exact L|reflexivity|].
  rewrite (merge_ok (h_dec C rs) i m L). cbn [need]. rewrite (remove_ok (h_dec C rs) i m L). cbn [need].
  rewrite (remove_ok (fun j => fst (sg_1 j)) i m L). cbn [need].
  rewrite (proj2 (g18_phase4_ok C Hb _ _ _ _ (smul (finv (h_ksum C sv rs * h_gsum C sv rs)%Fq) (psum (map sd_g (map (h_dec C rs) (others i m))))))).
  2:{ split; [|reflexivity]. intros k b Hi. rewrite nth_error_map in Hi. destruct (nth_error (others i m) k) as [j|] eqn:Ej; [|discriminate].
      cbn in Hi. injection Hi as <-. exists (h_dec C rs j), (h_com C Hb rs j). rewrite !nth_error_map, Ej. auto 10. }
  cbn [need]. rewrite map_map. cbn [sd_g h_dec sg_k h_keys].
  assert (ER : padd (smul (finv (h_ksum C sv rs * h_gsum C sv rs)%Fq) (psum (map (fun x0 => smul (h_g C rs x0) gen) (others i m)))) (smul (finv (h_ksum C sv rs * h_gsum C sv rs)%Fq) (smul (h_g C rs i) gen)) = h_R C sv rs).
  { pose proof (fsum_split C (h_g C rs) i m L) as ES. fold (h_gsum C sv rs) in ES. rewrite (psum_smul_R C (h_g C rs) gen). unfold h_R. apply dlog_inj. autorewrite with dlog.
    transitivity (finv (h_ksum C sv rs * h_gsum C sv rs) * (h_g C rs i + fsum (map (h_g C rs) (others i m))))%Fq; [ring|]. rewrite ES. field. auto. }
  rewrite ER. clear ER E0.
  assert (EL : g18_local (r18_k (rs i)) msg (h_R C sv rs) (h_sigma C n f sv rs i) (p18_y (ks i)) (r18_l (rs i)) (r18_rho (rs i)) = Ok (h_ls C n f sv rs msg x i)).
  { unfold g18_local, x_coord. rewrite HR. cbn [option_map fst unwrap obind]. rewrite of_Z_mod, K6. reflexivity. }
  rewrite EL. cbn [need]. clear EL.
  assert (E5 : g18_5a Hb Hf (h_ls C n f sv rs msg x i) (r18_b5a (rs i)) (r18_h1 (rs i)) (r18_h2 (rs i)) (r18_t (rs i)) = (fst (fst (fst (a5 i))), snd (fst (fst (a5 i))), snd (fst (a5 i)), snd (a5 i))) by reflexivity.
  rewrite E5. cbv iota.
  (* rounds 5 and 6 *)
  apply (plays_exchange u sg_B sg_P j_com (fun j => fst (fst (fst (a5 j))))); [exact J5|apply round_ok_r; reflexivity|exact L|reflexivity|].
  rewrite (merge_ok (fun j => fst (fst (fst (a5 j)))) i m L). cbn [need].
  match goal with |- plays _ (exchange _ _ _ _ _ ?own _) _ _ => change own with (sg_6 i) end.
  apply (plays_exchange u sg_B sg_P j_5a sg_6); [exact J6|apply round_ok_r; reflexivity|exact L|reflexivity|].
  rewrite (merge_ok sg_6 i m L). cbn [need]. rewrite (remove_ok sg_6 i m L). cbn [need]. rewrite (remove_ok (fun j => fst (fst (fst (a5 j)))) i m L). cbn [need].
  rewrite !map_map.
  rewrite (proj2 (g18_5c_ok C Hb Hf (h_ls C n f sv rs msg x i) _ _ _ _ _ _ _ x y (h_com2 C Hb n f sv rs msg x i, h_dec2 C n f sv rs msg x i) HR)).
  2:{ rewrite !map_length. split; [reflexivity|]. split.
      - intros k d Hd. rewrite nth_error_map in Hd. destruct (nth_error (others i m) k) as [j|] eqn:Ej; [|discriminate].
        cbn in Hd. injection Hd as <-.
        exists (fst (fst (fst (a5 j)))), (snd (fst (a5 j))), (snd (a5 j)). rewrite !nth_error_map, Ej.
        split; [reflexivity|]. split; [reflexivity|]. split; [reflexivity|]. split; [reflexivity|].
        cbn [g18_5a fst snd a5_v a5_a a5_b h_5a l18_R h_ls l18_s l18_l l18_rho]. split.
        + apply heg_complete; cbn [g18_heg_stmt he_G he_H he_Y he_D he_E]; [reflexivity|]. rewrite smul_smul. reflexivity.
        + apply dlog_complete.
      - cbv zeta. rewrite !map_map. cbn [sg_6 g18_5a fst snd a5_v a5_a a5_b h_5a l18_R h_ls l18_s l18_l l18_rho]. reflexivity. }
  cbn [need fst snd].
  (* rounds 7, 8 and 9 *)
  apply (plays_exchange u sg_B sg_P j_com (h_com2 C Hb n f sv rs msg x)); [exact J5|apply round_ok_r; reflexivity|exact L|reflexivity|].
  rewrite (merge_ok (h_com2 C Hb n f sv rs msg x) i m L). cbn [need].
  apply (plays_exchange u sg_B sg_P j_5d (h_dec2 C n f sv rs msg x)); [exact J7|apply round_ok_r; reflexivity|exact L|reflexivity|].
  rewrite (merge_ok (h_dec2 C n f sv rs msg x) i m L). cbn [need].
  assert (E9 : g18_5d Hb (h_ls C n f sv rs msg x i) (map (h_dec2 C n f sv rs msg x) (seq 0 m)) (map (h_com2 C Hb n f sv rs msg x) (seq 0 m)) (map (fun j => fst (fst (sg_6 j))) (seq 0 m)) = Ok (h_s C n f sv rs msg x i)).
  { destruct (g18_5d_spec C Hb (h_ls C n f sv rs msg x i) (map (h_dec2 C n f sv rs msg x) (seq 0 m)) (map (h_com2 C Hb n f sv rs msg x) (seq 0 m)) (map (fun j => fst (fst (sg_6 j))) (seq 0 m)))
      as [(_ & _ & ->)|[(_ & HN & _)|(HN & _)]]; [rewrite !map_length; reflexivity|rewrite !map_length; reflexivity|reflexivity| |].
    - exfalso. apply HN. rewrite !map_map. cbn [h_dec2 d5_t d5_u sg_6 h_5a g18_5a fst snd a5_b h_ls l18_l l18_rho].
      apply (proj2 (phase5_sums C m (h_s C n f sv rs msg x) (fun p => r18_l (rs p)) (fun p => r18_rho (rs p)) (h_R C sv rs) (h_y C f) (of_Z q msg) (of_Z q x))).
      rewrite (h_s_sum C n f Ns vsss sv ks rs msg KO x), (h_total_eqn C f sv ks rs msg RO x). apply dlog_inj. autorewrite with dlog. ring.
    - exfalso. apply HN. intros k d Hd. rewrite nth_error_map in Hd. rewrite nth_error_map. destruct (nth_error (seq 0 m) k); [|discriminate]. cbn in Hd |- *.
      injection Hd as <-. reflexivity. }
  rewrite E9. cbn [need]. clear E9.
  apply (plays_exchange u sg_B sg_P j_F (h_s C n f sv rs msg x)); [exact J3|apply round_ok_r; reflexivity|exact L|reflexivity|].
  rewrite (merge_ok (h_s C n f sv rs msg x) i m L). cbn [need]. rewrite (remove_ok (h_s C n f sv rs msg x) i m L). cbn [need].
  unfold g18_output. cbn [h_ls l18_R l18_s l18_m l18_y].
  rewrite (gg18_output_complete C _ _ x y); cbn [ls_R ls_y ls_m]; rewrite ?(h_tot C n f Ns vsss sv ks rs msg KO x i L); [|exact HR|exact HT|exact (h_total_eqn C f sv ks rs msg RO x)].
  cbn [need]. fold sg_sig. rewrite K6. rewrite HC. cbn [need]. apply pl_done.
Qed.
End Sg.

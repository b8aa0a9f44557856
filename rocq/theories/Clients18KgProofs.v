(** The key generation client follows the lockstep run of KeygenRun.v. *)
From Coq Require Import String Ascii ZArith NArith Nnat Field Bool Lia List.
From Verif Require Import ZArithX Fq Curve Outcome Sigma Bytes Vss Mp MpProofs Gg20Keygen Gg18Keygen KeygenRun KeygenRunProofs NetSim SignProofs Gg18SignProofs
  Manager18 Manager18Proofs PropManager18 Clients18 Clients18Proofs Clients18Prog Clients18Rounds.
Import ListNotations.
Local Open Scope nat_scope.

Lemma digits_le_length k : forall f n, (0 <= n < 256 ^ Z.of_nat k)%Z -> length (digits_le f n) <= k.
Proof.
  induction k as [|k IH]; intros f n H.
  - cbn in H. replace n with 0%Z by lia. destruct f; cbn; lia.
  - destruct f as [|f]; cbn [digits_le]; [cbn; lia|]. destruct (Z.eqb_spec n 0); [cbn; lia|]. cbn [length].
    assert (length (digits_le f (n / 256)) <= k); [|lia]. apply IH. rewrite Nat2Z.inj_succ, Z.pow_succ_r in H by lia.
    split; [apply Z.div_pos; lia|apply Z.div_lt_upper_bound; lia].
Qed.
Lemma to_bytes_length k z : 0 < k -> (0 <= z < 256 ^ Z.of_nat k)%Z -> length (to_bytes z) <= k.
Proof.
  intros K H. unfold to_bytes. destruct (Z.eqb_spec z 0); [cbn; lia|]. rewrite rev_length. apply digits_le_length. lia.
Qed.

Section Kg.
Context (C : Curve).
Notation q := (cq C).
Notation F := (Fq q).
Add Field kgF : (C_field C).
Lemma padd_0_l (P : pt C) : padd pzero P = P.
Proof. apply dlog_inj. rewrite dlog_add, dlog_zero. ring. Qed.
Context (Hb : list Z -> Z) (Hf : hashF C) (ck : Z -> Z -> bool).
Context (aenc : list Z -> list Z -> list Z -> aead) (adec : list Z -> aead -> option (list Z)).
Context (j_bc : json bc18) (j_dec : json (kg_dec1 C)) (j_aead : json aead) (j_vss : json (vss C)) (j_dlog : json (dlog_proof C)).
Hypothesis H_aes : forall k nonce x, adec k (aenc k nonce x) = Some x.
Hypothesis J1 : json_ok j_bc. Hypothesis J2 : json_ok j_dec. Hypothesis J3 : json_ok j_aead. Hypothesis J4 : json_ok j_vss. Hypothesis J5 : json_ok j_dlog.
Context (t n : nat) (rs : nat -> kg18_rand C) (nonces : nat -> nat -> list Z) (u : string).
Hypothesis Hn : 0 < n.
Hypothesis Hu : forall i, i < n -> kr18_u (rs i) <> f0.

Definition dh (i j : nat) : pt C := smul (kr18_u (rs i)) (smul (kr18_u (rs j)) gen).
Definition dh_key (i j : nat) : list Z :=
  match x_coord (dh i j) with Some x => repeat 0%Z (32 - length (to_bytes x)) ++ to_bytes x | None => [] end.
Lemma dh_sym i j : dh i j = dh j i.
Proof. unfold dh. rewrite !smul_smul. f_equal. ring. Qed.
Lemma dh_some i j : i < n -> j < n -> aes_key C (kr18_u (rs i)) (smul (kr18_u (rs j)) gen) = Ok (dh_key i j).
Proof.
  intros Li Lj. unfold aes_key, dh_key. fold (dh i j). destruct (x_coord (dh i j)) as [x|] eqn:E; cbn [unwrap obind].
  - assert (X : (0 <= x < cp C)%Z). { unfold x_coord in E. destruct (coords (dh i j)) as [[a b]|] eqn:Q; [|discriminate]. injection E as ->. apply coords_range in Q. tauto. }
    assert (length (to_bytes x) <= 32). { apply to_bytes_length; [lia|]. pose proof (cp_bytes C). change (256 ^ Z.of_nat 32)%Z with (2 ^ 256)%Z. lia. }
    replace (length (to_bytes x) <=? 32) with true by (symmetry; apply Nat.leb_le; assumption). reflexivity.
  - exfalso. apply x_coord_none in E. unfold dh in E. rewrite smul_smul in E. apply pzero_dlog in E. rewrite dlog_smul, dlog_gen in E.
    assert (Q : fmul (kr18_u (rs i)) (kr18_u (rs j)) <> f0) by (apply fmul_nz; auto using cq_prime). apply Q. rewrite <- E. ring.
Qed.

Notation m1 i := (kg18_phase1 C Hb (kg18_keys C rs i) (kr18_blind (rs i)) (kr18_ck (rs i))).
Context (g2 : nat -> vss C * list F * nat) (g3 : nat -> shared_keys C * dlog_proof C) (sh : nat -> nat -> F).
Hypothesis G2 : forall i, i < n -> kg18_phase1_verify C Hb ck (kg18_keys C rs i) t n (kr18_coefs (rs i)) (map (fun j => snd (m1 j)) (seq 0 n)) (map (fun j => fst (m1 j)) (seq 0 n)) = Ok (g2 i).
Hypothesis GS : forall i j, i < n -> j < n -> nth_o (E := error) (snd (fst (g2 i))) j = Ok (sh i j).
Hypothesis G3 : forall i, i < n -> kg18_phase2 C Hf n (map (fun j => kd_y (snd (m1 j))) (seq 0 n)) (map (fun j => sh j i) (seq 0 n)) (map (fun j => fst (fst (g2 j))) (seq 0 n)) (S i) (kr18_nonce (rs i)) = Ok (g3 i).
Hypothesis G5 : kg18_verify_dlog C Hf n (map (fun j => snd (g3 j)) (seq 0 n)) (map (fun j => kd_y (snd (m1 j))) (seq 0 n)) = Ok tt.

(** What the clients store *)
Definition kg_B (r : string) (i : nat) : string :=
  if String.eqb r "round1" then js j_bc (fst (m1 i)) else if String.eqb r "round2" then js j_dec (snd (m1 i)) else
  if String.eqb r "round4" then js j_vss (fst (fst (g2 i))) else js j_dlog (snd (g3 i)).
Definition kg_pack (i j : nat) : aead := aenc (dh_key i j) (nonces i j) (to_bytes (to_Z (sh i j))).
Definition kg_P (r : string) (i j : nat) : string := js j_aead (kg_pack i j).
Definition kg_rounds : list (nat * string * bool) :=
  [(1, "round1"%string, false); (2, "round2"%string, false); (3, "round3"%string, true); (4, "round4"%string, false); (5, "round5"%string, false)].
Definition kg_file (i : nat) : file18 C :=
  {| f18_keys := kg18_keys C rs i; f18_shared := fst (g3 i); f18_i := S i; f18_vss := map (fun j => fst (fst (g2 j))) (seq 0 n);
     f18_N := map (fun j => (kr18_p1 (rs j) * kr18_p2 (rs j))%Z) (seq 0 n); f18_y := psum (map (fun j => smul (kr18_u (rs j)) gen) (seq 0 n)) |}.

Lemma round_ok_r s : nodash s = true -> round_ok (String "r"%char s).
Proof. intros N. split; [exact N|intros k; apply round_not_dec]. Qed.
Lemma kg_plays i : i < n -> plays (table u kg_B kg_P) (keygen18_client C Hb Hf ck aenc adec j_bc j_dec j_aead j_vss j_dlog t n (S i) u (rs i) (nonces i)) (rounds_of u n i kg_rounds) (kg_file i).
Proof.
  intros L. unfold keygen18_client, rounds_of, kg_rounds. cbn [flat_map].
  change {| k18_u := kr18_u (rs i); k18_p1 := kr18_p1 (rs i); k18_p2 := kr18_p2 (rs i); k18_i := S i |} with (kg18_keys C rs i).
  destruct (m1 i) as [bc dec] eqn:M1. fold (num i).
  assert (E1 : bc = fst (m1 i)) by (rewrite M1; reflexivity). assert (E2 : dec = snd (m1 i)) by (rewrite M1; reflexivity). rewrite E1, E2. clear bc dec M1 E1 E2.
  apply (plays_exchange u kg_B kg_P j_bc (fun j => fst (m1 j))); [exact J1|apply round_ok_r; reflexivity|exact L|reflexivity|].
  rewrite (merge_ok (fun j => fst (m1 j)) i n L). cbn [need].
  apply (plays_exchange u kg_B kg_P j_dec (fun j => snd (m1 j))); [exact J2|apply round_ok_r; reflexivity|exact L|reflexivity|].
  rewrite (merge_ok (fun j => snd (m1 j)) i n L). cbn [need].
  assert (IN : forall j, In j (others i n) -> j < n) by (intros j I; apply in_others in I; lia).
  rewrite (omapM_map_ok _ (fun j => snd (m1 j)) (dh_key i)) by (intros j I; apply (dh_some i j L), IN, I). cbn [need].
  rewrite !map_map.
  assert (HD : hd_error (map (fun j => kd_y (snd (m1 j))) (seq 0 n)) = Some (smul (kr18_u (rs 0)) gen)) by (destruct n; [lia|reflexivity]).
  rewrite HD. cbn [unwrap need].
  rewrite (G2 i L). cbn [need]. pose proof (GS i) as GSi. pose proof (eq_refl (g2 i)) as GE. destruct (g2 i) as [[vs shares] ix] eqn:EG. cbn [fst snd] in GSi. clear GE.
  rewrite (omapM_all _ (fun x => aenc (fst x) (nonces i (snd x)) (to_bytes (to_Z (sh i (snd x)))))).
  2:{ intros [k j] I. cbn [fst snd]. rewrite GSi; [reflexivity|exact L|]. apply in_combine_r in I. replace (S i - 1) with i in I by lia. apply IN, I. }
  cbn [need]. replace (S i - 1) with i by lia.
  assert (CM : forall (h : nat -> list Z) l, combine (map h l) l = map (fun j => (h j, j)) l) by (intros h l; induction l as [|a l IH]; [reflexivity|]; cbn [map combine]; rewrite IH; reflexivity).
  rewrite CM, map_map. cbn [fst snd].
  apply (plays_p2p u kg_B kg_P j_aead kg_pack); [exact J3|apply round_ok_r; reflexivity|exact L|reflexivity|].
  rewrite (omapM_all _ (fun x => match adec (fst x) (snd x) with Some b => of_Z q (from_bytes b) | None => f0 end)).
  2:{ intros [k a] I. cbn [fst snd]. assert (Q : forall l, In (k, a) (combine (map (dh_key i) l) (map (fun j => kg_pack j i) l)) -> exists j, k = dh_key i j /\ a = kg_pack j i).
      { induction l as [|j l IH]; cbn [map combine]; [intros []|]. intros [Q|Q]; [injection Q as <- <-; eauto|auto]. }
      destruct (Q _ I) as (j & -> & ->). unfold kg_pack, dh_key. rewrite (dh_sym j i). rewrite H_aes. reflexivity. }
  cbn [need]. rewrite (GSi i L L). cbn [obind].
  assert (SH : map (fun x => match adec (fst x) (snd x) with Some b => of_Z q (from_bytes b) | None => f0 end) (combine (map (dh_key i) (others i n)) (map (fun j => kg_pack j i) (others i n))) = map (fun j => sh j i) (others i n)).
  { generalize (others i n). intros l. induction l as [|j l IH]; [reflexivity|]. cbn [map combine fst snd]. rewrite IH. f_equal. unfold kg_pack, dh_key. rewrite (dh_sym j i), H_aes, from_to_bytes.
    rewrite Z.abs_eq; [apply of_Z_to_Z|]. apply (to_Z_range (cq_prime C)). }
  rewrite SH, (merge_ok (fun j => sh j i) i n L). cbn [need].
  assert (EV : vs = fst (fst (g2 i))) by (rewrite EG; reflexivity). rewrite EV. clear EV.
  apply (plays_exchange u kg_B kg_P j_vss (fun j => fst (fst (g2 j)))); [exact J4|apply round_ok_r; reflexivity|exact L|reflexivity|].
  rewrite (merge_ok (fun j => fst (fst (g2 j))) i n L). cbn [need]. rewrite (G3 i L). cbn [need].
  apply (plays_exchange u kg_B kg_P j_dlog (fun j => snd (g3 j))); [exact J5|apply round_ok_r; reflexivity|exact L|reflexivity|].
  rewrite (merge_ok (fun j => snd (g3 j)) i n L). cbn [need]. rewrite G5. cbn [need].
  match goal with |- plays _ (Done ?x) _ _ => assert (X : x = kg_file i); [|rewrite X; apply pl_done] end.
  unfold kg_file. f_equal.
  destruct n as [|n']; [lia|]. cbn [seq map tl]. rewrite <- fold_left_padd0. cbn [fold_left]. rewrite padd_0_l. reflexivity.
Qed.
End Kg.

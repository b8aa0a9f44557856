(** C40-C43: the blame functions of GG20 (gg_2020/blame.rs); C85-C87: the helpers around them. *)
From Coq Require Import ZArith Znumtheory Lia Bool List Sorted.
From Verif Require Import ZArithX Fq Curve Toy Outcome Sigma SigmaProofs Bytes Paillier PaillierProofs RangeProofs PropRange Mta MtaProofs Mp MpProofs
  Ecdsa EcdsaProofs VssProofs SignProofs SignRunProofs KeygenRunProofs KeygenExtra Blame BlameProofs PaillierOpen BlameHonest PropSign.
Import ListNotations.
Local Open Scope Z_scope.

(** * Phase 5 *)
(** The exact meaning of the list, for every state with vectors of the right lengths (BlameProofs.state5_all: all of
    them are covered). [gamma_bad], [k_bad], [answer_bad], [opened5] and [rdelta] only mention Paillier and the curve. *)
Theorem C41_phase5_lists_violators :
  forall (C : Curve) (Hz : hashZ C) (Hf : hashF C) m (k : nat -> Fq (cq C)) kr g br bt N d gg ma mb,
  exists bad, phase5_blame Hz Hf (state5 C m k kr g br bt N d gg ma mb) = Err {| me_kind := EPhase6Blame; me_bad := bad |} /\ Sorted lt bad /\
  (forall i, In i bad -> (i < m)%nat /\
     (gamma_bad C g gg i \/ k_bad C k kr N ma i \/ answer_bad C m k kr g br bt N ma mb i \/ (opened5 C m k kr g br bt N gg ma mb /\ d i <> rdelta C m k g bt i))) /\
  (forall i, (i < m)%nat -> gamma_bad C g gg i \/ k_bad C k kr N ma i -> In i bad) /\
  (~ opened5 C m k kr g br bt N gg ma mb -> bad <> []) /\
  (opened5 C m k kr g br bt N gg ma mb -> forall i, In i bad <-> (i < m)%nat /\ d i <> rdelta C m k g bt i).
Proof. intros. apply phase5_spec. Qed.
Print Assumptions C41_phase5_lists_violators.
Theorem C41_every_state_covered :
  forall (C : Curve) (Hf : hashF C) m (st : global5 C), lengths5 C m st -> exists k kr g br bt N d gg ma mb, st = state5 C m k kr g br bt N d gg ma mb.
Proof. exact state5_all. Qed.
Print Assumptions C41_every_state_covered.
(** If all openings are consistent and the broadcast deltas do not add up to (sum k)(sum gamma), somebody is listed. *)
Theorem C41_wrong_sum_is_blamed :
  forall (C : Curve) (Hz : hashZ C) (Hf : hashF C) m (k : nat -> Fq (cq C)) kr g br bt N d gg ma mb,
  fsum (map d (seq 0 m)) <> fmul (fsum (map k (seq 0 m))) (fsum (map g (seq 0 m))) ->
  exists bad, phase5_blame Hz Hf (state5 C m k kr g br bt N d gg ma mb) = Err {| me_kind := EPhase6Blame; me_bad := bad |} /\ bad <> [].
Proof.
  intros C Hz Hf m k kr g br bt N d gg ma mb H. destruct (phase5_spec C Hz Hf m k kr g br bt N d gg ma mb) as (bad & E & _ & _ & _ & E1 & E2).
  exists bad. split; [exact E|]. destruct (opened5_dec C m k kr g br bt N d gg ma mb) as [O|O]; [|exact (E1 O)].
  intros ->. apply H. rewrite <- (rdelta_sum C m k g bt). apply (f_equal fsum). apply map_ext_in. intros i Hi. apply in_seq in Hi.
  destruct (Fq_eq_dec (d i) (rdelta C m k g bt i)) as [K|K]; [exact K|]. exfalso. apply (E2 O i). split; [lia|exact K].
Qed.
Print Assumptions C41_wrong_sum_is_blamed.
(** Full statement of C40: an honest party is never listed. Missing: the condition [openings_in_range] on what the other
    parties opened for their exchanges with it (see the refutation below, which shows that it is needed). *)
Theorem C40_honest_not_blamed_partial :
  forall (C : Curve) (Hz : hashZ C) (Hf : hashF C) m (k : nat -> Fq (cq C)) kr g br bt N d gg ma mb p1 p2 p bad, (p < m)%nat ->
  honest5 C m k kr g br bt N d gg ma mb p1 p2 p -> openings_in_range C m k g br bt N p ->
  phase5_blame Hz Hf (state5 C m k kr g br bt N d gg ma mb) = Err {| me_kind := EPhase6Blame; me_bad := bad |} -> ~ In p bad.
Proof. intros. eapply honest5_not_listed; eassumption. Qed.
Print Assumptions C40_honest_not_blamed_partial.
(** C40 is false as stated: take any run in which all parties are honest. Party [b] opens beta_tag + N_a where it used
    beta_tag, and broadcasts the delta that fits. The ciphertexts still match (Paillier plaintexts are modulo N_a), so
    [a], who is honest, is listed, and nobody else: not even [b]. *)
Theorem C40_framing_refuted :
  forall (C : Curve) (Hz : hashZ C) (Hf : hashF C) m (k : nat -> Fq (cq C)) kr g br bt N d gg ma mb keys a b,
  (forall p, (p < m)%nat -> honest5 C m k kr g br bt N d gg ma mb (fst (keys p)) (snd (keys p)) p) ->
  (forall p, (p < m)%nat -> openings_in_range C m k g br bt N p) ->
  (a < m)%nat -> (b < m)%nat -> a <> b -> of_Z (cq C) (N a) <> f0 ->
  let bt' i p := if (i =? a)%nat && (p =? b)%nat then bt i p + N a else bt i p in
  let d' i := if (i =? b)%nat then fsub (d i) (of_Z (cq C) (N a)) else d i in
  (forall p, (p < m)%nat -> p <> b -> honest5 C m k kr g br bt' N d' gg ma mb (fst (keys p)) (snd (keys p)) p) /\
  phase5_blame Hz Hf (state5 C m k kr g br bt' N d' gg ma mb) = Err {| me_kind := EPhase6Blame; me_bad := [a] |}.
Proof. intros. apply (frame5 C Hz Hf m k kr g br bt N d gg ma mb keys a b); assumption. Qed.
Print Assumptions C40_framing_refuted.
(** The same state refutes the strong reading of C41: a party deviated and the list contains only parties that did not. *)
Theorem C41_only_innocent_listed_refuted :
  forall (C : Curve) (Hz : hashZ C) (Hf : hashF C) m (k : nat -> Fq (cq C)) kr g br bt N d gg ma mb keys a b,
  (forall p, (p < m)%nat -> honest5 C m k kr g br bt N d gg ma mb (fst (keys p)) (snd (keys p)) p) ->
  (forall p, (p < m)%nat -> openings_in_range C m k g br bt N p) ->
  (a < m)%nat -> (b < m)%nat -> a <> b -> of_Z (cq C) (N a) <> f0 ->
  exists bt' d' bad, phase5_blame Hz Hf (state5 C m k kr g br bt' N d' gg ma mb) = Err {| me_kind := EPhase6Blame; me_bad := bad |} /\ bad <> [] /\
    fsum (map d' (seq 0 m)) <> fmul (fsum (map k (seq 0 m))) (fsum (map g (seq 0 m))) /\
    forall i, In i bad -> honest5 C m k kr g br bt' N d' gg ma mb (fst (keys i)) (snd (keys i)) i.
Proof.
  intros C Hz Hf m k kr g br bt N d gg ma mb keys a b H1 H2 Ha Hb Hab HN.
  destruct (frame5 C Hz Hf m k kr g br bt N d gg ma mb keys a b H1 H2 Ha Hb Hab HN) as [F1 F2].
  exists (frame_bt bt N a b), (frame_d C d N a b), [a]. split; [exact F2|]. split; [discriminate|]. split; [|intros i [<-|[]]; apply F1; assumption].
  rewrite (frame_d_sum C d N m a b Hb). intros K. apply HN.
  assert (E : fsum (map d (seq 0 m)) = fmul (fsum (map k (seq 0 m))) (fsum (map g (seq 0 m)))).
  { rewrite <- (rdelta_sum C m k g bt). apply (f_equal fsum). apply map_ext_in. intros i Hi. apply in_seq in Hi.
    apply (honest5_delta C m k kr g br bt N d gg ma mb (fst (keys i)) (snd (keys i)) i); [lia|apply H1; lia|apply H2; lia|].
    exact (all_honest_opened C m k kr g br bt N d gg ma mb keys H1). }
  rewrite E in K. apply (fsub_self_0 C) in K. exact K.
Qed.
Print Assumptions C41_only_innocent_listed_refuted.

(** Three honest parties on the toy curve. *)
Definition ek (i : nat) : Fq (cq toy) := tz (nth i [4; 12; 7] 0).
Definition eg (i : nat) : Fq (cq toy) := tz (nth i [9; 3; 5] 0).
Definition ekr (i : nat) : Z := 2 + Z.of_nat i.
Definition ebr (i p : nat) : Z := 6 + Z.of_nat p.
Definition ebt (i p : nat) : Z := 100 + 10 * Z.of_nat i + Z.of_nat p.
Definition ekeys (i : nat) : Z * Z := nth i [(37, 41); (43, 47); (53, 59)] (53, 59).
Definition eN (i : nat) : Z := fst (ekeys i) * snd (ekeys i).
Definition egg (i : nat) : pt toy := smul (eg i) gen.
Definition ema (i : nat) : msg_a := {| ma_c := enc (eN i) (to_Z (ek i)) (ekr i); ma_proofs := [] |}.
Definition emb (i p : nat) : msg_b toy :=
  {| mb_c := padd_c (eN i) (pmul_c (eN i) (ma_c (ema i)) (to_Z (eg p))) (enc (eN i) (ebt i p) (ebr i p));
     mb_b := dlog_prove exHf2 f0 f0; mb_bt := dlog_prove exHf2 f0 f0 |}.
Definition ed (p : nat) : Fq (cq toy) :=
  (ek p * eg p + fsum (map (fun i => of_Z (cq toy) (dec (fst (ekeys p)) (snd (ekeys p)) (mb_c (emb p i)))) (others p 3)) +
   fsum (map (fun i => f0 - of_Z (cq toy) (ebt i p)) (others p 3)))%Fq.
Lemma ekeys_good p : (p < 3)%nat -> good_key (fst (ekeys p)) (snd (ekeys p)).
Proof.
  intros H. destruct p as [|[|[|p]]]; [| | |lia]; refine (conj _ (conj _ _)); try (apply prime_check; [cbn; lia|vm_compute; reflexivity]); cbn; lia.
Qed.
Example C40_example_hypotheses :
  (forall p, (p < 3)%nat -> honest5 toy 3 ek ekr eg ebr ebt eN ed egg ema emb (fst (ekeys p)) (snd (ekeys p)) p) /\
  (forall p, (p < 3)%nat -> openings_in_range toy 3 ek eg ebr ebt eN p) /\ of_Z (cq toy) (eN 1) <> f0.
Proof.
  split; [|split].
  - intros p Hp. unfold honest5. split; [reflexivity|]. split; [reflexivity|]. split; [reflexivity|]. split; [reflexivity|]. split; [apply ekeys_good; exact Hp|].
    split; [destruct p as [|[|[|p]]]; [reflexivity|reflexivity|reflexivity|lia]|]. reflexivity.
  - intros p Hp i Hi. assert (K : (i < 3)%nat /\ i <> p) by (apply in_others in Hi; lia).
    destruct p as [|[|[|p]]]; [| | |lia]; (destruct i as [|[|[|i]]]; [| | |lia]); try lia; (split; [reflexivity|split; [vm_compute; discriminate|vm_compute; reflexivity]]).
  - intros K. apply (f_equal to_Z) in K. vm_compute in K. discriminate.
Qed.
(** In that run nobody is listed; with the framed opening exactly the honest party 1 is. *)
Example C40_example :
  phase5_blame exH exHf2 (state5 toy 3 ek ekr eg ebr ebt eN ed egg ema emb) = Err {| me_kind := EPhase6Blame; me_bad := [] |} /\
  phase5_blame exH exHf2 (state5 toy 3 ek ekr eg ebr (frame_bt ebt eN 1 2) eN (frame_d toy ed eN 1 2) egg ema emb) =
    Err {| me_kind := EPhase6Blame; me_bad := [1%nat] |}.
Proof.
  destruct C40_example_hypotheses as (H1 & H2 & H3). split.
  - destruct (phase5_spec toy exH exHf2 3 ek ekr eg ebr ebt eN ed egg ema emb) as (bad & E & _ & E1 & _). rewrite E. apply f_equal, f_equal.
    destruct bad as [|x bad]; [reflexivity|]. exfalso. destruct (E1 x (or_introl eq_refl)) as [Hx _].
    apply (honest5_not_listed toy exH exHf2 3 ek ekr eg ebr ebt eN ed egg ema emb _ _ x (x :: bad) Hx (H1 x Hx) (H2 x Hx) E). left. reflexivity.
  - apply (frame5 toy exH exHf2 3 ek ekr eg ebr ebt eN ed egg ema emb ekeys 1 2 H1 H2); [lia|lia|lia|exact H3].
Qed.
(** Without a framer the list names the culprits: party 2 adds one to its delta; party 0 opens another gamma. *)
Definition blamed (o : outcome mp_error unit) : list nat := match o with Err e => me_bad e | _ => [99%nat] end.
Example C41_example :
  blamed (phase5_blame exH exHf2 (state5 toy 3 ek ekr eg ebr ebt eN (fun i => if (i =? 2)%nat then (ed i + f1)%Fq else ed i) egg ema emb)) = [2%nat] /\
  blamed (phase5_blame exH exHf2 (state5 toy 3 ek ekr (fun i => if (i =? 0)%nat then tz 8 else eg i) ebr ebt eN ed egg ema emb)) = [0%nat] /\
  blamed (phase5_blame exH exHf2 (state5 toy 3 ek (fun i => 5 + Z.of_nat i) eg ebr ebt eN ed egg ema emb)) = [0; 1; 2]%nat /\
  blamed (phase5_blame exH exHf2 (state5 toy 3 ek ekr eg (fun i p => if (p =? 1)%nat then 5 else ebr i p) ebt eN ed egg ema emb)) = [1]%nat.
Proof. vm_compute. repeat split. Qed.

(** * Phase 6 *)
Theorem C42_phase6_exact :
  forall (C : Curve) (Hz : hashZ C) (Hf : hashF C) m (k : nat -> Fq (cq C)) kr miu mr gw N pf Sv ma mb R,
  exists bad, phase6_blame Hz Hf (state6 C m k kr miu mr gw N pf Sv ma mb) R = Err {| me_kind := EPhase6Blame; me_bad := bad |} /\ Sorted lt bad /\
  forall i, In i bad <-> (i < m)%nat /\ (open_bad C m k kr miu mr N ma mb i \/
    ((forall j, (j < m)%nat -> ~ open_bad C m k kr miu mr N ma mb j) /\ proof_bad C Hf m k miu gw pf Sv R i)).
Proof. intros. apply phase6_spec. Qed.
Print Assumptions C42_phase6_exact.
Theorem C42_every_state_covered :
  forall (C : Curve) (Hf : hashF C) m (st : global6 C), lengths6 C m st -> exists k kr miu mr gw N pf Sv ma mb, st = state6 C m k kr miu mr gw N pf Sv ma mb.
Proof. exact state6_all. Qed.
Print Assumptions C42_every_state_covered.
(** Full statement: an honest party is never listed. Missing: [openings6_in_range] on what the others opened. *)
Theorem C42_honest_not_listed_partial :
  forall (C : Curve) (Hz : hashZ C) (Hf : hashF C) m (k : nat -> Fq (cq C)) kr miu mr gw N pf Sv ma mb R w sig t bn rn p bad, (p < m)%nat ->
  honest6 C Hf m k kr miu mr gw N pf Sv ma mb R w sig t bn rn p -> openings6_in_range C m k kr miu mr N w bn rn p ->
  phase6_blame Hz Hf (state6 C m k kr miu mr gw N pf Sv ma mb) R = Err {| me_kind := EPhase6Blame; me_bad := bad |} -> ~ In p bad.
Proof. intros. eapply honest6_not_listed; eassumption. Qed.
Print Assumptions C42_honest_not_listed_partial.
(** Opening miu + N_b instead of miu frames the other party of the exchange in the same way. *)
Theorem C42_framing_refuted :
  forall (C : Curve) (Hz : hashZ C) (Hf : hashF C) m (k : nat -> Fq (cq C)) kr miu mr gw N pf Sv ma mb R w sig t bn rn a b,
  (forall p, (p < m)%nat -> honest6 C Hf m k kr miu mr gw N pf Sv ma mb R (w p) (sig p) (t p) (bn p) (rn p) p) ->
  (forall p, (p < m)%nat -> openings6_in_range C m k kr miu mr N (w p) (bn p) (rn p) p) ->
  (a < m)%nat -> (b < m)%nat -> a <> b -> of_Z (cq C) (N b) <> f0 -> R <> pzero ->
  let miu' := frame_miu miu N a b in let S' := frame_S C Sv sig N R b in let pf' := frame_pf C Hf pf sig t N R b in
  ddh_chal Hf {| dd_g1 := gen; dd_h1 := rsigma C m k miu' gw a; dd_g2 := R; dd_h2 := Sv a |} (smul (t a) gen) (smul (t a) R) <> f0 ->
  (forall p, (p < m)%nat -> p <> b -> honest6 C Hf m k kr miu' mr gw N pf' S' ma mb R (w p) (sig p) (t p) (bn p) (rn p) p) /\
  phase6_blame Hz Hf (state6 C m k kr miu' mr gw N pf' S' ma mb) R = Err {| me_kind := EPhase6Blame; me_bad := [a] |}.
Proof. intros C Hz Hf m k kr miu mr gw N pf Sv ma mb R w sig t bn rn a b H1 H2 Ha Hb Hab HN HR miu' S' pf' Hc. apply frame6; assumption. Qed.
Print Assumptions C42_framing_refuted.

(** The same three parties in phase 6, with w = (2, 8, 11), R = 3 G; the randomness of miu is extracted from the ciphertext. *)
Definition ew (i : nat) : Fq (cq toy) := tz (nth i [2; 8; 11] 0).
Definition emw (i p : nat) : msg_b toy :=
  {| mb_c := padd_c (eN i) (pmul_c (eN i) (ma_c (ema i)) (to_Z (ew p))) (enc (eN i) (ebt i p) (ebr i p));
     mb_b := dlog_prove exHf2 f0 f0; mb_bt := dlog_prove exHf2 f0 f0 |}.
Definition emiu (i p : nat) : Z := fst (popen (fst (ekeys i)) (snd (ekeys i)) (mb_c (emw i p))).
Definition emr (i p : nat) : Z := extract_randomness (fst (ekeys i)) (snd (ekeys i)) (mb_c (emw i p)).
Definition eR : pt toy := smul (tz 3) gen.
Definition esig (p : nat) : Fq (cq toy) :=
  (ek p * ew p + fsum (map (fun i => of_Z (cq toy) (emiu p i)) (others p 3)) + fsum (map (fun i => f0 - of_Z (cq toy) (ebt i p)) (others p 3)))%Fq.
Definition et (i : nat) : Fq (cq toy) := tz (5 + Z.of_nat i).
Definition eS (p : nat) : pt toy := smul (esig p) eR.
Definition epf (p : nat) : ddh_proof toy := blame6_proof exHf2 (esig p) eR (eS p) (et p).
Definition egw (p : nat) : pt toy := smul (ew p) gen.
Example C42_example_hypotheses :
  (forall p, (p < 3)%nat -> honest6 toy exHf2 3 ek ekr emiu emr egw eN epf eS ema emw eR (ew p) (esig p) (et p) (fun i => ebt i p) (fun i => ebr i p) p) /\
  (forall p, (p < 3)%nat -> openings6_in_range toy 3 ek ekr emiu emr eN (ew p) (fun i => ebt i p) (fun i => ebr i p) p) /\
  of_Z (cq toy) (eN 2) <> f0 /\ eR <> pzero.
Proof.
  split; [|split; [|split]].
  - intros p Hp. unfold honest6. split; [reflexivity|]. split.
    + intros i Hi. assert (K : (i < 3)%nat /\ i <> p) by (apply in_others in Hi; lia).
      destruct p as [|[|[|p]]]; [| | |lia]; (destruct i as [|[|[|i]]]; [| | |lia]); try lia; vm_compute; reflexivity.
    + split; [reflexivity|]. split; [reflexivity|]. split; [reflexivity|]. split; reflexivity.
  - intros p Hp i Hi. assert (K : (i < 3)%nat /\ i <> p) by (apply in_others in Hi; lia). exists (fst (ekeys i)), (snd (ekeys i)).
    split; [reflexivity|]. split; [apply ekeys_good; lia|].
    destruct p as [|[|[|p]]]; [| | |lia]; (destruct i as [|[|[|i]]]; [| | |lia]); try lia;
      (split; [vm_compute; reflexivity|split; [vm_compute; reflexivity|split; [vm_compute; reflexivity|split; [split; [vm_compute; discriminate|vm_compute; reflexivity]|split; [vm_compute; discriminate|vm_compute; reflexivity]]]]]).
  - intros K. apply (f_equal to_Z) in K. vm_compute in K. discriminate.
  - intros K. apply (f_equal (fun P : pt toy => to_Z (dlog P))) in K. vm_compute in K. discriminate.
Qed.
Example C42_example :
  blamed (phase6_blame exH exHf2 (state6 toy 3 ek ekr emiu emr egw eN epf eS ema emw) eR) = [] /\
  blamed (phase6_blame exH exHf2 (state6 toy 3 ek ekr (fun i p => if (i =? 1)%nat then 7 else emiu i p) emr egw eN epf eS ema emw) eR) = [1]%nat /\
  blamed (phase6_blame exH exHf2 (state6 toy 3 ek ekr emiu emr egw eN epf (fun i => if (i =? 2)%nat then gen else eS i) ema emw) eR) = [2]%nat /\
  blamed (phase6_blame exH exHf2 (state6 toy 3 ek ekr (frame_miu emiu eN 1 2) emr egw eN (frame_pf toy exHf2 epf esig et eN eR 2) (frame_S toy eS esig eN eR 2) ema emw) eR) = [1]%nat.
Proof. vm_compute. repeat split. Qed.

(** * Phase 7 *)
Theorem C43_phase7_exact :
  forall (C : Curve) (st : global7 C), length (g7_Rd st) = length (g7_s st) -> length (g7_S st) = length (g7_s st) ->
  exists bad, phase7_blame st = Err {| me_kind := EPhase7Blame; me_bad := bad |} /\ Sorted lt bad /\
  forall i, In i bad <-> exists s Rd Si, nth_error (g7_s st) i = Some s /\ nth_error (g7_Rd st) i = Some Rd /\ nth_error (g7_S st) i = Some Si /\
    smul s (g7_R st) <> padd (smul (of_Z (cq C) (g7_m st)) Rd) (smul (g7_r st) Si).
Proof.
  intros C st H1 H2. destruct st as [ss r Rds mz R Ss]. cbn [g7_s g7_Rd g7_S g7_m g7_R g7_r] in *.
  rewrite <- (map_seq_nth f0 ss), <- (map_seq_nth pzero Rds), <- (map_seq_nth pzero Ss), H1, H2, phase7_eq.
  eexists. split; [reflexivity|]. split; [apply sorted_filter_seq|].
  intros i. rewrite filter_In, in_seq, negb_true_iff, <- not_true_iff_false, pt_eqb_eq, !map_seq_nth. split.
  - intros [Hi K]. exists (nth i ss f0), (nth i Rds pzero), (nth i Ss pzero).
    split; [apply nth_error_nth'; lia|]. split; [rewrite <- H1, map_seq_nth; apply nth_error_nth'; lia|]. split; [rewrite <- H2, map_seq_nth; apply nth_error_nth'; lia|exact K].
  - rewrite <- H1, map_seq_nth, H1, <- H2, map_seq_nth. intros (s & Rd & Si & E1 & E2 & E3 & K). split.
    + assert (i < length ss)%nat by (apply nth_error_Some; congruence). lia.
    + rewrite (nth_error_nth _ _ f0 E1), (nth_error_nth _ _ pzero E2), (nth_error_nth _ _ pzero E3). exact K.
Qed.
Print Assumptions C43_phase7_exact.
(** An honest signer (s_i computed by LocalSignature::phase7_local_sig from the k_i and sigma_i behind R-dash_i and S_i) is never listed. *)
Theorem C43_honest_not_listed :
  forall (C : Curve) (st : global7 C) bad i k sigma y l,
  phase7_blame st = Err {| me_kind := EPhase7Blame; me_bad := bad |} ->
  length (g7_Rd st) = length (g7_s st) -> length (g7_S st) = length (g7_s st) ->
  gg20_local_sig k (g7_m st) (g7_R st) sigma y = Ok l -> g7_r st = ls_r l ->
  nth_error (g7_s st) i = Some (ls_s l) -> nth_error (g7_Rd st) i = Some (smul k (g7_R st)) -> nth_error (g7_S st) i = Some (smul sigma (g7_R st)) ->
  ~ In i bad.
Proof.
  intros C st bad i k sigma y l E L1 L2 HL HR E1 E2 E3 Hin. destruct (C43_phase7_exact C st L1 L2) as (bad' & E' & _ & K). rewrite E in E'. injection E' as <-.
  apply K in Hin. destruct Hin as (s & Rd & Si & F1 & F2 & F3 & F4). rewrite E1 in F1. rewrite E2 in F2. rewrite E3 in F3. injection F1 as <-. injection F2 as <-. injection F3 as <-.
  apply F4. rewrite HR. exact (local_sig_eqn C k sigma (g7_m st) (g7_R st) y l HL).
Qed.
Print Assumptions C43_honest_not_listed.
(** If the list is empty and the sums of R-dash and S are right, the total signs: the output is accepted whenever it is not zero. *)
Theorem C43_bad_total_is_blamed :
  forall (C : Curve) (st : global7 C) (y : pt C) x yc, length (g7_Rd st) = length (g7_s st) -> length (g7_S st) = length (g7_s st) ->
  psum (g7_Rd st) = gen -> psum (g7_S st) = y -> coords (g7_R st) = Some (x, yc) -> g7_r st = of_Z (cq C) (x mod cq C) ->
  fsum (g7_s st) <> f0 ->
  ~ ecdsa_eqn y (g7_m st) (x mod cq C) (to_Z (fst (normalize (fsum (g7_s st)) yc))) ->
  exists bad, phase7_blame st = Err {| me_kind := EPhase7Blame; me_bad := bad |} /\ bad <> [].
Proof.
  intros C st y x yc L1 L2 HR HS Hc Hr Hs Hbad. destruct (C43_phase7_exact C st L1 L2) as (bad & E & _ & K). exists bad. split; [exact E|]. intros ->. apply Hbad.
  refine (proj1 (total_valid C (g7_R st) y (g7_m st) x yc (fsum (g7_s st)) Hc Hs _)).
  rewrite <- HR, <- HS. apply (phase7_total C (g7_s st) (g7_Rd st) (g7_S st)); [exact L1|exact L2|].
  intros i s Rd Si E1 E2 E3. destruct (pt_eqb_spec C (smul s (g7_R st)) (padd (smul (of_Z (cq C) (g7_m st)) Rd) (smul (of_Z (cq C) x) Si))) as [Q|Q]; [exact Q|]. exfalso.
  apply (K i). exists s, Rd, Si. rewrite Hr, of_Z_mod. split; [exact E1|]. split; [exact E2|]. split; [exact E3|exact Q].
Qed.
Print Assumptions C43_bad_total_is_blamed.
(** k = (9, 7), sigma = (1, 17), R = 2 G, public key 5 G, m = 5, r = 2: the honest partial signatures are 16 and 7. *)
Example C43_example :
  let G z : pt toy := tz z in
  let st s2 : global7 toy := {| g7_s := [tz 16; tz s2]; g7_r := tz 2; g7_Rd := [G 18; G 14]; g7_m := 5; g7_R := G 2; g7_S := [G 2; G 3] |} in
  to_Z (dlog (psum (g7_Rd (st 7)))) = 1 /\ to_Z (dlog (psum (g7_S (st 7)))) = 5 /\
  blamed (phase7_blame (st 7)) = [] /\ blamed (phase7_blame (st 8)) = [1]%nat.
Proof. vm_compute. repeat split. Qed.

(** * C85: the randomness extracted from an answer re-encrypts it *)
Theorem C85_extracted_randomness_opens :
  forall p1 p2 m r, good_key p1 p2 -> Z.gcd (p1 * p2) ((p1 - 1) * (p2 - 1)) = 1 -> Z.gcd r (p1 * p2) = 1 ->
  let c := enc (p1 * p2) m r in
  extract_randomness p1 p2 c = r mod (p1 * p2) /\ enc (p1 * p2) (dec p1 p2 c) (extract_randomness p1 p2 c) = c.
Proof.
  intros p1 p2 m r HK HG Hr c. unfold c, extract_randomness. rewrite popen_enc by assumption. cbn [snd]. split; [reflexivity|].
  rewrite dec_enc by assumption. pose proof (good_key_gt1 _ _ HK). symmetry. apply enc_mod; [assumption|assumption| |]; apply eqm_sym, eqm_mod.
Qed.
Print Assumptions C85_extracted_randomness_opens.
Example C85_example : extract_randomness 37 41 (enc (37 * 41) 1000 77) = 77 /\ dec 37 41 (enc (37 * 41) 1000 77) = 1000 /\ Z.gcd (37 * 41) (36 * 40) = 1.
Proof. vm_compute. repeat split. Qed.

(** * C86: the conversion to the global state puts every opening where the blame functions look for it *)
Theorem C86_local_to_global :
  forall (C : Curve) m (k : nat -> Fq (cq C)) kr g (brl btl : nat -> nat -> Z) N d gg ma mb,
  to_global5 (map N (seq 0 m)) (map d (seq 0 m)) (map gg (seq 0 m)) (map ma (seq 0 m)) (map (fun i => map (mb i) (others i m)) (seq 0 m))
    (map (fun p => {| l5_k := k p; l5_kr := kr p; l5_g := g p; l5_br := map (brl p) (others p m); l5_bt := map (btl p) (others p m) |}) (seq 0 m)) =
  Ok (state5 C m k kr g (fun i p => brl p i) (fun i p => btl p i) N d gg ma mb).
Proof. intros. apply to_global5_eq. Qed.
Print Assumptions C86_local_to_global.
Theorem C86_local_to_global6 :
  forall (C : Curve) m (k : nat -> Fq (cq C)) kr (miu mr : nat -> nat -> Z) gw N pf Sv ma mb,
  to_global6 (map N (seq 0 m)) (map Sv (seq 0 m)) (map gw (seq 0 m)) (map ma (seq 0 m)) (map (fun i => map (mb i) (others i m)) (seq 0 m))
    (map (fun p => {| l6_k := k p; l6_kr := kr p; l6_miu := map (miu p) (others p m); l6_mr := map (mr p) (others p m); l6_proof := pf p |}) (seq 0 m)) =
  Ok (state6 C m k kr miu mr gw N pf Sv ma mb).
Proof. intros. apply to_global6_eq. Qed.
Print Assumptions C86_local_to_global6.
Example C86_example :
  let l p : local5 toy := {| l5_k := tz 0; l5_kr := 0; l5_g := tz 0; l5_br := [10 * p + 1; 10 * p + 2]; l5_bt := [0; 0] |} in
  match to_global5 [] [] [] [] [] [l 1; l 2; l 3] with Ok st => g5_br st | _ => [] end = [[21; 31]; [11; 32]; [12; 22]].
Proof. vm_compute. reflexivity. Qed.

(** * C87: an opened state with a vector that is too short makes the conversion panic *)
Theorem C87_short_opening_panics_refuted :
  forall (C : Curve) Ns (ds : list (Fq (cq C))) ggs mas mbs (ls : list (local5 C)) l, In l ls ->
  (length (l5_br l) < length ls - 1 \/ length (l5_bt l) < length ls - 1)%nat ->
  to_global5 Ns ds ggs mas mbs ls = Panic.
Proof. intros. eapply short_opening_panics; eassumption. Qed.
Print Assumptions C87_short_opening_panics_refuted.
Theorem C87_short_miu_panics_refuted :
  forall (C : Curve) Ns (Ss gws : list (pt C)) mas mbs (ls : list (local6 C)) l, In l ls ->
  (length (l6_miu l) < length ls - 1 \/ length (l6_mr l) < length ls - 1)%nat ->
  to_global6 Ns Ss gws mas mbs ls = Panic.
Proof. intros. eapply short_miu_panics; eassumption. Qed.
Print Assumptions C87_short_miu_panics_refuted.
Example C87_example :
  let l b : local5 toy := {| l5_k := tz 0; l5_kr := 0; l5_g := tz 0; l5_br := [1]; l5_bt := b |} in
  match to_global5 [] [] [] [] [] [l [5]; l []] with Panic => true | _ => false end = true /\
  match to_global5 [] [] [] [] [] [l [5]; l [6]] with Ok _ => true | _ => false end = true.
Proof. vm_compute. repeat split. Qed.

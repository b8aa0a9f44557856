(** Properties of GG18 signing: C35, C36 (GG18 phase4), C38, C82, and the GG18 part of C25.
    [signers18_ok], [rand18_ok] (Gg18RunProofs.v) describe well-formed key material and non-degenerate randomness. *)
From Coq Require Import ZArith Lia Bool List.
From Verif Require Import ZArithX Fq Curve Outcome Sigma SigmaProofs Bytes Vss VssProofs Toy Paillier PaillierProofs RangeProofs
  Mta MtaProofs Ecdsa EcdsaProofs Mp MpProofs Gg20Keygen Gg18Keygen KeygenProofs KeygenRun KeygenRunProofs KeygenExtra Gg20Sign SignProofs SignRun SignRunProofs
  Gg18Sign Gg18SignProofs Gg18RunProofs PropRange PropSign.
Import ListNotations.
Local Open Scope Z_scope.

(** * C35 *)
(** All ten rounds of the client: every check passes and every signer outputs the same signature, whose r is the
    x-coordinate of (sum k)^-1 G, which satisfies the verification equation under the joint key and has low s.  The
    only excluded messages are those for which the total s is 0; then every client stops. *)
Theorem C35_gg18_sign_correct :
  forall (C : Curve) Hb (Hz : hashZ C) (Hf : hashF C) n (f : list (Fq (cq C))) Ns vsss sv (ks : nat -> party18 C) (rs : nat -> rand18 C) (msg : Z),
  signers18_ok C n f Ns vsss sv ks -> rand18_ok C sv ks rs ->
  exists R x y, smul (fsum (map (fun p => r18_k (rs p)) (seq 0 (length sv)))) R = gen /\ coords R = Some (x, y) /\
  (fadd (of_Z (cq C) msg) (fmul (of_Z (cq C) x) (hd f0 f)) <> f0 ->
   exists sig, e18_run C Hb Hz Hf sv ks rs msg = Ok (repeat sig (length sv)) /\
   to_Z (sg_r sig) = x mod cq C /\ to_Z (sg_s sig) <= (cq C - 1) / 2 /\
   ecdsa_eqn (smul (hd f0 f) gen) msg (to_Z (sg_r sig)) (to_Z (sg_s sig)) /\
   (x mod cq C <> 0 -> ecdsa_valid (smul (hd f0 f) gen) msg (to_Z (sg_r sig)) (to_Z (sg_s sig)))) /\
  (fadd (of_Z (cq C) msg) (fmul (of_Z (cq C) x) (hd f0 f)) = f0 -> e18_run C Hb Hz Hf sv ks rs msg = Panic).
Proof.
  intros C Hb Hz Hf n f Ns vsss sv ks rs msg KO RO.
  assert (Hk : h_ksum C sv rs <> f0) by (exact (proj1 (proj2 RO))).
  assert (HRG : smul (h_ksum C sv rs) (h_R C sv rs) = gen).
  { unfold h_R. rewrite smul_smul, fmul_finv by exact Hk. apply smul_1. }
  destruct (coords_some C (h_R C sv rs) (smul_nz C _ _ HRG)) as (x & y & EC).
  exists (h_R C sv rs), x, y. split; [exact HRG|]. split; [exact EC|]. split.
  - intros Hs. set (s := h_total C f sv rs msg x).
    assert (Hs' : s <> f0) by (apply fmul_nz; [apply cq_prime|exact Hk|exact Hs]).
    pose proof (e18_out_honest C Hb Hz Hf n f Ns vsss sv ks rs msg KO RO x y EC Hs') as EO. fold s in EO.
    exists {| sg_r := of_Z (cq C) x; sg_s := fst (normalize s y); sg_recid := snd (normalize s y) |}.
    split; [rewrite EO; f_equal; apply map_const_seq|]. cbn [sg_r sg_s]. rewrite to_Z_of_Z.
    destruct (total_valid C (h_R C sv rs) (smul (hd f0 f) gen) msg x y s EC Hs' (total_eqn C _ _ _ _ Hk)) as (V1 & V2 & V3).
    split; [reflexivity|]. split; [exact V3|]. split; [exact V1|exact V2].
  - intros E. apply (e18_out_zero C Hb Hz Hf n f Ns vsss sv ks rs msg KO RO x y EC). unfold h_total. rewrite E. apply fmul_0_r'.
Qed.
Print Assumptions C35_gg18_sign_correct.
Lemma kg_signers18 (C : Curve) Hb (Hf : hashF C) ck (t n : nat) (kr : nat -> kg18_rand C) (sv : list nat) outs (ks : nat -> party18 C) :
  (t < n)%nat -> Z.of_nat n < cq C ->
  (forall i, (i < n)%nat -> length (kr18_coefs (kr i)) = t) ->
  (forall i, (i < n)%nat -> ck (kr18_ck (kr i)) (kr18_p1 (kr i) * kr18_p2 (kr i)) = true) ->
  (forall i, (i < n)%nat -> good_key (kr18_p1 (kr i)) (kr18_p2 (kr i))) ->
  NoDup sv -> (forall i, In i sv -> (i < n)%nat) -> (t < length sv)%nat ->
  kg18_run C Hb Hf ck t n kr = Ok outs ->
  (forall p i o, nth_error sv p = Some i -> nth_error outs i = Some o ->
     ks p = {| p18_p1 := kr18_p1 (kr i); p18_p2 := kr18_p2 (kr i); p18_x := sk_x (fst o);
               p18_vss := map (fun j => {| vs_t := t; vs_n := n; vs_com := map (fun c => smul c gen) (kr18_u (kr j) :: kr18_coefs (kr j)) |}) (seq 0 n);
               p18_N := map (fun j => kr18_p1 (kr j) * kr18_p2 (kr j)) (seq 0 n); p18_y := sk_y (fst o) |}) ->
  signers18_ok C n (g_sum C n kr) (map (fun j => kr18_p1 (kr j) * kr18_p2 (kr j)) (seq 0 n)) (map (g_vss C t n kr) (seq 0 n)) sv ks.
Proof.
  intros Htn Hq Hco Hck Hgd Hnd Hin Hs RUN Hks. rewrite (kg18_run_honest C Hb Hf ck t n kr) in RUN by assumption. injection RUN as <-.
    assert (HL := g_sum_length C t n kr Htn Hco).
    refine (conj Hnd (conj Hin (conj Hq (conj _ (conj _ (conj _ (conj _ (conj _ _)))))))).
    - unfold g_sum. destruct n as [|n']; [lia|]. cbn [seq map]. apply poly_sum_nonempty. discriminate.
    - lia.
    - rewrite map_length, seq_length. reflexivity.
    - intros v Hv. apply in_map_iff in Hv. destruct Hv as (j & <- & _). reflexivity.
    - rewrite xi18_ok by (intros v Hv; apply in_map_iff in Hv; destruct Hv as (j & <- & _); discriminate).
      rewrite map_length, seq_length. f_equal. rewrite <- seq_shift, map_map. apply map_ext. intros j. rewrite g_dealt_at, g_x_poly, Nat.add_1_r. reflexivity.
    - intros p Hp. assert (Ei : nth_error sv p = Some (h_idx sv p)) by (apply nth_error_nth'; exact Hp).
      assert (Hi : (h_idx sv p < n)%nat) by (apply Hin, (nth_error_In _ p), Ei).
      rewrite (Hks p _ _ Ei (proj1 (nth_o_ok (E := unit) _ _ _) (nth_o_map_seq _ _ _ _ Hi))).
      unfold h_N. rewrite (Hks p _ _ Ei (proj1 (nth_o_ok (E := unit) _ _ _) (nth_o_map_seq _ _ _ _ Hi))).
      cbn [plus fst sk_x sk_y p18_p1 p18_p2 p18_x p18_vss p18_N p18_y].
      split; [apply Hgd, Hi|]. split; [rewrite g_x_poly, Nat.add_1_r; reflexivity|]. split; [reflexivity|]. split; [reflexivity|].
      split; [apply (nth_o_ok (E := unit)); apply nth_o_map_seq; exact Hi|].
      unfold h_y. rewrite g_sum_hd. exact (a_y C n (fun j => [kr18_u (kr j)])).
Qed.
(** From the key generation client to the signature: the stored share of signer sv[p] is its key generation output
    together with its own Paillier primes, everybody's VSS commitments and Paillier keys. *)
Theorem C35_gg18_end_to_end :
  forall (C : Curve) Hb (Hz : hashZ C) (Hf : hashF C) ck (t n : nat) (kr : nat -> kg18_rand C) (sv : list nat) (rs : nat -> rand18 C) (msg : Z),
  (t < n)%nat -> Z.of_nat n < cq C ->
  (forall i, (i < n)%nat -> length (kr18_coefs (kr i)) = t) ->
  (forall i, (i < n)%nat -> ck (kr18_ck (kr i)) (kr18_p1 (kr i) * kr18_p2 (kr i)) = true) ->
  (forall i, (i < n)%nat -> good_key (kr18_p1 (kr i)) (kr18_p2 (kr i))) ->
  NoDup sv -> (forall i, In i sv -> (i < n)%nat) -> (t < length sv)%nat ->
  let Y := smul (fsum (map (fun j => kr18_u (kr j)) (seq 0 n))) (gen : pt C) in
  exists outs, kg18_run C Hb Hf ck t n kr = Ok outs /\ length outs = n /\
  forall ks : nat -> party18 C,
  (forall p i o, nth_error sv p = Some i -> nth_error outs i = Some o ->
     ks p = {| p18_p1 := kr18_p1 (kr i); p18_p2 := kr18_p2 (kr i); p18_x := sk_x (fst o);
               p18_vss := map (fun j => {| vs_t := t; vs_n := n; vs_com := map (fun c => smul c gen) (kr18_u (kr j) :: kr18_coefs (kr j)) |}) (seq 0 n);
               p18_N := map (fun j => kr18_p1 (kr j) * kr18_p2 (kr j)) (seq 0 n); p18_y := sk_y (fst o) |}) ->
  rand18_ok C sv ks rs ->
  exists R x y, smul (fsum (map (fun p => r18_k (rs p)) (seq 0 (length sv)))) R = gen /\ coords R = Some (x, y) /\
  (padd (smul (of_Z (cq C) msg) gen) (smul (of_Z (cq C) x) Y) <> pzero ->
   exists sig, e18_run C Hb Hz Hf sv ks rs msg = Ok (repeat sig (length sv)) /\
   to_Z (sg_r sig) = x mod cq C /\ to_Z (sg_s sig) <= (cq C - 1) / 2 /\
   ecdsa_eqn Y msg (to_Z (sg_r sig)) (to_Z (sg_s sig)) /\
   (x mod cq C <> 0 -> ecdsa_valid Y msg (to_Z (sg_r sig)) (to_Z (sg_s sig)))).
Proof.
  intros C Hb Hz Hf ck t n kr sv rs msg Htn Hq Hco Hck Hgd Hnd Hin Hs Y.
  assert (RUN : exists outs, kg18_run C Hb Hf ck t n kr = Ok outs /\ length outs = n) by (eexists; split; [apply kg18_run_honest; assumption|rewrite map_length, seq_length; reflexivity]).
  destruct RUN as (outs & RUN & LEN). exists outs. split; [exact RUN|]. split; [exact LEN|]. intros ks Hks RO.
  assert (KO := kg_signers18 C Hb Hf ck t n kr sv _ ks Htn Hq Hco Hck Hgd Hnd Hin Hs RUN Hks).
  destruct (C35_gg18_sign_correct C Hb Hz Hf n _ _ _ sv ks rs msg KO RO) as (R & x & y & H1 & H2 & H3 & _).
  exists R, x, y. split; [exact H1|]. split; [exact H2|].
  rewrite (g_sum_hd C n kr) in H3. fold Y in H3. intros Hne. apply H3. intros E. apply Hne. unfold Y. rewrite smul_smul, <- padd_smul, E. apply smul_0.
Qed.
Print Assumptions C35_gg18_end_to_end.
(** Signers 3 and 1 of three (threshold 1), key polynomial 5 + 7x dealt as three polynomials; k = 4 + 12. *)
Definition exv18 : list (vss toy) :=
  map (fun ab => {| vs_t := 1; vs_n := 3; vs_com := ([tz (fst ab); tz (snd ab)] : list (pt toy)) |}) [(1, 2); (3, 1); (1, 4)].
Definition exk18 (i : nat) : party18 toy :=
  let '(a, b, x) := nth i [(37, 41, 12); (43, 47, 19); (53, 59, 26)] (0, 0, 0) in
  {| p18_p1 := a; p18_p2 := b; p18_x := tz x; p18_vss := exv18; p18_N := exNs; p18_y := (tz 5 : pt toy) |}.
Definition exks18 (p : nat) : party18 toy := nth p [exk18 2; exk18 0] (exk18 0).
Definition exr18 (k g : Z) : rand18 toy :=
  {| r18_gamma := tz g; r18_k := tz k; r18_blind := 99 + g; r18_r := 5 + k; r18_bg := fun _ => exbr 6 (100 + k); r18_bw := fun _ => exbr 7 (200 + g);
     r18_l := tz (g + 1); r18_rho := tz (k + 1); r18_b5a := 41; r18_h1 := tz 2; r18_h2 := tz 3; r18_t := tz 6; r18_b5c := 43 |}.
Definition exrs18' (p : nat) : rand18 toy := nth p [exr18 4 9; exr18 12 3] (exr18 0 0).
Example C35_example_hypotheses :
  signers18_ok toy 3 [tz 5; tz 7] exNs exv18 [2; 0]%nat exks18 /\ rand18_ok toy [2; 0]%nat exks18 exrs18'.
Proof.
  split.
  - refine (conj _ (conj _ (conj _ (conj _ (conj _ (conj _ (conj _ (conj _ _)))))))).
    + repeat constructor; cbn; intuition congruence.
    + intros x [<-|[<-|[]]]; lia.
    + cbn; lia.
    + discriminate.
    + cbn; lia.
    + reflexivity.
    + intros v Hv. cbn in Hv. destruct Hv as [<-|[<-|[<-|[]]]]; reflexivity.
    + rewrite xi18_ok by (intros v Hv; cbn in Hv; destruct Hv as [<-|[<-|[<-|[]]]]; discriminate).
      apply f_equal. cbn [exv18 map length seq]. do 3 (apply (f_equal2 (@cons (pt toy))); [toyeq|]). reflexivity.
    + assert (K : forall i, (i < 3)%nat -> good_key (p18_p1 (exk18 i)) (p18_p2 (exk18 i))).
      { intros i H. pose proof (exlk_good i H) as G. destruct i as [|[|[|i]]]; [exact G|exact G|exact G|lia]. }
      intros p Hp. destruct p as [|[|p]]; [| |cbn in Hp; lia]; (split; [apply (K 2%nat) || apply (K 0%nat); lia|]);
        (split; [toyeq|]); (split; [reflexivity|]); (split; [reflexivity|]); (split; [reflexivity|]); toyeq.
  - split; [|split; intros E; apply (f_equal to_Z) in E; vm_compute in E; discriminate].
    intros p Hp. destruct p as [|[|p]]; [| |cbn in Hp; lia]; (split; [reflexivity|]);
      intros [|[|id]] Hid Hne; try (cbn in Hid; lia); try congruence; split; (apply brand_small; [reflexivity|cbn; lia|cbn; lia]).
Qed.
(** The same total nonce and key as in C34_example give the same signature. *)
Example C35_example :
  match e18_run toy exHb2 exH exHf2 [2; 0]%nat exks18 exrs18' 9 with
  | Ok l => map (fun s : sig_recid toy => (to_Z (sg_r s), to_Z (sg_s s), sg_recid s)) l = [(7, 9, 0); (7, 9, 0)] | _ => False end.
Proof. vm_compute. reflexivity. Qed.

(** * C36, GG18 *)
(** phase4 returns delta^-1 times the sum of the revealed points exactly when the revealed point at the position of
    each supplied MtA proof is the proven one and opens its commitment; with one proof per revealed point (as the
    client calls it) every point that enters the sum is checked. *)
Theorem C36_gg18_phase4_accepts_iff :
  forall (C : Curve) Hb (dinv : Fq (cq C)) (bproofs : list (dlog_proof C)) decs coms (R : pt C),
  length bproofs = length decs -> length coms = length decs ->
  (g18_phase4 Hb dinv bproofs decs coms = Ok R <->
   (forall j b d c, nth_error bproofs j = Some b -> nth_error decs j = Some d -> nth_error coms j = Some c ->
      dp_pk b = sd_g d /\ commit_pt Hb (sd_g d) (sd_blind d) = c) /\
   R = smul dinv (psum (map sd_g decs))).
Proof.
  intros C Hb dinv bp decs coms R LB LC. rewrite g18_phase4_ok. split; intros (H & ->); (split; [|reflexivity]).
  - intros j b d c Hj Hd Hc. destruct (H j b Hj) as (d' & c' & D & E & P1 & P2). rewrite Hd in D. injection D as <-. rewrite Hc in E. injection E as <-. auto.
  - intros j b Hj. assert (Lj : (j < length bp)%nat) by (apply nth_error_Some; congruence).
    destruct (nth_error decs j) as [d|] eqn:Ed; [|apply nth_error_None in Ed; lia]. destruct (nth_error coms j) as [c|] eqn:Ec; [|apply nth_error_None in Ec; lia].
    exists d, c. destruct (H j b d c Hj Ed Ec). auto.
Qed.
Print Assumptions C36_gg18_phase4_accepts_iff.
(** Without that length the extra points enter R unchecked: an accepted call stays accepted when any further opening
    is appended, and R moves by dinv times the appended point. *)
Theorem C36_gg18_phase4_surplus_unchecked_refuted :
  forall (C : Curve) Hb (dinv : Fq (cq C)) (bproofs : list (dlog_proof C)) decs coms (R : pt C) (d : sign_dec C) c,
  g18_phase4 Hb dinv bproofs decs coms = Ok R -> (length decs = length coms)%nat ->
  exists R', g18_phase4 Hb dinv bproofs (decs ++ [d]) (coms ++ [c]) = Ok R' /\ R' = padd R (smul dinv (sd_g d)).
Proof.
  intros C Hb dinv bp decs coms R d c H HL. apply g18_phase4_ok in H. destruct H as (H & ->). eexists. split.
  - apply g18_phase4_ok. split; [|reflexivity]. intros j b Hj. destruct (H j b Hj) as (d' & c' & D & E & P). exists d', c'.
    split; [rewrite nth_error_app1; [exact D|apply nth_error_Some; congruence]|]. split; [rewrite nth_error_app1; [exact E|apply nth_error_Some; congruence]|exact P].
  - rewrite map_app; cbn [map]; rewrite psum_app_smul. reflexivity.
Qed.
Print Assumptions C36_gg18_phase4_surplus_unchecked_refuted.
Example C36_gg18_example :
  let d g b : sign_dec toy := {| sd_blind := b; sd_g := (tz g : pt toy) |} in
  let c g b := commit_pt exHb2 (tz g : pt toy) b in
  let run pk := match g18_phase4 exHb2 (tz 3) [dlog_prove exHf2 (tz 4) (tz 2); dlog_prove exHf2 (tz pk) (tz 2)] [d 4 10; d 6 11] [c 4 10; c 6 11]
    with Ok R => to_Z (R : Fq 31) | _ => -1 end in
  run 6 = 30 /\ run 5 = -1.
Proof. vm_compute. split; reflexivity. Qed.

(** * C38 *)
(** All m signers hold (s_p, l_p, rho_p) and published V, A, B accordingly; each runs phase5c on the others' values.
    Whatever the s_p are, phase5d then returns the local s_p at every signer, or fails at every signer, according to
    whether (sum rho) (s R - m G - r Q) is the identity, s = sum s_p. *)
Theorem C38_phase5d_decides :
  forall (C : Curve) Hb (Hf : hashF C) (m : nat) (s l rho : nat -> Fq (cq C)) (R Q : pt C) (msg x y : Z) (b1 b2 : nat -> Z)
    (coms1 : nat -> list Z) hegs rhos (out : nat -> Z * dec5d C),
  coords R = Some (x, y) ->
  let ls p := {| l18_l := l p; l18_rho := rho p; l18_R := R; l18_s := s p; l18_m := msg; l18_y := Q |} in
  let d1 p := {| a5_v := padd (smul (s p) R) (smul (l p) gen); a5_a := smul (rho p) gen; a5_b := smul (fmul (l p) (rho p)) gen; a5_blind := b1 p |} in
  (forall p, (p < m)%nat -> g18_5c Hb Hf (ls p) (map d1 (others p m)) (coms1 p) (hegs p) (rhos p) (a5_v (d1 p)) R (b2 p) = Ok (out p)) ->
  forall p, (p < m)%nat ->
  let D := psub (psub (smul (fsum (map s (seq 0 m))) R) (smul (of_Z (cq C) msg) gen)) (smul (of_Z (cq C) x) Q) in
  let r := g18_5d Hb (ls p) (map (fun j => snd (out j)) (seq 0 m)) (map (fun j => fst (out j)) (seq 0 m)) (map d1 (seq 0 m)) in
  (smul (fsum (map rho (seq 0 m))) D = pzero -> r = Ok (s p)) /\
  (smul (fsum (map rho (seq 0 m))) D <> pzero -> r = Err InvalidKey).
Proof.
  intros C Hb Hf m s l rho R Q msg x y b1 b2 coms1 hegs rhos out EC ls d1 H p Hp D r.
  set (o := fun p => let u := u_of C (ls p) x (a5_v (d1 p)) (map a5_v (map d1 (others p m))) in
                     let t := t_of C (ls p) (map a5_a (map d1 (others p m))) in
                     (commit Hb (hash_pts Hb [u; t]) (b2 p), {| d5_u := u; d5_t := t; d5_blind := b2 p |})).
  assert (HO : forall j, In j (seq 0 m) -> out j = o j).
  { intros j Hj. apply in_seq in Hj. specialize (H j ltac:(lia)). apply (g18_5c_ok C Hb Hf (ls j) _ _ _ _ _ _ _ x y _ EC) in H. exact (proj2 (proj2 H)). }
  assert (E1 : map (fun j => snd (out j)) (seq 0 m) = map (fun j => snd (o j)) (seq 0 m)) by (apply map_ext_in; intros j Hj; rewrite (HO j Hj); reflexivity).
  assert (E2 : map (fun j => fst (out j)) (seq 0 m) = map (fun j => fst (o j)) (seq 0 m)) by (apply map_ext_in; intros j Hj; rewrite (HO j Hj); reflexivity).
  pose proof (phase5_sums C m s l rho R Q (of_Z (cq C) msg) (of_Z (cq C) x)) as PS. cbv zeta in PS.
  unfold r. rewrite E1, E2.
  assert (OP : opens5d C Hb (map (fun j => snd (o j)) (seq 0 m)) (map (fun j => fst (o j)) (seq 0 m))).
  { intros i d Hd. rewrite nth_error_map in Hd. rewrite nth_error_map. destruct (nth_error (seq 0 m) i); [|discriminate]. cbn in Hd |- *. injection Hd as <-. reflexivity. }
  assert (ES : padd (psum (map d5_t (map (fun j => snd (o j)) (seq 0 m)))) (psum (map a5_b (map d1 (seq 0 m)))) = psum (map d5_u (map (fun j => snd (o j)) (seq 0 m))) <->
               smul (fsum (map rho (seq 0 m))) D = pzero).
  { unfold D. rewrite <- PS. rewrite !map_map.
    assert (T : forall j, d5_t (snd (o j)) = smul (l j) (psum (map (fun p => smul (rho p) gen) (others j m)))) by (intros j; cbn; unfold t_of; rewrite map_map; reflexivity).
    assert (U : forall j, d5_u (snd (o j)) = smul (rho j) (psub (psub (padd (padd (smul (s j) R) (smul (l j) gen))
       (psum (map (fun p => padd (smul (s p) R) (smul (l p) gen)) (others j m)))) (smul (of_Z (cq C) msg) gen)) (smul (of_Z (cq C) x) Q)))
      by (intros j; cbn; unfold u_of; rewrite map_map; reflexivity).
    rewrite (map_ext _ _ T), (map_ext _ _ U). reflexivity. }
  destruct (g18_5d_spec C Hb (ls p) (map (fun j => snd (o j)) (seq 0 m)) (map (fun j => fst (o j)) (seq 0 m)) (map d1 (seq 0 m)))
    as [(_ & A & ->)|[(_ & A & ->)|(A & _)]]; [rewrite !map_length; reflexivity|rewrite !map_length; reflexivity| | |contradiction].
  - rewrite ES in A. split; [reflexivity|congruence].
  - rewrite ES in A. split; [congruence|reflexivity].
Qed.
Print Assumptions C38_phase5d_decides.
(** With a non-zero rho sum: accepted exactly when the s_p sum to a solution of the signature equation. *)
Theorem C38_wrong_sum_rejected :
  forall (C : Curve) Hb (Hf : hashF C) (m : nat) (s l rho : nat -> Fq (cq C)) (R Q : pt C) (msg x y : Z) (b1 b2 : nat -> Z)
    (coms1 : nat -> list Z) hegs rhos (out : nat -> Z * dec5d C),
  coords R = Some (x, y) ->
  let ls p := {| l18_l := l p; l18_rho := rho p; l18_R := R; l18_s := s p; l18_m := msg; l18_y := Q |} in
  let d1 p := {| a5_v := padd (smul (s p) R) (smul (l p) gen); a5_a := smul (rho p) gen; a5_b := smul (fmul (l p) (rho p)) gen; a5_blind := b1 p |} in
  (forall p, (p < m)%nat -> g18_5c Hb Hf (ls p) (map d1 (others p m)) (coms1 p) (hegs p) (rhos p) (a5_v (d1 p)) R (b2 p) = Ok (out p)) ->
  fsum (map rho (seq 0 m)) <> f0 ->
  forall p, (p < m)%nat ->
  let r := g18_5d Hb (ls p) (map (fun j => snd (out j)) (seq 0 m)) (map (fun j => fst (out j)) (seq 0 m)) (map d1 (seq 0 m)) in
  let total := fsum (map s (seq 0 m)) in
  (r = Ok (s p) <-> smul total R = padd (smul (of_Z (cq C) msg) gen) (smul (of_Z (cq C) x) Q)) /\
  (r <> Ok (s p) -> r = Err InvalidKey).
Proof.
  intros C Hb Hf m s l rho R Q msg x y b1 b2 coms1 hegs rhos out EC ls d1 H Hrho p Hp r total.
  destruct (C38_phase5d_decides C Hb Hf m s l rho R Q msg x y b1 b2 coms1 hegs rhos out EC H p Hp) as [H1 H2].
  fold ls d1 r total in H1, H2.
  assert (E : smul (fsum (map rho (seq 0 m))) (psub (psub (smul total R) (smul (of_Z (cq C) msg) gen)) (smul (of_Z (cq C) x) Q)) = pzero <->
              smul total R = padd (smul (of_Z (cq C) msg) gen) (smul (of_Z (cq C) x) Q)).
  { rewrite smul_pzero_iff by exact Hrho. apply psub2_zero. }
  split; [split|].
  - intros Ho. apply E. destruct (pt_eq_dec C (smul (fsum (map rho (seq 0 m))) (psub (psub (smul total R) (smul (of_Z (cq C) msg) gen)) (smul (of_Z (cq C) x) Q))) pzero) as [Z|Z]; [exact Z|].
    pose proof (eq_trans (eq_sym Ho) (H2 Z)) as X. discriminate.
  - intros Ht. apply H1, E, Ht.
  - intros Hn. apply H2. intros Z. apply Hn, H1, Z.
Qed.
Print Assumptions C38_wrong_sum_rejected.
(** Two signers with correct s = (2, 20) for R = 2 G, message 9, key 5 G (22 R = 44 G = 9 G + 7 * 5 G); then s = (3, 20). *)
Definition ex38 (s0 s1 : Z) : outcome error (Z * Z) :=
  let R : pt toy := tz 2 in
  let ls (p : nat) : local18 toy := {| l18_l := tz (3 + Z.of_nat p); l18_rho := tz (5 + Z.of_nat p); l18_R := R; l18_s := tz (nth p [s0; s1] 0); l18_m := 9; l18_y := (tz 5 : pt toy) |} in
  let a p := g18_5a exHb2 exHf2 (ls p) 17 (tz 2) (tz 3) (tz 4) in
  let dec p := snd (fst (fst (a p))) in
  let* o0 := g18_5c exHb2 exHf2 (ls 0%nat) [dec 1%nat] [fst (fst (fst (a 1%nat)))] [snd (fst (a 1%nat))] [snd (a 1%nat)] (a5_v (dec 0%nat)) R 21 in
  let* o1 := g18_5c exHb2 exHf2 (ls 1%nat) [dec 0%nat] [fst (fst (fst (a 0%nat)))] [snd (fst (a 0%nat))] [snd (a 0%nat)] (a5_v (dec 1%nat)) R 22 in
  let* s0 := g18_5d exHb2 (ls 0%nat) [snd o0; snd o1] [fst o0; fst o1] [dec 0%nat; dec 1%nat] in
  let* s1 := g18_5d exHb2 (ls 1%nat) [snd o0; snd o1] [fst o0; fst o1] [dec 0%nat; dec 1%nat] in
  Ok (to_Z s0, to_Z s1).
Example C38_example : ex38 2 20 = Ok (2, 20) /\ ex38 3 20 = Err InvalidKey.
Proof. vm_compute. split; reflexivity. Qed.

(** * C82 *)
(** phase5c checks the proof of knowledge of rho only against the key inside the proof: in every accepted call the
    proofs may be replaced by proofs for keys of one's choice, for instance keys different from every A. *)
Theorem C82_rho_proof_unbound_refuted :
  forall (C : Curve) Hb (Hf : hashF C) (s : local18 C) decs coms hegs rhos vi R blind out (sks nonces : list (Fq (cq C))),
  coords (l18_R s) <> None ->
  g18_5c Hb Hf s decs coms hegs rhos vi R blind = Ok out -> length sks = length decs -> length nonces = length decs ->
  exists rhos', g18_5c Hb Hf s decs coms hegs rhos' vi R blind = Ok out /\ map dp_pk rhos' = map (fun k => smul k gen) sks.
Proof.
  intros C Hb Hf s decs coms hegs rhos vi R blind out sks nonces HC H LS LN.
  destruct (coords (l18_R s)) as [[x y]|] eqn:EC; [|congruence].
  apply (g18_5c_ok C Hb Hf s _ _ _ _ _ _ _ x y _ EC) in H. destruct H as (HL & H & Ho).
  exists (map (fun kn => dlog_prove Hf (fst kn) (snd kn)) (combine sks nonces)). split.
  - apply (g18_5c_ok C Hb Hf s _ _ _ _ _ _ _ x y _ EC). split; [exact HL|]. split; [|exact Ho].
    intros i d Hd. destruct (H i d Hd) as (c & h & p & H1 & H2 & _ & H4 & H5 & _).
    assert (Li : (i < length decs)%nat) by (apply nth_error_Some; congruence).
    destruct (nth_error (combine sks nonces) i) as [[k t]|] eqn:E; [|apply nth_error_None in E; rewrite combine_length in E; lia].
    exists c, h, (dlog_prove Hf k t). split; [exact H1|]. split; [exact H2|]. split; [rewrite nth_error_map, E; reflexivity|].
    split; [exact H4|]. split; [exact H5|]. apply dlog_complete.
  - rewrite map_map. cbn [dlog_prove dp_pk]. assert (L : length sks = length nonces) by congruence. clear - L. revert nonces L.
    induction sks as [|a sks IH]; intros [|b nonces] L; try discriminate; [reflexivity|]. cbn [combine map fst]. rewrite IH by (cbn in L; lia). reflexivity.
Qed.
Print Assumptions C82_rho_proof_unbound_refuted.
(** What an accepted phase5c does establish about each peer: the opening of the commitment, and the ElGamal proof that
    binds V and B to A and R. *)
Theorem C82_phase5c_accepts_iff_partial :
  forall (C : Curve) Hb (Hf : hashF C) (s : local18 C) decs coms hegs rhos vi R blind, coords (l18_R s) <> None ->
  ((exists out, g18_5c Hb Hf s decs coms hegs rhos vi R blind = Ok out) <->
   length decs = length coms /\
   forall i d, nth_error decs i = Some d -> exists c h p,
     nth_error coms i = Some c /\ nth_error hegs i = Some h /\ nth_error rhos i = Some p /\
     commit Hb (hash_pts Hb [a5_v d; a5_a d; a5_b d]) (a5_blind d) = c /\
     heg_verify Hf h {| he_G := a5_a d; he_H := R; he_Y := gen; he_D := a5_v d; he_E := a5_b d |} = true /\
     dlog_verify Hf p = true).
Proof.
  intros C Hb Hf s decs coms hegs rhos vi R blind HC. destruct (coords (l18_R s)) as [[x y]|] eqn:EC; [|congruence]. split.
  - intros [out H]. apply (g18_5c_ok C Hb Hf s _ _ _ _ _ _ _ x y _ EC) in H. split; [apply H|apply H].
  - intros (HL & H). eexists. apply (g18_5c_ok C Hb Hf s _ _ _ _ _ _ _ x y _ EC). split; [exact HL|]. split; [exact H|reflexivity].
Qed.
Print Assumptions C82_phase5c_accepts_iff_partial.
Example C82_example :
  let R : pt toy := tz 2 in
  let ls z : local18 toy := {| l18_l := tz 3; l18_rho := tz z; l18_R := R; l18_s := tz 2; l18_m := 9; l18_y := (tz 5 : pt toy) |} in
  let a := g18_5a exHb2 exHf2 (ls 6) 17 (tz 2) (tz 3) (tz 4) in
  let run rho := match g18_5c exHb2 exHf2 (ls 8) [snd (fst (fst a))] [fst (fst (fst a))] [snd (fst a)] [rho] (tz 7 : pt toy) R 21 with Ok _ => 1 | _ => 0 end in
  run (snd a) = 1 /\ run (dlog_prove exHf2 (tz 11) (tz 1)) = 1 /\ run {| dp_pk := dp_pk (snd a); dp_t := dp_t (snd a); dp_z := tz 0 |} = 0.
Proof. vm_compute. repeat split. Qed.

(** * C25, GG18 *)
(** phase2 of GG18 accepts exactly consistent inputs; the key it returns is the sum of the dealt shares and of the
    public values (which equal the committed constant terms). *)
Theorem C25_gg18_phase2_accepts_iff :
  forall (C : Curve) (Hf : hashF C) (n : nat) ys ss (vs : list (vss C)) index nonce o,
  kg18_phase2 C Hf n ys ss vs index nonce = Ok o <->
  length ys = n /\ length ss = n /\ length vs = n /\ (forall v, In v vs -> vs_com v <> []) /\
  ss = map (fun v => peval (map dlog (vs_com v)) (fidx index)) vs /\ ys = map (fun v => hd pzero (vs_com v)) vs /\
  o = ({| sk_y := psum ys; sk_x := fsum ss |}, dlog_prove Hf (fsum ss) nonce).
Proof.
  intros C Hf n ys ss vs index nonce o. rewrite phase2_18_ok.
  assert (E : map (fun v => smul (hd f0 (dealt v)) gen) vs = map (fun v => hd pzero (vs_com v)) vs).
  { apply map_ext. intros v. unfold dealt. destruct (vs_com v) as [|c l]; cbn [map hd]; [apply smul_0|apply smul_dlog]. }
  rewrite E. reflexivity.
Qed.
Print Assumptions C25_gg18_phase2_accepts_iff.
(** verify_dlog_proofs of GG18 accepts exactly vectors of the right lengths whose proofs all verify. *)
Theorem C25_gg18_dlog_accepts_iff :
  forall (C : Curve) (Hf : hashF C) (n : nat) proofs (ys : list (pt C)),
  kg18_verify_dlog C Hf n proofs ys = Ok tt <-> length ys = n /\ length proofs = n /\ forall p, In p proofs -> dlog_verify Hf p = true.
Proof.
  intros C Hf n proofs ys. unfold kg18_verify_dlog. split.
  - intros H. apply obind_ok in H. destruct H as ([] & H1 & H). apply obind_ok in H. destruct H as ([] & H2 & H).
    apply oassert_ok, Nat.eqb_eq in H1, H2. destruct (forallb _ _) eqn:E; [|discriminate]. rewrite forallb_forall in E. auto.
  - intros (-> & -> & H). rewrite !Nat.eqb_refl. cbn [oassert obind]. rewrite (proj2 (forallb_forall _ _) H). reflexivity.
Qed.
Print Assumptions C25_gg18_dlog_accepts_iff.

(** C98: the GG18 signing clients over the relay. *)
From Coq Require Import String Ascii ZArith NArith Nnat Field Bool Lia List.
From Verif Require Import ZArithX Fq Curve Toy Outcome Sigma SigmaProofs Bytes Vss VssProofs Paillier PaillierProofs RangeProofs Mta MtaProofs Ecdsa EcdsaProofs Mp MpProofs Gg20Keygen Gg18Keygen KeygenRun KeygenRunProofs
  Gg20Sign NetSim SignProofs SignRun SignRunProofs Gg18Sign Gg18SignProofs Gg18RunProofs Codec
  Manager18 Manager18Proofs PropManager18 Clients18 Clients18Proofs Clients18Prog Clients18Rounds Clients18KgProofs Clients18SgProofs PropSign PropSign18 PropClients18.
From Verif Require Import PropRange.
Import ListNotations.
Local Open Scope nat_scope.

Section G.
Context (C : Curve).
Add Field psF : (C_field C).
Lemma gen_zero (a : Fq (cq C)) : smul a gen = pzero -> a = f0.
Proof. intros E. apply (f_equal dlog) in E. autorewrite with dlog in E. rewrite <- E. ring. Qed.
End G.

(** * C98 *)
(** Signers sv[0], sv[1], .. of one key with the numbers 1 .. m of one session, sampling as the code does (C35), sign a message
    below 2^256 with a non-zero total, a non-zero r and a non-zero key: all write the same signature, which is valid and has
    low s. *)
Theorem C98_sign18_clients :
  forall (C : Curve) Hb (Hz : hashZ C) (Hf : hashF C) j_id j_1 j_mb j_F j_dg j_com j_5a j_5d
    n (f : list (Fq (cq C))) Ns vsss sv (ks : nat -> party18 C) (rs : nat -> rand18 C) (msg : Z) oc ser par uuid (u : string) (s : server),
  json_ok j_id -> json_ok j_1 -> json_ok j_mb -> json_ok j_F -> json_ok j_dg -> json_ok j_com -> json_ok j_5a -> json_ok j_5d ->
  signers18_ok C n f Ns vsss sv ks -> rand18_ok C sv ks rs ->
  (0 <= msg < 2 ^ 256)%Z -> hd f0 f <> f0 -> used_server oc ser par uuid u s ->
  exists R x y, smul (fsum (map (fun p => r18_k (rs p)) (seq 0 (length sv)))) R = gen /\ coords R = Some (x, y) /\
  ((x mod cq C)%Z <> 0%Z -> fadd (of_Z (cq C) msg) (fmul (of_Z (cq C) x) (hd f0 f)) <> f0 ->
   exists sig : sig_recid C,
   session_finishes oc ser par uuid u s (length sv)
     (fun i => sign18_client C Hb Hz Hf j_id j_1 j_mb j_F j_dg j_com j_5a j_5d (length sv) (i + 1) (nth i sv 0 + 1) u (ks i) (rs i) msg)
     (fun _ => sig) (20 * length sv * length sv) /\
   to_Z (sg_r sig) = (x mod cq C)%Z /\ (to_Z (sg_s sig) <= (cq C - 1) / 2)%Z /\ ecdsa_valid (smul (hd f0 f) gen) msg (to_Z (sg_r sig)) (to_Z (sg_s sig))).
Proof.
  intros C Hb Hz Hf j_id j_1 j_mb j_F j_dg j_com j_5a j_5d n f Ns vsss sv ks rs msg oc ser par uuid u s J0 J1 J2 J3 J4 J5 J6 J7 KO RO HM HF US.
  assert (Hk : h_ksum C sv rs <> f0) by (exact (proj1 (proj2 RO))).
  assert (HRG : smul (h_ksum C sv rs) (h_R C sv rs) = gen) by (unfold h_R; rewrite smul_smul, fmul_finv by exact Hk; apply smul_1).
  destruct (coords_some C (h_R C sv rs) (smul_nz C _ _ HRG)) as (x & y & EC).
  exists (h_R C sv rs), x, y. split; [exact HRG|]. split; [exact EC|]. intros HX HS.
  assert (HT : h_total C f sv rs msg x <> f0) by (apply fmul_nz; [apply cq_prime|exact Hk|exact HS]).
  destruct (total_valid C (h_R C sv rs) (smul (hd f0 f) gen) msg x y _ EC HT (total_eqn C _ _ _ _ Hk)) as (_ & V2 & V3). specialize (V2 HX).
  exists (sg_sig C f sv rs msg x y). unfold sg_sig at 2 3 4 5. cbn [sg_r sg_s]. rewrite to_Z_of_Z.
  split; [|split; [reflexivity|split; [exact V3|exact V2]]].
  assert (HC : check_sig C (sg_r (sg_sig C f sv rs msg x y)) (sg_s (sg_sig C f sv rs msg x y)) msg (h_y C f) = Ok tt).
  { apply check_sig_ok. unfold sg_sig. cbn [sg_r sg_s]. rewrite to_Z_of_Z. split; [|split; [|split; [|exact V2]]].
    - apply to_bytes_length; [lia|]. change (256 ^ Z.of_nat 32)%Z with (2 ^ 256)%Z. exact HM.
    - unfold h_y. intros E. exact (HF (gen_zero C _ E)).
    - etransitivity; [exact V3|]. apply Z.div_le_mono; lia. }
  pose proof (session_runs oc ser par uuid u (sg_B C Hb Hf j_id j_1 j_F j_dg j_com j_5a j_5d n f sv ks rs msg x) (sg_P C Hf j_mb n f sv ks rs) (length sv) sg_rounds
    (fun i => sign18_client C Hb Hz Hf j_id j_1 j_mb j_F j_dg j_com j_5a j_5d (length sv) (i + 1) (nth i sv 0 + 1) u (ks i) (rs i) msg) (fun _ => sg_sig C f sv rs msg x y)) as Q.
  assert (INC : increasing 0 sg_rounds) by (unfold sg_rounds; cbn [increasing]; lia). specialize (Q INC).
  match type of Q with ?A -> _ => assert (PL : A) end.
  { intros c L. rewrite !Nat.add_1_r. apply (sg_plays C Hb Hz Hf j_id j_1 j_mb j_F j_dg j_com j_5a j_5d J0 J1 J2 J3 J4 J5 J6 J7 n f Ns vsss sv ks rs msg u KO RO x y EC HT HC c L). }
  specialize (Q PL s (used_fresh _ _ _ _ _ _ US)). unfold session_finishes. cbv zeta. intros l HL. specialize (Q l HL). cbv zeta in Q.
  change (length sg_rounds) with 10 in Q. replace (20 * length sv * length sv) with (2 * length sv * length sv * 10) by lia. exact Q.
Qed.
Print Assumptions C98_sign18_clients.

(** From signing up for key generation to the signature: n clients generate a key with threshold t; then, in a later session
    of the same or another relay, any t + 1 of them with the numbers 1 .. t + 1 in any order sign with their key files. *)
Theorem C98_keygen_to_signature :
  forall (C : Curve) Hb (Hz : hashZ C) (Hf : hashF C) ck aenc adec j_bc j_dec j_aead j_vss j_dlog j_id j_1 j_mb j_F j_dg j_com j_5a j_5d
    (t n : nat) (kr : nat -> kg18_rand C) (nonces : nat -> nat -> list Z) oc ser par uuid (u : string) (s : server),
  (forall k nonce x, adec k (aenc k nonce x) = Some x) -> json_ok j_bc -> json_ok j_dec -> json_ok j_aead -> json_ok j_vss -> json_ok j_dlog ->
  json_ok j_id -> json_ok j_1 -> json_ok j_mb -> json_ok j_F -> json_ok j_dg -> json_ok j_com -> json_ok j_5a -> json_ok j_5d ->
  t < n -> (Z.of_nat n < cq C)%Z ->
  (forall i, i < n -> length (kr18_coefs (kr i)) = t) ->
  (forall i, i < n -> ck (kr18_ck (kr i)) (kr18_p1 (kr i) * kr18_p2 (kr i))%Z = true) ->
  (forall i, i < n -> good_key (kr18_p1 (kr i)) (kr18_p2 (kr i))) ->
  (forall i, i < n -> kr18_u (kr i) <> f0) ->
  let Y := smul (fsum (map (fun j => kr18_u (kr j)) (seq 0 n))) (gen : pt C) in
  used_server oc ser par uuid u s -> Y <> pzero ->
  exists file : nat -> file18 C,
  session_finishes oc ser par uuid u s n
    (fun i => keygen18_client C Hb Hf ck aenc adec j_bc j_dec j_aead j_vss j_dlog t n (i + 1) u (kr i) (nonces i)) file (10 * n * n) /\
  forall (sv : list nat) (rs : nat -> rand18 C) (msg : Z) (u' : string) (s' : server),
  NoDup sv -> (forall i, In i sv -> i < n) -> length sv = t + 1 ->
  rand18_ok C sv (fun p => party_of C (file (nth p sv 0))) rs ->
  (0 <= msg < 2 ^ 256)%Z -> used_server oc ser par uuid u' s' ->
  exists R x y, smul (fsum (map (fun p => r18_k (rs p)) (seq 0 (t + 1)))) R = gen /\ coords R = Some (x, y) /\
  ((x mod cq C)%Z <> 0%Z -> padd (smul (of_Z (cq C) msg) gen) (smul (of_Z (cq C) x) Y) <> pzero ->
   exists sig : sig_recid C,
   session_finishes oc ser par uuid u' s' (t + 1)
     (fun i => sign18_main C Hb Hz Hf j_id j_1 j_mb j_F j_dg j_com j_5a j_5d (t + 1) (i + 1) u' (file (nth i sv 0)) (rs i) msg)
     (fun _ => sig) (20 * (t + 1) * (t + 1)) /\
   to_Z (sg_r sig) = (x mod cq C)%Z /\ (to_Z (sg_s sig) <= (cq C - 1) / 2)%Z /\ ecdsa_valid Y msg (to_Z (sg_r sig)) (to_Z (sg_s sig))).
Proof.
  intros C Hb Hz Hf ck aenc adec j_bc j_dec j_aead j_vss j_dlog j_id j_1 j_mb j_F j_dg j_com j_5a j_5d t n kr nonces oc ser par uuid u s
    HA J1 J2 J3 J4 J5 K0 K1 K2 K3 K4 K5 K6 K7 Htn Hq Hco Hck Hgd Hu Y US HY.
  destruct (keygen18_files C Hb Hf ck aenc adec j_bc j_dec j_aead j_vss j_dlog t n kr nonces oc ser par uuid u s HA J1 J2 J3 J4 J5 Htn Hq Hco Hck Hu US) as (file & x0 & SF & FE & _ & outs & RUN & LEN & FO).
  exists file. split; [exact SF|]. intros sv rs msg u' s' ND IN LS RO HM US'. assert (Hs : t < length sv) by lia.
  assert (KO := kg_signers18 C Hb Hf ck t n kr sv outs (fun p => party_of C (file (nth p sv 0))) Htn Hq Hco Hck Hgd ND IN Hs RUN).
  match type of KO with ?A -> _ => assert (KS : A) end.
  { intros p i o Ep Eo. assert (Li : i < n) by (apply IN; eapply nth_error_In; exact Ep). rewrite (nth_error_nth _ _ 0 Ep). destruct (FO i Li) as (o' & Eo' & Es). assert (o' = o) by congruence. subst o'.
    rewrite (FE i Li) in *. unfold party_of. cbn [f18_keys f18_shared f18_vss f18_N f18_y k18_p1 k18_p2] in *. rewrite <- Es. reflexivity. }
  specialize (KO KS).
  assert (HF : hd f0 (g_sum C n kr) <> f0).
  { rewrite (g_sum_hd C n kr). intros E. apply HY. unfold Y. rewrite E. apply smul_0. }
  destruct (C98_sign18_clients C Hb Hz Hf j_id j_1 j_mb j_F j_dg j_com j_5a j_5d n _ _ _ sv (fun p => party_of C (file (nth p sv 0))) rs msg oc ser par uuid u' s'
    K0 K1 K2 K3 K4 K5 K6 K7 KO RO HM HF US') as (R & x & y & H1 & H2 & H3).
  rewrite LS in *. exists R, x, y. split; [exact H1|]. split; [exact H2|]. intros HX HN.
  rewrite (g_sum_hd C n kr) in H3. fold Y in H3.
  destruct (H3 HX) as (sig & S1 & S2).
  { intros E. apply HN. unfold Y. rewrite smul_smul, <- padd_smul, E. apply smul_0. }
  exists sig. split; [|exact S2]. unfold session_finishes in *.
  replace (map _ (seq 0 (t + 1))) with (map (fun i => sign18_client C Hb Hz Hf j_id j_1 j_mb j_F j_dg j_com j_5a j_5d (t + 1) (i + 1) (nth i sv 0 + 1) u' (party_of C (file (nth i sv 0))) (rs i) msg) (seq 0 (t + 1))); [exact S1|].
  apply map_ext_in. intros i I. apply in_seq in I. unfold sign18_main. rewrite (FE (nth i sv 0)) by (apply IN, nth_In; lia). reflexivity.
Qed.
Print Assumptions C98_keygen_to_signature.

(** Two signers of three (threshold 1), as in C35_example; the first to sign is party 3. *)
Definition cdec5a : codec (dec5a toy).
Proof. refine (cmap (cpair cP (cpair cP (cpair cP cZ))) (fun d => (a5_v d, (a5_a d, (a5_b d, a5_blind d)))) (fun '(a, (b, (c, d))) => {| a5_v := a; a5_a := b; a5_b := c; a5_blind := d |}) _). intros []; reflexivity. Defined.
Definition cdec5d : codec (dec5d toy).
Proof. refine (cmap (cpair cP (cpair cP cZ)) (fun d => (d5_u d, (d5_t d, d5_blind d))) (fun '(a, (b, c)) => {| d5_u := a; d5_t := b; d5_blind := c |}) _). intros []; reflexivity. Defined.
Definition exsign18 (msg : Z) (me i : nat) : prog (sig_recid toy) :=
  sign18_client toy exHb2 exH exHf2 (jof cZ) (jof (cpair cZ cma)) (jof (cpair cmb cmb)) (jof cF) (jof csd) (jof cZ) (jof (cpair (cpair cdec5a cheg) cdlog)) (jof cdec5d)
    2 me (nth i [2; 0] 0 + 1) "u" (exks18 i) (exrs18' i) msg.
Example C98_example :
  let l := List.concat (repeat [Cl 1; Env (ASet "x" "y"); Cl 0; Lost 1] 40) in
  map (fun p : prog (sig_recid toy) => match p with Done s => Some (to_Z (sg_r s), to_Z (sg_s s), sg_recid s) | _ => None end)
      (y_cl (exec18 true exser expar exuuid {| y_sv := sv_init exser exuuid; y_cl := map (fun i => exsign18 9 (i + 1) i) (seq 0 2) |} l)) =
  [Some (7, 9, 0); Some (7, 9, 0)]%Z.
Proof. vm_compute. reflexivity. Qed.
(** The hypotheses on the signers and their choices are those of C35_example_hypotheses. *)
Example C98_example_hypotheses :
  json_ok (jof (cpair cZ cma)) /\ json_ok (jof (cpair (cpair cdec5a cheg) cdlog)) /\ json_ok (jof cdec5d) /\ hd f0 [tz 5; tz 7] <> f0 /\
  used_server true exser expar exuuid "u" (sv_init exser exuuid).
Proof.
  refine (conj (jof_ok _) (conj (jof_ok _) (conj (jof_ok _) (conj _ _)))); [|exists []; split; [constructor|reflexivity]].
  intros E. apply (f_equal to_Z) in E. vm_compute in E. discriminate.
Qed.

(** * C97 for signing *)
(** Signing clients of one session of which none has the number j between 1 and m never write a signature. *)
Theorem C97_sign_missing_number_refuted :
  forall (C : Curve) Hb (Hz : hashZ C) (Hf : hashF C) j_id j_1 j_mb j_F j_dg j_com j_5a j_5d (m : nat) (clients : list (nat * file18 C * rand18 C * Z))
    oc ser par uuid (u : string) (s : server) j,
  1 <= j <= m -> (forall x, In x clients -> fst (fst (fst x)) <> j) ->
  used_server oc ser par uuid u s ->
  forall l, Forall (outside u) l -> forall c f,
  nth_error (y_cl (exec18 oc ser par uuid
    {| y_sv := s; y_cl := map (fun x => sign18_main C Hb Hz Hf j_id j_1 j_mb j_F j_dg j_com j_5a j_5d m (fst (fst (fst x))) u (snd (fst (fst x))) (snd (fst x)) (snd x)) clients |} l)) c <> Some (Done f).
Proof.
  intros C Hb Hz Hf j_id j_1 j_mb j_F j_dg j_com j_5a j_5d m clients oc ser par uuid u s j J NJ US l O c f X.
  assert (RO : round_ok "round0") by (apply round_ok_r; reflexivity).
  assert (K0 : session_key u (bkey (N.of_nat j) "round0" u)) by (exists (N.of_nat j), "round0"%string; auto).
  match type of X with nth_error (y_cl ?w) _ = _ => assert (W : Forall (waits (bkey (N.of_nat j) "round0" u)) (y_cl w)) end.
  { apply (stuck_exec oc ser par uuid u _ K0); [exact O|apply (used_fresh _ _ _ _ _ _ US), K0|]. cbn [y_cl]. apply Forall_forall. intros p P. apply in_map_iff in P. destruct P as (d & <- & D).
    unfold sign18_main, sign18_client. apply waits_exchange; [|exact RO|lia]. intros Q. apply (NJ d D). lia. }
  apply nth_error_In in X. rewrite Forall_forall in W. apply W in X. inversion X.
Qed.
Print Assumptions C97_sign_missing_number_refuted.
(** Both clients have number 1. *)
Example C97_sign_example :
  let l := List.concat (repeat [Cl 0; Cl 1] 100) in
  map (fun p : prog (sig_recid toy) => match p with Get k _ => if String.eqb k "2-round0-u" then 1 else 0 | _ => 0 end)
      (y_cl (exec18 true exser expar exuuid {| y_sv := sv_init exser exuuid; y_cl := map (fun i => exsign18 9 1 i) (seq 0 2) |} l)) = [1; 1].
Proof. vm_compute. reflexivity. Qed.

(** Signups served one at a time, none lost: the clients that got the numbers of one signing session, in whatever order the signers
    came, all write the same valid signature. *)
Theorem C97_sign_sequential_signups_finish :
  forall (C : Curve) Hb (Hz : hashZ C) (Hf : hashF C) j_id j_1 j_mb j_F j_dg j_com j_5a j_5d
    n (f : list (Fq (cq C))) Ns vsss sv (ks : nat -> party18 C) (rs : nat -> rand18 C) (msg : Z) oc ser par uuid (pr : signup_kind -> Z) l s tr (e : nat),
  json_ok j_id -> json_ok j_1 -> json_ok j_mb -> json_ok j_F -> json_ok j_dg -> json_ok j_com -> json_ok j_5a -> json_ok j_5d ->
  signers18_ok C n f Ns vsss sv ks -> rand18_ok C sv ks rs ->
  (0 <= msg < 2 ^ 256)%Z -> hd f0 f <> f0 -> 1 <= length sv ->
  (forall p, par (ser p) = Some p) -> (forall i j, uuid i = uuid j -> i = j) -> (forall d, 1 <= parties_of d (pr d) < 65536)%Z -> pr Sign = (Z.of_nat (length sv) - 1)%Z ->
  Forall stame l -> srun oc ser par uuid pr (sv_init ser uuid) l = (s, tr) -> (e + 1) * length sv <= length (signed Sign tr) ->
  let ticket i := nth (e * length sv + i) (signed Sign tr) {| ps_number := 0; ps_uuid := "" |} in
  (forall k v i, In (SSet k v) l -> i < length sv -> ~ session_key (ps_uuid (ticket i)) k) ->
  exists R x y, smul (fsum (map (fun p => r18_k (rs p)) (seq 0 (length sv)))) R = gen /\ coords R = Some (x, y) /\
  ((x mod cq C)%Z <> 0%Z -> fadd (of_Z (cq C) msg) (fmul (of_Z (cq C) x) (hd f0 f)) <> f0 ->
   exists sig : sig_recid C,
   session_finishes oc ser par uuid (ps_uuid (ticket 0)) s (length sv)
     (fun i => sign18_client C Hb Hz Hf j_id j_1 j_mb j_F j_dg j_com j_5a j_5d (length sv) (Z.to_nat (ps_number (ticket i))) (nth i sv 0 + 1) (ps_uuid (ticket i)) (ks i) (rs i) msg)
     (fun _ => sig) (20 * length sv * length sv) /\
   ecdsa_valid (smul (hd f0 f) gen) msg (to_Z (sg_r sig)) (to_Z (sg_s sig))).
Proof.
  intros C Hb Hz Hf j_id j_1 j_mb j_F j_dg j_com j_5a j_5d n f Ns vsss sv ks rs msg oc ser par uuid pr l s tr e J1 J2 J3 J4 J5 J6 J7 J8 KO RO ME NZ LS SP UF HP HN T E L ticket NS.
  assert (PN : parties_of Sign (pr Sign) = Z.of_nat (length sv)) by (cbn [parties_of]; lia).
  destruct (served oc ser par uuid pr l s tr Sign e (length sv) SP UF HP PN T E L) as (u & N & US).
  assert (TI : forall i, i < length sv -> ticket i = {| ps_number := Z.of_nat (i + 1); ps_uuid := u |}) by (intros i I; apply nth_error_nth, N, I).
  assert (US' : used_server oc ser par uuid u s) by (apply US; intros k v I; specialize (NS k v 0 I); rewrite TI in NS by lia; apply NS; lia).
  destruct (C98_sign18_clients C Hb Hz Hf j_id j_1 j_mb j_F j_dg j_com j_5a j_5d n f Ns vsss sv ks rs msg oc ser par uuid u s J1 J2 J3 J4 J5 J6 J7 J8 KO RO ME NZ US') as (R & x & y & Q1 & Q2 & Q3).
  exists R, x, y. refine (conj Q1 (conj Q2 _)). intros X1 X2. destruct (Q3 X1 X2) as (sig & SF & _ & _ & V). exists sig. split; [|exact V]. rewrite (TI 0) by lia. cbn [ps_uuid]. unfold session_finishes in *.
  replace (map _ (seq 0 (length sv))) with (map (fun i => sign18_client C Hb Hz Hf j_id j_1 j_mb j_F j_dg j_com j_5a j_5d (length sv) (i + 1) (nth i sv 0 + 1) u (ks i) (rs i) msg) (seq 0 (length sv))); [exact SF|].
  apply map_ext_in. intros i I. apply in_seq in I. rewrite TI by lia. cbn [ps_number ps_uuid]. rewrite Nat2Z.id. reflexivity.
Qed.
Print Assumptions C97_sign_sequential_signups_finish.
(** Two signers with a threshold of 1: four signups for signing, one for key generation in between, two sessions *)
Definition exsups := [SSignup Sign; SSignup Keygen; SSignup Sign; SGet "x"; SSignup Sign; SSet "k" "v"; SSignup Sign].
Example C97_sign_sequential_example :
  let tr := snd (srun true unser unpar exuuid (fun d => match d with Keygen => 3 | Sign => 1 end)%Z (sv_init unser exuuid) exsups) in
  Forall stame exsups /\ (1 + 1) * 2 <= length (signed Sign tr) /\ map (fun i => (ps_number (nth (1 * 2 + i) (signed Sign tr) {| ps_number := 0; ps_uuid := "" |}))) (seq 0 2) = [1; 2]%Z.
Proof. cbv zeta. split; [repeat constructor; intros [H|H]; discriminate|]. split; vm_compute; [lia|reflexivity]. Qed.

(** Properties of GG20 and GG18 key generation: C16 (multi-party part), C20-C27, C77. *)
From Coq Require Import ZArith Lia Bool List.
From Verif Require Import ZArithX Fq Curve Outcome Sigma SigmaProofs Bytes Vss VssProofs Toy Paillier RangeProofs Pdl Mp MpProofs
  Gg20Keygen Gg18Keygen KeygenProofs KeygenRun KeygenRunProofs KeygenExtra.
Import ListNotations.
Local Open Scope Z_scope.

(** The sum of the parties' secret contributions. *)
Definition secret_of {C} (n : nat) (u : nat -> Fq (cq C)) : Fq (cq C) := fsum (map u (seq 0 n)).

(** * C16, multi-party part *)
Theorem C16_gg20_keygen_opens :
  forall (C : Curve) Hb ck cd (k : keys C) (blind pck pcd1 pcd2 : Z) b d,
  kg_phase1 Hb k blind pck pcd1 pcd2 = (b, d) ->
  ck pck (ky_p1 k * ky_p2 k) = true -> cd pcd1 (ky_dl k) = Ok true ->
  cd pcd2 {| dl_N := dl_N (ky_dl k); dl_h1 := dl_h2 (ky_dl k); dl_h2 := dl_h1 (ky_dl k) |} = Ok true ->
  2047 <= bit_length (ky_p1 k * ky_p2 k) <= 2048 -> 2047 <= bit_length (dl_N (ky_dl k)) <= 2048 ->
  kd_y d = smul (ky_u k) gen /\ kd_blind d = blind /\
  kb_com b = commit_pt Hb (smul (ky_u k) gen) blind /\ kg_check1 C Hb ck cd (d, b) = Ok true.
Proof.
  intros C Hb ck cd k blind pck pcd1 pcd2 b d H Hck H1 H2 HN1 HN2.
  injection H as <- <-. split; [reflexivity|]. split; [reflexivity|]. split; [reflexivity|].
  apply check1_ok. unfold peer_ok. cbn. auto 10.
Qed.
Print Assumptions C16_gg20_keygen_opens.
Theorem C16_gg18_keygen_opens :
  forall (C : Curve) Hb ck (k : keys18 C) (blind pck : Z) b d,
  kg18_phase1 C Hb k blind pck = (b, d) -> ck pck (k18_p1 k * k18_p2 k) = true ->
  kd_y d = smul (k18_u k) gen /\ b18_com b = commit_pt Hb (smul (k18_u k) gen) blind /\ kg18_check1 C Hb ck (d, b) = true.
Proof.
  intros C Hb ck k blind pck b d H Hck. injection H as <- <-. split; [reflexivity|]. split; [reflexivity|].
  unfold kg18_check1. cbn [kd_y kd_blind b18_com b18_ck b18_N]. rewrite Z.eqb_refl, Hck. reflexivity.
Qed.
Print Assumptions C16_gg18_keygen_opens.

(** * C20 *)
(** All parties finish with the same key y = (sum of the u_i) G, the same vector of public shares x_j G, the own
    share x_i, everyone's Paillier and N-tilde values; any t+1 shares reconstruct the secret key. *)
Theorem C20_gg20_keygen_correct :
  forall (C : Curve) Hb (Hf : hashF C) ck cd (t n : nat) (rs : nat -> kg_rand C),
  (t < n)%nat -> Z.of_nat n < cq C ->
  (forall i, (i < n)%nat -> length (kr_coefs (rs i)) = t) ->
  (forall i, (i < n)%nat -> ck (kr_ck (rs i)) (kr_p1 (rs i) * kr_p2 (rs i)) = true /\ cd (kr_cd1 (rs i)) (kr_dl (rs i)) = Ok true /\
     cd (kr_cd2 (rs i)) {| dl_N := dl_N (kr_dl (rs i)); dl_h1 := dl_h2 (kr_dl (rs i)); dl_h2 := dl_h1 (kr_dl (rs i)) |} = Ok true /\
     2047 <= bit_length (kr_p1 (rs i) * kr_p2 (rs i)) <= 2048 /\ 2047 <= bit_length (dl_N (kr_dl (rs i))) <= 2048) ->
  exists (lks : list (local_key C)) (x : nat -> Fq (cq C)),
  kg_run C Hb Hf ck cd t n rs = Ok lks /\ length lks = n /\
  (forall i lk, nth_error lks i = Some lk ->
     lk_y lk = smul (secret_of n (fun j => kr_u (rs j))) gen /\
     sk_y (lk_shared lk) = lk_y lk /\ sk_x (lk_shared lk) = x i /\
     lk_pk lk = map (fun j => smul (x j) gen) (seq 0 n) /\
     lk_N lk = map (fun j => kr_p1 (rs j) * kr_p2 (rs j)) (seq 0 n) /\ lk_dl lk = map (fun j => kr_dl (rs j)) (seq 0 n) /\
     lk_p1 lk = kr_p1 (rs i) /\ lk_p2 lk = kr_p2 (rs i) /\
     lk_i lk = S i /\ lk_t lk = t /\ lk_n lk = n /\ vs_t (lk_vss lk) = t /\ vs_n (lk_vss lk) = n) /\
  (forall lk s, In lk lks -> NoDup s -> (forall i, In i s -> (i < n)%nat) -> (t < length s)%nat ->
     vss_reconstruct (E := unit) (lk_vss lk) s (map x s) = Ok (secret_of n (fun j => kr_u (rs j)))).
Proof.
  intros C Hb Hf ck cd t n rs Htn Hq Hco Hor.
  exists (map (h_lk C t n rs) (seq 0 n)), (h_x C n rs).
  split.
  { apply kg_run_honest; try assumption; intros i Hi; destruct (Hor i Hi) as (A & B & D & E1 & E2); try assumption.
    split; apply bits_ok_iff; assumption. }
  split; [rewrite map_length, seq_length; reflexivity|]. split.
  - intros i lk Hlk. rewrite nth_error_map in Hlk.
    destruct (nth_error (seq 0 n) i) as [k|] eqn:Ek; [|discriminate].
    assert (Hi : (i < n)%nat) by (rewrite <- (seq_length n 0); apply nth_error_Some; congruence).
    rewrite (nth_error_nth' _ 0%nat) in Ek by (rewrite seq_length; lia). rewrite seq_nth in Ek by lia.
    injection Ek as <-. cbn in Hlk. injection Hlk as <-.
    assert (Hy : psum (map (fun j => smul (kr_u (rs j)) (gen : pt C)) (seq 0 n)) = smul (secret_of n (fun j => kr_u (rs j))) gen).
    { exact (a_y C n (fun j => [kr_u (rs j)])). }
    unfold h_lk. cbn [lk_y lk_shared sk_y sk_x lk_pk lk_N lk_dl lk_p1 lk_p2 lk_i lk_t lk_n lk_vss].
    rewrite Hy. repeat (split; [reflexivity|]). reflexivity.
  - intros lk s Hlk Hnd Hin Hs. apply in_map_iff in Hlk. destruct Hlk as (i & <- & _).
    rewrite (map_ext _ (fun j => peval (h_sum C n rs) (fidx (j + 1)))).
    2:{ intros j. rewrite h_x_poly, Nat.add_1_r. reflexivity. }
    rewrite (reconstruct_ok C _ _ n); try assumption.
    + rewrite h_sum_hd. reflexivity.
    + exact (h_sum_length C t n rs Htn Hco).
Qed.
Print Assumptions C20_gg20_keygen_correct.

(** A run with three parties and threshold 1 on the toy curve. *)
Definition exdl : dlstmt := {| dl_N := 2 ^ 2046; dl_h1 := 3; dl_h2 := 5 |}.
Definition exkr (u a nonce : Z) : kg_rand toy :=
  {| kr_u := tz u; kr_p1 := 2 ^ 1023; kr_p2 := 2 ^ 1023; kr_dl := exdl; kr_blind := 77 + u; kr_ck := 0; kr_cd1 := 0; kr_cd2 := 0;
     kr_coefs := [tz a]; kr_nonce := tz nonce |}.
Definition exrs (i : nat) : kg_rand toy := nth i [exkr 5 3 11; exkr 9 21 12; exkr 30 8 13] (exkr 0 0 0).
Definition exHb (l : list Z) : Z := fold_left (fun a b => (a * 257 + b + 1) mod 65521) l 7.
Definition exHf3 : hashF toy := fun l => tz (7 * Z.of_nat (length l)).
Definition lk_obs (lk : local_key toy) : Z * Z * list Z :=
  (to_Z (lk_y lk : Fq 31), to_Z (sk_x (lk_shared lk)), map (fun P : Fq 31 => to_Z P) (lk_pk lk)).
Example C20_example :
  match kg_run toy exHb exHf3 (fun _ _ => true) (fun _ _ => Ok true) 1 3 exrs with
  | Ok lks => map lk_obs lks = [(13, 14, [14; 15; 16]); (13, 15, [14; 15; 16]); (13, 16, [14; 15; 16])]
  | _ => False end.
Proof. vm_compute. reflexivity. Qed.

(** * C21 *)
Theorem C21_gg18_keygen_correct :
  forall (C : Curve) Hb (Hf : hashF C) ck (t n : nat) (rs : nat -> kg18_rand C),
  (t < n)%nat -> Z.of_nat n < cq C ->
  (forall i, (i < n)%nat -> length (kr18_coefs (rs i)) = t) ->
  (forall i, (i < n)%nat -> ck (kr18_ck (rs i)) (kr18_p1 (rs i) * kr18_p2 (rs i)) = true) ->
  exists outs (x : nat -> Fq (cq C)),
  kg18_run C Hb Hf ck t n rs = Ok outs /\ length outs = n /\
  (forall i o, nth_error outs i = Some o ->
     sk_y (fst o) = smul (secret_of n (fun j => kr18_u (rs j))) gen /\ sk_x (fst o) = x i /\
     snd o = map (fun j => smul (x j) gen) (seq 0 n)) /\
  (forall v s, vs_t v = t -> NoDup s -> (forall i, In i s -> (i < n)%nat) -> (t < length s)%nat ->
     vss_reconstruct (E := unit) v s (map x s) = Ok (secret_of n (fun j => kr18_u (rs j)))).
Proof.
  intros C Hb Hf ck t n rs Htn Hq Hco Hor.
  eexists. exists (g_x C n rs). split; [apply kg18_run_honest; assumption|].
  split; [rewrite map_length, seq_length; reflexivity|]. split.
  - intros i o Ho. rewrite nth_error_map in Ho.
    destruct (nth_error (seq 0 n) i) as [k|] eqn:Ek; [|discriminate].
    assert (Hi : (i < n)%nat) by (rewrite <- (seq_length n 0); apply nth_error_Some; congruence).
    rewrite (nth_error_nth' _ 0%nat) in Ek by (rewrite seq_length; lia). rewrite seq_nth in Ek by lia.
    injection Ek as <-. cbn in Ho. injection Ho as <-. cbn [fst snd sk_y sk_x].
    split; [|split; reflexivity]. exact (a_y C n (fun j => [kr18_u (rs j)])).
  - intros v s Hv Hnd Hin Hs.
    rewrite (map_ext _ (fun j => peval (g_sum C n rs) (fidx (j + 1)))).
    2:{ intros j. rewrite g_x_poly, Nat.add_1_r. reflexivity. }
    rewrite (reconstruct_ok C _ _ n); try assumption.
    + rewrite g_sum_hd. reflexivity.
    + rewrite Hv. exact (g_sum_length C t n rs Htn Hco).
    + rewrite Hv. assumption.
Qed.
Print Assumptions C21_gg18_keygen_correct.
Definition exrs18 (i : nat) : kg18_rand toy :=
  let mk u a b nonce := {| kr18_u := tz u; kr18_p1 := 11; kr18_p2 := 13; kr18_blind := 77 + u; kr18_ck := 0; kr18_coefs := [tz a; tz b]; kr18_nonce := tz nonce |} in
  nth i [mk 5 3 2 11; mk 9 20 4 12; mk 30 9 8 13; mk 2 4 6 8] (mk 0 0 0 0).
Example C21_example :
  match kg18_run toy exHb exHf3 (fun _ N => N =? 143) 2 4 exrs18 with
  | Ok outs => map (fun o : shared_keys toy * list (pt toy) => (to_Z (sk_y (fst o) : Fq 31), to_Z (sk_x (fst o)), map (fun P : Fq 31 => to_Z P) (snd o))) outs =
      [(15, 9, [9; 12; 24; 14]); (15, 12, [9; 12; 24; 14]); (15, 24, [9; 12; 24; 14]); (15, 14, [9; 12; 24; 14])]
  | _ => False end.
Proof. vm_compute. reflexivity. Qed.

(** * C22 *)
(** [peer_ok d b] spells out the six checks.  CompositeDLogProof::verify may panic; when it answers, phase 1
    accepts exactly the vectors all of whose entries pass, and it then shares u with the given coefficients. *)
Theorem C22_phase1_accepts_iff :
  forall (C : Curve) Hb ck cd (k : keys C) (t n : nat) coefs decom bc1 o,
  kg_phase1_verify C Hb ck cd k t n coefs decom bc1 = Ok o <->
  length decom = n /\ length bc1 = n /\ (t < n)%nat /\
  (forall i d b, nth_error decom i = Some d -> nth_error bc1 i = Some b ->
     commit_pt Hb (kd_y d) (kd_blind d) = kb_com b /\ ck (kb_ck b) (kb_N b) = true /\
     2047 <= bit_length (kb_N b) <= 2048 /\ 2047 <= bit_length (dl_N (kb_dl b)) <= 2048 /\
     cd (kb_cd1 b) (kb_dl b) = Ok true /\
     cd (kb_cd2 b) {| dl_N := dl_N (kb_dl b); dl_h1 := dl_h2 (kb_dl b); dl_h2 := dl_h1 (kb_dl b) |} = Ok true) /\
  o = ({| vs_t := t; vs_n := n; vs_com := map (fun c => smul c gen) (ky_u k :: coefs) |},
       map (fun j => peval (ky_u k :: coefs) (fidx j)) (seq 1 n), ky_i k).
Proof. intros. apply phase1_verify_ok. Qed.
Print Assumptions C22_phase1_accepts_iff.
Theorem C22_phase1_error_names_a_failure :
  forall (C : Curve) Hb ck cd (k : keys C) (t n : nat) coefs decom bc1 e, (forall z s e', cd z s <> Err e') ->
  kg_phase1_verify C Hb ck cd k t n coefs decom bc1 = Err e ->
  exists i d b, e = {| me_kind := EInvalidKey; me_bad := [i] |} /\
    nth_error decom i = Some d /\ nth_error bc1 i = Some b /\ ~ peer_ok Hb ck cd d b.
Proof.
  intros C Hb ck cd k t n coefs decom bc1 e Hcd H. apply phase1_verify_err in H; [|assumption].
  destruct H as (i & d & b & H1 & H2 & H3 & H4 & _). eauto 10.
Qed.
Print Assumptions C22_phase1_error_names_a_failure.
(** With well-formed lengths, t < n and a proof verifier that answers, the step never panics. *)
Theorem C22_phase1_total :
  forall (C : Curve) Hb ck cd (k : keys C) (t n : nat) coefs decom bc1, (forall z s, exists r, cd z s = Ok r) ->
  length decom = n -> length bc1 = n -> (t < n)%nat ->
  kg_phase1_verify C Hb ck cd k t n coefs decom bc1 <> Panic.
Proof.
  intros C Hb ck cd k t n coefs decom bc1 Hcd H1 H2 Ht. unfold kg_phase1_verify. rewrite H1, H2, Nat.eqb_refl. cbn [oassert obind].
  destruct (first_bad_total (kg_check1 C Hb ck cd) (combine decom bc1)) with (i := 0%nat) as [o ->].
  { intros [d b] _. apply check1_total. exact Hcd. }
  cbn [obind]. unfold vss_share. rewrite (proj2 (Nat.ltb_lt t n) Ht). cbn [oassert obind]. destruct o; discriminate.
Qed.
Print Assumptions C22_phase1_total.
Theorem C22_gg18_phase1_accepts_iff :
  forall (C : Curve) Hb ck (k : keys18 C) (t n : nat) coefs decom bc1,
  length decom = n -> length bc1 = n -> (t < n)%nat ->
  let r := kg18_phase1_verify C Hb ck k t n coefs decom bc1 in
  ((exists o, r = Ok o) <->
   forall i d b, nth_error decom i = Some d -> nth_error bc1 i = Some b ->
     commit_pt Hb (kd_y d) (kd_blind d) = b18_com b /\ ck (b18_ck b) (b18_N b) = true) /\
  ((exists o, r = Ok o) \/ r = Err InvalidKey) /\
  (forall o, r = Ok o -> o = ({| vs_t := t; vs_n := n; vs_com := map (fun c => smul c gen) (k18_u k :: coefs) |},
       map (fun j => peval (k18_u k :: coefs) (fidx j)) (seq 1 n), k18_i k)).
Proof.
  intros C Hb ck k t n coefs decom bc1 H1 H2 Ht r. unfold r, kg18_phase1_verify. rewrite H1, H2, Nat.eqb_refl. cbn [oassert obind].
  unfold vss_share. rewrite (proj2 (Nat.ltb_lt t n) Ht). cbn [oassert obind fst snd].
  destruct (forallb (kg18_check1 C Hb ck) (combine decom bc1)) eqn:EA.
  - rewrite forallb_forall in EA. split; [|split; [left; eauto|]].
    + split; [|intros; eauto]. intros _ i d b Hd Hb'.
      specialize (EA (d, b)). cbn in EA.
      assert (Hin : In (d, b) (combine decom bc1)) by (apply (nth_error_In _ i), nth_error_combine; auto).
      specialize (EA Hin). apply andb_true_iff in EA. destruct EA as [E1 E2]. apply Z.eqb_eq in E1. auto.
    + intros o Ho. apply ok_inj in Ho. exact Ho.
  - split; [|split; [right; reflexivity|intros; discriminate]].
    split; [intros [o Ho]; discriminate|]. intros H. exfalso.
    assert (forallb (kg18_check1 C Hb ck) (combine decom bc1) = true); [|congruence].
    apply forallb_forall. intros [d b] Hin. apply In_nth_error in Hin. destruct Hin as (i & Hi). apply nth_error_combine in Hi.
    destruct Hi as [Hd Hb']. destruct (H i d b Hd Hb') as [E1 E2]. cbn. rewrite E2. apply Z.eqb_eq in E1. rewrite E1. reflexivity.
Qed.
Print Assumptions C22_gg18_phase1_accepts_iff.
(** Honest vectors are accepted; changing the blinding factor of party 1, or its Paillier key size, is reported. *)
Definition exdec (i : nat) (db : Z) : kg_dec1 toy := {| kd_blind := kr_blind (exrs i) + db; kd_y := smul (kr_u (exrs i)) gen |}.
Definition exbc (i : nat) (N : Z) : kg_bc1 :=
  {| kb_N := N; kb_dl := exdl; kb_com := commit_pt exHb (smul (kr_u (exrs i)) (gen : pt toy)) (kr_blind (exrs i)); kb_ck := 0; kb_cd1 := 0; kb_cd2 := 0 |}.
Definition excode (r : outcome mp_error (vss toy * list (Fq (cq toy)) * nat)) : list nat :=
  match r with Ok _ => [100%nat] | Err e => me_bad e | Panic => [200%nat] end.
Example C22_example :
  let k := {| ky_u := tz 5; ky_p1 := 2 ^ 1023; ky_p2 := 2 ^ 1023; ky_i := 1; ky_dl := exdl |} in
  let go db N := excode (kg_phase1_verify toy exHb (fun _ _ => true) (fun _ _ => Ok true) k 1 3 [tz 3]
                   [exdec 0 0; exdec 1 db; exdec 2 0] [exbc 0 (2 ^ 2047); exbc 1 N; exbc 2 (2 ^ 2046)]) in
  go 0 (2 ^ 2046) = [100%nat] /\ go 1 (2 ^ 2046) = [1%nat] /\ go 0 (2 ^ 2048) = [1%nat] /\ go 0 (2 ^ 2045) = [1%nat].
Proof. vm_compute. auto. Qed.

(** * C23: only the first cheater is listed, because [all] stops at the first failure. *)
Theorem C23_phase1_lists_one_refuted :
  forall (C : Curve) Hb ck cd (k : keys C) (t n : nat) coefs decom bc1 i1 d1 b1 i2 d2 b2, (forall z s, exists r, cd z s = Ok r) ->
  length decom = n -> length bc1 = n -> (t < n)%nat -> (i1 < i2)%nat ->
  nth_error decom i1 = Some d1 -> nth_error bc1 i1 = Some b1 -> ~ peer_ok Hb ck cd d1 b1 ->
  nth_error decom i2 = Some d2 -> nth_error bc1 i2 = Some b2 -> ~ peer_ok Hb ck cd d2 b2 ->
  exists e, kg_phase1_verify C Hb ck cd k t n coefs decom bc1 = Err e /\ ~ In i2 (me_bad e) /\ length (me_bad e) = 1%nat.
Proof.
  intros C Hb ck cd k t n coefs decom bc1 i1 d1 b1 i2 d2 b2 Hcd L1 L2 Ht Hlt D1 B1 N1 D2 B2 N2.
  pose proof (C22_phase1_total C Hb ck cd k t n coefs decom bc1 Hcd L1 L2 Ht) as HP.
  destruct (kg_phase1_verify C Hb ck cd k t n coefs decom bc1) as [o|e|] eqn:E; [| |contradiction].
  - exfalso. apply phase1_verify_ok in E. destruct E as (_ & _ & _ & H & _). apply N1. eapply H; eassumption.
  - apply phase1_verify_err in E.
    2:{ intros z s e' He. destruct (Hcd z s) as [r Hr]. congruence. }
    destruct E as (i & d & b & -> & Hd & Hb' & Hn & HF). eexists. split; [reflexivity|]. cbn [me_bad length]. split; [|reflexivity].
    intros [->|[]]. apply N1. eapply HF; eassumption.
Qed.
Print Assumptions C23_phase1_lists_one_refuted.
Theorem C23_phase2_lists_one_refuted :
  forall (C : Curve) (Hf : hashF C) (n : nat) ys ss vs index nonce i1 y1 s1 v1 i2,
  length ys = n -> length ss = n -> length vs = n -> (forall v, In v vs -> vs_com v <> []) -> (i1 < i2)%nat ->
  nth_error ys i1 = Some y1 -> nth_error ss i1 = Some s1 -> nth_error vs i1 = Some v1 -> ~ dealer_ok index y1 s1 v1 ->
  exists e, kg_phase2 C Hf n ys ss vs index nonce = Err e /\ ~ In i2 (me_bad e) /\ length (me_bad e) = 1%nat.
Proof.
  intros C Hf n ys ss vs index nonce i1 y1 s1 v1 i2 L1 L2 L3 Hne Hlt Hy Hs Hv Hno.
  assert (Hn0 : n <> 0%nat).
  { intros ->. destruct ys; [destruct i1; discriminate|discriminate]. }
  pose proof (phase2_not_panic C Hf n ys ss vs index nonce L1 L2 L3 Hn0 Hne) as HP.
  destruct (kg_phase2 C Hf n ys ss vs index nonce) as [o|e|] eqn:E; [| |contradiction].
  - exfalso. apply phase2_ok in E. destruct E as (_ & _ & _ & _ & _ & -> & -> & _). apply Hno, check2_dealer, check2_ok.
    rewrite nth_error_map, Hv in Hs, Hy. cbn in Hs, Hy. injection Hs as <-. injection Hy as <-.
    split; [apply Hne; eapply nth_error_In; eassumption|]. split; reflexivity.
  - apply phase2_err in E. destruct E as (i & y & s & v & -> & A1 & A2 & A3 & Hn & HF).
    eexists. split; [reflexivity|]. cbn [me_bad length]. split; [|reflexivity].
    intros [->|[]]. apply Hno. eapply HF; eassumption.
Qed.
Print Assumptions C23_phase2_lists_one_refuted.
Theorem C23_dlog_lists_one_refuted :
  forall (C : Curve) (Hf : hashF C) (n : nat) proofs ys vs i1 p1 i2 e,
  (i1 < i2)%nat -> nth_error proofs i1 = Some p1 -> ~ pk_ok Hf vs i1 p1 ->
  kg_verify_dlog C Hf n proofs ys vs = Err e -> ~ In i2 (me_bad e) /\ length (me_bad e) = 1%nat.
Proof.
  intros C Hf n proofs ys vs i1 p1 i2 e Hlt Hp Hno H. apply verify_dlog_err in H.
  destruct H as (_ & _ & _ & k & p & -> & _ & _ & _ & _ & HF). cbn [me_bad length]. split; [|reflexivity].
  intros [->|[]]. apply Hno. eapply HF; eassumption.
Qed.
Print Assumptions C23_dlog_lists_one_refuted.
(** The one index reported is the least failing one. *)
Theorem C23_first_is_listed_partial :
  forall (C : Curve) Hb ck cd (k : keys C) (t n : nat) coefs decom bc1 i d b, (forall z s, exists r, cd z s = Ok r) ->
  length decom = n -> length bc1 = n -> (t < n)%nat ->
  nth_error decom i = Some d -> nth_error bc1 i = Some b -> ~ peer_ok Hb ck cd d b ->
  (forall j d' b', (j < i)%nat -> nth_error decom j = Some d' -> nth_error bc1 j = Some b' -> peer_ok Hb ck cd d' b') ->
  kg_phase1_verify C Hb ck cd k t n coefs decom bc1 = Err {| me_kind := EInvalidKey; me_bad := [i] |}.
Proof.
  intros C Hb ck cd k t n coefs decom bc1 i d b Hcd L1 L2 Ht Hd Hb' Hn Hj.
  pose proof (C22_phase1_total C Hb ck cd k t n coefs decom bc1 Hcd L1 L2 Ht) as HP.
  destruct (kg_phase1_verify C Hb ck cd k t n coefs decom bc1) as [o|e|] eqn:E; [| |contradiction].
  - exfalso. apply phase1_verify_ok in E. destruct E as (_ & _ & _ & H & _). apply Hn. eapply H; eassumption.
  - apply phase1_verify_err in E.
    2:{ intros z s e' He. destruct (Hcd z s) as [r Hr]. congruence. }
    destruct E as (i' & d' & b' & -> & Hd' & Hb'' & Hn' & HF).
    assert (i' = i) as ->; [|reflexivity].
    destruct (Nat.lt_trichotomy i' i) as [Hl|[Hl|Hl]]; [|exact Hl|].
    + exfalso. apply Hn'. eapply Hj; eassumption.
    + exfalso. apply Hn. eapply HF; eassumption.
Qed.
Print Assumptions C23_first_is_listed_partial.
(** Parties 1 and 2 both cheat; only party 1 is listed. *)
Example C23_example :
  let k := {| ky_u := tz 5; ky_p1 := 2 ^ 1023; ky_p2 := 2 ^ 1023; ky_i := 1; ky_dl := exdl |} in
  excode (kg_phase1_verify toy exHb (fun _ _ => true) (fun _ _ => Ok true) k 1 3 [tz 3]
           [exdec 0 0; exdec 1 1; exdec 2 1] [exbc 0 (2 ^ 2047); exbc 1 (2 ^ 2046); exbc 2 (2 ^ 2046)]) = [1%nat].
Proof. vm_compute. reflexivity. Qed.

(** * C24 *)
(** Phases 1 and 2 only list parties whose own message fails the check. *)
Theorem C24_phase1_listed_is_bad :
  forall (C : Curve) Hb ck cd (k : keys C) (t n : nat) coefs decom bc1 e i, (forall z s e', cd z s <> Err e') ->
  kg_phase1_verify C Hb ck cd k t n coefs decom bc1 = Err e -> In i (me_bad e) ->
  exists d b, nth_error decom i = Some d /\ nth_error bc1 i = Some b /\ ~ peer_ok Hb ck cd d b.
Proof.
  intros C Hb ck cd k t n coefs decom bc1 e i Hcd H Hi. apply phase1_verify_err in H; [|assumption].
  destruct H as (i' & d & b & -> & H2 & H3 & H4 & _). destruct Hi as [<-|[]]. eauto.
Qed.
Print Assumptions C24_phase1_listed_is_bad.
Theorem C24_phase2_listed_is_bad :
  forall (C : Curve) (Hf : hashF C) (n : nat) ys ss vs index nonce e i,
  kg_phase2 C Hf n ys ss vs index nonce = Err e -> In i (me_bad e) ->
  exists y s v, nth_error ys i = Some y /\ nth_error ss i = Some s /\ nth_error vs i = Some v /\ ~ dealer_ok index y s v.
Proof.
  intros C Hf n ys ss vs index nonce e i H Hi. apply phase2_err in H.
  destruct H as (i' & y & s & v & -> & H1 & H2 & H3 & H4 & _). destruct Hi as [<-|[]]. eauto 10.
Qed.
Print Assumptions C24_phase2_listed_is_bad.
(** The dlog check compares with commitments that the dealers sent privately: the listed party's proof fails
    against the checker's own view. *)
Theorem C24_dlog_listed_fails_own_view_partial :
  forall (C : Curve) (Hf : hashF C) (n : nat) proofs ys vs e i,
  kg_verify_dlog C Hf n proofs ys vs = Err e -> In i (me_bad e) ->
  exists p, nth_error proofs i = Some p /\ ~ pk_ok Hf vs i p.
Proof.
  intros C Hf n proofs ys vs e i H Hi. apply verify_dlog_err in H.
  destruct H as (_ & _ & _ & k & p & -> & _ & _ & Hp & Hn & _). destruct Hi as [<-|[]]. eauto.
Qed.
Print Assumptions C24_dlog_listed_fails_own_view_partial.
(** So a dealer can make two honest parties accuse each other: party 0 commits to f towards party 1 and to
    f + c x (x-1) towards party 2.  Every share validates, the dealer's own proof satisfies both, party 1 then
    reports party 2 and party 2 reports party 1, whatever the honest parties' polynomials and nonces. *)
Theorem C24_honest_party_framed_refuted :
  forall (C : Curve) (Hf : hashF C) (u a c : Fq (cq C)) (g1 g2 : list (Fq (cq C))) (nonce : nat -> Fq (cq C)),
  3 < cq C -> c <> f0 -> length g1 = 2%nat -> length g2 = 2%nat ->
  let V (p : list (Fq (cq C))) := {| vs_t := 1; vs_n := 3; vs_com := map (fun c => smul c gen) p |} in
  let f := [u; a] in let f' := [u; (a - c)%Fq; c] in
  let ys := [smul u gen; smul (hd f0 g1) gen; smul (hd f0 g2) gen] in
  let shares p i := [peval p (fidx i); peval g1 (fidx i); peval g2 (fidx i)] in
  exists (k1 k2 : shared_keys C) (p0 p1 p2 : dlog_proof C),
  kg_phase2 C Hf 3 ys (shares f 2%nat) [V f; V g1; V g2] 2 (nonce 1%nat) = Ok (k1, p1) /\
  kg_phase2 C Hf 3 ys (shares f' 3%nat) [V f'; V g1; V g2] 3 (nonce 2%nat) = Ok (k2, p2) /\
  kg_verify_dlog C Hf 3 [p0; p1; p2] ys [V f; V g1; V g2] = Err {| me_kind := EBadDlogProof; me_bad := [2%nat] |} /\
  kg_verify_dlog C Hf 3 [p0; p1; p2] ys [V f'; V g1; V g2] = Err {| me_kind := EBadDlogProof; me_bad := [1%nat] |}.
Proof.
  intros C Hf u a c g1 g2 nonce Hq Hc L1 L2 V f f' ys shares.
  destruct (framing C Hf u a c g1 g2 nonce Hq Hc L1 L2) as (A & B & D & E).
  do 5 eexists. split; [exact A|]. split; [exact B|]. split; [exact D|exact E].
Qed.
Print Assumptions C24_honest_party_framed_refuted.
Example C24_example : 3 < cq toy /\ (tz 4 : Fq (cq toy)) <> f0 /\ length [tz 9; tz 21] = 2%nat /\ length [tz 30; tz 8] = 2%nat.
Proof. split; [reflexivity|]. split; [toy_neq|]. split; reflexivity. Qed.

(** * C25 *)
(** On arbitrary messages: if both checks return Ok there is one polynomial (the sum of the committed ones)
    whose value at 0 is the secret of y, whose value at [index] is the own share and whose values at 1..n are
    the published public shares. *)
Theorem C25_accepted_key_consistent :
  forall (C : Curve) (Hf : hashF C) (n : nat) ys shares vs index nonce sk pf proofs,
  kg_phase2 C Hf n ys shares vs index nonce = Ok (sk, pf) ->
  kg_verify_dlog C Hf n proofs ys vs = Ok tt ->
  let poly := fold_right (padd2 C) [] (map (fun v => map dlog (vs_com v)) vs) in
  sk_y sk = psum ys /\ sk_y sk = smul (hd f0 poly) gen /\
  sk_x sk = peval poly (fidx index) /\
  (forall j p, nth_error proofs j = Some p -> dp_pk p = smul (peval poly (fidx (S j))) gen /\ dlog_verify Hf p = true) /\
  (forall p, nth_error proofs (index - 1) = Some p -> (0 < index)%nat -> dp_pk p = smul (sk_x sk) gen).
Proof.
  intros C Hf n ys shares vs index nonce sk pf proofs H2 HD poly.
  apply phase2_ok in H2. destruct H2 as (L1 & L2 & L3 & N0 & Hne & -> & Hys & Ho).
  assert (sk = {| sk_y := psum ys; sk_x := fsum (map (fun v => peval (dealt v) (fidx index)) vs) |}) by congruence. subst sk. clear Ho.
  apply verify_dlog_ok in HD. destruct HD as (_ & LP & _ & HP). cbn [sk_y sk_x].
  assert (Hpoly : forall i, peval poly (fidx i) = dealt_at vs i).
  { intros i. unfold poly. rewrite <- (peval_dealt_sum C). f_equal. unfold dealt_sum. clear. induction vs as [|v vs IH]; [reflexivity|]. cbn. rewrite IH. reflexivity. }
  assert (Hhd : hd f0 poly = fsum (map (fun v => hd f0 (dealt v)) vs)).
  { unfold poly. rewrite <- (hd_dealt_sum C). f_equal. unfold dealt_sum. clear. induction vs as [|v vs IH]; [reflexivity|]. cbn. rewrite IH. reflexivity. }
  assert (HPK : forall j p, nth_error proofs j = Some p -> dp_pk p = smul (peval poly (fidx (S j))) gen /\ dlog_verify Hf p = true).
  { intros j p Hp. assert (Hj : (j < n)%nat) by (rewrite <- LP; apply nth_error_Some; congruence).
    destruct (HP j Hj) as (_ & p' & Hp' & Hv & He). assert (p' = p) by congruence. subst p'. rewrite Hpoly. auto. }
  split; [reflexivity|]. split; [|split; [|split; [exact HPK|]]].
  - rewrite Hys, Hhd. apply psum_smul_map.
  - rewrite Hpoly. reflexivity.
  - intros p Hp Hi. destruct (HPK _ p Hp) as [-> _]. rewrite Hpoly.
    replace (S (index - 1)) with index by lia. reflexivity.
Qed.
Print Assumptions C25_accepted_key_consistent.
(** The same at the level of the state machine: whatever the other parties send in rounds 3 and 4, the LocalKey
    that comes out has one polynomial behind the key, the own share and every public share. *)
Theorem C25_local_key_consistent :
  forall (C : Curve) (Hf : hashF C) (s3 : kg_round3 C) nonce in3 s4 pf in4 lk,
  (0 < r3_i s3)%nat ->
  kg_r3 C Hf s3 nonce in3 = Ok (s4, pf) -> kg_r4 C Hf s4 in4 = Ok lk ->
  lk_i lk = r3_i s3 /\ lk_n lk = r3_n s3 /\ lk_t lk = r3_t s3 /\ lk_y lk = psum (r3_y s3) /\
  lk_pk lk = map dp_pk (incl_me (r3_i s3 - 1) pf in4) /\
  exists poly, lk_y lk = smul (hd f0 poly) gen /\ sk_y (lk_shared lk) = lk_y lk /\
    sk_x (lk_shared lk) = peval poly (fidx (lk_i lk)) /\
    lk_pk lk = map (fun j => smul (peval poly (fidx (S j))) gen) (seq 0 (lk_n lk)).
Proof.
  intros C Hf s3 nonce in3 s4 pf in4 lk Hi H3 H4. unfold kg_r3 in H3. apply obind_ok in H3. destruct H3 as ([sk pf'] & H2 & H3).
  apply ok_inj in H3. injection H3 as E1 E2. subst s4 pf. unfold kg_r4 in H4. cbn [r4_keys r4_y r4_bc r4_shared r4_proof r4_vss r4_i r4_t r4_n] in H4.
  apply obind_ok in H4. destruct H4 as ([] & HD & H4).
  set (vs := map fst (incl_me (r3_i s3 - 1) (r3_vss s3, r3_share s3) in3)) in *.
  set (proofs := incl_me (r3_i s3 - 1) pf' in4) in *.
  pose proof (C25_accepted_key_consistent C Hf _ _ _ _ _ _ _ _ _ H2 HD) as (A1 & A2 & A3 & A4 & _).
  set (poly := fold_right (padd2 C) [] (map (fun v => map dlog (vs_com v)) vs)) in *.
  apply verify_dlog_ok in HD. destruct HD as (HL & LP & (h0 & tl0 & Hvs & _) & _).
  apply phase2_ok in H2. destruct H2 as (_ & _ & Lv & N0 & _).
  rewrite omapM_nth in H4 by (assumption || lia). cbn [obind] in H4.
  apply obind_ok in H4. destruct H4 as (Ns & _ & H4). destruct (r3_y s3) as [|h tl] eqn:Ey; [discriminate|].
  apply obind_ok in H4. destruct H4 as (v & _ & H4). apply ok_inj in H4. subst lk.
  cbn [lk_p1 lk_p2 lk_pk lk_shared lk_N lk_y lk_dl lk_vss lk_i lk_t lk_n].
  assert (HY : fold_left padd tl h = psum (h :: tl)) by (rewrite fold_left_padd; reflexivity).
  rewrite HY. do 5 (split; [reflexivity|]). exists poly. split; [rewrite <- A1; exact A2|]. split; [exact A1|]. split; [exact A3|].
  apply (nth_ext _ _ pzero pzero); [rewrite !map_length, seq_length; exact LP|].
  intros j Hj. rewrite map_length in Hj.
  apply nth_error_nth. destruct (nth_error proofs j) as [p|] eqn:Ep; [|apply nth_error_None in Ep; lia].
  destruct (A4 j p Ep) as [E1 _]. rewrite (nth_indep _ pzero (smul (peval poly (fidx (S 0))) gen)) by (rewrite map_length, seq_length; lia).
  rewrite (map_nth (fun j0 => smul (peval poly (fidx (S j0))) gen)), seq_nth by lia. rewrite nth_error_map, Ep. cbn. rewrite E1. reflexivity.
Qed.
Print Assumptions C25_local_key_consistent.
(** Parties that saw the same broadcasts hold the same public key and the same public shares. *)
Theorem C25_parties_agree :
  forall (C : Curve) (Hf : hashF C) (s3 s3' : kg_round3 C) nonce nonce' in3 in3' s4 s4' pf pf' in4 in4' lk lk',
  (0 < r3_i s3)%nat -> (0 < r3_i s3')%nat -> r3_y s3 = r3_y s3' ->
  incl_me (r3_i s3 - 1) pf in4 = incl_me (r3_i s3' - 1) pf' in4' ->
  kg_r3 C Hf s3 nonce in3 = Ok (s4, pf) -> kg_r4 C Hf s4 in4 = Ok lk ->
  kg_r3 C Hf s3' nonce' in3' = Ok (s4', pf') -> kg_r4 C Hf s4' in4' = Ok lk' ->
  lk_y lk = lk_y lk' /\ lk_pk lk = lk_pk lk' /\ sk_y (lk_shared lk) = sk_y (lk_shared lk').
Proof.
  intros C Hf s3 s3' nonce nonce' in3 in3' s4 s4' pf pf' in4 in4' lk lk' Hi Hi' Hy Hp A B A' B'.
  destruct (C25_local_key_consistent C Hf _ _ _ _ _ _ _ Hi A B) as (_ & _ & _ & E1 & E2 & poly & _ & E3 & _).
  destruct (C25_local_key_consistent C Hf _ _ _ _ _ _ _ Hi' A' B') as (_ & _ & _ & E1' & E2' & poly' & _ & E3' & _).
  rewrite E3, E3', E1, E1', E2, E2', Hy, Hp. auto.
Qed.
Print Assumptions C25_parties_agree.
(** GG18's final check does not look at the VSS commitments: party 2 publishes a correct proof for a key of its choice
    and everyone accepts, although the public share is not the committed polynomials' value. *)
Theorem C25_gg18_public_shares_unchecked_refuted :
  forall (C : Curve) (Hf : hashF C) (n : nat) (proofs : list (dlog_proof C)) ys k x nonce,
  kg18_verify_dlog C Hf n proofs ys = Ok tt -> (k < n)%nat ->
  let proofs' := firstn k proofs ++ dlog_prove Hf x nonce :: skipn (S k) proofs in
  kg18_verify_dlog C Hf n proofs' ys = Ok tt /\ exists p, nth_error proofs' k = Some p /\ dp_pk p = smul x gen.
Proof.
  intros C Hf n proofs ys k x nonce H Hk proofs'. unfold kg18_verify_dlog in *.
  apply obind_ok in H. destruct H as ([] & H1 & H). apply obind_ok in H. destruct H as ([] & H2 & H).
  apply oassert_ok in H1, H2. apply Nat.eqb_eq in H2.
  destruct (forallb (dlog_verify Hf) proofs) eqn:EF; [|discriminate].
  assert (LF : length (firstn k proofs) = k) by (rewrite firstn_length; lia).
  split.
  - rewrite H1. cbn [oassert obind].
    assert (LP : length proofs' = n) by (unfold proofs'; rewrite app_length, LF; cbn [length]; rewrite skipn_length; lia).
    rewrite LP, Nat.eqb_refl. cbn [oassert obind].
    assert (EF' : forallb (dlog_verify Hf) proofs' = true); [|rewrite EF'; reflexivity].
    rewrite forallb_forall in EF. apply forallb_forall. intros p Hp. unfold proofs' in Hp. apply in_app_iff in Hp.
    destruct Hp as [Hp|[<-|Hp]].
    + apply EF. rewrite <- (firstn_skipn k proofs). apply in_app_iff. auto.
    + apply dlog_complete.
    + apply EF. rewrite <- (firstn_skipn (S k) proofs). apply in_app_iff. auto.
  - exists (dlog_prove Hf x nonce). split; [|apply dlog_prove_pk].
    unfold proofs'. rewrite nth_error_app2 by lia. rewrite LF, Nat.sub_diag. reflexivity.
Qed.
Print Assumptions C25_gg18_public_shares_unchecked_refuted.

(** * C26 *)
(** The number of commitments a dealer sends is never compared with t+1.  Dealer 0 uses degree t+1: every party accepts
    phase 2 and the dlog check, and no set of t+1 shares reconstructs the secret of y. *)
Theorem C26_degree_unchecked_refuted :
  forall (C : Curve) (Hf : hashF C) (t n : nat) (polys : nat -> list (Fq (cq C))) (nonce : nat -> Fq (cq C)),
  (0 < n)%nat -> Z.of_nat n < cq C -> length (polys 0%nat) = S (S t) -> last (polys 0%nat) f0 <> f0 ->
  (forall i, (0 < i < n)%nat -> length (polys i) = S t) ->
  let vs := map (fun i => {| vs_t := t; vs_n := n; vs_com := map (fun c => smul c gen) (polys i) |}) (seq 0 n) in
  let ys := map (fun i => smul (hd f0 (polys i)) gen) (seq 0 n) in
  exists (x : nat -> Fq (cq C)) (pf : nat -> dlog_proof C),
  (forall j, (j < n)%nat -> exists sk,
     kg_phase2 C Hf n ys (map (fun i => peval (polys i) (fidx (S j))) (seq 0 n)) vs (S j) (nonce j) = Ok (sk, pf j) /\
     kg18_phase2 C Hf n ys (map (fun i => peval (polys i) (fidx (S j))) (seq 0 n)) vs (S j) (nonce j) = Ok (sk, pf j) /\
     sk_x sk = x j /\ sk_y sk = smul (secret_of n (fun i => hd f0 (polys i))) gen) /\
  kg_verify_dlog C Hf n (map pf (seq 0 n)) ys vs = Ok tt /\
  (forall v s, vs_t v = t -> NoDup s -> (forall i, In i s -> (i < n)%nat) -> length s = S t ->
     exists w, vss_reconstruct (E := unit) v s (map x s) = Ok w /\ w <> secret_of n (fun i => hd f0 (polys i))).
Proof.
  intros C Hf t n polys nonce Hn Hq H0 Hlast Hr vs ys.
  assert (Hne : forall i, (i < n)%nat -> polys i <> []).
  { intros i Hi E0. destruct i as [|i]; [rewrite E0 in H0; discriminate|]. specialize (Hr (S i) ltac:(lia)). rewrite E0 in Hr. discriminate. }
  exists (a_x C n polys), (a_pf C Hf n polys nonce). split; [|split].
  - intros j Hj. eexists. split; [apply (a_phase2 C Hf t n polys nonce Hne j Hj)|].
    split; [apply (a_phase2_18 C Hf t n polys nonce Hne j)|]. split; [reflexivity|]. cbn [sk_y]. apply a_y.
  - apply (a_verify C Hf t n polys nonce Hne Hn). intros i Hi. destruct i as [|i]; [lia|]. rewrite H0, (Hr (S i)) by lia. lia.
  - intros v s Hv Hnd Hin Hs.
    destruct (a_high C t n polys Hne (E := unit) (last (polys 0%nat) f0) s Hn H0 Hr eq_refl Hlast Hnd Hin Hq Hs) as (w & Hw & Hneq).
    exists w. split; [|exact Hneq]. rewrite <- Hw. unfold vss_reconstruct. rewrite Hv. reflexivity.
Qed.
Print Assumptions C26_degree_unchecked_refuted.
Example C26_example : last [tz 5; tz 3; tz 7] (f0 (q := cq toy)) <> f0 /\ length [tz 5; tz 3; tz 7] = 3%nat.
Proof. split; [toy_neq|reflexivity]. Qed.
(** What holds: if all dealers' commitment vectors have at most t+1 entries and the parties of s accepted the same
    commitments, then any t+1 of their shares reconstruct the secret of the key. *)
Theorem C26_threshold_partial :
  forall (C : Curve) (Hf : hashF C) (t n : nat) ys vs (shares : nat -> list (Fq (cq C))) (nonce : nat -> Fq (cq C))
         (sk : nat -> shared_keys C) (pf : nat -> dlog_proof C) (v : vss C) s,
  (forall w, In w vs -> (length (vs_com w) <= S t)%nat) ->
  (forall i, In i s -> (i < n)%nat /\ kg_phase2 C Hf n ys (shares i) vs (S i) (nonce i) = Ok (sk i, pf i)) ->
  vs_t v = t -> NoDup s -> (t < length s)%nat -> Z.of_nat n < cq C ->
  exists key, vss_reconstruct (E := unit) v s (map (fun i => sk_x (sk i)) s) = Ok key /\ smul key gen = psum ys /\
    forall i, In i s -> sk_y (sk i) = smul key gen.
Proof.
  intros C Hf t n ys vs shares nonce sk pf v s Hlen Hacc Hvt Hnd Hts Hq.
  set (poly := dealt_sum vs). exists (hd f0 poly).
  assert (Hx : forall i, In i s -> sk_x (sk i) = peval poly (fidx (i + 1)) /\ sk_y (sk i) = psum ys /\ psum ys = smul (hd f0 poly) gen).
  { intros i Hi. destruct (Hacc i Hi) as [_ H]. apply phase2_ok in H. destruct H as (_ & _ & _ & _ & _ & Hsh & Hys & Ho). rewrite Hsh in Ho.
    assert (Es : sk i = {| sk_y := psum ys; sk_x := fsum (map (fun v => peval (dealt v) (fidx (S i))) vs) |}) by (injection Ho as E1 _; exact E1).
    rewrite Es. cbn [sk_x sk_y]. split; [|split; [reflexivity|]].
    - unfold poly. rewrite peval_dealt_sum, Nat.add_1_r. reflexivity.
    - unfold poly. rewrite hd_dealt_sum, Hys. apply psum_smul_map. }
  assert (Hys : psum ys = smul (hd f0 poly) gen).
  { destruct s as [|i s']; [cbn in Hts; lia|]. apply (Hx i). left. reflexivity. }
  split; [|split; [congruence|]].
  - rewrite (map_ext_in _ (fun i => peval poly (fidx (i + 1)))) by (intros i Hi; apply Hx; assumption).
    apply (reconstruct_ok C v poly n); try assumption; [|intros i Hi; apply Hacc; assumption|lia].
    rewrite Hvt. unfold poly. apply length_dealt_sum. intros w Hw. apply Hlen. assumption.
  - intros i Hi. destruct (Hx i Hi) as (_ & -> & E). exact E.
Qed.
Print Assumptions C26_threshold_partial.
(** Two of three parties with threshold 1. *)
Example C26_partial_example :
  let ps := fun i => match i with 0 => [tz 5; tz 3] | 1 => [tz 9; tz 4] | _ => [tz 30; tz 11] end%nat in
  let vs := map (fun i => {| vs_t := 1; vs_n := 3; vs_com := map (fun c => smul c (gen : pt toy)) (ps i) |}) (seq 0 3) in
  let ys := map (fun i => smul (hd f0 (ps i)) (gen : pt toy)) (seq 0 3) in
  let go j := kg_phase2 toy exHf3 3 ys (map (fun i => peval (ps i) (fidx j)) (seq 0 3)) vs j (tz 2) in
  map (fun j => match go j with Ok (sk, _) => to_Z (sk_x (C := toy) sk) | _ => -1 end) [1; 3]%nat = [0; 5] /\
  to_Z (hd f0 (ps 0%nat) + (hd f0 (ps 1%nat) + hd f0 (ps 2%nat)))%Fq = 13.
Proof. vm_compute. auto. Qed.

(** * C27, key generation part *)
Theorem C27_phase2_total :
  forall (C : Curve) (Hf : hashF C) (n : nat) ys shares vs index nonce,
  length ys = n -> length shares = n -> length vs = n -> n <> 0%nat -> (forall v, In v vs -> vs_com v <> []) ->
  kg_phase2 C Hf n ys shares vs index nonce <> Panic.
Proof. intros. apply phase2_not_panic; assumption. Qed.
Print Assumptions C27_phase2_total.
(** An empty commitment vector from a dealer (here the first one that is not valid) crashes the receiver in round 3. *)
Theorem C27_empty_commitments_panic_refuted :
  forall (C : Curve) (Hf : hashF C) (s3 : kg_round3 C) nonce (in3 : list (vss C * Fq (cq C))) k v sh,
  let all := incl_me (r3_i s3 - 1) (r3_vss s3, r3_share s3) in3 in
  length all = r3_n s3 -> length (r3_y s3) = r3_n s3 ->
  nth_error all k = Some (v, sh) -> vs_com v = [] ->
  (forall j y w, (j < k)%nat -> nth_error (r3_y s3) j = Some y -> nth_error all j = Some w -> dealer_ok (r3_i s3) y (snd w) (fst w)) ->
  kg_r3 C Hf s3 nonce in3 = Panic.
Proof.
  intros C Hf s3 nonce in3 k v sh all HL HY Hk Hv Hok. unfold kg_r3. fold all.
  rewrite (phase2_panic C Hf (r3_n s3) _ _ _ (r3_i s3) nonce k); [reflexivity|assumption| | | | |].
  - rewrite map_length. exact HL.
  - rewrite map_length. exact HL.
  - rewrite <- HL. apply nth_error_Some. congruence.
  - intros j y s w Hj Hy Hs Hw. rewrite nth_error_map in Hs, Hw. destruct (nth_error all j) as [[w' s']|] eqn:Ea; [|discriminate].
    cbn in Hs, Hw. injection Hs as <-. injection Hw as <-. apply (Hok j y _ Hj Hy Ea).
  - exists v. rewrite nth_error_map, Hk. cbn. auto.
Qed.
Print Assumptions C27_empty_commitments_panic_refuted.
(** A dealer other than party 0 that commits to more coefficients than party 0 crashes every receiver in round 4. *)
Theorem C27_longer_commitments_panic_refuted :
  forall (C : Curve) (Hf : hashF C) (s4 : kg_round4 C) in4 (h : vss C) tl v,
  r4_vss s4 = h :: tl -> In v tl -> (length (vs_com h) < length (vs_com v))%nat ->
  length (r4_y s4) = r4_n s4 -> length (incl_me (r4_i s4 - 1) (r4_proof s4) in4) = r4_n s4 ->
  kg_r4 C Hf s4 in4 = Panic.
Proof.
  intros C Hf s4 in4 h tl v Hvs Hin Hlt HY HP. unfold kg_r4. rewrite Hvs.
  rewrite (verify_dlog_panic C Hf); [reflexivity|assumption|assumption|]. right. exists v. auto.
Qed.
Print Assumptions C27_longer_commitments_panic_refuted.
(** Party 0 deals 5 + 3x, party 1 deals 9 + 4x + 0x^2: round 3 accepts, round 4 panics. *)
Example C27_example :
  let V p := {| vs_t := 1; vs_n := 2; vs_com := map (fun c => smul c (gen : pt toy)) p |} in
  let k := {| ky_u := tz 5; ky_p1 := 2 ^ 1023; ky_p2 := 2 ^ 1023; ky_i := 1; ky_dl := exdl |} in
  let s3 := {| r3_keys := k; r3_y := [smul (tz 5) gen; smul (tz 9) gen]; r3_bc := [exbc 0 7; exbc 0 7]; r3_vss := V [tz 5; tz 3];
               r3_share := tz 8; r3_i := 1; r3_t := 1; r3_n := 2 |} in
  let go p := match kg_r3 toy exHf3 s3 (tz 2) [(V p, tz 13)] with
     | Ok (s4, pf) => match kg_r4 toy exHf3 s4 [dlog_prove exHf3 (tz 28) (tz 6)] with Ok lk => to_Z (sk_x (C := toy) (lk_shared lk)) | Err _ => -1 | Panic => -2 end
     | Err _ => -3 | Panic => -4 end in
  (go [tz 9; tz 4], go [tz 9; tz 4; tz 0], go []) = (21, -2, -4).
Proof. vm_compute. reflexivity. Qed.

(** * C77 *)
(** [party_private] values refreshed any number of times with increments that are the values of polynomials of degree
    at most t and zero constant term: any t+1 of them still reconstruct the same secret. *)
Theorem C77_refresh_keeps_secret :
  forall (C : Curve) (t n : nat) (cs : list (Fq (cq C))) (zs : list (list (Fq (cq C)) * (nat -> Fq (cq C)))) (st : nat -> party_private C) (v : vss C) s,
  (length cs <= S t)%nat -> (forall i, pr_x (st i) = peval cs (fidx (i + 1))) ->
  (forall z fu, In (z, fu) zs -> hd f0 z = f0 /\ (length z <= S t)%nat) ->
  vs_t v = t -> NoDup s -> (forall i, In i s -> (i < n)%nat) -> Z.of_nat n < cq C -> (t < length s)%nat ->
  let refreshed i := fold_left (fun p '(z, fu) => update_private_key p (fu i) (peval z (fidx (i + 1)))) zs (st i) in
  vss_reconstruct (E := unit) v s (map (fun i => pr_x (refreshed i)) s) = Ok (hd f0 cs).
Proof.
  intros C t n cs zs st v s Hl Hst Hz Hvt Hnd Hin Hq Hts refreshed.
  set (cs' := fold_left (padd2 C) (map fst zs) cs).
  assert (Hx : forall i, pr_x (refreshed i) = peval cs' (fidx (i + 1))).
  { unfold refreshed, cs'. clear - Hst. revert cs st Hst. induction zs as [|[z fu] zs IH]; intros cs st Hst i; cbn [fold_left map fst]; [apply Hst|].
    apply (IH (padd2 C cs z) (fun i => update_private_key (st i) (fu i) (peval z (fidx (i + 1))))).
    intros j. unfold update_private_key. cbn [pr_x]. rewrite Hst, peval_padd2. reflexivity. }
  rewrite (map_ext _ (fun i => peval cs' (fidx (i + 1)))) by exact Hx.
  assert (Hh : hd f0 cs = hd f0 cs').
  { symmetry. apply refresh_hd. intros z Hin'. apply in_map_iff in Hin'. destruct Hin' as ([z' fu] & <- & Hi). apply (Hz z' fu Hi). }
  rewrite Hh. apply (reconstruct_ok C v cs' n); try assumption; [|lia].
  rewrite Hvt. apply refresh_len; [assumption|]. intros z Hin'. apply in_map_iff in Hin'. destruct Hin' as ([z' fu] & <- & Hi). apply (Hz z' fu Hi).
Qed.
Print Assumptions C77_refresh_keeps_secret.
(** The additive shares follow as well: if in every refresh the factors of all parties sum to 0, the u_i still sum to
    the key; the Paillier primes are kept. *)
Theorem C77_refresh_keeps_u_sum :
  forall (C : Curve) (n : nat) (zs : list ((nat -> Fq (cq C)) * (nat -> Fq (cq C)))) (st : nat -> party_private C),
  (forall fx fu, In (fx, fu) zs -> fsum (map fu (seq 0 n)) = f0) ->
  let refreshed i := fold_left (fun p '(fx, fu) => update_private_key p (fu i) (fx i)) zs (st i) in
  fsum (map (fun i => pr_u (refreshed i)) (seq 0 n)) = fsum (map (fun i => pr_u (st i)) (seq 0 n)) /\
  (forall i, pr_p1 (refreshed i) = pr_p1 (st i) /\ pr_p2 (refreshed i) = pr_p2 (st i)).
Proof.
  intros C n zs. induction zs as [|[fx fu] zs IH]; intros st Hz refreshed; [split; [reflexivity|intros; split; reflexivity]|].
  destruct (IH (fun i => update_private_key (st i) (fu i) (fx i))) as [H1 H2]; [intros; apply (Hz fx0); right; assumption|].
  split; [|exact H2]. unfold refreshed. cbn [fold_left]. rewrite H1. cbn [update_private_key pr_u].
  rewrite (fsum_map_add2 C (fun i => pr_u (st i)) fu), (Hz fx fu (or_introl eq_refl)). apply fadd_0_r'.
Qed.
Print Assumptions C77_refresh_keeps_u_sum.
(** Public side: get_commitments_to_xi of the old dealings together with the refresh dealings gives the refreshed
    shares in the exponent, and update_commitments_to_xi over a set s sums to the unchanged public key. *)
Theorem C77_refresh_public_shares :
  forall (C : Curve) (t n : nat) (cs : list (list (Fq (cq C)))) (zs : list (list (Fq (cq C)))) (v : vss C) s,
  cs <> [] -> (forall c, In c (cs ++ zs) -> length c = S t) -> (forall z, In z zs -> hd f0 z = f0) ->
  vs_n v = n -> NoDup s -> (forall i, In i s -> (i < n)%nat) -> Z.of_nat n < cq C -> (t < length s)%nat -> length (cs ++ zs) = n ->
  let V p := {| vs_t := t; vs_n := n; vs_com := map (fun c => smul c gen) p |} in
  exists xi, kg_xi_commitments (E := unit) (map V (cs ++ zs)) = Ok xi /\
    (forall i, (i < n)%nat -> nth_error xi i = Some (smul (fsum (map (fun c => peval c (fidx (i + 1))) (cs ++ zs))) gen)) /\
    exists ws, omapM (E := unit) (fun i => let* c := nth_o xi i in kg_update_commitment c v i s) s = Ok ws /\
      psum ws = smul (fsum (map (fun c => hd f0 c) cs)) gen.
Proof.
  intros C t n cs zs v s Hne Hlen Hz Hvn Hnd Hin Hq Hts HL V.
  assert (HD : forall i, dealt_at (map V (cs ++ zs)) i = fsum (map (fun c => peval c (fidx i)) (cs ++ zs))).
  { intros i. unfold dealt_at. f_equal. rewrite map_map. apply map_ext. intros p. unfold V. rewrite dealt_shared. reflexivity. }
  eexists. split; [apply xi_ok; split; [|reflexivity]|].
  - destruct cs as [|c0 cs']; [contradiction|]. cbn [app map]. eexists _, _. split; [reflexivity|].
    assert (L0 : length c0 = S t) by (apply Hlen; left; reflexivity). split.
    + unfold V. cbn [vs_com]. destruct c0; [discriminate|discriminate].
    + intros w Hw. apply in_map_iff in Hw. destruct Hw as (p & <- & Hp). unfold V. cbn [vs_com]. rewrite !map_length, L0.
      rewrite (Hlen p); [lia|]. right. exact Hp.
  - rewrite map_length, HL.
    assert (Hnth : forall i, (i < n)%nat -> nth_error (map (fun i0 => smul (dealt_at (map V (cs ++ zs)) i0) gen) (seq 1 n)) i =
       Some (smul (fsum (map (fun c => peval c (fidx (i + 1))) (cs ++ zs))) gen)).
    { intros i Hi. rewrite nth_error_map, (nth_error_nth' _ 0%nat) by (rewrite seq_length; lia). rewrite seq_nth by lia. cbn [option_map].
      rewrite HD. replace (1 + i)%nat with (i + 1)%nat by lia. reflexivity. }
    split; [exact Hnth|].
    set (tot := fold_right (padd2 C) [] (cs ++ zs)).
    assert (Htot : forall x, peval tot x = fsum (map (fun c => peval c x) (cs ++ zs))).
    { intros x. unfold tot. clear. induction (cs ++ zs) as [|c l IH]; [reflexivity|]. cbn [fold_right map fsum]. rewrite peval_padd2, IH. reflexivity. }
    destruct (weighted_pk C v tot s (E := unit)) as (ws & Hws & Hsum); try assumption.
    + rewrite Hvn. assumption.
    + rewrite Hvn. assumption.
    + destruct s; [cbn in Hts; lia|discriminate].
    + assert (Hle : (length tot <= S t)%nat); [|lia]. unfold tot. clear - Hlen. induction (cs ++ zs) as [|c l IH]; cbn [fold_right length]; [lia|].
      rewrite length_padd2. specialize (Hlen c (or_introl eq_refl)) as Hc. specialize (IH (fun c' H => Hlen c' (or_intror H))). lia.
    + exists ws. split.
      * rewrite <- Hws. apply omapM_ext_in. intros i Hi. unfold nth_o. rewrite Hnth by (apply Hin; assumption). cbn [obind].
        rewrite Htot. reflexivity.
      * rewrite Hsum. f_equal. unfold tot. apply hd_refreshed. exact Hz.
Qed.
Print Assumptions C77_refresh_public_shares.
(** Secret 5 shared by 5 + 3x, refreshed with 7x and 20x: shares at 1 and 3. *)
Example C77_example :
  let st i := {| pr_u := tz 0; pr_x := peval [tz 5; tz 3] (fidx (i + 1)); pr_p1 := 0; pr_p2 := 0 |} in
  let z (a : Z) := ([tz 0; tz a] : list (Fq (cq toy)), fun _ : nat => tz 0) in
  let refreshed i := fold_left (fun p '(z, fu) => update_private_key p (fu i) (peval z (fidx (i + 1)))) [z 7; z 20] (st i) in
  map (fun i => to_Z (pr_x (C := toy) (refreshed i))) [0; 2]%nat = [4; 2] /\
  match vss_reconstruct (E := unit) {| vs_t := 1; vs_n := 3; vs_com := [] : list (pt toy) |} [0; 2]%nat (map (fun i => pr_x (refreshed i)) [0; 2]%nat) with
  | Ok w => to_Z w | _ => -1 end = 5.
Proof. vm_compute. auto. Qed.

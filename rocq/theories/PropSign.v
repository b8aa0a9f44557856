(** Properties of GG20 signing: C24 (signing phases), C28, C33, C34, C36, C37, C39.
    [signers_ok], [sign_rand_ok] (SignRunProofs.v) describe well-formed key material and non-degenerate randomness. *)
From Coq Require Import ZArith Lia Bool List.
From Verif Require Import ZArithX Fq Curve Outcome Sigma SigmaProofs Bytes Vss VssProofs Toy Paillier PaillierProofs RangeProofs RangeProofsProofs
  PdlSlack PdlSlackProofs Mta MtaProofs Ecdsa EcdsaProofs Pdl Mp MpProofs Gg20Keygen KeygenProofs KeygenRun KeygenRunProofs KeygenExtra Gg20Sign SignProofs
  SignRun SignRunProofs PropRange.
Import ListNotations.
Local Open Scope Z_scope.

(** * C28 *)
(** [s]: positions (from 0) of the signers, in any order.  Share i is f(i+1). *)
Theorem C28_additive_shares :
  forall (C : Curve) (n : nat) (f : list (Fq (cq C))) (s : list nat) (v : vss C) (gamma k : nat -> Fq (cq C)),
  NoDup s -> (forall i, In i s -> (i < n)%nat) -> Z.of_nat n < cq C -> f <> [] -> (length f <= length s)%nat -> vs_n v = n ->
  let share i := peval f (fidx (i + 1)) in
  exists w : nat -> Fq (cq C),
  (forall i, In i s -> sg_create (share i) v i s (gamma i) (k i) =
     Ok {| sg_w := w i; sg_gw := smul (w i) gen; sg_k := k i; sg_gamma := gamma i; sg_ggamma := smul (gamma i) gen |}) /\
  fsum (map w s) = hd f0 f /\
  sg_gw_vec (map (fun j => smul (share j) gen) (seq 0 n)) s v = Ok (map (fun i => smul (w i) gen) s).
Proof.
  intros C n f s v gamma k Hnd Hin Hn Hf Hl Hv share. exists (fun i => (lam n s i * share i)%Fq).
  split; [|split].
  - intros i Hi. unfold sg_create. rewrite Hv, (map_share_ok C n i s Hn (Hin i Hi) Hin). reflexivity.
  - apply (lam_sum C n f s Hnd Hin Hn); [|exact Hl]. intros ->. destruct f; [congruence|cbn in Hl; lia].
  - unfold sg_gw_vec. rewrite Hv. apply omapM_all. intros i Hi. rewrite (map_share_ok C n i s Hn (Hin i Hi) Hin). cbn [obind].
    rewrite nth_o_map_seq by (apply Hin, Hi). cbn [obind plus]. f_equal. apply smul_smul.
Qed.
Print Assumptions C28_additive_shares.
(** The same from a completed key generation: the w_i of any t+1 or more parties sum to the sum of the u_j, and every
    party's public data give g_w_vec = (w_i G). *)
Theorem C28_after_keygen :
  forall (C : Curve) Hb (Hf : hashF C) ck cd (t n : nat) (ks : nat -> kg_rand C) (s : list nat),
  (t < n)%nat -> Z.of_nat n < cq C ->
  (forall i, (i < n)%nat -> length (kr_coefs (ks i)) = t) ->
  (forall i, (i < n)%nat -> ck (kr_ck (ks i)) (kr_p1 (ks i) * kr_p2 (ks i)) = true /\ cd (kr_cd1 (ks i)) (kr_dl (ks i)) = Ok true /\
     cd (kr_cd2 (ks i)) {| dl_N := dl_N (kr_dl (ks i)); dl_h1 := dl_h2 (kr_dl (ks i)); dl_h2 := dl_h1 (kr_dl (ks i)) |} = Ok true /\
     2047 <= bit_length (kr_p1 (ks i) * kr_p2 (ks i)) <= 2048 /\ 2047 <= bit_length (dl_N (kr_dl (ks i))) <= 2048) ->
  NoDup s -> (forall i, In i s -> (i < n)%nat) -> (t < length s)%nat ->
  exists lks (w : nat -> Fq (cq C)), kg_run C Hb Hf ck cd t n ks = Ok lks /\
  fsum (map w s) = fsum (map (fun j => kr_u (ks j)) (seq 0 n)) /\
  (forall i lk gamma k, In i s -> nth_error lks i = Some lk ->
     sg_create (sk_x (lk_shared lk)) (lk_vss lk) i s gamma k =
     Ok {| sg_w := w i; sg_gw := smul (w i) gen; sg_k := k; sg_gamma := gamma; sg_ggamma := smul gamma gen |}) /\
  (forall lk, In lk lks -> sg_gw_vec (lk_pk lk) s (lk_vss lk) = Ok (map (fun i => smul (w i) gen) s)).
Proof.
  intros C Hb Hf ck cd t n ks s Htn Hq Hco Hor Hnd Hin Hs.
  exists (map (h_lk C t n ks) (seq 0 n)), (fun i => (lam n s i * peval (h_sum C n ks) (fidx (i + 1)))%Fq).
  assert (HL := h_sum_length C t n ks Htn Hco).
  split; [|split; [|split]].
  - apply kg_run_honest; try assumption; intros i Hi; destruct (Hor i Hi) as (A & B & D & E1 & E2); try assumption.
    split; apply bits_ok_iff; assumption.
  - rewrite <- h_sum_hd. apply lam_sum; try assumption; [destruct s; [cbn in Hs; lia|discriminate]|lia].
  - intros i lk gamma k Hi Hlk. specialize (Hin i Hi) as Hi'.
    apply (nth_o_ok (E := unit)) in Hlk. rewrite nth_o_map_seq in Hlk by exact Hi'. injection Hlk as <-.
    unfold sg_create, h_lk. cbn [lk_vss lk_shared sk_x h_vss vs_n plus].
    rewrite (map_share_ok C n i s Hq Hi' Hin), h_x_poly, Nat.add_1_r. reflexivity.
  - intros lk Hlk. apply in_map_iff in Hlk. destruct Hlk as (j & <- & _). unfold sg_gw_vec, h_lk. cbn [lk_vss lk_pk h_vss vs_n].
    apply omapM_all. intros i Hi. rewrite (map_share_ok C n i s Hq (Hin i Hi) Hin). cbn [obind].
    rewrite nth_o_map_seq by (apply Hin, Hi). cbn [obind plus]. rewrite h_x_poly, Nat.add_1_r. f_equal. apply smul_smul.
Qed.
Print Assumptions C28_after_keygen.
(** Shares 12 and 26 of f = 5 + 7x at positions 0 and 2: w = 18 and 18, sum 36 = 5 mod 31. *)
Example C28_example :
  let v : vss toy := {| vs_t := 1; vs_n := 3; vs_com := [] |} in
  let w x i s := match sg_create (C := toy) (tz x) v i s (tz 1) (tz 1) with Ok k => to_Z (sg_w k) | _ => -1 end in
  w 12 0%nat [2; 0]%nat = 18 /\ w 26 2%nat [2; 0]%nat = 18 /\
  (match sg_gw_vec (C := toy) [tz 12; tz 19; tz 26] [2; 0]%nat v with Ok l => map (fun P : Fq 31 => to_Z P) l | _ => [] end) = [18; 18].
Proof. vm_compute. repeat split. Qed.

(** * C33 *)
Theorem C33_gg20_presign_correct :
  forall (C : Curve) Hb (Hz : hashZ C) (Hf : hashF C) n (f : list (Fq (cq C))) Ns dls sl (lks : nat -> local_key C) (rs : nat -> sign_rand C),
  (forall l, 0 <= Hz l) -> signers_ok n f Ns dls sl lks -> sign_rand_ok Hz dls sl lks rs ->
  let ksum := fsum (map (fun p => sr_k (rs p)) (seq 0 (length sl))) in
  exists cs, sg_run C Hb Hz Hf sl lks rs = Ok cs /\ length cs = length sl /\
  (forall p c, nth_error cs p = Some c ->
     smul ksum (co_R c) = gen /\ co_i c = S p /\ co_lk c = lks p /\ sg_k (co_keys c) = sr_k (rs p) /\ sg_gamma (co_keys c) = sr_gamma (rs p)) /\
  fsum (map (fun c => sg_w (co_keys c)) cs) = hd f0 f /\
  fsum (map co_sigma cs) = fmul ksum (hd f0 f) /\
  (* the values that the R-dash and S sums add up *)
  psum (map (fun c => smul (sg_k (co_keys c)) (co_R c)) cs) = gen /\ psum (map (fun c => smul (co_sigma c) (co_R c)) cs) = smul (hd f0 f) gen.
Proof.
  intros C Hb Hz Hf n f Ns dls sl lks rs HH KO RO ksum. exists (map (s_out C n f sl lks rs) (seq 0 (length sl))).
  assert (Hk : ksum <> f0) by (exact (proj1 (proj2 RO))).
  assert (HR : forall x : Fq (cq C), smul x (s_R C sl rs) = smul (fmul x (finv ksum)) gen) by (intros; apply smul_smul).
  assert (Hks : fmul ksum (finv ksum) = f1) by (apply fmul_finv; exact Hk).
  split; [apply (sg_run_honest C Hb Hz Hf n f Ns dls sl lks rs HH KO RO)|].
  split; [rewrite map_length, seq_length; reflexivity|].
  split; [|split; [|split; [|split]]].
  - intros p c Hc.
    assert (Hp : (p < length sl)%nat). { rewrite <- (seq_length (length sl) 0), <- (map_length (s_out C n f sl lks rs)). apply nth_error_Some. congruence. }
    apply (nth_o_ok (E := unit)) in Hc. rewrite nth_o_map_seq in Hc by exact Hp. injection Hc as <-. cbn [plus].
    cbn [s_out co_R co_i co_lk co_keys s_keys sg_k sg_gamma]. rewrite HR, Hks. split; [apply smul_1|]. repeat (split; [reflexivity|]). reflexivity.
  - rewrite map_map. apply (w_sum C n f Ns dls sl lks KO).
  - rewrite map_map. apply (sigma_sum C n f Ns dls sl lks rs KO).
  - rewrite map_map. cbn [s_out co_R co_keys s_keys sg_k]. rewrite (psum_smul_R C (s_k C rs) (s_R C sl rs)).
    change (fsum (map (s_k C rs) (seq 0 (length sl)))) with ksum. rewrite HR, Hks. apply smul_1.
  - rewrite map_map. cbn [s_out co_R co_sigma]. rewrite (psum_smul_R C (s_sigma C n f sl rs) (s_R C sl rs)).
    rewrite (sigma_sum C n f Ns dls sl lks rs KO). change (s_ksum C sl rs) with ksum. rewrite HR. f_equal. apply fmul_cancel. exact Hk.
Qed.
Print Assumptions C33_gg20_presign_correct.
(** The broadcast delta_i (after Round 2) sum to (sum k)(sum gamma), the sigma_i to (sum k) x. *)
Theorem C33_delta_reconstructs :
  forall (C : Curve) Hb (Hz : hashZ C) (Hf : hashF C) n (f : list (Fq (cq C))) Ns dls sl (lks : nat -> local_key C) (rs : nat -> sign_rand C),
  (forall l, 0 <= Hz l) -> signers_ok n f Ns dls sl lks -> sign_rand_ok Hz dls sl lks rs ->
  let ksum := fsum (map (fun p => sr_k (rs p)) (seq 0 (length sl))) in
  exists l, sg_pre C Hb Hz Hf sl lks rs = Ok l /\ length l = length sl /\
  fsum (map (fun x => fst (fst (snd x))) l) = fmul ksum (fsum (map (fun p => sr_gamma (rs p)) (seq 0 (length sl)))) /\
  fsum (map (fun x => s3_sigma (fst x)) l) = fmul ksum (hd f0 f) /\
  forall x, In x l -> ped_verify Hf (snd (snd x)) = true /\ pe_com (snd (snd x)) = snd (fst (snd x)).
Proof.
  intros C Hb Hz Hf n f Ns dls sl lks rs HH KO RO ksum. eexists. split; [apply (sg_pre_honest C Hb Hz Hf n f Ns dls sl lks rs HH KO RO)|].
  split; [rewrite map_length, seq_length; reflexivity|]. rewrite !map_map. cbn [fst snd s3_sigma].
  split; [apply (delta_sum C sl rs)|]. split; [apply (sigma_sum C n f Ns dls sl lks rs KO)|].
  intros x Hx. apply in_map_iff in Hx. destruct Hx as (p & <- & _). cbn [fst snd]. split; [apply ped_complete|reflexivity].
Qed.
Print Assumptions C33_delta_reconstructs.
(** A run of signers 3 and 1 out of three (threshold 1) on the toy curve meets the hypotheses: Paillier moduli 37*41,
    43*47 and 53*59, key polynomial 5 + 7x. *)
Definition exNs : list Z := [37 * 41; 43 * 47; 53 * 59].
Definition exlk (i : nat) : local_key toy :=
  let '(a, b, x) := nth i [(37, 41, 12); (43, 47, 19); (53, 59, 26)] (0, 0, 0) in
  {| lk_p1 := a; lk_p2 := b; lk_pk := ([tz 12; tz 19; tz 26] : list (pt toy)); lk_shared := {| sk_y := (tz 5 : pt toy); sk_x := tz x |}; lk_N := exNs;
     lk_y := (tz 5 : pt toy); lk_dl := [exst; exst; exst]; lk_vss := {| vs_t := 1; vs_n := 3; vs_com := [] |}; lk_i := S i; lk_t := 1; lk_n := 3 |}.
Definition exlks (p : nat) : local_key toy := nth p [exlk 2; exlk 0] (exlk 0).
Definition exbr (a b : Z) : brand toy := {| br_r := a; br_bt := b; br_t1 := tz 8; br_t2 := tz 9 |}.
Definition exsr (k g : Z) : sign_rand toy :=
  {| sr_gamma := tz g; sr_k := tz k; sr_blind := 99 + g; sr_r := 5 + k; sr_ar := fun _ => {| ar_alpha := 1000; ar_beta := 17; ar_gamma := 23; ar_ro := 5 |};
     sr_bg := fun _ => exbr 6 (100 + k); sr_bw := fun _ => exbr 7 (200 + g); sr_l := tz 4; sr_p1 := tz 5; sr_p2 := tz 6;
     sr_pdl := fun _ => {| pr_alpha := 300; pr_beta := 3; pr_rho := 11; pr_gamma := 12 |}; sr_h1 := tz 2; sr_h2 := tz 3 |}.
Definition exsrs (p : nat) : sign_rand toy := nth p [exsr 4 9; exsr 12 3] (exsr 0 0).
Definition exHb2 (l : list Z) : Z := fold_left (fun a b => (a * 257 + b + 1) mod 65521) l 7.
Definition exHf2 : hashF toy := fun l => tz (7 * Z.of_nat (length l)).
Lemma exlk_good i : (i < 3)%nat -> good_key (lk_p1 (exlk i)) (lk_p2 (exlk i)).
Proof.
  intros H. destruct i as [|[|[|i]]]; [| | |lia]; refine (conj _ (conj _ _)); try (apply prime_check; [cbn; lia|vm_compute; reflexivity]); cbn; lia.
Qed.
Ltac toyeq := match goal with |- ?a = ?b => change (@eq (Fq 31) a b); apply fq_ext; vm_compute; reflexivity end.
Example C33_example_hypotheses : (forall l, 0 <= exH l) /\
  signers_ok 3 [tz 5; tz 7] exNs [exst; exst; exst] [3; 1]%nat exlks /\ sign_rand_ok exH [exst; exst; exst] [3; 1]%nat exlks exsrs.
Proof.
  split; [intros; unfold exH; lia|]. split.
  - unfold signers_ok. split; [|split; [|split; [|split; [|split; [|split; [|split]]]]]].
    + repeat constructor; cbn; intuition congruence.
    + intros x [<-|[<-|[]]]; lia.
    + cbn; lia.
    + discriminate.
    + cbn; lia.
    + reflexivity.
    + repeat constructor; exact exst_good.
    + assert (K : forall i, (i < 3)%nat -> key_ok 3 [tz 5; tz 7 : Fq (cq toy)] exNs [exst; exst; exst] i (exlk i)).
      { intros i Hi. assert (Hg := exlk_good i Hi). destruct i as [|[|[|i]]]; [| | |lia]; unfold key_ok;
          (split; [reflexivity|]; split; [toyeq|]; split; [reflexivity|]; split;
             [cbn [exlk nth lk_pk map seq]; do 3 (apply (f_equal2 (@cons (pt toy))); [toyeq|]); reflexivity|];
           split; [reflexivity|]; split; [reflexivity|]; split; [toyeq|]; split; [exact Hg|reflexivity]). }
      intros p Hp. destruct p as [|[|p]]; [apply (K 2%nat)|apply (K 0%nat)|cbn in Hp; lia]; lia.
  - unfold sign_rand_ok. split; [|split; intros E; apply (f_equal to_Z) in E; vm_compute in E; discriminate].
    intros p Hp. destruct p as [|[|p]]; [| |cbn in Hp; lia];
      (split; [reflexivity|]; split; [intros; unfold arand_ok; cbn; lia|]; split; [intros; unfold prand_ok; cbn; lia|]; split;
        [apply Forall_forall; intros a Ha; apply Z.leb_le; revert a Ha; apply forallb_forall; vm_compute; reflexivity|]).
    all: intros [|[|id]] Hid Hne; try (cbn in Hid; lia); try congruence; split; (apply brand_small; [reflexivity|cbn; lia|cbn; lia]).
Qed.
Definition co_obs (c : completed toy) : Z * Z * Z :=
  (to_Z (co_R c : Fq 31), to_Z (sg_w (co_keys c)), to_Z (co_sigma c)).
(** k = 4 + 12 = 16, so R = 2 G; the w_i sum to 5 and the sigma_i to 16 * 5 = 18 mod 31. *)
Example C33_example :
  match sg_run toy exHb2 exH exHf2 [3; 1]%nat exlks exsrs with Ok cs => map co_obs cs = [(2, 18, 14); (2, 18, 4)] | _ => False end.
Proof. vm_compute. reflexivity. Qed.

(** * C34 *)
(** Every signer outputs the same signature; r is the x-coordinate of the nonce point (sum k)^-1 G, the signature
    satisfies the verification equation under the joint key and has low s.  The hypothesis excludes exactly the
    messages for which the total s is 0. *)
Theorem C34_gg20_sign_correct :
  forall (C : Curve) Hb (Hz : hashZ C) (Hf : hashF C) n (f : list (Fq (cq C))) Ns dls sl (lks : nat -> local_key C) (rs : nat -> sign_rand C) (msg : Z),
  (forall l, 0 <= Hz l) -> signers_ok n f Ns dls sl lks -> sign_rand_ok Hz dls sl lks rs ->
  exists R x y cs, smul (fsum (map (fun p => sr_k (rs p)) (seq 0 (length sl)))) R = gen /\ coords R = Some (x, y) /\
  sg_run C Hb Hz Hf sl lks rs = Ok cs /\
  (fadd (of_Z (cq C) msg) (fmul (of_Z (cq C) x) (hd f0 f)) <> f0 ->
   exists sig, sg_online C msg cs = Ok (repeat sig (length sl)) /\
   to_Z (sg_r sig) = x mod cq C /\ to_Z (sg_s sig) <= (cq C - 1) / 2 /\
   ecdsa_eqn (smul (hd f0 f) gen) msg (to_Z (sg_r sig)) (to_Z (sg_s sig)) /\
   (x mod cq C <> 0 -> ecdsa_valid (smul (hd f0 f) gen) msg (to_Z (sg_r sig)) (to_Z (sg_s sig)))) /\
  (fadd (of_Z (cq C) msg) (fmul (of_Z (cq C) x) (hd f0 f)) = f0 -> sg_online C msg cs = Panic).
Proof.
  intros C Hb Hz Hf n f Ns dls sl lks rs msg HH KO RO.
  assert (Hk : s_ksum C sl rs <> f0) by (exact (proj1 (proj2 RO))).
  assert (HRG : smul (s_ksum C sl rs) (s_R C sl rs) = gen).
  { unfold s_R. rewrite smul_smul, fmul_finv by exact Hk. apply smul_1. }
  destruct (coords_some C (s_R C sl rs) (smul_nz C _ _ HRG)) as (x & y & EC).
  exists (s_R C sl rs), x, y, (map (s_out C n f sl lks rs) (seq 0 (length sl))).
  split; [exact HRG|]. split; [exact EC|]. split; [apply (sg_run_honest C Hb Hz Hf n f Ns dls sl lks rs HH KO RO)|]. split.
  - intros Hs. set (s := fmul (s_ksum C sl rs) (fadd (of_Z (cq C) msg) (fmul (of_Z (cq C) x) (hd f0 f)))).
    assert (Hs' : s <> f0) by (apply fmul_nz; [apply cq_prime|exact Hk|exact Hs]).
    pose proof (sg_online_honest C Hz n f Ns dls sl lks rs KO RO msg x y EC Hs') as EO. cbv zeta in EO. fold s in EO.
    exists {| sg_r := of_Z (cq C) x; sg_s := fst (normalize s y); sg_recid := snd (normalize s y) |}.
    split; [rewrite EO; f_equal; apply map_const_seq|]. cbn [sg_r sg_s]. rewrite to_Z_of_Z.
    destruct (total_valid C (s_R C sl rs) (smul (hd f0 f) gen) msg x y s EC Hs' (total_eqn C _ _ _ _ Hk)) as (V1 & V2 & V3).
    split; [reflexivity|]. split; [exact V3|]. split; [exact V1|exact V2].
  - intros E. apply (sg_online_zero C n f Ns dls sl lks rs KO msg x y EC E).
Qed.
Print Assumptions C34_gg20_sign_correct.
(** From key generation to signature: n parties generate a key with threshold t, then any t+1 or more of them sign. *)
Theorem C34_gg20_end_to_end :
  forall (C : Curve) Hb (Hz : hashZ C) (Hf : hashF C) ck cd (t n : nat) (ks : nat -> kg_rand C) (sl : list nat) (rs : nat -> sign_rand C) (msg : Z),
  (t < n)%nat -> Z.of_nat n < cq C -> (forall l, 0 <= Hz l) ->
  (forall i, (i < n)%nat -> length (kr_coefs (ks i)) = t) ->
  (forall i, (i < n)%nat -> ck (kr_ck (ks i)) (kr_p1 (ks i) * kr_p2 (ks i)) = true /\ cd (kr_cd1 (ks i)) (kr_dl (ks i)) = Ok true /\
     cd (kr_cd2 (ks i)) {| dl_N := dl_N (kr_dl (ks i)); dl_h1 := dl_h2 (kr_dl (ks i)); dl_h2 := dl_h1 (kr_dl (ks i)) |} = Ok true /\
     2047 <= bit_length (kr_p1 (ks i) * kr_p2 (ks i)) <= 2048 /\ 2047 <= bit_length (dl_N (kr_dl (ks i))) <= 2048) ->
  (forall i, (i < n)%nat -> good_key (kr_p1 (ks i)) (kr_p2 (ks i)) /\ good_st (kr_dl (ks i))) ->
  NoDup sl -> (forall i, In i sl -> (1 <= i <= n)%nat) -> (t < length sl)%nat ->
  let Y := smul (fsum (map (fun j => kr_u (ks j)) (seq 0 n))) (gen : pt C) in
  exists keys, kg_run C Hb Hf ck cd t n ks = Ok keys /\ length keys = n /\
  forall lks : nat -> local_key C, (forall p i, nth_error sl p = Some i -> nth_error keys (i - 1) = Some (lks p)) ->
  sign_rand_ok Hz (map (fun j => kr_dl (ks j)) (seq 0 n)) sl lks rs ->
  exists R x y cs, smul (fsum (map (fun p => sr_k (rs p)) (seq 0 (length sl)))) R = gen /\ coords R = Some (x, y) /\
  sg_run C Hb Hz Hf sl lks rs = Ok cs /\
  (padd (smul (of_Z (cq C) msg) gen) (smul (of_Z (cq C) x) Y) <> pzero ->
   exists sig, sg_online C msg cs = Ok (repeat sig (length sl)) /\
   to_Z (sg_r sig) = x mod cq C /\ to_Z (sg_s sig) <= (cq C - 1) / 2 /\
   ecdsa_eqn Y msg (to_Z (sg_r sig)) (to_Z (sg_s sig)) /\
   (x mod cq C <> 0 -> ecdsa_valid Y msg (to_Z (sg_r sig)) (to_Z (sg_s sig)))).
Proof.
  intros C Hb Hz Hf ck cd t n ks sl rs msg Htn Hq HHz Hco Hor Hgd Hnd Hin Hs Y.
  exists (map (h_lk C t n ks) (seq 0 n)). split.
  { apply kg_run_honest; try assumption; intros i Hi; destruct (Hor i Hi) as (A & B & D & E1 & E2); try assumption.
    split; apply bits_ok_iff; assumption. }
  split; [rewrite map_length, seq_length; reflexivity|].
  intros lks Hlks RO.
  assert (KO : signers_ok n (h_sum C n ks) (map (fun j => kr_p1 (ks j) * kr_p2 (ks j)) (seq 0 n)) (map (fun j => kr_dl (ks j)) (seq 0 n)) sl lks).
  { assert (HL := h_sum_length C t n ks Htn Hco). refine (conj Hnd (conj Hin (conj Hq (conj _ (conj _ (conj _ (conj _ _))))))).
    - unfold h_sum. destruct n as [|n']; [lia|]. cbn [seq map]. apply poly_sum_nonempty. discriminate.
    - lia.
    - rewrite map_length, seq_length. reflexivity.
    - apply Forall_forall. intros d Hd. apply in_map_iff in Hd. destruct Hd as (j & <- & Hj). apply in_seq in Hj. apply Hgd. lia.
    - intros p Hp. destruct (nth_error sl p) as [i|] eqn:Ei; [|apply nth_error_None in Ei; lia].
      specialize (Hlks p i Ei) as Hk. specialize (Hin i (nth_error_In _ _ Ei)) as Hi.
      apply (nth_o_ok (E := unit)) in Hk. rewrite nth_o_map_seq in Hk by lia. injection Hk as <-. cbn [plus].
      assert (EI : s_idx sl p = (i - 1)%nat). { unfold s_idx. apply nth_error_nth. apply nth_error_l_s. exact Ei. }
      rewrite EI. apply kg_key_ok; [lia|]. apply Hgd. lia. }
  destruct (C34_gg20_sign_correct C Hb Hz Hf n _ _ _ sl lks rs msg HHz KO RO) as (R & x & y & cs & H1 & H2 & H3 & H4 & _).
  exists R, x, y, cs. split; [exact H1|]. split; [exact H2|]. split; [exact H3|].
  rewrite (h_sum_hd C n ks) in H4. fold Y in H4. intros Hne. apply H4. intros E. apply Hne. unfold Y. rewrite smul_smul, <- padd_smul, E. apply smul_0.
Qed.
Print Assumptions C34_gg20_end_to_end.
(** Message 9 under the key 5 G with nonce point 2 G with x = 7: s = 16 (9 + 7 * 5) = 22, normalised to 9. *)
Example C34_example :
  match sg_run toy exHb2 exH exHf2 [3; 1]%nat exlks exsrs with
  | Ok cs => match sg_online toy 9 cs with Ok l => map (fun s : sig_recid toy => (to_Z (sg_r s), to_Z (sg_s s), sg_recid s)) l = [(7, 9, 0); (7, 9, 0)] | _ => False end
  | _ => False end.
Proof. vm_compute. reflexivity. Qed.

(** * C36 *)
(** With one MtA proof per other party, phase4 returns R exactly when every other party's revealed point equals the
    point proven in MtA and opens the phase-1 commitment; R is then delta^-1 times the sum of all revealed points. *)
Theorem C36_phase4_accepts_iff :
  forall (C : Curve) Hb (dinv : Fq (cq C)) (bproofs : list (dlog_proof C)) decs coms i (R : pt C),
  (i < length decs)%nat -> length bproofs = (length decs - 1)%nat -> length coms = length decs ->
  (sg_phase4 Hb dinv bproofs decs coms i = Ok R <->
   (forall j b, (j < length bproofs)%nat -> nth_error bproofs j = Some b ->
      exists d c, nth_error decs (ind i j) = Some d /\ nth_error coms (ind i j) = Some c /\
        dp_pk b = sd_g d /\ commit_pt Hb (sd_g d) (sd_blind d) = c) /\
   R = smul dinv (psum (map sd_g decs))).
Proof.
  intros C Hb dinv bp decs coms i R Hi HL HC. rewrite phase4_ok. split.
  - intros (_ & H & ->). split; [|reflexivity]. intros j b _ Hj. apply H. exact Hj.
  - intros (H & ->). split; [destruct decs; [cbn in Hi; lia|discriminate]|]. split; [|reflexivity].
    intros j b Hj. apply H; [apply nth_error_Some; congruence|exact Hj].
Qed.
Print Assumptions C36_phase4_accepts_iff.
(** Every position but the own one is checked. *)
Theorem C36_phase4_checks_everyone :
  forall i m k, (i < m)%nat -> (k < m)%nat -> k <> i -> exists j, (j < m - 1)%nat /\ ind i j = k.
Proof.
  intros i m k Hi Hk Hne. assert (H : In k (others i m)) by (apply in_others; lia). rewrite <- ind_map in H by exact Hi.
  apply in_map_iff in H. destruct H as (j & E & Hj). apply in_seq in Hj. exists j. split; [lia|exact E].
Qed.
Print Assumptions C36_phase4_checks_everyone.
(** The reported party violated one of the two conditions, and parties checked before it violated none. *)
Theorem C36_phase4_error_names_violator :
  forall (C : Curve) Hb (dinv : Fq (cq C)) (bproofs : list (dlog_proof C)) decs coms i e,
  sg_phase4 Hb dinv bproofs decs coms i = Err e ->
  exists j b d, me_kind e = EBadGamma /\ me_bad e = [ind i j] /\ ind i j <> i /\ nth_error bproofs j = Some b /\ nth_error decs (ind i j) = Some d /\
    (dp_pk b <> sd_g d \/ exists c, nth_error coms (ind i j) = Some c /\ commit_pt Hb (sd_g d) (sd_blind d) <> c).
Proof.
  intros C Hb dinv bp decs coms i e H. apply phase4_err in H. destruct H as (j & p & d & -> & H1 & H2 & H3 & _).
  exists j, p, d. repeat (split; [reflexivity || apply ind_ne || assumption|]). exact H3.
Qed.
Print Assumptions C36_phase4_error_names_violator.
(** In the protocol (Round 4) the vectors always have the lengths above: an accepted round fixes R from checked values. *)
Theorem C36_round4 :
  forall (C : Curve) Hb (Hz : hashZ C) (s : sg_round4 C) r input s5 out,
  (1 <= s4_i s <= length (s4_sl s))%nat -> length input = (length (s4_sl s) - 1)%nat -> length (s4_mbs s) = (length (s4_sl s) - 1)%nat ->
  sg_r4 Hb Hz s r input = Ok (s5, out) ->
  s5_R s5 = smul (s4_dinv s) (padd (sd_g (s4_dec s)) (psum (map sd_g input))) /\
  s5_Rd s5 = smul (sg_k (s4_keys s)) (s5_R s5) /\ fst out = s5_Rd s5 /\
  forall j d mb, nth_error input j = Some d -> nth_error (s4_mbs s) j = Some mb ->
    dp_pk (mb_b mb) = sd_g d /\ nth_error (s4_coms s) (ind (s4_i s - 1) j) = Some (commit_pt Hb (sd_g d) (sd_blind d)).
Proof.
  intros C Hb Hz s r input s5 out Hi HLi HLm H. unfold sg_r4 in H.
  apply obind_ok in H. destruct H as (bps & Hbps & H). apply obind_ok in H. destruct H as (R & HR & H). apply obind_ok in H. destruct H as (pdl & _ & H).
  injection H as <- <-. cbn [s5_R s5_Rd fst]. apply phase4_ok in HR. destruct HR as (_ & HO & ->).
  split; [|split; [reflexivity|split; [reflexivity|]]].
  - f_equal. rewrite incl_me_map. apply psum_incl_me.
  - intros j d mb Hd Hm.
    assert (Hj : (j < length (s4_sl s) - 1)%nat) by (rewrite <- HLi; apply nth_error_Some; congruence).
    assert (Hb' : nth_error bps j = Some (mb_b mb)).
    { rewrite (omapM_nth mb_b (s4_mbs s) _ HLm) in Hbps by lia. injection Hbps as <-. apply map_nth_error. exact Hm. }
    destruct (HO j _ Hb') as (d' & c & D1 & D2 & D3 & D4). rewrite incl_me_ind in D1 by lia. rewrite Hd in D1. injection D1 as <-.
    rewrite D4. split; [exact D3|exact D2].
Qed.
Print Assumptions C36_round4.
Example C36_example :
  let G z : pt toy := tz z in
  let dec z b := {| sd_blind := b; sd_g := G z |} in
  let pf z := dlog_prove exHf2 (tz z) (tz 4) in
  let code (o : outcome mp_error (pt toy)) := match o with Ok R => (to_Z (R : Fq 31), []) | Err e => (-1, me_bad e) | Panic => (-2, []) end in
  let coms := [commit_pt exHb2 (G 3) 50; commit_pt exHb2 (G 4) 60; commit_pt exHb2 (G 5) 70] in
  code (sg_phase4 exHb2 (tz 2) [pf 3; pf 5] [dec 3 50; dec 4 60; dec 5 70] coms 1) = (24, []) /\
  code (sg_phase4 exHb2 (tz 2) [pf 3; pf 5] [dec 3 50; dec 4 60; dec 5 71] coms 1) = (-1, [2%nat]) /\
  code (sg_phase4 exHb2 (tz 2) [pf 8; pf 5] [dec 3 50; dec 4 60; dec 5 70] coms 1) = (-1, [0%nat]).
Proof. vm_compute. repeat split. Qed.

(** * C37 *)
(** Whatever k_i, sigma_i, R and y are: if both sum checks pass on R'_i = k_i R and S_i = sigma_i R, every party's
    partial signatures sum to a valid signature under y, and every party outputs it, unless the sum is 0. *)
Theorem C37_checked_presignature_signs :
  forall (C : Curve) (ks sigmas : list (Fq (cq C))) (R y : pt C) (m : Z),
  length ks = length sigmas ->
  sg_check_R (map (fun k => smul k R) ks) = Ok tt -> sg_check_S y (map (fun s => smul s R) sigmas) = Ok tt ->
  exists (ls : list (local_sig C)) x yc, coords R = Some (x, yc) /\
  omapM (fun '(k, s) => gg20_local_sig k m R s y) (combine ks sigmas) = Ok ls /\
  let total := fsum (map ls_s ls) in
  (total <> f0 ->
   exists sig, (forall i l, nth_error ls i = Some l -> gg20_output l (map ls_s (but i ls)) = Ok sig) /\
     to_Z (sg_r sig) = x mod cq C /\ to_Z (sg_s sig) <= (cq C - 1) / 2 /\
     ecdsa_eqn y m (to_Z (sg_r sig)) (to_Z (sg_s sig)) /\ (x mod cq C <> 0 -> ecdsa_valid y m (to_Z (sg_r sig)) (to_Z (sg_s sig)))).
Proof.
  intros C ks sigmas R y m HL HR HS. apply check_R_ok in HR. apply check_S_ok in HS.
  assert (HRn : R <> pzero).
  { rewrite (psum_smul_R C (fun k => k) R), map_id in HR. apply (smul_nz C _ _ HR). }
  destruct (coords_some C R HRn) as (x & yc & EC).
  exists (map (fun '(k, s) => {| ls_r := of_Z (cq C) x; ls_R := R; ls_s := fadd (fmul (of_Z (cq C) m) k) (fmul (of_Z (cq C) x) s); ls_m := m; ls_y := y |}) (combine ks sigmas)), x, yc.
  split; [exact EC|]. split.
  { apply omapM_all. intros [k s] _. unfold gg20_local_sig, x_coord. rewrite EC. cbn [option_map fst unwrap obind]. rewrite of_Z_mod. reflexivity. }
  cbv zeta. intros HT.
  assert (ES : map ls_s (map (fun '(k, s) => {| ls_r := of_Z (cq C) x; ls_R := R; ls_s := fadd (fmul (of_Z (cq C) m) k) (fmul (of_Z (cq C) x) s); ls_m := m; ls_y := y |}) (combine ks sigmas)) =
               map (fun '(k, s) => fadd (fmul (of_Z (cq C) m) k) (fmul (of_Z (cq C) x) s)) (combine ks sigmas)).
  { rewrite map_map. apply map_ext. intros [k s]. reflexivity. }
  rewrite ES in HT. pose proof (sums_sign C ks sigmas R y (of_Z (cq C) m) (of_Z (cq C) x) HL HR HS) as EQ.
  set (total := fsum (map (fun '(k, s) => fadd (fmul (of_Z (cq C) m) k) (fmul (of_Z (cq C) x) s)) (combine ks sigmas))) in *.
  exists {| sg_r := of_Z (cq C) x; sg_s := fst (normalize total yc); sg_recid := snd (normalize total yc) |}. cbn [sg_r sg_s]. rewrite to_Z_of_Z.
  destruct (total_valid C R y m x yc total EC HT EQ) as (V1 & V2 & V3).
  split; [|split; [reflexivity|split; [exact V3|split; [exact V1|exact V2]]]].
  intros i l Hl. match type of Hl with nth_error ?L _ = _ => set (ls := L) in * end.
  assert (Htot : sig_total l (map ls_s (but i ls)) = total).
  { unfold sig_total, total. rewrite <- ES. apply (fsum_but C ls_s ls i l Hl). }
  assert (Hl' : ls_R l = R /\ ls_m l = m /\ ls_y l = y).
  { apply nth_error_In, in_map_iff in Hl. destruct Hl as ([k s] & <- & _). auto. }
  destruct Hl' as (H1 & H2 & H3).
  rewrite (gg20_output_complete C l _ x yc); rewrite ?Htot, ?H1, ?H2, ?H3; try assumption. reflexivity.
Qed.
Print Assumptions C37_checked_presignature_signs.
(** Round 5 and Round 6 perform exactly these two sum checks on the received values. *)
Theorem C37_rounds_check_sums :
  forall (C : Curve) (Hz : hashZ C) (Hf : hashF C),
  (forall (s : sg_round5 C) r input out, sg_r5 Hz Hf s r input = Ok out -> padd (s5_Rd s) (psum (map fst input)) = gen) /\
  (forall (s : sg_round6 C) input c, sg_r6 Hf s input = Ok c -> padd (s6_S s) (psum (map fst input)) = lk_y (co_lk c) /\ c = s6_out s).
Proof.
  intros C Hz Hf. split.
  - intros s r input out H. unfold sg_r5 in H. apply obind_ok in H. destruct H as (u & _ & H). apply obind_ok in H. destruct H as (u' & HR & _).
    destruct (sg_check_R _) as [[]|e|] eqn:E; try discriminate. apply check_R_ok in E. rewrite incl_me_map, psum_incl_me in E. exact E.
  - intros s input c H. unfold sg_r6 in H. apply obind_ok in H. destruct H as (u & _ & H). apply obind_ok in H. destruct H as (u' & HR & H). injection H as <-.
    destruct (sg_check_S _ _) as [[]|e|] eqn:E; try discriminate. apply check_S_ok in E. rewrite incl_me_map, psum_incl_me in E. split; [exact E|reflexivity].
Qed.
Print Assumptions C37_rounds_check_sums.
(** k = (9, 7), sigma = (1, 17) with R = 2 G: both sums are right though the shares are not those of an honest run. *)
Example C37_example :
  let G z : pt toy := tz z in
  (match sg_check_R (map (fun k => smul k (G 2)) [tz 9; tz 7]) with Ok _ => 1 | _ => 0 end) = 1 /\
  (match sg_check_S (G 5) (map (fun s => smul s (G 2)) [tz 1; tz 17]) with Ok _ => 1 | _ => 0 end) = 1 /\
  (match sg_check_R (map (fun k => smul k (G 2)) [tz 9; tz 8]) with Ok _ => 1 | _ => 0 end) = 0.
Proof. vm_compute. repeat split. Qed.

(** * C39 *)
(** Two authorised subsets (or the same one with other randomness) with equal total nonce output the same signature,
    recovery id included, for every message. *)
Theorem C39_signature_independent_of_subset :
  forall (C : Curve) Hb Hb' (Hz Hz' : hashZ C) (Hf Hf' : hashF C) n (f : list (Fq (cq C))) Ns dls sl sl'
    (lks lks' : nat -> local_key C) (rs rs' : nat -> sign_rand C) (msg : Z) cs cs' sigs sigs' sig sig',
  (forall l, 0 <= Hz l) -> (forall l, 0 <= Hz' l) ->
  signers_ok n f Ns dls sl lks -> sign_rand_ok Hz dls sl lks rs -> signers_ok n f Ns dls sl' lks' -> sign_rand_ok Hz' dls sl' lks' rs' ->
  fsum (map (fun p => sr_k (rs p)) (seq 0 (length sl))) = fsum (map (fun p => sr_k (rs' p)) (seq 0 (length sl'))) ->
  sg_run C Hb Hz Hf sl lks rs = Ok cs -> sg_run C Hb' Hz' Hf' sl' lks' rs' = Ok cs' ->
  sg_online C msg cs = Ok sigs -> sg_online C msg cs' = Ok sigs' -> In sig sigs -> In sig' sigs' -> sig = sig'.
Proof.
  intros C Hb Hb' Hz Hz' Hf Hf' n f Ns dls sl sl' lks lks' rs rs' msg cs cs' sigs sigs' sig sig' HH HH' KO RO KO' RO' EK E1 E2 O1 O2 I1 I2.
  rewrite (sg_run_honest C Hb Hz Hf n f Ns dls sl lks rs HH KO RO) in E1. rewrite (sg_run_honest C Hb' Hz' Hf' n f Ns dls sl' lks' rs' HH' KO' RO') in E2.
  injection E1 as <-. injection E2 as <-.
  assert (Hk : s_ksum C sl rs <> f0) by (exact (proj1 (proj2 RO))).
  change (s_ksum C sl rs = s_ksum C sl' rs') in EK.
  assert (HRG : smul (s_ksum C sl rs) (s_R C sl rs) = gen).
  { unfold s_R. rewrite smul_smul, fmul_finv by exact Hk. apply smul_1. }
  assert (ER : s_R C sl' rs' = s_R C sl rs) by (unfold s_R; rewrite EK; reflexivity).
  destruct (coords_some C (s_R C sl rs) (smul_nz C _ _ HRG)) as (x & y & EC).
  assert (EC' : coords (s_R C sl' rs') = Some (x, y)) by (rewrite ER; exact EC).
  destruct (Fq_eq_dec (fadd (of_Z (cq C) msg) (fmul (of_Z (cq C) x) (hd f0 f))) f0) as [Ez|Hs].
  - rewrite (sg_online_zero C n f Ns dls sl lks rs KO msg x y EC Ez) in O1. discriminate.
  - assert (Hs' : fmul (s_ksum C sl rs) (fadd (of_Z (cq C) msg) (fmul (of_Z (cq C) x) (hd f0 f))) <> f0) by (apply fmul_nz; [apply cq_prime|exact Hk|exact Hs]).
    rewrite (sg_online_honest C Hz n f Ns dls sl lks rs KO RO msg x y EC Hs') in O1.
    rewrite (sg_online_honest C Hz' n f Ns dls sl' lks' rs' KO' RO' msg x y EC' ltac:(rewrite <- EK; exact Hs')) in O2.
    injection O1 as <-. injection O2 as <-. apply in_map_iff in I1, I2. destruct I1 as (_ & <- & _). destruct I2 as (_ & <- & _). rewrite EK. reflexivity.
Qed.
Print Assumptions C39_signature_independent_of_subset.
(** Signers 3, 1 with k = (4, 12) and signers 2, 3, 1 with k = (1, 10, 5): same signature of 9. *)
Example C39_example :
  let lks' p := nth p [exlk 1; exlk 2; exlk 0] (exlk 0) in
  let rs' p := nth p [exsr 1 9; exsr 10 3; exsr 5 6] (exsr 0 0) in
  let obs sl lks rs := match sg_run toy exHb2 exH exHf2 sl lks rs with
    | Ok cs => match sg_online toy 9 cs with Ok l => map (fun s : sig_recid toy => (to_Z (sg_r s), to_Z (sg_s s), sg_recid s)) l | _ => [] end
    | _ => [] end in
  obs [3; 1]%nat exlks exsrs = repeat (7, 9, 0) 2 /\ obs [2; 3; 1]%nat lks' rs' = repeat (7, 9, 0) 3.
Proof. vm_compute. split; reflexivity. Qed.

(** * C24, signing phases *)
(** phase4: a party whose opening matches the phase-1 commitment and the MtA proof is never listed. *)
Theorem C24_phase4_listed_is_bad :
  forall (C : Curve) Hb (dinv : Fq (cq C)) (bproofs : list (dlog_proof C)) decs coms i e k,
  sg_phase4 Hb dinv bproofs decs coms i = Err e -> In k (me_bad e) ->
  exists j b d, k = ind i j /\ nth_error bproofs j = Some b /\ nth_error decs k = Some d /\
    (dp_pk b <> sd_g d \/ exists c, nth_error coms k = Some c /\ commit_pt Hb (sd_g d) (sd_blind d) <> c).
Proof.
  intros C Hb dinv bp decs coms i e k H Hk. apply phase4_err in H. destruct H as (j & p & d & -> & H1 & H2 & H3 & _).
  destruct Hk as [<-|[]]. exists j, p, d. auto.
Qed.
Print Assumptions C24_phase4_listed_is_bad.
(** phase5_verify_pdl: in the checking party's view, the listed sender sent a wrong number of proofs or a failing proof. *)
Theorem C24_phase5_listed_fails_own_view_partial :
  forall (C : Curve) (Hz : hashZ C) ps (R' R : pt C) c N dls s i e k,
  sg_phase5_verify Hz ps R' R c N dls s i = Err e -> In k (me_bad e) ->
  k = i /\ (length ps <> (length s - 1)%nat \/
    exists j p si dl e', nth_error ps j = Some p /\ nth_error s (ind i j) = Some si /\ nth_error dls si = Some dl /\
      pdls_verify Hz p (sg_pdl_stmt R' R c N dl) = Err e').
Proof. intros C Hz ps R' R c N dls s i e k H Hk. apply phase5_verify_err in H. destruct H as (-> & H). destruct Hk as [<-|[]]. auto. Qed.
Print Assumptions C24_phase5_listed_fails_own_view_partial.
(** phase6_verify_proof lists exactly the positions whose proof fails. *)
Theorem C24_phase6_lists_exactly_bad :
  forall (C : Curve) (Hf : hashF C) Ss ps Rs Ts e, sg_phase6_verify Hf Ss ps Rs Ts = Err e ->
  me_bad e <> [] /\
  forall k, In k (me_bad e) <-> exists p R T Si, nth_error ps k = Some p /\ nth_error Rs k = Some R /\ nth_error Ts k = Some T /\
    nth_error Ss k = Some Si /\ heg_verify Hf p (sg_heg_stmt R T Si) = false.
Proof. intros C Hf Ss ps Rs Ts e H. apply phase6_verify_err in H. exact (proj2 H). Qed.
Print Assumptions C24_phase6_lists_exactly_bad.
(** Not so for parties: a sender whose PDL proofs are honest for the R1 it computed is listed by a party that
    computed another R2 (from a third party's equivocated delta), unless one linear relation of its nonce holds. *)
Theorem C24_honest_signer_framed_refuted :
  forall (C : Curve) (Hz : hashZ C) (R1 R2 : pt C) (k : Fq (cq C)) N r (prs : list (prand)) ps dls s i,
  (forall l, 0 <= Hz l) -> 1 < N -> Z.gcd r N = 1 -> (2 <= length s)%nat -> length ps = (length s - 1)%nat -> length prs = length ps ->
  (forall j, (j < length s)%nat -> exists si dl, nth_error s j = Some si /\ nth_error dls si = Some dl /\ good_st dl) -> (i < length s)%nat ->
  (forall j pr, nth_error prs j = Some pr -> 0 <= pr_alpha pr /\ 0 <= pr_beta pr /\ 0 <= pr_rho pr /\ 0 <= pr_gamma pr) ->
  let R' := smul k R1 in let c := enc N (to_Z k) r in
  (* the proofs are those Round 4 computes from R1 *)
  (forall j p pr si dl, nth_error ps j = Some p -> nth_error prs j = Some pr -> nth_error s (ind i j) = Some si -> nth_error dls si = Some dl ->
     sg_pdl Hz R' R1 c N k r dl pr = Ok p) ->
  (exists j p pr si dl, nth_error ps j = Some p /\ nth_error prs j = Some pr /\ nth_error s (ind i j) = Some si /\ nth_error dls si = Some dl /\
     let e R := Hz (pdls_query (sg_pdl_stmt R' R c N dl) (pp_z p) (pp_u1 p) (pp_u2 p) (pp_u3 p)) in
     smul (of_Z (cq C) (e R1 * to_Z k + pr_alpha pr)) R2 <> smul (of_Z (cq C) (e R2 * to_Z k + pr_alpha pr)) R1) ->
  sg_phase5_verify Hz ps R' R1 c N dls s i = Ok tt /\
  exists e, sg_phase5_verify Hz ps R' R2 c N dls s i = Err e /\ me_bad e = [i].
Proof.
  intros C Hz R1 R2 k N r prs ps dls s i HH HN Hr Hs Lp Lr Hd Hi Hpr R' c Hok (j & p & pr & si & dl & J1 & J2 & J3 & J4 & J5).
  assert (K : forall j p, nth_error ps j = Some p -> exists pr si dl, nth_error prs j = Some pr /\ nth_error s (ind i j) = Some si /\ nth_error dls si = Some dl /\
     pdls_verify Hz p (sg_pdl_stmt R' R1 c N dl) = Ok tt /\ pdls_verify Hz p (sg_pdl_stmt R' R2 c N dl) <> Panic /\
     (pdls_verify Hz p (sg_pdl_stmt R' R2 c N dl) = Ok tt ->
        let e R := Hz (pdls_query (sg_pdl_stmt R' R c N dl) (pp_z p) (pp_u1 p) (pp_u2 p) (pp_u3 p)) in
        smul (of_Z (cq C) (e R1 * to_Z k + pr_alpha pr)) R2 = smul (of_Z (cq C) (e R2 * to_Z k + pr_alpha pr)) R1)).
  { intros j' p' Hj. assert (Lj : (j' < length ps)%nat) by (apply nth_error_Some; congruence).
    destruct (nth_error prs j') as [pr'|] eqn:Epr; [|apply nth_error_None in Epr; lia].
    destruct (Hd (ind i j') ltac:(apply ind_lt; lia)) as (si' & dl' & S1 & S2 & S3). exists pr', si', dl'.
    destruct (Hpr _ _ Epr) as (P1 & P2 & P3 & P4). specialize (Hok _ _ _ _ _ Hj Epr S1 S2).
    unfold sg_pdl in Hok. destruct (pdls_prove _ _ _ _ _ _ _ _) as [x| |] eqn:EP; try discriminate. injection Hok as ->.
    destruct (pdl_other_view C Hz R1 R2 k N r dl' pr' p' HN S3 HH P1 P2 P3 P4 Hr EP) as (V1 & V2 & V3).
    split; [reflexivity|]. split; [exact S1|]. split; [exact S2|]. split; [exact V1|]. split; [exact V2|exact V3]. }
  assert (Hs0 : s <> []) by (intros ->; cbn in Hs; lia).
  split.
  - apply phase5_verify_ok. split; [exact Hs0|]. split; [exact Lp|]. intros j' p' Hj. destruct (K j' p' Hj) as (_ & si' & dl' & _ & S1 & S2 & V & _). exists si', dl'. auto.
  - destruct (sg_phase5_verify Hz ps R' R2 c N dls s i) as [[]|e|] eqn:E.
    + exfalso. apply phase5_verify_ok in E. destruct E as (_ & _ & E). destruct (E j p J1) as (si' & dl' & S1 & S2 & V).
      rewrite J3 in S1. injection S1 as <-. rewrite J4 in S2. injection S2 as <-.
      destruct (K j p J1) as (pr' & si' & dl' & S0 & S1 & S2 & _ & _ & V3). rewrite J2 in S0. injection S0 as <-. rewrite J3 in S1. injection S1 as <-. rewrite J4 in S2. injection S2 as <-.
      exact (J5 (V3 V)).
    + exists e. split; [reflexivity|]. apply phase5_verify_err in E. destruct E as (-> & _). reflexivity.
    + exfalso. revert E. apply phase5_no_panic; [exact Hs0|]. intros j' p' Hj. destruct (K j' p' Hj) as (_ & si' & dl' & _ & S1 & S2 & _ & V & _). exists si', dl'. auto.
Qed.
Print Assumptions C24_honest_signer_framed_refuted.
(** A whole run: signers 2, 3, 1.  The last signer sends delta + 1 to the second signer only; the second signer then
    rejects the first, honest, signer with bad_actors = [0], while without the change everybody accepts. *)
Definition ex_framed (d : Z) : outcome mp_error nat :=
  let lks' p := nth p [exlk 1; exlk 2; exlk 0] (exlk 0) in
  let rs' p := nth p [exsr 1 9; exsr 10 3; exsr 5 6] (exsr 0 0) in
  let sl := [2; 3; 1]%nat in
  let parties := [0; 1; 2]%nat in
  let* l0 := omapM (fun i => sg_r0 exHb2 exH (S i) sl (lks' i) (rs' i)) parties in
  let* l1 := omapM (fun i => let* s := nth_o l0 i in sg_r1 exH exHf2 (fst s) (rs' i) (but i (map snd l0))) parties in
  let* l2 := omapM (fun i => let* s := nth_o l1 i in
                             let* inp := omapM (addressed (S i)) (but i (map snd l1)) in
                             sg_r2 exHf2 (fst s) (rs' i) inp) parties in
  let cheat i k (x : Fq (cq toy) * pt toy * ped_proof toy) := if ((i =? 1) && (k =? 1))%nat then (fadd (fst (fst x)) (tz d), snd (fst x), snd x) else x in
  let* l3 := omapM (fun i => let* s := nth_o l2 i in
                             sg_r3 exHf2 (fst s) (map (fun kx => cheat i (fst kx) (snd kx)) (combine (seq 0 2) (but i (map snd l2))))) parties in
  let* l4 := omapM (fun i => let* s := nth_o l3 i in sg_r4 exHb2 exH (fst s) (rs' i) (but i (map snd l3))) parties in
  let* s := nth_o l4 1 in
  let* _ := sg_r5 exH exHf2 (fst s) (rs' 1%nat) (but 1 (map snd l4)) in
  Ok 0%nat.
Example C24_signing_example : ex_framed 0 = Ok 0%nat /\ ex_framed 1 = Err {| me_kind := EBadPdl; me_bad := [0%nat] |}.
Proof. vm_compute. split; reflexivity. Qed.

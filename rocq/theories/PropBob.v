(** C119: what a signer learns from how its MtA answers are received. *)
From Coq Require Import ZArith Lia Bool List Field.
From Verif Require Import ZArithX Fq Curve Toy Outcome Sigma SigmaProofs Bytes Vss VssProofs Paillier PaillierProofs RangeProofs Pdl PdlSlack Mta MtaProofs Ecdsa Mp MpProofs Gg20Keygen KeygenRun KeygenRunProofs Gg20Sign SignRun SignProofs SignRunProofs Stores RoundSM SmSpec SmProofs SignSM SmSim SmTheory SmFacts SmTags SmCauseSg Network NetProofs NetSim PropRange PropCommit PropKeygen PropMta PropSign PropSignChecks PropSM PropNetwork PropSgPanic PropNonce PropReplay.
Import ListNotations.
Local Open Scope Z_scope.

(** An answer is kept by both versions of the check, or refused by both. *)
Definition answer_kept {C : Curve} (Hf : hashF C) (m : msg_b C) p1 p2 (a b beta : Fq (cq C)) : Prop :=
  exists alpha sh, verify_get_alpha Hf m p1 p2 a = Ok (alpha, sh) /\ verify_get_alpha_gg18 Hf m p1 p2 a = Ok alpha /\ (alpha + beta = a * b)%Fq.
Definition answer_refused {C : Curve} (Hf : hashF C) (m : msg_b C) p1 p2 (a : Fq (cq C)) : Prop :=
  verify_get_alpha Hf m p1 p2 a = Err InvalidKey /\ verify_get_alpha_gg18 Hf m p1 p2 a = Err InvalidKey.

(** With beta_tag at least q^2 below the modulus every secret of the asker gives the same verdict: the answer is kept. *)
Theorem C119_small_beta_reveals_nothing : forall (C : Curve) (Hz : hashZ C) (Hf : hashF C) p1 p2 (a b : Fq (cq C)) rA sts r bt t1 t2 m beta,
  good_key p1 p2 -> Z.gcd rA (p1 * p2) = 1 -> Z.gcd r (p1 * p2) = 1 -> 0 <= bt -> (cq C - 1) * to_Z b + bt < p1 * p2 ->
  mta_b Hz Hf b (p1 * p2) (mta_a Hz a (p1 * p2) rA sts) r bt (map fst sts) t1 t2 = Ok (m, beta) ->
  answer_kept Hf m p1 p2 a b beta.
Proof.
  intros C Hz Hf p1 p2 a b rA sts r bt t1 t2 m beta K GA GR B L E.
  pose proof (to_Z_range (cq_prime C) a) as Ra. pose proof (to_Z_range (cq_prime C) b) as Rb.
  destruct (C30_mta_correct C Hz Hf p1 p2 a b rA sts r bt t1 t2 m beta K GA GR B E) as (alpha & V & V' & S); [nia|].
  exists alpha, (to_Z a * to_Z b + bt). auto.
Qed.
Print Assumptions C119_small_beta_reveals_nothing.

(** But nothing bounds beta_tag (MessageB carries no range proof, and the code of BobProof is not called).  For every T the answering side
    has a value, below the modulus like those that MessageB::b samples, with which it can answer whenever it can answer at all, and its answer is kept exactly
    when the asker's secret is below T; when it is kept, the shares are the right ones. *)
Theorem C119_answer_tests_secret_refuted : forall (C : Curve) (Hz : hashZ C) (Hf : hashF C) p1 p2 (b : Fq (cq C)) r T t1 t2,
  good_key p1 p2 -> p1 <> cq C -> p2 <> cq C -> cq C * cq C <= p1 * p2 -> Z.gcd r (p1 * p2) = 1 -> b <> f0 -> 0 < T <= cq C ->
  exists bt, 0 <= bt < p1 * p2 /\
  forall (a : Fq (cq C)) rA sts, Z.gcd rA (p1 * p2) = 1 ->
  (exists r0 bt0 x, mta_b Hz Hf b (p1 * p2) (mta_a Hz a (p1 * p2) rA sts) r0 bt0 (map fst sts) t1 t2 = Ok x) ->
  exists m beta, mta_b Hz Hf b (p1 * p2) (mta_a Hz a (p1 * p2) rA sts) r bt (map fst sts) t1 t2 = Ok (m, beta) /\
  (to_Z a < T -> answer_kept Hf m p1 p2 a b beta) /\ (T <= to_Z a -> answer_refused Hf m p1 p2 a).
Proof.
  intros C Hz Hf p1 p2 b r T t1 t2 K N1 N2 NQ GR B0 HT. pose proof (to_Z_range (cq_prime C) b) as Rb.
  assert (BP : 0 < to_Z b). { assert (to_Z b <> 0); [|lia]. intros E. apply B0, fq_ext. rewrite to_Z_0; exact E. }
  assert (TB : 0 < T * to_Z b) by nia. assert (TN : T * to_Z b <= cq C * cq C) by (apply Z.mul_le_mono_nonneg; lia). pose proof (cq_prime C) as PQ. apply Znumtheory.prime_ge_2 in PQ.
  exists (p1 * p2 - T * to_Z b). split; [lia|]. intros a rA sts GA (r0 & bt0 & [m0 beta0] & E0).
  destruct (mta_b_ok C Hz Hf b _ _ _ _ _ _ _ _ _ E0) as (E1 & E2 & _). destruct (mta_b_accept C Hz Hf b (p1 * p2) (mta_a Hz a (p1 * p2) rA sts) r (p1 * p2 - T * to_Z b) (map fst sts) t1 t2 E1 E2) as (m & beta & E). exists m, beta. split; [exact E|]. pose proof (to_Z_range (cq_prime C) a) as Ra. split; intros L.
  - destruct (C30_mta_correct C Hz Hf p1 p2 a b rA sts r (p1 * p2 - T * to_Z b) t1 t2 m beta K GA GR ltac:(lia) E) as (alpha & V & V' & S); [nia|].
    exists alpha, (to_Z a * to_Z b + (p1 * p2 - T * to_Z b)). auto.
  - apply (C30_mta_wrap_is_error C Hz Hf p1 p2 a b rA sts r (p1 * p2 - T * to_Z b) t1 t2 m beta K N1 N2 ltac:(nia) GA GR ltac:(lia) E). assert (T * to_Z b <= to_Z a * to_Z b) by (apply Z.mul_le_mono_nonneg_r; lia). lia.
Qed.
Print Assumptions C119_answer_tests_secret_refuted.

(** ** GG20 signing *)
Section Sg.
Context (C : Curve).
Context (Hb : list Z -> Z) (Hz : hashZ C) (Hf : hashF C).
Notation hist := (sg_hist C Hb Hz Hf).
Notation got := (SmSpec.got (sg_of C) sg_p2p).
Notation q := (cq C).
Notation F := (Fq (cq C)).
Add Field cfbob : (C_field C).
Lemma ok_refused (m : msg_b C) p1 p2 a : answer_ok Hf m p1 p2 a -> ~ answer_refused Hf m p1 p2 a.
Proof.
  intros (V1 & V2 & V3) [R _]. unfold verify_get_alpha in R. rewrite V1, V2, <- V3, (pt_eqb_refl C) in R. discriminate.
Qed.
(** Whatever the other messages are: a machine that finishes on such an answer to its own round-1 message, for gamma or for w, has its nonce share below the bound that peer chose. *)
Theorem C119_finished_machine_below_bound rd i sl lk h s rs c j g w : hist rd i sl lk h s rs -> picks rs = [c] -> In j (peers i (length sl)) -> got i h 2 j = Some (SM2 (g, w)) ->
  let p1 := lk_p1 lk in let p2 := lk_p2 lk in
  good_key p1 p2 -> p1 <> q -> p2 <> q -> q * q <= p1 * p2 -> Z.gcd (sr_r rd) (p1 * p2) = 1 ->
  forall (b : F) r T t1 t2 sts beta, Z.gcd r (p1 * p2) = 1 -> b <> f0 -> 0 < T <= q ->
  mta_b Hz Hf b (p1 * p2) (mta_a Hz (sr_k rd) (p1 * p2) (sr_r rd) sts) r (p1 * p2 - T * to_Z b) (map fst sts) t1 t2 = Ok (g, beta) \/
  mta_b Hz Hf b (p1 * p2) (mta_a Hz (sr_k rd) (p1 * p2) (sr_r rd) sts) r (p1 * p2 - T * to_Z b) (map fst sts) t1 t2 = Ok (w, beta) ->
  to_Z (sr_k rd) < T.
Proof.
  intros H PK J G p1 p2 K N1 N2 NQ GA b r T t1 t2 sts beta GR B0 HT E.
  destruct (finished2 C Hb Hz Hf rd i sl lk h s rs c j _ H PK J G) as (g0 & w0 & EQ & A1 & A2). injection EQ as <- <-.
  destruct (Z_lt_le_dec (to_Z (sr_k rd)) T) as [L|L]; [exact L|exfalso].
  pose proof (to_Z_range (cq_prime C) b) as Rb. pose proof (to_Z_range (cq_prime C) (sr_k rd)) as Ra.
  assert (BP : 0 < to_Z b). { assert (to_Z b <> 0); [|lia]. intros EB. apply B0, fq_ext. rewrite to_Z_0; exact EB. }
  assert (TB : 0 < T * to_Z b) by nia. assert (TN : T * to_Z b <= cq C * cq C) by (apply Z.mul_le_mono_nonneg; lia). pose proof (cq_prime C) as PQ. apply Znumtheory.prime_ge_2 in PQ.
  destruct E as [E|E]; apply (C30_mta_wrap_is_error C Hz Hf p1 p2 (sr_k rd) b (sr_r rd) sts r (p1 * p2 - T * to_Z b) t1 t2 _ beta K N1 N2 ltac:(nia) GA GR ltac:(lia)) in E; try (assert (T * to_Z b <= to_Z (sr_k rd) * to_Z b) by (apply Z.mul_le_mono_nonneg_r; lia); lia).
  - exact (ok_refused _ _ _ _ A1 E).
  - exact (ok_refused _ _ _ _ A2 E).
Qed.

(** The signer in place j samples this value for the answer with its gamma to the signer in place i; everything else is unchanged. *)
Definition probe (lks : nat -> local_key C) (rs : nat -> sign_rand C) (j i : nat) (T : Z) (p : nat) : sign_rand C :=
  let r := rs p in if Nat.eqb p j then
    {| sr_gamma := sr_gamma r; sr_k := sr_k r; sr_blind := sr_blind r; sr_r := sr_r r; sr_ar := sr_ar r;
       sr_bg := fun id => if Nat.eqb id i then {| br_r := br_r (sr_bg r id); br_bt := s_N C lks i - T * to_Z (sr_gamma r); br_t1 := br_t1 (sr_bg r id); br_t2 := br_t2 (sr_bg r id) |} else sr_bg r id;
       sr_bw := sr_bw r; sr_l := sr_l r; sr_p1 := sr_p1 r; sr_p2 := sr_p2 r; sr_pdl := sr_pdl r; sr_h1 := sr_h1 r; sr_h2 := sr_h2 r |}
  else r.
Lemma probe_same lks rs j i T p : sr_k (probe lks rs j i T p) = sr_k (rs p) /\ sr_gamma (probe lks rs j i T p) = sr_gamma (rs p) /\ sr_r (probe lks rs j i T p) = sr_r (rs p) /\ sr_ar (probe lks rs j i T p) = sr_ar (rs p) /\
  sr_pdl (probe lks rs j i T p) = sr_pdl (rs p) /\ sr_bw (probe lks rs j i T p) = sr_bw (rs p).
Proof. unfold probe. cbv zeta. destruct (Nat.eqb p j); repeat split; reflexivity. Qed.
Lemma probe_ok n f Ns dls sl lks rs j i T : signers_ok n f Ns dls sl lks -> sign_rand_ok Hz dls sl lks rs -> (i < length sl)%nat -> (j < length sl)%nat -> i <> j ->
  sr_gamma (rs j) <> f0 -> q * q <= s_N C lks i -> T <= q -> to_Z (sr_k (rs i)) < T -> sign_rand_ok Hz dls sl lks (probe lks rs j i T).
Proof.
  intros KO (RO & K0 & G0) I J NE GN NQ HT L. set (rs' := probe lks rs j i T).
  assert (SK : forall p, s_k C rs' p = s_k C rs p) by (intros p; apply probe_same). assert (SG : forall p, s_g C rs' p = s_g C rs p) by (intros p; apply probe_same).
  split; [|split].
  2:{ intros Z. apply K0. rewrite <- Z. unfold s_ksum. f_equal. apply map_ext. intros p. symmetry. apply SK. }
  2:{ intros Z. apply G0. rewrite <- Z. unfold s_gsum. f_equal. apply map_ext. intros p. symmetry. apply SG. }
  intros p P. destruct (RO p P) as (R1 & R2 & R3 & R4 & R5). destruct (probe_same lks rs j i T p) as (E1 & E2 & E3 & E4 & E5 & E6). fold rs' in E1, E2, E3, E4, E5, E6.
  rewrite E3, E4, E5, E6. split; [exact R1|]. split; [exact R2|]. split; [exact R3|]. split.
  - unfold s_ma. rewrite SK, E3, E4. exact R4.
  - intros id D N. destruct (R5 id D N) as (B1 & B2). rewrite SK, SG. split; [|exact B2].
    unfold rs', probe. cbv zeta. destruct (Nat.eqb_spec p j) as [->|]; [|exact B1]. cbn [sr_bg]. destruct (Nat.eqb_spec id i) as [->|]; [|exact B1].
    destruct B1 as (C1 & _ & _). cbn [br_r br_bt]. split; [exact C1|]. cbn [br_bt].
    pose proof (to_Z_range (cq_prime C) (sr_gamma (rs j))) as Rg. pose proof (to_Z_range (cq_prime C) (sr_k (rs i))) as Rk. unfold s_k, s_g.
    assert (0 < to_Z (sr_gamma (rs j))). { assert (to_Z (sr_gamma (rs j)) <> 0); [|lia]. intros E. apply GN, fq_ext. rewrite to_Z_0; exact E. }
    assert (T * to_Z (sr_gamma (rs j)) <= cq C * cq C) by (apply Z.mul_le_mono_nonneg; lia). split; [lia|nia].
Qed.
(** When the nonce share of i is below T the offline stage is otherwise undisturbed: every signer finishes, with the nonce point it has without the probe. *)
Theorem C119_probe_leaves_run_intact n f Ns dls sl lks rs j i T : (forall l, 0 <= Hz l) -> signers_ok n f Ns dls sl lks -> sign_rand_ok Hz dls sl lks rs -> (i < length sl)%nat -> (j < length sl)%nat -> i <> j ->
  sr_gamma (rs j) <> f0 -> q * q <= s_N C lks i -> T <= q -> to_Z (sr_k (rs i)) < T ->
  exists cs cs', sg_run C Hb Hz Hf sl lks rs = Ok cs /\ sg_run C Hb Hz Hf sl lks (probe lks rs j i T) = Ok cs' /\ length cs' = length sl /\ map co_R cs' = map co_R cs /\
  forall m x, fadd (of_Z q m) (fmul (of_Z q x) (hd f0 f)) <> f0 -> (forall c, In c cs' -> x_coord (co_R c) = Some x) -> sign_outputs_ok (smul (hd f0 f) gen) m x cs'.
Proof.
  intros HH KO RO I J NE GN NQ HT L. pose proof (probe_ok n f Ns dls sl lks rs j i T KO RO I J NE GN NQ HT L) as RO'.
  destruct (offline_result C Hb Hz Hf n f Ns dls sl lks rs HH KO RO) as (R & x & y & cs & A1 & A2 & A3 & A4 & _ & A6).
  destruct (offline_result C Hb Hz Hf n f Ns dls sl lks _ HH KO RO') as (R' & x' & y' & cs' & B1 & B2 & B3 & B4 & B5 & B6).
  assert (K0 : fsum (map (fun p => sr_k (rs p)) (seq 0 (length sl))) <> f0) by exact (proj1 (proj2 RO)).
  assert (EK : fsum (map (fun p => sr_k (probe lks rs j i T p)) (seq 0 (length sl))) = fsum (map (fun p => sr_k (rs p)) (seq 0 (length sl)))) by (f_equal; apply map_ext; intros p; apply probe_same).
  rewrite EK in B1. assert (ER : R' = R).
  { assert (INV : forall P : pt C, smul (fsum (map (fun p => sr_k (rs p)) (seq 0 (length sl)))) P = gen -> P = smul (finv (fsum (map (fun p => sr_k (rs p)) (seq 0 (length sl))))) gen).
    { intros P EP. rewrite <- EP, smul_smul, (finv_l (cq_prime C)) by exact K0. symmetry. apply smul_1. }
    rewrite (INV _ A1), (INV _ B1). reflexivity. }
  exists cs, cs'. split; [exact A6|]. split; [exact B6|]. split; [exact B3|]. split.
  - assert (AL : forall (l : list (completed C)) (P : pt C), (forall c, In c l -> co_R c = P) -> map co_R l = repeat P (length l)).
    { clear. induction l as [|c l IH]; intros P H; [reflexivity|]. cbn. rewrite (H c (or_introl eq_refl)), (IH P); [reflexivity|]. intros d D. apply H. right. exact D. }
    rewrite (AL _ _ A4), (AL _ _ B4), ER, A3, B3. reflexivity.
  - intros m x0 NZ X. assert (x0 = x'); [|subst; apply B5; exact NZ].
    destruct cs' as [|c cs']; [cbn in B3; lia|]. specialize (X c (or_introl eq_refl)). rewrite (B4 c (or_introl eq_refl)) in X. unfold x_coord in X. rewrite B2 in X. cbn in X. congruence.
Qed.
End Sg.
Print Assumptions C119_finished_machine_below_bound.
Print Assumptions C119_probe_leaves_run_intact.

(** ** Examples *)
(** k = 5 and k = 6 against an answer with b = 7 made for T = 6; the modulus is 37 * 41. *)
Definition exprobe (a b T : Z) : list Z :=
  match mta_b exH exHf (tz b) 1517 (mta_a exH (tz a) 1517 5 [(exst, exar)]) 3 (1517 - T * b) [exst] (tz 8) (tz 9) with
  | Ok (m, beta) => match verify_get_alpha exHf m 37 41 (tz a) with Ok (alpha, sh) => [1; to_Z (alpha + beta)%Fq] | Err _ => [2] | Panic => [3] end
  | Err _ => [4] | Panic => [5] end.
Example C119_example : map (fun a => exprobe a 7 6) [0; 5; 6; 30] = [[1; 0]; [1; 35 mod 31]; [2]; [2]] /\
  good_key 37 41 /\ 37 <> cq toy /\ 41 <> cq toy /\ cq toy * cq toy <= 37 * 41 /\ Z.gcd 3 (37 * 41) = 1 /\ (tz 7 : Fq (cq toy)) <> f0 /\ 0 < 6 <= cq toy.
Proof.
  split; [vm_compute; reflexivity|]. split; [exact (exlk_good 0 ltac:(lia))|]. repeat (split; [cbn; lia|]). split; [|cbn; lia]. intros E. apply (f_equal to_Z) in E. vm_compute in E. discriminate.
Qed.
(** The run of C33_example (k = 4 and 12): the second signer probes the first.  With T = 5 everybody finishes, with T = 4 nobody does. *)
Example C119_example_run :
  map (fun T => match sg_run toy exHb2 exH exHf2 [3; 1]%nat exlks (probe toy exlks exsrs 1 0 T) with Ok cs => map co_obs cs | _ => [] end) [4; 5] = [[]; [(2, 18, 14); (2, 18, 4)]] /\
  sr_gamma (exsrs 1) <> f0 /\ cq toy * cq toy <= s_N toy exlks 0 /\ 5 <= cq toy /\ to_Z (sr_k (exsrs 0)) < 5.
Proof.
  split; [vm_compute; reflexivity|]. split; [intros E; apply (f_equal to_Z) in E; vm_compute in E; discriminate|]. cbn. lia.
Qed.
Local Open Scope nat_scope.
Definition exq (T : Z) (p : nat) : sign_rand toy := probe toy exlks exsrs 1 0 T p.
Definition exhistq (T : Z) (p : nat) : list (op (sg_msg toy)) :=
  match omapM (fun i => sg_new (S i) [3; 1] (exlks i)) (seq 0 2) with
  | Ok sts => ops_of p (snd (net_exec (fun i => sg_op toy exHb2 exH exHf2 (exq T (i - 1))) {| nt_st := sts; nt_wire := [] |} (concat (repeat exsturn 6) ++ [NProceed 2; NProceed 1]))) ++ [Pick]
  | _ => []
  end.
Definition exstq : sg_sm toy := match sg_new 1 [3; 1] (exlks 0) with Ok s0 => s0 | _ => sg_start toy 1 [3; 1] (exlks 0) end.
Definition exrunq (T : Z) := run_ops (sg_op toy exHb2 exH exHf2 (exq T 0)) exstq (exhistq T 1).
(** An answer in numbers *)
Definition obs_mb (m : msg_b toy) : Z * list Z := (mb_c m, flat_map (fun p => [to_Z (dlog (dp_pk p)); to_Z (dlog (dp_t p)); to_Z (dp_z p)]) [mb_b m; mb_bt m]).
Lemma obs_mb_inj a b : obs_mb a = obs_mb b -> a = b.
Proof.
  destruct a as [c [x1 x2 x3] [y1 y2 y3]], b as [c' [x1' x2' x3'] [y1' y2' y3']]. unfold obs_mb. cbn [mb_c mb_b mb_bt flat_map app dp_pk dp_t dp_z]. intros E. injection E as E0 E1 E2 E3 E4 E5 E6.
  f_equal; [exact E0| |]; f_equal; try (apply dlog_inj); apply fq_ext; assumption.
Qed.
Definition exstsq : list (dlstmt * arand) := combine (lk_dl (exlks 0)) (map (sr_ar (exsrs 0)) (seq 0 3)).
Definition exmb : option (msg_b toy) := match mta_b exH exHf2 (tz 3) 3127 (mta_a exH (sr_k (exq 5 0)) 3127 (sr_r (exq 5 0)) exstsq) 6 (3127 - 5 * 3) (map fst exstsq) (tz 8) (tz 9) with Ok (m, _) => Some m | _ => None end.
Example C119_example_machine : map (fun T => length (picks (snd (exrunq T)))) [4; 5]%Z = [0; 1].
Proof. vm_compute. reflexivity. Qed.
Definition exgotq : option (sg_msg toy) := SmSpec.got (sg_of toy) sg_p2p 1 (exhistq 5 1) 2 2.
(** Two answers with the same numbers are the same. *)
Definition same_mb (x : option (sg_msg toy)) (y : option (msg_b toy)) : bool :=
  match x, y with
  | Some (SM2 (g, w)), Some m => (fst (obs_mb g) =? fst (obs_mb m))%Z && (if list_eq_dec Z.eq_dec (snd (obs_mb g)) (snd (obs_mb m)) then true else false)
  | _, _ => false
  end.
Lemma same_mb_ok x y : same_mb x y = true -> exists g w, x = Some (SM2 (g, w)) /\ y = Some g.
Proof.
  destruct x as [[x|[g w]|x|x|x|x]|], y as [m|]; cbn [same_mb]; try discriminate. intros E. apply andb_true_iff in E. destruct E as [E1 E2]. apply Z.eqb_eq in E1.
  destruct (list_eq_dec Z.eq_dec (snd (obs_mb g)) (snd (obs_mb m))) as [E3|]; [|discriminate E2]. exists g, w. split; [reflexivity|]. f_equal. symmetry. apply obs_mb_inj.
  destruct (obs_mb g), (obs_mb m). cbn [fst snd] in E1, E3. congruence.
Qed.
Lemma first_of {E A B} (o : outcome E (A * B)) g : match o with Ok (m, _) => Some m | _ => None end = Some g -> exists beta, o = Ok (g, beta).
Proof. destruct o as [[m beta]| |]; intros H; try discriminate H. injection H as ->. exists beta. reflexivity. Qed.
Lemma one_of {A} (l : list A) : (length l =? 1) = true -> exists c, l = [c].
Proof. destruct l as [|c [|]]; intros H; try discriminate H. exists c. reflexivity. Qed.
Lemma started {E A} (o : outcome E A) d : match o with Ok _ => true | _ => false end = true -> o = Ok (match o with Ok s0 => s0 | _ => d end).
Proof. destruct o; intros H; try discriminate H. reflexivity. Qed.
(** The machine of the first signer in the run with T = 5 meets the hypotheses of C119_finished_machine_below_bound. *)
Example C119_example_machine_hypotheses : exists s rs c g w beta,
  sg_hist toy exHb2 exH exHf2 (exq 5 0) 1 [3; 1] (exlks 0) (exhistq 5 1) s rs /\ picks rs = [c] /\ In 2 (peers 1 2) /\ SmSpec.got (sg_of toy) sg_p2p 1 (exhistq 5 1) 2 2 = Some (SM2 (g, w)) /\
  mta_b exH exHf2 (tz 3) 3127 (mta_a exH (sr_k (exq 5 0)) 3127 (sr_r (exq 5 0)) exstsq) 6 (3127 - 5 * 3)%Z (map fst exstsq) (tz 8) (tz 9) = Ok (g, beta).
Proof.
  assert (L1 : (length (picks (snd (exrunq 5))) =? 1) = true) by (vm_compute; reflexivity). apply one_of in L1. destruct L1 as [c PK].
  assert (L2 : same_mb exgotq exmb = true) by (vm_compute; reflexivity). apply same_mb_ok in L2. destruct L2 as (g & w & G & M). apply first_of in M. destruct M as [beta MB].
  exists (fst (exrunq 5)), (snd (exrunq 5)), c, g, w, beta. split.
  - exists exstq. split; [unfold exstq; apply started; vm_compute; reflexivity|unfold exrunq; destruct (run_ops _ _ _); reflexivity].
  - split; [exact PK|]. split; [left; reflexivity|]. split; [exact G|exact MB].
Qed.

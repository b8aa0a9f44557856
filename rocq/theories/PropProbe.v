(** C117: what the success or failure of a two-party signature tells party two about party one's share. *)
From Coq Require Import ZArith Znumtheory Lia Bool List Field.
From Verif Require Import PropTwoParty ZArithX Fq Curve Toy Outcome Sigma SigmaProofs Bytes Ecdsa EcdsaProofs Paillier PaillierProofs
  RangeProofs RangeProofsProofs PdlSlack PdlSlackProofs Mta MtaProofs TwoParty TwoPartyProofs.
Import ListNotations.
Local Open Scope Z_scope.

Section Probe.
Context (C : Curve).
Notation q := (cq C).
Notation F := (Fq q).
Add Field cfprobe : (C_field C).

Lemma fq_dec (a b : F) : a = b \/ a <> b.
Proof. destruct (Fq_eq_dec a b); auto. Qed.
Lemma low_of (s : F) : of_Z q (Z.min (to_Z s) (q - to_Z s)) = s \/ of_Z q (Z.min (to_Z s) (q - to_Z s)) = fopp s.
Proof.
  destruct (Z.min_spec (to_Z s) (q - to_Z s)) as [[_ ->]|[_ ->]]; [left; apply of_Z_to_Z|right]. rewrite of_Z_sub, of_Z_q, of_Z_to_Z. ring.
Qed.
Lemma low_lt (s : F) : s <> f0 -> Z.min (to_Z s) (q - to_Z s) < q - Z.min (to_Z s) (q - to_Z s).
Proof. intros N. destruct (q_is_odd C) as [k Hk]. pose proof (nz_range C s N). lia. Qed.
Lemma x_pm (R : pt C) x y : coords R = Some (x, y) -> forall P, x_coord P = Some x <-> P = R \/ P = pneg R.
Proof.
  intros HR P. split.
  - unfold x_coord. destruct (coords P) as [[x' y']|] eqn:E; [|discriminate]. cbn. intros Q. injection Q as ->. exact (coords_same_x C R P x y y' HR E).
  - intros [->| ->]; unfold x_coord; [rewrite HR|rewrite (coords_neg C _ _ _ HR)]; reflexivity.
Qed.
(** Which value makes the verification succeed: the right one or its opposite *)
Lemma accept_iff (k1 k2 X s : F) m x y : k1 <> f0 -> k2 <> f0 -> coords (smul k1 (smul k2 (gen : pt C))) = Some (x, y) -> x < q ->
  (two_party_ok (x mod q) (Z.min (to_Z s) (q - to_Z s)) (smul X gen) m <->
   s <> f0 /\ (fmul s (fmul k1 k2) = fadd (of_Z q m) (fmul (of_Z q x) X) \/ fmul s (fmul k1 k2) = fopp (fadd (of_Z q m) (fmul (of_Z q x) X)))).
Proof.
  intros N1 N2 HR XQ. pose proof (coords_range C _ _ _ HR) as [X0 _]. set (s' := Z.min (to_Z s) (q - to_Z s)). unfold two_party_ok.
  rewrite (Z.mod_small x q) by lia. rewrite (Z.abs_eq x) by lia. rewrite (x_pm _ _ _ HR).
  assert (V : forall e, e <> f0 -> (vpoint (smul X gen) (of_Z q m) (of_Z q x) e = smul k1 (smul k2 gen) <-> fmul e (fmul k1 k2) = fadd (of_Z q m) (fmul (of_Z q x) X)) /\
     (vpoint (smul X gen) (of_Z q m) (of_Z q x) e = pneg (smul k1 (smul k2 gen)) <-> fmul e (fmul k1 k2) = fopp (fadd (of_Z q m) (fmul (of_Z q x) X)))).
  { intros e NE. rewrite !(dlog_eq_iff C). unfold vpoint. autorewrite with dlog. set (A := of_Z q m). set (B := of_Z q x).
    assert (D : fadd (fmul (fmul A (finv e)) f1) (fmul (fmul B (finv e)) (fmul X f1)) = fdiv (fadd A (fmul B X)) e) by (field; exact NE). rewrite D.
    assert (D1 : fmul k1 (fmul k2 f1) = fmul k1 k2) by ring. rewrite D1. split; split; intros E.
    - rewrite <- E. field. exact NE.
    - rewrite <- E. field. exact NE.
    - transitivity (fopp (fmul e (fopp (fmul k1 k2)))); [ring|]. rewrite <- E. field. exact NE.
    - transitivity (fdiv (fopp (fmul e (fmul k1 k2))) e); [rewrite E; field; exact NE|field; exact NE]. }
  destruct (low_of s) as [E|E]; fold s' in E; rewrite E.
  - split.
    + intros (A & _ & B). split; [exact A|]. destruct (V s A) as [V1 V2]. destruct B as [B|B]; [left; apply V1; exact B|right; apply V2; exact B].
    + intros (A & B). split; [exact A|]. split; [exact (low_lt s A)|]. destruct (V s A) as [V1 V2]. destruct B as [B|B]; [left; apply V1; exact B|right; apply V2; exact B].
  - assert (NO : fopp s <> f0 <-> s <> f0) by (split; intros N Q; apply N; [rewrite Q; ring|transitivity (fopp (fopp s)); [ring|rewrite Q; ring]]).
    assert (FO : forall a b : F, fopp a = b <-> a = fopp b) by (intros a b; split; [intros <-; ring|intros ->; ring]).
    assert (FM : fmul (fopp s) (fmul k1 k2) = fopp (fmul s (fmul k1 k2))) by ring. set (G := fadd (of_Z q m) (fmul (of_Z q x) X)) in *.
    assert (OO : fopp (fopp G) = G) by ring. split.
    + intros (A & _ & B). pose proof (proj1 NO A) as A'. split; [exact A'|]. destruct (V _ A) as [V1 V2]. rewrite FM, FO in V1, V2. rewrite OO in V2. destruct B as [B|B]; [right; apply V1; exact B|left; apply V2; exact B].
    + intros (A & B). pose proof (proj2 NO A) as A'. split; [exact A'|]. split; [exact (low_lt s A)|]. destruct (V _ A') as [V1 V2]. rewrite FM, FO in V1, V2. rewrite OO in V2. destruct B as [B|B]; [right; apply V2; exact B|left; apply V1; exact B].
Qed.

(** ** Lindell 2017 *)
Definition two : F := of_Z q 2.
(** The ciphertext a dishonest party two sends instead of PartialSig::compute's (party_two.rs:391-423), from what it knows: the public N, the encrypted
    share, its own share, R1, the message and y, the low l bits of party one's share.  h is 1/2 modulo N.  Its nonce is 2. *)
Definition probe (N c_key : Z) (x2 : F) (R1 : pt C) (m : Z) (l : nat) (y renc : Z) : option Z :=
  match x_coord (smul two R1) with
  | None => None
  | Some xc =>
      let r := xc mod q in
      let even a := if Z.odd a then a + q else a in
      let odd a := if Z.odd a then a else a + q in
      let u := even ((m + r * to_Z x2 * y) mod q) in
      let v := odd ((r * to_Z x2 * 2 ^ Z.of_nat l) mod q) in
      let h := (N + 1) / 2 in
      let hl := h ^ (Z.of_nat l + 1) in
      Some (padd_c N (pmul_c N c_key (v * hl)) (enc N ((u * h - v * y * hl) mod N) renc))
  end.
(** Party one's end of the signing: Signature::compute, then verify (party_one.rs:486-517, 567-592). *)
Definition signs (p : party1 C) (k1 : F) (Q R2 : pt C) (m c3 : Z) : bool :=
  match lindell_compute p c3 {| kp_pub := smul k1 gen; kp_sec := k1 |} R2 with
  | Ok (r, s) => match lindell_verify r s Q m with Ok _ => true | _ => false end
  | _ => false
  end.
Definition attempt (p : party1 C) (c_key : Z) (x2 k1 : F) (m : Z) (renc : Z) (l : nat) (y : Z) : bool :=
  match probe (l1_p1 p * l1_p2 p) c_key x2 (smul k1 gen) m l y renc with
  | Some c3 => signs p k1 (smul (fmul (l1_x p) x2) gen) (smul two gen) m c3
  | None => false
  end.
(** The nonces for which an attempt is decisive: all but those where s or the verification happens to hit one of three residues, or the x-coordinate is q or more. *)
Definition decisive (N : Z) (x1 x2 k1 : F) (m renc : Z) : Prop := k1 <> f0 /\ Z.gcd renc N = 1 /\
  exists x y, coords (smul k1 (smul two (gen : pt C))) = Some (x, y) /\ x < q /\
    let w := m + x * (to_Z x1 * to_Z x2) in w mod q <> 0 /\ (2 * w + N) mod q <> 0.

Lemma two_nz : two <> f0.
Proof. apply of_Z_nz. pose proof (cq_odd C). lia. Qed.
Lemma half_two N : Z.odd N = true -> (N + 1) / 2 * 2 = 1 + 1 * N.
Proof. intros O. apply Z.odd_spec in O. destruct O as [k ->]. replace (2 * k + 1 + 1) with ((k + 1) * 2) by ring. rewrite Z.div_mul by lia. ring. Qed.
Lemma pow_half N l : Z.odd N = true -> exists e, ((N + 1) / 2) ^ Z.of_nat l * 2 ^ Z.of_nat l = 1 + e * N.
Proof.
  intros O. induction l as [|l [e IH]]; [exists 0; reflexivity|]. rewrite Nat2Z.inj_succ, !Z.pow_succ_r by lia. exists (1 + e + e * N).
  transitivity (((N + 1) / 2 * 2) * (((N + 1) / 2) ^ Z.of_nat l * 2 ^ Z.of_nat l)); [ring|]. rewrite IH, (half_two N O). ring.
Qed.
(** What the probe decrypts to: half of w = u + v z, z being the rest of the share above its low l bits, when z is even; half of w + N when it is odd. *)
Lemma probe_dec p1 p2 (x1 x2 k1 : F) r m l renc x yy : good_key p1 p2 -> Z.odd (p1 * p2) = true -> q ^ 3 + q ^ 2 <= p1 * p2 -> Z.gcd r (p1 * p2) = 1 -> Z.gcd renc (p1 * p2) = 1 ->
  coords (smul k1 (smul two (gen : pt C))) = Some (x, yy) ->
  exists c3 w, probe (p1 * p2) (enc (p1 * p2) (to_Z x1) r) x2 (smul k1 gen) m l (to_Z x1 mod 2 ^ Z.of_nat l) renc = Some c3 /\
    of_Z q w = of_Z q (m + (x mod q) * (to_Z x1 * to_Z x2)) /\ Z.odd w = Z.testbit (to_Z x1) (Z.of_nat l) /\
    2 * dec p1 p2 c3 = if Z.testbit (to_Z x1) (Z.of_nat l) then w + p1 * p2 else w.
Proof.
  intros GK ON BN GR GE HR. pose proof (good_key_gt1 _ _ GK) as N1. set (N := p1 * p2) in *. set (L := Z.of_nat l). set (X1 := to_Z x1). set (y := X1 mod 2 ^ L). set (z := X1 / 2 ^ L).
  pose proof (to_Z_range (cq_prime C) x1) as RX. fold X1 in RX. pose proof (to_Z_range (cq_prime C) x2) as RX2. pose proof (cq_odd C) as Q2.
  assert (PL : 0 < 2 ^ L) by (apply Z.pow_pos_nonneg; unfold L; lia).
  assert (EX : X1 = 2 ^ L * z + y) by (apply Z.div_mod; lia). assert (RY : 0 <= y < 2 ^ L) by (apply Z.mod_pos_bound; lia).
  assert (RZ : 0 <= z < q) by (unfold z; split; [apply Z.div_pos; lia|apply Z.div_lt_upper_bound; nia]).
  assert (SY : x_coord (smul two (smul k1 (gen : pt C))) = Some x).
  { replace (smul two (smul k1 gen)) with (smul k1 (smul two (gen : pt C))) by (apply (dlog_eq_iff C); autorewrite with dlog; ring). unfold x_coord. rewrite HR. reflexivity. }
  unfold probe. rewrite SY. cbv zeta. fold L. set (rr := x mod q).
  set (u0 := (m + rr * to_Z x2 * y) mod q). set (v0 := (rr * to_Z x2 * 2 ^ L) mod q).
  assert (QO : Z.odd q = true) by (destruct (q_is_odd C) as [k Hk]; rewrite Hk; rewrite Z.odd_add, Z.odd_mul; cbn; rewrite ?andb_false_r; reflexivity).
  set (u := if Z.odd u0 then u0 + q else u0). set (v := if Z.odd v0 then v0 else v0 + q).
  assert (RU0 : 0 <= u0 < q) by (apply Z.mod_pos_bound; lia). assert (RV0 : 0 <= v0 < q) by (apply Z.mod_pos_bound; lia).
  assert (RU : 0 <= u < 2 * q /\ Z.odd u = false) by (unfold u; destruct (Z.odd u0) eqn:O; [rewrite Z.odd_add, O, QO|rewrite O]; split; try reflexivity; lia).
  assert (RV : 0 <= v < 2 * q /\ Z.odd v = true) by (unfold v; destruct (Z.odd v0) eqn:O; [rewrite O|rewrite Z.odd_add, O, QO]; split; try reflexivity; lia).
  assert (EU : of_Z q u = of_Z q (m + rr * to_Z x2 * y)) by (transitivity (of_Z q u0); [unfold u; destruct (Z.odd u0); [rewrite of_Z_add, of_Z_q; ring|reflexivity]|apply of_Z_mod]).
  assert (EV : of_Z q v = of_Z q (rr * to_Z x2 * 2 ^ L)) by (transitivity (of_Z q v0); [unfold v; destruct (Z.odd v0); [reflexivity|rewrite of_Z_add, of_Z_q; ring]|apply of_Z_mod]).
  set (w := u + v * z). set (h := (N + 1) / 2). set (hl := h ^ (L + 1)).
  eexists. exists w. split; [reflexivity|].
  assert (EW : of_Z q w = of_Z q (m + rr * (X1 * to_Z x2))).
  { unfold w. rewrite of_Z_add, of_Z_mul, EU, EV, <- of_Z_mul, <- of_Z_add. f_equal. rewrite EX. ring. }
  split; [exact EW|]. assert (OW : Z.odd w = Z.testbit X1 L).
  { unfold w. rewrite Z.odd_add, Z.odd_mul, (proj2 RU), (proj2 RV). cbn [andb xorb]. unfold z. rewrite <- Z.shiftr_div_pow2 by (unfold L; lia). rewrite <- Z.bit0_odd, Z.shiftr_spec by lia. rewrite Z.add_0_l. destruct (Z.testbit X1 L); reflexivity. }
  split; [exact OW|].
  assert (H0 : 0 <= h) by (unfold h; apply Z.div_pos; lia). assert (HL0 : 0 <= hl) by (apply Z.pow_nonneg; exact H0).
  rewrite mta_dec; [|exact GK|exact (proj1 RX)|exact (Z.mul_nonneg_nonneg _ _ (proj1 (proj1 RV)) HL0)|exact GR|exact GE]. fold N X1.
  assert (W0 : 0 <= w < N).
  { unfold w. assert (v * z <= (2 * q - 1) * (q - 1)) by (apply Z.mul_le_mono_nonneg; lia). assert (0 <= v * z) by (apply Z.mul_nonneg_nonneg; lia). assert (q ^ 3 = q * q * q) by ring. assert (q ^ 2 = q * q) by ring.
    assert (3 * (q * q) <= q * q * q) by nia. nia. }
  destruct (pow_half N l ON) as [e HE]. fold h L in HE.
  assert (MZ : (X1 * (v * hl) + (u * h - v * y * hl) mod N) mod N = (w * h) mod N).
  { rewrite Zplus_mod_idemp_r. assert (HL : hl = h * h ^ L) by (unfold hl; rewrite Z.pow_add_r, Z.pow_1_r by (unfold L; lia); ring).
    replace (X1 * (v * hl) + (u * h - v * y * hl)) with (w * h + (v * z * h * e) * N); [apply Z.mod_add; lia|].
    assert (K : v * hl * (X1 - y) = v * z * h * (1 + e * N)) by (rewrite HL, <- HE; replace (X1 - y) with (2 ^ L * z) by lia; ring). unfold w.
    replace (X1 * (v * hl) + (u * h - v * y * hl)) with (v * hl * (X1 - y) + u * h) by ring. rewrite K. ring. }
  rewrite MZ. pose proof (half_two N ON) as HT. fold h in HT. fold X1 L. rewrite <- OW. destruct (Z.odd w) eqn:PW.
  - apply Z.odd_spec in PW. destruct PW as [t ET]. assert (Q : (w * h) mod N = h + t).
    { replace (w * h) with (h + t + t * N) by (rewrite ET; replace ((2 * t + 1) * h) with (t * (h * 2) + h) by ring; rewrite HT; ring). rewrite Z.mod_add by lia. apply Z.mod_small. lia. }
    rewrite Q. lia.
  - assert (PE : Z.even w = true) by (rewrite <- Z.negb_odd, PW; reflexivity). apply Z.even_spec in PE. destruct PE as [t ET]. assert (Q : (w * h) mod N = t).
    { replace (w * h) with (t + t * N) by (rewrite ET; replace (2 * t * h) with (t * (h * 2)) by ring; rewrite HT; ring). rewrite Z.mod_add by lia. apply Z.mod_small. lia. }
    rewrite Q. lia.
Qed.

(** C117: a party two that knows the low l bits of party one's share reads the next one off the outcome of one signing attempt. *)
Theorem C117_one_attempt_one_bit p1 p2 (x1 x2 k1 : F) P1 r m l renc : good_key p1 p2 -> Z.odd (p1 * p2) = true -> q ^ 3 + q ^ 2 <= p1 * p2 -> (p1 * p2) mod q <> 0 -> Z.gcd r (p1 * p2) = 1 ->
  decisive (p1 * p2) x1 x2 k1 m renc ->
  let st := lindell_setup {| kp_pub := P1; kp_sec := x1 |} p1 p2 r in
  attempt (fst st) (snd st) x2 k1 m renc l (to_Z x1 mod 2 ^ Z.of_nat l) = negb (Z.testbit (to_Z x1) (Z.of_nat l)).
Proof.
  intros GK ON BN NQ GR (K1 & GE & x & yy & HR & XQ & W0 & W1) st. pose proof (coords_range C _ _ _ HR) as [X0 _]. assert (XM : x mod q = x) by (apply Z.mod_small; lia).
  destruct (probe_dec p1 p2 x1 x2 k1 r m l renc x yy GK ON BN GR GE HR) as (c3 & w & PR & EW & OW & DE). unfold attempt, st, lindell_setup. cbn [fst snd l1_p1 l1_p2 l1_x kp_sec]. rewrite PR.
  unfold signs, lindell_compute. cbn [kp_sec l1_p1 l1_p2]. unfold x_coord. rewrite HR. cbn [option_map fst unwrap obind]. rewrite finvert_nz by exact K1. cbn [unwrap obind].
  set (d := dec p1 p2 c3) in *. set (s := fmul (of_Z q d) (finv k1)).
  pose proof (accept_iff k1 two (fmul x1 x2) s m x yy K1 two_nz HR XQ) as AC. rewrite <- lindell_verify_ok in AC.
  assert (SK : fmul s (fmul k1 two) = of_Z q (2 * d)) by (unfold s, two; rewrite of_Z_mul; field; exact K1).
  assert (G : fadd (of_Z q m) (fmul (of_Z q x) (fmul x1 x2)) = of_Z q w).
  { rewrite EW, XM, of_Z_add, !of_Z_mul, !of_Z_to_Z. reflexivity. }
  assert (NW : of_Z q w <> f0). { rewrite EW, XM. intros Q. apply W0. apply (f_equal to_Z) in Q. rewrite to_Z_of_Z, to_Z_0 in Q. exact Q. }
  rewrite SK, G in AC. destruct (Z.testbit (to_Z x1) (Z.of_nat l)) eqn:B; cbn [negb].
  - destruct (lindell_verify _ _ _ _) as [[]|e|] eqn:V; [exfalso|reflexivity|reflexivity]. destruct (proj1 AC eq_refl) as [_ A]. rewrite DE in A.
    destruct A as [A|A].
    + apply NQ. rewrite of_Z_add in A. assert (Z0 : of_Z q (p1 * p2) = f0) by (transitivity (fsub (fadd (of_Z q w) (of_Z q (p1 * p2))) (of_Z q w)); [ring|rewrite A; ring]). apply (f_equal to_Z) in Z0. rewrite to_Z_of_Z, to_Z_0 in Z0. exact Z0.
    + apply W1. rewrite of_Z_add in A. assert (Z0 : of_Z q (2 * (m + x * (to_Z x1 * to_Z x2)) + p1 * p2) = f0).
      { rewrite XM in EW. rewrite of_Z_add, of_Z_mul, <- EW. transitivity (fadd (fadd (of_Z q w) (of_Z q (p1 * p2))) (of_Z q w)); [|rewrite A; ring]. replace (of_Z q 2) with (fadd f1 f1 : F); [ring|]. change 2 with (1 + 1). rewrite of_Z_add. reflexivity. }
      apply (f_equal to_Z) in Z0. rewrite to_Z_of_Z, to_Z_0 in Z0. exact Z0.
  - assert (SN : s <> f0). { intros Q. apply NW. rewrite <- DE, <- SK, Q. ring. }
    rewrite (proj2 AC); [reflexivity|]. split; [exact SN|left]. rewrite DE. reflexivity.
Qed.
(** The whole attack: bit by bit, from the outcomes alone *)
Fixpoint learn (ans : nat -> Z -> bool) (L : nat) : Z :=
  match L with O => 0 | S l => let y := learn ans l in if ans l y then y else y + 2 ^ Z.of_nat l end.
(** "A failed signature tells party two nothing about x1" is false: as many attempts as q has bits, each with a fresh nonce and message, give all of it. *)
Theorem C117_failures_reveal_share_refuted p1 p2 (x1 x2 : F) P1 r (k1 : nat -> F) (m renc : nat -> Z) L :
  good_key p1 p2 -> Z.odd (p1 * p2) = true -> q ^ 3 + q ^ 2 <= p1 * p2 -> (p1 * p2) mod q <> 0 -> Z.gcd r (p1 * p2) = 1 -> q <= 2 ^ Z.of_nat L ->
  (forall l, (l < L)%nat -> decisive (p1 * p2) x1 x2 (k1 l) (m l) (renc l)) ->
  let st := lindell_setup {| kp_pub := P1; kp_sec := x1 |} p1 p2 r in
  learn (fun l y => attempt (fst st) (snd st) x2 (k1 l) (m l) (renc l) l y) L = to_Z x1.
Proof.
  intros GK ON BN NQ GR QL DC st.
  assert (LE : forall l, (l <= L)%nat -> learn (fun l y => attempt (fst st) (snd st) x2 (k1 l) (m l) (renc l) l y) l = to_Z x1 mod 2 ^ Z.of_nat l).
  { induction l as [|l IH]; intros H; [cbn [learn]; change (2 ^ Z.of_nat 0) with 1; rewrite Z.mod_1_r; reflexivity|]. cbn [learn]. rewrite IH by lia.
    pose proof (C117_one_attempt_one_bit p1 p2 x1 x2 (k1 l) P1 r (m l) l (renc l) GK ON BN NQ GR (DC l ltac:(lia))) as OB. cbv zeta in OB. fold st in OB. rewrite OB.
    pose proof (to_Z_range (cq_prime C) x1) as RX. set (X := to_Z x1) in *. rewrite Nat2Z.inj_succ, Z.pow_succ_r by lia. set (T := 2 ^ Z.of_nat l). assert (T0 : 0 < T) by (apply Z.pow_pos_nonneg; lia).
    rewrite (Z.mul_comm 2 T), Z.rem_mul_r by lia. assert (B : (X / T) mod 2 = Z.b2z (Z.testbit X (Z.of_nat l))) by (rewrite Z.testbit_spec' by lia; reflexivity). rewrite B.
    destruct (Z.testbit X (Z.of_nat l)); cbn [negb Z.b2z]; lia. }
  rewrite LE by lia. apply Z.mod_small. pose proof (to_Z_range (cq_prime C) x1). lia.
Qed.

(** ** CCLST 2019 *)
(** There the plaintexts are the scalars, so a quotient is always exact.  Whatever v and u a party two evaluates on the encrypted share (x1 -> v x1 + u), the signature
    verifies for all shares (but the one with s = 0), or for at most two values of the share: an attempt does no more than try two guesses. *)
Definition cclst_signs (E : CL C) (k1 : F) (Q R2 : pt C) (m : Z) (c3 : cl_ct E) : bool :=
  match cclst_compute c3 {| kp_pub := smul k1 gen; kp_sec := k1 |} R2 with
  | Ok (r, s) => match cclst_verify r s Q m with Ok _ => true | _ => false end
  | _ => false
  end.
Lemma cclst_signs_iff (E : CL C) (k1 k2 X : F) m c3 x y : k1 <> f0 -> k2 <> f0 -> coords (smul k1 (smul k2 (gen : pt C))) = Some (x, y) -> x < q ->
  (cclst_signs E k1 (smul X gen) (smul k2 gen) m c3 = true <->
   cl_dec c3 <> f0 /\ (fmul (cl_dec c3) k2 = fadd (of_Z q m) (fmul (of_Z q x) X) \/ fmul (cl_dec c3) k2 = fopp (fadd (of_Z q m) (fmul (of_Z q x) X)))).
Proof.
  intros N1 N2 HR XQ. destruct (mod_inv_exists C k1 N1) as [k1i [Ei1 Ek1]]. unfold cclst_signs, cclst_compute. cbn [kp_sec]. unfold x_coord at 1. rewrite HR. cbn [option_map fst unwrap obind]. rewrite Ei1. cbn [unwrap obind].
  set (s := fmul (cl_dec c3) (finv k1)). assert (ES : mod_mul k1i (to_Z (cl_dec c3)) q = to_Z s).
  { transitivity (to_Z (of_Z q (mod_mul k1i (to_Z (cl_dec c3)) q))); [rewrite to_Z_of_Z; symmetry; apply Z.mod_small, mod_mul_range|]. f_equal. rewrite of_Z_mod_mul, Ek1, of_Z_to_Z. unfold s. ring. }
  rewrite ES. pose proof (accept_iff k1 k2 X s m x y N1 N2 HR XQ) as AC. rewrite <- cclst_verify_ok in AC.
  assert (SK : fmul s (fmul k1 k2) = fmul (cl_dec c3) k2) by (unfold s; field; exact N1). rewrite SK in AC.
  assert (SN : s <> f0 <-> cl_dec c3 <> f0).
  { unfold s. split; intros N Q; apply N; [rewrite Q; ring|]. transitivity (fmul (fmul (cl_dec c3) (finv k1)) k1); [field; exact N1|rewrite Q; ring]. }
  rewrite SN in AC. rewrite <- AC. destruct (cclst_verify _ _ _ _) as [[]|e|]; split; intros Q; try reflexivity; discriminate.
Qed.
Lemma line (a b : F) : (a = f0 /\ b = f0) \/ exists z, forall x, fmul a x = b -> x = z.
Proof.
  destruct (fq_dec a f0) as [->|NA].
  - destruct (fq_dec b f0) as [->|NB]; [left; auto|]. right. exists f0. intros x E. exfalso. apply NB. rewrite <- E. ring.
  - right. exists (fdiv b a). intros x <-. field. exact NA.
Qed.
Theorem C117_cclst_two_guesses (E : CL C) (x2 k1 k2 u : F) (v m r r' : Z) x y : k1 <> f0 -> k2 <> f0 -> coords (smul k1 (smul k2 (gen : pt C))) = Some (x, y) -> x < q ->
  let ok := fun x1 : F => cclst_signs E k1 (smul (fmul x1 x2) gen) (smul k2 gen) m (cl_sum (cl_enc u r') (cl_scal (cl_enc x1 r) v)) in
  (forall x1, fadd (of_Z q m) (fmul (of_Z q x) (fmul x1 x2)) <> f0 -> ok x1 = true) \/ exists a b, forall x1, ok x1 = true -> x1 = a \/ x1 = b.
Proof.
  intros N1 N2 HR XQ ok. assert (D : forall x1, cl_dec (cl_sum (cl_enc (c0 := E) u r') (cl_scal (cl_enc x1 r) v)) = fadd u (fmul (of_Z q v) x1)).
  { intros x1. rewrite cl_dec_sum, cl_dec_enc, cl_dec_scal, cl_dec_enc; [reflexivity|apply cl_enc_wf|apply cl_enc_wf|apply cl_scal_wf, cl_enc_wf]. }
  assert (A : forall x1, ok x1 = true <-> fadd u (fmul (of_Z q v) x1) <> f0 /\ (fmul (fadd u (fmul (of_Z q v) x1)) k2 = fadd (of_Z q m) (fmul (of_Z q x) (fmul x1 x2)) \/
     fmul (fadd u (fmul (of_Z q v) x1)) k2 = fopp (fadd (of_Z q m) (fmul (of_Z q x) (fmul x1 x2))))).
  { intros x1. unfold ok. rewrite (cclst_signs_iff E k1 k2 _ m _ x y N1 N2 HR XQ), D. reflexivity. }
  set (V := of_Z q v) in *. set (M := of_Z q m) in *. set (R := of_Z q x) in *.
  assert (NZ : forall x1, fadd M (fmul R (fmul x1 x2)) <> f0 -> fmul (fadd u (fmul V x1)) k2 = fadd M (fmul R (fmul x1 x2)) \/ fmul (fadd u (fmul V x1)) k2 = fopp (fadd M (fmul R (fmul x1 x2))) -> ok x1 = true).
  { intros x1 N Q. apply A. split; [|exact Q]. intros Z0. rewrite Z0 in Q. apply N. destruct Q as [Q|Q]; [rewrite <- Q; ring|]. transitivity (fopp (fopp (fadd M (fmul R (fmul x1 x2))))); [ring|rewrite <- Q; ring]. }
  destruct (line (fsub (fmul V k2) (fmul R x2)) (fsub M (fmul u k2))) as [[Z1 Z2]|[a LA]].
  - left. intros x1 N. apply NZ; [exact N|left]. transitivity (fadd (fadd (fmul u k2) (fmul (fsub (fmul V k2) (fmul R x2)) x1)) (fmul R (fmul x1 x2))); [ring|]. rewrite Z1. replace M with (fadd (fmul u k2) (fsub M (fmul u k2))) by ring. rewrite Z2. ring.
  - destruct (line (fadd (fmul V k2) (fmul R x2)) (fsub (fopp M) (fmul u k2))) as [[Z1 Z2]|[b LB]].
    + left. intros x1 N. apply NZ; [exact N|right]. transitivity (fsub (fadd (fmul u k2) (fmul (fadd (fmul V k2) (fmul R x2)) x1)) (fmul R (fmul x1 x2))); [ring|]. rewrite Z1. transitivity (fsub (fadd (fmul u k2) (fsub (fopp M) (fmul u k2))) (fmul R (fmul x1 x2))); [rewrite Z2; ring|ring].
    + right. exists a, b. intros x1 Q. apply A in Q. destruct Q as [_ [Q|Q]]; [left; apply LA|right; apply LB].
      * transitivity (fsub (fsub (fmul (fadd u (fmul V x1)) k2) (fmul R (fmul x1 x2))) (fmul u k2)); [ring|]. rewrite Q. ring.
      * transitivity (fsub (fadd (fmul (fadd u (fmul V x1)) k2) (fmul R (fmul x1 x2))) (fmul u k2)); [ring|]. rewrite Q. ring.
Qed.
End Probe.
Print Assumptions C117_one_attempt_one_bit.
Print Assumptions C117_failures_reveal_share_refuted.
Print Assumptions C117_cclst_two_guesses.

(** On the toy curve (q = 31, N = 173 * 179): five attempts give the share. *)
Definition exk (l : nat) : Fq (cq toy) := nth l [tz 1; tz 2; tz 3; tz 9; tz 11] (tz 1).
Definition exm (l : nat) : Z := nth l [22; 8; 1; 30; 17] 0.
Definition exlearn (x1 : Z) : Z := let st := lindell_setup {| kp_pub := smul (tz x1) gen; kp_sec := tz x1 |} 173 179 7 in
  learn (fun l y => attempt toy (fst st) (snd st) (tz 9) (exk l) (exm l) (11 + Z.of_nat l) l y) 5.
Lemma ex_decisive l : (l < 5)%nat -> decisive toy (173 * 179) (tz 26) (tz 9) (exk l) (exm l) (11 + Z.of_nat l).
Proof.
  intros H. assert (D : forall k m r x y, to_Z (tz k) <> 0 -> Z.gcd r (173 * 179) = 1 -> coords (smul (tz k) (smul (two toy) (gen : pt toy))) = Some (x, y) -> (x <? 31) = true ->
    ((m + x * (26 * 9)) mod 31 =? 0) = false -> ((2 * (m + x * (26 * 9)) + 173 * 179) mod 31 =? 0) = false -> decisive toy (173 * 179) (tz 26) (tz 9) (tz k) m r).
  { intros k m r x y N G HC X1 X2 X3. split; [intros E; apply N; rewrite E; reflexivity|]. split; [exact G|]. exists x, y. apply Z.ltb_lt in X1. apply Z.eqb_neq in X2, X3. repeat split; assumption. }
  destruct l as [|[|[|[|[|l]]]]]; try lia; (eapply D; [discriminate|reflexivity|vm_compute; reflexivity|reflexivity|reflexivity|reflexivity]).
Qed.
Example C117_example_theorem : exlearn 26 = 26.
Proof. apply (C117_failures_reveal_share_refuted toy 173 179 (tz 26) (tz 9) (smul (tz 26) gen) 7 exk exm (fun l => 11 + Z.of_nat l) 5); [exact key_l|reflexivity|vm_compute; discriminate|vm_compute; discriminate|reflexivity|vm_compute; discriminate|exact ex_decisive]. Qed.
(** The same by evaluation, for a few shares *)
Example C117_example_run : map exlearn [1; 7; 18; 25; 29] = [1; 7; 18; 25; 29].
Proof. vm_compute. reflexivity. Qed.
(** CCLST, party two's secret 9, nonces 1 and 2, message 22: the honest coefficients are accepted whatever the share; others for at most two shares. *)
Definition exsigns (u v x1 : Z) : bool :=
  cclst_signs toy (linear_CL toy (tz 3)) (tz 1) (smul (fmul (tz x1) (tz 9)) gen) (smul (tz 2) gen) 22 (cl_sum (cl_enc (tz u) 5) (cl_scal (cl_enc (tz x1) 6) v)).
Example C117_example_cclst : filter (fun x1 => negb (exsigns 11 16 x1)) (map Z.of_nat (seq 1 30)) = [9] /\ filter (exsigns 10 5) (map Z.of_nat (seq 1 30)) = [14; 30] /\
  coords (smul (tz 1) (smul (tz 2) (gen : pt toy))) = Some (7, 7).
Proof. vm_compute. repeat split; reflexivity. Qed.

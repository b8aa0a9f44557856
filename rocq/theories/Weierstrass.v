(** The affine group law of y^2 = x^3 + b over a prime field: the textbook chord
    and tangent formulas form a commutative group.  curv's [Point<Secp256k1>]
    wraps the k256/secp256k1 crates, which compute these formulas in projective
    coordinates; the crates themselves are not modelled. *)
From Coq Require Import ZArith Znumtheory Lia Bool Field Eqdep_dec List.
From Verif Require Import ZArithX Fq.
Import ListNotations.
Local Open Scope Z_scope.

Inductive apoint (p : Z) : Type :=
| Inf : apoint p
| Aff : Fq p -> Fq p -> apoint p.
Arguments Inf {p}.
Arguments Aff {p} _ _.

Section W.
Context (p : Z) (b : Fq p).
Notation F := (Fq p).
Local Open Scope Fq_scope.

Definition oncurveb (P : apoint p) : bool :=
  match P with Inf => true | Aff x y => feqb (y * y) (x * x * x + b) end.
Definition f2 : F := f1 + f1.
Definition f3 : F := f1 + f1 + f1.
Definition finish (l x1 y1 x2 : F) : apoint p :=
  let x3 := l * l - x1 - x2 in Aff x3 (l * (x1 - x3) - y1).
(** Chord and tangent. *)
Definition aadd (P Q : apoint p) : apoint p :=
  match P, Q with
  | Inf, _ => Q
  | _, Inf => P
  | Aff x1 y1, Aff x2 y2 =>
      if feqb x1 x2 then
        if feqb y1 (fopp y2) then Inf
        else finish (f3 * x1 * x1 * finv (f2 * y1)) x1 y1 x2
      else finish ((y1 - y2) * finv (x1 - x2)) x1 y1 x2
  end.
Definition aneg (P : apoint p) : apoint p :=
  match P with Inf => Inf | Aff x y => Aff x (fopp y) end.
End W.
Arguments aadd {p} _ _.
Arguments aneg {p} _.

Section Laws.
Context (p : Z) (pp : prime p) (p3 : 3 < p) (b : Fq p) (b0 : b <> f0).
Notation F := (Fq p).
Local Open Scope Fq_scope.
Add Field ff : (fq_field pp).

Definition oc (P : apoint p) : Prop := oncurveb p b P = true.
Lemma oc_aff x y : oc (Aff x y) <-> y * y = x * x * x + b.
Proof. unfold oc. cbn. apply feqb_eq. Qed.

Lemma small_nz k : (0 < k < p)%Z -> of_Z p k <> f0.
Proof. intros H E. apply (f_equal to_Z) in E. unfold f0 in E. rewrite !to_Z_of_Z, Z.mod_small, Z.mod_0_l in E by lia. lia. Qed.
Lemma f2_nz : f2 p <> f0.
Proof. unfold f2, f1. rewrite <- of_Z_add. apply small_nz. lia. Qed.
Lemma f3_nz : f3 p <> f0.
Proof. unfold f3, f1. rewrite <- !of_Z_add. apply small_nz. lia. Qed.

Lemma lin (a c : F) : a - c = f0 -> a = c.
Proof. intros H. replace a with (a - c + c) by ring. rewrite H. ring. Qed.
Lemma cancel (d a c : F) : d <> f0 -> d * a = d * c -> a = c.
Proof. intros D H. apply lin. destruct (fmul_integral pp d (a - c)) as [E|E]; [replace (d * (a - c)) with (d * a - d * c) by ring; rewrite H; ring|contradiction|exact E]. Qed.
Lemma sub_nz (a c : F) : a <> c -> a - c <> f0.
Proof. intros H E. apply H, lin, E. Qed.
Lemma cancel0 (d a : F) : d <> f0 -> d * a = f0 -> a = f0.
Proof. intros D H. apply (cancel d); [exact D|]. rewrite H. ring. Qed.

(** [l] is the slope of the line through two points. *)
Definition Sl (x1 y1 x2 y2 l : F) : Prop :=
  y1 - y2 = l * (x1 - x2) /\ l * (y1 + y2) = x1 * x1 + x1 * x2 + x2 * x2.

Lemma sl_sym x1 y1 x2 y2 l : Sl x1 y1 x2 y2 l -> Sl x2 y2 x1 y1 l.
Proof.
  intros (A & B). split.
  - replace (y2 - y1) with (fopp (y1 - y2)) by ring. rewrite A. ring.
  - replace (y2 + y1) with (y1 + y2) by ring. rewrite B. ring.
Qed.

Lemma same_x x1 y1 y2 : oc (Aff x1 y1) -> oc (Aff x1 y2) -> y1 = y2 \/ y1 = fopp y2.
Proof.
  rewrite !oc_aff. intros A B. destruct (fmul_integral pp (y1 - y2) (y1 + y2)) as [E|E].
  - replace ((y1 - y2) * (y1 + y2)) with (y1 * y1 - y2 * y2) by ring. rewrite A, B. ring.
  - left. apply lin, E.
  - right. apply lin. rewrite <- E. ring.
Qed.

Lemma sl_not_opp x y l : oc (Aff x y) -> ~ Sl x y x (fopp y) l.
Proof.
  rewrite oc_aff. intros O (A & B).
  assert (Y : y = f0). { apply (cancel0 (f2 p)); [apply f2_nz|]. unfold f2. transitivity (y - fopp y); [ring|]. rewrite A. ring. }
  assert (X : x * x = f0). { apply (cancel0 (f3 p)); [apply f3_nz|]. unfold f3. transitivity (x * x + x * x + x * x); [ring|]. rewrite <- B. ring. }
  apply b0. transitivity (x * x * x + b - x * x * x); [ring|]. rewrite <- O, X, Y. ring.
Qed.
Lemma sl_unique x1 y1 x2 y2 l m : oc (Aff x1 y1) -> oc (Aff x2 y2) -> Sl x1 y1 x2 y2 l -> Sl x1 y1 x2 y2 m -> l = m.
Proof.
  intros O1 O2 L M. destruct (Fq_eq_dec x1 x2) as [<-|X].
  - destruct (Fq_eq_dec y1 (fopp y2)) as [->|Y].
    + exfalso. apply sl_sym in L. apply (sl_not_opp x1 y2 l O2 L).
    + apply (cancel (y1 + y2)); [intros E; apply Y, lin; rewrite <- E; ring|]. transitivity (l * (y1 + y2)); [ring|]. transitivity (m * (y1 + y2)); [|ring]. rewrite (proj2 L), (proj2 M). reflexivity.
  - apply (cancel (x1 - x2)); [apply sub_nz, X|]. transitivity (l * (x1 - x2)); [ring|]. transitivity (m * (x1 - x2)); [|ring]. rewrite <- (proj1 L), <- (proj1 M). reflexivity.
Qed.

Lemma sl_exists x1 y1 x2 y2 : oc (Aff x1 y1) -> oc (Aff x2 y2) -> Aff x1 y1 <> aneg (Aff x2 y2) ->
  exists l, Sl x1 y1 x2 y2 l /\ aadd (Aff x1 y1) (Aff x2 y2) = finish p l x1 y1 x2.
Proof.
  intros O1 O2 N. cbn [aadd aneg] in *. destruct (feqb_spec x1 x2) as [<-|X].
  - destruct (feqb_spec y1 (- y2)) as [E|Y]; [exfalso; apply N; rewrite E; reflexivity|].
    destruct (same_x _ _ _ O1 O2) as [<-|E]; [|contradiction].
    assert (D : f2 p * y1 <> f0). { intros E. apply (cancel0 (f2 p) y1 f2_nz) in E. apply Y. rewrite E. ring. }
    pose proof (finv_l pp _ D) as I. exists (f3 p * x1 * x1 * finv (f2 p * y1)). split; [split|reflexivity].
    + ring.
    + transitivity (f3 p * x1 * x1 * (finv (f2 p * y1) * (f2 p * y1))); [unfold f2 at 3; ring|]. rewrite I. unfold f3. ring.
  - pose proof (sub_nz _ _ X) as D. pose proof (finv_l pp _ D) as I. exists ((y1 - y2) * finv (x1 - x2)). split; [split|reflexivity].
    + transitivity ((y1 - y2) * (finv (x1 - x2) * (x1 - x2))); [rewrite I; ring|ring].
    + apply (cancel (x1 - x2) _ _ D). transitivity ((finv (x1 - x2) * (x1 - x2)) * (y1 * y1 - y2 * y2)); [ring|]. rewrite I. rewrite oc_aff in O1, O2. rewrite O1, O2. ring.
Qed.
Lemma add_opp x y : aadd (Aff x y) (Aff x (- y)) = (Inf : apoint p).
Proof. cbn [aadd]. rewrite feqb_refl. replace (- - y) with y by ring. rewrite feqb_refl. reflexivity. Qed.
Lemma apoint_eq_dec (P Q : apoint p) : {P = Q} + {P <> Q}.
Proof. destruct P as [|x y], Q as [|x' y']; try (right; discriminate); [left; reflexivity|]. destruct (Fq_eq_dec x x') as [->|N]; [|right; congruence]. destruct (Fq_eq_dec y y') as [->|N]; [left; reflexivity|right; congruence]. Qed.
Lemma aneg_invol P : aneg (aneg P) = (P : apoint p).
Proof. destruct P as [|x y]; cbn; [reflexivity|]. f_equal. ring. Qed.
Lemma oc_neg P : oc P -> oc (aneg P).
Proof using pp. destruct P as [|x y]; [trivial|]. cbn [aneg]. rewrite !oc_aff. intros H. rewrite <- H. ring. Qed.

(** Any slope gives the sum. *)
Lemma add_sl x1 y1 x2 y2 l : oc (Aff x1 y1) -> oc (Aff x2 y2) -> Sl x1 y1 x2 y2 l ->
  aadd (Aff x1 y1) (Aff x2 y2) = finish p l x1 y1 x2.
Proof.
  intros O1 O2 L. destruct (apoint_eq_dec (Aff x1 y1) (aneg (Aff x2 y2))) as [E|N].
  - exfalso. cbn [aneg] in E. assert (E1 : x1 = x2) by congruence. assert (E2 : y1 = - y2) by congruence. subst x1 y1. apply sl_sym in L. exact (sl_not_opp _ _ _ O2 L).
  - destruct (sl_exists _ _ _ _ O1 O2 N) as (m & M & ->). rewrite (sl_unique _ _ _ _ _ _ O1 O2 M L). reflexivity.
Qed.
Lemma finish_oc x1 y1 x2 y2 l : oc (Aff x1 y1) -> Sl x1 y1 x2 y2 l -> oc (finish p l x1 y1 x2).
Proof.
  unfold finish. rewrite !oc_aff. intros O (A & B). set (x3 := l * l - x1 - x2).
  assert (R : (l * y1 + l * y1) - (l * l * (x1 - x2) + (x1 * x1 + x1 * x2 + x2 * x2)) = f0).
  { rewrite <- B. transitivity (l * ((y1 - y2) - l * (x1 - x2))); [ring|]. rewrite A. ring. }
  apply lin. transitivity ((y1 * y1 - (x1 * x1 * x1 + b)) - (x1 - x3) * ((l * y1 + l * y1) - (l * l * (x1 - x2) + (x1 * x1 + x1 * x2 + x2 * x2)))); [unfold x3; ring|].
  rewrite R, O. ring.
Qed.
Lemma oc_add P Q : oc P -> oc Q -> oc (aadd P Q).
Proof using pp p3.
  intros OP OQ. destruct P as [|x1 y1]; [exact OQ|]. destruct Q as [|x2 y2]; [exact OP|].
  destruct (apoint_eq_dec (Aff x1 y1) (aneg (Aff x2 y2))) as [E|N].
  - cbn [aneg] in E. assert (E1 : x1 = x2) by congruence. assert (E2 : y1 = - y2) by congruence. subst. cbn [aadd]. rewrite !feqb_refl. reflexivity.
  - destruct (sl_exists _ _ _ _ OP OQ N) as (l & L & ->). eapply finish_oc; eassumption.
Qed.
Lemma finish_sym x1 y1 x2 y2 l : Sl x1 y1 x2 y2 l -> finish p l x1 y1 x2 = finish p l x2 y2 x1.
Proof. intros (A & _). unfold finish. f_equal; [ring|]. apply lin. transitivity (l * (x1 - x2) - (y1 - y2)); [ring|]. rewrite A. ring. Qed.
Lemma aadd_comm P Q : oc P -> oc Q -> aadd P Q = aadd Q P.
Proof.
  intros OP OQ. destruct P as [|x1 y1], Q as [|x2 y2]; try reflexivity.
  destruct (apoint_eq_dec (Aff x1 y1) (aneg (Aff x2 y2))) as [E|N].
  - cbn [aneg] in E. assert (E1 : x1 = x2) by congruence. assert (E2 : y1 = - y2) by congruence. subst. rewrite add_opp. cbn [aadd]. rewrite !feqb_refl. reflexivity.
  - destruct (sl_exists _ _ _ _ OP OQ N) as (l & L & ->). rewrite (add_sl _ _ _ _ l OQ OP (sl_sym _ _ _ _ _ L)). eapply finish_sym; eassumption.
Qed.
Lemma aadd_neg P : aadd P (aneg P) = (Inf : apoint p).
Proof. destruct P as [|x y]; [reflexivity|apply add_opp]. Qed.
Lemma aadd_inf_r P : aadd P (Inf : apoint p) = P.
Proof. destruct P; reflexivity. Qed.
Lemma opp_of P Q : oc P -> oc Q -> aadd P Q = Inf -> P = aneg Q.
Proof.
  intros OP OQ H. destruct P as [|x1 y1]; [cbn in H; rewrite H; reflexivity|]. destruct Q as [|x2 y2]; [discriminate|].
  destruct (apoint_eq_dec (Aff x1 y1) (aneg (Aff x2 y2))) as [E|N]; [exact E|exfalso].
  destruct (sl_exists _ _ _ _ OP OQ N) as (l & L & E). rewrite E in H. discriminate.
Qed.

Lemma cancel_pt P Q : oc P -> oc Q -> aadd (aneg P) (aadd P Q) = Q.
Proof.
  intros OP OQ. destruct P as [|x1 y1]; [reflexivity|]. destruct Q as [|x2 y2].
  { rewrite aadd_inf_r, aadd_comm; [apply aadd_neg|apply oc_neg, OP|exact OP]. }
  destruct (apoint_eq_dec (Aff x1 y1) (aneg (Aff x2 y2))) as [E|N].
  - rewrite E, aneg_invol. cbn [aneg]. replace (aadd (Aff x2 (- y2)) (Aff x2 y2)) with (Inf : apoint p) by (cbn [aadd]; rewrite !feqb_refl; reflexivity). reflexivity.
  - destruct (sl_exists _ _ _ _ OP OQ N) as (l & L & ->). pose proof (finish_oc _ _ _ _ _ OP L) as OA. unfold finish in *. set (x3 := l * l - x1 - x2) in *. set (y3 := l * (x1 - x3) - y1) in *.
    cbn [aneg]. rewrite (add_sl x1 (- y1) x3 y3 (- l)); [|exact (oc_neg (Aff x1 y1) OP)|exact OA|split; [unfold y3; ring|]].
    + destruct L as (A & B). unfold finish. f_equal; [unfold x3; ring|]. apply lin. transitivity ((y1 - y2) - l * (x1 - x2)); [unfold x3; ring|]. rewrite A. ring.
    + destruct L as (A & B). apply lin. transitivity (((l * (y1 + y2)) - (x1 * x1 + x1 * x2 + x2 * x2)) + l * ((y1 - y2) - l * (x1 - x2))); [unfold y3, x3; ring|]. rewrite A, B. ring.
Qed.

(** Three points: [P2 = (x2, y2)], [P1] on the line of slope [l] through [P2],
    [P3] on the line of slope [m] through [P2], written relative to [P2]. *)
Definition on_line (x2 y2 l u : F) : Prop :=
  (l * y2 + l * y2) + l * l * u = u * u + f3 p * x2 * u + f3 p * x2 * x2.
Lemma sl_on_line x1 y1 x2 y2 l : Sl x1 y1 x2 y2 l -> on_line x2 y2 l (x1 - x2) /\ y1 = y2 + l * (x1 - x2).
Proof.
  intros (A & B). assert (E : y1 = y2 + l * (x1 - x2)) by (rewrite <- A; ring). split; [|exact E]. unfold on_line, f3. apply lin.
  transitivity (l * (y1 + y2) - (x1 * x1 + x1 * x2 + x2 * x2)); [rewrite E; ring|]. rewrite B. ring.
Qed.
Lemma third_slope x2 y2 l m u v w : on_line x2 y2 l u -> on_line x2 y2 m v ->
  l <> m -> (l - m) * w = u - v ->
  let xa := l * l - (x2 + u) - x2 in
  let ya := l * (x2 + u - xa) - (y2 + l * u) in
  Sl xa ya (x2 + v) (y2 + m * v) (w - l).
Proof.
  intros R1 R2 N W xa ya. unfold on_line in R1, R2. pose proof (sub_nz _ _ N) as D.
  assert (E1 : forall z, z * (((l * y2 + l * y2) + l * l * u) - (u * u + f3 p * x2 * u + f3 p * x2 * x2)) = f0) by (intros z; rewrite R1; ring).
  assert (E2 : forall z, z * (((m * y2 + m * y2) + m * m * v) - (v * v + f3 p * x2 * v + f3 p * x2 * x2)) = f0) by (intros z; rewrite R2; ring).
  assert (E3 : forall z, z * ((l - m) * w - (u - v)) = f0) by (intros z; rewrite W; ring).
  split; apply (cancel (l - m) _ _ D); apply lin.
  - transitivity (f0 - (xa - (x2 + v)) * ((l - m) * w - (u - v)) - f1 * (((l * y2 + l * y2) + l * l * u) - (u * u + f3 p * x2 * u + f3 p * x2 * x2)) + f1 * (((m * y2 + m * y2) + m * m * v) - (v * v + f3 p * x2 * v + f3 p * x2 * x2))).
    + unfold ya, xa, f3. ring.
    + rewrite E1, E2, E3. ring.
  - transitivity ((ya + (y2 + m * v)) * ((l - m) * w - (u - v)) - m * (((l * y2 + l * y2) + l * l * u) - (u * u + f3 p * x2 * u + f3 p * x2 * x2)) + l * (((m * y2 + m * y2) + m * m * v) - (v * v + f3 p * x2 * v + f3 p * x2 * x2))).
    + unfold ya, xa, f3. ring.
    + rewrite E1, E2, E3. ring.
Qed.
Lemma assoc_generic x2 y2 l m u v : oc (Aff x2 y2) -> oc (Aff (x2 + u) (y2 + l * u)) -> oc (Aff (x2 + v) (y2 + m * v)) ->
  on_line x2 y2 l u -> on_line x2 y2 m v -> l <> m ->
  Sl (x2 + u) (y2 + l * u) x2 y2 l -> Sl (x2 + v) (y2 + m * v) x2 y2 m ->
  aadd (finish p l (x2 + u) (y2 + l * u) x2) (Aff (x2 + v) (y2 + m * v)) = aadd (Aff (x2 + u) (y2 + l * u)) (finish p m (x2 + v) (y2 + m * v) x2).
Proof.
  intros O2 O1 O3 R1 R2 N L M. pose proof (finish_oc _ _ _ _ _ O1 L) as OA. pose proof (finish_oc _ _ _ _ _ O3 M) as OB.
  pose proof (sub_nz _ _ N) as D. set (w := (u - v) * finv (l - m)).
  assert (W : (l - m) * w = u - v). { unfold w. transitivity ((u - v) * (finv (l - m) * (l - m))); [ring|]. rewrite (finv_l pp _ D). ring. }
  assert (W' : (m - l) * w = v - u). { transitivity (- ((l - m) * w)); [ring|]. rewrite W. ring. }
  pose proof (third_slope _ _ _ _ _ _ _ R1 R2 N W) as S1. pose proof (third_slope _ _ _ _ _ _ _ R2 R1 (not_eq_sym N) W') as S2. cbv zeta in S1, S2. apply sl_sym in S2.
  unfold finish in *. cbv zeta in *. rewrite (add_sl _ _ _ _ _ OA O3 S1), (add_sl _ _ _ _ _ O1 OB S2). rewrite (finish_sym _ _ _ _ _ S1). unfold finish.
  assert (E3 : forall z, z * ((l - m) * w - (u - v)) = f0) by (intros z; rewrite W; ring).
  assert (X : (w - l) * (w - l) - (x2 + v) - (l * l - (x2 + u) - x2) = x2 + w * (w - l - m)). { apply lin. transitivity (- f1 * ((l - m) * w - (u - v))); [ring|apply E3]. }
  assert (X' : (w - m) * (w - m) - (x2 + u) - (m * m - (x2 + v) - x2) = x2 + w * (w - l - m)). { apply lin. transitivity (f1 * ((l - m) * w - (u - v))); [ring|apply E3]. }
  rewrite X, X'. f_equal. apply lin. clearbody w. transitivity ((w - l - m) * ((l - m) * w - (u - v))); [ring|apply E3].
Qed.

Theorem aadd_assoc P Q R : oc P -> oc Q -> oc R -> aadd (aadd P Q) R = aadd P (aadd Q R).
Proof.
  intros OP OQ OR. destruct P as [|x1 y1]; [reflexivity|]. destruct Q as [|x2 y2]; [reflexivity|]. destruct R as [|x3 y3]; [rewrite !aadd_inf_r; reflexivity|].
  destruct (apoint_eq_dec (Aff x2 y2) (aneg (Aff x1 y1))) as [E|N1].
  { rewrite E at 1. rewrite aadd_neg. rewrite <- (aneg_invol (Aff x1 y1)) at 1. rewrite <- E. rewrite cancel_pt by assumption. reflexivity. }
  destruct (apoint_eq_dec (Aff x3 y3) (aneg (Aff x2 y2))) as [E|N3].
  { rewrite E. rewrite aadd_neg, aadd_inf_r. rewrite aadd_comm by (try apply oc_add; try apply oc_neg; assumption). rewrite (aadd_comm (Aff x1 y1)) by assumption. apply cancel_pt; assumption. }
  assert (M1 : Aff x1 y1 <> aneg (Aff x2 y2)) by (intros E; apply N1; rewrite E, aneg_invol; reflexivity).
  destruct (sl_exists _ _ _ _ OP OQ M1) as (l & L & EA). destruct (sl_exists _ _ _ _ OR OQ N3) as (m & M & EB).
  rewrite (aadd_comm (Aff x2 y2)) by assumption. destruct (sl_on_line _ _ _ _ _ L) as (R1 & Y1). destruct (sl_on_line _ _ _ _ _ M) as (R2 & Y3).
  set (u := x1 - x2) in *. set (v := x3 - x2) in *. assert (X1 : x1 = x2 + u) by (unfold u; ring). assert (X3 : x3 = x2 + v) by (unfold v; ring). clearbody u v. subst x1 x3 y1 y3.
  destruct (Fq_eq_dec l m) as [<-|NE].
  - assert (T : (u - v) * (v - (l * l - f3 p * x2 - u)) = f0).
    { unfold on_line in R1, R2. transitivity (((l * y2 + l * y2) + l * l * v - (v * v + f3 p * x2 * v + f3 p * x2 * x2)) - ((l * y2 + l * y2) + l * l * u - (u * u + f3 p * x2 * u + f3 p * x2 * x2))); [unfold f3; ring|rewrite R1, R2; ring]. }
    destruct (fmul_integral pp _ _ T) as [E|E]; apply lin in E.
    + subst v. apply aadd_comm; [apply oc_add|]; assumption.
    + rewrite EA, EB. unfold finish. cbv zeta. transitivity (Inf : apoint p).
      * replace (Aff (x2 + v) (y2 + l * v)) with (aneg (Aff (l * l - (x2 + u) - x2) (l * (x2 + u - (l * l - (x2 + u) - x2)) - (y2 + l * u)))); [apply aadd_neg|]. cbn [aneg]. rewrite E. f_equal; unfold f3; ring.
      * symmetry. replace (Aff (l * l - (x2 + v) - x2) (l * (x2 + v - (l * l - (x2 + v) - x2)) - (y2 + l * v))) with (aneg (Aff (x2 + u) (y2 + l * u))); [apply aadd_neg|]. cbn [aneg]. rewrite E. f_equal; unfold f3; ring.
  - rewrite EA, EB. apply assoc_generic; assumption.
Qed.
End Laws.

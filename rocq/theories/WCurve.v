(** The [Curve] record for y^2 = x^3 + b over a prime field. *)
From Coq Require Import ZArith Znumtheory Lia Bool Field Eqdep_dec List.
From Verif Require Import ZArithX Fq Curve Pocklington Weierstrass Cyclic.
Import ListNotations.
Local Open Scope Z_scope.

Section Build.
Context (p : Z) (pp : prime p) (p3 : 3 < p) (p256 : p < 2 ^ 256) (b : Fq p) (b0 : b <> f0).
Context (n : Z) (np : prime n) (n2 : 2 < n) (small : 2 * p + 1 < 3 * n).
Context (no_root : forall x : Fq p, fadd (fmul (fmul x x) x) b <> f0).
Add Field bf : (fq_field pp).

(** Points: infinity and the affine points that satisfy the equation. *)
Record wpt : Type := mkW { aff : apoint p; aff_ok : oncurveb p b aff = true }.
Lemma wpt_ext P Q : aff P = aff Q -> P = Q.
Proof. destruct P as [P HP], Q as [Q HQ]. cbn. intros ->. f_equal. apply UIP_dec, bool_dec. Qed.
Definition winf : wpt := mkW Inf eq_refl.
Definition wadd (P Q : wpt) : wpt := mkW (aadd (aff P) (aff Q)) (oc_add p pp p3 b _ _ (aff_ok P) (aff_ok Q)).
Definition wneg (P : wpt) : wpt := mkW (aneg (aff P)) (oc_neg p pp b _ (aff_ok P)).
Definition weqb (P Q : wpt) : bool :=
  match aff P, aff Q with
  | Inf, Inf => true
  | Aff x y, Aff x' y' => feqb x x' && feqb y y'
  | _, _ => false
  end.
Lemma weqb_ok P Q : weqb P Q = true <-> P = Q.
Proof.
  split.
  - intros H. apply wpt_ext. unfold weqb in H. destruct (aff P), (aff Q); try discriminate; [reflexivity|]. apply andb_true_iff in H. destruct H as (A & B). apply feqb_eq in A. apply feqb_eq in B. subst. reflexivity.
  - intros <-. unfold weqb. destruct (aff P); [reflexivity|]. rewrite !feqb_refl. reflexivity.
Qed.
Lemma weqb_reflect P Q : reflect (P = Q) (weqb P Q).
Proof. apply iff_reflect. symmetry. apply weqb_ok. Qed.
Lemma wadd_assoc P Q R : wadd (wadd P Q) R = wadd P (wadd Q R).
Proof. apply wpt_ext. apply (aadd_assoc p pp p3 b b0); apply aff_ok. Qed.
Lemma wadd_comm P Q : wadd P Q = wadd Q P.
Proof. apply wpt_ext. apply (aadd_comm p pp p3 b b0); apply aff_ok. Qed.
Lemma wadd_inf P : wadd winf P = P.
Proof. apply wpt_ext. reflexivity. Qed.
Lemma wadd_neg P : wadd P (wneg P) = winf.
Proof. apply wpt_ext. apply aadd_neg. exact pp. Qed.

Definition wcoords (P : wpt) : option (Z * Z) := match aff P with Inf => None | Aff x y => Some (to_Z x, to_Z y) end.
Lemma y_nz x y : oncurveb p b (Aff x y) = true -> y <> f0.
Proof. intros H ->. apply (oc_aff p b) in H. apply (no_root x). rewrite <- H. ring. Qed.
Lemma opp_Z (y : Fq p) : y <> f0 -> to_Z (fopp y) = p - to_Z y.
Proof.
  intros Y. unfold fopp. rewrite to_Z_of_Z. pose proof (to_Z_range pp y). pose proof (to_Z_nz y Y). replace (- to_Z y) with (p - to_Z y + (-1) * p) by ring. rewrite Z.mod_add by lia. apply Z.mod_small. lia.
Qed.
Lemma p_odd : Z.odd p = true.
Proof.
  destruct (Z.odd p) eqn:E; [reflexivity|exfalso]. rewrite <- Z.negb_even in E. apply negb_false_iff, Z.even_spec in E. destruct E as [h H]. assert (D : (2 | p)) by (exists h; lia). apply (prime_div_prime 2 p prime_2 pp) in D. lia.
Qed.
Lemma wcoords_zero P : wcoords P = None <-> P = winf.
Proof. split; [|intros ->; reflexivity]. intros H. apply wpt_ext. unfold wcoords in H. destruct (aff P); [reflexivity|discriminate]. Qed.
Lemma wcoords_range P x y : wcoords P = Some (x, y) -> 0 <= x < p /\ 0 < y < p.
Proof.
  unfold wcoords. destruct P as [[|a c] H]; cbn; [discriminate|]. intros E. assert (to_Z a = x) by congruence. assert (to_Z c = y) by congruence. subst. pose proof (to_Z_range pp a). pose proof (to_Z_range pp c). pose proof (to_Z_nz c (y_nz a c H)). lia.
Qed.
Lemma wcoords_neg P x y : wcoords P = Some (x, y) -> wcoords (wneg P) = Some (x, p - y).
Proof.
  unfold wcoords. destruct P as [[|a c] H]; cbn; [discriminate|]. intros E. assert (to_Z a = x) by congruence. assert (to_Z c = y) by congruence. subst. rewrite <- (opp_Z c (y_nz a c H)). reflexivity.
Qed.
Lemma wcoords_same_x P Q x y y' : wcoords P = Some (x, y) -> wcoords Q = Some (x, y') -> Q = P \/ Q = wneg P.
Proof.
  unfold wcoords. destruct P as [[|a c] H]; cbn [aff]; [discriminate|]. destruct Q as [[|a' c'] H']; cbn [aff]; [discriminate|]. intros E E'.
  assert (to_Z a = x) by congruence. assert (to_Z a' = x) by congruence. assert (a' = a) by (apply fq_ext; congruence). subst a'. destruct (same_x p pp b a c' c H' H) as [->| ->]; [left|right]; apply wpt_ext; reflexivity.
Qed.

(** Every point has a number below 2 p + 1: x and the parity of y. *)
Definition wcode (P : wpt) : Z := match aff P with Inf => 0 | Aff x y => 1 + 2 * to_Z x + (to_Z y) mod 2 end.
Lemma wcode_range P : 0 <= wcode P < 2 * p + 1.
Proof. unfold wcode. destruct (aff P) as [|x y]; [lia|]. pose proof (to_Z_range pp x). pose proof (Z.mod_pos_bound (to_Z y) 2 ltac:(lia)). lia. Qed.
Lemma wcode_inj P Q : wcode P = wcode Q -> P = Q.
Proof.
  intros E. destruct P as [[|x y] H], Q as [[|x' y'] H']; cbn [wcode aff] in E; unfold wcode in E; cbn [aff] in E.
  - apply wpt_ext. reflexivity.
  - exfalso. pose proof (to_Z_range pp x'). pose proof (Z.mod_pos_bound (to_Z y') 2 ltac:(lia)). lia.
  - exfalso. pose proof (to_Z_range pp x). pose proof (Z.mod_pos_bound (to_Z y) 2 ltac:(lia)). lia.
  - pose proof (Z.mod_pos_bound (to_Z y) 2 ltac:(lia)). pose proof (Z.mod_pos_bound (to_Z y') 2 ltac:(lia)). assert (EX : x = x') by (apply fq_ext; lia). subst x'. assert (EY : to_Z y mod 2 = to_Z y' mod 2) by lia.
    apply wpt_ext. cbn [aff]. destruct (same_x p pp b x y y' H H') as [-> | ->]; [reflexivity|exfalso].
    rewrite opp_Z in EY by (apply (y_nz x); exact H'). pose proof p_odd as O. apply Z.odd_spec in O. destruct O as [h O]. 
    replace (p - to_Z y') with (1 - to_Z y' + h * 2) in EY by lia. rewrite Z.mod_add in EY by lia. pose proof (Z.div_mod (1 - to_Z y') 2 ltac:(lia)). pose proof (Z.div_mod (to_Z y') 2 ltac:(lia)). lia.
Qed.
Lemma w_no_two P : wadd P P = winf -> P = winf.
Proof.
  intros E. apply wpt_ext. apply (f_equal aff) in E. cbn [wadd aff winf] in *. destruct P as [[|x y] H]; [reflexivity|exfalso]. cbn [aff] in E. apply (opp_of p pp p3 b _ _ H H) in E. cbn [aneg] in E. assert (Y : y = fopp y) by congruence.
  apply (y_nz x y H). apply (cancel0 p pp (f2 p)); [apply (f2_nz p); lia|]. unfold f2. transitivity (fsub y (fopp y)); [ring|]. rewrite <- Y. ring.
Qed.

Context (g : wpt) (g_ne : g <> winf) (g_order : zmul wadd winf n g = winf) (g2 : wpt) (g2_ne : g2 <> winf).
Notation zm := (zmul wadd winf).
Lemma w_dlog : {d : wpt -> Fq n | forall P, P = zm (to_Z (d P)) g}.
Proof.
  apply (dlog_sig wadd wneg winf wadd_assoc wadd_comm wadd_inf wadd_neg weqb weqb_ok n np n2 g g_ne g_order wcode wcode_inj (2 * p + 1) wcode_range small w_no_two).
Qed.
Definition wdlog : wpt -> Fq n := proj1_sig w_dlog.
Lemma wdlog_spec P : P = zm (to_Z (wdlog P)) g.
Proof. exact (proj2_sig w_dlog P). Qed.
Lemma wdlog_unique k P : 0 <= k -> P = zm k g -> wdlog P = of_Z n k.
Proof.
  intros K E. apply fq_ext. rewrite to_Z_of_Z. pose proof (to_Z_range np (wdlog P)).
  apply (zmul_inj wadd wneg winf wadd_assoc wadd_comm wadd_inf wadd_neg n np n2 g g_ne g_order); [assumption|apply Z.mod_pos_bound; lia|].
  rewrite <- wdlog_spec, (zmul_mod wadd winf wadd_assoc wadd_comm wadd_inf n n2 g g_order) by exact K. exact E.
Qed.
Definition wsmul (a : Fq n) (P : wpt) : wpt := zm (to_Z a) P.

Lemma w_dlog_add P Q : wdlog (wadd P Q) = fadd (wdlog P) (wdlog Q).
Proof.
  pose proof (to_Z_range np (wdlog P)). pose proof (to_Z_range np (wdlog Q)). apply wdlog_unique; [lia|].
  rewrite (zmul_add wadd winf wadd_assoc wadd_comm wadd_inf) by lia. rewrite <- !wdlog_spec. reflexivity.
Qed.
Lemma w_dlog_zero : wdlog winf = f0.
Proof. apply wdlog_unique; [lia|reflexivity]. Qed.
Add Field nf : (fq_field np).
Lemma w_dlog_neg P : wdlog (wneg P) = fopp (wdlog P).
Proof.
  assert (E : fadd (wdlog P) (wdlog (wneg P)) = f0) by (rewrite <- w_dlog_add, wadd_neg; apply w_dlog_zero).
  transitivity (fsub (fadd (wdlog P) (wdlog (wneg P))) (wdlog P)); [ring|]. rewrite E. ring.
Qed.
Lemma w_dlog_smul a P : wdlog (wsmul a P) = fmul a (wdlog P).
Proof.
  pose proof (to_Z_range np (wdlog P)). pose proof (to_Z_range np a). apply wdlog_unique; [nia|].
  rewrite (zmul_mul wadd winf wadd_assoc wadd_comm wadd_inf) by lia. rewrite <- wdlog_spec. reflexivity.
Qed.
Lemma w_dlog_gen : wdlog g = f1.
Proof. apply wdlog_unique; [lia|reflexivity]. Qed.
Lemma w_dlog_inj P Q : wdlog P = wdlog Q -> P = Q.
Proof. intros E. rewrite (wdlog_spec P), (wdlog_spec Q), E. reflexivity. Qed.
Lemma w_gen2 : wdlog g2 <> f0.
Proof. intros E. apply g2_ne. rewrite (wdlog_spec g2), E. unfold f0. rewrite to_Z_of_Z, Z.mod_0_l by lia. reflexivity. Qed.

Definition wcurve : Curve := {|
  cq := n; cp := p; cq_prime := np; cq_odd := n2; cp_odd := p_odd; cp_pos := Z.lt_trans 0 3 p (eq_refl Lt) p3; cp_bytes := p256;
  pt := wpt; pt_eqb := weqb; pt_eqb_spec := weqb_reflect; padd := wadd; pneg := wneg; pzero := winf; smul := wsmul; gen := g; gen2 := g2;
  dlog := wdlog; dlog_add := w_dlog_add; dlog_neg := w_dlog_neg; dlog_zero := w_dlog_zero; dlog_smul := w_dlog_smul; dlog_gen := w_dlog_gen; dlog_inj := w_dlog_inj; gen2_nz := w_gen2;
  coords := wcoords; coords_zero := wcoords_zero; coords_range := wcoords_range; coords_neg := wcoords_neg; coords_same_x := wcoords_same_x |}.
End Build.

(** ** A multiple of the generator, checked with the slopes of the chords and tangents as a certificate *)
Inductive chain_op := Dbl | AddG | SubG.
Section Chain.
Context (p c gx gy : Z).
Definition fr (x : Z) : Z := fold_red c 256 (fold_red c 256 x).
Definition zero_mod (v : Z) : bool := let r := fr v in (r =? 0) || (r =? p).
Definition chain_step (o : chain_op) (l : Z) (s : Z * Z * Z) : option (Z * Z * Z) :=
  let '(k, x, y) := s in
  let '(k', x2, y2) := match o with Dbl => (k + k, x, y) | AddG => (k + 1, gx, gy) | SubG => (k - 1, gx, - gy) end in
  let slope :=
    match o with
    | Dbl => zero_mod (2 * (l * y) - 3 * Z.square x)
    | _ => zero_mod (y - y2 - l * (x - x2)) && zero_mod (l * (y + y2) - (Z.square (x + x2) - x * x2))
    end in
  if (1 <=? k') && slope then
    let x3 := fr (Z.square l - x - x2) in Some (k', x3, fr (l * (x - x3) - y))
  else None.
Fixpoint chain (ops : list (chain_op * Z)) (s : Z * Z * Z) : option (Z * Z * Z) :=
  match ops with
  | [] => Some s
  | (o, l) :: r => match chain_step o l s with Some s' => chain r s' | None => None end
  end.

Context (pp : prime p) (p3 : 3 < p) (b : Fq p) (b0 : b <> f0) (pc : p = 2 ^ 256 - c).
Context (g : wpt p b) (g_aff : aff p b g = Aff (of_Z p gx) (of_Z p gy)).
Add Field cf : (fq_field pp).
Notation zm := (zmul (wadd p pp p3 b) (winf p b)).

Lemma fr_of x : of_Z p (fr x) = of_Z p x.
Proof.
  apply of_Z_eq. change (eqm p (fr x) x). rewrite pc. unfold fr. eapply eqm_trans; apply fold_red_eqm; try lia; rewrite <- pc; lia.
Qed.
Lemma zero_mod_of v : zero_mod v = true -> of_Z p v = f0.
Proof.
  unfold zero_mod. intros H. rewrite <- fr_of. apply orb_true_iff in H. destruct H as [H|H]; apply Z.eqb_eq in H; rewrite H; [reflexivity|apply of_Z_q].
Qed.
Ltac hom := repeat (rewrite fr_of || rewrite of_Z_sub || rewrite of_Z_add || rewrite of_Z_mul).
Definition slope_of (x y x2 y2 l : Z) : Prop :=
  of_Z p (y - y2 - l * (x - x2)) = f0 /\ of_Z p (l * (y + y2) - (x * x + x * x2 + x2 * x2)) = f0.
Lemma step_sum x y x2 y2 l : slope_of x y x2 y2 l ->
  oc p b (Aff (of_Z p x) (of_Z p y)) -> oc p b (Aff (of_Z p x2) (of_Z p y2)) ->
  aadd (Aff (of_Z p x) (of_Z p y)) (Aff (of_Z p x2) (of_Z p y2)) = Aff (of_Z p (fr (Z.square l - x - x2))) (of_Z p (fr (l * (x - fr (Z.square l - x - x2)) - y))).
Proof.
  intros (A & B) O1 O2. rewrite (add_sl p pp p3 b b0 _ _ _ _ (of_Z p l) O1 O2).
  - unfold finish. rewrite Z.square_spec. hom. reflexivity.
  - split; apply (lin p pp).
    + rewrite <- A. hom. reflexivity.
    + rewrite <- B. hom. reflexivity.
Qed.
Lemma slope_dbl x y l : zero_mod (2 * (l * y) - 3 * Z.square x) = true -> slope_of x y x y l.
Proof.
  intros A. apply zero_mod_of in A. rewrite Z.square_spec in A. split; [rewrite !Z.sub_diag, Z.mul_0_r; reflexivity|]. rewrite <- A. f_equal. ring.
Qed.
Lemma slope_add x y x2 y2 l : zero_mod (y - y2 - l * (x - x2)) && zero_mod (l * (y + y2) - (Z.square (x + x2) - x * x2)) = true -> slope_of x y x2 y2 l.
Proof.
  intros H. apply andb_true_iff in H. destruct H as (A & B). apply zero_mod_of in A. apply zero_mod_of in B. rewrite Z.square_spec in B. split; [exact A|]. rewrite <- B. f_equal. ring.
Qed.
Definition good (s : Z * Z * Z) : Prop := let '(k, x, y) := s in 1 <= k /\ aff p b (zm k g) = Aff (of_Z p x) (of_Z p y).
Lemma zm_sub k : 1 <= k -> wadd p pp p3 b (zm k g) (wneg p pp b g) = zm (k - 1) g.
Proof.
  intros K. replace k with (k - 1 + 1) at 1 by ring. rewrite (zmul_succ _ _ (wadd_assoc p pp p3 b b0) (wadd_comm p pp p3 b b0) (wadd_inf p pp p3 b)) by lia.
  rewrite (wadd_comm p pp p3 b b0 g), (wadd_assoc p pp p3 b b0), (wadd_neg p pp p3 b), (wadd_comm p pp p3 b b0). apply wadd_inf.
Qed.
Lemma chain_step_good o l s s' : good s -> chain_step o l s = Some s' -> good s'.
Proof.
  destruct s as [[k x] y]. intros (K & E) H. unfold chain_step in H.
  assert (O1 : oc p b (Aff (of_Z p x) (of_Z p y))) by (rewrite <- E; apply aff_ok).
  destruct o.
  - destruct (_ && _) eqn:Z; [|discriminate]. apply andb_true_iff in Z. destruct Z as (K' & A). apply Z.leb_le in K'. apply (f_equal (fun o => match o with Some z => z | None => s' end)) in H. subst s'. split; [exact K'|].
    rewrite (zmul_add _ _ (wadd_assoc p pp p3 b b0) (wadd_comm p pp p3 b b0) (wadd_inf p pp p3 b)) by lia. cbn [wadd aff]. rewrite E. apply step_sum; [apply slope_dbl, A|assumption|assumption].
  - destruct (_ && _) eqn:Z; [|discriminate]. apply andb_true_iff in Z. destruct Z as (K' & A). apply Z.leb_le in K'. apply (f_equal (fun o => match o with Some z => z | None => s' end)) in H. subst s'. split; [exact K'|].
    rewrite (zmul_succ _ _ (wadd_assoc p pp p3 b b0) (wadd_comm p pp p3 b b0) (wadd_inf p pp p3 b)) by lia. rewrite (wadd_comm p pp p3 b b0). cbn [wadd aff]. rewrite E, g_aff. apply step_sum; [apply slope_add, A|assumption|]. rewrite <- g_aff. apply aff_ok.
  - destruct (_ && _) eqn:Z; [|discriminate]. apply andb_true_iff in Z. destruct Z as (K' & A). apply Z.leb_le in K'. apply (f_equal (fun o => match o with Some z => z | None => s' end)) in H. subst s'. split; [exact K'|].
    rewrite <- (zm_sub k K). cbn [wadd wneg aff]. rewrite E, g_aff. cbn [aneg]. rewrite <- of_Z_opp. apply step_sum; [apply slope_add, A|assumption|]. rewrite of_Z_opp. change (oc p b (aneg (Aff (of_Z p gx) (of_Z p gy)))). rewrite <- g_aff. apply (oc_neg p pp b), aff_ok.
Qed.
Lemma chain_good ops : forall s s', good s -> chain ops s = Some s' -> good s'.
Proof.
  induction ops as [|(o & l) ops IH]; intros s s' G H; cbn [chain] in H; [congruence|]. destruct (chain_step o l s) as [s1|] eqn:E; [|discriminate]. apply (IH s1); [|exact H]. exact (chain_step_good o l s s1 G E).
Qed.
(** The chain ends at - G after n - 1 steps, so n G is infinity. *)
Definition chain_order (n : Z) (ops : list (chain_op * Z)) : bool :=
  match chain ops (1, gx, gy) with
  | Some (k, x, y) => (k =? n - 1) && zero_mod (x - gx) && zero_mod (y + gy)
  | None => false
  end.
Lemma chain_order_ok n ops : chain_order n ops = true -> zm n g = winf p b.
Proof.
  unfold chain_order. intros H. destruct (chain ops (1, gx, gy)) as [[[k x] y]|] eqn:E; [|discriminate]. apply chain_good in E; [|split; [lia|exact g_aff]]. destruct E as (K & A).
  rewrite !andb_true_iff in H. destruct H as ((KN & X) & Y). apply Z.eqb_eq in KN. apply zero_mod_of in X. apply zero_mod_of in Y. rewrite of_Z_sub in X. apply (lin p pp) in X. rewrite of_Z_add in Y.
  assert (Y' : of_Z p y = fopp (of_Z p gy)) by (apply (lin p pp); rewrite <- Y; ring).
  replace n with (k + 1) by lia. rewrite (zmul_succ _ _ (wadd_assoc p pp p3 b b0) (wadd_comm p pp p3 b b0) (wadd_inf p pp p3 b)) by lia.
  assert (M : zm k g = wneg p pp b g) by (apply wpt_ext; rewrite A, X, Y'; cbn [wneg aff]; rewrite g_aff; reflexivity). rewrite M. apply wadd_neg.
Qed.
End Chain.

(** ** The same in integers *)
Section Integers.
Context (p : Z) (pp : prime p) (p3 : 3 < p) (bz : Z).
Notation b := (of_Z p bz).
Context (b0 : b <> f0) (no_root : forall x : Fq p, fadd (fmul (fmul x x) x) b <> f0).
Add Field zf : (fq_field pp).
Ltac homZ := repeat (rewrite of_Z_sub || rewrite of_Z_add || rewrite of_Z_mul).

Lemma w_points x y : 0 <= x < p -> 0 <= y < p ->
  (y * y) mod p = (x * x * x + bz) mod p <-> exists P : wpt p b, wcoords p b P = Some (x, y).
Proof.
  intros X Y. assert (TX : to_Z (of_Z p x) = x) by (rewrite to_Z_of_Z; apply Z.mod_small, X). assert (TY : to_Z (of_Z p y) = y) by (rewrite to_Z_of_Z; apply Z.mod_small, Y). split.
  - intros H. assert (O : oncurveb p b (Aff (of_Z p x) (of_Z p y)) = true) by (apply (oc_aff p b); apply of_Z_eq in H; rewrite of_Z_add, !of_Z_mul in H; exact H).
    exists (mkW p b _ O). unfold wcoords. cbn [aff]. rewrite TX, TY. reflexivity.
  - intros ([[|a c] O] & H); unfold wcoords in H; cbn [aff] in H; [discriminate|]. assert (E1 : to_Z a = x) by congruence. assert (E2 : to_Z c = y) by congruence. subst x y.
    apply (oc_aff p b) in O. apply of_Z_eq_iff. homZ. rewrite !of_Z_to_Z. exact O.
Qed.
Lemma fdiv_cancel (a d : Fq p) : d <> f0 -> fmul (fmul a (finv d)) d = a.
Proof. intros D. transitivity (fmul a (fmul (finv d) d)); [ring|]. rewrite (finv_l pp _ D). ring. Qed.
Lemma w_addition P Q x1 y1 x2 y2 : wcoords p b P = Some (x1, y1) -> wcoords p b Q = Some (x2, y2) ->
  (x1 = x2 -> y1 + y2 = p -> wadd p pp p3 b P Q = winf p b) /\
  (~ (x1 = x2 /\ y1 + y2 = p) -> exists l x3 y3, wcoords p b (wadd p pp p3 b P Q) = Some (x3, y3) /\
     (if x1 =? x2 then (2 * y1 * l) mod p = (3 * x1 * x1) mod p else (l * (x2 - x1)) mod p = (y2 - y1) mod p) /\
     x3 = (l * l - x1 - x2) mod p /\ y3 = (l * (x1 - x3) - y1) mod p).
Proof.
  intros HP HQ. destruct P as [[|a1 c1] OP]; [discriminate|]. destruct Q as [[|a2 c2] OQ]; [discriminate|]. unfold wcoords in HP, HQ. cbn [aff] in HP, HQ.
  assert (E1 : to_Z a1 = x1) by congruence. assert (E2 : to_Z c1 = y1) by congruence. assert (E3 : to_Z a2 = x2) by congruence. assert (E4 : to_Z c2 = y2) by congruence. subst x1 y1 x2 y2. clear HP HQ.
  pose proof (to_Z_range pp c1) as RC1. pose proof (to_Z_range pp c2) as RC2.
  assert (C2 : c2 <> f0) by (apply (y_nz p pp b no_root a2); exact OQ).
  assert (OPP : to_Z c1 + to_Z c2 = p <-> c1 = fopp c2).
  { split; intros H; [apply fq_ext; rewrite (opp_Z p pp p3) by exact C2; lia|rewrite H, (opp_Z p pp p3) by exact C2; lia]. }
  split.
  - intros A C. apply fq_ext in A. apply OPP in C. subst a2 c1. apply wpt_ext. cbn [wadd aff winf]. cbn [aadd]. rewrite !feqb_refl. reflexivity.
  - intros N. assert (FIN : forall l, aadd (Aff a1 c1) (Aff a2 c2) = finish p l a1 c1 a2 ->
      exists x3 y3, wcoords p b (wadd p pp p3 b (mkW p b (Aff a1 c1) OP) (mkW p b (Aff a2 c2) OQ)) = Some (x3, y3) /\
        x3 = (to_Z l * to_Z l - to_Z a1 - to_Z a2) mod p /\ y3 = (to_Z l * (to_Z a1 - x3) - to_Z c1) mod p).
    { intros l E. unfold wcoords. cbn [wadd aff]. rewrite E. unfold finish. eexists. eexists. split; [reflexivity|].
      assert (X : to_Z (fsub (fsub (fmul l l) a1) a2) = (to_Z l * to_Z l - to_Z a1 - to_Z a2) mod p) by (rewrite <- to_Z_of_Z; f_equal; homZ; rewrite !of_Z_to_Z; reflexivity).
      split; [exact X|]. rewrite <- to_Z_of_Z. f_equal. homZ. rewrite !of_Z_to_Z. reflexivity. }
    cbn [aadd] in FIN. destruct (feqb_spec a1 a2) as [A|A].
    + subst a2. rewrite Z.eqb_refl. destruct (feqb_spec c1 (fopp c2)) as [C|C]; [exfalso; apply N; split; [reflexivity|apply OPP, C]|].
      destruct (FIN _ eq_refl) as (x3 & y3 & W & X & Y). exists (to_Z (fmul (fmul (fmul (f3 p) a1) a1) (finv (fmul (f2 p) c1)))), x3, y3. split; [exact W|]. split; [|split; assumption].
      destruct (same_x p pp b a1 c1 c2 OP OQ) as [E|E]; [subst c2|contradiction].
      assert (D : fmul (f2 p) c1 <> f0) by (intros E; apply C2; apply (cancel0 p pp (f2 p)); [apply (f2_nz p p3)|exact E]).
      apply of_Z_eq_iff. homZ. rewrite !of_Z_to_Z. replace (of_Z p 2) with (f2 p) by (unfold f2, f1; rewrite <- of_Z_add; reflexivity). replace (of_Z p 3) with (f3 p) by (unfold f3, f1; rewrite <- !of_Z_add; reflexivity).
      pose proof (fdiv_cancel (fmul (fmul (f3 p) a1) a1) _ D) as K. rewrite <- K at 2. ring.
    + assert (NE : to_Z a1 <> to_Z a2) by (intros E; apply A, fq_ext, E). apply Z.eqb_neq in NE. rewrite NE.
      destruct (FIN _ eq_refl) as (x3 & y3 & W & X & Y). exists (to_Z (fmul (fsub c1 c2) (finv (fsub a1 a2)))), x3, y3. split; [exact W|]. split; [|split; assumption].
      apply of_Z_eq_iff. homZ. rewrite !of_Z_to_Z. pose proof (fdiv_cancel (fsub c1 c2) _ (sub_nz p pp _ _ A)) as K.
      transitivity (fopp (fmul (fmul (fsub c1 c2) (finv (fsub a1 a2))) (fsub a1 a2))); [ring|]. rewrite K. ring.
Qed.
End Integers.

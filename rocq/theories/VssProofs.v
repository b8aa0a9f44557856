From Coq Require Import ZArith Lia Bool List Field Permutation.
From Verif Require Import ZArithX Fq Curve Outcome Vss SigmaProofs.
Import ListNotations.
Local Open Scope Z_scope.

Section Proofs.
Context (C : Curve).
Notation q := (cq C).
Notation F := (Fq q).
Add Field cfield : (C_field C).

Lemma fidx_inj i j : (Z.of_nat i < q) -> (Z.of_nat j < q) -> fidx (C := C) i = fidx j -> i = j.
Proof.
  intros Hi Hj E. apply (f_equal to_Z) in E. unfold fidx in E. rewrite !to_Z_of_Z in E.
  rewrite !Z.mod_small in E by lia. lia.
Qed.
Lemma fidx_nz i : (0 < i)%nat -> (Z.of_nat i < q) -> fidx (C := C) i <> f0.
Proof. intros Hi Hq. apply of_Z_nz. lia. Qed.

Lemma fprod_eq (l : list F) : forall a, fold_left fmul l a = (a * fprod l)%Fq.
Proof.
  unfold fprod. induction l as [|x l IH]; intros a; cbn; [ring|].
  rewrite IH, (IH (f1 * x)%Fq). ring.
Qed.
Lemma fprod_nil : fprod (C := C) [] = f1. Proof. reflexivity. Qed.
Lemma fprod_cons (x : F) l : fprod (x :: l) = (x * fprod l)%Fq.
Proof. unfold fprod at 1. cbn [fold_left]. rewrite fprod_eq. ring. Qed.
Lemma fprod_app (l l' : list F) : fprod (l ++ l') = (fprod l * fprod l')%Fq.
Proof. induction l as [|x l IH]; cbn [app]; [rewrite fprod_nil; ring|]. rewrite !fprod_cons, IH. ring. Qed.
Lemma fprod_nz (l : list F) : (forall x, In x l -> x <> f0) -> fprod l <> f0.
Proof.
  induction l as [|x l IH]; intros H.
  - rewrite fprod_nil. apply f1_neq_f0, cq_prime.
  - rewrite fprod_cons. apply fmul_nz; [apply cq_prime|apply H; left; reflexivity|].
    apply IH. intros y Hy. apply H; right; assumption.
Qed.
Lemma fprod_zero (l : list F) : In f0 l -> fprod l = f0.
Proof.
  induction l as [|x l IH]; intros H; [destruct H|]. rewrite fprod_cons.
  destruct H as [->|H]; [|rewrite (IH H)]; ring.
Qed.

(** ** Polynomials as coefficient lists *)
Fixpoint padd2 (a b : list F) : list F :=
  match a, b with
  | [], _ => b
  | _, [] => a
  | x :: a', y :: b' => (x + y)%Fq :: padd2 a' b'
  end.
Definition pscale (k : F) (a : list F) : list F := map (fun c => (k * c)%Fq) a.
(** multiply by (x - a) *)
Definition pmul1 (a : F) (cs : list F) : list F := padd2 (f0 :: cs) (pscale (fopp a) cs).

Lemma peval_padd2 a b x : peval (padd2 a b) x = (peval a x + peval b x)%Fq.
Proof.
  revert b; induction a as [|c a IH]; intros [|d b]; cbn; try ring. rewrite IH. ring.
Qed.
Lemma peval_pscale k a x : peval (pscale k a) x = (k * peval a x)%Fq.
Proof. induction a as [|c a IH]; cbn; [ring|]. fold (pscale k a). rewrite IH. ring. Qed.
Lemma peval_pmul1 a cs x : peval (pmul1 a cs) x = ((x - a) * peval cs x)%Fq.
Proof. unfold pmul1. rewrite peval_padd2, peval_pscale. cbn. ring. Qed.
Lemma length_padd2 a b : length (padd2 a b) = Nat.max (length a) (length b).
Proof. revert b; induction a as [|c a IH]; intros [|d b]; cbn; try reflexivity. rewrite IH. reflexivity. Qed.
Lemma length_pmul1 a cs : length (pmul1 a cs) = S (length cs).
Proof. unfold pmul1, pscale. rewrite length_padd2, map_length. cbn [length]. lia. Qed.

(** Division by a linear factor. *)
Lemma pdiv1 (cs : list F) (a : F) : exists ds, length ds = pred (length cs) /\
  (forall x, peval cs x = ((x - a) * peval ds x + peval cs a)%Fq) /\
  ((forall d, In d ds -> d = f0) -> peval cs a = f0 -> forall c, In c cs -> c = f0).
Proof.
  induction cs as [|c cs (ds & Hl & He & Hz)].
  - exists []. split; [reflexivity|]. split; [intros x; cbn; ring|]. intros _ _ c [].
  - destruct cs as [|c' cs'].
    + exists []. split; [reflexivity|]. split; [intros x; cbn; ring|].
      intros _ H y [<-|[]]. cbn in H. rewrite <- H. ring.
    + (* cs = peval(cs) a-shifted: c + x * ((x-a) ds + cs(a)) *)
      exists (peval (c' :: cs') a :: ds).
      split; [cbn [length] in *; lia|]. split.
      * intros x. change (peval (c :: c' :: cs') x) with (c + x * peval (c' :: cs') x)%Fq.
        change (peval (c :: c' :: cs') a) with (c + a * peval (c' :: cs') a)%Fq.
        change (peval (peval (c' :: cs') a :: ds) x) with (peval (c' :: cs') a + x * peval ds x)%Fq.
        rewrite (He x) at 1. ring.
      * intros Hd H.
        assert (Hp : peval (c' :: cs') a = f0) by (apply Hd; left; reflexivity).
        assert (Hcs : forall y, In y (c' :: cs') -> y = f0).
        { apply Hz; [|exact Hp]. intros d Hd'. apply Hd. right; assumption. }
        intros y [<-|Hy]; [|apply Hcs, Hy].
        change (peval (c :: c' :: cs') a) with (c + a * peval (c' :: cs') a)%Fq in H.
        rewrite Hp in H. rewrite <- H. ring.
Qed.

(** A polynomial with as many distinct roots as coefficients is zero. *)
Lemma roots_zero : forall (xs : list F) (cs : list F), NoDup xs ->
  (forall x, In x xs -> peval cs x = f0) -> (length cs <= length xs)%nat ->
  forall c, In c cs -> c = f0.
Proof.
  induction xs as [|a xs IH]; intros cs Hnd Hr Hlen.
  - destruct cs; [intros c []|cbn in Hlen; lia].
  - destruct cs as [|c0 cs0]; [intros c []|].
    destruct (pdiv1 (c0 :: cs0) a) as (ds & Hl & He & Hz). inversion Hnd as [|? ? Hna Hnd']; subst.
    assert (Ha : peval (c0 :: cs0) a = f0) by (apply Hr; left; reflexivity).
    apply Hz; [|exact Ha].
    apply (IH ds Hnd'); [|cbn [length pred] in *; lia].
    intros x Hx. pose proof (Hr x (or_intror Hx)) as E. rewrite He, Ha in E.
    assert (E' : ((x - a) * peval ds x)%Fq = f0) by (rewrite <- E; ring).
    apply fmul_integral in E'; [|apply cq_prime]. destruct E' as [E'|E']; [|assumption].
    exfalso. apply Hna. apply fsub_0 in E'. subst. assumption.
Qed.

Lemma peval_zero cs : (forall c : F, In c cs -> c = f0) -> forall x, peval cs x = f0.
Proof.
  induction cs as [|c cs IH]; intros H x; cbn; [reflexivity|].
  rewrite (H c (or_introl eq_refl)), IH; [ring|]. intros y Hy; apply H; right; assumption.
Qed.

(** Two polynomials agreeing at enough points are equal. *)
Lemma padd2_nth_sub : forall a b : list F, length a = length b ->
  (forall c, In c (padd2 a (pscale (fopp f1) b)) -> c = f0) -> a = b.
Proof.
  induction a as [|x a IH]; intros [|y b] Hl H; try discriminate; [reflexivity|].
  cbn in H. f_equal.
  - assert (E : (x + fopp f1 * y)%Fq = f0) by (apply H; left; reflexivity).
    transitivity ((x + fopp f1 * y) + y)%Fq; [ring|]. rewrite E. ring.
  - apply IH; [cbn in Hl; lia|]. intros c Hc. apply H. right; exact Hc.
Qed.
Lemma poly_unique (xs cs ds : list F) : NoDup xs -> (length cs <= length xs)%nat -> (length ds <= length xs)%nat ->
  (forall x, In x xs -> peval cs x = peval ds x) -> forall x, peval cs x = peval ds x.
Proof.
  intros Hnd Hc Hd He x.
  pose proof (roots_zero xs (padd2 cs (pscale (fopp f1) ds)) Hnd) as R.
  assert (Z : forall c, In c (padd2 cs (pscale (fopp f1) ds)) -> c = f0).
  { apply R.
    - intros y Hy. rewrite peval_padd2, peval_pscale, (He y Hy). ring.
    - rewrite length_padd2. unfold pscale. rewrite map_length. lia. }
  pose proof (peval_zero _ Z x) as E. rewrite peval_padd2, peval_pscale in E.
  transitivity ((peval cs x + fopp f1 * peval ds x) + peval ds x)%Fq; [ring|]. rewrite E. ring.
Qed.
Lemma poly_unique_coefs (xs cs ds : list F) : NoDup xs -> length cs = length ds -> (length cs <= length xs)%nat ->
  (forall x, In x xs -> peval cs x = peval ds x) -> cs = ds.
Proof.
  intros Hnd Hl Hc He. apply padd2_nth_sub; [assumption|].
  apply (roots_zero xs); [assumption| |].
  - intros y Hy. rewrite peval_padd2, peval_pscale, (He y Hy). ring.
  - rewrite length_padd2. unfold pscale. rewrite map_length. lia.
Qed.

(** ** Interpolation *)
(** Product of (x - x_j). *)
Fixpoint pvanish (xs : list F) : list F :=
  match xs with [] => [f1] | a :: r => pmul1 a (pvanish r) end.
Lemma peval_pvanish xs x : peval (pvanish xs) x = fprod (map (fun a => (x - a)%Fq) xs).
Proof.
  induction xs as [|a xs IH]; cbn [pvanish map].
  - rewrite fprod_nil. cbn. ring.
  - rewrite peval_pmul1, IH, fprod_cons. reflexivity.
Qed.
Lemma length_pvanish xs : length (pvanish xs) = S (length xs).
Proof. induction xs as [|a xs IH]; cbn [pvanish]; [reflexivity|]. rewrite length_pmul1, IH. reflexivity. Qed.

Definition pbasis (others : list F) (x : F) : list F :=
  pscale (finv (fprod (map (fun a => (x - a)%Fq) others))) (pvanish others).

Fixpoint interp (pre pts : list F) (vals : list F) : list F :=
  match pts, vals with
  | x :: xs, y :: ys => padd2 (pscale y (pbasis (pre ++ xs) x)) (interp (pre ++ [x]) xs ys)
  | _, _ => []
  end.

Lemma peval_pbasis others x z :
  peval (pbasis others x) z =
  (finv (fprod (map (fun a => (x - a)%Fq) others)) * fprod (map (fun a => (z - a)%Fq) others))%Fq.
Proof. unfold pbasis. rewrite peval_pscale, peval_pvanish. reflexivity. Qed.

Lemma peval_pbasis_other others x z : In z others -> peval (pbasis others x) z = f0.
Proof.
  intros H. rewrite peval_pbasis, (fprod_zero (map (fun a => (z - a)%Fq) others)); [ring|].
  apply in_map_iff. exists z. split; [ring|assumption].
Qed.
Lemma diffs_nz others (x : F) : ~ In x others -> fprod (map (fun a => (x - a)%Fq) others) <> f0.
Proof.
  intros H. apply fprod_nz. intros y Hy. apply in_map_iff in Hy. destruct Hy as (a & <- & Ha).
  apply fsub_nz. intros ->. contradiction.
Qed.
Lemma peval_pbasis_self others x : ~ In x others -> peval (pbasis others x) x = f1.
Proof. intros H. rewrite peval_pbasis. field. apply diffs_nz, H. Qed.

Lemma interp_pre : forall pts vals pre z, In z pre -> peval (interp pre pts vals) z = f0.
Proof.
  induction pts as [|x xs IH]; intros [|y ys] pre z Hz; try reflexivity.
  cbn [interp]. rewrite peval_padd2, peval_pscale, peval_pbasis_other, IH; [ring| |];
  apply in_or_app; left; assumption.
Qed.

Lemma interp_spec : forall pts vals pre, NoDup (pre ++ pts) -> length pts = length vals ->
  Forall2 (fun x y => peval (interp pre pts vals) x = y) pts vals.
Proof.
  induction pts as [|x xs IH]; intros [|y ys] pre Hnd Hl; try discriminate; [constructor|].
  cbn [interp].
  assert (Hx : ~ In x (pre ++ xs)) by (apply NoDup_remove_2; assumption).
  constructor.
  - rewrite peval_padd2, peval_pscale, peval_pbasis_self by assumption.
    rewrite interp_pre; [ring|]. apply in_or_app; right; left; reflexivity.
  - assert (Hnd' : NoDup ((pre ++ [x]) ++ xs)) by (rewrite <- app_assoc; exact Hnd).
    specialize (IH ys (pre ++ [x]) Hnd' ltac:(cbn in Hl; lia)).
    revert IH. generalize (interp (pre ++ [x]) xs ys) as L. intros L HF.
    assert (G : forall xs' ys', Forall2 (fun x0 y0 => peval L x0 = y0) xs' ys' -> incl xs' xs ->
      Forall2 (fun x0 y0 => peval (padd2 (pscale y (pbasis (pre ++ xs) x)) L) x0 = y0) xs' ys').
    { induction 1 as [|a b la lb Hab HF' IHF]; intros Hincl; constructor.
      - rewrite peval_padd2, peval_pscale, peval_pbasis_other, Hab; [ring|].
        apply in_or_app; right. apply Hincl; left; reflexivity.
      - apply IHF. intros z Hz. apply Hincl; right; assumption. }
    apply (G _ _ HF). apply incl_refl.
Qed.

Lemma length_interp : forall pts vals pre, (length (interp pre pts vals) <= length (pre ++ pts))%nat.
Proof.
  induction pts as [|x xs IH]; intros [|y ys] pre; cbn [interp length]; try lia.
  rewrite length_padd2. unfold pbasis, pscale. rewrite !map_length, length_pvanish.
  specialize (IH ys (pre ++ [x])). rewrite !app_length in *. cbn [length] in *. lia.
Qed.

Lemma length_interp_eq pts vals : pts <> [] -> length pts = length vals ->
  length (interp [] pts vals) = length pts.
Proof.
  intros Hne Hl. destruct pts as [|x xs]; [contradiction|]. destruct vals as [|y ys]; [discriminate|].
  pose proof (length_interp (x :: xs) (y :: ys) []) as H. cbn [app] in H.
  cbn [interp] in *. rewrite length_padd2 in *. unfold pbasis, pscale in *.
  rewrite !map_length, length_pvanish in *. cbn [app length] in *. lia.
Qed.

(** ** The code's Lagrange interpolation at zero *)
Lemma fprod_opp (l : list F) : forall x, (fprod l * finv (fprod (map (fun xj => (xj - x)%Fq) l)))%Fq =
  (finv (fprod (map (fun a => (x - a)%Fq) l)) * fprod (map (fun a => (f0 - a)%Fq) l))%Fq \/ In x l.
Proof.
  intros x. destruct (in_dec (Fq_eq_dec (q := q)) x l) as [H|H]; [right; assumption|left].
  revert H. induction l as [|a l IH]; intros H; cbn [map].
  - rewrite !fprod_nil. field. apply f1_neq_f0, cq_prime.
  - rewrite !fprod_cons.
    assert (Hl : ~ In x l) by (intros K; apply H; right; assumption).
    assert (Ha : a <> x) by (intros K; apply H; left; assumption).
    specialize (IH Hl).
    pose proof (diffs_nz l x Hl) as N1.
    assert (N2 : fprod (map (fun xj => (xj - x)%Fq) l) <> f0).
    { apply fprod_nz. intros y Hy. apply in_map_iff in Hy. destruct Hy as (b & <- & Hb).
      apply fsub_nz. intros ->. contradiction. }
    assert (Hax : (a - x)%Fq <> f0) by (apply fsub_nz; assumption).
    assert (Hxa : (x - a)%Fq <> f0) by (apply fsub_nz; auto).
    transitivity ((a * finv (a - x)) * (fprod l * finv (fprod (map (fun xj => (xj - x)%Fq) l))))%Fq.
    + field. auto.
    + rewrite IH. field. auto.
Qed.

Lemma lagrange_terms_spec {E} : forall pts vals pre, NoDup (pre ++ pts) -> length pts = length vals ->
  exists l, lagrange_terms (E := E) pre pts vals = Ok l /\ length l = length pts /\
            fsum l = peval (interp pre pts vals) f0.
Proof.
  induction pts as [|x xs IH]; intros [|y ys] pre Hnd Hl; try discriminate.
  - exists []. repeat split.
  - cbn [lagrange_terms interp].
    assert (Hx : ~ In x (pre ++ xs)) by (apply NoDup_remove_2; assumption).
    assert (Hnd' : NoDup ((pre ++ [x]) ++ xs)) by (rewrite <- app_assoc; exact Hnd).
    destruct (IH ys (pre ++ [x]) Hnd' ltac:(cbn in Hl; lia)) as (l & E1 & E2 & E3).
    assert (N2 : fprod (map (fun xj => (xj - x)%Fq) (pre ++ xs)) <> f0).
    { apply fprod_nz. intros z Hz. apply in_map_iff in Hz. destruct Hz as (b & <- & Hb).
      apply fsub_nz. intros ->. contradiction. }
    rewrite finvert_nz by assumption. cbn [unwrap obind]. rewrite E1. cbn [obind].
    eexists. split; [reflexivity|]. split; [cbn; lia|].
    cbn [fsum]. rewrite peval_padd2, peval_pscale, peval_pbasis, E3.
    destruct (fprod_opp (pre ++ xs) x) as [EE|EE]; [|contradiction].
    rewrite EE. ring.
Qed.

Lemma peval_at_0 cs : peval (C := C) cs f0 = hd f0 cs.
Proof. destruct cs; cbn; [reflexivity|ring]. Qed.

(** Interpolating at least as many points as coefficients gives the constant term. *)
Lemma interp_at_zero (cs pts : list F) : NoDup pts -> (length cs <= length pts)%nat ->
  peval (interp [] pts (map (peval cs) pts)) f0 = hd f0 cs.
Proof.
  intros Hnd Hl. rewrite <- peval_at_0. symmetry.
  apply (poly_unique pts); [assumption|assumption| |].
  - pose proof (length_interp pts (map (peval cs) pts) []) as H. cbn in H. exact H.
  - pose proof (interp_spec pts (map (peval cs) pts) [] Hnd ltac:(rewrite map_length; reflexivity)) as HF.
    intros x Hx. revert HF. generalize (interp [] pts (map (peval cs) pts)) as L.
    clear Hnd Hl. induction pts as [|a pts IH]; intros L HF; [destruct Hx|].
    cbn [map] in HF. inversion HF; subst. destruct Hx as [->|Hx]; [congruence|]. apply IH; assumption.
Qed.

Lemma lagrange_at_zero_spec {E} (cs pts : list F) : NoDup pts -> pts <> [] -> (length cs <= length pts)%nat ->
  lagrange_at_zero (E := E) pts (map (peval cs) pts) = Ok (hd f0 cs).
Proof.
  intros Hnd Hne Hl. unfold lagrange_at_zero. rewrite map_length, Nat.eqb_refl. cbn [oassert obind].
  destruct (lagrange_terms_spec (E := E) pts (map (peval cs) pts) [] Hnd ltac:(rewrite map_length; reflexivity))
    as (l & E1 & E2 & E3).
  rewrite E1. cbn [obind]. destruct l as [|h tl].
  - destruct pts; [contradiction|discriminate].
  - rewrite fold_left_fadd. f_equal. rewrite <- (interp_at_zero cs pts Hnd Hl), <- E3. reflexivity.
Qed.

(** Mapping shares of any superset of t+1 indices to additive shares. *)
Definition lam (n : nat) (s : list nat) (i : nat) : F :=
  let others := map (fun x => fidx (x + 1)) (filter (fun x => negb (x =? i)%nat) s) in
  (fprod others * finv (fprod (map (fun xj => (xj - fidx (i + 1))%Fq) others)))%Fq.

Lemma map_share_ok {E} n i s : (Z.of_nat n < q) -> (i < n)%nat -> (forall x, In x s -> (x < n)%nat) ->
  map_share (E := E) (C := C) n i s = Ok (lam n s i).
Proof.
  intros Hn Hi Hs. unfold map_share.
  rewrite (proj2 (Nat.ltb_lt i n) Hi). cbn [oassert obind].
  assert (HA : forallb (fun x => (x =? i)%nat || (x <? n)%nat) s = true).
  { apply forallb_forall. intros x Hx. rewrite (proj2 (Nat.ltb_lt x n) (Hs x Hx)). apply orb_true_r. }
  rewrite HA. cbn [oassert obind]. rewrite finvert_nz; [reflexivity|].
  apply fprod_nz. intros y Hy. apply in_map_iff in Hy. destruct Hy as (a & <- & Ha).
  apply in_map_iff in Ha. destruct Ha as (x & <- & Hx). apply filter_In in Hx. destruct Hx as [Hx Hne].
  apply fsub_nz. intros EE. apply fidx_inj in EE; [|specialize (Hs x Hx); lia|lia].
  assert (x = i) by lia. subst. rewrite Nat.eqb_refl in Hne. discriminate.
Qed.

Lemma filter_split (pre : list nat) x xs : NoDup (pre ++ x :: xs) ->
  filter (fun y => negb (y =? x)%nat) (pre ++ x :: xs) = pre ++ xs.
Proof.
  intros H. rewrite filter_app. cbn [filter]. rewrite Nat.eqb_refl. cbn [negb].
  assert (K : forall l, ~ In x l -> filter (fun y => negb (y =? x)%nat) l = l).
  { induction l as [|a l IH]; intros Hn; [reflexivity|]. cbn. destruct (Nat.eqb_spec a x) as [->|].
    - exfalso; apply Hn; left; reflexivity.
    - cbn. f_equal. apply IH. intros Hin; apply Hn; right; assumption. }
  apply NoDup_remove_2 in H. rewrite !K; [reflexivity| |]; intros Hin; apply H, in_or_app; auto.
Qed.

Lemma lam_terms {E} n (vals : nat -> F) : forall s pre, NoDup (pre ++ s) ->
  (forall x, In x (pre ++ s) -> (x < n)%nat) -> Z.of_nat n < q ->
  lagrange_terms (E := E) (map (fun i => fidx (i + 1)) pre) (map (fun i => fidx (i + 1)) s) (map vals s) =
  Ok (map (fun i => (lam n (pre ++ s) i * vals i)%Fq) s).
Proof.
  induction s as [|x xs IH]; intros pre Hnd Hb Hn; [reflexivity|].
  cbn [map lagrange_terms].
  rewrite <- map_app. unfold lam at 1. rewrite filter_split by assumption.
  rewrite finvert_nz.
  - cbn [unwrap obind].
    replace (map (fun i => fidx (i + 1)) pre ++ [fidx (x + 1)]) with
      (map (fun i => fidx (C := C) (i + 1)) (pre ++ [x])) by (rewrite map_app; reflexivity).
    rewrite IH; [| | |assumption].
    + cbn [obind]. rewrite <- app_assoc. cbn [app]. reflexivity.
    + rewrite <- app_assoc. exact Hnd.
    + intros y Hy. rewrite <- app_assoc in Hy. apply Hb. exact Hy.
  - apply fprod_nz. intros y Hy. apply in_map_iff in Hy. destruct Hy as (a & <- & Ha).
    apply in_map_iff in Ha. destruct Ha as (z & <- & Hz).
    apply fsub_nz. intros EE.
    assert (Hz' : In z (pre ++ x :: xs)) by (apply in_app_or in Hz; apply in_or_app; cbn; tauto).
    apply fidx_inj in EE.
    + assert (z = x) by lia. subst. apply NoDup_remove_2 in Hnd. contradiction.
    + specialize (Hb z Hz'). lia.
    + assert (x < n)%nat by (apply Hb, in_or_app; right; left; reflexivity). lia.
Qed.

Lemma NoDup_fidx n s : NoDup s -> (forall x, In x s -> (x < n)%nat) -> Z.of_nat n < q ->
  NoDup (map (fun i => fidx (C := C) (i + 1)) s).
Proof.
  intros Hnd Hb Hn. induction s as [|x s IH]; cbn; [constructor|].
  inversion Hnd; subst. constructor.
  - intros Hin. apply in_map_iff in Hin. destruct Hin as (y & E & Hy).
    apply fidx_inj in E.
    + assert (y = x) by lia. subst. contradiction.
    + assert (y < n)%nat by (apply Hb; right; assumption). lia.
    + assert (x < n)%nat by (apply Hb; left; reflexivity). lia.
  - apply IH; [assumption|]. intros y Hy. apply Hb. right; assumption.
Qed.

(** Additive shares sum to the secret. *)
Lemma lam_sum n (cs : list F) s : NoDup s -> (forall x, In x s -> (x < n)%nat) -> Z.of_nat n < q ->
  s <> [] -> (length cs <= length s)%nat ->
  fsum (map (fun i => (lam n s i * peval cs (fidx (i + 1)))%Fq) s) = hd f0 cs.
Proof.
  intros Hnd Hb Hn Hne Hl.
  pose proof (lagrange_at_zero_spec (E := unit) cs (map (fun i => fidx (i + 1)) s)
     (NoDup_fidx n s Hnd Hb Hn)) as H.
  rewrite map_length, map_map in H.
  specialize (H ltac:(destruct s; [contradiction|discriminate]) Hl).
  unfold lagrange_at_zero in H. rewrite !map_length, Nat.eqb_refl in H. cbn [oassert obind] in H.
  pose proof (lam_terms (E := unit) n (fun i => peval cs (fidx (i + 1))) s [] Hnd Hb Hn) as T.
  cbn [map] in T. rewrite T in H. cbn [obind] in H. cbn [app] in H.
  destruct s as [|x xs]; [contradiction|].
  cbn [map] in H. rewrite fold_left_fadd in H. injection H as H. cbn [map fsum]. exact H.
Qed.

(** Exactly one polynomial of each size through given points. *)
Lemma interp_unique (xs ys : list F) : NoDup xs -> xs <> [] -> length xs = length ys ->
  exists cs, (length cs = length xs /\ map (peval cs) xs = ys) /\
    forall ds, length ds = length xs -> map (peval ds) xs = ys -> ds = cs.
Proof.
  intros Hnd Hne Hl. exists (interp [] xs ys).
  assert (HE : map (peval (interp [] xs ys)) xs = ys).
  { pose proof (interp_spec xs ys [] Hnd Hl) as HF. revert HF.
    generalize (interp [] xs ys) as L. clear. intros L HF.
    induction HF as [|x y la lb Hab HF IH]; cbn; [reflexivity|]. rewrite Hab, IH. reflexivity. }
  split; [split; [apply length_interp_eq; assumption|exact HE]|].
  intros ds Hd E. apply (poly_unique_coefs xs); [assumption| | |].
  - rewrite length_interp_eq by assumption. assumption.
  - lia.
  - rewrite <- HE in E. revert E. generalize (interp [] xs ys) as L. clear. intros L.
    induction xs as [|x xs IH]; intros E z Hz; [destruct Hz|]. cbn in E.
    injection E as E1 E2. destruct Hz as [->|Hz]; [assumption|]. apply IH; assumption.
Qed.

(** ** Feldman commitments *)
Lemma horner_spec (x : F) : forall (tl : list (pt C)) h,
  fold_left (fun acc P => padd P (smul x acc)) tl h =
  smul (peval (map dlog (rev tl ++ [h])) x) gen.
Proof.
  induction tl as [|P tl IH]; intros h; cbn [fold_left rev].
  - cbn [map app peval]. to_dlog. ring.
  - rewrite IH. rewrite <- app_assoc. cbn [app]. f_equal.
    generalize (rev tl) as l. induction l as [|c l IHl]; cbn.
    + autorewrite with dlog. ring.
    + rewrite IHl. reflexivity.
Qed.
Lemma point_commitment_spec {E} (v : vss C) i :
  point_commitment (E := E) v i =
  match vs_com v with [] => Panic | _ => Ok (smul (peval (map dlog (vs_com v)) (fidx i)) gen) end.
Proof.
  unfold point_commitment. destruct (vs_com v) as [|P l] eqn:Ev; [reflexivity|].
  destruct (rev (P :: l)) as [|h tl] eqn:Er.
  - apply (f_equal (@length _)) in Er. rewrite rev_length in Er. discriminate.
  - rewrite horner_spec. f_equal. f_equal. f_equal. f_equal.
    rewrite <- (rev_involutive (P :: l)), Er. reflexivity.
Qed.
Lemma validate_share_spec (v : vss C) s i : vs_com v <> [] ->
  (validate_share v s i = Ok tt <-> s = peval (map dlog (vs_com v)) (fidx i)) /\
  (validate_share v s i = Ok tt \/ validate_share v s i = Err tt).
Proof.
  intros Hne. unfold validate_share, validate_share_public. rewrite point_commitment_spec.
  destruct (vs_com v) as [|P l] eqn:Ev; [contradiction|]. cbn [obind].
  destruct (pt_eqb_spec C (smul s gen) (smul (peval (map dlog (P :: l)) (fidx i)) gen)) as [E|E]; split; auto.
  - split; auto. intros _. apply (smul_gen_inj C) in E. exact E.
  - split; [discriminate|]. intros ->. contradiction.
Qed.
Lemma validate_share_panic (v : vss C) s i : validate_share v s i = Panic <-> vs_com v = [].
Proof.
  unfold validate_share, validate_share_public. rewrite point_commitment_spec.
  destruct (vs_com v); cbn; split; intros H; try reflexivity; try discriminate.
  destruct (pt_eqb _ _); discriminate.
Qed.
Lemma dlog_map_smul (cs : list F) : map dlog (map (fun c => smul c (gen : pt C)) cs) = cs.
Proof.
  induction cs as [|c cs IH]; [reflexivity|]. cbn. rewrite IH. f_equal.
  rewrite dlog_smul, dlog_gen. ring.
Qed.
Lemma vss_share_ok {E} t n (cs : list F) v sh : vss_share (E := E) t n cs = Ok (v, sh) ->
  (t < n)%nat /\ vs_t v = t /\ vs_n v = n /\ vs_com v = map (fun c => smul c gen) cs /\
  sh = map (fun i => peval cs (fidx i)) (seq 1 n).
Proof.
  unfold vss_share. destruct (Nat.ltb_spec t n); cbn; [|discriminate].
  intros H'. injection H' as <- <-. cbn. auto.
Qed.
Lemma nth_error_seq_map {A} (f : nat -> A) n i : (i < n)%nat -> nth_error (map f (seq 1 n)) i = Some (f (S i)).
Proof.
  intros H. rewrite nth_error_map.
  assert (nth_error (seq 1 n) i = Some (S i)) as ->; [|reflexivity].
  rewrite (nth_error_nth' _ 0%nat); [|rewrite seq_length; lia]. rewrite seq_nth by lia. reflexivity.
Qed.
End Proofs.

Arguments lam {_} _ _ _.
Arguments interp {_} _ _ _.

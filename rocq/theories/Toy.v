(** A concrete instance of [Curve]: the curve y^2 = x^3 + 7 (the secp256k1
    equation) over F_43, which has prime order 31.  Points are represented by
    their discrete logarithm to the base (2,12); the coordinates are a table,
    checked below against the chord-and-tangent formulas. *)
From Coq Require Import ZArith Znumtheory Lia Bool List Field.
From Verif Require Import ZArithX Fq Curve.
Import ListNotations.
Local Open Scope Z_scope.

Definition toy_table : list (Z * Z) :=
  [(2, 12); (7, 7); (35, 21); (21, 18); (12, 12); (29, 31); (25, 18); (32, 40); (20, 40);
   (42, 7); (40, 25); (37, 36); (13, 21); (34, 40); (38, 21); (38, 22); (34, 3); (13, 22);
   (37, 7); (40, 18); (42, 36); (20, 3); (32, 3); (25, 25); (29, 12); (12, 31); (21, 25);
   (35, 22); (7, 36); (2, 31)].

Definition toy_coords_Z (k : Z) : option (Z * Z) :=
  if k =? 0 then None else nth_error toy_table (Z.to_nat (k - 1)).

Definition zrange (n : Z) : list Z := map Z.of_nat (seq 0 (Z.to_nat n)).
Lemma zrange_in n z : In z (zrange n) <-> 0 <= z < n.
Proof.
  unfold zrange. rewrite in_map_iff. split.
  - intros [k [<- H]]. apply in_seq in H. lia.
  - intros H. exists (Z.to_nat z). split; [lia|]. apply in_seq. lia.
Qed.

Lemma prime_check n : 1 < n -> forallb (fun k => (k <? 2) || (Z.gcd k n =? 1)) (zrange n) = true -> prime n.
Proof.
  intros Hn H. rewrite forallb_forall in H. constructor; [assumption|].
  intros k Hk. apply Zgcd_1_rel_prime.
  destruct (Z.eq_dec k 1) as [->|]; [apply Z.gcd_1_l|].
  specialize (H k (proj2 (zrange_in n k) ltac:(lia))).
  apply orb_true_iff in H. destruct H as [H|H]; [apply Z.ltb_lt in H; lia|].
  apply Z.eqb_eq; assumption.
Qed.

Lemma prime31 : prime 31. Proof. apply prime_check; [lia|vm_compute; reflexivity]. Qed.

Definition TF := Fq 31.
Definition toy_coords (P : TF) : option (Z * Z) := toy_coords_Z (to_Z P).

Lemma toy_range (P : TF) : 0 <= to_Z P < 31.
Proof. apply to_Z_range, prime31. Qed.

Lemma toy_all (f : Z -> bool) : forallb f (zrange 31) = true -> forall P : TF, f (to_Z P) = true.
Proof. intros H P. rewrite forallb_forall in H. apply H, zrange_in, toy_range. Qed.
Lemma toy_all2 (f : Z -> Z -> bool) :
  forallb (fun a => forallb (f a) (zrange 31)) (zrange 31) = true ->
  forall P Q : TF, f (to_Z P) (to_Z Q) = true.
Proof.
  intros H P Q. rewrite forallb_forall in H.
  specialize (H _ (proj2 (zrange_in 31 _) (toy_range P))). rewrite forallb_forall in H.
  apply H, zrange_in, toy_range.
Qed.

Definition toy_field : field_theory f0 f1 fadd fmul fsub fopp fdiv finv (@eq TF) := fq_field prime31.
Add Field toyfield : toy_field.

Lemma toy_coords_zero P : toy_coords P = None <-> P = (f0 : TF).
Proof.
  split.
  - intros H. apply fq_ext. rewrite to_Z_0.
    pose proof (toy_all (fun k => match toy_coords_Z k with None => k =? 0 | _ => true end)
                  ltac:(vm_compute; reflexivity) P) as E.
    cbn beta in E. unfold toy_coords in H. rewrite H in E. apply Z.eqb_eq; assumption.
  - intros ->. reflexivity.
Qed.

Lemma toy_coords_range P x y : toy_coords P = Some (x, y) -> 0 <= x < 43 /\ 0 < y < 43.
Proof.
  intros H. unfold toy_coords in H.
  pose proof (toy_all (fun k => match toy_coords_Z k with None => true
     | Some (x, y) => (0 <=? x) && (x <? 43) && (0 <? y) && (y <? 43) end)
                  ltac:(vm_compute; reflexivity) P) as E.
  cbn beta in E. rewrite H in E. lia.
Qed.

Lemma toy_coords_neg P x y : toy_coords P = Some (x, y) ->
  toy_coords (fopp P) = Some (x, 43 - y).
Proof.
  intros H. unfold toy_coords in *.
  pose proof (toy_all (fun k => match toy_coords_Z k with None => true
     | Some (x, y) => match toy_coords_Z ((- k) mod 31) with
                      | Some (x', y') => (x' =? x) && (y' =? 43 - y) | None => false end end)
                  ltac:(vm_compute; reflexivity) P) as E.
  cbn beta in E. rewrite H in E.
  change (to_Z (fopp P)) with ((- to_Z P) mod 31).
  destruct (toy_coords_Z ((- to_Z P) mod 31)) as [[x' y']|]; [|discriminate].
  apply andb_true_iff in E. destruct E as [E1 E2]. apply Z.eqb_eq in E1, E2. subst; reflexivity.
Qed.

Lemma toy_coords_same_x P Q x y y' : toy_coords P = Some (x, y) -> toy_coords Q = Some (x, y') ->
  Q = P \/ Q = fopp P.
Proof.
  intros HP HQ. unfold toy_coords in *.
  pose proof (toy_all2 (fun a b => match toy_coords_Z a, toy_coords_Z b with
     | Some (x, _), Some (x', _) => negb (x =? x') || (b =? a) || (b =? (- a) mod 31)
     | _, _ => true end) ltac:(vm_compute; reflexivity) P Q) as E.
  cbn beta in E. rewrite HP, HQ in E. rewrite Z.eqb_refl in E. cbn in E.
  apply orb_true_iff in E. destruct E as [E|E]; apply Z.eqb_eq in E; [left|right]; apply fq_ext; exact E.
Qed.

Definition toy : Curve.
Proof.
  refine {| cq := 31; cp := 43; pt := TF; pt_eqb := feqb; padd := fadd; pneg := fopp;
            pzero := f0; smul := fmul; gen := f1; gen2 := of_Z 31 5; dlog := fun P => P;
            coords := toy_coords |}.
  - exact prime31.
  - reflexivity.
  - reflexivity.
  - reflexivity.
  - reflexivity.
  - intros P Q. apply feqb_spec.
  - reflexivity.
  - reflexivity.
  - reflexivity.
  - reflexivity.
  - reflexivity.
  - intros P Q H; exact H.
  - apply of_Z_nz. lia.
  - exact toy_coords_zero.
  - exact toy_coords_range.
  - exact toy_coords_neg.
  - exact toy_coords_same_x.
Defined.

(** The table is the secp256k1 equation over F_43 and the group operation is
    the chord-and-tangent law. *)
Definition ec_add (p : Z) (P Q : option (Z * Z)) : option (Z * Z) :=
  match P, Q with
  | None, _ => Q
  | _, None => P
  | Some (x1, y1), Some (x2, y2) =>
      if (x1 =? x2) && ((y1 + y2) mod p =? 0) then None
      else
        let inv z := match mod_inv z p with Some i => i | None => 0 end in
        let l := (if (x1 =? x2) then 3 * x1 * x1 * inv (2 * y1) else (y2 - y1) * inv (x2 - x1)) mod p in
        let x3 := (l * l - x1 - x2) mod p in
        Some (x3, (l * (x1 - x3) - y1) mod p)
  end.
Definition opt_eqb (a b : option (Z * Z)) : bool :=
  match a, b with
  | None, None => true
  | Some (x, y), Some (x', y') => (x =? x') && (y =? y')
  | _, _ => false
  end.
Example toy_on_curve :
  forallb (fun '(x, y) => (y * y) mod 43 =? (x * x * x + 7) mod 43) toy_table = true.
Proof. vm_compute. reflexivity. Qed.
Example toy_group_law :
  forallb (fun a => forallb (fun b =>
     opt_eqb (ec_add 43 (toy_coords_Z a) (toy_coords_Z b)) (toy_coords_Z ((a + b) mod 31)))
     (zrange 31)) (zrange 31) = true.
Proof. vm_compute. reflexivity. Qed.

Definition tz (z : Z) : Fq (cq toy) := of_Z 31 z.

(** Helpers to evaluate closed terms on the toy curve without normalising the
    curve record itself. *)
Lemma tz_eqb (a : Fq (cq toy)) (z : Z) : to_Z a =? z mod 31 = true -> a = tz z.
Proof. intros H. apply fq_ext. apply Z.eqb_eq in H. exact H. Qed.
Lemma tz_neqb (a b : Fq (cq toy)) : to_Z a =? to_Z b = false -> a <> b.
Proof. intros H E. subst. rewrite Z.eqb_refl in H. discriminate. Qed.
Ltac toy_eq := apply fq_ext; vm_compute; reflexivity.
Ltac toy_neq := apply tz_neqb; vm_compute; reflexivity.

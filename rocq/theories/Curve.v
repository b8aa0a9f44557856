(** Abstract prime-order elliptic curve group: [Point<Secp256k1>] of curv.
    Every theorem of the development quantifies over all such structures; a
    concrete instance is in Toy.v. *)
From Coq Require Import ZArith Znumtheory Lia Bool List Field.
From Verif Require Import ZArithX Fq.
Import ListNotations.
Local Open Scope Z_scope.

Record Curve : Type := {
  cq : Z;                                   (* group order *)
  cp : Z;                                   (* coordinate field size *)
  cq_prime : prime cq;
  cq_odd : 2 < cq;
  cp_odd : Z.odd cp = true;
  cp_pos : 0 < cp;
  cp_bytes : cp < 2 ^ 256;
  pt : Type;
  pt_eqb : pt -> pt -> bool;                (* Point == Point *)
  pt_eqb_spec : forall P Q, reflect (P = Q) (pt_eqb P Q);
  padd : pt -> pt -> pt;                    (* Point + Point *)
  pneg : pt -> pt;                          (* -Point *)
  pzero : pt;                               (* Point::zero() *)
  smul : Fq cq -> pt -> pt;                 (* Point * Scalar *)
  gen : pt;                                 (* Point::generator() *)
  gen2 : pt;                                (* Point::base_point2() *)
  (** Mathematical discrete logarithm: exists since the group is cyclic.  Never
      used by a model function, only in specifications and proofs. *)
  dlog : pt -> Fq cq;
  dlog_add : forall P Q, dlog (padd P Q) = fadd (dlog P) (dlog Q);
  dlog_neg : forall P, dlog (pneg P) = fopp (dlog P);
  dlog_zero : dlog pzero = f0;
  dlog_smul : forall a P, dlog (smul a P) = fmul a (dlog P);
  dlog_gen : dlog gen = f1;
  dlog_inj : forall P Q, dlog P = dlog Q -> P = Q;
  gen2_nz : dlog gen2 <> f0;
  (** Affine coordinates: [x_coord()/y_coord()], [None] at infinity. *)
  coords : pt -> option (Z * Z);
  coords_zero : forall P, coords P = None <-> P = pzero;
  coords_range : forall P x y, coords P = Some (x, y) -> 0 <= x < cp /\ 0 < y < cp;
  coords_neg : forall P x y, coords P = Some (x, y) -> coords (pneg P) = Some (x, cp - y);
  coords_same_x : forall P Q x y y', coords P = Some (x, y) -> coords Q = Some (x, y') ->
      Q = P \/ Q = pneg P;
}.

Arguments smul {_} _ _.
Arguments padd {_} _ _.
Arguments pneg {_} _.
Arguments pzero {_}.
Arguments gen {_}.
Arguments gen2 {_}.
Arguments dlog {_} _.
Arguments coords {_} _.
Arguments pt_eqb {_} _ _.

Section CurveFacts.
Context (C : Curve).
Notation F := (Fq (cq C)).

Lemma C_field : field_theory f0 f1 fadd fmul fsub fopp fdiv finv (@eq F).
Proof. apply fq_field, cq_prime. Qed.
Add Field cfield : C_field.

Definition psub (P Q : pt C) : pt C := padd P (pneg Q).
Fixpoint psum (l : list (pt C)) : pt C :=
  match l with [] => pzero | P :: r => padd P (psum r) end.
Fixpoint fsum (l : list F) : F :=
  match l with [] => f0 | a :: r => fadd a (fsum r) end.

Lemma dlog_psub P Q : dlog (psub P Q) = fsub (dlog P) (dlog Q).
Proof. unfold psub. rewrite dlog_add, dlog_neg. ring. Qed.
Lemma dlog_psum l : dlog (psum l) = fsum (map dlog l).
Proof. induction l as [|x l IH]; cbn; [apply dlog_zero|]. rewrite dlog_add, IH. reflexivity. Qed.
Lemma dlog_eq_iff (P Q : pt C) : P = Q <-> dlog P = dlog Q.
Proof. split; [intros ->; reflexivity|apply dlog_inj]. Qed.
Lemma pt_is_mul (P : pt C) : P = smul (dlog P) gen.
Proof. apply dlog_inj. rewrite dlog_smul, dlog_gen. ring. Qed.
Lemma smul_gen_inj a b : smul a (gen : pt C) = smul b gen -> a = b.
Proof. intros H. apply (f_equal dlog) in H. rewrite !dlog_smul, dlog_gen in H.
  transitivity (a * f1)%Fq; [ring|]. rewrite H. ring. Qed.
Lemma pt_eqb_eq (P Q : pt C) : pt_eqb P Q = true <-> P = Q.
Proof. destruct (pt_eqb_spec C P Q); split; congruence. Qed.
Lemma pt_eqb_neq (P Q : pt C) : pt_eqb P Q = false <-> P <> Q.
Proof. destruct (pt_eqb_spec C P Q); split; congruence. Qed.
Lemma pt_eqb_refl (P : pt C) : pt_eqb P P = true.
Proof. apply pt_eqb_eq; reflexivity. Qed.
Lemma pt_eq_dec (P Q : pt C) : {P = Q} + {P <> Q}.
Proof. destruct (pt_eqb_spec C P Q); [left|right]; assumption. Qed.
Lemma pzero_dlog (P : pt C) : P = pzero <-> dlog P = f0.
Proof. rewrite dlog_eq_iff, dlog_zero. reflexivity. Qed.
Lemma gen_nz : (gen : pt C) <> pzero.
Proof. rewrite pzero_dlog, dlog_gen. apply f1_neq_f0, cq_prime. Qed.
Lemma coords_some (P : pt C) : P <> pzero -> exists x y, coords P = Some (x, y).
Proof.
  intros H. destruct (coords P) as [[x y]|] eqn:E; [eauto|].
  apply coords_zero in E. contradiction.
Qed.
Lemma coords_inj (P Q : pt C) x y : coords P = Some (x, y) -> coords Q = Some (x, y) -> P = Q.
Proof.
  intros HP HQ. destruct (coords_same_x C P Q x y y HP HQ) as [H|H]; [auto|].
  exfalso. rewrite H in HQ. rewrite (coords_neg C _ _ _ HP) in HQ.
  injection HQ as E. pose proof (cp_odd C). pose proof (coords_range C _ _ _ HP).
  assert (cp C = 2 * y) as E2 by lia. rewrite E2 in H0. rewrite Z.odd_mul in H0. discriminate.
Qed.

Definition x_coord (P : pt C) : option Z := option_map fst (coords P).
Definition y_coord (P : pt C) : option Z := option_map snd (coords P).

Lemma x_coord_none P : x_coord P = None <-> P = pzero.
Proof. unfold x_coord. rewrite <- coords_zero. destruct (coords P); cbn; split; congruence. Qed.
Lemma x_coord_some P : P <> pzero -> exists x, x_coord P = Some x.
Proof. intros H. apply coords_some in H. destruct H as [x [y H]]. unfold x_coord. rewrite H. cbn; eauto. Qed.
Lemma x_coord_neg P : x_coord (pneg P) = x_coord P.
Proof.
  unfold x_coord. destruct (coords P) as [[x y]|] eqn:E.
  - rewrite (coords_neg C _ _ _ E). reflexivity.
  - apply coords_zero in E. subst P.
    replace (pneg (@pzero C)) with (@pzero C).
    + rewrite (proj2 (coords_zero C pzero) eq_refl). reflexivity.
    + apply dlog_inj. rewrite dlog_neg, dlog_zero. ring.
Qed.
Lemma x_coord_eq P Q x : x_coord P = Some x -> x_coord Q = Some x -> Q = P \/ Q = pneg P.
Proof.
  unfold x_coord. destruct (coords P) as [[a b]|] eqn:E; cbn; [|discriminate].
  destruct (coords Q) as [[c d]|] eqn:E'; cbn; [|discriminate].
  intros H1 H2. inversion H1; inversion H2; subst. eapply coords_same_x; eassumption.
Qed.

(** ** Sums *)
Lemma fsum_app l l' : fsum (l ++ l') = (fsum l + fsum l')%Fq.
Proof. induction l as [|x l IH]; cbn; [ring|]. rewrite IH. ring. Qed.
Lemma fsum_map_add {A} (f g : A -> F) l :
  fsum (map (fun x => f x + g x)%Fq l) = (fsum (map f l) + fsum (map g l))%Fq.
Proof. induction l as [|x l IH]; cbn; [ring|]. rewrite IH. ring. Qed.
Lemma fsum_map_mul_l {A} (f : A -> F) c l :
  fsum (map (fun x => c * f x)%Fq l) = (c * fsum (map f l))%Fq.
Proof. induction l as [|x l IH]; cbn; [ring|]. rewrite IH. ring. Qed.
Lemma fsum_map_mul_r {A} (f : A -> F) c l :
  fsum (map (fun x => f x * c)%Fq l) = (fsum (map f l) * c)%Fq.
Proof. induction l as [|x l IH]; cbn; [ring|]. rewrite IH. ring. Qed.
Lemma fsum_map_sub {A} (f g : A -> F) l :
  fsum (map (fun x => f x - g x)%Fq l) = (fsum (map f l) - fsum (map g l))%Fq.
Proof. induction l as [|x l IH]; cbn; [ring|]. rewrite IH. ring. Qed.
Lemma fsum_map_0 {A} (l : list A) : fsum (map (fun _ => f0) l) = f0.
Proof. induction l as [|x l IH]; cbn; [reflexivity|]. rewrite IH. ring. Qed.
Lemma fsum_swap {A B} (f : A -> B -> F) la lb :
  fsum (map (fun a => fsum (map (fun b => f a b) lb)) la) =
  fsum (map (fun b => fsum (map (fun a => f a b) la)) lb).
Proof.
  induction la as [|a la IH]; cbn.
  - symmetry. apply fsum_map_0.
  - rewrite IH. rewrite <- fsum_map_add. reflexivity.
Qed.
Lemma psum_app l l' : psum (l ++ l') = padd (psum l) (psum l').
Proof. apply dlog_inj. rewrite dlog_add, !dlog_psum, map_app, fsum_app. reflexivity. Qed.
Lemma fold_left_padd l a : fold_left padd l a = padd a (psum l).
Proof.
  revert a; induction l as [|x l IH]; intros a; cbn.
  - apply dlog_inj. rewrite dlog_add, dlog_zero. ring.
  - rewrite IH. apply dlog_inj. rewrite !dlog_add. ring.
Qed.
Lemma fold_left_fadd (l : list F) a : fold_left fadd l a = (a + fsum l)%Fq.
Proof. revert a; induction l as [|x l IH]; intros a; cbn; [ring|]. rewrite IH. ring. Qed.
End CurveFacts.

Arguments psub {_} _ _.
Arguments psum {_} _.
Arguments fsum {_} _.
Arguments x_coord {_} _.
Arguments y_coord {_} _.

#[export] Hint Rewrite dlog_add dlog_neg dlog_zero dlog_smul dlog_gen dlog_psub dlog_psum : dlog.

(** Reduce an equality of points to an equality of exponents. *)
Ltac to_dlog := apply dlog_inj; autorewrite with dlog.

(** The prime field of scalars, [Scalar<Secp256k1>] of the curv crate: an
    integer in [[0,q)].  [Scalar::from(&BigInt)] reduces modulo [q],
    [Scalar::to_bigint] returns the representative, [Scalar::invert] is [None]
    exactly on zero. *)
From Coq Require Import ZArith Znumtheory Lia Bool Field Eqdep_dec.
From Verif Require Import ZArithX.
Local Open Scope Z_scope.

Record Fq (q : Z) : Type := mkFq { to_Z : Z; fq_ok : (to_Z mod q =? to_Z) = true }.
Arguments to_Z {q} _.
Arguments fq_ok {q} _.

Lemma fq_ext {q} (a b : Fq q) : to_Z a = to_Z b -> a = b.
Proof.
  destruct a as [a Ha], b as [b Hb]. cbn. intros ->. f_equal.
  apply UIP_dec, bool_dec.
Qed.

Lemma of_Z_ok q z : ((z mod q) mod q =? z mod q) = true.
Proof. apply Z.eqb_eq. apply Zmod_mod. Qed.

(** Proof normalisation, so that closed scalars compute to canonical terms. *)
Definition bnorm (b : bool) : b = true -> b = true :=
  match b return b = true -> b = true with true => fun _ => eq_refl | false => fun H => H end.

(** [Scalar::from(&BigInt)] *)
Definition of_Z (q z : Z) : Fq q := mkFq q (z mod q) (bnorm _ (of_Z_ok q z)).

Lemma to_Z_of_Z q z : to_Z (of_Z q z) = z mod q. Proof. reflexivity. Qed.
Lemma of_Z_to_Z {q} (a : Fq q) : of_Z q (to_Z a) = a.
Proof. apply fq_ext. cbn. apply Z.eqb_eq, fq_ok. Qed.
Lemma to_Z_mod {q} (a : Fq q) : to_Z a mod q = to_Z a.
Proof. apply Z.eqb_eq, fq_ok. Qed.
Lemma of_Z_eq q a b : a mod q = b mod q -> of_Z q a = of_Z q b.
Proof. intros H. apply fq_ext. exact H. Qed.
Lemma of_Z_eq_iff q a b : of_Z q a = of_Z q b <-> a mod q = b mod q.
Proof. split; [intros H; exact (f_equal to_Z H)|apply of_Z_eq]. Qed.

Section Ops.
Context {q : Z}.
Definition fadd (a b : Fq q) : Fq q := of_Z q (to_Z a + to_Z b).
Definition fsub (a b : Fq q) : Fq q := of_Z q (to_Z a - to_Z b).
Definition fmul (a b : Fq q) : Fq q := of_Z q (to_Z a * to_Z b).
Definition fopp (a : Fq q) : Fq q := of_Z q (- to_Z a).
Definition f0 : Fq q := of_Z q 0.
Definition f1 : Fq q := of_Z q 1.
Definition feqb (a b : Fq q) : bool := to_Z a =? to_Z b.
(** Total inverse (0 on 0), used only for the field structure. *)
Definition finv (a : Fq q) : Fq q :=
  match mod_inv (to_Z a) q with Some x => of_Z q x | None => f0 end.
Definition fdiv (a b : Fq q) : Fq q := fmul a (finv b).
(** [Scalar::invert] *)
Definition finvert (a : Fq q) : option (Fq q) :=
  if feqb a f0 then None else Some (finv a).

Lemma feqb_spec a b : reflect (a = b) (feqb a b).
Proof.
  unfold feqb. destruct (Z.eqb_spec (to_Z a) (to_Z b)) as [H|H]; constructor.
  - apply fq_ext, H.
  - intros ->. apply H; reflexivity.
Qed.
Lemma feqb_refl a : feqb a a = true.
Proof. unfold feqb. apply Z.eqb_refl. Qed.
Lemma feqb_eq a b : feqb a b = true <-> a = b.
Proof. destruct (feqb_spec a b); split; congruence. Qed.
Lemma feqb_neq a b : feqb a b = false <-> a <> b.
Proof. destruct (feqb_spec a b); split; congruence. Qed.

Lemma Fq_eq_dec (a b : Fq q) : {a = b} + {a <> b}.
Proof. destruct (feqb_spec a b); [left|right]; assumption. Qed.

(** Ring homomorphism laws of the reduction. *)
Lemma of_Z_add a b : of_Z q (a + b) = fadd (of_Z q a) (of_Z q b).
Proof. apply fq_ext. cbn. apply Zplus_mod. Qed.
Lemma of_Z_mul a b : of_Z q (a * b) = fmul (of_Z q a) (of_Z q b).
Proof. apply fq_ext. cbn. apply Zmult_mod. Qed.
Lemma of_Z_sub a b : of_Z q (a - b) = fsub (of_Z q a) (of_Z q b).
Proof. apply fq_ext. cbn. apply Zminus_mod. Qed.
Lemma of_Z_opp a : of_Z q (- a) = fopp (of_Z q a).
Proof.
  apply fq_ext. cbn. rewrite <- !Z.sub_0_l. rewrite (Zminus_mod_idemp_r 0 a). reflexivity.
Qed.
Lemma of_Z_mod a : of_Z q (a mod q) = of_Z q a.
Proof. apply fq_ext. cbn. apply Zmod_mod. Qed.
Lemma of_Z_q : of_Z q q = f0.
Proof. apply fq_ext. cbn. rewrite Z_mod_same_full. reflexivity. Qed.

Lemma fq_ring : ring_theory f0 f1 fadd fmul fsub fopp (@eq (Fq q)).
Proof.
  assert (E : forall x : Fq q, exists z, x = of_Z q z).
  { intros x. exists (to_Z x). symmetry. apply of_Z_to_Z. }
  constructor; unfold f0, f1.
  - intros x. destruct (E x) as [a ->]. rewrite <- of_Z_add. f_equal; ring.
  - intros x y. destruct (E x) as [a ->], (E y) as [b ->]. rewrite <- !of_Z_add. f_equal; ring.
  - intros x y z. destruct (E x) as [a ->], (E y) as [b ->], (E z) as [c ->].
    rewrite <- !of_Z_add. f_equal; ring.
  - intros x. destruct (E x) as [a ->]. rewrite <- of_Z_mul. f_equal; ring.
  - intros x y. destruct (E x) as [a ->], (E y) as [b ->]. rewrite <- !of_Z_mul. f_equal; ring.
  - intros x y z. destruct (E x) as [a ->], (E y) as [b ->], (E z) as [c ->].
    rewrite <- !of_Z_mul. f_equal; ring.
  - intros x y z. destruct (E x) as [a ->], (E y) as [b ->], (E z) as [c ->].
    rewrite <- !of_Z_mul, <- !of_Z_add, <- !of_Z_mul. f_equal; ring.
  - intros x y. destruct (E x) as [a ->], (E y) as [b ->].
    rewrite <- of_Z_opp, <- of_Z_sub, <- of_Z_add. f_equal; ring.
  - intros x. destruct (E x) as [a ->]. rewrite <- of_Z_opp, <- of_Z_add. f_equal; ring.
Qed.

Context (q_prime : prime q).

Lemma q_gt1 : 1 < q. Proof. destruct q_prime; assumption. Qed.
Lemma to_Z_range (a : Fq q) : 0 <= to_Z a < q.
Proof. rewrite <- (to_Z_mod a). apply Z.mod_pos_bound. pose proof q_gt1; lia. Qed.
Lemma to_Z_0 : to_Z (f0 : Fq q) = 0.
Proof. unfold f0. rewrite to_Z_of_Z. apply Zmod_0_l. Qed.
Lemma to_Z_1 : to_Z (f1 : Fq q) = 1.
Proof. unfold f1. rewrite to_Z_of_Z. apply Z.mod_1_l. apply q_gt1. Qed.
Lemma f1_neq_f0 : (f1 : Fq q) <> f0.
Proof. intros H. apply (f_equal to_Z) in H. rewrite to_Z_0, to_Z_1 in H. lia. Qed.
Lemma to_Z_nz (a : Fq q) : a <> f0 -> to_Z a <> 0.
Proof. intros H E. apply H, fq_ext. rewrite to_Z_0. assumption. Qed.
Lemma of_Z_nz z : 0 < z < q -> of_Z q z <> f0.
Proof. intros H E. apply (f_equal to_Z) in E. rewrite to_Z_0 in E. cbn in E.
  rewrite Z.mod_small in E by lia. lia. Qed.

Lemma finv_l (a : Fq q) : a <> f0 -> fmul (finv a) a = f1.
Proof.
  intros Ha. pose proof q_gt1.
  assert (Hg : Z.gcd (to_Z a) q = 1).
  { apply prime_gcd; [assumption|]. rewrite to_Z_mod. apply to_Z_nz; assumption. }
  destruct (mod_inv_complete _ _ q_gt1 Hg) as [x Hx].
  unfold finv. rewrite Hx. apply mod_inv_sound in Hx; [|lia].
  apply fq_ext. cbn. rewrite Zmult_mod_idemp_l, Z.mul_comm.
  rewrite (proj1 Hx), Z.mod_1_l by lia. reflexivity.
Qed.

Lemma fq_field : field_theory f0 f1 fadd fmul fsub fopp fdiv finv (@eq (Fq q)).
Proof.
  constructor.
  - exact fq_ring.
  - exact f1_neq_f0.
  - reflexivity.
  - exact finv_l.
Qed.

Lemma finvert_some (a b : Fq q) : finvert a = Some b -> a <> f0 /\ b = finv a.
Proof. unfold finvert. destruct (feqb_spec a f0); intros H; inversion H; auto. Qed.
Lemma finvert_nz (a : Fq q) : a <> f0 -> finvert a = Some (finv a).
Proof. unfold finvert. destruct (feqb_spec a f0); congruence. Qed.
Lemma finvert_0 : finvert (f0 : Fq q) = None.
Proof. unfold finvert. rewrite feqb_refl. reflexivity. Qed.

Lemma fmul_nz (a b : Fq q) : a <> f0 -> b <> f0 -> fmul a b <> f0.
Proof.
  intros Ha Hb E. apply Hb.
  transitivity (fmul (fmul (finv a) a) b).
  - rewrite finv_l by assumption. symmetry. apply (Rmul_1_l fq_ring).
  - rewrite <- (Rmul_assoc fq_ring), E.
    apply fq_ext. cbn. rewrite Z.mul_0_r. reflexivity.
Qed.
Lemma fmul_integral (a b : Fq q) : fmul a b = f0 -> a = f0 \/ b = f0.
Proof.
  intros H. destruct (Fq_eq_dec a f0) as [|Ha]; [auto|].
  destruct (Fq_eq_dec b f0) as [|Hb]; [auto|].
  exfalso. apply (fmul_nz a b); assumption.
Qed.
Lemma finv_nz (a : Fq q) : a <> f0 -> finv a <> f0.
Proof.
  intros Ha E. apply f1_neq_f0. rewrite <- (finv_l a Ha), E.
  apply fq_ext. reflexivity.
Qed.
End Ops.

Declare Scope Fq_scope.
Delimit Scope Fq_scope with Fq.
Infix "+" := fadd : Fq_scope.
Infix "-" := fsub : Fq_scope.
Infix "*" := fmul : Fq_scope.
Infix "/" := fdiv : Fq_scope.
Notation "- x" := (fopp x) : Fq_scope.
Notation "0" := f0 : Fq_scope.
Notation "1" := f1 : Fq_scope.
Bind Scope Fq_scope with Fq.

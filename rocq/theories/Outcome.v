(** Results of the Rust functions: a value, an error, or a panic. *)
From Coq Require Import List Bool.
Import ListNotations.

Inductive outcome (E A : Type) : Type :=
| Ok (a : A)
| Err (e : E)
| Panic.
Arguments Ok {E A} _.
Arguments Err {E A} _.
Arguments Panic {E A}.

Definition obind {E A B} (x : outcome E A) (f : A -> outcome E B) : outcome E B :=
  match x with Ok a => f a | Err e => Err e | Panic => Panic end.
Definition omap {E A B} (f : A -> B) (x : outcome E A) : outcome E B :=
  match x with Ok a => Ok (f a) | Err e => Err e | Panic => Panic end.
Definition omap_err {E F A} (f : E -> F) (x : outcome E A) : outcome F A :=
  match x with Ok a => Ok a | Err e => Err (f e) | Panic => Panic end.
(** [Option::unwrap] *)
Definition unwrap {E A} (x : option A) : outcome E A :=
  match x with Some a => Ok a | None => Panic end.
Definition ok_or {E A} (e : E) (x : option A) : outcome E A :=
  match x with Some a => Ok a | None => Err e end.
(** [assert!] *)
Definition oassert {E} (b : bool) : outcome E unit := if b then Ok tt else Panic.

Notation "'let*' x ':=' a 'in' b" := (obind a (fun x => b))
  (at level 200, x pattern, right associativity).

(** Monadic map, left to right, stopping at the first [Err] or [Panic]. *)
Fixpoint omapM {E A B} (f : A -> outcome E B) (l : list A) : outcome E (list B) :=
  match l with
  | [] => Ok []
  | x :: r => let* y := f x in let* ys := omapM f r in Ok (y :: ys)
  end.

(** Errors of the crate, src/lib.rs:25-33. *)
Inductive error :=
| InvalidKey | InvalidSS | InvalidCom | InvalidSig | Phase5BadSum | Phase6Error.

Lemma obind_ok {E A B} (x : outcome E A) (f : A -> outcome E B) b :
  obind x f = Ok b <-> exists a, x = Ok a /\ f a = Ok b.
Proof.
  destruct x; cbn; split; intros H; try discriminate; eauto.
  - destruct H as [a' [Ha H]]. inversion Ha; subst; assumption.
  - destruct H as [? [? ?]]; discriminate.
  - destruct H as [? [? ?]]; discriminate.
Qed.
Lemma unwrap_ok {E A} (x : option A) a : (unwrap x : outcome E A) = Ok a <-> x = Some a.
Proof. destruct x; cbn; split; intros H; inversion H; reflexivity. Qed.
Lemma oassert_ok {E} b u : (oassert b : outcome E unit) = Ok u <-> b = true.
Proof. destruct b, u; cbn; split; intros H; (discriminate || reflexivity). Qed.

Lemma omapM_ok {E A B} (f : A -> outcome E B) l l' :
  omapM f l = Ok l' <-> Forall2 (fun x y => f x = Ok y) l l'.
Proof.
  revert l'; induction l as [|x l IH]; intros l'; cbn.
  - split; intros H; [inversion H; constructor|inversion H; reflexivity].
  - split.
    + intros H. apply obind_ok in H. destruct H as [y [Hy H]].
      apply obind_ok in H. destruct H as [ys [Hys H]]. inversion H; subst.
      constructor; [assumption|]. apply IH; assumption.
    + intros H. inversion H as [|? y ? ys Hy Hys]; subst.
      rewrite Hy. cbn. apply IH in Hys. rewrite Hys. reflexivity.
Qed.

Lemma ok_inj {E A} (a b : A) : (Ok a : outcome E A) = Ok b -> b = a.
Proof. intros H. inversion H. reflexivity. Qed.

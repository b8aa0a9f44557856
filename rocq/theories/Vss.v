(** Feldman verifiable secret sharing, [VerifiableSS] of the curv crate (not in
    /repo; trusted reading of curv 0.9), called from gg_2018/party_i.rs:233,
    255-262, 279, 395 and gg_2020/party_i.rs:303, 339, 374-384, 532-542, 556. *)
From Coq Require Import ZArith Lia Bool List.
From Verif Require Import ZArithX Fq Curve Outcome.
Import ListNotations.
Local Open Scope Z_scope.

Section Vss.
Context (C : Curve).
Notation q := (cq C).
Notation F := (Fq q).

(** [Scalar::from(u16)] *)
Definition fidx (i : nat) : F := of_Z q (Z.of_nat i).

(** Polynomial evaluation; coefficients from the constant term upwards. *)
Fixpoint peval (cs : list F) (x : F) : F :=
  match cs with [] => f0 | c :: r => (c + x * peval r x)%Fq end.

(** [VerifiableSS]: parameters and commitments to the coefficients. *)
Record vss := { vs_t : nat; vs_n : nat; vs_com : list (pt C) }.

(** [VerifiableSS::share(t, n, secret)]; [coefs] is secret :: random
    coefficients (t of them). *)
Definition vss_share {E} (t n : nat) (coefs : list F) : outcome E (vss * list F) :=
  let* _ := oassert (t <? n)%nat in
  Ok ({| vs_t := t; vs_n := n; vs_com := map (fun c => smul c gen) coefs |},
      map (fun i => peval coefs (fidx i)) (seq 1 n)).

(** [get_point_commitment(index)]: Horner evaluation in the exponent; unwraps the
    last commitment. *)
Definition point_commitment {E} (v : vss) (index : nat) : outcome E (pt C) :=
  match rev (vs_com v) with
  | [] => Panic
  | h :: tl => Ok (fold_left (fun acc P => padd P (smul (fidx index) acc)) tl h)
  end.

(** [validate_share_public] and [validate_share] *)
Definition validate_share_public (v : vss) (P : pt C) (index : nat) : outcome unit unit :=
  let* K := point_commitment v index in
  if pt_eqb P K then Ok tt else Err tt.
Definition validate_share (v : vss) (s : F) (index : nat) : outcome unit unit :=
  validate_share_public v (smul s gen) index.

Definition fprod (l : list F) : F := fold_left fmul l f1.

(** [lagrange_interpolation_at_zero]: [pre] are the points before the current
    position, [pts] those from it on. *)
Fixpoint lagrange_terms {E} (pre pts vals : list F) : outcome E (list F) :=
  match pts, vals with
  | x :: xs, y :: ys =>
      let others := pre ++ xs in
      let num := fprod others in
      let* d := unwrap (finvert (fprod (map (fun xj => (xj - x)%Fq) others))) in
      let* r := lagrange_terms (pre ++ [x]) xs ys in
      Ok ((num * d * y)%Fq :: r)
  | _, _ => Ok []
  end.
Definition lagrange_at_zero {E} (pts vals : list F) : outcome E F :=
  let* _ := oassert (length pts =? length vals)%nat in
  let* l := lagrange_terms [] pts vals in
  match l with [] => Panic | h :: tl => Ok (fold_left fadd tl h) end.

(** [reconstruct(indices, shares)]; indices count from 0. *)
Definition vss_reconstruct {E} (v : vss) (indices : list nat) (shares : list F) : outcome E F :=
  let* _ := oassert (length shares =? length indices)%nat in
  let* _ := oassert (vs_t v + 1 <=? length shares)%nat in
  lagrange_at_zero (map (fun i => fidx (i + 1)) indices) shares.

(** [map_share_to_new_params(params, index, s)]; indices count from 0 and must be
    below the share count. *)
Definition map_share {E} (n : nat) (index : nat) (s : list nat) : outcome E F :=
  let* _ := oassert (index <? n)%nat in
  let* _ := oassert (forallb (fun x => (x =? index)%nat || (x <? n)%nat) s) in
  let others := map (fun x => fidx (x + 1)) (filter (fun x => negb (x =? index)%nat) s) in
  let num := fprod others in
  let denum := fprod (map (fun xj => (xj - fidx (index + 1))%Fq) others) in
  let* d := unwrap (finvert denum) in
  Ok (num * d)%Fq.
End Vss.

Arguments fidx {_} _.
Arguments peval {_} _ _.
Arguments vs_t {_}. Arguments vs_n {_}. Arguments vs_com {_}.
Arguments vss_share {_ _}.
Arguments point_commitment {_ _}.
Arguments validate_share_public {_}.
Arguments validate_share {_}.
Arguments fprod {_} _.
Arguments lagrange_terms {_ _}.
Arguments lagrange_at_zero {_ _}.
Arguments vss_reconstruct {_ _}.
Arguments map_share {_ _}.

(** Shared parts of the multi-party protocols: error values, loops that stop at the first
    failure, message vectors with and without the own entry. *)
From Coq Require Import ZArith Lia Bool List.
From Verif Require Import Outcome.
Import ListNotations.

(** The error_type strings of gg_2020 (ErrorType, gg_2020/mod.rs) and the Error variants used by gg_2018. *)
Inductive ekind :=
  | EInvalidKey            (* "invalid key", gg_2020/party_i.rs:308 *)
  | EInvalidVss            (* "invalid vss", :351 *)
  | EBadDlogProof          (* "bad dlog proof", :428 *)
  | EBadGamma              (* "bad gamma_i decommit", :672 *)
  | EBadPdl                (* "Bad PDLwSlack proof", :761 *)
  | EPhase6                (* "phase6", :826 *)
  | EMta                   (* errors of MessageB::b and verify_proofs_get_alpha mapped in sign/rounds.rs *)
  | EPedersen              (* sign/rounds.rs:372-377 *)
  | ERDashSum              (* Phase5BadSum *)
  | ESiSum                 (* Phase6Error *)
  | EPhase6Blame           (* "phase6_blame", blame.rs *)
  | EPhase7Blame.          (* "phase7_blame" *)
Record mp_error := { me_kind : ekind; me_bad : list nat }.

(** [(0..n).map(|i| { test; if !test { bad.push(i) }; test }).all(|x| x)]: [all] stops at the first [false], so at
    most one index is pushed. [None]: every test passed. *)
Fixpoint first_bad {E A} (f : A -> outcome E bool) (i : nat) (l : list A) : outcome E (option nat) :=
  match l with
  | [] => Ok None
  | x :: r => let* b := f x in if b then first_bad f (S i) r else Ok (Some i)
  end.

(** Vec indexing: out of range panics. *)
Definition nth_o {E A} (l : list A) (i : nat) : outcome E A :=
  match nth_error l i with Some x => Ok x | None => Panic end.

(** [into_vec_including_me]: the own value at position [i] (0-based) among the others'. [Vec::insert] panics
    beyond the end; the stores always hold the other n-1 values. *)
Definition incl_me {A} (i : nat) (own : A) (others : list A) : list A :=
  firstn i others ++ own :: skipn i others.

(** [let ind = if j < i { j } else { j + 1 }], sign/rounds.rs:154 and elsewhere *)
Definition ind (i j : nat) : nat := if (j <? i)%nat then j else S j.
(** The positions other than [i] among [m]. *)
Definition others (i m : nat) : list nat := seq 0 i ++ seq (S i) (m - S i).

(** A caller of the GG20 state machines that goes on after errors that are not critical and gives up at a critical error
    or a panic.  This is what IsCritical is for: round_based's AsyncProtocol, which runs the machines in
    examples/gg20_keygen.rs:51 and examples/gg20_signing.rs:55, returns an error only if is_critical says so.  The crate is
    not part of /repo. *)
From Coq Require Import Bool List.
From Verif Require Import Outcome Mp Stores RoundSM SmSpec.
Import ListNotations.

(** keygen.rs:468-472: every error of key generation is critical.  (The one of the offline stage is sg_is_critical.) *)
Definition kg_is_critical (e : sm_error mp_error) : bool := true.

Section Drive.
Context {S P B R : Type} (crit : sm_error P -> bool) (step : S -> op B -> S * ret P B R).
Definition gives_up (r : ret P B R) : bool :=
  match r with
  | RUnit (Err e) => crit e
  | RUnit Panic => true
  | RPick (Some (Err e)) => crit e
  | RPick (Some Panic) => true
  | _ => false
  end.
(** The state in the end, None if the caller gave up, and what the calls returned. *)
Fixpoint drive (s : S) (h : list (op B)) : option S * list (ret P B R) :=
  match h with
  | [] => (Some s, [])
  | o :: t => let '(s1, r) := step s o in
      if gives_up r then (None, [r]) else let '(x, rs) := drive s1 t in (x, r :: rs)
  end.
End Drive.

(** A history without the messages that should be refused: not from another party, wrongly addressed, or not the first of
    its round from its sender. *)
Definition should_accept {B} (of : B -> nat) (p2p : nat -> bool) (me n : nat) (before : list (op B)) (m : msg B) : bool :=
  existsb (Nat.eqb (m_from m)) (peers me n) && addressed_ok of p2p me m &&
  match got of p2p me before (of (m_body m)) (m_from m) with None => true | Some _ => false end.
Fixpoint without_refused {B} (of : B -> nat) (p2p : nat -> bool) (me n : nat) (before h : list (op B)) : list (op B) :=
  match h with
  | [] => []
  | Deliver m :: t => (if should_accept of p2p me n before m then [Deliver m] else []) ++ without_refused of p2p me n (before ++ [Deliver m]) t
  | o :: t => o :: without_refused of p2p me n (before ++ [o]) t
  end.

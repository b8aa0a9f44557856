(** What the state machines should do, in terms of the history of calls only.  [of] gives the round of a message,
    [p2p k] says whether round k is point-to-point; parties are numbered from 1. *)
From Coq Require Import Arith Lia Bool List.
From Verif Require Import Outcome Stores RoundSM.
Import ListNotations.

Section Spec.
Context {B : Type} (of : B -> nat) (p2p : nat -> bool) (me n : nat).

(** The other parties *)
Definition peers : list nat := filter (fun j => negb (j =? me)) (seq 1 n).
(** Everything handed to handle_incoming *)
Definition deliveries (h : list (op B)) : list (msg B) := flat_map (fun o => match o with Deliver m => [m] | _ => [] end) h.
(** A correctly addressed message of round [k] *)
Definition addressed_ok (m : msg B) : bool :=
  match m_to m with None => negb (p2p (of (m_body m))) | Some j => p2p (of (m_body m)) && (j =? me) end.
(** ... from party [j] *)
Definition proper (k j : nat) (m : msg B) : bool := (of (m_body m) =? k) && (m_from m =? j) && addressed_ok m.
(** The first such message of the history counts. *)
Definition got (h : list (op B)) (k j : nat) : option B := option_map m_body (find (proper k j) (deliveries h)).
(** Who has not sent a proper message of round [k] *)
Definition missing (h : list (op B)) (k : nat) : list nat :=
  filter (fun j => match got h k j with None => true | _ => false end) peers.
Fixpoint all_some {A} (l : list (option A)) : option (list A) :=
  match l with
  | [] => Some []
  | x :: r => match x, all_some r with Some a, Some t => Some (a :: t) | _, _ => None end
  end.
(** The input of round [k] once complete; round 0 takes none. *)
Definition inbox (h : list (op B)) (k : nat) : option (list B) :=
  if (k =? 0) then Some [] else all_some (map (got h k) peers).

(** Executing rounds 0 .. k-1 on inputs [inb]: the data of round k and the messages sent on the way. *)
Inductive runs {P R} (step : nat -> R -> list B -> outcome P (R * list (msg B))) (d0 : R) (inb : nat -> option (list B)) : nat -> R -> list (msg B) -> Prop :=
  | runs_0 : runs step d0 inb 0 d0 []
  | runs_S k d out l d' o : runs step d0 inb k d out -> inb k = Some l -> step k d l = Ok (d', o) -> runs step d0 inb (S k) d' (out ++ o).
End Spec.
(** Everything taken out of the queue *)
Definition drained {P B R} (rs : list (ret P B R)) : list (msg B) := flat_map (fun r => match r with RMsgs l => l | _ => [] end) rs.

(** A network of state machines.  The loop that drives a machine is round_based's AsyncProtocol (outside /repo; called
    from examples/gg20_keygen.rs:41-46 and gg20_signing.rs:45-55): it hands incoming messages to handle_incoming, calls
    proceed when wants_to_proceed, and sends out whatever is in message_queue.  Here every interleaving of those calls,
    over all parties, is a schedule: the messages on the wire may be delivered in any order. *)
From Coq Require Import Arith Lia Bool List.
From Verif Require Import Outcome Mp Stores RoundSM SmSpec.
Import ListNotations.

Section Net.
Context {S P B O : Type}.
(** Party i (counted from 1) runs its own machine [opf i]. *)
Context (opf : nat -> S -> op B -> S * ret P B O).
(** wants_to_proceed and message_queue *)
Context (wants : S -> bool) (queue : S -> list (msg B)).

(** A broadcast goes to everyone else, a point-to-point message to its addressee. *)
Definition receivers (n i : nat) (m : msg B) : list nat := match m_to m with None => peers i n | Some j => [j] end.
Definition copies (n i : nat) (l : list (msg B)) : list (nat * msg B) := flat_map (fun m => map (fun j => (j, m)) (receivers n i m)) l.

(** The machines and the messages under way, each with its receiver *)
Record net := { nt_st : list S; nt_wire : list (nat * msg B) }.
Definition party (w : net) (i : nat) : option S := match i with 0 => None | Datatypes.S k => nth_error (nt_st w) k end.
Definition nparties (w : net) : nat := length (nt_st w).

(** Deliver the x-th message on the wire; call proceed on party i; send out party i's queue. *)
Inductive nact := NDeliver (x : nat) | NProceed (i : nat) | NSend (i : nat).

Definition call (l : list S) (i : nat) (o : op B) : list S * list (nat * op B * ret P B O) :=
  match i with
  | 0 => (l, [])
  | Datatypes.S k => match nth_error l k with
                     | None => (l, [])
                     | Some s => let '(s', r) := opf i s o in (upd l k s', [(i, o, r)])
                     end
  end.
(** What the calls of a log put on the wire *)
Definition routed (n : nat) (log : list (nat * op B * ret P B O)) : list (nat * msg B) :=
  flat_map (fun '(i, _, r) => copies n i (drained [r])) log.

Definition net_step (w : net) (a : nact) : net * list (nat * op B * ret P B O) :=
  match a with
  | NDeliver x =>
      match nth_error (nt_wire w) x with
      | None => (w, [])
      | Some (i, m) => let '(l, e) := call (nt_st w) i (Deliver m) in
                       ({| nt_st := l; nt_wire := firstn x (nt_wire w) ++ skipn (Datatypes.S x) (nt_wire w) |}, e)
      end
  | NProceed i => let '(l, e) := call (nt_st w) i Proceed in ({| nt_st := l; nt_wire := nt_wire w |}, e)
  | NSend i => let '(l, e) := call (nt_st w) i Drain in ({| nt_st := l; nt_wire := nt_wire w ++ routed (nparties w) e |}, e)
  end.

(** A schedule: the network after it and the log of all calls (who, which call, what it returned). *)
Fixpoint net_exec (w : net) (acts : list nact) : net * list (nat * op B * ret P B O) :=
  match acts with
  | [] => (w, [])
  | a :: t => let '(w1, e1) := net_step w a in let '(w2, e2) := net_exec w1 t in (w2, e1 ++ e2)
  end.

(** Is there something for this action to do? *)
Definition enabled (w : net) (a : nact) : bool :=
  match a with
  | NDeliver x => x <? length (nt_wire w)
  | NProceed i => match party w i with Some s => wants s | None => false end
  | NSend i => match party w i with Some s => match queue s with [] => false | _ => true end | None => false end
  end.
(** How many actions of a schedule had something to do *)
Fixpoint work (w : net) (acts : list nact) : nat :=
  match acts with
  | [] => 0
  | a :: t => (if enabled w a then 1 else 0) + work (fst (net_step w a)) t
  end.

(** The calls on party i, in order, and their results *)
Definition ops_of (i : nat) (log : list (nat * op B * ret P B O)) : list (op B) :=
  flat_map (fun '(j, o, _) => if (j =? i) then [o] else []) log.
Definition rets_of (i : nat) (log : list (nat * op B * ret P B O)) : list (ret P B O) :=
  flat_map (fun '(j, _, r) => if (j =? i) then [r] else []) log.
(** All messages handed over *)
Definition handed (log : list (nat * op B * ret P B O)) : list (nat * msg B) :=
  flat_map (fun '(i, o, _) => match o with Deliver m => [(i, m)] | _ => [] end) log.
End Net.
Arguments net : clear implicits. Arguments Build_net {_ _}. Arguments nt_st {_ _}. Arguments nt_wire {_ _}.
Arguments party {_ _}. Arguments nparties {_ _}.

(** All calls on honest machines succeed. *)
Definition call_ok {P B O} (e : nat * op B * ret P B O) : Prop :=
  match e with (_, _, RUnit (Ok _)) | (_, _, RMsgs _) => True | _ => False end.

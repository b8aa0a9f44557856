(** The clients of Clients20.v on a server that is open to others: anybody who can reach the server may send requests to
    any room, the clients' room included, since the endpoints ask for no credentials (examples/gg20_sm_manager.rs:17-51). *)
From Coq Require Import String ZArith Bool Lia List.
From Verif Require Import ZArithX Fq Curve Outcome Sigma Vss Paillier RangeProofs Mp Gg20Keygen Gg20Sign Stores RoundSM SmSpec KeygenSM SignSM Manager20 M20Spec Driver Clients20 Clients20Prog.
Import ListNotations.
Local Open Scope nat_scope.

(** What can happen: a step of the clients or the server, a stranger's request, or a stranger closing one of its own
    connections. *)
Inductive xact := XClient (a : cact) | XAsk (rid : string) (q : req) | XGone (t : nat).

Section Open.
Context {S P B O : Type}.
Context (opf : nat -> S -> op B -> S * ret P B O) (wants fin : S -> bool) (queue : S -> list (msg B)).
Context (start : nat -> Z -> option S) (crit : sm_error P -> bool) (ser : msg B -> string) (par : string -> option (msg B)) (oc : bool) (room_id : string).
(** The system and the requests that are strangers' *)
Definition osys : Type := sys S P B O * list nat.
Definition open_step (y : osys) (a : xact) : osys * list (cev P B O) :=
  let '(w, own) := y in
  match a with
  | XClient b => let '(w1, e) := sys_step opf wants fin queue start crit ser par oc room_id w b in ((w1, own), e)
  | XAsk rid q => ((serve oc (Arrive rid q) w, if good_req q then next_task w :: own else own), [])
  | XGone t => ((if existsb (Nat.eqb t) own then serve oc (Cancel t) w else w, own), [])
  end.
Fixpoint open_exec (y : osys) (l : list xact) : osys * list (cev P B O) :=
  match l with
  | [] => (y, [])
  | a :: t => let '(y1, e1) := open_step y a in let '(y2, e2) := open_exec y1 t in (y2, e1 ++ e2)
  end.
End Open.
Arguments osys : clear implicits.
(** The texts strangers posted *)
Definition foreign (l : list xact) : list string := flat_map (fun a => match a with XAsk _ (RPub s) => [s] | _ => [] end) l.
(** The requests of strangers *)
Definition asks (l : list xact) : list (string * req) := flat_map (fun a => match a with XAsk rid q => [(rid, q)] | _ => [] end) l.

(** The key generation clients and the presigning clients among strangers (Clients20Prog.v) *)
Definition kg_open (C : Curve) Hb (Hf : hashF C) ck cd (t n : nat) (rs : nat -> kg_rand C) ser par (oc : bool) (room : string) (acts : list xact)
  : osys (kg_sm C) mp_error (kg_msg C) (local_key C) * list (cev mp_error (kg_msg C) (local_key C)) :=
  open_exec (fun c => kg_op C Hb Hf ck cd (rs (c - 1))) (@kg_wants_to_proceed C) (@kg_is_finished C) (@ks_queue C) (kg_program C Hb Hf ck cd t n rs) kg_is_critical ser par oc room (sys_init n, []) acts.
Definition sg_open (C : Curve) Hb (Hz : hashZ C) (Hf : hashF C) (sl : list nat) (lks : nat -> local_key C) (rs : nat -> sign_rand C) ser par (oc : bool) (room : string) (acts : list xact)
  : osys (sg_sm C) mp_error (sg_msg C) (completed C) * list (cev mp_error (sg_msg C) (completed C)) :=
  open_exec (fun c => sg_op C Hb Hz Hf (rs (c - 1))) (@sg_wants_to_proceed C) (@sg_is_finished C) (@sm_queue C) (sg_program C sl lks) sg_is_critical ser par oc room (sys_init (length sl), []) acts.

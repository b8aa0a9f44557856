(** The online part of examples/gg20_signing.rs main (lines 59-88): join the online room, post one's partial signature, take
    the first n-1 messages that pass the filter, complete the signature.

    Written as a machine for the system of Clients20.v.  The program posts before it reads; here reading may come first,
    which only changes when messages leave the subscription's buffer.  The result of SignManual::complete is the output. *)
From Coq Require Import String ZArith Bool Lia List.
From Verif Require Import ZArithX Fq Curve Outcome Ecdsa Mp Gg20Sign Stores RoundSM SmSpec SignSM Manager20 Clients20.
Import ListNotations.
Local Open Scope nat_scope.

Section Online.
Context (C : Curve).
Notation F := (Fq (cq C)).
(** [on_n] is args.parties.len() (line 42), [on_l] the SignManual value, [on_queue] what is still to be posted, [on_got] the
    bodies taken from the stream so far. *)
Record on_sm := { on_n : nat; on_l : local_sig C; on_queue : list (msg F); on_got : list F }.
(** 66-77: the sender field is [i], the number from the offline room, not the one from the online room *)
Definition on_new (i n : nat) (c : completed C) (m : Z) : outcome error on_sm :=
  let* l := sign_manual c m in
  Ok {| on_n := n; on_l := l; on_queue := [{| m_from := i; m_to := None; m_body := ls_s l |}]; on_got := [] |}.
(** 79-83: take(number_of_parties - 1): later messages are not looked at *)
Definition on_deliver (s : on_sm) (m : msg F) : on_sm :=
  if length (on_got s) <? on_n s - 1 then {| on_n := on_n s; on_l := on_l s; on_queue := on_queue s; on_got := on_got s ++ [m_body m] |} else s.
(** 84-86 *)
Definition on_complete (s : on_sm) : outcome error (sig_recid C) := gg20_output (on_l s) (on_got s).
Definition on_op (s : on_sm) (o : op F) : on_sm * ret unit F (outcome error (sig_recid C)) :=
  match o with
  | Deliver m => (on_deliver s m, RUnit (Ok tt))
  | Proceed => (s, RUnit (Ok tt))
  | Drain => ({| on_n := on_n s; on_l := on_l s; on_queue := []; on_got := on_got s |}, RMsgs (on_queue s))
  | Pick => (s, RPick (Some (Ok (on_complete s))))
  end.
Definition on_wants (s : on_sm) : bool := false.
Definition on_finished (s : on_sm) : bool := on_n s - 1 <=? length (on_got s).

(** Client c had number c in the offline room and finished the offline stage with [cs (c - 1)]; the index from the online
    room is bound to [_i] (line 59) and only used by the filter. *)
Definition on_program (n : nat) (cs : nat -> completed C) (m : Z) (c : nat) (_i : Z) : option on_sm :=
  match on_new c n (cs (c - 1)) m with Ok s => Some s | _ => None end.
Definition on_world (n : nat) (cs : nat -> completed C) (m : Z) ser par (oc : bool) (room : string) (acts : list cact)
  : sys on_sm unit F (outcome error (sig_recid C)) * list (cev unit F (outcome error (sig_recid C))) :=
  sys_exec (fun _ => on_op) on_wants on_finished on_queue (on_program n cs m) (fun _ => true) ser par oc room (sys_init n) acts.
Definition on_world_work (n : nat) (cs : nat -> completed C) (m : Z) ser par (oc : bool) (room : string) (acts : list cact) : nat :=
  sys_work (fun _ => on_op) on_wants on_finished on_queue (on_program n cs m) (fun _ => true) ser par oc room (sys_init n) acts.
End Online.
Arguments on_n {_}. Arguments on_l {_}. Arguments on_queue {_}. Arguments on_got {_}. Arguments on_new {_}. Arguments on_deliver {_}. Arguments on_complete {_}. Arguments on_op {_}.
Arguments on_wants {_}. Arguments on_finished {_}. Arguments on_program {_}. Arguments on_world {_}. Arguments on_world_work {_}.

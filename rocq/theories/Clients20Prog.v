(** The two client programs: what each does with the index the room gave it, and the whole systems. *)
From Coq Require Import String ZArith Bool Lia List.
From Verif Require Import ZArithX Fq Curve Outcome Sigma Vss Paillier RangeProofs Mp Gg20Keygen Gg20Sign Stores RoundSM SmSpec KeygenSM SignSM Manager20 Driver Clients20.
Import ListNotations.
Local Open Scope nat_scope.

(** gg20_keygen.rs:39-47: the index from the room is bound to [_i] and not used; the machine is made with args.index.
    Client c is the one started with [--index c]; its randomness is [rs (c - 1)]. *)
Definition kg_program (C : Curve) Hb (Hf : hashF C) ck cd (t n : nat) (rs : nat -> kg_rand C) (c : nat) (_i : Z) : option (kg_sm C) :=
  match kg_new C Hb Hf ck cd (rs (c - 1)) c t n with Ok s => Some s | _ => None end.
(** gg20_signing.rs:43-52: the machine is made with the index from the room and the share in args.local_share; client c is
    the one holding the share of party [nth (c - 1) sl] (all are started with the same [--parties sl]). *)
Definition sg_program (C : Curve) (sl : list nat) (lks : nat -> local_key C) (c : nat) (i : Z) : option (sg_sm C) :=
  match sg_new (Z.to_nat i) sl (lks (c - 1)) with Ok s => Some s | _ => None end.

(** n clients with key generation machines, one relay, and a schedule: the final state, and everything that happened at the clients *)
Definition kg_world (C : Curve) Hb (Hf : hashF C) ck cd (t n : nat) (rs : nat -> kg_rand C) ser par (oc : bool) (room : string) (acts : list cact)
  : sys (kg_sm C) (mp_error) (kg_msg C) (local_key C) * list (cev mp_error (kg_msg C) (local_key C)) :=
  sys_exec (fun c => kg_op C Hb Hf ck cd (rs (c - 1))) (@kg_wants_to_proceed C) (@kg_is_finished C) (@ks_queue C) (kg_program C Hb Hf ck cd t n rs) kg_is_critical ser par oc room (sys_init n) acts.
Definition kg_world_work (C : Curve) Hb (Hf : hashF C) ck cd (t n : nat) (rs : nat -> kg_rand C) ser par (oc : bool) (room : string) (acts : list cact) : nat :=
  sys_work (fun c => kg_op C Hb Hf ck cd (rs (c - 1))) (@kg_wants_to_proceed C) (@kg_is_finished C) (@ks_queue C) (kg_program C Hb Hf ck cd t n rs) kg_is_critical ser par oc room (sys_init n) acts.
Definition sg_world (C : Curve) Hb (Hz : hashZ C) (Hf : hashF C) (sl : list nat) (lks : nat -> local_key C) (rs : nat -> sign_rand C) ser par (oc : bool) (room : string) (acts : list cact)
  : sys (sg_sm C) (mp_error) (sg_msg C) (completed C) * list (cev mp_error (sg_msg C) (completed C)) :=
  sys_exec (fun c => sg_op C Hb Hz Hf (rs (c - 1))) (@sg_wants_to_proceed C) (@sg_is_finished C) (@sm_queue C) (sg_program C sl lks) sg_is_critical ser par oc room (sys_init (length sl)) acts.
Definition sg_world_work (C : Curve) Hb (Hz : hashZ C) (Hf : hashF C) (sl : list nat) (lks : nat -> local_key C) (rs : nat -> sign_rand C) ser par (oc : bool) (room : string) (acts : list cact) : nat :=
  sys_work (fun c => sg_op C Hb Hz Hf (rs (c - 1))) (@sg_wants_to_proceed C) (@sg_is_finished C) (@sm_queue C) (sg_program C sl lks) sg_is_critical ser par oc room (sys_init (length sl)) acts.

(** What the claims about the GG20 relay talk about: functions of the observed trace only. *)
From Coq Require Import String ZArith Bool Lia List.
From Verif Require Import Manager20.
Import ListNotations.
Open Scope Z_scope.

(** Messages accepted in a room, in order of acceptance *)
Definition pubs (ref : nat) (tr : list obs) : list string :=
  flat_map (fun o => match o with OPublished _ _ r m => if Nat.eqb r ref then [m] else [] | _ => [] end) tr.
(** Indices issued in a room, in order *)
Definition issued (ref : nat) (tr : list obs) : list Z :=
  flat_map (fun o => match o with OIssued _ _ r i => if Nat.eqb r ref then [i] else [] | _ => [] end) tr.
(** Events delivered to a subscriber, in order *)
Definition gots (t : nat) (tr : list obs) : list (Z * string) :=
  flat_map (fun o => match o with OGot t' _ i m => if Nat.eqb t' t then [(i, m)] else [] | _ => [] end) tr.
(** How a subscriber joined *)
Definition joins (t : nat) (tr : list obs) : list (string * nat * option Z) :=
  flat_map (fun o => match o with OJoined t' rid r last => if Nat.eqb t' t then [(rid, r, last)] else [] | _ => [] end) tr.
(** Number of subscribers of a room that joined and have not left *)
Definition watchers (ref : nat) (tr : list obs) : Z :=
  fold_right Z.add 0 (map (fun o => match o with
    | OJoined _ _ r _ => if Nat.eqb r ref then 1 else 0
    | OLeft _ r | OReadPanic _ r => if Nat.eqb r ref then -1 else 0
    | _ => 0 end) tr).
(** Subscriptions that crashed half way and are counted for ever *)
Definition leaked (ref : nat) (tr : list obs) : Z :=
  fold_right Z.add 0 (map (fun o => match o with OJoinPanic _ r => if Nat.eqb r ref then 1 else 0 | _ => 0 end) tr).

(** The part of a room's history a subscriber with this last-seen id wants: everything after it *)
Definition wanted_from (last : option Z) : nat := match last with Some i => Z.to_nat (i + 1) | None => 0%nat end.
(** Messages numbered from [k] on *)
Definition numbered (k : nat) (l : list string) : list (Z * string) := combine (map Z.of_nat (seq k (length l))) l.
(** Subscriber [t] has gone *)
Definition gone (t : nat) (tr : list obs) : Prop := exists r, In (OLeft t r) tr \/ In (OReadPanic t r) tr.
(** Number of requests taken on *)
Definition arrivals (l : list act) : nat := length (filter (fun a => match a with Arrive _ q => good_req q | _ => false end) l).

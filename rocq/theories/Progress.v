(** The Debug output of the two GG20 state machines: gg_2020/state_machine/keygen.rs:360-400 (K) and
    gg_2020/state_machine/sign/fmt.rs (F).  [usize] subtraction below zero is a panic. *)
From Coq Require Import ZArith Arith Lia Bool List String DecimalString.
From Verif Require Import Outcome Curve Stores KeygenSM SignSM.
Import ListNotations.
Local Open Scope string_scope.

(** [{}] of a usize *)
Definition dec (n : nat) : string := NilZero.string_of_uint (Nat.to_uint n).
Definition checked_sub {E} (a b : nat) : outcome E nat := if (b <=? a)%nat then Ok (a - b)%nat else Panic.

Section Progress.
Context (C : Curve).

(** messages_received and messages_total of both stores (round-based): [messages_total - msgs_left], slots *)
Definition st_total {A} (s : store A) : nat := List.length (s_slots s).
Definition st_received {E A} (s : store A) : outcome E nat := checked_sub (st_total s) (s_left s).
(** K:371-386 *)
Definition kg_cell {E A} (s : option (store A)) : outcome E string :=
  match s with
  | Some s => let* r := st_received s in Ok ("[" ++ dec r ++ "/" ++ dec (st_total s) ++ "]")
  | None => Ok "[None]"
  end.
(** K:362-370 *)
Definition kg_stage (r : kg_r C) : string :=
  match r with KR0 _ _ _ => "0" | KR1 _ => "1" | KR2 _ => "2" | KR3 _ => "3" | KR4 _ => "4" | KFinal _ => "[Final]" | KGone => "[Gone]" end.
(** impl Debug for Keygen, K:360-400 *)
Definition kg_debug {E} (s : kg_sm C) : outcome E string :=
  let* m1 := kg_cell (ks_m1 s) in
  let* m2 := kg_cell (ks_m2 s) in
  let* m3 := kg_cell (ks_m3 s) in
  let* m4 := kg_cell (ks_m4 s) in
  Ok ("{Keygen at round=" ++ kg_stage (ks_round s) ++ " msgs1=" ++ m1 ++ " msgs2=" ++ m2 ++ " msgs3=" ++ m3 ++ " msgs4=" ++ m4 ++
      " queue=[len=" ++ dec (List.length (ks_queue s)) ++ "]}").

(** ReceivedMessages::from_broadcast, from_p2p and their Debug, F:80-120 *)
Definition sg_cell {E A} (ty : string) (s : option (store A)) : outcome E string :=
  match s with
  | Some s => let* r := checked_sub (st_total s) (List.length (snd (store_blame s))) in
              Ok ("[" ++ ty ++ " " ++ dec r ++ "/" ++ dec (st_total s) ++ "]")
  | None => Ok "[gone]"
  end.
(** F:29-39, 52-63 *)
Definition sg_stage (r : sg_st C) : string :=
  match r with SR0 _ _ _ => "R0" | SR1 _ => "R1" | SR2 _ => "R2" | SR3 _ => "R3" | SR4 _ => "R4" | SR5 _ => "R5" | SR6 _ => "R6" | SFinished _ => "Finished" | SGone => "Gone" end.
(** impl Debug for OfflineStage, F:5-50 (derived Debug of OfflineStageProgress and OutgoingMessages); the sixth store is not shown *)
Definition sg_debug {E} (s : sg_sm C) : outcome E string :=
  let* m1 := sg_cell "bc" (sm_m1 s) in
  let* m2 := sg_cell "p2p" (sm_m2 s) in
  let* m3 := sg_cell "bc" (sm_m3 s) in
  let* m4 := sg_cell "bc" (sm_m4 s) in
  let* m5 := sg_cell "bc" (sm_m5 s) in
  Ok ("OfflineStageProgress { round: " ++ sg_stage (sm_round s) ++ ", round1_msgs: " ++ m1 ++ ", round2_msgs: " ++ m2 ++ ", round3_msgs: " ++ m3 ++
      ", round4_msgs: " ++ m4 ++ ", round5_msgs: " ++ m5 ++ ", msgs_queue: OutgoingMessages { len: " ++ dec (List.length (sm_queue s)) ++ " } }").
End Progress.
Arguments kg_stage {_}. Arguments kg_debug {_ _}. Arguments sg_stage {_}. Arguments sg_debug {_ _}.

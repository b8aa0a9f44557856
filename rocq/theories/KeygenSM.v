(** The GG20 key generation state machine, gg_2020/state_machine/keygen.rs (K), around the round functions of
    Gg20Keygen.v.  The values a party samples are fixed in advance in [rd]: every round is executed at most once.
    A panic unwinds out of the call like an error: the round is left as [Gone], a taken store stays taken.
    The recursion of proceed_round is bounded by a fuel argument, which PropSM shows is never exhausted. *)
From Coq Require Import ZArith Lia Bool List.
From Verif Require Import ZArithX Fq Curve Outcome Sigma Bytes Vss Paillier RangeProofs Pdl Mp Gg20Keygen Stores RoundSM.
Import ListNotations.
Local Open Scope nat_scope.

Section KgSM.
Context (C : Curve).
Context (Hb : list Z -> Z) (Hf : hashF C) (ck : Z -> Z -> bool) (cd : Z -> dlstmt -> outcome mp_error bool).
Context (rd : kg_rand C).
Notation F := (Fq (cq C)).
Notation err := (sm_error mp_error).
Notation res := (outcome err).

(** M, K:415-421 *)
Inductive kg_msg := KM1 (b : kg_bc1) | KM2 (d : kg_dec1 C) | KM3 (x : vss C * F) | KM4 (p : dlog_proof C).
(** R, K:394-402 *)
Inductive kg_r := KR0 (i t n : nat) | KR1 (r : kg_round1 C) | KR2 (r : kg_round2 C) | KR3 (r : kg_round3 C) | KR4 (r : kg_round4 C)
  | KFinal (k : local_key C) | KGone.
(** Keygen, K:31-43 *)
Record kg_sm := { ks_round : kg_r; ks_m1 : option (store kg_bc1); ks_m2 : option (store (kg_dec1 C)); ks_m3 : option (store (vss C * F));
                  ks_m4 : option (store (dlog_proof C)); ks_queue : list (msg kg_msg); ks_i : nat; ks_n : nat }.

(** proceed_round, K:93-184.  is_expensive: rounds.rs:49, 87, 155, 225, 301.  [arm s' r] is the tail of one match arm:
    [s'] has the round replaced by Gone and the store taken, [r] is what the round produced. *)
Definition kg_with (s : kg_sm) (r : kg_r) (out : list (msg kg_msg)) : kg_sm :=
  {| ks_round := r; ks_m1 := ks_m1 s; ks_m2 := ks_m2 s; ks_m3 := ks_m3 s; ks_m4 := ks_m4 s; ks_queue := ks_queue s ++ out;
     ks_i := ks_i s; ks_n := ks_n s |}.
Definition kg_take (s : kg_sm) (k : nat) : kg_sm :=
  {| ks_round := KGone;
     ks_m1 := if (k =? 1) then None else ks_m1 s; ks_m2 := if (k =? 2) then None else ks_m2 s;
     ks_m3 := if (k =? 3) then None else ks_m3 s; ks_m4 := if (k =? 4) then None else ks_m4 s;
     ks_queue := ks_queue s; ks_i := ks_i s; ks_n := ks_n s |}.
Definition bcast (i : nat) (b : kg_msg) : list (msg kg_msg) := [{| m_from := i; m_to := None; m_body := b |}].

Fixpoint kg_proceed_round (fuel : nat) (may_block : bool) (s : kg_sm) : kg_sm * res unit :=
  match fuel with
  | O => (s, Panic)
  | S fuel' =>
      let arm (s' : kg_sm) (try_again : bool) (r : res (kg_r * list (msg kg_msg))) :=
        match r with
        | Ok (next, out) =>
            let s'' := kg_with s' next out in
            if try_again then kg_proceed_round fuel' may_block s'' else (s'', Ok tt)
        | Err e => (s', Err e)
        | Panic => (s', Panic)
        end in
      match ks_round s with
      | KR0 i t n =>
          if negb true || may_block then
            arm (kg_take s 0) true
              (omap_err EProceed (let* x := kg_r0 C Hb i t n rd in Ok (KR1 (fst x), bcast i (KM1 (snd x)))))
          else (s, Ok tt)
      | KR1 r =>
          if negb (wants_opt (ks_m1 s)) && (negb false || may_block) then
            arm (kg_take s 1) true
              (let* msgs := take_all (ks_m1 s) in
               omap_err EProceed (let* x := kg_r1 r msgs in Ok (KR2 (fst x), bcast (r1_i r) (KM2 (snd x)))))
          else (s, Ok tt)
      | KR2 r =>
          if negb (wants_opt (ks_m2 s)) && (negb true || may_block) then
            arm (kg_take s 2) true
              (let* msgs := take_all (ks_m2 s) in
               omap_err EProceed (let* x := kg_r2 C Hb ck cd r (kr_coefs rd) msgs in
                                  Ok (KR3 (fst x), map (fun y => {| m_from := r2_i r; m_to := Some (fst y); m_body := KM3 (snd y) |}) (snd x))))
          else (s, Ok tt)
      | KR3 r =>
          if negb (wants_opt (ks_m3 s)) && (negb true || may_block) then
            arm (kg_take s 3) true
              (let* msgs := take_all (ks_m3 s) in
               omap_err EProceed (let* x := kg_r3 C Hf r (kr_nonce rd) msgs in Ok (KR4 (fst x), bcast (r3_i r) (KM4 (snd x)))))
          else (s, Ok tt)
      | KR4 r =>
          if negb (wants_opt (ks_m4 s)) && (negb true || may_block) then
            arm (kg_take s 4) true
              (let* msgs := take_all (ks_m4 s) in
               omap_err EProceed (let* x := kg_r4 C Hf r msgs in Ok (KFinal x, [])))
          else (s, Ok tt)
      | KFinal _ | KGone => (s, Ok tt)
      end
  end.
Definition kg_fuel : nat := 6.

(** new, K:56-82 *)
Definition kg_new (i t n : nat) : res kg_sm :=
  if (n <? 2) then Err ETooFewParties
  else if (t =? 0) || (n <=? t) then Err EInvalidThreshold
  else if (i =? 0) || (n <? i) then Err EInvalidPartyIndex
  else
    let s := {| ks_round := KR0 i t n; ks_m1 := Some (store_new i n); ks_m2 := Some (store_new i n); ks_m3 := Some (store_new i n);
                ks_m4 := Some (store_new i n); ks_queue := []; ks_i := i; ks_n := n |} in
    match kg_proceed_round kg_fuel false s with
    | (s', Ok _) => Ok s'
    | (_, Err e) => Err e
    | (_, Panic) => Panic
    end.

(** current_round, K:316-325 *)
Definition kg_current_round (s : kg_sm) : nat :=
  match ks_round s with KR0 _ _ _ => 0 | KR1 _ => 1 | KR2 _ => 2 | KR3 _ => 3 | KR4 _ => 4 | KFinal _ | KGone => 5 end.

(** handle_incoming, K:192-265 *)
Definition kg_handle_incoming (s : kg_sm) (m : msg kg_msg) : kg_sm * res unit :=
  let cur := kg_current_round s in
  let set1 x := {| ks_round := ks_round s; ks_m1 := Some x; ks_m2 := ks_m2 s; ks_m3 := ks_m3 s; ks_m4 := ks_m4 s; ks_queue := ks_queue s; ks_i := ks_i s; ks_n := ks_n s |} in
  let set2 x := {| ks_round := ks_round s; ks_m1 := ks_m1 s; ks_m2 := Some x; ks_m3 := ks_m3 s; ks_m4 := ks_m4 s; ks_queue := ks_queue s; ks_i := ks_i s; ks_n := ks_n s |} in
  let set3 x := {| ks_round := ks_round s; ks_m1 := ks_m1 s; ks_m2 := ks_m2 s; ks_m3 := Some x; ks_m4 := ks_m4 s; ks_queue := ks_queue s; ks_i := ks_i s; ks_n := ks_n s |} in
  let set4 x := {| ks_round := ks_round s; ks_m1 := ks_m1 s; ks_m2 := ks_m2 s; ks_m3 := ks_m3 s; ks_m4 := Some x; ks_queue := ks_queue s; ks_i := ks_i s; ks_n := ks_n s |} in
  let pushed (msg_round : nat) (r : option (outcome store_err kg_sm)) :=
    match r with
    | None => (s, Err (EOutOfOrder cur msg_round))
    | Some (Ok s') => kg_proceed_round kg_fuel false s'
    | Some (Err e) => (s, Err (EHandle e))
    | Some Panic => (s, Panic)
    end in
  match m_body m with
  | KM1 b => pushed 1 (option_map (fun st => omap set1 (push_broadcast st (msg_map (fun _ => b) m))) (ks_m1 s))
  | KM2 b => pushed 2 (option_map (fun st => omap set2 (push_broadcast st (msg_map (fun _ => b) m))) (ks_m2 s))
  | KM3 b => pushed 3 (option_map (fun st => omap set3 (push_p2p st (msg_map (fun _ => b) m))) (ks_m3 s))
  | KM4 b => pushed 4 (option_map (fun st => omap set4 (push_broadcast st (msg_map (fun _ => b) m))) (ks_m4 s))
  end.

(** wants_to_proceed, K:271-285 *)
Definition kg_wants_to_proceed (s : kg_sm) : bool :=
  match ks_round s with
  | KR0 _ _ _ => true
  | KR1 _ => negb (wants_opt (ks_m1 s))
  | KR2 _ => negb (wants_opt (ks_m2 s))
  | KR3 _ => negb (wants_opt (ks_m3 s))
  | KR4 _ => negb (wants_opt (ks_m4 s))
  | KFinal _ | KGone => false
  end.

(** proceed, K:287-289 *)
Definition kg_proceed (s : kg_sm) : kg_sm * res unit := kg_proceed_round kg_fuel true s.

(** is_finished, K:299-301 *)
Definition kg_is_finished (s : kg_sm) : bool := match ks_round s with KFinal _ => true | _ => false end.

(** pick_output, K:303-314 *)
Definition kg_pick_output (s : kg_sm) : kg_sm * option (res (local_key C)) :=
  match ks_round s with
  | KFinal k => ({| ks_round := KGone; ks_m1 := ks_m1 s; ks_m2 := ks_m2 s; ks_m3 := ks_m3 s; ks_m4 := ks_m4 s; ks_queue := ks_queue s;
                    ks_i := ks_i s; ks_n := ks_n s |}, Some (Ok k))
  | KGone => (s, Some (Err EDoublePick))
  | _ => (s, None)
  end.

(** message_queue, K:267-269, with the caller taking everything out of it *)
Definition kg_drain (s : kg_sm) : kg_sm * list (msg kg_msg) :=
  ({| ks_round := ks_round s; ks_m1 := ks_m1 s; ks_m2 := ks_m2 s; ks_m3 := ks_m3 s; ks_m4 := ks_m4 s; ks_queue := [];
      ks_i := ks_i s; ks_n := ks_n s |}, ks_queue s).

(** round_blame, K:342-357 *)
Definition kg_round_blame (s : kg_sm) : nat * list nat :=
  match ks_round s with
  | KR0 _ _ _ => (0, [])
  | KR1 _ => blame_opt (ks_m1 s)
  | KR2 _ => blame_opt (ks_m2 s)
  | KR3 _ => blame_opt (ks_m3 s)
  | KR4 _ => blame_opt (ks_m4 s)
  | KFinal _ | KGone => (0, [])
  end.

(** One call of the public interface. *)
Definition kg_op (s : kg_sm) (o : op kg_msg) : kg_sm * ret mp_error kg_msg (local_key C) :=
  match o with
  | Deliver m => let '(s', r) := kg_handle_incoming s m in (s', RUnit r)
  | Proceed => let '(s', r) := kg_proceed s in (s', RUnit r)
  | Drain => let '(s', l) := kg_drain s in (s', RMsgs l)
  | Pick => let '(s', r) := kg_pick_output s in (s', RPick r)
  end.
End KgSM.
Arguments KM1 {_}. Arguments KM2 {_}. Arguments KM3 {_}. Arguments KM4 {_}.
Arguments KR0 {_}. Arguments KR1 {_}. Arguments KR2 {_}. Arguments KR3 {_}. Arguments KR4 {_}. Arguments KFinal {_}. Arguments KGone {_}.
Arguments ks_round {_}. Arguments ks_m1 {_}. Arguments ks_m2 {_}. Arguments ks_m3 {_}. Arguments ks_m4 {_}. Arguments ks_queue {_}.
Arguments ks_i {_}. Arguments ks_n {_}.
Arguments kg_current_round {_}. Arguments kg_wants_to_proceed {_}. Arguments kg_is_finished {_}. Arguments kg_pick_output {_}.
Arguments kg_drain {_}. Arguments kg_round_blame {_}. Arguments kg_with {_}. Arguments kg_take {_}. Arguments bcast {_}.

(** The offline stage of GG20 signing as a state machine, gg_2020/state_machine/sign.rs (S), around the round functions
    of Gg20Sign.v.  Sampled values are fixed in advance in [rd]; panics leave the round as [Gone] like errors do.
    The recursion of proceed_round is bounded by a fuel argument, which PropSM shows is never exhausted. *)
From Coq Require Import ZArith Lia Bool List.
From Verif Require Import ZArithX Fq Curve Outcome Sigma Bytes Vss Paillier RangeProofs PdlSlack Mta Ecdsa Mp Gg20Keygen Gg20Sign Blame Stores RoundSM.
Import ListNotations.
Local Open Scope nat_scope.

Section SgSM.
Context (C : Curve).
Context (Hb : list Z -> Z) (Hz : hashZ C) (Hf : hashF C).
Context (rd : sign_rand C).
Notation F := (Fq (cq C)).
Notation err := (sm_error mp_error).
Notation res := (outcome err).

(** OfflineM, S:483-492 *)
Inductive sg_msg := SM1 (x : msg_a * Z) | SM2 (x : msg_b C * msg_b C) | SM3 (x : F * pt C * ped_proof C) | SM4 (x : sign_dec C) | SM5 (x : pt C * list (pdls_proof C)) | SM6 (x : pt C * heg_proof C).
(** OfflineR, S:466-476 *)
Inductive sg_st := SR0 (i : nat) (sl : list nat) (lk : local_key C) | SR1 (r : sg_round1 C) | SR2 (r : sg_round2 C) | SR3 (r : sg_round3 C)
  | SR4 (r : sg_round4 C) | SR5 (r : sg_round5 C) | SR6 (r : sg_round6 C) | SFinished (o : completed C) | SGone.
(** OfflineStage, S:51-65 *)
Record sg_sm := { sm_round : sg_st;
  sm_m1 : option (store (msg_a * Z)); sm_m2 : option (store (msg_b C * msg_b C)); sm_m3 : option (store (F * pt C * ped_proof C)); sm_m4 : option (store (sign_dec C)); sm_m5 : option (store (pt C * list (pdls_proof C))); sm_m6 : option (store (pt C * heg_proof C));
  sm_queue : list (msg sg_msg); sm_i : nat; sm_n : nat }.

Definition sm_with (s : sg_sm) (r : sg_st) (out : list (msg sg_msg)) : sg_sm :=
  {| sm_round := r; sm_m1 := sm_m1 s; sm_m2 := sm_m2 s; sm_m3 := sm_m3 s; sm_m4 := sm_m4 s; sm_m5 := sm_m5 s; sm_m6 := sm_m6 s; sm_queue := sm_queue s ++ out; sm_i := sm_i s; sm_n := sm_n s |}.
Definition sm_take (s : sg_sm) (k : nat) : sg_sm :=
  {| sm_round := SGone;
     sm_m1 := if (k =? 1) then None else sm_m1 s; sm_m2 := if (k =? 2) then None else sm_m2 s; sm_m3 := if (k =? 3) then None else sm_m3 s; sm_m4 := if (k =? 4) then None else sm_m4 s; sm_m5 := if (k =? 5) then None else sm_m5 s; sm_m6 := if (k =? 6) then None else sm_m6 s;
     sm_queue := sm_queue s; sm_i := sm_i s; sm_n := sm_n s |}.
Definition sbcast (i : nat) (b : sg_msg) : list (msg sg_msg) := [{| m_from := i; m_to := None; m_body := b |}].

(** proceed_round, S:126-249.  Every round is expensive (rounds.rs:106, 215, 323, 408, 504, 598, 642); after rounds 4, 5
    and 6 the next round is not tried in the same call (S:201, 217, 233). *)
Fixpoint sg_proceed_round (fuel : nat) (may_block : bool) (s : sg_sm) : sg_sm * res unit :=
  match fuel with
  | O => (s, Panic)
  | S fuel' =>
      let arm (s' : sg_sm) (try_again : bool) (r : res (sg_st * list (msg sg_msg))) :=
        match r with
        | Ok (next, out) =>
            let s'' := sm_with s' next out in
            if try_again then sg_proceed_round fuel' may_block s'' else (s'', Ok tt)
        | Err e => (s', Err e)
        | Panic => (s', Panic)
        end in
      match sm_round s with
      | SR0 i sl lk =>
          if negb true || may_block then
            arm (sm_take s 0) true (omap_err EProceed (let* x := sg_r0 Hb Hz i sl lk rd in Ok (SR1 (fst x), sbcast i (SM1 (snd x)))))
          else (s, Ok tt)
      | SR1 r =>
          if negb (wants_opt (sm_m1 s)) && (negb true || may_block) then
            arm (sm_take s 1) true
              (let* msgs := take_all (sm_m1 s) in
               omap_err EProceed (let* x := sg_r1 Hz Hf r rd msgs in Ok (SR2 (fst x), map (fun y => {| m_from := s1_i r; m_to := Some (fst y); m_body := SM2 (snd y) |}) (snd x))))
          else (s, Ok tt)
      | SR2 r =>
          if negb (wants_opt (sm_m2 s)) && (negb true || may_block) then
            arm (sm_take s 2) true
              (let* msgs := take_all (sm_m2 s) in
               omap_err EProceed (let* x := sg_r2 Hf r rd msgs in Ok (SR3 (fst x), sbcast (s2_i r) (SM3 (snd x)))))
          else (s, Ok tt)
      | SR3 r =>
          if negb (wants_opt (sm_m3 s)) && (negb true || may_block) then
            arm (sm_take s 3) true
              (let* msgs := take_all (sm_m3 s) in
               omap_err EProceed (let* x := sg_r3 Hf r msgs in Ok (SR4 (fst x), sbcast (s3_i r) (SM4 (snd x)))))
          else (s, Ok tt)
      | SR4 r =>
          if negb (wants_opt (sm_m4 s)) && (negb true || may_block) then
            arm (sm_take s 4) false
              (let* msgs := take_all (sm_m4 s) in
               omap_err EProceed (let* x := sg_r4 Hb Hz r rd msgs in Ok (SR5 (fst x), sbcast (s4_i r) (SM5 (snd x)))))
          else (s, Ok tt)
      | SR5 r =>
          if negb (wants_opt (sm_m5 s)) && (negb true || may_block) then
            arm (sm_take s 5) false
              (let* msgs := take_all (sm_m5 s) in
               omap_err EProceed (let* x := sg_r5 Hz Hf r rd msgs in Ok (SR6 (fst x), sbcast (s5_i r) (SM6 (snd x)))))
          else (s, Ok tt)
      | SR6 r =>
          if negb (wants_opt (sm_m6 s)) && (negb true || may_block) then
            arm (sm_take s 6) false
              (let* msgs := take_all (sm_m6 s) in
               omap_err EProceed (let* x := sg_r6 Hf r msgs in Ok (SFinished x, [])))
          else (s, Ok tt)
      | SFinished _ | SGone => (s, Ok tt)
      end
  end.
Definition sg_fuel : nat := 8.

(** new, S:78-119.  The last check (S:103) cannot fail: see PropSM. *)
Definition sg_new (i : nat) (sl : list nat) (lk : local_key C) : res sg_sm :=
  if (length sl <? 2) then Err ETooFewParties
  else if (i =? 0) || (length sl <? i) then Err EInvalidPartyIndex
  else if existsb (fun j => (j =? 0) || (lk_n lk <? j)) sl then Err EInvalidSl
  else if negb (if list_eq_dec Nat.eq_dec (sort_nat sl) (dedup_nat (sort_nat sl)) then true else false) then Err EInvalidSl
  else if (65535 <? Z.of_nat (length sl))%Z then Err (ETooManyParties (length sl))
  else let n := length sl in
    Ok {| sm_round := SR0 i sl lk;
          sm_m1 := Some (store_new i n); sm_m2 := Some (store_new i n); sm_m3 := Some (store_new i n);
          sm_m4 := Some (store_new i n); sm_m5 := Some (store_new i n); sm_m6 := Some (store_new i n);
          sm_queue := []; sm_i := i; sm_n := n |}.

(** current_round, S:414-425 *)
Definition sg_current_round (s : sg_sm) : nat :=
  match sm_round s with
  | SR0 _ _ _ => 0 | SR1 _ => 1 | SR2 _ => 2 | SR3 _ => 3 | SR4 _ => 4 | SR5 _ => 5 | SR6 _ => 6 | SFinished _ | SGone => 7
  end.

(** handle_incoming, S:257-359; the code reports message round 2 for rounds 3 to 6 (S:299, 315, 331, 347) *)
Definition sg_handle_incoming (s : sg_sm) (m : msg sg_msg) : sg_sm * res unit :=
  let cur := sg_current_round s in
  let set1 x := {| sm_round := sm_round s; sm_m1 := Some x; sm_m2 := sm_m2 s; sm_m3 := sm_m3 s; sm_m4 := sm_m4 s; sm_m5 := sm_m5 s; sm_m6 := sm_m6 s; sm_queue := sm_queue s; sm_i := sm_i s; sm_n := sm_n s |} in
  let set2 x := {| sm_round := sm_round s; sm_m1 := sm_m1 s; sm_m2 := Some x; sm_m3 := sm_m3 s; sm_m4 := sm_m4 s; sm_m5 := sm_m5 s; sm_m6 := sm_m6 s; sm_queue := sm_queue s; sm_i := sm_i s; sm_n := sm_n s |} in
  let set3 x := {| sm_round := sm_round s; sm_m1 := sm_m1 s; sm_m2 := sm_m2 s; sm_m3 := Some x; sm_m4 := sm_m4 s; sm_m5 := sm_m5 s; sm_m6 := sm_m6 s; sm_queue := sm_queue s; sm_i := sm_i s; sm_n := sm_n s |} in
  let set4 x := {| sm_round := sm_round s; sm_m1 := sm_m1 s; sm_m2 := sm_m2 s; sm_m3 := sm_m3 s; sm_m4 := Some x; sm_m5 := sm_m5 s; sm_m6 := sm_m6 s; sm_queue := sm_queue s; sm_i := sm_i s; sm_n := sm_n s |} in
  let set5 x := {| sm_round := sm_round s; sm_m1 := sm_m1 s; sm_m2 := sm_m2 s; sm_m3 := sm_m3 s; sm_m4 := sm_m4 s; sm_m5 := Some x; sm_m6 := sm_m6 s; sm_queue := sm_queue s; sm_i := sm_i s; sm_n := sm_n s |} in
  let set6 x := {| sm_round := sm_round s; sm_m1 := sm_m1 s; sm_m2 := sm_m2 s; sm_m3 := sm_m3 s; sm_m4 := sm_m4 s; sm_m5 := sm_m5 s; sm_m6 := Some x; sm_queue := sm_queue s; sm_i := sm_i s; sm_n := sm_n s |} in
  let pushed (msg_round : nat) (r : option (outcome store_err sg_sm)) :=
    match r with
    | None => (s, Err (EOutOfOrder cur msg_round))
    | Some (Ok s') => sg_proceed_round sg_fuel false s'
    | Some (Err e) => (s, Err (EHandle e))
    | Some Panic => (s, Panic)
    end in
  match m_body m with
  | SM1 b => pushed 1 (option_map (fun st => omap set1 (push_broadcast st (msg_map (fun _ => b) m))) (sm_m1 s))
  | SM2 b => pushed 2 (option_map (fun st => omap set2 (push_p2p st (msg_map (fun _ => b) m))) (sm_m2 s))
  | SM3 b => pushed 2 (option_map (fun st => omap set3 (push_broadcast st (msg_map (fun _ => b) m))) (sm_m3 s))
  | SM4 b => pushed 2 (option_map (fun st => omap set4 (push_broadcast st (msg_map (fun _ => b) m))) (sm_m4 s))
  | SM5 b => pushed 2 (option_map (fun st => omap set5 (push_broadcast st (msg_map (fun _ => b) m))) (sm_m5 s))
  | SM6 b => pushed 2 (option_map (fun st => omap set6 (push_broadcast st (msg_map (fun _ => b) m))) (sm_m6 s))
  end.

(** wants_to_proceed, S:365-383 *)
Definition sg_wants_to_proceed (s : sg_sm) : bool :=
  match sm_round s with
  | SR0 _ _ _ => true
  | SR1 _ => negb (wants_opt (sm_m1 s))
  | SR2 _ => negb (wants_opt (sm_m2 s))
  | SR3 _ => negb (wants_opt (sm_m3 s))
  | SR4 _ => negb (wants_opt (sm_m4 s))
  | SR5 _ => negb (wants_opt (sm_m5 s))
  | SR6 _ => negb (wants_opt (sm_m6 s))
  | SFinished _ | SGone => false
  end.

(** proceed, S:385-387 *)
Definition sg_proceed (s : sg_sm) : sg_sm * res unit := sg_proceed_round sg_fuel true s.

(** is_finished, S:397-399 *)
Definition sg_is_finished (s : sg_sm) : bool := match sm_round s with SFinished _ => true | _ => false end.

(** pick_output, S:401-412 *)
Definition sg_pick_output (s : sg_sm) : sg_sm * option (res (completed C)) :=
  match sm_round s with
  | SFinished o => ({| sm_round := SGone; sm_m1 := sm_m1 s; sm_m2 := sm_m2 s; sm_m3 := sm_m3 s; sm_m4 := sm_m4 s; sm_m5 := sm_m5 s; sm_m6 := sm_m6 s; sm_queue := sm_queue s; sm_i := sm_i s; sm_n := sm_n s |}, Some (Ok o))
  | SGone => (s, Some (Err EDoublePick))
  | _ => (s, None)
  end.

(** message_queue, S:361-363, with the caller taking everything out of it *)
Definition sg_drain (s : sg_sm) : sg_sm * list (msg sg_msg) :=
  ({| sm_round := sm_round s; sm_m1 := sm_m1 s; sm_m2 := sm_m2 s; sm_m3 := sm_m3 s; sm_m4 := sm_m4 s; sm_m5 := sm_m5 s; sm_m6 := sm_m6 s; sm_queue := []; sm_i := sm_i s; sm_n := sm_n s |}, sm_queue s).

(** round_blame, S:442-462 *)
Definition sg_round_blame (s : sg_sm) : nat * list nat :=
  match sm_round s with
  | SR0 _ _ _ => (0, [])
  | SR1 _ => blame_opt (sm_m1 s)
  | SR2 _ => blame_opt (sm_m2 s)
  | SR3 _ => blame_opt (sm_m3 s)
  | SR4 _ => blame_opt (sm_m4 s)
  | SR5 _ => blame_opt (sm_m5 s)
  | SR6 _ => blame_opt (sm_m6 s)
  | SFinished _ => blame_opt (sm_m6 s)
  | SGone => (0, [])
  end.

(** is_critical, S:576-590 *)
Definition sg_is_critical (e : err) : bool :=
  match e with
  | EOutOfOrder _ _ | EHandle _ => false
  | _ => true
  end.

(** One call of the public interface. *)
Definition sg_op (s : sg_sm) (o : op sg_msg) : sg_sm * ret mp_error sg_msg (completed C) :=
  match o with
  | Deliver m => let '(s', r) := sg_handle_incoming s m in (s', RUnit r)
  | Proceed => let '(s', r) := sg_proceed s in (s', RUnit r)
  | Drain => let '(s', l) := sg_drain s in (s', RMsgs l)
  | Pick => let '(s', r) := sg_pick_output s in (s', RPick r)
  end.

(** SignManual::new and complete, S:624-646 (Round7, rounds.rs:671-693) *)
Definition sign_manual (c : completed C) (m : Z) : outcome error (local_sig C) :=
  gg20_local_sig (sg_k (co_keys c)) m (co_R c) (co_sigma c) (lk_y (co_lk c)).
End SgSM.
Arguments SM1 {_}. Arguments SM2 {_}. Arguments SM3 {_}. Arguments SM4 {_}. Arguments SM5 {_}. Arguments SM6 {_}. 
Arguments SR0 {_}. Arguments SR1 {_}. Arguments SR2 {_}. Arguments SR3 {_}. Arguments SR4 {_}. Arguments SR5 {_}. Arguments SR6 {_}. Arguments SFinished {_}. Arguments SGone {_}.
Arguments sm_round {_}. Arguments sm_m1 {_}. Arguments sm_m2 {_}. Arguments sm_m3 {_}. Arguments sm_m4 {_}. Arguments sm_m5 {_}. Arguments sm_m6 {_}. Arguments sm_queue {_}. Arguments sm_i {_}. Arguments sm_n {_}.
Arguments sg_new {_}. Arguments sg_current_round {_}. Arguments sg_wants_to_proceed {_}. Arguments sg_is_finished {_}. Arguments sg_pick_output {_}.
Arguments sg_drain {_}. Arguments sg_round_blame {_}. Arguments sm_with {_}. Arguments sm_take {_}. Arguments sbcast {_}. Arguments sign_manual {_}.

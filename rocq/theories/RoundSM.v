(** A state machine of K message rounds over message stores, the common shape of Keygen (K = 4) and OfflineStage
    (K = 6).  It is a proof device: KeygenSM.v and SignSM.v model the two machines of the code, SmSim.v shows that
    each of them is an instance, and the theorems are stated about those two. *)
From Coq Require Import Arith Lia Bool List.
From Verif Require Import Outcome Mp Stores.
Import ListNotations.

Inductive op (B : Type) := Deliver (m : msg B) | Proceed | Drain | Pick.
Arguments Deliver {_}. Arguments Proceed {_}. Arguments Drain {_}. Arguments Pick {_}.

(** What one call returns: handle_incoming and proceed a Result (or panic), message_queue the drained messages,
    pick_output an optional Result. *)
Inductive ret (P B R : Type) :=
  | RUnit (o : outcome (sm_error P) unit)
  | RMsgs (l : list (msg B))
  | RPick (o : option (outcome (sm_error P) R)).
Arguments RUnit {_ _ _}. Arguments RMsgs {_ _ _}. Arguments RPick {_ _ _}.

(** A history of calls: the state after it and what each call returned. *)
Fixpoint run_ops {S P B R} (step : S -> op B -> S * ret P B R) (s : S) (h : list (op B)) : S * list (ret P B R) :=
  match h with
  | [] => (s, [])
  | o :: t => let '(s1, r) := step s o in let '(s2, rs) := run_ops step s1 t in (s2, r :: rs)
  end.

Section Machine.
Context (P B R : Type).
Notation res := (outcome (sm_error P)).

Record params := {
  g_K : nat;                       (* rounds that consume messages *)
  g_me : nat; g_n : nat;           (* own index, number of parties *)
  g_p2p : nat -> bool;             (* does round k expect point-to-point messages *)
  g_exp : nat -> bool;             (* is_expensive of round k *)
  g_again : nat -> bool;           (* is the next round tried after round k *)
  g_rep : nat -> nat;              (* the msg_round reported for a message of round k *)
  g_of : B -> nat;                 (* round of a message *)
  g_step : nat -> R -> list B -> outcome P (R * list (msg B)) }.
Context (p : params).

Inductive ground := GRun (k : nat) (d : R) | GFinal (d : R) | GGone.
Record gstate := { gs_round : ground; gs_stores : list (option (store B)); gs_queue : list (msg B) }.

Definition g_store (s : gstate) (k : nat) : option (store B) := nth (k - 1) (gs_stores s) None.
Definition g_wants (s : gstate) (k : nat) : bool := (0 <? k) && wants_opt (g_store s k).
Definition g_take (s : gstate) (k : nat) : gstate :=
  if (0 <? k) then {| gs_round := GGone; gs_stores := upd (gs_stores s) (k - 1) None; gs_queue := gs_queue s |}
  else {| gs_round := GGone; gs_stores := gs_stores s; gs_queue := gs_queue s |}.
Definition g_next (k : nat) (d : R) : ground := if (k =? g_K p) then GFinal d else GRun (S k) d.
Definition g_exec (s : gstate) (k : nat) (d : R) : res (R * list (msg B)) :=
  let* l := (if (0 <? k) then take_all (g_store s k) else Ok []) in
  omap_err EProceed (g_step p k d l).

Fixpoint g_proceed (fuel : nat) (mb : bool) (s : gstate) : gstate * res unit :=
  match fuel with
  | O => (s, Panic)
  | S f =>
      match gs_round s with
      | GRun k d =>
          if negb (g_wants s k) && (negb (g_exp p k) || mb) then
            let s' := g_take s k in
            match g_exec s k d with
            | Ok (d', out) =>
                let s'' := {| gs_round := g_next k d'; gs_stores := gs_stores s'; gs_queue := gs_queue s' ++ out |} in
                if g_again p k then g_proceed f mb s'' else (s'', Ok tt)
            | Err e => (s', Err e)
            | Panic => (s', Panic)
            end
          else (s, Ok tt)
      | _ => (s, Ok tt)
      end
  end.
Definition g_fuel : nat := S (S (g_K p)).
Definition g_current (s : gstate) : nat := match gs_round s with GRun k _ => k | _ => S (g_K p) end.

Definition g_push (k : nat) : store B -> msg B -> outcome store_err (store B) := if g_p2p p k then push_p2p else push_broadcast.
Definition g_handle (s : gstate) (m : msg B) : gstate * res unit :=
  let k := g_of p (m_body m) in
  match g_store s k with
  | None => (s, Err (EOutOfOrder (g_current s) (g_rep p k)))
  | Some st =>
      match g_push k st m with
      | Ok st' => g_proceed g_fuel false {| gs_round := gs_round s; gs_stores := upd (gs_stores s) (k - 1) (Some st'); gs_queue := gs_queue s |}
      | Err e => (s, Err (EHandle e))
      | Panic => (s, Panic)
      end
  end.

Definition g_wants_to_proceed (s : gstate) : bool :=
  match gs_round s with GRun k _ => negb (g_wants s k) | _ => false end.
Definition g_pick (s : gstate) : gstate * option (res R) :=
  match gs_round s with
  | GFinal d => ({| gs_round := GGone; gs_stores := gs_stores s; gs_queue := gs_queue s |}, Some (Ok d))
  | GGone => (s, Some (Err EDoublePick))
  | GRun _ _ => (s, None)
  end.
Definition g_drain (s : gstate) : gstate * list (msg B) :=
  ({| gs_round := gs_round s; gs_stores := gs_stores s; gs_queue := [] |}, gs_queue s).
Definition g_blame (s : gstate) : nat * list nat :=
  match gs_round s with GRun (S k) _ => blame_opt (g_store s (S k)) | _ => (0, []) end.

Definition g_op (s : gstate) (o : op B) : gstate * ret P B R :=
  match o with
  | Deliver m => let '(s', r) := g_handle s m in (s', RUnit r)
  | Proceed => let '(s', r) := g_proceed g_fuel true s in (s', RUnit r)
  | Drain => let '(s', l) := g_drain s in (s', RMsgs l)
  | Pick => let '(s', r) := g_pick s in (s', RPick r)
  end.

Definition g_init (d : R) : gstate :=
  {| gs_round := GRun 0 d; gs_stores := repeat (Some (store_new (g_me p) (g_n p))) (g_K p); gs_queue := [] |}.
End Machine.
Arguments g_K {_ _ _}. Arguments g_me {_ _ _}. Arguments g_n {_ _ _}. Arguments g_p2p {_ _ _}. Arguments g_exp {_ _ _}.
Arguments g_again {_ _ _}. Arguments g_rep {_ _ _}. Arguments g_of {_ _ _}. Arguments g_step {_ _ _}.
Arguments GRun {_}. Arguments GFinal {_}. Arguments GGone {_}.
Arguments gs_round {_ _}. Arguments gs_stores {_ _}. Arguments gs_queue {_ _}. Arguments Build_gstate {_ _}.
Arguments g_store {_ _}. Arguments g_wants {_ _}. Arguments g_take {_ _}. Arguments g_next {_ _ _}. Arguments g_exec {_ _ _}.
Arguments g_proceed {_ _ _}. Arguments g_fuel {_ _ _}. Arguments g_current {_ _ _}. Arguments g_push {_ _ _}. Arguments g_handle {_ _ _}.
Arguments g_wants_to_proceed {_ _}. Arguments g_pick {_ _ _}. Arguments g_drain {_ _}. Arguments g_blame {_ _}. Arguments g_op {_ _ _}.
Arguments g_init {_ _ _}.

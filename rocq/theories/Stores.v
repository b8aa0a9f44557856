(** Message stores of the round-based crate (containers/store.rs: BroadcastMsgsStore, P2PMsgsStore), which the two
    GG20 state machines are built on.  The crate is not part of /repo; this is its documented behaviour, part of the
    trusted base.  Party numbers count from 1 and are u16 in the code. *)
From Coq Require Import Arith Lia Bool List.
From Verif Require Import Outcome Mp.
Import ListNotations.

(** round_based::Msg *)
Record msg (A : Type) := { m_from : nat; m_to : option nat; m_body : A }.
Arguments m_from {_}. Arguments m_to {_}. Arguments m_body {_}. Arguments Build_msg {_}.
Definition msg_map {A B} (f : A -> B) (m : msg A) : msg B := {| m_from := m_from m; m_to := m_to m; m_body := f (m_body m) |}.

(** containers::StoreErr *)
Inductive store_err := MsgOverwrite | UnknownSender (sender : nat) | ExpectedBroadcast | NotForMe | WantsMore.

(** Both stores keep one slot per other party and the number of empty slots. *)
Record store (A : Type) := { s_me : nat; s_slots : list (option A); s_left : nat }.
Arguments s_me {_}. Arguments s_slots {_}. Arguments s_left {_}. Arguments Build_store {_}.

(** new(party_i, parties_n); [parties_n - 1] would wrap for 0, excluded by both constructors *)
Definition store_new {A} (me n : nat) : store A := {| s_me := me; s_slots := repeat None (n - 1); s_left := n - 1 |}.

Fixpoint upd {A} (l : list A) (i : nat) (x : A) : list A :=
  match l, i with
  | [], _ => []
  | _ :: r, O => x :: r
  | y :: r, S i' => y :: upd r i' x
  end.

(** The slot of [sender]: [if sender < party_i {sender - 1} else {sender - 2}] *)
Definition slot_of (me sender : nat) : nat := if (sender <? me)%nat then sender - 1 else sender - 2.
Definition addr_eqb (a b : option nat) : bool :=
  match a, b with Some x, Some y => (x =? y)%nat | None, None => true | _, _ => false end.

(** The common tail of the two [push_msg]. *)
Definition push_slot {A} (s : store A) (m : msg A) : outcome store_err (store A) :=
  if (m_from m =? s_me s)%nat then Ok s else
  match nth_error (s_slots s) (slot_of (s_me s) (m_from m)) with
  | None => Err (UnknownSender (m_from m))
  | Some (Some _) => Err MsgOverwrite
  | Some None => Ok {| s_me := s_me s; s_slots := upd (s_slots s) (slot_of (s_me s) (m_from m)) (Some (m_body m));
                       s_left := s_left s - 1 |}
  end.
(** BroadcastMsgsStore::push_msg *)
Definition push_broadcast {A} (s : store A) (m : msg A) : outcome store_err (store A) :=
  if (m_from m =? 0)%nat then Err (UnknownSender (m_from m))
  else match m_to m with Some _ => Err ExpectedBroadcast | None => push_slot s m end.
(** P2PMsgsStore::push_msg *)
Definition push_p2p {A} (s : store A) (m : msg A) : outcome store_err (store A) :=
  if (m_from m =? 0)%nat then Err (UnknownSender (m_from m))
  else if addr_eqb (m_to m) (Some (s_me s)) then push_slot s m else Err NotForMe.

(** wants_more *)
Definition wants_more {A} (s : store A) : bool := (0 <? s_left s)%nat.
(** finish: the others' messages in index order; [unwrap] on each slot *)
Definition finish {A} (s : store A) : outcome store_err (list A) :=
  if (0 <? s_left s)%nat then Err WantsMore else omapM unwrap (s_slots s).
(** blame: the number of empty slots and their owners *)
Definition store_blame {A} (s : store A) : nat * list nat :=
  let guilty := flat_map (fun '(i, o) => match o with
                                         | None => [if (i <? s_me s - 1)%nat then i + 1 else i + 2]
                                         | Some _ => [] end)
                         (combine (seq 0 (length (s_slots s))) (s_slots s)) in
  (length guilty, guilty).

(** Errors of the two machines (keygen.rs:426-464, sign.rs:543-622): [P] is the error of a round. *)
Inductive internal_err := StoreGone | RetrieveMessages (e : store_err).
Inductive sm_error (P : Type) :=
  | EProceed (e : P)
  | ETooFewParties
  | ETooManyParties (n : nat)
  | EInvalidThreshold
  | EInvalidPartyIndex
  | EInvalidSl
  | EHandle (e : store_err)
  | EOutOfOrder (current_round msg_round : nat)
  | EDoublePick
  | EInternal (e : internal_err).
Arguments EProceed {_}. Arguments ETooFewParties {_}. Arguments ETooManyParties {_}. Arguments EInvalidThreshold {_}.
Arguments EInvalidPartyIndex {_}. Arguments EInvalidSl {_}. Arguments EHandle {_}. Arguments EOutOfOrder {_}.
Arguments EDoublePick {_}. Arguments EInternal {_}.

(** [self.msgsK.as_ref().map(|s| s.wants_more()).unwrap_or(false)] *)
Definition wants_opt {A} (s : option (store A)) : bool := match s with Some s => wants_more s | None => false end.
(** [self.msgsK.as_ref().map(|s| s.blame()).unwrap_or_default()] *)
Definition blame_opt {A} (s : option (store A)) : nat * list nat := match s with Some s => store_blame s | None => (0, []) end.
(** [self.msgsK.take().ok_or(StoreGone)?.finish().map_err(..)?] *)
Definition take_all {P A} (s : option (store A)) : outcome (sm_error P) (list A) :=
  let* s := ok_or (EInternal StoreGone) s in
  omap_err (fun e => EInternal (RetrieveMessages e)) (finish s).

(** The GG20 relay server, examples/gg20_sm_manager.rs, and the receiving filter of examples/gg20_sm_client.rs.

    Requests run concurrently, so the model is a small-step one: each step of a task is one atomic action of the code (a
    critical section of a lock, or one operation on an atomic counter), and an execution is any sequence of arrivals,
    steps of tasks and disconnections.  u16 arithmetic is kept: [fetch_add] and [fetch_sub] wrap around, the plain
    additions at lines 114 and 138 panic when overflow checks are on ([oc = true], debug builds) and wrap when they are
    off (release builds).

    Not modelled: HTTP parsing, JSON, the size limit on bodies, server shutdown, and fairness of the scheduler. *)
From Coq Require Import String ZArith Bool Lia List.
Import ListNotations.
Open Scope Z_scope.

(** struct Room (57-62).  [rm_notify] counts the calls of notify_waiters on message_appeared: a future returned by
    Notify::notified is ready once a call was made after its creation. *)
Record room := { rm_msgs : list string; rm_notify : nat; rm_subs : Z; rm_next : Z }.

(** Room::empty (95-102) *)
Definition room_empty : room := {| rm_msgs := []; rm_notify := 0; rm_subs := 0; rm_next := 1 |}.

(** AtomicU16::fetch_add(1) and fetch_sub(1) wrap around. *)
Definition inc16 (x : Z) : Z := (x + 1) mod 65536.
Definition dec16 (x : Z) : Z := (x - 1) mod 65536.
(** u16 + 1 at lines 114 and 138: None is a panic. *)
Definition add16 (oc : bool) (x : Z) : option Z := if x + 1 <? 65536 then Some (x + 1) else if oc then None else Some 0.

(** Room::is_abandoned (118-120) *)
Definition is_abandoned (r : room) : bool := rm_subs r =? 0.
(** Room::publish (104-108): push and notify under the write lock *)
Definition publish (m : string) (r : room) : room :=
  {| rm_msgs := rm_msgs r ++ [m]; rm_notify := S (rm_notify r); rm_subs := rm_subs r; rm_next := rm_next r |}.
(** Room::issue_unique_idx (122-124) *)
Definition issue_unique_idx (r : room) : Z * room :=
  (rm_next r, {| rm_msgs := rm_msgs r; rm_notify := rm_notify r; rm_subs := rm_subs r; rm_next := inc16 (rm_next r) |}).
Definition set_subs (f : Z -> Z) (r : room) : room :=
  {| rm_msgs := rm_msgs r; rm_notify := rm_notify r; rm_subs := f (rm_subs r); rm_next := rm_next r |}.

(** The three endpoints (17-51) *)
Inductive req := RSub (last : option Z) | RIssue | RPub (m : string).

(** A task serving one request.  A room is known by its position in the heap (Arc<Room>). *)
Inductive task :=
  | TLookup (rid : string) (q : req)      (* before get_room_or_create_empty, 71-78 *)
  | TCreate (rid : string) (q : req)      (* read lock released, before 81-90 *)
  | TRoom (rid : string) (ref : nat) (q : req)  (* holds its room; the room id is kept for the observations only *)
  | TReady (ref : nat) (next : Z)         (* a Subscription, before taking the read lock in next, 134-140 *)
  | TWaiting (ref : nat) (next : Z) (seen : nat)  (* awaiting the notification created at 141 *)
  | TEnd.

(** Db::rooms and everything reachable from the tasks *)
Record db := { db_rooms : list (string * nat); db_heap : list room; db_tasks : list task }.
(** Db::empty (65-69) *)
Definition db_empty : db := {| db_rooms := []; db_heap := []; db_tasks := [] |}.

(** What clients and the outside see.  The room instance is recorded so that claims can be stated per room. *)
Inductive obs :=
  | OJoined (t : nat) (rid : string) (ref : nat) (last : option Z)
  | OGot (t : nat) (ref : nat) (id : Z) (m : string)
  | OIssued (t : nat) (rid : string) (ref : nat) (idx : Z)
  | OPublished (t : nat) (rid : string) (ref : nat) (m : string)
  | OLeft (t : nat) (ref : nat)
  | OJoinPanic (t : nat) (ref : nat)
  | OReadPanic (t : nat) (ref : nat).

(** HashMap::get on Db::rooms *)
Fixpoint find_room (rid : string) (l : list (string * nat)) : option nat :=
  match l with [] => None | (k, v) :: l' => if String.eqb rid k then Some v else find_room rid l' end.
Fixpoint upd {A} (k : nat) (f : A -> A) (l : list A) : list A :=
  match l, k with [] , _ => [] | x :: l', O => f x :: l' | x :: l', S k' => x :: upd k' f l' end.

Definition set_task (t : nat) (x : task) (s : db) : db :=
  {| db_rooms := db_rooms s; db_heap := db_heap s; db_tasks := upd t (fun _ => x) (db_tasks s) |}.
Definition set_room (ref : nat) (f : room -> room) (s : db) : db :=
  {| db_rooms := db_rooms s; db_heap := upd ref f (db_heap s); db_tasks := db_tasks s |}.
Definition get_room (ref : nat) (s : db) : room := nth ref (db_heap s) room_empty.

(** Lines 72-79: under the read lock *)
Definition lookup_step (rid : string) (s : db) : option nat :=
  match find_room rid (db_rooms s) with
  | Some ref => if is_abandoned (get_room ref s) then None else Some ref
  | None => None
  end.
(** Lines 81-90: under the write lock.  Replacing an entry and inserting one are the same on an association list. *)
Definition create_step (rid : string) (s : db) : nat * db :=
  match find_room rid (db_rooms s) with
  | Some ref =>
      if negb (is_abandoned (get_room ref s)) then (ref, s)
      else (length (db_heap s), {| db_rooms := (rid, length (db_heap s)) :: db_rooms s; db_heap := db_heap s ++ [room_empty]; db_tasks := db_tasks s |})
  | None => (length (db_heap s), {| db_rooms := (rid, length (db_heap s)) :: db_rooms s; db_heap := db_heap s ++ [room_empty]; db_tasks := db_tasks s |})
  end.

(** The position in the history a subscription starts from (114) *)
Definition start_at (oc : bool) (last : option Z) : option Z := match last with Some i => add16 oc i | None => Some 0 end.

(** One atomic step of task [t] *)
Definition run_task (oc : bool) (t : nat) (s : db) : db * list obs :=
  match nth t (db_tasks s) TEnd with
  | TLookup rid q =>
      match lookup_step rid s with
      | Some ref => (set_task t (TRoom rid ref q) s, [])
      | None => (set_task t (TCreate rid q) s, [])
      end
  | TCreate rid q => let '(ref, s') := create_step rid s in (set_task t (TRoom rid ref q) s', [])
  | TRoom rid ref (RSub last) =>            (* Room::subscribe, 110-116 *)
      let s' := set_room ref (set_subs inc16) s in
      match start_at oc last with
      | Some next => (set_task t (TReady ref next) s', [OJoined t rid ref last])
      | None => (set_task t TEnd s', [OJoinPanic t ref])   (* the counter is not decremented: no Subscription was made *)
      end
  | TRoom rid ref RIssue =>                 (* 42-43 *)
      let '(idx, _) := issue_unique_idx (get_room ref s) in
      (set_task t TEnd (set_room ref (fun r => snd (issue_unique_idx r)) s), [OIssued t rid ref idx])
  | TRoom rid ref (RPub m) =>               (* 49-50 *)
      (set_task t TEnd (set_room ref (publish m) s), [OPublished t rid ref m])
  | TReady ref next =>                      (* Subscription::next, 135-141 *)
      match nth_error (rm_msgs (get_room ref s)) (Z.to_nat next) with
      | Some m =>
          match add16 oc next with
          | Some next' => (set_task t (TReady ref next') s, [OGot t ref next m])
          | None => (set_task t TEnd (set_room ref (set_subs dec16) s), [OReadPanic t ref])   (* unwinding drops the Subscription *)
          end
      | None => (set_task t (TWaiting ref next (rm_notify (get_room ref s))) s, [])
      end
  | TWaiting ref next seen =>               (* 143 *)
      if Nat.ltb seen (rm_notify (get_room ref s)) then (set_task t (TReady ref next) s, []) else (s, [])
  | TEnd => (s, [])
  end.

(** The client goes away: the task is dropped, and with it its Subscription (148-152). *)
Definition cancel_task (t : nat) (s : db) : db * list obs :=
  match nth t (db_tasks s) TEnd with
  | TReady ref _ | TWaiting ref _ _ => (set_task t TEnd (set_room ref (set_subs dec16) s), [OLeft t ref])
  | _ => (set_task t TEnd s, [])
  end.

(** LastEventId::from_request (161-173): a Last-Event-ID that is not a u16 is answered with BadRequest. *)
Definition good_req (q : req) : bool := match q with RSub (Some i) => (0 <=? i) && (i <? 65536) | _ => true end.
Inductive act := Arrive (rid : string) (q : req) | Run (t : nat) | Cancel (t : nat).
Definition step (oc : bool) (s : db) (a : act) : db * list obs :=
  match a with
  | Arrive rid q =>
      if good_req q then ({| db_rooms := db_rooms s; db_heap := db_heap s; db_tasks := db_tasks s ++ [TLookup rid q] |}, [])
      else (s, [])
  | Run t => run_task oc t s
  | Cancel t => cancel_task t s
  end.
Fixpoint exec (oc : bool) (s : db) (l : list act) : db * list obs :=
  match l with
  | [] => (s, [])
  | a :: l' => let '(s1, o1) := step oc s a in let '(s2, o2) := exec oc s1 l' in (s2, o1 ++ o2)
  end.

(** The filter of join_computation (gg20_sm_client.rs 36-40), on sender and receiver *)
Definition client_filter (index : Z) (sender : Z) (receiver : option Z) : bool :=
  negb (sender =? index) && (match receiver with None => true | Some r => r =? index end).

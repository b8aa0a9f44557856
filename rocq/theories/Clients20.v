(** The client programs of examples/gg20_keygen.rs and examples/gg20_signing.rs (offline stage) talking to the relay of
    examples/gg20_sm_manager.rs through examples/gg20_sm_client.rs: all clients and the server in one system.

    Each action is one step of one program; an execution is any sequence of actions.  A client subscribes, asks for an
    index, and then runs its state machine under round_based's AsyncProtocol (outside /repo): messages are read from the
    subscription one at a time, proceed is called when wanted, the outgoing queue is posted one message at a time (each
    POST is answered before the next one is sent), and when the machine has finished and everything is sent the client
    takes the output and goes away.

    Simplifications: one room, and nobody else uses the server; requests are not lost; the machine's timer never runs
    out; serialisation is a pair of functions [ser]/[par]. *)
From Coq Require Import String ZArith Bool Lia List.
From Verif Require Import Outcome Stores RoundSM SmSpec Manager20 M20Spec.
Import ListNotations.
Local Open Scope nat_scope.

Section Clients.
Context {S P B O : Type}.
(** The machine of client c: its calls, wants_to_proceed, is_finished, message_queue *)
Context (opf : nat -> S -> op B -> S * ret P B O) (wants fin : S -> bool) (queue : S -> list (msg B)).
(** The machine client c makes when the room gave it index i: Keygen::new(args.index, ..) at gg20_keygen.rs:47, which
    ignores i, or OfflineStage::new(i, ..) at gg20_signing.rs:51.  None when new returns an error. *)
Context (start : nat -> Z -> option S).
(** is_critical of the machine's errors: AsyncProtocol goes on after an error that is not critical. *)
Context (crit : sm_error P -> bool).
(** serde_json::to_string and from_str on Msg (gg20_sm_client.rs:45 and 30) *)
Context (ser : msg B -> string) (par : string -> option (msg B)).
Context (oc : bool) (room_id : string).

(** A running client: its subscription (the task serving it), the index the room issued, its machine, how many events of
    the subscription it has read, what it still has to post, and the request that is posting a message just now. *)
Record running := { cr_sub : nat; cr_idx : Z; cr_st : S; cr_read : nat; cr_out : list (msg B); cr_post : option nat }.
Definition with_st (x : running) (s : S) : running :=
  {| cr_sub := cr_sub x; cr_idx := cr_idx x; cr_st := s; cr_read := cr_read x; cr_out := cr_out x; cr_post := cr_post x |}.
Definition with_read (x : running) : running :=
  {| cr_sub := cr_sub x; cr_idx := cr_idx x; cr_st := cr_st x; cr_read := Datatypes.S (cr_read x); cr_out := cr_out x; cr_post := cr_post x |}.
Definition with_out (x : running) (l : list (msg B)) (p : option nat) : running :=
  {| cr_sub := cr_sub x; cr_idx := cr_idx x; cr_st := cr_st x; cr_read := cr_read x; cr_out := l; cr_post := p |}.

Inductive stage :=
  | CIdle
  | CSubscribing (t : nat)                 (* gg20_sm_client.rs:25-28 *)
  | CIssuing (sub t : nat)                 (* 34 *)
  | CRunning (x : running)
  | CDone (x : running) (r : ret P B O)    (* AsyncProtocol::run returned; [x] is the client as it left *)
  | CFailed.                               (* an error or a panic ended the program *)

Record sys := { sy_db : db; sy_tr : list obs; sy_cl : list stage }.
(** Client c, counted from 1 *)
Definition client (w : sys) (c : nat) : option stage := match c with 0 => None | Datatypes.S k => nth_error (sy_cl w) k end.
Definition set_client (c : nat) (x : stage) (w : sys) : sys :=
  {| sy_db := sy_db w; sy_tr := sy_tr w; sy_cl := Stores.upd (sy_cl w) (c - 1) x |}.
Definition serve (a : act) (w : sys) : sys :=
  let '(d, o) := step oc (sy_db w) a in {| sy_db := d; sy_tr := sy_tr w ++ o; sy_cl := sy_cl w |}.
(** The number of the next request *)
Definition next_task (w : sys) : nat := length (db_tasks (sy_db w)).
Definition sys_init (n : nat) : sys := {| sy_db := db_empty; sy_tr := []; sy_cl := repeat CIdle n |}.

(** The answers of the server, as the client sees them *)
Definition was_joined (t : nat) (tr : list obs) : bool := existsb (fun o => match o with OJoined u _ _ _ => Nat.eqb u t | _ => false end) tr.
Definition was_published (t : nat) (tr : list obs) : bool := existsb (fun o => match o with OPublished u _ _ _ => Nat.eqb u t | _ => false end) tr.
Definition was_issued (t : nat) (tr : list obs) : option Z :=
  match find (fun o => match o with OIssued u _ _ _ => Nat.eqb u t | _ => false end) tr with Some (OIssued _ _ _ i) => Some i | _ => None end.

Inductive cact :=
  | CServe (t : nat)      (* the server runs task t *)
  | CStart (c : nat)      (* client c sends its subscription *)
  | CJoined (c : nat)     (* ... is answered, asks for an index *)
  | CIndexed (c : nat)    (* ... gets it, makes its machine *)
  | CRead (c : nat)       (* ... takes the next event of its subscription *)
  | CProceed (c : nat)    (* ... calls proceed *)
  | CTake (c : nat)       (* ... empties the machine's queue *)
  | CPost (c : nat)       (* ... posts the next message *)
  | CPosted (c : nat)     (* ... sees the answer *)
  | CLeave (c : nat).     (* ... takes the output and leaves *)

(** Everything that happened at the clients: calls on their machines, requests they sent, indices they were given *)
Inductive cev := ECall (c : nat) (o : op B) (r : ret P B O) | EAsk (c : nat) (q : req) | EIndex (c : nat) (i : Z).

Definition good_ret (r : ret P B O) : bool := match r with RUnit (Ok _) | RMsgs _ => true | RUnit (Err e) => negb (crit e) | _ => false end.
(** A call on the machine; a critical error or a panic ends the program and drops the subscription *)
Definition handle (c : nat) (x : running) (o : op B) (w : sys) : sys * list cev :=
  let '(s, r) := opf c (cr_st x) o in
  (if good_ret r then set_client c (CRunning (with_st x s)) w else set_client c CFailed (serve (Cancel (cr_sub x)) w), [ECall c o r]).
Definition ask (c : nat) (q : req) (x : stage) (w : sys) : sys * list cev := (set_client c x (serve (Arrive room_id q) w), [EAsk c q]).
(** gg20_sm_client.rs:36-40 on a message *)
Definition for_me (idx : Z) (m : msg B) : bool := client_filter idx (Z.of_nat (m_from m)) (option_map Z.of_nat (m_to m)).
Definition may_leave (x : running) : bool :=
  fin (cr_st x) && match queue (cr_st x), cr_out x, cr_post x with [], [], None => true | _, _, _ => false end.

Definition sys_step (w : sys) (a : cact) : sys * list cev :=
  match a with
  | CServe t => (serve (Run t) w, [])
  | CStart c => match client w c with Some CIdle => ask c (RSub None) (CSubscribing (next_task w)) w | _ => (w, []) end
  | CJoined c => match client w c with
      | Some (CSubscribing t) => if was_joined t (sy_tr w) then ask c RIssue (CIssuing t (next_task w)) w else (w, [])
      | _ => (w, []) end
  | CIndexed c => match client w c with
      | Some (CIssuing sub t) =>
          match was_issued t (sy_tr w) with
          | Some i => match start c i with
              | Some s => (set_client c (CRunning {| cr_sub := sub; cr_idx := i; cr_st := s; cr_read := 0; cr_out := []; cr_post := None |}) w, [EIndex c i])
              | None => (set_client c CFailed (serve (Cancel sub) w), [EIndex c i]) end
          | None => (w, []) end
      | _ => (w, []) end
  | CRead c => match client w c with
      | Some (CRunning x) =>
          match nth_error (gots (cr_sub x) (sy_tr w)) (cr_read x) with
          | Some (_, e) => match par e with
              | Some m => if for_me (cr_idx x) m then handle c (with_read x) (Deliver m) w else (set_client c (CRunning (with_read x)) w, [])
              | None => (set_client c CFailed (serve (Cancel (cr_sub x)) w), []) end
          | None => (w, []) end
      | _ => (w, []) end
  | CProceed c => match client w c with
      | Some (CRunning x) => if wants (cr_st x) then handle c x Proceed w else (w, [])
      | _ => (w, []) end
  | CTake c => match client w c with
      | Some (CRunning x) => match queue (cr_st x) with
          | [] => (w, [])
          | _ => let '(s, r) := opf c (cr_st x) Drain in
                 (set_client c (CRunning (with_out (with_st x s) (cr_out x ++ drained [r]) (cr_post x))) w, [ECall c Drain r]) end
      | _ => (w, []) end
  | CPost c => match client w c with
      | Some (CRunning x) => match cr_out x, cr_post x with
          | m :: l, None => ask c (RPub (ser m)) (CRunning (with_out x l (Some (next_task w)))) w
          | _, _ => (w, []) end
      | _ => (w, []) end
  | CPosted c => match client w c with
      | Some (CRunning x) => match cr_post x with
          | Some t => if was_published t (sy_tr w) then (set_client c (CRunning (with_out x (cr_out x) None)) w, []) else (w, [])
          | None => (w, []) end
      | _ => (w, []) end
  | CLeave c => match client w c with
      | Some (CRunning x) => if may_leave x then let '(s, r) := opf c (cr_st x) Pick in (set_client c (CDone x r) (serve (Cancel (cr_sub x)) w), [ECall c Pick r])
                             else (w, [])
      | _ => (w, []) end
  end.
Fixpoint sys_exec (w : sys) (l : list cact) : sys * list cev :=
  match l with
  | [] => (w, [])
  | a :: t => let '(w1, e1) := sys_step w a in let '(w2, e2) := sys_exec w1 t in (w2, e1 ++ e2)
  end.

(** Is there something for this action to do? *)
Definition sys_enabled (w : sys) (a : cact) : bool :=
  match a with
  | CServe t => match nth t (db_tasks (sy_db w)) TEnd with
      | TEnd => false
      | TWaiting ref _ seen => Nat.ltb seen (rm_notify (get_room ref (sy_db w)))
      | _ => true end
  | CStart c => match client w c with Some CIdle => true | _ => false end
  | CJoined c => match client w c with Some (CSubscribing t) => was_joined t (sy_tr w) | _ => false end
  | CIndexed c => match client w c with Some (CIssuing _ t) => match was_issued t (sy_tr w) with Some _ => true | None => false end | _ => false end
  | CRead c => match client w c with Some (CRunning x) => Nat.ltb (cr_read x) (length (gots (cr_sub x) (sy_tr w))) | _ => false end
  | CProceed c => match client w c with Some (CRunning x) => wants (cr_st x) | _ => false end
  | CTake c => match client w c with Some (CRunning x) => match queue (cr_st x) with [] => false | _ => true end | _ => false end
  | CPost c => match client w c with Some (CRunning x) => match cr_out x, cr_post x with _ :: _, None => true | _, _ => false end | _ => false end
  | CPosted c => match client w c with Some (CRunning x) => match cr_post x with Some t => was_published t (sy_tr w) | None => false end | _ => false end
  | CLeave c => match client w c with Some (CRunning x) => may_leave x | _ => false end
  end.
(** How many actions of a schedule had something to do *)
Fixpoint sys_work (w : sys) (l : list cact) : nat :=
  match l with [] => 0 | a :: t => (if sys_enabled w a then 1 else 0) + sys_work (fst (sys_step w a)) t end.
End Clients.
Arguments running : clear implicits. Arguments stage : clear implicits. Arguments sys : clear implicits. Arguments cev : clear implicits.
Arguments CIdle {_ _ _ _}. Arguments CSubscribing {_ _ _ _}. Arguments CIssuing {_ _ _ _}. Arguments CFailed {_ _ _ _}.
Arguments CRunning {_ _ _ _}. Arguments CDone {_ _ _ _}. Arguments ECall {_ _ _}. Arguments EAsk {_ _ _}. Arguments EIndex {_ _ _}.
Arguments cr_sub {_ _}. Arguments cr_idx {_ _}. Arguments cr_st {_ _}. Arguments cr_read {_ _}. Arguments cr_out {_ _}. Arguments cr_post {_ _}.
Arguments sy_db {_ _ _ _}. Arguments sy_tr {_ _ _ _}. Arguments sy_cl {_ _ _ _}.

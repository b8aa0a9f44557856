(** The client programs of the GG18 examples as programs talking to the relay of examples/gg18_sm_manager.rs: what they store,
    what they wait for, and the system of several clients and the server.

    A program either stores a value and goes on, or asks for a value until the server has it (the loops of
    poll_for_broadcasts and poll_for_p2p, common.rs:143-159 and 172-188), or has written its output file, or has panicked.
    Simplifications: signing up is not part of the program (see C71); thread::sleep is left out. *)
From Coq Require Import String ZArith Bool Lia List.
From Verif Require Import Outcome Manager18.
Import ListNotations.
Local Open Scope nat_scope.

Inductive prog (R : Type) : Type :=
  | Done (r : R)
  | Crash
  | Put (k v : string) (p : prog R)
  | Get (k : string) (f : string -> prog R).
Arguments Done {_}. Arguments Crash {_}. Arguments Put {_}. Arguments Get {_}.

(** serde_json::to_string and serde_json::from_str on one type *)
Record json (A : Type) := { js : A -> string; sj : string -> option A }.
Arguments js {_}. Arguments sj {_}.
Definition json_ok {A} (c : json A) : Prop := forall a, sj c (js c a) = Some a.

Section Ops.
Context {R : Type}.
(** A call whose error the client turns into a panic (unwrap, expect, assert!) *)
Definition need {E A} (o : outcome E A) (f : A -> prog R) : prog R := match o with Ok a => f a | _ => Crash end.
Definition parse {A} (c : json A) (s : string) : outcome unit A := unwrap (sj c s).
(** The requests of a poll_for_broadcasts or poll_for_p2p call, in order *)
Fixpoint gets (ks : list string) (f : list string -> prog R) : prog R :=
  match ks with [] => f [] | k :: r => Get k (fun v => gets r (fun l => f (v :: l))) end.
(** A loop of sendp2p calls *)
Fixpoint puts (l : list (string * string)) (p : prog R) : prog R :=
  match l with [] => p | (k, v) :: r => Put k v (puts r p) end.
(** broadcast (common.rs:105-116) and poll_for_broadcasts (134-161), with the answers parsed *)
Definition exchange {A} (c : json A) (me : N) (n : nat) (round u : string) (own : A) (f : list A -> prog R) : prog R :=
  Put (bkey me round u) (js c own)
    (gets (map (fun i => bkey i round u) (others_n me n)) (fun l => need (omapM (parse c) l) f)).
(** sendp2p to every other party in order (common.rs:118-132) and poll_for_p2p (163-190) *)
Definition exchange_p2p {A} (c : json A) (me : N) (n : nat) (round u : string) (own : list A) (f : list A -> prog R) : prog R :=
  puts (map (fun x => (pkey me (fst x) round u, js c (snd x))) (combine (others_n me n) own))
    (gets (map (fun i => pkey i me round u) (others_n me n)) (fun l => need (omapM (parse c) l) f)).
End Ops.

(** ** Clients and server together *)
Section Sys.
Context {R : Type}.
Context (oc : bool) (ser : party_signup -> string) (par : string -> option party_signup) (uuid : nat -> string).
Record sys18 := { y_sv : server; y_cl : list (prog R) }.
Inductive act18 :=
  | Cl (c : nat)        (* client c sends its next request and gets the answer *)
  | Lost (c : nat)      (* client c's request is served, but the answer is lost and postb sends it again (common.rs:91-101) *)
  | Env (a : act).      (* anybody else's request is served *)
Definition set_nth {A} (l : list A) (c : nat) (x : A) : list A := firstn c l ++ match skipn c l with [] => [] | _ :: r => x :: r end.
Definition step18 (w : sys18) (a : act18) : sys18 :=
  match a with
  | Env a => {| y_sv := fst (step oc ser par uuid (y_sv w) a); y_cl := y_cl w |}
  | Cl c =>
      match nth_error (y_cl w) c with
      | Some (Put k v p) => {| y_sv := fst (step oc ser par uuid (y_sv w) (ASet k v)); y_cl := set_nth (y_cl w) c p |}
      | Some (Get k f) =>
          match step oc ser par uuid (y_sv w) (AGet k) with
          | (s, [OGet _ (Some v)]) => {| y_sv := s; y_cl := set_nth (y_cl w) c (f v) |}
          | (s, _) => {| y_sv := s; y_cl := y_cl w |}
          end
      | _ => w
      end
  | Lost c =>
      match nth_error (y_cl w) c with
      | Some (Put k v p) => {| y_sv := fst (step oc ser par uuid (y_sv w) (ASet k v)); y_cl := y_cl w |}
      | _ => w
      end
  end.
Definition exec18 (w : sys18) (l : list act18) : sys18 := fold_left step18 l w.
(** The client's next request brings it forward *)
Definition ready (w : sys18) (c : nat) : bool :=
  match nth_error (y_cl w) c with
  | Some (Put _ _ _) => true
  | Some (Get k _) => match sm_get k (sv_map (y_sv w)) with Some _ => true | None => false end
  | _ => false
  end.
(** How many steps of a schedule brought a client forward *)
Fixpoint work18 (w : sys18) (l : list act18) : nat :=
  match l with
  | [] => 0
  | a :: t => (match a with Cl c => if ready w c then 1 else 0 | _ => 0 end) + work18 (step18 w a) t
  end.
End Sys.
Arguments sys18 : clear implicits.

(** The GG18 relay server, examples/gg18_sm_manager.rs, and the client side of it in examples/common.rs.

    get and set are one critical section each.  A signup request takes the lock twice: it reads and computes the reply
    under the read lock (48-63) and stores it under the write lock (65-66), so it is two atomic steps here.

    The JSON of a PartySignup is a pair of oracles [ser], [par] of which only [par (ser p) = Some p] is ever used;
    Uuid::new_v4 is a stream of values.  Not modelled: HTTP, the reading of params.json (its numbers are arguments of the
    request) and the retries of postb. *)
From Coq Require Import String ZArith Bool Lia Decimal DecimalString DecimalN List.
Import ListNotations.
Open Scope Z_scope.

(** PartySignup (common.rs 29-33) *)
Record party_signup := { ps_number : Z; ps_uuid : string }.

(** HashMap<Key, String> *)
Definition smap := list (string * string).
Fixpoint sm_get (k : string) (m : smap) : option string :=
  match m with [] => None | (k', v) :: m' => if String.eqb k k' then Some v else sm_get k m' end.
Definition sm_insert (k v : string) (m : smap) : smap := (k, v) :: m.

(** The two signup endpoints *)
Inductive signup_kind := Keygen | Sign.
Definition signup_key (d : signup_kind) : string := match d with Keygen => "signup-keygen" | Sign => "signup-sign" end%string.

(** The number of parties a session waits for: [parties] (44, 52) or [threshold + 1] (76, 83); None is the panic of the
    addition in debug builds. *)
Definition session_size (oc : bool) (d : signup_kind) (param : Z) : option Z :=
  match d with Keygen => Some param | Sign => if param + 1 <? 65536 then Some (param + 1) else if oc then None else Some 0 end.

Record server := { sv_map : smap; sv_pending : list (option (signup_kind * party_signup)); sv_uuids : nat }.

Inductive act := ASet (k v : string) | AGet (k : string) | ARead (d : signup_kind) (param : Z) | AWrite (t : nat).
Inductive obs :=
  | OSet (k v : string)
  | OGet (k : string) (r : option string)
  | OSigned (t : nat) (d : signup_kind) (p : party_signup)
  | OPanic (d : signup_kind).

Section Manager18.
Variable oc : bool.
Variable ser : party_signup -> string.
Variable par : string -> option party_signup.
Variable uuid : nat -> string.

(** Lines 50-62 / 81-93: the reply computed from the stored record; the flag says whether a fresh uuid was drawn *)
Definition next_signup (size : Z) (cur : party_signup) (fresh : string) : party_signup * bool :=
  if ps_number cur <? size then ({| ps_number := ps_number cur + 1; ps_uuid := ps_uuid cur |}, false)
  else ({| ps_number := 1; ps_uuid := fresh |}, true).

Fixpoint clear (t : nat) (l : list (option (signup_kind * party_signup))) : list (option (signup_kind * party_signup)) :=
  match l, t with [], _ => [] | _ :: l', O => None :: l' | x :: l', S t' => x :: clear t' l' end.

Definition step (s : server) (a : act) : server * list obs :=
  match a with
  | ASet k v => (* set, 31-37 *)
      ({| sv_map := sm_insert k v (sv_map s); sv_pending := sv_pending s; sv_uuids := sv_uuids s |}, [OSet k v])
  | AGet k => (* get, 12-29 *)
      (s, [OGet k (sm_get k (sv_map s))])
  | ARead d param => (* signup_keygen 41-63, signup_sign 73-94 *)
      match sm_get (signup_key d) (sv_map s) with
      | None => (s, [OPanic d])
      | Some v =>
          match par v, session_size oc d param with
          | Some cur, Some size =>
              let '(p, drawn) := next_signup size cur (uuid (sv_uuids s)) in
              ({| sv_map := sv_map s; sv_pending := sv_pending s ++ [Some (d, p)]; sv_uuids := if drawn then S (sv_uuids s) else sv_uuids s |}, [])
          | _, _ => (s, [OPanic d])
          end
      end
  | AWrite t => (* 65-67, 96-98 *)
      match nth t (sv_pending s) None with
      | Some (d, p) =>
          ({| sv_map := sm_insert (signup_key d) (ser p) (sv_map s); sv_pending := clear t (sv_pending s); sv_uuids := sv_uuids s |}, [OSigned t d p])
      | None => (s, [])
      end
  end.

Fixpoint exec (s : server) (l : list act) : server * list obs :=
  match l with
  | [] => (s, [])
  | a :: l' => let '(s1, o1) := step s a in let '(s2, o2) := exec s1 l' in (s2, o1 ++ o2)
  end.

(** main (105-135): both records start with number 0 and a fresh uuid. *)
Definition sv_init : server :=
  {| sv_map := sm_insert (signup_key Sign) (ser {| ps_number := 0; ps_uuid := uuid 1 |})
                 (sm_insert (signup_key Keygen) (ser {| ps_number := 0; ps_uuid := uuid 0 |}) []);
     sv_pending := []; sv_uuids := 2 |}.

(** A signup request served without anything in between *)
Definition signup_alone (d : signup_kind) (param : Z) (s : server) : server * list obs :=
  exec s [ARead d param; AWrite (length (sv_pending s))].
End Manager18.

(** * Relay keys (common.rs) *)
(** format!("{}", n) of a u16 *)
Definition dec (n : N) : string := NilZero.string_of_uint (N.to_uint n).
Definition dash : string := "-".
(** broadcast (111) and poll_for_broadcasts (145) *)
Definition bkey (party : N) (round uuid : string) : string := (dec party ++ dash ++ round ++ dash ++ uuid)%string.
(** sendp2p (126) and poll_for_p2p (174) *)
Definition pkey (from to : N) (round uuid : string) : string := (dec from ++ dash ++ dec to ++ dash ++ round ++ dash ++ uuid)%string.

(** One pass of poll_for_broadcasts (134-161) and poll_for_p2p (163-190): the values of all other parties in order of
    their number, None while one of them is missing (the code then asks again). *)
Fixpoint all_some {A} (l : list (option A)) : option (list A) :=
  match l with
  | [] => Some []
  | None :: _ => None
  | Some x :: l' => match all_some l' with Some r => Some (x :: r) | None => None end
  end.
Definition others_n (me : N) (n : nat) : list N := filter (fun i => negb (N.eqb i me)) (map N.of_nat (seq 1 n)).
Definition poll_broadcasts (m : smap) (me : N) (n : nat) (round uuid : string) : option (list string) :=
  all_some (map (fun i => sm_get (bkey i round uuid) m) (others_n me n)).
Definition poll_p2p (m : smap) (me : N) (n : nat) (round uuid : string) : option (list string) :=
  all_some (map (fun i => sm_get (pkey i me round uuid) m) (others_n me n)).

(** A complete key generation with every party following the code: the messages of each round are delivered to
    the others in index order (what the message stores hand over once a round is complete). *)
From Coq Require Import ZArith Lia Bool List.
From Verif Require Import ZArithX Fq Curve Outcome Sigma Bytes Vss Paillier RangeProofs Pdl Mp Gg20Keygen Gg18Keygen.
Import ListNotations.
Local Open Scope Z_scope.

(** Everyone's broadcasts but the own one. *)
Definition but {A} (i : nat) (l : list A) : list A := firstn i l ++ skipn (S i) l.
(** The message addressed to party [r]. *)
Definition addressed {E A} (r : nat) (l : list (nat * A)) : outcome E A :=
  match find (fun x => (fst x =? r)%nat) l with Some x => Ok (snd x) | None => Panic end.

Section Run.
Context (C : Curve).
Notation res := (outcome mp_error).
Context (Hb : list Z -> Z) (Hf : hashF C) (ck : Z -> Z -> bool) (cd : Z -> dlstmt -> res bool).

Definition kg_run (t n : nat) (rs : nat -> kg_rand C) : res (list (local_key C)) :=
  let parties := seq 0 n in
  let* l0 := omapM (fun i => kg_r0 C Hb (S i) t n (rs i)) parties in
  let* l1 := omapM (fun i => let* s := nth_o l0 i in kg_r1 (fst s) (but i (map snd l0))) parties in
  let* l2 := omapM (fun i => let* s := nth_o l1 i in
                             kg_r2 C Hb ck cd (fst s) (kr_coefs (rs i)) (but i (map snd l1))) parties in
  let* l3 := omapM (fun i => let* s := nth_o l2 i in
                             let* inp := omapM (addressed (S i)) (but i (map snd l2)) in
                             kg_r3 C Hf (fst s) (kr_nonce (rs i)) inp) parties in
  omapM (fun i => let* s := nth_o l3 i in kg_r4 C Hf (fst s) (but i (map snd l3))) parties.
End Run.

(** GG18 has no round functions; examples/gg18_keygen_client.rs:30-203 calls the phases in this order. *)
Section Run18.
Context (C : Curve).
Notation F := (Fq (cq C)).
Notation res := (outcome error).
Context (Hb : list Z -> Z) (Hf : hashF C) (ck : Z -> Z -> bool).
Record kg18_rand := { kr18_u : F; kr18_p1 : Z; kr18_p2 : Z; kr18_blind : Z; kr18_ck : Z; kr18_coefs : list F; kr18_nonce : F }.
Definition kg18_keys (rs : nat -> kg18_rand) (i : nat) : keys18 C :=
  {| k18_u := kr18_u (rs i); k18_p1 := kr18_p1 (rs i); k18_p2 := kr18_p2 (rs i); k18_i := S i |}.
(** Each party's shared keys and its commitments to all shares. *)
Definition kg18_run (t n : nat) (rs : nat -> kg18_rand) : res (list (shared_keys C * list (pt C))) :=
  let parties := seq 0 n in
  let m1 := map (fun i => kg18_phase1 C Hb (kg18_keys rs i) (kr18_blind (rs i)) (kr18_ck (rs i))) parties in
  let* l2 := omapM (fun i => kg18_phase1_verify C Hb ck (kg18_keys rs i) t n (kr18_coefs (rs i)) (map snd m1) (map fst m1)) parties in
  let vsss := map (fun x => fst (fst x)) l2 in
  let* l3 := omapM (fun i => let* sh := omapM (fun x => nth_o (snd (fst x)) i) l2 in
                             kg18_phase2 C Hf n (map (fun x => kd_y (snd x)) m1) sh vsss (S i) (kr18_nonce (rs i))) parties in
  omapM (fun i => let* s := nth_o l3 i in
                  let* _ := kg18_verify_dlog C Hf n (map snd l3) (map (fun x => kd_y (snd x)) m1) in
                  let* xi := kg18_xi_commitments vsss in
                  Ok (fst s, xi)) parties.
End Run18.
Arguments kr18_u {_}. Arguments kr18_p1 {_}. Arguments kr18_p2 {_}. Arguments kr18_blind {_}. Arguments kr18_ck {_}.
Arguments kr18_coefs {_}. Arguments kr18_nonce {_}.

(** Key generation repeated with the same key: PartyPrivate::refresh_private_key of gg_2018/party_i.rs:331-344 and
    gg_2020/party_i.rs:459-479 gives the Keys for another run of the key generation phases.  The *_safe_prime variants
    (gg_2018 346-359, gg_2020 481-500) differ only in how the primes are sampled, and the primes are inputs here.  No client
    or state machine of /repo calls these functions (Round0 of the GG20 state machine always calls Keys::create): the runs are
    those of KeygenRun, started from the refreshed Keys instead of fresh ones. *)
From Coq Require Import ZArith List.
From Verif Require Import ZArithX Fq Curve Outcome Sigma Bytes Vss Paillier RangeProofs Pdl Mp Gg20Keygen Gg18Keygen KeygenRun.
Import ListNotations.
Local Open Scope Z_scope.

Section Reshare.
Context (C : Curve).
Notation F := (Fq (cq C)).
Context (Hb : list Z -> Z) (Hf : hashF C) (ck : Z -> Z -> bool).

Section Gg20.
Context (cd : Z -> dlstmt -> outcome mp_error bool) (t n : nat).
(** The Keys of party i (from 0) in a run *)
Definition keys_of (i : nat) (r : kg_rand C) : keys C :=
  {| ky_u := kr_u r; ky_p1 := kr_p1 r; ky_p2 := kr_p2 r; ky_i := S i; ky_dl := kr_dl r |}.
(** PartyPrivate::set_private of every party after a run *)
Definition privates (rs : nat -> kg_rand C) (lks : list (local_key C)) : list (party_private C) :=
  map (fun '(i, lk) => set_private (keys_of i (rs i)) (lk_shared lk)) (combine (seq 0 n) lks).
(** The next run: [fac] are the factors the parties pass to refresh_private_key, [rs] everything that is sampled afresh. *)
Definition next_rand (st : list (party_private C)) (fac : nat -> F) (rs : nat -> kg_rand C) (i : nat) : kg_rand C :=
  match nth_error st i with
  | Some p =>
      let k := refresh_private_key p (fac i) (S i) (kr_p1 (rs i)) (kr_p2 (rs i)) (kr_dl (rs i)) in
      {| kr_u := ky_u k; kr_p1 := ky_p1 k; kr_p2 := ky_p2 k; kr_dl := ky_dl k; kr_blind := kr_blind (rs i); kr_ck := kr_ck (rs i);
         kr_cd1 := kr_cd1 (rs i); kr_cd2 := kr_cd2 (rs i); kr_coefs := kr_coefs (rs i); kr_nonce := kr_nonce (rs i) |}
  | None => rs i
  end.
Fixpoint reshares (es : list ((nat -> F) * (nat -> kg_rand C))) (st : list (party_private C)) (lks : list (local_key C))
  : outcome mp_error (list (party_private C) * list (local_key C)) :=
  match es with
  | [] => Ok (st, lks)
  | (fac, rs) :: es' =>
      let rs' := next_rand st fac rs in
      let* lks' := kg_run C Hb Hf ck cd t n rs' in
      reshares es' (privates rs' lks') lks'
  end.
(** Key generation followed by any number of repetitions *)
Definition life (rs0 : nat -> kg_rand C) (es : list ((nat -> F) * (nat -> kg_rand C))) : outcome mp_error (list (party_private C) * list (local_key C)) :=
  let* lks := kg_run C Hb Hf ck cd t n rs0 in reshares es (privates rs0 lks) lks.
End Gg20.

Section Gg18.
Context (t n : nat).
(** gg_2018/party_i.rs: set_private 315-321, refresh_private_key 331-344 *)
Definition set_private18 (k : keys18 C) (s : shared_keys C) : party_private C :=
  {| pr_u := k18_u k; pr_x := sk_x s; pr_p1 := k18_p1 k; pr_p2 := k18_p2 k |}.
Definition refresh_private_key18 (p : party_private C) (factor : F) (index : nat) (p1 p2 : Z) : keys18 C :=
  {| k18_u := (pr_u p + factor)%Fq; k18_p1 := p1; k18_p2 := p2; k18_i := index |}.
Definition privates18 (rs : nat -> kg18_rand C) (outs : list (shared_keys C * list (pt C))) : list (party_private C) :=
  map (fun '(i, o) => set_private18 (kg18_keys C rs i) (fst o)) (combine (seq 0 n) outs).
Definition next_rand18 (st : list (party_private C)) (fac : nat -> F) (rs : nat -> kg18_rand C) (i : nat) : kg18_rand C :=
  match nth_error st i with
  | Some p =>
      let k := refresh_private_key18 p (fac i) (S i) (kr18_p1 (rs i)) (kr18_p2 (rs i)) in
      {| kr18_u := k18_u k; kr18_p1 := k18_p1 k; kr18_p2 := k18_p2 k; kr18_blind := kr18_blind (rs i); kr18_ck := kr18_ck (rs i);
         kr18_coefs := kr18_coefs (rs i); kr18_nonce := kr18_nonce (rs i) |}
  | None => rs i
  end.
(** Also returns what the last run was started with: the GG18 clients keep the public values of the run. *)
Fixpoint reshares18 (es : list ((nat -> F) * (nat -> kg18_rand C))) (rs : nat -> kg18_rand C) (outs : list (shared_keys C * list (pt C)))
  : outcome error ((nat -> kg18_rand C) * list (shared_keys C * list (pt C))) :=
  match es with
  | [] => Ok (rs, outs)
  | (fac, rs1) :: es' =>
      let rs' := next_rand18 (privates18 rs outs) fac rs1 in
      let* outs' := kg18_run C Hb Hf ck t n rs' in
      reshares18 es' rs' outs'
  end.
Definition life18 (rs0 : nat -> kg18_rand C) (es : list ((nat -> F) * (nat -> kg18_rand C))) :=
  let* outs := kg18_run C Hb Hf ck t n rs0 in reshares18 es rs0 outs.
End Gg18.
End Reshare.
Arguments keys_of {C}. Arguments privates {C}. Arguments next_rand {C}. Arguments next_rand18 {C}. Arguments privates18 {C}.
Arguments set_private18 {C}. Arguments refresh_private_key18 {C}.

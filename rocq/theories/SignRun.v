(** Complete GG20 signing with every signer following the code.  [sl] lists the signers' key generation indices;
    the signer at position p holds [lks p] and samples [rs p].  Messages are delivered to the others in index order. *)
From Coq Require Import ZArith Lia Bool List.
From Verif Require Import ZArithX Fq Curve Outcome Sigma Bytes Vss Paillier RangeProofs PdlSlack Mta Ecdsa Mp Gg20Keygen KeygenRun Gg20Sign.
Import ListNotations.
Local Open Scope Z_scope.

Section Run.
Context (C : Curve) (Hb : list Z -> Z) (Hz : hashZ C) (Hf : hashF C).
Notation res := (outcome mp_error).

(** Rounds 0 to 2 *)
Definition sg_pre (sl : list nat) (lks : nat -> local_key C) (rs : nat -> sign_rand C) : res (list (sg_round3 C * (Fq (cq C) * pt C * ped_proof C))) :=
  let parties := seq 0 (length sl) in
  let* l0 := omapM (fun i => sg_r0 Hb Hz (S i) sl (lks i) (rs i)) parties in
  let* l1 := omapM (fun i => let* s := nth_o l0 i in sg_r1 Hz Hf (fst s) (rs i) (but i (map snd l0))) parties in
  omapM (fun i => let* s := nth_o l1 i in
                  let* inp := omapM (addressed (S i)) (but i (map snd l1)) in
                  sg_r2 Hf (fst s) (rs i) inp) parties.
(** All rounds *)
Definition sg_run (sl : list nat) (lks : nat -> local_key C) (rs : nat -> sign_rand C) : res (list (completed C)) :=
  let parties := seq 0 (length sl) in
  let* l2 := sg_pre sl lks rs in
  let* l3 := omapM (fun i => let* s := nth_o l2 i in sg_r3 Hf (fst s) (but i (map snd l2))) parties in
  let* l4 := omapM (fun i => let* s := nth_o l3 i in sg_r4 Hb Hz (fst s) (rs i) (but i (map snd l3))) parties in
  let* l5 := omapM (fun i => let* s := nth_o l4 i in sg_r5 Hz Hf (fst s) (rs i) (but i (map snd l4))) parties in
  omapM (fun i => let* s := nth_o l5 i in sg_r6 Hf (fst s) (but i (map snd l5))) parties.

(** The online round (SignManual::new, SignManual::complete; rounds.rs:671-693): everyone broadcasts the partial
    signature and combines the own one with the others'. *)
Definition sg_online (m : Z) (cs : list (completed C)) : outcome error (list (sig_recid C)) :=
  let* ls := omapM (fun c => gg20_local_sig (sg_k (co_keys c)) m (co_R c) (co_sigma c) (lk_y (co_lk c))) cs in
  omapM (fun i => let* l := nth_o ls i in gg20_output l (map ls_s (but i ls))) (seq 0 (length cs)).
End Run.

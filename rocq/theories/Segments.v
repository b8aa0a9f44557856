(** Verifiable recovery: [to_encrypted_segment] of lindell_2017/party_one.rs:298-307, lindell_2017/party_two.rs:248-257,
    gg_2018/party_i.rs:360-369 and gg_2020/party_i.rs:502-511.  All four pass a share to
    centipede::juggling::segmentation::Msegmentation::to_encrypted_segments (crate centipede 0.3, a dependency that is
    not in /repo: modelled from its published source, up to 255 segments, indices being cast to u8 there). *)
From Coq Require Import ZArith Lia Bool List.
From Verif Require Import ZArithX Fq Curve Outcome Gg20Keygen TwoParty.
Import ListNotations.
Local Open Scope Z_scope.

Section Segments.
Context (C : Curve).
Notation q := (cq C).
Notation F := (Fq q).

(** Msegmentation::get_segment_k: mask the bits of the segment, shift them down, reduce modulo the order. *)
Definition get_segment (secret : F) (size k : Z) : F :=
  let msb := size * (k + 1) in
  let lsb := size * k in
  let mask := (2 ^ msb - 1) - (2 ^ lsb - 1) in
  of_Z q (Z.shiftr (Z.land mask (to_Z secret)) lsb mod q).

(** Helgamal: one ElGamal ciphertext, the segment in the exponent of [g]. *)
Record helgamal := { eg_D : pt C; eg_E : pt C }.
(** Msegmentation::encrypt_segment_k *)
Definition encrypt_segment (x r : F) (Y g : pt C) : helgamal := {| eg_D := padd (smul r Y) (smul x g); eg_E := smul r g |}.

(** Msegmentation::to_encrypted_segments: one segment per sampled mask; the result is the witness (segments, masks)
    and the ciphertexts. *)
Definition to_segments (secret : F) (size : Z) (rs : list F) (Y g : pt C) : (list F * list F) * list helgamal :=
  let xs := map (fun k => get_segment secret size (Z.of_nat k)) (seq 0 (length rs)) in
  ((xs, rs), map (fun '(x, r) => encrypt_segment x r Y g) (combine xs rs)).

(** Msegmentation::assemble_fe: segment k weighs 2^(size k). *)
Definition assemble (size : Z) (xs : list F) : F :=
  fold_right (fun x acc => fadd x (fmul (of_Z q (2 ^ size)) acc)) f0 xs.

(** The four callers: x1, x2, u_i, u_i. *)
Definition l1_backup (p : party1 C) := to_segments (l1_x p).
Definition l2_backup (x2 : F) := to_segments x2.
Definition gg_backup (p : party_private C) := to_segments (pr_u p).
End Segments.
Arguments get_segment {_}. Arguments eg_D {_}. Arguments eg_E {_}. Arguments encrypt_segment {_}. Arguments to_segments {_}. Arguments assemble {_}.
Arguments l1_backup {_}. Arguments l2_backup {_}. Arguments gg_backup {_}.

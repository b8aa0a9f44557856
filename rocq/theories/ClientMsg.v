(** How the example clients turn the message given on the command line into the number that is signed.
    Strings are strings of bytes. *)
From Coq Require Import String Ascii ZArith Bool Lia List.
From Verif Require Import Bytes.
Import ListNotations.
Local Open Scope Z_scope.

(** str::as_bytes *)
Definition byte (a : ascii) : Z := Z.of_N (N_of_ascii a).
Definition bytes_of (s : string) : list Z := map byte (list_ascii_of_string s).
(** The hex crate, decode: an odd length and characters outside 0-9, a-f, A-F are errors. *)
Definition hex_val (a : ascii) : option Z :=
  let c := byte a in
  if (48 <=? c) && (c <=? 57) then Some (c - 48) else
  if (97 <=? c) && (c <=? 102) then Some (c - 87) else
  if (65 <=? c) && (c <=? 70) then Some (c - 55) else None.
Fixpoint hex_decode (s : string) : option (list Z) :=
  match s with
  | EmptyString => Some []
  | String a (String b r) => match hex_val a, hex_val b, hex_decode r with Some x, Some y, Some l => Some (16 * x + y :: l) | _, _, _ => None end
  | String _ EmptyString => None
  end.
(** examples/gg18_sign_client.rs:36-40 and 312: hex if it can be read as hex, else the characters themselves *)
Definition msg18_bytes (s : string) : list Z := match hex_decode s with Some b => b | None => bytes_of s end.
Definition msg18 (s : string) : Z := from_bytes (msg18_bytes s).
(** examples/gg20_signing.rs:66: always the characters themselves *)
Definition msg20 (s : string) : Z := from_bytes (bytes_of s).

(** Properties C14, C15: hash commitments of curv's [HashCommitment], used in key
    generation (gg_2018/party_i.rs:192-201, gg_2020/party_i.rs:236-243), signing
    (phase1_broadcast of both), the two-party protocols and zk_pdl.  [H] is an
    arbitrary hash of byte strings. *)
From Coq Require Import ZArith Lia Bool List.
From Verif Require Import ZArithX Fq Curve Outcome Bytes Toy.
Import ListNotations.
Local Open Scope Z_scope.

(** * C14 *)
(** Two openings of one commitment show the same point, or the two hash inputs are
    themselves a collision. *)
Theorem C14_point_commitment_binding :
  forall (C : Curve) (H : list Z -> Z) (P Q : pt C) (b b' : Z),
  commit_pt H P b = commit_pt H Q b' ->
  P = Q \/ (to_bytes (pt_int P) ++ to_bytes b <> to_bytes (pt_int Q) ++ to_bytes b' /\
            H (to_bytes (pt_int P) ++ to_bytes b) = H (to_bytes (pt_int Q) ++ to_bytes b')).
Proof. exact commit_pt_binding. Qed.
Print Assumptions C14_point_commitment_binding.

(** The blinding factor is bound as well when the point is not the identity. *)
Theorem C14_point_commitment_binds_blinding :
  forall (C : Curve) (H : list Z -> Z) (P : pt C) (b b' : Z), P <> pzero -> 0 <= b -> 0 <= b' ->
  commit_pt H P b = commit_pt H P b' ->
  b = b' \/ (to_bytes (pt_int P) ++ to_bytes b <> to_bytes (pt_int P) ++ to_bytes b' /\
             H (to_bytes (pt_int P) ++ to_bytes b) = H (to_bytes (pt_int P) ++ to_bytes b')).
Proof. exact commit_blind_binding. Qed.
Print Assumptions C14_point_commitment_binds_blinding.

(** With a collision-free hash (here the big-endian value with a leading 1) different
    points have different commitments. *)
Definition ex_hash (l : list Z) : Z := from_bytes (1 :: l).
Example C14_example :
  commit_pt ex_hash (tz 5 : pt toy) 77 <> commit_pt ex_hash (tz 26 : pt toy) 77 /\
  commit_pt ex_hash (tz 5 : pt toy) 77 <> commit_pt ex_hash (tz 5 : pt toy) 78 /\
  commit_pt ex_hash (pzero : pt toy) 77 <> commit_pt ex_hash (tz 5 : pt toy) 77.
Proof. repeat apply conj; vm_compute; congruence. Qed.

(** * C15 *)
(** Full statement (false): equal commitments give equal integers or a collision of
    the two hash inputs. *)
Theorem C15_integer_commitment_refuted : forall H : list Z -> Z,
  exists m m' b b', m <> m' /\ 0 <= m /\ 0 <= m' /\ 0 <= b /\ 0 <= b' /\
    to_bytes m ++ to_bytes b = to_bytes m' ++ to_bytes b' /\ commit H m b = commit H m' b'.
Proof. intros H. exists 258, 1, 3, 515. repeat split; try lia. Qed.
Print Assumptions C15_integer_commitment_refuted.

(** It holds for integers of the same byte length (as for fixed-length encodings). *)
Theorem C15_integer_commitment_binding_partial :
  forall (H : list Z -> Z) (m m' b b' : Z), 0 <= m -> 0 <= m' ->
  length (to_bytes m) = length (to_bytes m') ->
  commit H m b = commit H m' b' ->
  m = m' \/ (to_bytes m ++ to_bytes b <> to_bytes m' ++ to_bytes b' /\
             H (to_bytes m ++ to_bytes b) = H (to_bytes m' ++ to_bytes b')).
Proof.
  intros H m m' b b' Hm Hm' Hl E.
  destruct (list_Z_eq_dec (to_bytes m ++ to_bytes b) (to_bytes m' ++ to_bytes b')) as [E'|E'].
  - left. apply app_eq_len in E'; [|assumption]. destruct E' as [E' _]. apply to_bytes_inj in E'. lia.
  - right. auto.
Qed.
Print Assumptions C15_integer_commitment_binding_partial.
Example C15_example : length (to_bytes 258) = length (to_bytes 700) /\
  commit ex_hash 258 3 <> commit ex_hash 700 3.
Proof. split; [reflexivity|]. vm_compute. congruence. Qed.

(** Signs are not bound: the encoding drops them. *)
Theorem C15_sign_not_bound : forall (H : list Z -> Z) (m b : Z), commit H (- m) b = commit H m b.
Proof. intros. unfold commit. rewrite (to_bytes_abs (- m) m) by lia. reflexivity. Qed.
Print Assumptions C15_sign_not_bound.

(** Reading the private key from two signatures made with one nonce.

    The documentation of [OfflineStage] (gg_2020/state_machine/sign.rs:49-50) says that its output "can be used for
    one-round signing multiple times"; [CompletedOfflineStage] is Clone (sign/rounds.rs:647-655) and the project's test
    signs with clones (sign.rs:699-701).  This file is the observer's computation, not code of /repo. *)
From Coq Require Import ZArith Znumtheory Lia Bool List Field.
From Verif Require Import ZArithX Fq Curve Outcome Ecdsa EcdsaProofs.
Import ListNotations.
Local Open Scope Z_scope.

Section Reuse.
Context (C : Curve).
Notation q := (cq C).
Notation F := (Fq q).
Add Field cfield : (C_field C).

(** From two messages and responses with the same r: the nonce factor k, then the key *)
Definition reuse_nonce (m1 m2 : Z) (s1 s2 : F) : F := ((s1 - s2) * finv (of_Z q m1 - of_Z q m2))%Fq.
Definition reuse_key (r : F) (m1 m2 : Z) (s1 s2 : F) : F :=
  ((s1 * finv (reuse_nonce m1 m2 s1 s2) - of_Z q m1) * finv r)%Fq.
(** Published signatures have s or -s, so both signs are tried and compared with the public key. *)
Definition reuse_find (Y : pt C) (r : F) (m1 m2 : Z) (s1 s2 : F) : option F :=
  find (fun x => pt_eqb (smul x gen) Y) [reuse_key r m1 m2 s1 s2; reuse_key r m1 m2 s1 (fopp s2)].

Lemma reuse_key_ok (r k x : F) m1 m2 : r <> f0 -> k <> f0 -> of_Z q m1 <> of_Z q m2 ->
  reuse_key r m1 m2 (k * (of_Z q m1 + r * x))%Fq (k * (of_Z q m2 + r * x))%Fq = x.
Proof.
  intros Hr Hk Hm. unfold reuse_key, reuse_nonce.
  assert (D : (of_Z q m1 - of_Z q m2 <> f0)%Fq).
  { intros E. apply Hm. transitivity ((of_Z q m1 - of_Z q m2) + of_Z q m2)%Fq; [ring|rewrite E; ring]. }
  assert (E : ((k * (of_Z q m1 + r * x) - k * (of_Z q m2 + r * x)) * finv (of_Z q m1 - of_Z q m2) = k)%Fq) by (field; exact D).
  rewrite E. field. split; assumption.
Qed.

(** The search finds the key and nothing else. *)
Lemma reuse_find_ok (r k x : F) m1 m2 (s1 s2 : F) : r <> f0 -> k <> f0 -> of_Z q m1 <> of_Z q m2 ->
  s1 = (k * (of_Z q m1 + r * x))%Fq ->
  s2 = (k * (of_Z q m2 + r * x))%Fq \/ s2 = fopp (k * (of_Z q m2 + r * x))%Fq ->
  reuse_find (smul x gen) r m1 m2 s1 s2 = Some x.
Proof.
  intros Hr Hk Hm E1 E2. unfold reuse_find.
  assert (U : forall z : F, pt_eqb (smul z gen) (smul x gen : pt C) = true -> z = x).
  { intros z H. destruct (pt_eqb_spec C (smul z gen) (smul x gen)) as [E|]; [|discriminate].
    apply smul_gen_inj in E. exact E. }
  assert (R : pt_eqb (smul x gen) (smul x gen : pt C) = true).
  { destruct (pt_eqb_spec C (smul x gen) (smul x gen)); congruence. }
  cbn [find]. destruct (pt_eqb (smul (reuse_key r m1 m2 s1 s2) gen) (smul x gen)) eqn:A.
  - apply U in A. rewrite A. reflexivity.
  - destruct E2 as [E2|E2].
    + exfalso. assert (K : reuse_key r m1 m2 s1 s2 = x) by (rewrite E1, E2; apply reuse_key_ok; assumption).
      rewrite K, R in A. discriminate.
    + assert (K : reuse_key r m1 m2 s1 (fopp s2) = x).
      { rewrite E1, E2. replace (fopp (fopp (k * (of_Z q m2 + r * x))%Fq)) with (k * (of_Z q m2 + r * x))%Fq by ring.
        apply reuse_key_ok; assumption. }
      rewrite K, R. reflexivity.
Qed.

Lemma normalize_sign (s : F) y : fst (normalize s y) = s \/ fst (normalize s y) = fopp s.
Proof.
  unfold normalize. destruct (q - to_Z s <? to_Z s); cbn [fst]; [right|left; reflexivity].
  rewrite <- (of_Z_to_Z s) at 2. rewrite <- of_Z_opp. apply of_Z_eq.
  replace (q - to_Z s) with (- to_Z s + 1 * q) by ring. apply Z_mod_plus_full.
Qed.

(** The same with both signs free *)
Lemma reuse_signs (r k x : F) m1 m2 (s1 s2 t1 t2 : F) : r <> f0 -> k <> f0 -> of_Z q m1 <> of_Z q m2 ->
  t1 = (k * (of_Z q m1 + r * x))%Fq -> t2 = (k * (of_Z q m2 + r * x))%Fq ->
  s1 = t1 \/ s1 = fopp t1 -> s2 = t2 \/ s2 = fopp t2 ->
  reuse_find (smul x gen) r m1 m2 s1 s2 = Some x.
Proof.
  intros Hr Hk Hm T1 T2 E1 E2. destruct E1 as [E1|E1].
  - apply (reuse_find_ok r k); try assumption; rewrite ?E1, <- ?T2; assumption.
  - apply (reuse_find_ok r (fopp k)); try assumption.
    + intros E. apply Hk. transitivity (fopp (fopp k)); [ring|rewrite E; ring].
    + rewrite E1, T1. ring.
    + destruct E2 as [E2|E2]; [right|left]; rewrite E2, T2; ring.
Qed.
End Reuse.
Arguments reuse_find {_} _ _ _ _ _ _. Arguments reuse_key {_} _ _ _ _ _. Arguments reuse_nonce {_} _ _ _ _.

(** C124: any number of adaptive CCLST signing attempts give party two no more than two guesses each at party one's share. *)
From Coq Require Import ZArith Znumtheory Lia Bool List Field.
From Verif Require Import PropTwoParty ZArithX Fq Curve Toy Outcome Ecdsa EcdsaProofs TwoParty TwoPartyProofs PropProbe.
Import ListNotations.
Local Open Scope Z_scope.

(** ** What party two can send *)
(** Party two holds the encrypted share (what the setup check hands over, K2:228-250) and the operations of the encryption scheme used in PartialSig::compute, K2:329-355:
    encrypt, eval_scal, eval_sum.  A ciphertext is anything they build from these, in any number and order. *)
Inductive ctexp (C : Curve) : Type :=
| CKey : ctexp C
| CEnc : Fq (cq C) -> Z -> ctexp C
| CScal : ctexp C -> Z -> ctexp C
| CSum : ctexp C -> ctexp C -> ctexp C.
Arguments CKey {_}. Arguments CEnc {_}. Arguments CScal {_}. Arguments CSum {_}.
Fixpoint ct_of {C : Curve} (E : CL C) (key : cl_ct E) (e : ctexp C) : cl_ct E :=
  match e with CKey => key | CEnc m r => cl_enc m r | CScal e v => cl_scal (ct_of E key e) v | CSum e e' => cl_sum (ct_of E key e) (ct_of E key e') end.

(** One attempt: the message, party two's nonce and ciphertext. *)
Record try (C : Curve) := { tr_m : Z; tr_k2 : Fq (cq C); tr_e : ctexp C }.
Arguments tr_m {_}. Arguments tr_k2 {_}. Arguments tr_e {_}.

Section Many.
Context (C : Curve) (E : CL C).
Notation q := (cq C).
Notation F := (Fq q).
Add Field cfmany : (C_field C).

(** Party one answers an attempt as in Signature::compute and verify (K1:360-427): did the signature verify under the joint key x1 x2 G?
    [strat]: party two's next attempt, [k1]: party one's next nonce, from the answers so far, the latest first. *)
Fixpoint answers (x2 x1 : F) (r0 : Z) (k1 : list bool -> F) (strat : list bool -> try C) (L : nat) : list bool :=
  match L with
  | O => []
  | S L' => let h := answers x2 x1 r0 k1 strat L' in let t := strat h in
            cclst_signs C E (k1 h) (smul (fmul x1 x2) gen) (smul (tr_k2 t) gen) (tr_m t) (ct_of E (cclst_encrypt_share {| kp_pub := smul x1 gen; kp_sec := x1 |} r0) (tr_e t)) :: h
  end.

(** ** Every ciphertext is an affine function of the share *)
Lemma ct_affine (e : ctexp C) : exists a b : F, forall x1 r0, let c := ct_of E (cl_enc x1 r0) e in cl_wf c /\ cl_dec c = fadd a (fmul b x1).
Proof.
  induction e as [|m r|e (a & b & H) v|e (a & b & H) e' (a' & b' & H')]; cbn [ct_of].
  - exists f0, f1. intros x1 r0. split; [apply cl_enc_wf|]. rewrite cl_dec_enc. ring.
  - exists m, f0. intros x1 r0. split; [apply cl_enc_wf|]. rewrite cl_dec_enc. ring.
  - exists (fmul (of_Z q v) a), (fmul (of_Z q v) b). intros x1 r0. destruct (H x1 r0) as [W D]. split; [apply cl_scal_wf, W|]. rewrite cl_dec_scal, D by exact W. ring.
  - exists (fadd a a'), (fadd b b'). intros x1 r0. destruct (H x1 r0) as [W D]. destruct (H' x1 r0) as [W' D']. split; [apply cl_sum_wf; assumption|]. rewrite cl_dec_sum, D, D' by assumption. ring.
Qed.
(** ** One attempt *)
Lemma signs_dec k1 Q R2 m (c c' : cl_ct E) : cl_dec c = cl_dec c' -> cclst_signs C E k1 Q R2 m c = cclst_signs C E k1 Q R2 m c'.
Proof. intros D. unfold cclst_signs, cclst_compute. rewrite D. reflexivity. Qed.
Lemma signs_inf k1 Q R2 m (c : cl_ct E) : coords (smul k1 (R2 : pt C)) = None -> cclst_signs C E k1 Q R2 m c = false.
Proof. intros N. unfold cclst_signs, cclst_compute. cbn [kp_sec]. unfold x_coord at 1. rewrite N. reflexivity. Qed.
Lemma one_try (x2 k1 : F) (t : try C) : k1 <> f0 ->
  (forall x y, coords (smul k1 (smul (tr_k2 t) (gen : pt C))) = Some (x, y) -> x < q) ->
  exists (d : bool) (a b : F), forall x1 r0,
    cclst_signs C E k1 (smul (fmul x1 x2) gen) (smul (tr_k2 t) gen) (tr_m t) (ct_of E (cl_enc x1 r0) (tr_e t)) = d \/ x1 = a \/ x1 = b.
Proof.
  intros N1 XQ. destruct (coords (smul k1 (smul (tr_k2 t) (gen : pt C)))) as [[x y]|] eqn:HR.
  2:{ exists false, f0, f0. intros x1 r0. left. apply signs_inf, HR. }
  specialize (XQ x y eq_refl). assert (N2 : tr_k2 t <> f0).
  { intros Z0. apply (f_equal (fun o => match o with Some _ => true | None => false end)) in HR. rewrite Z0 in HR.
    rewrite (proj2 (coords_zero C (smul k1 (smul f0 gen)))) in HR; [discriminate|]. apply (dlog_eq_iff C). autorewrite with dlog. ring. }
  destruct (ct_affine (tr_e t)) as (u & v & AF).
  pose proof (C117_cclst_two_guesses C E x2 k1 (tr_k2 t) u (to_Z v) (tr_m t) 0 0 x y N1 N2 HR XQ) as TG. cbv zeta in TG.
  assert (EQ : forall x1 r0, cclst_signs C E k1 (smul (fmul x1 x2) gen) (smul (tr_k2 t) gen) (tr_m t) (ct_of E (cl_enc x1 r0) (tr_e t)) =
     cclst_signs C E k1 (smul (fmul x1 x2) gen) (smul (tr_k2 t) gen) (tr_m t) (cl_sum (cl_enc u 0) (cl_scal (cl_enc x1 0) (to_Z v)))).
  { intros x1 r0. apply signs_dec. destruct (AF x1 r0) as [_ ->]. rewrite cl_dec_sum, cl_dec_enc, cl_dec_scal, cl_dec_enc, of_Z_to_Z; [reflexivity|apply cl_enc_wf|apply cl_enc_wf|apply cl_scal_wf, cl_enc_wf]. }
  destruct TG as [TG|(a & b & TG)].
  - destruct (line C (fmul (of_Z q x) x2) (fopp (of_Z q (tr_m t)))) as [[Z1 Z2]|[z LZ]].
    + exists false, f0, f0. intros x1 r0. left. rewrite EQ. match goal with |- ?b = _ => destruct b eqn:B; [exfalso|reflexivity] end.
      apply (cclst_signs_iff C E k1 (tr_k2 t) (fmul x1 x2) (tr_m t) _ x y N1 N2 HR XQ) in B. destruct B as [ND B].
      assert (Z0 : fadd (of_Z q (tr_m t)) (fmul (of_Z q x) (fmul x1 x2)) = f0).
      { transitivity (fadd (fopp (fopp (of_Z q (tr_m t)))) (fmul (fmul (of_Z q x) x2) x1)); [ring|]. rewrite Z1, Z2. ring. }
      rewrite Z0 in B. apply ND. match type of B with fmul ?d _ = _ \/ _ => assert (B' : fmul d (tr_k2 t) = f0) by (destruct B as [->| ->]; ring) end.
      match type of B' with fmul ?d ?k = _ => transitivity (fdiv (fmul d k) k); [field; exact N2|rewrite B'; field; exact N2] end.
    + exists true, z, z. intros x1 r0. rewrite EQ. destruct (fq_dec C (fadd (of_Z q (tr_m t)) (fmul (of_Z q x) (fmul x1 x2))) f0) as [Z0|NZ]; [right; left|left; apply TG, NZ].
      apply LZ. transitivity (fsub (fadd (of_Z q (tr_m t)) (fmul (of_Z q x) (fmul x1 x2))) (of_Z q (tr_m t))); [ring|rewrite Z0; ring].
  - exists false, a, b. intros x1 r0. rewrite EQ. specialize (TG x1). destruct (cclst_signs _ _ _ _ _ _ _); [right; apply TG; reflexivity|left; reflexivity].
Qed.

(** ** Many attempts *)
(** Whatever party two tries, adapting to the answers, and whatever party one's nonces: there are at most 2 L values of the share such that for all others the L answers are the same. *)
Theorem C124_answers_almost_constant (x2 : F) (k1 : list bool -> F) (strat : list bool -> try C) (L : nat) :
  (forall h, k1 h <> f0) -> (forall h x y, coords (smul (k1 h) (smul (tr_k2 (strat h)) (gen : pt C))) = Some (x, y) -> x < q) ->
  exists (h : list bool) (bad : list F), (length bad <= 2 * L)%nat /\ forall x1 r0, ~ In x1 bad -> answers x2 x1 r0 k1 strat L = h.
Proof.
  intros N1 XQ. induction L as [|L (h & bad & LB & H)]; [exists [], []; split; [cbn; lia|reflexivity]|].
  destruct (one_try x2 (k1 h) (strat h) (N1 h) (XQ h)) as (d & a & b & O). exists (d :: h), (a :: b :: bad). split; [cbn [length]; lia|].
  intros x1 r0 NI. cbn [In] in NI. cbn [answers]. rewrite (H x1 r0) by tauto. unfold cclst_encrypt_share. cbn [kp_sec]. f_equal. destruct (O x1 r0) as [Q|[Q|Q]]; [exact Q| |]; exfalso; apply NI; auto.
Qed.

(** So no way of computing a guess from the answers is right for more than 2 L + 1 of the q shares: compare C117_failures_reveal_share_refuted, where about log2 q answers give the share. *)
Theorem C124_guess_from_answers (x2 : F) (k1 : list bool -> F) (strat : list bool -> try C) (L : nat) (guess : list bool -> F) :
  (forall h, k1 h <> f0) -> (forall h x y, coords (smul (k1 h) (smul (tr_k2 (strat h)) (gen : pt C))) = Some (x, y) -> x < q) ->
  exists lucky : list F, (length lucky <= 2 * L + 1)%nat /\ forall x1 r0, guess (answers x2 x1 r0 k1 strat L) = x1 -> In x1 lucky.
Proof.
  intros N1 XQ. destruct (C124_answers_almost_constant x2 k1 strat L N1 XQ) as (h & bad & LB & H). exists (guess h :: bad). split; [cbn [length]; lia|].
  intros x1 r0 G. destruct (in_dec (Fq_eq_dec (q := q)) x1 bad) as [I|NI]; [right; exact I|left]. rewrite <- (H x1 r0 NI). exact G.
Qed.
End Many.
Print Assumptions C124_answers_almost_constant.
Print Assumptions C124_guess_from_answers.

(** On the toy curve (q = 31), party two's secret 9: three attempts; the second ciphertext depends on the first answer.  All but five shares give the same answers. *)
Definition exstrat (h : list bool) : try toy :=
  match h with
  | [] => {| tr_m := 22; tr_k2 := tz 2; tr_e := CSum (CEnc (tz 10) 5) (CScal CKey 5) |}
  | [true] => {| tr_m := 22; tr_k2 := tz 2; tr_e := CSum CKey (CSum CKey (CScal (CSum CKey (CEnc (tz 3) 1)) 4)) |}
  | [false] => {| tr_m := 22; tr_k2 := tz 2; tr_e := CSum (CEnc (tz 11) 5) (CScal CKey 16) |}
  | _ => {| tr_m := 22; tr_k2 := tz 2; tr_e := CScal CKey (Z.of_nat (length h)) |}
  end.
Definition exanswers (x1 : Z) : list bool := answers toy (linear_CL toy (tz 3)) (tz 9) (tz x1) 6 (fun _ => tz 1) exstrat 3.
Example C124_example_run : filter (fun x1 => match exanswers x1 with [false; true; false] => false | _ => true end) (map Z.of_nat (seq 1 30)) = [8; 9; 14; 28; 30] /\
  map exanswers [8; 9; 14; 28; 30] = [[true; true; false]; [false; false; false]; [false; false; true]; [true; true; false]; [false; false; true]].
Proof. vm_compute. split; reflexivity. Qed.
(** The same run meets the hypotheses of the theorems. *)
Lemma ex_k2 h : tr_k2 (exstrat h) = tz 2.
Proof. destruct h as [|[] [|? ?]]; reflexivity. Qed.
Example C124_example : exists lucky : list (Fq (cq toy)), (length lucky <= 7)%nat /\
  forall x1 r0, of_Z (cq toy) (Z.of_nat (length (answers toy (linear_CL toy (tz 3)) (tz 9) x1 r0 (fun _ => tz 1) exstrat 3))) = x1 -> In x1 lucky.
Proof.
  apply (C124_guess_from_answers toy (linear_CL toy (tz 3)) (tz 9) (fun _ => tz 1) exstrat 3 (fun h => of_Z _ (Z.of_nat (length h)))).
  - intros _ Z0. apply (f_equal to_Z) in Z0. vm_compute in Z0. discriminate.
  - intros h x y. rewrite ex_k2. assert (Q : coords (smul (tz 1) (smul (tz 2) (gen : pt toy))) = Some (7, 7)) by (vm_compute; reflexivity).
    intros H. assert (Z0 : Some (7, 7) = Some (x, y)) by (rewrite <- H; symmetry; exact Q). assert (Z1 : x = 7) by congruence. rewrite Z1. vm_compute. reflexivity.
Qed.

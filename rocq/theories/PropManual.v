(** C66 for SignManual: when it panics, for every completed offline stage, message and list of partial signatures. *)
From Coq Require Import ZArith Lia Bool List Field.
From Verif Require Import ZArithX Fq Curve Toy Outcome Sigma Bytes Vss Paillier Ecdsa EcdsaProofs Mp Gg20Keygen Gg20Sign Stores RoundSM SignSM Gg20Keygen KeygenRun SignRun PropRange PropSign PropEcdsa.
Import ListNotations.

Section Manual.
Context (C : Curve).
Add Field mfield : (C_field C).
Notation F := (Fq (cq C)).
Lemma fopp_zero (s : F) : fopp s = f0 <-> s = f0.
Proof. split; intros H; [|rewrite H; ring]. replace s with (fopp (fopp s)) by ring. rewrite H. ring. Qed.
Lemma cancel (a x y : F) : fadd a (fadd x (fadd (fopp (fadd a (fadd x y))) y)) = f0.
Proof. ring. Qed.

(** SignManual::new panics exactly if the nonce point of the offline stage is the point at infinity, and never returns
    an error. *)
Theorem C66_manual_new_panics_exactly (c : completed C) m :
  (sign_manual c m = Panic <-> co_R c = pzero) /\ (forall e, sign_manual c m <> Err e).
Proof.
  unfold sign_manual, gg20_local_sig. split.
  - rewrite <- x_coord_none. destruct (x_coord (co_R c)); cbn [unwrap obind]; split; congruence.
  - intros e. destruct (x_coord (co_R c)); cbn [unwrap obind]; discriminate.
Qed.

(** SignManual::complete panics exactly if the partial signatures sum to zero or the message is the one for which
    m G = - r Y; nothing else about the partial signatures matters. *)
Theorem C66_manual_complete_panics_exactly (c : completed C) m l sigs x : sign_manual c m = Ok l -> x_coord (co_R c) = Some x ->
  (gg20_output l sigs = Panic <-> fadd (ls_s l) (fsum sigs) = f0 \/ smul (of_Z (cq C) m) gen = pneg (smul (of_Z (cq C) x) (lk_y (co_lk c)))).
Proof.
  intros L X. unfold sign_manual, gg20_local_sig in L. rewrite X in L. cbn [unwrap obind] in L. injection L as <-.
  unfold gg20_output. cbn [ls_R ls_s ls_y ls_m]. rewrite X, fold_left_fadd. cbn [unwrap obind]. set (s := fadd _ (fsum sigs)).
  assert (Y : exists y, y_coord (co_R c) = Some y) by (unfold x_coord, y_coord in *; destruct (coords (co_R c)) as [[x0 y0]|]; [exists y0; reflexivity|discriminate]).
  destruct Y as [y ->]. cbn [unwrap obind].
  assert (R : of_Z (cq C) (x mod cq C) = of_Z (cq C) x) by (apply of_Z_eq_iff; apply Z.mod_mod; pose proof (cq_prime C) as [P _]; lia). rewrite R.
  assert (V : forall s', (s' = f0 <-> s = f0) -> gg20_verify (of_Z (cq C) x) s' (lk_y (co_lk c)) m = Panic <-> s = f0 \/ smul (of_Z (cq C) m) gen = pneg (smul (of_Z (cq C) x) (lk_y (co_lk c)))).
  { intros s' E. destruct (feqb_spec s' f0) as [Z|Z].
    - split; [left; apply E; exact Z|intros _; rewrite Z; apply C06_zero_s_crashes].
    - rewrite (C06_infinity_crashes C _ s' _ m Z). split; [auto|]. intros [H|H]; [exfalso; apply Z, E, H|exact H]. }
  destruct (normalize_cases C s y) as [[-> _]|[-> _]].
  - rewrite <- (V s ltac:(tauto)). destruct (gg20_verify _ s _ m); split; congruence.
  - rewrite <- (V (fopp s) (fopp_zero s)). destruct (gg20_verify _ (fopp s) _ m); split; congruence.
Qed.

(** C66 for SignManual refuted: whatever the others send, one partial signature makes complete panic. *)
Theorem C66_manual_panics_refuted (c : completed C) m l pre post : sign_manual c m = Ok l -> exists s, gg20_output l (pre ++ s :: post) = Panic.
Proof.
  intros L. assert (X : exists x, x_coord (co_R c) = Some x) by (unfold sign_manual, gg20_local_sig in L; destruct (x_coord (co_R c)) as [x|]; [exists x; reflexivity|discriminate]).
  destruct X as [x X]. exists (fopp (fadd (ls_s l) (fadd (fsum pre) (fsum post)))). apply (C66_manual_complete_panics_exactly c m l _ x L X). left.
  rewrite fsum_app. replace (fsum (fopp (fadd (ls_s l) (fadd (fsum pre) (fsum post))) :: post)) with (fadd (fopp (fadd (ls_s l) (fadd (fsum pre) (fsum post)))) (fsum post)) by reflexivity. apply cancel.
Qed.
End Manual.
Print Assumptions C66_manual_new_panics_exactly.
Print Assumptions C66_manual_complete_panics_exactly.
Print Assumptions C66_manual_panics_refuted.

(** The run of PropSign, message 9: with the other signer's partial signature complete returns a signature, with the
    negated own one it panics. *)
Definition exmanual : list (option bool) :=
  match sg_run toy exHb2 exH exHf2 [3; 1] exlks exsrs with
  | Ok [c1; c2] => match sign_manual c1 9, sign_manual c2 9 with
                   | Ok l1, Ok l2 => map (fun s => match gg20_output l1 [s] with Ok _ => Some true | Err _ => Some false | Panic => None end) [ls_s l2; fadd (ls_s l2) f1; fopp (ls_s l1)]
                   | _, _ => []
                   end
  | _ => []
  end.
Example C66_manual_example : exmanual = [Some true; Some false; None].
Proof. vm_compute. reflexivity. Qed.

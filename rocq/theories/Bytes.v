(** Byte encodings of integers and points, and hash commitments. *)
From Coq Require Import ZArith Lia Bool List.
From Verif Require Import ZArithX Fq Curve.
Import ListNotations.
Local Open Scope Z_scope.

(** Little-endian base-256 digits. *)
Fixpoint digits_le (fuel : nat) (n : Z) : list Z :=
  match fuel with
  | O => []
  | S f => if n =? 0 then [] else (n mod 256) :: digits_le f (n / 256)
  end.

Fixpoint value_le (l : list Z) : Z :=
  match l with [] => 0 | d :: r => d + 256 * value_le r end.

(** [BigInt::to_bytes]: minimal big-endian absolute value, one zero byte for
    zero; the sign is lost (curv, GMP back end). *)
Definition to_bytes (z : Z) : list Z :=
  if z =? 0 then [0] else rev (digits_le (Z.to_nat (Z.log2 (Z.abs z) + 1)) (Z.abs z)).

(** [BigInt::from_bytes]: big-endian, non-negative. *)
Definition from_bytes (l : list Z) : Z := value_le (rev l).

Lemma digits_le_value : forall f n, 0 <= n -> n < 256 ^ Z.of_nat f -> value_le (digits_le f n) = n.
Proof.
  induction f as [|f IH]; intros n H0 H; cbn [digits_le].
  - cbn in *. lia.
  - destruct (Z.eqb_spec n 0) as [->|Hn]; [reflexivity|].
    cbn [value_le]. rewrite Nat2Z.inj_succ, Z.pow_succ_r in H by lia.
    rewrite IH.
    + pose proof (Z.div_mod n 256). lia.
    + apply Z.div_pos; lia.
    + apply Z.div_lt_upper_bound; lia.
Qed.

Lemma pow256_bound k n : 0 <= k -> n < 2 ^ k -> n < 256 ^ k.
Proof.
  intros Hk H. eapply Z.lt_le_trans; [exact H|].
  apply Z.pow_le_mono_l. lia.
Qed.

Lemma from_to_bytes z : from_bytes (to_bytes z) = Z.abs z.
Proof.
  unfold from_bytes, to_bytes. destruct (Z.eqb_spec z 0) as [->|Hz]; [reflexivity|].
  rewrite rev_involutive. pose proof (Z.log2_nonneg (Z.abs z)).
  apply digits_le_value; [lia|]. rewrite Z2Nat.id by lia.
  apply pow256_bound; [lia|]. apply Z.log2_lt_pow2; lia.
Qed.

Lemma to_bytes_inj a b : to_bytes a = to_bytes b -> Z.abs a = Z.abs b.
Proof. intros H. rewrite <- !from_to_bytes, H. reflexivity. Qed.

Lemma to_bytes_abs a b : Z.abs a = Z.abs b -> to_bytes a = to_bytes b.
Proof.
  intros H. unfold to_bytes. destruct (Z.eqb_spec a 0), (Z.eqb_spec b 0); try lia.
  - reflexivity.
  - rewrite H. reflexivity.
Qed.

(** Byte-slice comparison [ct_eq]. *)
Fixpoint bytes_eqb (a b : list Z) : bool :=
  match a, b with
  | [], [] => true
  | x :: a', y :: b' => (x =? y) && bytes_eqb a' b'
  | _, _ => false
  end.
Lemma bytes_eqb_eq a b : bytes_eqb a b = true <-> a = b.
Proof.
  revert b; induction a as [|x a IH]; intros [|y b]; cbn; split; intros H; try discriminate; try reflexivity.
  - apply andb_true_iff in H. destruct H as [H1 H2]. apply Z.eqb_eq in H1. apply IH in H2. congruence.
  - inversion H; subst. rewrite Z.eqb_refl. apply IH; reflexivity.
Qed.
Lemma to_bytes_eqb a b : bytes_eqb (to_bytes a) (to_bytes b) = (Z.abs a =? Z.abs b).
Proof.
  apply eq_true_iff_eq. rewrite bytes_eqb_eq, Z.eqb_eq. split; [apply to_bytes_inj|apply to_bytes_abs].
Qed.

(** Every digit is a byte. *)
Lemma digits_le_bytes f n : 0 <= n -> Forall (fun d => 0 <= d < 256) (digits_le f n).
Proof.
  revert n; induction f as [|f IH]; intros n Hn; cbn; [constructor|].
  destruct (n =? 0); constructor.
  - apply Z.mod_pos_bound; lia.
  - apply IH. apply Z.div_pos; lia.
Qed.
Lemma to_bytes_bytes z : Forall (fun d => 0 <= d < 256) (to_bytes z).
Proof.
  unfold to_bytes. destruct (z =? 0); [repeat constructor; lia|].
  apply Forall_rev, digits_le_bytes. lia.
Qed.

Lemma digits_le_unique : forall f n l, 0 <= n -> n < 256 ^ Z.of_nat f ->
  Forall (fun d => 0 <= d < 256) l -> (l = [] \/ last l 0 <> 0) -> value_le l = n -> digits_le f n = l.
Proof.
  induction f as [|f IH]; intros n l Hn Hlt Hb Hl Hv.
  - cbn in Hlt. assert (n = 0) by lia. subst n. cbn.
    destruct l as [|d l]; [reflexivity|]. exfalso.
    destruct Hl as [Hl|Hl]; [discriminate|].
    assert (G : forall l, Forall (fun d => 0 <= d < 256) l -> 0 <= value_le l /\
                 (value_le l = 0 -> last l 0 = 0)).
    { induction l0 as [|x l0 IHl]; intros HF; [cbn; lia|]. inversion HF; subst.
      specialize (IHl H3). cbn [value_le last]. split; [lia|]. intros E.
      destruct l0; [lia|apply IHl; lia]. }
    apply Hl, G; [assumption|lia].
  - cbn [digits_le]. destruct (Z.eqb_spec n 0) as [->|Hn0].
    + destruct l as [|d l]; [reflexivity|]. exfalso.
      destruct Hl as [Hl|Hl]; [discriminate|].
      assert (G : forall l, Forall (fun d => 0 <= d < 256) l -> 0 <= value_le l /\
                 (value_le l = 0 -> last l 0 = 0)).
      { induction l0 as [|x l0 IHl]; intros HF; [cbn; lia|]. inversion HF; subst.
        specialize (IHl H2). cbn [value_le last]. split; [lia|]. intros E.
        destruct l0; [lia|apply IHl; lia]. }
      apply Hl, G; [assumption|lia].
    + destruct l as [|d l]; [cbn in Hv; lia|]. inversion Hb; subst.
      cbn [value_le].
      assert (E1 : (d + 256 * value_le l) mod 256 = d).
      { rewrite Z.mul_comm, Z.mod_add by lia. apply Z.mod_small; assumption. }
      assert (E2 : (d + 256 * value_le l) / 256 = value_le l).
      { rewrite Z.mul_comm, Z.div_add by lia. rewrite Z.div_small by lia. lia. }
      rewrite E1, E2. f_equal. rewrite Nat2Z.inj_succ, Z.pow_succ_r in Hlt by lia.
      cbn [value_le] in Hlt, Hn, Hn0.
      apply IH; [lia|lia|assumption| |reflexivity].
      destruct Hl as [Hl|Hl]; [discriminate|]. destruct l as [|d' l]; [left; reflexivity|].
      right. exact Hl.
Qed.

(** A byte string without leading zero byte survives [from_bytes]/[to_bytes]. *)
Lemma to_from_bytes d l : 0 < d < 256 -> Forall (fun d => 0 <= d < 256) l ->
  to_bytes (from_bytes (d :: l)) = d :: l.
Proof.
  intros Hd Hl.
  assert (G : forall l, Forall (fun d => 0 <= d < 256) l -> 0 <= value_le l).
  { induction 1; cbn [value_le]; lia. }
  assert (Gapp : forall a b, value_le (a ++ b) = value_le a + 256 ^ Z.of_nat (length a) * value_le b).
  { induction a as [|x a IHa]; intros b; cbn [app value_le length].
    - rewrite Z.pow_0_r. lia.
    - rewrite IHa, Nat2Z.inj_succ, Z.pow_succ_r by lia. ring. }
  assert (Hpos : 0 < from_bytes (d :: l)).
  { unfold from_bytes. cbn [rev]. rewrite Gapp. cbn [value_le].
    pose proof (G (rev l) ltac:(apply Forall_rev; assumption)).
    assert (0 < 256 ^ Z.of_nat (length (rev l))) by (apply Z.pow_pos_nonneg; lia). nia. }
  unfold to_bytes. destruct (Z.eqb_spec (from_bytes (d :: l)) 0); [lia|].
  rewrite (digits_le_unique _ _ (rev (d :: l))).
  - apply rev_involutive.
  - lia.
  - pose proof (Z.log2_nonneg (Z.abs (from_bytes (d :: l)))).
    rewrite Z2Nat.id by lia. apply pow256_bound; [lia|]. apply Z.log2_lt_pow2; lia.
  - apply Forall_rev. constructor; [lia|assumption].
  - right. cbn [rev]. rewrite last_last. lia.
  - rewrite Z.abs_eq by lia. reflexivity.
Qed.

(** Fixed-width big-endian encoding. *)
Fixpoint be_fixed_le (k : nat) (n : Z) : list Z :=
  match k with O => [] | S k' => (n mod 256) :: be_fixed_le k' (n / 256) end.
Definition be_fixed (k : nat) (n : Z) : list Z := rev (be_fixed_le k n).

Lemma be_fixed_le_value k : forall n, 0 <= n < 256 ^ Z.of_nat k -> value_le (be_fixed_le k n) = n.
Proof.
  induction k as [|k IH]; intros n Hn; cbn [be_fixed_le value_le]; [cbn in Hn; lia|].
  rewrite Nat2Z.inj_succ, Z.pow_succ_r in Hn by lia. rewrite IH.
  - pose proof (Z.div_mod n 256); lia.
  - split; [apply Z.div_pos; lia|apply Z.div_lt_upper_bound; lia].
Qed.
Lemma be_fixed_le_length k : forall n, length (be_fixed_le k n) = k.
Proof. induction k as [|k IH]; intros n; cbn; [reflexivity|]. rewrite IH; reflexivity. Qed.
Lemma be_fixed_length k n : length (be_fixed k n) = k.
Proof. unfold be_fixed. rewrite rev_length. apply be_fixed_le_length. Qed.
Lemma be_fixed_inj k a b : 0 <= a < 256 ^ Z.of_nat k -> 0 <= b < 256 ^ Z.of_nat k ->
  be_fixed k a = be_fixed k b -> a = b.
Proof.
  intros Ha Hb H. unfold be_fixed in H. apply (f_equal (@rev Z)) in H.
  rewrite !rev_involutive in H.
  rewrite <- (be_fixed_le_value k a Ha), H. apply be_fixed_le_value; assumption.
Qed.
Lemma be_fixed_bytes k n : Forall (fun d => 0 <= d < 256) (be_fixed k n).
Proof.
  unfold be_fixed. apply Forall_rev. revert n.
  induction k as [|k IH]; intros n; cbn; constructor; [apply Z.mod_pos_bound; lia|apply IH].
Qed.

Section PointBytes.
Context (C : Curve).

(** [Point::to_bytes(true)]: 33-byte compressed SEC1 encoding; 33 zero bytes
    for the identity (curv secp256k1). *)
Definition pt_bytes (P : pt C) : list Z :=
  match coords P with
  | Some (x, y) => (2 + y mod 2) :: be_fixed 32 x
  | None => repeat 0 33
  end.

(** [Point::to_bytes(false)]: 65-byte uncompressed encoding. *)
Definition pt_bytes_full (P : pt C) : list Z :=
  match coords P with
  | Some (x, y) => 4 :: be_fixed 32 x ++ be_fixed 32 y
  | None => repeat 0 65
  end.

Lemma pt_bytes_length P : length (pt_bytes P) = 33%nat.
Proof.
  unfold pt_bytes. destruct (coords P) as [[x y]|]; [|reflexivity].
  cbn [length]. rewrite be_fixed_length. reflexivity.
Qed.

Lemma coord_bound (P : pt C) x y : coords P = Some (x, y) ->
  0 <= x < 256 ^ Z.of_nat 32 /\ 0 <= y < 256 ^ Z.of_nat 32.
Proof.
  intros H. apply coords_range in H. pose proof (cp_bytes C).
  change (256 ^ Z.of_nat 32) with (2 ^ 256). lia.
Qed.

Lemma cons_inv {A} (a b : A) l m : a :: l = b :: m -> a = b /\ l = m.
Proof. intros H; inversion H; auto. Qed.

Lemma pt_bytes_inj P Q : pt_bytes P = pt_bytes Q -> P = Q.
Proof.
  unfold pt_bytes. destruct (coords P) as [[x y]|] eqn:EP, (coords Q) as [[x' y']|] eqn:EQ; intros H.
  - apply cons_inv in H. destruct H as [Hy Hx]. apply be_fixed_inj in Hx; [|apply (coord_bound _ _ _ EP)|apply (coord_bound _ _ _ EQ)]. subst x'.
    destruct (coords_same_x C P Q x y y' EP EQ) as [E|E]; [auto|].
    exfalso. subst Q. rewrite (coords_neg C _ _ _ EP) in EQ. injection EQ as E. subst y'.
    pose proof (cp_odd C) as Ho. apply Zodd_bool_iff, Zodd_ex in Ho. destruct Ho as [k Hk].
    pose proof (Z.div_mod y 2 ltac:(lia)). pose proof (Z.div_mod (cp C - y) 2 ltac:(lia)). lia.
  - change (repeat 0 33) with (0 :: repeat 0 32) in H. apply cons_inv in H. destruct H as [H1 H2].
    pose proof (Z.mod_pos_bound y 2 ltac:(lia)). lia.
  - change (repeat 0 33) with (0 :: repeat 0 32) in H. apply cons_inv in H. destruct H as [H1 H2].
    pose proof (Z.mod_pos_bound y' 2 ltac:(lia)). lia.
  - apply coords_zero in EP, EQ. congruence.
Qed.

(** [BigInt::from_bytes(P.to_bytes(true))], the integer that is committed to. *)
Definition pt_int (P : pt C) : Z := from_bytes (pt_bytes P).

Lemma to_bytes_pt_int P : to_bytes (pt_int P) = if pt_eqb P pzero then [0] else pt_bytes P.
Proof.
  unfold pt_int. destruct (pt_eqb_spec C P pzero) as [->|HP].
  - unfold pt_bytes. rewrite (proj2 (coords_zero C pzero) eq_refl). reflexivity.
  - destruct (coords_some C P HP) as [x [y E]]. unfold pt_bytes. rewrite E.
    apply to_from_bytes; [pose proof (Z.mod_pos_bound y 2 ltac:(lia)); lia|apply be_fixed_bytes].
Qed.

(** ** Hash commitments

    [HashCommitment::create_commitment_with_user_defined_randomness(m, r)]
    (curv): digest of [to_bytes(m) || to_bytes(r)]. [H] is the hash function. *)
Context (H : list Z -> Z).

Definition commit (m blind : Z) : Z := H (to_bytes m ++ to_bytes blind).
Definition commit_pt (P : pt C) (blind : Z) : Z := commit (pt_int P) blind.

(** Two given byte strings are a hash collision. *)
Definition collides (a b : list Z) : Prop := a <> b /\ H a = H b.
(** The hash input of an opening. *)
Definition opening (m blind : Z) : list Z := to_bytes m ++ to_bytes blind.

Lemma app_eq_len {A} (a b c d : list A) : length a = length c -> a ++ b = c ++ d -> a = c /\ b = d.
Proof.
  revert c; induction a as [|x a IH]; intros [|y c] Hl E; cbn in *; try discriminate; [auto|].
  injection E as -> E. injection Hl as Hl. destruct (IH c Hl E). subst; auto.
Qed.

Lemma commit_pt_preimage P Q b b' :
  to_bytes (pt_int P) ++ to_bytes b = to_bytes (pt_int Q) ++ to_bytes b' -> P = Q.
Proof.
  rewrite !to_bytes_pt_int.
  destruct (pt_eqb_spec C P pzero) as [->|HP], (pt_eqb_spec C Q pzero) as [->|HQ]; intros E.
  - reflexivity.
  - exfalso. destruct (coords_some C Q HQ) as [x [y EQ]]. unfold pt_bytes in E. rewrite EQ in E.
    cbn [app] in E. apply cons_inv in E. destruct E as [E _]. pose proof (Z.mod_pos_bound y 2 ltac:(lia)). lia.
  - exfalso. destruct (coords_some C P HP) as [x [y EQ]]. unfold pt_bytes in E. rewrite EQ in E.
    cbn [app] in E. apply cons_inv in E. destruct E as [E _]. pose proof (Z.mod_pos_bound y 2 ltac:(lia)). lia.
  - apply app_eq_len in E; [|rewrite !pt_bytes_length; reflexivity]. apply pt_bytes_inj, E.
Qed.

Lemma list_Z_eq_dec (a b : list Z) : {a = b} + {a <> b}.
Proof. apply (list_eq_dec Z.eq_dec). Qed.

Lemma commit_pt_binding P Q b b' : commit_pt P b = commit_pt Q b' ->
  P = Q \/ collides (opening (pt_int P) b) (opening (pt_int Q) b').
Proof.
  unfold commit_pt, commit. intros E.
  destruct (list_Z_eq_dec (to_bytes (pt_int P) ++ to_bytes b) (to_bytes (pt_int Q) ++ to_bytes b')) as [E'|E'].
  - left. eapply commit_pt_preimage; eassumption.
  - right. split; assumption.
Qed.

Lemma commit_blind_binding P b b' : P <> pzero -> 0 <= b -> 0 <= b' ->
  commit_pt P b = commit_pt P b' ->
  b = b' \/ collides (opening (pt_int P) b) (opening (pt_int P) b').
Proof.
  unfold commit_pt, commit. intros HP Hb Hb' E.
  destruct (list_Z_eq_dec (to_bytes b) (to_bytes b')) as [E'|E'].
  - left. apply to_bytes_inj in E'. lia.
  - right. split; [|exact E]. unfold opening. intros E2. apply E'. apply app_inv_head in E2. assumption.
Qed.
End PointBytes.

Arguments pt_bytes {_} _.
Arguments pt_bytes_full {_} _.
Arguments pt_int {_} _.
Arguments commit_pt {_} _ _ _.

(** The integer commitment is not binding for any hash: moving a byte from the
    message to the blinding factor gives the same hash input. *)
Lemma commit_int_ambiguous : forall H : list Z -> Z,
  exists m m' b b', m <> m' /\ 0 <= m /\ 0 <= m' /\ 0 <= b /\ 0 <= b' /\ commit H m b = commit H m' b'.
Proof.
  intros H. exists 258, 1, 3, 515. repeat split; try lia. Qed.

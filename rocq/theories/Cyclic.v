(** Multiples in a commutative group, and a counting argument: an element of
    prime order generates the whole group when the group has less than three
    times as many elements and no element of order two. *)
From Coq Require Import ZArith Znumtheory Lia Bool List.
From Verif Require Import ZArithX Fq.
Import ListNotations.
Local Open Scope Z_scope.

Lemma nodup_map_on {A B} (f : A -> B) l : (forall a c, In a l -> In c l -> f a = f c -> a = c) -> NoDup l -> NoDup (map f l).
Proof.
  induction l as [|a l IH]; intros I N; cbn; [constructor|]. inversion N; subst. constructor.
  - intros K. apply in_map_iff in K. destruct K as (c & E & C). assert (c = a) by (apply I; [right; exact C|left; reflexivity|exact E]). subst c. contradiction.
  - apply IH; [|assumption]. intros x y X Y. apply I; right; assumption.
Qed.
Definition zrange (n : Z) : list Z := map Z.of_nat (seq 0 (Z.to_nat n)).
Lemma zrange_in n i : In i (zrange n) <-> 0 <= i < n.
Proof.
  unfold zrange. rewrite in_map_iff. split.
  - intros (k & <- & K). apply in_seq in K. lia.
  - intros H. exists (Z.to_nat i). split; [lia|]. apply in_seq. lia.
Qed.
Lemma zrange_nodup n : NoDup (zrange n).
Proof. apply nodup_map_on; [|apply seq_NoDup]. intros a c _ _ E. apply Nat2Z.inj, E. Qed.
Lemma zrange_length n : length (zrange n) = Z.to_nat n.
Proof. unfold zrange. rewrite map_length, seq_length. reflexivity. Qed.
Lemma pigeonhole {A} (code : A -> Z) (l : list A) K : 0 <= K -> NoDup l -> (forall a c, code a = code c -> a = c) -> (forall a, 0 <= code a < K) -> Z.of_nat (length l) <= K.
Proof.
  intros K0 N I R. assert (H : (length (map code l) <= length (zrange K))%nat).
  { apply NoDup_incl_length; [apply nodup_map_on; [intros; apply I; assumption|exact N]|]. intros z Z1. apply in_map_iff in Z1. destruct Z1 as (a & <- & _). apply zrange_in, R. }
  rewrite map_length, zrange_length in H. lia.
Qed.

Section Multiples.
Context {T : Type} (op : T -> T -> T) (inv : T -> T) (e : T).
(** k x for a non-negative integer k, by double and add. *)
Definition zmul (k : Z) (x : T) : T := match k with Zpos q => Pos.iter_op op q x | _ => e end.
Context (op_assoc : forall x y z, op (op x y) z = op x (op y z)) (op_comm : forall x y, op x y = op y x)
        (op_e : forall x, op e x = x) (op_inv : forall x, op x (inv x) = e).

Lemma op_cancel x y z : op x y = op x z -> y = z.
Proof.
  intros H. apply (f_equal (op (inv x))) in H. rewrite <- !op_assoc, (op_comm (inv x)), op_inv, !op_e in H. exact H.
Qed.
Lemma op_e_r x : op x e = x. Proof. rewrite op_comm. apply op_e. Qed.
Lemma inv_unique x y : op x y = e -> y = inv x.
Proof. intros H. apply (op_cancel x). rewrite H, op_inv. reflexivity. Qed.
Lemma zmul_succ k x : 0 <= k -> zmul (k + 1) x = op x (zmul k x).
Proof.
  intros H. destruct k as [|q|q]; [cbn; rewrite op_e_r; reflexivity| |lia].
  change (Zpos q + 1) with (Zpos (q + 1)). rewrite Pos.add_1_r. cbn [zmul]. apply Pos.iter_op_succ. intros a c d. symmetry. apply op_assoc.
Qed.
Lemma zmul_1 x : zmul 1 x = x. Proof. reflexivity. Qed.
Lemma zmul_add j k x : 0 <= j -> 0 <= k -> zmul (j + k) x = op (zmul j x) (zmul k x).
Proof.
  intros J K. revert j J. apply (natlike_ind (fun j => zmul (j + k) x = op (zmul j x) (zmul k x))); [cbn; rewrite op_e; reflexivity|].
  intros j J IH. unfold Z.succ. rewrite (zmul_succ j), op_assoc, <- IH by exact J. replace (j + 1 + k) with (j + k + 1) by ring. apply zmul_succ. lia.
Qed.
Lemma zmul_mul j k x : 0 <= j -> 0 <= k -> zmul (j * k) x = zmul j (zmul k x).
Proof.
  intros J K. revert j J. apply (natlike_ind (fun j => zmul (j * k) x = zmul j (zmul k x))); [reflexivity|].
  intros j J IH. unfold Z.succ. rewrite zmul_succ, <- IH by exact J. replace ((j + 1) * k) with (k + j * k) by ring. apply zmul_add; [exact K|nia].
Qed.
Lemma zmul_e k : zmul k e = e.
Proof.
  destruct (Z.le_gt_cases 0 k) as [K|K]; [|destruct k; [lia|lia|reflexivity]]. revert k K. apply (natlike_ind (fun k => zmul k e = e)); [reflexivity|].
  intros j J IH. unfold Z.succ. rewrite zmul_succ, IH by exact J. apply op_e.
Qed.
Lemma zmul_op k x y : 0 <= k -> zmul k (op x y) = op (zmul k x) (zmul k y).
Proof.
  revert k. apply (natlike_ind (fun k => zmul k (op x y) = op (zmul k x) (zmul k y))); [cbn; rewrite op_e; reflexivity|].
  intros j J IH. unfold Z.succ. rewrite !zmul_succ, IH by exact J. rewrite !op_assoc. f_equal. rewrite <- !op_assoc. f_equal. apply op_comm.
Qed.

Context (eqb : T -> T -> bool) (eqb_ok : forall x y, eqb x y = true <-> x = y).
Context (n : Z) (np : prime n) (n2 : 2 < n) (g : T) (g_ne : g <> e) (g_order : zmul n g = e).

Lemma zmul_mod k : 0 <= k -> zmul (k mod n) g = zmul k g.
Proof.
  intros K. rewrite (Z.div_mod k n) at 2 by lia. pose proof (Z.mod_pos_bound k n ltac:(lia)). assert (0 <= k / n) by (apply Z.div_pos; lia).
  rewrite zmul_add, (Z.mul_comm n), zmul_mul, g_order, zmul_e, op_e by nia. reflexivity.
Qed.
Lemma zmul_zero k : 0 < k < n -> zmul k g <> e.
Proof.
  intros K E. assert (G : Z.gcd k n = 1) by (apply Zgcd_1_rel_prime, rel_prime_sym, prime_rel_prime; [exact np|]; intros D; apply Z.divide_pos_le in D; lia).
  destruct (mod_inv_complete k n ltac:(lia) G) as [z ZI]. apply mod_inv_sound in ZI; [|lia]. destruct ZI as [ZI [Z0 _]].
  apply g_ne. rewrite <- (zmul_1 g). rewrite <- ZI, zmul_mod, Z.mul_comm, zmul_mul, E by nia. apply zmul_e.
Qed.
Lemma zmul_inj_le i j : 0 <= i -> i <= j -> j < n -> zmul i g = zmul j g -> i = j.
Proof.
  intros I IJ J E. destruct (Z.eq_dec i j) as [|NE]; [assumption|exfalso]. apply (zmul_zero (j - i)); [lia|].
  replace j with (i + (j - i)) in E by ring. rewrite zmul_add in E by lia. symmetry. apply (op_cancel (zmul i g)). rewrite <- E. apply op_e_r.
Qed.
Lemma zmul_inj i j : 0 <= i < n -> 0 <= j < n -> zmul i g = zmul j g -> i = j.
Proof.
  intros I J E. destruct (Z.le_gt_cases i j); [apply zmul_inj_le; lia || assumption|symmetry; apply zmul_inj_le; try lia; symmetry; exact E].
Qed.

Definition In_g (x : T) : Prop := exists k, 0 <= k < n /\ x = zmul k g.
Lemma in_g_mul k : 0 <= k -> In_g (zmul k g).
Proof. intros K. exists (k mod n). split; [apply Z.mod_pos_bound; lia|]. symmetry. apply zmul_mod, K. Qed.
Lemma in_g_op x y : In_g x -> In_g y -> In_g (op x y).
Proof. intros (i & I & ->) (j & J & ->). rewrite <- zmul_add by lia. apply in_g_mul. lia. Qed.
Lemma zmul_inv k : 0 <= k -> inv (zmul k g) = zmul (k * (n - 1)) g.
Proof.
  intros K. symmetry. apply inv_unique. rewrite <- zmul_add by nia. replace (k + k * (n - 1)) with (k * n) by ring. rewrite zmul_mul, g_order by lia. apply zmul_e.
Qed.
Lemma in_g_inv x : In_g x -> In_g (inv x).
Proof. intros (i & I & ->). rewrite zmul_inv by lia. apply in_g_mul. nia. Qed.
Lemma in_g_cancel x y : In_g y -> In_g (op x y) -> In_g x.
Proof. intros Y H. replace x with (op (op x y) (inv y)) by (rewrite op_assoc, op_inv, op_e_r; reflexivity). apply in_g_op; [exact H|apply in_g_inv, Y]. Qed.
Definition in_gb (x : T) : option Z := find (fun k => eqb (zmul k g) x) (zrange n).
Lemma in_g_dec x : {k | 0 <= k < n /\ x = zmul k g} + {~ In_g x}.
Proof.
  destruct (in_gb x) as [k|] eqn:E; unfold in_gb in E.
  - left. exists k. apply find_some in E. destruct E as (I & E). apply zrange_in in I. apply eqb_ok in E. split; [exact I|symmetry; exact E].
  - right. intros (k & K & X). pose proof (find_none _ _ E k (proj2 (zrange_in n k) K)) as H. cbv beta in H. rewrite (proj2 (eqb_ok _ _) (eq_sym X)) in H. discriminate.
Qed.

Context (code : T -> Z) (code_inj : forall x y, code x = code y -> x = y) (K : Z) (code_range : forall x, 0 <= code x < K) (small : K < 3 * n)
        (no_two : forall x, op x x = e -> x = e).

Lemma in_g_or_double x : In_g x \/ In_g (op x x).
Proof.
  destruct (in_g_dec x) as [(k & Y)|N1]; [left; exists k; exact Y|]. destruct (in_g_dec (op x x)) as [(k & Y)|N2]; [right; exists k; exact Y|]. exfalso.
  set (f := fun i => op (zmul (i / n) x) (zmul (i mod n) g)).
  assert (DIF : forall i j d, 0 <= i -> 0 <= j -> (d = 1 \/ d = 2) -> i / n = j / n + d -> f i <> f j).
  { intros i j d I J D E H. unfold f in H. assert (0 <= j / n) by (apply Z.div_pos; lia). rewrite E, (zmul_add (j / n)), op_assoc in H by lia. apply op_cancel in H.
    assert (M : In_g (zmul d x)). { apply (in_g_cancel _ (zmul (i mod n) g)); [apply in_g_mul, Z.mod_pos_bound; lia|]. rewrite H. apply in_g_mul, Z.mod_pos_bound. lia. }
    destruct D as [-> | ->]; [apply N1; exact M|apply N2; exact M]. }
  assert (L : Z.of_nat (length (map f (zrange (3 * n)))) <= K).
  { apply (pigeonhole code); [pose proof (code_range e); lia| |exact code_inj|exact code_range]. apply nodup_map_on; [|apply zrange_nodup].
    intros i j I J E. apply zrange_in in I. apply zrange_in in J. assert (I3 : 0 <= i / n < 3) by (split; [apply Z.div_pos; lia|apply Z.div_lt_upper_bound; lia]). assert (J3 : 0 <= j / n < 3) by (split; [apply Z.div_pos; lia|apply Z.div_lt_upper_bound; lia]).
    destruct (Z.lt_trichotomy (i / n) (j / n)) as [C|[C|C]].
    - exfalso. apply (DIF j i (j / n - i / n)); [lia|lia|lia|lia|symmetry; exact E].
    - unfold f in E. rewrite C in E. apply op_cancel in E. apply zmul_inj in E; [|apply Z.mod_pos_bound; lia|apply Z.mod_pos_bound; lia]. rewrite (Z.div_mod i n), (Z.div_mod j n) by lia. rewrite C, E. reflexivity.
    - exfalso. apply (DIF i j (i / n - j / n)); [lia|lia|lia|lia|exact E]. }
  rewrite map_length, zrange_length in L. lia.
Qed.
Lemma generated x : In_g x.
Proof.
  destruct (in_g_or_double x) as [H|(k & KR & E)]; [exact H|].
  assert (ODD : exists h, n = 2 * h + 1 /\ 0 <= h).
  { destruct (Z.Even_or_Odd n) as [[h H]|[h H]]; [|exists h; lia]. exfalso. assert (D : (2 | n)) by (exists h; lia). apply (prime_div_prime 2 n prime_2 np) in D. lia. }
  destruct ODD as (h & N & H0). (* x = k (h + 1) g *)
  set (y := zmul (k * (h + 1)) g). assert (Y : op x (inv y) = e).
  { apply no_two. rewrite !op_assoc, (op_comm (inv y)), !op_assoc, <- (op_assoc x x), E.
    replace (op (inv y) (inv y)) with (inv (op y y)) by (symmetry; apply inv_unique; rewrite (op_assoc y y), <- (op_assoc y (inv y)), op_inv, op_e, op_inv; reflexivity).
    replace (op y y) with (zmul k g); [apply op_inv|]. unfold y. rewrite <- zmul_add by nia. replace (k * (h + 1) + k * (h + 1)) with (k * n + k) by (rewrite N; ring). rewrite zmul_add, zmul_mul, g_order, zmul_e, op_e by nia. reflexivity. }
  assert (XY : x = y). { apply (op_cancel (inv y)). rewrite (op_comm (inv y)), Y, op_comm, op_inv. reflexivity. }
  rewrite XY. apply in_g_mul. nia.
Qed.
(** The discrete logarithm to base [g]. *)
Lemma dlog_sig : {d : T -> Fq n | forall x, x = zmul (to_Z (d x)) g}.
Proof.
  exists (fun x => match in_g_dec x with inleft k => of_Z n (proj1_sig k) | inright _ => of_Z n 0 end).
  intros x. destruct (in_g_dec x) as [(k & KR & E)|N]; [|exfalso; apply N, generated]. cbn [proj1_sig]. rewrite to_Z_of_Z, Z.mod_small by exact KR. exact E.
Qed.
End Multiples.

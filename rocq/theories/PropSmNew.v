(** The constructors Keygen::new and OfflineStage::new: C29, C54, C55, C88. *)
From Coq Require Import ZArith Lia Bool List Permutation Sorted.
From Verif Require Import ZArithX Fq Curve Toy Outcome Sigma Bytes Vss Paillier RangeProofs Pdl PdlSlack Mta Ecdsa Mp MpProofs Gg20Keygen Gg20Sign Blame BlameProofs Stores RoundSM KeygenSM SignSM PropKeygen PropSign.
Import ListNotations.
Local Open Scope nat_scope.

Lemma insert_perm a l : Permutation (insert_nat a l) (a :: l).
Proof.
  induction l as [|b l IH]; cbn [insert_nat]; [apply Permutation_refl|]. destruct (a <=? b); [apply Permutation_refl|].
  apply (perm_trans (perm_skip b IH)). apply perm_swap.
Qed.
Lemma sort_perm l : Permutation (sort_nat l) l.
Proof. induction l as [|a l IH]; [apply Permutation_refl|]. cbn. apply (perm_trans (insert_perm a _)). apply perm_skip. exact IH. Qed.
Lemma dedup_nodup l : NoDup l -> dedup_nat l = l.
Proof.
  induction l as [|a l IH]; intros N; [reflexivity|]. inversion N as [|? ? N1 N2]; subst. cbn [dedup_nat]. destruct l as [|b l]; [reflexivity|].
  rewrite (IH N2). destruct (Nat.eqb_spec a b) as [->|]; [exfalso; apply N1; left; reflexivity|reflexivity].
Qed.
Lemma sorted_lt_nodup l : Sorted lt l -> NoDup l.
Proof.
  intros S. apply Sorted_StronglySorted in S; [|intros a b c; lia]. induction S as [|a l S IH F]; constructor; [|exact IH].
  intros I. rewrite Forall_forall in F. specialize (F a I). lia.
Qed.
Lemma sort_dedup_nodup l : sort_nat l = dedup_nat (sort_nat l) <-> NoDup l.
Proof.
  split.
  - intros E. apply (Permutation_NoDup (sort_perm l)). rewrite E. apply sorted_lt_nodup, sorted_dedup, sorted_sort.
  - intros N. symmetry. apply dedup_nodup. apply (Permutation_NoDup (Permutation_sym (sort_perm l)) N).
Qed.

(** * C54: the result of Keygen::new is determined by these cases, tested in this order. *)
Theorem C54_keygen_new : forall (C : Curve) Hb (Hf : hashF C) ck cd rd (i t n : nat),
  match kg_new C Hb Hf ck cd rd i t n with
  | Ok s => 2 <= n /\ 1 <= t <= n - 1 /\ 1 <= i <= n /\ kg_current_round s = 0 /\ ks_queue s = [] /\ kg_wants_to_proceed s = true
  | Err ETooFewParties => n < 2
  | Err EInvalidThreshold => 2 <= n /\ ~ 1 <= t <= n - 1
  | Err EInvalidPartyIndex => 2 <= n /\ 1 <= t <= n - 1 /\ ~ 1 <= i <= n
  | Err _ | Panic => False
  end.
Proof.
  intros. unfold kg_new. destruct (Nat.ltb_spec n 2); [exact H|]. destruct (Nat.eqb_spec t 0) as [?ZE|?ZN]; cbn [orb]; [lia|].
  destruct (Nat.leb_spec n t); [lia|]. destruct (Nat.eqb_spec i 0) as [?ZE|?ZN']; cbn [orb]; [lia|]. destruct (Nat.ltb_spec n i); [lia|].
  cbn. repeat split; lia.
Qed.
Print Assumptions C54_keygen_new.
Example C54_example : let go i t n := match kg_new toy exHb exHf3 (fun _ _ => true) (fun _ _ => Ok true) (exrs 0) i t n with
    | Ok _ => 0 | Err ETooFewParties => 1 | Err EInvalidThreshold => 2 | Err EInvalidPartyIndex => 3 | _ => 4 end in
  [go 3 2 3; go 1 1 2; go 1 0 1; go 0 3 3; go 0 2 3; go 4 2 3; go 1 0 3] = [0; 0; 1; 2; 3; 3; 2].
Proof. reflexivity. Qed.

(** * C55: the result of OfflineStage::new likewise. *)
Theorem C55_offline_new : forall (C : Curve) (i : nat) (sl : list nat) (lk : local_key C),
  let in_range := Forall (fun j => 1 <= j <= lk_n lk) sl in
  match sg_new i sl lk with
  | Ok s => 2 <= length sl /\ (Z.of_nat (length sl) <= 65535)%Z /\ 1 <= i <= length sl /\ in_range /\ NoDup sl /\
            sg_current_round s = 0 /\ sm_queue s = [] /\ sg_wants_to_proceed s = true
  | Err ETooFewParties => length sl < 2
  | Err EInvalidPartyIndex => 2 <= length sl /\ ~ 1 <= i <= length sl
  | Err EInvalidSl => 2 <= length sl /\ 1 <= i <= length sl /\ ~ (in_range /\ NoDup sl)
  | Err (ETooManyParties m) => m = length sl /\ 1 <= i <= length sl /\ in_range /\ NoDup sl /\ (65535 < Z.of_nat (length sl))%Z
  | Err _ | Panic => False
  end.
Proof.
  intros C i sl lk in_range. unfold sg_new. destruct (Nat.ltb_spec (length sl) 2); [lia|]. destruct (Nat.eqb_spec i 0) as [?ZE|?ZN]; cbn [orb]; [lia|].
  destruct (Nat.ltb_spec (length sl) i); [lia|].
  assert (R : existsb (fun j => (j =? 0) || (lk_n lk <? j)) sl = true <-> ~ in_range).
  { unfold in_range. rewrite existsb_exists. split.
    - intros [j [J1 J2]] F. rewrite Forall_forall in F. specialize (F j J1). rewrite orb_true_iff, Nat.eqb_eq, Nat.ltb_lt in J2. lia.
    - intros N. apply Exists_exists. destruct (Exists_dec (fun j => ((j =? 0) || (lk_n lk <? j)) = true) sl) as [E|E].
      + intros x. destruct ((x =? 0) || (lk_n lk <? x)); [left; reflexivity|right; discriminate].
      + exact E.
      + exfalso. apply N. apply Forall_forall. intros j J. apply Forall_Exists_neg in E. rewrite Forall_forall in E. specialize (E j J).
        rewrite orb_true_iff, Nat.eqb_eq, Nat.ltb_lt in E. lia. }
  destruct (existsb _ sl) eqn:EX.
  - split; [lia|]. split; [lia|]. intros [A _]. apply R in A; [exact A|reflexivity].
  - assert (IR : in_range).
    { unfold in_range. apply Forall_forall. intros j J. destruct (Nat.eqb_spec j 0) as [Z0|Z0]; [|destruct (Nat.ltb_spec (lk_n lk) j); [|lia]]; exfalso;
        assert (existsb (fun j => (j =? 0) || (lk_n lk <? j)) sl = true) as X; try congruence; apply existsb_exists; exists j; (split; [exact J|]);
        rewrite orb_true_iff, Nat.eqb_eq, Nat.ltb_lt; lia. }
    destruct (list_eq_dec Nat.eq_dec (sort_nat sl) (dedup_nat (sort_nat sl))) as [E|E]; cbn [negb].
    + apply sort_dedup_nodup in E. destruct (Z.ltb_spec 65535 (Z.of_nat (length sl))).
      * repeat split; auto; lia.
      * cbn. repeat split; auto; lia.
    + split; [lia|]. split; [lia|]. intros [_ A]. apply E. apply sort_dedup_nodup. exact A.
Qed.
Print Assumptions C55_offline_new.
(** The number of parties is a u16 in the code, so the last error never occurs. *)
Theorem C55_too_many_unreachable : forall (C : Curve) (i : nat) (sl : list nat) (lk : local_key C) m,
  (Z.of_nat (lk_n lk) <= 65535)%Z -> sg_new i sl lk <> Err (ETooManyParties m).
Proof.
  intros C i sl lk m L E. pose proof (C55_offline_new C i sl lk) as Q. cbn zeta in Q. rewrite E in Q. destruct Q as [_ [_ [R [N B]]]].
  assert (incl sl (seq 1 (lk_n lk))) as I by (intros j J; rewrite Forall_forall in R; specialize (R j J); apply in_seq; lia).
  pose proof (NoDup_incl_length N I) as X. rewrite seq_length in X. lia.
Qed.
Print Assumptions C55_too_many_unreachable.
Example C55_example : let go i sl := match sg_new i sl (exlk 0) with
    | Ok _ => 0 | Err ETooFewParties => 1 | Err EInvalidPartyIndex => 2 | Err EInvalidSl => 3 | Err (ETooManyParties _) => 4 | _ => 5 end in
  [go 1 [3; 1]; go 2 [1; 2; 3]; go 1 [1]; go 0 [1; 2]; go 3 [1; 2]; go 1 [1; 4]; go 1 [0; 2]; go 2 [2; 1; 2]] = [0; 0; 1; 2; 2; 3; 3; 3].
Proof. vm_compute. reflexivity. Qed.

(** * C29: a signer set of t members is accepted, for every key with threshold at least 2. *)
Theorem C29_threshold_unchecked_refuted : forall (C : Curve) (lk : local_key C), 2 <= lk_t lk < lk_n lk -> (Z.of_nat (lk_n lk) <= 65535)%Z ->
  exists sl s, length sl = lk_t lk /\ sg_new 1 sl lk = Ok s.
Proof.
  intros C lk L B. exists (seq 1 (lk_t lk)). pose proof (C55_offline_new C 1 (seq 1 (lk_t lk)) lk) as Q. cbn zeta in Q. rewrite seq_length in Q.
  assert (R : Forall (fun j => 1 <= j <= lk_n lk) (seq 1 (lk_t lk))) by (apply Forall_forall; intros j J; apply in_seq in J; lia).
  destruct (sg_new 1 (seq 1 (lk_t lk)) lk) as [s|e|]; [|exfalso|contradiction].
  - exists s. split; [apply seq_length|reflexivity].
  - destruct e; try contradiction; try lia.
    destruct Q as [_ [_ Q]]. apply Q. split; [exact R|apply seq_NoDup].
Qed.
Print Assumptions C29_threshold_unchecked_refuted.
(** Two signers under a key with threshold 2: accepted. *)
Definition exlk2 : local_key toy :=
  let k := exlk 0 in {| lk_p1 := lk_p1 k; lk_p2 := lk_p2 k; lk_pk := lk_pk k; lk_shared := lk_shared k; lk_N := lk_N k; lk_y := lk_y k; lk_dl := lk_dl k;
    lk_vss := lk_vss k; lk_i := 1; lk_t := 2; lk_n := 3 |}.
Example C29_example : (2 <= lk_t exlk2 < lk_n exlk2) /\ match sg_new 1 [1; 2] exlk2 with Ok _ => true | _ => false end = true.
Proof. split; [cbn; lia|vm_compute; reflexivity]. Qed.

(** * C88: nothing relates the caller's position in the signer list to the party the local key belongs to. *)
Theorem C88_own_index_unchecked_refuted : forall (C : Curve) (lk : local_key C), 2 <= lk_n lk -> (Z.of_nat (lk_n lk) <= 65535)%Z ->
  forall i, 1 <= i <= lk_n lk -> i <> lk_i lk -> exists sl s, sg_new i sl lk = Ok s /\ nth (i - 1) sl 0 <> lk_i lk.
Proof.
  intros C lk L B i Hi NI. exists (seq 1 (lk_n lk)). pose proof (C55_offline_new C i (seq 1 (lk_n lk)) lk) as Q. cbn zeta in Q. rewrite seq_length in Q.
  assert (R : Forall (fun j => 1 <= j <= lk_n lk) (seq 1 (lk_n lk))) by (apply Forall_forall; intros j J; apply in_seq in J; lia).
  destruct (sg_new i (seq 1 (lk_n lk)) lk) as [s|e|]; [|exfalso|contradiction].
  - exists s. split; [reflexivity|]. rewrite seq_nth by lia. lia.
  - destruct e; try contradiction; try lia.
    destruct Q as [_ [_ Q]]. apply Q. split; [exact R|apply seq_NoDup].
Qed.
Print Assumptions C88_own_index_unchecked_refuted.
(** The key of party 3 is accepted as the second signer of [1; 2; 3]. *)
Example C88_example : lk_i (exlk 2) = 3 /\ match sg_new 2 [1; 2; 3] (exlk 2) with Ok _ => true | _ => false end = true.
Proof. split; [reflexivity|vm_compute; reflexivity]. Qed.

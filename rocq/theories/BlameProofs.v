(** What the blame functions compute. *)
From Coq Require Import ZArith Znumtheory Lia Bool List Field Sorted.
From Verif Require Import ZArithX Fq Curve Outcome Sigma SigmaProofs Bytes Paillier PaillierProofs RangeProofs Mta MtaProofs Mp MpProofs
  VssProofs SignProofs SignRunProofs KeygenRunProofs KeygenExtra Blame.
Import ListNotations.
Local Open Scope Z_scope.

(** * Sorting *)
Lemma in_insert x y l : In x (insert_nat y l) <-> x = y \/ In x l.
Proof.
  induction l as [|a l IH]; cbn [insert_nat]; [cbn [In]; intuition|]. destruct (y <=? a)%nat; cbn [In]; [intuition|]. rewrite IH. intuition.
Qed.
Lemma in_sort x l : In x (sort_nat l) <-> In x l.
Proof. induction l as [|a l IH]; cbn [sort_nat fold_right]; [reflexivity|]. rewrite in_insert. cbn [In]. fold (sort_nat l). rewrite IH. intuition. Qed.
Lemma sorted_insert y l : Sorted le l -> Sorted le (insert_nat y l).
Proof.
  induction l as [|a l IH]; intros H; cbn [insert_nat]; [repeat constructor|]. destruct (Nat.leb_spec y a) as [L|L]; [constructor; [exact H|constructor; exact L]|].
  apply Sorted_inv in H. destruct H as [H1 H2]. constructor; [exact (IH H1)|]. destruct l as [|b l]; cbn [insert_nat]; [constructor; lia|].
  destruct (y <=? b)%nat; constructor; [lia|]. inversion H2; assumption.
Qed.
Lemma sorted_sort l : Sorted le (sort_nat l).
Proof. induction l as [|a l IH]; cbn [sort_nat fold_right]; [constructor|]. apply sorted_insert. exact IH. Qed.
Lemma in_dedup x l : In x (dedup_nat l) <-> In x l.
Proof.
  induction l as [|a l IH]; [reflexivity|]. destruct l as [|b l]; [reflexivity|].
  change (dedup_nat (a :: b :: l)) with (if (a =? b)%nat then dedup_nat (b :: l) else a :: dedup_nat (b :: l)).
  destruct (Nat.eqb_spec a b) as [->|E]; [rewrite IH; cbn [In]; intuition|]. cbn [In] in *. rewrite IH. reflexivity.
Qed.
Lemma hd_dedup x l : HdRel le x l -> ~ In x l -> Sorted le l -> HdRel lt x (dedup_nat l).
Proof.
  intros H1 H2 H3. destruct (dedup_nat l) as [|b r] eqn:E; constructor.
  assert (K : In b l) by (apply in_dedup; rewrite E; left; reflexivity).
  assert (L : (x <= b)%nat).
  { assert (HS : StronglySorted le (x :: l)) by (apply Sorted_StronglySorted; [intros ? ? ?; lia|constructor; assumption]).
    inversion HS as [|? ? ? HF]; subst. rewrite Forall_forall in HF. exact (HF b K). }
  assert (x <> b) by congruence. lia.
Qed.
Lemma sorted_dedup l : Sorted le l -> Sorted lt (dedup_nat l).
Proof.
  induction l as [|a l IH]; intros H; [constructor|]. destruct l as [|b l]; [repeat constructor|].
  change (dedup_nat (a :: b :: l)) with (if (a =? b)%nat then dedup_nat (b :: l) else a :: dedup_nat (b :: l)).
  apply Sorted_inv in H. destruct H as [H1 H2]. destruct (Nat.eqb_spec a b) as [->|E]; [exact (IH H1)|]. constructor; [exact (IH H1)|].
  apply hd_dedup; [exact H2| |exact H1]. intros K. inversion H2; subst.
  assert (HS : StronglySorted le (b :: l)) by (apply Sorted_StronglySorted; [intros ? ? ?; lia|assumption]).
  inversion HS as [|? ? ? HF]; subst. rewrite Forall_forall in HF. destruct K as [K|K]; [lia|]. specialize (HF a K). lia.
Qed.
Definition blame_list (l : list nat) : list nat := dedup_nat (sort_nat l).
Lemma in_blame x l : In x (blame_list l) <-> In x l.
Proof. unfold blame_list. rewrite in_dedup. apply in_sort. Qed.
Lemma blame_sorted l : Sorted lt (blame_list l).
Proof. apply sorted_dedup, sorted_sort. Qed.
Lemma blame_nil l : blame_list l = [] <-> l = [].
Proof.
  split; intros H; [|subst; reflexivity]. destruct l as [|a l]; [reflexivity|]. exfalso.
  assert (K : In a (blame_list (a :: l))) by (apply in_blame; left; reflexivity). rewrite H in K. destruct K.
Qed.

(** * Loops *)
Lemma ofold_push {E A B} (body : list B -> A -> outcome E (list B)) (ok : A -> bool) (f : A -> B) l :
  (forall x bad, In x l -> body bad x = Ok (if ok x then bad else bad ++ [f x])) ->
  forall bad, ofold body l bad = Ok (bad ++ map f (filter (fun x => negb (ok x)) l)).
Proof.
  induction l as [|a l IH]; intros H bad; cbn [ofold filter]; [rewrite app_nil_r; reflexivity|].
  rewrite (H a bad (or_introl eq_refl)). cbn [obind]. rewrite IH by (intros x b Hx; apply H; right; exact Hx).
  destruct (ok a); cbn [negb map]; [reflexivity|]. rewrite <- app_assoc. reflexivity.
Qed.
Lemma ofold_all {E A B} (body : B -> A -> outcome E B) (g : B -> A -> B) l :
  (forall x b, In x l -> body b x = Ok (g b x)) -> forall b, ofold body l b = Ok (fold_left g l b).
Proof.
  induction l as [|a l IH]; intros H b; cbn [ofold fold_left]; [reflexivity|].
  rewrite (H a b (or_introl eq_refl)). cbn [obind]. apply IH. intros x c Hx. apply H. right. exact Hx.
Qed.

(** Position [ind2 i j] of the j-th other party's list belongs to [i]. *)
Lemma ind2_lt i j m : (i < m)%nat -> (j < m - 1)%nat -> (ind2 i j < m - 1)%nat.
Proof. intros H1 H2. unfold ind2. destruct (Nat.ltb_spec j i); lia. Qed.
Lemma ind_ind2 i j : ind (ind i j) (ind2 i j) = i.
Proof.
  unfold ind, ind2. destruct (Nat.ltb_spec j i) as [L|L].
  - destruct (Nat.ltb_spec (i - 1) j); lia.
  - destruct (Nat.ltb_spec i (S j)); lia.
Qed.
Lemma nth_o_mat {E A} (f : nat -> nat -> A) m i j : (i < m)%nat -> (j < m - 1)%nat ->
  (let* r := nth_o (E := E) (map (fun a => map (f a) (others a m)) (seq 0 m)) i in nth_o r j) = Ok (f i (ind i j)).
Proof. intros H1 H2. rewrite nth_o_map_seq by exact H1. cbn [obind plus]. apply nth_o_others; assumption. Qed.

Section P.
Context (C : Curve).
Notation q := (cq C).
Notation F := (Fq q).
Notation res := (outcome mp_error).
Add Field cfield : (C_field C).
Context (Hz : hashZ C) (Hf : hashF C).

(** A global state with all vectors of the right length, given by what each party opened and broadcast. *)
Definition state5 (m : nat) (k : nat -> F) (kr : nat -> Z) (g : nat -> F) (br bt : nat -> nat -> Z) (N : nat -> Z) (d : nat -> F)
    (gg : nat -> pt C) (ma : nat -> msg_a) (mb : nat -> nat -> msg_b C) : global5 C :=
  {| g5_k := map k (seq 0 m); g5_kr := map kr (seq 0 m); g5_g := map g (seq 0 m);
     g5_br := map (fun i => map (br i) (others i m)) (seq 0 m); g5_bt := map (fun i => map (bt i) (others i m)) (seq 0 m);
     g5_N := map N (seq 0 m); g5_d := map d (seq 0 m); g5_gg := map gg (seq 0 m); g5_ma := map ma (seq 0 m);
     g5_mb := map (fun i => map (mb i) (others i m)) (seq 0 m) |}.
(** Every state whose vectors have the right lengths is of that form. *)
Definition lengths5 (m : nat) (st : global5 C) : Prop :=
  length (g5_k st) = m /\ length (g5_kr st) = m /\ length (g5_g st) = m /\ length (g5_br st) = m /\ length (g5_bt st) = m /\
  length (g5_N st) = m /\ length (g5_d st) = m /\ length (g5_gg st) = m /\ length (g5_ma st) = m /\ length (g5_mb st) = m /\
  Forall (fun r => length r = (m - 1)%nat) (g5_br st) /\ Forall (fun r => length r = (m - 1)%nat) (g5_bt st) /\
  Forall (fun r => length r = (m - 1)%nat) (g5_mb st).
Lemma map_nth_len {A} (d : A) l m : length l = m -> map (fun i => nth i l d) (seq 0 m) = l.
Proof. intros <-. apply map_seq_nth. Qed.
Definition pos (i p : nat) : nat := if (p <? i)%nat then p else (p - 1)%nat.
Lemma pos_ind i j : pos i (ind i j) = j.
Proof. unfold pos, ind. destruct (Nat.ltb_spec j i) as [L|L]; [destruct (Nat.ltb_spec j i); lia|destruct (Nat.ltb_spec (S j) i); lia]. Qed.
Lemma mat_nth {A} (d : A) l m : length l = m -> Forall (fun r => length r = (m - 1)%nat) l ->
  map (fun i => map (fun p => nth (pos i p) (nth i l []) d) (others i m)) (seq 0 m) = l.
Proof.
  intros H1 H2. transitivity (map (fun i => nth i l []) (seq 0 m)); [|apply map_nth_len; exact H1]. apply map_ext_in. intros i Hi. apply in_seq in Hi.
  rewrite <- ind_map, map_map by lia. transitivity (map (fun j => nth j (nth i l []) d) (seq 0 (m - 1))); [|apply map_nth_len].
  - apply map_ext. intros j. rewrite pos_ind. reflexivity.
  - rewrite Forall_forall in H2. apply H2. apply nth_In. lia.
Qed.
Lemma state5_all m st : lengths5 m st -> exists k kr g br bt N d gg ma mb, st = state5 m k kr g br bt N d gg ma mb.
Proof.
  intros (H1 & H2 & H3 & H4 & H5 & H6 & H7 & H8 & H9 & H10 & H11 & H12 & H13). destruct st as [a b c dd e f h i j l]. cbn [g5_k g5_kr g5_g g5_br g5_bt g5_N g5_d g5_gg g5_ma g5_mb] in *.
  exists (fun x => nth x a f0), (fun x => nth x b 0), (fun x => nth x c f0), (fun x y => nth (pos x y) (nth x dd []) 0), (fun x y => nth (pos x y) (nth x e []) 0),
    (fun x => nth x f 0), (fun x => nth x h f0), (fun x => nth x i gen), (fun x => nth x j {| ma_c := 0; ma_proofs := [] |}),
    (fun x y => nth (pos x y) (nth x l []) {| mb_c := 0; mb_b := dlog_prove Hf f0 f0; mb_bt := dlog_prove Hf f0 f0 |}).
  unfold state5. rewrite !map_nth_len, !mat_nth by assumption. reflexivity.
Qed.

Section Phase5.
Context (m : nat) (k : nat -> F) (kr : nat -> Z) (g : nat -> F) (br bt : nat -> nat -> Z) (N : nat -> Z) (d : nat -> F)
    (gg : nat -> pt C) (ma : nat -> msg_a) (mb : nat -> nat -> msg_b C).
Notation st := (state5 m k kr g br bt N d gg ma mb).

(** What the openings determine. *)
Definition ct_a (i : nat) : Z := enc (N i) (to_Z (k i)) (kr i).
Definition ct_b (i p : nat) : Z := padd_c (N i) (pmul_c (N i) (ct_a i) (to_Z (g p))) (enc (N i) (bt i p) (br i p)).
Definition beta5 (i p : nat) : F := (f0 - of_Z q (bt i p))%Fq.
Definition delta5 (i : nat) : F :=
  (k i * g i + fsum (map (fun p => k i * g p - beta5 i p) (others i m)) + fsum (map (fun p => beta5 p i) (others i m)))%Fq.
Definition okG (i : nat) : bool := pt_eqb (gg i) (smul (g i) gen).
Definition okA (i : nat) : bool := ct_a i =? ma_c (ma i).
Definition okB (i p : nat) : bool := ct_b i p =? mb_c (mb i p).
Definition badB (i : nat) : list nat := filter (fun p => negb (okB i p)) (others i m).
Fixpoint scan (l bad : list nat) : list nat :=
  match l with
  | [] => bad
  | i :: r => let bad1 := if okA i then bad else bad ++ [i] in scan r (match bad1 with [] => badB i | _ => bad1 end)
  end.

Lemma cell_eq i : (i < m)%nat -> forall bad row j, (j < m - 1)%nat ->
  blame5_cell Hz Hf st i (mta_a Hz (k i) (N i) (kr i) []) (bad, row) j =
  Ok (if okB i (ind i j) then bad else bad ++ [ind i j], row ++ [((k i * g (ind i j) - beta5 i (ind i j))%Fq, beta5 i (ind i j))]).
Proof.
  intros Hi bad row j Hj. unfold blame5_cell. cbn [g5_k g5_kr g5_g g5_br g5_bt g5_N g5_mb state5].
  pose proof (ind_lt i j m Hi Hj) as Hid. rewrite !nth_o_map_seq by assumption. cbn [obind plus].
  rewrite !nth_o_others by assumption. cbn [obind]. reflexivity.
Qed.
Lemma row_loop i : (i < m)%nat -> forall l bad row, (forall j, In j l -> (j < m - 1)%nat) ->
  ofold (blame5_cell Hz Hf st i (mta_a Hz (k i) (N i) (kr i) [])) l (bad, row) =
  Ok (bad ++ filter (fun p => negb (okB i p)) (map (ind i) l), row ++ map (fun p => ((k i * g p - beta5 i p)%Fq, beta5 i p)) (map (ind i) l)).
Proof.
  intros Hi. induction l as [|j l IH]; intros bad row H; [cbn [ofold map filter]; rewrite !app_nil_r; reflexivity|].
  cbn [ofold map filter]. rewrite cell_eq by (try exact Hi; apply H; left; reflexivity). cbn [obind].
  rewrite IH by (intros x Hx; apply H; right; exact Hx). destruct (okB i (ind i j)); cbn [negb]; rewrite <- !app_assoc; reflexivity.
Qed.
Definition frow (i : nat) : list (F * F) := map (fun p => ((k i * g p - beta5 i p)%Fq, beta5 i p)) (others i m).
Lemma row_eq i bad mat : (i < m)%nat ->
  blame5_row Hz Hf st m (bad, mat) i =
  Ok (let bad1 := if okA i then bad else bad ++ [i] in match bad1 with [] => (badB i, mat ++ [frow i]) | _ => (bad1, mat ++ [[]]) end).
Proof.
  intros Hi. unfold blame5_row. cbn [g5_k g5_kr g5_N g5_ma state5]. rewrite !nth_o_map_seq by assumption. cbn [obind plus].
  change (ma_c (mta_a Hz (k i) (N i) (kr i) [])) with (ct_a i). fold (okA i). cbv zeta. destruct (if okA i then bad else bad ++ [i]) as [|x l]; [|reflexivity].
  rewrite row_loop by (try exact Hi; intros j Hj; apply in_seq in Hj; lia). cbn [obind fst snd app]. rewrite ind_map by exact Hi. reflexivity.
Qed.
Lemma scan_in x l : forall bad, In x (scan l bad) -> In x bad \/ (In x l /\ okA x = false) \/ exists i, In i l /\ okA i = true /\ In x (badB i).
Proof.
  induction l as [|i l IH]; intros bad H; cbn [scan] in H; [left; exact H|]. apply IH in H. destruct H as [H|[[H1 H2]|(j & H1 & H2)]].
  - destruct (okA i) eqn:E.
    + destruct bad as [|b bad]; [right; right; exists i; split; [left; reflexivity|split; [exact E|exact H]]|left; exact H].
    + assert (K : In x (bad ++ [i])) by (destruct (bad ++ [i]) eqn:E1; [destruct bad; discriminate|exact H]).
      apply in_app_iff in K. destruct K as [K|[K|[]]]; [left; exact K|]. subst. right; left. split; [left; reflexivity|exact E].
  - right; left. split; [right; exact H1|exact H2].
  - right; right. exists j. split; [right; exact H1|exact H2].
Qed.
Lemma scan_keep x l : forall bad, In x bad -> In x (scan l bad).
Proof.
  induction l as [|i l IH]; intros bad H; cbn [scan]; [exact H|]. apply IH. destruct (okA i).
  - destruct bad; [destruct H|exact H].
  - destruct (bad ++ [i]) eqn:E1; [destruct bad; discriminate|]. rewrite <- E1. apply in_app_iff. left; exact H.
Qed.
Lemma scan_A x l : forall bad, In x l -> okA x = false -> In x (scan l bad).
Proof.
  induction l as [|i l IH]; intros bad H1 H2; [destruct H1|]. cbn [scan]. destruct H1 as [->|H1]; [|apply IH; assumption].
  rewrite H2. apply scan_keep. destruct (bad ++ [x]) eqn:E1; [destruct bad; discriminate|]. rewrite <- E1. apply in_app_iff. right; left; reflexivity.
Qed.
Lemma scan_nil l : forall bad, scan l bad = [] <-> bad = [] /\ forall i, In i l -> okA i = true /\ badB i = [].
Proof.
  induction l as [|i l IH]; intros bad; cbn [scan]; [split; [intros ->; split; [reflexivity|intros ? []]|intros [H _]; exact H]|].
  rewrite IH. split.
  - intros [H1 H2]. destruct (okA i) eqn:E.
    + destruct bad as [|b bad]; [|discriminate]. split; [reflexivity|]. intros j [<-|Hj]; [split; assumption|exact (H2 j Hj)].
    + destruct (bad ++ [i]) eqn:E1; [destruct bad; discriminate|discriminate].
  - intros [-> H]. destruct (H i (or_introl eq_refl)) as [E1 E2]. rewrite E1. split; [exact E2|]. intros j Hj. apply H. right. exact Hj.
Qed.
Lemma rows_eq l : (forall i, In i l -> (i < m)%nat) -> forall bad mat, exists mat', ofold (blame5_row Hz Hf st m) l (bad, mat) = Ok (scan l bad, mat') /\
  (scan l bad = [] -> mat' = mat ++ map frow l).
Proof.
  induction l as [|i l IH]; intros H bad mat; [exists mat; split; [reflexivity|intros _; cbn [map]; rewrite app_nil_r; reflexivity]|].
  cbn [ofold]. rewrite row_eq by (apply H; left; reflexivity). cbn [obind scan]. cbv zeta. assert (Hl : forall j, In j l -> (j < m)%nat) by (intros j Hj; apply H; right; exact Hj).
  destruct (if okA i then bad else bad ++ [i]) as [|x r] eqn:E.
  - destruct (IH Hl (badB i) (mat ++ [frow i])) as (mat' & E1 & E2). exists mat'. split; [exact E1|]. intros K. rewrite (E2 K), <- app_assoc. reflexivity.
  - destruct (IH Hl (x :: r) (mat ++ [[]])) as (mat' & E1 & E2). exists mat'. split; [exact E1|]. intros K. apply scan_nil in K. destruct K as [K _]. discriminate.
Qed.
Lemma fold_left_fst (l : list (F * F)) a : fold_left (fun acc x => (acc + fst x)%Fq) l a = (a + fsum (map fst l))%Fq.
Proof. revert a. induction l as [|x l IH]; intros a; cbn [fold_left map fsum]; [ring|]. rewrite IH. ring. Qed.
Lemma delta_eq i : (i < m)%nat -> blame5_delta st m (map frow (seq 0 m)) i = Ok (delta5 i).
Proof.
  intros Hi. unfold blame5_delta. cbn [g5_k g5_g state5]. rewrite !nth_o_map_seq by exact Hi. cbn [obind plus].
  rewrite (omapM_all _ (fun j => beta5 (ind i j) i)).
  - cbn [obind]. rewrite fold_left_fst, fold_left_fadd. rewrite <- (map_map (ind i) (fun p => beta5 p i)), ind_map by exact Hi.
    unfold frow, delta5. rewrite map_map. cbn [fst]. apply f_equal. ring.
  - intros j Hj. apply in_seq in Hj. assert (Hj' : (j < m - 1)%nat) by lia. pose proof (ind_lt i j m Hi Hj') as Hid.
    rewrite nth_o_map_seq by exact Hid. cbn [obind plus]. unfold frow. rewrite nth_o_others by (try exact Hid; apply ind2_lt; assumption).
    cbn [obind snd]. rewrite ind_ind2. reflexivity.
Qed.

Definition badG : list nat := filter (fun i => negb (okG i)) (seq 0 m).
Definition bad5 : list nat :=
  match scan (seq 0 m) badG with [] => filter (fun i => negb (feqb (d i) (delta5 i))) (seq 0 m) | l => l end.
Theorem phase5_eq : phase5_blame Hz Hf st = Err {| me_kind := EPhase6Blame; me_bad := blame_list bad5 |}.
Proof.
  unfold phase5_blame. cbn [g5_d state5]. rewrite map_length, seq_length.
  rewrite (ofold_push _ okG (fun i => i)).
  2:{ intros i bad Hi. apply in_seq in Hi. unfold blame5_gamma. cbn [g5_gg g5_g state5]. rewrite !nth_o_map_seq by lia. reflexivity. }
  cbn [obind app]. rewrite map_id. fold badG. destruct (rows_eq (seq 0 m)) with (bad := badG) (mat := @nil (list (F * F))) as (mat' & E1 & E2).
  { intros i Hi. apply in_seq in Hi. lia. }
  rewrite E1. cbn [obind]. unfold bad5. destruct (scan (seq 0 m) badG) as [|x l] eqn:E; [|reflexivity].
  rewrite (E2 eq_refl). cbn [app]. rewrite (omapM_all _ delta5) by (intros i Hi; apply in_seq in Hi; apply delta_eq; lia). cbn [obind].
  rewrite (ofold_push _ (fun i => feqb (d i) (delta5 i)) (fun i => i)).
  2:{ intros i bad Hi. apply in_seq in Hi. rewrite !nth_o_map_seq by lia. reflexivity. }
  cbn [obind app]. rewrite map_id. reflexivity.
Qed.
End Phase5.

(** * Phase 6 *)
Definition state6 (m : nat) (k : nat -> F) (kr : nat -> Z) (miu mr : nat -> nat -> Z) (gw : nat -> pt C) (N : nat -> Z) (pf : nat -> ddh_proof C)
    (Sv : nat -> pt C) (ma : nat -> msg_a) (mb : nat -> nat -> msg_b C) : global6 C :=
  {| g6_k := map k (seq 0 m); g6_kr := map kr (seq 0 m); g6_miu := map (fun i => map (miu i) (others i m)) (seq 0 m);
     g6_mr := map (fun i => map (mr i) (others i m)) (seq 0 m); g6_gw := map gw (seq 0 m); g6_N := map N (seq 0 m);
     g6_proof := map pf (seq 0 m); g6_S := map Sv (seq 0 m); g6_ma := map ma (seq 0 m);
     g6_mb := map (fun i => map (mb i) (others i m)) (seq 0 m) |}.
Definition lengths6 (m : nat) (st : global6 C) : Prop :=
  length (g6_k st) = m /\ length (g6_kr st) = m /\ length (g6_miu st) = m /\ length (g6_mr st) = m /\ length (g6_gw st) = m /\
  length (g6_N st) = m /\ length (g6_proof st) = m /\ length (g6_S st) = m /\ length (g6_ma st) = m /\ length (g6_mb st) = m /\
  Forall (fun r => length r = (m - 1)%nat) (g6_miu st) /\ Forall (fun r => length r = (m - 1)%nat) (g6_mr st) /\
  Forall (fun r => length r = (m - 1)%nat) (g6_mb st).
Lemma state6_all m st : lengths6 m st -> exists k kr miu mr gw N pf Sv ma mb, st = state6 m k kr miu mr gw N pf Sv ma mb.
Proof.
  intros (H1 & H2 & H3 & H4 & H5 & H6 & H7 & H8 & H9 & H10 & H11 & H12 & H13). destruct st as [a b c dd e f h i j l]. cbn [g6_k g6_kr g6_miu g6_mr g6_gw g6_N g6_proof g6_S g6_ma g6_mb] in *.
  exists (fun x => nth x a f0), (fun x => nth x b 0), (fun x y => nth (pos x y) (nth x c []) 0), (fun x y => nth (pos x y) (nth x dd []) 0), (fun x => nth x e gen),
    (fun x => nth x f 0), (fun x => nth x h {| dd_a1 := gen; dd_a2 := gen; dd_z := f0 |}), (fun x => nth x i gen), (fun x => nth x j {| ma_c := 0; ma_proofs := [] |}),
    (fun x y => nth (pos x y) (nth x l []) {| mb_c := 0; mb_b := dlog_prove Hf f0 f0; mb_bt := dlog_prove Hf f0 f0 |}).
  unfold state6. rewrite !map_nth_len, !mat_nth by assumption. reflexivity.
Qed.

Section Phase6.
Context (m : nat) (k : nat -> F) (kr : nat -> Z) (miu mr : nat -> nat -> Z) (gw : nat -> pt C) (N : nat -> Z) (pf : nat -> ddh_proof C)
    (Sv : nat -> pt C) (ma : nat -> msg_a) (mb : nat -> nat -> msg_b C) (R : pt C).
Notation st := (state6 m k kr miu mr gw N pf Sv ma mb).
Definition okM (i p : nat) : bool := enc (N i) (miu i p) (mr i p) =? mb_c (mb i p).
Definition okK (i : nat) : bool := enc (N i) (to_Z (k i)) (kr i) =? ma_c (ma i).
Definition gsig (i : nat) : pt C :=
  padd (padd (smul (k i) (gw i)) (psum (map (fun p => smul (of_Z q (miu i p)) gen) (others i m))))
       (psum (map (fun p => psub (smul (k p) (gw i)) (smul (of_Z q (miu p i)) gen)) (others i m))).
Definition okP (i : nat) : bool := ddh_verify Hf (pf i) {| dd_g1 := gen; dd_h1 := gsig i; dd_g2 := R; dd_h2 := Sv i |}.
Definition bad6_open : list nat :=
  flat_map (fun i => map (fun _ => i) (filter (fun p => negb (okM i p)) (others i m))) (seq 0 m) ++ filter (fun i => negb (okK i)) (seq 0 m).
Definition bad6_all : list nat := match bad6_open with [] => filter (fun i => negb (okP i)) (seq 0 m) | l => l end.

Lemma miu_row i : (i < m)%nat -> forall bad,
  ofold (blame6_miu st i) (seq 0 (m - 1)) bad = Ok (bad ++ map (fun _ => i) (filter (fun p => negb (okM i p)) (others i m))).
Proof.
  intros Hi bad. rewrite (ofold_push _ (fun j => okM i (ind i j)) (fun _ => i)).
  - apply f_equal, f_equal. rewrite <- ind_map by exact Hi. generalize (seq 0 (m - 1)). intros l. induction l as [|j l IH]; [reflexivity|].
    cbn [map filter]. destruct (okM i (ind i j)); cbn [negb map]; [exact IH|]. apply f_equal. exact IH.
  - intros j b Hj. apply in_seq in Hj. unfold blame6_miu. cbn [g6_N g6_miu g6_mr g6_mb state6]. rewrite !nth_o_map_seq by exact Hi. cbn [obind plus].
    rewrite !nth_o_others by lia. reflexivity.
Qed.
Lemma miu_rows l : (forall i, In i l -> (i < m)%nat) -> forall bad,
  ofold (fun bad i => ofold (blame6_miu st i) (seq 0 (m - 1)) bad) l bad =
  Ok (bad ++ flat_map (fun i => map (fun _ => i) (filter (fun p => negb (okM i p)) (others i m))) l).
Proof.
  induction l as [|i l IH]; intros H bad; cbn [ofold flat_map]; [rewrite app_nil_r; reflexivity|].
  rewrite miu_row by (apply H; left; reflexivity). cbn [obind]. rewrite IH by (intros x Hx; apply H; right; exact Hx). rewrite app_assoc. reflexivity.
Qed.
Lemma fold_left_sm (f : Z -> pt C) l a : fold_left (fun acc x => padd acc (f x)) l a = padd a (psum (map f l)).
Proof. rewrite <- fold_left_padd. revert a. induction l as [|x l IH]; intros a; cbn [fold_left map]; [reflexivity|]. apply IH. Qed.
Theorem phase6_eq : phase6_blame Hz Hf st R = Err {| me_kind := EPhase6Blame; me_bad := blame_list bad6_all |}.
Proof.
  unfold phase6_blame. cbn [g6_k state6]. rewrite map_length, seq_length. rewrite miu_rows by (intros i Hi; apply in_seq in Hi; lia). cbn [obind app].
  rewrite (ofold_push _ okK (fun i => i)).
  2:{ intros i bad Hi. apply in_seq in Hi. unfold blame6_k. cbn [g6_k g6_N g6_kr g6_ma state6]. rewrite !nth_o_map_seq by lia. reflexivity. }
  cbn [obind]. rewrite map_id. fold bad6_open. unfold bad6_all. destruct bad6_open as [|x l] eqn:E; [|reflexivity].
  rewrite (omapM_all _ (fun i => map (fun p => psub (smul (k i) (gw p)) (smul (of_Z q (miu i p)) gen)) (others i m))).
  2:{ intros i Hi. apply in_seq in Hi. rewrite (omapM_all _ (fun j => psub (smul (k i) (gw (ind i j))) (smul (of_Z q (miu i (ind i j))) gen))).
      - rewrite <- (map_map (ind i) (fun p => psub (smul (k i) (gw p)) (smul (of_Z q (miu i p)) gen))), ind_map by lia. reflexivity.
      - intros j Hj. apply in_seq in Hj. unfold blame6_ni. cbn [g6_k g6_gw g6_miu state6]. pose proof (ind_lt i j m ltac:(lia) ltac:(lia)).
        rewrite !nth_o_map_seq by lia. cbn [obind plus]. rewrite nth_o_others by lia. reflexivity. }
  cbn [obind]. rewrite (omapM_all _ gsig).
  2:{ intros i Hi. apply in_seq in Hi. unfold blame6_sigma. cbn [g6_k g6_gw g6_miu state6]. rewrite !nth_o_map_seq by lia. cbn [obind plus].
      rewrite (ofold_all _ (fun g j => padd g (psub (smul (k (ind i j)) (gw i)) (smul (of_Z q (miu (ind i j) i)) gen)))).
      - apply f_equal. unfold gsig. rewrite (fold_left_sm (fun x => smul (of_Z q x) gen)), map_map.
        rewrite <- (ind_map i m) at 3 by lia. rewrite map_map.
        generalize (padd (smul (k i) (gw i)) (psum (map (fun x => smul (of_Z q (miu i x)) gen) (others i m)))). intros a.
        rewrite <- fold_left_padd. generalize (seq 0 (m - 1)). intros l. revert a. induction l as [|j l IH]; intros a; [reflexivity|]. cbn [fold_left map]. apply IH.
      - intros j g Hj. apply in_seq in Hj. pose proof (ind_lt i j m ltac:(lia) ltac:(lia)) as Hid. rewrite nth_o_map_seq by exact Hid. cbn [obind plus].
        rewrite nth_o_others by (try exact Hid; apply ind2_lt; lia). cbn [obind]. rewrite ind_ind2. reflexivity. }
  cbn [obind]. rewrite (ofold_push _ okP (fun i => i)).
  2:{ intros i bad Hi. apply in_seq in Hi. unfold blame6_verify. cbn [g6_S g6_proof state6]. rewrite !nth_o_map_seq by lia. reflexivity. }
  cbn [obind app]. rewrite map_id. reflexivity.
Qed.
Lemma in_bad6_open x : In x bad6_open <-> (x < m)%nat /\ (okK x = false \/ exists p, In p (others x m) /\ okM x p = false).
Proof.
  unfold bad6_open. rewrite in_app_iff, in_flat_map, filter_In, in_seq. split.
  - intros [(i & Hi & H)|[H1 H2]].
    + apply in_map_iff in H. destruct H as (p & <- & H). apply filter_In in H. apply in_seq in Hi. split; [lia|]. right. exists p. destruct H as [H1 H2].
      split; [exact H1|]. apply negb_true_iff. exact H2.
    + split; [lia|]. left. apply negb_true_iff. exact H2.
  - intros [H1 [H2|(p & H2 & H3)]]; [right; split; [lia|rewrite H2; reflexivity]|]. left. exists x. split; [apply in_seq; lia|].
    apply in_map_iff. exists p. split; [reflexivity|]. apply filter_In. split; [exact H2|]. rewrite H3. reflexivity.
Qed.
End Phase6.

(** * Phase 7 *)
Theorem phase7_eq m (s : nat -> F) r Rd mz R Sv :
  phase7_blame {| g7_s := map s (seq 0 m); g7_r := r; g7_Rd := map Rd (seq 0 m); g7_m := mz; g7_R := R; g7_S := map Sv (seq 0 m) |} =
  Err {| me_kind := EPhase7Blame; me_bad := filter (fun i => negb (pt_eqb (smul (s i) R) (padd (smul (of_Z q mz) (Rd i)) (smul r (Sv i))))) (seq 0 m) |}.
Proof.
  unfold phase7_blame. cbn [g7_s]. rewrite map_length, seq_length.
  rewrite (ofold_push _ (fun i => pt_eqb (smul (s i) R) (padd (smul (of_Z q mz) (Rd i)) (smul r (Sv i)))) (fun i => i)).
  - cbn [obind app]. rewrite map_id. reflexivity.
  - intros i bad Hi. apply in_seq in Hi. unfold blame7_one. cbn [g7_s g7_r g7_Rd g7_m g7_R g7_S]. rewrite !nth_o_map_seq by lia. reflexivity.
Qed.
End P.

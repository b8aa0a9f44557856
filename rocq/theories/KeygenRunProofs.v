(** The honest run computes the expected values. *)
From Coq Require Import ZArith Lia Bool List.
From Verif Require Import ZArithX Fq Curve Outcome Sigma SigmaProofs Bytes Vss VssProofs Paillier RangeProofs Pdl Mp MpProofs
  Gg20Keygen Gg18Keygen KeygenProofs KeygenRun.
Import ListNotations.
Local Open Scope Z_scope.

Lemma but_map_seq {A} (f : nat -> A) i n : (i < n)%nat -> but i (map f (seq 0 n)) = map f (others i n).
Proof.
  intros H. unfold but, others. rewrite map_app, firstn_map, skipn_map. f_equal.
  - f_equal. replace n with (i + (n - i))%nat by lia. rewrite seq_app, firstn_app, seq_length, Nat.sub_diag. cbn [firstn].
    rewrite app_nil_r. apply firstn_all2. rewrite seq_length; lia.
  - f_equal. replace n with (S i + (n - S i))%nat at 1 by lia. rewrite seq_app, skipn_app, seq_length, Nat.sub_diag.
    rewrite skipn_all2 by (rewrite seq_length; lia). reflexivity.
Qed.

Section P.
Context (C : Curve).
Notation q := (cq C).
Notation F := (Fq q).
Notation res := (outcome mp_error).
Add Field cfield : (C_field C).

(** Sums of honest polynomials. *)
Lemma dealt_shared t n (cs : list F) : dealt {| vs_t := t; vs_n := n; vs_com := map (fun c => smul c gen) cs |} = cs.
Proof. unfold dealt. cbn [vs_com]. apply dlog_map_smul. Qed.

Definition poly_sum (fs : list (list F)) : list F := fold_right (padd2 C) [] fs.
Lemma peval_poly_sum fs x : peval (poly_sum fs) x = fsum (map (fun f => peval f x) fs).
Proof. induction fs as [|f fs IH]; [reflexivity|]. cbn [poly_sum fold_right map fsum]. rewrite peval_padd2. fold (poly_sum fs). rewrite IH. reflexivity. Qed.
Lemma hd_poly_sum fs : hd f0 (poly_sum fs) = fsum (map (hd f0) fs).
Proof. induction fs as [|f fs IH]; [reflexivity|]. cbn [poly_sum fold_right map fsum]. rewrite (hd_padd2 C). fold (poly_sum fs). rewrite IH. reflexivity. Qed.
Lemma length_poly_sum k fs : (forall f, In f fs -> (length f <= k)%nat) -> (length (poly_sum fs) <= k)%nat.
Proof.
  induction fs as [|f fs IH]; intros H; [cbn; lia|]. cbn [poly_sum fold_right]. rewrite length_padd2. fold (poly_sum fs).
  pose proof (H f (or_introl eq_refl)). specialize (IH (fun g Hg => H g (or_intror Hg))). lia.
Qed.

Lemma reconstruct_ok {E} (v : vss C) (cs : list F) n s : (length cs <= S (vs_t v))%nat -> NoDup s ->
  (forall i, In i s -> (i < n)%nat) -> Z.of_nat n < q -> (vs_t v < length s)%nat ->
  vss_reconstruct (E := E) v s (map (fun i => peval cs (fidx (i + 1))) s) = Ok (hd f0 cs).
Proof.
  intros Hl Hnd Hb Hn Hs. unfold vss_reconstruct. rewrite map_length, Nat.eqb_refl. cbn [oassert obind].
  rewrite (proj2 (Nat.leb_le (vs_t v + 1) (length s)) ltac:(lia)). cbn [oassert obind].
  rewrite <- (map_map (fun i => fidx (i + 1)) (peval cs)). apply lagrange_at_zero_spec.
  - apply (NoDup_fidx C n); assumption.
  - destruct s; [cbn in Hs; lia|discriminate].
  - rewrite map_length. lia.
Qed.

Section Honest.
Context (Hb : list Z -> Z) (Hf : hashF C) (ck : Z -> Z -> bool) (cd : Z -> dlstmt -> res bool).
Context (t n : nat) (rs : nat -> kg_rand C).

Definition h_poly (i : nat) : list F := kr_u (rs i) :: kr_coefs (rs i).
Definition h_keys (i : nat) : keys C :=
  {| ky_u := kr_u (rs i); ky_p1 := kr_p1 (rs i); ky_p2 := kr_p2 (rs i); ky_i := S i; ky_dl := kr_dl (rs i) |}.
Definition h_bc (i : nat) : kg_bc1 :=
  {| kb_N := kr_p1 (rs i) * kr_p2 (rs i); kb_dl := kr_dl (rs i); kb_com := commit_pt Hb (smul (kr_u (rs i)) gen) (kr_blind (rs i));
     kb_ck := kr_ck (rs i); kb_cd1 := kr_cd1 (rs i); kb_cd2 := kr_cd2 (rs i) |}.
Definition h_dec (i : nat) : kg_dec1 C := {| kd_blind := kr_blind (rs i); kd_y := smul (kr_u (rs i)) gen |}.
Definition h_vss (i : nat) : vss C := {| vs_t := t; vs_n := n; vs_com := map (fun c => smul c gen) (h_poly i) |}.
Definition h_share (i j : nat) : F := peval (h_poly i) (fidx (S j)).
Definition h_x (j : nat) : F := fsum (map (fun i => h_share i j) (seq 0 n)).
Definition h_sum : list F := poly_sum (map h_poly (seq 0 n)).

Definition h_lk (i : nat) : local_key C :=
  {| lk_p1 := kr_p1 (rs i); lk_p2 := kr_p2 (rs i); lk_pk := map (fun j => smul (h_x j) gen) (seq 0 n);
     lk_shared := {| sk_y := psum (map (fun j => smul (kr_u (rs j)) gen) (seq 0 n)); sk_x := h_x i |};
     lk_N := map (fun j => kr_p1 (rs j) * kr_p2 (rs j)) (seq 0 n);
     lk_y := psum (map (fun j => smul (kr_u (rs j)) gen) (seq 0 n));
     lk_dl := map (fun j => kr_dl (rs j)) (seq 0 n); lk_vss := h_vss i; lk_i := S i; lk_t := t; lk_n := n |}.

Context (Htn : (t < n)%nat)
  (Hck : forall i, (i < n)%nat -> ck (kr_ck (rs i)) (kr_p1 (rs i) * kr_p2 (rs i)) = true)
  (Hcd1 : forall i, (i < n)%nat -> cd (kr_cd1 (rs i)) (kr_dl (rs i)) = Ok true)
  (Hcd2 : forall i, (i < n)%nat -> cd (kr_cd2 (rs i)) (swap_dl (kr_dl (rs i))) = Ok true)
  (HN : forall i, (i < n)%nat -> bits_ok (kr_p1 (rs i) * kr_p2 (rs i)) = true /\ bits_ok (dl_N (kr_dl (rs i))) = true)
  (Hcoefs : forall i, (i < n)%nat -> length (kr_coefs (rs i)) = t).

Lemma h_check1 i : (i < n)%nat -> kg_check1 C Hb ck cd (h_dec i, h_bc i) = Ok true.
Proof.
  intros Hi. unfold kg_check1, h_dec, h_bc. cbn [kd_y kd_blind kb_com kb_ck kb_N kb_dl kb_cd1 kb_cd2].
  rewrite Z.eqb_refl, Hck by exact Hi. destruct (HN i Hi) as [-> ->]. cbn [andb]. rewrite Hcd1 by exact Hi. cbn [obind].
  apply Hcd2, Hi.
Qed.

Lemma h_dealt_at j : dealt_at (map h_vss (seq 0 n)) (S j) = h_x j.
Proof.
  unfold dealt_at, h_x. f_equal. rewrite map_map. apply map_ext. intros i. unfold h_vss. rewrite dealt_shared. reflexivity.
Qed.
Lemma h_x_poly j : h_x j = peval h_sum (fidx (S j)).
Proof. unfold h_sum, h_x. rewrite peval_poly_sum, map_map. reflexivity. Qed.
Lemma h_sum_hd : hd f0 h_sum = fsum (map (fun i => kr_u (rs i)) (seq 0 n)).
Proof. unfold h_sum. rewrite hd_poly_sum, map_map. reflexivity. Qed.
Lemma h_sum_length : (length h_sum <= S t)%nat.
Proof.
  apply length_poly_sum. intros f Hin. apply in_map_iff in Hin. destruct Hin as (i & <- & Hi). apply in_seq in Hi.
  unfold h_poly. cbn [length]. rewrite Hcoefs by lia. lia.
Qed.

Definition h_r3 (i : nat) : kg_round3 C :=
  {| r3_keys := h_keys i; r3_y := map (fun j => smul (kr_u (rs j)) gen) (seq 0 n); r3_bc := map h_bc (seq 0 n);
     r3_vss := h_vss i; r3_share := h_share i i; r3_i := S i; r3_t := t; r3_n := n |}.
Definition h_out (i : nat) : list (nat * (vss C * F)) :=
  map (fun '(j, sh) => (S j, (h_vss i, sh)))
    (filter (fun '(j, _) => negb (S j =? S i)%nat) (combine (seq 0 n) (map (fun j => peval (h_poly i) (fidx j)) (seq 1 n)))).

Lemma h_phase2 i nonce : (i < n)%nat -> kg_phase2 C Hf n (map (fun j => smul (kr_u (rs j)) gen) (seq 0 n))
  (map (fun j => h_share j i) (seq 0 n)) (map h_vss (seq 0 n)) (S i) nonce =
  Ok ({| sk_y := psum (map (fun j => smul (kr_u (rs j)) gen) (seq 0 n)); sk_x := h_x i |}, dlog_prove Hf (h_x i) nonce).
Proof.
  intros Hi. apply phase2_ok. rewrite !map_length, seq_length.
  repeat (split; [first [reflexivity|lia]|]). split; [|split; [|split; [|reflexivity]]].
  - intros v Hv. apply in_map_iff in Hv. destruct Hv as (j & <- & _). discriminate.
  - rewrite map_map. apply map_ext. intros j. unfold h_vss. rewrite dealt_shared. reflexivity.
  - rewrite map_map. apply map_ext. intros j. unfold h_vss. rewrite dealt_shared. reflexivity.
Qed.

Lemma h_verify (nonce : nat -> F) : kg_verify_dlog C Hf n (map (fun i => dlog_prove Hf (h_x i) (nonce i)) (seq 0 n))
  (map (fun j => smul (kr_u (rs j)) gen) (seq 0 n)) (map h_vss (seq 0 n)) = Ok tt.
Proof.
  apply verify_dlog_ok. rewrite !map_length, seq_length. split; [reflexivity|]. split; [reflexivity|]. split.
  - destruct n as [|m]; [lia|]. cbn [seq map]. exists (h_vss 0), (map h_vss (seq 1 m)). split; [reflexivity|].
    split; [discriminate|]. intros v Hv. apply in_map_iff in Hv. destruct Hv as (j & <- & Hj). apply in_seq in Hj.
    unfold h_vss, h_poly. cbn [vs_com]. rewrite !map_length. cbn [length]. rewrite !Hcoefs by lia. lia.
  - intros i Hi. split; [exact Hi|]. exists (dlog_prove Hf (h_x i) (nonce i)). split; [|split].
    + rewrite nth_error_map. rewrite (nth_error_nth' _ 0%nat) by (rewrite seq_length; lia). rewrite seq_nth by lia. reflexivity.
    + apply dlog_complete.
    + rewrite h_dealt_at. reflexivity.
Qed.

Lemma h_addressed i r : (i < n)%nat -> (r < n)%nat -> r <> i -> addressed (E := mp_error) (S r) (h_out i) = Ok (h_vss i, h_share i r).
Proof.
  intros Hi Hr Hne. unfold addressed, h_out.
  rewrite <- seq_shift, map_map.
  rewrite <- (map_id (seq 0 n)) at 1. rewrite combine_map2.
  assert (K : forall l, In r l -> find (fun x => (fst x =? S r)%nat)
     (map (fun '(j, sh) => (S j, (h_vss i, sh)))
        (filter (fun '(j, _) => negb (S j =? S i)%nat) (map (fun x => (x, peval (h_poly i) (fidx (S x)))) l))) =
     Some (S r, (h_vss i, h_share i r))).
  { induction l as [|a l IH]; intros Hin; [destruct Hin|]. cbn [map filter].
    destruct (Nat.eqb_spec (S a) (S i)) as [Ea|Ea]; cbn [negb].
    - apply IH. destruct Hin as [->|Hin]; [exfalso; lia|exact Hin].
    - cbn [map find fst]. destruct (Nat.eqb_spec (S a) (S r)) as [Er|Er].
      + injection Er as ->. reflexivity.
      + apply IH. destruct Hin as [->|Hin]; [exfalso; lia|exact Hin]. }
  rewrite K; [reflexivity|]. apply in_seq. lia.
Qed.

Lemma kg_run_honest : kg_run C Hb Hf ck cd t n rs = Ok (map h_lk (seq 0 n)).
Proof.
  unfold kg_run. cbv zeta.
  (* round 0 *)
  rewrite (omapM_all _ (fun i => ({| r1_keys := h_keys i; r1_bc := h_bc i; r1_dec := h_dec i; r1_i := S i; r1_t := t; r1_n := n |}, h_bc i)))
    by reflexivity.
  cbn [obind].
  (* round 1 *)
  rewrite (omapM_all _ (fun i => ({| r2_keys := h_keys i; r2_comm := map h_bc (seq 0 n); r2_dec := h_dec i; r2_i := S i; r2_t := t; r2_n := n |}, h_dec i))).
  2:{ intros i Hi. apply in_seq in Hi. rewrite nth_o_map_seq by lia. cbn [obind plus fst]. unfold kg_r1.
      cbn [r1_keys r1_bc r1_dec r1_i r1_t r1_n]. rewrite map_map. cbn [snd]. rewrite but_map_seq by lia.
      replace (S i - 1)%nat with i by lia. rewrite (incl_me_others h_bc) by lia. reflexivity. }
  cbn [obind].
  (* round 2 *)
  rewrite (omapM_all _ (fun i => (h_r3 i, h_out i))).
  2:{ intros i Hi. apply in_seq in Hi. rewrite nth_o_map_seq by lia. cbn [obind plus fst]. unfold kg_r2.
      cbn [r2_keys r2_comm r2_dec r2_i r2_t r2_n]. rewrite map_map. cbn [snd]. rewrite but_map_seq by lia.
      replace (S i - 1)%nat with i by lia. rewrite (incl_me_others h_dec) by lia.
      unfold kg_phase1_verify. rewrite !map_length, seq_length, Nat.eqb_refl. cbn [oassert obind].
      rewrite combine_map2.
      rewrite (proj2 (first_bad_none (kg_check1 C Hb ck cd) _ 0)).
      2:{ apply Forall_forall. intros x Hx. apply in_map_iff in Hx. destruct Hx as (j & <- & Hj). apply in_seq in Hj. apply h_check1. lia. }
      cbn [obind]. unfold vss_share. rewrite (proj2 (Nat.ltb_lt t n) Htn). cbn [oassert obind fst snd].
      rewrite map_length, seq_length.
      change (kr_u (rs i) :: kr_coefs (rs i)) with (h_poly i).
      rewrite (nth_o_map_seq _ 1 n i) by lia. cbn [obind plus].
      rewrite map_map. reflexivity. }
  cbn [obind].
  (* round 3 *)
  rewrite (omapM_all _ (fun i => ({| r4_keys := h_keys i; r4_y := map (fun j => smul (kr_u (rs j)) gen) (seq 0 n); r4_bc := map h_bc (seq 0 n);
     r4_shared := {| sk_y := psum (map (fun j => smul (kr_u (rs j)) gen) (seq 0 n)); sk_x := h_x i |};
     r4_proof := dlog_prove Hf (h_x i) (kr_nonce (rs i)); r4_vss := map h_vss (seq 0 n); r4_i := S i; r4_t := t; r4_n := n |},
     dlog_prove Hf (h_x i) (kr_nonce (rs i))))).
  2:{ intros i Hi. apply in_seq in Hi. rewrite nth_o_map_seq by lia. cbn [obind plus fst].
      rewrite map_map. cbn [snd]. rewrite but_map_seq by lia.
      assert (HI : omapM (addressed (E := mp_error) (S i)) (map (fun x => h_out x) (others i n)) = Ok (map (fun j => (h_vss j, h_share j i)) (others i n))).
      { rewrite <- (map_map h_out (fun x => x)), map_id.
        assert (K : forall l, (forall j, In j l -> (j < n)%nat /\ j <> i) ->
          omapM (addressed (E := mp_error) (S i)) (map h_out l) = Ok (map (fun j => (h_vss j, h_share j i)) l)).
        { induction l as [|a l IH]; intros HL; [reflexivity|]. cbn [map omapM].
          destruct (HL a (or_introl eq_refl)) as [Ha Hne].
          rewrite (h_addressed a i Ha) by lia. cbn [obind].
          rewrite IH; [reflexivity|]. intros j Hj. apply HL. right; exact Hj. }
        apply K. intros j Hj. apply in_others in Hj. lia. }
      rewrite HI. cbn [obind]. unfold kg_r3. cbn [h_r3 r3_keys r3_y r3_bc r3_vss r3_share r3_i r3_t r3_n].
      replace (S i - 1)%nat with i by lia.
      rewrite (incl_me_others (fun j => (h_vss j, h_share j i))) by lia.
      rewrite !map_map. cbn [fst snd]. rewrite h_phase2 by lia. reflexivity. }
  cbn [obind].
  (* round 4 *)
  apply omapM_all. intros i Hi. apply in_seq in Hi. rewrite nth_o_map_seq by lia. cbn [obind plus fst].
  rewrite map_map. cbn [snd]. rewrite but_map_seq by lia. unfold kg_r4.
  cbn [r4_keys r4_y r4_bc r4_shared r4_proof r4_vss r4_i r4_t r4_n].
  replace (S i - 1)%nat with i by lia.
  rewrite (incl_me_others (fun j => dlog_prove Hf (h_x j) (kr_nonce (rs j)))) by lia.
  rewrite (h_verify (fun j => kr_nonce (rs j))). cbn [obind].
  rewrite (omapM_all _ (fun j => smul (h_x j) gen)).
  2:{ intros j Hj. apply in_seq in Hj. rewrite nth_o_map_seq by lia. reflexivity. }
  cbn [obind].
  rewrite (omapM_all _ (fun j => kr_p1 (rs j) * kr_p2 (rs j))).
  2:{ intros j Hj. apply in_seq in Hj. rewrite nth_o_map_seq by lia. reflexivity. }
  cbn [obind]. rewrite nth_o_map_seq by lia. cbn [obind plus].
  unfold h_lk. rewrite map_map.
  clear - Htn. destruct n as [|m]; [lia|]. cbn [seq map]. rewrite fold_left_padd. reflexivity.
Qed.
End Honest.

(** ** GG18 *)
Section Honest18.
Context (Hb : list Z -> Z) (Hf : hashF C) (ck : Z -> Z -> bool).
Context (t n : nat) (rs : nat -> kg18_rand C).
Definition g_poly (i : nat) : list F := kr18_u (rs i) :: kr18_coefs (rs i).
Definition g_vss (i : nat) : vss C := {| vs_t := t; vs_n := n; vs_com := map (fun c => smul c gen) (g_poly i) |}.
Definition g_share (i j : nat) : F := peval (g_poly i) (fidx (S j)).
Definition g_x (j : nat) : F := fsum (map (fun i => g_share i j) (seq 0 n)).
Definition g_sum : list F := poly_sum (map g_poly (seq 0 n)).
Context (Htn : (t < n)%nat)
  (Hck : forall i, (i < n)%nat -> ck (kr18_ck (rs i)) (kr18_p1 (rs i) * kr18_p2 (rs i)) = true)
  (Hcoefs : forall i, (i < n)%nat -> length (kr18_coefs (rs i)) = t).
Lemma g_dealt_at j : dealt_at (map g_vss (seq 0 n)) (S j) = g_x j.
Proof.
  unfold dealt_at, g_x. f_equal. rewrite map_map. apply map_ext. intros i. unfold g_vss. rewrite dealt_shared. reflexivity.
Qed.
Lemma g_x_poly j : g_x j = peval g_sum (fidx (S j)).
Proof. unfold g_sum, g_x. rewrite peval_poly_sum, map_map. reflexivity. Qed.
Lemma g_sum_hd : hd f0 g_sum = fsum (map (fun i => kr18_u (rs i)) (seq 0 n)).
Proof. unfold g_sum. rewrite hd_poly_sum, map_map. reflexivity. Qed.
Lemma g_sum_length : (length g_sum <= S t)%nat.
Proof.
  apply length_poly_sum. intros f Hin. apply in_map_iff in Hin. destruct Hin as (i & <- & Hi). apply in_seq in Hi.
  unfold g_poly. cbn [length]. rewrite Hcoefs by lia. lia.
Qed.
Lemma kg18_run_honest : kg18_run C Hb Hf ck t n rs =
  Ok (map (fun i => ({| sk_y := psum (map (fun j => smul (kr18_u (rs j)) gen) (seq 0 n)); sk_x := g_x i |},
                     map (fun j => smul (g_x j) gen) (seq 0 n))) (seq 0 n)).
Proof.
  unfold kg18_run. cbv zeta.
  rewrite (omapM_all _ (fun i => (g_vss i, map (fun j => peval (g_poly i) (fidx j)) (seq 1 n), S i))).
  2:{ intros i Hi. apply in_seq in Hi. unfold kg18_phase1_verify. rewrite !map_length, seq_length, Nat.eqb_refl. cbn [oassert obind].
      unfold vss_share. rewrite (proj2 (Nat.ltb_lt t n) Htn). cbn [oassert obind fst snd].
      rewrite !map_map, combine_map2.
      assert (HA : forallb (kg18_check1 C Hb ck) (map (fun x => (snd (kg18_phase1 C Hb (kg18_keys C rs x) (kr18_blind (rs x)) (kr18_ck (rs x))),
                    fst (kg18_phase1 C Hb (kg18_keys C rs x) (kr18_blind (rs x)) (kr18_ck (rs x))))) (seq 0 n)) = true).
      { apply forallb_forall. intros x Hx. apply in_map_iff in Hx. destruct Hx as (j & <- & Hj). apply in_seq in Hj.
        unfold kg18_phase1. cbn [fst snd kg18_check1 kd_y kd_blind b18_com b18_ck b18_N k18_u k18_p1 k18_p2 kg18_keys].
        rewrite Z.eqb_refl, Hck by lia. reflexivity. }
      rewrite HA. reflexivity. }
  cbn [obind]. rewrite !map_map. cbn [fst snd].
  rewrite (omapM_all _ (fun i => ({| sk_y := psum (map (fun j => smul (kr18_u (rs j)) gen) (seq 0 n)); sk_x := g_x i |},
     dlog_prove Hf (g_x i) (kr18_nonce (rs i))))).
  2:{ intros i Hi. apply in_seq in Hi.
      assert (HI : omapM (fun x => nth_o (E := error) (snd (fst x)) i)
          (map (fun i0 => (g_vss i0, map (fun j => peval (g_poly i0) (fidx j)) (seq 1 n), S i0)) (seq 0 n)) =
          Ok (map (fun j => g_share j i) (seq 0 n))).
      { generalize (seq 0 n) as l. induction l as [|a l IH]; [reflexivity|]. cbn [map omapM fst snd].
        rewrite nth_o_map_seq by lia. cbn [obind plus]. rewrite IH. reflexivity. }
      rewrite HI. cbn [obind]. apply phase2_18_ok. rewrite !map_length, seq_length.
      repeat (split; [reflexivity|]). split; [|split; [|split; [|reflexivity]]].
      - intros v Hv. apply in_map_iff in Hv. destruct Hv as (j & <- & _). discriminate.
      - rewrite map_map. apply map_ext. intros j. unfold g_vss. rewrite dealt_shared. reflexivity.
      - rewrite map_map. apply map_ext. intros j. unfold g_vss. rewrite dealt_shared. reflexivity. }
  cbn [obind]. apply omapM_all. intros i Hi. apply in_seq in Hi. rewrite nth_o_map_seq by lia. cbn [obind plus fst].
  unfold kg18_verify_dlog. rewrite !map_length, seq_length, Nat.eqb_refl. cbn [oassert obind].
  rewrite map_map. cbn [snd].
  assert (HA : forallb (dlog_verify Hf) (map (fun x => dlog_prove Hf (g_x x) (kr18_nonce (rs x))) (seq 0 n)) = true).
  { apply forallb_forall. intros p Hp. apply in_map_iff in Hp. destruct Hp as (j & <- & _). apply dlog_complete. }
  rewrite HA. cbn [obind]. rewrite xi18_ok.
  - cbn [obind]. rewrite map_length, seq_length. f_equal. f_equal. rewrite <- seq_shift, map_map. apply map_ext.
    intros j. change (map (fun x => g_vss x) (seq 0 n)) with (map g_vss (seq 0 n)). rewrite g_dealt_at. reflexivity.
  - intros v Hv. apply in_map_iff in Hv. destruct Hv as (j & <- & _). discriminate.
Qed.
End Honest18.
End P.
Arguments poly_sum {_} _.

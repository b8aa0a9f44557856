(** C113: what the parties corrupted in different runs of key generation know together about the key.  The view consists of the
    private values only (PartyPrivate, the party's own polynomial, the shares dealt to it), together with everything that is sampled
    apart from the polynomials, and the factors: the public points determine the key anyway (discrete logarithm). *)
From Coq Require Import ZArith Znumtheory Lia Bool List Field.
From Verif Require Import ZArithX Fq Curve Toy Outcome Sigma SigmaProofs Bytes Vss VssProofs Paillier PaillierProofs RangeProofs RangeProofsProofs Pdl
  Ecdsa Mp MpProofs Gg20Keygen KeygenRun KeygenRunProofs KeygenExtra PropKeygen PropVss Reshare PropReshare Secp256k1.
Import ListNotations.
Local Open Scope Z_scope.

(** Specification: u_i of run e (run 0 is the first), the coefficients sampled for it and the share of i's polynomial dealt to k *)
Definition u_at {C : Curve} (ks : nat -> kg_rand C) (es : list ((nat -> Fq (cq C)) * (nat -> kg_rand C))) (e i : nat) : Fq (cq C) :=
  fadd (kr_u (ks i)) (fsum (map (fun x => fst x i) (firstn e es))).
Definition rand_at {C : Curve} (ks : nat -> kg_rand C) (es : list ((nat -> Fq (cq C)) * (nat -> kg_rand C))) (e : nat) : nat -> kg_rand C :=
  match e with O => ks | S k => match nth_error es k with Some x => snd x | None => ks end end.
Definition dealt_to {C : Curve} (ks : nat -> kg_rand C) es (e i k : nat) : Fq (cq C) :=
  peval (u_at ks es e i :: kr_coefs (rand_at ks es e i)) (fidx (S k)).
(** Everything that a party samples apart from its polynomial *)
Definition same_rand {C : Curve} (r r' : kg_rand C) : Prop :=
  kr_p1 r = kr_p1 r' /\ kr_p2 r = kr_p2 r' /\ kr_dl r = kr_dl r' /\ kr_blind r = kr_blind r' /\ kr_ck r = kr_ck r' /\ kr_cd1 r = kr_cd1 r' /\ kr_cd2 r = kr_cd2 r' /\ kr_nonce r = kr_nonce r'.
(** Two lives that party i cannot tell apart by what it knows in run e *)
Definition same_view {C : Curve} Hb (Hf : hashF C) ck cd t n ks es ks' es' (e i : nat) : Prop :=
  (exists st keys st' keys', life C Hb Hf ck cd t n ks (firstn e es) = Ok (st, keys) /\ life C Hb Hf ck cd t n ks' (firstn e es') = Ok (st', keys') /\
     nth_error st i <> None /\ nth_error st i = nth_error st' i) /\
  kr_coefs (rand_at ks es e i) = kr_coefs (rand_at ks' es' e i) /\
  forall j, (j < n)%nat -> dealt_to ks es e j i = dealt_to ks' es' e j i.
Definition key_of {C : Curve} n (ks : nat -> kg_rand C) : Fq (cq C) := fsum (map (fun i => kr_u (ks i)) (seq 0 n)).
(** A life with the same factors and the same samples apart from the polynomials, by parties as honest as in the first one *)
Definition like {C : Curve} (ck : Z -> Z -> bool) cd t n (ks : nat -> kg_rand C) (es : list ((nat -> Fq (cq C)) * (nat -> kg_rand C))) ks' es' : Prop :=
  run_rand_ok C ck cd t n ks' /\ (forall fac rs, In (fac, rs) es' -> run_rand_ok C ck cd t n rs) /\ map fst es' = map fst es /\
  (forall i, (i < n)%nat -> same_rand (ks i) (ks' i)) /\
  forall e i, (e <= length es)%nat -> (i < n)%nat -> same_rand (rand_at ks es e i) (rand_at ks' es' e i).

Section Proofs.
Context (C : Curve).
Notation F := (Fq (cq C)).
Add Field cfield113 : (C_field C).

(** At most t positions fix no secret *)
Lemma pad (seen : list nat) t n : (t < n)%nat -> NoDup seen -> (forall i, In i seen -> (i < n)%nat) -> (length seen <= t)%nat ->
  exists l, NoDup l /\ (forall i, In i l -> (i < n)%nat) /\ length l = t /\ incl seen l.
Proof.
  intros Htn Hnd Hin Hl. remember (t - length seen)%nat as d eqn:Ed. revert seen Hnd Hin Hl Ed. induction d as [|d IH]; intros seen Hnd Hin Hl Ed.
  - exists seen. split; [exact Hnd|]. split; [exact Hin|]. split; [lia|apply incl_refl].
  - assert (exists j, (j < n)%nat /\ ~ In j seen) as (j & Hj & Nj).
    { destruct (existsb (fun j => negb (existsb (Nat.eqb j) seen)) (seq 0 n)) eqn:E.
      - apply existsb_exists in E. destruct E as (j & I & E). apply in_seq in I. exists j. split; [lia|]. intros J.
        assert (T : existsb (Nat.eqb j) seen = true) by (apply existsb_exists; exists j; split; [exact J|apply Nat.eqb_refl]). rewrite T in E. discriminate.
      - exfalso. assert (I : incl (seq 0 n) seen).
        { intros j J. destruct (existsb (Nat.eqb j) seen) eqn:B.
          - apply existsb_exists in B. destruct B as (k & K & B). apply Nat.eqb_eq in B. subst k. exact K.
          - assert (T : existsb (fun j => negb (existsb (Nat.eqb j) seen)) (seq 0 n) = true) by (apply existsb_exists; exists j; split; [exact J|rewrite B; reflexivity]). congruence. }
        apply (NoDup_incl_length (seq_NoDup n 0)) in I. rewrite seq_length in I. lia. }
    destruct (IH (j :: seen)) as (l & L1 & L2 & L3 & L4); [constructor; assumption|intros i [<-|I]; [exact Hj|apply Hin, I]|cbn; lia|cbn; lia|].
    exists l. split; [exact L1|]. split; [exact L2|]. split; [exact L3|]. intros i I. apply L4. right. exact I.
Qed.
Lemma other_poly (u u' : F) rest seen t n : (t < n)%nat -> Z.of_nat n < cq C -> length rest = t -> NoDup seen -> (forall i, In i seen -> (i < n)%nat) -> (length seen <= t)%nat ->
  exists rest', length rest' = t /\ forall i, In i seen -> peval (u' :: rest') (fidx (S i)) = peval (u :: rest) (fidx (S i)).
Proof.
  intros Htn Hq Hr Hnd Hin Hl. destruct (pad seen t n Htn Hnd Hin Hl) as (l & L1 & L2 & L3 & L4).
  destruct (C18_secrecy C (map S l) (map (fun i => peval (u :: rest) (fidx (S i))) l) u') as (rest' & (R1 & R2) & _).
  - apply FinFun.Injective_map_NoDup; [intros a b; lia|exact L1].
  - intros i I. apply in_map_iff in I. destruct I as (k & <- & K). specialize (L2 k K). lia.
  - rewrite !map_length. reflexivity.
  - rewrite map_length in R1. rewrite map_map in R2. exists rest'. split; [lia|]. intros i I. exact (ext_in_map R2 i (L4 i I)).
Qed.

Context (Hb : list Z -> Z) (Hf : hashF C) (ck : Z -> Z -> bool) (cd : Z -> dlstmt -> outcome mp_error bool) (t n : nat).
Context (Htn : (t < n)%nat).
(** The samples of run e as the run uses them *)
Definition eff (ks : nat -> kg_rand C) es e (i : nat) : kg_rand C :=
  let r := rand_at ks es e i in
  {| kr_u := u_at ks es e i; kr_p1 := kr_p1 r; kr_p2 := kr_p2 r; kr_dl := kr_dl r; kr_blind := kr_blind r; kr_ck := kr_ck r;
     kr_cd1 := kr_cd1 r; kr_cd2 := kr_cd2 r; kr_coefs := kr_coefs r; kr_nonce := kr_nonce r |}.
Definition agree (r r' : nat -> kg_rand C) : Prop := forall i, (i < n)%nat -> r i = r' i.
Lemma h_x_agree r r' k : agree r r' -> h_x C n r k = h_x C n r' k.
Proof. intros A. unfold h_x. f_equal. apply map_ext_in. intros i I. apply in_seq in I. unfold h_share, h_poly. rewrite (A i) by lia. reflexivity. Qed.
Lemma h_lk_agree r r' i : agree r r' -> (i < n)%nat -> h_lk C t n r i = h_lk C t n r' i.
Proof.
  intros A Hi. assert (M : forall B (g : kg_rand C -> B), map (fun j => g (r j)) (seq 0 n) = map (fun j => g (r' j)) (seq 0 n)).
  { intros B g. apply map_ext_in. intros j J. apply in_seq in J. rewrite (A j) by lia. reflexivity. }
  unfold h_lk, h_vss, h_poly. rewrite (A i Hi), (h_x_agree _ _ i A).
  rewrite (M _ (fun x => smul (kr_u x) gen)), (M _ (fun x => kr_p1 x * kr_p2 x)), (M _ kr_dl).
  f_equal. apply map_ext. intros j. rewrite (h_x_agree _ _ j A). reflexivity.
Qed.
Lemma lks_agree r r' : agree r r' -> map (h_lk C t n r) (seq 0 n) = map (h_lk C t n r') (seq 0 n).
Proof. intros A. apply map_ext_in. intros i I. apply in_seq in I. apply h_lk_agree; [exact A|lia]. Qed.
Lemma st_agree r r' : agree r r' -> st_of C t n r = st_of C t n r'.
Proof.
  intros A. unfold st_of, privates. rewrite (lks_agree r r' A). apply map_ext_in. intros [i lk] I. apply in_combine_l in I. apply in_seq in I.
  unfold keys_of. rewrite (A i) by lia. reflexivity.
Qed.
Lemma eff_0 ks es : agree (eff ks es 0) ks.
Proof.
  intros i Hi. unfold eff, u_at. cbn [rand_at firstn map]. change (fsum (@nil F)) with (f0 : F). rewrite (add_0_r C). destruct (ks i). reflexivity.
Qed.
Lemma eff_S ks fac rs es e : (e <= length es)%nat -> agree (eff ks ((fac, rs) :: es) (S e)) (eff (next_rand (st_of C t n ks) fac rs) es e).
Proof.
  intros He i Hi. assert (U : u_at ks ((fac, rs) :: es) (S e) i = u_at (next_rand (st_of C t n ks) fac rs) es e i).
  { unfold u_at. cbn [firstn map fst]. unfold next_rand. rewrite (st_of_nth C t n ks i Hi). cbn [refresh_private_key ky_u pr_u kr_u].
    change (fsum (fac i :: ?l)) with (fadd (fac i) (fsum l)). field. }
  unfold eff. rewrite U. destruct e as [|e].
  - cbn [rand_at nth_error snd]. unfold next_rand. rewrite (st_of_nth C t n ks i Hi). reflexivity.
  - cbn [rand_at nth_error]. destruct (nth_error es e) eqn:E; [reflexivity|]. apply nth_error_None in E. lia.
Qed.
Lemma eff_ok ks es e : (e <= length es)%nat -> run_rand_ok C ck cd t n ks -> (forall fac rs, In (fac, rs) es -> run_rand_ok C ck cd t n rs) -> run_rand_ok C ck cd t n (eff ks es e).
Proof.
  intros He H HE i Hi. destruct e as [|e]; [exact (H i Hi)|]. unfold eff. cbn [rand_at]. destruct (nth_error es e) as [[fac rs]|] eqn:E; [|apply nth_error_None in E; lia].
  cbn [snd]. exact (HE fac rs (nth_error_In _ _ E) i Hi).
Qed.
Lemma life_eff : forall es e ks, (e <= length es)%nat -> run_rand_ok C ck cd t n ks -> (forall fac rs, In (fac, rs) es -> run_rand_ok C ck cd t n rs) ->
  life C Hb Hf ck cd t n ks (firstn e es) = Ok (st_of C t n (eff ks es e), map (h_lk C t n (eff ks es e)) (seq 0 n)).
Proof.
  induction es as [|[fac rs] es IH]; intros e ks He H HE.
  - cbn in He. assert (e = 0%nat) by lia. subst e. unfold life. rewrite (run_honest C Hb Hf ck cd t n Htn ks H). cbn [obind firstn reshares].
    rewrite (st_agree _ _ (eff_0 ks [])), (lks_agree _ _ (eff_0 ks [])). reflexivity.
  - destruct e as [|e].
    + unfold life. rewrite (run_honest C Hb Hf ck cd t n Htn ks H). cbn [obind firstn reshares].
      rewrite (st_agree _ _ (eff_0 ks _)), (lks_agree _ _ (eff_0 ks _)). reflexivity.
    + cbn in He. assert (He' : (e <= length es)%nat) by lia. destruct (next_ok C ck cd t n Htn ks fac rs (HE _ _ (or_introl eq_refl))) as [N1 _].
      rewrite (st_agree _ _ (eff_S ks fac rs es e He')), (lks_agree _ _ (eff_S ks fac rs es e He')).
      rewrite <- (IH e (next_rand (st_of C t n ks) fac rs) He' N1 (fun f r I => HE f r (or_intror I))).
      unfold life. rewrite (run_honest C Hb Hf ck cd t n Htn ks H), (run_honest C Hb Hf ck cd t n Htn _ N1). cbn [obind firstn reshares].
      change (privates n ks (map (h_lk C t n ks) (seq 0 n))) with (st_of C t n ks). rewrite (run_honest C Hb Hf ck cd t n Htn _ N1). reflexivity.
Qed.
Lemma eff_share ks es e i k : h_share C (eff ks es e) i k = dealt_to ks es e i k.
Proof. reflexivity. Qed.
Lemma sub_add113 (a b : F) : fadd a (fsub b a) = b.
Proof. field. Qed.
Lemma u_at_facs (ks : nat -> kg_rand C) es e i : u_at ks es e i = fadd (kr_u (ks i)) (fsum (map (fun f => f i) (firstn e (map fst es)))).
Proof. unfold u_at. rewrite firstn_map, map_map. reflexivity. Qed.
Lemma choices {B} (P : nat -> B -> Prop) (d : B) m : (forall e, (e <= m)%nat -> exists c, P e c) -> exists f, forall e, (e <= m)%nat -> P e (f e).
Proof.
  induction m as [|m IH]; intros H.
  - destruct (H 0%nat (le_n _)) as (c & Hc). exists (fun _ => c). intros e He. replace e with 0%nat by lia. exact Hc.
  - destruct IH as (f & F'); [intros e He; apply H; lia|]. destruct (H (S m) (le_n _)) as (c & Hc). exists (fun e => if (e =? S m)%nat then c else f e).
    intros e He. destruct (Nat.eqb_spec e (S m)) as [->|N]; [exact Hc|apply F'; lia].
Qed.
(** Party j deals another polynomial *)
Definition deals (r : kg_rand C) (u : F) (c : list F) : kg_rand C :=
  {| kr_u := u; kr_p1 := kr_p1 r; kr_p2 := kr_p2 r; kr_dl := kr_dl r; kr_blind := kr_blind r; kr_ck := kr_ck r;
     kr_cd1 := kr_cd1 r; kr_cd2 := kr_cd2 r; kr_coefs := c; kr_nonce := kr_nonce r |}.
Definition alt_ks (j : nat) (d : F) (f : nat -> list F) (ks : nat -> kg_rand C) (i : nat) : kg_rand C :=
  if (i =? j)%nat then deals (ks j) (fadd (kr_u (ks j)) d) (f 0%nat) else ks i.
Fixpoint alt_es (j : nat) (f : nat -> list F) (es : list ((nat -> F) * (nat -> kg_rand C))) : list ((nat -> F) * (nat -> kg_rand C)) :=
  match es with [] => [] | x :: es' => (fst x, fun i => if (i =? j)%nat then deals (snd x j) (kr_u (snd x j)) (f 1%nat) else snd x i) :: alt_es j (fun e => f (S e)) es' end.
Lemma alt_es_fst j es : forall f, map fst (alt_es j f es) = map fst es.
Proof. induction es as [|x es IH]; intros f; [reflexivity|]. cbn [alt_es map fst]. rewrite IH. reflexivity. Qed.
Lemma alt_es_nth j es : forall f e, nth_error (alt_es j f es) e =
  match nth_error es e with Some x => Some (fst x, fun i => if (i =? j)%nat then deals (snd x j) (kr_u (snd x j)) (f (S e)) else snd x i) | None => None end.
Proof. induction es as [|x es IH]; intros f [|e]; try reflexivity. cbn [alt_es nth_error]. exact (IH (fun e => f (S e)) e). Qed.
Lemma alt_rand j d f ks es e i : (e <= length es)%nat ->
  same_rand (rand_at ks es e i) (rand_at (alt_ks j d f ks) (alt_es j f es) e i) /\
  kr_coefs (rand_at (alt_ks j d f ks) (alt_es j f es) e i) = if (i =? j)%nat then f e else kr_coefs (rand_at ks es e i).
Proof.
  intros He. destruct e as [|e].
  - cbn [rand_at]. unfold alt_ks. destruct (Nat.eqb_spec i j) as [->|]; (split; [repeat split|reflexivity]).
  - cbn [rand_at]. rewrite alt_es_nth. destruct (nth_error es e) eqn:E; [|apply nth_error_None in E; lia]. cbn [snd].
    destruct (Nat.eqb_spec i j) as [->|]; (split; [repeat split|reflexivity]).
Qed.
Lemma alt_u j d f ks es e i : u_at (alt_ks j d f ks) (alt_es j f es) e i = if (i =? j)%nat then fadd (u_at ks es e j) d else u_at ks es e i.
Proof.
  rewrite !u_at_facs, alt_es_fst. unfold alt_ks. destruct (Nat.eqb_spec i j) as [->|]; [|reflexivity]. cbn [deals kr_u]. field.
Qed.
Lemma sum_bump (g : nat -> F) j d : (j < n)%nat -> fsum (map (fun i => if (i =? j)%nat then fadd (g j) d else g i) (seq 0 n)) = fadd (fsum (map g (seq 0 n))) d.
Proof.
  intros Hj. transitivity (fadd (fsum (map g (seq 0 n))) (fsum (map (fun i => if (i =? j)%nat then d else f0) (seq 0 n)))).
  - rewrite <- fsum_map_add. f_equal. apply map_ext. intros i. destruct (Nat.eqb_spec i j) as [->|]; [reflexivity|field].
  - f_equal. assert (G : forall m s, fsum (map (fun i => if (i =? j)%nat then d else f0) (seq s m)) = if ((s <=? j) && (j <? s + m))%nat then d else f0).
    { induction m as [|m IH]; intros s; cbn [seq map]; [change (fsum (@nil F)) with (f0 : F); destruct (Nat.leb_spec s j), (Nat.ltb_spec j (s + 0)); try reflexivity; lia|].
      change (fsum (?a :: ?l)) with (fadd a (fsum l)). rewrite IH. destruct (Nat.eqb_spec s j), (Nat.leb_spec (S s) j), (Nat.leb_spec s j), (Nat.ltb_spec j (S s + m)), (Nat.ltb_spec j (s + S m)); try lia; cbn [andb]; field. }
    rewrite G. destruct (Nat.ltb_spec j (0 + n)); [reflexivity|lia].
Qed.
Lemma alt_ok j d f ks es : (forall e, (e <= length es)%nat -> length (f e) = t) -> run_rand_ok C ck cd t n ks -> (forall fac rs, In (fac, rs) es -> run_rand_ok C ck cd t n rs) ->
  run_rand_ok C ck cd t n (alt_ks j d f ks) /\ forall fac rs, In (fac, rs) (alt_es j f es) -> run_rand_ok C ck cd t n rs.
Proof.
  intros HF H HE. split.
  - intros i Hi. unfold alt_ks. destruct (Nat.eqb_spec i j) as [->|]; [|exact (H i Hi)]. cbn [deals kr_coefs kr_ck kr_p1 kr_p2 kr_cd1 kr_cd2 kr_dl]. split; [apply HF; lia|exact (proj2 (H j Hi))].
  - intros fac rs I. apply In_nth_error in I. destruct I as (e & E). rewrite alt_es_nth in E. destruct (nth_error es e) as [[fac0 rs0]|] eqn:E0; [|discriminate].
    injection E as _ <-. assert (He : (e < length es)%nat) by (apply nth_error_Some; congruence). specialize (HE fac0 rs0 (nth_error_In _ _ E0)). cbn [snd]. intros i Hi.
    destruct (Nat.eqb_spec i j) as [->|]; [|exact (HE i Hi)]. cbn [deals kr_coefs kr_ck kr_p1 kr_p2 kr_cd1 kr_cd2 kr_dl]. split; [apply HF; lia|exact (proj2 (HE j Hi))].
Qed.
Lemma view_u ks es ks' es' e i : map fst es' = map fst es -> (i < n)%nat -> (e <= length es)%nat ->
  run_rand_ok C ck cd t n ks -> (forall fac rs, In (fac, rs) es -> run_rand_ok C ck cd t n rs) -> run_rand_ok C ck cd t n ks' -> (forall fac rs, In (fac, rs) es' -> run_rand_ok C ck cd t n rs) ->
  same_view Hb Hf ck cd t n ks es ks' es' e i -> kr_u (ks i) = kr_u (ks' i).
Proof.
  intros HM Hi He H HE H' HE' ((st & keys & st' & keys' & L & L' & _ & V) & _ & _). assert (He' : (e <= length es')%nat) by (rewrite <- (map_length fst), HM, map_length; exact He).
  rewrite (life_eff es e ks He H HE) in L. rewrite (life_eff es' e ks' He' H' HE') in L'. apply ok_inj in L. apply ok_inj in L'. assert (E1 := f_equal fst L). assert (E2 := f_equal fst L'). cbn [fst] in E1, E2. rewrite E1, E2 in V.
  rewrite !(st_of_nth C t n _ i Hi) in V. apply (f_equal (fun o => match o with Some p => pr_u p | None => f0 end)) in V. cbn [pr_u] in V. unfold eff in V. cbn [kr_u] in V. rewrite !u_at_facs, HM in V.
  transitivity (fsub (fadd (kr_u (ks i)) (fsum (map (fun f => f i) (firstn e (map fst es))))) (fsum (map (fun f => f i) (firstn e (map fst es))))); [field|]. rewrite V. field.
Qed.
End Proofs.

(** What party i holds after run e: its u_i, the sum of the shares dealt to it, and the primes it sampled for this run. *)
Theorem C113_party_state : forall (C : Curve) Hb (Hf : hashF C) ck cd t n ks es e,
  (t < n)%nat -> run_rand_ok C ck cd t n ks -> (forall fac rs, In (fac, rs) es -> run_rand_ok C ck cd t n rs) -> (e <= length es)%nat ->
  exists st keys, life C Hb Hf ck cd t n ks (firstn e es) = Ok (st, keys) /\ length st = n /\
  forall i, (i < n)%nat -> nth_error st i = Some {| pr_u := u_at ks es e i; pr_x := fsum (map (fun j => dealt_to ks es e j i) (seq 0 n));
    pr_p1 := kr_p1 (rand_at ks es e i); pr_p2 := kr_p2 (rand_at ks es e i) |}.
Proof.
  intros C Hb Hf ck cd t n ks es e Htn H HE He. eexists _, _. split; [exact (life_eff C Hb Hf ck cd t n Htn es e ks He H HE)|].
  split; [rewrite <- (map_length pr_u), st_of_u, map_length, seq_length; reflexivity|]. intros i Hi. rewrite (st_of_nth C t n _ i Hi). reflexivity.
Qed.
Print Assumptions C113_party_state.

(** At most t parties corrupted in every run: what they know together is compatible with every key exactly if some party is corrupted in
    no run at all. *)
Theorem C113_key_hidden_iff : forall (C : Curve) Hb (Hf : hashF C) ck cd t n ks es (A : nat -> list nat),
  (t < n)%nat -> Z.of_nat n < cq C -> run_rand_ok C ck cd t n ks -> (forall fac rs, In (fac, rs) es -> run_rand_ok C ck cd t n rs) ->
  (forall e, (e <= length es)%nat -> NoDup (A e) /\ (forall i, In i (A e) -> (i < n)%nat) /\ (length (A e) <= t)%nat) ->
  ((forall x, exists ks' es', like ck cd t n ks es ks' es' /\ key_of n ks' = x /\
      forall e i, (e <= length es)%nat -> In i (A e) -> same_view Hb Hf ck cd t n ks es ks' es' e i)
   <-> exists j, (j < n)%nat /\ forall e, (e <= length es)%nat -> ~ In j (A e)).
Proof.
  intros C Hb Hf ck cd t n ks es A Htn Hq H HE HA. split.
  - intros X. destruct (X (fadd (key_of n ks) f1)) as (ks' & es' & (L1 & L2 & L3 & _) & K & V).
    destruct (existsb (fun j => negb (existsb (fun e => existsb (Nat.eqb j) (A e)) (seq 0 (S (length es))))) (seq 0 n)) eqn:E.
    + apply existsb_exists in E. destruct E as (j & I & E). apply in_seq in I. exists j. split; [lia|]. intros e He J. apply negb_true_iff in E.
      assert (T : existsb (fun e => existsb (Nat.eqb j) (A e)) (seq 0 (S (length es))) = true).
      { apply existsb_exists. exists e. split; [apply in_seq; lia|]. apply existsb_exists. exists j. split; [exact J|apply Nat.eqb_refl]. }
      rewrite T in E. discriminate.
    + exfalso. assert (U : forall i, (i < n)%nat -> kr_u (ks i) = kr_u (ks' i)).
      { intros i Hi. assert (B : existsb (fun e => existsb (Nat.eqb i) (A e)) (seq 0 (S (length es))) = true).
        { destruct (existsb (fun e => existsb (Nat.eqb i) (A e)) (seq 0 (S (length es)))) eqn:B; [reflexivity|]. exfalso.
          assert (T : existsb (fun j => negb (existsb (fun e => existsb (Nat.eqb j) (A e)) (seq 0 (S (length es))))) (seq 0 n) = true).
          { apply existsb_exists. exists i. split; [apply in_seq; lia|]. rewrite B. reflexivity. } congruence. }
        apply existsb_exists in B. destruct B as (e & Ie & B). apply in_seq in Ie. apply existsb_exists in B. destruct B as (k & Ik & B). apply Nat.eqb_eq in B. subst k.
        apply (view_u C Hb Hf ck cd t n Htn ks es ks' es' e i); try assumption; try lia. apply V; [lia|exact Ik]. }
      assert (KE : key_of n ks' = key_of n ks). { unfold key_of. f_equal. apply map_ext_in. intros i I. apply in_seq in I. symmetry. apply U. lia. }
      rewrite KE in K. rewrite <- (add_0_r C (key_of n ks)) in K at 1. apply add_cancel in K. symmetry in K. revert K. apply f1_neq_f0, cq_prime.
  - intros (j & Hj & NJ) x. set (d := fsub x (key_of n ks)).
    destruct (choices t n Htn (fun e c => length c = t /\ forall i, In i (A e) -> peval (fadd (u_at ks es e j) d :: c) (fidx (S i)) = peval (u_at ks es e j :: kr_coefs (rand_at ks es e j)) (fidx (S i))) [] (length es)) as (f & HF).
    { intros e He. destruct (HA e He) as (A1 & A2 & A3). apply (other_poly C _ _ _ (A e) t n); try assumption. apply (eff_ok C ck cd t n Htn ks es e He H HE j Hj). }
    exists (alt_ks C j d f ks), (alt_es C j f es). destruct (alt_ok C ck cd t n Htn j d f ks es (fun e He => proj1 (HF e He)) H HE) as [O1 O2]. split; [|split].
    + split; [exact O1|]. split; [exact O2|]. split; [apply alt_es_fst|]. split; [intros i Hi; exact (proj1 (alt_rand C t n Htn j d f ks es 0 i (Nat.le_0_l _)))|].
      intros e i He Hi. exact (proj1 (alt_rand C t n Htn j d f ks es e i He)).
    + unfold key_of. transitivity (fsum (map (fun i => if (i =? j)%nat then fadd (kr_u (ks j)) d else kr_u (ks i)) (seq 0 n))).
      { f_equal. apply map_ext. intros i. unfold alt_ks. destruct (i =? j)%nat; reflexivity. }
      rewrite (sum_bump C t n Htn (fun i => kr_u (ks i)) j d Hj). unfold d. fold (key_of n ks). apply (sub_add113 C).
    + intros e i He Ii. destruct (HA e He) as (_ & A2 & _). assert (Hi := A2 i Ii). assert (Nij : i <> j) by (intros ->; exact (NJ e He Ii)).
      assert (DT : forall k, dealt_to ks es e k i = dealt_to (alt_ks C j d f ks) (alt_es C j f es) e k i).
      { intros k. unfold dealt_to. rewrite (alt_u C j d f ks es e k), (proj2 (alt_rand C t n Htn j d f ks es e k He)). destruct (Nat.eqb_spec k j) as [->|]; [|reflexivity].
        symmetry. exact (proj2 (HF e He) i Ii). }
      destruct (alt_rand C t n Htn j d f ks es e i He) as [R1 R2]. assert (U := alt_u C j d f ks es e i). apply Nat.eqb_neq in Nij. rewrite Nij in R2, U.
      split; [|split; [symmetry; exact R2|intros k _; apply DT]].
      assert (LE : length (alt_es C j f es) = length es) by (rewrite <- (map_length fst), alt_es_fst, map_length; reflexivity).
      destruct (C113_party_state C Hb Hf ck cd t n ks es e Htn H HE He) as (st & keys & S1 & _ & S2).
      destruct (C113_party_state C Hb Hf ck cd t n (alt_ks C j d f ks) (alt_es C j f es) e Htn O1 O2 ltac:(lia)) as (st' & keys' & S1' & _ & S2').
      exists st, keys, st', keys'. split; [exact S1|]. split; [exact S1'|]. rewrite (S2 i Hi), (S2' i Hi). split; [discriminate|]. rewrite U.
      destruct R1 as (-> & -> & _). do 2 f_equal. f_equal. apply map_ext. intros k. apply DT.
Qed.
Print Assumptions C113_key_hidden_iff.

(** In particular t parties of one run know nothing about the key from their shares. *)
Theorem C113_one_run_hides_key : forall (C : Curve) Hb (Hf : hashF C) ck cd t n ks (A : list nat) x,
  (t < n)%nat -> Z.of_nat n < cq C -> run_rand_ok C ck cd t n ks -> NoDup A -> (forall i, In i A -> (i < n)%nat) -> (length A <= t)%nat ->
  exists ks', run_rand_ok C ck cd t n ks' /\ (forall i, (i < n)%nat -> same_rand (ks i) (ks' i)) /\
  exists keys keys', kg_run C Hb Hf ck cd t n ks = Ok keys /\ kg_run C Hb Hf ck cd t n ks' = Ok keys' /\
  (forall lk, In lk keys' -> lk_y lk = smul x gen) /\
  forall i, In i A -> kr_u (ks i) = kr_u (ks' i) /\ kr_coefs (ks i) = kr_coefs (ks' i) /\
    (forall j, (j < n)%nat -> peval (kr_u (ks j) :: kr_coefs (ks j)) (fidx (S i)) = peval (kr_u (ks' j) :: kr_coefs (ks' j)) (fidx (S i))) /\
    exists lk lk', nth_error keys i = Some lk /\ nth_error keys' i = Some lk' /\ sk_x (lk_shared lk) = sk_x (lk_shared lk').
Proof.
  intros C Hb Hf ck cd t n ks A x Htn Hq H Hnd Hin Hl.
  assert (exists j, (j < n)%nat /\ ~ In j A) as (j & Hj & Nj).
  { destruct (pad A t n Htn Hnd Hin Hl) as (l & L1 & L2 & L3 & L4). destruct (existsb (fun j => negb (existsb (Nat.eqb j) A)) (seq 0 n)) eqn:E.
    - apply existsb_exists in E. destruct E as (j & I & E). apply in_seq in I. exists j. split; [lia|]. intros J. apply negb_true_iff in E.
      assert (T : existsb (Nat.eqb j) A = true) by (apply existsb_exists; exists j; split; [exact J|apply Nat.eqb_refl]). congruence.
    - exfalso. assert (I : incl (seq 0 n) A).
      { intros j J. destruct (existsb (Nat.eqb j) A) eqn:B; [apply existsb_exists in B; destruct B as (k & K & B); apply Nat.eqb_eq in B; subst k; exact K|].
        assert (T : existsb (fun j => negb (existsb (Nat.eqb j) A)) (seq 0 n) = true) by (apply existsb_exists; exists j; split; [exact J|rewrite B; reflexivity]). congruence. }
      apply (NoDup_incl_length (seq_NoDup n 0)) in I. rewrite seq_length in I. lia. }
  destruct (proj2 (C113_key_hidden_iff C Hb Hf ck cd t n ks [] (fun _ => A) Htn Hq H ltac:(intros ? ? []) ltac:(auto))) with (x := x) as (ks' & es' & (O1 & _ & O3 & O4 & _) & K & V);
    [exists j; auto|].
  destruct es' as [|a es']; [|discriminate]. exists ks'. split; [exact O1|]. split; [exact O4|]. eexists _, _.
  split; [exact (run_honest C Hb Hf ck cd t n Htn ks H)|]. split; [exact (run_honest C Hb Hf ck cd t n Htn ks' O1)|]. split.
  - intros lk I. apply in_map_iff in I. destruct I as (i & <- & _). cbn [h_lk lk_y]. rewrite psum_smul_map. unfold key_of in K. rewrite K. reflexivity.
  - intros i Ii. assert (Hi := Hin i Ii). specialize (V 0%nat i (le_n _) Ii). assert (U := view_u C Hb Hf ck cd t n Htn ks [] ks' [] 0 i eq_refl Hi (le_n _) H ltac:(intros ? ? []) O1 ltac:(intros ? ? []) V).
    destruct V as (_ & V2 & V3). split; [exact U|]. split; [exact V2|].
    assert (V4 : forall k, (k < n)%nat -> peval (kr_u (ks k) :: kr_coefs (ks k)) (fidx (S i)) = peval (kr_u (ks' k) :: kr_coefs (ks' k)) (fidx (S i))).
    { intros k Hk. specialize (V3 k Hk). unfold dealt_to, u_at in V3. cbn [rand_at firstn map] in V3. change (fsum (@nil (Fq (cq C)))) with (f0 : Fq (cq C)) in V3. rewrite !(add_0_r C) in V3. exact V3. }
    split; [exact V4|]. exists (h_lk C t n ks i), (h_lk C t n ks' i). rewrite !nth_error_map, !(nth_error_nth' _ 0%nat) by (rewrite seq_length; exact Hi). rewrite seq_nth by exact Hi.
    split; [reflexivity|]. split; [reflexivity|]. cbn [h_lk lk_shared sk_x]. unfold h_x. f_equal. apply map_ext_in. intros k Ik. apply in_seq in Ik. apply V4. lia.
Qed.
Print Assumptions C113_one_run_hides_key.

(** Repeating key generation does not protect against corruptions that move: with n <= 2t, t parties of the first run and n-t <= t others
    after one repetition fix the key, because refresh_private_key keeps u_i (up to the factor) instead of renewing it. *)
Theorem C113_t_per_run_hide_key_refuted : forall (C : Curve) Hb (Hf : hashF C) ck cd t n ks fac rs,
  (t < n)%nat -> (n <= 2 * t)%nat -> run_rand_ok C ck cd t n ks -> run_rand_ok C ck cd t n rs ->
  exists A0 A1 : list nat, NoDup A0 /\ NoDup A1 /\ (length A0 <= t)%nat /\ (length A1 <= t)%nat /\ (forall i, In i A0 \/ In i A1 -> (i < n)%nat) /\
  forall ks' es', like ck cd t n ks [(fac, rs)] ks' es' ->
    (forall i, In i A0 -> same_view Hb Hf ck cd t n ks [(fac, rs)] ks' es' 0 i) -> (forall i, In i A1 -> same_view Hb Hf ck cd t n ks [(fac, rs)] ks' es' 1 i) ->
    key_of n ks' = key_of n ks.
Proof.
  intros C Hb Hf ck cd t n ks fac rs Htn Hn H HR. exists (seq 0 t), (seq t (n - t)). split; [apply seq_NoDup|]. split; [apply seq_NoDup|]. rewrite !seq_length.
  split; [lia|]. split; [lia|]. split; [intros i [I|I]; apply in_seq in I; lia|]. intros ks' es' (O1 & O2 & O3 & _) V0 V1.
  assert (HE : forall f r, In (f, r) [(fac, rs)] -> run_rand_ok C ck cd t n r) by (intros f r [E|[]]; injection E as _ <-; exact HR).
  unfold key_of. f_equal. apply map_ext_in. intros i I. apply in_seq in I. symmetry. destruct (Nat.lt_ge_cases i t) as [L|L].
  - apply (view_u C Hb Hf ck cd t n Htn ks [(fac, rs)] ks' es' 0 i); try assumption; cbn [length]; try lia. apply V0, in_seq. lia.
  - apply (view_u C Hb Hf ck cd t n Htn ks [(fac, rs)] ks' es' 1 i); try assumption; cbn [length]; try lia. apply V1, in_seq. lia.
Qed.
Print Assumptions C113_t_per_run_hide_key_refuted.

(** Examples: three parties, threshold 1 (C110_example), party 1 corrupted in the first run and party 2 after the repetition.  With another
    polynomial of party 3 in both runs the key is 14 instead of 13, and both still hold the same. *)
Definition ex_alt (i : nat) : kg_rand toy := nth i [exrs 0; exrs 1; deals toy (exrs 2) (fadd (kr_u (exrs 2)) (tz 1)) (map (fun a => fadd a (tz 30)) (kr_coefs (exrs 2)))] (exrs 0).
Definition ex_altb (i : nat) : kg_rand toy := nth i [exrs_b 0; exrs_b 1; deals toy (exrs_b 2) (kr_u (exrs_b 2)) [tz 14]] (exrs_b 0).
Definition ex_hold (ks : nat -> kg_rand toy) es i : option (Z * Z * list Z) :=
  match life toy exHb exHf3 (fun _ _ => true) (fun _ _ => Ok true) 1 3 ks es with
  | Ok (st, lks) => option_map (fun p => (to_Z (pr_u p), to_Z (pr_x p), map (fun j => to_Z (dealt_to ks es (length es) j i)) (seq 0 3))) (nth_error st i) | _ => None end.
Definition ex_key (ks : nat -> kg_rand toy) es : list Z :=
  match life toy exHb exHf3 (fun _ _ => true) (fun _ _ => Ok true) 1 3 ks es with Ok (_, lks) => map (fun lk : local_key toy => to_Z (lk_y lk : Fq 31)) lks | _ => [] end.
Example C113_example :
  ex_key exrs [(ex_fac 1 2 28, exrs_b)] = [13; 13; 13] /\ ex_key ex_alt [(ex_fac 1 2 28, ex_altb)] = [14; 14; 14] /\
  ex_hold exrs [] 0 <> None /\ ex_hold exrs [] 0 = ex_hold ex_alt [] 0 /\
  ex_hold exrs [(ex_fac 1 2 28, exrs_b)] 1 <> None /\ ex_hold exrs [(ex_fac 1 2 28, exrs_b)] 1 = ex_hold ex_alt [(ex_fac 1 2 28, ex_altb)] 1.
Proof. repeat split; vm_compute; try discriminate; reflexivity. Qed.
(** Hypotheses on secp256k1, with threshold 1 and with threshold 2 (refuted claim), three parties *)
Example C113_example_hypotheses : exists ck cd (ks ks2 : nat -> kg_rand secp256k1), run_rand_ok secp256k1 ck cd 1 3 ks /\ run_rand_ok secp256k1 ck cd 2 3 ks2.
Proof.
  destruct C110_example_hypotheses as (ck & cd & ks & H). exists ck, cd, ks, (fun i => deals secp256k1 (ks i) f1 [f1; f0]). split; [exact H|].
  intros i Hi. split; [reflexivity|]. exact (proj2 (H i Hi)).
Qed.

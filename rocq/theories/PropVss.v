(** Properties C17-C19: Feldman verifiable secret sharing. *)
From Coq Require Import ZArith Lia Bool List.
From Verif Require Import ZArithX Fq Curve Outcome Vss Toy VssProofs.
Import ListNotations.
Local Open Scope Z_scope.

(** Indices must be distinct modulo q; on secp256k1 q exceeds every 16-bit share
    count. *)

(** * C17 *)
Theorem C17_share_validates :
  forall (C : Curve) (t n : nat) (coefs : list (Fq (cq C))) v shares i s,
  coefs <> [] ->
  vss_share (E := unit) t n coefs = Ok (v, shares) ->
  nth_error shares i = Some s ->
  validate_share v s (i + 1) = Ok tt.
Proof.
  intros C t n coefs v shares i s Hne Hsh Hs.
  apply vss_share_ok in Hsh. destruct Hsh as (Ht & _ & Hn & Hc & ->).
  assert (Hi : (i < n)%nat).
  { assert (nth_error (map (fun i => peval coefs (fidx i)) (seq 1 n)) i <> None) as K by congruence.
    apply nth_error_Some in K. rewrite map_length, seq_length in K. exact K. }
  rewrite nth_error_seq_map in Hs by exact Hi. injection Hs as <-.
  apply validate_share_spec.
  - rewrite Hc. destruct coefs; [contradiction|discriminate].
  - rewrite Hc, dlog_map_smul. rewrite Nat.add_1_r. reflexivity.
Qed.
Print Assumptions C17_share_validates.

Theorem C17_reconstruct :
  forall (C : Curve) (t n : nat) (secret : Fq (cq C)) (rest : list (Fq (cq C))) v shares indices,
  length rest = t -> Z.of_nat n < cq C ->
  vss_share (E := unit) t n (secret :: rest) = Ok (v, shares) ->
  NoDup indices -> (forall i, In i indices -> (i < n)%nat) -> (t < length indices)%nat ->
  vss_reconstruct (E := unit) v indices (map (fun i => nth i shares f0) indices) = Ok secret.
Proof.
  intros C t n secret rest v shares indices Hr Hnq Hsh Hnd Hb Hlen.
  apply vss_share_ok in Hsh. destruct Hsh as (Ht & Hvt & Hn & Hc & ->).
  unfold vss_reconstruct. rewrite map_length, Nat.eqb_refl. cbn [oassert obind].
  rewrite Hvt. rewrite (proj2 (Nat.leb_le (t + 1) (length indices)) ltac:(lia)). cbn [oassert obind].
  assert (E : map (fun i => nth i (map (fun i => peval (secret :: rest) (fidx i)) (seq 1 n)) f0) indices =
              map (peval (secret :: rest)) (map (fun i => fidx (i + 1)) indices)).
  { rewrite map_map. apply map_ext_in. intros i Hi. specialize (Hb i Hi).
    rewrite (nth_indep _ f0 (peval (secret :: rest) (fidx 0))) by (rewrite map_length, seq_length; lia).
    rewrite (map_nth (fun i => peval (secret :: rest) (fidx i))), seq_nth by lia.
    rewrite Nat.add_1_r. reflexivity. }
  rewrite E. rewrite lagrange_at_zero_spec; [reflexivity| | |].
  - apply (NoDup_fidx C n); assumption.
  - destruct indices; [cbn in Hlen; lia|discriminate].
  - rewrite map_length. cbn. lia.
Qed.
Print Assumptions C17_reconstruct.

Definition ex_poly : list (Fq (cq toy)) := [tz 5; tz 3; tz 8].
Definition ex_vss : vss toy := {| vs_t := 2; vs_n := 5; vs_com := map (fun c => smul c gen) ex_poly |}.
Definition ex_shares : list (Fq (cq toy)) := map (fun i => peval ex_poly (fidx i)) (seq 1 5).
Example C17_example :
  vss_share (E := unit) 2 5 ex_poly = Ok (ex_vss, ex_shares) /\
  map to_Z ex_shares = [16; 12; 24; 21; 3] /\
  match vss_reconstruct (E := unit) ex_vss [4; 0; 2]%nat (map (fun i => nth i ex_shares f0) [4; 0; 2]%nat) with
  | Ok s => to_Z s = 5 | _ => False end /\
  validate_share ex_vss (tz 24) 3 = Ok tt /\ validate_share ex_vss (tz 25) 3 = Err tt.
Proof. refine (conj eq_refl _). repeat apply conj; vm_compute; reflexivity. Qed.

(** * C18 *)
(** For distinct non-zero evaluation points, t share values and any candidate
    secret there is exactly one polynomial of degree at most t. *)
Theorem C18_secrecy :
  forall (C : Curve) (indices : list nat) (shares : list (Fq (cq C))) (secret : Fq (cq C)),
  NoDup indices -> (forall i, In i indices -> (0 < i)%nat /\ Z.of_nat i < cq C) ->
  length indices = length shares ->
  exists rest,
    (length rest = length indices /\
     map (fun i => peval (secret :: rest) (fidx i)) indices = shares) /\
    forall rest', length rest' = length indices ->
      map (fun i => peval (secret :: rest') (fidx i)) indices = shares -> rest' = rest.
Proof.
  intros C indices shares secret Hnd Hb Hl.
  assert (Hnd' : NoDup (f0 :: map (fun i => fidx (C := C) i) indices)).
  { constructor.
    - intros Hin. apply in_map_iff in Hin. destruct Hin as (i & E & Hi).
      destruct (Hb i Hi). revert E. apply fidx_nz; assumption.
    - clear Hl. induction indices as [|x l IH]; cbn; constructor.
      + intros Hin. apply in_map_iff in Hin. destruct Hin as (i & E & Hi).
        inversion Hnd; subst. apply fidx_inj in E; [subst; contradiction| |].
        * apply Hb; right; assumption.
        * apply Hb; left; reflexivity.
      + inversion Hnd; subst. apply IH; [assumption|]. intros i Hi. apply Hb. right; assumption. }
  destruct (interp_unique C (f0 :: map (fun i => fidx i) indices) (secret :: shares) Hnd')
    as (cs & (Hlen & HE) & Huniq); [discriminate|cbn; rewrite map_length; lia|].
  cbn [map length] in *. rewrite map_length in *. injection HE as H0 HE.
  destruct cs as [|c rest]; [discriminate|].
  rewrite peval_at_0 in H0. cbn [hd] in H0. subst c.
  exists rest. split; [split; [cbn in Hlen; lia|]|].
  - rewrite <- HE, map_map. reflexivity.
  - intros rest' Hl' E. assert (secret :: rest' = secret :: rest) as K.
    { apply Huniq; [cbn; lia|]. f_equal; [rewrite peval_at_0; reflexivity|]. rewrite map_map. exact E. }
    injection K as K. exact K.
Qed.
Print Assumptions C18_secrecy.
(** The same for what the dealer actually sends: whatever polynomial was shared and whatever t positions are seen,
    every other secret is dealt with the same values at these positions by exactly one choice of coefficients. *)
Theorem C18_shares_hide_secret :
  forall (C : Curve) (t n : nat) (secret secret' : Fq (cq C)) (rest : list (Fq (cq C))) v shares (seen : list nat),
  length rest = t -> Z.of_nat n < cq C -> vss_share (E := unit) t n (secret :: rest) = Ok (v, shares) ->
  NoDup seen -> (forall i, In i seen -> (i < n)%nat) -> length seen = t ->
  exists rest', (length rest' = t /\ exists v' shares', vss_share (E := unit) t n (secret' :: rest') = Ok (v', shares') /\
      forall i, In i seen -> nth_error shares' i = nth_error shares i) /\
    forall rest2 v2 shares2, length rest2 = t -> vss_share (E := unit) t n (secret' :: rest2) = Ok (v2, shares2) ->
      (forall i, In i seen -> nth_error shares2 i = nth_error shares i) -> rest2 = rest'.
Proof.
  intros C t n secret secret' rest v shares seen Hr Hq HS Hnd Hin Hlen.
  assert (Htn : (t < n)%nat).
  { unfold vss_share in HS. destruct (Nat.ltb_spec t n); [assumption|discriminate]. }
  assert (Hout : forall cs v0 sh0, vss_share (E := unit) (C := C) t n cs = Ok (v0, sh0) ->
     forall i, (i < n)%nat -> nth_error sh0 i = Some (peval cs (fidx (S i)))).
  { intros cs v0 sh0 H0 i Hi. unfold vss_share in H0. rewrite (proj2 (Nat.ltb_lt t n) Htn) in H0. cbn [oassert obind] in H0.
    apply ok_inj in H0. assert (E2 : sh0 = map (fun i => peval cs (fidx i)) (seq 1 n)) by congruence. subst sh0.
    rewrite nth_error_map, (nth_error_nth' _ 0%nat) by (rewrite seq_length; lia). rewrite seq_nth by lia. reflexivity. }
  destruct (C18_secrecy C (map S seen) (map (fun i => peval (secret :: rest) (fidx (S i))) seen) secret') as (rest' & (L1 & E1) & U).
  - apply FinFun.Injective_map_NoDup; [intros a b; lia|assumption].
  - intros i Hi. apply in_map_iff in Hi. destruct Hi as (j & <- & Hj). specialize (Hin j Hj). lia.
  - rewrite !map_length. reflexivity.
  - rewrite map_length in L1, U. rewrite map_map in E1. exists rest'. split; [split; [lia|]|].
    + assert (exists v' shares', vss_share (E := unit) t n (secret' :: rest') = Ok (v', shares')) as (v' & shares' & HS').
      { unfold vss_share. rewrite (proj2 (Nat.ltb_lt t n) Htn). cbn [oassert obind]. eauto. }
      exists v', shares'. split; [exact HS'|]. intros i Hi.
      rewrite (Hout _ _ _ HS' i) by (apply Hin; assumption). rewrite (Hout _ _ _ HS i) by (apply Hin; assumption). f_equal.
      exact (ext_in_map E1 i Hi).
    + intros rest2 v2 shares2 L2 HS2 H2. apply U; [lia|]. rewrite map_map. apply map_ext_in. intros i Hi.
      specialize (H2 i Hi). rewrite (Hout _ _ _ HS2 i), (Hout _ _ _ HS i) in H2 by (apply Hin; assumption). congruence.
Qed.
Print Assumptions C18_shares_hide_secret.
(** Two candidate secrets (5 and 6) are consistent with the same two shares. *)
Example C18_example :
  map (fun i => to_Z (peval [tz 5; tz 3; tz 8] (fidx i : Fq (cq toy)))) [1; 3]%nat = [16; 24] /\
  map (fun i => to_Z (peval [tz 6; tz 12; tz 29] (fidx i : Fq (cq toy)))) [1; 3]%nat = [16; 24].
Proof. split; vm_compute; reflexivity. Qed.

(** * C19 *)
Theorem C19_validate_share_exact :
  forall (C : Curve) (v : vss C) (s : Fq (cq C)) (i : nat), vs_com v <> [] ->
  (validate_share v s i = Ok tt <-> s = peval (map dlog (vs_com v)) (fidx i)) /\
  (validate_share v s i = Ok tt \/ validate_share v s i = Err tt).
Proof. exact validate_share_spec. Qed.
Print Assumptions C19_validate_share_exact.

(** The check in terms of public values only. *)
Theorem C19_validate_share_public :
  forall (C : Curve) (v : vss C) (P : pt C) (i : nat), vs_com v <> [] ->
  (validate_share_public v P i = Ok tt <-> P = smul (peval (map dlog (vs_com v)) (fidx i)) gen).
Proof.
  intros C v P i Hne. unfold validate_share_public. rewrite point_commitment_spec.
  destruct (vs_com v) as [|Q l]; [contradiction|]. cbn [obind].
  destruct (pt_eqb_spec C P (smul (peval (map dlog (Q :: l)) (fidx i)) gen)); split; congruence.
Qed.
Print Assumptions C19_validate_share_public.

Theorem C19_accepted_shares_reconstruct :
  forall (C : Curve) (v : vss C) (Q : pt C) (com : list (pt C)) (indices : list nat) (shares : list (Fq (cq C))),
  vs_com v = Q :: com -> length com = vs_t v ->
  NoDup indices -> (forall i, In i indices -> Z.of_nat (i + 1) < cq C) ->
  (vs_t v < length indices)%nat ->
  Forall2 (fun i s => validate_share v s (i + 1) = Ok tt) indices shares ->
  exists secret, vss_reconstruct (E := unit) v indices shares = Ok secret /\ smul secret gen = Q.
Proof.
  intros C v Q com indices shares Hc Hlen Hnd Hb Hgt HF.
  set (cs := map dlog (vs_com v)).
  assert (Hsh : shares = map (peval cs) (map (fun i => fidx (i + 1)) indices)).
  { clear Hnd Hgt Hb. induction HF as [|i s li ls H HF IH]; cbn; [reflexivity|].
    f_equal; [|exact IH]. apply validate_share_spec in H; [exact H|]. rewrite Hc. discriminate. }
  assert (Hl : length shares = length indices) by (rewrite Hsh, !map_length; reflexivity).
  exists (dlog Q). split.
  - unfold vss_reconstruct. rewrite Hl, Nat.eqb_refl. cbn [oassert obind].
    rewrite (proj2 (Nat.leb_le (vs_t v + 1) (length indices)) ltac:(lia)). cbn [oassert obind].
    rewrite Hsh, lagrange_at_zero_spec.
    + unfold cs. rewrite Hc. reflexivity.
    + clear - Hnd Hb. induction indices as [|x l IH]; cbn; constructor.
      * intros Hin. apply in_map_iff in Hin. destruct Hin as (i & E & Hi). inversion Hnd; subst.
        apply fidx_inj in E; [|apply Hb; right; assumption|apply Hb; left; reflexivity].
        assert (i = x) by lia. subst; contradiction.
      * inversion Hnd; subst. apply IH; [assumption|]. intros i Hi. apply Hb; right; assumption.
    + destruct indices; [cbn in Hgt; lia|discriminate].
    + unfold cs. rewrite !map_length, Hc. cbn. lia.
  - symmetry. apply pt_is_mul.
Qed.
Print Assumptions C19_accepted_shares_reconstruct.
Example C19_example :
  Forall2 (fun i s => validate_share ex_vss s (i + 1) = Ok tt) [4; 0; 2]%nat [tz 3; tz 16; tz 24].
Proof. repeat constructor; vm_compute; reflexivity. Qed.

(** [get_point_commitment] of an empty commitment vector panics, so does share
    validation (used for C27). *)
Theorem C27_empty_vss_panics : forall (C : Curve) (v : vss C) (s : Fq (cq C)) (i : nat),
  validate_share v s i = Panic <-> vs_com v = [].
Proof. exact validate_share_panic. Qed.
Print Assumptions C27_empty_vss_panics.

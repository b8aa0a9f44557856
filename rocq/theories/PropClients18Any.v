(** C100, C101: GG18 clients whatever the server holds and others store in it. *)
From Coq Require Import String Ascii ZArith NArith Bool Lia List.
From Verif Require Import ZArithX Fq Curve Toy Outcome Sigma Bytes Vss VssProofs KeygenExtra SignRunProofs Gg18RunProofs Ecdsa Mp Mta Gg20Keygen Gg18Keygen KeygenRun KeygenProofs Gg20Sign Gg18Sign Gg18SignProofs
  Manager18 Manager18Proofs Clients18 Clients18Proofs Clients18Prog Clients18Rounds Clients18KgProofs Clients18SgProofs Clients18Ends PropKeygen PropSign18 PropManager18 PropClients18.
Import ListNotations.
Local Open Scope nat_scope.

(** * C100 *)
(** A signature that a client writes is valid for the key of its file and its message, with low s, whatever files the other clients
    have, whatever the server holds at the start and whatever others store in it under any key. *)
Theorem C100_written_signature_valid :
  forall (C : Curve) Hb (Hz : hashZ C) (Hf : hashF C) j_id j_1 j_mb j_F j_dg j_com j_5a j_5d
    oc ser par uuid (s : server) (clients : list (nat * nat * string * file18 C * rand18 C * Z)) l c m me u f r msg sig,
  nth_error clients c = Some (m, me, u, f, r, msg) ->
  nth_error (y_cl (exec18 oc ser par uuid
    {| y_sv := s; y_cl := map (fun '(m, me, u, f, r, msg) => sign18_main C Hb Hz Hf j_id j_1 j_mb j_F j_dg j_com j_5a j_5d m me u f r msg) clients |} l)) c = Some (Done sig) ->
  (Z.abs msg < 2 ^ 256)%Z /\ f18_y f <> pzero /\ (to_Z (sg_s sig) <= cq C / 2)%Z /\ ecdsa_valid (f18_y f) msg (to_Z (sg_r sig)) (to_Z (sg_s sig)).
Proof.
  intros C Hb Hz Hf j_id j_1 j_mb j_F j_dg j_com j_5a j_5d oc ser par uuid s clients l c m me u f r msg sig EC.
  set (P := fun c (sig : sig_recid C) => forall m me u f r msg, nth_error clients c = Some (m, me, u, f, r, msg) ->
    (Z.abs msg < 2 ^ 256)%Z /\ f18_y f <> pzero /\ (to_Z (sg_s sig) <= cq C / 2)%Z /\ ecdsa_valid (f18_y f) msg (to_Z (sg_r sig)) (to_Z (sg_s sig))).
  intros E. apply (ends_done oc ser par uuid P) in E; [apply (E _ _ _ _ _ _ EC)|]. clear. intros c p E. cbn [y_cl] in E. rewrite nth_error_map in E.
  destruct (nth_error clients c) as [[[[[[m me] u] f] r] msg]|] eqn:EC; [|discriminate]. cbn [option_map] in E. injection E as <-.
  unfold sign18_main, sign18_client.
  repeat first [apply ends_exchange; intros ?|apply ends_p2p; intros ?|apply ends_need; intros ? ?|
    match goal with |- ends _ (let (_, _) := ?x in _) => destruct x end].
  apply en_done. intros m' me' u' f' r' msg' EC'. rewrite EC in EC'. injection EC' as -> -> -> -> -> ->.
  match goal with H : check_sig _ _ _ _ _ = Ok ?x |- _ => destruct x; apply check_sig_ok in H; destruct H as (B1 & B2 & B3 & B4) end.
  apply to_bytes_short in B1. change (256 ^ Z.of_nat 32)%Z with (2 ^ 256)%Z in B1. cbn [party_of p18_y] in *. auto.
Qed.
Print Assumptions C100_written_signature_valid.

(** The same for key files: there are n commitment vectors and Paillier keys, the client's own among them; the key is the sum of
    the committed constant terms and the share is the value at the client's number of the sum of the committed polynomials; every
    Paillier key came with a proof that verifies. *)
Theorem C100_written_key_file_consistent :
  forall (C : Curve) Hb (Hf : hashF C) ck aenc adec j_bc j_dec j_aead j_vss j_dlog
    oc ser par uuid (s : server) (clients : list (nat * nat * nat * string * kg18_rand C * (nat -> list Z))) l c t n me u r nonces f,
  nth_error clients c = Some (t, n, me, u, r, nonces) ->
  nth_error (y_cl (exec18 oc ser par uuid
    {| y_sv := s; y_cl := map (fun '(t, n, me, u, r, nonces) => keygen18_client C Hb Hf ck aenc adec j_bc j_dec j_aead j_vss j_dlog t n me u r nonces) clients |} l)) c = Some (Done f) ->
  let poly := fold_right (padd2 C) [] (map (fun v => map dlog (vs_com v)) (f18_vss f)) in
  f18_keys f = {| k18_u := kr18_u r; k18_p1 := kr18_p1 r; k18_p2 := kr18_p2 r; k18_i := me |} /\ f18_i f = me /\
  length (f18_vss f) = n /\ length (f18_N f) = n /\ (forall N, In N (f18_N f) -> exists pf, ck pf N = true) /\
  (1 <= me <= n -> nth_error (f18_vss f) (me - 1) = Some {| vs_t := t; vs_n := n; vs_com := map (fun c => smul c gen) (kr18_u r :: kr18_coefs r) |} /\
                   nth_error (f18_N f) (me - 1) = Some (kr18_p1 r * kr18_p2 r)%Z) /\
  sk_y (f18_shared f) = f18_y f /\ f18_y f = smul (hd f0 poly) gen /\ f18_y f = psum (map (fun v => hd pzero (vs_com v)) (f18_vss f)) /\
  sk_x (f18_shared f) = peval poly (fidx me).
Proof.
  intros C Hb Hf ck aenc adec j_bc j_dec j_aead j_vss j_dlog oc ser par uuid s clients l c t n me u r nonces f EC.
  match goal with |- _ -> ?G => set (P := fun c (f : file18 C) => forall t n me u r (nonces : nat -> list Z), nth_error clients c = Some (t, n, me, u, r, nonces) ->
    ltac:(let g := eval pattern t, n, me, r, f in G in match g with ?h _ _ _ _ _ => exact (h t n me r f) end)) end.
  intros E. apply (ends_done oc ser par uuid P) in E; [apply (E _ _ _ _ _ _ EC)|]. clear. intros c p E. cbn [y_cl] in E. rewrite nth_error_map in E.
  destruct (nth_error clients c) as [[[[[[t n] me] u] r] nonces]|] eqn:EC; [|discriminate]. cbn [option_map] in E. injection E as <-.
  unfold keygen18_client.
  match goal with |- ends _ (let '(_, _) := ?x in _) => destruct x as [bc dec] eqn:M1 end.
  apply ends_exchange. intros a1. apply ends_need. intros bc1 HB1. apply ends_exchange. intros a2. apply ends_need. intros decs HD. apply ends_need. intros eks _.
  apply ends_need. intros p0 HP. apply ends_need. intros [[vs shares] i0] HV. apply ends_need. intros packs _. apply ends_p2p. intros a3. apply ends_need. intros got _.
  apply ends_need. intros psh HS. apply ends_exchange. intros a4. apply ends_need. intros vsss HVS. apply ends_need. intros [sk pf] HK. apply ends_exchange. intros a5.
  apply ends_need. intros proofs _. apply ends_need. intros [] _. apply en_done. intros t' n' me' u' r' nonces' EC'. rewrite EC in EC'. injection EC' as <- <- <- <- <- <-.
  cbn [fst snd] in *. cbv beta. cbn [f18_keys f18_shared f18_i f18_vss f18_N f18_y]. cbv zeta.
  apply C25_gg18_phase2_accepts_iff in HK. destruct HK as (L1 & L2 & L3 & NE & SS & YS & OO). injection OO as -> _. cbn [sk_y sk_x].
  assert (LB : length bc1 = n) by (apply (merge_length _ _ _ _ _ HB1)). assert (LD : length decs = n) by (apply (merge_length _ _ _ _ _ HD)).
  assert (TN : t < n).
  { unfold kg18_phase1_verify in HV. apply obind_ok in HV. destruct HV as ([] & _ & HV). apply obind_ok in HV. destruct HV as ([] & _ & HV). apply obind_ok in HV. destruct HV as (q & HV & _).
    unfold vss_share in HV. apply obind_ok in HV. destruct HV as ([] & HV & _). apply oassert_ok, Nat.ltb_lt in HV. exact HV. }
  destruct (C22_gg18_phase1_accepts_iff C Hb ck {| k18_u := kr18_u r; k18_p1 := kr18_p1 r; k18_p2 := kr18_p2 r; k18_i := me |} t n (kr18_coefs r) decs bc1 LD LB TN) as (IFF & _ & OUT).
  specialize (OUT _ HV). injection OUT as -> _ _. destruct IFF as [IFF _]. specialize (IFF (ex_intro _ _ HV)). cbn [k18_u] in *.
  assert (YSUM : fold_left padd (tl (map (kd_y (C := C)) decs)) p0 = psum (map (kd_y (C := C)) decs)).
  { destruct (map (kd_y (C := C)) decs) as [|y0 ys]; [discriminate|]. cbn [hd_error unwrap] in HP. injection HP as ->. cbn [tl]. rewrite fold_left_padd. reflexivity. }
  assert (HPS : fold_right (padd2 C) [] (map (fun v => map dlog (vs_com v)) vsss) = dealt_sum vsss).
  { unfold dealt_sum. clear. induction vsss as [|v vs IH]; [reflexivity|]. cbn. rewrite IH. reflexivity. }
  rewrite YSUM, HPS. split; [reflexivity|]. split; [reflexivity|]. split; [exact L3|]. split; [rewrite map_length; exact LB|]. split; [|split; [|split; [reflexivity|split; [|split]]]].
  - intros N IN. apply in_map_iff in IN. destruct IN as (b & <- & IN). apply In_nth_error in IN. destruct IN as [k K].
    assert (Lk : k < n) by (rewrite <- LB; apply nth_error_Some; congruence). destruct (nth_error decs k) as [d|] eqn:D; [|apply nth_error_None in D; lia].
    exists (b18_ck b). apply (IFF k d b D K).
  - intros B. split; [apply (merge_own _ _ _ _ _ HVS B)|]. rewrite nth_error_map, (merge_own _ _ _ _ _ HB1 B). cbn [option_map]. unfold kg18_phase1 in M1. injection M1 as <- <-. reflexivity.
  - rewrite YS, (hd_dealt_sum C). transitivity (psum (map (fun v => smul (hd f0 (dealt v)) (gen : pt C)) vsss)).
    + f_equal. apply map_ext. intros v. unfold dealt. destruct (vs_com v) as [|c0 l0]; cbn [map hd]; [symmetry; apply smul_0|symmetry; apply smul_dlog].
    + apply psum_smul_map.
  - rewrite YS. reflexivity.
  - rewrite SS, (peval_dealt_sum C). reflexivity.
Qed.
Print Assumptions C100_written_key_file_consistent.

(** * C101 *)
(** A client whose answers are all stored already runs to its end alone. *)
Section Solo.
Context {R : Type} (oc : bool) (ser : party_signup -> string) (par : string -> option party_signup) (uuid : nat -> string).
Notation exec18 := (@exec18 R oc ser par uuid).
Context (V : string -> string -> Prop).
Hypothesis V_fun : forall k v v', V k v -> V k v' -> v = v'.
Definition stored (l : list ev18) (s : server) : Prop := forall r k, In (EGet r k) l -> exists v, V k v /\ sm_get k (sv_map s) = Some v.
Lemma exec18_app w a b : exec18 w (a ++ b) = exec18 (exec18 w a) b.
Proof. unfold Clients18.exec18. apply fold_left_app. Qed.
Lemma set_nth_set {A} (l : list A) c x y : set_nth (set_nth l c x) c y = set_nth l c y.
Proof.
  revert c. induction l as [|a l IH]; intros [|c]; [reflexivity|reflexivity|reflexivity|]. unfold set_nth in *. cbn [firstn skipn app]. f_equal. apply IH.
Qed.
Lemma set_nth_same {A} (l : list A) c x : nth_error l c = Some x -> set_nth l c x = l.
Proof. revert c. induction l as [|a l IH]; intros [|c] E; cbn [nth_error] in E; try discriminate; [injection E as ->; reflexivity|]. unfold set_nth in *. cbn [firstn skipn app]. f_equal. apply IH, E. Qed.
Lemma solo_run c l p r : plays V p l r -> forall w, nth_error (y_cl w) c = Some p -> stored l (y_sv w) ->
  y_cl (exec18 w (repeat (Cl c) (length l))) = set_nth (y_cl w) c (Done r).
Proof.
  induction 1 as [r|n k v p l r Vk PL IH|n k f v l r Vk PL IH]; intros w E S.
  - cbn [length repeat Clients18.exec18 fold_left]. symmetry. apply set_nth_same, E.
  - assert (L : c < length (y_cl w)) by (apply nth_error_Some; congruence). cbn [length repeat]. unfold Clients18.exec18. cbn [fold_left].
    fold (exec18 (step18 oc ser par uuid w (Cl c)) (repeat (Cl c) (length l))). rewrite IH; cbn [step18]; rewrite E; cbn [y_cl y_sv].
    + apply set_nth_set.
    + rewrite set_nth_nth, Nat.eqb_refl by exact L. reflexivity.
    + intros r' k' I. destruct (S r' k') as (v' & V' & G); [right; exact I|]. cbn [step fst sv_map]. rewrite get_insert. exists v'. split; [exact V'|].
      destruct (String.eqb_spec k' k) as [->|]; [f_equal; apply (V_fun k); assumption|exact G].
  - assert (L : c < length (y_cl w)) by (apply nth_error_Some; congruence). cbn [length repeat]. unfold Clients18.exec18. cbn [fold_left].
    fold (exec18 (step18 oc ser par uuid w (Cl c)) (repeat (Cl c) (length l))). destruct (S n k) as (v0 & V0 & G); [left; reflexivity|]. assert (v0 = v) by (apply (V_fun k); assumption). subst v0.
    assert (W : step18 oc ser par uuid w (Cl c) = {| y_sv := y_sv w; y_cl := set_nth (y_cl w) c (f v) |}) by (cbn [step18 step]; rewrite E, G; reflexivity).
    rewrite W, IH; cbn [y_cl y_sv].
    + apply set_nth_set.
    + rewrite set_nth_nth, Nat.eqb_refl by exact L. reflexivity.
    + intros r' k' I. apply (S r' k'). right. exact I.
Qed.
(** Requests that store everything the client will read *)
Lemma answers l p (r : R) : plays V p l r -> exists kv, (forall x, In x kv -> V (fst x) (snd x)) /\ forall n k, In (EGet n k) l -> exists v, In (k, v) kv.
Proof.
  induction 1 as [r|n k v p l r Vk PL (kv & H1 & H2)|n k f v l r Vk PL (kv & H1 & H2)].
  - exists []. split; [intros x []|intros n k []].
  - exists kv. split; [exact H1|]. intros n' k' [E|I]; [discriminate|apply (H2 _ _ I)].
  - exists ((k, v) :: kv). split; [intros x [<-|I]; [exact Vk|apply H1, I]|]. intros n' k' [E|I].
    + injection E as <- <-. exists v. left. reflexivity.
    + destruct (H2 _ _ I) as (v' & Q). exists v'. right. exact Q.
Qed.
Definition store (kv : list (string * string)) : list act18 := map (fun x => Env (ASet (fst x) (snd x))) kv.
Lemma store_cl kv : forall w : sys18 R, y_cl (exec18 w (store kv)) = y_cl w.
Proof. induction kv as [|x kv IH]; intros w; [reflexivity|]. cbn [store map Clients18.exec18 fold_left]. fold (store kv). unfold Clients18.exec18 in IH. rewrite IH. reflexivity. Qed.
Lemma store_get kv : forall (w : sys18 R) k, (forall x, In x kv -> V (fst x) (snd x)) ->
  (exists v, In (k, v) kv) \/ (exists v, V k v /\ sm_get k (sv_map (y_sv w)) = Some v) -> exists v, V k v /\ sm_get k (sv_map (y_sv (exec18 w (store kv)))) = Some v.
Proof.
  induction kv as [|[k0 v0] kv IH]; intros w k H Q.
  - destruct Q as [[v []]|Q]. exact Q.
  - cbn [store map Clients18.exec18 fold_left]. fold (store kv). apply IH; [intros x I; apply H; right; exact I|].
    cbn [step18 y_sv step fst sv_map]. rewrite get_insert. pose proof (H (k0, v0) (or_introl eq_refl)) as V0. cbn [fst snd] in *.
    destruct (String.eqb_spec k k0) as [->|NE]; [right; eauto|]. destruct Q as [(v & [E|I])|Q]; [congruence|left; eauto|right; exact Q].
Qed.
Lemma solo c p l r (w : sys18 R) : plays V p l r -> nth_error (y_cl w) c = Some p ->
  exists kv, (forall x, In x kv -> V (fst x) (snd x)) /\ y_cl (exec18 w (store kv ++ repeat (Cl c) (length l))) = set_nth (y_cl w) c (Done r).
Proof.
  intros PL E. destruct (answers l p r PL) as (kv & H1 & H2). exists kv. split; [exact H1|]. rewrite exec18_app. rewrite (solo_run c l p r PL), store_cl; [reflexivity|rewrite store_cl; exact E|].
  intros n k I. apply store_get; [exact H1|left; apply (H2 _ _ I)].
Qed.
End Solo.

(** The claim that clients of one session agree is false: anybody who can send requests to the relay can make every client c write
    the file of a key generation of its own, with partners j whose randomness [fam c j] they chose ([fam c c] is the client's own).  The
    keys differ as soon as the sums of the u_j do.  The shares of any t + 1 of these partners give the secret key of client c's file. *)
Theorem C101_other_user_splits_session_refuted :
  forall (C : Curve) Hb (Hf : hashF C) ck aenc adec j_bc j_dec j_aead j_vss j_dlog (t n : nat) (fam : nat -> nat -> kg18_rand C) (nonces : nat -> nat -> nat -> list Z)
    oc ser par uuid (u : string) (s : server),
  (forall k nonce x, adec k (aenc k nonce x) = Some x) -> json_ok j_bc -> json_ok j_dec -> json_ok j_aead -> json_ok j_vss -> json_ok j_dlog ->
  t < n -> (Z.of_nat n < cq C)%Z ->
  (forall c i, c < n -> i < n -> length (kr18_coefs (fam c i)) = t) ->
  (forall c i, c < n -> i < n -> ck (kr18_ck (fam c i)) (kr18_p1 (fam c i) * kr18_p2 (fam c i))%Z = true) ->
  (forall c i, c < n -> i < n -> kr18_u (fam c i) <> f0) ->
  exists l (file : nat -> file18 C) (x : nat -> nat -> Fq (cq C)),
  (forall a, In a l -> (exists c, a = Cl c) \/ exists k v, a = Env (ASet k v) /\ session_key u k) /\
  (forall c, c < n ->
     nth_error (y_cl (exec18 oc ser par uuid
       {| y_sv := s; y_cl := map (fun c => keygen18_client C Hb Hf ck aenc adec j_bc j_dec j_aead j_vss j_dlog t n (c + 1) u (fam c c) (nonces c c)) (seq 0 n) |} l)) c = Some (Done (file c)) /\
     f18_y (file c) = smul (fsum (map (fun j => kr18_u (fam c j)) (seq 0 n))) gen /\
     f18_N (file c) = map (fun j => kr18_p1 (fam c j) * kr18_p2 (fam c j))%Z (seq 0 n) /\
     sk_x (f18_shared (file c)) = x c c /\
     forall v is, vs_t v = t -> NoDup is -> (forall i, In i is -> i < n) -> t < length is ->
       vss_reconstruct (E := unit) v is (map (x c) is) = Ok (fsum (map (fun j => kr18_u (fam c j)) (seq 0 n)))).
Proof.
  intros C Hb Hf ck aenc adec j_bc j_dec j_aead j_vss j_dlog t n fam nonces oc ser par uuid u s HA J1 J2 J3 J4 J5 Htn Hq Hco Hck Hu.
  set (prg := fun c => keygen18_client C Hb Hf ck aenc adec j_bc j_dec j_aead j_vss j_dlog t n (c + 1) u (fam c c) (nonces c c)).
  assert (PL : forall c, c < n -> exists (V : string -> string -> Prop) (file : file18 C) (x : nat -> Fq (cq C)), (forall k v v', V k v -> V k v' -> v = v') /\ (forall k v, V k v -> session_key u k) /\ plays V (prg c) (rounds_of u n c kg_rounds) file /\
     f18_y file = smul (fsum (map (fun j => kr18_u (fam c j)) (seq 0 n))) gen /\
     f18_N file = map (fun j => kr18_p1 (fam c j) * kr18_p2 (fam c j))%Z (seq 0 n) /\ sk_x (f18_shared file) = x c /\
     forall v is, vs_t v = t -> NoDup is -> (forall i, In i is -> i < n) -> t < length is -> vss_reconstruct (E := unit) v is (map x is) = Ok (fsum (map (fun j => kr18_u (fam c j)) (seq 0 n)))).
  { intros c Lc. destruct (keygen18_plays C Hb Hf ck aenc adec j_bc j_dec j_aead j_vss j_dlog t n (fam c) (nonces c) u HA J1 J2 J3 J4 J5 Htn Hq) as (B & P & file & x & P1 & P2 & P3 & _); auto.
    exists (table u B P), (file c), x. split; [apply table_fun|]. split; [apply table_mine|]. split; [apply P1, Lc|]. rewrite (P2 c Lc). cbn [f18_y f18_N f18_shared sk_x]. auto. }
  clearbody prg.
  enough (M : forall m, m <= n -> exists l (file : nat -> file18 C) (x : nat -> nat -> Fq (cq C)),
    (forall a, In a l -> (exists c, a = Cl c) \/ exists k v, a = Env (ASet k v) /\ session_key u k) /\
    length (y_cl (exec18 oc ser par uuid {| y_sv := s; y_cl := map prg (seq 0 n) |} l)) = n /\
    (forall c, m <= c < n -> nth_error (y_cl (exec18 oc ser par uuid {| y_sv := s; y_cl := map prg (seq 0 n) |} l)) c = Some (prg c)) /\
    forall c, c < m ->
     nth_error (y_cl (exec18 oc ser par uuid {| y_sv := s; y_cl := map prg (seq 0 n) |} l)) c = Some (Done (file c)) /\
     f18_y (file c) = smul (fsum (map (fun j => kr18_u (fam c j)) (seq 0 n))) gen /\
     f18_N (file c) = map (fun j => kr18_p1 (fam c j) * kr18_p2 (fam c j))%Z (seq 0 n) /\
     sk_x (f18_shared (file c)) = x c c /\
     forall v is, vs_t v = t -> NoDup is -> (forall i, In i is -> i < n) -> t < length is ->
       vss_reconstruct (E := unit) v is (map (x c) is) = Ok (fsum (map (fun j => kr18_u (fam c j)) (seq 0 n)))).
  { destruct (M n (Nat.le_refl n)) as (l & file & x & A & _ & _ & B). exists l, file, x. auto. }
  induction m as [|m IH]; intros Lm.
  - exists [], (fun c => {| f18_keys := kg18_keys C (fam 0) 0; f18_shared := {| sk_y := pzero; sk_x := f0 |}; f18_i := 0; f18_vss := []; f18_N := []; f18_y := pzero |}), (fun _ _ => f0).
    split; [intros a []|]. cbn [Clients18.exec18 fold_left y_cl]. split; [rewrite map_length, seq_length; reflexivity|]. split; [|intros c Lc; lia].
    intros c Lc. rewrite nth_error_map, (nth_error_nth' _ 0), seq_nth by (rewrite ?seq_length; lia). reflexivity.
  - destruct IH as (l & file & x & A & LN & TODO & DONE); [lia|]. destruct (PL m) as (V & f & xm & VF & VM & PM & Q1 & Q2 & Q3 & Q4); [lia|].
    set (w := Clients18.exec18 oc ser par uuid {| y_sv := s; y_cl := map prg (seq 0 n) |} l) in *.
    destruct (solo oc ser par uuid V VF m (prg m) _ f w PM) as (kv & KV & RUN); [apply TODO; lia|].
    exists (l ++ store kv ++ repeat (Cl m) (length (rounds_of u n m kg_rounds))), (fun c => if Nat.eqb c m then f else file c), (fun c => if Nat.eqb c m then xm else x c).
    rewrite exec18_app. fold w. rewrite RUN. split; [|split; [|split]].
    + intros a I. apply in_app_iff in I. destruct I as [I|I]; [apply A, I|]. apply in_app_iff in I. destruct I as [I|I].
      * right. unfold store in I. apply in_map_iff in I. destruct I as ([k v] & <- & I). exists k, v. split; [reflexivity|]. apply (VM k v). exact (KV _ I).
      * left. apply repeat_spec in I. eauto.
    + rewrite set_nth_length. exact LN.
    + intros c Lc. rewrite set_nth_nth by lia. replace (Nat.eqb c m) with false by (symmetry; apply Nat.eqb_neq; lia). apply TODO. lia.
    + intros c Lc. rewrite set_nth_nth by lia. destruct (Nat.eqb_spec c m) as [->|NE]; [auto|]. apply DONE. lia.
Qed.
Print Assumptions C101_other_user_splits_session_refuted.
Section Keys.
Context (C : Curve).
Add Field cfield : (C_field C).
Lemma fsum_ext2 (f g : nat -> Fq (cq C)) d k l : NoDup l -> In k l -> (forall j, j <> k -> g j = f j) -> g k = fadd (f k) d -> fsum (map g l) = fadd (fsum (map f l)) d.
Proof.
  intros ND I H HK. induction l as [|a l IH]; [destruct I|]. inversion ND as [|a' l' NI ND']; subst. cbn [map fsum]. destruct (Nat.eq_dec a k) as [->|NE].
  - rewrite HK. replace (map g l) with (map f l); [ring|]. apply map_ext_in. intros j J. symmetry. apply H. intros ->. contradiction.
  - destruct I as [I|I]; [congruence|]. rewrite (IH ND' I), (H a NE). ring.
Qed.
Lemma double_nz (a : Fq (cq C)) : (2 < cq C)%Z -> a <> f0 -> fadd a a <> f0.
Proof.
  intros Q A E. apply (fmul_nz (cq_prime C) (of_Z (cq C) 2) a); [|exact A|].
  - intros E2. apply (f_equal to_Z) in E2. rewrite to_Z_0 in E2. unfold of_Z in E2. cbn [to_Z] in E2. rewrite Z.mod_small in E2 by lia. discriminate.
  - rewrite <- E. replace (of_Z (cq C) 2) with (fadd f1 f1 : Fq (cq C)); [ring|]. unfold f1. rewrite <- of_Z_add. reflexivity.
Qed.
Lemma smul_gen_shift (a d : Fq (cq C)) : smul (fadd a d) (gen : pt C) = smul a gen -> d = f0.
Proof.
  intros E. apply (f_equal dlog) in E. rewrite !dlog_smul, !dlog_gen in E. assert (X : d = (((a + d) * f1) - a * f1)%Fq) by ring. rewrite E in X. rewrite X. ring.
Qed.
End Keys.
(** Whenever n >= 2 clients could complete a session, requests of another user can make them all complete it with client 1 holding
    another key than the others. *)
Theorem C101_keys_differ_refuted :
  forall (C : Curve) Hb (Hf : hashF C) ck aenc adec j_bc j_dec j_aead j_vss j_dlog (t n : nat) (rs : nat -> kg18_rand C) (nonces : nat -> nat -> list Z)
    oc ser par uuid (u : string) (s : server),
  (forall k nonce x, adec k (aenc k nonce x) = Some x) -> json_ok j_bc -> json_ok j_dec -> json_ok j_aead -> json_ok j_vss -> json_ok j_dlog ->
  t < n -> 2 <= n -> (Z.of_nat n < cq C)%Z ->
  (forall i, i < n -> length (kr18_coefs (rs i)) = t) ->
  (forall i, i < n -> ck (kr18_ck (rs i)) (kr18_p1 (rs i) * kr18_p2 (rs i))%Z = true) ->
  (forall i, i < n -> kr18_u (rs i) <> f0) ->
  exists l (file : nat -> file18 C),
  (forall a, In a l -> (exists c, a = Cl c) \/ exists k v, a = Env (ASet k v) /\ session_key u k) /\
  (forall c, c < n ->
     nth_error (y_cl (exec18 oc ser par uuid
       {| y_sv := s; y_cl := map (fun c => keygen18_client C Hb Hf ck aenc adec j_bc j_dec j_aead j_vss j_dlog t n (c + 1) u (rs c) (nonces c)) (seq 0 n) |} l)) c = Some (Done (file c))) /\
  (forall c, 1 <= c < n -> f18_y (file c) = f18_y (file 1)) /\ f18_y (file 0) <> f18_y (file 1).
Proof.
  intros C Hb Hf ck aenc adec j_bc j_dec j_aead j_vss j_dlog t n rs nonces oc ser par uuid u s HA J1 J2 J3 J4 J5 Htn Hn Hq Hco Hck Hu.
  set (fake := {| kr18_p1 := kr18_p1 (rs 1); kr18_p2 := kr18_p2 (rs 1); kr18_u := fadd (kr18_u (rs 1)) (kr18_u (rs 1)); kr18_blind := kr18_blind (rs 1); kr18_ck := kr18_ck (rs 1);
    kr18_coefs := kr18_coefs (rs 1); kr18_nonce := kr18_nonce (rs 1) |}).
  set (fam := fun c j => if Nat.eqb c 0 && Nat.eqb j 1 then fake else rs j).
  assert (U1 : kr18_u (rs 1) <> f0) by (apply Hu; lia).
  assert (D : fadd (kr18_u (rs 1)) (kr18_u (rs 1)) <> f0) by (apply double_nz; [lia|exact U1]).
  destruct (C101_other_user_splits_session_refuted C Hb Hf ck aenc adec j_bc j_dec j_aead j_vss j_dlog t n fam (fun c _ => nonces c) oc ser par uuid u s HA J1 J2 J3 J4 J5 Htn Hq) as (l & file & x & A & B).
  - intros c i _ Li. unfold fam. destruct (_ && _); [apply (Hco 1); lia|apply Hco, Li].
  - intros c i _ Li. unfold fam. destruct (_ && _); [apply (Hck 1); lia|apply Hck, Li].
  - intros c i _ Li. unfold fam. destruct (_ && _); [exact D|apply Hu, Li].
  - exists l, file. split; [exact A|]. split; [|split].
    + intros c Lc. destruct (B c Lc) as [Q _].
      replace (map (fun c => keygen18_client C Hb Hf ck aenc adec j_bc j_dec j_aead j_vss j_dlog t n (c + 1) u (rs c) (nonces c)) (seq 0 n)) with
        (map (fun c => keygen18_client C Hb Hf ck aenc adec j_bc j_dec j_aead j_vss j_dlog t n (c + 1) u (fam c c) (nonces c)) (seq 0 n)); [exact Q|].
      apply map_ext. intros d. unfold fam. destruct d as [|d]; reflexivity.
    + intros c Lc. destruct (B c) as (_ & -> & _); [lia|]. destruct (B 1) as (_ & -> & _); [lia|]. f_equal. f_equal. apply map_ext. intros j. unfold fam. destruct c as [|c]; [lia|]. reflexivity.
    + destruct (B 0) as (_ & -> & _); [lia|]. destruct (B 1) as (_ & -> & _); [lia|]. rewrite (fsum_ext2 C (fun j => kr18_u (fam 1 j)) (fun j => kr18_u (fam 0 j)) (kr18_u (rs 1)) 1).
      * intros E. apply smul_gen_shift in E. contradiction.
      * apply seq_NoDup.
      * apply in_seq. lia.
      * intros j NE. unfold fam. cbn [Nat.eqb andb]. destruct j as [|[|j]]; [reflexivity|congruence|reflexivity].
      * reflexivity.
Qed.
Print Assumptions C101_keys_differ_refuted.
(** The hypotheses of C101 are those of C96 (C96_example_hypotheses). *)
Example C101_example_hypotheses : (2 < 4) /\ (2 <= 4) /\ (Z.of_nat 4 < cq toy)%Z /\ (forall i, i < 4 -> (kr18_p1 (exrs18 i) * kr18_p2 (exrs18 i) =? 143)%Z = true).
Proof. refine (conj _ (conj _ (conj eq_refl _))); [lia|lia|]. intros [|[|[|[|i]]]] L; try lia; reflexivity. Qed.
(** Clients reading what another user stored first, for C100: the junk under client 1's key is overwritten before anyone reads it. *)
Example C100_example :
  let l := Env (ASet (bkey 1 "round1" "u") "junk") :: List.concat (repeat [Cl 3; Cl 1; Cl 0; Cl 2] 22) in
  let l' := List.concat (repeat [Cl 3; Cl 1; Env (ASet (bkey 1 "round1" "u") "junk"); Cl 0; Cl 2] 22) in
  let run l := map (fun p : prog (file18 toy) => match p with Done f => Some (to_Z (f18_y f : Fq 31), to_Z (sk_x (f18_shared f))) | _ => None end)
      (y_cl (exec18 true exser expar exuuid {| y_sv := sv_init exser exuuid; y_cl := map excl18 (seq 0 4) |} l)) in
  run l = [Some (15%Z, 9%Z); Some (15%Z, 12%Z); Some (15%Z, 24%Z); Some (15%Z, 14%Z)] /\ run l' = [None; None; None; None].
Proof. vm_compute. split; reflexivity. Qed.

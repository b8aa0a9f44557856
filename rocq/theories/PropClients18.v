(** C96, C97: the GG18 key generation clients over the relay. *)
From Coq Require Import String Ascii ZArith NArith Nnat Bool Lia List.
From Verif Require Gg18RunProofs PropSignChecks KeygenExtra.
From Verif Require Import ZArithX Fq Curve Toy Outcome Sigma Bytes Vss Mp MpProofs Gg20Keygen Gg18Keygen KeygenRun KeygenRunProofs NetSim SignProofs Gg18SignProofs
  Codec Manager18 Manager18Proofs PropManager18 Clients18 Clients18Proofs Clients18Prog Clients18Rounds Clients18KgProofs PropKeygen.
Import ListNotations.
Local Open Scope nat_scope.

(** A server that has been used by others: any requests but sets under keys of session [u] *)
Definition used_server (oc : bool) ser par uuid (u : string) (s : server) : Prop :=
  exists l, Forall (fun a => match a with ASet k _ => ~ session_key u k | _ => True end) l /\ s = fst (exec oc ser par uuid (sv_init ser uuid) l).
Lemma used_fresh oc ser par uuid u s : used_server oc ser par uuid u s -> forall k, session_key u k -> sm_get k (sv_map s) = None.
Proof.
  intros (l & A & ->) k K. destruct (exec oc ser par uuid (sv_init ser uuid) l) as [s tr] eqn:E. pose proof (store_exec oc ser par uuid l _ _ (store_init ser uuid)) as Q. rewrite E in Q.
  destruct Q as [Q _]. cbn [app fst] in *. rewrite (Q k (session_free u k K)). destruct (last_opt (sets k tr)) as [v|] eqn:L; [|reflexivity].
  apply last_in, in_sets in L. assert (X : In (ASet k v) l) by (apply (obs_set oc ser par uuid l (sv_init ser uuid)); rewrite E; exact L).
  rewrite Forall_forall in A. apply A in X. contradiction.
Qed.

(** Clients 0 .. m-1 with programs [prg], started on server [s]: whatever the schedule, the lost answers and the other users do,
    no client fails and a client that ends has its result; at most [bound] requests bring a client forward; when none can go
    on all have ended; and the clients' requests alone can always lead to that. *)
Definition session_finishes {R} (oc : bool) ser par uuid (u : string) (s : server) (m : nat) (prg : nat -> prog R) (res : nat -> R) (bound : nat) : Prop :=
  let w0 := {| y_sv := s; y_cl := map prg (seq 0 m) |} in
  forall l, Forall (outside u) l -> let w := exec18 oc ser par uuid w0 l in
  (forall c, c < m -> nth_error (y_cl w) c <> Some Crash /\ forall r, nth_error (y_cl w) c = Some (Done r) -> r = res c) /\
  work18 oc ser par uuid w0 l <= bound /\
  ((forall c, ready w c = false) -> forall c, c < m -> nth_error (y_cl w) c = Some (Done (res c))) /\
  exists l', Forall (fun a => exists c, c < m /\ a = Cl c) l' /\ forall c, c < m -> nth_error (y_cl (exec18 oc ser par uuid w l')) c = Some (Done (res c)).

(** One table of messages under which every client ends with its file *)
Lemma keygen18_plays :
  forall (C : Curve) Hb (Hf : hashF C) ck aenc adec j_bc j_dec j_aead j_vss j_dlog (t n : nat) (rs : nat -> kg18_rand C) (nonces : nat -> nat -> list Z)
    (u : string),
  (forall k nonce x, adec k (aenc k nonce x) = Some x) -> json_ok j_bc -> json_ok j_dec -> json_ok j_aead -> json_ok j_vss -> json_ok j_dlog ->
  t < n -> (Z.of_nat n < cq C)%Z ->
  (forall i, i < n -> length (kr18_coefs (rs i)) = t) ->
  (forall i, i < n -> ck (kr18_ck (rs i)) (kr18_p1 (rs i) * kr18_p2 (rs i))%Z = true) ->
  (forall i, i < n -> kr18_u (rs i) <> f0) ->
  exists B P (file : nat -> file18 C) (x : nat -> Fq (cq C)),
  (forall i, i < n -> plays (table u B P) (keygen18_client C Hb Hf ck aenc adec j_bc j_dec j_aead j_vss j_dlog t n (i + 1) u (rs i) (nonces i)) (rounds_of u n i kg_rounds) (file i)) /\
  (forall i, i < n -> file i =
     {| f18_keys := {| k18_u := kr18_u (rs i); k18_p1 := kr18_p1 (rs i); k18_p2 := kr18_p2 (rs i); k18_i := i + 1 |};
        f18_shared := {| sk_y := smul (fsum (map (fun j => kr18_u (rs j)) (seq 0 n))) gen; sk_x := x i |};
        f18_i := i + 1;
        f18_vss := map (fun j => {| vs_t := t; vs_n := n; vs_com := map (fun c => smul c gen) (kr18_u (rs j) :: kr18_coefs (rs j)) |}) (seq 0 n);
        f18_N := map (fun j => kr18_p1 (rs j) * kr18_p2 (rs j))%Z (seq 0 n);
        f18_y := smul (fsum (map (fun j => kr18_u (rs j)) (seq 0 n))) gen |}) /\
  (forall v is, vs_t v = t -> NoDup is -> (forall i, In i is -> i < n) -> t < length is ->
     vss_reconstruct (E := unit) v is (map x is) = Ok (fsum (map (fun j => kr18_u (rs j)) (seq 0 n)))) /\
  exists outs, kg18_run C Hb Hf ck t n rs = Ok outs /\ length outs = n /\ forall i, i < n -> exists o, nth_error outs i = Some o /\ f18_shared (file i) = fst o.
Proof.
  intros C Hb Hf ck aenc adec j_bc j_dec j_aead j_vss j_dlog t n rs nonces u HA J1 J2 J3 J4 J5 Htn Hq Hco Hck Hu.
  destruct (C21_gg18_keygen_correct C Hb Hf ck t n rs Htn Hq Hco Hck) as (outs & x & RUN & LN & OUT & REC).
  assert (Hn : 0 < n) by lia. pose proof RUN as R0. unfold kg18_run in R0. cbv zeta in R0. rewrite !map_map in R0.
  apply obind_ok in R0. destruct R0 as (l2 & E2 & R0). apply omapM_fun in E2; [|exact Hn]. destruct E2 as (g2 & G2 & ->).
  apply obind_ok in R0. destruct R0 as (l3 & E3 & R0). apply omapM_fun in E3; [|exact Hn]. destruct E3 as (g3 & G3 & ->).
  assert (SH : forall i j, i < n -> j < n -> exists v, nth_o (E := error) (snd (fst (g2 i))) j = Ok v).
  { intros i j Li Lj. pose proof (G3 j Lj) as Q. apply obind_ok in Q. destruct Q as (sh & Q & _). rewrite Gg18RunProofs.omapM_map in Q.
    destruct (PropSignChecks.omapM_in _ _ _ i Q) as (v & V); [apply in_seq; lia|]. eauto. }
  set (sh := fun i j => nth j (snd (fst (g2 i))) f0).
  assert (GS : forall i j, i < n -> j < n -> nth_o (E := error) (snd (fst (g2 i))) j = Ok (sh i j)).
  { intros i j Li Lj. destruct (SH i j Li Lj) as [v V]. rewrite V. unfold sh. f_equal. apply nth_o_ok in V. symmetry. apply nth_error_nth, V. }
  assert (G3' : forall i, i < n -> kg18_phase2 C Hf n (map (fun j => kd_y (snd (kg18_phase1 C Hb (kg18_keys C rs j) (kr18_blind (rs j)) (kr18_ck (rs j))))) (seq 0 n))
                  (map (fun j => sh j i) (seq 0 n)) (map (fun j => fst (fst (g2 j))) (seq 0 n)) (S i) (kr18_nonce (rs i)) = Ok (g3 i)).
  { intros i Li. pose proof (G3 i Li) as Q. rewrite Gg18RunProofs.omapM_map in Q. rewrite (omapM_all _ (fun j => sh j i)) in Q.
    - cbn [obind] in Q. rewrite ?map_map in Q. exact Q.
    - intros j Ij. apply in_seq in Ij. apply GS; lia. }
  assert (E5 : forall i, i < n -> exists xi, kg18_verify_dlog C Hf n (map (fun j => snd (g3 j)) (seq 0 n)) (map (fun j => kd_y (snd (kg18_phase1 C Hb (kg18_keys C rs j) (kr18_blind (rs j)) (kr18_ck (rs j))))) (seq 0 n)) = Ok tt /\
                 nth_error outs i = Some (fst (g3 i), xi)).
  { apply omapM_fun in R0; [|exact Hn]. destruct R0 as (g5 & G5 & OE). intros i Li. pose proof (G5 i Li) as Q. rewrite nth_o_map_seq in Q by exact Li. cbn [obind Nat.add] in Q.
    rewrite !map_map in Q. apply obind_ok in Q. destruct Q as ([] & Q1 & Q). apply obind_ok in Q. destruct Q as (xi & _ & Q). exists xi. split; [exact Q1|].
    rewrite OE, nth_error_map, (nth_error_nth' _ 0), seq_nth by (rewrite ?seq_length; lia). cbn [option_map Nat.add]. injection Q as <-. reflexivity. }
  assert (VS : forall i, i < n -> fst (fst (g2 i)) = {| vs_t := t; vs_n := n; vs_com := map (fun c => smul c gen) (kr18_u (rs i) :: kr18_coefs (rs i)) |}).
  { intros i Li. pose proof (G2 i Li) as Q. unfold kg18_phase1_verify in Q. apply obind_ok in Q. destruct Q as (_ & _ & Q). apply obind_ok in Q. destruct Q as (_ & _ & Q). apply obind_ok in Q.
    destruct Q as (sv & Q1 & Q). unfold vss_share in Q1. apply obind_ok in Q1. destruct Q1 as (_ & _ & Q1). injection Q1 as <-.
    destruct (forallb _ _) in Q; [|discriminate]. injection Q as <-. reflexivity. }
  exists (kg_B C Hb j_bc j_dec j_vss j_dlog rs g2 g3), (kg_P C aenc j_aead rs nonces sh), (kg_file C n rs g2 g3) , x. destruct (E5 0 Hn) as (_ & G5 & _).
  split; [|split; [|split]].
  - intros c L. rewrite Nat.add_1_r. apply kg_plays; assumption.
  - intros i Li. destruct (E5 i Li) as (xi & _ & N5). destruct (OUT i _ N5) as (O1 & O2 & _). cbn [fst] in O1, O2. unfold kg_file, kg18_keys. rewrite !Nat.add_1_r.
    assert (Y : psum (map (fun j => smul (kr18_u (rs j)) (gen : pt C)) (seq 0 n)) = smul (fsum (map (fun j => kr18_u (rs j)) (seq 0 n))) gen) by exact (KeygenExtra.a_y C n (fun j => [kr18_u (rs j)])).
    f_equal.
    + destruct (fst (g3 i)) as [y0 x0]. cbn [sk_y sk_x] in O1, O2. subst. reflexivity.
    + apply map_ext_in. intros j Ij. apply in_seq in Ij. apply VS. lia.
    + exact Y.
  - exact REC.
  - exists outs. split; [exact RUN|]. split; [exact LN|]. intros i Li. destruct (E5 i Li) as (xi & _ & N5). exists (fst (g3 i), xi). split; [exact N5|reflexivity].
Qed.

Lemma keygen18_files :
  forall (C : Curve) Hb (Hf : hashF C) ck aenc adec j_bc j_dec j_aead j_vss j_dlog (t n : nat) (rs : nat -> kg18_rand C) (nonces : nat -> nat -> list Z)
    oc ser par uuid (u : string) (s : server),
  (forall k nonce x, adec k (aenc k nonce x) = Some x) -> json_ok j_bc -> json_ok j_dec -> json_ok j_aead -> json_ok j_vss -> json_ok j_dlog ->
  t < n -> (Z.of_nat n < cq C)%Z ->
  (forall i, i < n -> length (kr18_coefs (rs i)) = t) ->
  (forall i, i < n -> ck (kr18_ck (rs i)) (kr18_p1 (rs i) * kr18_p2 (rs i))%Z = true) ->
  (forall i, i < n -> kr18_u (rs i) <> f0) ->
  used_server oc ser par uuid u s ->
  exists (file : nat -> file18 C) (x : nat -> Fq (cq C)),
  session_finishes oc ser par uuid u s n
    (fun i => keygen18_client C Hb Hf ck aenc adec j_bc j_dec j_aead j_vss j_dlog t n (i + 1) u (rs i) (nonces i)) file (10 * n * n) /\
  (forall i, i < n -> file i =
     {| f18_keys := {| k18_u := kr18_u (rs i); k18_p1 := kr18_p1 (rs i); k18_p2 := kr18_p2 (rs i); k18_i := i + 1 |};
        f18_shared := {| sk_y := smul (fsum (map (fun j => kr18_u (rs j)) (seq 0 n))) gen; sk_x := x i |};
        f18_i := i + 1;
        f18_vss := map (fun j => {| vs_t := t; vs_n := n; vs_com := map (fun c => smul c gen) (kr18_u (rs j) :: kr18_coefs (rs j)) |}) (seq 0 n);
        f18_N := map (fun j => kr18_p1 (rs j) * kr18_p2 (rs j))%Z (seq 0 n);
        f18_y := smul (fsum (map (fun j => kr18_u (rs j)) (seq 0 n))) gen |}) /\
  (forall v is, vs_t v = t -> NoDup is -> (forall i, In i is -> i < n) -> t < length is ->
     vss_reconstruct (E := unit) v is (map x is) = Ok (fsum (map (fun j => kr18_u (rs j)) (seq 0 n)))) /\
  exists outs, kg18_run C Hb Hf ck t n rs = Ok outs /\ length outs = n /\ forall i, i < n -> exists o, nth_error outs i = Some o /\ f18_shared (file i) = fst o.
Proof.
  intros C Hb Hf ck aenc adec j_bc j_dec j_aead j_vss j_dlog t n rs nonces oc ser par uuid u s HA J1 J2 J3 J4 J5 Htn Hq Hco Hck Hu US.
  destruct (keygen18_plays C Hb Hf ck aenc adec j_bc j_dec j_aead j_vss j_dlog t n rs nonces u HA J1 J2 J3 J4 J5 Htn Hq Hco Hck Hu) as (B & P & file & x & PL & FILES).
  exists file, x. split; [|exact FILES].
  set (prg := fun i => keygen18_client C Hb Hf ck aenc adec j_bc j_dec j_aead j_vss j_dlog t n (i + 1) u (rs i) (nonces i)) in *.
  pose proof (session_runs oc ser par uuid u B P n kg_rounds prg file) as Q.
  assert (INC : increasing 0 kg_rounds) by (unfold kg_rounds; cbn [increasing]; lia). specialize (Q INC).
  specialize (Q PL s (used_fresh _ _ _ _ _ _ US)). unfold session_finishes. cbv zeta. intros l HL. specialize (Q l HL). cbv zeta in Q.
  change (length kg_rounds) with 5 in Q. replace (10 * n * n) with (2 * n * n * 5) by lia. exact Q.
Qed.

(** * C96 *)
(** Clients number 1 .. n of one session, with t < n coefficients, valid Paillier proofs and nonzero contributions u_i, all write
    their key files: the same key (sum of the u_i) G, the own share, everyone's commitments and Paillier keys; any t + 1 shares
    reconstruct the key. *)
Theorem C96_keygen18_clients :
  forall (C : Curve) Hb (Hf : hashF C) ck aenc adec j_bc j_dec j_aead j_vss j_dlog (t n : nat) (rs : nat -> kg18_rand C) (nonces : nat -> nat -> list Z)
    oc ser par uuid (u : string) (s : server),
  (forall k nonce x, adec k (aenc k nonce x) = Some x) -> json_ok j_bc -> json_ok j_dec -> json_ok j_aead -> json_ok j_vss -> json_ok j_dlog ->
  t < n -> (Z.of_nat n < cq C)%Z ->
  (forall i, i < n -> length (kr18_coefs (rs i)) = t) ->
  (forall i, i < n -> ck (kr18_ck (rs i)) (kr18_p1 (rs i) * kr18_p2 (rs i))%Z = true) ->
  (forall i, i < n -> kr18_u (rs i) <> f0) ->
  used_server oc ser par uuid u s ->
  exists (file : nat -> file18 C) (x : nat -> Fq (cq C)),
  session_finishes oc ser par uuid u s n
    (fun i => keygen18_client C Hb Hf ck aenc adec j_bc j_dec j_aead j_vss j_dlog t n (i + 1) u (rs i) (nonces i)) file (10 * n * n) /\
  (forall i, i < n -> file i =
     {| f18_keys := {| k18_u := kr18_u (rs i); k18_p1 := kr18_p1 (rs i); k18_p2 := kr18_p2 (rs i); k18_i := i + 1 |};
        f18_shared := {| sk_y := smul (fsum (map (fun j => kr18_u (rs j)) (seq 0 n))) gen; sk_x := x i |};
        f18_i := i + 1;
        f18_vss := map (fun j => {| vs_t := t; vs_n := n; vs_com := map (fun c => smul c gen) (kr18_u (rs j) :: kr18_coefs (rs j)) |}) (seq 0 n);
        f18_N := map (fun j => kr18_p1 (rs j) * kr18_p2 (rs j))%Z (seq 0 n);
        f18_y := smul (fsum (map (fun j => kr18_u (rs j)) (seq 0 n))) gen |}) /\
  (forall v is, vs_t v = t -> NoDup is -> (forall i, In i is -> i < n) -> t < length is ->
     vss_reconstruct (E := unit) v is (map x is) = Ok (fsum (map (fun j => kr18_u (rs j)) (seq 0 n)))).
Proof.
  intros C Hb Hf ck aenc adec j_bc j_dec j_aead j_vss j_dlog t n rs nonces oc ser par uuid u s HA J1 J2 J3 J4 J5 Htn Hq Hco Hck Hu US.
  destruct (keygen18_files C Hb Hf ck aenc adec j_bc j_dec j_aead j_vss j_dlog t n rs nonces oc ser par uuid u s HA J1 J2 J3 J4 J5 Htn Hq Hco Hck Hu US) as (file & x & A & B & D & _).
  exists file, x. auto.
Qed.
Print Assumptions C96_keygen18_clients.

(** Messages as strings over the toy group; an AES stand-in that puts the key in front of the text and refuses another key. *)
Definition cbc18 : codec bc18.
Proof. refine (cmap (cpair cZ (cpair cZ cZ)) (fun b => (b18_N b, (b18_com b, b18_ck b))) (fun '(a, (b, c)) => {| b18_N := a; b18_com := b; b18_ck := c |}) _). intros []; reflexivity. Defined.
Definition caead : codec aead.
Proof. refine (cmap (cpair (clist cZ) (clist cZ)) (fun a => (ae_text a, ae_tag a)) (fun '(a, b) => {| ae_text := a; ae_tag := b |}) _). intros []; reflexivity. Defined.
Definition jof {A} (c : codec A) : json A := {| js := to_string c; sj := of_string c |}.
Lemma jof_ok {A} (c : codec A) : json_ok (jof c). Proof. exact (of_to_string c). Qed.
Definition exaenc (k nonce x : list Z) : aead := {| ae_text := k ++ x; ae_tag := nonce |}.
Definition exadec (k : list Z) (a : aead) : option (list Z) :=
  if list_eq_dec Z.eq_dec (firstn (length k) (ae_text a)) k then Some (skipn (length k) (ae_text a)) else None.
Lemma exaes_ok k nonce x : exadec k (exaenc k nonce x) = Some x.
Proof.
  unfold exadec, exaenc. cbn [ae_text]. rewrite firstn_app, Nat.sub_diag, firstn_all, app_nil_r, skipn_app, Nat.sub_diag, skipn_all. destruct (list_eq_dec _ k k); [reflexivity|congruence].
Qed.
Definition excl18 (i : nat) : prog (file18 toy) :=
  keygen18_client toy exHb exHf3 (fun _ N => (N =? 143)%Z) exaenc exadec (jof cbc18) (jof cdec1) (jof caead) (jof cvss) (jof cdlog) 2 4 (i + 1) "u" (exrs18 i) (fun j => [Z.of_nat (10 * i + j)]).
Example C96_example_hypotheses :
  (forall k nonce x, exadec k (exaenc k nonce x) = Some x) /\ json_ok (jof cbc18) /\ json_ok (jof cdec1) /\ json_ok (jof caead) /\ json_ok (jof cvss) /\ json_ok (jof cdlog) /\
  (forall i, i < 4 -> length (kr18_coefs (exrs18 i)) = 2 /\ kr18_u (exrs18 i) <> f0) /\ used_server true exser expar exuuid "u" (sv_init exser exuuid).
Proof.
  refine (conj exaes_ok (conj (jof_ok _) (conj (jof_ok _) (conj (jof_ok _) (conj (jof_ok _) (conj (jof_ok _) (conj _ _))))))).
  - intros [|[|[|[|i]]]] L; try lia; (split; [reflexivity|intros E; apply (f_equal to_Z) in E; vm_compute in E; discriminate]).
  - exists []. split; [constructor|reflexivity].
Qed.
(** Four clients taking turns in the order 4, 2, 1, 3, with another user in between: the shares are those of C21_example. *)
Example C96_example :
  let l := List.concat (repeat [Cl 3; Cl 1; Env (ASet "x" "y"); Cl 0; Lost 2; Cl 2] 22) in
  map (fun p : prog (file18 toy) => match p with Done f => Some (f18_i f, to_Z (f18_y f : Fq 31), to_Z (sk_x (f18_shared f)), f18_N f) | _ => None end)
      (y_cl (exec18 true exser expar exuuid {| y_sv := sv_init exser exuuid; y_cl := map excl18 (seq 0 4) |} l)) =
  [Some (1, 15%Z, 9%Z, [143; 143; 143; 143]%Z); Some (2, 15%Z, 12%Z, [143; 143; 143; 143]%Z); Some (3, 15%Z, 24%Z, [143; 143; 143; 143]%Z); Some (4, 15%Z, 14%Z, [143; 143; 143; 143]%Z)].
Proof. vm_compute. reflexivity. Qed.

(** * C97 *)
(** A client that has to read key [k0] before it can end, and does not store it itself. *)
Inductive waits {R} (k0 : string) : prog R -> Prop :=
  | wt_crash : waits k0 Crash
  | wt_put k v p : k <> k0 -> waits k0 p -> waits k0 (Put k v p)
  | wt_here f : waits k0 (Get k0 f)
  | wt_get k f : (forall v, waits k0 (f v)) -> waits k0 (Get k f).
Lemma waits_gets {R} k0 ks : forall (f : list string -> prog R), In k0 ks -> waits k0 (gets ks f).
Proof.
  induction ks as [|k ks IH]; intros f I; [destruct I|]. cbn [gets]. destruct I as [->|I]; [apply wt_here|]. apply wt_get. intros v. apply IH, I.
Qed.
Lemma waits_exchange {R A} (c : json A) me n r u own (f : list A -> prog R) j : j <> me -> round_ok r -> (1 <= j <= N.of_nat n)%N -> waits (bkey j r u) (exchange c me n r u own f).
Proof.
  intros N O B. unfold exchange. apply wt_put.
  - intros E. apply bkey_inj in E; try apply O. destruct E as [E _]. congruence.
  - apply waits_gets. apply in_map_iff. exists j. split; [reflexivity|]. apply (proj2 (others_others me n)). auto.
Qed.
Section Stuck.
Context {R : Type} (oc : bool) (ser : party_signup -> string) (par : string -> option party_signup) (uuid : nat -> string) (u k0 : string).
Hypothesis K0 : session_key u k0.
Lemma stuck_step (w : sys18 R) a : outside u a -> sm_get k0 (sv_map (y_sv w)) = None -> Forall (waits k0) (y_cl w) ->
  sm_get k0 (sv_map (y_sv (step18 oc ser par uuid w a))) = None /\ Forall (waits k0) (y_cl (step18 oc ser par uuid w a)).
Proof.
  intros O S W. assert (UP : forall c p, waits k0 p -> Forall (waits k0) (set_nth (y_cl w) c p)).
  { intros c p P. unfold set_nth. rewrite <- (firstn_skipn c (y_cl w)) in W. apply Forall_app in W. destruct W as [W1 W2]. apply Forall_app. split; [exact W1|]. destruct (skipn c (y_cl w)); [constructor|]. inversion W2; subst. constructor; assumption. }
  assert (IN : forall c p, nth_error (y_cl w) c = Some p -> waits k0 p) by (intros c p E; apply nth_error_In in E; rewrite Forall_forall in W; apply W, E).
  destruct a as [c|c|a]; cbn [step18].
  - destruct (nth_error (y_cl w) c) as [p|] eqn:E; [|auto]. apply IN in E. destruct p as [r| |k v p|k f]; [auto|auto| |].
    + inversion E as [|k1 v1 p1 NE WP E1| |]; subst. cbn [step fst y_sv y_cl sv_map]. rewrite get_insert. destruct (String.eqb_spec k0 k) as [->|]; [congruence|]. auto.
    + cbn [step]. destruct (sm_get k (sv_map (y_sv w))) as [v|] eqn:G; cbn [y_sv y_cl]; [|auto]. split; [exact S|]. apply UP. inversion E as [| |f1 E1|k1 f1 WF E1]; subst; [congruence|apply WF].
  - destruct (nth_error (y_cl w) c) as [p|] eqn:E; [|auto]. apply IN in E. destruct p as [r| |k v p|k f]; auto.
    inversion E as [|k1 v1 p1 NE WP E1| |]; subst. cbn [step fst y_sv y_cl sv_map]. rewrite get_insert. destruct (String.eqb_spec k0 k) as [->|]; [congruence|]. auto.
  - cbn [y_sv y_cl]. split; [|exact W]. destruct a as [k v|k|d p|t]; cbn [step outside] in *.
    + cbn [fst sv_map]. rewrite get_insert. destruct (String.eqb_spec k0 k) as [->|]; [contradiction|exact S].
    + exact S.
    + destruct (sm_get (signup_key d) (sv_map (y_sv w))) as [x|]; [destruct (par x); [destruct (session_size oc d p); [match goal with |- context [next_signup ?a ?b ?c] => destruct (next_signup a b c) end|]|]|]; exact S.
    + destruct (nth t (sv_pending (y_sv w)) None) as [[d p]|]; [|exact S]. cbn [fst sv_map]. rewrite get_insert. destruct (String.eqb_spec k0 (signup_key d)) as [E|]; [|exact S].
      destruct (session_free u k0 K0). rewrite E. apply reserved_key.
Qed.
Lemma stuck_exec l : forall (w : sys18 R), Forall (outside u) l -> sm_get k0 (sv_map (y_sv w)) = None -> Forall (waits k0) (y_cl w) ->
  Forall (waits k0) (y_cl (exec18 oc ser par uuid w l)).
Proof.
  induction l as [|a l IH]; intros w O S W; [exact W|]. inversion O; subst. destruct (stuck_step w a) as [S1 W1]; auto. cbn [exec18 fold_left]. apply IH; assumption.
Qed.
End Stuck.

(** Too few numbers: two clients of n have the same one *)
Lemma missing_number (num_of : nat -> nat) n a b : (forall c, c < n -> 1 <= num_of c <= n) -> a < n -> b < n -> a <> b -> num_of a = num_of b ->
  exists j, 1 <= j <= n /\ forall c, c < n -> num_of c <> j.
Proof.
  intros H La Lb N E. set (L := map num_of (seq 0 n)).
  destruct (existsb (fun j => negb (existsb (Nat.eqb j) L)) (seq 1 n)) eqn:X.
  - apply existsb_exists in X. destruct X as (j & J & X). apply in_seq in J. exists j. split; [lia|]. intros c Lc Q. apply negb_true_iff in X.
    enough (true = false) by discriminate. rewrite <- X. symmetry. apply existsb_exists. exists j. split; [|apply Nat.eqb_refl]. unfold L. apply in_map_iff. exists c. split; [exact Q|apply in_seq; lia].
  - exfalso. assert (I : incl (seq 1 n) L).
    { intros j J. destruct (existsb (Nat.eqb j) L) eqn:Y; [apply existsb_exists in Y; destruct Y as (k & K & Y); apply Nat.eqb_eq in Y; congruence|].
      enough (true = false) by discriminate. rewrite <- X. symmetry. apply existsb_exists. exists j. rewrite Y. auto. }
    assert (LL : length L = n) by (unfold L; rewrite map_length, seq_length; reflexivity).
    assert (ND : NoDup L) by (eapply NoDup_incl_NoDup; [apply (seq_NoDup n 1)|rewrite seq_length; lia|exact I]).
    rewrite (NoDup_nth L 0) in ND. apply N. apply ND; [lia|lia|]. unfold L. rewrite !(nth_indep _ 0 (num_of 0)) by (rewrite map_length, seq_length; lia). rewrite !map_nth, !seq_nth by lia. exact E.
Qed.

(** Any clients of one session, however many, of which none has the number j between 1 and n, never write a key file, whatever
    they and the server do. *)
Theorem C97_missing_number_refuted :
  forall (C : Curve) Hb (Hf : hashF C) ck aenc adec j_bc j_dec j_aead j_vss j_dlog (t n : nat) (clients : list (nat * kg18_rand C * (nat -> list Z)))
    oc ser par uuid (u : string) (s : server) j,
  1 <= j <= n -> (forall x, In x clients -> fst (fst x) <> j) ->
  used_server oc ser par uuid u s ->
  forall l, Forall (outside u) l -> forall c f,
  nth_error (y_cl (exec18 oc ser par uuid
    {| y_sv := s; y_cl := map (fun x => keygen18_client C Hb Hf ck aenc adec j_bc j_dec j_aead j_vss j_dlog t n (fst (fst x)) u (snd (fst x)) (snd x)) clients |} l)) c <> Some (Done f).
Proof.
  intros C Hb Hf ck aenc adec j_bc j_dec j_aead j_vss j_dlog t n clients oc ser par uuid u s j J NJ US l O c f X.
  assert (RO : round_ok "round1") by (apply round_ok_r; reflexivity).
  assert (K0 : session_key u (bkey (N.of_nat j) "round1" u)) by (exists (N.of_nat j), "round1"%string; auto).
  assert (W : Forall (waits (bkey (N.of_nat j) "round1" u)) (y_cl (exec18 oc ser par uuid
    {| y_sv := s; y_cl := map (fun x => keygen18_client C Hb Hf ck aenc adec j_bc j_dec j_aead j_vss j_dlog t n (fst (fst x)) u (snd (fst x)) (snd x)) clients |} l))).
  { apply (stuck_exec oc ser par uuid u _ K0); [exact O|apply (used_fresh _ _ _ _ _ _ US), K0|]. cbn [y_cl]. apply Forall_forall. intros p P. apply in_map_iff in P. destruct P as (d & <- & D).
    unfold keygen18_client. match goal with |- waits _ (let '(_, _) := ?x in _) => destruct x as [bc dec] end.
    apply waits_exchange; [|exact RO|lia]. intros Q. apply (NJ d D). lia. }
  apply nth_error_In in X. rewrite Forall_forall in W. apply W in X. inversion X.
Qed.
Print Assumptions C97_missing_number_refuted.
(** n clients of one session two of which were given the same number (as concurrent signups are, C71_concurrent_refuted) never
    write a key file, whatever they and the server do. *)
Theorem C97_same_number_refuted :
  forall (C : Curve) Hb (Hf : hashF C) ck aenc adec j_bc j_dec j_aead j_vss j_dlog (t n : nat) (num_of : nat -> nat) (rs : nat -> kg18_rand C) (nonces : nat -> nat -> list Z)
    oc ser par uuid (u : string) (s : server) a b,
  (forall c, c < n -> 1 <= num_of c <= n) -> a < n -> b < n -> a <> b -> num_of a = num_of b ->
  used_server oc ser par uuid u s ->
  forall l, Forall (outside u) l -> forall c f,
  nth_error (y_cl (exec18 oc ser par uuid
    {| y_sv := s; y_cl := map (fun c => keygen18_client C Hb Hf ck aenc adec j_bc j_dec j_aead j_vss j_dlog t n (num_of c) u (rs c) (nonces c)) (seq 0 n) |} l)) c <> Some (Done f).
Proof.
  intros C Hb Hf ck aenc adec j_bc j_dec j_aead j_vss j_dlog t n num_of rs nonces oc ser par uuid u s a b H La Lb N E US l O c f.
  destruct (missing_number num_of n a b H La Lb N E) as (j & J & NJ).
  pose proof (C97_missing_number_refuted C Hb Hf ck aenc adec j_bc j_dec j_aead j_vss j_dlog t n (map (fun c => (num_of c, rs c, nonces c)) (seq 0 n)) oc ser par uuid u s j J) as Q.
  rewrite map_map in Q. cbn [fst snd] in Q. apply Q; [|exact US|exact O].
  intros x X. apply in_map_iff in X. destruct X as (d & <- & D). apply in_seq in D. apply NJ. lia.
Qed.
Print Assumptions C97_same_number_refuted.
(** Number 2 is missing: after 600 requests nobody has ended. *)
Example C97_example :
  let num_of c := nth c [1; 1; 3; 4] 0 in
  (forall c, c < 4 -> 1 <= num_of c <= 4) /\ num_of 0 = num_of 1 /\
  let l := List.concat (repeat [Cl 3; Cl 1; Cl 0; Cl 2] 150) in
  map (fun p : prog (file18 toy) => match p with Done _ => 1 | Crash => 2 | Get k _ => if String.eqb k "2-round1-u" then 0 else 3 | _ => 3 end)
      (y_cl (exec18 true exser expar exuuid {| y_sv := sv_init exser exuuid; y_cl := map (fun c =>
        keygen18_client toy exHb exHf3 (fun _ N => (N =? 143)%Z) exaenc exadec (jof cbc18) (jof cdec1) (jof caead) (jof cvss) (jof cdlog) 2 4 (num_of c) "u" (exrs18 c) (fun j => [])) (seq 0 4) |} l)) =
  [0; 0; 0; 0].
Proof. split; [intros [|[|[|[|c]]]] L; cbn; lia|]. split; [reflexivity|]. vm_compute. reflexivity. Qed.

Lemma srun_exec oc ser par uuid pr l : forall s, exists l', fst (srun oc ser par uuid pr s l) = fst (exec oc ser par uuid s l') /\ forall k v, In (ASet k v) l' -> In (SSet k v) l.
Proof.
  induction l as [|a l IH]; intros s; [exists []; split; [reflexivity|intros k v []]|]. cbn [srun].
  assert (A : exists l1, srun1 oc ser par uuid pr s a = exec oc ser par uuid s l1 /\ forall k v, In (ASet k v) l1 -> a = SSet k v).
  { destruct a as [k v|k|d]; cbn [srun1].
    - exists [ASet k v]. split; [reflexivity|]. intros k' v' [E|[]]. injection E as <- <-. reflexivity.
    - exists [AGet k]. split; [reflexivity|]. intros k' v' [E|[]]. discriminate.
    - eexists. split; [reflexivity|]. intros k' v' [E|[E|[]]]; discriminate. }
  destruct A as (l1 & E1 & A1). rewrite E1. destruct (exec oc ser par uuid s l1) as [s1 o1] eqn:X1. destruct (IH s1) as (l2 & E2 & A2).
  exists (l1 ++ l2). rewrite Manager18Proofs.exec_app, X1. destruct (srun oc ser par uuid pr s1 l) as [s2 o2]. destruct (exec oc ser par uuid s1 l2) as [s3 o3]. cbn [fst] in *. split; [exact E2|].
  intros k v I. apply in_app_iff in I. destruct I as [I|I]; [left; symmetry; auto|right; auto].
  symmetry. rewrite (A1 _ _ I). reflexivity.
Qed.

Lemma served oc ser par uuid pr l s tr d e n :
  (forall p, par (ser p) = Some p) -> (forall i j, uuid i = uuid j -> i = j) -> (forall d, 1 <= parties_of d (pr d) < 65536)%Z -> parties_of d (pr d) = Z.of_nat n ->
  Forall stame l -> srun oc ser par uuid pr (sv_init ser uuid) l = (s, tr) -> (e + 1) * n <= length (signed d tr) ->
  exists u, (forall i, i < n -> nth_error (signed d tr) (e * n + i) = Some {| ps_number := Z.of_nat (i + 1); ps_uuid := u |}) /\
    ((forall k v, In (SSet k v) l -> ~ session_key u k) -> used_server oc ser par uuid u s).
Proof.
  intros SP UF HP SZ T E L. destruct (C71_sequential oc ser par uuid SP UF pr HP l s tr T E d) as (ss & _ & G). exists (ss e). split.
  - intros i I. assert (L' : e * n + i < length (signed d tr)) by nia. apply nth_error_Some in L'. destruct (nth_error (signed d tr) (e * n + i)) as [p|] eqn:N; [|contradiction].
    destruct (G _ _ N) as [G1 G2]. rewrite SZ in G1, G2. replace (Z.of_nat (e * n + i)) with (Z.of_nat i + Z.of_nat e * Z.of_nat n)%Z in G1, G2 by lia.
    rewrite Z.mod_add, Z.mod_small in G1 by lia. rewrite Z.div_add, Z.div_small, Z.add_0_l, Nat2Z.id in G2 by lia. f_equal. destruct p as [a b]. cbn [ps_number ps_uuid] in G1, G2. clear - G1 G2. f_equal; [lia|exact G2].
  - intros H. destruct (srun_exec oc ser par uuid pr l (sv_init ser uuid)) as (l' & E' & A). exists l'. split.
    + apply Forall_forall. intros [k v|k|d' q|w] I; try exact Logic.I. apply (H k v), A, I.
    + rewrite <- E', E. reflexivity.
Qed.

(** Signups served one at a time: in every full session the clients, using the numbers and the uuid the server gave them, all
    write their key files, as in C96. Gets and sets of other keys may come in between. *)
Theorem C97_sequential_signups_finish :
  forall (C : Curve) Hb (Hf : hashF C) ck aenc adec j_bc j_dec j_aead j_vss j_dlog (t n : nat) (rs : nat -> kg18_rand C) (nonces : nat -> nat -> list Z)
    oc ser par uuid (pr : signup_kind -> Z) l s tr (e : nat),
  (forall k nonce x, adec k (aenc k nonce x) = Some x) -> json_ok j_bc -> json_ok j_dec -> json_ok j_aead -> json_ok j_vss -> json_ok j_dlog ->
  t < n -> (Z.of_nat n < cq C)%Z ->
  (forall i, i < n -> length (kr18_coefs (rs i)) = t) ->
  (forall i, i < n -> ck (kr18_ck (rs i)) (kr18_p1 (rs i) * kr18_p2 (rs i))%Z = true) ->
  (forall i, i < n -> kr18_u (rs i) <> f0) ->
  (forall p, par (ser p) = Some p) -> (forall i j, uuid i = uuid j -> i = j) -> (forall d, 1 <= parties_of d (pr d) < 65536)%Z -> pr Keygen = Z.of_nat n ->
  Forall stame l -> srun oc ser par uuid pr (sv_init ser uuid) l = (s, tr) -> (e + 1) * n <= length (signed Keygen tr) ->
  let ticket i := nth (e * n + i) (signed Keygen tr) {| ps_number := 0; ps_uuid := "" |} in
  (forall k v i, In (SSet k v) l -> i < n -> ~ session_key (ps_uuid (ticket i)) k) ->
  exists (file : nat -> file18 C),
  session_finishes oc ser par uuid (ps_uuid (ticket 0)) s n
    (fun i => keygen18_client C Hb Hf ck aenc adec j_bc j_dec j_aead j_vss j_dlog t n (Z.to_nat (ps_number (ticket i))) (ps_uuid (ticket i)) (rs i) (nonces i)) file (10 * n * n) /\
  (forall i, i < n -> f18_y (file i) = smul (fsum (map (fun j => kr18_u (rs j)) (seq 0 n))) gen).
Proof.
  intros C Hb Hf ck aenc adec j_bc j_dec j_aead j_vss j_dlog t n rs nonces oc ser par uuid pr l s tr e HA J1 J2 J3 J4 J5 Htn Hq Hco Hck Hu SP UF HP HN T E L ticket NS.
  destruct (served oc ser par uuid pr l s tr Keygen e n SP UF HP HN T E L) as (u & N & US).
  assert (TI : forall i, i < n -> ticket i = {| ps_number := Z.of_nat (i + 1); ps_uuid := u |}) by (intros i I; apply nth_error_nth, N, I).
  assert (US' : used_server oc ser par uuid u s) by (apply US; intros k v I; specialize (NS k v 0 I); rewrite TI in NS by lia; apply NS; lia).
  destruct (C96_keygen18_clients C Hb Hf ck aenc adec j_bc j_dec j_aead j_vss j_dlog t n rs nonces oc ser par uuid u s HA J1 J2 J3 J4 J5 Htn Hq Hco Hck Hu US') as (file & x & SF & FE & _).
  exists file. split; [|intros i I; rewrite (FE i I); reflexivity].
  rewrite (TI 0) by lia. cbn [ps_uuid]. unfold session_finishes in *.
  replace (map _ (seq 0 n)) with (map (fun i => keygen18_client C Hb Hf ck aenc adec j_bc j_dec j_aead j_vss j_dlog t n (i + 1) u (rs i) (nonces i)) (seq 0 n)); [exact SF|].
  apply map_ext_in. intros i I. apply in_seq in I. rewrite TI by lia. cbn [ps_number ps_uuid]. rewrite Nat2Z.id. reflexivity.
Qed.
Print Assumptions C97_sequential_signups_finish.
(** Six signups, two sessions of three: the second session's tickets *)
Example C97_sequential_example :
  let tr := snd (srun true unser unpar exuuid expr (sv_init unser exuuid) [SSignup Keygen; SSignup Keygen; SGet "x"; SSignup Keygen; SSignup Keygen; SSet "k" "v"; SSignup Keygen; SSignup Keygen]) in
  Forall stame [SSignup Keygen; SSignup Keygen; SGet "x"; SSignup Keygen; SSignup Keygen; SSet "k" "v"; SSignup Keygen; SSignup Keygen] /\
  (1 + 1) * 3 <= length (signed Keygen tr) /\ map (fun i => (ps_number (nth (1 * 3 + i) (signed Keygen tr) {| ps_number := 0; ps_uuid := "" |}))) (seq 0 3) = [1; 2; 3]%Z.
Proof. cbv zeta. split; [repeat constructor; intros [H|H]; discriminate|]. split; vm_compute; [lia|reflexivity]. Qed.

(** A lost answer to a signup: postb sends the request again (common.rs:91-101) and the client gets a new number. The clients that
    hold the other numbers of the session never write a key file. *)
Theorem C97_lost_answer_refuted :
  forall (C : Curve) Hb (Hf : hashF C) ck aenc adec j_bc j_dec j_aead j_vss j_dlog (t n : nat)
    oc ser par uuid (pr : signup_kind -> Z) l s tr (e lost : nat) (clients : list (nat * kg18_rand C * (nat -> list Z))),
  (forall p, par (ser p) = Some p) -> (forall i j, uuid i = uuid j -> i = j) -> (forall d, 1 <= parties_of d (pr d) < 65536)%Z -> pr Keygen = Z.of_nat n ->
  Forall stame l -> srun oc ser par uuid pr (sv_init ser uuid) l = (s, tr) -> (e + 1) * n <= length (signed Keygen tr) ->
  let ticket i := nth (e * n + i) (signed Keygen tr) {| ps_number := 0; ps_uuid := "" |} in
  (forall k v i, In (SSet k v) l -> i < n -> ~ session_key (ps_uuid (ticket i)) k) ->
  lost < n -> (forall x, In x clients -> fst (fst x) < n /\ fst (fst x) <> lost) ->
  forall l', Forall (outside (ps_uuid (ticket 0))) l' -> forall c f,
  nth_error (y_cl (exec18 oc ser par uuid
    {| y_sv := s; y_cl := map (fun x => keygen18_client C Hb Hf ck aenc adec j_bc j_dec j_aead j_vss j_dlog t n
         (Z.to_nat (ps_number (ticket (fst (fst x))))) (ps_uuid (ticket (fst (fst x)))) (snd (fst x)) (snd x)) clients |} l')) c <> Some (Done f).
Proof.
  intros C Hb Hf ck aenc adec j_bc j_dec j_aead j_vss j_dlog t n oc ser par uuid pr l s tr e lost clients SP UF HP HN T E L ticket NS LO CL l' O c f.
  destruct (served oc ser par uuid pr l s tr Keygen e n SP UF HP HN T E L) as (u & N & US).
  assert (TI : forall i, i < n -> ticket i = {| ps_number := Z.of_nat (i + 1); ps_uuid := u |}) by (intros i I; apply nth_error_nth, N, I).
  assert (US' : used_server oc ser par uuid u s) by (apply US; intros k v I; specialize (NS k v 0 I); rewrite TI in NS by lia; apply NS; lia).
  rewrite (TI 0) in O by lia. cbn [ps_uuid] in O.
  pose proof (C97_missing_number_refuted C Hb Hf ck aenc adec j_bc j_dec j_aead j_vss j_dlog t n (map (fun x => (fst (fst x) + 1, snd (fst x), snd x)) clients) oc ser par uuid u s (lost + 1) ltac:(lia)) as Q.
  rewrite map_map in Q. cbn [fst snd] in Q.
  replace (map _ clients) with (map (fun x => keygen18_client C Hb Hf ck aenc adec j_bc j_dec j_aead j_vss j_dlog t n (fst (fst x) + 1) u (snd (fst x)) (snd x)) clients).
  - apply Q; [|exact US'|exact O]. intros x X. apply in_map_iff in X. destruct X as (d & <- & D). cbn [fst]. apply CL in D. lia.
  - apply map_ext_in. intros x X. apply CL in X. rewrite TI by lia. cbn [ps_number ps_uuid]. rewrite Nat2Z.id. reflexivity.
Qed.
Print Assumptions C97_lost_answer_refuted.
(** Three parties; the first client's signup is repeated: the tickets held are those of places 1 and 2, place 0 is lost. *)
Example C97_lost_example :
  let tr := snd (srun true unser unpar exuuid expr (sv_init unser exuuid) [SSignup Keygen; SSignup Keygen; SSignup Keygen]) in
  let clients := [(1, exrs18 0, fun _ : nat => [] : list Z); (2, exrs18 1, fun _ => [])] in
  (0 + 1) * 3 <= length (signed Keygen tr) /\ (forall x, In x clients -> fst (fst x) < 3 /\ fst (fst x) <> 0).
Proof. cbv zeta. split; [vm_compute; lia|]. intros x [<-|[<-|[]]]; cbn; lia. Qed.

(** C126: the requests of a GG18 client come in an order fixed in advance.  C127: what a GG18 signer has checked when it gives away its partial signature. *)
From Coq Require Import String Ascii ZArith NArith Bool Lia List Field.
From Verif Require Import ZArithX Fq Curve Toy Outcome Sigma SigmaProofs Bytes Vss VssProofs Ecdsa KeygenExtra SignRunProofs Gg18RunProofs Mp MpProofs Mta Gg20Keygen Gg20Sign Gg18Keygen Gg18Sign Gg18SignProofs KeygenRun KeygenProofs NetSim
  Manager18 Manager18Proofs Clients18 Clients18Proofs Clients18Prog Clients18Rounds Clients18KgProofs Clients18Ends PropKeygen PropSign18 PropManager18 Codec PropClients18 PropSign PropClients18Sign PropClients18Exact SmTags.
From Verif Require Import PropRange.
Import ListNotations.
Local Open Scope nat_scope.

(** ** What a client asks and is told *)
(** A request together with the text stored or the text read *)
Inductive rq := Stored (k v : string) | Told (k v : string).
(** Whether it stores, and the key *)
Definition kind (e : rq) : bool * string := match e with Stored k _ => (true, k) | Told k _ => (false, k) end.
Definition told (l : list rq) : list string := flat_map (fun e => match e with Told _ v => [v] | _ => [] end) l.

Section Log.
Context {R : Type}.
(** The requests of a client that is told the texts a, up to the first it waits for *)
Fixpoint talk (p : prog R) (a : list string) : list rq :=
  match p with
  | Put k v p => Stored k v :: talk p a
  | Get k f => match a with [] => [] | v :: a' => Told k v :: talk (f v) a' end
  | _ => []
  end.
Context (oc : bool) (ser : party_signup -> string) (par : string -> option party_signup) (uuid : nat -> string).
(** The requests of client c that were answered in an execution *)
Definition one18 (c : nat) (w : sys18 R) (x : act18) : list rq :=
  match x with
  | Cl d => if d =? c then match nth_error (y_cl w) c with
      | Some (Put k v _) => [Stored k v]
      | Some (Get k _) => match sm_get k (sv_map (y_sv w)) with Some v => [Told k v] | None => [] end
      | _ => [] end else []
  | _ => []
  end.
Fixpoint log18 (c : nat) (w : sys18 R) (l : list act18) : list rq :=
  match l with [] => [] | x :: t => one18 c w x ++ log18 c (step18 oc ser par uuid w x) t end.

Lemma log_talk l : forall (w : sys18 R) c p, nth_error (y_cl w) c = Some p ->
  exists p', nth_error (y_cl (exec18 oc ser par uuid w l)) c = Some p' /\
    forall b, talk p (told (log18 c w l) ++ b) = log18 c w l ++ talk p' b /\ feed p (told (log18 c w l) ++ b) = feed p' b.
Proof.
  induction l as [|x l IH]; intros w c p E; [exists p; split; [exact E|split; reflexivity]|]. cbn [exec18 fold_left log18]. fold (exec18 oc ser par uuid (step18 oc ser par uuid w x) l).
  assert (S1 : exists p1, nth_error (y_cl (step18 oc ser par uuid w x)) c = Some p1 /\ forall b, talk p (told (one18 c w x) ++ b) = one18 c w x ++ talk p1 b /\ feed p (told (one18 c w x) ++ b) = feed p1 b).
  { assert (SN : forall d y z, d <> c -> nth_error (y_cl w) d = Some y -> nth_error (set_nth (y_cl w) d z) c = Some p).
    { intros d y z NE D. rewrite set_nth_nth by (apply nth_error_Some; congruence). destruct (Nat.eqb_spec c d); [congruence|exact E]. }
    destruct x as [d|d|e]; cbn [step18 one18].
    - destruct (Nat.eqb_spec d c) as [->|NE].
      + rewrite E. destruct p as [r| |k v p0|k f]; cbn [y_cl]; try (exists Crash; split; [exact E|split; reflexivity]); try (eexists; split; [exact E|split; reflexivity]).
        * exists p0. split; [rewrite set_nth_nth by (apply nth_error_Some; congruence); rewrite Nat.eqb_refl; reflexivity|split; reflexivity].
        * cbn [step]. destruct (sm_get k (sv_map (y_sv w))) as [v|]; cbn [y_cl]; [|eexists; split; [exact E|split; reflexivity]].
          exists (f v). split; [rewrite set_nth_nth by (apply nth_error_Some; congruence); rewrite Nat.eqb_refl; reflexivity|split; reflexivity].
      + exists p. split; [|split; reflexivity]. destruct (nth_error (y_cl w) d) as [[r| |k v p0|k f]|] eqn:D; try exact E; cbn [y_cl]; [apply (SN d _ _ NE D)|].
        cbn [step]. destruct (sm_get k (sv_map (y_sv w))) as [v|]; cbn [y_cl]; [apply (SN d _ _ NE D)|exact E].
    - exists p. split; [|split; reflexivity]. destruct (nth_error (y_cl w) d) as [[r| |k v p0|k f]|]; exact E.
    - exists p. split; [exact E|split; reflexivity]. }
  destruct S1 as (p1 & E1 & Q). destruct (IH _ _ _ E1) as (p' & E' & Q'). exists p'. split; [exact E'|]. intros b. unfold told. rewrite flat_map_app. fold told. rewrite <- app_assoc. fold (told (one18 c w x)). destruct (Q (told (log18 c (step18 oc ser par uuid w x) l) ++ b)) as [Q1 Q2]. destruct (Q' b) as [Q3 Q4].
  fold (told (log18 c (step18 oc ser par uuid w x) l)). rewrite Q1, Q2, Q3, Q4, app_assoc. auto.
Qed.

(** ** Programs that follow a list of requests *)
Definition follows (p : prog R) (sc : list (bool * string)) : Prop :=
  forall a, exists rest, map kind (talk p a) ++ rest = sc /\ forall r, feed p a = Done r -> rest = [].
Lemma follows_done r : follows (Done r) [].
Proof. intros a. exists []. split; reflexivity. Qed.
Lemma follows_crash sc : follows (Crash : prog R) sc.
Proof. intros a. exists sc. split; [reflexivity|]. cbn [feed]. discriminate. Qed.
Lemma follows_need {E A} (o : outcome E A) (f : A -> prog R) sc : (forall x, o = Ok x -> follows (f x) sc) -> follows (need o f) sc.
Proof. intros H. destruct o as [x|e|]; cbn [need]; [apply H; reflexivity|apply follows_crash|apply follows_crash]. Qed.
Lemma follows_gets ks : forall (f : list string -> prog R) sc, (forall l, length l = length ks -> follows (f l) sc) -> follows (gets ks f) (map (pair false) ks ++ sc).
Proof.
  induction ks as [|k ks IH]; intros f sc H; cbn [gets map app]; [apply H; reflexivity|]. intros [|v a]; cbn [talk feed].
  - eexists. split; [reflexivity|]. discriminate.
  - destruct (IH (fun l => f (v :: l)) sc (fun l L => H (v :: l) (f_equal S L)) a) as (rest & Q & D). exists rest. cbn [map kind app]. split; [f_equal; exact Q|exact D].
Qed.
Lemma follows_puts l (p : prog R) sc : follows p sc -> follows (puts l p) (map (fun x => (true, fst x)) l ++ sc).
Proof.
  intros H. induction l as [|[k v] l IH]; cbn [puts map app fst]; [exact H|]. intros a. destruct (IH a) as (rest & Q & D). exists rest. cbn [talk feed map kind app]. split; [f_equal; exact Q|exact D].
Qed.
End Log.

(** The requests of one round of client number i + 1 among m: store, then read the others' messages in the order of their numbers *)
Definition round_reqs (m i : nat) (u : string) (r : string * bool) : list (bool * string) :=
  let '(nm, p2p) := r in
  if p2p : bool then map (fun j => (true, pkey (num i) (num j) nm u)) (others i m) ++ map (fun j => (false, pkey (num j) (num i) nm u)) (others i m)
  else (true, bkey (num i) nm u) :: map (fun j => (false, bkey (num j) nm u)) (others i m).
Definition script (m i : nat) (u : string) (rs : list (string * bool)) : list (bool * string) := flat_map (round_reqs m i u) rs.
Definition keygen_rounds : list (string * bool) := [("round1", false); ("round2", false); ("round3", true); ("round4", false); ("round5", false)]%string.
Definition sign_rounds : list (string * bool) :=
  [("round0", false); ("round1", false); ("round2", true); ("round3", false); ("round4", false); ("round5", false); ("round6", false); ("round7", false); ("round8", false); ("round9", false)]%string.

Section Follow.
Context {R : Type}.
Lemma omapM_len {X A E} (g : X -> outcome E A) : forall (l : list X) r, omapM g l = Ok r -> length r = length l.
Proof. induction l as [|a l IH]; intros r H; cbn [omapM] in H; [injection H as <-; reflexivity|]. apply obind_ok in H. destruct H as (y & _ & H). apply obind_ok in H. destruct H as (r' & Q & H). injection H as <-. cbn [length]. rewrite (IH _ Q). reflexivity. Qed.
Lemma follows_exchange {A} (c : json A) i n rd u (own : A) (f : list A -> prog R) rs : i < n ->
  (forall l, length l = length (others i n) -> follows (f l) (script n i u rs)) -> follows (exchange c (num i) n rd u own f) (script n i u ((rd, false) :: rs)).
Proof.
  intros L H. unfold exchange. cbn [script flat_map round_reqs app]. fold (script n i u rs). rewrite others_num, map_map by exact L.
  assert (G : follows (gets (map (fun j => bkey (num j) rd u) (others i n)) (fun l => need (omapM (parse c) l) f)) (map (fun j => (false, bkey (num j) rd u)) (others i n) ++ script n i u rs)).
  { rewrite <- (map_map (fun j => bkey (num j) rd u) (pair false)). apply follows_gets. intros l LL. apply follows_need. intros x X. apply H. rewrite (omapM_len _ _ _ X), LL, map_length. reflexivity. }
  intros a. destruct (G a) as (rest & Q & D). exists rest. cbn [talk feed map kind app]. split; [f_equal; exact Q|exact D].
Qed.
Lemma combine_num {A} (g : nat -> string) (h : A -> string) : forall (ks : list nat) (own : list A), length own = length ks ->
  forall f, (forall k, f (num k) = g k) -> map (fun x : string * string => (true, fst x)) (map (fun x => (f (fst x), h (snd x))) (combine (map num ks) own)) = map (fun j => (true, g j)) ks.
Proof. induction ks as [|k ks IH]; intros [|o own] L f H; try discriminate; [reflexivity|]. cbn [map combine fst snd]. rewrite (H k). f_equal. apply IH; [injection L; auto|exact H]. Qed.
Lemma follows_p2p {A} (c : json A) i n rd u (own : list A) (f : list A -> prog R) rs : i < n -> length own = length (others i n) ->
  (forall l, length l = length (others i n) -> follows (f l) (script n i u rs)) -> follows (exchange_p2p c (num i) n rd u own f) (script n i u ((rd, true) :: rs)).
Proof.
  intros L LO H. unfold exchange_p2p. cbn [script flat_map round_reqs]. fold (script n i u rs). rewrite others_num, map_map, <- app_assoc by exact L.
  rewrite <- (combine_num (fun j => pkey (num i) (num j) rd u) (js c) (others i n) own LO (fun k => pkey (num i) k rd u) (fun _ => eq_refl)). apply follows_puts.
  rewrite <- (map_map (fun j => pkey (num j) (num i) rd u) (pair false)). apply follows_gets. intros l LL. apply follows_need. intros x X. apply H. rewrite (omapM_len _ _ _ X), LL, map_length. reflexivity.
Qed.
(** In an execution: what was answered, followed by what the client asks now, is the beginning of the list *)
Lemma follows_exec oc ser par uuid (w : sys18 R) l c p sc : nth_error (y_cl w) c = Some p -> follows p sc ->
  match nth_error (y_cl (exec18 oc ser par uuid w l)) c with
  | Some (Done _) => sc = map kind (log18 oc ser par uuid c w l)
  | Some (Put k _ _) => exists rest, sc = map kind (log18 oc ser par uuid c w l) ++ (true, k) :: rest
  | Some (Get k _) => exists rest, sc = map kind (log18 oc ser par uuid c w l) ++ (false, k) :: rest
  | Some Crash => exists rest, sc = map kind (log18 oc ser par uuid c w l) ++ rest
  | None => False
  end.
Proof.
  intros E H. destruct (log_talk oc ser par uuid l w c p E) as (p' & E' & Q). rewrite E'. set (g := log18 oc ser par uuid c w l) in *.
  destruct (Q []) as [Q1 Q2]. rewrite app_nil_r in Q1, Q2. destruct (H (told g)) as (rest & S1 & S2). rewrite Q1, map_app in S1. rewrite Q2 in S2.
  destruct p' as [r| |k v p'|k f]; cbn [talk map kind feed] in S1, S2.
  - rewrite (S2 r eq_refl), !app_nil_r in S1. symmetry. exact S1.
  - rewrite app_nil_r in S1. exists rest. symmetry. exact S1.
  - eexists. rewrite <- app_assoc in S1. symmetry. exact S1.
  - destruct (Q [EmptyString]) as [Q3 _]. destruct (H (told g ++ [EmptyString])) as (rest' & S3 & _). rewrite Q3, map_app in S3. cbn [talk map kind] in S3. eexists. rewrite <- app_assoc in S3. symmetry. exact S3.
Qed.
End Follow.

Section Order.
Context (C : Curve).
Notation q := (cq C).
Notation F := (Fq q).
Context (Hb : list Z -> Z) (Hz : hashZ C) (Hf : hashF C) (ck : Z -> Z -> bool).
Context (aenc : list Z -> list Z -> list Z -> aead) (adec : list Z -> aead -> option (list Z)).
Context (j_bc : json bc18) (j_dec : json (kg_dec1 C)) (j_aead : json aead) (j_vss : json (vss C)) (j_dlog : json (dlog_proof C)).
Context (j_id : json Z) (j_1 : json (Z * msg_a)) (j_mb : json (msg_b C * msg_b C)) (j_F : json F) (j_dg : json (sign_dec C)) (j_com : json Z)
  (j_5a : json (dec5a C * heg_proof C * dlog_proof C)) (j_5d : json (dec5d C)).
Notation kclient := (keygen18_client C Hb Hf ck aenc adec j_bc j_dec j_aead j_vss j_dlog).
Notation sclient := (sign18_client C Hb Hz Hf j_id j_1 j_mb j_F j_dg j_com j_5a j_5d).

Lemma keygen_follows t n i u (r : kg18_rand C) nonces : i < n -> follows (kclient t n (S i) u r nonces) (script n i u keygen_rounds).
Proof.
  intros L. unfold keygen18_client, kg18_phase1, keygen_rounds. cbv zeta. fold (num i). replace (S i - 1) with i by lia.
  apply follows_exchange; [exact L|]. intros a1 _. apply follows_need. intros bc1 _. apply follows_exchange; [exact L|]. intros a2 L2. apply follows_need. intros decs _. apply follows_need. intros eks HE.
  apply follows_need. intros p0 _. apply follows_need. intros [[vs shares] ix] _. apply follows_need. intros packs HP.
  apply follows_p2p; [exact L|rewrite (omapM_len _ _ _ HP), combine_length, (omapM_len _ _ _ HE), L2; lia|]. intros a3 _. apply follows_need. intros got _. apply follows_need. intros ps _.
  apply follows_exchange; [exact L|]. intros a4 _. apply follows_need. intros vsss _. apply follows_need. intros skp _. apply follows_exchange; [exact L|]. intros a5 _. apply follows_need. intros prs _. apply follows_need. intros _ _. apply follows_done.
Qed.
Lemma sign_follows m i id u k (r : rand18 C) msg : i < m -> follows (sclient m (S i) id u k r msg) (script m i u sign_rounds).
Proof.
  intros L. unfold sign18_client, sign_rounds. cbv zeta. fold (num i). replace (S i - 1) with i by lia.
  apply follows_exchange; [exact L|]. intros a0 _. apply follows_need. intros ids _. apply follows_need. intros sv _. apply follows_need. intros keys _. apply follows_need. intros xi _.
  destruct (g18_phase1 Hb keys (r18_blind r)) as [com dec]. apply follows_exchange; [exact L|]. intros a1 L1.
  do 2 (apply follows_need; intros ? _). apply follows_need. intros bs HB. apply follows_p2p; [exact L|rewrite map_length, (omapM_len _ _ _ HB), combine_length, map_length, L1; lia|]. intros a2 _.
  do 3 (apply follows_need; intros ? _). apply follows_exchange; [exact L|]. intros a3 _. do 2 (apply follows_need; intros ? _). apply follows_exchange; [exact L|]. intros a4 _. do 5 (apply follows_need; intros ? _).
  destruct (g18_5a _ _ _ _ _ _ _) as [[[com5 dec5] heg] rho].
  apply follows_exchange; [exact L|]. intros a5 _. apply follows_need. intros ? _. apply follows_exchange; [exact L|]. intros a6 _. do 4 (apply follows_need; intros ? _).
  apply follows_exchange; [exact L|]. intros a7 _. apply follows_need. intros ? _. apply follows_exchange; [exact L|]. intros a8 _. do 2 (apply follows_need; intros ? _).
  apply follows_exchange; [exact L|]. intros a9 _. do 4 (apply follows_need; intros ? _). apply follows_done.
Qed.
End Order.

(** ** No key twice *)
Definition named (u nm k : string) : Prop := (exists a, k = bkey a nm u) \/ exists a b, k = pkey a b nm u.
Lemma named_fun u u' nm nm' k : round_ok nm -> round_ok nm' -> named u nm k -> named u' nm' k -> nm = nm'.
Proof.
  intros [A1 A2] [B1 B2] [[a ->]|(a & b & ->)] [[a' E]|(a' & b' & E)].
  - apply bkey_inj in E; auto. apply E.
  - exfalso. revert E. apply bkey_pkey; auto.
  - exfalso. symmetry in E. revert E. apply bkey_pkey; auto.
  - apply pkey_inj in E; auto. apply E.
Qed.
Lemma round_named m i u nm p k : In k (map snd (round_reqs m i u (nm, p))) -> named u nm k.
Proof.
  unfold round_reqs. destruct p; intros H.
  - rewrite map_app, in_app_iff, !map_map, !in_map_iff in H. cbn [snd] in H. destruct H as [(j & <- & _)|(j & <- & _)]; right; eauto.
  - cbn [map snd] in H. destruct H as [<-|H]; [left; eauto|]. rewrite map_map, in_map_iff in H. destruct H as (j & <- & _). left. cbn [snd]. eauto.
Qed.
Lemma script_named m i u rs k : In k (map snd (script m i u rs)) -> exists nm p, In (nm, p) rs /\ named u nm k.
Proof.
  unfold script. intros H. apply in_map_iff in H. destruct H as (e & <- & H). apply in_flat_map in H. destruct H as ([nm p] & R1 & H). exists nm, p. split; [exact R1|]. apply (round_named m i u nm p). apply in_map, H.
Qed.
Lemma NoDup_others i m : NoDup (others i m).
Proof.
  unfold others. apply nodup_app; [apply seq_NoDup|apply seq_NoDup|]. intros x X Y. apply in_seq in X, Y. lia.
Qed.
Lemma NoDup_map_inj {A B} (f : A -> B) l : (forall x y, In x l -> In y l -> f x = f y -> x = y) -> NoDup l -> NoDup (map f l).
Proof.
  induction l as [|a l IH]; intros H N; cbn [map]; [constructor|]. inversion N as [|? ? NI N']; subst. constructor.
  - intros I. apply in_map_iff in I. destruct I as (y & E & I). assert (y = a) by (apply H; [right; exact I|left; reflexivity|exact E]). subst. contradiction.
  - apply IH; [|exact N']. intros x y X Y. apply H; right; assumption.
Qed.
Lemma round_nodup m i u nm p : round_ok nm -> NoDup (map snd (round_reqs m i u (nm, p))).
Proof.
  intros [O1 O2]. unfold round_reqs. assert (IN : forall j, In j (others i m) -> j <> i) by (intros j J; apply in_others in J; lia). destruct p.
  - rewrite map_app, !map_map. cbn [snd]. apply nodup_app.
    + apply NoDup_map_inj; [|apply NoDup_others]. intros x y _ _ E. apply pkey_inj in E; auto. apply num_inj, E.
    + apply NoDup_map_inj; [|apply NoDup_others]. intros x y _ _ E. apply pkey_inj in E; auto. apply num_inj, E.
    + intros x X Y. apply in_map_iff in X, Y. destruct X as (j & <- & J). destruct Y as (k & E & K). apply pkey_inj in E; auto. destruct E as (E & _). apply num_inj in E. subst k. apply IN in K. congruence.
  - cbn [map snd]. rewrite map_map. cbn [snd]. constructor.
    + intros H. apply in_map_iff in H. destruct H as (j & E & J). apply bkey_inj in E; auto. destruct E as (E & _). apply num_inj in E. apply IN in J. contradiction.
    + apply NoDup_map_inj; [|apply NoDup_others]. intros x y _ _ E. apply bkey_inj in E; auto. apply num_inj, E.
Qed.
Lemma script_nodup m i u : forall rs, Forall (fun r => round_ok (fst r)) rs -> NoDup (map fst rs) -> NoDup (map snd (script m i u rs)).
Proof.
  induction rs as [|[nm p] rs IH]; intros O N; [constructor|]. inversion O as [|? ? O1 O2]; subst. inversion N as [|? ? N1 N2]; subst. cbn [script flat_map]. fold (script m i u rs). rewrite map_app. apply nodup_app.
  - apply round_nodup. exact O1.
  - apply IH; assumption.
  - intros k A B. apply round_named in A. apply script_named in B. destruct B as (nm' & p' & I & B). apply N1. rewrite (named_fun u u nm nm' k O1) by (try assumption; rewrite Forall_forall in O2; apply (O2 _ I)). apply (in_map fst) in I. exact I.
Qed.
Lemma split_once {A} (x : A) : forall l1 l2 l1' l2', NoDup (l1 ++ x :: l2) -> l1 ++ x :: l2 = l1' ++ x :: l2' -> l1 = l1'.
Proof.
  induction l1 as [|a l1 IH]; intros l2 [|b l1'] l2' N E; cbn [app] in *; [reflexivity| | |].
  - injection E as -> E. inversion N as [|? ? NI _]; subst. exfalso. apply NI. apply in_app_iff. right. left. reflexivity.
  - injection E as -> E. inversion N as [|? ? NI _]; subst. exfalso. apply NI. apply in_app_iff. right. left. reflexivity.
  - injection E as -> E. inversion N as [|? ? _ N']; subst. f_equal. exact (IH _ _ _ N' E).
Qed.
Lemma rounds_fine rs : forallb (fun r => match fst r with String c s => Ascii.eqb c "r"%char && nodash s | _ => false end) rs = true -> Forall (fun r : string * bool => round_ok (fst r)) rs.
Proof.
  intros H. rewrite forallb_forall in H. apply Forall_forall. intros [nm p] I. specialize (H _ I). cbn [fst] in *. destruct nm as [|c s]; [discriminate|]. apply andb_true_iff in H. destruct H as [H1 H2]. apply Ascii.eqb_eq in H1. subst c. apply round_ok_r, H2.
Qed.
Lemma keygen_nodup n i u : NoDup (map snd (script n i u keygen_rounds)).
Proof. apply script_nodup; [apply rounds_fine; reflexivity|]. cbn [keygen_rounds map fst]. repeat (constructor; [cbn [In]; intros X; repeat (destruct X as [X|X]; [discriminate|]); exact X|]). constructor. Qed.
Lemma sign_nodup n i u : NoDup (map snd (script n i u sign_rounds)).
Proof. apply script_nodup; [apply rounds_fine; reflexivity|]. cbn [sign_rounds map fst]. repeat (constructor; [cbn [In]; intros X; repeat (destruct X as [X|X]; [discriminate|]); exact X|]). constructor. Qed.

(** When a client stores its message of a round it has been told everybody's messages of the rounds before. *)
Lemma rounds_before m i u rs1 nm rs2 (g : list rq) rest : NoDup (map snd (script m i u (rs1 ++ (nm, false) :: rs2))) ->
  script m i u (rs1 ++ (nm, false) :: rs2) = map kind g ++ (true, bkey (num i) nm u) :: rest -> map kind g = script m i u rs1.
Proof.
  intros N E. symmetry. apply NoDup_map_inv in N. unfold script in *. rewrite flat_map_app in E, N. cbn [flat_map round_reqs app] in E, N. exact (split_once _ _ _ _ _ N E).
Qed.
Lemma told_before m i u rs1 nm' (g : list rq) j : map kind g = script m i u rs1 -> In (nm', false) rs1 -> j < m -> j <> i ->
  (exists v, In (Told (bkey (num j) nm' u) v) g) /\ exists v, In (Stored (bkey (num i) nm' u) v) g.
Proof.
  intros E I J NJ. assert (A : In (false, bkey (num j) nm' u) (map kind g) /\ In (true, bkey (num i) nm' u) (map kind g)).
  { rewrite E. unfold script. split; apply in_flat_map; exists (nm', false); (split; [exact I|]); cbn [round_reqs]; [right|left; reflexivity]. apply in_map_iff. exists j. split; [reflexivity|]. apply in_others. lia. }
  destruct A as [A B]. apply in_map_iff in A, B. destruct A as ([k v|k v] & A1 & A2); [discriminate|]. destruct B as ([k' v'|k' v'] & B1 & B2); [|discriminate]. cbn [kind] in A1, B1. injection A1 as ->. injection B1 as ->. eauto.
Qed.

Section Main.
Context (C : Curve).
Notation q := (cq C).
Notation F := (Fq q).
Context (Hb : list Z -> Z) (Hz : hashZ C) (Hf : hashF C) (ck : Z -> Z -> bool).
Context (aenc : list Z -> list Z -> list Z -> aead) (adec : list Z -> aead -> option (list Z)).
Context (j_bc : json bc18) (j_dec : json (kg_dec1 C)) (j_aead : json aead) (j_vss : json (vss C)) (j_dlog : json (dlog_proof C)).
Context (j_id : json Z) (j_1 : json (Z * msg_a)) (j_mb : json (msg_b C * msg_b C)) (j_F : json F) (j_dg : json (sign_dec C)) (j_com : json Z)
  (j_5a : json (dec5a C * heg_proof C * dlog_proof C)) (j_5d : json (dec5d C)).
Context (oc : bool) (ser : party_signup -> string) (par : string -> option party_signup) (uuid : nat -> string).
Notation kclient := (keygen18_client C Hb Hf ck aenc adec j_bc j_dec j_aead j_vss j_dlog).
Notation sclient := (sign18_client C Hb Hz Hf j_id j_1 j_mb j_F j_dg j_com j_5a j_5d).

(** * C126 *)
(** Whatever the server holds, the other clients do and others store: the requests of a client that were answered, followed by the request it makes next, are a beginning of a list that
    depends on nothing but the number of parties, the client's number and the session, and are all of it when the client has finished.  (A request whose answer got lost is the next one again.) *)
Theorem C126_keygen_requests_in_order (w : sys18 (file18 C)) l c t n i u (r : kg18_rand C) nonces : i < n -> nth_error (y_cl w) c = Some (kclient t n (S i) u r nonces) ->
  let made := map kind (log18 oc ser par uuid c w l) in
  match nth_error (y_cl (exec18 oc ser par uuid w l)) c with
  | Some (Done _) => script n i u keygen_rounds = made
  | Some (Put k _ _) => exists rest, script n i u keygen_rounds = made ++ (true, k) :: rest
  | Some (Get k _) => exists rest, script n i u keygen_rounds = made ++ (false, k) :: rest
  | Some Crash => exists rest, script n i u keygen_rounds = made ++ rest
  | None => False
  end.
Proof. intros L E. apply (follows_exec oc ser par uuid w l c _ _ E). apply keygen_follows, L. Qed.
Theorem C126_sign_requests_in_order (w : sys18 (sig_recid C)) l c m i id u k (r : rand18 C) msg : i < m -> nth_error (y_cl w) c = Some (sclient m (S i) id u k r msg) ->
  let made := map kind (log18 oc ser par uuid c w l) in
  match nth_error (y_cl (exec18 oc ser par uuid w l)) c with
  | Some (Done _) => script m i u sign_rounds = made
  | Some (Put k _ _) => exists rest, script m i u sign_rounds = made ++ (true, k) :: rest
  | Some (Get k _) => exists rest, script m i u sign_rounds = made ++ (false, k) :: rest
  | Some Crash => exists rest, script m i u sign_rounds = made ++ rest
  | None => False
  end.
Proof. intros L E. apply (follows_exec oc ser par uuid w l c _ _ E). apply sign_follows, L. Qed.
(** No key comes twice in these lists, so a client never replaces a message of its own by another one and never opens anything twice. *)
Theorem C126_no_key_twice n i u : NoDup (map snd (script n i u keygen_rounds)) /\ NoDup (map snd (script n i u sign_rounds)).
Proof. split; [apply keygen_nodup|apply sign_nodup]. Qed.
(** What a client has committed to it opens only after it has been told everybody's commitments. *)
Theorem C126_commitments_read_before_opening :
  (forall (w : sys18 (file18 C)) l c t n i u (r : kg18_rand C) nonces v p', i < n -> nth_error (y_cl w) c = Some (kclient t n (S i) u r nonces) ->
     nth_error (y_cl (exec18 oc ser par uuid w l)) c = Some (Put (bkey (num i) "round2" u) v p') ->
     forall j, j < n -> j <> i -> exists v', In (Told (bkey (num j) "round1" u) v') (log18 oc ser par uuid c w l)) /\
  (forall (w : sys18 (sig_recid C)) l c m i id u k (r : rand18 C) msg v p' com opn, In (com, opn) [("round1", "round4"); ("round5", "round6"); ("round7", "round8")]%string ->
     i < m -> nth_error (y_cl w) c = Some (sclient m (S i) id u k r msg) ->
     nth_error (y_cl (exec18 oc ser par uuid w l)) c = Some (Put (bkey (num i) opn u) v p') ->
     forall j, j < m -> j <> i -> exists v', In (Told (bkey (num j) com u) v') (log18 oc ser par uuid c w l)).
Proof.
  split.
  - intros w l c t n i u r nonces v p' L E E' j J NJ. pose proof (C126_keygen_requests_in_order w l c t n i u r nonces L E) as H. rewrite E' in H. destruct H as (rest & H).
    apply (rounds_before n i u [("round1", false)]%string "round2" [("round3", true); ("round4", false); ("round5", false)]%string) in H; [|apply keygen_nodup].
    apply (told_before _ _ _ _ "round1" _ j H); [left; reflexivity|exact J|exact NJ].
  - intros w l c m i id u k r msg v p' com opn I L E E' j J NJ. pose proof (C126_sign_requests_in_order w l c m i id u k r msg L E) as H. rewrite E' in H. destruct H as (rest & H).
    assert (S : exists rs1 rs2, sign_rounds = rs1 ++ (opn, false) :: rs2 /\ In (com, false) rs1).
    { cbn [In] in I. destruct I as [I|[I|[I|[]]]]; injection I as <- <-.
      - exists (firstn 4 sign_rounds), (skipn 5 sign_rounds). cbn. tauto.
      - exists (firstn 6 sign_rounds), (skipn 7 sign_rounds). cbn. tauto.
      - exists (firstn 8 sign_rounds), (skipn 9 sign_rounds). cbn. tauto. }
    destruct S as (rs1 & rs2 & S & I1). rewrite S in H. apply rounds_before in H; [|rewrite <- S; apply sign_nodup]. apply (told_before _ _ _ _ com _ j H I1 J NJ).
Qed.
End Main.
Print Assumptions C126_keygen_requests_in_order.
Print Assumptions C126_sign_requests_in_order.
Print Assumptions C126_no_key_twice.
Print Assumptions C126_commitments_read_before_opening.

(** ** What a client has heard when it makes a request *)
Lemma as_fun {A} (dv : A) i n (m : list A) : i < n -> length m = length (others i n) -> exists x, m = map x (others i n).
Proof.
  intros L LM. assert (NT : forall k, k < length m -> nth k m dv = nth (let j := nth k (others i n) 0 in if j <? i then j else j - 1) m dv).
  { intros k K. cbv zeta. f_equal. unfold others. destruct (Nat.lt_ge_cases k i) as [Q|Q].
    - rewrite app_nth1, seq_nth by (rewrite ?seq_length; lia). destruct (Nat.ltb_spec (0 + k) i); lia.
    - rewrite LM in K. rewrite Clients18Rounds.others_length in K by exact L. rewrite app_nth2, seq_length, seq_nth by (rewrite ?seq_length; lia). destruct (Nat.ltb_spec (S i + (k - i)) i); lia. }
  exists (fun j => nth (if j <? i then j else j - 1) m dv). set (g := fun j => nth (if j <? i then j else j - 1) m dv).
  apply nth_ext with (d := dv) (d' := g 0); [rewrite map_length; exact LM|]. intros k K. rewrite map_nth. apply NT, K.
Qed.
Section Heard.
Context {R : Type}.
Lemma talk_gets ks k v : forall (f : list string -> prog R) z, In (Stored k v) (talk (gets ks f) z) ->
  exists a b, z = a ++ b /\ length a = length ks /\ talk (gets ks f) z = map (fun x => Told (fst x) (snd x)) (combine ks a) ++ talk (f a) b.
Proof.
  induction ks as [|k0 ks IH]; intros f z H; cbn [gets talk] in *; [exists [], z; auto|]. destruct z as [|v0 z]; [destruct H|]. destruct H as [H|H]; [discriminate|].
  destruct (IH (fun l => f (v0 :: l)) z H) as (a & b & -> & L & E). exists (v0 :: a), b. cbn [app length combine map fst snd]. rewrite E. auto.
Qed.
Lemma talk_puts l (p : prog R) z : talk (puts l p) z = map (fun x => Stored (fst x) (snd x)) l ++ talk p z.
Proof. induction l as [|[k v] l IH]; [reflexivity|]. cbn [puts talk map app fst snd]. f_equal. exact IH. Qed.
Lemma talk_need {E A} (o : outcome E A) (f : A -> prog R) z e : In e (talk (need o f) z) -> exists x, o = Ok x /\ need o f = f x.
Proof. destruct o as [x|er|]; cbn [need talk]; [eauto|intros []|intros []]. Qed.
Definition hears {A} (c : json A) (m i : nat) (u rd : string) (x : nat -> A) (g : list rq) : Prop :=
  forall j, j < m -> j <> i -> exists t, In (Told (bkey (num j) rd u) t) g /\ sj c t = Some (x j).
(** What the client itself stored in a round *)
Definition says {A} (c : json A) (i : nat) (u rd : string) (x : nat -> A) (g : list rq) : Prop := In (Stored (bkey (num i) rd u) (js c (x i))) g.
Lemma parse_fun {A} (c : json A) (dv : A) i n a x0 : i < n -> length a = length (others i n) -> omapM (parse c) a = Ok x0 ->
  exists t x, a = map t (others i n) /\ x0 = map x (others i n) /\ forall j, In j (others i n) -> sj c (t j) = Some (x j).
Proof.
  intros L LA P. destruct (as_fun EmptyString i n a L LA) as [t ->]. rewrite omapM_map in P. apply (omapM_val dv) in P. destruct P as [P ->]. exists t, (fun j => val dv (parse c (t j))). split; [reflexivity|]. split; [reflexivity|].
  intros j J. destruct (P j J) as [y Y]. rewrite Y. cbn [val]. unfold parse in Y. destruct (sj c (t j)) as [y'|]; cbn [unwrap] in Y; [injection Y as ->; reflexivity|discriminate].
Qed.
Lemma hear_exchange {A} (c : json A) i n rd u (own : A) (f : list A -> prog R) z k v : i < n -> In (Stored k v) (talk (exchange c (num i) n rd u own f) z) -> k <> bkey (num i) rd u ->
  exists b x, hears c n i u rd x (talk (exchange c (num i) n rd u own f) z) /\ incl (talk (f (map x (others i n))) b) (talk (exchange c (num i) n rd u own f) z) /\
    In (Stored k v) (talk (f (map x (others i n))) b).
Proof.
  intros L H NK. unfold exchange in *. cbn [talk] in *. destruct H as [H|H]; [injection H as H _; congruence|].
  destruct (talk_gets _ _ _ _ _ H) as (a & b & -> & LA & E). rewrite E in *. rewrite map_length, others_num, map_length in LA by exact L.
  apply in_app_iff in H. destruct H as [H|H]; [apply in_map_iff in H; destruct H as (y & Y & _); discriminate|].
  destruct (talk_need _ _ _ _ H) as (m & P & NE). rewrite NE in *. destruct (parse_fun c own i n a m L LA P) as (t & x & -> & -> & PX).
  exists b, x. split; [|split; [intros e I; right; apply in_app_iff; right; exact I|exact H]].
  intros j J NJ. assert (IJ : In j (others i n)) by (apply in_others; lia). exists (t j). split; [|apply PX, IJ]. right. apply in_app_iff. left. rewrite others_num, map_map, combine_map, map_map by exact L. cbn [fst snd].
  apply in_map_iff. exists j. auto.
Qed.
Lemma hear_p2p {A} (c : json A) i n rd u (own : list A) (f : list A -> prog R) z k v : i < n -> In (Stored k v) (talk (exchange_p2p c (num i) n rd u own f) z) -> (forall j, k <> pkey (num i) j rd u) ->
  exists b x, length x = length (others i n) /\ incl (talk (f x) b) (talk (exchange_p2p c (num i) n rd u own f) z) /\ In (Stored k v) (talk (f x) b).
Proof.
  intros L H NK. unfold exchange_p2p in *. rewrite talk_puts in *. apply in_app_iff in H. destruct H as [H|H].
  { apply in_map_iff in H. destruct H as (y & E & I). apply in_map_iff in I. destruct I as (y' & <- & _). cbn [fst snd] in E. injection E as E _. symmetry in E. destruct (NK _ E). }
  destruct (talk_gets _ _ _ _ _ H) as (a & b & -> & LA & E). rewrite E in *. rewrite map_length, others_num, map_length in LA by exact L.
  apply in_app_iff in H. destruct H as [H|H]; [apply in_map_iff in H; destruct H as (y & Y & _); discriminate|].
  destruct (talk_need _ _ _ _ H) as (m & P & NE). rewrite NE in *. exists b, m. split; [rewrite (omapM_len _ _ _ P); exact LA|].
  split; [intros e I; apply in_app_iff; right; apply in_app_iff; right; exact I|exact H].
Qed.
Lemma said_exchange {A} (c : json A) i n rd u (own : A) (f : list A -> prog R) z G x : incl (talk (exchange c (num i) n rd u own f) z) G -> says c i u rd (with_own i own x) G.
Proof. intros J. unfold says. rewrite with_own_at. apply J. left. reflexivity. Qed.
Lemma hears_incl {A} (c : json A) m i u rd x g g' : hears c m i u rd x g -> incl g g' -> hears c m i u rd x g'.
Proof. intros H I j J NJ. destruct (H j J NJ) as (t & T & Q). exists t. split; [apply I, T|exact Q]. Qed.
(** What a client hears it hears before it makes its next request. *)
Lemma hears_log {A} (c : json A) m i u rd x oc ser par uuid (w : sys18 R) l cl p p' : nth_error (y_cl w) cl = Some p -> nth_error (y_cl (exec18 oc ser par uuid w l)) cl = Some p' ->
  hears c m i u rd x (talk p (told (log18 oc ser par uuid cl w l))) -> hears c m i u rd x (log18 oc ser par uuid cl w l).
Proof.
  intros E E' H. destruct (log_talk oc ser par uuid l w cl p E) as (p1 & E1 & Q). destruct (Q []) as [Q1 _]. rewrite app_nil_r in Q1. rewrite Q1 in H. intros j J NJ. destruct (H j J NJ) as (t & T & X). exists t. split; [|exact X].
  apply in_app_iff in T. destruct T as [T|T]; [exact T|]. exfalso. revert T. clear. induction p1 as [r| |k v p1 IH|k f IH]; cbn [talk]; try tauto. intros [T|T]; [discriminate|exact (IH T)].
Qed.
End Heard.

Section Reveal.
Context (C : Curve).
Notation q := (cq C).
Notation F := (Fq q).
Context (Hb : list Z -> Z) (Hz : hashZ C) (Hf : hashF C).
Context (j_id : json Z) (j_1 : json (Z * msg_a)) (j_mb : json (msg_b C * msg_b C)) (j_F : json F) (j_dg : json (sign_dec C)) (j_com : json Z)
  (j_5a : json (dec5a C * heg_proof C * dlog_proof C)) (j_5d : json (dec5d C)).
Add Field cfreveal : (C_field C).
Notation sclient := (sign18_client C Hb Hz Hf j_id j_1 j_mb j_F j_dg j_com j_5a j_5d).
(** All but the client's own *)
Definition but_me (m i : nat) (P : nat -> Prop) : Prop := forall j, j < m -> j <> i -> P j.

(** What has been checked of the messages heard, together with the client's own: the openings of round 4 fit the commitments of round 1; the nonce point R is the one with (sum of delta_j) R = sum of Gamma_j; the openings of round 6 fit the commitments of round 5 and
    come with proofs that verify; the openings of round 8 fit the commitments of round 7; and the points of phase 5 add up. *)
Definition revealed_ok (m i : nat) (u : string) (y : pt C) (r : rand18 C) (msg : Z) (g : list rq) (v : string) : Prop :=
  exists (c1 : nat -> Z * msg_a) (delta : nat -> F) (o4 : nat -> sign_dec C) (R : pt C) (x yc : Z) (sigma : F) (c5 : nat -> Z) (o6 : nat -> dec5a C * heg_proof C * dlog_proof C) (c7 : nat -> Z) (o8 : nat -> dec5d C),
  let d6 j := fst (fst (o6 j)) in
  let s := fadd (fmul (of_Z q msg) (r18_k r)) (fmul (of_Z q x) sigma) in
  hears j_1 m i u "round1" c1 g /\ hears j_F m i u "round3" delta g /\ hears j_dg m i u "round4" o4 g /\
  hears j_com m i u "round5" c5 g /\ hears j_5a m i u "round6" o6 g /\ hears j_com m i u "round7" c7 g /\ hears j_5d m i u "round8" o8 g /\
  says j_F i u "round3" delta g /\ says j_dg i u "round4" o4 g /\ says j_5a i u "round6" o6 g /\ says j_5d i u "round8" o8 g /\ fsum (map delta (seq 0 m)) <> f0 /\
  sd_g (o4 i) = smul (r18_gamma r) gen /\ but_me m i (fun j => commit_pt Hb (sd_g (o4 j)) (sd_blind (o4 j)) = fst (c1 j)) /\
  smul (fsum (map delta (seq 0 m))) R = psum (map (fun j => sd_g (o4 j)) (seq 0 m)) /\ coords R = Some (x, yc) /\
  a5_v (d6 i) = padd (smul s R) (smul (r18_l r) gen) /\ a5_a (d6 i) = smul (r18_rho r) gen /\ a5_b (d6 i) = smul (fmul (r18_l r) (r18_rho r)) gen /\
  but_me m i (fun j => commit Hb (hash_pts Hb [a5_v (d6 j); a5_a (d6 j); a5_b (d6 j)]) (a5_blind (d6 j)) = c5 j /\
    heg_verify Hf (snd (fst (o6 j))) {| he_G := a5_a (d6 j); he_H := R; he_Y := gen; he_D := a5_v (d6 j); he_E := a5_b (d6 j) |} = true /\ dlog_verify Hf (snd (o6 j)) = true) /\
  d5_u (o8 i) = smul (r18_rho r) (psub (psub (psum (map (fun j => a5_v (d6 j)) (seq 0 m))) (smul (of_Z q msg) gen)) (smul (of_Z q x) y)) /\
  d5_t (o8 i) = smul (r18_l r) (psum (map (fun j => a5_a (d6 j)) (others i m))) /\
  but_me m i (fun j => commit Hb (hash_pts Hb [d5_u (o8 j); d5_t (o8 j)]) (d5_blind (o8 j)) = c7 j) /\
  padd (psum (map (fun j => d5_t (o8 j)) (seq 0 m))) (psum (map (fun j => a5_b (d6 j)) (seq 0 m))) = psum (map (fun j => d5_u (o8 j)) (seq 0 m)) /\
  v = js j_F s.

Lemma psum_with (i m : nat) (x : nat -> pt C) : i < m -> psum (map x (seq 0 m)) = padd (x i) (psum (map x (others i m))).
Proof.
  intros L. unfold others. replace m with (i + S (m - S i)) at 1 by lia. rewrite seq_app. cbn [seq Nat.add]. rewrite !map_app. cbn [map]. rewrite !psum_app. cbn [psum]. rewrite !(dlog_eq_iff C). autorewrite with dlog. ring.
Qed.
Lemma nth_others {A} (x : nat -> A) i m k y : nth_error (map x (others i m)) k = Some y -> exists j, nth_error (others i m) k = Some j /\ y = x j.
Proof. rewrite nth_error_map. destruct (nth_error (others i m) k) as [j|]; [|discriminate]. intros E. injection E as <-. eauto. Qed.
Lemma in_nth_others i m j : i < m -> j < m -> j <> i -> exists k, nth_error (others i m) k = Some j.
Proof. intros L J NJ. apply In_nth_error. apply in_others. lia. Qed.

Lemma hears_own {A} (c : json A) m i u rd x own g : hears c m i u rd x g -> hears c m i u rd (with_own i own x) g.
Proof. intros H j J NJ. rewrite with_own_ne by exact NJ. apply H; assumption. Qed.
Lemma remove_with {E A} i m (own : A) x l : i < m -> remove_at (E := E) i (map (with_own i own x) (seq 0 m)) = Ok l -> l = map x (others i m).
Proof. intros L H. rewrite remove_ok in H by exact L. injection H as <-. apply with_own_map. Qed.
Ltac hear H J z x HX := apply hear_exchange in H; [|assumption|
    let E := fresh in intros E; apply bkey_inj in E; [destruct E as (_ & E & _); discriminate|reflexivity|reflexivity]];
  let I1 := fresh in let J' := fresh in destruct H as (z & x & HX & I1 & H); apply (fun h => hears_incl _ _ _ _ _ _ _ _ h J) in HX; pose proof (incl_tran I1 J) as J'; clear J I1; rename J' into J.
Ltac heard H J z x HX SX := match type of J with incl (talk (exchange ?c _ ?n ?rd ?u ?own ?f) _) _ => pose proof (said_exchange c _ n rd u own f _ _ (fun _ => own) J) as SX; unfold says in SX; rewrite with_own_at in SX end; hear H J z x HX.
Ltac nd NX H J x E := let Q := fresh in let H' := fresh in let J' := fresh in
  destruct (talk_need _ _ _ _ H) as (x & E & Q); destruct (NX _ _ _ Q H J) as [H' J']; clear H J Q; rename H' into H; rename J' into J.

Lemma reveal_talk m i id u k (r : rand18 C) msg z v G : i < m -> incl (talk (sclient m (S i) id u k r msg) z) G -> In (Stored (bkey (num i) "round9" u) v) (talk (sclient m (S i) id u k r msg) z) ->
  revealed_ok m i u (p18_y k) r msg G v.
Proof.
  intros L J H. unfold sign18_client in H, J. cbv zeta in H, J. fold (num i) in H, J. replace (S i - 1) with i in H, J by lia.
  assert (NX : forall (p p' : prog (sig_recid C)) z, p = p' -> In (Stored (bkey (num i) "round9" u) v) (talk p z) -> incl (talk p z) G -> In (Stored (bkey (num i) "round9" u) v) (talk p' z) /\ incl (talk p' z) G) by (intros p p' z' -> A B; auto).
  hear H J z0 x0 H0. nd NX H J ids E0. nd NX H J sv E1. nd NX H J kys HK. nd NX H J xi E2.
  assert (KK : sg_k kys = r18_k r /\ sg_ggamma kys = smul (r18_gamma r) gen).
  { apply obind_ok in HK. destruct HK as (ix & _ & HK). apply obind_ok in HK. destruct HK as (vv & _ & HK). unfold g18_create in HK. apply obind_ok in HK. destruct HK as (li & _ & HK). injection HK as <-. auto. }
  destruct KK as [KK KG]. unfold g18_phase1 in H, J. cbv beta iota in H, J.
  hear H J z1 c1 HC1. rewrite map_map in H, J. nd NX H J bc1 HB. nd NX H J tt0 E3. nd NX H J bs E4.
  destruct (hear_p2p _ _ _ _ _ _ _ _ _ _ L H) as (z2 & a2 & LA2 & I2 & H').
  { intros j E. revert E. apply bkey_pkey; [reflexivity|apply round_ok_r; reflexivity]. }
  pose proof (incl_tran I2 J) as J'. clear H J I2. rename H' into H. rename J' into J.
  nd NX H J am E5. nd NX H J dl E6. nd NX H J sigma E7.
  heard H J z3 delta HD SD. nd NX H J deltas E8. nd NX H J dinv E9. heard H J z4 o4 HO4 SO4. nd NX H J decs E10. nd NX H J decs' E11. nd NX H J bc1' E12. nd NX H J R0 E13. nd NX H J s E14.
  unfold g18_5a in H, J. cbv beta iota zeta in H, J.
  hear H J z5 c5 HC5. nd NX H J coms5 E15. heard H J z6 o6 HO6 SO6. nd NX H J all6 E16. nd NX H J all6' E17. nd NX H J coms5' E18. nd NX H J cd E19.
  hear H J z7 c7 HC7. nd NX H J coms7 E20. heard H J z8 o8 HO8 SO8. nd NX H J decs8 E21. nd NX H J si E22.
  assert (V : v = js j_F si).
  { clear - H. unfold exchange in H. cbn [talk] in H. destruct H as [H|H]; [injection H as <-; reflexivity|]. exfalso. destruct (talk_gets _ _ _ _ _ H) as (a & b & -> & _ & E). rewrite E in H. apply in_app_iff in H.
    destruct H as [H|H]; [apply in_map_iff in H; destruct H as (y & Y & _); discriminate|]. repeat (let Q := fresh in destruct (talk_need _ _ _ _ H) as (? & _ & Q); rewrite Q in H; clear Q). exact H. }
  clear H J NX E0 E1 E2 E3 E4 E5 E6 E7.
  rewrite merge_with in HB by exact L. rewrite merge_with in E8 by exact L. rewrite merge_with in E10 by exact L. rewrite merge_with in E15 by exact L. rewrite merge_with in E16 by exact L. rewrite merge_with in E20 by exact L. rewrite merge_with in E21 by exact L. injection HB as <-. injection E8 as <-. injection E10 as <-. injection E15 as <-. injection E16 as <-. injection E20 as <-. injection E21 as <-.
  apply (remove_with _ _ _ _ _ L) in E11. apply (remove_with _ _ _ _ _ L) in E12. apply (remove_with _ _ _ _ _ L) in E17. apply (remove_with _ _ _ _ _ L) in E18. subst decs' bc1' all6' coms5'.
  unfold g18_delta_inv in E9. destruct (finvert (fold_left fadd (map (with_own i dl delta) (seq 0 m)) f0)) as [dv|] eqn:FI; [|discriminate]. cbn [unwrap] in E9. injection E9 as ->. apply finvert_some in FI. destruct FI as [DN ->].
  rewrite fold_left_fadd in DN, E13, E14, E19. rewrite fsum0 in DN, E13, E14, E19. set (D := fsum (map (with_own i dl delta) (seq 0 m))) in *.
  set (ow4 := {| sd_blind := r18_blind r; sd_g := sg_ggamma kys |}) in *.
  apply g18_phase4_ok in E13. destruct E13 as (CK4 & ->).
  set (R := padd (smul (finv D) (psum (map (sd_g (C := C)) (map o4 (others i m))))) (smul (finv D) (sd_g ow4))) in *.
  unfold g18_local in E14. destruct (coords R) as [[x yc]|] eqn:ER; [|unfold x_coord in E14; rewrite ER in E14; discriminate].
  unfold x_coord in E14. rewrite ER in E14. cbn [option_map fst unwrap obind] in E14. rewrite of_Z_mod, KK in E14. injection E14 as <-. cbn [l18_l l18_rho l18_R l18_s l18_m l18_y] in *.
  set (s := fadd (fmul (of_Z q msg) (r18_k r)) (fmul (of_Z q x) sigma)) in *.
  match type of E22 with context [with_own i (?a, ?b, ?c) o6] => set (ow6 := (a, b, c)) in * end.
  apply (g18_5c_ok C Hb Hf _ _ _ _ _ _ _ _ x yc _) in E19; [|exact ER]. cbn [a5_v] in E19. destruct E19 as (_ & CK5 & CD). rewrite !map_map in *.
  assert (S22 : si = s /\ opens5d C Hb (map (with_own i (snd cd) o8) (seq 0 m)) (map (with_own i (fst cd) c7) (seq 0 m)) /\
     padd (psum (map d5_t (map (with_own i (snd cd) o8) (seq 0 m)))) (psum (map a5_b (map (fun j => fst (fst (with_own i ow6 o6 j))) (seq 0 m)))) = psum (map d5_u (map (with_own i (snd cd) o8) (seq 0 m)))).
  { match type of E22 with g18_5d _ ?l ?a ?b ?c = _ => destruct (g18_5d_spec C Hb l a b c) as [(A1 & A2 & A3)|[(A1 & A2 & A3)|(A1 & A3)]] end; [rewrite !map_length; reflexivity|rewrite !map_length; reflexivity| |rewrite A3 in E22; discriminate|rewrite A3 in E22; discriminate].
    rewrite A3 in E22. injection E22 as <-. cbn [l18_s]. auto. }
  destruct S22 as (-> & OP8 & SUM). rewrite !map_map in SUM.
  exists c1, (with_own i dl delta), (with_own i ow4 o4), R, x, yc, sigma, c5, (with_own i ow6 o6), c7, (with_own i (snd cd) o8). cbv zeta. fold s D.
  split; [exact HC1|]. split; [apply hears_own, HD|]. split; [apply hears_own, HO4|]. split; [exact HC5|]. split; [apply hears_own, HO6|]. split; [exact HC7|]. split; [apply hears_own, HO8|].
  unfold says. rewrite !with_own_at. split; [exact SD|]. split; [exact SO4|]. split; [exact SO6|]. split; [exact SO8|]. split; [exact DN|].
  split; [exact KG|].
  split. { intros j Lj NJ. rewrite with_own_ne by exact NJ. destruct (in_nth_others i m j L Lj NJ) as [n0 N0]. assert (Ln : n0 < length a2) by (rewrite LA2; apply nth_error_Some; congruence).
    destruct (nth_error a2 n0) as [aa|] eqn:EA; [|apply nth_error_None in EA; lia]. destruct (CK4 n0 (mb_b (fst aa))) as (d & cc & D1 & D2 & _ & D3); [rewrite nth_error_map, EA; reflexivity|].
    rewrite nth_error_map, N0 in D1, D2. cbn [option_map] in D1, D2. injection D1 as <-. injection D2 as <-. exact D3. }
  split. { rewrite (psum_with i m (fun j => sd_g (with_own i ow4 o4 j))) by exact L. rewrite with_own_at.
    replace (map (fun j => sd_g (with_own i ow4 o4 j)) (others i m)) with (map (fun j => sd_g (o4 j)) (others i m)) by (apply map_ext_in; intros j J; apply in_others in J; rewrite with_own_ne by lia; reflexivity).
    unfold R. rewrite map_map. set (PS := psum (map (fun j => sd_g (o4 j)) (others i m))). rewrite !(dlog_eq_iff C). autorewrite with dlog. field. exact DN. }
  split; [exact ER|]. unfold ow6 at 1 2 3. cbn [fst a5_v a5_a a5_b]. split; [reflexivity|]. split; [reflexivity|]. split; [reflexivity|].
  split. { intros j Lj NJ. rewrite !with_own_ne by exact NJ. destruct (in_nth_others i m j L Lj NJ) as [n0 N0]. destruct (CK5 n0 (fst (fst (o6 j)))) as (cc & hh & pp & D1 & D2 & D3 & D4 & D5 & D6); [rewrite nth_error_map, N0; reflexivity|].
    rewrite nth_error_map, N0 in D1, D2, D3. cbn [option_map] in D1, D2, D3. injection D1 as <-. injection D2 as <-. injection D3 as <-. auto. }
  rewrite CD. cbn [snd d5_u d5_t]. unfold u_of, t_of. cbn [l18_rho l18_m l18_y l18_l].
  split. { rewrite (psum_with i m (fun j => a5_v (fst (fst (with_own i ow6 o6 j))))) by exact L. rewrite with_own_at. unfold ow6 at 1. cbn [fst a5_v]. rewrite ?map_map.
    replace (map (fun j => a5_v (fst (fst (with_own i ow6 o6 j)))) (others i m)) with (map (fun j => a5_v (fst (fst (o6 j)))) (others i m)) by (apply map_ext_in; intros j J; apply in_others in J; rewrite with_own_ne by lia; reflexivity). reflexivity. }
  split. { rewrite ?map_map. f_equal. f_equal. apply map_ext_in. intros j J. apply in_others in J. rewrite with_own_ne by lia. reflexivity. }
  split. { intros j Lj NJ. specialize (OP8 j (o8 j)). rewrite !nth_error_map in OP8. rewrite (nth_error_nth' _ 0) in OP8 by (rewrite seq_length; exact Lj). rewrite seq_nth in OP8 by exact Lj. cbn [Nat.add option_map] in OP8. rewrite !with_own_ne in OP8 by exact NJ.
    specialize (OP8 eq_refl). injection OP8 as OP8. rewrite with_own_ne by exact NJ. symmetry. exact OP8. }
  split; [rewrite CD in SUM; exact SUM|exact V].
Qed.

Lemma nodup_pre {A} (a b : list A) : NoDup (a ++ b) -> NoDup a.
Proof. induction a as [|x a IH]; cbn [app]; intros N; [constructor|]. inversion N as [|? ? N1 N2]; subst. constructor; [intros I; apply N1, in_app_iff; left; exact I|exact (IH N2)]. Qed.
Lemma nodup_key {A B} (f : A -> B) l a b : NoDup (map f l) -> In a l -> In b l -> f a = f b -> a = b.
Proof.
  induction l as [|x l IH]; [intros _ []|]. cbn [map In]. intros N. inversion N as [|? ? N1 N2]; subst. intros [->|IA] [->|IB] E; [reflexivity| | |apply IH; assumption].
  - destruct N1. rewrite E. apply in_map, IB.
  - destruct N1. rewrite <- E. apply in_map, IA.
Qed.

(** * C127 *)
(** Whatever the server holds, the other clients do and others store: when a signer is about to store its partial signature (round 9), the messages it was told have passed the checks of revealed_ok, and
    what it stores is m k + r sigma for its own nonce k and the x-coordinate r of that nonce point. *)
Theorem C127_partial_signature_only_after_checks oc ser par uuid (w : sys18 (sig_recid C)) l c m i id u k (r : rand18 C) msg v p' : i < m ->
  nth_error (y_cl w) c = Some (sclient m (S i) id u k r msg) ->
  nth_error (y_cl (exec18 oc ser par uuid w l)) c = Some (Put (bkey (num i) "round9" u) v p') ->
  revealed_ok m i u (p18_y k) r msg (log18 oc ser par uuid c w l) v.
Proof.
  intros L E E'. destruct (log_talk oc ser par uuid l w c _ E) as (p1 & E1 & Q). assert (p1 = Put (bkey (num i) "round9" u) v p') by congruence. subst p1. destruct (Q []) as [Q1 _]. rewrite app_nil_r in Q1.
  set (g := log18 oc ser par uuid c w l) in *.
  assert (H : revealed_ok m i u (p18_y k) r msg (talk (sclient m (S i) id u k r msg) (told g)) v).
  { apply (reveal_talk m i id u k r msg (told g) v _ L (incl_refl _)). rewrite Q1. apply in_app_iff. right. left. reflexivity. }
  assert (HL : forall A (cj : json A) rd x, hears cj m i u rd x (talk (sclient m (S i) id u k r msg) (told g)) -> hears cj m i u rd x g) by (intros A cj rd x; apply (hears_log cj m i u rd x oc ser par uuid w l c _ _ E E')).
  destruct H as (c1 & delta & o4 & R & x & yc & sigma & c5 & o6 & c7 & o8 & H). cbv zeta in H. destruct H as (H1 & H2 & H3 & H4 & H5 & H6 & H7 & A1 & A2 & A3 & A4 & H).
  exists c1, delta, o4, R, x, yc, sigma, c5, o6, c7, o8. cbv zeta. repeat (split; [apply HL; assumption|]).
  pose proof (C126_sign_requests_in_order C Hb Hz Hf j_id j_1 j_mb j_F j_dg j_com j_5a j_5d oc ser par uuid w l c m i id u k r msg L E) as O. cbv zeta in O. rewrite E' in O. destruct O as (rest & O).
  change sign_rounds with (firstn 9 sign_rounds ++ ("round9"%string, false) :: []) in O. apply rounds_before in O; [|apply sign_nodup].
  assert (SL : forall A (cj : json A) rd x, In (rd, false) (firstn 9 sign_rounds) -> says cj i u rd x (talk (sclient m (S i) id u k r msg) (told g)) -> says cj i u rd x g).
  { intros A cj rd x0 IR SX. destruct (sign_follows C Hb Hz Hf j_id j_1 j_mb j_F j_dg j_com j_5a j_5d m i id u k r msg L (told g)) as (rest0 & F0 & _).
    assert (ND : NoDup (map (fun e => snd (kind e)) (talk (sclient m (S i) id u k r msg) (told g)))).
    { pose proof (sign_nodup m i u) as ND. rewrite <- F0, map_app, map_map in ND. exact (nodup_pre _ _ ND). }
    assert (IK : In (true, bkey (num i) rd u) (map kind g)).
    { fold g in O. rewrite O. apply in_flat_map. exists (rd, false). split; [exact IR|left; reflexivity]. }
    apply in_map_iff in IK. destruct IK as (e & EK & IE). destruct e as [k0 v0|k0 v0]; [|discriminate]. cbn [kind] in EK. injection EK as ->.
    assert (IT : In (Stored (bkey (num i) rd u) v0) (talk (sclient m (S i) id u k r msg) (told g))) by (rewrite Q1; apply in_app_iff; left; exact IE).
    pose proof (nodup_key _ _ _ _ ND SX IT eq_refl) as Q2. unfold says. rewrite Q2. exact IE. }
  repeat (split; [apply SL; [cbn; tauto|assumption]|]). exact H.
Qed.
End Reveal.
Print Assumptions C127_partial_signature_only_after_checks.

(** ** Example *)
(** The two signers of C98_example.  Both make the requests of the list and no others; after 72 steps of the schedule the first is about to store its partial signature. *)
Definition exw0 : sys18 (sig_recid toy) := {| y_sv := sv_init exser exuuid; y_cl := map (fun i => exsign18 9 (i + 1) i) (seq 0 2) |}.
Definition exl0 : list act18 := List.concat (repeat [Cl 1; Env (ASet "x" "y"); Cl 0; Lost 1] 40).
Definition exlog (k c : nat) : list rq := log18 true exser expar exuuid c exw0 (firstn k exl0).
Example C126_example : map (fun c => map kind (exlog 160 c)) [0; 1] = [script 2 0 "u" sign_rounds; script 2 1 "u" sign_rounds] /\ map kind (exlog 5 0) = firstn 1 (script 2 0 "u" sign_rounds) /\ length (script 2 0 "u" sign_rounds) = 20.
Proof. vm_compute. auto. Qed.
Definition next_put {R} (o : option (prog R)) : option string := match o with Some (Put k _ _) => Some k | _ => None end.
Lemma next_put_ex {R} (o : option (prog R)) K : match next_put o with Some k => String.eqb k K | None => false end = true -> exists v p', o = Some (Put K v p').
Proof. destruct o as [[r| |k v p|k f]|]; try discriminate. cbn [next_put]. intros E. apply String.eqb_eq in E. subst k. eauto. Qed.
Lemma exreveal l v p' : nth_error (y_cl (exec18 true exser expar exuuid exw0 l)) 0 = Some (Put (bkey (num 0) "round9" "u") v p') ->
  revealed_ok toy exHb2 exHf2 (jof (cpair cZ cma)) (jof cF) (jof csd) (jof cZ) (jof (cpair (cpair cdec5a cheg) cdlog)) (jof cdec5d) 2 0 "u" (p18_y (exks18 0)) (exrs18' 0) 9 (log18 true exser expar exuuid 0 exw0 l) v.
Proof. apply (C127_partial_signature_only_after_checks toy exHb2 exH exHf2 (jof cZ) (jof (cpair cZ cma)) (jof (cpair cmb cmb)) (jof cF) (jof csd) (jof cZ) (jof (cpair (cpair cdec5a cheg) cdlog)) (jof cdec5d)
    true exser expar exuuid exw0 l 0 2 0 (nth 0 [2; 0] 0 + 1) "u" (exks18 0) (exrs18' 0) 9 v p'); [lia|reflexivity]. Qed.
Example C127_example : exists v p', nth_error (y_cl (exec18 true exser expar exuuid exw0 (firstn 72 exl0))) 0 = Some (Put (bkey (num 0) "round9" "u") v p') /\
  revealed_ok toy exHb2 exHf2 (jof (cpair cZ cma)) (jof cF) (jof csd) (jof cZ) (jof (cpair (cpair cdec5a cheg) cdlog)) (jof cdec5d) 2 0 "u" (p18_y (exks18 0)) (exrs18' 0) 9 (exlog 72 0) v.
Proof.
  destruct (next_put_ex (nth_error (y_cl (exec18 true exser expar exuuid exw0 (firstn 72 exl0))) 0) (bkey (num 0) "round9" "u")) as (v & p' & E); [vm_compute; reflexivity|].
  exists v, p'. split; [exact E|exact (exreveal _ v p' E)].
Qed.

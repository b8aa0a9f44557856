(** C125: when exactly a GG18 key generation client finishes. *)
From Coq Require Import String ZArith NArith Bool Lia List Field.
From Verif Require Import ZArithX Fq Curve Toy Outcome Sigma SigmaProofs Bytes Vss VssProofs KeygenExtra Ecdsa EcdsaProofs PropEcdsa Gg18Sign SignRunProofs Gg18RunProofs Mp MpProofs Gg20Keygen Gg18Keygen KeygenRun KeygenProofs NetSim
  Manager18 Manager18Proofs Clients18 Clients18Proofs Clients18Prog Clients18Rounds Clients18KgProofs Clients18Ends PropKeygen PropSign18 PropManager18 Codec PropClients18.
Import ListNotations.
Local Open Scope nat_scope.

(** ** A client as a function of the answers it reads *)
Section Feed.
Context {R : Type}.
Fixpoint feed (p : prog R) (a : list string) : prog R :=
  match p with
  | Put _ _ p => feed p a
  | Get k f => match a with [] => Get k f | v :: a' => feed (f v) a' end
  | p => p
  end.
Lemma feed_puts l (p : prog R) a : feed (puts l p) a = feed p a.
Proof. induction l as [|[k v] l IH]; [reflexivity|]. cbn [puts feed]. exact IH. Qed.
Lemma feed_gets ks : forall f a b, length a = length ks -> feed (gets ks f : prog R) (a ++ b) = feed (f a) b.
Proof. induction ks as [|k ks IH]; intros f [|v a] b L; try discriminate; cbn [gets]; [reflexivity|]. cbn [app feed]. rewrite IH by (injection L; auto). reflexivity. Qed.
Lemma feed_gets_done ks : forall f c (r : R), feed (gets ks f) c = Done r -> exists a b, c = a ++ b /\ length a = length ks /\ feed (f a) b = Done r.
Proof.
  induction ks as [|k ks IH]; intros f c r; cbn [gets].
  - intros E. exists [], c. auto.
  - cbn [feed]. destruct c as [|v c]; [discriminate|]. intros E. destruct (IH _ _ _ E) as (a & b & -> & L & Q). exists (v :: a), b. cbn [app length]. auto.
Qed.
Lemma feed_exchange {A} (c : json A) me n rd u (own : A) f a b m : length a = length (others_n me n) -> omapM (parse c) a = Ok m -> feed (exchange c me n rd u own f : prog R) (a ++ b) = feed (f m) b.
Proof. intros L P. unfold exchange. cbn [feed]. rewrite feed_gets by (rewrite map_length; exact L). rewrite P. reflexivity. Qed.
Lemma feed_p2p {A} (c : json A) me n rd u (own : list A) f a b m : length a = length (others_n me n) -> omapM (parse c) a = Ok m -> feed (exchange_p2p c me n rd u own f : prog R) (a ++ b) = feed (f m) b.
Proof. intros L P. unfold exchange_p2p. rewrite feed_puts, feed_gets by (rewrite map_length; exact L). rewrite P. reflexivity. Qed.
Lemma need_done {E A} (o : outcome E A) (f : A -> prog R) b r : feed (need o f) b = Done r -> exists x, o = Ok x /\ feed (f x) b = Done r.
Proof. unfold need. destruct o as [x|e|]; cbn [feed]; try discriminate. eauto. Qed.
Lemma feed_exchange_done {A} (c : json A) me n rd u (own : A) f z r : feed (exchange c me n rd u own f : prog R) z = Done r ->
  exists a b m, z = a ++ b /\ length a = length (others_n me n) /\ omapM (parse c) a = Ok m /\ feed (f m) b = Done r.
Proof. unfold exchange. cbn [feed]. intros E. apply feed_gets_done in E. destruct E as (a & b & -> & L & E). apply need_done in E. destruct E as (m & P & E). rewrite map_length in L. exists a, b, m. auto. Qed.
Lemma feed_p2p_done {A} (c : json A) me n rd u (own : list A) f z r : feed (exchange_p2p c me n rd u own f : prog R) z = Done r ->
  exists a b m, z = a ++ b /\ length a = length (others_n me n) /\ omapM (parse c) a = Ok m /\ feed (f m) b = Done r.
Proof. unfold exchange_p2p. rewrite feed_puts. intros E. apply feed_gets_done in E. destruct E as (a & b & -> & L & E). apply need_done in E. destruct E as (m & P & E). rewrite map_length in L. exists a, b, m. auto. Qed.

(** In every execution, whatever others do to the server, a client is where the answers it read have brought it. *)
Lemma feed_app (p : prog R) : forall a b, feed (feed p a) b = feed p (a ++ b).
Proof.
  induction p as [r| |k v p IH|k f IH]; intros a b; cbn [feed]; try reflexivity; [apply IH|].
  destruct a as [|v a]; [reflexivity|]. cbn [app]. apply IH.
Qed.
Lemma exec_feed oc ser par uuid l : forall (w : sys18 R) c p, nth_error (y_cl w) c = Some p ->
  exists a p', nth_error (y_cl (exec18 oc ser par uuid w l)) c = Some p' /\ feed p' [] = feed p a.
Proof.
  induction l as [|x l IH]; intros w c p E; [exists [], p; auto|]. cbn [exec18 fold_left]. fold (exec18 oc ser par uuid (step18 oc ser par uuid w x) l).
  assert (S1 : exists a p1, nth_error (y_cl (step18 oc ser par uuid w x)) c = Some p1 /\ forall b, feed p1 b = feed p (a ++ b)).
  { assert (ST : exists a p1, Some p = Some p1 /\ forall b, feed p1 b = feed p (a ++ b)) by (exists [], p; auto).
    assert (SN : forall d y z, nth_error (y_cl w) d = Some y -> (exists a, forall b, feed z b = feed y (a ++ b)) -> exists a p1, nth_error (set_nth (y_cl w) d z) c = Some p1 /\ forall b, feed p1 b = feed p (a ++ b)).
    { intros d y z D (a & Q). rewrite set_nth_nth by (apply nth_error_Some; congruence). destruct (Nat.eqb_spec c d) as [->|NE].
      - exists a, z. split; [reflexivity|]. assert (y = p) by congruence. subst y. exact Q.
      - exists [], p. split; [exact E|reflexivity]. }
    destruct x as [d|d|e]; cbn [step18].
    - destruct (nth_error (y_cl w) d) as [[r| |k v p0|k f]|] eqn:D; try (rewrite E; exact ST); cbn [y_cl].
      + apply (SN d _ _ D). exists []. reflexivity.
      + cbn [step]. destruct (sm_get k (sv_map (y_sv w))) as [v|]; cbn [y_cl]; [|rewrite E; exact ST]. apply (SN d _ _ D). exists [v]. reflexivity.
    - destruct (nth_error (y_cl w) d) as [[r| |k v p0|k f]|] eqn:D; cbn [y_cl]; rewrite E; exact ST.
    - cbn [y_cl]. rewrite E. exact ST. }
  destruct S1 as (a & p1 & E1 & Q). destruct (IH _ _ _ E1) as (a' & p' & E' & Q'). exists (a ++ a'), p'. split; [exact E'|]. rewrite Q', Q. reflexivity.
Qed.
End Feed.

Section Exact.
Context (C : Curve).
Notation q := (cq C).
Notation F := (Fq q).
Context (Hb : list Z -> Z) (Hf : hashF C) (ck : Z -> Z -> bool).
Context (aenc : list Z -> list Z -> list Z -> aead) (adec : list Z -> aead -> option (list Z)).
Context (j_bc : json bc18) (j_dec : json (kg_dec1 C)) (j_aead : json aead) (j_vss : json (vss C)) (j_dlog : json (dlog_proof C)).
Add Field cfexact : (C_field C).
Notation client := (keygen18_client C Hb Hf ck aenc adec j_bc j_dec j_aead j_vss j_dlog).

(** ** The checks *)
(** What has to hold of the messages of party j: the opened point is the committed one and the Paillier key's proof verifies; the opened point times the
    client's secret has an x-coordinate of at most 32 bytes; the share sent opens under it; the share and the point fit the commitments; the proof of round 5 verifies. *)
Definition peer_passes (i : nat) (u : F) (b : bc18) (d : kg_dec1 C) (e : aead) (v : vss C) (p : dlog_proof C) : Prop :=
  (commit_pt Hb (kd_y d) (kd_blind d) = b18_com b /\ ck (b18_ck b) (b18_N b) = true) /\
  (exists x bytes, x_coord (smul u (kd_y d)) = Some x /\ length (to_bytes x) <= 32 /\ adec (repeat 0%Z (32 - length (to_bytes x)) ++ to_bytes x) e = Some bytes /\
     vs_com v <> [] /\ of_Z q (from_bytes bytes) = peval (map dlog (vs_com v)) (fidx (S i))) /\
  kd_y d = hd pzero (vs_com v) /\ dlog_verify Hf p = true.
(** The file: own keys, the sum of the opened points, the sum of the shares, the others' commitments and Paillier keys with the client's own in place. *)
Definition with_own {A} (i : nat) (own : A) (x : nat -> A) (j : nat) : A := if j =? i then own else x j.
Definition the_file (t n i : nat) (r : kg18_rand C) (b : nat -> bc18) (d : nat -> kg_dec1 C) (v : nat -> vss C) : file18 C :=
  let own := {| vs_t := t; vs_n := n; vs_com := map (fun c => smul c gen) (kr18_u r :: kr18_coefs r) |} in
  let vs := map (with_own i own v) (seq 0 n) in
  let y := psum (map (with_own i (smul (kr18_u r) gen) (fun j => kd_y (d j))) (seq 0 n)) in
  {| f18_keys := {| k18_u := kr18_u r; k18_p1 := kr18_p1 r; k18_p2 := kr18_p2 r; k18_i := S i |};
     f18_shared := {| sk_y := y; sk_x := fsum (map (fun v => peval (map dlog (vs_com v)) (fidx (S i))) vs) |};
     f18_i := S i; f18_vss := vs; f18_N := map (with_own i (kr18_p1 r * kr18_p2 r)%Z (fun j => b18_N (b j))) (seq 0 n); f18_y := y |}.

(** ** Lists indexed by the other parties *)
Lemma with_own_map {A} i n (own : A) x : map (with_own i own x) (others i n) = map x (others i n).
Proof. apply map_ext_in. intros j I. apply in_others in I. unfold with_own. destruct (Nat.eqb_spec j i); [lia|reflexivity]. Qed.
Lemma with_own_at {A} i (own : A) x : with_own i own x i = own.
Proof. unfold with_own. rewrite Nat.eqb_refl. reflexivity. Qed.
Lemma with_own_ne {A} i j (own : A) x : j <> i -> with_own i own x j = x j.
Proof. unfold with_own. intros N. destruct (Nat.eqb_spec j i); [contradiction|reflexivity]. Qed.
Lemma merge_with {E A} i n (own : A) x : i < n -> merge (E := E) (num i) n own (map x (others i n)) = Ok (map (with_own i own x) (seq 0 n)).
Proof. intros L. rewrite <- (with_own_map i n own x). rewrite <- (with_own_at i own x) at 1. apply merge_ok, L. Qed.
Lemma with_own_comp {A B} (g : A -> B) i own x j : g (with_own i own x j) = with_own i (g own) (fun j => g (x j)) j.
Proof. unfold with_own. destruct (j =? i); reflexivity. Qed.
Lemma others_length i n : i < n -> length (others i n) = n - 1.
Proof. intros L. unfold others. rewrite app_length, !seq_length. lia. Qed.
Lemma combine_map {A B X} (g : X -> A) (h : X -> B) l : combine (map g l) (map h l) = map (fun j => (g j, h j)) l.
Proof. induction l as [|a l IH]; [reflexivity|]. cbn [map combine]. rewrite IH. reflexivity. Qed.
Lemma combine_map_r {A X} (g : X -> A) l : combine (map g l) l = map (fun j => (g j, j)) l.
Proof. rewrite <- (map_id l) at 2. apply combine_map. Qed.
Lemma omapM_some {E A B} (f : A -> outcome E B) l r : omapM f l = Ok r -> forall x, In x l -> exists y, f x = Ok y.
Proof.
  revert r. induction l as [|a l IH]; intros r H x I; [destruct I|]. cbn [omapM] in H. apply obind_ok in H. destruct H as (y & Q & H). apply obind_ok in H. destruct H as (r' & Q' & _).
  destruct I as [<-|I]; [eauto|apply (IH _ Q' _ I)].
Qed.
Lemma map_eq_in {A B} (g h : A -> B) l : map g l = map h l -> forall x, In x l -> g x = h x.
Proof. induction l as [|a l IH]; intros E x I; [destruct I|]. cbn [map] in E. injection E as E1 E2. destruct I as [<-|I]; auto. Qed.
Lemma need_iff {R E A} (o : outcome E A) (f : A -> prog R) b r : feed (need o f) b = Done r <-> exists x, o = Ok x /\ feed (f x) b = Done r.
Proof. split; [apply need_done|]. intros (x & -> & H). exact H. Qed.

Definition val {E A} (dv : A) (o : outcome E A) : A := match o with Ok x => x | _ => dv end.
Lemma omapM_val {E A B} (dv : B) (f : A -> outcome E B) l r : omapM f l = Ok r <-> (forall x, In x l -> exists y, f x = Ok y) /\ r = map (fun x => val dv (f x)) l.
Proof.
  revert r. induction l as [|a l IH]; intros r; cbn [omapM map].
  - split; [intros H; injection H as <-; split; [intros x []|reflexivity]|intros [_ ->]; reflexivity].
  - split.
    + intros H. apply obind_ok in H. destruct H as (y & Y & H). apply obind_ok in H. destruct H as (r' & Q & H). injection H as <-. apply IH in Q. destruct Q as [Q ->]. split; [|rewrite Y; reflexivity].
      intros x [<-|I]; eauto.
    + intros [Q ->]. destruct (Q a (or_introl eq_refl)) as [y Y]. rewrite Y. cbn [obind val]. rewrite (proj2 (IH (map (fun x => val dv (f x)) l))); [reflexivity|]. split; [intros x I; apply Q; right; exact I|reflexivity].
Qed.

(** ** Fed with a full set of messages *)
Section Fed.
Context (t n i : nat) (u : string) (r : kg18_rand C) (nonces : nat -> list Z).
Context (b : nat -> bc18) (d : nat -> kg_dec1 C) (e : nat -> aead) (v : nat -> vss C) (p : nat -> dlog_proof C) (s1 s2 s3 s4 s5 : list string).
Hypothesis L : i < n.
Hypothesis P1 : omapM (parse j_bc) s1 = Ok (map b (others i n)).
Hypothesis P2 : omapM (parse j_dec) s2 = Ok (map d (others i n)).
Hypothesis P3 : omapM (parse j_aead) s3 = Ok (map e (others i n)).
Hypothesis P4 : omapM (parse j_vss) s4 = Ok (map v (others i n)).
Hypothesis P5 : omapM (parse j_dlog) s5 = Ok (map p (others i n)).
Lemma plen {A X} (f : X -> outcome unit A) l (x : nat -> A) : omapM f l = Ok (map x (others i n)) -> length l = length (others_n (num i) n).
Proof.
  intros H. rewrite others_num, map_length by exact L. assert (Q : forall (l : list X) r, omapM f l = Ok r -> length r = length l).
  { clear. induction l as [|a l IH]; intros r H; cbn [omapM] in H; [injection H as <-; reflexivity|]. apply obind_ok in H. destruct H as (y & _ & H). apply obind_ok in H. destruct H as (r' & Q & H). injection H as <-. cbn [length]. rewrite (IH _ Q). reflexivity. }
  apply Q in H. rewrite map_length in H. lia.
Qed.
Lemma fed_iff f : feed (client t n (S i) u r nonces) (s1 ++ s2 ++ s3 ++ s4 ++ s5 ++ []) = Done f <->
  (t < n /\ ck (kr18_ck r) (kr18_p1 r * kr18_p2 r)%Z = true /\ forall j, j < n -> j <> i -> peer_passes i (kr18_u r) (b j) (d j) (e j) (v j) (p j)) /\ f = the_file t n i r b d v.
Proof.
  unfold keygen18_client. unfold kg18_phase1. cbv zeta. fold (num i). cbn [k18_u k18_p1 k18_p2 k18_i]. replace (S i - 1) with i by lia.
  set (y0 := smul (kr18_u r) (gen : pt C)). set (N0 := (kr18_p1 r * kr18_p2 r)%Z).
  set (b0 := {| b18_N := N0; b18_com := commit_pt Hb y0 (kr18_blind r); b18_ck := kr18_ck r |}). set (d0 := {| kd_blind := kr18_blind r; kd_y := y0 |}).
  set (kk := {| k18_u := kr18_u r; k18_p1 := kr18_p1 r; k18_p2 := kr18_p2 r; k18_i := S i |}).
  rewrite (feed_exchange _ _ _ _ _ _ _ _ _ _ (plen _ _ _ P1) P1). rewrite (merge_with i n b0 b L). cbn [need].
  rewrite (feed_exchange _ _ _ _ _ _ _ _ _ _ (plen _ _ _ P2) P2). rewrite (merge_with i n d0 d L). cbn [need].
  set (decs := map (with_own i d0 d) (seq 0 n)). set (bcs := map (with_own i b0 b) (seq 0 n)).
  assert (LD : length decs = n) by (unfold decs; rewrite map_length, seq_length; reflexivity).
  assert (LB : length bcs = n) by (unfold bcs; rewrite map_length, seq_length; reflexivity).
  assert (HP : exists p0, hd_error (map (kd_y (C := C)) decs) = Some p0 /\ fold_left padd (tl (map (kd_y (C := C)) decs)) p0 = psum (map (kd_y (C := C)) decs)).
  { destruct decs as [|x l]; [cbn in LD; lia|]. exists (kd_y x). split; [reflexivity|]. cbn [map tl]. rewrite fold_left_padd. reflexivity. }
  destruct HP as (p0 & HP & YS).
  set (own := {| vs_t := t; vs_n := n; vs_com := map (fun c => smul c (gen : pt C)) (kr18_u r :: kr18_coefs r) |}).
  set (shs := map (fun j => peval (kr18_u r :: kr18_coefs r) (fidx j)) (seq 1 n)).
  assert (HD : map (kd_y (C := C)) decs = map (with_own i y0 (fun j => kd_y (d j))) (seq 0 n)) by (unfold decs; rewrite map_map; apply map_ext; intros j; apply (with_own_comp (kd_y (C := C)))).
  assert (HN : map b18_N bcs = map (with_own i N0 (fun j => b18_N (b j))) (seq 0 n)) by (unfold bcs; rewrite map_map; apply map_ext; intros j; apply (with_own_comp b18_N)).
  assert (NS : forall j, j < n -> nth_o (E := error) shs j = Ok (peval (kr18_u r :: kr18_coefs r) (fidx (S j)))).
  { intros j J. unfold nth_o, shs. rewrite nth_error_map. rewrite nth_error_nth' with (d := 0) by (rewrite seq_length; exact J). rewrite seq_nth by exact J. reflexivity. }
  assert (IN : forall j, In j (others i n) <-> j < n /\ j <> i) by (intros j; rewrite in_others; lia).
  assert (SEQ : forall j, In j (seq 0 n) <-> j < n) by (intros j; rewrite in_seq; lia).
  set (K := fun j => val [] (aes_key C (kr18_u r) (kd_y (d j)))).
  set (G := fun j => of_Z q (from_bytes (match adec (K j) (e j) with Some x => x | None => [] end))).
  set (sh0 := peval (kr18_u r :: kr18_coefs r) (fidx (S i))).
  set (FIN := the_file t n i r b d v).
  assert (AES : forall j k, aes_key C (kr18_u r) (kd_y (d j)) = Ok k <-> exists x, x_coord (smul (kr18_u r) (kd_y (d j))) = Some x /\ length (to_bytes x) <= 32 /\ k = repeat 0%Z (32 - length (to_bytes x)) ++ to_bytes x).
  { intros j k. unfold aes_key. destruct (x_coord (smul (kr18_u r) (kd_y (d j)))) as [x|]; cbn [unwrap obind]; [|split; [discriminate|intros (x & Q & _); discriminate]].
    destruct (Nat.leb_spec (length (to_bytes x)) 32) as [LE|GT].
    - split; [intros H; injection H as <-; eauto|intros (x' & Q & _ & ->); injection Q as <-; reflexivity].
    - split; [discriminate|intros (x' & Q & LE & _); injection Q as <-; lia]. }
  assert (CKS : t < n -> (exists o, kg18_phase1_verify C Hb ck kk t n (kr18_coefs r) decs bcs = Ok o) <->
     ck (kr18_ck r) N0 = true /\ forall j, j < n -> j <> i -> commit_pt Hb (kd_y (d j)) (kd_blind (d j)) = b18_com (b j) /\ ck (b18_ck (b j)) (b18_N (b j)) = true).
  { intros TN. rewrite (proj1 (C22_gg18_phase1_accepts_iff C Hb ck kk t n (kr18_coefs r) decs bcs LD LB TN)). unfold decs, bcs. split.
    - intros H. assert (H' : forall j, j < n -> commit_pt Hb (kd_y (with_own i d0 d j)) (kd_blind (with_own i d0 d j)) = b18_com (with_own i b0 b j) /\ ck (b18_ck (with_own i b0 b j)) (b18_N (with_own i b0 b j)) = true).
      { intros j J. apply (H j); rewrite nth_error_map, (nth_error_nth' _ 0) by (rewrite seq_length; exact J); rewrite seq_nth by exact J; reflexivity. }
      split; [destruct (H' i L) as [_ Q]; rewrite !with_own_at in Q; exact Q|]. intros j J NE. specialize (H' j J). rewrite !with_own_ne in H' by exact NE. exact H'.
    - intros [H0 H] j dj bj D B. rewrite nth_error_map in D, B. destruct (nth_error (seq 0 n) j) as [j'|] eqn:X; [|discriminate]. cbn [option_map] in D, B. injection D as <-. injection B as <-.
      apply nth_error_In, SEQ in X. destruct (Nat.eq_dec j' i) as [->|NE]; [rewrite !with_own_at; split; [reflexivity|exact H0]|]. rewrite !with_own_ne by exact NE. apply H; assumption. }
  assert (OUT : t < n -> forall o, kg18_phase1_verify C Hb ck kk t n (kr18_coefs r) decs bcs = Ok o -> o = (own, shs, S i)) by (intros TN; apply (C22_gg18_phase1_accepts_iff C Hb ck kk t n (kr18_coefs r) decs bcs LD LB TN)).
  assert (PV : peval (map dlog (vs_com own)) (fidx (S i)) = sh0).
  { unfold sh0, own. cbn [vs_com]. rewrite map_map. f_equal. transitivity (map (fun c : F => c) (kr18_u r :: kr18_coefs r)); [|apply map_id]. apply map_ext. intros c. rewrite dlog_smul, dlog_gen. ring. }
  split.
  - intros H. apply need_done in H. destruct H as (eks & HE & H). rewrite HP in H. cbn [unwrap need] in H. apply need_done in H. destruct H as (vsi & HV & H).
    assert (TN : t < n).
    { unfold kg18_phase1_verify in HV. apply obind_ok in HV. destruct HV as ([] & _ & HV). apply obind_ok in HV. destruct HV as ([] & _ & HV). apply obind_ok in HV. destruct HV as (x & HV & _).
      unfold vss_share in HV. apply obind_ok in HV. destruct HV as ([] & HV & _). apply oassert_ok, Nat.ltb_lt in HV. exact HV. }
    pose proof (proj1 (CKS TN) (ex_intro _ _ HV)) as CK. apply (OUT TN) in HV. subst vsi.
    apply need_done in H. destruct H as (packs & _ & H). rewrite (feed_p2p _ _ _ _ _ _ _ _ _ _ (plen _ _ _ P3) P3) in H.
    rewrite omapM_map in HE. apply (omapM_val []) in HE. destruct HE as [HE ->]. fold K in H. rewrite combine_map in H.
    apply need_done in H. destruct H as (got & HG & H). rewrite omapM_map in HG. cbn [fst snd] in HG. apply (omapM_val f0) in HG. destruct HG as [HG ->].
    rewrite (NS i L) in H. cbn [obind] in H. rewrite (merge_with i n _ _ L) in H. cbn [need] in H.
    rewrite (feed_exchange _ _ _ _ _ _ _ _ _ _ (plen _ _ _ P4) P4), (merge_with i n own v L) in H. cbn [need] in H.
    apply need_done in H. destruct H as (skp & HK & H). apply C25_gg18_phase2_accepts_iff in HK. destruct HK as (_ & _ & _ & NE & SS & YY & ->). cbn [fst snd] in H.
    rewrite (feed_exchange _ _ _ _ _ _ _ _ _ _ (plen _ _ _ P5) P5), (merge_with i n _ p L) in H. cbn [need] in H.
    apply need_done in H. destruct H as ([] & HD5 & H). apply C25_gg18_dlog_accepts_iff in HD5. destruct HD5 as (_ & _ & HD5). cbn [feed] in H. injection H as <-.
    rewrite HD in YY. rewrite map_map in SS, YY. pose proof (map_eq_in _ _ _ SS) as SS'. pose proof (map_eq_in _ _ _ YY) as YY'.
    split; [split; [exact TN|]; split; [apply CK|]; intros j J NJ; split; [apply CK; assumption|split]|].
    + destruct (HE j ltac:(apply IN; auto)) as [k Hk]. pose proof Hk as Hk'. apply AES in Hk. destruct Hk as (x & X1 & X2 & X3). destruct (HG j ltac:(apply IN; auto)) as [y Hy].
      assert (KJ : K j = k) by (unfold K; rewrite Hk'; reflexivity). specialize (SS' j ltac:(apply SEQ; exact J)). cbv beta in SS'. rewrite !with_own_ne in SS' by exact NJ. rewrite Hy in SS'. cbn [val] in SS'.
      change (aes_key C (kr18_u r) (kd_y (d j))) with (aes_key C (kr18_u r) (kd_y (d j))) in Hy. rewrite KJ in Hy. destruct (adec k (e j)) as [bt|] eqn:AD; [|discriminate]. cbn [unwrap obind] in Hy. injection Hy as <-.
      exists x, bt. rewrite <- X3. split; [exact X1|]. split; [exact X2|]. split; [exact AD|]. split; [|exact SS']. apply NE. rewrite <- (with_own_ne i j own v NJ). apply in_map, SEQ, J.
    + split.
      * specialize (YY' j ltac:(apply SEQ; exact J)). cbv beta in YY'. rewrite !with_own_ne in YY' by exact NJ. exact YY'.
      * apply HD5. match goal with |- In _ (map (with_own i ?o p) _) => rewrite <- (with_own_ne i j o p NJ); apply in_map, SEQ, J end.
    + unfold FIN, the_file. fold own y0 N0 kk. rewrite YS, HD, HN. cbn [peval] in SS. rewrite SS, map_map. reflexivity.
  - intros [(TN & CK0 & PP) ->].
    assert (HE : omapM (fun x => aes_key C (kr18_u r) (kd_y x)) (map d (others i n)) = Ok (map K (others i n))).
    { rewrite omapM_map. apply (omapM_val []). split; [|reflexivity]. intros j J. apply IN in J. destruct (PP j (proj1 J) (proj2 J)) as (_ & (x & bt & X1 & X2 & _) & _). eexists. apply AES. eauto. }
    rewrite HE. cbn [need]. rewrite HP. cbn [unwrap need].
    destruct (proj2 (CKS TN)) as [o HV]; [split; [exact CK0|intros j J NJ; apply (PP j J NJ)]|]. rewrite HV. apply (OUT TN) in HV. subst o. cbn [need].
    rewrite combine_map_r, omapM_map. cbn [fst snd].
    rewrite (omapM_all _ (fun j => aenc (K j) (nonces j) (to_bytes (to_Z (peval (kr18_u r :: kr18_coefs r) (fidx (S j))))))) by (intros j J; apply IN in J; rewrite (NS j (proj1 J)); reflexivity). cbn [need].
    rewrite (feed_p2p _ _ _ _ _ _ _ _ _ _ (plen _ _ _ P3) P3). rewrite combine_map, omapM_map. cbn [fst snd].
    assert (HG : forall j, j < n -> j <> i -> exists bt, adec (K j) (e j) = Some bt /\ G j = of_Z q (from_bytes bt) /\ vs_com (v j) <> [] /\ G j = peval (map dlog (vs_com (v j))) (fidx (S i)) /\ kd_y (d j) = hd pzero (vs_com (v j)) /\ dlog_verify Hf (p j) = true).
    { intros j J NJ. destruct (PP j J NJ) as (_ & (x & bt & X1 & X2 & X3 & X4 & X5) & X6 & X7). exists bt. assert (KJ : K j = repeat 0%Z (32 - length (to_bytes x)) ++ to_bytes x) by (unfold K; rewrite (proj2 (AES j _)) by eauto; reflexivity).
      unfold G. rewrite KJ, X3. auto 8. }
    rewrite (omapM_all _ G) by (intros j J; apply IN in J; destruct (HG j (proj1 J) (proj2 J)) as (bt & -> & -> & _); reflexivity). cbn [need].
    rewrite (NS i L). cbn [obind]. fold sh0. rewrite (merge_with i n sh0 G L). cbn [need].
    rewrite (feed_exchange _ _ _ _ _ _ _ _ _ _ (plen _ _ _ P4) P4), (merge_with i n own v L). cbn [need].
    assert (WS : map (with_own i sh0 G) (seq 0 n) = map (fun v => peval (map dlog (vs_com v)) (fidx (S i))) (map (with_own i own v) (seq 0 n))).
    { rewrite map_map. apply map_ext_in. intros j J. apply SEQ in J. destruct (Nat.eq_dec j i) as [->|NJ]; [rewrite !with_own_at; symmetry; exact PV|]. rewrite !with_own_ne by exact NJ. destruct (HG j J NJ) as (bt & _ & _ & _ & Q & _). exact Q. }
    assert (WY : map (kd_y (C := C)) decs = map (fun v => hd pzero (vs_com v)) (map (with_own i own v) (seq 0 n))).
    { rewrite HD, map_map. apply map_ext_in. intros j J. apply SEQ in J. destruct (Nat.eq_dec j i) as [->|NJ]; [rewrite !with_own_at; reflexivity|]. rewrite !with_own_ne by exact NJ. destruct (HG j J NJ) as (bt & _ & _ & _ & _ & Q & _). exact Q. }
    set (FS := fsum (map (with_own i sh0 G) (seq 0 n))).
    rewrite (proj2 (C25_gg18_phase2_accepts_iff C Hf n _ _ _ (S i) (kr18_nonce r) ({| sk_y := psum (map (kd_y (C := C)) decs); sk_x := FS |}, dlog_prove Hf FS (kr18_nonce r)))).
    2:{ split; [rewrite map_length; exact LD|]. split; [rewrite map_length, seq_length; reflexivity|]. split; [rewrite map_length, seq_length; reflexivity|]. split; [|split; [exact WS|split; [exact WY|reflexivity]]].
        intros w W. apply in_map_iff in W. destruct W as (j & <- & J). apply SEQ in J. destruct (Nat.eq_dec j i) as [->|NJ]; [rewrite with_own_at; discriminate|]. rewrite with_own_ne by exact NJ. destruct (HG j J NJ) as (bt & _ & _ & Q & _). exact Q. }
    cbn [need fst snd]. rewrite (feed_exchange _ _ _ _ _ _ _ _ _ _ (plen _ _ _ P5) P5), (merge_with i n _ p L). cbn [need].
    rewrite (proj2 (C25_gg18_dlog_accepts_iff C Hf n _ _)).
    2:{ split; [rewrite map_length; exact LD|]. split; [rewrite map_length, seq_length; reflexivity|]. intros w W. apply in_map_iff in W. destruct W as (j & <- & J). apply SEQ in J.
        destruct (Nat.eq_dec j i) as [->|NJ]; [rewrite with_own_at; apply dlog_complete|]. rewrite with_own_ne by exact NJ. destruct (HG j J NJ) as (bt & _ & _ & _ & _ & _ & Q). exact Q. }
    cbn [need feed]. unfold FIN, the_file. fold own y0 N0 kk. unfold FS. rewrite YS, HN, WS, HD. reflexivity.
Qed.
(** Fed with all messages the client has either finished or panicked. *)
Lemma fed_ends : (exists f, feed (client t n (S i) u r nonces) (s1 ++ s2 ++ s3 ++ s4 ++ s5 ++ []) = Done f) \/ feed (client t n (S i) u r nonces) (s1 ++ s2 ++ s3 ++ s4 ++ s5 ++ []) = Crash.
Proof.
  assert (NE : forall E A (o : outcome E A) (f : A -> prog (file18 C)) z, (forall x, o = Ok x -> (exists g, feed (f x) z = Done g) \/ feed (f x) z = Crash) -> (exists g, feed (need o f) z = Done g) \/ feed (need o f) z = Crash).
  { intros E A o f z H. destruct o as [x|er|]; cbn [need]; [apply H; reflexivity|right; reflexivity|right; reflexivity]. }
  unfold keygen18_client, kg18_phase1. cbv zeta. fold (num i).
  rewrite (feed_exchange _ _ _ _ _ _ _ _ _ _ (plen _ _ _ P1) P1). apply NE. intros ? _. rewrite (feed_exchange _ _ _ _ _ _ _ _ _ _ (plen _ _ _ P2) P2). do 4 (apply NE; intros ? _).
  match goal with |- context [let '(_, _) := ?x in _] => destruct x as [[? ?] ?] end. apply NE. intros ? _. rewrite (feed_p2p _ _ _ _ _ _ _ _ _ _ (plen _ _ _ P3) P3). do 2 (apply NE; intros ? _).
  rewrite (feed_exchange _ _ _ _ _ _ _ _ _ _ (plen _ _ _ P4) P4). do 2 (apply NE; intros ? _). rewrite (feed_exchange _ _ _ _ _ _ _ _ _ _ (plen _ _ _ P5) P5). do 2 (apply NE; intros ? _). left. cbn [feed]. eauto.
Qed.
End Fed.

(** * C125 *)
(** A client of number i + 1 that has read the messages b, d, e, v, p of the others in the five rounds writes its file exactly when its own key's proof verifies, t < n and all the others'
    messages pass; the file is the one described by the_file.  Otherwise it has panicked. *)
Theorem C125_keygen_client_finishes_iff t n i u (r : kg18_rand C) nonces b d e v p s1 s2 s3 s4 s5 : i < n ->
  omapM (parse j_bc) s1 = Ok (map b (others i n)) -> omapM (parse j_dec) s2 = Ok (map d (others i n)) -> omapM (parse j_aead) s3 = Ok (map e (others i n)) ->
  omapM (parse j_vss) s4 = Ok (map v (others i n)) -> omapM (parse j_dlog) s5 = Ok (map p (others i n)) ->
  let passes := t < n /\ ck (kr18_ck r) (kr18_p1 r * kr18_p2 r)%Z = true /\ forall j, j < n -> j <> i -> peer_passes i (kr18_u r) (b j) (d j) (e j) (v j) (p j) in
  let result := feed (client t n (S i) u r nonces) (s1 ++ s2 ++ s3 ++ s4 ++ s5) in
  (passes -> result = Done (the_file t n i r b d v)) /\ (~ passes -> result = Crash) /\ (forall f, result = Done f -> passes /\ f = the_file t n i r b d v).
Proof.
  intros L P1 P2 P3 P4 P5 passes result. pose proof (fed_iff t n i u r nonces b d e v p s1 s2 s3 s4 s5 L P1 P2 P3 P4 P5) as FI. pose proof (fed_ends t n i u r nonces b d e v p s1 s2 s3 s4 s5 L P1 P2 P3 P4 P5) as FE.
  rewrite app_nil_r in FI, FE. fold result in FI, FE. fold passes in FI. split; [|split].
  - intros P. apply FI. auto.
  - intros NP. destruct FE as [[f H]|H]; [exfalso; apply NP, (FI f), H|exact H].
  - intros f H. apply FI, H.
Qed.

(** In every execution, whatever the server holds, others store in it and the other clients do: the messages a client that wrote a file read have passed, and the file is the one made from them. *)
Theorem C125_written_file_made_from_checked_messages oc ser par uuid (w : sys18 (file18 C)) l c t n i u (r : kg18_rand C) nonces f : i < n ->
  nth_error (y_cl w) c = Some (client t n (S i) u r nonces) -> nth_error (y_cl (exec18 oc ser par uuid w l)) c = Some (Done f) ->
  exists b d e v p, t < n /\ ck (kr18_ck r) (kr18_p1 r * kr18_p2 r)%Z = true /\ (forall j, j < n -> j <> i -> peer_passes i (kr18_u r) (b j) (d j) (e j) (v j) (p j)) /\ f = the_file t n i r b d v.
Proof.
  intros L E D. destruct (exec_feed oc ser par uuid l w c _ E) as (a & p' & E' & Q). assert (p' = Done f) by congruence. subst p'. cbn [feed] in Q. symmetry in Q.
  assert (FUN : forall A (dv : A) (m : list A), length m = length (others i n) -> exists x, m = map x (others i n)).
  { intros A dv m LM. exists (fun j => nth (if j <? i then j else j - 1) m dv). rewrite (others_length i n L) in LM. unfold others. rewrite map_app.
    transitivity (firstn i m ++ skipn i m); [symmetry; apply firstn_skipn|]. f_equal.
    - transitivity (map (fun j => nth j m dv) (seq 0 i)); [|apply map_ext_in; intros j J; apply in_seq in J; destruct (Nat.ltb_spec j i); [reflexivity|lia]].
      apply nth_ext with (d := dv) (d' := dv); rewrite firstn_length, Nat.min_l by lia; [rewrite map_length, seq_length; reflexivity|]. intros k Hk.
      set (g := fun j => nth j m dv). rewrite (nth_indep (map g (seq 0 i)) dv (g 0)) by (rewrite map_length, seq_length; exact Hk). rewrite map_nth, seq_nth by exact Hk. cbn [Nat.add]. unfold g. rewrite <- (firstn_skipn i m) at 2. rewrite app_nth1; [reflexivity|rewrite firstn_length; lia].
    - apply nth_ext with (d := dv) (d' := dv); rewrite skipn_length; [rewrite map_length, seq_length; lia|]. intros k Hk.
      set (g := fun j => nth (if j <? i then j else j - 1) m dv). rewrite (nth_indep (map g (seq (S i) (n - S i))) dv (g 0)) by (rewrite map_length, seq_length; lia). rewrite map_nth, seq_nth by lia. unfold g.
      destruct (Nat.ltb_spec (S i + k) i); [lia|]. replace (S i + k - 1) with (i + k) by lia. rewrite <- (firstn_skipn i m) at 2. rewrite app_nth2; rewrite firstn_length, Nat.min_l by lia; [f_equal; lia|lia]. }
  assert (OL : forall X A (g : X -> outcome unit A) (l : list X) r, omapM g l = Ok r -> length r = length l).
  { clear. intros X A g. induction l as [|a l IH]; intros r H; cbn [omapM] in H; [injection H as <-; reflexivity|]. apply obind_ok in H. destruct H as (y & _ & H). apply obind_ok in H. destruct H as (r' & Q & H). injection H as <-. cbn [length]. rewrite (IH _ Q). reflexivity. }
  assert (FX : forall A (dv : A) X (g : X -> outcome unit A) s m, length s = length (others_n (num i) n) -> omapM g s = Ok m -> exists x, m = map x (others i n)).
  { intros A dv X g s m LS P. apply (FUN A dv). rewrite (OL _ _ _ _ _ P), LS, others_num, map_length by exact L. reflexivity. }
  pose proof Q as Q0. unfold keygen18_client, kg18_phase1 in Q0. cbv zeta in Q0. fold (num i) in Q0.
  apply feed_exchange_done in Q0. destruct Q0 as (s1 & a1 & m1 & -> & L1 & P1 & Q0). apply need_done in Q0. destruct Q0 as (bc1 & _ & Q0).
  apply feed_exchange_done in Q0. destruct Q0 as (s2 & a2 & m2 & -> & L2 & P2 & Q0). do 3 (apply need_done in Q0; destruct Q0 as (? & _ & Q0)). apply need_done in Q0. destruct Q0 as ([[vs0 sh0] ix0] & _ & Q0).
  apply need_done in Q0. destruct Q0 as (? & _ & Q0). apply feed_p2p_done in Q0. destruct Q0 as (s3 & a3 & m3 & -> & L3 & P3 & Q0). do 2 (apply need_done in Q0; destruct Q0 as (? & _ & Q0)).
  apply feed_exchange_done in Q0. destruct Q0 as (s4 & a4 & m4 & -> & L4 & P4 & Q0). apply need_done in Q0. destruct Q0 as (? & _ & Q0). apply need_done in Q0. destruct Q0 as (skp & _ & Q0).
  apply feed_exchange_done in Q0. destruct Q0 as (s5 & a5 & m5 & -> & L5 & P5 & _).
  destruct (FX _ {| b18_N := 0; b18_com := 0; b18_ck := 0 |} _ _ _ _ L1 P1) as [b ->]. destruct (FX _ {| kd_blind := 0; kd_y := pzero |} _ _ _ _ L2 P2) as [d ->]. destruct (FX _ {| ae_text := []; ae_tag := [] |} _ _ _ _ L3 P3) as [e ->].
  destruct (FX _ {| vs_t := 0; vs_n := 0; vs_com := [] |} _ _ _ _ L4 P4) as [v ->]. destruct (FX _ (snd skp) _ _ _ _ L5 P5) as [p ->].
  assert (Q' : feed (client t n (S i) u r nonces) (s1 ++ s2 ++ s3 ++ s4 ++ s5) = Done f).
  { destruct (fed_ends t n i u r nonces b d e v p s1 s2 s3 s4 s5 L P1 P2 P3 P4 P5) as [[g H]|H]; rewrite app_nil_r in H.
    - pose proof (feed_app (client t n (S i) u r nonces) (s1 ++ s2 ++ s3 ++ s4 ++ s5) a5) as FA. rewrite H in FA. cbn [feed] in FA. rewrite <- !app_assoc in FA. congruence.
    - pose proof (feed_app (client t n (S i) u r nonces) (s1 ++ s2 ++ s3 ++ s4 ++ s5) a5) as FA. rewrite H in FA. cbn [feed] in FA. rewrite <- !app_assoc in FA. congruence. }
  destruct (C125_keygen_client_finishes_iff t n i u r nonces b d e v p s1 s2 s3 s4 s5 L P1 P2 P3 P4 P5) as (_ & _ & H). destruct (H f Q') as ((H1 & H2 & H3) & H4). exists b, d, e, v, p. auto.
Qed.

(** Nothing in the protocol speaks against the point zero: it can be committed to, dealt and proved.  A client that reads it panics when it derives the encryption key, whatever the other messages are. *)
Theorem C125_checks_suffice_refuted t n i u (r : kg18_rand C) nonces b d e v p s1 s2 s3 s4 s5 j : i < n ->
  omapM (parse j_bc) s1 = Ok (map b (others i n)) -> omapM (parse j_dec) s2 = Ok (map d (others i n)) -> omapM (parse j_aead) s3 = Ok (map e (others i n)) ->
  omapM (parse j_vss) s4 = Ok (map v (others i n)) -> omapM (parse j_dlog) s5 = Ok (map p (others i n)) ->
  j < n -> j <> i -> kd_y (d j) = pzero -> feed (client t n (S i) u r nonces) (s1 ++ s2 ++ s3 ++ s4 ++ s5) = Crash.
Proof.
  intros L P1 P2 P3 P4 P5 J NJ Z0. destruct (C125_keygen_client_finishes_iff t n i u r nonces b d e v p s1 s2 s3 s4 s5 L P1 P2 P3 P4 P5) as (_ & H & _). apply H.
  intros (_ & _ & PP). destruct (PP j J NJ) as (_ & (x & bt & X & _) & _). rewrite Z0 in X. assert (ZZ : smul (kr18_u r) (pzero : pt C) = pzero) by (apply (dlog_eq_iff C); autorewrite with dlog; ring).
  rewrite ZZ in X. rewrite (proj2 (x_coord_none _ pzero) eq_refl) in X. discriminate.
Qed.
End Exact.
Print Assumptions C125_keygen_client_finishes_iff.
Print Assumptions C125_written_file_made_from_checked_messages.
Print Assumptions C125_checks_suffice_refuted.

(** ** Example *)
(** Client 1 of two over the toy group.  The other party deals the polynomial y + 3 X, with every message in order, and sends the share under the key its point gives (for y = 0 under whatever key). *)
Definition ex_r : kg18_rand toy := exrs18 0.
Definition ex_b (y : Z) : bc18 := {| b18_N := 143; b18_com := commit_pt exHb (smul (tz y) (gen : pt toy)) 17; b18_ck := 0 |}.
Definition ex_d (y : Z) : kg_dec1 toy := {| kd_blind := 17; kd_y := smul (tz y) gen |}.
Definition ex_v (y : Z) : vss toy := {| vs_t := 1; vs_n := 2; vs_com := [smul (tz y) gen; smul (tz 3) gen] |}.
Definition ex_e (y : Z) : aead := exaenc (val [] (aes_key toy (kr18_u ex_r) (smul (tz y) gen))) [7%Z] (to_bytes (to_Z (tz (y + 3)))).
Definition ex_p : dlog_proof toy := dlog_prove exHf3 (tz 21) (tz 8).
Definition ex_fed (y : Z) : prog (file18 toy) :=
  feed (keygen18_client toy exHb exHf3 (fun _ N => (N =? 143)%Z) exaenc exadec (jof cbc18) (jof cdec1) (jof caead) (jof cvss) (jof cdlog) 1 2 1 "u" ex_r (fun _ => [1%Z]))
    ([js (jof cbc18) (ex_b y)] ++ [js (jof cdec1) (ex_d y)] ++ [js (jof caead) (ex_e y)] ++ [js (jof cvss) (ex_v y)] ++ [js (jof cdlog) ex_p]).
Definition ex_end (y : Z) : nat := match ex_fed y with Done f => length (f18_vss f) | Crash => 10 | _ => 20 end.
Example C125_example_run : map ex_end [5%Z; 11%Z; 0%Z] = [2; 2; 10].
Proof. vm_compute. reflexivity. Qed.
(** All checks but the one for the encryption key hold for the point zero too. *)
Example C125_example_zero : commit_pt exHb (kd_y (ex_d 0)) (kd_blind (ex_d 0)) = b18_com (ex_b 0) /\ (b18_N (ex_b 0) =? 143)%Z = true /\ kd_y (ex_d 0) = hd pzero (vs_com (ex_v 0)) /\
  match validate_share (ex_v 0) (tz 3) 1 with Ok _ => true | _ => false end = true /\ dlog_verify exHf3 ex_p = true.
Proof. repeat split; vm_compute; reflexivity. Qed.
Lemma ex_parse {A} (c : codec A) (a : A) : omapM (parse (jof c)) [js (jof c) a] = Ok (map (fun _ : nat => a) (others 0 2)).
Proof. cbn [omapM]. unfold parse. rewrite (jof_ok c). reflexivity. Qed.
Definition ex_iff y := C125_keygen_client_finishes_iff toy exHb exHf3 (fun _ N => (N =? 143)%Z) exaenc exadec (jof cbc18) (jof cdec1) (jof caead) (jof cvss) (jof cdlog) 1 2 0 "u" ex_r (fun _ => [1%Z])
    (fun _ => ex_b y) (fun _ => ex_d y) (fun _ => ex_e y) (fun _ => ex_v y) (fun _ => ex_p) _ _ _ _ _ (le_S 1 1 (le_n 1)) (ex_parse cbc18 _) (ex_parse cdec1 _) (ex_parse caead _) (ex_parse cvss _) (ex_parse cdlog _).
Lemma ex_zero y : kd_y (ex_d y) = pzero -> ex_fed y = Crash.
Proof.
  apply (C125_checks_suffice_refuted toy exHb exHf3 (fun _ N => (N =? 143)%Z) exaenc exadec (jof cbc18) (jof cdec1) (jof caead) (jof cvss) (jof cdlog) 1 2 0 "u" ex_r (fun _ => [1%Z])
      (fun _ => ex_b y) (fun _ => ex_d y) (fun _ => ex_e y) (fun _ => ex_v y) (fun _ => ex_p) _ _ _ _ _ 1 (le_S 1 1 (le_n 1)) (ex_parse cbc18 _) (ex_parse cdec1 _) (ex_parse caead _) (ex_parse cvss _) (ex_parse cdlog _)); lia.
Qed.
Lemma ex_done y f : ex_fed y = Done f -> peer_passes toy exHb exHf3 (fun _ N => (N =? 143)%Z) exadec 0 (kr18_u ex_r) (ex_b y) (ex_d y) (ex_e y) (ex_v y) ex_p.
Proof. intros E. destruct (ex_iff y) as (_ & _ & T). destruct (T f E) as ((_ & _ & H) & _). apply (H 1); lia. Qed.
Lemma done_ex {R} (p : prog R) : match p with Done _ => true | _ => false end = true -> exists f, p = Done f.
Proof. destruct p as [f| | |]; try discriminate. eauto. Qed.
Example C125_example : ex_fed 0 = Crash /\ exists f, ex_fed 5 = Done f /\ peer_passes toy exHb exHf3 (fun _ N => (N =? 143)%Z) exadec 0 (kr18_u ex_r) (ex_b 5) (ex_d 5) (ex_e 5) (ex_v 5) ex_p.
Proof.
  split; [apply ex_zero; vm_compute; reflexivity|]. destruct (done_ex (ex_fed 5)) as [f E]; [vm_compute; reflexivity|]. exists f. split; [exact E|exact (ex_done 5 f E)].
Qed.

Lemma fsum0 (C : Curve) (a : Fq (cq C)) : fadd f0 a = a.
Proof. exact (Radd_0_l (F_R (C_field C)) a). Qed.
(** ** C03 for the GG18 client's own record of its partial signature *)
(** What the client writes satisfies the ECDSA equation for the key and message it signed for, with s in the lower half, and is the total of the partial signatures up to sign; conversely a non-zero
    total that satisfies the signing equation for the nonce point the client holds is output. *)
Theorem C03_gg18_client_output (C : Curve) (s : local18 C) (v : list (Fq (cq C))) (sg : sig_recid C) :
  g18_output s v = Ok sg ->
  ecdsa_eqn (l18_y s) (l18_m s) (to_Z (sg_r sg)) (to_Z (sg_s sg)) /\
  (1 <= to_Z (sg_s sg) <= (cq C - 1) / 2)%Z /\
  (sg_s sg = fadd (l18_s s) (fsum v) \/ sg_s sg = fopp (fadd (l18_s s) (fsum v))) /\
  exists x y, coords (l18_R s) = Some (x, y) /\ to_Z (sg_r sg) = (x mod cq C)%Z.
Proof.
  intros E. destruct (C03_gg18_output_valid_low_s _ _ _ _ E) as (H1 & _ & H2). cbn [ls_y ls_m] in H1.
  split; [exact H1|]. split; [exact H2|]. unfold g18_output, gg18_output in E. cbn [ls_R ls_s ls_m ls_y] in E.
  apply obind_ok in E. destruct E as (xc & Hx & E). apply obind_ok in E. destruct E as (yc & Hy & E).
  rewrite fold_left_fadd in E.
  replace (fadd (l18_s s) (fadd f0 (fsum v))) with (fadd (l18_s s) (fsum v)) in E by (f_equal; symmetry; apply fsum0).
  destruct (normalize_cases C (fadd (l18_s s) (fsum v)) yc) as [[Hn _]|[Hn _]]; rewrite Hn in E;
    destruct (gg18_verify _ _ _ _) as [[]| |]; try discriminate; injection E as <-; cbn [sg_r sg_s]; (split; [auto|]);
    unfold x_coord in Hx; destruct (coords (l18_R s)) as [[x y]|]; try discriminate; cbn [option_map fst ok_or] in Hx; injection Hx as <-; exists x, y; (split; [reflexivity|]);
    rewrite of_Z_mod; reflexivity.
Qed.
Theorem C03_gg18_client_output_complete (C : Curve) (s : local18 C) (v : list (Fq (cq C))) (x y : Z) :
  coords (l18_R s) = Some (x, y) -> fadd (l18_s s) (fsum v) <> f0 ->
  smul (fadd (l18_s s) (fsum v)) (l18_R s) = padd (smul (of_Z (cq C) (l18_m s)) gen) (smul (of_Z (cq C) x) (l18_y s)) ->
  exists sg, g18_output s v = Ok sg.
Proof. intros HR Hs E. unfold g18_output. eexists. apply (gg18_output_complete C _ _ x y); cbn [ls_R ls_y ls_m]; assumption. Qed.
Print Assumptions C03_gg18_client_output.
Print Assumptions C03_gg18_client_output_complete.
Example C03_example_gg18_client :
  let s := {| l18_l := tz 3; l18_rho := tz 4; l18_R := ls_R (fst (ex_sig 2)); l18_s := ls_s (fst (ex_sig 2)); l18_m := ls_m (fst (ex_sig 2)); l18_y := ls_y (fst (ex_sig 2)) |} : local18 toy in
  g18_output s [snd (ex_sig 2)] = Ok (toy_sig 7 9 0) /\ g18_output s [fadd (snd (ex_sig 2)) f1] = Err InvalidSig.
Proof. split; [out_ok|out_bad]. Qed.

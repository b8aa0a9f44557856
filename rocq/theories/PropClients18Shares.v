(** C129: what a GG18 key generation client has checked when it gives away shares, and to whom each of them is readable. *)
From Coq Require Import String Ascii ZArith NArith Bool Lia List Field.
From Verif Require Import ZArithX Fq Curve Toy Outcome Sigma SigmaProofs Bytes Vss VssProofs Ecdsa KeygenExtra Gg18RunProofs Mp MpProofs Gg20Keygen Gg18Keygen KeygenRun KeygenProofs NetSim
  Manager18 Manager18Proofs Clients18 Clients18Proofs Clients18Prog Clients18Rounds Clients18KgProofs Clients18Ends PropKeygen PropManager18 Codec PropClients18 PropClients18Exact PropClients18Order.
Import ListNotations.
Local Open Scope nat_scope.

Section Shares.
Context (C : Curve).
Notation q := (cq C).
Notation F := (Fq q).
Context (Hb : list Z -> Z) (Hf : hashF C) (ck : Z -> Z -> bool).
Context (aenc : list Z -> list Z -> list Z -> aead) (adec : list Z -> aead -> option (list Z)).
Context (j_bc : json bc18) (j_dec : json (kg_dec1 C)) (j_aead : json aead) (j_vss : json (vss C)) (j_dlog : json (dlog_proof C)).
Add Field cfshares : (C_field C).
Notation kclient := (keygen18_client C Hb Hf ck aenc adec j_bc j_dec j_aead j_vss j_dlog).

(** The messages told: every other party's opened point is the one committed to, and its Paillier key came with a proof that verifies.  What is stored for party j is the value at j + 1 of the client's own polynomial,
    encrypted under the x-coordinate of its secret times the point that party j opened. *)
Definition shared_ok (t n i j : nat) (u : string) (r : kg18_rand C) (nonces : nat -> list Z) (g : list rq) (v : string) : Prop :=
  t < n /\ j < n /\ j <> i /\
  exists (b : nat -> bc18) (d : nat -> kg_dec1 C) (x : Z),
    hears j_bc n i u "round1" b g /\ hears j_dec n i u "round2" d g /\
    but_me n i (fun j => commit_pt Hb (kd_y (d j)) (kd_blind (d j)) = b18_com (b j) /\ ck (b18_ck (b j)) (b18_N (b j)) = true) /\
    x_coord (smul (kr18_u r) (kd_y (d j))) = Some x /\ length (to_bytes x) <= 32 /\
    v = js j_aead (aenc (repeat 0%Z (32 - length (to_bytes x)) ++ to_bytes x) (nonces j) (to_bytes (to_Z (peval (kr18_u r :: kr18_coefs r) (fidx (S j)))))).

Ltac hear H J z x HX := apply hear_exchange in H; [|assumption|
    let E := fresh in intros E; symmetry in E; revert E; apply bkey_pkey; [reflexivity|apply round_ok_r; reflexivity]];
  let I1 := fresh in let J' := fresh in destruct H as (z & x & HX & I1 & H); apply (fun h => hears_incl _ _ _ _ _ _ _ _ h J) in HX; pose proof (incl_tran I1 J) as J'; clear J I1; rename J' into J.
Ltac nd NX H J x E := let Q := fresh in let H' := fresh in let J' := fresh in
  destruct (talk_need _ _ _ _ H) as (x & E & Q); destruct (NX _ _ _ Q H J) as [H' J']; clear H J Q; rename H' into H; rename J' into J.

Lemma share_talk t n i j u (r : kg18_rand C) nonces z v G : i < n -> incl (talk (kclient t n (S i) u r nonces) z) G -> In (Stored (pkey (num i) (num j) "round3" u) v) (talk (kclient t n (S i) u r nonces) z) ->
  shared_ok t n i j u r nonces G v.
Proof.
  intros L J H. unfold keygen18_client, kg18_phase1 in H, J. cbv zeta in H, J. fold (num i) in H, J. replace (S i - 1) with i in H, J by lia. cbv beta iota in H, J.
  assert (NX : forall (p p' : prog (file18 C)) z, p = p' -> In (Stored (pkey (num i) (num j) "round3" u) v) (talk p z) -> incl (talk p z) G -> In (Stored (pkey (num i) (num j) "round3" u) v) (talk p' z) /\ incl (talk p' z) G) by (intros p p' z' -> A B; auto).
  hear H J z1 b HB. nd NX H J bc1 E1. hear H J z2 d HD. nd NX H J decs E2. nd NX H J eks E3. nd NX H J p0 E4. nd NX H J vsi E5. destruct vsi as [[vs shares] ix]. nd NX H J packs E6.
  rewrite merge_with in E1 by exact L. rewrite merge_with in E2 by exact L. injection E1 as <-. injection E2 as <-.
  assert (TN : t < n).
  { pose proof E5 as HV. unfold kg18_phase1_verify in HV. apply obind_ok in HV. destruct HV as ([] & _ & HV). apply obind_ok in HV. destruct HV as ([] & _ & HV). apply obind_ok in HV. destruct HV as (x & HV & _).
    unfold vss_share in HV. apply obind_ok in HV. destruct HV as ([] & HV & _). apply oassert_ok, Nat.ltb_lt in HV. exact HV. }
  match type of E5 with kg18_phase1_verify _ _ _ ?kk _ _ ?co (map (with_own i ?d0 d) _) (map (with_own i ?b0 b) _) = _ =>
    destruct (C22_gg18_phase1_accepts_iff C Hb ck kk t n co (map (with_own i d0 d) (seq 0 n)) (map (with_own i b0 b) (seq 0 n))) as (A1 & _ & A3); [rewrite map_length, seq_length; reflexivity..|exact TN|] end.
  pose proof (proj1 A1 (ex_intro _ _ E5)) as CK. apply A3 in E5. injection E5 as -> -> ->. cbn [k18_u] in *. clear A1 A3.
  assert (CK' : but_me n i (fun j => commit_pt Hb (kd_y (d j)) (kd_blind (d j)) = b18_com (b j) /\ ck (b18_ck (b j)) (b18_N (b j)) = true)).
  { intros a LA NA. specialize (CK a (d a) (b a)). rewrite !nth_error_map, (nth_error_nth' _ 0) in CK by (rewrite seq_length; exact LA). rewrite seq_nth in CK by exact LA. cbn [Nat.add option_map] in CK. rewrite !with_own_ne in CK by exact NA. auto. }
  clear CK. unfold exchange_p2p in H. rewrite talk_puts in H. apply in_app_iff in H. destruct H as [H|H].
  2: { exfalso. destruct (talk_gets _ _ _ _ _ H) as (a & b' & -> & _ & E). rewrite E in H. apply in_app_iff in H. destruct H as [H|H]; [apply in_map_iff in H; destruct H as (y & Y & _); discriminate|].
    repeat (let Q := fresh in destruct (talk_need _ _ _ _ H) as (? & _ & Q); rewrite Q in H; clear Q).
    clear J. apply hear_exchange in H; [|assumption|intros E'; symmetry in E'; revert E'; apply bkey_pkey; [reflexivity|apply round_ok_r; reflexivity]]. destruct H as (? & ? & _ & _ & H).
    repeat (let Q := fresh in destruct (talk_need _ _ _ _ H) as (? & _ & Q); rewrite Q in H; clear Q).
    apply hear_exchange in H; [|assumption|intros E'; symmetry in E'; revert E'; apply bkey_pkey; [reflexivity|apply round_ok_r; reflexivity]]. destruct H as (? & ? & _ & _ & H).
    repeat (let Q := fresh in destruct (talk_need _ _ _ _ H) as (? & _ & Q); rewrite Q in H; clear Q). exact H. }
  rewrite map_map in H. apply in_map_iff in H. destruct H as ([nj a] & EQ & I). cbn [fst snd] in EQ. injection EQ as EK <-. apply pkey_inj in EK; [|reflexivity|reflexivity]. destruct EK as (_ & -> & _ & _).
  rewrite omapM_map in E3. apply (omapM_val []) in E3. destruct E3 as [E3 ->].
  rewrite combine_map_r, omapM_map in E6. cbn [fst snd] in E6. apply (omapM_val a) in E6. destruct E6 as [E6 ->]. rewrite others_num, combine_map in I by exact L. apply in_map_iff in I. destruct I as (j0 & EJ & I).
  pose proof (f_equal fst EJ) as EN. pose proof (f_equal snd EJ) as EA. cbn [fst snd] in EN, EA. clear EJ. apply num_inj in EN. subst j0. destruct (E6 j I) as (y & Y). rewrite Y in EA. cbn [val] in EA. subst y. destruct (E3 j I) as (ky & KY). rewrite KY in Y. cbn [val] in Y.
  apply in_others in I. assert (LJ : j < n) by lia. assert (NJ : j <> i) by lia. rewrite <- seq_shift, map_map, nth_o_fun in Y by exact LJ. cbn [obind] in Y. injection Y as <-.
  unfold aes_key in KY. apply obind_ok in KY. destruct KY as (x & KX & KY). destruct (Nat.leb_spec (length (to_bytes x)) 32) as [LE|GT]; [|discriminate]. injection KY as <-.
  split; [exact TN|]. split; [exact LJ|]. split; [exact NJ|]. exists b, d, x. split; [exact HB|]. split; [exact HD|]. split; [exact CK'|]. split; [|split; [exact LE|reflexivity]].
  destruct (x_coord (smul (kr18_u r) (kd_y (d j)))) as [x'|]; cbn [unwrap] in KX; [injection KX as ->; reflexivity|discriminate].
Qed.

(** * C129 *)
(** Whatever the server holds, the other clients do and others store: when a client is about to store the text of round 3 for party j, the messages it was told have passed the checks of shared_ok, and the text is the share for j, under the key of the pair. *)
Theorem C129_shares_only_after_checks oc ser par uuid (w : sys18 (file18 C)) l c t n i j u (r : kg18_rand C) nonces v p' : i < n ->
  nth_error (y_cl w) c = Some (kclient t n (S i) u r nonces) ->
  nth_error (y_cl (exec18 oc ser par uuid w l)) c = Some (Put (pkey (num i) (num j) "round3" u) v p') ->
  shared_ok t n i j u r nonces (log18 oc ser par uuid c w l) v.
Proof.
  intros L E E'. destruct (log_talk oc ser par uuid l w c _ E) as (p1 & E1 & Q). assert (p1 = Put (pkey (num i) (num j) "round3" u) v p') by congruence. subst p1. destruct (Q []) as [Q1 _]. rewrite app_nil_r in Q1.
  set (g := log18 oc ser par uuid c w l) in *.
  assert (H : shared_ok t n i j u r nonces (talk (kclient t n (S i) u r nonces) (told g)) v).
  { apply (share_talk t n i j u r nonces (told g) v _ L (incl_refl _)). rewrite Q1. apply in_app_iff. right. left. reflexivity. }
  assert (HL : forall A (cj : json A) rd x, hears cj n i u rd x (talk (kclient t n (S i) u r nonces) (told g)) -> hears cj n i u rd x g) by (intros A cj rd x; apply (hears_log cj n i u rd x oc ser par uuid w l c _ _ E E')).
  destruct H as (H1 & H2 & H3 & b & d & x & H4 & H5 & H). split; [exact H1|]. split; [exact H2|]. split; [exact H3|]. exists b, d, x. split; [apply HL, H4|]. split; [apply HL, H5|]. exact H.
Qed.
End Shares.
Print Assumptions C129_shares_only_after_checks.

(** ** Example *)
(** The four clients of C96_example: after 49 steps the fourth is about to store its share for the second. *)
Definition exw1 : sys18 (file18 toy) := {| y_sv := sv_init exser exuuid; y_cl := map excl18 (seq 0 4) |}.
Definition exl1 : list act18 := List.concat (repeat [Cl 3; Cl 1; Env (ASet "x" "y"); Cl 0; Lost 2; Cl 2] 22).
Definition exshared := shared_ok toy exHb (fun _ N => (N =? 143)%Z) exaenc (jof cbc18) (jof cdec1) (jof caead) 2 4 3 1 "u" (exrs18 3) (fun j => [Z.of_nat (10 * 3 + j)]).
Lemma exshare l v p' : nth_error (y_cl (exec18 true exser expar exuuid exw1 l)) 3 = Some (Put (pkey (num 3) (num 1) "round3" "u") v p') -> exshared (log18 true exser expar exuuid 3 exw1 l) v.
Proof. apply (C129_shares_only_after_checks toy exHb exHf3 (fun _ N => (N =? 143)%Z) exaenc exadec (jof cbc18) (jof cdec1) (jof caead) (jof cvss) (jof cdlog)
    true exser expar exuuid exw1 l 3 2 4 3 1 "u" (exrs18 3) (fun j => [Z.of_nat (10 * 3 + j)]) v p'); [lia|reflexivity]. Qed.
Example C129_example : exists v p', nth_error (y_cl (exec18 true exser expar exuuid exw1 (firstn 49 exl1))) 3 = Some (Put (pkey (num 3) (num 1) "round3" "u") v p') /\ exshared (log18 true exser expar exuuid 3 exw1 (firstn 49 exl1)) v.
Proof.
  destruct (next_put_ex (nth_error (y_cl (exec18 true exser expar exuuid exw1 (firstn 49 exl1))) 3) (pkey (num 3) (num 1) "round3" "u")) as (v & p' & E); [vm_compute; reflexivity|].
  exists v, p'. split; [exact E|exact (exshare _ v p' E)].
Qed.

(** C63 and C66: where the two machines fall short.  Histories as in PropSM.v. *)
From Coq Require Import ZArith Lia Bool List.
From Verif Require Import ZArithX Fq Curve Toy Outcome Sigma Bytes Vss Paillier RangeProofs Pdl PdlSlack Mta Ecdsa Mp MpProofs Gg20Keygen KeygenRun Gg20Sign SignRun SignProofs Blame Stores RoundSM SmSpec SmProofs KeygenSM SignSM SmSim SmTheory SmFacts SmPanic PropSign KeygenExtra Network PropRange PropNetwork.
Import ListNotations.
Local Open Scope nat_scope.

Section Sg.
Context (C : Curve).
Context (Hb : list Z -> Z) (Hz : hashZ C) (Hf : hashF C) (rd : sign_rand C).
Notation M := (sg_msg C).
Notation opf := (sg_op C Hb Hz Hf rd).
Notation hist := (sg_hist C Hb Hz Hf rd).
Notation of := (sg_of C).
Notation p2p := sg_p2p.
Context (i : nat) (sl : list nat) (lk : local_key C).
Notation P := (sgp C Hb Hz Hf rd i (length sl)).
Notation D0 := (SR0 i sl lk : sg_st C).
Add Field ppfield : (C_field C).

(** C63: a message of round 3, 4 or 5 that comes after its round is reported as a message of round 2. *)
Theorem C63_offline_late_refuted h s rs m : hist i sl lk h s rs -> 3 <= of (m_body m) < sg_current_round s -> sg_current_round s <= 6 ->
  sg_handle_incoming C Hb Hz Hf rd s m = (s, Err (EOutOfOrder (sg_current_round s) 2)) /\ of (m_body m) <> 2.
Proof.
  intros H L L6. split; [|lia]. destruct (sg_hist_run C Hb Hz Hf rd _ _ _ _ _ _ H) as [I [E [_ [K1 [K2 _]]]]].
  assert (G : g_store (fst (run_ops (g_op P) (g_init P D0) h)) (of (m_body m)) = None).
  { apply (store_gone P D0 I (sgp_of C Hb Hz Hf rd i (length sl)) (sgp_exp C Hb Hz Hf rd i (length sl)) h).
    - cbn. lia.
    - rewrite <- E. unfold sg_current_round in L6. cbn [sg_abs gs_round]. destruct (sm_round s); cbn [sg_abs_round]; eauto; lia.
    - rewrite <- E, (sg_current_sim C Hb Hz Hf rd). lia. }
  rewrite <- E in G. unfold g_store in G. cbn [sg_abs gs_stores] in G. unfold sg_handle_incoming.
  destruct (m_body m) as [b|b|b|b|b|b]; cbn in L, G; try lia.
  - destruct (sm_m3 s); [discriminate|reflexivity].
  - destruct (sm_m4 s); [discriminate|reflexivity].
  - destruct (sm_m5 s); [discriminate|reflexivity].
Qed.

(** A failing round is always reported: once the machine does not want to proceed, its only failure is the one of the
    first round that fails on the messages delivered. *)
Theorem C66_offline_failure_reported h s rs k d out l : hist i sl lk h s rs -> sg_wants_to_proceed s = false -> k <= 6 ->
  runs (sg_step C Hb Hz Hf rd) D0 (inbox of p2p i (length sl) h) k d out -> inbox of p2p i (length sl) h k = Some l ->
  match sg_step C Hb Hz Hf rd k d l with
  | Ok _ => True
  | Err e => failures rs = [Some e]
  | Panic => failures rs = [None]
  end.
Proof.
  intros H W L R N. destruct (sg_hist_run C Hb Hz Hf rd _ _ _ _ _ _ H) as [I [E [E2 _]]].
  assert (Q : forall o, sg_step C Hb Hz Hf rd k d l = o -> (forall x, o <> Ok x) -> failures rs = [fail_of o]).
  { intros o S NO. rewrite <- (sg_failures C rs), E2. apply (fails_reported P D0 I (sgp_of C Hb Hz Hf rd i (length sl)) (sgp_exp C Hb Hz Hf rd i (length sl)) h out k).
    - exists d, l. split; [exact L|]. split; [exact R|]. split; [exact N|]. split; [exact S|exact NO].
    - rewrite <- E, sg_wants_sim. exact W. }
  destruct (sg_step C Hb Hz Hf rd k d l) as [x|e|]; [exact Logic.I| |]; apply (Q _ eq_refl); discriminate.
Qed.

Lemma sg_runs_3 inb d out : runs (sg_step C Hb Hz Hf rd) D0 inb 3 d out -> exists r, d = SR3 r.
Proof.
  intros H3. inversion H3 as [|k3 d2 o2 l2 d3 o3 H2 _ S2]; subst. inversion H2 as [|k2 d1 o1 l1 d2' o2' H1 _ S1]; subst.
  inversion H1 as [|k1 d0 o0 l0 d1' o1' H0 _ S0]; subst. inversion H0; subst. cbn [sg_step] in S0.
  apply obind_ok in S0. destruct S0 as [x0 [_ S0]]. injection S0 as <- <-. cbn [sg_step] in S1.
  apply obind_ok in S1. destruct S1 as [y1 [_ S1]]. apply obind_ok in S1. destruct S1 as [x1 [_ S1]]. injection S1 as <- <-. cbn [sg_step] in S2.
  apply obind_ok in S2. destruct S2 as [y2 [_ S2]]. apply obind_ok in S2. destruct S2 as [x2 [_ S2]]. injection S2 as <- <-. eauto.
Qed.
Lemma asserts_panic {A} (f : A -> bool) l x : In x l -> f x = false -> omapM (fun x => oassert (f x)) l = (Panic : outcome mp_error _).
Proof.
  intros X F. induction l as [|a l IH]; [destruct X|]. cbn [omapM]. destruct X as [->|X]; [rewrite F; reflexivity|].
  unfold oassert at 1. destruct (f a); [|reflexivity]. cbn [obind]. rewrite (IH X). reflexivity.
Qed.
Lemma asserts_ok {A} (f : A -> bool) l : (forall x, In x l -> f x = true) -> exists r, omapM (fun x => oassert (f x)) l = (Ok r : outcome mp_error _).
Proof.
  intros F. induction l as [|a l IH]; [exists []; reflexivity|]. destruct IH as [r IH]; [intros x X; apply F; right; exact X|].
  exists (tt :: r). cbn [omapM]. rewrite (F a (or_introl eq_refl)). cbn [oassert obind]. rewrite IH. reflexivity.
Qed.
Lemma incl_me_in {A} k (own : A) l x : In x l -> In x (incl_me k own l).
Proof. intros X. unfold incl_me. rewrite <- (firstn_skipn k l) in X. apply in_app_iff in X. apply in_app_iff. destruct X; [left|right; right]; assumption. Qed.
Lemma in_incl_me {A} k (own : A) l x : In x (incl_me k own l) -> x = own \/ In x l.
Proof. unfold incl_me. intros X. apply in_app_iff in X. rewrite <- (firstn_skipn k l). destruct X as [X|[X|X]]; [right|left; auto|right]; apply in_app_iff; auto. Qed.
Lemma map_incl_me {A B} (f : A -> B) k own l : map f (incl_me k own l) = incl_me k (f own) (map f l).
Proof. unfold incl_me. rewrite map_app, firstn_map. cbn [map]. rewrite skipn_map. reflexivity. Qed.

(** C66: in every history that got past round 3 without failing, replacing one other signer's round-3 message by one
    whose point differs from the one in its proof makes the machine panic. *)
Theorem C66_offline_bad_point_panics_refuted h s rs j delta T p : hist i sl lk h s rs -> failures rs = [] -> 3 < sg_current_round s ->
  In j (peers i (length sl)) -> T <> pe_com p ->
  exists s' rs', hist i sl lk (swapped of p2p i 3 j (SM3 (delta, T, p)) h ++ repeat Proceed 8) s' rs' /\ failures rs' = [None].
Proof.
  intros H F L J NE. destruct (sg_hist_run C Hb Hz Hf rd _ _ _ _ _ _ H) as [I [E [E2 _]]].
  destruct (run_ops (g_op P) (g_init P D0) h) as [gs grs] eqn:ER. cbn [fst snd] in E, E2.
  destruct (swap_fails P D0 I (sgp_of C Hb Hz Hf rd i (length sl)) (sgp_exp C Hb Hz Hf rd i (length sl)) h gs grs 3 j ER) as [d [out [l1 [x [l2 [R1 [R2 [R3 [[y R4] R5]]]]]]]]].
  { rewrite <- E2, sg_failures. exact F. }
  { cbn. lia. }
  { rewrite <- E, (sg_current_sim C Hb Hz Hf rd). exact L. }
  { exact J. }
  destruct (sg_runs_3 _ d out R1) as [r ->]. pose proof H as [s0 [N _]]. set (h' := swapped of p2p i 3 j (SM3 (delta, T, p)) h ++ repeat Proceed 8).
  exists (fst (run_ops opf s0 h')), (snd (run_ops opf s0 h')). assert (H' : hist i sl lk h' (fst (run_ops opf s0 h')) (snd (run_ops opf s0 h'))) by (exists s0; split; [exact N|destruct (run_ops opf s0 h'); reflexivity]).
  split; [exact H'|]. destruct (sg_hist_run C Hb Hz Hf rd _ _ _ _ _ _ H') as [_ [_ [E2' _]]]. rewrite <- (sg_failures C), E2'.
  apply (R5 (SM3 (delta, T, p)) Panic); [reflexivity| |discriminate]. cbn [sgp g_step sg_step] in R4 |- *. apply obind_ok in R4. destruct R4 as [ms [R4 _]].
  assert (MS : exists ms' , omapM (sun3 C) (l1 ++ SM3 (delta, T, p) :: l2) = (Ok ms' : outcome mp_error _) /\ In (delta, T, p) ms').
  { clear -R4. revert ms R4. induction l1 as [|a l1 IH]; intros ms R4; cbn [app omapM] in R4 |- *.
    - apply obind_ok in R4. destruct R4 as [a [_ R4]]. apply obind_ok in R4. destruct R4 as [t [R4 _]]. cbn [sun3 obind]. rewrite R4. cbn [obind]. eexists. split; [reflexivity|left; reflexivity].
    - apply obind_ok in R4. destruct R4 as [b [R3 R4]]. rewrite R3. cbn [obind]. apply obind_ok in R4. destruct R4 as [t [R4 _]]. destruct (IH _ R4) as [ms' [Q1 Q2]]. rewrite Q1. cbn [obind]. eexists. split; [reflexivity|right; exact Q2]. }
  destruct MS as [ms' [MS IN]]. rewrite MS. cbn [obind]. unfold sg_r3.
  rewrite (omapM_ext_in (fun '(_, t, p0) => oassert (pt_eqb t (pe_com p0))) (fun x => oassert (pt_eqb (snd (fst x)) (pe_com (snd x))))) by (intros [[? ?] ?] _; reflexivity).
  rewrite (asserts_panic _ _ (delta, T, p)); [reflexivity|apply incl_me_in; exact IN|]. cbn [fst snd]. destruct (pt_eqb T (pe_com p)) eqn:Q; [|reflexivity]. apply pt_eqb_eq in Q. contradiction.
Qed.
(** C66: a signer that sends its round-3 message last can choose its delta so that the sum is zero; the inversion of the
    sum then panics.  Everything else in the message is as it was. *)
Theorem C66_offline_zero_sum_panics_refuted h s rs j : hist i sl lk h s rs -> failures rs = [] -> 3 < sg_current_round s -> In j (peers i (length sl)) ->
  exists delta T p delta' s' rs', SmSpec.got of p2p i h 3 j = Some (SM3 (delta, T, p)) /\
  hist i sl lk (swapped of p2p i 3 j (SM3 (delta', T, p)) h ++ repeat Proceed 8) s' rs' /\ failures rs' = [None].
Proof.
  intros H F L J. destruct (sg_hist_run C Hb Hz Hf rd _ _ _ _ _ _ H) as [I [E [E2 _]]].
  destruct (run_ops (g_op P) (g_init P D0) h) as [gs grs] eqn:ER. cbn [fst snd] in E, E2.
  destruct (swap_fails P D0 I (sgp_of C Hb Hz Hf rd i (length sl)) (sgp_exp C Hb Hz Hf rd i (length sl)) h gs grs 3 j ER) as [d [out [l1 [x [l2 [R1 [R2 [R3 [[y R4] R5]]]]]]]]].
  { rewrite <- E2, sg_failures. exact F. }
  { cbn. lia. }
  { rewrite <- E, (sg_current_sim C Hb Hz Hf rd). exact L. }
  { exact J. }
  destruct (sg_runs_3 _ d out R1) as [r ->]. cbn [sgp g_step sg_step] in R4. apply obind_ok in R4. destruct R4 as [ms [R4 R6]].
  assert (MS : exists ms1 delta T p ms2, x = SM3 (delta, T, p) /\ ms = ms1 ++ (delta, T, p) :: ms2 /\
    forall b, omapM (sun3 C) (l1 ++ SM3 b :: l2) = (Ok (ms1 ++ b :: ms2) : outcome mp_error _)).
  { clear -R4. revert ms R4. induction l1 as [|a l1 IH]; intros ms R4; cbn [app omapM] in R4.
    - apply obind_ok in R4. destruct R4 as [a [R3 R4]]. apply obind_ok in R4. destruct R4 as [t [R4 R5]]. injection R5 as <-. destruct x as [b|b|b|b|b|b]; cbn [sun3] in R3; try discriminate. injection R3 as <-.
      destruct b as [[delta T] p]. exists [], delta, T, p, t. split; [reflexivity|]. split; [reflexivity|]. intros b. cbn [app omapM sun3 obind]. rewrite R4. reflexivity.
    - apply obind_ok in R4. destruct R4 as [b [R3 R4]]. apply obind_ok in R4. destruct R4 as [t [R4 R5]]. injection R5 as <-. destruct (IH _ R4) as [ms1 [delta [T [p [ms2 [A1 [A2 A3]]]]]]].
      exists (b :: ms1), delta, T, p, ms2. split; [exact A1|]. split; [rewrite A2; reflexivity|]. intros c. cbn [app omapM]. rewrite R3. cbn [obind]. rewrite (A3 c). reflexivity. }
  destruct MS as [ms1 [delta [T [p [ms2 [X [MSE MS]]]]]]]. subst x ms.
  set (sm := fadd (s3_delta r) (fadd (fsum (map (fun x => fst (fst x)) ms1)) (fsum (map (fun x => fst (fst x)) ms2)))).
  set (delta' := fsub f0 sm). exists delta, T, p, delta'. destruct H as [s0 [N _]]. set (h' := swapped of p2p i 3 j (SM3 (delta', T, p)) h ++ repeat Proceed 8).
  exists (fst (run_ops opf s0 h')), (snd (run_ops opf s0 h')). assert (H' : hist i sl lk h' (fst (run_ops opf s0 h')) (snd (run_ops opf s0 h'))) by (exists s0; split; [exact N|destruct (run_ops opf s0 h'); reflexivity]).
  split; [exact R3|]. split; [exact H'|]. destruct (sg_hist_run C Hb Hz Hf rd _ _ _ _ _ _ H') as [_ [_ [E2' _]]]. rewrite <- (sg_failures C), E2'.
  apply (R5 (SM3 (delta', T, p)) Panic); [reflexivity| |discriminate]. cbn [sgp g_step sg_step]. rewrite (MS (delta', T, p)). cbn [obind].
  apply obind_ok in R6. destruct R6 as [z [R6 _]]. unfold sg_r3 in R6 |- *. apply obind_ok in R6. destruct R6 as [u [R6 _]].
  assert (A0 : forall x, In x (incl_me (s3_i r - 1) (s3_delta r, s3_t r, s3_tp r) (ms1 ++ (delta, T, p) :: ms2)) -> pt_eqb (snd (fst x)) (pe_com (snd x)) = true).
  { intros x X. destruct (pt_eqb (snd (fst x)) (pe_com (snd x))) eqn:Q; [reflexivity|]. exfalso.
    rewrite (omapM_ext_in (fun '(_, t, p0) => oassert (pt_eqb t (pe_com p0))) (fun x => oassert (pt_eqb (snd (fst x)) (pe_com (snd x))))) in R6 by (intros [[? ?] ?] _; reflexivity).
    rewrite (asserts_panic _ _ x X Q) in R6. discriminate. }
  assert (A1 : forall x, In x (incl_me (s3_i r - 1) (s3_delta r, s3_t r, s3_tp r) (ms1 ++ (delta', T, p) :: ms2)) -> pt_eqb (snd (fst x)) (pe_com (snd x)) = true).
  { intros x X. apply in_incl_me in X. assert (OLD : In (s3_delta r, s3_t r, s3_tp r) (incl_me (s3_i r - 1) (s3_delta r, s3_t r, s3_tp r) (ms1 ++ (delta, T, p) :: ms2))) by (unfold incl_me; apply in_app_iff; right; left; reflexivity).
    destruct X as [->|X]; [exact (A0 _ OLD)|]. apply in_app_iff in X. destruct X as [X|[<-|X]].
    - apply A0, incl_me_in, in_app_iff. left. exact X.
    - apply (A0 (delta, T, p)). apply incl_me_in, in_app_iff. right. left. reflexivity.
    - apply A0, incl_me_in, in_app_iff. right. right. exact X. }
  destruct (asserts_ok _ _ A1) as [u' A2].
  rewrite (omapM_ext_in (fun '(_, t, p0) => oassert (pt_eqb t (pe_com p0))) (fun x => oassert (pt_eqb (snd (fst x)) (pe_com (snd x))))) by (intros [[? ?] ?] _; reflexivity).
  rewrite A2. cbn [obind]. unfold sg_delta_inv. rewrite map_incl_me. cbn [fst]. rewrite fold_incl, map_app. cbn [map fst]. assert (FC : forall (a : Fq (cq C)) l, fsum (a :: l) = fadd a (fsum l)) by reflexivity. rewrite fsum_app, FC.
  match goal with |- context [finvert ?e] => assert (Z : e = f0) by (unfold delta', sm; ring) end.
  rewrite Z. unfold finvert. destruct (feqb_spec (f0 : Fq (cq C)) f0) as [_|NZ]; [reflexivity|contradiction].
Qed.
End Sg.
Print Assumptions C63_offline_late_refuted.
Print Assumptions C66_offline_failure_reported.
Print Assumptions C66_offline_bad_point_panics_refuted.
Print Assumptions C66_offline_zero_sum_panics_refuted.

(** The history of the first signer in the run of C65_example, up to round 4 and to the end *)
Definition exhist1 (k : nat) : list (op (sg_msg toy)) :=
  match omapM (fun i => sg_new (S i) [3; 1] (exlks i)) (seq 0 2) with
  | Ok sts => ops_of 1 (snd (net_exec (fun i => sg_op toy exHb2 exH exHf2 (exsrs (i - 1))) {| nt_st := sts; nt_wire := [] |} (concat (repeat exsturn k) ++ [NProceed 2; NProceed 1])))
  | _ => []
  end.
Definition exrun1 (h : list (op (sg_msg toy))) : nat * list bool * nat :=
  match sg_new 1 [3; 1] (exlks 0) with
  | Ok s0 => let '(s, rs) := run_ops (sg_op toy exHb2 exH exHf2 (exsrs 0)) s0 h in
             (sg_current_round s, map (fun o => match o with None => true | _ => false end) (failures rs), length (picks rs))
  | _ => (0, [], 0)
  end.
Definition exbad : sg_msg toy := SM3 (tz 1, smul (tz 1) (gen), {| pe_a1 := gen; pe_a2 := gen; pe_com := smul (tz 2) (gen); pe_z1 := tz 0; pe_z2 := tz 0 |}).
(** It succeeds; with the second signer's round-3 message changed it panics. *)
Example C66_example : exrun1 (exhist1 6) = (7, [], 0) /\ exrun1 (swapped (sg_of toy) sg_p2p 1 3 2 exbad (exhist1 6) ++ repeat Proceed 8) = (7, [true], 0).
Proof. split; vm_compute; reflexivity. Qed.
(** In round 5, the second signer's round-3 message comes again. *)
Definition exlate : nat * nat * option (nat * nat) :=
  match sg_new 1 [3; 1] (exlks 0), find (fun m => sg_of toy (m_body m) =? 3) (deliveries (exhist1 4)) with
  | Ok s0, Some m => let s := fst (run_ops (sg_op toy exHb2 exH exHf2 (exsrs 0)) s0 (exhist1 4)) in
      (sg_current_round s, sg_of toy (m_body m), match snd (sg_handle_incoming toy exHb2 exH exHf2 (exsrs 0) s m) with Err (EOutOfOrder c r) => Some (c, r) | _ => None end)
  | _, _ => (0, 0, None)
  end.
Example C63_example : exlate = (5, 3, Some (5, 2)).
Proof. vm_compute. reflexivity. Qed.

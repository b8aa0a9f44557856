(** Keygen and OfflineStage are instances of the machine of RoundSM.v. *)
From Coq Require Import ZArith Lia Bool List.
From Verif Require Import ZArithX Fq Curve Outcome Sigma Bytes Vss Paillier RangeProofs Pdl PdlSlack Mta Ecdsa Mp MpProofs Gg20Keygen Gg20Sign Blame Stores RoundSM SmSpec SmProofs KeygenSM SignSM.
Import ListNotations.
Local Open Scope nat_scope.

Definition store_map {A B} (f : A -> B) (s : store A) : store B :=
  {| s_me := s_me s; s_slots := map (option_map f) (s_slots s); s_left := s_left s |}.
Lemma wants_map {A B} (f : A -> B) s : wants_opt (option_map (store_map f) s) = wants_opt s.
Proof. destruct s; reflexivity. Qed.
Lemma unwrap_map {A B} (f : A -> B) l : omapM unwrap (map (option_map f) l) = omap (map f) (omapM unwrap l : outcome store_err (list A)).
Proof. induction l as [|[a|] l IH]; cbn; [reflexivity| |reflexivity]. rewrite IH. destruct (omapM unwrap l); reflexivity. Qed.
Lemma take_all_map {P A B} (f : A -> B) s : take_all (P := P) (option_map (store_map f) s) = omap (map f) (take_all s).
Proof.
  unfold take_all. destruct s as [s|]; [|reflexivity]. cbn [option_map ok_or obind]. unfold finish, store_map. cbn [s_left s_slots].
  destruct (0 <? s_left s); [reflexivity|]. rewrite unwrap_map. destruct (omapM unwrap (s_slots s)); reflexivity.
Qed.
Lemma upd_map1 {A B} (f : A -> B) l i x : upd (map f l) i (f x) = map f (upd l i x).
Proof. revert i; induction l as [|a l IH]; intros [|i]; cbn; congruence. Qed.
Lemma push_slot_map {A B} (f : A -> B) s m : push_slot (store_map f s) (msg_map f m) = omap (store_map f) (push_slot s m).
Proof.
  unfold push_slot, store_map, msg_map. cbn [m_from m_body s_me s_slots s_left]. destruct (m_from m =? s_me s); [reflexivity|].
  rewrite nth_error_map. destruct (nth_error (s_slots s) _) as [[a|]|]; cbn [option_map omap]; [reflexivity| |reflexivity].
  cbn [s_me s_slots s_left]. rewrite <- (upd_map1 (option_map f)). reflexivity.
Qed.
Lemma push_broadcast_map {A B} (f : A -> B) s m : push_broadcast (store_map f s) (msg_map f m) = omap (store_map f) (push_broadcast s m).
Proof. unfold push_broadcast. cbn [msg_map m_from m_to]. destruct (m_from m =? 0); [reflexivity|]. destruct (m_to m); [reflexivity|]. apply (push_slot_map f s m). Qed.
Lemma push_p2p_map {A B} (f : A -> B) s m : push_p2p (store_map f s) (msg_map f m) = omap (store_map f) (push_p2p s m).
Proof.
  unfold push_p2p. cbn [msg_map m_from m_to store_map s_me]. destruct (m_from m =? 0); [reflexivity|].
  destruct (addr_eqb (m_to m) (Some (s_me s))); [|reflexivity]. apply (push_slot_map f s m).
Qed.
Lemma blame_map {A B} (f : A -> B) s : blame_opt (option_map (store_map f) s) = blame_opt s.
Proof.
  destruct s as [s|]; [|reflexivity]. cbn [option_map blame_opt]. unfold store_blame. cbn [store_map s_slots s_me].
  rewrite map_length. assert (E : forall l k, flat_map (fun '(i, o) => match o with None => [if (i <? s_me s - 1) then i + 1 else i + 2] | Some _ => [] end)
     (combine (seq k (length l)) (map (option_map f) l)) =
     flat_map (fun '(i, o) => match o with None => [if (i <? s_me s - 1) then i + 1 else i + 2] | Some _ => [] end) (combine (seq k (length l)) l)).
  { induction l as [|[a|] l IH]; intros k; cbn; [reflexivity| |]; rewrite IH; reflexivity. }
  rewrite E. reflexivity.
Qed.
Lemma omapM_un {P A B} (f : A -> B) (g : B -> outcome P A) l : (forall a, g (f a) = Ok a) -> omapM g (map f l) = Ok l.
Proof. intros H. induction l as [|a l IH]; cbn; [reflexivity|]. rewrite H. cbn. rewrite IH. reflexivity. Qed.
Lemma msg_map_id {A} (m : msg A) b : m_body m = b -> msg_map (fun _ => b) m = m.
Proof. destruct m; cbn; intros ->; reflexivity. Qed.
Lemma msg_map_2 {A B} (f : B -> A) (m : msg A) b : m_body m = f b -> m = msg_map f (msg_map (fun _ => b) m).
Proof. destruct m; cbn; intros ->; reflexivity. Qed.

(** ** Keygen *)
Section Kg.
Context (C : Curve).
Context (Hb : list Z -> Z) (Hf : hashF C) (ck : Z -> Z -> bool) (cd : Z -> dlstmt -> outcome mp_error bool).
Context (rd : kg_rand C).
Notation M := (kg_msg C).
Notation res := (outcome mp_error).

Definition kun1 (m : M) : res kg_bc1 := match m with KM1 x => Ok x | _ => Panic end.
Definition kun2 (m : M) : res (kg_dec1 C) := match m with KM2 x => Ok x | _ => Panic end.
Definition kun3 (m : M) : res (vss C * Fq (cq C)) := match m with KM3 x => Ok x | _ => Panic end.
Definition kun4 (m : M) : res (dlog_proof C) := match m with KM4 x => Ok x | _ => Panic end.
Definition kg_of (m : M) : nat := match m with KM1 _ => 1 | KM2 _ => 2 | KM3 _ => 3 | KM4 _ => 4 end.
(** One round of key generation: data of round k and its messages to the data of the next round and what is sent. *)
Definition kg_step (k : nat) (d : kg_r C) (l : list M) : res (kg_r C * list (msg M)) :=
  match d with
  | KR0 i t n => let* x := kg_r0 C Hb i t n rd in Ok (KR1 (fst x), bcast i (KM1 (snd x)))
  | KR1 r => let* msgs := omapM kun1 l in let* x := kg_r1 r msgs in Ok (KR2 (fst x), bcast (r1_i r) (KM2 (snd x)))
  | KR2 r => let* msgs := omapM kun2 l in let* x := kg_r2 C Hb ck cd r (kr_coefs rd) msgs in
             Ok (KR3 (fst x), map (fun y => {| m_from := r2_i r; m_to := Some (fst y); m_body := KM3 (snd y) |}) (snd x))
  | KR3 r => let* msgs := omapM kun3 l in let* x := kg_r3 C Hf r (kr_nonce rd) msgs in Ok (KR4 (fst x), bcast (r3_i r) (KM4 (snd x)))
  | KR4 r => let* msgs := omapM kun4 l in let* x := kg_r4 C Hf r msgs in Ok (KFinal x, [])
  | _ => Panic
  end.
Definition kg_p2p (k : nat) : bool := k =? 3.
Definition kgp (i n : nat) : params mp_error M (kg_r C) :=
  {| g_K := 4; g_me := i; g_n := n; g_p2p := kg_p2p; g_exp := fun k => negb (k =? 1); g_again := fun _ => true; g_rep := fun k => k;
     g_of := kg_of; g_step := kg_step |}.
Definition kg_abs_round (r : kg_r C) : ground (kg_r C) :=
  match r with KR0 _ _ _ => GRun 0 r | KR1 _ => GRun 1 r | KR2 _ => GRun 2 r | KR3 _ => GRun 3 r | KR4 _ => GRun 4 r | KFinal _ => GFinal r | KGone => GGone end.
Definition kg_abs (s : kg_sm C) : gstate M (kg_r C) :=
  {| gs_round := kg_abs_round (ks_round s);
     gs_stores := [option_map (store_map KM1) (ks_m1 s); option_map (store_map KM2) (ks_m2 s); option_map (store_map KM3) (ks_m3 s); option_map (store_map KM4) (ks_m4 s)];
     gs_queue := ks_queue s |}.

Lemma kg_proceed_sim i n fuel mb s : g_proceed (kgp i n) fuel mb (kg_abs s) =
  (kg_abs (fst (kg_proceed_round C Hb Hf ck cd rd fuel mb s)), snd (kg_proceed_round C Hb Hf ck cd rd fuel mb s)).
Proof.
  revert s; induction fuel as [|f IH]; intros s; [reflexivity|].
  destruct s as [r m1 m2 m3 m4 q si sn]. cbn [g_proceed kg_proceed_round kg_abs gs_round ks_round].
  destruct r as [a t c|r|r|r|r|k|]; cbn [kg_abs_round kgp g_exp g_again].
  - unfold g_wants, g_exec. cbn [Nat.ltb Nat.leb andb negb Nat.eqb orb obind g_step kgp kg_step]. destruct mb; [|reflexivity].
    destruct (kg_r0 C Hb a t c rd) as [x|e|]; cbn [obind omap_err]; [|reflexivity|reflexivity].
    rewrite <- IH. reflexivity.
  - unfold g_wants, g_store. cbn [kg_abs Nat.ltb Nat.leb Nat.sub nth gs_stores andb ks_m1 ks_m2 ks_m3 ks_m4]. rewrite wants_map.
    destruct (negb (wants_opt m1) && _); [|reflexivity].
    unfold g_exec, g_store. cbn [kg_abs Nat.ltb Nat.leb Nat.sub nth gs_stores kgp g_step ks_m1 ks_m2 ks_m3 ks_m4]. rewrite take_all_map.
    destruct (take_all m1) as [l|e|]; cbn [omap obind kg_step]; [|reflexivity|reflexivity].
    rewrite (omapM_un KM1 kun1) by reflexivity. cbn [obind]. destruct (kg_r1 r l) as [x|e|]; cbn [obind omap_err]; [|reflexivity|reflexivity].
    rewrite <- IH. reflexivity.
  - unfold g_wants, g_store. cbn [kg_abs Nat.ltb Nat.leb Nat.sub nth gs_stores andb ks_m1 ks_m2 ks_m3 ks_m4]. rewrite wants_map.
    destruct (negb (wants_opt m2) && _); [|reflexivity].
    unfold g_exec, g_store. cbn [kg_abs Nat.ltb Nat.leb Nat.sub nth gs_stores kgp g_step ks_m1 ks_m2 ks_m3 ks_m4]. rewrite take_all_map.
    destruct (take_all m2) as [l|e|]; cbn [omap obind kg_step]; [|reflexivity|reflexivity].
    rewrite (omapM_un KM2 kun2) by reflexivity. cbn [obind].
    destruct (kg_r2 C Hb ck cd r (kr_coefs rd) l) as [x|e|]; cbn [obind omap_err]; [|reflexivity|reflexivity].
    rewrite <- IH. reflexivity.
  - unfold g_wants, g_store. cbn [kg_abs Nat.ltb Nat.leb Nat.sub nth gs_stores andb ks_m1 ks_m2 ks_m3 ks_m4]. rewrite wants_map.
    destruct (negb (wants_opt m3) && _); [|reflexivity].
    unfold g_exec, g_store. cbn [kg_abs Nat.ltb Nat.leb Nat.sub nth gs_stores kgp g_step ks_m1 ks_m2 ks_m3 ks_m4]. rewrite take_all_map.
    destruct (take_all m3) as [l|e|]; cbn [omap obind kg_step]; [|reflexivity|reflexivity].
    rewrite (omapM_un KM3 kun3) by reflexivity. cbn [obind].
    destruct (kg_r3 C Hf r (kr_nonce rd) l) as [x|e|]; cbn [obind omap_err]; [|reflexivity|reflexivity].
    rewrite <- IH. reflexivity.
  - unfold g_wants, g_store. cbn [kg_abs Nat.ltb Nat.leb Nat.sub nth gs_stores andb ks_m1 ks_m2 ks_m3 ks_m4]. rewrite wants_map.
    destruct (negb (wants_opt m4) && _); [|reflexivity].
    unfold g_exec, g_store. cbn [kg_abs Nat.ltb Nat.leb Nat.sub nth gs_stores kgp g_step ks_m1 ks_m2 ks_m3 ks_m4]. rewrite take_all_map.
    destruct (take_all m4) as [l|e|]; cbn [omap obind kg_step]; [|reflexivity|reflexivity].
    rewrite (omapM_un KM4 kun4) by reflexivity. cbn [obind].
    destruct (kg_r4 C Hf r l) as [x|e|]; cbn [obind omap_err]; [|reflexivity|reflexivity].
    rewrite <- IH. reflexivity.
  - reflexivity.
  - reflexivity.
Qed.

Lemma kg_current_sim i n s : g_current (kgp i n) (kg_abs s) = kg_current_round s.
Proof. destruct s as [[] ? ? ? ? ? ? ?]; reflexivity. Qed.
Lemma kg_wants_sim s : g_wants_to_proceed (kg_abs s) = kg_wants_to_proceed s.
Proof. destruct s as [[] m1 m2 m3 m4 ? ? ?]; try reflexivity; unfold g_wants_to_proceed, g_wants, g_store; cbn; apply f_equal; apply wants_map. Qed.
Lemma kg_blame_sim s : g_blame (kg_abs s) = kg_round_blame s.
Proof.
  destruct s as [r m1 m2 m3 m4 ? ? ?]. destruct r; try reflexivity; [exact (blame_map KM1 m1)|exact (blame_map KM2 m2)|exact (blame_map KM3 m3)|exact (blame_map KM4 m4)].
Qed.

Lemma kg_handle_sim i n s m : g_handle (kgp i n) (kg_abs s) m =
  (kg_abs (fst (kg_handle_incoming C Hb Hf ck cd rd s m)), snd (kg_handle_incoming C Hb Hf ck cd rd s m)).
Proof.
  unfold g_handle, kg_handle_incoming. rewrite kg_current_sim. destruct (m_body m) as [b|b|b|b] eqn:E; cbn [kgp g_of kg_of g_rep].
  - unfold g_store. cbn [kg_abs gs_stores nth Nat.sub]. destruct (ks_m1 s) as [x|] eqn:X; cbn [option_map]; [|reflexivity].
    unfold g_push. cbn [g_p2p kgp kg_p2p Nat.eqb]. rewrite (msg_map_2 KM1 m b E) at 1. rewrite push_broadcast_map.
    destruct (push_broadcast x (msg_map (fun _ => b) m)) as [x'|e|]; cbn [omap]; [|reflexivity|reflexivity].
    rewrite <- (kg_proceed_sim i n). reflexivity.
  - unfold g_store. cbn [kg_abs gs_stores nth Nat.sub]. destruct (ks_m2 s) as [x|] eqn:X; cbn [option_map]; [|reflexivity].
    unfold g_push. cbn [g_p2p kgp kg_p2p Nat.eqb]. rewrite (msg_map_2 KM2 m b E) at 1. rewrite push_broadcast_map.
    destruct (push_broadcast x (msg_map (fun _ => b) m)) as [x'|e|]; cbn [omap]; [|reflexivity|reflexivity].
    rewrite <- (kg_proceed_sim i n). reflexivity.
  - unfold g_store. cbn [kg_abs gs_stores nth Nat.sub]. destruct (ks_m3 s) as [x|] eqn:X; cbn [option_map]; [|reflexivity].
    unfold g_push. cbn [g_p2p kgp kg_p2p Nat.eqb]. rewrite (msg_map_2 KM3 m b E) at 1. rewrite push_p2p_map.
    destruct (push_p2p x (msg_map (fun _ => b) m)) as [x'|e|]; cbn [omap]; [|reflexivity|reflexivity].
    rewrite <- (kg_proceed_sim i n). reflexivity.
  - unfold g_store. cbn [kg_abs gs_stores nth Nat.sub]. destruct (ks_m4 s) as [x|] eqn:X; cbn [option_map]; [|reflexivity].
    unfold g_push. cbn [g_p2p kgp kg_p2p Nat.eqb]. rewrite (msg_map_2 KM4 m b E) at 1. rewrite push_broadcast_map.
    destruct (push_broadcast x (msg_map (fun _ => b) m)) as [x'|e|]; cbn [omap]; [|reflexivity|reflexivity].
    rewrite <- (kg_proceed_sim i n). reflexivity.
Qed.

Definition kg_ret (r : ret mp_error M (local_key C)) : ret mp_error M (kg_r C) :=
  match r with RUnit o => RUnit o | RMsgs l => RMsgs l | RPick o => RPick (option_map (omap KFinal) o) end.
Lemma kg_op_sim i n s o : g_op (kgp i n) (kg_abs s) o = (kg_abs (fst (kg_op C Hb Hf ck cd rd s o)), kg_ret (snd (kg_op C Hb Hf ck cd rd s o))).
Proof.
  destruct o as [m| | |]; cbn [g_op kg_op].
  - rewrite kg_handle_sim. destruct (kg_handle_incoming C Hb Hf ck cd rd s m); reflexivity.
  - change (g_fuel (kgp i n)) with kg_fuel. rewrite kg_proceed_sim. unfold kg_proceed.
    destruct (kg_proceed_round C Hb Hf ck cd rd kg_fuel true s); reflexivity.
  - reflexivity.
  - destruct s as [[] m1 m2 m3 m4 ? ? ?]; reflexivity.
Qed.
Lemma kg_run_sim i n s h : run_ops (g_op (kgp i n)) (kg_abs s) h =
  (kg_abs (fst (run_ops (kg_op C Hb Hf ck cd rd) s h)), map kg_ret (snd (run_ops (kg_op C Hb Hf ck cd rd) s h))).
Proof.
  revert s; induction h as [|o h IH]; intros s; [reflexivity|]. cbn [run_ops]. rewrite kg_op_sim.
  destruct (kg_op C Hb Hf ck cd rd s o) as [s1 r]. cbn [fst snd]. rewrite IH. destruct (run_ops (kg_op C Hb Hf ck cd rd) s1 h); reflexivity.
Qed.
Lemma kg_abs_inj_round s d : gs_round (kg_abs s) = GFinal d -> exists k, ks_round s = KFinal k /\ d = KFinal k.
Proof. destruct s as [[] m1 m2 m3 m4 ? ? ?]; cbn; intros H; try discriminate. injection H as <-. eauto. Qed.

Definition kg_start (i t n : nat) : kg_sm C :=
  {| ks_round := KR0 i t n; ks_m1 := Some (store_new i n); ks_m2 := Some (store_new i n); ks_m3 := Some (store_new i n);
     ks_m4 := Some (store_new i n); ks_queue := []; ks_i := i; ks_n := n |}.
Lemma repeat_map {A B} (f : A -> B) x m : map f (repeat x m) = repeat (f x) m.
Proof. induction m; cbn; congruence. Qed.
Lemma kg_start_sim i t n : kg_abs (kg_start i t n) = g_init (kgp i n) (KR0 i t n).
Proof. unfold kg_abs, kg_start, g_init. cbn. unfold store_map, store_new. cbn. rewrite !repeat_map. reflexivity. Qed.
Lemma kg_new_ok i t n s : kg_new C Hb Hf ck cd rd i t n = Ok s -> s = kg_start i t n /\ 2 <= n /\ 1 <= t < n /\ 1 <= i <= n.
Proof.
  unfold kg_new. destruct (Nat.ltb_spec n 2); [discriminate|]. destruct (Nat.eqb_spec t 0); [discriminate|]. destruct (Nat.leb_spec n t); [discriminate|].
  destruct (Nat.eqb_spec i 0); [discriminate|]. destruct (Nat.ltb_spec n i); [discriminate|]. cbn. intros E. injection E as <-. repeat split; lia.
Qed.
Lemma kgp_of i n b : 1 <= g_of (kgp i n) b <= g_K (kgp i n).
Proof. destruct b; cbn; lia. Qed.
Lemma kgp_exp i n k : g_exp (kgp i n) k = false -> 0 < k /\ g_again (kgp i n) (k - 1) = true.
Proof. cbn. rewrite negb_false_iff, Nat.eqb_eq. intros ->. split; [lia|reflexivity]. Qed.
End Kg.

(** ** OfflineStage *)
Section Sg.
Context (C : Curve).
Context (Hb : list Z -> Z) (Hz : hashZ C) (Hf : hashF C).
Context (rd : sign_rand C).
Notation F := (Fq (cq C)).
Notation M := (sg_msg C).
Notation res := (outcome mp_error).

Definition sun1 (m : M) : res (msg_a * Z) := match m with SM1 x => Ok x | _ => Panic end.
Definition sun2 (m : M) : res (msg_b C * msg_b C) := match m with SM2 x => Ok x | _ => Panic end.
Definition sun3 (m : M) : res (F * pt C * ped_proof C) := match m with SM3 x => Ok x | _ => Panic end.
Definition sun4 (m : M) : res (sign_dec C) := match m with SM4 x => Ok x | _ => Panic end.
Definition sun5 (m : M) : res (pt C * list (pdls_proof C)) := match m with SM5 x => Ok x | _ => Panic end.
Definition sun6 (m : M) : res (pt C * heg_proof C) := match m with SM6 x => Ok x | _ => Panic end.
Definition sg_of (m : M) : nat := match m with SM1 _ => 1 | SM2 _ => 2 | SM3 _ => 3 | SM4 _ => 4 | SM5 _ => 5 | SM6 _ => 6 end.
(** One round of signing: data of round k and its messages to the data of the next round and what is sent. *)
Definition sg_step (k : nat) (d : sg_st C) (l : list M) : res (sg_st C * list (msg M)) :=
  match d with
  | SR0 i sl lk => let* x := sg_r0 Hb Hz i sl lk rd in Ok (SR1 (fst x), sbcast i (SM1 (snd x)))
  | SR1 r => let* msgs := omapM sun1 l in let* x := sg_r1 Hz Hf r rd msgs in Ok (SR2 (fst x), map (fun y => {| m_from := s1_i r; m_to := Some (fst y); m_body := SM2 (snd y) |}) (snd x))
  | SR2 r => let* msgs := omapM sun2 l in let* x := sg_r2 Hf r rd msgs in Ok (SR3 (fst x), sbcast (s2_i r) (SM3 (snd x)))
  | SR3 r => let* msgs := omapM sun3 l in let* x := sg_r3 Hf r msgs in Ok (SR4 (fst x), sbcast (s3_i r) (SM4 (snd x)))
  | SR4 r => let* msgs := omapM sun4 l in let* x := sg_r4 Hb Hz r rd msgs in Ok (SR5 (fst x), sbcast (s4_i r) (SM5 (snd x)))
  | SR5 r => let* msgs := omapM sun5 l in let* x := sg_r5 Hz Hf r rd msgs in Ok (SR6 (fst x), sbcast (s5_i r) (SM6 (snd x)))
  | SR6 r => let* msgs := omapM sun6 l in let* x := sg_r6 Hf r msgs in Ok (SFinished x, [])
  | _ => Panic
  end.
Definition sg_p2p (k : nat) : bool := k =? 2.
Definition sgp (i n : nat) : params mp_error M (sg_st C) :=
  {| g_K := 6; g_me := i; g_n := n; g_p2p := sg_p2p; g_exp := fun _ => true; g_again := fun k => k <? 4; g_rep := fun k => Nat.min k 2;
     g_of := sg_of; g_step := sg_step |}.
Definition sg_abs_round (r : sg_st C) : ground (sg_st C) :=
  match r with SR0 _ _ _ => GRun 0 r | SR1 _ => GRun 1 r | SR2 _ => GRun 2 r | SR3 _ => GRun 3 r | SR4 _ => GRun 4 r | SR5 _ => GRun 5 r | SR6 _ => GRun 6 r | SFinished _ => GFinal r | SGone => GGone end.
Definition sg_abs (s : sg_sm C) : gstate M (sg_st C) :=
  {| gs_round := sg_abs_round (sm_round s);
     gs_stores := [option_map (store_map SM1) (sm_m1 s); option_map (store_map SM2) (sm_m2 s); option_map (store_map SM3) (sm_m3 s); option_map (store_map SM4) (sm_m4 s); option_map (store_map SM5) (sm_m5 s); option_map (store_map SM6) (sm_m6 s)];
     gs_queue := sm_queue s |}.

Lemma sg_proceed_sim i n fuel mb s : g_proceed (sgp i n) fuel mb (sg_abs s) =
  (sg_abs (fst (sg_proceed_round C Hb Hz Hf rd fuel mb s)), snd (sg_proceed_round C Hb Hz Hf rd fuel mb s)).
Proof.
  revert s; induction fuel as [|f IH]; intros s; [reflexivity|].
  destruct s as [r m1 m2 m3 m4 m5 m6 q si sn]. cbn [g_proceed sg_proceed_round sg_abs gs_round sm_round].
  destruct r as [a sl lk|r|r|r|r|r|r|k|]; cbn [sg_abs_round sgp g_exp g_again].
  - unfold g_wants, g_exec. cbn [Nat.ltb Nat.leb andb negb Nat.eqb orb obind g_step sgp sg_step]. destruct mb; [|reflexivity].
    destruct (sg_r0 Hb Hz a sl lk rd) as [x|e|]; cbn [obind omap_err]; [|reflexivity|reflexivity].
    rewrite <- IH. reflexivity.
  - unfold g_wants, g_store. cbn [sg_abs Nat.ltb Nat.leb Nat.sub nth gs_stores andb sm_m1 sm_m2 sm_m3 sm_m4 sm_m5 sm_m6]. rewrite wants_map.
    destruct (negb (wants_opt m1) && _); [|reflexivity].
    unfold g_exec, g_store. cbn [sg_abs Nat.ltb Nat.leb Nat.sub nth gs_stores sgp g_step sm_m1 sm_m2 sm_m3 sm_m4 sm_m5 sm_m6]. rewrite take_all_map.
    destruct (take_all m1) as [l|e|]; cbn [omap obind sg_step]; [|reflexivity|reflexivity].
    rewrite (omapM_un SM1 sun1) by reflexivity. cbn [obind]. destruct (sg_r1 Hz Hf r rd l) as [x|e|]; cbn [obind omap_err]; [|reflexivity|reflexivity].
    rewrite <- IH. reflexivity.
  - unfold g_wants, g_store. cbn [sg_abs Nat.ltb Nat.leb Nat.sub nth gs_stores andb sm_m1 sm_m2 sm_m3 sm_m4 sm_m5 sm_m6]. rewrite wants_map.
    destruct (negb (wants_opt m2) && _); [|reflexivity].
    unfold g_exec, g_store. cbn [sg_abs Nat.ltb Nat.leb Nat.sub nth gs_stores sgp g_step sm_m1 sm_m2 sm_m3 sm_m4 sm_m5 sm_m6]. rewrite take_all_map.
    destruct (take_all m2) as [l|e|]; cbn [omap obind sg_step]; [|reflexivity|reflexivity].
    rewrite (omapM_un SM2 sun2) by reflexivity. cbn [obind]. destruct (sg_r2 Hf r rd l) as [x|e|]; cbn [obind omap_err]; [|reflexivity|reflexivity].
    rewrite <- IH. reflexivity.
  - unfold g_wants, g_store. cbn [sg_abs Nat.ltb Nat.leb Nat.sub nth gs_stores andb sm_m1 sm_m2 sm_m3 sm_m4 sm_m5 sm_m6]. rewrite wants_map.
    destruct (negb (wants_opt m3) && _); [|reflexivity].
    unfold g_exec, g_store. cbn [sg_abs Nat.ltb Nat.leb Nat.sub nth gs_stores sgp g_step sm_m1 sm_m2 sm_m3 sm_m4 sm_m5 sm_m6]. rewrite take_all_map.
    destruct (take_all m3) as [l|e|]; cbn [omap obind sg_step]; [|reflexivity|reflexivity].
    rewrite (omapM_un SM3 sun3) by reflexivity. cbn [obind]. destruct (sg_r3 Hf r l) as [x|e|]; cbn [obind omap_err]; [|reflexivity|reflexivity].
    rewrite <- IH. reflexivity.
  - unfold g_wants, g_store. cbn [sg_abs Nat.ltb Nat.leb Nat.sub nth gs_stores andb sm_m1 sm_m2 sm_m3 sm_m4 sm_m5 sm_m6]. rewrite wants_map.
    destruct (negb (wants_opt m4) && _); [|reflexivity].
    unfold g_exec, g_store. cbn [sg_abs Nat.ltb Nat.leb Nat.sub nth gs_stores sgp g_step sm_m1 sm_m2 sm_m3 sm_m4 sm_m5 sm_m6]. rewrite take_all_map.
    destruct (take_all m4) as [l|e|]; cbn [omap obind sg_step]; [|reflexivity|reflexivity].
    rewrite (omapM_un SM4 sun4) by reflexivity. cbn [obind]. destruct (sg_r4 Hb Hz r rd l) as [x|e|]; cbn [obind omap_err]; [|reflexivity|reflexivity].
    reflexivity.
  - unfold g_wants, g_store. cbn [sg_abs Nat.ltb Nat.leb Nat.sub nth gs_stores andb sm_m1 sm_m2 sm_m3 sm_m4 sm_m5 sm_m6]. rewrite wants_map.
    destruct (negb (wants_opt m5) && _); [|reflexivity].
    unfold g_exec, g_store. cbn [sg_abs Nat.ltb Nat.leb Nat.sub nth gs_stores sgp g_step sm_m1 sm_m2 sm_m3 sm_m4 sm_m5 sm_m6]. rewrite take_all_map.
    destruct (take_all m5) as [l|e|]; cbn [omap obind sg_step]; [|reflexivity|reflexivity].
    rewrite (omapM_un SM5 sun5) by reflexivity. cbn [obind]. destruct (sg_r5 Hz Hf r rd l) as [x|e|]; cbn [obind omap_err]; [|reflexivity|reflexivity].
    reflexivity.
  - unfold g_wants, g_store. cbn [sg_abs Nat.ltb Nat.leb Nat.sub nth gs_stores andb sm_m1 sm_m2 sm_m3 sm_m4 sm_m5 sm_m6]. rewrite wants_map.
    destruct (negb (wants_opt m6) && _); [|reflexivity].
    unfold g_exec, g_store. cbn [sg_abs Nat.ltb Nat.leb Nat.sub nth gs_stores sgp g_step sm_m1 sm_m2 sm_m3 sm_m4 sm_m5 sm_m6]. rewrite take_all_map.
    destruct (take_all m6) as [l|e|]; cbn [omap obind sg_step]; [|reflexivity|reflexivity].
    rewrite (omapM_un SM6 sun6) by reflexivity. cbn [obind]. destruct (sg_r6 Hf r l) as [x|e|]; cbn [obind omap_err]; [|reflexivity|reflexivity].
    reflexivity.
  - reflexivity.
  - reflexivity.
Qed.

Lemma sg_current_sim i n s : g_current (sgp i n) (sg_abs s) = sg_current_round s.
Proof. destruct s as [[]]; reflexivity. Qed.
Lemma sg_wants_sim s : g_wants_to_proceed (sg_abs s) = sg_wants_to_proceed s.
Proof. destruct s as [[] m1 m2 m3 m4 m5 m6]; try reflexivity; unfold g_wants_to_proceed, g_wants, g_store; cbn; apply f_equal; apply wants_map. Qed.
(** The last store is gone when the stage has finished, except for the blame of a finished machine with the store still
    there, which [sg_blame_sim] excludes. *)
Lemma sg_blame_sim s : (sm_m6 s = None \/ forall o, sm_round s <> SFinished o) -> g_blame (sg_abs s) = sg_round_blame s.
Proof.
  intros H. destruct s as [r m1 m2 m3 m4 m5 m6 q si sn]. destruct r; try reflexivity;
    [exact (blame_map SM1 m1)|exact (blame_map SM2 m2)|exact (blame_map SM3 m3)|exact (blame_map SM4 m4)|exact (blame_map SM5 m5)|exact (blame_map SM6 m6)|].
  destruct H as [H|H]; cbn in H; [subst m6; reflexivity|]. exfalso. exact (H _ eq_refl).
Qed.

Lemma sg_handle_sim i n s m : g_handle (sgp i n) (sg_abs s) m =
  (sg_abs (fst (sg_handle_incoming C Hb Hz Hf rd s m)), snd (sg_handle_incoming C Hb Hz Hf rd s m)).
Proof.
  unfold g_handle, sg_handle_incoming. rewrite sg_current_sim. destruct (m_body m) as [b|b|b|b|b|b] eqn:E; cbn [sgp g_of sg_of g_rep].
  - unfold g_store. cbn [sg_abs gs_stores nth Nat.sub]. destruct (sm_m1 s) as [x|] eqn:X; cbn [option_map]; [|reflexivity].
    unfold g_push. cbn [g_p2p sgp sg_p2p Nat.eqb]. rewrite (msg_map_2 SM1 m b E) at 1. rewrite push_broadcast_map.
    destruct (push_broadcast x (msg_map (fun _ => b) m)) as [x'|e|]; cbn [omap]; [|reflexivity|reflexivity].
    rewrite <- (sg_proceed_sim i n). reflexivity.
  - unfold g_store. cbn [sg_abs gs_stores nth Nat.sub]. destruct (sm_m2 s) as [x|] eqn:X; cbn [option_map]; [|reflexivity].
    unfold g_push. cbn [g_p2p sgp sg_p2p Nat.eqb]. rewrite (msg_map_2 SM2 m b E) at 1. rewrite push_p2p_map.
    destruct (push_p2p x (msg_map (fun _ => b) m)) as [x'|e|]; cbn [omap]; [|reflexivity|reflexivity].
    rewrite <- (sg_proceed_sim i n). reflexivity.
  - unfold g_store. cbn [sg_abs gs_stores nth Nat.sub]. destruct (sm_m3 s) as [x|] eqn:X; cbn [option_map]; [|reflexivity].
    unfold g_push. cbn [g_p2p sgp sg_p2p Nat.eqb]. rewrite (msg_map_2 SM3 m b E) at 1. rewrite push_broadcast_map.
    destruct (push_broadcast x (msg_map (fun _ => b) m)) as [x'|e|]; cbn [omap]; [|reflexivity|reflexivity].
    rewrite <- (sg_proceed_sim i n). reflexivity.
  - unfold g_store. cbn [sg_abs gs_stores nth Nat.sub]. destruct (sm_m4 s) as [x|] eqn:X; cbn [option_map]; [|reflexivity].
    unfold g_push. cbn [g_p2p sgp sg_p2p Nat.eqb]. rewrite (msg_map_2 SM4 m b E) at 1. rewrite push_broadcast_map.
    destruct (push_broadcast x (msg_map (fun _ => b) m)) as [x'|e|]; cbn [omap]; [|reflexivity|reflexivity].
    rewrite <- (sg_proceed_sim i n). reflexivity.
  - unfold g_store. cbn [sg_abs gs_stores nth Nat.sub]. destruct (sm_m5 s) as [x|] eqn:X; cbn [option_map]; [|reflexivity].
    unfold g_push. cbn [g_p2p sgp sg_p2p Nat.eqb]. rewrite (msg_map_2 SM5 m b E) at 1. rewrite push_broadcast_map.
    destruct (push_broadcast x (msg_map (fun _ => b) m)) as [x'|e|]; cbn [omap]; [|reflexivity|reflexivity].
    rewrite <- (sg_proceed_sim i n). reflexivity.
  - unfold g_store. cbn [sg_abs gs_stores nth Nat.sub]. destruct (sm_m6 s) as [x|] eqn:X; cbn [option_map]; [|reflexivity].
    unfold g_push. cbn [g_p2p sgp sg_p2p Nat.eqb]. rewrite (msg_map_2 SM6 m b E) at 1. rewrite push_broadcast_map.
    destruct (push_broadcast x (msg_map (fun _ => b) m)) as [x'|e|]; cbn [omap]; [|reflexivity|reflexivity].
    rewrite <- (sg_proceed_sim i n). reflexivity.
Qed.

Definition sg_ret (r : ret mp_error M (completed C)) : ret mp_error M (sg_st C) :=
  match r with RUnit o => RUnit o | RMsgs l => RMsgs l | RPick o => RPick (option_map (omap SFinished) o) end.
Lemma sg_op_sim i n s o : g_op (sgp i n) (sg_abs s) o = (sg_abs (fst (sg_op C Hb Hz Hf rd s o)), sg_ret (snd (sg_op C Hb Hz Hf rd s o))).
Proof.
  destruct o as [m| | |]; cbn [g_op sg_op].
  - rewrite sg_handle_sim. destruct (sg_handle_incoming C Hb Hz Hf rd s m); reflexivity.
  - change (g_fuel (sgp i n)) with sg_fuel. rewrite sg_proceed_sim. unfold sg_proceed.
    destruct (sg_proceed_round C Hb Hz Hf rd sg_fuel true s); reflexivity.
  - reflexivity.
  - destruct s as [[]]; reflexivity.
Qed.
Lemma sg_run_sim i n s h : run_ops (g_op (sgp i n)) (sg_abs s) h =
  (sg_abs (fst (run_ops (sg_op C Hb Hz Hf rd) s h)), map sg_ret (snd (run_ops (sg_op C Hb Hz Hf rd) s h))).
Proof.
  revert s; induction h as [|o h IH]; intros s; [reflexivity|]. cbn [run_ops]. rewrite sg_op_sim.
  destruct (sg_op C Hb Hz Hf rd s o) as [s1 r]. cbn [fst snd]. rewrite IH. destruct (run_ops (sg_op C Hb Hz Hf rd) s1 h); reflexivity.
Qed.

Definition sg_start (i : nat) (sl : list nat) (lk : local_key C) : sg_sm C :=
  {| sm_round := SR0 i sl lk; sm_m1 := Some (store_new i (length sl)); sm_m2 := Some (store_new i (length sl)); sm_m3 := Some (store_new i (length sl)); sm_m4 := Some (store_new i (length sl)); sm_m5 := Some (store_new i (length sl)); sm_m6 := Some (store_new i (length sl));
     sm_queue := []; sm_i := i; sm_n := length sl |}.
Lemma sg_start_sim i sl lk : sg_abs (sg_start i sl lk) = g_init (sgp i (length sl)) (SR0 i sl lk).
Proof. unfold sg_abs, sg_start, g_init. cbn. unfold store_map, store_new. cbn. rewrite !repeat_map. reflexivity. Qed.
Lemma sg_new_ok i sl lk s : sg_new i sl lk = Ok s -> s = sg_start i sl lk /\ 2 <= length sl /\ 1 <= i <= length sl.
Proof.
  unfold sg_new. destruct (Nat.ltb_spec (length sl) 2); [discriminate|]. destruct (Nat.eqb_spec i 0); [discriminate|].
  destruct (Nat.ltb_spec (length sl) i); [discriminate|]. cbn [orb]. destruct (existsb _ sl); [discriminate|]. destruct (negb _); [discriminate|].
  destruct (65535 <? _)%Z; [discriminate|]. intros E. injection E as <-. repeat split; lia.
Qed.
Lemma sgp_of i n b : 1 <= g_of (sgp i n) b <= g_K (sgp i n).
Proof. destruct b; cbn; lia. Qed.
Lemma sgp_exp i n k : g_exp (sgp i n) k = false -> 0 < k /\ g_again (sgp i n) (k - 1) = true.
Proof. cbn. discriminate. Qed.
End Sg.

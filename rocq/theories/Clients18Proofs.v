(** Clients that exchange write-once values: if there is one table of values under which every client's program runs to its
    end and stores exactly what the table says, then every schedule leads every client along that run. *)
From Coq Require Import String ZArith Bool Lia List.
From Verif Require Import Outcome Stores Manager18 Manager18Proofs Clients18.
Import ListNotations.
Local Open Scope nat_scope.

(** What a program does under a table of values; the number is the round. *)
Inductive ev18 := EPut (r : nat) (k : string) | EGet (r : nat) (k : string).
Section Plays.
Context {R : Type} (V : string -> string -> Prop).
Inductive plays : prog R -> list ev18 -> R -> Prop :=
  | pl_done r : plays (Done r) [] r
  | pl_put n k v p l r : V k v -> plays p l r -> plays (Put k v p) (EPut n k :: l) r
  | pl_get n k f v l r : V k v -> plays (f v) l r -> plays (Get k f) (EGet n k :: l) r.
Lemma plays_gets n (val : string -> string) ks : forall f l r, (forall k, In k ks -> V k (val k)) -> plays (f (map val ks)) l r -> plays (gets ks f) (map (EGet n) ks ++ l) r.
Proof.
  induction ks as [|k ks IH]; intros f l r H P; cbn [gets map app]; [exact P|]. apply (pl_get n k _ (val k)); [apply H; left; reflexivity|].
  apply (IH (fun l => f (val k :: l))); [intros k' K; apply H; right; exact K|exact P].
Qed.
Lemma plays_puts n kv : forall p l r, (forall x, In x kv -> V (fst x) (snd x)) -> plays p l r -> plays (puts kv p) (map (fun x => EPut n (fst x)) kv ++ l) r.
Proof.
  induction kv as [|[k v] kv IH]; intros p l r H P; cbn [puts map app fst]; [exact P|]. apply pl_put; [apply (H (k, v)); left; reflexivity|].
  apply IH; [intros x X; apply H; right; exact X|exact P].
Qed.
End Plays.

(** A get of round r comes after all puts of rounds up to r. *)
Fixpoint ordered (l : list ev18) : Prop :=
  match l with
  | [] => True
  | EPut _ _ :: t => ordered t
  | EGet r _ :: t => (forall r' k, In (EPut r' k) t -> r < r') /\ ordered t
  end.
Lemma ordered_app a : forall b, ordered (a ++ b) -> ordered b.
Proof. induction a as [|[r k|r k] a IH]; intros b H; cbn [app ordered] in H; auto. apply IH, H. Qed.
Lemma ordered_puts (ks : list string) n l : ordered l -> ordered (map (EPut n) ks ++ l).
Proof. induction ks as [|k ks IH]; intros H; cbn [map app ordered]; auto. Qed.
Lemma ordered_gets (ks : list string) n l : (forall r' k, In (EPut r' k) l -> n < r') -> ordered l -> ordered (map (EGet n) ks ++ l).
Proof.
  induction ks as [|k ks IH]; intros H O; cbn [map app ordered]; [exact O|]. split; [|apply IH; assumption].
  intros r' k' I. apply in_app_iff in I. destruct I as [I|I]; [|eauto]. apply in_map_iff in I. destruct I as (? & E & _). discriminate.
Qed.

Lemma set_nth_nth {A} (l : list A) c x d : c < length l -> nth_error (set_nth l c x) d = if Nat.eqb d c then Some x else nth_error l d.
Proof.
  intros H. unfold set_nth. revert c d H. induction l as [|y l IH]; intros [|c] [|d] H; cbn [length] in H; try lia; cbn [firstn skipn app nth_error Nat.eqb]; auto.
  apply IH. lia.
Qed.
Lemma set_nth_length {A} (l : list A) c x : length (set_nth l c x) = length l.
Proof. unfold set_nth. revert c. induction l as [|y l IH]; intros [|c]; cbn [firstn skipn app length]; auto. Qed.

Section Kahn.
Context {R : Type}.
Context (oc : bool) (ser : party_signup -> string) (par : string -> option party_signup) (uuid : nat -> string).
Notation step18 := (@step18 R oc ser par uuid).
Notation exec18 := (@exec18 R oc ser par uuid).
(** The keys of the session, and its table *)
Context (mine : string -> Prop) (V : string -> string -> Prop).
Hypothesis V_fun : forall k v v', V k v -> V k v' -> v = v'.
Hypothesis V_mine : forall k v, V k v -> mine k.
Hypothesis mine_free : forall k, mine k -> ~ reserved k.
Context (n : nat) (prg : nat -> prog R) (res : nat -> R) (tr : nat -> list ev18).
Hypothesis H_plays : forall c, c < n -> plays V (prg c) (tr c) (res c).
Hypothesis H_order : forall c, c < n -> ordered (tr c).
Hypothesis H_owner : forall c r k, c < n -> In (EGet r k) (tr c) -> exists d, d < n /\ In (EPut r k) (tr d).

(** Others do not store under the session's keys. *)
Definition stranger (a : act18) : Prop := match a with Env (ASet k _) => ~ mine k | _ => True end.

Record KInv (w : sys18 R) : Prop := {
  ki_len : length (y_cl w) = n;
  ki_cl : forall c, c < n -> exists p done rest, nth_error (y_cl w) c = Some p /\ tr c = done ++ rest /\ plays V p rest (res c) /\
            forall r k, In (EPut r k) done -> exists v, sm_get k (sv_map (y_sv w)) = Some v;
  ki_map : forall k v, mine k -> sm_get k (sv_map (y_sv w)) = Some v -> V k v }.

(** The work still to do *)
Definition todo (w : sys18 R) (m : nat) : Prop := exists rest : nat -> list ev18, (forall c, c < n -> exists p, nth_error (y_cl w) c = Some p /\ plays V p (rest c) (res c)) /\
  m = list_sum (map (fun c => length (rest c)) (seq 0 n)).

Lemma kinv_map w s : KInv w -> (forall k, mine k -> forall v, sm_get k (sv_map s) = Some v -> V k v) ->
  (forall k v, mine k -> sm_get k (sv_map (y_sv w)) = Some v -> exists v, sm_get k (sv_map s) = Some v) -> KInv {| y_sv := s; y_cl := y_cl w |}.
Proof.
  intros [A B D] H1 H2. constructor; cbn [y_sv y_cl]; auto. intros c L. destruct (B c L) as (p & d & r & B1 & B2 & B3 & B4).
  exists p, d, r. repeat split; auto. intros r' k I. destruct (B4 r' k I) as [v E]. apply (H2 k v); auto.
  assert (Q : In (EPut r' k) (tr c)) by (rewrite B2; apply in_or_app; left; exact I).
  revert Q. generalize (H_plays c L). clear - V_mine. intros P. induction P as [|? ? ? ? ? ? HV P IH|? ? ? ? ? ? HV P IH]; intros Q; cbn [In] in Q; [destruct Q| |].
  - destruct Q as [Q|Q]; [injection Q as _ <-; eapply V_mine, HV|auto].
  - destruct Q as [Q|Q]; [discriminate|auto].
Qed.
Lemma kinv_set w k v : KInv w -> V k v -> KInv {| y_sv := fst (step oc ser par uuid (y_sv w) (ASet k v)); y_cl := y_cl w |}.
Proof.
  intros I HV. apply kinv_map; [exact I| |].
  - intros k' M v'. cbn [step fst sv_map]. rewrite get_insert. destruct (String.eqb_spec k' k) as [->|]; [congruence|apply (ki_map _ I), M].
  - intros k' v' M. cbn [step fst sv_map]. rewrite get_insert. destruct (String.eqb_spec k' k) as [->|]; eauto.
Qed.
Lemma kinv_env w a : KInv w -> stranger (Env a) -> KInv (step18 w (Env a)).
Proof.
  intros I S. cbn [Clients18.step18]. assert (E : forall k, mine k -> sm_get k (sv_map (fst (step oc ser par uuid (y_sv w) a))) = sm_get k (sv_map (y_sv w))).
  { intros k M. destruct a as [k' v|k'|d p|t]; cbn [step stranger] in *.
    - cbn [fst sv_map]. rewrite get_insert. destruct (String.eqb_spec k k') as [->|]; [contradiction|reflexivity].
    - reflexivity.
    - destruct (sm_get (signup_key d) (sv_map (y_sv w))) as [x|]; [destruct (par x); [destruct (session_size oc d p); [match goal with |- context [next_signup ?a ?b ?c] => destruct (next_signup a b c) end|]|]|]; reflexivity.
    - destruct (nth t (sv_pending (y_sv w)) None) as [[d p]|]; [|reflexivity]. cbn [fst sv_map]. rewrite get_insert.
      destruct (String.eqb_spec k (signup_key d)) as [->|]; [|reflexivity]. destruct (mine_free _ M). apply reserved_key. }
  apply kinv_map; [exact I| |].
  - intros k M v. rewrite E by exact M. apply (ki_map _ I), M.
  - intros k v M. rewrite E by exact M. eauto.
Qed.
Lemma kinv_advance w c p done e rest : KInv w -> c < n -> tr c = done ++ e :: rest -> plays V p rest (res c) ->
  (forall r k, In (EPut r k) (done ++ [e]) -> exists v, sm_get k (sv_map (y_sv w)) = Some v) -> KInv {| y_sv := y_sv w; y_cl := set_nth (y_cl w) c p |}.
Proof.
  intros [A B D] L T P Q. constructor; cbn [y_sv y_cl]; [rewrite set_nth_length; exact A| |exact D].
  intros d Ld. rewrite set_nth_nth by lia. destruct (Nat.eqb_spec d c) as [->|?N]; [|apply B, Ld].
  exists p, (done ++ [e]), rest. rewrite <- app_assoc. auto.
Qed.

Lemma kinv_step w a : KInv w -> stranger a -> KInv (step18 w a).
Proof.
  intros I S. destruct a as [c|c|a]; [| |apply kinv_env; assumption]; cbn [Clients18.step18].
  - destruct (nth_error (y_cl w) c) as [p|] eqn:E; [|exact I]. assert (L : c < n) by (rewrite <- (ki_len _ I); apply nth_error_Some; congruence).
    destruct (ki_cl _ I c L) as (p' & done & rest & E' & T & P & D). rewrite E in E'. injection E' as <-.
    match type of P with plays _ _ _ ?x => remember x as rc eqn:RC in P end; destruct P as [r|m k v p l r HV P|m k f v l r HV P]; subst; [exact I| |].
    + pose proof (kinv_set w k v I HV) as I1.
      apply (kinv_advance _ c p done (EPut m k) l I1 L T P). cbn [y_sv step fst sv_map]. intros r' k' Q. rewrite get_insert.
      destruct (String.eqb_spec k' k) as [?Z|?Z]; [eauto|]. apply in_app_iff in Q. destruct Q as [Q|[Q|[]]]; [eauto|]. injection Q as _ Q. congruence.
    + cbn [step]. destruct (sm_get k (sv_map (y_sv w))) as [v'|] eqn:G; [|destruct w; exact I].
      assert (v' = v) as -> by (eapply V_fun; [apply (ki_map _ I _ _ (V_mine _ _ HV) G)|exact HV]).
      apply (kinv_advance _ c (f v) done (EGet m k) l I L T P). intros r' k' Q. apply in_app_iff in Q. destruct Q as [Q|[Q|[]]]; [eauto|discriminate].
  - destruct (nth_error (y_cl w) c) as [p|] eqn:E; [|exact I]. assert (L : c < n) by (rewrite <- (ki_len _ I); apply nth_error_Some; congruence).
    destruct (ki_cl _ I c L) as (p' & done & rest & E' & T & P & D). rewrite E in E'. injection E' as <-.
    match type of P with plays _ _ _ ?x => remember x as rc eqn:RC in P end; destruct P as [r|m k v p l r HV P|m k f v l r HV P]; subst; try exact I. apply kinv_set; assumption.
Qed.
Lemma kinv_exec l : forall w, KInv w -> Forall stranger l -> KInv (exec18 w l).
Proof.
  induction l as [|a l IH]; intros w I F; cbn [Clients18.exec18 fold_left]; [exact I|]. inversion F; subst. apply IH; [|assumption]. apply kinv_step; assumption.
Qed.
(** A server that has no value under the session's keys *)
Definition fresh_sv (s : server) : Prop := forall k, mine k -> sm_get k (sv_map s) = None.
Lemma kinv_init s : fresh_sv s -> KInv {| y_sv := s; y_cl := map prg (seq 0 n) |}.
Proof.
  intros F. constructor; cbn [y_sv y_cl].
  - rewrite map_length, seq_length. reflexivity.
  - intros c L. exists (prg c), [], (tr c). split; [|split; [reflexivity|split; [apply H_plays, L|intros r k []]]].
    rewrite nth_error_map, (nth_error_nth' _ 0), seq_nth by (rewrite ?seq_length; lia). reflexivity.
  - intros k v M E. rewrite F in E by exact M. discriminate.
Qed.

(** *** No client fails, and a finished client has its result. *)
Lemma kinv_safe w c : KInv w -> c < n -> nth_error (y_cl w) c <> Some Crash /\ forall r, nth_error (y_cl w) c = Some (Done r) -> r = res c.
Proof.
  intros I L. destruct (ki_cl _ I c L) as (p & done & rest & E & T & P & D). rewrite E. split.
  - intros X. injection X as ->. inversion P.
  - intros r X. injection X as ->. inversion P. reflexivity.
Qed.
(** *** As long as a client has not finished, some client can go on. *)
Lemma kinv_progress w c : KInv w -> c < n -> nth_error (y_cl w) c <> Some (Done (res c)) -> exists d, d < n /\ ready w d = true.
Proof.
  intros I L ND. destruct (existsb (ready w) (seq 0 n)) eqn:X.
  { apply existsb_exists in X. destruct X as (d & X1 & X2). apply in_seq in X1. exists d. split; [lia|exact X2]. }
  exfalso. assert (NR : forall d, d < n -> ready w d = false).
  { intros d Ld. destruct (ready w d) eqn:Y; [|reflexivity]. rewrite <- X. symmetry. apply existsb_exists. exists d. rewrite in_seq. split; [lia|exact Y]. }
  assert (ST : forall m c, c < n -> forall k f done rest, nth_error (y_cl w) c = Some (Get k f) -> tr c = done ++ EGet m k :: rest -> False).
  { clear c L ND X. induction m as [m IH] using lt_wf_ind. intros c L k f done rest E T.
    destruct (H_owner c m k L) as (d & Ld & O); [rewrite T; apply in_or_app; right; left; reflexivity|].
    destruct (ki_cl _ I d Ld) as (p & dd & dr & E' & T' & P & D). rewrite T' in O. apply in_app_iff in O. destruct O as [O|O].
    - destruct (D _ _ O) as [v G]. pose proof (NR c L) as Q. unfold ready in Q. rewrite E, G in Q. discriminate.
    - pose proof (NR d Ld) as Q. unfold ready in Q. rewrite E' in Q. match type of P with plays _ _ _ ?x => remember x as rc eqn:RC in P end; destruct P as [r|m' k' v p l r HV P|m' k' f' v l r HV P]; subst; [destruct O|discriminate|].
      destruct O as [O|O]; [discriminate|]. pose proof (H_order d Ld) as OR. rewrite T' in OR. apply ordered_app in OR. cbn [ordered] in OR. destruct OR as [OR _].
      apply (IH m' (OR _ _ O) d Ld k' f' dd l E' T'). }
  destruct (ki_cl _ I c L) as (p & done & rest & E & T & P & D). pose proof (NR c L) as Q. unfold ready in Q. rewrite E in Q.
  match type of P with plays _ _ _ ?x => remember x as rc eqn:RC in P end; destruct P as [r|m k v p l r HV P|m k f v l r HV P]; subst; [apply ND, E|discriminate|]. exact (ST m c L k f done l E T).
Qed.
(** *** The steps that bring a client forward are bounded. *)
Definition rests (w : sys18 R) (rest : nat -> list ev18) : Prop := forall c, c < n -> exists p, nth_error (y_cl w) c = Some p /\ plays V p (rest c) (res c).
Definition total (rest : nat -> list ev18) : nat := list_sum (map (fun c => length (rest c)) (seq 0 n)).
Lemma list_sum_upd (g g' : nat -> nat) c l : NoDup l -> (forall d, d <> c -> g d = g' d) -> In c l -> g c = Datatypes.S (g' c) -> list_sum (map g l) = Datatypes.S (list_sum (map g' l)).
Proof.
  intros N H I E. induction N as [|x l X N IH]; [destruct I|]. cbn [map list_sum fold_right] in *. fold (list_sum (map g l)). fold (list_sum (map g' l)). destruct I as [->|I].
  - rewrite E. assert (map g l = map g' l) as -> by (apply map_ext_in; intros d Dd; apply H; intros ->; contradiction). reflexivity.
  - rewrite IH by exact I. rewrite (H x) by (intros ->; contradiction). lia.
Qed.
Lemma work_bound l : forall w rest, KInv w -> Forall stranger l -> rests w rest -> work18 oc ser par uuid w l <= total rest.
Proof.
  induction l as [|a l IH]; intros w rest I F RS; cbn [work18]; [lia|]. inversion F as [|? ? F1 F2]; subst.
  pose proof (kinv_step w a I F1) as I1.
  assert (ST : rests (step18 w a) rest -> (match a with Cl c => if ready w c then 1 else 0 | _ => 0 end) = 0 -> (match a with Cl c => if ready w c then 1 else 0 | _ => 0 end) + work18 oc ser par uuid (step18 w a) l <= total rest).
  { intros Q ->. apply IH; assumption. }
  destruct a as [c|c|a].
  - destruct (ready w c) eqn:Y.
    + assert (L : c < n) by (rewrite <- (ki_len _ I); apply nth_error_Some; unfold ready in Y; destruct (nth_error (y_cl w) c); congruence).
      destruct (RS c L) as (p & E & P). assert (X : exists p' e rs, rest c = e :: rs /\ y_cl (step18 w (Cl c)) = set_nth (y_cl w) c p' /\ plays V p' rs (res c)).
      { cbn [Clients18.step18]. unfold ready in Y. rewrite E in *. match type of P with plays _ _ _ ?x => remember x as rc eqn:RC in P end; destruct P as [r|m k v p l0 r HV P|m k f v l0 r HV P]; subst; [discriminate| |].
        - exists p, (EPut m k), l0. auto.
        - cbn [step]. destruct (sm_get k (sv_map (y_sv w))) as [v'|] eqn:G; [|discriminate].
          assert (v' = v) as -> by (eapply V_fun; [apply (ki_map _ I _ _ (V_mine _ _ HV) G)|exact HV]). exists (f v), (EGet m k), l0. auto. }
      destruct X as (p' & e & rs & X1 & X2 & X3). set (rest' := fun d => if Nat.eqb d c then rs else rest d).
      assert (RS' : rests (step18 w (Cl c)) rest').
      { intros d Ld. rewrite X2, set_nth_nth by (rewrite (ki_len _ I); lia). unfold rest'. destruct (Nat.eqb_spec d c) as [->|]; [eauto|apply RS, Ld]. }
      pose proof (IH _ _ I1 F2 RS') as B. assert (T : total rest = Datatypes.S (total rest')).
      { unfold total. apply (list_sum_upd _ _ c); [apply seq_NoDup| |apply in_seq; lia|].
        - intros d Dd. unfold rest'. destruct (Nat.eqb_spec d c); [contradiction|reflexivity].
        - unfold rest'. rewrite Nat.eqb_refl, X1. reflexivity. }
      lia.
    + apply ST; [|reflexivity]. intros d Ld. cbn [Clients18.step18]. unfold ready in Y. destruct (nth_error (y_cl w) c) as [[r| |k v p|k f]|]; try discriminate; try (apply RS; exact Ld).
      cbn [step]. destruct (sm_get k (sv_map (y_sv w))); [discriminate|]. apply RS, Ld.
  - apply ST; [|reflexivity]. intros d Ld. cbn [Clients18.step18]. destruct (nth_error (y_cl w) c) as [[r| |k v p|k f]|]; apply RS, Ld.
  - apply ST; [|reflexivity]. intros d Ld. apply RS, Ld.
Qed.
(** *** From every reachable state the clients alone can finish. *)
Definition all_done (w : sys18 R) : Prop := forall c, c < n -> nth_error (y_cl w) c = Some (Done (res c)).
Lemma done_or w : KInv w -> {all_done w} + {exists d, d < n /\ ready w d = true}.
Proof.
  intros I. destruct (existsb (ready w) (seq 0 n)) eqn:X.
  - right. apply existsb_exists in X. destruct X as (d & X1 & X2). apply in_seq in X1. exists d. split; [lia|exact X2].
  - left. intros c L. destruct (ki_cl _ I c L) as (p & done & rest & E & T & P & D).
    assert (N : ~ exists d, d < n /\ ready w d = true).
    { intros (d & Ld & Y). enough (true = false) by discriminate. rewrite <- X. symmetry. apply existsb_exists. exists d. rewrite in_seq. split; [lia|exact Y]. }
    rewrite E. match type of P with plays _ _ _ ?x => remember x as rc eqn:RC in P end; destruct P as [r|m k v p l r HV P|m k f v l r HV P]; subst; [reflexivity| |]; destruct N; apply (kinv_progress w c I L); rewrite E; discriminate.
Qed.
Lemma can_finish w rest : KInv w -> rests w rest -> exists l, Forall (fun a => exists c, c < n /\ a = Cl c) l /\ length l <= total rest /\ all_done (exec18 w l).
Proof.
  remember (total rest) as m eqn:M. revert w rest M. induction m as [m IH] using lt_wf_ind. intros w rest M I RS.
  destruct (done_or w I) as [D|(c & L & Y)]; [exists []; cbn [length]; split; [constructor|split; [lia|exact D]]|].
  destruct (RS c L) as (p & E & P). assert (X : exists p' e rs, rest c = e :: rs /\ y_cl (step18 w (Cl c)) = set_nth (y_cl w) c p' /\ plays V p' rs (res c)).
  { cbn [Clients18.step18]. unfold ready in Y. rewrite E in *. match type of P with plays _ _ _ ?x => remember x as rc eqn:RC in P end; destruct P as [r|m' k v p l0 r HV P|m' k f v l0 r HV P]; subst; [discriminate| |].
    - exists p, (EPut m' k), l0. auto.
    - cbn [step]. destruct (sm_get k (sv_map (y_sv w))) as [v'|] eqn:G; [|discriminate].
      assert (v' = v) as -> by (eapply V_fun; [apply (ki_map _ I _ _ (V_mine _ _ HV) G)|exact HV]). exists (f v), (EGet m' k), l0. auto. }
  destruct X as (p' & e & rs & X1 & X2 & X3). set (rest' := fun d => if Nat.eqb d c then rs else rest d).
  assert (RS' : rests (step18 w (Cl c)) rest').
  { intros d Ld. rewrite X2, set_nth_nth by (rewrite (ki_len _ I); lia). unfold rest'. destruct (Nat.eqb_spec d c) as [->|]; [eauto|apply RS, Ld]. }
  assert (T : total rest = Datatypes.S (total rest')).
  { unfold total. apply (list_sum_upd _ _ c); [apply seq_NoDup| |apply in_seq; lia|].
    - intros d Dd. unfold rest'. destruct (Nat.eqb_spec d c); [contradiction|reflexivity].
    - unfold rest'. rewrite Nat.eqb_refl, X1. reflexivity. }
  destruct (IH (total rest') ltac:(lia) (step18 w (Cl c)) rest' eq_refl (kinv_step w (Cl c) I Logic.I) RS') as (l & A & B & D).
  exists (Cl c :: l). split; [constructor; [eauto|exact A]|]. split; [cbn [length]; lia|exact D].
Qed.
Lemma kinv_rests w : KInv w -> exists rest, rests w rest /\ total rest <= total tr.
Proof.
  intros I. assert (Q : forall m, m <= n -> exists rest, (forall c, c < m -> exists p, nth_error (y_cl w) c = Some p /\ plays V p (rest c) (res c) /\ length (rest c) <= length (tr c))).
  { induction m as [|m IH]; intros L; [exists (fun _ => []); intros; lia|]. destruct IH as [rest H]; [lia|]. destruct (ki_cl _ I m ltac:(lia)) as (p & done & rs & E & T & P & D).
    exists (fun d => if Nat.eqb d m then rs else rest d). intros c Lc. destruct (Nat.eqb_spec c m) as [->|]; [|apply H; lia]. exists p. split; [exact E|]. split; [exact P|]. rewrite T, app_length. lia. }
  destruct (Q n (le_n n)) as [rest H]. exists rest. split.
  - intros c L. destruct (H c L) as (p & A & B & _). eauto.
  - unfold total. assert (forall c, In c (seq 0 n) -> length (rest c) <= length (tr c)) as LE by (intros c X; apply in_seq in X; destruct (H c) as (p & _ & _ & X'); [lia|exact X']).
    revert LE. generalize (seq 0 n). intros l. induction l as [|c l IH]; intros LE; [cbn; lia|]. cbn [map list_sum fold_right]. specialize (IH (fun d Dd => LE d (or_intror Dd))).
    pose proof (LE c (or_introl eq_refl)). unfold list_sum in IH. lia.
Qed.
End Kahn.

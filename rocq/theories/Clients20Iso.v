(** The clients of one room on a server whose other rooms are used by strangers: a simulation by the clients alone.  The
    numbers of requests and the positions of rooms in memory differ, nothing else does. *)
From Coq Require Import String ZArith Bool Lia List.
From Verif Require Import Outcome Stores RoundSM SmSpec NetLog Manager20 M20Spec Manager20Proofs Driver Clients20 Clients20Own Clients20Open Clients20OpenProofs.
Import ListNotations.
Local Open Scope nat_scope.

(** * The server *)
(** T: for each request of the clients its number on the open server; H: for each of their rooms its position there *)
Definition rn (L : list nat) (i : nat) : nat := nth i L 0.
Definition tren (H : list nat) (x : task) : task :=
  match x with
  | TRoom rid ref q => TRoom rid (rn H ref) q
  | TReady ref n => TReady (rn H ref) n
  | TWaiting ref n s => TWaiting (rn H ref) n s
  | y => y
  end.
Definition t_ok (room : string) (h : nat) (x : task) : Prop :=
  match x with
  | TLookup r _ | TCreate r _ => r = room
  | TRoom r ref _ => r = room /\ ref < h
  | TReady ref _ | TWaiting ref _ _ => ref < h
  | TEnd => True
  end.
Definition t_for (room : string) (H : list nat) (h : nat) (x : task) : Prop :=
  match x with
  | TLookup r _ | TCreate r _ => r <> room
  | TRoom r ref _ => r <> room /\ ~ In ref H /\ ref < h
  | TReady ref _ | TWaiting ref _ _ => ~ In ref H /\ ref < h
  | TEnd => True
  end.
Record db_rel (room : string) (T H : list nat) (s s' : db) : Prop := {
  dr_len : length T = length (db_tasks s); dr_hlen : length H = length (db_heap s);
  dr_nd : NoDup T; dr_hnd : NoDup H;
  dr_in : forall i, In i T -> i < length (db_tasks s'); dr_hin : forall r, In r H -> r < length (db_heap s');
  dr_task : forall t, t < length T -> nth (rn T t) (db_tasks s') TEnd = tren H (nth t (db_tasks s) TEnd);
  dr_tok : forall t, t_ok room (length H) (nth t (db_tasks s) TEnd);
  dr_heap : forall r, r < length H -> nth (rn H r) (db_heap s') room_empty = nth r (db_heap s) room_empty;
  dr_room : find_room room (db_rooms s') = option_map (rn H) (find_room room (db_rooms s));
  dr_rok : forall r, find_room room (db_rooms s) = Some r -> r < length H;
  dr_for : forall i, ~ In i T -> t_for room H (length (db_heap s')) (nth i (db_tasks s') TEnd);
  dr_ffind : forall rid r, rid <> room -> find_room rid (db_rooms s') = Some r -> ~ In r H /\ r < length (db_heap s') }.

Lemma rn_in L i : i < length L -> In (rn L i) L. Proof. apply nth_In. Qed.
Lemma rn_inj L i j : NoDup L -> i < length L -> j < length L -> rn L i = rn L j -> i = j.
Proof. intros ND I J E. exact (proj1 (NoDup_nth L 0) ND i j I J E). Qed.
Lemma rn_app L y i : i < length L -> rn (L ++ [y]) i = rn L i. Proof. intros I. apply app_nth1. exact I. Qed.
Lemma in_rn L i : In i L -> exists k, k < length L /\ rn L k = i. Proof. intros X. destruct (In_nth L i 0 X) as (k & K & E). exists k. auto. Qed.
Lemma nth_upd_same {A} k (f : A -> A) l d : k < length l -> nth k (Manager20.upd k f l) d = f (nth k l d).
Proof. intros K. rewrite upd_nth, Nat.eqb_refl. apply Nat.ltb_lt in K. rewrite K. reflexivity. Qed.
Lemma nth_upd_other {A} k j (f : A -> A) l d : j <> k -> nth j (Manager20.upd k f l) d = nth j l d.
Proof. intros N. rewrite upd_nth. apply Nat.eqb_neq in N. rewrite N. reflexivity. Qed.
Lemma ulen {A} k (f : A -> A) l : length (Manager20.upd k f l) = length l. Proof. apply upd_length. Qed.

Section Db.
Context (oc : bool) (room : string).
Notation rel := (db_rel room).
Lemma rel_task T H s s' t x : rel T H s s' -> t < length T -> t_ok room (length H) x -> rel T H (set_task t x s) (set_task (rn T t) (tren H x) s').
Proof.
  intros R K OK. assert (L : t < length (db_tasks s)) by (rewrite <- (dr_len _ _ _ _ _ R); exact K). assert (L' : rn T t < length (db_tasks s')) by (apply (dr_in _ _ _ _ _ R), rn_in, K).
  destruct R as [A1 A2 A3 A4 A5 A6 A7 A8 A9 A10 A11 A12 A13]. constructor; cbn [set_task db_tasks db_heap db_rooms]; rewrite ?ulen; auto.
  - intros u U. destruct (Nat.eq_dec u t) as [->|N]; [rewrite !nth_upd_same by assumption; reflexivity|]. rewrite !nth_upd_other; [apply A7; exact U|exact N|]. intros E. apply N. exact (rn_inj T u t A3 U K E).
  - intros u. destruct (Nat.eq_dec u t) as [->|N]; [rewrite nth_upd_same by exact L; exact OK|]. rewrite nth_upd_other by exact N. apply A8.
  - intros i NI. rewrite nth_upd_other; [apply A12; exact NI|]. intros ->. apply NI, rn_in, K.
Qed.
Lemma rel_room T H s s' r f : rel T H s s' -> r < length H -> rel T H (set_room r f s) (set_room (rn H r) f s').
Proof.
  intros R K. assert (L : r < length (db_heap s)) by (rewrite <- (dr_hlen _ _ _ _ _ R); exact K). assert (L' : rn H r < length (db_heap s')) by (apply (dr_hin _ _ _ _ _ R), rn_in, K).
  destruct R as [A1 A2 A3 A4 A5 A6 A7 A8 A9 A10 A11 A12 A13]. constructor; cbn [set_room db_tasks db_heap db_rooms]; rewrite ?ulen; auto.
  intros u U. destruct (Nat.eq_dec u r) as [->|N]; [rewrite !nth_upd_same by assumption; rewrite A9 by exact K; reflexivity|]. rewrite !nth_upd_other; [apply A9; exact U|exact N|]. intros E. apply N. exact (rn_inj H u r A4 U K E).
Qed.
Lemma rel_ftask T H s s' i x : rel T H s s' -> ~ In i T -> t_for room H (length (db_heap s')) x -> rel T H s (set_task i x s').
Proof.
  intros R NI OK. destruct R as [A1 A2 A3 A4 A5 A6 A7 A8 A9 A10 A11 A12 A13]. constructor; cbn [set_task db_tasks db_heap db_rooms]; rewrite ?ulen; auto.
  - intros u U. rewrite nth_upd_other; [apply A7; exact U|]. intros E. apply NI. rewrite <- E. apply rn_in, U.
  - intros j NJ. destruct (Nat.eq_dec j i) as [->|N]; [|rewrite nth_upd_other by exact N; apply A12; exact NJ]. rewrite upd_nth, Nat.eqb_refl. destruct (Nat.ltb_spec i (length (db_tasks s'))); cbn [andb]; [exact OK|apply A12; exact NI].
Qed.
Lemma rel_froom T H s s' r f : rel T H s s' -> ~ In r H -> rel T H s (set_room r f s').
Proof.
  intros R NI. destruct R as [A1 A2 A3 A4 A5 A6 A7 A8 A9 A10 A11 A12 A13]. constructor; cbn [set_room db_tasks db_heap db_rooms]; rewrite ?ulen; auto.
  intros u U. rewrite nth_upd_other; [apply A9; exact U|]. intros E. apply NI. rewrite <- E. apply rn_in, U.
Qed.
Definition new_room (rid : string) (s : db) : db := {| db_rooms := (rid, length (db_heap s)) :: db_rooms s; db_heap := db_heap s ++ [room_empty]; db_tasks := db_tasks s |}.
Lemma tren_app H y x : t_ok room (length H) x -> tren (H ++ [y]) x = tren H x.
Proof. destruct x; cbn; try reflexivity; intros K; rewrite rn_app by tauto; reflexivity. Qed.
Lemma t_ok_mono h h' x : h <= h' -> t_ok room h x -> t_ok room h' x. Proof. intros L. destruct x; cbn; try tauto; try lia. intros [A1 A2]. split; [exact A1|lia]. Qed.
Lemma t_for_mono H h x : t_for room H h x -> t_for room H (S h) x.
Proof. destruct x; cbn; try tauto; intros K; repeat match goal with X : _ /\ _ |- _ => destruct X end; repeat split; auto; lia. Qed.
Lemma t_for_new H h x : t_for room H h x -> t_for room (H ++ [h]) (S h) x.
Proof.
  assert (N : forall r, ~ In r H -> r < h -> ~ In r (H ++ [h])) by (intros r A B X; apply in_app_iff in X; destruct X as [X|[X|[]]]; [auto|lia]).
  destruct x; cbn; try tauto; intros K; repeat match goal with X : _ /\ _ |- _ => destruct X end; repeat split; auto; lia.
Qed.
Lemma rel_create T H s s' : rel T H s s' -> rel T (H ++ [length (db_heap s')]) (new_room room s) (new_room room s').
Proof.
  intros [A1 A2 A3 A4 A5 A6 A7 A8 A9 A10 A11 A12 A13]. constructor; cbn [new_room db_tasks db_heap db_rooms]; rewrite ?app_length; cbn [length]; auto.
  - apply (NoDup_Add (a := length (db_heap s')) (l := H)); [rewrite <- (app_nil_r H) at 1; apply Add_app|]. split; [exact A4|]. intros X. specialize (A6 _ X). lia.
  - intros r X. apply in_app_iff in X. destruct X as [X|[<-|[]]]; [specialize (A6 _ X); lia|lia].
  - intros t K. rewrite tren_app by apply A8. apply A7. exact K.
  - intros t. apply (t_ok_mono (length H)); [lia|apply A8].
  - intros r K. destruct (Nat.eq_dec r (length H)) as [->|N].
    + unfold rn. rewrite nth_middle. rewrite nth_middle, A2, nth_middle. reflexivity.
    + rewrite rn_app by lia. assert (I : rn H r < length (db_heap s')) by (apply A6, rn_in; lia). rewrite !app_nth1 by lia. apply A9. lia.
  - cbn [find_room]. rewrite String.eqb_refl. cbn [option_map]. f_equal. unfold rn. rewrite <- A2, nth_middle. reflexivity.
  - cbn [find_room]. rewrite String.eqb_refl. intros r E. injection E as <-. lia.
  - intros i NI. rewrite Nat.add_1_r. apply t_for_new. apply A12. exact NI.
  - intros rid r N. cbn [find_room]. apply String.eqb_neq in N. rewrite N. apply String.eqb_neq in N. intros E. destruct (A13 rid r N E) as [B1 B2]. split; [|lia]. intros X. apply in_app_iff in X. destruct X as [X|[X|[]]]; [auto|lia].
Qed.
Lemma rel_fcreate T H s s' rid : rid <> room -> rel T H s s' -> rel T H s (new_room rid s').
Proof.
  intros NR [A1 A2 A3 A4 A5 A6 A7 A8 A9 A10 A11 A12 A13]. constructor; cbn [new_room db_tasks db_heap db_rooms]; rewrite ?app_length; cbn [length]; auto.
  - intros r X. specialize (A6 _ X). lia.
  - intros r K. rewrite app_nth1 by (apply A6, rn_in, K). apply A9. exact K.
  - cbn [find_room]. destruct (String.eqb_spec room rid) as [E|_]; [congruence|exact A10].
  - intros i NI. rewrite Nat.add_1_r. apply t_for_mono. apply A12. exact NI.
  - intros rid' r N. cbn [find_room]. destruct (String.eqb rid' rid).
    + intros E. injection E as <-. split; [|lia]. intros X. specialize (A6 _ X). lia.
    + intros E. destruct (A13 rid' r N E). split; [assumption|lia].
Qed.
Lemma get_same T H s s' r : rel T H s s' -> r < length H -> get_room (rn H r) s' = get_room r s. Proof. intros R K. exact (dr_heap _ _ _ _ _ R r K). Qed.
(** What a client learns from an observation about its request *)
Inductive vis := VJoined | VGot (i : Z) (m : string) | VIssued (i : Z) | VPublished | VOther.
Definition strip (o : obs) : vis := match o with OJoined _ _ _ _ => VJoined | OGot _ _ i m => VGot i m | OIssued _ _ _ i => VIssued i | OPublished _ _ _ _ => VPublished | _ => VOther end.
Definition otask (o : obs) : nat := match o with OJoined t _ _ _ | OGot t _ _ _ | OIssued t _ _ _ | OPublished t _ _ _ | OLeft t _ | OJoinPanic t _ | OReadPanic t _ => t end.
Definition about (t : nat) (l : list obs) : Prop := Forall (fun o => otask o = t) l.
Lemma run_own T H s s' t : rel T H s s' -> t < length T -> exists H', rel T H' (fst (run_task oc t s)) (fst (run_task oc (rn T t) s')) /\
  map strip (snd (run_task oc t s)) = map strip (snd (run_task oc (rn T t) s')) /\ about t (snd (run_task oc t s)) /\ about (rn T t) (snd (run_task oc (rn T t) s')).
Proof.
  intros R K. unfold run_task. pose proof (dr_task _ _ _ _ _ R t K) as E. pose proof (dr_tok _ _ _ _ _ R t) as OK. rewrite E.
  destruct (nth t (db_tasks s) TEnd) as [rid q|rid q|rid ref q|ref nx|ref nx sn|]; cbn [tren t_ok] in *.
  - subst rid. exists H. unfold lookup_step. rewrite (dr_room _ _ _ _ _ R). destruct (find_room room (db_rooms s)) as [ref|] eqn:F; cbn [option_map].
    + pose proof (dr_rok _ _ _ _ _ R ref F) as RK. rewrite (get_same T H s s' ref R RK). destruct (is_abandoned (get_room ref s)); cbn [fst snd map]; (split; [|repeat constructor]).
      * apply (rel_task T H s s' t (TCreate room q) R K). reflexivity.
      * apply (rel_task T H s s' t (TRoom room ref q) R K). split; [reflexivity|exact RK].
    + cbn [fst snd map]. split; [|repeat constructor]. apply (rel_task T H s s' t (TCreate room q) R K). reflexivity.
  - subst rid. assert (NEW : exists H', rel T H' (set_task t (TRoom room (length (db_heap s)) q) (new_room room s)) (set_task (rn T t) (TRoom room (length (db_heap s')) q) (new_room room s'))).
    { exists (H ++ [length (db_heap s')]). pose proof (rel_create T H s s' R) as R'. pose proof (rel_task T _ _ _ t (TRoom room (length (db_heap s)) q) R' K) as Q. cbn [tren] in Q. rewrite <- (dr_hlen _ _ _ _ _ R) in Q at 3. unfold rn in Q at 2. rewrite nth_middle in Q. apply Q. cbn. rewrite app_length, (dr_hlen _ _ _ _ _ R). cbn. split; [reflexivity|lia]. }
    unfold create_step. rewrite (dr_room _ _ _ _ _ R). destruct (find_room room (db_rooms s)) as [ref|] eqn:F; cbn [option_map].
    + pose proof (dr_rok _ _ _ _ _ R ref F) as RK. rewrite (get_same T H s s' ref R RK). destruct (is_abandoned (get_room ref s)); cbn [negb fst snd map].
      * destruct NEW as [H' Q]. exists H'. split; [exact Q|repeat constructor].
      * exists H. split; [|repeat constructor]. apply (rel_task T H s s' t (TRoom room ref q) R K). split; [reflexivity|exact RK].
    + destruct NEW as [H' Q]. exists H'. split; [exact Q|repeat constructor].
  - destruct OK as [-> RK]. exists H. destruct q as [last| |m].
    + destruct (start_at oc last) as [nx|]; cbn [fst snd map]; (split; [|repeat constructor]).
      * apply (rel_task T H _ _ t (TReady ref nx)); [apply rel_room; assumption|exact K|exact RK].
      * apply (rel_task T H _ _ t TEnd); [apply rel_room; assumption|exact K|exact I].
    + rewrite (get_same T H s s' ref R RK). cbn [issue_unique_idx fst snd map]. split; [|repeat constructor]. apply (rel_task T H _ _ t TEnd); [apply rel_room; assumption|exact K|exact I].
    + cbn [fst snd map]. split; [|repeat constructor]. apply (rel_task T H _ _ t TEnd); [apply rel_room; assumption|exact K|exact I].
  - exists H. rewrite (get_same T H s s' ref R OK). destruct (nth_error (rm_msgs (get_room ref s)) (Z.to_nat nx)) as [m|].
    + destruct (add16 oc nx) as [nx'|]; cbn [fst snd map]; (split; [|repeat constructor]).
      * apply (rel_task T H s s' t (TReady ref nx') R K). exact OK.
      * apply (rel_task T H _ _ t TEnd); [apply rel_room; assumption|exact K|exact I].
    + cbn [fst snd map]. split; [|repeat constructor]. apply (rel_task T H s s' t (TWaiting ref nx _) R K). exact OK.
  - exists H. rewrite (get_same T H s s' ref R OK). destruct (Nat.ltb sn (rm_notify (get_room ref s))); cbn [fst snd map]; (split; [|repeat constructor]); [|exact R]. apply (rel_task T H s s' t (TReady ref nx) R K). exact OK.
  - exists H. split; [exact R|repeat constructor].
Qed.
Lemma run_foreign T H s s' i : rel T H s s' -> ~ In i T -> rel T H s (fst (run_task oc i s')) /\ about i (snd (run_task oc i s')).
Proof.
  intros R NI. unfold run_task. pose proof (dr_for _ _ _ _ _ R i NI) as OK. destruct (nth i (db_tasks s') TEnd) as [rid q|rid q|rid ref q|ref nx|ref nx sn|]; cbn [t_for] in *.
  - unfold lookup_step. destruct (find_room rid (db_rooms s')) as [ref|] eqn:F; [destruct (is_abandoned (get_room ref s'))|]; cbn [fst snd]; (split; [|repeat constructor]); apply rel_ftask; try assumption.
    destruct (dr_ffind _ _ _ _ _ R rid ref OK F). cbn. auto.
  - assert (NEW : rel T H s (set_task i (TRoom rid (length (db_heap s')) q) (new_room rid s'))).
    { apply rel_ftask; [apply rel_fcreate; assumption|exact NI|]. cbn. rewrite app_length. cbn. repeat split; [exact OK| |lia]. intros X. pose proof (dr_hin _ _ _ _ _ R _ X). lia. }
    unfold create_step. destruct (find_room rid (db_rooms s')) as [ref|] eqn:F; [destruct (is_abandoned (get_room ref s'))|]; cbn [negb fst snd]; (split; [|repeat constructor]); try exact NEW.
    apply rel_ftask; try assumption. destruct (dr_ffind _ _ _ _ _ R rid ref OK F). cbn. auto.
  - destruct OK as (O1 & O2 & O3). destruct q as [last| |m].
    + destruct (start_at oc last) as [nx|]; cbn [fst snd]; (split; [|repeat constructor]); apply rel_ftask; try exact NI; try (apply rel_froom; assumption); cbn; rewrite ?ulen; auto.
    + cbn [issue_unique_idx fst snd]. split; [|repeat constructor]. apply rel_ftask; [apply rel_froom; assumption|exact NI|exact I].
    + cbn [fst snd]. split; [|repeat constructor]. apply rel_ftask; [apply rel_froom; assumption|exact NI|exact I].
  - destruct OK as (O1 & O2). destruct (nth_error (rm_msgs (get_room ref s')) (Z.to_nat nx)) as [m|]; [destruct (add16 oc nx) as [nx'|]|]; cbn [fst snd]; (split; [|repeat constructor]); apply rel_ftask; try exact NI; try exact R; try (apply rel_froom; assumption); cbn; auto.
  - destruct OK as (O1 & O2). destruct (Nat.ltb sn (rm_notify (get_room ref s'))); cbn [fst snd]; (split; [|repeat constructor]); [|exact R]. apply rel_ftask; [exact R|exact NI|]. cbn. auto.
  - split; [exact R|constructor].
Qed.
Lemma cancel_own T H s s' t : rel T H s s' -> t < length T -> rel T H (fst (cancel_task t s)) (fst (cancel_task (rn T t) s')) /\
  map strip (snd (cancel_task t s)) = map strip (snd (cancel_task (rn T t) s')) /\ about t (snd (cancel_task t s)) /\ about (rn T t) (snd (cancel_task (rn T t) s')).
Proof.
  intros R K. unfold cancel_task. pose proof (dr_task _ _ _ _ _ R t K) as E. pose proof (dr_tok _ _ _ _ _ R t) as OK. rewrite E.
  destruct (nth t (db_tasks s) TEnd) as [rid q|rid q|rid ref q|ref nx|ref nx sn|]; cbn [tren t_ok fst snd map] in *; (split; [|repeat constructor]); try (apply (rel_task T H s s' t TEnd R K); exact I); apply (rel_task T H _ _ t TEnd); try exact K; try exact I; apply rel_room; assumption.
Qed.
Lemma cancel_foreign T H s s' i : rel T H s s' -> ~ In i T -> rel T H s (fst (cancel_task i s')) /\ about i (snd (cancel_task i s')).
Proof.
  intros R NI. unfold cancel_task. pose proof (dr_for _ _ _ _ _ R i NI) as OK. destruct (nth i (db_tasks s') TEnd) as [rid q|rid q|rid ref q|ref nx|ref nx sn|]; cbn [t_for fst snd] in *; (split; [|repeat constructor]); apply rel_ftask; try exact NI; try exact I; try exact R; apply rel_froom; tauto.
Qed.
Definition arrive (rid : string) (q : req) (s : db) : db := {| db_rooms := db_rooms s; db_heap := db_heap s; db_tasks := db_tasks s ++ [TLookup rid q] |}.
Lemma nth_past {A} (l : list A) x d i : i <> length l -> nth i (l ++ [x]) d = nth i l d.
Proof. intros N. destruct (Nat.lt_ge_cases i (length l)) as [L|L]; [apply app_nth1; exact L|]. rewrite (nth_overflow l) by exact L. apply nth_overflow. rewrite app_length. cbn. lia. Qed.
Lemma arrive_own T H s s' q : rel T H s s' -> rel (T ++ [length (db_tasks s')]) H (arrive room q s) (arrive room q s').
Proof.
  intros [A1 A2 A3 A4 A5 A6 A7 A8 A9 A10 A11 A12 A13]. constructor; cbn [arrive db_tasks db_heap db_rooms]; rewrite ?app_length; cbn [length]; auto.
  - apply (NoDup_Add (a := length (db_tasks s')) (l := T)); [rewrite <- (app_nil_r T) at 1; apply Add_app|]. split; [exact A3|]. intros X. specialize (A5 _ X). lia.
  - intros i X. apply in_app_iff in X. destruct X as [X|[<-|[]]]; [specialize (A5 _ X); lia|lia].
  - intros t K. destruct (Nat.eq_dec t (length T)) as [->|N].
    + unfold rn. rewrite nth_middle, nth_middle, A1, nth_middle. reflexivity.
    + rewrite rn_app by lia. assert (I : rn T t < length (db_tasks s')) by (apply A5, rn_in; lia). rewrite !nth_past by lia. apply A7. lia.
  - intros t. destruct (Nat.eq_dec t (length (db_tasks s))) as [->|N]; [rewrite nth_middle; reflexivity|]. rewrite nth_past by exact N. apply A8.
  - intros i NI. rewrite nth_past; [apply A12; intros X; apply NI, in_app_iff; auto|]. intros ->. apply NI, in_app_iff. right. left. reflexivity.
Qed.
Lemma arrive_foreign T H s s' rid q : rid <> room -> rel T H s s' -> rel T H s (arrive rid q s').
Proof.
  intros NR [A1 A2 A3 A4 A5 A6 A7 A8 A9 A10 A11 A12 A13]. constructor; cbn [arrive db_tasks db_heap db_rooms]; rewrite ?app_length; cbn [length]; auto.
  - intros i X. specialize (A5 _ X). lia.
  - intros t K. rewrite nth_past by (pose proof (A5 _ (rn_in T t K)); lia). apply A7. exact K.
  - intros i NI. destruct (Nat.eq_dec i (length (db_tasks s'))) as [->|N]; [rewrite nth_middle; exact NR|]. rewrite nth_past by exact N. apply A12. exact NI.
Qed.
End Db.

(** * The clients *)
Definition view (t : nat) (tr : list obs) : list vis := flat_map (fun o => if Nat.eqb (otask o) t then [strip o] else []) tr.
Lemma view_app t a b : view t (a ++ b) = view t a ++ view t b. Proof. apply flat_map_app. Qed.
Lemma view_about t l : about t l -> view t l = map strip l.
Proof. induction 1 as [|o l E F IH]; [reflexivity|]. cbn. rewrite E, Nat.eqb_refl, <- IH. reflexivity. Qed.
Lemma view_other t u l : about u l -> u <> t -> view t l = [].
Proof. induction 1 as [|o l E F IH]; intros N; [reflexivity|]. cbn. rewrite E. apply Nat.eqb_neq in N. rewrite N. apply IH. apply Nat.eqb_neq. exact N. Qed.
Lemma joined_view t tr : was_joined t tr = existsb (fun v => match v with VJoined => true | _ => false end) (view t tr).
Proof. induction tr as [|o tr IH]; [reflexivity|]. cbn [was_joined existsb view flat_map]. rewrite existsb_app. fold (view t tr). fold (was_joined t tr). rewrite IH. f_equal. destruct o; cbn [otask]; destruct (Nat.eqb t0 t); reflexivity. Qed.
Lemma published_view t tr : was_published t tr = existsb (fun v => match v with VPublished => true | _ => false end) (view t tr).
Proof. induction tr as [|o tr IH]; [reflexivity|]. cbn [was_published existsb view flat_map]. rewrite existsb_app. fold (view t tr). fold (was_published t tr). rewrite IH. f_equal. destruct o; cbn [otask]; destruct (Nat.eqb t0 t); reflexivity. Qed.
Lemma issued_view t tr : was_issued t tr = match find (fun v => match v with VIssued _ => true | _ => false end) (view t tr) with Some (VIssued i) => Some i | _ => None end.
Proof.
  unfold was_issued. induction tr as [|o tr IH]; [reflexivity|]. cbn [find view flat_map]. fold (view t tr). destruct o; cbn [otask]; destruct (Nat.eqb t0 t); cbn [app find strip]; try exact IH. reflexivity.
Qed.
Lemma gots_view t tr : gots t tr = flat_map (fun v => match v with VGot i m => [(i, m)] | _ => [] end) (view t tr).
Proof.
  induction tr as [|o tr IH]; [reflexivity|]. cbn [gots view flat_map]. fold (view t tr). rewrite flat_map_app. fold (gots t tr). rewrite IH. f_equal. destruct o; cbn [otask]; destruct (Nat.eqb t0 t); reflexivity.
Qed.

Section Sys.
Context {S P B O : Type}.
Context (opf : nat -> S -> op B -> S * ret P B O) (wants fin : S -> bool) (queue : S -> list (msg B)).
Context (start : nat -> Z -> option S) (crit : sm_error P -> bool) (ser : msg B -> string) (par : string -> option (msg B)) (oc : bool) (room : string).
Notation sys := (sys S P B O).
Notation stage := (stage S P B O).
Notation sys_step := (sys_step opf wants fin queue start crit ser par oc room).
Notation sys_exec := (sys_exec opf wants fin queue start crit ser par oc room).
Notation open_step := (open_step opf wants fin queue start crit ser par oc room).
Notation open_exec := (open_exec opf wants fin queue start crit ser par oc room).
Definition xren (T : list nat) (x : running S B) : running S B :=
  {| cr_sub := rn T (cr_sub x); cr_idx := cr_idx x; cr_st := cr_st x; cr_read := cr_read x; cr_out := cr_out x; cr_post := option_map (rn T) (cr_post x) |}.
Definition stren (T : list nat) (st : stage) : stage :=
  match st with
  | CSubscribing t => CSubscribing (rn T t) | CIssuing s t => CIssuing (rn T s) (rn T t)
  | CRunning x => CRunning (xren T x) | CDone x r => CDone (xren T x) r | CIdle => CIdle | CFailed => CFailed
  end.
Definition x_ok (k : nat) (x : running S B) : Prop := cr_sub x < k /\ forall t, cr_post x = Some t -> t < k.
Definition st_ok (k : nat) (st : stage) : Prop :=
  match st with CSubscribing t => t < k | CIssuing s t => s < k /\ t < k | CRunning x | CDone x _ => x_ok k x | _ => True end.
Lemma xren_app T y x : x_ok (length T) x -> xren (T ++ [y]) x = xren T x.
Proof. intros [A1 A2]. unfold xren. rewrite rn_app by exact A1. destruct (cr_post x) as [t|]; cbn [option_map]; [rewrite rn_app by (apply A2; reflexivity)|]; reflexivity. Qed.
Lemma stren_app T y st : st_ok (length T) st -> stren (T ++ [y]) st = stren T st.
Proof. destruct st; cbn; intros K; rewrite ?xren_app by exact K; try reflexivity; rewrite ?rn_app by tauto; reflexivity. Qed.
Lemma st_ok_mono k st : st_ok k st -> st_ok (Datatypes.S k) st.
Proof. destruct st as [|t|s t|x|x r|]; cbn; try tauto; try lia; intros [A1 A2]; (split; [lia|intros u E; specialize (A2 u E); lia]). Qed.
Record srel (T : list nat) (w w' : sys) (own : list nat) : Prop := {
  sr_db : exists H, db_rel room T H (sy_db w) (sy_db w');
  sr_view : forall t, t < length T -> view (rn T t) (sy_tr w') = view t (sy_tr w);
  sr_fresh : forall t, next_task w <= t -> view t (sy_tr w) = [];
  sr_fresh' : forall t, next_task w' <= t -> view t (sy_tr w') = [];
  sr_cl : sy_cl w' = map (stren T) (sy_cl w);
  sr_ok : Forall (st_ok (length T)) (sy_cl w);
  sr_own : forall i, In i own -> ~ In i T /\ i < next_task w' }.
Lemma client_rel T w w' own c : srel T w w' own -> client w' c = option_map (stren T) (client w c).
Proof. intros R. destruct c as [|k]; [reflexivity|]. cbn [client]. rewrite (sr_cl _ _ _ _ R), nth_error_map. reflexivity. Qed.
Lemma client_ok T w w' own c st : srel T w w' own -> client w c = Some st -> st_ok (length T) st.
Proof. intros R E. destruct c as [|k]; [discriminate|]. exact (proj1 (Forall_forall _ _) (sr_ok _ _ _ _ R) st (nth_error_In _ _ E)). Qed.
Lemma map_upd {A A'} (f : A -> A') l i x : map f (Stores.upd l i x) = Stores.upd (map f l) i (f x).
Proof. revert i. induction l as [|y l IH]; intros [|i]; cbn; try reflexivity. f_equal. apply IH. Qed.
Lemma srel_set T w w' own c st : srel T w w' own -> st_ok (length T) st -> srel T (set_client c st w) (set_client c (stren T st) w') own.
Proof.
  intros [A1 A2 A3 A4 A5 A6 A7] K. constructor; try assumption; cbn [set_client sy_cl].
  - rewrite A5, map_upd. reflexivity.
  - apply Forall_forall. intros y Y. destruct (In_nth_error _ _ Y) as [j E]. destruct (Nat.eq_dec (c - 1) j) as [<-|N].
    + destruct (Nat.lt_ge_cases (c - 1) (length (sy_cl w))) as [L|L]; [rewrite upd_nth_same in E by exact L; injection E as <-; exact K|]. apply nth_error_Some_lt in E || idtac. assert (c - 1 < length (Stores.upd (sy_cl w) (c - 1) st)) by (apply nth_error_Some; congruence). rewrite upd_len in *. lia.
    + rewrite upd_nth_other in E by exact N. exact (proj1 (Forall_forall _ _) A6 y (nth_error_In _ _ E)).
Qed.
(** One more observation on each side *)
Lemma view_step T (tr tr' o o' : list obs) t u : NoDup T -> t < length T -> u < length T -> view (rn T u) tr' = view u tr -> about t o -> about (rn T t) o' -> map strip o = map strip o' -> view (rn T u) (tr' ++ o') = view u (tr ++ o).
Proof.
  intros ND LT LU E A A' M. rewrite !view_app, E. f_equal. destruct (Nat.eq_dec t u) as [->|N].
  - rewrite (view_about u o A), (view_about _ o' A'), M. reflexivity.
  - rewrite (view_other u t o A N), (view_other _ (rn T t) o' A'); [reflexivity|]. intros X. apply N. exact (rn_inj T t u ND LT LU X).
Qed.
Lemma run_len t s : length (db_tasks (fst (run_task oc t s))) = length (db_tasks s).
Proof.
  unfold run_task. destruct (nth t (db_tasks s) TEnd) as [rid q|rid q|rid ref q|ref nx|ref nx sn|].
  - destruct (lookup_step rid s); apply ulen.
  - unfold create_step. destruct (find_room rid (db_rooms s)) as [ref|]; [destruct (negb (is_abandoned (get_room ref s)))|]; apply ulen.
  - destruct q as [last| |m]; [destruct (start_at oc last)| |]; cbn [issue_unique_idx fst]; apply ulen.
  - destruct (nth_error (rm_msgs (get_room ref s)) (Z.to_nat nx)); [destruct (add16 oc nx)|]; apply ulen.
  - destruct (Nat.ltb sn (rm_notify (get_room ref s))); [apply ulen|reflexivity].
  - reflexivity.
Qed.
Lemma cancel_len t s : length (db_tasks (fst (cancel_task t s))) = length (db_tasks s).
Proof. unfold cancel_task. destruct (nth t (db_tasks s) TEnd); apply ulen. Qed.
Lemma fresh_step tr o t k n : (forall u, n <= u -> view u tr = []) -> t < n -> about t o -> n <= k -> view k (tr ++ o) = [].
Proof. intros F L A K. rewrite view_app, (F k K), (view_other k t o A) by lia. reflexivity. Qed.
Lemma run_past t s : length (db_tasks s) <= t -> run_task oc t s = (s, []). Proof. intros L. unfold run_task. rewrite nth_overflow by exact L. reflexivity. Qed.

Lemma serve_own T w w' own t : srel T w w' own -> t < length T -> srel T (serve oc (Run t) w) (serve oc (Run (rn T t)) w') own.
Proof.
  intros [[H D] A2 A3 A4 A5 A6 A7] K. destruct (run_own oc room T H _ _ t D K) as (H' & D' & M & B1 & B2). unfold next_task in *.
  pose proof (run_len t (sy_db w)) as L1. pose proof (run_len (rn T t) (sy_db w')) as L2. pose proof (dr_len _ _ _ _ _ D) as L3. pose proof (dr_in _ _ _ _ _ D _ (rn_in T t K)) as L4. pose proof (dr_nd _ _ _ _ _ D) as ND.
  unfold serve. cbn [step]. destruct (run_task oc t (sy_db w)) as [d o]. destruct (run_task oc (rn T t) (sy_db w')) as [d' o']. cbn [fst snd] in *. constructor; unfold next_task; cbn [sy_db sy_tr sy_cl]; auto.
  - exists H'. exact D'.
  - intros u U. apply (view_step T _ _ o o' t u ND K U (A2 u U) B1 B2 M).
  - intros u U. rewrite L1 in U. apply (fresh_step _ o t u (length (db_tasks (sy_db w))) A3); [lia|exact B1|exact U].
  - intros u U. rewrite L2 in U. apply (fresh_step _ o' (rn T t) u (length (db_tasks (sy_db w'))) A4); [lia|exact B2|exact U].
  - intros i I. rewrite L2. exact (A7 i I).
Qed.
Lemma cancel_both T w w' own t : srel T w w' own -> t < length T -> srel T (serve oc (Cancel t) w) (serve oc (Cancel (rn T t)) w') own.
Proof.
  intros [[H D] A2 A3 A4 A5 A6 A7] K. destruct (cancel_own room T H _ _ t D K) as (D' & M & B1 & B2). unfold next_task in *.
  pose proof (cancel_len t (sy_db w)) as L1. pose proof (cancel_len (rn T t) (sy_db w')) as L2. pose proof (dr_len _ _ _ _ _ D) as L3. pose proof (dr_in _ _ _ _ _ D _ (rn_in T t K)) as L4. pose proof (dr_nd _ _ _ _ _ D) as ND.
  unfold serve. cbn [step]. destruct (cancel_task t (sy_db w)) as [d o]. destruct (cancel_task (rn T t) (sy_db w')) as [d' o']. cbn [fst snd] in *. constructor; unfold next_task; cbn [sy_db sy_tr sy_cl]; auto.
  - exists H. exact D'.
  - intros u U. apply (view_step T _ _ o o' t u ND K U (A2 u U) B1 B2 M).
  - intros u U. rewrite L1 in U. apply (fresh_step _ o t u (length (db_tasks (sy_db w))) A3); [lia|exact B1|exact U].
  - intros u U. rewrite L2 in U. apply (fresh_step _ o' (rn T t) u (length (db_tasks (sy_db w'))) A4); [lia|exact B2|exact U].
  - intros i I. rewrite L2. exact (A7 i I).
Qed.
Lemma serve_foreign T w w' own i : srel T w w' own -> ~ In i T -> srel T w (serve oc (Run i) w') own.
Proof.
  intros R NI. destruct (Nat.lt_ge_cases i (next_task w')) as [LI|LI].
  2:{ unfold serve. cbn [step]. rewrite (run_past i (sy_db w') LI), app_nil_r. destruct w'. exact R. }
  destruct R as [[H D] A2 A3 A4 A5 A6 A7]. destruct (run_foreign oc room T H _ _ i D NI) as (D' & BB). unfold next_task in *. pose proof (run_len i (sy_db w')) as L2.
  unfold serve. cbn [step]. destruct (run_task oc i (sy_db w')) as [d' o']. cbn [fst snd] in *. constructor; unfold next_task; cbn [sy_db sy_tr sy_cl]; auto.
  - exists H. exact D'.
  - intros u U. rewrite view_app, (view_other (rn T u) i o' BB), app_nil_r; [exact (A2 u U)|]. intros ->. apply NI, rn_in, U.
  - intros u U. rewrite L2 in U. exact (fresh_step _ o' i u _ A4 LI BB U).
  - intros j J. rewrite L2. exact (A7 j J).
Qed.
Lemma cancel_for T w w' own i : srel T w w' own -> ~ In i T -> i < next_task w' -> srel T w (serve oc (Cancel i) w') own.
Proof.
  intros [[H D] A2 A3 A4 A5 A6 A7] NI LI. destruct (cancel_foreign room T H _ _ i D NI) as (D' & BB). unfold next_task in *. pose proof (cancel_len i (sy_db w')) as L2.
  unfold serve. cbn [step]. destruct (cancel_task i (sy_db w')) as [d' o']. cbn [fst snd] in *. constructor; unfold next_task; cbn [sy_db sy_tr sy_cl]; auto.
  - exists H. exact D'.
  - intros u U. rewrite view_app, (view_other (rn T u) i o' BB), app_nil_r; [exact (A2 u U)|]. intros ->. apply NI, rn_in, U.
  - intros u U. rewrite L2 in U. exact (fresh_step _ o' i u _ A4 LI BB U).
  - intros j J. rewrite L2. exact (A7 j J).
Qed.
Lemma ask_own T w w' own q : good_req q = true -> srel T w w' own -> srel (T ++ [next_task w']) (serve oc (Arrive room q) w) (serve oc (Arrive room q) w') own /\ rn (T ++ [next_task w']) (next_task w) = next_task w'.
Proof.
  intros G [[H D] A2 A3 A4 A5 A6 A7]. pose proof (arrive_own room T H _ _ q D) as D'. pose proof (dr_len _ _ _ _ _ D) as L. split.
  - unfold serve. cbn [step]. rewrite G, !app_nil_r. constructor; unfold next_task in *; cbn [sy_db sy_tr sy_cl db_tasks]; rewrite ?app_length; cbn [length].
    + exists H. exact D'.
    + intros t K. destruct (Nat.eq_dec t (length T)) as [->|N].
      * unfold rn. rewrite nth_middle. rewrite A4 by lia. rewrite A3 by lia. reflexivity.
      * rewrite rn_app by lia. apply A2. lia.
    + intros t K. apply A3. lia.
    + intros t K. apply A4. lia.
    + rewrite A5. apply map_ext_in. intros st I. symmetry. apply stren_app. exact (proj1 (Forall_forall _ _) A6 st I).
    + eapply Forall_impl; [|exact A6]. intros st K. rewrite Nat.add_1_r. apply st_ok_mono, K.
    + intros i I. destruct (A7 i I) as [B1 B2]. split; [|lia]. intros X. apply in_app_iff in X. destruct X as [X|[X|[]]]; [auto|lia].
  - unfold rn, next_task. rewrite <- L, nth_middle. reflexivity.
Qed.
Lemma ask_foreign T w w' own rid q : rid <> room -> srel T w w' own -> srel T w (serve oc (Arrive rid q) w') (if good_req q then next_task w' :: own else own).
Proof.
  intros NR [[H D] A2 A3 A4 A5 A6 A7]. pose proof (arrive_foreign room T H _ _ rid q NR D) as D'. unfold serve. cbn [step]. destruct (good_req q); [|destruct w' as [d1 t1 c1]; cbn [sy_db sy_tr sy_cl] in *; rewrite app_nil_r; constructor; eauto].
  rewrite app_nil_r. constructor; unfold next_task in *; cbn [sy_db sy_tr sy_cl db_tasks]; rewrite ?app_length; cbn [length]; auto.
  - exists H. exact D'.
  - intros t K. apply A4. lia.
  - intros i [<-|I]; [|destruct (A7 i I); split; [assumption|lia]]. split; [|lia]. intros X. pose proof (dr_in _ _ _ _ _ D _ X). lia.
Qed.

Lemma step_both T w w' own a : srel T w w' own -> (forall t, a <> CServe t) -> exists T', srel T' (fst (sys_step w a)) (fst (sys_step w' a)) own /\ snd (sys_step w' a) = snd (sys_step w a).
Proof.
  intros R NS. assert (ID : exists T', srel T' w w' own /\ @nil (cev P B O) = []) by (exists T; split; [exact R|reflexivity]).
  assert (VW : forall t, t < length T -> was_joined (rn T t) (sy_tr w') = was_joined t (sy_tr w) /\ was_published (rn T t) (sy_tr w') = was_published t (sy_tr w) /\ was_issued (rn T t) (sy_tr w') = was_issued t (sy_tr w) /\ gots (rn T t) (sy_tr w') = gots t (sy_tr w))
    by (intros t K; rewrite !joined_view, !published_view, !issued_view, !gots_view, (sr_view _ _ _ _ R t K); auto).
  assert (ASK : forall c q st st', good_req q = true -> (forall T1 : list nat, length T1 = Datatypes.S (length T) -> st_ok (length T1) st) -> (rn (T ++ [next_task w']) (next_task w) = next_task w' -> stren (T ++ [next_task w']) st = st') ->
    exists T', srel T' (set_client c st (serve oc (Arrive room q) w)) (set_client c st' (serve oc (Arrive room q) w')) own).
  { intros c q st st' G SO E. destruct (ask_own T w w' own q G R) as [R' N]. exists (T ++ [next_task w']). rewrite <- (E N). apply srel_set; [exact R'|]. apply SO. rewrite app_length. cbn. lia. }
  assert (NXT : next_task w = length T) by (destruct (sr_db _ _ _ _ R) as [H D]; symmetry; exact (dr_len _ _ _ _ _ D)).
  assert (HD : forall c x o, x_ok (length T) x -> exists T', srel T' (fst (handle opf crit oc c x o w)) (fst (handle opf crit oc c (xren T x) o w')) own /\ snd (handle opf crit oc c (xren T x) o w') = snd (handle opf crit oc c x o w)).
  { intros c x o XO. unfold handle. change (cr_st (xren T x)) with (cr_st x). destruct (opf c (cr_st x) o) as [s r]. cbn [fst snd]. exists T. split; [|reflexivity]. destruct (good_ret crit r).
    - apply (srel_set T w w' own c (CRunning (with_st x s)) R). exact XO.
    - apply (srel_set T _ _ own c CFailed); [|exact I]. apply (cancel_both T w w' own (cr_sub x) R). exact (proj1 XO). }
  destruct a as [t|c|c|c|c|c|c|c|c|c]; [destruct (NS t eq_refl)|..]; cbn [Clients20.sys_step]; rewrite (client_rel T w w' own c R);
    (destruct (client w c) as [st|] eqn:CL; cbn [option_map]; [|exact ID]); pose proof (client_ok T w w' own c st R CL) as OK; destruct st as [|t|su t|x|x r|]; cbn [stren st_ok] in *; try exact ID; unfold ask.
  - cbn [fst snd]. destruct (ASK c (RSub None) (CSubscribing (next_task w)) (CSubscribing (next_task w')) eq_refl) as [T' Q]; [intros T1 E; cbn; lia|intros E; cbn; rewrite E; reflexivity|]. exists T'. auto.
  - rewrite (proj1 (VW t OK)). destruct (was_joined t (sy_tr w)); [|exact ID]. cbn [fst snd]. destruct (ASK c RIssue (CIssuing t (next_task w)) (CIssuing (rn T t) (next_task w')) eq_refl) as [T' Q]; [intros T1 E; cbn; lia|intros E; cbn; rewrite E, rn_app by exact OK; reflexivity|]. exists T'. auto.
  - destruct OK as [O1 O2]. rewrite (proj1 (proj2 (proj2 (VW t O2)))). destruct (was_issued t (sy_tr w)) as [i|]; [|exact ID]. destruct (start c i) as [s|]; cbn [fst snd]; exists T; (split; [|reflexivity]).
    + apply (srel_set T w w' own c (CRunning {| cr_sub := su; cr_idx := i; cr_st := s; cr_read := 0; cr_out := []; cr_post := None |}) R). split; [exact O1|discriminate].
    + apply (srel_set T _ _ own c CFailed); [apply cancel_both; assumption|exact I].
  - pose proof (proj1 OK) as O1. change (cr_sub (xren T x)) with (rn T (cr_sub x)). rewrite (proj2 (proj2 (proj2 (VW _ O1)))). change (cr_read (xren T x)) with (cr_read x). destruct (nth_error (gots (cr_sub x) (sy_tr w)) (cr_read x)) as [[k e]|]; [|exact ID].
    destruct (par e) as [m|]; [change (cr_idx (xren T x)) with (cr_idx x); destruct (for_me (cr_idx x) m)|].
    + exact (HD c (with_read x) (Deliver m) OK).
    + cbn [fst snd]. exists T. split; [|reflexivity]. exact (srel_set T w w' own c (CRunning (with_read x)) R OK).
    + cbn [fst snd]. exists T. split; [|reflexivity]. apply (srel_set T _ _ own c CFailed); [apply cancel_both; assumption|exact I].
  - change (cr_st (xren T x)) with (cr_st x). destruct (wants (cr_st x)); [exact (HD c x Proceed OK)|exact ID].
  - change (cr_st (xren T x)) with (cr_st x). destruct (queue (cr_st x)); [exact ID|]. destruct (opf c (cr_st x) Drain) as [s r]. cbn [fst snd]. exists T. split; [|reflexivity]. apply (srel_set T w w' own c (CRunning (with_out (with_st x s) (cr_out x ++ drained [r]) (cr_post x))) R). exact OK.
  - change (cr_out (xren T x)) with (cr_out x). change (cr_post (xren T x)) with (option_map (rn T) (cr_post x)). destruct (cr_out x) as [|m l] eqn:EO; [exact ID|]. destruct (cr_post x) as [t|] eqn:EP; cbn [option_map]; [exact ID|]. cbn [fst snd].
    destruct (ASK c (RPub (ser m)) (CRunning (with_out x l (Some (next_task w)))) (CRunning (with_out (xren T x) l (Some (next_task w')))) eq_refl) as [T' Q].
    + intros T1 E. destruct OK as [O1 O2]. split; [cbn; lia|]. cbn. intros u U. injection U as <-. lia.
    + intros E. destruct OK as [O1 O2]. cbn. f_equal. unfold xren, with_out. cbn. rewrite E, rn_app by exact O1. reflexivity.
    + exists T'. auto.
  - change (cr_post (xren T x)) with (option_map (rn T) (cr_post x)). destruct OK as [O1 O2]. destruct (cr_post x) as [t|] eqn:EP; cbn [option_map]; [|exact ID]. rewrite (proj1 (proj2 (VW t (O2 t eq_refl)))). destruct (was_published t (sy_tr w)); [|exact ID]. cbn [fst snd]. exists T. split; [|reflexivity].
    apply (srel_set T w w' own c (CRunning (with_out x (cr_out x) None)) R). split; [exact O1|discriminate].
  - assert (ML : may_leave fin queue (xren T x) = may_leave fin queue x) by (unfold may_leave; cbn [xren cr_st cr_out cr_post]; destruct (cr_post x); reflexivity). rewrite ML. destruct (may_leave fin queue x); [|exact ID]. change (cr_st (xren T x)) with (cr_st x). destruct (opf c (cr_st x) Pick) as [s r]. cbn [fst snd]. exists T. split; [|reflexivity].
    apply (srel_set T _ _ own c (CDone x r)); [|exact OK]. apply (cancel_both T w w' own (cr_sub x) R). exact (proj1 OK).
Qed.
Lemma iso_exec xs : Forall (fun p => fst p <> room) (asks xs) -> forall T w w' own, srel T w w' own ->
  exists T' acts, srel T' (fst (sys_exec w acts)) (fst (fst (open_exec (w', own) xs))) (snd (fst (open_exec (w', own) xs))) /\ snd (open_exec (w', own) xs) = snd (sys_exec w acts).
Proof.
  induction xs as [|a xs IH]; intros F T w w' own R; [exists T, []; split; [exact R|reflexivity]|]. cbn [Clients20Open.open_exec]. destruct a as [b|rid q|t]; cbn [Clients20Open.open_step].
  - assert (CA : (forall t, b <> CServe t) -> exists T' acts, srel T' (fst (sys_exec w acts)) (fst (fst (open_exec (w', own) (XClient b :: xs)))) (snd (fst (open_exec (w', own) (XClient b :: xs)))) /\ snd (open_exec (w', own) (XClient b :: xs)) = snd (sys_exec w acts)).
    { intros NS. destruct (step_both T w w' own b R NS) as (T1 & R1 & E1). cbn [Clients20Open.open_exec Clients20Open.open_step]. destruct (sys_step w' b) as [w1' e1']. cbn [fst snd] in *.
      destruct (IH F T1 _ w1' own R1) as (T' & acts & Q1 & Q2). exists T', (b :: acts). cbn [Clients20.sys_exec]. destruct (sys_step w b) as [w1 e1]. cbn [fst snd] in *.
      destruct (open_exec (w1', own) xs) as [y2 e2]. destruct (sys_exec w1 acts) as [w2 e3]. cbn [fst snd] in *. subst e1' e2. auto. }
    destruct b as [t|c|c|c|c|c|c|c|c|c]; try (apply CA; discriminate). clear CA. cbn [Clients20.sys_step]. destruct (in_dec Nat.eq_dec t T) as [I|NI].
    + destruct (in_rn T t I) as (k & K & <-). destruct (IH F T _ _ own (serve_own T w w' own k R K)) as (T' & acts & Q1 & Q2). exists T', (CServe k :: acts). destruct (open_exec (serve oc (Run (rn T k)) w', own) xs) as [y2 e2]. cbn [fst snd app] in *. cbn [Clients20.sys_exec Clients20.sys_step].
      destruct (sys_exec (serve oc (Run k) w) acts) as [w2 e3]. cbn [fst snd app] in *. auto.
    + destruct (IH F T _ _ own (serve_foreign T w w' own t R NI)) as (T' & acts & Q1 & Q2). exists T', acts. destruct (open_exec (serve oc (Run t) w', own) xs) as [y2 e2]. cbn [fst snd app] in *. auto.
  - cbn [asks flat_map app] in F. inversion F as [|p l F1 F2]; subst. cbn [fst] in F1. destruct (IH F2 T _ _ _ (ask_foreign T w w' own rid q F1 R)) as (T' & acts & Q1 & Q2). exists T', acts. destruct (open_exec (serve oc (Arrive rid q) w', if good_req q then next_task w' :: own else own) xs) as [y2 e2]. cbn [fst snd app] in *. auto.
  - destruct (existsb (Nat.eqb t) own) eqn:E.
    + apply existsb_exists in E. destruct E as (u & U & EU). apply Nat.eqb_eq in EU. subst u. destruct (sr_own _ _ _ _ R t U) as [NI LT]. destruct (IH F T _ _ own (cancel_for T w w' own t R NI LT)) as (T' & acts & Q1 & Q2). exists T', acts. destruct (open_exec (serve oc (Cancel t) w', own) xs) as [y2 e2]. cbn [fst snd app] in *. auto.
    + destruct (IH F T _ _ own R) as (T' & acts & Q1 & Q2). exists T', acts. destruct (open_exec (w', own) xs) as [y2 e2]. cbn [fst snd app] in *. auto.
Qed.
(** The other way: the clients' steps can be made among strangers as well. *)
Lemma lift_exec acts : forall T w w' own, srel T w w' own ->
  exists T' xs, srel T' (fst (sys_exec w acts)) (fst (fst (open_exec (w', own) xs))) own /\ snd (open_exec (w', own) xs) = snd (sys_exec w acts) /\ asks xs = [].
Proof.
  induction acts as [|a acts IH]; intros T w w' own R; [exists T, []; split; [exact R|split; reflexivity]|]. cbn [Clients20.sys_exec].
  assert (CA : forall b T1, srel T1 (fst (sys_step w a)) (fst (sys_step w' b)) own -> snd (sys_step w' b) = snd (sys_step w a) -> exists T' xs, srel T' (fst (let '(w1, e1) := sys_step w a in let '(w2, e2) := sys_exec w1 acts in (w2, e1 ++ e2))) (fst (fst (open_exec (w', own) xs))) own /\
    snd (open_exec (w', own) xs) = snd (let '(w1, e1) := sys_step w a in let '(w2, e2) := sys_exec w1 acts in (w2, e1 ++ e2)) /\ asks xs = []).
  { intros b T1 R1 E1. destruct (IH T1 _ _ own R1) as (T' & xs & Q1 & Q2 & Q3). exists T', (XClient b :: xs). cbn [Clients20Open.open_exec Clients20Open.open_step asks flat_map app]. destruct (sys_step w' b) as [w1' e1']. destruct (sys_step w a) as [w1 e1]. cbn [fst snd] in *.
    destruct (open_exec (w1', own) xs) as [y2 e2]. destruct (sys_exec w1 acts) as [w2 e3]. cbn [fst snd] in *. subst e1' e2. auto. }
  assert (CB : (forall t, a <> CServe t) -> exists b T1, srel T1 (fst (sys_step w a)) (fst (sys_step w' b)) own /\ snd (sys_step w' b) = snd (sys_step w a)) by (intros NS; destruct (step_both T w w' own a R NS) as (T1 & R1 & E1); exists a, T1; auto).
  assert (CC : exists b T1, srel T1 (fst (sys_step w a)) (fst (sys_step w' b)) own /\ snd (sys_step w' b) = snd (sys_step w a)).
  { destruct a as [t|c|c|c|c|c|c|c|c|c]; try (apply CB; discriminate). destruct (sr_db _ _ _ _ R) as [H D]. pose proof (dr_len _ _ _ _ _ D) as L. destruct (Nat.lt_ge_cases t (length T)) as [K|K].
    - exists (CServe (rn T t)), T. split; [exact (serve_own T w w' own t R K)|reflexivity].
    - exists (CServe (next_task w')), T. split; [|reflexivity]. cbn [Clients20.sys_step fst]. unfold serve. cbn [step]. rewrite (run_past t) by lia. rewrite (run_past (next_task w')) by (unfold next_task; lia). rewrite !app_nil_r. destruct w, w'. exact R. }
  destruct CC as (b & T1 & R1 & E1). exact (CA b T1 R1 E1).
Qed.
Lemma enab_rel T w w' own a : srel T w w' own -> sys_enabled wants fin queue w a = true -> exists b, sys_enabled wants fin queue w' b = true.
Proof.
  intros R. assert (VW : forall t, t < length T -> was_joined (rn T t) (sy_tr w') = was_joined t (sy_tr w) /\ was_published (rn T t) (sy_tr w') = was_published t (sy_tr w) /\ was_issued (rn T t) (sy_tr w') = was_issued t (sy_tr w) /\ gots (rn T t) (sy_tr w') = gots t (sy_tr w))
    by (intros t K; rewrite !joined_view, !published_view, !issued_view, !gots_view, (sr_view _ _ _ _ R t K); auto).
  destruct a as [t|c|c|c|c|c|c|c|c|c].
  { cbn [sys_enabled]. destruct (sr_db _ _ _ _ R) as [H D]. destruct (Nat.lt_ge_cases t (length T)) as [K|K]; [|rewrite nth_overflow by (rewrite <- (dr_len _ _ _ _ _ D); exact K); discriminate].
    intros E. exists (CServe (rn T t)). cbn [sys_enabled]. rewrite (dr_task _ _ _ _ _ D t K). pose proof (dr_tok _ _ _ _ _ D t) as OK. destruct (nth t (db_tasks (sy_db w)) TEnd) as [| | | |ref nx sn|]; cbn [tren] in *; try exact E. rewrite (get_same room T H _ _ ref D OK). exact E. }
  all: intros E; match goal with |- exists b, sys_enabled _ _ _ _ b = true => idtac end.
  1: exists (CStart c). 2: exists (CJoined c). 3: exists (CIndexed c). 4: exists (CRead c). 5: exists (CProceed c). 6: exists (CTake c). 7: exists (CPost c). 8: exists (CPosted c). 9: exists (CLeave c).
  all: cbn [sys_enabled] in *; rewrite (client_rel T w w' own c R); destruct (client w c) as [st|] eqn:CL; [|discriminate]; pose proof (client_ok T w w' own c st R CL) as OK; cbn [option_map]; destruct st as [|t|su t|x|x r|]; cbn [stren st_ok] in *; try discriminate; try exact E.
  - rewrite (proj1 (VW t OK)). exact E.
  - rewrite (proj1 (proj2 (proj2 (VW t (proj2 OK))))). exact E.
  - change (cr_sub (xren T x)) with (rn T (cr_sub x)). rewrite (proj2 (proj2 (proj2 (VW _ (proj1 OK))))). exact E.
  - change (cr_out (xren T x)) with (cr_out x). change (cr_post (xren T x)) with (option_map (rn T) (cr_post x)). destruct (cr_out x); [discriminate|]. destruct (cr_post x); [discriminate|reflexivity].
  - change (cr_post (xren T x)) with (option_map (rn T) (cr_post x)). destruct OK as [O1 O2]. destruct (cr_post x) as [t|]; [|discriminate]. cbn [option_map]. rewrite (proj1 (proj2 (VW t (O2 t eq_refl)))). exact E.
  - unfold may_leave in *. cbn [xren cr_st cr_out cr_post]. destruct (cr_post x); exact E.
Qed.
Lemma srel_init n : srel [] (sys_init n) (sys_init n) [].
Proof.
  constructor.
  - exists []. constructor; [reflexivity|reflexivity|constructor|constructor|intros i []|intros r []|intros t K; inversion K|intros [|t]; exact I|intros r K; inversion K|reflexivity|discriminate|intros [|i] _; exact I|discriminate].
  - intros t K. inversion K.
  - reflexivity.
  - reflexivity.
  - cbn [sys_init sy_cl]. induction n as [|n IH]; [reflexivity|]. cbn [repeat map stren]. f_equal. exact IH.
  - apply Forall_forall. intros st X. apply repeat_spec in X. subst st. exact I.
  - intros i [].
Qed.
(** Before the clients come *)
Definition before (a : xact) : Prop := match a with XClient (CServe _) | XAsk _ _ | XGone _ => True | _ => False end.
Lemma before_exec xs : Forall before xs -> Forall (fun p => fst p <> room) (asks xs) -> forall w w' own, srel [] w w' own ->
  srel [] w (fst (fst (open_exec (w', own) xs))) (snd (fst (open_exec (w', own) xs))) /\ snd (open_exec (w', own) xs) = [].
Proof.
  induction 1 as [|a xs BA _ IH]; intros F w w' own R; [split; [exact R|reflexivity]|]. cbn [Clients20Open.open_exec]. destruct a as [b|rid q|t]; cbn [Clients20Open.open_step before] in *.
  - destruct b as [t|c|c|c|c|c|c|c|c|c]; try contradiction. cbn [Clients20.sys_step]. destruct (IH F _ _ own (serve_foreign [] w w' own t R (fun X => X))) as [Q1 Q2]. destruct (open_exec (serve oc (Run t) w', own) xs) as [y2 e2]. cbn [fst snd app] in *. auto.
  - cbn [asks flat_map app] in F. inversion F as [|p l F1 F2]; subst. cbn [fst] in F1. destruct (IH F2 _ _ _ (ask_foreign [] w w' own rid q F1 R)) as [Q1 Q2]. destruct (open_exec (serve oc (Arrive rid q) w', if good_req q then next_task w' :: own else own) xs) as [y2 e2]. cbn [fst snd app] in *. auto.
  - destruct (existsb (Nat.eqb t) own) eqn:E.
    + apply existsb_exists in E. destruct E as (u & U & EU). apply Nat.eqb_eq in EU. subst u. destruct (sr_own _ _ _ _ R t U) as [NI LT]. destruct (IH F _ _ own (cancel_for [] w w' own t R NI LT)) as [Q1 Q2]. destruct (open_exec (serve oc (Cancel t) w', own) xs) as [y2 e2]. cbn [fst snd app] in *. auto.
    + destruct (IH F _ _ own R) as [Q1 Q2]. destruct (open_exec (w', own) xs) as [y2 e2]. cbn [fst snd app] in *. auto.
Qed.
(** The first client comes *)
Lemma first_exec w w' own c : srel [] w w' own -> client w c = Some CIdle -> let k := next_task w' in
  srel [k] (fst (sys_exec w [CStart c; CServe 0; CServe 0; CServe 0])) (fst (fst (open_exec (w', own) (map XClient [CStart c; CServe k; CServe k; CServe k])))) own /\
  snd (fst (open_exec (w', own) (map XClient [CStart c; CServe k; CServe k; CServe k]))) = own /\
  snd (open_exec (w', own) (map XClient [CStart c; CServe k; CServe k; CServe k])) = snd (sys_exec w [CStart c; CServe 0; CServe 0; CServe 0]).
Proof.
  intros R CI k. cbn [map Clients20Open.open_exec Clients20Open.open_step Clients20.sys_exec Clients20.sys_step]. rewrite (client_rel [] w w' own c R), CI. cbn [option_map stren]. unfold ask. cbn [fst snd app]. fold k. split; [|split; reflexivity].
  destruct (ask_own [] w w' own (RSub None) eq_refl R) as [R1 E1]. assert (NW : next_task w = 0) by (destruct (sr_db _ _ _ _ R) as [H D]; unfold next_task; rewrite <- (dr_len _ _ _ _ _ D); reflexivity).
  cbn [app] in R1, E1. fold k in R1, E1. rewrite NW. assert (R2 : srel [k] (set_client c (CSubscribing 0) (serve oc (Arrive room (RSub None)) w)) (set_client c (CSubscribing k) (serve oc (Arrive room (RSub None)) w')) own) by (apply (srel_set [k] _ _ own c (CSubscribing 0) R1); cbn; lia).
  assert (L : 0 < length [k]) by (cbn; lia). pose proof (serve_own [k] _ _ own 0 (serve_own [k] _ _ own 0 (serve_own [k] _ _ own 0 R2 L) L) L) as Q. exact Q.
Qed.
End Sys.

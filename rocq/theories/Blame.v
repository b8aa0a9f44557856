(** Identifiable abort of GG20: src/protocols/multi_party_ecdsa/gg_2020/blame.rs (B). *)
From Coq Require Import ZArith Lia Bool List.
From Verif Require Import ZArithX Fq Curve Outcome Sigma Bytes Paillier RangeProofs Mta Mp.
Import ListNotations.
Local Open Scope Z_scope.

(** A loop whose body may panic. *)
Fixpoint ofold {E A B} (f : A -> B -> outcome E A) (l : list B) (a : A) : outcome E A :=
  match l with [] => Ok a | x :: r => let* a' := f a x in ofold f r a' end.

(** [sort_unstable], [dedup] (removes consecutive repetitions), B:216-217 *)
Fixpoint insert_nat (x : nat) (l : list nat) : list nat :=
  match l with [] => [x] | y :: r => if (x <=? y)%nat then x :: l else y :: insert_nat x r end.
Definition sort_nat (l : list nat) : list nat := fold_right insert_nat [] l.
Fixpoint dedup_nat (l : list nat) : list nat :=
  match l with
  | [] => []
  | x :: l' => match l' with [] => [x] | y :: _ => if (x =? y)%nat then dedup_nat l' else x :: dedup_nat l' end
  end.

(** [let ind2 = if j < i { i - 1 } else { i }], B:85, 95, 193, 387 *)
Definition ind2 (i j : nat) : nat := if (j <? i)%nat then (i - 1)%nat else i.

(** [Paillier::open] of kzen-paillier: the plaintext and the n-th root of the ciphertext modulo n, with the exponent
    n^-1 mod (p-1)(q-1) (the crate works modulo p and q separately). *)
Definition popen (p1 p2 c : Z) : Z * Z :=
  let N := p1 * p2 in
  let d := match mod_inv N ((p1 - 1) * (p2 - 1)) with Some x => x | None => 0 end in
  (dec p1 p2 c, powm (c mod N) d N).

Section Blame.
Context (C : Curve).
Notation q := (cq C).
Notation F := (Fq q).
Notation res := (outcome mp_error).
Context (Hz : hashZ C) (Hf : hashF C).

(** LocalStatePhase5, B:33-41 (the encryption key field is not used) *)
Record local5 := { l5_k : F; l5_kr : Z; l5_g : F; l5_br : list Z; l5_bt : list Z }.
(** GlobalStatePhase5, B:43-57 *)
Record global5 := { g5_k : list F; g5_kr : list Z; g5_g : list F; g5_br : list (list Z); g5_bt : list (list Z); g5_N : list Z;
                    g5_d : list F; g5_gg : list (pt C); g5_ma : list msg_a; g5_mb : list (list (msg_b C)) }.
(** The transposition of B:80-99: entry (i, j) is what the j-th other party opened for its exchange with i. *)
Definition transpose {A} (f : local5 -> list A) (ls : list local5) : res (list (list A)) :=
  omapM (fun i => omapM (fun j => let* l := nth_o ls (ind i j) in nth_o (f l) (ind2 i j)) (seq 0 (length ls - 1))) (seq 0 (length ls)).
(** local_state_to_global_state, B:61-114 *)
Definition to_global5 (Ns : list Z) (ds : list F) (ggs : list (pt C)) (mas : list msg_a) (mbs : list (list (msg_b C))) (ls : list local5) : res global5 :=
  let* br := transpose l5_br ls in
  let* bt := transpose l5_bt ls in
  Ok {| g5_k := map l5_k ls; g5_kr := map l5_kr ls; g5_g := map l5_g ls; g5_br := br; g5_bt := bt; g5_N := Ns;
        g5_d := ds; g5_gg := ggs; g5_ma := mas; g5_mb := mbs |}.

(** The check of the revealed points, B:121-125 *)
Definition blame5_gamma (st : global5) (bad : list nat) (i : nat) : res (list nat) :=
  let* P := nth_o (g5_gg st) i in
  let* g := nth_o (g5_g st) i in
  Ok (if pt_eqb P (smul g gen) then bad else bad ++ [i]).
(** One answer of a row, B:142-164: the new bad list and (alpha, beta). *)
Definition blame5_cell (st : global5) (i : nat) (m_a : msg_a) (acc : list nat * list (F * F)) (j : nat) : res (list nat * list (F * F)) :=
  let '(bad, row) := acc in
  let id := ind i j in
  let* g := nth_o (g5_g st) id in
  let* N := nth_o (g5_N st) i in
  let* brow := nth_o (g5_br st) i in
  let* r := nth_o brow j in
  let* trow := nth_o (g5_bt st) i in
  let* bt := nth_o trow j in
  let* mb := match mta_b Hz Hf g N m_a r bt [] f0 f0 with Ok x => Ok x | _ => Panic end in
  let* mrow := nth_o (g5_mb st) i in
  let* sent := nth_o mrow j in
  let bad' := if mb_c (fst mb) =? mb_c sent then bad else bad ++ [id] in
  let* k := nth_o (g5_k st) i in
  let beta := snd mb in
  Ok (bad', row ++ [((k * g - beta)%Fq, beta)]).
(** A row of the matrix, B:127-170: the own first message is checked always, the answers only while nobody is bad. *)
Definition blame5_row (st : global5) (len : nat) (acc : list nat * list (list (F * F))) (i : nat) : res (list nat * list (list (F * F))) :=
  let '(bad, mat) := acc in
  let* k := nth_o (g5_k st) i in
  let* N := nth_o (g5_N st) i in
  let* kr := nth_o (g5_kr st) i in
  let m_a := mta_a Hz k N kr [] in
  let* sent := nth_o (g5_ma st) i in
  let bad := if ma_c m_a =? ma_c sent then bad else bad ++ [i] in
  match bad with
  | [] => let* r := ofold (blame5_cell st i m_a) (seq 0 (len - 1)) (bad, []) in Ok (fst r, mat ++ [snd r])
  | _ => Ok (bad, mat ++ [[]])
  end.
(** The reconstruction of delta_i, B:184-203 *)
Definition blame5_delta (st : global5) (len : nat) (mat : list (list (F * F))) (i : nat) : res F :=
  let* k := nth_o (g5_k st) i in
  let* g := nth_o (g5_g st) i in
  let* row := nth_o mat i in
  let alpha_sum := fold_left (fun acc x => (acc + fst x)%Fq) row f0 in
  let* betas := omapM (fun j => let* r := nth_o mat (ind i j) in let* x := nth_o r (ind2 i j) in Ok (snd x)) (seq 0 (len - 1)) in
  let beta_sum := fold_left fadd betas f0 in
  Ok (k * g + alpha_sum + beta_sum)%Fq.
(** phase5_blame, B:116-224; it returns an error in every case, named "phase6_blame". *)
Definition phase5_blame (st : global5) : res unit :=
  let len := length (g5_d st) in
  let* bad := ofold (blame5_gamma st) (seq 0 len) [] in
  let* bm := ofold (blame5_row st len) (seq 0 len) (bad, []) in
  let '(bad, mat) := bm in
  let* bad := match bad with
    | [] =>
        let* ds := omapM (blame5_delta st len mat) (seq 0 len) in
        ofold (fun bad i => let* d := nth_o (g5_d st) i in let* d' := nth_o ds i in Ok (if feqb d d' then bad else bad ++ [i])) (seq 0 len) bad
    | _ => Ok bad
    end in
  Err {| me_kind := EPhase6Blame; me_bad := dedup_nat (sort_nat bad) |}.

(** LocalStatePhase6, B:227-234; GlobalStatePhase6, B:236-249 *)
Record local6 := { l6_k : F; l6_kr : Z; l6_miu : list Z; l6_mr : list Z; l6_proof : ddh_proof C }.
Record global6 := { g6_k : list F; g6_kr : list Z; g6_miu : list (list Z); g6_mr : list (list Z); g6_gw : list (pt C); g6_N : list Z;
                    g6_proof : list (ddh_proof C); g6_S : list (pt C); g6_ma : list msg_a; g6_mb : list (list (msg_b C)) }.
(** extract_paillier_randomness, B:252-256: [Paillier::open] returns the plaintext and the randomness. *)
Definition extract_randomness (p1 p2 c : Z) : Z := snd (popen p1 p2 c).
(** ecddh_proof, B:258-271; [t] is the nonce of the proof. *)
Definition blame6_proof (sigma : F) (R Si : pt C) (t : F) : ddh_proof C :=
  ddh_prove Hf sigma t {| dd_g1 := gen; dd_h1 := smul sigma gen; dd_g2 := R; dd_h2 := Si |}.
(** local_state_to_global_state, B:275-320 *)
Definition to_global6 (Ns : list Z) (Ss gws : list (pt C)) (mas : list msg_a) (mbs : list (list (msg_b C))) (ls : list local6) : res global6 :=
  let len := length ls in
  let* mr := omapM (fun l => omapM (fun j => nth_o (l6_mr l) j) (seq 0 (len - 1))) ls in
  let* miu := omapM (fun l => omapM (fun j => nth_o (l6_miu l) j) (seq 0 (len - 1))) ls in
  Ok {| g6_k := map l6_k ls; g6_kr := map l6_kr ls; g6_miu := miu; g6_mr := mr; g6_gw := gws; g6_N := Ns;
        g6_proof := map l6_proof ls; g6_S := Ss; g6_ma := mas; g6_mb := mbs |}.

(** The two opening checks, B:327-354 *)
Definition blame6_miu (st : global6) (i : nat) (bad : list nat) (j : nat) : res (list nat) :=
  let* N := nth_o (g6_N st) i in
  let* mrow := nth_o (g6_miu st) i in
  let* miu := nth_o mrow j in
  let* rrow := nth_o (g6_mr st) i in
  let* r := nth_o rrow j in
  let* brow := nth_o (g6_mb st) i in
  let* mb := nth_o brow j in
  Ok (if enc N miu r =? mb_c mb then bad else bad ++ [i]).
Definition blame6_k (st : global6) (bad : list nat) (i : nat) : res (list nat) :=
  let* k := nth_o (g6_k st) i in
  let* N := nth_o (g6_N st) i in
  let* kr := nth_o (g6_kr st) i in
  let* ma := nth_o (g6_ma st) i in
  Ok (if ma_c (mta_a Hz k N kr []) =? ma_c ma then bad else bad ++ [i]).
(** g_ni_mat, B:361-377 *)
Definition blame6_ni (st : global6) (i j : nat) : res (pt C) :=
  let* k := nth_o (g6_k st) i in
  let* gw := nth_o (g6_gw st) (ind i j) in
  let* mrow := nth_o (g6_miu st) i in
  let* miu := nth_o mrow j in
  Ok (psub (smul k gw) (smul (of_Z q miu) gen)).
(** g_sigma_i, B:381-399 *)
Definition blame6_sigma (st : global6) (len : nat) (ni : list (list (pt C))) (i : nat) : res (pt C) :=
  let* gw := nth_o (g6_gw st) i in
  let* k := nth_o (g6_k st) i in
  let* mrow := nth_o (g6_miu st) i in
  let g0 := fold_left (fun acc x => padd acc (smul (of_Z q x) gen)) mrow (smul k gw) in
  ofold (fun g j => let* row := nth_o ni (ind i j) in let* x := nth_o row (ind2 i j) in Ok (padd g x)) (seq 0 (len - 1)) g0.
(** The proof check, B:401-416 *)
Definition blame6_verify (st : global6) (R : pt C) (sig : list (pt C)) (bad : list nat) (i : nat) : res (list nat) :=
  let* h1 := nth_o sig i in
  let* Si := nth_o (g6_S st) i in
  let* p := nth_o (g6_proof st) i in
  Ok (if ddh_verify Hf p {| dd_g1 := gen; dd_h1 := h1; dd_g2 := R; dd_h2 := Si |} then bad else bad ++ [i]).
(** phase6_blame, B:322-420 *)
Definition phase6_blame (st : global6) (R : pt C) : res unit :=
  let len := length (g6_k st) in
  let* bad := ofold (fun bad i => ofold (blame6_miu st i) (seq 0 (len - 1)) bad) (seq 0 len) [] in
  let* bad := ofold (blame6_k st) (seq 0 len) bad in
  let* bad := match bad with
    | [] =>
        let* ni := omapM (fun i => omapM (blame6_ni st i) (seq 0 (len - 1))) (seq 0 len) in
        let* sig := omapM (blame6_sigma st len ni) (seq 0 len) in
        ofold (blame6_verify st R sig) (seq 0 len) bad
    | _ => Ok bad
    end in
  Err {| me_kind := EPhase6Blame; me_bad := dedup_nat (sort_nat bad) |}.

(** GlobalStatePhase7 and phase7_blame, B:423-454 *)
Record global7 := { g7_s : list F; g7_r : F; g7_Rd : list (pt C); g7_m : Z; g7_R : pt C; g7_S : list (pt C) }.
Definition blame7_one (st : global7) (bad : list nat) (i : nat) : res (list nat) :=
  let* s := nth_o (g7_s st) i in
  let* Rd := nth_o (g7_Rd st) i in
  let* Si := nth_o (g7_S st) i in
  let left := smul s (g7_R st) in
  let right := padd (smul (of_Z q (g7_m st)) Rd) (smul (g7_r st) Si) in
  Ok (if pt_eqb left right then bad else bad ++ [i]).
Definition phase7_blame (st : global7) : res unit :=
  let* bad := ofold (blame7_one st) (seq 0 (length (g7_s st))) [] in
  Err {| me_kind := EPhase7Blame; me_bad := bad |}.
End Blame.

Arguments l5_k {_}. Arguments l5_kr {_}. Arguments l5_g {_}. Arguments l5_br {_}. Arguments l5_bt {_}.
Arguments g5_k {_}. Arguments g5_kr {_}. Arguments g5_g {_}. Arguments g5_br {_}. Arguments g5_bt {_}. Arguments g5_N {_}.
Arguments g5_d {_}. Arguments g5_gg {_}. Arguments g5_ma {_}. Arguments g5_mb {_}.
Arguments l6_k {_}. Arguments l6_kr {_}. Arguments l6_miu {_}. Arguments l6_mr {_}. Arguments l6_proof {_}.
Arguments g6_k {_}. Arguments g6_kr {_}. Arguments g6_miu {_}. Arguments g6_mr {_}. Arguments g6_gw {_}. Arguments g6_N {_}.
Arguments g6_proof {_}. Arguments g6_S {_}. Arguments g6_ma {_}. Arguments g6_mb {_}.
Arguments g7_s {_}. Arguments g7_r {_}. Arguments g7_Rd {_}. Arguments g7_m {_}. Arguments g7_R {_}. Arguments g7_S {_}.
Arguments transpose {_ _}. Arguments to_global5 {_}. Arguments to_global6 {_}. Arguments phase5_blame {_}. Arguments phase6_blame {_}.
Arguments phase7_blame {_}. Arguments blame6_proof {_}. Arguments blame5_gamma {_}. Arguments blame5_cell {_}. Arguments blame5_row {_}.
Arguments blame5_delta {_}. Arguments blame6_miu {_}. Arguments blame6_k {_}. Arguments blame6_ni {_}. Arguments blame6_sigma {_}.
Arguments blame6_verify {_}. Arguments blame7_one {_}.

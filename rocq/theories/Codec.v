(** A serialisation of the messages of both state machines over the toy group, with its inverse: it stands for serde_json in the
    concrete executions of PropClients20.v (the theorems there are about every pair of functions with [par (ser m) = Some m]). *)
From Coq Require Import String Ascii ZArith Bool Lia List.
From Verif Require Import ZArithX Fq Curve Toy Outcome Sigma Bytes Vss Paillier RangeProofs Pdl PdlSlack Mta Ecdsa Mp Gg20Keygen Gg20Sign Stores RoundSM KeygenSM SignSM.
Import ListNotations.
Local Open Scope nat_scope.

Record codec (A : Type) := { enc_of : A -> list Z; dec_of : list Z -> option (A * list Z); dec_enc : forall a l, dec_of (enc_of a ++ l) = Some (a, l) }.
Arguments enc_of {_}. Arguments dec_of {_}. Arguments dec_enc {_}.
Definition cZ : codec Z.
Proof. refine {| enc_of := fun z => [z]; dec_of := fun l => match l with z :: r => Some (z, r) | [] => None end |}. reflexivity. Defined.
Definition cmap {A B} (c : codec A) (f : B -> A) (g : A -> B) (H : forall b, g (f b) = b) : codec B.
Proof.
  refine {| enc_of := fun b => enc_of c (f b); dec_of := fun l => match dec_of c l with Some (a, r) => Some (g a, r) | None => None end |}.
  intros b l. rewrite dec_enc, H. reflexivity.
Defined.
Definition cpair {A B} (ca : codec A) (cb : codec B) : codec (A * B).
Proof.
  refine {| enc_of := fun x => enc_of ca (fst x) ++ enc_of cb (snd x);
            dec_of := fun l => match dec_of ca l with Some (a, r) => match dec_of cb r with Some (b, r') => Some ((a, b), r') | None => None end | None => None end |}.
  intros [a b] l. cbn [fst snd]. rewrite <- app_assoc, dec_enc, dec_enc. reflexivity.
Defined.
Definition csum {A B} (ca : codec A) (cb : codec B) : codec (A + B).
Proof.
  refine {| enc_of := fun x => match x with inl a => 0%Z :: enc_of ca a | inr b => 1%Z :: enc_of cb b end;
            dec_of := fun l => match l with
              | 0%Z :: r => match dec_of ca r with Some (a, r') => Some (inl a, r') | None => None end
              | _ :: r => match dec_of cb r with Some (b, r') => Some (inr b, r') | None => None end
              | [] => None end |}.
  intros [a|b] l; cbn [app]; rewrite dec_enc; reflexivity.
Defined.
Definition cnat : codec nat := cmap cZ Z.of_nat Z.to_nat Nat2Z.id.
Section Lists.
Context {A : Type} (c : codec A).
Fixpoint dec_n (n : nat) (l : list Z) : option (list A * list Z) :=
  match n with
  | 0 => Some ([], l)
  | S n => match dec_of c l with Some (a, r) => match dec_n n r with Some (v, r') => Some (a :: v, r') | None => None end | None => None end
  end.
Lemma dec_n_enc v l : dec_n (length v) (flat_map (enc_of c) v ++ l) = Some (v, l).
Proof. induction v as [|a v IH]; [reflexivity|]. cbn [length dec_n flat_map]. rewrite <- app_assoc, dec_enc, IH. reflexivity. Qed.
Definition clist : codec (list A).
Proof.
  refine {| enc_of := fun v => Z.of_nat (length v) :: flat_map (enc_of c) v; dec_of := fun l => match l with k :: r => dec_n (Z.to_nat k) r | [] => None end |}.
  intros v l. cbn [app]. rewrite Nat2Z.id. apply dec_n_enc.
Defined.
End Lists.
Definition copt {A} (c : codec A) : codec (option A).
Proof.
  refine (cmap (csum c cZ) (fun o => match o with Some a => inl a | None => inr 0%Z end) (fun x => match x with inl a => Some a | inr _ => None end) _).
  intros [a|]; reflexivity.
Defined.
Definition cF : codec TF := cmap cZ to_Z (of_Z 31) (fun a => of_Z_to_Z a).
Definition cP : codec (pt toy) := cF.

(** ** Messages *)
Definition cdl : codec dlstmt.
Proof. refine (cmap (cpair cZ (cpair cZ cZ)) (fun d => (dl_N d, (dl_h1 d, dl_h2 d))) (fun '(a, (b, c)) => {| dl_N := a; dl_h1 := b; dl_h2 := c |}) _). intros []; reflexivity. Defined.
Definition cbc1 : codec kg_bc1.
Proof.
  refine (cmap (cpair cZ (cpair cdl (cpair cZ (cpair cZ (cpair cZ cZ))))) (fun b => (kb_N b, (kb_dl b, (kb_com b, (kb_ck b, (kb_cd1 b, kb_cd2 b))))))
    (fun '(a, (b, (c, (d, (e, f))))) => {| kb_N := a; kb_dl := b; kb_com := c; kb_ck := d; kb_cd1 := e; kb_cd2 := f |}) _). intros []; reflexivity.
Defined.
Definition cdec1 : codec (kg_dec1 toy).
Proof. refine (cmap (cpair cZ cP) (fun d => (kd_blind d, kd_y d)) (fun '(a, b) => {| kd_blind := a; kd_y := b |}) _). intros []; reflexivity. Defined.
Definition cvss : codec (vss toy).
Proof. refine (cmap (cpair cnat (cpair cnat (clist cP))) (fun v => (vs_t v, (vs_n v, vs_com v))) (fun '(a, (b, c)) => {| vs_t := a; vs_n := b; vs_com := c |}) _). intros []; reflexivity. Defined.
Definition cdlog : codec (dlog_proof toy).
Proof. refine (cmap (cpair cP (cpair cP cF)) (fun p => (dp_pk p, (dp_t p, dp_z p))) (fun '(a, (b, c)) => {| dp_pk := a; dp_t := b; dp_z := c |}) _). intros []; reflexivity. Defined.
Definition ckg : codec (kg_msg toy).
Proof.
  refine (cmap (csum cbc1 (csum cdec1 (csum (cpair cvss cF) cdlog)))
    (fun m => match m with KM1 b => inl b | KM2 d => inr (inl d) | KM3 x => inr (inr (inl x)) | KM4 p => inr (inr (inr p)) end)
    (fun x => match x with inl b => KM1 b | inr (inl d) => KM2 d | inr (inr (inl x)) => KM3 x | inr (inr (inr p)) => KM4 p end) _). intros []; reflexivity.
Defined.
Definition cmsg {A} (c : codec A) : codec (msg A).
Proof. refine (cmap (cpair cnat (cpair (copt cnat) c)) (fun m => (m_from m, (m_to m, m_body m))) (fun '(a, (b, d)) => {| m_from := a; m_to := b; m_body := d |}) _). intros []; reflexivity. Defined.
Definition calice : codec alice_proof.
Proof.
  refine (cmap (cpair cZ (cpair cZ (cpair cZ (cpair cZ cZ)))) (fun p => (ap_z p, (ap_e p, (ap_s p, (ap_s1 p, ap_s2 p)))))
    (fun '(a, (b, (c, (d, e)))) => {| ap_z := a; ap_e := b; ap_s := c; ap_s1 := d; ap_s2 := e |}) _). intros []; reflexivity.
Defined.
Definition cma : codec msg_a.
Proof. refine (cmap (cpair cZ (clist calice)) (fun m => (ma_c m, ma_proofs m)) (fun '(a, b) => {| ma_c := a; ma_proofs := b |}) _). intros []; reflexivity. Defined.
Definition cmb : codec (msg_b toy).
Proof. refine (cmap (cpair cZ (cpair cdlog cdlog)) (fun m => (mb_c m, (mb_b m, mb_bt m))) (fun '(a, (b, c)) => {| mb_c := a; mb_b := b; mb_bt := c |}) _). intros []; reflexivity. Defined.
Definition cped : codec (ped_proof toy).
Proof.
  refine (cmap (cpair cP (cpair cP (cpair cP (cpair cF cF)))) (fun p => (pe_a1 p, (pe_a2 p, (pe_com p, (pe_z1 p, pe_z2 p)))))
    (fun '(a, (b, (c, (d, e)))) => {| pe_a1 := a; pe_a2 := b; pe_com := c; pe_z1 := d; pe_z2 := e |}) _). intros []; reflexivity.
Defined.
Definition csd : codec (sign_dec toy).
Proof. refine (cmap (cpair cZ cP) (fun d => (sd_blind d, sd_g d)) (fun '(a, b) => {| sd_blind := a; sd_g := b |}) _). intros []; reflexivity. Defined.
Definition cpdl : codec (pdls_proof toy).
Proof.
  refine (cmap (cpair cZ (cpair cP (cpair cZ (cpair cZ (cpair cZ (cpair cZ cZ)))))) (fun p => (pp_z p, (pp_u1 p, (pp_u2 p, (pp_u3 p, (pp_s1 p, (pp_s2 p, pp_s3 p)))))))
    (fun '(a, (b, (c, (d, (e, (f, g)))))) => {| pp_z := a; pp_u1 := b; pp_u2 := c; pp_u3 := d; pp_s1 := e; pp_s2 := f; pp_s3 := g |}) _). intros []; reflexivity.
Defined.
Definition cheg : codec (heg_proof toy).
Proof.
  refine (cmap (cpair cP (cpair cP (cpair cF cF))) (fun p => (he_T p, (he_A3 p, (he_z1 p, he_z2 p)))) (fun '(a, (b, (c, d))) => {| he_T := a; he_A3 := b; he_z1 := c; he_z2 := d |}) _). intros []; reflexivity.
Defined.
Definition csg : codec (sg_msg toy).
Proof.
  refine (cmap (csum (cpair cma cZ) (csum (cpair cmb cmb) (csum (cpair (cpair cF cP) cped) (csum csd (csum (cpair cP (clist cpdl)) (cpair cP cheg))))))
    (fun m => match m with SM1 b => inl b | SM2 d => inr (inl d) | SM3 x => inr (inr (inl x)) | SM4 p => inr (inr (inr (inl p))) | SM5 p => inr (inr (inr (inr (inl p)))) | SM6 p => inr (inr (inr (inr (inr p)))) end)
    (fun x => match x with inl b => @SM1 toy b | inr (inl d) => @SM2 toy d | inr (inr (inl x)) => @SM3 toy x | inr (inr (inr (inl p))) => @SM4 toy p | inr (inr (inr (inr (inl p)))) => @SM5 toy p | inr (inr (inr (inr (inr p)))) => @SM6 toy p end) _).
  intros []; reflexivity.
Defined.

(** ** Strings *)
Fixpoint pos_str (p : positive) (s : string) : string :=
  match p with xO p => String "0" (pos_str p s) | xI p => String "1" (pos_str p s) | xH => String ";" s end.
Fixpoint str_pos (s : string) : option (positive * string) :=
  match s with
  | String a r => if Ascii.eqb a "0" then match str_pos r with Some (p, t) => Some (xO p, t) | None => None end
                  else if Ascii.eqb a "1" then match str_pos r with Some (p, t) => Some (xI p, t) | None => None end
                  else Some (xH, r)
  | EmptyString => None
  end.
Lemma str_pos_str p s : str_pos (pos_str p s) = Some (p, s).
Proof. induction p as [p IH|p IH|]; cbn [pos_str str_pos Ascii.eqb Bool.eqb]; [rewrite IH; reflexivity|rewrite IH; reflexivity|reflexivity]. Qed.
Definition z_str (z : Z) (s : string) : string := match z with Z0 => String "z" s | Zpos p => String "+" (pos_str p s) | Zneg p => String "-" (pos_str p s) end.
Definition str_z (s : string) : option (Z * string) :=
  match s with
  | String a r => if Ascii.eqb a "z" then Some (0%Z, r) else match str_pos r with Some (p, t) => Some (if Ascii.eqb a "+" then Zpos p else Zneg p, t) | None => None end
  | EmptyString => None
  end.
Lemma str_z_str z s : str_z (z_str z s) = Some (z, s).
Proof. destruct z; [reflexivity| |]; cbn [z_str str_z Ascii.eqb Bool.eqb]; rewrite str_pos_str; reflexivity. Qed.
Fixpoint zs_str (l : list Z) : string := match l with [] => EmptyString | z :: r => z_str z (zs_str r) end.
Fixpoint str_zs (k : nat) (s : string) : option (list Z) :=
  match s with
  | EmptyString => Some []
  | _ => match k with 0 => None | S k => match str_z s with Some (z, r) => match str_zs k r with Some l => Some (z :: l) | None => None end | None => None end end
  end.
Lemma str_zs_str l k : length l <= k -> str_zs k (zs_str l) = Some l.
Proof.
  revert k. induction l as [|z l IH]; intros k L; [destruct k; reflexivity|]. destruct k as [|k]; [cbn in L; lia|]. cbn [zs_str str_zs].
  assert (N : exists a r, z_str z (zs_str l) = String a r) by (destruct z; cbn [z_str]; eauto). destruct N as (a & r & N). rewrite N, <- N, str_z_str, IH by (cbn in L; lia). reflexivity.
Qed.
Definition to_string {A} (c : codec A) (a : A) : string := zs_str (enc_of c a).
Definition of_string {A} (c : codec A) (s : string) : option A :=
  match str_zs (String.length s) s with Some l => match dec_of c l with Some (a, []) => Some a | _ => None end | None => None end.
Lemma pos_str_len p s : String.length s < String.length (pos_str p s).
Proof. induction p as [p IH|p IH|]; cbn [pos_str String.length]; lia. Qed.
Lemma zs_str_len l : length l <= String.length (zs_str l).
Proof. induction l as [|z l IH]; [cbn; lia|]. cbn [length zs_str]. destruct z as [|p|p]; cbn [z_str String.length]; [lia| |]; pose proof (pos_str_len p (zs_str l)); lia. Qed.
Lemma of_to_string {A} (c : codec A) a : of_string c (to_string c a) = Some a.
Proof.
  unfold of_string, to_string. rewrite str_zs_str by apply zs_str_len. pose proof (dec_enc c a []) as D. rewrite app_nil_r in D. rewrite D. reflexivity.
Qed.
Definition kg_ser : msg (kg_msg toy) -> string := to_string (cmsg ckg).
Definition kg_par : string -> option (msg (kg_msg toy)) := of_string (cmsg ckg).
Definition sg_ser : msg (sg_msg toy) -> string := to_string (cmsg csg).
Definition sg_par : string -> option (msg (sg_msg toy)) := of_string (cmsg csg).

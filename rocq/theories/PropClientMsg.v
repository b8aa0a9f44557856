(** C99: messages on the command line. *)
From Coq Require Import String Ascii ZArith Bool Lia Field List.
From Verif Require Import ZArithX Fq Curve Toy Outcome Sigma Bytes Vss Ecdsa EcdsaProofs Mp Mta Gg20Sign Gg18Sign Manager18 Clients18 Clients18Prog Clients18KgProofs Clients18Ends PropClients18Any ClientMsg.
Import ListNotations.
Local Open Scope Z_scope.

Lemma byte_range a : 0 <= byte a < 256.
Proof. unfold byte. pose proof (N_ascii_bounded a). lia. Qed.
Lemma byte_inj a b : byte a = byte b -> a = b.
Proof. unfold byte. intros E. apply N2Z.inj in E. rewrite <- (ascii_N_embedding a), <- (ascii_N_embedding b), E. reflexivity. Qed.
Lemma bytes_of_inj s s' : bytes_of s = bytes_of s' -> s = s'.
Proof.
  unfold bytes_of. intros E. rewrite <- (string_of_list_ascii_of_string s), <- (string_of_list_ascii_of_string s'). f_equal. revert E. generalize (list_ascii_of_string s'). induction (list_ascii_of_string s) as [|a l IH]; intros [|b l'] E; try discriminate; [reflexivity|].
  cbn [map] in E. injection E as E1 E2. f_equal; [apply byte_inj, E1|apply IH, E2].
Qed.
Lemma bytes_of_range s : Forall (fun b => 0 <= b < 256) (bytes_of s).
Proof. unfold bytes_of. induction (list_ascii_of_string s); constructor; [apply byte_range|assumption]. Qed.
Lemma hex_val_range a x : hex_val a = Some x -> 0 <= x < 16.
Proof.
  unfold hex_val. destruct ((48 <=? byte a) && _) eqn:A; [|destruct ((97 <=? byte a) && _) eqn:B; [|destruct ((65 <=? byte a) && _) eqn:D; [|discriminate]]];
    intros E; injection E as <-; apply andb_true_iff in A || apply andb_true_iff in B || apply andb_true_iff in D; rewrite ?Z.leb_le in *; try (apply andb_true_iff in B; rewrite !Z.leb_le in B); try (apply andb_true_iff in D; rewrite !Z.leb_le in D); lia.
Qed.
Lemma pair_ind (P : string -> Prop) : P ""%string -> (forall a, P (String a "")) -> (forall a b r, P r -> P (String a (String b r))) -> forall s, P s.
Proof. intros H0 H1 H2. fix F 1. intros [|a [|b r]]; [exact H0|apply H1|apply H2, F]. Qed.
Lemma hex_decode_range s : forall l, hex_decode s = Some l -> Forall (fun b => 0 <= b < 256) l.
Proof.
  induction s as [|a|a b r IH] using pair_ind; intros l E; cbn [hex_decode] in E; [injection E as <-; constructor|discriminate|].
  destruct (hex_val a) as [x|] eqn:A; [|discriminate]. destruct (hex_val b) as [y|] eqn:B; [|discriminate]. destruct (hex_decode r) as [l'|]; [|discriminate]. assert (L : l = 16 * x + y :: l') by congruence. subst l.
  apply hex_val_range in A. apply hex_val_range in B. constructor; [cbn beta; clear - A B; lia|apply IH; reflexivity].
Qed.
Lemma msg18_bytes_range s : Forall (fun b => 0 <= b < 256) (msg18_bytes s).
Proof. unfold msg18_bytes. destruct (hex_decode s) as [l|] eqn:E; [apply (hex_decode_range s l E)|apply bytes_of_range]. Qed.

(** Equal values: the digits are equal up to zeros at the high end. *)
Lemma value_zeros l k : value_le (l ++ repeat 0 k) = value_le l.
Proof. induction l as [|d l IH]; cbn [app value_le]; [induction k; cbn [repeat value_le]; lia|]. rewrite IH. reflexivity. Qed.
Lemma value_eq l : forall l', Forall (fun b => 0 <= b < 256) l -> Forall (fun b => 0 <= b < 256) l' -> value_le l = value_le l' -> exists a b, l ++ repeat 0 a = l' ++ repeat 0 b.
Proof.
  assert (Z0 : forall l', Forall (fun b => 0 <= b < 256) l' -> value_le l' = 0 -> l' = repeat 0 (length l')).
  { induction l' as [|d l' IH]; intros F E; [reflexivity|]. inversion F as [|? ? B F']; subst. cbn [value_le length repeat] in *. assert (P : 0 <= value_le l').
    { clear - F'. induction F'; cbn [value_le]; lia. }
    assert (d = 0) by lia. subst d. f_equal. apply IH; [exact F'|lia]. }
  induction l as [|d l IH]; intros l' F F' E.
  - cbn in E. symmetry in E. exists (length l'), 0%nat. rewrite app_nil_r. cbn [app]. symmetry. apply Z0; assumption.
  - destruct l' as [|d' l']; [exists 0%nat, (length (d :: l)); rewrite app_nil_r; cbn [app]; apply Z0; assumption|].
    inversion F as [|? ? B G]; subst. inversion F' as [|? ? B' G']; subst. cbn [value_le] in E.
    assert (D : d = d') by (apply (f_equal (fun z => z mod 256)) in E; rewrite !(Z.mul_comm 256), !Z.mod_add, !Z.mod_small in E by lia; exact E). subst d'.
    destruct (IH l') as (a & b & Q); [exact G|exact G'|lia|]. exists a, b. cbn [app]. f_equal. exact Q.
Qed.
Lemma rev_repeat' {A} (x : A) k : rev (repeat x k) = repeat x k.
Proof. induction k as [|k IH]; [reflexivity|]. cbn [repeat rev]. rewrite IH. clear IH. induction k as [|k IH]; [reflexivity|]. cbn [repeat app]. rewrite IH. reflexivity. Qed.
Lemma from_bytes_eq l l' : Forall (fun b => 0 <= b < 256) l -> Forall (fun b => 0 <= b < 256) l' ->
  (from_bytes l = from_bytes l' <-> exists a b, repeat 0 a ++ l = repeat 0 b ++ l').
Proof.
  intros F F'. unfold from_bytes. split.
  - intros E. destruct (value_eq (rev l) (rev l')) as (a & b & Q); [apply Forall_rev, F|apply Forall_rev, F'|exact E|]. exists a, b. apply (f_equal (@rev Z)) in Q.
    rewrite !rev_app_distr, !rev_involutive, !rev_repeat' in Q. exact Q.
  - intros (a & b & Q). apply (f_equal (@rev Z)) in Q. rewrite !rev_app_distr, !rev_repeat' in Q. rewrite <- (value_zeros (rev l) a), <- (value_zeros (rev l') b), Q. reflexivity.
Qed.

(** * C99 *)
(** GG18: two command lines are signed as the same number exactly when the bytes read from them are equal up to zero bytes in
    front. *)
Theorem C99_gg18_same_number_iff : forall s s', msg18 s = msg18 s' <-> exists a b, repeat 0 a ++ msg18_bytes s = repeat 0 b ++ msg18_bytes s'.
Proof. intros s s'. apply from_bytes_eq; apply msg18_bytes_range. Qed.
Print Assumptions C99_gg18_same_number_iff.

(** The usual writing of bytes in hexadecimal *)
Definition hex_char (d : Z) : ascii := ascii_of_N (Z.to_N (if d <? 10 then d + 48 else d + 87)).
Fixpoint hex_of (s : string) : string :=
  match s with EmptyString => EmptyString | String a r => String (hex_char (byte a / 16)) (String (hex_char (byte a mod 16)) (hex_of r)) end.
Lemma hex_char_val d : 0 <= d < 16 -> hex_val (hex_char d) = Some d.
Proof.
  intros H. unfold hex_char, hex_val, byte. rewrite N_ascii_embedding by (destruct (d <? 10); lia). rewrite Z2N.id by (destruct (d <? 10); lia).
  destruct (Z.ltb_spec d 10).
  - replace (48 <=? d + 48) with true by (symmetry; apply Z.leb_le; lia). replace (d + 48 <=? 57) with true by (symmetry; apply Z.leb_le; lia). cbn [andb]. f_equal. lia.
  - replace (d + 87 <=? 57) with false by (symmetry; apply Z.leb_gt; lia). rewrite andb_false_r.
    replace (97 <=? d + 87) with true by (symmetry; apply Z.leb_le; lia). replace (d + 87 <=? 102) with true by (symmetry; apply Z.leb_le; lia). cbn [andb]. f_equal. lia.
Qed.
Lemma hex_of_decode s : hex_decode (hex_of s) = Some (bytes_of s).
Proof.
  induction s as [|a s IH]; [reflexivity|]. cbn [hex_of hex_decode]. pose proof (byte_range a) as B.
  rewrite !hex_char_val, IH by (split; [apply Z.div_pos; lia|apply Z.div_lt_upper_bound; lia] || (apply Z.mod_pos_bound; lia)).
  unfold bytes_of. cbn [list_ascii_of_string map]. f_equal. f_equal. symmetry. apply Z.div_mod. lia.
Qed.
(** The claim is false: every text that is not itself hexadecimal is signed as the same number as its own hexadecimal writing. *)
Theorem C99_hex_alias_refuted : forall s, hex_decode s = None -> hex_of s <> s /\ msg18 (hex_of s) = msg18 s.
Proof.
  intros s N. split; [intros E; rewrite <- E, hex_of_decode in N; discriminate|]. unfold msg18, msg18_bytes. rewrite hex_of_decode, N. reflexivity.
Qed.
Print Assumptions C99_hex_alias_refuted.
(** So does every hexadecimal message with leading zeros. *)
Theorem C99_leading_zeros_refuted : forall s b, hex_decode s = Some b -> msg18 (String "0" (String "0" s)) = msg18 s.
Proof.
  intros s b E. apply C99_gg18_same_number_iff. exists 0%nat, 1%nat. unfold msg18_bytes. cbn [hex_decode]. rewrite E. reflexivity.
Qed.
Print Assumptions C99_leading_zeros_refuted.
Example C99_example : hex_decode "Hi!" = None /\ hex_of "Hi!" = "486921"%string /\ msg18 "Hi!" = 4745505 /\ msg18 "486921" = 4745505 /\ msg18 "00486921" = 4745505 /\ msg20 "486921" <> msg20 "Hi!".
Proof. vm_compute. repeat split; congruence. Qed.

(** GG20: texts without NUL bytes (a command line has none) are signed as different numbers. *)
Definition nul_free (s : string) : Prop := Forall (fun b => b <> 0) (bytes_of s).
Theorem C99_gg20_injective : forall s s', nul_free s -> nul_free s' -> msg20 s = msg20 s' -> s = s'.
Proof.
  intros s s' N N' E. apply from_bytes_eq in E; [|apply bytes_of_range|apply bytes_of_range]. destruct E as (a & b & E). apply bytes_of_inj.
  unfold nul_free in *. revert b E N N'. generalize (bytes_of s), (bytes_of s'). intros l l'. clear s s'. induction a as [|a IH]; intros [|b] E N N'; cbn [repeat app] in E.
  - exact E.
  - rewrite E in N. inversion N. congruence.
  - rewrite <- E in N'. inversion N'. congruence.
  - injection E as E. apply (IH b E N N').
Qed.
Print Assumptions C99_gg20_injective.

(** GG20 and GG18 sign the number modulo the group order: whoever holds a signature for one number holds one for all congruent ones. *)
Theorem C99_congruent_numbers_refuted : forall (C : Curve) (y : pt C) m m' r s, m mod cq C = m' mod cq C -> (ecdsa_valid y m r s <-> ecdsa_valid y m' r s).
Proof. intros C y m m' r s E. unfold ecdsa_valid. rewrite !ecdsa_eqn_iff, (of_Z_eq (cq C) m m' E). reflexivity. Qed.
Print Assumptions C99_congruent_numbers_refuted.
(** Two printable texts of 56 characters that GG20 signs alike on secp256k1: a signature for the first is one for the second. *)
Definition secp256k1_order : Z := 0xFFFFFFFFFFFFFFFFFFFFFFFFFFFFFFFEBAAEDCE6AF48A03BBFD25E8CD0364141.
Definition text1 : string := "PAY_ONE_COIN_TO_ALICE_AND_KEEP_THE_OTHER_NINE_FOR_LATER.".
Definition text2 : string := "OCZ`IBM^?WOUJU5gC@Q3/T;D?WTLOTTJ<.PY^MQRqLAh;r;[NhI/T4L&".
Definition printable (s : string) : Prop := Forall (fun b => 33 <= b <= 126) (bytes_of s).
Theorem C99_gg20_two_texts_refuted :
  text1 <> text2 /\ printable text1 /\ printable text2 /\ hex_decode text1 = None /\ hex_decode text2 = None /\
  forall (C : Curve) (y : pt C) r s, cq C = secp256k1_order ->
  (ecdsa_valid y (msg20 text1) r s <-> ecdsa_valid y (msg20 text2) r s) /\ (ecdsa_valid y (msg18 text1) r s <-> ecdsa_valid y (msg18 text2) r s).
Proof.
  split; [discriminate|]. split; [repeat (constructor; [cbv; split; discriminate|]); constructor|]. split; [repeat (constructor; [cbv; split; discriminate|]); constructor|].
  assert (H1 : hex_decode text1 = None) by reflexivity. assert (H2 : hex_decode text2 = None) by reflexivity. split; [exact H1|]. split; [exact H2|].
  assert (E : msg20 text1 mod secp256k1_order = msg20 text2 mod secp256k1_order) by (vm_compute; reflexivity).
  assert (E18 : msg18 text1 mod secp256k1_order = msg18 text2 mod secp256k1_order) by (unfold msg18, msg18_bytes; rewrite H1, H2; exact E).
  intros C y r s Q. split; apply C99_congruent_numbers_refuted; rewrite Q; assumption.
Qed.
Print Assumptions C99_gg20_two_texts_refuted.
(** The same over the toy group of order 31, for a signature that exists. *)
Example C99_congruent_example : msg20 "O" mod 31 = msg20 "n" mod 31 /\ "O"%string <> "n"%string.
Proof. split; [reflexivity|discriminate]. Qed.

(** GG18: a client given a message of 2^256 or more never writes a signature, whatever the others do (check_sig panics at the end of
    the run). *)
Theorem C99_gg18_long_message_refuted :
  forall (C : Curve) Hb (Hz : hashZ C) (Hf : hashF C) j_id j_1 j_mb j_F j_dg j_com j_5a j_5d
    oc ser par uuid (s : server) (clients : list (nat * nat * string * file18 C * rand18 C * string)) l c m me u f r text sig,
  nth_error clients c = Some (m, me, u, f, r, text) -> 2 ^ 256 <= msg18 text ->
  nth_error (y_cl (exec18 oc ser par uuid
    {| y_sv := s; y_cl := map (fun '(m, me, u, f, r, text) => sign18_main C Hb Hz Hf j_id j_1 j_mb j_F j_dg j_com j_5a j_5d m me u f r (msg18 text)) clients |} l)) c <> Some (Done sig).
Proof.
  intros C Hb Hz Hf j_id j_1 j_mb j_F j_dg j_com j_5a j_5d oc ser par uuid s clients l c m me u f r text sig EC LM X.
  pose proof (C100_written_signature_valid C Hb Hz Hf j_id j_1 j_mb j_F j_dg j_com j_5a j_5d oc ser par uuid s
    (map (fun '(m, me, u, f, r, text) => (m, me, u, f, r, msg18 text)) clients) l c m me u f r (msg18 text) sig) as Q.
  rewrite nth_error_map, EC in Q. specialize (Q eq_refl). rewrite map_map in Q.
  assert (E : map (fun x : nat * nat * string * file18 C * rand18 C * string => let '(m, me, u, f, r, msg) := let '(m, me, u, f, r, text) := x in (m, me, u, f, r, msg18 text) in
      sign18_main C Hb Hz Hf j_id j_1 j_mb j_F j_dg j_com j_5a j_5d m me u f r msg) clients =
    map (fun '(m, me, u, f, r, text) => sign18_main C Hb Hz Hf j_id j_1 j_mb j_F j_dg j_com j_5a j_5d m me u f r (msg18 text)) clients).
  { apply map_ext. intros [[[[[? ?] ?] ?] ?] ?]. reflexivity. }
  rewrite E in Q. destruct (Q X) as [B _]. lia.
Qed.
Print Assumptions C99_gg18_long_message_refuted.
Example C99_long_example : 2 ^ 256 <= msg18 "this text has thirty-three bytes!" /\ msg18 "this text has thirty-two bytes!!" < 2 ^ 256.
Proof. vm_compute. split; congruence. Qed.

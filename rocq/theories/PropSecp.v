(** C105: secp256k1 is an instance of the structure every theorem about the protocols quantifies over. *)
From Coq Require Import ZArith Znumtheory Lia Bool Field List.
From Verif Require Import ZArithX Fq Curve Outcome Ecdsa EcdsaProofs PropEcdsa Pocklington Weierstrass Cyclic WCurve Secp256k1.
Import ListNotations.
Local Open Scope Z_scope.

(** ** Specification: integers modulo p, and repeated addition *)
Definition spec_p : Z := 2 ^ 256 - 2 ^ 32 - 2 ^ 9 - 2 ^ 8 - 2 ^ 7 - 2 ^ 6 - 2 ^ 4 - 1.
Definition spec_n : Z := 0xFFFFFFFFFFFFFFFFFFFFFFFFFFFFFFFEBAAEDCE6AF48A03BBFD25E8CD0364141.
Fixpoint times {C : Curve} (k : nat) (P : pt C) : pt C := match k with O => pzero | S k' => padd P (times k' P) end.

Theorem C105_field_and_order : cp secp256k1 = spec_p /\ prime spec_p /\ cq secp256k1 = spec_n /\ prime spec_n.
Proof.
  refine (conj _ (conj _ (conj _ _))); [reflexivity| |reflexivity|].
  - replace spec_p with secp_p by reflexivity. exact secp_p_prime.
  - replace spec_n with secp_n by reflexivity. exact secp_n_prime.
Qed.
Print Assumptions C105_field_and_order.

(** The points are infinity and the solutions of the equation. *)
Theorem C105_points : forall x y, 0 <= x < spec_p -> 0 <= y < spec_p ->
  ((y * y) mod spec_p = (x * x * x + 7) mod spec_p <-> exists P : pt secp256k1, coords P = Some (x, y)).
Proof.
  replace spec_p with secp_p by reflexivity. intros x y X Y. exact (w_points secp_p 7 x y X Y).
Qed.
Print Assumptions C105_points.

(** Addition is the chord and tangent rule. *)
Theorem C105_addition : forall (P Q : pt secp256k1) x1 y1 x2 y2, coords P = Some (x1, y1) -> coords Q = Some (x2, y2) ->
  (x1 = x2 -> y1 + y2 = spec_p -> padd P Q = pzero) /\
  (~ (x1 = x2 /\ y1 + y2 = spec_p) -> exists l x3 y3, coords (padd P Q) = Some (x3, y3) /\
     (if x1 =? x2 then (2 * y1 * l) mod spec_p = (3 * x1 * x1) mod spec_p else (l * (x2 - x1)) mod spec_p = (y2 - y1) mod spec_p) /\
     x3 = (l * l - x1 - x2) mod spec_p /\ y3 = (l * (x1 - x3) - y1) mod spec_p).
Proof.
  replace spec_p with secp_p by reflexivity. intros P Q x1 y1 x2 y2 HP HQ. exact (w_addition secp_p secp_p_prime secp_p3 7 secp_no_root P Q x1 y1 x2 y2 HP HQ).
Qed.
Print Assumptions C105_addition.

Theorem C105_group : forall P Q R : pt secp256k1,
  padd (padd P Q) R = padd P (padd Q R) /\ padd P Q = padd Q P /\ padd pzero P = P /\ padd P (pneg P) = pzero.
Proof.
  intros P Q R. refine (conj _ (conj _ (conj _ _))).
  - exact (wadd_assoc secp_p secp_p_prime secp_p3 secp_b secp_b0 P Q R).
  - exact (wadd_comm secp_p secp_p_prime secp_p3 secp_b secp_b0 P Q).
  - exact (wadd_inf secp_p secp_p_prime secp_p3 secp_b P).
  - exact (wadd_neg secp_p secp_p_prime secp_p3 secp_b P).
Qed.
Print Assumptions C105_group.

Lemma times_mul (P : pt secp256k1) k : times k P = Cyclic.zmul (wadd secp_p secp_p_prime secp_p3 secp_b) (winf secp_p secp_b) (Z.of_nat k) P.
Proof.
  induction k as [|k IH]; [reflexivity|]. cbn [times]. rewrite IH. rewrite Nat2Z.inj_succ. unfold Z.succ. symmetry.
  apply (zmul_succ _ _ (wadd_assoc secp_p secp_p_prime secp_p3 secp_b secp_b0) (wadd_comm secp_p secp_p_prime secp_p3 secp_b secp_b0) (wadd_inf secp_p secp_p_prime secp_p3 secp_b)). lia.
Qed.
(** Scalar multiplication is repeated addition. *)
Theorem C105_scalar_multiplication : forall (a : Fq (cq secp256k1)) (P : pt secp256k1), smul a P = times (Z.to_nat (to_Z a)) P.
Proof.
  intros a P. rewrite times_mul. rewrite Z2Nat.id by (apply (to_Z_range secp_n_prime)). reflexivity.
Qed.
Print Assumptions C105_scalar_multiplication.

(** Every point is a unique multiple of the generator below the order. *)
Theorem C105_generated : forall P : pt secp256k1, exists k : nat, Z.of_nat k < spec_n /\ P = times k gen /\
  forall k' : nat, Z.of_nat k' < spec_n -> P = times k' gen -> k' = k.
Proof.
  intros P. replace spec_n with secp_n by reflexivity. pose proof (to_Z_range secp_n_prime (dlog P : Fq secp_n)) as R. exists (Z.to_nat (to_Z (dlog P))). split; [|split].
  - rewrite Z2Nat.id by apply R. apply R.
  - rewrite <- C105_scalar_multiplication. apply pt_is_mul.
  - intros k' K E. apply Nat2Z.inj. rewrite Z2Nat.id by apply R.
    assert (D : dlog P = of_Z secp_n (Z.of_nat k')).
    { rewrite E. replace (times k' (gen : pt secp256k1)) with (smul (of_Z (cq secp256k1) (Z.of_nat k')) (gen : pt secp256k1)).
      - rewrite dlog_smul, dlog_gen. change (fmul (of_Z secp_n (Z.of_nat k')) f1 = of_Z secp_n (Z.of_nat k')). unfold f1. rewrite <- of_Z_mul. f_equal. ring.
      - rewrite C105_scalar_multiplication. f_equal. rewrite to_Z_of_Z. rewrite Z.mod_small; [apply Nat2Z.id|]. split; [apply Nat2Z.is_nonneg|exact K]. }
    rewrite D. rewrite to_Z_of_Z. symmetry. apply Z.mod_small. split; [apply Nat2Z.is_nonneg|exact K].
Qed.
Print Assumptions C105_generated.

(** Both base points; the second is a non-zero multiple of the first. *)
Theorem C105_base_points :
  coords (gen : pt secp256k1) = Some (0x79BE667EF9DCBBAC55A06295CE870B07029BFCDB2DCE28D959F2815B16F81798, 0x483ADA7726A3C4655DA4FBFC0E1108A8FD17B448A68554199C47D08FFB10D4B8) /\
  coords (gen2 : pt secp256k1) = Some (0x08d13221e3a7326a34dd45214ba80116dd142e4b5ff3ce66a8dc7bfa0378b795, 0x5d41ac1477614b5c0848d50dbd565ea2807bcba1df0df07a8217e9f7f7c2be88) /\
  exists a : Fq (cq secp256k1), a <> f0 /\ (gen2 : pt secp256k1) = smul a gen.
Proof.
  split; [vm_compute; reflexivity|]. split; [vm_compute; reflexivity|]. exists (dlog gen2). split; [apply gen2_nz|apply pt_is_mul].
Qed.
Print Assumptions C105_base_points.

(** SHA-256 of "Satoshi Nakamoto", private key 1, the deterministic nonce of RFC 6979 and its signature with low s. *)
Definition vec_e : Z := 0xa0dc65ffca799873cbea0ac274015b9526505daaaed385155425f7337704883e.
Definition vec_k : Z := 0x7075d893e60beb69a94d7f9de1ca733095b8e7c16cd179a9d16958515b44e42c.
Definition vec_r : Z := 0x934b1ea10a4b3c1757e2b0c017d0b6143ce3c9a7e6a4a49860d7a6ab210ee3d8.
Definition vec_s : Z := 0x2442ce9d2b916064108014783e923ec36b49743e2ffa1c4496f01a512aafd9e5.
Definition vec_w : Z := 0xfab47032eeb0b7ec2328dfae35b7d11bd087d516840ecd98bbd6a8be3a324a0f.
Definition vec_x : Z := 0x934b1ea10a4b3c1757e2b0c017d0b6143ce3c9a7e6a4a49860d7a6ab210ee3d8.
Definition vec_y : Z := 0xf2d7ce7bf98625b5c232bdf04fb255600a20a2fa11c95c9a229561c05780f06f.
Definition vec_chain : list (chain_op * Z) := [
  (Dbl, 0xcb35b28428101a303eb9d1235992ac63f58857c2f631ee6936d3aebbeddcd1b1);
  (Dbl, 0x6ad2cb95963c033328d4857d4f8711deff557dd9faaa673b400442833f0efb64);
  (Dbl, 0x9693023fb325cc6c7bc993eb684358ea623d5feea8ff351df662beabd0efdc6d);
  (SubG, 0xb965858248a62719853cd905e78f6d2233ff358510ea0ea5b943889751daf201);
  (Dbl, 0x659311991ca04078c1465534151e770c98550f899013bf61da72261783756574);
  (Dbl, 0xb92860bc889d53dcbe981cc488340d93234724d7f67fbdda095004d1b5d28d23);
  (Dbl, 0xe2cec8a14363811e347b6f82d4d05c6ce79e0896e7488d7809b4f3f03d8e2217);
  (Dbl, 0x743baf24eff9915933dc807a58be92132c03a287b0490450446957d6e978ff90);
  (Dbl, 0x7a7a70113c9726fdf7c6fcb3386f6680c2afaf2117a403ef0a990fd50957f065);
  (AddG, 0x3b71f642ffe9ab6ddd83be552f7ef8f3e2868f4f5a9c7acfcde70c5aa46c32bb);
  (Dbl, 0xfc4b26db49608ad55809f0de42ad6d69b5ac5263d21f2863eb948828d4eede14);
  (Dbl, 0x58fe0478ecdbc14fc125fca0dd82015fda0345a672da8cfee1d3d46eea545472);
  (Dbl, 0xdd987c8802bd7d3b6f4cfbbbf5f07f9e1546eabd26456bee1011e2b1563e465a);
  (Dbl, 0xa95a5768a5c984224c00676ed8ee36eef6ef949996b5f060048fb8284af221d5);
  (SubG, 0x4784dbf3402dcd14087e1c99df6c3e4381941d7f99231ae2af6e21e5a82daa5a);
  (Dbl, 0xc34e502ae72bf3dd48a8ef79f9793a19c354c1f68bc9de582478e7509c055426);
  (Dbl, 0xa617cd56126d1d120aa1164c8db997c26e970554213f2120d89dffe27eec143);
  (SubG, 0x98e4bd28ec29db80f282969785966fc4b5137ddc4ea1455936a85d7d758937b0);
  (Dbl, 0xcf749cb198c2167802dacc69e6799e0017cc682008407f61e5fab63098c7c6c);
  (Dbl, 0xf895ed3d80e187707a31f8f53a2a9b4d375f9c8054d871136aa66c3daec34ab4);
  (Dbl, 0xbb9ed873b53669f18a0bf49f48ca4851fab1286f7357ffd5f6db8e966533ea76);
  (Dbl, 0xa42310e432cfae90933eebe7e9184a149c8f7c349dff3d51196301198a59eb5e);
  (SubG, 0xab7291b0d53afb9a2da4693070009e73c2c6686d0c4484e1171fbd4ba149bda2);
  (Dbl, 0x5c7debadf6aa780b67c9c93b543026cfebee6041584f89e62082ed2103110bd7);
  (Dbl, 0x40b0ad02c64f2f26da733e7d3ab0681b473fd13492d89d4fd469b34998245e68);
  (SubG, 0x160a9eb4311f4091ccbde45bd9d5ae2bfc4fe794216f21aaf778c2f904da893d);
  (Dbl, 0xced0ecc56db9e8e7f314eb943c1da7b1871616a22999d6ee6d77f4387100c7b7);
  (Dbl, 0xa34467fbf579f8e5dbd0ddf5f9c7889449a4195dd0b27fb553df6ebae0648bb6);
  (Dbl, 0x7fa5df064624b297f70d399a116df3a8a8e53d6d8627b9efa76ddf7c944b7673);
  (Dbl, 0xa892ce2d0a40bf6c312b11d19befd98f9300ca290f0c4aa07b8882387029282c);
  (AddG, 0x99043246061855a400ec99681ff7f3941988a05fdfba6e9577aedcf8c999bbe0);
  (Dbl, 0xc387dd1e7711b39bb6053e178047e36018923b3d50166b37766a4989e06571a0);
  (Dbl, 0x593509f79d6fc6259458ac02aac9b09bf4f68849693e19cf909cc20b44690012);
  (Dbl, 0x34514077334e5ab6ceeb4857397597b87c8bf6ab7927f81a72a9f2f4526918d3);
  (AddG, 0xb82a4fab0881f3367dfb1c29f388f482f71170e806ce4627acd4577c02f7ce07);
  (Dbl, 0x876f1d9d4334e08a2a1e5a3f6eac1481d965245e49c47e3a0a54bc1b5db29c9);
  (Dbl, 0x1a7303a2d80a240d8eb7f74f8a1445405e001a22415ec1738656c789fa2ac8ad);
  (AddG, 0x6cddc319f6395543512fb941ef0b5f6ca352bc36c39009cb0dc26b74cab399a1);
  (Dbl, 0x8ec1b79dfccc8c8f80b0fa7dda200ffc419c4531d500ac8ef5245587788a61d9);
  (Dbl, 0xd04a152812af66748595567f5c5cd84d2f81084dbec13805696d4e0266d77a69);
  (Dbl, 0x9ecb50be5a791a3c3b6b5deba3729449172cdd997ba0be80d7971c46ead591dd);
  (Dbl, 0x63c588651eee79a3101b12dab57ee6605d74b387ba26c13cdb3564df6d6d3772);
  (Dbl, 0x767763fbe5962a4caf2498563233a2a901311a094543cbf73207d271eea75bc4);
  (SubG, 0xb5c9d9d82f34ff1c19ea8b2034050d8e8908f8235ec295879581ccfb1760ca33);
  (Dbl, 0x93cb0d0b00d7f6ad707fc004a484be424c23459f53af097567ee43baf11094fb);
  (Dbl, 0x1740b79a0446da5ce3af9ebae62601bee9b2e12400a797b34e2908ef97327f16);
  (AddG, 0x5f923322dd5da552ba21a9056855cc467039f0cb99e8c3ce4d157bc50f8c2907);
  (Dbl, 0x6369e92e06d50e7926f0be698af49f46e5dd5944d1b2ca30464774ea35d07625);
  (Dbl, 0xbd534341b4a976f0012b0f9a39c3f60e440371339504ae308ccdac2c1814c6ea);
  (SubG, 0x78614b26e98c3a1dd0af38ed927927c8b288d908958efac46664d1937e1385d5);
  (Dbl, 0x3a666db8bfcca2a815a5e41a1b57b72eff248d386ba5e598ecb348906b032edf);
  (Dbl, 0x20c977c6aa5b1758387668bffbc80b57243ff5163ec4cceda0a0829219bef7a2);
  (Dbl, 0xe03cb0c37b36422bb58f284008ed4290eff233204d45fea5f937b59b6e3ef83e);
  (Dbl, 0xd22c18508737b5b494f6b516c2809f7080245e5683cdd2535a16adac936caa59);
  (Dbl, 0x25a32f00c45c3217dc9c48a50b311b6c24daffdd70c0edd0112ed4ef05ca4d56);
  (AddG, 0xafd74cb9aa44adf29b00a9c0601d589eae5a3b338286a7b0266970b39e795a02);
  (Dbl, 0xcc654c640fbb08f1f60418e8e428d1989dda22545c6a0cb9c788be7c2dce3ab0);
  (Dbl, 0x2f2f29900478270e680d79967d396847f017a38bdfb51439f3736735ad28630e);
  (SubG, 0xc544d90dd16ba39c1c7ee36104bab1c21ca4b0dd7b02658d9a202e487f36d0f);
  (Dbl, 0xac1da3666a4fe5e028820a7d3577b84136b20e54fc1c669b0511d3997043903d);
  (Dbl, 0x55d8a22af946247752b43a4da8afc63a4a39b69526af41e83bc0ff63775d3399);
  (Dbl, 0xeb249deaf6ea02876769e69b917e20c9703632d2fb93a1337471ed906a774078);
  (Dbl, 0x108881a4ed0f4564cc14fc0aa2cdd3bb5433ccca11448005a24ed08a2bb964fc);
  (Dbl, 0x45f6ffaa721555b8dfd5376afd7fbb99c7d4b7df690ead8cd1b3d8de1133993);
  (Dbl, 0x66178242fe2d4f724b12c5850784592d7c5a5ce838bacf93822823fb8943544e);
  (SubG, 0x469fe2b7168382e7eafb913b4cd132dddfaa6119692e721ee674cf0bcb3d94c8);
  (Dbl, 0x43a9cba18dd84c9948d89bdfc50cad4566ed5a403c5e3f427deb5f747d9662cd);
  (Dbl, 0x396323a0f53f365000e16d48f3d4afca0b506dfb7d89a89af3e2a8661dbd51f0);
  (SubG, 0xebd7edcc61de8da4c5ffd8c6ff86f824d498ca2df8741127dc3ef7e15cf4b33b);
  (Dbl, 0xdc7ccc00b92a94814430e1d27f80b3c7465c95dcd37ddf81c7fbbcbdcbcbc9e6);
  (Dbl, 0x8184f342ef37462c264c640b65825dc643323d9ba1019ca851c29b0d76415c79);
  (Dbl, 0xe36068eb77f7d4bda4bf7f959552bd1aec791572599c63b01726a7d7cdafdfe6);
  (SubG, 0x6f242933943c2f1f2dc5bf5dd290109d4ab0002372631614e8994f6cf65a44f7);
  (Dbl, 0x677f6cfa302dc6d0c6025fa7863f2dd29e90313b1247f1eb805bf555e78783a4);
  (Dbl, 0x74367a4ee5e9e3c7055676cfeffc09979372cfa03279b0da807c076c9801b7ae);
  (SubG, 0x49532c5df56b2abeb136bc6f682ac31851810ae805daa6f835a6ccf8355ecb95);
  (Dbl, 0x2c52d6bf95f95c79f7ef5f95b8b993fff966657429dc6b300525e55b78958c55);
  (Dbl, 0xb3e13da6faa57545a6e097852d7013446772f95d832ef4d1a18011b694cc12bd);
  (AddG, 0x24b15dc3a2fce0909916803aee8937160a38696923c9933670a2352abf9734f9);
  (Dbl, 0x9e7d4fc0388c657ab040a7ba7a6edd90884d8f79fb6f61ec00541515b3083c12);
  (Dbl, 0x963102cf20d1dfdbc2a54508629930e7f5a0d72efd4b78035f89ce163394caf8);
  (AddG, 0x787443b548d35dc4c5a06332f73d362eac1ab59eec2f0f074a969cd38e40d69c);
  (Dbl, 0x84e8f13ed090ac23ffcbf5f63a6c197c1324940927dfa4c9bb05c03bdfc113a3);
  (Dbl, 0x7a226b936b43d0855ae5ff0ff16cac308171f0facb09523396256bc9baf44690);
  (SubG, 0x26adfd97f4f982d41770aabab45b48d3f2feea52d31855e0a3752d5743071058);
  (Dbl, 0xdcb7294e9c23efcd74b233189f5f6857774e5186708bd41a5d23f5f5144ea145);
  (Dbl, 0xaf4dedc148dcfe86eb9f7f181318693eaf2b6006e5da099abf556e0aa06942b);
  (AddG, 0x71e7d0dcb5726fafd31dc2674a2cb0f63f173f8978625ff3221d7a59859c9c2d);
  (Dbl, 0x873b40f5275efba7c07acbae3854a2592d1a66ba4b6a35db9984f51b280f92a6);
  (Dbl, 0xba4d3a6136a56cbc45a7a41671dc52dc64c8cf940adc09a09a14fa403f397c21);
  (AddG, 0x4a5ea900c040bc6097c88a034fbaf1130c5b3c27fa4e716795cafd5d33c62ec9);
  (Dbl, 0x8da8470cfbf8015695367fe446327684257780b2f0a1bb30e8e7b9a471a30ea5);
  (Dbl, 0x4edcedfb0c881efbf75e0fa77fab01dd1288f342514db1fe53c8b2fe7be02ec6);
  (Dbl, 0xd73031939a786100304cd53339e7992e5bf2c6d9cec1de68c6cc5ef8e437efa3);
  (AddG, 0x66dd253d338577e5c7df471a2e72ecb720ae1cfef67960b7925c0ffda8269126);
  (Dbl, 0x315c43b17e549ab83522543989b5507fe7ddb5c2e82c053dcd17650072d9036c);
  (Dbl, 0xacec24e547d6a10eaa61945cccca471874c2d896b2d75ed3a02acf3ea8ce42e);
  (AddG, 0xb81cd0725acf1e46d34c0275af502c062845b6f40a40d9093567eb170a92f778);
  (Dbl, 0x359d1dabbfe51a6453315bbd8828a4b7780d8b7b74bbea18f28a5166875a652e);
  (Dbl, 0x268522b9e0ed80985062a5deb4f4da9aca3ea4dcd29583a8259f9179edd2103f);
  (AddG, 0xee63b193aa450f2165a33b300212b3a8c2e835e2780ff0ec1067bb35d4b653f4);
  (Dbl, 0xe80ac371dee7d0b106478244e8c3c46b962b3d3d01ff2ea25eae1bf7e6491acd);
  (Dbl, 0x4b33ed909f61ac24d35ce7f8d23e2e2056e0d8a9c3b59ddbdc99c303e16a5ad7);
  (Dbl, 0xd562d811c4bf2c52533aa9490dcdea2d8ea92dd121e7d718ccbd9b7553f4c461);
  (SubG, 0x3f5e69baf47976bb88ee30244470c9851d0a18f7d1fc9792a7606f705e86d0f);
  (Dbl, 0x5caa7bb901960c4bec72433318188cc3efbf34bfdabd48d351b2395ec013fa6);
  (Dbl, 0x1bbb1339194e219cb5e45a3adc5f688cdb1b38517e0d9ccee804ddda545dbd91);
  (SubG, 0x32c70ee007f064677506e8aea689359a6a195dea9c85b0638528f225416bd3d1);
  (Dbl, 0xf487c7fbbcc0d4959e673787d520f5a3cd51b83afec78282a8d2f985036e0741);
  (Dbl, 0xc1220d57c9d370fd914b062af49a7cba57bb756abba5c1e9d0c9e8175be71ac0);
  (Dbl, 0x7b7b27d011a8d66857c84341f467d1c9a285ee18f7759a1d92cf5201fa3b273e);
  (Dbl, 0x62d1b5946b3b6a4f6072e030d634abdda06ff7eb101c3ccd45b8fca32fb7f96d);
  (Dbl, 0xadd9d92f99b7468713ff673218f5b77f197a4716a5591a069903863c2a48a47c);
  (Dbl, 0xeb56bdcf2e6c3c9c4ffcef0b9a8b82d2a0dae8ea389c18f964289f9a8607e6ce);
  (Dbl, 0x6733364220beafec328844530fd58a2cf8039d747ccfc534abfb80b262b494f7);
  (Dbl, 0xe845472486b04206ce05f871c1783d7dd48d288bf129980d8e98cc3609462b51);
  (SubG, 0x6689c7f1122ed8d48438d158936484cb083fe67a0d54f126a99ee32b0df0535e);
  (Dbl, 0xe1db40c0e638912e07642e741419e1b3639d636ee452b1442d6efc8811c42dc5);
  (Dbl, 0x694fe6f866a4fbe6df3885874fe0dcf3b7ae18c32ed3df6c6451626b4d54fe77);
  (AddG, 0x174af1afa95528fb63a8f25544ae69df33523bf5d98084c43ae46d1be808f2ef);
  (Dbl, 0xa4babc8bdc36e3553b9d0a9f6bf437cc75fd5e111363de59b93b226917041bf8);
  (Dbl, 0xc41b29a6712499d34b3b807eb68974b065e8b7a89816dfb789e8ee407e301a7c);
  (Dbl, 0x9a13b05fd8ab785464215cb6f510cc88f37f58b57b07bb647be7993cca9156a6);
  (Dbl, 0xcdcedfd97ffc4417e7048634474c2ceb7049e6594cc523bf43561d87fe07b6e9);
  (SubG, 0x9a4c994b34167b0f4d36111f4add2ab7925e108283e345e7dcdcf33ca6b26d6f);
  (Dbl, 0xdcc6f8f5d4498ebecf33a3e6d1d9c2d10c9cb7a8ef43787ba2f94009f7652443);
  (Dbl, 0x17ff3aa50604e136caf4bdca223c71d063e4f158ea0d572aef1cc1a45e1a6271);
  (Dbl, 0x8567fc79d48b148eb6346b0406f0fc1984242ed6e3ee39c552abf2eb3b06e3a3);
  (Dbl, 0x6f3d0340aa1e124c32dcd8100f4220c5105673aa033e293a016525cfb4635033);
  (SubG, 0x293922e0e53a1076818c6d4c067aa1639fab64ce8befe41f65f43e3d6ee166d5);
  (Dbl, 0x4487bf671b16b1b454405a5da59c222688db88efe5df827c281bec36673d9b19);
  (Dbl, 0xa233d2215489cd1c852f9e48786149945338b44a36cd9e3559472bea287e269f);
  (Dbl, 0xd751bc34a78022bc7da1e5b0bd9acdf065ff955766009884fd1c04a36806b53);
  (Dbl, 0xf1fbd7888ae6e6f178145023b67fdfb57d65fd670c153233bf4fdfdfc6e31a2f);
  (AddG, 0x12dabadd2f71da8a472f530b3f64ac998a3fa4fa8da03eb518403dd10daa54d8);
  (Dbl, 0xcf82c5d7a9d55ae5e9c7a4e86a0a953ad108d652b787705d2abfb079b4bbb625);
  (Dbl, 0x6cf1be2465c1511d5387840a03cc07fff677511fc3ad91b4546d03988cd21179);
  (Dbl, 0xa262db1d06d681465d28940ab5c7df07e4c249b1a47e7cd120d54e66c745921c);
  (SubG, 0x57c62d3a7a9117b593ec6e33b3ee31b5f1f9076587c3a0935d2fcb25ceda59cf);
  (Dbl, 0x18351bc97da8f34030fbd88b84bf52f309d6e7fccda3e4be97802989904d5fe1);
  (Dbl, 0x5bf5ce98ccde4266432cecfee640786b5aa6d74ea7b008b63cab90bf30c9fea5);
  (Dbl, 0x51e74ce6ed3ff24f236fae93417141ca044e25aa55a61e6961542ca556d34f0e);
  (AddG, 0x16fcd3485b70ce39c9358460cfc4b12bb23ecd70af3b696a6d2c04abfd66a8ec);
  (Dbl, 0xd2a5b13058b289a7d248528e2b046df5258e0411598c9ee21c7bce320be68f2a);
  (Dbl, 0xe3b8e4511a2fafa8e9fc41a2c4f682dba176dc6471700cf9f63805680af1d566);
  (AddG, 0x88cc0c998a4e86d1c608918c7e7dfa360b0ab842ebd72ad0890ea48d6cabef74);
  (Dbl, 0xf0dfc472edb05c11b057cc29a33cee6f514044d39547abeb7b514d69f1f8bd83);
  (Dbl, 0x6dcaaf22051648034824f7559b2000a2825c378ed07acf69c8a63c4d6cac57d8);
  (AddG, 0x6fc85839d921f114a107132571e065518d2b348debaff706ad6fb7d510284a55);
  (Dbl, 0x4f63426be9e8641628af9b9c671de6d181807fadee37080b4ccfdbb353d2e11a);
  (Dbl, 0xf347183cbdd3348653f0abc5a11f0d26460a790e58f4d93785745d4c31b22e24);
  (Dbl, 0xea84271dd51ca4ff19a164c2434484930f6a94c3db9e59c97f6867bd573971e2);
  (SubG, 0x977e18c1593eef12eb03ae140e42198edbbc3c9fc71fa67cf589da73492e2431);
  (Dbl, 0x2fa2fa638a62c763ba1c3ceeb3cfc0344b20323dd835d17d3ce92ed561e0e833);
  (Dbl, 0xa5e56901102c15f42dde10fab0607b9ac939bb40826de64cef3101e0a199cd29);
  (AddG, 0x19e5c0390ecc116bee9ee194092b391e43bc533e805e12d0d650bde74d071358);
  (Dbl, 0x19c6c6ac9b34a8b864da2c8038264d0c00e1f42fb5cf39c5d623239c2dee6f54);
  (Dbl, 0xea7fea19a614a86b4f3b6ff4c378a74b635d3d5f467bc232d1eb0c6bb4232a13);
  (SubG, 0x42196a64729e52a60db46a662c071effad5e469f0782d5ff8887775cb8eaac06);
  (Dbl, 0x520879325256e467bc41f6aac8af0fa0faf14a4069a36fb19b99c9d0703376aa);
  (Dbl, 0xe58114aabdd129438eac908eb6fa62d19ba90e4547c49d6eefd3133738aabda3);
  (AddG, 0x3e608fa5274f1024142c4e2c9c530e535ee3f7f45196464328ef6a8e1169ea1d);
  (Dbl, 0x5bcac4d06904e180a70649156c45e5318e63458e1e2363d565aa4259d59d5707);
  (Dbl, 0xd5c680493ee94ec3c0c6703d3ef1de3053fa0d4aaf6621d75c16803a5fe133ea);
  (SubG, 0xfcf8e4dc56f4d159f8253f1f1a8cf0ee9ab596421aa841258dad305a08dc90ac);
  (Dbl, 0x3ec83cd84c334eecceaee78bf90033955abf3c36ebac3dc23d83294c38e2210e);
  (Dbl, 0xaaeb6d11417828d0db05670ff26c0d34f883e3db4d9580f7a99e959cf2f5d166);
  (Dbl, 0x44d1722d0a81368d79b3013728cdc0e4db4430a501117af4566c7d2b191d2bd4);
  (Dbl, 0x7d7fbd2e0b15ca8f2f9bdeef340766c288bf023cb330c9bd58193fd79907dddc);
  (Dbl, 0x8236a30c765627ea400dd0caa57ee836128724feb19f0c82588cefdb973db229);
  (AddG, 0xb49160445c2b5157f9bfd3ae596e234332ef5feacde9bf57addcc1d196078b76);
  (Dbl, 0x928f5523ecacdfd3a85a2341faa165957a7ddbbe7f85696ebeb0bbe8a753d032);
  (Dbl, 0x8b61589c8bc54d17b71b5bde1e5a868ea25d0f023f90f8dbd5af6ec40e7e18e0);
  (AddG, 0xab33b3f7226cacdb5af2385cc513fda95753337905ae98cb63446e7c4f17d6a);
  (Dbl, 0xeb80a8414ee565a78a3821955ee5604fcb705eaf96d04bc582f782ccbece49e);
  (Dbl, 0x166357e91ea6a634dd8c25ae74b84d836005e69eed200e5f6b5a5d3ab2ce06af);
  (SubG, 0x4fdef9dcdaf0510d9a07344a0f1b22ba0ac9fd2456804fa51598c6e6dedff306);
  (Dbl, 0x874646659a6b05bdae7672465217e32f17759d1ec6a2ea95e53c093b881984ef);
  (Dbl, 0xc330c85ccb75bee996209e9788f86a5f20fe9bd7a909f6edb270438340d0df5e);
  (SubG, 0x97d04046bde8cad2d4364d64d88f79cf6cdd02b4ecb06148b06a5c66581ca4e7);
  (Dbl, 0xb293e3d69b7b9c00bd9646845437e12660283d7fda88bfb49304344d41182d5);
  (Dbl, 0x91d08a7fc74eaa9e6e05f95c623c729a9e1cb463338c4fdab07b75ea11cf0377);
  (Dbl, 0x498b607f3f0bc421ef6633fcc614003bbae87ba39cd26e92c8b7a30347ac7fe);
  (SubG, 0xc2fe5d2cd931b282a654face243616642bd71eb759ced1800df51dea54157c11);
  (Dbl, 0xc81d62e246c6ddeb286775e2178bcba8ad42184f05a85e034b40509c04ddd175);
  (Dbl, 0x8902881ed790006ae358977bc92782af773c0879ffae24db0edf807530067499);
  (Dbl, 0xc089b81c56fa847f09c6d14579ca8882a301da3d737580e4510b26541aea9783);
  (SubG, 0xe21792a3a8840625d33f01b9ca27153140220ddde24563de45b9bb12000f1544);
  (Dbl, 0x6a9d1a1760ee31e9aa5b6b48e7115f441a6a26b10bf17f2bec421bdb38d0c640);
  (Dbl, 0xf7e09473e2ede6ba957c395841ee6c2138444085f3d96c0fe8c6b7d44cf45ad9);
  (Dbl, 0x4a5447e844740f02c94939b655436976b1c4c632cb7a5006889085ab76ca4bb6);
  (AddG, 0xcdcd7bec263ade8bd83795bbcf3ecb373d5dff5bb1fe8ade7f56f87d87da581d);
  (Dbl, 0x8631a32fbb02709b1f3c5cbe577868bf37956792354c4cd21e4e6ffab052e460);
  (Dbl, 0x312ca9c0f220ed347778aa1e263109be501f7e65681654dc33cf222d24f76b61);
  (Dbl, 0x1991861007b7ba3c1387fb37799b37a65059c0a86a82decdcd6751ef7dedc737);
  (SubG, 0xefcfef89306175691dbfd1a17a4e9ea8cf8a651be8e30d7cc36f7061fc3a6d41);
  (Dbl, 0x1b9c29d1347252423e0ec7c802c414cf57f2a6b04c01c81f6bc24f00970daa7c);
  (Dbl, 0x7d2785d79462ca24b407129cd5c118856426adfe697c056d9809d77cd4988f7d);
  (AddG, 0x319546f9e8c05c81ed473b0cd252d3ac720e059699622c8064c9fe8453bc4ed0);
  (Dbl, 0x4288519e7809a9010865d89eaafaabc1a31b6c64d5523248d0d2b2d5c38db7bc);
  (Dbl, 0xfc9ed88b20464f4d1819668bd2e62ca7ba1e59d5c33e968de619188e26535310);
  (Dbl, 0x73c81c9f098cc09416ff6c5dd18717daa748cdb81e0c97843b82a17005bf773e);
  (Dbl, 0xdcad8db0770204e328a6ba4859d3e761265120d5ba10a0702e2aaf331ede6002);
  (Dbl, 0xdad622dd60bdf47cc50241cea63ecd12a5b75d89f69ee5103aec2688fa60ed28);
  (SubG, 0x96182cb2e49de2c40b5ef95081d8e619974ad24623f82ce9d6a53effc937adc2);
  (Dbl, 0xdf37b864df6b4cf39a5665372e2fe81e0a0725f21ec92e904016e1275898f48d);
  (Dbl, 0x74719c8fa55f836dcf7e0a0be31a93fd6ad1336f57643460dea4fd8e604aa7ca);
  (Dbl, 0xf8546d9e94ce4df9ca3fb2637038d22ded7ff10bdf971a0918589c86d16118d5);
  (Dbl, 0x4abdd1d38b4b3d0ed8586e2b8cda26090cf06b520a6133bfbc4dcfaefd9fc001);
  (Dbl, 0x6d7797bdb4695b0b2c18a4eb32a67c9110b3aa69c288796c6d55dc06e4a40264);
  (AddG, 0x4007aeba1cb035128bf93a7e1face6c6a1b49b48dd744adfff036682ae1949c9);
  (Dbl, 0xfd9681c28d019832c29bc46d9963d35cc780b3cc8ef8d6cb72ad721cad3eda11);
  (Dbl, 0x403de66db1b3df2263afef189e7b817d651840a27021e14767d328609226bd5e);
  (SubG, 0x9f7d3699d81f348d5a784bc1643c509025a5b0f617aed057d3e7422e1313bbdf);
  (Dbl, 0x14a215682c493dd03955556a751fd2f0014fce7219bfc7854e4743234fa00b2a);
  (Dbl, 0x6a294f3ade6a61e4b0c4dd19f98e7c239080be0058d45ab506aee11702ddbd59);
  (Dbl, 0xf2694f851544adf51e5daa49f0d005f6872b526935d009acd85a1867aefd898f);
  (SubG, 0x27e7159f9df671716bfc0c38c0848cdf2276cf10b837ca041a6471c8941999c5);
  (Dbl, 0xb6ff152d2be1f2eb22065beda868e5a38da8f6297e42f95c6f524b71055b53b0);
  (Dbl, 0x12cd1dbe757c1e8cf9a61bf30f2bf2533cc50c7281ea8253bdc7e9a100775603);
  (SubG, 0x197e496eea95c28f5e65467b7aab8a555ee5abd16378bac8ea94114f9a9ad365);
  (Dbl, 0x4085dd9a4b0ed640e0309711b94b5ab0d95bb6ccb6567019397ca49a7f5d9af5);
  (Dbl, 0x19e3c949537dd6d8c8be24a6143e023dd09ea6c27b7cca691b910aecbcdebf3a);
  (AddG, 0xca53763d0a8c5f628b1c31789586759388d76a9b449a078ae4638c40c9b086ac);
  (Dbl, 0x57e8438a07fc560762b076472e124946ed7106237d71c73b9d858c3ebade3b28);
  (Dbl, 0xb91a171a81a9dcdbd470256e73d4658275fdd7c404ce3bc40cc1632b50ba4d14);
  (SubG, 0x4534656d779cd2abe3193589471385e902479cb5ff033d887741e9f723831b1b);
  (Dbl, 0x13cdef00c2c0e0a06c79f58269f987bb22f61a13752233e0857f1bf6ff3124d8);
  (Dbl, 0xdde5aca5e7610d56d4c04c2199a97eb7be9dad1a14f5c130ff0439d0a15f0b4d);
  (AddG, 0xa009094fb780f37dac2cc303a9e189cf1a7f63a9254480ec141b638a889e0c28);
  (Dbl, 0xb59bb8e8d75fb94f3d9e3eee9c8f28a4f166d200e17f115e7ed0d660e80b138);
  (Dbl, 0x6c36466672f3b740f3a30396ef0fab5d1bb8f3f2dfc7cf445b7b25b88ad99fb7);
  (Dbl, 0xa110923d8a298ee35ea7969a10b60f0a06e28b238b5e509830a7144d0546739a);
  (AddG, 0x1bdace301d70cb314d128e5de06ad9480af854e98448bd3329aac4e7f432ef5f);
  (Dbl, 0xf4485217a462cbb6f5367ab6ddd8a43e1ecd66327c273f853d2944eff20da166);
  (Dbl, 0x111333271e256df5722625503351e11635112151bea909ffed8db9760964a5d7);
  (SubG, 0xd6b6346ea4f6e29ed0f98aa9060181bc7ad57683b9ee95d4dd1efe5ca8867534);
  (Dbl, 0x73108932bc6dd3d91488f9b977472b997512416428c307adfd654bd1d05c5b4e);
  (Dbl, 0x158612ef319aeb053f2c96f9154136ff64262a2d416495684e8cff9f5d06c376);
  (Dbl, 0xb9be64ff2b126fe577edd0d1c70709719acfc52e17023b2cc098865ee68c4c93);
  (Dbl, 0xaf1a524c21905b3575f2631184cbf9041b1a6600f7c760ae868cc093c62c1d42);
  (SubG, 0x45f7256e8a9bfe52d730f31b5ed7a58f5483e1b81cdc954e92859567e75d5d81);
  (Dbl, 0x5df2a736714155a1a847484ece67d9b108186a93c566e43de679a43ea5f4be1d);
  (Dbl, 0xdf76ebefa5a631f84f9ff6b212e5914c5d660a3e8fdf5c8b6569d4df06ce106f);
  (AddG, 0xf99c1881109bf1d4f83f7108d06c7d2e19ed40effc8bd01dd8f9bac363f4ec06);
  (Dbl, 0x85f85d056e13be1f5680f1f3beecf297b2dfc51a0fe8dc0a89634dc6272691ee);
  (Dbl, 0xcd69540a1d7007fee9ae5ec0437ecbd793b34bff0fd17601cb8406720bf67570);
  (SubG, 0xf00b41c90f1acba64924134bd64ca54195ed8b5a9cf1c38734ae9e3c465fda39);
  (Dbl, 0x6c2586ad0b3c9cf83998d45928538a7f75a794f216103c9c16344bcaac410d58);
  (Dbl, 0x153f41252ae223b16f5b7a752d1c599e31643ec128c5f74d909a1d96ea55b678);
  (AddG, 0x33b6d80d9152de5a6b1e37c53656c091df55c7136a0e3b8b72e98e180bb825be);
  (Dbl, 0x355e476194213910bf2ac272670063066eecd9d5a60996fbd08c65094e2d1c76);
  (Dbl, 0x31c65be00dbefe3814e8dcc265ca4a0bfc423ec82c817fa87590db62f9d4c3cf);
  (AddG, 0xa434d53c8445ac83f30eea8a82b35e5e6512f00728a8abc02f7fbc90652604b8);
  (Dbl, 0xd829089d9e8d92fe3a4f0c525158e8a936d517d0a0e38040337c15a382dfb680);
  (Dbl, 0xb07cd8c5fceffdfd4158c2e2e9798fca7059d55c8280026e506dbb5246027010);
  (AddG, 0xcebfba6efa79023318947d5bb2f0acfe722405997e22c5084011880e9dd23a95);
  (Dbl, 0x7d42c57aa52d18fe0a4c0a303b9451b4bf94841cdbae6fe9f920f69ce7476638);
  (Dbl, 0x21163da75f7440c418977a0cfbbbcb9b981d5a87b082c0c2fef9ac0c28da28a6);
  (Dbl, 0x557acc4297dba3d37546dd1eb16403efc8b89dcd6fcdba70052a689c93460adb);
  (SubG, 0xe0e33d782a99fe3fe148a5805da8108a780d8a2863f5bb9e41b00e047f07382d);
  (Dbl, 0x8b0302ba12d17a43834be5b52246481d66e9f54a5557d482cdfdca81003ef073);
  (Dbl, 0x503fdde6ba2a1d40a1efdbde6ec3c03bc2f3e5f44ae697fcc75616cabd61ee87);
  (AddG, 0xe254ed9e1f5ac96d9ae7b0057a14609c9e5ed178f7cb703a72c220ee338c5964);
  (Dbl, 0xf930674424b8167b013158488ca3994cf957a869deaf37c65ea395677f55a6ed);
  (Dbl, 0x65d0d1fbbc2d849ebf208e0eb1f411dd9906863201c49f2c56c06eeb3e742430);
  (Dbl, 0xc3635c09635e9604569b15f062f9854ee07e7319bfc9d345e1e466269f62b566);
  (AddG, 0x23ef8f3c79cd7dcfc176e4fd070dd3813502d667e22c546be2e3d75e88a82391);
  (Dbl, 0x69695d45bba7631e8491750b43910a694e8b50494a51996df112de2ed36ea5c0);
  (Dbl, 0x7287be3ad0b7b28c96c05175bd51b3f52f92438cda48a72562c1bb7ed86ea54);
  (SubG, 0xe1da09bd16e707531c950db4f93995bd8bc92b062998aab17d631afa689b29e8);
  (Dbl, 0x55b28935a737a5b0ea538d87a662a42504c17a1029b5bb9feead26b8490e822b);
  (Dbl, 0xb9e7ed85bd826a619ca3022722c7733e65568161fa9f6d6770eeb2061a6f5b7d);
  (SubG, 0x9f2844344c3572495c60025ae55191865e42c1fd522fc81f4d6a7c7b1ae00940);
  (Dbl, 0xfd6e57f8cbd09eec1e0acac237d0152f851d55aa4544434d0d1f80ecf6e57475);
  (Dbl, 0xeb7010f7b10e2910714fbecce6bb01ed506cebad428521495231b1252ce624bf);
  (AddG, 0xf311d9f83555c508ca52f49a4fc5cfd53ca155737f446c39fe891343636944a6);
  (Dbl, 0xd31d859e5284170ed5d6f7039596448bb37d1f2d40a20051ce71bbf2dc37cf33);
  (Dbl, 0x19ff3f4cc57e519c1f569dcdd62c341c6072a5dd7585570a3d56ddcdc2519cd0);
  (AddG, 0x4359e2d0de41082eb50489583d4b08ff61c442be47a6d79406a5deb73131c2e0);
  (Dbl, 0x7d60720871c29d6419799f503404f4343fc0b44bef657af71fb970a6a88519e8);
  (Dbl, 0xc33abef805f7f9dc8f8fba2b7bfb89487b9d5486e9be068b4f8e91e8cd770a37);
  (SubG, 0x1c69d891d1c84a5fe4a1bfe42890a1a370d7031a603b4b25d7ae7e489a8b8a11);
  (Dbl, 0x48e11bb59b0627545a95f721cbeae78789624c2e7aeb21aad679bce037d262aa);
  (Dbl, 0x924fa6bc2fc19bc14559929da1cc53d984d58c1c07ae7e19c0d8abf875a15253);
  (SubG, 0xd1f40999d2180c52b738af850a0394e4efd13fcda7d5dc053acdfc62bfcd6a71);
  (Dbl, 0xe8aa215916f5da99e7a5102a9cf5f8ef22cb16dcb86401c03974cea1b4eafb67);
  (Dbl, 0xab6cca9995571458e248ad20487f9bb8af80f21d59a880cb9d4e37c9d4af4c84);
  (SubG, 0x35aa2b80d9996f1af69405e597c3a7b2a98d1e57a09d1bfad35d77ab47a7fe2a);
  (Dbl, 0xeeb17faacdf779508c12239112badd773dd3c39d4bc10af2c7cbff6201d39246);
  (Dbl, 0xa7d065ead2febc3029b27e8ca17b724e4b6bb5cba477127e3d41a1ea2cb280ec);
  (Dbl, 0x47e2e23fc993e5c1a0ec94341d6bd0006072349248ffd146e5029a5f0a1804a4);
  (Dbl, 0xb30319ee374670d6cd9b8e906fe170ff52a2e6ff32c470081e1a85dee041b199);
  (Dbl, 0x55f3b1af3403e70820e44a76e145638378561e4887bdb97dd262dbe30be834b5);
  (AddG, 0xfe733c1775b28382649452c13de6fc222a2c9115bc10b2a79c471f60795b9a80);
  (Dbl, 0x6c735382750b0fdb15b2dd9c1eee3c5c898394248420fd129aba4ec5139f97a2);
  (Dbl, 0x96f844f7f821db389d5103ac793d5b5892d91ba441a8e5e4d5ae3ba69ddfecb9);
  (AddG, 0x78ebf1d83320afe20673450a01faf0d61773827d63225915a027c7d619c53e99);
  (Dbl, 0x8f042069e3358f7fffadc41d88641d9cc32297efbe9fc0fb1a1306514182872d);
  (Dbl, 0xa9432ed91e6559fe53259462ed4ad986cacbb1e8e3d4a55d8b6cdbefd1a2abda);
  (Dbl, 0x59742eb5db176d7625072f0837af04851a3713e12ccc9b16f7cd47c781c5a564);
  (AddG, 0x2f8812f6de23b096805ccdc4f43fe8ded657baddfff52d4bc6a6732236876911);
  (Dbl, 0x7c7f42e642ea0cc247bb7bb9dbaf7c1faf664bc9ac9fa99c18a66cc5fcaff44c);
  (Dbl, 0x8c818a5a7651215b0e884272e308587b385ef75e9505585c6e970b4b45622c8b);
  (SubG, 0xa23cdfc23f3f04c28a94e526de4cf02101eb278e00315f17da3fa6de64579a48);
  (Dbl, 0xef1aaad3b0f1660359963519191f7fc8bdbb2d70e58924fef7c38a40f797b985);
  (Dbl, 0xc6f6ad4fbe3fe7f6153da177943ffbfa6be630cc84cbc75373917028c7d8ba88);
  (SubG, 0xf27cf4b33c86a3e758c53b83dca39a51de5d973c4a929deaa4bc0846e805b327);
  (Dbl, 0xee7e714483a645a512ad8e71be222a5247be3e02bf62ed479ca401f6086726c9);
  (Dbl, 0xfd6d25d0254170477b23d36388bfef11f63c70cc6c2caf7c4aeeedf73f04eaf);
  (Dbl, 0x683b6fb74c37f8c34dc2517cc4339c9de362ad5a831f7275c0fa8ef9f54da93);
  (SubG, 0xba1aa916ec6cb71bf732a2094d81f87ae4b22a482109012319f79a0bae1b3e98);
  (Dbl, 0x1a2ef83370df4b99c930e2dc4d6092c12dfb729a077b3333a5574891e16d1b34);
  (Dbl, 0xccb8b9964f78d4edfa023505c44b29dcc086bdd638aef9646f744f926fdbbf2c);
  (SubG, 0x689b3626be9cc59e17295b2c4f64f101e6fbebc1b185ba99c5e5d027f906e2a5);
  (Dbl, 0x1430249ba98aa16848efe76f12536b4129249e1fe1f09de3e1e39abb810c9c11);
  (Dbl, 0x808ec4661367fe49599296b4996456c07639cefa2a90cc7d39d4cdcee56959ad);
  (AddG, 0x84f0295e746fc1fe7bef76a457b7de10d33ad1626ef159d9717cc8c471f5c2c0);
  (Dbl, 0x28f77694e66ad5cf9a1033ef90749f5411128c7b167e7705cafa0e764142f608);
  (Dbl, 0xe2f1894d75797a78b8324708e1f8cf5b74d503e480493dc9d8cb8f1f6ad5c200);
  (Dbl, 0x6dd9a8999393e656b10a52ab4bed0d569d8ae7afcce62e95dca3db46293b56ec);
  (Dbl, 0x7350af68a0ace685f4ab2ce7abecc1cb4990055fafe24f1fe7ac7ed43b1cd7);
  (AddG, 0xffe43c5d5b12f3149777f4ae31c16cdb5f398c4708f163962adb6041b79b3777);
  (Dbl, 0x8c18fb027ae0f5aabdbe6f25aefb752f87025975690f01f5c93dfcd235af3c7);
  (Dbl, 0x5b8bce2761aa41af5e5c11a893e09b4dc3f998dd9ecabb942dce889234baad27);
  (AddG, 0x1d0a7cf7c421af68a34b806b62767a3c3c8f504a1db436996f9dd7f21b0a3582);
  (Dbl, 0x953f8e9cde84b0efed3687c3dadb5d562261aba65bcc177c18f3391149c468fc);
  (Dbl, 0x4093d0ce18c7a1a58b96930ee54fbab0655fb49bf093bf5a9112596f1d1fea29);
  (Dbl, 0x366f0a9ef1f949b529ded248e1dc410fb78e94259d809a631ebe846aef043a3a);
  (SubG, 0x219f2c5f5300f79de33e52fa11e804e781a08f9fcce5b2a8a041d2a63631a2df);
  (Dbl, 0x646a95c875e082d4f1cb4b1488d8e62749961e1edbf1445cf76e0c1558aeb39f);
  (Dbl, 0xbc5fda839cf721d8a2364dce943c490e903f40763df987aa452f0cdbb2f8bdad);
  (Dbl, 0x9dc2d4d6f60c75dd66b97b9fef9556b21a57a4076ca8b824469bee836ad5cc44);
  (AddG, 0x305fee711c811188ac7104371ff877b6579aacb0791f6d24a029b72dc67b3f17);
  (Dbl, 0xdeb54493941ff9bbbdb7c4e34a001608ec308da45283a05bce157d43b69dd55d);
  (Dbl, 0x1113b171729996a5c0adf22508e68e317d657225c4aef159a120f2137055dff2);
  (Dbl, 0xdde83e8d4f7f88692b97c32a3964a8fd177b25307d8bee65dbfae97ec179689a);
  (Dbl, 0x367b1cf4565b97b42bd346127993bc50df71fb02df4af1324aa626274363d37d);
  (AddG, 0xb923ccbd91f6cd436b4f60e19a1e1d1a3cff1ea1ea447cb579e2ced334503001);
  (Dbl, 0x72d6112959cbf77d5b01eab80bf7170cc3c33b67a20ccfb3221d7618d5ea4e36);
  (Dbl, 0xc9287a6b4f4422971a503be5c65009eddad677167e4f4763139473d08319e451);
  (SubG, 0x9b5f7ac534ae7b8e9e9d522602bccfa6a5cb5cb2b11dc0ac187a5a5a2f808cf1);
  (Dbl, 0xcd70c668d780c5969d1f5a12f1b6586d4d6324cfcc521a2a064c14a8ae5c1889);
  (Dbl, 0x7d2e8fd5c97cd033b8b7f9c922d4803bc91cd08b7eee4f6f391eb4229276448f);
  (SubG, 0xe67a37aeaa600ff28d500142fff2da54ff61ecda986e79672c7d57b9703fb613);
  (Dbl, 0x4d574e5ecb0071d8b5a46aba8215ffe78f429b0d2837bcb9680f528be2aee799);
  (Dbl, 0x148fe2e6461c76d5a831bb0ca75bfbde7d8a008001c352263a423e7e815b53dc)].
Definition chain_at (ops : list (chain_op * Z)) (k x y : Z) : bool :=
  match chain secp_p secp_c secp_gx secp_gy ops (1, secp_gx, secp_gy) with
  | Some (k', x', y') => (k' =? k) && (x' mod secp_p =? x) && (y' mod secp_p =? y)
  | None => false
  end.
Lemma chain_at_ok ops k x y : chain_at ops k x y = true -> 0 <= k < secp_n -> coords (smul (of_Z secp_n k : Fq (cq secp256k1)) (gen : pt secp256k1)) = Some (x, y).
Proof.
  unfold chain_at. intros H K. destruct (chain _ _ _ _ ops _) as [[[k' x'] y']|] eqn:E; [|discriminate]. rewrite !andb_true_iff in H. destruct H as ((A & B) & D). apply Z.eqb_eq in A. apply Z.eqb_eq in B. apply Z.eqb_eq in D. subst k'.
  apply (chain_good secp_p secp_c secp_gx secp_gy secp_p_prime secp_p3 secp_b secp_b0 eq_refl secp_g eq_refl) in E; [|split; [lia|reflexivity]]. destruct E as (_ & E).
  change (wcoords secp_p secp_b (Cyclic.zmul (wadd secp_p secp_p_prime secp_p3 secp_b) (winf secp_p secp_b) (to_Z (of_Z secp_n k)) secp_g) = Some (x, y)).
  rewrite to_Z_of_Z, Z.mod_small by exact K. unfold wcoords. rewrite E. rewrite !to_Z_of_Z, B, D. reflexivity.
Qed.
Lemma vec_point : coords (smul (of_Z secp_n vec_k : Fq (cq secp256k1)) (gen : pt secp256k1)) = Some (vec_x, vec_y).
Proof. apply (chain_at_ok vec_chain); [vm_cast_no_check (eq_refl true)|split; [discriminate|reflexivity]]. Qed.
(** The verifiers of the model accept a published signature on the real curve. *)
Lemma vec_eqn : ecdsa_eqn (gen : pt secp256k1) vec_e vec_r vec_s.
Proof.
  exists vec_w, vec_x. split; [vm_compute; reflexivity|]. split; [|vm_compute; reflexivity]. unfold x_coord.
  replace (padd (Ecdsa.zmul (vec_e * vec_w) gen) (Ecdsa.zmul (vec_r * vec_w) (gen : pt secp256k1))) with (smul (of_Z secp_n vec_k : Fq (cq secp256k1)) (gen : pt secp256k1)); [rewrite vec_point; reflexivity|].
  apply dlog_inj. unfold Ecdsa.zmul. rewrite dlog_add, !dlog_smul, dlog_gen. change (cq secp256k1) with secp_n. unfold f1. rewrite <- !of_Z_mul, <- of_Z_add. apply of_Z_eq. vm_compute. reflexivity.
Qed.
Example C105_published_signature : gg20_verify (of_Z (cq secp256k1) vec_r) (of_Z (cq secp256k1) vec_s) (gen : pt secp256k1) vec_e = Ok tt /\
  ecdsa_valid (gen : pt secp256k1) vec_e vec_r vec_s.
Proof.
  split.
  - apply C01_gg20_verify_is_ecdsa. exact vec_eqn.
  - split; [split; [discriminate|reflexivity]|]. split; [split; [discriminate|reflexivity]|]. exact vec_eqn.
Qed.
(** 2 G, by the tangent at G. *)
Example C105_double : coords (padd gen gen : pt secp256k1) =
  Some (0xC6047F9441ED7D6D3045406E95C07CD85C778E4B8CEF3CA7ABAC09B95C709EE5, 0x1AE168FEA63DC339A3C58419466CEAEEF7F632653266D0E1236431A950CFE52A).
Proof. vm_cast_no_check (eq_refl (Some (0xC6047F9441ED7D6D3045406E95C07CD85C778E4B8CEF3CA7ABAC09B95C709EE5, 0x1AE168FEA63DC339A3C58419466CEAEEF7F632653266D0E1236431A950CFE52A))). Qed.

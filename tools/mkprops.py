#!/usr/bin/env python3
"""Regenerates properties.jsonl from the table below."""
import json, os
P = []
def p(title, statement, quantifier, why, *anchors):
    P.append(dict(id="C%02d" % (len(P) + 1), title=title, statement=statement,
                  quantifier=quantifier, why_tests_cant=why, anchors=list(anchors)))
G20 = "src/protocols/multi_party_ecdsa/gg_2020/party_i.rs"
G18 = "src/protocols/multi_party_ecdsa/gg_2018/party_i.rs"
BL = "src/protocols/multi_party_ecdsa/gg_2020/blame.rs"
KG = "src/protocols/multi_party_ecdsa/gg_2020/state_machine/keygen.rs"
KGR = "src/protocols/multi_party_ecdsa/gg_2020/state_machine/keygen/rounds.rs"
SG = "src/protocols/multi_party_ecdsa/gg_2020/state_machine/sign.rs"
SGR = "src/protocols/multi_party_ecdsa/gg_2020/state_machine/sign/rounds.rs"
L1 = "src/protocols/two_party_ecdsa/lindell_2017/party_one.rs"
L2 = "src/protocols/two_party_ecdsa/lindell_2017/party_two.rs"
C1 = "src/protocols/two_party_ecdsa/cclst_2019/party_one.rs"
C2 = "src/protocols/two_party_ecdsa/cclst_2019/party_two.rs"
MTA = "src/utilities/mta/mod.rs"
RP = "src/utilities/mta/range_proofs.rs"
PS = "src/utilities/zk_pdl_with_slack/mod.rs"
PD = "src/utilities/zk_pdl/mod.rs"
M20 = "examples/gg20_sm_manager.rs"
M18 = "examples/gg18_sm_manager.rs"

# ---- A. signatures
p("GG20 verification accepts exactly standard ECDSA signatures",
  "gg_2020 verify(sig, y, m) returns Ok exactly when the textbook ECDSA verification equation holds for (r, s), public key y and message m reduced modulo the group order; it never returns Ok for an invalid signature with non-zero r.",
  "every scalar pair (r,s), every public key, every message integer",
  "Tests only try signatures produced by the library; forged or boundary pairs (s=0, r=0, sum at infinity) form an unbounded set.",
  G20+"::verify")
p("GG18 verification is total and accepts exactly standard ECDSA signatures",
  "gg_2018 verify never panics, returns Err for s=0 and for a verification point at infinity, and otherwise accepts exactly when the textbook ECDSA equation holds.",
  "every scalar pair (r,s), every public key (including the identity), every message integer",
  "Panic freedom and equivalence range over all inputs.",
  G18+"::verify")
p("Only valid, low-s signatures are ever output by GG18 and GG20",
  "If output_signature returns Ok(sig) then sig verifies under the joint public key for the message and has s <= (q-1)/2, no matter what partial signatures the other parties sent.",
  "every list of partial signatures from other (possibly malicious) parties, every local state, message and public key",
  "Adversarial partial signatures cannot be enumerated.",
  G20+"::LocalSignature::output_signature", G18+"::LocalSignature::output_signature", SG+"::SignManual::complete")
p("The recovery id recovers the joint public key",
  "For every signature output by GG20/GG18/Lindell compute_with_recid, public-key recovery from (r, s, recid, m) returns the joint public key.",
  "every nonce point, key and message",
  "The failing nonce points (coordinate >= group order) have probability about 2^-128 on secp256k1.",
  G20+"::LocalSignature::output_signature", G18+"::LocalSignature::output_signature", L1+"::Signature::compute_with_recid")
p("A tampered partial signature never yields a signature",
  "If the signing equation holds for honest partial signatures, replacing any partial signature by a different scalar makes complete/output_signature return an error instead of a signature, unless the tampered sum is the other valid root (negated s).",
  "every position and every replacement scalar",
  "Only a handful of corruptions can be tested.",
  G20+"::LocalSignature::output_signature", SG+"::SignManual::complete")
p("GG20 verification never panics",
  "gg_2020 verify returns Ok or Err for every signature and public key supplied by an untrusted caller.",
  "every scalar pair and point",
  "The panicking inputs (s=0; verification point at infinity) never come from honest signing.",
  G20+"::verify")
p("Lindell verification accepts only valid ECDSA signatures and rejects high s",
  "lindell_2017 verify(sig, pk, m)=Ok implies textbook ECDSA validity of (r mod q, s mod q); the pair (r, q-s) of an accepted (r,s) is rejected; no other representation of the same signature is accepted.",
  "every pair of integers (r,s) including negatives and values above q, every key and message",
  "BigInt inputs are unbounded; negative encodings are never produced by tests.",
  L1+"::verify")
p("CCLST verification accepts only valid ECDSA signatures and returns Err on s=0",
  "cclst_2019 verify(sig, pk, m)=Ok implies textbook ECDSA validity; s congruent to 0 gives Err(InvalidSig); high s is rejected.",
  "every pair of integers (r,s), every key and message",
  "BigInt inputs are unbounded.",
  C1+"::verify")
p("Lindell two-party signing is correct",
  "When both parties follow the protocol, Signature::compute on party two's partial signature yields a valid low-s ECDSA signature on m under x1*x2*G, and verify accepts it whenever the nonce x-coordinate is below q.",
  "every pair of key shares, nonces, message, masking value rho below q^2 and Paillier randomness, every Paillier key with N large enough",
  "Random tests cannot cover all nonces and maskings; plaintext wrap-around in Z_N is a boundary case.",
  L1+"::Signature::compute", L2+"::PartialSig::compute", L1+"::verify")
p("CCLST two-party signing is correct",
  "When both parties follow the protocol, Signature::compute on party two's partial signature yields a valid low-s ECDSA signature under the joint key.",
  "every pair of key shares, nonces and message",
  "Same as above; holds for all values.",
  C1+"::Signature::compute", C2+"::PartialSig::compute")
p("Lindell compute returns only valid signatures",
  "Party one's Signature::compute never returns a signature that fails verification, whatever ciphertext party two sent.",
  "every ciphertext sent by party two",
  "Requires an adversarial party two.",
  L1+"::Signature::compute", L1+"::Signature::compute_with_recid")
p("Two-party key generation agrees on one public key",
  "In Lindell 2017 and CCLST 2019, party one's compute_pubkey and party two's compute_pubkey on each other's public shares return the same point, which is the generator times the product of the two secret shares.",
  "every pair of secret shares",
  "Universal algebraic law.",
  L1+"::compute_pubkey", L2+"::compute_pubkey", C1+"::compute_pubkey", C2+"::compute_pubkey")
p("Two-party key refresh preserves the joint key",
  "Applying refresh_private_key with factor f at party one and update_private_key with factor f^-1 at party two leaves the joint public key unchanged and signing after any number of such refreshes is still correct.",
  "every key pair, every sequence of non-zero refresh factors",
  "Arbitrarily long refresh histories.",
  L1+"::Party1Private::refresh_private_key", L2+"::Party2Private::update_private_key")
# ---- B. commitments
p("Point commitments are binding",
  "If two (point, blinding) pairs open the same 32-byte commitment used in key generation or signing, then either both points are equal or the hash function has a collision.",
  "every pair of points and every pair of non-negative blinding integers",
  "Quantifies over all pairs and all hash functions.",
  G20+"::KeyGenDecommitMessage1", G18+"::Keys::phase1_verify_com_phase3_verify_correct_key_phase2_distribute", L2+"::verify_commitments_and_dlog_proof")
p("Integer commitments are binding",
  "If two (integer, blinding) pairs open the same hash commitment (as in zk_pdl) then the integers are equal or the hash has a collision.",
  "every pair of integers and blindings",
  "Unbounded integers; the ambiguity is in the byte encoding.",
  PD+"::Verifier::message1", PD+"::Prover::message2")
p("Honest commitments always open",
  "A commitment produced by a protocol's create/broadcast function is accepted by the peer's verify function for the revealed point and blinding.",
  "every point and blinding factor",
  "Universal round-trip law.",
  G20+"::Keys::phase1_broadcast_phase3_proof_of_correct_key_proof_of_correct_h1h2", L1+"::KeyGenFirstMsg", L2+"::EphKeyGenFirstMsg")
# ---- C. VSS / keygen
p("Feldman shares verify and any t+1 reconstruct the secret",
  "Every share produced for party i passes validate_share at index i, and reconstruct on any list of at least t+1 distinct indices with their shares returns the secret.",
  "every threshold t<n, every polynomial, every subset of indices of size > t in any order",
  "Exponentially many subsets and all polynomials.",
  G20+"::Keys::phase1_verify_com_phase3_verify_correct_key_verify_dlog_phase2_distribute", G18+"::Keys::phase1_verify_com_phase3_verify_correct_key_phase2_distribute")
p("t shares determine nothing about the secret",
  "For any t distinct indices, any t share values and any candidate secret there is exactly one degree-t sharing polynomial consistent with them.",
  "every t, every set of t indices, every share values, every candidate secret",
  "A perfect secrecy statement ranges over all polynomials.",
  G20+"::Keys::phase1_verify_com_phase3_verify_correct_key_verify_dlog_phase2_distribute")
p("An accepted share is the committed polynomial's value",
  "validate_share(share, i) succeeds exactly when share equals the committed polynomial evaluated at i; hence more than t accepted shares always reconstruct the discrete log of the published constant-term commitment.",
  "every commitment vector (of length t+1) and every share, honest or not",
  "Adversarial commitment vectors.",
  G20+"::Keys::phase2_verify_vss_construct_keypair_phase3_pok_dlog", G18+"::Keys::phase2_verify_vss_construct_keypair_phase3_pok_dlog")
p("GG20 key generation with honest parties is correct end to end",
  "If all n parties run the phases honestly then every phase returns Ok, every party outputs the same public key y = (sum u_i) G, every x_i G equals the published pk_i, and any t+1 of the x_i reconstruct the secret key of y.",
  "every n, every t<n, every secret polynomials and randomness",
  "All parameters and randomness.",
  G20+"::Keys", KGR)
p("GG18 key generation with honest parties is correct end to end",
  "Same statement for gg_2018 Keys: all phases return Ok, all parties agree on y, and any t+1 of the x_i reconstruct the secret key of y.",
  "every n, every t<n, every secret polynomials and randomness",
  "All parameters and randomness.",
  G18+"::Keys")
p("Key generation accepts a peer only if its opening and proofs verify",
  "The phase-1 verification step returns Ok exactly when every party's commitment opens to its revealed point and all its key/parameter proofs verify (and key sizes are in range for GG20); otherwise it returns an error whose reported bad actor really failed a check.",
  "every vector of received broadcasts and decommitments",
  "Adversarial message vectors.",
  G20+"::Keys::phase1_verify_com_phase3_verify_correct_key_verify_dlog_phase2_distribute", G18+"::Keys::phase1_verify_com_phase3_verify_correct_key_phase2_distribute")
p("Key generation error lists all malicious parties",
  "When verification in a GG20 phase fails because several parties misbehaved, the returned error lists every misbehaving party (README: identifiable abort returns a list of malicious parties).",
  "every vector of received messages with at least two cheaters",
  "Tests inject at most one fault.",
  G20+"::Keys", G20+"::SignKeys::phase4", G20+"::LocalSignature::phase5_verify_pdl", "README.md")
p("An honest party is never listed as bad actor by a GG20 phase check",
  "Whenever a GG20 check returns an error, every index in bad_actors is a party whose message in fact violates the check.",
  "every vector of messages, any number of cheaters",
  "Adversarial vectors.",
  G20+"::Keys", G20+"::SignKeys::phase4", G20+"::LocalSignature::phase5_verify_pdl", G20+"::LocalSignature::phase6_verify_proof")
p("Accepted key material is consistent even with malicious peers",
  "If an honest party's VSS verification and dlog-proof/VSS cross-check return Ok on arbitrary messages, then y is the sum of the y_j, its secret share satisfies x_i G = sum of the committed polynomials at i, and every pk_j in its output equals the committed polynomials' sum at j.",
  "every set of adversarial messages",
  "Adversarial messages.",
  G20+"::Keys::phase2_verify_vss_construct_keypair_phase3_pok_dlog", G20+"::Keys::verify_dlog_proofs_check_against_vss", KGR+"::Round4::proceed")
p("Key generation enforces the agreed threshold",
  "If all honest parties accept key generation with parameters (t,n), then any t+1 of the honest parties' shares reconstruct the secret key.",
  "every set of adversarial VSS schemes",
  "Needs an adversarial dealer using a higher-degree polynomial.",
  G20+"::Keys::phase2_verify_vss_construct_keypair_phase3_pok_dlog", G18+"::Keys::phase2_verify_vss_construct_keypair_phase3_pok_dlog")
p("Malformed VSS messages never crash a party",
  "For every VSS scheme deserialised from the network, the VSS verification step returns Ok or Err and does not panic.",
  "every commitments vector including the empty one",
  "Malformed lengths are never generated by the library's own code.",
  G20+"::Keys::phase2_verify_vss_construct_keypair_phase3_pok_dlog", G20+"::Keys::get_commitments_to_xi")
# ---- D. threshold signing
p("Additive shares of any signing subset sum to the key",
  "For every list of distinct signers of size > t, the w_i computed by SignKeys::create sum to the secret key, and g_w_vec returns exactly the points w_i G computed from public data.",
  "every subset, order, polynomial, t and n",
  "Exponentially many subsets.",
  G20+"::SignKeys::create", G20+"::SignKeys::g_w_vec", G18+"::SignKeys::create")
p("OfflineStage refuses signer sets too small to sign",
  "OfflineStage::new returns an error when the signer list has at most t members, since such a set cannot sign under the key.",
  "every signer list and local key",
  "The accepted-but-useless configuration is never exercised.",
  SG+"::OfflineStage::new")
p("MtA turns a product into additive shares",
  "After MessageA::a and MessageB::b between honest parties, verify_proofs_get_alpha returns Ok(alpha) with alpha + beta = a*b mod q whenever a*b + beta_tag < N, and otherwise returns an error, never a wrong share.",
  "every a, b, beta_tag, Paillier key and randomness",
  "Wrap-around in Z_N happens with negligible probability.",
  MTA+"::MessageA::a", MTA+"::MessageB::b", MTA+"::MessageB::verify_proofs_get_alpha")
p("An accepted MtA reply is bound to the announced public share",
  "If verify_proofs_get_alpha(dk, a) returns Ok(alpha) for an arbitrary MessageB then alpha*G = a*B + B' where B and B' are the points carried in the message's proofs.",
  "every MessageB, every decryption key, every a",
  "Adversarial messages.",
  MTA+"::MessageB::verify_proofs_get_alpha", MTA+"::MessageB::verify_proofs_get_alpha_gg18", MTA+"::MessageB::verify_b_against_public")
p("Bob answers only if every Alice range proof verifies",
  "MessageB::b returns Err unless MessageA carries exactly one range proof per dlog statement and each verifies; on Err nothing is computed from the secret b.",
  "every MessageA and list of statements",
  "Adversarial MessageA.",
  MTA+"::MessageB::b_with_predefined_randomness")
p("GG20 presigning with honest parties is correct",
  "With honest parties, delta reconstructs (sum k)(sum gamma), R equals (sum k)^-1 G for every party, the R-dash sum check and the S sum check pass and every proof verifies.",
  "every signer subset of size > t, all nonces and randomness with non-zero k*gamma and no Paillier wrap",
  "All subsets and randomness.",
  G20+"::SignKeys", G20+"::LocalSignature", SGR)
p("GG20 signing with honest parties always yields a valid signature",
  "Following the phases honestly, every party's output_signature returns Ok with the same signature, valid for the message under the joint key.",
  "every signer subset of size > t, every message, all randomness with non-degenerate values",
  "All subsets, messages and randomness.",
  G20+"::LocalSignature::phase7_local_sig", G20+"::LocalSignature::output_signature", SG+"::SignManual")
p("GG18 signing with honest parties always yields a valid signature",
  "Following the GG18 phases honestly (including phases 5a-5d), every check passes and output_signature returns the same valid signature at every party.",
  "every signer subset of size > t, every message, all randomness with non-degenerate values",
  "All subsets, messages and randomness.",
  G18+"::SignKeys", G18+"::LocalSignature")
p("Phase 4 fixes the nonce point only from committed values",
  "SignKeys::phase4 returns Ok(R) only if every other party's decommitment opens its phase-1 commitment and equals the point proven in MtA; then R = delta^-1 times the sum of the revealed points. Otherwise the reported bad actor really violated one of the two.",
  "every vector of decommitments, commitments and MtA proofs",
  "Adversarial vectors.",
  G20+"::SignKeys::phase4", G18+"::SignKeys::phase4")
p("Passing the GG20 pre-signature checks guarantees a valid signature from consistent shares",
  "If the R-dash sum check and the S sum check pass and each R-dash_i = k_i R, S_i = sigma_i R, then for every message the sum of m k_i + r sigma_i is a valid signature under y (unless the sum is 0), even if delta, k or sigma were chosen maliciously.",
  "every k_i, sigma_i, R and message",
  "Adversarial shares.",
  G20+"::LocalSignature::phase5_check_R_dash_sum", G20+"::LocalSignature::phase6_check_S_i_sum", G20+"::LocalSignature::phase7_local_sig")
p("GG18 phase 5 check detects an inconsistent partial signature",
  "If the committed V, A, B, T, U values are consistent with openings l_i, rho_i, s_i, then phase5d returns Ok exactly when rho*(s R - m G - r Q) is the identity; hence with a non-zero rho sum a wrong sum of s_i is rejected before any s_i is revealed.",
  "every s_i, l_i, rho_i",
  "Adversarial values.",
  G18+"::LocalSignature::phase5d")
p("Signing result does not depend on which authorised subset signs",
  "Any two authorised signer subsets using the same total nonce produce the same signature on the same message.",
  "every two subsets of size > t and every message",
  "Exponentially many pairs of subsets.",
  G20+"::SignKeys::create", G20+"::LocalSignature::output_signature")
# ---- E. blame
p("Phase 5 blame never accuses an honest party",
  "If a party's opened state is consistent with its broadcast messages and it computed delta honestly, it is not in the list returned by phase5_blame.",
  "every global state, any number of cheaters",
  "Adversarial global states.",
  BL+"::GlobalStatePhase5::phase5_blame")
p("Phase 5 blame finds a culprit",
  "If the opened values are inconsistent with the broadcast messages or some delta_i differs from the honest recomputation, phase5_blame returns a non-empty list containing a party that deviated.",
  "every global state",
  "Adversarial global states.",
  BL+"::GlobalStatePhase5::phase5_blame")
p("Phase 6 blame is sound and complete up to the proof system",
  "phase6_blame lists party i exactly when its opened mu/k do not re-encrypt to the broadcast ciphertexts, or (all openings being consistent) its ECDDH proof does not verify against the sigma_i recomputed in the exponent; an honest party is never listed.",
  "every global state",
  "Adversarial global states.",
  BL+"::GlobalStatePhase6::phase6_blame")
p("Phase 7 blame lists exactly the cheating signers",
  "phase7_blame lists exactly those i with s_i R != m R-dash_i + r S_i; an honest signer is never listed; if all partial signatures sum to an invalid signature while the R-dash/S sums are right, the list is non-empty.",
  "every vector of partial signatures",
  "Adversarial vectors.",
  BL+"::GlobalStatePhase7::phase7_blame")
# ---- F. zero-knowledge proofs
p("Alice range proof: honest proofs verify and accepted proofs bound the response",
  "An honestly generated AliceProof verifies whenever s1 = e*a + alpha <= q^3; every accepted proof has s1 <= q^3.",
  "every plaintext, randomness, modulus and dlog statement",
  "All moduli and randomness.",
  RP+"::AliceProof::generate", RP+"::AliceProof::verify")
p("Alice range proof: two accepting answers to one commitment determine an opening",
  "From two accepting transcripts with the same first message and different challenges one obtains integers solving z^(e-e') = h1^ds1 h2^ds2 mod N-tilde and c^(e-e') = (1+N)^ds1 ds^N mod N^2.",
  "every pair of transcripts",
  "Special soundness is a universal algebraic statement.",
  RP+"::AliceProof::verify")
p("Alice range proof rejects out-of-range responses",
  "Every accepted AliceProof has 0 <= s1 <= q^3.",
  "every proof",
  "Negative integers are never produced by the honest prover.",
  RP+"::AliceProof::verify")
p("Bob range proofs: completeness",
  "Honestly generated BobProof and BobProofExt verify whenever s1 = e*b + alpha <= q^3, for non-identity b*G and commitment point.",
  "every b, beta', randomness, ciphertext and statement",
  "All moduli and randomness.",
  RP+"::BobProof::generate", RP+"::BobProof::verify", RP+"::BobProofExt::verify")
p("BobProofExt binds the exponent to the public point",
  "From two accepting BobProofExt transcripts with the same first message and different challenges (mod q) the discrete log of X is determined by the responses.",
  "every pair of transcripts",
  "Special soundness.",
  RP+"::BobProofExt::verify")
p("Range-proof verification never crashes on adversarial proofs",
  "AliceProof, BobProof, BobProofExt and PDLwSlack verification return true/false (or Ok/Err) for every proof received from the network and never panic.",
  "every proof value including zeros, non-invertible elements and identity points",
  "Malformed proofs are not produced by the honest prover.",
  RP+"::AliceProof::verify", RP+"::BobProofExt::verify", PS+"::PDLwSlackProof::verify")
p("PDL with slack: honest proofs verify",
  "PDLwSlackProof::prove on a ciphertext of x and Q = x*G' yields a proof accepted by verify.",
  "every x, randomness, Paillier key and h1,h2,N-tilde with invertible elements",
  "All moduli and randomness.",
  PS+"::PDLwSlackProof::prove", PS+"::PDLwSlackProof::verify")
p("PDL with slack ties the curve point to the ciphertext",
  "From two accepting transcripts with the same commitments and different challenges, one integer difference ds1 satisfies both (e-e')Q = ds1 G' and c^(e-e') = (1+N)^ds1 ds2^N, so Q and the ciphertext share the exponent ds1/(e-e').",
  "every pair of transcripts",
  "Special soundness.",
  PS+"::PDLwSlackProof::verify")
p("Interactive PDL proof: completeness and soundness of the final check",
  "An honest zk_pdl run ends with Ok on both sides for every verifier randomness; and the verifier's finalize returns Ok only if the prover's revealed point equals a*Q + b*G and matches its commitment. The verifier's first message commits it to a and b: the prover answers no other challenge.",
  "every witness, verifier randomness a,b and Paillier key with N large enough",
  "All randomness; no-wrap boundary.",
  PD+"::Verifier", PD+"::Prover")
p("Schnorr and Pedersen proofs used by the protocols are complete and specially sound",
  "Honest DLogProof, ECDDHProof, HomoELGamalProof and PedersenProof verify; two accepting transcripts with distinct challenges yield the witness.",
  "every witness and every pair of transcripts",
  "Universal algebra.",
  G20+"::SignKeys::phase3_compute_t_i", G20+"::LocalSignature::phase6_compute_S_i_and_proof_of_consistency", BL+"::GlobalStatePhase6::ecddh_proof")
# ---- G. state machines
p("Keygen constructor validates its parameters",
  "Keygen::new(i,t,n) returns Ok exactly when n>=2, 1<=t<=n-1 and 1<=i<=n, otherwise the documented error, checked in the documented order.",
  "every triple of 16-bit integers",
  "2^48 inputs.",
  KG+"::Keygen::new")
p("OfflineStage constructor validates its parameters",
  "OfflineStage::new(i, s_l, key) returns Ok exactly when s_l has between 2 and 65535 distinct entries in [1,n] and 1<=i<=len; otherwise the documented error.",
  "every index, list and key",
  "Unbounded lists.",
  SG+"::OfflineStage::new")
p("Bad messages are refused without changing the state",
  "A message with an unknown sender, wrong addressing, or duplicate of an already received message is rejected with an error (a message bearing one's own index is ignored) and leaves every observable of the machine unchanged.",
  "every reachable state and every message",
  "All histories.",
  KG+"::Keygen::handle_incoming", SG+"::OfflineStage::handle_incoming")
p("Message delivery order does not matter",
  "Delivering the same set of valid messages in any order, interleaved with proceed calls in any way, leads a Keygen / OfflineStage machine to the same output and the same set of outgoing messages.",
  "every permutation of deliveries and placement of proceed calls",
  "Factorially many schedules.",
  KG+"::Keygen", SG+"::OfflineStage")
p("Output is produced at most once and only after finishing",
  "pick_output returns None before the protocol finishes, Some(Ok(_)) at most once, and Some(Err(DoublePickOutput)) ever after.",
  "every history of API calls",
  "All histories.",
  KG+"::Keygen::pick_output", SG+"::OfflineStage::pick_output")
p("A failed round is final",
  "After handle_incoming or proceed reports a round error, the machine never produces an output and never sends another message, whatever is called later.",
  "every history of API calls after the failure",
  "All histories.",
  KG+"::Keygen::proceed_round", SG+"::OfflineStage::proceed_round")
p("The round number never decreases and every round's message is sent once",
  "current_round is non-decreasing along any history, and over any history a party enqueues its broadcast of each round at most once and one point-to-point message per peer at most once, all carrying its own index as sender.",
  "every history of API calls",
  "All histories.",
  KG+"::Keygen", SG+"::OfflineStage")
p("wants_to_proceed is accurate",
  "wants_to_proceed() is true exactly when calling proceed() would execute a round (change current_round or fail).",
  "every reachable state",
  "All histories.",
  KG+"::Keygen::wants_to_proceed", SG+"::OfflineStage::wants_to_proceed")
p("round_blame names exactly the silent parties",
  "In any round that waits for messages, round_blame returns the number of missing messages and exactly the indices of the parties whose message for that round has not been accepted.",
  "every reachable state",
  "All histories.",
  KG+"::Keygen::round_blame", SG+"::OfflineStage::round_blame")
p("Out-of-order errors report the message's round",
  "When handle_incoming returns ReceivedOutOfOrderMessage, msg_round is the round the message belongs to.",
  "every reachable state and message",
  "All histories.",
  SG+"::OfflineStage::handle_incoming", KG+"::Keygen::handle_incoming")
p("Honest Keygen machines finish under every schedule",
  "n honest Keygen machines whose queued messages are all eventually delivered, in any order, all finish with Ok and identical public key, and their local keys satisfy the key generation correctness statement.",
  "every n, t, randomness and delivery schedule",
  "Unbounded schedules.",
  KG+"::Keygen", KGR)
p("Honest OfflineStage machines finish under every schedule",
  "Honest OfflineStage machines of any authorised signer set, with messages delivered in any order, all finish with the same R and then SignManual::complete gives the same valid signature at every party.",
  "every signer set, randomness, message and schedule",
  "Unbounded schedules.",
  SG+"::OfflineStage", SG+"::SignManual", SGR)
p("Adversarial messages never crash the signing state machine",
  "For every sequence of incoming messages, OfflineStage and SignManual return Ok or Err and never panic.",
  "every message sequence",
  "Adversarial messages.",
  SGR)
# ---- H. message relays
p("gg20 manager delivers a room's history in order, exactly once",
  "A subscriber receives exactly the messages published in the room after its last-seen id, in publication order, each once, with consecutive ids.",
  "every interleaving of publish and subscribe operations on a room",
  "All interleavings.",
  M20+"::Room::publish", M20+"::Subscription::next")
p("gg20 manager issues unique indices",
  "All indices issued in one room are distinct and consecutive from 1 (for fewer than 65535 requests).",
  "every interleaving of issue_idx calls",
  "All interleavings.",
  M20+"::Room::issue_unique_idx")
p("gg20 manager keeps messages published before anybody subscribes",
  "A message accepted by the broadcast endpoint is delivered to every party that subscribes to that room afterwards.",
  "every history of requests",
  "Needs specific interleavings (all subscribers disconnected).",
  M20+"::Db::get_room_or_create_empty")
p("gg20 manager puts all concurrent participants in one room",
  "Participants subscribing concurrently to the same room id share one history.",
  "every interleaving of the handlers' atomic steps",
  "A race between two lock sections.",
  M20+"::subscribe", M20+"::Db::get_room_or_create_empty")
p("gg18 manager signup hands out distinct party numbers per session",
  "Within one session uuid, signup never gives the same number twice and never a number above the number of parties; after parties signups a new session starts.",
  "every history of signup requests; every interleaving of concurrent ones",
  "Concurrent interleavings.",
  M18+"::signup_keygen", M18+"::signup_sign")
p("gg18 manager get returns the last value set",
  "get(key) returns the value of the latest completed set(key, _), and an error if there was none; distinct keys never interfere.",
  "every history of set/get requests",
  "All histories.",
  M18+"::get", M18+"::set")
p("Message keys of distinct messages never collide",
  "The relay keys built for broadcasts and point-to-point messages are injective: different (sender, receiver, round, session) never map to the same key, so parties never read each other's messages by mistake.",
  "every sender, receiver, round name and session id",
  "Unbounded strings.",
  "examples/common.rs::broadcast", "examples/common.rs::sendp2p", "examples/common.rs::poll_for_p2p")
# ---- I. two-party message checks
p("Two-party key generation second message binds the public share",
  "party two's verify_commitments_and_dlog_proof returns Ok only if the revealed public share opens party one's commitment, opens the proof commitment and the attached proof of knowledge is for that same public share.",
  "every first/second message of a malicious party one",
  "Adversarial messages.",
  L2+"::KeyGenSecondMsg::verify_commitments_and_dlog_proof", C2+"::KeyGenSecondMsg::verify_commitments_and_dlog_proof")
p("Ephemeral key exchange binds both nonces",
  "Both sides' ephemeral verification functions return Ok only if the revealed point opens the earlier commitment and the ECDDH proof shows the same scalar for both points.",
  "every message of a malicious peer",
  "Adversarial messages.",
  L1+"::EphKeyGenSecondMsg::verify_commitments_and_dlog_proof", L2+"::EphKeyGenSecondMsg::verify_and_decommit", C1+"::EphKeyGenSecondMsg", C2+"::EphKeyGenSecondMsg")
p("Mixing a two-party Lindell key into MtA keeps the product relation",
  "to_mta_message_b / verify_b_against_public accept exactly when the MtA reply was computed with the party's key share.",
  "every key share and message",
  "Adversarial messages.",
  L1+"::Party1Private::to_mta_message_b", L2+"::Party2Private::to_mta_message_b", MTA+"::MessageB::verify_b_against_public")
p("Key refresh of threshold shares preserves the key",
  "Updating every party's private share by adding shares of zero (update_private_key / update_commitments_to_xi) keeps any t+1 subset reconstructing the same secret, and get_commitments_to_xi of the sum equals the shares in the exponent.",
  "every polynomial with zero constant term, any number of refreshes",
  "Arbitrary refresh histories.",
  G20+"::PartyPrivate::update_private_key", G20+"::Keys::get_commitments_to_xi", G20+"::Keys::update_commitments_to_xi", G18+"::PartyPrivate::update_private_key")
# ---- J. added while modelling
p("An accepted range or PDL proof says something about the ciphertext",
  "If AliceProof, BobProofExt or PDLwSlackProof verification accepts, the ciphertext is not arbitrary: there is no way to write down an accepted proof for every invertible ciphertext without knowing its plaintext.",
  "every ciphertext, modulus and dlog statement",
  "Forged proofs use values (s = 0) no honest prover produces.",
  "src/utilities/mta/range_proofs.rs::AliceProof::verify", "src/utilities/mta/range_proofs.rs::BobProofExt::verify", "src/utilities/zk_pdl_with_slack/mod.rs::PDLwSlackProof::verify")
p("Lindell pdl_verify ties the encrypted share to Q1",
  "If party two's PaillierPublic::pdl_verify accepts, the Paillier ciphertext encrypts the discrete logarithm (to the generator) of party one's public share.",
  "every statement, proof and ciphertext of a malicious party one; every share of an honest one",
  "Adversarial proofs; honest tests never send a statement with another base or s2 = 0.",
  L2+"::PaillierPublic::pdl_verify", L1+"::PaillierKeyPair::pdl_proof")
p("Party one checks party two's public share",
  "Party one's verify_and_decommit returns Ok only if the proof of knowledge is for the public share that party one then uses in compute_pubkey.",
  "every first message of a malicious party two",
  "Tests only use honest messages.",
  L1+"::KeyGenSecondMsg::verify_and_decommit", C1+"::KeyGenSecondMsg::verify_and_decommit")
p("Two-party key generation never yields the identity as joint key",
  "For every sampled pair of non-zero scalars the joint public key is not the point at infinity.",
  "every sampled pair of shares",
  "The bad samples have negligible probability and never occur in a test.",
  L1+"::KeyGenFirstMsg::create_commitments", C1+"::KeyGenFirstMsg::create_commitments", C1+"::compute_pubkey")
p("GG18 phase 5c ties the proof of knowledge of rho to A_i",
  "If phase5c accepts, the discrete-log proof at position i is for the point A_i that party i committed to in phase 5a.",
  "every phase 5a/5b message of malicious signers",
  "Tests only use honest signers, whose proof is always for A_i.",
  G18+"::LocalSignature::phase5c")
p("A signing round proceeds only after checking every peer message",
  "If Round1, Round2, Round3, Round5 or Round6 of the offline stage (and round 3 of the GG18 client) proceeds, then every message it consumed passed all checks of that round: one valid range proof per party's parameters with every encrypted nonce, MtA answers tied to the sender's public share, Pedersen proofs tied to T_i, one valid PDL proof per receiver, consistency proofs for S_i.",
  "every message vector of malicious signers",
  "Adversarial messages; tests never check that a single dropped check would be noticed.",
  "src/protocols/multi_party_ecdsa/gg_2020/state_machine/sign/rounds.rs::Round1::proceed", "src/protocols/multi_party_ecdsa/gg_2020/state_machine/sign/rounds.rs::Round2::proceed", "src/protocols/multi_party_ecdsa/gg_2020/state_machine/sign/rounds.rs::Round3::proceed", "src/protocols/multi_party_ecdsa/gg_2020/state_machine/sign/rounds.rs::Round5::proceed", "src/protocols/multi_party_ecdsa/gg_2020/state_machine/sign/rounds.rs::Round6::proceed", "examples/gg18_sign_client.rs::main")
p("GG18 phase 5d opens every phase 5c commitment",
  "phase5d returns Ok exactly when every revealed (U_i, T_i) opens the commitment of phase 5c and sum T + sum B = sum U; a failed opening is reported as InvalidCom, failed sums as InvalidKey. Two accepted openings of one commitment of phase 5a or 5c show the same points unless the two openings are a hash collision.",
  "every vector of openings and commitments",
  "Adversarial openings.",
  G18+"::LocalSignature::phase5d")
p("Extracted Paillier randomness opens the ciphertext",
  "For a well-formed key with gcd(n, phi(n)) = 1 and any ciphertext, extract_paillier_randomness returns the randomness used (modulo n), and encrypting the decrypted plaintext with it gives the ciphertext back; hence an honest party's phase 6 openings of mu always pass.",
  "every key, plaintext and randomness", "Universal algebraic claim.",
  BL + "::GlobalStatePhase6::extract_paillier_randomness")
p("Local blame states are transposed correctly",
  "GlobalStatePhase5::local_state_to_global_state and GlobalStatePhase6::local_state_to_global_state place the values party p opened for its exchange with party i exactly where phase5_blame and phase6_blame look for the exchange of i with p.",
  "any number of parties", "Index arithmetic over all sizes.",
  BL + "::GlobalStatePhase5::local_state_to_global_state", BL + "::GlobalStatePhase6::local_state_to_global_state")
p("Malformed openings do not crash the blame protocol",
  "A party that opens vectors of the wrong length cannot make local_state_to_global_state panic at the other parties.",
  "every opened local state", "Adversarial input.",
  BL + "::GlobalStatePhase5::local_state_to_global_state", BL + "::GlobalStatePhase6::local_state_to_global_state")
p("OfflineStage checks that the key belongs to the caller's position",
  "OfflineStage::new(i, s_l, key) returns an error when s_l[i-1] is not the index the local key belongs to (key.i).",
  "every index, list and key", "A mismatch only shows later as a failed round, blamed on somebody else.",
  SG+"::OfflineStage::new")
p("Polling the gg18 relay returns every peer's own message",
  "poll_for_broadcasts / poll_for_p2p return exactly the messages the other parties sent for that round and session (and receiver), in order of party number, and keep waiting while one is missing.",
  "every history of requests of parties following the protocol, every round name without a dash, every number of parties", "Depends on key uniqueness and on all interleavings.",
  "examples/common.rs::poll_for_broadcasts", "examples/common.rs::poll_for_p2p", "examples/gg18_sm_manager.rs::get", "examples/gg18_sm_manager.rs::set")
p("Key generation clients finish through the relay",
  "n gg20_keygen clients and one gg20_sm_manager, run as one system: if every client is given the number of its party then, whatever the interleaving of client and server steps, no client fails, every execution comes to rest after a bounded number of steps, at rest every client has left with the correct key, and from any point where all clients have their numbers this can be reached.",
  "every number of parties with n(n+2) messages fitting the room, every threshold, every interleaving of all programs' steps", "Interleavings of client steps, server tasks and the state machines cannot be enumerated; tests run one schedule.",
  "examples/gg20_keygen.rs::main", "examples/gg20_sm_client.rs::join_computation", "examples/gg20_sm_manager.rs::subscribe", "examples/gg20_sm_manager.rs::broadcast", "examples/gg20_sm_manager.rs::issue_idx")
p("Offline stage clients finish through the relay",
  "The clients of gg20_signing, offline stage, and one relay: as for key generation; all leave with the same R and presignatures that give everyone the same valid signature.",
  "every signer set, every interleaving of all programs' steps", "As for key generation.",
  "examples/gg20_signing.rs::main", "examples/gg20_sm_client.rs::join_computation", "examples/gg20_sm_manager.rs::subscribe", "examples/gg20_sm_manager.rs::broadcast", "examples/gg20_sm_manager.rs::issue_idx")
p("Key generation clients may join in any order",
  "Since gg20_keygen uses --index and not the number issued by the room, key generation finishes whatever the order in which the clients get their numbers.",
  "every order of arrival and every interleaving", "Tests start the clients in order.",
  "examples/gg20_keygen.rs::main", "examples/gg20_sm_client.rs::join_computation")
p("Offline stage clients may join in any order",
  "gg20_signing takes the number issued by the offline room as its position in the list of signers, so presigning finishes whatever the order in which the clients get their numbers.",
  "every order of arrival, every interleaving, every signer set with distinct shares", "Tests start the clients in the order of the list.",
  "examples/gg20_signing.rs::main", "examples/gg20_sm_client.rs::join_computation")
p("Clients of one room read the same messages, once and in order",
  "Whatever state machines the clients of the GG20 example run, whatever numbers they were given and however requests and notifications interleave, each relay room has one list of messages; each client's machine is handed a beginning of that list without the messages not addressed to its number; each sender's messages stand in it in the order its machine handed them over; two clients get the messages addressed to both in the same order; nothing is handed over twice unless a machine sent it twice, and nothing that no machine sent.",
  "for all machines, serialisations with left inverse, numbers of clients and schedules of clients and server; in builds without overflow checks: as long as no room got more than 65535 messages",
  "The guarantee depends on every interleaving of publish, subscribe, notify and read steps of several tasks",
  "examples/gg20_sm_client.rs::join_computation", "examples/gg20_sm_manager.rs::subscribe", "examples/gg20_sm_manager.rs::Room::publish", "examples/gg20_sm_manager.rs::Subscription::next")
p("Signing clients print one valid signature however they join the online room",
  "After an honest offline stage the signing clients join a second room, post their partial signatures and take the others'. Whatever the order in which they join the online room, the message and the schedule: no client fails, the exchange ends, and every client prints the same valid signature.",
  "for all honest offline stages of any number of signers, messages with non-zero total, schedules of clients and server, and numbers issued by the online room",
  "The filter uses the number from the online room while the sender field carries the number from the offline room; tests join both rooms in the same order",
  "examples/gg20_signing.rs::main", "examples/gg20_sm_client.rs::join_computation", "src/protocols/multi_party_ecdsa/gg_2020/state_machine/sign.rs::SignManual::complete")
p("GG18 key generation clients all write consistent key files",
  "Clients with the numbers 1..n of one session of the relay, with nonzero contributions and valid Paillier proofs, never panic and all end: whatever the order of their requests, lost answers and other users of the relay, at most 10 n^2 requests bring a client forward, and when nothing is left to do every client has written its file with the same public key, its own share, and everyone's commitments and Paillier keys; any t+1 shares reconstruct the key.",
  "for all curves, n, t < n, random choices, schedules, retried requests, other users of the server and earlier uses of it",
  "The number of interleavings of polling clients is unbounded; the example runs one on a local machine",
  "examples/gg18_keygen_client.rs::main", "examples/common.rs::poll_for_broadcasts", "examples/common.rs::poll_for_p2p", "examples/common.rs::broadcast", "examples/common.rs::sendp2p", "examples/gg18_sm_manager.rs::set")
p("GG18 clients that signed up finish",
  "Clients that take their numbers and the uuid of the session from the relay's signup all finish, however their signup requests interleave and whichever answers get lost.",
  "for all n, numbers issued, random choices, schedules and other users of the server",
  "The numbers depend on a race between two lock sections of the signup handler",
  "examples/gg18_sm_manager.rs::signup_keygen", "examples/gg18_keygen_client.rs::signup", "examples/gg18_keygen_client.rs::main")
p("GG18 signing clients all write the same valid signature",
  "t+1 GG18 signing clients holding the key files of one key generation, with the numbers 1..t+1 of one session of the relay and one message below 2^256, never panic and all end, whatever the order of their requests, lost answers and other users of the relay: every client writes the same signature, it is in low-s form and valid ECDSA for the key and the message. This needs a nonzero key, nonce point and s.",
  "for all curves, signer sets, random choices, schedules, retried requests, other users of the server and earlier uses of it; also with the key files written by a key generation session",
  "The number of interleavings of polling clients is unbounded; the example runs one on a local machine",
  "examples/gg18_sign_client.rs::main", "examples/common.rs::check_sig", "examples/common.rs::poll_for_broadcasts", "examples/common.rs::poll_for_p2p", "examples/gg18_sm_manager.rs::set")
p("Different messages on the command line are signed differently",
  "Two different command-line messages are never signed as the same number, no signature made for one text is valid for another, and every message can be signed.",
  "for all strings, both clients, all keys and signatures",
  "Aliases depend on the hex parser, leading zeros and reduction modulo the order; tests sign a fixed message",
  "examples/gg18_sign_client.rs::main", "examples/gg20_signing.rs::main", "examples/common.rs::check_sig")
p("What a GG18 client writes is checked",
  "Whatever the relay holds and whatever others store in it under any key: a signature written by a GG18 signing client is low-s and valid for the key in its file and its message; a key file written by a GG18 key generation client has n commitment vectors and Paillier keys with verified proofs, the client's own among them, a key that is the sum of the committed constant terms, and a share that lies on the sum of the committed polynomials.",
  "for all clients, server states, schedules and requests of others, including overwriting the session's keys",
  "Hostile stored values and interleavings are unbounded",
  "examples/gg18_sign_client.rs::main", "examples/gg18_keygen_client.rs::main", "examples/common.rs::check_sig", "examples/gg18_sm_manager.rs::set")
p("GG18 key generation clients of one session agree on the key",
  "Clients of one session that all write key files hold the same public key, whatever other users of the relay store.",
  "for all n, random choices, server states and requests of others",
  "Needs an adversary that overwrites messages in the relay between two reads",
  "examples/gg18_sm_manager.rs::set", "examples/gg18_keygen_client.rs::main", "examples/common.rs::broadcast")
p("Auxiliary parameters of GG20 key generation are proved correctly",
  "Honestly generated parameters (N~, h1, h2) pass both discrete logarithm proofs, and h1 and h2 are powers of each other; two accepted answers give a relation between them; an accepted proof shows that h2 is a power of h1; malformed parameters are rejected with an error that names the sender.",
  "for all primes, samples, challenges, secrets and hash functions; all broadcasts of the other parties",
  "Needs number theory over all moduli (Euler, quadratic residues), hostile parameters and all challenges",
  "src/protocols/multi_party_ecdsa/gg_2020/party_i.rs::generate_h1_h2_N_tilde", "src/protocols/multi_party_ecdsa/gg_2020/party_i.rs::Keys::phase1_broadcast_phase3_proof_of_correct_key_proof_of_correct_h1h2", "src/protocols/multi_party_ecdsa/gg_2020/party_i.rs::Keys::phase1_verify_com_phase3_verify_correct_key_verify_dlog_phase2_distribute")
p("Paillier keys are proved correct",
  "An honestly generated Paillier key passes the correct-key proof, so honest GG20 parties with honestly generated keys and parameters finish key generation; an accepted proof shows that the modulus is a product of two primes, prime to its phi; a malformed proof is rejected with an error.",
  "for all primes, hash functions, proofs and moduli",
  "Needs roots modulo all composite numbers and hostile moduli (squares, related primes, primes)",
  "src/protocols/multi_party_ecdsa/gg_2020/party_i.rs::Keys::phase1_verify_com_phase3_verify_correct_key_verify_dlog_phase2_distribute", "src/protocols/multi_party_ecdsa/gg_2018/party_i.rs::Keys::phase1_verify_com_phase3_verify_correct_key_phase2_distribute", "src/protocols/two_party_ecdsa/lindell_2017/party_two.rs::PaillierPublic::verify_ni_proof_correct_key")
p("Published values reveal nothing more about the secrets than intended",
  "An honest Schnorr, ECDDH or homomorphic ElGamal proof depends on the statement only; Bob's MtA ciphertext hides b; Alice's integer response hides a up to the ends of its range; the phase 3 message of GG20 (T_i and its proof) reveals nothing about sigma_i.",
  "for all witnesses, nonces, challenges, hash functions, keys and ciphertexts",
  "Distributions are sets of nonces; tests never compare the views for different secrets",
  "src/protocols/multi_party_ecdsa/gg_2020/party_i.rs::SignKeys::phase3_compute_t_i", "src/utilities/mta/mod.rs::MessageB::b_with_predefined_randomness", "src/utilities/mta/range_proofs.rs::AliceProof::generate")
p("secp256k1 has every property of curves the other theorems use",
  "With p = 2^256 - 2^32 - 977 and the standard generator G, the solutions of y^2 = x^3 + 7 modulo p and infinity form a commutative group under the chord and tangent rule, of prime order n; every point is a unique multiple k G with 0 <= k < n; scalar multiplication is repeated addition; the second base point is on the curve and a non-zero multiple of G. So every theorem about an arbitrary curve holds for secp256k1.",
  "for all points and scalars of secp256k1",
  "The group has about 2^256 points",
  "src/protocols/two_party_ecdsa/lindell_2017/party_one.rs::KeyGenFirstMsg::create_commitments", "src/protocols/multi_party_ecdsa/gg_2020/party_i.rs::Keys::create", "src/protocols/multi_party_ecdsa/gg_2020/party_i.rs::verify", "Cargo.toml")
p("GG20 on secp256k1 with the library's keys outputs valid signatures, except for one nonce point and its opposite",
  "On secp256k1, with Paillier keys and auxiliary parameters made and proved as the library does, hashes below 2^256 and samples inside their ranges (masks not in the last 2^512 values), n parties generate a key and any t+1 or more of them sign: every signer outputs the same signature with low s, valid under the joint key, unless the nonce point has x = n or s = 0. No point has x = 0, exactly two have x = n; for these the code outputs r = 0.",
  "for all t < n < 65536, messages, subsets of signers, keys, samples and hash functions with 256-bit values",
  "The exceptional nonces cannot be found; key material has 2048 bits",
  "src/protocols/multi_party_ecdsa/gg_2020/state_machine/keygen.rs::Keygen", "src/protocols/multi_party_ecdsa/gg_2020/state_machine/sign.rs::OfflineStage", "src/protocols/multi_party_ecdsa/gg_2020/party_i.rs::LocalSignature::output_signature", "src/utilities/mta/range_proofs.rs::AliceProof::generate")
p("Encrypted backups open only to the share, and all parties' backups give the private key",
  "to_encrypted_segment splits a share into bit segments and encrypts each under the recovery key. With at most 255 segments the holder of the recovery key can open a backup in exactly one way; if size * number reaches the bit length of the order the segments assemble to the share. The backups of both Lindell parties (before or after refreshes, not mixed) or of all n GG parties give the private key of the joint public key. Too few segments lose bits silently; t+1 backups do not suffice; a GG party's backup does not determine the share it signs with.",
  "for all shares, segment sizes and numbers, recovery keys, base points, masks, refresh histories and key generation runs",
  "Tests use one size and do not reconstruct a key",
  "src/protocols/two_party_ecdsa/lindell_2017/party_one.rs::Party1Private::to_encrypted_segment", "src/protocols/two_party_ecdsa/lindell_2017/party_two.rs::Party2Private::to_encrypted_segment", "src/protocols/multi_party_ecdsa/gg_2018/party_i.rs::PartyPrivate::to_encrypted_segment", "src/protocols/multi_party_ecdsa/gg_2020/party_i.rs::PartyPrivate::to_encrypted_segment")
p("Debug output shows progress and nothing of the messages",
  "The Debug output of Keygen and OfflineStage never panics (the usize subtractions do not underflow). After every history of calls it shows the current round, for each round's store how many of the other parties' messages of that round have been delivered out of n-1 (or that all were and have been used), and the length of the outgoing queue. It depends on nothing else of the state: no secret or message content. The offline stage's sixth store is not shown, so progress in round 6 is invisible.",
  "for all curves, oracles, parameters and histories of calls",
  "Tests print the state at a few points and do not check the text",
  "src/protocols/multi_party_ecdsa/gg_2020/state_machine/keygen.rs::Keygen::fmt", "src/protocols/multi_party_ecdsa/gg_2020/state_machine/sign/fmt.rs::OfflineStageProgress::from")
p("MtA replies tell the asking signer nothing about the other signers' key shares",
  "Whatever ciphertext a signer sends as its first message, the answers of the other signers do not let it test guesses of parts of their shares w. (Refuted.) A signer that puts 2^-L mod N instead of its nonce in its first message (with range proofs forged by s = 0 in GG20, with none in GG18) is answered, and from each reply can tell the low L bits of the answering signer's share w. Replies of enough sessions with the same signers give all of w, and with the attacker's own share the private key.",
  "for all curves, hashes, group keys, signer sets, positions, randomness of the honest signers, numbers of bits asked for per session and attacker keys",
  "Tests only run honest signers",
  "src/utilities/mta/mod.rs::MessageB::b", "src/utilities/mta/mod.rs::MessageA::a", "src/utilities/mta/range_proofs.rs::AliceProof::verify", "src/protocols/multi_party_ecdsa/gg_2020/state_machine/sign/rounds.rs::Round1::proceed", "examples/gg18_sign_client.rs::main")
p("Repeating key generation with refreshed keys keeps the public key, renews the shares and retires the old ones",
  "If the parties run key generation again from refresh_private_key of their state, any number of times, every run succeeds; the public key changes by the sum of all factors times G, so it is kept exactly if they add up to 0; the u_i still add up to the private key, any t+1 new shares determine it, and t+1 or more parties sign with the new keys under the first public key. One old share among new ones gives the right key only if it had not changed. (Refuted: that old keys are retired, and that keys of different runs work together.)",
  "for all thresholds, party numbers, randomness, factors, numbers of repetitions, signer sets and messages; GG18 and GG20",
  "No test calls refresh_private_key",
  "src/protocols/multi_party_ecdsa/gg_2018/party_i.rs::PartyPrivate::refresh_private_key", "src/protocols/multi_party_ecdsa/gg_2020/party_i.rs::PartyPrivate::refresh_private_key", "src/protocols/multi_party_ecdsa/gg_2018/party_i.rs::PartyPrivate::set_private", "src/protocols/multi_party_ecdsa/gg_2020/party_i.rs::PartyPrivate::set_private")
p("A completed offline stage can be used for signing several messages",
  "One CompletedOfflineStage, cloned and used with several messages, gives a valid signature on each, and the signatures together reveal no more than the messages signed. (Refuted: two signatures on messages different modulo the order give the private key to everybody who knows the public key; the broadcast partial signatures give every signer's nonce share and sigma share. Likewise for GG18 and the two-party protocols when the ephemeral values are used twice, and for any two valid signatures with the same r.)",
  "for all curves, keys, signer sets, runs, pairs of messages and signatures",
  "The tests check that signatures verify, not what they reveal; the documentation recommends the use",
  "src/protocols/multi_party_ecdsa/gg_2020/state_machine/sign.rs::OfflineStage", "src/protocols/multi_party_ecdsa/gg_2020/state_machine/sign.rs::SignManual::new", "src/protocols/multi_party_ecdsa/gg_2020/state_machine/sign/rounds.rs::CompletedOfflineStage", "src/protocols/multi_party_ecdsa/gg_2020/party_i.rs::LocalSignature::phase7_local_sig")
p("The other parties' contributions are fixed before a machine opens its own",
  "A key generation machine sends its opening only after it has every other party's commitment, and a signing machine likewise; nothing of round k+1 leaves before every other party's messages of all rounds up to k are in. Once the opening is out, all ways to go on that end with a key end with the same public key, unless some party showed two different openings of its commitment; all ways to go on that end with a presignature end with the same nonce point R, without exception. A commitment is moreover bound to its sender (refuted: copies of the machine's own round-1 and round-2 messages are accepted from any other party, and the machine deals that party a share).",
  "for all parties, thresholds, signer sets, histories of calls and pairs of continuations, all hash functions",
  "A test runs one continuation; this compares all continuations of a history after the opening was sent",
  "src/protocols/multi_party_ecdsa/gg_2020/state_machine/keygen/rounds.rs::Round1::proceed", "src/protocols/multi_party_ecdsa/gg_2020/state_machine/keygen/rounds.rs::Round2::proceed", "src/protocols/multi_party_ecdsa/gg_2020/party_i.rs::Keys::phase1_verify_com_phase3_verify_correct_key_verify_dlog_phase2_distribute", "src/protocols/multi_party_ecdsa/gg_2020/state_machine/sign/rounds.rs::Round4::proceed", "src/protocols/multi_party_ecdsa/gg_2020/party_i.rs::SignKeys::phase4")
p("What t parties of each run of key generation know is compatible with every key",
  "After a run of key generation, and after any number of repetitions with refresh_private_key, the private values of at most t parties (u_i, their polynomials, all shares dealt to them, x_i), with the factors and everything else that is sampled, are compatible with every private key. For parties corrupted in different runs this holds exactly if some party is corrupted in no run. (Refuted: that t corruptions per run always leave the key hidden.)",
  "for all thresholds, party numbers, randomness, factors, numbers of repetitions, corrupted sets and keys",
  "A test sees one key; this says what a set of parties can not know",
  "src/protocols/multi_party_ecdsa/gg_2020/party_i.rs::PartyPrivate::refresh_private_key", "src/protocols/multi_party_ecdsa/gg_2020/party_i.rs::PartyPrivate::set_private", "src/protocols/multi_party_ecdsa/gg_2020/party_i.rs::Keys::phase1_verify_com_phase3_verify_correct_key_verify_dlog_phase2_distribute", "src/protocols/multi_party_ecdsa/gg_2020/party_i.rs::Keys::phase2_verify_vss_construct_keypair_phase3_pok_dlog")
p("Key generation machines that finish agree on the key when more than t of them follow the code and party 1 is among them",
  "If the machines of more than t parties, party 1 among them, follow the code and the messages between them arrive as sent, those that finish hold the same public key and the same public shares, whatever the other parties send to each of them, and without any broadcast channel. (Refuted: that they agree if at most t follow the code, or if party 1 does not: then one party can give each machine a key of its own.)",
  "for all curves, hash functions, thresholds, party numbers, samples, histories of calls and messages of the other parties",
  "Needs a party that shows different messages to different machines, in every position and number",
  "src/protocols/multi_party_ecdsa/gg_2020/state_machine/keygen.rs::Keygen", "src/protocols/multi_party_ecdsa/gg_2020/party_i.rs::Keys::get_commitments_to_xi", "src/protocols/multi_party_ecdsa/gg_2020/party_i.rs::Keys::verify_dlog_proofs_check_against_vss", "src/protocols/multi_party_ecdsa/gg_2020/party_i.rs::Keys::phase2_verify_vss_construct_keypair_phase3_pok_dlog")
p("is_critical tells whether a machine can go on, and a caller relying on it is not disturbed by messages that should be refused",
  "In the offline stage of signing, a call that returns a non-critical error leaves the machine as it was, and after a critical error no later call yields an output; so a caller that goes on after non-critical errors and gives up at critical ones ends in the same state, with the same output and the same messages sent, as if the messages that should be refused had never arrived. (Refuted for key generation: every error there is critical, so one repeated, late or misaddressed message, or one from an unknown party, ends the caller although the machine is unchanged and could go on.)",
  "for all curves, hash functions, samples, keys, histories of calls and messages",
  "Needs every history of calls with every kind of stray message at every point",
  "src/protocols/multi_party_ecdsa/gg_2020/state_machine/sign.rs::is_critical", "src/protocols/multi_party_ecdsa/gg_2020/state_machine/keygen.rs::is_critical", "src/protocols/multi_party_ecdsa/gg_2020/state_machine/sign.rs::OfflineStage::handle_incoming", "src/protocols/multi_party_ecdsa/gg_2020/state_machine/keygen.rs::Keygen::handle_incoming")
p("Offline machines that finish on each other's round-5 messages hold the same nonce point",
  "If two machines of the offline stage, run for the same signers, both finish, and the round-5 message one of them took as the other's is one that other sent, then both hold the same nonce point R, whatever the remaining signers sent to each of them; or else every consistency proof in that message, made for one point, was accepted for another because the hash, asked about two different lists, gave a pair of answers of which the second is, for k and R not zero, the only such residue modulo the group order.",
  "for all curves, hash functions, samples, keys, signer lists and histories of calls of both machines, whatever other messages they are given",
  "Needs all behaviours of the other signers towards both machines at once",
  "src/protocols/multi_party_ecdsa/gg_2020/state_machine/sign/rounds.rs::Round4::proceed", "src/protocols/multi_party_ecdsa/gg_2020/state_machine/sign/rounds.rs::Round5::proceed", "src/protocols/multi_party_ecdsa/gg_2020/party_i.rs::phase5_proof_pdl", "src/protocols/multi_party_ecdsa/gg_2020/party_i.rs::phase5_verify_pdl", "src/utilities/zk_pdl_with_slack/mod.rs::PDLwSlackProof::verify")
p("Whether a two-party signature verifies tells party two nothing about party one's share",
  "Party two sees whether party one's signature came out. In the two-party protocols, whatever it sends as partial signature, that outcome does not depend on party one's share, up to the trial of a constant number of guesses. (Lindell 2017: refuted, each attempt gives one bit of the share and as many attempts as the group order has bits give all of it. CCLST 2019: for every affine evaluation on the encrypted share the outcome is the same for all shares but one, or positive for at most two.)",
  "for all curves, shares, nonces, messages, Paillier keys above q^3 + q^2 and encryption randomness, and for all coefficients party two evaluates",
  "A test with an honest party two never sees a failure; the claim is about which shares make a dishonest partial signature verify",
  "src/protocols/two_party_ecdsa/lindell_2017/party_two.rs::PartialSig::compute", "src/protocols/two_party_ecdsa/lindell_2017/party_one.rs::Signature::compute", "src/protocols/two_party_ecdsa/lindell_2017/party_one.rs::verify", "src/protocols/two_party_ecdsa/cclst_2019/party_two.rs::PartialSig::compute", "src/protocols/two_party_ecdsa/cclst_2019/party_one.rs::Signature::compute", "src/protocols/two_party_ecdsa/cclst_2019/party_one.rs::verify")
p("Messages recorded in one run do not complete another",
  "A party that finishes had the others in its own run: if two runs of a party, each with its own samples, finish on the same messages of a peer, the samples those messages answer are the same. GG20 key generation: the same round-3 messages and the same round-4 message of j fit one value of the share dealt to j, and with more than t peers one secret polynomial. GG20 signing: the same round-2 message of one peer with a point that is not zero fits one nonce share k. GG18 key generation: refuted, verify_dlog_proofs does not compare the proofs with the commitments.",
  "for all curves, hash functions, samples, keys, numbers of parties, histories of calls of both runs and messages",
  "A replay uses messages that were valid in another execution; the claim is about all pairs of executions with different samples",
  "src/protocols/multi_party_ecdsa/gg_2020/party_i.rs::verify_dlog_proofs_check_against_vss", "src/protocols/multi_party_ecdsa/gg_2020/state_machine/keygen/rounds.rs::Round4::proceed", "src/protocols/multi_party_ecdsa/gg_2020/state_machine/sign/rounds.rs::Round2::proceed", "src/utilities/mta/mod.rs::MessageB::verify_proofs_get_alpha", "src/protocols/multi_party_ecdsa/gg_2018/party_i.rs::verify_dlog_proofs")
p("How an MtA answer is received says nothing about the asker's secret",
  "Whether the asker keeps or refuses an answer made by the code from its own request does not depend on the asker's secret. Proved when beta_tag leaves room for any product below the modulus. Refuted without that: for every bound T there is a beta_tag below the modulus, like those MessageB::b samples, with which the answer is kept exactly when the secret is below T, and then the shares are right. In GG20 signing the secret is the nonce share: a machine that finishes on such an answer has a nonce share below the T its peer chose, and if it is below T the offline stage ends for everybody with the same nonce point as without the probe.",
  "for all curves, hash functions, Paillier keys with a modulus of at least q^2, secrets, bounds T, samples, sets of signers and histories of calls",
  "For a sampled beta_tag the wrap-around happens with negligible probability; only a chosen value meets it, and then for about half of the secrets or any other fraction",
  "src/utilities/mta/mod.rs::MessageB::b_with_predefined_randomness", "src/utilities/mta/mod.rs::MessageB::verify_proofs_get_alpha", "src/utilities/mta/mod.rs::MessageB::verify_proofs_get_alpha_gg18", "src/utilities/mta/range_proofs.rs::BobProof::verify", "src/protocols/multi_party_ecdsa/gg_2020/state_machine/sign/rounds.rs::Round2::proceed")
p("Somebody who only knows the room's name cannot stop the GG20 clients",
  "A server open to everybody, with arbitrary requests from strangers in between: every message a client's machine is given was either sent by a client started for that party or is the text of a stranger's post; whatever strangers post, as long as it does not parse, a client finishes only if every client was given the number of its own party and all messages were delivered.  Claimed besides: strangers who hold no key material cannot prevent the clients from finishing.",
  "all executions of n clients, one relay and any number of strangers asking for anything in any room; all randomness",
  "The strangers' requests and their timing are arbitrary; the denial is a statement about all continuations.",
  "examples/gg20_sm_manager.rs::broadcast", "examples/gg20_sm_manager.rs::issue_idx", "examples/gg20_sm_client.rs::join_computation", "examples/gg20_keygen.rs::main", "examples/gg20_signing.rs::main")
p("A key made in a GG20 room belongs to the clients that were started for it",
  "For every execution of the GG20 clients and every set of them there is an execution in which those clients do nothing and strangers send requests instead, and which the server and all other clients cannot tell apart: same server trace, same calls and results, same final states.  Key generation and presigning clients can finish whatever the sizes.  Claimed: the key made in a room is shared among the started clients only.",
  "all state machines, schedules, sets of clients; for the key all curves, sizes and randomness of the model",
  "Indistinguishability of all executions, for every set of impersonated parties, is not observable in one run.",
  "examples/gg20_sm_manager.rs::subscribe", "examples/gg20_sm_manager.rs::issue_idx", "examples/gg20_sm_manager.rs::broadcast", "examples/gg20_sm_client.rs::join_computation", "examples/gg20_keygen.rs::main")
p("What happens in other rooms of the GG20 server does not affect the clients",
  "However strangers use other rooms of the server, before and during the clients' run, there is an execution of the clients alone on the server with the same calls, results, requests and final states; so key generation and presigning clients finish as they do alone (C90, C91).",
  "all state machines and schedules, any number of strangers, rooms and requests elsewhere; for the finishing part all curves, sizes and randomness of the model",
  "Unboundedly many foreign requests interleaved arbitrarily with the clients' steps.",
  "examples/gg20_sm_manager.rs::Db::get_room_or_create_empty", "examples/gg20_sm_manager.rs::subscribe", "examples/gg20_sm_manager.rs::Subscription::next", "examples/gg20_sm_client.rs::join_computation")
p("From gg20_keygen to a signature of gg20_signing, through three rooms",
  "n clients run gg20_keygen in one room; any t+1 or more of them run gg20_signing with the files they wrote, presigning in a second room and exchanging partial signatures in a third.  Each of the three exchanges can be carried out; whatever the schedules, if the files and then the presignatures are there, no client fails in the third room, and everybody writes one and the same low-s signature, valid under the key in the files.",
  "all curves, t < n, sets of signers, randomness meeting the conditions of C90 and C91, messages with non-zero total, and schedules of clients and server in each room; signers join both signing rooms in the order of the list of parties, and in each room one subscription is answered first",
  "Three unbounded interleavings in sequence, for every size; the example scripts run one.",
  "examples/gg20_keygen.rs::main", "examples/gg20_signing.rs::main", "examples/gg20_sm_client.rs::join_computation", "src/protocols/multi_party_ecdsa/gg_2020/state_machine/keygen.rs", "src/protocols/multi_party_ecdsa/gg_2020/state_machine/sign.rs::SignManual::complete")
p("Many CCLST signing attempts give party two no more than two guesses each at party one's share",
  "A dishonest party two signs with party one as often as it likes. In each attempt it sends any ciphertext it can build from the encrypted share with encrypt, eval_scal and eval_sum, a nonce and a message of its choice, all depending on which of the earlier signatures verified. Then, except for at most two shares per attempt, the answers it sees are the same for all shares; so no function of the answers of L attempts equals the share for more than 2 L + 1 shares. (For Lindell's protocol C117 shows that log2 q attempts give the share.)",
  "for all curves, encryption schemes with the homomorphic laws, numbers of attempts, adaptive strategies, non-zero nonces of party one and shares; the x-coordinate of the common nonce point is below the group order, where there is one",
  "Quantifies over adaptive adversaries and all shares; a test runs one adversary against one share",
  "src/protocols/two_party_ecdsa/cclst_2019/party_two.rs::PartialSig::compute", "src/protocols/two_party_ecdsa/cclst_2019/party_one.rs::Signature::compute", "src/protocols/two_party_ecdsa/cclst_2019/party_one.rs::verify", "src/protocols/two_party_ecdsa/cclst_2019/party_one.rs::HSMCL::generate_keypair_and_encrypted_share_and_proof")
p("A GG18 key generation client finishes exactly when the messages it reads pass the checks",
  "A client that has read the others' messages of the five rounds writes its key file, made from them in the stated way, exactly when t < n, its own Paillier key's proof verifies, and for every other party the opened point is the committed one, the Paillier key's proof verifies, the share sent decrypts under the key of the pair and lies, with the point, on the committed polynomial, and the proof of round 5 verifies; otherwise it has panicked. In every execution, whatever others store on the server, a written file is made from messages that passed. (That these checks suffice is refuted: a party may commit to, deal and prove the point zero, and everybody who reads it panics when deriving the encryption key.)",
  "for all curves, hash functions, encryption and serialisation functions, n, t, numbers, samples and messages; for the second part all schedules, server states and requests of others",
  "An exact condition over all messages of all other parties, and all interleavings with other users of the server",
  "examples/gg18_keygen_client.rs::main", "examples/common.rs::aes_decrypt", "src/protocols/multi_party_ecdsa/gg_2018/party_i.rs::Keys::phase1_verify_com_phase3_verify_correct_key_phase2_distribute", "src/protocols/multi_party_ecdsa/gg_2018/party_i.rs::Keys::phase2_verify_vss_construct_keypair_phase3_pok_dlog", "src/protocols/multi_party_ecdsa/gg_2018/party_i.rs::Keys::verify_dlog_proofs")
p("The requests of a GG18 client come in an order fixed in advance",
  "The requests of a GG18 key generation or signing client that were answered, followed by the one it makes next, are a beginning of a list that depends on nothing but the number of parties, its own number and the session, and are the whole list when it has finished: round by round, storing its message (or one for every other party) and then asking for every other party's. No key comes twice in the list, so a client never replaces a message of its own nor opens anything twice. What it has committed to it opens only after it has been told everybody else's commitments: in key generation, and for all three commitments of signing.",
  "for all curves, hash functions, serialisation functions, numbers of parties, samples, messages, server states, schedules (with lost answers and repeated requests) and requests of others",
  "The order must hold in every interleaving and against every content of the server; the demo scripts run one",
  "examples/gg18_keygen_client.rs::main", "examples/gg18_sign_client.rs::main", "examples/common.rs::broadcast", "examples/common.rs::poll_for_broadcasts", "examples/common.rs::sendp2p", "examples/common.rs::poll_for_p2p")
p("A GG18 signer stores its partial signature only after all checks of phases 4 and 5 passed",
  "When a GG18 signing client is about to store its partial signature (round 9), whatever the server, the other signers and others do, the messages it was told satisfy: every other signer's point of round 4 is the one committed to in round 1; every other signer's (V, A, B) of round 6 is the one committed to in round 5 and both its proofs verify, for the nonce point R with (sum of the deltas) R = sum of the points of round 4; every other signer's (U, T) of round 8 is the one committed to in round 7, the client's own being computed from those V and A; the sum of T and B is the sum of U. The sums include what the client itself stored in those rounds, and the sum of the deltas is not zero, so R is determined. What it stores is then m k + r sigma for its own nonce k and the x-coordinate r of that R.",
  "for all curves, hash functions, serialisation functions, numbers of signers, samples, messages, server states, schedules and requests of others",
  "The claim is about what a signer reveals to arbitrary peers and an arbitrary server; the demo runs honest ones",
  "examples/gg18_sign_client.rs::main", "src/protocols/multi_party_ecdsa/gg_2018/party_i.rs::SignKeys::phase4", "src/protocols/multi_party_ecdsa/gg_2018/party_i.rs::LocalSignature::phase5c", "src/protocols/multi_party_ecdsa/gg_2018/party_i.rs::LocalSignature::phase5d")
p("GG18 signers that were told the same write the same signature",
  "Two GG18 signing clients with the same public key and message that finish, in one execution or in two, write signatures with the same r, both valid, if they were told the same deltas (round 3) and points (round 4), counting what each stored itself; if also the partial signatures (round 9) are the same, they write the same signature with the same recovery id. In one execution this is so whenever no message of these three rounds is replaced by another one on the server, whoever stored it.",
  "for all curves, hash functions, numbers of signers, samples, messages, other rounds' answers, server states, schedules and requests of others; serialisations of scalars and openings that read back what was written",
  "Relates two runs of the client against arbitrary servers and peers; the demo compares nothing",
  "examples/gg18_sign_client.rs::main", "src/protocols/multi_party_ecdsa/gg_2018/party_i.rs::SignKeys::phase4", "src/protocols/multi_party_ecdsa/gg_2018/party_i.rs::LocalSignature::output_signature", "examples/gg18_sm_manager.rs::set")
p("A GG18 key generation client gives away shares only after the checks of phase 1, each under the key of its pair",
  "When a GG18 key generation client is about to store the text of round 3 for party j, whatever the server, the other clients and others do, the messages it was told satisfy: every other party's opened point is the one committed to in round 1, and its Paillier key came with a proof that verifies. The text is then the encryption of the value at j's number of the client's own polynomial, under the x-coordinate of its secret times the point that party j (and nobody else) opened; j is one of the other parties.",
  "for all curves, hash, encryption and serialisation functions, n, t, samples, server states, schedules and requests of others",
  "The claim is about what a client gives away to arbitrary peers and an arbitrary server; the demo runs honest ones",
  "examples/gg18_keygen_client.rs::main", "examples/common.rs::aes_encrypt", "src/protocols/multi_party_ecdsa/gg_2018/party_i.rs::Keys::phase1_verify_com_phase3_verify_correct_key_phase2_distribute")
p("GG18 key generation clients that were told the same hold shares of one key",
  "Two GG18 key generation clients of one session that finish, in one execution or in two, whatever the other parties are and even if started with different thresholds, write the same public key and commitments if they were told the same commitments in round 4, counting what each stored itself; their shares are then the values at their numbers of one polynomial whose constant term is the secret of that key. If they were told the same in round 1 their files hold the same Paillier keys. In one execution the first is so whenever no message of round 4 is replaced by another one on the server.",
  "for all curves, hash, encryption functions, n, t, samples, other rounds' answers, server states, schedules and requests of others; serialisations that read back what was written",
  "Relates two runs of the client against arbitrary servers and peers; the demo compares nothing",
  "examples/gg18_keygen_client.rs::main", "src/protocols/multi_party_ecdsa/gg_2018/party_i.rs::Keys::phase2_verify_vss_construct_keypair_phase3_pok_dlog", "examples/gg18_sm_manager.rs::set")
p("A GG18 signer reveals its delta only after the answers of round 2 pass, each for that signer's share of the key",
  "When a GG18 signer is about to store its delta (round 3), whatever the server, the other clients and others do, the messages it was told satisfy: the numbers of round 0 are at least 1; from every other signer both answers of round 2 carry proofs that verify and fit the decrypted answer, and the second answer's point is the generator times that signer's share of the key, as the commitments of the key file and the list of signers give it. The text is its own k gamma plus the first answers, decrypted, minus its own masks, over the other signers. If what the signers were told in round 2 carries the points of the senders' own gammas and masks, the deltas they are about to store add up to the product of the sums of their k and gamma, whatever the ciphertexts are.",
  "for all curves, hash functions and serialisations, numbers of signers, key files, messages, samples, server states, schedules and requests of others",
  "The claim is about what a signer reveals to arbitrary peers and an arbitrary server; the demo runs honest ones",
  "examples/gg18_sign_client.rs::main", "src/protocols/multi_party_ecdsa/gg_2018/party_i.rs::SignKeys::phase2_delta_i", "src/protocols/multi_party_ecdsa/gg_2018/party_i.rs::Keys::update_commitments_to_xi", "src/utilities/mta/mod.rs::MessageB::verify_proofs_get_alpha")
p("A GG18 partial signature is the number that the checked answers, the signer's own share and samples and the nonce point give",
  "When a GG18 signer is about to store its partial signature (round 9), whatever the server, the other clients and others do: both round 2 answers of every other signer pass their checks, the first for the very point that signer opened in round 4, the second for its share of the key; the signer's own delta is k gamma plus the first answers minus its masks; R is the point with (sum of delta_j) R = sum of Gamma_j; and the text is m k + r sigma, where r is the x-coordinate of R and sigma is k times the signer's own share with its coefficient, plus the second answers, decrypted, minus its own masks. If its key file is one that key generation leaves and the numbers it was told are distinct, that number is k (m + r x) for the secret x of the public key, plus r times the sum of (the discrete logarithm of the mask point of the second answer) minus (its own mask): others can shift it only through their mask points.",
  "for all curves, hash functions and serialisations, numbers of signers, key files, messages, samples, server states, schedules and requests of others",
  "The claim fixes the number revealed against arbitrary peers and an arbitrary server; the demo runs honest ones and checks the final signature only",
  "examples/gg18_sign_client.rs::main", "src/protocols/multi_party_ecdsa/gg_2018/party_i.rs::SignKeys::phase2_sigma_i", "src/protocols/multi_party_ecdsa/gg_2018/party_i.rs::SignKeys::phase4", "src/protocols/multi_party_ecdsa/gg_2018/party_i.rs::LocalSignature::phase5_local_sig")
with open(os.path.join(os.path.dirname(__file__), "..", "properties.jsonl"), "w") as f:
    for q in P:
        f.write(json.dumps(q, ensure_ascii=False) + "\n")
print(len(P))

{
"C01": [
"proved",
"Holds for every curve; r = 0 is accepted by the code when the equation holds, so the second theorem assumes r <> 0."
],
"C02": [
"proved",
"Total, exact, and Err on the degenerate inputs."
],
"C03": [
"proved",
"For arbitrary partial signatures, GG18 and GG20; converse (completeness of the output step) proved too."
],
"C04": [
"partial",
"False as stated: refuted for nonce x >= q, for nonce y >= q (both on secp256k1, for every key), and for a malicious co-signer forcing the negated root. Exact condition proved; holds when x,y < q and the total satisfies the signing equation."
],
"C05": [
"proved",
"With the extra exception that two curve points have x-coordinates congruent mod q (real on the toy curve and on secp256k1: collision_refuted); without such points the property holds as stated."
],
"C06": [
"partial",
"False: exact panic condition proved, refuted by witnesses; on every curve s = 0 panics, and for every key and every r, s with s nonzero exactly one residue of the message panics."
],
"C07": [
"partial",
"Soundness proved for r >= 0 and high s rejection proved; uniqueness of representation and validity for negative r refuted on every curve; panics on s = 0; honest signatures with nonce x >= q are refused, also on secp256k1."
],
"C08": [
"partial",
"Soundness for r >= 0, Err on s = 0 and high-s rejection proved; negative r and panic at infinity refuted; signatures with nonce x >= q are refused, also on secp256k1."
],
"C09": [
"proved",
"Every honest run returns (r, s) with the ECDSA equation, low s and the right recovery id; s = 0 and r = 0 (no ECDSA signature exists) excluded; verify accepts exactly when the nonce x is below q (C07)."
],
"C10": [
"proved",
"For every linearly homomorphic scheme (record CL); same exclusions as C09."
],
"C100": [
"proved",
"All results of client programs, any server state and any requests of others. The degree of the committed polynomials is not checked (C26), and agreement between clients fails (C101)."
],
"C101": [
"partial",
"False (refuted): in every session that could complete, another user's requests can make all clients complete with different keys."
],
"C102": [
"partial",
"Honest parameters pass both proofs and are powers of each other, exact acceptance condition, special soundness: proved. Refuted: an accepted proof does not show that h2 is a power of h1; a non-unit makes the verifiers panic."
],
"C103": [
"partial",
"Completeness, exact acceptance, what acceptance says about square factors and related primes, and GG20 key generation with the real proofs: proved. Refuted: a prime modulus is accepted; short vectors panic (in C103_verify_iff)."
],
"C104": [
"partial",
"Proved: accepted Schnorr, ECDDH and homomorphic ElGamal proofs are exactly the honest ones for any witness; the commitment T_i, the MtA ciphertext and the integer response hide. Refuted: the Pedersen proof of phase 3 reveals sigma_i G."
],
"C105": [
"proved",
"The affine group law, generator, order and second base point of secp256k1, in integers; the Rust implementation in curv / libsecp256k1 is not modelled."
],
"C106": [
"proved",
"Exceptions r = 0 and s = 0 are part of the statement; C106_zero_r_refuted shows that r = 0 is output without check."
],
"C107": [
"proved",
"Recovery proved under the stated size conditions; truncation, missing and mixed backups and the lost share x_i shown by refuted theorems. The segmentation code is a dependency modelled from its published source."
],
"C108": [
"partial",
"Both outputs proved for every history; the claim that every round progress is visible is refuted for round 6 (C108_round6_not_shown_refuted)."
],
"C109": [
"partial",
"Refuted: the attack recovers shares and the whole private key, in GG18 and GG20, for every curve."
],
"C11": [
"partial",
"False: compute does not check its result; party two makes it return any s of its choice, in particular an invalid one (refuted for every key). Partial: a returned pair satisfies the ECDSA equation only for the honest plaintext modulo q, up to sign."
],
"C110": [
"partial",
"Everything stated is proved for all runs; refuted: old keys are retired, keys of different runs work together."
],
"C111": [
"partial",
"Every message gets a valid signature from one completed stage; the secrecy part is refuted on every curve for GG20, GG18, Lindell and CCLST, and for any two valid signatures with equal r >= p - n."
],
"C112": [
"partial",
"Proved: what leaves when, and that the key (up to a double opening) and R are fixed once the opening is out, for every history. The clause on the sender is refuted: copied round-1 and round-2 messages are accepted."
],
"C113": [
"partial",
"Everything stated is proved, for GG20 runs of honest parties (the corrupted ones only look) and private values only, since the public points determine the key by discrete logarithm. Refuted: t corruptions per run always leave the key hidden (n <= 2t)."
],
"C114": [
"partial",
"agreement proved for more than t machines with party 1 among them (and shown to need both); the claim without these conditions is refuted"
],
"C115": [
"partial",
"Proved for the offline stage; refuted for key generation, where every error is critical. The caller (round_based AsyncProtocol) is modelled from its documented use of is_critical, it is not part of /repo."
],
"C116": [
"proved",
"Both machines may be shown different messages by everyone else; only the one round-5 message has to be genuine. The alternative with the hash is explicit: no assumption about the hash function is made."
],
"C117": [
"partial",
"The claim fails for Lindell 2017 (C117_failures_reveal_share_refuted, from C117_one_attempt_one_bit): each attempt tells one bit of the share. C117_cclst_two_guesses: for CCLST 2019 an attempt tries at most two guesses, or succeeds for all shares with s not 0. Only outcomes of the library functions are considered, not timing."
],
"C118": [
"partial",
"GG20 key generation and signing: proved for every pair of finished runs. GG18 key generation (library functions): refuted by C118_gg18_recorded_run_accepted_refuted."
],
"C119": [
"partial",
"Proved when beta_tag leaves room below the modulus; refuted in general: an answering signer can test the comparison of the asker's nonce share with a bound of its choice, and the session goes on when it holds."
],
"C12": [
"proved",
"Both parties compute (x1 x2) G."
],
"C120": [
"partial",
"False as stated (refuted): one unparsable text, or one index taken, stops key generation and signing for good. Proved: where every delivered message comes from, and that nobody finishes without everybody's own number, whatever strangers post that does not parse."
],
"C121": [
"partial",
"False as stated (refuted): strangers in the place of any parties obtain those parties' shares. Proved: for every execution and set of clients an execution with strangers in their place that nobody can tell apart."
],
"C122": [
"proved",
"For all uses of other rooms: same behaviour as alone, and key generation and presigning clients finish."
],
"C123": [
"proved",
"For all sizes, signers and schedules; hypotheses shown on secp256k1 with 2048-bit keys."
],
"C124": [
"proved",
"Adaptive attempts with any ciphertext party two can build through the interface of the encryption scheme; the scheme itself is abstract (TwoParty.CL), so ciphertexts that are not built through it are not covered."
],
"C125": [
"partial",
"Exact condition proved for all messages, and the consequence for all executions; that the checks of the protocol suffice is refuted (C125_checks_suffice_refuted)."
],
"C126": [
"proved",
"Both client programs, every execution; the commitments of key generation round 1 and of signing rounds 1, 5 and 7."
],
"C127": [
"proved",
"Every execution, arbitrary peers and server. GG18 signing has no range proofs, so nothing is said about them."
],
"C128": [
"proved",
"That the messages of the rounds be the same is a hypothesis: an equivocating server is the subject of C101."
],
"C129": [
"proved",
"Every execution, arbitrary peers and server."
],
"C13": [
"proved",
"Any finite sequence of refreshes keeps the joint key, never fails for honest parameters, and signing afterwards is valid under the original key."
],
"C130": [
"proved",
"That round 4 be the same is a hypothesis: without it the claim is false, see C101. No bound on the degree is claimed: GG18 does not check the number of commitments."
],
"C131": [
"proved",
"Every execution, arbitrary peers and server. The coefficient of a signer is the one map_share computes; map_share_ok (VssProofs) identifies it with the Lagrange coefficient when the numbers are in range."
],
"C132": [
"proved",
"Every execution, arbitrary peers and server."
],
"C14": [
"proved",
"Conclusion names the two colliding hash inputs."
],
"C15": [
"partial",
"False: the encoding m||blind is ambiguous (refuted for every hash); proved for equal byte lengths; sign not bound."
],
"C16": [
"proved",
"Two-party part in PropCommit/PropTwoParty; the GG20 and GG18 broadcast commitments open in their own check (C16_gg20_keygen_opens, C16_gg18_keygen_opens)."
],
"C17": [
"proved",
""
],
"C18": [
"proved",
"Counting form (exactly one polynomial per candidate secret) for the evaluation points and, in C18_shares_hide_secret, for the vector returned by the dealer."
],
"C19": [
"proved",
""
],
"C20": [
"proved",
"The whole run of rounds 0-4 for all parties, any t < n < q, any randomness; the zk-paillier proofs are oracles that accept the honest proofs."
],
"C21": [
"proved",
"GG18 functions composed as in the crate's own test driver and the gg18 example; same quantification."
],
"C22": [
"proved",
"Exact acceptance condition and error of phase1_verify_com_phase3_verify_correct_key_phase2_distribute for GG20 and GG18."
],
"C23": [
"partial",
"Refuted as stated: `all` stops at the first failure, so at most one cheater is ever listed (three phases). What holds: the first one is listed."
],
"C24": [
"partial",
"Phases 1, 2, 4 and 6 proved. For the key generation dlog check and the PDL check of signing only relative to the checking party's own view; refuted in general: VSS commitments and delta_i can be equivocated, so an honest party is listed (C24_honest_party_framed_refuted, C24_honest_signer_framed_refuted with a full run as example)."
],
"C25": [
"proved",
"For arbitrary messages, per party and across parties that saw the same broadcasts. GG18's final check is not tied to the VSS (refuted there)."
],
"C26": [
"partial",
"Refuted: a degree t+1 dealer is accepted by both protocols and no t+1 shares reconstruct. Holds when the commitment vectors have at most t+1 entries (C26_threshold_partial)."
],
"C27": [
"partial",
"Refuted: empty commitment vectors and vectors longer than those of party 0 crash the receiver, also at the level of the machine: in every history past round 3 (round 4) one changed message from another party ends in a panic (C27_keygen_machine_panics_refuted, C27_keygen_machine_panics_late_refuted). Holds: no panic in phase 2 otherwise, and the machine never panics if every round-3 message carries t+1 commitments (C27_keygen_machine_total)."
],
"C28": [
"proved",
"Every list of distinct signers of size > t, in any order; also from a completed key generation."
],
"C29": [
"partial",
"Refuted: OfflineStage::new never compares the number of signers with the threshold, so a set of t members is accepted for every key with t >= 2."
],
"C30": [
"proved",
"Includes the exact behaviour when the plaintext wraps modulo N: an error, never a wrong share."
],
"C31": [
"proved",
"Accepted replies satisfy the exponent relation; with verify_b_against_public the share product follows."
],
"C32": [
"proved",
"Bob answers iff one verifying proof per statement; the refusal does not depend on the secrets."
],
"C33": [
"proved",
"All rounds of the offline stage run honestly; hypotheses: good Paillier keys and statements, non-zero sums, no MtA wrap."
],
"C34": [
"proved",
"Every party outputs the same valid low-s signature unless the total s is 0; in that case the theorem says every party panics."
],
"C35": [
"proved",
"All ten client rounds, any signer subset larger than the threshold; also from key generation to signature. Messages with total s = 0 stop every client (stated)."
],
"C36": [
"proved",
"GG20: exact characterisation of acceptance, the reported index violates, round-level consequence. GG18: exact acceptance with one proof per revealed point; surplus openings would be unchecked (finding)."
],
"C37": [
"proved",
"Any k_i, sigma_i, R, y; rounds 5 and 6 perform exactly these checks."
],
"C38": [
"proved",
"Exact decision of phase5d for all s, l, rho; with a non-zero rho sum a wrong sum of s is rejected at every signer."
],
"C39": [
"proved",
"Any two authorised subsets, keys and randomness with equal nonce sums; recovery id included."
],
"C40": [
"partial",
"False as stated (C40_framing_refuted): a party that opens beta_tag + N for its exchange with an honest party, and broadcasts the matching delta, gets exactly that honest party listed. With openings in the range an honest party can have, an honest party is never listed (C40_honest_not_blamed_partial)."
],
"C41": [
"partial",
"Exact meaning of the list proved for every state with vectors of the right lengths; non-empty whenever an opening is inconsistent or the deltas have the wrong sum. That the list contains a deviating party is refuted by the framing state of C40. Vectors of other lengths make the code panic (C87)."
],
"C42": [
"partial",
"The exact list is proved for every state with vectors of the right lengths. That an honest party is never listed is false (C42_framing_refuted, opening miu + N) and proved for openings in range (C42_honest_not_listed_partial)."
],
"C43": [
"proved",
"For vectors of equal length; shorter R-dash or S vectors panic in the code."
],
"C44": [
"proved",
"Exact: accepted iff s1 <= q^3; accepted proofs satisfy the bound and the verification equations."
],
"C45": [
"partial",
"Proved when the response s is coprime to N (including the plaintext relation); refuted without that condition, because s = 0 makes the Paillier equation vacuous; on every curve, for every key and ciphertext, two accepted answers exist that bind no plaintext."
],
"C46": [
"partial",
"False: for every negative s1 an accepted proof exists for every unit ciphertext."
],
"C47": [
"proved",
"Exact: accepted iff s1 <= q^3, with and without the public point."
],
"C48": [
"proved",
"Discrete log of X determined by the responses; ring-Pedersen relations and, for s coprime to N, the Paillier relation as well."
],
"C49": [
"partial",
"False: panics shown for AliceProof (e < 0 and non-unit), BobProofExt (identity point), PDLwSlack (non-unit z or ciphertext). Exact panic conditions for AliceProof and PDLwSlack, sufficient conditions for no panic for Bob."
],
"C50": [
"proved",
"For all randomness."
],
"C51": [
"partial",
"Point relation and ring-Pedersen relation proved; the ciphertext relation proved when s2 is coprime to N and refuted without that condition."
],
"C52": [
"partial",
"Completeness, exact acceptance, opening guard and interactive soundness proved; refuted: finalize does not use the c_hat received earlier; the verifier is not committed to (a, b), since a + b*2^(bit length of a) is committed: for every share x two challenges share one commitment and one plaintext. With the bit length of a fixed it is (C52_challenge_bound_partial)."
],
"C53": [
"proved",
"Completeness, exact verification equation, special soundness; curv's proofs as read."
],
"C54": [
"proved",
""
],
"C55": [
"proved",
"The TooManyParties branch is shown unreachable separately."
],
"C56": [
"proved",
"Both machines, after every history of calls; good messages are shown accepted as well."
],
"C57": [
"proved",
"Both machines: two histories with the same proper messages and nothing left to do agree on the whole state, output and outgoing messages; order of the queue included."
],
"C58": [
"partial",
"Exact characterisation of pick_output for both machines, plus a refutation: after a failed round pick_output reports DoublePickOutput although nothing was ever output."
],
"C59": [
"proved",
""
],
"C60": [
"proved",
""
],
"C61": [
"proved",
""
],
"C62": [
"proved",
""
],
"C63": [
"partial",
"Keygen reports the right round. OfflineStage reports round 2 for every message of rounds 3 to 5 that comes late in any reachable state: the claim is refuted for it (C63_offline_late_refuted), together with the exact formula."
],
"C64": [
"proved",
"Every schedule (deliveries in any order, proceeds and sends interleaved arbitrarily): no call fails or panics, at most 5n^2+3n actions do anything, whoever has finished has the correct key, and when nothing is left to do everyone has; every schedule can be continued to that point. Also for independent per-party histories with repeated deliveries. The driving loop (round_based AsyncProtocol) is specified by the schedule, not modelled from source."
],
"C65": [
"proved",
"As C64, for every authorised signer set whose randomness meets the side conditions of C33; then SignManual gives everyone the same valid signature for every message except those where the total s is 0 (known panic, C34), in any order of the partial signatures."
],
"C66": [
"partial",
"Refuted: replacing one party's round-3 message in any history by one whose T differs from its proof's commitment makes the machine panic, and so does one whose delta makes the sum zero (C66_offline_bad_point_panics_refuted, C66_offline_zero_sum_panics_refuted). Proved: the wrappers (routing, stores, round bookkeeping) never panic by themselves, and a failing round is always reported; and the full list of causes (C66_offline_panic_causes): with a complete key file and sampled values in their domains, a history in which the machine panics contains a range proof with negative e and a non-invertible z or ciphertext, a ciphertext not invertible modulo N^2, a share point other than the sender's, a Pedersen proof for another point, a PDL proof with non-invertible z, or deltas that sum to zero. SignManual: new panics exactly if R is infinity, complete exactly if the partial signatures sum to zero or m G = -r Y, and one partial signature is always enough (C66_manual_panics_refuted)."
],
"C67": [
"partial",
"Exact delivery and no lost wake-up for every interleaving, with overflow checks on or up to 65535 messages per room. Refuted beyond that in release builds: event ids wrap around and the history is delivered again."
],
"C68": [
"proved",
"Per room instance. By room id the claim fails while nobody is subscribed, because each request then replaces the room: C68_unwatched_refuted."
],
"C69": [
"partial",
"Refuted: a message accepted while nobody watches the room is discarded by the next subscription. Holds while the room is watched all the time (C69_kept_partial)."
],
"C70": [
"partial",
"Refuted: overlapping subscriptions can end in different rooms of the same id. Holds for requests arriving while the room is watched (C70_one_room_partial)."
],
"C71": [
"partial",
"Exact for signups served one at a time; range and absence of crashes for every interleaving. Refuted for overlapping signups and for clients overwriting the signup record."
],
"C72": [
"partial",
"Proved for every key but the two signup keys, which share the table and so have values nobody set (refuted for those)."
],
"C73": [
"partial",
"Proved for round names without a dash that are not numerals, in particular all names the clients use. Refuted for arbitrary round names."
],
"C74": [
"partial",
"Refuted: the proof may be for another point than the revealed share. Exact acceptance and binding of share and proof nonce proved."
],
"C75": [
"proved",
"Exact acceptance of both sides, binding, uniqueness of the challenge for unequal scalars, and extraction."
],
"C76": [
"proved",
"Party two's answer, party one's result and the public check."
],
"C77": [
"proved",
"Any number of refreshes by polynomials with zero constant term; secret and public side."
],
"C78": [
"partial",
"False for all three proofs: an accepted proof exists for every unit ciphertext."
],
"C79": [
"partial",
"Refuted twice: a proof exists for every plaintext (s2 = 0), and the base of the statement is not compared with the generator. Exact acceptance proved, and acceptance of party one's proof made from its own setup with its own auxiliary parameters."
],
"C80": [
"partial",
"Refuted: any public share passes. Exact condition proved."
],
"C81": [
"partial",
"Proved for Lindell; refuted for CCLST (share is an integer division by three), with the exact set of bad samples."
],
"C82": [
"partial",
"Refuted: phase5c verifies the rho proof against the key inside the proof only, so proofs for any other key are accepted. What it does check is characterised exactly."
],
"C83": [
"proved",
"Per round: acceptance implies every check on every consumed message (GG20 rounds 1, 2, 3, 5, 6; GG18 client round 3). For round 1 the condition is exact."
],
"C84": [
"partial",
"Exact characterisation of all three outcomes of phase5d. Two accepted openings of a phase 5a or 5c commitment show the same points, or one of four explicit coincidences holds; that only a collision can do it is refuted, since digest and blinding factor are joined without a length."
],
"C85": [
"proved",
"Paillier::open is modelled as the n-th root modulo n with exponent n^-1 mod (p-1)(q-1)."
],
"C86": [
"proved",
""
],
"C87": [
"partial",
"False: every opened state with a vector shorter than the number of other parties makes the conversion panic (C87_short_opening_panics_refuted, C87_short_miu_panics_refuted). There is no input check in the code (marked TODO there)."
],
"C88": [
"partial",
"Refuted: nothing relates the position in the signer list to the key."
],
"C89": [
"proved",
""
],
"C90": [
"proved",
"Under the side conditions that one client creates the room before the others ask (C70 refutes the rest), that every client gets the number of its party (C92 shows this is necessary) and that nobody else uses the room."
],
"C91": [
"proved",
"Same side conditions as C90, randomness as in C33."
],
"C92": [
"partial",
"Refuted: once one client holds another number than its --index no client ever finishes. Proved: whoever finishes, everybody had the number of its party."
],
"C93": [
"partial",
"False as stated (refuted): a client whose number is not the position of its share stops everybody. Proved: anyone finishing means every client got its own position; with own positions presigning always finishes (C91)."
],
"C94": [
"proved",
"Proved for every machine and schedule."
],
"C95": [
"partial",
"False as stated (refuted): a client whose online number differs from its offline number gets no signature except for at most two messages modulo the order. Proved: with the same numbers in both rooms everybody prints one valid signature under every schedule; for any numbers, exactly which partial signatures are added up."
],
"C96": [
"proved",
"All schedules, retried requests and other users; AES-GCM and serde_json are oracles with round-trip laws. The bound counts requests that bring a client forward, polls that find nothing are not counted."
],
"C97": [
"partial",
"False: two racing signups get the same number (C97_same_number_refuted), a lost answer loses a number (C97_lost_answer_refuted); then no client finishes (keygen and signing). Sequential signups with no lost answer finish (C97_sequential_signups_finish, C97_sign_sequential_signups_finish)."
],
"C98": [
"proved",
"For one message below 2^256, a nonzero key, r and s; the clients start with the numbers and session the signup gave them."
],
"C99": [
"partial",
"False as stated (refuted): hex and raw readings collide, leading zeros, congruence modulo the order, messages of 2^256 or more. Proved: exactly when GG18 reads two strings as the same number; GG20 texts without NUL are different numbers."
]
}
{
 "claims": [
  {
   "property": "C01",
   "status": "proved",
   "theorems": [
    "C01_gg20_verify_is_ecdsa",
    "C01_gg20_verify_valid",
    "C01_gg20_verify_both_roots"
   ],
   "note": "Holds for every curve; r = 0 is accepted by the code when the equation holds, so the second theorem assumes r <> 0."
  },
  {
   "property": "C02",
   "status": "proved",
   "theorems": [
    "C02_gg18_verify_total",
    "C02_gg18_verify_is_ecdsa",
    "C02_gg18_verify_degenerate"
   ],
   "note": "Total, exact, and Err on the degenerate inputs."
  },
  {
   "property": "C03",
   "status": "proved",
   "theorems": [
    "C03_gg18_client_output",
    "C03_gg18_client_output_complete",
    "C03_gg20_output_valid_low_s",
    "C03_gg18_output_valid_low_s",
    "C03_gg18_output_total",
    "C03_output_complete"
   ],
   "note": "For arbitrary partial signatures, GG18 and GG20; converse (completeness of the output step) proved too."
  },
  {
   "property": "C04",
   "status": "partial",
   "theorems": [
    "C04_recid_exact",
    "C04_recid_partial",
    "C04_recid_malicious",
    "C04_recid_refuted",
    "C04_secp256k1_refuted"
   ],
   "note": "False as stated: refuted for nonce x >= q, for nonce y >= q (both on secp256k1, for every key), and for a malicious co-signer forcing the negated root. Exact condition proved; holds when x,y < q and the total satisfies the signing equation."
  },
  {
   "property": "C05",
   "status": "proved",
   "theorems": [
    "C05_tampered_partial_detected",
    "C05_single_tamper_refused",
    "C05_collision_refuted",
    "C05_secp256k1_collision_refuted"
   ],
   "note": "With the extra exception that two curve points have x-coordinates congruent mod q (real on the toy curve and on secp256k1: collision_refuted); without such points the property holds as stated."
  },
  {
   "property": "C06",
   "status": "partial",
   "theorems": [
    "C06_gg20_verify_panics_exactly",
    "C06_gg20_verify_never_panics_refuted",
    "C06_zero_s_crashes",
    "C06_infinity_crashes",
    "C06_infinity_reached"
   ],
   "note": "False: exact panic condition proved, refuted by witnesses; on every curve s = 0 panics, and for every key and every r, s with s nonzero exactly one residue of the message panics."
  },
  {
   "property": "C07",
   "status": "partial",
   "theorems": [
    "C07_lindell_verify_canonical",
    "C07_lindell_verify_sound_partial",
    "C07_lindell_high_s_rejected",
    "C07_lindell_unique_representation_refuted",
    "C07_lindell_validity_refuted",
    "C07_lindell_verify_panics_on_zero_s",
    "C07_lindell_completeness_refuted",
    "C07_secp256k1_completeness_refuted",
    "C07_negated_refuted"
   ],
   "note": "Soundness proved for r >= 0 and high s rejection proved; uniqueness of representation and validity for negative r refuted on every curve; panics on s = 0; honest signatures with nonce x >= q are refused, also on secp256k1."
  },
  {
   "property": "C08",
   "status": "partial",
   "theorems": [
    "C08_cclst_verify_sound_partial",
    "C08_cclst_zero_s_err",
    "C08_cclst_high_s_rejected",
    "C08_cclst_accepts_as_lindell",
    "C08_cclst_validity_refuted",
    "C08_secp256k1_completeness_refuted"
   ],
   "note": "Soundness for r >= 0, Err on s = 0 and high-s rejection proved; negative r and panic at infinity refuted; signatures with nonce x >= q are refused, also on secp256k1."
  },
  {
   "property": "C09",
   "status": "proved",
   "theorems": [
    "C09_lindell_signing_correct"
   ],
   "note": "Every honest run returns (r, s) with the ECDSA equation, low s and the right recovery id; s = 0 and r = 0 (no ECDSA signature exists) excluded; verify accepts exactly when the nonce x is below q (C07)."
  },
  {
   "property": "C10",
   "status": "proved",
   "theorems": [
    "C10_cclst_signing_correct",
    "C10_cclst_signing_correct_through_setup"
   ],
   "note": "For every linearly homomorphic scheme (record CL); same exclusions as C09."
  },
  {
   "property": "C11",
   "status": "partial",
   "theorems": [
    "C11_lindell_party_two_chooses_s_refuted",
    "C11_lindell_invalid_output_refuted",
    "C11_lindell_valid_only_if_honest_partial"
   ],
   "note": "False: compute does not check its result; party two makes it return any s of its choice, in particular an invalid one (refuted for every key). Partial: a returned pair satisfies the ECDSA equation only for the honest plaintext modulo q, up to sign."
  },
  {
   "property": "C12",
   "status": "proved",
   "theorems": [
    "C12_two_party_same_pubkey",
    "C12_two_party_any_share"
   ],
   "note": "Both parties compute (x1 x2) G."
  },
  {
   "property": "C13",
   "status": "proved",
   "theorems": [
    "C13_refresh_preserves_key",
    "C13_refresh_never_fails",
    "C13_signing_after_refresh"
   ],
   "note": "Any finite sequence of refreshes keeps the joint key, never fails for honest parameters, and signing afterwards is valid under the original key."
  },
  {
   "property": "C14",
   "status": "proved",
   "theorems": [
    "C14_point_commitment_binding",
    "C14_point_commitment_binds_blinding"
   ],
   "note": "Conclusion names the two colliding hash inputs."
  },
  {
   "property": "C15",
   "status": "partial",
   "theorems": [
    "C15_integer_commitment_refuted",
    "C15_integer_commitment_binding_partial",
    "C15_sign_not_bound"
   ],
   "note": "False: the encoding m||blind is ambiguous (refuted for every hash); proved for equal byte lengths; sign not bound."
  },
  {
   "property": "C16",
   "status": "proved",
   "theorems": [
    "C16_gg20_keygen_opens",
    "C16_gg18_keygen_opens",
    "C16_two_party_keygen_accepts",
    "C16_two_party_ephemeral_accepts"
   ],
   "note": "Two-party part in PropCommit/PropTwoParty; the GG20 and GG18 broadcast commitments open in their own check (C16_gg20_keygen_opens, C16_gg18_keygen_opens)."
  },
  {
   "property": "C17",
   "status": "proved",
   "theorems": [
    "C17_share_validates",
    "C17_reconstruct"
   ],
   "note": ""
  },
  {
   "property": "C18",
   "status": "proved",
   "theorems": [
    "C18_secrecy",
    "C18_shares_hide_secret"
   ],
   "note": "Counting form (exactly one polynomial per candidate secret) for the evaluation points and, in C18_shares_hide_secret, for the vector returned by the dealer."
  },
  {
   "property": "C19",
   "status": "proved",
   "theorems": [
    "C19_validate_share_exact",
    "C19_validate_share_public",
    "C19_accepted_shares_reconstruct"
   ],
   "note": ""
  },
  {
   "property": "C20",
   "status": "proved",
   "theorems": [
    "C20_gg20_keygen_correct"
   ],
   "note": "The whole run of rounds 0-4 for all parties, any t < n < q, any randomness; the zk-paillier proofs are oracles that accept the honest proofs."
  },
  {
   "property": "C21",
   "status": "proved",
   "theorems": [
    "C21_gg18_keygen_correct"
   ],
   "note": "GG18 functions composed as in the crate's own test driver and the gg18 example; same quantification."
  },
  {
   "property": "C22",
   "status": "proved",
   "theorems": [
    "C22_phase1_accepts_iff",
    "C22_phase1_error_names_a_failure",
    "C22_phase1_total",
    "C22_gg18_phase1_accepts_iff"
   ],
   "note": "Exact acceptance condition and error of phase1_verify_com_phase3_verify_correct_key_phase2_distribute for GG20 and GG18."
  },
  {
   "property": "C23",
   "status": "partial",
   "theorems": [
    "C23_phase1_lists_one_refuted",
    "C23_phase2_lists_one_refuted",
    "C23_dlog_lists_one_refuted",
    "C23_first_is_listed_partial"
   ],
   "note": "Refuted as stated: `all` stops at the first failure, so at most one cheater is ever listed (three phases). What holds: the first one is listed."
  },
  {
   "property": "C24",
   "status": "partial",
   "theorems": [
    "C24_phase1_listed_is_bad",
    "C24_phase2_listed_is_bad",
    "C24_dlog_listed_fails_own_view_partial",
    "C24_honest_party_framed_refuted",
    "C24_phase4_listed_is_bad",
    "C24_phase5_listed_fails_own_view_partial",
    "C24_phase6_lists_exactly_bad",
    "C24_honest_signer_framed_refuted"
   ],
   "note": "Phases 1, 2, 4 and 6 proved. For the key generation dlog check and the PDL check of signing only relative to the checking party's own view; refuted in general: VSS commitments and delta_i can be equivocated, so an honest party is listed (C24_honest_party_framed_refuted, C24_honest_signer_framed_refuted with a full run as example)."
  },
  {
   "property": "C25",
   "status": "proved",
   "theorems": [
    "C25_accepted_key_consistent",
    "C25_local_key_consistent",
    "C25_parties_agree",
    "C25_gg18_public_shares_unchecked_refuted",
    "C25_gg18_phase2_accepts_iff",
    "C25_gg18_dlog_accepts_iff"
   ],
   "note": "For arbitrary messages, per party and across parties that saw the same broadcasts. GG18's final check is not tied to the VSS (refuted there)."
  },
  {
   "property": "C26",
   "status": "partial",
   "theorems": [
    "C26_degree_unchecked_refuted",
    "C26_threshold_partial"
   ],
   "note": "Refuted: a degree t+1 dealer is accepted by both protocols and no t+1 shares reconstruct. Holds when the commitment vectors have at most t+1 entries (C26_threshold_partial)."
  },
  {
   "property": "C27",
   "status": "partial",
   "theorems": [
    "C27_phase2_total",
    "C27_empty_commitments_panic_refuted",
    "C27_longer_commitments_panic_refuted",
    "C27_keygen_machine_total",
    "C27_keygen_machine_panics_refuted",
    "C27_keygen_machine_panics_late_refuted",
    "C27_empty_vss_panics"
   ],
   "note": "Refuted: empty commitment vectors and vectors longer than those of party 0 crash the receiver, also at the level of the machine: in every history past round 3 (round 4) one changed message from another party ends in a panic (C27_keygen_machine_panics_refuted, C27_keygen_machine_panics_late_refuted). Holds: no panic in phase 2 otherwise, and the machine never panics if every round-3 message carries t+1 commitments (C27_keygen_machine_total)."
  },
  {
   "property": "C28",
   "status": "proved",
   "theorems": [
    "C28_additive_shares",
    "C28_after_keygen"
   ],
   "note": "Every list of distinct signers of size > t, in any order; also from a completed key generation."
  },
  {
   "property": "C29",
   "status": "partial",
   "theorems": [
    "C29_threshold_unchecked_refuted"
   ],
   "note": "Refuted: OfflineStage::new never compares the number of signers with the threshold, so a set of t members is accepted for every key with t >= 2."
  },
  {
   "property": "C30",
   "status": "proved",
   "theorems": [
    "C30_mta_correct",
    "C30_mta_wrap_is_error",
    "C30_mta_never_wrong_share",
    "C30_mta_bob_answers"
   ],
   "note": "Includes the exact behaviour when the plaintext wraps modulo N: an error, never a wrong share."
  },
  {
   "property": "C31",
   "status": "proved",
   "theorems": [
    "C31_accepted_reply_bound",
    "C31_gg18_accepted_reply_bound",
    "C31_public_check_gives_product",
    "C31_rejects_otherwise"
   ],
   "note": "Accepted replies satisfy the exponent relation; with verify_b_against_public the share product follows."
  },
  {
   "property": "C32",
   "status": "proved",
   "theorems": [
    "C32_bob_answers_iff_proofs_verify",
    "C32_refusal_independent_of_secrets",
    "C32_wrong_number_of_proofs"
   ],
   "note": "Bob answers iff one verifying proof per statement; the refusal does not depend on the secrets."
  },
  {
   "property": "C33",
   "status": "proved",
   "theorems": [
    "C33_gg20_presign_correct",
    "C33_delta_reconstructs"
   ],
   "note": "All rounds of the offline stage run honestly; hypotheses: good Paillier keys and statements, non-zero sums, no MtA wrap."
  },
  {
   "property": "C34",
   "status": "proved",
   "theorems": [
    "C34_gg20_sign_correct",
    "C34_gg20_end_to_end"
   ],
   "note": "Every party outputs the same valid low-s signature unless the total s is 0; in that case the theorem says every party panics."
  },
  {
   "property": "C35",
   "status": "proved",
   "theorems": [
    "C35_gg18_sign_correct",
    "C35_gg18_end_to_end"
   ],
   "note": "All ten client rounds, any signer subset larger than the threshold; also from key generation to signature. Messages with total s = 0 stop every client (stated)."
  },
  {
   "property": "C36",
   "status": "proved",
   "theorems": [
    "C36_phase4_accepts_iff",
    "C36_phase4_checks_everyone",
    "C36_phase4_error_names_violator",
    "C36_round4",
    "C36_gg18_phase4_accepts_iff",
    "C36_gg18_phase4_surplus_unchecked_refuted"
   ],
   "note": "GG20: exact characterisation of acceptance, the reported index violates, round-level consequence. GG18: exact acceptance with one proof per revealed point; surplus openings would be unchecked (finding)."
  },
  {
   "property": "C37",
   "status": "proved",
   "theorems": [
    "C37_checked_presignature_signs",
    "C37_rounds_check_sums"
   ],
   "note": "Any k_i, sigma_i, R, y; rounds 5 and 6 perform exactly these checks."
  },
  {
   "property": "C38",
   "status": "proved",
   "theorems": [
    "C38_phase5d_decides",
    "C38_wrong_sum_rejected"
   ],
   "note": "Exact decision of phase5d for all s, l, rho; with a non-zero rho sum a wrong sum of s is rejected at every signer."
  },
  {
   "property": "C39",
   "status": "proved",
   "theorems": [
    "C39_signature_independent_of_subset"
   ],
   "note": "Any two authorised subsets, keys and randomness with equal nonce sums; recovery id included."
  },
  {
   "property": "C40",
   "status": "partial",
   "theorems": [
    "C40_honest_not_blamed_partial",
    "C40_framing_refuted"
   ],
   "note": "False as stated (C40_framing_refuted): a party that opens beta_tag + N for its exchange with an honest party, and broadcasts the matching delta, gets exactly that honest party listed. With openings in the range an honest party can have, an honest party is never listed (C40_honest_not_blamed_partial)."
  },
  {
   "property": "C41",
   "status": "partial",
   "theorems": [
    "C41_phase5_lists_violators",
    "C41_every_state_covered",
    "C41_wrong_sum_is_blamed",
    "C41_only_innocent_listed_refuted"
   ],
   "note": "Exact meaning of the list proved for every state with vectors of the right lengths; non-empty whenever an opening is inconsistent or the deltas have the wrong sum. That the list contains a deviating party is refuted by the framing state of C40. Vectors of other lengths make the code panic (C87)."
  },
  {
   "property": "C42",
   "status": "partial",
   "theorems": [
    "C42_phase6_exact",
    "C42_every_state_covered",
    "C42_honest_not_listed_partial",
    "C42_framing_refuted"
   ],
   "note": "The exact list is proved for every state with vectors of the right lengths. That an honest party is never listed is false (C42_framing_refuted, opening miu + N) and proved for openings in range (C42_honest_not_listed_partial)."
  },
  {
   "property": "C43",
   "status": "proved",
   "theorems": [
    "C43_phase7_exact",
    "C43_honest_not_listed",
    "C43_bad_total_is_blamed"
   ],
   "note": "For vectors of equal length; shorter R-dash or S vectors panic in the code."
  },
  {
   "property": "C44",
   "status": "proved",
   "theorems": [
    "C44_alice_honest_verifies",
    "C44_alice_accepted_bound",
    "C44_alice_accepted_equations"
   ],
   "note": "Exact: accepted iff s1 <= q^3; accepted proofs satisfy the bound and the verification equations."
  },
  {
   "property": "C45",
   "status": "partial",
   "theorems": [
    "C45_alice_special_sound_partial",
    "C45_alice_special_sound_refuted",
    "C45_alice_answers_bind_nothing"
   ],
   "note": "Proved when the response s is coprime to N (including the plaintext relation); refuted without that condition, because s = 0 makes the Paillier equation vacuous; on every curve, for every key and ciphertext, two accepted answers exist that bind no plaintext."
  },
  {
   "property": "C46",
   "status": "partial",
   "theorems": [
    "C46_alice_negative_response_refuted"
   ],
   "note": "False: for every negative s1 an accepted proof exists for every unit ciphertext."
  },
  {
   "property": "C47",
   "status": "proved",
   "theorems": [
    "C47_bob_honest_verifies",
    "C47_bobext_honest_verifies"
   ],
   "note": "Exact: accepted iff s1 <= q^3, with and without the public point."
  },
  {
   "property": "C48",
   "status": "proved",
   "theorems": [
    "C48_bobext_binds_point"
   ],
   "note": "Discrete log of X determined by the responses; ring-Pedersen relations and, for s coprime to N, the Paillier relation as well."
  },
  {
   "property": "C49",
   "status": "partial",
   "theorems": [
    "C49_alice_verify_panics_refuted",
    "C49_alice_verify_panics_iff",
    "C49_bobext_verify_panics_refuted",
    "C49_bob_verify_total_partial",
    "C49_pdls_verify_panics_iff",
    "C49_pdls_verify_panics_refuted"
   ],
   "note": "False: panics shown for AliceProof (e < 0 and non-unit), BobProofExt (identity point), PDLwSlack (non-unit z or ciphertext). Exact panic conditions for AliceProof and PDLwSlack, sufficient conditions for no panic for Bob."
  },
  {
   "property": "C50",
   "status": "proved",
   "theorems": [
    "C50_pdls_honest_verifies"
   ],
   "note": "For all randomness."
  },
  {
   "property": "C51",
   "status": "partial",
   "theorems": [
    "C51_pdls_special_sound_partial",
    "C51_pdls_special_sound_refuted"
   ],
   "note": "Point relation and ring-Pedersen relation proved; the ciphertext relation proved when s2 is coprime to N and refuted without that condition."
  },
  {
   "property": "C52",
   "status": "partial",
   "theorems": [
    "C52_pdl_complete",
    "C52_pdl_wrap_aborts",
    "C52_finalize_iff",
    "C52_openings_guarded",
    "C52_interactive_sound",
    "C52_late_commitment_refuted",
    "C52_challenge_not_bound_refuted",
    "C52_challenge_bound_partial"
   ],
   "note": "Completeness, exact acceptance, opening guard and interactive soundness proved; refuted: finalize does not use the c_hat received earlier; the verifier is not committed to (a, b), since a + b*2^(bit length of a) is committed: for every share x two challenges share one commitment and one plaintext. With the bit length of a fixed it is (C52_challenge_bound_partial)."
  },
  {
   "property": "C53",
   "status": "proved",
   "theorems": [
    "C53_dlog_complete",
    "C53_dlog_sound",
    "C53_dlog_hvzk",
    "C53_ecddh_complete",
    "C53_ecddh_sound",
    "C53_homo_elgamal_complete",
    "C53_homo_elgamal_sound",
    "C53_pedersen_complete",
    "C53_pedersen_sound"
   ],
   "note": "Completeness, exact verification equation, special soundness; curv's proofs as read."
  },
  {
   "property": "C54",
   "status": "proved",
   "theorems": [
    "C54_keygen_new"
   ],
   "note": ""
  },
  {
   "property": "C55",
   "status": "proved",
   "theorems": [
    "C55_offline_new",
    "C55_too_many_unreachable"
   ],
   "note": "The TooManyParties branch is shown unreachable separately."
  },
  {
   "property": "C56",
   "status": "proved",
   "theorems": [
    "C56_keygen_bad_refused",
    "C56_keygen_good_accepted",
    "C56_offline_bad_refused",
    "C56_offline_good_accepted"
   ],
   "note": "Both machines, after every history of calls; good messages are shown accepted as well."
  },
  {
   "property": "C57",
   "status": "proved",
   "theorems": [
    "C57_keygen_order",
    "C57_keygen_output",
    "C57_offline_order",
    "C57_offline_output"
   ],
   "note": "Both machines: two histories with the same proper messages and nothing left to do agree on the whole state, output and outgoing messages; order of the queue included."
  },
  {
   "property": "C58",
   "status": "partial",
   "theorems": [
    "C58_keygen_pick",
    "C58_offline_pick",
    "C58_double_pick_without_output_refuted"
   ],
   "note": "Exact characterisation of pick_output for both machines, plus a refutation: after a failed round pick_output reports DoublePickOutput although nothing was ever output."
  },
  {
   "property": "C59",
   "status": "proved",
   "theorems": [
    "C59_keygen_final",
    "C59_offline_final"
   ],
   "note": ""
  },
  {
   "property": "C60",
   "status": "proved",
   "theorems": [
    "C60_keygen_monotone",
    "C60_keygen_sent",
    "C60_offline_monotone",
    "C60_offline_sent"
   ],
   "note": ""
  },
  {
   "property": "C61",
   "status": "proved",
   "theorems": [
    "C61_keygen_wants",
    "C61_offline_wants"
   ],
   "note": ""
  },
  {
   "property": "C62",
   "status": "proved",
   "theorems": [
    "C62_keygen_blame",
    "C62_offline_blame"
   ],
   "note": ""
  },
  {
   "property": "C63",
   "status": "partial",
   "theorems": [
    "C63_offline_late_refuted",
    "C63_keygen_rounds",
    "C63_offline_rounds"
   ],
   "note": "Keygen reports the right round. OfflineStage reports round 2 for every message of rounds 3 to 5 that comes late in any reachable state: the claim is refuted for it (C63_offline_late_refuted), together with the exact formula."
  },
  {
   "property": "C64",
   "status": "proved",
   "theorems": [
    "C64_keygen_finishes_under_every_schedule",
    "C64_keygen_schedules_can_finish",
    "C64_keygen_any_genuine_history"
   ],
   "note": "Every schedule (deliveries in any order, proceeds and sends interleaved arbitrarily): no call fails or panics, at most 5n^2+3n actions do anything, whoever has finished has the correct key, and when nothing is left to do everyone has; every schedule can be continued to that point. Also for independent per-party histories with repeated deliveries. The driving loop (round_based AsyncProtocol) is specified by the schedule, not modelled from source."
  },
  {
   "property": "C65",
   "status": "proved",
   "theorems": [
    "C65_offline_stage_finishes_under_every_schedule",
    "C65_offline_schedules_can_finish",
    "C65_offline_any_genuine_history"
   ],
   "note": "As C64, for every authorised signer set whose randomness meets the side conditions of C33; then SignManual gives everyone the same valid signature for every message except those where the total s is 0 (known panic, C34), in any order of the partial signatures."
  },
  {
   "property": "C66",
   "status": "partial",
   "theorems": [
    "C66_manual_new_panics_exactly",
    "C66_manual_complete_panics_exactly",
    "C66_manual_panics_refuted",
    "C66_offline_failure_reported",
    "C66_offline_bad_point_panics_refuted",
    "C66_offline_zero_sum_panics_refuted",
    "C66_keygen_wrapper_partial",
    "C66_offline_wrapper_partial",
    "C66_offline_panic_causes"
   ],
   "note": "Refuted: replacing one party's round-3 message in any history by one whose T differs from its proof's commitment makes the machine panic, and so does one whose delta makes the sum zero (C66_offline_bad_point_panics_refuted, C66_offline_zero_sum_panics_refuted). Proved: the wrappers (routing, stores, round bookkeeping) never panic by themselves, and a failing round is always reported; and the full list of causes (C66_offline_panic_causes): with a complete key file and sampled values in their domains, a history in which the machine panics contains a range proof with negative e and a non-invertible z or ciphertext, a ciphertext not invertible modulo N^2, a share point other than the sender's, a Pedersen proof for another point, a PDL proof with non-invertible z, or deltas that sum to zero. SignManual: new panics exactly if R is infinity, complete exactly if the partial signatures sum to zero or m G = -r Y, and one partial signature is always enough (C66_manual_panics_refuted)."
  },
  {
   "property": "C67",
   "status": "partial",
   "theorems": [
    "C67_delivery",
    "C67_progress",
    "C67_release_wrap_refuted"
   ],
   "note": "Exact delivery and no lost wake-up for every interleaving, with overflow checks on or up to 65535 messages per room. Refuted beyond that in release builds: event ids wrap around and the history is delivered again."
  },
  {
   "property": "C68",
   "status": "proved",
   "theorems": [
    "C68_consecutive",
    "C68_unwatched_refuted"
   ],
   "note": "Per room instance. By room id the claim fails while nobody is subscribed, because each request then replaces the room: C68_unwatched_refuted."
  },
  {
   "property": "C69",
   "status": "partial",
   "theorems": [
    "C69_kept_partial",
    "C69_lost_refuted"
   ],
   "note": "Refuted: a message accepted while nobody watches the room is discarded by the next subscription. Holds while the room is watched all the time (C69_kept_partial)."
  },
  {
   "property": "C70",
   "status": "partial",
   "theorems": [
    "C70_one_room_partial",
    "C70_race_refuted"
   ],
   "note": "Refuted: overlapping subscriptions can end in different rooms of the same id. Holds for requests arriving while the room is watched (C70_one_room_partial)."
  },
  {
   "property": "C71",
   "status": "partial",
   "theorems": [
    "C71_sequential",
    "C71_distinct",
    "C71_range",
    "C71_concurrent_refuted",
    "C71_overwritten_refuted"
   ],
   "note": "Exact for signups served one at a time; range and absence of crashes for every interleaving. Refuted for overlapping signups and for clients overwriting the signup record."
  },
  {
   "property": "C72",
   "status": "partial",
   "theorems": [
    "C72_get_last_set",
    "C72_signup_keys_refuted"
   ],
   "note": "Proved for every key but the two signup keys, which share the table and so have values nobody set (refuted for those)."
  },
  {
   "property": "C73",
   "status": "partial",
   "theorems": [
    "C73_injective",
    "C73_dashes_refuted"
   ],
   "note": "Proved for round names without a dash that are not numerals, in particular all names the clients use. Refuted for arbitrary round names."
  },
  {
   "property": "C74",
   "status": "partial",
   "theorems": [
    "C74_kg2_verify_iff",
    "C74_first_message_binds",
    "C74_proof_for_other_point_refuted"
   ],
   "note": "Refuted: the proof may be for another point than the revealed share. Exact acceptance and binding of share and proof nonce proved."
  },
  {
   "property": "C75",
   "status": "proved",
   "theorems": [
    "C75_eph2_verify_iff",
    "C75_eph1_verify_iff",
    "C75_first_message_binds",
    "C75_unequal_scalars_one_challenge",
    "C75_extraction"
   ],
   "note": "Exact acceptance of both sides, binding, uniqueness of the challenge for unequal scalars, and extraction."
  },
  {
   "property": "C76",
   "status": "proved",
   "theorems": [
    "C76_party_two_always_answers",
    "C76_lindell_key_in_mta"
   ],
   "note": "Party two's answer, party one's result and the public check."
  },
  {
   "property": "C77",
   "status": "proved",
   "theorems": [
    "C77_refresh_keeps_secret",
    "C77_refresh_keeps_u_sum",
    "C77_refresh_public_shares"
   ],
   "note": "Any number of refreshes by polynomials with zero constant term; secret and public side."
  },
  {
   "property": "C78",
   "status": "partial",
   "theorems": [
    "C78_alice_ties_ciphertext_refuted",
    "C78_bobext_ties_ciphertext_refuted",
    "C78_pdls_ties_ciphertext_refuted"
   ],
   "note": "False for all three proofs: an accepted proof exists for every unit ciphertext."
  },
  {
   "property": "C79",
   "status": "partial",
   "theorems": [
    "C79_own_setup_accepted",
    "C79_own_parameters",
    "C79_pdl_verify_iff",
    "C79_honest_share_accepted",
    "C79_any_plaintext_accepted_refuted",
    "C79_other_base_accepted_refuted"
   ],
   "note": "Refuted twice: a proof exists for every plaintext (s2 = 0), and the base of the statement is not compared with the generator. Exact acceptance proved, and acceptance of party one's proof made from its own setup with its own auxiliary parameters."
  },
  {
   "property": "C80",
   "status": "partial",
   "theorems": [
    "C80_public_share_unchecked_refuted",
    "C80_verify_and_decommit_iff_partial"
   ],
   "note": "Refuted: any public share passes. Exact condition proved."
  },
  {
   "property": "C81",
   "status": "partial",
   "theorems": [
    "C81_lindell_joint_key_nonzero",
    "C81_cclst_zero_share_refuted",
    "C81_cclst_zero_share_iff"
   ],
   "note": "Proved for Lindell; refuted for CCLST (share is an integer division by three), with the exact set of bad samples."
  },
  {
   "property": "C82",
   "status": "partial",
   "theorems": [
    "C82_rho_proof_unbound_refuted",
    "C82_phase5c_accepts_iff_partial"
   ],
   "note": "Refuted: phase5c verifies the rho proof against the key inside the proof only, so proofs for any other key are accepted. What it does check is characterised exactly."
  },
  {
   "property": "C83",
   "status": "proved",
   "theorems": [
    "C83_round1_checks_every_range_proof",
    "C83_round2_checks_every_answer",
    "C83_round3_checks_every_proof",
    "C83_round5_checks_every_pdl",
    "C83_round6_checks_every_proof",
    "C83_gg18_round3_checks_every_answer"
   ],
   "note": "Per round: acceptance implies every check on every consumed message (GG20 rounds 1, 2, 3, 5, 6; GG18 client round 3). For round 1 the condition is exact."
  },
  {
   "property": "C84",
   "status": "partial",
   "theorems": [
    "C84_phase5d_accepts_iff",
    "C84_phase5a_commitment_binds",
    "C84_phase5c_commitment_binds",
    "C84_commitment_boundary_refuted"
   ],
   "note": "Exact characterisation of all three outcomes of phase5d. Two accepted openings of a phase 5a or 5c commitment show the same points, or one of four explicit coincidences holds; that only a collision can do it is refuted, since digest and blinding factor are joined without a length."
  },
  {
   "property": "C85",
   "status": "proved",
   "theorems": [
    "C85_extracted_randomness_opens"
   ],
   "note": "Paillier::open is modelled as the n-th root modulo n with exponent n^-1 mod (p-1)(q-1)."
  },
  {
   "property": "C86",
   "status": "proved",
   "theorems": [
    "C86_local_to_global",
    "C86_local_to_global6"
   ],
   "note": ""
  },
  {
   "property": "C87",
   "status": "partial",
   "theorems": [
    "C87_short_opening_panics_refuted",
    "C87_short_miu_panics_refuted"
   ],
   "note": "False: every opened state with a vector shorter than the number of other parties makes the conversion panic (C87_short_opening_panics_refuted, C87_short_miu_panics_refuted). There is no input check in the code (marked TODO there)."
  },
  {
   "property": "C88",
   "status": "partial",
   "theorems": [
    "C88_own_index_unchecked_refuted"
   ],
   "note": "Refuted: nothing relates the position in the signer list to the key."
  },
  {
   "property": "C89",
   "status": "proved",
   "theorems": [
    "C89_poll_broadcasts",
    "C89_poll_p2p"
   ],
   "note": ""
  },
  {
   "property": "C90",
   "status": "proved",
   "theorems": [
    "C90_keygen_clients_finish",
    "C90_keygen_clients_can_finish"
   ],
   "note": "Under the side conditions that one client creates the room before the others ask (C70 refutes the rest), that every client gets the number of its party (C92 shows this is necessary) and that nobody else uses the room."
  },
  {
   "property": "C91",
   "status": "proved",
   "theorems": [
    "C91_offline_clients_finish",
    "C91_offline_clients_can_finish"
   ],
   "note": "Same side conditions as C90, randomness as in C33."
  },
  {
   "property": "C92",
   "status": "partial",
   "theorems": [
    "C92_keygen_finish_needs_own_numbers",
    "C92_join_order_refuted"
   ],
   "note": "Refuted: once one client holds another number than its --index no client ever finishes. Proved: whoever finishes, everybody had the number of its party."
  },
  {
   "property": "C93",
   "status": "partial",
   "theorems": [
    "C93_offline_finish_needs_own_numbers",
    "C93_join_order_refuted"
   ],
   "note": "False as stated (refuted): a client whose number is not the position of its share stops everybody. Proved: anyone finishing means every client got its own position; with own positions presigning always finishes (C91)."
  },
  {
   "property": "C94",
   "status": "proved",
   "theorems": [
    "C94_clients_read_their_room",
    "C94_same_order",
    "C94_each_once"
   ],
   "note": "Proved for every machine and schedule."
  },
  {
   "property": "C95",
   "status": "partial",
   "theorems": [
    "C95_online_clients_sign",
    "C95_online_received",
    "C95_join_order_refuted",
    "C95_online_clients_can_finish"
   ],
   "note": "False as stated (refuted): a client whose online number differs from its offline number gets no signature except for at most two messages modulo the order. Proved: with the same numbers in both rooms everybody prints one valid signature under every schedule; for any numbers, exactly which partial signatures are added up."
  },
  {
   "property": "C96",
   "status": "proved",
   "theorems": [
    "C96_keygen18_clients"
   ],
   "note": "All schedules, retried requests and other users; AES-GCM and serde_json are oracles with round-trip laws. The bound counts requests that bring a client forward, polls that find nothing are not counted."
  },
  {
   "property": "C97",
   "status": "partial",
   "theorems": [
    "C97_missing_number_refuted",
    "C97_same_number_refuted",
    "C97_sequential_signups_finish",
    "C97_lost_answer_refuted",
    "C97_sign_missing_number_refuted",
    "C97_sign_sequential_signups_finish"
   ],
   "note": "False: two racing signups get the same number (C97_same_number_refuted), a lost answer loses a number (C97_lost_answer_refuted); then no client finishes (keygen and signing). Sequential signups with no lost answer finish (C97_sequential_signups_finish, C97_sign_sequential_signups_finish)."
  },
  {
   "property": "C98",
   "status": "proved",
   "theorems": [
    "C98_sign18_clients",
    "C98_keygen_to_signature"
   ],
   "note": "For one message below 2^256, a nonzero key, r and s; the clients start with the numbers and session the signup gave them."
  },
  {
   "property": "C99",
   "status": "partial",
   "theorems": [
    "C99_gg18_same_number_iff",
    "C99_hex_alias_refuted",
    "C99_leading_zeros_refuted",
    "C99_gg20_injective",
    "C99_congruent_numbers_refuted",
    "C99_gg20_two_texts_refuted",
    "C99_gg18_long_message_refuted"
   ],
   "note": "False as stated (refuted): hex and raw readings collide, leading zeros, congruence modulo the order, messages of 2^256 or more. Proved: exactly when GG18 reads two strings as the same number; GG20 texts without NUL are different numbers."
  },
  {
   "property": "C100",
   "status": "proved",
   "theorems": [
    "C100_written_signature_valid",
    "C100_written_key_file_consistent"
   ],
   "note": "All results of client programs, any server state and any requests of others. The degree of the committed polynomials is not checked (C26), and agreement between clients fails (C101)."
  },
  {
   "property": "C101",
   "status": "partial",
   "theorems": [
    "C101_other_user_splits_session_refuted",
    "C101_keys_differ_refuted"
   ],
   "note": "False (refuted): in every session that could complete, another user's requests can make all clients complete with different keys."
  },
  {
   "property": "C102",
   "status": "partial",
   "theorems": [
    "C102_verify_iff",
    "C102_honest_setup_accepted",
    "C102_special_soundness",
    "C102_not_in_subgroup_refuted",
    "C102_nonunit_panics_refuted"
   ],
   "note": "Honest parameters pass both proofs and are powers of each other, exact acceptance condition, special soundness: proved. Refuted: an accepted proof does not show that h2 is a power of h1; a non-unit makes the verifiers panic."
  },
  {
   "property": "C103",
   "status": "partial",
   "theorems": [
    "C103_verify_iff",
    "C103_honest_key_accepted",
    "C103_square_factor",
    "C103_common_factor",
    "C103_prime_modulus_refuted",
    "C103_keygen_with_library_proofs"
   ],
   "note": "Completeness, exact acceptance, what acceptance says about square factors and related primes, and GG20 key generation with the real proofs: proved. Refuted: a prime modulus is accepted; short vectors panic (in C103_verify_iff)."
  },
  {
   "property": "C104",
   "status": "partial",
   "theorems": [
    "C104_proofs_hide_witness",
    "C104_commitment_hides",
    "C104_phase3_reveals_refuted",
    "C104_mta_reply_hides",
    "C104_alice_response_hides"
   ],
   "note": "Proved: accepted Schnorr, ECDDH and homomorphic ElGamal proofs are exactly the honest ones for any witness; the commitment T_i, the MtA ciphertext and the integer response hide. Refuted: the Pedersen proof of phase 3 reveals sigma_i G."
  },
  {
   "property": "C105",
   "status": "proved",
   "theorems": [
    "C105_field_and_order",
    "C105_points",
    "C105_addition",
    "C105_group",
    "C105_scalar_multiplication",
    "C105_generated",
    "C105_base_points"
   ],
   "note": "The affine group law, generator, order and second base point of secp256k1, in integers; the Rust implementation in curv / libsecp256k1 is not modelled."
  },
  {
   "property": "C106",
   "status": "proved",
   "theorems": [
    "C106_gg20_with_library",
    "C106_zero_r_points",
    "C106_gg20_secp256k1",
    "C106_zero_r_refuted"
   ],
   "note": "Exceptions r = 0 and s = 0 are part of the statement; C106_zero_r_refuted shows that r = 0 is output without check."
  },
  {
   "property": "C107",
   "status": "proved",
   "theorems": [
    "C107_backup_opens",
    "C107_backup_recovers",
    "C107_truncated_refuted",
    "C107_lindell_backups",
    "C107_mixed_backups_refuted",
    "C107_gg20_backups",
    "C107_share_not_in_backup_refuted",
    "C107_missing_backup_refuted"
   ],
   "note": "Recovery proved under the stated size conditions; truncation, missing and mixed backups and the lost share x_i shown by refuted theorems. The segmentation code is a dependency modelled from its published source."
  },
  {
   "property": "C108",
   "status": "partial",
   "theorems": [
    "C108_dec_reads_back",
    "C108_keygen_debug",
    "C108_offline_debug",
    "C108_keygen_debug_no_contents",
    "C108_offline_debug_no_contents",
    "C108_round6_not_shown_refuted"
   ],
   "note": "Both outputs proved for every history; the claim that every round progress is visible is refuted for round 6 (C108_round6_not_shown_refuted)."
  },
  {
   "property": "C109",
   "status": "partial",
   "theorems": [
    "C109_reply_reveals_low_bits_refuted",
    "C109_gg20_signer_answers_refuted",
    "C109_gg20_share_extracted_refuted",
    "C109_gg20_key_extracted_refuted",
    "C109_gg18_signer_answers_refuted",
    "C109_gg18_key_extracted_refuted"
   ],
   "note": "Refuted: the attack recovers shares and the whole private key, in GG18 and GG20, for every curve."
  },
  {
   "property": "C110",
   "status": "partial",
   "theorems": [
    "C110_gg20_reshared_key",
    "C110_gg20_key_kept_iff",
    "C110_gg20_reshared_signers",
    "C110_old_keys_revoked_refuted",
    "C110_stale_share_iff",
    "C110_gg18_key_kept_iff",
    "C110_gg18_reshared_signers",
    "C110_runs_mix_refuted"
   ],
   "note": "Everything stated is proved for all runs; refuted: old keys are retired, keys of different runs work together."
  },
  {
   "property": "C111",
   "status": "partial",
   "theorems": [
    "C111_signs_every_message",
    "C111_two_signatures_reveal_key_refuted",
    "C111_partials_reveal_shares_refuted",
    "C111_same_r_reveals_key",
    "C111_gg18_reveals_key_refuted",
    "C111_lindell_reveals_key_refuted",
    "C111_cclst_reveals_key_refuted"
   ],
   "note": "Every message gets a valid signature from one completed stage; the secrecy part is refuted on every curve for GG20, GG18, Lindell and CCLST, and for any two valid signatures with equal r >= p - n."
  },
  {
   "property": "C112",
   "status": "partial",
   "theorems": [
    "C112_key_fixed_when_opened",
    "C112_keygen_waits",
    "C112_copied_opening_accepted_refuted",
    "C112_offline_waits",
    "C112_nonce_fixed_when_opened"
   ],
   "note": "Proved: what leaves when, and that the key (up to a double opening) and R are fixed once the opening is out, for every history. The clause on the sender is refuted: copied round-1 and round-2 messages are accepted."
  },
  {
   "property": "C113",
   "status": "partial",
   "theorems": [
    "C113_party_state",
    "C113_key_hidden_iff",
    "C113_one_run_hides_key",
    "C113_t_per_run_hide_key_refuted"
   ],
   "note": "Everything stated is proved, for GG20 runs of honest parties (the corrupted ones only look) and private values only, since the public points determine the key by discrete logarithm. Refuted: t corruptions per run always leave the key hidden (n <= 2t)."
  },
  {
   "property": "C114",
   "status": "partial",
   "theorems": [
    "C114_finished_keys_agree",
    "C114_dealer_splits_refuted",
    "C114_keys_agree_iff"
   ],
   "note": "agreement proved for more than t machines with party 1 among them (and shown to need both); the claim without these conditions is refuted"
  },
  {
   "property": "C115",
   "status": "partial",
   "theorems": [
    "C115_offline_is_critical",
    "C115_offline_junk_ignored",
    "C115_keygen_refused_critical_refuted"
   ],
   "note": "Proved for the offline stage; refuted for key generation, where every error is critical. The caller (round_based AsyncProtocol) is modelled from its documented use of is_critical, it is not part of /repo."
  },
  {
   "property": "C116",
   "status": "proved",
   "theorems": [
    "C116_one_lucky_answer",
    "C116_equal_answers",
    "C116_nonce_points_agree"
   ],
   "note": "Both machines may be shown different messages by everyone else; only the one round-5 message has to be genuine. The alternative with the hash is explicit: no assumption about the hash function is made."
  },
  {
   "property": "C117",
   "status": "partial",
   "theorems": [
    "C117_one_attempt_one_bit",
    "C117_failures_reveal_share_refuted",
    "C117_cclst_two_guesses"
   ],
   "note": "The claim fails for Lindell 2017 (C117_failures_reveal_share_refuted, from C117_one_attempt_one_bit): each attempt tells one bit of the share. C117_cclst_two_guesses: for CCLST 2019 an attempt tries at most two guesses, or succeeds for all shares with s not 0. Only outcomes of the library functions are considered, not timing."
  },
  {
   "property": "C118",
   "status": "partial",
   "theorems": [
    "C118_keygen_messages_fit_one_share",
    "C118_keygen_messages_fit_one_secret",
    "C118_reply_fits_one_secret",
    "C118_signing_messages_fit_one_nonce",
    "C118_alone_is_run",
    "C118_gg18_recorded_run_accepted_refuted"
   ],
   "note": "GG20 key generation and signing: proved for every pair of finished runs. GG18 key generation (library functions): refuted by C118_gg18_recorded_run_accepted_refuted."
  },
  {
   "property": "C119",
   "status": "partial",
   "theorems": [
    "C119_small_beta_reveals_nothing",
    "C119_answer_tests_secret_refuted",
    "C119_finished_machine_below_bound",
    "C119_probe_leaves_run_intact"
   ],
   "note": "Proved when beta_tag leaves room below the modulus; refuted in general: an answering signer can test the comparison of the asker's nonce share with a bound of its choice, and the session goes on when it holds."
  },
  {
   "property": "C120",
   "status": "partial",
   "theorems": [
    "C120_delivered_origin",
    "C120_keygen_needs_numbers",
    "C120_offline_needs_numbers",
    "C120_text_stops_keygen_refuted",
    "C120_text_stops_signing_refuted",
    "C120_index_stops_keygen_refuted",
    "C120_index_stops_signing_refuted"
   ],
   "note": "False as stated (refuted): one unparsable text, or one index taken, stops key generation and signing for good. Proved: where every delivered message comes from, and that nobody finishes without everybody's own number, whatever strangers post that does not parse."
  },
  {
   "property": "C121",
   "status": "partial",
   "theorems": [
    "C121_strangers_pass_for_clients",
    "C121_key_with_strangers_refuted"
   ],
   "note": "False as stated (refuted): strangers in the place of any parties obtain those parties' shares. Proved: for every execution and set of clients an execution with strangers in their place that nobody can tell apart."
  },
  {
   "property": "C122",
   "status": "proved",
   "theorems": [
    "C122_other_rooms_do_not_matter",
    "C122_keygen_clients_finish",
    "C122_offline_clients_finish"
   ],
   "note": "For all uses of other rooms: same behaviour as alone, and key generation and presigning clients finish."
  },
  {
   "property": "C123",
   "status": "proved",
   "theorems": [
    "C123_keygen_to_signature"
   ],
   "note": "For all sizes, signers and schedules; hypotheses shown on secp256k1 with 2048-bit keys."
  },
  {
   "property": "C124",
   "status": "proved",
   "theorems": [
    "C124_answers_almost_constant",
    "C124_guess_from_answers"
   ],
   "note": "Adaptive attempts with any ciphertext party two can build through the interface of the encryption scheme; the scheme itself is abstract (TwoParty.CL), so ciphertexts that are not built through it are not covered."
  },
  {
   "property": "C125",
   "status": "partial",
   "theorems": [
    "C125_keygen_client_finishes_iff",
    "C125_written_file_made_from_checked_messages",
    "C125_checks_suffice_refuted"
   ],
   "note": "Exact condition proved for all messages, and the consequence for all executions; that the checks of the protocol suffice is refuted (C125_checks_suffice_refuted)."
  },
  {
   "property": "C126",
   "status": "proved",
   "theorems": [
    "C126_keygen_requests_in_order",
    "C126_sign_requests_in_order",
    "C126_no_key_twice",
    "C126_commitments_read_before_opening"
   ],
   "note": "Both client programs, every execution; the commitments of key generation round 1 and of signing rounds 1, 5 and 7."
  },
  {
   "property": "C127",
   "status": "proved",
   "theorems": [
    "C127_partial_signature_only_after_checks"
   ],
   "note": "Every execution, arbitrary peers and server. GG18 signing has no range proofs, so nothing is said about them."
  },
  {
   "property": "C128",
   "status": "proved",
   "theorems": [
    "C128_same_messages_same_signature",
    "C128_settled_messages_same_signature"
   ],
   "note": "That the messages of the rounds be the same is a hypothesis: an equivocating server is the subject of C101."
  },
  {
   "property": "C129",
   "status": "proved",
   "theorems": [
    "C129_shares_only_after_checks"
   ],
   "note": "Every execution, arbitrary peers and server."
  },
  {
   "property": "C130",
   "status": "proved",
   "theorems": [
    "C130_same_messages_same_key",
    "C130_settled_messages_same_key"
   ],
   "note": "That round 4 be the same is a hypothesis: without it the claim is false, see C101. No bound on the degree is claimed: GG18 does not check the number of commitments."
  },
  {
   "property": "C131",
   "status": "proved",
   "theorems": [
    "C131_delta_only_after_checks",
    "C131_deltas_add_up"
   ],
   "note": "Every execution, arbitrary peers and server. The coefficient of a signer is the one map_share computes; map_share_ok (VssProofs) identifies it with the Lagrange coefficient when the numbers are in range."
  },
  {
   "property": "C132",
   "status": "proved",
   "theorems": [
    "C132_partial_signature_value",
    "C132_partial_signature_of_key"
   ],
   "note": "Every execution, arbitrary peers and server."
  }
 ]
}
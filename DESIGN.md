# Formal model of multi-party-ecdsa in Rocq

`properties.jsonl` lists the properties (C01…). `MANIFEST.json` maps each property to theorem
names and a status. Sources are in `rocq/theories`. Section 6 goes through the properties one by one.
"GG18", "GG20", "Lindell" and "CCLST" are the four protocol families of the crate
(`gg_2018`, `gg_2020`, `lindell_2017`, `cclst_2019`).

## 1. How the model is built

* **Small total Gallina functions**, one per Rust function, each with a comment citing file and
  lines of `/repo`. Randomness is an explicit argument (the Rust functions sample it). Results are
  `outcome := Ok v | Err e | Panic`: an `unwrap`, failed `assert` or out-of-range index is `Panic`.
* **Scalars** (`Scalar<Secp256k1>`): the prime field `Fq q` (integers in `[0,q)`), with
  `Scalar::from(&BigInt)` = reduction mod q, `to_bigint` = representative, `invert` = `None` on 0.
* **Curve** (`Point<Secp256k1>`): a record `Curve` with a prime order group, generator,
  decidable equality, module laws over `Fq q`, every point a multiple of the generator, and affine
  coordinates in `[0,p)` (`x_coord/y_coord`, `None` at infinity). Every theorem quantifies over all
  such curves; a concrete instance (y²=x³+7 over F_43, order 31, checked against the
  chord-and-tangent formulas) provides non-vacuity examples and refutation witnesses.
  That secp256k1 is such a curve is proved (`Secp256k1.secp256k1`, C105).
* **Hash**: an arbitrary function (Section variable, never an axiom), different for the different
  uses. Binding statements name the two colliding hash inputs.
* **Paillier**: textbook scheme over `Z` modulo `N²`, with correctness proved from number theory.
* **State machines** (Keygen, OfflineStage): `step : state -> call -> state * result`, with the
  message stores of `round-based`; theorems quantify over all call histories. `RoundSM.v` is a generic
  machine used only inside proofs; `SmSim.v` proves the two machines of the code to be instances of it.
* **Network**: the queue of every machine is put on a wire, messages are taken off it in any order,
  `proceed` is called at any time. A schedule is any list of such actions.
* **Relay servers** (examples): step functions at the granularity of the atomic lock sections; a
  run is any interleaving of the handlers' steps.

## 2. Files

| file | content |
|---|---|
| `ZArithX`, `ZPow` | extended Euclid, modular inverse and powers, Fermat |
| `Fq`, `Curve`, `Toy` | prime field, abstract curve, concrete curve of order 31 |
| `Outcome`, `Bytes` | results; byte encodings and hash commitments |
| `Ecdsa`, `EcdsaProofs`, `PropEcdsa` | verification and output of signatures; textbook ECDSA; C01–C08 |
| `Sigma`, `SigmaProofs`, `PropSigma` | DLog, ECDDH, HomoElGamal, Pedersen proofs; C53 |
| `Vss`, `VssProofs`, `PropVss` | Feldman secret sharing; C17–C19 |
| `PropCommit` | C14, C15 |
| `Paillier`, `PaillierProofs`, `PaillierOpen` | Paillier encryption, homomorphisms, opening |
| `RangeProofs`, `RangeProofsProofs`, `BobProofs`, `Forge`, `RangeExtra` | MtA range proofs |
| `PdlSlack`, `PdlSlackProofs`, `PropRange` | PDL with slack; C44–C51, C78 |
| `Mta`, `MtaProofs`, `Pdl`, `PdlProofs`, `PropMta` | MtA and interactive PDL; C30–C32, C52 |
| `TwoParty`, `TwoPartyProofs`, `PropTwoParty` | Lindell, CCLST; C09–C13, C16, C74–C76, C79–C81 |
| `Mp`, `MpProofs` | helpers shared by the multi-party protocols |
| `Gg20Keygen`, `Gg18Keygen`, `KeygenRun`, `Keygen*Proofs`, `KeygenExtra`, `PropKeygen` | key generation; C16, C20–C27, C77 |
| `Gg20Sign`, `SignRun`, `Sign*Proofs`, `PropSign` | GG20 signing; C24, C28, C33, C34, C36, C37, C39 |
| `Gg18Sign`, `Gg18*Proofs`, `PropSign18` | GG18 signing; C35, C36, C38, C82 |
| `PropSignChecks` | C83, C84 |
| `Blame`, `BlameProofs`, `BlameHonest`, `PropBlame` | GG20 blame; C40–C43, C85–C87 |
| `Stores`, `KeygenSM`, `SignSM` | message stores and the two state machines |
| `SmSpec`, `RoundSM`, `SmProofs`, `SmSim`, `SmTheory`, `SmFacts`, `SmTags`, `SmPanic` | history specification, invariants, simulation |
| `PropSM`, `PropSmNew`, `PropPanic` | C29, C54–C63, C66, C88 |
| `Network`, `NetLog`, `NetProofs`, `NetSim`, `PropNetwork` | networks of machines; C64, C65 |
| `Manager20`, `M20Spec`, `Manager20Proofs`, `Manager20Facts`, `Manager20Fate`, `Manager20Work`, `PropManager20` | GG20 relay; C67–C70 |
| `Manager18`, `Manager18Proofs`, `PropManager18` | GG18 relay; C71–C73, C89 |
| `Clients20`, `Clients20Prog` | GG20 client programs and relay as one system |
| `Clients20Proofs`, `Clients20Nets`, `Clients20Own`, `SmCause`, `Codec`, `PropClients20` | C90–C92 |
| `SmCauseSg`, `PropClients20Sign` | C93 |
| `Clients20Log`, `PropClients20Log` | C94 |
| `OnlineSM` | online part of examples/gg20_signing.rs |
| `Clients20Online`, `PropClients20Online` | C95 |
| `Clients18`, `Clients18Prog` | GG18 client programs and relay as one system |
| `Clients18Proofs`, `Clients18Rounds`, `Clients18KgProofs`, `PropClients18` | C96, C97 |
| `Clients18SgProofs`, `PropClients18Sign` | C98, C97 (signing) |
| `Clients18Ends`, `PropClients18Any` | C100, C101 |
| `ClientMsg`, `PropClientMsg` | C99 |
| `PrimeCert`, `RingPedersen`, `PropRingPedersen` | C102 |
| `PrimeBig`, `CorrectKey`, `PropCorrectKey` | C103 |
| `PropHiding` | C104 |
| `Pocklington`, `Weierstrass`, `Cyclic`, `WCurve`, `Secp256k1`, `PropSecp` | C105 |
| `PropSecpRun` | C106 |
| `PropSecpEdge` | C04, C05, C07, C08 on secp256k1 |
| `Segments`, `PropSegments` | encrypted backups; C107 |
| `Progress`, `PropProgress` | Debug output of the GG20 state machines; C108 |
| `Extract`, `PropExtract` | key extraction from MtA replies (attacker side); C109 |
| `Reshare`, `PropReshare` | repeated key generation with refresh_private_key; C110 |
| `Reuse`, `PropReuse` | one nonce for two messages (observer side); C111 |
| `PropKgPanic` | panics of the key generation machine; C27 |
| `PropFixed` | what is fixed when a machine opens its commitment; C112 |
| `PropSgPanic` | every cause of a panic of the signing machine; C66 |
| `PropManual` | when SignManual panics; C66 |
| `PropMobile` | what corrupted parties of several runs know; C113 |
| `PropSplit` | which key generation machines agree when a peer shows them different messages; C114 |
| `PropTight` | the verifier's commitment in zk_pdl, party two's nonce check, party one's own setup, phase 5 commitments; C52, C75, C79, C84 |
| `Driver`, `PropDriver` | is_critical and a caller that relies on it; C115 |
| `PropNonce` | finished offline machines agree on the nonce point; C116 |
| `PropProbe` | what failed two-party signatures tell party two; C117 |
| `PropReplay` | messages recorded in another run; C118 |
| `PropBob` | what the answering side of MtA learns; C119 |
| `Clients20Open`, `Clients20OpenProofs` | the GG20 clients on a server that strangers use too |
| `PropOpen` | strangers on the GG20 server; C120 |
| `Clients20Arrive` | an execution in which n GG20 clients arrive in order |
| `PropImpostor` | strangers in the place of clients, executions that finish; C121, C90, C91 |
| `Clients20Iso` | simulation of the GG20 clients among strangers in other rooms |
| `PropElsewhere` | other rooms do not matter; C122 |
| `CodecAny` | serialisations of the GG20 messages over any curve, for examples |
| `PropThree` | from key generation to the signature through three rooms; C123, C95 |
| `PropProbeMany` | adaptive CCLST signing attempts; C124 |
| `PropClients18Exact` | when exactly a GG18 key generation client finishes; C125 |
| `PropClients18Order` | the order of a GG18 client's requests, and what a signer has checked when it stores its partial signature; C126, C127 |
| `PropClients18Agree` | GG18 signers that were told the same write the same signature; C128 |
| `PropClients18Shares` | what a GG18 key generation client has checked when it gives away shares; C129 |
| `PropClients18AgreeKeys` | GG18 key generation clients that were told the same hold shares of one key; C130 |
| `PropClients18Delta` | what a GG18 signer has checked when it stores its delta; C131 |
| `PropClients18Partial` | what a GG18 signer's partial signature is made of; C132 |

`Prop*.v` files hold the property theorems, each with `Print Assumptions` below it and an `Example`
beside it. Specifications are written there (or in `M20Spec`, `SmSpec`) without the model's helpers.

`tools/` has the generators of `properties.jsonl`, `MANIFEST.json` and this file, and `seed.py`, which applies wrong
edits to a scratch copy of the model and records in `seeded/LOG.jsonl` which theorems noticed.

## 3. Findings

Theorems named `…_refuted` show that a claim does not hold of the model.

* **Signature verification.** `verify` of GG20 panics on s = 0 and other crafted inputs (C06); Lindell and CCLST `verify`
  accept negative r, Lindell panics on s = 0 (C07, C08). Recovery ids are wrong when the nonce's
  x or y coordinate reaches q (C04).
* **Range and PDL proofs.** With response s = 0 the Paillier equation reads 0 = 0, so a proof for every unit
  ciphertext can be written down (C45, C46, C49, C51, C78, C79). The statement's base point is not compared with
  the generator (C79). `zk_pdl` finalize ignores the earlier `c_hat`, and the verifier commits to `a + b << bit_length(a)`, which several pairs (a, b) share (C52). Several verifiers panic (C49).
* **Two parties.** Lindell `compute` does not verify its result (C11); the proof of knowledge may be for another
  point (C74, C80); CCLST can sample shares that give the identity as joint key (C81).
* **Commitments.** `m || blind` is ambiguous for integers (C15).
* **Key generation.** Only the first cheater is listed (C23); an honest party can be framed by equivocation (C24); a dealer
  of too high degree is accepted (C26); malformed VSS vectors crash the receiver (C27).
* **Signing.** Total s = 0 makes every party panic (C34, C35); GG18 phase 5c does not tie the rho proof to A_i (C82);
  framing through δ equivocation (C24).
* **Blame.** Opening `beta_tag + N` frames an honest party (C40–C42); short vectors crash (C87).
* **State machines.** `OfflineStage::new` accepts sets of at most t signers (C29) and a key at the wrong position (C88);
  after a failure `pick_output` reports a double pick (C58); late messages are reported as round 2 (C63);
  one crafted round-3 message crashes the signer (C66).
* **Relays.** Message numbers wrap around in release builds (C67); with nobody subscribed every request replaces the room (C68);
  a message published before anyone subscribes is lost (C69); overlapping subscriptions can end in different rooms (C70);
  overlapping signups get the same number and clients can overwrite the signup record (C71, C72);
  round names with dashes collide (C73).
* **Clients.** gg20_keygen makes its machine with `--index` but filters messages with the number issued by the room; if one client joins out of
  order no client ever finishes (C92).
* **Clients.** gg20_signing takes the room's number as its position in the list of signers; if one client joins out of order, no client ever finishes
  presigning (C93).
* **Clients.** The online stage of examples/gg20_signing.rs filters incoming messages by the number issued by the online room but sends the number
  of the offline room. Signers that join the two rooms in different orders read their own partial signature instead of another one's and end
  with an error, for all but at most two messages modulo the order (C95).
* **Clients.** Two gg18_keygen_client programs whose signups race in the server get the same number (C71); then no client of that session ever writes
  a key file: all wait for the missing number (C97).
* **Clients.** When the answer to a signup is lost, `postb` repeats the request and the server gives a second number: the number that was lost is
  never used, and no other client of that session finishes (C97). The same holds for signing.
* **Clients.** The relay lets anybody overwrite any key of a session, and the key generation clients compare nothing at the end: another user can
  make every client finish with a different key, generated with partners of that user's choice (C101).
* **Messages.** The GG18 client signs the text "Hi!" and the hexadecimal string "486921" (also "00486921") as the same number; a message of 2^256
  or more makes it panic at the end of the run. Neither client hashes: on secp256k1 a signature for one 56-character text is a signature for another
  (C99).
* **Auxiliary parameters.** A party that broadcasts h1 = 0 (or any h1, h2 that shares a factor with its N~) makes every other party panic inside the
  proof library instead of being reported. The proofs do not show that h2 is a power of h1: with h2 = -h1^k for a square h1 the proof passes for every
  even challenge, that is for about half of all nonces (C102).
* **Correct-key proof.** It does not show that the modulus is a product of two primes: a prime N of the right size passes. A vector with fewer than 11
  values makes the verifier panic inside the library (C103).
* **Phase 3 of GG20.** T_i = sigma_i G + l_i H hides sigma_i, but the PedersenProof sent with it has separate first messages s1 G and s2 H, so everybody
  can compute sigma_i G from it (C104).
* `C106_zero_r_refuted`: the two points of secp256k1 with x = n give r = 0, and no signing function rejects r = 0: the parties output (0, s), which is not an ECDSA signature. Nobody can compute such a nonce.
* `C04_secp256k1_refuted`, `C05_secp256k1_collision_refuted`, `C07_secp256k1_completeness_refuted`, `C08_secp256k1_completeness_refuted`: the exceptions first shown on the toy curve exist on secp256k1, for every key and all messages but one. Points with x = n + 2 and with y = n + 4 are given explicitly; (2, .) and (n + 2, .) have the same r. Finding the nonce of such a point is infeasible.
* `C07_negated_refuted`: on every curve, (-r, -s) of an accepted signature is accepted for -m by both two-party verifications and is not a signature.
* `C107_truncated_refuted`, `C107_missing_backup_refuted`, `C107_share_not_in_backup_refuted`, `C107_mixed_backups_refuted`: to_encrypted_segment does not check that the segments cover the share; GG backups hold u_i, so all n are needed although t+1 parties can sign, and a party that lost its state cannot get x_i back from its own backup.
* `C108_round6_not_shown_refuted`: OfflineStageProgress has no field for the messages of round 6.
* `C109_gg18_key_extracted_refuted`, `C109_gg20_key_extracted_refuted`: one dishonest signer gets the private key out of the MtA replies of a few signing sessions with the same signers, without causing an error before it has its replies. GG18 has no range proof for the ciphertext at all; in GG20 the proof is accepted with s = 0 (C46).
* `C110_old_keys_revoked_refuted`, `C110_runs_mix_refuted`: repeating key generation with refreshed u_i leaves the old key shares usable (with each other), and nothing checks that the factors add up to 0: otherwise the parties agree on another public key without an error (`C110_gg20_key_kept_iff`).
* `C111_two_signatures_reveal_key_refuted`: the documentation of `OfflineStage` (sign.rs:49-50) says that its output can be used for signing multiple times, and `CompletedOfflineStage` is Clone. Two signatures made so on different messages reveal the private key to anybody; the partial signatures reveal every signer's shares (`C111_partials_reveal_shares_refuted`).
* `C112_copied_opening_accepted_refuted`: neither the commitments, nor the openings, nor the proofs of the first key generation round name their sender. Another party can send a machine copies of that machine's own messages and gets through round 2 (only the Feldman check and the proof of the share in rounds 3 and 4 remain), with the machine's own modulus in its place.
* `C113_t_per_run_hide_key_refuted`: repeating key generation with `refresh_private_key` renews the shares x_i but keeps every u_i up to the factor, and `PartyPrivate` stores u_i. With n <= 2t, t parties corrupted before and the n-t others after a repetition know the whole key, although no t+1 were ever corrupted at once (the factors taken as known).
* `C114_dealer_splits_refuted`: key generation has no check that everyone got the same broadcasts, and no check of the number of VSS commitments. If at most t machines follow the code, or if party 1 is the one that does not, one party can make every machine finish successfully with a different public key; party 1 can do this to all n-1 others for every t, by dealing polynomials of degree n-1.
- The phase 5 commitments of GG18 signing join the digest of the points and the blinding factor without a length, so two
  openings may share one hash input without any collision; C84 lists the exact cases.
* `C115_keygen_refused_critical_refuted`: `IsCritical` of key generation says `true` for every error (keygen.rs:468-472), unlike that of the offline stage. A repeated, late or misaddressed message, or one from an index that takes no part, leaves the machine unchanged but ends the caller.
* `C117_failures_reveal_share_refuted`: failed Lindell 2017 signatures give party one's share away. Party one decrypts whatever ciphertext
  it is sent as partial signature: `Signature::compute` has no proof to check and no range to compare with. Party
  two can therefore have it sign with a plaintext that is congruent to the honest one modulo q exactly if a chosen
  bit of the share is 0, and sees by whether the signature verifies which it was. Party two's nonce (2) and all
  its other messages are honest. 256 attempts give the share on secp256k1. The protocol of the paper has party one
  stop using the key after a failed verification; the library returns `Err(InvalidSig)` and neither retires the
  key nor says that the caller has to. In the CCLST variant an attempt can only try two guesses.
* `C118_gg18_recorded_run_accepted_refuted`: no message of GG18 key generation depends on the run: one who has recorded what the others
  sent to a party in one run can answer it with that in another, and the party finishes, with a public key nobody else has heard of and public
  shares that are not the others'. In GG20 the comparison of the last proofs with the commitments prevents it.
* `C119_answer_tests_secret_refuted`: MessageB has no range proof (the BobProof code is not called from anywhere), so a signer can choose
  beta_tag = N - T b and see from whether the session goes on if the asker's nonce share k_i is below T. With T = q / 2^l one session in 2^l
  goes on, and its signature has a nonce share known to l bits (`C119_finished_machine_below_bound`, `C119_probe_leaves_run_intact`).
* `C120_text_stops_keygen_refuted`, `C120_index_stops_keygen_refuted` (and the signing versions): one HTTP request by
  anybody who knows the room's name (the default is fixed in the programs) stops key generation and signing for good. A
  posted text that does not parse makes every client that reads it exit; one request for an index shifts the numbers.
* `C121_key_with_strangers_refuted`: the server asks for no credentials and messages carry no signatures, so whoever
  sends a party's requests is that party: the other clients finish with a key one of whose shares is the stranger's.
* `C125_checks_suffice_refuted`: in GG18 key generation nothing checks that an opened point is not zero; a party that commits to it, deals zero and proves everything makes every other client panic at `x_coord().unwrap()` (examples/gg18_keygen_client.rs:112-118), before any check, and without naming anybody.

## 4. Trusted base

* Coq 8.16.1 kernel, including `vm_compute` (closed witnesses and examples).
* **Assumptions.** `Print Assumptions` of every `Theorem` and `Example` in the development answers
  "Closed under the global context": no axiom, neither ours nor from a library. (The build check lists seven
  names `Coq.ssr.ssrunder.Under_rel.*`; these are opaque members of a module of the standard library's ssreflect part that is loaded, and
  no theorem uses them.) Sections variables such as hash functions are universally quantified in the closed statements.
* The reading of the Rust code, cited line by line in the model.
* curv's `Point<Secp256k1>` computes the affine chord and tangent rule on y^2 = x^3 + 7 with the constants of `Secp256k1.v` (that this is a `Curve` is proved, C105).
* **External crates**, which are not in /repo and are modelled from their documented behaviour:
  * `curv`: scalars, points, `HashCommitment`, `VerifiableSS`, `DLogProof`, `ECDDHProof`, `HomoELGamalProof`, `PedersenProof`;
  * `centipede`: `Msegmentation` (segments of a share under ElGamal), from its published source;
  * `kzen-paillier`: encryption, decryption, addition, multiplication, `open`; GMP `mod_pow`, `mod_inv`, `%`;
  * `zk-paillier`: `NiCorrectKeyProof`, `CompositeDLogProof` are oracles in the protocol models, given as Section variables that say
    which proofs verify (completeness is a hypothesis where a theorem is about honest runs); they are modelled on their own in
    `CorrectKey` and `RingPedersen`, and C103 discharges the hypothesis for GG20 key generation;
  * `class_group`: linearly homomorphic encryption, a record `CL` with its decryption law; its proofs are oracles;
  * `round-based`: `BroadcastMsgsStore`, `P2PMsgsStore` (modelled), `AsyncProtocol` (specified as any schedule), `Push`;
  * `rocket`, `reqwest`/`surf`, `tokio`: handlers run as interleaved atomic lock sections; `Notify` as a counter of permits issued;
    `RwLock` gives mutual exclusion; `serde_json` is a pair of functions `ser`/`par` with `par (ser x) = x`; uuids are a stream without repetition.

## 5. Modelled and not modelled

Modelled: every function of `src/protocols/two_party_ecdsa/*/party_{one,two}.rs`, `src/utilities`,
`gg_2018/party_i.rs`, `gg_2020/party_i.rs`, `gg_2020/blame.rs`, `gg_2020/state_machine` except trivial accessors. Sampled values and primes are
arguments of the model's functions, so `create`, `create_safe_prime` and `create_from` (likewise `create_with_fixed_secret_share`, and `refresh_private_key` with its `_safe_prime`
variant) are one function with different arguments; the tests of primality are those of the bignum library and not modelled. Of the examples the
two relay servers, the key formats and polling of `common.rs`, and `gg20_sm_client.rs`, `gg20_keygen.rs`, `gg20_signing.rs`, `gg18_keygen_client.rs` and `gg18_sign_client.rs` (after the signup; AES-GCM is a pair of functions that undo each other; secp256k1's verify is ECDSA with low s) are modelled.
GG18 and GG20 clients' order of phase calls is the composition used in the "run" files.

Not modelled: memory zeroisation, timing, serde byte formats, quality of randomness, threads and sockets, lock poisoning,
derived `Debug` output of the data types, tests and benches. Computational assumptions (hardness, zero knowledge) are
not stated; soundness is stated as special soundness or as extraction identities.
Simplifications (such as values recomputed instead of stored) are said in the comment of the definition concerned.

## 6. Every property: what is modelled, how it is proved

Generated by `tools/mkdesign.py` from `properties.jsonl`, `tools/how.json` and `tools/notes.json`.

### C01 GG20 verification accepts exactly standard ECDSA signatures — proved

*Claim.* gg_2020 verify(sig, y, m) returns Ok exactly when the textbook ECDSA verification equation holds for (r, s), public key y and message m reduced modulo the group order; it never returns Ok for an invalid signature with non-zero r. (every scalar pair (r,s), every public key, every message integer)

*Model and proof.* `verify20` over an abstract curve; equivalence with the textbook equation over integers by case analysis and field algebra.

*Result.* Holds for every curve; r = 0 is accepted by the code when the equation holds, so the second theorem assumes r <> 0.

*Theorems.* `C01_gg20_verify_is_ecdsa`, `C01_gg20_verify_valid`, `C01_gg20_verify_both_roots`

### C02 GG18 verification is total and accepts exactly standard ECDSA signatures — proved

*Claim.* gg_2018 verify never panics, returns Err for s=0 and for a verification point at infinity, and otherwise accepts exactly when the textbook ECDSA equation holds. (every scalar pair (r,s), every public key (including the identity), every message integer)

*Model and proof.* `verify18`; exact outcome for every input.

*Result.* Total, exact, and Err on the degenerate inputs.

*Theorems.* `C02_gg18_verify_total`, `C02_gg18_verify_is_ecdsa`, `C02_gg18_verify_degenerate`

### C03 Only valid, low-s signatures are ever output by GG18 and GG20 — proved

*Claim.* If output_signature returns Ok(sig) then sig verifies under the joint public key for the message and has s <= (q-1)/2, no matter what partial signatures the other parties sent. (every list of partial signatures from other (possibly malicious) parties, every local state, message and public key)

*Model and proof.* `output_signature` of both protocols; case analysis on its final `verify` and the low-s step.

*Result.* For arbitrary partial signatures, GG18 and GG20; converse (completeness of the output step) proved too.

*Theorems.* `C03_gg18_client_output`, `C03_gg18_client_output_complete`, `C03_gg20_output_valid_low_s`, `C03_gg18_output_valid_low_s`, `C03_gg18_output_total`, `C03_output_complete`

### C04 The recovery id recovers the joint public key — partial

*Claim.* For every signature output by GG20/GG18/Lindell compute_with_recid, public-key recovery from (r, s, recid, m) returns the joint public key. (every nonce point, key and message)

*Model and proof.* Recovery specified from the SEC1 text over point coordinates; proof by algebra; witnesses on the toy curve.

*Result.* False as stated: refuted for nonce x >= q, for nonce y >= q (both on secp256k1, for every key), and for a malicious co-signer forcing the negated root. Exact condition proved; holds when x,y < q and the total satisfies the signing equation.

*Theorems.* `C04_recid_exact`, `C04_recid_partial`, `C04_recid_malicious`, `C04_recid_refuted`, `C04_secp256k1_refuted`

### C05 A tampered partial signature never yields a signature — proved

*Claim.* If the signing equation holds for honest partial signatures, replacing any partial signature by a different scalar makes complete/output_signature return an error instead of a signature, unless the tampered sum is the other valid root (negated s). (every position and every replacement scalar)

*Model and proof.* Linearity of the signing equation; a different sum gives a different s, and the final verify decides.

*Result.* With the extra exception that two curve points have x-coordinates congruent mod q (real on the toy curve and on secp256k1: collision_refuted); without such points the property holds as stated.

*Theorems.* `C05_tampered_partial_detected`, `C05_single_tamper_refused`, `C05_collision_refuted`, `C05_secp256k1_collision_refuted`

### C06 GG20 verification never panics — partial

*Claim.* gg_2020 verify returns Ok or Err for every signature and public key supplied by an untrusted caller. (every scalar pair and point)

*Model and proof.* Exact panic condition of `verify20`; witnesses.

*Result.* False: exact panic condition proved, refuted by witnesses; on every curve s = 0 panics, and for every key and every r, s with s nonzero exactly one residue of the message panics.

*Theorems.* `C06_gg20_verify_panics_exactly`, `C06_gg20_verify_never_panics_refuted`, `C06_zero_s_crashes`, `C06_infinity_crashes`, `C06_infinity_reached`

### C07 Lindell verification accepts only valid ECDSA signatures and rejects high s — partial

*Claim.* lindell_2017 verify(sig, pk, m)=Ok implies textbook ECDSA validity of (r mod q, s mod q); the pair (r, q-s) of an accepted (r,s) is rejected; no other representation of the same signature is accepted. (every pair of integers (r,s) including negatives and values above q, every key and message)

*Model and proof.* `verify` of Lindell over signed integers; textbook comparison and witnesses.

*Result.* Soundness proved for r >= 0 and high s rejection proved; uniqueness of representation and validity for negative r refuted on every curve; panics on s = 0; honest signatures with nonce x >= q are refused, also on secp256k1.

*Theorems.* `C07_lindell_verify_canonical`, `C07_lindell_verify_sound_partial`, `C07_lindell_high_s_rejected`, `C07_lindell_unique_representation_refuted`, `C07_lindell_validity_refuted`, `C07_lindell_verify_panics_on_zero_s`, `C07_lindell_completeness_refuted`, `C07_secp256k1_completeness_refuted`, `C07_negated_refuted`

### C08 CCLST verification accepts only valid ECDSA signatures and returns Err on s=0 — partial

*Claim.* cclst_2019 verify(sig, pk, m)=Ok implies textbook ECDSA validity; s congruent to 0 gives Err(InvalidSig); high s is rejected. (every pair of integers (r,s), every key and message)

*Model and proof.* `verify` of CCLST likewise.

*Result.* Soundness for r >= 0, Err on s = 0 and high-s rejection proved; negative r and panic at infinity refuted; signatures with nonce x >= q are refused, also on secp256k1.

*Theorems.* `C08_cclst_verify_sound_partial`, `C08_cclst_zero_s_err`, `C08_cclst_high_s_rejected`, `C08_cclst_accepts_as_lindell`, `C08_cclst_validity_refuted`, `C08_secp256k1_completeness_refuted`

### C09 Lindell two-party signing is correct — proved

*Claim.* When both parties follow the protocol, Signature::compute on party two's partial signature yields a valid low-s ECDSA signature on m under x1*x2*G, and verify accepts it whenever the nonce x-coordinate is below q. (every pair of key shares, nonces, message, masking value rho below q^2 and Paillier randomness, every Paillier key with N large enough)

*Model and proof.* Both parties' functions composed; Paillier homomorphism over Z, then reduction modulo q.

*Result.* Every honest run returns (r, s) with the ECDSA equation, low s and the right recovery id; s = 0 and r = 0 (no ECDSA signature exists) excluded; verify accepts exactly when the nonce x is below q (C07).

*Theorems.* `C09_lindell_signing_correct`

### C10 CCLST two-party signing is correct — proved

*Claim.* When both parties follow the protocol, Signature::compute on party two's partial signature yields a valid low-s ECDSA signature under the joint key. (every pair of key shares, nonces and message)

*Model and proof.* As C09 over the record CL of a linearly homomorphic scheme.

*Result.* For every linearly homomorphic scheme (record CL); same exclusions as C09.

*Theorems.* `C10_cclst_signing_correct`, `C10_cclst_signing_correct_through_setup`

### C11 Lindell compute returns only valid signatures — partial

*Claim.* Party one's Signature::compute never returns a signature that fails verification, whatever ciphertext party two sent. (every ciphertext sent by party two)

*Model and proof.* `compute` on an arbitrary ciphertext; for every s a ciphertext is constructed.

*Result.* False: compute does not check its result; party two makes it return any s of its choice, in particular an invalid one (refuted for every key). Partial: a returned pair satisfies the ECDSA equation only for the honest plaintext modulo q, up to sign.

*Theorems.* `C11_lindell_party_two_chooses_s_refuted`, `C11_lindell_invalid_output_refuted`, `C11_lindell_valid_only_if_honest_partial`

### C12 Two-party key generation agrees on one public key — proved

*Claim.* In Lindell 2017 and CCLST 2019, party one's compute_pubkey and party two's compute_pubkey on each other's public shares return the same point, which is the generator times the product of the two secret shares. (every pair of secret shares)

*Model and proof.* Algebra of scalar multiplication.

*Result.* Both parties compute (x1 x2) G.

*Theorems.* `C12_two_party_same_pubkey`, `C12_two_party_any_share`

### C13 Two-party key refresh preserves the joint key — proved

*Claim.* Applying refresh_private_key with factor f at party one and update_private_key with factor f^-1 at party two leaves the joint public key unchanged and signing after any number of such refreshes is still correct. (every key pair, every sequence of non-zero refresh factors)

*Model and proof.* Induction over the list of refresh factors.

*Result.* Any finite sequence of refreshes keeps the joint key, never fails for honest parameters, and signing afterwards is valid under the original key.

*Theorems.* `C13_refresh_preserves_key`, `C13_refresh_never_fails`, `C13_signing_after_refresh`

### C14 Point commitments are binding — proved

*Claim.* If two (point, blinding) pairs open the same 32-byte commitment used in key generation or signing, then either both points are equal or the hash function has a collision. (every pair of points and every pair of non-negative blinding integers)

*Model and proof.* Injectivity of the point encoding; collision named.

*Result.* Conclusion names the two colliding hash inputs.

*Theorems.* `C14_point_commitment_binding`, `C14_point_commitment_binds_blinding`

### C15 Integer commitments are binding — partial

*Claim.* If two (integer, blinding) pairs open the same hash commitment (as in zk_pdl) then the integers are equal or the hash has a collision. (every pair of integers and blindings)

*Model and proof.* Byte encoding of integers; ambiguity witness for every hash.

*Result.* False: the encoding m||blind is ambiguous (refuted for every hash); proved for equal byte lengths; sign not bound.

*Theorems.* `C15_integer_commitment_refuted`, `C15_integer_commitment_binding_partial`, `C15_sign_not_bound`

### C16 Honest commitments always open — proved

*Claim.* A commitment produced by a protocol's create/broadcast function is accepted by the peer's verify function for the revealed point and blinding. (every point and blinding factor)

*Model and proof.* Composition of create and verify functions.

*Result.* Two-party part in PropCommit/PropTwoParty; the GG20 and GG18 broadcast commitments open in their own check (C16_gg20_keygen_opens, C16_gg18_keygen_opens).

*Theorems.* `C16_gg20_keygen_opens`, `C16_gg18_keygen_opens`, `C16_two_party_keygen_accepts`, `C16_two_party_ephemeral_accepts`

### C17 Feldman shares verify and any t+1 reconstruct the secret — proved

*Claim.* Every share produced for party i passes validate_share at index i, and reconstruct on any list of at least t+1 distinct indices with their shares returns the secret. (every threshold t<n, every polynomial, every subset of indices of size > t in any order)

*Model and proof.* Polynomials as coefficient lists; Lagrange interpolation proved by root counting.

*Theorems.* `C17_share_validates`, `C17_reconstruct`

### C18 t shares determine nothing about the secret — proved

*Claim.* For any t distinct indices, any t share values and any candidate secret there is exactly one degree-t sharing polynomial consistent with them. (every t, every set of t indices, every share values, every candidate secret)

*Model and proof.* Existence and uniqueness of the interpolating polynomial with given value at 0.

*Result.* Counting form (exactly one polynomial per candidate secret) for the evaluation points and, in C18_shares_hide_secret, for the vector returned by the dealer.

*Theorems.* `C18_secrecy`, `C18_shares_hide_secret`

### C19 An accepted share is the committed polynomial's value — proved

*Claim.* validate_share(share, i) succeeds exactly when share equals the committed polynomial evaluated at i; hence more than t accepted shares always reconstruct the discrete log of the published constant-term commitment. (every commitment vector (of length t+1) and every share, honest or not)

*Model and proof.* Evaluation in the exponent.

*Theorems.* `C19_validate_share_exact`, `C19_validate_share_public`, `C19_accepted_shares_reconstruct`

### C20 GG20 key generation with honest parties is correct end to end — proved

*Claim.* If all n parties run the phases honestly then every phase returns Ok, every party outputs the same public key y = (sum u_i) G, every x_i G equals the published pk_i, and any t+1 of the x_i reconstruct the secret key of y. (every n, every t<n, every secret polynomials and randomness)

*Model and proof.* The run function `kg_run` composes all rounds of all parties; sums over lists and Lagrange.

*Result.* The whole run of rounds 0-4 for all parties, any t < n < q, any randomness; the zk-paillier proofs are oracles that accept the honest proofs.

*Theorems.* `C20_gg20_keygen_correct`

### C21 GG18 key generation with honest parties is correct end to end — proved

*Claim.* Same statement for gg_2018 Keys: all phases return Ok, all parties agree on y, and any t+1 of the x_i reconstruct the secret key of y. (every n, every t<n, every secret polynomials and randomness)

*Model and proof.* Same for the GG18 functions.

*Result.* GG18 functions composed as in the crate's own test driver and the gg18 example; same quantification.

*Theorems.* `C21_gg18_keygen_correct`

### C22 Key generation accepts a peer only if its opening and proofs verify — proved

*Claim.* The phase-1 verification step returns Ok exactly when every party's commitment opens to its revealed point and all its key/parameter proofs verify (and key sizes are in range for GG20); otherwise it returns an error whose reported bad actor really failed a check. (every vector of received broadcasts and decommitments)

*Model and proof.* Exact outcome of the verification loop for arbitrary messages.

*Result.* Exact acceptance condition and error of phase1_verify_com_phase3_verify_correct_key_phase2_distribute for GG20 and GG18.

*Theorems.* `C22_phase1_accepts_iff`, `C22_phase1_error_names_a_failure`, `C22_phase1_total`, `C22_gg18_phase1_accepts_iff`

### C23 Key generation error lists all malicious parties — partial

*Claim.* When verification in a GG20 phase fails because several parties misbehaved, the returned error lists every misbehaving party (README: identifiable abort returns a list of malicious parties). (every vector of received messages with at least two cheaters)

*Model and proof.* Two cheaters in one phase; list has one entry. What holds: first cheater.

*Result.* Refuted as stated: `all` stops at the first failure, so at most one cheater is ever listed (three phases). What holds: the first one is listed.

*Theorems.* `C23_phase1_lists_one_refuted`, `C23_phase2_lists_one_refuted`, `C23_dlog_lists_one_refuted`, `C23_first_is_listed_partial`

### C24 An honest party is never listed as bad actor by a GG20 phase check — partial

*Claim.* Whenever a GG20 check returns an error, every index in bad_actors is a party whose message in fact violates the check. (every vector of messages, any number of cheaters)

*Model and proof.* For each check: listed implies violation, relative to the views; framing run constructed.

*Result.* Phases 1, 2, 4 and 6 proved. For the key generation dlog check and the PDL check of signing only relative to the checking party's own view; refuted in general: VSS commitments and delta_i can be equivocated, so an honest party is listed (C24_honest_party_framed_refuted, C24_honest_signer_framed_refuted with a full run as example).

*Theorems.* `C24_phase1_listed_is_bad`, `C24_phase2_listed_is_bad`, `C24_dlog_listed_fails_own_view_partial`, `C24_honest_party_framed_refuted`, `C24_phase4_listed_is_bad`, `C24_phase5_listed_fails_own_view_partial`, `C24_phase6_lists_exactly_bad`, `C24_honest_signer_framed_refuted`

### C25 Accepted key material is consistent even with malicious peers — proved

*Claim.* If an honest party's VSS verification and dlog-proof/VSS cross-check return Ok on arbitrary messages, then y is the sum of the y_j, its secret share satisfies x_i G = sum of the committed polynomials at i, and every pk_j in its output equals the committed polynomials' sum at j. (every set of adversarial messages)

*Model and proof.* Implication from Ok for arbitrary messages.

*Result.* For arbitrary messages, per party and across parties that saw the same broadcasts. GG18's final check is not tied to the VSS (refuted there).

*Theorems.* `C25_accepted_key_consistent`, `C25_local_key_consistent`, `C25_parties_agree`, `C25_gg18_public_shares_unchecked_refuted`, `C25_gg18_phase2_accepts_iff`, `C25_gg18_dlog_accepts_iff`

### C26 Key generation enforces the agreed threshold — partial

*Claim.* If all honest parties accept key generation with parameters (t,n), then any t+1 of the honest parties' shares reconstruct the secret key. (every set of adversarial VSS schemes)

*Model and proof.* A dealer with a degree t+1 polynomial; counting of solutions.

*Result.* Refuted: a degree t+1 dealer is accepted by both protocols and no t+1 shares reconstruct. Holds when the commitment vectors have at most t+1 entries (C26_threshold_partial).

*Theorems.* `C26_degree_unchecked_refuted`, `C26_threshold_partial`

### C27 Malformed VSS messages never crash a party — partial

*Claim.* For every VSS scheme deserialised from the network, the VSS verification step returns Ok or Err and does not panic. (every commitments vector including the empty one)

*Model and proof.* Index panics made explicit; witnesses; exact no-panic condition; lifted to every history of the keygen machine (message substitution), with a totality theorem for well-sized commitments.

*Result.* Refuted: empty commitment vectors and vectors longer than those of party 0 crash the receiver, also at the level of the machine: in every history past round 3 (round 4) one changed message from another party ends in a panic (C27_keygen_machine_panics_refuted, C27_keygen_machine_panics_late_refuted). Holds: no panic in phase 2 otherwise, and the machine never panics if every round-3 message carries t+1 commitments (C27_keygen_machine_total).

*Theorems.* `C27_phase2_total`, `C27_empty_commitments_panic_refuted`, `C27_longer_commitments_panic_refuted`, `C27_keygen_machine_total`, `C27_keygen_machine_panics_refuted`, `C27_keygen_machine_panics_late_refuted`, `C27_empty_vss_panics`

### C28 Additive shares of any signing subset sum to the key — proved

*Claim.* For every list of distinct signers of size > t, the w_i computed by SignKeys::create sum to the secret key, and g_w_vec returns exactly the points w_i G computed from public data. (every subset, order, polynomial, t and n)

*Model and proof.* Lagrange coefficients of `map_share_to_new_params`; sum over the signer list.

*Result.* Every list of distinct signers of size > t, in any order; also from a completed key generation.

*Theorems.* `C28_additive_shares`, `C28_after_keygen`

### C29 OfflineStage refuses signer sets too small to sign — partial

*Claim.* OfflineStage::new returns an error when the signer list has at most t members, since such a set cannot sign under the key. (every signer list and local key)

*Model and proof.* Constructor model; accepted set of t members exhibited for each key.

*Result.* Refuted: OfflineStage::new never compares the number of signers with the threshold, so a set of t members is accepted for every key with t >= 2.

*Theorems.* `C29_threshold_unchecked_refuted`

### C30 MtA turns a product into additive shares — proved

*Claim.* After MessageA::a and MessageB::b between honest parties, verify_proofs_get_alpha returns Ok(alpha) with alpha + beta = a*b mod q whenever a*b + beta_tag < N, and otherwise returns an error, never a wrong share. (every a, b, beta_tag, Paillier key and randomness)

*Model and proof.* Paillier homomorphism over Z; exact wrap-around condition.

*Result.* Includes the exact behaviour when the plaintext wraps modulo N: an error, never a wrong share.

*Theorems.* `C30_mta_correct`, `C30_mta_wrap_is_error`, `C30_mta_never_wrong_share`, `C30_mta_bob_answers`

### C31 An accepted MtA reply is bound to the announced public share — proved

*Claim.* If verify_proofs_get_alpha(dk, a) returns Ok(alpha) for an arbitrary MessageB then alpha*G = a*B + B' where B and B' are the points carried in the message's proofs. (every MessageB, every decryption key, every a)

*Model and proof.* Implication from Ok for arbitrary replies.

*Result.* Accepted replies satisfy the exponent relation; with verify_b_against_public the share product follows.

*Theorems.* `C31_accepted_reply_bound`, `C31_gg18_accepted_reply_bound`, `C31_public_check_gives_product`, `C31_rejects_otherwise`

### C32 Bob answers only if every Alice range proof verifies — proved

*Claim.* MessageB::b returns Err unless MessageA carries exactly one range proof per dlog statement and each verifies; on Err nothing is computed from the secret b. (every MessageA and list of statements)

*Model and proof.* Exact outcome of `MessageB::b`.

*Result.* Bob answers iff one verifying proof per statement; the refusal does not depend on the secrets.

*Theorems.* `C32_bob_answers_iff_proofs_verify`, `C32_refusal_independent_of_secrets`, `C32_wrong_number_of_proofs`

### C33 GG20 presigning with honest parties is correct — proved

*Claim.* With honest parties, delta reconstructs (sum k)(sum gamma), R equals (sum k)^-1 G for every party, the R-dash sum check and the S sum check pass and every proof verifies. (every signer subset of size > t, all nonces and randomness with non-zero k*gamma and no Paillier wrap)

*Model and proof.* `sg_pre` and further run functions over all signers; sums of MtA shares over pairs; algebra in the exponent.

*Result.* All rounds of the offline stage run honestly; hypotheses: good Paillier keys and statements, non-zero sums, no MtA wrap.

*Theorems.* `C33_gg20_presign_correct`, `C33_delta_reconstructs`

### C34 GG20 signing with honest parties always yields a valid signature — proved

*Claim.* Following the phases honestly, every party's output_signature returns Ok with the same signature, valid for the message under the joint key. (every signer subset of size > t, every message, all randomness with non-degenerate values)

*Model and proof.* On top of C33, `SignManual`.

*Result.* Every party outputs the same valid low-s signature unless the total s is 0; in that case the theorem says every party panics.

*Theorems.* `C34_gg20_sign_correct`, `C34_gg20_end_to_end`

### C35 GG18 signing with honest parties always yields a valid signature — proved

*Claim.* Following the GG18 phases honestly (including phases 5a-5d), every check passes and output_signature returns the same valid signature at every party. (every signer subset of size > t, every message, all randomness with non-degenerate values)

*Model and proof.* All ten rounds of the GG18 client; same technique.

*Result.* All ten client rounds, any signer subset larger than the threshold; also from key generation to signature. Messages with total s = 0 stop every client (stated).

*Theorems.* `C35_gg18_sign_correct`, `C35_gg18_end_to_end`

### C36 Phase 4 fixes the nonce point only from committed values — proved

*Claim.* SignKeys::phase4 returns Ok(R) only if every other party's decommitment opens its phase-1 commitment and equals the point proven in MtA; then R = delta^-1 times the sum of the revealed points. Otherwise the reported bad actor really violated one of the two. (every vector of decommitments, commitments and MtA proofs)

*Model and proof.* Exact outcome of phase 4.

*Result.* GG20: exact characterisation of acceptance, the reported index violates, round-level consequence. GG18: exact acceptance with one proof per revealed point; surplus openings would be unchecked (finding).

*Theorems.* `C36_phase4_accepts_iff`, `C36_phase4_checks_everyone`, `C36_phase4_error_names_violator`, `C36_round4`, `C36_gg18_phase4_accepts_iff`, `C36_gg18_phase4_surplus_unchecked_refuted`

### C37 Passing the GG20 pre-signature checks guarantees a valid signature from consistent shares — proved

*Claim.* If the R-dash sum check and the S sum check pass and each R-dash_i = k_i R, S_i = sigma_i R, then for every message the sum of m k_i + r sigma_i is a valid signature under y (unless the sum is 0), even if delta, k or sigma were chosen maliciously. (every k_i, sigma_i, R and message)

*Model and proof.* Algebra from the two point sums.

*Result.* Any k_i, sigma_i, R, y; rounds 5 and 6 perform exactly these checks.

*Theorems.* `C37_checked_presignature_signs`, `C37_rounds_check_sums`

### C38 GG18 phase 5 check detects an inconsistent partial signature — proved

*Claim.* If the committed V, A, B, T, U values are consistent with openings l_i, rho_i, s_i, then phase5d returns Ok exactly when rho*(s R - m G - r Q) is the identity; hence with a non-zero rho sum a wrong sum of s_i is rejected before any s_i is revealed. (every s_i, l_i, rho_i)

*Model and proof.* Exact outcome of phase 5d rewritten in discrete logarithms.

*Result.* Exact decision of phase5d for all s, l, rho; with a non-zero rho sum a wrong sum of s is rejected at every signer.

*Theorems.* `C38_phase5d_decides`, `C38_wrong_sum_rejected`

### C39 Signing result does not depend on which authorised subset signs — proved

*Claim.* Any two authorised signer subsets using the same total nonce produce the same signature on the same message. (every two subsets of size > t and every message)

*Model and proof.* Both runs give the signature determined by nonce and key.

*Result.* Any two authorised subsets, keys and randomness with equal nonce sums; recovery id included.

*Theorems.* `C39_signature_independent_of_subset`

### C40 Phase 5 blame never accuses an honest party — partial

*Claim.* If a party's opened state is consistent with its broadcast messages and it computed delta honestly, it is not in the list returned by phase5_blame. (every global state, any number of cheaters)

*Model and proof.* Exact list computed by the blame functions on opened global states; framing state constructed.

*Result.* False as stated (C40_framing_refuted): a party that opens beta_tag + N for its exchange with an honest party, and broadcasts the matching delta, gets exactly that honest party listed. With openings in the range an honest party can have, an honest party is never listed (C40_honest_not_blamed_partial).

*Theorems.* `C40_honest_not_blamed_partial`, `C40_framing_refuted`

### C41 Phase 5 blame finds a culprit — partial

*Claim.* If the opened values are inconsistent with the broadcast messages or some delta_i differs from the honest recomputation, phase5_blame returns a non-empty list containing a party that deviated. (every global state)

*Model and proof.* As C40.

*Result.* Exact meaning of the list proved for every state with vectors of the right lengths; non-empty whenever an opening is inconsistent or the deltas have the wrong sum. That the list contains a deviating party is refuted by the framing state of C40. Vectors of other lengths make the code panic (C87).

*Theorems.* `C41_phase5_lists_violators`, `C41_every_state_covered`, `C41_wrong_sum_is_blamed`, `C41_only_innocent_listed_refuted`

### C42 Phase 6 blame is sound and complete up to the proof system — partial

*Claim.* phase6_blame lists party i exactly when its opened mu/k do not re-encrypt to the broadcast ciphertexts, or (all openings being consistent) its ECDDH proof does not verify against the sigma_i recomputed in the exponent; an honest party is never listed. (every global state)

*Model and proof.* As C40 for phase 6.

*Result.* The exact list is proved for every state with vectors of the right lengths. That an honest party is never listed is false (C42_framing_refuted, opening miu + N) and proved for openings in range (C42_honest_not_listed_partial).

*Theorems.* `C42_phase6_exact`, `C42_every_state_covered`, `C42_honest_not_listed_partial`, `C42_framing_refuted`

### C43 Phase 7 blame lists exactly the cheating signers — proved

*Claim.* phase7_blame lists exactly those i with s_i R != m R-dash_i + r S_i; an honest signer is never listed; if all partial signatures sum to an invalid signature while the R-dash/S sums are right, the list is non-empty. (every vector of partial signatures)

*Model and proof.* As C40 for phase 7.

*Result.* For vectors of equal length; shorter R-dash or S vectors panic in the code.

*Theorems.* `C43_phase7_exact`, `C43_honest_not_listed`, `C43_bad_total_is_blamed`

### C44 Alice range proof: honest proofs verify and accepted proofs bound the response — proved

*Claim.* An honestly generated AliceProof verifies whenever s1 = e*a + alpha <= q^3; every accepted proof has s1 <= q^3. (every plaintext, randomness, modulus and dlog statement)

*Model and proof.* Integer arithmetic modulo N² and N-tilde.

*Result.* Exact: accepted iff s1 <= q^3; accepted proofs satisfy the bound and the verification equations.

*Theorems.* `C44_alice_honest_verifies`, `C44_alice_accepted_bound`, `C44_alice_accepted_equations`

### C45 Alice range proof: two accepting answers to one commitment determine an opening — partial

*Claim.* From two accepting transcripts with the same first message and different challenges one obtains integers solving z^(e-e') = h1^ds1 h2^ds2 mod N-tilde and c^(e-e') = (1+N)^ds1 ds^N mod N^2. (every pair of transcripts)

*Model and proof.* Division of the two verification equations; units modulo N.

*Result.* Proved when the response s is coprime to N (including the plaintext relation); refuted without that condition, because s = 0 makes the Paillier equation vacuous; on every curve, for every key and ciphertext, two accepted answers exist that bind no plaintext.

*Theorems.* `C45_alice_special_sound_partial`, `C45_alice_special_sound_refuted`, `C45_alice_answers_bind_nothing`

### C46 Alice range proof rejects out-of-range responses — partial

*Claim.* Every accepted AliceProof has 0 <= s1 <= q^3. (every proof)

*Model and proof.* Forged proof constructed for every negative s1.

*Result.* False: for every negative s1 an accepted proof exists for every unit ciphertext.

*Theorems.* `C46_alice_negative_response_refuted`

### C47 Bob range proofs: completeness — proved

*Claim.* Honestly generated BobProof and BobProofExt verify whenever s1 = e*b + alpha <= q^3, for non-identity b*G and commitment point. (every b, beta', randomness, ciphertext and statement)

*Model and proof.* As C44.

*Result.* Exact: accepted iff s1 <= q^3, with and without the public point.

*Theorems.* `C47_bob_honest_verifies`, `C47_bobext_honest_verifies`

### C48 BobProofExt binds the exponent to the public point — proved

*Claim.* From two accepting BobProofExt transcripts with the same first message and different challenges (mod q) the discrete log of X is determined by the responses. (every pair of transcripts)

*Model and proof.* As C45.

*Result.* Discrete log of X determined by the responses; ring-Pedersen relations and, for s coprime to N, the Paillier relation as well.

*Theorems.* `C48_bobext_binds_point`

### C49 Range-proof verification never crashes on adversarial proofs — partial

*Claim.* AliceProof, BobProof, BobProofExt and PDLwSlack verification return true/false (or Ok/Err) for every proof received from the network and never panic. (every proof value including zeros, non-invertible elements and identity points)

*Model and proof.* Panic conditions of inverses made explicit; witnesses.

*Result.* False: panics shown for AliceProof (e < 0 and non-unit), BobProofExt (identity point), PDLwSlack (non-unit z or ciphertext). Exact panic conditions for AliceProof and PDLwSlack, sufficient conditions for no panic for Bob.

*Theorems.* `C49_alice_verify_panics_refuted`, `C49_alice_verify_panics_iff`, `C49_bobext_verify_panics_refuted`, `C49_bob_verify_total_partial`, `C49_pdls_verify_panics_iff`, `C49_pdls_verify_panics_refuted`

### C50 PDL with slack: honest proofs verify — proved

*Claim.* PDLwSlackProof::prove on a ciphertext of x and Q = x*G' yields a proof accepted by verify. (every x, randomness, Paillier key and h1,h2,N-tilde with invertible elements)

*Model and proof.* As C44.

*Result.* For all randomness.

*Theorems.* `C50_pdls_honest_verifies`

### C51 PDL with slack ties the curve point to the ciphertext — partial

*Claim.* From two accepting transcripts with the same commitments and different challenges, one integer difference ds1 satisfies both (e-e')Q = ds1 G' and c^(e-e') = (1+N)^ds1 ds2^N, so Q and the ciphertext share the exponent ds1/(e-e'). (every pair of transcripts)

*Model and proof.* As C45.

*Result.* Point relation and ring-Pedersen relation proved; the ciphertext relation proved when s2 is coprime to N and refuted without that condition.

*Theorems.* `C51_pdls_special_sound_partial`, `C51_pdls_special_sound_refuted`

### C52 Interactive PDL proof: completeness and soundness of the final check — partial

*Claim.* An honest zk_pdl run ends with Ok on both sides for every verifier randomness; and the verifier's finalize returns Ok only if the prover's revealed point equals a*Q + b*G and matches its commitment. The verifier's first message commits it to a and b: the prover answers no other challenge. (every witness, verifier randomness a,b and Paillier key with N large enough)

*Model and proof.* Both sides composed; finalize characterised for arbitrary messages.

*Result.* Completeness, exact acceptance, opening guard and interactive soundness proved; refuted: finalize does not use the c_hat received earlier; the verifier is not committed to (a, b), since a + b*2^(bit length of a) is committed: for every share x two challenges share one commitment and one plaintext. With the bit length of a fixed it is (C52_challenge_bound_partial).

*Theorems.* `C52_pdl_complete`, `C52_pdl_wrap_aborts`, `C52_finalize_iff`, `C52_openings_guarded`, `C52_interactive_sound`, `C52_late_commitment_refuted`, `C52_challenge_not_bound_refuted`, `C52_challenge_bound_partial`

### C53 Schnorr and Pedersen proofs used by the protocols are complete and specially sound — proved

*Claim.* Honest DLogProof, ECDDHProof, HomoELGamalProof and PedersenProof verify; two accepting transcripts with distinct challenges yield the witness. (every witness and every pair of transcripts)

*Model and proof.* Field algebra; two challenges.

*Result.* Completeness, exact verification equation, special soundness; curv's proofs as read.

*Theorems.* `C53_dlog_complete`, `C53_dlog_sound`, `C53_dlog_hvzk`, `C53_ecddh_complete`, `C53_ecddh_sound`, `C53_homo_elgamal_complete`, `C53_homo_elgamal_sound`, `C53_pedersen_complete`, `C53_pedersen_sound`

### C54 Keygen constructor validates its parameters — proved

*Claim.* Keygen::new(i,t,n) returns Ok exactly when n>=2, 1<=t<=n-1 and 1<=i<=n, otherwise the documented error, checked in the documented order. (every triple of 16-bit integers)

*Model and proof.* Decision function against a specification of the documented conditions.

*Theorems.* `C54_keygen_new`

### C55 OfflineStage constructor validates its parameters — proved

*Claim.* OfflineStage::new(i, s_l, key) returns Ok exactly when s_l has between 2 and 65535 distinct entries in [1,n] and 1<=i<=len; otherwise the documented error. (every index, list and key)

*Model and proof.* As C54.

*Result.* The TooManyParties branch is shown unreachable separately.

*Theorems.* `C55_offline_new`, `C55_too_many_unreachable`

### C56 Bad messages are refused without changing the state — proved

*Claim.* A message with an unknown sender, wrong addressing, or duplicate of an already received message is rejected with an error (a message bearing one's own index is ignored) and leaves every observable of the machine unchanged. (every reachable state and every message)

*Model and proof.* Step function on the stores; specification by history.

*Result.* Both machines, after every history of calls; good messages are shown accepted as well.

*Theorems.* `C56_keygen_bad_refused`, `C56_keygen_good_accepted`, `C56_offline_bad_refused`, `C56_offline_good_accepted`

### C57 Message delivery order does not matter — proved

*Claim.* Delivering the same set of valid messages in any order, interleaved with proceed calls in any way, leads a Keygen / OfflineStage machine to the same output and the same set of outgoing messages. (every permutation of deliveries and placement of proceed calls)

*Model and proof.* The state is a function of the set of accepted messages (invariant over histories).

*Result.* Both machines: two histories with the same proper messages and nothing left to do agree on the whole state, output and outgoing messages; order of the queue included.

*Theorems.* `C57_keygen_order`, `C57_keygen_output`, `C57_offline_order`, `C57_offline_output`

### C58 Output is produced at most once and only after finishing — partial

*Claim.* pick_output returns None before the protocol finishes, Some(Ok(_)) at most once, and Some(Err(DoublePickOutput)) ever after. (every history of API calls)

*Model and proof.* Invariant over histories.

*Result.* Exact characterisation of pick_output for both machines, plus a refutation: after a failed round pick_output reports DoublePickOutput although nothing was ever output.

*Theorems.* `C58_keygen_pick`, `C58_offline_pick`, `C58_double_pick_without_output_refuted`

### C59 A failed round is final — proved

*Claim.* After handle_incoming or proceed reports a round error, the machine never produces an output and never sends another message, whatever is called later. (every history of API calls after the failure)

*Model and proof.* Invariant over histories.

*Theorems.* `C59_keygen_final`, `C59_offline_final`

### C60 The round number never decreases and every round's message is sent once — proved

*Claim.* current_round is non-decreasing along any history, and over any history a party enqueues its broadcast of each round at most once and one point-to-point message per peer at most once, all carrying its own index as sender. (every history of API calls)

*Model and proof.* Invariant over histories.

*Theorems.* `C60_keygen_monotone`, `C60_keygen_sent`, `C60_offline_monotone`, `C60_offline_sent`

### C61 wants_to_proceed is accurate — proved

*Claim.* wants_to_proceed() is true exactly when calling proceed() would execute a round (change current_round or fail). (every reachable state)

*Model and proof.* Invariant over histories.

*Theorems.* `C61_keygen_wants`, `C61_offline_wants`

### C62 round_blame names exactly the silent parties — proved

*Claim.* In any round that waits for messages, round_blame returns the number of missing messages and exactly the indices of the parties whose message for that round has not been accepted. (every reachable state)

*Model and proof.* Invariant over histories.

*Theorems.* `C62_keygen_blame`, `C62_offline_blame`

### C63 Out-of-order errors report the message's round — partial

*Claim.* When handle_incoming returns ReceivedOutOfOrderMessage, msg_round is the round the message belongs to. (every reachable state and message)

*Model and proof.* Invariant over histories; store of a late round is gone.

*Result.* Keygen reports the right round. OfflineStage reports round 2 for every message of rounds 3 to 5 that comes late in any reachable state: the claim is refuted for it (C63_offline_late_refuted), together with the exact formula.

*Theorems.* `C63_offline_late_refuted`, `C63_keygen_rounds`, `C63_offline_rounds`

### C64 Honest Keygen machines finish under every schedule — proved

*Claim.* n honest Keygen machines whose queued messages are all eventually delivered, in any order, all finish with Ok and identical public key, and their local keys satisfy the key generation correctness statement. (every n, t, randomness and delivery schedule)

*Model and proof.* Network of machines; every machine's inbox is a prefix of the honest run (confluence), and a quiescent network has finished; potential function bounds the number of effective actions.

*Result.* Every schedule (deliveries in any order, proceeds and sends interleaved arbitrarily): no call fails or panics, at most 5n^2+3n actions do anything, whoever has finished has the correct key, and when nothing is left to do everyone has; every schedule can be continued to that point. Also for independent per-party histories with repeated deliveries. The driving loop (round_based AsyncProtocol) is specified by the schedule, not modelled from source.

*Theorems.* `C64_keygen_finishes_under_every_schedule`, `C64_keygen_schedules_can_finish`, `C64_keygen_any_genuine_history`

### C65 Honest OfflineStage machines finish under every schedule — proved

*Claim.* Honest OfflineStage machines of any authorised signer set, with messages delivered in any order, all finish with the same R and then SignManual::complete gives the same valid signature at every party. (every signer set, randomness, message and schedule)

*Model and proof.* As C64 for the offline stage, then SignManual.

*Result.* As C64, for every authorised signer set whose randomness meets the side conditions of C33; then SignManual gives everyone the same valid signature for every message except those where the total s is 0 (known panic, C34), in any order of the partial signatures.

*Theorems.* `C65_offline_stage_finishes_under_every_schedule`, `C65_offline_schedules_can_finish`, `C65_offline_any_genuine_history`

### C66 Adversarial messages never crash the signing state machine — partial

*Claim.* For every sequence of incoming messages, OfflineStage and SignManual return Ok or Err and never panic. (every message sequence)

*Model and proof.* Substitution of one message in a history; the round function panics on it; wrappers proved free of panics. The complete list of causes: every state the machine reaches has the shapes its round needs (induction over the rounds run), so each indexing, assert and inversion is traced to a received message.

*Result.* Refuted: replacing one party's round-3 message in any history by one whose T differs from its proof's commitment makes the machine panic, and so does one whose delta makes the sum zero (C66_offline_bad_point_panics_refuted, C66_offline_zero_sum_panics_refuted). Proved: the wrappers (routing, stores, round bookkeeping) never panic by themselves, and a failing round is always reported; and the full list of causes (C66_offline_panic_causes): with a complete key file and sampled values in their domains, a history in which the machine panics contains a range proof with negative e and a non-invertible z or ciphertext, a ciphertext not invertible modulo N^2, a share point other than the sender's, a Pedersen proof for another point, a PDL proof with non-invertible z, or deltas that sum to zero. SignManual: new panics exactly if R is infinity, complete exactly if the partial signatures sum to zero or m G = -r Y, and one partial signature is always enough (C66_manual_panics_refuted).

*Theorems.* `C66_manual_new_panics_exactly`, `C66_manual_complete_panics_exactly`, `C66_manual_panics_refuted`, `C66_offline_failure_reported`, `C66_offline_bad_point_panics_refuted`, `C66_offline_zero_sum_panics_refuted`, `C66_keygen_wrapper_partial`, `C66_offline_wrapper_partial`, `C66_offline_panic_causes`

### C67 gg20 manager delivers a room's history in order, exactly once — partial

*Claim.* A subscriber receives exactly the messages published in the room after its last-seen id, in publication order, each once, with consecutive ids. (every interleaving of publish and subscribe operations on a room)

*Model and proof.* Invariant relating every subscriber's position to the trace, over all interleavings; progress by the notification counter.

*Result.* Exact delivery and no lost wake-up for every interleaving, with overflow checks on or up to 65535 messages per room. Refuted beyond that in release builds: event ids wrap around and the history is delivered again.

*Theorems.* `C67_delivery`, `C67_progress`, `C67_release_wrap_refuted`

### C68 gg20 manager issues unique indices — proved

*Claim.* All indices issued in one room are distinct and consecutive from 1 (for fewer than 65535 requests). (every interleaving of issue_idx calls)

*Model and proof.* Invariant over interleavings.

*Result.* Per room instance. By room id the claim fails while nobody is subscribed, because each request then replaces the room: C68_unwatched_refuted.

*Theorems.* `C68_consecutive`, `C68_unwatched_refuted`

### C69 gg20 manager keeps messages published before anybody subscribes — partial

*Claim.* A message accepted by the broadcast endpoint is delivered to every party that subscribes to that room afterwards. (every history of requests)

*Model and proof.* Refuting trace; steadiness invariant for the part that holds.

*Result.* Refuted: a message accepted while nobody watches the room is discarded by the next subscription. Holds while the room is watched all the time (C69_kept_partial).

*Theorems.* `C69_kept_partial`, `C69_lost_refuted`

### C70 gg20 manager puts all concurrent participants in one room — partial

*Claim.* Participants subscribing concurrently to the same room id share one history. (every interleaving of the handlers' atomic steps)

*Model and proof.* As C69.

*Result.* Refuted: overlapping subscriptions can end in different rooms of the same id. Holds for requests arriving while the room is watched (C70_one_room_partial).

*Theorems.* `C70_one_room_partial`, `C70_race_refuted`

### C71 gg18 manager signup hands out distinct party numbers per session — partial

*Claim.* Within one session uuid, signup never gives the same number twice and never a number above the number of parties; after parties signups a new session starts. (every history of signup requests; every interleaving of concurrent ones)

*Model and proof.* Sequential service: induction; concurrent: invariant and refuting trace.

*Result.* Exact for signups served one at a time; range and absence of crashes for every interleaving. Refuted for overlapping signups and for clients overwriting the signup record.

*Theorems.* `C71_sequential`, `C71_distinct`, `C71_range`, `C71_concurrent_refuted`, `C71_overwritten_refuted`

### C72 gg18 manager get returns the last value set — partial

*Claim.* get(key) returns the value of the latest completed set(key, _), and an error if there was none; distinct keys never interfere. (every history of set/get requests)

*Model and proof.* Invariant relating the table to the trace.

*Result.* Proved for every key but the two signup keys, which share the table and so have values nobody set (refuted for those).

*Theorems.* `C72_get_last_set`, `C72_signup_keys_refuted`

### C73 Message keys of distinct messages never collide — partial

*Claim.* The relay keys built for broadcasts and point-to-point messages are injective: different (sender, receiver, round, session) never map to the same key, so parties never read each other's messages by mistake. (every sender, receiver, round name and session id)

*Model and proof.* String lemmas about decimal numerals and dashes.

*Result.* Proved for round names without a dash that are not numerals, in particular all names the clients use. Refuted for arbitrary round names.

*Theorems.* `C73_injective`, `C73_dashes_refuted`

### C74 Two-party key generation second message binds the public share — partial

*Claim.* party two's verify_commitments_and_dlog_proof returns Ok only if the revealed public share opens party one's commitment, opens the proof commitment and the attached proof of knowledge is for that same public share. (every first/second message of a malicious party one)

*Model and proof.* Exact acceptance; witness for the missing link.

*Result.* Refuted: the proof may be for another point than the revealed share. Exact acceptance and binding of share and proof nonce proved.

*Theorems.* `C74_kg2_verify_iff`, `C74_first_message_binds`, `C74_proof_for_other_point_refuted`

### C75 Ephemeral key exchange binds both nonces — proved

*Claim.* Both sides' ephemeral verification functions return Ok only if the revealed point opens the earlier commitment and the ECDDH proof shows the same scalar for both points. (every message of a malicious peer)

*Model and proof.* Exact acceptance and extraction.

*Result.* Exact acceptance of both sides, binding, uniqueness of the challenge for unequal scalars, and extraction.

*Theorems.* `C75_eph2_verify_iff`, `C75_eph1_verify_iff`, `C75_first_message_binds`, `C75_unequal_scalars_one_challenge`, `C75_extraction`

### C76 Mixing a two-party Lindell key into MtA keeps the product relation — proved

*Claim.* to_mta_message_b / verify_b_against_public accept exactly when the MtA reply was computed with the party's key share. (every key share and message)

*Model and proof.* Algebra over the CL/Paillier ciphertexts.

*Result.* Party two's answer, party one's result and the public check.

*Theorems.* `C76_party_two_always_answers`, `C76_lindell_key_in_mta`

### C77 Key refresh of threshold shares preserves the key — proved

*Claim.* Updating every party's private share by adding shares of zero (update_private_key / update_commitments_to_xi) keeps any t+1 subset reconstructing the same secret, and get_commitments_to_xi of the sum equals the shares in the exponent. (every polynomial with zero constant term, any number of refreshes)

*Model and proof.* Induction over refreshes with zero-constant polynomials.

*Result.* Any number of refreshes by polynomials with zero constant term; secret and public side.

*Theorems.* `C77_refresh_keeps_secret`, `C77_refresh_keeps_u_sum`, `C77_refresh_public_shares`

### C78 An accepted range or PDL proof says something about the ciphertext — partial

*Claim.* If AliceProof, BobProofExt or PDLwSlackProof verification accepts, the ciphertext is not arbitrary: there is no way to write down an accepted proof for every invertible ciphertext without knowing its plaintext. (every ciphertext, modulus and dlog statement)

*Model and proof.* Forged proofs constructed for every unit ciphertext.

*Result.* False for all three proofs: an accepted proof exists for every unit ciphertext.

*Theorems.* `C78_alice_ties_ciphertext_refuted`, `C78_bobext_ties_ciphertext_refuted`, `C78_pdls_ties_ciphertext_refuted`

### C79 Lindell pdl_verify ties the encrypted share to Q1 — partial

*Claim.* If party two's PaillierPublic::pdl_verify accepts, the Paillier ciphertext encrypts the discrete logarithm (to the generator) of party one's public share. (every statement, proof and ciphertext of a malicious party one; every share of an honest one)

*Model and proof.* Forged proofs; statement with another base.

*Result.* Refuted twice: a proof exists for every plaintext (s2 = 0), and the base of the statement is not compared with the generator. Exact acceptance proved, and acceptance of party one's proof made from its own setup with its own auxiliary parameters.

*Theorems.* `C79_own_setup_accepted`, `C79_own_parameters`, `C79_pdl_verify_iff`, `C79_honest_share_accepted`, `C79_any_plaintext_accepted_refuted`, `C79_other_base_accepted_refuted`

### C80 Party one checks party two's public share — partial

*Claim.* Party one's verify_and_decommit returns Ok only if the proof of knowledge is for the public share that party one then uses in compute_pubkey. (every first message of a malicious party two)

*Model and proof.* Witness for every public share.

*Result.* Refuted: any public share passes. Exact condition proved.

*Theorems.* `C80_public_share_unchecked_refuted`, `C80_verify_and_decommit_iff_partial`

### C81 Two-party key generation never yields the identity as joint key — partial

*Claim.* For every sampled pair of non-zero scalars the joint public key is not the point at infinity. (every sampled pair of shares)

*Model and proof.* Products of non-zero scalars; integer division by three for CCLST.

*Result.* Proved for Lindell; refuted for CCLST (share is an integer division by three), with the exact set of bad samples.

*Theorems.* `C81_lindell_joint_key_nonzero`, `C81_cclst_zero_share_refuted`, `C81_cclst_zero_share_iff`

### C82 GG18 phase 5c ties the proof of knowledge of rho to A_i — partial

*Claim.* If phase5c accepts, the discrete-log proof at position i is for the point A_i that party i committed to in phase 5a. (every phase 5a/5b message of malicious signers)

*Model and proof.* Witness proofs for another key.

*Result.* Refuted: phase5c verifies the rho proof against the key inside the proof only, so proofs for any other key are accepted. What it does check is characterised exactly.

*Theorems.* `C82_rho_proof_unbound_refuted`, `C82_phase5c_accepts_iff_partial`

### C83 A signing round proceeds only after checking every peer message — proved

*Claim.* If Round1, Round2, Round3, Round5 or Round6 of the offline stage (and round 3 of the GG18 client) proceeds, then every message it consumed passed all checks of that round: one valid range proof per party's parameters with every encrypted nonce, MtA answers tied to the sender's public share, Pedersen proofs tied to T_i, one valid PDL proof per receiver, consistency proofs for S_i. (every message vector of malicious signers)

*Model and proof.* Implication from Ok for each round; for Round1 the exact condition.

*Result.* Per round: acceptance implies every check on every consumed message (GG20 rounds 1, 2, 3, 5, 6; GG18 client round 3). For round 1 the condition is exact.

*Theorems.* `C83_round1_checks_every_range_proof`, `C83_round2_checks_every_answer`, `C83_round3_checks_every_proof`, `C83_round5_checks_every_pdl`, `C83_round6_checks_every_proof`, `C83_gg18_round3_checks_every_answer`

### C84 GG18 phase 5d opens every phase 5c commitment — partial

*Claim.* phase5d returns Ok exactly when every revealed (U_i, T_i) opens the commitment of phase 5c and sum T + sum B = sum U; a failed opening is reported as InvalidCom, failed sums as InvalidKey. Two accepted openings of one commitment of phase 5a or 5c show the same points unless the two openings are a hash collision. (every vector of openings and commitments)

*Model and proof.* Exact outcome.

*Result.* Exact characterisation of all three outcomes of phase5d. Two accepted openings of a phase 5a or 5c commitment show the same points, or one of four explicit coincidences holds; that only a collision can do it is refuted, since digest and blinding factor are joined without a length.

*Theorems.* `C84_phase5d_accepts_iff`, `C84_phase5a_commitment_binds`, `C84_phase5c_commitment_binds`, `C84_commitment_boundary_refuted`

### C85 Extracted Paillier randomness opens the ciphertext — proved

*Claim.* For a well-formed key with gcd(n, phi(n)) = 1 and any ciphertext, extract_paillier_randomness returns the randomness used (modulo n), and encrypting the decrypted plaintext with it gives the ciphertext back; hence an honest party's phase 6 openings of mu always pass. (every key, plaintext and randomness)

*Model and proof.* n-th roots modulo n; Euler's theorem for two primes.

*Result.* Paillier::open is modelled as the n-th root modulo n with exponent n^-1 mod (p-1)(q-1).

*Theorems.* `C85_extracted_randomness_opens`

### C86 Local blame states are transposed correctly — proved

*Claim.* GlobalStatePhase5::local_state_to_global_state and GlobalStatePhase6::local_state_to_global_state place the values party p opened for its exchange with party i exactly where phase5_blame and phase6_blame look for the exchange of i with p. (any number of parties)

*Model and proof.* Index arithmetic of the transposition.

*Theorems.* `C86_local_to_global`, `C86_local_to_global6`

### C87 Malformed openings do not crash the blame protocol — partial

*Claim.* A party that opens vectors of the wrong length cannot make local_state_to_global_state panic at the other parties. (every opened local state)

*Model and proof.* Short vectors.

*Result.* False: every opened state with a vector shorter than the number of other parties makes the conversion panic (C87_short_opening_panics_refuted, C87_short_miu_panics_refuted). There is no input check in the code (marked TODO there).

*Theorems.* `C87_short_opening_panics_refuted`, `C87_short_miu_panics_refuted`

### C88 OfflineStage checks that the key belongs to the caller's position — partial

*Claim.* OfflineStage::new(i, s_l, key) returns an error when s_l[i-1] is not the index the local key belongs to (key.i). (every index, list and key)

*Model and proof.* Constructor model.

*Result.* Refuted: nothing relates the position in the signer list to the key.

*Theorems.* `C88_own_index_unchecked_refuted`

### C89 Polling the gg18 relay returns every peer's own message — proved

*Claim.* poll_for_broadcasts / poll_for_p2p return exactly the messages the other parties sent for that round and session (and receiver), in order of party number, and keep waiting while one is missing. (every history of requests of parties following the protocol, every round name without a dash, every number of parties)

*Model and proof.* Relay table invariant (C72) and injective keys (C73).

*Theorems.* `C89_poll_broadcasts`, `C89_poll_p2p`

### C90 Key generation clients finish through the relay — proved

*Claim.* n gg20_keygen clients and one gg20_sm_manager, run as one system: if every client is given the number of its party then, whatever the interleaving of client and server steps, no client fails, every execution comes to rest after a bounded number of steps, at rest every client has left with the correct key, and from any point where all clients have their numbers this can be reached. (every number of parties with n(n+2) messages fitting the room, every threshold, every interleaving of all programs' steps)

*Model and proof.* Invariant tying the system of clients and relay to the network of C64: every schedule of the system gives a schedule of the network; potential function for termination; explicit serialisation in the example.

*Result.* Under the side conditions that one client creates the room before the others ask (C70 refutes the rest), that every client gets the number of its party (C92 shows this is necessary) and that nobody else uses the room.

*Theorems.* `C90_keygen_clients_finish`, `C90_keygen_clients_can_finish`

### C91 Offline stage clients finish through the relay — proved

*Claim.* The clients of gg20_signing, offline stage, and one relay: as for key generation; all leave with the same R and presignatures that give everyone the same valid signature. (every signer set, every interleaving of all programs' steps)

*Model and proof.* As C90 with OfflineStage machines and C65.

*Result.* Same side conditions as C90, randomness as in C33.

*Theorems.* `C91_offline_clients_finish`, `C91_offline_clients_can_finish`

### C92 Key generation clients may join in any order — partial

*Claim.* Since gg20_keygen uses --index and not the number issued by the room, key generation finishes whatever the order in which the clients get their numbers. (every order of arrival and every interleaving)

*Model and proof.* Invariant of all executions (each client's calls are a history of its machine, filtered, and everything received was sent by a client) and causality of the rounds.

*Result.* Refuted: once one client holds another number than its --index no client ever finishes. Proved: whoever finishes, everybody had the number of its party.

*Theorems.* `C92_keygen_finish_needs_own_numbers`, `C92_join_order_refuted`

### C93 Offline stage clients may join in any order — partial

*Claim.* gg20_signing takes the number issued by the offline room as its position in the list of signers, so presigning finishes whatever the order in which the clients get their numbers. (every order of arrival, every interleaving, every signer set with distinct shares)

*Model and proof.* Invariant of C92; round-2 messages carry the sender's weighted share, checked by every receiver against the public share of the position.

*Result.* False as stated (refuted): a client whose number is not the position of its share stops everybody. Proved: anyone finishing means every client got its own position; with own positions presigning always finishes (C91).

*Theorems.* `C93_offline_finish_needs_own_numbers`, `C93_join_order_refuted`

### C94 Clients of one room read the same messages, once and in order — proved

*Claim.* Whatever state machines the clients of the GG20 example run, whatever numbers they were given and however requests and notifications interleave, each relay room has one list of messages; each client's machine is handed a beginning of that list without the messages not addressed to its number; each sender's messages stand in it in the order its machine handed them over; two clients get the messages addressed to both in the same order; nothing is handed over twice unless a machine sent it twice, and nothing that no machine sent. (for all machines, serialisations with left inverse, numbers of clients and schedules of clients and server; in builds without overflow checks: as long as no room got more than 65535 messages)

*Model and proof.* Invariant of the system of clients and relay: the accepted texts, the requests of the clients and the events read by each subscription are tied to one list per room.

*Result.* Proved for every machine and schedule.

*Theorems.* `C94_clients_read_their_room`, `C94_same_order`, `C94_each_once`

### C95 Signing clients print one valid signature however they join the online room — partial

*Claim.* After an honest offline stage the signing clients join a second room, post their partial signatures and take the others'. Whatever the order in which they join the online room, the message and the schedule: no client fails, the exchange ends, and every client prints the same valid signature. (for all honest offline stages of any number of signers, messages with non-zero total, schedules of clients and server, and numbers issued by the online room)

*Model and proof.* Own numbers: as C90 with a machine for lines 59-88. Any numbers: invariants of C92 and C94 give the exact set of partial signatures added up; a wrong total verifies only in the cases of C05, each excluding one message modulo the order.

*Result.* False as stated (refuted): a client whose online number differs from its offline number gets no signature except for at most two messages modulo the order. Proved: with the same numbers in both rooms everybody prints one valid signature under every schedule; for any numbers, exactly which partial signatures are added up.

*Theorems.* `C95_online_clients_sign`, `C95_online_received`, `C95_join_order_refuted`, `C95_online_clients_can_finish`

### C96 GG18 key generation clients all write consistent key files — proved

*Claim.* Clients with the numbers 1..n of one session of the relay, with nonzero contributions and valid Paillier proofs, never panic and all end: whatever the order of their requests, lost answers and other users of the relay, at most 10 n^2 requests bring a client forward, and when nothing is left to do every client has written its file with the same public key, its own share, and everyone's commitments and Paillier keys; any t+1 shares reconstruct the key. (for all curves, n, t < n, random choices, schedules, retried requests, other users of the server and earlier uses of it)

*Model and proof.* Clients are deterministic programs that write each key once and read by key (a Kahn network): an invariant says each client is on its own fixed trace, hence every schedule ends with the same results; the trace is built from the honest run of C21.

*Result.* All schedules, retried requests and other users; AES-GCM and serde_json are oracles with round-trip laws. The bound counts requests that bring a client forward, polls that find nothing are not counted.

*Theorems.* `C96_keygen18_clients`

### C97 GG18 clients that signed up finish — partial

*Claim.* Clients that take their numbers and the uuid of the session from the relay's signup all finish, however their signup requests interleave and whichever answers get lost. (for all n, numbers issued, random choices, schedules and other users of the server)

*Model and proof.* Sequential signups: C71 gives the numbers 1..n, then C96. Two equal numbers, or one lost with the answer to a signup: some number is missing, its first-round key is never written, and invariantly no client (key generation or signing) gets beyond reading it.

*Result.* False: two racing signups get the same number (C97_same_number_refuted), a lost answer loses a number (C97_lost_answer_refuted); then no client finishes (keygen and signing). Sequential signups with no lost answer finish (C97_sequential_signups_finish, C97_sign_sequential_signups_finish).

*Theorems.* `C97_missing_number_refuted`, `C97_same_number_refuted`, `C97_sequential_signups_finish`, `C97_lost_answer_refuted`, `C97_sign_missing_number_refuted`, `C97_sign_sequential_signups_finish`

### C98 GG18 signing clients all write the same valid signature — proved

*Claim.* t+1 GG18 signing clients holding the key files of one key generation, with the numbers 1..t+1 of one session of the relay and one message below 2^256, never panic and all end, whatever the order of their requests, lost answers and other users of the relay: every client writes the same signature, it is in low-s form and valid ECDSA for the key and the message. This needs a nonzero key, nonce point and s. (for all curves, signer sets, random choices, schedules, retried requests, other users of the server and earlier uses of it; also with the key files written by a key generation session)

*Model and proof.* The signing program is shown to play the fixed trace of the honest run of C35 (round by round), and the network argument of C96 applies; the final check_sig is the ECDSA equation with low s. The key files come from C96.

*Result.* For one message below 2^256, a nonzero key, r and s; the clients start with the numbers and session the signup gave them.

*Theorems.* `C98_sign18_clients`, `C98_keygen_to_signature`

### C99 Different messages on the command line are signed differently — partial

*Claim.* Two different command-line messages are never signed as the same number, no signature made for one text is valid for another, and every message can be signed. (for all strings, both clients, all keys and signatures)

*Model and proof.* Big-endian numbers are equal iff the bytes agree up to leading zeros (induction); hex decoding undoes hex writing (induction); two concrete texts congruent modulo the secp256k1 order; long messages by C100.

*Result.* False as stated (refuted): hex and raw readings collide, leading zeros, congruence modulo the order, messages of 2^256 or more. Proved: exactly when GG18 reads two strings as the same number; GG20 texts without NUL are different numbers.

*Theorems.* `C99_gg18_same_number_iff`, `C99_hex_alias_refuted`, `C99_leading_zeros_refuted`, `C99_gg20_injective`, `C99_congruent_numbers_refuted`, `C99_gg20_two_texts_refuted`, `C99_gg18_long_message_refuted`

### C100 What a GG18 client writes is checked — proved

*Claim.* Whatever the relay holds and whatever others store in it under any key: a signature written by a GG18 signing client is low-s and valid for the key in its file and its message; a key file written by a GG18 key generation client has n commitment vectors and Paillier keys with verified proofs, the client's own among them, a key that is the sum of the committed constant terms, and a share that lies on the sum of the committed polynomials. (for all clients, server states, schedules and requests of others, including overwriting the session's keys)

*Model and proof.* A predicate on client programs (every result satisfies P, whatever answers come) that exchanges preserve and every step of the system keeps; the checks the program makes before it ends give P.

*Result.* All results of client programs, any server state and any requests of others. The degree of the committed polynomials is not checked (C26), and agreement between clients fails (C101).

*Theorems.* `C100_written_signature_valid`, `C100_written_key_file_consistent`

### C101 GG18 key generation clients of one session agree on the key — partial

*Claim.* Clients of one session that all write key files hold the same public key, whatever other users of the relay store. (for all n, random choices, server states and requests of others)

*Model and proof.* A client all of whose answers are stored already runs to its end alone; another user stores, for one client after the other, the messages of a key generation with partners of their choice (traces of C96).

*Result.* False (refuted): in every session that could complete, another user's requests can make all clients complete with different keys.

*Theorems.* `C101_other_user_splits_session_refuted`, `C101_keys_differ_refuted`

### C102 Auxiliary parameters of GG20 key generation are proved correctly — partial

*Claim.* Honestly generated parameters (N~, h1, h2) pass both discrete logarithm proofs, and h1 and h2 are powers of each other; two accepted answers give a relation between them; an accepted proof shows that h2 is a power of h1; malformed parameters are rejected with an error that names the sender. (for all primes, samples, challenges, secrets and hash functions; all broadcasts of the other parties)

*Model and proof.* Euler's theorem for p1 p2 (Fermat and the Chinese remainder theorem) gives acceptance; special soundness by cancelling units; -g^(-s) for a square g is no power of g modulo a prime 3 mod 4 (Fermat), but passes for even challenges; the library's assertions make a non-unit a panic.

*Result.* Honest parameters pass both proofs and are powers of each other, exact acceptance condition, special soundness: proved. Refuted: an accepted proof does not show that h2 is a power of h1; a non-unit makes the verifiers panic.

*Theorems.* `C102_verify_iff`, `C102_honest_setup_accepted`, `C102_special_soundness`, `C102_not_in_subgroup_refuted`, `C102_nonunit_panics_refuted`

### C103 Paillier keys are proved correct — partial

*Claim.* An honestly generated Paillier key passes the correct-key proof, so honest GG20 parties with honestly generated keys and parameters finish key generation; an accepted proof shows that the modulus is a product of two primes, prime to its phi; a malformed proof is rejected with an error. (for all primes, hash functions, proofs and moduli)

*Model and proof.* N-th roots by Fermat modulo both primes and the Chinese remainder theorem; a square factor p^2 or a factor q = 1 mod p confines every derived value to a subgroup of index p (Euler modulo p^2, Fermat modulo q); a prime modulus passes; C20 with the verifications of C102 and C103 instead of oracles, with a 2048-bit example (two certified 1024-bit primes).

*Result.* Completeness, exact acceptance, what acceptance says about square factors and related primes, and GG20 key generation with the real proofs: proved. Refuted: a prime modulus is accepted; short vectors panic (in C103_verify_iff).

*Theorems.* `C103_verify_iff`, `C103_honest_key_accepted`, `C103_square_factor`, `C103_common_factor`, `C103_prime_modulus_refuted`, `C103_keygen_with_library_proofs`

### C104 Published values reveal nothing more about the secrets than intended — partial

*Claim.* An honest Schnorr, ECDDH or homomorphic ElGamal proof depends on the statement only; Bob's MtA ciphertext hides b; Alice's integer response hides a up to the ends of its range; the phase 3 message of GG20 (T_i and its proof) reveals nothing about sigma_i. (for all witnesses, nonces, challenges, hash functions, keys and ciphertexts)

*Model and proof.* Accepted proofs are exactly the honest ones and nonces are determined by them (field algebra); the reply for b' is found by dividing ciphertexts, unique because Paillier with its randomness is injective (C85); the Pedersen proof gives sigma_i G by solving its response equation.

*Result.* Proved: accepted Schnorr, ECDDH and homomorphic ElGamal proofs are exactly the honest ones for any witness; the commitment T_i, the MtA ciphertext and the integer response hide. Refuted: the Pedersen proof of phase 3 reveals sigma_i G.

*Theorems.* `C104_proofs_hide_witness`, `C104_commitment_hides`, `C104_phase3_reveals_refuted`, `C104_mta_reply_hides`, `C104_alice_response_hides`

### C105 secp256k1 has every property of curves the other theorems use — proved

*Claim.* With p = 2^256 - 2^32 - 977 and the standard generator G, the solutions of y^2 = x^3 + 7 modulo p and infinity form a commutative group under the chord and tangent rule, of prime order n; every point is a unique multiple k G with 0 <= k < n; scalar multiplication is repeated addition; the second base point is on the curve and a non-zero multiple of G. So every theorem about an arbitrary curve holds for secp256k1. (for all points and scalars of secp256k1)

*Model and proof.* Associativity of the chord and tangent rule from slopes (one polynomial identity and one case analysis); primality of p and n by Pocklington certificates; n G = infinity by a checked addition chain of 297 slopes; every point is a multiple of G because there are at most 2p+1 < 3n points (pigeonhole on three cosets) and -7 is not a cube, so there is no point of order two. A published signature is checked as an example.

*Result.* The affine group law, generator, order and second base point of secp256k1, in integers; the Rust implementation in curv / libsecp256k1 is not modelled.

*Theorems.* `C105_field_and_order`, `C105_points`, `C105_addition`, `C105_group`, `C105_scalar_multiplication`, `C105_generated`, `C105_base_points`

### C106 GG20 on secp256k1 with the library's keys outputs valid signatures, except for one nonce point and its opposite — proved

*Claim.* On secp256k1, with Paillier keys and auxiliary parameters made and proved as the library does, hashes below 2^256 and samples inside their ranges (masks not in the last 2^512 values), n parties generate a key and any t+1 or more of them sign: every signer outputs the same signature with low s, valid under the joint key, unless the nonce point has x = n or s = 0. No point has x = 0, exactly two have x = n; for these the code outputs r = 0. (for all t < n < 65536, messages, subsets of signers, keys, samples and hash functions with 256-bit values)

*Model and proof.* C34 with the hypotheses about proofs and range responses discharged: the library's proofs are accepted (C102, C103) and e a + alpha stays below q^3 when e < 2^256. For r = 0: 7 is not a square modulo p, n^3 + 7 is; n < p < 2n. The example meets all hypotheses with 2048-bit keys on secp256k1.

*Result.* Exceptions r = 0 and s = 0 are part of the statement; C106_zero_r_refuted shows that r = 0 is output without check.

*Theorems.* `C106_gg20_with_library`, `C106_zero_r_points`, `C106_gg20_secp256k1`, `C106_zero_r_refuted`

### C107 Encrypted backups open only to the share, and all parties' backups give the private key — proved

*Claim.* to_encrypted_segment splits a share into bit segments and encrypts each under the recovery key. With at most 255 segments the holder of the recovery key can open a backup in exactly one way; if size * number reaches the bit length of the order the segments assemble to the share. The backups of both Lindell parties (before or after refreshes, not mixed) or of all n GG parties give the private key of the joint public key. Too few segments lose bits silently; t+1 backups do not suffice; a GG party's backup does not determine the share it signs with. (for all shares, segment sizes and numbers, recovery keys, base points, masks, refresh histories and key generation runs)

*Model and proof.* The mask-and-shift of a segment is a digit in base 2^size; induction on the number of segments gives the share modulo 2^(size * number). Opening is unique because x < 2^size <= q and g is not zero. Key level: C13, C20 and exhibited runs with the same u. The segmentation is that of the centipede crate, which is not in /repo: modelled from its published source and part of the trusted base; decryption is specified by its equation, the search for x is not modelled, nor are centipede's proofs (nothing in /repo calls them).

*Result.* Recovery proved under the stated size conditions; truncation, missing and mixed backups and the lost share x_i shown by refuted theorems. The segmentation code is a dependency modelled from its published source.

*Theorems.* `C107_backup_opens`, `C107_backup_recovers`, `C107_truncated_refuted`, `C107_lindell_backups`, `C107_mixed_backups_refuted`, `C107_gg20_backups`, `C107_share_not_in_backup_refuted`, `C107_missing_backup_refuted`

### C108 Debug output shows progress and nothing of the messages — partial

*Claim.* The Debug output of Keygen and OfflineStage never panics (the usize subtractions do not underflow). After every history of calls it shows the current round, for each round's store how many of the other parties' messages of that round have been delivered out of n-1 (or that all were and have been used), and the length of the outgoing queue. It depends on nothing else of the state: no secret or message content. The offline stage's sixth store is not shown, so progress in round 6 is invisible. (for all curves, oracles, parameters and histories of calls)

*Model and proof.* Strings are Coq strings and numbers go through the standard library's decimal conversion (shown to read back). The cell of a store is computed from the invariant of SmProofs, which gives the slots of every store as a function of the history; the machines are reduced to it by SmSim. Independence of the contents: the text is that of the machine with every message replaced by the unit value.

*Result.* Both outputs proved for every history; the claim that every round progress is visible is refuted for round 6 (C108_round6_not_shown_refuted).

*Theorems.* `C108_dec_reads_back`, `C108_keygen_debug`, `C108_offline_debug`, `C108_keygen_debug_no_contents`, `C108_offline_debug_no_contents`, `C108_round6_not_shown_refuted`

### C109 MtA replies tell the asking signer nothing about the other signers' key shares — partial

*Claim.* Whatever ciphertext a signer sends as its first message, the answers of the other signers do not let it test guesses of parts of their shares w. (Refuted.) A signer that puts 2^-L mod N instead of its nonce in its first message (with range proofs forged by s = 0 in GG20, with none in GG18) is answered, and from each reply can tell the low L bits of the answering signer's share w. Replies of enough sessions with the same signers give all of w, and with the attacker's own share the private key. (for all curves, hashes, group keys, signer sets, positions, randomness of the honest signers, numbers of bits asked for per session and attacker keys)

*Model and proof.* False of the code: the claim is refuted by an attack carried out in the model against the modelled rounds. With a = 2^-L mod N the reply decrypts to a w + beta' mod N. For a guess u the attacker removes a u; if u is the low L bits the rest is (w - u) / 2^L + beta' without wrap-around, which it checks against the two points of the reply; otherwise the rest is off by a multiple of N that q does not divide. Induction over the sessions, then the shares w add up to the key. beta' <= N - q is assumed (all but q of the N values sampled). The attacker's own Paillier key is an honest one.

*Result.* Refuted: the attack recovers shares and the whole private key, in GG18 and GG20, for every curve.

*Theorems.* `C109_reply_reveals_low_bits_refuted`, `C109_gg20_signer_answers_refuted`, `C109_gg20_share_extracted_refuted`, `C109_gg20_key_extracted_refuted`, `C109_gg18_signer_answers_refuted`, `C109_gg18_key_extracted_refuted`

### C110 Repeating key generation with refreshed keys keeps the public key, renews the shares and retires the old ones — partial

*Claim.* If the parties run key generation again from refresh_private_key of their state, any number of times, every run succeeds; the public key changes by the sum of all factors times G, so it is kept exactly if they add up to 0; the u_i still add up to the private key, any t+1 new shares determine it, and t+1 or more parties sign with the new keys under the first public key. One old share among new ones gives the right key only if it had not changed. (Refuted: that old keys are retired, and that keys of different runs work together.) (for all thresholds, party numbers, randomness, factors, numbers of repetitions, signer sets and messages; GG18 and GG20)

*Model and proof.* Induction on the number of repetitions: each honest run ends in the explicit keys of C20/C21 for its u_i, and refresh_private_key adds the factor to u_i. Signing by C34/C35 on the last run. Stale share: the Lagrange sum differs by lambda_j (f(j) - f'(j)) with lambda_j not 0. Runs started from refreshed Keys are the runs of KeygenRun with these u_i; /repo has no client for it.

*Result.* Everything stated is proved for all runs; refuted: old keys are retired, keys of different runs work together.

*Theorems.* `C110_gg20_reshared_key`, `C110_gg20_key_kept_iff`, `C110_gg20_reshared_signers`, `C110_old_keys_revoked_refuted`, `C110_stale_share_iff`, `C110_gg18_key_kept_iff`, `C110_gg18_reshared_signers`, `C110_runs_mix_refuted`

### C111 A completed offline stage can be used for signing several messages — partial

*Claim.* One CompletedOfflineStage, cloned and used with several messages, gives a valid signature on each, and the signatures together reveal no more than the messages signed. (Refuted: two signatures on messages different modulo the order give the private key to everybody who knows the public key; the broadcast partial signatures give every signer's nonce share and sigma share. Likewise for GG18 and the two-party protocols when the ephemeral values are used twice, and for any two valid signatures with the same r.) (for all curves, keys, signer sets, runs, pairs of messages and signatures)

*Model and proof.* C34 with one completed stage and all messages. The observer's formula k = (s1 - s2)/(m1 - m2), x = (s1/k - m1)/r with both signs of s2, compared with the public key; field algebra and the exact outputs of C34, C35, C09, C10. For arbitrary valid signatures: with equal r >= p - n the verification points are equal up to sign.

*Result.* Every message gets a valid signature from one completed stage; the secrecy part is refuted on every curve for GG20, GG18, Lindell and CCLST, and for any two valid signatures with equal r >= p - n.

*Theorems.* `C111_signs_every_message`, `C111_two_signatures_reveal_key_refuted`, `C111_partials_reveal_shares_refuted`, `C111_same_r_reveals_key`, `C111_gg18_reveals_key_refuted`, `C111_lindell_reveals_key_refuted`, `C111_cclst_reveals_key_refuted`

### C112 The other parties' contributions are fixed before a machine opens its own — partial

*Claim.* A key generation machine sends its opening only after it has every other party's commitment, and a signing machine likewise; nothing of round k+1 leaves before every other party's messages of all rounds up to k are in. Once the opening is out, all ways to go on that end with a key end with the same public key, unless some party showed two different openings of its commitment; all ways to go on that end with a presignature end with the same nonce point R, without exception. A commitment is moreover bound to its sender (refuted: copies of the machine's own round-1 and round-2 messages are accepted from any other party, and the machine deals that party a share). (for all parties, thresholds, signer sets, histories of calls and pairs of continuations, all hash functions)

*Model and proof.* The refinement of C28 and C64 (every reachable machine state is the deterministic run of its rounds on its inboxes): a sent message of round k+1 means rounds up to k ran, the inboxes of a longer history extend those of the shorter. The key is the sum of the opened points, each opening matches the commitment in the inbox of round 1; R is the sum of the points of the MtA messages of round 2 that the openings must equal (C36). Copied messages: the machine's own pair passes its own checks.

*Result.* Proved: what leaves when, and that the key (up to a double opening) and R are fixed once the opening is out, for every history. The clause on the sender is refuted: copied round-1 and round-2 messages are accepted.

*Theorems.* `C112_key_fixed_when_opened`, `C112_keygen_waits`, `C112_copied_opening_accepted_refuted`, `C112_offline_waits`, `C112_nonce_fixed_when_opened`

### C113 What t parties of each run of key generation know is compatible with every key — partial

*Claim.* After a run of key generation, and after any number of repetitions with refresh_private_key, the private values of at most t parties (u_i, their polynomials, all shares dealt to them, x_i), with the factors and everything else that is sampled, are compatible with every private key. For parties corrupted in different runs this holds exactly if some party is corrupted in no run. (Refuted: that t corruptions per run always leave the key hidden.) (for all thresholds, party numbers, randomness, factors, numbers of repetitions, corrupted sets and keys)

*Model and proof.* The state of every party after run e is explicit (u_i plus its factors so far; sum of the shares dealt). If party j is never corrupted, its secret is moved by the difference of the keys and its polynomial of every run replaced by the one that agrees at the corrupted positions (C18). If every party is corrupted in some run, the views give all u_i. Public points are left out of the view, since they determine the key.

*Result.* Everything stated is proved, for GG20 runs of honest parties (the corrupted ones only look) and private values only, since the public points determine the key by discrete logarithm. Refuted: t corruptions per run always leave the key hidden (n <= 2t).

*Theorems.* `C113_party_state`, `C113_key_hidden_iff`, `C113_one_run_hides_key`, `C113_t_per_run_hide_key_refuted`

### C114 Key generation machines that finish agree on the key when more than t of them follow the code and party 1 is among them — partial

*Claim.* If the machines of more than t parties, party 1 among them, follow the code and the messages between them arrive as sent, those that finish hold the same public key and the same public shares, whatever the other parties send to each of them, and without any broadcast channel. (Refuted: that they agree if at most t follow the code, or if party 1 does not: then one party can give each machine a key of its own.) (for all curves, hash functions, thresholds, party numbers, samples, histories of calls and messages of the other parties)

*Model and proof.* Each finished machine has one polynomial behind its key and its public shares (C25), of at most as many coefficients as party 1 dealt, since get_commitments_to_xi panics on longer lists. Its value at b is the discrete logarithm of what machine b proved in round 4, and b proves one value to everyone; more than t such points fix the polynomial. Conversely a dealer picks for every machine a polynomial with the wanted value at 0 and the value 0 at all machines; with the position of party 1 the degree can be n-1.

*Result.* agreement proved for more than t machines with party 1 among them (and shown to need both); the claim without these conditions is refuted

*Theorems.* `C114_finished_keys_agree`, `C114_dealer_splits_refuted`, `C114_keys_agree_iff`

### C115 is_critical tells whether a machine can go on, and a caller relying on it is not disturbed by messages that should be refused — partial

*Claim.* In the offline stage of signing, a call that returns a non-critical error leaves the machine as it was, and after a critical error no later call yields an output; so a caller that goes on after non-critical errors and gives up at critical ones ends in the same state, with the same output and the same messages sent, as if the messages that should be refused had never arrived. (Refuted for key generation: every error there is critical, so one repeated, late or misaddressed message, or one from an unknown party, ends the caller although the machine is unchanged and could go on.) (for all curves, hash functions, samples, keys, histories of calls and messages)

*Model and proof.* Driver.v: a caller that runs calls until one gives a critical error or panics. Every error of a call is that of a failed round (nothing after it, C59), of a second pick, or of a refused message (state unchanged, C56). By induction over the history, dropping refused messages keeps the run. The caller stands for round_based's AsyncProtocol, which is not in /repo.

*Result.* Proved for the offline stage; refuted for key generation, where every error is critical. The caller (round_based AsyncProtocol) is modelled from its documented use of is_critical, it is not part of /repo.

*Theorems.* `C115_offline_is_critical`, `C115_offline_junk_ignored`, `C115_keygen_refused_critical_refuted`

### C116 Offline machines that finish on each other's round-5 messages hold the same nonce point — proved

*Claim.* If two machines of the offline stage, run for the same signers, both finish, and the round-5 message one of them took as the other's is one that other sent, then both hold the same nonce point R, whatever the remaining signers sent to each of them; or else every consistency proof in that message, made for one point, was accepted for another because the hash, asked about two different lists, gave a pair of answers of which the second is, for k and R not zero, the only such residue modulo the group order. (for all curves, hash functions, samples, keys, signer lists and histories of calls of both machines, whatever other messages they are given)

*Model and proof.* From the pick of each machine the run through rounds 4 to 6 is read back; the proofs of the sender's round-5 message are those of sg_r4 for its own samples and point, and the receiver checked each of them for its own point (C83). The verification equation of a proof made for one base and checked for another is solved; the hash is a parameter and no assumption on it is made.

*Result.* Both machines may be shown different messages by everyone else; only the one round-5 message has to be genuine. The alternative with the hash is explicit: no assumption about the hash function is made.

*Theorems.* `C116_one_lucky_answer`, `C116_equal_answers`, `C116_nonce_points_agree`

### C117 Whether a two-party signature verifies tells party two nothing about party one's share — partial

*Claim.* Party two sees whether party one's signature came out. In the two-party protocols, whatever it sends as partial signature, that outcome does not depend on party one's share, up to the trial of a constant number of guesses. (Lindell 2017: refuted, each attempt gives one bit of the share and as many attempts as the group order has bits give all of it. CCLST 2019: for every affine evaluation on the encrypted share the outcome is the same for all shares but one, or positive for at most two.) (for all curves, shares, nonces, messages, Paillier keys above q^3 + q^2 and encryption randomness, and for all coefficients party two evaluates)

*Model and proof.* Party two's ciphertext is built from the encrypted key with the homomorphic operations of the model; what it decrypts to is computed exactly (half of an even number is small, half of an odd one is above N / 2 and reduces to another residue modulo q), and the verification is characterised by s k = + or - (m + r x). Induction over the bits. For CCLST the two linear equations in the share are solved; CL encryption is the record of homomorphic laws.

*Result.* The claim fails for Lindell 2017 (C117_failures_reveal_share_refuted, from C117_one_attempt_one_bit): each attempt tells one bit of the share. C117_cclst_two_guesses: for CCLST 2019 an attempt tries at most two guesses, or succeeds for all shares with s not 0. Only outcomes of the library functions are considered, not timing.

*Theorems.* `C117_one_attempt_one_bit`, `C117_failures_reveal_share_refuted`, `C117_cclst_two_guesses`

### C118 Messages recorded in one run do not complete another — partial

*Claim.* A party that finishes had the others in its own run: if two runs of a party, each with its own samples, finish on the same messages of a peer, the samples those messages answer are the same. GG20 key generation: the same round-3 messages and the same round-4 message of j fit one value of the share dealt to j, and with more than t peers one secret polynomial. GG20 signing: the same round-2 message of one peer with a point that is not zero fits one nonce share k. GG18 key generation: refuted, verify_dlog_proofs does not compare the proofs with the commitments. (for all curves, hash functions, samples, keys, numbers of parties, histories of calls of both runs and messages)

*Model and proof.* The finished histories of both runs are read back round by round; in key generation the accepted proof fixes the sum of the dealt polynomials at j, of which all summands but the own one are among the messages; in signing the check of an MtA reply is linear in the own k. For GG18 a party's calls on messages given from outside (kg18_alone, shown to agree with kg18_run on the messages of that run) succeed on the recorded ones; the client program's encryption of the shares is not part of that statement.

*Result.* GG20 key generation and signing: proved for every pair of finished runs. GG18 key generation (library functions): refuted by C118_gg18_recorded_run_accepted_refuted.

*Theorems.* `C118_keygen_messages_fit_one_share`, `C118_keygen_messages_fit_one_secret`, `C118_reply_fits_one_secret`, `C118_signing_messages_fit_one_nonce`, `C118_alone_is_run`, `C118_gg18_recorded_run_accepted_refuted`

### C119 How an MtA answer is received says nothing about the asker's secret — partial

*Claim.* Whether the asker keeps or refuses an answer made by the code from its own request does not depend on the asker's secret. Proved when beta_tag leaves room for any product below the modulus. Refuted without that: for every bound T there is a beta_tag below the modulus, like those MessageB::b samples, with which the answer is kept exactly when the secret is below T, and then the shares are right. In GG20 signing the secret is the nonce share: a machine that finishes on such an answer has a nonce share below the T its peer chose, and if it is below T the offline stage ends for everybody with the same nonce point as without the probe. (for all curves, hash functions, Paillier keys with a modulus of at least q^2, secrets, bounds T, samples, sets of signers and histories of calls)

*Model and proof.* beta_tag = N - T b makes a b + beta_tag reach N exactly when a >= T, and C30 says that the sum is right below N and refused from N on. A finished history is read back to the check of round 2. The honest run theorems (C33, C34) ask only that the plaintext of each answer stays below the modulus, which still holds with the chosen value when the nonce share is below T.

*Result.* Proved when beta_tag leaves room below the modulus; refuted in general: an answering signer can test the comparison of the asker's nonce share with a bound of its choice, and the session goes on when it holds.

*Theorems.* `C119_small_beta_reveals_nothing`, `C119_answer_tests_secret_refuted`, `C119_finished_machine_below_bound`, `C119_probe_leaves_run_intact`

### C120 Somebody who only knows the room's name cannot stop the GG20 clients — partial

*Claim.* A server open to everybody, with arbitrary requests from strangers in between: every message a client's machine is given was either sent by a client started for that party or is the text of a stranger's post; whatever strangers post, as long as it does not parse, a client finishes only if every client was given the number of its own party and all messages were delivered.  Claimed besides: strangers who hold no key material cannot prevent the clients from finishing. (all executions of n clients, one relay and any number of strangers asking for anything in any room; all randomness)

*Model and proof.* Clients20Open adds to the system of C90/C91 two actions: a stranger's request to any room, and a stranger closing its own connection. The ownership invariant of C92/C93 is generalised by the set of foreign texts. Denial: one unparsable text at the head of the room, or one index taken, after which the invariant of the stuck client survives every continuation.

*Result.* False as stated (refuted): one unparsable text, or one index taken, stops key generation and signing for good. Proved: where every delivered message comes from, and that nobody finishes without everybody's own number, whatever strangers post that does not parse.

*Theorems.* `C120_delivered_origin`, `C120_keygen_needs_numbers`, `C120_offline_needs_numbers`, `C120_text_stops_keygen_refuted`, `C120_text_stops_signing_refuted`, `C120_index_stops_keygen_refuted`, `C120_index_stops_signing_refuted`

### C121 A key made in a GG20 room belongs to the clients that were started for it — partial

*Claim.* For every execution of the GG20 clients and every set of them there is an execution in which those clients do nothing and strangers send requests instead, and which the server and all other clients cannot tell apart: same server trace, same calls and results, same final states.  Key generation and presigning clients can finish whatever the sizes.  Claimed: the key made in a room is shared among the started clients only. (all state machines, schedules, sets of clients; for the key all curves, sizes and randomness of the model)

*Model and proof.* Simulation, step by step: a client's action is replaced by the requests it makes. Clients20Arrive constructs an execution in which all clients arrive in order, for every n, so C90 and C91 give one in which all finish.

*Result.* False as stated (refuted): strangers in the place of any parties obtain those parties' shares. Proved: for every execution and set of clients an execution with strangers in their place that nobody can tell apart.

*Theorems.* `C121_strangers_pass_for_clients`, `C121_key_with_strangers_refuted`

### C122 What happens in other rooms of the GG20 server does not affect the clients — proved

*Claim.* However strangers use other rooms of the server, before and during the clients' run, there is an execution of the clients alone on the server with the same calls, results, requests and final states; so key generation and presigning clients finish as they do alone (C90, C91). (all state machines and schedules, any number of strangers, rooms and requests elsewhere; for the finishing part all curves, sizes and randomness of the model)

*Model and proof.* Bisimulation with a renaming of request numbers and room positions; strangers' tasks only touch rooms the clients' tasks do not hold. The finishing part carries C90 and C91 over in both directions.

*Result.* For all uses of other rooms: same behaviour as alone, and key generation and presigning clients finish.

*Theorems.* `C122_other_rooms_do_not_matter`, `C122_keygen_clients_finish`, `C122_offline_clients_finish`

### C123 From gg20_keygen to a signature of gg20_signing, through three rooms — proved

*Claim.* n clients run gg20_keygen in one room; any t+1 or more of them run gg20_signing with the files they wrote, presigning in a second room and exchanging partial signatures in a third.  Each of the three exchanges can be carried out; whatever the schedules, if the files and then the presignatures are there, no client fails in the third room, and everybody writes one and the same low-s signature, valid under the key in the files. (all curves, t < n, sets of signers, randomness meeting the conditions of C90 and C91, messages with non-zero total, and schedules of clients and server in each room; signers join both signing rooms in the order of the list of parties, and in each room one subscription is answered first)

*Model and proof.* What C90, C91 and C95 say of each room is put together: files in the key generation room imply the right numbers (C92), so they are the keys of the sequential run; those are well-formed signers; presignatures are those of the sequential run. Executions of every size are built from the arrivals of C121. The example is on secp256k1 with 2048-bit keys.

*Result.* For all sizes, signers and schedules; hypotheses shown on secp256k1 with 2048-bit keys.

*Theorems.* `C123_keygen_to_signature`

### C124 Many CCLST signing attempts give party two no more than two guesses each at party one's share — proved

*Claim.* A dishonest party two signs with party one as often as it likes. In each attempt it sends any ciphertext it can build from the encrypted share with encrypt, eval_scal and eval_sum, a nonce and a message of its choice, all depending on which of the earlier signatures verified. Then, except for at most two shares per attempt, the answers it sees are the same for all shares; so no function of the answers of L attempts equals the share for more than 2 L + 1 shares. (For Lindell's protocol C117 shows that log2 q attempts give the share.) (for all curves, encryption schemes with the homomorphic laws, numbers of attempts, adaptive strategies, non-zero nonces of party one and shares; the x-coordinate of the common nonce point is below the group order, where there is one)

*Model and proof.* Induction on the ciphertext expression: it decrypts to an affine function of the share. One attempt is then C117_cclst_two_guesses, with the degenerate cases (no nonce point, zero right-hand side) added; induction on the number of attempts, the strategy and the nonces being functions of the answers so far.

*Result.* Adaptive attempts with any ciphertext party two can build through the interface of the encryption scheme; the scheme itself is abstract (TwoParty.CL), so ciphertexts that are not built through it are not covered.

*Theorems.* `C124_answers_almost_constant`, `C124_guess_from_answers`

### C125 A GG18 key generation client finishes exactly when the messages it reads pass the checks — partial

*Claim.* A client that has read the others' messages of the five rounds writes its key file, made from them in the stated way, exactly when t < n, its own Paillier key's proof verifies, and for every other party the opened point is the committed one, the Paillier key's proof verifies, the share sent decrypts under the key of the pair and lies, with the point, on the committed polynomial, and the proof of round 5 verifies; otherwise it has panicked. In every execution, whatever others store on the server, a written file is made from messages that passed. (That these checks suffice is refuted: a party may commit to, deal and prove the point zero, and everybody who reads it panics when deriving the encryption key.) (for all curves, hash functions, encryption and serialisation functions, n, t, numbers, samples and messages; for the second part all schedules, server states and requests of others)

*Model and proof.* The client program is run on a list of answers (feed); an invariant over executions says that a client is always where the answers it read have brought it. The program is then followed step by step in both directions with C22, C25 and the completeness of the own proofs; the lists with the own message put in place are handled as functions of the party number.

*Result.* Exact condition proved for all messages, and the consequence for all executions; that the checks of the protocol suffice is refuted (C125_checks_suffice_refuted).

*Theorems.* `C125_keygen_client_finishes_iff`, `C125_written_file_made_from_checked_messages`, `C125_checks_suffice_refuted`

### C126 The requests of a GG18 client come in an order fixed in advance — proved

*Claim.* The requests of a GG18 key generation or signing client that were answered, followed by the one it makes next, are a beginning of a list that depends on nothing but the number of parties, its own number and the session, and are the whole list when it has finished: round by round, storing its message (or one for every other party) and then asking for every other party's. No key comes twice in the list, so a client never replaces a message of its own nor opens anything twice. What it has committed to it opens only after it has been told everybody else's commitments: in key generation, and for all three commitments of signing. (for all curves, hash functions, serialisation functions, numbers of parties, samples, messages, server states, schedules (with lost answers and repeated requests) and requests of others)

*Model and proof.* A log of the answered requests of one client is kept beside the execution; a program follows a list of requests if every branch of it makes the next request of the list, stops after the last or panics. That the two client programs follow their lists is shown once, and by induction over the schedule for every execution.

*Result.* Both client programs, every execution; the commitments of key generation round 1 and of signing rounds 1, 5 and 7.

*Theorems.* `C126_keygen_requests_in_order`, `C126_sign_requests_in_order`, `C126_no_key_twice`, `C126_commitments_read_before_opening`

### C127 A GG18 signer stores its partial signature only after all checks of phases 4 and 5 passed — proved

*Claim.* When a GG18 signing client is about to store its partial signature (round 9), whatever the server, the other signers and others do, the messages it was told satisfy: every other signer's point of round 4 is the one committed to in round 1; every other signer's (V, A, B) of round 6 is the one committed to in round 5 and both its proofs verify, for the nonce point R with (sum of the deltas) R = sum of the points of round 4; every other signer's (U, T) of round 8 is the one committed to in round 7, the client's own being computed from those V and A; the sum of T and B is the sum of U. The sums include what the client itself stored in those rounds, and the sum of the deltas is not zero, so R is determined. What it stores is then m k + r sigma for its own nonce k and the x-coordinate r of that R. (for all curves, hash functions, serialisation functions, numbers of signers, samples, messages, server states, schedules and requests of others)

*Model and proof.* The log of a client is the talk of its program with the answers in the log; the program is followed through its eight rounds up to the request of round 9, every check on the way gives its part of the statement, through the specifications of phase 4, 5c and 5d, with the own message put in place in the lists.

*Result.* Every execution, arbitrary peers and server. GG18 signing has no range proofs, so nothing is said about them.

*Theorems.* `C127_partial_signature_only_after_checks`

### C128 GG18 signers that were told the same write the same signature — proved

*Claim.* Two GG18 signing clients with the same public key and message that finish, in one execution or in two, write signatures with the same r, both valid, if they were told the same deltas (round 3) and points (round 4), counting what each stored itself; if also the partial signatures (round 9) are the same, they write the same signature with the same recovery id. In one execution this is so whenever no message of these three rounds is replaced by another one on the server, whoever stored it. (for all curves, hash functions, numbers of signers, samples, messages, other rounds' answers, server states, schedules and requests of others; serialisations of scalars and openings that read back what was written)

*Model and proof.* The program of a client that has finished is followed through all rounds over its log (C126); R is the only solution of (sum of the deltas) R = sum of the points, and the output depends on R and the sum of the partial signatures. What a client was told or stored was on the server at that moment, by induction over the schedule.

*Result.* That the messages of the rounds be the same is a hypothesis: an equivocating server is the subject of C101.

*Theorems.* `C128_same_messages_same_signature`, `C128_settled_messages_same_signature`

### C129 A GG18 key generation client gives away shares only after the checks of phase 1, each under the key of its pair — proved

*Claim.* When a GG18 key generation client is about to store the text of round 3 for party j, whatever the server, the other clients and others do, the messages it was told satisfy: every other party's opened point is the one committed to in round 1, and its Paillier key came with a proof that verifies. The text is then the encryption of the value at j's number of the client's own polynomial, under the x-coordinate of its secret times the point that party j (and nobody else) opened; j is one of the other parties. (for all curves, hash, encryption and serialisation functions, n, t, samples, server states, schedules and requests of others)

*Model and proof.* As C127: the program is followed over its log up to the requests of round 3, with C22 for the checks; that nothing later is stored under such a key comes from the form of the keys.

*Result.* Every execution, arbitrary peers and server.

*Theorems.* `C129_shares_only_after_checks`

### C130 GG18 key generation clients that were told the same hold shares of one key — proved

*Claim.* Two GG18 key generation clients of one session that finish, in one execution or in two, whatever the other parties are and even if started with different thresholds, write the same public key and commitments if they were told the same commitments in round 4, counting what each stored itself; their shares are then the values at their numbers of one polynomial whose constant term is the secret of that key. If they were told the same in round 1 their files hold the same Paillier keys. In one execution the first is so whenever no message of round 4 is replaced by another one on the server. (for all curves, hash, encryption functions, n, t, samples, other rounds' answers, server states, schedules and requests of others; serialisations that read back what was written)

*Model and proof.* As C128, with C125 for what the file is made of: key and share are functions of the commitments of round 4.

*Result.* That round 4 be the same is a hypothesis: without it the claim is false, see C101. No bound on the degree is claimed: GG18 does not check the number of commitments.

*Theorems.* `C130_same_messages_same_key`, `C130_settled_messages_same_key`

### C131 A GG18 signer reveals its delta only after the answers of round 2 pass, each for that signer's share of the key — proved

*Claim.* When a GG18 signer is about to store its delta (round 3), whatever the server, the other clients and others do, the messages it was told satisfy: the numbers of round 0 are at least 1; from every other signer both answers of round 2 carry proofs that verify and fit the decrypted answer, and the second answer's point is the generator times that signer's share of the key, as the commitments of the key file and the list of signers give it. The text is its own k gamma plus the first answers, decrypted, minus its own masks, over the other signers. If what the signers were told in round 2 carries the points of the senders' own gammas and masks, the deltas they are about to store add up to the product of the sums of their k and gamma, whatever the ciphertexts are. (for all curves, hash functions and serialisations, numbers of signers, key files, messages, samples, server states, schedules and requests of others)

*Model and proof.* As C127: the program is followed over its log up to round 3; the point of an answer is compared with the value of the committed polynomials in the exponent. The sum: each accepted answer is k times the sender's gamma plus the sender's mask, so the masks cancel in pairs.

*Result.* Every execution, arbitrary peers and server. The coefficient of a signer is the one map_share computes; map_share_ok (VssProofs) identifies it with the Lagrange coefficient when the numbers are in range.

*Theorems.* `C131_delta_only_after_checks`, `C131_deltas_add_up`

### C132 A GG18 partial signature is the number that the checked answers, the signer's own share and samples and the nonce point give — proved

*Claim.* When a GG18 signer is about to store its partial signature (round 9), whatever the server, the other clients and others do: both round 2 answers of every other signer pass their checks, the first for the very point that signer opened in round 4, the second for its share of the key; the signer's own delta is k gamma plus the first answers minus its masks; R is the point with (sum of delta_j) R = sum of Gamma_j; and the text is m k + r sigma, where r is the x-coordinate of R and sigma is k times the signer's own share with its coefficient, plus the second answers, decrypted, minus its own masks. If its key file is one that key generation leaves and the numbers it was told are distinct, that number is k (m + r x) for the secret x of the public key, plus r times the sum of (the discrete logarithm of the mask point of the second answer) minus (its own mask): others can shift it only through their mask points. (for all curves, hash functions and serialisations, numbers of signers, key files, messages, samples, server states, schedules and requests of others)

*Model and proof.* As C127 and C131, along the whole program up to round 9; C127 leaves sigma open, this says what it is. The second form: accepted answers are k times the sender's share with its coefficient plus the mask, and the shares interpolate (lam_sum).

*Result.* Every execution, arbitrary peers and server.

*Theorems.* `C132_partial_signature_value`, `C132_partial_signature_of_key`

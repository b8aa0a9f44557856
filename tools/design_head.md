# Formal model of multi-party-ecdsa in Rocq

`properties.jsonl` lists the properties (C01…). `MANIFEST.json` maps each property to theorem
names and a status. Sources are in `rocq/theories`. Section 6 goes through the properties one by one.
"GG18", "GG20", "Lindell" and "CCLST" are the four protocol families of the crate
(`gg_2018`, `gg_2020`, `lindell_2017`, `cclst_2019`).

## 1. How the model is built

* **Small total Gallina functions**, one per Rust function, each with a comment citing file and
  lines of `/repo`. Randomness is an explicit argument (the Rust functions sample it). Results are
  `outcome := Ok v | Err e | Panic`: an `unwrap`, failed `assert` or out-of-range index is `Panic`.
* **Scalars** (`Scalar<Secp256k1>`): the prime field `Fq q` (integers in `[0,q)`), with
  `Scalar::from(&BigInt)` = reduction mod q, `to_bigint` = representative, `invert` = `None` on 0.
* **Curve** (`Point<Secp256k1>`): a record `Curve` with a prime order group, generator,
  decidable equality, module laws over `Fq q`, every point a multiple of the generator, and affine
  coordinates in `[0,p)` (`x_coord/y_coord`, `None` at infinity). Every theorem quantifies over all
  such curves; a concrete instance (y²=x³+7 over F_43, order 31, checked against the
  chord-and-tangent formulas) provides non-vacuity examples and refutation witnesses.
  That secp256k1 is such a curve is proved (`Secp256k1.secp256k1`, C105).
* **Hash**: an arbitrary function (Section variable, never an axiom), different for the different
  uses. Binding statements name the two colliding hash inputs.
* **Paillier**: textbook scheme over `Z` modulo `N²`, with correctness proved from number theory.
* **State machines** (Keygen, OfflineStage): `step : state -> call -> state * result`, with the
  message stores of `round-based`; theorems quantify over all call histories. `RoundSM.v` is a generic
  machine used only inside proofs; `SmSim.v` proves the two machines of the code to be instances of it.
* **Network**: the queue of every machine is put on a wire, messages are taken off it in any order,
  `proceed` is called at any time. A schedule is any list of such actions.
* **Relay servers** (examples): step functions at the granularity of the atomic lock sections; a
  run is any interleaving of the handlers' steps.

## 2. Files

| file | content |
|---|---|
| `ZArithX`, `ZPow` | extended Euclid, modular inverse and powers, Fermat |
| `Fq`, `Curve`, `Toy` | prime field, abstract curve, concrete curve of order 31 |
| `Outcome`, `Bytes` | results; byte encodings and hash commitments |
| `Ecdsa`, `EcdsaProofs`, `PropEcdsa` | verification and output of signatures; textbook ECDSA; C01–C08 |
| `Sigma`, `SigmaProofs`, `PropSigma` | DLog, ECDDH, HomoElGamal, Pedersen proofs; C53 |
| `Vss`, `VssProofs`, `PropVss` | Feldman secret sharing; C17–C19 |
| `PropCommit` | C14, C15 |
| `Paillier`, `PaillierProofs`, `PaillierOpen` | Paillier encryption, homomorphisms, opening |
| `RangeProofs`, `RangeProofsProofs`, `BobProofs`, `Forge`, `RangeExtra` | MtA range proofs |
| `PdlSlack`, `PdlSlackProofs`, `PropRange` | PDL with slack; C44–C51, C78 |
| `Mta`, `MtaProofs`, `Pdl`, `PdlProofs`, `PropMta` | MtA and interactive PDL; C30–C32, C52 |
| `TwoParty`, `TwoPartyProofs`, `PropTwoParty` | Lindell, CCLST; C09–C13, C16, C74–C76, C79–C81 |
| `Mp`, `MpProofs` | helpers shared by the multi-party protocols |
| `Gg20Keygen`, `Gg18Keygen`, `KeygenRun`, `Keygen*Proofs`, `KeygenExtra`, `PropKeygen` | key generation; C16, C20–C27, C77 |
| `Gg20Sign`, `SignRun`, `Sign*Proofs`, `PropSign` | GG20 signing; C24, C28, C33, C34, C36, C37, C39 |
| `Gg18Sign`, `Gg18*Proofs`, `PropSign18` | GG18 signing; C35, C36, C38, C82 |
| `PropSignChecks` | C83, C84 |
| `Blame`, `BlameProofs`, `BlameHonest`, `PropBlame` | GG20 blame; C40–C43, C85–C87 |
| `Stores`, `KeygenSM`, `SignSM` | message stores and the two state machines |
| `SmSpec`, `RoundSM`, `SmProofs`, `SmSim`, `SmTheory`, `SmFacts`, `SmTags`, `SmPanic` | history specification, invariants, simulation |
| `PropSM`, `PropSmNew`, `PropPanic` | C29, C54–C63, C66, C88 |
| `Network`, `NetLog`, `NetProofs`, `NetSim`, `PropNetwork` | networks of machines; C64, C65 |
| `Manager20`, `M20Spec`, `Manager20Proofs`, `Manager20Facts`, `Manager20Fate`, `Manager20Work`, `PropManager20` | GG20 relay; C67–C70 |
| `Manager18`, `Manager18Proofs`, `PropManager18` | GG18 relay; C71–C73, C89 |
| `Clients20`, `Clients20Prog` | GG20 client programs and relay as one system |
| `Clients20Proofs`, `Clients20Nets`, `Clients20Own`, `SmCause`, `Codec`, `PropClients20` | C90–C92 |
| `SmCauseSg`, `PropClients20Sign` | C93 |
| `Clients20Log`, `PropClients20Log` | C94 |
| `OnlineSM` | online part of examples/gg20_signing.rs |
| `Clients20Online`, `PropClients20Online` | C95 |
| `Clients18`, `Clients18Prog` | GG18 client programs and relay as one system |
| `Clients18Proofs`, `Clients18Rounds`, `Clients18KgProofs`, `PropClients18` | C96, C97 |
| `Clients18SgProofs`, `PropClients18Sign` | C98, C97 (signing) |
| `Clients18Ends`, `PropClients18Any` | C100, C101 |
| `ClientMsg`, `PropClientMsg` | C99 |
| `PrimeCert`, `RingPedersen`, `PropRingPedersen` | C102 |
| `PrimeBig`, `CorrectKey`, `PropCorrectKey` | C103 |
| `PropHiding` | C104 |
| `Pocklington`, `Weierstrass`, `Cyclic`, `WCurve`, `Secp256k1`, `PropSecp` | C105 |
| `PropSecpRun` | C106 |
| `PropSecpEdge` | C04, C05, C07, C08 on secp256k1 |
| `Segments`, `PropSegments` | encrypted backups; C107 |
| `Progress`, `PropProgress` | Debug output of the GG20 state machines; C108 |
| `Extract`, `PropExtract` | key extraction from MtA replies (attacker side); C109 |
| `Reshare`, `PropReshare` | repeated key generation with refresh_private_key; C110 |
| `Reuse`, `PropReuse` | one nonce for two messages (observer side); C111 |
| `PropKgPanic` | panics of the key generation machine; C27 |
| `PropFixed` | what is fixed when a machine opens its commitment; C112 |
| `PropSgPanic` | every cause of a panic of the signing machine; C66 |
| `PropManual` | when SignManual panics; C66 |
| `PropMobile` | what corrupted parties of several runs know; C113 |
| `PropSplit` | which key generation machines agree when a peer shows them different messages; C114 |
| `PropTight` | the verifier's commitment in zk_pdl, party two's nonce check, party one's own setup, phase 5 commitments; C52, C75, C79, C84 |
| `Driver`, `PropDriver` | is_critical and a caller that relies on it; C115 |
| `PropNonce` | finished offline machines agree on the nonce point; C116 |
| `PropProbe` | what failed two-party signatures tell party two; C117 |
| `PropReplay` | messages recorded in another run; C118 |
| `PropBob` | what the answering side of MtA learns; C119 |
| `Clients20Open`, `Clients20OpenProofs` | the GG20 clients on a server that strangers use too |
| `PropOpen` | strangers on the GG20 server; C120 |
| `Clients20Arrive` | an execution in which n GG20 clients arrive in order |
| `PropImpostor` | strangers in the place of clients, executions that finish; C121, C90, C91 |
| `Clients20Iso` | simulation of the GG20 clients among strangers in other rooms |
| `PropElsewhere` | other rooms do not matter; C122 |
| `CodecAny` | serialisations of the GG20 messages over any curve, for examples |
| `PropThree` | from key generation to the signature through three rooms; C123, C95 |
| `PropProbeMany` | adaptive CCLST signing attempts; C124 |
| `PropClients18Exact` | when exactly a GG18 key generation client finishes; C125 |
| `PropClients18Order` | the order of a GG18 client's requests, and what a signer has checked when it stores its partial signature; C126, C127 |
| `PropClients18Agree` | GG18 signers that were told the same write the same signature; C128 |
| `PropClients18Shares` | what a GG18 key generation client has checked when it gives away shares; C129 |
| `PropClients18AgreeKeys` | GG18 key generation clients that were told the same hold shares of one key; C130 |
| `PropClients18Delta` | what a GG18 signer has checked when it stores its delta; C131 |
| `PropClients18Partial` | what a GG18 signer's partial signature is made of; C132 |
@@MOREFILES@@

`Prop*.v` files hold the property theorems, each with `Print Assumptions` below it and an `Example`
beside it. Specifications are written there (or in `M20Spec`, `SmSpec`) without the model's helpers.

`tools/` has the generators of `properties.jsonl`, `MANIFEST.json` and this file, and `seed.py`, which applies wrong
edits to a scratch copy of the model and records in `seeded/LOG.jsonl` which theorems noticed.

## 3. Findings

Theorems named `…_refuted` show that a claim does not hold of the model.

* **Signature verification.** `verify` of GG20 panics on s = 0 and other crafted inputs (C06); Lindell and CCLST `verify`
  accept negative r, Lindell panics on s = 0 (C07, C08). Recovery ids are wrong when the nonce's
  x or y coordinate reaches q (C04).
* **Range and PDL proofs.** With response s = 0 the Paillier equation reads 0 = 0, so a proof for every unit
  ciphertext can be written down (C45, C46, C49, C51, C78, C79). The statement's base point is not compared with
  the generator (C79). `zk_pdl` finalize ignores the earlier `c_hat`, and the verifier commits to `a + b << bit_length(a)`, which several pairs (a, b) share (C52). Several verifiers panic (C49).
* **Two parties.** Lindell `compute` does not verify its result (C11); the proof of knowledge may be for another
  point (C74, C80); CCLST can sample shares that give the identity as joint key (C81).
* **Commitments.** `m || blind` is ambiguous for integers (C15).
* **Key generation.** Only the first cheater is listed (C23); an honest party can be framed by equivocation (C24); a dealer
  of too high degree is accepted (C26); malformed VSS vectors crash the receiver (C27).
* **Signing.** Total s = 0 makes every party panic (C34, C35); GG18 phase 5c does not tie the rho proof to A_i (C82);
  framing through δ equivocation (C24).
* **Blame.** Opening `beta_tag + N` frames an honest party (C40–C42); short vectors crash (C87).
* **State machines.** `OfflineStage::new` accepts sets of at most t signers (C29) and a key at the wrong position (C88);
  after a failure `pick_output` reports a double pick (C58); late messages are reported as round 2 (C63);
  one crafted round-3 message crashes the signer (C66).
* **Relays.** Message numbers wrap around in release builds (C67); with nobody subscribed every request replaces the room (C68);
  a message published before anyone subscribes is lost (C69); overlapping subscriptions can end in different rooms (C70);
  overlapping signups get the same number and clients can overwrite the signup record (C71, C72);
  round names with dashes collide (C73).
* **Clients.** gg20_keygen makes its machine with `--index` but filters messages with the number issued by the room; if one client joins out of
  order no client ever finishes (C92).
* **Clients.** gg20_signing takes the room's number as its position in the list of signers; if one client joins out of order, no client ever finishes
  presigning (C93).
* **Clients.** The online stage of examples/gg20_signing.rs filters incoming messages by the number issued by the online room but sends the number
  of the offline room. Signers that join the two rooms in different orders read their own partial signature instead of another one's and end
  with an error, for all but at most two messages modulo the order (C95).
* **Clients.** Two gg18_keygen_client programs whose signups race in the server get the same number (C71); then no client of that session ever writes
  a key file: all wait for the missing number (C97).
* **Clients.** When the answer to a signup is lost, `postb` repeats the request and the server gives a second number: the number that was lost is
  never used, and no other client of that session finishes (C97). The same holds for signing.
* **Clients.** The relay lets anybody overwrite any key of a session, and the key generation clients compare nothing at the end: another user can
  make every client finish with a different key, generated with partners of that user's choice (C101).
* **Messages.** The GG18 client signs the text "Hi!" and the hexadecimal string "486921" (also "00486921") as the same number; a message of 2^256
  or more makes it panic at the end of the run. Neither client hashes: on secp256k1 a signature for one 56-character text is a signature for another
  (C99).
* **Auxiliary parameters.** A party that broadcasts h1 = 0 (or any h1, h2 that shares a factor with its N~) makes every other party panic inside the
  proof library instead of being reported. The proofs do not show that h2 is a power of h1: with h2 = -h1^k for a square h1 the proof passes for every
  even challenge, that is for about half of all nonces (C102).
* **Correct-key proof.** It does not show that the modulus is a product of two primes: a prime N of the right size passes. A vector with fewer than 11
  values makes the verifier panic inside the library (C103).
* **Phase 3 of GG20.** T_i = sigma_i G + l_i H hides sigma_i, but the PedersenProof sent with it has separate first messages s1 G and s2 H, so everybody
  can compute sigma_i G from it (C104).
* `C106_zero_r_refuted`: the two points of secp256k1 with x = n give r = 0, and no signing function rejects r = 0: the parties output (0, s), which is not an ECDSA signature. Nobody can compute such a nonce.
* `C04_secp256k1_refuted`, `C05_secp256k1_collision_refuted`, `C07_secp256k1_completeness_refuted`, `C08_secp256k1_completeness_refuted`: the exceptions first shown on the toy curve exist on secp256k1, for every key and all messages but one. Points with x = n + 2 and with y = n + 4 are given explicitly; (2, .) and (n + 2, .) have the same r. Finding the nonce of such a point is infeasible.
* `C07_negated_refuted`: on every curve, (-r, -s) of an accepted signature is accepted for -m by both two-party verifications and is not a signature.
* `C107_truncated_refuted`, `C107_missing_backup_refuted`, `C107_share_not_in_backup_refuted`, `C107_mixed_backups_refuted`: to_encrypted_segment does not check that the segments cover the share; GG backups hold u_i, so all n are needed although t+1 parties can sign, and a party that lost its state cannot get x_i back from its own backup.
* `C108_round6_not_shown_refuted`: OfflineStageProgress has no field for the messages of round 6.
* `C109_gg18_key_extracted_refuted`, `C109_gg20_key_extracted_refuted`: one dishonest signer gets the private key out of the MtA replies of a few signing sessions with the same signers, without causing an error before it has its replies. GG18 has no range proof for the ciphertext at all; in GG20 the proof is accepted with s = 0 (C46).
* `C110_old_keys_revoked_refuted`, `C110_runs_mix_refuted`: repeating key generation with refreshed u_i leaves the old key shares usable (with each other), and nothing checks that the factors add up to 0: otherwise the parties agree on another public key without an error (`C110_gg20_key_kept_iff`).
* `C111_two_signatures_reveal_key_refuted`: the documentation of `OfflineStage` (sign.rs:49-50) says that its output can be used for signing multiple times, and `CompletedOfflineStage` is Clone. Two signatures made so on different messages reveal the private key to anybody; the partial signatures reveal every signer's shares (`C111_partials_reveal_shares_refuted`).
* `C112_copied_opening_accepted_refuted`: neither the commitments, nor the openings, nor the proofs of the first key generation round name their sender. Another party can send a machine copies of that machine's own messages and gets through round 2 (only the Feldman check and the proof of the share in rounds 3 and 4 remain), with the machine's own modulus in its place.
* `C113_t_per_run_hide_key_refuted`: repeating key generation with `refresh_private_key` renews the shares x_i but keeps every u_i up to the factor, and `PartyPrivate` stores u_i. With n <= 2t, t parties corrupted before and the n-t others after a repetition know the whole key, although no t+1 were ever corrupted at once (the factors taken as known).
* `C114_dealer_splits_refuted`: key generation has no check that everyone got the same broadcasts, and no check of the number of VSS commitments. If at most t machines follow the code, or if party 1 is the one that does not, one party can make every machine finish successfully with a different public key; party 1 can do this to all n-1 others for every t, by dealing polynomials of degree n-1.
- The phase 5 commitments of GG18 signing join the digest of the points and the blinding factor without a length, so two
  openings may share one hash input without any collision; C84 lists the exact cases.
* `C115_keygen_refused_critical_refuted`: `IsCritical` of key generation says `true` for every error (keygen.rs:468-472), unlike that of the offline stage. A repeated, late or misaddressed message, or one from an index that takes no part, leaves the machine unchanged but ends the caller.
* `C117_failures_reveal_share_refuted`: failed Lindell 2017 signatures give party one's share away. Party one decrypts whatever ciphertext
  it is sent as partial signature: `Signature::compute` has no proof to check and no range to compare with. Party
  two can therefore have it sign with a plaintext that is congruent to the honest one modulo q exactly if a chosen
  bit of the share is 0, and sees by whether the signature verifies which it was. Party two's nonce (2) and all
  its other messages are honest. 256 attempts give the share on secp256k1. The protocol of the paper has party one
  stop using the key after a failed verification; the library returns `Err(InvalidSig)` and neither retires the
  key nor says that the caller has to. In the CCLST variant an attempt can only try two guesses.
* `C118_gg18_recorded_run_accepted_refuted`: no message of GG18 key generation depends on the run: one who has recorded what the others
  sent to a party in one run can answer it with that in another, and the party finishes, with a public key nobody else has heard of and public
  shares that are not the others'. In GG20 the comparison of the last proofs with the commitments prevents it.
* `C119_answer_tests_secret_refuted`: MessageB has no range proof (the BobProof code is not called from anywhere), so a signer can choose
  beta_tag = N - T b and see from whether the session goes on if the asker's nonce share k_i is below T. With T = q / 2^l one session in 2^l
  goes on, and its signature has a nonce share known to l bits (`C119_finished_machine_below_bound`, `C119_probe_leaves_run_intact`).
* `C120_text_stops_keygen_refuted`, `C120_index_stops_keygen_refuted` (and the signing versions): one HTTP request by
  anybody who knows the room's name (the default is fixed in the programs) stops key generation and signing for good. A
  posted text that does not parse makes every client that reads it exit; one request for an index shifts the numbers.
* `C121_key_with_strangers_refuted`: the server asks for no credentials and messages carry no signatures, so whoever
  sends a party's requests is that party: the other clients finish with a key one of whose shares is the stranger's.
* `C125_checks_suffice_refuted`: in GG18 key generation nothing checks that an opened point is not zero; a party that commits to it, deals zero and proves everything makes every other client panic at `x_coord().unwrap()` (examples/gg18_keygen_client.rs:112-118), before any check, and without naming anybody.
@@MOREFINDINGS@@

## 4. Trusted base

* Coq 8.16.1 kernel, including `vm_compute` (closed witnesses and examples).
* **Assumptions.** `Print Assumptions` of every `Theorem` and `Example` in the development answers
  "Closed under the global context": no axiom, neither ours nor from a library. (The build check lists seven
  names `Coq.ssr.ssrunder.Under_rel.*`; these are opaque members of a module of the standard library's ssreflect part that is loaded, and
  no theorem uses them.) Sections variables such as hash functions are universally quantified in the closed statements.
* The reading of the Rust code, cited line by line in the model.
* curv's `Point<Secp256k1>` computes the affine chord and tangent rule on y^2 = x^3 + 7 with the constants of `Secp256k1.v` (that this is a `Curve` is proved, C105).
* **External crates**, which are not in /repo and are modelled from their documented behaviour:
  * `curv`: scalars, points, `HashCommitment`, `VerifiableSS`, `DLogProof`, `ECDDHProof`, `HomoELGamalProof`, `PedersenProof`;
  * `centipede`: `Msegmentation` (segments of a share under ElGamal), from its published source;
  * `kzen-paillier`: encryption, decryption, addition, multiplication, `open`; GMP `mod_pow`, `mod_inv`, `%`;
  * `zk-paillier`: `NiCorrectKeyProof`, `CompositeDLogProof` are oracles in the protocol models, given as Section variables that say
    which proofs verify (completeness is a hypothesis where a theorem is about honest runs); they are modelled on their own in
    `CorrectKey` and `RingPedersen`, and C103 discharges the hypothesis for GG20 key generation;
  * `class_group`: linearly homomorphic encryption, a record `CL` with its decryption law; its proofs are oracles;
  * `round-based`: `BroadcastMsgsStore`, `P2PMsgsStore` (modelled), `AsyncProtocol` (specified as any schedule), `Push`;
  * `rocket`, `reqwest`/`surf`, `tokio`: handlers run as interleaved atomic lock sections; `Notify` as a counter of permits issued;
    `RwLock` gives mutual exclusion; `serde_json` is a pair of functions `ser`/`par` with `par (ser x) = x`; uuids are a stream without repetition.

## 5. Modelled and not modelled

Modelled: every function of `src/protocols/two_party_ecdsa/*/party_{one,two}.rs`, `src/utilities`,
`gg_2018/party_i.rs`, `gg_2020/party_i.rs`, `gg_2020/blame.rs`, `gg_2020/state_machine` except trivial accessors. Sampled values and primes are
arguments of the model's functions, so `create`, `create_safe_prime` and `create_from` (likewise `create_with_fixed_secret_share`, and `refresh_private_key` with its `_safe_prime`
variant) are one function with different arguments; the tests of primality are those of the bignum library and not modelled. Of the examples the
two relay servers, the key formats and polling of `common.rs`, and `gg20_sm_client.rs`, `gg20_keygen.rs`, `gg20_signing.rs`, `gg18_keygen_client.rs` and `gg18_sign_client.rs` (after the signup; AES-GCM is a pair of functions that undo each other; secp256k1's verify is ECDSA with low s) are modelled@@MOREMODELLED@@.
GG18 and GG20 clients' order of phase calls is the composition used in the "run" files.

Not modelled: memory zeroisation, timing, serde byte formats, quality of randomness, threads and sockets, lock poisoning,
derived `Debug` output of the data types, tests and benches. Computational assumptions (hardness, zero knowledge) are
not stated; soundness is stated as special soundness or as extraction identities.
Simplifications (such as values recomputed instead of stored) are said in the comment of the definition concerned.

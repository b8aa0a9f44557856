{
 "C01": "`verify20` over an abstract curve; equivalence with the textbook equation over integers by case analysis and field algebra.",
 "C02": "`verify18`; exact outcome for every input.",
 "C03": "`output_signature` of both protocols; case analysis on its final `verify` and the low-s step.",
 "C04": "Recovery specified from the SEC1 text over point coordinates; proof by algebra; witnesses on the toy curve.",
 "C05": "Linearity of the signing equation; a different sum gives a different s, and the final verify decides.",
 "C06": "Exact panic condition of `verify20`; witnesses.",
 "C07": "`verify` of Lindell over signed integers; textbook comparison and witnesses.",
 "C08": "`verify` of CCLST likewise.",
 "C09": "Both parties' functions composed; Paillier homomorphism over Z, then reduction modulo q.",
 "C10": "As C09 over the record CL of a linearly homomorphic scheme.",
 "C11": "`compute` on an arbitrary ciphertext; for every s a ciphertext is constructed.",
 "C12": "Algebra of scalar multiplication.",
 "C13": "Induction over the list of refresh factors.",
 "C14": "Injectivity of the point encoding; collision named.",
 "C15": "Byte encoding of integers; ambiguity witness for every hash.",
 "C16": "Composition of create and verify functions.",
 "C17": "Polynomials as coefficient lists; Lagrange interpolation proved by root counting.",
 "C18": "Existence and uniqueness of the interpolating polynomial with given value at 0.",
 "C19": "Evaluation in the exponent.",
 "C20": "The run function `kg_run` composes all rounds of all parties; sums over lists and Lagrange.",
 "C21": "Same for the GG18 functions.",
 "C22": "Exact outcome of the verification loop for arbitrary messages.",
 "C23": "Two cheaters in one phase; list has one entry. What holds: first cheater.",
 "C24": "For each check: listed implies violation, relative to the views; framing run constructed.",
 "C25": "Implication from Ok for arbitrary messages.",
 "C26": "A dealer with a degree t+1 polynomial; counting of solutions.",
 "C27": "Index panics made explicit; witnesses; exact no-panic condition; lifted to every history of the keygen machine (message substitution), with a totality theorem for well-sized commitments.",
 "C28": "Lagrange coefficients of `map_share_to_new_params`; sum over the signer list.",
 "C29": "Constructor model; accepted set of t members exhibited for each key.",
 "C30": "Paillier homomorphism over Z; exact wrap-around condition.",
 "C31": "Implication from Ok for arbitrary replies.",
 "C32": "Exact outcome of `MessageB::b`.",
 "C33": "`sg_pre` and further run functions over all signers; sums of MtA shares over pairs; algebra in the exponent.",
 "C34": "On top of C33, `SignManual`.",
 "C35": "All ten rounds of the GG18 client; same technique.",
 "C36": "Exact outcome of phase 4.",
 "C37": "Algebra from the two point sums.",
 "C38": "Exact outcome of phase 5d rewritten in discrete logarithms.",
 "C39": "Both runs give the signature determined by nonce and key.",
 "C40": "Exact list computed by the blame functions on opened global states; framing state constructed.",
 "C41": "As C40.",
 "C42": "As C40 for phase 6.",
 "C43": "As C40 for phase 7.",
 "C44": "Integer arithmetic modulo N² and N-tilde.",
 "C45": "Division of the two verification equations; units modulo N.",
 "C46": "Forged proof constructed for every negative s1.",
 "C47": "As C44.",
 "C48": "As C45.",
 "C49": "Panic conditions of inverses made explicit; witnesses.",
 "C50": "As C44.",
 "C51": "As C45.",
 "C52": "Both sides composed; finalize characterised for arbitrary messages.",
 "C53": "Field algebra; two challenges.",
 "C54": "Decision function against a specification of the documented conditions.",
 "C55": "As C54.",
 "C56": "Step function on the stores; specification by history.",
 "C57": "The state is a function of the set of accepted messages (invariant over histories).",
 "C58": "Invariant over histories.",
 "C59": "Invariant over histories.",
 "C60": "Invariant over histories.",
 "C61": "Invariant over histories.",
 "C62": "Invariant over histories.",
 "C63": "Invariant over histories; store of a late round is gone.",
 "C64": "Network of machines; every machine's inbox is a prefix of the honest run (confluence), and a quiescent network has finished; potential function bounds the number of effective actions.",
 "C65": "As C64 for the offline stage, then SignManual.",
 "C66": "Substitution of one message in a history; the round function panics on it; wrappers proved free of panics. The complete list of causes: every state the machine reaches has the shapes its round needs (induction over the rounds run), so each indexing, assert and inversion is traced to a received message.",
 "C67": "Invariant relating every subscriber's position to the trace, over all interleavings; progress by the notification counter.",
 "C68": "Invariant over interleavings.",
 "C69": "Refuting trace; steadiness invariant for the part that holds.",
 "C70": "As C69.",
 "C71": "Sequential service: induction; concurrent: invariant and refuting trace.",
 "C72": "Invariant relating the table to the trace.",
 "C73": "String lemmas about decimal numerals and dashes.",
 "C74": "Exact acceptance; witness for the missing link.",
 "C75": "Exact acceptance and extraction.",
 "C76": "Algebra over the CL/Paillier ciphertexts.",
 "C77": "Induction over refreshes with zero-constant polynomials.",
 "C78": "Forged proofs constructed for every unit ciphertext.",
 "C79": "Forged proofs; statement with another base.",
 "C80": "Witness for every public share.",
 "C81": "Products of non-zero scalars; integer division by three for CCLST.",
 "C82": "Witness proofs for another key.",
 "C83": "Implication from Ok for each round; for Round1 the exact condition.",
 "C84": "Exact outcome.",
 "C85": "n-th roots modulo n; Euler's theorem for two primes.",
 "C86": "Index arithmetic of the transposition.",
 "C87": "Short vectors.",
 "C88": "Constructor model.",
 "C89": "Relay table invariant (C72) and injective keys (C73).",
 "C90": "Invariant tying the system of clients and relay to the network of C64: every schedule of the system gives a schedule of the network; potential function for termination; explicit serialisation in the example.",
 "C91": "As C90 with OfflineStage machines and C65.",
 "C92": "Invariant of all executions (each client's calls are a history of its machine, filtered, and everything received was sent by a client) and causality of the rounds.",
 "C93": "Invariant of C92; round-2 messages carry the sender's weighted share, checked by every receiver against the public share of the position.",
 "C94": "Invariant of the system of clients and relay: the accepted texts, the requests of the clients and the events read by each subscription are tied to one list per room.",
 "C95": "Own numbers: as C90 with a machine for lines 59-88. Any numbers: invariants of C92 and C94 give the exact set of partial signatures added up; a wrong total verifies only in the cases of C05, each excluding one message modulo the order.",
 "C96": "Clients are deterministic programs that write each key once and read by key (a Kahn network): an invariant says each client is on its own fixed trace, hence every schedule ends with the same results; the trace is built from the honest run of C21.",
 "C97": "Sequential signups: C71 gives the numbers 1..n, then C96. Two equal numbers, or one lost with the answer to a signup: some number is missing, its first-round key is never written, and invariantly no client (key generation or signing) gets beyond reading it.",
 "C98": "The signing program is shown to play the fixed trace of the honest run of C35 (round by round), and the network argument of C96 applies; the final check_sig is the ECDSA equation with low s. The key files come from C96.",
 "C99": "Big-endian numbers are equal iff the bytes agree up to leading zeros (induction); hex decoding undoes hex writing (induction); two concrete texts congruent modulo the secp256k1 order; long messages by C100.",
 "C100": "A predicate on client programs (every result satisfies P, whatever answers come) that exchanges preserve and every step of the system keeps; the checks the program makes before it ends give P.",
 "C101": "A client all of whose answers are stored already runs to its end alone; another user stores, for one client after the other, the messages of a key generation with partners of their choice (traces of C96).",
 "C102": "Euler's theorem for p1 p2 (Fermat and the Chinese remainder theorem) gives acceptance; special soundness by cancelling units; -g^(-s) for a square g is no power of g modulo a prime 3 mod 4 (Fermat), but passes for even challenges; the library's assertions make a non-unit a panic.",
 "C103": "N-th roots by Fermat modulo both primes and the Chinese remainder theorem; a square factor p^2 or a factor q = 1 mod p confines every derived value to a subgroup of index p (Euler modulo p^2, Fermat modulo q); a prime modulus passes; C20 with the verifications of C102 and C103 instead of oracles, with a 2048-bit example (two certified 1024-bit primes).",
 "C104": "Accepted proofs are exactly the honest ones and nonces are determined by them (field algebra); the reply for b' is found by dividing ciphertexts, unique because Paillier with its randomness is injective (C85); the Pedersen proof gives sigma_i G by solving its response equation.",
 "C105": "Associativity of the chord and tangent rule from slopes (one polynomial identity and one case analysis); primality of p and n by Pocklington certificates; n G = infinity by a checked addition chain of 297 slopes; every point is a multiple of G because there are at most 2p+1 < 3n points (pigeonhole on three cosets) and -7 is not a cube, so there is no point of order two. A published signature is checked as an example.",
 "C106": "C34 with the hypotheses about proofs and range responses discharged: the library's proofs are accepted (C102, C103) and e a + alpha stays below q^3 when e < 2^256. For r = 0: 7 is not a square modulo p, n^3 + 7 is; n < p < 2n. The example meets all hypotheses with 2048-bit keys on secp256k1.",
 "C107": "The mask-and-shift of a segment is a digit in base 2^size; induction on the number of segments gives the share modulo 2^(size * number). Opening is unique because x < 2^size <= q and g is not zero. Key level: C13, C20 and exhibited runs with the same u. The segmentation is that of the centipede crate, which is not in /repo: modelled from its published source and part of the trusted base; decryption is specified by its equation, the search for x is not modelled, nor are centipede's proofs (nothing in /repo calls them).",
 "C108": "Strings are Coq strings and numbers go through the standard library's decimal conversion (shown to read back). The cell of a store is computed from the invariant of SmProofs, which gives the slots of every store as a function of the history; the machines are reduced to it by SmSim. Independence of the contents: the text is that of the machine with every message replaced by the unit value.",
 "C109": "False of the code: the claim is refuted by an attack carried out in the model against the modelled rounds. With a = 2^-L mod N the reply decrypts to a w + beta' mod N. For a guess u the attacker removes a u; if u is the low L bits the rest is (w - u) / 2^L + beta' without wrap-around, which it checks against the two points of the reply; otherwise the rest is off by a multiple of N that q does not divide. Induction over the sessions, then the shares w add up to the key. beta' <= N - q is assumed (all but q of the N values sampled). The attacker's own Paillier key is an honest one.",
 "C110": "Induction on the number of repetitions: each honest run ends in the explicit keys of C20/C21 for its u_i, and refresh_private_key adds the factor to u_i. Signing by C34/C35 on the last run. Stale share: the Lagrange sum differs by lambda_j (f(j) - f'(j)) with lambda_j not 0. Runs started from refreshed Keys are the runs of KeygenRun with these u_i; /repo has no client for it.",
 "C111": "C34 with one completed stage and all messages. The observer's formula k = (s1 - s2)/(m1 - m2), x = (s1/k - m1)/r with both signs of s2, compared with the public key; field algebra and the exact outputs of C34, C35, C09, C10. For arbitrary valid signatures: with equal r >= p - n the verification points are equal up to sign.",
 "C112": "The refinement of C28 and C64 (every reachable machine state is the deterministic run of its rounds on its inboxes): a sent message of round k+1 means rounds up to k ran, the inboxes of a longer history extend those of the shorter. The key is the sum of the opened points, each opening matches the commitment in the inbox of round 1; R is the sum of the points of the MtA messages of round 2 that the openings must equal (C36). Copied messages: the machine's own pair passes its own checks.",
 "C113": "The state of every party after run e is explicit (u_i plus its factors so far; sum of the shares dealt). If party j is never corrupted, its secret is moved by the difference of the keys and its polynomial of every run replaced by the one that agrees at the corrupted positions (C18). If every party is corrupted in some run, the views give all u_i. Public points are left out of the view, since they determine the key.",
 "C114": "Each finished machine has one polynomial behind its key and its public shares (C25), of at most as many coefficients as party 1 dealt, since get_commitments_to_xi panics on longer lists. Its value at b is the discrete logarithm of what machine b proved in round 4, and b proves one value to everyone; more than t such points fix the polynomial. Conversely a dealer picks for every machine a polynomial with the wanted value at 0 and the value 0 at all machines; with the position of party 1 the degree can be n-1.",
 "C115": "Driver.v: a caller that runs calls until one gives a critical error or panics. Every error of a call is that of a failed round (nothing after it, C59), of a second pick, or of a refused message (state unchanged, C56). By induction over the history, dropping refused messages keeps the run. The caller stands for round_based's AsyncProtocol, which is not in /repo.",
 "C116": "From the pick of each machine the run through rounds 4 to 6 is read back; the proofs of the sender's round-5 message are those of sg_r4 for its own samples and point, and the receiver checked each of them for its own point (C83). The verification equation of a proof made for one base and checked for another is solved; the hash is a parameter and no assumption on it is made.",
 "C117": "Party two's ciphertext is built from the encrypted key with the homomorphic operations of the model; what it decrypts to is computed exactly (half of an even number is small, half of an odd one is above N / 2 and reduces to another residue modulo q), and the verification is characterised by s k = + or - (m + r x). Induction over the bits. For CCLST the two linear equations in the share are solved; CL encryption is the record of homomorphic laws.",
 "C118": "The finished histories of both runs are read back round by round; in key generation the accepted proof fixes the sum of the dealt polynomials at j, of which all summands but the own one are among the messages; in signing the check of an MtA reply is linear in the own k. For GG18 a party's calls on messages given from outside (kg18_alone, shown to agree with kg18_run on the messages of that run) succeed on the recorded ones; the client program's encryption of the shares is not part of that statement.",
 "C119": "beta_tag = N - T b makes a b + beta_tag reach N exactly when a >= T, and C30 says that the sum is right below N and refused from N on. A finished history is read back to the check of round 2. The honest run theorems (C33, C34) ask only that the plaintext of each answer stays below the modulus, which still holds with the chosen value when the nonce share is below T.",
"C120": "Clients20Open adds to the system of C90/C91 two actions: a stranger's request to any room, and a stranger closing its own connection. The ownership invariant of C92/C93 is generalised by the set of foreign texts. Denial: one unparsable text at the head of the room, or one index taken, after which the invariant of the stuck client survives every continuation.",
"C121": "Simulation, step by step: a client's action is replaced by the requests it makes. Clients20Arrive constructs an execution in which all clients arrive in order, for every n, so C90 and C91 give one in which all finish.",
"C122": "Bisimulation with a renaming of request numbers and room positions; strangers' tasks only touch rooms the clients' tasks do not hold. The finishing part carries C90 and C91 over in both directions.",
"C123": "What C90, C91 and C95 say of each room is put together: files in the key generation room imply the right numbers (C92), so they are the keys of the sequential run; those are well-formed signers; presignatures are those of the sequential run. Executions of every size are built from the arrivals of C121. The example is on secp256k1 with 2048-bit keys.",
"C124": "Induction on the ciphertext expression: it decrypts to an affine function of the share. One attempt is then C117_cclst_two_guesses, with the degenerate cases (no nonce point, zero right-hand side) added; induction on the number of attempts, the strategy and the nonces being functions of the answers so far.",
"C125": "The client program is run on a list of answers (feed); an invariant over executions says that a client is always where the answers it read have brought it. The program is then followed step by step in both directions with C22, C25 and the completeness of the own proofs; the lists with the own message put in place are handled as functions of the party number.",
"C126": "A log of the answered requests of one client is kept beside the execution; a program follows a list of requests if every branch of it makes the next request of the list, stops after the last or panics. That the two client programs follow their lists is shown once, and by induction over the schedule for every execution.",
"C127": "The log of a client is the talk of its program with the answers in the log; the program is followed through its eight rounds up to the request of round 9, every check on the way gives its part of the statement, through the specifications of phase 4, 5c and 5d, with the own message put in place in the lists.",
"C128": "The program of a client that has finished is followed through all rounds over its log (C126); R is the only solution of (sum of the deltas) R = sum of the points, and the output depends on R and the sum of the partial signatures. What a client was told or stored was on the server at that moment, by induction over the schedule.",
"C129": "As C127: the program is followed over its log up to the requests of round 3, with C22 for the checks; that nothing later is stored under such a key comes from the form of the keys.",
"C130": "As C128, with C125 for what the file is made of: key and share are functions of the commitments of round 4.",
"C131": "As C127: the program is followed over its log up to round 3; the point of an answer is compared with the value of the committed polynomials in the exponent. The sum: each accepted answer is k times the sender's gamma plus the sender's mask, so the masks cancel in pairs.",
"C132": "As C127 and C131, along the whole program up to round 9; C127 leaves sigma open, this says what it is. The second form: accepted answers are k times the sender's share with its coefficient plus the mask, and the shares interpolate (lam_sum)."
}

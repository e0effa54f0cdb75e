{"id": "C01", "title": "Pedersen openings are accepted exactly", "statement": "PedersenBase.Verify(x, r, c) returns true if and only if c is GT^x * HT^r mod p; in particular every commitment returned by Commit/CommitWithR verifies with the x and r it was made from.", "quantifier": "all bases (GT, HT), all secrets x and r, all candidate commitments", "why_tests_cant": "one test uses one x and one random r; the claim is for every value of a 511-bit exponent and every base", "anchors": ["primitive/pedersen/PedersenCommitment.go: CommitWithR, Commit, Verify"]}
{"id": "C02", "title": "Pedersen commitments add and subtract", "statement": "Adding (subtracting) two commitments gives a commitment to the sum (difference) of the values under the sum (difference) of the randomness, modulo the group order, including negative values given through SetInt64.", "quantifier": "all bases, all pairs of values and randomness", "why_tests_cant": "test adds two literals; TestSub never calls Sub", "anchors": ["primitive/pedersen/PedersenCommitment.go: Add, Sub"]}
{"id": "C03", "title": "Re-keying the base re-randomises commitments without changing what they hide", "statement": "If GT, HT and a commitment are all raised to the same secret E then every opening (x, r) of the old commitment under the old base opens the new commitment under the new base, and for E coprime to the group order no new opening appears.", "quantifier": "all bases, commitments, exponents E, openings", "why_tests_cant": "servers apply fresh random E every phase of every round; no test touches Randomize", "anchors": ["primitive/pedersen/PedersenCommitment.go: Randomize", "cmd/server/AnonServerHandler.go: handleAnnouncement, handleRoundEnd"]}
{"id": "C04", "title": "Pedersen commitments hide perfectly and bind up to discrete log", "statement": "For every commitment under a base whose HT generates the group and every value x' there is exactly one r' opening it to x'; two openings with different values determine the discrete log of GT to the base HT.", "quantifier": "all commitments, all values, all pairs of openings", "why_tests_cant": "existence and uniqueness over a 2^511 space", "anchors": ["primitive/pedersen/PedersenCommitment.go: CommitWithR, Verify"]}
{"id": "C05", "title": "Every registered server contributes to HT", "statement": "When servers register one after another (each UPDATE_PEDERSEN_H is processed before the next SERVER_REGISTER) the coordinator's HT is g raised to the product of all servers' secrets; if two registrations overlap one contribution may be lost.", "quantifier": "all numbers of servers, all secrets; all interleavings of register / update messages", "why_tests_cant": "depends on the delivery schedule of messages of several processes", "anchors": ["cmd/coordinator/CoordinatorHandler.go: handleServerRegister, handleUpdatePedersenH", "cmd/server/AnonServerHandler.go: handleServerRegisterReply"]}
{"id": "C06", "title": "Fujisaki-Okamoto commitments are homomorphic over the integers", "statement": "CommitWithR(x, r) = G1^x * H1^r mod N for every integer x and r of either sign; products of commitments commit to sums; base creation always yields H1 a quadratic residue unit and Gi = H1^alpha_i.", "quantifier": "all integers x, r (both signs), all moduli, all sampled randomness", "why_tests_cant": "negative exponents go through modular inverses; tests never use them directly", "anchors": ["primitive/fujiokam/FujiOkamCommitment.go: Commit, CommitWithR, genH, genGn, CreateBaseFromSuite", "primitive/fujiokam/point.go: Exp, Mul"]}
{"id": "C07", "title": "Three-square decomposition is correct and its search is complete", "statement": "decomposeThreeSquare(x) returns a, b, d with a^2+b^2+d^2 = 4x+1 whenever such integers exist (although the innermost loop stops before the bound), and never returns a wrong triple; it panics only when 4x+1 is not a sum of three squares.", "quantifier": "all x in the int64 range where 4x+1 does not overflow", "why_tests_cant": "tests check x = 42; the loop bound is strict in one loop only", "anchors": ["primitive/fujiokam/FujiOkamCommitment.go: decomposeThreeSquareHelper, decomposeThreeSquare"]}
{"id": "C08", "title": "Honest non-negativity arguments always verify", "statement": "For every non-negative x, every commitment commitx = G1^x H1^rc and every choice of the prover's randomness the argument returned by ProveNonneg passes VerifyNonneg.", "quantifier": "all 0 <= x < 2^61 (the int64 range of 4x+1), all randomness of both signs, all moduli and unit generators, every hash function", "why_tests_cant": "two literals are tested; the claim quantifies over 2^1100-size randomness and negative exponents", "anchors": ["primitive/fujiokam/FujiOkamCommitment.go: ProveNonneg, ProveNonnegHelper, VerifyNonneg, VerifyNonnegHelper"]}
{"id": "C09", "title": "A commitment that passes VerifyNonneg hides a non-negative value", "statement": "If VerifyNonneg accepts an argument for a commitment then the committed value is non-negative (an argument for a commitment to a negative value cannot be produced from public data).", "quantifier": "all commitments, all arguments, all provers", "why_tests_cant": "absence of a forgery is a statement about all adversarial inputs", "anchors": ["primitive/fujiokam/FujiOkamCommitment.go: VerifyNonnegHelper"]}
{"id": "C10", "title": "Honest generator proofs are accepted", "statement": "For every base built by CreateBaseFromSuite, every sampled secret vector and every 480-bit challenge, the answers of AnswerAllGnHonesty pass CheckAllGnHonesty (result 0); a wrong block n makes the check return the first wrong block's number.", "quantifier": "all bases, secrets, all 2^480 challenges", "why_tests_cant": "the challenge space cannot be enumerated", "anchors": ["primitive/fujiokam/FujiOkamCommitment.go: GenerateAllGnHonestyProof, AnswerAllGnHonesty, CheckAllGnHonesty"]}
{"id": "C11", "title": "Accepted generator proofs extract the discrete log", "statement": "If for one announced public value both a 0-challenge and a 1-challenge answer are accepted for a generator Gn, then Gn is a power of H1 with exponent the difference of the answers.", "quantifier": "all announced values, answers, generators", "why_tests_cant": "statement about all provers", "anchors": ["primitive/fujiokam/FujiOkamCommitment.go: CheckGnHonesty"]}
{"id": "C12", "title": "Answering generator challenges keeps the trapdoor secret", "statement": "A client that challenges the coordinator any number of times does not learn alpha_1..alpha_6, so commitments stay binding for clients.", "quantifier": "all challenge sequences", "why_tests_cant": "concerns what an adversarial sequence of requests reveals", "anchors": ["cmd/coordinator/CoordinatorHandler.go: handleGnHonestyChallenge", "cmd/coordinator/CoordinatorLauncher.go: initCoordinator", "primitive/fujiokam/FujiOkamCommitment.go: AnswerGnHonesty"]}
{"id": "C13", "title": "Honest equality arguments always verify", "statement": "For all x and openings such that PComm = GT^x HT^r (mod p) and FOComm = G1^x H1^s (mod N), ProveEqual's argument passes VerifyEqual, for every choice of randomness.", "quantifier": "all x, r, s, all randomness, all bases, every hash function", "why_tests_cant": "one literal is tested; reduction mod q on one side and integers of both signs on the other must agree", "anchors": ["primitive/pedersen_fujiokam/equality.go: ProveEqual, VerifyEqual"]}
{"id": "C14", "title": "Equality arguments are special-sound", "statement": "Two accepting equality arguments with the same first messages T1, T2 and different challenges determine one exponent difference that explains both commitments: GT^ds1 HT^ds2 = PComm^dc and G1^ds1 H1^ds3 = FOComm^dc.", "quantifier": "all pairs of accepting arguments", "why_tests_cant": "statement about all provers", "anchors": ["primitive/pedersen_fujiokam/equality.go: VerifyEqual"]}
{"id": "C15", "title": "Linkable ring signatures verify for every ring member", "statement": "For every ring size n >= 1, every signer position pi < n and key x with y[pi] = g^x, Sign's output passes Verify for the same message and ring, for every randomness.", "quantifier": "all ring sizes, positions, keys, messages, randomness, every hash function", "why_tests_cant": "tests use n = 2 and position 0 only", "anchors": ["primitive/lrs/LinkableRingSignature.go: Sign, SignHelper, Verify, VerifyHelper"]}
{"id": "C16", "title": "Ring signatures link exactly by signer", "statement": "Two signatures made by Sign over the same message and ring are Linkable if and only if they were made with the same key (mod the order of the subgroup), whatever the randomness; across different messages honest signatures carry tags over different bases.", "quantifier": "all rings, signers, messages, randomness", "why_tests_cant": "pairs of executions over all randomness", "anchors": ["primitive/lrs/LinkableRingSignature.go: SignHelper, Linkable"]}
{"id": "C17", "title": "Ring signatures cannot be produced without a ring key", "statement": "A signature that passes Verify for a ring was made by someone holding a secret key of that ring.", "quantifier": "all rings, messages and adversaries", "why_tests_cant": "adversarial inputs of any shape, including vectors longer than the ring", "anchors": ["primitive/lrs/LinkableRingSignature.go: VerifyHelper"]}
{"id": "C18", "title": "A ring member cannot evade linking", "statement": "Any two signatures that verify for the same message and ring and were produced with the same key are Linkable.", "quantifier": "all pairs of accepted signatures", "why_tests_cant": "adversarial encodings of the tag", "anchors": ["primitive/lrs/LinkableRingSignature.go: VerifyHelper, Linkable", "cmd/coordinator/Coordinator.go: IsLinkableRecord"]}
{"id": "C19", "title": "ElGamal signatures verify", "statement": "For every key x, base g, message and nonce, ElGamalVerify accepts ElGamalSign's output under public key g^x and base g (base g of the order-q subgroup); and a signature that does not decode or whose recomputed challenge differs is rejected.", "quantifier": "all keys, bases, messages, nonces, hash functions, all byte strings as signatures", "why_tests_cant": "all keys/messages", "anchors": ["util/Util.go: ElGamalSign, ElGamalVerify, hashElGamal"]}
{"id": "C20", "title": "Coordinator and server signatures cannot be forged", "statement": "A signature accepted under a server's or the coordinator's public key (in handleVote and in the client's handleGotSignatures) was made with the corresponding private key.", "quantifier": "all messages, keys, adversaries", "why_tests_cant": "concerns all adversarial signatures", "anchors": ["cmd/coordinator/Coordinator.go: SignMessage", "cmd/server/AnonServerHandler.go: handleSignAssignments", "cmd/coordinator/CoordinatorHandler.go: handleVote", "cmd/client/ClientHandler.go: handleGotSignatures"]}
{"id": "C21", "title": "Signing does not reveal private keys", "statement": "Publishing signatures on several messages does not allow anybody to compute the signer's private key.", "quantifier": "all keys, pairs of messages", "why_tests_cant": "relation between two executions for all keys", "anchors": ["cmd/client/ClientLauncher.go: postBridge, requestBridges, sendVote", "cmd/coordinator/Coordinator.go: SignMessage", "util/Util.go: ElGamalSign"]}
{"id": "C22", "title": "ElGamal decryption inverts encryption", "statement": "ElGamalDecrypt with the matching private key returns the encrypted point, for every point, key and ephemeral secret.", "quantifier": "all points, keys, ephemeral secrets", "why_tests_cant": "no test calls it", "anchors": ["util/Util.go: ElGamalEncrypt, ElGamalDecrypt"]}
{"id": "C23", "title": "Points and secrets survive encoding and invalid ones are rejected", "statement": "DecodePoint(EncodePoint(p)) = p for every group element and DecodePoint fails for exactly the byte strings that do not denote an element of the order-q subgroup; the same for secrets below q; PointToBigInt and BigIntToPoint are inverse on group elements.", "quantifier": "all group elements, all byte strings", "why_tests_cant": "infinite input space", "anchors": ["util/Util.go: EncodePoint, DecodePoint, EncodeSecret, DecodeSecret, PointToBigInt, BigIntToPoint", "primitive/fujiokam/residue.go: MarshalBinary, UnmarshalBinary, Valid"]}
{"id": "C24", "title": "IntToByte is a 4-byte big-endian encoding", "statement": "ByteToInt(IntToByte(n)) = n exactly for 0 <= n < 2^32; other ints are reduced modulo 2^32.", "quantifier": "all 64-bit ints", "why_tests_cant": "2^64 inputs; no test", "anchors": ["util/Util.go: IntToByte, ByteToInt"]}
{"id": "C25", "title": "The signature on a bridge request binds every field", "statement": "Two bridge requests with different contents have different signed messages.", "quantifier": "all pairs of requests", "why_tests_cant": "pairs over unbounded byte strings", "anchors": ["cmd/bridge/bridge.go: MessageOfRequestBridges"]}
{"id": "C26", "title": "The signature on a vote binds the feedback", "statement": "Two votes that differ only in their feedback have different signed messages, so nobody but the voter chooses the sign of a vote.", "quantifier": "all pairs of feedback values", "why_tests_cant": "pairs of ints; collision only for opposite signs", "anchors": ["cmd/bridge/bridge.go: MessageOfVote", "cmd/coordinator/CoordinatorHandler.go: handleVote"]}
{"id": "C27", "title": "Assignments survive encoding", "statement": "Decoding an encoded list of assignments gives back the same list, in order, for every list of any length.", "quantifier": "all lists of assignments", "why_tests_cant": "unbounded lists", "anchors": ["cmd/bridge/bridge.go: EncodeAssignmentList, DecodeAssignmentList, EncodeAssignment, DecodeAssignment"]}
{"id": "C28", "title": "An honest client with enough reputation is never refused", "statement": "If the client's commitment opens to (Reputation, R) under the current base then for every ind <= Reputation the request built by requestBridges passes the signature check and VerifyInd, at the coordinator and at every server.", "quantifier": "all reputations, ind, keys, randomness, bases", "why_tests_cant": "composition of four proof systems over all values", "anchors": ["cmd/client/ClientLauncher.go: requestBridges", "cmd/bridge/bridge.go: VerifyInd", "cmd/coordinator/CoordinatorHandler.go: handleRequestBridges", "cmd/server/AnonServerHandler.go: handleSignAssignments"]}
{"id": "C29", "title": "Only a client with reputation >= ind is served", "statement": "If VerifyInd accepts a request with indicator ind then the commitment of the requester hides a value >= ind.", "quantifier": "all requests and adversaries", "why_tests_cant": "absence of a bypass over all inputs", "anchors": ["cmd/bridge/bridge.go: VerifyInd"]}
{"id": "C30", "title": "Table lookups return the first matching entry", "statement": "FindIndexWithinKeyList returns the least index whose key equals nym or -1; FindIntUsingKeyList and FindCommUsingKeyList return the value at that index, or 0 / nil.", "quantifier": "all lists, all keys", "why_tests_cant": "unbounded lists", "anchors": ["util/Util.go: FindIndexWithinKeyList, FindIntUsingKeyList, FindCommUsingKeyList"]}
{"id": "C31", "title": "The shuffle permutation is a permutation", "statement": "For every k and every random stream the index vector drawn by Shuffle is a permutation of 0..k-1, and every permutation can be drawn.", "quantifier": "all k, all random streams", "why_tests_cant": "k! outcomes and all streams", "anchors": ["util/shuffle/pair.go: Shuffle"]}
{"id": "C32", "title": "Shuffle re-encrypts and permutes", "statement": "Shuffle's outputs are the inputs permuted and re-encrypted: each output pair decrypts to the input pair at the permuted index; subtracting the returned blinding (convertToOrigin) gives back exactly the permuted second components.", "quantifier": "all k, inputs, keys, blindings, permutations", "why_tests_cant": "unbounded lists and all randomness", "anchors": ["util/shuffle/pair.go: Shuffle", "cmd/server/AnonServerHandler.go: convertToOrigin, neffShuffle"]}
{"id": "C33", "title": "Reputations follow their keys through a shuffle", "statement": "After rebindReputation every key is paired with the commitment it had before the shuffle, provided keys are distinct.", "quantifier": "all tables and permutations", "why_tests_cant": "unbounded tables", "anchors": ["cmd/server/AnonServerHandler.go: rebindReputation"]}
{"id": "C34", "title": "Honest simple k-shuffle proofs verify", "statement": "For every k >= 2, every secret vectors x, y = gamma * permuted x, the transcript of SimpleShuffle.Prove is accepted by SimpleShuffle.Verify, for all randomness and challenges that do not hit a zero denominator.", "quantifier": "all k, vectors, challenges, randomness", "why_tests_cant": "all vector sizes; telescoping product over Z_q", "anchors": ["util/shuffle/simple.go: Prove, Verify, thenc, thver"]}
{"id": "C35", "title": "Honest pair-shuffle proofs verify", "statement": "For every k >= 2, permutation and inputs the proof produced by PairShuffle.Prove for Shuffle's outputs is accepted by PairShuffle.Verify, so an honest server never makes its neighbour panic.", "quantifier": "all k, permutations, inputs, randomness, challenges", "why_tests_cant": "tests run k = 10 once", "anchors": ["util/shuffle/pair.go: Prove, Verify, Shuffle, Verifier", "cmd/server/AnonServerHandler.go: verifyNeffShuffle"]}
{"id": "C36", "title": "An accepted pair shuffle is a permutation", "statement": "If PairShuffle.Verify accepts then the output pairs are re-encryptions of a permutation of the input pairs.", "quantifier": "all transcripts and provers", "why_tests_cant": "adversarial transcripts", "anchors": ["util/shuffle/pair.go: Verify"]}
{"id": "C37", "title": "The binary shuffle relation is exactly 'swap or not, re-encrypted'", "statement": "Biffle's outputs satisfy the proved predicate for the chosen bit, and any outputs satisfying the predicate are re-encryptions of the two inputs in one of the two orders.", "quantifier": "all inputs, blindings, both bits", "why_tests_cant": "all group elements", "anchors": ["util/shuffle/biffle.go: Biffle, bifflePred, bifflePoints"]}
{"id": "C38", "title": "A server only forwards tables covered by the verified shuffle", "statement": "If verifyNeffShuffle accepts an incoming message then the keys and commitments used by the server are those of the verified shuffle.", "quantifier": "all incoming messages", "why_tests_cant": "adversarial messages", "anchors": ["cmd/server/AnonServerHandler.go: verifyNeffShuffle, handleAnnouncement, handleRoundEnd"]}
{"id": "C39", "title": "Clients and servers compute the same pseudonym", "statement": "For any number of servers and any round keys, the key a client's public key becomes after passing through all servers equals g raised to the client's private key where g is the generator announced at the end of the same chain, independent of the order of the servers.", "quantifier": "all chains, round keys, private keys", "why_tests_cant": "all chain lengths and keys", "anchors": ["cmd/server/AnonServerHandler.go: handleAnnouncement, handleClientRegisterServerSide", "cmd/client/ClientHandler.go: handleInitPedersenR, handleAnnouncementFinalize"]}
{"id": "C40", "title": "The announcement chain preserves the reputation table", "statement": "After an announcement has passed through all servers, the table is a permutation of the original one with every key raised to the product of the round keys and every commitment to the product of the E's, and GT, HT are raised to the same product.", "quantifier": "all tables, chains, randomness, map iteration orders", "why_tests_cant": "unbounded tables and chains, nondeterministic map order", "anchors": ["cmd/server/AnonServerHandler.go: handleAnnouncement", "cmd/coordinator/CoordinatorLauncher.go: announce", "cmd/coordinator/CoordinatorHandler.go: handleAnnouncement"]}
{"id": "C41", "title": "A full round returns every client its own key and updated reputation", "statement": "After announcement, any mid-round activity and round end, the coordinator's table contains exactly the long-term keys of the previous table plus those registered in the round, each with a commitment that opens to its old value plus its reputation difference of the round.", "quantifier": "all tables, chains, votes, registrations, randomness, iteration orders", "why_tests_cant": "whole-system property over all histories of a round", "anchors": ["cmd/coordinator/CoordinatorLauncher.go: roundEnd, announce", "cmd/server/AnonServerHandler.go: handleRoundEnd, handleAnnouncement, handleClientRegisterServerSide", "cmd/coordinator/CoordinatorHandler.go: handleRoundEnd, handleAnnouncement, handleClientRegisterServerSide"]}
{"id": "C42", "title": "Clients can always open their commitment", "statement": "In every reachable quiescent state, after any number of rounds, the commitment stored for a client opens to the client's own Reputation and R under the current base.", "quantifier": "all histories of rounds, votes and registrations without overlap between a vote and a round change", "why_tests_cant": "unbounded histories", "anchors": ["cmd/client/ClientHandler.go: handleRoundEnd, handleBroadcastPedersenRDiff, handleInitPedersenR", "cmd/coordinator/CoordinatorLauncher.go: roundEnd", "cmd/coordinator/CoordinatorHandler.go: handleRoundEnd"]}
{"id": "C43", "title": "Votes and round change may interleave freely", "statement": "The agreement between a client's Reputation and its commitment holds for every schedule, also when a vote is handled between the start of round end and its completion.", "quantifier": "all schedules", "why_tests_cant": "a race between the launcher goroutine and the listener goroutine", "anchors": ["cmd/coordinator/CoordinatorLauncher.go: roundEnd", "cmd/coordinator/CoordinatorHandler.go: handleVote, handleRoundEnd"]}
{"id": "C44", "title": "All parties agree on g, GT and HT during a round", "statement": "After ANNOUNCEMENT_FINALIZE has been delivered the coordinator, every server and every client of the announced table hold the same g, GT and HT, the servers hold the coordinator's table, and each such client holds its own pseudonym and its entry of the table.", "quantifier": "all tables, numbers of servers and clients, all delivery orders", "why_tests_cant": "all delivery orders", "anchors": ["cmd/coordinator/CoordinatorHandler.go: handleAnnouncement", "cmd/server/AnonServerHandler.go: handleAnnouncementFinalize", "cmd/client/ClientHandler.go: handleAnnouncementFinalize"]}
{"id": "C45", "title": "A posted bridge is given out at most once", "statement": "In every history of events the number of times a bridge address is assigned is at most the number of accepted posts of it; so a bridge posted once is assigned to at most one requester in the round.", "quantifier": "all event histories including adversarial ones, all map iteration orders", "why_tests_cant": "unbounded histories, nondeterministic choice", "anchors": ["cmd/coordinator/Coordinator.go: AddBridge, GetBridge, GetBridges, AssignBridges", "cmd/coordinator/CoordinatorHandler.go: handlePostBridge, handleRequestBridges, handleGotSignatures"]}
{"id": "C46", "title": "A request gets exactly min(ind, free) distinct bridges", "statement": "An accepted request with indicator ind assigns exactly min(max(ind,0), number of unused bridges) distinct, previously unused, posted bridges with their provider's nym and the requester's nym, marks exactly these used and changes no other bridge.", "quantifier": "all bridge tables, ind, iteration orders", "why_tests_cant": "all table sizes and iteration orders", "anchors": ["cmd/coordinator/Coordinator.go: GetBridges, AssignBridges"]}
{"id": "C47", "title": "Assignments are released only with all signatures", "statement": "The coordinator sends an assignment to the requester only when it holds one signature of every server and its own.", "quantifier": "all histories of signature messages", "why_tests_cant": "all message orders, duplicates and replays", "anchors": ["cmd/coordinator/Coordinator.go: InitAssignmentSignatures, AddAssignmentSignature, FinishCollectingAssignmentSignatures", "cmd/coordinator/CoordinatorHandler.go: handleGotSignatures"]}
{"id": "C48", "title": "A client's reputation difference is the sum of the accepted votes", "statement": "At any time in a round the recorded difference of a nym is exactly the sum of the feedbacks of the votes accepted for it since the announcement, and no other event changes it.", "quantifier": "all event histories", "why_tests_cant": "unbounded histories", "anchors": ["cmd/coordinator/CoordinatorHandler.go: handleVote, handleAnnouncement, Handle"]}
{"id": "C49", "title": "A vote counts once, is +1 or -1, and comes from the requester", "statement": "Each assignment contributes at most one vote of +1 or -1, cast by the client it was assigned to.", "quantifier": "all histories, all voters", "why_tests_cant": "adversarial messages", "anchors": ["cmd/coordinator/CoordinatorHandler.go: handleVote", "cmd/client/ClientLauncher.go: sendVote"]}
{"id": "C50", "title": "One registration per client address", "statement": "After any sequence of registrations no two registered keys share an address and the latest registration of an address wins.", "quantifier": "all sequences of registrations, all map iteration orders", "why_tests_cant": "unbounded sequences", "anchors": ["cmd/coordinator/Coordinator.go: AddClient"]}
{"id": "C51", "title": "The server chain is correctly linked", "statement": "After any number of registrations and delivery of their messages in any order, server i's next hop is server i+1, the last one's is the coordinator, and previous hops are the converse.", "quantifier": "all numbers of servers, all delivery orders", "why_tests_cant": "delivery orders", "anchors": ["cmd/coordinator/CoordinatorHandler.go: handleServerRegister", "cmd/server/AnonServerHandler.go: handleServerRegisterReply, handleUpdateNextHop", "cmd/server/ServerLauncher.go: initAnonServer", "cmd/coordinator/Coordinator.go: AddServer, GetLastServerAddr, GetFirstServerAddr"]}
{"id": "C52", "title": "Unverified requests change nothing", "statement": "A post, request or vote whose signature or proof does not verify leaves the coordinator's state unchanged and sends nothing.", "quantifier": "all states, all messages", "why_tests_cant": "all states and messages", "anchors": ["cmd/coordinator/CoordinatorHandler.go: handlePostBridge, handleRequestBridges, handleVote"]}
{"id": "C53", "title": "No client message stops the coordinator", "statement": "Every message a client can send is handled without terminating the coordinator process.", "quantifier": "all messages in all states", "why_tests_cant": "all inputs; a panic in the listener goroutine kills the process", "anchors": ["cmd/coordinator/CoordinatorHandler.go: Handle and all handlers", "util/Util.go: CheckErr, DecodePoint"]}
{"id": "C54", "title": "Clients may register at any time and start with the starting credit", "statement": "A client may register at any moment after the servers are configured; after the next round end it is in the table with a commitment to StartingCredit that it can open.", "quantifier": "all registration times, all chains", "why_tests_cant": "depends on schedule relative to the round phases", "anchors": ["cmd/coordinator/CoordinatorHandler.go: handleClientRegisterControllerSide, handleClientRegisterServerSide", "cmd/coordinator/CoordinatorLauncher.go: clearBuffer, roundEnd"]}
{"id": "C55", "title": "Registering does not affect other clients", "statement": "A registration never changes the commitment of an already registered client.", "quantifier": "all states and registrations", "why_tests_cant": "adversarial re-use of a public key", "anchors": ["cmd/coordinator/CoordinatorHandler.go: handleClientRegisterControllerSide, handleClientRegisterServerSide", "cmd/coordinator/CoordinatorLauncher.go: roundEnd", "cmd/coordinator/Coordinator.go: AddIntoEndingMap"]}
{"id": "C56", "title": "Reputation is only created by registration and votes", "statement": "Table entries and base parameters are only changed on behalf of the servers of the chain.", "quantifier": "all senders and messages", "why_tests_cant": "no sender check anywhere: concerns all adversaries", "anchors": ["cmd/coordinator/CoordinatorHandler.go: Handle, handleClientRegisterServerSide, handleAnnouncement, handleRoundEnd, handleUpdatePedersenH"]}
{"id": "C57", "title": "Bridges and votes are only accepted in their phase", "statement": "Votes are accepted only in the voting phase and posts and requests only in the posting phase.", "quantifier": "all states", "why_tests_cant": "all schedules", "anchors": ["cmd/coordinator/CoordinatorHandler.go: Handle, handlePostBridge, handleVote", "cmd/coordinator/CoordinatorStatus.go"]}
{"id": "C58", "title": "A vote's tag is recorded and recognised", "statement": "IsLinkableRecord returns true exactly for tags added since the last ClearVoteRecords.", "quantifier": "all sequences of operations", "why_tests_cant": "unbounded sequences", "anchors": ["cmd/coordinator/Coordinator.go: ClearVoteRecords, IsLinkableRecord, AddToVoteRecords"]}
{"id": "C59", "title": "Configuration files are read as key=value lines", "statement": "Every key in the result maps to the text between the first and second '=' of the last line with that key, local properties overriding connection properties in ReadConfig; a line without '=' panics.", "quantifier": "all file contents", "why_tests_cant": "unbounded files", "anchors": ["util/ConfigReader.go: ReadConfig, readConfig, GetParameter"]}
{"id": "C60", "title": "Only the addressed handler acts on an event", "statement": "An event is handled by the handler of its type only; unrecognised event types change nothing at coordinator, servers and clients.", "quantifier": "all event types (all ints), all states", "why_tests_cant": "all ints", "anchors": ["cmd/coordinator/CoordinatorHandler.go: Handle", "cmd/server/AnonServerHandler.go: Handle", "cmd/client/ClientHandler.go: Handle", "proto/EventType.go"]}
{"id": "C61", "title": "A request of a client in the table is served to the end", "statement": "Once a round's announcement has reached everybody, a client of the table that asks for ind bridges, ind at most its reputation, builds a request; whenever in that round the coordinator handles it, it assigns exactly min(max(ind,0), unused) distinct unused bridges and asks every server to sign them; and whenever in that round a server handles that message, it signs each of them.", "quantifier": "all reachable states of the whole system, all clients of the table, all ind, all random draws, all later schedules of the round", "why_tests_cant": "ranges over all schedules between the request, its handling and the signing, and over all histories before", "anchors": ["cmd/client/ClientLauncher.go: requestBridges", "cmd/coordinator/CoordinatorHandler.go: handleRequestBridges", "cmd/server/AnonServerHandler.go: handleSignAssignments", "cmd/bridge/bridge.go: VerifyInd"]}
{"id": "C62", "title": "A server signs exactly what it has verified itself", "statement": "A server asked by anybody to sign assignments reports success and signs if and only if the request's proofs verify against the same table and bases the coordinator uses; a refusal carries no signature; a success carries one signature per assignment made with the key the coordinator knows for that server.", "quantifier": "all reachable states in an open round, all messages from any sender, all servers", "why_tests_cant": "all messages and all histories", "anchors": ["cmd/server/AnonServerHandler.go: handleSignAssignments", "cmd/bridge/bridge.go: VerifyInd", "util/Util.go: ElGamalSign"]}
{"id": "C63", "title": "Every assignment a client holds bears the signatures of all servers", "statement": "In a session of honest parties, every assignment a client has stored, and every assignment on its way to a client, comes with exactly one signature of every server, in the coordinator's order and made with the key the coordinator knows for it, and one of the coordinator.", "quantifier": "all schedules of the whole system, all clients, all assignments, all rounds", "why_tests_cant": "the count of collected signatures goes wrong only in particular interleavings of posting, requesting and answering", "anchors": ["cmd/coordinator/CoordinatorHandler.go: handleGotSignatures, handleRequestBridges, handlePostBridge", "cmd/coordinator/Coordinator.go: AddAssignmentSignature", "cmd/server/AnonServerHandler.go: handleSignAssignments", "cmd/client/ClientHandler.go: handleGotSignatures"]}
{"id": "C64", "title": "A vote of a client of the table is counted", "statement": "In a round whose announcement has reached everybody, a client of the table that holds an assignment and votes on it changes the score of the pseudonym that posted the bridge by +1 or -1, whenever in that round the coordinator handles the vote, and changes nothing else.", "quantifier": "all reachable states, all clients and assignments, all later schedules of the round", "why_tests_cant": "ranges over all histories before and all schedules between the vote and its handling", "anchors": ["cmd/client/ClientLauncher.go: sendVote", "cmd/coordinator/CoordinatorHandler.go: handleVote"]}
{"id": "C65", "title": "Honest sessions never stop a party", "statement": "In a session of honest parties every message that is on its way is handled by its receiver without the process stopping.", "quantifier": "all schedules of the whole system, all messages in flight", "why_tests_cant": "a panic shows only in particular interleavings, such as a delivery delayed past the end of a round", "anchors": ["cmd/coordinator/CoordinatorHandler.go: Handle, handleRoundEnd, handleVote", "cmd/server/AnonServerHandler.go: Handle", "cmd/client/ClientHandler.go: Handle"]}
{"id": "C66", "title": "Every schedule gets a round opened and closed", "statement": "Whatever order messages are delivered in, a round that is started opens after a fixed number of deliveries of round messages (two per server, one per registered client, and one) and a round that is ended closes after a fixed number (one per server, two per client, and one); clients that join meanwhile cost a fixed number each (the number of servers and three); nobody stops on the way, and when no round message is left the round is open, respectively over.", "quantifier": "all reachable states, all numbers of servers and clients, all delivery orders and all draws that finish the shuffle proofs", "why_tests_cant": "termination and absence of deadlock over all interleavings; a test sees one order", "anchors": ["cmd/coordinator/CoordinatorLauncher.go: announce, roundEnd", "cmd/coordinator/CoordinatorHandler.go: handleAnnouncement, handleRoundEnd, handleClientRegisterControllerSide", "cmd/server/AnonServerHandler.go: handleAnnouncement, handleRoundEnd, handleClientRegisterServerSide", "cmd/client/ClientHandler.go: handleAnnouncementFinalize, handleRoundEnd"]}
{"id": "C67", "title": "The role argument starts that role", "statement": "Started with one argument that names a role, by name or by number, the program starts that role; with any other single argument it starts a coordinator, and without exactly one argument it starts nothing.", "quantifier": "all argument lists", "why_tests_cant": "the default branch ranges over all strings", "anchors": ["cmd/main.go: main"]}
{"id": "C68", "title": "A console line does what it says, and an ill-formed one does nothing", "statement": "A line of the client's console whose first word is post, get or vote and which is followed by an address or by decimal numbers (of 64 bits) carries out that command with exactly those arguments, exit leaves the loop, and any other line changes nothing and does not stop the client.", "quantifier": "all lines, all addresses without spaces, all numbers", "why_tests_cant": "infinitely many lines, including malformed ones", "anchors": ["cmd/client/ClientLauncher.go: Launch"]}
{"id": "C69", "title": "One input line is one command", "statement": "The client's console executes the lines of its input one after the other, each as one command, until a line exits or stops it.", "quantifier": "all inputs, all line lengths", "why_tests_cant": "line lengths are unbounded and the reader's buffer is not", "anchors": ["cmd/client/ClientLauncher.go: Launch"]}
{"id": "C70", "title": "Servers of one machine listen on different ports", "statement": "Servers started one after the other on a machine with the same configuration listen on different free ports among the eleven from the configured one; if these are free, exactly eleven servers can be started.", "quantifier": "all configured ports, all sets of taken ports, all numbers of servers", "why_tests_cant": "ranges over all sets of ports in use", "anchors": ["cmd/server/ServerLauncher.go: Launch"]}
{"id": "C71", "title": "An assigned bridge reaches the client that asked for it", "statement": "When a client of a round requests bridges and the coordinator takes bridges for it, then, as long as the round lasts and nobody else requests under the client's pseudonym, every taken bridge ends up with that client, signed by all servers and the coordinator, once the messages of the signing protocol have been delivered, in whatever order.", "quantifier": "all topologies, all schedules of deliveries and commands within the round, all numbers of servers, clients and bridges", "why_tests_cant": "ranges over all interleavings of the signing messages of any number of concurrent requests", "anchors": ["cmd/coordinator/CoordinatorHandler.go: handleRequestBridges, handleGotSignatures", "cmd/server/AnonServerHandler.go: handleSignAssignments", "cmd/client/ClientHandler.go: handleGotSignatures"]}
{"id": "C72", "title": "An orderly session never stops a process", "statement": "If users enter commands only in a round whose announcement has reached everybody and in whose table they are, and the coordinator ends a round only when no post, request, signing or vote message of it is on its way, then whatever message is delivered next, whatever the coordinator's loop starts next and whatever such command is entered next, the process that handles it goes on; the check of the coordinator's generators that every joining client makes succeeds, and every round that is ended gets over.", "quantifier": "all sessions of any length with any number of servers, clients, bridges, requests and votes, all delivery orders, all random draws that finish the shuffle proofs", "why_tests_cant": "a panic of any of three kinds of processes shows only in particular interleavings of an unbounded history", "anchors": ["cmd/coordinator/CoordinatorHandler.go: Handle", "cmd/coordinator/CoordinatorLauncher.go: Launch", "cmd/server/AnonServerHandler.go: Handle", "cmd/client/ClientHandler.go: Handle", "cmd/client/ClientLauncher.go: postBridge, requestBridges, sendVote"]}
{"id": "C73", "title": "A simple k-shuffle proof convinces only for shuffles", "statement": "Whoever makes the simple k-shuffle's verifier accept lists X and Y of group elements with base G and Gamma = G^gamma has Y equal to the list of the x^gamma in some order, except with luck: for lists that are not such a shuffle there are fewer than k values of the first challenge t at which any prover, however it computes, has answers to two different second challenges c for one commitment; answers to two challenges at k values of t prove the shuffle.", "quantifier": "all groups of prime order, all lists of any length k, all provers, all challenge functions and transcripts", "why_tests_cant": "ranges over all possible cheating provers and all challenge functions; a test can only try particular false proofs", "anchors": ["util/shuffle/simple.go: SimpleShuffle.Verify, thver"]}
{"id": "C74", "title": "A client's reputation is the starting credit plus the votes on its bridges", "statement": "In an orderly session, once a round is over and its messages have been handled, every client's reputation is the starting credit of 5 plus the sum of all +1 and -1 votes entered so far, in any round and by any client, on assignments that name the client's pseudonym of that round; the R the client holds opens the coordinator's stored commitment to exactly this number. While a round is open the difference is exactly what the coordinator has counted in this round and what is still on its way. An orderly session is one as in C72 in which no bridge is posted while signatures on it are on their way; if a round may end with a vote on its way, that vote is lost.", "quantifier": "all orderly sessions with any number of rounds, servers, clients, requests and fewer than 2^61 votes, all delivery orders and all random draws", "why_tests_cant": "accounting over an unbounded history of rounds, pseudonyms, shuffles and interleavings", "anchors": ["cmd/client/ClientLauncher.go: sendVote", "cmd/coordinator/CoordinatorHandler.go: handleVote, handleRoundEnd", "cmd/client/ClientHandler.go: handleRoundEnd, handleGotSignatures", "cmd/coordinator/CoordinatorLauncher.go: roundEnd, announce"]}
{"id": "C75", "title": "A bridge is credited to the client that posted it", "statement": "In an orderly session every assignment a client holds in an open round names the pseudonym of a client whose user posted exactly this bridge address in this round, and of no other client; the bridges the coordinator can still hand out are all posted in this round. If no address is posted by two clients in the same round, then once a round is over every client's reputation is 5 plus the sum of all +1 and -1 votes ever entered on bridges that this client had posted. (If two clients post the same address, the one whose post arrives last takes the credit.)", "quantifier": "all orderly sessions with any number of rounds, servers, clients, bridges, requests and votes, all delivery orders and random draws", "why_tests_cant": "a wrong attribution shows only for particular interleavings of posts, requests, signatures and rounds", "anchors": ["cmd/client/ClientLauncher.go: postBridge, sendVote", "cmd/coordinator/CoordinatorHandler.go: handlePostBridge, handleRequestBridges, handleGotSignatures, handleVote", "cmd/server/AnonServerHandler.go: handleSignAssignments", "cmd/client/ClientHandler.go: handleGotSignatures"]}
{"id": "C76", "title": "A command entered while messages arrive acts as if entered between two of them", "statement": "A client has two goroutines: the console, which reads the client's data while it builds a post, a request or a vote, and the listener, which changes them while it handles messages. Whatever the interleaving, a command sends what it would have sent if it had been entered after some of the arriving messages had been handled and before the others had been started. (This fails: a request that straddles the end of a round which lowers the reputation stops the client, and a post that straddles the announcement carries the old pseudonym with a signature on the new base; it holds for every interleaving with messages of all other kinds.)", "quantifier": "all clients, all lists of messages handled meanwhile, all commands, every interleaving of the command's reads with the handlers' writes", "why_tests_cant": "the outcome depends on where between two reads of one field a handler of another goroutine writes; a test run sees one interleaving", "anchors": ["cmd/client/ClientLauncher.go:Launch,startClientListener,postBridge,requestBridges,sendVote", "cmd/client/ClientHandler.go:Handle"]}
{"id": "C77", "title": "A listener hands over whole messages, each once, in the order of their connections", "statement": "Whatever the sizes and the moments in which the bytes of several connections arrive, a process hands to its handler exactly the complete content of the connections, in the order in which they were established, each once and only after its sender has closed it. If every connection carries one encoded event and is closed, and the handlers do not fail, all events are handled and the process ends in the state in which they leave it one after the other.", "quantifier": "all numbers of connections, all contents, all ways to cut them into segments, all interleavings of arrivals with the listener's loop", "why_tests_cant": "local tests deliver small messages in one segment and one at a time; the claim is about every fragmentation and interleaving", "anchors": ["cmd/client/ClientLauncher.go:startClientListener", "cmd/server/ServerLauncher.go:startAnonServerListener", "cmd/coordinator/CoordinatorLauncher.go:startServerListener", "util/Util.go:SendEvent,DecodeEvent"]}
{"id": "C78", "title": "One peer cannot keep a process from handling the messages of the others", "statement": "A message that has been sent completely is handled eventually, whatever other peers do with their connections. (This fails: connections are read one after the other to their end without a time limit, so a peer that connects and stays silent blocks the process for ever; a connection that is reset, closed without content, or carries anything but an event stops it.)", "quantifier": "all states of a listening process, all peers, everything that arrives later", "why_tests_cant": "that nothing is ever handled again is a statement about all continuations", "anchors": ["cmd/client/ClientLauncher.go:startClientListener", "cmd/server/ServerLauncher.go:startAnonServerListener", "cmd/coordinator/CoordinatorLauncher.go:startServerListener", "util/Util.go:DecodeEvent,CheckErr"]}
{"id": "C79", "title": "Only the coordinator changes what a client holds", "statement": "A client's keys never change; its reputation changes only by what a round-end message lists for its pseudonym; it takes an assignment only with a signature that verifies against the coordinator's key; every other field changes only with the messages meant for it; and all these messages take effect only if the coordinator sent them. (The last part fails: a client does not look at the sender, and the coordinator's signature is checked with a base that anybody can sign for; so any peer can set a client's opening and reputation, give it assignments, or stop it.)", "quantifier": "all clients, all messages, all reachable system states, all senders", "why_tests_cant": "it ranges over every message an arbitrary peer can construct in every state", "anchors": ["cmd/client/ClientHandler.go:Handle,handleInitPedersenR,handleRoundEnd,handleGotSignatures,handleAnnouncementFinalize", "util/Util.go:DecodeEvent,ElGamalVerify"]}
{"id": "C80", "title": "The coordinator cannot tell which client is behind a pseudonym", "statement": "When a client posts, requests or votes under its pseudonym, the coordinator cannot compute from what it holds and from the message which registered long-term key sent it. (This fails: the messages carry the sender's address, clients listen on one address for their whole life, and the coordinator keeps the map from long-term keys to addresses.)", "quantifier": "all reachable states with an open round, all clients, all commands", "why_tests_cant": "unlinkability is a statement about every function of the observer's view over all executions", "anchors": ["util/Util.go:SendEvent", "cmd/coordinator/Coordinator.go:AddClient,Clients", "cmd/client/ClientLauncher.go:postBridge,requestBridges,sendVote"]}
{"id": "C81", "title": "Nobody who sees a client's messages learns its key or its other pseudonyms", "statement": "From a message a client sends nobody can compute the client's private key, so the message cannot be linked to the pseudonyms of other rounds, and nobody can act in its name. (This fails: every signature uses the same known nonce, so one message of any kind yields the private key and with it the pseudonym of every earlier and later round; the answers a client gives in handlers do not depend on the private key.)", "quantifier": "all clients, all commands, all reachable states, all rounds before and after", "why_tests_cant": "it quantifies over all functions of a message and over all keys and histories", "anchors": ["util/Util.go:ElGamalSign", "cmd/client/ClientLauncher.go:postBridge,requestBridges,sendVote", "cmd/client/ClientHandler.go:Handle"]}
{"id": "C82", "title": "The coordinator learns neither reputation nor pseudonym of a client that stays silent", "statement": "A coordinator that follows the protocol cannot compute, from its own state, the events it handles and its own random draws, which pseudonym of the running round belongs to a registered client and what reputation it has; that is what the servers' shuffle is for. (This fails: the coordinator draws the blinding of every commitment, at registration and at each round end, and the shuffle keeps the openings; so it recognises every commitment in the shuffled table, adds the votes to its notes, and knows reputation and pseudonym of every client in every round.)", "quantifier": "all sessions in which no two commitments of a round coincide, all clients, all rounds", "why_tests_cant": "it ranges over all ways of keeping notes and all histories", "anchors": ["cmd/coordinator/CoordinatorHandler.go:handleClientRegisterControllerSide,handleAnnouncement", "cmd/coordinator/CoordinatorLauncher.go:roundEnd,announce", "cmd/server/AnonServerHandler.go:handleAnnouncement"]}
{"id": "C83", "title": "A request tells nothing about the client's openings", "statement": "From a bridge request nobody can narrow down the blinding of the client's commitment or of the commitment to the difference between reputation and ind. (This fails: the responses are integers, blinding times challenge plus a mask that is shorter than that product, so dividing by the challenge leaves at most Q/c+1 blindings, with the program's sizes 2^257 of 2^511; the response for the value itself is masked for all but few draws.)", "quantifier": "all clients, all indicators, all draws in the ranges the code uses", "why_tests_cant": "it is a statement about all draws and all functions of a message", "anchors": ["primitive/pedersen_fujiokam/equality.go:ProveEqual", "cmd/client/ClientLauncher.go:requestBridges"]}
{"id": "C84", "title": "Data embedded in a point can be read back", "statement": "Whenever picking a point with data embedded succeeds, the point is a valid group element, reading its data returns as much of the data as fits into one point, and what is left over is exactly the remaining bytes; so a message of any length can be spread over several points and put together again. Reading the data of a group element never runs out of a slice, and negating a point gives its inverse.", "quantifier": "all groups in which a length of 16 bits is enough, all data, all sequences of random candidates", "why_tests_cant": "it ranges over all data and all random draws", "anchors": ["primitive/fujiokam/residue.go:PickLen,Pick,Data,Neg"]}
{"id": "C85", "title": "A client that leaves does not stop the others", "statement": "When the process of a registered client ends, the coordinator and the other clients can finish the round and start new ones without it. (This fails: clients are never removed from the list and every phase change dials each of them, so from the moment a registered client has left, every step that would start the voting, end the round or open the next one stops the coordinator; whatever else happens, the round stands still. Processes that are not among the coordinator's addressees can leave without harm, and clients dial nobody but the coordinator.)", "quantifier": "all coordinator states with a server, all registered clients, all later messages (of any sender and content) and loop steps in which nobody registers with a public key in use", "why_tests_cant": "it ranges over all courses of events after the client has left", "anchors": ["util/Util.go:SendEvent,CheckErr", "cmd/coordinator/CoordinatorLauncher.go:vote,roundEnd", "cmd/coordinator/CoordinatorHandler.go:handleAnnouncement,handleRoundEnd", "cmd/coordinator/Coordinator.go:AddClient"]}
{"id": "C86", "title": "Messages handled during a step of the coordinator's main loop act before or after it", "statement": "The coordinator's main loop and its listener share the coordinator without locks. Whatever messages the listener handles while the main loop starts a round, starts the voting, ends a round or broadcasts h, the outcome (state, messages sent, or a stop) is one that arises when some of them are handled before the step and the others after it. In particular a vote handled in the middle of the end of a round is counted wholly in the table sent or wholly kept. (This holds for all messages except registrations of servers, contributions to h, ANNOUNCEMENT and ROUND_END, provided that at the end of a round no request is made under the key of a client that is just registering. With the others it fails: a server that registers while the operator presses ENTER is told the h to which the first server has contributed and is then sent the one before.)", "quantifier": "all coordinator states, all steps of the main loop, all draws and iteration orders, all lists of messages of any sender and content, all interleavings of their handling with the reads, writes and sends of the step", "why_tests_cant": "the number of interleavings grows with the messages and the size of the table, and the racing ones are rare", "anchors": ["cmd/coordinator/CoordinatorLauncher.go:Launch,startServerListener,configCommParams,clearBuffer,announce,roundEnd,vote", "cmd/coordinator/CoordinatorHandler.go:Handle"]}
{"id": "C87", "title": "Reputation rations bridges", "statement": "A client is given at most as many bridges in a round as it has reputation. (What holds is the bound for one request: the unmodified client asks for at most its reputation, and whenever that request is handled it takes no more. But requests do not use reputation up and are not counted, so a client of the table that repeats its request is given every bridge that is left.)", "quantifier": "all reachable states, clients, numbers asked for, draws and moments at which a request is handled; all numbers of repeated requests", "why_tests_cant": "a bound on a whole round needs all histories of requests in it, and the number of requests is unbounded", "anchors": ["cmd/client/ClientLauncher.go:requestBridges", "cmd/coordinator/CoordinatorHandler.go:handleRequestBridges", "cmd/coordinator/Coordinator.go:AssignBridges,GetBridge"]}
{"id": "C88", "title": "Bridges go only to the client that asked for them", "statement": "The bridges assigned to a pseudonym are sent only to the client that owns the pseudonym. (What holds is that every assignment goes to the address from which the latest valid request of that pseudonym in this round came, and that there is only one such address. But a request carries nothing that ties it to its sender or to a moment: whoever has recorded one can send it again from any address, is accepted, and is sent everything for that pseudonym from then on, including what the client had already asked for.)", "quantifier": "all histories of the coordinator, all requests, senders, orders of the bridge table and later steps of the round", "why_tests_cant": "who is sent an assignment depends on the whole sequence of requests before the servers answer", "anchors": ["cmd/coordinator/CoordinatorHandler.go:handleRequestBridges,handleGotSigns", "cmd/coordinator/Coordinator.go:RequesterAddrs"]}
{"id": "C89", "title": "Unknown fields of a message are ignored", "statement": "Reading a list of points, of secrets or of booleans, or an assignment, gives the same whether or not fields with other numbers stand before, between or after the fields the reader knows, whatever their wire type; a list of points is accepted exactly when each of its own fields is a byte string that denotes a group element, and its value is those elements in order.", "quantifier": "all messages made of varint, 64-bit, length-delimited and 32-bit fields, in any number and order", "why_tests_cant": "there are infinitely many messages with extra fields", "anchors": ["util/Util.go:ProtobufDecodePointList,ProtobufDecodeSecretList,ProtobufDecodeBoolList", "cmd/bridge/bridge.go:DecodeAssignment"]}
{"id": "C90", "title": "The servers' shuffles hide which long-term key became which pseudonym", "statement": "Somebody who sees the messages between the coordinator and the servers (everybody on the network; or, when there is only one server, the coordinator, from what it sends and receives itself), and who can decode and compare the keys in them but does no arithmetic on them, cannot tell which pseudonym of a round belongs to which client's long-term key.", "quantifier": "all sessions, schedules, server counts, tables, permutations and other random draws; all ways of keeping notes that treat keys as names", "why_tests_cant": "a test can look at one shuffle; that every shuffle in every session can be undone from the messages holds for all draws", "anchors": ["cmd/server/AnonServerHandler.go:handleAnnouncement,neffShuffle,convertToOrigin,rebindReputation", "cmd/coordinator/CoordinatorLauncher.go:announce", "cmd/coordinator/CoordinatorHandler.go:handleAnnouncement", "util/Util.go:SendEvent"]}
{"id": "C91", "title": "The coordinator's goroutines do not race on its fields", "statement": "While the coordinator's main loop configures the servers, starts a round, starts the vote or ends a round, its listener may handle any message in flight: the two goroutines never use the same field of the coordinator at once with one of them writing it (if the field is a map, Go's runtime stops the process).", "quantifier": "all sessions of honest processes, steps of the main loop, moments within a step, and messages in flight", "why_tests_cant": "a race shows only under some timings, and a test sees the timings it happens to get", "anchors": ["cmd/coordinator/CoordinatorLauncher.go:Launch,startServerListener,vote,roundEnd,announce,clearBuffer,configCommParams", "cmd/coordinator/CoordinatorHandler.go:Handle", "cmd/coordinator/Coordinator.go:Coordinator,AddClient"]}
{"id": "C92", "title": "A server that is started again takes its place again", "statement": "When a server process is stopped and started again with the same configuration while the system is at rest, and its registration has been answered, the service goes on: the next round can be begun, carried through by all servers, and closed.", "quantifier": "all sessions of honest processes, moments at which nothing is in flight, servers of the chain, keys the restarted server picks, delivery orders of the messages of its registration, and all later runs", "why_tests_cant": "it is about every run after a restart at any point of any session; that no schedule closes a round cannot be seen by running some", "anchors": ["cmd/server/ServerLauncher.go:initAnonServer,serverRegister,Launch", "cmd/coordinator/CoordinatorHandler.go:handleServerRegister", "cmd/coordinator/Coordinator.go:AddServer,GetLastServerAddr,GetFirstServerAddr", "cmd/server/AnonServerHandler.go:handleServerRegisterReply,handleUpdateNextHop,handleRoundEnd,handleAnnouncement"]}
{"id": "C93", "title": "A coordinator that is started again takes up the session", "statement": "When the coordinator process is stopped and started again with the same configuration while the system is at rest, the servers and clients that are still running take part in its rounds again: a client of the table gets an announcement and keeps its reputation.", "quantifier": "all sessions of honest processes, moments at which nothing is in flight, keys and parameters the restarted coordinator picks, and all later runs, with any further servers and clients", "why_tests_cant": "it is about every run after a restart at any point of any session; that no schedule brings the old participants back cannot be seen by running some", "anchors": ["cmd/coordinator/CoordinatorLauncher.go:initCoordinator,Launch", "cmd/coordinator/Coordinator.go:AddClient,AddServer", "cmd/coordinator/CoordinatorHandler.go:handleServerRegister,handleClientRegisterControllerSide,handleGotSignatures", "cmd/client/ClientLauncher.go:register", "cmd/server/ServerLauncher.go:serverRegister"]}
{"id": "C94", "title": "A server may be started while the service is running", "statement": "When a further server is started and registers while the service is running and nothing is in flight, nothing that the clients rely on changes: the commitment the coordinator stores for a client still opens to the client's reputation and blinding, and a round that is open can still be closed.", "quantifier": "all sessions of honest processes, moments at which nothing is in flight, keys and secrets the new server draws, orders in which its registration is delivered, and all later runs", "why_tests_cant": "it is about every session, every secret the new server may draw and every later schedule; that no later run closes the open round cannot be seen by running some", "anchors": ["cmd/server/ServerLauncher.go:serverRegister", "cmd/server/AnonServerHandler.go:handleServerRegisterReply,handleRoundEnd,handleUpdateNextHop", "cmd/coordinator/CoordinatorHandler.go:handleServerRegister,handleUpdatePedersenH,handleRequestBridges", "cmd/bridge/bridge.go:VerifyInd"]}
{"id": "C95", "title": "Only a client of the round can put a bridge on offer, and it stays that client's", "statement": "Every bridge on offer was posted by a pseudonym that takes part in the service, and while a bridge is on offer no message changes whose it is.", "quantifier": "all message histories of the coordinator, senders, keys, addresses and orders of Go's map iteration", "why_tests_cant": "an outsider's messages can be interleaved with any history and sent with any key; which bridge a request gets depends on the order of a map iteration that a test cannot choose", "anchors": ["cmd/coordinator/CoordinatorHandler.go:handlePostBridge,handleRequestBridges", "cmd/coordinator/Coordinator.go:AddBridge,GetBridge,GetBridges"]}
{"id": "C96", "title": "A recorded message does nothing when it is sent again", "statement": "A post, request or vote that the coordinator has handled takes no further effect when somebody who recorded it sends it again, in the same round or a later one; in particular a bridge that was posted once is given out at most once.", "quantifier": "all message histories of the coordinator, recorded messages, numbers of repetitions, senders and generators of the two rounds", "why_tests_cant": "the recorded message may be sent at any later point of any history and any number of times; whether it verifies under another generator depends on a hash", "anchors": ["cmd/coordinator/CoordinatorHandler.go:handlePostBridge,handleRequestBridges,handleVote", "cmd/coordinator/Coordinator.go:AddBridge", "util/Util.go:ElGamalVerify"]}
{"id": "C97", "title": "A posted bridge stays on offer until it is given out", "statement": "Once the coordinator has accepted a post, the bridge is available to requests until one of them gets it; no other event takes it off offer.", "quantifier": "all message histories of the coordinator, all bridges on offer at any point of them, all next steps and continuations, all map iteration orders", "why_tests_cant": "the post can be followed by any sequence of messages and round changes, and Go picks any order of iteration when it gives bridges out", "anchors": ["cmd/coordinator/Coordinator.go:AddBridge,GetBridge,ClearBridges", "cmd/coordinator/CoordinatorHandler.go:handlePostBridge,handleRequestBridges,handleGotSignatures", "cmd/coordinator/CoordinatorLauncher.go:roundEnd"]}
{"id": "C98", "title": "Reputation has to be earned from other clients", "statement": "A client rises above the starting credit only by votes of other clients, and a client with fewer votes than a newcomer gains nothing by joining again under a new key: reputation comes from others and cannot be reset.", "quantifier": "all honest sessions with any number of servers, clients and rounds, all votes, all points at which a round is over and its messages are handled, all numbers of votes on one assignment", "why_tests_cant": "it is a balance over whole sessions with any number of clients and votes; the attack works for every number of votes", "anchors": ["cmd/client/ClientLauncher.go:sendVote,requestBridges", "cmd/coordinator/CoordinatorHandler.go:handleVote", "cmd/coordinator/Coordinator.go:GetBridge", "cmd/client/ClientHandler.go:handleRoundEnd"]}
{"id": "C99", "title": "A server takes orders from its coordinator and its neighbours only", "statement": "What a server holds - its place in the chain, its round key, its table of pseudonyms, the table and bases it checks requests with - changes only through messages of its coordinator and of the servers of the chain; a peer outside can neither change nor read it.", "quantifier": "all states of a server, all senders, all messages; for the effect on the service all reachable states of the whole system with nothing in flight, any number of servers, all draws", "why_tests_cant": "any peer can send any message at any time; the effect of one message on a chain of any length and with any draws is a statement about all sessions", "anchors": ["cmd/server/AnonServerHandler.go:Handle,handleUpdateNextHop,handleRoundEnd,handleServerRegisterReply,handleAnnouncementFinalize,verifyNeffShuffle", "cmd/coordinator/CoordinatorHandler.go:handleRoundEnd"]}
{"id": "C100", "title": "The service outlives the end of one of its processes", "statement": "When one server, or the coordinator, ends, at whatever moment, the others go on: rounds are opened and closed, new clients are taken in, and no other process ends because of it.", "quantifier": "all reachable states of the whole system in which no table has passed the server, any number of servers and clients, all continuations, in which further processes may end at any moment, also between two sends of one step", "why_tests_cant": "a crash can come at any point of any session, also between two sends, and the claim is about everything that can happen afterwards", "anchors": ["util/Util.go:SendEvent,CheckErr", "cmd/server/AnonServerHandler.go:handleAnnouncement,handleRoundEnd,handleClientRegisterServerSide", "cmd/coordinator/CoordinatorHandler.go:handleAnnouncement,handleRequestBridges,handlePostBridge,handleVote", "cmd/coordinator/CoordinatorLauncher.go:announce,roundEnd"]}
{"id": "C101", "title": "A bridge on offer belongs to a pseudonym of the round", "statement": "While a round is open, every bridge on offer was posted under a pseudonym of that round, so that a vote on it can be credited.", "quantifier": "all sessions of honest parties with any delivery order; all histories of the coordinator", "why_tests_cant": "shows only when a post is delivered between the end of one round and the announcement of the next", "anchors": ["cmd/coordinator/CoordinatorHandler.go:handlePostBridge,handleVote,handleRoundEnd,handleAnnouncement", "cmd/coordinator/CoordinatorLauncher.go:roundEnd,announce", "cmd/coordinator/Coordinator.go:AddBridge,ClearBridges"]}
{"id": "C102", "title": "A commitment to an integer hides the integer and binds its maker", "statement": "What the commitment to a reputation tells about the reputation is negligible: every two integers have the same number of random draws, up to one in 2^81, that give a commitment; and nobody can open a commitment to two different integers.", "quantifier": "all bases whose G1 is a power of H1, in particular every base the coordinator creates; all integers, negative ones included; all commitments and openings", "why_tests_cant": "hiding is a statement about the number of draws among more than 2^81; binding is about every pair of openings", "anchors": ["primitive/fujiokam/FujiOkamCommitment.go:Commit,CommitWithR,GenRandomSecret,CreateBase,RandomDiameter"]}
{"id": "C103", "title": "The base for commitments to integers rests on the primes openssl printed, and its H1 generates the squares", "statement": "The modulus is the product of the two numbers openssl printed, or the coordinator stops; if these are different safe primes, every square modulo N is a power of H1.", "quantifier": "all outputs of the openssl command, all pairs of safe primes, all draws of genH and genGn", "why_tests_cant": "that every square is a power of H1 is a statement about a group of about 2^1022 elements; the draws that break it are too rare to be met", "anchors": ["primitive/fujiokam/FujiOkamCommitment.go:genSafePrime512,CreateBaseFromSuite,genH"]}
{"id": "C104", "title": "The signature on a post binds the address of the bridge", "statement": "The bytes a client signs for a post, with its pseudonym, determine the address that is put on offer: nobody can use the client's signature to offer another address in its name.", "quantifier": "all clients, all addresses, all ways to split the signed bytes into address and pseudonym", "why_tests_cant": "the pseudonyms for which it fails are one in 256 or fewer; all splits of the bytes have to be considered", "anchors": ["cmd/bridge/bridge.go:MessageOfPostBridge", "cmd/coordinator/CoordinatorHandler.go:handlePostBridge", "util/Util.go:ElGamalVerify"]}
{"id": "C105", "title": "The order in which posts and votes arrive does not matter", "statement": "The same posts and votes, delivered in any two orders, leave the coordinator with the same bridges on offer under the same pseudonyms and the same reputation differences, send nothing, and the round is then closed with the same messages.", "quantifier": "all states, all finite sets of posts and votes from anyone, valid or not, all orders", "why_tests_cant": "all interleavings of messages from different connections have to be considered", "anchors": ["cmd/coordinator/CoordinatorHandler.go:handleVote", "cmd/coordinator/CoordinatorHandler.go:handlePostBridge", "cmd/coordinator/CoordinatorLauncher.go:roundEnd"]}
{"id": "C106", "title": "Different clients have different pseudonyms, and a new round brings new ones", "statement": "Every server draws a new round key whenever it handles the end of a round, and at no other time. While a round is open no two clients have the same pseudonym, and a client keeps its pseudonym of an earlier round exactly if the servers' new round keys multiply to the same number modulo the group order as the old ones, which whatever the other servers draw happens for exactly one of the values the last of them can draw.", "quantifier": "all orderly sessions, all pairs of clients, all pairs of rounds, all round keys", "why_tests_cant": "collisions of pseudonyms are too rare to be met by a test and would credit votes to the wrong client", "anchors": ["cmd/server/AnonServerHandler.go:handleAnnouncement", "cmd/server/AnonServerHandler.go:handleRoundEnd", "cmd/client/ClientHandler.go:handleAnnouncementFinalize"]}
{"id": "C107", "title": "The order in which the servers' signatures arrive does not matter", "statement": "Once a request has made the coordinator ask the servers, and every server replies once, then in whatever order the replies arrive nothing is sent to the client before the last one; with it the client gets each assignment once, bearing the signatures of the servers in the order of their registration and the coordinator's, and the coordinator ends in the same state.", "quantifier": "all states that wait for signatures, all numbers of servers and of assignments, all signatures, all orders of the replies", "why_tests_cant": "n servers can reply in n! orders and the slots of the signatures are filled by position", "anchors": ["cmd/coordinator/CoordinatorHandler.go:handleGotSignatures", "cmd/coordinator/CoordinatorHandler.go:handleRequestBridges", "cmd/coordinator/Coordinator.go:AddAssignmentSignature"]}
{"id": "C108", "title": "Signatures collected for earlier assignments do not influence later ones", "statement": "The coordinator keeps signatures for exactly the bridges it has ever given out, in all rounds. From any moment on, as long as the servers reply only about bridges given out since, what was kept before makes no difference: the same events lead to the same messages and to the same state but for what is kept.", "quantifier": "all histories of the coordinator, all states, all contents of the collection, all continuations in which no server replies about a bridge that was given out earlier", "why_tests_cant": "the collection is never emptied, so every earlier history is a possible starting point of a round; comparing continuations of all of them is not a finite test", "anchors": ["cmd/coordinator/CoordinatorHandler.go:handleRequestBridges", "cmd/coordinator/CoordinatorHandler.go:handleGotSignatures", "cmd/coordinator/Coordinator.go:AssignmentSignaturesLog", "cmd/coordinator/CoordinatorLauncher.go:clearBuffer"]}
{"id": "C109", "title": "While a round is open, messages about different concerns can arrive in any order", "statement": "The messages that reach the coordinator during a round are about joining, the confirmation of a client, bridges, votes or the check of its base. Any two deliveries of the same messages that keep the order within each of these concerns lead to the same state, and every message causes the same messages to be sent.", "quantifier": "all states, all finite sequences of messages of any content, all ways to interleave them", "why_tests_cant": "the number of interleavings grows exponentially with the number of messages, and their content is arbitrary", "anchors": ["cmd/coordinator/CoordinatorHandler.go:Handle", "cmd/coordinator/CoordinatorLauncher.go:startServerListener"]}
{"id": "C110", "title": "Which messages a client can get in either order", "statement": "For each pair of message types it is settled whether a client ends in the same state, sends the same and stops in the same cases whichever of the two comes first. It does for the two messages that end a round, so it does not matter which of them the coordinator sends first, and for fifteen pairs in all; messages of the remaining types change nothing. For every other pair there are messages whose order matters. Any number of messages that are pairwise of the first kind can come in any order.", "quantifier": "all clients, all contents of the messages, all lists of messages and all orders of them; the counterexamples are at one group", "why_tests_cant": "a test fixes two messages and an order; this is about all contents and all orders, and about a table being complete", "anchors": ["cmd/client/ClientHandler.go:Handle", "cmd/client/ClientHandler.go:handleRoundEnd", "cmd/client/ClientHandler.go:handleBroadcastPedersenRDiff"]}
{"id": "C111", "title": "Which messages a server can get in either order", "statement": "For each pair of message types it is settled whether a server ends in the same state, sends the same and stops in the same cases whichever of the two comes first. In particular a client can join while the table of a new round passes through the server, and any number of clients can join in any order. For every pair that is not among these there are messages whose order matters. Any number of messages that are pairwise of the first kind can come in any order.", "quantifier": "all servers whose round key can be undone, all contents of the messages and all random choices, all lists of messages and all orders of them; the counterexamples are at one group", "why_tests_cant": "a test fixes two messages and an order; this is about all contents and all orders, and about a table being complete", "anchors": ["cmd/server/AnonServerHandler.go:Handle", "cmd/server/AnonServerHandler.go:handleAnnouncement", "cmd/server/AnonServerHandler.go:handleClientRegisterServerSide"]}
{"id": "C112", "title": "What a session comes to depends only on what each process gets in which order", "statement": "Take any two runs of the whole service from the same state in which each process gets the same messages and commands in the same order. Then all processes end in the same states and the same messages are in flight, however the processes took turns. Two things that can happen next at different processes can happen in both orders with the same result, and what stops a process stops it also after something has happened at another one.", "quantifier": "all states of the whole system, all finite runs of any length with any number of servers and clients, all random choices", "why_tests_cant": "the number of ways in which processes can take turns is exponential in the length of a run and unbounded", "anchors": ["cmd/coordinator/CoordinatorHandler.go:Handle", "cmd/server/AnonServerHandler.go:Handle", "cmd/client/ClientHandler.go:Handle", "util/Util.go:SendEvent"]}
{"id": "C113", "title": "A ring-signed vote is one of some client of the round, and two of one client are linked", "statement": "The client also has a vote that is signed with a linkable ring signature (nothing calls it). In every round, the vote of a client that has got the round's table names the message and +1 or -1 as asked, and its signature passes for the ring of all keys of that table and the round's generator as the coordinator has them. Two such votes on one message are linked exactly if they are made under one nym. The signature covers the message number but not the feedback (refuted), and the coordinator of today stops when a client of the table sends such a vote.", "quantifier": "all suites with a safe prime, all rounds, tables and clients, all messages a client gets after the table, all message numbers, feedbacks and random choices", "why_tests_cant": "the code is never called by the program, so no test reaches it, and the claim is about all tables, keys and draws", "anchors": ["cmd/client/ClientLauncher.go:sendVote2", "primitive/lrs/LinkableRingSignature.go:Sign", "primitive/lrs/LinkableRingSignature.go:Verify", "cmd/coordinator/CoordinatorHandler.go:handleAnnouncement", "cmd/coordinator/CoordinatorHandler.go:handleVote"]}
{"id": "C114", "title": "A ring signature tells nothing about its maker but the tag", "statement": "Whoever of a ring signs a message, the signature does not tell who it was. (Refuted as stated: the tag is a function of the message, the ring and the private key, so in general one member cannot make the signatures of another.) What holds: a member can make exactly the accepted signatures that carry its tag, whatever its place in the ring, and each of them from exactly one of the draws that Sign can make. Given the tag, all signatures are equally likely for every possible maker.", "quantifier": "all prime moduli, generators, rings of any size, messages whose digest is not zero, members, signatures and draws", "why_tests_cant": "it is about the set of all signatures and all draws of a signer, and their number", "anchors": ["primitive/lrs/LinkableRingSignature.go:SignHelper", "primitive/lrs/LinkableRingSignature.go:VerifyHelper", "primitive/lrs/LinkableRingSignature.go:pickZq"]}
{"id": "C115", "title": "Every order of a shuffled table is equally likely", "statement": "When the words of the random stream are equally likely, so are all orders in which a shuffle can put a table. (Refuted as stated: a word is reduced modulo the number of choices, and 2^64 is not a multiple of 3.) What holds: two sequences of words give the same order exactly if they agree, in each iteration, modulo the number of choices there; so for every table length k and every order the number of sequences of words that give it lies between the product of 2^64/(i+1), rounded down, and that of the same numbers plus one, i = 1, ..., k-1.", "quantifier": "all tables of two or more (fewer than 2^64) pairs, all orders, all sequences of words", "why_tests_cant": "it counts sequences of 64-bit words, of which there are 2^64 to the power k-1", "anchors": ["util/shuffle/pair.go:Shuffle"]}
{"id": "C116", "title": "One server that draws suffices for the order of the table", "statement": "The keys of an announcement leave a chain of servers raised to all their round keys, in the order that the shuffles of the servers compose to, one after the other; the values go with them, raised to all the exponents drawn. A round end takes the round keys off again, and orders keys and values in the same way. Whatever the servers before and after some server draw, every order of the outgoing table comes about, over the words that this one server draws, in nearly the same number of ways: for k keys between the product of 2^64/(i+1), rounded down, and that of the same numbers plus one, i = 1, ..., k-1.", "quantifier": "all chains of servers in any state they can be in, all tables of two or more (fewer than 2^64) distinct keys, all draws of the other servers, all orders", "why_tests_cant": "it ranges over chains of any length and counts sequences of 64-bit words", "anchors": ["cmd/server/AnonServerHandler.go:handleAnnouncement", "util/shuffle/pair.go:Shuffle"]}
{"id": "C117", "title": "Keys that others register do not help to find a client's pseudonym", "statement": "Whatever keys other clients register, nobody can tell from the pseudonyms of a round which one belongs to a given long-term key. (Refuted: registering takes any key, without a proof that its logarithm is known, and the servers raise all keys of a table to the same exponents. Somebody who registers the a-th power of a client's public key finds the client's pseudonym in every round, whatever the servers draw: it is the one pseudonym whose a-th power is a pseudonym too.) What holds: a power relation holds between two pseudonyms exactly if it holds between the keys they belong to.", "quantifier": "all chains of servers with any round keys and draws, all tables of two or more distinct keys, all exponents, all observers", "why_tests_cant": "it is about every draw of every server and every function an observer may compute", "anchors": ["cmd/coordinator/CoordinatorHandler.go:handleClientRegisterControllerSide", "cmd/server/AnonServerHandler.go:handleAnnouncement"]}

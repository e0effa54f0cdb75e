# Formal model of morusleaf/zRep in Coq 8.16.1 - design

## What is modelled

zRep is an anonymous reputation system: a coordinator, a chain of servers and
clients.  The Go code is modelled function by function as total Gallina
functions in `rocq/theories/`.  Conventions:

* A Go `*big.Int`, group point (`nist.residuePoint`) or secret (`nist.Int`) is
  a `Z`.  Every point and secret operation is computed the way the Go code and
  the dedis/crypto residue group compute it (`Exp`, `ModInverse`, `Mod`).
  `suite.Point()` is the residue 0, as in the library.
* Bytes are `list byte`; byte encodings are modelled where the code looks at
  them (`Bytes()`, `SetBytes`, fixed-length point and secret encodings,
  `IntToByte`, message concatenation).
* A Go panic / `log.Fatal` / `CheckErr` failure is the value `None` of an
  `option` ("the process dies").  Errors returned as values are `bool`.
* Randomness is an explicit argument; every theorem quantifies over it.
* Hash functions and the keyed stream cipher used in `hashElGamal` are fields
  of a record (`suite`), quantified over: theorems hold for every hash function.
* A Go map is an association list with one entry per key (Maps.v), and a `for range` over a
  map takes the iteration order as an explicit argument, constrained only to be
  a permutation of the keys.
* Numbers, points and secrets are values, not pointers.  The code overwrites some of
  them in place (`GT.Mul(GT, E)` and `HT.Mul(HT, E)` in the servers, `h.Mul(h, r)`,
  `R.Add(R, rDiff)` in the client, `HT.UnmarshalBinary` in the coordinator, the running
  sums of the shuffles, `H1.Mul(H1, H1)` on a number that `SetBigInt` shares).  Each of
  these was read: the number that is overwritten was made by the same function or belongs to
  the one field that is updated, so no other field changes with it.
* The three kinds of processes are modelled as handlers
  `state -> event -> option (state * list of sent messages)`, and the system as
  histories of such steps.

## Trusted base

* The Coq 8.16.1 kernel (and `coqchk`); no axioms of our own.  What
  `Print Assumptions` reports is listed at the end of this file.
* The reading of Go and of the libraries: math/big, dedis/crypto (nist residue
  group, HashProve/HashVerify transcripts, proof.Rep/And/Or), encoding/gob and
  protobuf.  gob framing is taken as a faithful transport (a message decoded
  is the message that was sent, or whatever an adversary wants to inject).
* Primality of the constants of the QR512 group, where a theorem has a
  `prime` hypothesis.  (Theorems that do not need primality do not assume it.)

## Not modelled

Writes on a connection that fail half way (dials that fail are modelled in Depart.v and Crash.v, and the
receiving side in Listener.v, with segments, resets and connections that stay open),
timers, printing, openssl's prime generation (its
output is an argument), `test/test.go` timing code, commented-out code, gob's
byte format, time and memory use.  Computational hardness is not modelled: a
security claim is stated as an extraction/uniqueness theorem, or refuted by an
explicit attack.

## How properties and results relate

A property that the code does not have is *refuted*: the theorem
`..._refuted` exhibits, for all parameters, an execution of the modelled code
that violates it; next to it we prove the strongest positive statement we
found.  Such a claim has status "partial" in MANIFEST.json unless the property
is stated as an exact characterisation.

## Plan per property

| id | property | module | how |
|----|----------|--------|-----|
| C01 | Pedersen openings are accepted exactly | Pedersen.v | unfold to modular exponents; iff by the definition of equality of canonical residues |
| C02 | Pedersen commitments add and subtract | Pedersen.v | exponent laws modulo the group order for elements with x^q = 1 |
| C03 | Re-keying the base re-randomises commitments without changing what they hide | Pedersen.v | exponent laws; converse by raising to the inverse of E modulo q |
| C04 | Pedersen commitments hide perfectly and bind up to discrete log | Pedersen.v, Roots.v | every element but 1 generates the group (number of roots of x^q - 1 modulo p); Bezout inverse modulo the prime q; extraction formula stated explicitly |
| C05 | Every registered server contributes to HT | System (registration) | induction on the list of servers for sequential delivery; a concrete overlapping schedule refutes the unrestricted claim; the delivery of the broadcast in every order (Prop_Base.v) |
| C06 | Fujisaki-Okamoto commitments are homomorphic over the integers | FujiOkam.v | total exponentiation with negative exponents (inverse) on units of Z/N; the interval of the draws exactly (Prop_Base.v) |
| C07 | Three-square decomposition is correct and its search is complete | ThreeSquares.v, SumSquares.v | search loops modelled as written; soundness and completeness by a permutation argument on the triple; float sqrt and int64 wrap-around modelled; that a triple always exists is proved from scratch (SquaresUnique.v, SquaresExist.v, SumSquares.v: counting sublattices of Z^2 against sums of four squares) |
| C08 | Honest non-negativity arguments always verify | FujiOkam.v | ring identity in the exponent, on units |
| C09 | A commitment that passes VerifyNonneg hides a non-negative value | FujiOkam.v | REFUTED: explicit forger, correct for every commitment and every hash function |
| C10 | Honest generator proofs are accepted | FujiOkam.v | induction over the six blocks of 80; the sampler exactly (Prop_Base.v) |
| C11 | Accepted generator proofs extract the discrete log | FujiOkam.v | quotient of two accepted answers; hence a wrong generator passes for one choice of its 80 bits only, and for that one it does |
| C12 | Answering generator challenges keeps the trapdoor secret | FujiOkam.v | REFUTED: two challenges reveal alpha exactly; equivocation follows |
| C13 | Honest equality arguments always verify | Equality.v | exponent laws on both sides; reduction mod q on the Pedersen side |
| C14 | Equality arguments are special-sound | Equality.v | quotient of two accepting transcripts |
| C15 | Linkable ring signatures verify for every ring member | Lrs.v | induction over the ring; sum of challenges modulo p-1; Fermat as hypothesis 'order divides p-1', discharged for prime p |
| C16 | Ring signatures link exactly by signer | Lrs.v | injectivity of exponentiation in a group of prime order |
| C17 | Ring signatures cannot be produced without a ring key | Lrs.v | REFUTED: a signature with one more challenge than the ring, no key needed, accepted for every hash function |
| C18 | A ring member cannot evade linking | Lrs.v | REFUTED: forged tags; the tag is free in the forgery of C17 |
| C19 | ElGamal signatures verify | ElGamal.v | exponent law; decoder modelled on bytes |
| C20 | Coordinator and server signatures cannot be forged | ElGamal.v | REFUTED: suite.Point() is the residue 0, so the verification equation does not depend on the key; explicit forger |
| C21 | Signing does not reveal private keys | ElGamal.v | REFUTED: constant nonce stream; explicit key extraction from two signatures |
| C22 | ElGamal decryption inverts encryption | ElGamal.v | group law |
| C23 | Points and secrets survive encoding and invalid ones are rejected | Codec.v | big-endian digits lemmas; Valid() as the acceptance condition |
| C24 | IntToByte is a 4-byte big-endian encoding | Codec.v | arithmetic modulo 2^32 |
| C25 | The signature on a bridge request binds every field | Bridge.v | exact characterisation + REFUTED witness (ind modulo 2^32, field boundaries) |
| C26 | The signature on a vote binds the feedback | Bridge.v | REFUTED: messages for f and -f coincide; characterisation: equal iff |f| equal |
| C27 | Assignments survive encoding | Codec.v / Bridge.v | round trip of a length-prefixed codec model of protobuf's wire format for this struct |
| C28 | An honest client with enough reputation is never refused | Bridge.v / Client.v | composition of C02, C08, C13, C19 |
| C29 | Only a client with reputation >= ind is served | Bridge.v | REFUTED: client with any reputation passes any ind; positive part: what acceptance does imply |
| C30 | Table lookups return the first matching entry | Util.v | induction on lists |
| C31 | The shuffle permutation is a permutation | Shuffle.v | Fisher-Yates swaps as permutations, surjectivity by induction |
| C32 | Shuffle re-encrypts and permutes | Shuffle.v | group law pointwise |
| C33 | Reputations follow their keys through a shuffle | Server.v | association list / finite map lemma |
| C34 | Honest simple k-shuffle proofs verify | SimpleShuffle.v | telescoping products in Z_q |
| C35 | Honest pair-shuffle proofs verify | PairShuffle.v | sum manipulations under a permutation |
| C36 | An accepted pair shuffle is a permutation | PairShuffle.v | REFUTED: an accepted transcript for outputs that are no permutation |
| C37 | The binary shuffle relation is exactly 'swap or not, re-encrypted' | Biffle.v | predicate semantics of proof.Rep/And/Or; the generic sigma protocol itself is dedis/crypto and not modelled |
| C38 | A server only forwards tables covered by the verified shuffle | Server.v | REFUTED: message with a valid proof of something else |
| C39 | Clients and servers compute the same pseudonym | Chain.v | induction on the chain |
| C40 | The announcement chain preserves the reputation table | Chain.v | induction on the chain with a Permutation invariant |
| C41 | A full round returns every client its own key and updated reputation | Round.v | composition of forward chain, mid-round events, backward chain |
| C42 | Clients can always open their commitment | Round.v | induction on the list of rounds |
| C43 | Votes and round change may interleave freely | Round.v | REFUTED by a concrete schedule |
| C44 | All parties agree on g, GT and HT during a round | Chain.v / Round.v | delivery of FINALIZE to each party in any order |
| C45 | A posted bridge is given out at most once | Coordinator.v | counting invariant over event histories |
| C46 | A request gets exactly min(ind, free) distinct bridges | Coordinator.v | induction on the iteration order |
| C47 | Assignments are released only with all signatures | Coordinator.v | REFUTED (duplicate replies); positive theorem for histories where each server replies at most once |
| C48 | A client's reputation difference is the sum of the accepted votes | Coordinator.v | invariant over event histories |
| C49 | A vote counts once, is +1 or -1, and comes from the requester | Coordinator.v | REFUTED: explicit vote from any registered client for any target and any integer |
| C50 | One registration per client address | Coordinator.v | invariant over registrations |
| C51 | The server chain is correctly linked | Topology.v | induction on registrations with an arbitrary delivery order |
| C52 | Unverified requests change nothing | Coordinator.v | case analysis on the handlers |
| C53 | No client message stops the coordinator | Coordinator.v | REFUTED: explicit crashing messages |
| C54 | Clients may register at any time and start with the starting credit | Round.v | REFUTED before the first announcement and between rounds; positive theorem inside a round |
| C55 | Registering does not affect other clients | Coordinator.v | REFUTED: re-registration of a known key replaces its commitment |
| C56 | Reputation is only created by registration and votes | Coordinator.v | REFUTED: injected CLIENT_REGISTER_SERVERSIDE |
| C57 | Bridges and votes are only accepted in their phase | Coordinator.v | REFUTED: handlers do not read Status |
| C58 | A vote's tag is recorded and recognised | Coordinator.v | list membership |
| C59 | Configuration files are read as key=value lines | Config.v | parser modelled on characters |
| C60 | Only the addressed handler acts on an event | Coordinator.v, Server.v, Client.v | dispatch table; the numbers are distinct (Prop_Base.v) |
| C61 | A request of a client in the table is served to the end | Session.v | invariant over all schedules of Round.v (bases, keys and tables of all parties), then C28, C46 and C44 |
| C62 | A server signs exactly what it has verified itself | Session.v | the same invariant; `response_nonzero` is the case in which the signature on base 0 verifies |
| C63 | Every assignment a client holds bears the signatures of all servers | Signing.v | invariant over all schedules in which no bridge is posted while signatures on it are on their way (`calm_reach`): outstanding answers plus filled slots is at most one per server and bridge; REFUTED for all schedules (honest parties, a bridge posted twice) |
| C64 | A vote of a client of the table is counted | Signing.v | C63, C44, `reach_keys` (the keys of the table) and the coordinator's check of a vote |
| C65 | Honest sessions never stop a party | Signing.v, Progress.v, Live.v | REFUTED (an assignment delivered after the end of its round, voted on in the next; a bridge posted before the client has a pseudonym); C72 gives a discipline under which it holds; positive theorem for the messages of the round protocol: an invariant on what every message in flight carries, then each handler in turn |
| C66 | Every schedule gets a round opened and closed | Live.v | a measure: the number of deliveries a message in flight still causes; every delivery lowers the sum by exactly one; C65 for the absence of stops |
| C67 | The role argument starts that role | Console.v | case analysis on the switch; REFUTED for the numbers (a Go switch does not fall through) |
| C68 | A console line does what it says, and an ill-formed one does nothing | Console.v | strings.Split and strconv.Atoi modelled on bytes; exact characterisation of the lines that stop the client; REFUTED for ill-formed lines |
| C69 | One input line is one command | Console.v | bufio.Reader.ReadLine modelled with its buffer; induction on the lines; REFUTED for lines of 4096 bytes and more |
| C70 | Servers of one machine listen on different ports | Console.v | induction on the number of servers |
| C71 | An assigned bridge reaches the client that asked for it | Delivery.v | an assignment taken for a client is followed through the schedule: a server owes its signature, or the signed assignment is on its way, or the client holds it (`tracked`, preserved by every step of the round) |
| C72 | An orderly session never stops a process | Enrol.v, Conduct.v | sessions whose users and loop keep to a discipline (`conduct`); invariants: one registration message per client and the answer to the challenge it holds (`enrol`), what every post, request, signature and vote in flight carries relative to the coordinator's table (`hon`); then each handler in turn, the round messages by C65 |
| C73 | A simple k-shuffle proof convinces only for shuffles | Roots.v, SimpleSound.v | the checks in the exponents, quotient of two answers, telescoping product; two products of k linear factors that agree at k points have the same roots (a polynomial modulo a prime has at most as many roots as its degree) |
| C74 | A client's reputation is the starting credit plus the votes on its bridges | Tally.v | the votes cast are listed as they are entered (`voted`); invariant `tally`: ledger value + votes counted in this round + votes in flight = starting credit + votes listed, for every key; pseudonyms of a round are distinct and each has one key behind it; without the discipline at round end the vote in flight is lost (`C74_vote_lost_refuted`) |
| C75 | A bridge is credited to the client that posted it | Posted.v | the posts of the round are listed as they are entered (`noted`); invariant `backing`: every post in flight, free bridge, assignment in flight and assignment held goes back to a post under the same pseudonym; then the votes of C74 are those on posted bridges (`honoured`) |
| C76 | A command entered while messages arrive acts as if entered between two of them | Threads.v | commands as sequences of reads and handlers as sequences of writes of the client's fields, proved to add up to the functions of Client.v; every interleaving; REFUTED for announcements and, for requests, round ends; for all other messages at most one of the fields a command reads changes, and it is read once |
| C77 | A listener hands over whole messages, each once, in the order of their connections | Listener.v | connections as queues of arriving segments, the accept/read-to-end/handle loop as steps; invariant on every interleaving; liveness when all connections are closed; gob as an abstract format with a round-trip law, instantiated by an explicit format |
| C78 | One peer cannot keep a process from handling the messages of the others | Listener.v | REFUTED: a connection that never ends blocks all later ones (for every continuation); reset, empty and ill-formed connections stop the process |
| C79 | Only the coordinator changes what a client holds | Client.v, System.v | a frame theorem for every field over all messages; REFUTED as to the sender, for every client in every system state (four attacks), and in a reachable state |
| C80 | The coordinator cannot tell which client is behind a pseudonym | System.v, Round.v | REFUTED: `identify`, a function of the coordinator's state and the message, returns the long-term key of the sender of every command in every reachable open round |
| C81 | Nobody who sees a client's messages learns its key or its other pseudonyms | System.v, Client.v | REFUTED: `recover`, a function of one message's parameters, returns the private key; it yields the pseudonyms of all earlier and later rounds; what handlers send is proved not to depend on the key |
| C82 | The coordinator learns neither reputation nor pseudonym of a client that stays silent | Round.v, RoundInv.v, Prop_Spy.v | REFUTED: `note`, a function of the coordinator's state and events, keeps a list of openings that is proved equal to the ledger in every session with distinct commitments; matching it with the shuffled table gives every client's pseudonym |
| C83 | A request tells nothing about the client's openings | Client.v, Equality.v | REFUTED: `leak`, a function of the message, gives intervals of length Q/c that are proved to contain both blindings; any other value consistent with the message is a short relation between the generators; a counting argument for the response that stays masked |
| C84 | Data embedded in a point can be read back | Embed.v | induction over the candidates drawn; the positions of length and data in the byte string of a point; induction over the points of a message |
| C85 | A client that leaves does not stop the others | Depart.v | REFUTED: the coordinator with a set of addresses nobody listens at; invariant: the address of a registered client stays in the list; frame of all steps that do not advance the round; where every step sends to |
| C86 | Messages handled during a step of the coordinator's main loop act before or after it | Launcher.v | the steps of the loop cut into reads, writes and sends; every schedule of them and of whole handlers; each message is moved before or after the step according to the one action it does not commute with (sorting with commuting swaps); REFUTED for registrations of servers |
| C87 | Reputation rations bridges | Prop_Ration.v | counting of used bridges over get_bridges; C61 iterated n times along a schedule of command and delivery; REFUTED for a round, proved for a request |
| C88 | Bridges go only to the client that asked for them | Prop_Recipient.v | invariant over all histories: the table of requesters is exactly the latest valid requests of the round; C46 on the repeated request; REFUTED on a run, with the exact recipient proved |
| C89 | Unknown fields of a message are ignored | Prop_Wire.v | an independent encoder of fields of all wire types; the parser inverts it by induction; the decoders are compared with the filtered message |
| C90 | The servers' shuffles hide which long-term key became which pseudonym | Prop_Tap.v | sessions with a listener's notes; the listener is polymorphic in the type of keys; a session invariant says that the notes link every key of the last table on the wire to its long-term key, kept because a server's message repeats its unshuffled keys |
| C91 | The coordinator's goroutines do not race on its fields | Race.v, Prop_Race.v | actions of the main loop and handlers of messages with the fields they read and write; that these lists leave nothing out is proved by non-interference (outcome unchanged when other fields differ); then the exact table of steps and message types that can meet |
| C92 | A server that is started again takes its place again | Restart.v, Prop_Restart.v | restart as a step that replaces the state of the server and sends its registration; invariants on the links give the exact links after the registration, then a set of servers closed under the links from which no table gets out, for every later run |
| C93 | A coordinator that is started again takes up the session | Reboot.v, Prop_Reboot.v | restart as a step that replaces the state of the coordinator; an invariant over all later runs: no list of the coordinator, no link of a new server and no address inside a message names an old process, so nothing but the answer to a bridge request is sent to one; the positive part is a simulation of every run of a new service |
| C94 | A server may be started while the service is running | Late.v, Prop_Late.v | the three messages of the registration are followed in every order; the new base is the old one with one element raised to the new secret, so opening under both is equivalent to a congruence modulo the order of the group; for the open round an invariant over all later runs: the new server is the last one, has no pseudonym of the round, and every table of the round's end is addressed to it |
| C95 | Only a client of the round can put a bridge on offer, and it stays that client's | Prop_Outsider.v | completeness of the signature for any key under the round's generator shows that a post by anybody is accepted and replaces the earlier poster; for a list of such posts an order of the map iteration is constructed under which a valid request is given these bridges only; the positive part is an induction over the history |
| C96 | A recorded message does nothing when it is sent again | Prop_Replay.v | the fields that validity depends on are framed over every run within the round, so the message stays valid; the vote count by induction on the repetitions; between rounds, cancellation in the group of prime order shows that the two checks hash different points |
| C97 | A posted bridge stays on offer until it is given out | Prop_Offer.v | a case split on the step with the frame lemma, the specifications of post and request and an induction over the loop of the signature handler; then induction over the continuation; a counting argument for a request that takes everything |
| C98 | Reputation has to be earned from other clients | Prop_Earn.v | C75's account of every client's reputation summed over the clients, whose keys are distinct and cover every vote by induction over the session; C64 iterated by induction on the number of votes, then the ledger across the end of the round; concrete sessions for the refutations |
| C99 | A server takes orders from its coordinator and its neighbours only | Prop_Orders.v | a case split over the handlers for what each message changes; explicit messages for what a stranger can do; induction over the chain for the message that empties the table |
| C100 | The service outlives the end of one of its processes | Crash.v, Prop_Crash.v | a system in which processes end one by one, at any send; the ended server is replaced by a record that points to itself, then the invariant of C92 on the messages that follow the links |
| C101 | A bridge on offer belongs to a pseudonym of the round | Prop_Stale.v | the invariant of orderly sessions (C72); over histories of the coordinator the result of C97 and an invariant on the votes counted for a pseudonym outside the table; a session of honest parties in which the post is delivered late |
| C102 | A commitment to an integer hides the integer and binds its maker | Prop_FoHide.v | the order of H1 exists and is at most N (pigeonhole); the draws of a commitment are a residue class modulo that order, counted in an interval; binding by group arithmetic on the exponents, refuted for the holder of the trapdoor |
| C103 | The base for commitments to integers rests on the primes openssl printed, and its H1 generates the squares | SafePrime.v, Prop_SafePrime.v | parsing by induction on the digits; Fermat's little theorem and the number of roots of a polynomial modulo each prime, then the Chinese remainder theorem on the exponents; the bad draws are listed explicitly |
| C104 | The signature on a post binds the address of the bridge | Prop_PostBind.v | comparison of the two splits of one byte string; big-endian values of equal suffixes force zero bytes; a group whose elements take two bytes for the counterexample |
| C105 | The order in which posts and votes arrive does not matter | Prop_Order.v | each such message has an effect that does not depend on the others; effects on different addresses and on counters commute; induction on the permutation |
| C106 | Different clients have different pseudonyms, and a new round brings new ones | Prop_Nyms.v | invariant of orderly sessions; powers with a unit exponent are injective in a group of prime order |
| C107 | The order in which the servers' signatures arrive does not matter | Prop_Replies.v | explicit description of the slots after any set of replies; induction on the order; the state after the request is shown to be one that waits |
| C108 | Signatures collected for earlier assignments do not influence later ones | Prop_Leftovers.v | induction on histories; simulation between two runs that differ in the collection, which agree on the bridges given out since |
| C109 | While a round is open, messages about different concerns can arrive in any order | Prop_Concerns.v | what each handler reads and writes (Race.v) gives commutation of two steps; induction on the second order for any number |
| C110 | Which messages a client can get in either order | Prop_Inbox.v | each handler as a function of the fields it reads, then case analysis over the table; a computed counterexample for each pair that is not in it; induction on the permutation for lists |
| C111 | Which messages a server can get in either order | Prop_Queue.v | each handler as a function of the fields it reads, then case analysis over the table; pseudonyms entering the map commute because exponentiation is injective; a computed counterexample for each pair that is not in the table; induction on the permutation for lists |
| C112 | What a session comes to depends only on what each process gets in which order | Prop_Async.v | each process as a fold over what happens at it (induction on the run), messages in flight counted by permutation; the swap from that and from the fact that an action elsewhere leaves a process and the other messages alone |
| C113 | A ring-signed vote is one of some client of the round, and two of one client are linked | RingVote.v, Prop_RingVote.v | what a client of the round knows follows from the two handlers of the table and induction over the messages after it; then C15 and C16; strconv.Itoa by induction on the digits |
| C114 | A ring signature tells nothing about its maker but the tag | Prop_RingAnon.v | from an accepted signature the draws are computed back (r = s + c x modulo P - 1) and Sign run on them; the challenge closes the sum, so it is the one in the signature |
| C115 | Every order of a shuffled table is equally likely | Prop_Fair.v | the element at place i is fixed in iteration i, so the choices can be read off the result (induction on the loop); the sequences are then a product of residue classes, which are counted exactly |
| C116 | One server that draws suffices for the order of the table | Prop_Blind.v | induction along the chain, each step by the specification of one announcement; the order wanted from the one server is the order wanted from the chain with the inverses of the others composed on both sides, so C115 counts it |
| C117 | Keys that others register do not help to find a client's pseudonym | Prop_Rogue.v | the outgoing keys are the raised ones in some order (C116); raising is injective on the group and commutes with powers |

## Modules

* Arithmetic and groups: ZMod, Fermat, Roots (polynomials modulo a prime), QR512 (the constants of the group), Suite (the
  residue group of dedis/crypto), Spec (plain vocabulary in `Z`).
* Primitives: Pedersen, ElGamal, FujiOkam, SafePrime, ThreeSquares, SquaresUnique, SquaresExist,
  SumSquares (the three-squares theorem), Equality, Lrs, Perm,
  SimpleShuffle, SimpleSound, PairShuffle, Biffle.
* Data: Bytes, Codec, Maps, Net, Config, Console.
* Processes: Bridge (what is signed and checked), Client, Server, Coordinator (states and
  handlers), History (the coordinator's events), System (all processes and the messages in
  flight).
* Invariants over all schedules: Chain (the table on its way through the servers), Round
  and RoundInv (rounds, values and openings), Session (bases and requests), Signing
  (assignments and their signatures), Delivery (an assignment's way to the client), Progress (what messages in flight carry), Live
  (no stops, number of deliveries), Enrol (registrations and the check of the generators),
  Conduct (orderly sessions),
  Tally (votes and reputations over all rounds), Posted (who posted a bridge).
* Embed: data embedded in points.
* Depart: sending to processes that have ended.
* Launcher: the coordinator's main loop interleaved with its listener.
* Threads: console and listener of a client, interleaved field by field.
* Listener: the accept loop of all three processes on TCP connections.
* RingVote: the vote signed with a ring signature, which no command calls.
* `Prop_X.v`: the theorems `Cnn_...` with their specifications, the instances that meet
  their hypotheses (`Cnn_instance...`) and `Print Assumptions`.

## What of the code is modelled

| file | modelled | not modelled |
|------|----------|--------------|
| primitive/pedersen | all | - |
| primitive/fujiokam/FujiOkamCommitment.go | all; random draws and the output of openssl are arguments | openssl itself |
| primitive/fujiokam/point.go | group operations, equality, conversions | String |
| primitive/fujiokam/residue.go | Add, Sub, Mul, Neg, Valid, PickLen, Pick, Data, (un)marshalling | printing |
| primitive/pedersen_fujiokam | all | - |
| primitive/lrs | all; the signature's gob encoding as a faithful transport | gob bytes |
| util/Util.go | all; gob as a record of encoders and decoders with the law `decode (encode x) = x` (`gob_ok`), protobuf on bytes for the structures of the program | gob bytes |
| util/ConfigReader.go | all | the file system (a file is its bytes or absent) |
| util/shuffle | Prove and Verify of both shuffles, Shuffle, Verifier; biffle as the predicate it proves | dedis/crypto's generic sigma protocol |
| cmd/bridge | all | - |
| cmd/coordinator | Coordinator.go, all handlers, init, the main loop as events | keypresses, sleeping (an event may happen at any time) |
| cmd/server | all handlers, init, registration, the choice of a port | sockets |
| cmd/client | all handlers, init, registration, post, request, vote, the ring-signed vote (never called), the console | sockets |
| cmd/main.go | all | - |
| test/, *_test.go | - | timing code and tests |

Go maps that two goroutines use at once stop the process; Race.v (C91) shows when this can happen, and everywhere else it is taken not to.  The events of the coordinator's main loop
are single steps except in Launcher.v (C86), which shows what this leaves out.  Dials that fail are modelled in
Depart.v (C85) and Crash.v (C100) only; elsewhere a message in flight is eventually handled or stays in flight.  Handlers of one process run one at a
time, as the listeners' loops do.  In System.v a command runs to its end before the next
message is handled; Threads.v (C76) shows for which messages this is no restriction, and what
can happen otherwise.

## Print Assumptions

Every theorem named in MANIFEST.json is reported as "Closed under the global context":
no axiom is used, neither of our own nor of a library.  (vcheck lists seven constants
`Coq.ssr.ssrunder.Under_rel.*` in the loaded libraries: they are the opaque module type
instance of the standard library's ssreflect plugin, which some imported files load; no
theorem depends on them.)  The same check is done by the `Print Assumptions` commands at
the end of every `Prop_X.v`.

{"id": "C01", "title": "Scalar wire codec is exact", "statement": "Decoding a 32-byte string to a scalar succeeds exactly when the little-endian value of the string is below the BLS12-381 group order r; encoding any scalar always yields 32 bytes that decode to the same scalar, and re-encoding an accepted string gives the same string back (one encoding per scalar). The byte-wise validity check agrees with the decoder on every string.", "quantifier": "every 32-byte string and every scalar below r", "why_tests_cant": "2^256 strings; the interesting ones sit at the borders of a byte-by-byte comparison, which sampling does not reach", "anchors": ["internal/bls/bignum_all.go: ValidFr", "internal/bls/bignum_kilic.go: FrFrom32, FrTo32", "internal/bls/globals.go: ModulusStr"]}
{"id": "C02", "title": "Fixed-width integer codec", "statement": "Writing an integer as 4 big-endian bytes and reading it back gives the integer modulo 2^32: below 2^32 the same integer, with distinct bytes for distinct integers, and every 4-byte string is the encoding of the integer it is read as. Integers at or above 2^32 are silently truncated, so that distinct ones can have the same bytes. Bytes after the first four are ignored, and fewer than four bytes are read as 0.", "quantifier": "every integer", "why_tests_cant": "the whole range of integers, with a failure only beyond 2^32", "anchors": ["pkg/utils/utils.go: IntToBytes, BytesToInt, Uint32ToBytes, BytesToUint32"]}
{"id": "C03", "title": "Stream framing delivers exactly what was sent", "statement": "Whatever sequence of messages shorter than 2^32 bytes is put into a send channel, and however TCP splits the byte stream, the receive channel at the other end delivers exactly the same messages, in the same order, none lost, none repeated, none merged; at every moment what has been delivered is a prefix of what was sent, and unread bytes are always consumed. A message of 2^32 bytes or more is written with a truncated length and arrives as something else.", "quantifier": "every finite sequence of messages and every way of cutting the byte stream into segments", "why_tests_cant": "the number of splittings is unbounded and depends on the network", "anchors": ["pkg/core/send.go: MakeSendChannel", "pkg/core/receive.go: MakeReceiveChannel"]}
{"id": "C04", "title": "Message envelope round trip", "statement": "A message serialised for the network and parsed on the other side has the same type, instance identifier, sender and payload, also through the length-prefixed stream and however TCP cuts it; every payload type of Message.proto survives the round trip, nested messages included; encapsulating one of the eight agreement payloads and decapsulating the envelope under the same type returns that payload, a payload of the wrong Go type panics, and under any other type name the payload is silently lost. An envelope can be written exactly when its type is valid UTF-8; otherwise the sending process ends.", "quantifier": "every message type of the protocol and every field value", "why_tests_cant": "unbounded byte strings and identifiers, variable-length integers with many boundary sizes", "anchors": ["pkg/core/message_encapsulation.go: Encapsulation, Decapsulation", "pkg/protobuf/Message.proto"]}
{"id": "C05", "title": "Dispatcher demultiplexes without loss, duplication or reordering", "statement": "A party that asks for the messages of a type and instance gets exactly the messages that arrived with that type and instance, in the order of arrival; asking before or after the arrival makes no difference, and a message of another type or instance never shows up there.", "quantifier": "every arrival sequence, every interleaving of arrivals and requests", "why_tests_cant": "depends on the interleaving of a goroutine with all the callers of GetMessage", "anchors": ["pkg/core/dispatche.go: MakeDispatcheChannels", "internal/party/party_utils.go: GetMessage"]}
{"id": "C06", "title": "Dispatcher progress", "statement": "As long as no instance receives more than N*N messages, the dispatcher never waits: every message that has arrived is in the queue of its instance after finitely many steps, whether or not anybody reads. With more messages than that for one instance nobody reads, messages for all the other instances are never delivered, whatever happens later.", "quantifier": "every arrival sequence and every set of instances that are not read", "why_tests_cant": "needs more than N*N unread messages of one instance and an unlucky order", "anchors": ["pkg/core/dispatche.go: MakeDispatcheChannels"]}
{"id": "C07", "title": "Broadcast reaches exactly the committee", "statement": "With the channels set up, a broadcast puts the message once into the outgoing channel of every committee member and of nobody else; a broadcast with an exclusion leaves out exactly the excluded member; a send to a single destination touches only that one and is rejected exactly when the destination is outside the committee. With channels that are not set up, sending blocks for ever instead of returning the error the code has for this case. That error is returned, and nothing is sent to anybody, if the slice of channels to the next committee is nil.", "quantifier": "every committee size, every message, every destination number", "why_tests_cant": "ranges over all committee sizes and destinations", "anchors": ["internal/party/party_utils.go: Send, SendToNextCommittee, Broadcast, BroadcastExclude, BroadcastToNextCommittee, checkSendChannelsInit, checkInitSendChannelsToNext"]}
{"id": "C08", "title": "Polynomial evaluation and linear-factor arithmetic", "statement": "Evaluating a coefficient vector at a point gives the mathematical value of the polynomial for every vector and every point (zero included); multiplying by (X - a) and dividing by (X - a) are inverse to each other, and the division of a polynomial that has the root a is exact.", "quantifier": "every coefficient vector, every field element", "why_tests_cant": "an infinite family of polynomials", "anchors": ["internal/bls/globals.go: EvalPolyAtUnoptimized", "internal/polyring/interpolation.go: mulPolyDegreeOne, divPolyDegreeOne"]}
{"id": "C09", "title": "Lagrange interpolation is correct and unique", "statement": "For every list of points with pairwise different x the interpolation returns the polynomial of degree at most the given bound that passes through all of them; it is the only one of this degree; if two used x values coincide the process stops instead of returning a wrong polynomial.", "quantifier": "every degree, every list of points", "why_tests_cant": "all degrees, all choices of points over a 255-bit field", "anchors": ["internal/polyring/interpolation.go: LagrangeInterpolate"]}
{"id": "C10", "title": "Precomputed Lagrange coefficients reproduce evaluations", "statement": "The Lagrange coefficients of a target index with respect to a list of known distinct indexes turn the values of any polynomial of degree below the number of indexes into its value at the target; for a target inside the list they are the unit vector. Equal indexes are not noticed (the inverse of 0 is 0): the coefficients are right for all polynomials below the bound exactly if the indexes are distinct or the target is among them and occurs once.", "quantifier": "every list of known indexes, every target, every polynomial below the degree bound", "why_tests_cant": "all committee sizes and all polynomials", "anchors": ["internal/party/party_utils.go: GetLagrangeCoefficients", "internal/party/party.go: NewHonestParty"]}
{"id": "C11", "title": "Interpolation in the exponent commutes with commitment", "statement": "Interpolating the commitments (or witnesses) of a polynomial family that has bounded degree in the index gives the commitment (or witness) of the interpolated member, for every target index and every set of enough known indexes.", "quantifier": "every bivariate polynomial of the right degree, every index set of the right size, every target", "why_tests_cant": "all index sets and polynomials", "anchors": ["internal/party/party_utils.go: InterpolateComOrWit, InterpolateComOrWitByKnownIndexes", "internal/bls/bls_kilic.go: LinCombG1"]}
{"id": "C12", "title": "Polynomial long division", "statement": "Long division returns a quotient q such that dividend = divisor*q + remainder with the remainder of lower degree than the divisor, for every divisor with non-zero leading coefficient and every dividend at most one coefficient shorter than the divisor; evaluation at every point confirms it. For shorter dividends it panics.", "quantifier": "every pair of coefficient vectors", "why_tests_cant": "infinite family of polynomials", "anchors": ["internal/polycommit/poly.go: polyLongDiv, polyFactorDiv"]}
{"id": "C13", "title": "KZG completeness", "statement": "For every trusted setup of at least two elements, every non-empty polynomial within the setup size and every point, the proof produced by the prover together with the commitment and the true value is accepted by the verifier, and no other value is accepted with it; the optimised and the unoptimised commitment agree. With F = 0 the setup of a party has one element and the verifier panics on every input.", "quantifier": "every setup secret, every polynomial within the bound, every point", "why_tests_cant": "all polynomials and points", "anchors": ["internal/polycommit/kzg_single_proofs.go: CommitToPoly, CommitToPolyUnoptimized, ComputeProofSingle, CheckProofSingle", "internal/polycommit/setup.go: GenerateTestingSetup"]}
{"id": "C14", "title": "Commitments are homomorphic", "statement": "The commitment of a linear combination of polynomials is the same linear combination of the commitments, and proofs combine in the same way: the combined proof opens the combined commitment at the same point to the combined value.", "quantifier": "all polynomials, all scalars, all points", "why_tests_cant": "all polynomials and scalars", "anchors": ["internal/polycommit/kzg_single_proofs.go: CommitToPoly, ComputeProofSingle, CheckProofSingle", "internal/bls/bls_kilic.go: AddG1, SubG1, MulG1, LinCombG1"]}
{"id": "C15", "title": "KZG evaluation binding", "statement": "A commitment cannot be opened at one point x to two values without solving a hard problem of the setup: from any two accepted openings with different values one computes, by group operations only, the element g^(1/(s-x)) for the setup secret s; if the prover knows polynomials behind commitment and proof, a wrong accepted value yields a non-zero polynomial with s as a root. With the secret compiled into the program, as it is, everybody can open every commitment to every value. (So for the settings every party uses, binding fails.)", "quantifier": "every commitment, point, pair of values and proof elements", "why_tests_cant": "the adversary may choose any group elements", "anchors": ["internal/polycommit/kzg_single_proofs.go: CheckProofSingle", "internal/party/party.go: NewHonestParty (fixed setup secret)"]}
{"id": "C16", "title": "KZG multi-opening completeness", "statement": "The multi-opening check accepts exactly when commitment minus interpolant at the secret equals the proof times s^n - x^n, so the commitment to the true quotient by X^n - x^n is accepted with the true values on the coset, and a wrong value accepted for committed polynomials yields a known nonzero polynomial vanishing at the secret. The prover ignores the point and commits to the coefficients from the n-th on; its proof is accepted for n to 2n coefficients, it panics for fewer than n, and for more than 2n coefficients the proof can be rejected.", "quantifier": "every polynomial, every nonzero coset shift, every power-of-two n within the settings", "why_tests_cant": "all polynomials and cosets", "anchors": ["internal/polycommit/kzg_multi_proofs.go: ComputeProofMulti, CheckProofMulti"]}
{"id": "C17", "title": "An honest dealer's shares are accepted by everybody", "statement": "Whatever secret and randomness the client uses, every party accepts the message which the client made for it, and ends with the full share B(i, .) of that client polynomial, with witnesses that open the party's commitments.", "quantifier": "every secret, all coefficients of the sharing polynomial, every committee size 3F+1, every party", "why_tests_cant": "all secrets, coefficients and sizes", "anchors": ["internal/party/client.go: Share", "internal/party/VSS.go: VSSShareReceive, VerifyVSSSendReceived", "internal/party/party_utils.go: EncapsulateVSSSend, SetFromVSSMessage"]}
{"id": "C18", "title": "A malformed dealing is rejected", "statement": "If a party accepts a dealing then every value in it opens the commitment of its column at the party's index, the values lie on one polynomial of degree at most 2F, each commitment is the product of one that opens to 0 at 0 and a power of g, and for a dealer who knows the polynomials behind commitments and witnesses every accepted value is the true one or the setup secret is a root of a known non-zero polynomial. A rejected dealing leaves the party as it was. The published commitment of the secret is not tied to the rest: a mismatch is only logged; in every accepted dealing it can be replaced by any other point, and the party accepts, with the same share.", "quantifier": "every message of a malicious dealer", "why_tests_cant": "the dealer can send any bytes", "anchors": ["internal/party/VSS.go: VerifyVSSSendReceived", "internal/party/party_utils.go: Pi.Set, SetFromVSSMessage"]}
{"id": "C19", "title": "Enough shares give the secret, too few give nothing", "statement": "Any F+1 full shares (and any 2F+1 reduced shares) determine the secret and the interpolation returns it; for any F parties and any two secrets there are equally many sharing polynomials that give these parties the same shares, so that F parties' shares are independent of the secret.", "quantifier": "every sharing polynomial, every set of parties, every pair of secrets", "why_tests_cant": "a statement about distributions over all polynomials", "anchors": ["internal/party/client.go: Share", "internal/polyring/interpolation.go: LagrangeInterpolate"]}
{"id": "C20", "title": "Share reduction gives the new committee its reduced shares", "statement": "If the messages used by a new member come from parties with valid shares, then the member computes the reduced share B(., i) of its own index whichever valid senders come first and in whatever order.", "quantifier": "every sharing polynomial, every set of F+1 senders, every order of arrival", "why_tests_cant": "all subsets and orders", "anchors": ["internal/party/ShareReduce.go: ShareReduceSend, ShareReduceReceive"]}
{"id": "C21", "title": "Share reduction withstands invalid and repeated messages", "statement": "A new member ends with the right reduced share whatever the messages of up to F corrupted old members contain and in whatever order all messages arrive, provided that F+1 honest members' messages arrive, no sender is processed twice, the points can be decoded, and nobody opens the right commitment to a wrong value. Each of these provisos is needed: a repeated message stops the process, a value that is not canonical leaves the previous sender's value in use, and commitments in a message are not compared with the prepared ones. Exactly: the receiver waits while no commitment has F+1 verified messages; then the share is the polynomial through the positions and values of the messages with that commitment, where a message without a canonical value counts with the last value received before, 0 at the beginning.", "quantifier": "every message sequence with up to F corrupted senders", "why_tests_cant": "the adversary chooses messages and order", "anchors": ["internal/party/ShareReduce.go: ShareReduceReceive"]}
{"id": "C22", "title": "Preparation adopts only a value vouched for by an honest party", "statement": "What a new member adopts was sent in F+1 of the messages it received (up to a collision of the hash), by F+1 different senders if none repeats itself. If none repeats itself, at most F are corrupted and the messages of F+1 honest members arrive, the commitments adopted are the honest members'. Senders are not counted: one member that repeats its message has it adopted.", "quantifier": "every message sequence, every set of at most F corrupted members", "why_tests_cant": "arbitrary arrival sequences", "anchors": ["internal/party/ShareReduce.go: PrepareSend, PrepareReceive"]}
{"id": "C23", "title": "Refreshing keeps the secret", "statement": "Each refreshing polynomial made by an honest member has value zero at (0,0); adding any agreed set of such polynomials to the reduced shares keeps the secret, and the refreshed shares of all members that have recovered the agreed polynomials lie on one polynomial of the same degrees, with matching commitments. A member that has not recovered the polynomial of an agreed dealer adds zero for it, and its share is then not on that polynomial.", "quantifier": "all random coefficients, every agreed set, all shares", "why_tests_cant": "all randomness, all subsets", "anchors": ["internal/party/ProactivizeAndShareDist.go: ProactivizeAndShareDist (polynomial generation, Refresh)"]}
{"id": "C24", "title": "Commit-stage verification of refreshing polynomials", "statement": "The commit message of an honest member is accepted by everybody; an accepted commit message commits to polynomials whose interpolation at zero vanishes at zero, or the setup secret is a root of a non-zero polynomial known to the sender. A rejected message leaves a trace: the revert clears indexes 0..2F while 1..2F+1 were set, so that the commitment at 2F+1 stays if that part of the message is right by itself.", "quantifier": "every commit message, honest or not", "why_tests_cant": "the adversary may send any group elements and proofs", "anchors": ["internal/party/ProactivizeAndShareDist.go: Commit and Verify stages (lines 99-213)"]}
{"id": "C25", "title": "What the votes on reshared points certify", "statement": "A member answers the reshare message of a dealer with votes only after a verified broadcast of that dealer's commitments, checks the points against these, and votes exactly if the last of the 2F+1 points opens its commitment; with a dealer that follows the protocol it does vote, and each vote opens the receiver's commitment. The other 2F points do not count: a dealer that sends them wrong gets the votes.", "quantifier": "every reshare message", "why_tests_cant": "the adversary chooses which of the 2F+1 openings are wrong", "anchors": ["internal/party/ProactivizeAndShareDist.go: Vote stage (lines 261-332)"]}
{"id": "C26", "title": "Recovery of a refreshing polynomial", "statement": "Whatever arrives and in whatever order, as long as no opening is forged and no valid message is repeated, what a member has recovered for a dealer is its own section Q_k(., i) of that dealer's polynomial; valid recover messages of F+1 different members suffice for it, among any others, unless the member has meanwhile started the agreement. A repetition within the first F+1 valid messages stops the process.", "quantifier": "every dealer polynomial, every set and order of senders", "why_tests_cant": "arbitrary arrival orders and adversarial messages", "anchors": ["internal/party/ProactivizeAndShareDist.go: Recover stage (lines 356-451)"]}
{"id": "C27", "title": "Threshold signature assembly", "statement": "A share verifies exactly if it was made with the key share of its index; bytes that are no share never verify. The signature assembled with the threshold of the key from at least that many valid shares of different members, whatever else is among the shares, is the unique one and verifies under the committee key. The recover stage calls the assembly with threshold 2F although the key was shared with threshold 2F+1, so that the result never verifies (unless the leading coefficient of the key or the hash is zero); copies of one valid share are counted as several, and then nothing is assembled.", "quantifier": "every polynomial of the key sharing, every set of signers", "why_tests_cant": "all subsets of signers and key polynomials", "anchors": ["internal/party/ProactivizeAndShareDist.go: ProactivizeAndShareDist (tbls.Recover)", "internal/party/keygen.go: SigKeyGen", "internal/party/pb.go: Sender"]}
{"id": "C28", "title": "Share distribution completes the handoff", "statement": "When 2F+1 members with the refreshed reduced shares send their messages and commitments, each member that has processed what arrived ends with the full refreshed share B'(i, .); a new commitment is accepted only if it is the commitment to B'(., j), and every distributed point of an honest member is accepted by its receiver; without forged openings no member ends with anything else.", "quantifier": "every old polynomial, every agreed refreshing polynomials, every order of arrival", "why_tests_cant": "all polynomials, all orders", "anchors": ["internal/party/ProactivizeAndShareDist.go: Distribute, NewCommit, Verify, Interpolate stages (lines 530-678)"]}
{"id": "C29", "title": "The secret survives any number of handoffs", "statement": "After the client's dealing and the handoff of a committee to the next one, any F+1 members of the new committee reconstruct the secret which the client shared, whatever up to F corrupted old members and the schedule do; every honest new member can complete. The same holds after any number of further handoffs as long as the old members' commitments and witnesses are those of the polynomial they share; the code does not ensure this after a handoff (C30).", "quantifier": "every number of epochs, all randomness of every epoch, every behaviour of up to F corrupted old members, every reconstruction set", "why_tests_cant": "unbounded number of epochs", "anchors": ["internal/party/client.go: Share", "internal/party/ShareReduce.go: ShareReduceReceive", "internal/party/ProactivizeAndShareDist.go: ProactivizeAndShareDist"]}
{"id": "C30", "title": "Witnesses after a handoff", "statement": "After a handoff a member sends, in the next one, the commitments of the polynomial before the refresh with values of the polynomial after it and no witnesses; such a message is accepted exactly if the two polynomials agree at a place that depends on the secret of the setup, no member is ready for another handoff, and runs exist after which the next handoff never completes.", "quantifier": "every handoff", "why_tests_cant": "needs a second epoch, all polynomials", "anchors": ["internal/party/ProactivizeAndShareDist.go: Interpolate stage", "internal/party/ShareReduce.go: ShareReduceSend"]}
{"id": "C31", "title": "Reliable broadcast: no two different values become ready", "statement": "If each of N >= 3F+1 members counts at most one echo per sender and at most F members are corrupted, no two honest members ever announce readiness for different values of the same instance and sender. The implementation does not count senders, and with it one corrupted member makes an honest one announce anything.", "quantifier": "every schedule, every adversary controlling up to F members", "why_tests_cant": "all interleavings and adversarial message sequences", "anchors": ["internal/party/RBC.go: RBCSend, RBCReceive"]}
{"id": "C32", "title": "Reliable broadcast: validity and totality", "statement": "If all proposals taken are the honest dealer's value, no member takes two echoes of one sender, and the corrupted members, whatever else they send to whom, do not announce readiness for the dealer's hash with a wrong shard, then no member panics or returns anything else, the run ends after at most N(3N+4) steps, and when nothing is left to do every honest member has returned the dealer's value, whatever the order in which the messages arrived and however many came late. One corrupted member that announces readiness with a wrong shard can make an honest member return nothing instead: for every N > F+1, if one of the first N-F Ready messages that a member takes under the dealer's hash is one of member 0 with a shard whose first byte is wrong, then, whatever arrives later under the dealer's hash (or any other hash that does not stand for the same message), this member never returns the dealer's message.", "quantifier": "every value, every arrival order, every behaviour of up to F corrupted members except the wrong shard", "why_tests_cant": "all interleavings", "anchors": ["internal/party/RBC.go: RBCReceive"]}
{"id": "C33", "title": "Reliable broadcast: number of readiness messages", "statement": "A member announces readiness at most twice per instance, whatever arrives and however its goroutines interleave, and at most once if the handler of the Ready messages never sends. Both handlers can send: for every committee size N > 2F (and N > F+1) a run of honest members only exists in which every Echo message is counted once and a member announces twice.", "quantifier": "every interleaving of the two handler goroutines", "why_tests_cant": "needs a particular interleaving of two goroutines", "anchors": ["internal/party/RBC.go: RBCReceive (isReadySent)"]}
{"id": "C34", "title": "Provable broadcast: a certificate needs 2F+1 members", "statement": "With N at most 3F+1 members and at most F corrupted: a sender that obtains a certificate for a value obtained shares of at least 2F+1 different members, hence of F+1 honest ones; two certificates for the same instance and stage are for the same value (up to a collision of the hash); an honest member signs at most one value per instance and stage. With more members two values can be certified, and a sender that receives one share 2F+1 times reports success without a certificate.", "quantifier": "every schedule, every adversary controlling up to F members", "why_tests_cant": "all interleavings", "anchors": ["internal/party/pb.go: Sender, Receiver", "internal/party/spb.go: SPBSender, SPBReceiver, validator"]}
{"id": "C35", "title": "Certificates of one agreement round", "statement": "If no member takes two messages of one sender, every value returned has a decision certificate for the elected leader of some round and all such certificates of one round are for one value; an honest member signs an unlock message only after 2F+1 members signed that they have no lock; and a certificate that nobody has a lock exists beside a decision certificate of the same round only if an honest member without lock voted for a value it got from another member's pre-vote. That does happen: a run with both certificates exists. Without the condition on repeated messages this fails at every moment and in every committee: if a value of the elected leader is certified in the first stage, a corrupted member can make any honest member that waits for votes, has taken at most 2F yes-votes and no no-vote, return that value by repeating its own yes-vote, and no certificate comes into being by that. Likewise a corrupted member can make any honest member that has elected the leader and has not learnt yet what to vote sign the unlock message by repeating its own no-pre-vote, even if the member has the lock; so an Unlock certificate can arise although no honest member has said that it has no lock.", "quantifier": "every schedule, every adversary controlling up to F members, every round", "why_tests_cant": "all interleavings", "anchors": ["internal/party/main_process.go: preVote, vote", "internal/party/message_handler.go: messageHandler"]}
{"id": "C36", "title": "When a mixed vote set lets the round go on", "statement": "A member that takes valid votes of one round learns the result exactly if more than 2F no-votes came or a yes-vote came after 2F other votes; if they were mixed it goes into the next round with the value of the yes-votes. So with a mixed set of 2F+1 votes it does not go on if the last one is a no-vote, for every F >= 1, and what it assembles from more than 2F no-votes is never a signature, because it combines the shares of the yes-votes.", "quantifier": "every order of arrival of the votes", "why_tests_cant": "all orders of arrival", "anchors": ["internal/party/message_handler.go: messageHandler (Vote, lines 178-238)"]}
{"id": "C37", "title": "Instance identifiers never collide", "statement": "Two different protocol instances (run, dealer, stage, round, leader, broadcast step) never use the same identifier, and a signature made for one purpose in the agreement is never valid for another one or in another run. The shares for a resharing determine the dealer but not the handoff: they are valid in every other handoff under the same key. The bytes of every identifier and of everything that is signed are those of the texts, big-endian words and decimal numbers in the code.", "quantifier": "all identifiers, dealer numbers, rounds and stages", "why_tests_cant": "all pairs of instances", "anchors": ["internal/party/main_process.go: MainProcess", "internal/party/spb.go: SPBSender", "internal/party/pb.go: Sender, Receiver", "internal/party/message_handler.go: messageHandler", "internal/party/ProactivizeAndShareDist.go: ProactivizeAndShareDist"]}
{"id": "C38", "title": "FFT computes the discrete Fourier transform", "statement": "The transform of any vector of power-of-two length within the settings is the vector of the values of the polynomial at the powers of the root of unity; a shorter vector is padded; the inverse transform undoes it; the in-place variant agrees. A vector that does not fit is reported as an error, with one exception: the in-place variant panics on the empty vector.", "quantifier": "every scale, every vector", "why_tests_cant": "all vectors, all sizes up to 2^31", "anchors": ["internal/polycommit/fft.go: NewFFTSettings, expandRootOfUnity", "internal/polycommit/fft_fr.go: simpleFT, _fft, FFT, InplaceFFT", "internal/bls/globals.go: Scale2RootOfUnity"]}
{"id": "C39", "title": "FFT over the group is the FFT in the exponent", "statement": "The transform of commitments is the commitment of the transform.", "quantifier": "every vector of group elements, every scale", "why_tests_cant": "all vectors", "anchors": ["internal/polycommit/fft_g1.go: simpleFTG1, _fftG1, FFTG1"]}
{"id": "C40", "title": "Bit reversal is an involutive permutation", "statement": "Reversing the bit order of indexes below 2^k is a bijection that undoes itself, the reordering of a vector of power-of-two length twice gives the vector back and loses no element. No length is ever refused, also not those that are not a power of two, although the code has a panic for them.", "quantifier": "every word width, index and vector", "why_tests_cant": "2^32 indexes, all vectors", "anchors": ["internal/polycommit/reverse_bit_order.go: reverseBits, reverseBitsLimited, reverseBitOrder", "internal/polycommit/fft_fr.go: reverseBitOrderFr"]}
{"id": "C41", "title": "Power-of-two helpers and committee scale", "statement": "The next power of two of an argument up to 2^63 is the least power of two that is not below it, and 0 for larger arguments; the test for a power of two accepts exactly the powers of two and 0; the scale chosen for a committee of 1 to 127 members is the least one with room for one element more than it has members; all other sizes are refused.", "quantifier": "every 64-bit argument, every committee size", "why_tests_cant": "all arguments, wrap-around at the top of the range", "anchors": ["internal/polycommit/fft.go: nextPowOf2", "internal/bls/globals.go: IsPowerOfTwo", "internal/party/party_utils.go: GetScaleByCommitteeSize"]}
{"id": "C42", "title": "Vanishing polynomial of missing samples", "statement": "For a non-empty set of missing indexes the computed polynomial is the product of the (x - w^i) over the set: it vanishes exactly at the corresponding roots of unity, and its reported evaluations are its values at all roots of unity. This holds for up to half of the indexes of any power-of-two length, and for more as long as the leaves fit. (For the empty set the zero polynomial is returned; if all indexes are missing the process stops, and likewise, in the largest domain of the settings, if the leaves do not fit.) The inner step reduceLeaves multiplies any polynomials whose lengths do not decrease in the order of use and whose product fits, and stops the process on a product that does not fit; with decreasing lengths the left-over coefficients of the longer polynomial get into the result.", "quantifier": "every scale up to 31, every power-of-two length within it, every set of missing indexes within the bound", "why_tests_cant": "exponentially many index sets", "anchors": ["internal/polycommit/zero_poly.go: makeZeroPolyMulLeaf, reduceLeaves, ZeroPolyViaMultiplication"]}
{"id": "C43", "title": "Recovery of samples", "statement": "If at least one and at most half of the samples of a polynomial of half the length are missing, the recovery returns all samples exactly. Samples that belong to no polynomial of half the length are never reported: they are completed with a longer polynomial. Complete samples stop the process; in the largest domain so do samples of which so many are missing that the leaves of the vanishing polynomial do not fit. An output always contains every given sample at its place, whatever the length of the vector and the settings and whichever function supplies the vanishing polynomial.", "quantifier": "every polynomial, every set of missing samples up to one half", "why_tests_cant": "exponentially many index sets, all polynomials", "anchors": ["internal/polycommit/recover_from_samples.go: RecoverPolyFromSamples, ShiftPoly, UnshiftPoly"]}
{"id": "C44", "title": "Data-availability extension", "statement": "When the settings are for twice the length of the vector (of at least two values), the computed odd-indexed values extend the given even-indexed ones to the evaluations of a polynomial with as many coefficients as there are given values. For larger settings, which the function accepts, this can fail, and a single value is refused.", "quantifier": "every vector of even values, every power-of-two size", "why_tests_cant": "all vectors", "anchors": ["internal/polycommit/das_extension.go: DASFFTExtension, dASFFTExtension"]}
{"id": "C45", "title": "Batch inversion and evaluation-form helpers", "statement": "Batch inversion returns the inverse of each element; scaling a polynomial by k gives its value at kx; evaluating a polynomial in evaluation form at a point outside the domain equals evaluating its coefficients; linear combinations have the combined values and refuse unequal lengths (of polynomials: unless there are none at all, when the zero polynomial is returned whatever the scalars). (A zero among the elements makes all inverses zero; at a point of the domain the result is zero.)", "quantifier": "every vector of non-zero elements, every point outside the domain", "why_tests_cant": "all vectors and points", "anchors": ["internal/polycommit/legacy_recovery.go: multiInv, pOfKX, inefficientOddEvenDiv2", "internal/bls/globals.go: EvaluatePolyInEvaluationForm, LinCombFr, PolyLinComb"]}
{"id": "C46", "title": "FK20 computes all single proofs", "statement": "The FK20 procedure gives, at each index of the domain, the same proof as proving that evaluation by itself, hence one that the single check accepts; the data-availability variants do so on the domain of twice the size, in natural and in bit-reversed order. (A polynomial of one coefficient panics, and so do settings of another size.)", "quantifier": "every secret, every polynomial of 2^m coefficients with m at least 1 and 2^(m+1) within the settings, every index", "why_tests_cant": "all polynomials", "anchors": ["internal/polycommit/fk20_single.go: FK20Single, FK20SingleDAOptimized, DAUsingFK20, toeplitzPart1, ToeplitzPart2, ToeplitzPart3, toeplitzCoeffsStep", "internal/polycommit/kzg.go: NewFK20SingleSettings"]}
{"id": "C47", "title": "Coefficient padding and printing are lossless", "statement": "Padding a coefficient vector to the setup length does not change the polynomial and refuses longer ones. The sample vector has the asked width (a power of two), holds at each position the last value given for it and nothing where none was given; a wrong width, unequal lengths or too many values end the process, and a position outside the vector is a run-time panic. The printed form of a non-empty polynomial is the sum of its non-zero terms and the constant, from the highest degree down, each with the decimal value of the coefficient; two polynomials print alike exactly if they have the same coefficients up to zeros at the top.", "quantifier": "every coefficient vector, every bound", "why_tests_cant": "all vectors and lengths", "anchors": ["internal/party/party_utils.go: PadCoeff, GetSamples, PolyToString"]}
{"id": "C48", "title": "Support behind the announced completion", "statement": "A member reports the handoff as complete exactly with the (2F+1)-st announcement; these are by 2F+1 different members if nobody announces twice. Senders are not counted: 2F+1 announcements of one member are enough.", "quantifier": "every sequence of announcements", "why_tests_cant": "adversarial repetition", "anchors": ["internal/party/ProactivizeAndShareDist.go: Success stage (lines 685-700)"]}
{"id": "C49", "title": "Exactly which network messages stop an honest member", "statement": "Whatever a network peer sends, an honest member stops only on the following. A frame that is not an envelope, or a closed connection. A dealing, Commit, Reshare, Prepare, ShareReduce, NewCommit, Recover or ShareDist message that lacks one of the entries used or has an unreadable point. A sender number (Reshare, ShareDist, Ready, Finish) or dealer number (Recover, agreed result) out of range. A repeated valid Recover message. A proposal that the erasure coder refuses. Ready messages with a short hash or too large a length, or with a wrong shard, after which the broadcast returns nil (C87). A second-stage agreement Value without certificate, at a member that waits for the second stage (it has answered the first one, or the first one was cancelled because the leader is known or a value was returned). Every other message is survived at each of these stages, and one of each kind named does stop the member.", "quantifier": "every byte string delivered by the network", "why_tests_cant": "arbitrary bytes from an adversary", "anchors": ["internal/party/RBC.go: RBCReceive", "internal/party/pb.go: Receiver", "internal/party/VSS.go: VerifyVSSSendReceived", "internal/party/message_handler.go: messageHandler", "internal/party/ProactivizeAndShareDist.go: ProactivizeAndShareDist", "pkg/core/receive.go: MakeReceiveChannel"]}
{"id": "C50", "title": "Threshold key generation", "statement": "The key shares written for a committee are the values of one polynomial of degree threshold-1 at the members' indexes, so that any threshold many sign and fewer do not determine the key.", "quantifier": "every committee size and every key polynomial", "why_tests_cant": "all polynomials, all subsets", "anchors": ["internal/party/keygen.go: SigKeyGen, SigKeyGenFix, SigKeyGenFix_New"]}
{"id": "C51", "title": "Agreement on the dealing", "statement": "If honest members accept dealings of one client that carry the same commitments, their full shares lie on one common two-variable polynomial of degree F in one and 2F in the other variable, whatever else the client sent them, or the client knows a non-zero polynomial of degree at most F+1 that has the secret of the setup as a root. The members never compare the commitments they received: a client can give them shares of no common polynomial.", "quantifier": "every dealer, every choice of messages to the members", "why_tests_cant": "a malicious dealer is not an input of the honest test setup", "anchors": ["internal/party/VSS.go: VSSShareReceive, VerifyVSSSendReceived"]}
{"id": "C52", "title": "Which recover messages stop the recovery", "statement": "The recover message that a member is working on is handled as soon as the commitments of the dealer it names are accepted, that dealer's handler is still there and the agreement is not running; until then nothing that arrives is counted for any dealer. So one message with dealer number 0, or one naming a dealer who never broadcasts, stops the recovery for good.", "quantifier": "every state, every later sequence of messages", "why_tests_cant": "the claim is about everything that could follow", "anchors": ["internal/party/ProactivizeAndShareDist.go: Recover stage (lines 356-388)"]}
{"id": "C53", "title": "When share distribution is starved", "statement": "If every member sends at most one ShareDist message, each of them is taken by a goroutine when it arrives, whatever was delivered before. There are N goroutines, each for one message, whoever sent it: N messages in the name of one member, whatever they contain, keep every other message from being looked at, and the full share is never computed.", "quantifier": "every sequence of messages", "why_tests_cant": "adversarial schedules", "anchors": ["internal/party/ProactivizeAndShareDist.go: Interpolate stage (lines 612-625)"]}
{"id": "C54", "title": "Input of the agreement", "statement": "The agreement on the dealers is started exactly when F+1 dealers have a certificate; they are pairwise different, and each certificate is assembled from at least 2F+1 received votes whose signature shares verify. They need not be from 2F+1 different members: repeated votes of one member are counted.", "quantifier": "every execution, all messages of the other members", "why_tests_cant": "all interleavings and adversarial messages", "anchors": ["internal/party/ProactivizeAndShareDist.go: Recover stage (lines 389-448)"]}
{"id": "C55", "title": "Agreement on the output of MainProcess", "statement": "Two honest members that return from MainProcess for the same instance: outputs backed by decision certificates of one round are equal. A member that leaves a round with a decision certificate and without an Unlock certificate goes into the next round with the decided value. If no round has both certificates and the proposals taken in later rounds are values of honest members in those rounds, all outputs are equal. Both conditions are needed and the code ensures neither: a member that has signed the second stage of the leader's broadcast may still vote no, so that one member decides while the others go on with other values; and proposals are not checked, so that a corrupted leader of the next round gets another value through.", "quantifier": "every schedule, every adversary controlling up to F members of 3F+1", "why_tests_cant": "adversarial schedules over several rounds", "anchors": ["internal/party/main_process.go: MainProcess, preVote, vote", "internal/party/message_handler.go: messageHandler"]}
{"id": "C56", "title": "One leader per round", "statement": "If no member takes two messages of one sender, all members that elect a leader in a round elect the one given by the common coin of the round, and shares of the coin are sent only when some honest member has taken 2F+1 Finish messages with certificates. In any run a member elects with the (2F+1)-st coin share: the leader given by the coin if the shares are of different members; otherwise the coin cannot be recovered, reads as 0, and the member elects member 0. So at every moment, for every F >= 1, a corrupted member can make any honest member that lacks two coin shares or more elect member 0 by repeating its own share, while the others elect another leader. Repeated shares also make the members send theirs too early: at every moment, for every F >= 1, a corrupted member can make an honest member that has taken at most F coin shares of a round send its own by repeating one share, with no Finish message taken; so there are runs in which the coin of the first round can be recovered before any honest member has taken a Finish message.", "quantifier": "every schedule, every adversary controlling up to F members, every round", "why_tests_cant": "adversarial schedules", "anchors": ["internal/party/message_handler.go: messageHandler (Done, lines 59-92)"]}
{"id": "C57", "title": "Removal of zero padding", "statement": "Removing the zero padding of a byte string strips all trailing zero bytes and nothing else, so that padding is undone exactly for data that is empty or does not end with a zero byte. It never panics and leaves the bytes in the underlying array: resizing to the length of the data (DeleteZeroWithLen) undoes padding for all data, also after zeros of the data itself have been removed. A length beyond the capacity panics; one beyond the end of the slice, but within the capacity, succeeds and shows the bytes behind it.", "quantifier": "every byte string, every amount of padding, every capacity and length", "why_tests_cant": "a test covers finitely many strings; the claim is about strings of every length and about which bytes must never be removed", "anchors": ["pkg/utils/utils.go: DeleteZero, DeleteZeroWithLen"]}
{"id": "C58", "title": "FK20 multi-proofs", "statement": "The data-availability variant of FK20 for chunks of l coefficients gives, for each of the cosets of the extended domain, the commitment to the quotient of the polynomial by X^l - x^l; the multi-opening check accepts it with the values of the polynomial on that coset, and the bit-reversed variant gives the same proofs in that order. (The plain FK20Multi panics for every polynomial when l is above one, and every variant panics when there is a single chunk.)", "quantifier": "every secret, every polynomial of k*l coefficients with k at least 2 and l powers of two, every coset", "why_tests_cant": "all polynomials, secrets, chunk lengths and cosets; the proof is a group element whose discrete logarithm a test cannot look at", "anchors": ["internal/polycommit/fk20_multi.go: FK20Multi, FK20MultiDAOptimized, DAUsingFK20Multi", "internal/polycommit/kzg.go: NewFK20MultiSettings", "internal/polycommit/kzg_multi_proofs.go: CheckProofMulti"]}
{"id": "C59", "title": "Text form of points is lossless", "statement": "The hexadecimal text of a G1 point is read back as the same point whatever the receiver held; a text is accepted exactly if it consists of an even number of hexadecimal digits (either case) whose bytes are a compressed point; a refused text leaves the receiver unchanged.", "quantifier": "every point, every text, every previous content of the receiver", "why_tests_cant": "all texts and points", "anchors": ["internal/bls/bls_all.go: MarshalText, UnmarshalText"]}
{"id": "C60", "title": "Address files are read line by line", "statement": "The addresses handed to a committee of N members are the first N lines of the file, in order and unchanged; a file with fewer than N lines is a run-time panic, and a file that cannot be read ends the process. A newline at the end of the file counts as one more, empty, line: asking for one address more than the file has gives an empty address instead of a panic.", "quantifier": "every file content, every N", "why_tests_cant": "all file contents", "anchors": ["cmd/DyCAPs/main.go: ReadIpList, ReadPortList, the slices [0:*N]"]}
{"id": "C61", "title": "Scalar back ends agree", "statement": "Any sequence of scalar operations and branches on their tests ends with the same scalars whether the code is built with the default library or with tag bignum_hol256, and also with tag bignum_pure as long as no zero is inverted (there the destination keeps its old value instead of becoming zero). Encoding to 32 bytes agrees for scalars of at least 31 significant bytes; with both tags it panics for scalars below 2^120, and in between, for a scalar of L significant bytes, bytes L-16 to 15 come in the opposite order, so that the encoding is right exactly if these read the same both ways and otherwise belongs to another number. With tag bignum_hbls the results agree too if no zero is inverted or divided by and all uint64 constants are below 2^63, and so does the encoding of every scalar; each constant from 2^63 on becomes a different scalar there. PowModFr (bignum_pure only) gives the power of the field with the exponent read as a number; the exponent r-1 gives 1 and r-2 the inverse for every base but 0; exponents add up as long as their sum is less than r, but not as scalars, for any base but 0 and 1.", "quantifier": "every sequence of operations, every initial contents, every scalar", "why_tests_cant": "all programs over 255-bit numbers; the tests are compiled for one back end only", "anchors": ["internal/bls/bignum_kilic.go", "internal/bls/bignum_pure.go", "internal/bls/bignum_hol256.go", "internal/bls/bignum_hbls.go"]}
{"id": "C62", "title": "Reliable broadcast: integrity", "statement": "If each member counts at most one echo per sender and at most F of N >= 3F+1 members are corrupted, every readiness message of an honest member carries the hash of a proposal that some honest member took, and so does every value an honest member returns; if all proposals taken are the dealer's, every honest member returns the dealer's value or nothing (or a SHA-256 collision). The sender of a proposal is not checked: a corrupted member whose proposal arrives before the honest dealer's has its own value returned.", "quantifier": "every schedule, every behaviour of up to F corrupted members", "why_tests_cant": "all interleavings and adversarial message sequences", "anchors": ["internal/party/RBC.go: RBCReceive (73, 108-292)"]}
{"id": "C63", "title": "A committee that hands over to itself", "statement": "In the role \"onlyOneCommittee\" of main.go the members receive a dealing and then run the handoff among themselves. Afterwards every member holds its share of the refreshed polynomial, any F+1 members still reconstruct the client's secret, and every member can complete. The ShareReduce message that such a member sends next to member j is accepted exactly if the refresh did not change the polynomial at the point (i, j); a second handoff by the same members need never complete.", "quantifier": "every secret, all randomness, every behaviour of up to F corrupted members during Prepare and ShareReduce", "why_tests_cant": "all randomness and all adversarial message sequences; the second handoff is never run by the program", "anchors": ["cmd/DyCAPs/main.go: onlyOneCommittee (112-162)", "internal/party/ShareReduce.go: PrepareReceive, ShareReduceSend, ShareReduceReceive", "internal/party/ProactivizeAndShareDist.go: ProactivizeAndShareDist"]}
{"id": "C64", "title": "The older recovery of missing samples: when it gives the polynomial, and when it crashes", "statement": "ErasureCodeRecover, given a vector of 2^j entries some of which are nil (2^j within the settings), returns all 2^j values of the unique polynomial with as many coefficients as there are given samples, whatever the samples are, provided that more than four are missing or that the missing ones and one more are more than half. It then always succeeds at the first attempt (2 is not a root of unity of a power-of-two order), so the error 'max attempts reached' is unreachable, and it returns the same as RecoverPolyFromSamples. In the remaining case - at most four missing and 2(m+1) <= 2^j, which includes the case that nothing is missing - it always stops with an index out of range, because only nextPowOf2(m+1) values of the vanishing polynomial are computed. If all are missing it returns zeros (or the error of the transform at full width). Vectors longer than the settings and empty vectors give no output. An output always contains every given sample at its place, whatever the length of the vector and the settings.", "quantifier": "all settings up to 2^31, all power-of-two lengths, all patterns of missing entries, all sample values", "why_tests_cant": "The existing test tries random patterns of one size (128) with at least seven missing samples and so never meets the crash; that the first attempt succeeds for every pattern and every size is an algebraic fact about 2 and the roots of unity.", "anchors": ["internal/polycommit/legacy_recovery.go:14-50", "internal/polycommit/legacy_recovery.go:97-160", "internal/polycommit/legacy_recovery.go:163-287"]}
{"id": "C65", "title": "Key files: all processes of a committee get shares of one key, and what happens otherwise", "statement": "After the setup run (GenCoefficientsFile with bound F), every process started with the same F gets from the files the value at its index, and the commitments, of the one polynomial picked for its committee, whatever committee size it is started with; an identifier not below the size stops it. A process started with a larger F, or without one of the two files, stops. A process started with a smaller F does not notice: it uses the polynomial cut off, with the right committee key, and the others accept its signature shares only if the part cut off vanishes at its index. The claim that fewer members than the threshold cannot sign fails: each process reads all coefficients, so one reader of one directory signs everything alone for both committees and can make the share of every member.", "quantifier": "all bounds, all picked coefficients, all committee sizes and identifiers, every lawful gob codec and hash", "why_tests_cant": "The tests generate keys in memory; consistency over all sizes, bounds and coefficients, and the consequence of a mismatched bound, are not observable in a single run.", "anchors": ["internal/party/keygen.go:32-137", "cmd/DyCAPs/main.go:34-38", "cmd/DyCAPs/main.go:52", "cmd/DyCAPs/main.go:85", "cmd/DyCAPs/main.go:122"]}
{"id": "C66", "title": "Commitment to a polynomial given by its values", "statement": "CommitToEvalPoly, with the setup prepared by the inverse transform of its first 2^j points and the values of a polynomial at the 2^j roots of unity, returns the same commitment as CommitToPoly on the coefficients, for every polynomial; any 2^j values are committed to as the one polynomial of that length that has them. Any other number of values stops the process, in particular those FFT computes for a polynomial of at most half the length.", "quantifier": "all settings up to 2^31, all powers of two within settings and setup, every trapdoor, every polynomial", "why_tests_cant": "The test compares one polynomial of 16 coefficients; equality for every polynomial is the adjointness of the two transforms.", "anchors": ["internal/polycommit/kzg_single_proofs.go:14-18", "internal/polycommit/fft_g1.go"]}
{"id": "C67", "title": "Secrecy when the corrupted members change between committees", "statement": "In a handoff every dealer sends a new member the row of its refreshing polynomial at that member's index (the Reshare message), so a new member can compute the old full share of its own index. Corrupted members of the old and of the new committee together therefore compute the secret as soon as they have F+1 different indexes, although neither committee has more than F corrupted members. Conversely, over any number of handoffs, if the corrupted members of any two consecutive committees have together at most F different indexes and every agreed set of dealers contains an honest one, then the values they see are the same for every secret: there is a bijection between the histories with one secret and those with another which leaves all those values unchanged. Commitments and witnesses are not counted among the values.", "quantifier": "all N and F, all randomness of the client and the dealers, any number of handoffs, all sets of corrupted members", "why_tests_cant": "No test compares what an attacker sees under two secrets; that nothing is learnt is a statement about all polynomials, and the attack needs members of two committees.", "anchors": ["internal/party/ProactivizeAndShareDist.go:215-255", "internal/party/ProactivizeAndShareDist.go:300-330", "internal/party/ShareReduce.go"]}
{"id": "C68", "title": "Which byte strings are parsed, and as what", "statement": "A byte string is read without an error as a message of a given type exactly if it is a sequence of records of the protocol-buffer wire format (tags with a number from 1 to 2^29-1; integers of at most ten bytes and 64 bits; values of 8, 4 or the announced number of bytes; groups ended by their own number) in which the strings are valid UTF-8, the packed integers are well formed and the nested messages are themselves acceptable; unknown numbers and other wire types do not matter. The fields are then those of the records: the last occurrence of a single value, all occurrences of a repeated one in order, nested messages merged, zero or empty without an occurrence. If an error is returned, which most receivers ignore, the fields are those of the records before the first offending place. What is written has the same format. A received frame ends the process exactly if it is not such a sequence or carries a type that is not UTF-8. Field numbers and types are those declared in Message.proto, and every field of a message as the program sees it is the declared field of that name.", "quantifier": "every byte string and every message type of Message.proto", "why_tests_cant": "All byte strings an adversary may send; the tests only parse what they have written.", "anchors": ["pkg/protobuf/Message.proto", "pkg/core/receive.go:47-70", "pkg/core/message_encapsulation.go:45-84"]}
{"id": "C69", "title": "When the agreement of honest members ends", "statement": "At least 2F+1 members follow the protocol and the others send nothing; each message that was sent is taken at most once by each receiver, in any order. No message stops a member. If at most 4F+1 members are active, all that return return the same value, and what is returned is the input of an active member. Where nothing is left to do (all messages have been taken and no member that has not returned can take a step), every member has returned, or every waiting member in the lowest round has taken votes of both kinds, at most 2F of each, without a result; then some member had the leader's lock and 2F+1 others had not. So everybody returns if exactly 2F+1 members are active, or F = 0 - but it is refuted in general: with N = 4, F = 1, all members honest and all messages delivered, nobody may ever return.", "quantifier": "every committee, input, coin and schedule", "why_tests_cant": "The deadlock needs one particular order of messages in which a lock arrives after some members have voted; a test sees one order per run, and reaching quiescence for every schedule cannot be enumerated.", "anchors": ["internal/party/main_process.go: MainProcess", "internal/party/spb.go", "internal/party/pb.go", "internal/party/message_handler.go"]}
{"id": "C70", "title": "Forged first-stage values stop the agreement", "statement": "A member accepts the first Value message of an instance whoever sent it. In every committee with F >= 1 and N <= 3F+1 there is a reachable state, obtained by sending each honest member one Value message per instance of round 0 with a value of its own, after which no honest member ever returns, whatever is delivered later, as long as corrupted members give no coin shares: no instance is certified, no leader is elected, and all stay in round 0. The expected termination is thereby refuted.", "quantifier": "every committee with F >= 1, at most F corrupted members, every later schedule", "why_tests_cant": "The tests have no adversary, and that no later schedule helps is a statement about all of them.", "anchors": ["internal/party/pb.go:54-90", "internal/party/main_process.go: MainProcess"]}
{"id": "C71", "title": "Echo messages of one member stop a broadcast", "statement": "A member counts Echo messages without looking at who sent them and, while holding both locks of the instance, writes to a channel of capacity N that is only emptied by a goroutine needing one of these locks. From every state of an instance in which the member has not yet announced readiness, (N+1)(F+1) Echo messages of one single sender are enough to block it: whatever is delivered afterwards and however the goroutines are scheduled, the instance never outputs anything at this member, and only the dealer's own start is still possible. That a broadcast by an honest dealer ends whatever corrupted members send is thereby refuted; C32 needs its condition that no member's Echo is taken twice.", "quantifier": "every committee with 2F+2 <= N, every such state, every sender, every later schedule", "why_tests_cant": "No test sends a repeated Echo, and that no later schedule frees the member is a statement about all schedules.", "anchors": ["internal/party/RBC.go:104-165", "internal/party/RBC.go:167-235"]}
{"id": "C72", "title": "Goroutines that collect the points of the new share", "statement": "In the last stage each of the goroutines that has checked a point appends it to a slice shared without a lock, and the one that finds 2F+1 elements interpolates the share. If no two appends overlap, then in every interleaving of all other accesses nothing panics, the share is never anything but the polynomial f through the points, and once at least 2F+1 goroutines have passed it is f. If the goroutines pass one after another, Success is moreover broadcast at most once, and exactly once when at least 2F+1 of them have passed. In any interleaving at all, a share that is set takes the values of 2F+1 different members at the indexes of 2F+1 different members. But with overlapping appends, although all points are right: 2F+1 goroutines may pass without any share (the stage never ends); the process may panic on an index out of range; the share may be a polynomial other than f; and Success may be broadcast twice.", "quantifier": "every F, number of goroutines, capacity policy of append, set of points and schedule (the four failures: every F >= 1)", "why_tests_cant": "The failures need particular interleavings of a few memory accesses, which a test run practically never meets; absence of failures is a statement about all interleavings.", "anchors": ["internal/party/ProactivizeAndShareDist.go:610-678"]}
{"id": "C73", "title": "Goroutines of the voting stage", "statement": "The voting stage has N goroutines, each of which takes one Reshare message whoever sent it; if the commitments of the named dealer are not yet accepted the goroutine waits for the one token that the verifying goroutine of the dealer puts into a channel. Every run of these goroutines gives the same answers to the same messages as some sequential handling of messages whose dealers are accepted. If the messages taken name different members, there is a goroutine for every further member, and whenever no goroutine of the stage can go on, the member has voted on the message of every honest dealer that is accepted and whose message has arrived, in whatever order acceptance and message came; its N answers are valid for their receivers. That this holds whatever corrupted members send is refuted twice: N messages naming one sender without accepted commitments use up all goroutines for good; and one forged message in the name of an honest dealer, taken before the acceptance, can take the token, so that the dealer's own message is never voted on.", "quantifier": "every committee, content of messages, order of deliveries and schedule of the goroutines; the refutations: every committee and honest dealer", "why_tests_cant": "The tests start the stage after everything has been broadcast; lost tokens need a forged message and a particular order, and absence of lost votes is a statement about all schedules.", "anchors": ["internal/party/ProactivizeAndShareDist.go:143-213", "internal/party/ProactivizeAndShareDist.go:256-332"]}
{"id": "C74", "title": "Decoding a broadcast while Ready messages are being handled", "statement": "The goroutine that decodes a reliable broadcast reads the highest number of equal Ready hashes and the hash itself without the lock under which the other goroutine writes them, and even overwrites the hash. However these accesses interleave: if Ready messages with the dealer's hash carry the sender's shard and those with other hashes come from at most F members, nothing panics and nothing but the dealer's message is returned; the decoding goroutine makes at most 6F+7 steps; and once the messages of N-F honest members have been taken it can only stop, while the lock is free, by returning the message. That the first round of decoding suffices when everything that arrives is right is refuted: the handler may restore the hash that the decoder has just cut, so that each round up to number F can fail.", "quantifier": "every committee, message, order of deliveries and interleaving of single accesses; the refutation: every number of failed rounds up to F", "why_tests_cant": "The failing window lies between two adjacent statements; a test that passes says nothing about the schedules it did not see.", "anchors": ["internal/party/RBC.go:163-232", "internal/party/RBC.go:242-291"]}
{"id": "C75", "title": "Every honest member of the new committee gets to the agreement", "statement": "Take any set of at least 2F+1 honest members of the new committee while the others are silent. Whatever the order in which their broadcasts are output and their Reshare and Recover messages are delivered and in which their goroutines go on, no honest member panics or stops, every run has at most 2h^3+3h^2+h(N+2) steps (h honest members), and as soon as nothing more can happen before an agreement returns, every honest member has called the agreement with the combined signatures of more than F distinct dealers. Every state that can be reached can be continued to such a state without any called agreement having to return.", "quantifier": "every N and F, every set of 2F+1 or more honest members, every sharing of zero by each of them, every signature scheme whose shares verify, every interleaving of deliveries and goroutine steps of all members", "why_tests_cant": "That all members get there is a statement about all schedules of a distributed computation; a test sees the few schedules the machine happens to take.", "anchors": ["internal/party/ProactivizeAndShareDist.go:100-213", "internal/party/ProactivizeAndShareDist.go:215-332", "internal/party/ProactivizeAndShareDist.go:334-453"]}
{"id": "C76", "title": "A handoff in which all members are honest need not complete", "statement": "Claim to be settled: when all N members of the new committee are honest and every message is delivered in the end, the handoff completes. It does not. A handler of Recover messages leaves its loop when the agreement has been called, and Refresh waits for a recovered polynomial only if the dealer's commitments are missing. If the Recover messages about the dealers 1..F+1 reach the first N-2F members first, and those about the last F+1 dealers reach the other 2F members first, every member calls the agreement, and the agreement may return the input of member N. From then on, whatever else is delivered and whenever each member goes on, the first N-2F members refresh with zero polynomials and keep their old shares, the other 2F members have refreshed shares; every new commitment of the first N-2F members is rejected by everybody, and no member ever computes a full share, whatever ShareDist messages arrive. (The only condition: the sum of the last F+1 dealers' polynomials is not zero at (secret of the setup, a) for a = 1..N-2F.)", "quantifier": "every N >= 3F+1, F >= 1, every old polynomial, all polynomials of the dealers meeting the condition, every continuation of the run after the agreement has been called, every order of the events of the distribution", "why_tests_cant": "The schedule is legal for any network but rare on one machine; that no continuation of it completes is a statement about all futures.", "anchors": ["internal/party/ProactivizeAndShareDist.go:380-450", "internal/party/ProactivizeAndShareDist.go:464-499", "internal/party/ProactivizeAndShareDist.go:571-607", "internal/party/ProactivizeAndShareDist.go:615-678"]}
{"id": "C77", "title": "From the refreshed shares all honest members reach the end of the handoff", "statement": "Let at least 2F+1 members of the new committee be honest, hold refreshed shares of one polynomial B' (with the commitments to the old polynomial B and the sums that lead to those of B'), and let the others be silent. However the new commitments, ShareDist and Success messages are delivered: no member panics; at most 4h^2 steps are possible (h honest members); a full share, when it is computed, is B'(i,y); nobody leaves the handoff without its share, nor before 2F+1 honest members have theirs; and when nothing more can happen every honest member has B'(i,y) and has left the handoff. The premise holds whenever every honest member has recovered the polynomials of all agreed dealers, with B'(0,0) = B(0,0); and for any F+1 honest dealers there is an order of deliveries from the start of Proactivize in which it holds whichever honest input the agreement returns and whatever happens after the agreement has been called. (C76: there are other orders in which it does not.)", "quantifier": "every N, F, set of honest members of at least 2F+1, every B and B', every sequence of deliveries and goroutine steps", "why_tests_cant": "All interleavings of deliveries and goroutines at all members, and termination with the right share in each of them, are beyond a finite set of runs.", "anchors": ["internal/party/ProactivizeAndShareDist.go:464-499", "internal/party/ProactivizeAndShareDist.go:530-569", "internal/party/ProactivizeAndShareDist.go:571-607", "internal/party/ProactivizeAndShareDist.go:615-713"]}
{"id": "C78", "title": "From the dealing to the reduced shares of the whole new committee, with active corrupted old members", "statement": "Let an honest client share s; let at least F+1 members of the old committee be honest and at most F corrupted, each corrupted one sending at most one Prepare and one ShareReduce message to each new member, with any content whose points decode, that contains no hash collision with the honest Prepare message and no forged opening. In whatever order the client's, Prepare and ShareReduce messages are delivered: no honest member of either committee panics; the number of deliveries is bounded by h + b + 2hn (h honest old members, b corrupted messages, n honest new members); an old member that has taken its message holds the full share of the client's polynomial B; a new member that has left ShareReduceReceive holds B(x,i) and the commitments to B; and when nothing more can be delivered every honest member of both committees has got this far, which every run can be continued to. The same holds for a later handoff, when the old members hold full shares of any B from an earlier one. The states so reached are those in which the refreshing begins: there is an order of deliveries in which the new committee goes on to full shares of a B' with B'(0,0) = s.", "quantifier": "every N >= 3F+1, secret, randomness of the client, choice of honest and corrupted members, contents of the corrupted messages within the provisos, and every sequence of deliveries", "why_tests_cant": "All interleavings of the messages of two committees together with all contents chosen by an adversary; termination for every member in each of them.", "anchors": ["internal/party/VSS.go:12-74", "internal/party/ShareReduce.go:14-60", "internal/party/ShareReduce.go:62-141", "internal/party/ShareReduce.go:144-168", "internal/party/ShareReduce.go:171-206", "cmd/DyCAPs/main.go:61-65", "cmd/DyCAPs/main.go:93-94"]}
{"id": "C79", "title": "One process that stops takes along every process it is connected to", "statement": "When a process stops, for whatever reason, every process that it has connected to stops, then every process that these have connected to, and so on: left to themselves, in whatever order bytes are read, frames handed on and messages taken, the processes come to rest after a bounded number of steps, and then exactly those are down that can be reached along connections from one that was down (if all arriving frames are envelopes; more otherwise). So one member of the old committee, or the client, takes along both committees; one member of a committee whose members are all connected takes along all, whatever F is; a program that does not belong to any committee takes along all members by connecting to one of them and ending, without sending a byte, or by sending one frame that is no envelope and staying; a member that connects where nobody listens stops without trying again and takes along those it has already connected to; a process that writes to one that is down stops as well, with all it leads to. The only exception is a process whose dispatcher no longer takes messages and whose receive channel is full. Conversely, as long as nobody stops or connects in vain and all arriving frames are envelopes, everybody stays up.", "quantifier": "every number of processes, graph of connections, history of arrivals, reads and stops, and every order of the events that follow", "why_tests_cant": "Reachability over all graphs of connections and all interleavings of reading, handing on and ending in several processes; tests in one process end when the first log.Fatalln is called.", "anchors": ["pkg/core/receive.go:35-74", "pkg/core/send.go:18-61", "internal/party/party_utils.go:15-37", "cmd/DyCAPs/main.go:57-58", "cmd/DyCAPs/main.go:90", "cmd/DyCAPs/main.go:183"]}
{"id": "C80", "title": "A share can be refreshed while the polynomials it is refreshed with are still arriving", "statement": "Refresh adds the recovered polynomials of the agreed dealers to the reduced share coefficient by coefficient, while the handlers of the recovery keep running. However their steps fall between those of the loop: the loop does not fail; for every agreed dealer there is a number c such that exactly the coefficients from c on get the dealer's part, while the sum of the commitments has the parts of all agreed dealers. If every agreed dealer is recovered, or its commitments are not accepted yet, at the moment the loop comes to it, all numbers are 0 and the new share is the member's share of B plus the polynomials of all agreed dealers, with the same secret; in particular, if all agreed dealers are recovered when the agreement ends, the interleaving does not matter. Otherwise, with honest messages only, a member can get a share of which the first coefficient lacks a dealer's part and the second has it: it is the share of no polynomial B plus the polynomials of some of the agreed dealers.", "quantifier": "every committee size, all polynomials, all messages before and during Refresh, every interleaving of the loop with the recovery", "why_tests_cant": "The outcome depends on which of the F+1 reads of Q[j][PID+1] a handler falls between; tests on one machine have all votes in long before the agreement ends.", "anchors": ["internal/party/ProactivizeAndShareDist.go:375-451", "internal/party/ProactivizeAndShareDist.go:455-499"]}
{"id": "C81", "title": "Corrupted members cannot keep the honest ones from the agreement by the messages they may send once", "statement": "Take any set of at least 2F+1 honest members of the new committee. The other members broadcast any commitments that decode (what is accepted is delivered to all), and send each honest member at most one Reshare message and, for each dealer whose commitments are accepted, at most one Recover message each, with any contents that decode and do not open a commitment to a wrong value. All honest members decide alike about the commitments of every dealer and accept those of honest ones. Whatever the order of deliveries and goroutine steps: no honest member panics or stops; every run is finite, with at most 2h^3+3h^2+h(N+2)+(2h+2)b steps (h honest members, b messages of corrupted ones); as soon as nothing more can happen before an agreement returns, every honest member has called the agreement with the combined signatures of more than F distinct dealers; and every state that can be reached can be continued to such a state without a called agreement returning. For any F+1 honest dealers there is an order in which all honest members agree on exactly these and then hold shares of one refreshed polynomial with the old secret, from which they finish the handoff.", "quantifier": "every N and F, every set of 2F+1 or more honest members, every sharing of zero by each of them, every signature scheme whose shares verify, every such set of messages of the corrupted members, every interleaving of deliveries and goroutine steps of all honest members", "why_tests_cant": "It quantifies over all messages of an adversary together with all schedules; the tests of the repository have neither corrupted members nor control over the schedule.", "anchors": ["internal/party/ProactivizeAndShareDist.go:100-213", "internal/party/ProactivizeAndShareDist.go:215-332", "internal/party/ProactivizeAndShareDist.go:334-453"]}
{"id": "C82", "title": "Corrupted members cannot keep the honest ones from finishing the handoff by the messages they may send once", "statement": "All honest members of the new committee, at least 2F+1, hold their refreshed reduced shares of one polynomial B'. The other members broadcast any commitments that are points (also different ones to different members), send each honest member at most one ShareDist message each, with a point as witness and any value, that does not open the commitment to B'(., k) of its sender k to a wrong value, and any number of Success messages. Whatever the order of deliveries and goroutine steps: no honest member panics or stops; every run is finite, with at most 4h^2+2b steps (h honest members, b messages of corrupted ones); a full share that is computed is the member's share of B'; as soon as nothing more can happen every honest member has its share and has left the handoff; a member leaves only with its own share and after 2F+1-s honest members have theirs, where s is the number of Success messages that corrupted members have sent it; every state that can be reached can be continued to the end. Together with C81: for any F+1 honest dealers there is an order of the deliveries before the agreement with which the whole handoff comes to its end, with the same secret, although corrupted members take part in both stages.", "quantifier": "every N and F, every set of 2F+1 or more honest members, every old and refreshed polynomial, every such set of messages of the corrupted members, every interleaving of deliveries and goroutine steps of all honest members", "why_tests_cant": "It quantifies over all messages of an adversary together with all schedules; the tests of the repository have neither corrupted members nor control over the schedule.", "anchors": ["internal/party/ProactivizeAndShareDist.go:500-714"]}
{"id": "C83", "title": "One ShareDist message in the name of an honest member can keep every member from ending the handoff", "statement": "All honest members of the new committee hold their refreshed reduced shares of one polynomial B' (the situation in which, by C77 and C82, every one of them ends the handoff). The receiver of a ShareDist message takes its sender from the message. Let exactly 2F+1 members be honest, k and v two of them (or the same), and let one message be sent to v in the name of k whose value does not open k's new commitment, with any point as witness. There is an order of deliveries after which, whatever is delivered afterwards, member v never computes a full share and no honest member ever leaves the handoff. In general, with h honest members: false messages to the members V in the names of h-2F or more honest members keep all of V without shares, and if V has h-2F or more members nobody leaves the handoff. Such messages need no knowledge: of two messages with the same witness and different values at least one is false.", "quantifier": "every N and F, every set of 2F+1 or more honest members, every old and refreshed polynomial, every choice of impersonated and addressed members, every false message, every continuation of the run", "why_tests_cant": "It says that no continuation of a run completes the handoff; a test that waits cannot tell a handoff that never ends from one that is slow, and the tests of the repository send no message in the name of another member.", "anchors": ["internal/party/ProactivizeAndShareDist.go:609-714"]}
{"id": "C84", "title": "When the processes of a deployment have to be started", "statement": "A process listens, sleeps for the time given by its flag (t1 for a member of the new committee or of a single committee, t2 for a member of the old committee, t3 for the client), and then connects to the processes in its lists, once each. (a) If everybody whom a process connects to is started before the end of its sleep - new members less than t1 after each other, members of both committees less than t2 after each old member, old members less than t3 after the client - then in every order of events nobody ends, and from every state reached all processes can get all their connections. (b) If a process has to connect to one that is started after the end of its sleep, it ends, and so does every process that wants to connect to it later. In particular, if one committee hands over to itself, and one member is started more than t1 after the first one, the whole committee ends. (c) A process ends only because somebody it connects to does not listen, or because somebody who had connected to it has ended; the latter can always happen.", "quantifier": "every committee size, every setting of the three flags, every plan of starting times, every order of events (in (b): every order in which sleeps end on time and connections take no time)", "why_tests_cant": "The tests of the repository start all members inside one process with all listeners made before the first connection; the failures depend on the times at which separate processes are started.", "anchors": ["cmd/DyCAPs/main.go:28-30", "cmd/DyCAPs/main.go:53-58", "cmd/DyCAPs/main.go:86-90", "cmd/DyCAPs/main.go:123-128", "cmd/DyCAPs/main.go:179-183", "internal/party/party_utils.go:15-35", "pkg/core/send.go:18-35", "pkg/core/receive.go:16-58"]}
{"id": "C85", "title": "Scalars as decimal text", "statement": "A scalar that is printed (FrStr) and read again (SetFr) is the same, with the default back end and with tags bignum_pure and bignum_hol256. With the default back end any sequence of digits, with or without leading zeros, gives the number modulo r, and a sign in front is ignored: a text with a minus sign never gives the negative, unless that is zero. The other two do not reduce (so they agree with the default exactly for numbers below r), take the sign into account without reducing (bignum_hol256: the complement to 2^256), and bignum_hol256 panics from 2^256 on. With a superfluous zero in front these two read the digits in base 8: they panic if there is an 8 or a 9 and otherwise give a smaller number, unless the number is below 8. A text without digits makes these two panic; the default back end does not notice that a text is no number and takes whatever the library has left in its variable. The constants computed at the start are -1, (r-1)/2, -2 and the inverse of 2.", "quantifier": "every scalar, every text of digits of any length, with or without sign and leading zeros", "why_tests_cant": "A test reads and prints finitely many numbers, and with one build tag at a time; the claims compare three back ends on all texts.", "anchors": ["internal/bls/bignum_kilic.go:28-32", "internal/bls/bignum_kilic.go:70-75", "internal/bls/bignum_pure.go:53-65", "internal/bls/bignum_hol256.go:25-33", "internal/bls/globals.go:20-23", "internal/bls/globals.go:65-72"]}
{"id": "C86", "title": "A reliably broadcast message arrives as it was given", "statement": "RBCSend puts one RBCPropose envelope, with the caller's number and the instance identifier, into the queue of every member and nothing else; RBCSendExclude does the same and leaves out one member. If the type of the message is valid UTF-8, the data of the envelope parse to the message, and the envelope survives the wire. Under the conditions of C32 (at most F members are faulty, one proposal, authentic votes that are counted once and correct shards under the proposed hash), RBCReceive of an honest member returns the message itself - type, identifier, sender and data -, never another one or nil, and from every reachable state there is a continuation in which all honest members return it. If a dealer proposes other bytes to all, the honest members agree as well: they return what can be read of the bytes up to the first error, not nil, so that none learns of the error. The message of default values only is an exception: it alone is proposed as no bytes, which the erasure coder refuses, so every member that takes this proposal stops.", "quantifier": "every message with a type in UTF-8, every instance identifier, every committee with 3F+1 <= N, every set of at most F faulty members and every execution", "why_tests_cant": "A test sends finitely many messages along one schedule with honest members; the claim is about all messages and all schedules with faulty members.", "anchors": ["internal/party/RBC.go:27-35", "internal/party/RBC.go:37-42", "internal/party/RBC.go:283-291"]}
{"id": "C87", "title": "A broadcast that cannot be decoded stops the process", "statement": "RBCReceive returns nil when it cannot decode, and the goroutines that wait for Commit and NewCommit use the result without looking. So, if one of the first N-F Ready messages that a member takes under the dealer's hash is one of member 0 with a shard whose first byte is wrong, and all other Ready messages announce the dealer's hash (with whatever shards, from whomever, in any order, mixed with any other messages and any number of decoding attempts), the waiting goroutine never gets any data: it waits or panics. When the Ready messages of all members have been taken and no decoding attempt is left, it has panicked, and with it the process. (The only way out is a collision of the hash.) That a corrupted member cannot stop an honest one through a broadcast of an honest dealer is thereby refuted: in a committee of four, one Ready message to each honest member stops all three. Under the conditions of C32, which exclude wrong shards under the dealer's hash, no waiting goroutine panics, whatever bytes are proposed.", "quantifier": "every N > F+1, every message, every wrong shard, and every schedule of proposals, echoes, announcements and decoding attempts", "why_tests_cant": "The tests run honest members only, and one schedule; the claim is about all schedules after one wrong message and about all behaviours of corrupted members.", "anchors": ["internal/party/RBC.go:243-291", "internal/party/ProactivizeAndShareDist.go:145-148", "internal/party/ProactivizeAndShareDist.go:573-574"]}
{"id": "C88", "title": "One member that answers twice stops the whole agreement", "statement": "SPBSender goes on to its second stage as soon as it has taken 2F+1 valid Echo shares, whoever made them: the second Value message carries a certificate exactly if these first 2F+1 shares are of different members, and no signature otherwise. In the latter case every member that waits for the second stage of this sender, the honest sender included, ends its process (log.Fatalln) when it takes the message. For every F >= 1 two equal Echo messages of one member, taken before the last of 2F-1 others, are enough; in a committee of four all three honest members are stopped. That an honest sender's messages never stop an honest member is thereby refuted. It holds if the sender takes no two shares of one member.", "quantifier": "every committee, round, sender, value and sequence of Echo messages, every state of the receivers", "why_tests_cant": "The tests have honest members only, which answer once; the claim is about all sequences of answers and all states of the receivers.", "anchors": ["internal/party/pb.go:16-52", "internal/party/pb.go:55-88", "internal/party/spb.go:16-34", "internal/party/main_process.go:71-82"]}

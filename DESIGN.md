# Formal model of DyCAPS in Rocq (Coq 8.16.1)

The code under study is the Go program in `/repo` (DyCAPS: dynamic-committee
proactive secret sharing). It was read as text; it was neither built nor run.

## 1. Shape of the development

* `theories/*Model.v` (and the model parts of the foundation files `Fr.v`, `GoBase.v`, `Poly.v`, `Biv.v`) hold
  definitions. Each one cites the file and the lines in `/repo` it follows and says where it simplifies.
* `DispatchSpec.v`, `PartySpec.v`, and the first definitions of `Poly.v` (value of a polynomial as a sum),
  `Biv.v` (bivariate polynomials) and `FftProofs2.v` (the transform as a sum) hold the vocabulary in which claims are
  stated, independent of the model's loops. Where a claim needs only ordinary arithmetic, the statement spells it out in place.
* `theories/*Proofs*.v`, `ProacRun.v`, `ProacSig.v`, `ProacRecover.v`, `ProacDist.v`, `ProacLinks.v`, `RbcGood.v`, `FftG1.v` hold lemmas.
* `theories/Properties*.v` hold the headline theorems, each followed by `Print Assumptions`, with an `Example` next
  to it (or at the end of the section) that shows a concrete case which meets its hypotheses.
* `PropertiesTight.v` holds theorems that were added because a wrong program had slipped through (section 6).

Names: a theorem for claim NN is `cNN_...`; `cNN_..._partial` proves only a part of the claim;
`cNN_..._refuted : exists ..., ...` shows that something one would expect is false of the code. Several statements in
`properties.jsonl` name such exceptions explicitly; the `_refuted` theorem is then the evidence for that part of the statement.

## 2. Modelling decisions

* **Scalars** (`internal/bls`, `Fr`). A concrete type: integers `0 <= z < r` with
  r the modulus of `globals.go`. Sum, product, inverse are computed (so that
  examples run). That r is prime is proved (Pocklington criterion, `Prime.v`),
  so the field laws are theorems, not assumptions. The kilic back end is the
  one used everywhere (default build tag); its limb arithmetic is not modelled: `Add`, `Sub`, `Mul`,
  `Inverse` are taken to be the field operations, with `Inverse 0 = 0`. `BackendModel.v` models the two alternative
  back ends written in Go (`bignum_pure`, `bignum_hol256`) and C61 compares them.
* **Group elements** (`G1Point`, `G2Point`). The groups are cyclic of order r, so an
  element is represented by its discrete logarithm: addition is addition, `MulG1` is multiplication and the
  pairing is multiplication of logarithms. This is exact for every equation the code checks; what it
  cannot express is that logarithms are hard to compute. Hence the binding theorems are stated as
  extractions (two openings give g^(1/(s-x)) by group operations), not as hardness statements, and
  "no forged opening" is an explicit hypothesis where it is needed.
* **Compression of points** is a parameter: a record `g1codec` with the law `codec_ok` (decoding inverts encoding, 48
  bytes, the empty string is refused).
* **Bytes** are integers (`Z`) with `0 <= b < 256` as an invariant where it matters; Go `int`/`uint32`
  conversions that can wrap around are written with an explicit `mod 2^32`. Loop counters and lengths that cannot
  wrap for slices that fit into memory are naturals.
* **Polynomials** are coefficient vectors, lowest first, as in the code.
* **Crashes**: functions that can fail return `go A` (`GoBase.v`): `Ret a`, `Panic` (index out of range, nil dereference,
  library panic), `Fatal` (`log.Fatal`), `Error` (an error value returned to the caller).
* **Goroutines** become explicit steps of a state machine: one step is the code that
  runs without giving another goroutine a chance to interfere with the data it
  touches (a critical section, one loop iteration on one received message).
  Theorems quantify over all sequences of steps.
* **Hash functions, Reed-Solomon code, threshold signatures, coin**: section variables with the laws that are needed.
  They appear as hypotheses of the theorems after the section is closed, never as axioms. Collisions of a hash are
  mostly not excluded but appear as an alternative in the conclusion.
* **Network**: the adversary is the list of delivered messages. Where a claim needs
  the sender to be genuine or a message not to be repeated, it is a hypothesis on that list, because the code does
  neither authenticate senders nor drop repetitions; the `_refuted` theorems show what happens otherwise.

## 3. Trusted base

* Coq's kernel (and `coqchk`, which re-checks the compiled files).
* `Print Assumptions` is run in the build after every headline theorem. It prints "Closed under the global context" for
  each of them: no axiom, neither own nor of the standard library, is used. (`coqchk` lists seven sealed constants of
  `ssrunder` of mathcomp/ssreflect as axioms of a loaded library; no theorem depends on them.)
* The reading of the Go code by the author, documented definition by definition.
* Libraries that are not in `/repo`, taken by their documentation or published source:
  * drand/kyber v1.1.17 (`share/poly.go`, `sign/tbls`): threshold keys and signatures (`TsigModel.v`); symbolic
    signatures in `MvbaModel.v`.
  * klauspost/reedsolomon: encoding and reconstruction as parameters with the any-k-of-n law; `Reconstruct` leaves shards that are present alone (C32); `Split` of empty data is an error.
  * google.golang.org/protobuf v1.27.1: wire format (`ProtoModel.v`).
  * kilic/bls12-381: field and group operations; batch inversion leaves zeros zero; `FromCompressedG1` refuses the empty string.
  * math/big, holiman/uint256 (`BackendModel.v`); encoding/hex, strings.Split, fmt (`TextModel.v`).
  * SHA-256 and SHA3-512: arbitrary functions.

## 4. What is modelled and what is not

Modelled, function by function:

| code | model |
|------|-------|
| `internal/bls/bignum_all.go`, `bignum_kilic.go`, `globals.go` | `Fr.v`, `CodecModel.v`, `PolyModel.v`, `SampleModel.v` (evaluation form), `TextModel.v` (printing), `ScalarTextModel.v` (reading) |
| `internal/bls/bignum_pure.go`, `bignum_hol256.go` | `BackendModel.v`, `SliceModel.v` (`PowModFr`), `ScalarTextModel.v` (`SetFr`) |
| `internal/bls/bls_kilic.go`, `bls_all.go` | `GroupModel.v`, `TextModel.v` |
| `internal/polyring/interpolation.go` | `PolyModel.v` |
| `internal/polycommit/setup.go`, `kzg*.go`, `poly.go` | `KzgModel.v`, `PolyModel.v`, `FkModel.v` |
| `internal/polycommit/fft*.go`, `reverse_bit_order.go` | `FftModel.v`, `ReverseModel.v` |
| `internal/polycommit/das_extension.go`, `zero_poly.go`, `recover_from_samples.go` | `SampleModel.v` |
| `internal/polycommit/legacy_recovery.go` | `LegacyModel.v`; helpers (`multiInv`, `pOfKX`, `inefficientOddEvenDiv2`) in `SampleModel.v` |
| `internal/polycommit/fk20_*.go` | `FkModel.v` |
| `internal/party/party.go`, `party_utils.go` | `PartyModel.v`, `SendModel.v`, `DispatchModel.v`, `TextModel.v` |
| `internal/party/client.go`, `VSS.go` | `VssModel.v` |
| `internal/party/ShareReduce.go` | `ReduceModel.v`; both committees together with the client's dealing in `HandNetModel.v` |
| `internal/party/ProactivizeAndShareDist.go` | `ProacModel.v`, `IdModel.v`, goroutines of lines 256-332 in `ReshareModel.v`, all honest members together in `StageModel.v` (lines 100-453; with packets of corrupted ones in `PropertiesStageBad.v`) and `DistNetModel.v` (lines 500-714; with packets of corrupted ones in `PropertiesFinishBad.v`), the loop of lines 455-499 in `RefreshModel.v`, single accesses of lines 645-672 in `RaceModel.v` |
| `internal/party/RBC.go` | `RbcModel.v`, `RbcSendModel.v`, single accesses of lines 163-291 in `DecodeModel.v` |
| `internal/party/pb.go`, `spb.go`, `main_process.go`, `message_handler.go` | `MvbaModel.v`, `MvbaNet.v` and `SpbModel.v` (with `SPBSender` and `Sender`), `IdModel.v` |
| `internal/party/keygen.go` | `TsigModel.v`, files in `KeyFileModel.v` |
| `pkg/core/*` | `FramingModel.v`, `DispatchModel.v`, `ProtoModel.v`, `DownModel.v` |
| `pkg/utils/utils.go` | `CodecModel.v`, `SliceModel.v` (slices with capacity) |
| `pkg/protobuf/Message.proto`, `Message.pb.go` | `ProtoModel.v` |
| `cmd/DyCAPs/main.go` (`ReadIpList`, `ReadPortList`, the stages a process runs, the keys per role) | `TextModel.v`, `KeyFileModel.v`, order of stages in `ProacModel.v`/`PropertiesEpoch.v`/`PropertiesOne.v` |

Not modelled: limb arithmetic and curve formulas, the pairing algorithm, TCP itself and connection set-up,
Go's memory model (weaker than sequential consistency) and interleavings finer than critical sections except in `RaceModel.v` and `DecodeModel.v`, full channels on the sending side,
reading of random numbers, file I/O other than the two key files, the gob encoding (a parameter with a round-trip law), logging and timing code, the herumi back end for points (`bls_hbls.go`: C library), the
`debug.go` printers, command-line parsing, the shell scripts.

## 5. Properties one by one

"Modelled" names the functions (all with line citations in the file named); "proof" the main argument. The theorem list is the one of `MANIFEST.json`; theorems ending in `_refuted` show that an exception named in the statement is real.

### C01 Scalar wire codec is exact — proved

* Modelled: `ValidFr`, `FrFrom32`, `FrTo32` byte by byte (`CodecModel.v`)
* Proof: comparison of four 64-bit words = comparison of values; base-256 digits round trip, induction over bytes
* Theorems: `PropertiesNet.v`: `c01_decode`, `c01_valid_agrees`, `c01_roundtrip`, `c01_canonical`

### C02 Fixed-width integer codec — proved

* Modelled: `IntToBytes`, `BytesToInt` with explicit `mod 2^32` (`CodecModel.v`)
* Proof: digit arithmetic; the truncation is a refuted round trip
* Theorems: `PropertiesNet.v`: `c02_modulo`, `c02_roundtrip`, `c02_injective`, `c02_bytes_first`, `c02_truncation_refuted`; `PropertiesIds.v`: `c02_exact`

### C03 Stream framing delivers exactly what was sent — proved

* Modelled: sender loop (4-byte length + body) and receiver loop as a state machine over a byte stream cut anywhere (`FramingModel.v`)
* Proof: invariant: consumed bytes are the encoding of the delivered messages plus a partial frame; progress by counting wanted bytes
* Theorems: `PropertiesNet.v`: `c03_framing`, `c03_progress`, `c03_too_long_refuted`; `PropertiesNet2.v`: `c03_too_long`

### C04 Message envelope round trip — proved

* Modelled: varints, tags, length-delimited fields, UTF-8 check, one field table per message type, `Encapsulation`/`Decapsulation`, both ends of a connection (`ProtoModel.v`)
* Proof: varint round trip by induction; generic parser against generic writer; composition with C03
* Limits: protobuf library modelled from its published source
* Theorems: `PropertiesProto.v`: `c04_roundtrip`, `c04_message`, `c04_writable`, `c04_writable_refuted`, `c04_injective`, `c04_vsssend`, `c04_commit`, `c04_payloads`, `c04_payloads_writable`, `c04_encapsulation`, `c04_wrong_payload`, `c04_encapsulation_refuted`, `c04_end_to_end`, `c04_connection`, `c04_other_type`; `PropertiesNet2.v`: `c04_lost`

### C05 Dispatcher demultiplexes without loss, duplication or reordering — proved

* Modelled: dispatcher, `GetMessage`, readers and arrivals as an interleaving machine over a heap of channels (`DispatchModel.v`)
* Proof: invariant over all step sequences: read ++ queued = arrivals with the same (type, id)
* Theorems: `PropertiesNet.v`: `c05_dispatch_exact`, `c05_channels_separate`

### C06 Dispatcher progress — proved

* Modelled: the same with channel capacities
* Proof: a step is enabled while the bound holds; explicit blocked run for the general case
* Theorems: `PropertiesFlood.v`: `c06_head_of_line`; `PropertiesNet.v`: `c06_progress`, `c06_head_of_line_refuted`

### C07 Broadcast reaches exactly the committee — proved

* Modelled: `Send`, `Broadcast`, `BroadcastExclude`, `SendToNextCommittee`, `InitSendChannel` (`SendModel.v`)
* Proof: induction over the loop; the guard on uninitialised channels is refuted
* Theorems: `PropertiesNet.v`: `c07_broadcast`, `c07_broadcast_exclude`, `c07_broadcast_next`, `c07_send`, `c07_send_next`, `c07_history`, `c07_no_channels`, `c07_uninitialised_refuted`; `PropertiesNet2.v`: `c07_uninitialised`

### C08 Polynomial evaluation and linear-factor arithmetic — proved

* Modelled: `EvalPolyAtUnoptimized` with its special cases, `mulPolyDegreeOne`, `divPolyDegreeOne` (`PolyModel.v`)
* Proof: induction over coefficients against the sum of c_i x^i
* Theorems: `PropertiesPoly.v`: `c08_eval`, `c08_mul`, `c08_div_mul`, `c08_mul_div`, `c08_div`

### C09 Lagrange interpolation is correct and unique — proved

* Modelled: `LagrangeInterpolate` loop by loop (`PolyModel.v`)
* Proof: product form, evaluation at nodes, root counting for uniqueness
* Theorems: `PropertiesPoly.v`: `c09_interpolate`, `c09_duplicates_stop`, `c09_values`

### C10 Precomputed Lagrange coefficients reproduce evaluations — proved

* Modelled: `GetLagrangeCoefficients` (`PolyModel.v`)
* Proof: evaluation of the unit polynomials; equal indexes refuted, with the exact condition (`c10_exactly`)
* Theorems: `PropertiesPoly.v`: `c10_coefficients`, `c10_unit`, `c10_table`, `c10_duplicates_refuted`; `PropertiesSharp.v`: `c10_exactly`

### C11 Interpolation in the exponent commutes with commitment — proved

* Modelled: `InterpolateComOrWit`, `InterpolateComOrWitByKnownIndexes` (`KzgModel.v`)
* Proof: linearity and uniqueness of interpolation, for the sections of any bivariate polynomial
* Theorems: `PropertiesPoly.v`: `c11_commitments`, `c11_witnesses`, `c11_known_indexes`

### C12 Polynomial long division — proved

* Modelled: `polyLongDiv` with its index arithmetic (`PolyModel.v`)
* Proof: loop invariant on remainder and quotient
* Theorems: `PropertiesPoly.v`: `c12_long_division`, `c12_short`

### C13 KZG completeness — proved

* Modelled: `GenerateTestingSetup`, `CommitToPoly`, `ComputeProofSingle`, `CheckProofSingle` (`KzgModel.v`)
* Proof: division identity evaluated at the secret
* Theorems: `PropertiesPoly.v`: `c13_complete`, `c13_exact`, `c13_unoptimized`, `c13_single_party_refuted`

### C14 Commitments are homomorphic — proved

* Modelled: as C13
* Proof: linearity of all operations
* Theorems: `PropertiesPoly.v`: `c14_commit`, `c14_proof`, `c14_check`

### C15 KZG evaluation binding — proved

* Modelled: as C13
* Proof: algebra: two openings give (w1-w2)/(y2-y1) = 1/(s-x); forging with the fixed secret of the code
* Theorems: `PropertiesPoly.v`: `c15_binding`, `c15_binding_polynomials`, `c15_unique_proof`, `c15_fixed_secret_forgery`, `c15_fixed_secret_refuted`

### C16 KZG multi-opening completeness — proved

* Modelled: `ComputeProofMulti`, `CheckProofMulti` (`FkModel.v`)
* Proof: interpolant through a coset, vanishing polynomial x^n - h^n; refutation beyond 2n coefficients
* Theorems: `PropertiesFk.v`: `c16_check`, `c16_interpolant`, `c16_verifier`, `c16_binding`, `c16_prover`, `c16_complete`, `c16_complete_refuted`

### C17 An honest dealer's shares are accepted by everybody — proved

* Modelled: client `Share`, `VSSShareReceive` and the verification loops (`VssModel.v`)
* Proof: C11 + C13 on the sections of the dealt bivariate polynomial
* Theorems: `PropertiesVss.v`: `c17_honest_dealer`; `PropertiesLayout.v`: `c17_layout`

### C18 A malformed dealing is rejected — proved

* Modelled: as C17
* Proof: inversion of an accepting run; interpolation of a bivariate polynomial from the accepted sections; the ignored Gs check is refuted
* Theorems: `PropertiesVss.v`: `c18_sound`, `c18_extraction`, `c18_reject_unchanged`, `c18_gs_refuted`; `PropertiesTrace.v`: `c18_gs`

### C19 Enough shares give the secret, too few give nothing — proved

* Modelled: as C17
* Proof: uniqueness of bivariate interpolation; explicit bijection between dealings with different secrets
* Limits: values only, not the published commitments
* Theorems: `PropertiesVss.v`: `c19_reconstruct_full`, `c19_reconstruct_reduced`, `c19_secrecy`, `c19_secrecy_client`

### C20 Share reduction gives the new committee its reduced shares — proved

* Modelled: `PrepareSend/Receive`, `ShareReduceSend/Receive` (`ReduceModel.v`)
* Proof: invariant of the receiving loop, C17 for the start
* Theorems: `PropertiesReduce.v`: `c20_share_reduce`

### C21 Share reduction withstands invalid and repeated messages — proved

* Modelled: as C20
* Proof: the same under arbitrary further messages; each restriction is refuted when dropped
* Theorems: `PropertiesReduce.v`: `c21_robust`, `c21_replay_refuted`, `c21_foreign_refuted`, `c21_forgery_refuted`, `c21_stale_value_refuted`; `PropertiesTight.v`: `c21_stale_rejected_refuted`; `PropertiesReduceExact.v`: `c21_waits`, `c21_takes`

### C22 Preparation adopts only a value vouched for by an honest party — proved

* Modelled: `PrepareReceive` with its counting map
* Proof: counting argument; what is adopted and what is left alone by inversion of the loop; refutation with a repeated sender
* Theorems: `PropertiesReduce.v`: `c22_prepare`, `c22_vouched`, `c22_replay_refuted`; `PropertiesAdopt.v`: `c22_adopts`

### C23 Refreshing keeps the secret — proved

* Modelled: the stages Proactivize.. of `ProactivizeAndShareDist` (`ProacModel.v`)
* Proof: linear algebra of bivariate polynomials; run with an unrecovered dealer refutes the unconditional statement
* Theorems: `PropertiesRefresh.v`: `c23_zero`, `c23_refresh`, `c23_unrecovered_refuted`

### C24 Commit-stage verification of refreshing polynomials — proved

* Modelled: `Commit` stage
* Proof: exact characterisation of the verdict, extraction of a polynomial with value 0
* Theorems: `PropertiesProac.v`: `c24_honest`, `c24_accepted`, `c24_sharing_of_zero`, `c24_trace_refuted`; `PropertiesTrace.v`: `c24_trace`

### C25 What the votes on reshared points certify — proved

* Modelled: `Reshare`/vote stage
* Proof: inversion of the loop: only the last opening decides
* Limits: a message is handled in one step once its dealer is accepted; C73 treats the goroutines and proves that they refine this
* Theorems: `PropertiesProac.v`: `c25_honest`, `c25_last_point`, `c25_wrong_points_refuted`; `PropertiesTight.v`: `c25_votes_after_acceptance`, `c25_vote_happens`

### C26 Recovery of a refreshing polynomial — proved

* Modelled: `Recover` stage
* Proof: interpolation of F+1 verified points; repeated message leads to log.Fatal
* Theorems: `PropertiesProac.v`: `c26_recovered`, `c26_recover`, `c26_replay_refuted`; `PropertiesCrash2.v`: `c49_recover_handle`

### C27 Threshold signature assembly — proved

* Modelled: kyber shares, `tbls.Recover` (`TsigModel.v`)
* Proof: C09 in the exponent; the wrong threshold is refuted
* Theorems: `PropertiesTsig.v`: `c27_shares`, `c27_assembly`, `c27_recover_2F_refuted`, `c27_duplicates_refuted`

### C28 Share distribution completes the handoff — proved

* Modelled: `ShareDist` stage
* Proof: C20 for the columns of the refreshed polynomial; existence of complete runs
* Limits: lines 645-672 (no lock) are one step here; C72 treats their interleavings
* Theorems: `PropertiesDist.v`: `c28_new_commitment`, `c28_safe`, `c28_complete`, `c28_runs`; `PropertiesDist2.v`: `c28_point`

### C29 The secret survives any number of handoffs — proved

* Modelled: composition of all stages, any number of epochs (`PropertiesEpoch.v`)
* Proof: induction over epochs with the invariant that the members hold sections of one polynomial with the same secret
* Limits: for the second and later handoffs the condition on commitments and witnesses is part of the statement (the code does not provide them, C30)
* Theorems: `PropertiesEpoch.v`: `c29_handoff`, `c29_handoff_from`, `c29_handoff_from_exists`, `c29_handoff_exists`, `c29_epochs`, `c30_refuted`

### C30 Witnesses after a handoff — proved

* Modelled: state of a member after `ShareDist`
* Proof: exact condition for acceptance of the next messages; a run that never completes
* Theorems: `PropertiesEpoch.v`: `c30_next_messages`, `c30_accepted_iff`, `c30_not_ready`, `c30_refuted`

### C31 Reliable broadcast: no two different values become ready — proved

* Modelled: `RBCReceive` at every member, all schedules, F corrupted members (`RbcModel.v`)
* Proof: quorum intersection on counted echoes; refutation with repeated echoes
* Theorems: `PropertiesRbc.v`: `c31_no_two_values`, `c31_outputs_agree`, `c31_replay_refuted`; `PropertiesForgeRbc.v`: `c31_anything_refuted`

### C32 Reliable broadcast: validity and totality — proved

* Modelled: as C31
* Proof: liveness (`RbcByz.v`): invariant of runs with corrupted members that send anything but a wrong shard with the right hash; a weight that every step uses up bounds the run; where nothing is left to do all members have output the dealer's value; refutation with one wrong shard
* Limits: a round of decoding is one step; C74 treats the single accesses
* Theorems: `PropertiesByz.v`: `c32_byzantine`, `c32_ends`; `PropertiesRbc.v`: `c32_validity`, `c32_wrong_shard_refuted`; `PropertiesShard.v`: `c32_wrong_shard`, `c32_wrong_shard_nothing`

### C33 Reliable broadcast: number of readiness messages — proved

* Modelled: as C31
* Proof: counter invariant; run with two announcements
* Theorems: `PropertiesRbc.v`: `c33_at_most_two`, `c33_at_most_once`, `c33_refuted`; `PropertiesTwice.v`: `c33_twice_refuted`

### C34 Provable broadcast: a certificate needs 2F+1 members — proved

* Modelled: `pb.go`, `spb.go` (`MvbaModel.v`)
* Proof: quorum intersection on shares over symbolic signatures
* Theorems: `PropertiesMvba.v`: `c34_sender_members`, `c34_sender_honest`, `c34_certificates_unique`, `c34_one_value`, `c34_larger_committee_refuted`, `c34_repeated_share_refuted`

### C35 Certificates of one agreement round — proved

* Modelled: lock/commit/finish views of `main_process.go`, `message_handler.go`
* Proof: invariants of one round over all steps; explicit runs for the refuted parts
* Theorems: `PropertiesMvba.v`: `c35_decisions`, `c35_no_and_decision`, `c35_refuted`, `c35_repeated_votes_refuted`; `PropertiesForced.v`: `c35_forced_refuted`; `PropertiesVotes.v`: `c35_unlock_after_no`; `PropertiesUnlock.v`: `c35_unlock_refuted`, `c35_unlock_all_refuted`

### C36 When a mixed vote set lets the round go on — proved

* Modelled: vote handlers
* Proof: exact arithmetic condition on the two counters
* Theorems: `PropertiesMvba.v`: `c36_when`, `c36_refuted`, `c36_no_signature_refuted`; `PropertiesVotes.v`: `c36_adopts`

### C37 Instance identifiers never collide — proved

* Modelled: identifier strings (`IdModel.v`)
* Proof: injectivity of decimal and fixed-width parts, prefix arguments
* Theorems: `PropertiesMvba.v`: `c37_signed_messages`, `c37_instances`, `c37_broadcasts`, `c37_reshare`, `c37_refuted`; `PropertiesIds.v`: `c37_signed_bytes`, `c37_id_bytes`, `c37_decimal_unique`

### C38 FFT computes the discrete Fourier transform — proved

* Modelled: `_fft`, `FFT`, `InplaceFFT` with offsets and strides (`FftModel.v`)
* Proof: even/odd split, induction over the scale; the 32 roots of unity by computation
* Theorems: `PropertiesFft.v`: `c38_settings`, `c38_roots`, `c38_transform`, `c38_padded`, `c38_inverse`, `c38_interpolates`, `c38_errors`, `c38_empty_refuted`; `PropertiesSharp.v`: `c38_in_place`, `c38_empty`

### C39 FFT over the group is the FFT in the exponent — proved

* Modelled: `_fftG1`, `FFTG1`
* Proof: homomorphism from C38
* Theorems: `PropertiesFft.v`: `c39_commitments`, `c39_transform`, `c39_inverse`

### C40 Bit reversal is an involutive permutation — proved

* Modelled: bit reversal by masks and by tables (`ReverseModel.v`)
* Proof: bitwise reasoning for all words; permutation of vectors
* Theorems: `PropertiesFft.v`: `c40_index`, `c40_word`, `c40_vector`, `c40_never_refused`, `c40_refusal_refuted`

### C41 Power-of-two helpers and committee scale — proved

* Modelled: `nextPowOf2`, `bits.Len64`, `GetScaleByCommitteeSize`
* Proof: bitwise reasoning, exact case analysis
* Theorems: `PropertiesFft.v`: `c41_next`, `c41_next_zero`, `c41_next_refuted`, `c41_test`, `c41_test_refuted`, `c41_scale`

### C42 Vanishing polynomial of missing samples — proved

* Modelled: `ZeroPolyViaMultiplication`, `makeZeroPolyMulLeaf`, `reduceLeaves` (`SampleModel.v`)
* Proof: products of leaves by FFT, induction over the reduction; degree bound
* Theorems: `PropertiesSample.v`: `c42_vanishing`, `c42_half`, `c42_empty_refuted`, `c42_all_missing_refuted`; `PropertiesSharp.v`: `c42_all_missing`; `PropertiesLeaves.v`: `c42_leaves`, `c42_leaves_refused`, `c42_leaves_refuted`; `PropertiesZeroMax.v`: `c42_empty`, `c42_too_many`

### C43 Recovery of samples — proved

* Modelled: `RecoverPolyFromSamples`
* Proof: division on a shifted coset; uniqueness
* Theorems: `PropertiesSample.v`: `c43_recovers`, `c43_never_reports`, `c43_inconsistent_refuted`, `c43_complete_refuted`; `PropertiesAgrees.v`: `c43_holds`; `PropertiesZeroMax.v`: `c43_too_many`

### C44 Data-availability extension — proved

* Modelled: `DASFFTExtension`
* Proof: recursion against the odd half of the transform
* Theorems: `PropertiesSample.v`: `c44_extension`, `c44_wide_refuted`, `c44_single_refuted`; `PropertiesSharp.v`: `c44_single`

### C45 Batch inversion and evaluation-form helpers — proved

* Modelled: `multiInv`, batch inversion, shifting, `EvaluatePolyInEvaluationForm`, `LinCombFr`
* Proof: prefix products; barycentric formula
* Theorems: `PropertiesSample.v`: `c45_inverses`, `c45_zero_poisons`, `c45_scaling`, `c45_split`, `c45_evaluation`, `c45_interpolant`, `c45_domain_refuted`, `c45_combinations`; `PropertiesSharp.v`: `c45_domain`

### C46 FK20 computes all single proofs — proved

* Modelled: `FK20Single`, `FK20SingleDAOptimized`, `DAUsingFK20` (`FkModel.v`)
* Proof: Toeplitz product as a cyclic convolution, C38, C39, C13
* Theorems: `PropertiesFk.v`: `c46_single`, `c46_extended`, `c46_reversed`, `c46_accepted`, `c46_constant_refuted`, `c46_wrong_size`; `PropertiesSharp.v`: `c46_constant`, `c46_other_size`

### C47 Coefficient padding and printing are lossless — proved

* Modelled: `PadCoeff`, `GetSamples`, `PolyToString` (`TextModel.v`, `PolyModel.v`)
* Proof: induction; injectivity of the decimal form
* Theorems: `PropertiesPoly.v`: `c47_pad`, `c47_pad_too_long`; `PropertiesText.v`: `c47_print`, `c47_print_injective`, `c47_samples`, `c47_samples_refused`, `c47_samples_panic`

### C48 Support behind the announced completion — proved

* Modelled: success counter of the last stage
* Proof: exact counting invariant; refutation with one repeated sender
* Theorems: `PropertiesRefresh.v`: `c48_count`, `c48_distinct`, `c48_one_sender_refuted`

### C49 Exactly which network messages stop an honest member — proved

* Modelled: every receiving function of VSS, ShareReduce, Proactivize, RBC, agreement and the connection
* Proof: closure of the loops under Ret-or-Panic, then inversion in both directions
* Theorems: `PropertiesCrash.v`: `c49_connection`, `c49_connection_refuted`, `c49_dealing_refuted`, `c49_share_reduce`, `c49_share_reduce_refuted`, `c49_prepare_refuted`, `c49_commit_refuted`, `c49_reshare`, `c49_reshare_refuted`, `c49_recover`, `c49_recover_refuted`, `c49_result_refuted`, `c49_share_dist`, `c49_new_commit_refuted`, `c49_propose_refuted`, `c49_ready_refuted`, `c49_ready_sender_refuted`, `c49_agreement_panic`, `c49_agreement_fatal`, `c49_agreement_refuted`; `PropertiesCrash2.v`: `c49_dealing`, `c49_commit`, `c49_reshare_lists`, `c49_reshare_exact`, `c49_prepare`, `c49_new_commit`, `c49_propose`, `c49_decode`, `c49_broadcast`, `c49_result`, `c49_share_dist_wait`, `c49_share_dist_run`, `c49_recover_handle`; `PropertiesNil.v`: `c87_wrong_shard`

### C50 Threshold key generation — proved

* Modelled: `SigKeyGen`, `SigKeyGenFix`, `GenCoefficientsFile` values (`TsigModel.v`)
* Proof: C09, C19-like counting for secrecy
* Theorems: `PropertiesTsig.v`: `c50_shares`, `c50_threshold`, `c50_secrecy`, `c50_file`

### C51 Agreement on the dealing — proved

* Modelled: as C18 for several members
* Proof: one polynomial through the sections accepted under equal commitments; explicit dealer for the refutation
* Theorems: `PropertiesAgree.v`: `c51_same_commitments`; `PropertiesVss.v`: `c51_agreement_refuted`; `PropertiesSplitDeal.v`: `c51_split_refuted`

### C52 Which recover messages stop the recovery — proved

* Modelled: `Recover` receiving loop
* Proof: invariant "stuck stays stuck" over every continuation
* Theorems: `PropertiesAgree.v`: `c52_served`, `c52_stuck`, `c52_silent_dealer_refuted`; `PropertiesRefresh.v`: `c52_blocked_refuted`, `c52_no_error`

### C53 When share distribution is starved — proved

* Modelled: `ShareDist` receiving loop
* Proof: each message is consumed once; counting
* Theorems: `PropertiesAgree.v`: `c53_each_once`; `PropertiesDist.v`: `c53_starved_refuted`

### C54 Input of the agreement — proved

* Modelled: input of `MainProcess` made from the certificates
* Proof: inversion over every execution
* Theorems: `PropertiesRefresh.v`: `c54_agreement_input`; `PropertiesRuns.v`: `c54_voters_refuted`

### C55 Agreement on the output of MainProcess — proved

* Modelled: `MainProcess` of all members (`MvbaModel.v`); the value of a member in each round is read off the results of its rounds (`AgreementProofs.v`)
* Proof: quorum intersection inside one round; induction over rounds: after a decided round without Unlock certificate only the decided value is left; two explicit runs with different outputs
* Limits: without the conditions agreement across rounds is false of the code
* Theorems: `PropertiesAgreement.v`: `c55_same_round`, `c55_carries`, `c55_agreement`, `c55_unvalidated_refuted`; `PropertiesMvba.v`: `c55_refuted`

### C56 One leader per round — proved

* Modelled: coin shares
* Proof: uniqueness of the combined signature; refutation with repeated shares; the run that makes the coin known early is built by induction on the shares and on the members
* Theorems: `PropertiesMvba.v`: `c56_common_leader`, `c56_refuted`; `PropertiesVotes.v`: `c56_coin_after_finish`, `c56_distinct_finish_refuted`; `PropertiesCoin.v`: `c56_leader`, `c56_forced_refuted`; `PropertiesEarly.v`: `c56_early_refuted`, `c56_all_early_refuted`

### C57 Removal of zero padding — proved

* Modelled: `DeleteZero` (`CodecModel.v`); the loop on slices with their capacity and `DeleteZeroWithLen` (`SliceModel.v`)
* Proof: induction over the loop; refutation for values with trailing zeros
* Theorems: `PropertiesTight.v`: `c57_trailing`, `c57_unpad`, `c57_roundtrip_refuted`; `PropertiesSlice.v`: `c57_unpad_iff`, `c57_slice`, `c57_with_len`

### C58 FK20 multi-proofs — proved

* Modelled: `FK20Multi`, `FK20MultiDAOptimized`, `DAUsingFK20Multi`
* Proof: Toeplitz product per offset, coset interpolation (C16)
* Theorems: `PropertiesFk.v`: `c58_quotients`, `c58_accepted`, `c58_cosets`, `c58_reversed`, `c58_unit_chunks`, `c58_multi_refuted`, `c58_one_chunk_refuted`

### C59 Text form of points is lossless — proved

* Modelled: `MarshalText`/`UnmarshalText` of G1 points (`TextModel.v`)
* Proof: hex round trip and codec law
* Theorems: `PropertiesText.v`: `c59_roundtrip`, `c59_accepts`, `c59_refused_unchanged`, `c59_upper_case`

### C60 Address files are read line by line — proved

* Modelled: `ReadIpList`, `ReadPortList`
* Proof: split/join laws by induction
* Theorems: `PropertiesText.v`: `c60_lines`, `c60_unique`, `c60_trailing_newline`, `c60_unreadable`

### C61 Scalar back ends agree — proved

* Modelled: operations of the four back ends (`BackendModel.v`), `PowModFr` (`SliceModel.v`)
* Proof: each operation against the field operation; exceptions by witnesses; Fermat by permuting the product of all units
* Theorems: `PropertiesBackend.v`: `c61_hol`, `c61_pure`, `c61_pure_inverse_refuted`, `c61_encode`, `c61_encode_panic`, `c61_encode_refuted`, `c61_hbls`, `c61_hbls_as_refuted`, `c61_hbls_encode`; `PropertiesEncode.v`: `c61_encode_exact`, `c61_encode_iff`, `c61_encode_injective`; `PropertiesSlice.v`: `c61_pow`, `c61_pow_inverse`, `c61_pow_add`, `c61_pow_add_refuted`

### C62 Reliable broadcast: integrity — proved

* Modelled: as C31
* Proof: invariant: every echo, readiness message and output goes back to a delivered proposal; hijack run
* Theorems: `PropertiesInteg.v`: `c62_ready_from_proposal`, `c62_output_from_proposal`, `c62_integrity`, `c62_hijack_refuted`; `PropertiesForgeRbc.v`: `c62_hijack_all_refuted`

### C63 A committee that hands over to itself — proved

* Modelled: role onlyOneCommittee of `main.go`: dealing, Prepare, ShareReduce and the remaining stages of one committee (`PropertiesOne.v`)
* Proof: instance of the general handoff (`c29_handoff_from`) with the same members as senders; acceptance of the next message by the KZG check; explicit run for the second handoff
* Theorems: `PropertiesOne.v`: `c63_shares`, `c63_secret`, `c63_exists`, `c63_next`, `c63_again_refuted`

### C64 The older recovery of missing samples: when it gives the polynomial, and when it crashes — proved

* Modelled: `mulPolysWithFFT`, `_zPoly`, `ErasureCodeRecover` (`LegacyModel.v`)
* Proof: induction over the recursion of `_zPoly`: its result is a multiple of the vanishing polynomial; transforms as in C38; 2 to a power of two is never 1 up to 2^31 (one computation)
* Limits: lengths that are no power of two are not treated
* Theorems: `PropertiesLegacy.v`: `c64_recovers`, `c64_never_reports`, `c64_same_as_newer`, `c64_few_missing_refuted`, `c64_all_missing`, `c64_refused`; `PropertiesAgrees.v`: `c64_holds`

### C65 Key files: all processes of a committee get shares of one key, and what happens otherwise — proved

* Modelled: `GenCoefficientsFile`, `ReadFromFile`, `WriteToFile`, `SigKeyGenFix(_New)` and the choice of keys per role in `main.go` (`KeyFileModel.v`)
* Proof: big-endian round trip of scalars; loop over the coefficients; acceptance of shares by `partial_iff`
* Limits: gob is a parameter with a round-trip law
* Theorems: `PropertiesKeys.v`: `c65_consistent`, `c65_larger_bound`, `c65_smaller_bound`, `c65_one_reader_refuted`

### C66 Commitment to a polynomial given by its values — proved

* Modelled: `CommitToEvalPoly`, `FFTG1`, `FFT`
* Proof: the inverse transform is adjoint to the transform (exchange of sums and `dft_inv`)
* Theorems: `PropertiesEval.v`: `c66_commit`, `c66_values`, `c66_lengths`

### C67 Secrecy when the corrupted members change between committees — proved

* Modelled: the Reshare messages of `ReshareSend`, the shares of C29, `LagrangeInterpolate` as the attacker uses it; the client's polynomial and all refreshing polynomials as a history
* Proof: the attack: B(c,.) = B'(c,.) minus the rows received, then interpolation over F+1 indexes; the converse: the client's polynomial is shifted by a multiple of a product vanishing at the corrupted indexes, and in each handoff an honest dealer's polynomial by the difference of two such products
* Limits: values only, like C19; each agreed set needs one honest dealer
* Theorems: `PropertiesMobile.v`: `c67_old_share`, `c67_pool`, `c67_mobile_refuted`, `c67_secrecy`, `c67_at_epoch`

### C68 Which byte strings are parsed, and as what — proved

* Modelled: `Unmarshal`, `UnmarshalMessage`, `Marshal`, `utf8_valid` of `ProtoModel.v`; the format as mutually inductive relations in `WireSpec.v`
* Proof: soundness by induction on the fuel of the parser, completeness by mutual induction on the relations; code points by arithmetic
* Limits: the protobuf library is modelled from its published source
* Theorems: `PropertiesWire.v`: `c68_accepts`, `c68_rejected`, `c68_unique`, `c68_envelope`, `c68_utf8`, `c68_written`; `PropertiesDeclared.v`: `c68_declared`, `c68_complete`, `c68_names`, `c68_envelope_fields`, `c68_content_fields`, `c68_payload_fields`, `c68_nested_fields`, `c68_agreement_fields`

### C69 When the agreement of honest members ends — proved

* Modelled: `Sender`, `SPBSender`, `MainProcess` and the handlers of all members with the messages they send, each taken at most once by a receiver, any order (`MvbaNet.v`)
* Proof: invariants of one member with what it was sent (`MvbaLive.v`), of the committee (`MvbaQuiet.v`: where nothing is left to do each member has got what all active members sent) and of locks and decisions across rounds (`MvbaSafe.v`); refutation by an explicit run
* Limits: corrupted members are silent; `validation` is not modelled; whether every run reaches such a state (the coin) is not treated
* Theorems: `PropertiesLive.v`: `c69_no_crash`, `c69_same`, `c69_input`, `c69_quiet`, `c69_ends`, `c69_ends_refuted`

### C70 Forged first-stage values stop the agreement — proved

* Modelled: `Receiver` (pb.go:54-90) without sender check inside the adversarial model of `MvbaModel.v`/`MvbaProofs.v`
* Proof: counting: F corrupted and one honest share for each hash are fewer than 2F+1; invariant that no certificate, Done or leader exists; the state is built by induction over the pairs (member, instance)
* Limits: symbolic signatures; the hash distinguishes the values used; corrupted members give no coin shares
* Theorems: `PropertiesBlock.v`: `c70_ends_refuted`, `c70_blocked`, `c70_spoil`

### C71 Echo messages of one member stop a broadcast — proved

* Modelled: the RBC machine of `RbcModel.v` at one member (lines 104-235 of RBC.go), with the capacity of `readyChan` and the locks
* Proof: construction of the flood by induction on the hashes (F+1 echoes each put one entry into the channel), then an invariant of the blocked state kept by every step
* Limits: `Echo` messages with arbitrary hashes are possible for any member
* Theorems: `PropertiesEchoFlood.v`: `c71_flood_refuted`

### C72 Goroutines that collect the points of the new share — proved

* Modelled: lines 645-672 of ProactivizeAndShareDist.go at the grain of single accesses to `SB`, `SuccessSent`, `fullShare` (`RaceModel.v`): slice headers, arrays, in-place and reallocating append
* Proof: invariant with the order of completed appends (exclusive appends); invariant that ties `SuccessSent`, the broadcasts and the one active goroutine (whole passes one after another); invariant that assigns each written element its one position (any schedule); the failing schedules are built for every F by lemmas about uninterrupted goroutines (`RaceRuns.v`)
* Limits: sequential consistency; no torn reads or writes; the points are taken as checked and of different senders (each `SComChan[j]` holds one token)
* Theorems: `PropertiesRace.v`: `c72_exclusive`, `c72_serial`, `c72_any`, `c72_lost_refuted`, `c72_panic_refuted`, `c72_wrong_refuted`, `c72_double_refuted`

### C73 Goroutines of the voting stage — proved

* Modelled: lines 143-213 and 256-332 of ProactivizeAndShareDist.go with the N goroutines, `flgCom` and the channels `startVote` (`ReshareModel.v`)
* Proof: refinement of the one-step handling of `ProacModel.v`; counting invariants (every message taken is answered or waits; a token that is gone has been used); invariants of the starved and of the suppressed state
* Limits: reading `flgCom` and starting to wait are one step (setting `flgCom` and sending the token are two)
* Theorems: `PropertiesReshare.v`: `c73_refines`, `c73_free`, `c73_heard`, `c73_starved_refuted`, `c73_suppressed_refuted`

### C74 Decoding a broadcast while Ready messages are being handled — proved

* Modelled: RBC.go:163-291 at the grain of single accesses to `MaxReadyNumber`, `MaxReadyHash` and the lock (`DecodeModel.v`)
* Proof: invariant of all interleavings (what the decoder holds is a prefix of what it needs, whichever of the two hashes it reads); a weight bounds the steps; for the refutation a schedule built by induction on the round
* Limits: sequentially consistent accesses; each read and write is atomic
* Theorems: `PropertiesDecode.v`: `c74_safe`, `c74_ends`, `c74_retry_refuted`

### C75 Every honest member of the new committee gets to the agreement — proved

* Modelled: the machines of `ReshareModel.v` and `ProacModel.v` for all honest members with the messages in flight between them (`StageModel.v`)
* Proof: invariant of the network (for each member what has arrived plus what is in flight is what was sent; nothing arrives twice); a weight that falls with every step bounds the runs; in a state without possible steps everything has been delivered and voted on
* Limits: members that are not honest send nothing; a reliable broadcast is one packet per receiver (C32 justifies it); the agreement itself is a step that may return at any time (C69)
* Theorems: `PropertiesStage.v`: `c75_safe`, `c75_ends`, `c75_all_start`, `c75_reached`

### C76 A handoff in which all members are honest need not complete — proved

* Modelled: the network of C75 followed by Refresh and the distribution of `ProacModel.v`
* Proof: run of the network to a state where only Recover messages about other dealers are in flight (the weight of C75 with these deliveries left out); each handler handles at most one more message afterwards, which is not enough for an interpolation; counting of accepted commitments
* Limits: the agreement is represented by its result (an input of an honest member)
* Theorems: `PropertiesSplit.v`: `c76_split_refuted`

### C77 From the refreshed shares all honest members reach the end of the handoff — proved

* Modelled: `DistNetModel.v`: the machines of C28 for all honest members, the packets in flight, the Success counters
* Proof: invariant with one event log per member (each is a run of the machine of C28), packets in flight plus events in the log = what was sent, Success messages in flight plus counted = members with shares; a weight that every step lowers; C28 at the end; `c77_good_order` by the runs of C75/C76 with one set of early dealers
* Limits: silent corrupted members; C53 and C72 show what corrupted members or a data race can do here
* Theorems: `PropertiesFinish.v`: `c77_finish`, `c77_recovered`, `c77_good_order`

### C78 From the dealing to the reduced shares of the whole new committee, with active corrupted old members — proved

* Modelled: `HandNetModel.v`: both committees, with the functions of `VssModel.v` and `ReduceModel.v`, the packets in flight, and the messages each receiving loop has taken
* Proof: invariant: packets in flight, packets still to be sent and packets taken are together a permutation of a list known in advance, without repeated (kind, sender, receiver); a loop that returns on a longer list returns the same or waits on a shorter one, so the list taken is completed by the missing honest messages and C21/C22 apply; every step lowers packets in flight plus packets to be sent by one
* Limits: the provisos of C21 and C22 on what corrupted members send
* Theorems: `PropertiesHand.v`: `c78_first`, `c78_later`, `c78_whole`

### C79 One process that stops takes along every process it is connected to — proved

* Modelled: `DownModel.v`: processes, connections with the reader of `FramingModel.v`, receive channels of 1024 messages, and events for connecting, arriving bytes, stopping, the end of the stream, reading, handing on and taking
* Proof: every event that happens by itself lowers a weight (bytes not read, frames not handed on, messages not taken, ends of streams not arrived, processes up); at rest each reader of a process that is up has read everything, so a connection from a process that is down leads to one that is down; backwards, a process goes down by itself only at the end of a stream from a process that is down, or at a frame that is no envelope
* Limits: the end of the stream is an event; timeouts and half-open connections are not modelled
* Theorems: `PropertiesDown.v`: `c79_link`, `c79_spread`, `c79_handoff`, `c79_committee`, `c79_outsider`, `c79_frame`, `c79_dial`, `c79_write`, `c79_quiet`, `c79_exact`, `c79_stuck`

### C80 A share can be refreshed while the polynomials it is refreshed with are still arriving — proved

* Modelled: `RefreshModel.v`: the loop of Refresh as a machine with one step per test, wait, coefficient and commitment, interleaved with the events of `ProacModel.pstep`
* Proof: invariant over all interleavings: the sums are the parts of the dealers done, each from its number on, plus what the current dealer has given so far; its number is at most the current coefficient, and smaller only if its polynomial is already right; the write of line 470 stores what is there already, so the other goroutines see an ordinary run; the share that belongs to no set of dealers is computed for N = 4, F = 1
* Limits: reads and writes of single words are atomic (Go does not promise that for slice headers, which are three words; the old and the new slice have the same length)
* Theorems: `PropertiesTorn.v`: `c80_parts`, `c80_timely`, `c80_safe`, `c80_recovered`, `c80_torn_refuted`

### C81 Corrupted members cannot keep the honest ones from the agreement by the messages they may send once — proved

* Modelled: the network of `StageModel.v`, with the packets of the corrupted members among those in flight from the start
* Proof: the invariant of one member (`StageBadProofs.v`: what it has accepted, taken, voted and been told, with arbitrary admissible messages of others) and of the network (`StageBadNet.v`: every Reshare or Recover message of anyone is in flight or has been taken, each once; a potential decreases with every step); the verdict on commitments depends on the commitments only
* Limits: all packets of corrupted members are there from the start, which is no restriction because any packet may be delivered at any time; their Recover messages about honest dealers come with any signature share; the agreement itself and the distribution of the new shares are C69 and C77
* Theorems: `PropertiesStageBad.v`: `c81_accept`, `c81_safe`, `c81_ends`, `c81_all_start`, `c81_reached`, `c81_good_order`

### C82 Corrupted members cannot keep the honest ones from finishing the handoff by the messages they may send once — proved

* Modelled: the network of `DistNetModel.v`, with the packets of the corrupted members among those in flight from the start
* Proof: the invariant of C77 with the packets of corrupted members (`DistBadNet.v`: every ShareDist message is in flight or has been taken, each sender once, so that the N goroutines suffice; Success messages in flight and counted are those of the members with shares and those of the corrupted ones; a potential decreases with every step); `c82_good_order` joins it to the first stage of C81
* Limits: as for C77 and C81; the agreement itself (C69) and deliveries before it that split the honest members (C76) are not part of the claim
* Theorems: `PropertiesFinishBad.v`: `c82_finish`, `c82_good_order`

### C83 One ShareDist message in the name of an honest member can keep every member from ending the handoff — proved

* Modelled: the network of `DistNetModel.v`, with the forged packets among those in flight from the start
* Proof: the run is constructed (`ForgedProofs.v`: for each pair the commitment, the forged message and the goroutine step, in which the token of the commitment is used up and the check fails); afterwards an invariant of the addressed members (each token is used once, those of the impersonated members are gone, so fewer than 2F+1 values are ever collected) and one of the network (Success messages counted and in flight are at most the members with shares)
* Limits: nothing but the ShareDist messages named is forged; the forged messages have to arrive before the true ones
* Theorems: `PropertiesForged.v`: `c83_forged`, `c83_easy`, `c83_one`

### C84 When the processes of a deployment have to be started — proved

* Modelled: `StartModel.v`: the start of the processes of main.go: listening, sleeping, connecting in order, ending; events are starts, ticks of a clock, ends of sleeps, connections, broken connections
* Proof: `StartProofs.v`: an invariant of all runs that follow a plan of starting times; for (a) nobody has ended, and a measure (time to go and connections to be made) that some event always decreases; for (b) an invariant of the prompt runs (after its sleep the process has ended; nobody has connected to it afterwards)
* Limits: lists of addresses are lists of process numbers, ports are free, NewHonestParty takes no time; in (b) the processes are fast
* Theorems: `PropertiesStart.v`: `c84_safe`, `c84_late`, `c84_ends`, `c84_deployment`, `c84_deployment_late`, `c84_one_committee`

### C85 Scalars as decimal text — proved

* Modelled: `ScalarTextModel.v`: `SetFr` of three back ends, `ToFr`, the constants of globals.go:65-72; printing in `TextModel.v`
* Proof: induction over the digits against the positional value `read` of `TextProofs.v`; base 8 against base 10 by comparing the accumulators
* Limits: texts with other characters (prefixes, underscores) are a parameter; `SetFr` of bignum_hbls is not modelled
* Theorems: `PropertiesScalarText.v`: `c85_roundtrip`, `c85_kilic`, `c85_minus_refuted`, `c85_others`, `c85_leading_zero`, `c85_constants`, `c85_invalid`

### C86 A reliably broadcast message arrives as it was given — proved

* Modelled: `RbcSendModel.v`: `RBCSend`, `RBCSendExclude`, the parsing at the end of `RBCReceive`; `RbcModel.v`, `SendModel.v`, `ProtoModel.v`
* Proof: composition of the queues of C07, the round trip of C04 and the executions of C32
* Limits: the conditions of C32 on votes and shards; `RbcModel.v` hands over the bytes, the parsing is separate
* Theorems: `PropertiesBcast.v`: `c86_send`, `c86_send_exclude`, `c86_returned`, `c86_any_bytes`, `c86_empty`, `c86_empty_refuted`

### C87 A broadcast that cannot be decoded stops the process — proved

* Modelled: `RbcSendModel.v`: `caller_data` (how the results of RBCReceive are used); `RbcModel.v`
* Proof: induction over the steps of one member: the count of Ready messages, the start flag and the round of decoding; the invariants of C32 on the wrong shard
* Limits: the rest of the goroutines after the data are read is in C24 and C28
* Theorems: `PropertiesNil.v`: `c87_wrong_shard`, `c87_right_shards`, `c87_committee_refuted`

### C88 One member that answers twice stops the whole agreement — proved

* Modelled: `SpbModel.v`: `SPBSender`; `MvbaModel.v`: `Sender`, `value_step`
* Proof: induction over the Echo messages in order of arrival, against the list `signers` of the signers of valid shares; the steps of the receivers by cases; a run of a committee by computation
* Limits: the context of the sender is not cancelled; signatures are symbolic
* Theorems: `PropertiesSpb.v`: `c88_sender`, `c88_stops`, `c88_one`, `c88_once`, `c88_committee_refuted`

## 6. Mutation testing

`seeded/LOG.jsonl` has one line per wrong program: the definition that was edited in a scratch copy of the
development, the edit, the claim it falsifies, the theorems whose proofs then failed, and the theorems that were tightened because
nothing failed. A wrong program counts as found when a headline theorem (or an equation lemma it depends on)
no longer proves. The survivors and what was done about them are in the same file.

## 7. Notes on the statements

* A property that turned out false of the code is kept: either the statement names the exception, and the `_refuted` theorem
  shows that the exception is real, or the property is `partial` and the true part is proved under the stated extra hypothesis.
* "Forged opening" hypotheses: the model has the setup secret as a number, so openings of wrong values exist in it. Theorems about
  acceptance therefore either conclude with an extraction (the wrong opening yields a solution of the strong
  Diffie-Hellman problem) or assume that no accepted message of the run has such an opening.
* C19 is about the values a set of members hold; the published commitments include g^s and are outside of the statement.
* C26: the code recovers from F+1 points of a polynomial of degree F.

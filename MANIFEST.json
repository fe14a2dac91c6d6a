{
 "claims": [
  {
   "property": "C01",
   "status": "proved",
   "theorems": [
    "c01_decode",
    "c01_valid_agrees",
    "c01_roundtrip",
    "c01_canonical"
   ],
   "note": "decode/encode of 32-byte scalars at byte level, all inputs"
  },
  {
   "property": "C02",
   "status": "proved",
   "theorems": [
    "c02_modulo",
    "c02_roundtrip",
    "c02_injective",
    "c02_bytes_first",
    "c02_truncation_refuted",
    "c02_exact"
   ],
   "note": "negative integers included: a Go int is taken modulo 2^32"
  },
  {
   "property": "C03",
   "status": "proved",
   "theorems": [
    "c03_framing",
    "c03_progress",
    "c03_too_long_refuted",
    "c03_too_long"
   ],
   "note": "any segmentation of the stream; messages of 2^32 bytes or more break framing (refuted)"
  },
  {
   "property": "C04",
   "status": "proved",
   "theorems": [
    "c04_roundtrip",
    "c04_message",
    "c04_writable",
    "c04_writable_refuted",
    "c04_injective",
    "c04_vsssend",
    "c04_commit",
    "c04_payloads",
    "c04_payloads_writable",
    "c04_encapsulation",
    "c04_wrong_payload",
    "c04_encapsulation_refuted",
    "c04_end_to_end",
    "c04_connection",
    "c04_lost",
    "c04_other_type"
   ],
   "note": "all message types and field values; the exceptions named in the statement are the _refuted theorems; wire format of the protobuf library modelled from its published behaviour"
  },
  {
   "property": "C05",
   "status": "proved",
   "theorems": [
    "c05_dispatch_exact",
    "c05_channels_separate"
   ],
   "note": "interleaving model of dispatcher, readers and arrivals"
  },
  {
   "property": "C06",
   "status": "proved",
   "theorems": [
    "c06_head_of_line",
    "c06_progress",
    "c06_head_of_line_refuted"
   ],
   "note": "progress under the N*N bound; false in general (head-of-line blocking)"
  },
  {
   "property": "C07",
   "status": "proved",
   "theorems": [
    "c07_broadcast",
    "c07_broadcast_exclude",
    "c07_broadcast_next",
    "c07_send",
    "c07_send_next",
    "c07_history",
    "c07_no_channels",
    "c07_uninitialised_refuted",
    "c07_uninitialised"
   ],
   "note": "exact deliveries proved on initialised channels; uninitialised channels block instead of returning the error"
  },
  {
   "property": "C08",
   "status": "proved",
   "theorems": [
    "c08_eval",
    "c08_mul",
    "c08_div_mul",
    "c08_mul_div",
    "c08_div"
   ],
   "note": "loops of EvalPolyAt, mulPolyDegreeOne, divPolyDegreeOne"
  },
  {
   "property": "C09",
   "status": "proved",
   "theorems": [
    "c09_interpolate",
    "c09_duplicates_stop",
    "c09_values"
   ],
   "note": "loops of LagrangeInterpolate; passes through the points, uniqueness, equal abscissae end in log.Fatal"
  },
  {
   "property": "C10",
   "status": "proved",
   "theorems": [
    "c10_coefficients",
    "c10_unit",
    "c10_table",
    "c10_duplicates_refuted",
    "c10_exactly"
   ],
   "note": "right exactly if the indexes are distinct or the target occurs once"
  },
  {
   "property": "C11",
   "status": "proved",
   "theorems": [
    "c11_commitments",
    "c11_witnesses",
    "c11_known_indexes"
   ],
   "note": "commitments/witnesses of the sections of any bivariate polynomial"
  },
  {
   "property": "C12",
   "status": "proved",
   "theorems": [
    "c12_long_division",
    "c12_short"
   ],
   "note": "coefficient-wise identity and degree bound of the remainder"
  },
  {
   "property": "C13",
   "status": "proved",
   "theorems": [
    "c13_complete",
    "c13_exact",
    "c13_unoptimized",
    "c13_single_party_refuted"
   ],
   "note": "setup size at least 2 proved; with F = 0 every check panics (refuted)"
  },
  {
   "property": "C14",
   "status": "proved",
   "theorems": [
    "c14_commit",
    "c14_proof",
    "c14_check"
   ],
   "note": ""
  },
  {
   "property": "C15",
   "status": "proved",
   "theorems": [
    "c15_binding",
    "c15_binding_polynomials",
    "c15_unique_proof",
    "c15_fixed_secret_forgery",
    "c15_fixed_secret_refuted"
   ],
   "note": "extraction theorems in the discrete-logarithm model; with the fixed secret binding is refuted for every commitment"
  },
  {
   "property": "C16",
   "status": "proved",
   "theorems": [
    "c16_check",
    "c16_interpolant",
    "c16_verifier",
    "c16_binding",
    "c16_prover",
    "c16_complete",
    "c16_complete_refuted"
   ],
   "note": "verifier: exact, complete, binding; prover: accepted up to 2n coefficients, refuted beyond"
  },
  {
   "property": "C17",
   "status": "proved",
   "theorems": [
    "c17_honest_dealer",
    "c17_layout"
   ],
   "note": ""
  },
  {
   "property": "C18",
   "status": "proved",
   "theorems": [
    "c18_sound",
    "c18_extraction",
    "c18_reject_unchanged",
    "c18_gs_refuted",
    "c18_gs"
   ],
   "note": "acceptance implies the checked relations and extraction of a polynomial; a wrong Gs is only logged and accepted (refuted)"
  },
  {
   "property": "C19",
   "status": "proved",
   "theorems": [
    "c19_reconstruct_full",
    "c19_reconstruct_reduced",
    "c19_secrecy",
    "c19_secrecy_client"
   ],
   "note": "perfect secrecy of the share values; the published commitments (which include g^s) are outside of the statement"
  },
  {
   "property": "C20",
   "status": "proved",
   "theorems": [
    "c20_share_reduce"
   ],
   "note": ""
  },
  {
   "property": "C21",
   "status": "proved",
   "theorems": [
    "c21_robust",
    "c21_replay_refuted",
    "c21_foreign_refuted",
    "c21_forgery_refuted",
    "c21_stale_value_refuted",
    "c21_stale_rejected_refuted",
    "c21_waits",
    "c21_takes"
   ],
   "note": "robust under: no repeated sender, decodable points, no forged opening; each of these restrictions is shown necessary"
  },
  {
   "property": "C22",
   "status": "proved",
   "theorems": [
    "c22_prepare",
    "c22_vouched",
    "c22_adopts",
    "c22_replay_refuted"
   ],
   "note": "proved for distinct senders and a hash without collisions on the messages at hand; refuted for a repeated sender"
  },
  {
   "property": "C23",
   "status": "proved",
   "theorems": [
    "c23_zero",
    "c23_refresh",
    "c23_unrecovered_refuted"
   ],
   "note": "the refreshed shares lie on one polynomial with the same secret when every agreed dealer has been recovered; refuted when a dealer is agreed whose polynomial a member has not recovered yet (the code then adds a zero polynomial)"
  },
  {
   "property": "C24",
   "status": "proved",
   "theorems": [
    "c24_honest",
    "c24_accepted",
    "c24_sharing_of_zero",
    "c24_trace_refuted",
    "c24_trace"
   ],
   "note": "honest messages are accepted, and acceptance is characterised exactly; that a rejected message leaves no trace is refuted: the commitment at index 2F+1 stays"
  },
  {
   "property": "C25",
   "status": "proved",
   "theorems": [
    "c25_honest",
    "c25_last_point",
    "c25_wrong_points_refuted",
    "c25_votes_after_acceptance",
    "c25_vote_happens"
   ],
   "note": "refuted as stated: only the last of the 2F+1 openings decides; what the vote does certify is proved"
  },
  {
   "property": "C26",
   "status": "proved",
   "theorems": [
    "c26_recovered",
    "c26_recover",
    "c26_replay_refuted",
    "c49_recover_handle"
   ],
   "note": "proved without repeated messages; a repeated valid message stops the process"
  },
  {
   "property": "C27",
   "status": "proved",
   "theorems": [
    "c27_shares",
    "c27_assembly",
    "c27_recover_2F_refuted",
    "c27_duplicates_refuted"
   ],
   "note": "assembly is right from 2F+1 valid shares of distinct signers; refuted for the code as written: it recovers with threshold 2F although the key has threshold 2F+1, and it does not drop repeated signers"
  },
  {
   "property": "C28",
   "status": "proved",
   "theorems": [
    "c28_new_commitment",
    "c28_safe",
    "c28_complete",
    "c28_runs",
    "c28_point"
   ],
   "note": "one message per member in the completeness part; no forged openings; that such runs exist is part of c29_handoff_exists"
  },
  {
   "property": "C29",
   "status": "proved",
   "theorems": [
    "c29_handoff",
    "c29_handoff_from",
    "c29_handoff_from_exists",
    "c29_handoff_exists",
    "c29_epochs",
    "c30_refuted"
   ],
   "note": "proved without further assumption from the dealing through the first handoff (the only one a process of main.go takes part in); for further handoffs under the stated condition on commitments and witnesses, which the code does not ensure (c30_refuted)"
  },
  {
   "property": "C30",
   "status": "proved",
   "theorems": [
    "c30_next_messages",
    "c30_accepted_iff",
    "c30_not_ready",
    "c30_refuted"
   ],
   "note": "false of the code: no member is ready after a handoff; a run is shown after which the next handoff never completes"
  },
  {
   "property": "C31",
   "status": "proved",
   "theorems": [
    "c31_no_two_values",
    "c31_outputs_agree",
    "c31_replay_refuted",
    "c31_anything_refuted"
   ],
   "note": "with one echo counted per sender all readiness messages carry the same hash in every execution; without it (the code as written) refuted by one corrupted member of four"
  },
  {
   "property": "C32",
   "status": "proved",
   "theorems": [
    "c32_byzantine",
    "c32_ends",
    "c32_validity",
    "c32_wrong_shard_refuted",
    "c32_wrong_shard",
    "c32_wrong_shard_nothing"
   ],
   "note": "proved for corrupted members that send anything but a wrong shard with the right hash (all orders, late messages, with a bound on the number of steps); false when one corrupted member announces a wrong shard: a member then returns nil"
  },
  {
   "property": "C33",
   "status": "proved",
   "theorems": [
    "c33_at_most_two",
    "c33_at_most_once",
    "c33_refuted",
    "c33_twice_refuted"
   ],
   "note": "false of the code (for every committee with 2F < N and at least F+2 members, an execution of honest members only announces twice); at most two is proved for every schedule and input"
  },
  {
   "property": "C34",
   "status": "proved",
   "theorems": [
    "c34_sender_members",
    "c34_sender_honest",
    "c34_certificates_unique",
    "c34_one_value",
    "c34_larger_committee_refuted",
    "c34_repeated_share_refuted"
   ],
   "note": "all parts proved for N <= 3F+1 and symbolic signatures, values up to a collision of SHA3-512; with more members refuted; with one share repeated the sender reports success without a certificate"
  },
  {
   "property": "C35",
   "status": "proved",
   "theorems": [
    "c35_decisions",
    "c35_no_and_decision",
    "c35_refuted",
    "c35_repeated_votes_refuted",
    "c35_forced_refuted",
    "c35_unlock_after_no",
    "c35_unlock_refuted",
    "c35_unlock_all_refuted"
   ],
   "note": "two decisions of one round agree (no message taken twice); the exclusion of the two certificates is false of the code: a member whose lock share is already out can still vote no"
  },
  {
   "property": "C36",
   "status": "proved",
   "theorems": [
    "c36_when",
    "c36_refuted",
    "c36_no_signature_refuted",
    "c36_adopts"
   ],
   "note": "exact condition proved; as stated refuted for every F >= 1"
  },
  {
   "property": "C37",
   "status": "proved",
   "theorems": [
    "c37_signed_messages",
    "c37_instances",
    "c37_broadcasts",
    "c37_reshare",
    "c37_refuted",
    "c37_signed_bytes",
    "c37_id_bytes",
    "c37_decimal_unique"
   ],
   "note": "all identifiers and all signed messages of agreement and broadcast proved distinct; shares for a resharing are valid in every other handoff"
  },
  {
   "property": "C38",
   "status": "proved",
   "theorems": [
    "c38_settings",
    "c38_roots",
    "c38_transform",
    "c38_padded",
    "c38_inverse",
    "c38_interpolates",
    "c38_errors",
    "c38_empty_refuted",
    "c38_in_place",
    "c38_empty"
   ],
   "note": "transform, inverse and errors proved for all 32 scales and all vectors; the one exception (in-place transform of the empty vector) is refuted"
  },
  {
   "property": "C39",
   "status": "proved",
   "theorems": [
    "c39_commitments",
    "c39_transform",
    "c39_inverse"
   ],
   "note": ""
  },
  {
   "property": "C40",
   "status": "proved",
   "theorems": [
    "c40_index",
    "c40_word",
    "c40_vector",
    "c40_never_refused",
    "c40_refusal_refuted"
   ],
   "note": "bijection and involution proved for all widths; the refusal of other lengths is false of the code"
  },
  {
   "property": "C41",
   "status": "proved",
   "theorems": [
    "c41_next",
    "c41_next_zero",
    "c41_next_refuted",
    "c41_test",
    "c41_test_refuted",
    "c41_scale"
   ],
   "note": "exact behaviour proved for every argument; the exceptions are 0 for the test and arguments above 2^63"
  },
  {
   "property": "C42",
   "status": "proved",
   "theorems": [
    "c42_vanishing",
    "c42_half",
    "c42_empty_refuted",
    "c42_all_missing_refuted",
    "c42_all_missing",
    "c42_leaves",
    "c42_leaves_refused",
    "c42_leaves_refuted",
    "c42_empty",
    "c42_too_many"
   ],
   "note": "proved for non-empty sets within the stated bound; outside it the two refuted theorems show what happens"
  },
  {
   "property": "C43",
   "status": "proved",
   "theorems": [
    "c43_recovers",
    "c43_never_reports",
    "c43_holds",
    "c43_inconsistent_refuted",
    "c43_complete_refuted",
    "c43_too_many"
   ],
   "note": "recovery proved for all polynomials and sets of missing samples up to one half; the error report for inconsistent samples and the case of complete samples are false of the code"
  },
  {
   "property": "C44",
   "status": "proved",
   "theorems": [
    "c44_extension",
    "c44_wide_refuted",
    "c44_single_refuted",
    "c44_single"
   ],
   "note": "proved for settings of exactly twice the length; false for larger settings"
  },
  {
   "property": "C45",
   "status": "proved",
   "theorems": [
    "c45_inverses",
    "c45_zero_poisons",
    "c45_scaling",
    "c45_split",
    "c45_evaluation",
    "c45_interpolant",
    "c45_domain_refuted",
    "c45_combinations",
    "c45_domain"
   ],
   "note": ""
  },
  {
   "property": "C46",
   "status": "proved",
   "theorems": [
    "c46_single",
    "c46_extended",
    "c46_reversed",
    "c46_accepted",
    "c46_constant_refuted",
    "c46_wrong_size",
    "c46_constant",
    "c46_other_size"
   ],
   "note": "all secrets, polynomials and indices; the exceptions named in the statement are the last two theorems"
  },
  {
   "property": "C47",
   "status": "proved",
   "theorems": [
    "c47_pad",
    "c47_pad_too_long",
    "c47_print",
    "c47_print_injective",
    "c47_samples",
    "c47_samples_refused",
    "c47_samples_panic"
   ],
   "note": ""
  },
  {
   "property": "C48",
   "status": "proved",
   "theorems": [
    "c48_count",
    "c48_distinct",
    "c48_one_sender_refuted"
   ],
   "note": "exact count proved; that 2F+1 different members announced holds only if nobody announces twice, refuted otherwise"
  },
  {
   "property": "C49",
   "status": "proved",
   "theorems": [
    "c49_connection",
    "c49_connection_refuted",
    "c49_dealing_refuted",
    "c49_share_reduce",
    "c49_share_reduce_refuted",
    "c49_prepare_refuted",
    "c49_commit_refuted",
    "c49_reshare",
    "c49_reshare_refuted",
    "c49_recover",
    "c49_recover_refuted",
    "c49_result_refuted",
    "c49_share_dist",
    "c49_new_commit_refuted",
    "c49_propose_refuted",
    "c49_ready_refuted",
    "c49_ready_sender_refuted",
    "c49_agreement_panic",
    "c49_agreement_fatal",
    "c49_agreement_refuted",
    "c49_dealing",
    "c49_commit",
    "c49_reshare_lists",
    "c49_reshare_exact",
    "c49_prepare",
    "c49_new_commit",
    "c49_propose",
    "c49_decode",
    "c49_broadcast",
    "c49_result",
    "c49_share_dist_wait",
    "c49_share_dist_run",
    "c49_recover_handle",
    "c87_wrong_shard"
   ],
   "note": "if-and-only-if characterisation of the stopping messages at every modelled stage, with a witness of each kind"
  },
  {
   "property": "C50",
   "status": "proved",
   "theorems": [
    "c50_shares",
    "c50_threshold",
    "c50_secrecy",
    "c50_file"
   ],
   "note": "the kyber library is not in the repository; its share and polynomial code is modelled from its published source"
  },
  {
   "property": "C51",
   "status": "proved",
   "theorems": [
    "c51_same_commitments",
    "c51_agreement_refuted",
    "c51_split_refuted"
   ],
   "note": "extraction theorem for any set of members; the dealer of the refutation is explicit"
  },
  {
   "property": "C52",
   "status": "proved",
   "theorems": [
    "c52_served",
    "c52_stuck",
    "c52_blocked_refuted",
    "c52_silent_dealer_refuted",
    "c52_no_error"
   ],
   "note": "for every state and every continuation"
  },
  {
   "property": "C53",
   "status": "proved",
   "theorems": [
    "c53_each_once",
    "c53_starved_refuted"
   ],
   "note": "for every sequence of deliveries; c28_complete draws the consequence for the share"
  },
  {
   "property": "C54",
   "status": "proved",
   "theorems": [
    "c54_agreement_input",
    "c54_voters_refuted"
   ],
   "note": "all but the distinctness of the voters proved for every execution; distinctness refuted"
  },
  {
   "property": "C55",
   "status": "proved",
   "theorems": [
    "c55_same_round",
    "c55_carries",
    "c55_agreement",
    "c55_refuted",
    "c55_unvalidated_refuted"
   ],
   "note": "agreement under the two stated conditions; each of them fails in a run of the code with one corrupted member of four"
  },
  {
   "property": "C56",
   "status": "proved",
   "theorems": [
    "c56_common_leader",
    "c56_refuted",
    "c56_coin_after_finish",
    "c56_distinct_finish_refuted",
    "c56_leader",
    "c56_forced_refuted",
    "c56_early_refuted",
    "c56_all_early_refuted"
   ],
   "note": "proved if no coin share is taken twice; refuted otherwise, also that the coin stays unknown until broadcasts have finished"
  },
  {
   "property": "C57",
   "status": "proved",
   "theorems": [
    "c57_trailing",
    "c57_unpad",
    "c57_roundtrip_refuted",
    "c57_unpad_iff",
    "c57_slice",
    "c57_with_len"
   ],
   "note": ""
  },
  {
   "property": "C58",
   "status": "proved",
   "theorems": [
    "c58_quotients",
    "c58_accepted",
    "c58_cosets",
    "c58_reversed",
    "c58_unit_chunks",
    "c58_multi_refuted",
    "c58_one_chunk_refuted"
   ],
   "note": "all secrets, polynomials, chunk lengths and cosets; the exceptions named in the statement are the last two theorems"
  },
  {
   "property": "C59",
   "status": "proved",
   "theorems": [
    "c59_roundtrip",
    "c59_accepts",
    "c59_refused_unchanged",
    "c59_upper_case"
   ],
   "note": "the compression of points is a parameter with a round-trip law; G2 has the same code and is not modelled separately"
  },
  {
   "property": "C60",
   "status": "proved",
   "theorems": [
    "c60_lines",
    "c60_unique",
    "c60_trailing_newline",
    "c60_unreadable"
   ],
   "note": ""
  },
  {
   "property": "C61",
   "status": "proved",
   "theorems": [
    "c61_hol",
    "c61_pure",
    "c61_pure_inverse_refuted",
    "c61_encode",
    "c61_encode_panic",
    "c61_encode_refuted",
    "c61_hbls",
    "c61_hbls_as_refuted",
    "c61_hbls_encode",
    "c61_encode_exact",
    "c61_encode_iff",
    "c61_encode_injective",
    "c61_pow",
    "c61_pow_inverse",
    "c61_pow_add",
    "c61_pow_add_refuted"
   ],
   "note": "math/big and holiman/uint256 are taken by their documentation; the C library behind bignum_hbls is taken to compute in the field, its inverse of zero is a parameter"
  },
  {
   "property": "C62",
   "status": "proved",
   "theorems": [
    "c62_ready_from_proposal",
    "c62_output_from_proposal",
    "c62_integrity",
    "c62_hijack_refuted",
    "c62_hijack_all_refuted"
   ],
   "note": "for every schedule and every behaviour of up to F corrupted members, with one echo counted per sender; a SHA-256 collision is the stated exception; the missing sender check is shown by a run"
  },
  {
   "property": "C63",
   "status": "proved",
   "theorems": [
    "c63_shares",
    "c63_secret",
    "c63_exists",
    "c63_next",
    "c63_again_refuted"
   ],
   "note": "for every dealing, all randomness and up to F corrupted members; the outcome of the agreement and of the Reshare and Recover stages enters as in C29"
  },
  {
   "property": "C64",
   "status": "proved",
   "theorems": [
    "c64_recovers",
    "c64_never_reports",
    "c64_holds",
    "c64_same_as_newer",
    "c64_few_missing_refuted",
    "c64_all_missing",
    "c64_refused"
   ],
   "note": "recovery for power-of-two lengths, agreement with the samples for all; the claim that any sufficient number of samples is recovered is refuted: with at most four missing the process stops"
  },
  {
   "property": "C65",
   "status": "proved",
   "theorems": [
    "c65_consistent",
    "c65_larger_bound",
    "c65_smaller_bound",
    "c65_one_reader_refuted"
   ],
   "note": "the gob encoding enters as a codec with a round-trip law; file system errors other than a missing file are left out"
  },
  {
   "property": "C66",
   "status": "proved",
   "theorems": [
    "c66_commit",
    "c66_values",
    "c66_lengths"
   ],
   "note": "for every trapdoor and every polynomial"
  },
  {
   "property": "C67",
   "status": "proved",
   "theorems": [
    "c67_old_share",
    "c67_pool",
    "c67_mobile_refuted",
    "c67_secrecy",
    "c67_at_epoch"
   ],
   "note": "false for up to F corrupted members in each committee (refuted for all sizes and all randomness); true if two consecutive committees have at most F corrupted indexes between them; values only, commitments and witnesses are not counted"
  },
  {
   "property": "C68",
   "status": "proved",
   "theorems": [
    "c68_accepts",
    "c68_rejected",
    "c68_unique",
    "c68_envelope",
    "c68_utf8",
    "c68_written",
    "c68_declared",
    "c68_complete",
    "c68_names",
    "c68_envelope_fields",
    "c68_content_fields",
    "c68_payload_fields",
    "c68_nested_fields",
    "c68_agreement_fields"
   ],
   "note": "specification of the wire format in WireSpec.v, stated as relations and independent of the parser; the text of Message.proto and a reader for it are in DeclSpec.v, so that field numbers, types and names come from the declarations"
  },
  {
   "property": "C69",
   "status": "proved",
   "theorems": [
    "c69_no_crash",
    "c69_same",
    "c69_input",
    "c69_quiet",
    "c69_ends",
    "c69_ends_refuted"
   ],
   "note": "as expected (everybody returns) refuted for four honest members; proved: agreement, the returned value is an input, exact form of a deadlock, and the end with exactly 2F+1 active members or F = 0; corrupted members are silent here, fairness is expressed as a state in which nothing is left to do"
  },
  {
   "property": "C70",
   "status": "proved",
   "theorems": [
    "c70_ends_refuted",
    "c70_blocked",
    "c70_spoil"
   ],
   "note": "refuted for every committee with F >= 1 and N <= 3F+1, whatever the honest members do afterwards; corrupted members need only send first-stage Value messages"
  },
  {
   "property": "C71",
   "status": "proved",
   "theorems": [
    "c71_flood_refuted"
   ],
   "note": "refutation for every reachable state before readiness; together with C32 this delimits when a broadcast ends"
  },
  {
   "property": "C72",
   "status": "proved",
   "theorems": [
    "c72_exclusive",
    "c72_serial",
    "c72_any",
    "c72_lost_refuted",
    "c72_panic_refuted",
    "c72_wrong_refuted",
    "c72_double_refuted"
   ],
   "note": "interleavings of single reads and writes under sequential consistency; right without overlapping appends, refuted with them; C28 treats lines 645-672 as one step"
  },
  {
   "property": "C73",
   "status": "proved",
   "theorems": [
    "c73_refines",
    "c73_free",
    "c73_heard",
    "c73_starved_refuted",
    "c73_suppressed_refuted"
   ],
   "note": "true with one message per member; both ways to lose a vote are refutations for every committee"
  },
  {
   "property": "C74",
   "status": "proved",
   "theorems": [
    "c74_safe",
    "c74_ends",
    "c74_retry_refuted"
   ],
   "note": "safe and ending under every interleaving; the retries are needed (refutation for each round)"
  },
  {
   "property": "C75",
   "status": "proved",
   "theorems": [
    "c75_safe",
    "c75_ends",
    "c75_all_start",
    "c75_reached"
   ],
   "note": "all schedules of all honest members; members that are not honest are silent"
  },
  {
   "property": "C76",
   "status": "proved",
   "theorems": [
    "c76_split_refuted"
   ],
   "note": "the claim is refuted for every committee size; the agreement is taken to return an honest input, which C55 and C69 allow"
  },
  {
   "property": "C77",
   "status": "proved",
   "theorems": [
    "c77_finish",
    "c77_recovered",
    "c77_good_order"
   ],
   "note": "members that are not honest are silent; the reliable broadcast of a commitment is one packet per receiver (C32); lines 645-672 are one step (C72 treats their single accesses)"
  },
  {
   "property": "C78",
   "status": "proved",
   "theorems": [
    "c78_first",
    "c78_later",
    "c78_whole"
   ],
   "note": "the provisos on corrupted messages are those of C21 and C22, where each is shown to be needed; corrupted packets are in flight from the beginning, with contents fixed in advance, and may be delivered at any time; honest members of the new committee only receive; c78_whole uses the existence of a good order from C77"
  },
  {
   "property": "C79",
   "status": "proved",
   "theorems": [
    "c79_link",
    "c79_spread",
    "c79_handoff",
    "c79_committee",
    "c79_outsider",
    "c79_frame",
    "c79_dial",
    "c79_write",
    "c79_quiet",
    "c79_exact",
    "c79_stuck"
   ],
   "note": "that the operating system closes the connections of a stopped process, and that a reader then gets an error once it has read what arrived before, is the meaning of the events EFin and EEof; c79_exact and c79_quiet assume that what arrives is the beginning of a stream of envelopes; c79_stuck shows that the exception in c79_link is real"
  },
  {
   "property": "C80",
   "status": "proved",
   "theorems": [
    "c80_parts",
    "c80_timely",
    "c80_safe",
    "c80_recovered",
    "c80_torn_refuted"
   ],
   "note": "c80_torn_refuted is the witness for the last sentence; an assignment of Q[k][PID+1] together with flgRec[k] is one step"
  },
  {
   "property": "C81",
   "status": "proved",
   "theorems": [
    "c81_accept",
    "c81_safe",
    "c81_ends",
    "c81_all_start",
    "c81_reached",
    "c81_good_order"
   ],
   "note": "what the corrupted members may not send is what the other properties show to stop or block a member: points that do not decode (C49), a second Reshare or Recover message (C26), Recover messages about dealers that are not accepted (C52), wrong shards inside a broadcast (C87; broadcasts are single events here); that no commitment is opened to a wrong value is the assumption on the commitments"
  },
  {
   "property": "C82",
   "status": "proved",
   "theorems": [
    "c82_finish",
    "c82_good_order"
   ],
   "note": "what the corrupted members may not send is what the other properties show to stop or block a member: points that do not decode or senders that are no members (C49), a second ShareDist message (C53), messages in the name of an honest member (C83), wrong shards inside a broadcast (C87; broadcasts are single events here); how far false Success messages let a member leave early is C48"
  },
  {
   "property": "C83",
   "status": "proved",
   "theorems": [
    "c83_forged",
    "c83_easy",
    "c83_one"
   ],
   "note": "the counterpart of C77 and C82: their assumption that nobody sends ShareDist messages in the name of an honest member is needed. C53 starves one member with N messages; here one message per honest member beyond 2F is enough, and the whole committee is stopped"
  },
  {
   "property": "C84",
   "status": "proved",
   "theorems": [
    "c84_safe",
    "c84_late",
    "c84_ends",
    "c84_deployment",
    "c84_deployment_late",
    "c84_one_committee"
   ],
   "note": "time in whole seconds; a process listens from its start on; that a start at exactly the end of a sleep can go either way is not stated"
  },
  {
   "property": "C85",
   "status": "proved",
   "theorems": [
    "c85_roundtrip",
    "c85_kilic",
    "c85_minus_refuted",
    "c85_others",
    "c85_leading_zero",
    "c85_constants",
    "c85_invalid"
   ],
   "note": "math/big, holiman/uint256 and RedFromBytes of the default library (taken to reduce modulo r) by their documentation; texts with characters other than digits, and what SetString leaves for a text that is no number, are parameters; bignum_hbls is not included"
  },
  {
   "property": "C86",
   "status": "proved",
   "theorems": [
    "c86_send",
    "c86_send_exclude",
    "c86_returned",
    "c86_any_bytes",
    "c86_empty",
    "c86_empty_refuted"
   ],
   "note": "the erasure coder and SHA-256 are parameters as for C32; messages are shorter than 2^32 bytes in c86_returned; what proto.Marshal returns beside an error is a parameter"
  },
  {
   "property": "C87",
   "status": "proved",
   "theorems": [
    "c87_wrong_shard",
    "c87_right_shards",
    "c87_committee_refuted"
   ],
   "note": "the erasure coder is a parameter; Reconstruct is taken to leave shards that are present; member 0 as the sender of the wrong shard (the first data shard); decoding may also panic by itself, as in C49"
  },
  {
   "property": "C88",
   "status": "proved",
   "theorems": [
    "c88_sender",
    "c88_stops",
    "c88_one",
    "c88_once",
    "c88_committee_refuted"
   ],
   "note": "signatures are symbolic as for C34 (C27 shows for the scheme itself that nothing is assembled from copies of a share); SPBSender is modelled as long as its context is not cancelled"
  }
 ]
}

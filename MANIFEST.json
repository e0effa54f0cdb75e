{
 "claims": [
  {
   "property": "C01",
   "status": "proved",
   "theorems": [
    "C01_verify_iff",
    "C01_commit_verifies"
   ],
   "note": ""
  },
  {
   "property": "C02",
   "status": "proved",
   "theorems": [
    "C02_add_sub"
   ],
   "note": ""
  },
  {
   "property": "C03",
   "status": "proved",
   "theorems": [
    "C03_rekey_keeps_openings",
    "C03_rekey_adds_no_opening"
   ],
   "note": ""
  },
  {
   "property": "C04",
   "status": "proved",
   "theorems": [
    "C04_hiding",
    "C04_binding"
   ],
   "note": "primality of the modulus and of the group order are hypotheses of the theorems"
  },
  {
   "property": "C05",
   "status": "proved",
   "theorems": [
    "C05_sequential",
    "C05_overlap_refuted",
    "C05_servers_hold_base"
   ],
   "note": "all numbers of servers, secrets and delivery orders in which registrations do not overlap; C05_overlap_refuted gives a schedule with overlap in which a contribution is lost; C05_servers_hold_base: after the configuration all servers hold the coordinator's base, in all orders of delivery, overlapping or not"
  },
  {
   "property": "C06",
   "status": "proved",
   "theorems": [
    "C06_commit_exact",
    "C06_commit_random",
    "C06_homomorphic",
    "C06_create_base",
    "C06_secret_range",
    "C06_secret_exact"
   ],
   "note": ""
  },
  {
   "property": "C07",
   "status": "proved",
   "theorems": [
    "C07_sound",
    "C07_complete",
    "C07_panics_iff",
    "C07_total",
    "C07_beyond_int64_refuted"
   ],
   "note": "for 0 <= x < 2^61 (int64 range of 4x+1); C07_total: the search never fails there, because every 4x+1 is a sum of three squares (proved in SumSquares.v); C07_beyond_int64_refuted shows the range is needed"
  },
  {
   "property": "C08",
   "status": "proved",
   "theorems": [
    "C08_complete",
    "C08_returned_verifies"
   ],
   "note": "C08_complete needs no hypothesis on x but its range: that 4x+1 is a sum of three squares is proved in SumSquares.v"
  },
  {
   "property": "C09",
   "status": "partial",
   "theorems": [
    "C09_sound_refuted"
   ],
   "note": "refuted as stated: C09_sound_refuted forges an accepted argument for every commitment, including those to negative values"
  },
  {
   "property": "C10",
   "status": "proved",
   "theorems": [
    "C10_check_exact",
    "C10_honest",
    "C10_one_generator",
    "C10_accepted_exactly",
    "C10_sampled_exact",
    "C10_sampled_invertible"
   ],
   "note": ""
  },
  {
   "property": "C100",
   "status": "partial",
   "theorems": [
    "C100_server_ends",
    "C100_neighbour_ends",
    "C100_coordinator_ends_too",
    "C100_coordinator_ends",
    "C100_command_ends_client",
    "C100_posts_and_votes_go_on",
    "C100_outlives_refuted"
   ],
   "note": "refuted as stated: after the end of any server, whatever happens then, no round is ever opened or closed, no reputation changes and no registration is confirmed; the neighbour that passes a table on ends as well, and so does the coordinator when it grants a request. After the end of the coordinator at a moment with nothing in flight the whole state stays as it is and every client that sends ends. What does hold: posts and votes are handled as before."
  },
  {
   "property": "C101",
   "status": "partial",
   "theorems": [
    "C101_orderly",
    "C101_late_post_kept",
    "C101_vote_stops_coordinator",
    "C101_offers_current_refuted",
    "C101_session_stops"
   ],
   "note": "refuted as stated: a post that is delivered between the end of a round and the next announcement is recorded under the old pseudonym and stays on offer in the next round; a vote on it is counted and then stops the coordinator when the round ends. Proved for orderly sessions, in which no such message is on its way when a round ends."
  },
  {
   "property": "C102",
   "status": "partial",
   "theorems": [
    "C102_hides",
    "C102_created_base_hides",
    "C102_range",
    "C102_needs_generator",
    "C102_binds_partial",
    "C102_binds_refuted"
   ],
   "note": "hiding proved; binding refuted as stated: the coordinator, which made the base, opens every commitment to every integer with its trapdoor. Proved: for everybody else two openings yield the trapdoor or a multiple of the order of H1 (the hardness of either is not expressible in the model)."
  },
  {
   "property": "C103",
   "status": "partial",
   "theorems": [
    "C103_openssl_number",
    "C103_generates_partial",
    "C103_few_draws",
    "C103_generates_refuted",
    "C103_from_openssl"
   ],
   "note": "refuted as stated: genH refuses the draw 1 but not N-1, with which H1 and all generators are 1 and every commitment is 1. Proved: H1 generates the squares exactly if it is not 1 modulo one of the two primes, and at most 2(P+Q) of the P*Q draws give such an H1."
  },
  {
   "property": "C104",
   "status": "partial",
   "theorems": [
    "C104_bound_up_to_zeros",
    "C104_text_bound_partial",
    "C104_address_extended",
    "C104_address_extended_offered",
    "C104_address_bound_refuted"
   ],
   "note": "refuted as stated: points are read without regard to their length, so if the pseudonym's encoding begins with a zero byte, that byte can be moved to the end of the address. Proved: the address is bound up to zero bytes at its end, so it is bound among addresses that do not end with one."
  },
  {
   "property": "C105",
   "status": "partial",
   "theorems": [
    "C105_order",
    "C105_same_close",
    "C105_order_refuted"
   ],
   "note": "refuted as stated: of two posts of one address under two pseudonyms the later one counts. Proved for any posts and votes in which no address is posted twice: any two orders give the same state and the same messages when the round closes."
  },
  {
   "property": "C106",
   "status": "proved",
   "theorems": [
    "C106_distinct",
    "C106_kept_iff",
    "C106_key_drawn",
    "C106_one_draw",
    "C106_zero_draw"
   ],
   "note": "for sessions in which no server draws the round key 0; with that draw (one of Q) all pseudonyms are 1 (C106_zero_draw)"
  },
  {
   "property": "C107",
   "status": "proved",
   "theorems": [
    "C107_request_waits",
    "C107_release",
    "C107_order"
   ],
   "note": "every server replies once; for servers that reply twice see C47"
  },
  {
   "property": "C108",
   "status": "proved",
   "theorems": [
    "C108_log_exact",
    "C108_leftovers_harmless",
    "C108_forgets_refuted",
    "C108_stale_reply_matters"
   ],
   "note": "C108_forgets_refuted: the end of a round does not empty the collection, so it grows for ever. C108_stale_reply_matters: without the condition on the replies the collection matters, a reply may stop the coordinator or release an assignment early (C63_any_schedule_refuted reaches such a state)."
  },
  {
   "property": "C109",
   "status": "proved",
   "theorems": [
    "C109_two",
    "C109_any_interleaving",
    "C109_any_order_refuted"
   ],
   "note": "within a concern the order can matter (C109_any_order_refuted: a post and a request); see C105 for posts and votes and C107 for the servers' signatures"
  },
  {
   "property": "C11",
   "status": "proved",
   "theorems": [
    "C11_extract",
    "C11_one_challenge",
    "C11_guessed_challenge"
   ],
   "note": "against a fixed announcement a generator outside the group of H1 passes for one choice of its 80 bits only"
  },
  {
   "property": "C110",
   "status": "proved",
   "theorems": [
    "C110_order_free",
    "C110_no_other",
    "C110_any_order"
   ],
   "note": "C110_no_other gives its counterexamples at one small group; the other two theorems hold for every group"
  },
  {
   "property": "C111",
   "status": "proved",
   "theorems": [
    "C111_order_free",
    "C111_no_other",
    "C111_any_order"
   ],
   "note": "states are compared up to the layout of the map of pseudonyms; C111_no_other gives its counterexamples at one small group; with the round key 0 clients would replace each other (C111_zero_key)"
  },
  {
   "property": "C112",
   "status": "proved",
   "theorems": [
    "C112_determined",
    "C112_swap",
    "C112_stops"
   ],
   "note": "together with C109, C110 and C111 this says which reorderings of a session are harmless"
  },
  {
   "property": "C113",
   "status": "partial",
   "theorems": [
    "C113_verifies",
    "C113_linked_exact",
    "C113_feedback_unsigned_refuted",
    "C113_coordinator_stops"
   ],
   "note": "what is claimed is proved, except that the feedback is not covered by the signature, which is refuted; the gob encoding of the signature is an argument, injective where that matters"
  },
  {
   "property": "C114",
   "status": "partial",
   "theorems": [
    "C114_only_tag",
    "C114_one_draw",
    "C114_tag_tells_refuted"
   ],
   "note": "that the tag does not tell the key is the hardness of a discrete-logarithm problem, not expressible in the model"
  },
  {
   "property": "C115",
   "status": "partial",
   "theorems": [
    "C115_choices",
    "C115_nearly_equal",
    "C115_ways_exist",
    "C115_equal_refuted"
   ],
   "note": "exactly equal is refuted for three pairs; the bounds differ by less than a factor of the product of 1 + (i+1)/(2^64-i)"
  },
  {
   "property": "C116",
   "status": "proved",
   "theorems": [
    "C116_order",
    "C116_values",
    "C116_back",
    "C116_one_suffices",
    "C116_ways_exist"
   ],
   "note": "it counts draws; that the messages between the servers give the order away is C90"
  },
  {
   "property": "C117",
   "status": "partial",
   "theorems": [
    "C117_relations_kept",
    "C117_traced",
    "C117_hidden_refuted",
    "C117_any_key_taken"
   ],
   "note": "the English claim is refuted for every suite and exponent; which relations the pseudonyms show is proved exactly"
  },
  {
   "property": "C12",
   "status": "partial",
   "theorems": [
    "C12_trapdoor_leaks_refuted"
   ],
   "note": "refuted as stated: two answered challenges reveal the exponent"
  },
  {
   "property": "C13",
   "status": "proved",
   "theorems": [
    "C13_complete"
   ],
   "note": ""
  },
  {
   "property": "C14",
   "status": "proved",
   "theorems": [
    "C14_accept_exact",
    "C14_special_sound",
    "C14_extract_pedersen"
   ],
   "note": ""
  },
  {
   "property": "C15",
   "status": "proved",
   "theorems": [
    "C15_sign_verifies",
    "C15_points"
   ],
   "note": "for ring members' own keys, hash digest not divisible by the modulus"
  },
  {
   "property": "C16",
   "status": "proved",
   "theorems": [
    "C16_link_iff_same_key",
    "C16_cross_message"
   ],
   "note": "primality of P and Q are explicit hypotheses; digest not 0 or +-1 modulo P"
  },
  {
   "property": "C17",
   "status": "partial",
   "theorems": [
    "C17_unforgeable_refuted",
    "C17_verify_exact",
    "C17_special_sound_partial"
   ],
   "note": "refuted as stated: tag 0 lets anyone sign; acceptance is characterised exactly and two transcripts yield the discrete logarithm relation"
  },
  {
   "property": "C18",
   "status": "partial",
   "theorems": [
    "C18_linking_evaded_refuted",
    "C18_same_key_refuted"
   ],
   "note": "refuted as stated: a signer can change the tag, and a forger can reuse another's tag"
  },
  {
   "property": "C19",
   "status": "proved",
   "theorems": [
    "C19_sign_verifies",
    "C19_sign_verifies_std",
    "C19_verify_exact"
   ],
   "note": ""
  },
  {
   "property": "C20",
   "status": "partial",
   "theorems": [
    "C20_unforgeable_refuted",
    "C20_zero_base_exact",
    "C20_group_base_special_soundness_partial"
   ],
   "note": "refuted as stated for the zero base that coordinator and servers use; exact characterisation C20_zero_base_exact; special soundness for a real group base (unforgeability itself is computational)"
  },
  {
   "property": "C21",
   "status": "partial",
   "theorems": [
    "C21_signing_reveals_key_refuted",
    "C21_nonce_reuse_refuted"
   ],
   "note": "refuted as stated: the constant nonce stream lets anyone compute the key"
  },
  {
   "property": "C22",
   "status": "proved",
   "theorems": [
    "C22_decrypt_encrypt"
   ],
   "note": ""
  },
  {
   "property": "C23",
   "status": "proved",
   "theorems": [
    "C23_point_round_trip",
    "C23_point_decode_exact",
    "C23_secret_round_trip",
    "C23_secret_decode_exact",
    "C23_bigint_inverse",
    "C23_lists"
   ],
   "note": ""
  },
  {
   "property": "C24",
   "status": "proved",
   "theorems": [
    "C24_int_to_byte"
   ],
   "note": ""
  },
  {
   "property": "C25",
   "status": "partial",
   "theorems": [
    "C25_binds_refuted",
    "C25_binds_same_lengths"
   ],
   "note": "refuted as stated: the signed message concatenates fields without lengths and truncates ind to 32 bits; with equal field lengths and 32-bit ind it binds everything"
  },
  {
   "property": "C26",
   "status": "partial",
   "theorems": [
    "C26_feedback_sign_refuted",
    "C26_exact"
   ],
   "note": "refuted as stated: the sign of the feedback is not signed; exactly its absolute value is"
  },
  {
   "property": "C27",
   "status": "proved",
   "theorems": [
    "C27_assignments_round_trip"
   ],
   "note": "gob is a record with round-trip laws; a concrete codec meets them"
  },
  {
   "property": "C28",
   "status": "proved",
   "theorems": [
    "C28_honest_accepted"
   ],
   "note": "for every difference rep-ind below 2^61 and the group order; the three-squares theorem it rests on is proved in SumSquares.v"
  },
  {
   "property": "C29",
   "status": "partial",
   "theorems": [
    "C29_only_sufficient_reputation_refuted",
    "C29_wraparound_refuted",
    "C29_accept_exact"
   ],
   "note": "refuted as stated: a forged argument is accepted for every indicator; acceptance is characterised exactly"
  },
  {
   "property": "C30",
   "status": "proved",
   "theorems": [
    "C30_find_index",
    "C30_find_int",
    "C30_find_comm"
   ],
   "note": ""
  },
  {
   "property": "C31",
   "status": "proved",
   "theorems": [
    "C31_permutation",
    "C31_every_permutation"
   ],
   "note": "for every k, stream and input; every permutation is drawn for some stream of 64-bit words"
  },
  {
   "property": "C32",
   "status": "proved",
   "theorems": [
    "C32_reencrypts",
    "C32_total",
    "C32_decrypts",
    "C32_unblind"
   ],
   "note": "Spec.reencrypts / Spec.decrypts; convertToOrigin returns exactly the permuted second components"
  },
  {
   "property": "C33",
   "status": "proved",
   "theorems": [
    "C33_rebind",
    "C33_same_table"
   ],
   "note": "distinct keys; the (key, value) pairs after are a permutation of the pairs before"
  },
  {
   "property": "C34",
   "status": "proved",
   "theorems": [
    "C34_accepted"
   ],
   "note": "for every k >= 2, vectors, permutation, transcript oracle and private randomness, provided gamma and the x_i - t are invertible (otherwise the prover divides by zero)"
  },
  {
   "property": "C35",
   "status": "proved",
   "theorems": [
    "C35_honest_accepted",
    "C35_prover_succeeds",
    "C35_server_accepted"
   ],
   "note": "bytes produced by the prover are accepted by the verifier; exact condition for the prover not to divide by zero; message of an honest server passes verifyNeffShuffle of the next"
  },
  {
   "property": "C36",
   "status": "partial",
   "theorems": [
    "C36_forged_accepted",
    "C36_only_shuffles_refuted",
    "C36_accept_exact_partial"
   ],
   "note": "refuted as stated: the embedded simple shuffle is not tied to the pairs, so proofs exist for outputs that are componentwise powers of the inputs; the exact acceptance condition is proved"
  },
  {
   "property": "C37",
   "status": "proved",
   "theorems": [
    "C37_honest",
    "C37_exact"
   ],
   "note": "the statement proved by the OR-predicate is equivalent to Spec.reencrypts for two pairs; soundness of the external proof library is outside the model"
  },
  {
   "property": "C38",
   "status": "partial",
   "theorems": [
    "C38_covered_refuted",
    "C38_reads_only",
    "C38_other_table",
    "C38_unshuffled",
    "C38_honest_covered",
    "C38_proof_checked"
   ],
   "note": "refuted as stated: verifyNeffShuffle reads seven fields that include neither keys nor vals, so an accepted message is accepted with any other table, and a message without the shuffled flag is always accepted; C38_covered_refuted gives a message on which a server works with keys that are not those of the verified shuffle. C38_honest_covered: the messages of honest servers are covered. C38_proof_checked: when the flag is there, a server acts only if the verifier accepts the decoded proof."
  },
  {
   "property": "C39",
   "status": "proved",
   "theorems": [
    "C39_same_pseudonym",
    "C39_any_order"
   ],
   "note": "all chains, round keys coprime to the group order, private keys; table entries and registrations within the round"
  },
  {
   "property": "C40",
   "status": "proved",
   "theorems": [
    "C40_table_preserved"
   ],
   "note": "all tables, chains, random values and map iteration orders"
  },
  {
   "property": "C41",
   "status": "proved",
   "theorems": [
    "C41_table"
   ],
   "note": "all schedules of reach: any number of servers, clients, rounds, any delivery order, with the guards written in Round.v (the loop changes phase only when the previous phase's messages are handled, clients join while a round is open, no vote is handled while a round end travels). The ledger, kept from the schedule alone, says what each key's value and blinding are; the table has exactly its keys and opens to its values and blindings."
  },
  {
   "property": "C42",
   "status": "proved",
   "theorems": [
    "C42_settled",
    "C42_client_opens"
   ],
   "note": "same schedules as C41; C42_settled needs no bound and gives the value modulo Go's int wrap-around, C42_client_opens assumes reputations stay in the range of int. Both between rounds and in the open round."
  },
  {
   "property": "C43",
   "status": "partial",
   "theorems": [
    "C43_every_schedule_refuted"
   ],
   "note": "refuted as stated: a vote handled between the start of round end and its completion changes the client's Reputation but not the commitment. For the schedules without that overlap see C42_client_opens."
  },
  {
   "property": "C44",
   "status": "proved",
   "theorems": [
    "C44_agreement",
    "C44_late_joiner_differs"
   ],
   "note": "all schedules of reach; clients of the announced table. A client that joined after the announcement holds g but not GT and HT until the next announcement (C44_late_joiner_differs)."
  },
  {
   "property": "C45",
   "status": "proved",
   "theorems": [
    "C45_assigned_at_most_posted",
    "C45_posted_once"
   ],
   "note": "for every history of coordinator events from initialisation (all messages, senders, map iteration orders): a bridge is assigned at most as often as it is posted; re-posting an address makes it available again in the code, which is why the bound is the number of posts"
  },
  {
   "property": "C46",
   "status": "proved",
   "theorems": [
    "C46_exact"
   ],
   "note": "every reachable state after the first round has begun, every valid request, every iteration order of the bridge map"
  },
  {
   "property": "C47",
   "status": "partial",
   "theorems": [
    "C47_all_signatures_partial",
    "C47_all_signatures_refuted",
    "C63_assignments_fully_signed"
   ],
   "note": "refuted as stated: replies are counted, not attributed, so one server replying twice stands in for another that never replied; proved under the hypothesis that no server replies twice for the same assignment (first_reply), and in C63 for all sessions of honest parties in which no bridge is posted while signatures on it are on their way"
  },
  {
   "property": "C48",
   "status": "proved",
   "theorems": [
    "C48_sum_of_votes",
    "C48_only_votes"
   ],
   "note": "all histories from initialisation; the sum is taken as Go's 64-bit int, so it wraps like the code's"
  },
  {
   "property": "C49",
   "status": "partial",
   "theorems": [
    "C49_any_vote_accepted",
    "C49_repeatable",
    "C49_one_vote_by_requester_refuted",
    "C49_honest_vote_partial"
   ],
   "note": "refuted as stated: the feedback is not restricted, assignments and the nym they were made for are not compared with the voter, votes can be replayed and the signatures on an assignment can be forged because their base is the residue 0; proved: votes of the unmodified client carry +1 or -1 and are accepted"
  },
  {
   "property": "C50",
   "status": "proved",
   "theorems": [
    "C50_latest_wins",
    "C50_one_key_per_address"
   ],
   "note": "all histories and all iteration orders of the client map"
  },
  {
   "property": "C51",
   "status": "proved",
   "theorems": [
    "C51_chain_linked",
    "C51_progress"
   ],
   "note": "all numbers of servers and all delivery orders of the configuration phase; no duplicated or lost messages"
  },
  {
   "property": "C52",
   "status": "proved",
   "theorems": [
    "C52_unverified_post",
    "C52_unverified_request",
    "C52_unverified_vote",
    "C52_valid_post_recorded",
    "C52_valid_vote_counted"
   ],
   "note": "all states (not only reachable ones); a message that stops the coordinator is the subject of C53"
  },
  {
   "property": "C53",
   "status": "partial",
   "theorems": [
    "C53_never_stops_refuted",
    "C53_invalid_nym_stops",
    "C53_empty_message_stops",
    "C53_early_registration_stops",
    "C53_unknown_requester_stops",
    "C53_post_partial",
    "C53_vote_partial",
    "C53_register_partial",
    "C53_request_partial"
   ],
   "note": "refuted as stated: several client messages stop the coordinator in every state; proved: conditions on a message and state under which posts, requests, votes and registrations never stop it"
  },
  {
   "property": "C54",
   "status": "partial",
   "theorems": [
    "C54_open_round_partial",
    "C54_before_first_round_refuted",
    "C54_between_rounds_refuted"
   ],
   "note": "refuted as stated: before the first announcement the registration stops the coordinator, and a registration between two rounds is dropped by the next announcement, whose FINALIZE message then stops the client. C54_open_round_partial proves the property for clients that join while a round is open."
  },
  {
   "property": "C55",
   "status": "partial",
   "theorems": [
    "C55_messages_partial",
    "C55_other_keys_partial",
    "C55_overwrites",
    "C55_unaffected_refuted"
   ],
   "note": "refuted as stated: a registration for a key that is already in the table replaces its commitment at the end of the round; proved for all other keys"
  },
  {
   "property": "C56",
   "status": "partial",
   "theorems": [
    "C56_only_these_partial",
    "C56_any_sender",
    "C56_any_sender_server",
    "C56_only_servers_refuted"
   ],
   "note": "refuted as stated: no handler of the messages that change the table looks at the sender; proved: only these kinds of messages and the launcher's own steps change it"
  },
  {
   "property": "C57",
   "status": "partial",
   "theorems": [
    "C57_phase_ignored",
    "C57_voting_phase_refuted",
    "C57_after_announcement_partial"
   ],
   "note": "refuted as stated: posts, requests and votes are handled the same in every phase; proved: no vote is accepted before an announcement has arrived"
  },
  {
   "property": "C58",
   "status": "proved",
   "theorems": [
    "C58_linkable_exact"
   ],
   "note": "all sequences of the two operations"
  },
  {
   "property": "C59",
   "status": "proved",
   "theorems": [
    "C59_panics_exactly",
    "C59_last_line_wins",
    "C59_get_parameter",
    "C59_get_parameter_after_read",
    "C59_lines_exist"
   ],
   "note": "All file contents and parameter names. GetParameter on its own reads local before conn, the opposite override order to ReadConfig; the scanner's 64 KiB line limit is modelled."
  },
  {
   "property": "C60",
   "status": "proved",
   "theorems": [
    "C60_coordinator_frame",
    "C60_coordinator_unknown",
    "C60_server_unknown",
    "C60_server_frame",
    "C60_client_unknown",
    "C60_numbers_distinct"
   ],
   "note": "all event types, parameters and states; frame conditions for the coordinator (all events and launcher steps) and servers"
  },
  {
   "property": "C61",
   "status": "proved",
   "theorems": [
    "C61_request_served"
   ],
   "note": "all schedules of reach; the client must have handled its registration confirmation (it has the FO base), and its reputation must fit an int64."
  },
  {
   "property": "C62",
   "status": "proved",
   "theorems": [
    "C62_signs_what_verifies"
   ],
   "note": "all schedules of reach, any message. A signature on base 0 verifies unless its response is 0 (response_nonzero)."
  },
  {
   "property": "C63",
   "status": "partial",
   "theorems": [
    "C63_assignments_fully_signed",
    "C63_signatures_verify",
    "C63_any_schedule_refuted"
   ],
   "note": "refuted as stated (C63_any_schedule_refuted: a bridge posted and requested twice before the servers answer, honest parties); proved for all schedules in which no bridge is posted while signatures on it are on their way (calm_reach). The signatures verify unless a response is 0."
  },
  {
   "property": "C64",
   "status": "proved",
   "theorems": [
    "C64_vote_counted"
   ],
   "note": "schedules of calm_reach; no signature on the assignment has response 0 (responses_nonzero), which the code's zero base would reject"
  },
  {
   "property": "C65",
   "status": "partial",
   "theorems": [
    "C65_round_messages_handled_partial",
    "C65_honest_session_stops_refuted",
    "C65_hasty_post_stops_refuted"
   ],
   "note": "refuted as stated: an assignment handed over after the end of its round and voted on in the next round stops the coordinator at the end of that round, and a client that posts a bridge before it has a pseudonym stops the coordinator. Proved for the messages of the round protocol (registration, announcement and its end, end of the round, new base) and for the loop's own steps, if the draws finish the shuffle proof and no vote was for a pseudonym outside the table; C72 is the version for orderly sessions"
  },
  {
   "property": "C66",
   "status": "proved",
   "theorems": [
    "C66_round_opens",
    "C66_round_closes",
    "C66_opening_deliveries",
    "C66_closing_deliveries"
   ],
   "note": "for draws that finish the shuffle proofs (draws_ok); closing also needs that votes were for pseudonyms of the table (C65 shows the case without)"
  },
  {
   "property": "C67",
   "status": "partial",
   "theorems": [
    "C67_roles_partial",
    "C67_numbers_refuted",
    "C67_default",
    "C67_one_argument"
   ],
   "note": "refuted as stated: the cases of 0, 1 and 2 are empty, so these arguments start nothing; proved for the names, for all other arguments and for all other numbers of arguments"
  },
  {
   "property": "C68",
   "status": "partial",
   "theorems": [
    "C68_command_executed",
    "C68_post_sends",
    "C68_get_sends",
    "C68_vote_sends",
    "C68_rest_sends_nothing",
    "C68_line_stops",
    "C68_other_words",
    "C68_ill_formed_line_refuted"
   ],
   "note": "well-formed lines proved; the part about ill-formed lines is refuted as stated: a command without its arguments stops the client, and a word that is no number is taken as 0. C68_line_stops and C68_other_words say exactly which lines stop it and which do nothing"
  },
  {
   "property": "C69",
   "status": "partial",
   "theorems": [
    "C69_lines_executed_partial",
    "C69_every_input",
    "C69_one_cut",
    "C69_long_line_in_pieces",
    "C69_one_command_per_line_refuted"
   ],
   "note": "refuted as stated: a line of 4096 bytes or more is executed in pieces; proved for all inputs what the pieces are, and that they are the lines when all lines are shorter"
  },
  {
   "property": "C70",
   "status": "proved",
   "theorems": [
    "C70_distinct_ports",
    "C70_eleven_servers"
   ],
   "note": ""
  },
  {
   "property": "C71",
   "status": "proved",
   "theorems": [
    "C71_assignment_delivered",
    "C71_request_delivered"
   ],
   "note": "for schedules in which no bridge is posted while signatures on it are on their way (C63 shows the other case) and, as for every signature on the zero base, if the response of the coordinator's signature is not 0"
  },
  {
   "property": "C72",
   "status": "proved",
   "theorems": [
    "C72_orderly_session_never_stops",
    "C72_orderly_round_closes"
   ],
   "note": "for draws that finish the shuffle proofs, requests the client can prove or that exceed its reputation, votes on an assignment the client holds"
  },
  {
   "property": "C73",
   "status": "proved",
   "theorems": [
    "C73_not_a_shuffle",
    "C73_extract"
   ],
   "note": "primality of the modulus and of the group order are hypotheses of the theorems"
  },
  {
   "property": "C74",
   "status": "proved",
   "theorems": [
    "C74_vote_lost_refuted",
    "C74_reputation_is_votes",
    "C74_open_round"
   ],
   "note": "for orderly sessions; C74_vote_lost_refuted shows a vote in flight when the round ends is lost; fewer than 2^61 votes"
  },
  {
   "property": "C75",
   "status": "proved",
   "theorems": [
    "C75_first_poster_refuted",
    "C75_assignment_names_poster",
    "C75_table_posted",
    "C75_reputation_is_votes_on_posts",
    "C75_vote_listed"
   ],
   "note": "for orderly sessions; C75_first_poster_refuted shows the takeover when two clients post the same address in one round"
  },
  {
   "property": "C76",
   "status": "partial",
   "theorems": [
    "C76_command_between_messages_partial",
    "C76_any_moment",
    "C76_request_at_round_end",
    "C76_post_at_announcement",
    "C76_console_opens_early",
    "C76_round_end_refuted",
    "C76_announcement_refuted"
   ],
   "note": "refuted as stated: a request that straddles a round end stops the client, a post that straddles an announcement is torn; proved for every interleaving with messages of the other kinds"
  },
  {
   "property": "C77",
   "status": "proved",
   "theorems": [
    "C77_whole_and_in_order",
    "C77_all_handled",
    "C77_events_as_sent",
    "C77_all_events"
   ],
   "note": "connections end in an orderly way or not at all; gob as a format that decodes what it encodes (toy_format shows one exists)"
  },
  {
   "property": "C78",
   "status": "partial",
   "theorems": [
    "C78_silent_peer_blocks",
    "C78_reset_stops",
    "C78_no_event_stops",
    "C78_empty_connection_stops",
    "C78_closed_means_handled_refuted"
   ],
   "note": "refuted as stated: a silent peer blocks the process for ever, a reset or empty connection stops it; C77_all_handled is what holds when all peers close their connections"
  },
  {
   "property": "C79",
   "status": "partial",
   "theorems": [
    "C79_keys_kept",
    "C79_reputation",
    "C79_assignments",
    "C79_frame",
    "C79_anyone_sets_opening",
    "C79_anyone_sets_reputation",
    "C79_anyone_adds_assignment",
    "C79_anyone_stops_client",
    "C79_only_coordinator_refuted"
   ],
   "note": "what each message may change is proved; refuted as to the sender: nobody checks it"
  },
  {
   "property": "C80",
   "status": "partial",
   "theorems": [
    "C80_coordinator_identifies",
    "C80_hidden_from_coordinator_refuted"
   ],
   "note": "refuted as stated: the sender's address identifies it"
  },
  {
   "property": "C81",
   "status": "partial",
   "theorems": [
    "C81_message_reveals_key",
    "C81_all_pseudonyms",
    "C81_hidden_from_observers_refuted",
    "C81_answers_key_free"
   ],
   "note": "refuted as stated: the constant nonce reveals the key; only the answers given in handlers are free of it"
  },
  {
   "property": "C82",
   "status": "partial",
   "theorems": [
    "C82_coordinator_holds_all_openings",
    "C82_coordinator_knows",
    "C82_clients_hidden_refuted"
   ],
   "note": "refuted as stated: the coordinator draws all blindings itself and recognises the commitments in the shuffled table"
  },
  {
   "property": "C83",
   "status": "partial",
   "theorems": [
    "C83_request_reveals_blindings",
    "C83_half_the_bits",
    "C83_other_values_need_short_relations",
    "C83_blindings_hidden_refuted",
    "C83_value_masked_partial",
    "C83_few_draws_tell_partial"
   ],
   "note": "refuted as stated: the masks are too short for the blindings; proved: the response for the value is consistent with every other small value for all but few draws (taken alone, hence partial)"
  },
  {
   "property": "C84",
   "status": "proved",
   "theorems": [
    "C84_embedded_data_is_read_back",
    "C84_short_data_fits",
    "C84_pick_stops",
    "C84_message_over_points",
    "C84_data_never_stops",
    "C84_neg_inverts"
   ],
   "note": "the random candidates are an argument; the length field has 16 bits"
  },
  {
   "property": "C85",
   "status": "partial",
   "theorems": [
    "C85_next_phase_stops",
    "C85_round_stands_still",
    "C85_only_addressees",
    "C85_others_do_not_matter",
    "C85_clients_dial_coordinator",
    "C85_survives_refuted"
   ],
   "note": "refuted as stated: the round stands still for ever once a registered client has left; proved: only addressees of the coordinator matter"
  },
  {
   "property": "C86",
   "status": "partial",
   "theorems": [
    "C86_alone",
    "C86_acts_between",
    "C86_always_between_refuted"
   ],
   "note": "refuted as stated: a server that registers during the configuration is sent a stale h; proved for all messages of clients and all replies of servers during a round"
  },
  {
   "property": "C87",
   "status": "partial",
   "theorems": [
    "C87_one_request_partial",
    "C87_repeated_requests",
    "C87_rationed_refuted"
   ],
   "note": "refuted as stated: requests are not counted, so repeating one gets every bridge; proved for a single request"
  },
  {
   "property": "C88",
   "status": "partial",
   "theorems": [
    "C88_sent_to_last_asker_partial",
    "C88_one_recipient_partial",
    "C88_recorded_request",
    "C88_only_asker_refuted"
   ],
   "note": "refuted as stated: a recorded request sent again from any address redirects the bridges; proved: they go to the address of the latest valid request"
  },
  {
   "property": "C89",
   "status": "proved",
   "theorems": [
    "C89_unknown_fields_skipped",
    "C89_points_read",
    "C89_assignment_extended"
   ],
   "note": ""
  },
  {
   "property": "C90",
   "status": "partial",
   "theorems": [
    "C90_server_linked",
    "C90_wire_names_all",
    "C90_one_server",
    "C90_hidden_refuted",
    "C90_one_server_hidden_refuted"
   ],
   "note": "refuted as stated: a server's announcement repeats the keys in the order in which it got them (prev_vals), so a listener that only compares keys names the pseudonym of every client of the table, in every session"
  },
  {
   "property": "C91",
   "status": "partial",
   "theorems": [
    "C91_main_covered",
    "C91_messages_covered",
    "C91_safe_messages_partial",
    "C91_unsafe_messages",
    "C91_register_during_vote",
    "C91_race_free_refuted"
   ],
   "note": "refuted as stated: a registration handled while the start of the vote is sent changes the map of clients during the loop over it; exactly the message types listed for each step can meet it, all others are safe in every schedule"
  },
  {
   "property": "C92",
   "status": "partial",
   "theorems": [
    "C92_links",
    "C92_no_round_closes",
    "C92_servers_left_out",
    "C92_last_server",
    "C92_recovers_refuted"
   ],
   "note": "refuted as stated: the restarted server is listed a second time and the links form a loop; after the restart of any server at any moment of rest at most one more round begins, no round is closed and no reputation changes; the servers behind the restarted one see no announcement any more, and if it was the last one no announcement returns at all"
  },
  {
   "property": "C93",
   "status": "partial",
   "theorems": [
    "C93_left_behind",
    "C93_fresh_start",
    "C93_resumes_refuted"
   ],
   "note": "refuted as stated: the restarted coordinator knows nobody and the running servers and clients never register again, so in every later run the old servers stay exactly as they are, the old clients keep all but their list of assigned bridges, the coordinator never lists one of them and sends them nothing but answers to bridge requests; what does hold: every run of a new service with servers and clients at other addresses is also a run after the restart"
  },
  {
   "property": "C94",
   "status": "partial",
   "theorems": [
    "C94_links",
    "C94_openings",
    "C94_requests_refused",
    "C94_round_never_closes",
    "C94_takes_in_refuted",
    "C94_can_close_refuted"
   ],
   "note": "refuted as stated: the registration changes the commitment base at the coordinator, so a stored commitment opens to what the client keeps exactly if blinding*(secret-1) is 0 modulo the order, honest requests in the open round are refused unless the same holds of the drawn blinding, and an open round in which somebody takes part is never closed because the new server stops on the table of its end; what does hold: the links of all servers are those of the longer list and no client or status changes. The statement on the open round leaves out runs in which further servers or clients join."
  },
  {
   "property": "C95",
   "status": "partial",
   "theorems": [
    "C95_anyone_posts",
    "C95_requests_get_outsiders",
    "C95_offers_signed",
    "C95_posted_by_members_refuted",
    "C95_keeps_poster_refuted"
   ],
   "note": "refuted as stated: the coordinator checks that a post is signed with the key behind the pseudonym it names, but not that this pseudonym takes part, and a second post of an address replaces the first; so anybody who has seen the round's generator can put any address on offer, take over the credit for a bridge on offer, and have requests answered with their own addresses only. What does hold: every bridge on offer was posted in a message signed with the poster's key."
  },
  {
   "property": "C96",
   "status": "partial",
   "theorems": [
    "C96_stays_valid",
    "C96_post_again",
    "C96_vote_again",
    "C96_post_in_other_round",
    "C96_vote_in_other_round",
    "C96_request_in_other_round",
    "C96_one_recipient_refuted",
    "C96_works_once_refuted"
   ],
   "note": "refuted as stated: within a round every post, vote and request stays valid, a repeated post puts a bridge that has been given out on offer again, so that it is given out twice, and a vote sent n times counts n times. What does hold: in a round with another generator a recorded message verifies exactly if the challenge hash coincides at two keys, which differ unless the response is 0 (posts: exactly; votes and requests: necessarily)."
  },
  {
   "property": "C97",
   "status": "partial",
   "theorems": [
    "C97_fate",
    "C97_until_given",
    "C97_big_request_takes_all",
    "C97_round_end_withdraws",
    "C97_stays_on_offer_refuted",
    "C97_stays_within_round_refuted"
   ],
   "note": "refuted as stated: the end of every round withdraws the bridges that were not given out, and a bridge posted again while the signatures of its first assignment are outstanding is withdrawn by the last of them. What does hold: the four things that can happen to a bridge on offer in a step are listed exactly, without round end, repost and signature reply it stays on offer or is given out over any continuation, and a valid request for at least as many bridges as there are takes all of them."
  },
  {
   "property": "C98",
   "status": "partial",
   "theorems": [
    "C98_total",
    "C98_standing",
    "C98_votes_again",
    "C98_raises_itself",
    "C98_from_others_refuted",
    "C98_joining_again_refuted"
   ],
   "note": "refuted as stated: a client can be given its own bridge and vote for it, so the only client of a session ends with more than the starting credit, and for every n a client that holds an assignment of its own bridge raises its reputation by n with n votes; and a client with more votes against it than for it has less than one that has just joined. What does hold: in every honest session the reputations add up to the starting credit of every client plus all votes cast."
  },
  {
   "property": "C99",
   "status": "partial",
   "theorems": [
    "C99_frame",
    "C99_anyone_diverts",
    "C99_anyone_diverts_back",
    "C99_anyone_replaces_table",
    "C99_anyone_ends_round",
    "C99_anyone_looks_up",
    "C99_anyone_unmasks",
    "C99_anyone_stops_server",
    "C99_one_message_empties_table",
    "C99_one_message_stops_clients",
    "C99_own_chain_only_refuted"
   ],
   "note": "refuted as stated: a server does not look at the sender. In every state anybody can change both of its hops, its table and bases, make it forget the round, get the key behind a pseudonym with two messages, or stop it; and in every reachable state with nothing in flight one message to the last server empties the coordinator's table of reputations, whatever the servers draw, and the round after it stops every registered client. What does hold (C99_frame): its keys and addresses never change and every other field changes only with the messages meant for it."
  }
 ]
}
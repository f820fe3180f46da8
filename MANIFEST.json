{
 "claims": [
  {
   "property": "C01",
   "status": "proved",
   "theorems": [
    "C01_any_source",
    "C01_source_roundtrip",
    "C01_large_source_refuted"
   ],
   "note": "C01_any_source also states exactly what is received for data of any length; 65536 bytes are refuted."
  },
  {
   "property": "C02",
   "status": "proved",
   "theorems": [
    "C02_repair_roundtrip",
    "C02_repair_not_fully_read"
   ],
   "note": "Both build modes; the trailing copy of size and symbol is never consumed."
  },
  {
   "property": "C03",
   "status": "proved",
   "theorems": [
    "C03_ack_roundtrip"
   ],
   "note": "Both build modes, also empty sets."
  },
  {
   "property": "C04",
   "status": "proved",
   "theorems": [
    "C04_exact_limit",
    "C04_repair_ids",
    "C04_any_set_survives_refuted",
    "C04_too_many_runs_refuted"
   ],
   "note": "Iff for acks, transferred to repairs by C04_repair_ids; refutations for large gaps and for 65535 runs."
  },
  {
   "property": "C05",
   "status": "proved",
   "theorems": [
    "C05_memory_safe"
   ],
   "note": "Byte reads are explicit in the model and fault outside of the packet; the theorem excludes the fault."
  },
  {
   "property": "C06",
   "status": "proved",
   "theorems": [
    "C06_truncated_rejected"
   ],
   "note": "Every prefix shorter than the number of bytes reported as read."
  },
  {
   "property": "C07",
   "status": "proved",
   "theorems": [
    "C07_suffix_independent"
   ],
   "note": "All suffixes."
  },
  {
   "property": "C08",
   "status": "proved",
   "theorems": [
    "C08_parsed_ids"
   ],
   "note": "All byte strings, including wrap-around of the sums."
  },
  {
   "property": "C09",
   "status": "proved",
   "theorems": [
    "C09_consecutive_cost",
    "C09_any_cost"
   ],
   "note": "Exact cost for consecutive ids, bounds for all lists."
  },
  {
   "property": "C10",
   "status": "proved",
   "theorems": [
    "C10_dispatch_routes",
    "C10_foreign_packets_rejected"
   ],
   "note": "dispatch.hh is modelled in Dispatch.v"
  },
  {
   "property": "C11",
   "status": "proved",
   "theorems": [
    "C11_field_laws",
    "C11_inverse",
    "C11_polynomials"
   ],
   "note": "gf-complete is modelled by polynomial arithmetic modulo its default polynomials; field laws for w = 4, 8, 16, 32."
  },
  {
   "property": "C12",
   "status": "proved",
   "theorems": [
    "C12_coefficient_nonzero"
   ],
   "note": "Proved for all N, hence for all pairs of 32-bit ids."
  },
  {
   "property": "C13",
   "status": "proved",
   "theorems": [
    "C13_sizes_recoverable",
    "C13_sizes_linear",
    "C13_sizes_recoverable_w32_refuted",
    "C13_size_symbols"
   ],
   "note": "Proved for w = 4, 8, 16; refuted for w = 32 (C13_sizes_recoverable_w32_refuted)."
  },
  {
   "property": "C14",
   "status": "proved",
   "theorems": [
    "C14_region_defined",
    "C14_multiply_invertible",
    "C14_add_twice",
    "C14_multiply_linear",
    "C14_truncate_pad",
    "C14_symbols"
   ],
   "note": "All regions, all field sizes."
  },
  {
   "property": "C15",
   "status": "proved",
   "theorems": [
    "C15_inversion_sound",
    "C15_dimension_zero_refuted"
   ],
   "note": "All dimensions >= 1, all four fields, memory accesses explicit; dimension 0 refuted (attempt_full_decoding never calls it with 0 missing sources)."
  },
  {
   "property": "C16",
   "status": "proved",
   "theorems": [
    "C16_fails_iff_singular",
    "C16_blames_last"
   ],
   "note": "Both characterisations of singular (kernel vector, no inverse); index always the last."
  },
  {
   "property": "C17",
   "status": "proved",
   "theorems": [
    "C17_repair_is_combination",
    "C17_symbols",
    "C17_repair_after_wraparound"
   ],
   "note": "Holds for every repair packet of every history with at most 2^32 data of fewer than 65536 bytes. C17_repair_after_wraparound drops the bound on the number of data; the listed ids are then the set of the ids of the window."
  },
  {
   "property": "C18",
   "status": "proved",
   "theorems": [
    "C18_ack_removes_exactly",
    "C18_wraparound_refuted"
   ],
   "note": "Any packet that parses as an ack. The claim is false after 2^32 data, see C18_wraparound_refuted (a legal history is exhibited)."
  },
  {
   "property": "C19",
   "status": "proved",
   "theorems": [
    "C19_window_bound",
    "C19_shrink_refuted"
   ],
   "note": "The window is characterised completely by the function outstanding. C19_shrink_refuted: the bound is lost for ever when the size is lowered below the number of outstanding sources."
  },
  {
   "property": "C20",
   "status": "proved",
   "theorems": [
    "C20_identifiers"
   ],
   "note": "All histories. The strict order needs at most 2^32 data."
  },
  {
   "property": "C21",
   "status": "proved",
   "theorems": [
    "C21_code_rate"
   ],
   "note": "Fewer than 2^32 data; any packets may be received in between."
  },
  {
   "property": "C22",
   "status": "proved",
   "theorems": [
    "C22_rate_between_1_and_50",
    "C22_adaptive_encoder"
   ],
   "note": "Binary64 arithmetic with rounding; uses the axioms of the standard library's reals (via Flocq) and classical logic."
  },
  {
   "property": "C23",
   "status": "proved",
   "theorems": [
    "C23_survives_any_packet"
   ],
   "note": "Reached states; also says that only the ack counter may change when the call throws. Axioms as C22."
  },
  {
   "property": "C24",
   "status": "proved",
   "theorems": [
    "C24_repair_of_empty_window",
    "C24_repair_of_window",
    "C24_only_bad_case"
   ],
   "note": "C24_only_bad_case covers all legal histories in both builds. Axioms as C22."
  },
  {
   "property": "C25",
   "status": "proved",
   "theorems": [
    "C25_counters"
   ],
   "note": "Counters are modulo 2^64."
  },
  {
   "property": "C26",
   "status": "proved",
   "theorems": [
    "C26_systematic",
    "C26_non_systematic"
   ],
   "note": "All histories."
  },
  {
   "property": "C27",
   "status": "proved",
   "theorems": [
    "C27_limits_hold",
    "C27_integrity",
    "C27_overtaking_refuted"
   ],
   "note": "Closed system of System.v: arbitrary interleavings of all calls of both sides; the channel loses, duplicates, delays and reorders sources and acks and loses and duplicates repairs. C27_limits_hold: the size limits hold for the first 65535 data. The unconditional claim is refuted by C27_overtaking_refuted."
  },
  {
   "property": "C28",
   "status": "proved",
   "theorems": [
    "C28_at_most_once",
    "C28_overtaking_refuted"
   ],
   "note": "The delivered data are the data at distinct positions of the sent list. Refuted for overtaking repairs."
  },
  {
   "property": "C29",
   "status": "proved",
   "theorems": [
    "C29_in_order",
    "C29_overtaking_refuted"
   ],
   "note": "Positions strictly increase. Refuted for overtaking repairs."
  },
  {
   "property": "C30",
   "status": "proved",
   "theorems": [
    "C30_fifo_arrival",
    "C30_fifo_runs",
    "C30_any_length",
    "C30_far_refuted"
   ],
   "note": "Both builds; the call also returns without an exception. C30_fifo_runs covers whole runs of the closed system with at most 65535 data; the only failure is generate_repair on an empty window (C24). C30_any_length replaces the number of data by the condition that the identifier lists fit the format; C30_far_refuted shows that the condition is needed (an identifier distance of 65536 is sent as 0 and the repair read as one of a single source)."
  },
  {
   "property": "C31",
   "status": "proved",
   "theorems": [
    "C31_dead_iterator_refuted",
    "C31_late_sources_refuted"
   ],
   "note": "Concrete schedules; in the second one repairs are in order and only sources are late."
  },
  {
   "property": "C32",
   "status": "proved",
   "theorems": [
    "C32_empty_list",
    "C32_inconsistent_sizes"
   ],
   "note": ""
  },
  {
   "property": "C33",
   "status": "proved",
   "theorems": [
    "C33_single_loss"
   ],
   "note": "The receiver's obsolete sources (older than the first source of the newest repair) are excluded, as the code discards them."
  },
  {
   "property": "C34",
   "status": "proved",
   "theorems": [
    "C34_repair_completes",
    "C34_source_completes"
   ],
   "note": "Uniqueness is stated as: no non-zero assignment of symbols to the lost sources cancels in all repairs. A repair makes everything older than its first source obsolete; the statement accounts for that."
  },
  {
   "property": "C35",
   "status": "proved",
   "theorems": [
    "C35_old_source",
    "C35_old_repair",
    "C35_useless_repair",
    "C35_always_silent_refuted"
   ],
   "note": "C35_always_silent_refuted shows the exception for ordered delivery"
  },
  {
   "property": "C36",
   "status": "proved",
   "theorems": [
    "C36_immediate_delivery"
   ],
   "note": ""
  },
  {
   "property": "C37",
   "status": "proved",
   "theorems": [
    "C37_nothing_withheld",
    "C37_held_until_delivered",
    "C37_received_is_held",
    "C37_late_source_refuted"
   ],
   "note": "Held: received or decoded, the contents of acks. C37_held_until_delivered covers all later states, C37_late_source_refuted the exception."
  },
  {
   "property": "C38",
   "status": "proved",
   "theorems": [
    "C38_outdated_dropped"
   ],
   "note": ""
  },
  {
   "property": "C39",
   "status": "proved",
   "theorems": [
    "C39_stored_content",
    "C39_acked_content",
    "C39_acks_truthful",
    "C39_requested_acks"
   ],
   "note": "an ack is the bytes of write_ack; C03 says what the sender reads from them. In the middle of a call for a packet the held sources are between those held at both ends of the call and those held at one end. C39_stored_content, C39_acked_content: the bytes stored for each listed source are the datum given to the sender"
  },
  {
   "property": "C40",
   "status": "proved",
   "theorems": [
    "C40_packet_schedule",
    "C40_schedule_unique",
    "C40_maybe_ack",
    "C40_after_each_delivery",
    "C40_no_ack",
    "C40_settings"
   ],
   "note": "C40_packet_schedule: the outputs of each call with a packet, in terms of the number of packets since the last ack, its date and the readings of the clock; C40_schedule_unique: this fixes where the acks are"
  },
  {
   "property": "C41",
   "status": "proved",
   "theorems": [
    "C41_new_sources",
    "C41_release_refuted",
    "C41_packet_counters",
    "C41_decoded_counter"
   ],
   "note": "C41_decoded_counter: deliveries, without ordering; C41_new_sources: the sources held, with and without ordering. Without assertions the latter is an inequality, and C41_release_refuted shows that equality fails."
  },
  {
   "property": "C42",
   "status": "proved",
   "theorems": [
    "C42_lossless",
    "C42_all_delivered",
    "C42_immediate"
   ],
   "note": "Any calls of both sides in between, except switching the sender to non-systematic codes."
  },
  {
   "property": "C43",
   "status": "proved",
   "theorems": [
    "C43_end_to_end",
    "C43_any_length",
    "C43_far_refuted"
   ],
   "note": "Total correctness of whole runs in both builds. C43_end_to_end: at most 65535 data. C43_any_length: fewer than 2^32 data while the lists of identifiers fit the format. C43_far_refuted: with 65537 data the condition can fail and a datum that was never sent is delivered."
  },
  {
   "property": "C44",
   "status": "proved",
   "theorems": [
    "C44_ack_forgets_only_held"
   ],
   "note": "For all later states of the execution as well; also says that the datum was delivered if the receiver is unordered."
  },
  {
   "property": "C45",
   "status": "proved",
   "theorems": [
    "C45_vector",
    "C45_observers",
    "C45_symbol",
    "C45_symbol_repair",
    "C45_aligned",
    "C45_moved_from"
   ],
   "note": ""
  },
  {
   "property": "C46",
   "status": "proved",
   "theorems": [
    "C46_dumps_stepwise",
    "C46_dumps_bulk_refuted",
    "C46_long_refuted"
   ],
   "note": "copy_n is modelled in both variants; the refutation for the bulk variant holds for every packet."
  },
  {
   "property": "C47",
   "status": "proved",
   "theorems": [
    "C47_error_codes",
    "C47_library_errors",
    "C47_never_escapes",
    "C47_add_packet"
   ],
   "note": "Undefined behaviour inside the wrapped call has no end and is excluded (see C05, C08, C31, C49 for when it occurs)."
  },
  {
   "property": "C48",
   "status": "proved",
   "theorems": [
    "C48_message_safe",
    "C48_double_delete_refuted",
    "C48_uninitialised_refuted",
    "C48_unterminated_refuted"
   ],
   "note": "The mismatch of new[] and delete is ignored by the heap model."
  },
  {
   "property": "C49",
   "status": "proved",
   "theorems": [
    "C49_failed_decoding",
    "C49_failed_call"
   ],
   "note": "the first theorem is about the full decoding, which runs in the middle of a call; the second one about a whole call"
  },
  {
   "property": "C50",
   "status": "proved",
   "theorems": [
    "C50_identifier_of_datum",
    "C50_dead_stream",
    "C50_reused_identifier_lost",
    "C50_wraparound_refuted"
   ],
   "note": "C50_wraparound_refuted exhibits a legal run (losses only, no reordering) with 2^32+1 data whose last datum arrives and is not delivered; proved by induction, not by running it."
  },
  {
   "property": "C51",
   "status": "proved",
   "theorems": [
    "C51_acks_do_not_matter"
   ],
   "note": "Proved by showing that the decoding state is a function of the packets alone."
  },
  {
   "property": "C52",
   "status": "proved",
   "theorems": [
    "C52_ordering_only_delays"
   ],
   "note": "Inclusion of the delivered data as a set; the packets may hold any bytes."
  },
  {
   "property": "C53",
   "status": "proved",
   "theorems": [
    "C53_handler_protocol"
   ],
   "note": "Handlers.v models every single call of the handler."
  },
  {
   "property": "C54",
   "status": "proved",
   "theorems": [
    "C54_failed_repair_is_a_loss",
    "C54_failed_datum",
    "C54_exceptions_harmless_refuted"
   ],
   "note": "Exception safety holds for explicit repairs and fails for data; the failure is a computed witness with genuine packets."
  },
  {
   "property": "C55",
   "status": "proved",
   "theorems": [
    "C55_rate_formula",
    "C55_always_intended_refuted",
    "C55_adaptive_sender"
   ],
   "note": "Uses the standard library's axioms of the reals (with Flocq). The unconditional claim is refuted by 98 packets sent, 97 received."
  },
  {
   "property": "C56",
   "status": "proved",
   "theorems": [
    "C56_settings"
   ],
   "note": "Settings in terms of the last call of the setter."
  },
  {
   "property": "C57",
   "status": "proved",
   "theorems": [
    "C57_blind_spot",
    "C57_burst",
    "C57_enough_repairs_refuted"
   ],
   "note": "The identifiers are those of the first data of a run (below 2^32, no wrap). C57_enough_repairs_refuted: 16 lost data and 18 repairs that cover all of them, nothing is recovered."
  },
  {
   "property": "C58",
   "status": "proved",
   "theorems": [
    "C58_nothing_recovered"
   ],
   "note": "Uses the closed system of C27."
  },
  {
   "property": "C59",
   "status": "proved",
   "theorems": [
    "C59_handler_protocol",
    "C59_calm_handlers"
   ],
   "note": ""
  },
  {
   "property": "C60",
   "status": "proved",
   "theorems": [
    "C60_refused_datum",
    "C60_refusals_are_losses",
    "C60_interrupted_ack",
    "C60_delivered_once_refuted",
    "C60_exceptions_harmless_refuted"
   ],
   "note": "The exceptions of the packet handler during an ack that follows a datum are not losses of the packet: the datum was accepted but not stored; they are outside of the hypothesis."
  },
  {
   "property": "C61",
   "status": "proved",
   "theorems": [
    "C61_terminate",
    "C61_exceptions_reach_the_user_refuted"
   ],
   "note": ""
  },
  {
   "property": "C62",
   "status": "proved",
   "theorems": [
    "C62_exact_sizes",
    "C62_bound",
    "C62_datagrams",
    "C62_repairable_refuted",
    "C62_acks"
   ],
   "note": ""
  },
  {
   "property": "C63",
   "status": "proved",
   "theorems": [
    "C63_receiver",
    "C63_bytes_read",
    "C63_sender",
    "C63_dispatch",
    "C63_stale_bytes_refuted"
   ],
   "note": ""
  },
  {
   "property": "C64",
   "status": "proved",
   "theorems": [
    "C64_tunnel",
    "C64_small_data",
    "C64_acks",
    "C64_lossless",
    "C64_long_datum_refuted",
    "C64_receiver_killed_refuted"
   ],
   "note": "Each direction is related to a run of the closed system. The two limits are shown to be real for all data in the stated ranges."
  },
  {
   "property": "C65",
   "status": "proved",
   "theorems": [
    "C65_decoder_add_packet",
    "C65_encoder_add_packet",
    "C65_program",
    "C65_spent_data",
    "C65_sizes",
    "C65_forgotten_resize_refuted"
   ],
   "note": "C65_program is the equivalence with the C++ objects, setters included (an ack period of 2^63 or more is a negative one, see C86); C65_forgotten_resize_refuted refutes reuse without resize in Release builds."
  },
  {
   "property": "C66",
   "status": "proved",
   "theorems": [
    "C66_calls",
    "C66_runs",
    "C66_tested",
    "C66_fifo",
    "C66_same_refuted",
    "C66_guarded_refuted",
    "C66_readers_refuted",
    "C66_field_assertions",
    "C66_any_length"
   ],
   "note": "The three refuted theorems bound the claim: failed assertions change results, readers called directly differ, not all undefined behaviour is asserted."
  },
  {
   "property": "C67",
   "status": "proved",
   "theorems": [
    "C67_bounds",
    "C67_repairs",
    "C67_without_repairs",
    "C67_bounded_refuted"
   ],
   "note": "Bounds for runs within the limits of C27. C67_bounded_refuted: no constant bound."
  },
  {
   "property": "C68",
   "status": "proved",
   "theorems": [
    "C68_channel",
    "C68_replies",
    "C68_uniform",
    "C68_uniform_edges_refuted",
    "C68_burst",
    "C68_burst_percent_refuted",
    "C68_file",
    "C68_independent_refuted",
    "C68_system",
    "C68_long_refuted"
   ],
   "note": "C68_uniform_edges_refuted, C68_burst_percent_refuted, C68_independent_refuted and C68_long_refuted refute the unconditional claims; the other theorems are the claims under their true conditions."
  },
  {
   "property": "C69",
   "status": "proved",
   "theorems": [
    "C69_replay",
    "C69_stops",
    "C69_all_refuted"
   ],
   "note": "C69_all_refuted refutes that all of a dump is replayed."
  },
  {
   "property": "C70",
   "status": "proved",
   "theorems": [
    "C70_exact",
    "C70_sources",
    "C70_others",
    "C70_safe",
    "C70_stream",
    "C70_long_refuted",
    "C70_leak_refuted"
   ],
   "note": "C70_long_refuted and C70_leak_refuted show the limits: long data end the tool, short datagrams make it send its memory."
  },
  {
   "property": "C71",
   "status": "proved",
   "theorems": [
    "C71_oneway",
    "C71_small_data",
    "C71_lossless",
    "C71_acks",
    "C71_long_source_ends",
    "C71_any_length_refuted"
   ],
   "note": "C71_any_length_refuted: a datagram of more than 4089 bytes ends the receiver."
  },
  {
   "property": "C72",
   "status": "proved",
   "theorems": [
    "C72_one_loss",
    "C72_fixed_rate",
    "C72_two_losses_refuted",
    "C72_small_window_refuted"
   ],
   "note": "Two losses per group and windows smaller than a group are refuted by computed runs."
  },
  {
   "property": "C73",
   "status": "proved",
   "theorems": [
    "C73_window_is_live",
    "C73_ack_arrives",
    "C73_synchronised",
    "C73_lossless_empties",
    "C73_late_arrivals_refuted"
   ],
   "note": "The late arrival of data after the ack was written is the refuted claim."
  },
  {
   "property": "C74",
   "status": "proved",
   "theorems": [
    "C74_sender",
    "C74_sender_any_memory",
    "C74_receiver",
    "C74_receiver_any_memory",
    "C74_fresh_memory",
    "C74_more_repairs_refuted"
   ],
   "note": "The contents of the reused memory are an input of each call, so nothing is assumed about earlier calls. The refuted form drops the condition on the number of repairs in a build without assertions."
  },
  {
   "property": "C75",
   "status": "proved",
   "theorems": [
    "C75_sizes",
    "C75_small_runs",
    "C75_lone_repair",
    "C75_first_datum",
    "C75_delivered_refuted",
    "C75_no_fault_refuted"
   ],
   "note": "C75_sizes and C75_small_runs are the positive part, C75_lone_repair and C75_first_datum say exactly what happens otherwise when one repair of one datum arrives first, the three refutations are legal runs."
  },
  {
   "property": "C76",
   "status": "proved",
   "theorems": [
    "C76_nothing_given_up",
    "C76_no_gaps",
    "C76_due_is_in_window",
    "C76_undelivered_is_in_window",
    "C76_small_windows_refuted"
   ],
   "note": "The limits of the wire format are those of C27 (proved for up to 65535 data); the last theorem exhibits a run with a window of five sources in which a datum is skipped."
  },
  {
   "property": "C77",
   "status": "proved",
   "theorems": [
    "C77_end_to_end",
    "C77_threads"
   ],
   "note": "The threads are modelled as interleavings of steps that hold a mutex or touch nothing shared; the unsynchronised flag that stops them is not modelled. The schedule has at most 3*65535 turns of the sending thread, enough for 65535 data. A little-endian machine."
  },
  {
   "property": "C78",
   "status": "proved",
   "theorems": [
    "C78_identities",
    "C78_receiver",
    "C78_system",
    "C78_fifo",
    "C78_documented_rule",
    "C78_documented_rule_refuted"
   ],
   "note": "C78_documented_rule_refuted: two data, one received and one lost, and one repair lead to the use of a reverse iterator that the documentation of boost's flat_set declares invalid (harmless with boost's vector based implementation)."
  },
  {
   "property": "C79",
   "status": "proved",
   "theorems": [
    "C79_calls_about_acks",
    "C79_without_calls",
    "C79_ack_inside",
    "C79_same_packet_refuted",
    "C79_ordered_loss_refuted"
   ],
   "note": "C79_calls_about_acks: handlers that ask for acks or change the ack settings. C79_without_calls ties the model to Decoder.v. C79_ack_inside: the ack of the handler. C79_same_packet_refuted and C79_ordered_loss_refuted: the same claim for handlers that give the receiver a packet is false. Model: a packet given where the code holds iterators is a fault."
  },
  {
   "property": "C80",
   "status": "proved",
   "theorems": [
    "C80_system_acks",
    "C80_reads_source",
    "C80_reads_repair",
    "C80_reads_ack",
    "C80_sends",
    "C80_acks",
    "C80_exact"
   ],
   "note": "C80_sends, C80_acks, C80_system_acks: what is written; C80_reads_*: what is accepted; C80_exact: the layouts fix every byte"
  },
  {
   "property": "C81",
   "status": "proved",
   "theorems": [
    "C81_careful_handlers",
    "C81_one_datum",
    "C81_depth",
    "C81_without_calls",
    "C81_prompt_acks_refuted",
    "C81_endless_refuted",
    "C81_data_inside_refuted"
   ],
   "note": "C81_careful_handlers: flattening for any careful handler and depth. C81_one_datum: the exact effect of a datum for handlers whose calls lead to no packets; C81_depth: then depth two is enough. C81_without_calls ties the model to Encoder.v. C81_prompt_acks_refuted, C81_data_inside_refuted, C81_endless_refuted: the unconditional claims are false. Model: calls other than settings made while a packet is handed over in pieces are a fault."
  },
  {
   "property": "C82",
   "status": "proved",
   "theorems": [
    "C82_cpp_basic",
    "C82_c_basic",
    "C82_long_data_overflow",
    "C82_many_rounds_overflow"
   ],
   "note": "C82_cpp_basic: every run of the C++ program. C82_c_basic: the C program is right until a buffer is overrun, and is not overrun within 325 data of 332 bytes. C82_long_data_overflow and C82_many_rounds_overflow: the unconditional claim is false for the C program."
  },
  {
   "property": "C83",
   "status": "proved",
   "theorems": [
    "C83_any_bytes",
    "C83_refused",
    "C83_first_wins"
   ],
   "note": "A complete repair is excluded because a forged repair can crash the receiver (C32)."
  },
  {
   "property": "C84",
   "status": "proved",
   "theorems": [
    "C84_only_own_acks",
    "C84_no_acks",
    "C84_foreign_acks_refuted",
    "C84_failure_refuted"
   ],
   "note": "Refutations are computed runs (8 bit symbols, two receivers). The positive part carries over what is proved for one receiver (C43) to each receiver; acks of several receivers that happen to be harmless are not covered."
  },
  {
   "property": "C85",
   "status": "proved",
   "theorems": [
    "C85_sources_only",
    "C85_restart_refuted",
    "C85_restart_memory_refuted",
    "C85_restart_ack_refuted"
   ],
   "note": "C85_sources_only is the positive part; C85_restart_refuted, C85_restart_memory_refuted and C85_restart_ack_refuted are the three failures after a restart, computed runs with a clock that stands still."
  },
  {
   "property": "C86",
   "status": "proved",
   "theorems": [
    "C86_short_periods",
    "C86_long_period_refuted",
    "C86_negative_period",
    "C86_largest_c_period_refuted"
   ],
   "note": "C86_long_period_refuted and C86_largest_c_period_refuted refute the use of very long periods; both are general statements."
  },
  {
   "property": "C87",
   "status": "proved",
   "theorems": [
    "C87_perceived",
    "C87_all_heard",
    "C87_unheard_acks",
    "C87_no_loss_refuted",
    "C87_duplicate_hides_refuted"
   ],
   "note": "C87_perceived: the rate set by an accepted ack, in all runs. C87_all_heard: perceived losses are the growth of the missing packets. C87_unheard_acks: packets announced in lost acks count as lost. The refutations: a lost ack alone gives rate 1; a duplicate hides a loss."
  },
  {
   "property": "C88",
   "status": "proved",
   "theorems": [
    "C88_independent",
    "C88_lifetimes",
    "C88_dead_pointer",
    "C88_call",
    "C88_session",
    "C88_connections",
    "C88_closed"
   ],
   "note": "C88_lifetimes and C88_dead_pointer: a call follows a dead pointer exactly if the text of the program gives it an object not alive or of another kind. C88_independent: groups of variables that no call brings together do not influence each other. C88_call: effects and result of one call are those of CSession on the objects it names. C88_session, C88_connections: each connection has the effects of the C++ objects (C65). C88_closed: nothing is left after the deletions."
  },
  {
   "property": "C89",
   "status": "proved",
   "theorems": [
    "C89_lossless",
    "C89_all_delivered",
    "C89_immediate",
    "C89_one_loss_refuted"
   ],
   "note": "C89_lossless, C89_all_delivered, C89_immediate for every run of the closed system with first packets arriving in order; C89_one_loss_refuted shows a run in which one lost packet stops the delivery with a code that is not systematic."
  },
  {
   "property": "C90",
   "status": "proved",
   "theorems": [
    "C90_data",
    "C90_any_data",
    "C90_kept",
    "C90_acks",
    "C90_last_identifier_refuted",
    "C90_bytes_refuted"
   ],
   "note": "C90_data needs that no packet is about source 2^32-1 (C90_last_identifier_refuted); C90_any_data has no condition. C90_bytes_refuted: the number of bytes is not bounded."
  },
  {
   "property": "C91",
   "status": "proved",
   "theorems": [
    "C91_stuck",
    "C91_twins",
    "C91_more_packets_refuted"
   ],
   "note": "C91_stuck: the general statement, with dependence stated by weights over the coefficients of the library (Twins.v). C91_twins: two repairs with numbers equal modulo the period. C91_case: a concrete run meets the hypotheses. C91_more_packets_refuted: a packet more can lead to less delivered data. The hypothesis reach_back says that the repairs that arrive afterwards still cover something as old as the data concerned."
  },
  {
   "property": "C92",
   "status": "proved",
   "theorems": [
    "C92_no_solvable_group",
    "C92_missing_is_not_determined",
    "C92_delivered_is_determined",
    "C92_single_datum_refuted"
   ],
   "note": "C92_delivered_is_determined: nothing out of thin air, over the whole history of arrived packets (Determined.v builds the other data, BlindSpot.v shows integrity for them). C92_no_solvable_group and C92_missing_is_not_determined: converse of C34 for sets. C92_single_datum_refuted: false for a single datum. C92_group_case, C92_delivered_case: concrete runs."
  },
  {
   "property": "C93",
   "status": "proved",
   "theorems": [
    "C93_two_losses",
    "C93_period",
    "C93_consecutive",
    "C93_two_repairs_refuted"
   ],
   "note": "C93_two_losses: two repairs with non-zero determinant suffice, whatever else arrived (the receiver keeps one repair; if it drops one after a failed attempt the kept row is a multiple of the dropped one). C93_period and C93_consecutive give explicit numbers from the formula of the coefficient. C93_two_repairs_refuted: the claim that as many repairs as missing data suffice is false. Repairs that do not cover both data, for instance after the window moved past one of them, are outside."
  },
  {
   "property": "C94",
   "status": "proved",
   "theorems": [
    "C94_window",
    "C94_not_held_up",
    "C94_resumes",
    "C94_with_acks_refuted"
   ],
   "note": "C94_window: what repairs cover without acks. C94_not_held_up and C94_resumes: delivery goes on once a repair has arrived whose window no longer reaches back to the loss (via C37: a datum is withheld only behind one that is neither held nor outdated). C94_with_acks_refuted: with acks the window is no longer that of the newest n data. A run that sets the window size later is outside."
  },
  {
   "property": "C95",
   "status": "proved",
   "theorems": [
    "C95_checkpoint",
    "C95_unordered",
    "C95_complete",
    "C95_complete_unordered",
    "C95_full_window_refuted"
   ],
   "note": "C95_checkpoint (ordered), C95_unordered, C95_complete and C95_complete_unordered (window never full, via C76), C95_full_window_refuted. The data the repair leaves out are those acknowledged (held or outdated then, as in C44) and those older than its first one (outdated since it arrived)."
  },
  {
   "property": "C96",
   "status": "proved",
   "theorems": [
    "C96_enough_memory",
    "C96_repair",
    "C96_ack",
    "C96_retry",
    "C96_failed_datum",
    "C96_retry_always_refuted",
    "C96_refused_harmless_refuted"
   ],
   "note": "The attempts to allocate are upper bounds per call; a fault of a repair's computation is reported before the attempts. C96_retry_always_refuted and C96_refused_harmless_refuted refute the unconditional claims named in the statement."
  },
  {
   "property": "C97",
   "status": "proved",
   "theorems": [
    "C97_enough_memory",
    "C97_beginning",
    "C97_unread_repair",
    "C97_source",
    "C97_ack",
    "C97_integrity_refuted",
    "C97_at_most_once_refuted",
    "C97_withheld_refuted",
    "C97_survives_refuted"
   ],
   "note": "Model in ReceiverMemory.v (handlers that do not throw; one attempt stands for several allocations whose failure leaves the same state). Four refutations show what a failed allocation can break."
  },
  {
   "property": "C98",
   "status": "proved",
   "theorems": [
    "C98_lossless",
    "C98_all_delivered",
    "C98_one_loss_refuted",
    "C98_any_code_refuted",
    "C98_always_noticed_refuted"
   ],
   "note": "Runs that go well with equal fields (C30 and C43 say which do). The harm is shown by computed runs, one for each pair of different fields."
  },
  {
   "property": "C99",
   "status": "proved",
   "theorems": [
    "C99_waits",
    "C99_without_old_acks",
    "C99_old_ack_refuted"
   ],
   "note": "The old and the new receiver are the receivers 0 and 1 of Multi.v. The first theorem rests on C84_only_own_acks."
  },
  {
   "property": "C100",
   "status": "proved",
   "theorems": [
    "C100_again",
    "C100_without_repetitions",
    "C100_later_repetition_refuted"
   ],
   "note": "C100_again: the second of two successive arrivals, with anything but arrivals in between. C100_without_repetitions: whole runs, compared with a new receiver that gets each packet once. C100_later_repetition_refuted: a repetition after a later packet can stop the recovery. Rests on Repeat.v (a repair received again changes one counter) and Tally.v (the counters influence nothing)."
  }
 ]
}
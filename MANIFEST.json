{
 "claims": [
  {
   "property": "C01",
   "status": "proved",
   "theorems": [
    "C01_byte_packing_roundtrip",
    "C01_too_long_rejected",
    "C01_cocotb1_agrees"
   ],
   "note": ""
  },
  {
   "property": "C02",
   "status": "proved",
   "theorems": [
    "C02_unresolvable_never_decodes",
    "C02_resolvable_decodes"
   ],
   "note": ""
  },
  {
   "property": "C03",
   "status": "proved",
   "theorems": [
    "C03_slice_extracts_field",
    "C03_out_of_range_rejected",
    "C03_negative_positions",
    "C03_versions_agree"
   ],
   "note": ""
  },
  {
   "property": "C04",
   "status": "proved",
   "theorems": [
    "C04_attribute_resolution",
    "C04_resolution_unique"
   ],
   "note": ""
  },
  {
   "property": "C05",
   "status": "partial",
   "theorems": [
    "C05_never_raises_refuted",
    "C05_missing_required_refuted",
    "C05_missing_required_partial",
    "C05_missing_required_deferred_partial",
    "C05_never_reported_refuted"
   ],
   "note": "REFUTED for the default case_insensitive=True without array_idx (construction never fails then, whatever is missing: C05_never_reported_refuted); proved for case-sensitive and indexed buses, and that the failure shows at the first capture()."
  },
  {
   "property": "C06",
   "status": "partial",
   "theorems": [
    "C06_other_case_refuted",
    "C06_first_in_dir_refuted",
    "C06_optional_refuted",
    "C06_exact_wins_refuted",
    "C06_construction_succeeds_partial",
    "C06_exact_name_wins_partial",
    "C06_other_case_refuted",
    "C06_first_wins_refuted"
   ],
   "note": "REFUTED in both halves (optional signal in other letter case with case_insensitive=False; DATA shadows data), each for every case of its kind (C06_other_case_refuted, C06_first_wins_refuted); proved under the stated side conditions."
  },
  {
   "property": "C07",
   "status": "proved",
   "theorems": [
    "C07_drive_writes_exactly",
    "C07_strict_drive_writes_exactly",
    "C07_drive_effect"
   ],
   "note": ""
  },
  {
   "property": "C08",
   "status": "partial",
   "theorems": [
    "C08_never_atomic_refuted",
    "C08_strict_atomic_refuted",
    "C08_strict_drive_iff_partial",
    "C08_strict_sample_iff_partial",
    "C08_driven_prefix_partial",
    "C08_sampled_prefix_partial"
   ],
   "note": "Atomicity REFUTED; the exact raising condition and the driven and sampled prefixes are proved."
  },
  {
   "property": "C09",
   "status": "partial",
   "theorems": [
    "C09_every_dict_name_refuted",
    "C09_capture_snapshot",
    "C09_attribute_access_refuted",
    "C09_attribute_access_partial",
    "C09_capture_immutable",
    "C09_every_dict_name_refuted"
   ],
   "note": "Attribute access REFUTED for signals named like dict methods, for every such signal (C09_every_dict_name_refuted); snapshot, other names and immutability proved."
  },
  {
   "property": "C10",
   "status": "proved",
   "theorems": [
    "C10_sample_copies_exactly",
    "C10_sample_inverts_drive"
   ],
   "note": ""
  },
  {
   "property": "C11",
   "status": "proved",
   "theorems": [
    "C11_delivery",
    "C11_delivery_reentrant",
    "C11_one_reception",
    "C11_from_construction"
   ],
   "note": ""
  },
  {
   "property": "C12",
   "status": "proved",
   "theorems": [
    "C12_raising_callback",
    "C12_exception_propagates",
    "C12_monitor_dead"
   ],
   "note": ""
  },
  {
   "property": "C13",
   "status": "proved",
   "theorems": [
    "C13_wait_result",
    "C13_single_reception",
    "C13_no_lost_wakeup",
    "C13_all_waiters_woken",
    "C13_history"
   ],
   "note": ""
  },
  {
   "property": "C14",
   "status": "proved",
   "theorems": [
    "C14_in_reset"
   ],
   "note": ""
  },
  {
   "property": "C15",
   "status": "proved",
   "theorems": [
    "C15_in_order_verdict"
   ],
   "note": ""
  },
  {
   "property": "C16",
   "status": "proved",
   "theorems": [
    "C16_error_counter",
    "C16_error_counter_callable",
    "C16_error_counter_monotone"
   ],
   "note": ""
  },
  {
   "property": "C17",
   "status": "proved",
   "theorems": [
    "C17_reorder_window",
    "C17_window_match_no_error",
    "C17_no_match_error"
   ],
   "note": ""
  },
  {
   "property": "C18",
   "status": "proved",
   "theorems": [
    "C18_bounded_reordering",
    "C18_any_depth",
    "C18_too_early_is_error"
   ],
   "note": ""
  },
  {
   "property": "C19",
   "status": "proved",
   "theorems": [
    "C19_never_raises_without",
    "C19_result_reports",
    "C19_raises_immediately"
   ],
   "note": ""
  },
  {
   "property": "C20",
   "status": "proved",
   "theorems": [
    "C20_strict_type"
   ],
   "note": ""
  },
  {
   "property": "C21",
   "status": "partial",
   "theorems": [
    "C21_second_add_refuted",
    "C21_interfaces_independent",
    "C21_result_exact",
    "C21_leftovers_refuted",
    "C21_leftovers_found_partial"
   ],
   "note": "Independence proved. Leftovers REFUTED when the same monitor is added twice (the first list is forgotten); proved when every monitor is added once."
  },
  {
   "property": "C22",
   "status": "proved",
   "theorems": [
    "C22_fifo",
    "C22_at_most_once_in_order",
    "C22_nothing_lost",
    "C22_appended_by_schedule"
   ],
   "note": ""
  },
  {
   "property": "C23",
   "status": "proved",
   "theorems": [
    "C23_no_lost_wakeup",
    "C23_everything_sent"
   ],
   "note": ""
  },
  {
   "property": "C24",
   "status": "proved",
   "theorems": [
    "C24_first_of_batch_syncs"
   ],
   "note": ""
  },
  {
   "property": "C25",
   "status": "proved",
   "theorems": [
    "C25_lifecycle",
    "C25_notifications_exact",
    "C25_completed",
    "C25_failure_ends_thread"
   ],
   "note": ""
  },
  {
   "property": "C26",
   "status": "partial",
   "theorems": [
    "C26_exclusive_refuted",
    "C26_two_tasks_refuted",
    "C26_polite_exclusive_partial",
    "C26_two_waiters_refuted",
    "C26_ask_again_refuted"
   ],
   "note": "REFUTED (one release wakes all waiters; a releasing task can re-acquire before the woken waiter runs). Proved for schedules in which an access starts only when nobody is waiting or woken."
  },
  {
   "property": "C27",
   "status": "partial",
   "theorems": [
    "C27_failed_access_blocks_refuted",
    "C27_no_failure_available_partial"
   ],
   "note": "REFUTED: no caller releases the lock on an exception, every later access waits for ever. Availability proved for schedules without failures."
  },
  {
   "property": "C28",
   "status": "partial",
   "theorems": [
    "C28_send_drives_refuted",
    "C28_send_returns_partial"
   ],
   "note": "REFUTED: self.bus.value = transaction only creates a Python attribute; no signal is ever assigned. Send returns and leaves the rest of the bus object as it was (C28_send_returns_partial)."
  },
  {
   "property": "C29",
   "status": "proved",
   "theorems": [
    "C29_waveform",
    "C29_empty_generator"
   ],
   "note": ""
  },
  {
   "property": "C30",
   "status": "proved",
   "theorems": [
    "C30_gap_on_bus",
    "C30_gaps",
    "C30_no_generator",
    "C30_negative_on"
   ],
   "note": ""
  },
  {
   "property": "C31",
   "status": "proved",
   "theorems": [
    "C31_socket",
    "C31_chunks_are_sent"
   ],
   "note": ""
  },
  {
   "property": "C32",
   "status": "proved",
   "theorems": [
    "C32_transfers",
    "C32_progress"
   ],
   "note": ""
  },
  {
   "property": "C33",
   "status": "partial",
   "theorems": [
    "C33_round_trip_partial",
    "C33_default_config_refuted",
    "C33_every_word_refuted"
   ],
   "note": "REFUTED for the default configuration and words of more than one byte: the driver encodes little-endian whatever its configuration, the monitor honours firstSymbolInHighOrderBits. Proved: exact with firstSymbolInHighOrderBits=False, byte-reversed otherwise."
  },
  {
   "property": "C34",
   "status": "proved",
   "theorems": [
    "C34_framing",
    "C34_idle",
    "C34_from_construction"
   ],
   "note": ""
  },
  {
   "property": "C35",
   "status": "proved",
   "theorems": [
    "C35_end_to_end"
   ],
   "note": ""
  },
  {
   "property": "C36",
   "status": "partial",
   "theorems": [
    "C36_protocol_partial",
    "C36_reports_partial",
    "C36_wellformed_partial",
    "C36_unmasked_x_refuted"
   ],
   "note": "REFUTED for unresolvable data in a last word that masks nothing (UnboundLocalError instead of AvalonProtocolError). Everything else proved: the next word after any history, all reports, well-formed streams."
  },
  {
   "property": "C37",
   "status": "partial",
   "theorems": [
    "C37_no_channel_partial",
    "C37_reported_partial",
    "C37_out_of_range_refuted"
   ],
   "note": "REFUTED for a channel out of range (AssertionError only after valid is asserted, so a word is offered). Proved: no channel signal; the reported channel is that of all words."
  },
  {
   "property": "C38",
   "status": "proved",
   "theorems": [
    "C38_timeout",
    "C38_stalled"
   ],
   "note": ""
  },
  {
   "property": "C39",
   "status": "partial",
   "theorems": [
    "C39_terminates_partial",
    "C39_narrow_refuted"
   ],
   "note": "REFUTED for buses of less than 8 bits (never returns). Proved for every bus of at least a byte, with symbols of any size."
  },
  {
   "property": "C40",
   "status": "proved",
   "theorems": [
    "C40_reset_masks"
   ],
   "note": ""
  },
  {
   "property": "C41",
   "status": "proved",
   "theorems": [
    "C41_write"
   ],
   "note": "waitrequest 0/1 (X: see C76); address and data that fit the bus."
  },
  {
   "property": "C42",
   "status": "proved",
   "theorems": [
    "C42_read"
   ],
   "note": "waitrequest and readdatavalid 0/1; all waiting outcomes included."
  },
  {
   "property": "C43",
   "status": "proved",
   "theorems": [
    "C43_byte_enables"
   ],
   "note": "Runs of any length of a memory without burstcount; request operands resolvable (well_formed), data width at most the bus."
  },
  {
   "property": "C44",
   "status": "proved",
   "theorems": [
    "C44_responses",
    "C44_schedule",
    "C44_prompt"
   ],
   "note": "Memory without burstcount; readlatency_min <= readlatency_max; request operands resolvable."
  },
  {
   "property": "C45",
   "status": "partial",
   "theorems": [
    "C45_bursts_partial",
    "C45_read_back",
    "C45_gap_refuted",
    "C45_back_to_back_refuted",
    "C45_pipelined_refuted",
    "C45_every_gap_refuted",
    "C45_gaps_refuted",
    "C45_every_back_to_back_refuted",
    "C45_every_pipelined_refuted"
   ],
   "note": "REFUTED for a gap between write beats, for a write burst directly after another on a memory without wait states, and for a read requested while another is answered, for all such accesses (gaps: anywhere, none longer than one cycle). Proved for sessions of bursts without these, with every wait-state draw after the first beat."
  },
  {
   "property": "C46",
   "status": "partial",
   "theorems": [
    "C46_refuted",
    "C46_partial",
    "C46_every_refuted",
    "C46_every_option_refuted"
   ],
   "note": "REFUTED: the options are written into a dictionary shared by the class, so all later memories have them, for every set of options (C46_every_refuted)."
  },
  {
   "property": "C47",
   "status": "partial",
   "theorems": [
    "C47_refuted",
    "C47_partial"
   ],
   "note": "REFUTED: RuntimeError whenever the draw at the start of a burst write is wait. Holds for all other draws."
  },
  {
   "property": "C48",
   "status": "partial",
   "theorems": [
    "C48_refuted",
    "C48_partial",
    "C48_every_far_word_refuted"
   ],
   "note": "REFUTED: floating point division; exact for aligned addresses of the first 2^53 words and for addresses up to 2^52."
  },
  {
   "property": "C49",
   "status": "proved",
   "theorems": [
    "C49_rejected",
    "C49_accepted"
   ],
   "note": ""
  },
  {
   "property": "C50",
   "status": "proved",
   "theorems": [
    "C50_page",
    "C50_access"
   ],
   "note": ""
  },
  {
   "property": "C51",
   "status": "proved",
   "theorems": [
    "C51_stored",
    "C51_beats"
   ],
   "note": "FIXED and INCR, every legal access; C51_stored for runs with data_latency 0 or one value (see C56 for the others), C51_beats for the beats computed at any latency."
  },
  {
   "property": "C52",
   "status": "partial",
   "theorems": [
    "C52_partial",
    "C52_refuted"
   ],
   "note": "REFUTED exactly when the container is not a multiple of the bus width and the burst does not start at its boundary (C52_refuted is for all such aligned writes); right otherwise, writes (C52_partial) and reads (C53_read)."
  },
  {
   "property": "C53",
   "status": "proved",
   "theorems": [
    "C53_read"
   ],
   "note": "FIXED, INCR, and WRAP in the cases where its lanes are right (see C52)."
  },
  {
   "property": "C54",
   "status": "proved",
   "theorems": [
    "C54_written_back"
   ],
   "note": ""
  },
  {
   "property": "C55",
   "status": "proved",
   "theorems": [
    "C55_byte_enables"
   ],
   "note": ""
  },
  {
   "property": "C56",
   "status": "partial",
   "theorems": [
    "C56_data_partial",
    "C56_counts_partial",
    "C56_always_ready_refuted",
    "C56_pausing_partial",
    "C56_every_refuted",
    "C56_partial",
    "C56_address_partial",
    "C56_refuted"
   ],
   "note": "REFUTED for data_latency > 0 with several values: with a slave that is always ready every word but the last is transferred 1 + data_latency times (C56_always_ready_refuted), so that the number of transfers is right only for latency 0 or a single value (C56_every_refuted). Proved: exactly which words are transferred, for every latency and ready pattern (C56_data_partial, C56_counts_partial); once each for data_latency 0, single values, and slaves that pause after each word (C56_pausing_partial); the address channel for all latencies."
  },
  {
   "property": "C57",
   "status": "proved",
   "theorems": [
    "C57_write_response",
    "C57_first_bad",
    "C58_read_beats"
   ],
   "note": "Reads: C58_read_beats says which outcome, C57_first_bad what the response raised is."
  },
  {
   "property": "C58",
   "status": "proved",
   "theorems": [
    "C58_read_beats",
    "C58_waits"
   ],
   "note": ""
  },
  {
   "property": "C59",
   "status": "proved",
   "theorems": [
    "C59_no_sequences",
    "C59_write",
    "C59_read",
    "C59_no_burst_signals"
   ],
   "note": ""
  },
  {
   "property": "C60",
   "status": "partial",
   "theorems": [
    "C60_write_refuted",
    "C60_read_refuted",
    "C60_partial",
    "C60_load_partial",
    "C60_beats_partial",
    "C60_burst_partial",
    "C60_size_refuted",
    "C60_accepted_unanswered_refuted",
    "C60_narrow_refuted",
    "C60_beats_refuted",
    "C60_read_burst_refuted"
   ],
   "note": "REFUTED as shipped: the slave serves no request; it writes a ready/valid signal in the ReadOnly phase, so the first AWVALID or ARVALID raises RuntimeError and ends that process (C60_write_refuted, C60_read_refuted). Data path proved for full-width beats (C60_partial, C60_load_partial) and the whole burst from its address on, if it were reached (C60_beats_partial, C60_burst_partial); 128-byte beats raise TypeError (C60_size_refuted); addresses are taken as accepted and never answered (C60_accepted_unanswered_refuted); narrow beats resize the memory (C60_narrow_refuted) and the read loop raises or skips beats (C60_beats_refuted, C60_read_burst_refuted)."
  },
  {
   "property": "C61",
   "status": "partial",
   "theorems": [
    "C61_partial",
    "C61_decode",
    "C61_index",
    "C61_refuted"
   ],
   "note": "REFUTED as shipped: drivers/xgmii.py uses create_binary without importing it, so reading the encoded word is always a NameError (C61_refuted). Proved with the name bound (C61_partial); decoding proved outright (C61_decode)."
  },
  {
   "property": "C62",
   "status": "partial",
   "theorems": [
    "C62_refuted",
    "C62_partial",
    "C62_width_partial"
   ],
   "note": "REFUTED as shipped: the constructor raises NameError for every width. Proved with the name bound, which also shows widths that are not a multiple of nine are rejected."
  },
  {
   "property": "C63",
   "status": "partial",
   "theorems": [
    "C63_partial",
    "C63_wide_bus_refuted",
    "C63_72_lanes_partial",
    "C63_refuted"
   ],
   "note": "REFUTED as shipped (NameError). Proved with the name bound, for every packet on buses of up to 72 lanes and packets that fill a word on wider ones (shorter ones give IndexError, C63_wide_bus_refuted); word by word, from an idle bus, whatever the number of clock cycles."
  },
  {
   "property": "C64",
   "status": "partial",
   "theorems": [
    "C64_partial",
    "C64_done_partial",
    "C64_refuted"
   ],
   "note": "REFUTED as shipped (NameError). Proved with the name bound, for packets that fill a word (on up to 72 lanes all) and any gaps between sends."
  },
  {
   "property": "C65",
   "status": "partial",
   "theorems": [
    "C65_partial",
    "C65_frames_partial",
    "C65_delivered_partial",
    "C65_unresolvable_partial",
    "C65_refuted",
    "C65_next_refuted"
   ],
   "note": "REFUTED: frames with a wrong CRC are logged and delivered; a frame that is cut off by data-less end swallows the good frame starting in the next word. Proved: exactly what is logged and delivered for every stream of resolvable words, and that an undefined bit ends the monitor with what was received before."
  },
  {
   "property": "C66",
   "status": "partial",
   "theorems": [
    "C66_partial",
    "C66_refuted",
    "C66_constructed_refuted",
    "C66_ack_refuted"
   ],
   "note": "REFUTED twice over: an access acknowledged after it was put on the bus raises RuntimeError (select is written in the ReadOnly phase), and an access that returns was never on the bus (C66_refuted, for all inputs). Proved: it returns when xferAck was already high before the request."
  },
  {
   "property": "C67",
   "status": "partial",
   "theorems": [
    "C67_partial",
    "C67_waits_partial",
    "C67_refuted"
   ],
   "note": "REFUTED at the boundary (acknowledge in the sixteenth cycle raises OPBException). Proved: exactly when OPBException is raised (C67_partial), and that the access otherwise waits as long as it takes."
  },
  {
   "property": "C68",
   "status": "proved",
   "theorems": [
    "C68_shared_elements",
    "C68_combined",
    "C68_terms",
    "C68_cases",
    "C68_exit_code"
   ],
   "note": "For files without nested test suites, as the property says; C81 is about nested ones. The program around it (os.walk, reading and writing files) is in C105 to C107."
  },
  {
   "property": "C69",
   "status": "partial",
   "theorems": [
    "C69_send_overlaps_queue_refuted",
    "C69_no_direct_no_overlap_partial",
    "C69_queue_undisturbed_partial",
    "C69_sends_return_partial",
    "C69_every_send_overlaps_refuted"
   ],
   "note": "REFUTED: send() overlaps the queue. Proved: no overlap when send() is not used; send() calls do not change what the send thread does and when; every send() returns at most once, with its own transaction."
  },
  {
   "property": "C70",
   "status": "partial",
   "theorems": [
    "C70_append_sync_keyword_refuted",
    "C70_no_reject_partial"
   ],
   "note": "REFUTED: sync given to append kills the send thread with TypeError; without that keyword no entry is rejected."
  },
  {
   "property": "C71",
   "status": "partial",
   "theorems": [
    "C71_rejected_word_offered_refuted",
    "C71_partial"
   ],
   "note": "REFUTED: valid is asserted before the value is converted, and stays asserted when the conversion raises. Proved: no word has been transferred when it raises, and it raises only for values that cannot be encoded."
  },
  {
   "property": "C72",
   "status": "partial",
   "theorems": [
    "C72_checks_partial",
    "C72_wide_channel_refuted",
    "C72_monitor_partial"
   ],
   "note": "REFUTED for channels wider than 128 bits (TypeError from the message format); exact otherwise."
  },
  {
   "property": "C73",
   "status": "partial",
   "theorems": [
    "C73_symbol_size_refuted",
    "C73_broken_byte_refuted",
    "C73_whole_words_partial",
    "C73_every_symbol_size_refuted",
    "C73_every_broken_byte_refuted"
   ],
   "note": "REFUTED: driver counts bytes, monitor symbols; refuted too for widths that are no multiple of 8. Proved for packets that fill their words, for every symbol size."
  },
  {
   "property": "C74",
   "status": "partial",
   "theorems": [
    "C74_iterable_refuted",
    "C74_count_partial",
    "C74_idle_partial"
   ],
   "note": "REFUTED: only valid is ever driven. Proved: as many words are transferred as the iterable has (words without a valid attribute), for every ready pattern and valid generator (C74_count_partial); words with valid 0 are idle cycles (C74_idle_partial)."
  },
  {
   "property": "C75",
   "status": "proved",
   "theorems": [
    "C75_sequence"
   ],
   "note": ""
  },
  {
   "property": "C76",
   "status": "partial",
   "theorems": [
    "C76_address_refuted",
    "C76_unresolved_refuted",
    "C76_back_to_back_refuted",
    "C76_refused_partial"
   ],
   "note": "REFUTED: the lock is not released when an access raises (address out of range, unresolved waitrequest, un-synchronised read in the ReadOnly phase a previous read returned in); with an unresolved waitrequest the request also stays on the bus."
  },
  {
   "property": "C77",
   "status": "partial",
   "theorems": [
    "C77_refuted",
    "C77_survives_partial"
   ],
   "note": "REFUTED: KeyError on a partly written word. What holds: a burst memory whose words are initialised as a whole survives every sequence of cycles with defined, aligned operands (C77_survives_partial), but for the RuntimeError of C47 when wait states are on."
  },
  {
   "property": "C78",
   "status": "partial",
   "theorems": [
    "C78_refuted",
    "C78_select_refuted",
    "C78_partial"
   ],
   "note": "REFUTED: every access that raises keeps the lock; after a timeout the slave stays selected. Proved for accesses that return."
  },
  {
   "property": "C79",
   "status": "partial",
   "theorems": [
    "C79_refuted",
    "C79_partial"
   ],
   "note": "REFUTED: the value is assigned to DBus_out (the slave's output), DBus_in is never driven. Proved: the rest of the request."
  },
  {
   "property": "C80",
   "status": "proved",
   "theorems": [
    "C80_failures"
   ],
   "note": ""
  },
  {
   "property": "C81",
   "status": "partial",
   "theorems": [
    "C81_shared_elements_partial",
    "C81_nested_refuted",
    "C81_partial"
   ],
   "note": "REFUTED: the cases of the inner suite are counted three times (for every file with one suite inside another of a different key). Exactly, for files of any nesting whose suites have different keys: a test case in d suites is counted d(d+1)/2 times (C81_partial). C81_shared_elements_partial: the same with shared, mutable elements."
  },
  {
   "property": "C82",
   "status": "partial",
   "theorems": [
    "C82_nameless_refuted",
    "C82_named_partial",
    "C82_compared_partial"
   ],
   "note": "REFUTED: a monitor without a name attribute (the XGMII monitor, any plain subclass of Monitor) raises AttributeError at its first transaction and the transaction is never compared. Proved for monitors with a name."
  },
  {
   "property": "C83",
   "status": "partial",
   "theorems": [
    "C83_rejected_refuted",
    "C83_replaced_refuted",
    "C83_partial"
   ],
   "note": "REFUTED: add_interface registers the expected list before it checks the arguments, so a rejected interface is counted as a leftover and replaces the list of one already added. Proved: it does nothing else."
  },
  {
   "property": "C84",
   "status": "partial",
   "theorems": [
    "C84_constructor_depth_refuted",
    "C84_interface_depth_partial"
   ],
   "note": "REFUTED: the constructor ignores reorder_depth, whatever is given. Proved: the depth given to add_interface is honoured."
  },
  {
   "property": "C85",
   "status": "proved",
   "theorems": [
    "C85_prefix_and_verdict",
    "C85_end_to_end",
    "C85_any_depth",
    "C85_progress"
   ],
   "note": "For the packetized Avalon-ST driver and monitor on buses of whole bytes with 8-bit symbols, packets sent through the queue (no send() or kill())."
  },
  {
   "property": "C86",
   "status": "proved",
   "theorems": [
    "C86_channels",
    "C86_results",
    "C86_stored",
    "C86_rejected",
    "C86_alone"
   ],
   "note": "For AXI4 and AXI4-Lite. Assumes that cocotb's Lock serves tasks in the order of their requests. C86_stored is for FIXED and INCR bursts and for the WRAP bursts of C52_partial. C86_results needs resolvable responses."
  },
  {
   "property": "C87",
   "status": "proved",
   "theorems": [
    "C87_requests",
    "C87_results",
    "C87_memory",
    "C87_parts",
    "C87_alone"
   ],
   "note": "For AXI4 and AXI4-Lite; an in-order slave (the master drives no IDs). Assumes that cocotb's Lock serves tasks in the order of their requests. The values of RRESP are given to the caller as in C58."
  },
  {
   "property": "C88",
   "status": "proved",
   "theorems": [
    "C88_master_on_memory"
   ],
   "note": "For buses without burstcount, with data widths as the constructors allow."
  },
  {
   "property": "C89",
   "status": "partial",
   "theorems": [
    "C89_fixed_latency_refuted",
    "C89_zero_latency_partial"
   ],
   "note": "REFUTED: with readlatency_min >= 1 (1 is the default) the read returns what was on readdata before, whatever the memory holds. Proved for latency 0."
  },
  {
   "property": "C90",
   "status": "partial",
   "theorems": [
    "C90_illegal_partial",
    "C90_channels_refuted",
    "C90_results_partial",
    "C90_progress_partial",
    "C90_wide_address_refuted",
    "C90_no_enable_refuted"
   ],
   "note": "REFUTED: a write whose address does not fit AWADDR, or without any byte enable, fails in only one of its two tasks; the other goes on, so that addresses and data of all later writes no longer belong together (C90_channels_refuted, C90_wide_address_refuted, C90_no_enable_refuted). Proved for writes rejected because of their parameters (C90_illegal_partial) and, in C86_results, for error responses; with enough ready cycles everything that is not missing is transferred and every failing write has raised (C90_progress_partial)."
  },
  {
   "property": "C91",
   "status": "proved",
   "theorems": [
    "C91_only_delay",
    "C91_others",
    "C91_progress"
   ],
   "note": "For AXI4 and AXI4-Lite and an in-order slave, as C87. Negative addresses are not considered. The delay is bounded: with two ARREADY cycles per call, failing or not, all requests that do not fail are seen (C91_progress)."
  },
  {
   "property": "C92",
   "status": "partial",
   "theorems": [
    "C92_sessions_partial",
    "C92_running_refuted",
    "C92_stop_first_partial"
   ],
   "note": "REFUTED: start() on a running driver leaves the old task running, which goes on driving the signal (and takes pairs from the new generator). Proved for all histories in which every start is stopped before the next."
  },
  {
   "property": "C93",
   "status": "proved",
   "theorems": [
    "C93_prefix_and_verdict",
    "C93_from_construction",
    "C93_end_to_end",
    "C93_any_depth",
    "C93_reports_determined",
    "C93_progress",
    "C93_batch"
   ],
   "note": "For the plain Avalon-ST driver and monitor on buses of at least two data lines, words sent through the queue (no send() or kill()). Bytes come back reversed when firstSymbolInHighOrderBits is set (C33): the number is what is preserved."
  },
  {
   "property": "C94",
   "status": "partial",
   "theorems": [
    "C94_refuted",
    "C94_burst_refuted",
    "C94_partial"
   ],
   "note": "REFUTED: the first request with an undefined operand ends the memory with ValueError (word accesses after every history; burst reads on an idle memory). Proved: without such a request the memory goes on for ever."
  },
  {
   "property": "C95",
   "status": "proved",
   "theorems": [
    "C95_killed"
   ],
   "note": "A callback that kills its own monitor is not considered."
  },
  {
   "property": "C96",
   "status": "partial",
   "theorems": [
    "C96_refuted",
    "C96_partial",
    "C96_constructed_partial"
   ],
   "note": "REFUTED: a callable without __qualname__ (functools.partial, an object with __call__) is rejected with AttributeError. Proved for callables with one."
  },
  {
   "property": "C97",
   "status": "partial",
   "theorems": [
    "C97_refuted",
    "C97_partial"
   ],
   "note": "REFUTED: a timeout of 0 counts as no timeout. Proved for all others."
  },
  {
   "property": "C98",
   "status": "proved",
   "theorems": [
    "C98_ports",
    "C98_latest"
   ],
   "note": "For memories without burstcount, of the same width. The order of the turns within a cycle is arbitrary and may differ from cycle to cycle. A port ends at the first request with an undefined operand; the others go on."
  },
  {
   "property": "C99",
   "status": "proved",
   "theorems": [
    "C99_stall",
    "C99_default"
   ],
   "note": "For buses with writedata and waitrequest; an exception ends the memory (C47, C77), the statement is about the cycles before that."
  },
  {
   "property": "C100",
   "status": "proved",
   "theorems": [
    "C100_nothing_hidden",
    "C100_nothing_invented"
   ],
   "note": "Elements as shared, mutable objects (CombHeapModel.v). C68_shared_elements shows that without nested suites the report is that of the model of C68 and C80. C100_odd: with a suite inside a test case a failure can be invented."
  },
  {
   "property": "C101",
   "status": "proved",
   "theorems": [
    "C101_killed_driver",
    "C101_kill_twice"
   ],
   "note": "All schedules before and after the kill."
  },
  {
   "property": "C102",
   "status": "partial",
   "theorems": [
    "C102_killed_word_repeats_refuted",
    "C102_after_kill_partial",
    "C102_every_waiting_word_refuted",
    "C102_killed_packet_repeats_refuted",
    "C102_packets_partial"
   ],
   "note": "Refuted: killed while a word waits for ready, the driver leaves valid asserted and the word is transferred in every later ready cycle, at every such kill (C102_every_waiting_word_refuted). C102_after_kill_partial gives the exact reports for every moment of the kill. The same for the packetized driver (C102_killed_packet_repeats_refuted, C102_packets_partial): a packet of one word is delivered again and again, the first or last word of a longer one makes the monitor raise, a word in the middle spoils the packet."
  },
  {
   "property": "C103",
   "status": "proved",
   "theorems": [
    "C103_wait_for_signal",
    "C103_undefined",
    "C103_wait_for_nsignal",
    "C103_avalon_wait"
   ],
   "note": "All histories of the signal with their changes inside time steps."
  },
  {
   "property": "C104",
   "status": "partial",
   "theorems": [
    "C104_method_names_refuted",
    "C104_other_names_partial",
    "C104_internal_names_refuted"
   ],
   "note": "REFUTED: attributes are set on the Bus object itself, so that a signal called drive, capture or sample replaces the method of that name, which then raises TypeError (C104_method_names_refuted, exactly for these); with _signals, _add_signal or a name reserved by Python the bus cannot be built (C104_internal_names_refuted). All other names are harmless (C104_other_names_partial)."
  },
  {
   "property": "C105",
   "status": "proved",
   "theorems": [
    "C105_combined",
    "C105_status"
   ],
   "note": "For every tree of files in which all results.xml are XML (C105_combined; contents of the output if no test suite lies inside another), and the exit status (C105_status; no test suite inside a test case). Paths without links and .. in them."
  },
  {
   "property": "C106",
   "status": "partial",
   "theorems": [
    "C106_missing_directory_refuted",
    "C106_partial"
   ],
   "note": "REFUTED for a directory that does not exist or is a file: os.walk ignores the error, the run ends with status 0 and writes an empty result (C106_missing_directory_refuted). A damaged results.xml or an output that cannot be created gives status 1 and nothing is written (C106_partial)."
  },
  {
   "property": "C107",
   "status": "partial",
   "theorems": [
    "C107_doubled_refuted",
    "C107_partial"
   ],
   "note": "REFUTED if the output is called results.xml and lies in the directory: the second run reads it too, test cases and failures are counted twice (C107_doubled_refuted). With any other output file, the default included, a second run changes nothing (C107_partial)."
  },
  {
   "property": "C108",
   "status": "proved",
   "theorems": [
    "C108_verdict",
    "C108_reordering",
    "C108_failure",
    "C108_independent",
    "C108_dff"
   ],
   "note": "For transactions whose comparison is equality, and channels that do not share monitors or lists. C108_verdict: in order; C108_reordering: any depth; C108_independent: channel by channel; C108_dff: the bench of examples/dff."
  },
  {
   "property": "C109",
   "status": "partial",
   "theorems": [
    "C109_strings_refuted",
    "C109_types_refuted",
    "C109_window_partial",
    "C109_sound_partial",
    "C109_equal_first_refuted",
    "C109_none_equal_refuted"
   ],
   "note": "REFUTED in full: the window is searched with == whatever strict_type is. With strict_type=False a transaction whose string form is that of the second expected one is an error (C109_strings_refuted); with strict_type=True an equal transaction of another type is picked before the right one, as True before 1 (C109_types_refuted). C109_window_partial: it holds where == agrees with the comparison; C109_sound_partial: no error is ever missed."
  },
  {
   "property": "C110",
   "status": "proved",
   "theorems": [
    "C110_list",
    "C110_strings",
    "C110_function"
   ],
   "note": "Nothing is assumed of ==, type() and str(). C110_list, C110_strings, C110_function (the function may remember the earlier transactions)."
  },
  {
   "property": "C111",
   "status": "partial",
   "theorems": [
    "C111_write_refuted",
    "C111_read_refuted",
    "C111_address_partial"
   ],
   "note": "REFUTED for every access: AXI4Slave assigns signals in the ReadOnly phase, so that its processes end at the first request; a legal write never returns, transfers no word and leaves the memory as it is (C111_write_refuted), a legal read never returns (C111_read_refuted). C111_address_partial: the address of the write is transferred once, as asked."
  },
  {
   "property": "C112",
   "status": "partial",
   "theorems": [
    "C112_partial",
    "C112_process_partial",
    "C112_refuted"
   ],
   "note": "REFUTED: the observing process is started before the checks. A monitor refused because of its maxChannel delivers exactly what the one constructed with the default maxChannel delivers; one refused because of the channel's width delivers too (C112_refuted). C112_partial: the other two refusals deliver nothing (C112_process_partial: their process observes as a monitor would and ends with KeyError in the last word of a packet)."
  },
  {
   "property": "C113",
   "status": "partial",
   "theorems": [
    "C113_three_refuted",
    "C113_two_tasks_refuted",
    "C113_order_partial",
    "C113_accepted_partial",
    "C113_two_partial",
    "C113_one_task_partial",
    "C113_deterministic",
    "C113_reads_refuted",
    "C113_all_lost_refuted"
   ],
   "note": "REFUTED: _acquire_lock tests busy once and then waits once. When two calls wait for a third, both go on when it is over and drive the bus in the same cycles: all three return and one write is lost (C113_three_refuted, every address, value and bus without waitrequest). With any number of calls waiting, all but the last are lost (C113_all_lost_refuted); with any number of reads waiting, the slave sees the last only and all of them return its data (C113_reads_refuted). Two tasks suffice if one makes two calls in a row (C113_two_tasks_refuted). C113_order_partial, C113_accepted_partial: any number of tasks with one call each, when at most one call waits for another; C113_two_partial: two such tasks, always; C113_one_task_partial: one task with any calls. What is missing is false."
  },
  {
   "property": "C114",
   "status": "partial",
   "theorems": [
    "C114_useless",
    "C114_rejected_refuted",
    "C114_no_read_refuted",
    "C114_no_write_refuted",
    "C114_complete_partial"
   ],
   "note": "REFUTED: with burstcount and without waitrequest the constructor raises after the process has been started, and the process serves reads (C114_rejected_refuted, every memory and address); with readdata and without read, or writedata and without write, the memory is constructed and its process ends in the first cycle (C114_no_read_refuted, C114_no_write_refuted). C114_useless: without readdata and writedata nothing is started. C114_complete_partial: with the signals that belong together it is constructed, never raises AttributeError, and is the process of AvMemModel.v. What is missing is false."
  },
  {
   "property": "C115",
   "status": "partial",
   "theorems": [
    "C115_no_readdata_refuted",
    "C115_complete_partial",
    "C115_no_writedata"
   ],
   "note": "REFUTED: with read and without readdata the master is constructed, and every read that would return raises AttributeError after its transfer and leaves the master locked for ever (C115_no_readdata_refuted). C115_no_writedata: write without writedata is rejected. C115_complete_partial: with the signals that belong together no access raises AttributeError, and read is that of MMModel.v. What is missing is false."
  },
  {
   "property": "C116",
   "status": "partial",
   "theorems": [
    "C116_refuted",
    "C116_nameless_refuted",
    "C116_prefix_and_verdict_partial",
    "C116_end_to_end_partial",
    "C116_progress_partial",
    "C116_any_depth_partial"
   ],
   "note": "REFUTED as shipped: the driver cannot be constructed (NameError), no packet is ever on the bus, and the verdict is a pass only if nothing was expected (C116_refuted). With create_binary bound, the nameless XGMII monitor dies with AttributeError at the first frame and nothing is compared (C116_nameless_refuted). With create_binary bound and a name assigned to the monitor: C116_prefix_and_verdict_partial, C116_end_to_end_partial, C116_any_depth_partial (every reorder depth) and C116_progress_partial. What is missing is false of the shipped module."
  },
  {
   "property": "C117",
   "status": "proved",
   "theorems": [
    "C117_transfers",
    "C117_progress",
    "C117_no_calls"
   ],
   "note": ""
  },
  {
   "property": "C118",
   "status": "partial",
   "theorems": [
    "C118_refuted",
    "C118_dropped_partial",
    "C118_one_pair_refuted",
    "C118_send_partial"
   ],
   "note": "REFUTED: a generator set during a gap loses its first pair (C118_refuted; C118_dropped_partial for all generators; C118_one_pair_refuted: a generator of one pair is lost altogether), because _next_valids runs again when the gap ends. C118_send_partial: the gap in progress keeps its length, and a generator set at any other moment is used from its first pair."
  },
  {
   "property": "C119",
   "status": "proved",
   "theorems": [
    "C119_in_order",
    "C119_once_each",
    "C119_argument",
    "C119_raise_ends",
    "C119_own_compare"
   ],
   "note": ""
  },
  {
   "property": "C120",
   "status": "partial",
   "theorems": [
    "C120_refuted",
    "C120_ends_refuted",
    "C120_equal_partial",
    "C120_writes_partial"
   ],
   "note": "REFUTED: the constructor only logs an error and goes on with the width of writedata; no read is ever answered in any execution (C120_refuted) and the first read response ends the process with ValueError (C120_ends_refuted). C120_equal_partial: with equal widths it is the memory of C43-C48; C120_writes_partial: with any widths it serves writes as long as nobody reads. Both widths at least 2."
  },
  {
   "property": "C121",
   "status": "proved",
   "theorems": [
    "C121_static",
    "C121_iterable",
    "C121_plain",
    "C121_framing",
    "C121_end_to_end",
    "C121_progress",
    "C121_no_calls"
   ],
   "note": "Simulation: every execution with calls is, on the bus, an execution with one generator set beforehand (C121_static, C121_iterable, C121_plain), so C34 and C35 carry over (C121_framing, C121_end_to_end). C121_progress needs a bound on the gaps the generators ask for."
  },
  {
   "property": "C122",
   "status": "partial",
   "theorems": [
    "C122_busy_refuted",
    "C122_burst_refuted",
    "C122_order_partial",
    "C122_attentive_partial"
   ],
   "note": "REFUTED: what is received while the task handles a transaction is never returned (C122_busy_refuted), and of two transactions received before the task runs only the second is (C122_burst_refuted). C122_order_partial: in every schedule the loop gets only what was received, in order, each at most once; C122_attentive_partial: it gets everything if it is waiting at every reception."
  },
  {
   "property": "C123",
   "status": "partial",
   "theorems": [
    "C123_narrow_refuted",
    "C123_wide_refuted",
    "C123_value_partial",
    "C123_any_class_partial",
    "C123_exception_partial",
    "C123_plain_partial"
   ],
   "note": "REFUTED for attributes with a fixed width (cocotb 1.x BinaryValue): a narrower one silently keeps the rightmost bits (C123_narrow_refuted), a wider big-endian one gets the number multiplied by a power of two (C123_wide_refuted). C123_value_partial: all other attributes get the bits and keep their options; C123_any_class_partial and C123_exception_partial: attributes and values of any classes; C123_plain_partial: without such methods it is the model of C10. BinaryValue.set_binstr itself is cocotb's, modelled from its documentation."
  },
  {
   "property": "C124",
   "status": "partial",
   "theorems": [
    "C124_list_refuted",
    "C124_callable_refuted",
    "C124_list_partial",
    "C124_callable_partial",
    "C124_search_partial",
    "C124_messages_partial",
    "C124_no_exceptions_partial"
   ],
   "note": "REFUTED: if the comparison with the last expected transaction raises, that transaction is consumed without an error and result passes (C124_list_refuted); if a callable expected output raises, result passes whatever comes later (C124_callable_refuted). C124_list_partial, C124_callable_partial: exactly what a pass means; C124_search_partial: an exception of == in the search is never followed by a pass; C124_no_exceptions_partial: without exceptions it is the scoreboard of C119. That the task of the monitor ends with the exception, which cocotb may report on its own, is outside the model."
  },
  {
   "property": "C125",
   "status": "partial",
   "theorems": [
    "C125_not_an_iterator_refuted",
    "C125_off_unset_refuted",
    "C125_iterator_partial",
    "C125_idle_partial",
    "C125_no_exceptions_partial",
    "C125_bit_not_an_iterator_refuted",
    "C125_bit_partial"
   ],
   "note": "REFUTED: an iterable that is no iterator (a list) is refused with TypeError, and from then on every send raises TypeError and transfers nothing, whatever the state before (C125_not_an_iterator_refuted); the same after an iterator that raises once when the generator before it was empty, self.off being None (C125_off_unset_refuted); a BitDriver started with such an object never drives its signal (C125_bit_not_an_iterator_refuted). What holds: for iterators that raise, each exception is raised by one send in order, the words transferred are those of the sends that returned (C125_iterator_partial), the bus is left idle (C125_idle_partial), without exceptions it is the driver of C30/C32 (C125_no_exceptions_partial); BitDriver waveforms (C125_bit_partial)."
  },
  {
   "property": "C126",
   "status": "proved",
   "theorems": [
    "C126_burst",
    "C126_two_bits",
    "C126_pattern_only",
    "C126_33_bits"
   ],
   "note": "zlib.crc32 is modelled by its definition (CRC-32, check value 0xcbf43926 proved). Bursts of up to 32 bits: C126_burst; one or two bits: C126_two_bits (the polynomial has order 2^32-1, proved by squaring and the factorisation of 2^32-1); which patterns are noticed does not depend on the packet: C126_pattern_only; the bound 32 is exact: C126_33_bits. Wrong control bits: C133. That a frame reported with a wrong CRC is delivered nevertheless is C65_refuted."
  },
  {
   "property": "C127",
   "status": "partial",
   "theorems": [
    "C127_contents_refuted",
    "C127_latency_refuted",
    "C127_partial"
   ],
   "note": "REFUTED: the constructor checks neither. Reading an integer that does not fit the data bus ends the memory with ValueError in the cycle in which the answer is due (C127_contents_refuted); with readlatency_min > readlatency_max the first read does (C127_latency_refuted). What holds: as long as the values read fit when they are read, all is served as in C43 and C44 (C127_partial)."
  },
  {
   "property": "C128",
   "status": "partial",
   "theorems": [
    "C128_writes_partial",
    "C128_reads_partial",
    "C128_refuted"
   ],
   "note": "REFUTED: wrapping bursts of one beat, and wrapping bursts at an address that is no multiple of the beat size, are accepted and requested (C128_refuted, every such access). Everything else the checks let through is allowed, wrapping bursts included, and no request leaves its page (C128_writes_partial, C128_reads_partial; negative addresses on buses with at least 12 address bits)."
  },
  {
   "property": "C129",
   "status": "partial",
   "theorems": [
    "C129_avalon_refuted",
    "C129_opb_refuted",
    "C129_opb_write_refuted",
    "C129_axi_values_refuted",
    "C129_axi_addresses_refuted",
    "C129_axi_concurrent_refuted",
    "C129_avalon_partial",
    "C129_opb_partial"
   ],
   "note": "REFUTED: negative operands down to -2^(n-1) wrap on all three (C129_avalon_refuted, C129_opb_refuted, C129_axi_addresses_refuted, C129_axi_concurrent_refuted), AXI values and byte enables of any size are cut to the beat (C129_axi_values_refuted), and an OPB write whose value is too big raises only after the write is on the bus with the old data (C129_opb_write_refuted). Other operands with no representation raise ValueError with nothing requested (C129_avalon_partial, C129_opb_partial; AXI addresses: C90)."
  },
  {
   "property": "C130",
   "status": "proved",
   "theorems": [
    "C130_chunks",
    "C130_stream"
   ],
   "note": "8-bit symbols; nobody else appends to, clears or kills the driver; a packet held up for invalidTimeout cycles ends the monitor (C38)."
  },
  {
   "property": "C131",
   "status": "partial",
   "theorems": [
    "C131_read_partial",
    "C131_lite_read",
    "C131_write_partial",
    "C131_burst_refuted",
    "C131_concurrent_refuted",
    "C131_concurrent_writes_refuted",
    "C131_every_burst_refuted",
    "C131_all_waiting_reads_refuted",
    "C131_all_waiting_writes_refuted"
   ],
   "note": "Refuted: a read that fails in the middle of a burst leaves the other beats, which the next read takes as its own (C131_burst_refuted); a task that waits for the channel fails with RuntimeError (C131_concurrent_refuted, C131_concurrent_writes_refuted). Both are shown for whole classes: C131_every_burst_refuted, C131_all_waiting_reads_refuted, C131_all_waiting_writes_refuted. The access itself always raises ValueError, and accesses made afterwards by the same task are right if no beat of the failed burst comes after their address handshake, which for AXI4-Lite is always so."
  },
  {
   "property": "C132",
   "status": "partial",
   "theorems": [
    "C132_quiet_partial",
    "C132_delivered_refuted",
    "C132_ended_refuted"
   ],
   "note": "Refuted: the loop of the monitor never looks at in_reset (unlike that of AvalonSTPkts, C40), so words in a reset are delivered (C132_delivered_refuted), and an undefined one with valid and ready 1 ends the monitor (C132_ended_refuted). Holds if no word is transferred during a reset."
  },
  {
   "property": "C133",
   "status": "partial",
   "theorems": [
    "C133_reported_partial",
    "C133_idle_partial",
    "C133_start_refuted",
    "C133_inside_refuted"
   ],
   "note": "Refuted: with the control bit of the start character wrong the frame is lost without a message (C133_start_refuted, every packet); if the packet contains a packet of at least 60 bytes with its CRC and a byte 0xFD, a wrong control bit there delivers the inner packet without a message (C133_inside_refuted). C133_reported_partial: every other lane of the frame, whatever the CRC function; C133_idle_partial: idle lanes."
  },
  {
   "property": "C134",
   "status": "partial",
   "theorems": [
    "C134_driver_partial",
    "C134_driver_refuted",
    "C134_monitor_partial",
    "C134_monitor_refuted"
   ],
   "note": "Refuted: the option has a default and is stored, and nothing reads it. C134_driver_refuted: for every R but 0, every packet and every schedule in which ready was high for no more cycles than there are words, the sink misses part of the packet. C134_monitor_refuted: for every R but 0 and every packet there is a stream that transfers it and of which the monitor reports nothing. C134_driver_partial, C134_monitor_partial: R = 0 (driver), or ready high throughout."
  },
  {
   "property": "C135",
   "status": "partial",
   "theorems": [
    "C135_waiting_partial",
    "C135_avalon_refuted",
    "C135_avalon_write_refuted",
    "C135_opb_refuted",
    "C135_axi_read_refuted",
    "C135_axi_write_refuted"
   ],
   "note": "Refuted. C135_avalon_refuted, C135_opb_refuted: whenever an access is given up, every later access waits for ever. C135_avalon_write_refuted: a write given up while stalled is accepted afterwards, once per cycle without a stall. C135_axi_read_refuted: the next AXI read of the same shape returns the data of the abandoned one. C135_axi_write_refuted: the next AXI write takes the response of the abandoned one. C135_waiting_partial: an Avalon-MM or OPB access given up while it waits for its turn leaves nothing behind."
  },
  {
   "property": "C136",
   "status": "proved",
   "theorems": [
    "C136_words",
    "C136_packets",
    "C136_determined",
    "C136_full_speed_words",
    "C136_full_speed_packets"
   ],
   "note": "C136_words, C136_packets: the cycles in which a word is on offer, for all lists, generators and ready patterns. C136_determined: that description leaves no freedom. C136_full_speed_words, C136_full_speed_packets: without a generator every ready cycle after the synchronising one takes a word."
  },
  {
   "property": "C137",
   "status": "proved",
   "theorems": [
    "C137_write",
    "C137_full_speed",
    "C137_read"
   ],
   "note": "C137_write: the cycles in which an address and data are on offer and the cycle in which the write returns, for all latencies and slaves (WVALID stays high between the beats also with data_latency, as in C56). C137_full_speed: the closed form for an always-ready slave. C137_read: the cycles in which the read address is on offer."
  },
  {
   "property": "C138",
   "status": "proved",
   "theorems": [
    "C138_array",
    "C138_determined"
   ],
   "note": "C138_array: refinement of a program of accesses on a conforming slave to a byte array, for all programs, slaves and schedules. C138_determined: the array has one list of results."
  },
  {
   "property": "C139",
   "status": "proved",
   "theorems": [
    "C139_words",
    "C139_rate",
    "C139_packets",
    "C139_packet_rate"
   ],
   "note": "C139_words, C139_packets: the sends return iff the generator's on cycles suffice. C139_rate, C139_packet_rate: the exact cycle for a fixed (on, off) pair."
  },
  {
   "property": "C140",
   "status": "proved",
   "theorems": [
    "C140_no_deadlock",
    "C140_cycles"
   ],
   "note": "C140_no_deadlock: the bound, for every slave that keeps serving in any order. C140_cycles: the bus cycles it speaks of are those that the slave gave and the master drove."
  },
  {
   "property": "C141",
   "status": "proved",
   "theorems": [
    "C141_words",
    "C141_packets"
   ],
   "note": "C141_words, C141_packets: the bound (met exactly by the cases exr_words and exr_packets) and the return of the sends."
  },
  {
   "property": "C142",
   "status": "proved",
   "theorems": [
    "C142_bounded"
   ],
   "note": "C142_bounded: the bound and the return of all accesses."
  },
  {
   "property": "C143",
   "status": "proved",
   "theorems": [
    "C143_bounded",
    "C143_cycles"
   ],
   "note": "C143_bounded: the bound and the end of the read; C143_cycles: the cycles are those of the slave."
  },
  {
   "property": "C144",
   "status": "proved",
   "theorems": [
    "C144_read_ends",
    "C144_write_ends"
   ],
   "note": "C144_read_ends, C144_write_ends: the end and the number of cycles; that suppression does keep an access waiting is C67_waits_partial."
  },
  {
   "property": "C145",
   "status": "partial",
   "theorems": [
    "C145_exactly_partial",
    "C145_accepted_partial",
    "C145_large_int_refuted",
    "C145_big_endian_int_refuted",
    "C145_str_refuted",
    "C145_bytes_refuted"
   ],
   "note": "C145_exactly_partial: the versions agree for exactly the arguments that satisfy `portable`; C145_accepted_partial: what 2.x accepts 1.x accepts. Refuted for whole classes: an int too large (2.x raises, 1.x sends its low bits), a positive int with big_endian whose top bit is clear (1.x sends a larger value), a str of another length, bytes that do not fit or a word of one bit."
  },
  {
   "property": "C146",
   "status": "proved",
   "theorems": [
    "C146_reads",
    "C146_writes"
   ],
   "note": "C146_reads, C146_writes: with list_max of the call times plus a sum over the calls as the bound. The values of the results are those of C86_results and C87_results. The writes have data_latency 0 or one beat, as in C86."
  },
  {
   "property": "C147",
   "status": "partial",
   "theorems": [
    "C147_spacing_partial",
    "C147_few_lanes_refuted",
    "C147_eight_lanes_refuted",
    "C147_spaced_partial"
   ],
   "note": "REFUTED (with create_binary bound, see C62): on up to five lanes for every queued packet (C147_few_lanes_refuted), on eight lanes exactly for queued packets after one whose length is 1 to 3 more than a multiple of eight (C147_eight_lanes_refuted). C147_spacing_partial: the gaps and the number of cycles exactly, for every bus and sequence; C147_spaced_partial: the gap is kept on eleven or more lanes, and if the driver waits before each packet."
  },
  {
   "property": "C148",
   "status": "partial",
   "theorems": [
    "C148_exact_partial",
    "C148_partial",
    "C148_first_lane_partial",
    "C148_wide_refuted",
    "C148_nonvacuous"
   ],
   "note": "REFUTED on buses of more than eight lanes: only lane 0 is looked at there, every frame that starts in another column is lost and nothing is logged (C148_wide_refuted). C148_partial: holds on four and on eight lanes, the widths of XGMII. C148_exact_partial: for every number of lanes exactly which frames are delivered; C148_first_lane_partial: all that start in the first lane."
  },
  {
   "property": "C149",
   "status": "proved",
   "theorems": [
    "C149_delivered",
    "C149_at_edge"
   ],
   "note": "C149_delivered: what has been delivered after any number of words; C149_at_edge: what each edge adds. For the frames that start in a lane the monitor looks at; the others are the subject of C148."
  },
  {
   "property": "C150",
   "status": "proved",
   "theorems": [
    "C150_window"
   ],
   "note": "For the frames that start in a lane the monitor looks at; the others are the subject of C148."
  },
  {
   "property": "C151",
   "status": "partial",
   "theorems": [
    "C151_between_partial",
    "C151_refuted"
   ],
   "note": "True when the monitor is created between two packets (C151_between_partial).  Refuted when it is created inside one: it raises AvalonProtocolError at the next word transferred and delivers nothing at all (C151_refuted)."
  },
  {
   "property": "C152",
   "status": "partial",
   "theorems": [
    "C152_between_partial",
    "C152_refuted"
   ],
   "note": "True when the reset comes between two packets (C152_between_partial).  Refuted when it cuts one off: the monitor keeps the words it has, raises AvalonProtocolError no later than at the first word of the next packet and delivers nothing more (C152_refuted)."
  },
  {
   "property": "C153",
   "status": "proved",
   "theorems": [
    "C153_same",
    "C153_last",
    "C153_raised"
   ],
   "note": "For buses with at least one data bit.  Callbacks that raise are the subject of C12."
  },
  {
   "property": "C154",
   "status": "partial",
   "theorems": [
    "C154_driver_partial",
    "C154_ignored_refuted",
    "C154_delivered_refuted"
   ],
   "note": "True of the driver (C154_driver_partial).  Refuted for the monitor: nothing it delivers or raises depends on the error signal (C154_ignored_refuted), so every flagged packet is delivered like any other (C154_delivered_refuted)."
  },
  {
   "property": "C155",
   "status": "proved",
   "theorems": [
    "C155_same_packets",
    "C155_same_channels",
    "C155_old_name",
    "C155_old_name_runs",
    "C155_old_name_argument",
    "C155_options"
   ],
   "note": "Callbacks that raise are the subject of C12.  The DeprecationWarning of AvalonSTPktsWithChannel is not modelled."
  }
 ]
}
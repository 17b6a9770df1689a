{
 "claims": [
  {
   "property": "C01",
   "status": "proved",
   "theorems": [
    "C01_numerals"
   ],
   "note": ""
  },
  {
   "property": "C02",
   "status": "proved",
   "theorems": [
    "C02_exactly_numerals"
   ],
   "note": ""
  },
  {
   "property": "C03",
   "status": "proved",
   "theorems": [
    "C03_size"
   ],
   "note": ""
  },
  {
   "property": "C04",
   "status": "partial",
   "theorems": [
    "C04_mac_partial",
    "C04_refuted"
   ],
   "note": "Holds for every text that does not start with \"0b\"; such texts are taken for binary literals and rejected (refuted with 0b:00:00:00:00:01)."
  },
  {
   "property": "C05",
   "status": "proved",
   "theorems": [
    "C05_mac_safe"
   ],
   "note": ""
  },
  {
   "property": "C06",
   "status": "proved",
   "theorems": [
    "C06_ipv4"
   ],
   "note": ""
  },
  {
   "property": "C07",
   "status": "partial",
   "theorems": [
    "C07_ipv6_partial",
    "C07_refuted"
   ],
   "note": "Same exception as C04: a text starting with \"0b\" is rejected."
  },
  {
   "property": "C08",
   "status": "partial",
   "theorems": [
    "C08_wide_literals_partial",
    "C08_refuted"
   ],
   "note": "Alignment is proved for every literal that fits. The memory safety clause is false: every longer literal of an even number of digits accesses memory in front of the buffer (C08_refuted is stated for all such literals)."
  },
  {
   "property": "C09",
   "status": "proved",
   "theorems": [
    "C09_hexdump"
   ],
   "note": ""
  },
  {
   "property": "C10",
   "status": "proved",
   "theorems": [
    "C10_pieces"
   ],
   "note": ""
  },
  {
   "property": "C11",
   "status": "partial",
   "theorems": [
    "C11_rejected_partial",
    "C11_refuted"
   ],
   "note": "Rejected: a missing value, bad data pieces, a bad padding. False for the value of a single field: for every field and every unreadable text the frame is accepted with the default (C11_refuted is universal)."
  },
  {
   "property": "C12",
   "status": "proved",
   "theorems": [
    "C12_field_write"
   ],
   "note": ""
  },
  {
   "property": "C13",
   "status": "proved",
   "theorems": [
    "C13_write_assertion"
   ],
   "note": ""
  },
  {
   "property": "C14",
   "status": "proved",
   "theorems": [
    "C14_templates_tiled"
   ],
   "note": ""
  },
  {
   "property": "C15",
   "status": "proved",
   "theorems": [
    "C15_field_values",
    "C15_accepted_frames"
   ],
   "note": ""
  },
  {
   "property": "C16",
   "status": "proved",
   "theorems": [
    "C16_length_placement",
    "C16_accepted_frames"
   ],
   "note": ""
  },
  {
   "property": "C17",
   "status": "proved",
   "theorems": [
    "C17_mask",
    "C17_accepted_frames"
   ],
   "note": "C17_mask for any well formed frame, C17_accepted_frames for the frames a user can write."
  },
  {
   "property": "C18",
   "status": "partial",
   "theorems": [
    "C18_ignored_field_partial",
    "C18_command_partial",
    "C18_refuted"
   ],
   "note": "Holds when no compared field of the same header shares bits with the ignored field; refuted for overlay fields (b1-rew-mac of ifh-oc1)."
  },
  {
   "property": "C19",
   "status": "proved",
   "theorems": [
    "C19_matching"
   ],
   "note": ""
  },
  {
   "property": "C20",
   "status": "partial",
   "theorems": [
    "C20_padding_partial",
    "C20_refuted"
   ],
   "note": "Frames of any other length are rejected. For n > 0 the comparison reads n bytes behind the expected frame and never accepts (C20_refuted, for all frames)."
  },
  {
   "property": "C21",
   "status": "partial",
   "theorems": [
    "C21_checksum_partial",
    "C21_refuted"
   ],
   "note": "Proved exactly when the 32 bit sum, folded once, leaves no carry: the program folds only once, so sums with hi+lo >= 65536 give a wrong checksum; the stored value is stated exactly in all cases (refuted with concrete data). "
  },
  {
   "property": "C22",
   "status": "partial",
   "theorems": [
    "C22_ipv4_partial",
    "C22_refuted"
   ],
   "note": "Proved exactly when the 32 bit sum, folded once, leaves no carry: the program folds only once, so sums with hi+lo >= 65536 give a wrong checksum; the stored value is stated exactly in all cases (refuted with concrete frame). "
  },
  {
   "property": "C23",
   "status": "partial",
   "theorems": [
    "C23_transport_partial",
    "C23_refuted"
   ],
   "note": "Proved exactly when the 32 bit sum, folded once, leaves no carry: the program folds only once, so sums with hi+lo >= 65536 give a wrong checksum; the stored value is stated exactly in all cases (refuted with concrete frames). Frames below 131000 bytes, so that the 32 bit sum cannot wrap."
  },
  {
   "property": "C24",
   "status": "partial",
   "theorems": [
    "C24_icmp_partial",
    "C24_igmp_partial",
    "C24_refuted"
   ],
   "note": "Proved exactly when the 32 bit sum, folded once, leaves no carry: the program folds only once, so sums with hi+lo >= 65536 give a wrong checksum; the stored value is stated exactly in all cases (refuted with concrete frames). Frames below 131000 bytes."
  },
  {
   "property": "C25",
   "status": "proved",
   "theorems": [
    "C25_lengths"
   ],
   "note": ""
  },
  {
   "property": "C26",
   "status": "proved",
   "theorems": [
    "C26_next",
    "C26_last"
   ],
   "note": ""
  },
  {
   "property": "C27",
   "status": "proved",
   "theorems": [
    "C27_kept",
    "C27_emitted",
    "C27_groups"
   ],
   "note": "For frames of regular headers (see C36). coap-opt: C30."
  },
  {
   "property": "C28",
   "status": "proved",
   "theorems": [
    "C28_sizes"
   ],
   "note": ""
  },
  {
   "property": "C29",
   "status": "partial",
   "theorems": [
    "C29_twice_partial",
    "C29_refuted"
   ],
   "note": "Proved for all frames without igmp, mld, sv and coap-opt; refuted for each of these four."
  },
  {
   "property": "C30",
   "status": "proved",
   "theorems": [
    "C30_option",
    "C30_any_option"
   ],
   "note": ""
  },
  {
   "property": "C31",
   "status": "proved",
   "theorems": [
    "C31_token",
    "C31_any_token"
   ],
   "note": ""
  },
  {
   "property": "C32",
   "status": "partial",
   "theorems": [
    "C32_code_partial",
    "C32_refuted"
   ],
   "note": "All texts c.dd are accepted with the right value; the last character may also be one beyond '9' (0.0: is read as 0.10)."
  },
  {
   "property": "C33",
   "status": "proved",
   "theorems": [
    "C33_frame_parsing_bounds"
   ],
   "note": ""
  },
  {
   "property": "C34",
   "status": "proved",
   "theorems": [
    "C34_own_words"
   ],
   "note": ""
  },
  {
   "property": "C35",
   "status": "proved",
   "theorems": [
    "C35_assignments",
    "C35_whole_frame"
   ],
   "note": ""
  },
  {
   "property": "C36",
   "status": "partial",
   "theorems": [
    "C36_parsing_safe_partial",
    "C36_serialising_safe",
    "C36_refuted",
    "C36_accepted_serialises",
    "C36_serialises",
    "C36_irregular_refuted"
   ],
   "note": "Parsing has exactly two kinds of undefined behaviour (over-long literal for a field wider than 64 bits; coap-parms par without data), both shown to occur. Serialising an accepted frame and its mask has none; irregular sv/mld headers may stop in an assertion."
  },
  {
   "property": "C37",
   "status": "proved",
   "theorems": [
    "C37_all_or_nothing"
   ],
   "note": "Either the result is -1 and nothing happens, or the words split into at most 100 groups, each of which alone is the command executed (C58 says which)."
  },
  {
   "property": "C38",
   "status": "partial",
   "theorems": [
    "C38_command_parsing_partial",
    "C38_refuted"
   ],
   "note": "False as stated: 'tx IF' and 'tx IF rep' at the end of the command line pass a null pointer to strcmp/atoi. Proved: apart from that, only the frame level causes of C36 remain."
  },
  {
   "property": "C39",
   "status": "proved",
   "theorems": [
    "C39_named_frames"
   ],
   "note": ""
  },
  {
   "property": "C40",
   "status": "proved",
   "theorems": [
    "C40_grouping"
   ],
   "note": "The socket table has 100 entries; add_all would end in Assert_fail if it overflowed."
  },
  {
   "property": "C41",
   "status": "proved",
   "theorems": [
    "C41_frames_accounted",
    "C41_rx_only"
   ],
   "note": "Proved also with transmit commands as long as no received frame matches one (no_echo)."
  },
  {
   "property": "C42",
   "status": "proved",
   "theorems": [
    "C42_exact_verdict",
    "C42_exact_counts",
    "C41_rx_only"
   ],
   "note": ""
  },
  {
   "property": "C43",
   "status": "partial",
   "theorems": [
    "C43_order_independent_partial",
    "C43_refuted"
   ],
   "note": "False for partially overlapping (masked) expectations: a frame is given to the first expectation that matches. Proved for expectations of which no two overlap partially."
  },
  {
   "property": "C44",
   "status": "partial",
   "theorems": [
    "C44_interfaces_partial",
    "C44_refuted"
   ],
   "note": "False if a received frame matches a pending tx command of the interface. Proved otherwise, even between different command lines."
  },
  {
   "property": "C45",
   "status": "partial",
   "theorems": [
    "C45_unexpected_is_error_partial",
    "C45_transmission_independent_partial",
    "C45_refuted"
   ],
   "note": "False if a received frame matches a pending tx command of the interface: it counts as expected and the transmission is dropped. Proved otherwise."
  },
  {
   "property": "C46",
   "status": "partial",
   "theorems": [
    "C46_transmitted_partial",
    "C46_transmit_only",
    "C46_order_partial",
    "C46_once",
    "C46_count",
    "C46_refuted"
   ],
   "note": "'rep 0' sends 2^32 frames. Proved for n >= 1 (times c = c_repeat c) on interfaces without rx commands, and with rx commands if no received frame matches a frame to be sent."
  },
  {
   "property": "C47",
   "status": "partial",
   "theorems": [
    "C47_reported_partial",
    "C47_refuted"
   ],
   "note": "False: a transmission that failed or got no turn before the time-out leaves the result 0. Proved: what is reported as transmitted was sent."
  },
  {
   "property": "C48",
   "status": "partial",
   "theorems": [
    "C48_exit_status_partial",
    "C48_refuted"
   ],
   "note": "False for 256 errors (8 bit exit status). Proved for up to 255 errors."
  },
  {
   "property": "C49",
   "status": "partial",
   "theorems": [
    "C49_tags_partial",
    "C49_refuted"
   ],
   "note": "False for tagged messages below 12 bytes (out of bounds) and above 32763 bytes (tag not inserted). Proved for all others."
  },
  {
   "property": "C50",
   "status": "proved",
   "theorems": [
    "C50_replay"
   ],
   "note": "For frames the tool can print, which have at least 60 bytes."
  },
  {
   "property": "C51",
   "status": "proved",
   "theorems": [
    "C51_capture_command",
    "C51_elements"
   ],
   "note": "The command is given to bash -c, which splits it again: stated for the text."
  },
  {
   "property": "C52",
   "status": "proved",
   "theorems": [
    "C52_timeout",
    "C52_select",
    "C52_stops",
    "C52_not_before",
    "C52_loop",
    "C52_negative"
   ],
   "note": ""
  },
  {
   "property": "C53",
   "status": "proved",
   "theorems": [
    "C53_little_endian"
   ],
   "note": ""
  },
  {
   "property": "C54",
   "status": "partial",
   "theorems": [
    "C54_settable_partial",
    "C54_refuted",
    "C54_keyword_refuted"
   ],
   "note": "True of all fields of fixed size but four: the second fields called du-fill (ifh-la), reserved (oam-ccm) and ann-reserved1 (ptp-announce) can never be set; profinet-rtc ignore is taken for the keyword when it comes first."
  },
  {
   "property": "C55",
   "status": "partial",
   "theorems": [
    "C55_mld_partial",
    "C55_refuted"
   ],
   "note": "Proved exactly when the 32 bit sum, folded once, leaves no carry: the program folds only once, so sums with hi+lo >= 65536 give a wrong checksum; the stored value is stated exactly in all cases (refuted with concrete frame). Frames below 131000 bytes."
  },
  {
   "property": "C56",
   "status": "proved",
   "theorems": [
    "C56_own_words"
   ],
   "note": ""
  },
  {
   "property": "C57",
   "status": "partial",
   "theorems": [
    "C57_execution_total_partial",
    "C57_refuted"
   ],
   "note": "Proved if no frame has padding, sends succeed and tagged messages have 12 bytes; refuted with padding (out of bounds read)."
  },
  {
   "property": "C58",
   "status": "proved",
   "theorems": [
    "C58_command_syntax",
    "C58_repeat_count"
   ],
   "note": ""
  },
  {
   "property": "C59",
   "status": "proved",
   "theorems": [
    "C59_capture_life_cycle",
    "C59_same_run"
   ],
   "note": "fork and execl are assumed to succeed (hypotheses on s_pids)."
  },
  {
   "property": "C60",
   "status": "proved",
   "theorems": [
    "C60_files_and_output"
   ],
   "note": "The bytes of the pcap file format are written by libpcap, which is not modelled."
  },
  {
   "property": "C61",
   "status": "proved",
   "theorems": [
    "C61_options",
    "C61_every_line"
   ],
   "note": "GNU getopt without POSIXLY_CORRECT."
  },
  {
   "property": "C62",
   "status": "partial",
   "theorems": [
    "C62_no_effect_partial",
    "C62_refuted"
   ],
   "note": "False: the capture files of -c options are removed while the options are read, even if the command line is then refused. Proved: this is the only effect."
  },
  {
   "property": "C63",
   "status": "proved",
   "theorems": [
    "C63_given",
    "C63_default",
    "C63_size"
   ],
   "note": "The Microchip frame headers (sp-*, lp-*, ifh-*, efh-*) have no public standard and are not in the table; a CoAP header is covered up to its message id; nothing is said about a profinet-rtc header without data. For headers excluded by regular see DESIGN.md."
  },
  {
   "property": "C64",
   "status": "partial",
   "theorems": [
    "C64_registered_partial",
    "C64_refuted"
   ],
   "note": "False for IP in IP (0 or the low byte of the ethertype is announced), MLD in IPv6 (0), ICMP in IPv6 with a given checksum (1). Proved for all other pairs."
  },
  {
   "property": "C65",
   "status": "proved",
   "theorems": [
    "C65_bytes",
    "C65_printed",
    "C65_command"
   ],
   "note": "Fields the program works out are stated in C21-C26, C31, C55 and C64, which apply to the serialised frame that C65_bytes provides. Payload up to 134000000 bytes (limit of the model)."
  },
  {
   "property": "C66",
   "status": "partial",
   "theorems": [
    "C66_exact",
    "C66_ignoring_partial",
    "C66_refuted"
   ],
   "note": "Proved for all frames but those with an SV header without its last part, whose absent fields are compared in the bytes of the next header (C66_refuted). Frames with 'padding' match nothing (C20)."
  },
  {
   "property": "C67",
   "status": "partial",
   "theorems": [
    "C67_exact",
    "C67_room_partial",
    "C67_mask_partial",
    "C67_refuted"
   ],
   "note": "False for MLD messages: building the mask hits an assertion (C67_refuted, with the command line). C67_exact says exactly for which frames it does; C67_room_partial and C67_mask_partial give it for igmp, mld and sv headers followed by enough bytes, and for every frame without these headers."
  },
  {
   "property": "C68",
   "status": "proved",
   "theorems": [
    "C68_no_memory_fault",
    "C68_same_crashes",
    "C68_init",
    "C68_commands",
    "C68_refused"
   ],
   "note": "Memory model of Mem.v: blocks with explicit allocation and freeing; malloc succeeds. Options and captures, and the temporaries of the fill functions, are not in this memory model (DESIGN.md)."
  },
  {
   "property": "C69",
   "status": "partial",
   "theorems": [
    "C69_released_partial",
    "C69_refuted",
    "C69_lost_refuted"
   ],
   "note": "False: oam_uninit forgets the default values of oam-lb, oam-lt and oam-raps, and over-long CoAP tokens and MEG identifiers are forgotten while parsing. Proved: nothing else is left, whatever the command line."
  },
  {
   "property": "C70",
   "status": "proved",
   "theorems": [
    "C70_frame_copy",
    "C70_bytes",
    "C70_template"
   ],
   "note": ""
  },
  {
   "property": "C71",
   "status": "proved",
   "theorems": [
    "C71_unique",
    "C71_bytes",
    "C71_printed",
    "C71_command"
   ],
   "note": "Checksums are those the program stores (folded once; C21 says when they verify). igmp, mld, sv, profinet-rtc, CoAP tokens and options and the Microchip headers are not in the table of formats."
  },
  {
   "property": "C72",
   "status": "proved",
   "theorems": [
    "C72_lines",
    "C72_names",
    "C72_unambiguous",
    "C72_hex",
    "C72_newline_refuted"
   ],
   "note": "C72_newline_refuted shows that the condition on names is needed: a name with a newline forges a line of the report."
  },
  {
   "property": "C73",
   "status": "partial",
   "theorems": [
    "C73_status_partial",
    "C73_undefined",
    "C73_refused_refuted"
   ],
   "note": "Proved for every run of accepted commands. False for refused lines: their messages go to stdout and stderr stays empty although the status is 255."
  },
  {
   "property": "C74",
   "status": "partial",
   "theorems": [
    "C74_program",
    "C74_same",
    "C74_commands",
    "C74_examples",
    "C74_headers",
    "C74_fields_partial",
    "C74_field",
    "C74_places",
    "C74_ignore_refuted"
   ],
   "note": "False for the field ignore of profinet-rtc, which is listed but taken for the keyword. Proved for all other words and headers; C74_places for the headers of the standards table."
  },
  {
   "property": "C75",
   "status": "partial",
   "theorems": [
    "C75_quiet",
    "C75_reported_partial",
    "C75_silent_refuted"
   ],
   "note": "False: a number with a bad character and an address starting with 0b are dropped without a message. Proved: a value made of the characters of an address or a hexadecimal number of the right size that cannot be read is reported."
  },
  {
   "property": "C76",
   "status": "partial",
   "theorems": [
    "C76_said_partial",
    "C76_silent_refuted"
   ],
   "note": "False for data and padding, which are refused with no output at all. Proved for all other lines."
  },
  {
   "property": "C77",
   "status": "partial",
   "theorems": [
    "C77_readable",
    "C77_starts",
    "C77_bytes_partial",
    "C77_printed_partial",
    "C77_command_partial",
    "C77_refuted",
    "C77_ambiguous_refuted"
   ],
   "note": "False for field v-rsv1 of ifh-la, which must be 1 according to the help and is 0, and for the header rtag directly behind ifh-mas, where the word is taken for the field rtag. Proved for everything else."
  },
  {
   "property": "C78",
   "status": "proved",
   "theorems": [
    "C78_line",
    "C78_again",
    "C78_help_partial",
    "C78_dash_refuted"
   ],
   "note": "From the command line to the printed text. C78_dash_refuted shows why the condition on the words is needed: a word of the frame that starts with a dash and does not follow -- is an option. C78_help_partial extends C78_line to all headers of fixed form that the help lists, with the exceptions of C77."
  },
  {
   "property": "C79",
   "status": "proved",
   "theorems": [
    "C79_history",
    "C79_freed",
    "C79_calls",
    "C79_self"
   ],
   "note": "Histories of calls (refinement of plain lists) and the single calls on any heap. C79_self: a list put behind itself, which the history excludes, makes the next call endless."
  },
  {
   "property": "C80",
   "status": "partial",
   "theorems": [
    "C80_room_partial",
    "C80_assert_refuted",
    "C80_lost_refuted",
    "C80_twice_refuted",
    "C80_full_refuted",
    "C80_init_refuted"
   ],
   "note": "False: with assertions no call returns (bl_check ends in assert(0)); without them text that needs a new element is lost, because the element is never linked, and text that exactly fills the room loses its last character. Proved: without assertions, text for which there is room with its zero is appended."
  },
  {
   "property": "C81",
   "status": "proved",
   "theorems": [
    "C81_equal",
    "C81_copy",
    "C81_print",
    "C81_alloc"
   ],
   "note": ""
  },
  {
   "property": "C82",
   "status": "proved",
   "theorems": [
    "C82_unique",
    "C82_bytes",
    "C82_printed",
    "C82_command"
   ],
   "note": "C71 for every header of published format, also those whose form depends on the fields given (igmp, mld, sv, profinet-rtc, coap with token), CoAP options and payload, and payload anywhere. An mld header needs the addresses of an ipv6 header before it unless its checksum is given (else the program dereferences a null pointer, C36); payload directly behind profinet-rtc would be taken for its field data."
  },
  {
   "property": "C83",
   "status": "proved",
   "theorems": [
    "C83_accepts",
    "C83_command"
   ],
   "note": "The parts are those of C82. Excluded in the statement: supervision frames without a second TLV, whose mask is not theirs (C66_refuted), and, for the existence of the command, igmp, mld and sv headers too near to the end of the frame, whose mask aborts (C67_exact)."
  },
  {
   "property": "C84",
   "status": "proved",
   "theorems": [
    "C84_runs",
    "C84_verdict",
    "C84_passes",
    "C84_exact",
    "C84_sent"
   ],
   "note": "Frames are those of C82 and C83. The conditions are part of the property: without them an arrival order (C43_refuted), an echo of a sent frame (C44_refuted, C45_refuted) or an igmp, mld or sv header near the end of a frame with ignored fields (C67_refuted) can spoil it."
  },
  {
   "property": "C85",
   "status": "proved",
   "theorems": [
    "C85_stopped",
    "C85_patience",
    "C85_end"
   ],
   "note": "Model Children.v: program and captures interleaved step by step."
  },
  {
   "property": "C86",
   "status": "partial",
   "theorems": [
    "C86_own_partial",
    "C86_exact_partial",
    "C86_early_refuted",
    "C86_reuse_refuted"
   ],
   "note": "False of the code. A capture that ends between fork and the assignment of its pid is waited for without being found, then believed to run: its pid, no longer the program's, is sent both signals (C86_early_refuted). If a later capture gets the pid of one that has been waited for, its end is put down to the earlier one (C86_reuse_refuted). Proved for all other schedules."
  },
  {
   "property": "C87",
   "status": "proved",
   "theorems": [
    "C87_ends",
    "C87_progress"
   ],
   "note": ""
  },
  {
   "property": "C88",
   "status": "partial",
   "theorems": [
    "C88_cut_short",
    "C88_undisturbed_partial",
    "C88_none",
    "C88_sleeps_partial",
    "C88_refuted",
    "C88_unstarted_refuted"
   ],
   "note": "False of the code: the SIGCHLD of a capture that ends (for instance one with a frame count) interrupts select, which ends the receive loop, so that the test can fail that passes without the capture (C88_refuted); failure of fork goes unnoticed (C88_unstarted_refuted). Proved: the frames are cut short in no other way, and only after a capture has ended; the same for the sleeps."
  },
  {
   "property": "C89",
   "status": "partial",
   "theorems": [
    "C89_single_partial",
    "C89_processes",
    "C89_doubled",
    "C89_tests",
    "C89_signals",
    "C89_refuted"
   ],
   "note": "False: a child whose execl fails goes on as a second copy of the program (C89_refuted, with the frame sent twice). Proved: one process if no execl fails; in general exactly one more process for each execl that fails, each of which executes the whole test; 2^n processes for n captures if there is no shell; and whom each of them signals."
  },
  {
   "property": "C90",
   "status": "partial",
   "theorems": [
    "C90_status_partial",
    "C90_undisturbed_partial",
    "C90_ends",
    "C90_early_refuted",
    "C90_many_refuted"
   ],
   "note": "False in two ways: a capture that ends while the program listens makes it stop listening (C90_early_refuted), and the status has eight bits (C90_many_refuted). Proved for fewer than 256 frames: the status is the verdict on the frames of the rounds in which the program listened, which are all rounds unless a capture ended before; and the program gets to its end. Passing also needs the expectations of an interface to be distinguishable (C43)."
  },
  {
   "property": "C91",
   "status": "partial",
   "theorems": [
    "C91_runs",
    "C91_every_run",
    "C91_trouble",
    "C91_judged",
    "C91_own_partial",
    "C91_received_partial",
    "C91_unknown",
    "C91_vanished_refuted",
    "C91_kept_refuted",
    "C91_crowded_refuted",
    "C91_untagged_refuted",
    "C91_late_refuted"
   ],
   "note": "False in five ways, each with an execution: the interface vanishes between the two look-ups of its index and the socket is not bound to it (C91_vanished_refuted); reading fails while what came before is thrown away (C91_kept_refuted); more than 10000 frames came before (C91_crowded_refuted); PACKET_AUXDATA cannot be set and the tag is lost (C91_untagged_refuted); select returns after the time is over and what it reports is not read (C91_late_refuted). Proved otherwise: what is judged is a first part of what arrives at the interface from when the socket is usable; every execution is a run in the sense of C37-C50 and every such run is the outcome of an execution; an interface that does not exist makes the result -1."
  },
  {
   "property": "C92",
   "status": "partial",
   "theorems": [
    "C92_order",
    "C92_always",
    "C92_all_first",
    "C92_every",
    "C92_no_wait",
    "C92_closed_partial",
    "C92_left_open",
    "C92_closed_refuted"
   ],
   "note": "False in one way: if a socket fails, those made before it are left open until the process ends (C92_left_open, C92_closed_refuted). Everything else is proved without conditions."
  },
  {
   "property": "C93",
   "status": "partial",
   "theorems": [
    "C93_steps",
    "C93_deadline",
    "C93_goes_on_partial",
    "C93_select",
    "C93_ends_partial",
    "C93_over",
    "C93_goes_on_refuted"
   ],
   "note": "The bounds are proved without conditions. That it waits nowhere else and can be finished needs that judging and sending are defined (C57): lines without padding, tagged frames at least as long as their addresses, sending does not fail (C93_goes_on_refuted: with padding there is a point from which there is no step)."
  },
  {
   "property": "C94",
   "status": "partial",
   "theorems": [
    "C94_passed_partial",
    "C94_passes_partial",
    "C94_exactly_partial",
    "C94_can",
    "C94_can_pass",
    "C94_late_refuted"
   ],
   "note": "False as C91 is: a frame that select reports when the time is up is not read (C94_late_refuted); C91's other four refutations concern sockets that are not bound, emptied or tagged (the condition listens); the order matters if two expectations overlap (C43). Proved: with result 0 the first frames that arrive at the interface, as many as are expected, are the expected ones and no more were read; if all that arrives is read and is as expected the result is 0; together, if everything is read, equivalence; any frames may arrive and be read; every such test can be passed by the frames it asks for."
  },
  {
   "property": "C95",
   "status": "partial",
   "theorems": [
    "C95_parts",
    "C95_covered",
    "C95_broken",
    "C95_alone",
    "C95_every",
    "C95_aside",
    "C95_passed_partial",
    "C95_exactly_partial",
    "C95_steps",
    "C95_ends_partial",
    "C95_early_refuted"
   ],
   "note": "A capture that ends while the program waits in select ends the test (C95_early_refuted), so it does make a difference; the rest of the equivalence is false as C94 and C48 say, and the end is not reached if judging a frame is undefined (C57). Proved: both parts do what C85-C88 and C91-C94 say; the captures cover the test; listening is interrupted at most once, only after a capture has ended, and nothing is read afterwards; any execution of the test goes together with any life of the captures that does not interrupt it; the captures never lead to a result the test could not have without them; the status of a test in words as in C94; a bound on all steps; from any point the program can come to its end by itself."
  },
  {
   "property": "C96",
   "status": "partial",
   "theorems": [
    "C96_exactly_partial",
    "C96_passed_partial",
    "C96_frames",
    "C96_can",
    "C96_can_program",
    "C96_late_refuted",
    "C96_unsent_refuted"
   ],
   "note": "A frame that is not read in time is not judged (C96_late_refuted), and what could not be sent is not reported (C96_unsent_refuted, C47). Proved: the equivalence if all was sent and all that arrived was read; with status 0 the first frames that arrived are those sent, in some order; the frames sent are those the words describe; every such test can be passed."
  },
  {
   "property": "C97",
   "status": "partial",
   "theorems": [
    "C97_order_partial",
    "C97_meanings_partial",
    "C97_outcome_partial",
    "C97_twice_refuted",
    "C97_apart_refuted"
   ],
   "note": "Of two definitions of a name the first is used, so their order counts (C97_twice_refuted); \"rx IF\" directly before a definition is read as one command and refused (C97_apart_refuted). Proved otherwise, for expectations that accept the same frames or none in common, if all that arrives is read."
  }
 ]
}
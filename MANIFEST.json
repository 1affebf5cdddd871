{
 "claims": [
  {
   "property": "C01",
   "status": "proved",
   "theorems": [
    "C01_value_round_trip",
    "C01_extended_overflow_refuted"
   ],
   "note": "Holds for every storable value; an ExtendedRaw value of 2^80 or more loses its upper bits (refuted part)."
  },
  {
   "property": "C02",
   "status": "proved",
   "theorems": [
    "C02_sizes"
   ],
   "note": ""
  },
  {
   "property": "C03",
   "status": "proved",
   "theorems": [
    "C03_strings"
   ],
   "note": "Includes that the length prefix wraps modulo 2^32."
  },
  {
   "property": "C04",
   "status": "proved",
   "theorems": [
    "C04_toc"
   ],
   "note": ""
  },
  {
   "property": "C05",
   "status": "proved",
   "theorems": [
    "C05_type_codes"
   ],
   "note": ""
  },
  {
   "property": "C06",
   "status": "proved",
   "theorems": [
    "C06_property_round_trip"
   ],
   "note": "Extended values of 2^80 or more and strings of 2^32 bytes or more are outside good_pval."
  },
  {
   "property": "C07",
   "status": "proved",
   "theorems": [
    "C07_conversions",
    "C07_dates"
   ],
   "note": "C07_dates: the conversion between LVTime and chrono of the crate labview-interop is a parameter."
  },
  {
   "property": "C08",
   "status": "proved",
   "theorems": [
    "C08_metadata_round_trip"
   ],
   "note": ""
  },
  {
   "property": "C09",
   "status": "proved",
   "theorems": [
    "C09_segment_round_trip"
   ],
   "note": ""
  },
  {
   "property": "C10",
   "status": "partial",
   "theorems": [
    "C10_never_read_back_refuted",
    "C10_metadata_free_partial"
   ],
   "note": "The full statement is false of the code: the reader parses the raw data as metadata. Proved: exact behaviour, and the case where the raw data starts with four zero bytes."
  },
  {
   "property": "C11",
   "status": "proved",
   "theorems": [
    "C11_open_total",
    "C11_release_never_panics",
    "C11_overflow_checks_refuted"
   ],
   "note": "With overflow checks a raw data offset near 2^64 panics (DataBlock::from_segment adds unchecked); exhibited."
  },
  {
   "property": "C12",
   "status": "proved",
   "theorems": [
    "C12_iterations",
    "C12_segment_starts"
   ],
   "note": ""
  },
  {
   "property": "C13",
   "status": "proved",
   "theorems": [
    "C13_empty",
    "C13_tails"
   ],
   "note": ""
  },
  {
   "property": "C14",
   "status": "proved",
   "theorems": [
    "C14_open_is_session",
    "C14_incremental"
   ],
   "note": "An object with \"no raw data\" does not leave the list of active channels: as the statement says, but unlike the TDMS format description."
  },
  {
   "property": "C15",
   "status": "proved",
   "theorems": [
    "C15_last_write_wins",
    "C15_write_is_last"
   ],
   "note": ""
  },
  {
   "property": "C16",
   "status": "proved",
   "theorems": [
    "C16_missing",
    "C16_read_all"
   ],
   "note": ""
  },
  {
   "property": "C17",
   "status": "proved",
   "theorems": [
    "C17_no_previous_type",
    "C17_open"
   ],
   "note": ""
  },
  {
   "property": "C18",
   "status": "proved",
   "theorems": [
    "C18_locations_valid",
    "C18_sessions"
   ],
   "note": ""
  },
  {
   "property": "C19",
   "status": "proved",
   "theorems": [
    "C19_channel_length",
    "C19_no_overflow",
    "C19_sum_overflow_refuted"
   ],
   "note": "The proviso (total below 2^64) holds for all types with a size; for zero-sized types the unchecked sum panics or wraps, exhibited."
  },
  {
   "property": "C20",
   "status": "proved",
   "theorems": [
    "C20_true_addresses",
    "C20_refused",
    "C20_errors",
    "C20_chunk_error"
   ],
   "note": "The start address of a block is added unchecked, see C11; then the segment is refused or the build panics."
  },
  {
   "property": "C21",
   "status": "proved",
   "theorems": [
    "C21_build_parse",
    "C21_slash_refuted"
   ],
   "note": "Also shown: with a slash in a name the built path does not parse; C92 says what happens instead."
  },
  {
   "property": "C22",
   "status": "partial",
   "theorems": [
    "C22_accessors_partial",
    "C22_panics_only_on_lone_quote",
    "C22_slash_refuted"
   ],
   "note": "Proved for names without a slash; the full claim is false, names with a slash make the accessors panic or return another name. The strings on which slicing panics are bounded exactly. C92 says what the accessors give for every name."
  },
  {
   "property": "C23",
   "status": "proved",
   "theorems": [
    "C23_distinct"
   ],
   "note": ""
  },
  {
   "property": "C24",
   "status": "partial",
   "theorems": [
    "C24_parse",
    "C24_channel_path",
    "C24_panic_refuted"
   ],
   "note": "The classification is exact for every string; besides the four outcomes of the claim there is a panic on parts consisting of one quote, exhibited and characterised."
  },
  {
   "property": "C25",
   "status": "partial",
   "theorems": [
    "C25_list_groups",
    "C25_panics_iff",
    "C25_slash_refuted"
   ],
   "note": "Proved whenever no stored path has a lone-quote part; otherwise the call panics (equivalence proved)."
  },
  {
   "property": "C26",
   "status": "partial",
   "theorems": [
    "C26_by_prefix",
    "C26_list_channels",
    "C26_constructed_canonical",
    "C26_foreign_refuted"
   ],
   "note": "Proved for files whose paths have the form the library writes and group names without slash; refuted beyond. C95 says exactly which files have the property."
  },
  {
   "property": "C27",
   "status": "partial",
   "theorems": [
    "C27_resolvable",
    "C27_foreign_refuted"
   ],
   "note": "Proved for files whose paths have the form the library writes; refuted for foreign paths with inner quotes. C95 says exactly which files have the property."
  },
  {
   "property": "C28",
   "status": "proved",
   "theorems": [
    "C28_window",
    "C28_uneven_refuted"
   ],
   "note": "For the stated quantifier. Also shown: with unequal channel lengths in a contiguous block a read from a start position returns other samples."
  },
  {
   "property": "C29",
   "status": "proved",
   "theorems": [
    "C29_compose",
    "C29_read_channel",
    "C29_past_end"
   ],
   "note": ""
  },
  {
   "property": "C30",
   "status": "partial",
   "theorems": [
    "C30_undisturbed_partial",
    "C30_aligned_partial",
    "C30_whole_channels_partial",
    "C30_interleaved_partial",
    "C30_lengths_refuted",
    "C30_unaligned_refuted",
    "C30_start_refuted",
    "C30_duplicate_refuted"
   ],
   "note": "The full claim is false (four kinds of counterexample). Proved: channels in the same blocks with equal buffers from any start; whole channels from the start into large enough buffers; interleaved data with any buffers from the start or for channels in the same blocks; and C30_undisturbed_partial, which asks one of these conditions of each shared block only. C96 says exactly when it holds."
  },
  {
   "property": "C31",
   "status": "proved",
   "theorems": [
    "C31_plan"
   ],
   "note": ""
  },
  {
   "property": "C32",
   "status": "proved",
   "theorems": [
    "C32_wrong_type",
    "C32_wrong_type_multi"
   ],
   "note": ""
  },
  {
   "property": "C33",
   "status": "proved",
   "theorems": [
    "C33_unknown_channel",
    "C33_unknown_single",
    "C33_known"
   ],
   "note": ""
  },
  {
   "property": "C34",
   "status": "partial",
   "theorems": [
    "C34_no_panic_partial",
    "C34_no_panic_single_partial",
    "C34_zero_first_refuted",
    "C34_huge_refuted",
    "C34_string_refuted"
   ],
   "note": "Proved for every element type but strings and channels whose samples are held by blocks that have bounded sizes and, if contiguous, start with a non-empty channel; each restriction is shown necessary by a file that panics. C88 has the exact condition on channels, and C109 for every element type, strings included."
  },
  {
   "property": "C35",
   "status": "proved",
   "theorems": [
    "C35_inside",
    "C35_disjoint",
    "C35_only_own_data",
    "C35_reads"
   ],
   "note": ""
  },
  {
   "property": "C36",
   "status": "partial",
   "theorems": [
    "C36_samples_count",
    "C36_length_readable",
    "C36_timestamp_refuted",
    "C36_beside_timestamp_refuted",
    "C36_partial_chunk_refuted"
   ],
   "note": "Proved for fixed-size types and whole chunks; false for timestamps and for interleaved data with an incomplete last chunk, exhibited. C97 says exactly which files of fixed-size values have the property. C98 describes reads of timestamps and beside timestamps."
  },
  {
   "property": "C37",
   "status": "proved",
   "theorems": [
    "C37_only_appends",
    "C37_one_segment",
    "C37_properties_segment"
   ],
   "note": ""
  },
  {
   "property": "C38",
   "status": "proved",
   "theorems": [
    "C38_no_channels",
    "C38_bad_length",
    "C38_only_these"
   ],
   "note": ""
  },
  {
   "property": "C39",
   "status": "partial",
   "theorems": [
    "C39_refused_arguments",
    "C39_good_calls_succeed_partial",
    "C39_no_values_refuted",
    "C39_outcome",
    "C39_no_values_always"
   ],
   "note": "Refused arguments leave the file as it was, and calls with fixed-size values that describe their channels succeed. False for an empty list of values: the call fails after writing a segment that makes the file impossible to open. These are all the outcomes as long as the formats of the current channels are of fixed size, and every call without values breaks the file."
  },
  {
   "property": "C40",
   "status": "partial",
   "theorems": [
    "C40_program_partial",
    "C40_fresh_file_partial",
    "C40_extra_channel_refuted"
   ],
   "note": "Proved for every program of calls in which no data call continues the channel list of the previous one unless it has the same channels and type and a number of values its format can take (equal, or a multiple if interleaved or for one channel); false otherwise, C77 has the exact condition for a call and C83 for programs, exhibited."
  },
  {
   "property": "C41",
   "status": "partial",
   "theorems": [
    "C41_reopened_partial",
    "C41_reopened_after_append_partial",
    "C41_repeated_write_refuted",
    "C41_injected_refuted"
   ],
   "note": "Proved for programs in which every call that leaves out its metadata has data starting with four zero bytes; for other such calls the claim is false: the file no longer opens, or its data are taken for metadata, both exhibited; C80 has the exact condition for a call and C87 for programs."
  },
  {
   "property": "C42",
   "status": "partial",
   "theorems": [
    "C42_repeated_partial",
    "C42_count_refuted",
    "C42_type_refuted"
   ],
   "note": "Proved for one type and counts equal to the first (or multiples of it if interleaved or for one channel); false otherwise, exhibited; C77 and C83 have the exact condition."
  },
  {
   "property": "C43",
   "status": "partial",
   "theorems": [
    "C43_others_unchanged_partial",
    "C43_shorter_list_refuted"
   ],
   "note": "Proved for calls that describe their channels or repeat the previous call; false for a call naming the first of several active channels, exhibited; C84 has the exact lengths after every call."
  },
  {
   "property": "C44",
   "status": "partial",
   "theorems": [
    "C44_in_session",
    "C44_data_unchanged",
    "C44_reopened_partial"
   ],
   "note": "In session: all states and property lists. After re-opening: for files that re-open as themselves before the call (C41 says which)."
  },
  {
   "property": "C45",
   "status": "partial",
   "theorems": [
    "C45_fixed_types_partial",
    "C45_timestamp_refuted",
    "C45_extended_refuted",
    "C45_string_refuted"
   ],
   "note": "Proved for all types of fixed natural size; false for timestamps, extended floats and strings, exhibited; C85 shows these three to be the only exceptions and what they do. C98 says what reads of timestamps give."
  },
  {
   "property": "C46",
   "status": "partial",
   "theorems": [
    "C46_cut_partial",
    "C46_earlier_samples_survive_partial",
    "C46_length_of_cut_data_refuted"
   ],
   "note": "Every cut position of a call that carries metadata (or whose data start with four zero bytes). Missing: calls that leave out metadata before other data, for which even the complete file may not open (C41). A cut inside the data leaves the announced length, exhibited; C86 says which values are then given back, C89 what holds for any moment of a whole program."
  },
  {
   "property": "C47",
   "status": "partial",
   "theorems": [
    "C47_stays_at_end",
    "C47_open_append_partial",
    "C47_trailing_bytes_refuted",
    "C47_cut_short_refuted"
   ],
   "note": "Proved for files that end with their last segment; false for the other files that open, exhibited; C82 has the exact condition."
  },
  {
   "property": "C48",
   "status": "proved",
   "theorems": [
    "C48_positions",
    "C48_regroup",
    "C48_read_back"
   ],
   "note": ""
  },
  {
   "property": "C49",
   "status": "proved",
   "theorems": [
    "C49_block_order",
    "C49_metadata_order",
    "C49_mixed_orders_partial",
    "C28_window"
   ],
   "note": "Byte order of each block and of metadata; that samples are decoded with the block order is part of the sample specification in C28_window."
  },
  {
   "property": "C50",
   "status": "proved",
   "theorems": [
    "C50_exact",
    "C50_structure",
    "C50_no_metadata_refuted"
   ],
   "note": "Also exhibited: without metadata the data do matter."
  },
  {
   "property": "C51",
   "status": "proved",
   "theorems": [
    "C51_reads_are_local"
   ],
   "note": ""
  },
  {
   "property": "C52",
   "status": "proved",
   "theorems": [
    "C52_open_iff",
    "C52_segments_determine_index"
   ],
   "note": ""
  },
  {
   "property": "C53",
   "status": "proved",
   "theorems": [
    "C53_buffering_transparent"
   ],
   "note": ""
  },
  {
   "property": "C54",
   "status": "proved",
   "theorems": [
    "C54_synced",
    "C54_stays",
    "C54_unsynced_refuted"
   ],
   "note": "Also exhibited: without a sync, dropping the writer loses acknowledged writes silently."
  },
  {
   "property": "C55",
   "status": "partial",
   "theorems": [
    "C55_only_a_prefix",
    "C55_reopen_partial"
   ],
   "note": "The prefix property is proved in full; the re-opening part for the calls covered by C46."
  },
  {
   "property": "C56",
   "status": "partial",
   "theorems": [
    "C56_index_unchanged_partial",
    "C56_next_write_refuted"
   ],
   "note": "The index is unchanged; that later acknowledged writes can be read back is refuted. C94 says exactly when they can."
  },
  {
   "property": "C57",
   "status": "proved",
   "theorems": [
    "C57_open",
    "C57_read_channels",
    "C57_read_channel"
   ],
   "note": ""
  },
  {
   "property": "C58",
   "status": "proved",
   "theorems": [
    "C58_read_channels",
    "C58_read_channel"
   ],
   "note": ""
  },
  {
   "property": "C59",
   "status": "partial",
   "theorems": [
    "C59_open_partial",
    "C59_seeks_work",
    "C59_swallowed_refuted"
   ],
   "note": "Proved for devices whose seeks do not fail, and exactly characterised otherwise; the full statement is refuted (a failing seek is swallowed)."
  },
  {
   "property": "C60",
   "status": "proved",
   "theorems": [
    "C60_prefix"
   ],
   "note": ""
  },
  {
   "property": "C61",
   "status": "proved",
   "theorems": [
    "C61_uneven_window",
    "C61_straight",
    "C61_block_start",
    "C61_from_zero",
    "C61_even_block",
    "C61_count"
   ],
   "note": ""
  },
  {
   "property": "C62",
   "status": "proved",
   "theorems": [
    "C62_opening"
   ],
   "note": ""
  },
  {
   "property": "C63",
   "status": "partial",
   "theorems": [
    "C63_budget_partial",
    "C63_budget_single_partial",
    "C63_in_file_partial",
    "C63_every_chunk",
    "C63_small_file_refuted"
   ],
   "note": "Bounds proved in terms of declared block lengths, and of the file size when the blocks lie in the file; the unconditional statement is refuted."
  },
  {
   "property": "C64",
   "status": "partial",
   "theorems": [
    "C64_lifetime_partial",
    "C64_samples_partial",
    "C64_create_load",
    "C64_two_visits_refuted"
   ],
   "note": "Proved for the calls of C41; the full statement is refuted (repeated writes leave out their metadata and the file does not load again)."
  },
  {
   "property": "C65",
   "status": "proved",
   "theorems": [
    "C65_exact",
    "C65_own_samples"
   ],
   "note": ""
  },
  {
   "property": "C66",
   "status": "partial",
   "theorems": [
    "C66_order_partial",
    "C66_order_refuted"
   ],
   "note": "Proved for reads from the start of the channels; refuted for reads from a later sample. C96 says exactly when it holds."
  },
  {
   "property": "C67",
   "status": "partial",
   "theorems": [
    "C67_opened_partial",
    "C67_any_partial",
    "C67_small_file_refuted"
   ],
   "note": "The buffers asked for while parsing; the index itself is in C90. Proved for files that open; for files that are refused only the bound 2^32 holds and the proportional one is refuted."
  },
  {
   "property": "C68",
   "status": "proved",
   "theorems": [
    "C68_built",
    "C68_parts",
    "C68_opened"
   ],
   "note": ""
  },
  {
   "property": "C69",
   "status": "proved",
   "theorems": [
    "C69_values_stay",
    "C69_several",
    "C69_properties"
   ],
   "note": ""
  },
  {
   "property": "C70",
   "status": "proved",
   "theorems": [
    "C70_own_samples"
   ],
   "note": ""
  },
  {
   "property": "C71",
   "status": "proved",
   "theorems": [
    "C71_verdict",
    "C71_error",
    "C71_panic",
    "C71_opens",
    "C71_write"
   ],
   "note": ""
  },
  {
   "property": "C72",
   "status": "proved",
   "theorems": [
    "C72_grammar",
    "C72_unambiguous",
    "C72_cut"
   ],
   "note": ""
  },
  {
   "property": "C73",
   "status": "proved",
   "theorems": [
    "C73_data",
    "C73_properties",
    "C73_fixed",
    "C73_public"
   ],
   "note": "Extended floats and strings: the samples are as described, but the announced length is not their size (findings 6 and 7)."
  },
  {
   "property": "C74",
   "status": "proved",
   "theorems": [
    "C74_messages",
    "C74_tags",
    "C74_types"
   ],
   "note": ""
  },
  {
   "property": "C75",
   "status": "partial",
   "theorems": [
    "C75_store_partial",
    "C75_no_trace_partial",
    "C75_opened_store_partial",
    "C75_opened_no_trace_partial",
    "C75_store_refuted"
   ],
   "note": "Proved, for new files and for all existing files that end with their last segment, for programs that avoid findings 1 to 3: data calls do not continue the channels of the call before, or have the same channels and type and a number of values its format can take, and before closing every call can be read back. Refuted for programs in general."
  },
  {
   "property": "C76",
   "status": "partial",
   "theorems": [
    "C76_written_partial",
    "C76_data_in_metadata_refuted",
    "C76_segment_in_metadata_refuted"
   ],
   "note": "Proved for files made by write calls with elements of fixed size; refuted for other files, whose offsets are not compared with the end of the metadata (finding 21). C93 says exactly which files have the property."
  },
  {
   "property": "C77",
   "status": "proved",
   "theorems": [
    "C77_only_if",
    "C77_exactly"
   ],
   "note": "For sessions whose current channels have fixed-size formats, in which the channels of the call hold only values of its type so far, while the file is below 2^63 bytes and within what the stream can seek. The values dealt are compared through every read request."
  },
  {
   "property": "C78",
   "status": "partial",
   "theorems": [
    "C78_codes_partial",
    "C78_unit_codes_refuted"
   ],
   "note": "Proved for all types but the double and the extended float with unit; false for these two: 0x1A and 0x1B in the format, 12 and 13 in the code."
  },
  {
   "property": "C79",
   "status": "partial",
   "theorems": [
    "C79_refused_partial",
    "C79_little_endian_refuted"
   ],
   "note": "Proved for index words 0x69120000 to 0x6913FFFF in the byte order of the segment. The format gives the bytes 69 12 00 00, which are another number in a little endian segment, and the flag is not looked at: such a file is opened, exhibited."
  },
  {
   "property": "C80",
   "status": "proved",
   "theorems": [
    "C80_exactly",
    "C80_lost"
   ],
   "note": "On files whose current formats are of fixed size, for arguments the format can hold. For a continuing call there are values with which the call returns Ok and the file no longer opens."
  },
  {
   "property": "C81",
   "status": "proved",
   "theorems": [
    "C81_cut_reads",
    "C81_contiguous",
    "C81_whole",
    "C81_lost_end",
    "C81_sample_present_refuted"
   ],
   "note": "Reads of one channel. Against the same file when it was whole: a prefix of the window, and an error if it is shorter. That every read whose samples are present succeeds is refuted for interleaved data (finding 24)."
  },
  {
   "property": "C82",
   "status": "proved",
   "theorems": [
    "C82_exactly",
    "C82_needs_end",
    "C82_cut_short",
    "C82_trailing"
   ],
   "note": "For formats of fixed size and files that can be addressed; the equivalence for channels whose earlier data are all there and of the type written, the need for an exact end without that."
  },
  {
   "property": "C83",
   "status": "proved",
   "theorems": [
    "C83_exactly",
    "C83_new_file"
   ],
   "note": "For element types of fixed size and files that can be addressed; the state before the program: current formats all of one size and type (a new file has none), all earlier data there."
  },
  {
   "property": "C84",
   "status": "proved",
   "theorems": [
    "C84_lengths",
    "C84_others_exactly"
   ],
   "note": "For formats of fixed size with at least one value (DAQmx and strings excluded), lengths below 2^63, files that can be addressed; no assumption on the end of the file or on the data in it."
  },
  {
   "property": "C85",
   "status": "proved",
   "theorems": [
    "C85_exactly",
    "C85_gains",
    "C85_extended_short"
   ],
   "note": "Calls that do not continue the channel list; the equivalence on files that end where the index says, whose earlier data are of the type written."
  },
  {
   "property": "C86",
   "status": "proved",
   "theorems": [
    "C86_cut_call"
   ],
   "note": "Calls that do not continue the channel list, on a file as opened that ends where its index says; element types of fixed size; buffers that reach the end of the channel. Cuts in the head of the call: C46."
  },
  {
   "property": "C87",
   "status": "proved",
   "theorems": [
    "C87_exactly",
    "C87_opens",
    "C87_new_file",
    "C87_dependable"
   ],
   "note": "For proper arguments that the format can hold and files that can be addressed; from an existing file, the current formats are of fixed size and the file ends where its index says."
  },
  {
   "property": "C88",
   "status": "proved",
   "theorems": [
    "C88_exactly",
    "C88_panics"
   ],
   "note": "For blocks whose start can be sought and whose sizes, times the size of a row with overflow checks, are representable; C34 shows a file beyond that."
  },
  {
   "property": "C89",
   "status": "proved",
   "theorems": [
    "C89_crash",
    "C89_positions",
    "C89_kept"
   ],
   "note": "For programs whose data calls never continue the channel list, which C87 shows to be those that can be closed at any time."
  },
  {
   "property": "C90",
   "status": "partial",
   "theorems": [
    "C90_bound_partial",
    "C90_each_segment",
    "C90_family",
    "C90_proportional_refuted"
   ],
   "note": "Proved: at most the number of segments times the number of objects in the metadata. The proportional bound is refuted: 33 bytes appended to any file add a format for each active channel."
  },
  {
   "property": "C91",
   "status": "proved",
   "theorems": [
    "C91_counted",
    "C91_bound",
    "C91_different",
    "C91_family",
    "C91_proportional_refuted"
   ],
   "note": ""
  },
  {
   "property": "C92",
   "status": "proved",
   "theorems": [
    "C92_accessors",
    "C92_determined",
    "C92_exactly",
    "C92_wrong_name",
    "C92_parse"
   ],
   "note": ""
  },
  {
   "property": "C93",
   "status": "proved",
   "theorems": [
    "C93_exactly",
    "C93_data_apart"
   ],
   "note": ""
  },
  {
   "property": "C94",
   "status": "proved",
   "theorems": [
    "C94_runs",
    "C94_session",
    "C94_end",
    "C94_exactly"
   ],
   "note": ""
  },
  {
   "property": "C95",
   "status": "proved",
   "theorems": [
    "C95_panics",
    "C95_exactly",
    "C95_canonical",
    "C95_resolvable"
   ],
   "note": ""
  },
  {
   "property": "C96",
   "status": "proved",
   "theorems": [
    "C96_sources",
    "C96_right",
    "C96_order"
   ],
   "note": ""
  },
  {
   "property": "C97",
   "status": "proved",
   "theorems": [
    "C97_window",
    "C97_count",
    "C97_length",
    "C97_rest"
   ],
   "note": ""
  },
  {
   "property": "C98",
   "status": "proved",
   "theorems": [
    "C98_window",
    "C98_places",
    "C98_alone",
    "C98_double"
   ],
   "note": ""
  },
  {
   "property": "C99",
   "status": "proved",
   "theorems": [
    "C99_segments",
    "C99_opens",
    "C99_properties",
    "C99_lengths",
    "C99_reads",
    "C99_own_lists",
    "C99_no_channels",
    "C99_loses",
    "C99_written",
    "C99_any_file_refuted"
   ],
   "note": "C99_any_file_refuted shows a file outside the condition: its first segment continues a list of channels."
  },
  {
   "property": "C100",
   "status": "proved",
   "theorems": [
    "C100_copy",
    "C100_listed",
    "C100_normal",
    "C100_program"
   ],
   "note": "Channels of strings, extended floats and timestamps are outside the claim: reading or writing them is broken (findings)."
  },
  {
   "property": "C101",
   "status": "proved",
   "theorems": [
    "C101_exactly",
    "C101_swap",
    "C101_byte_order"
   ],
   "note": "Programs of calls as in C40/C83 (each kept), channels of fixed-size types."
  },
  {
   "property": "C102",
   "status": "proved",
   "theorems": [
    "C102_exact",
    "C102_shadowed",
    "C102_last",
    "C102_from_start",
    "C102_other_starts",
    "C102_longer_first"
   ],
   "note": "Extends C65 to lists with repetitions, which C30 leaves out; blocks without incomplete chunks, as in C65."
  },
  {
   "property": "C103",
   "status": "proved",
   "theorems": [
    "C103_open",
    "C103_stream",
    "C103_read",
    "C103_read_single",
    "C103_length",
    "C103_write",
    "C103_program",
    "C103_profiles",
    "C103_limits_show"
   ],
   "note": "Two environments at once; C103_limits_show gives a witness for each kind of limit. Opening needs the file to lie within the reach of seeks."
  },
  {
   "property": "C104",
   "status": "proved",
   "theorems": [
    "C104_exactly",
    "C104_opens"
   ],
   "note": "Completes C71, C73 and C82 on truncated files: an exact condition for every cut point."
  },
  {
   "property": "C105",
   "status": "proved",
   "theorems": [
    "C105_exact",
    "C105_together",
    "C105_as_alone",
    "C105_all_times",
    "C105_uneven_refuted",
    "C105_times_alone_refuted"
   ],
   "note": "Completes C30 and C88 on blocks that are not whole or even, as C61, C97 and C98 did for single-channel reads. The two refuted statements show that equal numbers of values and the exception for timestamps are needed."
  },
  {
   "property": "C106",
   "status": "proved",
   "theorems": [
    "C106_segments",
    "C106_open_file",
    "C106_known",
    "C106_values",
    "C106_same_file",
    "C106_beside_writer"
   ],
   "note": "About any bytes appended to any file that opens, also bytes that are part of a segment being written. What further write calls of one session keep was C69."
  },
  {
   "property": "C107",
   "status": "proved",
   "theorems": [
    "C107_opens",
    "C107_refusals",
    "C107_same",
    "C107_short",
    "C107_calls",
    "C107_length_refuted"
   ],
   "note": "Exactly when the counts agree is C107_same; C107_length_refuted is a file for which they do not."
  },
  {
   "property": "C108",
   "status": "proved",
   "theorems": [
    "C108_blocks",
    "C108_small_files",
    "C108_reads_refuted",
    "C108_overflow_refuted"
   ],
   "note": "The conditions are sufficient ones; C108_reads_refuted and C108_overflow_refuted show files outside them that panic on a 32-bit machine only. Reads as strings are left out."
  },
  {
   "property": "C109",
   "status": "proved",
   "theorems": [
    "C109_no_panic",
    "C109_exactly",
    "C109_alone",
    "C109_taken_for",
    "C109_big",
    "C109_little",
    "C109_format_refuted"
   ],
   "note": "C109_format_refuted: files with strings as the format prescribes do not open, or lose the properties and the strings."
  },
  {
   "property": "C110",
   "status": "proved",
   "theorems": [
    "C110_exact",
    "C110_shadowed",
    "C110_last",
    "C110_in_step",
    "C110_distinct"
   ],
   "note": "Covers C102 and C105 at once: repetitions and blocks of any make-up. C102_other_starts and C102_longer_first show that the conditions of C110_last are needed."
  },
  {
   "property": "C111",
   "status": "proved",
   "theorems": [
    "C111_window",
    "C111_succeeds",
    "C111_whole",
    "C111_lost_end"
   ],
   "note": "Covers C81 and C98 at once for non-empty buffers: blocks of any make-up, with data missing or not. That the place behind the window matters is shown by C81_sample_present_refuted and C111_case."
  },
  {
   "property": "C112",
   "status": "proved",
   "theorems": [
    "C112_same_or_end",
    "C112_after_all",
    "C112_not_the_end",
    "C112_prefix",
    "C112_one",
    "C112_slots_refuted"
   ],
   "note": "C112_slots_refuted shows why the buffers are compared block by block: with channels of different lengths the blocks of the longer file write over one another, so a place can hold a value that is neither the old one nor the final one."
  },
  {
   "property": "C113",
   "status": "proved",
   "theorems": [
    "C113_first_parts"
   ],
   "note": "C112_slots_refuted shows that channels that do not stay in step can end with other values in the buffers."
  },
  {
   "property": "C114",
   "status": "proved",
   "theorems": [
    "C114_arrived",
    "C114_succeeds",
    "C114_whole"
   ],
   "note": "Makes the number of samples in C113 exact. C114_whole: with complete data these are all samples of C28. The result code is that of C113: success, or an unexpected end of file."
  },
  {
   "property": "C115",
   "status": "proved",
   "theorems": [
    "C115_succeeds",
    "C115_singly"
   ],
   "note": "The result code that C113 and C114 leave open, for channels in the same blocks with equal buffers. Empty buffers and the other ways of staying in step are not covered here."
  },
  {
   "property": "C116",
   "status": "proved",
   "theorems": [
    "C116_one",
    "C116_empty",
    "C116_values",
    "C116_result"
   ],
   "note": "C116_one holds for every file and channel. That the equal lengths in C116_result are needed is shown by C118_uneven_refuted."
  },
  {
   "property": "C117",
   "status": "proved",
   "theorems": [
    "C117_all",
    "C117_singly"
   ],
   "note": "The result code of C113 and C114 for the second way of staying in step (from the start, with room for all)."
  },
  {
   "property": "C118",
   "status": "proved",
   "theorems": [
    "C118_rows",
    "C118_uneven_refuted"
   ],
   "note": "The result code of C113 and C114 for the third way of staying in step (interleaved blocks), for channels in the same blocks. What the buffers get is C114."
  },
  {
   "property": "C119",
   "status": "proved",
   "theorems": [
    "C119_rows",
    "C119_singly"
   ],
   "note": "C118 for reads from the start without the condition that the channels are in the same blocks. What the buffers get is C114."
  }
 ]
}
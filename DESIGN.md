# Formal model of tedium (TDMS reader/writer)

Target: `/repo` (WiresmithTech/tedium, pinned commit). The code is only read; nothing in `/repo` is built or run.
Prover: Rocq/Coq 8.16.1, standard library only.

## Layout (`rocq/theories`)

Model. Every definition carries a comment naming the file and lines it models, and any simplification.

| file | models | source |
|---|---|---|
| `Base.v` | results with explicit panics, environment, machine arithmetic, bytes | Rust core/std |
| `Utf8.v` | `String::from_utf8` acceptance | std |
| `DataTypes.v` | type codes, sizes, element types and their wire format | src/io/data_types/* |
| `Paths.v` | object paths | src/paths.rs |
| `MetaData.v` | ToC, properties, raw-data index, objects, metadata, segments (read and write) | src/meta_data.rs, src/properties.rs, src/io/reader.rs, src/io/writer.rs |
| `Maps.v` | ordered maps keyed by strings | std BTreeMap |
| `DataBlock.v` | blocks of a segment, chunk sizes | src/raw_data/mod.rs |
| `Index.v` | index building, queries, write checks | src/index/* |
| `RawData.v` | record plans, contiguous and interleaved readers, write blocks | src/raw_data/* |
| `ChannelReader.v` | read planning and execution | src/file/channel_reader.rs |
| `TdmsFile.v` | open, queries, listing, writer | src/file/mod.rs, src/file/file_writer.rs |
| `WriterIO.v` | the writer again, through `BufWriter` onto a device that accepts any number of bytes per call and may fail | src/io/writer.rs, src/file/file_writer.rs, std BufWriter |
| `ReaderIO.v` | opening and all readers again as programs of stream operations, run through `BufReader` on a device that returns any number of bytes per call and may fail | src/io/reader.rs, src/meta_data.rs, src/raw_data/*, src/file/mod.rs, src/file/channel_reader.rs, std BufReader, `read_exact` |
| `Disk.v` | `TdmsFile::load` and `TdmsFile::create` on a map from paths to contents | src/file/mod.rs |
| `Display.v` | text of errors, types, layouts and paths; dates as property values | src/error.rs, src/io/data_types/mod.rs, src/raw_data/mod.rs, src/paths.rs, src/properties.rs |

Specifications are small and do not use the model's helpers: `SpecCodec.v` (well-formed values, UTF-8 by code points),
`SpecIndex.v` (what a list of segments means: active list, formats, properties, blocks), `SpecSession.v` (sessions of opening and writing, in which the bytes of the file may change without the index knowing),
`SpecPaths.v` (path grammar), `SpecRead.v` (where sample k of channel i lies, and the samples of a channel),
`SpecWrite.v` (programs of writer calls and the samples they should store), `SpecLocal.v` (which bytes a read may look at),
`SpecIO.v` (programs on a buffered writer, reliable devices), `SpecReadIO.v` (the same for reading), `SpecUneven.v` (where reads of uneven blocks start),
`SpecCost.v` (operations allowed for opening and for a block), `SpecDisk.v` (visits to files and the calls made on a file), `SpecMulti.v` (what reads of several channels deliver, on sample columns), `SpecVerdict.v` (the first defect of a segment after given segments), `SpecGrammar.v` (the bytes of a segment as a grammar), `SpecWritten.v` (the bytes each write call appends), `SpecStore.v` (the answers of a plain store to a program of operations), `SpecExact.v` (when a data call is served), `SpecCutFile.v` (which samples of a shortened file are present), `SpecAppend.v` (room for a call on any file), `SpecKept.v` (programs that keep everything),
`SpecCrash.v` (values that have reached a cut file),
`SpecLasting.v` (programs that can be closed at any time),
`SpecPanic.v` (blocks whose reads divide by zero),
`SpecBulk.v` (formats held by the index), `SpecLookups.v` (comparisons of paths),
`SpecNames.v` (names with slashes), `SpecTidy.v` (files whose parts do not overlap),
`SpecFailing.v` (what a failing device makes of a file),
`SpecListing.v` (which channels a group lists),
`SpecSource.v` (which samples a read of several channels takes, by number),
`SpecExtent.v` (how many samples a read takes from a block),
`SpecSeen.v` (where a read looks for samples beside channels of any type),
`SpecJoin.v` (what two files one behind the other hold),
`SpecCopy.v` (a program that copies a file),
`SpecSame.v` (which programs say the same),
`SpecRepeat.v` (reads that ask for a channel more than once),
`SpecLimits.v` (what limits of the environment can change),
`SpecBegin.v` (the beginnings of a file),
`SpecMixed.v` (reads of several channels from blocks of any make-up),
`SpecWidth.v` (machines with a narrower usize),
`SpecStrings.v` (sizes reads reckon with; string channels of the format),
`SpecDealt.v` (repeated channels in blocks of any make-up),
`SpecReach.v` (places a read of one channel looks at),
`SpecShort.v` (buffers after part of a read),
`SpecShortStep.v` (reads that stay in step),
`SpecArrive.v` (samples whose bytes are in the file, places a read looks at), `SpecRowsAny.v` (samples in earlier blocks, rows that the buffers have room for).

`Vectors.v` checks the model against byte sequences taken from the tests in /repo, and `Vectors_Unit.v` replays the remaining unit tests of /repo's src (all but those of chrono conversions and one that /repo ignores). `Vectors_TestFile.v` runs the integration tests of /repo on segments of
their test file, which LabVIEW wrote (`TestFile.v`); the whole file was also opened with the model once, outside this directory. `Prims.v` compares the machine arithmetic and the stream moves of `Base.v` with their definitions, for all operands. `Lib.v` and `*_proofs.v` hold lemmas.
`Thm_*.v` hold the claims. Beside each theorem is an `Example` named `Cnn_case…` showing a concrete case that meets its
hypotheses, and each file ends with `Print Assumptions` for its theorems.

Naming: `Cnn_…` is proved as stated in `properties.jsonl` (possibly split into several theorems); `…_partial` needs hypotheses beyond
the property, named in MANIFEST.json and in the comment above it; `…_refuted` shows by a computed witness that the
property (or the part it names) is false of the code.

## Modelling decisions

* A byte is Coq's `Byte.byte`; a Rust `String` is its UTF-8 bytes; `u64`/`usize` are `N`, `i64` is `Z`; 64-bit `usize` is assumed, except in `Width.v`, where opening, writing and reading are modelled for a `usize` of any width (C107, C108).
* Every fallible function returns `Ok a | Err e | Panic p | Diverge`. `Panic` is an explicit outcome of
  `expect`, slicing, indexing, division by zero, `assert!`, `unreachable!` and, when overflow checks are on, arithmetic overflow.
  `Diverge` is running out of fuel in a loop whose bound is not syntactically evident; theorems exclude it.
* `env` is a parameter of every theorem: whether overflow checks are compiled in (debug or release), which `try_reserve`s succeed,
  and the largest offset the stream can seek to (2^64-1 for a Cursor, 2^63-1 for a File).
* Floats are bit patterns. `LVTime` (external crate) is an opaque 128-bit value with `to/from_{le,be}_bytes`.
* In `MetaData.v` … `TdmsFile.v` the stream is a byte list and buffering is transparent. `WriterIO.v` drops this
  assumption for writing, `ReaderIO.v` for reading, and C53–C60 relate the two.

## Properties

| id | status | how proved | theorems | missing or note |
|---|---|---|---|---|
| C01 Values survive a write/read cycle in both byte orders | proved | case analysis per element type; induction on the number of bytes for integers | `C01_value_round_trip`, `C01_extended_overflow_refuted` | Holds for every storable value; an ExtendedRaw value of 2^80 or more loses its upper bits (refuted part). |
| C02 Reported size equals bytes written | proved | length of the written bytes equals the reported size, induction over properties and objects | `C02_sizes` |  |
| C03 String encoding accepts exactly valid UTF-8 | proved | exact characterisation (iff) of the string reader; UTF-8 acceptance is shown equal to the definition by code points (`utf8_valid_iff`) | `C03_strings` | Includes that the length prefix wraps modulo 2^32. |
| C04 ToC flags are independent and reversible | proved | bit-level reasoning over all words | `C04_toc` |  |
| C05 Type codes are a bijection and unknown codes are refused | proved | case analysis on types, decision over all codes | `C05_type_codes` |  |
| C06 Property values survive a write/read cycle | proved | case analysis over property types, on top of C01 | `C06_property_round_trip` | Extended values of 2^80 or more and strings of 2^32 bytes or more are outside good_pval. |
| C07 Property value conversions are lossless and type-safe | proved | case analysis over all pairs of target type and stored value | `C07_conversions`, `C07_dates` | C07_dates: the conversion between LVTime and chrono of the crate labview-interop is a parameter. |
| C08 Metadata blocks survive a write/read cycle | proved | induction on properties and objects | `C08_metadata_round_trip` |  |
| C09 Segments survive a write/read cycle with correct offsets | proved | composition of C08 with the lead-in arithmetic | `C09_segment_round_trip` |  |
| C10 Metadata-free segments can be read back | partial | refutation by a computed witness; the exact condition under which it does work | `C10_never_read_back_refuted`, `C10_metadata_free_partial` | The full statement is false of the code: the reader parses the raw data as metadata. Proved: exact behaviour, and the case where the raw data starts with four zero bytes. |
| C11 Opening any byte sequence terminates without panicking | proved | invariant over the segment loop, fuel bound by the file length; refutation with overflow checks on | `C11_open_total`, `C11_release_never_panics`, `C11_overflow_checks_refuted` | With overflow checks a raw data offset near 2^64 panics (DataBlock::from_segment adds unchecked); exhibited. |
| C12 Opening cost is bounded by file size | proved | measure on segment starts | `C12_iterations`, `C12_segment_starts` |  |
| C13 Only TDSm-tagged segments are accepted; short tails are ignored | proved | case analysis at the loop head | `C13_empty`, `C13_tails` |  |
| C14 Segment metadata is interpreted incrementally as TDMS prescribes | proved | refinement of `add_segment` to the functional specification of the active list (`SpecIndex.v`), induction over histories | `C14_open_is_session`, `C14_incremental` | An object with "no raw data" does not leave the list of active channels: as the statement says, but unlike the TDMS format description. |
| C15 Last property write wins | proved | induction over histories | `C15_last_write_wins`, `C15_write_is_last` |  |
| C16 Reading properties distinguishes missing object from missing property | proved | induction over histories | `C16_missing`, `C16_read_all` |  |
| C17 'Same as previous' without a previous format is an error | proved | induction over histories | `C17_no_previous_type`, `C17_open` |  |
| C18 Every recorded sample location is valid | proved | index invariant preserved by every step, also failing ones | `C18_locations_valid`, `C18_sessions` |  |
| C19 Channel length is the number of samples of all its segments | proved | induction over histories; refutation when the sum of lengths leaves 64 bits | `C19_channel_length`, `C19_no_overflow`, `C19_sum_overflow_refuted` | The proviso (total below 2^64) holds for all types with a size; for zero-sized types the unchecked sum panics or wraps, exhibited. |
| C20 Sizes and addresses that do not fit 64 bits are refused | proved | case analysis on 64-bit overflow | `C20_true_addresses`, `C20_refused`, `C20_errors`, `C20_chunk_error` | The start address of a block is added unchecked, see C11; then the segment is refused or the build panics. |
| C21 Path construction and parsing agree | proved | string induction | `C21_build_parse`, `C21_slash_refuted` | Also shown: with a slash in a name the built path does not parse; C92 says what happens instead. |
| C22 Path accessors never panic | partial | string induction | `C22_accessors_partial`, `C22_panics_only_on_lone_quote`, `C22_slash_refuted` | Proved for names without a slash; the full claim is false, names with a slash make the accessors panic or return another name. The strings on which slicing panics are bounded exactly. C92 says what the accessors give for every name. |
| C23 Distinct objects get distinct paths | proved | injectivity of escaping | `C23_distinct` |  |
| C24 Path parsing classifies every string | partial | string induction | `C24_parse`, `C24_channel_path`, `C24_panic_refuted` | The classification is exact for every string; besides the four outcomes of the claim there is a panic on parts consisting of one quote, exhibited and characterised. |
| C25 list_groups is complete, sound, sorted and duplicate-free | partial | ordered-map lemmas | `C25_list_groups`, `C25_panics_iff`, `C25_slash_refuted` | Proved whenever no stored path has a lone-quote part; otherwise the call panics (equivalence proved). |
| C26 list_channels_in_group returns exactly the group's channels | partial | ordered-map lemmas (prefix ranges) | `C26_by_prefix`, `C26_list_channels`, `C26_constructed_canonical`, `C26_foreign_refuted` | Proved for files whose paths have the form the library writes and group names without slash; refuted beyond. C95 says exactly which files have the property. |
| C27 Listed channels can be looked up | partial | ordered-map lemmas | `C27_resolvable`, `C27_foreign_refuted` | Proved for files whose paths have the form the library writes; refuted for foreign paths with inner quotes. C95 says exactly which files have the property. |
| C28 Single-channel reads return the requested window of samples | proved | one lemma per layout for a block (`Block_proofs.v`), plan projection, loop invariant over the plan | `C28_window`, `C28_uneven_refuted` | For the stated quantifier. Also shown: with unequal channel lengths in a contiguous block a read from a start position returns other samples. |
| C29 Windowed reads compose | proved | from C28 by list reasoning | `C29_compose`, `C29_read_channel`, `C29_past_end` |  |
| C30 Multi-channel reads agree with single-channel reads | partial | as C28 with several requests; refutations for the misaligned cases | `C30_undisturbed_partial`, `C30_aligned_partial`, `C30_whole_channels_partial`, `C30_interleaved_partial`, `C30_lengths_refuted`, `C30_unaligned_refuted`, `C30_start_refuted`, `C30_duplicate_refuted` | The full claim is false (four kinds of counterexample). Proved: channels in the same blocks with equal buffers from any start; whole channels from the start into large enough buffers; interleaved data with any buffers from the start or for channels in the same blocks; and C30_undisturbed_partial, which asks one of these conditions of each shared block only. C96 says exactly when it holds. |
| C31 A read plan visits each needed block once, in order | proved | projection of the k-way merge to each channel | `C31_plan` |  |
| C32 Reading with the wrong type is refused | proved | case analysis | `C32_wrong_type`, `C32_wrong_type_multi` |  |
| C33 Reading an unknown channel is refused | proved | case analysis | `C33_unknown_channel`, `C33_unknown_single`, `C33_known` |  |
| C34 Reads never panic on opened files | partial | invariant of the block readers (`Safe_proofs.v`); refutations for zero lengths, strings and huge blocks | `C34_no_panic_partial`, `C34_no_panic_single_partial`, `C34_zero_first_refuted`, `C34_huge_refuted`, `C34_string_refuted` | Proved for every element type but strings and channels whose samples are held by blocks that have bounded sizes and, if contiguous, start with a non-empty channel; each restriction is shown necessary by a file that panics. C88 has the exact condition on channels, and C109 for every element type, strings included. |
| C35 Reads stay inside the data block they are reading | proved | locality: the reader looks only at the bytes of its own samples | `C35_inside`, `C35_disjoint`, `C35_only_own_data`, `C35_reads` |  |
| C36 Reported length and readable samples agree | partial | counting lemma on the specification of the samples, combined with C28 | `C36_samples_count`, `C36_length_readable`, `C36_timestamp_refuted`, `C36_beside_timestamp_refuted`, `C36_partial_chunk_refuted` | Proved for fixed-size types and whole chunks; false for timestamps and for interleaved data with an incomplete last chunk, exhibited. C97 says exactly which files of fixed-size values have the property. C98 describes reads of timestamps and beside timestamps. |
| C37 Writing only appends | proved | list reasoning | `C37_only_appends`, `C37_one_segment`, `C37_properties_segment` |  |
| C38 Rejected arguments have no effect | proved | list reasoning | `C38_no_channels`, `C38_bad_length`, `C38_only_these` |  |
| C39 A failed write leaves the file usable | partial | from the step lemma of C40; refutation for empty values | `C39_refused_arguments`, `C39_good_calls_succeed_partial`, `C39_no_values_refuted`, `C39_outcome`, `C39_no_values_always` | Refused arguments leave the file as it was, and calls with fixed-size values that describe their channels succeed. False for an empty list of values: the call fails after writing a segment that makes the file impossible to open. These are all the outcomes as long as the formats of the current channels are of fixed size, and every call without values breaks the file. |
| C40 Written samples can be read back in the same session | partial | abstraction relation between index+bytes and per-channel sample lists, induction over programs | `C40_program_partial`, `C40_fresh_file_partial`, `C40_extra_channel_refuted` | Proved for every program of calls in which no data call continues the channel list of the previous one unless it has the same channels and type and a number of values its format can take (equal, or a multiple if interleaved or for one channel); false otherwise, C77 has the exact condition for a call and C83 for programs, exhibited. |
| C41 Re-opening a written file gives the same file | partial | parse of serialise is the identity per segment, induction over the segments | `C41_reopened_partial`, `C41_reopened_after_append_partial`, `C41_repeated_write_refuted`, `C41_injected_refuted` | Proved for programs in which every call that leaves out its metadata has data starting with four zero bytes; for other such calls the claim is false: the file no longer opens, or its data are taken for metadata, both exhibited; C80 has the exact condition for a call and C87 for programs. |
| C42 Repeated writes to the same channels are all kept | partial | as C40, for repeated calls; refutations | `C42_repeated_partial`, `C42_count_refuted`, `C42_type_refuted` | Proved for one type and counts equal to the first (or multiples of it if interleaved or for one channel); false otherwise, exhibited; C77 and C83 have the exact condition. |
| C43 Writing a different set of channels does not corrupt others | partial | as C40, frame property | `C43_others_unchanged_partial`, `C43_shorter_list_refuted` | Proved for calls that describe their channels or repeat the previous call; false for a call naming the first of several active channels, exhibited; C84 has the exact lengths after every call. |
| C44 Written properties can be read back in session and after re-opening | partial | as C40 and C41 | `C44_in_session`, `C44_data_unchanged`, `C44_reopened_partial` | In session: all states and property lists. After re-opening: for files that re-open as themselves before the call (C41 says which). |
| C45 All element types accepted for writing can be read back | partial | as C40 per element type; refutations | `C45_fixed_types_partial`, `C45_timestamp_refuted`, `C45_extended_refuted`, `C45_string_refuted` | Proved for all types of fixed natural size; false for timestamps, extended floats and strings, exhibited; C85 shows these three to be the only exceptions and what they do. C98 says what reads of timestamps give. |
| C46 A crash during a write loses only that write | partial | case analysis on the cut position, from the parser lemmas | `C46_cut_partial`, `C46_earlier_samples_survive_partial`, `C46_length_of_cut_data_refuted` | Every cut position of a call that carries metadata (or whose data start with four zero bytes). Missing: calls that leave out metadata before other data, for which even the complete file may not open (C41). A cut inside the data leaves the announced length, exhibited; C86 says which values are then given back, C89 what holds for any moment of a whole program. |
| C47 Appending after opening is consistent | partial | as C41; refutation for truncated tails | `C47_stays_at_end`, `C47_open_append_partial`, `C47_trailing_bytes_refuted`, `C47_cut_short_refuted` | Proved for files that end with their last segment; false for the other files that open, exhibited; C82 has the exact condition. |
| C48 Data layout deals values to channels as documented | proved | index arithmetic over both layouts | `C48_positions`, `C48_regroup`, `C48_read_back` |  |
| C49 Byte order is per segment | proved | as C40 with either byte order per block | `C49_block_order`, `C49_metadata_order`, `C49_mixed_orders_partial`, `C28_window` | Byte order of each block and of metadata; that samples are decoded with the block order is part of the sample specification in C28_window. |
| C50 Raw data content does not influence the structure of the file | proved | congruence of opening: only metadata bytes matter | `C50_exact`, `C50_structure`, `C50_no_metadata_refuted` | Also exhibited: without metadata the data do matter. |
| C51 A read needs only the data it covers | proved | locality of reads in a whole file | `C51_reads_are_local` |  |
| C52 Exactly which files open | proved | exact characterisation of opening | `C52_open_iff`, `C52_segments_determine_index` |  |
| C53 Buffering does not change what is written | proved | refinement of the buffered writer to plain appending, induction over programs | `C53_buffering_transparent` |  |
| C54 A successful sync puts everything on the device | proved | the same invariant without the assumption that the device is reliable; refutation | `C54_synced`, `C54_stays`, `C54_unsynced_refuted` | Also exhibited: without a sync, dropping the writer loses acknowledged writes silently. |
| C55 A failing device receives only a beginning of the segment | partial | prefix invariant per call, then C46 | `C55_only_a_prefix`, `C55_reopen_partial` | The prefix property is proved in full; the re-opening part for the calls covered by C46. |
| C56 A call refused by the device leaves the session consistent | partial | case analysis; refutation | `C56_index_unchanged_partial`, `C56_next_write_refuted` | The index is unchanged; that later acknowledged writes can be read back is refuted. C94 says exactly when they can. |
| C57 Buffering does not change what is read | proved | simulation between `BufReader` over a device and a position in a byte list, for every client program (induction over the program) | `C57_open`, `C57_read_channels`, `C57_read_channel` |  |
| C58 A read during which the device fails reports it | proved | the same simulation up to the first failure of the device; every client program passes the failure on (induction over the readers) | `C58_read_channels`, `C58_read_channel` |  |
| C59 Opening on a failing device reports the failure | partial | loop invariant of the opening loop under failures; refutation for a failing seek | `C59_open_partial`, `C59_seeks_work`, `C59_swallowed_refuted` | Proved for devices whose seeks do not fail, and exactly characterised otherwise; the full statement is refuted (a failing seek is swallowed). |
| C60 A failed read of a channel leaves only right values | proved | what a read leaves when cut at any operation, induction over the readers and the plan | `C60_prefix` |  |
| C61 Reads of blocks whose channels have different numbers of values | proved | the contiguous loop for entries of any lengths, then a loop invariant over the plan of one channel | `C61_uneven_window`, `C61_straight`, `C61_block_start`, `C61_from_zero`, `C61_even_block`, `C61_count` |  |
| C62 Opening takes work bounded by the size of the file | proved | operations charged to the bytes consumed (one per byte and one failing), then an induction over the segments; runs on failing devices are no longer than faultless ones | `C62_opening` |  |
| C63 Reading takes work bounded by the size of the file and of the buffers | partial | amortised bound (potential: room left in the buffers) and a lower bound, both over all answers of the stream; the refutation runs the loop by induction | `C63_budget_partial`, `C63_budget_single_partial`, `C63_in_file_partial`, `C63_every_chunk`, `C63_small_file_refuted` | Bounds proved in terms of declared block lengths, and of the file size when the blocks lie in the file; the unconditional statement is refuted. |
| C64 Closing a file and loading it again makes no difference | partial | induction over the visits from the last one; each load returns the file of the session so far by C41 | `C64_lifetime_partial`, `C64_samples_partial`, `C64_create_load`, `C64_two_visits_refuted` | Proved for the calls of C41; the full statement is refuted (repeated writes leave out their metadata and the file does not load again). |
| C65 What a read of several channels delivers, exactly | proved | the block readers on sample columns with one skip per channel, then an invariant over the blocks relating the running plan to the specification | `C65_exact`, `C65_own_samples` |  |
| C66 The order in which channels are requested does not matter | partial | from C65: with no skips the specification does not depend on the order of the requests | `C66_order_partial`, `C66_order_refuted` | Proved for reads from the start of the channels; refuted for reads from a later sample. C96 says exactly when it holds. |
| C67 Opening a file asks for memory in proportion to its size | partial | the parsers succeed under any allocator that grants what the bytes they consume account for | `C67_opened_partial`, `C67_any_partial`, `C67_small_file_refuted` | The buffers asked for while parsing; the index itself is in C90. Proved for files that open; for files that are refused only the bound 2^32 holds and the proportional one is refuted. |
| C68 Every string handed out is valid UTF-8 | proved | a valid string can be cut at an ASCII character; the parsers only return checked strings, and the index only holds what they returned | `C68_built`, `C68_parts`, `C68_opened` |  |
| C69 Later calls never change what was read | proved | successful block reads do not see appended bytes; the index only grows; the plan of longer lists of locations starts with the old plan | `C69_values_stay`, `C69_several`, `C69_properties` |  |
| C70 A failed read of several channels leaves only values of the right channel | proved | an interrupted read gives every request a beginning of what the faultless block read gives it; induction over the plan with C65 per block | `C70_own_samples` |  |
| C71 Each refusal names the first defect | proved | the index description (C14) turns each test of add_segment into a condition on the history; opening by induction on the scan, the converse by running the scan over the accepted segments | `C71_verdict`, `C71_error`, `C71_panic`, `C71_opens`, `C71_write` |  |
| C72 Exactly the bytes of the grammar are read as a segment | proved | each parser of the model is shown to accept exactly its relation of the grammar, by combinators for sequence, choice and counted lists; the counted lists by induction on the count | `C72_grammar`, `C72_unambiguous`, `C72_cut` |  |
| C73 Exactly which bytes are written | proved | each writing function is shown to produce its relation of the written form; the choice of formats through the index description (C14); uniqueness of the bytes by structure | `C73_data`, `C73_properties`, `C73_fixed`, `C73_public` | Extended floats and strings: the samples are as described, but the announced length is not their size (findings 6 and 7). |
| C74 An error message tells the kind of error and its details | proved | the kind by recognising the beginning of each message; the details by injectivity of number formats and splitting at separators that cannot occur before | `C74_messages`, `C74_tags`, `C74_types` |  |
| C75 The library answers like a plain store | partial | refinement: induction over the program with the invariant that the file is the one the accepted calls produce; each answer from C14, C16, C19, C25, C26, C28, C30, C32, C33, C38, C40 and C41 | `C75_store_partial`, `C75_no_trace_partial`, `C75_opened_store_partial`, `C75_opened_no_trace_partial`, `C75_store_refuted` | Proved, for new files and for all existing files that end with their last segment, for programs that avoid findings 1 to 3: data calls do not continue the channels of the call before, or have the same channels and type and a number of values its format can take, and before closing every call can be read back. Refuted for programs in general. |
| C76 The parts of a file do not overlap | partial | induction over the calls, each appending the three parts announced in its lead-in; counterexamples by computation | `C76_written_partial`, `C76_data_in_metadata_refuted`, `C76_segment_in_metadata_refuted` | Proved for files made by write calls with elements of fixed size; refuted for other files, whose offsets are not compared with the end of the metadata (finding 21). C93 says exactly which files have the property. |
| C77 Exactly which data calls are served | proved | sufficient: the step lemma of C40. Necessary: in a continuing call the gains of all current channels are their formats times the number of chunks, so equal gains force the same list and counts; a read of the first new value fails for another type; a call with one differing value tells contiguous chunks apart | `C77_only_if`, `C77_exactly` | For sessions whose current channels have fixed-size formats, in which the channels of the call hold only values of its type so far, while the file is below 2^63 bytes and within what the stream can seek. The values dealt are compared through every read request. |
| C78 Type codes are those of the TDMS format | partial | case analysis over the list of the format description; refutation by computation | `C78_codes_partial`, `C78_unit_codes_refuted` | Proved for all types but the double and the extended float with unit; false for these two: 0x1A and 0x1B in the format, 12 and 13 in the code. |
| C79 DAQmx data is refused as such | partial | the round trip lemmas of C08 up to the DAQmx object; refutation by computation | `C79_refused_partial`, `C79_little_endian_refuted` | Proved for index words 0x69120000 to 0x6913FFFF in the byte order of the segment. The format gives the bytes 69 12 00 00, which are another number in a little endian segment, and the flag is not looked at: such a file is opened, exhibited. |
| C80 Exactly which data calls survive closing and opening | proved | the re-opening lemma of C37 for the calls with metadata; for the others, data of bytes 0xff (or 1 for booleans), which is never metadata | `C80_exactly`, `C80_lost` | On files whose current formats are of fixed size, for arguments the format can hold. For a continuing call there are values with which the call returns Ok and the file no longer opens. |
| C81 What a read of a file with missing data delivers | proved | exact outcome of every reading loop over sample addresses, with movement lemmas that do not look at the file; induction over the locations of the channel | `C81_cut_reads`, `C81_contiguous`, `C81_whole`, `C81_lost_end`, `C81_sample_present_refuted` | Reads of one channel. Against the same file when it was whole: a prefix of the window, and an error if it is shorter. That every read whose samples are present succeeds is refuted for interleaved data (finding 24). |
| C82 Exactly which files can be appended to | proved | C77 without its assumption on the end of the file; the first (last) sample of the new block read with C81 at the place the index computes, which lies before the new data (beyond the end of the file); two values that differ in the first byte | `C82_exactly`, `C82_needs_end`, `C82_cut_short`, `C82_trailing` | For formats of fixed size and files that can be addressed; the equivalence for channels whose earlier data are all there and of the type written, the need for an exact end without that. |
| C83 Exactly which programs keep everything they write | proved | if: the program induction of C40 on every prefix. Only if: induction over the program; at each call C77 turns being kept for all values into a described call, which is then the step of the sequence; other values give the same index and a file of the same length, so one room condition is enough | `C83_exactly`, `C83_new_file` | For element types of fixed size and files that can be addressed; the state before the program: current formats all of one size and type (a new file has none), all earlier data there. |
| C84 The lengths of all channels after any data call | proved | the segment a call writes (C73), the active list after it (C14), and the length law of C19; the equivalence for other channels from the gain of the first current channel left out | `C84_lengths`, `C84_others_exactly` | For formats of fixed size with at least one value (DAQmx and strings excluded), lengths below 2^63, files that can be addressed; no assumption on the end of the file or on the data in it. |
| C85 Exactly which element types can be written | proved | the segment written for any element type (C73 without the size assumption), the length law of C19, and C82/C77 for the types of fixed size | `C85_exactly`, `C85_gains`, `C85_extended_short` | Calls that do not continue the channel list; the equivalence on files that end where the index says, whose earlier data are of the type written. |
| C86 After a crash in the data of a call exactly the values that had arrived are given back | proved | the reopening of C46, the exact reads of C81 on the cut file, the places of the new block, and a count of the values whose last byte is before the cut | `C86_cut_call` | Calls that do not continue the channel list, on a file as opened that ends where its index says; element types of fixed size; buffers that reach the end of the channel. Cuts in the head of the call: C46. |
| C87 Exactly which programs leave a file that can be closed at any time | proved | one direction by induction over the program with C41 (and C83 for the samples), the other from the values of C80 with which a continuing call makes the file impossible to open | `C87_exactly`, `C87_opens`, `C87_new_file`, `C87_dependable` | For proper arguments that the format can hold and files that can be addressed; from an existing file, the current formats are of fixed size and the file ends where its index says. |
| C88 Exactly which channels can make a read panic | proved | one direction from C34; the other by following the plan of a read that starts on the first sample of the location, down to the division | `C88_exactly`, `C88_panics` | For blocks whose start can be sought and whose sizes, times the size of a row with overflow checks, are representable; C34 shows a file beyond that. |
| C89 What a crash at any moment of a program leaves | proved | the state midway through the program is one that opens as it is (C87), then C46 for the call that is cut | `C89_crash`, `C89_positions`, `C89_kept` | For programs whose data calls never continue the channel list, which C87 shows to be those that can be closed at any time. |
| C90 The index takes memory in proportion to the file | partial | the blocks are those of the history (C14); a one byte segment without objects keeps the active list (add_segment_ok) and is found again on opening (reopen_one); 2^L channels named by the words of L letters | `C90_bound_partial`, `C90_each_segment`, `C90_family`, `C90_proportional_refuted` | Proved: at most the number of segments times the number of objects in the metadata. The proportional bound is refuted: 33 bytes appended to any file add a format for each active channel. |
| C91 How many paths are compared on opening | proved | an instrumented add_objects, equal to the model in its results; induction over objects and segments | `C91_counted`, `C91_bound`, `C91_different`, `C91_family`, `C91_proportional_refuted` |  |
| C92 What the accessors give for names with slashes | proved | induction over the names of the path; a name is split at its slashes into pieces, of which only a lone quote panics (C22) | `C92_accessors`, `C92_determined`, `C92_exactly`, `C92_wrong_name`, `C92_parse` |  |
| C93 Which files have no byte with two meanings | proved | the parts lie in the order of the segments; block lengths from add_segment_spec, places from C20 | `C93_exactly`, `C93_data_apart` |  |
| C94 When a session can go on after the device has failed | proved | induction over the operations with the specifications of the buffered writer (C53); sessions admit any change of the bytes behind the back of the index, so C82 applies to the file that results | `C94_runs`, `C94_session`, `C94_end`, `C94_exactly` |  |
| C95 Exactly the files whose channels are listed by group | proved | ordered-map lemmas (prefix ranges) and the normal form of a path under splitting and joining; strict ascent from sortedness of the keys | `C95_panics`, `C95_exactly`, `C95_canonical`, `C95_resolvable` |  |
| C96 Which samples a read of several channels delivers, and exactly when it is right | proved | the exact description of the read (C65) commutes with replacing values by their numbers; two samples of a channel never share bytes (C35, C20), so a file of the same length tells any two numbers apart | `C96_sources`, `C96_right`, `C96_order` |  |
| C97 What a read gives when the data of a block are not whole chunks | proved | an interleaved read uses only the whole rows of the data, so the lemma for whole chunks applies; induction over the plan as for C61 | `C97_window`, `C97_count`, `C97_length`, `C97_rest` |  |
| C98 What a read gives whatever the types of the other channels in a block | proved | the entry lemmas hold for any widths of the entries; the entries of a read are related to the widths as the code reckons them; places compared by sums over the channels before and after | `C98_window`, `C98_places`, `C98_alone`, `C98_double` |  |
| C99 Files can be joined end to end | proved | reading a segment behind other bytes reads the same segment; the history of the second file replayed behind that of the first by induction over its segments, with the formats and the channel list that matter agreeing; the converse by building a first file of one segment | `C99_segments`, `C99_opens`, `C99_properties`, `C99_lengths`, `C99_reads`, `C99_own_lists`, `C99_no_channels`, `C99_loses`, `C99_written`, `C99_any_file_refuted` | C99_any_file_refuted shows a file outside the condition: its first segment continues a list of channels. |
| C100 A file can be copied through the library | proved | everything read from an opened file is within the grammar of C72, so it can be written; the calls of the copy are sequenced and restart, so the program and reopening theorems (C40, C41) say what the copy holds; sorted listings with the same members are equal | `C100_copy`, `C100_listed`, `C100_normal`, `C100_program` | Channels of strings, extended floats and timestamps are outside the claim: reading or writing them is broken (findings). |
| C101 Which programs make files with the same contents | proved | both files are described by the program theorem of C40, so their answers are functions of what the calls tell; conversely names, values and samples are read back from the answers, with a buffer as long as the channel | `C101_exactly`, `C101_swap`, `C101_byte_order` | Programs of calls as in C40/C83 (each kept), channels of fixed-size types. |
| C102 What a read gives when a channel is asked for more than once | proved | the requests of a block are reduced to the last one per channel, by showing that set_readable over-writes; each block is then as in C65. An earlier request stays level with the later one until its buffer counts as full, so it always comes again and gets nothing; with equal skips the reduced requests are dealt the same samples | `C102_exact`, `C102_shadowed`, `C102_last`, `C102_from_start`, `C102_other_starts`, `C102_longer_first` | Extends C65 to lists with repetitions, which C30 leaves out; blocks without incomplete chunks, as in C65. |
| C103 What the build profile, the allocator and the stream can change | proved | each modelled function is shown to respect the relation of the specification (the same outcome, or the stricter one at a limit), bottom up from the checked arithmetic, allocations and seeks to whole programs; the index loop needs that a file within reach never seeks out of reach before it ends | `C103_open`, `C103_stream`, `C103_read`, `C103_read_single`, `C103_length`, `C103_write`, `C103_program`, `C103_profiles`, `C103_limits_show` | Two environments at once; C103_limits_show gives a witness for each kind of limit. Opening needs the file to lie within the reach of seeks. |
| C104 Exactly which beginnings of a file open, and as what | proved | the segments of the file are unique, each head is a word of the grammar of C72, and a proper beginning of such a word is refused at the end of the input unless it has fewer than four bytes; induction over the segments | `C104_exactly`, `C104_opens` | Completes C71, C73 and C82 on truncated files: an exact condition for every cut point. |
| C105 Multi-channel reads of blocks of any make-up | proved | the read loops of both layouts for entries of any widths and lengths with any requests, then the execution of the plan as the specification serves the buffers; for channels in step an invariant says that every buffer holds the same number of samples so far | `C105_exact`, `C105_together`, `C105_as_alone`, `C105_all_times`, `C105_uneven_refuted`, `C105_times_alone_refuted` | Completes C30 and C88 on blocks that are not whole or even, as C61, C97 and C98 did for single-channel reads. The two refuted statements show that equal numbers of values and the exception for timestamps are needed. |
| C106 Reading a file that grows | proved | the scan of a file is the scan of its extension stopped earlier, so the index found first is one the later scan passes through; what is known of blocks and locations is kept by every further segment, and reads of known locations do not look beyond the bytes they had | `C106_segments`, `C106_open_file`, `C106_known`, `C106_values`, `C106_same_file`, `C106_beside_writer` | About any bytes appended to any file that opens, also bytes that are part of a segment being written. What further write calls of one session keep was C69. |
| C107 Opening and writing where usize has fewer bits than u64 | proved | the functions that compute with usize are modelled again with the number of values of usize as a parameter; the index of the narrow machine is the other index with the counts of all locations taken anew, through every object, segment and iteration of the scan | `C107_opens`, `C107_refusals`, `C107_same`, `C107_short`, `C107_calls`, `C107_length_refuted` | Exactly when the counts agree is C107_same; C107_length_refuted is a file for which they do not. |
| C108 Reading where usize has fewer bits than u64 | proved | length and size of every entry of a read plan stay as they are while values are read, so all sums of sizes are the same on both machines; then the loops, blocks and plans are equal | `C108_blocks`, `C108_small_files`, `C108_reads_refuted`, `C108_overflow_refuted` | The conditions are sufficient ones; C108_reads_refuted and C108_overflow_refuted show files outside them that panic on a 32-bit machine only. Reads as strings are left out. |
| C109 String channels, and which reads of any type return | proved | invariant of the block readers with the size each value is taken for instead of a factor, so that strings are covered; the halves of the total size are followed through the object parser | `C109_no_panic`, `C109_exactly`, `C109_alone`, `C109_taken_for`, `C109_big`, `C109_little`, `C109_format_refuted` | C109_format_refuted: files with strings as the format prescribes do not open, or lose the properties and the strings. |
| C110 Reads of any channels, repeated or not, from blocks of any make-up | proved | the block lemma of C105 redone over the entries left after repeated requests overwrite each other, as in C102; then the same induction over the read plan | `C110_exact`, `C110_shadowed`, `C110_last`, `C110_in_step`, `C110_distinct` | Covers C102 and C105 at once: repetitions and blocks of any make-up. C102_other_starts and C102_longer_first show that the conditions of C110_last are needed. |
| C111 Whole outcome of reading one channel | proved | the loop lemmas of C81 redone without assuming equal numbers of values or whole chunks, with the reckoned widths of C98; then induction over the read plan | `C111_window`, `C111_succeeds`, `C111_whole`, `C111_lost_end` | Covers C81 and C98 at once for non-empty buffers: blocks of any make-up, with data missing or not. That the place behind the window matters is shown by C81_sample_present_refuted and C111_case. |
| C112 Any read of a file that has lost its end | proved | each decoder gives the same on a longer input or reports the end; a simulation of every reading function on the two files, with the entries of the shorter one behind those of the longer one; induction over the read plan | `C112_same_or_end`, `C112_after_all`, `C112_not_the_end`, `C112_prefix`, `C112_one`, `C112_slots_refuted` | C112_slots_refuted shows why the buffers are compared block by block: with channels of different lengths the blocks of the longer file write over one another, so a place can hold a value that is neither the old one nor the final one. |
| C113 Several channels in step from a file that has lost its end | proved | the simulation of C112 run over a plan in which every block advances all channels by what it writes; C28 for the values | `C113_first_parts` | C112_slots_refuted shows that channels that do not stay in step can end with other values in the buffers. |
| C114 Exactly what several channels in step get from a file that has lost its end | proved | the loop lemmas of C30 redone for a file without its end, giving the values at the places that are left; then induction over the read plan, later blocks lying behind the end | `C114_arrived`, `C114_succeeds`, `C114_whole` | Makes the number of samples in C113 exact. C114_whole: with complete data these are all samples of C28. The result code is that of C113: success, or an unexpected end of file. |
| C115 When channels in the same blocks are read without error from a file that has lost its end | proved | each loop lemma of C114 also says that the loop succeeds iff all places it reads are in the file; then induction over the read plan with equal progress for all channels | `C115_succeeds`, `C115_singly` | The result code that C113 and C114 leave open, for channels in the same blocks with equal buffers. Empty buffers and the other ways of staying in step are not covered here. |
| C116 Reading channels together or singly from a file that has lost its end | proved | from C114 and C115, applied to all channels and to each alone; with no requests a block read does nothing | `C116_one`, `C116_empty`, `C116_values`, `C116_result` | C116_one holds for every file and channel. That the equal lengths in C116_result are needed is shown by C118_uneven_refuted. |
| C117 When channels are read whole without error from a file that has lost its end | proved | as C115, with induction over the plan for buffers that have room for all that is left | `C117_all`, `C117_singly` | The result code of C113 and C114 for the second way of staying in step (from the start, with room for all). |
| C118 Channels with different buffers from interleaved blocks of a file that has lost its end | proved | as C115, with induction over the plan for different progress; the largest room decides how many rows are read | `C118_rows`, `C118_uneven_refuted` | The result code of C113 and C114 for the third way of staying in step (interleaved blocks), for channels in the same blocks. What the buffers get is C114. |
| C119 Channels in different interleaved blocks of a file that has lost its end | proved | as C118, with the number of samples in earlier blocks in place of the common progress; the plan, sorted by block, is compared with the locations | `C119_rows`, `C119_singly` | C118 for reads from the start without the condition that the channels are in the same blocks. What the buffers get is C114. |

## Findings

Behaviour of the code that contradicts a property one would expect. Each has a refutation theorem (in brackets) unless marked as an observation.

1. The writer leaves out the metadata when the active channels match, but the reader always parses metadata: such a file fails to open or opens to something else [`C10_never_read_back_refuted`, `C41_repeated_write_refuted`, `C41_injected_refuted`, `C50_no_metadata_refuted`].
2. `check_write_values` compares only as many channels as the shorter list has, so a call with more or fewer channels may be treated as a repetition [`C40_extra_channel_refuted`, `C43_shorter_list_refuted`].
3. It compares paths only: a different number of values or another element type is also treated as a repetition [`C42_count_refuted`, `C42_type_refuted`].
4. `write_channels` with no values writes a segment and then fails; the file no longer opens [`C39_no_values_refuted`].
5. Timestamps are 16 bytes on disk but count as 8; a channel stored beside one is read from the wrong place [`C36_timestamp_refuted`, `C36_beside_timestamp_refuted`, `C45_timestamp_refuted`].
6. Extended floats are written with 10 bytes but count as 16, and values from 2^80 lose bits [`C45_extended_refuted`, `C01_extended_overflow_refuted`].
7. String channels cannot be written and read back, and reading one can panic [`C45_string_refuted`, `C34_string_refuted`].
8. Reading several channels of contiguous data with different starts or lengths, or the same channel twice, returns wrong samples [`C30_lengths_refuted`, `C30_unaligned_refuted`, `C30_start_refuted`, `C30_duplicate_refuted`]; channels of different length in one contiguous block are read wrongly from a start in the middle [`C28_uneven_refuted`].
9. A block whose first channel has no values makes reading divide by zero [`C34_zero_first_refuted`]; a block of 2^63 bytes or more makes it panic [`C34_huge_refuted`].
10. A trailing partial chunk of interleaved data is read although it is not counted [`C36_partial_chunk_refuted`].
11. Names with `/` and foreign names with single quotes break the path accessors and listings, some with a panic [`C21_slash_refuted`, `C22_slash_refuted`, `C24_panic_refuted`, `C25_slash_refuted`, `C26_foreign_refuted`, `C27_foreign_refuted`].
12. Appending to a file whose last segment is incomplete, or that has trailing bytes, is acknowledged but misplaces the data [`C47_trailing_bytes_refuted`]; a cut inside the data leaves the announced length [`C46_length_of_cut_data_refuted`].
13. Segment offsets near 2^64 panic when overflow checks are on [`C11_overflow_checks_refuted`]; so does `channel_length` when the sum leaves 64 bits [`C19_sum_overflow_refuted`].
14. Dropping a writer ignores device errors, so acknowledged writes can be lost without a trace unless `sync` is called [`C54_unsynced_refuted`].
15. After a call that failed because of the device, later acknowledged writes are misplaced [`C56_next_write_refuted`].
16. Observations: the raw-data-index length is ignored; the extra total size of string channels is not read; an object listed with "no raw data" stays active; strings of 2^32 bytes or more are written with a truncated length (part of C03); `sync` flushes the buffer but does not call fsync.
17. `build_index` takes a failing seek to the next segment for the end of the file: opening succeeds with a shorter index [`C59_swallowed_refuted`].
18. The contiguous readers visit every chunk a segment declares, even after the buffers are full and past the end of the file: reading one value of a 72 byte file can take 10^15 seeks [`C63_small_file_refuted`, `C63_every_chunk`].
19. The skips of a read of several channels are listed in the order of the request but handed out in the order of storage: channels requested in another order get each other's starting positions [`C66_order_refuted`]. No other channel's values are delivered [`C65_own_samples`].
20. Counts in the metadata are handed to the allocator before anything is checked: opening a 32 byte file asks for room for 2^32 - 1 objects [`C67_small_file_refuted`].
21. The offset of the raw data is not compared with the end of the metadata, nor is the start of the next segment: metadata can be read as samples, and the text of a property as a further segment [`C76_data_in_metadata_refuted`, `C76_segment_in_metadata_refuted`].
22. `DoubleFloatWithUnit` and `ExtendedFloatWithUnit` have codes 12 and 13; the format continues from 0x19 with 0x1A and 0x1B. Files with such values do not open [`C78_unit_codes_refuted`].
23. The index words of DAQmx channels are compared as 0x6912.... and 0x6913...., but the bytes 69 12 00 00 of a little endian file are 0x1269: the channel is read as an ordinary one, its scalers as properties, and the DAQmx flag of the segment is ignored [`C79_little_endian_refuted`].
24. Reading interleaved data fetches one value more than was asked for before it stops: on a file that ends behind the requested samples the read delivers all of them and returns UnexpectedEof [`C81_sample_present_refuted`, exactly when: `C81_cut_reads`].
25. Every data block of the index has a copy of the formats of all active channels: 33 bytes at the end of a file add one format per channel, and a file of 1.3 MB makes an index of 268 million formats [`C90_proportional_refuted`].
26. Active objects are found by going through a list: opening a segment with k channels compares k(k-1)/2 paths, 134 million for a file of 0.7 MB [`C91_proportional_refuted`].
27. A crash while a call writes its lead-in or metadata leaves a file that does not open at all, whatever was written before [`C89_crash`].
28. A slash inside a group name makes group_name return the name of the channel and channel_name panic [`C92_wrong_name`].
29. Two timestamp channels of one block are read correctly together, but the second read alone gives wrong values [`C105_times_alone_refuted`].
30. On 32-bit machines the number of chunks of a block is cut off to 32 bits, so `channel_length` reports too few samples for blocks of 2^32 chunks or more [`C107_length_refuted`].
31. On 32-bit machines a block that tells of 2^32 values per chunk opens, but reading it divides by zero; one whose chunk has 2^32 bytes panics by overflow or, without overflow checks, divides by zero [`C108_reads_refuted`, `C108_overflow_refuted`].
32. Files with string channels as the TDMS format prescribes do not open if little endian: the total size of the strings is taken for the number of properties. If big endian they open without the properties and with no strings [`C109_little`, `C109_big`, `C109_format_refuted`].
33. When channels of interleaved data are read together with buffers of different lengths, values of a channel whose buffer is full are still fetched as long as another one has room: on a file without its end the common read may return UnexpectedEof though everything asked for is there and was delivered, and though each channel read alone succeeds [`C118_uneven_refuted`, exactly when: `C118_rows`].

## Mutation testing

`seeded/LOG.jsonl` has one line per attempt: a definition of the model is changed in a scratch copy, everything after it is recompiled,
failing proofs are replaced by `Admitted` there, and `Print Assumptions` tells which claims no longer hold without them.
`failed` lists the statements whose proofs failed, `claims_lost` the theorems of MANIFEST.json that depend on them,
`tightened` what was strengthened as a consequence.

## Trusted base

* Coq's kernel (8.16.1), including `vm_compute`.
* Axioms: none. `Print Assumptions` reports "Closed under the global context" for every theorem named in MANIFEST.json
  (the output is part of the build log). `vcheck` additionally lists the axioms of `Coq.ssr.ssrunder`, which the standard library loads;
  no theorem depends on them.
* The correspondence between the model and the Rust code; each definition cites the lines it models.
* The properties' formulation in `Spec*.v`.
* The semantics given to the parts of std that are used (`BufWriter`, `BTreeMap`, `from_utf8`, integer arithmetic, `try_reserve`).

Modelled: everything under src/ that the public API reaches, except what follows.
Not modelled: OS errors of `TdmsFile::load` and `TdmsFile::create` other than a missing file, the conversion between LVTime and chrono dates (crate labview-interop; a parameter of `date_try_into`), derived Debug text other than that of DataType,
threads, exhaustion of memory in infallible allocations, performance, power loss (only loss of bytes not yet handed to the device is considered), `ErrorKind::Interrupted` (std retries it).

{"id": "C01", "title": "Values survive a write/read cycle in both byte orders", "statement": "For every supported value type (bool, all integer widths, f32/f64 bit patterns, complex, timestamp, 80-bit extended, string), writing a value with a writer of some byte order and reading it back with the reader of the same byte order returns exactly that value and consumes exactly the bytes written, whatever follows them.", "quantifier": "every value of every storage type, both byte orders, every trailing byte sequence", "why_tests_cant": "the value space (2^64, 2^128, all strings) and the trailing context cannot be enumerated", "anchors": ["src/io/data_types/mod.rs: TdmsStorageType", "src/io/data_types/native_numerics.rs", "src/io/data_types/bool.rs", "src/io/data_types/strings.rs", "src/io/data_types/extended.rs", "src/io/data_types/timestamp.rs", "src/io/data_types/complex.rs"]}
{"id": "C02", "title": "Reported size equals bytes written", "statement": "The byte size a value, property, raw-data index, object or whole metadata block reports for itself is exactly the number of bytes its write emits, in both byte orders.", "quantifier": "every value / property / object / metadata block", "why_tests_cant": "segment offsets are computed from reported sizes; one wrong size anywhere shifts everything after it, and the set of metadata blocks is infinite", "anchors": ["src/io/data_types/mod.rs: TdmsStorageType::size", "src/properties.rs: PropertyValue::size", "src/meta_data.rs: size (MetaData, ObjectMetaData, RawDataIndex)"]}
{"id": "C03", "title": "String encoding accepts exactly valid UTF-8", "statement": "Reading a string yields Ok iff the announced number of bytes is present (and allocatable) and they are well-formed UTF-8; the result is those bytes. A string longer than 2^32-1 bytes is written with a truncated length prefix.", "quantifier": "every byte sequence, every length prefix", "why_tests_cant": "needs all byte sequences; the over-long case cannot be executed in a test", "anchors": ["src/io/data_types/strings.rs: read_le, read_be, write_le"]}
{"id": "C04", "title": "ToC flags are independent and reversible", "statement": "Decoding the encoded table-of-contents word gives back the same six flags for every flag combination; decoding any 32-bit word depends only on bits 1,2,3,5,6,7, and re-encoding clears all other bits.", "quantifier": "every 32-bit word and every flag combination", "why_tests_cant": "2^32 words; tests only sample a few", "anchors": ["src/meta_data.rs: ToC::from_u32, ToC::as_bytes"]}
{"id": "C05", "title": "Type codes are a bijection and unknown codes are refused", "statement": "Every data type has its own 32-bit code, decoding the code gives the type back, and any code that is not one of those is rejected with an error carrying the code.", "quantifier": "every 32-bit code in both byte orders", "why_tests_cant": "2^32 codes", "anchors": ["src/io/data_types/mod.rs: DataType", "src/meta_data.rs: DataType read/write"]}
{"id": "C06", "title": "Property values survive a write/read cycle", "statement": "Writing any property value and reading it back yields the same value and type and leaves the following bytes untouched (extended floats only below 2^80; strings below 2^32 bytes). Property type codes the library does not support are rejected with the offending type.", "quantifier": "every property value, both byte orders, every trailing byte sequence", "why_tests_cant": "unbounded value space", "anchors": ["src/properties.rs: PropertyValue::read, write"]}
{"id": "C07", "title": "Property value conversions are lossless and type-safe", "statement": "Converting a native value to a property value and back returns the value; converting a property value to any other native type fails with a mismatch error naming the stored and the wanted type.", "quantifier": "every native value and every pair (stored type, requested type)", "why_tests_cant": "all values x all type pairs", "anchors": ["src/properties.rs: From/TryFrom impls"]}
{"id": "C08", "title": "Metadata blocks survive a write/read cycle", "statement": "Writing a metadata block (any number of objects, each with any raw-data index and any properties) and reading it back gives an equal block, consuming exactly the bytes written.", "quantifier": "every metadata block whose strings and counts fit 32 bits, both byte orders", "why_tests_cant": "unbounded nesting of lists; needs induction", "anchors": ["src/meta_data.rs: MetaData, ObjectMetaData, RawDataIndex", "src/io/reader.rs: read_vec"]}
{"id": "C09", "title": "Segments survive a write/read cycle with correct offsets", "statement": "The bytes of a written segment start with the TDSm tag; reading a segment at that place returns the flags, the metadata, a next-segment offset equal to the number of bytes after the 28-byte lead-in and a raw-data offset equal to the metadata length, provided metadata is present and the data block reports its true size.", "quantifier": "every metadata block, every data block, both byte orders, any bytes before and after", "why_tests_cant": "the offsets chain all segments of a file; a test can check only particular segments", "anchors": ["src/io/writer.rs: write_segment", "src/meta_data.rs: Segment::read", "src/io/reader.rs: read_segment"]}
{"id": "C10", "title": "Metadata-free segments can be read back", "statement": "A segment that carries raw data but no metadata (the form the writer itself emits for repeated writes) is read back as a segment with no metadata, whatever the raw data is.", "quantifier": "every raw data content", "why_tests_cant": "depends on the first bytes of user data: the f64 data used in the tests happens to begin with zero words", "anchors": ["src/io/reader.rs: read_segment", "src/io/writer.rs: write_segment"]}
{"id": "C11", "title": "Opening any byte sequence terminates without panicking", "statement": "Opening a file on arbitrary bytes returns either a file or an error; it never panics and never loops forever, whatever the bytes, the allocator and the seek limit (in builds without arithmetic overflow checks; with overflow checks the same holds for every file whose raw-data offsets do not overflow the 64-bit address).", "quantifier": "every byte sequence, every allocator behaviour, every seek limit", "why_tests_cant": "fuzzing samples; termination and absence of panics are universally quantified", "anchors": ["src/file/mod.rs: TdmsFile::new, build_index", "src/index/building.rs", "fuzz/fuzz_targets"]}
{"id": "C12", "title": "Opening cost is bounded by file size", "statement": "Opening a file examines at most one segment per 28 bytes of file: segment starts strictly increase by at least the lead-in size, whatever offsets the file claims.", "quantifier": "every byte sequence", "why_tests_cant": "a malicious offset could make the scan revisit the same place forever", "anchors": ["src/file/mod.rs: build_index", "src/meta_data.rs: Segment::total_size_bytes", "src/index/building.rs: add_segment"]}
{"id": "C13", "title": "Only TDSm-tagged segments are accepted; short tails are ignored", "statement": "An empty file opens as an empty file. Fewer than four bytes after the last complete segment are ignored. If four or more bytes remain and they do not start with TDSm, opening fails with the header error carrying those bytes.", "quantifier": "every prefix of complete segments and every tail", "why_tests_cant": "unbounded prefixes and tails", "anchors": ["src/meta_data.rs: Segment::read", "src/file/mod.rs: build_index"]}
{"id": "C14", "title": "Segment metadata is interpreted incrementally as TDMS prescribes", "statement": "After any sequence of segments, the ordered list of channels with data and their formats are: emptied when a segment carries the new-object-list flag, a channel with a raw-data index is updated in place if present and appended otherwise, a 'same as previous' index reuses the last format ever given to that channel, and an object without raw data does not change the list.", "quantifier": "every sequence of segments", "why_tests_cant": "the state depends on the entire history of segments", "anchors": ["src/index/building.rs: add_segment, update_or_activate_data_object, update_meta_object"]}
{"id": "C15", "title": "Last property write wins", "statement": "After any history, reading a property returns the value of the last write to that object and name; writes to other objects or other names never change it; properties and objects never disappear.", "quantifier": "every history of segments / API writes, every object and name", "why_tests_cant": "histories are unbounded", "anchors": ["src/index/mod.rs: ObjectData::update, get_object_property, get_object_properties", "src/file/mod.rs: read_property, read_all_properties"]}
{"id": "C16", "title": "Reading properties distinguishes missing object from missing property", "statement": "read_property fails with MissingObject exactly when no segment ever mentioned the object, returns None exactly when the object is known but the name was never written, and read_all_properties lists each property exactly once.", "quantifier": "every history, every path and name", "why_tests_cant": "histories are unbounded", "anchors": ["src/index/mod.rs: get_object_property, get_object_properties", "src/file/mod.rs: read_property, read_all_properties"]}
{"id": "C17", "title": "'Same as previous' without a previous format is an error", "statement": "A segment that tells the reader to reuse the previous format of an object that never had one is rejected with NoPreviousType.", "quantifier": "every history in which the object has no earlier format", "why_tests_cant": "histories are unbounded", "anchors": ["src/index/mod.rs: ObjectData::from_metadata, update"]}
{"id": "C18", "title": "Every recorded sample location is valid", "statement": "After any history, including writes or segments that ended in an error, every location recorded for a channel names an existing data block and an existing channel slot in it, and a channel's locations are in strictly increasing block order. So reading never reports DataBlockNotFound and never indexes out of bounds.", "quantifier": "every history of segments, including failing ones", "why_tests_cant": "state invariant over unbounded histories with partial updates on error", "anchors": ["src/index/building.rs: insert_data_block", "src/index/mod.rs: get_data_block, get_channel_data_positions"]}
{"id": "C19", "title": "Channel length is the number of samples of all its segments", "statement": "channel_length of a channel is the sum over the data segments in which it was active of (number of whole chunks in that segment) x (values per chunk), where the number of whole chunks is the raw data length divided by the chunk size, whenever that sum fits 64 bits (which it does for all types that occupy space); None iff the object is unknown.", "quantifier": "every sequence of segments", "why_tests_cant": "histories are unbounded; arithmetic over 64-bit sizes", "anchors": ["src/index/mod.rs: channel_length", "src/index/building.rs: insert_data_block", "src/raw_data/mod.rs: chunk_size, number_of_chunks", "src/file/channel_reader.rs: channel_length"]}
{"id": "C20", "title": "Sizes and addresses that do not fit 64 bits are refused", "statement": "If a segment's end address or a data block's chunk size cannot be represented in 64 bits, opening fails with an overflow error; on success all recorded block addresses are the true (unwrapped) sums and the block lies inside its segment.", "quantifier": "every header value", "why_tests_cant": "needs all 64-bit header combinations", "anchors": ["src/meta_data.rs: total_size_bytes", "src/index/building.rs: add_segment", "src/raw_data/mod.rs: DataBlock::from_segment, chunk_size, ChunkSize"]}
{"id": "C21", "title": "Path construction and parsing agree", "statement": "For names without a slash, parsing the path built from a group (and channel) name gives back those names with every single quote replaced by a double quote, and rebuilding gives the identical path.", "quantifier": "every group and channel name without '/'", "why_tests_cant": "all strings", "anchors": ["src/paths.rs: PropertyPath::group, PropertyPath::channel, TryFrom<ObjectPath>, parse_path, ChannelPath::new"]}
{"id": "C22", "title": "Path accessors never panic", "statement": "group_name and channel_name of any path value obtainable through the public constructors return without panicking, and give the names used to build it (with single quotes replaced).", "quantifier": "every group and channel name", "why_tests_cant": "all strings", "anchors": ["src/paths.rs: path_levels, PropertyPath::group_name, channel_name, ChannelPath::group_name, channel_name"]}
{"id": "C23", "title": "Distinct objects get distinct paths", "statement": "Two (group, channel) pairs that differ other than by exchanging single for double quotes get different paths, and root, group and channel paths are never equal to one another.", "quantifier": "every pair of names", "why_tests_cant": "all pairs of strings", "anchors": ["src/paths.rs: PropertyPath, ChannelPath"]}
{"id": "C24", "title": "Path parsing classifies every string", "statement": "Parsing an arbitrary string yields the root, a group, a channel or InvalidObjectPath; ChannelPath conversion accepts exactly strings of the form /'g'/'c' with slash-free g and c.", "quantifier": "every string", "why_tests_cant": "all strings", "anchors": ["src/paths.rs: parse_path, parse_name, TryFrom impls"]}
{"id": "C25", "title": "list_groups is complete, sound, sorted and duplicate-free", "statement": "list_groups returns, in ascending byte order and without duplicates, exactly the group names of all objects ever mentioned in the file whose paths are well-formed.", "quantifier": "every file history", "why_tests_cant": "all histories and names", "anchors": ["src/file/mod.rs: list_groups", "src/paths.rs: path_group_name"]}
{"id": "C26", "title": "list_channels_in_group returns exactly the group's channels", "statement": "For a group path, list_channels_in_group returns exactly the channels of that group and no channel of any other group, in ascending order.", "quantifier": "every file history, every group name", "why_tests_cant": "all histories and names; relies on range scan + prefix test over an ordered map", "anchors": ["src/file/mod.rs: list_channels_in_group", "src/index/querying.rs: paths_starting_with"]}
{"id": "C27", "title": "Listed channels can be looked up", "statement": "Every channel path returned by list_channels_in_group names an object of the file, so channel_length, property and data reads on it do not fail with a missing object.", "quantifier": "every file history", "why_tests_cant": "all histories and names", "anchors": ["src/file/mod.rs: list_channels_in_group", "src/paths.rs: TryFrom<ObjectPath> for PropertyPath"]}
{"id": "C28", "title": "Single-channel reads return the requested window of samples", "statement": "read_channel_from(channel, start, buffer) fills the buffer with samples start, start+1, ... of the channel in file order, across any number of segments, chunks, layouts and byte orders; if fewer remain, the rest of the buffer is untouched; the call is Ok.", "quantifier": "every file whose blocks are whole chunks with equal channel lengths and fixed-size types, every start, every buffer length", "why_tests_cant": "all block structures x starts x lengths", "anchors": ["src/file/channel_reader.rs: read_channel_from, read_plan, execute_read_plan", "src/raw_data/contigious_multi_channel_read.rs", "src/raw_data/interleaved_multi_channel_read.rs"]}
{"id": "C29", "title": "Windowed reads compose", "statement": "Reading n samples from a and then m samples from a+n gives the same data as one read of n+m samples from a; read_channel is read_channel_from at 0.", "quantifier": "every a, n, m and every well-formed file", "why_tests_cant": "all windows", "anchors": ["src/file/channel_reader.rs: read_channel, read_channel_from"]}
{"id": "C30", "title": "Multi-channel reads agree with single-channel reads", "statement": "read_channels_from gives each channel's buffer exactly what read_channel_from would give it, for every combination of channels, buffer lengths, request order and start.", "quantifier": "every set of channels, request order, buffer lengths, start and file history", "why_tests_cant": "all combinations of block membership and buffer sizes", "anchors": ["src/file/channel_reader.rs: read_channels, read_channels_from, execute_read_plan, get_block_read_data", "src/raw_data/mod.rs: read_with_per_channel_skip"]}
{"id": "C31", "title": "A read plan visits each needed block once, in order", "statement": "The internal plan lists blocks in strictly increasing order; for each channel the planned (block, skip) entries are exactly those of its locations that still contain requested samples after skipping start samples, and planning terminates.", "quantifier": "every set of ascending location lists and every starts", "why_tests_cant": "all merges of location lists", "anchors": ["src/file/channel_reader.rs: read_plan"]}
{"id": "C32", "title": "Reading with the wrong type is refused", "statement": "If the first needed block of a channel stores a type the requested element type does not support, the read fails with DataTypeMismatch(stored, requested) and no sample of that block is written to any buffer.", "quantifier": "every file, channel and element type", "why_tests_cant": "all type pairs x file structures", "anchors": ["src/raw_data/records.rs: validate_types_match", "src/raw_data/mod.rs: read"]}
{"id": "C33", "title": "Reading an unknown channel is refused", "statement": "Reading or multi-reading a channel that no segment mentions fails with MissingObject for the first such channel, and no buffer is changed.", "quantifier": "every file, every list of channels", "why_tests_cant": "all histories", "anchors": ["src/file/channel_reader.rs: read_channel_from, read_channels_from"]}
{"id": "C34", "title": "Reads never panic on opened files", "statement": "Reading any channel of any successfully opened file, with any element type, start and buffers, returns Ok or Err and terminates.", "quantifier": "every byte sequence, channel, element type, start, buffers", "why_tests_cant": "malformed but accepted headers (zero lengths, unequal lengths) are unbounded", "anchors": ["src/raw_data/contigious_multi_channel_read.rs: read_from, read_with_per_channel_skip", "src/raw_data/interleaved_multi_channel_read.rs: read"]}
{"id": "C35", "title": "Reads stay inside the data block they are reading", "statement": "No sample returned by a read comes from bytes outside the raw data of the segments that list the channel.", "quantifier": "every well-formed file, every read", "why_tests_cant": "all block structures", "anchors": ["src/raw_data/contigious_multi_channel_read.rs", "src/raw_data/interleaved_multi_channel_read.rs"]}
{"id": "C36", "title": "Reported length and readable samples agree", "statement": "The number of samples a sufficiently large read returns for a channel equals channel_length, for any file whose data is present.", "quantifier": "every file", "why_tests_cant": "trailing partial chunks, all lengths", "anchors": ["src/file/channel_reader.rs", "src/raw_data/interleaved_multi_channel_read.rs: read", "src/raw_data/mod.rs: number_of_chunks"]}
{"id": "C37", "title": "Writing only appends", "statement": "write_channels and write_properties never alter bytes already in the file; a successful call appends exactly one segment of 28 + metadata + data bytes, whose lead-in carries the tag, the flags that describe exactly what the segment holds (metadata, new object list, raw data, layout, byte order; never DAQmx), version 4713 and the two sizes.", "quantifier": "every file state and every call", "why_tests_cant": "all states and arguments", "anchors": ["src/file/file_writer.rs", "src/io/writer.rs: write_segment", "src/file/mod.rs: writer"]}
{"id": "C38", "title": "Rejected arguments have no effect", "statement": "write_channels with no channels (NoChannels) or with a value count that is not a multiple of the channel count (BadDataBlockLength) changes neither the file bytes nor anything observable through the API.", "quantifier": "every file state, channel list and value list", "why_tests_cant": "all states", "anchors": ["src/file/file_writer.rs: write_channels, DataStreamWriter::new", "src/raw_data/write.rs: MultiChannelSlice::from_slice"]}
{"id": "C39", "title": "A failed write leaves the file usable", "statement": "If write_channels returns an error, the file can still be re-opened and all earlier data is still readable.", "quantifier": "every file state and every failing call", "why_tests_cant": "all states and arguments", "anchors": ["src/file/file_writer.rs: write_channels", "src/raw_data/mod.rs: DataBlock::from_segment"]}
{"id": "C40", "title": "Written samples can be read back in the same session", "statement": "After any history of write calls, reading a channel returns the concatenation, in write order, of the values written to it (dealt to channels according to the layout).", "quantifier": "every history of write calls with fixed-size element types", "why_tests_cant": "all histories, layouts, values", "anchors": ["src/file/file_writer.rs", "src/index/writing.rs: check_write_values", "src/file/channel_reader.rs"]}
{"id": "C41", "title": "Re-opening a written file gives the same file", "statement": "After any history of successful write calls, opening the resulting bytes succeeds and yields exactly the same objects, properties, channel lengths and samples as the live session.", "quantifier": "every history of successful write calls", "why_tests_cant": "all histories and data contents", "anchors": ["src/file/mod.rs: build_index", "src/file/file_writer.rs", "src/index/writing.rs", "src/io/reader.rs: read_segment"]}
{"id": "C42", "title": "Repeated writes to the same channels are all kept", "statement": "Writing to the same list of channels several times, with any number of values each time, keeps all values.", "quantifier": "every sequence of value lists", "why_tests_cant": "all lengths and contents", "anchors": ["src/index/writing.rs: check_write_values", "src/file/file_writer.rs: DataStreamWriter::new"]}
{"id": "C43", "title": "Writing a different set of channels does not corrupt others", "statement": "Writing to some channels never changes the samples, length or properties of channels not named in the call.", "quantifier": "every file state and every call", "why_tests_cant": "all pairs of channel lists (including prefixes of each other)", "anchors": ["src/index/writing.rs: check_write_values"]}
{"id": "C44", "title": "Written properties can be read back in session and after re-opening", "statement": "After write_properties(path, kvs), read_property returns the last value given for each name, in the same session and after re-opening, and does not affect data.", "quantifier": "every file state, path and property list", "why_tests_cant": "all states and property lists", "anchors": ["src/file/file_writer.rs: write_properties", "src/index/mod.rs"]}
{"id": "C45", "title": "All element types accepted for writing can be read back", "statement": "For every element type the write API accepts (including timestamps, extended floats and strings), written values are read back unchanged with the right length.", "quantifier": "every element type and value list", "why_tests_cant": "all values and types", "anchors": ["src/io/data_types/mod.rs: DataType::size, SIZE_BYTES", "src/raw_data/write.rs: size"]}
{"id": "C46", "title": "A crash during a write loses only that write", "statement": "If the last write is cut at any byte, re-opening gives the file as it was before that write or that write's channels with the data cut short; otherwise opening fails with an error and never with a panic. The exact cut positions for each outcome are characterised.", "quantifier": "every history, every cut position", "why_tests_cant": "all crash points of all writes", "anchors": ["src/io/writer.rs: write_segment", "src/meta_data.rs: Segment::read", "src/file/mod.rs: build_index"]}
{"id": "C47", "title": "Appending after opening is consistent", "statement": "Opening a file and appending to it places the new segment where the index expects it: the next segment address equals the file length, and the new data is readable.", "quantifier": "every file that opens successfully", "why_tests_cant": "files with a truncated tail or trailing bytes", "anchors": ["src/file/mod.rs: writer, build_index", "src/index/building.rs: next_segment_start"]}
{"id": "C48", "title": "Data layout deals values to channels as documented", "statement": "For n channels, interleaved values v0 v1 ... give channel i the values v_i, v_(i+n), ...; contiguous values give channel i the i-th consecutive run; both layouts of the corresponding data read back identically.", "quantifier": "every n, every value list whose length is a multiple of n", "why_tests_cant": "all shapes", "anchors": ["src/raw_data/write.rs", "src/raw_data/interleaved_multi_channel_read.rs", "src/raw_data/contigious_multi_channel_read.rs"]}
{"id": "C49", "title": "Byte order is per segment", "statement": "A file may mix big- and little-endian segments; each segment's metadata and samples are decoded with the byte order its ToC announces, independent of other segments.", "quantifier": "every sequence of segments with arbitrary byte orders", "why_tests_cant": "all mixes", "anchors": ["src/meta_data.rs: Segment::read", "src/raw_data/mod.rs: byte_order, read"]}
{"id": "C50", "title": "Raw data content does not influence the structure of the file", "statement": "Two files that differ only inside the raw data areas of segments that carry metadata open to the same objects, properties, lengths and locations.", "quantifier": "every pair of such files", "why_tests_cant": "all contents", "anchors": ["src/file/mod.rs: build_index", "src/meta_data.rs: Segment::read"]}
{"id": "C51", "title": "A read needs only the data it covers", "statement": "Reading n samples from sample s of a channel returns the stored samples whenever the blocks overlapping that window are complete and of the requested type, whatever the state of the channel's other blocks.", "quantifier": "every session, channel, start and buffer length", "why_tests_cant": "all windows over all mixtures of good and damaged blocks", "anchors": ["src/file/channel_reader.rs", "src/raw_data/mod.rs"]}
{"id": "C52", "title": "Exactly which files open", "statement": "Opening succeeds if and only if the bytes are a sequence of segments, each readable where the previous one ends, with fewer than four bytes after the last (or its end beyond what can be seeked to), that the index accepts one after the other; the index depends only on those segments.", "quantifier": "every byte sequence", "why_tests_cant": "an exact characterisation over all byte sequences", "anchors": ["src/file/mod.rs: build_index", "src/index/building.rs", "src/meta_data.rs: Segment::read"]}
{"id": "C53", "title": "Buffering does not change what is written", "statement": "On a device that never refuses a write, whatever number of bytes it accepts per call and whatever the buffer size, a program of writer calls, syncs and re-created writers returns the same results, builds the same index and leaves (after the writer is dropped) the same bytes as appending every segment at once; every sync succeeds.", "quantifier": "every program, every starting file, every buffer size, every acceptance pattern of the device", "why_tests_cant": "acceptance patterns and programs are unbounded; real files accept everything at once", "anchors": ["src/file/file_writer.rs: TdmsFileWriter::write_channels, write_properties, sync", "src/io/writer.rs: LittleEndianWriter, BigEndianWriter, write_segment"]}
{"id": "C54", "title": "A successful sync puts everything on the device", "statement": "If no call failed because of the device and writers are replaced only right after a successful sync, then once a sync returns Ok the device holds exactly the bytes the calls wrote, and no later operation removes them. Without a sync, acknowledged writes can be lost when the writer is dropped.", "quantifier": "every device behaviour (short writes, failures at any call), every program, every buffer size", "why_tests_cant": "needs fault injection at every device call of every program", "anchors": ["src/file/file_writer.rs: sync", "src/io/writer.rs"]}
{"id": "C55", "title": "A failing device receives only a beginning of the segment", "statement": "Whatever the device does, up to and including the first call it fails, what it holds is an initial part of what the calls write on a faultless device, and contains everything it held before; so on a complete file the interrupted file opens to the old index, to the new index, or fails with UnexpectedEof.", "quantifier": "every device behaviour, every program, every call", "why_tests_cant": "needs failures at every byte position", "anchors": ["src/file/file_writer.rs: write_channels, write_properties", "src/io/writer.rs: write_segment", "src/file/mod.rs: build_index"]}
{"id": "C56", "title": "A call refused by the device leaves the session consistent", "statement": "After a call that failed because of the device, the index is what it was and later acknowledged writes can be read back. (Only the first half holds: bytes of the failed call may already be in the file or the buffer, and the next segment is then located wrongly.)", "quantifier": "every device behaviour, every session, every call", "why_tests_cant": "needs fault injection in the middle of a call followed by further calls", "anchors": ["src/file/file_writer.rs: write_channels", "src/io/writer.rs: write_segment", "src/index/building.rs: add_segment"]}
{"id": "C57", "title": "Buffering does not change what is read", "statement": "On a device that never fails, opening a file and reading one or several channels through the buffered readers give exactly the results defined by the bytes of the file, whatever number of bytes each call of the device returns, whatever the size of the buffer and whatever position and buffer contents earlier operations left behind.", "quantifier": "every device that never fails, every buffer size, every stream state, every file, every request", "why_tests_cant": "needs all splittings of the reads of a device and all stream states", "anchors": ["src/io/reader.rs: TdmsReader", "src/file/mod.rs: build_index", "src/raw_data/mod.rs: DataBlock::reader"]}
{"id": "C58", "title": "A read during which the device fails reports it", "statement": "For any device, read_channels_from and read_channel_from either ran without a failure of the device and return the faultless result, or the device failed and they return that error, never success.", "quantifier": "every device behaviour, every buffer size, every stream state, every file, every request", "why_tests_cant": "needs fault injection at every call of the device", "anchors": ["src/io/reader.rs: read_value", "src/raw_data/mod.rs: read", "src/file/channel_reader.rs: read_channels_from"]}
{"id": "C59", "title": "Opening on a failing device reports the failure", "statement": "For any device, opening a file either gives the faultless result, or reports the error of the device. (Holds for devices whose seeks do not fail; a failing seek to the next segment is taken for the end of the file and then an index of only the first segments may be returned.)", "quantifier": "every device behaviour, every buffer size, every file", "why_tests_cant": "needs fault injection at every call of the device while opening", "anchors": ["src/file/mod.rs: build_index"]}
{"id": "C60", "title": "A failed read of a channel leaves only right values", "statement": "Whatever the device does, after read_channel_from the buffer of the caller holds, for some k, the first k values of the faultless result followed by its old contents.", "quantifier": "every device behaviour, every stream state, every file, every request", "why_tests_cant": "needs fault injection at every call of the device and inspection of the buffer after the error", "anchors": ["src/file/channel_reader.rs: read_channel_from", "src/raw_data/mod.rs: read", "src/raw_data/contigious_multi_channel_read.rs", "src/raw_data/interleaved_multi_channel_read.rs"]}
{"id": "C61", "title": "Reads of blocks whose channels have different numbers of values", "statement": "For a contiguous block whose channels have different numbers of values per chunk, read_channel_from delivers the samples after the (s / n0) * n + min(s mod n0, n) first ones of the block where the read starts (n the values of this channel, n0 those of the first channel of the block, s the samples to pass over in the block), then all samples of the following blocks. So the requested window is delivered exactly when that number is s: from sample 0, from the first sample of a block, and in blocks whose first channel has as many values.", "quantifier": "every file whose contiguous blocks are whole chunks with any channel lengths (first one not 0) and fixed-size types, every start, every buffer length", "why_tests_cant": "all combinations of channel lengths, block structures and starts", "anchors": ["src/raw_data/contigious_multi_channel_read.rs: read_from, read_with_per_channel_skip", "src/file/channel_reader.rs: read_channel_from"]}
{"id": "C62", "title": "Opening takes work bounded by the size of the file", "statement": "Opening any file of n bytes, valid or not, issues at most 1 + (n/28 + 1)(n + 2) operations on the stream, whatever counts, lengths and offsets are written in it.", "quantifier": "every file, every device behaviour, every buffer size and stream state, both build profiles", "why_tests_cant": "a claim about all malicious files; tests only time the files they contain", "anchors": ["src/file/mod.rs: build_index", "src/meta_data.rs: Segment::read"]}
{"id": "C63", "title": "Reading takes work bounded by the size of the file and of the buffers", "statement": "Reading channels issues a number of stream operations bounded by the size of the file, its number of blocks and the values asked for. (Holds when the blocks lie inside the file; in general the bound is in terms of the lengths the segments declare, every declared chunk of a contiguous block costs an operation even when the buffers are full, and a 72 byte file makes a read of one value take over 10^15 operations.)", "quantifier": "every file, every device behaviour, every request", "why_tests_cant": "a claim about all files; the bad case would not terminate in a test", "anchors": ["src/raw_data/contigious_multi_channel_read.rs: read_from, read_with_per_channel_skip, read_sub_block", "src/raw_data/interleaved_multi_channel_read.rs: read", "src/file/channel_reader.rs: execute_read_plan"]}
{"id": "C64", "title": "Closing a file and loading it again makes no difference", "statement": "A program that creates, loads, writes and closes any number of files in any order leaves each file as if the calls made on it since it was last created had been made in one session, and load returns that session's file (index and contents, so all queries and reads agree). create discards what the file held, load of a missing file is an error, and neither affects other files. (Holds for calls that leave out their metadata only before data starting with four zero bytes; refuted otherwise: the value 1 written in two visits leaves a file that no longer loads.)", "quantifier": "every sequence of visits to any files, every number of sessions, every program of successful writer calls", "why_tests_cant": "all interleavings of sessions over all programs; the tests reopen a handful of files once", "anchors": ["src/file/mod.rs: TdmsFile::load, TdmsFile::create, TdmsFile::new", "src/file/file_writer.rs: write_channels, write_properties"]}
{"id": "C65", "title": "What a read of several channels delivers, exactly", "statement": "For every file with whole blocks, every list of distinct channels, every start and every set of buffers, read_channels and read_channels_from succeed and leave the buffers exactly as a block-by-block specification on the samples of the channels says: in which sample each channel starts in each block, how many samples are counted, and which part is overwritten. In particular no buffer ever receives a value of another channel.", "quantifier": "every session and file, every list of distinct channels, every start, all buffer sizes, both layouts, any mixture of blocks", "why_tests_cant": "the result depends on the combination of layouts, lengths, starts and order of all channels; tests only cover channels that always lie in the same blocks", "anchors": ["src/raw_data/mod.rs: read_with_per_channel_skip", "src/raw_data/contigious_multi_channel_read.rs: read_with_per_channel_skip, read_from", "src/raw_data/interleaved_multi_channel_read.rs: read_with_per_channel_skip, read_from", "src/file/channel_reader.rs: execute_read_plan, read_channels_from"]}
{"id": "C66", "title": "The order in which channels are requested does not matter", "statement": "Listing the same channels with the same buffers in another order delivers the same samples to each of them. (Holds for reads from the start, whatever the buffers and layouts; refuted for reads from a later sample, where skips listed in the order of the request are handed out in the order of storage.)", "quantifier": "every file, every permutation of every list of distinct channels, all buffers", "why_tests_cant": "all permutations over all files; tests list channels in storage order", "anchors": ["src/raw_data/contigious_multi_channel_read.rs: read_with_per_channel_skip", "src/raw_data/interleaved_multi_channel_read.rs: read_with_per_channel_skip", "src/file/channel_reader.rs: read_channels"]}
{"id": "C67", "title": "Opening a file asks for memory in proportion to its size", "statement": "The strings, object lists and property tables allocated while opening a file are no larger than the file accounts for: strings no longer than the file, at most one object per 12 bytes and one property per 8 bytes. (Holds for every file that opens; a file that is refused may first ask for any number of elements below 2^32, e.g. a 32 byte file for 2^32 - 1 objects.)", "quantifier": "every file, every allocator, both build profiles", "why_tests_cant": "a claim about all files and all allocators; tests run with an allocator that always succeeds", "anchors": ["src/io/reader.rs: read_vec", "src/meta_data.rs: ObjectMetaData::read", "src/io/data_types/strings.rs: read_string_with_length"]}
{"id": "C68", "title": "Every string handed out is valid UTF-8", "statement": "Paths built from valid names are valid UTF-8; names and paths sliced out of a valid path are valid (slicing by bytes never splits a character, so it cannot panic or produce invalid strings); and whatever bytes are opened, all object paths, property names, string values, listed groups and listed channels are valid.", "quantifier": "every string, every file, every query", "why_tests_cant": "all strings including every multi-byte character next to quotes and separators, and all files; tests use ASCII names", "anchors": ["src/paths.rs: escape_name, parse_path, parse_name, path_levels, TryFrom", "src/io/data_types/strings.rs: read_le, read_be", "src/file/mod.rs: list_groups, list_channels_in_group, read_all_properties"]}
{"id": "C69", "title": "Later calls never change what was read", "statement": "Whatever file is opened and whatever calls are made, successful or not: if a read of a channel succeeds, then after any further calls the same read delivers the same values again, possibly followed by more if the buffer was not full; if it was full the result is identical. Reads of several channels give the same result whenever none of them was given new data, in particular after any writing of properties.", "quantifier": "every file, every two sequences of calls, every channel, start, buffer and type", "why_tests_cant": "all files including damaged ones, all call sequences including failing ones", "anchors": ["src/file/channel_reader.rs: read_channel_from, read_channels_from, read_plan", "src/file/file_writer.rs", "src/index/building.rs: add_segment", "src/raw_data/mod.rs"]}
{"id": "C70", "title": "A failed read of several channels leaves only values of the right channel", "statement": "Whatever the device does and whenever it fails during a read of several channels: afterwards every buffer has its length, and every slot holds what it held before the call or a sample of the channel the buffer was given for; never a value of another channel, of another type or half a value.", "quantifier": "every device, buffer size and state of the stream; every file of whole blocks, channels, start and buffers", "why_tests_cant": "every point at which a device can fail, for all files and requests", "anchors": ["src/file/channel_reader.rs: read_channels_from, execute_read_plan", "src/raw_data/contigious_multi_channel_read.rs", "src/raw_data/interleaved_multi_channel_read.rs"]}
{"id": "C71", "title": "Each refusal names the first defect", "statement": "The outcome of adding a segment is determined by the segments before it through a fixed list of conditions, the first that holds giving the error: a channel said to be as before without a format before; raw data without channels; a raw data offset beyond the segment; no raw data bytes; a block address that does not fit (a panic, only with overflow checks); a chunk size or number of samples that does not fit; an end address that does not fit. Opening returns an error exactly when a number of segments from the start can be read and accepted and the next cannot be read or is refused, with that error; it succeeds exactly when this goes on to the end of the file. A write that passes the checks of its arguments returns the same.", "quantifier": "every history of segments, every segment, every byte sequence, both build profiles", "why_tests_cant": "an exact characterisation: every combination of header fields after every history", "anchors": ["src/index/building.rs: add_segment, insert_data_block", "src/raw_data/mod.rs: DataBlock::from_segment, chunk_size, number_of_chunks", "src/meta_data.rs: total_size_bytes", "src/file/mod.rs: build_index"]}
{"id": "C72", "title": "Exactly the bytes of the grammar are read as a segment", "statement": "A segment is read from a position of a file exactly when bytes of the segment grammar stand there: tag, table of contents, a version that is not looked at, two offsets, and metadata in the byte order of the flags, with lengths, UTF-8 text, type codes, typed values and raw data indexes. The bytes determine the segment, no segment is the beginning of another, and a segment cut short anywhere is reported as ended too early.", "quantifier": "every byte sequence, every position, every segment, both byte orders, every set of allowed allocations", "why_tests_cant": "an equivalence over all byte sequences, including those the format does not allow but the library accepts", "anchors": ["src/meta_data.rs: Segment::read, MetaData::read, ObjectMetaData::read, RawDataIndex::read, ToC::from_u32", "src/properties.rs: PropertyValue::read", "src/io/data_types"]}
{"id": "C73", "title": "Exactly which bytes are written", "statement": "A call of write_channels whose arguments are accepted appends a lead-in with the right flags, version and lengths, then, unless it continues the active channels, the metadata with one object per channel - saying 'as before' exactly when the last format given to the channel is the same, and otherwise type, dimension 1 and count - and then the samples one after the other in the byte order of the writer. write_properties appends a lead-in and one object with the properties and no data. The description fixes every byte.", "quantifier": "every history, channels, values of every element type, layout, byte order, property list", "why_tests_cant": "byte-exact output for all inputs, including whether a format is repeated after any history", "anchors": ["src/file/file_writer.rs: write_channels, write_properties", "src/index/writing.rs: check_write_values", "src/io/writer.rs: write_segment", "src/meta_data.rs: write implementations", "src/properties.rs: PropertyValue::write", "src/raw_data/write.rs"]}
{"id": "C74", "title": "An error message tells the kind of error and its details", "statement": "Two errors have the same message exactly when they are of the same kind and agree in everything they carry, except the cause of an I/O error and the number of a missing data block. Data types are shown by different names.", "quantifier": "every two errors with any paths, codes, sizes, types and tags", "why_tests_cant": "distinguishes all pairs of errors with unbounded contents", "anchors": ["src/error.rs: TdmsError", "src/io/data_types/mod.rs: Display for DataType", "src/paths.rs: Display", "src/properties.rs: chrono_support"]}
{"id": "C75", "title": "The library answers like a plain store", "statement": "For every program of writes, refused writes, queries (properties, lengths, listings), reads of one or several channels, and closings and openings on a new file or on any file that opens and ends with its last segment, every answer is the one given by what the file held and a plain list of the accepted calls: the property last given, all values of the channel in order, the names used; a read with another type or of an unknown channel is refused. The file at the end is the one the writing calls alone produce.", "quantifier": "all starting files, all programs of operations of any length, all element types of fixed size", "why_tests_cant": "all interleavings of writes, queries and re-openings", "anchors": ["src/file/mod.rs: new, read_property, read_all_properties, list_groups, list_channels_in_group, writer", "src/file/channel_reader.rs: channel_length, read_channel_from, read_channels", "src/file/file_writer.rs: write_channels, write_properties"]}
{"id": "C76", "title": "The parts of a file do not overlap", "statement": "A file is its segments one after the other, and each segment is its lead-in, its metadata and its data one after the other: no byte is read both as metadata and as sample data, or in two segments.", "quantifier": "all files that open; all sequences of write calls", "why_tests_cant": "all files, including contradictory offsets", "anchors": ["src/io/reader.rs: read_segment", "src/meta_data.rs: Segment::read", "src/index/building.rs: add_segment", "src/io/writer.rs: write_segment"]}
{"id": "C77", "title": "Exactly which data calls are served", "statement": "When a call writes k values to each of its channels, then for all values it acknowledges the call, adds exactly the values dealt to each channel and leaves the lengths of all others alone, if and only if its channel list does not continue the current one (neither is the beginning of the other), or it is the current one, its formats are for the same element type and n values with n dividing k, and the data is interleaved, for one channel, or k = n.", "quantifier": "all sessions, element types of fixed size, channel lists, layouts, byte orders, numbers of values", "why_tests_cant": "an equivalence over all states and calls; tests try single calls", "anchors": ["src/index/writing.rs: check_write_values", "src/file/file_writer.rs: DataStreamWriter::new, write_channels", "src/index/building.rs: update_indexes, insert_data_block"]}
{"id": "C78", "title": "Type codes are those of the TDMS format", "statement": "Every data type is read from and written as the code the TDMS format description gives it.", "quantifier": "all types, both byte orders", "why_tests_cant": "tests use the library's own codes on both sides", "anchors": ["src/io/data_types/mod.rs: DataType"]}
{"id": "C79", "title": "DAQmx data is refused as such", "statement": "A file with a DAQmx channel, announced by the table of contents and by the first word of its raw data index, is refused with DaqmxChannelsNotSupported whatever precedes and follows.", "quantifier": "all segments with a DAQmx channel after any other objects, both byte orders", "why_tests_cant": "no test has DAQmx data; all positions and contents", "anchors": ["src/meta_data.rs: RawDataIndex::read, ToC::from_u32"]}
{"id": "C80", "title": "Exactly which data calls survive closing and opening", "statement": "On a file that opens as it is, calls that write k values to each of their channels leave, for all values, a file that opens to exactly the state the writer has, if and only if the channel list does not continue the current one (neither is the beginning of the other).", "quantifier": "all sessions, element types of fixed size, channel lists, layouts, byte orders, numbers of values", "why_tests_cant": "an equivalence over all states and calls; the failing side needs values that no test happens to write", "anchors": ["src/index/writing.rs: check_write_values", "src/file/file_writer.rs: write_segment, write_channels", "src/meta_data.rs: Segment::read"]}
{"id": "C81", "title": "What a read of a file with missing data delivers", "statement": "When some of the data blocks a read goes to are not wholly in the file, the read delivers the samples of the window up to the first one that is not wholly present, leaves the rest of the buffer alone, and returns Ok exactly if every sample of the window is present and, when the window ends inside an interleaved block, also the sample behind it; otherwise UnexpectedEof.", "quantifier": "all sessions, element types of fixed size, channels, windows, and all lengths of what is left of the file", "why_tests_cant": "all cut positions against all windows over mixed layouts", "anchors": ["src/raw_data/contigious_multi_channel_read.rs", "src/raw_data/interleaved_multi_channel_read.rs: read", "src/file/channel_reader.rs"]}
{"id": "C82", "title": "Exactly which files can be appended to", "statement": "Calls that write k values to each of their channels are served, whatever the values, if and only if the file ends exactly where its last segment ends and the call describes its channels. On a file cut short no call is served at all; on a file with trailing bytes some values are not read back.", "quantifier": "all sessions (opened files and any writes since), element types of fixed size, channel lists, layouts, byte orders, numbers of values", "why_tests_cant": "an equivalence over all files and calls; the failing side is a statement about every call on a damaged file", "anchors": ["src/file/mod.rs: TdmsFile::new", "src/file/file_writer.rs: write_segment", "src/index/building.rs: add_segment", "src/index/writing.rs: check_write_values"]}
{"id": "C83", "title": "Exactly which programs keep everything they write", "statement": "A program of data and property calls, in which each channel always gets values of one type of fixed size, returns Ok for every call and after each call holds on every channel exactly what was there before and what the calls so far gave it, whatever the values, if and only if each data call either does not continue the channel list of the file or names exactly that list, with the same type and a number of values that fits the chunks in force.", "quantifier": "all programs, all states (new file or any session that ends exactly), all values, all starts and lengths of reads", "why_tests_cant": "an equivalence between a property of all runs of a program and a condition on its text", "anchors": ["src/file/file_writer.rs: write_channels, write_properties", "src/index/writing.rs: check_write_values", "src/index/building.rs: add_segment", "src/file/channel_reader.rs: read_channel_from"]}
{"id": "C84", "title": "The lengths of all channels after any data call", "statement": "After a data call that returns Ok, the length of every channel is exactly this: if the call does not continue the channel list of the file, its channels gain the number of values written to each and no other channel changes; if it does, each channel of the list in force gains its chunk size times the number of whole chunks the data make up, and no other channel changes. So the call leaves the channels it does not name alone if and only if it does not continue the list, or names all of it, or writes less than a chunk.", "quantifier": "all sessions, element types of fixed size, channel lists, layouts, byte orders, values, channels", "why_tests_cant": "an exact law for all states and calls, including those that go wrong; tests only see particular lists", "anchors": ["src/index/writing.rs: check_write_values", "src/index/building.rs: add_segment", "src/index/querying.rs: channel_length", "src/file/file_writer.rs: write_channels"]}
{"id": "C85", "title": "Exactly which element types can be written", "statement": "Data calls with metadata, for some element type, are served for all values and leave the index expecting the next segment at the end of the file if and only if the type is none of strings, timestamps and extended floats. After any such call that returns Ok, each channel gains one sample per value, except two per value for timestamps and none for strings; for extended floats the index expects the next segment six bytes per value beyond the end of what was written.", "quantifier": "all sessions, element types, channel lists, numbers of values, layouts, byte orders, values", "why_tests_cant": "an equivalence over all element types, values and states", "anchors": ["src/io/data_types/mod.rs: TdmsStorageType", "src/raw_data/write.rs: WriteBlock", "src/file/file_writer.rs: write_channels", "src/index/writing.rs: check_write_values"]}
{"id": "C86", "title": "After a crash in the data of a call exactly the values that had arrived are given back", "statement": "A data call that does not continue the channel list succeeds, and then only part of its data turns out to be on disk. The file opens, reports the lengths of the whole file, and a read of the rest of a channel of the call, from any sample on, gives its earlier samples, then exactly those values of the call whose bytes had all arrived, leaves the buffer behind them unchanged, and succeeds if and only if nothing it asks for is missing.", "quantifier": "all files, calls, element types of fixed size, layouts, byte orders, values, cuts inside the data, channels of the call, starts, buffers that reach the end", "why_tests_cant": "all crash points of all calls on all files, with the exact values delivered", "anchors": ["src/file/file_writer.rs: write_channels", "src/file/mod.rs: load", "src/index/building.rs: add_segment", "src/file/channel_reader.rs: read_channel_from", "src/raw_data/contigious_multi_channel_read.rs", "src/raw_data/interleaved_multi_channel_read.rs"]}
{"id": "C87", "title": "Exactly which programs leave a file that can be closed at any time", "statement": "For a program of property and data calls, the following are equivalent: whatever the values written, after each call opening the bytes of the file gives exactly the file in memory; whatever the values, after each call the file opens at all; no data call names channels that continue those of the data call before it. From a new file this is also equivalent to: whatever the values and after whichever call the file is closed, opening it gives a file with all samples written so far.", "quantifier": "all environments, sessions, programs, element types of fixed size, values, prefixes of the program", "why_tests_cant": "an equivalence over all programs, all values and all moments of closing", "anchors": ["src/index/writing.rs: check_write_values", "src/file/file_writer.rs: write_channels", "src/file/file_writer.rs: write_properties", "src/meta_data.rs: Segment::read", "src/file/mod.rs: load"]}
{"id": "C88", "title": "Exactly which channels can make a read panic", "statement": "On a file whose blocks have sizes within those of the machine, every read of a channel (any start, any buffer, any element type but strings) returns a value or an error if and only if no block that holds samples of the channel is a contiguous one whose first channel has no values in a chunk. A read that starts on a sample held by such a block panics by a division by zero and stores nothing.", "quantifier": "all environments, sessions (files opened and written to in any way), channels, element types but strings, starts, buffers", "why_tests_cant": "an equivalence over all files and all reads", "anchors": ["src/raw_data/contigious_multi_channel_read.rs: read_from", "src/raw_data/contigious_multi_channel_read.rs: read_with_per_channel_skip", "src/file/channel_reader.rs: read_channel_from"]}
{"id": "C89", "title": "What a crash at any moment of a program leaves", "statement": "A program of property and data calls whose data calls never continue the channel list is interrupted at any byte of the file it would have written. The position lies in what one call writes. If fewer than four bytes of that call have arrived, the file opens as after the calls before; if its lead-in and metadata have arrived, it opens as after the call; in between it does not open, with an UnexpectedEof error, and nothing written before is accessible. Whenever the file opens, all samples of the completed calls read back.", "quantifier": "all environments, files, programs, calls in them, positions", "why_tests_cant": "every program, every byte position", "anchors": ["src/file/file_writer.rs: write_channels", "src/file/file_writer.rs: write_properties", "src/index/mod.rs: build_index", "src/meta_data.rs: Segment::read"]}
{"id": "C90", "title": "The index takes memory in proportion to the file", "statement": "The number of channel formats kept in the data blocks of the index is at most a fixed multiple of the size of the file. (Every data block gets a copy of the formats of all active channels.)", "quantifier": "all files that open", "why_tests_cant": "all files; the proportion is lost only for files with many channels and many segments", "anchors": ["src/index/building.rs: get_active_raw_data_meta", "src/raw_data/mod.rs: DataBlock::from_segment"]}
{"id": "C91", "title": "How many paths are compared on opening", "statement": "Every object with data is looked for in the list of active objects from its start. The comparisons made are determined by the segments; they are at most the square of the number of objects in the file; and a new list of k different channels takes exactly k(k-1)/2 of them, so that opening takes time that is not proportional to the size of the file.", "quantifier": "all histories of segments; all numbers of channels", "why_tests_cant": "an exact count for every file; the growth shows only with many channels", "anchors": ["src/index/building.rs: update_or_activate_data_object", "src/index/building.rs: add_segment"]}
{"id": "C92", "title": "What the accessors give for names with slashes", "statement": "For every group and channel name, the path made of them answers group_name and channel_name as follows: a name with a slash at its start or end makes the accessor panic when it is reached, a name with slashes only inside is passed over, and a name without slashes is counted. So the names are given back exactly when they have no slash; with an inner slash in the group name the channel's name is returned as the group's and channel_name panics. parse_path gives the names back if neither has a slash, panics if the first name with a slash starts with it, and otherwise refuses the path.", "quantifier": "all names", "why_tests_cant": "all strings; the outcome depends on where the slashes are", "anchors": ["src/paths.rs: PropertyPath::group_name", "src/paths.rs: PropertyPath::channel_name", "src/paths.rs: ChannelPath::group_name", "src/paths.rs: ChannelPath::channel_name", "src/paths.rs: parse_path"]}
{"id": "C93", "title": "Which files have no byte with two meanings", "statement": "In a file that opens, the lead-ins with their metadata and the raw data of all segments share no byte with each other exactly when in each segment the raw data, and the next segment if there is one, start behind the metadata. Then no data block of the index overlaps the lead-in or metadata of any segment.", "quantifier": "all environments, files that open", "why_tests_cant": "every file, every pair of parts of it", "anchors": ["src/index/building.rs: add_segment", "src/raw_data/mod.rs: DataBlock::from_segment", "src/meta_data.rs: Segment::read"]}
{"id": "C94", "title": "When a session can go on after the device has failed", "statement": "Whatever the device does, a run of write calls, syncs and new writers changes the file only in these ways: a call succeeds and appends its segment, a call fails and leaves a beginning of its segment behind, a dropped writer loses the end of the file. The index always holds exactly the segments of the calls that succeeded. On a file that ended with its last segment, further data calls are served whatever their values exactly when the bytes left by failed calls are as many as those lost by dropped writers (in particular none and none), given that the channel list describes the call.", "quantifier": "all environments, devices, buffer sizes, sequences of operations, data calls", "why_tests_cant": "every device behaviour and every sequence of operations", "anchors": ["src/file/file_writer.rs: write_channels", "src/file/file_writer.rs: write_properties", "src/file/file_writer.rs: sync", "src/io/writer.rs: LittleEndianWriter", "src/index/building.rs: add_segment"]}
{"id": "C95", "title": "Exactly the files whose channels are listed by group", "statement": "Listing the channels of a group panics exactly when a path in the file that starts with the group path has a part that is a single quote character. In a file, the channels of every group whose name holds no slash are listed, each once and in ascending order, exactly when no path behind a group path has such a part and no channel has a quote inside its names. Every listed channel exists in the file exactly when for every listed path the path with the quotes doubled as the library writes them is in the file.", "quantifier": "all sessions, all group paths", "why_tests_cant": "every file, including files with paths no library function writes", "anchors": ["src/file/mod.rs: list_channels_in_group", "src/index/querying.rs: paths_starting_with", "src/paths.rs: ChannelPath::try_from"]}
{"id": "C96", "title": "Which samples a read of several channels delivers, and exactly when it is right", "statement": "For different channels whose data are stored in whole blocks as the requested type, which of their samples a read of several channels puts at which place of the buffers depends only on where the channels have data, the start, the order of the request and the lengths of the buffers, not on any value. It gives what a read of each channel alone gives, whatever the values and buffers, exactly when these samples are the start and the following ones for each channel. Two orders of a request give each channel the same, whatever the values, exactly when they take the same samples to the same places.", "quantifier": "all environments, sessions, fixed-size types, requests, starts, buffers, bytes of the file", "why_tests_cant": "every file, request and value", "anchors": ["src/file/channel_reader.rs: read_channels_from", "src/file/channel_reader.rs: execute_read_plan", "src/raw_data/contigious_multi_channel_read.rs: read_with_per_channel_skip", "src/raw_data/interleaved_multi_channel_read.rs: read"]}
{"id": "C97", "title": "What a read gives when the data of a block are not whole chunks", "statement": "For a channel of a fixed-size type whose blocks hold every row that the index counts, a read of the channel from any start gives exactly the samples of the whole rows (interleaved blocks) or of the whole chunks (contiguous blocks), each block from where the code begins in it, cut to the buffer. The channel length is never more than the number of samples that a read from the start gives, and it is that number exactly if no interleaved block with data of the channel has rows beyond its whole chunks. The samples that the index counts come first in each block.", "quantifier": "all environments, sessions, fixed-size types, channels, starts, buffers", "why_tests_cant": "every file, start and buffer", "anchors": ["src/raw_data/interleaved_multi_channel_read.rs: read", "src/file/channel_reader.rs: read_channel_from", "src/index/mod.rs: channel_length"]}
{"id": "C98", "title": "What a read gives whatever the types of the other channels in a block", "statement": "For every element type but strings and extended floats, timestamps included, and blocks with channels of any types, a read of one channel from any start gives exactly the values at the places that follow from counting the channel itself with its real size and every other timestamp channel with 8 bytes per value. These places are those of the samples exactly if no timestamp channel comes before the channel in the block and, unless the block has only one chunk or row, none comes after it. So a channel without a timestamp channel beside it is read correctly from the start, and the length reported for a timestamp channel that has its blocks for itself is twice the number of its samples.", "quantifier": "all environments, sessions, element types but two, channels, starts, buffers, blocks", "why_tests_cant": "every file and every combination of types and numbers of values", "anchors": ["src/raw_data/records.rs: RecordPlan", "src/raw_data/contigious_multi_channel_read.rs: read_sub_block", "src/raw_data/interleaved_multi_channel_read.rs: read", "src/io/data_types/mod.rs: size"]}
{"id": "C99", "title": "Files can be joined end to end", "statement": "If one file that ends with its last segment is followed by the bytes of another whose data segments list their own channels, the result opens, and holds both: its segments are those of the first and of the second moved back, properties are those last given in either, lengths add up, and a read of any channel gives the samples of the first file and then those of the second. The second files for which nothing is lost behind any first file are exactly those in which every segment with samples starts a new list of channels or comes after one in its own file that does; every file the library wrote by successful calls on a new file is among them.", "quantifier": "all environments, pairs of files, channels, starts, buffers", "why_tests_cant": "every pair of files; the exact condition is about all first files", "anchors": ["src/index/building.rs: add_segment", "src/meta_data.rs: Segment::read", "src/file/mod.rs: build_index"]}
{"id": "C100", "title": "A file can be copied through the library", "statement": "A program that opens a file with channels of fixed-size types, lists its groups and channels, and writes to a new file the properties and then all values of each object as it reads them, succeeds; the new file opens, and its answers are those of the old one: names of groups and channels, each and all properties, lengths, and every read of every channel. It does not matter who made the file, in how many segments, in which layout and byte order. Files with the same answers have the same copy byte for byte, so copying the copy gives the copy.", "quantifier": "all environments, files with whole data of fixed-size types and well-formed paths, choices of byte order and layout per channel", "why_tests_cant": "every file, any number of segments, channels and properties", "anchors": ["src/file/mod.rs: list_groups, list_channels_in_group, read_all_properties", "src/file/channel_reader.rs: read_channel, channel_length", "src/file/file_writer.rs: write_channels, write_properties"]}
{"id": "C101", "title": "Which programs make files with the same contents", "statement": "Of two programs of successful calls that keep everything they write, the files give the same answers (names of groups and channels, each and all properties, lengths, every read of every channel) exactly if the programs name the same objects, leave the same last value for every property and give every channel the same values in the same order. So the byte order and layout of the calls, the number of calls a channel's values are spread over, and the order of calls about different objects cannot be seen through the library; adjacent calls without a common object can be swapped and the byte order of any call changed.", "quantifier": "all environments, pairs of call sequences, types per channel", "why_tests_cant": "every pair of programs; both directions of an equivalence", "anchors": ["src/file/file_writer.rs: write_channels, write_properties", "src/index/building.rs: add_segment", "src/file/channel_reader.rs: read_channel_from", "src/raw_data/write.rs"]}
{"id": "C102", "title": "What a read gives when a channel is asked for more than once", "statement": "A read of any list of channels, with repetitions, never fails or panics on stored channels and gives exactly what the blocks deal out to the last request for each channel. A buffer whose channel is asked for again later with a buffer at least as long is left as it was. If moreover every block is entered at the same sample by all channels (in particular when reading from the first sample), the last request for each channel gets what a read without the repetitions gives. Both conditions are needed: otherwise a repeated request shifts the samples of the others, and a longer buffer that comes first is filled with samples from further on behind a gap.", "quantifier": "all sessions, types of fixed size, lists of channels, starts, buffers", "why_tests_cant": "all lists with repetitions over all files, buffer lengths and starts", "anchors": ["src/file/channel_reader.rs: read_channels_from, execute_read_plan, read_plan", "src/raw_data/records.rs: set_readable_records", "src/raw_data/contigious_multi_channel_read.rs", "src/raw_data/interleaved_multi_channel_read.rs"]}
{"id": "C103", "title": "What the build profile, the allocator and the stream can change", "statement": "If one environment allows all that another allows (overflow panics, allocations, seeks), then opening, every read with the values it stores, every length and every write call have the same outcome in both, unless the stricter one shows one of its own limits: a panic on overflow, a refused allocation that the other grants, or a refused seek. In particular a debug and a release build agree wherever the debug build does not panic on overflow, and a Cursor and a File open any file to the same index.", "quantifier": "all pairs of environments, byte strings, files, types, requests, write calls and programs", "why_tests_cant": "the relation of two builds over all files and programs", "anchors": ["src/raw_data/mod.rs: DataBlock::from_segment", "src/index/building.rs: add_segment", "src/io/reader.rs: read_string, read_vec", "src/file/channel_reader.rs", "src/file/file_writer.rs"]}
{"id": "C104", "title": "Exactly which beginnings of a file open, and as what", "statement": "The first k bytes of a file that opens are again a file that opens exactly if the first segment whose lead-in or metadata they do not contain completely is broken off before four of its bytes, or there is no such segment; they open as the segments before it. Every other beginning is refused with an unexpected end of file.", "quantifier": "all environments, files that open, and lengths k", "why_tests_cant": "every cut point of every file", "anchors": ["src/index/building.rs: build_index", "src/meta_data.rs: Segment::read", "src/io/reader.rs"]}
{"id": "C105", "title": "Multi-channel reads of blocks of any make-up", "statement": "Also where the channels of a block have different numbers of values, incomplete last chunks or different types, a read of several channels delivers exactly the described samples: each block serves the channels that want it, and moves all of them on by the count of the last of them. Channels that are in the same blocks with as many samples each stay in step and, unless they are timestamps, get what each read alone gets. Timestamp channels read all at once get the stored values, though read alone they do not.", "quantifier": "all sessions, sized types, lists of different channels, starts and buffers", "why_tests_cant": "all block make-ups, channel orders and buffer lengths", "anchors": ["src/file/channel_reader.rs: read_channels_from, execute_read_plan", "src/raw_data/contigious_multi_channel_read.rs", "src/raw_data/interleaved_multi_channel_read.rs"]}
{"id": "C106", "title": "Reading a file that grows", "statement": "A reader that opened a file does not lose anything when the file grows: its successful reads stay exactly the same on the grown file, and when the grown file is opened anew, the segments found before are the first ones found, blocks and locations are kept, and a read gives the values it gave before, followed by further values only where the channel was at an end. This holds for any bytes added, and in particular for any two moments of a writing program at which the file can be opened.", "quantifier": "all files, all bytes added to them, all programs of writes and all pairs of moments, all channels, types, starts and buffers", "why_tests_cant": "The added bytes, the moments at which a reader looks at a file being written, and the reads made in between are unbounded.", "anchors": ["src/index/mod.rs:22-181", "src/file/mod.rs:36-188", "src/file/channel_reader.rs:79-200"]}
{"id": "C107", "title": "Opening and writing where usize has fewer bits than u64", "statement": "On a machine whose usize is narrower than u64, such as a 32-bit one, a file that opens on a 64-bit machine also opens, with the same objects, properties, formats and blocks; only sample counts may differ, and they are the same exactly if every block in which a channel has samples has fewer chunks than usize has values. Files that are refused are refused with the same error. Every program of write calls makes the same file and index. A larger number of chunks makes the reported length differ.", "quantifier": "all widths of usize, environments, byte sequences, and programs of calls whose values are in memory", "why_tests_cant": "Tests run on one machine, and the differing files tell of more than four thousand million chunks.", "anchors": ["src/raw_data/mod.rs:178-187", "src/index/building.rs:64-142", "src/file/mod.rs:56-89", "src/file/file_writer.rs:39-164"]}
{"id": "C108", "title": "Reading where usize has fewer bits than u64", "statement": "On a machine whose usize is narrower than u64, a read gives exactly what it gives on a 64-bit machine if the numbers of values and the bytes of a chunk or row of the blocks read fit a usize; in particular every read of a file whose data is all there and which is shorter than half of what a usize counts. Without this a read can panic there that succeeds on a 64-bit machine.", "quantifier": "all widths of usize from more than 16 up to 2^64 values, sessions, types, channels, starts and buffers", "why_tests_cant": "Tests run on one machine; the claim is about every file and every read on machines of every width.", "anchors": ["src/raw_data/records.rs:26-138", "src/raw_data/contigious_multi_channel_read.rs:55-172", "src/raw_data/interleaved_multi_channel_read.rs:44-96", "src/file/channel_reader.rs:79-200"]}
{"id": "C109", "title": "String channels, and which reads of any type return", "statement": "Whatever the type of the elements, strings included, if the blocks that hold the samples of a channel have sizes the machine can reckon with and can be sought, then every read of it returns a value or an error exactly if none of those blocks is contiguous and starts with an empty channel; the same condition suffices for reads of several channels. Channels stored only beside strings have no samples and reads leave the buffer alone. An object described as the TDMS format prescribes for strings is read as if the total size were not there: its first half is taken for the number of properties.", "quantifier": "all environments, sessions, element types, channels, starts and buffers; all paths, counts, sizes and properties of string objects", "why_tests_cant": "The tests have no string channel; the claim is about every file and every description.", "anchors": ["src/raw_data/records.rs:26-138", "src/raw_data/contigious_multi_channel_read.rs:55-172", "src/raw_data/interleaved_multi_channel_read.rs:44-96", "src/meta_data.rs:277-299", "src/meta_data.rs:217-243"]}
{"id": "C110", "title": "Reads of any channels, repeated or not, from blocks of any make-up", "statement": "A read of any list of channels, some of them more than once, from blocks in which the channels may have different numbers of values, different types and incomplete last chunks returns without error and leaves the buffers exactly as the described dealing out of the blocks says. A buffer whose channel is asked for again later with a buffer at least as long is left as it was; if all channels enter the blocks alike, the last request for each channel gets what a read without the repetitions gives. Channels that are in the same blocks with as many samples each, read with buffers of one length: each last buffer gets the samples from the start on, all others are left alone.", "quantifier": "all environments, sessions, sized types, lists of channels, starts and buffers", "why_tests_cant": "all lists with repetitions, block make-ups, starts and buffer lengths", "anchors": ["src/file/channel_reader.rs: read_channels_from, execute_read_plan, read_plan", "src/raw_data/records.rs: set_readable_records", "src/raw_data/contigious_multi_channel_read.rs:55-244", "src/raw_data/interleaved_multi_channel_read.rs:44-107"]}
{"id": "C111", "title": "Whole outcome of reading one channel", "statement": "A read of one channel of a sized type, from blocks of any make-up whose data may be missing in whole or in part, gives the values at the described places up to the first place that is not wholly in the file, leaves the rest of the buffer as it was, and succeeds exactly if all places of the window are in the file, and with them the place behind the window if the window ends inside an interleaved block; otherwise it reports an unexpected end of file. Against the same file before it lost its end, the read gives a first part of the values, and all of them if it succeeds.", "quantifier": "all environments, sessions, sized types, channels, starts and buffers, with nothing assumed of the data in the file", "why_tests_cant": "all block make-ups, all places where a file may end, all windows", "anchors": ["src/file/channel_reader.rs: read_channel_from, execute_read_plan", "src/raw_data/contigious_multi_channel_read.rs:55-244", "src/raw_data/interleaved_multi_channel_read.rs:44-107"]}
{"id": "C112", "title": "Any read of a file that has lost its end", "statement": "Take any index and two files of which one is a beginning of the other. Any read of any channels of any type, strings included, does exactly the same on both, errors and panics included, or it reports an unexpected end of file on the shorter one. In that case every buffer holds what the longer file gives up to some place of one block, and from there on what it held before that block. For one channel the buffer begins with the first of the values the longer file gives. A read of the shorter file that does not report the end does the same whatever is appended.", "quantifier": "all environments, files, appended bytes, indexes, types, lists of channels, starts and buffers", "why_tests_cant": "all indexes and all places where a file may end, for reads that fail in any way", "anchors": ["src/file/channel_reader.rs:85-200", "src/raw_data/contigious_multi_channel_read.rs:55-244", "src/raw_data/interleaved_multi_channel_read.rs:44-107", "src/io/data_types/"]}
{"id": "C113", "title": "Several channels in step from a file that has lost its end", "statement": "Take a file and an index of it, and read several different channels of a sized type that stay in step: channels in the same blocks with equal buffers, or from the start with room for everything, or from interleaved blocks only. If the file has lost any number of bytes at its end, every buffer holds a first part of the samples asked for, in place, and is unchanged behind them; the read succeeds with all of them or reports an unexpected end of file. It never panics and never puts a value in a wrong place.", "quantifier": "all environments, sessions, sized types, lists of different channels, starts, buffers and places where the file may end", "why_tests_cant": "all numbers of channels, all block layouts and all places where the file may end, inside a value, a row, a chunk or a block", "anchors": ["src/file/channel_reader.rs:85-200", "src/raw_data/contigious_multi_channel_read.rs:55-244", "src/raw_data/interleaved_multi_channel_read.rs:44-107"]}
{"id": "C114", "title": "Exactly what several channels in step get from a file that has lost its end", "statement": "Under the conditions of C113 (several different channels of a sized type that stay in step, read through an index of the whole file from a file that has lost any number of bytes at its end), every buffer gets exactly those samples of its window whose bytes are all in the file, in order, and is unchanged behind them. If all blocks with samples of these channels from the start of the window on are whole in the file, the read succeeds.", "quantifier": "all environments, sessions, sized types, sets of different channels, starts, buffers in step, and all numbers of missing bytes", "why_tests_cant": "all files, all places where the file may end, all windows", "anchors": ["src/file/channel_reader.rs:120-200", "src/raw_data/contigious_multi_channel_read.rs:55-244", "src/raw_data/interleaved_multi_channel_read.rs:44-107"]}
{"id": "C115", "title": "When channels in the same blocks are read without error from a file that has lost its end", "statement": "Several different channels of a sized type that are in the same blocks with as many samples in each, read with buffers of one length greater than zero, through an index of the whole file, from a file that has lost any number of bytes at its end: the read succeeds exactly if the samples asked for of every channel are in the file, and with them, where the window ends inside an interleaved block, the next sample of every channel. So it succeeds exactly if the reads of the single channels with the same buffers succeed.", "quantifier": "all environments, sessions, sized types, sets of different channels in the same blocks, starts, buffer lengths, and all numbers of missing bytes", "why_tests_cant": "all files, all places where the file may end, all windows and numbers of channels", "anchors": ["src/file/channel_reader.rs:120-200", "src/raw_data/contigious_multi_channel_read.rs:55-244", "src/raw_data/interleaved_multi_channel_read.rs:44-107"]}
{"id": "C116", "title": "Reading channels together or singly from a file that has lost its end", "statement": "The call that reads one channel does what the call for several does with a list of this one, whatever the file and the channel. Different channels of a sized type that stay in step (as in C113), read through an index of the whole file from a file that has lost any number of bytes at its end, get the same samples together as singly. If they are in the same blocks and have buffers of one length (zero included), the common read succeeds exactly if all the single reads do. With empty buffers every read of known channels succeeds and changes nothing, however much of the file is gone.", "quantifier": "all environments, sessions, sized types, channels, starts, buffers, and all numbers of missing bytes", "why_tests_cant": "all files, all places where the file may end, all windows and numbers of channels", "anchors": ["src/file/channel_reader.rs:79-200", "src/raw_data/contigious_multi_channel_read.rs:55-244", "src/raw_data/interleaved_multi_channel_read.rs:44-107"]}
{"id": "C117", "title": "When channels are read whole without error from a file that has lost its end", "statement": "Different channels of a sized type, in any blocks and with any numbers of samples, read from the start with room for all their samples, through an index of the whole file, from a file that has lost any number of bytes at its end: the read succeeds exactly if every sample of every channel is in the file, and exactly if the single reads of the channels succeed.", "quantifier": "all environments, sessions, sized types, sets of different channels, buffers large enough, and all numbers of missing bytes", "why_tests_cant": "all files, all places where the file may end, all windows and numbers of channels", "anchors": ["src/file/channel_reader.rs:79-200", "src/raw_data/contigious_multi_channel_read.rs:55-244", "src/raw_data/interleaved_multi_channel_read.rs:44-107"]}
{"id": "C118", "title": "Channels with different buffers from interleaved blocks of a file that has lost its end", "statement": "Different channels of a sized type in the same blocks, all interleaved, read with buffers of any lengths from a file that has lost any number of bytes at its end: the read succeeds exactly if, in every block, the samples in the rows it goes through are in the file for every channel whose buffer is not yet full at the beginning of the block; the rows are as many as the largest buffer needs and one more if there is one. Hence with buffers of different lengths the common read may fail though all samples asked for are in the file and all the single reads succeed.", "quantifier": "all environments, sessions, sized types, sets of different channels in the same interleaved blocks, starts, buffers, and all numbers of missing bytes", "why_tests_cant": "all files, all places where the file may end, all windows and numbers of channels", "anchors": ["src/file/channel_reader.rs:79-200", "src/raw_data/contigious_multi_channel_read.rs:55-244", "src/raw_data/interleaved_multi_channel_read.rs:44-107"]}
{"id": "C119", "title": "Channels in different interleaved blocks of a file that has lost its end", "statement": "Different channels of a sized type whose blocks are all interleaved, not necessarily the same blocks, read from the start with buffers of any lengths, through an index of the whole file, from a file that has lost any number of bytes at its end: the read succeeds exactly if, for every channel and every block of it that begins before the channel's buffer is full, the channel's samples in the rows gone through there are in the file. The rows are as many as the largest room that a channel with samples in this block still has, and one more if there is one. Hence, if the read of the channels together succeeds, so does the read of each of them alone.", "quantifier": "all environments, sessions, sized types, sets of different channels in interleaved blocks, buffers, and all numbers of missing bytes", "why_tests_cant": "all files, all places where the file may end, all distributions of channels over blocks and all buffers", "anchors": ["src/file/channel_reader.rs:79-200", "src/raw_data/interleaved_multi_channel_read.rs:44-107"]}

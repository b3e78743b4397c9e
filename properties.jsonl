{"id": "C01", "title": "Merged rows come out in time order", "statement": "When every source yields rows with non-decreasing timestamps, the sequence of rows that Driver::drive hands to the chains is non-decreasing in timestamp over the whole run.", "quantifier": "every number of sources, every finite non-decreasing row sequence per source, every timestamp range", "why_tests_cant": "a test fixes the number of sources and the interleaving of their timestamps; ties, exhaustion order and range cut-offs interact in unboundedly many ways", "anchors": ["src/driver/driver.rs: Driver::drive, get_next_buffer_index", "src/driver/source_row_buffer.rs: SourceRowBuffer::has_next"]}
{"id": "C02", "title": "No row is lost, duplicated or reordered within its source", "statement": "In a run that ends normally, the rows handed to the chain fed by a source are exactly that source's rows up to (not including) its first row at or after --end, minus those before --begin, in the source's own order, each exactly once.", "quantifier": "every set of sources (sorted or not), every range", "why_tests_cant": "exactly-once must hold for every history of buffer refills and removals", "anchors": ["src/driver/driver.rs: Driver::drive, get_row_buffers", "src/driver/source_row_buffer.rs: match_next_row, has_next"]}
{"id": "C03", "title": "The time range is the half-open interval [begin, end)", "statement": "No row with timestamp < begin or >= end is ever handed to a chain; for a time-ordered source every row with begin <= timestamp < end is handed over.", "quantifier": "every range (either bound absent or present), every source content", "why_tests_cant": "boundary behaviour must hold for every timestamp value relative to both bounds", "anchors": ["src/driver/source_row_buffer.rs: filter_data_range, match_next_row", "src/cli_app.rs: begin/end help text"]}
{"id": "C04", "title": "Ties between sources are resolved deterministically", "statement": "Whenever the driver picks the next row, it picks one with the minimum pending timestamp, and among the sources pending at that timestamp always the one latest in the sources vector; so merged output is a function of the inputs.", "quantifier": "every state of the pending rows", "why_tests_cant": "needs all tie patterns and all orders of source exhaustion", "anchors": ["src/driver/driver.rs: get_next_buffer_index, get_row_buffers"]}
{"id": "C05", "title": "Source i feeds chain i", "statement": "The rows of sources[i] are processed by header chain i, the chain whose header sinks were given headers[i].", "quantifier": "every number of sources and every content", "why_tests_cant": "tests in the repo only use identical inputs or identical chains, so a permutation of the chain assignment is invisible to them", "anchors": ["src/driver/driver.rs: get_row_buffers, Driver::new", "src/chopper/header_graph.rs: process_header"]}
{"id": "C06", "title": "A source with no row in range is harmless", "statement": "If a source has no row inside the requested range (empty file, or a range that excludes it), the run still succeeds and outputs the other sources' rows.", "quantifier": "every set of sources in which some have no in-range row", "why_tests_cant": "requires considering every combination of empty and non-empty sources", "anchors": ["src/driver/driver.rs: Driver::drive", "src/driver/source_row_buffer.rs: SourceRowBuffer::new"]}
{"id": "C07", "title": "Every sink is flushed after its last row", "statement": "When drive returns Ok, each data sink reachable from a source chain has had flush called after the last row written to it.", "quantifier": "every acyclic graph, every set of sources", "why_tests_cant": "depends on order of source exhaustion and every path through splits and merges", "anchors": ["src/driver/driver.rs: Driver::drive, flush"]}
{"id": "C08", "title": "A chain of sinks behaves as a pipeline", "statement": "Within a chain of data sinks, where each sink may emit 0, 1 or many rows per input row and may be stateful, sink k+1 receives exactly the concatenation, in order, of what sink k emitted.", "quantifier": "every chain length, every sink behaviour including stateful ones, every input sequence", "why_tests_cant": "the recursive/iterative mix for multi-row output must preserve order for every fan-out pattern", "anchors": ["src/driver/driver.rs: process_row", "src/chopper/chopper.rs: DataSink::write_row"]}
{"id": "C09", "title": "Splits and tees deliver an unmodified copy to every target", "statement": "A row that reaches a split or merge node is delivered, unmodified, to each target chain once, in target order, and the same unmodified row then continues down the current chain.", "quantifier": "every acyclic graph of chains, every row, every sink behaviour", "why_tests_cant": "fan-out must hold for every topology", "anchors": ["src/driver/driver.rs: process_row", "src/driver/split.rs: Split"]}
{"id": "C10", "title": "An error stops the run with nothing delivered out of order", "statement": "If a source or sink fails, drive returns that error, and the rows and flushes delivered up to then are a prefix of those of the failure-free run.", "quantifier": "every failure point of every source and sink", "why_tests_cant": "crash points are unbounded", "anchors": ["src/driver/driver.rs: Driver::drive"]}
{"id": "C11", "title": "A merge only joins identical headers", "statement": "If Driver::new succeeds then all headers that reached a MergeJoin node were equal (names and types, in order); a differing header makes it return an error.", "quantifier": "every header graph and header list", "why_tests_cant": "needs all header pairs and arrival orders", "anchors": ["src/driver/merge_join.rs: check_header", "src/chopper/header_graph.rs: check_merge_header"]}
{"id": "C12", "title": "The data graph mirrors the header graph", "statement": "After header processing, data chain k is either empty (chain never reached) or has exactly one node per header node of chain k, in order, with the same split/merge targets.", "quantifier": "every header graph, including ones with shared or cyclic references", "why_tests_cant": "chain ids must stay stable under every order of chain removal", "anchors": ["src/chopper/header_graph.rs: match_remove_chain, swap_remove", "src/chopper/data_graph.rs: DataGraph"]}
{"id": "C13", "title": "Mis-sized merges are rejected", "statement": "If the number of headers that reach a MergeJoin differs from the count it was created with, building the driver fails with an error.", "quantifier": "every graph", "why_tests_cant": "needs all under- and over-fed merges", "anchors": ["src/chopper/header_graph.rs: check_merge_header", "src/driver/merge_join.rs: MergeJoin::new"]}
{"id": "C14", "title": "chop writes the time-ordered merge of its inputs", "statement": "For the graph the command line builds from one or more inputs with equal headers, the output sink receives the header once and then every in-range row of every input exactly once, in time order when the inputs are time ordered, and is flushed at the end.", "quantifier": "every number of inputs, every content, every range", "why_tests_cant": "end-to-end composition of graph construction, header processing, merging and row processing", "anchors": ["src/chopper_cli.rs: setup_graph", "src/driver/driver.rs: Driver"]}
{"id": "C15", "title": "Graph processing terminates", "statement": "Header processing terminates on every header graph, cyclic or not; row processing and flushing terminate on every acyclic data graph.", "quantifier": "every graph", "why_tests_cant": "non-termination cannot be observed by a test", "anchors": ["src/chopper/header_graph.rs: process_header_re, match_remove_chain", "src/driver/driver.rs: process_row, flush"]}
{"id": "C16", "title": "The equality row filter keeps exactly the matching rows", "statement": "RowFilterEqualValue passes a row unchanged if its value in the named column (first case-insensitive name match) equals the given value, and drops it otherwise; the header is unchanged; an unknown column is an error.", "quantifier": "every header, column name, value, row", "why_tests_cant": "all value/type combinations", "anchors": ["src/filter/row_filter_equal_value.rs: process_header, write_row", "src/chopper/types.rs: PartialEq for FieldValue"]}
{"id": "C17", "title": "The greater-than row filter keeps exactly the greater rows", "statement": "RowFilterGreaterValue passes a row unchanged iff its value in the named column is strictly greater than the given value of the same type, and drops it otherwise (including NaN); comparing different types terminates the process.", "quantifier": "every header, column name, value, row", "why_tests_cant": "all value/type combinations including NaN and signed zero", "anchors": ["src/filter/row_filter_greater_value.rs: process_header, write_row", "src/chopper/types.rs: PartialOrd for FieldValue"]}
{"id": "C18", "title": "Deleting a column keeps header and rows aligned", "statement": "ColumnFilterDelete removes exactly the first column whose name matches case-insensitively, from names, types and every row; all other columns keep order and values, so column j of the new header describes value j of the new row.", "quantifier": "every header, column name and row of the header's width", "why_tests_cant": "all positions and widths", "anchors": ["src/filter/column_filter_delete_col.rs: process_header, write_row"]}
{"id": "C19", "title": "Field value comparison is coherent", "statement": "On comparable values of one type, equality is an equivalence away from NaN, ordering is transitive and total away from NaN, and 'compares Equal' coincides with equality; for Double/Float this is IEEE-754 order.", "quantifier": "every pair and triple of field values", "why_tests_cant": "infinitely many values, all type pairs", "anchors": ["src/chopper/types.rs: PartialOrd, PartialEq for FieldValue"]}
{"id": "C20", "title": "DC files round-trip", "statement": "Reading a DC file written by DCSink returns the same header (empty names replaced by col_i) and the same rows: timestamps, nulls and values.", "quantifier": "every header with at least one column of supported types, every finite sequence of rows matching the header", "why_tests_cant": "unbounded rows, widths, null patterns and string lengths", "anchors": ["src/write/dc_sink.rs: process_header, write_row", "src/source/dc_source.rs: new, next_row", "src/util/dc_util.rs"]}
{"id": "C21", "title": "The reader's and the writer's null bitmap agree in size", "statement": "For every number of columns, the number of bitmap bytes DCSink writes per row equals the number DCSource reads per row.", "quantifier": "every column count", "why_tests_cant": "off-by-one at multiples of 8 shows only at widths no test uses", "anchors": ["src/util/dc_util.rs: get_bitset_bytes", "src/write/dc_sink.rs: process_header", "src/source/dc_source.rs: new"]}
{"id": "C22", "title": "A truncated DC file yields a prefix of its rows", "statement": "For every file content and every truncation point, the rows read from the truncated file are a prefix of the rows read from the full file; no truncated row is ever returned.", "quantifier": "every byte sequence and every truncation point", "why_tests_cant": "crash points and contents are unbounded", "anchors": ["src/source/dc_source.rs: next_row"]}
{"id": "C23", "title": "Truncation inside a row is reported", "statement": "If a DC file ends in the middle of a row, reading reports an error rather than a clean end of data.", "quantifier": "every truncation point strictly inside a row", "why_tests_cant": "every crash point", "anchors": ["src/source/dc_source.rs: next_row"]}
{"id": "C24", "title": "String values of any length round-trip", "statement": "A DC string value of any byte length up to 2^32-1 is read back exactly, with short (2 byte) and long (6 byte) length prefixes chosen at 32767.", "quantifier": "every string below 4 GiB", "why_tests_cant": "lengths around the boundary cannot be enumerated with contents", "anchors": ["src/util/dc_util.rs: write_string_value", "src/source/dc_source.rs: read_string"]}
{"id": "C25", "title": "Reading a DC file terminates", "statement": "next_row returns at most one row per 9 bytes of input, so reading a finite DC file always ends.", "quantifier": "every byte sequence", "why_tests_cant": "termination on arbitrary content", "anchors": ["src/source/dc_source.rs: next_row"]}
{"id": "C26", "title": "Unsupported column types are rejected before any row is written", "statement": "A header with a Boolean or ByteBuf column makes DCSink::process_header return an error; all other types are accepted.", "quantifier": "every header", "why_tests_cant": "all type vectors", "anchors": ["src/write/dc_sink.rs: write_field_type"]}
{"id": "C27", "title": "Previewing a stream loses no byte", "statement": "Whatever sizes the underlying reader returns and whatever read sizes the consumer asks for, the bytes obtained from the reader behind ChopperBufPreviewer are exactly the underlying stream, in order.", "quantifier": "every byte stream, every chunking schedule, every sequence of read sizes", "why_tests_cant": "chunking schedules are unbounded", "anchors": ["src/util/reader.rs: ChopperBufPreviewer::new, ChopperBufReader::read, fill_buf, consume, fill_buffer"]}
{"id": "C28", "title": "The preview does not depend on chunking", "statement": "The preview buffer is the first min(8192, length) bytes of the stream for every chunking of the underlying reader.", "quantifier": "every stream and chunking", "why_tests_cant": "chunking schedules are unbounded", "anchors": ["src/util/reader.rs: fill_buffer, ChopperBufPreviewer::new"]}
{"id": "C29", "title": "Preview lines are the complete lines of the preview", "statement": "get_lines returns the newline-terminated lines of the preview with one trailing CR removed, plus the unterminated last line only when the preview did not fill the buffer; it is None exactly when one of those lines is not valid UTF-8.", "quantifier": "every preview content", "why_tests_cant": "all byte patterns and boundary positions", "anchors": ["src/util/reader.rs: get_lines_from_reader, get_line, make_string_no_cr"]}
{"id": "C30", "title": "Compressed streams are recognised exactly by magic number", "statement": "is_compressed_using_previewer returns the format whose magic bytes start the stream and None otherwise; at most one format can match.", "quantifier": "every byte sequence", "why_tests_cant": "all prefixes", "anchors": ["src/decompress/decompress.rs: is_compressed_using_previewer"]}
{"id": "C31", "title": "DC data without a file name is detected as DC", "statement": "A stream that starts with the DC magic number and version is opened by the DC source when format is auto and no file name decides it.", "quantifier": "every DC file", "why_tests_cant": "depends on content after the header", "anchors": ["src/input/input_factory.rs: create_default_source_factories", "src/input/single_file.rs: create_source_by_autodetecting_format", "src/source/csv_factory.rs: can_create_from_previewer"]}
{"id": "C32", "title": "Multi-file input realigns columns to the common header", "statement": "When the header check accepts a file, each row delivered from that file has, at position j, the value of that file's column named like column j of the common header, and of the same type.", "quantifier": "every pair of headers, every row", "why_tests_cant": "all permutations with extra columns and duplicate names", "anchors": ["src/source/multi_file_source.rs: check_headers_match_and_return_swap_map, next_row"]}
{"id": "C33", "title": "Multi-file rows have the width of the common header", "statement": "Every row delivered by SerialMultiFileSource has exactly as many values as the common header has columns.", "quantifier": "every sequence of files", "why_tests_cant": "all extra-column positions", "anchors": ["src/source/multi_file_source.rs: next_row"]}
{"id": "C34", "title": "Directory input reads every file once in path order", "statement": "A directory input yields the rows of its regular (non-directory) entries, each once, in ascending path order, files concatenated.", "quantifier": "every directory listing in every enumeration order", "why_tests_cant": "OS enumeration order is arbitrary", "anchors": ["src/input/files_in_dir_provider.rs: new, get_next_path", "src/source/multi_file_source.rs: next_row, update_to_next_source"]}
{"id": "C35", "title": "Incompatible files are rejected", "statement": "A file lacking a column of the common header, or having it only with another type, makes the multi-file source return an error instead of that file's rows; a file that has every common column, its columns of that name having the common header's type, is accepted.", "quantifier": "every pair of headers", "why_tests_cant": "all header pairs", "anchors": ["src/source/multi_file_source.rs: check_headers_match_and_return_swap_map"]}
{"id": "C36", "title": "A CSV row holds exactly its own record's fields", "statement": "Each row returned by CSVSource holds the fields of its own record; nothing from an earlier record shows up in a later row.", "quantifier": "every record sequence, including short records (the reader is 'flexible')", "why_tests_cant": "needs all sequences of record widths", "anchors": ["src/source/csv_source.rs: update_row, next_row"]}
{"id": "C37", "title": "CSV output columns line up", "statement": "With no delimiter or newline inside names and values, every line CSVSink writes, header included, splits on the output delimiter into the same number of columns, and splitting a row's line gives back the printed time and field texts.", "quantifier": "every header, row of that width, delimiter and config", "why_tests_cant": "all widths, delimiters, time-column settings", "anchors": ["src/write/csv_sink.rs: write_csv_header, write_row"]}
{"id": "C38", "title": "Epoch output at a granularity floors the timestamp", "statement": "The printed epoch is floor(timestamp / unit) and re-reading it at the same unit gives the largest multiple of the unit not exceeding the timestamp; with ns it is exact.", "quantifier": "every timestamp and unit", "why_tests_cant": "2^64 values", "anchors": ["src/write/csv_sink.rs: write_row", "src/source/csv_timestamp.rs: get_timestamp"]}
{"id": "C39", "title": "The guessed delimiter is the most frequent candidate", "statement": "guess_delimiter returns a candidate with the maximum number of occurrences in the line, the earliest listed among ties.", "quantifier": "every line, every candidate list", "why_tests_cant": "all lines, including non-ASCII text", "anchors": ["src/util/csv_util.rs: guess_delimiter"]}
{"id": "C40", "title": "Header guessing is conservative", "statement": "guess_has_header is false whenever there are fewer than two lines or both lines have the same column types in order.", "quantifier": "all lines", "why_tests_cant": "all texts", "anchors": ["src/util/csv_util.rs: guess_has_header, guess_type"]}
{"id": "C41", "title": "The common column type is independent of order", "statement": "guess_common_type returns String if any type is non-numeric (or there is none), otherwise Double if any is floating, otherwise Long; permuting the input does not change it.", "quantifier": "every list of field types", "why_tests_cant": "all lists", "anchors": ["src/util/csv_util.rs: guess_common_type"]}
{"id": "C42", "title": "Automatic time column choice follows the documented priority", "statement": "With automatic column choice: leftmost time<unit>; else date(+time); else time; else prefixed time<unit>; else prefixed date (+time with same prefix); else prefixed time; else column 0. The choice is within the header when it is not empty.", "quantifier": "every list of column names", "why_tests_cant": "all name lists", "anchors": ["src/source/csv_timestamp.rs: get_timestamp_col"]}
{"id": "C43", "title": "Epoch unit detection is unambiguous", "statement": "The four detection ranges are disjoint, scaling never overflows, and the same instant written in s, ms, us or ns detects as its own unit and yields the same nanoseconds.", "quantifier": "every u64", "why_tests_cant": "2^64 values", "anchors": ["src/source/csv_timestamp.rs: RANGE_*, get_timestamp_fmt_auto_with_index", "src/util/timestamp_util.rs: parse_datetime_range_element"]}
{"id": "C44", "title": "Numeric --begin/--end values are interpreted consistently", "statement": "An all-digit argument in a detection range is that instant in nanoseconds; 4, 6 and 8 digit arguments never collide with an epoch range and are completed to YYYY-MM-DD 00:00:00.", "quantifier": "every digit string", "why_tests_cant": "all digit strings", "anchors": ["src/util/timestamp_util.rs: parse_datetime_range_element"]}
{"id": "C45", "title": "Timestamps preserve time order", "statement": "Converting a calendar instant to the row timestamp preserves order.", "quantifier": "every representable instant", "why_tests_cant": "dates before 1970 wrap", "anchors": ["src/source/csv_timestamp.rs: get_timestamp (timestamp_nanos() as u64)", "src/util/timestamp_util.rs"]}
{"id": "C46", "title": "Epoch scaling does not silently change the instant", "statement": "get_timestamp with an explicit unit returns the value times the unit, for every input that fits; inputs that do not fit are not silently wrapped.", "quantifier": "every u64 and unit", "why_tests_cant": "2^64 values", "anchors": ["src/source/csv_timestamp.rs: get_timestamp"]}
{"id": "C47", "title": "A single-file stored zip archive is read back", "statement": "For every archive with one stored entry, the reader yields exactly the entry's bytes and its name.", "quantifier": "every name, content, extra field, comment", "why_tests_cant": "all layouts", "anchors": ["src/decompress/zip.rs: new_reader_for_single_file_zip_archive"]}
{"id": "C48", "title": "Archive corruption is detected at end of data", "statement": "The CRC reader passes bytes through unchanged and, at end of stream, reports an error iff the CRC-32 of what was delivered differs from the expected value, whatever the read sizes.", "quantifier": "every content, chunking, expected crc", "why_tests_cant": "chunkings and contents", "anchors": ["src/decompress/crc32.rs: Crc32Reader::read"]}
{"id": "C49", "title": "A corrupt archive never looks like a complete input", "statement": "If the stream behind a DC source ends in an I/O error (for instance a CRC mismatch), the source reports an error.", "quantifier": "every failure position", "why_tests_cant": "every crash point", "anchors": ["src/source/dc_source.rs: next_row", "src/decompress/crc32.rs"]}
{"id": "C50", "title": "Unsupported archives are rejected", "statement": "Archives with other than one entry, spanning disks, encrypted, or with an unknown method are rejected with an error.", "quantifier": "every archive content", "why_tests_cant": "all byte patterns", "anchors": ["src/decompress/zip.rs: EndOfCentralDirRecord::read, CentralDirHeader::read"]}
{"id": "C51", "title": "The extra field is read within its bounds", "statement": "Reading the central header's extra field consumes exactly the declared number of bytes and takes zip64 values only from a zip64 record.", "quantifier": "every well-formed extra field", "why_tests_cant": "all record lists", "anchors": ["src/decompress/zip.rs: read_extra_field"]}
{"id": "C52", "title": "remove_multiple removes exactly the given positions", "statement": "For strictly ascending in-range indices, remove_multiple leaves exactly the elements at the other positions, in order.", "quantifier": "every vector and index list", "why_tests_cant": "all vectors and index sets", "anchors": ["src/util/remove_multiple.rs: remove_multiple"]}
{"id": "C53", "title": "are_contents_same decides byte equality", "statement": "are_contents_same returns true iff the two files have the same bytes, whatever the sizes individual reads return.", "quantifier": "every pair of contents, every read schedule", "why_tests_cant": "all chunkings", "anchors": ["src/util/file.rs: are_contents_same"]}
{"id": "C54", "title": "Format resolution follows name, then contents", "statement": "A user-given format is used verbatim (dot added if missing) with no content sniffing; with auto, the file name decides if any factory accepts it, at most one compression layer is removed, else contents decide; the first accepting factory wins, user factories before built-ins.", "quantifier": "every name, format, factory list, content", "why_tests_cant": "all combinations", "anchors": ["src/input/single_file.rs: create_source_from_previewer", "src/input/input_factory.rs"]}
{"id": "C55", "title": "Each input gets its format", "statement": "On the command line input i uses the i-th format, inputs beyond the list use the last one, 'auto' or no list means autodetection.", "quantifier": "every number of inputs and formats", "why_tests_cant": "all list lengths", "anchors": ["src/chopper_cli.rs: parse_cli_args"]}
{"id": "C56", "title": "User transports take precedence", "statement": "A path that a user-supplied streaming transport can open is opened by it rather than by a built-in transport.", "quantifier": "every transport list and path", "why_tests_cant": "all transport lists", "anchors": ["src/transport/streaming/previewer_factory.rs: create_previewer", "src/input/input_factory.rs: new_with_optional_csv"]}
{"id": "C57", "title": "chop to a DC file, then reading it, gives the merge back", "statement": "Running chop over inputs with equal headers with DC output and then opening the written file with the DC reader yields the common header (empty names defaulted) and exactly the in-range rows of all inputs, each once, in time order when the inputs are time ordered.", "quantifier": "every number of inputs, every content of supported types, every range", "why_tests_cant": "composes the scheduler, the graph traversal, the encoder and the decoder over all inputs", "anchors": ["src/chopper_cli.rs:setup_graph", "src/driver/driver.rs:drive", "src/write/dc_sink.rs:write_row", "src/source/dc_source.rs:next_row"]}
{"id": "C58", "title": "A CSV row read before a bad record is delivered", "statement": "If the k-th data record of a CSV file cannot be turned into a row (not UTF-8, no readable time, too many fields), the source still returns the rows of all records before it, then an error.", "quantifier": "every CSV file with a bad record after good ones", "why_tests_cant": "needs all files and failure positions", "anchors": ["src/source/csv_source.rs: CSVSource::next_row, update_row"]}
{"id": "C59", "title": "CSV header and row widths agree", "statement": "The header of a CSV source names its columns by the header record's fields (col_0, col_1, ... without one), gives each the type String, has as many names as types, and every row has as many values as there are types.", "quantifier": "every CSV file and configuration", "why_tests_cant": "needs all files", "anchors": ["src/source/csv_source.rs: CSVSource::new"]}
{"id": "C60", "title": "Opening a CSV file without data records does not panic", "statement": "Opening an empty CSV file, or one that has only its header line, succeeds with no rows or reports an error.", "quantifier": "every CSV file without data records, every configuration", "why_tests_cant": "needs all configurations", "anchors": ["src/source/csv_source.rs: CSVSource::new"]}
{"id": "C61", "title": "CSV output can be read back", "statement": "A file written by the CSV sink with epoch times, opened again with the matching delimiter, header and unit settings, yields the written column names and, row by row, the written texts and the timestamp rounded down to the unit.", "quantifier": "every header, row list and unit, for texts that need no quoting", "why_tests_cant": "round trip over all inputs", "anchors": ["src/write/csv_sink.rs", "src/source/csv_source.rs", "src/source/csv_timestamp.rs: get_timestamp"]}
{"id": "C62", "title": "chop to CSV and back", "statement": "chop over any inputs with CSV output, then opening the written file: the rows are the time-ordered merge of the in-range rows of all inputs, as texts, with times rounded down to the output unit.", "quantifier": "every set of inputs with a common header, every time range, every unit", "why_tests_cant": "end-to-end over all inputs and merge schedules", "anchors": ["chop/src/main.rs", "src/driver", "src/write/csv_sink.rs", "src/source/csv_source.rs"]}
{"id": "C63", "title": "The output kind follows from the output's name", "statement": "Output names ending in csv (or no name: standard output) give CSV, names ending in dc give DC, all others an error.", "quantifier": "every output name", "why_tests_cant": "needs all names", "anchors": ["src/write/factory.rs: new_header_sink"]}
{"id": "C64", "title": "CSV output fails exactly on unprintable rows", "statement": "Writing a row to CSV succeeds iff it has no Boolean or ByteBuf value and, for human readable times, a time zone is configured; otherwise an error is reported.", "quantifier": "every row and configuration", "why_tests_cant": "needs all rows", "anchors": ["src/write/csv_sink.rs: write_row"]}
{"id": "C65", "title": "Opening an archive is total", "statement": "For every byte content, opening it as an archive ends with a reader or an error, never a panic or an endless loop; the archive test answers true exactly for contents starting with the local header signature, and false for shorter ones.", "quantifier": "every byte string", "why_tests_cant": "all malformed archives", "anchors": ["src/decompress/zip.rs: is_zip, new_reader_for_single_file_zip_archive"]}
{"id": "C66", "title": "A local file is opened as what its name and contents say", "statement": "A local seekable file that is not a zip archive is previewed from its first byte and resolved under its own file name; a zip archive of one stored file is opened exactly as that file would be, under the member's name, whatever the archive is called.", "quantifier": "every file, archive, path, decoder and set of source factories", "why_tests_cant": "all files and archives", "anchors": ["src/input/single_file.rs: create_source_from_path", "src/util/path.rs: get_file_name"]}
{"id": "C67", "title": "The same data can come from standard input or a pipe", "statement": "Data given on standard input, or through a pipe given by name, is read as a file of the same contents would be, apart from what the file's name tells.", "quantifier": "every content, format and file", "why_tests_cant": "all contents", "anchors": ["src/input/input_factory.rs: create_source_from_input", "src/transport/seekable/file.rs: open"]}
{"id": "C68", "title": "Nothing is written before every input is open", "statement": "The output is created only after all options were understood and every input was opened; if any input is missing or unreadable the output file is left alone and the exit code is not 0.", "quantifier": "every command line, file system and position of the missing input", "why_tests_cant": "all command lines and file systems", "anchors": ["src/chopper_cli.rs: setup_graph"]}
{"id": "C69", "title": "Incompatible inputs leave the output file alone", "statement": "If the inputs' headers differ, so that no output can be produced, an existing output file is not touched.", "quantifier": "every pair of inputs with different headers", "why_tests_cant": "all inputs", "anchors": ["src/chopper_cli.rs: setup_graph", "src/write/factory.rs: new_header_sink"]}
{"id": "C70", "title": "A time column option that is a number is an index", "statement": "Each value of the time column options that is a number selects the column by index, any other value by name; for separate date and time columns each one on its own.", "quantifier": "every option value", "why_tests_cant": "all texts", "anchors": ["src/chopper_cli.rs: parse_csv_input_config"]}
{"id": "C71", "title": "One time zone, from the option or the environment", "statement": "The zone of --timezone, else of CHOPPER_TZ, looked up in the caller's table and then among the known zones, is used alike for bounds, input and output; an unknown name is reported as an error.", "quantifier": "every option, environment, table and zone database", "why_tests_cant": "all names and tables", "anchors": ["src/util/tz.rs: resolve_timezone", "src/chopper_cli.rs: parse_cli_args"]}
{"id": "C72", "title": "Options accepted by the parser do not crash the program", "statement": "Every command line that the argument parser accepts is turned into options or an error, never a panic.", "quantifier": "every accepted command line and environment", "why_tests_cant": "all option values", "anchors": ["src/chopper_cli.rs", "src/cli_app.rs"]}
{"id": "C73", "title": "When the whole program succeeds", "statement": "If the options are understood, all inputs open with equal headers, every input is readable and has a row in range, the output can be created and can represent the rows in range, then the exit code is 0.", "quantifier": "every command line and file system", "why_tests_cant": "all file systems", "anchors": ["src/chopper_cli.rs: chopper_cli", "chop/src/main.rs"]}
{"id": "C74", "title": "How data arrives in pieces does not matter", "statement": "Two runs over files, standard input and HTTP responses with the same bytes, delivered in different chunk sizes, have the same output and exit code.", "quantifier": "every command line and every two chunkings of every input", "why_tests_cant": "all schedules of short reads", "anchors": ["src/util/reader.rs", "src/chopper_cli.rs"]}
{"id": "C75", "title": "chop on DC files gives a DC file with their merge", "statement": "chop over DC files with the same columns and DC output succeeds, and the file written reads as the same columns and the rows in range of all inputs, in time order if each input is, equal times taking the later inputs first; a single input's rows keep their order.", "quantifier": "every number of DC files, rows, bounds", "why_tests_cant": "all files", "anchors": ["src/chopper_cli.rs", "src/source/dc_source.rs", "src/write/dc_sink.rs"]}
{"id": "C76", "title": "A directory is read as its files, one after the other", "statement": "A directory given as input is one input made of its entries that are not directories, in ascending path order, under the first one's header (or no columns if there is none); files with the same columns contribute all their rows.", "quantifier": "every directory listing, in any order, and file contents", "why_tests_cant": "all directories", "anchors": ["src/input/input_factory.rs: create_source_from_input", "src/input/files_in_dir_provider.rs"]}
{"id": "C77", "title": "Any file name can be used", "statement": "A readable local file is opened whatever bytes its name consists of.", "quantifier": "every file name", "why_tests_cant": "all names", "anchors": ["src/util/path.rs: get_file_name"]}
{"id": "C78", "title": "Exit code 0 means the output is complete", "statement": "If the program ends with exit code 0, then all inputs were opened, have equal headers and were read without error to the end of the range, and the output holds the header and exactly the rows in range of all inputs, in time order if each input is, and was flushed.", "quantifier": "every command line, file system, extension and failure", "why_tests_cant": "all failures and inputs", "anchors": ["src/chopper_cli.rs: chopper_cli", "src/driver/driver.rs: drive", "src/error.rs: handle_drive_error"]}
{"id": "C79", "title": "Copying a DC file reproduces it byte for byte", "statement": "chop of one DC file, without bounds, to a DC file writes exactly the input's bytes.", "quantifier": "every DC file written by the sink with at least one row and a supported number of columns", "why_tests_cant": "all files", "anchors": ["src/source/dc_source.rs", "src/write/dc_sink.rs"]}
{"id": "C80", "title": "An output that fails or is slow never looks complete", "statement": "Whatever the output device does (accept only part of what it is offered, refuse a write or a flush, once or for good), what has arrived there when the program ends is a prefix of the complete output; if the program ends with exit code 0 everything has arrived; and a device that only takes its time gets exactly the complete output.", "quantifier": "every command line and input, every output device behaviour, every buffer capacity, every way a row is cut into writes", "why_tests_cant": "device-full can strike at any byte, and the buffer is flushed at arbitrary places", "anchors": ["src/write/csv_sink.rs: CSVSink", "src/write/dc_sink.rs: DCSink", "src/chopper_cli.rs: chopper_cli"]}
{"id": "C81", "title": "Names and contents choose the built-in format", "statement": "Without a configured format, an input named *.csv is read as CSV and one named *.dc as DC whatever it contains, also under a compression suffix; any other name says nothing and the decompressed contents decide: text lines are CSV, the DC magic number and version are DC, anything else is an error.", "quantifier": "every name, every content, every compression", "why_tests_cant": "all names and contents", "anchors": ["src/input/input_factory.rs: InputFactory::create_source_from_previewer", "src/source/csv_factory.rs", "src/source/dc_factory.rs"]}
{"id": "C82", "title": "The DC reader reads every file of the format", "statement": "Every file laid out as the DC format prescribes (magic, version 2, user data, column descriptors with any display hint, rows with a null bitmap of one bit per column, short and long strings) is read with exactly its names, types and rows, whoever wrote it and whatever the number of columns.", "quantifier": "every DC file, of any number of columns and rows", "why_tests_cant": "files come from other programs (Java) as well; all contents and column counts", "anchors": ["src/source/dc_source.rs: DCSource", "src/util/dc_util.rs"]}
{"id": "C83", "title": "The DC reader accepts nothing but the format", "statement": "If reading a DC input ends without an error, the input is a file of the DC format holding exactly the header and rows delivered, followed by fewer than eight stray bytes; if it can be opened at all it starts with a header of the format.", "quantifier": "every byte sequence below 4 GiB - 32 KiB", "why_tests_cant": "arbitrary, possibly damaged or hostile bytes", "anchors": ["src/source/dc_source.rs: DCSource"]}
{"id": "C84", "title": "The DC writer produces the format", "statement": "For every header and rows of the supported types, the file the DC sink writes is a file of the DC format with these columns and rows, so that other readers of the format understand it.", "quantifier": "every header, every rows, every number of columns", "why_tests_cant": "all column counts and values; a test with few columns does not reach the second bitmap byte", "anchors": ["src/write/dc_sink.rs: DCSink", "src/util/dc_util.rs: get_bitset_bytes"]}
{"id": "C85", "title": "A configured time column is the one used", "statement": "A time column given by number is that column; one given by name is the first column with exactly that name, and an error if there is none; a date/time pair keeps its roles (first the date, then the time). The unit of an epoch column is taken from the end of the column's name, if it ends in one.", "quantifier": "every header, every configured column or pair", "why_tests_cant": "all headers, with repeated and similar names", "anchors": ["src/source/csv_timestamp.rs: get_timestamp_col", "src/chopper/types.rs: Header::get_field_index"]}
{"id": "C86", "title": "A row's timestamp is the instant its text denotes", "statement": "With a calendar format, a row's timestamp is the instant its time text denotes under that format: the text's own offset if the format has one, else the configured zone. A text that denotes no single instant (unreadable, no zone given, a local time that the zone skips or has twice) is an error, never some other time.", "quantifier": "every row, format, zone (including zones with gaps and overlaps)", "why_tests_cant": "all texts, zones and transitions", "anchors": ["src/source/csv_timestamp.rs: get_timestamp", "src/util/tz.rs: ChopperTz::from_local_datetime"]}
{"id": "C87", "title": "The time format is the first that reads the first row", "statement": "A configured epoch unit is used as it is, and so is a unit found in the column's name; otherwise the formats tried (the documented list, or the configured format read with offset, as local time, as date) are tried in order on the first row and the first that reads it is used, if the row then denotes an instant, else opening fails; only a single column without configured format may also be a plain number.", "quantifier": "every header, first row, configuration and zone", "why_tests_cant": "all texts; formats can overlap", "anchors": ["src/source/csv_timestamp.rs: get_timestamp_col_and_fmt"]}
{"id": "C88", "title": "Naming the column that is chosen anyway changes nothing", "statement": "If a single time column is found automatically, then configuring exactly this column, by number or by name, reads the same times.", "quantifier": "every header", "why_tests_cant": "all names and cases", "anchors": ["src/source/csv_timestamp.rs: get_timestamp_col"]}
{"id": "C89", "title": "What a --begin/--end date means", "statement": "A bound that is not a plain number is read as RFC 3339 / ISO 8601 with offset if it is one, else as a local date and time in one of the 36 formats {date}{separator}{time}[fraction] in the configured zone; a text that is neither, or that is no single instant in the zone, is an error.", "quantifier": "every text, every zone", "why_tests_cant": "all texts and zones", "anchors": ["src/util/timestamp_util.rs: parse_datetime_range_element"]}
{"id": "C90", "title": "The CSV delimiter argument", "statement": "A delimiter argument is accepted exactly if it is one ASCII character, or backslash-t, which means tab; anything else is an error.", "quantifier": "every argument", "why_tests_cant": "all strings, including multi-byte characters", "anchors": ["src/util/csv_util.rs: parse_into_delimiter"]}
{"id": "C91", "title": "One time column and format for the whole CSV input", "statement": "The time column and format are chosen once, from the header and the first record; every row then gets the time that its own text denotes in that column under that format. With a configured epoch unit every time is the number in the row times the unit.", "quantifier": "every CSV input whose records have the same width, every configuration", "why_tests_cant": "all files", "anchors": ["src/source/csv_source.rs: CSVSource", "src/source/csv_timestamp.rs"]}
{"id": "C92", "title": "The printed time column's name", "statement": "The first column of CSV output's header is the name given with the output options; without one it is timestampSeconds, timestampMillis, timestampMicros or timestampNanos for epoch times by their unit, and time for calendar times. Without printed times there is no such column. Without any CSV option the output has comma separated columns with the nanosecond timestamp first.", "quantifier": "every name, style, unit and header", "why_tests_cant": "all option combinations and headers", "anchors": ["src/source/csv_configs.rs: CSVOutputConfig::new, new_default", "src/source/csv_timestamp.rs: to_suffix_str", "src/write/csv_sink.rs: write_csv_header"]}
{"id": "C93", "title": "Quoted CSV fields are read as their contents", "statement": "CSV input text with quoted fields (delimiters, quotes and line ends inside quotes, quotes doubled), any mix of LF, CR and CRLF line ends, empty lines, a missing last line end, with or without a byte order mark, gives one row per record with exactly the fields the text spells, white space around them dropped.", "quantifier": "every CSV text of that grammar, every delimiter", "why_tests_cant": "all texts and all combinations of quoting and line ends", "anchors": ["src/source/csv_source.rs: CSVSource::new, next_row (csv crate ReaderBuilder settings)"]}
{"id": "C94", "title": "Any string can be written as CSV", "statement": "A string value with a delimiter, a quote or a line end in it is written so that it reads back as the same single field.", "quantifier": "every string value", "why_tests_cant": "all strings", "anchors": ["src/write/csv_sink.rs: write_row"]}
{"id": "C95", "title": "CSV output is read back without options", "statement": "The CSV output of the program with default column names, opened with everything detected automatically, is the same rows with the same times (rounded down to the printed unit).", "quantifier": "every header, row sequence and unit", "why_tests_cant": "all headers, rows and time zones of detection", "anchors": ["src/source/csv_source.rs: CSVSource::new", "src/source/csv_timestamp.rs: get_timestamp_col, get_timestamp_fmt_auto", "src/source/csv_configs.rs: CSVOutputConfig::new", "src/util/csv_util.rs"]}
{"id": "C96", "title": "Output options do what they say", "statement": "With --print-time no a CSV line has only the values; with yes it starts with a time column named by --time-col-name (or timestampSeconds/Millis/Micros/Nanos with -E, time without), holding with -E the number of -g units since the epoch rounded down, and without -E the date and time with that many decimals in the zone of -z; the values of a row are joined by --delimiter exactly as given. Without -E and without a zone every row is an error.", "quantifier": "all command lines the program accepts, all zones, all headers with a column and all rows", "why_tests_cant": "the options combine freely, and names, delimiters, zones and rows are arbitrary", "anchors": ["src/chopper_cli.rs:parse_csv_output_config", "src/cli_app.rs", "src/write/csv_sink.rs:write_row", "src/write/csv_sink.rs:write_csv_header"]}
{"id": "C97", "title": "Input options do what they say", "statement": "The records of a CSV input are those between the delimiters of --csv-in-delimiter, the first being a header exactly if --csv-in-has-header says so (in any case of letters); the time of every record is the text in the column(s) of --csv-in-ts-col or --csv-in-ts-col-date/-time (by number or by name), read in the units of --csv-in-epoch, or under the format of --csv-in-ts-fmt or -date/-time, as a time with offset, local time or date, whichever reads the first record; local times are in the zone of -z.", "quantifier": "all accepted command lines, all file contents whose records have the same width, all chrono behaviours and time zones", "why_tests_cant": "options, formats, columns and file contents combine without bound", "anchors": ["src/chopper_cli.rs:parse_csv_input_config", "src/source/csv_source.rs:CSVSource::new", "src/source/csv_timestamp.rs:get_timestamp_col_and_fmt"]}
{"id": "C98", "title": "Every row takes its route", "statement": "In a run of an acyclic graph that succeeds, every sink is called with exactly the rows and flushes that the chains, splits and merges between the sources and it bring there, in the order in which the driver hands rows over: for each row of each source the rows the sinks on its way make of it, once per way through the graph; each chain fed by a source is flushed exactly once, after its last row.", "quantifier": "all acyclic data graphs whose sinks treat rows one by one, all sources, all sinks' actions", "why_tests_cant": "routes multiply with splits and merges and depend on every sink's answers; the graphs are unbounded", "anchors": ["src/chopper/data_graph.rs: process_row, flush", "src/driver/driver.rs: drive", "src/driver/source_row_buffer.rs"]}
{"id": "C99", "title": "Filtering and merging", "statement": "With one chain of header sinks per input joined by a merge into a last chain, the output gets exactly the rows that pass the filters of the chain their input feeds (input i of n feeds chain n-1-i, see C05) and of the last chain, as those filters left them, in time order, and one flush per input, the last call being a flush.", "quantifier": "any number of inputs and filters, any rows", "why_tests_cant": "numbers of inputs and filters and the interleaving are unbounded", "anchors": ["examples/filter_and_merge.rs: setup_graph", "src/driver/merge_join.rs: MergeJoin", "src/filter/row_filter_greater_value.rs", "src/filter/row_filter_equal_value.rs"]}
{"id": "C100", "title": "Splitting", "statement": "With one input whose chain of header sinks ends in a split, every output gets, independently of the others, exactly the rows of the input that pass the filters before the split and its own, in their order, and then exactly one flush.", "quantifier": "any number of outputs and filters, any rows", "why_tests_cant": "numbers of outputs and filters are unbounded", "anchors": ["examples/split.rs: setup_test_graph", "src/driver/split.rs: Split"]}
{"id": "C101", "title": "Zstd streams deliver the frame's content", "statement": "Reading a zstd-compressed input delivers exactly the content of its frame, every buffer being filled as far as there is content, whatever the blocks the frame is made of, its window size and the buffer sizes the reads use; a block that cannot be decoded is reported as an error after the bytes before it and never looks like the end of the input; so is a stream without a frame.", "quantifier": "all block lists, window sizes and sequences of buffer sizes", "why_tests_cant": "block structures, windows and read sizes are unbounded and interact", "anchors": ["src/decompress/zst.rs: ZstReader::read"]}
{"id": "C102", "title": "Concatenated zstd frames", "statement": "A zstd file of several frames, as written by concatenating compressed files, reads as the concatenation of their contents.", "quantifier": "all files of one or more frames", "why_tests_cant": "quantifies over all files", "anchors": ["src/decompress/zst.rs: ZstReader::new, ZstReader::read"]}
{"id": "C103", "title": "A damaged input is noticed", "statement": "If the program exits with status 0, every file named on the command line (or what it holds, if it is compressed or a zip archive) was whole: no read error occurred, a DC file is a sequence of complete rows, every record of a CSV file is a row of at most the first record's width with a readable time - except for what follows a row at which reading stopped because it was not before the requested end.", "quantifier": "all invocations that succeed, all file contents, all read errors", "why_tests_cant": "quantifies over all file contents and all places where a read may fail", "anchors": ["src/source/dc_source.rs: DCSource::next_row", "src/source/csv_source.rs: CSVSource::next_row", "src/driver/driver.rs: Driver::drive", "src/chopper_cli.rs: chopper_cli"]}
{"id": "C104", "title": "The program end to end, into CSV", "statement": "Given any number of CSV and DC files with the same columns and CSV output, the program writes exactly one header line and one line per row in the requested range, each line made of the requested time text and the values' texts; if every input is in time order so is the output, rows of equal time coming from the last named input first and in file order within an input; a single input keeps its row order whatever it is.", "quantifier": "all option combinations, all file contents, quoting styles, delimiters, chunkings of reads", "why_tests_cant": "quantifies over all files and all options at once", "anchors": ["src/chopper_cli.rs: chopper_cli", "src/source/csv_source.rs: CSVSource", "src/write/csv_sink.rs: CSVSink", "src/driver/driver.rs: Driver", "src/driver/merge_join.rs: MergeJoin"]}
{"id": "C105", "title": "The program end to end, into DC", "statement": "Given any number of CSV and DC files with the same columns and a DC output file, the file written reads back as that header and the rows in the requested range, each once, in time order if every input is, with C104's order of equal times.", "quantifier": "all option combinations, all file contents, all chunkings of reads", "why_tests_cant": "quantifies over all files and all options at once", "anchors": ["src/chopper_cli.rs: chopper_cli", "src/write/dc_sink.rs: DCSink", "src/source/dc_source.rs: DCSource"]}
{"id": "C106", "title": "How an input is packed does not matter", "statement": "Two invocations with the same options, naming files that hold the same data under the same file name - as they are, compressed with any supported format under a name that says so, as the single member (stored, deflated or bzip2) of a zip archive of any name, or as a compressed member - write the same output and exit alike.", "quantifier": "all option combinations, all contents, all packings of each input, decoders that decode", "why_tests_cant": "quantifies over all data, all archives and all combinations of packings", "anchors": ["src/input/single_file.rs: create_source_from_path, create_source_from_previewer", "src/decompress/decompress.rs: decompress", "src/decompress/zip.rs: new_reader_for_single_file_zip_archive", "src/chopper_cli.rs: chopper_cli"]}
{"id": "C107", "title": "The program end to end, any kind of input", "statement": "C104 and C105 hold for every kind of input: files, compressed files, zip archives, compressed archive members, directories (read as their files in path order) and the standard input, whether the format is given with -f, told by the name, or shown by the contents.", "quantifier": "all option combinations, all mixes of input kinds, all contents, all chunkings of reads, decoders that decode", "why_tests_cant": "quantifies over all inputs, packings and options at once", "anchors": ["src/chopper_cli.rs: chopper_cli", "src/input/single_file.rs: create_source_from_path, create_source_from_previewer", "src/source/multi_file_source.rs", "src/source/csv_source.rs: CSVSource", "src/source/dc_source.rs: DCSource"]}
{"id": "C108", "title": "Rows are passed on as they come", "statement": "What has been delivered depends only on what has been read: once every input has come as far as time T (its rows being in time order), all its rows in range before T have been handed to the output, in time order, whatever the inputs do next - more rows, an end, or a failure. With an endless input the output grows without end.", "quantifier": "all inputs, all beginnings of them, all continuations, all ranges, all graphs and all sinks", "why_tests_cant": "quantifies over all possible continuations of the inputs, including endless ones", "anchors": ["src/driver/driver.rs: Driver::drive", "src/driver/source_row_buffer.rs: SourceRowBuffer", "src/chopper_cli.rs: chopper_cli"]}
{"id": "C109", "title": "A truncated CSV file yields a prefix of its rows", "statement": "If the end of a CSV file is missing, from any byte on, the rows read are the first rows of the whole file, in order and unchanged.", "quantifier": "all CSV files, all cut points, all CSV options", "why_tests_cant": "quantifies over all files and all cut points", "anchors": ["src/source/csv_source.rs: CSVSource, next_row, update_row"]}
{"id": "C110", "title": "The example file generator", "statement": "util/dcgen, given an output file, either panics or writes a complete DC file that chopper reads back as exactly the rows 0 to n-1 (100 in the program), row t with timestamp t and the columns a_double, an_int, an_int_timestamp, a_string holding t; if it is interrupted, what is in the file reads back as a beginning of those rows or cannot be opened.", "quantifier": "every number of rows up to 2^31, every way the file takes or refuses the writes, every point of failure", "why_tests_cant": "short writes and full disks at every position", "anchors": ["util/dcgen/src/main.rs: main, write_dc, write_rows, write_row, write_string_value", "src/source/dc_source.rs: DCSource"]}
{"id": "C111", "title": "Several outputs on standard output", "statement": "A graph that splits its input to several CSV outputs which are all standard output (examples/split.rs) prints every output's text completely and in order, and every line printed is a line of one of the outputs.", "quantifier": "every input, time range, filters before and behind the split, number of outputs and their settings, every buffer size", "why_tests_cant": "lines are torn only when an output outgrows its buffer", "anchors": ["examples/split.rs: setup_test_graph", "src/write/csv_sink.rs: CSVSink::new, into_writer, write_row", "src/write/factory.rs: new_header_sink"]}
{"id": "C112", "title": "The test stream can be chopped as it comes", "statement": "The endless CSV stream of util/infistream (row v is v, av, bv, cv, dv, ev, fv) can be read by chop: any number of its rows, saved in a file, is read as those rows - seven text columns col_0 to col_6, no header row mistaken for names, the time of row v being v of the unit given - and copied to CSV row by row; and while the stream is still going on, or after it has been cut off at any byte, every row but the last two received has been handed to the output, in order. This works without telling chop anything about the stream.", "quantifier": "all lengths of the stream, all units in which the times fit 64 bits, all continuations after any row, all output sinks and options of the output", "why_tests_cant": "the stream never ends; all its beginnings and all continuations are quantified over", "anchors": ["util/infistream/src/inficsv.rs: InfiCSV::poll", "src/source/csv_source.rs: CSVSource::new, next_row", "src/source/csv_timestamp.rs: get_timestamp_col_and_fmt", "src/driver/driver.rs: Driver::drive"]}
{"id": "C113", "title": "A run succeeds exactly when its inputs are good", "statement": "For a graph without cycles whose sinks accept every row that can reach them and can always be flushed, drive() returns Ok if and only if every source can be read through the selected time range and has at least one row in it. No schedule of rows, fan-in or fan-out, number of sources or order of times makes such a run fail, stop early, crash or go on for ever.", "quantifier": "all acyclic graphs of chains with sinks, merges and splits in any place, all sinks (as functions of everything they were called with), all lists of sources and all time ranges", "why_tests_cant": "success for all graphs and all rows; the condition on the sinks is over all rows that may reach them", "anchors": ["src/driver/driver.rs: Driver::drive, process_row", "src/driver/merge_join.rs: MergeJoin", "src/driver/split.rs: Split", "src/chopper/data_graph.rs"]}
{"id": "C114", "title": "The filter-and-merge program", "statement": "The example program filter_and_merge prints, as default CSV and merged by time, exactly the rows of its first input whose column_int is greater than value_1 and the rows of its second input whose column_double equals value_2, and exits successfully, for DC inputs with the same header in which the two columns exist and can be compared with the values.", "quantifier": "all pairs of DC files with rows, all column names (any case) and values comparable with the columns, all sequences of rows", "why_tests_cant": "all files, columns and values", "anchors": ["examples/filter_and_merge.rs: setup_graph", "src/filter/row_filter_greater_value.rs", "src/filter/row_filter_equal_value.rs", "src/driver/merge_join.rs", "src/driver/driver.rs: Driver::drive"]}
{"id": "C115", "title": "The compressed and split programs", "statement": "The example program compressed does exactly what chop does with --csv-in-ts-col 0 -E on its input: any file that chop can read so (plain, compressed, in an archive; CSV or DC) is printed as default CSV, every row in order. The example program split prints the default CSV text of its DC input twice, each copy complete and in order, one after the other when the text is smaller than the 8 KiB buffer of an output.", "quantifier": "all worlds and inputs (also bad ones, for the comparison with chop), all readable files, all DC files, all buffer sizes", "why_tests_cant": "all files", "anchors": ["examples/compressed.rs: setup_graph", "examples/split.rs: setup_test_graph", "src/driver/split.rs: Split", "src/write/factory.rs: new_header_sink"]}
{"id": "C116", "title": "Every documented layout of a time is recognised and read correctly", "statement": "A time column in any of the documented layouts (YYYYMMDD.hhmmss, YYYYMMDD hhmmss, YYYYMMDD hh:mm:ss, YYYY/MM/DD-hh:mm:ss, YYYYMMDD; date and time columns with hhmmssmmm, hhmmss, hh:mm:ss, hh:mm or h:mm; ISO 8601 with an offset) is recognised by itself from the first row, whatever the date; every row in it gets the instant its text denotes in the Gregorian calendar: for a local time the instant at which the clocks of the zone show it, for an ISO time the one its offset gives.", "quantifier": "all valid dates of the years 0 to 9999, all times of day, fractions and offsets, all zones given as tables of offset changes, all first rows and following rows in the same layout", "why_tests_cant": "all dates (leap years, month lengths) in all layouts and zones; the layouts are tried in turn, so that each must be rejected by all before it", "anchors": ["src/source/csv_timestamp.rs: get_timestamp_fmt_auto, get_timestamp, TIME_FORMATS_*, DATE_FORMATS_*", "src/util/tz.rs: ChopperTz", "README.md"]}
{"id": "C117", "title": "A local time is an instant only if the clocks show it exactly once", "statement": "In a zone with changes of offset, a local time is turned into the one instant at which the clocks show it; a local time in the hour that is skipped, or in the hour that is repeated, is an error, never a guess.", "quantifier": "all zones (any table of changes in order, changes of any size), all local times", "why_tests_cant": "all instants around all changes of all zones", "anchors": ["src/util/tz.rs: ChopperTz::from_local_datetime"]}
{"id": "C118", "title": "Every layout of --begin and --end means what it says", "statement": "A bound written as a date (with no separator, slashes or dashes), a separator (space, dash or T) and a time of day (with or without colons, with or without a fraction) is the instant at which the clocks of the zone show it; a year, a year and month or a date alone means the first instant of it; an ISO 8601 time with an offset is its instant without any zone. A local time the clocks never or twice show is an error.", "quantifier": "all 36 layouts, all valid dates and times of day, all fractions of any length, all zones", "why_tests_cant": "36 formats are tried in turn and more than one can match; all dates and zones", "anchors": ["src/util/timestamp_util.rs: parse_datetime_range_element, create_datetime_range_formats", "src/chopper/types.rs: TimestampRange::new"]}
{"id": "C119", "title": "Times printed for reading can be read again", "statement": "A time printed in the human-readable style (the default style without -E) is an ISO 8601 time denoting the row's instant rounded down to the printed unit; read again as a time column (recognised by itself), in any zone, or as --begin/--end, it gives that instant.", "quantifier": "all u64 times, all units, all zones for the output and for the reading", "why_tests_cant": "all instants and zones", "anchors": ["src/write/csv_sink.rs: CSVSink::write_row", "src/util/tz.rs: ChopperTz::timestamp", "src/source/csv_timestamp.rs: get_timestamp", "src/util/timestamp_util.rs: parse_datetime_range_element"]}
{"id": "C120", "title": "Numbers are never mistaken for dates", "statement": "A time column of epoch numbers (seconds, milliseconds, microseconds or nanoseconds) between 1989 and 2033 is recognised as such by itself, and the unit is right, with chrono's own parsers deciding what else the text could be.", "quantifier": "all numbers in the four detection ranges; all texts of figures of any length", "why_tests_cant": "all numbers: which of them also match a date layout", "anchors": ["src/source/csv_timestamp.rs: get_timestamp_fmt_auto, TIME_FORMATS_WITHOUT_TZ, RANGE_MILLIS"]}
{"id": "C121", "title": "Options in any order and spelling mean what they say", "statement": "A command line of options (long or short, the value attached, after an equals sign or in the next argument, short flags run together), names of inputs and perhaps a -- followed by names only is either accepted or refused as a whole before anything is opened. It is accepted exactly if no option is given twice, every value is one the help lists and the options fit together (the date and time options in pairs and not beside the single column or format, --csv-in-epoch not beside those); then every option has the value given or the documented default, the inputs are the names in their order, and the order of the options and their spelling make no difference. An option that does not exist, or one at the end without its value, makes the whole command line refused; a request for help or the version is answered as soon as it is read, whatever follows.", "quantifier": "all command lines built from the 18 options with values, the three flags and any names, in any order and spelling, all values", "why_tests_cant": "all orders, spellings and combinations of 21 options", "anchors": ["src/cli_app.rs: CliApp::create_cli_app", "src/chopper_cli.rs: parse_cli_args, parse_csv_input_config, parse_csv_output_config", "chop/src/main.rs: main"]}
{"id": "C122", "title": "Human-readable CSV output is read back without options", "statement": "The CSV output of the program with a time zone and default settings (times as dates and clock times of that zone, in a column called time), opened with everything detected automatically and in any zone, is the same rows with the same times (rounded down to the printed unit).", "quantifier": "every header, row sequence, unit, output zone and zone of the reader", "why_tests_cant": "all headers, rows, zones and outcomes of detection", "anchors": ["src/write/csv_sink.rs: CSVSink::write_row", "src/source/csv_source.rs: CSVSource::new", "src/util/csv_util.rs: guess_has_header, guess_delimiter", "src/source/csv_timestamp.rs: get_timestamp_col, get_timestamp_fmt_auto"]}
{"id": "C123", "title": "Merging in stages gives the same as merging at once", "statement": "Some of the inputs, next to each other, are first merged into a DC file (with the range asked for, or a wider one), and this file is then merged with the other inputs in the place of the first ones, in the same or another state of the world: the output is byte for byte that of merging all inputs in one run. Inputs are in time order with rows inside the range, and a DC file can hold their columns.", "quantifier": "every list of inputs of every kind, every consecutive part of it, all options, ranges and outputs", "why_tests_cant": "relates three runs over all contents, ties included", "anchors": ["src/chopper_cli.rs: parse_cli_args, setup_graph", "src/chopper/driver.rs: Driver::drive", "src/chopper/types.rs: TimestampRange", "src/write/dc_sink.rs: DCSink::write_row", "src/source/dc_source.rs: DCSource::next_row"]}
{"id": "C124", "title": "Chopping in pieces gives the same as chopping at once", "statement": "Two runs on the same inputs with adjoining ranges, up to a time and from that time on, write outputs with the same beginning, and a run over both ranges writes this beginning, then the rows of the first output, then those of the second. No row is lost or repeated at the time between. Inputs are in time order and have rows in both ranges.", "quantifier": "every list of inputs, every begin, end and time between, all options and outputs", "why_tests_cant": "relates three runs over all contents and boundaries", "anchors": ["src/chopper_cli.rs: parse_cli_args, setup_graph", "src/chopper/driver.rs: Driver::drive", "src/chopper/types.rs: TimestampRange", "src/write/dc_sink.rs: DCSink::write_row", "src/source/dc_source.rs: DCSource::next_row"]}
{"id": "C125", "title": "The order of the inputs matters only for rows of equal time", "statement": "The inputs of a run named in another order: the output has the same beginning and the same rows, and the time in each place is the same; if no time occurs in two of the inputs, it is byte for byte the same. Inputs are in time order with rows inside the range.", "quantifier": "every list of inputs and every permutation of it, all options, ranges and outputs", "why_tests_cant": "relates runs over all permutations of all inputs", "anchors": ["src/chopper_cli.rs: parse_cli_args, setup_graph", "src/chopper/driver.rs: Driver::drive", "src/chopper/types.rs: TimestampRange", "src/write/dc_sink.rs: DCSink::write_row", "src/source/dc_source.rs: DCSource::next_row"]}
{"id": "C126", "title": "Narrowing a range in two steps gives the overlap", "statement": "A run with one range into a DC file and a run with another range on that file write, byte for byte, what a single run with the overlap of the two ranges writes. Inputs are in time order with rows inside the overlap.", "quantifier": "every list of inputs, all pairs of ranges, all options and outputs", "why_tests_cant": "relates three runs over all contents and ranges", "anchors": ["src/chopper_cli.rs: parse_cli_args, setup_graph", "src/chopper/driver.rs: Driver::drive", "src/chopper/types.rs: TimestampRange", "src/write/dc_sink.rs: DCSink::write_row", "src/source/dc_source.rs: DCSource::next_row"]}
{"id": "C127", "title": "A file can be chopped in place", "statement": "When the output is the file the only input is read from, the file ends up with the rows and bytes that the run would have written to another file of the same format.", "quantifier": "every local CSV or DC file, all options and ranges, whatever pieces reads and writes come in", "why_tests_cant": "depends on the sizes of two buffers, on all contents and on how reads are cut", "anchors": ["src/chopper_cli.rs: setup_graph", "src/write/csv_sink.rs: CSVSink::new", "src/write/dc_sink.rs: DCSink::new", "src/util/reader.rs: ChopperBufPreviewer::new, ChopperBufReader::fill_buffer"]}
{"id": "C128", "title": "A directory is its files", "statement": "Chopping a directory whose files, taken in the order of their names, continue each other in time writes byte for byte what chopping those files by name writes, rows of equal times included, when they are named from the last to the first; if no time is in two of the files, they can be named in any order.", "quantifier": "every directory, number of files, formats, contents, options, ranges and kind of output", "why_tests_cant": "relates two runs over all contents of all directories, and the order of ties depends on how the merge and the directory reader order files", "anchors": ["src/chopper_cli.rs: chopper_cli", "src/input/input_factory.rs: InputFactory", "src/source/multi_file_source.rs", "src/transport/dir/file.rs: read_dir", "src/input/files_in_dir_provider.rs", "src/driver/merge_join.rs: MergeJoin"]}
{"id": "C129", "title": "The lines of CSV files pass unchanged", "statement": "Chopping CSV files of plain lines (no quotes, no white space around fields) under the same names into CSV with the same delimiter writes the names and those lines of the files whose times are in the range, each once and unchanged, behind its time if times are printed, in the order of their times. One comma-separated file without range and with --csv-out-print-time no is copied byte for byte.", "quantifier": "all numbers of files, names, lines, delimiters, time columns and formats, ranges, ways in which the files are packed", "why_tests_cant": "ranges over all contents of all files, packings and options", "anchors": ["src/chopper_cli.rs: chopper_cli", "src/source/csv_source.rs: CSVSource", "src/write/csv_sink.rs: CSVSink"]}
{"id": "C130", "title": "A URL is the file behind it", "statement": "An http or https URL as an input gives what the file behind it gives when it is a local file of that name, also if reading fails on the way; any answer that is not a success is an error, nothing is written and the exit code is not 0.", "quantifier": "all numbers and mixtures of inputs, answers, contents, names, formats and options", "why_tests_cant": "ranges over all answers of all servers and all command lines", "anchors": ["src/transport/streaming/http.rs: HttpTransport", "src/input/single_file.rs: create_source_from_path", "src/transport/streaming/previewer_factory.rs: create_previewer"]}
{"id": "C131", "title": "Saying what would be guessed changes nothing", "statement": "Giving with an option what the program would otherwise find out itself (the input format with -f, the delimiter, whether there is a header, the time column, the unit or the format of the times) leaves the output and the result unchanged.", "quantifier": "all numbers of CSV and DC inputs, contents (also malformed ones for format, delimiter and header), options, zones and ranges", "why_tests_cant": "compares two runs for all contents and all command lines", "anchors": ["src/source/csv_source.rs: CSVSource::new", "src/source/csv_timestamp.rs: get_timestamp_col, get_timestamp_fmt", "src/chopper_cli.rs: parse_csv_input_config", "src/input/source_factory.rs: create_source_from_previewer"]}
{"id": "C132", "title": "Interrupted system calls do not matter", "statement": "A read or write call that the system interrupts (EINTR, ErrorKind::Interrupted) and that would have succeeded is repeated: the run reads the same rows, writes the same bytes and ends the same way as when no call is interrupted.", "quantifier": "all file contents, all schedules of short and interrupted reads and writes, all sequences of calls, buffer capacities", "why_tests_cant": "depends on where in a schedule of system calls a signal falls; must hold for every place", "anchors": ["src/util/reader.rs: fill_buffer, fill_buffer_one_shot, read, fill_buf", "src/source/dc_source.rs: DCSource::new, next_row", "src/write/csv_sink.rs: write_row", "src/write/dc_sink.rs: write_row"]}
{"id": "C133", "title": "A time layout given by the user means what its letters say", "statement": "With --csv-in-ts-fmt (or a date format and a time format) made of %Y %m %d %e %H %k %M %S (with any padding flag), %F %T %R, %.f %.3f %.6f %.9f %3f %6f %9f %f, %z %:z, %% %n %t, white space and other ASCII characters, in any order and number, every row whose cell shows a moment in that layout gets exactly that moment: with an offset in the layout the instant at that offset, without one the instant at which the clocks of the zone show it (an error if they never or twice do), with a date only the first instant of the day. ISO 8601 times may also have a small t and name UTC (Z, UTC, in any case).", "quantifier": "all layouts (lists of parts), all spellings, all moments of the years 0-9999, all offsets below a day, all zones, all texts that show the moment (leading white space, one or two figures, any number of fraction figures)", "why_tests_cant": "layouts are arbitrary lists of specifiers and the moments are unbounded; must hold for every combination", "anchors": ["src/source/csv_timestamp.rs: get_timestamp_fmt_from_user_spec, get_timestamp", "src/util/timestamp_util.rs: parse_datetime_range_element", "src/source/csv_configs.rs: TimestampFmtConfig"]}
{"id": "C134", "title": "Nothing a time text says is ignored", "statement": "Under a layout given by the user, every number, fraction and offset a row's time text shows is used: rows that show different times get different times or an error, and a text that says different things about the same field is an error.", "quantifier": "all layouts, all pairs of moments, all zones", "why_tests_cant": "ranges over all layouts and all pairs of texts", "anchors": ["src/source/csv_timestamp.rs: get_timestamp_fmt_from_user_spec, get_timestamp"]}
{"id": "C135", "title": "A time text is read as a time exactly if it shows that time in the layout", "statement": "For a documented layout or one given by the user (of the specifiers of C133): an ASCII time text gives a row the time t if and only if the text consists of the layout's parts in order, says t with them (numbers of the allowed number of figures, optional white space before them, a valid day, hour, minute and second, a 60th second counted as a second 23:59:59 that lasts longer, no field said with two values), and the zone's clocks show it once; otherwise the row is an error. No other text is taken for a time. The format chosen from the first row is one in which that row says a time, and there is an error if it says none in any (and is no number). The same holds for --begin and --end.", "quantifier": "all layouts (lists of parts), all ASCII texts, all zones, all first rows, both build profiles", "why_tests_cant": "that nothing else is accepted ranges over all texts; layouts are unbounded", "anchors": ["src/source/csv_timestamp.rs: get_timestamp, get_timestamp_fmt_from_user_spec, get_timestamp_fmt_from_first_row", "src/util/timestamp_util.rs: parse_datetime_range_element"]}
{"id": "C136", "title": "A damaged member of a zip archive is noticed", "statement": "If an input is a zip archive whose member is damaged - the unpacked bytes do not have the checksum the archive states, or the decompressor reports an error - the program does not exit with status 0, unless reading stopped at --end before the place of the damage.", "quantifier": "all archives with one CSV or DC member of any size, stored or compressed, all payloads and wrong checksums, all decompressor errors, all invocations, all schedules of reads", "why_tests_cant": "quantifies over all contents and sizes; the checksum error comes at the end of the member, where a reader may mistake it for the end of the data", "anchors": ["src/decompress/crc32.rs: Crc32Reader::read", "src/decompress/zip.rs: is_zip", "src/source/dc_source.rs: DCSource::next_row", "src/source/csv_source.rs: CSVSource::next_row", "src/driver/driver.rs: Driver::drive"]}
{"id": "C137", "title": "A damaged compressed file is noticed", "statement": "If an input is compressed (a name ending in .gz, .lz4, .lzf or .zst, possibly inside a zip archive) and the decompressor reports an error - the file was cut short, its checksum is wrong, its contents are garbled - the program does not exit with status 0, unless reading stopped at --end before the place of the damage.", "quantifier": "all decompressors (functions of the compressed stream), all compressed and decompressed contents of any size, all errors, all invocations with CSV or DC inputs, all schedules of reads", "why_tests_cant": "quantifies over all contents and all places where the decompressor gives up; only places between two rows go unnoticed", "anchors": ["src/input/single_file.rs: create_source_from_previewer, decompress_using_format", "src/decompress/decompress.rs: decompress", "src/source/dc_source.rs: DCSource::next_row", "src/source/csv_source.rs: CSVSource::next_row", "src/driver/driver.rs: Driver::drive"]}
{"id": "C138", "title": "A damaged file in a directory is noticed", "statement": "If an input is a directory and the program exits with status 0 without --end, every file in the directory was opened and read to its end without an error: none was cut short or damaged.", "quantifier": "all invocations, all directories with any number of files of any contents, plain, compressed or in archives, all read errors", "why_tests_cant": "quantifies over all directories, contents and places of damage; a file is opened only after all rows of the one before it", "anchors": ["src/source/multi_file_source.rs: SerialMultiFileSource::next_row, update_to_next_source", "src/input/input_factory.rs: create_source_from_input", "src/input/files_in_dir_provider.rs", "src/driver/driver.rs: Driver::drive"]}
{"id": "C139", "title": "The compressed test stream decompresses to the test stream", "statement": "infinite.csv.gz of util/infistream, decompressed, is infinite.csv: after any number of polls, what has been sent decompresses to a beginning of the rows 0, 1, 2... taken from as many polls, short of them by no more than the compressor holds back; so every row comes through.", "quantifier": "all numbers of polls, all compressors that can be decoded with a bounded delay, whatever number of bytes each write takes", "why_tests_cant": "the stream never ends; how much of a write the compressor takes, and when it puts data out, are up to the compressor", "anchors": ["util/infistream/src/inficsvgz.rs: InfiCSVGZ::new, poll", "util/infistream/src/inficsv.rs: InfiCSV::poll"]}
{"id": "C140", "title": "A damaged input of any kind is noticed", "statement": "If an input - a file under any name, the member of a zip archive, or the standard input, compressed or not, its format told by its name, by -f, or shown by its contents - cannot be read to its end because of a read error, a checksum error or an error of the decompressor, the program does not exit with status 0, unless reading stopped before because of --end.", "quantifier": "all invocations, all lists of inputs and formats, all contents, all places and kinds of read and decompression errors, all sizes of the pieces data arrives in", "why_tests_cant": "quantifies over all ways to name, pack and recognise an input, and all places of the damage; the standard input may fail at any byte", "anchors": ["src/input/single_file.rs: create_source_from_previewer", "src/input/input_factory.rs: create_source_from_input", "src/util/reader.rs: Previewer", "src/source/csv_source.rs: next_row", "src/source/dc_source.rs: next_row", "src/driver/driver.rs: Driver::drive"]}
{"id": "C141", "title": "What has been written when an input breaks off is the beginning of what would have been written", "statement": "If CSV inputs - under any name, in a zip archive, on the standard input, compressed or not - break off with a read error or an error of the decompressor, and the run with these inputs gets as far as to write, then everything it has written is a prefix of what the same run writes when the inputs go on instead; no row is made up from the cut line, and without --end the broken run does not exit with status 0.", "quantifier": "all invocations, all lists of inputs and formats, all contents, all subsets of the CSV inputs that break off and all places and kinds of error, all continuations, all sizes of the pieces data arrives in", "why_tests_cant": "compares two runs for every place at which any of the inputs can break off and for every continuation; merging interleaves the rows of the inputs in between", "anchors": ["src/source/csv_source.rs: next_row", "src/driver/driver.rs: Driver::drive", "src/driver/merge_join.rs", "src/chopper_cli.rs: chopper_cli", "src/util/reader.rs: Previewer"]}

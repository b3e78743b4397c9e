CLAIMS = [
("C01","proved","C01_time_order",""),
("C02","proved","C02_exactly_once",""),
("C03","proved","C03_half_open_range",""),
("C04","proved","C04_tie_break C04_equal_times",""),
("C05","partial","C05_reversed C05_source_feeds_chain_refuted C05_middle_source_partial","The code violates it: rows of sources[i] go to chain n-1-i. Proved: the exact assignment, the refutation, and that only the middle source of an odd number gets its own chain."),
("C06","partial","C06_empty_source_refuted C06_nonempty_sources_partial","The code violates it (Driver::drive unwraps the first row of every source); proved where every source has a first row."),
("C07","proved","C07_flushed",""),
("C08","proved","C08_pipeline",""),
("C09","proved","C09_tee C09_tee_delivery",""),
("C10","proved","C10_prefix_of_failure_free C10_returns_the_failure C10_success_is_clean C10_nothing_after_failure C10_nothing_after_failure_anywhere",""),
("C11","partial","C11_merged_headers_equal_partial C11_mismatch_is_error C11_split_unchecked_refuted","Headers that merge through Merge nodes are compared; a header arriving through a Split target is not (refuted)."),
("C12","proved","C12_mirror C12_complete",""),
("C13","partial","C13_underfed_refuted C13_overfed_panics_refuted C13_merge_count_partial C13_none_refused","The code violates it: an underfed merge is accepted, an overfed one panics; when all counts match construction is fine."),
("C14","proved","C14_chop C14_order C14_graph C14_succeeds C14_different_headers","For sources that each have a row in range (see C06)."),
("C15","proved","C15_headers_terminate C15_data_terminates C15_cyclic_diverges",""),
("C16","proved","C16_equal_filter",""),
("C17","proved","C17_greater_filter",""),
("C18","proved","C18_delete_column",""),
("C19","proved","C19_comparison_coherent",""),
("C20","partial","C20_roundtrip_partial C20_one_column_refuted C20_nine_columns_refuted C84_wrong_column_counts_refuted","Round trip proved for all column counts for which reader and writer use the same bitmap size; refuted otherwise (C21)."),
("C21","partial","C21_bitmap_sizes_refuted C84_wrong_column_counts_refuted","The code violates it for every column count that is 1 modulo 8."),
("C22","proved","C22_truncated_prefix",""),
("C23","partial","C23_partial_timestamp_refuted C23_cut_row_partial","A cut inside the 8 timestamp bytes looks like a clean end (refuted); a cut anywhere later in the row is reported (proved)."),
("C24","proved","C24_string_roundtrip",""),
("C25","proved","C25_terminates",""),
("C26","proved","C26_unsupported_rejected C26_values",""),
("C27","proved","C27_opens C27_no_byte_lost C27_everything_arrives C27_read_exact",""),
("C28","proved","C28_preview_is_prefix",""),
("C29","proved","C29_lines C29_lines_exist utf8_well_formed",""),
("C30","proved","C30_magic",""),
("C31","partial","C31_which_source C31_no_newline_refuted C31_counterexample_refuted C31_small_file_partial C31_without_csv_partial","The CSV factory is asked first and accepts DC data whose preview has no non-UTF-8 complete line; proved for DC files shorter than the preview and without CSV support."),
("C32","proved","C32_columns_realigned C32_external_header C32_every_row",""),
("C33","partial","C33_wider_file_refuted C33_width_partial","The code violates it for files whose columns start with the common header and go on; proved for all others."),
("C34","proved","C34_directory C34_order_of_names",""),
("C35","proved","C35_accepts_and_rejects C35_distinct_names C35_error_reported",""),
("C39","partial","C39_most_frequent_partial C39_ascii_partial C39_non_ascii_refuted","The code compares only the low byte of each character, so other characters count as delimiters (refuted); proved for lines without such characters, in particular ASCII ones."),
("C40","proved","C40_conservative C40_fields_and_types_unique","f64 parsing is a parameter."),
("C41","proved","C41_common_type C41_order_irrelevant",""),
("C42","proved","C42_time_column C42_within_header C42_kinds_exclusive","Unicode lowercasing is a parameter."),
("C43","proved","C43_detected_unit C43_disjoint C43_same_instant C43_range_argument C43_decimal_texts","chrono is a parameter: for CSV detection the text must not be accepted by a date format; which texts of figures are is C120 (some milliseconds are)."),
("C44","proved","C44_completed C44_epoch C44_range",""),
("C45","partial","C45_order_exactly C45_since_1970_partial C45_before_1970_refuted","Instants before 1970 wrap to huge timestamps (refuted); exact characterisation of when order is kept."),
("C46","partial","C46_exact_partial C46_overflow_refuted","Release builds wrap products that do not fit (refuted); otherwise exact."),
("C52","proved","C52_remove_multiple",""),
("C53","proved","C53_same_contents",""),
("C54","proved","C54_resolution C54_user_format_no_sniffing C54_user_factories_first",""),
("C55","proved","C55_formats C55_defaults",""),
("C56","partial","C56_builtin_wins_refuted C56_user_open_error_aborts_refuted C56_user_transport_partial C56_builtin_transports","The code violates it: the last matching transport wins; proved where no built-in transport can open the path."),
("C57","proved","C57_chop_to_dc_and_back",""),
("C36","partial","C36_same_width_partial C36_carry_over C36_short_record_refuted C36_long_record_refuted","The code violates it: a short record keeps the previous row's remaining values, a long one panics (refuted; C36_carry_over says exactly what short ones do). Proved when all records have the same number of fields."),
("C37","partial","C37_rows C37_file_partial C37_other_delimiter_refuted C37_no_columns_refuted","The header line is always joined with commas (refuted for other delimiters), and has an empty extra column when only the time is printed. Rows proved for every delimiter; whole file for commas."),
("C38","proved","C38_floor",""),
("C58","partial","C58_row_before_error_lost_refuted C36_same_width_partial","The code violates it: the row just before a bad record is lost; the theorem gives exactly what is delivered."),
("C59","partial","C59_header C59_header_width_refuted","Names, types and row widths proved; the number of names differs from the number of types when the header record and first row have different lengths (refuted)."),
("C60","partial","C60_no_data_refuted C60_crash_exactly","The code violates it: it panics. C60_crash_exactly: without overflow checks, opening panics exactly if there is no data record or the first one has no cell in the time column."),
("C61","proved","C61_roundtrip","The csv crate's splitter is modelled concretely (csv_records)."),
("C62","proved","C62_chop_to_csv_and_back",""),
("C63","proved","C63_output_kind",""),
("C64","proved","C64_errors",""),
("C47","partial","C47_stored_partial C47_compressed_partial C47_many_extras_refuted C47_signature_in_comment_refuted","The code violates it: an archive whose comment contains the end signature, or with more than 385 extra records, is rejected. Proved (also for zip64 archives and, up to the decoder, compressed members) for archives with an unambiguous end record and a tolerated extra field."),
("C48","proved","C48_crc C48_clean_end C48_damage_noticed C48_standard","CRC-32 is modelled bit by bit."),
("C49","partial","C49_error_lost_refuted C49_csv_partial","The code violates it: DCSource takes an I/O error at a row boundary for the end. Proved for CSV input."),
("C50","proved","C50_accepted C50_entries_or_disks C50_member","C50_accepted holds of arbitrary bytes."),
("C51","partial","C51_beyond_refuted C51_comment_refuted C51_values_partial C51_too_short","The code violates it: the record headers are not counted, so reading goes on behind the field. The values are right when something like an end record follows."),
("C65","proved","C65_total C65_is_zip",""),
("C66","proved","C66_plain_file C66_archive_like_its_member","Compressed members: C47."),
("C67","partial","C67_stdin_partial C67_named_pipe_refuted C67_zip_on_stdin_refuted","The code violates it: a pipe given by name is always refused (the zip check seeks), and a zip archive on standard input is refused. Proved for standard input otherwise."),
("C68","proved","C68_output_untouched C68_missing_input",""),
("C69","partial","C69_truncated_refuted C69_left_alone_partial","The code violates it: the output is created, so truncated, before the headers are compared. C69_left_alone_partial: it is left alone exactly if its name is of no known kind or nothing can be created there."),
("C70","partial","C70_single_column C70_two_columns_partial C70_mixed_refuted","The code violates it when exactly one of the two is a number: it is then taken for a name."),
("C71","partial","C71_zone_partial C71_one_zone C71_unknown_zone_refuted","The code violates it: an unknown zone panics. The rest is proved, for an abstract zone database."),
("C72","partial","C72_no_crash_partial C72_print_time_case_refuted C72_far_bound_refuted","The code violates it: --csv-out-print-time YES and bounds before 1677 or after 2262 panic in a build with overflow checks and mean another instant in one without (as does an unknown zone, C71)."),
("C73","proved","C73_success",""),
("C74","proved","C74_chunking","For reads that do not fail; decoders and extensions are assumed not to depend on the chunking themselves."),
("C75","proved","C75_dc_files","For the column counts of C20, with names."),
("C76","proved","C76_directory C76_same_columns",""),
("C77","partial","C77_name_not_utf8_refuted C77_utf8_names_partial","The code violates it: a name that is not UTF-8 panics (file names inside a directory input can be such). For UTF-8 names see C66; C77_utf8_names_partial: which UTF-8 name a file has does not matter if the format is given or the names tell nothing."),
("C78","proved","C78_exit_0_complete","Over an output that takes every write; C80 adds outputs that fail."),
("C79","proved","C79_dc_copy","For the column counts of C20, with names."),
("C80","proved","C80_faulty_output","Output device = arbitrary plan of partial writes and errors under std::io::BufWriter; how a row is cut into write_all calls is arbitrary. ErrorKind::Interrupted (retried by std) is not modelled."),
("C81","proved","C81_names C81_contents",""),
("C82","proved","C82_reads_every_file","Against a relational specification of the format (DcLayout.v)."),
("C83","proved","C83_reads_only_files C83_opens_only_headers","Below 4 GiB - 32 KiB (a negative short string length is read as a length near 4 GiB)."),
("C84","partial","C84_writes_the_format_partial C84_wrong_column_counts_refuted C20_one_column_refuted","The code violates it for one column (panics) and for every column count that is 1 modulo 8; proved for the others."),
("C85","proved","C85_configured_columns",""),
("C86","partial","C86_instant_partial C86_local_times C86_far_instant_refuted","chrono's parsers and the zone database are parameters. The code violates it for instants outside 1677-2262 (panic with overflow checks; without them another instant's time, unless between 1970 and 2554) and before 1970 (C45)."),
("C87","proved","C87_format","chrono's parsers and the zone database are parameters."),
("C88","partial","C88_pinned_partial C88_case_refuted C88_fallback_refuted","The code violates it: a unit in the name is found in any case when the column is chosen automatically, but only in lower case when it is configured (the program's own output header timestampMillis etc. is affected), and a fallback first column named like a unit is treated differently. Proved for lower-case names chosen by name."),
("C89","proved","C89_bounds","For texts with a character that is not a digit; digit texts are C43/C44. If several formats read the text they are assumed to agree (with chrono's own parser they do: C118)."),
("C90","proved","C90_delimiter C90_otherwise_error",""),
("C91","proved","C91_csv_times C91_epoch",""),
("C92","proved","C92_time_column_name C92_defaults",""),
("C93","proved","C93_quoted_fields","About the model of the csv crate's record reader (csv_records), which is part of the trusted model, and the source above it."),
("C94","partial","C94_delimiter_refuted C94_line_end_refuted C61_roundtrip","The code violates it: strings are written unquoted, so a delimiter or a line end splits the field. C61 proves it for strings without special characters."),
("C95","partial","C95_default_partial C95_other_column_refuted C95_first_time_refuted","The code violates it: it does not recognise the name it gives to its own time column, so another column whose name speaks of times is used instead, and times outside 1990-2033 cannot be read. Proved for the other cases."),
("C96","proved","C96_output_options",""),
("C97","proved","C97_input_options","About the model of the csv source over any record splitter; chrono's parsing is a parameter."),
("C98","proved","C98_routes C98_one_route C98_driver_calls","For sinks whose answer to a row does not depend on earlier calls (all sinks of the repository); C08 covers the others."),
("C99","proved","C99_filter_and_merge C99_exactly_the_kept_rows C99_time_order C99_filter_steps","Inputs and chains are paired in reverse, as the code does (C05)."),
("C100","proved","C100_split",""),
("C101","proved","C101_whole_content C101_pieces C101_damage_is_reported C101_no_frame","ruzstd's FrameDecoder is modelled by its interface: blocks with given contents, window, collectable bytes."),
("C102","partial","C102_one_frame_partial C102_further_frames_refuted","The code violates the property: only the first frame is read, the rest of the file is silently dropped. Proved for files of one frame, and the violation for every file with a nonempty second frame."),
("C103","partial","C103_dc_damage_partial C103_csv_damage C103_dc_damage_refuted","For files, members of zip archives and compressed files. CSV part proved in full. The code violates the DC part: fewer than 8 bytes after the last row, or a read error at the start of a row, are taken for the end of the file; proved that nothing else goes unnoticed, and the violation for every such file."),
("C104","proved","C104_to_csv","Every input has a row in the range; the columns are the same (C69 otherwise)."),
("C105","proved","C105_to_dc","As C104."),
("C106","proved","C106_packing","The gzip, lz4, lzf, deflate and bzip2 decoders are parameters assumed to decode the data at hand."),
("C107","proved","C107_to_csv C107_to_dc","As C104 and C106. Archives hold their member first; directories hold files with the same columns and names that compare differently."),
("C108","proved","C108_streaming C108_chop C108_csv_input","In the general theorem a sink may refuse an event; then all continuations end alike."),
("C109","partial","C109_all_but_the_last_partial C109_at_a_line_end_partial C109_same_lines C109_cut_value_refuted","The code violates it: a record cut short is taken for a row, with a cut value or time and, for missing fields, the values of the row before. Proved for all rows but the last, and for cuts at line ends. The guesses must see the same lines (a cut behind the first 8 KiB)."),
 ('C110', 'partial', 'C110_generated_file_partial C110_interrupted_partial C110_short_write_refuted', 'The code violates it when the file takes fewer bytes than offered: strings and bitmaps are written with a single `write` whose count is ignored. Proved for files that take 18 bytes or more per call, or fail.'),
 ('C111', 'partial', 'C111_each_output_in_order C111_small_outputs_partial C111_torn_lines_refuted', 'The code violates the second half: every sink has a buffer of its own over the same standard output, so outputs of more than 8 KiB are interleaved in the middle of lines. Completeness and order of each output are proved in general, whole lines for outputs that fit into their buffers. Standard output is taken to accept everything.'),
 ('C112', 'partial', 'C112_contents C112_chop C112_endless C112_no_units_refuted', 'The code violates the last sentence: the times 0, 1, 2... are in no range that is detected, so without --csv-in-epoch the stream is rejected (refuted theorem). Everything else is proved with that option. Assumes that the float parser rejects a letter a-f before digits and that lower-casing keeps lower-case names. The .gz stream is C139.'),
 ('C113', 'proved', 'C113_success C113_exactly', 'Which rows can reach a sink is `may_reach`, an inductive over-approximation that does not mention the driver loop. An input without any row in the range makes the run fail (C09).'),
 ('C114', 'partial', 'C114_two_files_partial C114_same_file C114_own_filter_refuted', 'The code violates it for two different files: sources are assigned to chains in reverse order (C05), so the first input goes through the second filter and the other way round (proved as C114_two_files_partial, with the order of ties; the property itself refuted by a theorem). For one file given twice, as in the example, it holds (C114_same_file). The file names, columns and values of the example are parameters.'),
 ('C115', 'proved', 'C115_compressed_is_chop C115_compressed C115_split', 'For larger texts the two copies of split.rs are mixed at buffer boundaries (C111). The input file names are parameters.'),
 ('C116', 'proved', 'C116_documented C116_iso', 'With chrono 0.4.19 itself modelled (ChronoModel: format strings, parsing, the calendar), not a parameter. Instants outside the i64 range of nanoseconds are C86.'),
 ('C117', 'proved', 'C117_local_times', 'A zone is a table of UTC seconds and offsets as in chrono-tz; the binary search is modelled as a filter of the spans.'),
 ('C118', 'proved', 'C118_bounds C118_iso', 'The values asserted by the unit tests of timestamp_util.rs are computed in C118_example.'),
 ('C119', 'partial', 'C119_shown C119_read_back C119_bound C119_far_refuted C119_seconds_refuted', 'Proved for offsets of whole minutes and instants before 2262. The code violates it elsewhere: an offset with seconds is printed without them, so that the text is another instant (Liberia until 1972; C119_seconds_refuted), and from 2262 on a build with overflow checks crashes when it reads what it printed (C119_far_refuted).'),
 ('C120', 'partial', 'C120_figures C120_never_a_date C120_same_instant C120_millis_refuted', 'The code violates it for milliseconds: chrono lets a space in a format match nothing and %S one figure, so thirteen figures can match %Y%m%d %H%M%S; such a number (C120_figures says exactly which texts; about one in 200 of the milliseconds since 2001) is read as a time in the years 1000 to 1999 (C120_millis_refuted). Seconds, microseconds, nanoseconds and all other milliseconds are right (C120_same_instant).'),
 ('C121', 'proved', 'C121_command_line C121_total C121_order C121_program C121_value_missing C121_unknown C121_help', 'clap 2.33.3 is modelled from its behaviour for these declarations (its source is not in the repository). Command lines outside the grammar of CommandSpec (an option where a value is expected, a value for a flag, arguments that are not UTF-8) are not claimed. That -E and -H are accepted together is in ex_c121_both.'),
 ('C122', 'partial', 'C122_default_partial C122_words_refuted C122_other_column_refuted', "The code violates the property: if the names and the values of the first row look alike (all words, say), the header line is taken for a row and opening fails (C122_words_refuted); a column called date or time with a unit displaces the program's own time column (C122_other_column_refuted). Proved otherwise, for plain ASCII names without too many blanks, plain texts and times before 2262."),
 ('C123', 'proved', 'C123_stages', 'For CSV and DC outputs and any kind of input (files, compressed, archived, directories).'),
 ('C124', 'proved', 'C124_pieces', 'The beginning and the text of each row are pinned down: header line and lines for CSV, a readable DC file for DC.'),
 ('C125', 'proved', 'C125_input_order', ''),
 ('C126', 'proved', 'C126_ranges', ''),
 ('C127', 'partial', 'C127_small_partial C127_only_the_beginning C127_rows_lost C127_any_size_refuted', 'For files of up to 8 KiB and outputs below 8 KiB the result is that of a run into another file. For longer files the run is that on the first 8 KiB (C127_only_the_beginning), and the rows after them are lost with exit code 0 (C127_rows_lost, C127_any_size_refuted): the code violates the property. Outputs of 8 KiB or more, which are written before the input has been read, are not modelled.'),
 ('C128', 'proved', 'C128_directory', 'Both runs succeed with the same output. Files holding no row in the range are excluded as in C123 (has_rows).'),
 ('C129', 'proved', 'C129_lines C129_one_file', 'The delimiter may be configured or guessed, so may the header; the header line of the output is always joined with commas (C37), which is why the copy needs a comma.'),
 ('C130', 'partial', 'C130_like_the_file_partial C130_error C130_zip_refuted', 'Proved for everything but zip archives; ureq is a parameter (a status and a body for each URL). The code violates it for zip archives, which are only looked for in local files: a URL ending in .zip is always refused (C130_zip_refuted).'),
 ('C131', 'partial', 'C131_format_said C131_delimiter C131_has_header C131_units C131_time_format C131_column_partial C131_column_refuted', "Proved for all options but the column, for local files whose names end in .csv or .dc; the delimiter and header theorems hold for failing runs too; the time format is chrono's parser as modelled (ChronoModel). The code violates it for the time column: naming the column that is chosen anyway makes the end of its name count as a unit (C131_column_refuted); it holds when the end of the name means the same (C131_column_partial)."),
 ('C132', 'partial', 'C132_rows_partial C132_open_partial C132_output_partial C132_everything_partial C132_refuted', 'The code violates it when an input is opened: an interruption during the preview of the first 8 KiB ends the run with an error (C132_refuted). It holds for the reads of a DC source after that (C132_rows_partial), for all writes (C132_output_partial, C132_everything_partial), and an opening that does not report the interruption is as if there had been none (C132_open_partial). The reads of the csv crate after the preview are not modelled call by call.'),
 ('C133', 'proved', 'C133_offset C133_local C133_day C133_iso', 'With chrono 0.4.19 itself modelled (ChronoModel). The other letters of strftime (names of months and days, %y, %I, %j, %s, ...) are a parameter of the model (foreign); instants outside the i64 range of nanoseconds are C86.'),
 ('C134', 'partial', 'C134_clash_partial C134_unused_refuted C133_offset C133_local', 'The code violates it: a layout with a date, and an hour without minutes or a fraction without seconds, falls through to NaiveDate::parse_from_str, and the hour and the offset shown are ignored; all rows of a day get the same time (C134_unused_refuted). It holds for repeated fields (C134_clash_partial), and for layouts with a time of day by C133.'),
 ('C135', 'proved', 'C135_row C135_choice C135_bound', 'For ASCII texts, with chrono 0.4.19 itself modelled (ChronoModel). Instants outside the i64 range of nanoseconds are C86; what is said of fields a layout does not use (the hour of a layout without minutes) is C134.'),
 ('C136', 'partial', 'C136_csv C136_small C136_dc_refuted', 'The code violates the property for DC members of 8 KiB or more: DCSource::next_row takes the checksum error, which comes at the start of a row, for the end of the file, and the program copies the changed rows with status 0 (C136_dc_refuted, for every such member; C136_dc_demo: whatever wrong checksum the archive states). Proved: CSV members of any size without --end, and CSV and DC members below 8 KiB always. The decompressors are parameters (what they give is a hypothesis); the checksum is computed in the model (crc32, C49).'),
 ('C137', 'partial', 'C137_csv C137_small C137_dc_refuted', 'The code violates the property for DC data of 8 KiB or more: an error of the decompressor at the start of a row is taken for the end of the file, so a .dc.gz cut at such a place (or whose checksum does not match) is copied in part (or changed) with status 0 (C137_dc_refuted). Proved: CSV data of any size without --end, and CSV and DC data below 8 KiB always; what of a longer DC file can go unnoticed is C103_dc_damage_partial, which covers compressed inputs too. The decompressors are parameters; that one reports damage is the hypothesis (for zstd: C101).'),
 ('C138', 'partial', 'C138_whole C138_csv C138_dc_partial C138_dc_refuted', 'C138_whole: no reader reported an error for any file of the directory (subdirectories are not read); C138_csv: so no CSV file ended in a read error, checksum error or error of the decompressor. For DC files the code violates it as in C103 (less than a timestamp after the last row, or an error at the start of a row, is not reported): C138_dc_refuted, and C138_dc_partial says what can go unnoticed.'),
 ('C139', 'partial', 'C139_stream_partial C139_every_row_partial C139_short_write_refuted', 'Proved if every write takes all it is given (the hypothesis greedy). The code violates the rest: the count returned by the write is not looked at, so if a write takes less than the row, the rest of the row is lost (C139_short_write_refuted). flate2 is a parameter; whether its write ever takes less is not modelled.'),
 ('C140', 'partial', 'C140_csv C140_small C140_dc_partial C140_dc_refuted', 'CSV inputs of any size, and inputs of either kind below 8 KiB, are proved (the files of directories are C138). For DC inputs of 8 KiB or more the code violates it as in C103: an error at the start of a row is taken for the end of the file (C140_dc_refuted); C140_dc_partial says what can go unnoticed.'),
 ('C141', 'proved', 'C141_prefix C141_noticed', 'The inputs that break off are files and standard inputs of kind CSV; the others are the same in both runs and are no directories. Both runs have opened all inputs (C78 tells when they do not).'),
]

# Formal model of octoske/chopper in Rocq (Coq 8.16.1)

The code in /repo is read as text only; nothing here was run against it. Every
definition of the model carries a comment `(* file:lines *)` naming the Rust it
models, and says where it simplifies. `tools/cites.py` checks that the cited
lines exist and hold the named function.

## Trusted base

* Coq's kernel (8.16.1), including `vm_compute`, which the examples use.
* Axioms: none. `Print Assumptions` of every theorem `C…` says `Closed under the
  global context`; the files `T_*.v` run it for each one. (vcheck also lists the
  axioms of loaded library files, `Coq.ssr.ssrunder.Under_rel.*`: they come with
  `Require Import Lia` and no theorem uses them.)
* The standard library only. No functors, module types, axioms, `Admitted`.
* That the model says what the Rust says: the `*Model.v` files, read beside the
  cited lines. This includes the behaviour of std and of other crates that the
  model spells out (next sections).
* That the statements say what `properties.jsonl` says: the `T_*.v` theorems and the
  `*Spec.v` files.

## Conventions

* Bytes are `Ascii.ascii` (exactly 256 values); byte slices, `Vec<u8>` and Rust
  `String` are `bytes := list ascii`. Where Rust checks UTF-8 the model checks
  `utf8` (proved equal to an independent definition of well-formed UTF-8,
  `utf8_well_formed`).
* `u8/u16/u32/u64/usize` values are `N`, signed integers `Z`, with explicit
  wrap-around (`mod 2^k`) where the code casts. `f32/f64` are their bit patterns
  (`N`); comparison is IEEE-754 comparison defined on bits.
* Every fallible function returns `res A := Ok a | Err e | Panic | Exit | NoFuel`.
  `Panic` is a Rust panic (`unwrap`, index out of bounds, overflow check),
  `Exit` is `process::exit` called from inside a comparison, `NoFuel` marks the
  exhaustion of an explicit recursion bound and is proved unreachable where the
  property claims termination.
* `dyn Source` is the list of results its successive `next_row` calls give
  (after which it answers `Ok None`). `dyn DataSink` is an arbitrary function of
  the history of calls it has received (this covers every deterministic stateful
  sink); the observable effect of a run is the chronological log of
  (chain, node, event).
* `dyn Read` is a byte list, a schedule of chunk sizes chosen by an adversary and
  a way to end (clean EOF or I/O error). `dyn Write` of the output is an arbitrary
  plan of partial writes and errors.
* Integer overflow: `usize` subtraction below zero is `Panic`. u64 multiplication
  of epoch texts, and chrono's i64 nanoseconds of an instant, take a `profile`, Debug (panics) or Release (wraps), and the
  theorems quantify over it.

## What is modelled

| Rust | model |
|---|---|
| chopper/types.rs, chopper/chopper.rs, error.rs (error kinds) | TypesModel |
| driver/driver.rs, source_row_buffer.rs, chopper/data_graph.rs (process_row, flush) | DriverModel |
| chopper/header_graph.rs, data_graph.rs (construction), merge_join.rs, split.rs, chopper_cli.rs `setup_graph` | HeaderModel |
| filter/*.rs, util/remove_multiple.rs | FilterModel |
| util/dc_util.rs, source/dc_source.rs, write/dc_sink.rs | DcModel |
| util/reader.rs, util/file.rs | ReaderModel |
| decompress/decompress.rs (magic numbers, choice of decoder) | DecompressModel |
| decompress/zip.rs, crc32.rs | ZipModel |
| util/dcgen (its 100 rows, computed from the model, are byte for byte the examples/files/hundred.dc of the repository) | DcgenModel |
| decompress/zst.rs, over the interface of ruzstd::FrameDecoder (blocks with given contents, window) | ZstModel |
| source/csv_source.rs, csv_configs.rs, write/csv_sink.rs, write/factory.rs, cli/util.rs, the csv crate's record reader (`csv_records`) | CsvModel |
| util/csv_util.rs | CsvUtilModel |
| source/csv_timestamp.rs, util/timestamp_util.rs, util/tz.rs, types.rs `TimestampRange` | TimestampModel |
| source/multi_file_source.rs, input/files_in_dir_provider.rs, transport/dir | MultiModel |
| input/input_factory.rs, input/single_file.rs, source/*_factory.rs, source_factory.rs, transport/streaming, transport/seekable | InputModel |
| chopper_cli.rs, cli_app.rs (options after clap), util/path.rs, chop/src/main.rs, local-file transports | ProgramModel |
| cli_app.rs: the declared options, as clap 2.33.3 parses and checks them | CommandModel |
| std::io::BufWriter under the sinks | WriterModel |
| outputs that share one standard output (factory.rs) | SharedModel |
| examples/*.rs (the graphs they build; file names, columns and values as parameters) | ExamplesModel |
| util/infistream (rows, gzip stream and headers, without the server) | InfiModel, InfiGzModel |
| chrono 0.4.19 (format strings, parsing, formatting, calendar) and chrono-tz (zones as tables), as far as the code calls them | ChronoModel |

## What is not modelled, or only as a parameter

Parameters (universally quantified in the theorems): chrono's parsers and
formatters (up to C115; from C116 on they are ChronoModel's, written from the sources of chrono 0.4.19,
only specifiers the code and README do not use are a parameter, `foreign`), the time zone database, `str::parse::<f64>`, Unicode lower-casing,
float printing (dtoa/ryu), the gzip/zstd/lz4 decoders (as functions of the compressed
stream, with an arbitrary chunking), http (ureq), user-supplied factories,
transports, sinks and filters.

Not modelled: clap beyond what CommandModel needs for the grammar of C121 (written from the
behaviour of clap 2.33.3; elsewhere its outcome is `Untold`); backtraces, stderr texts; allocation
failure and memory limits; `ErrorKind::Interrupted` in whole runs (in single calls: InterruptModel); overflow of the u32 counters in
`guess_delimiter`; an output file that is also an input, except one input and a short output
(InPlaceModel); I/O errors in
the middle of a seekable file; concurrent changes to files while the program runs;
the HTTP server of util/infistream. Stable sort is modelled as insertion sort (proved
a stable permutation); `Path` order by components (Unix). `BufWriter::write_all` is
std's default loop. Versions: chop/Cargo.lock pins csv 1.1.3 (csv-core 0.1.10), chrono 0.4.19, clap 2.33.3, flate2 1.0.18.
The csv crate's record reader is modelled from its documentation
with the settings the code uses (flexible, no quoting options changed), so C93 and the
read-back theorems rest on that.

## Files (rocq/theories)

Models are in `*Model.v`, specifications in `*Spec.v` and `DcLayout.v` (these do not
use the model's helpers beyond its types), proofs in `*Proofs.v` and `Drive*.v`,
`Graph*.v`, `Header*.v`, `ZipAny.v`; the property theorems are in `T_*.v`, with
`Print Assumptions` and beside each theorem an `Example` in which its
hypotheses hold of a concrete non-trivial case (or, for `_refuted` theorems, the
counterexample itself).

`T_RepoTests.v` runs the integration tests of /repo/tests and the unit tests of src on the model: with New York's
real transitions it gives the reference files byte for byte (for `test_decompress` the gzip decoder is a stub that
gives the text). `T_DateEx.v` does the same for the tests of timestamp_util.rs. These are checks of the model, not claims.

Where the code violates the property as stated, the theorem ends in `_refuted`
(it proves the negation, from an explicit input) and what does hold is proved
under the weakest guard found (`_partial`).

`tools/manifest.py` writes MANIFEST.json from `tools/claims.py`, checking that the named
theorems exist. `tools/mutate.py` builds mutants of the model in a scratch copy and reports which
theorems fail; the results are in seeded/LOG.jsonl.

## Plan per property

| property | modelled | proof | in |
|---|---|---|---|
| C01–C04, C06, C10 | Driver::drive loop, SourceRowBuffer, over arbitrary row/flush handlers | invariant over the pending buffers; drive factors through a schedule of events | T_Driver |
| C07–C09, C15 | process_row / flush over the data graph with arbitrary sinks | induction on an acyclicity rank / fuel | T_Driver |
| C05, C11–C13, C15 | HeaderGraph::process_header, MergeJoin, Split | induction on fuel with a "remaining nodes" measure | T_Header |
| C14 | setup_graph + Driver::new + drive | composition of the above | T_Header |
| C16–C19, C52 | filters, FieldValue comparison, remove_multiple | case analysis, IEEE comparison on bits; loop invariant | T_Filters |
| C20–C26 | dc_util, DCSink, DCSource | codec round trip by induction; prefix-monotone parsers | T_Dc |
| C27–C30, C53 | ChopperBufReader, ChopperBufPreviewer, magic numbers, are_contents_same | invariant relating buffer+inner to the abstract stream | T_Reader |
| C31, C54–C56 | format detection, factories, transports, CLI lists | decision logic against a relational specification | T_Input, T_Builtin |
| C32–C35 | SerialMultiFileSource, FilesInDirPathProvider | loop invariant of the swap map | T_Multi |
| C36, C58–C60 | CSVSource over any record splitter | induction over the records; case analysis of opening for the exact crash condition | T_Csv, T_CsvOpen |
| C37, C38, C61–C64, C94 | CSVSink text, read back by CSVSource with `csv_records` | split/join laws; decimal printing inverted by parsing | T_CsvOut |
| C39–C41 | csv_util | counting, folds | T_CsvUtil |
| C42–C46 | csv_timestamp, timestamp_util | decision logic, arithmetic | T_Timestamp |
| C47–C51, C65 | zip.rs, crc32.rs | byte-level encoder as spec, parser proved to invert it; for arbitrary bytes: what acceptance implies; CRC-32 bit by bit, equal to the polynomial definition | T_Zip, T_Crc |
| C57 | drive + DCSink + DCSource | composition of C14 and C20 | T_EndToEnd |
| C66–C69, C73, C74, C78 | the program: options, opening inputs, creating the output, driving | unfolding `chop` into stages, each with its specification | T_Program, T_Options, T_Whole |
| C70–C72, C77 | options after clap | decision logic against `clap_accepts` | T_Options, T_Options2 |
| C75, C79 | whole program on DC files | composition of C73, C14, C20 | T_Whole2 |
| C76 | whole program on a directory | composition with C32–C34 | T_Directory |
| C80 | sinks over BufWriter over an arbitrary device | simulation between the failing device and the perfect one | T_Writer |
| C81 | built-in formats by name and contents | decision logic | T_Builtin |
| C82–C84 | DCSource and DCSink against a relational layout of the file format | induction on rows, both directions | T_DcLayout |
| C85–C90 | time column and time format choice, row timestamps, range bounds, delimiter argument | decision logic against `TimeSpec` | T_Time |
| C91 | times of all rows of a CSV input | induction over the records | T_CsvTime |
| C92, C93 | time column name; quoted fields | induction over an encoder of quoted text | T_CsvQuote |
| C95 | CSV output read back with no options | composition of C61, C42, C43 | T_CsvAuto |
| C96, C97 | command line to CSV output/input behaviour | composition from the option texts to the bytes written / rows read, against `CliCsvSpec` | T_CliCsv |
| C98 | drive + data graph as in C01-C10 | `RouteSpec.route`: relational routes of one call through the graph; induction over successful traversals | T_Route |
| C99, C100 | the graphs of examples/filter_and_merge.rs and split.rs for any number of chains, header sinks and outputs, through Driver::new and drive | header processing computed symbolically, routes of C98 evaluated | T_Route |
| C101, C102 | the read loop of ZstReader over a decoder of blocks | induction over blocks and reads, against `pieces` of the content | T_Zst |
| C103 | the whole program on a local .dc or .csv file that may end in a read error | C78 (exit 0 means every source was read to its end or the end of the range), then soundness of the DC reader against the layout, and `rows_from` over the records | T_Damage |
| C104, C105 | the whole program on any mix of .csv and .dc files | `WholeCsvSpec.csv_content` says what a CSV file stands for under the options; composition of C91, C97, C75's machinery, C96 | T_WholeCsv, T_WholeCsvEx |
| C106 | the whole program, files packed as in `PackSpec.packs` | every packing is reduced to one canonical opening of (name, data) | T_Pack, T_PackEx |
| C107 | the whole program, inputs as in `AnySpec.input_gives` | C30/C54/C55/C76/C106 say how each input opens, then C104's and C105's argument for any inputs that open | T_WholeAny, T_WholeAnyEx |
| C108 | the driver's loop over sources of which only a beginning is given | the run over beginnings that then fail (C10's repair) is a prefix of every continuation; invariant: all pending rows of the picked buffer and after are late | T_Stream, T_StreamChop |
| C109 | csv record reader and CSVSource on a beginning of the data | the record parser is a state machine, so records of a beginning agree up to the last | T_CsvCut |
| C110 | util/dcgen as a list of write and write_all calls on an arbitrary writer, number to double conversion included | what the calls put out follows the format relation of C82; prefixes by C22 | T_Dcgen |
| C111 | the log of a run (C100) turned into calls on one BufWriter per sink over a shared output | invariant: what is printed is mixed from beginnings of the texts, the rest is buffered | T_Shared, T_SharedEx |
| C112 | InfiModel: the rows as polled, the u64 counter in both build profiles. C112_contents: induction on the number of rows, `csv_content` of WholeCsvSpec; C112_chop: instance of C104; C112_endless: C108_csv_input (a CSV input read up to a line end, whatever follows) and C108_chop. |
| C113 | `may_reach` (SuccessSpec): closure of the selected rows under sinks, merges, splits; GraphSuccess: process_row and process_flush succeed on rows in an invariant set, loop induction; only-if from C10. |
| C114 | ExamplesModel.filter_and_merge: the graph of the example over the model of InputFactory, the header graph, the driver and the CSV sink. Instance of C98 (drive_interleaves) for the filters' steps, C113 for success. |
| C115 | ExamplesModel.compressed_example, split_example. C115_compressed_is_chop: unfolding both programs; C115_compressed: C107; C115_split: C111 and C113. |
| C116 | ChronoModel: StrftimeItems, scan/parse, Parsed, NaiveDate as an instance `civil` of the chrono parameter. CalendarSpec counts days one by one from 1970-01-01; CalendarProofs relates it to the arithmetic. DateTextProofs runs the items of each format on each layout; C87 and C86 give the rest. |
| C117 | `once` (DateTextSpec): the clock function `t + offset_at t` has exactly one preimage. ZoneProofs: the spans partition the instants (sorted table), so the matching spans are the preimages. |
| C118 | T_Bounds: formats and texts by their three parts, 3x3 and 6x6 cases; every format reads the text as the same local time or not at all, so the order of the formats does not matter. |
| C119 | Formatting in ChronoModel (`show_in`). T_Shown: the digits printed are those of `iso_text` of the rounded instant; then C116_iso and C118_iso. |
| C120 | `run_together` (DateTextSpec): the texts of figures that are dates. T_DigitText: each format on lists of figures by their length; then C43. |
| C121 | CommandModel: the declarations of cli_app.rs and the loop of clap's parser, then its checks. CommandSpec: the grammar of command lines and what they say, without the parser. CommandProofs: one step of the loop per thing said; the checks as counts of the values said; `clap_accepts` (hypothesis of C70–C77, C96, C97) is shown to be exactly what is accepted. |
| C122 | T_HumanAuto: the header is guessed exactly when the first two lines do not look alike (C40), the column called time is chosen (C42), its ISO 8601 texts are read by the detected format (C119), and the records are the columns written (C61). |
| C123 | LawsSpec, T_Laws: what one run writes is a fixed beginning and a fixed text per row, the rows being the only list in time order with, at each time, the rows of the last input first (C107, C04); so two ways to the same rows give the same bytes. |
| C124 | T_Laws: the rows of [s, m) followed by those of [m, e) are in time order and have at each time the rows of [s, e) in the order of ties; such a list is unique. |
| C125 | T_Laws: both outputs are permutations of the selected rows in time order, so their times agree; without common times the rows of each time come from one input in both. |
| C126 | T_Laws: as C123, the selected rows being filtered twice. |
| C127 | InPlaceModel: File::create empties the file under the reader, which keeps what its buffer holds. InPlaceSpec, T_InPlace: the emptied reader is the reader of a file that ends after 8 KiB (induction over the filling of the buffer); the BufWriter holds a short output back until the rows have been read, so the writer of C80 is the right one. |
| C128 | T_Laws2: both runs are those of C107; the rows of a directory are the concatenation of those of its files, and the output of a merge is determined by its rows at each time (by_times_unique). |
| C129 | LinesSpec, T_Lines: plain lines are a CSV text (C93) whose rows are those of C107; the text of a row of strings is its line. |
| C130 | HttpModel, T_Http: the answer's body goes through the same previewer and formats as the local file's contents; the inputs of the two command lines open alike one by one. |
| C131 | GuessSpec, T_Guess: the two command lines open the same sources, because csv_new only depends on what the options amount to; for chrono, a format without offset sets no offset, one without hours no time of day. |
| C132 | InterruptModel, InterruptSpec, T_Interrupt: read_exact, flush_buf and write_all with their repetition simulate the loops without it over the plan with the interruptions removed; induction on the fuel. |
| C133 | LayoutSpec (layouts as lists of parts, spelling, what a moment looks like), LayoutProofs, T_Layout: the items of a spelled layout correspond to its parts one by one; each part of a text sets its field to the value shown and leaves the rest of the text; induction on the layout. |
| C134 | T_Layout: two parts that set the same field to different values make the parse fail at the second; a layout without a time of day is read by the date parser only. |
| C135 | ExactSpec (admitted: the texts of a layout and what they say of a moment; says_day/says_clock/says_instant; iso_exact), ExactProofs, T_Exact: parsing a layout succeeds iff the text is admitted, by induction on the parts in both directions; the fields then determine the date and time by from_ymd_iff; ISO 8601 by inverting the RFC 3339 parser. |
| C136 | DamageSpec (ending_member: an archive whose member unpacks to data and then ends well, with a checksum that is not that of the data, or with an error of the decompressor), the whole program | T_Damage.opened_by_name with the zip opening of T_Pack, then C78 (exit 0 means all was read) and C49; below 8 KiB the preview itself fails | T_DamageZip |
| C137 | DamageSpec (decodes_to: what the decompressor gives and how it ends; read_input: an input as it is, as a member, or compressed) | T_Damage.read_opened: opening such an input is opening the decompressed data, which may end in an error; then as C136 | T_DamageZip |
| C138 | the whole program on a directory, files read one after the other | a lemma on `drain` (if nothing it gives is an error, every source it went through was read to its end, by induction on the files and their rows), then as C136 | T_DamageDir |
| C139 | the gzip stream's polls, the encoder a parameter with a state | induction on the polls with what the encoder has taken and sent; the rows are those of C112 | T_InfiGz |
| C140 | the whole program; inputs as in C107, each with how reading it ends | the source handed over is the reader of the kind on a stream with those contents and that ending (cases of the detection), then C78 and the readers' theorems as in C103 | T_DamageAny |
| C141 | the whole program in two worlds that differ in the CSV inputs that break off | the complete records of a broken-off text are a prefix, followed by the error (scan of the bytes), rows likewise (source_repair), C10's drive_repair, and the bytes written grow with the calls | T_BreakOff |

## Where the code does not do what the property says

| property | finding |
|---|---|
| C05 | rows of source i go to chain n-1-i |
| C06 | a source with no row in range panics the driver (`unwrap` on its first row) |
| C11, C13 | a header that reaches a merge through a Split is not compared; an underfed merge is accepted, an overfed one panics |
| C20, C21, C84 | reader and writer disagree on the null bitmap for every column count that is 1 mod 8 |
| C23 | a cut inside a row's timestamp looks like a clean end |
| C31 | DC data without a name can be taken for CSV |
| C33 | rows of a file with further columns after the common header are too wide |
| C36, C58–C60 | short CSV records keep the previous row's values, long ones panic; the row before a bad record is lost; header and rows may differ in width; a file without data records panics (T_CsvOpen: that, or no cell in the time column, exactly) |
| C37, C94 | header line always joined with commas; strings are never quoted |
| C39 | characters are compared by their low byte |
| C45, C46, C86 | instants before 1970 wrap; large epoch texts, and instants outside 1677–2262, wrap in release builds and panic in debug builds |
| C47, C51 | archives with the end signature in the comment or many extra records are refused; extra field read beyond its end |
| C49 | DCSource takes an I/O error at a row boundary for the end |
| C56 | the last matching transport wins, not the user's |
| C67 | a pipe given by name is refused; so is a zip archive on standard input |
| C69 | the output is truncated before headers are compared |
| C70–C72, C77 | mixed index/name time columns; unknown zone, `--print-time YES`, far bounds and non-UTF-8 names panic |
| C88, C95 | unit suffixes found in any case only when the column is chosen automatically; own time column name not recognised; times outside 1990–2033 not read back |
| C102 | only the first frame of a zstd file is read, the rest is dropped without an error |
| C103 | a DC file cut inside a row's timestamp, or a read error at the start of a row, ends the input silently with exit status 0 |
| C109 | the cut-off last record of a CSV file is delivered as a row |
| C110 | util/dcgen ignores short writes: it ends normally with a file nothing can read |
| C111 | outputs that share standard output are interleaved in the middle of lines |
| C112 | util/infistream's times are 0, 1, 2, ...: chop rejects the stream unless --csv-in-epoch is given. |
| C114 | examples/filter_and_merge.rs filters each input with the filter of the other one (visible only when the two inputs differ; in the example they are the same file). |
| C119 | Human-readable times in a zone whose offset has seconds (local mean times, Liberia until 1972) are printed with the offset cut to minutes and denote another instant; times from 2262 on are printed but crash a debug build when read. |
| C120 | A file whose first time is a 13-digit number of milliseconds that reads as YYYYMMDDhhmms (e.g. 1710111213141) is taken to have times in that layout: its times are wrong by centuries, or it is an error without a zone. |
| C121 | -E and -H are accepted together (their `conflicts_with` name options that do not exist) and -E wins. |
| C122 | Output with a zone whose columns are all words cannot be opened again without --csv-in-has-header yes: its header line looks like a row. |
| C127 | Chopping a file in place (`chop x.csv -o x.csv`) empties it when the output is created; what is not in the 8 KiB buffer by then is lost, with exit code 0 (C127_any_size_refuted). |
| C130 | Zip archives are only read from local files: the same archive behind a URL is refused. |
| C131 | A column chosen only because it is the first, called stepmillis, is read as seconds by the size of its numbers; with --csv-in-ts-col stepmillis as milliseconds. |
| C132 | ChopperBufPreviewer::new passes ErrorKind::Interrupted on: a signal during the first reads of an input ends the run with exit status 1 and no output. |
| C134 | --csv-in-ts-fmt '%Y%m%d %H' (hour without minutes) is accepted, and every row gets midnight: the hour is dropped without a warning; likewise an offset %z without a time of day. |
| C136 | a DC member (>= 8 KiB) of a zip archive whose checksum is wrong is copied with exit status 0: the checksum error at the start of a row is taken for the end of the file |
| C137 | a compressed DC file that is damaged between two rows (>= 8 KiB of data) is taken for complete, with exit status 0 |
| C139 | util/infistream's gzip stream ignores the count `encoder.write(row)` returns (inficsvgz.rs:33): if a write takes less than the row, the rest of the row is lost; `write_all` would not. |

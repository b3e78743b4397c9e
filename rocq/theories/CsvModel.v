(** Model of src/source/csv_source.rs, src/source/csv_configs.rs, src/write/csv_sink.rs,
    src/write/factory.rs, and of the csv crate's record reader they use. *)
From Verif Require Export TimestampModel Utf8Spec.

(** ** The csv crate (version 1, not part of the repository): splitting bytes into records *)

(** The states of csv_core::Reader with its default settings: the quote is character 34, doubled quotes,
    no escape, no comments, records end at CR, LF or CRLF, empty lines are skipped. *)
Inductive csv_state := StartRecord | StartField | InField | InQuoted | InDoubledQuote.
Definition quote : byte := byte_of 34.
Definition is_term (c : byte) : bool := Ascii.eqb c (byte_of 10) || Ascii.eqb c (byte_of 13).

(** The next state, whether [c] belongs to the field, and whether the field ends with it. *)
Inductive csv_step := Skip | Keep (st : csv_state) | Drop (st : csv_state) | EndField | EndRecord.
Definition csv_trans (d : byte) (st : csv_state) (c : byte) : csv_step :=
  match st with
  | StartRecord | StartField =>
      if (match st with StartRecord => is_term c | _ => false end) then Skip
      else if Ascii.eqb c quote then Drop InQuoted
      else if Ascii.eqb c d then EndField
      else if is_term c then EndRecord
      else Keep InField
  | InField =>
      if Ascii.eqb c d then EndField else if is_term c then EndRecord else Keep InField
  | InQuoted => if Ascii.eqb c quote then Drop InDoubledQuote else Keep InQuoted
  | InDoubledQuote =>
      if Ascii.eqb c quote then Keep InQuoted
      else if Ascii.eqb c d then EndField
      else if is_term c then EndRecord
      else Keep InField
  end.

(** The records of [s] from state [st], [fields] complete and [cur] read of the current one;
    what the reader does at the end of input depends on whether it ends or fails. *)
Fixpoint csv_parse (d : byte) (st : csv_state) (fields : list bytes) (cur : bytes) (tail : option ioerr) (s : bytes)
  : list (res (list bytes)) :=
  match s with
  | [] =>
      match tail with
      | Some e => [Err (EIo e)]
      | None => match st with StartRecord => [] | _ => [Ok (fields ++ [cur])] end
      end
  | c :: t =>
      match csv_trans d st c with
      | Skip => csv_parse d StartRecord [] [] tail t
      | Keep st' => csv_parse d st' fields (cur ++ [c]) tail t
      | Drop st' => csv_parse d st' fields cur tail t
      | EndField => csv_parse d StartField (fields ++ [cur]) [] tail t
      | EndRecord => Ok (fields ++ [cur]) :: csv_parse d StartRecord [] [] tail t
      end
  end.
(** A UTF-8 byte order mark at the very start is dropped. *)
Definition strip_bom (s : bytes) : bytes :=
  if starts_with [byte_of 0xEF; byte_of 0xBB; byte_of 0xBF] s then skipn 3 s else s.
Definition csv_records (d : byte) (s : stream) : list (res (list bytes)) :=
  csv_parse d StartRecord [] [] (s_tail s) (strip_bom (s_data s)).

(** Conversion to a StringRecord with Trim::All. *)
Definition trim_str (s : bytes) : bytes := flat_map encode (trim (chars s)).
Definition string_record (r : list bytes) : res record :=
  if forallb utf8 r then Ok (map trim_str r) else Err (ECsv 0).

(** ** CSVSource *)

(* src/cli/util.rs:3-10 *)
Inductive yes_no_auto := Yes | No | Auto.
(* src/source/csv_configs.rs:36-104 *)
Record csv_input (ch : chrono) := {
  ci_delimiter : option byte;
  ci_has_header : yes_no_auto;
  ci_col : col_config;
  ci_fmt : fmt_config;
  ci_tz : tz ch
}.
Arguments ci_delimiter {ch}. Arguments ci_has_header {ch}. Arguments ci_col {ch}.
Arguments ci_fmt {ch}. Arguments ci_tz {ch}.
(* src/source/csv_configs.rs:77-91 CSVInputConfig::new *)
Definition csv_input_new (ch : chrono) (delimiter : option bytes) (hh : yes_no_auto) (c : col_config) (f : fmt_config) (z : tz ch)
  : res (csv_input ch) :=
  let* d := match delimiter with
            | None => Ok None
            | Some x => let* d := parse_into_delimiter x in Ok (Some d)
            end in
  Ok {| ci_delimiter := d; ci_has_header := hh; ci_col := c; ci_fmt := f; ci_tz := z |}.

(* src/source/csv_source.rs:15 *)
Definition DELIMITERS : list byte := [byte_of 44; byte_of 9; byte_of 32].

(* src/source/csv_source.rs:17-25; [reader] is what the csv reader has not delivered yet *)
Record csv_source (ch : chrono) := {
  cs_reader : list (res (list bytes));
  cs_header : header;
  cs_col : ts_col;
  cs_fmt : ts_fmt;
  cs_tz : tz ch;
  cs_next : row;
  cs_has_next : bool
}.
Arguments cs_reader {ch}. Arguments cs_header {ch}. Arguments cs_col {ch}. Arguments cs_fmt {ch}.
Arguments cs_tz {ch}. Arguments cs_next {ch}. Arguments cs_has_next {ch}.

(* src/source/csv_source.rs:117-120 [field_values[i] = ..] for the fields from [i] on: index
   panic when the record is longer than the row *)
Fixpoint overwrite (vs : list fvalue) (r : record) : res (list fvalue) :=
  match r, vs with
  | [], _ => Ok vs
  | x :: r', _ :: vs' => let* t := overwrite vs' r' in Ok (VString x :: t)
  | _ :: _, [] => Panic
  end.

Section Source.
Context (prof : profile) (ch : chrono) (lower : bytes -> bytes) (parse_f64_ok : text -> bool).
(** The csv crate, as a function of delimiter and data ([csv_records] above). *)
Variable split : byte -> stream -> list (res (list bytes)).

(* src/source/csv_source.rs:116-129 update_row, on the row in next_row: the values are already
   replaced when the timestamp turns out to be unreadable *)
Definition update_row (col : ts_col) (fmt : ts_fmt) (z : tz ch) (old : row) (r : record) : row * res unit :=
  match overwrite (vals old) r with
  | Ok vs =>
      match get_timestamp prof ch r col fmt z with
      | Ok t => ({| ts := t; vals := vs |}, Ok tt)
      | e => ({| ts := ts old; vals := vs |}, fail_as e)
      end
  | e => (old, fail_as e)
  end.

(* src/source/csv_source.rs:28-114 CSVSource::new *)
Definition csv_new (cfg : csv_input ch) (lines : option (list bytes)) (data : stream) : res (csv_source ch) :=
  let line i := match lines with None => None | Some l => nth_error l i end in
  let* d := match ci_delimiter cfg with
            | Some d => Ok d
            | None => match line 0 with Some l => guess_delimiter l DELIMITERS | None => Ok (byte_of 44) end
            end in
  let has_header := match ci_has_header cfg with
                    | Yes => true | No => false
                    | Auto => guess_has_header parse_f64_ok (line 0) (line 1) d
                    end in
  (* :63 the first record is kept aside as the headers; the next one is the first row *)
  let* (hdr, recs) :=
    if has_header
    then match split d data with
         | [] => Panic
         | Ok h :: recs => Ok (Some h, recs)
         | Err e :: _ => Err e
         | o :: _ => fail_as o
         end
    else Ok (None, split d data) in
  let* (first, rest) :=
    match recs with
    | [] => Panic                                        (* :63 records().next().unwrap() *)
    | Ok r :: rest => let* s := string_record r in Ok (s, rest)
    | o :: _ => fail_as o
    end in
  let* names := match hdr with
                | Some h => string_record h
                | None => Ok (map (fun i => b "col_" ++ dec (N.of_nat i)) (seq 0 (length first)))
                end in
  let h := {| h_names := names; h_types := repeat TString (length first) |} in
  let* (col, fmt) := get_col_and_fmt ch lower h first (ci_col cfg) (ci_fmt cfg) (ci_tz cfg) in
  let (next, o) := update_row col fmt (ci_tz cfg) {| ts := 0%N; vals := repeat VNone (length first) |} first in
  let* _ := o in
  Ok {| cs_reader := rest; cs_header := h; cs_col := col; cs_fmt := fmt; cs_tz := ci_tz cfg;
        cs_next := next; cs_has_next := true |}.

(* src/source/csv_source.rs:131-142 next_row *)
Definition csv_next (s : csv_source ch) : csv_source ch * res (option row) :=
  if negb (cs_has_next s) then (s, Ok None)
  else
    let set reader next more := {| cs_reader := reader; cs_header := cs_header s; cs_col := cs_col s; cs_fmt := cs_fmt s;
                                   cs_tz := cs_tz s; cs_next := next; cs_has_next := more |} in
    match cs_reader s with
    | [] => (set [] (cs_next s) false, Ok (Some (cs_next s)))
    | o :: rest =>
        match (let* raw := o in string_record raw) with
        | Ok r =>
            let (next, o) := update_row (cs_col s) (cs_fmt s) (cs_tz s) (cs_next s) r in
            (set rest next true, let* _ := o in Ok (Some (cs_next s)))
        | e => (set rest (cs_next s) true, fail_as e)
        end
    end.

(** All rows up to the end or the first failure; each step takes one record, so [fuel] beyond
    their number changes nothing. *)
Fixpoint csv_drain (fuel : nat) (s : csv_source ch) : list (res row) :=
  match fuel with
  | O => [NoFuel]
  | S f =>
      match csv_next s with
      | (_, Ok None) => []
      | (s', Ok (Some r)) => Ok r :: csv_drain f s'
      | (_, e) => [fail_as e]
      end
  end.
Definition csv_rows (s : csv_source ch) : list (res row) := csv_drain (2 + length (cs_reader s)) s.
End Source.

(** ** CSVSink *)

(* src/source/csv_configs.rs:30-34 *)
Inductive ts_style := Epoch | HumanReadable.
(* src/source/csv_configs.rs:106-114; [co_show] is the time zone: the text of a timestamp under a
   format, if a zone was given (src/util/tz.rs:67-81 with DateTime::format) *)
Record csv_output := {
  co_delimiter : bytes;
  co_print_time : bool;
  co_time_name : bytes;
  co_style : ts_style;
  co_units : units;
  co_show : option (bytes -> nanos -> bytes)
}.
(* src/source/csv_configs.rs:117-145 CSVOutputConfig::new *)
Definition csv_output_new (d : bytes) (print : bool) (name : option bytes) (st : ts_style) (u : units)
  (show : option (bytes -> nanos -> bytes)) : csv_output :=
  {| co_delimiter := d; co_print_time := print;
     co_time_name := match name with
                     | Some n => n
                     | None => match st with
                               | Epoch => b "timestamp" ++ to_suffix_str u
                               | HumanReadable => b "time"
                               end
                     end;
     co_style := st; co_units := u; co_show := show |}.
(* src/source/csv_configs.rs:147-156 new_default *)
Definition csv_output_default : csv_output := csv_output_new (b ",") true None Epoch Nanos None.

(* src/write/csv_sink.rs:36-54 write_csv_header: always commas *)
Fixpoint header_names (first : bool) (names : list bytes) : bytes :=
  match names with
  | [] => []
  | n :: t => (if first then n else b "," ++ n) ++ header_names false t
  end.
Definition csv_header_bytes (cfg : csv_output) (h : header) : bytes :=
  (if co_print_time cfg then co_time_name cfg ++ b "," else []) ++ header_names true (h_names h) ++ [byte_of 10].

(** [format!("{}", z)] of a signed integer. *)
Definition zdec (z : Z) : bytes := if (z <? 0)%Z then b "-" ++ dec (Z.to_N (- z)) else dec (Z.to_N z).

Section Sink.
(** dtoa::write of an f64 and an f32, by bit pattern *)
Variables (show_f64 show_f32 : N -> bytes).

(* src/write/csv_sink.rs:104-129 one value *)
Definition csv_value (v : fvalue) : res bytes :=
  match v with
  | VBoolean _ => Err (ECustom "CSVSink -- boolean field type is not supported")
  | VByte x => Ok (dec x)
  | VByteBuf _ => Err (ECustom "CSVSink -- ByteBuffer field type is not supported")
  | VChar x => Ok (dec x)
  | VDouble x => Ok (show_f64 x)
  | VFloat x => Ok (show_f32 x)
  | VInt x => Ok (zdec x)
  | VLong x => Ok (zdec x)
  | VShort x => Ok (zdec x)
  | VString x => Ok x
  | VNone => Ok []
  end.

(* src/write/csv_sink.rs:69-94 the time column *)
Definition time_format (u : units) : bytes :=
  match u with
  | Seconds => b "%Y-%m-%dT%H:%M:%S%:z"
  | Millis => b "%Y-%m-%dT%H:%M:%S%.3f%:z"
  | Micros => b "%Y-%m-%dT%H:%M:%S%.6f%:z"
  | Nanos => b "%Y-%m-%dT%H:%M:%S%.9f%:z"
  end.
Definition csv_time (cfg : csv_output) (t : nanos) : res bytes :=
  match co_style cfg with
  | Epoch => Ok (dec (match co_units cfg with
                      | Seconds => t / 1000000000
                      | Millis => t / 1000000
                      | Micros => t / 1000
                      | Nanos => t
                      end)%N)
  | HumanReadable =>
      match co_show cfg with
      | None => Err (ECustom "Timezone is needed to convert timestamp")
      | Some show => Ok (show (time_format (co_units cfg)) t)
      end
  end.

(* src/write/csv_sink.rs:95-130 the values: what was written, and how it ended *)
Fixpoint csv_values (d : bytes) (first : bool) (vs : list fvalue) : bytes * res unit :=
  match vs with
  | [] => ([], Ok tt)
  | v :: t =>
      let sep := if first then [] else d in
      match csv_value v with
      | Ok x => let (w, o) := csv_values d false t in (sep ++ x ++ w, o)
      | e => (sep, fail_as e)
      end
  end.
(* src/write/csv_sink.rs:65-132 write_row *)
Definition csv_write_row (cfg : csv_output) (r : row) : bytes * res unit :=
  match (if co_print_time cfg then csv_time cfg (ts r) else Ok []) with
  | Ok time =>
      let (w, o) := csv_values (co_delimiter cfg) (negb (co_print_time cfg)) (vals r) in
      match o with
      | Ok _ => (time ++ w ++ [byte_of 10], Ok tt)
      | e => (time ++ w, e)
      end
  | e => ([], fail_as e)
  end.

(** The sink as the driver sees it (chopper.rs:27-45): write_row leaves the row in place. *)
Definition csv_sink (cfg : csv_output) : sink :=
  {| sk_write := fun _ r => let* _ := snd (csv_write_row cfg r) in Ok [r];
     sk_flush := default_flush |}.
Definition csv_header_sink (cfg : csv_output) : header_sink := fun h => Ok (h, csv_sink cfg).

(** The bytes of the file after the header and the calls [evs]. *)
Fixpoint csv_rows_bytes (cfg : csv_output) (evs : list event) : bytes :=
  match evs with
  | [] => []
  | EvRow r :: t => fst (csv_write_row cfg r) ++ csv_rows_bytes cfg t
  | EvFlush :: t => csv_rows_bytes cfg t
  end.
Definition csv_file (cfg : csv_output) (h : header) (evs : list event) : bytes :=
  csv_header_bytes cfg h ++ csv_rows_bytes cfg evs.
End Sink.

(* src/write/factory.rs:7-33 new_header_sink: which sink, by the end of the output's name *)
Inductive output_kind := OutCsv (path : option bytes) (cfg : csv_output) | OutDc (path : bytes).
Definition new_header_sink (output : option bytes) (cfg : option csv_output) : res output_kind :=
  let cfg := match cfg with Some c => c | None => csv_output_default end in
  match output with
  | Some p =>
      if ends_with (b "csv") p then Ok (OutCsv (Some p) cfg)
      else if ends_with (b "dc") p then Ok (OutDc p)
      else Err (ECustom "file type is not supported")
  | None => Ok (OutCsv None cfg)
  end.

(** Model of the program as a whole: src/chopper_cli.rs (options, setup_graph),
    src/input/input_factory.rs, src/input/single_file.rs:49-83, src/util/path.rs,
    src/util/tz.rs:15-48, src/transport, src/error.rs:104-120, chop/src/main.rs. *)
From Verif Require Export InputModel MultiModel HeaderModel HeaderSpec FilterModel ZipModel CsvModel DcModel.

(** ** The world the program runs in *)

(** An open file: how reading it goes, and whether it can seek (a pipe cannot). *)
Record handle := { f_reads : inner; f_seekable : bool }.
Record world := {
  w_exists : bytes -> bool;                    (* Path::exists *)
  w_is_dir : bytes -> bool;                    (* Path::is_dir *)
  w_read_dir : bytes -> res (list bytes);      (* Path::read_dir, the entries that could be read *)
  w_open : bytes -> res handle;                  (* File::open; every call starts at the beginning *)
  w_http : bytes -> res inner;                 (* ureq::get *)
  w_stdin : inner;
  w_env_tz : option bytes                      (* the environment variable CHOPPER_TZ *)
}.

(* src/transport/dir/file.rs:9-35 *)
Definition dir_file_transport (w : world) : dir_transport :=
  {| dt_can_handle := w_is_dir w; dt_is_dir := w_is_dir w; dt_read_dir := w_read_dir w |}.
(* src/transport/streaming/file.rs:10-29 *)
Definition file_transport (w : world) : transport :=
  {| t_can_open := w_exists w; t_open := fun p => let* f := w_open w p in Ok (f_reads f) |}.
(* src/transport/streaming/http.rs:9-30 *)
Definition http_transport (w : world) : transport :=
  {| t_can_open := http_can_open; t_open := w_http w |}.

(* std::path::Path::file_name: the last component, if it is a normal one *)
Definition file_name (p : bytes) : option bytes :=
  match rev (components p) with
  | Normal s :: _ => Some s
  | _ => None
  end.
(* src/util/path.rs:3-11 get_file_name; to_str().unwrap() panics on a name that is not UTF-8 *)
Definition get_file_name (p : bytes) : res (option bytes) :=
  match file_name p with
  | None => Ok None
  | Some s => if utf8 s then Ok (Some s) else Panic
  end.

(** A checked reader as a plain one: same data, but the end is an error if the CRC is wrong
    (C48_crc: no sequence of reads can tell them apart). *)
Definition crc_as_inner (c : crc_reader) : inner :=
  {| i_data := i_data (c_inner c);
     i_tail := match i_tail (c_inner c) with
               | Some e => Some e
               | None => if (crc32 (i_data (c_inner c)) =? c_crc32 c)%N then None else Some InvalidData
               end;
     i_plan := i_plan (c_inner c) |}.

(** ** Opening inputs *)

Section Open.
Context {S : Type} (ds : decoders) (inflate bunzip : inner -> inner).
Variable (w : world) (user : option (list transport)) (sfs : list (factory S)).

(* src/input/single_file.rs:54-66: the seekable transport and zip archives
   (src/transport/seekable/file.rs:11-21, seekable_factory.rs:18-35); seeking a pipe fails.
   I/O errors in the middle of a seekable file are not modelled. *)
Definition open_zip (path : bytes) : res (option (crc_reader * bytes)) :=
  if w_exists w path then
    let* f := w_open w path in
    if f_seekable f then
      let* zip := is_zip (i_data (f_reads f)) in
      if zip : bool
      then let* x := zip_open (i_data (f_reads f)) inflate bunzip (i_plan (f_reads f)) in Ok (Some x)
      else Ok None
    else Err (EIo (OtherIo 29))
  else Ok None.

(* src/input/single_file.rs:49-83 create_source_from_path *)
Definition create_source_from_path (fmt : input_format) (path : bytes) : res (option S) :=
  let* zip := open_zip path in
  match zip with
  | Some (c, name) =>
      let* p := previewer_new (crc_as_inner c) in
      let* s := create_source_from_previewer ds sfs p (Some name) fmt in Ok (Some s)
  | None =>
      let* p := create_previewer (streaming_transports user (file_transport w) (http_transport w)) path in
      match p with
      | None => Ok None
      | Some p =>
          let* name := get_file_name path in
          let* s := create_source_from_previewer ds sfs p name fmt in Ok (Some s)
      end
  end.
End Open.

(** All next_row results of a multi-file source: the calls needed are at most the number of
    results of the files left, plus one. *)
Definition multi_bound {P} (open : P -> res (option (header * source))) (st : multi (P := P)) : nat :=
  S (match m_cur st with Some s => length s | None => 0 end +
     list_sum (map (fun p => match open p with Ok (Some (_, s)) => length s | _ => 0 end) (m_paths st)) +
     length (m_paths st)).
Definition multi_source {P} (open : P -> res (option (header * source))) (st : multi (P := P)) : header * source :=
  (m_common st, drain open (multi_bound open st) st).

Section Inputs.
Variables (ds : decoders) (inflate bunzip : inner -> inner).
Variable (w : world) (user : option (list transport)) (sfs : list (factory (header * source))).

(* src/input/input_factory.rs:105-149 create_source_from_input *)
Definition create_source_from_input (i : input) : res (header * source) :=
  match in_type i with
  | StdIn =>
      let* p := previewer_new (w_stdin w) in
      create_source_from_previewer ds sfs p None (in_format i)
  | Path path =>
      let open := create_source_from_path ds inflate bunzip w user sfs (in_format i) in
      if dt_can_handle (dir_file_transport w) path then
        let* st := dir_source open (dir_file_transport w) path in
        Ok (multi_source open st)
      else
        let* s := open path in
        match s with
        | Some s => Ok s
        | None => Err (EIo (OtherIo 3))
        end
  end.

(* src/chopper_cli.rs:128-131 the inputs in order *)
Fixpoint open_inputs (l : list input) : res (list (header * source)) :=
  match l with
  | [] => Ok []
  | i :: t =>
      let* s := create_source_from_input i in
      let* r := open_inputs t in
      Ok (s :: r)
  end.
End Inputs.

(** ** The built-in sources on a previewed stream *)

(** What is left to read of a buffered reader, if its reads do not fail before the data is used
    up ([smooth] plans; C27): the stream the models of the sources are stated over. *)
Definition as_stream (r : breader) : stream :=
  {| s_data := visible r ++ i_data (r_inner r); s_tail := i_tail (r_inner r) |}.

Section Sources.
Context (prof : profile) (ch : chrono) (lower : bytes -> bytes) (parse_f64_ok : text -> bool).
Variable split : byte -> stream -> list (res (list bytes)).

(* src/source/csv_factory.rs:34-39 create_source *)
Definition csv_create (cfg : csv_input ch) (p : previewer) : res (header * source) :=
  let* s := csv_new prof ch lower parse_f64_ok split cfg (get_lines p) (as_stream (get_reader p)) in
  Ok (cs_header s, csv_rows prof ch s).
(* src/source/dc_factory.rs:44-50 create_source *)
Definition dc_create (p : previewer) : res (header * source) :=
  let* (h, (rows, e)) := dc_read (as_stream (get_reader p)) in
  Ok (h, map Ok rows ++ match e with Ok _ => [] | e => [fail_as e] end).
End Sources.

(** ** Options *)

(** What clap hands over: src/cli_app.rs. *)
Record args := {
  a_inputs : option (list bytes);
  a_formats : option (list bytes);
  a_output : option bytes;
  a_timezone : option bytes;
  a_begin : option bytes;
  a_end : option bytes;
  a_in_delimiter : option bytes;
  a_in_has_header : bytes;
  a_in_col : option bytes;
  a_in_col_date : option bytes;
  a_in_col_time : option bytes;
  a_in_fmt : option bytes;
  a_in_fmt_date : option bytes;
  a_in_fmt_time : option bytes;
  a_in_epoch : option bytes;
  a_out_delimiter : bytes;
  a_out_print_time : bytes;
  a_out_time_name : option bytes;
  a_out_epoch : bool;
  a_out_units : option bytes
}.

(** A time zone (chrono_tz::Tz): from local date-times, and the text of an instant, given as
    seconds and nanoseconds, under a format. *)
Record zone (ch : chrono) := {
  zn_local : local ch -> local_result;
  zn_show : bytes -> N -> N -> bytes
}.
Arguments zn_local {ch}. Arguments zn_show {ch}.
(* src/util/tz.rs:10-13 ChopperTz, as used for reading (50-65) and for writing (67-81) *)
Definition zone_in {ch} (z : option (zone ch)) : tz ch := option_map zn_local z.
Definition zone_out {ch} (z : option (zone ch)) : option (bytes -> nanos -> bytes) :=
  option_map (fun z f t => zn_show z f (t / 1000000000)%N (t mod 1000000000)%N) z.

(* src/util/tz.rs:28-48 resolve_timezone; [parse] is Tz::from_str, [map] the caller's names *)
Definition resolve_timezone {Z} (arg env : option bytes) (map : option (bytes -> option Z)) (parse : bytes -> option Z)
  : res (option Z) :=
  match (match arg with None => env | Some s => Some s end) with
  | None => Ok None
  | Some s =>
      match map with
      | None => let* z := unwrap (parse s) in Ok (Some z)
      | Some m => match m s with
                  | None => let* z := unwrap (parse s) in Ok (Some z)
                  | Some z => Ok (Some z)
                  end
      end
  end.

(* clap's arg_enum: FromStr compares without regard to ASCII case (src/cli/util.rs:3-10);
   ECsv 1 stands for the clap error *)
Definition parse_yes_no_auto (s : bytes) : res yes_no_auto :=
  if eq_ignore_ascii_case s (b "Yes") then Ok Yes
  else if eq_ignore_ascii_case s (b "No") then Ok No
  else if eq_ignore_ascii_case s (b "Auto") then Ok CsvModel.Auto
  else Err (ECsv 1).

(* src/chopper_cli.rs:171-184 the timestamp format options *)
Definition fmt_option (a : args) : res fmt_config :=
  match a_in_fmt_date a with
  | None =>
      match a_in_fmt a with
      | None =>
          match a_in_epoch a with
          | None => Ok FmtAuto
          | Some u => let* u := units_from_str u in Ok (FmtEpoch u)
          end
      | Some f => Ok (FmtExplicit f)
      end
  | Some d => let* t := unwrap (a_in_fmt_time a) in Ok (FmtDateTimeExplicit d t)
  end.

(* [str::parse::<usize>]: 64 bits *)
Definition parse_usize (s : bytes) : option nat := option_map N.to_nat (parse_u64 (chars s)).
(* src/chopper_cli.rs:186-209 the timestamp column options *)
Definition col_option (a : args) : res col_config :=
  match a_in_col_date a with
  | None =>
      match a_in_col a with
      | None => Ok CfgAuto
      | Some c => match parse_usize c with Some i => Ok (CfgIndex i) | None => Ok (CfgName c) end
      end
  | Some d =>
      let* t := unwrap (a_in_col_time a) in
      match parse_usize d with
      | Some i => match parse_usize t with
                  | Some j => Ok (CfgDateTimeIndex i j)
                  | None => Ok (CfgDateTimeName d t)
                  end
      | None => Ok (CfgDateTimeName d t)
      end
  end.

(* src/chopper_cli.rs:167-213 parse_csv_input_config *)
Definition csv_input_options {ch} (a : args) (z : option (zone ch)) : res (csv_input ch) :=
  let* hh := parse_yes_no_auto (a_in_has_header a) in
  let* f := fmt_option a in
  let* c := col_option a in
  csv_input_new ch (a_in_delimiter a) hh c f (zone_in z).

(* src/chopper_cli.rs:215-247 parse_csv_output_config; unreachable! panics *)
Definition csv_output_options {ch} (a : args) (z : option (zone ch)) : res csv_output :=
  let* print :=
    if bytes_eqb (a_out_print_time a) (b "yes") then Ok true
    else if bytes_eqb (a_out_print_time a) (b "no") then Ok false
    else Panic in
  let* units := match a_out_units a with None => Ok Nanos | Some u => units_from_str u end in
  Ok (csv_output_new (a_out_delimiter a) print (a_out_time_name a)
        (if a_out_epoch a then Epoch else HumanReadable) units (zone_out z)).

(** ** The program *)

(** How it ends: what the output file or standard output has received ([None]: it was not
    even opened; opening a file truncates it), and the result. *)
Record outcome := { o_written : option bytes; o_result : res unit }.

(* src/error.rs:104-120 handle_drive_error, chop/src/main.rs:3-5; 101 is what a panic gives *)
Definition exit_code (o : outcome) : N :=
  match o_result o with Ok _ => 0 | Err _ | Exit => 1 | _ => 101 end.

(** All inputs have the header the output is given (C14). *)
Definition output_header (inputs : list (header * source)) : option header :=
  match map fst inputs with
  | h :: t => if forallb (fun x => header_eqb x h) t then Some h else None
  | [] => None
  end.

Section Program.
Context (prof : profile) (ch : chrono) (lower : bytes -> bytes) (parse_f64_ok : text -> bool).
Variable split : byte -> stream -> list (res (list bytes)).
Variables (ds : decoders) (inflate bunzip : inner -> inner) (show_f64 show_f32 : N -> bytes).
(** the caller's extensions (chop/src/main.rs passes none), and Tz::from_str *)
Variables (transports : option (list transport)) (factories : option (list (factory (header * source))))
          (zones : option (bytes -> option (zone ch))) (parse_zone : bytes -> option (zone ch)).
(** File::create *)
Variable create : bytes -> res unit.

(* src/chopper_cli.rs:34-108 parse_cli_args, up to setup_graph *)
Record options := {
  op_range : ts_range; op_inputs : list input; op_csv_in : csv_input ch; op_csv_out : csv_output
}.
Definition parse_args (w : world) (a : args) : res options :=
  let* z := resolve_timezone (a_timezone a) (w_env_tz w) zones parse_zone in
  let* rng := timestamp_range prof ch (a_begin a) (a_end a) (zone_in z) in
  let* ins := cli_inputs (a_formats a) (a_inputs a) in
  let* ci := csv_input_options a z in
  let* co := csv_output_options a z in
  Ok {| op_range := rng; op_inputs := ins; op_csv_in := ci; op_csv_out := co |}.

Definition all_factories (cfg : csv_input ch) : list (factory (header * source)) :=
  all_source_factories factories (Some (csv_create prof ch lower parse_f64_ok split cfg)) dc_create.

(** The output for the calls [evs] of the data sink, once it has the header, and the sink. *)
Definition kind_sink (k : output_kind) : header_sink :=
  match k with
  | OutCsv _ cfg => csv_header_sink show_f64 show_f32 cfg
  | OutDc _ => dc_header_sink
  end.
Definition kind_bytes (k : output_kind) (h : header) (evs : list event) : bytes :=
  match k with
  | OutCsv _ cfg => csv_file show_f64 show_f32 cfg h evs
  | OutDc _ => dc_file h evs
  end.
Definition kind_path (k : output_kind) : option bytes :=
  match k with OutCsv p _ => p | OutDc p => Some p end.

(* src/chopper_cli.rs:110-165 setup_graph, then drive (chopper_cli.rs:25-32): the inputs are
   opened first, then the output is created, then the headers are checked.  The output must
   not be one of the inputs; errors of the writer are not modelled here. *)
Definition run_chop (F : nat) (w : world) (a : args) (o : options) : outcome :=
  match open_inputs ds inflate bunzip w transports (all_factories (op_csv_in o)) (op_inputs o) with
  | Ok inputs =>
      match new_header_sink (a_output a) (Some (op_csv_out o)) with
      | Ok k =>
          match (match kind_path k with Some p => create p | None => Ok tt end) with
          | Ok _ =>
              let (st, r) := chop F inputs (kind_sink k) (op_range o) in
              let n := length inputs in
              {| o_written := Some (match output_header inputs with
                                    | Some h => kind_bytes k h (events_at (r_log st) (out_chain n) (out_node n))
                                    | None => []
                                    end);
                 o_result := r |}
          | e => {| o_written := None; o_result := fail_as e |}
          end
      | e => {| o_written := None; o_result := fail_as e |}
      end
  | e => {| o_written := None; o_result := fail_as e |}
  end.
(* src/chopper_cli.rs:25-32 chopper_cli *)
Definition chopper_cli (F : nat) (w : world) (a : args) : outcome :=
  match parse_args w a with
  | Ok o => run_chop F w a o
  | e => {| o_written := None; o_result := fail_as e |}
  end.
End Program.

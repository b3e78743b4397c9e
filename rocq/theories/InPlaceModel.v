(** Model of the program when the output file is its only input: src/chopper_cli.rs:110-165 opens the input, then
    the output sink is made by File::create (src/write/csv_sink.rs:17-26, src/write/dc_sink.rs:18-27), which empties
    the file the input is being read from. *)
From Verif Require Export SharedModel.

(** File::create on a file that is open for reading: the reader keeps what is in its buffer, and what it has not
    read yet is gone.  (As long as nothing has been written to the file, its reads find the end.) *)
Definition emptied (p : previewer) : previewer :=
  let r := p_reader p in
  {| p_reader := {| r_inner := {| i_data := []; i_tail := i_tail (r_inner r); i_plan := i_plan (r_inner r) |};
                    r_buf := r_buf r; r_pos := r_pos r; r_cap := r_cap r |};
     p_trimmed := p_trimmed p; p_lines := p_lines p |}.

Section InPlace.
Context (prof : profile) (ch : chrono) (lower : bytes -> bytes) (parse_f64_ok : text -> bool).
Variable split : byte -> stream -> list (res (list bytes)).
Variables (ds : decoders) (show_f64 show_f32 : N -> bytes).
Variables (zones : option (bytes -> option (zone ch))) (parse_zone : bytes -> option (zone ch)).
Variable create : bytes -> res unit.
Variable cut : option row -> bytes -> list bytes.

(* src/input/single_file.rs:68-83 for a local file that is not an archive: the source is made from the whole file,
   its rows are read after the file has been emptied.  A source reads its header, and a CSV source its first record,
   when it is made; here they have to be in the part that is buffered. *)
Definition open_then_empty (cfg : csv_input ch) (w : world) (fmt : input_format) (path : bytes) : res (header * source) :=
  let sfs := all_factories prof ch lower parse_f64_ok split None cfg in
  let* f := w_open w path in
  let* p := previewer_new (f_reads f) in
  let* name := get_file_name path in
  let* (h, _) := create_source_from_previewer ds sfs p name fmt in
  let* (_, rows) := create_source_from_previewer ds sfs (emptied p) name fmt in
  Ok (h, rows).

(** BufWriter::new (std): 8 KiB *)
Definition BUF_WRITER : nat := 8 * 1024.

(* src/chopper_cli.rs:110-165 and 25-32 for one input that is also the output.  The rows are those that are left
   (above), which is right as long as nothing is written before the last of them has been read. *)
Definition chop_in_place (F : nat) (w : world) (a : args) (fmt : input_format) (path : bytes) : outcome :=
  match parse_args prof ch zones parse_zone w a with
  | Ok op =>
      match open_then_empty (op_csv_in ch op) w fmt path with
      | Ok (h, rows) =>
          match new_header_sink (a_output a) (Some (op_csv_out ch op)) with
          | Ok k =>
              match (match kind_path k with Some p => create p | None => Ok tt end) with
              | Ok _ =>
                  let (st, r) := chop F [(h, rows)] (io_header_sink show_f64 show_f32 BUF_WRITER (reliable []) cut k) (op_range ch op) in
                  {| o_written := Some (received BUF_WRITER (reliable []) cut (kind_printer show_f64 show_f32 k h) (events_at (r_log st) 0 0));
                     o_result := r |}
              | e => {| o_written := None; o_result := fail_as e |}
              end
          | e => {| o_written := None; o_result := fail_as e |}
          end
      | e => {| o_written := None; o_result := fail_as e |}
      end
  | e => {| o_written := None; o_result := fail_as e |}
  end.
(** What has reached the file when the sink has had the header and the calls [evs]. *)
Definition reached (k : output_kind) (h : header) (evs : list event) : bytes :=
  o_got (bw_out (after_events BUF_WRITER cut (kind_printer show_f64 show_f32 k h) evs
    (snd (after_header BUF_WRITER (reliable []) cut (kind_printer show_f64 show_f32 k h))))).
End InPlace.

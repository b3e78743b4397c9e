(** Model of src/input/single_file.rs, src/input/input_factory.rs (source factories and
    transports), src/source/{source,csv,dc}_factory.rs, src/transport/streaming/*,
    src/decompress/decompress.rs:103-155 and the format options of src/chopper_cli.rs. *)
From Verif Require Export DecompressModel DcModel.

(* src/input/input.rs:7-11 *)
Inductive input_format := Extension (ext : bytes) | Auto.

(** ** Decompression.  The decoders themselves (flate2, lz-fear, paku, ruzstd) are
    parameters: functions from the buffered reader to the reader of the decoded bytes. *)
Record decoders := {
  d_gz : breader -> res inner;
  d_lz4_frame : breader -> res inner;
  d_lz4_jblock : breader -> res inner;
  d_lzf : breader -> res inner;
  d_zst : breader -> res inner
}.

(* src/decompress/decompress.rs:103-155 decompress, decompress_lz4 *)
Definition decompress (ds : decoders) (f : dformat) (p : previewer) : res inner :=
  match f with
  | GZ => d_gz ds (get_reader p)
  | LZ4 => if (8 <=? length (get_buf p)) && bytes_eqb (firstn 8 (get_buf p)) (b "LZ4Block")
           then d_lz4_jblock ds (get_reader p)
           else d_lz4_frame ds (get_reader p)
  | LZF => d_lzf ds (get_reader p)
  | ZIP => Err (EIo (OtherIo 1))
  | ZST => d_zst ds (get_reader p)
  end.

(** ** Source factories: [S] is the type of sources *)

(* src/source/source_factory.rs:7-14 trait SourceFactory; [&mut self] of create_source is
   not used by any implementation here, so it is a function *)
Record factory (S : Type) := {
  sf_format : bytes -> bool;
  sf_preview : previewer -> bool;
  sf_create : previewer -> res S
}.
Arguments sf_format {S} _ _.
Arguments sf_preview {S} _ _.
Arguments sf_create {S} _ _.

Section Single.
Context {S : Type} (ds : decoders) (sfs : list (factory S)).

(* src/input/single_file.rs:180-186 decompress *)
Definition decompress_preview (f : dformat) (p : previewer) : res previewer :=
  let* i := decompress ds f p in previewer_new i.

(* src/input/single_file.rs:151-166 decompress_using_format; the boolean is
   FormatAutodetectResult::Detected (single_file.rs:16-20) *)
Definition decompress_using_format (p : previewer) (format : bytes)
  : res (bool * previewer * bytes) :=
  match is_compressed_using_format format with
  | Some (f, new_format) => let* p' := decompress_preview f p in Ok (true, p', new_format)
  | None => Ok (false, p, format)
  end.

(* src/input/single_file.rs:168-178 decompress_by_autodetecting_format *)
Definition decompress_by_autodetecting_format (p : previewer) : res (bool * previewer) :=
  match is_compressed_using_previewer p with
  | Some f => let* p' := decompress_preview f p in Ok (true, p')
  | None => Ok (false, p)
  end.

(* src/input/single_file.rs:188-204 create_source_from_format, and the same loop at 120-124 *)
Fixpoint first_by_format (l : list (factory S)) (format : bytes) : option (factory S) :=
  match l with
  | [] => None
  | sf :: t => if sf_format sf format then Some sf else first_by_format t format
  end.
Definition create_source_from_format (p : previewer) (format : bytes) : res S :=
  match first_by_format sfs format with
  | Some sf => sf_create sf p
  | None => Err (ECustom "Cannot find source factory for file format")
  end.

(* src/input/single_file.rs:206-220 create_source_by_autodetecting_format *)
Fixpoint first_by_preview (l : list (factory S)) (p : previewer) : option (factory S) :=
  match l with
  | [] => None
  | sf :: t => if sf_preview sf p then Some sf else first_by_preview t p
  end.
Definition create_source_by_autodetecting_format (p : previewer) : res S :=
  match first_by_preview sfs p with
  | Some sf => sf_create sf p
  | None => Err (ECustom "Failed to autodetect file format by peeking at file contents.")
  end.

(* src/input/single_file.rs:85-149 create_source_from_previewer *)
Definition create_source_from_previewer (p : previewer) (file_name : option bytes)
  (fmt : input_format) : res S :=
  match fmt with
  | Extension ext =>
      let ext := if starts_with (b ".") ext then ext else b "." ++ ext in
      let* (_, p', format) := decompress_using_format p ext in
      create_source_from_format p' format
  | Auto =>
      match file_name with
      | Some name =>
          let* (detected, p', format) := decompress_using_format p name in
          match first_by_format sfs format with
          | Some sf => sf_create sf p'
          | None =>
              let* p'' :=
                if detected : bool then Ok p'
                else let* (_, q) := decompress_by_autodetecting_format p' in Ok q in
              create_source_by_autodetecting_format p''
          end
      | None =>
          let* (_, p') := decompress_by_autodetecting_format p in
          create_source_by_autodetecting_format p'
      end
  end.
End Single.

(** ** The built-in factories *)

(* src/source/csv_factory.rs:21-43 *)
Definition csv_factory {S} (create : previewer -> res S) : factory S := {|
  sf_format := fun format => ends_with (b ".csv") format;
  sf_preview := fun p => match get_lines p with Some _ => true | None => false end;
  sf_create := create
|}.

(* src/source/dc_factory.rs:14-54 *)
Definition dc_factory {S} (create : previewer -> res S) : factory S := {|
  sf_format := fun format => ends_with (b ".dc") format;
  sf_preview := fun p =>
    match read_be 8 (buf_stream (get_buf p)) with
    | Ok (m, rest) =>
        (m =? MAGIC_NUM)%N &&
        match read_be 2 rest with
        | Ok (v, _) => (v =? VERSION)%N
        | _ => false
        end
    | _ => false
    end;
  sf_create := create
|}.

(* src/input/input_factory.rs:152-161 create_default_source_factories *)
Definition default_source_factories {S} (csv : option (previewer -> res S)) (dc : previewer -> res S)
  : list (factory S) :=
  (match csv with Some create => [csv_factory create] | None => [] end) ++ [dc_factory dc].

(* src/input/input_factory.rs:74-82 user factories come first *)
Definition all_source_factories {S} (user : option (list (factory S)))
  (csv : option (previewer -> res S)) (dc : previewer -> res S) : list (factory S) :=
  match user with
  | Some s => s ++ default_source_factories csv dc
  | None => default_source_factories csv dc
  end.

(** ** Transports *)

(* src/transport/streaming/streaming_transport.rs:5-12 *)
Record transport := { t_can_open : bytes -> bool; t_open : bytes -> res inner }.

(* src/transport/streaming/previewer_factory.rs:18-33 create_previewer: the loop does not
   stop at the first match *)
Fixpoint open_matching (ts : list transport) (path : bytes) (reader : option inner)
  : res (option inner) :=
  match ts with
  | [] => Ok reader
  | t :: ts' =>
      if t_can_open t path
      then let* r := t_open t path in open_matching ts' path (Some r)
      else open_matching ts' path reader
  end.
Definition create_previewer (ts : list transport) (path : bytes) : res (option previewer) :=
  let* reader := open_matching ts path None in
  match reader with
  | None => Ok None
  | Some r => let* p := previewer_new r in Ok (Some p)
  end.

(* src/input/input_factory.rs:55-64 and 171-173: user transports, then file, then http *)
Definition streaming_transports (user : option (list transport)) (file http : transport)
  : list transport :=
  match user with
  | Some t => t ++ [file; http]
  | None => [file; http]
  end.

(* src/transport/streaming/http.rs:10-12 can_open: Path::starts_with compares whole
   components, so this is a test on the first component *)
Fixpoint first_component (path : bytes) : bytes :=
  match path with
  | [] => []
  | c :: t => if Ascii.eqb c "/" then [] else c :: first_component t
  end.
Definition http_can_open (path : bytes) : bool :=
  bytes_eqb (first_component path) (b "http:") || bytes_eqb (first_component path) (b "https:").

(** ** Command line: which input gets which format *)

Inductive input_type := Path (path : bytes) | StdIn.
Record input := { in_type : input_type; in_format : input_format }.

(* src/chopper_cli.rs:53-65 *)
Definition parse_format (s : bytes) : input_format :=
  if bytes_eqb s (b "auto") then Auto else Extension s.
Definition input_formats (formats : option (list bytes)) : list input_format :=
  match formats with
  | None => [Auto]
  | Some fs => map parse_format fs
  end.

(* src/chopper_cli.rs:66-91; the two assertions panic *)
Definition cli_inputs (formats inputs : option (list bytes)) : res (list input) :=
  let fs := input_formats formats in
  match rev fs with
  | [] => Panic
  | last_format :: _ =>
      let ins :=
        match inputs with
        | None => [ {| in_type := StdIn; in_format := nth 0 fs last_format |} ]
        | Some paths =>
            map (fun '(i, s) =>
                   {| in_type := Path s;
                      in_format := if i <? length fs then nth i fs last_format else last_format |})
                (enum_from 0 paths)
        end in
      match ins with [] => Panic | _ => Ok ins end
  end.

(** Saying with an option what would be guessed without it (C131). *)
From Verif Require Export WholeCsvSpec AnySpec.
From Verif Require Import T_CsvTime.
Local Open Scope nat_scope.

(** The same command line with another -f, --csv-in-delimiter, --csv-in-has-header, --csv-in-ts-fmt
    or --csv-in-epoch. *)
Definition told_options (a : args) (formats : option (list bytes)) (delimiter : option bytes) (has_header : bytes) (format epoch : option bytes) : args :=
  {| a_inputs := a_inputs a; a_formats := formats; a_output := a_output a; a_timezone := a_timezone a; a_begin := a_begin a; a_end := a_end a;
     a_in_delimiter := delimiter; a_in_has_header := has_header; a_in_col := a_in_col a; a_in_col_date := a_in_col_date a;
     a_in_col_time := a_in_col_time a; a_in_fmt := format; a_in_fmt_date := a_in_fmt_date a; a_in_fmt_time := a_in_fmt_time a;
     a_in_epoch := epoch; a_out_delimiter := a_out_delimiter a; a_out_print_time := a_out_print_time a; a_out_time_name := a_out_time_name a;
     a_out_epoch := a_out_epoch a; a_out_units := a_out_units a |}.
Definition with_formats a v := told_options a (Some v) (a_in_delimiter a) (a_in_has_header a) (a_in_fmt a) (a_in_epoch a).
Definition with_delimiter a v := told_options a (a_formats a) (Some v) (a_in_has_header a) (a_in_fmt a) (a_in_epoch a).
Definition with_has_header a v := told_options a (a_formats a) (a_in_delimiter a) v (a_in_fmt a) (a_in_epoch a).
Definition with_format a v := told_options a (a_formats a) (a_in_delimiter a) (a_in_has_header a) (Some v) (a_in_epoch a).
Definition with_epoch a v := told_options a (a_formats a) (a_in_delimiter a) (a_in_has_header a) (a_in_fmt a) (Some v).
(** ... and with a column. *)
Definition with_column (a : args) (c : bytes) : args :=
  {| a_inputs := a_inputs a; a_formats := a_formats a; a_output := a_output a; a_timezone := a_timezone a; a_begin := a_begin a; a_end := a_end a;
     a_in_delimiter := a_in_delimiter a; a_in_has_header := a_in_has_header a; a_in_col := Some c; a_in_col_date := a_in_col_date a;
     a_in_col_time := a_in_col_time a; a_in_fmt := a_in_fmt a; a_in_fmt_date := a_in_fmt_date a; a_in_fmt_time := a_in_fmt_time a;
     a_in_epoch := a_in_epoch a; a_out_delimiter := a_out_delimiter a; a_out_print_time := a_out_print_time a; a_out_time_name := a_out_time_name a;
     a_out_epoch := a_out_epoch a; a_out_units := a_out_units a |}.

(** An ordinary local file, not an archive, that can be read to its end; its name ends in [ext]. *)
Definition ordinary (w : world) (path ext data : bytes) : Prop := plain_file w path ext data /\ ~ looks_like_zip data.
(** The -f values that say what the end of a name says. *)
Definition extension_said (f ext : bytes) : Prop :=
  (f = b "csv" \/ f = b ".csv") /\ ext = b ".csv" \/ (f = b "dc" \/ f = b ".dc") /\ ext = b ".dc".

(** [csv_content] with the column, the unit in its name and the way that times are read in view. *)
Definition csv_read {ch} (lower : bytes -> bytes) (f64_ok : text -> bool) (a : args) (z : option (zone ch))
  (data : bytes) (h : header) (rows : list row) (col : ts_col) (hint : option units) (fmt : ts_fmt) : Prop :=
  exists lines d yes text all clean names first recs texts times,
    first_lines data lines /\ input_delimiter a lines d /\ d <> quote /\ d <> byte_of 10 /\ d <> byte_of 13 /\
    input_has_header f64_ok a lines d yes /\
    (data = text \/ data = bom ++ text) /\ (forall x, text <> bom ++ x) /\ csv_text d all text /\
    Forall2 (Forall2 trimmed) all clean /\ clean = (if yes : bool then [names] else []) ++ first :: recs /\
    Forall (fun r => length r = length first) recs /\
    h_names h = (if yes then names else map (fun i => b "col_" ++ dec (N.of_nat i)) (seq 0 (length first))) /\
    h_types h = repeat TString (length first) /\
    input_column lower a h col hint /\
    (forall x, row_text first col x -> input_format_used ch a col hint x fmt) /\
    Forall2 (fun r x => row_text r col x) (first :: recs) texts /\
    Forall2 (row_time (zone_in z) fmt) texts times /\
    rows = map (fun p => row_of (fst p) (snd p)) (combine (first :: recs) times).

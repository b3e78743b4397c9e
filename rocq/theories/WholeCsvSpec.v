(** What a CSV file holds, under the options of the command line, and what the lines of a CSV
    output are (C104, C105). *)
From Verif Require Export CliCsvSpec CsvQuoteSpec ReaderSpec ProgramSpec DcSpec.
From Verif Require Import T_CsvTime.
Local Open Scope nat_scope.

(** The lines at the start of a file that the guesses look at: those in its first 8 KiB, without
    their line ends; none if they are not text. *)
Definition first_lines (data : bytes) (lines : option (list bytes)) : Prop :=
  exists raw, preview_lines (firstn (8 * 1024) data) (length (firstn (8 * 1024) data) =? 8 * 1024) raw /\
    match lines with
    | Some out => Forall2 (fun l l' => strip_cr l l' /\ well_formed l') raw out
    | None => exists l l', In l raw /\ strip_cr l l' /\ ~ well_formed l'
    end.

(** A field without the white space around it. *)
Definition trimmed (f t : bytes) : Prop :=
  exists cs ct, Forall scalar cs /\ f = str cs /\ stripped cs ct /\ t = str ct.

(** The data of a CSV file stand for a header and rows: text (with or without a byte order mark)
    of records of one width, the first one the names if there is a header, with one time in each. *)
Definition csv_content {ch} (lower : bytes -> bytes) (f64_ok : text -> bool) (a : args) (z : option (zone ch))
  (data : bytes) (h : header) (rows : list row) : Prop :=
  exists lines d yes text all clean names first recs texts times col hint fmt,
    first_lines data lines /\ input_delimiter a lines d /\ d <> quote /\ d <> byte_of 10 /\ d <> byte_of 13 /\
    input_has_header f64_ok a lines d yes /\
    (data = text \/ data = bom ++ text) /\ (forall x, text <> bom ++ x) /\ csv_text d all text /\
    Forall2 (Forall2 trimmed) all clean /\ clean = (if yes : bool then [names] else []) ++ first :: recs /\
    Forall (fun r => length r = length first) recs /\
    h_names h = (if yes then names else map (fun i => b "col_" ++ dec (N.of_nat i)) (seq 0 (length first))) /\
    h_types h = repeat TString (length first) /\
    input_column lower a h col hint /\
    (forall x, row_text first col x -> input_format_used ch a col hint x fmt) /\
    Forall2 (fun r x => row_text r col x) (first :: recs) texts /\
    Forall2 (row_time (zone_in z) fmt) texts times /\
    rows = map (fun p => row_of (fst p) (snd p)) (combine (first :: recs) times).

(** An ordinary local file called [core ++ ext] with the given bytes, which can be read to its end. *)
Definition plain_file (w : world) (path ext data : bytes) : Prop :=
  exists f core, local_file w path f /\ f_seekable f = true /\ named path (core ++ ext) /\ utf8 (core ++ ext) = true /\
    i_data (f_reads f) = data /\ i_tail (f_reads f) = None /\ smooth (i_plan (f_reads f)).

(** ** Output *)
(** The header line: always with commas (C37). *)
Definition output_header_line (a : args) (u : units) (h : header) (l : bytes) : Prop :=
  (a_out_print_time a = b "no" /\ l = join (b ",") (h_names h)) \/
  (a_out_print_time a = b "yes" /\ l = join (b ",") (output_time_name a u :: h_names h)).
(** The line of a row. *)
Definition output_line {ch} (f64 f32 : N -> bytes) (a : args) (z : option (zone ch)) (u : units) (r : row) (l : bytes) : Prop :=
  exists texts, Forall2 (value_text f64 f32) (vals r) texts /\
    ((a_out_print_time a = b "no" /\ l = join (a_out_delimiter a) texts) \/
     (a_out_print_time a = b "yes" /\ exists t, output_time a z u (ts r) t /\ l = join (a_out_delimiter a) (t :: texts))).

(** What the CSV options of the command line mean (C96, C97), written from src/cli_app.rs and the
    README: no configuration record of the program appears here. *)
From Verif Require Export ProgramSpec CsvSpec TimeSpec.
Local Open Scope nat_scope.

(** ** Units *)
Inductive unit_letters : bytes -> units -> Prop :=
| letters_s : unit_letters (b "s") Seconds
| letters_ms : unit_letters (b "ms") Millis
| letters_us : unit_letters (b "us") Micros
| letters_ns : unit_letters (b "ns") Nanos.
(** -g, nanoseconds if it is absent *)
Definition granularity (a : args) (u : units) : Prop :=
  match a_out_units a with Some s => unit_letters s u | None => u = Nanos end.

(** ** Output *)
(** The name of the time column. *)
Definition output_time_name (a : args) (u : units) : bytes :=
  match a_out_time_name a with
  | Some n => n
  | None => if a_out_epoch a then
              match u with
              | Seconds => b "timestampSeconds" | Millis => b "timestampMillis"
              | Micros => b "timestampMicros" | Nanos => b "timestampNanos"
              end
            else b "time"
  end.
(** The text of a time: with -E a number of units, rounded down; without, its date and time in the zone
    (formatted by chrono). *)
Definition output_time {ch} (a : args) (z : option (zone ch)) (u : units) (t : N) (s : bytes) : Prop :=
  if a_out_epoch a then s = dec (t / nanos_per u)
  else exists g, z = Some g /\ s = zn_show g (calendar_format u) (t / 1000000000) (t mod 1000000000).

(** ** Input *)
(** --csv-in-delimiter: one ASCII character, or backslash-t for a tab; without it, the most frequent of
    comma, tab and space in the first line (C39). *)
Definition input_delimiter (a : args) (lines : option (list bytes)) (d : byte) : Prop :=
  match a_in_delimiter a with
  | Some s => (s = [d] /\ (of_byte d < 128)%N) \/ (s = ["\"%char; "t"%char] /\ d = byte_of 9)
  | None => match lines with
            | Some (l :: _) => guess_delimiter l [byte_of 44; byte_of 9; byte_of 32] = Ok d
            | _ => d = byte_of 44
            end
  end.
(** --csv-in-has-header, in any case; auto (the default) compares the first two lines (C40). *)
Definition input_has_header (f64_ok : text -> bool) (a : args) (lines : option (list bytes)) (d : byte) (yes : bool) : Prop :=
  (same_letters (a_in_has_header a) (b "yes") /\ yes = true) \/
  (same_letters (a_in_has_header a) (b "no") /\ yes = false) \/
  (same_letters (a_in_has_header a) (b "auto") /\
   yes = match lines with
         | Some (l1 :: l2 :: _) => guess_has_header f64_ok (Some l1) (Some l2) d
         | _ => false
         end).
(** The time column: [i]'s column if the option is a number, else the first with that name; the unit is
    the one the name ends in.  Without the option the column is chosen by its name (C42). *)
Definition column_text (h : header) (s : bytes) (i : nat) : Prop :=
  index_text s i \/ (forall k, ~ index_text s k) /\ first_named (h_names h) s i.
Inductive input_column (lower : bytes -> bytes) (a : args) (h : header) : ts_col -> option units -> Prop :=
| no_column col u : a_in_col_date a = None -> a_in_col a = None ->
    get_timestamp_col lower h CfgAuto = Ok (col, u) -> input_column lower a h col u
| one_column s i u n : a_in_col_date a = None -> a_in_col a = Some s -> column_text h s i ->
    nth_error (h_names h) i = Some n -> ends_in_unit n u -> input_column lower a h (ColIndex i) u
| beyond_columns s i : a_in_col_date a = None -> a_in_col a = Some s -> index_text s i ->
    nth_error (h_names h) i = None -> input_column lower a h (ColIndex i) None
| two_numbers s t i j : a_in_col_date a = Some s -> a_in_col_time a = Some t -> index_text s i -> index_text t j ->
    input_column lower a h (ColDateTime i j) None
| two_names s t i j : a_in_col_date a = Some s -> a_in_col_time a = Some t ->
    (* a number next to a name is a name too: C70 *)
    (forall k, ~ index_text s k) \/ (forall k, ~ index_text t k) ->
    first_named (h_names h) s i -> first_named (h_names h) t j ->
    input_column lower a h (ColDateTime i j) None.
(** The way times are read, given the text [s] of the first record's time: the units of
    --csv-in-epoch; a format given, as a time with offset, local time or date, whichever reads [s];
    without either, the unit in the column's name, the documented formats, or a number of a plausible size. *)
Inductive input_format_used (ch : chrono) (a : args) (col : ts_col) (hint : option units) (s : bytes) : ts_fmt -> Prop :=
| split_format d t fmt : a_in_fmt_date a = Some d -> a_in_fmt_time a = Some t ->
    first_parsing ch (TimeSpec.given (d ++ b "#" ++ t)) s fmt -> input_format_used ch a col hint s fmt
| whole_format f fmt : a_in_fmt_date a = None -> a_in_fmt a = Some f ->
    first_parsing ch (TimeSpec.given f) s fmt -> input_format_used ch a col hint s fmt
| epoch_units l u : a_in_fmt_date a = None -> a_in_fmt a = None -> a_in_epoch a = Some l -> unit_letters l u ->
    input_format_used ch a col hint s (FUnits u)
| named_units u : a_in_fmt_date a = None -> a_in_fmt a = None -> a_in_epoch a = None -> hint = Some u ->
    input_format_used ch a col hint s (FUnits u)
| known_format fmt : a_in_fmt_date a = None -> a_in_fmt a = None -> a_in_epoch a = None -> hint = None ->
    first_parsing ch (documented col) s fmt -> input_format_used ch a col hint s fmt
| guessed_units i n u : a_in_fmt_date a = None -> a_in_fmt a = None -> a_in_epoch a = None -> hint = None ->
    (forall fmt, In fmt (documented col) -> ~ parses ch fmt s) -> col = ColIndex i ->
    numeral (chars s) n -> plausible u n -> input_format_used ch a col hint s (FUnits u).

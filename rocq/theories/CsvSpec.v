(** Specifications for CSV input and output. *)
From Verif Require Export CsvModel CsvUtilSpec TimestampSpec.
Local Open Scope nat_scope.

(** ** Lines and columns *)

(** Columns joined by a delimiter. *)
Definition join (d : bytes) (cols : list bytes) : bytes :=
  match cols with
  | [] => []
  | c :: r => c ++ flat_map (fun x => d ++ x) r
  end.
(** The columns of a line that is split at the character [d]. *)
Definition columns (d : byte) (line : bytes) (cols : list bytes) : Prop :=
  cols <> [] /\ Forall (fun c => ~ In d c) cols /\ line = join [d] cols.

(** ** Opening a CSV file *)

(** The delimiter and the presence of a header, as configured or guessed from the first two
    lines; the candidates are comma, tab and space. *)
Definition delimiter_used {ch} (cfg : csv_input ch) (lines : option (list bytes)) (d : byte) : Prop :=
  match ci_delimiter cfg with
  | Some d' => d = d'
  | None => match lines with
            | Some (l :: _) => guess_delimiter l [byte_of 44; byte_of 9; byte_of 32] = Ok d
            | _ => d = byte_of 44
            end
  end.
Definition has_header_used {ch} (f64_ok : text -> bool) (cfg : csv_input ch) (lines : option (list bytes)) (d : byte) : bool :=
  match ci_has_header cfg with
  | Yes => true
  | No => false
  | Auto => match lines with
            | Some (l1 :: l2 :: _) => guess_has_header f64_ok (Some l1) (Some l2) d
            | _ => false
            end
  end.

(** Records that decode to the given texts (UTF-8, white space around fields dropped). *)
Definition decodes (raw : res (list bytes)) (r : record) : Prop :=
  exists fs, raw = Ok fs /\ Forall2 (fun f t => exists cs ct, Forall scalar cs /\ f = str cs /\ stripped cs ct /\ t = str ct) fs r.

(** The data records of a file: what the csv crate ([split]) delivers after the header record, if
    any. *)
Definition data_records {ch} (f64_ok : text -> bool) (split : byte -> stream -> list (res (list bytes)))
  (cfg : csv_input ch) (lines : option (list bytes)) (data : stream) (raws : list (res (list bytes))) : Prop :=
  exists d pre, delimiter_used cfg lines d /\ split d data = pre ++ raws /\
    length pre = if has_header_used f64_ok cfg lines d then 1 else 0.

(** The time in a record, read in the way chosen on opening. *)
Definition timed (prof : profile) (ch : chrono) (s : csv_source ch) (r : record) (t : nanos) : Prop :=
  get_timestamp prof ch r (cs_col s) (cs_fmt s) (cs_tz s) = Ok t.
(** A record that cannot become a row: not text, or wider than the first, or without a time. *)
Definition bad_record (prof : profile) (ch : chrono) (s : csv_source ch) (width : nat) (raw : res (list bytes)) : Prop :=
  (forall r, ~ decodes raw r) \/
  exists r, decodes raw r /\ (width < length r \/ forall t, ~ timed prof ch s r t).

(** The row a record stands for. *)
Definition row_of (r : record) (t : nanos) : row := {| ts := t; vals := map VString r |}.

(** ** CSV text that needs no quoting *)
Definition plain (d : byte) (s : bytes) : Prop :=
  ~ In d s /\ ~ In quote s /\ ~ In (byte_of 10) s /\ ~ In (byte_of 13) s /\
  exists cs, Forall scalar cs /\ s = str cs /\ stripped cs cs.

(** ** CSV output *)
Inductive signed_decimal : Z -> bytes -> Prop :=
| decimal_pos n : signed_decimal (Z.of_N n) (dec n)
| decimal_neg n : (0 < n)%N -> signed_decimal (- Z.of_N n) (b "-" ++ dec n).

Section Output.
Context (f64 f32 : N -> bytes).

(** The text of a value (float texts come from dtoa). *)
Inductive value_text : fvalue -> bytes -> Prop :=
| text_byte n : value_text (VByte n) (dec n)
| text_char n : value_text (VChar n) (dec n)
| text_double x : value_text (VDouble x) (f64 x)
| text_float x : value_text (VFloat x) (f32 x)
| text_int z t : signed_decimal z t -> value_text (VInt z) t
| text_long z t : signed_decimal z t -> value_text (VLong z) t
| text_short z t : signed_decimal z t -> value_text (VShort z) t
| text_string s : value_text (VString s) s
| text_none : value_text VNone [].

(** The text of a time: a number of units, or a date and time with as many decimals as the unit
    has (in chrono's notation). *)
Definition calendar_format (u : units) : bytes :=
  b "%Y-%m-%dT%H:%M:%S" ++
  match u with Seconds => [] | Millis => b "%.3f" | Micros => b "%.6f" | Nanos => b "%.9f" end ++ b "%:z".
Inductive time_text (cfg : csv_output) (t : nanos) : bytes -> Prop :=
| time_epoch : co_style cfg = Epoch -> time_text cfg t (dec (t / nanos_per (co_units cfg)))
| time_human show : co_style cfg = HumanReadable -> co_show cfg = Some show ->
    time_text cfg t (show (calendar_format (co_units cfg)) t).

(** The columns of a row, and of the header: the time first, if it is printed. *)
Definition row_columns (cfg : csv_output) (r : row) (cols : list bytes) : Prop :=
  exists texts, Forall2 value_text (vals r) texts /\
    if co_print_time cfg then exists t, time_text cfg (ts r) t /\ cols = t :: texts else cols = texts.
Definition header_columns (cfg : csv_output) (h : header) : list bytes :=
  (if co_print_time cfg then [co_time_name cfg] else []) ++ h_names h.
End Output.
(** The largest multiple of [u] up to [t]. *)
Definition largest_multiple (u t m : N) : Prop :=
  (exists q, m = q * u)%N /\ (m <= t)%N /\ forall q, (q * u <= t -> q * u <= m)%N.

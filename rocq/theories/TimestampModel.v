(** Model of src/source/csv_timestamp.rs, src/util/timestamp_util.rs and the conversions of
    src/util/tz.rs.  chrono and chrono-tz are parameters ([chrono]). *)
From Verif Require Export CsvUtilModel.

(* src/source/csv_timestamp.rs:28-34 *)
Inductive units := Seconds | Millis | Micros | Nanos.

(* src/source/csv_timestamp.rs:57-62 TIMESTAMP_UNITS *)
Definition TIMESTAMP_UNITS : list (units * bytes) :=
  [(Seconds, b "seconds"); (Millis, b "millis"); (Micros, b "micros"); (Nanos, b "nanos")].

(* src/source/csv_timestamp.rs:37-45 TimestampUnits::from_str *)
Definition units_from_str (s : bytes) : res units :=
  if bytes_eqb s (b "s") then Ok Seconds
  else if bytes_eqb s (b "ms") then Ok Millis
  else if bytes_eqb s (b "us") then Ok Micros
  else if bytes_eqb s (b "ns") then Ok Nanos
  else Panic.
(* src/source/csv_timestamp.rs:47-54 to_suffix_str *)
Definition to_suffix_str (u : units) : bytes :=
  match u with
  | Seconds => b "Seconds" | Millis => b "Millis" | Micros => b "Micros" | Nanos => b "Nanos"
  end.

(* src/source/csv_timestamp.rs:65-68; Range::contains is half-open *)
Definition in_range (lo hi n : N) : bool := (lo <=? n)%N && (n <? hi)%N.
Definition RANGE_NANOS := in_range 630000000000000000 2000000000000000000.
Definition RANGE_MICROS := in_range 630000000000000 2000000000000000.
Definition RANGE_MILLIS := in_range 630000000000 2000000000000.
Definition RANGE_SECONDS := in_range 630000000 2000000000.

(* src/source/csv_timestamp.rs:70-80 *)
Inductive ts_col := ColIndex (i : nat) | ColDateTime (d t : nat).
Inductive ts_fmt :=
| FUnits (u : units) | FDateTimeTz (f : bytes) | FDateTime (f : bytes) | FDate (f : bytes).
(* src/source/csv_configs.rs:13-28 *)
Inductive fmt_config := FmtAuto | FmtEpoch (u : units) | FmtExplicit (f : bytes) | FmtDateTimeExplicit (d t : bytes).
Inductive col_config :=
| CfgAuto | CfgIndex (i : nat) | CfgDateTimeIndex (d t : nat) | CfgName (n : bytes) | CfgDateTimeName (d t : bytes).

(** ** chrono *)

(** LocalResult *)
Inductive local_result := LNone | LSingle (nanos : Z) | LAmbiguous (x y : Z).
(** Parsers (format, text); an instant is its number of nanoseconds since the epoch, local
    date-times and dates are left abstract. *)
Record chrono := {
  local : Type;
  day : Type;
  c_datetime : bytes -> bytes -> option Z;           (* DateTime::parse_from_str *)
  c_naive : bytes -> bytes -> option local;          (* NaiveDateTime::parse_from_str *)
  c_date : bytes -> bytes -> option day;             (* NaiveDate::parse_from_str *)
  c_midnight : day -> local                          (* and_hms(0, 0, 0) *)
}.
(* src/util/tz.rs:10-13 ChopperTz: the zone's from_local_datetime, if a zone was given *)
Definition tz (c : chrono) := option (local c -> local_result).

(* src/util/tz.rs:50-65 from_local_datetime *)
Definition from_local_datetime {c} (z : tz c) (l : local c) : res Z :=
  match z with
  | None => Err (ECustom "Timezone is needed to parse a date/time value")
  | Some f =>
      match f l with
      | LSingle n => Ok n
      | _ => Err (ECustom "Converting in timezone to timestamp failed.")
      end
  end.

(** Overflow of integer arithmetic: a panic in debug builds, wrapping in release builds. *)
Inductive profile := Debug | Release.
(** [timestamp_nanos() as u64]: chrono computes the nanoseconds in i64, where an instant outside
    the range (before 1677 or after 2262) overflows; then reinterpretation as u64.  (The two
    intermediate steps of the computation, seconds times 10^9 and plus the fraction, are one here:
    within the first second of the range a debug build would panic.  chrono from 0.4.31 on checks
    explicitly and panics in every build, which is the Debug behaviour here.) *)
Definition timestamp_nanos (p : profile) (z : Z) : res Z :=
  if (- 2 ^ 63 <=? z)%Z && (z <? 2 ^ 63)%Z then Ok z
  else match p with Debug => Panic | Release => Ok ((z + 2 ^ 63) mod 2 ^ 64 - 2 ^ 63)%Z end.
Definition nanos_as_u64 (p : profile) (z : Z) : res N :=
  let* n := timestamp_nanos p z in Ok (to_unsigned 64 n).

Definition mul_u64 (p : profile) (x y : N) : res N :=
  if (x * y <? 2 ^ 64)%N then Ok (x * y)%N
  else match p with Debug => Panic | Release => Ok ((x * y) mod 2 ^ 64)%N end.

(** ** Reading a timestamp *)

Definition record := list bytes.

(* src/source/csv_timestamp.rs:175-188 get_timestamp_string *)
Definition get_timestamp_string (r : record) (c : ts_col) : res bytes :=
  match c with
  | ColIndex i => unwrap (nth_error r i)
  | ColDateTime d t =>
      let* date := unwrap (nth_error r d) in
      let* time := unwrap (nth_error r t) in
      Ok (date ++ b "#" ++ time)
  end.

Definition unit_scale (u : units) : N :=
  match u with Seconds => 1000000000 | Millis => 1000000 | Micros => 1000 | Nanos => 1 end.

Section Chrono.
Context (prof : profile) (ch : chrono).

(* src/source/csv_timestamp.rs:82-121 get_timestamp; nanoseconds are not multiplied *)
Definition get_timestamp (r : record) (col : ts_col) (fmt : ts_fmt) (z : tz ch) : res nanos :=
  let* s := get_timestamp_string r col in
  match fmt with
  | FUnits u =>
      match parse_u64 (chars s) with
      | None => Err (ECustom "number")
      | Some n =>
          match u with
          | Nanos => Ok n
          | _ => mul_u64 prof n (unit_scale u)
          end
      end
  | FDateTimeTz f =>
      match c_datetime ch f s with Some i => nanos_as_u64 prof i | None => Err ETime end
  | FDateTime f =>
      match c_naive ch f s with
      | Some l => let* i := from_local_datetime z l in nanos_as_u64 prof i
      | None => Err ETime
      end
  | FDate f =>
      match c_date ch f s with
      | Some d => let* i := from_local_datetime z (c_midnight ch d) in nanos_as_u64 prof i
      | None => Err ETime
      end
  end.

(** ** Choosing the column *)

(* str::rsplitn(2, "time"): split at the last occurrence *)
Fixpoint rsplit (pat s : bytes) : option (bytes * bytes) :=
  match s with
  | [] => None
  | c :: t =>
      match rsplit pat t with
      | Some (p, q) => Some (c :: p, q)
      | None => if starts_with pat s then Some ([], skipn (length pat) s) else None
      end
  end.
Fixpoint find_units (l : list (units * bytes)) (s : bytes) : option units :=
  match l with
  | [] => None
  | (u, n) :: l' => if bytes_eqb n s then Some u else find_units l' s
  end.

(* src/source/csv_timestamp.rs:195-202 *)
Record found := {
  time_with_units : option (nat * units);
  date : option nat;
  time : option nat;
  prefixed_time_with_units : option (bytes * nat * units);
  prefixed_date : option (bytes * nat);
  prefixed_time : option (bytes * nat)
}.
Definition found0 : found :=
  {| time_with_units := None; date := None; time := None; prefixed_time_with_units := None;
     prefixed_date := None; prefixed_time := None |}.

(* src/source/csv_timestamp.rs:211-243 one lowercased name *)
Definition classify (p : nat * bytes) (st : found) : found :=
  let '(i, name) := p in
  let '{| time_with_units := tu; date := d; time := t; prefixed_time_with_units := ptu;
          prefixed_date := pd; prefixed_time := pt |} := st in
  let cut := firstn (length name - 4) name in
  if bytes_eqb name (b "time") then
    {| time_with_units := tu; date := d; time := Some i; prefixed_time_with_units := ptu; prefixed_date := pd; prefixed_time := pt |}
  else if bytes_eqb name (b "date") then
    {| time_with_units := tu; date := Some i; time := t; prefixed_time_with_units := ptu; prefixed_date := pd; prefixed_time := pt |}
  else if starts_with (b "time") name then
    match find_units TIMESTAMP_UNITS (skipn 4 name) with
    | Some u => {| time_with_units := Some (i, u); date := d; time := t; prefixed_time_with_units := ptu; prefixed_date := pd; prefixed_time := pt |}
    | None => st
    end
  else if ends_with (b "date") name then
    {| time_with_units := tu; date := d; time := t; prefixed_time_with_units := ptu; prefixed_date := Some (cut, i); prefixed_time := pt |}
  else if ends_with (b "time") name then
    {| time_with_units := tu; date := d; time := t; prefixed_time_with_units := ptu; prefixed_date := pd; prefixed_time := Some (cut, i) |}
  else match rsplit (b "time") name with
       | Some (prefix, suffix) =>
           match find_units TIMESTAMP_UNITS suffix with
           | Some u => {| time_with_units := tu; date := d; time := t; prefixed_time_with_units := Some (prefix, i, u); prefixed_date := pd; prefixed_time := pt |}
           | None => st
           end
       | None => st
       end.

Section Lower.
(** [str::to_lowercase] (Unicode) *)
Variable lower : bytes -> bytes.

(* src/source/csv_timestamp.rs:195-274 automatic choice: the names are visited from the last
   to the first *)
Definition auto_found (names : list bytes) : found :=
  fold_right classify found0 (enum_from 0 (map lower names)).
Definition auto_col (names : list bytes) : ts_col * option units :=
  let f := auto_found names in
  match time_with_units f with
  | Some (i, u) => (ColIndex i, Some u)
  | None =>
  match date f with
  | Some d => match time f with None => (ColIndex d, None) | Some t => (ColDateTime d t, None) end
  | None =>
  match time f with
  | Some i => (ColIndex i, None)
  | None =>
  match prefixed_time_with_units f with
  | Some (_, i, u) => (ColIndex i, Some u)
  | None =>
  match prefixed_date f with
  | Some (dp, d) =>
      match prefixed_time f with
      | None => (ColIndex d, None)
      | Some (tp, t) => if bytes_eqb dp tp then (ColDateTime d t, None) else (ColIndex d, None)
      end
  | None =>
  match prefixed_time f with
  | Some (_, i) => (ColIndex i, None)
  | None => (ColIndex 0, None)
  end end end end end end.

(* src/source/csv_timestamp.rs:275-289, 291-300: units by the end of the name *)
Fixpoint units_suffix (l : list (units * bytes)) (name : bytes) : option units :=
  match l with
  | [] => None
  | (u, s) :: l' => if ends_with s name then Some u else units_suffix l' name
  end.

(* src/source/csv_timestamp.rs:190-307 get_timestamp_col *)
Definition get_timestamp_col (h : header) (cfg : col_config) : res (ts_col * option units) :=
  match cfg with
  | CfgAuto => Ok (auto_col (h_names h))
  | CfgIndex i =>
      Ok (ColIndex i, match nth_error (h_names h) i with
                      | Some name => units_suffix TIMESTAMP_UNITS name
                      | None => None
                      end)
  | CfgDateTimeIndex d t => Ok (ColDateTime d t, None)
  | CfgName name =>
      let* i := get_field_index h name in Ok (ColIndex i, units_suffix TIMESTAMP_UNITS name)
  | CfgDateTimeName d t =>
      let* i := get_field_index h d in
      let* j := get_field_index h t in Ok (ColDateTime i j, None)
  end.

(** ** Choosing the format *)

(* src/source/csv_timestamp.rs:11-26 *)
Definition TIME_FORMATS_WITH_TZ := [b "%+"].
Definition TIME_FORMATS_WITHOUT_TZ :=
  [b "%Y%m%d.%H%M%S"; b "%Y%m%d %H%M%S"; b "%Y%m%d %H:%M:%S"; b "%Y/%m/%d-%H:%M:%S"].
Definition DATETIME_FORMATS_WITHOUT_TZ :=
  [b "%Y%m%d#%H%M%S%3f"; b "%Y%m%d#%H%M%S"; b "%Y%m%d#%H:%M:%S"; b "%Y%m%d#%-H:%M"].
Definition DATE_FORMATS_WITHOUT_TZ := [b "%Y%m%d"].

(** The first format that parses, and what it parses to. *)
Fixpoint first_fmt {A} (parse : bytes -> bytes -> option A) (fs : list bytes) (s : bytes)
  : option (bytes * A) :=
  match fs with
  | [] => None
  | f :: fs' => match parse f s with Some x => Some (f, x) | None => first_fmt parse fs' s end
  end.

(* src/source/csv_timestamp.rs:360 / src/util/timestamp_util.rs:38 *)
Definition all_digits (s : bytes) : bool := forallb is_digit (chars s).

(* src/source/csv_timestamp.rs:365-376 *)
Definition detect_units (n : N) : option units :=
  if RANGE_NANOS n then Some Nanos
  else if RANGE_MICROS n then Some Micros
  else if RANGE_MILLIS n then Some Millis
  else if RANGE_SECONDS n then Some Seconds
  else None.

Definition cannot_parse {A} : res A :=
  Err (ECustom "Cannot parse timestamp. Please provide format for parsing.").

(* src/source/csv_timestamp.rs:325-382 get_timestamp_fmt_auto_with_index *)
Definition fmt_auto_index (i : nat) (z : tz ch) (first_row : record) (hint : option units) : res ts_fmt :=
  match hint with
  | Some u => Ok (FUnits u)
  | None =>
      let* s := unwrap (nth_error first_row i) in
      match first_fmt (c_datetime ch) TIME_FORMATS_WITH_TZ s with
      | Some (f, _) => Ok (FDateTimeTz f)
      | None =>
      match first_fmt (c_naive ch) TIME_FORMATS_WITHOUT_TZ s with
      | Some (f, l) => let* _ := from_local_datetime z l in Ok (FDateTime f)
      | None =>
      match first_fmt (c_date ch) DATE_FORMATS_WITHOUT_TZ s with
      | Some (f, d) => let* _ := from_local_datetime z (c_midnight ch d) in Ok (FDate f)
      | None =>
          if all_digits s then
            match parse_u64 (chars s) with
            | None => Err (ECustom "number")
            | Some n => match detect_units n with Some u => Ok (FUnits u) | None => cannot_parse end
            end
          else cannot_parse
      end end end
  end.

(* src/source/csv_timestamp.rs:384-410 get_timestamp_fmt_auto_with_datetimeindex *)
Definition fmt_auto_datetime (d t : nat) (z : tz ch) (first_row : record) : res ts_fmt :=
  let* s := get_timestamp_string first_row (ColDateTime d t) in
  match first_fmt (c_naive ch) DATETIME_FORMATS_WITHOUT_TZ s with
  | Some (f, l) => let* _ := from_local_datetime z l in Ok (FDateTime f)
  | None => cannot_parse
  end.

(* src/source/csv_timestamp.rs:309-323 get_timestamp_fmt_auto *)
Definition fmt_auto (c : ts_col) (z : tz ch) (first_row : record) (hint : option units) : res ts_fmt :=
  match c with
  | ColIndex i => fmt_auto_index i z first_row hint
  | ColDateTime d t => fmt_auto_datetime d t z first_row
  end.

(* src/source/csv_timestamp.rs:149-173 get_timestamp_fmt_from_user_spec *)
Definition fmt_user (first_row : record) (c : ts_col) (f : bytes) (z : tz ch) : res ts_fmt :=
  let* s := get_timestamp_string first_row c in
  match c_datetime ch f s with
  | Some _ => Ok (FDateTimeTz f)
  | None =>
  match c_naive ch f s with
  | Some l => let* _ := from_local_datetime z l in Ok (FDateTime f)
  | None =>
  match c_date ch f s with
  | Some d => let* _ := from_local_datetime z (c_midnight ch d) in Ok (FDate f)
  | None => Err (ECustom "Cannot figure out if timestamp format requires timezone or not")
  end end end.

(* src/source/csv_timestamp.rs:123-147 get_timestamp_col_and_fmt *)
Definition get_col_and_fmt (h : header) (first_row : record) (cc : col_config) (fc : fmt_config) (z : tz ch)
  : res (ts_col * ts_fmt) :=
  let* (col, hint) := get_timestamp_col h cc in
  let* fmt :=
    match fc with
    | FmtAuto => fmt_auto col z first_row hint
    | FmtEpoch u => Ok (FUnits u)
    | FmtExplicit f => fmt_user first_row col f z
    | FmtDateTimeExplicit d t => fmt_user first_row col (d ++ b "#" ++ t) z
    end in
  Ok (col, fmt).
End Lower.

(** ** --begin and --end *)

(* src/util/timestamp_util.rs:19-35 create_datetime_range_formats *)
Definition range_formats : list bytes :=
  flat_map (fun df => flat_map (fun d => flat_map (fun tf => map (fun f => df ++ d ++ tf ++ f) [b ""; b "%.f"])
    [b "%H:%M:%S"; b "%H%M%S"]) [b " "; b "-"; b "T"]) [b "%Y%m%d"; b "%Y/%m/%d"; b "%Y-%m-%d"].

(* src/util/timestamp_util.rs:58-72 completion of YYYY, YYYYMM, YYYYMMDD *)
Definition complete (s : bytes) : bytes :=
  if all_digits s then
    if length s =? 4 then s ++ b "01" ++ b "01" ++ b "-" ++ b "00:00:00"
    else if length s =? 6 then s ++ b "01" ++ b "-" ++ b "00:00:00"
    else if length s =? 8 then s ++ b "-" ++ b "00:00:00"
    else s
  else s.

(* src/util/timestamp_util.rs:74-91 *)
Definition parse_completed (s : bytes) (z : tz ch) : res nanos :=
  match first_fmt (c_datetime ch) [b "%+"] s with
  | Some (_, i) => nanos_as_u64 prof i
  | None =>
  match first_fmt (c_naive ch) range_formats s with
  | Some (_, l) => let* i := from_local_datetime z l in nanos_as_u64 prof i
  | None => Err (ECustom "Cannot parse either begin or end datetime provided")
  end end.

(* src/util/timestamp_util.rs:37-92 parse_datetime_range_element *)
Definition parse_range_element (s : bytes) (z : tz ch) : res nanos :=
  if all_digits s then
    match parse_u64 (chars s) with
    | None => Err (ECustom "number")
    | Some n =>
        if RANGE_NANOS n then Ok n
        else if RANGE_MICROS n then mul_u64 prof n 1000
        else if RANGE_MILLIS n then mul_u64 prof n 1000000
        else if RANGE_SECONDS n then mul_u64 prof n 1000000000
        else parse_completed (complete s) z
    end
  else parse_completed (complete s) z.

(* src/chopper/types.rs:24-36 TimestampRange::new *)
Definition timestamp_range (begin fin : option bytes) (z : tz ch) : res ts_range :=
  let element o := match o with
                   | None => Ok None
                   | Some s => let* n := parse_range_element s z in Ok (Some n)
                   end in
  let* x := element begin in
  let* y := element fin in
  Ok {| tr_begin := x; tr_end := y |}.
End Chrono.

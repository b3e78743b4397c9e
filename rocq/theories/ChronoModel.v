(** Model of the parts of chrono 0.4.19 and chrono-tz that src/source/csv_timestamp.rs, src/util/timestamp_util.rs,
    src/util/tz.rs and src/write/csv_sink.rs call: format strings, DateTime / NaiveDateTime / NaiveDate
    ::parse_from_str, format(), and zones as tables of offset changes.  Written from the sources of those crates
    (not in /repo; chop/Cargo.lock pins the version).  [civil] is an instance of the [chrono] parameter of the
    other files; nothing there depends on it.  Specifiers outside the list below are a parameter ([foreign]). *)
From Verif Require Export ProgramModel.
Local Open Scope Z_scope.

(** ** The calendar: NaiveDate *)

Definition is_leap (y : Z) : bool := (y mod 4 =? 0) && (negb (y mod 100 =? 0) || (y mod 400 =? 0)).
Definition month_lengths (y : Z) : list Z :=
  [31; if is_leap y then 29 else 28; 31; 30; 31; 30; 31; 31; 30; 31; 30; 31].
(* days before 1 January of year [y], counted from 1 January of year 1 (proleptic Gregorian) *)
Definition before_year (y : Z) : Z := 365 * (y - 1) + (y - 1) / 4 - (y - 1) / 100 + (y - 1) / 400.
Definition sum_Z (l : list Z) : Z := fold_right Z.add 0 l.
(* the number of the day, 0 for 1970-01-01; used by src/source/csv_timestamp.rs:110-117 (num_days_from_ce) *)
Definition day_number (y m d : Z) : Z :=
  before_year y + sum_Z (firstn (Z.to_nat (m - 1)) (month_lengths y)) + (d - 1) - 719162.
(* NaiveDate::from_ymd_opt *)
Definition from_ymd_opt (y m d : Z) : option Z :=
  if (-262144 <=? y) && (y <=? 262143) && (1 <=? m) && (m <=? 12) && (1 <=? d)
     && (d <=? nth (Z.to_nat (m - 1)) (month_lengths y) 0)
  then Some (day_number y m d) else None.

(* NaiveDate from a number of days: 400-year cycles of 146097 days, then 365-day years corrected by the number
   of leap days before the year within the cycle (the table YEAR_DELTAS) *)
Definition year_delta (y : Z) : Z := (y + 3) / 4 - (y + 99) / 100 + (y + 399) / 400.
Definition cycle_to_year (c : Z) : Z * Z :=
  let y := c / 365 in
  let o := c mod 365 in
  if o <? year_delta y then (y - 1, o + 365 - year_delta (y - 1)) else (y, o - year_delta y).
Fixpoint month_of (m : Z) (ls : list Z) (o : Z) : Z * Z :=
  match ls with
  | [] => (m, o + 1)
  | n :: ls' => if o <? n then (m, o + 1) else month_of (m + 1) ls' (o - n)
  end.
Definition ymd (day : Z) : Z * Z * Z :=
  let c := day + 719528 in                          (* days since 1 January of year 0 *)
  let (y400, o) := cycle_to_year (c mod 146097) in
  let y := 400 * (c / 146097) + y400 in
  let (m, d) := month_of 1 (month_lengths y) o in
  (y, m, d).

(** ** NaiveDateTime: day, second of the day, nanosecond (from 10^9 on in a leap second) *)
Record stamp := { s_day : Z; s_sec : Z; s_nano : Z }.
(* NaiveDateTime::timestamp, the local seconds *)
Definition stamp_secs (l : stamp) : Z := 86400 * s_day l + s_sec l.

(** ** Format strings: StrftimeItems *)

Inductive field := FYear | FMonth | FDay | FHour | FMinute | FSecond | FNano | FOffset.
Inductive padding := NoPad | ZeroPad | SpacePad.
Inductive item :=
| Literal (c : N) | Space (c : N)                   (* per character; a run of them behaves the same *)
| Num (f : field) (p : padding)
| Frac (digits : option nat)                        (* %.f, %.3f, %.6f, %.9f *)
| FracNoDot (digits : nat)                          (* %3f, %6f, %9f *)
| Offset (colon : bool)                             (* %z, %:z *)
| Rfc3339                                           (* %+ *)
| Bad                                               (* Item::Error *)
| Other.                                            (* a specifier that is not modelled *)

Definition code (s : string) : N := match b s with c :: _ => of_byte c | [] => 0%N end.
Definition is (c : N) (s : string) : bool := (c =? code s)%N.
Definition one_of (c : N) (s : string) : bool := existsb (fun x => (c =? of_byte x)%N) (b s).

(* one specifier letter; [o] is a padding override *)
Definition numeric (c : N) : option (field * padding) :=
  if is c "Y" then Some (FYear, ZeroPad) else if is c "m" then Some (FMonth, ZeroPad)
  else if is c "d" then Some (FDay, ZeroPad) else if is c "e" then Some (FDay, SpacePad)
  else if is c "H" then Some (FHour, ZeroPad) else if is c "k" then Some (FHour, SpacePad)
  else if is c "M" then Some (FMinute, ZeroPad) else if is c "S" then Some (FSecond, ZeroPad)
  else if is c "f" then Some (FNano, ZeroPad) else None.
Definition spec_items (c : N) (o : option padding) : list item :=
  match numeric c with
  | Some (f, p) => [Num f (match o with Some q => q | None => p end)]
  | None =>
      if one_of c "AaBbCcDGgIjlPprsUuVvWwXxyh" then [Other]
      else match o with
           | Some _ => [Bad]                        (* only numeric items take a padding *)
           | None =>
               if is c "F" then [Num FYear ZeroPad; Literal (code "-"); Num FMonth ZeroPad; Literal (code "-"); Num FDay ZeroPad]
               else if is c "T" then [Num FHour ZeroPad; Literal (code ":"); Num FMinute ZeroPad; Literal (code ":"); Num FSecond ZeroPad]
               else if is c "R" then [Num FHour ZeroPad; Literal (code ":"); Num FMinute ZeroPad]
               else if is c "%" then [Literal (code "%")]
               else if is c "n" then [Space 10%N] else if is c "t" then [Space 9%N]
               else if is c "z" then [Offset false] else if is c "+" then [Rfc3339]
               else [Bad]                           (* %Z cannot be parsed; anything else is unknown *)
           end
  end.
Definition fraction_digits (c : N) : option nat :=
  if is c "3" then Some 3%nat else if is c "6" then Some 6%nat else if is c "9" then Some 9%nat else None.

Fixpoint items (f : text) : list item :=
  match f with
  | [] => []
  | c :: t =>
      if is c "%" then
        match t with
        | [] => [Bad]
        | c2 :: t2 =>
            if is c2 "-" || is c2 "0" || is c2 "_" then
              match t2 with
              | [] => [Bad]
              | c3 :: t3 =>
                  spec_items c3 (Some (if is c2 "-" then NoPad else if is c2 "0" then ZeroPad else SpacePad)) ++ items t3
              end
            else if is c2 "." then
              match t2 with
              | [] => [Bad]
              | c3 :: t3 =>
                  if is c3 "f" then Frac None :: items t3
                  else match fraction_digits c3, t3 with
                       | Some n, c4 :: t4 => if is c4 "f" then Frac (Some n) :: items t4 else [Bad]
                       | _, _ => [Bad]
                       end
              end
            else if is c2 ":" then
              match t2 with
              | c3 :: t3 => if is c3 "z" then Offset true :: items t3 else [Bad]
              | [] => [Bad]
              end
            else if is c2 "#" then
              match t2 with
              | c3 :: t3 => if is c3 "z" then [Other] else [Bad]
              | [] => [Bad]
              end
            else match fraction_digits c2 with
                 | Some n => match t2 with
                             | c3 :: t3 => if is c3 "f" then FracNoDot n :: items t3 else [Bad]
                             | [] => [Bad]
                             end
                 | None => spec_items c2 None ++ items t2
                 end
        end
      else if is_whitespace c then Space c :: items t
      else Literal c :: items t
  end.
Definition is_other (i : item) : bool := match i with Other => true | _ => false end.

(** ** Parsing: format::scan, format::parse, format::Parsed *)

(* scan::number; the i64 overflow of very long numbers is caught by the range checks below *)
Fixpoint take_digits (max : nat) (acc : Z) (s : text) : Z * nat * text :=
  match max, s with
  | S max', c :: t =>
      if is_digit c then let '(v, k, r) := take_digits max' (acc * 10 + Z.of_N (c - 48)) t in (v, S k, r)
      else (acc, 0%nat, s)
  | _, _ => (acc, 0%nat, s)
  end.
Definition number (min max : nat) (s : text) : option (Z * text) :=
  let '(v, k, r) := take_digits max 0 s in
  if (k <? min)%nat then None else Some (v, r).
Fixpoint skip_digits (s : text) : text :=
  match s with c :: t => if is_digit c then skip_digits t else s | [] => [] end.
(* scan::nanosecond *)
Definition nanosecond (s : text) : option (Z * text) :=
  let '(v, k, r) := take_digits 9 0 s in
  if (k <? 1)%nat then None else Some (v * 10 ^ Z.of_nat (9 - k), skip_digits r).
Definition one_char (p : N -> bool) (s : text) : option text :=
  match s with c :: t => if p c then Some t else None | [] => None end.
Fixpoint colon_or_space (s : text) : text :=
  match s with c :: t => if is c ":" || is_whitespace c then colon_or_space t else s | [] => [] end.
(* scan::timezone_offset; [colon] consumes what may stand between hours and minutes *)
Definition timezone_offset (colon : text -> option text) (s : text) : option (Z * text) :=
  match s with
  | c :: t =>
      if is c "+" || is c "-" then
        match number 2 2 t with
        | Some (h, t1) =>
            match colon t1 with
            | Some t2 =>
                match number 2 2 t2 with
                | Some (m, t3) =>
                    if m <? 60 then Some ((if is c "-" then -1 else 1) * (h * 3600 + m * 60), t3) else None
                | None => None
                end
            | None => None
            end
        | None => None
        end
      else None
  | [] => None
  end.
Definition to_lower (c : N) : N := if ((65 <=? c) && (c <=? 90))%N then (c + 32)%N else c.
(* scan::timezone_offset_zulu *)
Definition timezone_offset_zulu (colon : text -> option text) (s : text) : option (Z * text) :=
  match s with
  | c :: t =>
      if is c "z" || is c "Z" then Some (0, t)
      else if is c "u" || is c "U" then
        match t with
        | c1 :: c2 :: t2 => if is (to_lower c1) "t" && is (to_lower c2) "c" then Some (0, t2) else None
        | _ => None
        end
      else timezone_offset colon s
  | [] => None
  end.

(* format::Parsed, as far as the modelled items set it *)
Definition field_eqb (f g : field) : bool :=
  match f, g with
  | FYear, FYear | FMonth, FMonth | FDay, FDay | FHour, FHour | FMinute, FMinute | FSecond, FSecond
  | FNano, FNano | FOffset, FOffset => true
  | _, _ => false
  end.
Definition parsed := field -> option Z.
Definition nothing : parsed := fun _ => None.
(* set_if_consistent *)
Definition upd (f : field) (v : Z) (p : parsed) : parsed := fun g => if field_eqb f g then Some v else p g.
Definition set (f : field) (v : Z) (p : parsed) : option parsed :=
  match p f with
  | None => Some (upd f v p)
  | Some w => if w =? v then Some p else None
  end.
Definition set_rest (f : field) (r : option (Z * text)) (p : parsed) : option (text * parsed) :=
  match r with
  | Some (v, s) => match set f v p with Some q => Some (s, q) | None => None end
  | None => None
  end.
Definition and_then {A} (r : option (text * parsed)) (k : text -> parsed -> option A) : option A :=
  match r with Some (s, p) => k s p | None => None end.
Definition literal (p : N -> bool) (s : text) (q : parsed) : option (text * parsed) :=
  option_map (fun t => (t, q)) (one_char p s).

(* the numeric items: leading white space, then up to [width] digits; a year may have a sign and then any number
   of digits *)
Definition width (f : field) : nat := match f with FYear => 4 | FNano => 9 | _ => 2 end.
Definition parse_num (f : field) (s : text) : option (Z * text) :=
  let s := trim_start s in
  match f, s with
  | FYear, c :: t =>
      if is c "-" then option_map (fun '(v, r) => (- v, r)) (number 1 (length t) t)
      else if is c "+" then number 1 (length t) t
      else number 1 4 s
  | _, _ => number 1 (width f) s
  end.
(* parse_rfc3339 *)
Definition parse_rfc3339 (s : text) (p : parsed) : option (text * parsed) :=
  and_then (set_rest FYear (number 4 4 s) p) (fun s p =>
  and_then (literal (fun c => is c "-") s p) (fun s p =>
  and_then (set_rest FMonth (number 2 2 s) p) (fun s p =>
  and_then (literal (fun c => is c "-") s p) (fun s p =>
  and_then (set_rest FDay (number 2 2 s) p) (fun s p =>
  and_then (literal (fun c => is c "t" || is c "T") s p) (fun s p =>
  and_then (set_rest FHour (number 2 2 s) p) (fun s p =>
  and_then (literal (fun c => is c ":") s p) (fun s p =>
  and_then (set_rest FMinute (number 2 2 s) p) (fun s p =>
  and_then (literal (fun c => is c ":") s p) (fun s p =>
  and_then (set_rest FSecond (number 2 2 s) p) (fun s p =>
  and_then (match one_char (fun c => is c ".") s with
            | Some t => set_rest FNano (nanosecond t) p
            | None => Some (s, p)
            end) (fun s p =>
  match timezone_offset_zulu (one_char (fun c => is c ":")) s with
  | Some (o, t) => if (-86400 <? o) && (o <? 86400) then set_rest FOffset (Some (o, t)) p else None
  | None => None
  end)))))))))))).
(* format::parse, one item *)
Definition parse_item (i : item) (s : text) (p : parsed) : option (text * parsed) :=
  match i with
  | Literal c => literal (fun x => (x =? c)%N) s p
  | Space _ => Some (trim_start s, p)
  | Num f _ => set_rest f (parse_num f s) p
  | Frac _ =>
      match one_char (fun c => is c ".") s with
      | Some t => set_rest FNano (nanosecond t) p
      | None => Some (s, p)
      end
  | FracNoDot n => set_rest FNano (option_map (fun '(v, r) => (v * 10 ^ Z.of_nat (9 - n), r)) (number n n s)) p
  | Offset _ => set_rest FOffset (timezone_offset (fun s => Some (colon_or_space s)) (trim_start s)) p
  | Rfc3339 => parse_rfc3339 s p
  | Bad | Other => None
  end.
Fixpoint parse_items (l : list item) (s : text) (p : parsed) : option parsed :=
  match l with
  | [] => match s with [] => Some p | _ => None end
  | i :: l' => and_then (parse_item i s p) (parse_items l')
  end.

(* Parsed::to_naive_date *)
Definition to_naive_date (p : parsed) : option Z :=
  match p FYear, p FMonth, p FDay with
  | Some y, Some m, Some d => from_ymd_opt y m d
  | _, _, _ => None
  end.
(* Parsed::to_naive_time: second of the day and nanosecond *)
Definition to_naive_time (p : parsed) : option (Z * Z) :=
  match p FHour, p FMinute with
  | Some h, Some m =>
      if (h <? 24) && (m <? 60) then
        let s := match p FSecond with Some s => s | None => 0 end in
        let n := match p FNano with Some n => n | None => 0 end in
        match p FNano, p FSecond with
        | Some _, None => None
        | _, _ =>
            if s <? 60 then Some (h * 3600 + m * 60 + s, n)
            else if s =? 60 then Some (h * 3600 + m * 60 + 59, 1000000000 + n)
            else None
        end
      else None
  | _, _ => None
  end.
(* Parsed::to_naive_datetime_with_offset *)
Definition to_naive (p : parsed) : option stamp :=
  match to_naive_date p, to_naive_time p with
  | Some d, Some (s, n) => Some {| s_day := d; s_sec := s; s_nano := n |}
  | _, _ => None
  end.
(* the instant of a local time at an offset, in nanoseconds: DateTime::timestamp_nanos without its overflow *)
Definition instant (l : stamp) (offset : Z) : Z := (stamp_secs l - offset) * 1000000000 + s_nano l.
(* Parsed::to_datetime *)
Definition to_datetime (p : parsed) : option Z :=
  match p FOffset, to_naive p with
  | Some o, Some l => if (-86400 <? o) && (o <? 86400) then Some (instant l o) else None
  | _, _ => None
  end.

(** ** The instance *)
Record foreign := {
  f_datetime : bytes -> bytes -> option Z; f_naive : bytes -> bytes -> option stamp; f_date : bytes -> bytes -> option Z
}.
Definition parse_from_str {A} (to : parsed -> option A) (other : bytes -> bytes -> option A) (f s : bytes) : option A :=
  let l := items (chars f) in
  if existsb is_other l then other f s
  else match parse_items l (chars s) nothing with Some p => to p | None => None end.
Definition civil (o : foreign) : chrono := {|
  local := stamp; day := Z;
  c_datetime := parse_from_str to_datetime (f_datetime o);   (* DateTime::parse_from_str *)
  c_naive := parse_from_str to_naive (f_naive o);            (* NaiveDateTime::parse_from_str *)
  c_date := parse_from_str to_naive_date (f_date o);         (* NaiveDate::parse_from_str *)
  c_midnight := fun d => {| s_day := d; s_sec := 0; s_nano := 0 |}
|}.

(** ** Formatting: DelayedFormat *)
Definition digit (n : Z) : byte := byte_of (48 + Z.to_N (n mod 10)).
Fixpoint fixed_digits (k : nat) (n : Z) : bytes :=
  match k with O => [] | S k' => fixed_digits k' (n / 10) ++ [digit n] end.
Definition padded (k : nat) (p : padding) (n : Z) : bytes :=
  match p with
  | ZeroPad => if (n <? 10 ^ Z.of_nat k) then fixed_digits k n else dec (Z.to_N n)
  | NoPad => dec (Z.to_N n)
  | SpacePad => let t := dec (Z.to_N n) in repeat (byte_of 32) (k - length t) ++ t
  end.
Definition show_offset (colon : bool) (off : Z) : bytes :=
  (if off <? 0 then b "-" else b "+") ++ fixed_digits 2 (Z.abs off / 3600) ++ (if colon then b ":" else [])
  ++ fixed_digits 2 (Z.abs off / 60 mod 60).
Definition show_item (l : stamp) (off : Z) (i : item) : bytes :=
  let '(y, m, d) := ymd (s_day l) in
  match i with
  | Literal c | Space c => [byte_of c]                (* ASCII formats only *)
  | Num FYear p => padded 4 p y                       (* years 0-9999; others would get a sign *)
  | Num FMonth p => padded 2 p m
  | Num FDay p => padded 2 p d
  | Num FHour p => padded 2 p (s_sec l / 3600)
  | Num FMinute p => padded 2 p (s_sec l / 60 mod 60)
  | Num FSecond p => padded 2 p (s_sec l mod 60 + s_nano l / 1000000000)
  | Num FNano p => padded 9 p (s_nano l mod 1000000000)
  | Frac (Some k) => b "." ++ fixed_digits k (s_nano l mod 1000000000 / 10 ^ Z.of_nat (9 - k))
  | Offset colon => show_offset colon off
  | _ => []                                           (* not used for writing *)
  end.

(** ** Zones: chrono_tz::Tz *)

(* the offset from UTC in seconds, first and then from each of the given UTC seconds on *)
Record zone_table := { zt_first : Z; zt_changes : list (Z * Z) }.
(* offset_from_utc_datetime *)
Definition offset_at (z : zone_table) (t : Z) : Z :=
  fold_left (fun o c => if fst c <=? t then snd c else o) (zt_changes z) (zt_first z).
(* the spans: from (if any), until (if any), offset *)
Fixpoint spans (from : option Z) (off : Z) (l : list (Z * Z)) : list (option Z * option Z * Z) :=
  match l with
  | [] => [(from, None, off)]
  | (t, o) :: l' => (from, Some t, off) :: spans (Some t) o l'
  end.
(* a span holds a local second *)
Definition in_span (t : Z) (s : option Z * option Z * Z) : bool :=
  let '(from, till, off) := s in
  (match from with Some x => x + off <=? t | None => true end)
  && (match till with Some x => t <? x + off | None => true end).
(* offset_from_local_datetime: the spans holding the local second.  chrono-tz finds one by binary search and then
   looks at its neighbours; overlapping spans are neighbours. *)
Definition local_offsets (z : zone_table) (t : Z) : list Z :=
  map snd (filter (in_span t) (spans None (zt_first z) (zt_changes z))).
Definition from_local (z : zone_table) (l : stamp) : local_result :=
  match local_offsets z (stamp_secs l) with
  | [] => LNone
  | [o] => LSingle (instant l o)
  | o1 :: o2 :: _ => LAmbiguous (instant l o1) (instant l o2)
  end.
(* src/util/tz.rs:67-81 timestamp(), and format() in src/write/csv_sink.rs:80-89 *)
Definition local_at (z : zone_table) (secs nanos : N) : stamp :=
  let t := Z.of_N secs + offset_at z (Z.of_N secs) in
  {| s_day := t / 86400; s_sec := t mod 86400; s_nano := Z.of_N nanos |}.
Definition show_in (z : zone_table) (f : bytes) (secs nanos : N) : bytes :=
  flat_map (show_item (local_at z secs nanos) (offset_at z (Z.of_N secs))) (items (chars f)).
Definition civil_zone (o : foreign) (z : zone_table) : zone (civil o) :=
  {| zn_local := (from_local z : local (civil o) -> local_result); zn_show := show_in z |}.

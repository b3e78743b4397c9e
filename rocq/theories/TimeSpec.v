(** What the time of a row is: configured columns, formats, instants (C85-C89). *)
From Verif Require Export TimestampSpec.
Local Open Scope nat_scope.

(** ** Columns *)
(** Column [i] is the first named [n] (the same characters, the same case). *)
Definition first_named (names : list bytes) (n : bytes) (i : nat) : Prop :=
  nth_error names i = Some n /\ forall j, j < i -> nth_error names j <> Some n.
(** The unit a column name ends with, if any. *)
Definition ends_in_unit (n : bytes) (u : option units) : Prop :=
  match u with
  | Some v => exists p, n = p ++ unit_name v
  | None => forall v p, n <> p ++ unit_name v
  end.

(** ** Texts *)
(** A row's time text: one cell, or the date's and the time's cells joined by #. *)
Inductive row_text (r : record) : ts_col -> bytes -> Prop :=
| one_cell i s : nth_error r i = Some s -> row_text r (ColIndex i) s
| two_cells d t x y : nth_error r d = Some x -> nth_error r t = Some y ->
    row_text r (ColDateTime d t) (x ++ b "#" ++ y).

(** ** Instants *)
(** A local time is an instant only if the zone is known and has that local time exactly once. *)
Definition local_instant {ch} (z : tz ch) (l : local ch) (i : Z) : Prop :=
  exists f, z = Some f /\ f l = LSingle i.
(** The instant a text denotes, under a calendar format. *)
Definition denotes {ch} (z : tz ch) (fmt : ts_fmt) (s : bytes) (i : Z) : Prop :=
  match fmt with
  | FDateTimeTz f => c_datetime ch f s = Some i
  | FDateTime f => exists l, c_naive ch f s = Some l /\ local_instant z l i
  | FDate f => exists d, c_date ch f s = Some d /\ local_instant z (c_midnight ch d) i
  | FUnits _ => False
  end.
Definition calendar (fmt : ts_fmt) : Prop := forall u, fmt <> FUnits u.

(** ** Formats *)
(** chrono reads the text under the format (in whatever zone). *)
Definition parses (ch : chrono) (fmt : ts_fmt) (s : bytes) : Prop :=
  match fmt with
  | FDateTimeTz f => c_datetime ch f s <> None
  | FDateTime f => c_naive ch f s <> None
  | FDate f => c_date ch f s <> None
  | FUnits _ => False
  end.
Definition first_parsing (ch : chrono) (l : list ts_fmt) (s : bytes) (fmt : ts_fmt) : Prop :=
  exists before after, l = before ++ fmt :: after /\ parses ch fmt s /\ Forall (fun g => ~ parses ch g s) before.
(** The formats tried: the documented lists, or the format given, read as a time with an offset,
    as a local time, and as a date. *)
Definition documented (col : ts_col) : list ts_fmt :=
  match col with
  | ColIndex _ => [FDateTimeTz (b "%+"); FDateTime (b "%Y%m%d.%H%M%S"); FDateTime (b "%Y%m%d %H%M%S");
                   FDateTime (b "%Y%m%d %H:%M:%S"); FDateTime (b "%Y/%m/%d-%H:%M:%S"); FDate (b "%Y%m%d")]
  | ColDateTime _ _ => [FDateTime (b "%Y%m%d#%H%M%S%3f"); FDateTime (b "%Y%m%d#%H%M%S");
                        FDateTime (b "%Y%m%d#%H:%M:%S"); FDateTime (b "%Y%m%d#%-H:%M")]
  end.
Definition given (f : bytes) : list ts_fmt := [FDateTimeTz f; FDateTime f; FDate f].
Definition tried (fc : fmt_config) (col : ts_col) : list ts_fmt :=
  match fc with
  | FmtAuto => documented col
  | FmtEpoch _ => []
  | FmtExplicit f => given f
  | FmtDateTimeExplicit d t => given (d ++ b "#" ++ t)
  end.

(** ** --begin and --end *)
(** The formats of a bound: a date, a separator, a time of day, perhaps a fraction. *)
Definition bound_format (f : bytes) : Prop :=
  exists d s t x, In d [b "%Y%m%d"; b "%Y/%m/%d"; b "%Y-%m-%d"] /\ In s [b " "; b "-"; b "T"] /\
    In t [b "%H:%M:%S"; b "%H%M%S"] /\ In x [[]; b "%.f"] /\ f = d ++ s ++ t ++ x.

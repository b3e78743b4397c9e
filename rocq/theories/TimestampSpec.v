(** Specifications for time column choice and timestamp values. *)
From Verif Require Export TimestampModel CsvUtilSpec.
Local Open Scope nat_scope.

(** ** Time columns *)

Definition unit_name (u : units) : bytes :=
  match u with Seconds => b "seconds" | Millis => b "millis" | Micros => b "micros" | Nanos => b "nanos" end.

(** What a (lowercased) column name says about the column. *)
Inductive kind :=
| TimeUnit (u : units) | Date | Time
| PrefixedTimeUnit (prefix : bytes) (u : units) | PrefixedDate (prefix : bytes) | PrefixedTime (prefix : bytes).

Definition begins_with_time (name : bytes) : Prop := exists rest, name = b "time" ++ rest.
Inductive says : bytes -> kind -> Prop :=
| says_time_unit u : says (b "time" ++ unit_name u) (TimeUnit u)
| says_date : says (b "date") Date
| says_time : says (b "time") Time
| says_prefixed_time_unit p u :
    p <> [] -> ~ begins_with_time (p ++ b "time" ++ unit_name u) ->
    says (p ++ b "time" ++ unit_name u) (PrefixedTimeUnit p u)
| says_prefixed_date p : p <> [] -> ~ begins_with_time (p ++ b "date") -> says (p ++ b "date") (PrefixedDate p)
| says_prefixed_time p : p <> [] -> ~ begins_with_time (p ++ b "time") -> says (p ++ b "time") (PrefixedTime p).

Definition a_time_unit k := exists u, k = TimeUnit u.
Definition a_date k := k = Date.
Definition a_time k := k = Time.
Definition a_prefixed_time_unit k := exists p u, k = PrefixedTimeUnit p u.
Definition a_prefixed_date k := exists p, k = PrefixedDate p.
Definition a_prefixed_time k := exists p, k = PrefixedTime p.

(** Column [i] is the leftmost whose name says something in [class], and it says [k]. *)
Definition leftmost (names : list bytes) (class : kind -> Prop) (i : nat) (k : kind) : Prop :=
  (exists n, nth_error names i = Some n /\ says n k) /\ class k /\
  forall j n k', j < i -> nth_error names j = Some n -> says n k' -> ~ class k'.
Definition absent (names : list bytes) (class : kind -> Prop) : Prop :=
  forall n k, In n names -> says n k -> ~ class k.

(** The documented choice. *)
Inductive chosen (names : list bytes) : ts_col * option units -> Prop :=
| chosen_time_unit i u :
    leftmost names a_time_unit i (TimeUnit u) -> chosen names (ColIndex i, Some u)
| chosen_date_time d t :
    absent names a_time_unit -> leftmost names a_date d Date -> leftmost names a_time t Time ->
    chosen names (ColDateTime d t, None)
| chosen_date d :
    absent names a_time_unit -> leftmost names a_date d Date -> absent names a_time ->
    chosen names (ColIndex d, None)
| chosen_time t :
    absent names a_time_unit -> absent names a_date -> leftmost names a_time t Time ->
    chosen names (ColIndex t, None)
| chosen_prefixed_time_unit i p u :
    absent names a_time_unit -> absent names a_date -> absent names a_time ->
    leftmost names a_prefixed_time_unit i (PrefixedTimeUnit p u) -> chosen names (ColIndex i, Some u)
| chosen_prefixed_date_time d t p :
    absent names a_time_unit -> absent names a_date -> absent names a_time -> absent names a_prefixed_time_unit ->
    leftmost names a_prefixed_date d (PrefixedDate p) -> leftmost names a_prefixed_time t (PrefixedTime p) ->
    chosen names (ColDateTime d t, None)
| chosen_prefixed_date d p :
    absent names a_time_unit -> absent names a_date -> absent names a_time -> absent names a_prefixed_time_unit ->
    leftmost names a_prefixed_date d (PrefixedDate p) ->
    (forall t, ~ leftmost names a_prefixed_time t (PrefixedTime p)) ->
    chosen names (ColIndex d, None)
| chosen_prefixed_time t p :
    absent names a_time_unit -> absent names a_date -> absent names a_time -> absent names a_prefixed_time_unit ->
    absent names a_prefixed_date -> leftmost names a_prefixed_time t (PrefixedTime p) ->
    chosen names (ColIndex t, None)
| chosen_nothing :
    absent names a_time_unit -> absent names a_date -> absent names a_time -> absent names a_prefixed_time_unit ->
    absent names a_prefixed_date -> absent names a_prefixed_time ->
    chosen names (ColIndex 0, None).

(** ** Epoch values *)

(** How many of a unit make a second, and how many nanoseconds one of it is. *)
Definition per_second (u : units) : N :=
  match u with Seconds => 1 | Millis => 1000 | Micros => 1000000 | Nanos => 1000000000 end.
Definition nanos_per (u : units) : N :=
  match u with Seconds => 1000000000 | Millis => 1000000 | Micros => 1000 | Nanos => 1 end.
(** The years of which a number can be the epoch value: [630000000 s, 2000000000 s). *)
Definition plausible (u : units) (n : N) : Prop :=
  (630000000 * per_second u <= n < 2000000000 * per_second u)%N.

Definition digit_byte (c : byte) : Prop := (48 <= of_byte c <= 57)%N.

(** No built-in format of a single time column reads [s] as a date. *)
Definition no_date (ch : chrono) (s : bytes) : Prop :=
  c_datetime ch (b "%+") s = None /\
  Forall (fun f => c_naive ch f s = None)
    [b "%Y%m%d.%H%M%S"; b "%Y%m%d %H%M%S"; b "%Y%m%d %H:%M:%S"; b "%Y/%m/%d-%H:%M:%S"] /\
  c_date ch (b "%Y%m%d") s = None.

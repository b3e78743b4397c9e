(** The Gregorian calendar, independently of ChronoModel: leap years, months, and the number of a day by counting
    days one after the other from 1 January 1970. *)
From Coq Require Export ZArith.
Local Open Scope Z_scope.

Definition leap_year (y : Z) : Prop := (4 | y) /\ ((100 | y) -> (400 | y)).
Inductive month_length (y : Z) : Z -> Z -> Prop :=
| long_month m : m = 1 \/ m = 3 \/ m = 5 \/ m = 7 \/ m = 8 \/ m = 10 \/ m = 12 -> month_length y m 31
| short_month m : m = 4 \/ m = 6 \/ m = 9 \/ m = 11 -> month_length y m 30
| february_leap : leap_year y -> month_length y 2 29
| february : ~ leap_year y -> month_length y 2 28.
Definition date : Type := Z * Z * Z.                 (* year, month, day *)
Definition valid_date (x : date) : Prop :=
  let '(y, m, d) := x in exists n, month_length y m n /\ 1 <= d <= n.

(** The day after. *)
Inductive tomorrow : date -> date -> Prop :=
| next_day y m d n : month_length y m n -> 1 <= d < n -> tomorrow (y, m, d) (y, m, d + 1)
| next_month y m n : month_length y m n -> m < 12 -> tomorrow (y, m, n) (y, m + 1, 1)
| next_year y : tomorrow (y, 12, 31) (y + 1, 1, 1).
(** [days_since_1970 x n]: n days after 1 January 1970 (before it, if negative) it is [x]. *)
Inductive days_since_1970 : date -> Z -> Prop :=
| the_epoch : days_since_1970 (1970, 1, 1) 0
| one_later x y n : days_since_1970 x n -> tomorrow x y -> days_since_1970 y (n + 1)
| one_earlier x y n : days_since_1970 y n -> tomorrow x y -> days_since_1970 x (n - 1).

(** A time of day: hours, minutes, seconds; 23:59:60-like leap seconds are not among them. *)
Definition time_of_day (h mi s : Z) : Prop := 0 <= h < 24 /\ 0 <= mi < 60 /\ 0 <= s < 60.

(** How dates and times of day are written, and what they mean (C116-C120). *)
From Verif Require Export CalendarSpec TimeSpec ChronoModel.
Local Open Scope Z_scope.

(** ** Figures *)
Definition figure (n : Z) : byte := byte_of (48 + Z.to_N n).
Definition two (n : Z) : bytes := [figure (n / 10); figure (n mod 10)].
Definition three (n : Z) : bytes := figure (n / 100) :: two (n mod 100).
Definition four (n : Z) : bytes := two (n / 100) ++ two (n mod 100).
(** The figures after a decimal point, and the nanoseconds they stand for; figures beyond the ninth count nothing. *)
Definition figures (ds : list Z) : bytes := map figure ds.
Fixpoint nanos_from (place : Z) (ds : list Z) : Z :=
  match ds with [] => 0 | d :: ds' => d * place + nanos_from (place / 10) ds' end.
Definition nanos_of (ds : list Z) : Z := nanos_from 100000000 ds.
Definition some_figures (ds : list Z) : Prop := ds <> [] /\ Forall (fun d => 0 <= d < 10) ds.

(** ** Local times *)
(** [the_time y m d h mi s ns l]: [l] is that time on that day, of a year with four figures. *)
Record the_time (y m d h mi s ns : Z) (l : stamp) : Prop := {
  tt_year : 0 <= y <= 9999;
  tt_day : days_since_1970 (y, m, d) (s_day l);
  tt_time : time_of_day h mi s;
  tt_secs : s_sec l = 3600 * h + 60 * mi + s;
  tt_nanos : s_nano l = ns
}.

(** ** The documented layouts of a time column, or a date and a time column (joined by #) *)
Inductive written : ts_col -> bytes -> ts_fmt -> stamp -> Prop :=
| w_dot i y m d h mi s l : the_time y m d h mi s 0 l ->
    written (ColIndex i) (four y ++ two m ++ two d ++ b "." ++ two h ++ two mi ++ two s) (FDateTime (b "%Y%m%d.%H%M%S")) l
| w_space i y m d h mi s l : the_time y m d h mi s 0 l ->
    written (ColIndex i) (four y ++ two m ++ two d ++ b " " ++ two h ++ two mi ++ two s) (FDateTime (b "%Y%m%d %H%M%S")) l
| w_colons i y m d h mi s l : the_time y m d h mi s 0 l ->
    written (ColIndex i) (four y ++ two m ++ two d ++ b " " ++ two h ++ b ":" ++ two mi ++ b ":" ++ two s)
      (FDateTime (b "%Y%m%d %H:%M:%S")) l
| w_slashes i y m d h mi s l : the_time y m d h mi s 0 l ->
    written (ColIndex i) (four y ++ b "/" ++ two m ++ b "/" ++ two d ++ b "-" ++ two h ++ b ":" ++ two mi ++ b ":" ++ two s)
      (FDateTime (b "%Y/%m/%d-%H:%M:%S")) l
| w_date i y m d l : the_time y m d 0 0 0 0 l ->
    written (ColIndex i) (four y ++ two m ++ two d) (FDate (b "%Y%m%d")) l
| w_millis i j y m d h mi s ms l : 0 <= ms < 1000 -> the_time y m d h mi s (ms * 1000000) l ->
    written (ColDateTime i j) ((four y ++ two m ++ two d) ++ b "#" ++ (two h ++ two mi ++ two s ++ three ms))
      (FDateTime (b "%Y%m%d#%H%M%S%3f")) l
| w_secs i j y m d h mi s l : the_time y m d h mi s 0 l ->
    written (ColDateTime i j) ((four y ++ two m ++ two d) ++ b "#" ++ (two h ++ two mi ++ two s))
      (FDateTime (b "%Y%m%d#%H%M%S")) l
| w_clock i j y m d h mi s l : the_time y m d h mi s 0 l ->
    written (ColDateTime i j) ((four y ++ two m ++ two d) ++ b "#" ++ (two h ++ b ":" ++ two mi ++ b ":" ++ two s))
      (FDateTime (b "%Y%m%d#%H:%M:%S")) l
| w_hour i j y m d h mi l : the_time y m d h mi 0 0 l ->
    written (ColDateTime i j) ((four y ++ two m ++ two d) ++ b "#" ++ (two h ++ b ":" ++ two mi)) (FDateTime (b "%Y%m%d#%-H:%M")) l
| w_short_hour i j y m d h mi l : h < 10 -> the_time y m d h mi 0 0 l ->
    written (ColDateTime i j) ((four y ++ two m ++ two d) ++ b "#" ++ (figure h :: b ":" ++ two mi)) (FDateTime (b "%Y%m%d#%-H:%M")) l.

(** ** Times with an offset (ISO 8601): the text, and the instant in nanoseconds *)
Inductive offset_text : bytes -> Z -> Prop :=
| off_utc : offset_text (b "Z") 0
| off_east hh mm : 0 <= hh < 24 -> 0 <= mm < 60 -> offset_text (b "+" ++ two hh ++ b ":" ++ two mm) (3600 * hh + 60 * mm)
| off_west hh mm : 0 <= hh < 24 -> 0 <= mm < 60 -> offset_text (b "-" ++ two hh ++ b ":" ++ two mm) (- (3600 * hh + 60 * mm)).
Inductive iso_text : bytes -> Z -> Prop :=
| iso y m d h mi s f fs off o l : the_time y m d h mi s f l -> offset_text off o ->
    (fs = [] /\ f = 0 \/ exists ds, fs = b "." ++ figures ds /\ some_figures ds /\ f = nanos_of ds) ->
    iso_text (four y ++ b "-" ++ two m ++ b "-" ++ two d ++ b "T" ++ two h ++ b ":" ++ two mi ++ b ":" ++ two s ++ fs ++ off)
      ((86400 * s_day l + s_sec l - o) * 1000000000 + s_nano l).

(** ** --begin and --end: a date, a separator, a time of day, perhaps a fraction *)
Inductive date_text (y m d : Z) : bytes -> Prop :=
| date_plain : date_text y m d (four y ++ two m ++ two d)
| date_slashes : date_text y m d (four y ++ b "/" ++ two m ++ b "/" ++ two d)
| date_dashes : date_text y m d (four y ++ b "-" ++ two m ++ b "-" ++ two d).
Inductive clock_text (h mi s : Z) : bytes -> Prop :=
| clock_colons : clock_text h mi s (two h ++ b ":" ++ two mi ++ b ":" ++ two s)
| clock_plain : clock_text h mi s (two h ++ two mi ++ two s).
Inductive bound_text : bytes -> stamp -> Prop :=
| bound y m d h mi s ns dt sep ct l : the_time y m d h mi s ns l -> date_text y m d dt -> In sep [b " "; b "-"; b "T"] ->
    clock_text h mi s ct -> ns = 0 -> bound_text (dt ++ sep ++ ct) l
| bound_fraction y m d h mi s ds dt sep ct l : the_time y m d h mi s (nanos_of ds) l -> date_text y m d dt ->
    In sep [b " "; b "-"; b "T"] -> clock_text h mi s ct -> some_figures ds ->
    bound_text (dt ++ sep ++ ct ++ b "." ++ figures ds) l.
(** A year, a month or a day alone: its first instant. *)
Inductive period_text : bytes -> stamp -> Prop :=
| a_year y l : the_time y 1 1 0 0 0 0 l -> period_text (four y) l
| a_month y m l : the_time y m 1 0 0 0 0 l -> period_text (four y ++ two m) l
| a_day y m d l : the_time y m d 0 0 0 0 l -> period_text (four y ++ two m ++ two d) l.

(** ** Zones *)
(** At UTC second [t] the clocks of the zone show local second [u]. *)
Definition clock_shows (z : zone_table) (t u : Z) : Prop := u = t + offset_at z t.
(** The changes of a table are in order. *)
Fixpoint ascending (l : list (Z * Z)) : Prop :=
  match l with
  | x :: (y :: _) as l' => fst x < fst y /\ ascending l'
  | _ => True
  end.
Definition good_table (z : zone_table) : Prop := ascending (zt_changes z).
(** The clocks of the zone show the local time [l] at UTC second [t], and at no other. *)
Definition once (z : zone_table) (l : stamp) (t : Z) : Prop :=
  clock_shows z t (86400 * s_day l + s_sec l) /\ forall t', clock_shows z t' (86400 * s_day l + s_sec l) -> t' = t.
(** The clocks are off UTC by a whole number of minutes, less than a day. *)
Definition whole_minutes (z : zone_table) (t : Z) : Prop := (60 | offset_at z t) /\ -86400 < offset_at z t < 86400.

(** ** Texts of figures only *)
(** Figures that can be read as a date, or as a date and a time of day, written without separators; the last number
    may have one figure only, and a 60th second is accepted (as the one before it, a second long). *)
Inductive run_together : bytes -> stamp -> Prop :=
| run_date_short y m d l : d < 10 -> the_time y m d 0 0 0 0 l -> run_together (four y ++ two m ++ [figure d]) l
| run_date y m d l : the_time y m d 0 0 0 0 l -> run_together (four y ++ two m ++ two d) l
| run_time_short y m d h mi s l : s < 10 -> the_time y m d h mi s 0 l ->
    run_together (four y ++ two m ++ two d ++ two h ++ two mi ++ [figure s]) l
| run_time y m d h mi s l : the_time y m d h mi s 0 l ->
    run_together (four y ++ two m ++ two d ++ two h ++ two mi ++ two s) l
| run_leap y m d h mi l : the_time y m d h mi 59 1000000000 l ->
    run_together (four y ++ two m ++ two d ++ two h ++ two mi ++ two 60) l.

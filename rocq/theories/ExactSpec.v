(** What texts a layout accepts, exactly, and what they then say (C135). *)
From Verif Require Export LayoutSpec.
Local Open Scope Z_scope.

Definition all_figures (ds : list Z) : Prop := Forall (fun d => 0 <= d < 10) ds.
(** As many figures as allowed, or fewer and then something else. *)
Definition taken (most : nat) (ds : list Z) (rest : bytes) : Prop :=
  all_figures ds /\ (length ds = most \/ (1 <= length ds < most)%nat /\ next_not is_figure rest).

(** [admits v p t rest said]: in front of [rest], [t] is a text of the part [p]; it says of the moment [v] what [said] lists. *)
Inductive admits (v : moment) : part -> bytes -> bytes -> list what -> Prop :=
| ad_char c rest : admits v (Char c) [c] rest []
| ad_white t rest : Forall white_space t -> next_not white_space rest -> admits v White t rest []
| ad_year ws ds rest : Forall white_space ws -> taken 4 ds rest -> v TheYear = value ds ->
    admits v (Number TheYear) (ws ++ figures ds) rest [TheYear]
| ad_signed_year ws sign ds rest : Forall white_space ws -> all_figures ds -> ds <> [] -> next_not is_figure rest ->
    (sign = b "+" /\ v TheYear = value ds \/ sign = b "-" /\ v TheYear = - value ds) ->
    admits v (Number TheYear) (ws ++ sign ++ figures ds) rest [TheYear]
| ad_number w ws ds rest : w <> TheYear -> Forall white_space ws -> taken 2 ds rest -> v w = value ds ->
    admits v (Number w) (ws ++ figures ds) rest [w]
| ad_no_point rest : next_not (fun c => [c] = b ".") rest -> admits v Point [] rest []
| ad_point ds rest : some_figures ds -> next_not is_figure rest -> v TheNanos = nanos_of ds ->
    admits v Point (b "." ++ figures ds) rest [TheNanos]
| ad_places k ds rest : length ds = k -> all_figures ds -> v TheNanos = nanos_of ds -> admits v (Places k) (figures ds) rest [TheNanos]
| ad_count ws ds rest : Forall white_space ws -> taken 9 ds rest -> v TheNanos = value ds ->
    admits v Count (ws ++ figures ds) rest [TheNanos]
| ad_zone ws sign h1 h2 sep m1 m2 rest : Forall white_space ws -> all_figures [h1; h2; m1; m2] -> value [m1; m2] < 60 ->
    Forall (fun c => white_space c \/ [c] = b ":") sep ->
    (sign = b "+" /\ v TheOffset = 3600 * value [h1; h2] + 60 * value [m1; m2] \/
     sign = b "-" /\ v TheOffset = - (3600 * value [h1; h2] + 60 * value [m1; m2])) ->
    admits v Zone (ws ++ sign ++ figures [h1; h2] ++ sep ++ figures [m1; m2]) rest [TheOffset].
Inductive admitted (v : moment) : list part -> bytes -> bytes -> list what -> Prop :=
| admitted_end rest : admitted v [] [] rest []
| admitted_next p t ps s rest x y : admits v p t (s ++ rest) x -> admitted v ps s rest y -> admitted v (p :: ps) (t ++ s) rest (x ++ y).

(** The day said. *)
Definition says_day (v : moment) (said : list what) (day : Z) : Prop :=
  In TheYear said /\ In TheMonth said /\ In TheDay said /\
  -262144 <= v TheYear <= 262143 /\ days_since_1970 (v TheYear, v TheMonth, v TheDay) day.
(** The time of day said: a 60th second is the one before it, a second long; seconds and fraction are 0 if not said,
    but no fraction is said without seconds. *)
Definition says_clock (v : moment) (said : list what) (sec nano : Z) : Prop :=
  In TheHour said /\ In TheMinute said /\ v TheHour < 24 /\ v TheMinute < 60 /\
  exists s n, (In TheSecond said /\ s = v TheSecond \/ ~ In TheSecond said /\ ~ In TheNanos said /\ s = 0) /\
    (In TheNanos said /\ n = v TheNanos \/ ~ In TheNanos said /\ n = 0) /\
    (s < 60 /\ sec = 3600 * v TheHour + 60 * v TheMinute + s /\ nano = n \/
     s = 60 /\ sec = 3600 * v TheHour + 60 * v TheMinute + 59 /\ nano = 1000000000 + n).
Definition says_local (v : moment) (said : list what) (l : stamp) : Prop :=
  says_day v said (s_day l) /\ says_clock v said (s_sec l) (s_nano l).
Definition says_instant (v : moment) (said : list what) (i : Z) : Prop :=
  exists l, says_local v said l /\ In TheOffset said /\ -86400 < v TheOffset < 86400 /\
    i = (86400 * s_day l + s_sec l - v TheOffset) * 1000000000 + s_nano l.

(** ** ISO 8601: the texts accepted, with a 60th second too *)
Inductive iso_exact : bytes -> Z -> Prop :=
| iso_plain s i : iso_like s i -> iso_exact s i
| iso_leap y m d x h mi f fs off o l : the_time y m d h mi 59 (1000000000 + f) l -> In x [b "T"; b "t"] ->
    (offset_text off o \/ In off utc_names /\ o = 0) ->
    (fs = [] /\ f = 0 \/ exists ds, fs = b "." ++ figures ds /\ some_figures ds /\ f = nanos_of ds) ->
    iso_exact (four y ++ b "-" ++ two m ++ b "-" ++ two d ++ x ++ two h ++ b ":" ++ two mi ++ b ":" ++ two 60 ++ fs ++ off)
      ((86400 * s_day l + s_sec l - o) * 1000000000 + s_nano l).
Definition ascii_text (s : bytes) : Prop := Forall (fun c => (of_byte c < 128)%N) s.

(** ** The time of a row *)
Definition layout_of (fmt : ts_fmt) (f : bytes) : Prop := fmt = FDateTimeTz f \/ fmt = FDateTime f \/ fmt = FDate f.
(** ISO 8601 with an offset, or a layout spelled like in LayoutSpec. *)
Definition laid_out (fmt : ts_fmt) : Prop := fmt = FDateTimeTz (b "%+") \/ exists f ps, layout_of fmt f /\ spelled ps f.
Inductive time_said (z : zone_table) : ts_fmt -> bytes -> Z -> Prop :=
| st_iso s i : iso_exact s i -> time_said z (FDateTimeTz (b "%+")) s i
| st_instant f ps s v said i : spelled ps f -> admitted v ps s [] said -> says_instant v said i -> time_said z (FDateTimeTz f) s i
| st_local f ps s v said l t : spelled ps f -> admitted v ps s [] said -> says_local v said l -> once z l t ->
    time_said z (FDateTime f) s (t * 1000000000 + s_nano l)
| st_day f ps s v said day t : spelled ps f -> admitted v ps s [] said -> says_day v said day ->
    once z {| s_day := day; s_sec := 0; s_nano := 0 |} t -> time_said z (FDate f) s (t * 1000000000).
(** What --begin and --end may say: ISO 8601, or a local time in a documented layout. *)
Definition bound_said (z : zone_table) (s : bytes) (i : Z) : Prop :=
  iso_exact s i \/ exists f, bound_format f /\ time_said z (FDateTime f) s i.

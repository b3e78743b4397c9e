(** Layouts of a time given by the user (--csv-in-ts-fmt): how they are spelled, and what a time looks like in them
    (C133, C134). *)
From Verif Require Export DateTextSpec.
Local Open Scope Z_scope.

(** ** Parts *)
Inductive what := TheYear | TheMonth | TheDay | TheHour | TheMinute | TheSecond | TheNanos | TheOffset.
(** A moment: what its year, month, ... are; the offset from UTC is in seconds. *)
Definition moment := what -> Z.
Inductive part :=
| Char (c : byte)       (* itself *)
| White                 (* white space *)
| Number (w : what)     (* year, month, day, hour, minute or second *)
| Point                 (* a decimal point and figures, or nothing *)
| Places (k : nat)      (* so many figures of a fraction of a second *)
| Count                 (* a number of nanoseconds *)
| Zone.                 (* the offset from UTC *)

Definition white_space (c : byte) : Prop := (9 <= of_byte c <= 13 \/ of_byte c = 32)%N.
Definition plain (c : byte) : Prop := (of_byte c < 128)%N /\ ~ white_space c /\ [c] <> b "%".

(** ** Spelling: the letters of strftime *)
Definition letters (w : what) : list bytes :=
  match w with
  | TheYear => [b "Y"] | TheMonth => [b "m"] | TheDay => [b "d"; b "e"] | TheHour => [b "H"; b "k"]
  | TheMinute => [b "M"] | TheSecond => [b "S"] | TheNanos | TheOffset => []
  end.
Inductive spells : list part -> bytes -> Prop :=
| sp_number w pad l : In pad [[]; b "-"; b "0"; b "_"] -> In l (letters w) -> spells [Number w] (b "%" ++ pad ++ l)
| sp_char c : plain c -> spells [Char c] [c]
| sp_percent c : [c] = b "%" -> spells [Char c] (b "%%")
| sp_white c : white_space c -> spells [White] [c]
| sp_newline : spells [White] (b "%n")
| sp_tab : spells [White] (b "%t")
| sp_F x : [x] = b "-" -> spells [Number TheYear; Char x; Number TheMonth; Char x; Number TheDay] (b "%F")
| sp_T x : [x] = b ":" -> spells [Number TheHour; Char x; Number TheMinute; Char x; Number TheSecond] (b "%T")
| sp_R x : [x] = b ":" -> spells [Number TheHour; Char x; Number TheMinute] (b "%R")
| sp_point t : In t [b "%.f"; b "%.3f"; b "%.6f"; b "%.9f"] -> spells [Point] t
| sp_places k t : In (k, t) [(3%nat, b "%3f"); (6%nat, b "%6f"); (9%nat, b "%9f")] -> spells [Places k] t
| sp_count : spells [Count] (b "%f")
| sp_zone t : In t [b "%z"; b "%:z"] -> spells [Zone] t.
Inductive spelled : list part -> bytes -> Prop :=
| spelled_end : spelled [] []
| spelled_next ps t qs s : spells ps t -> spelled qs s -> spelled (ps ++ qs) (t ++ s).

(** ** Texts *)
(** What comes next is no figure; no decimal point; no white space. *)
Definition next_not (P : byte -> Prop) (rest : bytes) : Prop := match rest with [] => True | c :: _ => ~ P c end.
Definition is_figure (c : byte) : Prop := (48 <= of_byte c <= 57)%N.
(** The number that figures are. *)
Definition value (ds : list Z) : Z := fold_left (fun n d => 10 * n + d) ds 0.
(** [shows v p t rest]: in front of [rest], the text [t] is the part [p] of the moment [v]. *)
Inductive shows (v : moment) : part -> bytes -> bytes -> Prop :=
| sh_char c rest : shows v (Char c) [c] rest
| sh_white t rest : Forall white_space t -> next_not white_space rest -> shows v White t rest
| sh_year ws rest : Forall white_space ws -> shows v (Number TheYear) (ws ++ four (v TheYear)) rest
| sh_two w ws rest : w <> TheYear -> Forall white_space ws -> shows v (Number w) (ws ++ two (v w)) rest
| sh_one w ws rest : w <> TheYear -> Forall white_space ws -> v w < 10 -> next_not is_figure rest ->
    shows v (Number w) (ws ++ [figure (v w)]) rest
| sh_no_point rest : v TheNanos = 0 -> next_not (fun c => [c] = b ".") rest -> shows v Point [] rest
| sh_point ds rest : some_figures ds -> nanos_of ds = v TheNanos -> next_not is_figure rest ->
    shows v Point (b "." ++ figures ds) rest
| sh_places k ds rest : length ds = k -> Forall (fun d => 0 <= d < 10) ds -> nanos_of ds = v TheNanos ->
    shows v (Places k) (figures ds) rest
| sh_count ws ds rest : Forall white_space ws -> Forall (fun d => 0 <= d < 10) ds ->
    (length ds = 9%nat \/ (1 <= length ds < 9)%nat /\ next_not is_figure rest) -> value ds = v TheNanos ->
    shows v Count (ws ++ figures ds) rest
| sh_zone ws sign hh sep mm rest : Forall white_space ws -> 0 <= hh < 24 -> 0 <= mm < 60 ->
    Forall (fun c => white_space c \/ [c] = b ":") sep ->
    (sign = b "+" /\ v TheOffset = 3600 * hh + 60 * mm \/ sign = b "-" /\ v TheOffset = - (3600 * hh + 60 * mm)) ->
    shows v Zone (ws ++ sign ++ two hh ++ sep ++ two mm) rest.
Inductive shown (v : moment) : list part -> bytes -> bytes -> Prop :=
| shown_end rest : shown v [] [] rest
| shown_next p t ps s rest : shows v p t (s ++ rest) -> shown v ps s rest -> shown v (p :: ps) (t ++ s) rest.

(** ** What a layout tells *)
Definition has (ps : list part) (w : what) : Prop := In (Number w) ps.
Definition has_fraction (ps : list part) : Prop := In Point ps \/ In Count ps \/ exists k, In (Places k) ps.
Definition tells_day (ps : list part) : Prop := has ps TheYear /\ has ps TheMonth /\ has ps TheDay.
(** The hour and the minute; the seconds and their fraction may be left out, and are 0 then. *)
Definition tells_clock (ps : list part) (v : moment) : Prop :=
  has ps TheHour /\ has ps TheMinute /\ (has ps TheSecond \/ ~ has_fraction ps /\ v TheSecond = 0) /\
  (has_fraction ps \/ v TheNanos = 0).
(** [v] is the local time [l]. *)
Definition moment_of (v : moment) (l : stamp) : Prop :=
  the_time (v TheYear) (v TheMonth) (v TheDay) (v TheHour) (v TheMinute) (v TheSecond) (v TheNanos) l.
(** The layout asked for: of a time column, or of a date column and a time column (joined by #). *)
Definition asks (fc : fmt_config) (f : bytes) : Prop :=
  fc = FmtExplicit f \/ exists d t, fc = FmtDateTimeExplicit d t /\ f = d ++ b "#" ++ t.
(** The layout has no time of day: no hour, or no minute, or a fraction of a second but no second. *)
Definition lacks_clock (ps : list part) : Prop :=
  ~ has ps TheHour \/ ~ has ps TheMinute \/ (In Count ps \/ exists k, In (Places k) ps) /\ ~ has ps TheSecond.
(** The first instant of the day. *)
Definition midnight (l : stamp) : stamp := {| s_day := s_day l; s_sec := 0; s_nano := 0 |}.
(** The layout itself says what [w] is. *)
Definition states (ps : list part) (w : what) : Prop :=
  has ps w \/ w = TheNanos /\ (In Count ps \/ exists k, In (Places k) ps) \/ w = TheOffset /\ In Zone ps.

(** ** ISO 8601 as it is also written: a small t, and UTC by name in capitals or small letters *)
Definition utc_names : list bytes :=
  map b ["Z"; "z"; "UTC"; "UTc"; "UtC"; "Utc"; "uTC"; "uTc"; "utC"; "utc"]%string.
Inductive iso_like : bytes -> Z -> Prop :=
| an_iso y m d x h mi s f fs off o l : the_time y m d h mi s f l -> In x [b "T"; b "t"] ->
    (offset_text off o \/ In off utc_names /\ o = 0) ->
    (fs = [] /\ f = 0 \/ exists ds, fs = b "." ++ figures ds /\ some_figures ds /\ f = nanos_of ds) ->
    iso_like (four y ++ b "-" ++ two m ++ b "-" ++ two d ++ x ++ two h ++ b ":" ++ two mi ++ b ":" ++ two s ++ fs ++ off)
      ((86400 * s_day l + s_sec l - o) * 1000000000 + s_nano l).

(** What a command line says (C121), from the help texts of src/cli_app.rs; nothing of the parser appears here. *)
From Verif Require Export ProgramSpec.
Local Open Scope nat_scope.

Inductive opt :=
| Output | Format | Timezone | Begin | End | TimeColName | Granularity | CsvInDelimiter | Delimiter | CsvInHasHeader
| PrintTime | CsvInTsCol | CsvInTsColDate | CsvInTsColTime | CsvInTsFmt | CsvInTsFmtDate | CsvInTsFmtTime | CsvInEpoch.
Inductive flag := EpochTimes | HumanTimes | Backtrace.

Definition opt_long (o : opt) : bytes :=
  match o with
  | Output => b "output" | Format => b "format" | Timezone => b "timezone" | Begin => b "begin" | End => b "end"
  | TimeColName => b "time-col-name" | Granularity => b "granularity" | CsvInDelimiter => b "csv-in-delimiter"
  | Delimiter => b "delimiter" | CsvInHasHeader => b "csv-in-has-header" | PrintTime => b "print-time"
  | CsvInTsCol => b "csv-in-ts-col" | CsvInTsColDate => b "csv-in-ts-col-date" | CsvInTsColTime => b "csv-in-ts-col-time"
  | CsvInTsFmt => b "csv-in-ts-fmt" | CsvInTsFmtDate => b "csv-in-ts-fmt-date" | CsvInTsFmtTime => b "csv-in-ts-fmt-time"
  | CsvInEpoch => b "csv-in-epoch"
  end.
Definition opt_short (o : opt) : option byte :=
  match o with
  | Output => Some "o"%char | Format => Some "f"%char | Timezone => Some "z"%char | Begin => Some "b"%char
  | End => Some "e"%char | Granularity => Some "g"%char | _ => None
  end.
Definition flag_long (f : flag) : bytes :=
  match f with EpochTimes => b "epoch" | HumanTimes => b "human" | Backtrace => b "backtrace" end.
Definition flag_short (f : flag) : option byte :=
  match f with EpochTimes => Some "E"%char | HumanTimes => Some "H"%char | Backtrace => None end.

(** One thing said on a command line. *)
Inductive setting := Value (o : opt) (v : bytes) | Flag (f : flag) | File (name : bytes).

(** A text that does not look like an option. *)
Definition plain_word (v : bytes) : Prop := v = b "-" \/ forall t, v <> "-"%char :: t.
Definition no_equals (v : bytes) : Prop := forall t, v <> "="%char :: t.

(** The ways to say it. *)
Inductive words : list setting -> list bytes -> Prop :=
| words_nil : words [] []
| words_file v ss ws : plain_word v -> words ss ws -> words (File v :: ss) (v :: ws)
| words_long o v ss ws : plain_word v -> words ss ws ->
    words (Value o v :: ss) ((b "--" ++ opt_long o) :: v :: ws)
| words_long_equals o v ss ws : no_equals v -> words ss ws ->
    words (Value o v :: ss) ((b "--" ++ opt_long o ++ b "=" ++ v) :: ws)
| words_short o c v ss ws : opt_short o = Some c -> plain_word v -> words ss ws ->
    words (Value o v :: ss) (["-"%char; c] :: v :: ws)
| words_short_attached o c v ss ws : opt_short o = Some c -> v <> [] -> no_equals v -> words ss ws ->
    words (Value o v :: ss) (("-"%char :: c :: v) :: ws)
| words_short_equals o c v ss ws : opt_short o = Some c -> no_equals v -> words ss ws ->
    words (Value o v :: ss) (("-"%char :: c :: "="%char :: v) :: ws)
| words_flag f ss ws : words ss ws -> words (Flag f :: ss) ((b "--" ++ flag_long f) :: ws)
| words_flag_short f c ss ws : flag_short f = Some c -> words ss ws -> words (Flag f :: ss) (["-"%char; c] :: ws)
(* several short ones share a dash *)
| words_cluster f c x t ss ws : flag_short f = Some c -> x <> "-"%char -> words ss (("-"%char :: x :: t) :: ws) ->
    words (Flag f :: ss) (("-"%char :: c :: x :: t) :: ws).

(** A command line: that, and perhaps [--] and only names of inputs from there on. *)
Inductive command_line : list setting -> list bytes -> Prop :=
| without_end ss ws : words ss ws -> command_line ss ws
| with_end ss ws names : words ss ws -> command_line (ss ++ map File names) (ws ++ b "--" :: names).

(** No option twice. *)
Definition once (ss : list setting) : Prop :=
  (forall pre mid post o v v', ss <> pre ++ Value o v :: mid ++ Value o v' :: post) /\
  (forall pre mid post f, ss <> pre ++ Flag f :: mid ++ Flag f :: post).

(** What it means: the value of an option, if it is there. *)
Definition says (ss : list setting) (o : opt) (x : option bytes) : Prop :=
  match x with Some v => In (Value o v) ss | None => forall v, ~ In (Value o v) ss end.
Definition says_or (ss : list setting) (o : opt) (default v : bytes) : Prop :=
  In (Value o v) ss \/ (forall v', ~ In (Value o v') ss) /\ v = default.
(** [l] are the pieces of [v] between commas. *)
Definition joined_by_commas (l : list bytes) (v : bytes) : Prop :=
  Forall (fun p => ~ In ","%char p) l /\
  match l with [] => False | p :: l => v = p ++ concat (map (cons ","%char) l) end.
Inductive names_of : list setting -> list bytes -> Prop :=
| names_nil : names_of [] []
| names_file v ss l : names_of ss l -> names_of (File v :: ss) (v :: l)
| names_value o v ss l : names_of ss l -> names_of (Value o v :: ss) l
| names_flag f ss l : names_of ss l -> names_of (Flag f :: ss) l.
Definition meant (ss : list setting) (a : args) : Prop :=
  match a_inputs a with Some l => l <> [] /\ names_of ss l | None => names_of ss [] end /\
  match a_formats a with Some l => exists v, In (Value Format v) ss /\ joined_by_commas l v | None => says ss Format None end /\
  says ss Output (a_output a) /\ says ss Timezone (a_timezone a) /\ says ss Begin (a_begin a) /\ says ss End (a_end a) /\
  says ss CsvInDelimiter (a_in_delimiter a) /\ says_or ss CsvInHasHeader (b "auto") (a_in_has_header a) /\
  says ss CsvInTsCol (a_in_col a) /\ says ss CsvInTsColDate (a_in_col_date a) /\ says ss CsvInTsColTime (a_in_col_time a) /\
  says ss CsvInTsFmt (a_in_fmt a) /\ says ss CsvInTsFmtDate (a_in_fmt_date a) /\ says ss CsvInTsFmtTime (a_in_fmt_time a) /\
  says ss CsvInEpoch (a_in_epoch a) /\ says_or ss Delimiter (b ",") (a_out_delimiter a) /\
  says_or ss PrintTime (b "yes") (a_out_print_time a) /\ says ss TimeColName (a_out_time_name a) /\
  (a_out_epoch a = true <-> In (Flag EpochTimes) ss) /\
  (exists u, a_out_units a = Some u /\ says_or ss Granularity (b "ns") u).

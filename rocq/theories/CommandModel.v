(** Model of the command line: the options declared in src/cli_app.rs:7-217, as clap 2.33.3 reads them, and the
    program from its argument list on.

    clap is not in /repo; what is modelled of it is what its parser does with these declarations (no subcommands,
    no app settings): options in any order, long or short, the value attached or in the next argument, flags in
    clusters, positional arguments, [--], then the checks (occurrences, possible values, requires, conflicts).
    Where this model does not commit itself (an option whose value is missing because another option follows, a
    value given to a flag, arguments that are not UTF-8) the outcome is [Untold]. *)
From Verif Require Export ProgramModel.
Local Open Scope nat_scope.

(** One declaration: name, short, long, takes_value, multiple, require_delimiter (with the comma), default_value,
    possible_values (none: any value), case_insensitive, requires, conflicts_with. *)
Record decl := Decl {
  d_name : bytes; d_short : option byte; d_long : bytes; d_takes : bool; d_comma : bool; d_default : option bytes;
  d_possible : list bytes; d_nocase : bool; d_requires : list bytes; d_conflicts : list bytes
}.
(** takes_value, nothing else *)
Definition valued (name : string) (short : option byte) (long : string) : decl :=
  Decl (b name) short (b long) true false None [] false [] [].
Definition UNITS : list bytes := [b "s"; b "ms"; b "us"; b "ns"].

(* src/cli_app.rs:12-215: all but the positional argument input (12-16), which is [multiple] *)
Definition declared : list decl :=
  [ valued "output" (Some "o"%char) "output";                                                           (* 17-24 *)
    Decl (b "format") (Some "f"%char) (b "format") true true None [] false [] [];                      (* 25-41 *)
    valued "timezone" (Some "z"%char) "timezone"; (* case_insensitive only concerns possible values *)  (* 42-55 *)
    valued "begin" (Some "b"%char) "begin";                                                             (* 56-67 *)
    valued "end" (Some "e"%char) "end";                                                                 (* 68-76 *)
    Decl (b "backtrace") None (b "backtrace") false false None [] false [] [];                         (* 77-81 *)
    valued "csv_out_time_col_name" None "time-col-name";                                               (* 82-88 *)
    Decl (b "csv_out_time_fmt_epoch") (Some "E"%char) (b "epoch") false false None [] false [] [b "human"]; (* 89-96 *)
    Decl (b "csv_out_time_fmt_human") (Some "H"%char) (b "human") false false None [] false [] [b "epoch"]; (* 97-104 *)
    Decl (b "csv_out_time_col_units") (Some "g"%char) (b "granularity") true false (Some (b "ns")) UNITS false [] []; (* 105-114 *)
    valued "csv_in_delimiter" None "csv-in-delimiter";                                                 (* 115-121 *)
    Decl (b "csv_out_delimiter") None (b "delimiter") true false (Some (b ",")) [] false [] [];        (* 122-129 *)
    Decl (b "csv_in_has_header") None (b "csv-in-has-header") true false (Some (b "auto")) [b "yes"; b "no"; b "auto"] true [] []; (* 130-139 *)
    Decl (b "csv_out_print_time_col") None (b "print-time") true false (Some (b "yes")) [b "yes"; b "no"] true [] []; (* 140-149 *)
    valued "csv_in_ts_col" None "csv-in-ts-col";                                                       (* 150-156 *)
    Decl (b "csv_in_ts_col_date") None (b "csv-in-ts-col-date") true false None [] false
      [b "csv_in_ts_col_time"] [b "csv_in_ts_col"; b "csv_in_ts_fmt"];                                 (* 157-168 *)
    Decl (b "csv_in_ts_col_time") None (b "csv-in-ts-col-time") true false None [] false
      [b "csv_in_ts_col_date"] [b "csv_in_ts_col"; b "csv_in_ts_fmt"];                                 (* 169-180 *)
    valued "csv_in_ts_fmt" None "csv-in-ts-fmt";                                                       (* 181-187 *)
    Decl (b "csv_in_ts_fmt_date") None (b "csv-in-ts-fmt-date") true false None [] false
      [b "csv_in_ts_fmt_time"] [b "csv_in_ts_col"; b "csv_in_ts_fmt"];                                 (* 188-196 *)
    Decl (b "csv_in_ts_fmt_time") None (b "csv-in-ts-fmt-time") true false None [] false
      [b "csv_in_ts_fmt_date"] [b "csv_in_ts_col"; b "csv_in_ts_fmt"];                                 (* 197-207 *)
    Decl (b "csv_in_epoch") None (b "csv-in-epoch") true false None UNITS false
      [] [b "csv_in_ts_col_date"; b "csv_in_ts_col_time"; b "csv_in_ts_fmt"] ].                         (* 208-215 *)

(** What has been found: the values, in order, and every time an option occurred. *)
Record found := { m_vals : list (bytes * bytes); m_seen : list bytes }.
Definition add_value (name v : bytes) (m : found) : found := {| m_vals := m_vals m ++ [(name, v)]; m_seen := m_seen m |}.
Definition add_seen (name : bytes) (m : found) : found := {| m_vals := m_vals m; m_seen := m_seen m ++ [name] |}.
Definition INPUT : bytes := b "input".

(** The pieces between commas. *)
Fixpoint split_commas (cur : bytes) (s : bytes) : list bytes :=
  match s with
  | [] => [cur]
  | c :: t => if Ascii.eqb c ","%char then cur :: split_commas [] t else split_commas (cur ++ [c]) t
  end.
(* Parser::add_val_to_arg *)
Definition add_val_to_arg (d : decl) (v : bytes) (m : found) : found :=
  if d_comma d then fold_left (fun m x => add_value (d_name d) x m) (split_commas [] v) m
  else add_value (d_name d) v m.

Definition dash : byte := "-"%char.
Definition equals : byte := "="%char.
Fixpoint trim_left (c : byte) (s : bytes) : bytes :=
  match s with
  | x :: t => if Ascii.eqb x c then trim_left c t else s
  | [] => []
  end.
(** At the first [=]. *)
Fixpoint split_at_equals (s : bytes) : bytes * option bytes :=
  match s with
  | [] => ([], None)
  | x :: t => if Ascii.eqb x equals then ([], Some t) else let (p, v) := split_at_equals t in (x :: p, v)
  end.

Inductive parsed :=
| More (pending : option decl) (m : found)
| Stop_help | Stop_error | Stop_untold.
(* Parser::parse_opt *)
Definition parse_opt (val : option bytes) (d : decl) (m : found) : parsed :=
  match val with
  | Some fv => More None (add_seen (d_name d) (add_val_to_arg d (trim_left equals fv) m))
  | None => More (Some d) (add_seen (d_name d) m)
  end.
(** The flags clap adds: -h --help, -V --version. *)
Definition HELP_LONG : list bytes := [b "help"; b "version"].
Definition HELP_SHORT : list byte := ["h"%char; "V"%char].

(* Parser::parse_long_arg *)
Definition parse_long_arg (w : bytes) (m : found) : parsed :=
  let (name, val) := split_at_equals (trim_left dash w) in
  match find (fun d => bytes_eqb (d_long d) name) declared with
  | Some d =>
      if d_takes d then parse_opt val d m
      else match val with None => More None (add_seen (d_name d) m) | Some _ => Stop_untold end
  | None => if existsb (bytes_eqb name) HELP_LONG then match val with None => Stop_help | Some _ => Stop_untold end else Stop_error
  end.
(* Parser::parse_short_arg; the argument without its dash *)
Fixpoint parse_short_arg (w : bytes) (m : found) : parsed :=
  match w with
  | [] => More None m
  | c :: t =>
      match find (fun d => match d_short d with Some x => Ascii.eqb x c | None => false end) declared with
      | Some d =>
          if d_takes d then parse_opt (match t with [] => None | _ => Some t end) d m
          else parse_short_arg t (add_seen (d_name d) m)
      | None => if existsb (Ascii.eqb c) HELP_SHORT then Stop_help else Stop_error
      end
  end.
(* Parser::is_new_arg *)
Definition is_new_arg (w : bytes) : bool :=
  match w with
  | x :: y :: _ => Ascii.eqb x dash
  | _ => false
  end.
(* Parser::get_matches_with, the loop *)
Fixpoint get_matches_with (ws : list bytes) (pending : option decl) (trailing : bool) (m : found) : parsed :=
  match ws with
  | [] => More pending m
  | w :: t =>
      let positional := get_matches_with t pending trailing (add_seen INPUT (add_value INPUT w m)) in
      if trailing then positional
      else if is_new_arg w then
        match pending with
        | Some _ => Stop_untold
        | None =>
            if bytes_eqb w [dash; dash] then get_matches_with t None true m
            else
              match (if starts_with [dash; dash] w then parse_long_arg w m else parse_short_arg (skipn 1 w) m) with
              | More p m' => get_matches_with t p false m'
              | stop => stop
              end
        end
      else
        match pending with
        | Some d => get_matches_with t None false (add_val_to_arg d w m)
        | None => positional
        end
  end.

(** ** The checks *)
Definition values_of (m : found) (name : bytes) : list bytes :=
  map snd (filter (fun p => bytes_eqb (fst p) name) (m_vals m)).
Definition is_present (m : found) (name : bytes) : bool := existsb (bytes_eqb name) (m_seen m).
Definition possible (d : decl) (v : bytes) : bool :=
  match d_possible d with
  | [] => true
  | l => existsb (fun p => if d_nocase d then eq_ignore_ascii_case v p else bytes_eqb v p) l
  end.
Definition decl_valid (m : found) (d : decl) : bool :=
  (length (filter (bytes_eqb (d_name d)) (m_seen m)) <=? 1) &&
  forallb (possible d) (values_of m (d_name d)) &&
  (negb (is_present m (d_name d)) ||
   forallb (is_present m) (d_requires d) && forallb (fun c => negb (is_present m c)) (d_conflicts d)).

(* ArgMatches::value_of: the first value, or the default *)
Definition value_of (m : found) (name : bytes) : option bytes :=
  match values_of m name with
  | v :: _ => Some v
  | [] => match find (fun d => bytes_eqb (d_name d) name) declared with Some d => d_default d | None => None end
  end.
Definition or_empty (o : option bytes) : bytes := match o with Some v => v | None => [] end.
(* src/chopper_cli.rs:39-106, 167-247: the values asked for, by name *)
Definition args_from (m : found) : args :=
  let value := fun s => value_of m (b s) in
  {| a_inputs := if is_present m INPUT then Some (values_of m INPUT) else None;
     a_formats := if is_present m (b "format") then Some (values_of m (b "format")) else None;
     a_output := value "output"%string; a_timezone := value "timezone"%string;
     a_begin := value "begin"%string; a_end := value "end"%string;
     a_in_delimiter := value "csv_in_delimiter"%string; a_in_has_header := or_empty (value "csv_in_has_header"%string);
     a_in_col := value "csv_in_ts_col"%string;
     a_in_col_date := value "csv_in_ts_col_date"%string; a_in_col_time := value "csv_in_ts_col_time"%string;
     a_in_fmt := value "csv_in_ts_fmt"%string;
     a_in_fmt_date := value "csv_in_ts_fmt_date"%string; a_in_fmt_time := value "csv_in_ts_fmt_time"%string;
     a_in_epoch := value "csv_in_epoch"%string;
     a_out_delimiter := or_empty (value "csv_out_delimiter"%string);
     a_out_print_time := or_empty (value "csv_out_print_time_col"%string);
     a_out_time_name := value "csv_out_time_col_name"%string;
     a_out_epoch := is_present m (b "csv_out_time_fmt_epoch");
     a_out_units := value "csv_out_time_col_units"%string |}.

(* App::get_matches *)
Inductive command := Args (a : args) | Help | Refused | Untold.
Definition get_matches (argv : list bytes) : command :=
  if forallb utf8 argv then
    match get_matches_with argv None false {| m_vals := []; m_seen := [] |} with
    | More None m => if forallb (decl_valid m) declared then Args (args_from m) else Refused
    | More (Some _) _ => Refused
    | Stop_help => Help
    | Stop_error => Refused
    | Stop_untold => Untold
    end
  else Untold.

(** How the program ends: it ran, or clap printed its help or version (exit code 0), or a message about the command
    line (exit code 1), before anything was opened. *)
Inductive ending := Ran (o : outcome) | Told (code : N) | Unspecified.
(* chop/src/main.rs:3-5, src/chopper_cli.rs:25-38 *)
Definition chop_main (run : args -> outcome) (argv : list bytes) : ending :=
  match get_matches argv with
  | Args a => Ran (run a)
  | Help => Told 0
  | Refused => Told 1
  | Untold => Unspecified
  end.

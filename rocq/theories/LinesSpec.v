(** CSV files of plain lines, and what chopping does to the lines (C129). *)
From Verif Require Export LawsSpec.
From Verif Require Import T_CsvTime.
Local Open Scope nat_scope.

(** Lines, each with its line end. *)
Definition text_of (lines : list bytes) : bytes := concat (map (fun l => l ++ [byte_of 10]) lines).
(** A field that stands for itself: text without the delimiter, quotes, line ends and white space around it. *)
Definition plain_field (d : byte) (f : bytes) : Prop :=
  ~ In d f /\ ~ In quote f /\ ~ In (byte_of 10) f /\ ~ In (byte_of 13) f /\ trimmed f f.
Definition plain_line (d : byte) (fields : list bytes) (line : bytes) : Prop :=
  fields <> [] /\ Forall (plain_field d) fields /\ line = join [d] fields /\ line <> [].

(** A file of plain lines under a line of names, as the options read it: the delimiter is [d], and the
    times of its records are [times]. *)
Definition lines_file {ch} (lower : bytes -> bytes) (f64_ok : text -> bool) (a : args) (z : option (zone ch))
  (d : byte) (names : list bytes) (data : bytes) (lines : list bytes) (times : list N) : Prop :=
  exists preview head first recs texts col hint fmt,
    plain_line d names head /\ Forall2 (plain_line d) (first :: recs) lines /\
    Forall (fun r => length r = length names) (first :: recs) /\
    data = text_of (head :: lines) /\ (forall x, data <> bom ++ x) /\
    first_lines data preview /\ input_delimiter a preview d /\ d <> quote /\ d <> byte_of 10 /\ d <> byte_of 13 /\
    input_has_header f64_ok a preview d true /\
    input_column lower a {| h_names := names; h_types := repeat TString (length names) |} col hint /\
    (forall x, row_text first col x -> input_format_used ch a col hint x fmt) /\
    Forall2 (fun r x => row_text r col x) (first :: recs) texts /\
    Forall2 (row_time (zone_in z) fmt) texts times.

(** A time is in the range. *)
Definition time_in (rng : ts_range) (t : N) : bool := StreamSpec.in_range rng {| ts := t; vals := [] |}.
(** The line written for a line of the input with the time [t]: the line itself, after the time if times are printed. *)
Definition passed_on {ch} (a : args) (z : option (zone ch)) (u : units) (d : byte) (l : bytes * N) (out : bytes) : Prop :=
  (a_out_print_time a = b "no" /\ out = fst l) \/
  (a_out_print_time a = b "yes" /\ exists t, output_time a z u (snd l) t /\ out = t ++ [d] ++ fst l).

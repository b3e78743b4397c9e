(** CSV text: fields that may be quoted, records on lines (RFC 4180, with the delimiter [d]). *)
From Verif Require Export CsvSpec.
Local Open Scope nat_scope.

(** A field in quotes: its quotes are doubled. *)
Inductive doubled : bytes -> bytes -> Prop :=
| doubled_nil : doubled [] []
| doubled_quote f t : doubled f t -> doubled (quote :: f) (quote :: quote :: t)
| doubled_other c f t : c <> quote -> doubled f t -> doubled (c :: f) (c :: t).
(** The texts of a field: as it is, if it has no special character, or quoted. *)
Inductive cell_text (d : byte) : bytes -> bytes -> Prop :=
| cell_plain f : ~ In d f -> ~ In quote f -> ~ In (byte_of 10) f -> ~ In (byte_of 13) f -> cell_text d f f
| cell_quoted f t : doubled f t -> cell_text d f ([quote] ++ t ++ [quote]).
(** The text of a record; it is not empty (an empty line is not a record). *)
Definition record_text (d : byte) (fields : list bytes) (line : bytes) : Prop :=
  exists cells, fields <> [] /\ Forall2 (cell_text d) fields cells /\ line = join [d] cells /\ line <> [].
(** Ends of lines. *)
Definition line_end (e : bytes) : Prop := e = [byte_of 10] \/ e = [byte_of 13] \/ e = [byte_of 13; byte_of 10].
(** The text of a file: records on lines, empty lines anywhere, the last line's end may be
    missing. *)
Inductive csv_text (d : byte) : list (list bytes) -> bytes -> Prop :=
| text_end : csv_text d [] []
| text_last r line : record_text d r line -> csv_text d [r] line
| text_line r line e rs rest : record_text d r line -> line_end e -> csv_text d rs rest -> csv_text d (r :: rs) (line ++ e ++ rest)
| text_empty e rs rest : line_end e -> csv_text d rs rest -> csv_text d rs (e ++ rest).
(** The UTF-8 byte order mark. *)
Definition bom : bytes := [byte_of 0xEF; byte_of 0xBB; byte_of 0xBF].

(** Specification vocabulary for the example programs (C114, C115). *)
From Verif Require Export RouteSpec CsvSpec FilterSpec ProgramSpec.

(** The rows of a list that satisfy a condition, in order. *)
Inductive those (P : row -> Prop) : list row -> list row -> Prop :=
| those_none : those P [] []
| those_with r l l' : P r -> those P l l' -> those P (r :: l) (r :: l')
| those_without r l l' : ~ P r -> those P l l' -> those P (r :: l) l'.

(** The value of a row in column [i]. *)
Definition value_in (i : nat) (r : row) (x : fvalue) : Prop := nth_error (vals r) i = Some x.
Definition greater_in (i : nat) (v : fvalue) (r : row) : Prop := exists x, value_in i r x /\ val_lt v x.
Definition equal_in (i : nat) (v : fvalue) (r : row) : Prop := exists x, value_in i r x /\ val_eq x v.

(** The CSV text of a header and rows without any option: nanoseconds in a first column timestampNanos, commas. *)
Definition default_csv (f64 f32 : N -> bytes) (h : header) (rows : list row) (out : bytes) : Prop :=
  exists lines,
    out = join (b ",") (b "timestampNanos" :: h_names h) ++ [byte_of 10] ++ concat (map (fun l => l ++ [byte_of 10]) lines) /\
    Forall2 (fun r l => exists texts, Forall2 (value_text f64 f32) (vals r) texts /\ l = join (b ",") (dec (ts r) :: texts)) rows lines.

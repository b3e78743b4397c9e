(** What the stream of util/infistream stands for (C112). *)
From Verif Require Export InfiModel CsvStreamSpec.
Local Open Scope nat_scope.

(** The numbers from 0, and the cells of the row of a number. *)
Definition counts (n : nat) : list N := map N.of_nat (seq 0 n).
Definition infi_cells (v : N) : list bytes :=
  dec v :: map (fun letter => b letter ++ dec v) ["a"; "b"; "c"; "d"; "e"; "f"]%string.
(** Seven columns without names; in row [v] the time is [v] of the units. *)
Definition infi_header : header :=
  {| h_names := map b ["col_0"; "col_1"; "col_2"; "col_3"; "col_4"; "col_5"; "col_6"]%string; h_types := repeat TString 7 |}.
Definition infi_rows (u : units) (n : nat) : list row :=
  map (fun v => {| ts := (v * nanos_per u)%N; vals := map VString (infi_cells v) |}) (counts n).

(** The options: the unit of the times is given, everything else is left to be guessed. *)
Definition infi_options (a : args) (u : units) : Prop :=
  a_in_delimiter a = None /\ same_letters (a_in_has_header a) (b "auto") /\ a_in_col a = None /\ a_in_col_date a = None /\
  a_in_fmt a = None /\ a_in_fmt_date a = None /\ exists l, a_in_epoch a = Some l /\ unit_letters l u.
(** Of the float parser: a letter a-f before digits is not a number; of lower-casing: it leaves lower-case names alone. *)
Definition letters_no_float (f64_ok : text -> bool) : Prop :=
  forall c n, In c ["a"; "b"; "c"; "d"; "e"; "f"]%string -> f64_ok (chars (b c ++ dec n)) = false.

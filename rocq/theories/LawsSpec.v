(** Vocabulary for laws that relate several runs of the program (C123-C126). *)
From Verif Require Export AnySpec StreamSpec.
From Verif Require Import T_Whole T_Whole2 T_WholeCsv.
Local Open Scope nat_scope.

(** The same command line with these inputs, output and range; formats are recognised. *)
Definition asked (a : args) (ins : list bytes) (out begin fin : option bytes) : args :=
  {| a_inputs := Some ins; a_formats := None; a_output := out; a_timezone := a_timezone a; a_begin := begin; a_end := fin;
     a_in_delimiter := a_in_delimiter a; a_in_has_header := a_in_has_header a; a_in_col := a_in_col a; a_in_col_date := a_in_col_date a;
     a_in_col_time := a_in_col_time a; a_in_fmt := a_in_fmt a; a_in_fmt_date := a_in_fmt_date a; a_in_fmt_time := a_in_fmt_time a;
     a_in_epoch := a_in_epoch a; a_out_delimiter := a_out_delimiter a; a_out_print_time := a_out_print_time a; a_out_time_name := a_out_time_name a;
     a_out_epoch := a_out_epoch a; a_out_units := a_out_units a |}.

(** Outputs of the two formats. *)
Definition output_is (k : file_kind) (out : option bytes) : Prop :=
  match k with
  | KCsv => csv_name out
  | KDc => exists p, out = Some (p ++ b "dc")
  end.

Section Laws.
Context {ch : chrono} (f64 f32 : N -> bytes).

(** Rows under the header [h] can be written in the format: CSV needs a column, and a zone if times are
    to be dates; DC needs columns and values that it can hold (C20). *)
Definition can_hold (k : file_kind) (a : args) (z : option (zone ch)) (h : header) (rowss : list (list row)) : Prop :=
  match k with
  | KCsv => h_names h <> [] /\ (a_out_print_time a = b "yes" -> a_out_epoch a = false -> z <> None)
  | KDc => dc_header_ok h /\ Forall (Forall (row_fits h)) rowss
  end.

(** [head] is the beginning of an output and [line r] what a row [r] adds to it, in the format. *)
Definition written_as (k : file_kind) (a : args) (z : option (zone ch)) (u : units) (h : header) (head : bytes) (line : row -> bytes) : Prop :=
  match k with
  | KCsv => (exists l, output_header_line a u h l /\ head = l ++ [byte_of 10]) /\
            forall r texts, Forall2 (value_text f64 f32) (vals r) texts -> exists l, output_line f64 f32 a z u r l /\ line r = l ++ [byte_of 10]
  | KDc => forall rows, Forall (row_fits h) rows -> dc_read (DcSpec.file (head ++ concat (map line rows))) = Ok (h, (rows, Ok tt))
  end.

(** Some row of an input is inside the range. *)
Definition has_rows (rng : ts_range) (rows : list row) : Prop := exists r, In r rows /\ StreamSpec.in_range rng r = true.
End Laws.

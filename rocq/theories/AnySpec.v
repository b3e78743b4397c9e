(** What any input of the program stands for (C107): a file, a compressed file, an archive, a
    directory or the standard input, in a format that was asked for, that its name tells or that
    its contents show. *)
From Verif Require Export PackSpec WholeCsvSpec.
From Verif Require Import T_Whole2 T_Directory T_Input.
Local Open Scope nat_scope.

(** ** The two formats *)
Inductive file_kind := KCsv | KDc.
(** The data of a DC file: what the program itself writes for a header and rows (C20), headers after
    no matter which rows. *)
Definition dc_content (data : bytes) (h : header) (rows : list row) : Prop :=
  exists evs, data = dc_file h evs /\ ev_rows evs = rows /\ dc_header_ok h /\ Forall (row_fits h) rows.
(** The format that the end of a name tells. *)
Inductive by_name : bytes -> file_kind -> Prop :=
| named_csv core : by_name (core ++ b ".csv") KCsv
| named_dc core : by_name (core ++ b ".dc") KDc.
Definition unnamed (name : bytes) : Prop := forall k, ~ by_name name k.
(** The format that the contents show: CSV if they begin with lines of text. *)
Inductive by_content (data : bytes) : file_kind -> Prop :=
| shows_csv lines : first_lines data (Some lines) -> by_content data KCsv
| shows_dc : first_lines data None -> by_content data KDc.

(** ** Packing, by name and by contents *)
Section Any.
Context {ch : chrono} (lower : bytes -> bytes) (f64_ok : text -> bool).
Variables (ds : decoders) (inflate bunzip : inner -> inner) (w : world) (a : args) (z : option (zone ch)) (h : header).

Definition content (k : file_kind) (data : bytes) (rows : list row) : Prop :=
  match k with KCsv => csv_content lower f64_ok a z data h rows | KDc => dc_content data h rows end.

(** Bytes [c] under a name that tells everything: [data] is [c], or [c] decompressed. *)
Inductive told (c : bytes) : bytes -> bytes -> file_kind -> Prop :=
| told_bare name k : by_name name k -> told c name c k
| told_packed name f data k : by_name name k -> compressed ds f c data -> told c (name ++ ext_of f) data k.
(** Bytes [c] under a name, if any, that does not tell the format: only the contents do. *)
Definition says_nothing (name : option bytes) : Prop :=
  match name with Some n => unnamed n /\ forall f core, n <> core ++ ext_of f | None => True end.
Inductive shown (c : bytes) : option bytes -> bytes -> file_kind -> Prop :=
| shown_bare name k : says_nothing name -> (forall f, ~ has_magic f c) -> by_content c k -> shown c name c k
| shown_packed name f data k : says_nothing name -> has_magic f c -> compressed ds f c data -> by_content data k ->
    shown c name data k
| shown_named_packed name f data k : unnamed name -> compressed ds f c data -> by_content data k ->
    shown c (Some (name ++ ext_of f)) data k.
(** With a format given, that is the name; it may be given with or without the dot. *)
Definition dotted (ext d : bytes) : Prop :=
  (d = ext /\ exists t, ext = b "." ++ t) \/ (d = b "." ++ ext /\ forall t, ext <> b "." ++ t).
Definition recognised (fmt : input_format) (name : option bytes) (c data : bytes) (k : file_kind) : Prop :=
  match fmt with
  | Extension ext => exists d, dotted ext d /\ told c d data k
  | InputModel.Auto => (exists n, name = Some n /\ told c n data k) \/ shown c name data k
  end.

(** ** Inputs *)
Definition file_gives (fmt : input_format) (path : bytes) (rows : list row) : Prop :=
  exists name c data k, holds inflate bunzip w path name c /\ recognised fmt (Some name) c data k /\ content k data rows.
Inductive input_gives (fmt : input_format) : input_type -> list row -> Prop :=
| gives_file path rows : file_gives fmt path rows -> input_gives fmt (Path path) rows
| gives_stdin c data k rows : delivers (w_stdin w) c -> recognised fmt None c data k -> content k data rows ->
    input_gives fmt StdIn rows
| gives_directory path entries files rowss :
    w_is_dir w path = true -> w_read_dir w path = Ok entries -> files_of w entries files -> files <> [] ->
    (forall x y, In x files -> In y files -> path_le x y -> path_le y x -> x = y) ->
    header_wf h ->
    Forall2 (file_gives fmt) files rowss -> input_gives fmt (Path path) (concat rowss).
End Any.

(** ** The inputs of a command line and their formats *)
(** -f: one format for each input, the last one for the inputs beyond; [auto] is none. *)
Definition format_for (a : args) (i : nat) (fmt : input_format) : Prop :=
  match a_formats a with
  | None => fmt = InputModel.Auto
  | Some fs => exists s, (nth_error fs i = Some s \/ length fs <= i /\ exists l0, fs = l0 ++ [s]) /\ fmt_of s fmt
  end.
Definition inputs_for (a : args) (l : list (input_type * input_format)) : Prop :=
  map fst l = match a_inputs a with Some paths => map Path paths | None => [StdIn] end /\
  forall i t fmt, nth_error l i = Some (t, fmt) -> format_for a i fmt.

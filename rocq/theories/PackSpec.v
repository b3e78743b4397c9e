(** How a file can be packed (C106): as it is, compressed, as the member of a zip archive, or both. *)
From Verif Require Export ProgramSpec ZipSpec.
From Verif Require Import ZipModel.
Local Open Scope nat_scope.

(** A reader that delivers these bytes, in whatever pieces. *)
Definition delivers (i : inner) (c : bytes) : Prop := i_data i = c /\ i_tail i = None /\ smooth (i_plan i).
(** The beginning of a file with these bytes has been looked at. *)
Definition previews (p : previewer) (c : bytes) : Prop := exists i, delivers i c /\ previewer_new i = Ok p.

Section Pack.
Variables (ds : decoders) (inflate bunzip : inner -> inner) (w : world).

(** [c] is [data] compressed: the decoder for the format, the one for its kind of LZ4 in
    particular, gives [data]. *)
Definition compressed (f : dformat) (c data : bytes) : Prop :=
  forall p out, previews p c -> decoded ds f p out -> exists i, out = Ok i /\ delivers i data.

(** The member of an archive. *)
Definition member (a : archive) (c : bytes) : Prop :=
  z_crc a = crc32 c /\
  ((z_method a = 0%N /\ z_payload a = c) \/
   (z_method a = 8%N /\ forall i, delivers i (z_payload a) -> delivers (inflate i) c) \/
   (z_method a = 12%N /\ forall i, delivers i (z_payload a) -> delivers (bunzip i) c)).

(** The file at [path] is a file called [name] with these bytes, or a zip archive of one. *)
Inductive holds (path : bytes) : bytes -> bytes -> Prop :=
| holds_itself name c f : local_file w path f -> f_seekable f = true -> named path name -> utf8 name = true ->
    delivers (f_reads f) c -> ~ looks_like_zip c -> holds path name c
| holds_member name c f a : local_file w path f -> f_seekable f = true -> delivers (f_reads f) (archive_bytes a) ->
    z_before a = [] -> archive_fits a -> end_unambiguous a -> extra_tolerated a -> ZipSpec.supported a ->
    shown_name (z_flags a) (z_name a) name -> (N.testbit (z_flags a) 11 = true -> utf8 (z_name a) = true) ->
    member a c -> holds path name c.
(** The same, or compressed under a name that says so. *)
Inductive packs (path name data : bytes) : Prop :=
| packs_bare : holds path name data -> packs path name data
| packs_compressed f c : holds path (name ++ ext_of f) c -> compressed f c data -> packs path name data.
End Pack.

(** Not a compressed file, by name or contents. *)
Definition not_compressed (name data : bytes) : Prop :=
  (forall f core, name <> core ++ ext_of f) /\ (forall f, ~ has_magic f data).

(** The command line with other inputs. *)
Definition with_inputs (a : args) (paths : list bytes) : args :=
  {| a_inputs := Some paths; a_formats := a_formats a; a_output := a_output a; a_timezone := a_timezone a; a_begin := a_begin a; a_end := a_end a;
     a_in_delimiter := a_in_delimiter a; a_in_has_header := a_in_has_header a; a_in_col := a_in_col a; a_in_col_date := a_in_col_date a;
     a_in_col_time := a_in_col_time a; a_in_fmt := a_in_fmt a; a_in_fmt_date := a_in_fmt_date a; a_in_fmt_time := a_in_fmt_time a;
     a_in_epoch := a_in_epoch a; a_out_delimiter := a_out_delimiter a; a_out_print_time := a_out_print_time a; a_out_time_name := a_out_time_name a;
     a_out_epoch := a_out_epoch a; a_out_units := a_out_units a |}.

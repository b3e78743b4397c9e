(** Inputs that may be damaged (C103, C136). *)
From Verif Require Export PackSpec.
Local Open Scope nat_scope.

(** A local file whose data may end in a read error. *)
Definition ending_file (w : world) (path ext data : bytes) (tail : option ioerr) : Prop :=
  exists f core, local_file w path f /\ f_seekable f = true /\ named path (core ++ ext) /\ utf8 (core ++ ext) = true /\
    i_data (f_reads f) = data /\ i_tail (f_reads f) = tail /\ smooth (i_plan (f_reads f)).

(** ** Members of zip archives *)
(** A reader that gives these bytes, in whatever pieces, and then ends, or fails. *)
Definition gives (i : inner) (data : bytes) (tail : option ioerr) : Prop := i_data i = data /\ i_tail i = tail /\ smooth (i_plan i).
Section Member.
Variables (inflate bunzip : inner -> inner).
(** What taking the member out of the archive gives, the checksum aside. *)
Definition unpacks (a : archive) (data : bytes) (tail : option ioerr) : Prop :=
  (z_method a = 0%N /\ z_payload a = data /\ tail = None) \/
  (z_method a = 8%N /\ forall i, delivers i (z_payload a) -> gives (inflate i) data tail) \/
  (z_method a = 12%N /\ forall i, delivers i (z_payload a) -> gives (bunzip i) data tail).
(** How reading the member ends: well; with data that is not what the checksum says; with an error of the decompressor. *)
Inductive member_ends (a : archive) (data : bytes) : option ioerr -> Prop :=
| member_whole : unpacks a data None -> z_crc a = crc32 data -> member_ends a data None
| member_changed : unpacks a data None -> z_crc a <> crc32 data -> member_ends a data (Some InvalidData)
| member_broken e : unpacks a data (Some e) -> member_ends a data (Some e).
Inductive ending_member (w : world) (path ext data : bytes) (tail : option ioerr) : Prop :=
| an_archive f a core : local_file w path f -> f_seekable f = true -> delivers (f_reads f) (archive_bytes a) ->
    z_before a = [] -> archive_fits a -> end_unambiguous a -> extra_tolerated a -> ZipSpec.supported a ->
    shown_name (z_flags a) (z_name a) (core ++ ext) -> (N.testbit (z_flags a) 11 = true -> utf8 (z_name a) = true) ->
    member_ends a data tail -> ending_member w path ext data tail.
(** A file, or the member of an archive. *)
Definition ending_input (w : world) (path ext data : bytes) (tail : option ioerr) : Prop :=
  ending_file w path ext data tail /\ ~ looks_like_zip data \/ ending_member w path ext data tail.
End Member.

(** ** Compressed inputs *)
(** The beginning of what a reader gives has been looked at. *)
Definition looked_at (p : previewer) (c : bytes) (t : option ioerr) : Prop := exists i, gives i c t /\ previewer_new i = Ok p.
Section Compressed.
Variables (ds : decoders) (inflate bunzip : inner -> inner).
(** Reading [c], which ends with [t], the decoder for the format gives [data] and then ends with [tail]. *)
Definition decodes_to (f : dformat) (c : bytes) (t : option ioerr) (data : bytes) (tail : option ioerr) : Prop :=
  forall p out, looked_at p c t -> decoded ds f p out -> exists i, out = Ok i /\ gives i data tail.
(** An input called [ext]: as it is, or compressed, with the ending of the compression after it. *)
Inductive read_input (w : world) (path ext data : bytes) (tail : option ioerr) : Prop :=
| read_bare : ending_input inflate bunzip w path ext data tail -> read_input w path ext data tail
| read_packed f c t : ending_input inflate bunzip w path (ext ++ ext_of f) c t -> decodes_to f c t data tail ->
    read_input w path ext data tail.
End Compressed.

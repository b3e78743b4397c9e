(** Inputs of any kind that may be damaged (C140): AnySpec's inputs, with how reading them ends. *)
From Verif Require Export DamageSpec AnySpec.
Local Open Scope nat_scope.

Section Any.
Variables (ds : decoders) (inflate bunzip : inner -> inner) (w : world).
(** A file called [name], or the only member of an archive: reading it gives [c] and then ends with [t]. *)
Inductive held (path name c : bytes) (t : option ioerr) : Prop :=
| held_file f : local_file w path f -> f_seekable f = true -> named path name -> utf8 name = true ->
    gives (f_reads f) c t -> ~ looks_like_zip c -> held path name c t
| held_member f a : local_file w path f -> f_seekable f = true -> delivers (f_reads f) (archive_bytes a) ->
    z_before a = [] -> archive_fits a -> end_unambiguous a -> extra_tolerated a -> ZipSpec.supported a ->
    shown_name (z_flags a) (z_name a) name -> (N.testbit (z_flags a) 11 = true -> utf8 (z_name a) = true) ->
    member_ends inflate bunzip a c t -> held path name c t.
(** A name that tells everything: the contents are the bytes [c], or what they decompress to, and how that ends. *)
Inductive told_ending (c : bytes) (t : option ioerr) : bytes -> bytes -> option ioerr -> file_kind -> Prop :=
| told_as_is name k : by_name name k -> told_ending c t name c t k
| told_compressed name f data tail k : by_name name k -> decodes_to ds f c t data tail ->
    told_ending c t (name ++ ext_of f) data tail k.
(** A name, if any, that does not tell the format: only the contents do. *)
Inductive shown_ending (c : bytes) (t : option ioerr) : option bytes -> bytes -> option ioerr -> file_kind -> Prop :=
| shown_as_is name k : says_nothing name -> (forall f, ~ has_magic f c) -> by_content c k -> shown_ending c t name c t k
| shown_compressed name f data tail k : says_nothing name -> has_magic f c -> decodes_to ds f c t data tail -> by_content data k ->
    shown_ending c t name data tail k
| shown_named_compressed name f data tail k : unnamed name -> decodes_to ds f c t data tail -> by_content data k ->
    shown_ending c t (Some (name ++ ext_of f)) data tail k.
Definition recognised_ending (fmt : input_format) (name : option bytes) (c : bytes) (t : option ioerr)
    (data : bytes) (tail : option ioerr) (k : file_kind) : Prop :=
  match fmt with
  | Extension ext => exists d, dotted ext d /\ told_ending c t d data tail k
  | InputModel.Auto => (exists n, name = Some n /\ told_ending c t n data tail k) \/ shown_ending c t name data tail k
  end.
(** The input is of kind [k]: its contents are [data], and reading them ends with [tail]. *)
Inductive input_ends (fmt : input_format) : input_type -> file_kind -> bytes -> option ioerr -> Prop :=
| ends_file path name c t data tail k : held path name c t -> recognised_ending fmt (Some name) c t data tail k ->
    input_ends fmt (Path path) k data tail
| ends_stdin c t data tail k : gives (w_stdin w) c t -> recognised_ending fmt None c t data tail k ->
    input_ends fmt StdIn k data tail.
End Any.

(** Specification vocabulary for the whole program (C66-C78). *)
From Verif Require Export ProgramModel InputSpec ReaderSpec CsvUtilSpec.

(** [name] is the last component of [path]: a file name. *)
Definition named (path name : bytes) : Prop :=
  (path = name \/ exists dir, path = dir ++ b "/" ++ name) /\
  ~ In "/"%char name /\ name <> [] /\ name <> b "." /\ name <> b "..".

(** [path] is an ordinary local file with this content: not a directory, not a URL. *)
Definition local_file (w : world) (path : bytes) (f : handle) : Prop :=
  w_exists w path = true /\ w_is_dir w path = false /\ http_can_open path = false /\ w_open w path = Ok f.

(** The signature a zip archive starts with. *)
Definition zip_magic : bytes := b "PK" ++ [byte_of 3; byte_of 4].
Definition looks_like_zip (data : bytes) : Prop := exists t, data = zip_magic ++ t.

(** ** The same data, delivered differently: other chunk sizes, no failure on the way. *)
Definition same_stream (i j : inner) : Prop :=
  i_data i = i_data j /\ i_tail i = i_tail j /\ smooth (i_plan i) /\ smooth (i_plan j).
(** Previews of such streams. *)
Definition same_preview (p q : previewer) : Prop :=
  exists i j, same_stream i j /\ previewer_new i = Ok p /\ previewer_new j = Ok q.
(** Both fail alike, or both succeed with related values. *)
Inductive alike {A B} (R : A -> B -> Prop) : res A -> res B -> Prop :=
| alike_ok x y : R x y -> alike R (Ok x) (Ok y)
| alike_err e : alike R (Err e) (Err e)
| alike_panic : alike R Panic Panic
| alike_exit : alike R Exit Exit
| alike_fuel : alike R NoFuel NoFuel.

(** Worlds that differ only in how files deliver their bytes. *)
Definition same_file (f g : handle) : Prop := same_stream (f_reads f) (f_reads g) /\ f_seekable f = f_seekable g.
Definition same_world (w v : world) : Prop :=
  (forall p, w_exists w p = w_exists v p) /\ (forall p, w_is_dir w p = w_is_dir v p) /\
  (forall p, w_read_dir w p = w_read_dir v p) /\
  (forall p, alike same_file (w_open w p) (w_open v p)) /\
  (forall p, alike same_stream (w_http w p) (w_http v p)) /\
  same_stream (w_stdin w) (w_stdin v) /\ w_env_tz w = w_env_tz v.
(** Decoders, transports and factories whose results do not depend on that. *)
Definition steady_decoders (ds : decoders) : Prop :=
  forall f p q, same_preview p q -> alike same_stream (decompress ds f p) (decompress ds f q).
Definition steady_inflater (dec : inner -> inner) : Prop :=
  forall i j, same_stream i j -> same_stream (dec i) (dec j).
Definition steady_transport (t : transport) : Prop :=
  forall p i, t_open t p = Ok i -> smooth (i_plan i).
Definition steady_factory {S} (f : factory S) : Prop :=
  forall p q, same_preview p q -> sf_preview f p = sf_preview f q /\ sf_create f p = sf_create f q.

(** ** What the command line parser lets through (src/cli_app.rs) *)

(** Equal up to the case of ASCII letters. *)
Definition same_letters (s : bytes) (word : bytes) : Prop := eq_ignore_ascii_case s word = true.
Definition a_unit (s : bytes) : Prop := In s [b "s"; b "ms"; b "us"; b "ns"].
Definition given {A} (o : option A) : Prop := o <> None.
Definition clap_accepts (a : args) : Prop :=
  (* options that take values have at least one *)
  a_inputs a <> Some [] /\ a_formats a <> Some [] /\
  (* possible values; case_insensitive for the first two *)
  (same_letters (a_in_has_header a) (b "yes") \/ same_letters (a_in_has_header a) (b "no") \/ same_letters (a_in_has_header a) (b "auto")) /\
  (same_letters (a_out_print_time a) (b "yes") \/ same_letters (a_out_print_time a) (b "no")) /\
  (forall u, a_in_epoch a = Some u -> a_unit u) /\ (forall u, a_out_units a = Some u -> a_unit u) /\
  (* requires *)
  (given (a_in_col_date a) <-> given (a_in_col_time a)) /\ (given (a_in_fmt_date a) <-> given (a_in_fmt_time a)) /\
  (* conflicts *)
  (given (a_in_col_date a) \/ given (a_in_fmt_date a) -> a_in_col a = None /\ a_in_fmt a = None) /\
  (given (a_in_epoch a) -> a_in_col_date a = None /\ a_in_fmt a = None).

(** A number, as an index is written. *)
Definition index_text (s : bytes) (i : nat) : Prop :=
  (N.of_nat i < 2 ^ 64)%N /\
  (numeral (chars s) (N.of_nat i) \/ exists t, chars s = 43%N :: t /\ numeral t (N.of_nat i)).

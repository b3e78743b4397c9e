(** Property theorems about how inputs are opened, and about the options: C67-C72, C77. *)
From Verif Require Export T_Program TimestampProofs.

(** ** C67: standard input, pipes *)

(** Standard input is read like a file of the same contents whose name tells nothing. *)
Definition tells_nothing {S} (sfs : list (factory S)) (name : bytes) : Prop :=
  (forall f core, name <> core ++ ext_of f) /\ none_of (fun sf => sf_format sf name) sfs.
Lemma name_is_nothing ds (sfs : list (factory (header * source))) p name fmt : (fmt = InputModel.Auto -> tells_nothing sfs name) ->
  create_source_from_previewer ds sfs p None fmt = create_source_from_previewer ds sfs p (Some name) fmt.
Proof.
  intro T. unfold create_source_from_previewer. destruct fmt as [e|]; [reflexivity|].
  destruct (T eq_refl) as [T1 T2]. unfold decompress_using_format.
  pose proof (name_layer_spec name) as Hl. destruct (is_compressed_using_format name) as [[g c]|].
  - inversion Hl as [g' c' En|]; subst. destruct (T1 _ _ eq_refl).
  - cbn [bind]. pose proof (first_by_format_spec sfs name) as Hf. destruct (first_by_format sfs name).
    + exfalso. eapply is_first_none; eauto.
    + destruct (decompress_by_autodetecting_format ds p) as [[d q]| | | |]; reflexivity.
Qed.
Lemma C67_proof ds inflate bunzip w (sfs : list (factory (header * source))) fmt path f name :
  local_file w path f -> f_seekable f = true -> ~ looks_like_zip (i_data (f_reads f)) ->
  named path name -> utf8 name = true -> f_reads f = w_stdin w ->
  (fmt = InputModel.Auto -> tells_nothing sfs name) ->
  create_source_from_input ds inflate bunzip w None sfs {| in_type := StdIn; in_format := fmt |} =
  create_source_from_input ds inflate bunzip w None sfs {| in_type := Path path; in_format := fmt |}.
Proof.
  intros L Sk Nz Nm U E T. unfold create_source_from_input. cbn [in_type in_format dt_can_handle dir_file_transport].
  rewrite (open_plain ds inflate bunzip w sfs fmt path f name L Sk Nz Nm U).
  destruct L as (_ & -> & _). rewrite E.
  destruct (previewer_new (w_stdin w)) as [p| | | |]; cbn [bind]; try reflexivity.
  rewrite (name_is_nothing ds sfs p name fmt T). destruct (create_source_from_previewer ds sfs p (Some name) fmt); reflexivity.
Qed.
Theorem C67_stdin_partial : forall ds inflate bunzip w (sfs : list (factory (header * source))) fmt path f name,
  local_file w path f -> f_seekable f = true -> ~ looks_like_zip (i_data (f_reads f)) ->
  named path name -> utf8 name = true -> f_reads f = w_stdin w ->
  (fmt = InputModel.Auto -> tells_nothing sfs name) ->
  create_source_from_input ds inflate bunzip w None sfs {| in_type := StdIn; in_format := fmt |} =
  create_source_from_input ds inflate bunzip w None sfs {| in_type := Path path; in_format := fmt |}.
Proof. exact C67_proof. Qed.
Print Assumptions C67_stdin_partial.

(** A pipe given by name, such as a process substitution, is always refused, whatever the
    format and the data: the search for a zip archive seeks. *)
Theorem C67_named_pipe_refuted : forall S ds inflate bunzip w user (sfs : list (factory S)) fmt path f,
  w_exists w path = true -> w_open w path = Ok f -> f_seekable f = false ->
  create_source_from_path ds inflate bunzip w user sfs fmt path = Err (EIo (OtherIo 29)).
Proof.
  intros S ds inflate bunzip w user sfs fmt path f Hex Ho Hs. unfold create_source_from_path, open_zip.
  rewrite Hex, Ho. cbn [bind]. rewrite Hs. reflexivity.
Qed.
Print Assumptions C67_named_pipe_refuted.

(** A zip archive is not accepted from standard input. *)
Theorem C67_zip_on_stdin_refuted : forall ds inflate bunzip w (sfs : list (factory (header * source))),
  looks_like_zip (i_data (w_stdin w)) ->
  exists e, create_source_from_input ds inflate bunzip w None sfs {| in_type := StdIn; in_format := InputModel.Auto |} = Err e.
Proof.
  intros ds inflate bunzip w sfs [t Hz]. unfold create_source_from_input. cbn [in_type in_format].
  pose proof (previewer_spec _ (w_stdin w) buf_nonzero) as Sp.
  change (previewer_with DEFAULT_BUF_SIZE (w_stdin w)) with (previewer_new (w_stdin w)) in Sp.
  destruct (previewer_new (w_stdin w)) as [p|e| | |] eqn:Ep; cbn [bind]; [| |contradiction..].
  - assert (M : is_compressed_using_previewer p = Some ZIP).
    { apply (DecompressProofs.detect_spec _ _ _ Ep). rewrite Hz. split; [cbn; lia|]. exists zip_magic, t. split; [now left|reflexivity]. }
    cbn [create_source_from_previewer]. unfold decompress_by_autodetecting_format. rewrite M.
    cbn. eauto.
  - eauto.
Qed.
Print Assumptions C67_zip_on_stdin_refuted.

(** ** C77: file names *)

(** A local file whose name is not UTF-8 crashes the program (when no archive). *)
Theorem C77_name_not_utf8_refuted : forall S ds inflate bunzip w (sfs : list (factory S)) fmt path f name p,
  local_file w path f -> f_seekable f = true -> ~ looks_like_zip (i_data (f_reads f)) ->
  named path name -> utf8 name = false -> previewer_new (f_reads f) = Ok p ->
  create_source_from_path ds inflate bunzip w None sfs fmt path = Panic.
Proof.
  intros S ds inflate bunzip w sfs fmt path f name p (Hex & _ & Hh & Ho) Hs Hz Hn Hu Hp.
  unfold create_source_from_path, open_zip.
  rewrite Hex, Ho. cbn [bind]. rewrite Hs, C65_is_zip. cbn [bind].
  destruct (starts_with _ _) eqn:E; [apply starts_with_spec in E; destruct Hz; exact E|]. cbn [bind].
  unfold create_previewer, streaming_transports. cbn [open_matching file_transport http_transport t_can_open t_open].
  rewrite Hex, Ho, Hh. cbn [bind]. rewrite Hp. cbn [bind].
  unfold get_file_name. rewrite (named_file_name _ _ Hn), Hu. reflexivity.
Qed.
Print Assumptions C77_name_not_utf8_refuted.
(** Names that are UTF-8, the only ones a command line argument can have, are no problem (C66): with a format
    given, or if neither name tells anything, one is as good as the other. *)
Theorem C77_utf8_names_partial : forall (ds : decoders) inflate bunzip w (sfs : list (factory (header * source))) fmt path path' f f' name name',
  local_file w path f -> f_seekable f = true -> ~ looks_like_zip (i_data (f_reads f)) -> named path name -> utf8 name = true ->
  local_file w path' f' -> f_seekable f' = true -> named path' name' -> utf8 name' = true ->
  f_reads f' = f_reads f ->
  (fmt = InputModel.Auto -> tells_nothing sfs name /\ tells_nothing sfs name') ->
  create_source_from_path ds inflate bunzip w None sfs fmt path = create_source_from_path ds inflate bunzip w None sfs fmt path'.
Proof.
  intros ds inflate bunzip w sfs fmt path path' f f' name name' L S Z N U L' S' N' U' E H.
  rewrite (open_plain ds inflate bunzip w sfs fmt path f name L S Z N U).
  rewrite (open_plain ds inflate bunzip w sfs fmt path' f' name' L' S') by (try rewrite E; assumption). rewrite E.
  destruct (previewer_new (f_reads f)) as [p| | | |]; cbn [bind]; try reflexivity.
  rewrite <- (name_is_nothing ds sfs p name fmt), <- (name_is_nothing ds sfs p name' fmt); [reflexivity|..]; intro F; now apply H in F as [? ?].
Qed.
Print Assumptions C77_utf8_names_partial.

(** ** C71: the time zone *)

(** The zone meant: the option, else the environment; a name of the caller's table, else one
    that the time zone library knows; none if neither is given. *)
Definition zone_meant {Z} (arg env : option bytes) (table : option (bytes -> option Z)) (known : bytes -> option Z)
  (z : option Z) : Prop :=
  (arg = None /\ env = None /\ z = None) \/
  exists name x, (arg = Some name \/ arg = None /\ env = Some name) /\ z = Some x /\
    ((exists m, table = Some m /\ m name = Some x) \/
     (forall m, table = Some m -> m name = None) /\ known name = Some x).
Theorem C71_zone_partial : forall Z arg env table (known : bytes -> option Z) z,
  resolve_timezone arg env table known = Ok z <-> zone_meant arg env table known z.
Proof.
  intros Z arg env table known z. unfold resolve_timezone, zone_meant.
  assert (G : forall name, (let* x := unwrap (known name) in Ok (Some x)) = Ok z <-> exists x, z = Some x /\ known name = Some x).
  { intro name. destruct (known name) as [x|]; cbn.
    - split; [intros [= <-]; eauto|intros (y & -> & [= ->]); reflexivity].
    - split; [discriminate|intros (y & _ & [=])]. }
  assert (H : forall name,
    match table with
    | None => let* x := unwrap (known name) in Ok (Some x)
    | Some m => match m name with
                | None => let* x := unwrap (known name) in Ok (Some x)
                | Some x => Ok (Some x)
                end
    end = Ok z <->
    exists x, z = Some x /\ ((exists m, table = Some m /\ m name = Some x) \/
     (forall m, table = Some m -> m name = None) /\ known name = Some x)).
  { intro name. destruct table as [m|].
    - destruct (m name) as [x|] eqn:Em.
      + split; [intros [= <-]; exists x; eauto|].
        intros (y & -> & [(m' & [= <-] & E)|(E & _)]); [congruence|rewrite (E m eq_refl) in Em; discriminate].
      + rewrite G. split.
        * intros (x & -> & E). exists x. split; auto. right. split; auto. now intros m' [= <-].
        * intros (x & -> & [(m' & [= <-] & E)|(_ & E)]); [congruence|eauto].
    - rewrite G. split.
      + intros (x & -> & E). exists x. split; auto. right. split; auto. discriminate.
      + intros (x & -> & [(m' & [=] & E)|(_ & E)]). eauto. }
  destruct arg as [a|]; [|destruct env as [e|]].
  - rewrite H. split.
    + intros (x & -> & X). right. exists a, x. auto.
    + intros [(? & _)|(name & x & [[= <-]|[? _]] & -> & X)]; try discriminate. eauto.
  - rewrite H. split.
    + intros (x & -> & X). right. exists e, x. auto.
    + intros [(_ & ? & _)|(name & x & [?|[_ [= <-]]] & -> & X)]; try discriminate. eauto.
  - split.
    + intros [= <-]. left. auto.
    + intros [(_ & _ & ->)|(name & x & [?|[_ ?]] & _)]; try discriminate. reflexivity.
Qed.
Print Assumptions C71_zone_partial.

(** A name nobody knows is not reported: the program panics, exit code 101. *)
Theorem C71_unknown_zone_refuted : forall prof ch lower f64_ok split ds inflate bunzip f64 f32 ts sfs table known create F w a name,
  (a_timezone a = Some name \/ a_timezone a = None /\ w_env_tz w = Some name) ->
  (forall m, table = Some m -> m name = None) -> known name = None ->
  let o := chopper_cli prof ch lower f64_ok split ds inflate bunzip f64 f32 ts sfs table known create F w a in
  o_result o = Panic /\ exit_code o = 101%N.
Proof.
  intros prof ch lower f64_ok split ds inflate bunzip f64 f32 ts sfs table known create F w a name Hn Ht Hk o.
  assert (E : resolve_timezone (a_timezone a) (w_env_tz w) table known = Panic).
  { unfold resolve_timezone. destruct Hn as [-> | [-> ->]]; destruct table as [m|]; rewrite ?(Ht _ eq_refl), Hk; reflexivity. }
  assert (o = {| o_written := None; o_result := Panic |}) as ->.
  { unfold o, chopper_cli, parse_args. rewrite E. reflexivity. }
  split; reflexivity.
Qed.
Print Assumptions C71_unknown_zone_refuted.

(** The zone is the same everywhere: the bounds, the input's timestamps and the output's. *)
Theorem C71_one_zone : forall prof ch table known w a o,
  parse_args prof ch table known w a = Ok o ->
  exists z, zone_meant (a_timezone a) (w_env_tz w) table known z /\
    timestamp_range prof ch (a_begin a) (a_end a) (zone_in z) = Ok (op_range _ o) /\
    ci_tz (op_csv_in _ o) = zone_in z /\
    co_show (op_csv_out _ o) = match z with
                               | Some z => Some (fun f t => zn_show z f (t / 1000000000)%N (t mod 1000000000)%N)
                               | None => None
                               end.
Proof.
  intros prof ch table known w a o H. unfold parse_args in H.
  destruct (resolve_timezone _ _ table known) as [z| | | |] eqn:Ez; try discriminate. cbn [bind] in H.
  exists z. split; [now apply C71_zone_partial|].
  destruct (timestamp_range _ _ _ _ _) as [rng| | | |] eqn:Er; try discriminate. cbn [bind] in H.
  destruct (cli_inputs _ _) as [ins| | | |] eqn:Ei; try discriminate. cbn [bind] in H.
  destruct (csv_input_options a z) as [ci| | | |] eqn:Ec; try discriminate. cbn [bind] in H.
  destruct (csv_output_options a z) as [co| | | |] eqn:Eo; try discriminate. injection H as <-.
  cbn [op_range op_csv_in op_csv_out]. split; [reflexivity|]. split.
  - unfold csv_input_options, csv_input_new in Ec.
    destruct (parse_yes_no_auto _); try discriminate. destruct (fmt_option a); try discriminate.
    destruct (col_option a); try discriminate. cbn [bind] in Ec.
    destruct (a_in_delimiter a) as [d|]; [destruct (parse_into_delimiter d); try discriminate|];
      cbn [bind] in Ec; injection Ec as <-; reflexivity.
  - unfold csv_output_options in Eo.
    destruct (bytes_eqb (a_out_print_time a) (b "yes")); [|destruct (bytes_eqb (a_out_print_time a) (b "no")); [|discriminate]];
      cbn [bind] in Eo; (destruct (a_out_units a) as [u|]; [destruct (units_from_str u); try discriminate|]);
      cbn [bind] in Eo; injection Eo as <-; destruct z; reflexivity.
Qed.
Print Assumptions C71_one_zone.

(** Property theorems about opening inputs, options, and whole invocations: C66-C78. *)
From Verif Require Export ProgramProofs.

(** ** C66: opening a local file *)

Lemma open_plain {S} ds inflate bunzip w (sfs : list (factory S)) fmt path f name :
  local_file w path f -> f_seekable f = true -> ~ looks_like_zip (i_data (f_reads f)) ->
  named path name -> utf8 name = true ->
  create_source_from_path ds inflate bunzip w None sfs fmt path =
  (let* p := previewer_new (f_reads f) in
   let* s := create_source_from_previewer ds sfs p (Some name) fmt in Ok (Some s)).
Proof.
  intros (Hex & _ & Hh & Ho) Hs Hz Hn Hu. unfold create_source_from_path, open_zip.
  rewrite Hex, Ho. cbn [bind]. rewrite Hs, C65_is_zip. cbn [bind].
  destruct (starts_with _ _) eqn:E; [apply starts_with_spec in E; destruct Hz; exact E|]. cbn [bind].
  unfold create_previewer, streaming_transports. cbn [open_matching file_transport http_transport t_can_open t_open].
  rewrite Hex, Ho, Hh. cbn [bind]. unfold get_file_name. rewrite (named_file_name _ _ Hn), Hu.
  destruct (previewer_new (f_reads f)); reflexivity.
Qed.

(** A file that is no archive is previewed from its beginning and opened under its own name. *)
Theorem C66_plain_file : forall S ds inflate bunzip w (sfs : list (factory S)) fmt path f name,
  local_file w path f -> f_seekable f = true -> ~ looks_like_zip (i_data (f_reads f)) ->
  named path name -> utf8 name = true ->
  exists out,
    create_source_from_path ds inflate bunzip w None sfs fmt path = (let* s := out in Ok (Some s)) /\
    after (previewer_new (f_reads f)) (resolve ds sfs (Some name) fmt) out.
Proof.
  intros S ds inflate bunzip w sfs fmt path f name H1 H2 H3 H4 H5.
  exists (let* p := previewer_new (f_reads f) in create_source_from_previewer ds sfs p (Some name) fmt).
  rewrite (open_plain ds inflate bunzip w sfs fmt path f name H1 H2 H3 H4 H5). split.
  - destruct (previewer_new (f_reads f)); reflexivity.
  - destruct (previewer_new (f_reads f)); cbn [after bind fail_as]; try reflexivity. apply C54_resolution.
Qed.
Print Assumptions C66_plain_file.

(** A zip archive, whatever its own name, is opened like the file it contains: under that
    file's name, with that file's contents. *)
Theorem C66_archive_like_its_member : forall S ds inflate bunzip w (sfs : list (factory S)) fmt zip f plain g a name,
  w_exists w zip = true -> w_open w zip = Ok f -> f_seekable f = true ->
  i_data (f_reads f) = archive_bytes a -> z_before a = [] ->
  archive_fits a -> end_unambiguous a -> extra_tolerated a -> ZipSpec.supported a ->
  z_method a = 0%N -> z_crc a = crc32 (z_payload a) ->
  shown_name (z_flags a) (z_name a) name ->
  (N.testbit (z_flags a) 11 = true -> utf8 (z_name a) = true) ->
  (* the member as a file of its own *)
  local_file w plain g -> f_seekable g = true -> named plain name -> utf8 name = true ->
  f_reads g = {| i_data := z_payload a; i_tail := None; i_plan := i_plan (f_reads f) |} ->
  ~ looks_like_zip (z_payload a) ->
  create_source_from_path ds inflate bunzip w None sfs fmt zip =
  create_source_from_path ds inflate bunzip w None sfs fmt plain.
Proof.
  intros S ds inflate bunzip w sfs fmt zip f plain g a name Hex Ho Hs Hd Hb F U T Sp M Cr Hn Hu8 Hl Hgs Hnm Hu Hg Hz.
  rewrite (open_plain ds inflate bunzip w sfs fmt plain g name) by (try rewrite Hg; assumption).
  unfold create_source_from_path, open_zip. rewrite Hex, Ho. cbn [bind]. rewrite Hs, C65_is_zip. cbn [bind].
  assert (Ez : starts_with (b "PK" ++ [byte_of 3; byte_of 4]) (i_data (f_reads f)) = true).
  { apply starts_with_spec. rewrite Hd. unfold archive_bytes, until_central, local_header. rewrite Hb. cbn [app].
    rewrite <- !app_assoc. eexists. reflexivity. }
  rewrite Ez, Hd.
  rewrite (open_main inflate bunzip (i_plan (f_reads f)) a F U T). unfold eocdr_result, central_result, member_reader.
  destruct Sp as (S1 & S2 & S3 & S4 & S5 & S6).
  rewrite S1, S2, S3, S4, S5, M. cbn [negb N.eqb orb Pos.eqb bind].
  assert (En : zip_name (z_flags a) (z_name a) = name).
  { pose proof (name_shown (z_flags a) (z_name a)) as X. unfold shown_name in X, Hn.
    destruct (N.testbit (z_flags a) 11); [rewrite (X (Hu8 eq_refl)), (Hn (Hu8 eq_refl)); reflexivity|congruence]. }
  assert (Ei : forall i : inner, i = {| i_data := z_payload a; i_tail := None; i_plan := i_plan (f_reads f) |} ->
    crc_as_inner (crc_new i (z_crc a)) = f_reads g).
  { intros i ->. unfold crc_as_inner, crc_new. cbn [c_inner c_crc32 i_data i_tail i_plan].
    rewrite Cr, N.eqb_refl, Hg. reflexivity. }
  destruct S6 as [-> | ->]; cbn [negb N.eqb orb Pos.eqb andb bind];
    rewrite ?(Ei _ eq_refl), En; reflexivity.
Qed.
Print Assumptions C66_archive_like_its_member.

(** Concrete invocations for C107: a directory with a CSV file and a compressed one, a DC file whose
    format is given on the command line, and the standard input. *)
From Verif Require Export T_WholeAny T_WholeCsvEx T_PackEx T_Directory.
Local Open Scope nat_scope.

Definition any_dc : bytes := dc_file mix_header (map EvRow mix_b).
Definition any_open (p : bytes) : res handle :=
  let f bs := {| f_reads := {| i_data := bs; i_tail := None; i_plan := [Chunk 3; Chunk 1] |}; f_seekable := true |} in
  if bytes_eqb p (b "d/a.csv") then Ok (f mix_text)
  else if bytes_eqb p (b "d/b.csv.gz") then Ok (f (b "G" ++ mix_text))
  else if bytes_eqb p (b "blob") then Ok (f any_dc)
  else Err (EIo (OtherIo 2)).
Definition any_world : world :=
  {| w_exists := fun p => is_ok (any_open p) || bytes_eqb p (b "d") || bytes_eqb p (b "d/sub");
     w_is_dir := fun p => bytes_eqb p (b "d") || bytes_eqb p (b "d/sub");
     w_read_dir := fun p => Ok [b "d/sub"; b "d/b.csv.gz"; b "d/a.csv"];
     w_open := any_open; w_http := fun _ => Err (EIo (OtherIo 2)); w_stdin := reads_as [Chunk 2] mix_text; w_env_tz := None |}.
Definition any_args (ins fs : option (list bytes)) : args :=
  {| a_inputs := ins; a_formats := fs; a_output := None; a_timezone := None; a_begin := None; a_end := None;
     a_in_delimiter := None; a_in_has_header := b "auto"; a_in_col := None; a_in_col_date := None; a_in_col_time := None;
     a_in_fmt := None; a_in_fmt_date := None; a_in_fmt_time := None; a_in_epoch := Some (b "ns"); a_out_delimiter := b ";";
     a_out_print_time := b "yes"; a_out_time_name := None; a_out_epoch := true; a_out_units := Some (b "ns") |}.
Definition any_run (a : args) : outcome :=
  chopper_cli Debug counting (fun s => s) (fun _ => false) csv_records toy (fun i => i) (fun i => i)
    (fun _ => []) (fun _ => []) None None None demo_known demo_create 9 any_world a.
Example C107_output :
  any_run (any_args (Some [b "d"; b "blob"]) (Some [b "auto"; b "dc"])) =
  {| o_written := Some (b "timestampNanos,time,sym" ++ nl ++ b "10;10;A" ++ nl ++ b "15;x;D" ++ nl ++ b "20;y;E" ++ nl ++ b "20;20;B,C" ++ nl ++
                        b "10;10;A" ++ nl ++ b "20;20;B,C" ++ nl);
     o_result := Ok tt |} /\
  any_run (any_args None None) =
  {| o_written := Some (b "timestampNanos,time,sym" ++ nl ++ b "10;10;A" ++ nl ++ b "20;20;B,C" ++ nl); o_result := Ok tt |}.
Proof. split; vm_compute; reflexivity. Qed.

Local Notation gives ins fs := (input_gives (ch := counting) (fun s => s) (fun _ => false) toy (fun i => i) (fun i => i) any_world (any_args ins fs) None mix_header).
Local Notation fgives ins fs := (file_gives (ch := counting) (fun s => s) (fun _ => false) toy (fun i => i) (fun i => i) any_world (any_args ins fs) None mix_header).
Lemma any_csv ins fs : csv_content (fun s => s) (fun _ => false) (any_args ins fs) (@None (zone counting)) mix_text mix_header mix_a.
Proof. apply mix_content_of; reflexivity. Qed.
Lemma any_holds path name c : (path, name, c) = (b "d/a.csv", b "a.csv", mix_text) \/
    (path, name, c) = (b "d/b.csv.gz", b "b.csv.gz", b "G" ++ mix_text) \/ (path, name, c) = (b "blob", b "blob", any_dc) ->
  holds (fun i => i) (fun i => i) any_world path name c.
Proof.
  intro H. assert (Sm : smooth [Chunk 3; Chunk 1]) by (intros e He; cbn in He; intuition discriminate).
  assert (N1 : named (b "d/a.csv") (b "a.csv")).
  { split; [right; exists (b "d"); auto|]. split; [cbn; intuition discriminate|]. split; [discriminate|]. split; discriminate. }
  assert (N2 : named (b "d/b.csv.gz") (b "b.csv.gz")).
  { split; [right; exists (b "d"); auto|]. split; [cbn; intuition discriminate|]. split; [discriminate|]. split; discriminate. }
  assert (N3 : named (b "blob") (b "blob")).
  { split; [left; reflexivity|]. split; [cbn; intuition discriminate|]. split; [discriminate|]. split; discriminate. }
  assert (Z3 : ~ looks_like_zip any_dc) by (apply dc_no_zip, mix_header_ok).
  destruct H as [H|[H|H]]; injection H as -> -> ->; (eapply holds_itself;
    [split; [reflexivity|split; [reflexivity|split; reflexivity]]|reflexivity|assumption|reflexivity|split; [reflexivity|split; [reflexivity|exact Sm]]|]);
    [intros [t E]; discriminate E..|exact Z3].
Qed.
Lemma toy_packs : compressed toy GZ (b "G" ++ mix_text) mix_text.
Proof.
  intros p out (i & (D & T & Sm) & E) Do. inversion Do; subst; clear Do. eexists. split; [reflexivity|].
  rewrite (preview_stream _ _ E), D, T. split; [reflexivity|]. split; [reflexivity|]. intros e [H|[]]. discriminate H.
Qed.
Lemma any_directory ins fs : gives ins fs InputModel.Auto (Path (b "d")) (mix_a ++ mix_a).
Proof.
  replace (mix_a ++ mix_a) with (concat [mix_a; mix_a]) by reflexivity.
  eapply gives_directory with (entries := [b "d/sub"; b "d/b.csv.gz"; b "d/a.csv"]) (files := [b "d/a.csv"; b "d/b.csv.gz"]); try reflexivity.
  - split; [apply perm_swap|]. constructor; [constructor; [constructor|constructor]|constructor; [discriminate|constructor]].
  - discriminate.
  - intros x y [<-|[<-|[]]] [<-|[<-|[]]] A B; try reflexivity; exfalso; revert A B; vm_compute; intros; congruence.
  - constructor; [|constructor; [|constructor]].
    + exists (b "a.csv"), mix_text, mix_text, KCsv. split; [apply any_holds; auto|]. split; [|apply any_csv].
      left. exists (b "a.csv"). split; [reflexivity|]. apply told_bare. apply (named_csv (b "a")).
    + exists (b "b.csv.gz"), (b "G" ++ mix_text), mix_text, KCsv. split; [apply any_holds; auto|]. split; [|apply any_csv].
      left. exists (b "b.csv.gz"). split; [reflexivity|]. apply (told_packed toy _ (b "b.csv") GZ); [apply (named_csv (b "b"))|apply toy_packs].
Qed.
Lemma any_blob ins fs : gives ins fs (Extension (b "dc")) (Path (b "blob")) mix_b.
Proof.
  constructor. exists (b "blob"), any_dc, any_dc, KDc. split; [apply any_holds; auto|]. split.
  - exists (b ".dc"). split; [|apply told_bare, (named_dc [])]. right. split; [reflexivity|]. intros t E. discriminate E.
  - exists (map EvRow mix_b). split; [reflexivity|]. split; [reflexivity|]. split; [exact mix_header_ok|exact (proj2 mix_fits)].
Qed.
Lemma any_stdin ins fs : gives ins fs InputModel.Auto StdIn mix_a.
Proof.
  apply (gives_stdin _ _ _ _ _ _ _ _ _ _ mix_text mix_text KCsv); [| |apply any_csv].
  - split; [reflexivity|]. split; [reflexivity|]. intros e [H|[]]. discriminate H.
  - right. apply shown_bare; [exact I| |eapply shows_csv, mix_lines].
    intros f (_ & m & t & Hm & E). destruct f; cbn in Hm; intuition (subst; discriminate E).
Qed.
Lemma any_args_ok ins fs : ins = Some [b "d"; b "blob"] /\ fs = Some [b "auto"; b "dc"] \/ ins = None /\ fs = None ->
  exists o, parse_args Debug counting None demo_known any_world (any_args ins fs) = Ok o /\ op_range _ o = range_all.
Proof.
  intro H. unfold parse_args. cbn [any_args a_timezone w_env_tz any_world resolve_timezone bind a_begin a_end a_formats a_inputs].
  cbn [timestamp_range bind].
  assert (E : exists ins', cli_inputs fs ins = Ok ins') by (destruct H as [[-> ->]|[-> ->]]; eexists; reflexivity).
  destruct E as [ins' ->]. cbn [bind].
  unfold csv_input_options, csv_output_options. cbn [any_args a_in_has_header a_out_print_time a_out_units].
  change (parse_yes_no_auto (b "auto")) with (Ok CsvModel.Auto). change (bytes_eqb (b "yes") (b "yes")) with true.
  change (units_from_str (b "ns")) with (Ok Nanos).
  cbn [bind fmt_option col_option any_args a_in_fmt_date a_in_fmt a_in_epoch a_in_col_date a_in_col csv_input_new a_in_delimiter].
  eexists. split; reflexivity.
Qed.

Example C107_demo : exists header rows lines,
  run_ok (any_run (any_args (Some [b "d"; b "blob"]) (Some [b "auto"; b "dc"]))) (header ++ nl ++ concat (map (fun l => l ++ nl) lines)) /\
  header = b "timestampNanos,time,sym" /\ Permutation rows (mix_a ++ mix_a ++ mix_b) /\ length lines = 6.
Proof.
  destruct (any_args_ok _ _ (or_introl (conj eq_refl eq_refl))) as (o & Ea & Er).
  destruct (C107_to_csv Debug counting (fun s => s) (fun _ => false) toy (fun i => i) (fun i => i)
    (fun _ => []) (fun _ => []) None demo_known demo_create 9 any_world (any_args (Some [b "d"; b "blob"]) (Some [b "auto"; b "dc"]))
    o None Nanos [(Path (b "d"), InputModel.Auto); (Path (b "blob"), Extension (b "dc"))] mix_header [mix_a ++ mix_a; mix_b])
    as (hd & rows & lines & R & Hh & Hl & P & _);
    [lia|now left|exact Ea|left; auto|constructor|discriminate|discriminate|discriminate| | |].
  - split; [reflexivity|]. intros [|[|i]] t fmt E.
    + injection E as <- <-. exists (b "auto"). split; [now left|]. left. auto.
    + injection E as <- <-. exists (b "dc"). split; [now left|]. right. split; [discriminate|reflexivity].
    + destruct i; discriminate E.
  - rewrite Er. constructor; [|constructor; [|constructor]]; (split; [|discriminate]); [apply any_directory|apply any_blob].
  - exists hd, rows, lines. rewrite Er in P. split; [exact R|].
    split. { destruct Hh as [[E _]|[_ ->]]; [discriminate E|reflexivity]. }
    split; [exact P|]. rewrite <- (Forall2_len _ _ _ Hl), (Permutation_length P). reflexivity.
Qed.
Example C107_demo_stdin : exists header lines,
  run_ok (any_run (any_args None None)) (header ++ nl ++ concat (map (fun l => l ++ nl) lines)) /\ length lines = 2.
Proof.
  destruct (any_args_ok _ _ (or_intror (conj eq_refl eq_refl))) as (o & Ea & Er).
  destruct (C107_to_csv Debug counting (fun s => s) (fun _ => false) toy (fun i => i) (fun i => i)
    (fun _ => []) (fun _ => []) None demo_known demo_create 9 any_world (any_args None None)
    o None Nanos [(StdIn, InputModel.Auto)] mix_header [mix_a])
    as (hd & rows & lines & R & Hh & Hl & P & _);
    [lia|now left|exact Ea|left; auto|constructor|discriminate|discriminate|discriminate| | |].
  - split; [reflexivity|]. intros [|i] t fmt E; [injection E as <- <-; reflexivity|destruct i; discriminate E].
  - rewrite Er. constructor; [|constructor]. split; [apply any_stdin|discriminate].
  - exists hd, lines. rewrite Er in P. split; [exact R|]. rewrite <- (Forall2_len _ _ _ Hl), (Permutation_length P). reflexivity.
Qed.

(** Concrete invocations: the hypotheses of C66-C79 are met by them, and what they give. *)
From Verif Require Export T_Whole2 T_Timestamp.

(** A small world: two DC files with the same columns, one with others, a CSV file, a pipe, a
    directory, a name that is not UTF-8. *)
Definition demo_header : header := {| h_names := [b "sym"; b "px"]; h_types := [TString; TInt] |}.
Definition other_header : header := {| h_names := [b "sym"; b "qty"]; h_types := [TString; TInt] |}.
Definition demo_row (t : N) (s : bytes) (n : Z) : row := {| ts := t; vals := [VString s; VInt n] |}.
Definition demo_a : list row := [demo_row 10 (b "A") 1; demo_row 20 (b "A") 2; demo_row 20 (b "A") 3].
Definition demo_b : list row := [demo_row 15 (b "B") 7; demo_row 20 (b "B") 8].
Definition nl : bytes := [byte_of 10].
Definition demo_csv : bytes := b "time,sym" ++ nl ++ b "10,A" ++ nl ++ b "20,B" ++ nl.
Definition bad_name : bytes := [byte_of 255; byte_of 254].
Definition reads_as (plan : list step) (bs : bytes) : inner := {| i_data := bs; i_tail := None; i_plan := plan |}.
Definition demo_open (plan : list step) (p : bytes) : res handle :=
  let f bs := {| f_reads := reads_as plan bs; f_seekable := true |} in
  if bytes_eqb p (b "a.dc") then Ok (f (dc_file demo_header (map EvRow demo_a)))
  else if bytes_eqb p (b "d/b.dc") then Ok (f (dc_file demo_header (map EvRow demo_b)))
  else if bytes_eqb p (b "c.dc") then Ok (f (dc_file other_header (map EvRow demo_b)))
  else if bytes_eqb p (b "x.csv") || bytes_eqb p (b "x") || bytes_eqb p bad_name then Ok (f demo_csv)
  else if bytes_eqb p (b "/dev/fd/63") then Ok {| f_reads := reads_as plan demo_csv; f_seekable := false |}
  else Err (EIo (OtherIo 2)).
Definition demo_world (plan : list step) : world :=
  {| w_exists := fun p => is_ok (demo_open plan p); w_is_dir := fun _ => false; w_read_dir := fun _ => Err (EIo (OtherIo 2));
     w_open := demo_open plan; w_http := fun _ => Err (EIo (OtherIo 2)); w_stdin := reads_as plan demo_csv; w_env_tz := None |}.
Definition no_decoders : decoders :=
  let e := fun _ : breader => Err (EIo (OtherIo 1)) in
  {| d_gz := e; d_lz4_frame := e; d_lz4_jblock := e; d_lzf := e; d_zst := e |}.
Definition demo_create (p : bytes) : res unit := Ok tt.
Definition demo_known (name : bytes) : option (zone counting) :=
  if bytes_eqb name (b "UTC") then Some {| zn_local := fun _ => LNone; zn_show := fun _ s n => [] |} else None.

Definition demo_args (inputs : list bytes) (out : option bytes) : args :=
  {| a_inputs := Some inputs; a_formats := None; a_output := out; a_timezone := None; a_begin := None; a_end := None;
     a_in_delimiter := None; a_in_has_header := b "auto"; a_in_col := None; a_in_col_date := None; a_in_col_time := None;
     a_in_fmt := None; a_in_fmt_date := None; a_in_fmt_time := None; a_in_epoch := None; a_out_delimiter := b ",";
     a_out_print_time := b "yes"; a_out_time_name := None; a_out_epoch := true; a_out_units := Some (b "ns") |}.
Definition demo (plan : list step) (a : args) : outcome :=
  chopper_cli Debug counting (fun s => s) (fun _ => false) csv_records no_decoders (fun i => i) (fun i => i)
    (fun _ => []) (fun _ => []) None None None demo_known demo_create 9 (demo_world plan) a.
Definition demo_options (a : args) : res (options counting) := parse_args Debug counting None demo_known (demo_world []) a.

Definition rows_of (out : outcome) : option (list row) :=
  match o_written out with
  | Some bs => match dc_read (file bs) with Ok (_, (rows, Ok _)) => Some rows | _ => None end
  | None => None
  end.


(** ** Facts about these files *)
Lemma demo_header_ok : dc_header_ok demo_header.
Proof.
  split; [|split; [cbn; lia|split; [cbn; lia|]]].
  - split; [reflexivity|]. split; [|split; [|reflexivity]].
    + constructor; [split; discriminate|]. constructor; [split; discriminate|constructor].
    + constructor; [split; reflexivity|]. constructor; [split; reflexivity|constructor].
  - constructor; [discriminate|]. constructor; [discriminate|constructor].
Qed.
Lemma demo_row_fits t s n : (t < 2 ^ 64)%N -> dc_string s -> (- 2 ^ 31 <= n < 2 ^ 31)%Z -> row_fits demo_header (demo_row t s n).
Proof.
  intros H1 H2 H3. split; [exact H1|]. constructor; [exact H2|]. constructor; [exact H3|constructor].
Qed.
Lemma demo_a_fits : Forall (row_fits demo_header) demo_a.
Proof. constructor; [|constructor; [|constructor; [|constructor]]]; apply demo_row_fits; (reflexivity || (split; reflexivity) || lia). Qed.
Lemma demo_b_fits : Forall (row_fits demo_header) demo_b.
Proof. constructor; [|constructor; [|constructor]]; apply demo_row_fits; (reflexivity || (split; reflexivity) || lia). Qed.
Lemma demo_a_input : dc_input (demo_world []) (b "a.dc") demo_header demo_a.
Proof.
  exists {| f_reads := reads_as [] (dc_file demo_header (map EvRow demo_a)); f_seekable := true |}, (b "a"), (map EvRow demo_a).
  split; [split; [reflexivity|split; [reflexivity|split; reflexivity]]|]. split; [reflexivity|]. split.
  { split; [left; reflexivity|]. split; [cbn; intuition discriminate|]. split; [discriminate|]. split; discriminate. }
  split; [reflexivity|]. split; [reflexivity|]. split; [reflexivity|]. split; [intros e []|reflexivity].
Qed.
Lemma demo_b_input : dc_input (demo_world []) (b "d/b.dc") demo_header demo_b.
Proof.
  exists {| f_reads := reads_as [] (dc_file demo_header (map EvRow demo_b)); f_seekable := true |}, (b "b"), (map EvRow demo_b).
  split; [split; [reflexivity|split; [reflexivity|split; reflexivity]]|]. split; [reflexivity|]. split.
  { split; [right; exists (b "d"); reflexivity|]. split; [cbn; intuition discriminate|]. split; [discriminate|]. split; discriminate. }
  split; [reflexivity|]. split; [reflexivity|]. split; [reflexivity|]. split; [intros e []|reflexivity].
Qed.
Lemma demo_args_ok ins out : exists o, demo_options (demo_args (b "a.dc" :: ins) out) = Ok o /\ op_range _ o = range_all /\
  op_inputs _ o = map (fun p => {| in_type := Path p; in_format := InputModel.Auto |}) (b "a.dc" :: ins).
Proof.
  unfold demo_options, parse_args. cbn [demo_args a_timezone w_env_tz demo_world resolve_timezone bind a_begin a_end a_formats a_inputs].
  cbn [timestamp_range bind]. destruct (C55_defaults (b "a.dc" :: ins) ltac:(discriminate)) as [E _]. rewrite E. cbn [bind].
  unfold csv_input_options, csv_output_options. cbn [demo_args a_in_has_header a_out_print_time a_out_units].
  change (parse_yes_no_auto (b "auto")) with (Ok CsvModel.Auto). change (bytes_eqb (b "yes") (b "yes")) with true.
  change (units_from_str (b "ns")) with (Ok Nanos).
  cbn [bind fmt_option col_option demo_args a_in_fmt_date a_in_fmt a_in_epoch a_in_col_date a_in_col csv_input_new a_in_delimiter].
  eexists. split; [reflexivity|]. split; reflexivity.
Qed.

(** ** C75, C79: their hypotheses hold of the two files *)
Example C75_demo : exists written rows,
  run_ok (demo [] (demo_args [b "a.dc"; b "d/b.dc"] (Some (b "o.dc")))) written /\
  dc_read (file written) = Ok (demo_header, (rows, Ok tt)) /\ Permutation rows (demo_a ++ demo_b) /\ time_ordered rows.
Proof.
  destruct (demo_args_ok [b "d/b.dc"] (Some (b "o.dc"))) as (o & Ea & Er & _).
  destruct (C75_dc_files Debug counting (fun s => s) (fun _ => false) csv_records no_decoders (fun i => i) (fun i => i)
    (fun _ => []) (fun _ => []) None demo_known demo_create 9 (demo_world []) (demo_args [b "a.dc"; b "d/b.dc"] (Some (b "o.dc")))
    o [b "a.dc"; b "d/b.dc"] (b "o.") demo_header [demo_a; demo_b]) as (wr & rows & R & D & P & O & _);
    [lia|reflexivity|discriminate|reflexivity|reflexivity|exact Ea|reflexivity|exact demo_header_ok| |].
  - rewrite Er. constructor; [|constructor; [|constructor]].
    + split; [exact demo_a_input|]. split; [exact demo_a_fits|discriminate].
    + split; [exact demo_b_input|]. split; [exact demo_b_fits|discriminate].
  - exists wr, rows. rewrite Er in P, O. split; [exact R|]. split; [exact D|]. split; [exact P|].
    apply O. constructor; [|constructor; [|constructor]]; unfold time_ordered, demo_a, demo_b; cbn;
      repeat (constructor; try (unfold ts_le; cbn; lia)).
Qed.
(** Rows of equal time: the last file's come first (C04). *)
Example C75_demo_rows :
  rows_of (demo [] (demo_args [b "a.dc"; b "d/b.dc"] (Some (b "o.dc")))) =
  Some [demo_row 10 (b "A") 1; demo_row 15 (b "B") 7; demo_row 20 (b "B") 8; demo_row 20 (b "A") 2; demo_row 20 (b "A") 3].
Proof. vm_compute. reflexivity. Qed.
Example C79_demo : run_ok (demo [] (demo_args [b "a.dc"] (Some (b "o.dc")))) (dc_file demo_header (map EvRow demo_a)).
Proof.
  destruct (demo_args_ok [] (Some (b "o.dc"))) as (o & Ea & _).
  apply (C79_dc_copy Debug counting (fun s => s) (fun _ => false) csv_records no_decoders (fun i => i) (fun i => i)
    (fun _ => []) (fun _ => []) None demo_known demo_create 9 (demo_world []) _ o (b "a.dc") (b "o.") demo_header demo_a);
    [lia|reflexivity..|exact Ea|reflexivity|exact demo_header_ok|exact demo_a_input|exact demo_a_fits|discriminate|].
  intros f [= <-]. reflexivity.
Qed.

(** ** C66, C67, C77 *)
Example C67_demo : demo [] (demo_args [b "/dev/fd/63"] None) = {| o_written := None; o_result := Err (EIo (OtherIo 29)) |}.
Proof. vm_compute. reflexivity. Qed.
Example C67_stdin_demo : (* standard input, and the same data in a file x *)
  let sfs := all_factories Debug counting (fun s => s) (fun _ => false) csv_records None
    {| ci_delimiter := None; ci_has_header := CsvModel.Auto; ci_col := CfgAuto; ci_fmt := FmtAuto; ci_tz := None |} in
  let open i := create_source_from_input no_decoders (fun i => i) (fun i => i) (demo_world []) None sfs
    {| in_type := i; in_format := InputModel.Auto |} in
  open StdIn = open (Path (b "x")) /\ is_ok (open StdIn) = true.
Proof. vm_compute. split; reflexivity. Qed.
Example C77_same_demo : (* one file under two names, with a format given *)
  let sfs := all_factories Debug counting (fun s => s) (fun _ => false) csv_records None
    {| ci_delimiter := None; ci_has_header := CsvModel.Auto; ci_col := CfgAuto; ci_fmt := FmtAuto; ci_tz := None |} in
  create_source_from_path no_decoders (fun i => i) (fun i => i) (demo_world []) None sfs (Extension (b "csv")) (b "x") =
  create_source_from_path no_decoders (fun i => i) (fun i => i) (demo_world []) None sfs (Extension (b "csv")) (b "x.csv").
Proof.
  cbn zeta. set (f := {| f_reads := reads_as [] demo_csv; f_seekable := true |}).
  assert (L : forall p, In p [b "x"; b "x.csv"] -> local_file (demo_world []) p f /\ named p p).
  { intros p [<-|[<-|[]]]; (split; [split; [reflexivity|split; [reflexivity|split; reflexivity]]|
      split; [left; reflexivity|]; split; [cbn; intuition discriminate|]; split; [discriminate|]; split; discriminate]). }
  destruct (L (b "x") (or_introl eq_refl)) as [L1 N1]. destruct (L (b "x.csv") (or_intror (or_introl eq_refl))) as [L2 N2].
  apply (C77_utf8_names_partial _ _ _ _ _ _ (b "x") (b "x.csv") f f (b "x") (b "x.csv")); auto.
  - intros [t E]. discriminate E.
  - discriminate.
Qed.
Example C77_demo : o_result (demo [] (demo_args [bad_name] None)) = Panic.
Proof. vm_compute. reflexivity. Qed.

(** ** C68, C69 *)
Example C68_demo : (* one input is missing *)
  o_written (demo [] (demo_args [b "a.dc"; b "missing.dc"] (Some (b "o.csv")))) = None /\
  exit_code (demo [] (demo_args [b "a.dc"; b "missing.dc"] (Some (b "o.csv")))) <> 0%N.
Proof.
  destruct (demo_args_ok [b "missing.dc"] (Some (b "o.csv"))) as (o & Ea & _ & Ei).
  eapply C68_missing_input; [exact Ea|rewrite Ei; right; left; reflexivity|reflexivity|reflexivity|reflexivity|discriminate].
Qed.
Example C69_demo : (* the columns differ *)
  demo [] (demo_args [b "a.dc"; b "c.dc"] (Some (b "o.csv"))) =
  {| o_written := Some []; o_result := o_result (demo [] (demo_args [b "a.dc"; b "c.dc"] (Some (b "o.csv")))) |} /\
  exit_code (demo [] (demo_args [b "a.dc"; b "c.dc"] (Some (b "o.csv")))) = 1%N.
Proof. vm_compute. split; reflexivity. Qed.

Example C69_kept_demo : (* and the output's name is of no known kind *)
  o_written (demo [] (demo_args [b "a.dc"; b "c.dc"] (Some (b "o.txt")))) = None.
Proof. vm_compute. reflexivity. Qed.

(** ** C71: an unknown zone; C72: bounds *)
Example C71_demo : exit_code (demo [] (plain_args (Some (b "Mars/Base")) None (b "yes"))) = 101%N.
Proof. vm_compute. reflexivity. Qed.
Example C71_known : zone_meant (Some (b "UTC")) None None demo_known (demo_known (b "UTC")).
Proof. right. exists (b "UTC"). eexists. split; [left; reflexivity|]. split; [reflexivity|]. right. split; [discriminate|reflexivity]. Qed.
Example C72_YES_demo : exit_code (demo [] (plain_args None None (b "YES"))) = 101%N.
Proof. vm_compute. reflexivity. Qed.
(** A chrono to which one text is a date of the year 2262, too late by a nanosecond. *)
Definition late : chrono :=
  {| TimestampModel.local := unit; day := unit;
     c_datetime := fun f s => if bytes_eqb f (b "%+") && bytes_eqb s (b "2262-04-11T23:47:16.854775808Z") then Some (2 ^ 63)%Z else None;
     c_naive := fun _ _ => None; c_date := fun _ _ => None; c_midnight := fun d => d |}.
Example C72_far_demo :
  parse_args Debug late None (fun _ => None) (demo_world []) (plain_args None (Some (b "2262-04-11T23:47:16.854775808Z")) (b "yes")) = Panic.
Proof. eapply C72_far_bound_refuted; [reflexivity|reflexivity|reflexivity|right; reflexivity]. Qed.

(** ** C73, C74, C78: a run that succeeds, in whatever pieces the file arrives *)
Example C78_demo :
  demo [] (demo_args [b "x.csv"] None) =
  {| o_written := Some (b "timestampNanos,time,sym" ++ nl ++ b "10,10,A" ++ nl ++ b "20,20,B" ++ nl); o_result := Ok tt |}.
Proof. vm_compute. reflexivity. Qed.
Example C74_demo : forall plan, smooth plan -> demo plan (demo_args [b "x.csv"] None) = demo [] (demo_args [b "x.csv"] None).
Proof.
  intros plan Hp.
  assert (Sm : smooth []) by (intros e []).
  assert (Ss : forall bs, same_stream (reads_as plan bs) (reads_as [] bs)).
  { intro bs. split; [reflexivity|]. split; [reflexivity|]. split; [exact Hp|exact Sm]. }
  apply C74_chunking; [|intros i j H; exact H|intros i j H; exact H|exact I|exact I|].
  - intros f p q Hpq. destruct (preview_same _ _ Hpq) as (B & _ & _). unfold decompress. rewrite B.
    destruct f; cbn; try apply alike_err. destruct (_ && _); apply alike_err.
  - assert (Al : forall p, alike same_file (demo_open plan p) (demo_open [] p)).
    { intro p. unfold demo_open.
      repeat match goal with |- alike _ (if ?c then _ else _) _ => destruct c end;
        try apply alike_err; apply alike_ok; split; try reflexivity; apply Ss. }
    split; [|split; [reflexivity|split; [reflexivity|split; [exact Al|split; [intro p; apply alike_err|split; [apply Ss|reflexivity]]]]]].
    intro p. cbn. destruct (Al p); reflexivity.
Qed.

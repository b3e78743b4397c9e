(** Concrete runs for C131. *)
From Verif Require Export T_Guess T_LinesEx NewYork.
From Verif Require Import Utf8Spec T_CliCsv T_Lines T_CsvTime CsvProofs T_Options2 CsvUtilProofs T_Time.
Local Open Scope nat_scope.

Definition gu_foreign : foreign := {| f_datetime := fun _ _ => None; f_naive := fun _ _ => None; f_date := fun _ _ => None |}.
Local Notation gu := (civil gu_foreign).
Definition gu_known (name : bytes) : option (zone gu) := if bytes_eqb name (b "UTC") then Some (civil_zone gu_foreign utc) else None.
Definition gu_text (name t : bytes) : bytes := text_of [name ++ b ",sym"; t ++ b ",A"].
Definition gu_files : list (bytes * bytes) :=
  [(b "millis.csv", gu_text (b "timemillis") (b "10")); (b "days.csv", gu_text (b "time") (b "20180401"));
   (b "steps.csv", gu_text (b "stepmillis") (b "1500000000"))].
Definition gu_open (p : bytes) : res handle :=
  match find (fun e => bytes_eqb p (fst e)) gu_files with
  | Some (_, bs) => Ok {| f_reads := reads_as [Chunk 3; Chunk 1] bs; f_seekable := true |}
  | None => Err (EIo (OtherIo 2))
  end.
Definition gu_world : world :=
  {| w_exists := fun p => is_ok (gu_open p); w_is_dir := fun _ => false; w_read_dir := fun _ => Err (EIo (OtherIo 2));
     w_open := gu_open; w_http := fun _ => Err (EIo (OtherIo 2)); w_stdin := reads_as [] []; w_env_tz := None |}.
Definition gu_args (path : bytes) : args :=
  {| a_inputs := Some [path]; a_formats := None; a_output := None; a_timezone := Some (b "UTC"); a_begin := None; a_end := None;
     a_in_delimiter := None; a_in_has_header := b "auto"; a_in_col := None; a_in_col_date := None; a_in_col_time := None;
     a_in_fmt := None; a_in_fmt_date := None; a_in_fmt_time := None; a_in_epoch := None; a_out_delimiter := b ",";
     a_out_print_time := b "yes"; a_out_time_name := None; a_out_epoch := true; a_out_units := Some (b "ns") |}.
Definition gu_run (a : args) : ProgramModel.outcome :=
  chopper_cli Debug gu (fun s => s) (fun _ => false) csv_records no_decoders (fun i => i) (fun i => i)
    (fun _ => []) (fun _ => []) None None None gu_known demo_create 9 gu_world a.
Definition gu_wrote (t : bytes) (name x : bytes) : ProgramModel.outcome :=
  {| o_written := Some (text_of [b "timestampNanos," ++ name ++ b ",sym"; t ++ b "," ++ x ++ b ",A"]); o_result := Ok tt |}.

Example gu_millis : gu_run (gu_args (b "millis.csv")) = gu_wrote (b "10000000") (b "timemillis") (b "10").
Proof. vm_compute. reflexivity. Qed.
Example gu_days : gu_run (gu_args (b "days.csv")) = gu_wrote (b "1522540800000000000") (b "time") (b "20180401").
Proof. vm_compute. reflexivity. Qed.
(** The first column, for want of a better one, holds seconds; called by its name, milliseconds. *)
Lemma gu_steps : gu_run (gu_args (b "steps.csv")) = gu_wrote (b "1500000000000000000") (b "stepmillis") (b "1500000000").
Proof. vm_compute. reflexivity. Qed.
Lemma gu_named_steps : gu_run (with_column (gu_args (b "steps.csv")) (b "stepmillis")) = gu_wrote (b "1500000000000000") (b "stepmillis") (b "1500000000").
Proof. vm_compute. reflexivity. Qed.

(** ** The hypotheses *)
Lemma gu_lines name t : In (name, t) [(b "timemillis", b "10"); (b "time", b "20180401"); (b "stepmillis", b "1500000000")] ->
  first_lines (gu_text name t) (Some [name ++ b ",sym"; t ++ b ",A"]).
Proof.
  intro H. assert (E : firstn (8 * 1024) (gu_text name t) = gu_text name t).
  { apply firstn_all2. destruct H as [[= <- <-]|[[= <- <-]|[[= <- <-]|[]]]]; cbv; lia. }
  unfold first_lines. rewrite E. exists ([name ++ b ",sym"; t ++ b ",A"] ++ []). split.
  - exists [name ++ b ",sym"; t ++ b ",A"], []. split; [|split; [|now destruct (_ =? _)]].
    + destruct H as [[= <- <-]|[[= <- <-]|[[= <- <-]|[]]]]; reflexivity.
    + cbn [app]. destruct H as [[= <- <-]|[[= <- <-]|[[= <- <-]|[]]]];
        (constructor; [vm_compute; intuition discriminate|constructor; [vm_compute; intuition discriminate|constructor; [intros []|constructor]]]).
  - assert (K : forall l, utf8 l = true -> hd (byte_of 0) (rev l) <> byte_of 13 -> strip_cr l l /\ well_formed l).
    { intros l U Nc. split; [|now apply utf8_well_formed]. right. split; [reflexivity|]. intros x Ex. apply Nc. rewrite Ex, rev_app_distr. reflexivity. }
    cbn [app]. constructor; [|constructor; [|constructor]]; apply K; destruct H as [[= <- <-]|[[= <- <-]|[[= <- <-]|[]]]]; try reflexivity; discriminate.
Qed.
Lemma gu_guess name t : In (name, t) [(b "timemillis", b "10"); (b "time", b "20180401"); (b "stepmillis", b "1500000000")] ->
  forall path, input_delimiter (gu_args path) (Some [name ++ b ",sym"; t ++ b ",A"]) (byte_of 44) /\
    input_has_header (fun _ => false) (gu_args path) (Some [name ++ b ",sym"; t ++ b ",A"]) (byte_of 44) true.
Proof.
  intros H path. destruct H as [[= <- <-]|[[= <- <-]|[[= <- <-]|[]]]];
    (split; [vm_compute; reflexivity|right; right; split; [reflexivity|vm_compute; reflexivity]]).
Qed.
Lemma gu_read name t path col hint fmt x n : In (name, t) [(b "timemillis", b "10"); (b "time", b "20180401"); (b "stepmillis", b "1500000000")] ->
  input_column (fun s => s) (gu_args path) {| h_names := [name; b "sym"]; h_types := [TString; TString] |} col hint ->
  row_text [t; b "A"] col x -> (forall y, row_text [t; b "A"] col y -> input_format_used gu (gu_args path) col hint y fmt) ->
  row_time (ch := gu) (zone_in (Some (civil_zone gu_foreign utc))) fmt x n ->
  csv_read (fun s => s) (fun _ => false) (gu_args path) (Some (civil_zone gu_foreign utc)) (gu_text name t)
    {| h_names := [name; b "sym"]; h_types := [TString; TString] |} [row_of [t; b "A"] n] col hint fmt.
Proof.
  intros H Hc Hx Hf Ht. destruct (gu_guess name t H path) as [Gd Gh].
  exists (Some [name ++ b ",sym"; t ++ b ",A"]), (byte_of 44), true, (gu_text name t), [[name; b "sym"]; [t; b "A"]], [[name; b "sym"]; [t; b "A"]],
    [name; b "sym"], [t; b "A"], [], [x], [n].
  assert (P : Forall2 (plain_line (byte_of 44)) [[name; b "sym"]; [t; b "A"]] [name ++ b ",sym"; t ++ b ",A"]).
  { constructor; [apply (li_line name (b "sym"))|constructor; [apply (li_line t (b "A"))|constructor]];
      (constructor; [|constructor; [|constructor]]); try (apply li_plain; reflexivity);
      destruct H as [[= <- <-]|[[= <- <-]|[[= <- <-]|[]]]]; apply li_plain; reflexivity. }
  split; [now apply gu_lines|]. split; [exact Gd|]. do 3 (split; [discriminate|]). split; [exact Gh|]. split; [now left|].
  split; [intros y Ey; destruct H as [[= <- <-]|[[= <- <-]|[[= <- <-]|[]]]]; discriminate Ey|].
  split; [apply (csv_text_lines _ _ _ P)|]. split; [apply (plain_trimmed _ _ _ P)|]. split; [reflexivity|]. split; [constructor|].
  split; [reflexivity|]. split; [reflexivity|]. split; [exact Hc|]. split; [exact Hf|]. split; [constructor; [exact Hx|constructor]|].
  split; [constructor; [exact Ht|constructor]|reflexivity].
Qed.
Lemma gu_ordinary path name t : In (path, gu_text name t) gu_files -> ordinary gu_world path (b ".csv") (gu_text name t).
Proof.
  intro H. assert (N : exists core, path = core ++ b ".csv" /\ named path path /\ utf8 path = true).
  { destruct H as [H|[H|[H|[]]]]; injection H as <- _; [exists (b "millis")|exists (b "days")|exists (b "steps")]; (split; [reflexivity|]; split; [|reflexivity]);
      (split; [left; reflexivity|]; split; [cbn; intuition discriminate|]; split; [discriminate|]; split; discriminate). }
  destruct N as (core & E & Nm & U). split.
  - exists {| f_reads := reads_as [Chunk 3; Chunk 1] (gu_text name t); f_seekable := true |}, core. rewrite <- E.
    split; [|split; [reflexivity|split; [exact Nm|split; [exact U|split; [reflexivity|split; [reflexivity|]]]]]].
    + destruct H as [H|[H|[H|[]]]]; injection H as <- H; rewrite <- H; (split; [reflexivity|split; [reflexivity|split; reflexivity]]).
    + intros e He. cbn in He. intuition discriminate.
  - intros [y Ey]. destruct H as [H|[H|[H|[]]]]; injection H as _ H; rewrite <- H in Ey; discriminate Ey.
Qed.
Lemma gu_accepted path : exists op, parse_args Debug gu None gu_known gu_world (gu_args path) = Ok op.
Proof.
  unfold parse_args. cbn [gu_args a_timezone]. assert (Z : resolve_timezone (Some (b "UTC")) (w_env_tz gu_world) None gu_known = Ok (Some (civil_zone gu_foreign utc))) by reflexivity.
  rewrite Z. cbn [bind gu_args a_begin a_end a_formats a_inputs timestamp_range].
  destruct (C55_defaults [path] ltac:(discriminate)) as [E _]. rewrite E. cbn [bind].
  unfold csv_input_options, csv_output_options. cbn [gu_args a_in_has_header a_out_print_time a_out_units].
  change (parse_yes_no_auto (b "auto")) with (Ok CsvModel.Auto). change (bytes_eqb (b "yes") (b "yes")) with true.
  change (units_from_str (b "ns")) with (Ok Nanos).
  cbn [bind fmt_option col_option gu_args a_in_fmt_date a_in_fmt a_in_epoch a_in_col_date a_in_col csv_input_new a_in_delimiter]. eauto.
Qed.
Lemma gu_zone path z : zone_meant (a_timezone (gu_args path)) (w_env_tz gu_world) None gu_known z -> z = Some (civil_zone gu_foreign utc).
Proof. intro H. apply C71_zone_partial in H. cbn in H. now injection H as <-. Qed.
Lemma gu_row x : row_text [x; b "A"] (ColIndex 0) x /\ forall y, row_text [x; b "A"] (ColIndex 0) y -> y = x.
Proof. split; [now constructor|]. intros y H. inversion H; subst. cbn in *. congruence. Qed.

(** Naming the column that is chosen anyway may change the times: without its name the unit comes from the sizes of
    the numbers, with it from the end of the name. *)
Theorem C131_column_refuted : exists a s h rows,
  a_in_col a = None /\ a_in_col_date a = None /\ a_inputs a = Some [b "steps.csv"] /\
  ordinary gu_world (b "steps.csv") (b ".csv") (gu_text (b "stepmillis") (b "1500000000")) /\
  (* the time is in the first column, which has the name [s] *)
  csv_read (ch := gu) (fun s => s) (fun _ => false) a (Some (civil_zone gu_foreign utc)) (gu_text (b "stepmillis") (b "1500000000"))
    h rows (ColIndex 0) None (FUnits Seconds) /\
  first_named (h_names h) s 0 /\
  gu_run a = gu_wrote (b "1500000000000000000") (b "stepmillis") (b "1500000000") /\
  gu_run (with_column a s) = gu_wrote (b "1500000000000000") (b "stepmillis") (b "1500000000").
Proof.
  exists (gu_args (b "steps.csv")), (b "stepmillis"), {| h_names := [b "stepmillis"; b "sym"]; h_types := [TString; TString] |},
    [row_of [b "1500000000"; b "A"] 1500000000000000000%N].
  split; [reflexivity|]. split; [reflexivity|]. split; [reflexivity|]. split; [apply gu_ordinary; right; right; now left|].
  destruct (gu_row (b "1500000000")) as [R1 R2].
  assert (Nu : numeral (chars (b "1500000000")) 1500000000).
  { apply digits1_spec. reflexivity. }
  split; [|split; [|split; [exact gu_steps|exact gu_named_steps]]].
  - apply (gu_read (b "stepmillis") (b "1500000000") (b "steps.csv") (ColIndex 0) None (FUnits Seconds) (b "1500000000")).
    + right. right. now left.
    + apply no_column; reflexivity.
    + exact R1.
    + intros y Hy. apply R2 in Hy. subst y. apply (guessed_units gu (gu_args (b "steps.csv")) (ColIndex 0) None _ 0 1500000000%N Seconds); try reflexivity; [|exact Nu|].
      * intros fmt H. cbn [documented In] in H. repeat (destruct H as [<-|H]; [intro P; apply P; vm_compute; reflexivity|]). destruct H.
      * vm_compute. split; [discriminate|reflexivity].
    + exists 1500000000%N. split; [exact Nu|]. split; reflexivity.
  - split; [reflexivity|]. intros j Hj. lia.
Qed.
Print Assumptions C131_column_refuted.

Example C131_example :
  gu_run (with_delimiter (gu_args (b "days.csv")) (b ",")) = gu_run (gu_args (b "days.csv")) /\
  gu_run (with_has_header (gu_args (b "days.csv")) (b "YES")) = gu_run (gu_args (b "days.csv")) /\
  gu_run (with_formats (gu_args (b "days.csv")) [b "csv"]) = gu_run (gu_args (b "days.csv")) /\
  gu_run (with_format (gu_args (b "days.csv")) (b "%Y%m%d")) = gu_run (gu_args (b "days.csv")) /\
  gu_run (with_column (gu_args (b "days.csv")) (b "time")) = gu_run (gu_args (b "days.csv")) /\
  gu_run (with_epoch (gu_args (b "millis.csv")) (b "ms")) = gu_run (gu_args (b "millis.csv")).
Proof.
  destruct (gu_accepted (b "days.csv")) as [o Ha]. destruct (gu_accepted (b "millis.csv")) as [o' Ha'].
  assert (I : In (b "time", b "20180401") [(b "timemillis", b "10"); (b "time", b "20180401"); (b "stepmillis", b "1500000000")]) by (right; now left).
  assert (O : ordinary gu_world (b "days.csv") (b ".csv") (gu_text (b "time") (b "20180401"))) by (apply gu_ordinary; right; now left).
  pose proof (gu_lines _ _ I) as L. destruct (gu_guess _ _ I (b "days.csv")) as [Gd Gh].
  assert (R : csv_read (ch := gu) (fun s => s) (fun _ => false) (gu_args (b "days.csv")) (Some (civil_zone gu_foreign utc)) (gu_text (b "time") (b "20180401"))
    {| h_names := [b "time"; b "sym"]; h_types := [TString; TString] |} [row_of [b "20180401"; b "A"] 1522540800000000000%N] (ColIndex 0) None (FDate (b "%Y%m%d"))).
  { destruct (gu_row (b "20180401")) as [R1 R2]. apply (gu_read _ _ _ _ _ _ (b "20180401") _ I).
    - apply no_column; reflexivity.
    - exact R1.
    - intros y Hy. apply R2 in Hy. subst y. apply known_format; try reflexivity.
      exists (firstn 5 (documented (ColIndex 0))), []. split; [reflexivity|]. split; [intro E; vm_compute in E; discriminate E|].
      cbn [documented firstn]. repeat (constructor; [intro P; apply P; vm_compute; reflexivity|]). constructor.
    - exists 1522540800000000000%Z. split; [|split; [lia|reflexivity]]. exists 17622%Z. split; [vm_compute; reflexivity|].
      exists (zn_local (civil_zone gu_foreign utc)). split; [reflexivity|vm_compute; reflexivity]. }
  split; [|split; [|split; [|split; [|split]]]].
  - apply (C131_delimiter _ _ _ _ _ _ _ _ _ _ _ _ 9 gu_world _ o [b "days.csv"] (b ",") (byte_of 44) Ha); try reflexivity; [left; split; reflexivity|].
    constructor; [|constructor]. right. eexists _, _. eauto.
  - apply (C131_has_header _ _ _ _ _ _ _ _ _ _ _ _ 9 gu_world _ o [b "days.csv"] (b "YES") true Ha); try reflexivity.
    constructor; [|constructor]. right. eexists _, _, _. eauto.
  - apply (C131_format_said _ _ _ _ _ _ _ _ _ _ _ _ 9 gu_world _ o [b "days.csv"] [b "csv"] Ha); try reflexivity.
    constructor; [|constructor]. eexists _, _. split; [left; split; [left; reflexivity|reflexivity]|exact O].
  - apply (C131_time_format Debug gu_foreign _ _ _ _ _ _ _ _ _ _ 9 gu_world _ o [b "days.csv"] (b "%Y%m%d") Ha); try reflexivity.
    intros z Hz. apply gu_zone in Hz. subst z. constructor; [|constructor]. right. eexists _, _, _, _, _, _. split; [exact O|]. split; [|exact R]. right. right. reflexivity.
  - apply (C131_column_partial _ _ _ _ _ _ _ _ _ _ _ _ 9 gu_world _ o [b "days.csv"] (b "time") Ha); try reflexivity.
    intros z Hz. apply gu_zone in Hz. subst z. constructor; [|constructor]. right. eexists _, _, _, _, _, _, (b "time"). split; [exact O|]. split; [exact R|].
    split; [|split; [reflexivity|exact (units_suffix_spec (b "time"))]]. right. split; [|split; [reflexivity|intros j Hj; lia]].
    intros k Hk. apply parse_usize_spec in Hk. vm_compute in Hk. discriminate Hk.
  - apply (C131_units _ _ _ _ _ _ _ _ _ _ _ _ 9 gu_world _ o' [b "millis.csv"] (b "ms") Millis Ha'); try reflexivity; [constructor|].
    intros z Hz. apply gu_zone in Hz. subst z. constructor; [|constructor]. right. eexists _, _, _, _, _. split; [apply (gu_ordinary _ (b "timemillis") (b "10")); now left|].
    destruct (gu_row (b "10")) as [R1 R2]. apply (gu_read (b "timemillis") (b "10") _ (ColIndex 0) (Some Millis) (FUnits Millis) (b "10") 10000000%N); [now left| |exact R1| |].
    + apply no_column; reflexivity.
    + intros y Hy. apply named_units; reflexivity.
    + exists 10%N. split; [apply digits1_spec; reflexivity|]. split; reflexivity.
Qed.

(** Concrete runs for C129. *)
From Verif Require Export T_Lines T_WholeCsvEx.
From Verif Require Import Utf8Spec T_CliCsv.
Local Open Scope nat_scope.

Definition li_names : list bytes := [b "time"; b "sym"].
Definition li_head : bytes := b "time,sym".
Definition li_first : list bytes := [b "10,A"; b "20,B"].
Definition li_second : list bytes := [b "20,C"; b "30,D"].
Definition li_files : list (bytes * bytes) := [(b "a.csv", text_of (li_head :: li_first)); (b "c.csv", text_of (li_head :: li_second))].
Definition li_open (p : bytes) : res handle :=
  match find (fun e => bytes_eqb p (fst e)) li_files with
  | Some (_, bs) => Ok {| f_reads := reads_as [Chunk 3; Chunk 1] bs; f_seekable := true |}
  | None => Err (EIo (OtherIo 2))
  end.
Definition li_world : world :=
  {| w_exists := fun p => is_ok (li_open p); w_is_dir := fun _ => false; w_read_dir := fun _ => Err (EIo (OtherIo 2));
     w_open := li_open; w_http := fun _ => Err (EIo (OtherIo 2)); w_stdin := reads_as [] []; w_env_tz := None |}.
Definition li_args (print : bytes) : args :=
  {| a_inputs := None; a_formats := None; a_output := None; a_timezone := None; a_begin := None; a_end := None;
     a_in_delimiter := None; a_in_has_header := b "auto"; a_in_col := None; a_in_col_date := None; a_in_col_time := None;
     a_in_fmt := None; a_in_fmt_date := None; a_in_fmt_time := None; a_in_epoch := Some (b "ns"); a_out_delimiter := b ",";
     a_out_print_time := print; a_out_time_name := None; a_out_epoch := true; a_out_units := Some (b "ns") |}.
Definition li_run (a : args) : outcome :=
  chopper_cli Debug counting (fun s => s) (fun _ => false) csv_records no_decoders (fun i => i) (fun i => i)
    (fun _ => []) (fun _ => []) None None None demo_known demo_create 9 li_world a.

(** What the program writes: the file itself; the lines of two files; with their times. *)
Example C129_copy_output : li_run (asked (li_args (b "no")) [b "a.csv"] None None None) =
  {| o_written := Some (text_of (li_head :: li_first)); o_result := Ok tt |}.
Proof. vm_compute. reflexivity. Qed.
Example C129_merge_output : li_run (asked (li_args (b "no")) [b "a.csv"; b "c.csv"] None None None) =
  {| o_written := Some (text_of [li_head; b "10,A"; b "20,C"; b "20,B"; b "30,D"]); o_result := Ok tt |}.
Proof. vm_compute. reflexivity. Qed.
Example C129_times_output : li_run (asked (li_args (b "yes")) [b "a.csv"] None None None) =
  {| o_written := Some (text_of [b "timestampNanos,time,sym"; b "10,10,A"; b "20,20,B"]); o_result := Ok tt |}.
Proof. vm_compute. reflexivity. Qed.

(** ** The hypotheses *)
Lemma li_plain s : forallb (fun c => (c <? 128)%N && negb (white_space c)) (chars s) = true -> s = str (chars s) ->
  forallb (fun c => negb (N.eqb (of_byte c) 44) && negb (N.eqb (of_byte c) 34) && negb (N.eqb (of_byte c) 10) && negb (N.eqb (of_byte c) 13)) s = true ->
  plain_field (byte_of 44) s.
Proof.
  intros A B C. rewrite forallb_forall in C.
  assert (N : forall n, In n [44; 34; 10; 13]%N -> ~ In (byte_of n) s).
  { intros n Hn I. specialize (C _ I). destruct Hn as [<-|[<-|[<-|[<-|[]]]]]; vm_compute in C; discriminate C. }
  split; [apply N; now left|]. split; [apply (N 34%N); right; now left|]. split; [apply N; right; right; now left|].
  split; [apply N; do 3 right; now left|].
  rewrite forallb_forall in A. exists (chars s), (chars s). split; [|split; [exact B|split; [|exact B]]].
  - apply Forall_forall. intros c Hc. specialize (A c Hc). apply andb_prop in A as [A _]. apply N.ltb_lt in A. unfold scalar. lia.
  - exists [], []. rewrite app_nil_r. cbn [app]. split; [reflexivity|]. split; [constructor|]. split; [constructor|]. split.
    + intros c t E. specialize (A c). rewrite E in A. specialize (A (or_introl eq_refl)). apply andb_prop in A as [_ A]. now destruct (white_space c).
    + intros c t E. specialize (A c). rewrite E in A. specialize (A ltac:(apply in_or_app; right; now left)). apply andb_prop in A as [_ A]. now destruct (white_space c).
Qed.
Lemma li_line x y : Forall (plain_field (byte_of 44)) [x; y] -> plain_line (byte_of 44) [x; y] (x ++ b "," ++ y).
Proof.
  intro H. split; [discriminate|]. split; [exact H|]. split; [cbn [join flat_map]; rewrite app_nil_r; reflexivity|]. destruct x; discriminate.
Qed.
Lemma li_lines : first_lines (text_of (li_head :: li_first)) (Some ([li_head] ++ li_first)).
Proof.
  set (data := text_of (li_head :: li_first)).
  assert (E : firstn (8 * 1024) data = data) by (apply firstn_all2; cbv; lia). unfold first_lines. rewrite E.
  exists ([li_head; b "10,A"; b "20,B"] ++ []). split.
  - exists [li_head; b "10,A"; b "20,B"], []. split; [reflexivity|]. split; [|reflexivity].
    cbn [app]. repeat (constructor; [vm_compute; intuition discriminate|]). constructor.
  - cbn [app li_first]. constructor; [|constructor; [|constructor; [|constructor]]]; (split; [|apply utf8_well_formed; reflexivity]).
    all: right; split; [reflexivity|]; intros x Ex; apply (f_equal (@rev ascii)) in Ex; rewrite (rev_app_distr x) in Ex; vm_compute in Ex; discriminate Ex.
Qed.
Lemma li_file print : lines_file (fun s => s) (fun _ => false) (li_args print) (@None (zone counting)) (byte_of 44) li_names
  (text_of (li_head :: li_first)) li_first [10%N; 20%N].
Proof.
  exists (Some ([li_head] ++ li_first)), li_head, [b "10"; b "A"], [[b "20"; b "B"]], [b "10"; b "20"], (ColIndex 0), None, (FUnits Nanos).
  split. { apply (li_line (b "time") (b "sym")). constructor; [|constructor; [|constructor]]; apply li_plain; reflexivity. }
  split. { constructor; [|constructor; [|constructor]].
    - apply (li_line (b "10") (b "A")). constructor; [|constructor; [|constructor]]; apply li_plain; reflexivity.
    - apply (li_line (b "20") (b "B")). constructor; [|constructor; [|constructor]]; apply li_plain; reflexivity. }
  split; [constructor; [reflexivity|constructor; [reflexivity|constructor]]|]. split; [reflexivity|]. split; [intros x; discriminate|].
  split; [exact li_lines|]. split; [vm_compute; reflexivity|]. do 3 (split; [discriminate|]).
  split. { right. right. split; [reflexivity|]. vm_compute. reflexivity. }
  split. { apply no_column; reflexivity. }
  split. { intros x _. apply (epoch_units _ _ _ _ _ (b "ns")); [reflexivity..|constructor]. }
  split. { constructor; [constructor; reflexivity|constructor; [constructor; reflexivity|constructor]]. }
  constructor; [|constructor; [|constructor]]; (eexists; split; [|split; [|]]);
    [apply (numeral_more [49%N] 1 48); [apply (numeral_one 49); unfold digit; lia|unfold digit; lia]|reflexivity|reflexivity
    |apply (numeral_more [50%N] 2 48); [apply (numeral_one 50); unfold digit; lia|unfold digit; lia]|reflexivity|reflexivity].
Qed.
Example C129_demo :
  run_ok (li_run (asked (li_args (b "no")) [b "a.csv"] (Some (b "o.csv")) None None)) (text_of (li_head :: li_first)).
Proof.
  assert (Ea : exists op, parse_args Debug counting None demo_known li_world (asked (li_args (b "no")) [b "a.csv"] (Some (b "o.csv")) None None) = Ok op /\ op_range _ op = range_all).
  { unfold parse_args. cbn [asked li_args a_timezone w_env_tz li_world resolve_timezone bind a_begin a_end a_formats a_inputs].
    cbn [timestamp_range bind]. destruct (C55_defaults [b "a.csv"] ltac:(discriminate)) as [E _]. rewrite E. cbn [bind].
    unfold csv_input_options, csv_output_options. cbn [asked li_args a_in_has_header a_out_print_time a_out_units].
    change (parse_yes_no_auto (b "auto")) with (Ok CsvModel.Auto). change (bytes_eqb (b "no") (b "yes")) with false.
    change (units_from_str (b "ns")) with (Ok Nanos).
    cbn [bind fmt_option col_option asked li_args a_in_fmt_date a_in_fmt a_in_epoch a_in_col_date a_in_col csv_input_new a_in_delimiter].
    eexists. split; reflexivity. }
  destruct Ea as (op & Ea & Er).
  eapply (C129_one_file Debug counting (fun s => s) (fun _ => false) no_decoders (fun i => i) (fun i => i) (fun _ => []) (fun _ => []) None demo_known demo_create
    9 li_world (li_args (b "no")) None Nanos (byte_of 44) li_names (b "a.csv") (b "a.csv") (text_of (li_head :: li_first)) (text_of (li_head :: li_first)) li_first [10%N; 20%N]
    (Some (b "o.csv")) None None op); try reflexivity; try exact Ea.
  - lia.
  - left. auto.
  - constructor.
  - right. now exists (b "o.").
  - apply (holds_itself _ _ _ (b "a.csv") (b "a.csv") _ {| f_reads := reads_as [Chunk 3; Chunk 1] (text_of (li_head :: li_first)); f_seekable := true |}).
    + split; [reflexivity|split; [reflexivity|split; reflexivity]].
    + reflexivity.
    + split; [left; reflexivity|]. split; [cbn; intuition discriminate|]. split; [discriminate|]. split; discriminate.
    + reflexivity.
    + split; [reflexivity|]. split; [reflexivity|]. intros e He. cbn in He. intuition discriminate.
    + intros [t E]. discriminate E.
  - left. exists (b "a.csv"). split; [reflexivity|]. constructor. apply (named_csv (b "a")).
  - apply li_file.
  - constructor; [constructor; constructor|]. constructor. lia.
  - exists 10%N. split; [now left|]. rewrite Er. reflexivity.
Qed.

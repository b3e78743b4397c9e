(** A concrete case of C141: a pipe that breaks off after 8 KiB, and the same pipe going on. *)
From Verif Require Import T_WholeAnyEx T_DamageAny T_DamageAnyEx T_BreakOff.
Local Open Scope nat_scope.

Definition long_field : bytes := repeat "x"%char 8200.
Definition half : bytes := b "time,sym" ++ nl ++ b "10,A" ++ nl ++ b "20,B" ++ nl ++ b "30," ++ long_field.
Definition more : bytes := nl ++ b "40,D" ++ nl.
Definition half_pipe : inner := {| i_data := half; i_tail := Some (OtherIo 5); i_plan := [] |}.
Definition whole_pipe : inner := {| i_data := half ++ more; i_tail := None; i_plan := [] |}.
Definition pipe_args : args := any_args None (Some [b "csv"]).
Lemma half_output : o_written (pipe_run half_pipe pipe_args) = Some (b "timestampNanos,time,sym" ++ nl ++ b "10;10;A" ++ nl).
Proof. vm_compute. reflexivity. Qed.
Lemma half_args i : exists o, parse_args Debug counting None demo_known (pipe_world i) pipe_args = Ok o.
Proof.
  unfold parse_args. cbn [pipe_args any_args a_timezone w_env_tz pipe_world resolve_timezone bind a_begin a_end a_formats a_inputs].
  cbn [timestamp_range bind].
  assert (E : exists ins', cli_inputs (Some [b "csv"]) None = Ok ins') by (eexists; reflexivity).
  destruct E as [ins' ->]. cbn [bind].
  unfold csv_input_options, csv_output_options. cbn [any_args a_in_has_header a_out_print_time a_out_units].
  change (parse_yes_no_auto (b "auto")) with (Ok CsvModel.Auto). change (bytes_eqb (b "yes") (b "yes")) with true.
  change (units_from_str (b "ns")) with (Ok Nanos).
  cbn [bind fmt_option col_option any_args a_in_fmt_date a_in_fmt a_in_epoch a_in_col_date a_in_col csv_input_new a_in_delimiter].
  eexists. reflexivity.
Qed.
Lemma half_inputs : inputs_for pipe_args [(StdIn, Extension (b "csv"))].
Proof.
  split; [reflexivity|]. intros [|i] t fmt E; [|destruct i; discriminate E].
  injection E as <- <-. exists (b "csv"). split; [now left|]. right. split; [discriminate|reflexivity].
Qed.
Lemma half_breaks : breaks_off pipe_decoders (fun i => i) (fun i => i) (pipe_world half_pipe) (pipe_world whole_pipe) StdIn (Extension (b "csv")).
Proof.
  exists half, more, (OtherIo 5), None. split.
  - apply (ends_stdin _ _ _ _ _ half (Some (OtherIo 5))).
    + split; [reflexivity|]. split; [reflexivity|]. intros e [].
    + exists (b ".csv"). split; [right; split; [reflexivity|]; intros t E; discriminate E|apply told_as_is, (named_csv [])].
  - apply (ends_stdin _ _ _ _ _ (half ++ more) None).
    + split; [reflexivity|]. split; [reflexivity|]. intros e [].
    + exists (b ".csv"). split; [right; split; [reflexivity|]; intros t E; discriminate E|apply told_as_is, (named_csv [])].
Qed.
Lemma half_prefix out out' : o_written (pipe_run half_pipe pipe_args) = Some out -> o_written (pipe_run whole_pipe pipe_args) = Some out' ->
  DriverSpec.prefix out out'.
Proof.
  destruct (half_args half_pipe) as (o & Ea). unfold pipe_run. intros W W'.
  eapply C141_prefix; [exact Ea| |exact half_inputs| |exact W|exact W']; [reflexivity|].
  constructor; [right; exact half_breaks|constructor].
Qed.
(** The hypotheses of C141 hold: the first run fails after writing one row, and what the other run writes begins with it. *)
Example C141_demo : (forall out', o_written (pipe_run whole_pipe pipe_args) = Some out' ->
    DriverSpec.prefix (b "timestampNanos,time,sym" ++ nl ++ b "10;10;A" ++ nl) out') /\
  exit_code (pipe_run half_pipe pipe_args) <> 0%N.
Proof.
  split; [intros out'; exact (half_prefix _ _ half_output)|].
  destruct (half_args half_pipe) as (o & Ea).
  eapply C141_noticed; [exact Ea|exact half_inputs|now left|reflexivity|exact half_breaks].
Qed.
Print Assumptions C141_demo.

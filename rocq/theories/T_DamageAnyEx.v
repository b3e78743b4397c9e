(** Concrete cases of C140: the standard input, compressed and cut short, or failing; the counterexample. *)
From Verif Require Import T_WholeAnyEx T_Damage T_DamageZip T_DamageAny T_DamageZipEx.
Local Open Scope nat_scope.

Definition pipe_decoders : decoders :=
  let d (r : breader) := Ok {| i_data := skipn 3 (s_data (as_stream r)); i_tail := Some UnexpectedEof; i_plan := [Chunk 5] |} in
  {| d_gz := d; d_lz4_frame := d; d_lz4_jblock := d; d_lzf := d; d_zst := d |}.
Definition pipe_world (i : inner) : world :=
  {| w_exists := fun _ => false; w_is_dir := fun _ => false; w_read_dir := fun _ => Err (EIo (OtherIo 2));
     w_open := fun _ => Err (EIo (OtherIo 2)); w_http := fun _ => Err (EIo (OtherIo 2)); w_stdin := i; w_env_tz := None |}.
Definition pipe_run (i : inner) (a : args) : outcome :=
  chopper_cli Debug counting (fun s => s) (fun _ => false) csv_records pipe_decoders (fun i => i) (fun i => i)
    (fun _ => []) (fun _ => []) None None None demo_known demo_create 9 (pipe_world i) a.
Lemma pipe_args_ok i : exists o, parse_args Debug counting None demo_known (pipe_world i) (any_args None None) = Ok o.
Proof. destruct (any_args_ok None None (or_intror (conj eq_refl eq_refl))) as (o & E & _). exists o. exact E. Qed.
Lemma pipe_inputs : inputs_for (any_args None None) [(StdIn, InputModel.Auto)].
Proof. split; [reflexivity|]. intros [|i] t fmt E; [injection E as <- <-; reflexivity|destruct i; discriminate E]. Qed.

(** gunzip fails after the rows. *)
Definition gz_cut : bytes := map byte_of [31; 139; 8]%N ++ mix_text.
Definition gz_pipe : inner := {| i_data := gz_cut; i_tail := None; i_plan := [Chunk 1; Chunk 3] |}.
Lemma gz_ends : input_ends pipe_decoders (fun i => i) (fun i => i) (pipe_world gz_pipe) InputModel.Auto StdIn KCsv mix_text (Some UnexpectedEof).
Proof.
  apply (ends_stdin _ _ _ _ _ gz_cut None).
  - split; [reflexivity|]. split; [reflexivity|]. intros e He. cbn in He. intuition discriminate.
  - right. apply (shown_compressed _ _ _ None GZ).
    + exact I.
    + split; [cbn; lia|]. eexists. exists mix_text. split; [now left|reflexivity].
    + intros p out (i & (D & T & Sm) & E) Do. inversion Do; subst; clear Do. eexists. split; [reflexivity|].
      rewrite (preview_stream _ _ E), D, T. split; [reflexivity|]. split; [reflexivity|]. intros e [H|[]]. discriminate H.
    + eapply shows_csv, mix_lines.
Qed.
Example C140_csv_demo : exit_code (pipe_run gz_pipe (any_args None None)) <> 0%N.
Proof.
  destruct (pipe_args_ok gz_pipe) as (o & Ea).
  eapply C140_csv; [exact Ea|exact pipe_inputs|now left|reflexivity|exact gz_ends].
Qed.
(** Reading the standard input fails after the rows. *)
Definition bad_pipe : inner := {| i_data := mix_text; i_tail := Some (OtherIo 5); i_plan := [Chunk 100] |}.
Example C140_small_demo : exit_code (pipe_run bad_pipe (any_args None None)) <> 0%N.
Proof.
  destruct (pipe_args_ok bad_pipe) as (o & Ea).
  eapply (C140_small Debug counting (fun s => s) (fun _ => false) pipe_decoders (fun i => i) (fun i => i)) with (k := KCsv) (e := OtherIo 5) (data := mix_text);
    [exact Ea|exact pipe_inputs|now left| |apply Nat.ltb_lt; vm_compute; reflexivity].
  apply (ends_stdin _ _ _ _ _ mix_text (Some (OtherIo 5))).
  - split; [reflexivity|]. split; [reflexivity|]. intros e He. cbn in He. intuition discriminate.
  - right. apply shown_as_is; [exact I| |eapply shows_csv, mix_lines].
    intros f (_ & m & t & Hm & E). destruct f; cbn in Hm; intuition (subst; discriminate E).
Qed.
(** The hypotheses of C140_dc_partial: a DC file of no known name, its format on the command line. *)
Example C140_dc_demo : exit_code (any_run (any_args (Some [b "d"; b "blob"]) (Some [b "auto"; b "dc"]))) = 0%N /\
  input_ends toy (fun i => i) (fun i => i) any_world (Extension (b "dc")) (Path (b "blob")) KDc any_dc None /\
  (N.of_nat (length any_dc) < 2 ^ 32 - 2 ^ 15)%N.
Proof.
  split; [rewrite (proj1 C107_output); reflexivity|]. split; [|apply N.ltb_lt; vm_compute; reflexivity].
  apply (ends_file _ _ _ _ _ (b "blob") (b "blob") any_dc None).
  - eapply (held_file _ _ _ (b "blob") (b "blob") any_dc None).
    + split; [reflexivity|split; [reflexivity|split; reflexivity]].
    + reflexivity.
    + split; [left; reflexivity|]. split; [cbn; intuition discriminate|]. split; [discriminate|]. split; discriminate.
    + reflexivity.
    + split; [reflexivity|]. split; [reflexivity|]. intros e He. cbn in He. intuition discriminate.
    + apply dc_no_zip, mix_header_ok.
  - exists (b ".dc"). split; [right; split; [reflexivity|]; intros t E; discriminate E|apply told_as_is, (named_dc [])].
Qed.
(** Damage that is not noticed: a DC file in an archive whose checksum says that it was changed. *)
Theorem C140_dc_refuted : exists c a out written,
  input_ends no_decoders hurt_inflate (fun i => i) (hurt_world c) InputModel.Auto (Path (b "dc.zip")) KDc many_dc (Some InvalidData) /\
  a_inputs a = Some [b "dc.zip"] /\ a_formats a = None /\ a_end a = None /\ a_output a = Some out /\
  (* hurt_run c: the program in the world hurt_world c *)
  run_ok (hurt_run c a) written /\ dc_read (DcSpec.file written) = Ok (mix_header, (many, Ok tt)).
Proof.
  assert (X : exists c, (c < 4294967296)%N /\ c <> crc32 many_dc).
  { generalize (crc32 many_dc). intro k. destruct (N.eq_dec 0 k) as [<-|H]; [exists 1%N|exists 0%N]; split; auto; try discriminate; reflexivity. }
  destruct X as (c & C & N). destruct (C136_dc_demo c C N) as (written & R & D).
  exists c, (mix_args [b "dc.zip"] (Some (b "o.dc"))), (b "o.dc"), written.
  split; [|split; [reflexivity|]; split; [reflexivity|]; split; [reflexivity|]; split; [reflexivity|]; split; [exact R|exact D]].
  apply (ends_file _ _ _ _ _ (b "dc.zip") (b "m.dc") many_dc (Some InvalidData)); [|left; exists (b "m.dc"); split; [reflexivity|apply told_as_is, (named_dc (b "m"))]].
  eapply (held_member _ _ _ (b "dc.zip") (b "m.dc") many_dc (Some InvalidData)) with (a := hurt_dc c).
  - split; [reflexivity|split; [reflexivity|split; reflexivity]].
  - reflexivity.
  - split; [reflexivity|]. split; [reflexivity|exact pack_smooth].
  - reflexivity.
  - exact (hurt_dc_fits c C).
  - exact (hurt_dc_unambiguous c).
  - left. reflexivity.
  - repeat split; auto.
  - reflexivity.
  - discriminate.
  - apply member_changed; [|exact N]. right. left. split; [reflexivity|]. intros i _. split; [reflexivity|]. split; [reflexivity|]. intros e [].
Qed.
Print Assumptions C140_dc_refuted.

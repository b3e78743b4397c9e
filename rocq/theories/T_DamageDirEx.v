(** Concrete cases of C138. *)
From Verif Require Import T_Directory DcLayout.
From Verif Require Import WholeCsvSpec T_WholeCsv T_Damage T_DamageZip T_DamageDir T_PackEx T_WholeCsvEx T_DamageZipEx.
Local Open Scope nat_scope.

(** Three directories: whole files, a gzip file cut short among others, a DC file that ends in the middle of a timestamp. *)
Definition dirs_open (p : bytes) : res handle :=
  let f bs := {| f_reads := reads_as [Chunk 2; Chunk 7] bs; f_seekable := true |} in
  if bytes_eqb p (b "good/a.csv") then Ok (f mix_text)
  else if bytes_eqb p (b "good/b.dc") then Ok (f (dc_file mix_header (map EvRow mix_b)))
  else if bytes_eqb p (b "bad/a.dc") then Ok (f (dc_file mix_header (map EvRow mix_b)))
  else if bytes_eqb p (b "bad/m.csv.gz") then Ok (f (b "G" ++ mix_text))
  else if bytes_eqb p (b "cut/a.dc") then Ok (f (dc_file mix_header (map EvRow mix_b) ++ b "1234567"))
  else Err (EIo (OtherIo 2)).
Definition dirs_world : world :=
  {| w_exists := fun p => is_ok (dirs_open p); w_is_dir := fun p => bytes_eqb p (b "good") || bytes_eqb p (b "bad") || bytes_eqb p (b "cut") || bytes_eqb p (b "bad/sub");
     w_read_dir := fun p => if bytes_eqb p (b "good") then Ok [b "good/b.dc"; b "good/a.csv"]
                            else if bytes_eqb p (b "bad") then Ok [b "bad/m.csv.gz"; b "bad/sub"; b "bad/a.dc"]
                            else if bytes_eqb p (b "cut") then Ok [b "cut/a.dc"] else Err (EIo (OtherIo 2));
     w_open := dirs_open; w_http := fun _ => Err (EIo (OtherIo 2)); w_stdin := reads_as [] []; w_env_tz := None |}.
Definition dirs_run (a : args) : outcome :=
  chopper_cli Debug counting (fun s => s) (fun _ => false) csv_records cut_decoders (fun i => i) (fun i => i)
    (fun _ => []) (fun _ => []) None None None demo_known demo_create 9 dirs_world a.
Lemma dirs_args_ok p out : exists o, parse_args Debug counting None demo_known dirs_world (mix_args [p] out) = Ok o.
Proof. destruct (mix_args_ok None p [] out) as (o & E & _). exists o. exact E. Qed.
Example C138_good : o_result (dirs_run (mix_args [b "good"] None)) = Ok tt.
Proof. vm_compute. reflexivity. Qed.
Example C138_whole_demo : exists o h rows,
  create_source_from_input cut_decoders (fun i => i) (fun i => i) dirs_world None
    (all_factories Debug counting (fun s => s) (fun _ => false) csv_records None (op_csv_in counting o))
    {| in_type := Path (b "good/a.csv"); in_format := InputModel.Auto |} = Ok (h, map Ok rows).
Proof.
  destruct (dirs_args_ok (b "good") None) as (o & Ea). exists o.
  eapply (C138_whole Debug counting (fun s => s) (fun _ => false) cut_decoders (fun i => i) (fun i => i) (fun _ => []) (fun _ => []) None demo_known demo_create 9)
    with (dir := b "good") (a := mix_args [b "good"] None);
    [|exact Ea|reflexivity|reflexivity|reflexivity|now left|reflexivity|reflexivity|right; left; reflexivity|reflexivity].
  vm_compute. reflexivity.
Qed.
Lemma cut_in_dir : read_input cut_decoders (fun i => i) (fun i => i) dirs_world (b "bad/m.csv.gz") (b ".csv") mix_text (Some UnexpectedEof).
Proof.
  apply (read_packed _ _ _ _ _ _ _ _ GZ (b "G" ++ mix_text) None).
  - left. split; [|intros [t E]; discriminate E].
    exists {| f_reads := reads_as [Chunk 2; Chunk 7] (b "G" ++ mix_text); f_seekable := true |}, (b "m").
    split; [split; [reflexivity|split; [reflexivity|split; reflexivity]]|]. split; [reflexivity|].
    split.
    { split; [right; exists (b "bad"); reflexivity|]. split; [cbn; intuition discriminate|]. split; [discriminate|]. split; discriminate. }
    split; [reflexivity|]. split; [reflexivity|]. split; [reflexivity|exact pack_smooth].
  - intros p out (i & (D & T & Sm) & E) Do. inversion Do; subst; clear Do. eexists. split; [reflexivity|].
    unfold gives. cbn [i_data i_tail i_plan]. rewrite (preview_stream _ _ E), D, T. split; [reflexivity|]. split; [reflexivity|]. intros e [H|[]]. discriminate H.
Qed.
Example C138_csv_demo out : exit_code (dirs_run (mix_args [b "bad"] out)) <> 0%N.
Proof.
  destruct (dirs_args_ok (b "bad") out) as (o & Ea).
  eapply C138_csv with (paths := [b "bad"]) (dir := b "bad") (p := b "bad/m.csv.gz");
    [exact Ea|reflexivity|reflexivity|reflexivity|now left|reflexivity|reflexivity|now left|reflexivity|exact cut_in_dir].
Qed.
Lemma C138_cut_file : ending_file dirs_world (b "cut/a.dc") (b ".dc") (dc_file mix_header (map EvRow mix_b) ++ b "1234567") None /\
  ~ looks_like_zip (dc_file mix_header (map EvRow mix_b) ++ b "1234567").
Proof.
  split; [|intros [t E]; vm_compute in E; discriminate E].
  exists {| f_reads := reads_as [Chunk 2; Chunk 7] (dc_file mix_header (map EvRow mix_b) ++ b "1234567"); f_seekable := true |}, (b "a").
  split; [split; [reflexivity|split; [reflexivity|split; reflexivity]]|]. split; [reflexivity|].
  split.
  { split; [right; exists (b "cut"); reflexivity|]. split; [cbn; intuition discriminate|]. split; [discriminate|]. split; discriminate. }
  split; [reflexivity|]. split; [reflexivity|]. split; [reflexivity|exact pack_smooth].
Qed.
(** The DC file that ends in the middle of a timestamp: success, and its whole rows. *)
Theorem C138_dc_refuted : exists w a written,
  w_is_dir w (b "cut") = true /\ w_read_dir w (b "cut") = Ok [b "cut/a.dc"] /\ a_inputs a = Some [b "cut"] /\ a_end a = None /\
  ending_file w (b "cut/a.dc") (b ".dc") (dc_file mix_header (map EvRow mix_b) ++ b "1234567") None /\
  run_ok (chopper_cli Debug counting (fun s => s) (fun _ => false) csv_records cut_decoders (fun i => i) (fun i => i)
    (fun _ => []) (fun _ => []) None None None demo_known demo_create 9 w a) written /\
  written = b "timestampNanos,time,sym" ++ nl ++ b "15;x;D" ++ nl ++ b "20;y;E" ++ nl.
Proof.
  exists dirs_world, (mix_args [b "cut"] None), (b "timestampNanos,time,sym" ++ nl ++ b "15;x;D" ++ nl ++ b "20;y;E" ++ nl).
  split; [reflexivity|]. split; [reflexivity|]. split; [reflexivity|]. split; [reflexivity|]. split; [|split; [|reflexivity]].
  - exact (proj1 C138_cut_file).
  - vm_compute. reflexivity.
Qed.
Example C138_dc_demo : exists names types rows core rest,
  dc_file mix_header (map EvRow mix_b) ++ b "1234567" = core ++ rest /\ dc_layout names types rows core /\ length rest < 8.
Proof.
  destruct (dirs_args_ok (b "cut") None) as (o & Ea).
  eapply (C138_dc_partial Debug counting (fun s => s) (fun _ => false) cut_decoders (fun i => i) (fun i => i) (fun _ => []) (fun _ => []) None demo_known demo_create 9)
    with (dir := b "cut") (p := b "cut/a.dc") (a := mix_args [b "cut"] None) (tail := None);
    [|exact Ea|reflexivity|reflexivity|reflexivity|now left|reflexivity|reflexivity|now left|reflexivity| |vm_compute; reflexivity].
  - vm_compute. reflexivity.
  - destruct C138_cut_file as [H Nz]. apply read_bare. left. auto.
Qed.
Print Assumptions C138_dc_refuted.

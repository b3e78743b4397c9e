(** A concrete directory for C128. *)
From Verif Require Export T_Laws2 T_LawsEx.
From Verif Require Import T_Directory.
Local Open Scope nat_scope.
Definition d_first : list row := [law_row 90 (b "P") 1; law_row 105 (b "P") 2].
Definition d_second : list row := [law_row 105 (b "Q") 3; law_row 120 (b "Q") 5].
Definition d_open (p : bytes) : res handle :=
  let f rows := Ok {| f_reads := reads_as [Chunk 3] (dc_file demo_header (map EvRow rows)); f_seekable := true |} in
  if bytes_eqb p (b "d/1.dc") then f d_first else if bytes_eqb p (b "d/2.dc") then f d_second else Err (EIo (OtherIo 2)).
Definition d_world : world :=
  {| w_exists := fun p => is_ok (d_open p) || bytes_eqb p (b "d"); w_is_dir := fun p => bytes_eqb p (b "d") || bytes_eqb p (b "d/sub");
     w_read_dir := fun p => if bytes_eqb p (b "d") then Ok [b "d/2.dc"; b "d/sub"; b "d/1.dc"] else Err (EIo (OtherIo 2));
     w_open := d_open; w_http := fun _ => Err (EIo (OtherIo 2)); w_stdin := reads_as [] []; w_env_tz := None |}.
Definition d_run (a : args) : outcome :=
  chopper_cli Debug counting (fun s => s) (fun _ => false) csv_records no_decoders (fun i => i) (fun i => i)
    (fun _ => []) (fun _ => []) None None None demo_known demo_create 9 d_world a.
Lemma d_fits rows : In rows [d_first; d_second] -> Forall (row_fits demo_header) rows.
Proof. intros [<-|[<-|[]]]; repeat (apply Forall_cons; [apply demo_row_fits; [reflexivity|split; reflexivity|lia]|]); constructor. Qed.
Lemma d_gives a path rows : In (path, rows) [(b "d/1.dc", d_first); (b "d/2.dc", d_second)] ->
  file_gives (ch := counting) (fun s => s) (fun _ => false) no_decoders (fun i => i) (fun i => i) d_world a None demo_header InputModel.Auto path rows.
Proof.
  intro H.
  assert (Pl : plain_file d_world path (b ".dc") (dc_file demo_header (map EvRow rows)) /\ w_is_dir d_world path = false /\ In rows [d_first; d_second]).
  { destruct H as [E|[E|[]]]; injection E as <- <-.
    - split; [|split; [reflexivity|now left]]. exists {| f_reads := reads_as [Chunk 3] (dc_file demo_header (map EvRow d_first)); f_seekable := true |}, (b "1").
      split; [repeat split|]. split; [reflexivity|]. split; [split; [right; now exists (b "d")|]; split; [cbn; intuition discriminate|]; split; [discriminate|]; split; discriminate|].
      split; [reflexivity|]. split; [reflexivity|]. split; [reflexivity|exact law_smooth].
    - split; [|split; [reflexivity|right; now left]]. exists {| f_reads := reads_as [Chunk 3] (dc_file demo_header (map EvRow d_second)); f_seekable := true |}, (b "2").
      split; [repeat split|]. split; [reflexivity|]. split; [split; [right; now exists (b "d")|]; split; [cbn; intuition discriminate|]; split; [discriminate|]; split; discriminate|].
      split; [reflexivity|]. split; [reflexivity|]. split; [reflexivity|exact law_smooth]. }
  destruct Pl as (Pl & Nd & Hin).
  assert (G : input_gives (ch := counting) (fun s => s) (fun _ => false) no_decoders (fun i => i) (fun i => i) d_world a None demo_header InputModel.Auto (Path path) rows).
  { apply (dc_given counting (fun s => s) (fun _ => false) no_decoders (fun i => i) (fun i => i) (fun _ => []) (fun _ => []) d_world a None csv_output_default);
      [exact demo_header_ok|now apply d_fits|].
    pose proof (bytes_of (fun _ => []) (fun _ => []) KDc csv_output_default None demo_header (map EvRow rows)) as Y.
    replace (ev_rows (map EvRow rows)) with rows in Y by (clear; induction rows; cbn; congruence). rewrite <- Y. exact Pl. }
  inversion G as [p rs Fg| |p entries files rowss Hd]; subst; [exact Fg|congruence].
Qed.
Example C128_output : let o := d_run (asked law_args [b "d"] None None None) in
  o = d_run (asked law_args [b "d/2.dc"; b "d/1.dc"] None None None) /\ o_result o = Ok tt /\ o_written o <> o_written (d_run (asked law_args [b "d/1.dc"; b "d/2.dc"] None None None)).
Proof. vm_compute. repeat split. discriminate. Qed.
Example C128_demo : exists result,
  run_ok (d_run (asked law_args [b "d"] None None None)) result /\
  run_ok (d_run (asked law_args [b "d/2.dc"; b "d/1.dc"] (Some (b "o.csv")) None None)) result.
Proof.
  destruct (C128_directory Debug counting (fun s => s) (fun _ => false) no_decoders (fun i => i) (fun i => i) (fun _ => []) (fun _ => []) None demo_known demo_create
    KCsv 9 d_world law_args None Nanos demo_header (b "d") [b "d/2.dc"; b "d/sub"; b "d/1.dc"] [b "d/1.dc"; b "d/2.dc"] [d_first; d_second] None (Some (b "o.csv")) None None
    (law_opts {| tr_begin := None; tr_end := None |} [b "d"])) as (result & A & B & _).
  - lia.
  - left. auto.
  - constructor.
  - reflexivity.
  - apply Forall_cons; [split; [now left|discriminate]|]. apply Forall_cons; [split; [right; now exists (b "o.")|reflexivity]|constructor].
  - split; [discriminate|]. discriminate.
  - reflexivity.
  - reflexivity.
  - split.
    + vm_compute. apply perm_swap.
    + constructor; [constructor; constructor|]. constructor; [|constructor]. vm_compute. discriminate.
  - intros x y [<-|[<-|[]]] [<-|[<-|[]]] P Q; try reflexivity; exfalso; vm_compute in P, Q; tauto.
  - vm_compute. reflexivity.
  - constructor; [split; [apply d_gives; now left|]|constructor; [split; [apply d_gives; right; now left|]|constructor]];
      eexists; (split; [left; reflexivity|reflexivity]).
  - discriminate.
  - repeat constructor; unfold ts_le; apply N.leb_le; reflexivity.
  - exists result. split; [exact A|exact B].
Qed.

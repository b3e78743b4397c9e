(** Model of the programs in examples/: filter_and_merge.rs, compressed.rs, split.rs.  The file names they contain
    are parameters here; so are the columns and values of the two filters. *)
From Verif Require Export ProgramModel RouteSpec SharedModel.

Section Examples.
Context (prof : profile) (ch : chrono) (lower : bytes -> bytes) (parse_f64_ok : text -> bool).
Variable split : byte -> stream -> list (res (list bytes)).
Variables (ds : decoders) (inflate bunzip : inner -> inner) (show_f64 show_f32 : N -> bytes).

(* src/input/input_factory.rs:98-103 create_source_from_path, for each of the inputs
   (examples/filter_and_merge.rs:36-40, split.rs:29-33, compressed.rs:39-43) *)
Definition open_paths (w : world) (sfs : list (factory (header * source))) (paths : list bytes) : res (list (header * source)) :=
  open_inputs ds inflate bunzip w None sfs (map (fun p => {| in_type := Path p; in_format := InputModel.Auto |}) paths).
(* src/input/input_factory.rs:32-37 new_without_csv(None, None) *)
Definition dc_only : list (factory (header * source)) := all_source_factories None None dc_create.

(* examples/filter_and_merge.rs:21-70 setup_graph and drive.  The output gets the header of the inputs: the
   filters leave it as it is.  If Driver::new fails nothing has been written.  (If a filter ends the process, up to
   8 KiB of output still in the buffer are lost; the output recorded here does not show that.) *)
Definition filter_and_merge (F : nat) (w : world) (input_1 input_2 column_int : bytes) (value_1 : fvalue)
  (column_double : bytes) (value_2 : fvalue) : outcome :=
  match open_paths w dc_only [input_1; input_2] with
  | Ok inputs =>
      let graph := fan_in [[row_filter_greater column_int value_1]; [row_filter_equal column_double value_2]] []
                     (csv_header_sink show_f64 show_f32 csv_output_default) in
      match driver_new (length inputs) graph (map fst inputs), output_header inputs with
      | Ok g, Some h =>
          let (st, r) := drive F g (map snd inputs) range_all in
          {| o_written := Some (csv_file show_f64 show_f32 csv_output_default h (events_at (r_log st) 2 1)); o_result := r |}
      | Ok _, None => {| o_written := Some []; o_result := Panic |}     (* the headers differ: not reached, MergeJoin has failed *)
      | e, _ => {| o_written := Some []; o_result := fail_as e |}
      end
  | e => {| o_written := None; o_result := fail_as e |}
  end.

(* examples/compressed.rs:22-55 setup_graph and drive: the time in column 0, everything else guessed, no zone *)
Definition compressed_example (F : nat) (w : world) (input : bytes) : outcome :=
  match csv_input_new ch None CsvModel.Auto (CfgIndex 0) FmtAuto None with
  | Ok cfg =>
      match open_paths w (all_factories prof ch lower parse_f64_ok split None cfg) [input] with
      | Ok inputs =>
          let (st, r) := chop F inputs (csv_header_sink show_f64 show_f32 csv_output_default) range_all in
          {| o_written := Some (match output_header inputs with
                                | Some h => csv_file show_f64 show_f32 csv_output_default h (events_at (r_log st) (out_chain 1) (out_node 1))
                                | None => []
                                end);
             o_result := r |}
      | e => {| o_written := None; o_result := fail_as e |}
      end
  | e => {| o_written := None; o_result := fail_as e |}
  end.

(* examples/split.rs:17-58 setup_test_graph and drive: two default outputs (new_header_sink(None, None)), both on
   standard output; [cap] is the capacity of a BufWriter *)
Definition split_example (cap F : nat) (w : world) (input : bytes) : outcome :=
  match open_paths w dc_only [input] with
  | Ok inputs =>
      let outs := [([], csv_output_default); ([], csv_output_default)] in
      let graph := fan_out [] (map (fun o => (fst o, csv_header_sink show_f64 show_f32 (snd o))) outs) in
      match driver_new (length inputs) graph (map fst inputs), output_header inputs with
      | Ok g, Some h =>
          let (st, r) := drive F g (map snd inputs) range_all in
          {| o_written := Some (shared_stdout cap 2 (split_ops show_f64 show_f32 outs [h; h] (r_log st))); o_result := r |}
      | Ok _, None => {| o_written := Some []; o_result := Panic |}
      | e, _ => {| o_written := Some []; o_result := fail_as e |}
      end
  | e => {| o_written := None; o_result := fail_as e |}
  end.
End Examples.

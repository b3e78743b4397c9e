(** Concrete cases for C112. *)
From Verif Require Import T_Infi T_WholeCsvEx T_StreamChop StreamSpec.
Local Open Scope nat_scope.

Definition infi3 : bytes := b "0,a0,b0,c0,d0,e0,f0" ++ nl ++ b "1,a1,b1,c1,d1,e1,f1" ++ nl ++ b "2,a2,b2,c2,d2,e2,f2" ++ nl.
Example C112_body : infi_body Debug 3 = Ok infi3 /\ infi_body Release 3 = Ok infi3.
Proof. split; vm_compute; reflexivity. Qed.
Definition infi_open (p : bytes) : res handle :=
  if bytes_eqb p (b "i.csv")
  then Ok {| f_reads := {| i_data := infi3; i_tail := None; i_plan := [Chunk 3; Chunk 1] |}; f_seekable := true |}
  else Err (EIo (OtherIo 2)).
Definition infi_world : world :=
  {| w_exists := fun p => is_ok (infi_open p); w_is_dir := fun _ => false; w_read_dir := fun _ => Err (EIo (OtherIo 2));
     w_open := infi_open; w_http := fun _ => Err (EIo (OtherIo 2)); w_stdin := reads_as [] []; w_env_tz := None |}.
Definition infi_args (epoch : option bytes) : args :=
  {| a_inputs := Some [b "i.csv"]; a_formats := None; a_output := None; a_timezone := None; a_begin := None; a_end := None;
     a_in_delimiter := None; a_in_has_header := b "auto"; a_in_col := None; a_in_col_date := None; a_in_col_time := None;
     a_in_fmt := None; a_in_fmt_date := None; a_in_fmt_time := None; a_in_epoch := epoch; a_out_delimiter := b ",";
     a_out_print_time := b "yes"; a_out_time_name := None; a_out_epoch := true; a_out_units := Some (b "ms") |}.
Definition infi_run (epoch : option bytes) : outcome :=
  chopper_cli Debug T_Csv.nochrono (fun s => s) (fun _ => false) csv_records no_decoders (fun i => i) (fun i => i)
    (fun _ => []) (fun _ => []) None None None (fun _ => None) demo_create 9 infi_world (infi_args epoch).
(** With the unit given the rows come out; without it nothing does. *)
Example C112_output : infi_run (Some (b "s")) =
  {| o_written := Some (b "timestampMillis,col_0,col_1,col_2,col_3,col_4,col_5,col_6" ++ nl
       ++ b "0,0,a0,b0,c0,d0,e0,f0" ++ nl ++ b "1000,1,a1,b1,c1,d1,e1,f1" ++ nl ++ b "2000,2,a2,b2,c2,d2,e2,f2" ++ nl);
     o_result := Ok tt |}.
Proof. vm_compute. reflexivity. Qed.
Example C112_no_output : o_result (infi_run None) = cannot_parse.
Proof. vm_compute. reflexivity. Qed.
(** The hypotheses. *)
Example C112_case : infi_options (infi_args (Some (b "s"))) Seconds /\ letters_no_float (fun _ => false) /\
  (N.of_nat 2 * nanos_per Seconds < 2 ^ 64)%N /\ plain_file infi_world (b "i.csv") (b ".csv") infi3 /\
  is_ok (parse_args Debug T_Csv.nochrono None (fun _ => None) infi_world (infi_args (Some (b "s")))) = true /\
  is_ok (csv_input_options (infi_args (Some (b "s"))) (@None (zone T_Csv.nochrono))) = true.
Proof.
  split.
  { split; [reflexivity|]. split; [reflexivity|]. split; [reflexivity|]. split; [reflexivity|]. split; [reflexivity|]. split; [reflexivity|].
    exists (b "s"). split; [reflexivity|constructor]. }
  split; [intros c n _; reflexivity|]. split; [reflexivity|]. split; [|split; vm_compute; reflexivity].
  exists {| f_reads := {| i_data := infi3; i_tail := None; i_plan := [Chunk 3; Chunk 1] |}; f_seekable := true |}, (b "i").
  split; [split; [reflexivity|split; [reflexivity|split; reflexivity]]|]. split; [reflexivity|]. split.
  { split; [left; reflexivity|]. split; [cbn; intuition discriminate|]. split; [discriminate|]. split; discriminate. }
  split; [reflexivity|]. split; [reflexivity|]. split; [reflexivity|]. intros e He. cbn in He. intuition discriminate.
Qed.
(** A stream that breaks off in its fourth row: the first row (at least) is handed to the output; here all are, and
    the broken one with the values of the row before (C109). *)
Example C112_breaks : exists p src,
  previewer_new {| i_data := infi3 ++ b "3,a"; i_tail := None; i_plan := [Chunk 3; Chunk 50] |} = Ok p /\
  match csv_input_options (infi_args (Some (b "ns"))) (@None (zone T_Csv.nochrono)) with
  | Ok cfg => csv_create Debug T_Csv.nochrono (fun s => s) (fun _ => false) csv_records cfg p = Ok (infi_header, src)
  | _ => False
  end /\
  rows_at (r_log (fst (chop 3 [(infi_header, src)] (fun h => Ok (h, keeper)) range_all))) 0 0 =
    infi_rows Nanos 3 ++ [{| ts := 3%N; vals := map VString (map b ["3"; "a"; "b2"; "c2"; "d2"; "e2"; "f2"]%string) |}].
Proof. eexists _, _. split; [vm_compute; reflexivity|]. split; vm_compute; reflexivity. Qed.

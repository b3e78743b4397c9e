(** Concrete runs for C130: x.csv and y.zip from the web and from the disk. *)
From Verif Require Export T_Http T_PackEx.
Local Open Scope nat_scope.

Definition web (u : bytes) : response :=
  let answer st bs := {| rs_status := st; rs_body := reads_as [Chunk 2; Chunk 7] bs; rs_text := Ok bs |} in
  if bytes_eqb u (b "http://h/x.csv") then answer 200%N demo_csv
  else if bytes_eqb u (b "http://h/y.zip") then answer 200%N (archive_bytes packed_zip)
  else answer 404%N (b "time,sym").
Definition web_run (inputs : list bytes) : outcome :=
  chopper_cli Debug counting (fun s => s) (fun _ => false) csv_records toy (fun i => i) (fun i => i)
    (fun _ => []) (fun _ => []) None None None demo_known demo_create 9 (online pack_world web) (with_inputs pack_args inputs).

Lemma web_url t : url (b "http://h/" ++ t).
Proof. exists (b "http:"). split; [now left|]. right. now exists (b "/h/" ++ t). Qed.
Example C130_demo : web_run [b "http://h/x.csv"; b "in/y.zip"] = web_run [b "x.csv"; b "in/y.zip"].
Proof.
  apply C130_like_the_file_partial. constructor; [right|constructor; [now left|constructor]].
  exists {| f_reads := reads_as [Chunk 2; Chunk 7] demo_csv; f_seekable := true |}, (b "x.csv").
  split; [split; [apply (web_url (b "x.csv"))|repeat split; discriminate]|].
  split; [repeat split|]. split; [reflexivity|]. split; [intros [t E]; discriminate E|].
  split; [split; [right; now exists (b "http://h")|split; [cbn; intuition discriminate|repeat split; discriminate]]|].
  split; [split; [now left|split; [cbn; intuition discriminate|repeat split; discriminate]]|reflexivity].
Qed.
Example C130_output : web_run [b "http://h/x.csv"] =
  {| o_written := Some (b "timestampNanos,time,sym" ++ nl ++ b "10,10,A" ++ nl ++ b "20,20,B" ++ nl); o_result := Ok tt |}.
Proof. vm_compute. reflexivity. Qed.
(** A missing page is an error, although it holds a header line. *)
Example C130_missing : not_served pack_world web (b "http://h/z.csv") /\ o_written (web_run [b "http://h/z.csv"]) = None /\ exit_code (web_run [b "http://h/z.csv"]) = 1%N.
Proof.
  split; [|vm_compute; split; reflexivity]. split; [apply (web_url (b "z.csv"))|]. repeat split. change (rs_status (web (b "http://h/z.csv"))) with 404%N. lia.
Qed.
(** The archive is read from the disk, but not from the web. *)
Example C130_zip : served pack_world web (b "http://h/y.zip") (reads_as [Chunk 2; Chunk 7] (archive_bytes packed_zip)) /\
  exit_code (web_run [b "in/y.zip"]) = 0%N /\ o_written (web_run [b "http://h/y.zip"]) = None /\ exit_code (web_run [b "http://h/y.zip"]) = 1%N.
Proof.
  split; [|vm_compute; repeat split; reflexivity].
  split; [apply (web_url (b "y.zip"))|]. split; [reflexivity|]. split; [reflexivity|]. split; [reflexivity|]. split; [split; discriminate|reflexivity].
Qed.

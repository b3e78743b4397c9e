(** What a file looks like to a program that only ever reads its beginning. *)
From Verif Require Export InPlaceModel LawsSpec.

Definition cut_to (n : nat) (i : inner) : inner := {| i_data := firstn n (i_data i); i_tail := i_tail i; i_plan := i_plan i |}.
(** The same machine, but the file at [path] ends after [n] bytes. *)
Definition ends_after (n : nat) (path : bytes) (w : world) : world :=
  {| w_exists := w_exists w; w_is_dir := w_is_dir w; w_read_dir := w_read_dir w;
     w_open := fun p => if bytes_eqb p path
                        then match w_open w p with
                             | Ok f => Ok {| f_reads := cut_to n (f_reads f); f_seekable := f_seekable f |}
                             | e => e
                             end
                        else w_open w p;
     w_http := w_http w; w_stdin := w_stdin w; w_env_tz := w_env_tz w |}.
(** A file in a local directory that can be chopped in place: a CSV or DC file that is not a zip archive. *)
Definition choppable (w : world) (path : bytes) (data : bytes) : Prop :=
  (exists k, output_is k (Some path)) /\
  exists f name, local_file w path f /\ f_seekable f = true /\ named path name /\ utf8 name = true /\
    i_data (f_reads f) = data /\ i_tail (f_reads f) = None /\ ~ looks_like_zip data.

(** What it means that interruptions do not matter (C132). *)
From Verif Require Export InterruptModel ReaderSpec WriterSpec.

(** The same reader or writer, whose calls are never interrupted. *)
Definition calm_reads (p : list step) : list step :=
  filter (fun s => match s with Fail e => negb (is_interrupted (EIo e)) | Chunk _ => true end) p.
Definition calm (i : inner) : inner := {| i_data := i_data i; i_tail := i_tail i; i_plan := calm_reads (i_plan i) |}.
Definition calm_reader (r : breader) : breader :=
  {| r_inner := calm (r_inner r); r_buf := r_buf r; r_pos := r_pos r; r_cap := r_cap r |}.
Definition calm_writes (p : list wstep) : list wstep :=
  filter (fun s => match s with Refuse e => negb (is_interrupted (EIo e)) | Accept _ => true end) p.
Definition calm_outer (o : outer) : outer := {| o_got := o_got o; o_plan := calm_writes (o_plan o); o_end := o_end o |}.
Definition calm_writer (w : bwriter) : bwriter := {| bw_buf := bw_buf w; bw_out := calm_outer (bw_out w) |}.
(** Interrupted now and then, but not for ever. *)
Definition patient (t : option ioerr) : Prop := t <> Some Interrupted.

(** read_exact calls in a row, until the first failure. *)
Fixpoint retry_exacts (ns : list nat) (r : breader) : list (res bytes) :=
  match ns with
  | [] => []
  | n :: ns' => let (x, r') := retry_exact n r in
                x :: (if is_ok x then retry_exacts ns' r' else [])
  end.

(** Concrete runs for C80 and C10 over outputs that fail or take their time. *)
From Verif Require Import T_Writer T_WholeEx.

(** A small buffer and three calls of write_all per row (for whatever it writes). *)
Definition demo_cut (_ : option row) (bs : bytes) : list bytes := [firstn 1 bs; firstn 5 (skipn 1 bs); skipn 6 bs].
Lemma demo_cuts : cuts demo_cut.
Proof. intros what bs. unfold demo_cut. cbn [concat]. rewrite app_nil_r. destruct bs as [|c t]; [reflexivity|].
  exact (f_equal (cons c) (firstn_skipn 5 t)). Qed.
Definition demo_io (o : outer) (a : args) : outcome :=
  chopper_cli_io Debug counting (fun x => x) (fun _ => false) csv_records no_decoders (fun i => i) (fun i => i)
    (fun _ => []) (fun _ => []) None None None demo_known demo_create 16 o demo_cut 9 (demo_world []) a.
Definition to_stdout : args := demo_args [b "a.dc"; b "d/b.dc"] None.
(** Slow: it takes 3, 1 and 2 bytes, then all. *)
Definition slow : outer := {| o_got := []; o_plan := [Accept 3; Accept 1; Accept 2]; o_end := None |}.
(** Full after two calls: every later one is refused. *)
Definition full : outer := {| o_got := []; o_plan := [Accept 9; Accept 14]; o_end := Some (OtherIo 28) |}.
(** Refuses once (the second call), then recovers. *)
Definition hiccup : outer := {| o_got := []; o_plan := [Accept 9; Refuse (OtherIo 5)]; o_end := None |}.

Example C80_slow : willing slow /\ demo_io slow to_stdout = demo [] to_stdout /\ o_result (demo [] to_stdout) = Ok tt.
Proof.
  split; [split; [reflexivity|]; constructor; [exists 2; reflexivity|]; constructor; [exists 0; reflexivity|]; constructor; [exists 1; reflexivity|constructor]|].
  vm_compute. split; reflexivity.
Qed.
Example C80_full : exists written, o_written (demo_io full to_stdout) = Some written /\
  o_result (demo_io full to_stdout) = Err (EIo (OtherIo 28)) /\ length written = 20 /\
  exists rest, o_written (demo [] to_stdout) = Some (written ++ rest) /\ length rest <> 0.
Proof. vm_compute. eexists. split; [reflexivity|]. split; [reflexivity|]. split; [reflexivity|]. eexists. split; [reflexivity|discriminate]. Qed.
(** The bytes still buffered are offered once more when the writer is dropped, but the run has failed. *)
Example C80_hiccup : exists written, o_written (demo_io hiccup to_stdout) = Some written /\
  o_result (demo_io hiccup to_stdout) = Err (EIo (OtherIo 5)) /\
  exists rest, o_written (demo [] to_stdout) = Some (written ++ rest) /\ length rest <> 0.
Proof. vm_compute. eexists. split; [reflexivity|]. split; [reflexivity|]. eexists. split; [reflexivity|discriminate]. Qed.

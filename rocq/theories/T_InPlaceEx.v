(** Concrete runs for C127: a small file chopped in place, and one of a little more than 8 KiB that loses a row. *)
From Verif Require Export T_InPlace T_LawsEx.
From Verif Require Import WriterSpec.
Local Open Scope nat_scope.

Definition ip_args : args := law_args.
Local Notation ip_run w a :=
  (chopper_cli Debug counting (fun s => s) (fun _ => false) csv_records no_decoders (fun i => i) (fun i => i)
    (fun _ => []) (fun _ => []) None None None demo_known (fun _ => Ok tt) 9 w a) (only parsing).
Definition ip_cut (r : option row) (bs : bytes) : list bytes := map (fun c => [c]) bs.
Local Notation ip_in_place w a path :=
  (chop_in_place Debug counting (fun s => s) (fun _ => false) csv_records no_decoders
    (fun _ => []) (fun _ => []) None demo_known (fun _ => Ok tt) ip_cut 9 w a InputModel.Auto path) (only parsing).
Definition ip_line (t v : bytes) : bytes := t ++ b "," ++ v ++ nl.
Definition ip_file (long : nat) : bytes :=
  b "time,v" ++ nl ++ ip_line (b "1599999999000000000") (repeat "a"%char long) ++
  ip_line (b "1600000000000000000") (repeat "b"%char 43) ++ ip_line (b "1600000001000000000") (b "last").
Definition ip_world (long : nat) : world := law_world [(b "x.csv", ip_file long)].
Definition ip_head : bytes := b "timestampNanos,time,v" ++ nl.
Definition ip_kept : bytes := ip_line (b "1600000000000000000") (b "1600000000000000000," ++ repeat "b"%char 43).
Definition ip_lost : bytes := ip_line (b "1600000001000000000") (b "1600000001000000000,last").
Local Notation ip_asked out := (asked ip_args [b "x.csv"] (Some out) (Some mid_text) None) (only parsing).

Lemma ip_cuts : cuts ip_cut.
Proof. intros what bs. unfold ip_cut. induction bs as [|c bs IH]; [reflexivity|]. cbn. now rewrite IH. Qed.
Lemma ip_choppable long : choppable (ip_world long) (b "x.csv") (ip_file long).
Proof.
  split; [exists KCsv; right; now exists (b "x.")|].
  exists {| f_reads := reads_as [Chunk 3] (ip_file long); f_seekable := true |}, (b "x.csv").
  split; [|split; [reflexivity|split]].
  - split; [reflexivity|]. split; [reflexivity|]. split; reflexivity.
  - split; [left; reflexivity|]. split; [cbn; intuition discriminate|]. split; [discriminate|]. split; discriminate.
  - split; [reflexivity|]. split; [reflexivity|]. split; [reflexivity|]. intros [t E]. discriminate E.
Qed.
Lemma ip_named p : output_is KCsv (Some (p ++ b "csv")).
Proof. right. eauto. Qed.

(** The small file: all hypotheses of C127_small_partial, and the result. *)
Example C127_small_demo : run_ok (ip_in_place (ip_world 10) (ip_asked (b "x.csv")) (b "x.csv")) (ip_head ++ ip_kept ++ ip_lost).
Proof.
  apply (C127_small_partial Debug counting (fun s => s) (fun _ => false) csv_records no_decoders (fun i => i) (fun i => i) (fun _ => []) (fun _ => [])
    None demo_known (fun _ => Ok tt) ip_cut 9 (ip_world 10) ip_args KCsv (b "x.csv") (b "y.csv") (Some mid_text) None (ip_file 10)).
  - exact ip_cuts.
  - apply ip_choppable.
  - exact (ip_named (b "x.")).
  - exact (ip_named (b "y.")).
  - reflexivity.
  - apply Nat.leb_le. vm_compute. reflexivity.
  - unfold run_ok. vm_compute. reflexivity.
  - apply Nat.ltb_lt. vm_compute. reflexivity.
Qed.

(** The larger one, a DC file: into another file both rows of the range are written, in place only the first, and both
    runs report success. *)
Definition ip_long : bytes := concat (repeat (repeat "a"%char 160) 50).
Definition ip_kept_rows : list row := [law_row 90 (ip_long ++ repeat "a"%char 95) 1; law_row 105 (b "B") 2].
Definition ip_lost_rows : list row := [law_row 120 (b "C") 3].
Definition ip_data : bytes := dc_file demo_header (map EvRow (ip_kept_rows ++ ip_lost_rows)).
Definition ip_range : ts_range := {| tr_begin := Some law_time; tr_end := None |}.
Local Notation ip_big := (law_world [(b "x.dc", ip_data)]).
Lemma ip_args_ok w out : w_env_tz w = None ->
  parse_args Debug counting None demo_known w (asked law_args [b "x.dc"] out (Some mid_text) None) = Ok (law_opts ip_range [b "x.dc"]).
Proof.
  intro Hw. unfold parse_args. rewrite Hw. change (resolve_timezone _ _ _ _) with (@Ok (option (zone counting)) None). cbn [bind].
  change (a_begin (asked law_args [b "x.dc"] out (Some mid_text) None)) with (Some mid_text).
  change (a_end (asked law_args [b "x.dc"] out (Some mid_text) None)) with (@None bytes).
  unfold zone_in, option_map. rewrite law_range_from. reflexivity.
Qed.
Lemma ip_long_string : dc_string (ip_long ++ repeat "a"%char 95).
Proof. split; vm_compute; reflexivity. Qed.
Lemma ip_fit : Forall (row_fits demo_header) (ip_kept_rows ++ ip_lost_rows).
Proof.
  apply Forall_cons; [apply demo_row_fits; [reflexivity|exact ip_long_string|lia]|].
  apply Forall_cons; [apply demo_row_fits; [reflexivity|split; reflexivity|lia]|].
  apply Forall_cons; [apply demo_row_fits; [reflexivity|split; reflexivity|lia]|constructor].
Qed.
Lemma ip_plain : plain_file ip_big (b "x.dc") (b ".dc") ip_data.
Proof.
  exists {| f_reads := reads_as [Chunk 3] ip_data; f_seekable := true |}, (b "x").
  split; [split; [reflexivity|split; [reflexivity|split; reflexivity]]|]. split; [reflexivity|].
  split; [split; [left; reflexivity|]; split; [cbn; intuition discriminate|]; split; [discriminate|]; split; discriminate|].
  split; [reflexivity|]. split; [reflexivity|]. split; [reflexivity|exact law_smooth].
Qed.
Lemma ip_ordered : time_ordered (ip_kept_rows ++ ip_lost_rows).
Proof. repeat constructor; unfold ts_le; cbn [ts law_row demo_row ip_kept_rows]; apply N.leb_le; reflexivity. Qed.
Lemma ip_size : length (dc_file demo_header (map EvRow ip_kept_rows)) = 8 * 1024.
Proof. vm_compute. reflexivity. Qed.
Lemma ip_filter_kept : filter (StreamSpec.in_range ip_range) ip_kept_rows = [law_row 105 (b "B") 2].
Proof. reflexivity. Qed.
Lemma ip_filter_all : filter (StreamSpec.in_range ip_range) (ip_kept_rows ++ ip_lost_rows) = [law_row 105 (b "B") 2; law_row 120 (b "C") 3].
Proof. reflexivity. Qed.
Example C127_lost :
  run_ok (chopper_cli Debug counting (fun s => s) (fun _ => false) csv_records no_decoders (fun i => i) (fun i => i)
    (fun _ => []) (fun _ => []) None None None demo_known (fun _ => Ok tt) 9 ip_big (asked law_args [b "x.dc"] (Some (b "y.dc")) (Some mid_text) None))
    (dc_file demo_header (map EvRow [law_row 105 (b "B") 2; law_row 120 (b "C") 3])) /\
  run_ok (chop_in_place Debug counting (fun s => s) (fun _ => false) csv_records no_decoders
    (fun _ => []) (fun _ => []) None demo_known (fun _ => Ok tt) ip_cut 9 ip_big (asked law_args [b "x.dc"] (Some (b "x.dc")) (Some mid_text) None) InputModel.Auto (b "x.dc"))
    (dc_file demo_header (map EvRow [law_row 105 (b "B") 2])).
Proof.
  pose proof (C127_rows_lost Debug counting (fun s => s) (fun _ => false) no_decoders (fun i => i) (fun i => i) (fun _ => []) (fun _ => [])
    None demo_known (fun _ => Ok tt) ip_cut 9 ip_big law_args None Nanos demo_header ip_kept_rows ip_lost_rows (b "x.dc") (b "y.dc") (Some mid_text) None
    (law_opts ip_range [b "x.dc"])) as X.
  change (op_range counting (law_opts ip_range [b "x.dc"])) with ip_range in X. rewrite ip_filter_kept, ip_filter_all in X. apply X; clear X.
  - lia.
  - exact ip_cuts.
  - left. auto.
  - constructor.
  - now apply ip_args_ok.
  - now exists (b "x.").
  - now exists (b "y.").
  - reflexivity.
  - reflexivity.
  - exact demo_header_ok.
  - exact ip_fit.
  - exact ip_ordered.
  - exists (law_row 105 (b "B") 2). split; [right; left; reflexivity|reflexivity].
  - exact ip_plain.
  - exact ip_size.
  - apply Nat.ltb_lt. vm_compute. reflexivity.
Qed.
(** C127 without a bound on the size of the file is false. *)
Theorem C127_any_size_refuted : ~ (forall F w a k path other s e data out,
  3 <= F -> choppable w path data -> output_is k (Some path) -> output_is k (Some other) ->
  run_ok (chopper_cli Debug counting (fun s => s) (fun _ => false) csv_records no_decoders (fun i => i) (fun i => i)
    (fun _ => []) (fun _ => []) None None None demo_known (fun _ => Ok tt) F w (asked a [path] (Some other) s e)) out ->
  length out < 8 * 1024 ->
  forall written, run_ok (chop_in_place Debug counting (fun s => s) (fun _ => false) csv_records no_decoders
    (fun _ => []) (fun _ => []) None demo_known (fun _ => Ok tt) ip_cut F w (asked a [path] (Some path) s e) InputModel.Auto path) written ->
  written = out).
Proof.
  intro H. destruct C127_lost as [A B].
  assert (Ch : choppable ip_big (b "x.dc") ip_data).
  { split; [exists KDc; now exists (b "x.")|]. destruct ip_plain as (f & core & L & Sk & Nm & U & D & T & _).
    exists f, (core ++ b ".dc"). do 6 (split; [assumption|]). apply dc_not_zip, demo_header_ok. }
  assert (Ox : output_is KDc (Some (b "x.dc"))) by now exists (b "x.").
  assert (Oy : output_is KDc (Some (b "y.dc"))) by now exists (b "y.").
  specialize (H 9 ip_big law_args KDc (b "x.dc") (b "y.dc") (Some mid_text) None ip_data _ ltac:(lia) Ch Ox Oy A).
  assert (L : length (dc_file demo_header (map EvRow [law_row 105 (b "B") 2; law_row 120 (b "C") 3])) < 8 * 1024) by (apply Nat.ltb_lt; vm_compute; reflexivity).
  specialize (H L _ B). apply (f_equal (@length _)) in H. vm_compute in H. discriminate H.
Qed.
Print Assumptions C127_only_the_beginning.
Print Assumptions C127_small_partial.
Print Assumptions C127_rows_lost.
Print Assumptions C127_any_size_refuted.

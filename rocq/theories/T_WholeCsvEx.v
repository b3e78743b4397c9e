(** Concrete invocations for C103-C105: a CSV file with quotes and white space and a DC file with
    the same columns meet their hypotheses, and what the program writes for them. *)
From Verif Require Export WholeCsvSpec T_WholeCsv T_Damage T_WholeEx.
From Verif Require Import Utf8Spec.
Local Open Scope nat_scope.

Definition mix_header : header := {| h_names := [b "time"; b "sym"]; h_types := [TString; TString] |}.
Definition mix_row (t : N) (x y : bytes) : row := {| ts := t; vals := [VString x; VString y] |}.
Definition quoted (s : bytes) : bytes := [quote] ++ s ++ [quote].
Definition mix_text : bytes :=
  b "time," ++ quoted (b "sym") ++ nl ++ b " 10 ,A" ++ [byte_of 13] ++ nl ++ nl ++ b "20," ++ quoted (b "B,C").
Definition mix_a : list row := [mix_row 10 (b "10") (b "A"); mix_row 20 (b "20") (b "B,C")].
Definition mix_b : list row := [mix_row 15 (b "x") (b "D"); mix_row 20 (b "y") (b "E")].
Definition mix_open (tail : option ioerr) (p : bytes) : res handle :=
  let f bs t := {| f_reads := {| i_data := bs; i_tail := t; i_plan := [Chunk 3; Chunk 1] |}; f_seekable := true |} in
  if bytes_eqb p (b "m.csv") then Ok (f mix_text tail)
  else if bytes_eqb p (b "m.dc") then Ok (f (dc_file mix_header (map EvRow mix_b)) None)
  else if bytes_eqb p (b "cut.dc") then Ok (f (dc_file mix_header (map EvRow mix_b) ++ b "1234567") None)
  else if bytes_eqb p (b "bad.dc") then Ok (f (dc_file mix_header (map EvRow mix_b) ++ b "12345678") None)
  else Err (EIo (OtherIo 2)).
Definition mix_world (tail : option ioerr) : world :=
  {| w_exists := fun p => is_ok (mix_open tail p); w_is_dir := fun _ => false; w_read_dir := fun _ => Err (EIo (OtherIo 2));
     w_open := mix_open tail; w_http := fun _ => Err (EIo (OtherIo 2)); w_stdin := reads_as [] []; w_env_tz := None |}.
Definition mix_args (inputs : list bytes) (out : option bytes) : args :=
  {| a_inputs := Some inputs; a_formats := None; a_output := out; a_timezone := None; a_begin := None; a_end := None;
     a_in_delimiter := None; a_in_has_header := b "auto"; a_in_col := None; a_in_col_date := None; a_in_col_time := None;
     a_in_fmt := None; a_in_fmt_date := None; a_in_fmt_time := None; a_in_epoch := Some (b "ns"); a_out_delimiter := b ";";
     a_out_print_time := b "yes"; a_out_time_name := None; a_out_epoch := true; a_out_units := Some (b "ns") |}.
Definition mix (tail : option ioerr) (a : args) : outcome :=
  chopper_cli Debug counting (fun s => s) (fun _ => false) csv_records no_decoders (fun i => i) (fun i => i)
    (fun _ => []) (fun _ => []) None None None demo_known demo_create 9 (mix_world tail) a.

(** What the program writes. *)
Example C104_mix_output :
  mix None (mix_args [b "m.csv"; b "m.dc"] None) =
  {| o_written := Some (b "timestampNanos,time,sym" ++ nl ++ b "10;10;A" ++ nl ++ b "15;x;D" ++ nl ++ b "20;y;E" ++ nl ++ b "20;20;B,C" ++ nl);
     o_result := Ok tt |}.
Proof. vm_compute. reflexivity. Qed.
Example C105_mix_output :
  rows_of (mix None (mix_args [b "m.dc"; b "m.csv"] (Some (b "o.dc")))) =
  Some [mix_row 10 (b "10") (b "A"); mix_row 15 (b "x") (b "D"); mix_row 20 (b "20") (b "B,C"); mix_row 20 (b "y") (b "E")].
Proof. vm_compute. reflexivity. Qed.

(** ** The hypotheses *)
Lemma mix_lines : first_lines mix_text (Some [b "time," ++ quoted (b "sym"); b " 10 ,A"; []; b "20," ++ quoted (b "B,C")]).
Proof.
  assert (E : firstn (8 * 1024) mix_text = mix_text) by (apply firstn_all2; cbv; lia). unfold first_lines. rewrite E.
  exists ([b "time," ++ quoted (b "sym"); b " 10 ,A" ++ [byte_of 13]; []] ++ [b "20," ++ quoted (b "B,C")]). split.
  - exists [b "time," ++ quoted (b "sym"); b " 10 ,A" ++ [byte_of 13]; []], (b "20," ++ quoted (b "B,C")).
    split; [reflexivity|]. split; [|reflexivity].
    cbn [app]. repeat (constructor; [vm_compute; intuition discriminate|]). constructor.
  - constructor; [|constructor; [|constructor; [|constructor; [|constructor]]]]; (split; [|apply utf8_well_formed; reflexivity]).
    all: try (right; split; [reflexivity|]; intros x Ex; apply (f_equal (@rev ascii)) in Ex; rewrite (rev_app_distr x) in Ex; vm_compute in Ex; discriminate Ex).
    left. reflexivity.
Qed.
Lemma mix_records : csv_text (byte_of 44) [[b "time"; b "sym"]; [b " 10 "; b "A"]; [b "20"; b "B,C"]] mix_text.
Proof.
  assert (P : forall f, (forall c, In c f -> c <> byte_of 44 /\ c <> quote /\ c <> byte_of 10 /\ c <> byte_of 13) -> cell_text (byte_of 44) f f).
  { intros f H. constructor; intro I; apply H in I; intuition. }
  assert (Q : forall f, (forall c, In c f -> c <> quote) -> cell_text (byte_of 44) f (quoted f)).
  { intros f H. constructor. induction f as [|c f IH]; constructor; [apply H; now left|]. apply IH. intros x Hx. apply H. now right. }
  apply (text_line _ _ (b "time," ++ quoted (b "sym")) nl); [| now left |].
  { exists [b "time"; quoted (b "sym")]. split; [discriminate|]. split; [|split; [reflexivity|discriminate]].
    constructor; [|constructor; [|constructor]]; [apply P|apply Q]; intros c Hc; vm_compute in Hc; intuition (subst; discriminate). }
  apply (text_line _ _ (b " 10 ,A") ([byte_of 13] ++ nl)); [| now (right; right) |].
  { exists [b " 10 "; b "A"]. split; [discriminate|]. split; [|split; [reflexivity|discriminate]].
    constructor; [|constructor; [|constructor]]; apply P; intros c Hc; vm_compute in Hc; intuition (subst; discriminate). }
  apply (text_empty _ nl); [now left|]. apply text_last.
  exists [b "20"; quoted (b "B,C")]. split; [discriminate|]. split; [|split; [reflexivity|discriminate]].
  constructor; [|constructor; [|constructor]]; [apply P|apply Q]; intros c Hc; vm_compute in Hc; intuition (subst; discriminate).
Qed.
Lemma trimmed_same s : Forall scalar (chars s) -> s = str (chars s) -> stripped (chars s) (chars s) -> trimmed s s.
Proof. intros A B C. exists (chars s), (chars s). auto. Qed.
Lemma mix_content_of a :
  a_in_delimiter a = None -> a_in_has_header a = b "auto" -> a_in_col a = None -> a_in_col_date a = None -> a_in_fmt a = None ->
  a_in_fmt_date a = None -> a_in_epoch a = Some (b "ns") ->
  csv_content (fun s => s) (fun _ => false) a (@None (zone counting)) mix_text mix_header mix_a.
Proof.
  intros A1 A2 A3 A4 A5 A6 A7.
  exists (Some [b "time," ++ quoted (b "sym"); b " 10 ,A"; []; b "20," ++ quoted (b "B,C")]), (byte_of 44), true, mix_text,
    [[b "time"; b "sym"]; [b " 10 "; b "A"]; [b "20"; b "B,C"]], [[b "time"; b "sym"]; [b "10"; b "A"]; [b "20"; b "B,C"]],
    [b "time"; b "sym"], [b "10"; b "A"], [[b "20"; b "B,C"]], [b "10"; b "20"], [10%N; 20%N], (ColIndex 0), None, (FUnits Nanos).
  split; [exact mix_lines|]. split; [unfold input_delimiter; rewrite A1; reflexivity|]. do 3 (split; [discriminate|]).
  split. { right. right. split; [rewrite A2; reflexivity|]. vm_compute. reflexivity. }
  split; [now left|]. split; [intros x; discriminate|]. split; [exact mix_records|].
  assert (T : forall s, Forall scalar (chars s) -> s = str (chars s) -> 
     (forall c t, chars s = c :: t -> white_space c = false) -> (forall c t, chars s = t ++ [c] -> white_space c = false) -> trimmed s s).
  { intros s A B C D. apply trimmed_same; auto. exists [], []. rewrite app_nil_r. cbn. auto. }
  assert (T2 : forall s, forallb (fun c => (c <? 128)%N && negb (white_space c)) (chars s) = true -> s = str (chars s) -> trimmed s s).
  { intros s A B. rewrite forallb_forall in A. apply T; [|exact B| |].
    - apply Forall_forall. intros c Hc. specialize (A c Hc). apply andb_prop in A as [A _]. apply N.ltb_lt in A. unfold scalar. lia.
    - intros c t E. specialize (A c). rewrite E in A. specialize (A (or_introl eq_refl)). apply andb_prop in A as [_ A]. now destruct (white_space c).
    - intros c t E. specialize (A c). rewrite E in A. specialize (A ltac:(apply in_or_app; right; now left)). apply andb_prop in A as [_ A]. now destruct (white_space c). }
  split.
  { repeat (constructor; [constructor; [|constructor; [|constructor]]|]); [| | | | | |constructor].
    3:{ exists [32; 49; 48; 32]%N, [49; 48]%N. split; [repeat constructor; unfold scalar; lia|]. split; [reflexivity|]. split; [|reflexivity].
        exists [32%N], [32%N]. split; [reflexivity|]. split; [constructor; [reflexivity|constructor]|]. split; [constructor; [reflexivity|constructor]|].
        split; intros c t E; [injection E as <- _; reflexivity|]. apply (f_equal (@rev N)) in E. rewrite rev_app_distr in E. injection E as <- _. reflexivity. }
    all: apply T2; vm_compute; reflexivity. }
  split; [reflexivity|]. split; [constructor; [reflexivity|constructor]|]. split; [reflexivity|]. split; [reflexivity|].
  split. { apply no_column; [assumption..|reflexivity]. }
  split. { intros x _. apply (epoch_units _ _ _ _ _ (b "ns")); [assumption..|constructor]. }
  split. { constructor; [constructor; reflexivity|constructor; [constructor; reflexivity|constructor]]. }
  split; [|reflexivity].
  constructor; [|constructor; [|constructor]]; (eexists; split; [|split; [|]]);
    [apply (numeral_more [49%N] 1 48); [apply (numeral_one 49); unfold digit; lia|unfold digit; lia]|reflexivity|reflexivity
    |apply (numeral_more [50%N] 2 48); [apply (numeral_one 50); unfold digit; lia|unfold digit; lia]|reflexivity|reflexivity].
Qed.
Lemma mix_content ins out : csv_content (fun s => s) (fun _ => false) (mix_args ins out) (@None (zone counting)) mix_text mix_header mix_a.
Proof. apply mix_content_of; reflexivity. Qed.

Lemma mix_csv_input tail ins out : tail = None ->
  input_file counting (fun s => s) (fun _ => false) (mix_world tail) (mix_args ins out) None (b "m.csv") mix_header mix_a.
Proof.
  intros ->. left. exists mix_text. split; [|split; [intros [t E]; discriminate E|apply mix_content]].
  exists {| f_reads := {| i_data := mix_text; i_tail := None; i_plan := [Chunk 3; Chunk 1] |}; f_seekable := true |}, (b "m").
  split; [split; [reflexivity|split; [reflexivity|split; reflexivity]]|]. split; [reflexivity|]. split.
  { split; [left; reflexivity|]. split; [cbn; intuition discriminate|]. split; [discriminate|]. split; discriminate. }
  split; [reflexivity|]. split; [reflexivity|]. split; [reflexivity|]. intros e He. cbn in He. intuition discriminate.
Qed.
Lemma mix_header_ok : dc_header_ok mix_header.
Proof.
  split; [|split; [cbn; lia|split; [cbn; lia|]]].
  - split; [reflexivity|]. split; [|split; [|reflexivity]].
    + constructor; [split; discriminate|]. constructor; [split; discriminate|constructor].
    + constructor; [split; reflexivity|]. constructor; [split; reflexivity|constructor].
  - constructor; [discriminate|]. constructor; [discriminate|constructor].
Qed.
Lemma mix_fits : Forall (row_fits mix_header) mix_a /\ Forall (row_fits mix_header) mix_b.
Proof.
  assert (H : forall t x y, (t < 2 ^ 64)%N -> dc_string x -> dc_string y -> row_fits mix_header (mix_row t x y)).
  { intros t x y A B C. split; [exact A|]. constructor; [exact B|]. constructor; [exact C|constructor]. }
  split; (constructor; [|constructor; [|constructor]]); apply H; (reflexivity || (split; reflexivity)).
Qed.
Lemma mix_dc_input tail ins out :
  input_file counting (fun s => s) (fun _ => false) (mix_world tail) (mix_args ins out) None (b "m.dc") mix_header mix_b.
Proof.
  right. split; [|split; [exact mix_header_ok|exact (proj2 mix_fits)]].
  exists {| f_reads := {| i_data := dc_file mix_header (map EvRow mix_b); i_tail := None; i_plan := [Chunk 3; Chunk 1] |}; f_seekable := true |}, (b "m"), (map EvRow mix_b).
  split; [split; [reflexivity|split; [reflexivity|split; reflexivity]]|]. split; [reflexivity|]. split.
  { split; [left; reflexivity|]. split; [cbn; intuition discriminate|]. split; [discriminate|]. split; discriminate. }
  split; [reflexivity|]. split; [reflexivity|]. split; [reflexivity|]. split; [|reflexivity]. intros e He. cbn in He. intuition discriminate.
Qed.
Lemma mix_args_ok tail p ins out : exists o, parse_args Debug counting None demo_known (mix_world tail) (mix_args (p :: ins) out) = Ok o /\ op_range _ o = range_all.
Proof.
  unfold parse_args. cbn [mix_args a_timezone w_env_tz mix_world resolve_timezone bind a_begin a_end a_formats a_inputs].
  cbn [timestamp_range bind]. destruct (C55_defaults (p :: ins) ltac:(discriminate)) as [E _]. rewrite E. cbn [bind].
  unfold csv_input_options, csv_output_options. cbn [mix_args a_in_has_header a_out_print_time a_out_units].
  change (parse_yes_no_auto (b "auto")) with (Ok CsvModel.Auto). change (bytes_eqb (b "yes") (b "yes")) with true.
  change (units_from_str (b "ns")) with (Ok Nanos).
  cbn [bind fmt_option col_option mix_args a_in_fmt_date a_in_fmt a_in_epoch a_in_col_date a_in_col csv_input_new a_in_delimiter].
  eexists. split; reflexivity.
Qed.
Lemma mix_ordered : Forall time_ordered [mix_a; mix_b].
Proof.
  constructor; [|constructor; [|constructor]]; unfold time_ordered, mix_a, mix_b; cbn; repeat (constructor; try (unfold ts_le; cbn; lia)).
Qed.

Example C104_mix : exists header rows lines,
  run_ok (mix None (mix_args [b "m.csv"; b "m.dc"] (Some (b "o.csv")))) (header ++ nl ++ concat (map (fun l => l ++ nl) lines)) /\
  header = b "timestampNanos,time,sym" /\ Permutation rows (mix_a ++ mix_b) /\ time_ordered rows /\ length lines = 4.
Proof.
  destruct (mix_args_ok None (b "m.csv") [b "m.dc"] (Some (b "o.csv"))) as (o & Ea & Er).
  destruct (C104_to_csv Debug counting (fun s => s) (fun _ => false) no_decoders (fun i => i) (fun i => i)
    (fun _ => []) (fun _ => []) None demo_known demo_create 9 (mix_world None) (mix_args [b "m.csv"; b "m.dc"] (Some (b "o.csv")))
    o None Nanos [b "m.csv"; b "m.dc"] mix_header [mix_a; mix_b]) as (hd & rows & lines & R & Hh & Hl & P & O & _);
    [lia|reflexivity|discriminate|reflexivity|right; exists (b "o."); reflexivity|exact Ea|left; auto|constructor
    |reflexivity|discriminate|discriminate| |].
  - rewrite Er. constructor; [|constructor; [|constructor]]; (split; [|discriminate]); [now apply mix_csv_input|apply mix_dc_input].
  - exists hd, rows, lines. rewrite Er in P, O. split; [exact R|].
    split. { destruct Hh as [[E _]|[_ ->]]; [discriminate E|reflexivity]. }
    split; [exact P|]. split; [exact (proj1 (O mix_ordered))|].
    rewrite <- (Forall2_len _ _ _ Hl), (Permutation_length P). reflexivity.
Qed.
Example C105_mix : exists written rows,
  run_ok (mix None (mix_args [b "m.csv"; b "m.dc"] (Some (b "o.dc")))) written /\
  dc_read (DcSpec.file written) = Ok (mix_header, (rows, Ok tt)) /\ Permutation rows (mix_a ++ mix_b) /\ time_ordered rows.
Proof.
  destruct (mix_args_ok None (b "m.csv") [b "m.dc"] (Some (b "o.dc"))) as (o & Ea & Er).
  destruct (C105_to_dc Debug counting (fun s => s) (fun _ => false) no_decoders (fun i => i) (fun i => i)
    (fun _ => []) (fun _ => []) None demo_known demo_create 9 (mix_world None) (mix_args [b "m.csv"; b "m.dc"] (Some (b "o.dc")))
    o None [b "m.csv"; b "m.dc"] (b "o.") mix_header [mix_a; mix_b]) as (wr & rows & R & D & P & O & _);
    [lia|reflexivity|discriminate|reflexivity|reflexivity|exact Ea|left; auto|reflexivity|exact mix_header_ok| |].
  - rewrite Er. constructor; [|constructor; [|constructor]]; (split; [|split; [|discriminate]]);
      [now apply mix_csv_input|exact (proj1 mix_fits)|apply mix_dc_input|exact (proj2 mix_fits)].
  - exists wr, rows. rewrite Er in P, O. split; [exact R|]. split; [exact D|]. split; [exact P|exact (proj1 (O mix_ordered))].
Qed.

(** ** C103 *)
Lemma cut_file : ending_file (mix_world None) (b "cut.dc") (b ".dc") (dc_file mix_header (map EvRow mix_b) ++ b "1234567") None.
Proof.
  exists {| f_reads := {| i_data := dc_file mix_header (map EvRow mix_b) ++ b "1234567"; i_tail := None; i_plan := [Chunk 3; Chunk 1] |}; f_seekable := true |}, (b "cut").
  split; [split; [reflexivity|split; [reflexivity|split; reflexivity]]|]. split; [reflexivity|]. split.
  { split; [left; reflexivity|]. split; [cbn; intuition discriminate|]. split; [discriminate|]. split; discriminate. }
  split; [reflexivity|]. split; [reflexivity|]. split; [reflexivity|]. intros e He. cbn in He. intuition discriminate.
Qed.
(** A file cut inside a timestamp: exit code 0, and the two whole rows. *)
Example C103_cut : exists written, run_ok (mix None (mix_args [b "cut.dc"] (Some (b "o.dc")))) written /\
  dc_read (DcSpec.file written) = Ok (mix_header, (mix_b, Ok tt)).
Proof.
  destruct (mix_args_ok None (b "cut.dc") [] (Some (b "o.dc"))) as (o & Ea & _).
  eapply (C103_dc_damage_refuted Debug counting) with (out := b "o.") (rows := mix_b) (evs := map EvRow mix_b);
    [lia|reflexivity|reflexivity|reflexivity|reflexivity|reflexivity|exact Ea|reflexivity|exact mix_header_ok
    |exact (proj2 mix_fits)|discriminate|reflexivity| |left; exact cut_file|now left].
  cbn; lia.
Qed.
(** A whole timestamp is enough for an error; a read error in a CSV file is one. *)
Example C103_noticed :
  exit_code (mix None (mix_args [b "bad.dc"] (Some (b "o.dc")))) = 1%N /\
  exit_code (mix (Some (OtherIo 5)) (mix_args [b "m.csv"] None)) = 1%N /\
  exit_code (mix None (mix_args [b "m.csv"; b "m.dc"; b "cut.dc"] None)) = 0%N.
Proof. vm_compute. auto. Qed.

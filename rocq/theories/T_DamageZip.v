(** C136, C137: damaged zip archives and compressed files are noticed, mostly. *)
From Verif Require Import WholeCsvSpec T_Whole T_Whole2 T_WholeCsv T_CliCsv T_Zip T_Damage T_Pack T_PackEx T_WholeCsvEx.
From Verif Require Import ReaderProofs T_Reader.
Local Open Scope nat_scope.

Lemma early_error i e : i_tail i = Some e -> length (i_data i) < 8 * 1024 -> forall p, previewer_new i <> Ok p.
Proof.
  intros T L p E. pose proof (previewer_spec _ i buf_nonzero) as S.
  change (previewer_with DEFAULT_BUF_SIZE i) with (previewer_new i) in S. rewrite E in S.
  destruct S as (_ & _ & S & _). rewrite T in S. specialize (S L). discriminate.
Qed.

Section Zip.
Context (prof : profile) (ch : chrono) (lower : bytes -> bytes) (f64_ok : text -> bool).
Variables (ds : decoders) (inflate bunzip : inner -> inner) (f64 f32 : N -> bytes).
Variables (zones : option (bytes -> option (zone ch))) (parse_zone : bytes -> option (zone ch)).
Variable create : bytes -> res unit.
Local Notation cli := (chopper_cli prof ch lower f64_ok csv_records ds inflate bunzip f64 f32 None None zones parse_zone create).
Local Notation args_of := (parse_args prof ch zones parse_zone).

(** A CSV input of any size that cannot be read to its end: without --end, the program does not report success. *)
Theorem C137_csv : forall F w a opts paths path data e,
  args_of w a = Ok opts -> a_inputs a = Some paths -> a_formats a = None -> a_end a = None -> In path paths ->
  read_input ds inflate bunzip w path (b ".csv") data (Some e) ->
  exit_code (cli F w a) <> 0%N.
Proof.
  intros F w a opts paths path data e Ea Ain Af Ae Hin Hm H.
  destruct (exit_0_read prof ch lower f64_ok ds inflate bunzip f64 f32 zones parse_zone create F w a opts paths path H Ea Ain Af Hin) as (h & src & O & R).
  destruct (read_opened prof ch lower f64_ok ds inflate bunzip w (op_csv_in ch opts) path (b ".csv") data (Some e) _ (or_introl eq_refl) Hm O)
    as (i & Di & Ti & Sm & E). clear O. rename E into O.
  destruct (previewer_new i) as [p| | | |] eqn:Ep; try discriminate. cbn [bind] in O.
  change (bytes_eqb (b ".csv") (b ".csv")) with true in O. cbv iota in O. unfold csv_create in O.
  rewrite (preview_stream _ _ Ep), Di, Ti in O.
  destruct (csv_new _ _ _ _ _ _ (get_lines p) _) as [s| | | |] eqn:Es; try discriminate. cbn [bind] in O. injection O as <- <-.
  assert (NE : forall t, before_end (op_range ch opts) t = true).
  { clear - Ea Ae. unfold parse_args in Ea. destruct (resolve_timezone _ _ _ _); try discriminate. cbn [bind] in Ea.
    unfold timestamp_range in Ea. rewrite Ae in Ea. destruct (a_begin a).
    - destruct (parse_range_element _ _ _ _); try discriminate. cbn [bind] in Ea.
      destruct (cli_inputs _ _); try discriminate. cbn [bind] in Ea. destruct (csv_input_options a _); try discriminate. cbn [bind] in Ea.
      destruct (csv_output_options a _); try discriminate. injection Ea as <-. reflexivity.
    - cbn [bind] in Ea. destruct (cli_inputs _ _); try discriminate. cbn [bind] in Ea. destruct (csv_input_options a _); try discriminate. cbn [bind] in Ea.
      destruct (csv_output_options a _); try discriminate. injection Ea as <-. reflexivity. }
  destruct (readable_cases _ _ R) as [(r & _ & B)|A]; [rewrite NE in B; discriminate|].
  destruct (C49_csv_partial _ _ _ _ _ _ _ _ _ Es) as (rows & o & Eo & Bo). rewrite Eo in A.
  assert (X : is_ok o = true) by (apply A, in_or_app; right; now left). congruence.
Qed.
(** An input below 8 KiB, CSV or DC: with --end too. *)
Theorem C137_small : forall F w a opts paths path ext data e,
  args_of w a = Ok opts -> a_inputs a = Some paths -> a_formats a = None -> In path paths ->
  ext = b ".csv" \/ ext = b ".dc" -> read_input ds inflate bunzip w path ext data (Some e) -> length data < 8 * 1024 ->
  exit_code (cli F w a) <> 0%N.
Proof.
  intros F w a opts paths path ext data e Ea Ain Af Hin Hx Hm L H.
  destruct (exit_0_read prof ch lower f64_ok ds inflate bunzip f64 f32 zones parse_zone create F w a opts paths path H Ea Ain Af Hin) as (h & src & O & _).
  destruct (read_opened prof ch lower f64_ok ds inflate bunzip w (op_csv_in ch opts) path ext data (Some e) _ Hx Hm O)
    as (i & Di & Ti & Sm & E). clear O. rename E into O.
  rewrite <- Di in L. pose proof (early_error i e Ti L) as X.
  destruct (previewer_new i) as [p| | | |]; try discriminate. exact (X p eq_refl).
Qed.
(** A CSV member of any size: without --end, the program does not report success. *)
Theorem C136_csv : forall F w a opts paths path data e,
  args_of w a = Ok opts -> a_inputs a = Some paths -> a_formats a = None -> a_end a = None -> In path paths ->
  ending_member inflate bunzip w path (b ".csv") data (Some e) ->
  exit_code (cli F w a) <> 0%N.
Proof.
  intros F w a opts paths path data e Ea Ain Af Ae Hin Hm. apply (C137_csv F w a opts paths path data e); auto.
  apply read_bare. right. exact Hm.
Qed.
(** A member below 8 KiB, CSV or DC: with --end too. *)
Theorem C136_small : forall F w a opts paths path ext data e,
  args_of w a = Ok opts -> a_inputs a = Some paths -> a_formats a = None -> In path paths ->
  ext = b ".csv" \/ ext = b ".dc" -> ending_member inflate bunzip w path ext data (Some e) -> length data < 8 * 1024 ->
  exit_code (cli F w a) <> 0%N.
Proof.
  intros F w a opts paths path ext data e Ea Ain Af Hin Hx Hm L. apply (C137_small F w a opts paths path ext data e); auto.
  apply read_bare. right. exact Hm.
Qed.
(** A DC member of 8 KiB or more whose data are not those the archive's checksum is of: the program reports success,
    and writes the changed rows. *)
Theorem C136_dc_refuted : forall F w a opts path out h rows evs,
  3 <= F -> a_inputs a = Some [path] -> a_formats a = None -> a_output a = Some (out ++ b "dc") ->
  a_begin a = None -> a_end a = None -> args_of w a = Ok opts -> create (out ++ b "dc") = Ok tt ->
  dc_header_ok h -> Forall (row_fits h) rows -> rows <> [] -> ev_rows evs = rows ->
  ending_member inflate bunzip w path (b ".dc") (dc_file h evs) (Some InvalidData) -> 8 * 1024 <= length (dc_file h evs) ->
  exists written, run_ok (cli F w a) written /\ dc_read (DcSpec.file written) = Ok (h, (rows, Ok tt)).
Proof.
  intros F w a opts path out h rows evs HF Ain Af Ao Ab Ae Ea Ec Hok Hr Hne Ev Hm L.
  assert (Ez : dc_file h evs ++ [] = dc_file h evs) by apply app_nil_r.
  apply (C103_dc_damage_refuted prof ch lower f64_ok ds inflate bunzip f64 f32 zones parse_zone create F w a opts path out h rows evs [] (Some InvalidData));
    try assumption; rewrite ?Ez.
  - cbn. lia.
  - right. left. exact Hm.
  - right. exact L.
Qed.
(** A compressed DC file that the decoder gives up on at the start of a row, after 8 KiB or more: success, and only the rows before it. *)
Theorem C137_dc_refuted : forall F w a opts path out h rows evs junk f c e,
  3 <= F -> a_inputs a = Some [path] -> a_formats a = None -> a_output a = Some (out ++ b "dc") ->
  a_begin a = None -> a_end a = None -> args_of w a = Ok opts -> create (out ++ b "dc") = Ok tt ->
  dc_header_ok h -> Forall (row_fits h) rows -> rows <> [] -> ev_rows evs = rows -> length junk < 8 ->
  ending_file w path (b ".dc" ++ ext_of f) c None -> ~ looks_like_zip c ->
  decodes_to ds f c None (dc_file h evs ++ junk) (Some e) -> 8 * 1024 <= length (dc_file h evs ++ junk) ->
  exists written, run_ok (cli F w a) written /\ dc_read (DcSpec.file written) = Ok (h, (rows, Ok tt)).
Proof.
  intros F w a opts path out h rows evs junk f c e HF Ain Af Ao Ab Ae Ea Ec Hok Hr Hne Ev Hj Hf Nz Hd L.
  apply (C103_dc_damage_refuted prof ch lower f64_ok ds inflate bunzip f64 f32 zones parse_zone create F w a opts path out h rows evs junk (Some e));
    try assumption.
  - right. right. exists f, c. split; [left; auto|exact Hd].
  - right. exact L.
Qed.
End Zip.
Print Assumptions C136_csv.
Print Assumptions C136_small.
Print Assumptions C136_dc_refuted.
Print Assumptions C137_csv.
Print Assumptions C137_small.
Print Assumptions C137_dc_refuted.

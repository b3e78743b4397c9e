(** C131: saying what would be guessed changes nothing. *)
From Verif Require Export GuessSpec ChronoModel.
From Verif Require Import T_Whole T_Whole2 T_CliCsv T_WholeCsv T_WholeAny T_Program T_Time T_Input T_CsvTime T_Options2.
Local Open Scope nat_scope.

Section Guess.
Context (prof : profile) (ch : chrono) (lower : bytes -> bytes) (f64_ok : text -> bool).
Variables (ds : decoders) (inflate bunzip : inner -> inner) (f64 f32 : N -> bytes).
Variables (zones : option (bytes -> option (zone ch))) (parse_zone : bytes -> option (zone ch)).
Variable create : bytes -> res unit.
Local Notation cli := (chopper_cli prof ch lower f64_ok csv_records ds inflate bunzip f64 f32 None None zones parse_zone create).
Local Notation args_of := (parse_args prof ch zones parse_zone).
Local Notation facs cfg := (all_factories prof ch lower f64_ok csv_records None cfg).
Local Notation opened w cfg i := (create_source_from_input ds inflate bunzip w None (facs cfg) i).

(** ** Runs are equal when the same sources are opened *)
Lemma open_same w c c' l l' : Forall2 (fun i i' => opened w c i = opened w c' i') l l' ->
  open_inputs ds inflate bunzip w None (facs c) l = open_inputs ds inflate bunzip w None (facs c') l'.
Proof. induction 1 as [|i i' l l' E H IH]; [reflexivity|]. cbn [open_inputs]. rewrite E, IH. reflexivity. Qed.
Lemma run_same F w a a' o o' : args_of w a = Ok o -> args_of w a' = Ok o' -> a_output a' = a_output a ->
  op_range ch o' = op_range ch o -> op_csv_out ch o' = op_csv_out ch o ->
  Forall2 (fun i i' => opened w (op_csv_in ch o) i = opened w (op_csv_in ch o') i') (op_inputs ch o) (op_inputs ch o') ->
  cli F w a' = cli F w a.
Proof.
  intros E E' Eo Er Ec H. unfold chopper_cli. rewrite E, E'. unfold run_chop. rewrite (open_same _ _ _ _ _ H), Er, Ec, Eo. reflexivity.
Qed.
(** Another command line with the same zone, range and output options is accepted too, if its inputs and CSV options are. *)
Lemma args_same w a a' o z c' ins' : args_of w a = Ok o -> zone_meant (a_timezone a) (w_env_tz w) zones parse_zone z ->
  a_timezone a' = a_timezone a -> a_begin a' = a_begin a -> a_end a' = a_end a ->
  csv_output_options a' z = csv_output_options a z ->
  cli_inputs (a_formats a') (a_inputs a') = Ok ins' -> csv_input_options a' z = Ok c' ->
  csv_input_options a z = Ok (op_csv_in ch o) /\ cli_inputs (a_formats a) (a_inputs a) = Ok (op_inputs ch o) /\
  exists o', args_of w a' = Ok o' /\ op_range ch o' = op_range ch o /\ op_csv_out ch o' = op_csv_out ch o /\
    op_csv_in ch o' = c' /\ op_inputs ch o' = ins'.
Proof.
  intros E Hz Ez Eb Ee Eout Ei Ec. apply C71_zone_partial in Hz. unfold parse_args in *. rewrite Ez, Eb, Ee. rewrite Hz in *. cbn [bind] in *.
  destruct (timestamp_range _ _ _ _ _); try discriminate. cbn [bind] in *.
  destruct (cli_inputs (a_formats a) _) eqn:Ein; try discriminate. cbn [bind] in E.
  destruct (csv_input_options a z) eqn:Eci; try discriminate. cbn [bind] in E.
  rewrite Ei, Ec, Eout. cbn [bind]. destruct (csv_output_options a z); try discriminate. injection E as <-. cbn [bind op_csv_in op_inputs].
  split; [reflexivity|]. split; [reflexivity|]. eexists. split; [reflexivity|]. cbn. auto.
Qed.

(** ** Ordinary files *)
Lemma ordinary_path w path ext data : ordinary w path ext data ->
  exists p i core, delivers i data /\ previewer_new i = Ok p /\
    forall c fmt, opened w c {| in_type := Path path; in_format := fmt |} = create_source_from_previewer ds (facs c) p (Some (core ++ ext)) fmt.
Proof.
  intros ((f & core & Hl & Hs & Hn & Hu & D & T & Sm) & Nz).
  assert (Dl : delivers (f_reads f) data) by (split; [exact D|split; assumption]).
  destruct (delivers_opens _ _ Dl) as [p Ep]. exists p, (f_reads f), core. split; [exact Dl|]. split; [exact Ep|]. intros c fmt.
  unfold create_source_from_input. cbn [in_type in_format dir_file_transport dt_can_handle].
  rewrite (proj1 (proj2 Hl)).
  rewrite (open_plain ds inflate bunzip w (facs c) fmt path f (core ++ ext) Hl Hs) by (try rewrite D; assumption).
  rewrite Ep. cbn [bind]. destruct (create_source_from_previewer _ _ _ _ _); reflexivity.
Qed.
Local Notation fac k c := (match k with KCsv => csv_factory (csv_create prof ch lower f64_ok csv_records c) | KDc => dc_factory dc_create end).
Lemma found_by_name c n k : by_name n k -> first_by_format (facs c) n = Some (fac k c).
Proof. apply by_name_first. Qed.
(** A file whose name tells its format, opened with and without -f. *)
Definition ext_name (k : file_kind) : bytes := match k with KCsv => b ".csv" | KDc => b ".dc" end.
Lemma ext_by_name core k : by_name (core ++ ext_name k) k.
Proof. destruct k; constructor. Qed.
Lemma named_auto w path k data : ordinary w path (ext_name k) data ->
  exists p i, delivers i data /\ previewer_new i = Ok p /\
    (forall c, opened w c {| in_type := Path path; in_format := InputModel.Auto |} = sf_create (fac k c) p) /\
    (forall c f, extension_said f (ext_name k) -> opened w c {| in_type := Path path; in_format := Extension f |} = sf_create (fac k c) p).
Proof.
  intro H. destruct (ordinary_path _ _ _ _ H) as (p & i & core & D & Ep & O). exists p, i. split; [exact D|]. split; [exact Ep|]. split.
  - intro c. rewrite O. cbn [create_source_from_previewer]. unfold decompress_using_format.
    rewrite (by_name_unpacked _ _ (ext_by_name core k)). cbn [bind]. rewrite (found_by_name c _ _ (ext_by_name core k)). reflexivity.
  - intros c f Hf. rewrite O. cbn [create_source_from_previewer].
    assert (E : (if starts_with (b ".") f then f else b "." ++ f) = [] ++ ext_name k).
    { destruct Hf as [[[-> | ->] E]|[[-> | ->] E]]; rewrite E; reflexivity. }
    rewrite E. unfold decompress_using_format.
    rewrite (by_name_unpacked _ _ (ext_by_name [] k)). cbn [bind]. unfold create_source_from_format.
    rewrite (found_by_name c _ _ (ext_by_name [] k)). reflexivity.
Qed.

(** ** -f *)
Lemma fmt_said f ext g : extension_said f ext -> fmt_of f g -> g = Extension f.
Proof. intros Hf [[E ->]|[E ->]]; [|reflexivity]. destruct Hf as [[[-> | ->] _]|[[-> | ->] _]]; discriminate E. Qed.
Theorem C131_format_said : forall F w a o paths fs,
  args_of w a = Ok o -> a_inputs a = Some paths -> a_formats a = None ->
  Forall2 (fun f path => exists ext data, extension_said f ext /\ ordinary w path ext data) fs paths ->
  cli F w (with_formats a fs) = cli F w a.
Proof.
  intros F w a o paths fs Ea Ei Ef H.
  destruct (parsed _ _ _ _ _ _ _ Ea) as (z & ci & co & Hz & Hci & Hco & Eci & Eco).
  assert (Np : paths <> []).
  { intros ->. unfold parse_args in Ea. rewrite Ei, Ef in Ea. destruct (resolve_timezone _ _ _ _); try discriminate. cbn [bind] in Ea.
    destruct (timestamp_range _ _ _ _ _); discriminate. }
  assert (Nf : fs <> []) by (intros ->; inversion H; congruence).
  destruct (C55_formats fs paths Nf Np) as (ins' & Ei' & Li & Hi).
  assert (Lf : length fs = length paths) by (eapply GraphProps.Forall2_len; eauto).
  destruct (args_same w a (with_formats a fs) o z ci ins' Ea Hz eq_refl eq_refl eq_refl eq_refl) as (_ & Ein & o' & Ea' & E1 & E2 & E3 & E4).
  { cbn [with_formats told_options a_formats a_inputs]. now rewrite Ei. }
  { exact Hci. }
  apply (run_same F w a (with_formats a fs) o o' Ea Ea' eq_refl E1 E2).
  rewrite Ei, Ef, (proj1 (C55_defaults paths Np)) in Ein. injection Ein as <-. rewrite E3, E4, Eci.
  assert (G : forall i p f, nth_error paths i = Some p -> nth_error fs i = Some f ->
            nth_error ins' i = Some {| in_type := Path p; in_format := Extension f |}).
  { intros i p f Hp Hf. destruct (Hi i p Hp) as (s & g & En & Hs & Hc). rewrite En. do 2 f_equal.
    assert (s = f). { destruct Hc as [Hc|[Hl _]]; [congruence|]. apply nth_error_None in Hl. congruence. } subst s.
    assert (X : exists ext, extension_said f ext).
    { clear - H Hf. revert i Hf. induction H as [|g q fs ps (ext & data & A & _) H IH]; intros [|i] Hf; try discriminate.
      - injection Hf as <-. eauto. - eauto. }
    destruct X as [ext X]. eapply fmt_said; eauto. }
  clear - H G Li. revert ins' Li G. induction H as [|f p fs ps (ext & data & A & B) H IH]; intros ins' Li G.
  - destruct ins'; [constructor|discriminate].
  - destruct ins' as [|x ins']; [discriminate|]. pose proof (G 0 p f eq_refl eq_refl) as E. injection E as ->. constructor.
    + assert (X : exists k, ext = ext_name k) by (destruct A as [[_ ->]|[_ ->]]; [now exists KCsv|now exists KDc]).
      destruct X as [k ->]. destruct (named_auto _ _ _ _ B) as (q & i & _ & _ & O1 & O2). rewrite (O2 _ _ A). apply O1.
    + apply IH; [cbn in Li; lia|]. intros i p' f' Hp Hf. apply (G (S i)); assumption.
Qed.

(** ** --csv-in-delimiter and --csv-in-has-header *)
Lemma csv_new_same c c' lines st d : ci_col c' = ci_col c -> ci_fmt c' = ci_fmt c -> ci_tz c' = ci_tz c ->
  delimiter_used c lines d -> delimiter_used c' lines d ->
  has_header_used f64_ok c' lines d = has_header_used f64_ok c lines d ->
  csv_new prof ch lower f64_ok csv_records c' lines st = csv_new prof ch lower f64_ok csv_records c lines st.
Proof.
  intros Ec Ef Ez D D' Hh.
  assert (X : forall x : csv_input ch, delimiter_used x lines d ->
     (match ci_delimiter x with
      | Some d => Ok d
      | None => match (match lines with None => None | Some l => nth_error l 0 end) with Some l => guess_delimiter l DELIMITERS | None => Ok (byte_of 44) end
      end) = Ok d).
  { intros x Hx. unfold delimiter_used in Hx. destruct (ci_delimiter x); [now rewrite Hx|]. destruct lines as [[|l ls]|]; cbn [nth_error]; [now rewrite Hx|exact Hx|now rewrite Hx]. }
  assert (Y : forall x : csv_input ch, (match ci_has_header x with
                    | Yes => true | No => false
                    | CsvModel.Auto => guess_has_header f64_ok (match lines with None => None | Some l => nth_error l 0 end) (match lines with None => None | Some l => nth_error l 1 end) d
                    end) = has_header_used f64_ok x lines d).
  { intro x. unfold has_header_used. destruct (ci_has_header x); try reflexivity. destruct lines as [[|l [|l2 ls]]|]; reflexivity. }
  unfold csv_new. rewrite (X c D), (X c' D'). cbn [bind]. rewrite !Y, Hh, Ec, Ef, Ez. reflexivity.
Qed.
Lemma used_asked a z (c : csv_input ch) lines d yes : csv_input_options a z = Ok c -> input_delimiter a lines d -> input_has_header f64_ok a lines d yes ->
  delimiter_used c lines d /\ has_header_used f64_ok c lines d = yes.
Proof.
  intros Hi Hd Hy. destruct (input_options_spec _ _ _ _ Hi) as (_ & Hh & _ & _ & Dl). split.
  - unfold delimiter_used, input_delimiter in *. destruct (a_in_delimiter a) as [x|].
    + destruct Dl as (d' & -> & Pd). apply C90_delimiter in Hd. congruence.
    + rewrite Dl. exact Hd.
  - unfold has_header_used. destruct Hy as [[L ->]|[[L ->]|[L ->]]].
    + apply (proj2 (letters_cases _ Yes)) in L. rewrite L in Hh. injection Hh as <-. reflexivity.
    + apply (proj2 (letters_cases _ No)) in L. rewrite L in Hh. injection Hh as <-. reflexivity.
    + apply (proj2 (letters_cases _ CsvModel.Auto)) in L. rewrite L in Hh. injection Hh as <-. reflexivity.
Qed.
Lemma inputs_auto w a o paths : args_of w a = Ok o -> a_inputs a = Some paths -> a_formats a = None ->
  paths <> [] /\ op_inputs ch o = map (fun p => {| in_type := Path p; in_format := InputModel.Auto |}) paths.
Proof.
  intros Ea Ei Ef. unfold parse_args in Ea. rewrite Ei, Ef in Ea. destruct (resolve_timezone _ _ _ _); try discriminate. cbn [bind] in Ea.
  destruct (timestamp_range _ _ _ _ _); try discriminate. cbn [bind] in Ea. destruct paths as [|p ps]; [discriminate|].
  rewrite (proj1 (C55_defaults (p :: ps) ltac:(discriminate))) in Ea. cbn [bind] in Ea.
  destruct (csv_input_options a _); try discriminate. cbn [bind] in Ea. destruct (csv_output_options a _); try discriminate.
  injection Ea as <-. split; [discriminate|reflexivity].
Qed.
(** Two command lines that read the records of every CSV input alike. *)
Lemma records_same F w a a' o paths : 
  args_of w a = Ok o -> a_inputs a = Some paths -> a_formats a = None ->
  (exists s hh, a' = told_options a None s hh (a_in_fmt a) (a_in_epoch a)) ->
  (forall z (c : csv_input ch), csv_input_options a z = Ok c -> exists c', csv_input_options a' z = Ok c') ->
  Forall (fun path =>
    (exists data, ordinary w path (b ".dc") data) \/
    (exists data lines d yes, ordinary w path (b ".csv") data /\ first_lines data lines /\
       input_delimiter a lines d /\ input_has_header f64_ok a lines d yes /\
       input_delimiter a' lines d /\ input_has_header f64_ok a' lines d yes)) paths ->
  cli F w a' = cli F w a.
Proof.
  intros Ea Ei Ef (s & hh & ->) Acc H. destruct (inputs_auto w a o paths Ea Ei Ef) as [Np Eo].
  destruct (parsed _ _ _ _ _ _ _ Ea) as (z & ci & co & Hz & Hci & Hco & Eci & Eco).
  destruct (Acc z ci Hci) as [c' Hc'].
  set (a' := told_options a None s hh (a_in_fmt a) (a_in_epoch a)) in *.
  destruct (args_same w a a' o z c' (op_inputs ch o) Ea Hz eq_refl eq_refl eq_refl eq_refl) as (_ & Ein & o' & Ea' & E1 & E2 & E3 & E4).
  { cbn [a' told_options a_formats a_inputs]. now rewrite Ei, (proj1 (C55_defaults paths Np)), Eo. }
  { exact Hc'. }
  apply (run_same F w a a' o o' Ea Ea' eq_refl E1 E2). rewrite E3, E4, Eci, Eo. clear E3 E4.
  destruct (input_options_spec _ _ _ _ Hci) as (T1 & _ & F1 & C1 & _).
  destruct (input_options_spec _ _ _ _ Hc') as (T2 & _ & F2 & C2 & _).
  change (fmt_option a') with (fmt_option a) in F2. change (col_option a') with (col_option a) in C2.
  clear - H Hci Hc' T1 F1 C1 T2 F2 C2. induction H as [|p ps Hp H IH]; [constructor|]. constructor; [|exact IH].
  destruct Hp as [(data & O)|(data & lines & d & yes & O & Fl & D1 & Y1 & D2 & Y2)].
  - destruct (named_auto w p KDc data O) as (q & i & _ & _ & O1 & _). rewrite !O1. reflexivity.
  - destruct (named_auto w p KCsv data O) as (q & i & Dl & Ep & O1 & _). rewrite !O1. cbn [sf_create csv_factory].
    unfold csv_create. rewrite (lines_seen i q data lines Dl Ep Fl).
    destruct (used_asked _ _ _ _ _ _ Hci D1 Y1) as [U1 V1]. destruct (used_asked _ _ _ _ _ _ Hc' D2 Y2) as [U2 V2].
    rewrite (csv_new_same ci c' lines _ d) by congruence. reflexivity.
Qed.
Theorem C131_delimiter : forall F w a o paths s d,
  args_of w a = Ok o -> a_inputs a = Some paths -> a_formats a = None -> a_in_delimiter a = None ->
  (s = [d] /\ (of_byte d < 128)%N) \/ (s = b "\t" /\ d = byte_of 9) ->
  Forall (fun path => (exists data, ordinary w path (b ".dc") data) \/
    (exists data lines, ordinary w path (b ".csv") data /\ first_lines data lines /\ input_delimiter a lines d)) paths ->
  cli F w (with_delimiter a s) = cli F w a.
Proof.
  intros F w a o paths s d Ea Ei Ef Ed Hs H.
  destruct (parsed _ _ _ _ _ _ _ Ea) as (z & ci & co & Hz & Hci & _).
  destruct (input_options_spec _ _ _ _ Hci) as (_ & Hh & _).
  apply (records_same F w a (with_delimiter a s) o paths Ea Ei Ef).
  - exists (Some s), (a_in_has_header a). unfold with_delimiter. now rewrite Ef.
  - intros z' c Hc. unfold csv_input_options, csv_input_new in *. cbn [with_delimiter told_options a_in_delimiter a_in_has_header].
    change (fmt_option (with_delimiter a s)) with (fmt_option a). change (col_option (with_delimiter a s)) with (col_option a).
    destruct (parse_yes_no_auto _); try discriminate. cbn [bind] in *. destruct (fmt_option a); try discriminate. cbn [bind] in *.
    destruct (col_option a); try discriminate. cbn [bind] in *. rewrite (proj2 (C90_delimiter s d) Hs). cbn [bind]. eauto.
  - clear - H Ed Hs Hh. induction H as [|p ps [X|(data & lines & O & Fl & D)] H IH]; constructor; auto. right.
    assert (Y : exists yes, input_has_header f64_ok a lines d yes).
    { unfold input_has_header. destruct (ci_has_header ci) eqn:E; apply letters_cases in Hh; eauto 8. }
    destruct Y as [yes Y]. exists data, lines, d, yes. split; [exact O|]. split; [exact Fl|]. split; [exact D|]. split; [exact Y|]. split; [|exact Y].
    unfold input_delimiter. cbn [with_delimiter told_options a_in_delimiter]. exact Hs.
Qed.
Theorem C131_has_header : forall F w a o paths hh yes,
  args_of w a = Ok o -> a_inputs a = Some paths -> a_formats a = None -> same_letters (a_in_has_header a) (b "auto") ->
  same_letters hh (if yes : bool then b "yes" else b "no") ->
  Forall (fun path => (exists data, ordinary w path (b ".dc") data) \/
    (exists data lines d, ordinary w path (b ".csv") data /\ first_lines data lines /\ input_delimiter a lines d /\
       input_has_header f64_ok a lines d yes)) paths ->
  cli F w (with_has_header a hh) = cli F w a.
Proof.
  intros F w a o paths hh yes Ea Ei Ef Eh Hs H.
  assert (Hp : parse_yes_no_auto hh = Ok (if yes then Yes else No)) by (destruct yes; [now apply (letters_cases hh Yes)|now apply (letters_cases hh No)]).
  apply (records_same F w a (with_has_header a hh) o paths Ea Ei Ef).
  - exists (a_in_delimiter a), hh. unfold with_has_header. now rewrite Ef.
  - intros z' c Hc. unfold csv_input_options in *. cbn [with_has_header told_options a_in_delimiter a_in_has_header].
    change (fmt_option (with_has_header a hh)) with (fmt_option a). change (col_option (with_has_header a hh)) with (col_option a).
    destruct (parse_yes_no_auto (a_in_has_header a)); try discriminate. rewrite Hp. cbn [bind] in *. destruct (fmt_option a); try discriminate. cbn [bind] in *.
    destruct (col_option a); try discriminate. cbn [bind] in *. unfold csv_input_new in *.
    destruct (match a_in_delimiter a with Some _ => _ | None => _ end); try discriminate. cbn [bind]. eauto.
  - clear - H Eh Hs Hp. induction H as [|p ps [X|(data & lines & d & O & Fl & D & Y)] H IH]; constructor; auto. right.
    exists data, lines, d, yes. split; [exact O|]. split; [exact Fl|]. split; [exact D|]. split; [exact Y|]. split; [exact D|].
    unfold input_has_header. cbn [with_has_header told_options a_in_has_header]. destruct yes; auto.
Qed.

(** ** The format of times *)
Lemma read_content a z data h rows col hint fmt : csv_read (ch := ch) lower f64_ok a z data h rows col hint fmt -> csv_content lower f64_ok a z data h rows.
Proof.
  intros (lines & d & yes & text & all & clean & names & first & recs & texts & times & H). unfold csv_content.
  exists lines, d, yes, text, all, clean, names, first, recs, texts, times, col, hint, fmt. exact H.
Qed.
Lemma read_told a (z : option (zone ch)) data h rows col hint fmt format epoch :
  (forall x, input_format_used ch a col hint x fmt ->
     input_format_used ch (told_options a (a_formats a) (a_in_delimiter a) (a_in_has_header a) format epoch) col hint x fmt) ->
  csv_read lower f64_ok a z data h rows col hint fmt ->
  csv_read lower f64_ok (told_options a (a_formats a) (a_in_delimiter a) (a_in_has_header a) format epoch) z data h rows col hint fmt.
Proof.
  intros Hf (lines & d & yes & text & all & clean & names & first & recs & texts & times & H). unfold csv_read.
  exists lines, d, yes, text, all, clean, names, first, recs, texts, times.
  destruct H as (H1 & H2 & H3 & H4 & H5 & H6 & H7 & H8 & H9 & H10 & H11 & H12 & H13 & H14 & Hc & Hu & H17).
  repeat (split; [assumption|]). split; [|split; [auto|exact H17]].
  destruct Hc; [apply no_column|eapply one_column|eapply beyond_columns|eapply two_numbers|eapply two_names]; eauto.
Qed.
Lemma contents_same F w a a' o paths :
  args_of w a = Ok o -> a_inputs a = Some paths -> a_formats a = None ->
  a_inputs a' = a_inputs a -> a_formats a' = a_formats a -> a_output a' = a_output a ->
  a_timezone a' = a_timezone a -> a_begin a' = a_begin a -> a_end a' = a_end a ->
  (forall z : option (zone ch), csv_output_options a' z = csv_output_options a z) ->
  (forall z (c : csv_input ch), csv_input_options a z = Ok c -> exists c', csv_input_options a' z = Ok c') ->
  (forall z, zone_meant (a_timezone a) (w_env_tz w) zones parse_zone z ->
   Forall (fun path => (exists data, ordinary w path (b ".dc") data) \/
    (exists data h rows, ordinary w path (b ".csv") data /\ csv_content lower f64_ok a z data h rows /\ csv_content lower f64_ok a' z data h rows)) paths) ->
  cli F w a' = cli F w a.
Proof.
  intros Ea Ei Ef Ei' Ef' Eu' Ez' Eb' Ee' Eo' Acc H. destruct (inputs_auto w a o paths Ea Ei Ef) as [Np Eo].
  destruct (parsed _ _ _ _ _ _ _ Ea) as (z & ci & co & Hz & Hci & Hco & Eci & Eco). specialize (H z Hz).
  destruct (Acc z ci Hci) as [c' Hc'].
  destruct (args_same w a a' o z c' (op_inputs ch o) Ea Hz Ez' Eb' Ee' (Eo' z)) as (_ & Ein & o' & Ea' & E1 & E2 & E3 & E4).
  { now rewrite Ei', Ef', Ei, Ef, (proj1 (C55_defaults paths Np)), Eo. }
  { exact Hc'. }
  apply (run_same F w a a' o o' Ea Ea' Eu' E1 E2). rewrite E3, E4, Eci, Eo. clear E3 E4.
  clear - H Hci Hc'. induction H as [|p ps Hp H IH]; [constructor|]. constructor; [|exact IH].
  destruct Hp as [(data & O)|(data & h & rows & O & C1 & C2)].
  - destruct (named_auto w p KDc data O) as (q & i & _ & _ & O1 & _). rewrite !O1. reflexivity.
  - destruct (named_auto w p KCsv data O) as (q & i & (D & T & Sm) & Ep & O1 & _). rewrite !O1. cbn [sf_create csv_factory].
    rewrite <- D in C1, C2.
    rewrite (csv_opens_content prof ch lower f64_ok a z ci i q h rows Hci T Ep C1).
    rewrite (csv_opens_content prof ch lower f64_ok a' z c' i q h rows Hc' T Ep C2). reflexivity.
Qed.
Lemma reading_same F w a format epoch o paths fc :
  args_of w a = Ok o -> a_inputs a = Some paths -> a_formats a = None ->
  let a' := told_options a (a_formats a) (a_in_delimiter a) (a_in_has_header a) format epoch in
  fmt_option a' = Ok fc ->
  (forall z, zone_meant (a_timezone a) (w_env_tz w) zones parse_zone z ->
   Forall (fun path => (exists data, ordinary w path (b ".dc") data) \/
    (exists data h rows col hint fmt, ordinary w path (b ".csv") data /\ csv_read lower f64_ok a z data h rows col hint fmt /\
       forall x, input_format_used ch a col hint x fmt -> input_format_used ch a' col hint x fmt)) paths) ->
  cli F w a' = cli F w a.
Proof.
  intros Ea Ei Ef a' Hfc H. apply (contents_same F w a a' o paths Ea Ei Ef); try reflexivity.
  - intros z c Hci. unfold csv_input_options in *. rewrite Hfc. change (col_option a') with (col_option a). change (a_in_delimiter a') with (a_in_delimiter a).
    change (a_in_has_header a') with (a_in_has_header a). destruct (parse_yes_no_auto _); try discriminate. cbn [bind] in *.
    destruct (fmt_option a); try discriminate. cbn [bind] in *. destruct (col_option a); try discriminate. cbn [bind] in *. unfold csv_input_new in *.
    destruct (match a_in_delimiter a with Some _ => _ | None => _ end); try discriminate. cbn [bind]. eauto.
  - intros z Hz. eapply Forall_impl; [|exact (H z Hz)]. cbn beta. intros p [X|(data & h & rows & col & hint & fmt & O & R & Hf)]; [now left|right].
    exists data, h, rows. split; [exact O|]. split; [eapply read_content; eauto|]. eapply read_content, read_told; eauto.
Qed.
(** The column: by its number or its name, if the end of its name means the same unit as its name as a whole. *)
Theorem C131_column_partial : forall F w a o paths s,
  args_of w a = Ok o -> a_inputs a = Some paths -> a_formats a = None -> a_in_col a = None -> a_in_col_date a = None ->
  (forall z, zone_meant (a_timezone a) (w_env_tz w) zones parse_zone z ->
   Forall (fun path => (exists data, ordinary w path (b ".dc") data) \/
    (exists data h rows i hint fmt name, ordinary w path (b ".csv") data /\ csv_read lower f64_ok a z data h rows (ColIndex i) hint fmt /\
       column_text h s i /\ nth_error (h_names h) i = Some name /\ ends_in_unit name hint)) paths) ->
  cli F w (with_column a s) = cli F w a.
Proof.
  intros F w a o paths s Ea Ei Ef Nc Nd H. apply (contents_same F w a (with_column a s) o paths Ea Ei Ef); try reflexivity.
  - intros z c Hci. unfold csv_input_options in *. change (fmt_option (with_column a s)) with (fmt_option a).
    assert (X : exists cc, col_option (with_column a s) = Ok cc).
    { unfold col_option. cbn [with_column a_in_col_date a_in_col]. rewrite Nd. destruct (parse_usize s); eauto. }
    destruct X as [cc ->]. cbn [with_column a_in_has_header a_in_delimiter]. destruct (parse_yes_no_auto _); try discriminate. cbn [bind] in *.
    destruct (fmt_option a); try discriminate. cbn [bind] in *. destruct (col_option a); try discriminate. cbn [bind] in *. unfold csv_input_new in *.
    destruct (match a_in_delimiter a with Some _ => _ | None => _ end); try discriminate. cbn [bind]. eauto.
  - intros z Hz. eapply Forall_impl; [|exact (H z Hz)]. cbn beta. intros p [X|(data & h & rows & i & hint & fmt & name & O & R & Ct & Nm & Eu)]; [now left|right].
    exists data, h, rows. split; [exact O|]. split; [eapply read_content; eauto|].
    destruct R as (lines & d & yes & text & all & clean & names & first & recs & texts & times & R). unfold csv_content.
    exists lines, d, yes, text, all, clean, names, first, recs, texts, times, (ColIndex i), hint, fmt.
    destruct R as (H1 & H2 & H3 & H4 & H5 & H6 & H7 & H8 & H9 & H10 & H11 & H12 & H13 & H14 & Hc & Hu & H17).
    repeat (split; [assumption|]). split; [|split; [|exact H17]].
    + apply (one_column lower (with_column a s) h s i hint name); auto.
    + intros x Hx. specialize (Hu x Hx).
      destruct Hu; [eapply split_format|eapply whole_format|eapply epoch_units|eapply named_units|eapply known_format|eapply guessed_units]; eauto.
Qed.
(** Epoch times: in the unit that was found out, from the name of the column or the size of the first one. *)
Theorem C131_units : forall F w a o paths l u,
  args_of w a = Ok o -> a_inputs a = Some paths -> a_formats a = None ->
  a_in_fmt a = None -> a_in_fmt_date a = None -> a_in_epoch a = None -> unit_letters l u ->
  (forall z, zone_meant (a_timezone a) (w_env_tz w) zones parse_zone z ->
   Forall (fun path => (exists data, ordinary w path (b ".dc") data) \/
    (exists data h rows col hint, ordinary w path (b ".csv") data /\ csv_read lower f64_ok a z data h rows col hint (FUnits u))) paths) ->
  cli F w (with_epoch a l) = cli F w a.
Proof.
  intros F w a o paths l u Ea Ei Ef Nf Nd Ne Hl H.
  apply (reading_same F w a (a_in_fmt a) (Some l) o paths (FmtEpoch u) Ea Ei Ef).
  - unfold fmt_option. cbn [told_options a_in_fmt_date a_in_fmt a_in_epoch]. rewrite Nd, Nf. apply letters_units in Hl. rewrite Hl. reflexivity.
  - intros z Hz. eapply Forall_impl; [|exact (H z Hz)]. cbn beta. intros p [X|(data & h & rows & col & hint & O & R)]; [now left|right].
    exists data, h, rows, col, hint, (FUnits u). split; [exact O|]. split; [exact R|]. intros x _.
    eapply epoch_units; cbn [told_options a_in_fmt_date a_in_fmt a_in_epoch]; eauto.
Qed.
(** Dates and times: in the documented format that was found out. *)
Definition format_text (fmt : ts_fmt) (f : bytes) : Prop := fmt = FDateTimeTz f \/ fmt = FDateTime f \/ fmt = FDate f.
Lemma format_same : 
  (forall col x fmt f, first_parsing ch (documented col) x fmt -> format_text fmt f -> first_parsing ch (TimeSpec.given f) x fmt) ->
  forall F w a o paths f,
  args_of w a = Ok o -> a_inputs a = Some paths -> a_formats a = None ->
  a_in_fmt a = None -> a_in_fmt_date a = None -> a_in_epoch a = None ->
  (forall z, zone_meant (a_timezone a) (w_env_tz w) zones parse_zone z ->
   Forall (fun path => (exists data, ordinary w path (b ".dc") data) \/
    (exists data h rows col hint fmt, ordinary w path (b ".csv") data /\ format_text fmt f /\ csv_read lower f64_ok a z data h rows col hint fmt)) paths) ->
  cli F w (with_format a f) = cli F w a.
Proof.
  intros Hd F w a o paths f Ea Ei Ef Nf Nd Ne H.
  apply (reading_same F w a (Some f) (a_in_epoch a) o paths (FmtExplicit f) Ea Ei Ef).
  - unfold fmt_option. cbn [told_options a_in_fmt_date a_in_fmt a_in_epoch]. rewrite Nd. reflexivity.
  - intros z Hz. eapply Forall_impl; [|exact (H z Hz)]. cbn beta. intros p [X|(data & h & rows & col & hint & fmt & O & Ft & R)]; [now left|right].
    exists data, h, rows, col, hint, fmt. split; [exact O|]. split; [exact R|]. intros x U.
    eapply whole_format; cbn [told_options a_in_fmt_date a_in_fmt a_in_epoch]; [exact Nd|reflexivity|]. eapply Hd; [|exact Ft].
    destruct U; try congruence; try (destruct Ft as [E|[E|E]]; discriminate E). eassumption.
Qed.
End Guess.
Print Assumptions C131_format_said.
Print Assumptions C131_delimiter.
Print Assumptions C131_has_header.
Print Assumptions C131_units.
Print Assumptions C131_column_partial.

(** ** chrono: a format without an offset gives no time with an offset, one without hours no time of day *)
Definition sets (i : item) (g : field) : bool :=
  match i with
  | Num f _ => field_eqb f g
  | Frac _ | FracNoDot _ => field_eqb FNano g
  | Offset _ => field_eqb FOffset g
  | Rfc3339 => true
  | _ => false
  end.
Lemma set_other f v p q g : set f v p = Some q -> field_eqb f g = false -> q g = p g.
Proof.
  unfold set. destruct (p f); [destruct (_ =? _)%Z; [intros [= <-]; auto|discriminate]|]. intros H E. assert (ChronoModel.upd f v p = q) as <- by congruence. unfold ChronoModel.upd. now rewrite E.
Qed.
Lemma set_rest_other f r p s q g : set_rest f r p = Some (s, q) -> field_eqb f g = false -> q g = p g.
Proof.
  unfold set_rest. destruct r as [[v t]|]; [|discriminate]. destruct (set f v p) eqn:E; [|discriminate]. intros [= _ <-]. now apply (set_other f v).
Qed.
Lemma item_other i s p t q g : parse_item i s p = Some (t, q) -> sets i g = false -> q g = p g.
Proof.
  destruct i; cbn [parse_item sets]; try discriminate.
  - unfold literal. destruct (one_char _ s); [|discriminate]. now intros [= _ <-].
  - now intros [= _ <-].
  - apply set_rest_other.
  - destruct (one_char _ s); [apply set_rest_other|]. now intros [= _ <-].
  - apply set_rest_other.
  - apply set_rest_other.
Qed.
Lemma items_other l g : forall s p q, parse_items l s p = Some q -> forallb (fun i => negb (sets i g)) l = true -> q g = p g.
Proof.
  induction l as [|i l IH]; intros s p q H E; cbn [parse_items] in H.
  - destruct s; [now injection H as <-|discriminate].
  - cbn [forallb] in E. apply andb_prop in E as [E1 E2]. apply Bool.negb_true_iff in E1.
    destruct (parse_item i s p) as [[t p']|] eqn:Ei; [|discriminate]. cbn [and_then] in H.
    rewrite (IH _ _ _ H E2). eapply item_other; eauto.
Qed.
Definition lacks (f : bytes) (g : field) : Prop :=
  existsb is_other (items (chars f)) = false /\ forallb (fun i => negb (sets i g)) (items (chars f)) = true.
Lemma no_datetime o f x : lacks f FOffset -> c_datetime (civil o) f x = None.
Proof.
  intros [E1 E2]. cbn [civil c_datetime]. unfold parse_from_str. rewrite E1.
  destruct (parse_items _ _ _) as [p|] eqn:E; [|reflexivity]. unfold to_datetime.
  now rewrite (items_other _ FOffset _ _ _ E E2).
Qed.
Lemma no_naive o f x : lacks f FHour -> c_naive (civil o) f x = None.
Proof.
  intros [E1 E2]. cbn [civil c_naive]. unfold parse_from_str. rewrite E1.
  destruct (parse_items _ _ _) as [p|] eqn:E; [|reflexivity]. unfold to_naive, to_naive_time.
  rewrite (items_other _ FHour _ _ _ E E2). unfold nothing. now destruct (to_naive_date p).
Qed.
Lemma documented_told o col x fmt f : first_parsing (civil o) (documented col) x fmt -> format_text fmt f ->
  first_parsing (civil o) (TimeSpec.given f) x fmt.
Proof.
  intros (before & after & El & P & _) Ft.
  assert (I : In fmt (documented col)) by (rewrite El; apply in_or_app; right; now left). clear El before after.
  assert (L : match fmt with FDateTimeTz _ => True | FDateTime f => lacks f FOffset | FDate f => lacks f FOffset /\ lacks f FHour | FUnits _ => True end).
  { destruct col; cbn [documented In] in I; repeat (destruct I as [<-|I]; [vm_compute; auto|]); destruct I. }
  unfold TimeSpec.given. destruct Ft as [->|[->| ->]].
  - exists [], [FDateTime f; FDate f]. auto.
  - exists [FDateTimeTz f], [FDate f]. split; [reflexivity|]. split; [exact P|]. constructor; [|constructor]. cbn [parses].
    rewrite no_datetime by exact L. auto.
  - exists [FDateTimeTz f; FDateTime f], []. split; [reflexivity|]. split; [exact P|]. destruct L as [L1 L2].
    constructor; [|constructor; [|constructor]]; cbn [parses]; [rewrite no_datetime by exact L1|rewrite no_naive by exact L2]; auto.
Qed.
Theorem C131_time_format : forall prof o lower f64_ok ds inflate bunzip f64 f32 zones parse_zone create F w a opts paths f,
  parse_args prof (civil o) zones parse_zone w a = Ok opts -> a_inputs a = Some paths -> a_formats a = None ->
  a_in_fmt a = None -> a_in_fmt_date a = None -> a_in_epoch a = None ->
  (forall z, zone_meant (a_timezone a) (w_env_tz w) zones parse_zone z ->
   Forall (fun path => (exists data, ordinary w path (b ".dc") data) \/
    (exists data h rows col hint fmt, ordinary w path (b ".csv") data /\ format_text fmt f /\ csv_read lower f64_ok a z data h rows col hint fmt)) paths) ->
  chopper_cli prof (civil o) lower f64_ok csv_records ds inflate bunzip f64 f32 None None zones parse_zone create F w (with_format a f) =
  chopper_cli prof (civil o) lower f64_ok csv_records ds inflate bunzip f64 f32 None None zones parse_zone create F w a.
Proof. intros. eapply format_same; eauto. intros. eapply documented_told; eauto. Qed.
Print Assumptions C131_time_format.

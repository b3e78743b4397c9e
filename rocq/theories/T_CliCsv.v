(** C96, C97: what the CSV options of the command line do to the text written and to the rows read. *)
From Verif Require Import CliCsvSpec T_Options T_Options2 T_Time T_CsvTime T_Csv T_CsvOut T_CsvQuote CsvProofs CsvUtilProofs.
From Verif Require Import DcSpec.
Local Open Scope nat_scope.

(** ** The options one by one *)
Lemma parsed prof ch table known w a o : parse_args prof ch table known w a = Ok o ->
  exists z ci co, zone_meant (a_timezone a) (w_env_tz w) table known z /\
    csv_input_options a z = Ok ci /\ csv_output_options a z = Ok co /\ op_csv_in ch o = ci /\ op_csv_out ch o = co.
Proof.
  unfold parse_args. intro H.
  destruct (resolve_timezone _ _ table known) as [z| | | |] eqn:Ez; try discriminate. cbn [bind] in H.
  destruct (timestamp_range _ _ _ _ _) as [rng| | | |] eqn:Er; try discriminate. cbn [bind] in H.
  destruct (cli_inputs _ _) as [ins| | | |] eqn:Ei; try discriminate. cbn [bind] in H.
  destruct (csv_input_options a z) as [ci| | | |] eqn:Ec; try discriminate. cbn [bind] in H.
  destruct (csv_output_options a z) as [co| | | |] eqn:Eo; try discriminate. injection H as <-.
  exists z, ci, co. split; [now apply C71_zone_partial|]. auto.
Qed.
Lemma zone_det {Z} arg env (table : option (bytes -> option Z)) known z y :
  zone_meant arg env table known z -> zone_meant arg env table known y -> z = y.
Proof. intros H K. apply C71_zone_partial in H, K. congruence. Qed.
Lemma letters_units s u : units_from_str s = Ok u <-> unit_letters s u.
Proof.
  unfold units_from_str. split.
  - repeat match goal with |- context [if bytes_eqb ?x ?y then _ else _] => destruct (bytes_eqb x y) eqn:? end;
      try discriminate; repeat match goal with H : bytes_eqb _ _ = true |- _ => apply bytes_eqb_eq in H end; subst; intros [= <-]; constructor.
  - intros []; reflexivity.
Qed.
Lemma letters_cases s v : parse_yes_no_auto s = Ok v <->
  match v with
  | Yes => same_letters s (b "yes") | No => same_letters s (b "no") | CsvModel.Auto => same_letters s (b "auto")
  end.
Proof.
  assert (E : parse_yes_no_auto s = (let x := map ascii_lower s in
     if bytes_eqb x (b "yes") then Ok Yes else if bytes_eqb x (b "no") then Ok No else if bytes_eqb x (b "auto") then Ok CsvModel.Auto else Err (ECsv 1)))
    by reflexivity.
  assert (L : forall w, map ascii_lower w = w -> (same_letters s w <-> map ascii_lower s = w)).
  { intros w Hw. unfold same_letters, eq_ignore_ascii_case. rewrite Hw. apply bytes_eqb_eq. }
  rewrite E. cbv zeta. clear E.
  assert (M : match v with Yes => same_letters s (b "yes") | No => same_letters s (b "no") | CsvModel.Auto => same_letters s (b "auto") end
     <-> map ascii_lower s = match v with Yes => b "yes" | No => b "no" | CsvModel.Auto => b "auto" end).
  { destruct v; apply L; reflexivity. }
  etransitivity; [|symmetry; exact M]. clear M L. generalize (map ascii_lower s). intro x. split.
  - destruct (bytes_eqb x (b "yes")) eqn:E1; [apply bytes_eqb_eq in E1; intros [= <-]; exact E1|].
    destruct (bytes_eqb x (b "no")) eqn:E2; [apply bytes_eqb_eq in E2; intros [= <-]; exact E2|].
    destruct (bytes_eqb x (b "auto")) eqn:E3; [apply bytes_eqb_eq in E3; intros [= <-]; exact E3|discriminate].
  - intros ->. destruct v; reflexivity.
Qed.

(** ** C96: output *)
Theorem C96_output_options : forall prof ch table known w a o z u f64 f32 h r texts,
  parse_args prof ch table known w a = Ok o ->
  zone_meant (a_timezone a) (w_env_tz w) table known z -> granularity a u ->
  h_names h <> [] -> Forall2 (value_text f64 f32) (vals r) texts ->
  let header := csv_header_bytes (op_csv_out ch o) h in
  let line := csv_write_row f64 f32 (op_csv_out ch o) r in
  let nl := [byte_of 10] in
  (a_out_print_time a = b "no" /\
   header = join (b ",") (h_names h) ++ nl /\
   line = (join (a_out_delimiter a) texts ++ nl, Ok tt)) \/
  (a_out_print_time a = b "yes" /\
   header = join (b ",") (output_time_name a u :: h_names h) ++ nl /\
   (forall t, output_time a z u (ts r) t -> line = (join (a_out_delimiter a) (t :: texts) ++ nl, Ok tt)) /\
   (a_out_epoch a = false -> z = None -> exists e, line = ([], Err e))).
Proof.
  intros prof ch table known w a o z u f64 f32 h r texts H Hz Hu Hn V header line nl.
  destruct (parsed _ _ _ _ _ _ _ H) as (z' & ci & co & Hz' & _ & Ho & _ & Eo).
  assert (z' = z) by (eapply zone_det; eauto). subst z' header line. rewrite Eo. clear Eo H.
  unfold csv_output_options in Ho.
  assert (U : exists y, (match a_out_units a with None => Ok Nanos | Some u => units_from_str u end) = Ok y /\ y = u).
  { unfold granularity in Hu. destruct (a_out_units a) as [l|]; [apply letters_units in Hu|]; eauto. }
  destruct U as (? & U & ->). rewrite U in Ho.
  destruct (C92_time_column_name (a_out_delimiter a) (a_out_time_name a) (if a_out_epoch a then Epoch else HumanReadable) u (zone_out z) h Hn)
    as (n & N1 & N2 & N3).
  destruct (bytes_eqb (a_out_print_time a) (b "yes")) eqn:Ey.
  - right. cbn [bind] in Ho. injection Ho as <-. apply bytes_eqb_eq in Ey. split; [exact Ey|].
    split; [|split].
    + rewrite N1. unfold output_time_name. do 3 f_equal.
      destruct (a_out_time_name a); [exact N3|]. destruct (a_out_epoch a); [destruct u; exact N3|exact N3].
    + intros t Ht. refine (row_spec f64 f32 (csv_output_new (a_out_delimiter a) true (a_out_time_name a) (if a_out_epoch a then Epoch else HumanReadable) u (zone_out z)) r (t :: texts) _). exists texts. split; [exact V|].
      cbn [co_print_time csv_output_new]. exists t. split; [|reflexivity]. unfold output_time in Ht.
      destruct (a_out_epoch a).
      * subst t. apply (time_epoch (csv_output_new (a_out_delimiter a) true (a_out_time_name a) Epoch u (zone_out z)) (ts r)). reflexivity.
      * destruct Ht as (g & -> & ->).
        apply (time_human (csv_output_new (a_out_delimiter a) true (a_out_time_name a) HumanReadable u (zone_out (Some g))) (ts r)
                 (fun f t => zn_show g f (t / 1000000000)%N (t mod 1000000000)%N)); reflexivity.
    + intros -> ->. unfold csv_write_row. cbn. eauto.
  - destruct (bytes_eqb (a_out_print_time a) (b "no")) eqn:Eno; [|discriminate]. left. cbn [bind] in Ho. injection Ho as <-.
    apply bytes_eqb_eq in Eno. split; [exact Eno|]. split; [exact N2|].
    refine (row_spec f64 f32 (csv_output_new (a_out_delimiter a) false (a_out_time_name a) (if a_out_epoch a then Epoch else HumanReadable) u (zone_out z)) r texts _). exists texts. split; [exact V|reflexivity].
Qed.
Print Assumptions C96_output_options.

(** ** C97: input *)
Lemma parses_dec ch fmt s : parses ch fmt s \/ ~ parses ch fmt s.
Proof.
  destruct fmt as [u|f|f|f]; cbn [parses]; [tauto| | |];
    match goal with |- ?x <> None \/ _ => destruct x; [left; discriminate|right; congruence] end.
Qed.
Lemma first_dec ch l s : (exists fmt, first_parsing ch l s fmt) \/ Forall (fun g => ~ parses ch g s) l.
Proof.
  induction l as [|g l IH]; [right; constructor|]. destruct (parses_dec ch g s) as [P|P].
  - left. exists g, [], l. repeat split; auto.
  - destruct IH as [(fmt & x & y & -> & Pf & F)|F]; [left|right; constructor; auto].
    exists fmt, (g :: x), y. repeat split; auto.
Qed.
Lemma denotes_dec ch (z : tz ch) fmt s : (exists i, denotes z fmt s i) \/ (forall i, ~ denotes z fmt s i).
Proof.
  assert (L : forall l, (exists i, local_instant z l i) \/ (forall i, ~ local_instant z l i)).
  { intro l. unfold local_instant. destruct z as [g|]; [|right; intros i (f & ? & _); discriminate].
    destruct (g l) eqn:G; [right|left; eauto|right]; intros i (f & [= <-] & X); congruence. }
  destruct fmt as [u|f|f|f]; cbn [denotes]; [right; auto| | |].
  - destruct (c_datetime ch f s) as [i|]; [left; eauto|right; discriminate].
  - destruct (c_naive ch f s) as [l|] eqn:E; [|right; intros i (x & ? & _); discriminate].
    destruct (L l) as [[i Hi]|N]; [left; eauto|right; intros i (x & [= <-] & X); exact (N i X)].
  - destruct (c_date ch f s) as [l|] eqn:E; [|right; intros i (x & ? & _); discriminate].
    destruct (L (c_midnight ch l)) as [[i Hi]|N]; [left; eauto|right; intros i (x & [= <-] & X); exact (N i X)].
Qed.
(** The converse of C87: what a choice made tells. *)
Lemma choice_made lower ch h first_row cc fc (z : tz ch) col hint s fmt :
  get_timestamp_col lower h cc = Ok (col, hint) -> row_text first_row col s ->
  get_col_and_fmt ch lower h first_row cc fc z = Ok (col, fmt) ->
  match fc with
  | FmtEpoch u => fmt = FUnits u
  | FmtAuto => match hint with
               | Some u => fmt = FUnits u
               | None => first_parsing ch (documented col) s fmt \/
                         (forall g, In g (documented col) -> ~ parses ch g s) /\
                         exists i n u, col = ColIndex i /\ fmt = FUnits u /\ numeral (chars s) n /\ plausible u n
               end
  | _ => first_parsing ch (tried fc col) s fmt
  end.
Proof.
  intros Hc T Hx. destruct (C87_format lower ch h first_row cc fc z col hint s Hc T) as (A & B & C & D). rewrite Hx in *.
  assert (G : (fc = FmtAuto -> hint = None) -> (forall u, fc <> FmtEpoch u) ->
     first_parsing ch (tried fc col) s fmt \/
     (forall g, In g (tried fc col) -> ~ parses ch g s) /\
     exists i n u, fc = FmtAuto /\ col = ColIndex i /\ fmt = FUnits u /\ numeral (chars s) n /\ plausible u n).
  { intros Hh Hne. destruct (first_dec ch (tried fc col) s) as [[g Hg]|N].
    - left. destruct (C Hh g Hg) as [C1 C2]. destruct (denotes_dec ch z g s) as [[i Hi]|Ni].
      + specialize (C1 i Hi). injection C1 as ->. exact Hg.
      + destruct (C2 Ni) as [e ?]. discriminate.
    - right. rewrite Forall_forall in N. split; [exact N|]. destruct (D Hh Hne N) as [[e ?]|(i & u & E1 & E2 & E3 & n & X & Y)]; [discriminate|].
      injection E3 as ->. exists i, n, u. auto. }
  destruct fc.
  all: try (specialize (A _ eq_refl); injection A as ->; reflexivity).
  all: try (destruct G as [G|(_ & i & n & u & ? & _)]; [discriminate|discriminate|exact G|discriminate]).
  destruct hint as [u|].
  - specialize (B u eq_refl eq_refl). injection B as ->. reflexivity.
  - destruct G as [G|(N & i & n & u & _ & X)]; [auto|discriminate|left; exact G|right]. split; [exact N|]. exists i, n, u. exact X.
Qed.
Lemma input_options_spec ch a z (ci : csv_input ch) : csv_input_options a z = Ok ci ->
  ci_tz ci = zone_in z /\ parse_yes_no_auto (a_in_has_header a) = Ok (ci_has_header ci) /\
  fmt_option a = Ok (ci_fmt ci) /\ col_option a = Ok (ci_col ci) /\
  match a_in_delimiter a with
  | Some s => exists d, ci_delimiter ci = Some d /\ parse_into_delimiter s = Ok d
  | None => ci_delimiter ci = None
  end.
Proof.
  unfold csv_input_options, csv_input_new. intro H.
  destruct (parse_yes_no_auto _) as [hh| | | |] eqn:E1; try discriminate. cbn [bind] in H.
  destruct (fmt_option a) as [f| | | |] eqn:E2; try discriminate. cbn [bind] in H.
  destruct (col_option a) as [c| | | |] eqn:E3; try discriminate. cbn [bind] in H.
  destruct (a_in_delimiter a) as [x|]; [destruct (parse_into_delimiter x) as [d| | | |] eqn:E4; try discriminate|];
    cbn [bind] in H; injection H as <-; cbn; repeat split; eauto.
Qed.
Lemma records_asked ch f64_ok split a z (ci : csv_input ch) lines data d yes pre raws :
  csv_input_options a z = Ok ci -> input_delimiter a lines d -> input_has_header f64_ok a lines d yes ->
  split d data = pre ++ raws -> length pre = (if yes then 1 else 0) ->
  data_records f64_ok split ci lines data raws.
Proof.
  intros Hi Hd Hy Hs Hl. destruct (input_options_spec _ _ _ _ Hi) as (_ & Hh & _ & _ & Dl).
  exists d, pre. split; [|split; [exact Hs|]].
  - unfold delimiter_used, input_delimiter in *. destruct (a_in_delimiter a) as [x|].
    + destruct Dl as (d' & -> & Pd). apply C90_delimiter in Hd. congruence.
    + rewrite Dl. exact Hd.
  - rewrite Hl. assert (E : has_header_used f64_ok ci lines d = yes); [|rewrite E; reflexivity].
    unfold has_header_used. destruct Hy as [[L ->]|[[L ->]|[L ->]]].
    + apply (proj2 (letters_cases _ Yes)) in L. rewrite L in Hh. injection Hh as <-. reflexivity.
    + apply (proj2 (letters_cases _ No)) in L. rewrite L in Hh. injection Hh as <-. reflexivity.
    + apply (proj2 (letters_cases _ CsvModel.Auto)) in L. rewrite L in Hh. injection Hh as <-. reflexivity.
Qed.
Lemma column_asked lower a h cc col hint : col_option a = Ok cc -> get_timestamp_col lower h cc = Ok (col, hint) ->
  input_column lower a h col hint.
Proof.
  unfold col_option. intros Hc Hg.
  destruct (a_in_col_date a) as [d|] eqn:Ed.
  - destruct (a_in_col_time a) as [t|] eqn:Et; [|discriminate]. cbn [unwrap bind] in Hc.
    assert (N : (forall k, ~ index_text d k) \/ (forall k, ~ index_text t k) -> cc = CfgDateTimeName d t -> input_column lower a h col hint).
    { intros Hn ->. cbn [get_timestamp_col] in Hg. destruct (get_field_index h d) as [i| | | |] eqn:Ei; try discriminate. cbn [bind] in Hg.
      destruct (get_field_index h t) as [j| | | |] eqn:Ej; try discriminate. cbn [bind] in Hg. injection Hg as <- <-.
      apply field_index in Ei, Ej. eapply two_names; eauto. }
    destruct (parse_usize d) as [i|] eqn:Ei.
    + destruct (parse_usize t) as [j|] eqn:Ej; injection Hc as <-.
      * cbn in Hg. injection Hg as <- <-. apply parse_usize_spec in Ei, Ej. eapply two_numbers; eauto.
      * apply N; [right; now apply parse_usize_none|reflexivity].
    + injection Hc as <-. apply N; [left; now apply parse_usize_none|reflexivity].
  - destruct (a_in_col a) as [c|] eqn:Ec.
    + destruct (parse_usize c) as [i|] eqn:Ei; injection Hc as <-.
      * apply parse_usize_spec in Ei. destruct (proj1 (C85_configured_columns lower h) i) as (u & Hu & Hn). rewrite Hu in Hg. injection Hg as <- <-.
        destruct (nth_error (h_names h) i) as [n|] eqn:En.
        -- eapply one_column; eauto. now left.
        -- cbn [get_timestamp_col] in Hu. rewrite En in Hu. injection Hu as <-. eapply beyond_columns; eauto.
      * cbn [get_timestamp_col] in Hg. destruct (get_field_index h c) as [i| | | |] eqn:Ef; try discriminate. cbn [bind] in Hg. injection Hg as <- <-.
        apply field_index in Ef. eapply one_column; eauto; [right; split; [now apply parse_usize_none|exact Ef]|apply Ef|apply units_suffix_spec].
    + injection Hc as <-. now apply no_column.
Qed.
Lemma format_asked ch lower a h first cc fc (z : tz ch) col hint x fmt : fmt_option a = Ok fc ->
  get_timestamp_col lower h cc = Ok (col, hint) -> row_text first col x ->
  get_col_and_fmt ch lower h first cc fc z = Ok (col, fmt) -> input_format_used ch a col hint x fmt.
Proof.
  intros Ef Hc Hx Hf. pose proof (choice_made _ _ _ _ _ _ _ _ _ _ _ Hc Hx Hf) as M. unfold fmt_option in Ef.
  destruct (a_in_fmt_date a) as [fd|] eqn:E1.
  - destruct (a_in_fmt_time a) as [ft|] eqn:E2; [|discriminate]. cbn [unwrap bind] in Ef. injection Ef as Ef. rewrite <- Ef in M.
    eapply split_format; eauto.
  - destruct (a_in_fmt a) as [f|] eqn:E2.
    + injection Ef as Ef. rewrite <- Ef in M. eapply whole_format; eauto.
    + destruct (a_in_epoch a) as [l|] eqn:E3.
      * destruct (units_from_str l) as [u| | | |] eqn:E4; try discriminate. cbn [bind] in Ef. injection Ef as Ef. rewrite <- Ef in M. subst fmt.
        apply letters_units in E4. eapply epoch_units; eauto.
      * injection Ef as Ef. rewrite <- Ef in M. destruct hint as [u|].
        -- subst fmt. now apply named_units.
        -- destruct M as [M|(N & i & n & u & -> & -> & Nn & Pn)]; [now apply known_format|]. eapply guessed_units; eauto.
Qed.
Theorem C97_input_options : forall prof ch lower f64_ok split table known w a o z lines data s d yes pre raws recs,
  parse_args prof ch table known w a = Ok o ->
  zone_meant (a_timezone a) (w_env_tz w) table known z ->
  csv_new prof ch lower f64_ok split (op_csv_in ch o) lines data = Ok s ->
  (* the records are those between the delimiters asked for, after the header asked for *)
  input_delimiter a lines d -> input_has_header f64_ok a lines d yes ->
  split d data = pre ++ raws -> length pre = (if yes then 1 else 0) ->
  Forall2 decodes raws recs -> (forall r r', In r recs -> In r' recs -> length r = length r') ->
  (* the times are those in the columns asked for, read as asked for, in the zone asked for *)
  exists first more col hint fmt, recs = first :: more /\ input_column lower a (cs_header s) col hint /\
    (forall x, row_text first col x -> input_format_used ch a col hint x fmt) /\
    forall texts times, Forall2 (fun r x => row_text r col x) recs texts -> Forall2 (row_time (zone_in z) fmt) texts times ->
      csv_rows prof ch s = map (fun p => Ok (row_of (fst p) (snd p))) (combine recs times).
Proof.
  intros prof ch lower f64_ok split table known w a o z lines data s d yes pre raws recs H Hz Hn Hd Hy Hs Hl F W.
  destruct (parsed _ _ _ _ _ _ _ H) as (z' & ci & co & Hz' & Hi & _ & Ei & _).
  assert (z' = z) by (eapply zone_det; eauto). subst z'. rewrite Ei in Hn.
  pose proof (records_asked _ _ _ _ _ _ _ _ _ _ _ _ Hi Hd Hy Hs Hl) as Dr.
  destruct (C91_csv_times _ _ _ _ _ _ _ _ _ _ _ Hn Dr F W) as (first & more & col & hint & fmt & -> & Hc & Hf & G).
  destruct (input_options_spec _ _ _ _ Hi) as (Ez & _ & Ef & Ec & _). rewrite Ez in *.
  exists first, more, col, hint, fmt. split; [reflexivity|]. split; [eapply column_asked; eauto|]. split; [|exact G].
  intros x Hx. eapply format_asked; eauto.
Qed.
Print Assumptions C97_input_options.

(** ** Concrete command lines *)
(** chop x.csv --csv-in-delimiter ';' --csv-in-has-header YES --csv-in-ts-col at --csv-in-epoch s
    -E -g ms --delimiter '|' --time-col-name t *)
Definition cli_ex : args :=
  {| a_inputs := Some [b "x.csv"]; a_formats := None; a_output := None; a_timezone := None; a_begin := None; a_end := None;
     a_in_delimiter := Some (b ";"); a_in_has_header := b "YES"; a_in_col := Some (b "at"); a_in_col_date := None; a_in_col_time := None;
     a_in_fmt := None; a_in_fmt_date := None; a_in_fmt_time := None; a_in_epoch := Some (b "s"); a_out_delimiter := b "|";
     a_out_print_time := b "yes"; a_out_time_name := Some (b "t"); a_out_epoch := true; a_out_units := Some (b "ms") |}.
Definition world_ex : world :=
  {| w_exists := fun _ => false; w_is_dir := fun _ => false; w_read_dir := fun _ => Ok []; w_open := fun _ => Err (EIo UnexpectedEof);
     w_http := fun _ => Err (EIo UnexpectedEof); w_stdin := {| i_data := []; i_tail := None; i_plan := [] |}; w_env_tz := None |}.
Definition options_ex : options nochrono :=
  match parse_args Debug nochrono None (fun _ => None) world_ex cli_ex with
  | Ok o => o
  | _ => {| op_range := range_all; op_inputs := []; op_csv_in := back; op_csv_out := csv_output_default |}
  end.
Example C96_nonvacuous :
  parse_args Debug nochrono None (fun _ => None) world_ex cli_ex = Ok options_ex /\
  zone_meant (a_timezone cli_ex) (w_env_tz world_ex) None (fun _ => None : option (zone nochrono)) None /\
  granularity cli_ex Millis /\
  csv_file fl fl (op_csv_out _ options_ex) hx [EvRow {| ts := 1999999999%N; vals := [VString (b "p"); VInt (-2)] |}] =
    b "t,a,n" ++ [byte_of 10] ++ b "1999|p|-2" ++ [byte_of 10].
Proof.
  split; [vm_compute; reflexivity|]. split; [now apply C71_zone_partial|]. split; [constructor|vm_compute; reflexivity].
Qed.
Definition text_ex : bytes := b "id;at" ++ [byte_of 10] ++ b "x;5" ++ [byte_of 10] ++ b "y;6" ++ [byte_of 10].
Example C97_nonvacuous : exists s,
  csv_new Debug nochrono (fun x => x) (fun _ => false) csv_records (op_csv_in _ options_ex) None (file text_ex) = Ok s /\
  input_delimiter cli_ex None (byte_of 59) /\ input_has_header (fun _ => false) cli_ex None (byte_of 59) true /\
  csv_records (byte_of 59) (file text_ex) = [Ok [b "id"; b "at"]] ++ [Ok [b "x"; b "5"]; Ok [b "y"; b "6"]] /\
  Forall2 decodes [Ok [b "x"; b "5"]; Ok [b "y"; b "6"]] [[b "x"; b "5"]; [b "y"; b "6"]] /\
  input_column (fun x => x) cli_ex (cs_header s) (ColIndex 1) None /\
  input_format_used nochrono cli_ex (ColIndex 1) None (b "5") (FUnits Seconds) /\
  csv_rows Debug nochrono s = [Ok (row_of [b "x"; b "5"] 5000000000%N); Ok (row_of [b "y"; b "6"] 6000000000%N)].
Proof.
  eexists. split; [vm_compute; reflexivity|]. split; [left; split; [reflexivity|vm_compute; reflexivity]|].
  split; [left; split; vm_compute; reflexivity|]. split; [vm_compute; reflexivity|].
  split; [repeat constructor; apply string_record_decodes; vm_compute; reflexivity|].
  split; [|split; [eapply epoch_units; try reflexivity; constructor|vm_compute; reflexivity]].
  eapply (column_asked _ cli_ex _ (CfgName (b "at"))); vm_compute; reflexivity.
Qed.
(** With a format given, the one way of reading it that fits the first record is used for all. *)
Example C97_format : input_format_used nochrono
  {| a_inputs := None; a_formats := None; a_output := None; a_timezone := None; a_begin := None; a_end := None;
     a_in_delimiter := None; a_in_has_header := b "auto"; a_in_col := None; a_in_col_date := None; a_in_col_time := None;
     a_in_fmt := None; a_in_fmt_date := None; a_in_fmt_time := None; a_in_epoch := None; a_out_delimiter := b ",";
     a_out_print_time := b "yes"; a_out_time_name := None; a_out_epoch := true; a_out_units := None |}
  (ColIndex 0) (Some Micros) (b "5") (FUnits Micros).
Proof. apply named_units; reflexivity. Qed.

(** Property theorems about whole invocations on CSV and DC files: C103-C105. *)
From Verif Require Import WholeCsvSpec T_Whole T_Whole2 T_CliCsv T_Time T_CsvTime T_Csv T_CsvQuote CsvProofs CsvUtilProofs T_Reader ReaderProofs.
From Verif Require Import TimestampProofs T_DcLayout CsvProofs2.
Local Open Scope nat_scope.

(** ** Choices asked for are made *)
Lemma asked_column lower a h cc col hint : col_option a = Ok cc -> input_column lower a h col hint ->
  get_timestamp_col lower h cc = Ok (col, hint).
Proof.
  unfold col_option. intros Hc H. destruct H as [col u E1 E2 G|s i u n E1 E2 C N U|s i E1 E2 I N|s t i j E1 E2 I J|s t i j E1 E2 Nn I J]; rewrite E1, ?E2 in Hc.
  - injection Hc as <-. exact G.
  - destruct C as [I|[Nx Fn]].
    + apply parse_usize_spec in I. rewrite I in Hc. injection Hc as <-.
      destruct (proj1 (C85_configured_columns lower h) i) as (v & Hv & Hn). rewrite Hv. specialize (Hn n N).
      rewrite (ends_in_unit_det _ _ _ Hn U). reflexivity.
    + apply parse_usize_none in Nx. rewrite Nx in Hc. injection Hc as <-.
      destruct (C85_configured_columns lower h) as (_ & _ & X & _). destruct (X s i Fn) as (v & Hv & Hu). rewrite Hv.
      destruct Fn as [Fn _]. rewrite Fn in N. injection N as <-. rewrite (ends_in_unit_det _ _ _ Hu U). reflexivity.
  - apply parse_usize_spec in I. rewrite I in Hc. injection Hc as <-. cbn [get_timestamp_col]. rewrite N. reflexivity.
  - cbn [unwrap bind] in Hc. apply parse_usize_spec in I, J. rewrite I, J in Hc. injection Hc as <-. reflexivity.
  - cbn [unwrap bind] in Hc.
    assert (E : cc = CfgDateTimeName s t).
    { destruct (parse_usize s) eqn:Es; [|congruence]. destruct (parse_usize t) eqn:Et; [|congruence].
      apply parse_usize_spec in Es, Et. destruct Nn as [Nn|Nn]; [destruct (Nn _ Es)|destruct (Nn _ Et)]. }
    subst cc. destruct (C85_configured_columns lower h) as (_ & _ & _ & _ & X & _). now apply X.
Qed.
Lemma digits_numeral s n : numeral (chars s) n -> all_digits s = true.
Proof.
  unfold all_digits. generalize (chars s). intros cs H. induction H as [c D|s' m c _ IH D]; unfold digit in D.
  - cbn. unfold is_digit. destruct (N.leb_spec 48 c), (N.leb_spec c 57); try lia; reflexivity.
  - rewrite forallb_app, IH. cbn. unfold is_digit. destruct (N.leb_spec 48 c), (N.leb_spec c 57); try lia; reflexivity.
Qed.
Lemma row_time_denotes {ch} (z : tz ch) fmt s t : calendar fmt -> row_time z fmt s t -> exists i, denotes z fmt s i.
Proof. destruct fmt; cbn [row_time]; [intros C _; now destruct (C u)|intros _ (i & H & _); eauto..]. Qed.
Lemma first_calendar ch l s fmt : first_parsing ch l s fmt -> calendar fmt.
Proof. intros (x & y & _ & P & _) u ->. exact P. Qed.
Lemma asked_format ch lower a h first cc fc (z : tz ch) col hint x fmt t :
  fmt_option a = Ok fc -> get_timestamp_col lower h cc = Ok (col, hint) -> row_text first col x ->
  input_format_used ch a col hint x fmt -> row_time z fmt x t ->
  get_col_and_fmt ch lower h first cc fc z = Ok (col, fmt).
Proof.
  intros Hf Hc Ht Hu Hr. destruct (C87_format lower ch h first cc fc z col hint x Hc Ht) as (A & B & C & _).
  unfold fmt_option in Hf.
  assert (G : (fc = FmtAuto -> hint = None) -> first_parsing ch (tried fc col) x fmt -> get_col_and_fmt ch lower h first cc fc z = Ok (col, fmt)).
  { intros X P. destruct (row_time_denotes z fmt x t (first_calendar _ _ _ _ P) Hr) as [i Hi]. now destruct (C X fmt P) as [C1 _]; apply (C1 i). }
  destruct Hu as [d t' fmt E1 E2 P|f fmt E1 E2 P|l u E1 E2 E3 L|u E1 E2 E3 E4|fmt E1 E2 E3 E4 P|i n u E1 E2 E3 E4 N Ei Nn Pn]; rewrite E1, ?E2, ?E3 in Hf.
  - cbn [unwrap bind] in Hf. injection Hf as <-. apply G; [discriminate|exact P].
  - injection Hf as <-. apply G; [discriminate|exact P].
  - apply letters_units in L. rewrite L in Hf. cbn [bind] in Hf. injection Hf as <-. now apply A.
  - injection Hf as <-. now apply B.
  - injection Hf as <-. apply G; [auto|exact P].
  - injection Hf as <-. subst. unfold get_col_and_fmt. rewrite Hc. cbn [bind fmt_auto]. inversion Ht as [i' s' Hi|]; subst.
    destruct (auto_index_outcome ch z first i x Hi) as [(fmt & (bf & af & El & P & _) & _)|[_ ->]].
    + exfalso. apply (N fmt); [rewrite El; apply in_or_app; right; now left|exact P].
    + rewrite (digits_numeral _ _ Nn). destruct Hr as (m & Nm & Et & Lt).
      assert (P : parse_u64 (chars x) = Some n).
      { apply parse_u64_spec. split; [|now left]. rewrite <- (numeral_det _ _ _ Nm Nn). destruct u; cbn [nanos_per] in Et; lia. }
      rewrite P. rewrite (proj2 (detect_spec n u) Pn). reflexivity.
Qed.

(** ** Opening *)
Lemma asked_delimiter ch a z (ci : csv_input ch) lines d : csv_input_options a z = Ok ci ->
  input_delimiter a lines d -> delimiter_used ci lines d.
Proof.
  intros Hi Hd. destruct (input_options_spec _ _ _ _ Hi) as (_ & _ & _ & _ & Dl).
  unfold delimiter_used, input_delimiter in *. destruct (a_in_delimiter a) as [x|].
  + destruct Dl as (d' & -> & Pd). apply C90_delimiter in Hd. congruence.
  + rewrite Dl. exact Hd.
Qed.
Lemma asked_header ch f64_ok a z (ci : csv_input ch) lines d yes : csv_input_options a z = Ok ci ->
  input_has_header f64_ok a lines d yes -> has_header_used f64_ok ci lines d = yes.
Proof.
  intros Hi Hy. destruct (input_options_spec _ _ _ _ Hi) as (_ & Hh & _).
  unfold has_header_used. destruct Hy as [[L ->]|[[L ->]|[L ->]]].
  + apply (proj2 (letters_cases _ Yes)) in L. rewrite L in Hh. injection Hh as <-. reflexivity.
  + apply (proj2 (letters_cases _ No)) in L. rewrite L in Hh. injection Hh as <-. reflexivity.
  + apply (proj2 (letters_cases _ CsvModel.Auto)) in L. rewrite L in Hh. injection Hh as <-. reflexivity.
Qed.
(** A file that can be opened, is. *)
Lemma csv_new_ok prof ch lower f64_ok split (cfg : csv_input ch) lines data d pre raw0 rest names first h col fmt t :
  delimiter_used cfg lines d -> split d data = pre ++ raw0 :: rest ->
  Forall2 decodes pre (if has_header_used f64_ok cfg lines d then [names] else []) -> decodes raw0 first ->
  h_names h = (if has_header_used f64_ok cfg lines d then names else map (fun i => b "col_" ++ dec (N.of_nat i)) (seq 0 (length first))) ->
  h_types h = repeat TString (length first) ->
  get_col_and_fmt ch lower h first (ci_col cfg) (ci_fmt cfg) (ci_tz cfg) = Ok (col, fmt) ->
  get_timestamp prof ch first col fmt (ci_tz cfg) = Ok t ->
  exists s, csv_new prof ch lower f64_ok split cfg lines data = Ok s /\ cs_header s = h /\
    cs_col s = col /\ cs_fmt s = fmt /\ cs_tz s = ci_tz cfg.
Proof.
  intros Id Sp Dp D0 Hn Ht G T. unfold csv_new. cbv zeta.
  match goal with |- exists s, bind ?x _ = _ /\ _ => replace x with (@Ok byte d) end.
  2:{ unfold delimiter_used in Id. destruct (ci_delimiter cfg); [congruence|].
      destruct lines as [[|l ls]|]; cbn [nth_error]; first [congruence | (symmetry; exact Id)]. }
  cbn [bind].
  match goal with |- exists s, bind (if ?x then _ else _) _ = _ /\ _ => replace x with (has_header_used f64_ok cfg lines d) end.
  2:{ unfold has_header_used. destruct (ci_has_header cfg); trivial. destruct lines as [[|l [|l' ls]]|]; reflexivity. }
  pose proof (proj2 (string_record_decodes _ _) D0) as S0.
  destruct h as [hn hty]. cbn [h_names h_types] in *. subst hty.
  destruct (has_header_used f64_ok cfg lines d).
  - inversion Dp as [|p0 ? pre' ? Dn Dp']; subst. inversion Dp'; subst. cbn [app] in Sp. rewrite Sp.
    pose proof (proj2 (string_record_decodes _ _) Dn) as Sn.
    destruct p0 as [p0| | | |]; try discriminate. destruct raw0 as [r0| | | |]; try discriminate. cbn [bind] in *.
    rewrite S0. cbn [bind]. rewrite Sn. cbn [bind]. rewrite G. cbn [bind].
    unfold update_row. rewrite overwrite_spec. cbn [vals]. rewrite repeat_length, Nat.leb_refl, T. cbn [bind].
    eexists. split; [reflexivity|]. cbn. auto.
  - inversion Dp; subst. cbn [app] in Sp. rewrite Sp. destruct raw0 as [r0| | | |]; try discriminate. cbn [bind] in *.
    rewrite S0. cbn [bind]. rewrite G. cbn [bind].
    unfold update_row. rewrite overwrite_spec. cbn [vals]. rewrite repeat_length, Nat.leb_refl, T. cbn [bind].
    eexists. split; [reflexivity|]. cbn. auto.
Qed.
Lemma csv_opens_content prof ch lower f64_ok a z (cfg : csv_input ch) i p h rows :
  csv_input_options a z = Ok cfg -> i_tail i = None -> previewer_new i = Ok p ->
  csv_content lower f64_ok a z (i_data i) h rows ->
  csv_create prof ch lower f64_ok csv_records cfg p = Ok (h, map Ok rows).
Proof.
  intros Hi Hta Hp (lines & d & yes & text & all & clean & names & first & recs & texts & times & col & hint & fmt &
     Fl & Hd & Q1 & Q2 & Q3 & Hy & Hdata & Hbom & Ht & Cl & Ec & W & Hn & Hty & Hcol & Hfmt & Ft & Fm & ->).
  destruct (input_options_spec _ _ _ _ Hi) as (Ez & _ & Ef & Eco & Edl).
  assert (El : get_lines p = lines).
  { destruct Fl as (raw & Pv & L). rewrite <- (C28_preview_is_prefix _ _ Hp) in Pv.
    destruct (C29_lines_proof _ _ _ Hp Pv) as [L1 L2]. destruct lines; [now apply L1|now apply L2]. }
  assert (Dok : delim_ok d).
  { split; [exact Q1|]. unfold is_term. rewrite (proj2 (Ascii.eqb_neq _ _) Q2), (proj2 (Ascii.eqb_neq _ _) Q3). reflexivity. }
  unfold csv_create. rewrite El, (preview_stream _ _ Hp), Hta.
  assert (R : csv_records d {| s_data := i_data i; s_tail := None |} = map Ok all).
  { destruct (records_text d all text Dok Ht Hbom) as [R1 R2]. destruct Hdata as [->| ->]; assumption. }
  assert (Dec : Forall2 decodes (map Ok all) clean).
  { clear - Cl. induction Cl as [|r t rs ts H F IH]; cbn [map]; constructor; [|exact IH]. exists r. split; [reflexivity|exact H]. }
  rewrite Ec in Dec. apply Forall2_app_inv_r in Dec as (pre & raws & Dp & Dr & Ea).
  inversion Dr as [|raw0 ? rest ? D0 Dr']; subst raws. rewrite Ea in R.
  assert (Lp : length pre = if yes then 1 else 0) by (apply GraphProps.Forall2_len in Dp; rewrite Dp; now destruct yes).
  pose proof (asked_delimiter ch a z cfg lines d Hi Hd) as U1. pose proof (asked_header ch f64_ok a z cfg lines d yes Hi Hy) as U2.
  inversion Ft as [|? x0 ? xs Hx0 Ft']; subst. inversion Fm as [|? t0 ? ts0 Ht0 Fm']; subst.
  pose proof (asked_column lower a h _ _ _ Eco Hcol) as Gc.
  pose proof (asked_format ch lower a h first _ _ (zone_in z) col hint x0 fmt t0 Ef Gc Hx0 (Hfmt _ Hx0) Ht0) as Gf.
  rewrite <- Ez in *.
  destruct (csv_new_ok prof ch lower f64_ok csv_records cfg (get_lines p) {| s_data := i_data i; s_tail := None |} d pre raw0 rest names first h col fmt t0)
    as (s & Es & Eh & E1 & E2 & E3); auto.
  { eapply row_time_get; eauto. }
  rewrite Es. cbn [bind]. rewrite Eh. f_equal. f_equal.
  rewrite map_map.
  eapply (C36_same_width_partial prof ch lower f64_ok csv_records cfg (get_lines p) _ s (raw0 :: rest) (first :: recs) (t0 :: ts0)).
  - exact Es.
  - exists d, pre. split; [exact U1|]. split; [exact R|]. exact Lp.
  - constructor; assumption.
  - assert (X : Forall2 (fun r t => get_timestamp prof ch r col fmt (ci_tz cfg) = Ok t) (first :: recs) (t0 :: ts0)).
    { clear - Ft Fm. revert Fm. generalize (t0 :: ts0). induction Ft as [|r x l l' H _ IH]; intros ts Fm; inversion Fm; subst; constructor; [|auto].
      eapply row_time_get; eauto. }
    clear - X E1 E2 E3. induction X as [|r t l l' H _ IH]; constructor; [|exact IH]. unfold timed. rewrite E1, E2, E3. exact H.
  - assert (L : forall r, In r (first :: recs) -> length r = length first).
    { rewrite Forall_forall in W. intros r [<-|Hr]; [reflexivity|auto]. }
    intros r r' Hr Hr'. rewrite (L r Hr), (L r' Hr'). reflexivity.
Qed.

Section Files.
Context (prof : profile) (ch : chrono) (lower : bytes -> bytes) (f64_ok : text -> bool).
Variables (ds : decoders) (inflate bunzip : inner -> inner) (f64 f32 : N -> bytes).
Variables (zones : option (bytes -> option (zone ch))) (parse_zone : bytes -> option (zone ch)).
Variable create : bytes -> res unit.
Local Notation cli := (chopper_cli prof ch lower f64_ok csv_records ds inflate bunzip f64 f32 None None zones parse_zone create).
Local Notation args_of := (parse_args prof ch zones parse_zone).

(** A CSV file (as the options say) or a DC file with a header and rows. *)
Definition input_file (w : world) (a : args) (z : option (zone ch)) (path : bytes) (h : header) (rows : list row) : Prop :=
  (exists data, plain_file w path (b ".csv") data /\ ~ looks_like_zip data /\ csv_content lower f64_ok a z data h rows) \/
  (dc_input w path h rows /\ dc_header_ok h /\ Forall (row_fits h) rows).

Lemma csv_opens w a z cfg path data h rows : csv_input_options a z = Ok cfg ->
  plain_file w path (b ".csv") data -> ~ looks_like_zip data -> csv_content lower f64_ok a z data h rows ->
  create_source_from_input ds inflate bunzip w None (all_factories prof ch lower f64_ok csv_records None cfg)
    {| in_type := Path path; in_format := InputModel.Auto |} = Ok (h, map Ok rows).
Proof.
  intros Hi (f & core & L & Sk & Nm & U & D & T & Sm) Nz C.
  unfold create_source_from_input. cbn [in_type in_format dir_file_transport dt_can_handle].
  rewrite <- D in Nz. rewrite (open_plain ds inflate bunzip w _ _ path f _ L Sk Nz Nm U). destruct L as (_ & -> & _).
  destruct (C27_opens (f_reads f) Sm (or_introl T)) as [p Ep]. rewrite Ep. cbn [bind].
  cbn [create_source_from_previewer]. unfold decompress_using_format.
  pose proof (name_layer_spec (core ++ b ".csv")) as Hl. destruct (is_compressed_using_format _) as [[g c]|].
  { exfalso. inversion Hl as [g' c' En|]; subst. apply (f_equal (@rev ascii)) in En. rewrite !rev_app_distr in En.
    destruct g; cbn in En; discriminate En. }
  cbn [bind]. unfold all_factories, all_source_factories, default_source_factories.
  cbn [app first_by_format csv_factory dc_factory sf_format].
  assert (E1 : ends_with (b ".csv") (core ++ b ".csv") = true) by (apply ends_with_spec; eauto).
  rewrite E1. cbn [sf_create csv_factory].
  rewrite (csv_opens_content prof ch lower f64_ok a z cfg (f_reads f) p h rows Hi T Ep) by (rewrite D; exact C). reflexivity.
Qed.
Lemma file_opens w a z cfg path h rows : csv_input_options a z = Ok cfg -> input_file w a z path h rows ->
  create_source_from_input ds inflate bunzip w None (all_factories prof ch lower f64_ok csv_records None cfg)
    {| in_type := Path path; in_format := InputModel.Auto |} = Ok (h, map Ok rows).
Proof.
  intros Hi [(data & A & B & C)|(A & B & C)]; [eapply csv_opens; eauto|now apply dc_opens].
Qed.

(** The events of a run that succeeds, for any inputs that open and any kind of output that can take the rows. *)
Lemma run_any F w a opts kind h h' k rowss :
  3 <= F ->
  args_of w a = Ok opts ->
  new_header_sink (a_output a) (Some (op_csv_out ch opts)) = Ok kind ->
  (forall p, a_output a = Some p -> create p = Ok tt) ->
  op_inputs ch opts <> [] ->
  Forall2 (fun i rows => create_source_from_input ds inflate bunzip w None (all_factories prof ch lower f64_ok csv_records None (op_csv_in ch opts))
      i = Ok (h, map Ok rows) /\ selected (op_range ch opts) (map Ok rows) <> []) (op_inputs ch opts) rowss ->
  kind_sink f64 f32 kind h = Ok (h', k) ->
  (forall rs past r, In rs rowss -> In r rs -> exists rows, sk_write k past r = Ok rows) ->
  exists calls,
    run_ok (cli F w a) (kind_bytes f64 f32 kind h calls) /\
    Permutation (ev_rows calls) (concat (map (fun rs => selected (op_range ch opts) (map Ok rs)) rowss)) /\
    (Forall time_ordered rowss ->
       time_ordered (ev_rows calls) /\
       forall t, filter (fun r => (ts r =? t)%N) (ev_rows calls) =
         concat (map (fun rs => filter (fun r => (ts r =? t)%N) (selected (op_range ch opts) (map Ok rs))) (rev rowss))) /\
    (forall rs, rowss = [rs] -> ev_rows calls = selected (op_range ch opts) (map Ok rs)) /\
    (forall r, In r (ev_rows calls) -> exists rs, In rs rowss /\ In r rs).
Proof.
  intros HF Ea Ek Ec Hp H2 Ho Hw.
  set (inputs := map (fun rs => (h, map Ok rs : source)) rowss).
  assert (Op : Forall2 (opens prof ch lower f64_ok csv_records ds inflate bunzip None None w opts) (op_inputs ch opts) inputs).
  { unfold inputs. clear - H2. induction H2 as [|p rs ps rss (A & _) H2 IH]; [constructor|].
    constructor; [|exact IH]. exact A. }
  assert (Hne : inputs <> []).
  { unfold inputs. intro E. apply map_eq_nil in E. subst. inversion H2; subst. congruence. }
  assert (Hh : forall i, In i inputs -> fst i = h).
  { intros i Hi. unfold inputs in Hi. apply in_map_iff in Hi as (rs & <- & _). reflexivity. }
  assert (Sel : forall rs r, In r (selected (op_range ch opts) (map Ok rs)) -> In r rs).
  { intros rs r Hr. unfold selected in Hr. apply filter_In in Hr as [Hr _].
    replace (rows_before_failure (map Ok rs)) with rs in Hr by (clear; induction rs; cbn; congruence).
    clear - Hr. induction rs as [|x rs IH]; [destruct Hr|]. cbn [until_end] in Hr.
    destruct (before_end _ _); [|destruct Hr]. destruct Hr as [->|Hr]; [now left|right; auto]. }
  assert (E0 : exit_code (cli F w a) = 0%N).
  { eapply (C73_success prof ch lower f64_ok csv_records ds inflate bunzip f64 f32 None None zones parse_zone create F w a opts inputs kind h h' k); eauto.
    - intros i past r Hi Hr. unfold inputs in Hi. apply in_map_iff in Hi as (rs & <- & Hi). eapply Hw; eauto.
    - intros i Hi. unfold inputs in Hi. apply in_map_iff in Hi as (rs & <- & Hi). cbn [snd].
      destruct (Forall2_in_r _ _ _ _ H2 Hi) as (p & _ & _ & C). split; [|exact C].
      clear. induction rs as [|r rs IH]; cbn; auto. }
  unfold exit_code in E0. revert E0. unfold chopper_cli. rewrite Ea. unfold run_chop.
  apply open_inputs_ok in Op. rewrite Op, Ek.
  destruct (match kind_path kind with Some p => create p | None => Ok tt end) as [u| | | |]; cbn [o_result]; try discriminate.
  destruct (chop F inputs (kind_sink f64 f32 kind) (op_range ch opts)) as [st r] eqn:Ech. cbn [o_result].
  intro E0. assert (r = Ok tt) as -> by (destruct r as [[]| | | |]; try discriminate; reflexivity).
  rewrite (output_header_same _ _ Hne Hh).
  destruct (chop_ok _ _ _ _ _ _ _ _ Hne Hh Ho Ech) as (_ & P & So & _).
  destruct (chop_order _ _ _ _ _ _ _ _ Hne Hh Ho Ech) as (Ti & Si).
  set (evs := events_at (r_log st) (out_chain (length inputs)) (out_node (length inputs))) in *.
  assert (Ms : map (selected (op_range ch opts)) (map snd inputs) = map (fun rs => selected (op_range ch opts) (map Ok rs)) rowss).
  { unfold inputs. rewrite !map_map. reflexivity. }
  rewrite Ms in P.
  exists evs. split; [reflexivity|]. split; [exact P|]. split; [|split].
  - intro Or. assert (Or' : forall i, In i inputs -> time_ordered (rows_before_failure (snd i))).
    { intros i Hi. unfold inputs in Hi. apply in_map_iff in Hi as (rs & <- & Hi). cbn [snd].
      replace (rows_before_failure (map Ok rs)) with rs by (clear; induction rs; cbn; congruence).
      rewrite Forall_forall in Or. auto. }
    split; [exact (So Or')|]. intro t. rewrite (Ti Or' t). unfold inputs. rewrite <- map_rev, map_map. reflexivity.
  - intros rs ->. exact (Si (h, map Ok rs) eq_refl).
  - intros r Hr. eapply Permutation_in in Hr; [|exact P]. apply in_concat in Hr as (l & Hl & Hr).
    apply in_map_iff in Hl as (rs & <- & Hl). eauto.
Qed.

Lemma paths_asked w a opts paths : a_inputs a = Some paths -> paths <> [] -> a_formats a = None -> args_of w a = Ok opts ->
  op_inputs ch opts = map (fun p => {| in_type := Path p; in_format := InputModel.Auto |}) paths.
Proof.
  intros Ain Hp Af Ea. unfold parse_args in Ea. destruct (resolve_timezone _ _ _ _); try discriminate. cbn [bind] in Ea.
  destruct (timestamp_range _ _ _ _ _); try discriminate. cbn [bind] in Ea. rewrite Ain, Af in Ea.
  destruct (cli_inputs _ _) as [ins| | | |] eqn:Eins; try discriminate. cbn [bind] in Ea.
  destruct (csv_input_options a _); try discriminate. cbn [bind] in Ea.
  destruct (csv_output_options a _); try discriminate. injection Ea as <-. cbn [op_inputs].
  destruct (C55_defaults paths Hp) as [X _]. rewrite X in Eins. injection Eins as <-. reflexivity.
Qed.
Lemma whole_run_opened F w a opts paths kind h h' k rowss :
  3 <= F ->
  a_inputs a = Some paths -> paths <> [] -> a_formats a = None ->
  args_of w a = Ok opts ->
  new_header_sink (a_output a) (Some (op_csv_out ch opts)) = Ok kind ->
  (forall p, a_output a = Some p -> create p = Ok tt) ->
  Forall2 (fun path rows => create_source_from_input ds inflate bunzip w None (all_factories prof ch lower f64_ok csv_records None (op_csv_in ch opts))
      {| in_type := Path path; in_format := InputModel.Auto |} = Ok (h, map Ok rows) /\ selected (op_range ch opts) (map Ok rows) <> []) paths rowss ->
  kind_sink f64 f32 kind h = Ok (h', k) ->
  (forall rs past r, In rs rowss -> In r rs -> exists rows, sk_write k past r = Ok rows) ->
  exists calls,
    run_ok (cli F w a) (kind_bytes f64 f32 kind h calls) /\
    Permutation (ev_rows calls) (concat (map (fun rs => selected (op_range ch opts) (map Ok rs)) rowss)) /\
    (Forall time_ordered rowss ->
       time_ordered (ev_rows calls) /\
       forall t, filter (fun r => (ts r =? t)%N) (ev_rows calls) =
         concat (map (fun rs => filter (fun r => (ts r =? t)%N) (selected (op_range ch opts) (map Ok rs))) (rev rowss))) /\
    (forall rs, rowss = [rs] -> ev_rows calls = selected (op_range ch opts) (map Ok rs)) /\
    (forall r, In r (ev_rows calls) -> exists rs, In rs rowss /\ In r rs).
Proof.
  intros HF Ain Hp Af Ea Ek Ec H2 Ho Hw. pose proof (paths_asked w a opts paths Ain Hp Af Ea) as Ei.
  apply (run_any F w a opts kind h h' k rowss); auto; rewrite Ei.
  - intro E. apply map_eq_nil in E. congruence.
  - clear - H2. induction H2; constructor; auto.
Qed.

(** Files that open. *)
Lemma files_open w a opts z paths h rowss : a_inputs a = Some paths -> paths <> [] -> a_formats a = None ->
  args_of w a = Ok opts -> zone_meant (a_timezone a) (w_env_tz w) zones parse_zone z ->
  Forall2 (fun path rows => input_file w a z path h rows /\ selected (op_range ch opts) (map Ok rows) <> []) paths rowss ->
  op_inputs ch opts <> [] /\
  Forall2 (fun i rows => create_source_from_input ds inflate bunzip w None (all_factories prof ch lower f64_ok csv_records None (op_csv_in ch opts))
      i = Ok (h, map Ok rows) /\ selected (op_range ch opts) (map Ok rows) <> []) (op_inputs ch opts) rowss.
Proof.
  intros Ain Hp Af Ea Hz H2.
  destruct (parsed _ _ _ _ _ _ _ Ea) as (z' & ci & co & Hz' & Hci & _ & Eci & _).
  assert (z' = z) by (eapply zone_det; eauto). subst z'.
  rewrite (paths_asked w a opts paths Ain Hp Af Ea). split; [intro E; apply map_eq_nil in E; congruence|].
  clear - H2 Hci Eci. induction H2 as [|p rs ps rss (A & B) H2 IH]; [constructor|].
  constructor; [|exact IH]. split; [|exact B]. rewrite Eci. eapply file_opens; eauto.
Qed.
(** Every value of a type that a file can have has a text. *)
Lemma fits_text h r : row_fits h r -> exists texts, Forall2 (value_text f64 f32) (vals r) texts.
Proof.
  intros [_ Fv]. induction Fv as [|t v ts vs H _ (texts & IH)]; [exists []; constructor|].
  assert (X : exists x, value_text f64 f32 v x).
  { assert (Sd : forall q, exists s, signed_decimal q s).
    { intro q. destruct (Z.le_gt_cases 0 q) as [L|L].
      - exists (dec (Z.to_N q)). rewrite <- (Z2N.id q L) at 1. constructor.
      - exists (b "-" ++ dec (Z.to_N (- q))). replace q with (- Z.of_N (Z.to_N (- q)))%Z at 1 by lia. constructor. lia. }
    destruct v as [| | | | | |q|q|q| |]; try (destruct t; destruct H; fail);
      try (eexists; constructor; fail); destruct (Sd q) as [s Hs]; exists s; constructor; exact Hs. }
  destruct X as [x X]. exists (x :: texts). now constructor.
Qed.
Lemma csv_content_text a (z : option (zone ch)) data h rows : csv_content lower f64_ok a z data h rows ->
  forall r, In r rows -> exists texts, Forall2 (value_text f64 f32) (vals r) texts.
Proof.
  intros (lines & d & yes & text & all & clean & names & first & recs & texts & times & col & hint & fmt & C) r Hr.
  assert (E : rows = map (fun p => row_of (fst p) (snd p)) (combine (first :: recs) times)) by tauto.
  rewrite E in Hr. apply in_map_iff in Hr as ([x t] & <- & _). exists x. cbn [row_of vals fst].
  clear. induction x; cbn; constructor; auto. constructor.
Qed.

(** The output is CSV: the standard output, or a name ending so. *)
Definition csv_name (o : option bytes) : Prop := o = None \/ exists p, o = Some (p ++ b "csv").
Lemma csv_any F w a opts z u h rowss :
  3 <= F -> csv_name (a_output a) ->
  args_of w a = Ok opts -> zone_meant (a_timezone a) (w_env_tz w) zones parse_zone z -> granularity a u ->
  (forall p, a_output a = Some p -> create p = Ok tt) ->
  (a_out_print_time a = b "yes" -> a_out_epoch a = false -> z <> None) ->
  h_names h <> [] ->
  op_inputs ch opts <> [] ->
  Forall2 (fun i rows => create_source_from_input ds inflate bunzip w None (all_factories prof ch lower f64_ok csv_records None (op_csv_in ch opts))
      i = Ok (h, map Ok rows) /\ selected (op_range ch opts) (map Ok rows) <> []) (op_inputs ch opts) rowss ->
  (forall rs r, In rs rowss -> In r rs -> exists texts, Forall2 (value_text f64 f32) (vals r) texts) ->
  exists header rows lines,
    run_ok (cli F w a) (header ++ [byte_of 10] ++ concat (map (fun l => l ++ [byte_of 10]) lines)) /\
    output_header_line a u h header /\ Forall2 (output_line f64 f32 a z u) rows lines /\
    Permutation rows (concat (map (fun rs => selected (op_range ch opts) (map Ok rs)) rowss)) /\
    (Forall time_ordered rowss ->
       time_ordered rows /\
       forall t, filter (fun r => (ts r =? t)%N) rows =
         concat (map (fun rs => filter (fun r => (ts r =? t)%N) (selected (op_range ch opts) (map Ok rs))) (rev rowss))) /\
    (forall rs, rowss = [rs] -> rows = selected (op_range ch opts) (map Ok rs)).
Proof.
  intros HF Hcsv Ea Hz Hu Ec Hzone Hnm Hp H2 Tx.
  assert (Ek : exists p, new_header_sink (a_output a) (Some (op_csv_out ch opts)) = Ok (OutCsv p (op_csv_out ch opts))).
  { destruct Hcsv as [->|[p ->]]; [eexists; reflexivity|]. eexists.
    apply (C63_output_kind (Some (op_csv_out ch opts)) (p ++ b "csv")). eauto. }
  destruct Ek as [op Ek].
  assert (Ln : forall r texts, Forall2 (value_text f64 f32) (vals r) texts ->
     exists header l, csv_header_bytes (op_csv_out ch opts) h = header ++ [byte_of 10] /\ output_header_line a u h header /\
       csv_write_row f64 f32 (op_csv_out ch opts) r = (l ++ [byte_of 10], Ok tt) /\ output_line f64 f32 a z u r l).
  { intros r texts V.
    destruct (C96_output_options prof ch zones parse_zone w a opts z u f64 f32 h r texts Ea Hz Hu Hnm V) as [(P & A & B)|(P & A & B & _)].
    - eexists _, _. split; [exact A|]. split; [left; split; [exact P|reflexivity]|]. split; [exact B|]. exists texts. split; [exact V|]. left. auto.
    - assert (T : exists t, output_time a z u (ts r) t).
      { unfold output_time. destruct (a_out_epoch a) eqn:Eo; [eexists; reflexivity|]. destruct z as [g|]; [|destruct (Hzone P eq_refl eq_refl)].
        eexists. exists g. split; reflexivity. }
      destruct T as [t T]. eexists _, _. split; [exact A|]. split; [right; split; [exact P|reflexivity]|].
      split; [apply B, T|]. exists texts. split; [exact V|]. right. split; [exact P|]. exists t. auto. }
  destruct (run_any F w a opts (OutCsv op (op_csv_out ch opts)) h h (csv_sink f64 f32 (op_csv_out ch opts)) rowss)
    as (calls & R & Pm & So & Si & In'); auto.
  { intros rs past r Hrs Hr. destruct (Tx rs r Hrs Hr) as [texts V]. destruct (Ln r texts V) as (_ & l & _ & _ & E & _).
    unfold csv_sink. cbn [sk_write]. rewrite E. cbn. eauto. }
  assert (Hd : exists header, csv_header_bytes (op_csv_out ch opts) h = header ++ [byte_of 10] /\ output_header_line a u h header).
  { assert (X : exists r0 : row, vals r0 = []) by (exists {| ts := 0%N; vals := [] |}; reflexivity). destruct X as [r0 X].
    destruct (Ln r0 []) as (hd & _ & A & B & _); [rewrite X; constructor|]. eauto. }
  destruct Hd as (header & Eh & Hh).
  assert (Ls : exists lines, csv_rows_bytes f64 f32 (op_csv_out ch opts) calls = concat (map (fun l => l ++ [byte_of 10]) lines) /\
     Forall2 (output_line f64 f32 a z u) (ev_rows calls) lines).
  { clear - In' Tx Ln. induction calls as [|[r|] calls IH].
    - exists []. split; [reflexivity|constructor].
    - cbn [ev_rows] in *. destruct (In' r (or_introl eq_refl)) as (rs & A & B). destruct (Tx rs r A B) as [texts V].
      destruct (Ln r texts V) as (_ & l & _ & _ & E & O). destruct IH as (ls & L1 & L2); [intros; apply In'; now right|].
      exists (l :: ls). split; [|constructor; assumption]. cbn [csv_rows_bytes map concat]. rewrite E, L1. reflexivity.
    - cbn [ev_rows csv_rows_bytes] in *. exact (IH In'). }
  destruct Ls as (lines & L1 & L2). exists header, (ev_rows calls), lines.
  split; [|split; [exact Hh|split; [exact L2|split; [exact Pm|split; [exact So|exact Si]]]]].
  unfold kind_bytes in R. unfold csv_file in R. rewrite Eh, L1, <- app_assoc in R. exact R.
Qed.

(** ** C104: any CSV and DC files with the same columns, into CSV *)
Theorem C104_to_csv : forall F w a opts z u paths h rowss,
  3 <= F ->
  a_inputs a = Some paths -> paths <> [] -> a_formats a = None -> csv_name (a_output a) ->
  args_of w a = Ok opts -> zone_meant (a_timezone a) (w_env_tz w) zones parse_zone z -> granularity a u ->
  (forall p, a_output a = Some p -> create p = Ok tt) ->
  (* dates and times need a zone *)
  (a_out_print_time a = b "yes" -> a_out_epoch a = false -> z <> None) ->
  h_names h <> [] ->
  Forall2 (fun path rows => input_file w a z path h rows /\ selected (op_range ch opts) (map Ok rows) <> []) paths rowss ->
  exists header rows lines,
    run_ok (cli F w a) (header ++ [byte_of 10] ++ concat (map (fun l => l ++ [byte_of 10]) lines)) /\
    output_header_line a u h header /\ Forall2 (output_line f64 f32 a z u) rows lines /\
    Permutation rows (concat (map (fun rs => selected (op_range ch opts) (map Ok rs)) rowss)) /\
    (Forall time_ordered rowss ->
       time_ordered rows /\
       forall t, filter (fun r => (ts r =? t)%N) rows =
         concat (map (fun rs => filter (fun r => (ts r =? t)%N) (selected (op_range ch opts) (map Ok rs))) (rev rowss))) /\
    (forall rs, rowss = [rs] -> rows = selected (op_range ch opts) (map Ok rs)).
Proof.
  intros F w a opts z u paths h rowss HF Ain Hp Af Hcsv Ea Hz Hu Ec Hzone Hnm H2.
  destruct (files_open w a opts z paths h rowss Ain Hp Af Ea Hz H2) as [Ne Op].
  apply (csv_any F w a opts z u h rowss); auto.
  intros rs r Hrs Hr. destruct (Forall2_in_r _ _ _ _ H2 Hrs) as (p & _ & [Hi|Hi] & _).
  - destruct Hi as (data & _ & _ & C). eapply csv_content_text; eauto.
  - destruct Hi as (_ & _ & Fr). rewrite Forall_forall in Fr. apply (fits_text h), Fr, Hr.
Qed.

Lemma dc_any F w a opts out h rowss :
  3 <= F -> a_output a = Some (out ++ b "dc") ->
  args_of w a = Ok opts -> create (out ++ b "dc") = Ok tt ->
  dc_header_ok h ->
  op_inputs ch opts <> [] ->
  Forall2 (fun i rows => create_source_from_input ds inflate bunzip w None (all_factories prof ch lower f64_ok csv_records None (op_csv_in ch opts))
      i = Ok (h, map Ok rows) /\ selected (op_range ch opts) (map Ok rows) <> []) (op_inputs ch opts) rowss ->
  (forall rs r, In rs rowss -> In r rs -> row_fits h r) ->
  exists written rows,
    run_ok (cli F w a) written /\
    dc_read (DcSpec.file written) = Ok (h, (rows, Ok tt)) /\
    Permutation rows (concat (map (fun rs => selected (op_range ch opts) (map Ok rs)) rowss)) /\
    (Forall time_ordered rowss ->
       time_ordered rows /\
       forall t, filter (fun r => (ts r =? t)%N) rows =
         concat (map (fun rs => filter (fun r => (ts r =? t)%N) (selected (op_range ch opts) (map Ok rs))) (rev rowss))) /\
    (forall rs, rowss = [rs] -> rows = selected (op_range ch opts) (map Ok rs)).
Proof.
  intros HF Ao Ea Ec Hok Hp H2 Fits.
  pose proof Hok as (Hf & L2 & L8 & _).
  destruct (proj2 (bitset_agree _) (conj L2 L8)) as (n & Ew & Er).
  assert (Ho : dc_header_sink h = Ok (h, dc_sink n)).
  { unfold dc_header_sink. rewrite (header_bytes h Hf). cbn [snd]. rewrite Ew. reflexivity. }
  destruct (run_any F w a opts (OutDc (out ++ b "dc")) h h (dc_sink n) rowss) as (calls & R & Pm & So & Si & In'); auto.
  { rewrite Ao. apply C63_output_kind. eauto. }
  { intros p E. rewrite Ao in E. injection E as <-. exact Ec. }
  { intros rs past r Hrs Hr. cbn [dc_sink sk_write]. rewrite (row_bytes n h r) by (eapply Fits; eauto). cbn. eauto. }
  exists (dc_file h calls), (ev_rows calls). split; [exact R|]. split; [|auto].
  pose proof (dc_roundtrip h calls None Hf L2 L8) as X. rewrite (with_names_kept h Hok) in X. apply X.
  apply Forall_forall. intros r Hr. destruct (In' r Hr) as (rs & A & B). eapply Fits; eauto.
Qed.

(** ** C105: and into a DC file *)
Theorem C105_to_dc : forall F w a opts z paths out h rowss,
  3 <= F ->
  a_inputs a = Some paths -> paths <> [] -> a_formats a = None -> a_output a = Some (out ++ b "dc") ->
  args_of w a = Ok opts -> zone_meant (a_timezone a) (w_env_tz w) zones parse_zone z -> create (out ++ b "dc") = Ok tt ->
  dc_header_ok h ->
  Forall2 (fun path rows => input_file w a z path h rows /\ Forall (row_fits h) rows /\
             selected (op_range ch opts) (map Ok rows) <> []) paths rowss ->
  exists written rows,
    run_ok (cli F w a) written /\
    dc_read (DcSpec.file written) = Ok (h, (rows, Ok tt)) /\
    Permutation rows (concat (map (fun rs => selected (op_range ch opts) (map Ok rs)) rowss)) /\
    (Forall time_ordered rowss ->
       time_ordered rows /\
       forall t, filter (fun r => (ts r =? t)%N) rows =
         concat (map (fun rs => filter (fun r => (ts r =? t)%N) (selected (op_range ch opts) (map Ok rs))) (rev rowss))) /\
    (forall rs, rowss = [rs] -> rows = selected (op_range ch opts) (map Ok rs)).
Proof.
  intros F w a opts z paths out h rowss HF Ain Hp Af Ao Ea Hz Ec Hok H2.
  destruct (files_open w a opts z paths h rowss Ain Hp Af Ea Hz) as [Ne Op].
  { clear - H2. induction H2 as [|p rs ps rss (A & _ & B) H2 IH]; constructor; auto. }
  apply (dc_any F w a opts out h rowss); auto.
  intros rs r Hrs Hr. destruct (Forall2_in_r _ _ _ _ H2 Hrs) as (p & _ & _ & B & _). rewrite Forall_forall in B. auto.
Qed.
End Files.
Print Assumptions C104_to_csv.
Print Assumptions C105_to_dc.

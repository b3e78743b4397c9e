(** Property theorems relating several runs of the program: C123-C126. *)
From Verif Require Export LawsSpec.
From Verif Require Import T_Whole T_Whole2 T_CliCsv T_WholeCsv T_WholeAny T_Csv T_Input T_Options DriveTop DcProofs T_Pack.
Local Open Scope nat_scope.
Local Notation in_range := StreamSpec.in_range.
Local Notation at_time t := (fun r => (ts r =? t)%N).

(** ** Rows in time order are determined by the rows of each time *)
Lemma rows_cons r rs rs' t : filter (at_time t) (r :: rs) = filter (at_time t) rs' -> t = ts r ->
  exists x y, rs' = x ++ r :: y /\ filter (at_time t) x = [].
Proof.
  intros E ->. cbn [filter] in E. rewrite N.eqb_refl in E. symmetry in E. revert E.
  induction rs' as [|q rs' IH]; cbn [filter]; intro E; [discriminate|]. destruct (ts q =? ts r)%N eqn:Q.
  - injection E as -> _. exists [], rs'. auto.
  - destruct (IH E) as (x & y & -> & Hx). exists (q :: x), y. cbn [filter app]. rewrite Q. auto.
Qed.
Lemma by_times_unique rs : forall rs', time_ordered rs -> time_ordered rs' ->
  (forall t, filter (at_time t) rs = filter (at_time t) rs') -> rs = rs'.
Proof.
  intros rs' S1 S2. apply Sorted_StronglySorted in S1; [|exact ts_le_trans]. apply Sorted_StronglySorted in S2; [|exact ts_le_trans].
  revert rs' S2. induction S1 as [|r rs S1 IH Hr]; intros rs' S2 E.
  - destruct rs' as [|q rs']; [reflexivity|]. specialize (E (ts q)). cbn [filter] in E. rewrite N.eqb_refl in E. discriminate.
  - destruct rs' as [|q rs']; [specialize (E (ts r)); cbn [filter] in E; rewrite N.eqb_refl in E; discriminate|].
    apply StronglySorted_inv in S2 as [S2 Hq]. rewrite Forall_forall in Hr, Hq.
    assert (Tq : ts q = ts r).
    { assert (A : In r (q :: rs')).
      { assert (X : In r (filter (at_time (ts r)) (r :: rs))) by (apply filter_In; split; [now left|apply N.eqb_refl]).
        rewrite E in X. now apply filter_In in X as [X _]. }
      assert (B : In q (r :: rs)).
      { assert (X : In q (filter (at_time (ts q)) (q :: rs'))) by (apply filter_In; split; [now left|apply N.eqb_refl]).
        rewrite <- E in X. now apply filter_In in X as [X _]. }
      destruct A as [<-|A]; [reflexivity|]. destruct B as [<-|B]; [reflexivity|].
      specialize (Hr _ B). specialize (Hq _ A). unfold ts_le in *. lia. }
    pose proof (E (ts r)) as Er. cbn [filter] in Er. rewrite Tq, N.eqb_refl in Er. injection Er as <- Er.
    f_equal. apply IH; [exact S2|]. intro t. specialize (E t). cbn [filter] in E. destruct (ts r =? t)%N; congruence.
Qed.

(** ** The rows selected of an input in time order *)
Lemma selected_rows rng rows : time_ordered rows -> selected rng (map Ok rows) = filter (in_range rng) rows.
Proof.
  intro Hs. unfold selected. replace (rows_before_failure (map Ok rows)) with rows by (clear; induction rows; cbn; congruence).
  apply Sorted_StronglySorted in Hs; [|exact ts_le_trans]. rewrite (until_end_sorted _ _ Hs), filter_filter. reflexivity.
Qed.
Lemma filter_sorted f rows : time_ordered rows -> time_ordered (filter f rows).
Proof.
  intro Hs. apply Sorted_StronglySorted in Hs; [|exact ts_le_trans]. apply StronglySorted_Sorted.
  induction Hs as [|r rows S IH H]; cbn [filter]; [constructor|]. destruct (f r); [|exact IH]. constructor; [exact IH|].
  rewrite Forall_forall in *. intros x Hx. apply filter_In in Hx as [Hx _]. auto.
Qed.
Lemma filter_concat {A} (f : A -> bool) ls : filter f (concat ls) = concat (map (filter f) ls).
Proof. induction ls as [|l ls IH]; [reflexivity|]. cbn. now rewrite filter_app, IH. Qed.

Section Laws.
Context (prof : profile) (ch : chrono) (lower : bytes -> bytes) (f64_ok : text -> bool).
Variables (ds : decoders) (inflate bunzip : inner -> inner) (f64 f32 : N -> bytes).
Variables (zones : option (bytes -> option (zone ch))) (parse_zone : bytes -> option (zone ch)).
Variable create : bytes -> res unit.
Local Notation cli := (chopper_cli prof ch lower f64_ok csv_records ds inflate bunzip f64 f32 None None zones parse_zone create).
Local Notation args_of := (parse_args prof ch zones parse_zone).
Local Notation gives w a z h path rows := (input_gives lower f64_ok ds inflate bunzip w a z h InputModel.Auto (Path path) rows).
Local Notation meant a w z := (zone_meant (a_timezone a) (w_env_tz w) zones parse_zone z).

(** ** Command lines that differ in inputs, output and range *)
Lemma csv_content_asked a ins out s e (z : option (zone ch)) data h rows :
  csv_content lower f64_ok a z data h rows -> csv_content lower f64_ok (asked a ins out s e) z data h rows.
Proof.
  intros (lines & d & yes & text & all & clean & names & first & recs & texts & times & col & hint & fmt &
     Fl & Hd & Q1 & Q2 & Q3 & Hy & Hdata & Hbom & Ht & Cl & Ec & W & Hn & Hty & Hcol & Hfmt & Ft & Fm & E).
  exists lines, d, yes, text, all, clean, names, first, recs, texts, times, col, hint, fmt.
  do 14 (split; [assumption|]). split; [|split; [|auto]].
  - destruct Hcol; [eapply no_column|eapply one_column|eapply beyond_columns|eapply two_numbers|eapply two_names]; eauto.
  - intros x Hx. destruct (Hfmt x Hx);
      [eapply split_format|eapply whole_format|eapply epoch_units|eapply named_units|eapply known_format|eapply guessed_units]; eauto.
Qed.
Lemma content_asked a ins out s e (z : option (zone ch)) h k data rows :
  content lower f64_ok a z h k data rows -> content lower f64_ok (asked a ins out s e) z h k data rows.
Proof. destruct k; [apply csv_content_asked|auto]. Qed.
Lemma gives_asked w a ins out s e (z : option (zone ch)) h fmt t rows :
  input_gives lower f64_ok ds inflate bunzip w a z h fmt t rows -> input_gives lower f64_ok ds inflate bunzip w (asked a ins out s e) z h fmt t rows.
Proof.
  assert (F : forall p rs, file_gives lower f64_ok ds inflate bunzip w a z h fmt p rs ->
     file_gives lower f64_ok ds inflate bunzip w (asked a ins out s e) z h fmt p rs).
  { intros p rs (n & c & data & k & A & B & C). exists n, c, data, k. split; [exact A|]. split; [exact B|]. now apply content_asked. }
  intros [path rs Fg|c data k rs D R C|path entries files rowss Hd Hr Fo Ne An Wf F2].
  - constructor. auto.
  - econstructor; eauto. now apply content_asked.
  - eapply gives_directory; eauto. clear - F2 F. induction F2; constructor; auto.
Qed.
Lemma args_asked w a ins out s e opts z : meant a w z -> args_of w (asked a ins out s e) = Ok opts ->
  ins <> [] /\ csv_output_options a z = Ok (op_csv_out ch opts) /\
  timestamp_range prof ch s e (zone_in z) = Ok (op_range ch opts) /\
  exists ci, csv_input_options a z = Ok ci.
Proof.
  intros Hz H. unfold parse_args in H. change (a_timezone (asked a ins out s e)) with (a_timezone a) in H.
  apply C71_zone_partial in Hz. rewrite Hz in H. cbn [bind asked a_begin a_end] in H.
  destruct (timestamp_range _ _ _ _ _) as [rng| | | |] eqn:Er; try discriminate. cbn [bind] in H.
  destruct (cli_inputs _ _) as [l| | | |] eqn:Ei; try discriminate. cbn [bind] in H.
  change (csv_input_options (asked a ins out s e) z) with (csv_input_options a z) in H.
  change (csv_output_options (asked a ins out s e) z) with (csv_output_options a z) in H.
  destruct (csv_input_options a z) as [ci| | | |]; try discriminate. cbn [bind] in H.
  destruct (csv_output_options a z) as [co| | | |]; try discriminate. injection H as <-. cbn [op_csv_out op_range].
  split; [intros ->; discriminate|]. eauto.
Qed.
Lemma asked_args w a ins out s e ci co rng z : meant a w z -> ins <> [] -> csv_input_options a z = Ok ci ->
  csv_output_options a z = Ok co -> timestamp_range prof ch s e (zone_in z) = Ok rng ->
  exists opts, args_of w (asked a ins out s e) = Ok opts /\ op_csv_out ch opts = co /\ op_range ch opts = rng.
Proof.
  intros Hz Hi Hci Hco Hr. unfold parse_args. change (a_timezone (asked a ins out s e)) with (a_timezone a).
  apply C71_zone_partial in Hz. rewrite Hz. cbn [bind].
  change (a_begin (asked a ins out s e)) with s. change (a_end (asked a ins out s e)) with e. rewrite Hr. cbn [bind].
  change (a_formats (asked a ins out s e)) with (@None (list bytes)). change (a_inputs (asked a ins out s e)) with (Some ins).
  rewrite (proj1 (C55_defaults ins Hi)). cbn [bind].
  change (csv_input_options (asked a ins out s e) z) with (csv_input_options a z). rewrite Hci. cbn [bind].
  change (csv_output_options (asked a ins out s e) z) with (csv_output_options a z). rewrite Hco. cbn [bind].
  eexists. split; [reflexivity|]. split; reflexivity.
Qed.

(** ** The bytes of an output *)
Definition head_of (k : file_kind) (co : csv_output) (h : header) : bytes :=
  match k with KCsv => csv_header_bytes co h | KDc => fst (dc_process_header h) end.
Definition line_of (k : file_kind) (co : csv_output) (h : header) (r : row) : bytes :=
  match k with
  | KCsv => fst (csv_write_row f64 f32 co r)
  | KDc => match snd (dc_process_header h) with Ok n => fst (dc_write_row n r) | _ => [] end
  end.
Definition out_of (k : file_kind) (co : csv_output) (out : option bytes) : output_kind :=
  match k with KCsv => OutCsv out co | KDc => OutDc (match out with Some p => p | None => [] end) end.
Lemma bytes_of k co out h calls : kind_bytes f64 f32 (out_of k co out) h calls = head_of k co h ++ concat (map (line_of k co h) (ev_rows calls)).
Proof.
  unfold line_of. destruct k; cbn [kind_bytes out_of head_of].
  - unfold csv_file. f_equal. induction calls as [|[r|] calls IH]; cbn [csv_rows_bytes ev_rows map concat]; rewrite ?IH; reflexivity.
  - unfold dc_file. f_equal. destruct (snd (dc_process_header h)) as [n| | | |].
    + induction calls as [|[r|] calls IH]; cbn [dc_rows_bytes ev_rows map concat]; rewrite ?IH; reflexivity.
    + clear. induction (ev_rows calls); auto.
    + clear. induction (ev_rows calls); auto.
    + clear. induction (ev_rows calls); auto.
    + clear. induction (ev_rows calls); auto.
Qed.
Lemma kind_of k co out : output_is k out -> new_header_sink out (Some co) = Ok (out_of k co out).
Proof.
  destruct k; cbn [output_is out_of].
  - intros [->|[p ->]]; [reflexivity|]. apply (C63_output_kind (Some co) (p ++ b "csv")). eauto.
  - intros [p ->]. apply C63_output_kind. eauto.
Qed.
Definition row_ok (k : file_kind) (h : header) (r : row) : Prop :=
  match k with KCsv => exists texts, Forall2 (value_text f64 f32) (vals r) texts | KDc => row_fits h r end.
Lemma formatted k w a ins out s e opts z u h rowss : meant a w z -> granularity a u ->
  args_of w (asked a ins out s e) = Ok opts -> can_hold k a z h rowss ->
  written_as f64 f32 k a z u h (head_of k (op_csv_out ch opts) h) (line_of k (op_csv_out ch opts) h) /\
  forall out, exists h' s, kind_sink f64 f32 (out_of k (op_csv_out ch opts) out) h = Ok (h', s) /\
    forall past r, row_ok k h r -> exists rows, sk_write s past r = Ok rows.
Proof.
  intros Hz Hu Ea Hc. destruct k; cbn [can_hold written_as head_of line_of out_of kind_sink row_ok] in *.
  - destruct Hc as [Hnm Hzone]. set (co := op_csv_out ch opts) in *.
    assert (Ln : forall r texts, Forall2 (value_text f64 f32) (vals r) texts ->
       exists header l, csv_header_bytes co h = header ++ [byte_of 10] /\ output_header_line a u h header /\
         csv_write_row f64 f32 co r = (l ++ [byte_of 10], Ok tt) /\ output_line f64 f32 a z u r l).
    { intros r texts V.
      destruct (C96_output_options prof ch zones parse_zone w (asked a ins out s e) opts z u f64 f32 h r texts Ea Hz Hu Hnm V) as [(P & A & B)|(P & A & B & _)].
      - eexists _, _. split; [exact A|]. split; [left; split; [exact P|reflexivity]|]. split; [exact B|]. exists texts. split; [exact V|]. left. auto.
      - assert (T : exists t, output_time a z u (ts r) t).
        { unfold output_time. destruct (a_out_epoch a) eqn:Eo; [eexists; reflexivity|]. destruct z as [g|]; [|destruct (Hzone P eq_refl eq_refl)].
          eexists. exists g. split; reflexivity. }
        destruct T as [t T]. eexists _, _. split; [exact A|]. split; [right; split; [exact P|reflexivity]|].
        split; [apply B, T|]. exists texts. split; [exact V|]. right. split; [exact P|]. exists t. auto. }
    split; [split|].
    + destruct (Ln {| ts := 0%N; vals := [] |} []) as (hd & _ & A & B & _); [constructor|]. eauto.
    + intros r texts V. destruct (Ln r texts V) as (_ & l & _ & _ & E & O). exists l. split; [exact O|]. now rewrite E.
    + intros _. eexists _, _. split; [reflexivity|]. intros past r (texts & V). destruct (Ln r texts V) as (_ & l & _ & _ & E & _).
      unfold csv_sink. cbn [sk_write]. rewrite E. cbn. eauto.
  - destruct Hc as [Hok _]. pose proof Hok as (Hf & L2 & L8 & _).
    destruct (proj2 (bitset_agree _) (conj L2 L8)) as (n & Ew & Er).
    assert (En : snd (dc_process_header h) = Ok n) by (rewrite (header_bytes h Hf); exact Ew).
    split.
    + intros rows Hr. pose proof (dc_roundtrip h (map EvRow rows) None Hf L2 L8) as X.
      assert (Er' : ev_rows (map EvRow rows) = rows) by (clear; induction rows; cbn; congruence).
      rewrite (with_names_kept h Hok), Er' in X. specialize (X Hr).
      pose proof (bytes_of KDc (op_csv_out ch opts) None h (map EvRow rows)) as Y. cbn [kind_bytes out_of head_of line_of] in Y.
      rewrite Er' in Y. rewrite <- Y. exact X.
    + intros _. exists h, (dc_sink n). split; [unfold dc_header_sink; rewrite (header_bytes h Hf); cbn [snd]; now rewrite Ew|].
      intros past r Hr. cbn [dc_sink sk_write]. rewrite (row_bytes n h r Hr). cbn. eauto.
Qed.

(** ** What a run writes *)
Lemma law_run k F w a opts z u h ins out s e rowss : 3 <= F ->
  meant a w z -> granularity a u -> args_of w (asked a ins out s e) = Ok opts ->
  output_is k out -> (forall p, out = Some p -> create p = Ok tt) -> can_hold k a z h rowss ->
  Forall2 (fun path rows => gives w a z h path rows /\ time_ordered rows /\ has_rows (op_range ch opts) rows) ins rowss ->
  exists rows,
    run_ok (cli F w (asked a ins out s e)) (head_of k (op_csv_out ch opts) h ++ concat (map (line_of k (op_csv_out ch opts) h) rows)) /\
    Permutation rows (concat (map (filter (in_range (op_range ch opts))) rowss)) /\
    time_ordered rows /\
    forall t, filter (at_time t) rows = concat (map (fun rs => filter (at_time t) (filter (in_range (op_range ch opts)) rs)) (rev rowss)).
Proof.
  intros HF Hz Hu Ea Ho Hcr Hc H2.
  destruct (args_asked w a ins out s e opts z Hz Ea) as (Hne & _).
  assert (Ord : Forall time_ordered rowss).
  { clear - H2. induction H2 as [|p rs ps rss (_ & B & _) H2 IH]; constructor; auto. }
  assert (Sel : forall rs, In rs rowss -> selected (op_range ch opts) (map Ok rs) = filter (in_range (op_range ch opts)) rs).
  { intros rs Hrs. rewrite Forall_forall in Ord. apply selected_rows, Ord, Hrs. }
  assert (Op : op_inputs ch opts <> [] /\
    Forall2 (fun i rows => create_source_from_input ds inflate bunzip w None (all_factories prof ch lower f64_ok csv_records None (op_csv_in ch opts))
      i = Ok (h, map Ok rows) /\ selected (op_range ch opts) (map Ok rows) <> []) (op_inputs ch opts) rowss).
  { apply (gives_open prof ch lower f64_ok ds inflate bunzip zones parse_zone create w (asked a ins out s e) opts z (map (fun p => (Path p, InputModel.Auto)) ins) h rowss Ea Hz).
    - split; [cbn [asked a_inputs]; rewrite map_map; reflexivity|]. intros i t fmt Hi. cbn. rewrite nth_error_map in Hi.
      destruct (nth_error ins i); [|discriminate]. now injection Hi as _ <-.
    - assert (G : forall p rs, gives w a z h p rs -> gives w (asked a ins out s e) z h p rs) by (intros; now apply gives_asked).
      clear Ord Hc. revert Sel. revert G. generalize (asked a ins out s e). intros a' G. clear Ea Hne.
      induction H2 as [|p rs ps rss (A & B & r & C & D) H2 IH]; intro Sel; [constructor|].
      cbn [map]. constructor.
      + cbn [fst snd]. split; [now apply G|]. rewrite (Sel rs (or_introl eq_refl)). intro E.
        assert (X : In r (filter (in_range (op_range ch opts)) rs)) by now apply filter_In. rewrite E in X. destruct X.
      + apply IH. intros; apply Sel; now right. }
  destruct Op as [Ne Op].
  destruct (formatted k w a ins out s e opts z u h rowss Hz Hu Ea Hc) as (_ & Fm). destruct (Fm out) as (h' & sk & Hs & Hw).
  destruct (run_any prof ch lower f64_ok ds inflate bunzip f64 f32 zones parse_zone create F w (asked a ins out s e) opts
    (out_of k (op_csv_out ch opts) out) h h' sk rowss) as (calls & R & Pm & So & _ & _); auto.
  - apply kind_of, Ho.
  - intros rs past r Hrs Hr. apply Hw. destruct k; cbn [row_ok can_hold] in *.
    + destruct (Forall2_in_r _ _ _ _ H2 Hrs) as (p & _ & G & _). eapply gives_text; eauto.
    + destruct Hc as [_ Hc]. rewrite Forall_forall in Hc. specialize (Hc rs Hrs). rewrite Forall_forall in Hc. auto.
  - exists (ev_rows calls). rewrite <- (bytes_of k _ out). split; [exact R|].
    assert (E : map (fun rs => selected (op_range ch opts) (map Ok rs)) rowss = map (filter (in_range (op_range ch opts))) rowss).
    { apply map_ext_in. exact Sel. }
    rewrite E in Pm. split; [exact Pm|]. destruct (So Ord) as [So1 So2]. split; [exact So1|]. intro t. rewrite So2. f_equal.
    apply map_ext_in. intros rs Hrs. apply in_rev in Hrs. now rewrite (Sel rs Hrs).
Qed.

(** A file just written as DC is an input with these rows. *)
Lemma dc_given w a (z : option (zone ch)) co h path rows : dc_header_ok h -> Forall (row_fits h) rows ->
  plain_file w path (b ".dc") (head_of KDc co h ++ concat (map (line_of KDc co h) rows)) -> gives w a z h path rows.
Proof.
  intros Hok Hr (f & core & L & Sk & Nm & U & D & T & Sm). constructor.
  assert (E : head_of KDc co h ++ concat (map (line_of KDc co h) rows) = dc_file h (map EvRow rows)).
  { pose proof (bytes_of KDc co None h (map EvRow rows)) as Y.
    replace (ev_rows (map EvRow rows)) with rows in Y by (clear; induction rows; cbn; congruence). symmetry. exact Y. }
  rewrite E in D. exists (core ++ b ".dc"), (dc_file h (map EvRow rows)), (dc_file h (map EvRow rows)), KDc. split; [|split].
  - apply (holds_itself inflate bunzip w path (core ++ b ".dc") _ f); auto.
    + split; [exact D|]. auto.
    + apply dc_no_zip, Hok.
  - left. eexists. split; [reflexivity|]. constructor. constructor.
  - exists (map EvRow rows). split; [reflexivity|]. split; [clear; induction rows; cbn; congruence|]. auto.
Qed.
Lemma can_hold_some k a (z : option (zone ch)) h rss rss' : can_hold k a z h rss ->
  (k = KDc -> forall rs r, In rs rss' -> In r rs -> exists rs0, In rs0 rss /\ In r rs0) -> can_hold k a z h rss'.
Proof.
  destruct k; cbn [can_hold]; [auto|]. intros [A B] H. split; [exact A|]. rewrite Forall_forall in *. intros rs Hrs.
  apply Forall_forall. intros r Hr. destruct (H eq_refl rs r Hrs Hr) as (rs0 & H0 & Hr0). specialize (B rs0 H0).
  rewrite Forall_forall in B. auto.
Qed.
Lemma filter_at_concat (f : row -> bool) ls : filter f (concat ls) = concat (map (filter f) ls).
Proof. induction ls as [|l ls IH]; [reflexivity|]. cbn. now rewrite filter_app, IH. Qed.

(** The general law of two stages: the direct range [R] is [R1] and [R2] on the rows of the parts,
    and [R2] on the others. *)
Lemma stages k F w w' a z u h pre parts post mid out out' s1 e1 s2 e2 s e o1 o2 o rss0 rss1 rss2 : 3 <= F ->
  meant a w z -> granularity a u -> w_env_tz w' = w_env_tz w ->
  args_of w (asked a parts (Some mid) s1 e1) = Ok o1 ->
  args_of w' (asked a (pre ++ [mid] ++ post) out' s2 e2) = Ok o2 ->
  args_of w (asked a (pre ++ parts ++ post) out s e) = Ok o ->
  (exists p, mid = p ++ b "dc") -> create mid = Ok tt ->
  output_is k out -> output_is k out' -> (forall p, out = Some p -> create p = Ok tt) -> (forall p, out' = Some p -> create p = Ok tt) ->
  can_hold KDc a z h rss1 -> can_hold k a z h (rss0 ++ rss1 ++ rss2) ->
  Forall2 (fun path rows => gives w a z h path rows /\ gives w' a z h path rows) pre rss0 ->
  Forall2 (fun path rows => gives w a z h path rows) parts rss1 ->
  Forall2 (fun path rows => gives w a z h path rows /\ gives w' a z h path rows) post rss2 ->
  Forall (fun rows => time_ordered rows /\ has_rows (op_range ch o) rows) (rss0 ++ rss1 ++ rss2) ->
  (forall rs r, In rs rss1 -> In r rs -> in_range (op_range ch o) r = in_range (op_range ch o1) r && in_range (op_range ch o2) r) ->
  (forall rs r, In rs (rss0 ++ rss2) -> In r rs -> in_range (op_range ch o) r = in_range (op_range ch o2) r) ->
  exists written, run_ok (cli F w (asked a parts (Some mid) s1 e1)) written /\
    (plain_file w' mid (b ".dc") written ->
     exists result, run_ok (cli F w (asked a (pre ++ parts ++ post) out s e)) result /\
                    run_ok (cli F w' (asked a (pre ++ [mid] ++ post) out' s2 e2)) result).
Proof.
  intros HF Hz Hu Hw Ea1 Ea2 Ea Hmid Hcm Ho Ho' Hcr Hcr' Hc1 Hc G0 G1 G2 Ord R1 R2.
  rewrite Forall_forall in Ord.
  assert (Hz' : meant a w' z) by now rewrite Hw.
  destruct (args_asked w a parts (Some mid) s1 e1 o1 z Hz Ea1) as (Np & Eo1 & _).
  destruct (args_asked w' a _ out' s2 e2 o2 z Hz' Ea2) as (_ & Eo2 & _).
  destruct (args_asked w a _ out s e o z Hz Ea) as (_ & Eo & _).
  set (co := op_csv_out ch o) in *. assert (X1 : op_csv_out ch o1 = co) by congruence. assert (X2 : op_csv_out ch o2 = co) by congruence.
  clear Eo1 Eo2 Eo.
  assert (In1 : forall rs, In rs rss1 -> time_ordered rs /\ has_rows (op_range ch o1) rs).
  { intros rs Hrs. destruct (Ord rs) as (A & r & B & C); [apply in_or_app; right; apply in_or_app; now left|].
    split; [exact A|]. exists r. split; [exact B|]. rewrite (R1 rs r Hrs B) in C. now apply andb_prop in C. }
  destruct (law_run KDc F w a o1 z u h parts (Some mid) s1 e1 rss1) as (rows1 & Run1 & P1 & So1 & Ti1); auto.
  { cbn [output_is]. destruct Hmid as [p ->]. eauto. }
  { intros p E. injection E as <-. exact Hcm. }
  { clear - G1 In1. induction G1 as [|p rs ps rss A G1 IH]; [constructor|]. constructor; [|apply IH; intros; apply In1; now right].
    destruct (In1 rs (or_introl eq_refl)). auto. }
  rewrite X1 in Run1. eexists. split; [exact Run1|]. intro Pf.
  destruct Hc1 as [Hok Hfit].
  assert (F1 : forall r, In r rows1 -> exists rs, In rs rss1 /\ In r rs).
  { intros r Hr. eapply Permutation_in in Hr; [|exact P1]. apply in_concat in Hr as (l & Hl & Hr). apply in_map_iff in Hl as (rs & <- & Hl).
    apply filter_In in Hr as [Hr _]. eauto. }
  assert (Gm : gives w' a z h mid rows1).
  { eapply dc_given; eauto. apply Forall_forall. intros r Hr. destruct (F1 r Hr) as (rs & A & B). rewrite Forall_forall in Hfit.
    specialize (Hfit rs A). rewrite Forall_forall in Hfit. auto. }
  assert (In0 : forall rs, In rs (rss0 ++ rss2) -> time_ordered rs /\ has_rows (op_range ch o2) rs).
  { intros rs Hrs. destruct (Ord rs) as (A & r & B & C).
    { apply in_app_or in Hrs as [?|?]; apply in_or_app; [now left|right; apply in_or_app; now right]. }
    split; [exact A|]. exists r. split; [exact B|]. now rewrite <- (R2 rs r Hrs B). }
  assert (Hm2 : has_rows (op_range ch o2) rows1).
  { destruct rss1 as [|rs rss1]; [inversion G1; subst; congruence|].
    destruct (Ord rs) as (A & r & B & C); [apply in_or_app; right; now left|].
    rewrite (R1 rs r (or_introl eq_refl) B) in C. apply andb_prop in C as [C1 C2]. exists r. split; [|exact C2].
    eapply Permutation_in; [apply Permutation_sym; exact P1|]. apply in_concat. exists (filter (in_range (op_range ch o1)) rs).
    split; [apply in_map_iff; exists rs; split; [reflexivity|now left]|]. now apply filter_In. }
  destruct (law_run k F w a o z u h (pre ++ parts ++ post) out s e (rss0 ++ rss1 ++ rss2)) as (rowsD & RunD & PD & SoD & TiD); auto.
  { assert (H : Forall2 (fun path rows => gives w a z h path rows) (pre ++ parts ++ post) (rss0 ++ rss1 ++ rss2)).
    { repeat apply Forall2_app; [|exact G1|].
      - clear - G0. induction G0 as [|p rs ps rss [A _] G0 IH]; constructor; auto.
      - clear - G2. induction G2 as [|p rs ps rss [A _] G2 IH]; constructor; auto. }
    clear - H Ord. revert Ord. induction H as [|p rs ps rss A H IH]; intro Ord; [constructor|].
    constructor; [|apply IH; intros; apply Ord; now right]. destruct (Ord rs (or_introl eq_refl)). auto. }
  destruct (law_run k F w' a o2 z u h (pre ++ [mid] ++ post) out' s2 e2 (rss0 ++ [rows1] ++ rss2)) as (rows2 & Run2 & P2 & So2 & Ti2); auto.
  { eapply can_hold_some; [exact Hc|]. intros _ rs r Hrs Hr. apply in_app_or in Hrs as [Hrs|[<-|Hrs]].
    - exists rs. split; [apply in_or_app; now left|exact Hr].
    - destruct (F1 r Hr) as (rs & A & B). exists rs. split; [apply in_or_app; right; apply in_or_app; now left|exact B].
    - exists rs. split; [apply in_or_app; right; apply in_or_app; now right|exact Hr]. }
  { apply Forall2_app; [|cbn [app]; constructor; [auto|]].
    - assert (I : forall rs, In rs rss0 -> time_ordered rs /\ has_rows (op_range ch o2) rs) by (intros; apply In0, in_or_app; now left).
      clear - G0 I. induction G0 as [|p rs ps rss [_ A] G0 IH]; constructor; [|apply IH; intros; apply I; now right].
      destruct (I rs (or_introl eq_refl)). auto.
    - assert (I : forall rs, In rs rss2 -> time_ordered rs /\ has_rows (op_range ch o2) rs) by (intros; apply In0, in_or_app; now right).
      clear - G2 I. induction G2 as [|p rs ps rss [_ A] G2 IH]; constructor; [|apply IH; intros; apply I; now right].
      destruct (I rs (or_introl eq_refl)). auto. }
  fold co in RunD. rewrite X2 in Run2.
  assert (E : rowsD = rows2); [|subst; eauto].
  apply by_times_unique; [exact SoD|exact So2|]. intro t. rewrite TiD, Ti2.
  rewrite !rev_app_distr, !map_app, !concat_app. cbn [rev app map concat]. rewrite app_nil_r.
  assert (A : forall rss, (forall rs, In rs rss -> In rs (rss0 ++ rss2)) ->
    map (fun rs => filter (at_time t) (filter (in_range (op_range ch o)) rs)) (rev rss) = map (fun rs => filter (at_time t) (filter (in_range (op_range ch o2)) rs)) (rev rss)).
  { intros rss H. apply map_ext_in. intros rs Hrs. apply in_rev in Hrs. f_equal. apply filter_ext_in. intros r Hr. eapply R2; eauto. }
  rewrite (A rss2), (A rss0) by (intros; apply in_or_app; auto). rewrite <- !app_assoc. f_equal. f_equal.
  rewrite !filter_filter. rewrite <- (filter_ext _ _ (fun r => andb_comm (in_range (op_range ch o2) r) (at_time t r))).
  rewrite <- filter_filter, Ti1, filter_at_concat, map_map. f_equal. apply map_ext_in. intros rs Hrs. apply in_rev in Hrs.
  rewrite !filter_filter. apply filter_ext_in. intros r Hr. rewrite (R1 rs r Hrs Hr).
  destruct (ts r =? t)%N, (in_range (op_range ch o1) r), (in_range (op_range ch o2) r); reflexivity.
Qed.

(** ** C123: merging in stages *)
(** [parts] are first merged into a DC file, with the range of the whole or a wider one; then, whatever
    else has changed in the world, that file is merged with the rest in the place of the parts: the
    result is, byte for byte, that of merging everything at once. *)
Theorem C123_stages : forall k F w a z u h pre parts post mid out out' s1 e1 s e o1 o rss0 rss1 rss2,
  3 <= F -> meant a w z -> granularity a u ->
  args_of w (asked a parts (Some mid) s1 e1) = Ok o1 ->
  args_of w (asked a (pre ++ parts ++ post) out s e) = Ok o ->
  (exists p, mid = p ++ b "dc") -> create mid = Ok tt ->
  output_is k out -> (forall p, out = Some p -> create p = Ok tt) ->
  output_is k out' -> (forall p, out' = Some p -> create p = Ok tt) ->
  can_hold KDc a z h rss1 -> can_hold k a z h (rss0 ++ rss1 ++ rss2) ->
  Forall2 (fun path rows => gives w a z h path rows) (pre ++ parts ++ post) (rss0 ++ rss1 ++ rss2) ->
  length rss0 = length pre -> length rss1 = length parts ->
  Forall (fun rows => time_ordered rows /\ has_rows (op_range ch o) rows) (rss0 ++ rss1 ++ rss2) ->
  (forall r, in_range (op_range ch o) r = true -> in_range (op_range ch o1) r = true) ->
  exists written, run_ok (cli F w (asked a parts (Some mid) s1 e1)) written /\
    forall w', w_env_tz w' = w_env_tz w -> plain_file w' mid (b ".dc") written ->
      Forall2 (fun path rows => gives w' a z h path rows) (pre ++ post) (rss0 ++ rss2) ->
      exists result, run_ok (cli F w (asked a (pre ++ parts ++ post) out s e)) result /\
                     run_ok (cli F w' (asked a (pre ++ [mid] ++ post) out' s e)) result.
Proof.
  intros k F w a z u h pre parts post mid out out' s1 e1 s e o1 o rss0 rss1 rss2 HF Hz Hu Ea1 Ea Hmid Hcm Ho Hcr Ho' Hcr' Hc1 Hc G L0 L1 Ord R1.
  assert (Sp : forall (l l' : list bytes) (r r' : list (list row)) v, length r = length l ->
     Forall2 (fun path rows => gives v a z h path rows) (l ++ l') (r ++ r') ->
     Forall2 (fun path rows => gives v a z h path rows) l r /\ Forall2 (fun path rows => gives v a z h path rows) l' r').
  { clear. intros l l' r r' v. revert r. induction l as [|p l IH]; intros [|q r] L H; try discriminate L; [split; [constructor|exact H]|].
    cbn [app] in H. inversion H; subst. destruct (IH r) as [A B]; [cbn in L; lia|assumption|]. split; [constructor; assumption|exact B]. }
  destruct (Sp _ _ _ _ w L0 G) as [G0 G']. destruct (Sp _ _ _ _ w L1 G') as [G1 G2]. clear G G'.
  assert (Ord1 : Forall2 (fun path rows => gives w a z h path rows /\ time_ordered rows /\ has_rows (op_range ch o1) rows) parts rss1).
  { assert (I : forall rs, In rs rss1 -> time_ordered rs /\ has_rows (op_range ch o1) rs).
    { rewrite Forall_forall in Ord. intros rs Hrs. destruct (Ord rs) as (A & r & B & C); [apply in_or_app; right; apply in_or_app; now left|].
      split; [exact A|]. exists r. auto. }
    clear - G1 I. induction G1 as [|p rs ps rss A G1 IH]; [constructor|]. constructor; [|apply IH; intros; apply I; now right].
    destruct (I rs (or_introl eq_refl)). auto. }
  destruct (law_run KDc F w a o1 z u h parts (Some mid) s1 e1 rss1) as (rows1 & Run1 & _); auto.
  { destruct Hmid as [p ->]. cbn. eauto. }
  { intros p E. injection E as <-. exact Hcm. }
  eexists. split; [exact Run1|]. intros w' Hw Pf G'.
  destruct (Sp _ _ _ _ w' L0 G') as [G0' G2'].
  destruct (args_asked w a _ out s e o z Hz Ea) as (_ & Eco & Er & ci & Eci).
  assert (Hz' : meant a w' z) by now rewrite Hw.
  destruct (asked_args w' a (pre ++ [mid] ++ post) out' s e ci _ _ z Hz' ltac:(destruct pre; discriminate) Eci Eco Er) as (o2 & Ea2 & _ & Er2).
  assert (Z : forall (l : list bytes) (r : list (list row)), Forall2 (fun path rows => gives w a z h path rows) l r -> Forall2 (fun path rows => gives w' a z h path rows) l r ->
     Forall2 (fun path rows => gives w a z h path rows /\ gives w' a z h path rows) l r).
  { clear. intros l r A. induction A as [|p rs ps rss X A IH]; intro B; inversion B; subst; constructor; auto. }
  destruct (stages k F w w' a z u h pre parts post mid out out' s1 e1 s e s e o1 o2 o rss0 rss1 rss2) as (written & R & Go); auto.
  - intros rs r _ _. rewrite Er2. destruct (in_range (op_range ch o) r) eqn:E; [rewrite (R1 r E); reflexivity|now rewrite andb_false_r].
  - intros rs r _ _. now rewrite Er2.
  - unfold run_ok in R, Run1. rewrite R in Run1. injection Run1 as Ew. apply Go. rewrite Ew. exact Pf.
Qed.

(** ** C126: narrowing a range in two steps *)
(** A first run keeps the range [s1, e1), into a DC file; a second one the range [s2, e2) of that file:
    the result is, byte for byte, that of one run with the overlap of the two ranges. *)
Theorem C126_ranges : forall k F w a z u h parts mid out out' s1 e1 s2 e2 s e o1 o2 o rss,
  3 <= F -> meant a w z -> granularity a u ->
  args_of w (asked a parts (Some mid) s1 e1) = Ok o1 ->
  args_of w (asked a [mid] out' s2 e2) = Ok o2 ->
  args_of w (asked a parts out s e) = Ok o ->
  (forall r, in_range (op_range ch o) r = in_range (op_range ch o1) r && in_range (op_range ch o2) r) ->
  (exists p, mid = p ++ b "dc") -> create mid = Ok tt ->
  output_is k out -> (forall p, out = Some p -> create p = Ok tt) ->
  output_is k out' -> (forall p, out' = Some p -> create p = Ok tt) ->
  can_hold KDc a z h rss -> can_hold k a z h rss ->
  Forall2 (fun path rows => gives w a z h path rows /\ time_ordered rows /\ has_rows (op_range ch o) rows) parts rss ->
  exists written, run_ok (cli F w (asked a parts (Some mid) s1 e1)) written /\
    forall w', w_env_tz w' = w_env_tz w -> plain_file w' mid (b ".dc") written ->
      exists result, run_ok (cli F w (asked a parts out s e)) result /\
                     run_ok (cli F w' (asked a [mid] out' s2 e2)) result.
Proof.
  intros k F w a z u h parts mid out out' s1 e1 s2 e2 s e o1 o2 o rss HF Hz Hu Ea1 Ea2 Ea HR Hmid Hcm Ho Hcr Ho' Hcr' Hc1 Hc G.
  destruct (law_run KDc F w a o1 z u h parts (Some mid) s1 e1 rss) as (rows1 & Run1 & _); auto.
  { destruct Hmid as [p ->]. cbn. eauto. }
  { intros p E. injection E as <-. exact Hcm. }
  { clear - G HR. induction G as [|p rs ps rss (A & B & r & C & D) G IH]; constructor; [|exact IH]. split; [exact A|]. split; [exact B|].
    exists r. split; [exact C|]. rewrite HR in D. now apply andb_prop in D. }
  eexists. split; [exact Run1|]. intros w' Hw Pf.
  destruct (args_asked w a _ out' s2 e2 o2 z Hz Ea2) as (_ & Eco & Er & ci & Eci).
  assert (Hz' : meant a w' z) by now rewrite Hw.
  destruct (asked_args w' a [mid] out' s2 e2 ci _ _ z Hz' ltac:(discriminate) Eci Eco Er) as (o2' & Ea2' & _ & Er2).
  destruct (stages k F w w' a z u h [] parts [] mid out out' s1 e1 s2 e2 s e o1 o2' o [] rss []) as (written & R & Go);
    rewrite ?app_nil_r; cbn [app]; auto.
  - clear - G. induction G as [|p rs ps rss (A & _) G IH]; constructor; auto.
  - clear - G. induction G as [|p rs ps rss (A & B) G IH]; constructor; auto.
  - intros rs r _ _. now rewrite Er2.
  - intros rs r [].
  - unfold run_ok in R, Run1. rewrite R in Run1. injection Run1 as Ew. rewrite app_nil_r in Go. apply Go. rewrite Ew. exact Pf.
Qed.

(** ** C124: chopping in pieces *)
(** Two adjoining ranges, with the time [m] between them, each taken on its own: the files have the same
    beginning, and the whole range gives this beginning, the rows of the first piece and those of the
    second. *)
Theorem C124_pieces : forall k F w a z u h ins out1 out2 out s m e o1 o2 rss,
  3 <= F -> meant a w z -> granularity a u ->
  args_of w (asked a ins out1 s (Some m)) = Ok o1 ->
  args_of w (asked a ins out2 (Some m) e) = Ok o2 ->
  Forall (fun x => output_is k x /\ forall p, x = Some p -> create p = Ok tt) [out1; out2; out] ->
  can_hold k a z h rss ->
  Forall2 (fun path rows => gives w a z h path rows /\ time_ordered rows /\
     has_rows (op_range ch o1) rows /\ has_rows (op_range ch o2) rows) ins rss ->
  exists head line rows1 rows2, written_as f64 f32 k a z u h head line /\
    run_ok (cli F w (asked a ins out1 s (Some m))) (head ++ concat (map line rows1)) /\
    run_ok (cli F w (asked a ins out2 (Some m) e)) (head ++ concat (map line rows2)) /\
    run_ok (cli F w (asked a ins out s e)) (head ++ concat (map line rows1) ++ concat (map line rows2)) /\
    Permutation rows1 (concat (map (filter (in_range (op_range ch o1))) rss)) /\
    Permutation rows2 (concat (map (filter (in_range (op_range ch o2))) rss)).
Proof.
  intros k F w a z u h ins out1 out2 out s m e o1 o2 rss HF Hz Hu Ea1 Ea2 Ho Hc G.
  inversion Ho as [|? ? [O1 C1] Ho']; subst. inversion Ho' as [|? ? [O2 C2] Ho'']; subst. inversion Ho'' as [|? ? [O3 C3] _]; subst.
  clear Ho Ho' Ho''.
  destruct (args_asked w a ins out1 s (Some m) o1 z Hz Ea1) as (Ni & Eco & Er1 & ci & Eci).
  destruct (args_asked w a ins out2 (Some m) e o2 z Hz Ea2) as (_ & Eco2 & Er2 & _).
  assert (X : exists o, args_of w (asked a ins out s e) = Ok o /\ op_csv_out ch o = op_csv_out ch o1 /\
    op_range ch o = {| tr_begin := tr_begin (op_range ch o1); tr_end := tr_end (op_range ch o2) |} /\
    exists mid, tr_end (op_range ch o1) = Some mid /\ tr_begin (op_range ch o2) = Some mid).
  { unfold timestamp_range in Er1, Er2.
    destruct (match s with None => Ok None | Some s0 => let* n := parse_range_element prof ch s0 (zone_in z) in Ok (Some n) end) as [tb| | | |] eqn:Eb; try discriminate.
    cbn [bind] in Er1, Er2. destruct (parse_range_element prof ch m (zone_in z)) as [tm| | | |] eqn:Em; try discriminate. cbn [bind] in Er1, Er2.
    destruct (match e with None => Ok None | Some s0 => let* n := parse_range_element prof ch s0 (zone_in z) in Ok (Some n) end) as [te| | | |] eqn:Ee; try discriminate.
    cbn [bind] in Er2. injection Er1 as Er1. injection Er2 as Er2.
    destruct (asked_args w a ins out s e ci (op_csv_out ch o1) {| tr_begin := tb; tr_end := te |} z Hz Ni Eci Eco) as (o & A & B & C).
    { unfold timestamp_range. rewrite Eb. cbn [bind]. rewrite Ee. reflexivity. }
    exists o. split; [exact A|]. split; [exact B|]. rewrite C, <- Er1, <- Er2. split; [reflexivity|]. exists tm. auto. }
  destruct X as (o & Ea & Xo & Er & mid & Em1 & Em2).
  assert (Hsplit : forall rs, In rs rss -> has_rows (op_range ch o) rs).
  { intros rs Hrs. destruct (Forall2_in_r _ _ _ _ G Hrs) as (p & _ & _ & _ & (r1 & A1 & B1) & (r2 & A2 & B2)).
    exists r1. split; [exact A1|]. unfold StreamSpec.in_range, from_begin, before_end in *. rewrite Er. cbn [tr_begin tr_end].
    rewrite Em1 in B1. rewrite Em2 in B2. apply andb_prop in B1 as [B1 B1']. apply andb_prop in B2 as [B2 B2']. rewrite B1. cbn [andb].
    destruct (tr_end (op_range ch o2)) as [te|]; [|reflexivity]. apply N.ltb_lt in B1', B2'. apply N.leb_le in B2. apply N.ltb_lt. lia. }
  destruct (law_run k F w a o1 z u h ins out1 s (Some m) rss) as (rows1 & Run1 & P1 & So1 & Ti1); auto.
  { clear - G. induction G as [|p rs ps rss (A & B & C & D) G IH]; constructor; auto. }
  destruct (law_run k F w a o2 z u h ins out2 (Some m) e rss) as (rows2 & Run2 & P2 & So2 & Ti2); auto.
  { clear - G. induction G as [|p rs ps rss (A & B & C & D) G IH]; constructor; auto. }
  destruct (law_run k F w a o z u h ins out s e rss) as (rows & Run & P & So & Ti); auto.
  { clear - G Hsplit. induction G as [|p rs ps rss (A & B & C & D) G IH]; constructor; [|apply IH; intros; apply Hsplit; now right].
    split; [exact A|]. split; [exact B|]. apply Hsplit. now left. }
  assert (Xo2 : op_csv_out ch o2 = op_csv_out ch o1) by congruence. rewrite Xo2 in Run2. rewrite Xo in Run.
  assert (I1 : forall r, In r rows1 -> in_range (op_range ch o1) r = true).
  { intros r Hr. eapply Permutation_in in Hr; [|exact P1]. apply in_concat in Hr as (l & Hl & Hr). apply in_map_iff in Hl as (rs & <- & _).
    now apply filter_In in Hr as [_ Hr]. }
  assert (I2 : forall r, In r rows2 -> in_range (op_range ch o2) r = true).
  { intros r Hr. eapply Permutation_in in Hr; [|exact P2]. apply in_concat in Hr as (l & Hl & Hr). apply in_map_iff in Hl as (rs & <- & _).
    now apply filter_In in Hr as [_ Hr]. }
  assert (Em : (match tr_begin (op_range ch o1) with Some x => (x < mid)%N | None => True end) /\
               (match tr_end (op_range ch o2) with Some x => (mid < x)%N | None => True end)).
  { inversion G as [|p rs ps rss' (_ & _ & (r1 & _ & B1) & (r2 & _ & B2)) _]; subst; [congruence|].
    unfold StreamSpec.in_range, from_begin, before_end in B1, B2. rewrite Em1 in B1. rewrite Em2 in B2.
    apply andb_prop in B1 as [B1 B1']. apply andb_prop in B2 as [B2 B2']. split.
    - destruct (tr_begin (op_range ch o1)); [|exact I]. apply N.leb_le in B1. apply N.ltb_lt in B1'. lia.
    - destruct (tr_end (op_range ch o2)); [|exact I]. apply N.leb_le in B2. apply N.ltb_lt in B2'. lia. }
  assert (Rg : forall r, in_range (op_range ch o) r = in_range (op_range ch o1) r || in_range (op_range ch o2) r).
  { intro r. unfold StreamSpec.in_range, from_begin, before_end. rewrite Er, Em1, Em2. cbn [tr_begin tr_end]. destruct Em as [M1 M2].
    destruct (tr_begin (op_range ch o1)) as [x|], (tr_end (op_range ch o2)) as [y|];
      repeat match goal with |- context [(?p <=? ?q)%N] => destruct (N.leb_spec p q) | |- context [(?p <? ?q)%N] => destruct (N.ltb_spec p q) end;
      cbn; try reflexivity; lia. }
  assert (E : rows = rows1 ++ rows2).
  { apply by_times_unique; [exact So| |].
    - apply StronglySorted_Sorted. apply Sorted_StronglySorted in So1; [|exact ts_le_trans]. apply Sorted_StronglySorted in So2; [|exact ts_le_trans].
      assert (Lt : forall x y, In x rows1 -> In y rows2 -> ts_le x y).
      { intros x y Hx Hy. specialize (I1 _ Hx). specialize (I2 _ Hy). unfold StreamSpec.in_range, before_end, from_begin in I1, I2.
        rewrite Em1 in I1. rewrite Em2 in I2. apply andb_prop in I1 as [_ I1]. apply andb_prop in I2 as [I2 _].
        apply N.ltb_lt in I1. apply N.leb_le in I2. unfold ts_le. lia. }
      clear - So1 So2 Lt. induction So1 as [|r l S IH H]; cbn [app]; [exact So2|]. constructor.
      + apply IH. intros x y Hx. apply Lt. now right.
      + apply Forall_app. split; [exact H|]. apply Forall_forall. intros y Hy. apply Lt; [now left|exact Hy].
    - intro t. rewrite filter_app, Ti, Ti1, Ti2. destruct (t <? mid)%N eqn:Et.
      + assert (Z2 : concat (map (fun rs => filter (at_time t) (filter (in_range (op_range ch o2)) rs)) (rev rss)) = []).
        { clear - Et Em2. induction (rev rss) as [|rs l IH]; [reflexivity|]. cbn [map concat]. rewrite IH, app_nil_r, filter_filter.
          apply N.ltb_lt in Et. clear IH l. induction rs as [|r rs IH]; [reflexivity|]. cbn [filter].
          destruct (ts r =? t)%N eqn:Er; cbn [andb]; [|exact IH]. apply N.eqb_eq in Er. unfold StreamSpec.in_range at 1, from_begin. rewrite Em2, Er.
          destruct (N.leb_spec mid t); [lia|]. cbn [andb]. exact IH. }
        rewrite Z2, app_nil_r. f_equal. apply map_ext. intro rs. rewrite !filter_filter. apply filter_ext. intro r. rewrite Rg.
        destruct (ts r =? t)%N eqn:Er'; [|reflexivity]. cbn [andb]. apply N.eqb_eq in Er'. apply N.ltb_lt in Et.
        assert (Q : in_range (op_range ch o2) r = false).
        { unfold StreamSpec.in_range, from_begin. rewrite Em2, Er'. destruct (N.leb_spec mid t); [lia|reflexivity]. }
        rewrite Q. apply orb_false_r.
      + assert (Z1 : concat (map (fun rs => filter (at_time t) (filter (in_range (op_range ch o1)) rs)) (rev rss)) = []).
        { clear - Et Em1. induction (rev rss) as [|rs l IH]; [reflexivity|]. cbn [map concat]. rewrite IH, app_nil_r, filter_filter.
          apply N.ltb_ge in Et. clear IH l. induction rs as [|r rs IH]; [reflexivity|]. cbn [filter].
          destruct (ts r =? t)%N eqn:Er; cbn [andb]; [|exact IH]. apply N.eqb_eq in Er. unfold StreamSpec.in_range at 1, before_end. rewrite Em1, Er.
          destruct (N.ltb_spec t mid); [lia|]. rewrite andb_false_r. exact IH. }
        rewrite Z1. cbn [app]. f_equal. apply map_ext. intro rs. rewrite !filter_filter. apply filter_ext. intro r. rewrite Rg.
        destruct (ts r =? t)%N eqn:Er'; [|reflexivity]. cbn [andb]. apply N.eqb_eq in Er'. apply N.ltb_ge in Et.
        assert (Q : in_range (op_range ch o1) r = false).
        { unfold StreamSpec.in_range, before_end. rewrite Em1, Er'. destruct (N.ltb_spec t mid); [lia|]. apply andb_false_r. }
        rewrite Q. reflexivity. }
  destruct (formatted k w a ins out1 s (Some m) o1 z u h rss Hz Hu Ea1 Hc) as (Fm & _).
  eexists _, _, rows1, rows2. split; [exact Fm|]. split; [exact Run1|]. split; [exact Run2|]. split; [|auto].
  rewrite E, map_app, concat_app in Run. exact Run.
Qed.

(** ** C125: the order of the inputs *)
(** The inputs of a run named in another order: the same rows under the same beginning, with the same
    times in the same places; and the same bytes if no time occurs in two of the inputs. *)
Theorem C125_input_order : forall k F w a z u h ins ins' out out' s e o rss rss',
  3 <= F -> meant a w z -> granularity a u ->
  args_of w (asked a ins out s e) = Ok o ->
  Forall (fun x => output_is k x /\ forall p, x = Some p -> create p = Ok tt) [out; out'] ->
  can_hold k a z h rss ->
  Forall2 (fun path rows => gives w a z h path rows /\ time_ordered rows /\ has_rows (op_range ch o) rows) ins rss ->
  length ins' = length rss' -> Permutation (combine ins rss) (combine ins' rss') ->
  exists head line rows rows', written_as f64 f32 k a z u h head line /\
    run_ok (cli F w (asked a ins out s e)) (head ++ concat (map line rows)) /\
    run_ok (cli F w (asked a ins' out' s e)) (head ++ concat (map line rows')) /\
    Permutation rows rows' /\ map ts rows = map ts rows' /\ time_ordered rows /\
    ((forall i j x y r q, nth_error rss i = Some x -> nth_error rss j = Some y -> In r x -> In q y ->
        ts r = ts q -> i = j) -> rows = rows').
Proof.
  intros k F w a z u h ins ins' out out' s e o rss rss' HF Hz Hu Ea Ho Hc G L Pm.
  inversion Ho as [|? ? [O1 C1] Ho']; subst. inversion Ho' as [|? ? [O2 C2] _]; subst. clear Ho Ho'.
  destruct (args_asked w a ins out s e o z Hz Ea) as (Ni & Eco & Er & ci & Eci).
  assert (Ll : length ins = length rss) by (eapply GraphProps.Forall2_len; eauto).
  assert (G' : Forall2 (fun path rows => gives w a z h path rows /\ time_ordered rows /\ has_rows (op_range ch o) rows) ins' rss').
  { assert (A : Forall (fun pr => gives w a z h (fst pr) (snd pr) /\ time_ordered (snd pr) /\ has_rows (op_range ch o) (snd pr)) (combine ins' rss')).
    { rewrite Forall_forall. intros [p rs] Hin. eapply Permutation_in in Hin; [|apply Permutation_sym; exact Pm]. cbn [fst snd].
      clear - G Hin. induction G as [|q qs ps rss A G IH]; [destruct Hin|]. destruct Hin as [E|Hin]; [now injection E as <- <-|auto]. }
    clear - A L. revert rss' A L. induction ins' as [|p ps IH]; intros [|rs rss] A L; try discriminate L; [constructor|].
    cbn [combine] in A. inversion A; subst. constructor; [assumption|]. apply IH; [assumption|cbn in L; lia]. }
  assert (Ni' : ins' <> []).
  { intros ->. destruct ins as [|p ps]; [congruence|]. destruct rss; [discriminate Ll|]. cbn [combine] in Pm. apply Permutation_sym, Permutation_nil in Pm. discriminate. }
  destruct (asked_args w a ins' out' s e ci _ _ z Hz Ni' Eci Eco Er) as (o' & Ea' & Eco' & Er').
  assert (Pr : Permutation rss rss').
  { assert (E : forall (l : list bytes) (r : list (list row)), length l = length r -> map snd (combine l r) = r).
    { clear. induction l as [|x l IH]; intros [|y r] L; try discriminate L; [reflexivity|]. cbn. f_equal. apply IH. cbn in L. lia. }
    rewrite <- (E ins rss Ll), <- (E ins' rss' L). apply Permutation_map, Pm. }
  destruct (law_run k F w a o z u h ins out s e rss) as (rows & Run & P & So & Ti); auto.
  destruct (law_run k F w a o' z u h ins' out' s e rss') as (rows' & Run' & P' & So' & Ti'); auto.
  { eapply can_hold_some; [exact Hc|]. intros _ rs r Hrs Hr. exists rs. split; [|exact Hr]. eapply Permutation_in; [apply Permutation_sym; exact Pr|exact Hrs]. }
  { now rewrite Er'. }
  rewrite Er' in P', Ti'. rewrite Eco' in Run'.
  assert (PP : Permutation rows rows').
  { eapply Permutation_trans; [exact P|]. eapply Permutation_trans; [|apply Permutation_sym; exact P'].
    assert (Pc : forall l l' : list (list row), Permutation l l' -> Permutation (concat l) (concat l')).
    { clear. intros l l' H. induction H; cbn [concat]; [constructor|now apply Permutation_app_head| |eapply Permutation_trans; eauto].
      rewrite !app_assoc. apply Permutation_app_tail, Permutation_app_comm. }
    apply Pc, Permutation_map, Pr. }
  destruct (formatted k w a ins out s e o z u h rss Hz Hu Ea Hc) as (Fm & _).
  eexists _, _, rows, rows'. split; [exact Fm|]. split; [exact Run|]. split; [exact Run'|]. split; [exact PP|]. split; [|split; [exact So|]].
  - apply Sorted_StronglySorted in So; [|exact ts_le_trans]. apply Sorted_StronglySorted in So'; [|exact ts_le_trans].
    assert (Pt : Permutation (map ts rows) (map ts rows')) by now apply Permutation_map.
    assert (Sm : forall l, StronglySorted ts_le l -> StronglySorted N.le (map ts l)).
    { clear. intros l H. induction H as [|r l S IH H]; cbn [map]; constructor; [exact IH|]. apply Forall_map. exact H. }
    apply Sm in So, So'. revert Pt So So'. generalize (map ts rows), (map ts rows'). clear. intro l. induction l as [|x l IH]; intros l' P S1 S2.
    + symmetry. now apply Permutation_nil.
    + destruct l' as [|y l']; [apply Permutation_sym, Permutation_nil in P; discriminate|].
      apply StronglySorted_inv in S1 as [S1 F1]. apply StronglySorted_inv in S2 as [S2 F2]. rewrite Forall_forall in F1, F2.
      assert (x = y).
      { assert (Iy : In y (x :: l)) by (eapply Permutation_in; [apply Permutation_sym; exact P|now left]).
        assert (Ix : In x (y :: l')) by (eapply Permutation_in; [exact P|now left]).
        destruct Iy as [|Iy]; [assumption|]. destruct Ix as [|Ix]; [now symmetry|]. specialize (F1 _ Iy). specialize (F2 _ Ix). lia. }
      subst y. f_equal. apply IH; auto. eapply Permutation_cons_inv; exact P.
  - intro Un. apply by_times_unique; [exact So|exact So'|]. intro t. rewrite Ti, Ti'.
    (* at most one input has rows of this time *)
    set (f := fun rs => filter (at_time t) (filter (in_range (op_range ch o)) rs)).
    assert (One : forall x y z0, rss = x ++ y :: z0 -> f y <> [] -> concat (map f (x ++ z0)) = []).
    { intros x y z0 E Ny. assert (H : forall rs, In rs (x ++ z0) -> f rs = []).
      { intros rs Hrs. destruct (f rs) as [|r0 fr] eqn:Ef; [reflexivity|]. exfalso.
        assert (Ir : In r0 rs /\ ts r0 = t).
        { assert (X : In r0 (f rs)) by (rewrite Ef; now left). unfold f in X. apply filter_In in X as [X X2]. apply filter_In in X as [X _]. apply N.eqb_eq in X2. auto. }
        destruct (f y) as [|q0 fq] eqn:Eq; [congruence|].
        assert (Iq : In q0 y /\ ts q0 = t).
        { assert (X : In q0 (f y)) by (rewrite Eq; now left). unfold f in X. apply filter_In in X as [X X2]. apply filter_In in X as [X _]. apply N.eqb_eq in X2. auto. }
        destruct Ir as [Ir Tr], Iq as [Iq Tq].
        assert (Ny' : nth_error rss (length x) = Some y) by (rewrite E, nth_error_app2, Nat.sub_diag by lia; reflexivity).
        apply in_app_or in Hrs as [Hrs|Hrs]; apply In_nth_error in Hrs as [i Hi].
        - assert (Li : i < length x) by (apply nth_error_Some; congruence).
          assert (i = length x); [|lia]. eapply (Un i (length x) rs y r0 q0); [|exact Ny'|auto|auto|congruence]. rewrite E, nth_error_app1 by lia. exact Hi.
        - assert (length x + Datatypes.S i = length x); [|lia]. eapply (Un _ (length x) rs y r0 q0); [|exact Ny'|auto|auto|congruence].
          rewrite E, nth_error_app2 by lia. replace (length x + Datatypes.S i - length x) with (Datatypes.S i) by lia. exact Hi. }
      clear - H. induction (x ++ z0) as [|rs l IH]; [reflexivity|]. cbn [map concat]. rewrite (H rs (or_introl eq_refl)). apply IH. intros; apply H; now right. }
    assert (Tot : forall l, Permutation rss l -> forall x y z0, l = x ++ y :: z0 -> f y <> [] -> concat (map f l) = f y).
    { intros l Pl x y z0 E Ny. subst l.
      assert (Iy : In y rss) by (eapply Permutation_in; [apply Permutation_sym; exact Pl|apply in_elt]).
      apply in_split in Iy as (x1 & z1 & E1).
      assert (Z : concat (map f (x ++ z0)) = []).
      { assert (Q : Permutation (x1 ++ z1) (x ++ z0)) by (rewrite E1 in Pl; eapply Permutation_app_inv; exact Pl).
        pose proof (One x1 y z1 E1 Ny) as O. clear - O Q. assert (H : forall rs, In rs (x ++ z0) -> f rs = []).
        { intros rs Hrs. eapply Permutation_in in Hrs; [|apply Permutation_sym; exact Q]. clear - O Hrs. induction (x1 ++ z1) as [|q l IH]; [destruct Hrs|].
          cbn [map concat] in O. apply app_eq_nil in O as [O1 O2]. destruct Hrs as [->|Hrs]; auto. }
        clear - H. induction (x ++ z0) as [|rs l IH]; [reflexivity|]. cbn [map concat]. rewrite (H rs (or_introl eq_refl)). apply IH. intros; apply H; now right. }
      rewrite map_app, concat_app in Z. apply app_eq_nil in Z as [Z1 Z2]. rewrite map_app, concat_app. cbn [map concat]. rewrite Z1, Z2, app_nil_r. reflexivity. }
    destruct (existsb (fun rs => match f rs with [] => false | _ => true end) rss) eqn:Ex.
    + apply existsb_exists in Ex as (y & Iy & Ny). assert (Ny' : f y <> []) by (destruct (f y); [discriminate|discriminate]).
      assert (Q : Permutation rss (rev rss)) by apply Permutation_rev.
      assert (Q' : Permutation rss (rev rss')) by (eapply Permutation_trans; [exact Pr|apply Permutation_rev]).
      assert (J : In y (rev rss)) by (eapply Permutation_in; [exact Q|exact Iy]). assert (J' : In y (rev rss')) by (eapply Permutation_in; [exact Q'|exact Iy]).
      apply in_split in J as (x1 & z1 & E1). apply in_split in J' as (x2 & z2 & E2).
      rewrite (Tot _ Q _ _ _ E1 Ny'), (Tot _ Q' _ _ _ E2 Ny'). reflexivity.
    + assert (H : forall rs, In rs rss -> f rs = []).
      { intros rs Hrs. destruct (f rs) eqn:Ef; [reflexivity|]. exfalso.
        assert (X : existsb (fun rs => match f rs with [] => false | _ => true end) rss = true) by (apply existsb_exists; exists rs; rewrite Ef; auto).
        congruence. }
      assert (Z : forall l, Permutation rss l -> concat (map f l) = []).
      { intros l Q. assert (H' : forall rs, In rs l -> f rs = []) by (intros rs Hrs; apply H; eapply Permutation_in; [apply Permutation_sym; exact Q|exact Hrs]).
        clear - H'. induction l as [|rs l IH]; [reflexivity|]. cbn [map concat]. rewrite (H' rs (or_introl eq_refl)). apply IH. intros; apply H'; now right. }
      rewrite (Z (rev rss)), (Z (rev rss')); [reflexivity| |apply Permutation_rev].
      eapply Permutation_trans; [exact Pr|apply Permutation_rev].
Qed.
End Laws.
Print Assumptions C123_stages.
Print Assumptions C124_pieces.
Print Assumptions C125_input_order.
Print Assumptions C126_ranges.

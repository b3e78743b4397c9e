(** C92-C94: the name of the time column; quoted CSV fields; unquoted output. *)
From Verif Require Import CsvQuoteSpec CsvProofs CsvProofs2 CsvUtilProofs BytesProofs DcSpec.
From Verif Require Import DriverSpec.
From Verif Require T_Csv T_CsvOut.
Local Open Scope nat_scope.

(** ** C92 *)
(** The header line's first column: the name given, or one that tells the unit. *)
Theorem C92_time_column_name : forall d name st u show h, h_names h <> [] ->
  exists n, csv_header_bytes (csv_output_new d true name st u show) h = join (b ",") (n :: h_names h) ++ [byte_of 10] /\
    csv_header_bytes (csv_output_new d false name st u show) h = join (b ",") (h_names h) ++ [byte_of 10] /\
    match name with
    | Some given => n = given
    | None => match st, u with
              | HumanReadable, _ => n = b "time"
              | Epoch, Seconds => n = b "timestampSeconds"
              | Epoch, Millis => n = b "timestampMillis"
              | Epoch, Micros => n = b "timestampMicros"
              | Epoch, Nanos => n = b "timestampNanos"
              end
    end.
Proof.
  intros d name st u show h N. exists (co_time_name (csv_output_new d true name st u show)). split; [|split].
  - rewrite T_CsvOut.header_line by exact N. reflexivity.
  - rewrite T_CsvOut.header_line by exact N. reflexivity.
  - destruct name; [reflexivity|]. destruct st, u; reflexivity.
Qed.
Print Assumptions C92_time_column_name.
(** Without any option: nanoseconds in a first column timestampNanos, commas. *)
Theorem C92_defaults : forall f64 f32 name h r texts,
  h_names h <> [] -> Forall2 (value_text f64 f32) (vals r) texts ->
  exists cfg, (new_header_sink None None = Ok (OutCsv None cfg) /\
               new_header_sink (Some (name ++ b "csv")) None = Ok (OutCsv (Some (name ++ b "csv")) cfg)) /\
    csv_file f64 f32 cfg h [EvRow r] =
      join (b ",") (b "timestampNanos" :: h_names h) ++ [byte_of 10] ++ join (b ",") (dec (ts r) :: texts) ++ [byte_of 10].
Proof.
  intros f64 f32 name h r texts N V. exists csv_output_default. split.
  - split; [reflexivity|]. unfold new_header_sink.
    assert (E : ends_with (b "csv") (name ++ b "csv") = true) by (apply ends_with_spec; eauto).
    rewrite E. reflexivity.
  - unfold csv_file. rewrite T_CsvOut.header_line by exact N. cbn [csv_rows_bytes].
    assert (R : row_columns f64 f32 csv_output_default r (dec (ts r) :: texts)).
    { exists texts. split; [exact V|]. cbn [co_print_time csv_output_default csv_output_new]. exists (dec (ts r)). split; [|reflexivity].
      replace (dec (ts r)) with (dec (ts r / nanos_per (co_units csv_output_default)))
        by (cbn [co_units csv_output_default csv_output_new nanos_per]; rewrite N.div_1_r; reflexivity).
      now constructor. }
    rewrite (T_CsvOut.row_spec _ _ _ _ _ R). cbn [fst]. rewrite app_nil_r, <- !app_assoc. reflexivity.
Qed.
Print Assumptions C92_defaults.

(** ** C93 *)
Lemma field_end d st fields cur tail s : delim_ok d -> st <> InQuoted ->
  csv_parse d st fields cur tail (d :: s) = csv_parse d StartField (fields ++ [cur]) [] tail s.
Proof.
  intros [Q T] N. cbn [csv_parse].
  assert (E : csv_trans d st d = EndField).
  { assert (Eq : Ascii.eqb d quote = false) by (apply Ascii.eqb_neq; exact Q).
    destruct st; try congruence; unfold csv_trans; rewrite ?T, ?Eq, Ascii.eqb_refl; reflexivity. }
  rewrite E. reflexivity.
Qed.
Lemma record_end d st fields cur tail c s : delim_ok d -> is_term c = true -> st <> InQuoted -> st <> StartRecord ->
  csv_parse d st fields cur tail (c :: s) = Ok (fields ++ [cur]) :: csv_parse d StartRecord [] [] tail s.
Proof.
  intros [Q T] C N N'. cbn [csv_parse].
  assert (Ed : Ascii.eqb c d = false) by (apply Ascii.eqb_neq; intros ->; congruence).
  assert (Eq : Ascii.eqb c quote = false) by (apply Ascii.eqb_neq; intros ->; discriminate C).
  assert (E : csv_trans d st c = EndRecord).
  { destruct st; try congruence; unfold csv_trans; rewrite ?C, ?Ed, ?Eq; reflexivity. }
  rewrite E. reflexivity.
Qed.
Lemma in_quotes d fields tail f t : doubled f t -> forall cur s,
  csv_parse d InQuoted fields cur tail (t ++ [quote] ++ s) = csv_parse d InDoubledQuote fields (cur ++ f) tail s.
Proof.
  induction 1 as [|f t H IH|c f t Hc H IH]; intros cur s.
  - cbn [app csv_parse]. unfold csv_trans. rewrite Ascii.eqb_refl, app_nil_r. reflexivity.
  - cbn [app]. cbn [csv_parse]. unfold csv_trans at 1. rewrite Ascii.eqb_refl. cbn [csv_parse]. unfold csv_trans at 1. rewrite Ascii.eqb_refl.
    change (t ++ quote :: s) with (t ++ [quote] ++ s). rewrite IH, <- app_assoc. reflexivity.
  - cbn [app csv_parse]. unfold csv_trans at 1. rewrite (proj2 (Ascii.eqb_neq _ _) Hc).
    change (t ++ quote :: s) with (t ++ [quote] ++ s). rewrite IH, <- app_assoc. reflexivity.
Qed.
(** One cell, from the start of a field. *)
Lemma parse_cell d f t : delim_ok d -> cell_text d f t -> forall st, st = StartRecord \/ st = StartField ->
  exists st', st' <> InQuoted /\ (st' = StartRecord -> st = StartRecord /\ t = []) /\ forall fields tail s,
    csv_parse d st fields [] tail (t ++ s) = csv_parse d st' fields f tail s.
Proof.
  intros D C st Hst. destruct C as [f A B E G|f t H].
  - destruct f as [|c f].
    + exists st. split; [destruct Hst; subst; discriminate|]. split; [auto|]. reflexivity.
    + exists InField. split; [discriminate|]. split; [discriminate|]. intros fields tail s.
      rewrite keep_field; auto; [discriminate|tauto].
  - exists InDoubledQuote. split; [discriminate|]. split; [discriminate|]. intros fields tail s.
    cbn [app csv_parse].
    assert (E : csv_trans d st quote = Drop InQuoted) by (destruct Hst; subst; unfold csv_trans; reflexivity).
    rewrite E, <- app_assoc. rewrite (in_quotes d fields tail f t H). reflexivity.
Qed.
Lemma parse_cells d : delim_ok d -> forall fields cells, Forall2 (cell_text d) fields cells -> fields <> [] ->
  forall st, st = StartRecord \/ st = StartField -> (st = StartRecord -> join [d] cells <> []) ->
  exists st' before last, st' <> InQuoted /\ st' <> StartRecord /\ fields = before ++ [last] /\
    forall done tail s, csv_parse d st done [] tail (join [d] cells ++ s) = csv_parse d st' (done ++ before) last tail s.
Proof.
  intros D fields cells F. induction F as [|f t fields cells C F IH]; [congruence|]. intros _ st Hst Ne.
  destruct (parse_cell d f t D C st Hst) as (s1 & N1 & R1 & P1).
  destruct F as [|f2 t2 fields cells C2 F].
  - exists s1, [], f. split; [exact N1|]. split; [|split; [reflexivity|]].
    + intro E. destruct (R1 E) as [E1 E2]. apply (Ne E1). subst t. reflexivity.
    + intros done tail s. cbn [join flat_map]. rewrite app_nil_r, P1, app_nil_r. reflexivity.
  - destruct (IH ltac:(discriminate) StartField (or_intror eq_refl) ltac:(discriminate)) as (st' & before & last & N2 & N3 & E & P2).
    exists st', (f :: before), last. split; [exact N2|]. split; [exact N3|]. split; [rewrite E; reflexivity|].
    intros done tail s. cbn [join flat_map]. rewrite <- !app_assoc. rewrite P1. cbn [app]. rewrite field_end by assumption.
    specialize (P2 (done ++ [f]) tail s). cbn [join] in P2. rewrite <- app_assoc in P2.
    etransitivity; [exact P2|]. rewrite <- app_assoc. reflexivity.
Qed.
Lemma skip_ends d e tail s : line_end e -> csv_parse d StartRecord [] [] tail (e ++ s) = csv_parse d StartRecord [] [] tail s.
Proof. intros [->|[->| ->]]; reflexivity. Qed.
Lemma parse_text d rs s : delim_ok d -> csv_text d rs s -> csv_parse d StartRecord [] [] None s = map Ok rs.
Proof.
  intro D. induction 1 as [|r line H|r line e rs rest H E T IH|e rs rest E T IH].
  - reflexivity.
  - destruct H as (cells & N & F & -> & Ne).
    destruct (parse_cells d D r cells F N StartRecord (or_introl eq_refl) (fun _ => Ne)) as (st' & before & last & N1 & N2 & -> & P).
    specialize (P [] None []). rewrite app_nil_r in P. rewrite P. cbn [app csv_parse]. destruct st'; try reflexivity; congruence.
  - destruct H as (cells & N & F & -> & Ne).
    destruct (parse_cells d D r cells F N StartRecord (or_introl eq_refl) (fun _ => Ne)) as (st' & before & last & N1 & N2 & -> & P).
    rewrite P. cbn [map app]. rewrite <- IH. destruct E as [->|[->| ->]]; cbn [app]; rewrite record_end by (trivial; reflexivity); [reflexivity..|].
    rewrite <- (skip_ends d [byte_of 10]) by (left; reflexivity). reflexivity.
  - rewrite skip_ends by exact E. exact IH.
Qed.

(** The records of a CSV file are those its text spells, with or without a byte order mark. *)
Lemma records_text d rs s : delim_ok d -> csv_text d rs s -> (forall x, s <> bom ++ x) ->
  csv_records d (file s) = map Ok rs /\ csv_records d (file (bom ++ s)) = map Ok rs.
Proof.
  intros D T B. unfold csv_records, file. cbn [s_data s_tail]. split.
  - unfold strip_bom. destruct (starts_with _ s) eqn:E; [|apply parse_text; assumption].
    apply starts_with_spec in E. destruct E as (x & ->). destruct (B x eq_refl).
  - unfold strip_bom. cbn [bom app starts_with]. rewrite !Ascii.eqb_refl. cbn [andb skipn]. apply parse_text; assumption.
Qed.

Section Rows.
Context (prof : profile) (ch : chrono) (lower : bytes -> bytes) (f64_ok : text -> bool).
(** A CSV input delivers the values its text spells: quotes taken off, white space around the
    fields dropped, in order, whatever the line ends; the first record is the header if there is
    one. *)
Theorem C93_quoted_fields : forall (cfg : csv_input ch) lines d s data marked all first recs texts times,
  delimiter_used cfg lines d -> d <> quote -> d <> byte_of 10 -> d <> byte_of 13 ->
  csv_text d all data -> (forall x, data <> bom ++ x) -> marked = data \/ marked = bom ++ data ->
  csv_new prof ch lower f64_ok csv_records cfg lines (file marked) = Ok s ->
  all = (if has_header_used f64_ok cfg lines d then [first] else []) ++ recs ->
  Forall2 (Forall2 (fun f t => exists cs ct, Forall scalar cs /\ f = str cs /\ stripped cs ct /\ t = str ct)) recs texts ->
  (forall r r', In r texts -> In r' texts -> length r = length r') ->
  Forall2 (timed prof ch s) texts times ->
  csv_rows prof ch s = map (fun p => Ok {| ts := snd p; vals := map VString (fst p) |}) (combine texts times).
Proof.
  intros cfg lines d s data marked all first recs texts times Hd Q1 Q2 Q3 T B M O E Dx W Tm.
  assert (D : delim_ok d).
  { split; [exact Q1|]. unfold is_term. rewrite (proj2 (Ascii.eqb_neq _ _) Q2), (proj2 (Ascii.eqb_neq _ _) Q3). reflexivity. }
  assert (R : csv_records d (file marked) = map Ok all).
  { destruct (records_text d all data D T B) as [R1 R2]. destruct M; subst marked; assumption. }
  eapply (T_Csv.C36_same_width_partial prof ch lower f64_ok csv_records cfg lines (file marked) s (map Ok recs) texts times).
  - exact O.
  - exists d, (map Ok (if has_header_used f64_ok cfg lines d then [first] else [])). split; [exact Hd|].
    split; [rewrite R, E, map_app; reflexivity|]. destruct (has_header_used f64_ok cfg lines d); reflexivity.
  - clear - Dx. induction Dx as [|r t rs ts H F IH]; cbn [map]; constructor; [|exact IH]. exists r. split; [reflexivity|exact H].
  - exact Tm.
  - exact W.
Qed.
End Rows.
Print Assumptions C93_quoted_fields.

(** ** C94 *)
(** The program violates the property: a string with the delimiter in it becomes two fields. *)
Theorem C94_delimiter_refuted : forall f64 f32 cfg r n x y, co_delimiter cfg = b "," -> co_print_time cfg = true ->
  co_style cfg = Epoch -> vals r = [VString (x ++ b "," ++ y)] -> plain (byte_of 44) x -> plain (byte_of 44) y ->
  plain (byte_of 44) n -> plain (byte_of 44) (co_time_name cfg) -> (forall z, co_time_name cfg ++ b "," <> bom ++ z) ->
  forall h, h_names h = [n] ->
  exists t, csv_records (byte_of 44) (file (csv_file f64 f32 cfg h [EvRow r])) = [Ok [co_time_name cfg; n]; Ok [t; x; y]].
Proof.
  intros f64 f32 cfg r n x y Cd Cp Cs V Px Py Pn Pt B h Hn. exists (dec (ts r / nanos_per (co_units cfg))).
  assert (Pd : plain (byte_of 44) (dec (ts r / nanos_per (co_units cfg)))) by (apply dec_plain; unfold digit_byte; vm_compute; intuition congruence).
  assert (C : row_columns f64 f32 cfg r [dec (ts r / nanos_per (co_units cfg)); x ++ b "," ++ y]).
  { exists [x ++ b "," ++ y]. rewrite V, Cp. split; [repeat constructor|]. eexists. split; [constructor; exact Cs|reflexivity]. }
  assert (D : delim_ok (byte_of 44)) by (split; [discriminate|reflexivity]).
  assert (T : csv_text (byte_of 44) [[co_time_name cfg; n]; [dec (ts r / nanos_per (co_units cfg)); x; y]] (csv_file f64 f32 cfg h [EvRow r])).
  { assert (P : forall l, l <> [] -> 2 <= length l -> Forall (plain (byte_of 44)) l -> record_text (byte_of 44) l (join (b ",") l)).
    { intros l Nl Ll Fl. exists l. split; [exact Nl|]. split; [|split; [reflexivity|]].
      - clear - Fl. induction Fl as [|c l (A1 & A2 & A3 & A4 & _) F IH]; constructor; [|exact IH]. now constructor.
      - destruct l as [|c1 [|c2 l]]; cbn in Ll; [lia..|]. cbn [join flat_map]. destruct c1; discriminate. }
    unfold csv_file. rewrite T_CsvOut.header_line by (rewrite Hn; discriminate).
    unfold header_columns. rewrite Cp, Hn. rewrite <- app_assoc. apply text_line; [|left; reflexivity|].
    - apply P; [discriminate|cbn; lia|]. repeat (apply Forall_cons; [assumption|]); apply Forall_nil.
    - cbn [csv_rows_bytes]. rewrite (T_CsvOut.row_spec _ _ _ _ _ C), Cd. cbn [fst].
      replace (join (b ",") [dec (ts r / nanos_per (co_units cfg)); x ++ b "," ++ y])
        with (join (b ",") [dec (ts r / nanos_per (co_units cfg)); x; y]) by (cbn [join flat_map]; rewrite !app_nil_r; reflexivity).
      rewrite <- app_assoc. apply text_line; [|left; reflexivity|constructor].
      apply P; [discriminate|cbn; lia|]. repeat (apply Forall_cons; [assumption|]); apply Forall_nil. }
  apply (records_text _ _ _ D T). intros z E.
  unfold csv_file in E. rewrite T_CsvOut.header_line in E by (rewrite Hn; discriminate).
  unfold header_columns in E. rewrite Cp, Hn in E. cbn [app join flat_map] in E.
  revert B E. unfold bom. destruct (co_time_name cfg) as [|x1 [|x2 [|x3 w]]]; cbn [app b]; intros B [=]; subst.
  eapply (B (w ++ b ",")). reflexivity.
Qed.
Print Assumptions C94_delimiter_refuted.
(** And a string with a line end in it becomes two records. *)
Theorem C94_line_end_refuted : forall f64 f32 cfg r n x y, co_delimiter cfg = b "," -> co_print_time cfg = true ->
  co_style cfg = Epoch -> vals r = [VString (x ++ [byte_of 10] ++ y)] -> plain (byte_of 44) x -> plain (byte_of 44) y -> y <> [] ->
  plain (byte_of 44) n -> plain (byte_of 44) (co_time_name cfg) -> (forall z, co_time_name cfg ++ b "," <> bom ++ z) ->
  forall h, h_names h = [n] ->
  exists t, csv_records (byte_of 44) (file (csv_file f64 f32 cfg h [EvRow r])) = [Ok [co_time_name cfg; n]; Ok [t; x]; Ok [y]].
Proof.
  intros f64 f32 cfg r n x y Cd Cp Cs V Px Py Ny Pn Pt B h Hn. exists (dec (ts r / nanos_per (co_units cfg))).
  assert (Pd : plain (byte_of 44) (dec (ts r / nanos_per (co_units cfg)))) by (apply dec_plain; unfold digit_byte; vm_compute; intuition congruence).
  assert (C : row_columns f64 f32 cfg r [dec (ts r / nanos_per (co_units cfg)); x ++ [byte_of 10] ++ y]).
  { exists [x ++ [byte_of 10] ++ y]. rewrite V, Cp. split; [repeat constructor|]. eexists. split; [constructor; exact Cs|reflexivity]. }
  assert (D : delim_ok (byte_of 44)) by (split; [discriminate|reflexivity]).
  assert (T : csv_text (byte_of 44) [[co_time_name cfg; n]; [dec (ts r / nanos_per (co_units cfg)); x]; [y]] (csv_file f64 f32 cfg h [EvRow r])).
  { assert (P : forall l, l <> [] -> join (b ",") l <> [] -> Forall (plain (byte_of 44)) l -> record_text (byte_of 44) l (join (b ",") l)).
    { intros l Nl Ll Fl. exists l. split; [exact Nl|]. split; [|split; [reflexivity|exact Ll]].
      clear - Fl. induction Fl as [|c l (A1 & A2 & A3 & A4 & _) F IH]; constructor; [|exact IH]. now constructor. }
    assert (L : forall c1 c2, join (b ",") [c1; c2] <> []) by (intros [|]; discriminate).
    unfold csv_file. rewrite T_CsvOut.header_line by (rewrite Hn; discriminate).
    unfold header_columns. rewrite Cp, Hn. rewrite <- app_assoc. apply text_line; [|left; reflexivity|].
    - apply P; [discriminate|apply L|]. repeat (apply Forall_cons; [assumption|]); apply Forall_nil.
    - cbn [csv_rows_bytes]. rewrite (T_CsvOut.row_spec _ _ _ _ _ C), Cd. cbn [fst].
      replace (join (b ",") [dec (ts r / nanos_per (co_units cfg)); x ++ [byte_of 10] ++ y] ++ [byte_of 10])
        with (join (b ",") [dec (ts r / nanos_per (co_units cfg)); x] ++ [byte_of 10] ++ join (b ",") [y] ++ [byte_of 10])
        by (cbn [join flat_map]; rewrite !app_nil_r, <- !app_assoc; reflexivity).
      rewrite <- !app_assoc. apply text_line; [apply P; [discriminate|apply L|repeat (apply Forall_cons; [assumption|]); apply Forall_nil]|left; reflexivity|].
      apply text_line; [|left; reflexivity|constructor]. apply P; [discriminate| |repeat (apply Forall_cons; [assumption|]); apply Forall_nil].
      cbn [join flat_map]. rewrite app_nil_r. exact Ny. }
  apply (records_text _ _ _ D T). intros z E.
  unfold csv_file in E. rewrite T_CsvOut.header_line in E by (rewrite Hn; discriminate).
  unfold header_columns in E. rewrite Cp, Hn in E. cbn [app join flat_map] in E.
  revert B E. unfold bom. destruct (co_time_name cfg) as [|x1 [|x2 [|x3 w]]]; cbn [app b]; intros B [=]; subst.
  eapply (B (w ++ b ",")). reflexivity.
Qed.
Print Assumptions C94_line_end_refuted.

(** ** Cases *)
Definition fl (x : N) : bytes := b "0.5".
Definition cr : bytes := [byte_of 13; byte_of 10].
(** Quotes, a quoted delimiter, a quoted line end, an empty line, no end on the last line. *)
Definition quoted_ex : bytes :=
  b "time,note" ++ cr ++ b "5 ,""x, """"q""""""" ++ cr ++ [byte_of 10] ++ b "7,""p" ++ [byte_of 10] ++ b " """.
Definition quoted_recs : list (list bytes) :=
  [[b "5 "; b "x, ""q"""]; [b "7"; b "p" ++ [byte_of 10] ++ b " "]].
Lemma not_in_eqb c f : forallb (fun x => negb (Ascii.eqb x c)) f = true -> ~ In c f.
Proof. intros H I. rewrite forallb_forall in H. specialize (H c I). rewrite Ascii.eqb_refl in H. discriminate. Qed.
Example C93_text : csv_text (byte_of 44) ([b "time"; b "note"] :: quoted_recs) quoted_ex.
Proof.
  unfold quoted_ex. apply text_line; [|right; right; reflexivity|].
  - exists [b "time"; b "note"]. split; [discriminate|]. split; [|split; [reflexivity|discriminate]].
    constructor; [|constructor; [|constructor]]; constructor; apply not_in_eqb; reflexivity.
  - apply text_line; [|right; right; reflexivity|].
    + exists [b "5 "; b """x, """"q"""""""]. split; [discriminate|]. split; [|split; [reflexivity|discriminate]].
      constructor; [|constructor; [|constructor]].
      * constructor; apply not_in_eqb; reflexivity.
      * apply (cell_quoted _ (b "x, ""q""") (b "x, """"q""""")). cbn [b String.list_ascii_of_string].
        repeat first [apply doubled_nil | apply doubled_quote | apply doubled_other; [discriminate|]].
    + apply text_empty; [left; reflexivity|]. apply text_last.
      exists [b "7"; b """p" ++ [byte_of 10] ++ b " """]. split; [discriminate|]. split; [|split; [reflexivity|discriminate]].
      constructor; [|constructor; [|constructor]].
      * constructor; apply not_in_eqb; reflexivity.
      * apply (cell_quoted _ (b "p" ++ [byte_of 10] ++ b " ") (b "p" ++ [byte_of 10] ++ b " ")).
        cbn [b String.list_ascii_of_string app]. repeat first [apply doubled_nil | apply doubled_quote | apply doubled_other; [discriminate|]].
Qed.
Definition quoted_cfg : csv_input T_CsvOut.nochrono :=
  {| ci_delimiter := Some (byte_of 44); ci_has_header := Yes; ci_col := CfgIndex 0; ci_fmt := FmtEpoch Seconds; ci_tz := None |}.
Example C93_nonvacuous : exists s,
  csv_new Debug T_CsvOut.nochrono (fun x => x) (fun _ => false) csv_records quoted_cfg None (file (bom ++ quoted_ex)) = Ok s /\
  Forall2 (timed Debug T_CsvOut.nochrono s) [[b "5"; b "x, ""q"""]; [b "7"; b "p"]] [5000000000; 7000000000]%N /\
  csv_rows Debug T_CsvOut.nochrono s =
    [Ok {| ts := 5000000000%N; vals := [VString (b "5"); VString (b "x, ""q""")] |};
     Ok {| ts := 7000000000%N; vals := [VString (b "7"); VString (b "p")] |}].
Proof.
  eexists. split; [vm_compute; reflexivity|]. split; [|vm_compute; reflexivity].
  constructor; [vm_compute; reflexivity|]. constructor; [vm_compute; reflexivity|constructor].
Qed.
Example C94_nonvacuous :
  let h := {| h_names := [b "note"]; h_types := [TString] |} in
  let out s := csv_records (byte_of 44) (file (csv_file fl fl csv_output_default h [EvRow {| ts := 7%N; vals := [VString s] |}])) in
  out (b "a b") = [Ok [b "timestampNanos"; b "note"]; Ok [b "7"; b "a b"]] /\
  out (b "a,b") = [Ok [b "timestampNanos"; b "note"]; Ok [b "7"; b "a"; b "b"]] /\
  out (b "a" ++ [byte_of 10] ++ b "b") = [Ok [b "timestampNanos"; b "note"]; Ok [b "7"; b "a"]; Ok [b "b"]] /\
  out (b """a") = [Ok [b "timestampNanos"; b "note"]; Ok [b "7"; b "a" ++ [byte_of 10]]].
Proof. repeat split; vm_compute; reflexivity. Qed.
Example C92_nonvacuous :
  csv_header_bytes (csv_output_new (b ",") true None HumanReadable Millis None) T_CsvOut.hx = b "time,a,n" ++ [byte_of 10] /\
  csv_header_bytes (csv_output_new (b ",") true (Some (b "t")) Epoch Millis None) T_CsvOut.hx = b "t,a,n" ++ [byte_of 10] /\
  csv_header_bytes (csv_output_new (b ",") false (Some (b "t")) Epoch Millis None) T_CsvOut.hx = b "a,n" ++ [byte_of 10].
Proof. repeat split. Qed.

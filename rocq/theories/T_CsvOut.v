(** C37, C38, C61-C64: CSV output, and reading it back. *)
From Verif Require Import CsvModel CsvSpec CsvProofs CsvProofs2 CsvUtilProofs TimestampProofs BytesProofs Utf8Spec.
From Verif Require Import DcSpec CliProofs DriverSpec.
From Verif Require MultiProofs GraphProps T_Csv T_Timestamp.
Local Open Scope nat_scope.

Section Out.
Context (f64 f32 : N -> bytes).

Lemma zdec_decimal z : signed_decimal z (zdec z).
Proof.
  unfold zdec. destruct (Z.ltb_spec z 0) as [L|L].
  - rewrite <- (Z.opp_involutive z) at 1. rewrite <- (Z2N.id (- z)) at 1 by lia. constructor. lia.
  - rewrite <- (Z2N.id z) at 1 by lia. constructor.
Qed.
Lemma decimal_zdec z t : signed_decimal z t -> t = zdec z.
Proof.
  destruct 1 as [n|n Hn]; unfold zdec.
  - destruct (Z.ltb_spec (Z.of_N n) 0); [lia|]. rewrite N2Z.id. reflexivity.
  - destruct (Z.ltb_spec (- Z.of_N n) 0); [|lia]. rewrite Z.opp_involutive, N2Z.id. reflexivity.
Qed.
Lemma value_spec v t : csv_value f64 f32 v = Ok t <-> value_text f64 f32 v t.
Proof.
  split.
  - destruct v; cbn; intros [=]; subst; constructor; apply zdec_decimal.
  - destruct 1; cbn; trivial; f_equal; symmetry; now apply decimal_zdec.
Qed.
Lemma format_spec u : time_format u = calendar_format u.
Proof. destruct u; reflexivity. Qed.
Lemma time_spec cfg n t : csv_time cfg n = Ok t <-> time_text cfg n t.
Proof.
  unfold csv_time. split.
  - destruct (co_style cfg) eqn:S.
    + intros [= <-]. replace (match co_units cfg with Seconds => _ | _ => _ end)%N with (n / nanos_per (co_units cfg))%N; [now constructor|].
      destruct (co_units cfg); trivial. apply N.div_1_r.
    + destruct (co_show cfg) eqn:E; [|discriminate]. intros [= <-]. rewrite format_spec. now constructor.
  - destruct 1 as [S|show S E]; rewrite S; [|rewrite E, format_spec; reflexivity].
    f_equal. f_equal. destruct (co_units cfg); trivial. cbn [nanos_per]. rewrite N.div_1_r. reflexivity.
Qed.
Lemma row_spec cfg r cols : row_columns f64 f32 cfg r cols ->
  csv_write_row f64 f32 cfg r = (join (co_delimiter cfg) cols ++ [byte_of 10], Ok tt).
Proof.
  intros (texts & V & H).
  assert (V' : Forall2 (fun v t => csv_value f64 f32 v = Ok t) (vals r) texts).
  { clear - V. induction V; constructor; trivial. now apply value_spec. }
  destruct (co_print_time cfg) eqn:P.
  - destruct H as (t & Ht & ->). apply time_spec in Ht.
    rewrite (csv_row_ok f64 f32 cfg r t texts); [|intros _; exact Ht|exact V'].
    unfold time_texts. rewrite P. reflexivity.
  - subst cols. rewrite (csv_row_ok f64 f32 cfg r [] texts); [|congruence|exact V'].
    unfold time_texts. rewrite P. reflexivity.
Qed.
Lemma header_spec cfg h : csv_header_bytes cfg h =
  (if co_print_time cfg then co_time_name cfg ++ b "," else []) ++ join (b ",") (h_names h) ++ [byte_of 10].
Proof. unfold csv_header_bytes. rewrite header_names_join. reflexivity. Qed.
Lemma header_line cfg h : h_names h <> [] ->
  csv_header_bytes cfg h = join (b ",") (header_columns cfg h) ++ [byte_of 10].
Proof.
  intro N. rewrite header_spec. unfold header_columns. destruct (co_print_time cfg); [|reflexivity].
  destruct (h_names h) as [|n ns]; [congruence|]. cbn [join app flat_map]. rewrite <- !app_assoc. reflexivity.
Qed.
Lemma rows_bytes_spec cfg evs cols : Forall2 (row_columns f64 f32 cfg) (ev_rows evs) cols ->
  csv_rows_bytes f64 f32 cfg evs = concat (map (fun c => join (co_delimiter cfg) c ++ [byte_of 10]) cols).
Proof.
  revert cols. induction evs as [|[r|] evs IH]; intros cols F; cbn [ev_rows csv_rows_bytes] in *.
  - inversion F. reflexivity.
  - inversion F as [|? c ? cs Hc F']; subst. rewrite (row_spec _ _ _ Hc). cbn [fst map concat]. rewrite (IH _ F'). reflexivity.
  - apply IH, F.
Qed.

(** ** C37 *)

(** Every row's line splits at the delimiter into the printed time and the values' texts, in
    order; it is one line; and there is no other way to split it. *)
Theorem C37_rows cfg d r cols : co_delimiter cfg = [d] -> row_columns f64 f32 cfg r cols -> cols <> [] ->
  Forall (fun c => ~ In d c /\ ~ In (byte_of 10) c) cols -> d <> byte_of 10 ->
  exists line, csv_write_row f64 f32 cfg r = (line ++ [byte_of 10], Ok tt) /\
    ~ In (byte_of 10) line /\ columns d line cols /\ forall other, columns d line other -> other = cols.
Proof.
  intros D H Ne F Dn. exists (join [d] cols). split; [rewrite (row_spec _ _ _ H), D; reflexivity|].
  assert (C : columns d (join [d] cols) cols).
  { split; [exact Ne|]. split; [|reflexivity]. eapply Forall_impl; [|exact F]. cbn. tauto. }
  split; [|split; [exact C|]].
  - destruct cols as [|c cs]; [congruence|]. cbn [join]. rewrite in_app_iff. intros [I|I].
    + apply Forall_inv in F. tauto.
    + apply in_flat_map in I. destruct I as (x & Ix & [E|I]); [congruence|].
      apply Forall_inv_tail in F. rewrite Forall_forall in F. specialize (F x Ix). tauto.
  - intros other O. eapply columns_unique; eauto.
Qed.

(** What holds for the whole file: with a comma as delimiter and at least one column, the file
    is the header's line and the rows' lines, all with the same number of columns. *)
Theorem C37_file_partial cfg h evs cols : co_delimiter cfg = b "," -> h_names h <> [] ->
  Forall2 (row_columns f64 f32 cfg) (ev_rows evs) cols ->
  Forall (fun r => length (vals r) = length (h_names h)) (ev_rows evs) ->
  Forall (Forall (fun c => ~ In (byte_of 44) c)) (header_columns cfg h :: cols) ->
  exists lines, csv_file f64 f32 cfg h evs = concat (map (fun l => l ++ [byte_of 10]) lines) /\
    Forall2 (columns (byte_of 44)) lines (header_columns cfg h :: cols) /\
    Forall (fun c => length c = length (header_columns cfg h)) cols.
Proof.
  intros D N F W P. exists (map (join (b ",")) (header_columns cfg h :: cols)). split; [|split].
  - unfold csv_file. rewrite (header_line _ _ N), (rows_bytes_spec _ _ _ F), D. cbn [map concat].
    rewrite map_map. reflexivity.
  - assert (L : Forall (fun c => c <> []) (header_columns cfg h :: cols)).
    { constructor.
      - unfold header_columns. destruct (co_print_time cfg); [discriminate|exact N].
      - apply Forall_forall. intros c Hc. destruct (in_split _ _ Hc) as (c1 & c2 & ->).
        apply Forall2_app_inv_r in F. destruct F as (r1 & r2 & F1 & F2 & E). inversion F2 as [|r ? rs ? Hr F3]; subst.
        assert (Ir : In r (ev_rows evs)) by (rewrite E; apply in_elt).
        rewrite Forall_forall in W. specialize (W r Ir). destruct Hr as (texts & V & T).
        pose proof (GraphProps.Forall2_len _ _ _ V). destruct (co_print_time cfg); [destruct T as (t & _ & ->); discriminate|].
        subst c. intros ->. cbn in *. destruct (h_names h); [congruence|]. cbn in W. lia. }
    revert P L. generalize (header_columns cfg h :: cols). clear. intros l P L.
    induction l as [|c l IH]; cbn [map]; [constructor|]. inversion P; inversion L; subst. constructor; [|auto].
    split; [assumption|]. split; [assumption|reflexivity].
  - apply Forall_forall. intros c Hc. destruct (in_split _ _ Hc) as (c1 & c2 & ->).
    apply Forall2_app_inv_r in F. destruct F as (r1 & r2 & F1 & F2 & E). inversion F2 as [|r ? rs ? Hr F3]; subst.
    assert (Ir : In r (ev_rows evs)) by (rewrite E; apply in_elt).
    rewrite Forall_forall in W. specialize (W r Ir). destruct Hr as (texts & V & T).
    pose proof (GraphProps.Forall2_len _ _ _ V) as Lt. unfold header_columns. rewrite app_length.
    destruct (co_print_time cfg); [destruct T as (t & _ & ->)|subst c]; cbn [length]; lia.
Qed.

(** The program violates the property for every other delimiter: the header's line is a single
    column, however many columns the rows have. *)
Theorem C37_other_delimiter_refuted cfg h d : co_delimiter cfg = [d] -> d <> byte_of 44 -> h_names h <> [] ->
  Forall (fun c => ~ In d c) (header_columns cfg h) ->
  exists line, csv_header_bytes cfg h = line ++ [byte_of 10] /\
    columns d line [line] /\ forall cols, columns d line cols -> length cols = 1.
Proof.
  intros D Nd Nn P. exists (join (b ",") (header_columns cfg h)). split; [apply header_line, Nn|].
  assert (C : columns d (join (b ",") (header_columns cfg h)) [join (b ",") (header_columns cfg h)]).
  { split; [discriminate|]. split; [|cbn [join flat_map]; rewrite app_nil_r; reflexivity].
    constructor; [|constructor]. destruct (header_columns cfg h) as [|c cs]; [intros []|]. cbn [join].
    rewrite in_app_iff. intros [I|I]; [apply Forall_inv in P; tauto|].
    apply in_flat_map in I. destruct I as (x & Ix & [E|I]); [exact (Nd (eq_sym E))|].
    apply Forall_inv_tail in P. rewrite Forall_forall in P. exact (P x Ix I). }
  split; [exact C|]. intros cols Hc. rewrite (columns_unique _ _ _ _ Hc C). reflexivity.
Qed.
(** And with no columns besides the time, the header has one column too many. *)
Theorem C37_no_columns_refuted cfg h r t : co_delimiter cfg = b "," -> co_print_time cfg = true ->
  h_names h = [] -> vals r = [] -> time_text cfg (ts r) t ->
  ~ In (byte_of 44) (co_time_name cfg) -> ~ In (byte_of 44) t ->
  csv_file f64 f32 cfg h [EvRow r] = (co_time_name cfg ++ b ",") ++ [byte_of 10] ++ t ++ [byte_of 10] /\
  columns (byte_of 44) (co_time_name cfg ++ b ",") [co_time_name cfg; []] /\ columns (byte_of 44) t [t].
Proof.
  intros D P N V T H1 H2. split; [|split].
  - unfold csv_file. rewrite header_spec, P, N. cbn [join app].
    assert (R : row_columns f64 f32 cfg r [t]).
    { exists []. rewrite V, P. split; [constructor|]. exists t. split; [exact T|reflexivity]. }
    cbn [csv_rows_bytes]. rewrite (row_spec _ _ _ R). cbn [fst join flat_map]. rewrite !app_nil_r, <- !app_assoc. reflexivity.
  - split; [discriminate|]. split; [repeat constructor; trivial; intros []|]. cbn. reflexivity.
  - split; [discriminate|]. split; [repeat constructor; trivial|]. cbn. rewrite app_nil_r. reflexivity.
Qed.

(** ** C38 *)

(** The first column of a row's line is the decimal numeral of the number of whole units in the
    timestamp; any reader of that column at that unit gets the largest multiple of the unit up to
    the timestamp, which is the timestamp itself for nanoseconds. *)
Lemma epoch_floor cfg r cols : co_print_time cfg = true -> co_style cfg = Epoch -> row_columns f64 f32 cfg r cols ->
  (ts r < 2 ^ 64)%N ->
  exists t texts q, cols = t :: texts /\ numeral (chars t) q /\
    (q * nanos_per (co_units cfg) <= ts r < (q + 1) * nanos_per (co_units cfg))%N /\
    forall prof ch rec i z, nth_error rec i = Some t ->
      exists m, get_timestamp prof ch rec (ColIndex i) (FUnits (co_units cfg)) z = Ok m /\
        largest_multiple (nanos_per (co_units cfg)) (ts r) m /\ (co_units cfg = Nanos -> m = ts r).
Proof.
  intros P S (texts & V & H) B. rewrite P in H. destruct H as (t & Ht & ->).
  destruct Ht as [_|show S' _]; [|congruence].
  set (u := nanos_per (co_units cfg)). set (q := (ts r / u)%N).
  assert (U : (u <> 0)%N) by (unfold u; destruct (co_units cfg); discriminate).
  pose proof (N.div_mod (ts r) u U) as E. pose proof (N.mod_lt (ts r) u U) as M. fold q in E.
  assert (Q : (q <= ts r)%N).
  { apply N.div_le_upper_bound; [exact U|]. nia. }
  exists (dec q), texts, q. split; [reflexivity|]. split; [apply dec_numeral|]. split; [nia|].
  intros prof ch rec i z Hi. exists (q * u)%N.
  assert (G : get_timestamp_string rec (ColIndex i) = Ok (dec q)) by (cbn; rewrite Hi; reflexivity).
  rewrite (get_units prof ch rec _ _ z _ _ G (parse_dec q (N.le_lt_trans _ _ _ Q B))). fold u.
  split; [apply mul_fits; nia|]. split.
  - split; [exists q; reflexivity|]. split; [nia|]. intros q' Hq'.
    assert (q' <= q)%N by (apply N.div_le_lower_bound; [exact U|nia]). nia.
  - intro En. subst q u. rewrite En. cbn [nanos_per]. rewrite N.div_1_r. lia.
Qed.

(** The line written for any row: it starts with a decimal numeral, up to the delimiter or the end
    of the line, that is the number of whole units in the timestamp; and that numeral, read back at
    the unit, gives the largest multiple of the unit up to the timestamp. *)
Theorem C38_floor cfg r line : co_print_time cfg = true -> co_style cfg = Epoch -> (ts r < 2 ^ 64)%N ->
  csv_write_row f64 f32 cfg r = (line, Ok tt) ->
  exists t rest q, line = t ++ rest ++ [byte_of 10] /\ (rest = [] \/ exists more, rest = co_delimiter cfg ++ more) /\
    numeral (chars t) q /\
    (q * nanos_per (co_units cfg) <= ts r < (q + 1) * nanos_per (co_units cfg))%N /\
    forall prof ch rec i z, nth_error rec i = Some t ->
      exists m, get_timestamp prof ch rec (ColIndex i) (FUnits (co_units cfg)) z = Ok m /\
        largest_multiple (nanos_per (co_units cfg)) (ts r) m /\ (co_units cfg = Nanos -> m = ts r).
Proof.
  intros P St B W.
  assert (C : exists cols, row_columns f64 f32 cfg r cols).
  { unfold csv_write_row in W. rewrite P in W. destruct (csv_time cfg (ts r)) as [t| | | |] eqn:T; try discriminate W.
    apply time_spec in T. destruct (csv_values f64 f32 (co_delimiter cfg) (negb true) (vals r)) as [w o] eqn:V.
    destruct o as [[]| | | |]; try discriminate W.
    assert (X : forall vs d first w, csv_values f64 f32 d first vs = (w, Ok tt) -> exists texts, Forall2 (value_text f64 f32) vs texts).
    { clear. induction vs as [|v vs IH]; intros d first w E; [exists []; constructor|]. cbn [csv_values] in E.
      destruct (csv_value f64 f32 v) as [x| | | |] eqn:Ev; try discriminate E.
      destruct (csv_values f64 f32 d false vs) as [w' o'] eqn:E'. injection E as _ ->.
      destruct (IH _ _ _ E') as (texts & F). exists (x :: texts). constructor; [now apply value_spec|exact F]. }
    destruct (X _ _ _ _ V) as (texts & F). exists (t :: texts), texts. split; [exact F|]. rewrite P. eauto. }
  destruct C as (cols & C). pose proof (row_spec _ _ _ C) as E. rewrite W in E. injection E as ->.
  destruct (epoch_floor cfg r cols P St C B) as (t & texts & q & -> & Hq & Hr & G).
  exists t, (flat_map (fun x => co_delimiter cfg ++ x) texts), q. split; [cbn [join]; rewrite <- app_assoc; reflexivity|]. split; [|auto].
  destruct texts as [|x texts]; [left; reflexivity|]. right. cbn [flat_map]. rewrite <- app_assoc. eauto.
Qed.

(** ** C64 *)

(** A row is written if and only if it has no boolean or byte buffer, and its time can be
    printed; otherwise the sink reports an error. *)
Theorem C64_errors cfg r :
  let printable := (co_print_time cfg = true -> co_style cfg = HumanReadable -> co_show cfg <> None) /\
    forall v, In v (vals r) -> (forall x, v <> VBoolean x) /\ (forall x, v <> VByteBuf x) in
  (printable <-> snd (csv_write_row f64 f32 cfg r) = Ok tt) /\
  (~ printable <-> exists e, snd (csv_write_row f64 f32 cfg r) = Err (ECustom e)).
Proof.
  intro printable.
  assert (A : (exists w, forall first, snd (csv_values f64 f32 (co_delimiter cfg) first (vals r)) = Ok w) /\
              (forall v, In v (vals r) -> (forall x, v <> VBoolean x) /\ (forall x, v <> VByteBuf x)) \/
              (exists e, forall first, snd (csv_values f64 f32 (co_delimiter cfg) first (vals r)) = Err (ECustom e)) /\
              ~ (forall v, In v (vals r) -> (forall x, v <> VBoolean x) /\ (forall x, v <> VByteBuf x))).
  { clear printable. generalize (vals r). intro vs. induction vs as [|v vs IH].
    - left. split; [exists tt; intros [|]; reflexivity|]. intros v [].
    - destruct (csv_value f64 f32 v) as [t|e| | |] eqn:E; try (destruct v; discriminate E).
      + destruct IH as [[(w & IH) IH']|[(e & IH) IH']].
        * left. split.
          -- exists w. intro first. cbn [csv_values]. rewrite E. specialize (IH false). destruct (csv_values _ _ _ _ vs). exact IH.
          -- intros v' [<-|I]; [|auto]. destruct v; cbn in E; try discriminate E; split; discriminate.
        * right. split.
          -- exists e. intro first. cbn [csv_values]. rewrite E. specialize (IH false). destruct (csv_values _ _ _ _ vs). exact IH.
          -- intro A. apply IH'. intros v' I. apply A. right. exact I.
      + right. split.
        * destruct v; cbn in E; try discriminate E; eexists; intro first; cbn [csv_values csv_value]; reflexivity.
        * intro A. destruct (A v (or_introl eq_refl)) as [A1 A2]. destruct v; try discriminate E; [eapply A1|eapply A2]; reflexivity. }
  assert (B : (printable /\ snd (csv_write_row f64 f32 cfg r) = Ok tt) \/
              (~ printable /\ exists e, snd (csv_write_row f64 f32 cfg r) = Err (ECustom e))).
  { unfold csv_write_row, csv_time. destruct (co_print_time cfg) eqn:P.
    - destruct (co_style cfg) eqn:S; [|destruct (co_show cfg) as [sh|] eqn:C].
      + destruct A as [[(w & A) A']|[(e & A) A']]; specialize (A (negb true)); destruct (csv_values _ _ _ _ _) as [w' o]; cbn [snd] in A; subst o.
        * left. split; [split; [congruence|exact A']|destruct w; reflexivity].
        * right. split; [intros [_ X]; exact (A' X)|eexists; reflexivity].
      + destruct A as [[(w & A) A']|[(e & A) A']]; specialize (A (negb true)); destruct (csv_values _ _ _ _ _) as [w' o]; cbn [snd] in A; subst o.
        * left. split; [split; [congruence|exact A']|destruct w; reflexivity].
        * right. split; [intros [_ X]; exact (A' X)|eexists; reflexivity].
      + right. split; [|eexists; reflexivity]. intros [X _]. apply X; trivial.
    - destruct A as [[(w & A) A']|[(e & A) A']]; specialize (A (negb false)); destruct (csv_values _ _ _ _ _) as [w' o]; cbn [snd] in A; subst o.
      + left. split; [split; [congruence|exact A']|destruct w; reflexivity].
      + right. split; [intros [_ X]; exact (A' X)|eexists; reflexivity]. }
  destruct B as [[B1 B2]|[B1 (e & B2)]]; rewrite B2; split; split; try tauto; try (intros [? ?]; discriminate); try discriminate.
  intros _. exists e. reflexivity.
Qed.

(** ** C61 *)

Section Read.
Context (prof : profile) (ch : chrono) (lower : bytes -> bytes) (f64_ok : text -> bool).
(** A header record [hc] and row records [cols], as text lines, opened again. *)
Lemma read_lines icfg lines d hc cols u times :
  ci_delimiter icfg = Some d -> ci_has_header icfg = Yes -> ci_col icfg = CfgIndex 0 -> ci_fmt icfg = FmtEpoch u ->
  delim_ok d -> hc <> [] -> hc <> [[]] -> Forall (Forall (plain d)) (hc :: cols) -> cols <> [] ->
  Forall (fun c => c <> [] /\ c <> [[]]) cols ->
  (forall c c', In c cols -> In c' cols -> length c = length c') ->
  Forall2 (fun c t => exists x, nth_error c 0 = Some x /\ get_timestamp prof ch c (ColIndex 0) (FUnits u) (ci_tz icfg) = Ok t) cols times ->
  let data := concat (map (fun c => join [d] c ++ [byte_of 10]) (hc :: cols)) in
  starts_with [byte_of 0xEF; byte_of 0xBB; byte_of 0xBF] data = false ->
  exists s, csv_new prof ch lower f64_ok csv_records icfg lines (file data) = Ok s /\
    h_names (cs_header s) = hc /\ (forall c, In c cols -> h_types (cs_header s) = repeat TString (length c)) /\
    csv_rows prof ch s = map (fun p => Ok (row_of (fst p) (snd p))) (combine cols times).
Proof.
  intros Id Ih Ic If D N1 N2 P Nc Ne W T data Bom.
  assert (R : csv_records d (file data) = map Ok (hc :: cols)).
  { unfold csv_records, file. cbn [s_data s_tail]. unfold strip_bom. rewrite Bom. unfold data.
    rewrite parse_lines; [apply app_nil_r|exact D|]. apply Forall_forall. intros c Hc. split; [|split].
    - rewrite Forall_forall in P. specialize (P c Hc). eapply Forall_impl; [|exact P]. intros a Ha. now apply plain_unquoted.
    - destruct Hc as [<-|Hc]; [exact N1|]. rewrite Forall_forall in Ne. now apply (Ne c).
    - destruct Hc as [<-|Hc]; [exact N2|]. rewrite Forall_forall in Ne. now apply (Ne c). }
  destruct cols as [|c0 cols]; [congruence|]. inversion T as [|? t0 ? times' (x0 & Hx0 & Ht0) T']; subst.
  inversion P as [|? ? Ph P']; subst. inversion P' as [|? ? P0 P'']; subst.
  pose proof (proj2 (string_record_decodes _ _) (plain_decodes _ _ Ph)) as Sh. cbn [bind] in Sh.
  pose proof (proj2 (string_record_decodes _ _) (plain_decodes _ _ P0)) as S0. cbn [bind] in S0.
  set (hh := {| h_names := hc; h_types := repeat TString (length c0) |}).
  assert (E : exists s, csv_new prof ch lower f64_ok csv_records icfg lines (file data) = Ok s /\ cs_header s = hh /\
     cs_col s = ColIndex 0 /\ cs_fmt s = FUnits u /\ cs_tz s = ci_tz icfg).
  { unfold csv_new. cbv zeta. rewrite Id, Ih. cbn [bind]. rewrite R. cbn [map bind]. rewrite S0. cbn [bind]. rewrite Sh. cbn [bind].
    fold hh. unfold get_col_and_fmt. rewrite Ic, If. cbn [get_timestamp_col bind].
    unfold update_row. rewrite overwrite_spec. cbn [vals]. rewrite repeat_length, Nat.leb_refl, Ht0. cbn [bind].
    eexists. split; [reflexivity|]. cbn. auto. }
  destruct E as (s & Es & Eh & Ec & Ef & Ez). exists s. split; [exact Es|]. rewrite Eh. split; [reflexivity|]. split.
  - intros c Hc. cbn [h_types hh]. f_equal. apply W; [left; reflexivity|exact Hc].
  - eapply (T_Csv.C36_same_width_partial prof ch lower f64_ok csv_records icfg lines (file data) s (map Ok (c0 :: cols)) (c0 :: cols) (t0 :: times')).
    + exact Es.
    + exists d, [Ok hc]. unfold delimiter_used, has_header_used. rewrite Id, Ih. split; [reflexivity|]. split; [exact R|reflexivity].
    + clear - P'. induction P' as [|c l Hc P IH]; cbn [map]; constructor; [eapply plain_decodes, Hc|exact IH].
    + assert (T2 : Forall2 (timed prof ch s) cols times').
      { clear - T' Ec Ef Ez. induction T' as [|c t l l' (x & _ & H) T IH]; constructor; [|exact IH]. unfold timed. rewrite Ec, Ef, Ez. exact H. }
      constructor; [|exact T2]. unfold timed. rewrite Ec, Ef, Ez. exact Ht0.
    + exact W.
Qed.

Definition floor_to (cfg : csv_output) (r : row) (m : nanos) : Prop := largest_multiple (nanos_per (co_units cfg)) (ts r) m.

(** The file written for [rows] (columns [cols]), opened again with matching settings: the
    names, and every row with its texts and its time rounded down to the unit. *)
Theorem C61_roundtrip cfg icfg lines h evs cols :
  co_delimiter cfg = b "," -> co_print_time cfg = true -> co_style cfg = Epoch ->
  ci_delimiter icfg = Some (byte_of 44) -> ci_has_header icfg = Yes -> ci_col icfg = CfgIndex 0 ->
  ci_fmt icfg = FmtEpoch (co_units cfg) ->
  Forall2 (row_columns f64 f32 cfg) (ev_rows evs) cols -> ev_rows evs <> [] ->
  Forall (fun r => length (vals r) = length (h_names h) /\ (ts r < 2 ^ 64)%N) (ev_rows evs) -> h_names h <> [] ->
  Forall (Forall (plain (byte_of 44))) (header_columns cfg h :: cols) ->
  starts_with [byte_of 0xEF; byte_of 0xBB; byte_of 0xBF] (co_time_name cfg ++ b ",") = false ->
  exists s times, csv_new prof ch lower f64_ok csv_records icfg lines (file (csv_file f64 f32 cfg h evs)) = Ok s /\
    cs_header s = {| h_names := header_columns cfg h; h_types := repeat TString (length (header_columns cfg h)) |} /\
    csv_rows prof ch s = map (fun p => Ok (row_of (fst p) (snd p))) (combine cols times) /\
    Forall2 (floor_to cfg) (ev_rows evs) times /\ (co_units cfg = Nanos -> times = map ts (ev_rows evs)).
Proof.
  intros Od Op Os Id Ih Ic If F Ne W Nn P Bom.
  assert (Wc : Forall (fun c => length c = length (header_columns cfg h)) cols).
  { clear - F W Op. unfold header_columns. rewrite Op. cbn [app length].
    induction F as [|r c rs cs Hr F IH]; constructor; inversion W as [|? ? [Wr _] W']; subst; [|auto].
    destruct Hr as (texts & V & H). rewrite Op in H. destruct H as (t & _ & ->). cbn. rewrite <- Wr, (GraphProps.Forall2_len _ _ _ V). reflexivity. }
  assert (L2 : 2 <= length (header_columns cfg h)).
  { unfold header_columns. rewrite Op. destruct (h_names h); [congruence|]. cbn. lia. }
  assert (T : exists times, Forall2 (fun c t => exists x, nth_error c 0 = Some x /\ get_timestamp prof ch c (ColIndex 0) (FUnits (co_units cfg)) (ci_tz icfg) = Ok t) cols times /\
     Forall2 (floor_to cfg) (ev_rows evs) times /\ (co_units cfg = Nanos -> times = map ts (ev_rows evs))).
  { clear Ne P Wc. induction F as [|r c rs cs Hr F IH].
    - exists []. split; [constructor|]. split; [constructor|reflexivity].
    - inversion W as [|? ? [Wr Wt] W']; subst. destruct (IH W') as (times & T1 & T2 & T3).
      destruct (epoch_floor cfg r c Op Os Hr Wt) as (t & texts & q & -> & _ & _ & G).
      destruct (G prof ch (t :: texts) 0 (ci_tz icfg) eq_refl) as (m & Gm & Lm & Nm).
      exists (m :: times). split; [constructor; [exists t; split; [reflexivity|exact Gm]|exact T1]|]. split; [constructor; [exact Lm|exact T2]|].
      intro U. cbn [map]. rewrite (Nm U), (T3 U). reflexivity. }
  destruct T as (times & T1 & T2 & T3).
  destruct (read_lines icfg lines (byte_of 44) (header_columns cfg h) cols (co_units cfg) times Id Ih Ic If) as (s & Es & En & Et & Er).
  - split; [discriminate|reflexivity].
  - intro X. rewrite X in L2. cbn in L2. lia.
  - intro X. rewrite X in L2. cbn in L2. lia.
  - exact P.
  - intros ->. apply GraphProps.Forall2_len in F. destruct (ev_rows evs); [congruence|discriminate F].
  - eapply Forall_impl; [|exact Wc]. cbn beta. intros c Hc. split; intros ->; cbn in Hc; lia.
  - intros c c' Hc Hc'. rewrite Forall_forall in Wc. rewrite (Wc c Hc), (Wc c' Hc'). reflexivity.
  - exact T1.
  - cbn [map concat]. unfold header_columns. rewrite Op. destruct (h_names h) as [|n ns]; [congruence|].
    cbn [app join flat_map]. rewrite <- !app_assoc.
    change ([byte_of 44] ++ n ++ flat_map (fun x => [byte_of 44] ++ x) ns ++ [byte_of 10] ++ concat (map (fun c => join [byte_of 44] c ++ [byte_of 10]) cols))
      with (b "," ++ n ++ flat_map (fun x => [byte_of 44] ++ x) ns ++ [byte_of 10] ++ concat (map (fun c => join [byte_of 44] c ++ [byte_of 10]) cols)).
    rewrite app_assoc. revert Bom. generalize (n ++ flat_map (fun x => [byte_of 44] ++ x) ns ++ [byte_of 10] ++ concat (map (fun c => join [byte_of 44] c ++ [byte_of 10]) cols)).
    clear. intros rest. destruct (co_time_name cfg) as [|x1 [|x2 [|x3 r]]]; intros H.
    + reflexivity.
    + cbn [app b starts_with] in *. destruct (Ascii.eqb _ x1); reflexivity.
    + cbn [app b starts_with] in *. destruct (Ascii.eqb _ x1); [|reflexivity]. destruct (Ascii.eqb _ x2); reflexivity.
    + cbn [app starts_with] in *. exact H.
  - exists s, times. 
    assert (Ef : csv_file f64 f32 cfg h evs = concat (map (fun c => join [byte_of 44] c ++ [byte_of 10]) (header_columns cfg h :: cols))).
    { unfold csv_file. rewrite (header_line _ _ Nn), (rows_bytes_spec _ _ _ F), Od. reflexivity. }
    rewrite Ef. split; [exact Es|]. split; [|auto].
    destruct cols as [|c cols]; [apply GraphProps.Forall2_len in F; destruct (ev_rows evs); [congruence|discriminate F]|].
    specialize (Et c (or_introl eq_refl)). apply Forall_inv in Wc. rewrite Wc in Et.
    destruct (cs_header s) as [nm ty]. cbn in En, Et. subst. reflexivity.
Qed.
End Read.
End Out.

(** ** C62 *)

Lemma floors_sorted cfg rows times : Forall2 (floor_to cfg) rows times -> time_ordered rows -> Sorted N.le times.
Proof.
  unfold time_ordered, ts_le. intros F S. induction F as [|r m rows times H F IH]; [constructor|].
  apply Sorted_inv in S. destruct S as [S Hd]. constructor; [exact (IH S)|].
  destruct F as [|r' m' rows times H' F]; constructor. apply HdRel_inv in Hd.
  destruct H as ((q & ->) & L & _), H' as (_ & _ & M). apply M. lia.
Qed.

(** chop with CSV output (epoch times), then opening that file: the time-ordered merge of the
    in-range rows of all inputs, as texts, with times rounded down to the unit. *)
Theorem C62_chop_to_csv_and_back f64 f32 prof ch lower f64_ok cfg icfg lines F inputs rng h st :
  co_delimiter cfg = b "," -> co_print_time cfg = true -> co_style cfg = Epoch ->
  ci_delimiter icfg = Some (byte_of 44) -> ci_has_header icfg = Yes -> ci_col icfg = CfgIndex 0 ->
  ci_fmt icfg = FmtEpoch (co_units cfg) ->
  inputs <> [] -> (forall i, In i inputs -> fst i = h) -> h_names h <> [] ->
  Forall (plain (byte_of 44)) (header_columns cfg h) ->
  starts_with [byte_of 0xEF; byte_of 0xBB; byte_of 0xBF] (co_time_name cfg ++ b ",") = false ->
  (exists i, In i inputs /\ selected rng (snd i) <> []) ->
  (forall i r, In i inputs -> In r (selected rng (snd i)) ->
     length (vals r) = length (h_names h) /\ (ts r < 2 ^ 64)%N /\
     exists cols, row_columns f64 f32 cfg r cols /\ Forall (plain (byte_of 44)) cols) ->
  chop F inputs (csv_header_sink f64 f32 cfg) rng = (st, Ok tt) ->
  let written := csv_file f64 f32 cfg h (events_at (r_log st) (out_chain (length inputs)) (out_node (length inputs))) in
  exists s rows cols times,
    csv_new prof ch lower f64_ok csv_records icfg lines (file written) = Ok s /\
    cs_header s = {| h_names := header_columns cfg h; h_types := repeat TString (length (header_columns cfg h)) |} /\
    csv_rows prof ch s = map (fun p => Ok (row_of (fst p) (snd p))) (combine cols times) /\
    Permutation rows (concat (map (selected rng) (map snd inputs))) /\
    Forall2 (row_columns f64 f32 cfg) rows cols /\ Forall2 (floor_to cfg) rows times /\
    (co_units cfg = Nanos -> times = map ts rows) /\
    ((forall i, In i inputs -> time_ordered (rows_before_failure (snd i))) -> time_ordered rows /\ Sorted N.le times).
Proof.
  intros Od Op Os Id Ih Ic If Ne Hh Nn Ph Bom (i0 & Hi0 & Hs0) Hr H written.
  assert (Ho : csv_header_sink f64 f32 cfg h = Ok (h, csv_sink f64 f32 cfg)) by reflexivity.
  destruct (chop_ok _ _ _ _ _ _ _ _ Ne Hh Ho H) as (_ & P & So & _).
  set (evs := events_at (r_log st) (out_chain (length inputs)) (out_node (length inputs))) in *.
  assert (G : forall r, In r (ev_rows evs) -> length (vals r) = length (h_names h) /\ (ts r < 2 ^ 64)%N /\
     exists cols, row_columns f64 f32 cfg r cols /\ Forall (plain (byte_of 44)) cols).
  { intros r I. apply (Permutation_in _ P) in I. apply in_concat in I. destruct I as (l & Il & I).
    apply in_map_iff in Il. destruct Il as (src & <- & Is). apply in_map_iff in Is. destruct Is as (i & <- & Ii). eauto. }
  assert (C : exists cols, Forall2 (row_columns f64 f32 cfg) (ev_rows evs) cols /\ Forall (Forall (plain (byte_of 44))) cols).
  { clear - G. induction (ev_rows evs) as [|r rs IH]; [exists []; split; constructor|].
    destruct IH as (cols & A & B); [intros; apply G; right; assumption|].
    destruct (G r (or_introl eq_refl)) as (_ & _ & c & Hc & Pc). exists (c :: cols). split; constructor; assumption. }
  destruct C as (cols & C1 & C2).
  destruct (C61_roundtrip f64 f32 prof ch lower f64_ok cfg icfg lines h evs cols) as (s & times & Es & Eh & Er & Ef & En); trivial.
  - intro E. rewrite E in P. apply Permutation_nil in P.
    assert (I : exists r, In r (concat (map (selected rng) (map snd inputs)))).
    { destruct (selected rng (snd i0)) as [|r l] eqn:Es; [congruence|]. exists r. apply in_concat. exists (r :: l).
      split; [|left; reflexivity]. rewrite <- Es. apply in_map, in_map, Hi0. }
    destruct I as [r I]. rewrite P in I. destruct I.
  - apply Forall_forall. intros r I. destruct (G r I) as (A & B & _). auto.
  - constructor; assumption.
  - exists s, (ev_rows evs), cols, times. repeat (split; [assumption|]). intro S. split; [exact (So S)|].
    eapply floors_sorted; [exact Ef|exact (So S)].
Qed.

(** ** C63 *)

(** The kind of output is decided by the end of its name alone. *)
Theorem C63_output_kind cfg name :
  let used := match cfg with Some c => c | None => csv_output_default end in
  ((exists p, name = p ++ b "csv") <-> new_header_sink (Some name) cfg = Ok (OutCsv (Some name) used)) /\
  ((exists p, name = p ++ b "dc") <-> new_header_sink (Some name) cfg = Ok (OutDc name)) /\
  ((forall p, name <> p ++ b "csv" /\ name <> p ++ b "dc") <-> exists e, new_header_sink (Some name) cfg = Err (ECustom e)) /\
  new_header_sink None cfg = Ok (OutCsv None used).
Proof.
  intro used. unfold new_header_sink. fold used.
  assert (X : forall p q, p ++ b "csv" <> q ++ b "dc").
  { intros p q E. apply (f_equal (@rev ascii)) in E. rewrite !rev_app_distr in E. cbn in E. discriminate E. }
  destruct (ends_with (b "csv") name) eqn:C; [|destruct (ends_with (b "dc") name) eqn:D].
  - apply ends_with_spec in C. destruct C as (p & ->).
    split; [split; [reflexivity|eauto]|]. split; [split; [intros (q & E); destruct (X _ _ E)|discriminate]|].
    split; [|reflexivity]. split; [intro A; destruct (proj1 (A p) eq_refl)|intros (e & E); discriminate].
  - apply ends_with_spec in D. destruct D as (p & ->).
    split; [split; [intros (q & E); symmetry in E; destruct (X _ _ E)|discriminate]|]. split; [split; [reflexivity|eauto]|].
    split; [|reflexivity]. split; [intro A; destruct (proj2 (A p) eq_refl)|intros (e & E); discriminate].
  - assert (C' : forall p, name <> p ++ b "csv").
    { intros p E. assert (T : ends_with (b "csv") name = true) by (apply ends_with_spec; eauto). congruence. }
    assert (D' : forall p, name <> p ++ b "dc").
    { intros p E. assert (T : ends_with (b "dc") name = true) by (apply ends_with_spec; eauto). congruence. }
    split; [split; [intros (p & E); destruct (C' p E)|discriminate]|]. split; [split; [intros (p & E); destruct (D' p E)|discriminate]|].
    split; [|reflexivity]. split; [intros _; eexists; reflexivity|]. auto.
Qed.

Print Assumptions C37_rows.
Print Assumptions C37_file_partial.
Print Assumptions C37_other_delimiter_refuted.
Print Assumptions C37_no_columns_refuted.
Print Assumptions C38_floor.
Print Assumptions C61_roundtrip.
Print Assumptions C62_chop_to_csv_and_back.
Print Assumptions C63_output_kind.
Print Assumptions C64_errors.

(** ** Cases *)
Definition fl (x : N) : bytes := b "0.5".
Definition secs (d : bytes) : csv_output := csv_output_new d true None Epoch Seconds None.
Definition hx : header := {| h_names := [b "a"; b "n"]; h_types := [TString; TInt] |}.
Definition rx (t : N) (s : string) (z : Z) : row := {| ts := t; vals := [VString (b s); VInt z] |}.
Definition evx : list event := [EvRow (rx 1500000000%N "x" (-7)%Z); EvRow (rx 2999999999%N "yy" 12); EvFlush].
Example ex_csv_file : csv_file fl fl (secs (b ",")) hx evx =
  b "timestampSeconds,a,n" ++ [byte_of 10] ++ b "1,x,-7" ++ [byte_of 10] ++ b "2,yy,12" ++ [byte_of 10].
Proof. vm_compute. reflexivity. Qed.
Definition colsx : list (list bytes) := [[b "1"; b "x"; b "-7"]; [b "2"; b "yy"; b "12"]].
Example ex_c37_cols d : Forall2 (row_columns fl fl (secs d)) (ev_rows evx) colsx.
Proof.
  repeat constructor.
  - exists [b "x"; b "-7"]. split; [repeat constructor; [exact (decimal_neg 7%N eq_refl)]|].
    exists (b "1"). split; [exact (time_epoch (secs d) 1500000000%N eq_refl)|reflexivity].
  - exists [b "yy"; b "12"]. split; [repeat constructor; [exact (decimal_pos 12%N)]|].
    exists (b "2"). split; [exact (time_epoch (secs d) 2999999999%N eq_refl)|reflexivity].
Qed.
(** A tab as delimiter: the header is one column, the rows have three. *)
Example ex_c37_tab : csv_file fl fl (secs [byte_of 9]) hx evx =
  b "timestampSeconds,a,n" ++ [byte_of 10] ++
  b "1" ++ [byte_of 9] ++ b "x" ++ [byte_of 9] ++ b "-7" ++ [byte_of 10] ++
  b "2" ++ [byte_of 9] ++ b "yy" ++ [byte_of 9] ++ b "12" ++ [byte_of 10].
Proof. vm_compute. reflexivity. Qed.
Definition nochrono : chrono := T_Timestamp.silent.
Definition back : csv_input nochrono :=
  {| ci_delimiter := Some (byte_of 44); ci_has_header := Yes; ci_col := CfgIndex 0; ci_fmt := FmtEpoch Seconds; ci_tz := None |}.
Example ex_c61 : exists s,
  csv_new Debug nochrono (fun x => x) (fun _ => false) csv_records back None (file (csv_file fl fl (secs (b ",")) hx evx)) = Ok s /\
  h_names (cs_header s) = [b "timestampSeconds"; b "a"; b "n"] /\
  csv_rows Debug nochrono s =
    [Ok (row_of [b "1"; b "x"; b "-7"] 1000000000%N); Ok (row_of [b "2"; b "yy"; b "12"] 2000000000%N)].
Proof. eexists. split; [vm_compute; reflexivity|]. split; vm_compute; reflexivity. Qed.
Lemma plain_word s : forallb (fun c => let n := of_byte c in ((33 <=? n) && (n <? 127) && negb (n =? 44) && negb (n =? 34))%N) s = true ->
  plain (byte_of 44) s.
Proof.
  intro H. assert (F : Forall (fun c => 33 <= of_byte c < 127 /\ of_byte c <> 44 /\ of_byte c <> 34)%N s).
  { apply Forall_forall. intros c Hc. rewrite forallb_forall in H. specialize (H c Hc). cbn zeta in H. lia. }
  assert (X : forall n, (n < 33 \/ n = 44 \/ n = 34)%N -> ~ In (byte_of n) s).
  { intros n Hn I. rewrite Forall_forall in F. specialize (F _ I). rewrite of_byte_of in F by lia. lia. }
  split; [apply X; lia|]. split; [apply X; lia|]. split; [apply X; lia|]. split; [apply X; lia|].
  exists (map of_byte s). split; [|split].
  - apply Forall_map. eapply Forall_impl; [|exact F]. cbn beta. intros c Hc. unfold scalar. lia.
  - clear - F. induction F as [|c s Hc F IH]; [reflexivity|]. unfold str in *. cbn [map flat_map]. rewrite <- IH.
    unfold encode. destruct (N.ltb_spec (of_byte c) 128); [|lia]. cbn [app map]. rewrite byte_of_of. reflexivity.
  - assert (W : forall c, In c (map of_byte s) -> white_space c = false).
    { intros c Hc. apply in_map_iff in Hc. destruct Hc as (x & <- & Ix). rewrite Forall_forall in F. specialize (F x Ix).
      rewrite white_space_eq. unfold is_whitespace. lia. }
    exists [], []. repeat split; try constructor; [rewrite app_nil_r; reflexivity|..]; intros c t E.
    + apply W; (rewrite E; left; reflexivity).
    + apply W; (rewrite E; apply in_or_app; right; left; reflexivity).
Qed.
Example ex_c61_plain : Forall (Forall (plain (byte_of 44))) (header_columns (secs (b ",")) hx :: colsx).
Proof. repeat constructor; apply plain_word; vm_compute; reflexivity. Qed.
Definition ex_in : list (header * source) :=
  [(hx, map Ok [rx 1500000000%N "x" (-7)%Z; rx 4000000000%N "z" 0]); (hx, map Ok [rx 2999999999%N "yy" 12])].
Example ex_c62 : exists st, chop 3 ex_in (csv_header_sink fl fl (secs (b ","))) range_all = (st, Ok tt) /\
  csv_file fl fl (secs (b ",")) hx (events_at (r_log st) 2 1) =
  b "timestampSeconds,a,n" ++ [byte_of 10] ++ b "1,x,-7" ++ [byte_of 10] ++ b "2,yy,12" ++ [byte_of 10] ++ b "4,z,0" ++ [byte_of 10].
Proof. eexists. split; [reflexivity|]. vm_compute. reflexivity. Qed.
Example ex_c63 : new_header_sink (Some (b "out.csv")) None = Ok (OutCsv (Some (b "out.csv")) csv_output_default) /\
  new_header_sink (Some (b "x.dc")) None = Ok (OutDc (b "x.dc")) /\
  exists e, new_header_sink (Some (b "x.csv.gz")) None = Err (ECustom e).
Proof. repeat split. eexists. reflexivity. Qed.
Example ex_c64 : snd (csv_write_row fl fl (secs (b ",")) {| ts := 1%N; vals := [VNone; VBoolean true] |}) <> Ok tt /\
  snd (csv_write_row fl fl (secs (b ",")) {| ts := 1%N; vals := [VNone; VDouble 3%N] |}) = Ok tt /\
  snd (csv_write_row fl fl (csv_output_new (b ",") true None HumanReadable Millis None) {| ts := 1%N; vals := [] |}) <> Ok tt.
Proof. repeat split; discriminate. Qed.

(** Lemmas for C121. *)
From Verif Require Import CommandSpec CommandModel.
Local Open Scope nat_scope.

Definition decl_of (o : opt) : decl :=
  match o with
  | Output => valued "output" (Some "o"%char) "output"
  | Format => Decl (b "format") (Some "f"%char) (b "format") true true None [] false [] []
  | Timezone => valued "timezone" (Some "z"%char) "timezone"
  | Begin => valued "begin" (Some "b"%char) "begin"
  | End => valued "end" (Some "e"%char) "end"
  | TimeColName => valued "csv_out_time_col_name" None "time-col-name"
  | Granularity => Decl (b "csv_out_time_col_units") (Some "g"%char) (b "granularity") true false (Some (b "ns")) UNITS false [] []
  | CsvInDelimiter => valued "csv_in_delimiter" None "csv-in-delimiter"
  | Delimiter => Decl (b "csv_out_delimiter") None (b "delimiter") true false (Some (b ",")) [] false [] []
  | CsvInHasHeader => Decl (b "csv_in_has_header") None (b "csv-in-has-header") true false (Some (b "auto")) [b "yes"; b "no"; b "auto"] true [] []
  | PrintTime => Decl (b "csv_out_print_time_col") None (b "print-time") true false (Some (b "yes")) [b "yes"; b "no"] true [] []
  | CsvInTsCol => valued "csv_in_ts_col" None "csv-in-ts-col"
  | CsvInTsColDate => Decl (b "csv_in_ts_col_date") None (b "csv-in-ts-col-date") true false None [] false
      [b "csv_in_ts_col_time"] [b "csv_in_ts_col"; b "csv_in_ts_fmt"]
  | CsvInTsColTime => Decl (b "csv_in_ts_col_time") None (b "csv-in-ts-col-time") true false None [] false
      [b "csv_in_ts_col_date"] [b "csv_in_ts_col"; b "csv_in_ts_fmt"]
  | CsvInTsFmt => valued "csv_in_ts_fmt" None "csv-in-ts-fmt"
  | CsvInTsFmtDate => Decl (b "csv_in_ts_fmt_date") None (b "csv-in-ts-fmt-date") true false None [] false
      [b "csv_in_ts_fmt_time"] [b "csv_in_ts_col"; b "csv_in_ts_fmt"]
  | CsvInTsFmtTime => Decl (b "csv_in_ts_fmt_time") None (b "csv-in-ts-fmt-time") true false None [] false
      [b "csv_in_ts_fmt_date"] [b "csv_in_ts_col"; b "csv_in_ts_fmt"]
  | CsvInEpoch => Decl (b "csv_in_epoch") None (b "csv-in-epoch") true false None UNITS false
      [] [b "csv_in_ts_col_date"; b "csv_in_ts_col_time"; b "csv_in_ts_fmt"]
  end.
Definition flag_decl (f : flag) : decl :=
  match f with
  | EpochTimes => Decl (b "csv_out_time_fmt_epoch") (Some "E"%char) (b "epoch") false false None [] false [] [b "human"]
  | HumanTimes => Decl (b "csv_out_time_fmt_human") (Some "H"%char) (b "human") false false None [] false [] [b "epoch"]
  | Backtrace => Decl (b "backtrace") None (b "backtrace") false false None [] false [] []
  end.
Lemma all_declared : declared =
  [decl_of Output; decl_of Format; decl_of Timezone; decl_of Begin; decl_of End; flag_decl Backtrace; decl_of TimeColName;
   flag_decl EpochTimes; flag_decl HumanTimes; decl_of Granularity; decl_of CsvInDelimiter; decl_of Delimiter;
   decl_of CsvInHasHeader; decl_of PrintTime; decl_of CsvInTsCol; decl_of CsvInTsColDate; decl_of CsvInTsColTime;
   decl_of CsvInTsFmt; decl_of CsvInTsFmtDate; decl_of CsvInTsFmtTime; decl_of CsvInEpoch].
Proof. reflexivity. Qed.
Definition name_of (o : opt) : bytes := d_name (decl_of o).
Definition flag_name (f : flag) : bytes := d_name (flag_decl f).

(** ** The parser *)
Definition apply1 (m : found) (s : setting) : found :=
  match s with
  | Value o v => add_seen (name_of o) (add_val_to_arg (decl_of o) v m)
  | Flag f => add_seen (flag_name f) m
  | File v => add_seen INPUT (add_value INPUT v m)
  end.

Lemma trim_no_equals v : no_equals v -> trim_left equals v = v.
Proof. destruct v as [|x t]; [reflexivity|]. intros H. cbn [trim_left]. destruct (Ascii.eqb_spec x equals) as [->|]; [destruct (H t eq_refl)|reflexivity]. Qed.
Lemma plain_not_new v : plain_word v -> is_new_arg v = false.
Proof.
  intros [->|H]; [reflexivity|]. destruct v as [|x [|y t]]; trivial. cbn [is_new_arg].
  destruct (Ascii.eqb_spec x dash) as [->|]; [destruct (H _ eq_refl)|reflexivity].
Qed.
Lemma seen_value d v n m : add_val_to_arg d v (add_seen n m) = add_seen n (add_val_to_arg d v m).
Proof.
  unfold add_val_to_arg. destruct (d_comma d); [|reflexivity]. generalize (split_commas [] v). intros l. revert m.
  induction l as [|x l IH]; intros m; [reflexivity|]. cbn [fold_left]. rewrite <- IH. reflexivity.
Qed.
Lemma long_word o m : parse_long_arg (b "--" ++ opt_long o) m = More (Some (decl_of o)) (add_seen (name_of o) m).
Proof. destruct o; reflexivity. Qed.
Lemma long_equals_word o v m : no_equals v ->
  parse_long_arg (b "--" ++ opt_long o ++ b "=" ++ v) m = More None (add_seen (name_of o) (add_val_to_arg (decl_of o) v m)).
Proof.
  intros H. assert (E : parse_long_arg (b "--" ++ opt_long o ++ b "=" ++ v) m =
    More None (add_seen (name_of o) (add_val_to_arg (decl_of o) (trim_left equals v) m))) by (destruct o; reflexivity).
  rewrite E, trim_no_equals by exact H. reflexivity.
Qed.
Lemma short_word o c t m : opt_short o = Some c ->
  parse_short_arg (c :: t) m = parse_opt (match t with [] => None | _ => Some t end) (decl_of o) m.
Proof. destruct o; intros [= <-]; reflexivity. Qed.
Lemma flag_word f m : parse_long_arg (b "--" ++ flag_long f) m = More None (add_seen (flag_name f) m).
Proof. destruct f; reflexivity. Qed.
Lemma short_flag_word f c t m : flag_short f = Some c -> parse_short_arg (c :: t) m = parse_short_arg t (add_seen (flag_name f) m).
Proof. destruct f; intros [= <-]; reflexivity. Qed.
Lemma not_dash_o o c : opt_short o = Some c -> Ascii.eqb dash c = false.
Proof. destruct o; intros [= <-]; reflexivity. Qed.
Lemma not_dash_f f c : flag_short f = Some c -> Ascii.eqb dash c = false.
Proof. destruct f; intros [= <-]; reflexivity. Qed.

Lemma step_long w rest m : (exists x y, w = "-"%char :: "-"%char :: x :: y) ->
  get_matches_with (w :: rest) None false m =
  match parse_long_arg w m with More p m' => get_matches_with rest p false m' | stop => stop end.
Proof. intros (x & y & ->). reflexivity. Qed.
Lemma step_short c t rest m : Ascii.eqb dash c = false ->
  get_matches_with (("-"%char :: c :: t) :: rest) None false m =
  match parse_short_arg (c :: t) m with More p m' => get_matches_with rest p false m' | stop => stop end.
Proof.
  intros H. cbn [get_matches_with]. change (is_new_arg ("-"%char :: c :: t)) with true. cbv iota.
  assert (N : c <> dash) by (intros ->; discriminate H).
  assert (E1 : bytes_eqb ("-"%char :: c :: t) [dash; dash] = false).
  { apply bytes_eqb_neq. intros [= E _]. exact (N E). }
  rewrite E1. assert (E2 : starts_with [dash; dash] ("-"%char :: c :: t) = false).
  { destruct (starts_with [dash; dash] ("-"%char :: c :: t)) eqn:E; [|reflexivity].
    apply starts_with_spec in E. destruct E as (u & E). injection E as E _. destruct (N E). }
  rewrite E2. reflexivity.
Qed.
Lemma step_value d v rest m : plain_word v -> get_matches_with (v :: rest) (Some d) false m = get_matches_with rest None false (add_val_to_arg d v m).
Proof. intros H. cbn [get_matches_with]. rewrite plain_not_new by exact H. reflexivity. Qed.

Lemma parse_words ss ws : words ss ws -> forall rest m,
  get_matches_with (ws ++ rest) None false m = get_matches_with rest None false (fold_left apply1 ss m).
Proof.
  intros H. induction H as [|v ss ws P H IH|o v ss ws P H IH|o v ss ws P H IH|o c v ss ws E P H IH|o c v ss ws E Ne P H IH
    |o c v ss ws E P H IH|f ss ws H IH|f c ss ws E H IH|f c x t ss ws E N H IH]; intros rest m; cbn [fold_left app].
  - reflexivity.
  - rewrite <- IH. cbn [get_matches_with]. rewrite plain_not_new by exact P. reflexivity.
  - rewrite step_long by (destruct o; eexists _, _; reflexivity). rewrite long_word. rewrite step_value by exact P.
    rewrite seen_value. apply IH.
  - change (("-"%char :: "-"%char :: opt_long o ++ "="%char :: v)) with (b "--" ++ opt_long o ++ b "=" ++ v).
    rewrite step_long by (destruct o; eexists _, _; reflexivity). rewrite long_equals_word by exact P. apply IH.
  - rewrite step_short by (apply (not_dash_o _ _ E)). rewrite (short_word _ _ _ _ E). cbn [parse_opt].
    rewrite step_value by exact P. rewrite seen_value. apply IH.
  - rewrite step_short by (apply (not_dash_o _ _ E)). rewrite (short_word _ _ _ _ E). destruct v as [|y t]; [destruct (Ne eq_refl)|].
    cbn [parse_opt]. rewrite trim_no_equals by exact P. apply IH.
  - rewrite step_short by (apply (not_dash_o _ _ E)). rewrite (short_word _ _ _ _ E). cbn [parse_opt].
    change (trim_left equals ("="%char :: v)) with (trim_left equals v). rewrite trim_no_equals by exact P. apply IH.
  - rewrite step_long by (destruct f; eexists _, _; reflexivity). rewrite flag_word. apply IH.
  - rewrite step_short by (apply (not_dash_f _ _ E)). rewrite (short_flag_word _ _ _ _ E). cbn [parse_short_arg]. apply IH.
  - rewrite step_short by (apply (not_dash_f _ _ E)). rewrite (short_flag_word _ _ _ _ E).
    specialize (IH rest (apply1 m (Flag f))). cbn [app] in IH. rewrite step_short in IH; [exact IH|].
    destruct (Ascii.eqb_spec dash x) as [Ed|]; [destruct N; symmetry; exact Ed|reflexivity].
Qed.
Lemma parse_trailing names m : get_matches_with names None true m = More None (fold_left apply1 (map File names) m).
Proof. revert m. induction names as [|v names IH]; intros m; [reflexivity|]. cbn [get_matches_with map fold_left]. apply IH. Qed.
Lemma parse_line ss ws m : command_line ss ws -> get_matches_with ws None false m = More None (fold_left apply1 ss m).
Proof.
  intros [ss' ws' H|ss' ws' names H].
  - rewrite <- (app_nil_r ws'). rewrite (parse_words _ _ H). reflexivity.
  - rewrite (parse_words _ _ H). rewrite fold_left_app. rewrite <- parse_trailing. reflexivity.
Qed.

(** ** What was found *)
Lemma opt_dec (o o' : opt) : {o = o'} + {o <> o'}.
Proof. decide equality. Defined.
Lemma flag_dec (o o' : flag) : {o = o'} + {o <> o'}.
Proof. decide equality. Defined.
Lemma name_inj o o' : bytes_eqb (name_of o) (name_of o') = if opt_dec o o' then true else false.
Proof. destruct o, o'; reflexivity. Qed.
Lemma flag_inj o o' : bytes_eqb (flag_name o) (flag_name o') = if flag_dec o o' then true else false.
Proof. destruct o, o'; reflexivity. Qed.
Lemma flag_opt f o : bytes_eqb (flag_name f) (name_of o) = false /\ bytes_eqb (name_of o) (flag_name f) = false.
Proof. destruct f, o; split; reflexivity. Qed.
Lemma input_opt o : bytes_eqb INPUT (name_of o) = false /\ bytes_eqb (name_of o) INPUT = false.
Proof. destruct o; split; reflexivity. Qed.
Lemma input_flag f : bytes_eqb INPUT (flag_name f) = false /\ bytes_eqb (flag_name f) INPUT = false.
Proof. destruct f; split; reflexivity. Qed.

Definition vals_of (o : opt) (ss : list setting) : list bytes :=
  flat_map (fun s => match s with Value o' v => if opt_dec o' o then [v] else [] | _ => [] end) ss.
Definition flags_of (f : flag) (ss : list setting) : list unit :=
  flat_map (fun s => match s with Flag f' => if flag_dec f' f then [tt] else [] | _ => [] end) ss.
Definition files_of (ss : list setting) : list bytes := flat_map (fun s => match s with File v => [v] | _ => [] end) ss.
Definition pieces (o : opt) (v : bytes) : list bytes := if d_comma (decl_of o) then split_commas [] v else [v].
Definition seen_name (s : setting) : bytes :=
  match s with Value o _ => name_of o | Flag f => flag_name f | File _ => INPUT end.

Lemma vals_after s m : m_vals (apply1 m s) = m_vals m ++
  match s with Value o v => map (pair (name_of o)) (pieces o v) | Flag _ => [] | File v => [(INPUT, v)] end.
Proof.
  destruct s as [o v|f|v]; cbn [apply1 add_seen m_vals]; [|now rewrite app_nil_r|reflexivity].
  unfold add_val_to_arg, pieces. destruct (d_comma (decl_of o)); [|reflexivity]. fold (name_of o).
  generalize (split_commas [] v). intros l. revert m. induction l as [|x l IH]; intros m; cbn [fold_left map]; [now rewrite app_nil_r|].
  rewrite IH. cbn [add_value m_vals]. rewrite <- app_assoc. reflexivity.
Qed.
Lemma seen_after s m : m_seen (apply1 m s) = m_seen m ++ [seen_name s].
Proof.
  destruct s as [o v|f|v]; cbn [apply1 add_seen m_seen seen_name]; trivial.
  unfold add_val_to_arg. destruct (d_comma (decl_of o)); [|reflexivity].
  generalize (split_commas [] v). intros l. f_equal. revert m. induction l as [|x l IH]; intros m; cbn [fold_left]; [reflexivity|].
  rewrite IH. reflexivity.
Qed.
Definition m0 : found := {| m_vals := []; m_seen := [] |}.
Lemma all_seen ss m : m_seen (fold_left apply1 ss m) = m_seen m ++ map seen_name ss.
Proof.
  revert m. induction ss as [|s ss IH]; intros m; cbn [fold_left map]; [now rewrite app_nil_r|].
  rewrite IH, seen_after, <- app_assoc. reflexivity.
Qed.
Lemma values_all name ss m : values_of (fold_left apply1 ss m) name = values_of m name ++
  flat_map (fun s => match s with
    | Value o v => if bytes_eqb (name_of o) name then pieces o v else []
    | Flag _ => []
    | File v => if bytes_eqb INPUT name then [v] else []
    end) ss.
Proof.
  revert m. induction ss as [|s ss IH]; intros m; cbn [fold_left flat_map]; [now rewrite app_nil_r|].
  rewrite IH. rewrite app_assoc. f_equal. unfold values_of. rewrite vals_after, filter_app, map_app. f_equal.
  destruct s as [o v|f|v]; [|reflexivity|].
  - generalize (pieces o v). intros l. destruct (bytes_eqb (name_of o) name) eqn:E.
    + induction l as [|x l IHl]; [reflexivity|]. cbn [map filter fst]. rewrite E. cbn [map snd]. now rewrite IHl.
    + induction l as [|x l IHl]; [reflexivity|]. cbn [map filter fst]. rewrite E. exact IHl.
  - cbn [map filter fst]. destruct (bytes_eqb INPUT name); reflexivity.
Qed.
Lemma values_opt o ss : values_of (fold_left apply1 ss m0) (name_of o) = flat_map (pieces o) (vals_of o ss).
Proof.
  rewrite values_all. cbn [values_of m0 m_vals filter map app]. unfold vals_of. induction ss as [|s ss IH]; [reflexivity|]. cbn [flat_map].
  rewrite IH. destruct s as [o' v|f|v]; cbn [app]; trivial.
  - rewrite name_inj. destruct (opt_dec o' o) as [->|]; [|reflexivity]. cbn [app flat_map]. reflexivity.
  - destruct (input_opt o) as [-> _]. reflexivity.
Qed.
Lemma values_input ss : values_of (fold_left apply1 ss m0) INPUT = files_of ss.
Proof.
  rewrite values_all. cbn [values_of m0 m_vals filter map app]. unfold files_of. induction ss as [|s ss IH]; [reflexivity|]. cbn [flat_map].
  rewrite IH. destruct s as [o' v|f|v]; cbn [app]; trivial. destruct (input_opt o') as [_ ->]. reflexivity.
Qed.
Lemma count_opt o ss : length (filter (bytes_eqb (name_of o)) (m_seen (fold_left apply1 ss m0))) = length (vals_of o ss).
Proof.
  rewrite all_seen. cbn [m0 m_seen app]. unfold vals_of. induction ss as [|s ss IH]; [reflexivity|]. cbn [map filter flat_map].
  rewrite app_length, <- IH. destruct s as [o' v|f|v]; cbn [seen_name].
  - rewrite name_inj. destruct (opt_dec o o') as [->|N]; destruct (opt_dec o' _) as [E|N']; try congruence; reflexivity.
  - destruct (flag_opt f o) as [_ ->]. reflexivity.
  - destruct (input_opt o) as [_ ->]. reflexivity.
Qed.
Lemma count_flag f ss : length (filter (bytes_eqb (flag_name f)) (m_seen (fold_left apply1 ss m0))) = length (flags_of f ss).
Proof.
  rewrite all_seen. cbn [m0 m_seen app]. unfold flags_of. induction ss as [|s ss IH]; [reflexivity|]. cbn [map filter flat_map].
  rewrite app_length, <- IH. destruct s as [o' v|f'|v]; cbn [seen_name].
  - destruct (flag_opt f o') as [-> _]. reflexivity.
  - rewrite flag_inj. destruct (flag_dec f f') as [->|N]; destruct (flag_dec f' _) as [E|N']; try congruence; reflexivity.
  - destruct (input_flag f) as [_ ->]. reflexivity.
Qed.
Lemma existsb_count (A : Type) (p : A -> bool) l : existsb p l = negb (length (filter p l) =? 0).
Proof. induction l as [|x l IH]; [reflexivity|]. cbn [existsb filter]. destruct (p x); [reflexivity|exact IH]. Qed.
Definition given_opt (o : opt) (ss : list setting) : bool := match vals_of o ss with [] => false | _ => true end.
Lemma present_opt o ss : is_present (fold_left apply1 ss m0) (name_of o) = given_opt o ss.
Proof. unfold is_present. rewrite existsb_count, count_opt. unfold given_opt. destruct (vals_of o ss); reflexivity. Qed.
Lemma present_flag f ss : is_present (fold_left apply1 ss m0) (flag_name f) = match flags_of f ss with [] => false | _ => true end.
Proof. unfold is_present. rewrite existsb_count, count_flag. destruct (flags_of f ss); reflexivity. Qed.
Lemma present_input ss : is_present (fold_left apply1 ss m0) INPUT = match files_of ss with [] => false | _ => true end.
Proof.
  unfold is_present. rewrite all_seen. cbn [m0 m_seen app]. unfold files_of. induction ss as [|s ss IH]; [reflexivity|]. cbn [map existsb flat_map].
  destruct s as [o' v|f|v]; cbn [seen_name app].
  - destruct (input_opt o') as [-> _]. exact IH.
  - destruct (input_flag f) as [-> _]. exact IH.
  - reflexivity.
Qed.
Lemma present_other n ss : (forall o, bytes_eqb n (name_of o) = false) -> (forall f, bytes_eqb n (flag_name f) = false) ->
  bytes_eqb n INPUT = false -> is_present (fold_left apply1 ss m0) n = false.
Proof.
  intros A B C. unfold is_present. rewrite all_seen. cbn [m0 m_seen app]. induction ss as [|s ss IH]; [reflexivity|]. cbn [map existsb].
  rewrite IH. destruct s; cbn [seen_name]; rewrite ?A, ?B, ?C; reflexivity.
Qed.

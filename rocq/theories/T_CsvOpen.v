(** C60: when opening a CSV input crashes. *)
From Verif Require Import CsvModel CsvSpec CsvProofs TimeSpec TimestampProofs.
From Verif Require T_Csv.
Local Open Scope nat_scope.

Section Open.
Context (ch : chrono) (lower : bytes -> bytes) (f64_ok : text -> bool).
Context (split : byte -> stream -> list (res (list bytes))).
Context (cfg : csv_input ch) (lines : option (list bytes)) (data : stream).

(** The column names: of the header record, or made up. *)
Definition column_names (d : byte) (names : list bytes) (width : nat) : Prop :=
  if has_header_used f64_ok cfg lines d then exists h rest, split d data = h :: rest /\ decodes h names
  else names = map (fun i => b "col_" ++ dec (N.of_nat i)) (seq 0 width).
(** No data record: nothing, or only the header record. *)
Definition no_data (d : byte) : Prop :=
  split d data = [] \/ has_header_used f64_ok cfg lines d = true /\ exists h, split d data = [Ok h].
(** The first data record has no cell where its time should be. *)
Definition no_time_cell (d : byte) : Prop :=
  exists pre first rest r names col hint,
    split d data = pre ++ first :: rest /\ length pre = (if has_header_used f64_ok cfg lines d then 1 else 0) /\
    decodes first r /\ column_names d names (length r) /\
    get_timestamp_col lower {| h_names := names; h_types := repeat TString (length r) |} (ci_col cfg) = Ok (col, hint) /\
    forall s, ~ row_text r col s.

Lemma time_string r c : (exists s, get_timestamp_string r c = Ok s /\ row_text r c s) \/
  (get_timestamp_string r c = Panic /\ forall s, ~ row_text r c s).
Proof.
  destruct c as [i|i j]; cbn [get_timestamp_string].
  - destruct (nth_error r i) as [x|] eqn:E; cbn [unwrap]; [left; exists x; split; [reflexivity|now constructor]|].
    right. split; [reflexivity|]. intros s H. inversion H; congruence.
  - destruct (nth_error r i) as [x|] eqn:E; cbn [unwrap bind].
    + destruct (nth_error r j) as [y|] eqn:F; cbn [unwrap bind].
      * left. eexists. split; [reflexivity|]. now constructor.
      * right. split; [reflexivity|]. intros s H. inversion H; congruence.
    + right. split; [reflexivity|]. intros s H. inversion H; congruence.
Qed.
Lemma nanos_release z : nanos_as_u64 Release z <> Panic.
Proof. unfold nanos_as_u64, timestamp_nanos. destruct (_ && _); discriminate. Qed.
Lemma local_no_panic z (l : local ch) : from_local_datetime z l <> Panic.
Proof. unfold from_local_datetime. destruct z as [f|]; [|discriminate]. destruct (f l); discriminate. Qed.

Lemma mul_release x y : mul_u64 Release x y <> Panic.
Proof. unfold mul_u64. destruct (_ <? _)%N; discriminate. Qed.

Lemma timestamp_release r c f z : get_timestamp Release ch r c f z = Panic <-> forall s, ~ row_text r c s.
Proof.
  unfold get_timestamp. destruct (time_string r c) as [(s & -> & Hs)|[-> H]]; cbn [bind]; [|split; trivial].
  split; [|intros H; destruct (H s Hs)]. intros H. exfalso. revert H. destruct f as [u|f|f|f].
  - destruct (parse_u64 (chars s)); [|discriminate]. destruct u; try discriminate; apply mul_release.
  - destruct (c_datetime ch f s); [|discriminate]. apply nanos_release.
  - destruct (c_naive ch f s) as [l|]; [|discriminate].
    destruct (from_local_datetime z l) eqn:E; cbn [bind]; try discriminate; [apply nanos_release|destruct (local_no_panic _ _ E)].
  - destruct (c_date ch f s) as [l|]; [|discriminate].
    destruct (from_local_datetime z _) eqn:E; cbn [bind]; try discriminate; [apply nanos_release|destruct (local_no_panic _ _ E)].
Qed.
(** Choosing the format crashes only for want of a cell; with units given by a name it does not look. *)
Lemma fmt_no_panic h r cc fc z : get_col_and_fmt ch lower h r cc fc z = Panic ->
  exists col hint, get_timestamp_col lower h cc = Ok (col, hint) /\ forall s, ~ row_text r col s.
Proof.
  unfold get_col_and_fmt. destruct (get_timestamp_col lower h cc) as [[col hint]| | | |] eqn:E; cbn [bind]; try discriminate.
  2:{ exfalso. revert E. destruct cc; cbn; try discriminate; unfold get_field_index;
      repeat (destruct (position _ _); cbn [bind]; try discriminate). }
  intros H. exists col, hint. split; [reflexivity|].
  destruct (time_string r col) as [(s & Es & Hs)|[_ N]]; [|exact N]. exfalso. revert H.
  assert (U : forall f, fmt_user ch r col f z <> Panic).
  { intros f. unfold fmt_user. rewrite Es. cbn [bind]. destruct (c_datetime ch f s); [discriminate|].
    destruct (c_naive ch f s) as [l|].
    - destruct (from_local_datetime z l) eqn:F; cbn [bind]; try discriminate. destruct (local_no_panic _ _ F).
    - destruct (c_date ch f s) as [l|]; [|discriminate].
      destruct (from_local_datetime z _) eqn:F; cbn [bind]; try discriminate. destruct (local_no_panic _ _ F). }
  assert (P : forall (x : res ts_fmt), x <> Panic -> (let* f := x in Ok (col, f)) <> Panic).
  { intros [| | | |]; cbn [bind]; congruence. }
  destruct fc as [|u|f|d t]; [|discriminate|apply P, U|apply P, U].
  apply P. destruct col as [i|i j]; cbn [fmt_auto].
  - unfold fmt_auto_index. destruct hint; [discriminate|].
    cbn [get_timestamp_string] in Es. rewrite Es. cbn [bind].
    destruct (first_fmt (c_datetime ch) _ _) as [[? ?]|]; [discriminate|].
    destruct (first_fmt (c_naive ch) _ _) as [[? l]|].
    { destruct (from_local_datetime z l) eqn:F; cbn [bind]; try discriminate. destruct (local_no_panic _ _ F). }
    destruct (first_fmt (c_date ch) _ _) as [[? l]|].
    { destruct (from_local_datetime z _) eqn:F; cbn [bind]; try discriminate. destruct (local_no_panic _ _ F). }
    destruct (all_digits s); [|discriminate]. destruct (parse_u64 (chars s)) as [n|]; [|discriminate].
    destruct (detect_units n); discriminate.
  - unfold fmt_auto_datetime. rewrite Es. cbn [bind]. destruct (first_fmt _ _ _) as [[? l]|]; [|discriminate].
    destruct (from_local_datetime z l) eqn:F; cbn [bind]; try discriminate. destruct (local_no_panic _ _ F).
Qed.

Lemma no_cell h r cc fc z col hint : get_timestamp_col lower h cc = Ok (col, hint) -> (forall s, ~ row_text r col s) ->
  get_col_and_fmt ch lower h r cc fc z = Panic \/ exists f, get_col_and_fmt ch lower h r cc fc z = Ok (col, f).
Proof.
  intros C N. unfold get_col_and_fmt. rewrite C. cbn [bind].
  destruct (time_string r col) as [(s & _ & Hs)|[E _]]; [destruct (N s Hs)|].
  destruct fc as [|u|f|d t]; cbn [bind]; [|right; eexists; reflexivity| |]; try (left; unfold fmt_user; rewrite E; reflexivity).
  destruct col as [i|i j]; cbn [fmt_auto].
  - unfold fmt_auto_index. destruct hint as [u|]; [right; eexists; reflexivity|]. left. cbn [get_timestamp_string] in E. rewrite E. reflexivity.
  - left. unfold fmt_auto_datetime. rewrite E. reflexivity.
Qed.
Lemma string_record_or fs : (exists r, string_record fs = Ok r) \/ exists e, string_record fs = Err e.
Proof. unfold string_record. destruct (forallb utf8 fs); eauto. Qed.
Lemma not_longer r : exists vs, overwrite (repeat VNone (length r)) r = Ok vs.
Proof. induction r as [|x r (vs & E)]; [eexists; reflexivity|]. cbn. rewrite E. cbn. eauto. Qed.

(** A build without overflow checks crashes on opening exactly if there is no data record, or the first one has no
    cell in the column of the time. *)
Theorem C60_crash_exactly :
  (forall d o, In o (split d data) -> (exists r, o = Ok r) \/ exists e, o = Err e) ->
  csv_new Release ch lower f64_ok split cfg lines data = Panic <->
  exists d, delimiter_used cfg lines d /\ (no_data d \/ no_time_cell d).
Proof.
  intros Sp. unfold csv_new. cbv zeta.
  assert (D : exists d, delimiter_used cfg lines d /\
     match ci_delimiter cfg with
     | Some d => Ok d
     | None => match match lines with Some l => nth_error l 0 | None => None end with Some l => guess_delimiter l DELIMITERS | None => Ok (byte_of 44) end
     end = Ok d).
  { unfold delimiter_used. destruct (ci_delimiter cfg) as [d|]; [eauto|].
    destruct lines as [[|l ls]|]; cbn [nth_error]; eauto.
    unfold guess_delimiter, DELIMITERS.
    match goal with |- context [sort_by ?lt ?l] => pose proof (sort_perm lt l) as P; destruct (sort_by lt l) as [|d ds] end.
    { apply Permutation_sym, Permutation_nil in P. discriminate P. }
    cbn. eauto. }
  destruct D as (d & Hd & ->). cbn [bind].
  assert (Du : forall d', delimiter_used cfg lines d' -> d' = d).
  { intros d'. revert Hd. unfold delimiter_used. destruct (ci_delimiter cfg); [congruence|]. destruct lines as [[|l ls]|]; congruence. }
  match goal with |- bind (if ?x then _ else _) _ = _ <-> _ => set (hh := x) end.
  assert (Eh : has_header_used f64_ok cfg lines d = hh).
  { unfold has_header_used, hh. destruct (ci_has_header cfg); trivial. destruct lines as [[|l [|l' ls]]|]; reflexivity. }
  clearbody hh.
  assert (R : (exists d', delimiter_used cfg lines d' /\ (no_data d' \/ no_time_cell d')) <-> no_data d \/ no_time_cell d).
  { split; [intros (d' & Hd' & H); rewrite (Du _ Hd') in H; exact H|eauto]. }
  rewrite R. clear R Du. unfold no_data, no_time_cell, column_names. rewrite Eh. specialize (Sp d).
  (* what is left of the work, for the first data record *)
  set (rest_of := fun (names : res (list bytes)) (first : record) (rest : list (res (list bytes))) =>
    let* names := names in
    let h := {| h_names := names; h_types := repeat TString (length first) |} in
    let* (col, fmt) := get_col_and_fmt ch lower h first (ci_col cfg) (ci_fmt cfg) (ci_tz cfg) in
    let (next, o) := update_row Release ch col fmt (ci_tz cfg) {| ts := 0%N; vals := repeat VNone (length first) |} first in
    let* _ := o in
    Ok {| cs_reader := rest; cs_header := h; cs_col := col; cs_fmt := fmt; cs_tz := ci_tz cfg; cs_next := next; cs_has_next := true |}).
  assert (K : forall names first rest, rest_of (Ok names) first rest = Panic <->
    exists col hint, get_timestamp_col lower {| h_names := names; h_types := repeat TString (length first) |} (ci_col cfg) = Ok (col, hint) /\
      forall s, ~ row_text first col s).
  { intros names first rest. unfold rest_of. cbn [bind].
    destruct (get_col_and_fmt ch lower _ first _ _ _) as [[col fmt]| | | |] eqn:G; cbn [bind].
    - assert (C : exists hint, get_timestamp_col lower {| h_names := names; h_types := repeat TString (length first) |} (ci_col cfg) = Ok (col, hint)).
      { unfold get_col_and_fmt in G. destruct (get_timestamp_col _ _ _) as [[c hint]| | | |]; try discriminate. cbn [bind] in G.
        match type of G with bind ?x _ = _ => destruct x; try discriminate end. cbn [bind] in G. injection G as <- _. eauto. }
      destruct C as (hint & C). unfold update_row. cbn [vals]. destruct (not_longer first) as (vs & ->).
      pose proof (timestamp_release first col fmt (ci_tz cfg)) as T.
      assert (Q : get_timestamp Release ch first col fmt (ci_tz cfg) = Panic <->
        exists c hint, get_timestamp_col lower {| h_names := names; h_types := repeat TString (length first) |} (ci_col cfg) = Ok (c, hint) /\
          forall s, ~ row_text first c s).
      { rewrite T. rewrite C. split; [eauto|]. intros (c & h' & [= <- <-] & N). exact N. }
      rewrite <- Q. destruct (get_timestamp Release ch first col fmt (ci_tz cfg)); cbn; split; congruence.
    - split; [discriminate|]. intros (col & hint & C & N). exfalso.
      destruct (no_cell _ _ _ (ci_fmt cfg) (ci_tz cfg) _ _ C N) as [E|[f E]]; congruence.
    - split; [intros _; apply (fmt_no_panic _ _ _ _ _ G)|reflexivity].
    - split; [discriminate|]. intros (col & hint & C & N). exfalso.
      destruct (no_cell _ _ _ (ci_fmt cfg) (ci_tz cfg) _ _ C N) as [E|[f E]]; congruence.
    - split; [discriminate|]. intros (col & hint & C & N). exfalso.
      destruct (no_cell _ _ _ (ci_fmt cfg) (ci_tz cfg) _ _ C N) as [E|[f E]]; congruence. }
  destruct hh.
  - destruct (split d data) as [|o recs] eqn:Es; cbn [bind]; [split; [auto|reflexivity]|].
    assert (So : (exists h, o = Ok h) \/ exists e, o = Err e) by (apply Sp; now left).
    destruct So as [(h & ->)|(e & ->)]; cbn [bind].
    2:{ split; [discriminate|]. intros [[?|(_ & h & [= E])]|(pre & first & rest & r & names & col & hint & E & Lp & _ & (h' & rest' & [= <- <-] & Dh) & _)];
        try discriminate. destruct Dh as (fs & E' & _). discriminate E'. }
    destruct recs as [|o recs]; cbn [bind]; [split; [intros _; left; right; eauto|reflexivity]|].
    assert (So : (exists h, o = Ok h) \/ exists e, o = Err e) by (apply Sp; right; now left).
    assert (Only : forall pre first rest, Ok h :: o :: recs = pre ++ first :: rest -> length pre = 1 -> pre = [Ok h] /\ first = o /\ rest = recs).
    { intros [|? [|? ?]] first rest E Lp; try discriminate Lp. cbn in E. injection E as <- <- <-. auto. }
    destruct So as [(fs & ->)|(e & ->)]; cbn [bind fail_as].
    2:{ split; [discriminate|]. intros [[?|(_ & h' & [= E])]|(pre & first & rest & r & names & col & hint & E & Lp & Df & _)]; try discriminate.
        destruct (Only _ _ _ E Lp) as (_ & -> & _). destruct Df as (fs & E' & _). discriminate E'. }
    pose proof (string_record_decodes (Ok fs)) as DF. cbn [bind] in DF.
    pose proof (string_record_decodes (Ok h)) as DH. cbn [bind] in DH.
    destruct (string_record_or fs) as [(first & Ef)|(e & Ef)]; rewrite Ef; cbn [bind].
    2:{ split; [discriminate|]. intros [[?|(_ & h' & [= E])]|(pre & first & rest & r & names & col & hint & E & Lp & Df & _)]; try discriminate.
        destruct (Only _ _ _ E Lp) as (_ & -> & _). apply DF in Df. congruence. }
    change (rest_of (string_record h) first recs = Panic <->
      (Ok h :: Ok fs :: recs = [] \/ true = true /\ (exists h0, Ok h :: Ok fs :: recs = [Ok h0])) \/
      (exists pre first rest r names col hint, Ok h :: Ok fs :: recs = pre ++ first :: rest /\ length pre = 1 /\ decodes first r /\
        (exists h0 rest0, Ok h :: Ok fs :: recs = h0 :: rest0 /\ decodes h0 names) /\
        get_timestamp_col lower {| h_names := names; h_types := repeat TString (length r) |} (ci_col cfg) = Ok (col, hint) /\
        forall s, ~ row_text r col s)).
    destruct (string_record_or h) as [(names & En)|(e & En)]; rewrite En.
    2:{ split; [discriminate|]. intros [[?|(_ & h' & [= E])]|(pre & f & rest & r & names & col & hint & E & Lp & Df & (h' & rest' & [= <- <-] & Dh) & _)]; try discriminate.
        apply DH in Dh. congruence. }
    rewrite K. split.
    + intros (col & hint & C & N). right. exists [Ok h], (Ok fs), recs, first, names, col, hint.
      repeat split; trivial; [apply DF, Ef|]. exists (Ok h), (Ok fs :: recs). split; [reflexivity|apply DH, En].
    + intros [[?|(_ & h' & [= E])]|(pre & f & rest & r & names' & col & hint & E & Lp & Df & (h' & rest' & [= <- <-] & Dh) & C & N)]; try discriminate.
      destruct (Only _ _ _ E Lp) as (_ & -> & _). apply DF in Df. apply DH in Dh.
      assert (r = first) as -> by congruence. assert (names' = names) as -> by congruence. eauto.
  - cbn [bind]. destruct (split d data) as [|o recs] eqn:Es; cbn [bind]; [split; [auto|reflexivity]|].
    assert (So : (exists h, o = Ok h) \/ exists e, o = Err e) by (apply Sp; now left).
    assert (Only : forall pre first rest, o :: recs = pre ++ first :: rest -> length pre = 0 -> first = o /\ rest = recs).
    { intros [|? ?] first rest E Lp; try discriminate Lp. cbn in E. injection E as <- <-. auto. }
    destruct So as [(fs & ->)|(e & ->)]; cbn [bind fail_as].
    2:{ split; [discriminate|]. intros [[?|([=] & _)]|(pre & first & rest & r & names & col & hint & E & Lp & Df & _)]; try discriminate.
        destruct (Only _ _ _ E Lp) as (-> & _). destruct Df as (fs & E' & _). discriminate E'. }
    pose proof (string_record_decodes (Ok fs)) as DF. cbn [bind] in DF.
    destruct (string_record_or fs) as [(first & Ef)|(e & Ef)]; rewrite Ef; cbn [bind].
    2:{ split; [discriminate|]. intros [[?|([=] & _)]|(pre & first & rest & r & names & col & hint & E & Lp & Df & _)]; try discriminate.
        destruct (Only _ _ _ E Lp) as (-> & _). apply DF in Df. congruence. }
    change (rest_of (Ok (map (fun i => b "col_" ++ dec (N.of_nat i)) (seq 0 (length first)))) first recs = Panic <->
      (Ok fs :: recs = [] \/ false = true /\ (exists h0, Ok fs :: recs = [Ok h0])) \/
      (exists pre first rest r names col hint, Ok fs :: recs = pre ++ first :: rest /\ length pre = 0 /\ decodes first r /\
        names = map (fun i => b "col_" ++ dec (N.of_nat i)) (seq 0 (length r)) /\
        get_timestamp_col lower {| h_names := names; h_types := repeat TString (length r) |} (ci_col cfg) = Ok (col, hint) /\
        forall s, ~ row_text r col s)).
    rewrite K. split.
    + intros (col & hint & C & N). right. exists [], (Ok fs), recs, first. eexists _, col, hint.
      split; [reflexivity|]. split; [reflexivity|]. split; [apply DF, Ef|]. split; [reflexivity|]. split; [exact C|exact N].
    + intros [[?|([=] & _)]|(pre & f & rest & r & names' & col & hint & E & Lp & Df & -> & C & N)]; try discriminate.
      destruct (Only _ _ _ E Lp) as (-> & _). apply DF in Df. assert (r = first) as -> by congruence. eauto.
Qed.
End Open.
Print Assumptions C60_crash_exactly.

(** The records of the csv crate are of this kind. *)
Lemma records_read d s o : In o (csv_records d s) -> (exists r, o = Ok r) \/ exists e, o = Err e.
Proof.
  unfold csv_records. generalize StartRecord (@nil bytes) (@nil byte) (strip_bom (s_data s)).
  intros st fields cur data. revert st fields cur. induction data as [|c t IH]; intros st fields cur; cbn.
  - destruct (s_tail s); [intros [<-|[]]; eauto|]. destruct st; [intros []|..]; intros [<-|[]]; eauto.
  - destruct (csv_trans d st c); try apply IH. intros [<-|H]; [eauto|now apply IH in H].
Qed.
(** A column beyond the first record; and with a column that exists, no crash. *)
Definition open_col (i : nat) (text : bytes) :=
  csv_new Release T_Csv.nochrono (fun x => x) (fun _ => false) csv_records
    {| ci_delimiter := None; ci_has_header := Yes; ci_col := CfgIndex i; ci_fmt := FmtEpoch Seconds; ci_tz := None |} None (file text).
Example C60_exactly_example :
  open_col 0 (T_Csv.nl ["t"]%string) = Panic /\ open_col 0 [] = Panic /\
  open_col 2 (T_Csv.nl ["t,a"; "5,x"]%string) = Panic /\ (exists s, open_col 0 (T_Csv.nl ["t,a"; "5,x"]%string) = Ok s) /\
  (exists e, open_col 1 (T_Csv.nl ["t,a"; "5,x"]%string) = Err e).
Proof. repeat split; try (eexists; vm_compute; reflexivity); vm_compute; reflexivity. Qed.

(** C109: CSV files of which the end is missing. *)
From Verif Require Import CsvModel CsvSpec CsvProofs CsvProofs2 T_Csv DcSpec DriverSpec WholeCsvSpec BytesProofs.
Local Open Scope nat_scope.
Local Notation prefix := DriverSpec.prefix.
Local Notation first_lines := WholeCsvSpec.first_lines.

(** ** Records of a beginning *)
Fixpoint scan (d : byte) (st : csv_state) (fields : list bytes) (cur : bytes) (x : bytes)
  : list (list bytes) * (csv_state * list bytes * bytes) :=
  match x with
  | [] => ([], (st, fields, cur))
  | c :: t =>
      match csv_trans d st c with
      | CsvModel.Skip => scan d StartRecord [] [] t
      | Keep st' => scan d st' fields (cur ++ [c]) t
      | Drop st' => scan d st' fields cur t
      | EndField => scan d StartField (fields ++ [cur]) [] t
      | EndRecord => let (rs, e) := scan d StartRecord [] [] t in ((fields ++ [cur]) :: rs, e)
      end
  end.
Lemma parse_scan d x : forall st fields cur tail y,
  csv_parse d st fields cur tail (x ++ y) =
  map Ok (fst (scan d st fields cur x)) ++
  (let '(st', f', c') := snd (scan d st fields cur x) in csv_parse d st' f' c' tail y).
Proof.
  induction x as [|c x IH]; intros st fields cur tail y; [reflexivity|]. cbn [app csv_parse scan].
  destruct (csv_trans d st c); try apply IH.
  rewrite IH. destruct (scan d StartRecord [] [] x) as [rs e]. reflexivity.
Qed.
Lemma parse_end d st f c tail : length (csv_parse d st f c tail []) <= 1.
Proof. cbn. destruct tail; [cbn; lia|]. destruct st; cbn; lia. Qed.

Lemma parse_scan_all d x st fields cur tail :
  csv_parse d st fields cur tail x =
  map Ok (fst (scan d st fields cur x)) ++
  (let '(st', f', c') := snd (scan d st fields cur x) in csv_parse d st' f' c' tail []).
Proof. rewrite <- (app_nil_r x) at 1. apply parse_scan. Qed.

Lemma bom_cut x y : starts_with [byte_of 0xEF; byte_of 0xBB; byte_of 0xBF] x = true ->
  starts_with [byte_of 0xEF; byte_of 0xBB; byte_of 0xBF] (x ++ y) = true /\ skipn 3 (x ++ y) = skipn 3 x ++ y.
Proof.
  intro H. apply starts_with_spec in H as (z & ->). split; [|reflexivity].
  apply starts_with_spec. exists (z ++ y). now rewrite app_assoc.
Qed.
Lemma bom_late x y : starts_with [byte_of 0xEF; byte_of 0xBB; byte_of 0xBF] x = false ->
  starts_with [byte_of 0xEF; byte_of 0xBB; byte_of 0xBF] (x ++ y) = true ->
  length x < 3 /\ Forall (fun c => In c [byte_of 0xEF; byte_of 0xBB]) x.
Proof.
  intros H E. apply starts_with_spec in E as (z & E).
  destruct x as [|a [|a2 [|a3 x]]]; cbn [app length] in *.
  - split; [lia|constructor].
  - injection E as -> _. split; [lia|]. constructor; [now left|constructor].
  - injection E as -> -> _. split; [lia|]. constructor; [now left|]. constructor; [right; now left|constructor].
  - injection E as -> -> -> E. exfalso. vm_compute in H. discriminate.
Qed.

(** The records of a beginning, and of the whole, differ at most from the last one of the beginning on. *)
Lemma records_cut d x y tail tail' : exists R A B,
  csv_records d {| s_data := x ++ y; s_tail := tail |} = map Ok R ++ A /\
  csv_records d {| s_data := x; s_tail := tail' |} = map Ok R ++ B /\ length B <= 1.
Proof.
  unfold csv_records, strip_bom. cbn [s_data s_tail].
  destruct (starts_with [byte_of 0xEF; byte_of 0xBB; byte_of 0xBF] x) eqn:Ex.
  - destruct (bom_cut x y Ex) as [-> ->].
    rewrite parse_scan, (parse_scan_all d (skipn 3 x)).
    destruct (snd (scan d StartRecord [] [] (skipn 3 x))) as [[st f] c].
    eexists _, _, _. split; [reflexivity|]. split; [reflexivity|]. apply parse_end.
  - destruct (starts_with [byte_of 0xEF; byte_of 0xBB; byte_of 0xBF] (x ++ y)) eqn:Exy.
    + (* the cut is inside the byte order mark *)
      destruct (bom_late x y Ex Exy) as (L & F). exists [], (csv_parse d StartRecord [] [] tail (skipn 3 (x ++ y))), (csv_parse d StartRecord [] [] tail' x).
      split; [reflexivity|]. split; [reflexivity|].
      rewrite parse_scan_all.
      assert (Z : forall st fs cu, fst (scan d st fs cu x) = []).
      { clear - F. induction F as [|c x Hc F IH]; intros st fs cu; [reflexivity|]. cbn [scan].
        assert (T : is_term c = false) by (destruct Hc as [<-|[<-|[]]]; reflexivity).
        unfold csv_trans. rewrite T. destruct st; repeat match goal with |- context [Ascii.eqb ?p ?q] => destruct (Ascii.eqb p q) end; apply IH. }
      rewrite Z. cbn [map app]. destruct (snd _) as [[st f] c]. apply parse_end.
    + rewrite parse_scan, (parse_scan_all d x).
      destruct (snd (scan d StartRecord [] [] x)) as [[st f] c].
      eexists _, _, _. split; [reflexivity|]. split; [reflexivity|]. apply parse_end.
Qed.

(** At the end of a line, outside quotes, they do not differ. *)
Lemma scan_unquoted d x : ~ In quote x -> forall st f c, st <> InQuoted -> st <> InDoubledQuote ->
  let st' := fst (fst (snd (scan d st f c x))) in st' <> InQuoted /\ st' <> InDoubledQuote.
Proof.
  induction x as [|a x IH]; intros Hq st f c H1 H2; [auto|].
  assert (Ha : Ascii.eqb a quote = false).
  { destruct (Ascii.eqb_spec a quote) as [->|]; [|reflexivity]. exfalso. apply Hq. now left. }
  assert (Hx : ~ In quote x) by (intro C; apply Hq; now right).
  cbn [scan]. unfold csv_trans. rewrite Ha.
  destruct st; try congruence; try destruct (is_term a); try destruct (Ascii.eqb a d);
    try (apply IH; [exact Hx|discriminate..]);
    try (destruct (scan d StartRecord [] [] x) as [rs e] eqn:E; pose proof (IH Hx StartRecord [] []) as Q; rewrite E in Q; cbn [snd] in *; apply Q; discriminate).
Qed.
Lemma scan_app d x : forall st f c y,
  snd (scan d st f c (x ++ y)) = (let '(st', f', c') := snd (scan d st f c x) in snd (scan d st' f' c' y)).
Proof.
  induction x as [|a x IH]; intros st f c y; [reflexivity|]. cbn [app scan].
  destruct (csv_trans d st a); try apply IH.
  specialize (IH StartRecord [] [] y). destruct (scan d StartRecord [] [] (x ++ y)), (scan d StartRecord [] [] x). exact IH.
Qed.
Lemma scan_line_end d x : delim_ok d -> ~ In quote x -> forall st f c, st <> InQuoted -> st <> InDoubledQuote ->
  fst (fst (snd (scan d st f c (x ++ [byte_of 10])))) = StartRecord.
Proof.
  intros [_ Hd] Hq st f c H1 H2. rewrite scan_app. pose proof (scan_unquoted d x Hq st f c H1 H2) as [A B].
  destruct (snd (scan d st f c x)) as [[st' f'] c']. cbn [fst snd] in A, B. cbn [scan].
  assert (E : Ascii.eqb (byte_of 10) d = false).
  { destruct (Ascii.eqb_spec (byte_of 10) d) as [<-|]; [discriminate Hd|reflexivity]. }
  unfold csv_trans. change (is_term (byte_of 10)) with true. change (Ascii.eqb (byte_of 10) quote) with false. rewrite E.
  destruct st'; try congruence; reflexivity.
Qed.
Lemma records_line d x y tail : delim_ok d -> ~ In quote x -> exists R A,
  csv_records d {| s_data := (x ++ [byte_of 10]) ++ y; s_tail := tail |} = map Ok R ++ A /\
  csv_records d {| s_data := x ++ [byte_of 10]; s_tail := None |} = map Ok R.
Proof.
  intros Hd Hq. unfold csv_records, strip_bom. cbn [s_data s_tail].
  assert (K : forall z, ~ In quote z -> exists R A,
    csv_parse d StartRecord [] [] tail ((z ++ [byte_of 10]) ++ y) = map Ok R ++ A /\
    csv_parse d StartRecord [] [] None (z ++ [byte_of 10]) = map Ok R).
  { intros z Hz. rewrite parse_scan, (parse_scan_all d (z ++ [byte_of 10])).
    pose proof (scan_line_end d z Hd Hz StartRecord [] [] ltac:(discriminate) ltac:(discriminate)) as E.
    destruct (snd (scan d StartRecord [] [] (z ++ [byte_of 10]))) as [[st f] c]. cbn [fst] in E. subst st.
    eexists _, _. split; [reflexivity|]. cbn [csv_parse]. apply app_nil_r. }
  destruct (starts_with [byte_of 0xEF; byte_of 0xBB; byte_of 0xBF] (x ++ [byte_of 10])) eqn:Ex.
  - destruct (bom_cut _ y Ex) as [-> ->].
    destruct x as [|a [|a2 [|a3 x]]]; try (vm_compute in Ex; discriminate).
    + exfalso. apply starts_with_spec in Ex as (z & Ex). cbn in Ex. injection Ex as _ Ex. discriminate.
    + exfalso. apply starts_with_spec in Ex as (z & Ex). cbn in Ex. injection Ex as _ _ Ex. discriminate.
    + cbn [app skipn]. apply (K x). intro C. apply Hq. right. right. now right.
  - destruct (starts_with [byte_of 0xEF; byte_of 0xBB; byte_of 0xBF] ((x ++ [byte_of 10]) ++ y)) eqn:Exy; [|apply K; exact Hq].
    destruct (bom_late _ y Ex Exy) as (_ & F). exfalso. apply Forall_app in F as [_ F]. inversion F as [|? ? Hc _]; subst.
    destruct Hc as [C|[C|[]]]; discriminate.
Qed.

(** ** Rows *)
Section Rows.
Context (prof : profile) (ch : chrono) (lower : bytes -> bytes) (f64_ok : text -> bool).
Notation opens := (csv_new prof ch lower f64_ok csv_records).

Lemma prefix_nil {A} (l : list A) : prefix [] l. Proof. now exists l. Qed.
Lemma prefix_cons {A} (x : A) l m : prefix l m -> prefix (x :: l) (x :: m).
Proof. intros [z ->]. now exists z. Qed.

Lemma rows_from_ne s next reader : rows_from prof ch s next reader <> [].
Proof.
  destruct reader as [|o rest]; cbn; [discriminate|].
  destruct (let* raw := o in string_record raw); try discriminate.
  destruct (update_row _ _ _ _ _ _ _) as [? [?| | | |]]; discriminate.
Qed.
Lemma removelast_cons {A} (x : A) l : l <> [] -> removelast (x :: l) = x :: removelast l.
Proof. destruct l; [congruence|reflexivity]. Qed.

Lemma rows_cut s A B : length B <= 1 -> forall R next rs,
  rows_from prof ch s next (map Ok R ++ A) = map Ok rs ->
  prefix (removelast (rows_from prof ch s next (map Ok R ++ B))) (map Ok rs).
Proof.
  intro LB. induction R as [|r R IH]; intros next rs; cbn [map app].
  - intro E. destruct B as [|o [|? ?]]; [apply prefix_nil| |cbn in LB; lia].
    cbn [rows_from]. destruct (let* raw := o in string_record raw) as [r| | | |]; try apply prefix_nil.
    destruct (update_row _ _ _ _ _ _ _) as [? [?| | | |]]; try apply prefix_nil.
    cbn [removelast]. rewrite <- E. destruct A as [|o2 A]; [cbn; apply prefix_cons, prefix_nil|].
    cbn [rows_from] in *. destruct (let* raw := o2 in string_record raw) as [r2| | | |].
    2,3,4,5: exfalso; destruct rs as [|? [|? ?]]; discriminate.
    destruct (update_row _ _ _ _ _ _ r2) as [? [?| | | |]]; [apply prefix_cons, prefix_nil|..];
      exfalso; destruct rs as [|? [|? ?]]; discriminate.
  - cbn [rows_from bind]. destruct (string_record r) as [rc| | | |]; try (intros _; apply prefix_nil).
    destruct (update_row _ _ _ _ _ _ rc) as [next' [?| | | |]]; try (intros _; apply prefix_nil).
    intro E. destruct rs as [|r0 rs]; [discriminate|]. cbn [map] in E. injection E as -> E.
    rewrite removelast_cons by apply rows_from_ne. cbn [map]. apply prefix_cons. now apply IH.
Qed.
Lemma rows_cut_clean s A : forall R next rs,
  rows_from prof ch s next (map Ok R ++ A) = map Ok rs ->
  prefix (rows_from prof ch s next (map Ok R)) (map Ok rs).
Proof.
  induction R as [|r R IH]; intros next rs; cbn [map app].
  - intro E. cbn [rows_from]. rewrite <- E. destruct A as [|o2 A]; [cbn; apply prefix_cons, prefix_nil|].
    cbn [rows_from] in *. destruct (let* raw := o2 in string_record raw) as [r2| | | |].
    2,3,4,5: exfalso; destruct rs as [|? [|? ?]]; discriminate.
    destruct (update_row _ _ _ _ _ _ r2) as [? [?| | | |]]; [apply prefix_cons, prefix_nil|..];
      exfalso; destruct rs as [|? [|? ?]]; discriminate.
  - cbn [rows_from bind]. destruct (string_record r) as [rc| | | |]; try (intro E; exfalso; destruct rs as [|? [|? ?]]; discriminate).
    destruct (update_row _ _ _ _ _ _ rc) as [next' [?| | | |]]; try (intro E; exfalso; destruct rs as [|? [|? ?]]; discriminate).
    intro E. destruct rs as [|r0 rs]; [discriminate|]. cbn [map] in E. injection E as -> E.
    cbn [map]. apply prefix_cons. now apply IH.
Qed.

Lemma header_ext (x y : header) : h_names x = h_names y -> h_types x = h_types y -> x = y.
Proof. destruct x, y. cbn. congruence. Qed.

(* two openings that agree up to the first data record agree in everything but the rest *)
Lemma open_agree cfg lines data data' s s' d p q rest rest' :
  opens cfg lines data = Ok s -> opens cfg lines data' = Ok s' -> delimiter_used cfg lines d ->
  length p = (if has_header_used f64_ok cfg lines d then 1 else 0) ->
  csv_records d data = p ++ q :: rest -> csv_records d data' = p ++ q :: rest' ->
  cs_header s = cs_header s' /\ cs_next s = cs_next s' /\ cs_reader s = rest /\ cs_reader s' = rest' /\
  (forall next R, rows_from prof ch s' next R = rows_from prof ch s next R).
Proof.
  intros H H' Hd Hp E E'.
  destruct (csv_new_spec _ _ _ _ _ _ _ _ _ H) as (d1 & pre & first & rs & D1 & S1 & P1 & (r & Hr & N1 & Nm & Ty & Gf & Gt) & R1 & Z1 & _).
  destruct (csv_new_spec _ _ _ _ _ _ _ _ _ H') as (d2 & pre' & first' & rs' & D2 & S2 & P2 & (r' & Hr' & N2 & Nm' & Ty' & Gf' & Gt') & R2 & Z2 & _).
  rewrite (T_Csv.delimiter_one _ _ _ _ _ D1 Hd) in *. rewrite (T_Csv.delimiter_one _ _ _ _ _ D2 Hd) in *.
  assert (L1 : length pre = length p).
  { destruct pre as [|? [|? ?]]; [|destruct P1 as [P1 _]|destruct P1]; rewrite P1 in Hp; now rewrite Hp. }
  assert (L2 : length pre' = length p).
  { destruct pre' as [|? [|? ?]]; [|destruct P2 as [P2 _]|destruct P2]; rewrite P2 in Hp; now rewrite Hp. }
  rewrite E in S1. rewrite E' in S2.
  apply GraphProps.app_inj_len in S1 as [<- S1]; [|now symmetry]. injection S1 as <- <-.
  apply GraphProps.app_inj_len in S2 as [<- S2]; [|now symmetry]. injection S2 as <- <-.
  assert (r' = r) as -> by (eapply T_Csv.decodes_det; eauto).
  assert (Eh : cs_header s = cs_header s').
  { apply header_ext; [|congruence]. destruct p as [|h [|? ?]]; [rewrite Nm, Nm' by reflexivity; reflexivity| |destruct P1].
    destruct P1 as [_ P1]. destruct P2 as [_ P2]. eapply T_Csv.decodes_det; eauto. }
  rewrite Eh, Gf' in Gf. injection Gf as Ec Ef.
  split; [exact Eh|]. split.
  { rewrite N1, N2. f_equal. rewrite Ec, Ef in Gt'. congruence. }
  split; [exact R1|]. split; [exact R2|]. intros next R. apply rows_from_same; congruence.
Qed.

(** [data] cut anywhere, the delimiter and the header being guessed from the same lines: the rows of
    the rest are those of the whole, except perhaps the last. *)
Theorem C109_all_but_the_last_partial : forall cfg lines x y tail tail' s s' rs,
  opens cfg lines {| s_data := x ++ y; s_tail := tail |} = Ok s -> csv_rows prof ch s = map Ok rs ->
  opens cfg lines {| s_data := x; s_tail := tail' |} = Ok s' ->
  prefix (removelast (csv_rows prof ch s')) (map Ok rs) /\
  (2 <= length (csv_rows prof ch s') -> cs_header s' = cs_header s).
Proof.
  intros cfg lines x y tail tail' s s' rs H Hrs H'.
  pose proof (csv_new_spec _ _ _ _ _ _ _ _ _ H) as (d & pre & first & rest & Hd & Hsp & Hpre & _ & _ & _ & N).
  pose proof (csv_new_spec _ _ _ _ _ _ _ _ _ H') as (d' & pre' & first' & rest' & Hd' & Hsp' & Hpre' & _ & Hrd' & _ & N').
  rewrite (T_Csv.delimiter_one _ _ _ _ _ Hd' Hd) in *.
  destruct (records_cut d x y tail tail') as (R & A & B & EA & EB & LB).
  rewrite (csv_rows_from _ _ _ N) in Hrs. rewrite (csv_rows_from _ _ _ N').
  assert (Lp : length pre = if has_header_used f64_ok cfg lines d then 1 else 0).
  { destruct pre as [|? [|? ?]]; [|destruct Hpre as [Hpre _]|destruct Hpre]; now rewrite Hpre. }
  assert (Lp' : length pre' = length pre).
  { rewrite Lp. destruct pre' as [|? [|? ?]]; [|destruct Hpre' as [Hpre' _]|destruct Hpre']; now rewrite Hpre'. }
  destruct (Nat.le_gt_cases (S (length pre)) (length R)) as [Long|Short].
  - set (RA := map Ok R). assert (exists p q R2, R = p ++ q :: R2 /\ length p = length pre) as (p & q & R2 & -> & Lpp).
    { exists (firstn (length pre) R).
      destruct (skipn (length pre) R) as [|q R2] eqn:Es.
      - apply (f_equal (@length _)) in Es. rewrite skipn_length in Es. cbn in Es. lia.
      - exists q, R2. rewrite <- Es, firstn_skipn. split; [reflexivity|]. rewrite firstn_length. lia. }
    rewrite map_app in EA, EB. cbn [map] in EA, EB. rewrite <- app_assoc in EA, EB. cbn [app] in EA, EB.
    destruct (open_agree _ _ _ _ _ _ _ _ _ _ _ H H' Hd (eq_trans (map_length _ _) (eq_trans Lpp Lp)) EA EB) as (Eh & En & Er & Er' & Ef).
    rewrite Er in Hrs. rewrite Er', Ef, <- En. split; [|intros _; now symmetry]. now apply (rows_cut s A B LB).
  - assert (rest' = []) as E.
    { rewrite EB in Hsp'. apply (f_equal (@length _)) in Hsp'. rewrite !app_length, map_length in Hsp'. cbn [length] in Hsp'.
      destruct rest'; [reflexivity|cbn in Hsp'; lia]. }
    rewrite Hrd', E. cbn [rows_from removelast length]. split; [apply prefix_nil|lia].
Qed.

(** Cut behind a line end, with nothing quoted before: all rows of the rest are rows of the whole. *)
Theorem C109_at_a_line_end_partial : forall cfg lines x y tail s s' rs d,
  delimiter_used cfg lines d -> d <> quote -> d <> byte_of 10 -> d <> byte_of 13 -> ~ In quote x ->
  opens cfg lines {| s_data := (x ++ [byte_of 10]) ++ y; s_tail := tail |} = Ok s -> csv_rows prof ch s = map Ok rs ->
  opens cfg lines {| s_data := x ++ [byte_of 10]; s_tail := None |} = Ok s' ->
  cs_header s' = cs_header s /\ prefix (csv_rows prof ch s') (map Ok rs).
Proof.
  intros cfg lines x y tail s s' rs d Hd D1 D2 D3 Hq H Hrs H'.
  assert (Hdo : delim_ok d).
  { split; [exact D1|]. unfold is_term. destruct (Ascii.eqb_spec d (byte_of 10)); [congruence|].
    destruct (Ascii.eqb_spec d (byte_of 13)); [congruence|reflexivity]. }
  pose proof (csv_new_spec _ _ _ _ _ _ _ _ _ H) as (d1 & pre & first & rest & Hd1 & Hsp & Hpre & _ & _ & _ & N).
  pose proof (csv_new_spec _ _ _ _ _ _ _ _ _ H') as (d' & pre' & first' & rest' & Hd' & Hsp' & Hpre' & _ & Hrd' & _ & N').
  rewrite (T_Csv.delimiter_one _ _ _ _ _ Hd' Hd) in *. rewrite (T_Csv.delimiter_one _ _ _ _ _ Hd1 Hd) in *.
  destruct (records_line d x y tail Hdo Hq) as (R & A & EA & EB).
  rewrite (csv_rows_from _ _ _ N) in Hrs. rewrite (csv_rows_from _ _ _ N').
  assert (Lp' : length pre' = if has_header_used f64_ok cfg lines d then 1 else 0).
  { destruct pre' as [|? [|? ?]]; [|destruct Hpre' as [Hpre' _]|destruct Hpre']; now rewrite Hpre'. }
  assert (exists p q R2, R = p ++ q :: R2 /\ length p = length pre') as (p & q & R2 & -> & Lpp).
  { rewrite EB in Hsp'. exists (firstn (length pre') R).
    destruct (skipn (length pre') R) as [|q R2] eqn:Es.
    - apply (f_equal (@length _)) in Es. apply (f_equal (@length _)) in Hsp'. rewrite skipn_length in Es.
      rewrite map_length, app_length in Hsp'. cbn in Es, Hsp'. lia.
    - exists q, R2. rewrite <- Es, firstn_skipn. split; [reflexivity|]. rewrite firstn_length.
      assert (length (skipn (length pre') R) = length (q :: R2)) as X by now rewrite Es.
      rewrite skipn_length in X. cbn in X. lia. }
  rewrite map_app in EA, EB. cbn [map] in EA, EB.
  rewrite <- (app_assoc (map Ok p) (Ok q :: map Ok R2) A) in EA. cbn [app] in EA.
  destruct (open_agree _ _ _ _ _ _ _ _ _ _ _ H H' Hd (eq_trans (map_length _ _) (eq_trans Lpp Lp')) EA EB) as (Eh & En & Er & Er' & Ef).
  rewrite Er in Hrs. rewrite Er', Ef, <- En. split; [now symmetry|]. now apply (rows_cut_clean s A).
Qed.
End Rows.
Print Assumptions C109_all_but_the_last_partial.
Print Assumptions C109_at_a_line_end_partial.

(** The lines that are looked at are those in the first 8 KiB. *)
Theorem C109_same_lines : forall x y lines, 8 * 1024 <= length x ->
  first_lines (x ++ y) lines <-> first_lines x lines.
Proof.
  intros x y lines L. unfold first_lines.
  assert (E : firstn (8 * 1024) (x ++ y) = firstn (8 * 1024) x).
  { generalize dependent (8 * 1024). intros n L. rewrite firstn_app. replace (n - length x) with 0 by lia. apply app_nil_r. }
  rewrite E. reflexivity.
Qed.
Print Assumptions C109_same_lines.

(** The rest is not noticed to be incomplete, and its last row need not be one of the file: here the
    file ends in the middle of a time, and the row gets a wrong time and the value of the row before. *)
Definition whole_ex : bytes := nl ["timeseconds,a"; "50,x"; "60,y"; "71,z"]%string.
Definition cut_ex : bytes := firstn 25 whole_ex.
Definition lines_ex : option (list bytes) := Some [b "timeseconds,a"; b "50,x"].
Definition opens_ex (data : bytes) : res (csv_source nochrono) :=
  csv_new Debug nochrono (fun x => x) (fun _ => false) csv_records cfg_ex lines_ex {| s_data := data; s_tail := None |}.
Theorem C109_cut_value_refuted :
  exists y s s' rs last, whole_ex = cut_ex ++ y /\
    opens_ex whole_ex = Ok s /\ csv_rows Debug nochrono s = map Ok rs /\
    opens_ex cut_ex = Ok s' /\ csv_rows Debug nochrono s' = map Ok (firstn 2 rs ++ [last]) /\
    ~ In last rs /\ last = rw 7000000000 ["7"; "y"]%string.
Proof.
  exists (skipn 25 whole_ex).
  destruct (opens_ex whole_ex) as [s| | | |] eqn:E; [|vm_compute in E; discriminate..].
  destruct (opens_ex cut_ex) as [s'| | | |] eqn:E'; [|vm_compute in E'; discriminate..].
  exists s, s', [rw 50000000000 ["50"; "x"]; rw 60000000000 ["60"; "y"]; rw 71000000000 ["71"; "z"]]%string, (rw 7000000000 ["7"; "y"]%string).
  split; [symmetry; apply firstn_skipn|]. split; [reflexivity|].
  split. { vm_compute in E. injection E as <-. vm_compute. reflexivity. }
  split; [reflexivity|].
  split. { vm_compute in E'. injection E' as <-. vm_compute. reflexivity. }
  split; [|reflexivity]. intros [C|[C|[C|[]]]]; apply (f_equal ts) in C; discriminate.
Qed.
Print Assumptions C109_cut_value_refuted.

(** The hypotheses of the theorems are met: the same file, cut in the last record and at a line end. *)
Example C109_case : exists s s' s2,
  opens_ex (cut_ex ++ skipn 25 whole_ex) = Ok s /\ opens_ex cut_ex = Ok s' /\
  removelast (csv_rows Debug nochrono s') = [Ok (rw 50000000000 ["50"; "x"]); Ok (rw 60000000000 ["60"; "y"])]%string /\
  whole_ex = (nl ["timeseconds,a"; "50,x"]%string ++ b "60,y" ++ [byte_of 10]) ++ nl ["71,z"]%string /\
  delimiter_used cfg_ex lines_ex (byte_of 44) /\ ~ In quote (nl ["timeseconds,a"; "50,x"]%string ++ b "60,y") /\
  opens_ex ((nl ["timeseconds,a"; "50,x"]%string ++ b "60,y") ++ [byte_of 10]) = Ok s2 /\
  csv_rows Debug nochrono s2 = [Ok (rw 50000000000 ["50"; "x"]); Ok (rw 60000000000 ["60"; "y"])]%string.
Proof.
  destruct (opens_ex (cut_ex ++ skipn 25 whole_ex)) as [s| | | |] eqn:E; [|vm_compute in E; discriminate..].
  destruct (opens_ex cut_ex) as [s'| | | |] eqn:E'; [|vm_compute in E'; discriminate..].
  destruct (opens_ex ((nl ["timeseconds,a"; "50,x"]%string ++ b "60,y") ++ [byte_of 10])) as [s2| | | |] eqn:E2; [|vm_compute in E2; discriminate..].
  exists s, s', s2. split; [reflexivity|]. split; [reflexivity|].
  split. { vm_compute in E'. injection E' as <-. vm_compute. reflexivity. }
  split; [reflexivity|]. split; [vm_compute; reflexivity|].
  split. { intro C. vm_compute in C. repeat destruct C as [C|C]; try discriminate C; exact C. }
  split; [reflexivity|]. vm_compute in E2. injection E2 as <-. vm_compute. reflexivity.
Qed.

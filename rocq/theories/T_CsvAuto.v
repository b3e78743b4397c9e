(** C95: the program's own CSV output, opened with everything detected automatically. *)
From Verif Require Import CsvQuoteSpec CsvProofs CsvProofs2 CsvUtilProofs TimestampProofs BytesProofs DcSpec.
From Verif Require Import DriverSpec.
From Verif Require T_Csv T_CsvOut T_CsvUtil T_Timestamp GraphProps.
Local Open Scope nat_scope.

(** What [to_lowercase] does on the names of the time column (they are ASCII). *)
Definition lowers_names (lower : bytes -> bytes) : Prop :=
  lower (b "timestampSeconds") = b "timestampseconds" /\ lower (b "timestampMillis") = b "timestampmillis" /\
  lower (b "timestampMicros") = b "timestampmicros" /\ lower (b "timestampNanos") = b "timestampnanos".
(** The output's settings when only the unit is chosen. *)
Definition epoch_output (u : units) : csv_output := csv_output_new (b ",") true None Epoch u None.
(** Everything detected. *)
Definition automatic {ch} (z : tz ch) : csv_input ch :=
  {| ci_delimiter := None; ci_has_header := Auto; ci_col := CfgAuto; ci_fmt := FmtAuto; ci_tz := z |}.

Lemma time_name_says u k : ~ says (b "timestamp" ++ unit_name u) k.
Proof.
  intro H. remember (b "timestamp" ++ unit_name u) as n eqn:E.
  assert (B : begins_with_time n) by (rewrite E; exists (b "stamp" ++ unit_name u); reflexivity).
  destruct H as [v| | |p v Np Nb|p Np Nb|p Np Nb]; try contradiction.
  - destruct u, v; discriminate E.
  - destruct u; discriminate E.
  - destruct u; discriminate E.
Qed.
Lemma lower_time_name lower u : lowers_names lower -> lower (co_time_name (epoch_output u)) = b "timestamp" ++ unit_name u.
Proof. intros (A & B & C & D). destruct u; assumption. Qed.

Section Auto.
Context (f64 f32 : N -> bytes) (prof : profile) (ch : chrono) (lower : bytes -> bytes) (f64_ok : text -> bool).

Lemma open_lines icfg lines d hc c0 cols col fmt t0 times :
  delimiter_used icfg lines d -> has_header_used f64_ok icfg lines d = true ->
  delim_ok d -> hc <> [] -> hc <> [[]] -> Forall (Forall (plain d)) (hc :: c0 :: cols) ->
  Forall (fun c => c <> [] /\ c <> [[]]) (c0 :: cols) ->
  (forall c c', In c (c0 :: cols) -> In c' (c0 :: cols) -> length c = length c') ->
  get_col_and_fmt ch lower {| h_names := hc; h_types := repeat TString (length c0) |} c0 (ci_col icfg) (ci_fmt icfg) (ci_tz icfg) = Ok (col, fmt) ->
  Forall2 (fun c t => get_timestamp prof ch c col fmt (ci_tz icfg) = Ok t) (c0 :: cols) (t0 :: times) ->
  let data := concat (map (fun c => join [d] c ++ [byte_of 10]) (hc :: c0 :: cols)) in
  starts_with [byte_of 0xEF; byte_of 0xBB; byte_of 0xBF] data = false ->
  exists s, csv_new prof ch lower f64_ok csv_records icfg lines (file data) = Ok s /\
    cs_header s = {| h_names := hc; h_types := repeat TString (length c0) |} /\ cs_col s = col /\ cs_fmt s = fmt /\
    csv_rows prof ch s = map (fun p => Ok (row_of (fst p) (snd p))) (combine (c0 :: cols) (t0 :: times)).
Proof.
  intros Id Ih D N1 N2 P Ne W G T data Bom.
  assert (R : csv_records d (file data) = map Ok (hc :: c0 :: cols)).
  { unfold csv_records, file. cbn [s_data s_tail]. unfold strip_bom. rewrite Bom. unfold data.
    rewrite parse_lines; [apply app_nil_r|exact D|]. apply Forall_forall. intros c Hc. split; [|split].
    - rewrite Forall_forall in P. specialize (P c Hc). eapply Forall_impl; [|exact P]. intros a Ha. now apply plain_unquoted.
    - destruct Hc as [<-|Hc]; [exact N1|]. rewrite Forall_forall in Ne. now apply (Ne c).
    - destruct Hc as [<-|Hc]; [exact N2|]. rewrite Forall_forall in Ne. now apply (Ne c). }
  inversion T as [|? ? ? ? Ht0 T']; subst.
  inversion P as [|? ? Ph P']; subst. inversion P' as [|? ? P0 P'']; subst.
  pose proof (proj2 (string_record_decodes _ _) (plain_decodes _ _ Ph)) as Sh. cbn [bind] in Sh.
  pose proof (proj2 (string_record_decodes _ _) (plain_decodes _ _ P0)) as S0. cbn [bind] in S0.
  set (hh := {| h_names := hc; h_types := repeat TString (length c0) |}) in *.
  assert (E : exists s, csv_new prof ch lower f64_ok csv_records icfg lines (file data) = Ok s /\ cs_header s = hh /\
     cs_col s = col /\ cs_fmt s = fmt /\ cs_tz s = ci_tz icfg).
  { unfold csv_new. cbv zeta.
    match goal with |- exists s, bind ?x _ = _ /\ _ => replace x with (@Ok byte d) end.
    2:{ unfold delimiter_used in Id. destruct (ci_delimiter icfg); [congruence|].
        destruct lines as [[|l ls]|]; cbn [nth_error]; first [congruence | (symmetry; exact Id)]. }
    cbn [bind].
    match goal with |- exists s, bind (if ?x then _ else _) _ = _ /\ _ => replace x with (has_header_used f64_ok icfg lines d) end.
    2:{ unfold has_header_used. destruct (ci_has_header icfg); trivial. destruct lines as [[|l [|l' ls]]|]; reflexivity. }
    rewrite Ih, R. cbn [map bind]. rewrite S0. cbn [bind]. rewrite Sh. cbn [bind]. fold hh. rewrite G. cbn [bind].
    unfold update_row. rewrite overwrite_spec. cbn [vals]. rewrite repeat_length, Nat.leb_refl, Ht0. cbn [bind].
    eexists. split; [reflexivity|]. cbn. auto. }
  destruct E as (s & Es & Eh & Ec & Ef & Ez). exists s. split; [exact Es|]. split; [exact Eh|]. split; [exact Ec|]. split; [exact Ef|].
  eapply (T_Csv.C36_same_width_partial prof ch lower f64_ok csv_records icfg lines (file data) s (map Ok (c0 :: cols)) (c0 :: cols) (t0 :: times)).
  + exact Es.
  + exists d, [Ok hc]. split; [exact Id|]. split; [exact R|]. rewrite Ih. reflexivity.
  + clear - P'. induction P' as [|c l Hc P IH]; cbn [map]; constructor; [eapply plain_decodes, Hc|exact IH].
  + clear - T Ec Ef Ez. induction T as [|c t l l' H T IH]; constructor; [|exact IH]. unfold timed. rewrite Ec, Ef, Ez. exact H.
  + exact W.
Qed.

(** ** The guesses *)
Lemma chars_str_app cs t : Forall scalar cs -> chars (str cs ++ t) = cs ++ chars t.
Proof.
  induction 1 as [|c cs Hc F IH]; [reflexivity|]. unfold str in *. cbn [flat_map]. rewrite <- app_assoc, chars_encode by exact Hc.
  cbn [app]. rewrite IH. reflexivity.
Qed.
Definition ascii_text (s : bytes) : Prop := Forall (fun c => (of_byte c < 128)%N) s.
Lemma ascii_str s : ascii_text s -> s = str (map of_byte s) /\ Forall scalar (map of_byte s).
Proof.
  unfold ascii_text. induction 1 as [|c s Hc F [IH IH']]; [split; [reflexivity|constructor]|]. split.
  - unfold str in *. cbn [map flat_map]. rewrite <- IH.
    unfold encode. destruct (N.ltb_spec (of_byte c) 128); [|lia]. cbn [app map]. rewrite byte_of_of. reflexivity.
  - cbn [map]. constructor; [|exact IH']. unfold scalar. lia.
Qed.
Lemma split_first d cs x : ~ In d cs -> split_on d (cs ++ d :: x) = cs :: split_on d x.
Proof.
  induction cs as [|c cs IH]; intro N; cbn [app split_on].
  - rewrite N.eqb_refl. reflexivity.
  - destruct (N.eqb_spec c d); [exfalso; apply N; left; assumption|]. rewrite IH by (intro I; apply N; right; exact I). reflexivity.
Qed.
Lemma first_type s rest : ascii_text s -> ~ In (byte_of 44) s ->
  exists l, line_types f64_ok (s ++ b "," ++ rest) (byte_of 44) = guess_type f64_ok (trim (map of_byte s)) :: l.
Proof.
  intros A N. destruct (ascii_str s A) as [E Sc]. unfold line_types.
  replace (s ++ b "," ++ rest) with (str (map of_byte s) ++ b "," ++ rest) by (rewrite <- E; reflexivity). rewrite chars_str_app by exact Sc.
  assert (C : chars (b "," ++ rest) = 44%N :: chars rest).
  { change (b "," ++ rest) with (encode 44 ++ rest). apply chars_encode. unfold scalar. lia. }
  rewrite C. change (of_byte (byte_of 44)) with 44%N. rewrite split_first; [eexists; reflexivity|].
  intro I. apply in_map_iff in I. destruct I as (x & Ex & Ix). apply N. rewrite <- (byte_of_of x), Ex in Ix. exact Ix.
Qed.
Lemma digits_type n : (n < 2 ^ 63)%N -> guess_type f64_ok (trim (map of_byte (dec n))) = TLong.
Proof.
  intro L. pose proof (dec_digits n) as D.
  assert (T : trim (map of_byte (dec n)) = map of_byte (dec n)).
  { eapply stripped_unique; [apply trim_stripped|]. apply stripped_digits, Forall_map. eapply Forall_impl; [|exact D].
    unfold digit_byte, is_digit. cbn beta. intros; lia. }
  rewrite T. unfold guess_type.
  assert (P : parse_i64 (map of_byte (dec n)) = Some (Z.of_N n)).
  { apply parse_i64_spec. split; [|lia]. exists (map of_byte (dec n)), n. split; [|left; auto].
    rewrite <- (chars_digits _ D). apply dec_numeral. }
  rewrite P. reflexivity.
Qed.
Lemma name_type u : f64_ok (chars (co_time_name (epoch_output u))) = false ->
  guess_type f64_ok (trim (map of_byte (co_time_name (epoch_output u)))) = TString.
Proof.
  intro F. assert (T : trim (map of_byte (co_time_name (epoch_output u))) = chars (co_time_name (epoch_output u)) /\
     parse_i64 (chars (co_time_name (epoch_output u))) = None) by (destruct u; split; vm_compute; reflexivity).
  destruct T as [T1 T2]. unfold guess_type. rewrite T1, T2, F. reflexivity.
Qed.
Lemma occurs_bytes x s : occurs (of_byte x) (map of_byte s) = count_occ Ascii.ascii_dec s x.
Proof.
  unfold occurs. induction s as [|c s IH]; [reflexivity|]. cbn [map count_occ].
  destruct (Ascii.ascii_dec c x) as [->|N].
  - destruct (N.eq_dec (of_byte x) (of_byte x)); [|congruence]. rewrite IH. reflexivity.
  - destruct (N.eq_dec (of_byte c) (of_byte x)) as [E|]; [|exact IH].
    exfalso. apply N. rewrite <- (byte_of_of c), E. apply byte_of_of.
Qed.
Lemma join_count x d c l : count_occ Ascii.ascii_dec (join [d] (c :: l)) x =
  count_occ Ascii.ascii_dec (concat (c :: l)) x + (if Ascii.ascii_dec d x then length l else 0).
Proof.
  cbn [join concat]. rewrite !count_occ_app, <- Nat.add_assoc. f_equal.
  induction l as [|y l IH]; [destruct (Ascii.ascii_dec d x); reflexivity|]. cbn [flat_map concat length]. rewrite !count_occ_app, IH.
  cbn [count_occ]. destruct (Ascii.ascii_dec d x); lia.
Qed.
Lemma ascii_join l : Forall ascii_text l -> ascii_text (join [byte_of 44] l).
Proof.
  unfold ascii_text. intro F. destruct F as [|c l Hc F]; [constructor|]. cbn [join]. apply Forall_app. split; [exact Hc|].
  induction F as [|y l Hy F IH]; [constructor|]. cbn [flat_map app]. constructor; [reflexivity|]. apply Forall_app. auto.
Qed.
Lemma first_wins (f : byte -> nat) x y z pre d post : [x; y; z] = pre ++ d :: post ->
  Forall (fun p => f p < f d) pre -> f y <= f x -> f z <= f x -> d = x.
Proof.
  intros E F A B. destruct pre as [|p1 [|p2 [|p3 pre]]]; cbn [app] in E; injection E; intros; subst; trivial.
  - apply Forall_inv in F. lia.
  - apply Forall_inv in F. lia.
  - destruct pre; discriminate.
Qed.
Lemma cut_unique (c : byte) x y p q : ~ In c x -> ~ In c y -> x ++ [c] ++ p = y ++ [c] ++ q -> x = y /\ p = q.
Proof.
  revert y. induction x as [|a x IH]; intros [|a' y] Hx Hy E; cbn [app] in E.
  - injection E as E. auto.
  - exfalso. injection E as E1 E2. apply Hy. left. auto.
  - exfalso. injection E as E1 E2. apply Hx. left. auto.
  - injection E as -> E. destruct (IH y) as [-> ->]; [intro I; apply Hx; right; exact I|intro I; apply Hy; right; exact I|exact E|]. auto.
Qed.
(** The comma is guessed from the header line. *)
Lemma comma_guessed c l : Forall ascii_text (c :: l) -> Forall (fun n => ~ In (byte_of 44) n) (c :: l) ->
  count_occ Ascii.ascii_dec (concat (c :: l)) (byte_of 9) <= length l ->
  count_occ Ascii.ascii_dec (concat (c :: l)) (byte_of 32) <= length l ->
  guess_delimiter (join [byte_of 44] (c :: l)) [byte_of 44; byte_of 9; byte_of 32] = Ok (byte_of 44).
Proof.
  intros A N C1 C2. pose proof (ascii_join _ A) as Aj. destruct (ascii_str _ Aj) as [E Sc].
  destruct (T_CsvUtil.C39_most_frequent_partial (map of_byte (join [byte_of 44] (c :: l))) [byte_of 44; byte_of 9; byte_of 32])
    as (d & G & pre & post & Ep & F1 & F2); [exact Sc|discriminate| |].
  { intros c' x Hc _ M. apply in_map_iff in Hc. destruct Hc as (y & <- & _). rewrite N.mod_small in M by apply of_byte_lt. exact M. }
  rewrite E. rewrite G. f_equal.
  assert (O : forall x, occurs (of_byte x) (map of_byte (join [byte_of 44] (c :: l))) =
    count_occ Ascii.ascii_dec (concat (c :: l)) x + (if Ascii.ascii_dec (byte_of 44) x then length l else 0)).
  { intro x. rewrite occurs_bytes. apply join_count. }
  assert (Z : count_occ Ascii.ascii_dec (concat (c :: l)) (byte_of 44) = 0).
  { apply count_occ_not_In. intro I. apply in_concat in I. destruct I as (n & In_ & Ib). rewrite Forall_forall in N. exact (N n In_ Ib). }
  pose proof (O (byte_of 44)) as O1. pose proof (O (byte_of 9)) as O2. pose proof (O (byte_of 32)) as O3.
  destruct (Ascii.ascii_dec (byte_of 44) (byte_of 44)) as [_|X]; [|congruence].
  destruct (Ascii.ascii_dec (byte_of 44) (byte_of 9)) as [X|_]; [discriminate X|].
  destruct (Ascii.ascii_dec (byte_of 44) (byte_of 32)) as [X|_]; [discriminate X|].
  eapply (first_wins (fun x => occurs (of_byte x) (map of_byte (join [byte_of 44] (c :: l))))); [exact Ep|exact F1|..]; cbv beta; lia.
Qed.

(** ** C95 *)
(** What holds: if no column has a name that speaks of times, names are plain ASCII without too
    many blanks, and the first time is one of the years 1990 to 2033, then the output of the
    program, opened without any option, is the same rows (texts; times rounded down to the
    unit). *)
Theorem C95_default_partial u z h evs r0 rows cols : lowers_names lower ->
  let cfg := epoch_output u in
  ev_rows evs = r0 :: rows -> h_names h <> [] ->
  Forall (plain (byte_of 44)) (h_names h) -> Forall ascii_text (h_names h) ->
  count_occ Ascii.ascii_dec (concat (h_names h)) (byte_of 9) <= length (h_names h) ->
  count_occ Ascii.ascii_dec (concat (h_names h)) (byte_of 32) <= length (h_names h) ->
  (forall n k, In n (h_names h) -> ~ says (lower n) k) ->
  Forall2 (row_columns f64 f32 cfg) (r0 :: rows) cols -> Forall (Forall (plain (byte_of 44))) cols ->
  Forall (fun r => length (vals r) = length (h_names h) /\ (ts r < 2 ^ 64)%N) (r0 :: rows) ->
  plausible u (ts r0 / nanos_per u) -> no_date ch (dec (ts r0 / nanos_per u)) ->
  f64_ok (chars (co_time_name cfg)) = false ->
  forall line1 line2 rest more, csv_file f64 f32 cfg h evs = line1 ++ [byte_of 10] ++ line2 ++ [byte_of 10] ++ rest ->
  ~ In (byte_of 10) line1 -> ~ In (byte_of 10) line2 ->
  exists s times,
    csv_new prof ch lower f64_ok csv_records (automatic z) (Some (line1 :: line2 :: more)) (file (csv_file f64 f32 cfg h evs)) = Ok s /\
    h_names (cs_header s) = co_time_name cfg :: h_names h /\
    csv_rows prof ch s = map (fun p => Ok (row_of (fst p) (snd p))) (combine cols times) /\
    Forall2 (fun r t => largest_multiple (nanos_per u) (ts r) t) (r0 :: rows) times /\
    (u = Nanos -> times = map ts (r0 :: rows)).
Proof.
  intros Lw cfg Er Nn Ph Pa C9 C32 Sy F Pc W Pl Nd Ff line1 line2 rest more Ef Nl1 Nl2.
  inversion F as [|? c0 ? cols' Hc0 F']; subst. set (cols := cols') in *. clearbody cols. clear cols'.
  set (tn := co_time_name cfg) in *.
  assert (Hct : header_columns cfg h = tn :: h_names h) by reflexivity.
  assert (Efile : csv_file f64 f32 cfg h evs = concat (map (fun c => join [byte_of 44] c ++ [byte_of 10]) ((tn :: h_names h) :: c0 :: cols))).
  { unfold csv_file. rewrite (T_CsvOut.header_line _ _ Nn), (T_CsvOut.rows_bytes_spec f64 f32 cfg evs (c0 :: cols)); [reflexivity|].
    rewrite Er. exact F. }
  assert (Tn : plain (byte_of 44) tn /\ ascii_text tn).
  { split; [apply T_CsvOut.plain_word; unfold tn, cfg; destruct u; vm_compute; reflexivity|].
    unfold ascii_text. apply Forall_forall. intros c Hc.
    assert (X : forallb (fun c => (of_byte c <? 128)%N) tn = true) by (unfold tn, cfg; destruct u; vm_compute; reflexivity).
    rewrite forallb_forall in X. specialize (X c Hc). lia. }
  destruct Tn as [Tp Ta].
  assert (Join10 : forall l, Forall (plain (byte_of 44)) l -> ~ In (byte_of 10) (join [byte_of 44] l)).
  { intros l Hl I. destruct Hl as [|c l (_ & _ & Hc & _) Hl]; [destruct I|]. cbn [join] in I. apply in_app_or in I. destruct I as [I|I]; [exact (Hc I)|].
    apply in_flat_map in I. destruct I as (x & Ix & [E|I]); [discriminate E|]. rewrite Forall_forall in Hl. destruct (Hl x Ix) as (_ & _ & X & _). exact (X I). }
  assert (Cut : forall x y p q : bytes, ~ In (byte_of 10) x -> ~ In (byte_of 10) y -> x ++ [byte_of 10] ++ p = y ++ [byte_of 10] ++ q -> x = y /\ p = q).
  { intros x y p q. apply cut_unique. }
  inversion Pc as [|? ? Pc0 Pc']; subst.
  assert (L12 : line1 = join [byte_of 44] (tn :: h_names h) /\ line2 = join [byte_of 44] c0).
  { rewrite Efile in Ef. cbn [map concat] in Ef. rewrite <- !app_assoc in Ef. apply Cut in Ef; [|apply Join10; constructor; assumption|exact Nl1].
    destruct Ef as [E1 Ef]. apply Cut in Ef; [|apply Join10; exact Pc0|exact Nl2]. destruct Ef as [E2 _]. auto. }
  destruct L12 as [-> ->].
  assert (Wc : Forall (fun c => length c = S (length (h_names h))) (c0 :: cols)).
  { clear - F W. set (rs := r0 :: rows) in *. clearbody rs. set (cs := c0 :: cols) in *. clearbody cs.
    induction F as [|r c rs cs Hr F IH]; constructor; inversion W as [|? ? [Wr _] W']; subst; [|auto].
    destruct Hr as (texts & V & H). cbn [co_print_time cfg epoch_output csv_output_new] in H. destruct H as (t & _ & ->).
    cbn. rewrite <- Wr, (GraphProps.Forall2_len _ _ _ V). reflexivity. }
  assert (C0 : exists texts, c0 = dec (ts r0 / nanos_per u) :: texts /\ texts <> []).
  { destruct Hc0 as (texts & V & H). cbn [co_print_time cfg epoch_output csv_output_new] in H. destruct H as (t & Ht & ->).
    exists texts. split.
    - destruct Ht as [_|show X _]; [reflexivity|discriminate X].
    - apply Forall_inv in Wc. cbn in Wc. intros ->. destruct (h_names h); [congruence|discriminate Wc]. }
  destruct C0 as (texts0 & E0 & Nt0).
  assert (B63 : (ts r0 / nanos_per u < 2 ^ 63)%N).
  { unfold plausible in Pl. destruct u; cbn [per_second] in Pl; lia. }
  assert (Dl : delimiter_used (automatic z) (Some (join [byte_of 44] (tn :: h_names h) :: join [byte_of 44] c0 :: more)) (byte_of 44)).
  { unfold delimiter_used, automatic. cbn [ci_delimiter]. 
    assert (Z9 : count_occ Ascii.ascii_dec tn (byte_of 9) = 0 /\ count_occ Ascii.ascii_dec tn (byte_of 32) = 0)
      by (unfold tn, cfg; destruct u; split; vm_compute; reflexivity).
    apply comma_guessed.
    - constructor; assumption.
    - constructor; [destruct Tp; assumption|]. eapply Forall_impl; [|exact Ph]. intros n (X & _). exact X.
    - cbn [concat]. rewrite count_occ_app, (proj1 Z9). exact C9.
    - cbn [concat]. rewrite count_occ_app, (proj2 Z9). exact C32. }
  assert (Hd : has_header_used f64_ok (automatic z) (Some (join [byte_of 44] (tn :: h_names h) :: join [byte_of 44] c0 :: more)) (byte_of 44) = true).
  { unfold has_header_used, automatic. cbn [ci_has_header]. unfold guess_has_header. apply Bool.negb_true_iff.
    destruct (list_eqb _ _ _) eqn:X; [|reflexivity]. apply list_eqb_ftype in X.
    destruct (h_names h) as [|n ns]; [congruence|]. destruct texts0 as [|x texts0]; [congruence|]. subst c0. cbn [join flat_map] in X. rewrite <- !app_assoc in X.
    destruct (first_type tn (n ++ flat_map (fun x => [byte_of 44] ++ x) ns) Ta ltac:(destruct Tp; assumption)) as (l1 & T1).
    assert (Dp : plain (byte_of 44) (dec (ts r0 / nanos_per u))) by (apply dec_plain; unfold digit_byte; vm_compute; intuition congruence).
    assert (Da : ascii_text (dec (ts r0 / nanos_per u))).
    { unfold ascii_text. eapply Forall_impl; [|apply dec_digits]. unfold digit_byte. cbn beta. intros; lia. }
    destruct (first_type (dec (ts r0 / nanos_per u)) (x ++ flat_map (fun x => [byte_of 44] ++ x) texts0) Da ltac:(destruct Dp; assumption)) as (l2 & T2).
    change [byte_of 44] with (b ",") in X at 1. change (b "," ++ n ++ flat_map (fun x => [byte_of 44] ++ x) ns) with ([byte_of 44] ++ n ++ flat_map (fun x => [byte_of 44] ++ x) ns) in *.
    change (b "," ++ x ++ flat_map (fun x => [byte_of 44] ++ x) texts0) with ([byte_of 44] ++ x ++ flat_map (fun x => [byte_of 44] ++ x) texts0) in *.
    rewrite T1, T2 in X. rewrite digits_type in X by exact B63. unfold tn, cfg in X. rewrite name_type in X by exact Ff. discriminate X. }
  assert (T : exists t0 times, Forall2 (fun c t => get_timestamp prof ch c (ColIndex 0) (FUnits u) z = Ok t) (c0 :: cols) (t0 :: times) /\
     Forall2 (fun r t => largest_multiple (nanos_per u) (ts r) t) (r0 :: rows) (t0 :: times) /\ (u = Nanos -> t0 :: times = map ts (r0 :: rows))).
  { assert (T : exists times, Forall2 (fun c t => get_timestamp prof ch c (ColIndex 0) (FUnits u) z = Ok t) (c0 :: cols) times /\
     Forall2 (fun r t => largest_multiple (nanos_per u) (ts r) t) (r0 :: rows) times /\ (u = Nanos -> times = map ts (r0 :: rows))).
    { clear - F W. set (rs := r0 :: rows) in *. clearbody rs. set (cs := c0 :: cols) in *. clearbody cs.
      induction F as [|r c rs cs Hr F IH].
      - exists []. split; [constructor|]. split; [constructor|reflexivity].
      - inversion W as [|? ? [Wr Wt] W']; subst. destruct (IH W') as (times & T1 & T2 & T3).
        destruct (T_CsvOut.epoch_floor f64 f32 cfg r c eq_refl eq_refl Hr Wt) as (t & texts & q & -> & _ & _ & G).
        destruct (G prof ch (t :: texts) 0 z eq_refl) as (m & Gm & Lm & Nm).
        exists (m :: times). split; [constructor; [exact Gm|exact T1]|]. split; [constructor; [exact Lm|exact T2]|].
        intro U. cbn [map]. rewrite (Nm U), (T3 U). reflexivity. }
    destruct T as ([|t0 times] & T1 & T2 & T3); [inversion T1|]. eauto. }
  destruct T as (t0 & times & T1 & T2 & T3).
  destruct (open_lines (automatic z) (Some (join [byte_of 44] (tn :: h_names h) :: join [byte_of 44] c0 :: more)) (byte_of 44) (tn :: h_names h) c0 cols (ColIndex 0) (FUnits u) t0 times) as (s & Es & Eh & _ & _ & Ers); trivial.
  - split; [discriminate|reflexivity].
  - discriminate.
  - destruct (h_names h); [congruence|discriminate].
  - constructor; [constructor; assumption|assumption].
  - eapply Forall_impl; [|exact Wc]. cbn beta. intros c Hc. split; intros ->; cbn in Hc; [discriminate|]. destruct (h_names h); [congruence|discriminate].
  - intros c c' Hc Hc'. rewrite Forall_forall in Wc. rewrite (Wc c Hc), (Wc c' Hc'). reflexivity.
  - unfold get_col_and_fmt, automatic. cbn [ci_col ci_fmt ci_tz].
    assert (Ck : get_timestamp_col lower {| h_names := tn :: h_names h; h_types := repeat TString (length c0) |} CfgAuto = Ok (ColIndex 0, None)).
    { apply T_Timestamp.C42_time_column. cbn [h_names map].
      assert (A : forall class, absent (lower tn :: map lower (h_names h)) class).
      { intros class n k [<-|I] Sn.
        - unfold tn, cfg in Sn. rewrite lower_time_name in Sn by exact Lw. destruct (time_name_says _ _ Sn).
        - apply in_map_iff in I. destruct I as (n' & <- & I). destruct (Sy n' k I Sn). }
      apply chosen_nothing; apply A. }
    rewrite Ck. cbn [bind fmt_auto].
    assert (Fm : fmt_auto_index ch 0 z c0 None = Ok (FUnits u)).
    { apply (T_Timestamp.C43_detected_unit ch 0 z c0 (dec (ts r0 / nanos_per u)) (ts r0 / nanos_per u)%N); trivial.
      - rewrite E0. reflexivity.
      - apply dec_digits.
      - apply dec_numeral. }
    rewrite Fm. reflexivity.
  - exists s, (t0 :: times). rewrite Efile. split; [exact Es|]. split; [rewrite Eh; reflexivity|]. split; [exact Ers|]. auto.
Qed.
End Auto.
Print Assumptions C95_default_partial.

(** The program violates the property: the name it gives to its own time column is not one it
    recognises, so any other column whose name speaks of times is taken instead. *)
Theorem C95_other_column_refuted : forall prof ch lower f64_ok split (cfg : csv_input ch) lines data s u names n k,
  lowers_names lower -> ci_col cfg = CfgAuto ->
  csv_new prof ch lower f64_ok split cfg lines data = Ok s ->
  h_names (cs_header s) = co_time_name (epoch_output u) :: names ->
  In n names -> says (lower n) k ->
  match cs_col s with ColIndex i => i <> 0 | ColDateTime d t => d <> 0 /\ t <> 0 end.
Proof.
  intros prof ch lower f64_ok split cfg lines data s u names n k Lw Ca H Hn In_ Sn.
  destruct (csv_new_spec _ _ _ _ _ _ _ _ _ H) as (d' & pre' & first & rest & _ & _ & _ & (r & _ & _ & _ & _ & Hc & _) & _).
  unfold get_col_and_fmt in Hc. rewrite Ca in Hc.
  destruct (get_timestamp_col lower (cs_header s) CfgAuto) as [[col hint]| | | |] eqn:Ec; try discriminate. cbn [bind] in Hc.
  match type of Hc with (let* _ := ?x in _) = _ => destruct x as [fmt| | | |]; try discriminate end. cbn [bind] in Hc.
  injection Hc as <- _. apply T_Timestamp.C42_time_column in Ec. rewrite Hn in Ec. cbn [map] in Ec.
  rewrite lower_time_name in Ec by exact Lw.
  set (all := (b "timestamp" ++ unit_name u) :: map lower names) in *.
  assert (L : forall class i k', leftmost all class i k' -> i <> 0).
  { intros class i k' ((m & Hm & Sm) & _) ->. cbn in Hm. injection Hm as <-. exact (time_name_says _ _ Sm). }
  assert (I : In (lower n) all) by (right; apply in_map, In_).
  inversion Ec; subst; first [split; eapply L; eassumption | eapply L; eassumption | exfalso].
  destruct k; match goal with A : absent all ?c |- _ => solve [apply (A _ _ I Sn); repeat eexists] end.
Qed.
Print Assumptions C95_other_column_refuted.
(** And a file whose first time is not in the years 1990 to 2033 cannot be opened. *)
Theorem C95_first_time_refuted : forall f64 f32 prof ch lower f64_ok (icfg : csv_input ch) lines u h evs r0 rows cols,
  lowers_names lower -> let cfg := epoch_output u in
  ci_delimiter icfg = Some (byte_of 44) -> ci_has_header icfg = Yes -> ci_col icfg = CfgAuto -> ci_fmt icfg = FmtAuto ->
  ev_rows evs = r0 :: rows -> h_names h <> [] -> Forall (plain (byte_of 44)) (h_names h) ->
  (forall n k, In n (h_names h) -> ~ says (lower n) k) ->
  Forall2 (row_columns f64 f32 cfg) (r0 :: rows) cols -> Forall (Forall (plain (byte_of 44))) cols ->
  Forall (fun r => length (vals r) = length (h_names h)) (r0 :: rows) ->
  (forall v, ~ plausible v (ts r0 / nanos_per u)) -> no_date ch (dec (ts r0 / nanos_per u)) ->
  forall s, csv_new prof ch lower f64_ok csv_records icfg lines (file (csv_file f64 f32 cfg h evs)) <> Ok s.
Proof.
  intros f64 f32 prof ch lower f64_ok icfg lines u h evs r0 rows cols Lw cfg Id Ih Ic If Er Nn Ph Sy F Pc W Pl Nd s H.
  inversion F as [|? c0 ? cols' Hc0 F']; subst. set (tn := co_time_name cfg) in *.
  assert (Tp : plain (byte_of 44) tn) by (apply T_CsvOut.plain_word; unfold tn, cfg; destruct u; vm_compute; reflexivity).
  assert (Efile : csv_file f64 f32 cfg h evs = concat (map (fun c => join [byte_of 44] c ++ [byte_of 10]) ((tn :: h_names h) :: c0 :: cols'))).
  { unfold csv_file. rewrite (T_CsvOut.header_line _ _ Nn), (T_CsvOut.rows_bytes_spec f64 f32 cfg evs (c0 :: cols')); [reflexivity|].
    rewrite Er. exact F. }
  assert (Wc : Forall (fun c => length c = S (length (h_names h))) (c0 :: cols')).
  { clear - F W. set (rs := r0 :: rows) in *. clearbody rs. set (cs := c0 :: cols') in *. clearbody cs.
    induction F as [|r c rs cs Hr F IH]; constructor; inversion W as [|? ? Wr W']; subst; [|auto].
    destruct Hr as (texts & V & H). cbn [co_print_time cfg epoch_output csv_output_new] in H. destruct H as (t & _ & ->).
    cbn. rewrite <- Wr, (GraphProps.Forall2_len _ _ _ V). reflexivity. }
  assert (R : csv_records (byte_of 44) (file (csv_file f64 f32 cfg h evs)) = map Ok ((tn :: h_names h) :: c0 :: cols')).
  { rewrite Efile. unfold csv_records, file. cbn [s_data s_tail]. unfold strip_bom.
    assert (Bom : starts_with [byte_of 0xEF; byte_of 0xBB; byte_of 0xBF] (concat (map (fun c => join [byte_of 44] c ++ [byte_of 10]) ((tn :: h_names h) :: c0 :: cols'))) = false)
      by reflexivity.
    rewrite Bom. rewrite parse_lines; [apply app_nil_r|split; [discriminate|reflexivity]|]. apply Forall_forall. intros c Hc. split.
    - assert (P : Forall (Forall (plain (byte_of 44))) ((tn :: h_names h) :: c0 :: cols')) by (constructor; [constructor; assumption|assumption]).
      rewrite Forall_forall in P. specialize (P c Hc). eapply Forall_impl; [|exact P]. intros a Ha. now apply plain_unquoted.
    - assert (Lc : length c = S (length (h_names h))).
      { destruct Hc as [<-|Hc]; [reflexivity|]. rewrite Forall_forall in Wc. now apply Wc. }
      destruct (h_names h) as [|n ns]; [congruence|]. cbn in Lc. split; intros ->; cbn in Lc; discriminate Lc. }
  destruct (csv_new_spec _ _ _ _ _ _ _ _ _ H) as (d' & pre' & first & rest & Hd' & Hs' & Hp' & (r & Hr & _ & _ & _ & Hc & _) & _).
  unfold delimiter_used in Hd'. rewrite Id in Hd'. subst d'. rewrite R in Hs'.
  unfold has_header_used in Hp'. rewrite Ih in Hp'.
  destruct pre' as [|h1 [|? ?]]; [discriminate Hp'| |destruct Hp']. destruct Hp' as [_ Hh]. cbn [map app] in Hs'.
  assert (E1 : h1 = Ok (tn :: h_names h) /\ first = Ok c0) by (split; congruence). destruct E1 as [-> ->].
  assert (Nm : h_names (cs_header s) = tn :: h_names h).
  { eapply T_Csv.decodes_det; [exact Hh|]. eapply plain_decodes. constructor; [exact Tp|exact Ph]. }
  assert (Er0 : r = c0).
  { eapply T_Csv.decodes_det; [exact Hr|]. inversion Pc; subst. eapply plain_decodes. eassumption. }
  subst r. unfold get_col_and_fmt in Hc. rewrite Ic, If in Hc.
  assert (Ck : get_timestamp_col lower (cs_header s) CfgAuto = Ok (ColIndex 0, None)).
  { apply T_Timestamp.C42_time_column. rewrite Nm. cbn [map].
    assert (A : forall class, absent (lower tn :: map lower (h_names h)) class).
    { intros class n k [<-|I] Sn.
      - unfold tn, cfg in Sn. rewrite lower_time_name in Sn by exact Lw. destruct (time_name_says _ _ Sn).
      - apply in_map_iff in I. destruct I as (n' & <- & I). destruct (Sy n' k I Sn). }
    apply chosen_nothing; apply A. }
  rewrite Ck in Hc. cbn [bind fmt_auto] in Hc.
  destruct Hc0 as (texts & V & Ht). cbn [co_print_time cfg epoch_output csv_output_new] in Ht. destruct Ht as (t & Ht & ->).
  assert (Et : t = dec (ts r0 / nanos_per u)) by (destruct Ht as [_|show X _]; [reflexivity|discriminate X]). subst t.
  destruct (T_Timestamp.C43_detected_unit ch 0 (ci_tz icfg) (dec (ts r0 / nanos_per u) :: texts) (dec (ts r0 / nanos_per u)) (ts r0 / nanos_per u)%N
    eq_refl (dec_digits _) (dec_numeral _) Nd) as [_ [(v & X)|(e & X)]]; [exact (Pl v X)|]. rewrite X in Hc. discriminate Hc.
Qed.
Print Assumptions C95_first_time_refuted.

(** ** Cases *)
Definition low (s : bytes) : bytes := map (fun c => let n := of_byte c in if ((65 <=? n) && (n <=? 90))%N then byte_of (n + 32) else c) s.
Example lowers_ex : lowers_names low.
Proof. repeat split; vm_compute; reflexivity. Qed.
Definition day : N := 1546300800000000000%N.
Definition out_ex (names : list bytes) (t : N) : bytes :=
  csv_file T_CsvOut.fl T_CsvOut.fl (epoch_output Millis) {| h_names := names; h_types := [TString; TInt] |}
    [EvRow (T_CsvOut.rx t "x y" (-7)); EvRow (T_CsvOut.rx (t + 1500000)%N "z" 3)].
Definition read_ex (names : list bytes) (t : N) : res (list (res row)) :=
  let data := out_ex names t in
  let l1 := b "timestampMillis," ++ join (b ",") names in
  let l2 := dec (t / 1000000) ++ b ",x y,-7" in
  let* s := csv_new Debug T_CsvOut.nochrono low (fun _ => false) csv_records (automatic None) (Some [l1; l2]) (file data) in
  Ok (csv_rows Debug T_CsvOut.nochrono s).
(** Read back; with a column called Date, and with times in 1970, not. *)
Example C95_nonvacuous :
  read_ex [b "a"; b "n"] day = Ok [Ok (row_of [b "1546300800000"; b "x y"; b "-7"] day);
                                   Ok (row_of [b "1546300800001"; b "z"; b "3"] (day + 1000000)%N)] /\
  (exists e, read_ex [b "a"; b "Date"] day = Err e) /\ (exists e, read_ex [b "a"; b "n"] 1000%N = Err e).
Proof. split; [vm_compute; reflexivity|]. split; eexists; vm_compute; reflexivity. Qed.
Example C95_says : says (low (b "Date")) Date /\ (forall k, ~ says (low (b "a")) k) /\ plausible Millis (day / nanos_per Millis) /\
  forall v, ~ plausible v (1000 / nanos_per Millis).
Proof.
  split; [exact says_date|]. split; [|split; [unfold plausible, day; cbn [per_second nanos_per]; lia|]].
  - intros k H. change (low (b "a")) with (b "a") in H. inversion H as [u E|E|E|p u Np _ E|p Np _ E|p Np _ E];
      try (destruct u); try discriminate E; destruct p as [|? [|? ?]]; try congruence; discriminate E.
  - intros v. unfold plausible. change (1000 / nanos_per Millis)%N with 0%N. destruct v; cbn [per_second]; lia.
Qed.

(** C122: the program's human-readable CSV output, opened with everything detected automatically. *)
From Verif Require Import CsvQuoteSpec CsvProofs CsvProofs2 CsvUtilProofs TimestampProofs BytesProofs DcSpec DriverSpec.
From Verif Require Import T_CsvAuto DateTextSpec T_Time T_DateText T_Shown.
From Verif Require Import NewYork.
From Verif Require T_Csv T_CsvOut T_CsvUtil T_Timestamp GraphProps.
Local Open Scope nat_scope.

(** What [to_lowercase] does with ASCII texts. *)
Definition lowers_ascii (lower : bytes -> bytes) : Prop := forall s, ascii_text s -> lower s = low s.
(** The program's settings with a time zone and no other option (but the unit): the time comes first, in a column
    called time, as a date and a clock time of the zone [z]. *)
Definition human_output (z : zone_table) (u : units) : csv_output :=
  csv_output_new (b ",") true None HumanReadable u (Some (fun f t => show_in z f (t / 1000000000)%N (t mod 1000000000)%N)).
(** Two lists of columns look alike: the same number of them, each pair both integers, both other numbers, or both
    not numbers. *)
Definition alike (f64_ok : text -> bool) (xs ys : list bytes) : Prop :=
  exists types, Forall2 (fun s => looks_like f64_ok (chars s)) xs types /\ Forall2 (fun s => looks_like f64_ok (chars s)) ys types.


(** ** Lines and their types *)
Local Notation line c := (join [byte_of 44] c).
Lemma line_str c l : Forall (fun s => exists cs, Forall scalar cs /\ s = str cs) (c :: l) ->
  exists fs, Forall2 (fun s f => f = chars s /\ Forall scalar f /\ s = str f) (c :: l) fs /\
    line (c :: l) = str (joined 44 fs) /\ Forall scalar (joined 44 fs).
Proof.
  intros F. assert (G : exists fs, Forall2 (fun s f => f = chars s /\ Forall scalar f /\ s = str f) (c :: l) fs).
  { induction F as [|s l' (cs & Sc & E) F IH]; [exists []; constructor|]. destruct IH as (fs & IH). exists (cs :: fs).
    constructor; [|exact IH]. split; [|auto]. subst s. symmetry. apply chars_str, Sc. }
  destruct G as (fs & G). exists fs. split; [exact G|]. inversion G as [|? f0 ? fs' (_ & S0 & E0) G']; subst.
  cbn [join joined]. clear G F. split.
  - unfold str. rewrite flat_map_app. f_equal. clear - G'.
    induction G' as [|s f l fs (_ & Sf & ->) G IH]; [reflexivity|]. cbn [flat_map]. rewrite IH, flat_map_app. cbn [flat_map].
    rewrite <- !app_assoc. reflexivity.
  - apply Forall_app. split; [exact S0|]. clear - G'. induction G' as [|s f l fs (_ & Sf & _) G IH]; [constructor|]. cbn [flat_map].
    constructor; [unfold scalar; lia|]. apply Forall_app. split; assumption.
Qed.

Lemma line_fields c l : Forall (plain (byte_of 44)) (c :: l) ->
  exists cs, line (c :: l) = str cs /\ Forall scalar cs /\ fields_of 44 cs (map chars (c :: l)).
Proof.
  intros P. assert (Q : Forall (fun s => exists cs, Forall scalar cs /\ s = str cs) (c :: l)).
  { eapply Forall_impl; [|exact P]. intros s (_ & _ & _ & _ & cs & Sc & E & _). eauto. }
  destruct (line_str c l Q) as (fs & F & E & Sc). exists (joined 44 fs). split; [exact E|]. split; [exact Sc|].
  assert (Efs : map chars (c :: l) = fs /\ Forall (fun f => ~ In 44%N f) fs).
  { clear - F P. set (cl := c :: l) in *. clearbody cl. induction F as [|s f cl fs (Ef & Sf & Es) F IH]; [split; constructor|].
    inversion P as [|? ? (Ps & _) P']; subst. destruct (IH P') as [I1 I2]. cbn [map]. rewrite I1. split; [reflexivity|].
    constructor; [|exact I2]. intros I. apply Ps. rewrite Es. unfold str. apply in_flat_map. exists 44%N. split; [exact I|]. left. reflexivity. }
  destruct Efs as [E1 E2]. rewrite E1. rewrite <- E1 in *. split; [discriminate|]. split; [exact E2|]. rewrite joined_enum. reflexivity.
Qed.
Lemma alike_map f64_ok xs ys : alike f64_ok xs ys <->
  exists types, Forall2 (looks_like f64_ok) (map chars xs) types /\ Forall2 (looks_like f64_ok) (map chars ys) types.
Proof.
  assert (M : forall xs types, Forall2 (fun s => looks_like f64_ok (chars s)) xs types <-> Forall2 (looks_like f64_ok) (map chars xs) types).
  { clear. induction xs as [|x xs IH]; intros types; cbn [map]; split; intros H; inversion H; subst; constructor; trivial; now apply IH. }
  unfold alike. split; intros (t & A & B); exists t; (split; apply M; assumption).
Qed.
(** A header is guessed exactly when the first two lines do not look alike. *)
Lemma header_guessed f64_ok c l c' l' : Forall (plain (byte_of 44)) (c :: l) -> Forall (plain (byte_of 44)) (c' :: l') ->
  guess_has_header f64_ok (Some (line (c :: l))) (Some (line (c' :: l'))) (byte_of 44) = false <-> alike f64_ok (c :: l) (c' :: l').
Proof.
  intros P P'. destruct (line_fields _ _ P) as (cs & -> & S & F). destruct (line_fields _ _ P') as (cs' & -> & S' & F').
  rewrite alike_map. apply (proj2 (proj2 (T_CsvUtil.C40_conservative f64_ok (byte_of 44))) cs cs' _ _ S S' F F').
Qed.
Lemma alike_tail f64_ok x y xs ys t : looks_like f64_ok (chars x) t -> looks_like f64_ok (chars y) t ->
  alike f64_ok (x :: xs) (y :: ys) <-> alike f64_ok xs ys.
Proof.
  intros Hx Hy. split.
  - intros (types & A & B). inversion A; subst. inversion B; subst. eexists. split; eassumption.
  - intros (types & A & B). exists (t :: types). split; constructor; assumption.
Qed.

(** ** The time column *)
Lemma numeral_digits s n : numeral s n -> Forall CsvUtilSpec.digit s.
Proof. induction 1; [constructor; [assumption|constructor]|]. apply Forall_app. split; [assumption|]. constructor; [assumption|constructor]. Qed.
Lemma colon_string f64_ok s : In 58%N s -> f64_ok s = false -> stripped s s -> looks_like f64_ok s TString.
Proof.
  intros I F St. exists s. split; [exact St|]. right. right. split; [|auto]. intros (z & (ds & n & N & H) & _).
  apply numeral_digits in N. rewrite Forall_forall in N.
  assert (X : In 58%N ds) by (destruct H as [[-> _]|[[-> _]|[-> _]]]; [exact I|destruct I as [I|I]; [discriminate I|exact I]..]).
  specialize (N _ X). unfold CsvUtilSpec.digit in N. lia.
Qed.
Lemma iso_colon s t : iso_text s t -> In (byte_of 58) s.
Proof.
  intros H. destruct H. do 4 (apply in_or_app; right). do 3 (apply in_or_app; right). apply in_or_app. left. left. reflexivity.
Qed.
Lemma colon_chars f s : s = str f -> Forall scalar f -> In (byte_of 58) s -> In 58%N f.
Proof.
  intros -> Sc I. unfold str in I. apply in_flat_map in I. destruct I as (c & Ic & I). rewrite Forall_forall in Sc. specialize (Sc c Ic).
  assert (E : c = 58%N); [|subst; exact Ic]. unfold encode in I.
  destruct (N.ltb_spec c 128).
  - destruct I as [I|[]]. apply (f_equal of_byte) in I. rewrite !of_byte_of in I by lia. exact I.
  - exfalso. destruct (N.ltb_spec c 0x800); [|destruct (N.ltb_spec c 0x10000)]; cbn [map In] in I;
      repeat match type of I with _ \/ _ => destruct I as [I|I] | False => destruct I end; apply (f_equal of_byte) in I;
      rewrite !of_byte_of in I by (unfold scalar in Sc; lia); lia.
Qed.

(** What follows holds of every text of a time in this output. *)
Lemma human_text z u r cols f64 f32 : row_columns f64 f32 (human_output z u) r cols ->
  exists texts, cols = show_in z (calendar_format u) (ts r / 1000000000)%N (ts r mod 1000000000)%N :: texts /\
    Forall2 (value_text f64 f32) (vals r) texts.
Proof.
  intros (texts & V & t & Ht & ->). exists texts. split; [|exact V]. f_equal. destruct Ht as [X|show _ E]; [discriminate X|].
  cbn [co_show human_output csv_output_new] in E. injection E as <-. reflexivity.
Qed.
Lemma human_rounded u t : largest_multiple (nanos_per u) t (t - t mod nanos_per u).
Proof.
  assert (P : (nanos_per u <> 0)%N) by (destruct u; discriminate).
  pose proof (N.div_mod t (nanos_per u) P) as D. rewrite N.mul_comm in D.
  assert (E : (t - t mod nanos_per u = t / nanos_per u * nanos_per u)%N).
  { assert (X : forall x m t, (t = x + m -> t - m = x)%N) by (intros x m t' ->; apply N.add_sub). exact (X _ _ _ D). }
  rewrite E. split; [|split].
  - exists (t / nanos_per u)%N. reflexivity.
  - rewrite <- E. apply rounded_le.
  - intros q Hq. apply (N.div_le_mono _ _ _ P) in Hq. rewrite N.div_mul in Hq by exact P. now apply N.mul_le_mono_r.
Qed.

Lemma time_ascii : ascii_text (b "time") /\ Forall ascii_text [b "time"].
Proof. assert (A : ascii_text (b "time")) by (unfold ascii_text; cbn; repeat (apply Forall_cons; [reflexivity|]); constructor). auto. Qed.
Lemma says_end n k : says n k -> exists q c, n = q ++ [c] /\ ~ digit_byte c.
Proof.
  assert (U : forall p u, exists q c, p ++ b "time" ++ unit_name u = q ++ [c] /\ ~ digit_byte c).
  { intros p u. exists (p ++ removelast (b "time" ++ unit_name u)), (byte_of 115). rewrite <- app_assoc. split; [f_equal; destruct u; reflexivity|]. now intros []. }
  assert (E : forall p w, exists q c, p ++ w ++ b "e" = q ++ [c] /\ ~ digit_byte c).
  { intros p w. exists (p ++ w), (byte_of 101). rewrite <- app_assoc. split; [reflexivity|]. now intros []. }
  intros []; [exact (U [] u)|exact (E [] (b "dat"))|exact (E [] (b "tim"))|exact (U p u)|exact (E p (b "dat"))|exact (E p (b "tim"))].
Qed.
Lemma col_says n k : ~ says (b "col_" ++ dec n) k.
Proof.
  intros H. destruct (says_end _ _ H) as (q & c & E & N). apply N.
  pose proof (dec_digits n) as D. assert (X : dec n <> []) by (pose proof (dec_numeral n) as Y; intros X; rewrite X in Y; apply numeral_head in Y; destruct Y as (? & ? & Y & _); discriminate Y).
  destruct (exists_last X) as (l & x & El). rewrite El, app_assoc in E. apply app_inj_tail in E. destruct E as [_ <-].
  rewrite El in D. apply Forall_app in D. exact (Forall_inv (proj2 D)).
Qed.
Lemma low_col n : low (b "col_" ++ dec n) = b "col_" ++ dec n /\ ascii_text (b "col_" ++ dec n).
Proof.
  pose proof (dec_digits n) as D. split.
  - unfold low. rewrite map_app. f_equal. rewrite <- (map_id (dec n)) at 2. apply map_ext_in. intros c Hc. rewrite Forall_forall in D. specialize (D c Hc).
    unfold digit_byte in D. cbn zeta. replace ((65 <=? of_byte c) && (of_byte c <=? 90))%N with false by lia. reflexivity.
  - unfold ascii_text. apply Forall_app. split; [cbn; repeat (apply Forall_cons; [reflexivity|]); constructor|].
    eapply Forall_impl; [|exact D]. unfold digit_byte. cbn beta. intros c Hc. lia.
Qed.
Section Human.
Context (f64 f32 : N -> bytes) (prof : profile) (o : foreign) (lower : bytes -> bytes) (f64_ok : text -> bool).

Local Notation cfg z u := (human_output z u).
(** The file this output writes, and what a reader of it sees: the header's line and the first row's. *)
Lemma human_lines z u h evs r0 rows cols line1 line2 rest :
  ev_rows evs = r0 :: rows -> h_names h <> [] -> Forall (plain (byte_of 44)) (h_names h) ->
  Forall2 (row_columns f64 f32 (cfg z u)) (r0 :: rows) cols -> Forall (Forall (plain (byte_of 44))) cols ->
  csv_file f64 f32 (cfg z u) h evs = line1 ++ [byte_of 10] ++ line2 ++ [byte_of 10] ++ rest ->
  ~ In (byte_of 10) line1 -> ~ In (byte_of 10) line2 ->
  exists c0 cols', cols = c0 :: cols' /\ line1 = line (b "time" :: h_names h) /\ line2 = line c0 /\
    csv_file f64 f32 (cfg z u) h evs = concat (map (fun c => line c ++ [byte_of 10]) ((b "time" :: h_names h) :: c0 :: cols')) /\
    Forall (plain (byte_of 44)) (b "time" :: h_names h).
Proof.
  intros Er Nn Ph F Pc Ef Nl1 Nl2. inversion F as [|? c0 ? cols' Hc0 F']; subst. exists c0, cols'. split; [reflexivity|].
  assert (Tp : plain (byte_of 44) (b "time")) by (apply T_CsvOut.plain_word; vm_compute; reflexivity).
  assert (Efile : csv_file f64 f32 (cfg z u) h evs = concat (map (fun c => line c ++ [byte_of 10]) ((b "time" :: h_names h) :: c0 :: cols'))).
  { unfold csv_file. rewrite (T_CsvOut.header_line _ _ Nn), (T_CsvOut.rows_bytes_spec f64 f32 (cfg z u) evs (c0 :: cols')); [reflexivity|].
    rewrite Er. exact F. }
  assert (Join10 : forall l, Forall (plain (byte_of 44)) l -> ~ In (byte_of 10) (line l)).
  { intros l Hl I. destruct Hl as [|c l (_ & _ & Hc & _) Hl]; [destruct I|]. cbn [join] in I. apply in_app_or in I. destruct I as [I|I]; [exact (Hc I)|].
    apply in_flat_map in I. destruct I as (x & Ix & [E|I]); [discriminate E|]. rewrite Forall_forall in Hl. destruct (Hl x Ix) as (_ & _ & X & _). exact (X I). }
  inversion Pc as [|? ? Pc0 Pc']; subst.
  assert (L12 : line1 = line (b "time" :: h_names h) /\ line2 = line c0).
  { rewrite Efile in Ef. cbn [map concat] in Ef. rewrite <- !app_assoc in Ef. apply cut_unique in Ef; [|apply Join10; constructor; assumption|exact Nl1].
    destruct Ef as [E1 Ef]. apply cut_unique in Ef; [|apply Join10; exact Pc0|exact Nl2]. destruct Ef as [E2 _]. auto. }
  destruct L12 as [-> ->]. repeat split; trivial. constructor; assumption.
Qed.
Lemma human_width z u h rs cs : Forall2 (row_columns f64 f32 (cfg z u)) rs cs -> Forall (fun r => length (vals r) = length (h_names h)) rs ->
  Forall (fun c => length c = S (length (h_names h))) cs.
Proof.
  intros F W. induction F as [|r c rs cs Hr F IH]; constructor; inversion W as [|? ? Wr W']; subst; [|auto].
  destruct (human_text _ _ _ _ _ _ Hr) as (texts & -> & V). cbn. rewrite <- Wr, (GraphProps.Forall2_len _ _ _ V). reflexivity.
Qed.
Lemma human_alike z u h r0 c0 texts : row_columns f64 f32 (cfg z u) r0 c0 -> c0 = show_in z (calendar_format u) (ts r0 / 1000000000)%N (ts r0 mod 1000000000)%N :: texts ->
  Forall (plain (byte_of 44)) c0 -> (ts r0 < 2 ^ 64)%N -> whole_minutes z (Z.of_N (ts r0 / 1000000000)) ->
  (forall t, In 58%N t -> f64_ok t = false) -> f64_ok (chars (b "time")) = false ->
  alike f64_ok (b "time" :: h_names h) c0 <-> alike f64_ok (h_names h) texts.
Proof.
  intros _ E P Ht W Fc Fn. subst c0. apply alike_tail with (t := TString).
  - assert (L : looks_like f64_ok (chars (b "time")) (guess_type f64_ok (trim (chars (b "time"))))) by apply guess_type_looks.
    assert (T : trim (chars (b "time")) = chars (b "time") /\ parse_i64 (chars (b "time")) = None) by (split; vm_compute; reflexivity).
    unfold guess_type in L. rewrite (proj1 T), (proj2 T), Fn in L. exact L.
  - inversion P as [|? ? (_ & _ & _ & _ & cs & Sc & Es & St) _]; subst. rewrite Es, chars_str by exact Sc.
    assert (I : In 58%N cs) by (eapply colon_chars; [exact Es|exact Sc|]; eapply iso_colon, shown_iso; assumption).
    apply colon_string; [exact I|apply Fc, I|exact St].
Qed.

(** ** C122 *)
(** What holds: the output is the same rows again (texts; times rounded down to the unit), if the names and the
    values of the first row do not look alike, no column is called date or time with a unit, the names are ASCII
    without too many blanks, and the times are before 2262. *)
Theorem C122_default_partial : forall z z' u h evs r0 rows t0 texts cols, lowers_ascii lower ->
  (forall t, In 58%N t -> f64_ok t = false) -> f64_ok (chars (b "time")) = false ->
  ev_rows evs = r0 :: rows -> h_names h <> [] ->
  Forall (plain (byte_of 44)) (h_names h) -> Forall ascii_text (h_names h) ->
  count_occ Ascii.ascii_dec (concat (h_names h)) (byte_of 9) <= length (h_names h) ->
  count_occ Ascii.ascii_dec (concat (h_names h)) (byte_of 32) <= length (h_names h) ->
  (forall n, In n (h_names h) -> low n <> b "date" /\ forall v, low n <> b "time" ++ unit_name v) ->
  Forall2 (row_columns f64 f32 (human_output z u)) (r0 :: rows) ((t0 :: texts) :: cols) -> Forall (Forall (plain (byte_of 44))) ((t0 :: texts) :: cols) ->
  Forall (fun r => length (vals r) = length (h_names h) /\ (ts r < 2 ^ 63)%N /\ whole_minutes z (Z.of_N (ts r / 1000000000))) (r0 :: rows) ->
  ~ alike f64_ok (h_names h) texts ->
  forall line1 line2 rest more, csv_file f64 f32 (human_output z u) h evs = line1 ++ [byte_of 10] ++ line2 ++ [byte_of 10] ++ rest ->
  ~ In (byte_of 10) line1 -> ~ In (byte_of 10) line2 ->
  exists s times,
    csv_new prof (civil o) lower f64_ok csv_records (automatic z') (Some (line1 :: line2 :: more)) (file (csv_file f64 f32 (human_output z u) h evs)) = Ok s /\
    h_names (cs_header s) = b "time" :: h_names h /\
    csv_rows prof (civil o) s = map (fun p => Ok (row_of (fst p) (snd p))) (combine ((t0 :: texts) :: cols) times) /\
    Forall2 (fun r t => largest_multiple (nanos_per u) (ts r) t) (r0 :: rows) times.
Proof.
  intros z z' u h evs r0 rows t0 texts cols' Lw Fc Fn Er Nn Ph Pa C9 C32 Sy F Pc W Na line1 line2 rest more Ef Nl1 Nl2.
  destruct (human_lines z u h evs r0 rows ((t0 :: texts) :: cols') line1 line2 rest Er Nn Ph F Pc Ef Nl1 Nl2) as (c0 & cols0 & [= <- <-] & -> & -> & Efile & Pt).
  set (c0 := t0 :: texts) in *.
  assert (Wc : Forall (fun c => length c = S (length (h_names h))) (c0 :: cols')).
  { eapply human_width; [exact F|]. eapply Forall_impl; [|exact W]. intros r (X & _). exact X. }
  inversion F as [|? ? ? ? Hc0 F']; subst. inversion Pc as [|? ? Pc0 Pc']; subst. inversion W as [|? ? (W0 & T0 & M0) W']; subst.
  assert (E0 : c0 = show_in z (calendar_format u) (ts r0 / 1000000000)%N (ts r0 mod 1000000000)%N :: texts).
  { destruct (human_text _ _ _ _ _ _ Hc0) as (texts' & E & _). unfold c0 in *. congruence. }
  assert (Dl : delimiter_used (automatic (ch := civil o) z') (Some (line (b "time" :: h_names h) :: line c0 :: more)) (byte_of 44)).
  { unfold delimiter_used, automatic. cbn [ci_delimiter]. apply (comma_guessed lower).
    - constructor; [apply time_ascii|exact Pa].
    - eapply Forall_impl; [|exact Pt]. intros n (X & _). exact X.
    - cbn [concat]. rewrite count_occ_app. exact C9.
    - cbn [concat]. rewrite count_occ_app. exact C32. }
  assert (Hd : has_header_used f64_ok (automatic (ch := civil o) z') (Some (line (b "time" :: h_names h) :: line c0 :: more)) (byte_of 44) = true).
  { unfold has_header_used, automatic. cbn [ci_has_header]. apply Bool.not_false_iff_true. intros X.
    apply header_guessed in X; [|exact Pt|exact Pc0].
    apply (human_alike z u h r0 c0 texts Hc0 E0 Pc0 (fits_more _ T0) M0 Fc Fn) in X. exact (Na X). }
  assert (Ck : forall types, get_timestamp_col lower {| h_names := b "time" :: h_names h; h_types := types |} CfgAuto = Ok (ColIndex 0, None)).
  { intros types. apply T_Timestamp.C42_time_column. cbn [h_names map].
    assert (Lt : lower (b "time") = b "time") by (rewrite Lw by apply time_ascii; reflexivity). rewrite Lt.
    assert (Sn : forall n k, In n (b "time" :: map lower (h_names h)) -> says n k -> k <> Date /\ forall v, k <> TimeUnit v).
    { intros n k [<-|I] Sn.
      - inversion Sn as [v E|E|E|p v Np Nb E|p Np Nb E|p Np Nb E]; try discriminate E; try (split; discriminate). destruct v; discriminate E.
      - apply in_map_iff in I. destruct I as (n' & <- & I). rewrite Forall_forall in Pa. rewrite (Lw _ (Pa _ I)) in Sn. destruct (Sy _ I) as [S1 S2].
        inversion Sn as [v E|E|E|p v Np Nb E|p Np Nb E|p Np Nb E]; try (split; discriminate); exfalso; [apply (S2 v)|apply S1]; auto. }
    apply chosen_time.
    - intros n k I X (v & ->). apply (Sn n _ I X) with (v := v). reflexivity.
    - intros n k I X Y. apply (proj1 (Sn n _ I X)). exact Y.
    - split; [exists (b "time"); split; [reflexivity|exact says_time]|]. split; [reflexivity|]. intros j n k Hj. lia. }
  assert (Fm : get_col_and_fmt (civil o) lower {| h_names := b "time" :: h_names h; h_types := repeat TString (length c0) |} c0 CfgAuto FmtAuto z' = Ok (ColIndex 0, FDateTimeTz (b "%+"))).
  { refine (proj1 (C119_read_back prof o lower _ c0 CfgAuto z z' u u 0 (ts r0) (ts r0) T0 (fits_more _ T0) M0 M0 (Ck _) _)). rewrite E0. constructor. reflexivity. }
  assert (T : exists times, Forall2 (fun c t => get_timestamp prof (civil o) c (ColIndex 0) (FDateTimeTz (b "%+")) z' = Ok t) (c0 :: cols') times /\
     Forall2 (fun r t => largest_multiple (nanos_per u) (ts r) t) (r0 :: rows) times).
  { assert (E0' : row_text c0 (ColIndex 0) (show_in z (calendar_format u) (ts r0 / 1000000000) (ts r0 mod 1000000000))) by (rewrite E0; constructor; reflexivity).
    clear - F W E0' Ck T0 M0. clearbody c0. set (rs := r0 :: rows) in *. clearbody rs. set (cs := c0 :: cols') in *. clearbody cs.
    induction F as [|r c rs cs Hr F IH].
    - exists []. split; constructor.
    - inversion W as [|? ? (Wr & Wt & Wm) W']; subst. destruct (IH W') as (times & T1 & T2).
      exists (ts r - ts r mod nanos_per u :: times)%N. split; constructor; trivial; [|apply human_rounded].
      refine (proj2 (C119_read_back prof o lower {| h_names := b "time" :: h_names h; h_types := [] |} c0 CfgAuto z z' u u 0 (ts r0) (ts r) Wt (fits_more _ T0) Wm M0 (Ck _) E0') c _).
      destruct (human_text _ _ _ _ _ _ Hr) as (texts' & -> & _). constructor. reflexivity. }
  destruct T as ([|tm times] & T1 & T2); [inversion T1|].
  destruct (open_lines prof (civil o) lower f64_ok (automatic z') (Some (line (b "time" :: h_names h) :: line c0 :: more)) (byte_of 44)
    (b "time" :: h_names h) c0 cols' (ColIndex 0) (FDateTimeTz (b "%+")) tm times) as (s & Es & Eh & _ & _ & Ers); trivial.
  - split; [discriminate|reflexivity].
  - discriminate.
  - destruct (h_names h); [congruence|discriminate].
  - constructor; assumption.
  - eapply Forall_impl; [|exact Wc]. cbn beta. intros c Hc. split; intros ->; cbn in Hc; [discriminate|]. destruct (h_names h); [congruence|discriminate].
  - intros c c' Hc Hc'. rewrite Forall_forall in Wc. rewrite (Wc c Hc), (Wc c' Hc'). reflexivity.
  - exists s, (tm :: times). rewrite Efile. split; [exact Es|]. split; [rewrite Eh; reflexivity|]. auto.
Qed.

(** The program violates the property: if the names and the values of the first row look alike (say, all columns
    hold words), the header is taken for a row and opening the file fails. *)
Theorem C122_words_refuted : forall z z' u h evs r0 rows t0 texts cols, lowers_ascii lower ->
  (forall t, In 58%N t -> f64_ok t = false) -> f64_ok (chars (b "time")) = false ->
  ev_rows evs = r0 :: rows -> h_names h <> [] ->
  Forall (plain (byte_of 44)) (h_names h) -> Forall ascii_text (h_names h) ->
  count_occ Ascii.ascii_dec (concat (h_names h)) (byte_of 9) <= length (h_names h) ->
  count_occ Ascii.ascii_dec (concat (h_names h)) (byte_of 32) <= length (h_names h) ->
  Forall2 (row_columns f64 f32 (human_output z u)) (r0 :: rows) ((t0 :: texts) :: cols) -> Forall (Forall (plain (byte_of 44))) ((t0 :: texts) :: cols) ->
  Forall (fun r => length (vals r) = length (h_names h) /\ (ts r < 2 ^ 63)%N /\ whole_minutes z (Z.of_N (ts r / 1000000000))) (r0 :: rows) ->
  alike f64_ok (h_names h) texts ->
  forall line1 line2 rest more, csv_file f64 f32 (human_output z u) h evs = line1 ++ [byte_of 10] ++ line2 ++ [byte_of 10] ++ rest ->
  ~ In (byte_of 10) line1 -> ~ In (byte_of 10) line2 ->
  exists e, csv_new prof (civil o) lower f64_ok csv_records (automatic z') (Some (line1 :: line2 :: more)) (file (csv_file f64 f32 (human_output z u) h evs)) = Err e.
Proof.
  intros z z' u h evs r0 rows t0 texts cols' Lw Fc Fn Er Nn Ph Pa C9 C32 F Pc W Al line1 line2 rest more Ef Nl1 Nl2.
  destruct (human_lines z u h evs r0 rows ((t0 :: texts) :: cols') line1 line2 rest Er Nn Ph F Pc Ef Nl1 Nl2) as (c0 & cols0 & [= <- <-] & -> & -> & Efile & Pt).
  set (c0 := t0 :: texts) in *.
  assert (Wc : Forall (fun c => length c = S (length (h_names h))) (c0 :: cols')).
  { eapply human_width; [exact F|]. eapply Forall_impl; [|exact W]. intros r (X & _). exact X. }
  inversion F as [|? ? ? ? Hc0 F']; subst. inversion Pc as [|? ? Pc0 Pc']; subst. inversion W as [|? ? (W0 & T0 & M0) W']; subst.
  assert (E0 : c0 = show_in z (calendar_format u) (ts r0 / 1000000000)%N (ts r0 mod 1000000000)%N :: texts).
  { destruct (human_text _ _ _ _ _ _ Hc0) as (texts' & E & _). unfold c0 in *. congruence. }
  assert (Dl : guess_delimiter (line (b "time" :: h_names h)) DELIMITERS = Ok (byte_of 44)).
  { apply (comma_guessed lower).
    - constructor; [apply time_ascii|exact Pa].
    - eapply Forall_impl; [|exact Pt]. intros n (X & _). exact X.
    - cbn [concat]. rewrite count_occ_app. exact C9.
    - cbn [concat]. rewrite count_occ_app. exact C32. }
  assert (Hd : guess_has_header f64_ok (Some (line (b "time" :: h_names h))) (Some (line c0)) (byte_of 44) = false).
  { apply header_guessed; [exact Pt|exact Pc0|]. now apply (human_alike z u h r0 c0 texts Hc0 E0 Pc0 (fits_more _ T0) M0 Fc Fn). }
  assert (R : csv_records (byte_of 44) (file (csv_file f64 f32 (cfg z u) h evs)) = map Ok ((b "time" :: h_names h) :: c0 :: cols')).
  { rewrite Efile. unfold csv_records, file. cbn [s_data s_tail]. unfold strip_bom.
    assert (Bom : starts_with [byte_of 0xEF; byte_of 0xBB; byte_of 0xBF] (concat (map (fun c => line c ++ [byte_of 10]) ((b "time" :: h_names h) :: c0 :: cols'))) = false)
      by reflexivity.
    rewrite Bom. rewrite parse_lines; [apply app_nil_r|split; [discriminate|reflexivity]|]. apply Forall_forall. intros c Hc. split.
    - assert (P : Forall (Forall (plain (byte_of 44))) ((b "time" :: h_names h) :: c0 :: cols')) by (constructor; assumption).
      rewrite Forall_forall in P. specialize (P c Hc). eapply Forall_impl; [|exact P]. intros a Ha. now apply plain_unquoted.
    - assert (Lc : length c = S (length (h_names h))).
      { destruct Hc as [<-|Hc]; [reflexivity|]. rewrite Forall_forall in Wc. now apply Wc. }
      destruct (h_names h) as [|n ns]; [congruence|]. cbn in Lc. split; intros ->; cbn in Lc; discriminate Lc. }
  pose proof (proj2 (string_record_decodes _ _) (plain_decodes _ _ Pt)) as Sh. cbn [bind] in Sh.
  unfold csv_new. cbv zeta. unfold automatic. cbn [ci_delimiter ci_has_header ci_col ci_fmt ci_tz nth_error]. rewrite Dl. cbn [bind]. rewrite Hd, R.
  cbn [map bind]. rewrite Sh. cbn [bind].
  assert (Ck : forall types, get_timestamp_col lower {| h_names := map (fun i => b "col_" ++ dec (N.of_nat i)) (seq 0 (length (b "time" :: h_names h))); h_types := types |} CfgAuto = Ok (ColIndex 0, None)).
  { intros types. apply T_Timestamp.C42_time_column. cbn [h_names].
    assert (A : forall class, absent (map lower (map (fun i => b "col_" ++ dec (N.of_nat i)) (seq 0 (length (b "time" :: h_names h))))) class).
    { intros class n k I Sn. rewrite map_map in I. apply in_map_iff in I. destruct I as (i & <- & _). destruct (low_col (N.of_nat i)) as [L1 L2].
      rewrite Lw, L1 in Sn by exact L2. destruct (col_says _ _ Sn). }
    apply chosen_nothing; apply A. }
  unfold get_col_and_fmt. rewrite Ck. cbn [bind fmt_auto].
  assert (Fa : fmt_auto_index (civil o) 0 z' (b "time" :: h_names h) None = cannot_parse).
  { unfold fmt_auto_index. cbn [nth_error unwrap bind]. vm_compute. reflexivity. }
  rewrite Fa. unfold cannot_parse. cbn [bind]. eexists. reflexivity.
Qed.
End Human.
Print Assumptions C122_default_partial.
Print Assumptions C122_words_refuted.
(** And a column called date, or time with a unit (timeMillis, say), is taken for the time, alone or together with the
    program's own column. *)
Theorem C122_other_column_refuted : forall prof ch lower f64_ok split (cfg : csv_input ch) lines data s names n,
  lowers_ascii lower -> ci_col cfg = CfgAuto -> csv_new prof ch lower f64_ok split cfg lines data = Ok s ->
  h_names (cs_header s) = b "time" :: names -> In n names -> ascii_text n ->
  low n = b "date" \/ (exists v, low n = b "time" ++ unit_name v) ->
  cs_col s <> ColIndex 0.
Proof.
  intros prof ch lower f64_ok split cfg lines data s names n Lw Ca H Hn In_ An Sn E0.
  destruct (csv_new_spec _ _ _ _ _ _ _ _ _ H) as (d' & pre' & first & rest & _ & _ & _ & (r & _ & _ & _ & _ & Hc & _) & _).
  unfold get_col_and_fmt in Hc. rewrite Ca in Hc.
  destruct (get_timestamp_col lower (cs_header s) CfgAuto) as [[col hint]| | | |] eqn:Ec; try discriminate. cbn [bind] in Hc.
  match type of Hc with (let* _ := ?x in _) = _ => destruct x as [fmt| | | |]; try discriminate end. cbn [bind] in Hc.
  injection Hc as Ecol _. rewrite E0 in Ecol. subst col. apply T_Timestamp.C42_time_column in Ec. rewrite Hn in Ec. cbn [map] in Ec.
  assert (Lt : lower (b "time") = b "time") by (rewrite Lw by apply time_ascii; reflexivity). rewrite Lt in Ec.
  set (all := b "time" :: map lower names) in *.
  assert (Z : forall class k, leftmost all class 0 k -> k = Time).
  { intros class k ((m & [= <-] & Sm) & _). eapply says_det; [exact Sm|exact says_time]. }
  assert (I : exists m k, In m all /\ says m k /\ (k = Date \/ exists v, k = TimeUnit v)).
  { exists (low n). destruct Sn as [E|(v & E)]; [exists Date|exists (TimeUnit v)]; (split; [right; rewrite <- Lw by exact An; apply in_map, In_|]); (split; [rewrite E; constructor|eauto]). }
  destruct I as (m & k & Im & Sm & K).
  assert (A : absent all a_time_unit -> absent all a_date -> False).
  { intros A1 A2. destruct K as [->|(v & ->)]; [exact (A2 _ _ Im Sm eq_refl)|apply (A1 _ _ Im Sm); eexists; reflexivity]. }
  inversion Ec; subst; try (exfalso; tauto);
    repeat match goal with L : leftmost all _ 0 _ |- _ => apply Z in L end; try discriminate.
Qed.
Print Assumptions C122_other_column_refuted.

(** ** Cases *)
Definition out_human (names : list bytes) (x y : fvalue) : bytes :=
  csv_file T_CsvOut.fl T_CsvOut.fl (human_output new_york Millis) {| h_names := names; h_types := [] |}
    [EvRow {| ts := 1522589400123456789%N; vals := [x; y] |}; EvRow {| ts := 1522589401000000000%N; vals := [y; x] |}].
Definition no_floats (t : text) : bool := false.
Definition read_human (o : foreign) (names : list bytes) (x y : fvalue) (xs ys : bytes) : res (list (res row)) :=
  let l1 := b "time," ++ join (b ",") names in
  let l2 := b "2018-04-01T09:30:00.123-04:00," ++ xs ++ b "," ++ ys in
  let* s := csv_new Debug (civil o) low no_floats csv_records (automatic None) (Some [l1; l2]) (file (out_human names x y)) in
  Ok (csv_rows Debug (civil o) s).
Example C122_nonvacuous : forall o,
  out_human [b "a"; b "n"] (VString (b "x y")) (VInt (-7)) =
    b "time,a,n" ++ [byte_of 10] ++ b "2018-04-01T09:30:00.123-04:00,x y,-7" ++ [byte_of 10] ++ b "2018-04-01T09:30:01.000-04:00,-7,x y" ++ [byte_of 10] /\
  read_human o [b "a"; b "n"] (VString (b "x y")) (VInt (-7)) (b "x y") (b "-7") =
    Ok [Ok (row_of [b "2018-04-01T09:30:00.123-04:00"; b "x y"; b "-7"] 1522589400123000000%N);
        Ok (row_of [b "2018-04-01T09:30:01.000-04:00"; b "-7"; b "x y"] 1522589401000000000%N)] /\
  (exists e, read_human o [b "a"; b "n"] (VString (b "x y")) (VString (b "z")) (b "x y") (b "z") = Err e) /\
  (exists e, read_human o [b "a"; b "Date"] (VString (b "x y")) (VInt (-7)) (b "x y") (b "-7") = Err e).
Proof.
  intros o. split; [vm_compute; reflexivity|]. split; [vm_compute; reflexivity|].
  split; eexists; vm_compute; reflexivity.
Qed.
(** The hypotheses: what looks alike and what not, the names, the times. *)
Example C122_hypotheses : lowers_ascii low /\
  ~ alike no_floats [b "a"; b "n"] [b "x y"; b "-7"] /\ alike no_floats [b "a"; b "n"] [b "x y"; b "z"] /\
  (forall n, In n [b "a"; b "n"] -> low n <> b "date" /\ forall v, low n <> b "time" ++ unit_name v) /\
  (1522589400123456789 < 2 ^ 63)%N /\ whole_minutes new_york (Z.of_N (1522589400123456789 / 1000000000)) /\
  low (b "Date") = b "date" /\ low (b "timeMillis") = b "time" ++ unit_name Millis.
Proof.
  assert (G : forall s, looks_like no_floats (chars s) (guess_type no_floats (trim (chars s)))) by (intros; apply guess_type_looks).
  split; [intros s _; reflexivity|]. split; [|split; [|split; [|split; [reflexivity|split; [|split; reflexivity]]]]].
  - intros (types & A & B). inversion A as [|? ? ? ? _ A']; subst. inversion B as [|? ? ? ? _ B']; subst. inversion A' as [|? ? ? ? A1 _]; subst.
    inversion B' as [|? ? ? ? B1 _]; subst. pose proof (looks_like_det _ _ _ _ A1 (G (b "n"))) as X. pose proof (looks_like_det _ _ _ _ B1 (G (b "-7"))) as Y.
    rewrite X in Y. vm_compute in Y. discriminate Y.
  - exists [TString; TString]. split; (constructor; [|constructor; [|constructor]]); apply G.
  - intros n [<-|[<-|[]]]; (split; [|intros []]); intros E; discriminate E.
  - split; [exists (-240)%Z|]; vm_compute; auto.
Qed.

(** A time text is read exactly if it shows that time in the layout: C135. *)
From Verif Require Import DateTextProofs CalendarProofs ZoneProofs T_Time T_DateText.
From Verif Require Import TimestampProofs LayoutProofs ExactSpec ExactProofs NewYork T_DateEx T_Layout T_LayoutEx CsvSpec TimestampSpec.
Local Open Scope Z_scope.

(** ** chrono *)
Lemma ascii_asc s : ascii_text s -> asc s.
Proof. intros H. exact H. Qed.
Lemma layout_instant o ps f s i : spelled ps f -> ascii_text s ->
  c_datetime (civil o) f s = Some i <-> exists v said, admitted v ps s [] said /\ says_instant v said i.
Proof. intros Sp A. apply (parse_exact to_datetime says_instant); [exact exact_instant|exact Sp|exact A]. Qed.
Lemma layout_naive o ps f s l : spelled ps f -> ascii_text s ->
  c_naive (civil o) f s = Some l <-> exists v said, admitted v ps s [] said /\ says_local v said l.
Proof. intros Sp A. apply (parse_exact to_naive says_local); [exact exact_naive|exact Sp|exact A]. Qed.
Lemma layout_day o ps f s n : spelled ps f -> ascii_text s ->
  c_date (civil o) f s = Some n <-> exists v said, admitted v ps s [] said /\ says_day v said n.
Proof. intros Sp A. apply (parse_exact to_naive_date says_day); [exact exact_date|exact Sp|exact A]. Qed.

Lemma iso_not_spelled ps : ~ spelled ps (b "%+").
Proof.
  intros Sp. destruct (spelled_items ps _ Sp) as [_ F]. vm_compute in F. inversion F as [|p i ps' l I1 F']; subst. inversion I1.
Qed.
Lemma says_denotes o z fmt s i : good_table z -> ascii_text s -> laid_out fmt ->
  denotes (zone_of o z) fmt s i <-> time_said z fmt s i.
Proof.
  intros G A [->|(f & ps & L & Sp)].
  - cbn [denotes]. rewrite (iso_iff o s i A). split; [apply st_iso|]. intros H. inversion H; subst; try assumption.
    exfalso. eapply iso_not_spelled. eassumption.
  - destruct L as [->|[->| ->]]; cbn [denotes].
    + rewrite (layout_instant o ps f s i Sp A). split.
      * intros (v & said & Ad & Sy). exact (st_instant z f ps s v said i Sp Ad Sy).
      * intros H. inversion H; subst; [destruct (iso_not_spelled _ Sp)|].
        rewrite <- (layout_instant o ps f s i Sp A). apply (layout_instant o ps0 f s i); eauto.
    + split.
      * intros (l & E & L). apply (local_instant_iff o z l i G) in L as (t & O & ->).
        apply (layout_naive o ps f s l Sp A) in E as (v & said & Ad & Sy). exact (st_local z f ps s v said l t Sp Ad Sy O).
      * intros H. inversion H; subst. exists l. split; [apply (layout_naive o ps0 f s l); eauto|].
        apply (local_instant_iff o z l _ G). eauto.
    + split.
      * intros (n & E & L). apply (local_instant_iff o z _ i G) in L as (t & O & ->).
        apply (layout_day o ps f s n Sp A) in E as (v & said & Ad & Sy).
        change (s_nano (c_midnight (civil o) n)) with 0. rewrite Z.add_0_r. exact (st_day z f ps s v said n t Sp Ad Sy O).
      * intros H. inversion H; subst. exists day. split; [apply (layout_day o ps0 f s day); eauto|].
        apply (local_instant_iff o z _ _ G). exists t. split; [assumption|]. change (s_nano (c_midnight (civil o) day)) with 0. lia.
Qed.

(** ** The rows *)
Lemma laid_calendar fmt : laid_out fmt -> calendar fmt.
Proof. intros [->|(f & ps & [->|[->| ->]] & _)] u; discriminate. Qed.
Theorem C135_row : forall prof o z r col fmt s, good_table z -> laid_out fmt -> row_text r col s -> ascii_text s ->
  let time := get_timestamp prof (civil o) r col fmt (zone_of o z) in
  (forall i, time_said z fmt s i -> - 2 ^ 63 <= i < 2 ^ 63 -> exists n, time = Ok n /\ Z.of_N n = i mod 2 ^ 64) /\
  ((forall i, ~ time_said z fmt s i) -> exists e, time = Err e) /\
  (forall n, time = Ok n -> exists i, time_said z fmt s i /\ Z.of_N n = i mod 2 ^ 64 /\ (prof = Debug -> - 2 ^ 63 <= i < 2 ^ 63)).
Proof.
  intros prof o z r col fmt s G L T A time.
  destruct (C86_instant_partial prof (civil o) (zone_of o z) r col fmt s (laid_calendar fmt L) T) as (H1 & H2 & H3).
  pose proof (fun i => says_denotes o z fmt s i G A L) as D. split; [|split].
  - intros i Hi. apply H1, D, Hi.
  - intros N. apply H2. intros i Hi. apply (N i), D, Hi.
  - intros n Hn. destruct (H3 n Hn) as (i & Hi & K). exists i. split; [apply D, Hi|exact K].
Qed.
Print Assumptions C135_row.

(** ** The format chosen from the first row: what is chosen, that row says a time in; a text that says no time in any
    format tried is refused (unless it is a number). *)
Lemma spelled_app ps f qs g : spelled ps f -> spelled qs g -> spelled (ps ++ qs) (f ++ g).
Proof.
  intros H K. induction H as [|ps t ps' s S _ IH]; [exact K|]. rewrite <- !app_assoc. apply spelled_next; assumption.
Qed.
Ltac a_step := match goal with
  | |- spelled ?ps ?f =>
    let f' := eval vm_compute in f in
    lazymatch f' with
    | [] => exact spelled_end
    | ?c :: ?r =>
      lazymatch eval vm_compute in (of_byte c) with
      | 37%N => let go p t l := (let n := eval vm_compute in (length t) in let r' := eval vm_compute in (skipn n f') in
                                 refine (spelled_next p t _ r' l _)) in
        first
        [ let t := constr:(b "%Y") in let e := eval vm_compute in (bytes_eqb t (firstn 2 f')) in lazymatch e with true => go [Number TheYear] t (sp_number TheYear [] (b "Y") ltac:(cbn; tauto) ltac:(cbn; tauto)) end
        | let t := constr:(b "%m") in let e := eval vm_compute in (bytes_eqb t (firstn 2 f')) in lazymatch e with true => go [Number TheMonth] t (sp_number TheMonth [] (b "m") ltac:(cbn; tauto) ltac:(cbn; tauto)) end
        | let t := constr:(b "%d") in let e := eval vm_compute in (bytes_eqb t (firstn 2 f')) in lazymatch e with true => go [Number TheDay] t (sp_number TheDay [] (b "d") ltac:(cbn; tauto) ltac:(cbn; tauto)) end
        | let t := constr:(b "%H") in let e := eval vm_compute in (bytes_eqb t (firstn 2 f')) in lazymatch e with true => go [Number TheHour] t (sp_number TheHour [] (b "H") ltac:(cbn; tauto) ltac:(cbn; tauto)) end
        | let t := constr:(b "%M") in let e := eval vm_compute in (bytes_eqb t (firstn 2 f')) in lazymatch e with true => go [Number TheMinute] t (sp_number TheMinute [] (b "M") ltac:(cbn; tauto) ltac:(cbn; tauto)) end
        | let t := constr:(b "%S") in let e := eval vm_compute in (bytes_eqb t (firstn 2 f')) in lazymatch e with true => go [Number TheSecond] t (sp_number TheSecond [] (b "S") ltac:(cbn; tauto) ltac:(cbn; tauto)) end
        | let t := constr:(b "%-H") in let e := eval vm_compute in (bytes_eqb t (firstn 3 f')) in lazymatch e with true => go [Number TheHour] t (sp_number TheHour (b "-") (b "H") ltac:(cbn; tauto) ltac:(cbn; tauto)) end
        | let t := constr:(b "%3f") in let e := eval vm_compute in (bytes_eqb t (firstn 3 f')) in lazymatch e with true => go [Places 3] t (sp_places 3 t ltac:(cbn; tauto)) end
        | let t := constr:(b "%.f") in let e := eval vm_compute in (bytes_eqb t (firstn 3 f')) in lazymatch e with true => go [Point] t (sp_point t ltac:(cbn; tauto)) end ]
      | 32%N => refine (spelled_next [White] [c] _ r _ _); [white_char|]
      | _ => refine (spelled_next [Char c] [c] _ r _ _); [plain_char|]
      end
    end
  end.
Ltac a_layout := eexists; repeat a_step.
Lemma documented_laid col fmt : In fmt (documented col) -> laid_out fmt.
Proof.
  assert (K : forall g f, layout_of g f -> (exists ps, spelled ps f) -> laid_out g) by (intros g f L (ps & Sp); right; eauto).
  destruct col; cbn [documented In]; intros H;
    repeat (destruct H as [<-|H]; [first [left; reflexivity|eapply K; [unfold layout_of; eauto|a_layout]]|]); contradiction.
Qed.
Lemma bound_laid f : bound_format f -> exists ps, spelled ps f.
Proof.
  assert (P : forall t1 t2, (exists ps, spelled ps t1) -> (exists ps, spelled ps t2) -> exists ps, spelled ps (t1 ++ t2))
    by (intros t1 t2 (p1 & S1) (p2 & S2); exists (p1 ++ p2); apply spelled_app; assumption).
  intros (d & s & t & x & Hd & Hs & Ht & Hx & ->). apply P; [|apply P; [|apply P]].
  - cbn [In] in Hd. repeat (destruct Hd as [<-|Hd]; [a_layout|]). contradiction.
  - cbn [In] in Hs. repeat (destruct Hs as [<-|Hs]; [a_layout|]). contradiction.
  - cbn [In] in Ht. repeat (destruct Ht as [<-|Ht]; [a_layout|]). contradiction.
  - cbn [In] in Hx. repeat (destruct Hx as [<-|Hx]; [a_layout|]). contradiction.
Qed.
Lemma some_parses ch l s : (exists fmt, first_parsing ch l s fmt) \/ forall fmt, In fmt l -> ~ parses ch fmt s.
Proof.
  induction l as [|g l [(fmt & p & q & -> & H & F)|IH]].
  - right. intros fmt [].
  - assert (D : parses ch g s \/ ~ parses ch g s).
    { destruct g as [u|f|f|f]; cbn [parses]; [right; tauto|destruct (c_datetime ch f s)|destruct (c_naive ch f s)|destruct (c_date ch f s)];
      solve [left; discriminate|right; intros X; apply X; reflexivity]. }
    left. destruct D as [D|D].
    + exists g, [], (p ++ fmt :: q). split; [reflexivity|]. split; [exact D|constructor].
    + exists fmt, (g :: p), q. split; [reflexivity|]. split; [exact H|]. constructor; assumption.
  - assert (D : parses ch g s \/ ~ parses ch g s).
    { destruct g as [u|f|f|f]; cbn [parses]; [right; tauto|destruct (c_datetime ch f s)|destruct (c_naive ch f s)|destruct (c_date ch f s)];
      solve [left; discriminate|right; intros X; apply X; reflexivity]. }
    destruct D as [D|D].
    + left. exists g, [], l. split; [reflexivity|]. split; [exact D|constructor].
    + right. intros fmt [<-|H]; [exact D|]. apply IH, H.
Qed.
Lemma tried_laid fc col f ps : asks fc f -> spelled ps f -> forall fmt, In fmt (tried fc col) -> laid_out fmt.
Proof.
  intros A Sp fmt H. destruct (asks_tried fc f col A) as [E _]. rewrite E in H. unfold given in H. cbn [In] in H.
  right. exists f, ps. split; [|exact Sp]. unfold layout_of. destruct H as [<-|[<-|[<-|[]]]]; auto.
Qed.
Theorem C135_choice : forall o lower h first_row cc fc z col hint s, good_table z ->
  get_timestamp_col lower h cc = Ok (col, hint) -> row_text first_row col s -> ascii_text s ->
  fc = FmtAuto /\ hint = None \/ (exists f ps, asks fc f /\ spelled ps f) ->
  let choice := get_col_and_fmt (civil o) lower h first_row cc fc (zone_of o z) in
  (forall c fmt, choice = Ok (c, fmt) -> c = col /\
     ((exists i, In fmt (tried fc col) /\ time_said z fmt s i) \/ fc = FmtAuto /\ exists u n, fmt = FUnits u /\ numeral (chars s) n /\ plausible u n)) /\
  ((forall fmt i, In fmt (tried fc col) -> ~ time_said z fmt s i) -> (forall n, ~ numeral (chars s) n) -> exists e, choice = Err e).
Proof.
  intros o lower h first_row cc fc z col hint s G Hc T A Hf choice.
  assert (L : forall fmt, In fmt (tried fc col) -> laid_out fmt).
  { destruct Hf as [[-> _]|(f & ps & Hf & Sp)]; [exact (documented_laid col)|exact (tried_laid fc col f ps Hf Sp)]. }
  assert (Hh : fc = FmtAuto -> hint = None).
  { intros ->. destruct Hf as [[_ ->]|(f & ps & [Hf|(d & t & Hf & _)] & _)]; [reflexivity|discriminate|discriminate]. }
  assert (He : forall u, fc <> FmtEpoch u).
  { intros u ->. destruct Hf as [[Hf _]|(f & ps & [Hf|(d & t & Hf & _)] & _)]; discriminate. }
  pose proof (fun fmt i H => says_denotes o z fmt s i G A (L fmt H)) as D.
  destruct (C87_format lower (civil o) h first_row cc fc (zone_of o z) col hint s Hc T) as (_ & _ & K & N).
  destruct (some_parses (civil o) (tried fc col) s) as [(g & P)|P].
  - assert (Ig : In g (tried fc col)) by (destruct P as (p & q & -> & _); apply in_elt).
    destruct (K Hh g P) as [K1 K2]. split.
    + intros c fmt E. assert (W : (exists i, denotes (zone_of o z) g s i) \/ forall i, ~ denotes (zone_of o z) g s i).
      { destruct (denotes_get Debug (civil o) (zone_of o z) first_row col g s (laid_calendar g (L g Ig)) T) as [(i & H & _)|[_ H]]; eauto. }
      destruct W as [(i & W)|W].
      * pose proof (K1 i W) as E'. unfold choice in E. assert (E2 : (c, fmt) = (col, g)) by congruence. injection E2 as -> ->.
        split; [reflexivity|]. left. exists i. split; [exact Ig|]. apply (D g i Ig), W.
      * destruct (K2 W) as [e E']. unfold choice in E. congruence.
    + intros None_ _. apply K2. intros i H. apply (None_ g i Ig), (D g i Ig), H.
  - destruct (N Hh He P) as [[e E]|(i & u & E1 & E2 & E3 & n & E4 & E5)]; split.
    + intros c fmt E'. unfold choice in E'. congruence.
    + intros _ _. exists e. exact E.
    + intros c fmt E'. unfold choice in E'. assert (X : (c, fmt) = (col, FUnits u)) by congruence. injection X as -> ->.
      split; [reflexivity|]. right. split; [exact E1|]. exists u, n. auto.
    + intros _ NN. destruct (NN n E4).
Qed.
Print Assumptions C135_choice.

(** ** --begin and --end *)
Theorem C135_bound : forall prof o z s, good_table z -> ascii_text s -> (exists c, In c s /\ ~ is_figure c) ->
  let bound := parse_range_element prof (civil o) s (zone_of o z) in
  ((forall i, ~ bound_said z s i) -> exists e, bound = Err e) /\
  (forall n, bound = Ok n -> exists i, bound_said z s i /\ Z.of_N n = i mod 2 ^ 64 /\ (prof = Debug -> - 2 ^ 63 <= i < 2 ^ 63)).
Proof.
  intros prof o z s G A (c & Hc & Nc) bound.
  assert (Ad : all_digits s = false).
  { unfold all_digits. rewrite (chars_asc s A). destruct (forallb is_digit (map of_byte s)) eqn:E; [|reflexivity].
    rewrite forallb_forall in E. specialize (E (of_byte c) (in_map of_byte s c Hc)). exfalso. apply Nc. unfold is_figure. unfold is_digit in E. lia. }
  unfold bound, parse_range_element, complete. rewrite Ad. unfold parse_completed. cbn [first_fmt].
  destruct (c_datetime (civil o) (b "%+") s) as [i|] eqn:Ei.
  { apply (iso_iff o s i A) in Ei. split; [intros N; destruct (N i); left; exact Ei|].
    intros n Hn. exists i. split; [left; exact Ei|]. exact (wrap_spec _ _ _ Hn). }
  pose proof (first_fmt_in (c_naive (civil o)) range_formats s) as R.
  destruct (first_fmt (c_naive (civil o)) range_formats s) as [[g l]|]; [|split; [intros _; eexists; reflexivity|discriminate]].
  destruct R as [Hg Eg]. apply range_formats_spec in Hg. destruct (bound_laid g Hg) as (ps & Sp).
  assert (D : forall i, local_instant (zone_of o z) l i -> bound_said z s i).
  { intros i H. right. exists g. split; [exact Hg|]. apply (says_denotes o z (FDateTime g) s i G A).
    - right. exists g, ps. unfold layout_of. auto.
    - exists l. auto. }
  destruct (local_spec (civil o) (zone_of o z) l) as [(i & -> & H)|[[e ->] H]]; cbn [bind].
  - split; [intros N; destruct (N i); apply D, H|]. intros n Hn. exists i. split; [apply D, H|]. exact (wrap_spec _ _ _ Hn).
  - split; [eauto|discriminate].
Qed.
Print Assumptions C135_bound.

(** ** Cases *)
Example C135_example : forall o,
  let read f s := get_timestamp Debug (civil o) [b s] (ColIndex 0) f (zone_of o utc) in
  good_table utc /\ laid_out (FDate (b "%Y%m%d")) /\ ascii_text (b "20180401") /\
  time_said utc (FDate (b "%Y%m%d")) (b "20180401") 1522540800000000000 /\
  read (FDate (b "%Y%m%d")) "20180401"%string = Ok 1522540800000000000%N /\
  (* no such day *)
  (forall i, ~ time_said utc (FDate (b "%Y%m%d")) (b "20180231") i) /\ (exists e, read (FDate (b "%Y%m%d")) "20180231"%string = Err e) /\
  (* something behind it *)
  (forall i, ~ time_said utc (FDate (b "%Y%m%d")) (b "20180401 ") i) /\ (exists e, read (FDate (b "%Y%m%d")) "20180401 "%string = Err e) /\
  (* a 60th second *)
  iso_exact (b "2016-12-31T23:59:60Z") 1483228800000000000 /\
  (exists c, In c (b "2016-12-31T23:59:60Z") /\ ~ is_figure c) /\
  parse_range_element Debug (civil o) (b "2016-12-31T23:59:60Z") (zone_of o utc) = Ok 1483228800000000000%N.
Proof.
  intros o read. pose proof utc_good as G.
  assert (L : laid_out (FDate (b "%Y%m%d"))) by (apply (documented_laid (ColIndex 0)); cbn; tauto).
  assert (A : forall t, In t ["20180401"; "20180231"; "20180401 "]%string -> ascii_text (b t)).
  { intros t [<-|[<-|[<-|[]]]]; repeat (apply Forall_cons; [vm_compute; reflexivity|]); apply Forall_nil. }
  assert (Y : time_said utc (FDate (b "%Y%m%d")) (b "20180401") 1522540800000000000).
  { change 1522540800000000000 with (1522540800 * 1000000000).
    destruct L as [L|(f & ps & [L|[L|L]] & Sp)]; try discriminate L. injection L as <-.
    assert (Sp' : spelled [Number TheYear; Number TheMonth; Number TheDay] (b "%Y%m%d")) by repeat a_step.
    apply (st_day utc _ _ _ (at_time 2018 4 1 0 0 0 0 0) [TheYear; TheMonth; TheDay] 17622 1522540800 Sp').
    - refine (admitted_next _ _ (b "2018") _ (b "0401") _ [TheYear] [TheMonth; TheDay] (ad_year _ [] [2; 0; 1; 8] _ _ _ _) _).
      + constructor.
      + split; [repeat constructor; lia|left; reflexivity].
      + reflexivity.
      + refine (admitted_next _ _ (b "04") _ (b "01") _ [TheMonth] [TheDay] (ad_number _ TheMonth [] [0; 4] _ _ _ _ _) _); [discriminate|constructor|..].
        * split; [repeat constructor; lia|left; reflexivity].
        * reflexivity.
        * refine (admitted_next _ _ (b "01") _ [] _ [TheDay] [] (ad_number _ TheDay [] [0; 1] _ _ _ _ _) _); [discriminate|constructor|..].
          -- split; [repeat constructor; lia|left; reflexivity].
          -- reflexivity.
          -- constructor.
    - unfold says_day. cbn [In at_time]. split; [tauto|]. split; [tauto|]. split; [tauto|]. apply from_ymd_iff. vm_compute. reflexivity.
    - destruct (proj1 (local_instant_iff o utc {| s_day := 17622; s_sec := 0; s_nano := 0 |} 1522540800000000000 G)) as (t & O & Et).
      + exists (from_local utc). split; [reflexivity|]. vm_compute. reflexivity.
      + cbn [s_nano] in Et. assert (t = 1522540800) by lia. subst t. exact O. }
  assert (No : forall t, In t ["20180231"; "20180401 "]%string -> forall i, ~ time_said utc (FDate (b "%Y%m%d")) (b t) i).
  { intros t Ht i H. assert (At : ascii_text (b t)) by (apply A; cbn [In] in *; tauto).
    apply (says_denotes o utc _ _ i G At L) in H. destruct H as (d & E & _). destruct Ht as [<-|[<-|[]]]; vm_compute in E; discriminate. }
  split; [exact G|]. split; [exact L|]. split; [apply A; cbn; tauto|]. split; [exact Y|]. split; [vm_compute; reflexivity|].
  assert (Er : forall t, In t ["20180231"; "20180401 "]%string -> exists e, read (FDate (b "%Y%m%d")) t = Err e).
  { intros t Ht. apply (C135_row Debug o utc [b t] (ColIndex 0) (FDate (b "%Y%m%d")) (b t) G L).
    - constructor. reflexivity.
    - apply A. cbn [In] in *. tauto.
    - exact (No t Ht). }
  split; [apply No; cbn; tauto|]. split; [apply Er; cbn; tauto|].
  split; [apply No; cbn; tauto|]. split; [apply Er; cbn; tauto|].
  split.
  { apply (iso_leap 2016 12 31 (b "T") 23 59 0 [] (b "Z") 0 {| s_day := 17166; s_sec := 86399; s_nano := 1000000000 |}).
    - a_time.
    - cbn. tauto.
    - right. split; [cbn; tauto|reflexivity].
    - left. split; reflexivity. }
  split; [|vm_compute; reflexivity].
  exists (chr "T"). split; [vm_compute; tauto|]. unfold is_figure. vm_compute. intros [_ H]. apply H. reflexivity.
Qed.

(** C85-C89: configured time columns, the instant a text denotes, the choice of the format, bounds. *)
From Verif Require Import TimeSpec TimestampProofs CsvUtilProofs T_Timestamp.
Local Open Scope nat_scope.

(** ** C85: configured columns *)
Lemma field_index h n : (forall i, get_field_index h n = Ok i <-> first_named (h_names h) n i) /\
  (~ In n (h_names h) -> exists e, get_field_index h n = Err e).
Proof.
  unfold get_field_index, first_named. destruct (position (fun s => bytes_eqb s n) (h_names h)) as [k|] eqn:E.
  - apply position_Some in E as [(x & Hx & Ex) Hb]. apply bytes_eqb_eq in Ex. subst x. split.
    + intro i. split.
      * intros [= <-]. split; [exact Hx|]. intros j Hj Ej. specialize (Hb j n Hj Ej). now rewrite bytes_eqb_refl in Hb.
      * intros [Hi Hf]. f_equal. destruct (Nat.lt_trichotomy i k) as [L|[->|L]]; [|reflexivity|].
        -- specialize (Hb i n L Hi). now rewrite bytes_eqb_refl in Hb.
        -- exfalso. exact (Hf k L Hx).
    + intro N. destruct N. eapply nth_error_In, Hx.
  - split; [|eauto]. intro i. split; [discriminate|]. intros [Hi _]. exfalso.
    apply nth_error_In in Hi. rewrite position_None in E. specialize (E _ Hi). now rewrite bytes_eqb_refl in E.
Qed.
Lemma units_suffix_spec n : ends_in_unit n (units_suffix TIMESTAMP_UNITS n).
Proof.
  unfold TIMESTAMP_UNITS. cbn [units_suffix].
  destruct (ends_with (b "seconds") n) eqn:A; [apply ends_with_spec in A as [p ->]; exists p; reflexivity|].
  destruct (ends_with (b "millis") n) eqn:B; [apply ends_with_spec in B as [p ->]; exists p; reflexivity|].
  destruct (ends_with (b "micros") n) eqn:C; [apply ends_with_spec in C as [p ->]; exists p; reflexivity|].
  destruct (ends_with (b "nanos") n) eqn:D; [apply ends_with_spec in D as [p ->]; exists p; reflexivity|].
  intros v p E. assert (X : ends_with (unit_name v) n = true) by (apply ends_with_spec; eauto).
  destruct v; cbn [unit_name] in X; congruence.
Qed.
Theorem C85_configured_columns : forall lower h,
  (* by number: that column, whatever the header *)
  (forall i, exists u, get_timestamp_col lower h (CfgIndex i) = Ok (ColIndex i, u) /\
     forall n, nth_error (h_names h) i = Some n -> ends_in_unit n u) /\
  (forall d t, get_timestamp_col lower h (CfgDateTimeIndex d t) = Ok (ColDateTime d t, None)) /\
  (* by name: the first column with exactly that name, an error if there is none *)
  (forall n i, first_named (h_names h) n i ->
     exists u, get_timestamp_col lower h (CfgName n) = Ok (ColIndex i, u) /\ ends_in_unit n u) /\
  (forall n, ~ In n (h_names h) -> exists e, get_timestamp_col lower h (CfgName n) = Err e) /\
  (forall d t i j, first_named (h_names h) d i -> first_named (h_names h) t j ->
     get_timestamp_col lower h (CfgDateTimeName d t) = Ok (ColDateTime i j, None)) /\
  (forall d t, ~ (In d (h_names h) /\ In t (h_names h)) -> exists e, get_timestamp_col lower h (CfgDateTimeName d t) = Err e).
Proof.
  intros lower h. cbn [get_timestamp_col].
  split; [|split; [|split; [|split; [|split]]]].
  - intro i. eexists. split; [reflexivity|]. intros n ->. apply units_suffix_spec.
  - reflexivity.
  - intros n i Hi. rewrite (proj2 (proj1 (field_index h n) i) Hi). cbn [bind]. eexists. split; [reflexivity|apply units_suffix_spec].
  - intros n N. destruct (proj2 (field_index h n) N) as [e ->]. cbn. eauto.
  - intros d t i j Hi Hj. rewrite (proj2 (proj1 (field_index h d) i) Hi), (proj2 (proj1 (field_index h t) j) Hj). reflexivity.
  - intros d t N. destruct (get_field_index h d) as [i|e| | |] eqn:Ed; cbn [bind]; [|eauto|unfold get_field_index in Ed; destruct (position _ _); discriminate..].
    apply field_index in Ed as [Hd _]. apply nth_error_In in Hd.
    destruct (proj2 (field_index h t)) as [e ->]; [tauto|]. cbn. eauto.
Qed.
Print Assumptions C85_configured_columns.
Example C85_example :
  let h := {| h_names := map b ["p"; "t"; "recv_nanos"; "t"]%string; h_types := [] |} in
  let col := get_timestamp_col (fun s => s) h in
  col (CfgName (b "t")) = Ok (ColIndex 1, None) /\ col (CfgName (b "recv_nanos")) = Ok (ColIndex 2, Some Nanos) /\
  col (CfgIndex 2) = Ok (ColIndex 2, Some Nanos) /\ col (CfgDateTimeName (b "t") (b "p")) = Ok (ColDateTime 1 0, None) /\
  (exists e, col (CfgName (b "T")) = Err e).
Proof. vm_compute. do 4 (split; [reflexivity|]). eexists. reflexivity. Qed.

(** ** C86: the instant of a row *)
Lemma text_spec r col s : get_timestamp_string r col = Ok s <-> row_text r col s.
Proof.
  destruct col as [i|d t]; cbn [get_timestamp_string].
  - split.
    + destruct (nth_error r i) eqn:E; cbn; [intros [= <-]; now constructor|discriminate].
    + intro H. inversion H; subst. rewrite H1. reflexivity.
  - split.
    + destruct (nth_error r d) eqn:E; cbn; [|discriminate]. destruct (nth_error r t) eqn:E2; cbn; [|discriminate].
      intros [= <-]. now constructor.
    + intro H. inversion H as [|? ? x y Hx Hy]; subst. rewrite Hx, Hy. reflexivity.
Qed.
Lemma local_spec ch (z : tz ch) l : (exists i, from_local_datetime z l = Ok i /\ local_instant z l i) \/
  (exists e, from_local_datetime z l = Err e) /\ forall i, ~ local_instant z l i.
Proof.
  unfold from_local_datetime, local_instant. destruct z as [f|].
  - destruct (f l) eqn:E; [right|left|right].
    + split; [eauto|]. intros i (g & [= <-] & X). congruence.
    + eexists. split; [reflexivity|]. eauto.
    + split; [eauto|]. intros i (g & [= <-] & X). congruence.
  - right. split; [eauto|]. intros i (g & X & _). discriminate.
Qed.
(** The i64 conversion: instants outside of it panic or wrap. *)
Lemma nanos_spec prof i : (- 2 ^ 63 <= i < 2 ^ 63)%Z -> exists t, nanos_as_u64 prof i = Ok t /\ Z.of_N t = (i mod 2 ^ 64)%Z.
Proof.
  intro R. unfold nanos_as_u64, timestamp_nanos. destruct (Z.leb_spec (- 2 ^ 63) i); [|lia]. destruct (Z.ltb_spec i (2 ^ 63)); [|lia].
  cbn [andb bind]. eexists. split; [reflexivity|]. unfold to_unsigned. change (2 ^ Z.of_N 64)%Z with (2 ^ 64)%Z.
  rewrite Z2N.id; [reflexivity|]. apply Z.mod_pos_bound. lia.
Qed.
Lemma denotes_get prof ch z r col fmt s : calendar fmt -> row_text r col s ->
  (exists i, denotes (ch := ch) z fmt s i /\ get_timestamp prof ch r col fmt z = nanos_as_u64 prof i) \/
  (exists e, get_timestamp prof ch r col fmt z = Err e) /\ forall i, ~ denotes z fmt s i.
Proof.
  intros C T. apply text_spec in T. unfold get_timestamp, denotes. rewrite T. cbn [bind]. destruct fmt as [u|f|f|f].
  - now destruct (C u).
  - destruct (c_datetime ch f s); [left; eauto|right; split; [eauto|discriminate]].
  - destruct (c_naive ch f s) as [l|]; [|right; split; [eauto|intros i (l & X & _); discriminate]].
    destruct (local_spec ch z l) as [(i & -> & H)|[[e ->] H]]; [left; eauto|right; cbn; split; [eauto|]].
    intros i (l' & [= <-] & X). exact (H i X).
  - destruct (c_date ch f s) as [d|]; [|right; split; [eauto|intros i (l & X & _); discriminate]].
    destruct (local_spec ch z (c_midnight ch d)) as [(i & -> & H)|[[e ->] H]]; [left; eauto|right; cbn; split; [eauto|]].
    intros i (l' & [= <-] & X). exact (H i X).
Qed.
Lemma denotes_det ch (z : tz ch) fmt s i j : denotes z fmt s i -> denotes z fmt s j -> i = j.
Proof.
  destruct fmt as [u|f|f|f]; cbn; try tauto; try congruence.
  - intros (l & E & g & -> & H) (l' & E' & g' & [= <-] & H'). congruence.
  - intros (l & E & g & -> & H) (l' & E' & g' & [= <-] & H'). congruence.
Qed.
Theorem C86_instant_partial : forall prof ch (z : tz ch) r col fmt s, calendar fmt -> row_text r col s ->
  (* the timestamp is the instant the row's text denotes (as u64, C45), *)
  (forall i, denotes z fmt s i -> (- 2 ^ 63 <= i < 2 ^ 63)%Z ->
     exists t, get_timestamp prof ch r col fmt z = Ok t /\ Z.of_N t = (i mod 2 ^ 64)%Z) /\
  (* an error if it denotes none, *)
  ((forall i, ~ denotes z fmt s i) -> exists e, get_timestamp prof ch r col fmt z = Err e) /\
  (* and nothing else; a build with overflow checks turns no other instant into a timestamp. *)
  (forall t, get_timestamp prof ch r col fmt z = Ok t ->
     exists i, denotes z fmt s i /\ Z.of_N t = (i mod 2 ^ 64)%Z /\ (prof = Debug -> - 2 ^ 63 <= i < 2 ^ 63)%Z).
Proof.
  intros prof ch z r col fmt s C T. destruct (denotes_get prof ch z r col fmt s C T) as [(i & H & E)|[E H]].
  - split; [|split].
    + intros j Hj R. rewrite (denotes_det _ _ _ _ _ _ Hj H) in *. rewrite E. now apply nanos_spec.
    + intro N. destruct (N i H).
    + intros t Ht. exists i. split; [exact H|]. rewrite E in Ht. exact (wrap_spec _ _ _ Ht).
  - split; [|split].
    + intros j Hj. destruct (H j Hj).
    + intros _. exact E.
    + intros t Ht. destruct E as [e E]. congruence.
Qed.
Print Assumptions C86_instant_partial.
(** Outside of the years 1677 to 2262 a build with overflow checks crashes; without them the row
    gets a time, that of another instant unless the text's is between 1970 and 2554. *)
Theorem C86_far_instant_refuted : forall ch (z : tz ch) r col fmt s i, calendar fmt -> row_text r col s ->
  denotes z fmt s i -> (i < - 2 ^ 63 \/ 2 ^ 63 <= i)%Z ->
  get_timestamp Debug ch r col fmt z = Panic /\
  exists t, get_timestamp Release ch r col fmt z = Ok t /\ Z.of_N t = (i mod 2 ^ 64)%Z /\
    (Z.of_N t = i <-> 0 <= i < 2 ^ 64)%Z.
Proof.
  intros ch z r col fmt s i C T H R. split.
  - destruct (denotes_get Debug ch z r col fmt s C T) as [(j & Hj & ->)|[_ N]]; [|destruct (N i H)].
    rewrite (denotes_det _ _ _ _ _ _ Hj H). unfold nanos_as_u64, timestamp_nanos.
    destruct (Z.leb_spec (- 2 ^ 63) i); [destruct (Z.ltb_spec i (2 ^ 63)); [lia|reflexivity]|reflexivity].
  - destruct (denotes_get Release ch z r col fmt s C T) as [(j & Hj & ->)|[_ N]]; [|destruct (N i H)].
    rewrite (denotes_det _ _ _ _ _ _ Hj H). destruct (wrap_release i) as [t E]. exists t. split; [exact E|].
    apply wrap_spec in E as [E _]. split; [exact E|]. rewrite E. split.
    + intros <-. apply Z.mod_pos_bound. lia.
    + intro B. apply Z.mod_small. exact B.
Qed.
Print Assumptions C86_far_instant_refuted.
(** An ambiguous or skipped local time, or one without a zone, is never turned into an instant. *)
Theorem C86_local_times : forall ch (z : tz ch) f s,
  (forall i, denotes z (FDateTime f) s i <-> exists g l, z = Some g /\ c_naive ch f s = Some l /\ g l = LSingle i) /\
  (z = None -> forall i, ~ denotes z (FDateTime f) s i) /\
  (forall g l, z = Some g -> c_naive ch f s = Some l -> (g l = LNone \/ exists x y, g l = LAmbiguous x y) ->
     forall i, ~ denotes z (FDateTime f) s i).
Proof.
  intros ch z f s. cbn [denotes]. unfold local_instant. split; [|split].
  - intro i. split; [intros (l & A & g & B & C); eauto 6|intros (g & l & A & B & C); eauto 6].
  - intros -> i (l & _ & g & X & _). discriminate.
  - intros g l -> Hl H i (l' & Hl' & g' & [= <-] & X). rewrite Hl in Hl'. injection Hl' as <-. destruct H as [H|(x & y & H)]; congruence.
Qed.
Print Assumptions C86_local_times.
Example C86_example :
  let z : tz ymd := Some (fun l => if bytes_eqb l (b "20190101-00:00:00") then LSingle 1546300800000000000
                                   else if bytes_eqb l (b "20191103-01:30:00") then LAmbiguous 5 6 else LNone) in
  denotes z (FDateTime (b "%Y%m%d-%H:%M:%S")) (b "20190101-00:00:00") 1546300800000000000%Z /\
  get_timestamp Debug ymd [b "x"; b "20190101-00:00:00"] (ColIndex 1) (FDateTime (b "%Y%m%d-%H:%M:%S")) z = Ok 1546300800000000000%N /\
  (exists e, get_timestamp Debug ymd [b "20191103-01:30:00"] (ColIndex 0) (FDateTime (b "%Y%m%d-%H:%M:%S")) z = Err e).
Proof.
  cbn zeta. split; [|split].
  - eexists. split; [reflexivity|]. eexists. split; reflexivity.
  - vm_compute. reflexivity.
  - vm_compute. eexists. reflexivity.
Qed.

(** ** C87: the format *)
Lemma hint_single lower h cc col u : get_timestamp_col lower h cc = Ok (col, Some u) -> exists i, col = ColIndex i.
Proof.
  destruct cc; cbn [get_timestamp_col].
  - unfold auto_col. destruct (auto_found lower (h_names h)) as [tu d t ptu pd pt].
    cbn [time_with_units date time prefixed_time_with_units prefixed_date prefixed_time].
    destruct tu as [[? ?]|]; [intros [= <- <-]; eauto|]. destruct d; [destruct t; discriminate|]. destruct t; [discriminate|].
    destruct ptu as [[[? ?] ?]|]; [intros [= <- <-]; eauto|].
    destruct pd as [[? ?]|]; [destruct pt as [[? ?]|]; [destruct (bytes_eqb _ _)|]; discriminate|]. destruct pt as [[? ?]|]; discriminate.
  - intros [= <- _]. eauto.
  - discriminate.
  - destruct (get_field_index h n); cbn; try discriminate. intros [= <- _]. eauto.
  - destruct (get_field_index h d); cbn; try discriminate. destruct (get_field_index h t); discriminate.
Qed.
(** First format of a list that parses, as the program looks for it. *)
Lemma first_fmt_parsing ch {A} (parse : bytes -> bytes -> option A) (mk : bytes -> ts_fmt) s :
  (forall f, parses ch (mk f) s <-> parse f s <> None) ->
  forall fs, match first_fmt parse fs s with
             | Some (f, x) => parse f s = Some x /\ first_parsing ch (map mk fs) s (mk f)
             | None => Forall (fun g => ~ parses ch g s) (map mk fs)
             end.
Proof.
  intros Hp. induction fs as [|f fs IH]; cbn [first_fmt map]; [constructor|].
  destruct (parse f s) as [x|] eqn:E.
  - split; [exact E|]. exists [], (map mk fs). split; [reflexivity|]. split; [apply Hp; congruence|constructor].
  - assert (N : ~ parses ch (mk f) s) by (rewrite Hp; congruence).
    destruct (first_fmt parse fs s) as [[g x]|].
    + destruct IH as [Ex (p & q & Eq & P & F)]. split; [exact Ex|]. exists (mk f :: p), q. rewrite Eq. split; [reflexivity|]. split; [exact P|]. now constructor.
    + constructor; assumption.
Qed.
Lemma first_parsing_app ch l1 l2 s fmt : Forall (fun g => ~ parses ch g s) l1 -> first_parsing ch l2 s fmt -> first_parsing ch (l1 ++ l2) s fmt.
Proof. intros F (p & q & -> & P & G). exists (l1 ++ p), q. rewrite <- app_assoc. split; [reflexivity|]. split; [exact P|]. apply Forall_app. auto. Qed.
Lemma first_parsing_before ch l1 l2 s fmt : first_parsing ch l1 s fmt -> first_parsing ch (l1 ++ l2) s fmt.
Proof. intros (p & q & -> & P & G). exists p, (q ++ l2). rewrite <- app_assoc. auto. Qed.
Lemma first_parsing_det ch l s f g : first_parsing ch l s f -> first_parsing ch l s g -> f = g.
Proof.
  intros (p & q & -> & P & F) (p' & q' & E & P' & F'). revert p' F' E. induction p as [|x p IH]; intros [|x' p'] F' E; cbn [app] in E.
  - congruence.
  - injection E as <- _. inversion F'; subst. contradiction.
  - injection E as -> _. inversion F; subst. contradiction.
  - injection E as -> E. inversion F; inversion F'; subst. eauto.
Qed.
(** What the choice comes to: the first format that parses the first row's text, if the text then
    denotes an instant. *)
Definition outcome {ch} (z : tz ch) (l : list ts_fmt) (s : bytes) (r : res ts_fmt) (none : res ts_fmt) : Prop :=
  (exists fmt, first_parsing ch l s fmt /\
     ((exists i, denotes z fmt s i) /\ r = Ok fmt \/ (forall i, ~ denotes z fmt s i) /\ exists e, r = Err e)) \/
  (Forall (fun g => ~ parses ch g s) l /\ r = none).
Lemma fp_head ch fmt l s : parses ch fmt s -> first_parsing ch (fmt :: l) s fmt.
Proof. intro P. exists [], l. auto. Qed.
Lemma den_naive ch (z : tz ch) f s l : c_naive ch f s = Some l ->
  (exists i, denotes z (FDateTime f) s i) /\ (forall A (x : res A), (let* _ := from_local_datetime z l in x) = x) \/
  (forall i, ~ denotes z (FDateTime f) s i) /\ forall A (x : res A), exists e, (let* _ := from_local_datetime z l in x) = Err e.
Proof.
  intro E. destruct (local_spec ch z l) as [(i & -> & H)|[[e ->] H]]; [left|right]; (split; [|cbn; eauto]).
  - exists i, l. auto.
  - intros i (l' & E' & X). rewrite E in E'. injection E' as <-. exact (H i X).
Qed.
Lemma den_date ch (z : tz ch) f s d : c_date ch f s = Some d ->
  (exists i, denotes z (FDate f) s i) /\ (forall A (x : res A), (let* _ := from_local_datetime z (c_midnight ch d) in x) = x) \/
  (forall i, ~ denotes z (FDate f) s i) /\ forall A (x : res A), exists e, (let* _ := from_local_datetime z (c_midnight ch d) in x) = Err e.
Proof.
  intro E. destruct (local_spec ch z (c_midnight ch d)) as [(i & -> & H)|[[e ->] H]]; [left|right]; (split; [|cbn; eauto]).
  - exists i, d. auto.
  - intros i (l' & E' & X). rewrite E in E'. injection E' as <-. exact (H i X).
Qed.
Lemma outcome_naive ch (z : tz ch) l s f x : c_naive ch f s = Some x -> first_parsing ch l s (FDateTime f) ->
  forall none, outcome z l s (let* _ := from_local_datetime z x in Ok (FDateTime f)) none.
Proof.
  intros E P none. left. exists (FDateTime f). split; [exact P|].
  destruct (den_naive ch z f s x E) as [[D R]|[D R]]; [left|right]; (split; [exact D|]); apply R.
Qed.
Lemma outcome_date ch (z : tz ch) l s f x : c_date ch f s = Some x -> first_parsing ch l s (FDate f) ->
  forall none, outcome z l s (let* _ := from_local_datetime z (c_midnight ch x) in Ok (FDate f)) none.
Proof.
  intros E P none. left. exists (FDate f). split; [exact P|].
  destruct (den_date ch z f s x E) as [[D R]|[D R]]; [left|right]; (split; [exact D|]); apply R.
Qed.
Lemma user_outcome ch (z : tz ch) r col f s : row_text r col s ->
  outcome z (given f) s (fmt_user ch r col f z) (Err (ECustom "Cannot figure out if timestamp format requires timezone or not")).
Proof.
  intro T. apply text_spec in T. unfold fmt_user, given. rewrite T. cbn [bind].
  destruct (c_datetime ch f s) as [i|] eqn:E1.
  { left. exists (FDateTimeTz f). split; [apply fp_head; cbn; congruence|]. left. split; [exists i; exact E1|reflexivity]. }
  assert (N1 : ~ parses ch (FDateTimeTz f) s) by (cbn; congruence).
  destruct (c_naive ch f s) as [l|] eqn:E2.
  { apply outcome_naive; [exact E2|]. apply (first_parsing_app ch [_]); [now constructor|]. apply fp_head. cbn. congruence. }
  assert (N2 : ~ parses ch (FDateTime f) s) by (cbn; congruence).
  destruct (c_date ch f s) as [d|] eqn:E3.
  { apply outcome_date; [exact E3|]. apply (first_parsing_app ch [_; _]); [now repeat constructor|]. apply fp_head. cbn. congruence. }
  right. split; [|reflexivity]. constructor; [exact N1|]. constructor; [exact N2|]. constructor; [cbn; congruence|constructor].
Qed.
Lemma auto_index_outcome ch (z : tz ch) r i s : nth_error r i = Some s ->
  outcome z (documented (ColIndex i)) s (fmt_auto_index ch i z r None)
    (if all_digits s then
       match parse_u64 (chars s) with
       | None => Err (ECustom "number")
       | Some n => match detect_units n with Some u => Ok (FUnits u) | None => cannot_parse end
       end else cannot_parse).
Proof.
  intro T. unfold fmt_auto_index. rewrite T. cbn [unwrap bind].
  pose proof (first_fmt_parsing ch (c_datetime ch) FDateTimeTz s (fun f => conj (fun x => x) (fun x => x)) TIME_FORMATS_WITH_TZ) as P1.
  pose proof (first_fmt_parsing ch (c_naive ch) FDateTime s (fun f => conj (fun x => x) (fun x => x)) TIME_FORMATS_WITHOUT_TZ) as P2.
  pose proof (first_fmt_parsing ch (c_date ch) FDate s (fun f => conj (fun x => x) (fun x => x)) DATE_FORMATS_WITHOUT_TZ) as P3.
  change (documented (ColIndex i)) with (map FDateTimeTz TIME_FORMATS_WITH_TZ ++ map FDateTime TIME_FORMATS_WITHOUT_TZ ++ map FDate DATE_FORMATS_WITHOUT_TZ).
  destruct (first_fmt (c_datetime ch) _ s) as [[f x]|].
  { destruct P1 as [E P1]. left. exists (FDateTimeTz f). split; [now apply first_parsing_before|]. left. split; [exists x; exact E|reflexivity]. }
  destruct (first_fmt (c_naive ch) _ s) as [[f x]|].
  { destruct P2 as [E P2]. apply outcome_naive; [exact E|]. apply first_parsing_app; [exact P1|]. now apply first_parsing_before. }
  destruct (first_fmt (c_date ch) _ s) as [[f x]|].
  { destruct P3 as [E P3]. apply outcome_date; [exact E|]. apply first_parsing_app; [exact P1|]. now apply first_parsing_app. }
  right. split; [|reflexivity]. apply Forall_app. split; [exact P1|]. apply Forall_app. auto.
Qed.
Lemma auto_pair_outcome ch (z : tz ch) r d t s : row_text r (ColDateTime d t) s ->
  outcome z (documented (ColDateTime d t)) s (fmt_auto_datetime ch d t z r) cannot_parse.
Proof.
  intro T. apply text_spec in T. unfold fmt_auto_datetime. rewrite T. cbn [bind].
  pose proof (first_fmt_parsing ch (c_naive ch) FDateTime s (fun f => conj (fun x => x) (fun x => x)) DATETIME_FORMATS_WITHOUT_TZ) as P2.
  change (documented (ColDateTime d t)) with (map FDateTime DATETIME_FORMATS_WITHOUT_TZ).
  destruct (first_fmt (c_naive ch) _ s) as [[f x]|].
  { destruct P2 as [E P2]. now apply outcome_naive. }
  right. auto.
Qed.

Theorem C87_format : forall lower ch h first_row cc fc (z : tz ch) col hint s,
  get_timestamp_col lower h cc = Ok (col, hint) -> row_text first_row col s ->
  let choice := get_col_and_fmt ch lower h first_row cc fc z in
  (* a configured epoch unit is used, and else a unit in the column's name; *)
  (forall u, fc = FmtEpoch u -> choice = Ok (col, FUnits u)) /\
  (forall u, fc = FmtAuto -> hint = Some u -> choice = Ok (col, FUnits u)) /\
  (* otherwise the first format tried that reads the first row's text is used, if the text then
     denotes an instant, and it is an error if not; *)
  ((fc = FmtAuto -> hint = None) -> forall fmt, first_parsing ch (tried fc col) s fmt ->
     (forall i, denotes z fmt s i -> choice = Ok (col, fmt)) /\
     ((forall i, ~ denotes z fmt s i) -> exists e, choice = Err e)) /\
  (* if none reads it, it may be a number, in a single column without a configured format (C43) *)
  ((fc = FmtAuto -> hint = None) -> (forall u, fc <> FmtEpoch u) ->
   (forall fmt, In fmt (tried fc col) -> ~ parses ch fmt s) ->
   (exists e, choice = Err e) \/
   exists i u, fc = FmtAuto /\ col = ColIndex i /\ choice = Ok (col, FUnits u) /\
     exists n, numeral (chars s) n /\ plausible u n).
Proof.
  intros lower ch h first cc fc z col hint s Hc T choice. subst choice. unfold get_col_and_fmt. rewrite Hc. cbn [bind].
  split; [intros u ->; reflexivity|]. split.
  { intros u -> ->. destruct (hint_single _ _ _ _ _ Hc) as [i ->]. reflexivity. }
  set (r := match fc with FmtAuto => _ | FmtEpoch _ => _ | FmtExplicit _ => _ | FmtDateTimeExplicit _ _ => _ end).
  assert (O : (fc = FmtAuto -> hint = None) -> (forall u, fc <> FmtEpoch u) ->
    exists none, outcome z (tried fc col) s r none /\
      ((exists e, none = Err e) \/ exists i u, fc = FmtAuto /\ col = ColIndex i /\ none = Ok (FUnits u) /\ exists n, numeral (chars s) n /\ plausible u n)).
  { intros Hh He. subst r. destruct fc as [|u|f|d t]; [|now destruct (He u)|..].
    - rewrite (Hh eq_refl). destruct col as [i|d t]; cbn [fmt_auto tried].
      + inversion T; subst. eexists. split; [apply auto_index_outcome; assumption|].
        destruct (all_digits s) eqn:Ad; [|left; unfold cannot_parse; eauto].
        destruct (parse_u64 (chars s)) as [n|] eqn:Pn; [|left; eauto].
        destruct (detect_units n) as [u|] eqn:Du; [|left; unfold cannot_parse; eauto].
        right. exists i, u. split; [reflexivity|]. split; [reflexivity|]. split; [reflexivity|]. exists n. split; [|apply detect_spec, Du].
        apply parse_u64_spec in Pn as [_ [Pn|(t & Et & Pn)]]; [exact Pn|]. exfalso.
        unfold all_digits in Ad. rewrite Et in Ad. discriminate Ad.
      + eexists. split; [now apply auto_pair_outcome|]. left. unfold cannot_parse. eauto.
    - eexists. split; [now apply user_outcome|]. left. eauto.
    - eexists. split; [now apply user_outcome|]. left. eauto. }
  split.
  - intros Hh fmt P. assert (He : forall u, fc <> FmtEpoch u).
    { intros u ->. destruct P as (p & q & E & _). destruct p; discriminate E. }
    destruct (O Hh He) as (none & [(fmt' & P' & X)|[F _]] & _).
    + rewrite (first_parsing_det _ _ _ _ _ P P'). destruct X as [[(i & D) ->]|[D [e ->]]].
      * split; [reflexivity|]. intro N. destruct (N i D).
      * split; [intros i Hi; destruct (D i Hi)|]. cbn. eauto.
    + destruct P as (p & q & E & P & _). rewrite E in F. apply Forall_app in F as [_ F]. inversion F; subst. contradiction.
  - intros Hh He Hn. destruct (O Hh He) as (none & [(fmt' & (p & q & E & P & _) & X)|[F Er]] & W).
    + exfalso. apply (Hn fmt'); [|exact P]. rewrite E. apply in_elt.
    + rewrite Er. destruct W as [[e ->]|(i & u & E1 & E2 & E3 & E4)]; [left; cbn; eauto|].
      right. exists i, u. rewrite E3. auto.
Qed.
Print Assumptions C87_format.
Example C87_example :
  let z : tz ymd := Some (fun l => LSingle 5) in
  let h := {| h_names := map b ["a"; "t"]%string; h_types := [] |} in
  get_col_and_fmt ymd (fun s => s) h [b "x"; b "20190101-00:00:00"] (CfgName (b "t")) (FmtExplicit (b "%Y%m%d-%H:%M:%S")) z
    = Ok (ColIndex 1, FDateTime (b "%Y%m%d-%H:%M:%S")) /\
  (exists e, get_col_and_fmt ymd (fun s => s) h [b "x"; b "20190101-00:00:00"] (CfgName (b "t")) (FmtExplicit (b "%Y%m%d-%H:%M:%S")) (None : tz ymd) = Err e) /\
  first_parsing ymd (tried (FmtExplicit (b "%Y%m%d-%H:%M:%S")) (ColIndex 1)) (b "20190101-00:00:00") (FDateTime (b "%Y%m%d-%H:%M:%S")).
Proof.
  cbn zeta. split; [vm_compute; reflexivity|]. split; [vm_compute; eauto|].
  exists [FDateTimeTz (b "%Y%m%d-%H:%M:%S")], [FDate (b "%Y%m%d-%H:%M:%S")]. split; [reflexivity|].
  split; [vm_compute; discriminate|]. constructor; [|constructor]. vm_compute. auto.
Qed.

(** ** C88: naming the column that is chosen anyway *)
Lemma unit_last n u : ends_in_unit n (Some u) -> exists p, n = p ++ b "s".
Proof.
  intros [p ->]. destruct u; [exists (p ++ b "second")|exists (p ++ b "milli")|exists (p ++ b "micro")|exists (p ++ b "nano")];
    rewrite <- app_assoc; reflexivity.
Qed.
Lemma ends_in_unit_det n u v : ends_in_unit n u -> ends_in_unit n v -> u = v.
Proof.
  assert (R : forall (x y p q : bytes), p ++ x = q ++ y -> length x <= length y -> exists z, y = z ++ x).
  { intros x y p q E L. exists (firstn (length y - length x) y). rewrite <- (firstn_skipn (length y - length x) y) at 1. f_equal.
    assert (X : skipn (length p) (p ++ x) = x) by (rewrite skipn_app, skipn_all, Nat.sub_diag; reflexivity).
    rewrite <- X at 2. rewrite E, skipn_app. apply (f_equal (@length _)) in E. rewrite !app_length in E.
    rewrite (skipn_all2 q) by lia. cbn [app]. f_equal. lia. }
  assert (S : forall a c p q, p ++ unit_name a = q ++ unit_name c -> a = c).
  { intros a c p q E.
    assert (L : forall a c p q, p ++ unit_name a = q ++ unit_name c -> length (unit_name a) <= length (unit_name c) -> a = c).
    { clear a c p q E. intros a c p q E L. destruct (R _ _ _ _ E L) as [z Z].
      destruct a, c; trivial; exfalso;
        assert (Lz := f_equal (@length _) Z); rewrite app_length in Lz; cbn in Lz; try lia;
        do 3 (destruct z as [|? z]; cbn in Lz; try lia; try discriminate Z). }
    destruct (Nat.le_ge_cases (length (unit_name a)) (length (unit_name c))) as [H|H]; [now apply (L a c p q)|].
    symmetry. now apply (L c a q p). }
  destruct u as [u|], v as [v|]; cbn; trivial.
  - intros [p E] [q F]. f_equal. apply (S u v p q). congruence.
  - intros [p E] F. now destruct (F u p).
  - intros F [p E]. now destruct (F v p).
Qed.
Lemma pinned lower h i u n k : map lower (h_names h) = h_names h ->
  get_timestamp_col lower h CfgAuto = Ok (ColIndex i, u) -> nth_error (h_names h) i = Some n -> says n k ->
  ends_in_unit n u /\ first_named (h_names h) n i.
Proof.
  intros Hl A Hn K. apply C42_time_column in A. rewrite Hl in A.
  assert (NoUnit : forall p e : bytes, (forall q, e <> q ++ b "s") -> e <> [] -> ends_in_unit (p ++ e) None).
  { intros p e He Ne v q E. destruct (unit_last (p ++ e) v) as [q' E']; [exists q; exact E|].
    destruct (exists_last Ne) as (e0 & c & ->). rewrite app_assoc in E'. apply app_inj_tail in E' as [_ ->]. exact (He e0 eq_refl). }
  assert (Nd : forall q : bytes, b "date" <> q ++ b "s").
  { intros q E. assert (E' : b "dat" ++ b "e" = q ++ b "s") by exact E. apply app_inj_tail in E' as [_ X]. discriminate X. }
  assert (Nt : forall q : bytes, b "time" <> q ++ b "s").
  { intros q E. assert (E' : b "tim" ++ b "e" = q ++ b "s") by exact E. apply app_inj_tail in E' as [_ X]. discriminate X. }
  assert (G : forall class k', leftmost (h_names h) class i k' -> says n k' /\ first_named (h_names h) n i).
  { intros class k' ((n' & Hn' & S') & Ck & Lf). rewrite Hn in Hn'. injection Hn' as <-. split; [exact S'|].
    split; [exact Hn|]. intros j Hj Ej. exact (Lf j n k' Hj Ej S' Ck). }
  assert (Z : forall k', says n k' -> match k' with
     | TimeUnit v => ends_in_unit n (Some v) | PrefixedTimeUnit _ v => ends_in_unit n (Some v) | _ => ends_in_unit n None end).
  { intros k' S'. inversion S' as [v| | |p v Np Nb|p Np Nb|p Np Nb]; subst.
    - exists (b "time"). reflexivity.
    - apply (NoUnit [] (b "date")); [exact Nd|discriminate].
    - apply (NoUnit [] (b "time")); [exact Nt|discriminate].
    - exists (p ++ b "time"). now rewrite <- app_assoc.
    - apply NoUnit; [exact Nd|discriminate].
    - apply NoUnit; [exact Nt|discriminate]. }
  inversion A as [j v L|?d ?t|d A1 L A2|t A1 A2 L|j p v A1 A2 A3 L|?d ?t|d p A1 A2 A3 A4 L A5|t p A1 A2 A3 A4 A5 L|A1 A2 A3 A4 A5 A6]; subst;
    try (destruct (G _ _ L) as [S' F]; split; [exact (Z _ S')|exact F]).
  exfalso. apply nth_error_In in Hn. destruct k as [v| | |p v|p|p].
  - apply (A1 _ _ Hn K). now exists v.
  - now apply (A2 _ _ Hn K).
  - now apply (A3 _ _ Hn K).
  - apply (A4 _ _ Hn K). now exists p, v.
  - apply (A5 _ _ Hn K). now exists p.
  - apply (A6 _ _ Hn K). now exists p.
Qed.
(** What holds: for lower-case names, when the choice was by name. *)
Theorem C88_pinned_partial : forall lower h i u n k,
  map lower (h_names h) = h_names h ->
  get_timestamp_col lower h CfgAuto = Ok (ColIndex i, u) -> nth_error (h_names h) i = Some n -> says n k ->
  get_timestamp_col lower h (CfgIndex i) = Ok (ColIndex i, u) /\
  get_timestamp_col lower h (CfgName n) = Ok (ColIndex i, u).
Proof.
  intros lower h i u n k Hl A Hn K. destruct (pinned _ _ _ _ _ _ Hl A Hn K) as [E F].
  destruct (C85_configured_columns lower h) as (P1 & _ & P2 & _). split.
  - destruct (P1 i) as (v & -> & Hv). rewrite (ends_in_unit_det _ _ _ (Hv n Hn) E). reflexivity.
  - destruct (P2 n i F) as (v & -> & Hv). rewrite (ends_in_unit_det _ _ _ Hv E). reflexivity.
Qed.
Print Assumptions C88_pinned_partial.
Example C88_example :
  let h := {| h_names := map b ["px"; "timemillis"; "x"]%string; h_types := [] |} in
  map (fun s : bytes => s) (h_names h) = h_names h /\
  get_timestamp_col (fun s => s) h CfgAuto = Ok (ColIndex 1, Some Millis) /\ says (b "timemillis") (TimeUnit Millis).
Proof. split; [reflexivity|]. split; [vm_compute; reflexivity|]. apply (says_time_unit Millis). Qed.

(** The program violates it otherwise: the unit in a name is found whatever the case when the
    column is chosen automatically, but only in lower case when it is configured; the header the
    program itself writes (timeMillis etc.) is an instance. *)
Theorem C88_case_refuted : forall lower u rest types,
  let name := b "time" ++ to_suffix_str u in
  let h := {| h_names := name :: rest; h_types := types |} in
  lower name = b "time" ++ unit_name u ->
  get_timestamp_col lower h CfgAuto = Ok (ColIndex 0, Some u) /\
  get_timestamp_col lower h (CfgIndex 0) = Ok (ColIndex 0, None) /\
  get_timestamp_col lower h (CfgName name) = Ok (ColIndex 0, None).
Proof.
  intros lower u rest types name h Hl.
  assert (U : ends_in_unit name None).
  { intros v p E. subst name. destruct u, v; cbn [to_suffix_str unit_name] in E; do 12 (destruct p as [|? p]; [discriminate E|cbn in E; try discriminate E; injection E as _ E]); destruct p; discriminate E. }
  destruct (C85_configured_columns lower h) as (P1 & _ & P2 & _). split; [|split].
  - apply C42_time_column. apply chosen_time_unit. subst h. cbn [h_names map]. split; [|split].
    + exists (lower name). split; [reflexivity|]. rewrite Hl. constructor.
    + now exists u.
    + intros j n k Hj. lia.
  - destruct (P1 0) as (v & -> & Hv). rewrite (ends_in_unit_det _ _ _ (Hv name eq_refl) U). reflexivity.
  - destruct (P2 name 0) as (v & -> & Hv); [split; [reflexivity|lia]|]. rewrite (ends_in_unit_det _ _ _ Hv U). reflexivity.
Qed.
Print Assumptions C88_case_refuted.
(** and conversely a first column called, say, nanos is not taken for nanoseconds automatically,
    but is when configured. *)
Theorem C88_fallback_refuted : forall lower types,
  lower (b "nanos") = b "nanos" ->
  let h := {| h_names := [b "nanos"]; h_types := types |} in
  get_timestamp_col lower h CfgAuto = Ok (ColIndex 0, None) /\
  get_timestamp_col lower h (CfgIndex 0) = Ok (ColIndex 0, Some Nanos).
Proof. intros lower types Hl h. subst h. split; [|reflexivity]. cbn [get_timestamp_col h_names]. unfold auto_col, auto_found. cbn [map]. rewrite Hl. vm_compute. reflexivity. Qed.
Print Assumptions C88_fallback_refuted.

(** ** C89: bounds given as dates *)
Lemma range_formats_spec f : In f range_formats <-> bound_format f.
Proof.
  unfold range_formats, bound_format. rewrite in_flat_map. split.
  - intros (d & Hd & H). apply in_flat_map in H as (s & Hs & H). apply in_flat_map in H as (t & Ht & H). apply in_map_iff in H as (x & <- & Hx).
    exists d, s, t, x. auto.
  - intros (d & s & t & x & Hd & Hs & Ht & Hx & ->). exists d. split; [exact Hd|]. apply in_flat_map. exists s. split; [exact Hs|].
    apply in_flat_map. exists t. split; [exact Ht|]. apply in_map_iff. exists x. auto.
Qed.
Lemma first_fmt_in {A} (parse : bytes -> bytes -> option A) fs s :
  match first_fmt parse fs s with
  | Some (f, x) => In f fs /\ parse f s = Some x
  | None => forall f, In f fs -> parse f s = None
  end.
Proof.
  induction fs as [|f fs IH]; cbn; [tauto|]. destruct (parse f s) eqn:E; [auto|].
  destruct (first_fmt parse fs s) as [[g x]|]; [destruct IH; auto|]. intros g [<-|H]; auto.
Qed.
Theorem C89_bounds : forall prof ch (z : tz ch) cs, Forall scalar cs -> Exists (fun c => ~ digit c) cs ->
  let s := str cs in
  let bound := parse_range_element prof ch s z in
  (* a date and time with an offset *)
  (forall i, c_datetime ch (b "%+") s = Some i -> (- 2 ^ 63 <= i < 2 ^ 63)%Z -> exists t, bound = Ok t /\ Z.of_N t = (i mod 2 ^ 64)%Z) /\
  (* a local date and time in one of the formats, in the zone given *)
  (forall l, c_datetime ch (b "%+") s = None ->
     (exists f, bound_format f /\ c_naive ch f s = Some l) ->
     (forall f l', bound_format f -> c_naive ch f s = Some l' -> l' = l) ->
     (forall i, local_instant z l i -> (- 2 ^ 63 <= i < 2 ^ 63)%Z -> exists t, bound = Ok t /\ Z.of_N t = (i mod 2 ^ 64)%Z) /\
     ((forall i, ~ local_instant z l i) -> exists e, bound = Err e)) /\
  (* anything else *)
  (c_datetime ch (b "%+") s = None -> (forall f, bound_format f -> c_naive ch f s = None) -> exists e, bound = Err e).
Proof.
  intros prof ch z cs Hs Hd s bound. subst bound.
  assert (Ad : all_digits s = false).
  { unfold all_digits, s. rewrite chars_str by exact Hs. apply Exists_exists in Hd as (c & Hc & Nd).
    destruct (forallb is_digit cs) eqn:E; [|reflexivity]. rewrite forallb_forall in E. destruct Nd. apply digit_iff. auto. }
  unfold parse_range_element, complete. rewrite Ad. unfold parse_completed. cbn [first_fmt].
  pose proof (first_fmt_in (c_naive ch) range_formats s) as R. split; [|split].
  - intros i ->. apply nanos_spec.
  - intros l -> (f & Hf & Ef) U. destruct (first_fmt (c_naive ch) range_formats s) as [[g l']|].
    + destruct R as [Hg Eg]. rewrite (U g l' (proj1 (range_formats_spec g) Hg) Eg) in *.
      destruct (local_spec ch z l) as [(j & -> & Hj)|[[e ->] Hj]]; cbn [bind].
      * split; [|intro N; destruct (N j Hj)]. intros i Hi Ri. destruct Hi as (g1 & E1 & X1), Hj as (g2 & E2 & X2).
        assert (i = j) as <- by congruence. now apply nanos_spec.
      * split; [intros i Hi; destruct (Hj i Hi)|]. eauto.
    + exfalso. apply range_formats_spec in Hf. specialize (R f Hf). congruence.
  - intros -> N. destruct (first_fmt (c_naive ch) range_formats s) as [[g l']|]; [|eauto].
    exfalso. destruct R as [Hg Eg]. rewrite (N g (proj1 (range_formats_spec g) Hg)) in Eg. discriminate.
Qed.
Print Assumptions C89_bounds.
Example C89_example : bound_format (b "%Y-%m-%dT%H:%M:%S%.f") /\ bound_format (b "%Y%m%d-%H:%M:%S") /\
  Forall scalar (chars (b "20190101-00:00:00")) /\ Exists (fun c => ~ digit c) (chars (b "20190101-00:00:00")).
Proof.
  split; [exists (b "%Y-%m-%d"), (b "T"), (b "%H:%M:%S"), (b "%.f"); cbn; tauto|].
  split; [exists (b "%Y%m%d"), (b "-"), (b "%H:%M:%S"), []; cbn; tauto|].
  split; [|do 8 right; left; unfold digit; cbn; lia].
  apply Forall_forall. intros c Hc. vm_compute in Hc. unfold scalar.
  repeat (destruct Hc as [<-|Hc]; [lia|]). destruct Hc.
Qed.

(** ** C90: the delimiter argument *)
Theorem C90_delimiter : forall s d,
  parse_into_delimiter s = Ok d <->
  (s = [d] /\ (of_byte d < 128)%N) \/ (s = ["\"%char; "t"%char] /\ d = byte_of 9).
Proof.
  intros s d. unfold parse_into_delimiter. destruct (bytes_eqb s (b "\t")) eqn:E.
  - apply bytes_eqb_eq in E. subst s. split; [intros [= <-]; right; split; reflexivity|].
    intros [[X _]|[_ ->]]; [discriminate X|reflexivity].
  - assert (N : s <> ["\"%char; "t"%char]) by (intros ->; discriminate E). clear E.
    destruct s as [|c [|c2 s]].
    + split; [discriminate|]. intros [[X _]|[X _]]; discriminate X.
    + destruct (N.ltb_spec (of_byte c) 0x80) as [L|L].
      * split; [intros [= <-]; left; split; [reflexivity|exact L]|]. intros [[[= ->] _]|[X _]]; [reflexivity|contradiction].
      * split; [discriminate|]. intros [[[= ->] X]|[X _]]; [lia|contradiction].
    + split; [discriminate|]. intros [[X _]|[X _]]; [discriminate X|contradiction].
Qed.
Print Assumptions C90_delimiter.
Theorem C90_otherwise_error : forall s, (forall d, parse_into_delimiter s <> Ok d) -> exists e, parse_into_delimiter s = Err e.
Proof.
  intros s H. unfold parse_into_delimiter in *. destruct (bytes_eqb s (b "\t")); [now destruct (H (byte_of 9))|].
  destruct s as [|c [|c2 s]]; eauto. destruct (of_byte c <? 0x80)%N; [now destruct (H c)|eauto].
Qed.
Print Assumptions C90_otherwise_error.
Example C90_example : parse_into_delimiter (b ";") = Ok ";"%char /\ parse_into_delimiter (b "\t") = Ok (byte_of 9) /\
  (exists e, parse_into_delimiter (b "||") = Err e) /\ (exists e, parse_into_delimiter [] = Err e) /\
  (exists e, parse_into_delimiter (map byte_of [195; 167]%N) = Err e).
Proof. vm_compute. do 2 (split; [reflexivity|]). split; [eexists; reflexivity|]. split; eexists; reflexivity. Qed.

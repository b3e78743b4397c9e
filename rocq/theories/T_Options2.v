(** Property theorems about the options and the order of effects: C68-C70, C72. *)
From Verif Require Export T_Options CsvUtilProofs.

(** ** C70: column options *)
Lemma parse_usize_spec s i : parse_usize s = Some i <-> index_text s i.
Proof.
  unfold parse_usize, index_text. split.
  - destruct (parse_u64 (chars s)) as [n|] eqn:E; [|discriminate]. cbn. intros [= <-].
    apply parse_u64_spec in E. rewrite N2Nat.id. exact E.
  - intro H. apply parse_u64_spec in H. rewrite H. cbn. now rewrite Nat2N.id.
Qed.
Lemma parse_usize_none s : parse_usize s = None <-> forall i, ~ index_text s i.
Proof.
  split.
  - intros E i H. apply parse_usize_spec in H. congruence.
  - intro H. destruct (parse_usize s) as [i|] eqn:E; [|reflexivity]. apply parse_usize_spec in E. destruct (H i E).
Qed.

(** One column: a number is an index, anything else a name. *)
Theorem C70_single_column : forall a c, a_in_col_date a = None -> a_in_col a = Some c ->
  (forall i, index_text c i -> col_option a = Ok (CfgIndex i)) /\
  ((forall i, ~ index_text c i) -> col_option a = Ok (CfgName c)).
Proof.
  intros a c E1 E2. unfold col_option. rewrite E1, E2. split.
  - intros i H. apply parse_usize_spec in H. now rewrite H.
  - intro H. apply parse_usize_none in H. now rewrite H.
Qed.
Print Assumptions C70_single_column.

(** Separate date and time columns: two numbers are two indices, two others two names. *)
Theorem C70_two_columns_partial : forall a d t, a_in_col_date a = Some d -> a_in_col_time a = Some t ->
  (forall i j, index_text d i -> index_text t j -> col_option a = Ok (CfgDateTimeIndex i j)) /\
  ((forall i, ~ index_text d i) -> (forall j, ~ index_text t j) -> col_option a = Ok (CfgDateTimeName d t)).
Proof.
  intros a d t E1 E2. unfold col_option. rewrite E1, E2. cbn [unwrap bind]. split.
  - intros i j H1 H2. apply parse_usize_spec in H1, H2. now rewrite H1, H2.
  - intros H1 H2. apply parse_usize_none in H1, H2. now rewrite H1.
Qed.
Print Assumptions C70_two_columns_partial.

(** But if one is a number and the other is not, the number is taken for a name: without a
    column of that name the file is refused. *)
Theorem C70_mixed_refuted : forall a d t lower h, a_in_col_date a = Some d -> a_in_col_time a = Some t ->
  ((exists i, index_text d i) /\ (forall j, ~ index_text t j) \/ (forall i, ~ index_text d i) /\ (exists j, index_text t j)) ->
  exists cfg, col_option a = Ok cfg /\
    (~ In d (h_names h) \/ ~ In t (h_names h) -> exists e, get_timestamp_col lower h cfg = Err e).
Proof.
  intros a d t lower h E1 E2 M. exists (CfgDateTimeName d t). split.
  - unfold col_option. rewrite E1, E2. cbn [unwrap bind]. destruct M as [[[i H1] H2]|[H1 [j H2]]].
    + apply parse_usize_spec in H1. apply parse_usize_none in H2. now rewrite H1, H2.
    + apply parse_usize_none in H1. now rewrite H1.
  - assert (G : forall n, ~ In n (h_names h) -> exists e, get_field_index h n = Err e).
    { intros n Hn. destruct (get_field_index h n) as [i|e| | |] eqn:E; eauto; unfold get_field_index in E.
      - destruct (position _ _) as [k|] eqn:P; [|discriminate]. apply position_Some in P as ((x & P1 & P2) & _).
        apply bytes_eqb_eq in P2. subst. destruct Hn. eapply nth_error_In; eauto.
      - destruct (position _ _); discriminate.
      - destruct (position _ _); discriminate.
      - destruct (position _ _); discriminate. }
    intros Hn. cbn [get_timestamp_col]. destruct Hn as [Hn|Hn]; destruct (G _ Hn) as [e E].
    + rewrite E. cbn. eauto.
    + rewrite E. destruct (get_field_index h d) eqn:Ed; cbn; eauto; unfold get_field_index in Ed;
        destruct (position _ _); discriminate.
Qed.
Print Assumptions C70_mixed_refuted.

(** ** C72: options the parser accepts do not crash the program *)
Lemma letters_yes s : same_letters s (b "yes") -> parse_yes_no_auto s = Ok Yes.
Proof. intro H. unfold parse_yes_no_auto. assert (X : eq_ignore_ascii_case s (b "Yes") = true) by exact H. rewrite X. reflexivity. Qed.
Lemma letters_no s : same_letters s (b "no") -> exists v, parse_yes_no_auto s = Ok v.
Proof.
  intro H. unfold parse_yes_no_auto. destruct (eq_ignore_ascii_case s (b "Yes")); [eauto|].
  assert (X : eq_ignore_ascii_case s (b "No") = true) by exact H. rewrite X. eauto.
Qed.
Lemma letters_auto s : same_letters s (b "auto") -> exists v, parse_yes_no_auto s = Ok v.
Proof.
  intro H. unfold parse_yes_no_auto. destruct (eq_ignore_ascii_case s (b "Yes")); [eauto|].
  destruct (eq_ignore_ascii_case s (b "No")); [eauto|].
  assert (X : eq_ignore_ascii_case s (b "Auto") = true) by exact H. rewrite X. eauto.
Qed.
Lemma unit_known u : a_unit u -> exists v, units_from_str u = Ok v.
Proof. intros [<-|[<-|[<-|[<-|[]]]]]; cbn; eauto. Qed.

(** Every instant that --begin and --end can mean is between 1677 and 2262: 64 bits of
    nanoseconds. *)
Definition in_reach (ch : chrono) (z : tz ch) (s : bytes) : Prop :=
  (forall i, c_datetime ch (b "%+") (complete s) = Some i -> (- 2 ^ 63 <= i < 2 ^ 63)%Z) /\
  (forall f l g i, c_naive ch f (complete s) = Some l -> z = Some g -> g l = LSingle i -> (- 2 ^ 63 <= i < 2 ^ 63)%Z).
Lemma nanos_ok prof i : (- 2 ^ 63 <= i < 2 ^ 63)%Z -> exists n, nanos_as_u64 prof i = Ok n.
Proof.
  intro H. unfold nanos_as_u64, timestamp_nanos.
  destruct (Z.leb_spec (- 2 ^ 63) i); [|lia]. destruct (Z.ltb_spec i (2 ^ 63)); [|lia]. cbn. eauto.
Qed.
Lemma first_fmt_in {A} (parse : bytes -> bytes -> option A) fs s f x : first_fmt parse fs s = Some (f, x) -> In f fs /\ parse f s = Some x.
Proof.
  induction fs as [|g fs IH]; cbn; [discriminate|]. destruct (parse g s) eqn:E.
  - intros [= <- <-]. auto.
  - intro H. destruct (IH H). auto.
Qed.
Definition ends_well {A} (r : res A) : Prop := (exists x, r = Ok x) \/ exists e, r = Err e.
Lemma completed_well prof ch s z : in_reach ch z s -> ends_well (parse_completed prof ch (complete s) z).
Proof.
  intros [R1 R2]. unfold parse_completed.
  destruct (first_fmt (c_datetime ch) [b "%+"] (complete s)) as [[f i]|] eqn:E.
  - apply first_fmt_in in E as [[<-|[]] E]. destruct (nanos_ok prof i (R1 _ E)) as [n ->]. left. eauto.
  - destruct (first_fmt (c_naive ch) range_formats (complete s)) as [[f l]|] eqn:E2; [|right; eauto].
    apply first_fmt_in in E2 as [_ E2]. unfold from_local_datetime. destruct z as [g|]; [|right; cbn; eauto].
    destruct (g l) eqn:G; cbn [bind]; [right; eauto| |right; eauto].
    destruct (nanos_ok prof _ (R2 _ _ _ _ E2 eq_refl G)) as [n ->]. left. eauto.
Qed.
Lemma mul_well prof n m : (n * m < 2 ^ 64)%N -> ends_well (mul_u64 prof n m).
Proof. intro H. unfold mul_u64. destruct (N.ltb_spec (n * m) (2 ^ 64)); [left; eauto|lia]. Qed.
Lemma element_well prof ch s z : in_reach ch z s -> ends_well (parse_range_element prof ch s z).
Proof.
  intro R. unfold parse_range_element. destruct (all_digits s); [|now apply completed_well].
  destruct (parse_u64 (chars s)) as [n|]; [|right; eauto].
  destruct (RANGE_NANOS n); [left; eauto|].
  destruct (RANGE_MICROS n) eqn:E1; [|destruct (RANGE_MILLIS n) eqn:E2; [|destruct (RANGE_SECONDS n) eqn:E3; [|now apply completed_well]]];
    apply mul_well; [unfold RANGE_MICROS, in_range in E1|unfold RANGE_MILLIS, in_range in E2|unfold RANGE_SECONDS, in_range in E3];
    [apply andb_prop in E1 as [_ E]|apply andb_prop in E2 as [_ E]|apply andb_prop in E3 as [_ E]]; apply N.ltb_lt in E; lia.
Qed.
Lemma bind_well {A B} (m : res A) (f : A -> res B) : ends_well m -> (forall x, m = Ok x -> ends_well (f x)) -> ends_well (bind m f).
Proof. intros [[x ->]|[e ->]] H; [apply H; reflexivity|right; cbn; eauto]. Qed.
Lemma ok_well {A} (x : A) : ends_well (Ok x). Proof. left. eauto. Qed.

Lemma C72_proof prof ch table known w a z :
  clap_accepts a -> zone_meant (a_timezone a) (w_env_tz w) table known z ->
  (a_out_print_time a = b "yes" \/ a_out_print_time a = b "no") ->
  (forall s, a_begin a = Some s \/ a_end a = Some s -> in_reach ch (zone_in z) s) ->
  ends_well (parse_args prof ch table known w a).
Proof.
  intros (I1 & I2 & Hh & _ & He & Hg & Rc & Rf & _) Hz Hp Hr. unfold parse_args.
  apply C71_zone_partial in Hz. rewrite Hz. cbn [bind].
  apply bind_well.
  { unfold timestamp_range. apply bind_well.
    - destruct (a_begin a) as [s|]; [|apply ok_well]. apply bind_well; [apply element_well; auto|intros; apply ok_well].
    - intros x _. apply bind_well; [|intros; apply ok_well].
      destruct (a_end a) as [s|]; [|apply ok_well]. apply bind_well; [apply element_well; auto|intros; apply ok_well]. }
  intros rng _. apply bind_well.
  { unfold cli_inputs. destruct (rev (input_formats (a_formats a))) as [|l t] eqn:El.
    - exfalso. apply (f_equal (@rev _)) in El. rewrite rev_involutive in El. cbn in El.
      unfold input_formats in El. destruct (a_formats a) as [[|x fs]|]; [congruence|discriminate|discriminate].
    - destruct (a_inputs a) as [[|p ps]|]; [congruence|cbn; apply ok_well|apply ok_well]. }
  intros ins _. apply bind_well.
  { unfold csv_input_options. apply bind_well.
    - destruct Hh as [H|[H|H]]; [rewrite (letters_yes _ H); apply ok_well|destruct (letters_no _ H) as [v ->]; apply ok_well|
        destruct (letters_auto _ H) as [v ->]; apply ok_well].
    - intros hh _. apply bind_well; [|intros f _; apply bind_well].
      + unfold fmt_option. destruct (a_in_fmt_date a) as [d|].
        * destruct (a_in_fmt_time a) as [t|]; [apply ok_well|]. exfalso. apply (proj1 Rf); [discriminate|reflexivity].
        * destruct (a_in_fmt a); [apply ok_well|]. destruct (a_in_epoch a) as [u|]; [|apply ok_well].
          destruct (unit_known u (He _ eq_refl)) as [v ->]. apply ok_well.
      + unfold col_option. destruct (a_in_col_date a) as [d|].
        * destruct (a_in_col_time a) as [t|]; [|exfalso; apply (proj1 Rc); [discriminate|reflexivity]].
          cbn [unwrap bind]. destruct (parse_usize d); [destruct (parse_usize t)|]; apply ok_well.
        * destruct (a_in_col a) as [c|]; [destruct (parse_usize c)|]; apply ok_well.
      + intros c _. unfold csv_input_new. apply bind_well; [|intros; apply ok_well].
        destruct (a_in_delimiter a) as [d|]; [|apply ok_well]. apply bind_well; [|intros; apply ok_well].
        unfold parse_into_delimiter. destruct (bytes_eqb d _); [apply ok_well|].
        destruct d as [|x [|y d]]; try (right; eauto; fail). destruct (_ <? _)%N; [apply ok_well|right; eauto]. }
  intros ci _. apply bind_well; [|intros; apply ok_well].
  unfold csv_output_options. apply bind_well.
  - destruct Hp as [-> | ->]; apply ok_well.
  - intros pr _. apply bind_well; [|intros; apply ok_well].
    destruct (a_out_units a) as [u|]; [|apply ok_well]. destruct (unit_known u (Hg _ eq_refl)) as [v ->]. apply ok_well.
Qed.
(** Beyond what the parser checks, it takes a known time zone, --print-time in lower case, and
    bounds within the years 1678-2261. *)
Theorem C72_no_crash_partial : forall prof ch table known w a z,
  clap_accepts a -> zone_meant (a_timezone a) (w_env_tz w) table known z ->
  (a_out_print_time a = b "yes" \/ a_out_print_time a = b "no") ->
  (forall s, a_begin a = Some s \/ a_end a = Some s -> in_reach ch (zone_in z) s) ->
  (exists o, parse_args prof ch table known w a = Ok o) \/ exists e, parse_args prof ch table known w a = Err e.
Proof. exact C72_proof. Qed.
Print Assumptions C72_no_crash_partial.

(** The command line without options but the time zone, to vary below. *)
Definition plain_args (tz begin : option bytes) (print : bytes) : args :=
  {| a_inputs := Some [b "x.csv"]; a_formats := None; a_output := None; a_timezone := tz; a_begin := begin; a_end := None;
     a_in_delimiter := None; a_in_has_header := b "auto"; a_in_col := None; a_in_col_date := None; a_in_col_time := None;
     a_in_fmt := None; a_in_fmt_date := None; a_in_fmt_time := None; a_in_epoch := None; a_out_delimiter := b ",";
     a_out_print_time := print; a_out_time_name := None; a_out_epoch := false; a_out_units := Some (b "ns") |}.
Lemma plain_accepted tz begin print : same_letters print (b "yes") \/ same_letters print (b "no") -> clap_accepts (plain_args tz begin print).
Proof.
  intro H. unfold clap_accepts, plain_args, given; cbn. split; [discriminate|]. split; [discriminate|].
  split; [right; right; reflexivity|]. split; [exact H|]. split; [discriminate|].
  split; [intros u [= <-]; unfold a_unit; cbn; auto|]. tauto.
Qed.

(** --print-time YES is accepted and then crashes. *)
Theorem C72_print_time_case_refuted : forall prof ch table known w print,
  same_letters print (b "yes") \/ same_letters print (b "no") -> print <> b "yes" -> print <> b "no" ->
  w_env_tz w = None ->
  clap_accepts (plain_args None None print) /\
  parse_args prof ch table known w (plain_args None None print) = Panic.
Proof.
  intros prof ch table known w print H N1 N2 E. split; [now apply plain_accepted|].
  unfold parse_args, resolve_timezone, plain_args. cbn [a_timezone]. rewrite E. cbn [bind a_begin a_end timestamp_range].
  cbn [cli_inputs a_formats a_inputs]. unfold csv_input_options. cbn [a_in_has_header].
  cbn. unfold csv_output_options. cbn [a_out_print_time].
  destruct (bytes_eqb print (b "yes")) eqn:E1; [apply bytes_eqb_eq in E1; congruence|].
  destruct (bytes_eqb print (b "no")) eqn:E2; [apply bytes_eqb_eq in E2; congruence|]. reflexivity.
Qed.
Print Assumptions C72_print_time_case_refuted.
Example C72_YES : same_letters (b "YES") (b "yes") /\ b "YES" <> b "yes".
Proof. split; [reflexivity|discriminate]. Qed.

(** A bound outside the reach of 64 bits of nanoseconds crashes a build with overflow checks; any
    other build takes another instant for it. *)
Theorem C72_far_bound_refuted : forall ch table known w s i,
  w_env_tz w = None -> all_digits s = false -> c_datetime ch (b "%+") s = Some i -> (i < - 2 ^ 63 \/ 2 ^ 63 <= i)%Z ->
  clap_accepts (plain_args None (Some s) (b "yes")) /\
  parse_args Debug ch table known w (plain_args None (Some s) (b "yes")) = Panic /\
  (exists o, parse_args Release ch table known w (plain_args None (Some s) (b "yes")) = Ok o /\
     exists t, tr_begin (op_range ch o) = Some t /\ Z.of_N t = (i mod 2 ^ 64)%Z).
Proof.
  intros ch table known w s i E D C R. split; [apply plain_accepted; left; reflexivity|].
  unfold parse_args, resolve_timezone, plain_args. cbn [a_timezone]. rewrite E. cbn [bind a_begin a_end].
  unfold timestamp_range, parse_range_element, complete. rewrite !D.
  unfold parse_completed. cbn [first_fmt]. rewrite C.
  split.
  - destruct (nanos_as_u64 Debug i) as [t| | | |] eqn:N; try reflexivity.
    + apply wrap_spec in N as [_ N]. specialize (N eq_refl). lia.
    + revert N. unfold nanos_as_u64, timestamp_nanos. destruct (_ && _); discriminate.
    + revert N. unfold nanos_as_u64, timestamp_nanos. destruct (_ && _); discriminate.
    + revert N. unfold nanos_as_u64, timestamp_nanos. destruct (_ && _); discriminate.
  - destruct (wrap_release i) as [t N]. rewrite N. apply wrap_spec in N as [N _].
    eexists. split; [reflexivity|]. exists t. split; [reflexivity|exact N].
Qed.
Print Assumptions C72_far_bound_refuted.

(** C42-C46: time columns, epoch units, --begin/--end, calendar times. *)
From Verif Require Import TimestampModel TimestampSpec TimestampProofs CsvUtilProofs BytesProofs.
Local Open Scope nat_scope.

(** A chrono that parses nothing, and one that reads "<n>" / "-<n>" under "%+" as n nanoseconds. *)
Definition silent : chrono :=
  {| local := unit; day := unit; c_datetime := fun _ _ => None; c_naive := fun _ _ => None;
     c_date := fun _ _ => None; c_midnight := fun d => d |}.
Definition counting : chrono :=
  {| local := unit; day := unit;
     c_datetime := fun f s => if bytes_eqb f (b "%+") then parse_i64 (chars s) else None;
     c_naive := fun _ _ => None; c_date := fun _ _ => None; c_midnight := fun d => d |}.

(** ** C42 *)
Theorem C42_time_column lower h c :
  get_timestamp_col lower h CfgAuto = Ok c <-> chosen (map lower (h_names h)) c.
Proof.
  cbn [get_timestamp_col]. split.
  - intros [= <-]. apply auto_col_chosen.
  - intro H. f_equal. eapply chosen_det; [apply auto_col_chosen|exact H].
Qed.
Print Assumptions C42_time_column.

Theorem C42_within_header lower h c :
  get_timestamp_col lower h CfgAuto = Ok c -> h_names h <> [] ->
  match fst c with
  | ColIndex i => i < length (h_names h)
  | ColDateTime d t => d < length (h_names h) /\ t < length (h_names h)
  end.
Proof.
  intros H Ne. apply C42_time_column in H. rewrite <- (map_length lower (h_names h)).
  apply chosen_bounds; [exact H|]. intro E. apply map_eq_nil in E. contradiction.
Qed.
Print Assumptions C42_within_header.

(** A name is of at most one kind, so "the leftmost of a kind" is well determined. *)
Theorem C42_kinds_exclusive n k k' : says n k -> says n k' -> k = k'.
Proof. apply says_det. Qed.
Print Assumptions C42_kinds_exclusive.

Example C42_nonvacuous :
  let h ns := {| h_names := map b ns; h_types := [] |} in
  let col ns := get_timestamp_col (fun s => s) (h ns) CfgAuto in
  col ["price"; "opentime"; "timemillis"; "time"; "date"]%string = Ok (ColIndex 2, Some Millis) /\
  col ["time"; "x"; "date"; "date"]%string = Ok (ColDateTime 2 0, None) /\
  col ["opentime"; "opendate"; "closetime"]%string = Ok (ColDateTime 1 0, None) /\
  col ["closetime"; "opendate"; "opentime"]%string = Ok (ColIndex 1, None) /\
  col ["x"; "recvtimetimenanos"; "opentime"]%string = Ok (ColIndex 1, Some Nanos) /\
  col ["x"; "timetimenanos"; "timedate"]%string = Ok (ColIndex 0, None).
Proof. vm_compute. repeat split. Qed.

(** ** C43 *)

(** Detection from the first row: an all-digit text that no date format accepts is recognised as
    a number of the one unit in which it is plausible, or rejected if there is none. *)
Theorem C43_detected_unit ch i z first_row s n :
  nth_error first_row i = Some s -> Forall digit_byte s -> numeral (chars s) n -> no_date ch s ->
  (forall u, fmt_auto_index ch i z first_row None = Ok (FUnits u) <-> plausible u n) /\
  ((exists u, plausible u n) \/ exists e, fmt_auto_index ch i z first_row None = Err e).
Proof.
  intros Hs D Hn (A & B & C).
  assert (E : fmt_auto_index ch i z first_row None =
    match parse_u64 (chars s) with
    | None => Err (ECustom "number")
    | Some n => match detect_units n with Some u => Ok (FUnits u) | None => cannot_parse end
    end).
  { unfold fmt_auto_index. rewrite Hs. cbn [unwrap bind].
    cbn [first_fmt TIME_FORMATS_WITH_TZ]. rewrite A.
    repeat match goal with H : Forall _ (_ :: _) |- _ => let X := fresh in apply Forall_cons_iff in H; destruct H as [X H] end.
    cbn [first_fmt TIME_FORMATS_WITHOUT_TZ].
    repeat match goal with H : c_naive ch _ s = None |- _ => rewrite H; clear H end.
    cbn [first_fmt DATE_FORMATS_WITHOUT_TZ]. rewrite C, all_digits_true by exact D. reflexivity. }
  rewrite (parse_digits _ _ D Hn) in E.
  destruct (N.ltb_spec n (2 ^ 64)) as [L|L].
  - destruct (detect_units n) as [u|] eqn:Du.
    + split; [|left; exists u; apply detect_spec, Du]. intro v. rewrite E, <- detect_spec, Du. split; congruence.
    + split; [|right; rewrite E; eexists; reflexivity]. intro v. rewrite E, <- detect_spec, Du. split; discriminate.
  - split; [|right; rewrite E; eexists; reflexivity]. intro v. rewrite E. split; [discriminate|].
    intro P. apply plausible_fits in P. lia.
Qed.
Print Assumptions C43_detected_unit.

(** No number is plausible in two units; a plausible one, converted, never overflows. *)
Theorem C43_disjoint n u v : plausible u n -> plausible v n -> u = v.
Proof. apply plausible_one. Qed.
Print Assumptions C43_disjoint.

(** Any instant from 630000000 s to 2000000000 s, written as a whole number of any unit, is
    recognised as that unit, and the row's timestamp is the instant's nanoseconds: no
    overflow, the same for all units. *)
Theorem C43_same_instant prof ch i z first_row s instant u n :
  (630000000000000000 <= instant < 2000000000000000000)%N -> (instant = n * nanos_per u)%N ->
  nth_error first_row i = Some s -> Forall digit_byte s -> numeral (chars s) n -> no_date ch s ->
  fmt_auto_index ch i z first_row None = Ok (FUnits u) /\
  get_timestamp prof ch first_row (ColIndex i) (FUnits u) z = Ok instant.
Proof.
  intros R E Hs D Hn Nd.
  assert (P : plausible u n) by (unfold plausible; destruct u; cbn [nanos_per per_second] in *; lia).
  split; [apply (C43_detected_unit ch i z first_row s n); assumption|].
  destruct (plausible_fits _ _ P) as [F1 F2].
  rewrite (get_units _ _ _ _ _ _ s n).
  - rewrite mul_fits by exact F1. rewrite E. reflexivity.
  - cbn. rewrite Hs. reflexivity.
  - rewrite (parse_digits _ _ D Hn). destruct (N.ltb_spec n (2 ^ 64)); [reflexivity|lia].
Qed.
Print Assumptions C43_same_instant.

(** The same for --begin and --end. *)
Theorem C43_range_argument prof ch z s instant u n :
  (630000000000000000 <= instant < 2000000000000000000)%N -> (instant = n * nanos_per u)%N ->
  Forall digit_byte s -> numeral (chars s) n ->
  parse_range_element prof ch s z = Ok instant.
Proof.
  intros R E D Hn. unfold parse_range_element. rewrite all_digits_true, (parse_digits _ _ D Hn) by exact D.
  assert (P : plausible u n) by (unfold plausible; destruct u; cbn [nanos_per per_second] in *; lia).
  destruct (plausible_fits _ _ P) as [F1 F2].
  destruct (N.ltb_spec n (2 ^ 64)); [|lia].
  destruct (range_plausible n) as (A & B & C & G).
  assert (X : forall v, v <> u -> ~ plausible v n) by (intros v Hv Q; apply Hv; eapply plausible_one; eassumption).
  pose proof (X Nanos). pose proof (X Micros). pose proof (X Millis). pose proof (X Seconds).
  destruct (RANGE_NANOS n), (RANGE_MICROS n), (RANGE_MILLIS n), (RANGE_SECONDS n), u; cbn [nanos_per] in *;
    try (exfalso; intuition congruence); try (rewrite mul_fits by exact F1); rewrite ?E, ?N.mul_1_r; reflexivity.
Qed.
Print Assumptions C43_range_argument.

(** The hypotheses are met by the decimal text of every number, and such texts exist for the
    same instant in all four units. *)
Theorem C43_decimal_texts n : Forall digit_byte (dec n) /\ numeral (chars (dec n)) n.
Proof. split; [apply dec_digits|apply dec_numeral]. Qed.
Print Assumptions C43_decimal_texts.
Example C43_nonvacuous :
  let z : tz silent := None in
  let read s := let* f := fmt_auto_index silent 0 z [b s] None in
                get_timestamp Debug silent [b s] (ColIndex 0) f z in
  let t := Ok 1546300800000000000%N in
  read "1546300800"%string = t /\ read "1546300800000"%string = t /\
  read "1546300800000000"%string = t /\ read "1546300800000000000"%string = t /\
  read "2000000000"%string = Err (ECustom "Cannot parse timestamp. Please provide format for parsing.").
Proof. vm_compute. repeat split. Qed.

(** ** C44 *)

(** YYYY, YYYYMM and YYYYMMDD are never taken for epoch values: they mean what their completion
    to a full date and time means. *)
Theorem C44_completed prof ch z s : Forall digit_byte s ->
  (length s = 4 -> parse_range_element prof ch s z = parse_range_element prof ch (s ++ b "0101-00:00:00") z) /\
  (length s = 6 -> parse_range_element prof ch s z = parse_range_element prof ch (s ++ b "01-00:00:00") z) /\
  (length s = 8 -> parse_range_element prof ch s z = parse_range_element prof ch (s ++ b "-00:00:00") z).
Proof.
  intro D.
  assert (G : 4 <= length s <= 8 -> parse_range_element prof ch s z = parse_completed prof ch (complete s) z).
  { intro L. destruct (digits_numeral s D) as [n Hn]; [intros ->; cbn in L; lia|].
    unfold parse_range_element. rewrite all_digits_true, (parse_digits _ _ D Hn) by exact D.
    assert (Hb : (n < 10 ^ 8)%N).
    { eapply N.lt_le_trans; [apply numeral_bound; exact Hn|]. apply N.pow_le_mono_r; [lia|].
      rewrite chars_digits, map_length by exact D. lia. }
    change (10 ^ 8)%N with 100000000%N in Hb.
    destruct (N.ltb_spec n (2 ^ 64)); [|lia].
    destruct (range_plausible n) as (A & B & C & E). unfold plausible in *. cbn [per_second] in *.
    destruct (RANGE_NANOS n), (RANGE_MICROS n), (RANGE_MILLIS n), (RANGE_SECONDS n); trivial; exfalso; lia. }
  assert (F : forall r, all_digits (s ++ r) = false -> parse_range_element prof ch (s ++ r) z = parse_completed prof ch (s ++ r) z).
  { intros r Hr. unfold parse_range_element, complete. rewrite Hr. reflexivity. }
  assert (T : forall r, Forall (fun c => (of_byte c < 128)%N) r -> forallb is_digit (map of_byte r) = false ->
                all_digits (s ++ r) = false).
  { intros r Hr Hf. unfold all_digits. rewrite chars_ascii, map_app, forallb_app, Hf; [apply andb_false_r|].
    apply Forall_app. split; [|exact Hr]. eapply Forall_impl; [|exact D]. unfold digit_byte. intros; cbn in *; lia. }
  assert (As : forall r, forallb (fun c => (of_byte c <? 128)%N) r = true -> Forall (fun c => (of_byte c < 128)%N) r).
  { intros r Hr. apply Forall_forall. rewrite forallb_forall in Hr. intros x Hx. apply N.ltb_lt, Hr, Hx. }
  repeat split; intro L; rewrite G by lia; rewrite F by (apply T; [apply As|]; reflexivity);
    unfold complete; rewrite all_digits_true, L by exact D; reflexivity.
Qed.
Print Assumptions C44_completed.

(** An all-digit argument in a detection range is that instant, whatever chrono and the zone. *)
Theorem C44_epoch prof ch z s n u : Forall digit_byte s -> numeral (chars s) n -> plausible u n ->
  parse_range_element prof ch s z = Ok (n * nanos_per u)%N.
Proof.
  intros D Hn P. eapply C43_range_argument; [|reflexivity|exact D|exact Hn].
  unfold plausible in P. destruct u; cbn [per_second nanos_per] in *; lia.
Qed.
Print Assumptions C44_epoch.

(** Both arguments of --begin/--end are interpreted by the same rule, and a bad one is an error. *)
Theorem C44_range prof ch z bg en r :
  timestamp_range prof ch bg en z = Ok r <->
  (match bg with
   | None => tr_begin r = None
   | Some s => exists x, parse_range_element prof ch s z = Ok x /\ tr_begin r = Some x
   end /\
   match en with
   | None => tr_end r = None
   | Some s => exists x, parse_range_element prof ch s z = Ok x /\ tr_end r = Some x
   end).
Proof.
  unfold timestamp_range. destruct r as [x y].
  destruct bg as [s|]; [destruct (parse_range_element prof ch s z) as [v| | | |]|];
    (destruct en as [t|]; [destruct (parse_range_element prof ch t z) as [w| | | |]|]); cbn;
    (split; [intro H; inversion H; subst; repeat split; eauto
            |intros [P Q];
             repeat match goal with H : ex _ |- _ => destruct H as (? & ? & ?) end; congruence]).
Qed.
Print Assumptions C44_range.

(** A chrono for which completion matters: it reads %Y%m%d-%H:%M:%S. *)
Definition ymd : chrono :=
  {| local := bytes; day := unit; c_datetime := fun _ _ => None;
     c_naive := fun f s => if bytes_eqb f (b "%Y%m%d-%H:%M:%S") && (length s =? 17) then Some s else None;
     c_date := fun _ _ => None; c_midnight := fun _ => [] |}.
Example C44_nonvacuous :
  let z : tz ymd := Some (fun l => if bytes_eqb l (b "20190101-00:00:00") then LSingle 1546300800000000000 else LNone) in
  let t := Ok 1546300800000000000%N in
  parse_range_element Debug ymd (b "2019") z = t /\ parse_range_element Debug ymd (b "201901") z = t /\
  parse_range_element Debug ymd (b "20190101") z = t /\ parse_range_element Debug ymd (b "1546300800") z = t /\
  parse_range_element Debug ymd (b "201") z = Err (ECustom "Cannot parse either begin or end datetime provided").
Proof. vm_compute. repeat split. Qed.

(** ** C45 *)

(** Exactly when the order of two instants is kept by the conversion. *)
Theorem C45_order_exactly prof i j x y :
  (- 2 ^ 63 <= i < 2 ^ 63)%Z -> (- 2 ^ 63 <= j < 2 ^ 63)%Z ->
  nanos_as_u64 prof i = Ok x -> nanos_as_u64 prof j = Ok y -> (i < j)%Z ->
  ((x < y)%N <-> ~ (i < 0 <= j)%Z).
Proof.
  intros Ri Rj. unfold nanos_as_u64, timestamp_nanos.
  destruct ((_ <=? i)%Z && _) eqn:A; [|exfalso; apply andb_false_iff in A as [A|A]; [apply Z.leb_gt in A|apply Z.ltb_ge in A]; lia].
  destruct ((_ <=? j)%Z && _) eqn:B; [|exfalso; apply andb_false_iff in B as [B|B]; [apply Z.leb_gt in B|apply Z.ltb_ge in B]; lia].
  cbn [bind]. intros [= <-] [= <-] L. unfold to_unsigned.
  apply andb_prop in A, B. destruct A as [A1 A2], B as [B1 B2]. apply Z.leb_le in A1, B1. apply Z.ltb_lt in A2, B2.
  assert (M : forall k, (- 2 ^ 63 <= k < 2 ^ 63)%Z -> (k mod 2 ^ 64 = if k <? 0 then k + 2 ^ 64 else k)%Z).
  { intros k Hk. destruct (Z.ltb_spec k 0).
    - symmetry. apply Z.mod_unique with (-1)%Z; lia.
    - apply Z.mod_small. lia. }
  change (2 ^ Z.of_N 64)%Z with (2 ^ 64)%Z. rewrite !M by lia.
  destruct (Z.ltb_spec i 0), (Z.ltb_spec j 0); lia.
Qed.
Print Assumptions C45_order_exactly.

(** What holds: instants from 1970 on keep their value, hence their order, through a CSV file
    read with a format whose text carries its time zone, with a zone, or as a date. *)
Theorem C45_since_1970_partial prof ch z r col s i :
  get_timestamp_string r col = Ok s -> (0 <= i < 2 ^ 63)%Z ->
  (forall f, c_datetime ch f s = Some i -> get_timestamp prof ch r col (FDateTimeTz f) z = Ok (Z.to_N i)) /\
  (forall f l g, c_naive ch f s = Some l -> z = Some g -> g l = LSingle i ->
     get_timestamp prof ch r col (FDateTime f) z = Ok (Z.to_N i)) /\
  (forall f d g, c_date ch f s = Some d -> z = Some g -> g (c_midnight ch d) = LSingle i ->
     get_timestamp prof ch r col (FDate f) z = Ok (Z.to_N i)).
Proof.
  intros Hs R.
  assert (N : nanos_as_u64 prof i = Ok (Z.to_N i)).
  { unfold nanos_as_u64, timestamp_nanos. destruct (Z.leb_spec (- 2 ^ 63) i); [|lia].
    destruct (Z.ltb_spec i (2 ^ 63)); [|lia]. cbn [andb bind]. unfold to_unsigned.
    change (2 ^ Z.of_N 64)%Z with (2 ^ 64)%Z. rewrite Z.mod_small by lia. reflexivity. }
  unfold get_timestamp. rewrite Hs. cbn [bind]. repeat split.
  - intros f ->. exact N.
  - intros f l g -> -> E. cbn. rewrite E. exact N.
  - intros f d g -> -> E. cbn. rewrite E. exact N.
Qed.
Print Assumptions C45_since_1970_partial.

(** The program violates the property: for every chrono and record texts one of which denotes an
    instant before 1970 and the other one from 1970 on, the earlier one gets the larger
    timestamp. *)
Theorem C45_before_1970_refuted prof ch z r r' col s s' f i j :
  get_timestamp_string r col = Ok s -> get_timestamp_string r' col = Ok s' ->
  c_datetime ch f s = Some i -> c_datetime ch f s' = Some j ->
  (- 2 ^ 63 <= i < 0)%Z -> (0 <= j < 2 ^ 63)%Z ->
  exists x y, get_timestamp prof ch r col (FDateTimeTz f) z = Ok x /\
    get_timestamp prof ch r' col (FDateTimeTz f) z = Ok y /\ (i < j)%Z /\ (y < x)%N.
Proof.
  intros Hs Hs' Ci Cj Hi Hj. unfold get_timestamp. rewrite Hs, Hs'. cbn [bind]. rewrite Ci, Cj.
  assert (Q : forall k, (- 2 ^ 63 <= k < 2 ^ 63)%Z -> nanos_as_u64 prof k = Ok (to_unsigned 64 k)).
  { intros k Hk. unfold nanos_as_u64, timestamp_nanos. destruct (Z.leb_spec (- 2 ^ 63) k); [|lia].
    destruct (Z.ltb_spec k (2 ^ 63)); [|lia]. reflexivity. }
  exists (to_unsigned 64 i), (to_unsigned 64 j). rewrite !Q by lia. repeat split; [lia|].
  unfold to_unsigned. change (2 ^ Z.of_N 64)%Z with (2 ^ 64)%Z.
  rewrite (Z.mod_small j) by lia. rewrite <- (Z.mod_unique i (2 ^ 64) (-1) (i + 2 ^ 64)) by lia. lia.
Qed.
Print Assumptions C45_before_1970_refuted.
Example C45_nonvacuous :
  let get s := get_timestamp Debug counting [b s] (ColIndex 0) (FDateTimeTz (b "%+")) None in
  get "-1"%string = Ok (2 ^ 64 - 1)%N /\ get "0"%string = Ok 0%N /\ get "5"%string = Ok 5%N.
Proof. vm_compute. repeat split. Qed.

(** ** C46 *)

(** What holds: every u64 whose product with the unit fits is scaled exactly, by any build; a
    build with overflow checks never returns anything else. *)
Theorem C46_exact_partial prof ch z r col s n u :
  get_timestamp_string r col = Ok s -> numeral (chars s) n -> (n < 2 ^ 64)%N ->
  ((n * nanos_per u < 2 ^ 64)%N -> get_timestamp prof ch r col (FUnits u) z = Ok (n * nanos_per u)%N) /\
  ((2 ^ 64 <= n * nanos_per u)%N -> get_timestamp Debug ch r col (FUnits u) z = Panic).
Proof.
  intros Hs Hn L.
  assert (P : parse_u64 (chars s) = Some n) by (apply parse_u64_spec; auto).
  split; intro F; rewrite (get_units _ _ _ _ _ _ s n Hs P).
  - apply mul_fits, F.
  - unfold mul_u64. destruct (N.ltb_spec (n * nanos_per u) (2 ^ 64)); [lia|reflexivity].
Qed.
Print Assumptions C46_exact_partial.

(** The program violates the property: a release build silently wraps every product that does
    not fit. *)
Theorem C46_overflow_refuted ch z r col s n u :
  get_timestamp_string r col = Ok s -> numeral (chars s) n -> (n < 2 ^ 64)%N -> (2 ^ 64 <= n * nanos_per u)%N ->
  exists x, get_timestamp Release ch r col (FUnits u) z = Ok x /\ (x < 2 ^ 64)%N /\ x <> (n * nanos_per u)%N.
Proof.
  intros Hs Hn L F.
  assert (P : parse_u64 (chars s) = Some n) by (apply parse_u64_spec; auto).
  rewrite (get_units _ _ _ _ _ _ s n Hs P). unfold mul_u64.
  destruct (N.ltb_spec (n * nanos_per u) (2 ^ 64)); [lia|].
  eexists. split; [reflexivity|].
  assert (M : ((n * nanos_per u) mod 2 ^ 64 < 2 ^ 64)%N) by (apply N.mod_lt; lia). lia.
Qed.
Print Assumptions C46_overflow_refuted.
Example C46_nonvacuous :
  get_timestamp Release silent [b "18446744074"] (ColIndex 0) (FUnits Seconds) None = Ok 290448384%N /\
  get_timestamp Debug silent [b "18446744074"] (ColIndex 0) (FUnits Seconds) None = Panic /\
  get_timestamp Debug silent [b "18446744073"] (ColIndex 0) (FUnits Seconds) None = Ok 18446744073000000000%N.
Proof. vm_compute. repeat split. Qed.

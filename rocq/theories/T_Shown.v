(** Times written for reading (no -E) and read back: C119. *)
From Verif Require Import DateTextProofs CalendarProofs ZoneProofs T_Time T_DateText T_Bounds CsvSpec TimestampSpec.
Local Open Scope Z_scope.

Lemma digit_figure n : ChronoModel.digit n = figure (n mod 10). Proof. reflexivity. Qed.
Lemma fixed_two n : 0 <= n < 100 -> fixed_digits 2 n = two n.
Proof. intros H. cbn [fixed_digits app]. rewrite !digit_figure. unfold two. now replace (n / 10 mod 10) with (n / 10) by lia. Qed.
Lemma padded_two n : 0 <= n < 100 -> padded 2 ZeroPad n = two n.
Proof. intros H. unfold padded. change (10 ^ Z.of_nat 2) with 100. destruct (Z.ltb_spec n 100); [|lia]. apply fixed_two, H. Qed.
Lemma padded_four n : 0 <= n <= 9999 -> padded 4 ZeroPad n = four n.
Proof.
  intros H. unfold padded. change (10 ^ Z.of_nat 4) with 10000. destruct (Z.ltb_spec n 10000); [|lia].
  cbn [fixed_digits app]. rewrite !digit_figure. unfold four, two. cbn [app].
  replace (n / 10 / 10 / 10 mod 10) with (n / 100 / 10) by lia. replace (n / 10 / 10 mod 10) with (n / 100 mod 10) by lia.
  replace (n / 10 mod 10) with (n mod 100 / 10) by lia. now replace (n mod 10) with (n mod 100 mod 10) by lia.
Qed.
Fixpoint digit_list (k : nat) (n : Z) : list Z := match k with O => [] | S k' => digit_list k' (n / 10) ++ [n mod 10] end.
Lemma fixed_figures k n : fixed_digits k n = figures (digit_list k n).
Proof.
  revert n. induction k as [|k IH]; intros n; [reflexivity|]. cbn [fixed_digits digit_list]. unfold figures in *. rewrite map_app, IH. reflexivity.
Qed.
Lemma digit_list_fine k n : Forall (fun d => 0 <= d < 10) (digit_list k n).
Proof.
  revert n. induction k as [|k IH]; intros n; [constructor|]. cbn [digit_list]. apply Forall_app. split; [apply IH|]. constructor; [lia|constructor].
Qed.
Lemma nanos3 n : 0 <= n < 1000 -> nanos_of (digit_list 3 n) = n * 1000000.
Proof. intros H. cbn [digit_list app]. unfold nanos_of. cbn [nanos_from]. change (100000000 / 10) with 10000000. change (10000000 / 10) with 1000000. lia. Qed.
Lemma nanos6 n : 0 <= n < 1000000 -> nanos_of (digit_list 6 n) = n * 1000.
Proof.
  intros H. cbn [digit_list app]. unfold nanos_of. cbn [nanos_from]. change (100000000 / 10) with 10000000. change (10000000 / 10) with 1000000.
  change (1000000 / 10) with 100000. change (100000 / 10) with 10000. change (10000 / 10) with 1000. lia.
Qed.
Lemma nanos9 n : 0 <= n < 1000000000 -> nanos_of (digit_list 9 n) = n.
Proof.
  intros H. cbn [digit_list app]. unfold nanos_of. cbn [nanos_from]. change (100000000 / 10) with 10000000. change (10000000 / 10) with 1000000.
  change (1000000 / 10) with 100000. change (100000 / 10) with 10000. change (10000 / 10) with 1000. change (1000 / 10) with 100.
  change (100 / 10) with 10. change (10 / 10) with 1. lia.
Qed.
Lemma show_offset_text off : (60 | off) -> -86400 < off < 86400 -> exists o, offset_text (show_offset true off) o /\ o = off.
Proof.
  intros [k ->] H. unfold show_offset. rewrite !fixed_two by lia. destruct (Z.ltb_spec (k * 60) 0).
  - eexists. split; [apply off_west; lia|]. lia.
  - eexists. split; [apply off_east; lia|]. lia.
Qed.
Lemma year_range day y m d : -1 <= day <= 213505 -> days_since_1970 (y, m, d) day -> 0 <= y <= 9999.
Proof.
  intros H D. apply days_iff in D. destruct D as [(n & Hn & Hd) E]. apply month_nth in Hn. destruct Hn as [Hm <-].
  pose proof (nth_length y m Hm).
  assert (S : 0 <= sum_Z (firstn (Z.to_nat (m - 1)) (month_lengths y)) <= 366).
  { assert (C : (Z.to_nat (m - 1) < 12)%nat) by lia. destruct (Z.to_nat (m - 1)) as [|[|[|[|[|[|[|[|[|[|[|[|k]]]]]]]]]]]]; [..|lia];
      unfold month_lengths; destruct (is_leap y); cbv; split; discriminate. }
  unfold day_number, before_year in E. lia.
Qed.

Local Notation shown z u t := (show_in z (calendar_format u) (t / 1000000000) (t mod 1000000000)).
Local Notation rounded u t := (t - t mod nanos_per u)%N.

Lemma rounded_le u t : (rounded u t <= t)%N.
Proof. apply N.le_sub_l. Qed.
Lemma rounded_small u t : (t < 2 ^ 63)%N -> 0 <= Z.of_N (rounded u t) < 2 ^ 63.
Proof.
  intros H. pose proof (rounded_le u t) as L. split; [apply N2Z.is_nonneg|]. change (2 ^ 63) with (Z.of_N (2 ^ 63)).
  apply N2Z.inj_lt. eapply N.le_lt_trans; eassumption.
Qed.
Lemma fits_more t : (t < 2 ^ 63)%N -> (t < 2 ^ 64)%N.
Proof. intros H. eapply N.lt_trans; [exact H|reflexivity]. Qed.
Lemma small_mod x : 0 <= x < 2 ^ 63 -> x mod 2 ^ 64 = x.
Proof. intros H. apply Z.mod_small. split; [apply H|]. eapply Z.lt_trans; [apply H|reflexivity]. Qed.
Lemma small_range x : 0 <= x < 2 ^ 63 -> - 2 ^ 63 <= x < 2 ^ 63.
Proof. intros [H1 H2]. split; [|exact H2]. eapply Z.le_trans; [|exact H1]. discriminate. Qed.
Lemma shown_iso z u t : (t < 2 ^ 64)%N -> whole_minutes z (Z.of_N (t / 1000000000)) ->
  iso_text (shown z u t) (Z.of_N (rounded u t)).
Proof.
  intros Ht [W1 W2]. unfold show_in. set (off := offset_at z (Z.of_N (t / 1000000000))) in *.
  unfold local_at. fold off. set (n := (t mod 1000000000)%N). set (secs := Z.of_N (t / 1000000000)) in *.
  assert (Hsecs : 0 <= secs <= 18446744073) by (unfold secs; lia).
  assert (Hn : 0 <= Z.of_N n < 1000000000) by (unfold n; lia).
  set (T := secs + off). assert (HT : -86400 < T < 18446830474) by (unfold T; lia).
  destruct (ymd (T / 86400)) as [[y m] d] eqn:E. pose proof (proj1 (ymd_iff y m d (T / 86400)) E) as D.
  assert (Hy : 0 <= y <= 9999) by (eapply year_range; [|exact D]; lia).
  set (h := T mod 86400 / 3600). set (mi := T mod 86400 / 60 mod 60). set (s := T mod 86400 mod 60).
  assert (Hh : 0 <= h < 24) by (unfold h; lia). assert (Hmi : 0 <= mi < 60) by (unfold mi; lia). assert (Hs : 0 <= s < 60) by (unfold s; lia).
  assert (Hsum : T mod 86400 = 3600 * h + 60 * mi + s) by (unfold h, mi, s; lia).
  assert (Hmd : 0 <= m < 100 /\ 0 <= d < 100).
  { apply days_iff in D. destruct D as [(k & Hk & Hd) _]. apply month_nth in Hk. destruct Hk as [Hk <-]. pose proof (nth_length y m Hk). lia. }
  destruct (show_offset_text off W1 W2) as (o & Ho & Eo).
  set (l := {| s_day := T / 86400; s_sec := T mod 86400; s_nano := Z.of_N n |}).
  assert (Key : forall f fs, 0 <= f < 1000000000 ->
            (fs = [] /\ f = 0 \/ exists ds, fs = b "." ++ figures ds /\ some_figures ds /\ f = nanos_of ds) ->
            iso_text (four y ++ b "-" ++ two m ++ b "-" ++ two d ++ b "T" ++ two h ++ b ":" ++ two mi ++ b ":" ++ two s ++ fs ++ show_offset true off)
              (secs * 1000000000 + f)).
  { intros f fs Hf F.
    replace (secs * 1000000000 + f) with ((86400 * s_day {| s_day := T / 86400; s_sec := T mod 86400; s_nano := f |} +
       s_sec {| s_day := T / 86400; s_sec := T mod 86400; s_nano := f |} - o) * 1000000000 + s_nano {| s_day := T / 86400; s_sec := T mod 86400; s_nano := f |})
      by (cbn [s_day s_sec s_nano]; unfold T; lia).
    apply (iso y m d h mi s f fs (show_offset true off) o); [|exact Ho|exact F].
    constructor; cbn [s_day s_sec s_nano]; [exact Hy|exact D|repeat split; lia|exact Hsum|reflexivity]. }
  assert (Show : forall fr, (forall i, In i fr -> exists k, i = Frac (Some k)) ->
     flat_map (show_item l off) ([Num FYear ZeroPad; Literal 45; Num FMonth ZeroPad; Literal 45; Num FDay ZeroPad; Literal 84;
        Num FHour ZeroPad; Literal 58; Num FMinute ZeroPad; Literal 58; Num FSecond ZeroPad] ++ fr ++ [Offset true])
     = four y ++ b "-" ++ two m ++ b "-" ++ two d ++ b "T" ++ two h ++ b ":" ++ two mi ++ b ":" ++ two s ++ flat_map (show_item l off) fr ++ show_offset true off).
  { intros fr _. cbn [app flat_map]. rewrite flat_map_app. cbn [flat_map]. unfold show_item at 1 2 3 4 5 6 7 8 9 10 11 13.
    cbn [s_day s_sec s_nano l]. rewrite E. rewrite padded_four by exact Hy. rewrite !(padded_two m), !(padded_two d) by lia.
    fold h mi s. rewrite (padded_two h), (padded_two mi) by lia. replace (s + Z.of_N n / 1000000000) with s by lia.
    rewrite (padded_two s) by lia. rewrite app_nil_r. reflexivity. }
  destruct u.
  - change (items (chars (calendar_format Seconds))) with ([Num FYear ZeroPad; Literal 45; Num FMonth ZeroPad; Literal 45; Num FDay ZeroPad; Literal 84;
        Num FHour ZeroPad; Literal 58; Num FMinute ZeroPad; Literal 58; Num FSecond ZeroPad] ++ [] ++ [Offset true]).
    fold l. rewrite Show by (intros i []). cbn [flat_map].
    replace (Z.of_N (t - t mod nanos_per Seconds)) with (secs * 1000000000 + 0) by (cbn [nanos_per]; unfold secs; lia).
    apply Key; [lia|]. left. split; reflexivity.
  - change (items (chars (calendar_format Millis))) with ([Num FYear ZeroPad; Literal 45; Num FMonth ZeroPad; Literal 45; Num FDay ZeroPad; Literal 84;
        Num FHour ZeroPad; Literal 58; Num FMinute ZeroPad; Literal 58; Num FSecond ZeroPad] ++ [Frac (Some 3%nat)] ++ [Offset true]).
    fold l. rewrite Show by (intros i [<-|[]]; eauto). cbn [flat_map]. rewrite app_nil_r. unfold show_item at 1. cbn [s_day l]. rewrite E. cbn [s_nano l].
    replace (Z.of_N (t - t mod nanos_per Millis)) with (secs * 1000000000 + Z.of_N n / 1000000 * 1000000) by (cbn [nanos_per]; unfold secs, n; lia).
    apply Key; [lia|]. right. exists (digit_list 3 (Z.of_N n / 1000000)). change (10 ^ Z.of_nat (9 - 3)) with 1000000. rewrite fixed_figures.
    replace (Z.of_N n mod 1000000000 / 1000000) with (Z.of_N n / 1000000) by lia. split; [reflexivity|].
    split; [split; [destruct (digit_list 2 (Z.of_N n / 1000000 / 10)); discriminate|apply digit_list_fine]|]. symmetry. apply nanos3. lia.
  - change (items (chars (calendar_format Micros))) with ([Num FYear ZeroPad; Literal 45; Num FMonth ZeroPad; Literal 45; Num FDay ZeroPad; Literal 84;
        Num FHour ZeroPad; Literal 58; Num FMinute ZeroPad; Literal 58; Num FSecond ZeroPad] ++ [Frac (Some 6%nat)] ++ [Offset true]).
    fold l. rewrite Show by (intros i [<-|[]]; eauto). cbn [flat_map]. rewrite app_nil_r. unfold show_item at 1. cbn [s_day l]. rewrite E. cbn [s_nano l].
    replace (Z.of_N (t - t mod nanos_per Micros)) with (secs * 1000000000 + Z.of_N n / 1000 * 1000) by (cbn [nanos_per]; unfold secs, n; lia).
    apply Key; [lia|]. right. exists (digit_list 6 (Z.of_N n / 1000)). change (10 ^ Z.of_nat (9 - 6)) with 1000. rewrite fixed_figures.
    replace (Z.of_N n mod 1000000000 / 1000) with (Z.of_N n / 1000) by lia. split; [reflexivity|].
    split; [split; [destruct (digit_list 5 (Z.of_N n / 1000 / 10)); discriminate|apply digit_list_fine]|]. symmetry. apply nanos6. lia.
  - change (items (chars (calendar_format Nanos))) with ([Num FYear ZeroPad; Literal 45; Num FMonth ZeroPad; Literal 45; Num FDay ZeroPad; Literal 84;
        Num FHour ZeroPad; Literal 58; Num FMinute ZeroPad; Literal 58; Num FSecond ZeroPad] ++ [Frac (Some 9%nat)] ++ [Offset true]).
    fold l. rewrite Show by (intros i [<-|[]]; eauto). cbn [flat_map]. rewrite app_nil_r. unfold show_item at 1. cbn [s_day l]. rewrite E. cbn [s_nano l].
    replace (Z.of_N (t - t mod nanos_per Nanos)) with (secs * 1000000000 + Z.of_N n) by (cbn [nanos_per]; unfold secs, n; lia).
    apply Key; [lia|]. right. exists (digit_list 9 (Z.of_N n)). change (10 ^ Z.of_nat (9 - 9)) with 1. rewrite fixed_figures.
    replace (Z.of_N n mod 1000000000 / 1) with (Z.of_N n) by lia. split; [reflexivity|].
    split; [split; [destruct (digit_list 8 (Z.of_N n / 10)); discriminate|apply digit_list_fine]|]. symmetry. apply nanos9. lia.
Qed.

(** ** C119 *)
(** C119: a time written for reading is an ISO 8601 time; its instant is the row's, rounded down to the unit of the
    output. *)
Theorem C119_shown : forall z u t, (t < 2 ^ 64)%N -> whole_minutes z (Z.of_N (t / 1000000000)) ->
  exists i, iso_text (show_in z (calendar_format u) (t / 1000000000) (t mod 1000000000)) (Z.of_N i) /\
    (i <= t < i + nanos_per u)%N /\ (i mod nanos_per u = 0)%N.
Proof.
  intros z u t Ht W. exists (rounded u t). split; [exact (shown_iso z u t Ht W)|].
  destruct u; cbn [nanos_per]; lia.
Qed.
Print Assumptions C119_shown.

(** Read again, it is that instant, whatever the zone of the reader: by the format detected from a first row written
    the same way. *)
Theorem C119_read_back : forall prof o lower h first_row cc z z' u u' c t0 t,
  (t < 2 ^ 63)%N -> (t0 < 2 ^ 64)%N -> whole_minutes z (Z.of_N (t / 1000000000)) -> whole_minutes z (Z.of_N (t0 / 1000000000)) ->
  let text u t := show_in z (calendar_format u) (t / 1000000000) (t mod 1000000000) in
  get_timestamp_col lower h cc = Ok (ColIndex c, None) -> row_text first_row (ColIndex c) (text u' t0) ->
  get_col_and_fmt (civil o) lower h first_row cc FmtAuto z' = Ok (ColIndex c, FDateTimeTz (b "%+")) /\
  forall r, row_text r (ColIndex c) (text u t) ->
    get_timestamp prof (civil o) r (ColIndex c) (FDateTimeTz (b "%+")) z' = Ok (t - t mod nanos_per u)%N.
Proof.
  intros prof o lower h first_row cc z z' u u' c t0 t Ht Ht0 W W0 text Hc H0.
  destruct (C116_iso prof o lower h first_row cc z' c (text u' t0) (Z.of_N (rounded u' t0)) Hc H0 (shown_iso z u' t0 Ht0 W0)) as [A B].
  split; [exact A|]. intros r Hr.
  pose proof (fits_more t Ht) as Ht'. pose proof (rounded_small u t Ht) as R.
  destruct (B r (text u t) (Z.of_N (rounded u t)) Hr (shown_iso z u t Ht' W)) as (n & E & En).
  { exact (small_range _ R). }
  rewrite E. f_equal. apply N2Z.inj. rewrite En. exact (small_mod _ R).
Qed.
Print Assumptions C119_read_back.
(** As an argument of --begin or --end it is that instant too. *)
Theorem C119_bound : forall prof o z z' u t, (t < 2 ^ 63)%N -> whole_minutes z (Z.of_N (t / 1000000000)) ->
  parse_range_element prof (civil o) (show_in z (calendar_format u) (t / 1000000000) (t mod 1000000000)) z' = Ok (t - t mod nanos_per u)%N.
Proof.
  intros prof o z z' u t Ht W.
  pose proof (fits_more t Ht) as Ht'. pose proof (rounded_small u t Ht) as R.
  destruct (C118_iso prof o z' (shown z u t) (Z.of_N (rounded u t)) (shown_iso z u t Ht' W)) as (n & E & En); [exact (small_range _ R)|].
  rewrite E. f_equal. apply N2Z.inj. rewrite En. exact (small_mod _ R).
Qed.
Print Assumptions C119_bound.
(** Times from 2262 on (the range of i64 nanoseconds is exceeded) are written, but a build with overflow checks
    crashes when it reads them; without the checks the times are right. *)
Theorem C119_far_refuted : forall o z z' u r c t, (2 ^ 63 + nanos_per u <= t < 2 ^ 64)%N -> whole_minutes z (Z.of_N (t / 1000000000)) ->
  row_text r (ColIndex c) (show_in z (calendar_format u) (t / 1000000000) (t mod 1000000000)) ->
  get_timestamp Debug (civil o) r (ColIndex c) (FDateTimeTz (b "%+")) z' = Panic /\
  get_timestamp Release (civil o) r (ColIndex c) (FDateTimeTz (b "%+")) z' = Ok (t - t mod nanos_per u)%N.
Proof.
  intros o z z' u r c t [H1 H2] W Hr. pose proof (shown_iso z u t H2 W) as I. apply (iso_reads o) in I.
  assert (R : 2 ^ 63 <= Z.of_N (rounded u t) < 2 ^ 64).
  { clear - H1 H2. change (2 ^ 63)%N with 9223372036854775808%N in *. change (2 ^ 64)%N with 18446744073709551616%N in *. change (2 ^ 63) with 9223372036854775808.
    change (2 ^ 64) with 18446744073709551616. destruct u; cbn [nanos_per] in *; lia. }
  destruct (C86_far_instant_refuted (civil o) z' r (ColIndex c) (FDateTimeTz (b "%+")) (shown z u t) (Z.of_N (rounded u t))) as (A & n & B & C & _).
  - intros x. discriminate.
  - exact Hr.
  - exact I.
  - right. apply R.
  - split; [exact A|]. rewrite B. f_equal. apply N2Z.inj. rewrite C. apply Z.mod_small. destruct R as [R1 R2]. split; [|exact R2].
    eapply Z.le_trans; [|exact R1]. discriminate.
Qed.
Print Assumptions C119_far_refuted.
(** Where the offset has seconds (Liberia until 1972: 44 minutes 30 seconds behind), the text leaves them out, and
    the time read back is another one. *)
Definition monrovia : zone_table := {| zt_first := -2670; zt_changes := [(63593070, 0)] |}.
Theorem C119_seconds_refuted : forall o z', good_table monrovia /\
  show_in monrovia (calendar_format Seconds) 3600 0 = b "1970-01-01T00:15:30-00:44" /\
  get_timestamp Debug (civil o) [b "1970-01-01T00:15:30-00:44"] (ColIndex 0) (FDateTimeTz (b "%+")) z' = Ok (3570 * 1000000000)%N.
Proof. intros o z'. split; [cbn; exact I|]. split; [vm_compute; reflexivity|]. vm_compute. reflexivity. Qed.
Print Assumptions C119_seconds_refuted.

(** Cases of C116-C120. *)
From Verif Require Import NewYork DateTextProofs CalendarProofs T_Time T_DateText T_Bounds T_Shown T_DigitText CsvSpec TimestampSpec.
Local Open Scope Z_scope.
Lemma a_time y m d h mi s ns l : 0 <= y <= 9999 -> from_ymd_opt y m d = Some (s_day l) -> time_of_day h mi s ->
  s_sec l = 3600 * h + 60 * mi + s -> s_nano l = ns -> the_time y m d h mi s ns l.
Proof. intros A B C D E. apply from_ymd_iff in B. constructor; tauto. Qed.
Ltac a_time := apply a_time; [lia|vm_compute; reflexivity|repeat split; lia|reflexivity|reflexivity].

(** 2018-04-01 09:30:00 is a time of New York's clocks; 2018-03-11 02:30:00 is none; 2018-11-04 01:30:00 there are two. *)
Definition morning : stamp := {| s_day := 17622; s_sec := 34200; s_nano := 0 |}.
Definition skipped : stamp := {| s_day := 17601; s_sec := 9000; s_nano := 0 |}.
Definition doubled : stamp := {| s_day := 17839; s_sec := 5400; s_nano := 0 |}.
Example C117_example : forall o : foreign,
  (exists t, once new_york morning t) /\
  (forall t, ~ once new_york skipped t) /\ (forall t, ~ clock_shows new_york t (86400 * s_day skipped + s_sec skipped)) /\
  (forall t, ~ once new_york doubled t) /\
  clock_shows new_york 1541309400 (86400 * s_day doubled + s_sec doubled) /\ clock_shows new_york 1541313000 (86400 * s_day doubled + s_sec doubled).
Proof.
  intros o.
  assert (N : forall l, (exists e, from_local_datetime (zone_of o new_york) l = Err e) -> forall t, ~ once new_york l t).
  { intros l. apply C117_local_times, new_york_good. }
  split; [|split; [|split; [|split; [|split]]]].
  - destruct (proj1 (C117_local_times o new_york morning new_york_good) 1522589400000000000) as [X _].
    destruct X as (t & O & _); [vm_compute; reflexivity|]. eauto.
  - apply N. eexists. vm_compute. reflexivity.
  - intros t. pose proof (ZoneProofs.from_local_spec new_york skipped new_york_good) as F.
    replace (from_local new_york skipped) with LNone in F by (vm_compute; reflexivity). apply F.
  - apply N. eexists. vm_compute. reflexivity.
  - vm_compute. reflexivity.
  - vm_compute. reflexivity.
Qed.
(** The documented layouts. *)
Example C116_example :
  written (ColIndex 0) (b "20180401.093000") (FDateTime (b "%Y%m%d.%H%M%S")) morning /\
  written (ColIndex 0) (b "2018/04/01-09:30:00") (FDateTime (b "%Y/%m/%d-%H:%M:%S")) morning /\
  written (ColDateTime 0 2) (b "20180401#9:30") (FDateTime (b "%Y%m%d#%-H:%M")) morning /\
  written (ColIndex 0) (b "20180311 02:30:00") (FDateTime (b "%Y%m%d %H:%M:%S")) skipped /\
  iso_text (b "2018-04-01T09:30:00.5-04:00") 1522589400500000000 /\
  row_text [b "20180401"; b "x"; b "9:30"] (ColDateTime 0 2) (b "20180401#9:30").
Proof.
  split; [|split; [|split; [|split; [|split]]]].
  - apply (w_dot 0 2018 4 1 9 30 0 morning). a_time.
  - apply (w_slashes 0 2018 4 1 9 30 0 morning). a_time.
  - apply (w_short_hour 0 2 2018 4 1 9 30 morning); [lia|]. a_time.
  - apply (w_colons 0 2018 3 11 2 30 0 skipped). a_time.
  - apply (iso 2018 4 1 9 30 0 500000000 (b ".5") (b "-04:00") (-14400) {| s_day := 17622; s_sec := 34200; s_nano := 500000000 |}).
    + a_time.
    + apply (off_west 4 0); lia.
    + right. exists [5]. split; [reflexivity|]. split; [|reflexivity]. split; [discriminate|]. repeat constructor; lia.
  - apply (two_cells _ 0 2 (b "20180401") (b "9:30")); reflexivity.
Qed.
(** The tests of src/util/timestamp_util.rs. *)
Example C118_example : forall o,
  let bound := parse_range_element Debug (civil o) in
  let nyc := zone_of o new_york in
  bound_text (b "20180401-09:30:00") morning /\ bound_text (b "2018/04/01T093000.000") morning /\ period_text (b "201804") {| s_day := 17622; s_sec := 0; s_nano := 0 |} /\
  bound (b "2001-07-08T00:34:60.026490+09:30") None = Ok 994518300026490000%N /\
  bound (b "2019-01-01T00:00:00.001000+00:00") None = Ok 1546300800001000000%N /\
  bound (b "2019-01-01T00:00:00.001000-05:00") None = Ok 1546318800001000000%N /\
  bound (b "2019") (zone_of o utc) = Ok 1546300800000000000%N /\
  bound (b "2019") nyc = Ok 1546318800000000000%N /\ bound (b "201901") nyc = Ok 1546318800000000000%N /\ bound (b "20190101") nyc = Ok 1546318800000000000%N /\
  bound (b "20190101-00:00:00") nyc = Ok 1546318800000000000%N /\ bound (b "20190101-00:00:00.0") nyc = Ok 1546318800000000000%N /\
  bound (b "20190101-00:00:00.1") nyc = Ok 1546318800100000000%N /\ bound (b "20190101-00:00:00.000") nyc = Ok 1546318800000000000%N /\
  bound (b "20190101-00:00:00.001") nyc = Ok 1546318800001000000%N /\ bound (b "20190101-00:00:00.000000") nyc = Ok 1546318800000000000%N /\
  bound (b "20190101-00:00:00.000001") nyc = Ok 1546318800000001000%N /\ bound (b "20190101-00:00:00.000000000") nyc = Ok 1546318800000000000%N /\
  bound (b "20190101-00:00:00.000000001") nyc = Ok 1546318800000000001%N /\
  bound (b "630000000000000000") None = Ok 630000000000000000%N /\ bound (b "630000000000000") None = Ok 630000000000000000%N /\
  bound (b "630000000000") None = Ok 630000000000000000%N /\ bound (b "630000000") None = Ok 630000000000000000%N.
Proof.
  intros o bound nyc. split; [|split; [|split]].
  - apply (DateTextSpec.bound 2018 4 1 9 30 0 0 (b "20180401") (b "-") (b "09:30:00") morning); [a_time|apply date_plain|cbn; auto|apply (clock_colons 9 30 0)|reflexivity].
  - apply (bound_fraction 2018 4 1 9 30 0 [0; 0; 0] (b "2018/04/01") (b "T") (b "093000") morning); [a_time|apply date_slashes|cbn; auto|apply (clock_plain 9 30 0)|].
    split; [discriminate|]. repeat constructor; lia.
  - apply (a_month 2018 4). a_time.
  - unfold bound, nyc. repeat split; vm_compute; reflexivity.
Qed.
Example C119_example : forall o,
  whole_minutes new_york 1522589400 /\
  show_in new_york (calendar_format Millis) 1522589400 123456789 = b "2018-04-01T09:30:00.123-04:00" /\
  get_timestamp Debug (civil o) [b "2018-04-01T09:30:00.123-04:00"] (ColIndex 0) (FDateTimeTz (b "%+")) None = Ok 1522589400123000000%N.
Proof.
  intros o. split; [|split; vm_compute; reflexivity]. unfold whole_minutes. replace (offset_at new_york 1522589400) with (-14400) by (vm_compute; reflexivity).
  split; [exists (-240); reflexivity|lia].
Qed.
(** The number of milliseconds of 2024-03-10 22:53:33.141 UTC, taken for 1710-11-12 13:14:01; another one is not. *)
Definition in_1710 : stamp := {| s_day := -94648; s_sec := 47641; s_nano := 0 |}.
Definition a_header : header := {| h_names := [b "time"]; h_types := [TString] |}.
Example C120_example : forall o,
  let choice s := get_col_and_fmt (civil o) (fun s => s) a_header [s] CfgAuto FmtAuto (zone_of o utc) in
  run_together (dec 1710111213141) in_1710 /\
  get_timestamp_col (fun s => s) a_header CfgAuto = Ok (ColIndex 0, None) /\
  choice (b "1710111213141") = Ok (ColIndex 0, FDateTime (b "%Y%m%d %H%M%S")) /\
  get_timestamp Debug (civil o) [b "1710111213141"] (ColIndex 0) (FDateTime (b "%Y%m%d %H%M%S")) (zone_of o utc) = Ok 10269204514709551616%N /\
  choice (b "1710111213941") = Ok (ColIndex 0, FUnits Millis) /\
  get_timestamp Debug (civil o) [b "1710111213941"] (ColIndex 0) (FUnits Millis) (zone_of o utc) = Ok 1710111213941000000%N.
Proof.
  intros o choice. split.
  - change (dec 1710111213141) with (four 1710 ++ two 11 ++ two 12 ++ two 13 ++ two 14 ++ [figure 1]). apply run_time_short; [lia|]. a_time.
  - unfold choice. repeat split; vm_compute; reflexivity.
Qed.

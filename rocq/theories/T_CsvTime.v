(** C91: the time column and format are chosen once, from the header and the first record, and
    every row of a CSV input gets the time its own text then denotes. *)
From Verif Require Import TimeSpec T_Time CsvSpec CsvProofs CsvUtilProofs TimestampProofs T_Csv.
From Verif Require Import DcSpec.
Local Open Scope nat_scope.

(** The timestamp a text stands for. *)
Definition row_time {ch} (z : tz ch) (fmt : ts_fmt) (s : bytes) (t : nanos) : Prop :=
  match fmt with
  | FUnits u => exists n, numeral (chars s) n /\ (t = n * nanos_per u)%N /\ (t < 2 ^ 64)%N
  | _ => exists i, denotes z fmt s i /\ (- 2 ^ 63 <= i < 2 ^ 63)%Z /\ Z.of_N t = (i mod 2 ^ 64)%Z
  end.
Lemma row_time_get prof ch (z : tz ch) r col fmt s t : row_text r col s -> row_time z fmt s t ->
  get_timestamp prof ch r col fmt z = Ok t.
Proof.
  intros T R.
  assert (C : calendar fmt -> (exists i, denotes z fmt s i /\ (- 2 ^ 63 <= i < 2 ^ 63)%Z /\ Z.of_N t = (i mod 2 ^ 64)%Z) -> get_timestamp prof ch r col fmt z = Ok t).
  { intros Hc (i & Hi & Ri & E). destruct (proj1 (C86_instant_partial prof ch z r col fmt s Hc T) i Hi Ri) as (t' & -> & E'). f_equal. lia. }
  destruct fmt as [u|f|f|f]; [|apply C; [discriminate|exact R]..].
  destruct R as (n & Hn & E & L). apply text_spec in T.
  assert (P : parse_u64 (chars s) = Some n).
  { apply parse_u64_spec. split; [|now left]. destruct u; cbn [nanos_per] in E; lia. }
  rewrite (get_units _ _ _ _ _ _ s n T P). rewrite mul_fits by (rewrite <- E; exact L). rewrite E. reflexivity.
Qed.

Section Csv.
Context (prof : profile) (ch : chrono) (lower : bytes -> bytes) (f64_ok : text -> bool).
Context (split : byte -> stream -> list (res (list bytes))).
Context (cfg : csv_input ch) (lines : option (list bytes)) (data : stream).
Lemma csv_times s raws recs : csv_new prof ch lower f64_ok split cfg lines data = Ok s ->
  data_records f64_ok split cfg lines data raws -> Forall2 decodes raws recs ->
  (forall r r', In r recs -> In r' recs -> length r = length r') ->
  exists first more col hint fmt,
    recs = first :: more /\
    get_timestamp_col lower (cs_header s) (ci_col cfg) = Ok (col, hint) /\
    get_col_and_fmt ch lower (cs_header s) first (ci_col cfg) (ci_fmt cfg) (ci_tz cfg) = Ok (col, fmt) /\
    forall texts times, Forall2 (fun r x => row_text r col x) recs texts -> Forall2 (row_time (ci_tz cfg) fmt) texts times ->
      csv_rows prof ch s = map (fun p => Ok (row_of (fst p) (snd p))) (combine recs times).
Proof.
  intros H Dr D W.
  destruct (csv_new_spec _ _ _ _ _ _ _ _ _ H) as (d' & pre' & first & rest & Hd' & Hs' & Hp' & (r & Hr & Hn & _ & _ & Hc & Ht) & R1 & R2 & R3).
  destruct (opened prof ch lower f64_ok split cfg lines data s raws H Dr) as (first1 & rest1 & r1 & -> & Hr1 & Hn1 & _).
  assert (Er : r1 = r).
  { rewrite Hn in Hn1. apply (f_equal vals) in Hn1. cbn [row_of vals] in Hn1. clear - Hn1. revert r1 Hn1. induction r as [|x r IH]; intros [|y r1] E; try discriminate; [reflexivity|].
    cbn in E. injection E as -> E. f_equal. now apply IH. }
  subst r1. inversion D as [|? r0 ? more Hr0 D']; subst.
  assert (r0 = r) as -> by (eapply decodes_det; eauto).
  pose proof Hc as Hc'. unfold get_col_and_fmt in Hc'.
  destruct (get_timestamp_col lower (cs_header s) (ci_col cfg)) as [[col hint]| | | |] eqn:Ec; try discriminate. cbn [bind] in Hc'.
  match type of Hc' with (let* _ := ?x in _) = _ => destruct x as [fmt| | | |]; try discriminate end. cbn [bind] in Hc'. injection Hc' as -> ->.
  exists r, more, (cs_col s), hint, (cs_fmt s). split; [reflexivity|]. split; [reflexivity|]. split; [exact Hc|].
  intros texts times Ft Fm. eapply (C36_same_width_partial prof ch lower f64_ok split cfg lines data s (first1 :: rest1)); eauto.
  clear - Ft Fm R2. revert times Fm. induction Ft as [|x y l l' Hxy _ IH]; intros times Fm; inversion Fm; subst; constructor; [|auto].
  unfold timed. rewrite R2. eapply row_time_get; eauto.
Qed.
End Csv.
Theorem C91_csv_times : forall prof ch lower f64_ok split (cfg : csv_input ch) lines data s raws recs,
  csv_new prof ch lower f64_ok split cfg lines data = Ok s ->
  data_records f64_ok split cfg lines data raws -> Forall2 decodes raws recs ->
  (forall r r', In r recs -> In r' recs -> length r = length r') ->
  exists first more col hint fmt,
    recs = first :: more /\
    get_timestamp_col lower (cs_header s) (ci_col cfg) = Ok (col, hint) /\
    get_col_and_fmt ch lower (cs_header s) first (ci_col cfg) (ci_fmt cfg) (ci_tz cfg) = Ok (col, fmt) /\
    forall texts times, Forall2 (fun r x => row_text r col x) recs texts -> Forall2 (row_time (ci_tz cfg) fmt) texts times ->
      csv_rows prof ch s = map (fun p => Ok (row_of (fst p) (snd p))) (combine recs times).
Proof. exact csv_times. Qed.
Print Assumptions C91_csv_times.
(** With a configured epoch unit the format is that unit (C87), whatever the first row. *)
Theorem C91_epoch : forall prof ch lower f64_ok split (cfg : csv_input ch) lines data s raws recs u,
  csv_new prof ch lower f64_ok split cfg lines data = Ok s ->
  data_records f64_ok split cfg lines data raws -> Forall2 decodes raws recs ->
  (forall r r', In r recs -> In r' recs -> length r = length r') ->
  ci_fmt cfg = FmtEpoch u ->
  exists col hint, get_timestamp_col lower (cs_header s) (ci_col cfg) = Ok (col, hint) /\
    forall texts ns, Forall2 (fun r x => row_text r col x) recs texts ->
      Forall2 (fun x n => numeral (chars x) n /\ (n * nanos_per u < 2 ^ 64)%N) texts ns ->
      csv_rows prof ch s = map (fun p => Ok (row_of (fst p) (snd p))) (combine recs (map (fun n => n * nanos_per u)%N ns)).
Proof.
  intros prof ch lower f64_ok split cfg lines data s raws recs u H Dr D W Hf.
  destruct (csv_times _ _ _ _ _ _ _ _ _ _ _ H Dr D W) as (first & more & col & hint & fmt & -> & Ec & Eg & R).
  exists col, hint. split; [exact Ec|]. intros texts ns Ft Fn. apply (R texts); [exact Ft|].
  unfold get_col_and_fmt in Eg. rewrite Ec, Hf in Eg. cbn in Eg. injection Eg as <-.
  clear - Fn. induction Fn as [|x n l l' [A B] _ IH]; constructor; [|exact IH]. cbn. eauto.
Qed.
Print Assumptions C91_epoch.
(** a file to which it applies *)
Example C91_example : exists s, open_ex ["timeseconds,a"; "5,x"; "6,y"]%string = Ok s /\
  data_records (fun _ => false) csv_records cfg_ex (Some (map b ["timeseconds,a"; "5,x"]%string)) (file (nl ["timeseconds,a"; "5,x"; "6,y"]%string))
    [Ok [b "5"; b "x"]; Ok [b "6"; b "y"]] /\
  Forall2 decodes [Ok [b "5"; b "x"]; Ok [b "6"; b "y"]] [[b "5"; b "x"]; [b "6"; b "y"]] /\
  Forall2 (fun r x => row_text r (ColIndex 0) x) [[b "5"; b "x"]; [b "6"; b "y"]] [b "5"; b "6"] /\
  Forall2 (row_time (None : tz nochrono) (FUnits Seconds)) [b "5"; b "6"] [5000000000; 6000000000]%N.
Proof.
  eexists. split; [vm_compute; reflexivity|]. split; [|split; [|split]].
  - exists (byte_of 44), [Ok [b "timeseconds"; b "a"]]. split; [vm_compute; reflexivity|]. split; vm_compute; reflexivity.
  - repeat constructor; apply string_record_decodes; vm_compute; reflexivity.
  - repeat constructor.
  - apply Forall2_cons; [|apply Forall2_cons; [|constructor]].
    + exists 5%N. split; [apply (numeral_one 53); unfold digit; lia|]. split; reflexivity.
    + exists 6%N. split; [apply (numeral_one 54); unfold digit; lia|]. split; reflexivity.
Qed.

(** C36-C38 and C58-C61, C63, C64: CSV files in and out. *)
From Verif Require Import CsvModel CsvSpec CsvProofs CsvProofs2 CsvUtilProofs TimestampProofs BytesProofs Utf8Spec.
From Verif Require Import DcSpec.
From Verif Require MultiProofs GraphProps T_Timestamp.
Local Open Scope nat_scope.

Section Csv.
Context (prof : profile) (ch : chrono) (lower : bytes -> bytes) (f64_ok : text -> bool).
Context (split : byte -> stream -> list (res (list bytes))).
Context (cfg : csv_input ch) (lines : option (list bytes)) (data : stream).
Notation open := (csv_new prof ch lower f64_ok split cfg lines data).

Notation records := (data_records f64_ok split cfg lines data).
Notation timed := (timed prof ch).

Lemma delimiter_one d d' : delimiter_used cfg lines d -> delimiter_used cfg lines d' -> d = d'.
Proof.
  unfold delimiter_used. destruct (ci_delimiter cfg); [congruence|]. destruct lines as [[|l ls]|]; congruence.
Qed.
Lemma opened s raws : open = Ok s -> records raws ->
  exists first rest r, raws = first :: rest /\ decodes first r /\ cs_next s = row_of r (ts (cs_next s)) /\
    timed s r (ts (cs_next s)) /\ cs_reader s = rest /\ cs_has_next s = true /\ cs_tz s = ci_tz cfg.
Proof.
  intros H (d & pre & Hd & Hs & Hp).
  destruct (csv_new_spec _ _ _ _ _ _ _ _ _ H) as (d' & pre' & first & rest & Hd' & Hs' & Hp' & (r & Hr & Hn & _ & _ & _ & Ht) & R1 & R2 & R3).
  rewrite (delimiter_one _ _ Hd' Hd) in *. rewrite Hs in Hs'.
  assert (E : raws = first :: rest).
  { destruct pre' as [|h [|? ?]]; [|destruct Hp' as [Hp' _]|destruct Hp']; rewrite Hp' in Hp;
      destruct pre as [|? [|? ?]]; try discriminate Hp; cbn in Hs'; congruence. }
  exists first, rest, r. unfold timed. rewrite R2. auto 10.
Qed.
Lemma decodes_det raw r r' : decodes raw r -> decodes raw r' -> r = r'.
Proof. intros A B. apply string_record_decodes in A, B. congruence. Qed.

(** ** C36 *)

(** What holds: if all records have as many fields as the first, the rows are the records: all of
    them, in order, each with its own fields and its own time. *)
Theorem C36_same_width_partial s raws recs times : open = Ok s ->
  records raws -> Forall2 decodes raws recs -> Forall2 (timed s) recs times ->
  (forall r r', In r recs -> In r' recs -> length r = length r') ->
  csv_rows prof ch s = map (fun p => Ok (row_of (fst p) (snd p))) (combine recs times).
Proof.
  intros H Dr D T W. destruct (opened _ _ H Dr) as (first & rest & r & -> & Hr & Hn & Ht & R1 & R2 & R3).
  inversion D as [|? r0 ? recs' Hr0 D']; subst. assert (r0 = r) as -> by (eapply decodes_det; eauto).
  inversion T as [|? t ? times' Ht0 T']; subst.
  assert (t = ts (cs_next s)) as -> by (unfold timed in *; congruence).
  rewrite csv_rows_from by exact R2.
  assert (Lv : length (vals (cs_next s)) = length r) by (rewrite Hn; cbn; apply map_length).
  rewrite (rows_all prof ch s _ recs' times'); trivial.
  - rewrite carried_same.
    + cbn [combine map fst snd]. rewrite <- Hn. f_equal. rewrite map_map. reflexivity.
    + apply Forall_forall. intros x Hx. rewrite Lv. apply W; [right; exact Hx|left; reflexivity].
  - apply Forall_forall. intros x Hx. rewrite Lv. rewrite (W x r); [lia|right; exact Hx|left; reflexivity].
Qed.

(** What the program does in general, as long as no record is longer than the first: a record
    with fewer fields keeps the remaining values of the row before it. *)
Theorem C36_carry_over s raws r0 recs t0 times : open = Ok s ->
  records raws -> Forall2 decodes raws (r0 :: recs) -> Forall2 (timed s) (r0 :: recs) (t0 :: times) ->
  Forall (fun r => length r <= length r0) recs ->
  exists rows, csv_rows prof ch s = map Ok rows /\ length rows = S (length recs) /\ nth_error rows 0 = Some (row_of r0 t0) /\
    forall k r t old, nth_error recs k = Some r -> nth_error times k = Some t -> nth_error rows k = Some old ->
      nth_error rows (S k) = Some {| ts := t; vals := map VString r ++ skipn (length r) (vals old) |}.
Proof.
  intros H Dr D T W. destruct (opened _ _ H Dr) as (first & rest & r & -> & Hr & Hn & Ht & R1 & R2 & R3).
  inversion D as [|? r0' ? recs' Hr0 D']; subst. assert (r0 = r) as -> by (eapply decodes_det; eauto).
  inversion T as [|? t ? times' Ht0 T']; subst.
  assert (t0 = ts (cs_next s)) as -> by (unfold timed in *; congruence).
  assert (Lv : length (vals (cs_next s)) = length r) by (rewrite Hn; cbn; apply map_length).
  exists (cs_next s :: carried (vals (cs_next s)) recs times). split; [|split; [|split]].
  - rewrite csv_rows_from by exact R2. apply rows_all; trivial.
    eapply Forall_impl; [|exact W]. cbn beta. intros x Hx. rewrite Lv. exact Hx.
  - cbn [length]. f_equal. eapply carried_length, T'.
  - cbn [nth_error]. f_equal. exact Hn.
  - clear - T'. generalize (cs_next s) as nx. intro nx. cbn [nth_error].
    revert nx. induction T' as [|x y recs times Hxy T' IH]; intros nx [|k] r t old Hr Ht Ho; try discriminate.
    + cbn in Hr, Ht, Ho. injection Hr as <-. injection Ht as <-. injection Ho as <-. reflexivity.
    + cbn [nth_error carried] in *. eapply (IH {| ts := y; vals := map VString x ++ skipn (length x) (vals nx) |}); eassumption.
Qed.

(** The program violates the property.  A shorter second record: its row ends with the fields of
    the first one. *)
Theorem C36_short_record_refuted s raws r0 r1 t0 t1 : open = Ok s ->
  records raws -> Forall2 decodes raws [r0; r1] -> timed s r0 t0 -> timed s r1 t1 -> length r1 < length r0 ->
  exists row1, csv_rows prof ch s = [Ok (row_of r0 t0); Ok row1] /\ row1 <> row_of r1 t1 /\
    forall i f, length r1 <= i -> nth_error r0 i = Some f -> nth_error (vals row1) i = Some (VString f).
Proof.
  intros H Dr D T0 T1 L.
  destruct (C36_carry_over s raws r0 [r1] t0 [t1] H Dr D) as (rows & E & Len & N0 & N1); [repeat constructor; assumption|repeat constructor; lia|].
  specialize (N1 0 r1 t1 (row_of r0 t0) eq_refl eq_refl N0).
  destruct rows as [|x [|y [|? ?]]]; try discriminate Len. cbn in N0, N1. injection N0 as ->. injection N1 as ->.
  eexists. split; [exact E|]. split.
  - intro X. apply (f_equal (fun r => length (vals r))) in X. cbn in X.
    rewrite app_length, skipn_length, !map_length in X. lia.
  - intros i f Hi Hf. cbn [vals]. rewrite nth_error_app2 by (rewrite map_length; lia). rewrite map_length.
    rewrite MultiProofs.nth_error_skipn_add. replace (length r1 + (i - length r1)) with i by lia.
    rewrite nth_error_map, Hf. reflexivity.
Qed.

(** A longer second record: the program panics, before the first row is delivered. *)
Theorem C36_long_record_refuted s raws r0 r1 : open = Ok s ->
  records raws -> Forall2 decodes raws [r0; r1] -> length r0 < length r1 ->
  csv_rows prof ch s = [Panic].
Proof.
  intros H Dr D L. destruct (opened _ _ H Dr) as (first & rest & r & -> & Hr & Hn & Ht & R1 & R2 & R3).
  inversion D as [|? r0' ? recs' Hr0 D']; subst. assert (r0 = r) as -> by (eapply decodes_det; eauto).
  inversion D' as [|raw1 ? ? ? Hr1 D'']; subst. inversion D''; subst.
  rewrite csv_rows_from by exact R2. rewrite <- H0. cbn [rows_from].
  apply string_record_decodes in Hr1. rewrite Hr1. unfold update_row. rewrite overwrite_spec, Hn. cbn [row_of vals].
  rewrite map_length. destruct (Nat.leb_spec (length r1) (length r)); [lia|reflexivity].
Qed.

(** ** C58 *)

(** The program violates the property: when a record cannot be read, the row of the record just
    before it is never delivered. *)
Theorem C58_row_before_error_lost_refuted s raws recs times bad more : open = Ok s ->
  records (raws ++ bad :: more) -> Forall2 decodes raws recs -> Forall2 (timed s) recs times ->
  (forall r r', In r recs -> In r' recs -> length r = length r') ->
  (exists r, In r recs /\ bad_record prof ch s (length r) bad) ->
  exists e, is_ok e = false /\
    csv_rows prof ch s = map (fun p => Ok (row_of (fst p) (snd p))) (combine (removelast recs) times) ++ [e].
Proof.
  intros H Dr D T W (rb & Hrb & B).
  inversion D as [|first r0 raws' recs' Hr0 D']; subst; [destruct Hrb|].
  destruct (opened _ _ H Dr) as (first' & rest & r & E & Hr & Hn & Ht & R1 & R2 & R3). cbn in E. injection E as <- <-.
  assert (r0 = r) as -> by (eapply decodes_det; eauto).
  inversion T as [|? t ? times' Ht0 T']; subst.
  assert (t = ts (cs_next s)) as -> by (unfold CsvSpec.timed in *; congruence).
  assert (Lv : length (vals (cs_next s)) = length r) by (rewrite Hn; cbn; apply map_length).
  rewrite csv_rows_from by exact R2. rewrite R1.
  rewrite (rows_good prof ch s _ recs' times'); trivial.
  2:{ apply Forall_forall. intros x Hx. rewrite Lv. rewrite (W x r); [lia|right; exact Hx|left; reflexivity]. }
  cbn zeta. rewrite carried_same.
  2:{ apply Forall_forall. intros x Hx. rewrite Lv. apply W; [right; exact Hx|left; reflexivity]. }
  set (l := map (fun p => row_of (fst p) (snd p)) (combine recs' times')).
  assert (El : cs_next s :: l = map (fun p => row_of (fst p) (snd p)) (combine (r :: recs') (ts (cs_next s) :: times'))).
  { cbn [combine map fst snd]. rewrite <- Hn. reflexivity. }
  assert (Ll : length (vals (last (cs_next s :: l) (cs_next s))) = length rb).
  { rewrite El. rewrite (W rb r Hrb (or_introl eq_refl)).
    assert (In (last (cs_next s :: l) (cs_next s)) (cs_next s :: l)).
    { clear. generalize (cs_next s) at 1 3. induction l as [|y l IH]; intro x; [left; reflexivity|]. right. exact (IH y). }
    rewrite <- El. rewrite El in H0 at 2. apply in_map_iff in H0. destruct H0 as ([x tx] & E & I). rewrite <- E. cbn [fst snd row_of vals].
    rewrite map_length. apply in_combine_l in I. apply W; [exact I|left; reflexivity]. }
  rewrite <- Ll in B. destruct (rows_bad prof ch s _ bad more B) as (e & He & Eb). exists e. split; [exact He|].
  repeat match goal with |- context [map ?f (combine recs' times')] => change (map f (combine recs' times')) with l end.
  rewrite Eb. f_equal. rewrite El.
  assert (G : forall (recs : list record) (times : list nanos), length recs = length times ->
    removelast (map (fun p => row_of (fst p) (snd p)) (combine recs times)) = map (fun p => row_of (fst p) (snd p)) (combine (removelast recs) times)).
  { clear. induction recs as [|r recs IH]; intros [|t times] L; try discriminate L; [reflexivity|].
    destruct recs as [|r' recs]; destruct times as [|t' times]; try discriminate L; [reflexivity|].
    cbn [combine map]. specialize (IH (t' :: times)). cbn [combine map] in IH.
    change (removelast (r :: r' :: recs)) with (r :: removelast (r' :: recs)). cbn [combine map].
    rewrite <- IH by (injection L as L; cbn; congruence). reflexivity. }
  rewrite G; [rewrite map_map; reflexivity|]. exact (GraphProps.Forall2_len _ _ _ T).
Qed.

(** ** C59 *)

(** Column names are the header record's fields, or col_0, col_1, ...; every column has type
    String; every row has as many values as there are column types. *)
Theorem C59_header s raws : open = Ok s -> records raws ->
  exists first rest r, raws = first :: rest /\ decodes first r /\
    h_types (cs_header s) = repeat TString (length r) /\
    (forall d, delimiter_used cfg lines d ->
      (has_header_used f64_ok cfg lines d = true ->
         exists h, split d data = h :: raws /\ decodes h (h_names (cs_header s))) /\
      (has_header_used f64_ok cfg lines d = false ->
         split d data = raws /\
         h_names (cs_header s) = map (fun i => b "col_" ++ dec (N.of_nat i)) (seq 0 (length r)))) /\
    (forall row, In (Ok row) (csv_rows prof ch s) -> length (vals row) = length (h_types (cs_header s))).
Proof.
  intros H (d & pre & Hd & Hs & Hp).
  destruct (csv_new_spec _ _ _ _ _ _ _ _ _ H) as (d' & pre' & first & rest & Hd' & Hs' & Hp' & (r & Hr & Hn & Hnm & Hty & _ & Ht) & R1 & R2 & R3).
  rewrite (delimiter_one _ _ Hd' Hd) in *. rewrite Hs in Hs'.
  assert (E : raws = first :: rest /\ pre = pre').
  { destruct pre' as [|h [|? ?]]; [|destruct Hp' as [Hp' _]|destruct Hp']; rewrite Hp' in Hp;
      destruct pre as [|? [|? ?]]; try discriminate Hp; cbn in Hs'; split; congruence. }
  destruct E as [-> <-]. exists first, rest, r. split; [reflexivity|]. split; [exact Hr|]. split; [exact Hty|]. split.
  - intros d0 Hd0. rewrite (delimiter_one _ _ Hd0 Hd). destruct pre as [|h [|? ?]]; [| |destruct Hp'].
    + split; [congruence|]. intros _. split; [exact Hs|]. apply Hnm. reflexivity.
    + destruct Hp' as [Hp' Hh]. split; [|congruence]. intros _. exists h. split; [exact Hs|exact Hh].
  - rewrite Hty, repeat_length. intros row. rewrite csv_rows_from by exact R3.
    assert (Lv : length (vals (cs_next s)) = length r) by (rewrite Hn; cbn; apply map_length).
    revert Lv. generalize (cs_next s) (cs_reader s). clear. intros nx reader. revert nx.
    induction reader as [|o reader IH]; intros nx Lv; cbn [rows_from].
    + intros [[= <-]|[]]. exact Lv.
    + destruct (let* raw := o in string_record raw) as [r1| | | |]; try (intros [I|[]]; discriminate I).
      unfold update_row. rewrite overwrite_spec.
      destruct (Nat.leb_spec (length r1) (length (vals nx))); [|intros [I|[]]; discriminate I].
      destruct (get_timestamp _ _ _ _ _ _) as [t| | | |]; try (intros [I|[]]; discriminate I).
      intros [[= <-]|I]; [exact Lv|]. revert I. apply IH. cbn [vals]. rewrite carried_width by assumption. exact Lv.
Qed.

(** The program violates "as many names as columns": a header record of another length than the
    first data record is accepted. *)
Theorem C59_header_width_refuted s raws d h r : open = Ok s ->
  delimiter_used cfg lines d -> has_header_used f64_ok cfg lines d = true ->
  split d data = h :: raws -> (exists first rest, raws = first :: rest /\ decodes first r) ->
  forall hr, decodes h hr -> length hr <> length r ->
  length (h_names (cs_header s)) <> length (h_types (cs_header s)).
Proof.
  intros H Hd Hh Hs (first & rest & -> & Hr) hr Dh L.
  assert (Dr : records (first :: rest)) by (exists d, [h]; rewrite Hh; auto).
  destruct (C59_header s _ H Dr) as (f' & rest' & r' & E & Hr' & Hty & Hn & _). injection E as <- <-.
  rewrite (decodes_det _ _ _ Hr' Hr) in *. destruct (Hn d Hd) as [Hn1 _].
  destruct (Hn1 Hh) as (h' & E & Dh'). rewrite Hs in E. injection E as <-.
  rewrite Hty, repeat_length, (decodes_det _ _ _ Dh' Dh). exact L.
Qed.

(** ** C60 *)

(** The program violates the property: a file without data records makes it panic. *)
Theorem C60_no_data_refuted d : delimiter_used cfg lines d ->
  split d data = [] \/ (has_header_used f64_ok cfg lines d = true /\ exists h, split d data = [Ok h]) ->
  open = Panic.
Proof.
  intros Hd Hs. unfold csv_new. cbv zeta.
  match goal with |- bind ?x _ = _ => replace x with (@Ok byte d) end.
  2:{ unfold delimiter_used in Hd. destruct (ci_delimiter cfg); [congruence|].
      destruct lines as [[|l ls]|]; cbn [nth_error]; first [congruence | (symmetry; exact Hd)]. }
  cbn [bind].
  match goal with |- bind (if ?x then _ else _) _ = _ => replace x with (has_header_used f64_ok cfg lines d) end.
  2:{ unfold has_header_used. destruct (ci_has_header cfg); trivial. destruct lines as [[|l [|l' ls]]|]; reflexivity. }
  destruct Hs as [Hs|[Hh (h & Hs)]]; rewrite Hs; [destruct (has_header_used _ _ _ _)|rewrite Hh]; reflexivity.
Qed.
End Csv.

Print Assumptions C36_same_width_partial.
Print Assumptions C36_carry_over.
Print Assumptions C36_short_record_refuted.
Print Assumptions C36_long_record_refuted.
Print Assumptions C58_row_before_error_lost_refuted.
Print Assumptions C59_header.
Print Assumptions C59_header_width_refuted.
Print Assumptions C60_no_data_refuted.

(** ** Cases *)
Definition nochrono : chrono := T_Timestamp.silent.
Definition cfg_ex : csv_input nochrono :=
  {| ci_delimiter := None; ci_has_header := Auto; ci_col := CfgAuto; ci_fmt := FmtAuto; ci_tz := None |}.
Definition nl (ls : list string) : bytes := flat_map (fun l => b l ++ [byte_of 10]) ls.
Definition open_ex (ls : list string) :=
  csv_new Debug nochrono (fun x => x) (fun _ => false) csv_records cfg_ex (Some (map b (firstn 2 ls))) (file (nl ls)).
Definition rows_ex (ls : list string) : list (res row) :=
  match open_ex ls with Ok s => csv_rows Debug nochrono s | e => [fail_as e] end.
Definition rw (t : N) (l : list string) : row := row_of (map b l) t.
Example ex_c36_good : rows_ex ["timeseconds,a"; "5, x "; "6,y"]%string = [Ok (rw 5000000000 ["5"; "x"]); Ok (rw 6000000000 ["6"; "y"])]%string.
Proof. vm_compute. reflexivity. Qed.
(** The second record has no second field: the first record's is repeated. *)
Example ex_c36_short : rows_ex ["timeseconds,a"; "5,x"; "6"]%string = [Ok (rw 5000000000 ["5"; "x"]); Ok (rw 6000000000 ["6"; "x"])]%string.
Proof. vm_compute. reflexivity. Qed.
Example ex_c36_long : rows_ex ["timeseconds,a"; "5,x"; "6,y,z"]%string = [Panic].
Proof. vm_compute. reflexivity. Qed.
(** The third time is not a number: the second row is never seen. *)
Example ex_c58 : exists e, rows_ex ["timeseconds,a"; "5,x"; "6,y"; "oops,z"]%string = [Ok (rw 5000000000 ["5"; "x"]); e]%string /\ is_ok e = false.
Proof. eexists. split; vm_compute; reflexivity. Qed.
Example ex_c59 : exists s, open_ex ["timeseconds,a,b"; "5,x"]%string = Ok s /\
  h_names (cs_header s) = [b "timeseconds"; b "a"; b "b"] /\ h_types (cs_header s) = [TString; TString].
Proof. eexists. split; vm_compute; [reflexivity|split; reflexivity]. Qed.
Example ex_c60 : open_ex [] = Panic /\
  csv_new Debug nochrono (fun x => x) (fun _ => false) csv_records {| ci_delimiter := None; ci_has_header := Yes; ci_col := CfgAuto; ci_fmt := FmtAuto; ci_tz := None |}
    (Some [b "a,b"]) (file (nl ["a,b"]%string)) = Panic.
Proof. split; vm_compute; reflexivity. Qed.
(** The hypotheses of C36 and C58 hold of such files. *)
Example ex_c36_hypotheses : exists s, open_ex ["timeseconds,a"; "5,x"; "6"]%string = Ok s /\
  data_records (fun _ => false) csv_records cfg_ex (Some (map b ["timeseconds,a"; "5,x"]%string)) (file (nl ["timeseconds,a"; "5,x"; "6"]%string))
    [Ok [b "5"; b "x"]; Ok [b "6"]] /\
  Forall2 decodes [Ok [b "5"; b "x"]; Ok [b "6"]] [[b "5"; b "x"]; [b "6"]] /\
  timed Debug nochrono s [b "5"; b "x"] 5000000000%N /\ timed Debug nochrono s [b "6"] 6000000000%N.
Proof.
  eexists. split; [vm_compute; reflexivity|]. split; [|split; [|split; vm_compute; reflexivity]].
  - exists (byte_of 44), [Ok [b "timeseconds"; b "a"]]. split; [vm_compute; reflexivity|]. split; vm_compute; reflexivity.
  - repeat constructor; apply string_record_decodes; vm_compute; reflexivity.
Qed.

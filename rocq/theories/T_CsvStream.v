(** CSV input that goes on: what has arrived is read whatever follows (C108). *)
From Verif Require Export CsvStreamSpec.
From Verif Require Import T_WholeCsv T_Whole T_CliCsv T_Time T_CsvTime T_Csv T_CsvQuote CsvProofs CsvUtilProofs T_Reader ReaderProofs.
From Verif Require Import TimestampProofs CsvProofs2 T_CsvCut T_StreamChop StreamSpec T_Stream.
Local Open Scope nat_scope.

Lemma rows_more prof ch s A : forall R next rs, rows_from prof ch s next (map Ok R) = map Ok rs ->
  exists rest, rows_from prof ch s next (map Ok R ++ A) = map Ok (removelast rs) ++ rest.
Proof.
  induction R as [|r R IH]; intros next rs; cbn [map app].
  - intro E. cbn [rows_from] in E. destruct rs as [|r0 [|? ?]]; try discriminate. cbn. eauto.
  - cbn [rows_from bind]. destruct (string_record r) as [rc| | | |]; try (intro E; exfalso; destruct rs as [|? [|? ?]]; discriminate).
    destruct (update_row _ _ _ _ _ _ rc) as [next' [?| | | |]]; try (intro E; exfalso; destruct rs as [|? [|? ?]]; discriminate).
    intro E. destruct rs as [|r0 rs]; [discriminate|]. cbn [map] in E. injection E as -> E.
    destruct (IH _ _ E) as [rest Er]. rewrite Er. exists rest. rewrite (removelast_cons r0 rs); [reflexivity|].
    intros ->. now apply (rows_from_ne prof ch s next' (map Ok R)).
Qed.

Section Input.
Context (prof : profile) (ch : chrono) (lower : bytes -> bytes) (f64_ok : text -> bool).

Lemma opens_by a (z : option (zone ch)) (cfg : csv_input ch) lines data h rows :
  csv_input_options a z = Ok cfg -> csv_content_by lower f64_ok a z lines data h rows ->
  exists d, delimiter_used cfg lines d /\ delim_ok d /\
    exists (pre : list (list bytes)) raw0 rest, length pre = (if has_header_used f64_ok cfg lines d then 1 else 0) /\
      csv_records d {| s_data := data; s_tail := None |} = map Ok pre ++ Ok raw0 :: map Ok rest /\
      (exists s', csv_new prof ch lower f64_ok csv_records cfg lines {| s_data := data; s_tail := None |} = Ok s' /\
         cs_header s' = h /\ csv_rows prof ch s' = map Ok rows) /\
      forall data' more, csv_records d data' = map Ok pre ++ Ok raw0 :: more ->
        exists s, csv_new prof ch lower f64_ok csv_records cfg lines data' = Ok s /\ cs_header s = h.
Proof.
  intros Hi (d & yes & text & all & clean & names & first & recs & texts & times & col & hint & fmt &
     Hd & Q1 & Q2 & Q3 & Hy & Hdata & Hbom & Ht & Cl & Ec & W & Hn & Hty & Hcol & Hfmt & Ft & Fm & ->).
  destruct (input_options_spec _ _ _ _ Hi) as (Ez & _ & Ef & Eco & Edl).
  assert (Dok : delim_ok d).
  { split; [exact Q1|]. unfold is_term. rewrite (proj2 (Ascii.eqb_neq _ _) Q2), (proj2 (Ascii.eqb_neq _ _) Q3). reflexivity. }
  assert (R : csv_records d {| s_data := data; s_tail := None |} = map Ok all).
  { destruct (records_text d all text Dok Ht Hbom) as [R1 R2]. destruct Hdata as [->| ->]; assumption. }
  rewrite Ec in Cl. apply Forall2_app_inv_r in Cl as (pre & raws & Dp & Dr & Ea).
  inversion Dr as [|raw0 ? rest ? D0 Dr']; subst raws. subst all.
  assert (Dec : forall (l : list (list bytes)) m, Forall2 (Forall2 trimmed) l m -> Forall2 decodes (map Ok l) m).
  { clear. intros l m H. induction H as [|r t rs ts H F IH]; cbn [map]; constructor; [|exact IH]. exists r. split; [reflexivity|exact H]. }
  assert (Lp : length pre = if yes then 1 else 0) by (apply GraphProps.Forall2_len in Dp; rewrite Dp; now destruct yes).
  pose proof (asked_delimiter ch a z cfg lines d Hi Hd) as U1. pose proof (asked_header ch f64_ok a z cfg lines d yes Hi Hy) as U2.
  inversion Ft as [|? x0 ? xs Hx0 Ft']; subst. inversion Fm as [|? t0 ? ts0 Ht0 Fm']; subst.
  pose proof (asked_column lower a h _ _ _ Eco Hcol) as Gc.
  pose proof (asked_format ch lower a h first _ _ (zone_in z) col hint x0 fmt t0 Ef Gc Hx0 (Hfmt _ Hx0) Ht0) as Gf.
  rewrite <- Ez in *. rewrite map_app in R. cbn [map] in R.
  assert (Open : forall data' more, csv_records d data' = map Ok pre ++ Ok raw0 :: more ->
    exists s, csv_new prof ch lower f64_ok csv_records cfg lines data' = Ok s /\ cs_header s = h /\
    cs_col s = col /\ cs_fmt s = fmt /\ cs_tz s = ci_tz cfg).
  { intros data' more E. apply (csv_new_ok prof ch lower f64_ok csv_records cfg lines data' d (map Ok pre) (Ok raw0) more names first h col fmt t0); auto.
    - exists raw0. split; [reflexivity|exact D0].
    - eapply row_time_get; eauto. }
  exists d. split; [exact U1|]. split; [exact Dok|]. exists pre, raw0, rest. split; [exact Lp|]. split; [exact R|].
  split; [|intros data' more E; destruct (Open data' more E) as (s & E1 & E2 & _); eauto].
  destruct (Open _ _ R) as (s & Es & Eh & E1 & E2 & E3). exists s. split; [exact Es|]. split; [exact Eh|].
  rewrite map_map.
  eapply (C36_same_width_partial prof ch lower f64_ok csv_records cfg lines _ s (Ok raw0 :: map Ok rest) (first :: recs) (t0 :: ts0)).
  - exact Es.
  - exists d, (map Ok pre). split; [exact U1|]. split; [exact R|]. rewrite map_length. exact Lp.
  - constructor; [exists raw0; split; [reflexivity|exact D0]|now apply Dec].
  - assert (X : Forall2 (fun r t => get_timestamp prof ch r col fmt (ci_tz cfg) = Ok t) (first :: recs) (t0 :: ts0)).
    { clear - Ft Fm. revert Fm. generalize (t0 :: ts0). induction Ft as [|r x l l' H _ IH]; intros ts Fm; inversion Fm; subst; constructor; [|auto].
      eapply row_time_get; eauto. }
    clear - X E1 E2 E3. induction X as [|r t l l' H _ IH]; constructor; [|exact IH]. unfold timed. rewrite E1, E2, E3. exact H.
  - assert (L : forall r, In r (first :: recs) -> length r = length first).
    { rewrite Forall_forall in W. intros r [<-|Hr]; [reflexivity|auto]. }
    intros r r' Hr Hr'. rewrite (L r Hr), (L r' Hr'). reflexivity.
Qed.

(** Whatever an input delivers after lines without quotes (and however it ends), the rows of those lines are
    delivered, all but the last, which is held back until the record after it has been read. *)
Theorem C108_csv_input : forall a (z : option (zone ch)) cfg i p x y lines h rows,
  csv_input_options a z = Ok cfg -> previewer_new i = Ok p ->
  i_data i = (x ++ [byte_of 10]) ++ y -> ~ In quote x ->
  first_lines (i_data i) lines -> csv_content_by lower f64_ok a z lines (x ++ [byte_of 10]) h rows ->
  exists rest, csv_create prof ch lower f64_ok csv_records cfg p = Ok (h, map Ok (removelast rows) ++ rest).
Proof.
  intros a z cfg i p x y lines h rows Hi Hp Ed Hq Fl C.
  destruct (opens_by a z cfg lines (x ++ [byte_of 10]) h rows Hi C) as (d & Hd & Dok & pre & raw0 & rest & Lp & R & (s' & Es' & Eh' & Er') & Open).
  assert (El : get_lines p = lines).
  { destruct Fl as (raw & Pv & L). rewrite <- (C28_preview_is_prefix _ _ Hp) in Pv.
    destruct (C29_lines_proof _ _ _ Hp Pv) as [L1 L2]. destruct lines; [now apply L1|now apply L2]. }
  unfold csv_create. rewrite El, (preview_stream _ _ Hp), Ed.
  destruct (records_line d x y (i_tail i) Dok Hq) as (R0 & A & EA & EB).
  assert (ER : R0 = pre ++ raw0 :: rest).
  { rewrite R in EB. replace (map Ok pre ++ Ok raw0 :: map Ok rest) with (@map _ (res (list bytes)) Ok (pre ++ raw0 :: rest)) in EB
      by (rewrite map_app; reflexivity).
    clear - EB. revert EB. generalize (pre ++ raw0 :: rest). revert R0. induction R0 as [|u R0 IH]; intros [|v l] E; try discriminate; [reflexivity|].
    cbn [map] in E. injection E as -> E. f_equal. now apply IH. }
  subst R0. rewrite map_app in EA. cbn [map] in EA.
  rewrite <- (app_assoc (map Ok pre) (Ok raw0 :: map Ok rest) A) in EA. cbn [app] in EA.
  destruct (Open _ _ EA) as (s & Es & Eh). rewrite Es. cbn [bind]. rewrite Eh.
  destruct (open_agree prof ch lower f64_ok _ _ _ _ _ _ _ _ _ _ _ Es Es' Hd (eq_trans (map_length _ _) Lp) EA R) as (_ & En & Erd & Erd' & Ef).
  pose proof (csv_new_spec _ _ _ _ _ _ _ _ _ Es) as (_ & _ & _ & _ & _ & _ & _ & _ & _ & _ & N).
  pose proof (csv_new_spec _ _ _ _ _ _ _ _ _ Es') as (_ & _ & _ & _ & _ & _ & _ & _ & _ & _ & N').
  rewrite (csv_rows_from _ _ _ N). rewrite (csv_rows_from _ _ _ N'), Erd', Ef, <- En in Er'. rewrite Erd.
  destruct (rows_more prof ch s A rest (cs_next s) rows Er') as [more Em]. rewrite Em. eauto.
Qed.
End Input.
Print Assumptions C108_csv_input.

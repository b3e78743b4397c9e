(** C141: what a run has written when an input breaks off is the beginning of what it would have written. *)
From Verif Require Export BreakOffSpec.
From Verif Require Import WholeCsvSpec T_Whole T_Whole2 T_WholeCsv T_CliCsv T_Csv T_CsvQuote CsvProofs CsvProofs2 DriveTop DriverSpec DriverModel GraphProps.
From Verif Require Import T_Zip T_Reader T_Pack T_Damage T_DamageZip T_DamageDir T_WholeAny T_Writer T_DamageAny T_CsvCut InputProofs ReaderProofs.
Local Open Scope nat_scope.
Local Notation prefix := DriverSpec.prefix.

(** ** Records *)
Lemma records_broken d x y e tail : exists R A,
  csv_records d {| s_data := x ++ y; s_tail := tail |} = map Ok R ++ A /\
  csv_records d {| s_data := x; s_tail := Some e |} = map Ok R ++ [Err (EIo e)].
Proof.
  unfold csv_records, strip_bom. cbn [s_data s_tail].
  assert (E0 : forall st f c, csv_parse d st f c (Some e) [] = [Err (EIo e)]) by reflexivity.
  destruct (starts_with [byte_of 0xEF; byte_of 0xBB; byte_of 0xBF] x) eqn:Ex.
  - destruct (bom_cut x y Ex) as [-> ->].
    rewrite parse_scan, (parse_scan_all d (skipn 3 x)).
    destruct (snd (scan d StartRecord [] [] (skipn 3 x))) as [[st f] c].
    eexists _, _. split; [reflexivity|]. now rewrite E0.
  - destruct (starts_with [byte_of 0xEF; byte_of 0xBB; byte_of 0xBF] (x ++ y)) eqn:Exy.
    + destruct (bom_late x y Ex Exy) as (L & F). exists [], (csv_parse d StartRecord [] [] tail (skipn 3 (x ++ y))).
      split; [reflexivity|].
      rewrite parse_scan_all.
      assert (Z : forall st fs cu, fst (scan d st fs cu x) = []).
      { clear - F. induction F as [|c x Hc F IH]; intros st fs cu; [reflexivity|]. cbn [scan].
        assert (T : is_term c = false) by (destruct Hc as [<-|[<-|[]]]; reflexivity).
        unfold csv_trans. rewrite T. destruct st; repeat match goal with |- context [Ascii.eqb ?p ?q] => destruct (Ascii.eqb p q) end; apply IH. }
      rewrite Z. cbn [map app]. destruct (snd _) as [[st f] c]. apply E0.
    + rewrite parse_scan, (parse_scan_all d x).
      destruct (snd (scan d StartRecord [] [] x)) as [[st f] c].
      eexists _, _. split; [reflexivity|]. now rewrite E0.
Qed.

Lemma repair_cons (r : row) s s' : source_repair s s' -> source_repair (Ok r :: s) (Ok r :: s').
Proof.
  intros [->|(p & x & t & t' & -> & -> & Hp & Hx)]; [now left|]. right. exists (Ok r :: p), x, t, t'.
  split; [reflexivity|]. split; [reflexivity|]. split; [|exact Hx]. intros y [<-|H]; [reflexivity|auto].
Qed.
Lemma same_lines i j p q : previewer_new i = Ok p -> previewer_new j = Ok q ->
  firstn (8 * 1024) (i_data i) = firstn (8 * 1024) (i_data j) -> get_lines p = get_lines q.
Proof.
  intros Ep Eq E. assert (Eb : get_buf p = get_buf q) by (rewrite (C28_preview_is_prefix _ _ Ep), (C28_preview_is_prefix _ _ Eq); exact E).
  destruct (C29_lines_exist (get_buf p) (length (get_buf p) =? 8 * 1024)) as [raw Pv].
  destruct (C29_lines_proof _ _ _ Ep Pv) as [P1 P2]. rewrite Eb in Pv. destruct (C29_lines_proof _ _ _ Eq Pv) as [Q1 Q2].
  destruct (get_lines p) as [out|].
  - symmetry. apply Q1, P1. reflexivity.
  - symmetry. apply Q2, P2. reflexivity.
Qed.

Section BreakOff.
Context (prof : profile) (ch : chrono) (lower : bytes -> bytes) (f64_ok : text -> bool).

Lemma rows_broken s e A R : forall next, source_repair (rows_from prof ch s next (map Ok R ++ [Err e])) (rows_from prof ch s next (map Ok R ++ A)).
Proof.
  induction R as [|r R IH]; intro next.
  - right. exists [], (Err e), [], (rows_from prof ch s next A). cbn. split; [reflexivity|]. split; [reflexivity|]. split; [intros y []|reflexivity].
  - cbn [map app rows_from bind]. destruct (string_record r) as [x| | | |]; try now left.
    destruct (update_row prof ch (cs_col s) (cs_fmt s) (cs_tz s) next x) as [next' [u| | | |]]; try now left. apply repair_cons, IH.
Qed.
Local Notation opens cfg lines data := (csv_new prof ch lower f64_ok csv_records cfg lines data).
Lemma new_broken cfg lines x y e tail s s' :
  opens cfg lines {| s_data := x; s_tail := Some e |} = Ok s -> opens cfg lines {| s_data := x ++ y; s_tail := tail |} = Ok s' ->
  cs_header s = cs_header s' /\ source_repair (csv_rows prof ch s) (csv_rows prof ch s').
Proof.
  intros H H'.
  pose proof (csv_new_spec _ _ _ _ _ _ _ _ _ H) as (d & pre & first & rest & Hd & Hsp & Hpre & (r0 & (fs0 & Hf0 & _) & _) & _ & _ & N).
  pose proof (csv_new_spec _ _ _ _ _ _ _ _ _ H') as (d' & pre' & first' & rest' & Hd' & Hsp' & Hpre' & _ & _ & _ & N').
  rewrite (T_Csv.delimiter_one _ _ _ _ _ Hd' Hd) in *.
  destruct (records_broken d x y e tail) as (R & A & EA & EB).
  assert (Lp : length pre = if has_header_used f64_ok cfg lines d then 1 else 0).
  { destruct pre as [|? [|? ?]]; [|destruct Hpre as [Hpre _]|destruct Hpre]; now rewrite Hpre. }
  assert (X : exists p q R2, R = p ++ q :: R2 /\ length p = length pre).
  { destruct (Nat.le_gt_cases (S (length pre)) (length R)) as [Long|Short].
    - exists (firstn (length pre) R). destruct (skipn (length pre) R) as [|q R2] eqn:Es.
      + apply (f_equal (@length _)) in Es. rewrite skipn_length in Es. cbn in Es. lia.
      + exists q, R2. rewrite <- Es, firstn_skipn. split; [reflexivity|]. rewrite firstn_length. lia.
    - exfalso. rewrite EB in Hsp. assert (H0 : In (Err (EIo e)) (pre ++ [first])).
      { assert (L := f_equal (@length _) Hsp). rewrite !app_length, map_length in L. cbn [length] in L.
        destruct rest; [|cbn [length] in L; lia]. rewrite <- Hsp. apply in_or_app. right. now left. }
      apply in_app_iff in H0 as [H0|[H0|[]]]; [|congruence].
      destruct pre as [|hd [|? ?]]; [destruct H0| |destruct Hpre]. destruct H0 as [->|[]]. destruct Hpre as [_ (fs & Hf & _)]. discriminate. }
  destruct X as (p & q & R2 & -> & Lpp).
  rewrite map_app in EA, EB. cbn [map] in EA, EB. rewrite <- app_assoc in EA, EB. cbn [app] in EA, EB.
  destruct (open_agree _ _ _ _ _ _ _ _ _ _ _ _ _ _ _ H H' Hd (eq_trans (map_length _ _) (eq_trans Lpp Lp)) EB EA) as (Eh & En & Er & Er' & Ef).
  split; [exact Eh|]. rewrite (csv_rows_from _ _ _ N), (csv_rows_from _ _ _ N'), Er, Er', Ef, <- En. apply rows_broken.
Qed.

Variables (ds : decoders) (inflate bunzip : inner -> inner) (f64 f32 : N -> bytes).
Variables (zones : option (bytes -> option (zone ch))) (parse_zone : bytes -> option (zone ch)).
Variable create : bytes -> res unit.
Local Notation cli := (chopper_cli prof ch lower f64_ok csv_records ds inflate bunzip f64 f32 None None zones parse_zone create).
Local Notation args_of := (parse_args prof ch zones parse_zone).
Local Notation sfs cfg := (all_factories prof ch lower f64_ok csv_records None cfg).
Definition repaired (i j : header * source) : Prop := fst i = fst j /\ source_repair (snd i) (snd j).

Lemma input_broken w w' cfg t fmt i j : unaffected w w' t \/ breaks_off ds inflate bunzip w w' t fmt ->
  create_source_from_input ds inflate bunzip w None (sfs cfg) {| in_type := t; in_format := fmt |} = Ok i ->
  create_source_from_input ds inflate bunzip w' None (sfs cfg) {| in_type := t; in_format := fmt |} = Ok j -> repaired i j.
Proof.
  intros [U|(x & y & e & tail & D & D')] O O'.
  - assert (i = j) as ->; [|split; [reflexivity|now left]].
    unfold create_source_from_input in *. cbn [in_type in_format dir_file_transport dt_can_handle] in *. destruct t as [p|]; cbn [unaffected] in U.
    + destruct U as (N & N' & U1 & U2 & U3). rewrite N in O. rewrite N' in O'.
      assert (E : create_source_from_path ds inflate bunzip w' None (sfs cfg) fmt p = create_source_from_path ds inflate bunzip w None (sfs cfg) fmt p).
      { unfold create_source_from_path, open_zip. rewrite U1, U2.
        destruct (if w_exists w p then _ else _) as [[c|]| | | |]; try reflexivity. cbn [bind].
        unfold create_previewer, streaming_transports. cbn. rewrite U1, U2, U3. reflexivity. }
      rewrite E in O'. congruence.
    + rewrite U in O'. congruence.
  - destruct (input_opened prof ch lower f64_ok ds inflate bunzip w cfg fmt t KCsv _ _ _ D O) as (a & p & (Da & Ta & _) & Ep & C).
    destruct (input_opened prof ch lower f64_ok ds inflate bunzip w' cfg fmt t KCsv _ _ _ D' O') as (a' & q & (Da' & Ta' & _) & Eq & C').
    cbn [sf_create csv_factory] in C, C'. unfold csv_create in C, C'.
    rewrite (preview_stream _ _ Ep), Da, Ta in C. rewrite (preview_stream _ _ Eq), Da', Ta' in C'.
    assert (L : get_lines p = get_lines q).
    { apply (same_lines a a'); auto. rewrite Da, Da'.
      destruct (Nat.le_gt_cases (8 * 1024) (length x)) as [L|L].
      - rewrite firstn_app. replace (8 * 1024 - length x) with 0 by lia. now rewrite app_nil_r.
      - rewrite <- Da in L. destruct (early_error a e Ta L p Ep). }
    rewrite <- L in C'.
    destruct (csv_new _ _ _ _ _ _ (get_lines p) {| s_data := x; s_tail := Some e |}) as [s| | | |] eqn:Es; try discriminate.
    destruct (csv_new _ _ _ _ _ _ (get_lines p) {| s_data := x ++ y; s_tail := tail |}) as [s'| | | |] eqn:Es'; try discriminate.
    cbn [bind] in C, C'. injection C as <-. injection C' as <-.
    destruct (new_broken _ _ _ _ _ _ _ _ Es Es') as [Eh Sr]. split; [exact Eh|exact Sr].
Qed.
Lemma inputs_broken w w' cfg l : Forall (fun tf => unaffected w w' (fst tf) \/ breaks_off ds inflate bunzip w w' (fst tf) (snd tf)) l ->
  forall is js,
  open_inputs ds inflate bunzip w None (sfs cfg) (map (fun tf => {| in_type := fst tf; in_format := snd tf |}) l) = Ok is ->
  open_inputs ds inflate bunzip w' None (sfs cfg) (map (fun tf => {| in_type := fst tf; in_format := snd tf |}) l) = Ok js ->
  Forall2 repaired is js.
Proof.
  induction 1 as [|[t f] l H _ IH]; intros is js E E'; cbn [map open_inputs fst snd] in *.
  - injection E as <-. injection E' as <-. constructor.
  - destruct (create_source_from_input ds inflate bunzip w _ _ _) as [i| | | |] eqn:Ei; try discriminate.
    destruct (create_source_from_input ds inflate bunzip w' _ _ _) as [j| | | |] eqn:Ej; try discriminate. cbn [bind] in *.
    destruct (open_inputs ds inflate bunzip w _ _ _) as [is0| | | |]; try discriminate.
    destruct (open_inputs ds inflate bunzip w' _ _ _) as [js0| | | |]; try discriminate. cbn [bind] in *.
    injection E as <-. injection E' as <-. constructor; [exact (input_broken _ _ _ _ _ _ _ H Ei Ej)|auto].
Qed.

(** If both runs get as far as to write, the one with the broken inputs has written the beginning of what the other has. *)
Theorem C141_prefix : forall F w w' a opts l out out',
  args_of w a = Ok opts -> w_env_tz w' = w_env_tz w -> inputs_for a l ->
  Forall (fun tf => unaffected w w' (fst tf) \/ breaks_off ds inflate bunzip w w' (fst tf) (snd tf)) l ->
  o_written (cli F w a) = Some out -> o_written (cli F w' a) = Some out' ->
  prefix out out'.
Proof.
  intros F w w' a opts l out out' Ea Ez Hi Hl W W'.
  assert (Ea' : args_of w' a = Ok opts) by (unfold parse_args in *; rewrite Ez; exact Ea).
  unfold chopper_cli in W, W'. rewrite Ea in W. rewrite Ea' in W'. clear Ea'. unfold run_chop in W, W'.
  rewrite (proj1 (asked_inputs prof ch lower zones parse_zone create w a opts l Ea Hi)) in W, W'.
  destruct (open_inputs ds inflate bunzip w _ _ _) as [is| | | |] eqn:Ei; try discriminate.
  destruct (open_inputs ds inflate bunzip w' _ _ _) as [js| | | |] eqn:Ej; try discriminate.
  pose proof (inputs_broken w w' _ l Hl _ _ Ei Ej) as F2. clear Ei Ej.
  destruct (new_header_sink _ _) as [k| | | |]; try discriminate.
  destruct (match kind_path k with Some p => create p | None => Ok tt end) as [[]| | | |]; try discriminate.
  assert (Eh : map fst is = map fst js) by (clear - F2; induction F2 as [|? ? ? ? [A _] _ IH]; cbn; congruence).
  assert (El : length is = length js) by (rewrite <- (map_length fst is), Eh, map_length; reflexivity).
  assert (Es : Forall2 source_repair (map snd is) (map snd js)) by (clear - F2; induction F2 as [|? ? ? ? [_ A] _ IH]; constructor; auto).
  destruct (chop F is _ _) as [st r] eqn:Ec. destruct (chop F js _ _) as [st' r'] eqn:Ec'.
  cbn [o_written] in W, W'. injection W as <-. injection W' as <-.
  unfold output_header. rewrite <- Eh, <- El. destruct (match map fst is with [] => None | _ :: _ => _ end) as [h|]; [|exists []; reflexivity].
  rewrite !kind_bytes_calls. apply prefix_under, calls_bytes_prefix.
  assert (Fu : further st st').
  { unfold chop in Ec, Ec'. rewrite <- El, <- Eh in Ec'. destruct (cli_graph _ _) as [hg| | | |].
    2-5: injection Ec as <- <-; injection Ec' as <- <-; split; exists []; reflexivity.
    unfold run_driver in Ec, Ec'. rewrite !map_length, <- El in Ec'. rewrite map_length in Ec.
    destruct (driver_new _ _ _) as [g| | | |].
    2-5: injection Ec as <- <-; injection Ec' as <- <-; split; exists []; reflexivity.
    eapply drive_repair; [|exact Es|exact Ec|exact Ec'].
    clear. induction g; constructor; auto. apply chain_repair_refl. }
  apply further_calls. exact Fu.
Qed.
(** And, without --end, the run with the broken inputs does not report success. *)
Theorem C141_noticed : forall F w w' a opts l t fmt,
  args_of w a = Ok opts -> inputs_for a l -> In (t, fmt) l -> a_end a = None -> breaks_off ds inflate bunzip w w' t fmt ->
  exit_code (cli F w a) <> 0%N.
Proof.
  intros F w w' a opts l t fmt Ea Hi Hin Ae (x & y & e & tail & D & _).
  exact (C140_csv prof ch lower f64_ok ds inflate bunzip f64 f32 zones parse_zone create F w a opts l t fmt x e Ea Hi Hin Ae D).
Qed.
End BreakOff.
Print Assumptions C141_prefix.
Print Assumptions C141_noticed.

(** Property theorems about the lines of CSV files (C129). *)
From Verif Require Export T_Laws LinesSpec.
From Verif Require Import T_Whole T_Whole2 T_CliCsv T_WholeCsv T_WholeAny DriveTop MultiSpec CsvProofs.
Local Open Scope nat_scope.
Local Notation in_range := StreamSpec.in_range.
Local Notation at_time t := (fun r => (ts r =? t)%N).
Local Notation at_t t := (fun x : bytes * N => (snd x =? t)%N).

Lemma csv_text_lines d : forall recs lines, Forall2 (plain_line d) recs lines -> csv_text d recs (text_of lines).
Proof.
  intros recs lines F. induction F as [|r l recs lines (Ne & Fs & El & Nl) F IH]; [constructor|].
  unfold text_of in *. cbn [map concat]. rewrite <- app_assoc. apply text_line; [|left; reflexivity|exact IH].
  exists r. split; [exact Ne|]. split; [|auto]. clear - Fs.
  induction Fs as [|f fs (A & B & C & D & _) Fs IH]; constructor; [now constructor|exact IH].
Qed.
Lemma plain_trimmed d recs lines : Forall2 (plain_line d) recs lines -> Forall2 (Forall2 trimmed) recs recs.
Proof.
  intro F. induction F as [|r l recs lines (_ & Fs & _) F IH]; constructor; [|exact IH].
  clear - Fs. induction Fs as [|f fs (_ & _ & _ & _ & T) Fs IH]; constructor; auto.
Qed.

(** The row of a line. *)
Definition fields_of (r : row) : list bytes := map (fun v => match v with VString s => s | _ => [] end) (vals r).
Definition pair_of (d : byte) (r : row) : bytes * N := (join [d] (fields_of r), ts r).
Lemma fields_row rec t : fields_of (row_of rec t) = rec.
Proof. unfold fields_of, row_of. cbn [vals]. rewrite map_map. apply map_id. Qed.

Section Lines.
Context (prof : profile) (ch : chrono) (lower : bytes -> bytes) (f64_ok : text -> bool).
Variables (ds : decoders) (inflate bunzip : inner -> inner) (f64 f32 : N -> bytes).
Variables (zones : option (bytes -> option (zone ch))) (parse_zone : bytes -> option (zone ch)).
Variable create : bytes -> res unit.
Local Notation cli := (chopper_cli prof ch lower f64_ok csv_records ds inflate bunzip f64 f32 None None zones parse_zone create).
Local Notation args_of := (parse_args prof ch zones parse_zone).
Local Notation meant a w z := (zone_meant (a_timezone a) (w_env_tz w) zones parse_zone z).
Local Notation hdr names := {| h_names := names; h_types := repeat TString (length names) |}.

Lemma lines_content a (z : option (zone ch)) d names data lines times : lines_file lower f64_ok a z d names data lines times ->
  exists recs, length recs = length times /\ Forall2 (plain_line d) recs lines /\
    csv_content lower f64_ok a z data (hdr names) (map (fun p => row_of (fst p) (snd p)) (combine recs times)).
Proof.
  intros (pv & head & first & recs & texts & col & hint & fmt & Ph & Pl & W & Ed & Nb & Fl & Dl & D1 & D2 & D3 & Hh & Ic & If & Tx & Ti).
  exists (first :: recs). split.
  { etransitivity; [exact (GraphProps.Forall2_len _ _ _ Tx)|exact (GraphProps.Forall2_len _ _ _ Ti)]. }
  split; [exact Pl|].
  inversion W as [|? ? Wf Wr]; subst.
  exists pv, d, true, (text_of (head :: lines)), (names :: first :: recs), (names :: first :: recs), names, first, recs, texts, times, col, hint, fmt.
  cbn [h_names h_types]. rewrite Wf.
  split; [exact Fl|]. split; [exact Dl|]. split; [exact D1|]. split; [exact D2|]. split; [exact D3|]. split; [exact Hh|].
  split; [now left|]. split; [exact Nb|]. split; [apply csv_text_lines; constructor; assumption|].
  split; [eapply plain_trimmed; constructor; eassumption|]. split; [reflexivity|].
  split; [exact Wr|]. split; [reflexivity|]. split; [reflexivity|]. split; [exact Ic|]. split; [exact If|]. split; [exact Tx|]. split; [exact Ti|reflexivity].
Qed.
Lemma pairs_of d recs lines : Forall2 (plain_line d) recs lines -> forall times, length recs = length times ->
  map (pair_of d) (map (fun p => row_of (fst p) (snd p)) (combine recs times)) = combine lines times.
Proof.
  intro F. induction F as [|r l recs lines (_ & _ & El & _) F IH]; intros [|t times] L; try discriminate; [reflexivity|].
  cbn [combine map fst snd]. rewrite IH by (cbn in L; lia). unfold pair_of at 1. rewrite fields_row, <- El. reflexivity.
Qed.
Lemma time_in_row rng r : in_range rng r = time_in rng (ts r).
Proof. reflexivity. Qed.
Lemma map_filter_pairs d f g (rows : list row) : (forall r, In r rows -> f r = g (pair_of d r)) ->
  map (pair_of d) (filter f rows) = filter g (map (pair_of d) rows).
Proof.
  intro H. induction rows as [|r rows IH]; [reflexivity|]. cbn [filter map]. rewrite (H r (or_introl eq_refl)).
  destruct (g (pair_of d r)); cbn [map]; rewrite IH by (intros; apply H; now right); reflexivity.
Qed.

(** ** C129: the lines of CSV files pass unchanged *)
Theorem C129_lines : forall F w a z u d names ins datas liness timess out s e op,
  3 <= F -> meant a w z -> granularity a u -> args_of w (asked a ins out s e) = Ok op ->
  csv_name out -> (forall p, out = Some p -> create p = Ok tt) ->
  a_out_delimiter a = [d] -> (a_out_print_time a = b "yes" -> a_out_epoch a = false -> z <> None) ->
  (* each input holds lines under the same names, in the order of their times, some of them in the range *)
  length ins = length datas -> length datas = length liness -> length liness = length timess ->
  (forall i path data lines times, nth_error ins i = Some path -> nth_error datas i = Some data ->
     nth_error liness i = Some lines -> nth_error timess i = Some times ->
     (exists name c, holds inflate bunzip w path name c /\ recognised ds InputModel.Auto (Some name) c data KCsv) /\
     lines_file lower f64_ok a z d names data lines times /\
     Sorted N.le times /\ exists t, In t times /\ time_in (op_range ch op) t = true) ->
  let chosen := map (fun p => filter (fun x => time_in (op_range ch op) (snd x)) (combine (fst p) (snd p))) (combine liness timess) in
  exists kept outs,
    run_ok (cli F w (asked a ins out s e))
      (text_of (join (b ",") ((if bytes_eqb (a_out_print_time a) (b "yes") then [output_time_name a u] else []) ++ names) :: outs)) /\
    Forall2 (passed_on a z u d) kept outs /\
    (* the lines in the range, each once, in the order of their times; equal times from the last input first *)
    Permutation kept (concat chosen) /\ Sorted N.le (map snd kept) /\
    forall t, filter (at_t t) kept = concat (map (filter (at_t t)) (rev chosen)).
Proof.
  intros F w a z u d names ins datas liness timess out s e op HF Hz Hu Ea Ho Hcr Hd Hzo L1 L2 L3 H chosen.
  (* the rows of the inputs *)
  assert (Rs : exists rowss : list (list row),
    Forall2 (fun path rows => input_gives lower f64_ok ds inflate bunzip w a z (hdr names) InputModel.Auto (Path path) rows /\
      time_ordered rows /\ has_rows (op_range ch op) rows) ins rowss /\
    Forall2 (fun lt rows => map (pair_of d) rows = combine (fst lt) (snd lt)) (combine liness timess) rowss /\
    Forall (Forall (fun r => exists rec, r = row_of rec (ts r) /\ rec <> [])) rowss).
  { clear chosen Ea Hcr Ho. revert datas liness timess L1 L2 L3 H. induction ins as [|path ins IH]; intros [|data datas] [|lines liness] [|times timess] L1 L2 L3 H; try discriminate.
    - exists []. repeat constructor.
    - destruct (IH datas liness timess) as (rowss & A & B & C); [cbn in *; lia|cbn in *; lia|cbn in *; lia| |].
      { intros i. apply (H (Datatypes.S i)). }
      destruct (H 0 path data lines times eq_refl eq_refl eq_refl eq_refl) as ((name & c & Hh & Hr) & Hl & Hs & t & T1 & T2).
      destruct (lines_content _ _ _ _ _ _ _ Hl) as (recs & Lr & Pl & Ct).
      set (rows := map (fun p => row_of (fst p) (snd p)) (combine recs times)) in *.
      assert (Et : map ts rows = times).
      { subst rows. rewrite map_map. cbn. clear - Lr. revert times Lr. induction recs as [|r recs IH]; intros [|t times] L; try discriminate; [reflexivity|].
        cbn. f_equal. apply IH. cbn in L. lia. }
      exists (rows :: rowss). split; [|split].
      + constructor; [|exact A]. split; [constructor; exists name, c, data, KCsv; auto|]. split.
        * rewrite <- Et in Hs. clear - Hs. unfold time_ordered. induction rows as [|r rows IH]; [constructor|]. cbn in Hs. inversion Hs; subst.
          constructor; [auto|]. destruct rows; constructor. cbn in H2. inversion H2; subst. exact H0.
        * rewrite <- Et in T1. apply in_map_iff in T1 as (r & <- & Hr0). exists r. auto.
      + constructor; [|exact B]. cbn [fst snd]. now apply pairs_of.
      + constructor; [|exact C]. apply Forall_forall. intros r Hr0. subst rows. apply in_map_iff in Hr0 as ([rec t0] & <- & Hp). exists rec.
        split; [reflexivity|]. apply in_combine_l in Hp. clear - Pl Hp. induction Pl as [|x l recs ls (Ne & _) Pl IH]; [destruct Hp|]. destruct Hp as [<-|Hp]; auto. }
  destruct Rs as (rowss & G & Pr & Rr).
  assert (Hne : names <> []).
  { destruct ins as [|path ins].
    - destruct (args_asked prof ch zones parse_zone w a [] out s e op z Hz Ea) as (X & _). now destruct X.
    - destruct datas as [|data datas]; [discriminate|]. destruct liness as [|lines liness]; [discriminate|]. destruct timess as [|times timess]; [discriminate|].
      destruct (H 0 path data lines times eq_refl eq_refl eq_refl eq_refl) as (_ & (pv & head & first & recs & texts & col & hint & fmt & (Ph & _) & _) & _). exact Ph. }
  assert (Hc : can_hold KCsv a z (hdr names) rowss) by (split; [exact Hne|exact Hzo]).
  destruct (law_run prof ch lower f64_ok ds inflate bunzip f64 f32 zones parse_zone create KCsv F w a op z u (hdr names) ins out s e rowss)
    as (rows & R & Pm & Sr & Te); auto.
  destruct (formatted prof ch f64 f32 zones parse_zone KCsv w a ins out s e op z u (hdr names) rowss Hz Hu Ea Hc) as ((Wh & Wl) & _).
  destruct (args_asked prof ch zones parse_zone w a ins out s e op z Hz Ea) as (_ & Eco & _).
  assert (Rrow : Forall (fun r => exists rec, r = row_of rec (ts r) /\ rec <> []) rows).
  { apply Forall_forall. intros r Hr. eapply Permutation_in in Hr; [|exact Pm]. apply in_concat in Hr as (l & Hl & Hr). apply in_map_iff in Hl as (rs & <- & Hl).
    apply filter_In in Hr as [Hr _]. rewrite Forall_forall in Rr. specialize (Rr rs Hl). rewrite Forall_forall in Rr. auto. }
  assert (Eh : head_of KCsv (op_csv_out ch op) (hdr names) =
    join (b ",") ((if bytes_eqb (a_out_print_time a) (b "yes") then [output_time_name a u] else []) ++ names) ++ [byte_of 10]).
  { destruct Wh as (l & [(P & E)|(P & E)] & ->); rewrite E, P; reflexivity. }
  assert (Outs : exists outs, Forall2 (passed_on a z u d) (map (pair_of d) rows) outs /\
    concat (map (line_of f64 f32 KCsv (op_csv_out ch op) (hdr names)) rows) = text_of outs).
  { clear - Rrow Wl Hd. induction Rrow as [|r rows (rec & Er & Nr) Rrow IH]; [exists []; split; [constructor|reflexivity]|].
    destruct IH as (outs & A & B).
    assert (V : Forall2 (value_text f64 f32) (vals r) rec).
    { rewrite Er. cbn [row_of vals]. clear. induction rec; constructor; [constructor|assumption]. }
    destruct (Wl r rec V) as (l & (texts & V' & O) & El).
    assert (texts = rec).
    { clear - V V'. revert texts V'. induction V as [|v t vs ts A V IH]; intros texts V'; inversion V'; subst; [reflexivity|].
      f_equal; [|auto]. apply T_CsvOut.value_spec in A. apply T_CsvOut.value_spec in H1. congruence. }
    subst texts. exists (l :: outs). split.
    - cbn [map]. constructor; [|exact A]. unfold passed_on, pair_of. cbn [fst snd].
      assert (Ef : fields_of r = rec) by (rewrite Er; apply fields_row). rewrite Ef. rewrite Hd in O.
      destruct O as [(P & ->)|(P & t & T & ->)]; [left; auto|right]. split; [exact P|]. exists t. split; [exact T|].
      destruct rec as [|f rec]; [congruence|]. cbn [join flat_map]. rewrite <- app_assoc. reflexivity.
    - cbn [map concat]. rewrite El, B. unfold text_of. cbn [map concat]. reflexivity. }
  destruct Outs as (outs & Fo & Eo).
  assert (Ech : chosen = map (fun rs => map (pair_of d) (filter (in_range (op_range ch op)) rs)) rowss).
  { subst chosen. clear - Pr. induction Pr as [|lt rs lts rss E Pr IH]; [reflexivity|]. cbn [map]. rewrite IH. f_equal.
    rewrite <- E. symmetry. apply map_filter_pairs. intros r _. apply time_in_row. }
  exists (map (pair_of d) rows), outs. split; [|split; [exact Fo|split; [|split]]].
  - rewrite Eh, Eo in R. unfold text_of in *. cbn [map concat]. exact R.
  - rewrite Ech. eapply Permutation_trans; [apply Permutation_map; exact Pm|]. rewrite concat_map, map_map. apply Permutation_refl.
  - rewrite map_map. cbn [pair_of snd]. clear - Sr. unfold time_ordered in Sr. induction rows as [|r rows IH]; [constructor|]. inversion Sr; subst.
    cbn [map]. constructor; [auto|]. destruct rows; constructor. inversion H2; subst. exact H0.
  - intro t. rewrite <- map_filter_pairs with (f := at_time t) by reflexivity. rewrite Te, concat_map, map_map, Ech, <- map_rev, map_map.
    f_equal. apply map_ext. intro rs. apply map_filter_pairs. reflexivity.
Qed.
(** One file: the lines in the range as they stand; all of them, and so the file itself, without a range. *)
Theorem C129_one_file : forall F w a z u d names path name c data lines times out s e op,
  3 <= F -> meant a w z -> granularity a u -> args_of w (asked a [path] out s e) = Ok op ->
  csv_name out -> (forall p, out = Some p -> create p = Ok tt) ->
  a_out_delimiter a = [d] -> a_out_print_time a = b "no" ->
  holds inflate bunzip w path name c -> recognised ds InputModel.Auto (Some name) c data KCsv ->
  lines_file lower f64_ok a z d names data lines times ->
  Sorted N.le times -> (exists t, In t times /\ time_in (op_range ch op) t = true) ->
  run_ok (cli F w (asked a [path] out s e))
    (text_of (join (b ",") names :: map fst (filter (fun x => time_in (op_range ch op) (snd x)) (combine lines times)))) /\
  (s = None -> e = None -> d = byte_of 44 -> run_ok (cli F w (asked a [path] out s e)) data).
Proof.
  intros F w a z u d names path name c data lines times out s e op HF Hz Hu Ea Ho Hcr Hd Hno Hh Hr Hl Hs Ht.
  destruct (C129_lines F w a z u d names [path] [data] [lines] [times] out s e op) as (kept & outs & R & Po & Pm & Sk & Te); auto.
  { intros P. rewrite P in Hno. discriminate Hno. }
  { intros [|i] p dt ls ts0 E1 E2 E3 E4; [|destruct i; discriminate]. injection E1 as <-. injection E2 as <-. injection E3 as <-. injection E4 as <-. eauto 8. }
  cbn [combine map fst snd concat rev app] in Pm, Te. rewrite app_nil_r in Pm.
  set (chosen := filter (fun x => time_in (op_range ch op) (snd x)) (combine lines times)) in *.
  assert (Lt : length lines = length times).
  { destruct (lines_content _ _ _ _ _ _ _ Hl) as (recs & Lr & Pl & _). apply GraphProps.Forall2_len in Pl. congruence. }
  assert (Sc : Sorted N.le (map snd chosen)).
  { assert (X : StronglySorted N.le times) by (apply Sorted_StronglySorted; [intros x y q ? ?; lia|exact Hs]).
    apply StronglySorted_Sorted. subst chosen. clear - X Lt. revert lines Lt. induction X as [|t times X IH Hx]; intros [|l lines] L; try discriminate; [constructor|].
    cbn [combine filter]. specialize (IH lines ltac:(cbn in L; lia)).
    cbn [snd]. destruct (time_in (op_range ch op) t); [|exact IH]. cbn [map]. constructor; [exact IH|].
    apply Forall_forall. intros y Hy. apply in_map_iff in Hy as ([l' y'] & <- & Hy). apply filter_In in Hy as [Hy _]. apply in_combine_r in Hy.
    rewrite Forall_forall in Hx. now apply Hx. }
  assert (Ek : kept = chosen).
  { pose (mk := fun x : bytes * N => {| ts := snd x; vals := [VString (fst x)] |}).
    assert (Inj : forall l l' : list (bytes * N), map mk l = map mk l' -> l = l').
    { clear. induction l as [|[x t] l IH]; intros [|[y q] l'] E; try discriminate; [reflexivity|]. cbn in E. injection E as -> -> E. f_equal. auto. }
    assert (Ord : forall l : list (bytes * N), Sorted N.le (map snd l) -> time_ordered (map mk l)).
    { clear. unfold time_ordered. induction l as [|x l IH]; intro H; [constructor|]. cbn [map] in *. inversion H; subst. constructor; [auto|].
      destruct l; constructor. cbn [map] in *. inversion H3; subst. exact H1. }
    assert (Fil : forall t (l : list (bytes * N)), filter (at_time t) (map mk l) = map mk (filter (at_t t) l)).
    { clear. intros t l. induction l as [|x l IH]; [reflexivity|]. cbn [map filter ts mk]. destruct (snd x =? t)%N; cbn [map]; rewrite IH; reflexivity. }
    apply Inj, by_times_unique; auto. intro t. rewrite !Fil, Te, app_nil_r. reflexivity. }
  assert (Eo : outs = map fst chosen).
  { rewrite <- Ek. clear - Po Hno. induction Po as [|x o xs os A Po IH]; [reflexivity|]. cbn [map]. rewrite IH. f_equal.
    destruct A as [(_ & ->)|(P & _)]; [reflexivity|]. rewrite P in Hno. discriminate Hno. }
  rewrite Hno in R. change (bytes_eqb (b "no") (b "yes")) with false in R. cbn [app] in R. rewrite Eo in R. split; [exact R|].
  intros -> -> ->.
  destruct (args_asked prof ch zones parse_zone w a [path] out None None op z Hz Ea) as (_ & _ & Er & _).
  cbn [timestamp_range bind] in Er. injection Er as Er.
  assert (Ec : chosen = combine lines times).
  { subst chosen. rewrite <- Er. clear. induction (combine lines times) as [|x l IH]; [reflexivity|]. cbn in *. now rewrite IH. }
  rewrite Ec in R. replace (map fst (combine lines times)) with lines in R.
  2:{ clear - Lt. revert times Lt. induction lines as [|l lines IH]; intros [|t times] L; try discriminate; [reflexivity|]. cbn. f_equal. apply IH. cbn in L. lia. }
  destruct Hl as (pv & head & first & recs & texts & col & hint & fmt & (_ & _ & Ph & _) & _ & _ & Ed & _). rewrite Ed, Ph. exact R.
Qed.
End Lines.
Print Assumptions C129_lines.
Print Assumptions C129_one_file.

(** C107: the whole program, with any kind of input. *)
From Verif Require Export AnySpec T_Pack.
From Verif Require Import T_Whole T_Whole2 T_CliCsv T_WholeCsv T_Directory T_Input T_Reader InputProofs SortProofs.
Local Open Scope nat_scope.

(** ** Names *)
Lemma packed_name n f : is_compressed_using_format (n ++ ext_of f) = Some (f, n).
Proof.
  pose proof (name_layer_spec (n ++ ext_of f)) as Hl. destruct (is_compressed_using_format (n ++ ext_of f)) as [[g core]|].
  - inversion Hl as [g' core' En|]; subst.
    assert (X : g = f).
    { apply (f_equal (@rev ascii)) in En. rewrite !rev_app_distr in En. destruct g, f; cbn in En; try reflexivity; discriminate En. }
    subst. apply app_inv_tail in En. now subst.
  - inversion Hl as [|n' Hx]; subst. destruct (Hx f n). reflexivity.
Qed.
Lemma unpacked_name n : (forall f core, n <> core ++ ext_of f) -> is_compressed_using_format n = None.
Proof.
  intro H. pose proof (name_layer_spec n) as Hl. destruct (is_compressed_using_format n) as [[g core]|]; [|reflexivity].
  inversion Hl as [g' core' En|]; subst. destruct (H g core). reflexivity.
Qed.
Lemma by_name_unpacked n k : by_name n k -> is_compressed_using_format n = None.
Proof.
  intro H. apply unpacked_name. intros f core E. destruct H; apply (f_equal (@rev ascii)) in E; rewrite !rev_app_distr in E;
    destruct f; cbn in E; discriminate E.
Qed.

Section Any.
Context (prof : profile) (ch : chrono) (lower : bytes -> bytes) (f64_ok : text -> bool).
Variables (ds : decoders) (inflate bunzip : inner -> inner) (f64 f32 : N -> bytes).
Variables (zones : option (bytes -> option (zone ch))) (parse_zone : bytes -> option (zone ch)).
Variable create : bytes -> res unit.
Local Notation cli := (chopper_cli prof ch lower f64_ok csv_records ds inflate bunzip f64 f32 None None zones parse_zone create).
Local Notation args_of := (parse_args prof ch zones parse_zone).

Section Open.
Variables (w : world) (a : args) (z : option (zone ch)) (cfg : csv_input ch) (h : header).
Hypothesis Hcfg : csv_input_options a z = Ok cfg.
Local Notation fac k := (match k with KCsv => csv_factory (csv_create prof ch lower f64_ok csv_records cfg) | KDc => dc_factory dc_create end).
Local Notation sfs := (all_factories prof ch lower f64_ok csv_records None cfg).
Local Notation content := (content lower f64_ok a z h).

Lemma made k data rows p : content k data rows -> previews p data -> sf_create (fac k) p = Ok (h, map Ok rows).
Proof.
  intros C (i & (D & T & Sm) & Ep). destruct k; cbn [sf_create csv_factory dc_factory].
  - apply (csv_opens_content prof ch lower f64_ok a z cfg i p h rows Hcfg T Ep). rewrite D. exact C.
  - destruct C as (evs & E & <- & Ok' & Hr). pose proof Ok' as (Hf & H2 & H8 & _).
    unfold dc_create. rewrite (preview_stream _ _ Ep), D, T, E.
    rewrite (dc_roundtrip h evs None Hf H2 H8 Hr). cbn [bind]. rewrite (with_names_kept h Ok'), app_nil_r. reflexivity.
Qed.
Lemma by_name_first n k : by_name n k -> first_by_format sfs n = Some (fac k).
Proof.
  intro H. unfold all_factories, all_source_factories, default_source_factories.
  cbn [app first_by_format csv_factory dc_factory sf_format]. destruct H as [core|core].
  - assert (E1 : ends_with (b ".csv") (core ++ b ".csv") = true) by (apply ends_with_spec; eauto). rewrite E1. reflexivity.
  - assert (E1 : ends_with (b ".csv") (core ++ b ".dc") = false).
    { destruct (ends_with _ _) eqn:E; [|reflexivity]. apply ends_with_spec in E as [t E].
      apply (f_equal (@rev ascii)) in E. rewrite !rev_app_distr in E. cbn in E. discriminate E. }
    assert (E2 : ends_with (b ".dc") (core ++ b ".dc") = true) by (apply ends_with_spec; eauto).
    rewrite E1, E2. reflexivity.
Qed.
Lemma unnamed_first n : unnamed n -> first_by_format sfs n = None.
Proof.
  intro H. unfold all_factories, all_source_factories, default_source_factories.
  cbn [app first_by_format csv_factory dc_factory sf_format].
  destruct (ends_with (b ".csv") n) eqn:E1.
  { apply ends_with_spec in E1 as [t ->]. destruct (H KCsv). constructor. }
  destruct (ends_with (b ".dc") n) eqn:E2; [|reflexivity].
  apply ends_with_spec in E2 as [t ->]. destruct (H KDc). constructor.
Qed.
Lemma lines_seen i p data lines : delivers i data -> previewer_new i = Ok p -> first_lines data lines -> get_lines p = lines.
Proof.
  intros (<- & _) Hp (raw & Pv & L). rewrite <- (C28_preview_is_prefix _ _ Hp) in Pv.
  destruct (C29_lines_proof _ _ _ Hp Pv) as [L1 L2]. destruct lines; [now apply L1|now apply L2].
Qed.
Lemma by_content_made k data rows p : by_content data k -> content k data rows -> previews p data ->
  create_source_by_autodetecting_format sfs p = Ok (h, map Ok rows).
Proof.
  intros B C Pv. pose proof (made k data rows p C Pv) as M. pose proof Pv as (i & D & Ep).
  unfold create_source_by_autodetecting_format, all_factories, all_source_factories, default_source_factories.
  cbn [app first_by_preview]. destruct B as [ls Fl|Fl]; cbn [csv_factory sf_preview]; rewrite (lines_seen i p data _ D Ep Fl); [exact M|].
  rewrite dc_accepts.
  assert (X : starts_with dc_magic (get_buf p) = true).
  { apply starts_with_spec. destruct C as (evs & E & _ & (Hf & _) & _). rewrite (C28_preview_is_prefix _ _ Ep), (proj1 D), E.
    unfold dc_file. rewrite (header_bytes h Hf). cbn [fst]. rewrite <- !app_assoc. 
    rewrite (app_assoc (be 8 MAGIC_NUM)). change (be 8 MAGIC_NUM ++ be 2 VERSION) with dc_magic.
    rewrite firstn_app. replace (firstn (8 * 1024) dc_magic) with dc_magic by (vm_compute; reflexivity). eauto. }
  rewrite X. exact M.
Qed.
Lemma unpack f c data p : compressed ds f c data -> previews p c ->
  exists q, decompress_preview ds f p = Ok q /\ previews q data.
Proof.
  intros Hc Pv. destruct (decoded_exists ds f p) as (out & Do & Eo). destruct (Hc p out Pv Do) as (j & -> & Dj).
  unfold decompress_preview. rewrite Eo. cbn [bind]. destruct (delivers_opens _ _ Dj) as [q Eq]. exists q. split; [exact Eq|].
  exists j. auto.
Qed.
Lemma told_opens c n data k rows p : told ds c n data k -> content k data rows -> previews p c ->
  exists d q core, decompress_using_format ds p n = Ok (d, q, core) /\ first_by_format sfs core = Some (fac k) /\ previews q data.
Proof.
  intros [n' k' B|n' f data' k' B Hc] C Pv; unfold decompress_using_format.
  - rewrite (by_name_unpacked _ _ B). rewrite <- (by_name_first _ _ B). eauto 8.
  - rewrite packed_name. destruct (unpack _ _ _ _ Hc Pv) as (q & -> & Pq). cbn [bind]. rewrite <- (by_name_first _ _ B). eauto 8.
Qed.
Lemma recognised_opens fmt name c data k rows p : recognised ds fmt name c data k -> content k data rows -> previews p c ->
  create_source_from_previewer ds sfs p name fmt = Ok (h, map Ok rows).
Proof.
  intros R C Pv. destruct fmt as [ext|]; cbn [recognised create_source_from_previewer] in *.
  - destruct R as (d & Dt & Tl).
    assert (E : (if starts_with (b ".") ext then ext else b "." ++ ext) = d).
    { destruct Dt as [[-> [t ->]]|[-> Nt]]; [reflexivity|]. destruct (starts_with (b ".") ext) eqn:E; [|reflexivity].
      apply starts_with_spec in E as [t E]. destruct (Nt t E). }
    rewrite E. destruct (told_opens _ _ _ _ _ _ Tl C Pv) as (d' & q & core & -> & Fi & Pq). cbn [bind].
    unfold create_source_from_format. rewrite Fi. eapply made; eauto.
  - destruct R as [(n & -> & Tl)|Sh].
    + destruct (told_opens _ _ _ _ _ _ Tl C Pv) as (d & q & core & -> & Fi & Pq). cbn [bind]. rewrite Fi. eapply made; eauto.
    + destruct Sh as [nm k' Sn Nm B|nm f data' k' Sn Mg Hc B|nm f data' k' Un Hc B].
      * assert (N : decompress_by_autodetecting_format ds p = Ok (false, p)).
        { unfold decompress_by_autodetecting_format. destruct (is_compressed_using_previewer p) as [g|] eqn:Eg; [|reflexivity].
          destruct Pv as (i & D & Ep). apply (C30_magic _ _ _ Ep) in Eg. destruct D as (D & _). rewrite D in Eg. destruct (Nm _ Eg). }
        pose proof (by_content_made _ _ _ _ B C Pv) as M. destruct nm as [n|]; cbn [says_nothing] in Sn.
        -- destruct Sn as [Un Np]. unfold decompress_using_format. rewrite (unpacked_name _ Np). cbn [bind].
           rewrite (unnamed_first _ Un), N. cbn [bind]. exact M.
        -- rewrite N. cbn [bind]. exact M.
      * destruct (unpack _ _ _ _ Hc Pv) as (q & Eq & Pq).
        assert (N : decompress_by_autodetecting_format ds p = Ok (true, q)).
        { unfold decompress_by_autodetecting_format. destruct Pv as (i & (D & _) & Ep). rewrite <- D in Mg.
          apply (C30_magic _ _ _ Ep) in Mg. rewrite Mg, Eq. reflexivity. }
        pose proof (by_content_made _ _ _ _ B C Pq) as M. destruct nm as [n|]; cbn [says_nothing] in Sn.
        -- destruct Sn as [Un Np]. unfold decompress_using_format. rewrite (unpacked_name _ Np). cbn [bind].
           rewrite (unnamed_first _ Un), N. cbn [bind]. exact M.
        -- rewrite N. cbn [bind]. exact M.
      * unfold decompress_using_format. rewrite packed_name. destruct (unpack _ _ _ _ Hc Pv) as (q & -> & Pq). cbn [bind].
        rewrite (unnamed_first _ Un). cbn [bind]. eapply by_content_made; eauto.
Qed.

Lemma file_gives_opens fmt path rows : file_gives lower f64_ok ds inflate bunzip w a z h fmt path rows ->
  w_is_dir w path = false /\ create_source_from_path ds inflate bunzip w None sfs fmt path = Ok (Some (h, map Ok rows)).
Proof.
  intros (name & c & data & k & Ho & R & C). destruct (holds_opens ds inflate bunzip sfs w path name c Ho) as (i & D & Nd & E).
  split; [exact Nd|]. rewrite E. destruct (delivers_opens _ _ D) as [p Ep]. rewrite Ep. cbn [bind].
  rewrite (recognised_opens _ _ _ _ _ _ p R C) by (exists i; auto). reflexivity.
Qed.
(** The sorted order of a directory is unique. *)
Lemma sorted_unique (l : list bytes) : forall l', Permutation l l' -> StronglySorted path_le l -> StronglySorted path_le l' ->
  (forall x y, In x l -> In y l -> path_le x y -> path_le y x -> x = y) -> l = l'.
Proof.
  induction l as [|x l IH]; intros l' P S1 S2 A; [symmetry; now apply Permutation_nil|].
  destruct l' as [|y l']; [exfalso; apply Permutation_sym, Permutation_nil in P; discriminate|].
  apply StronglySorted_inv in S1 as [S1 F1]. apply StronglySorted_inv in S2 as [S2 F2]. rewrite Forall_forall in F1, F2.
  assert (x = y).
  { assert (Iy : In y (x :: l)) by (eapply Permutation_in; [apply Permutation_sym; exact P|now left]).
    assert (Ix : In x (y :: l')) by (eapply Permutation_in; [exact P|now left]).
    destruct Iy as [|Iy]; [assumption|]. destruct Ix as [|Ix]; [now symmetry|]. apply A; [now left|now right|auto|auto]. }
  subst y. f_equal. apply IH; auto.
  - eapply Permutation_cons_inv; exact P.
  - intros u v Hu Hv. apply A; now right.
Qed.
Lemma input_gives_opens fmt t rows : input_gives lower f64_ok ds inflate bunzip w a z h fmt t rows ->
  create_source_from_input ds inflate bunzip w None sfs {| in_type := t; in_format := fmt |} = Ok (h, map Ok rows).
Proof.
  intros [path rs Fg|c data k rs D R C|path entries files rowss Hd Hr Fo Ne An Wf F2].
  - destruct (file_gives_opens _ _ _ Fg) as [Nd E]. unfold create_source_from_input. cbn [in_type in_format dir_file_transport dt_can_handle].
    rewrite Nd, E. reflexivity.
  - unfold create_source_from_input. cbn [in_type in_format]. destruct (delivers_opens _ _ D) as [p Ep]. rewrite Ep. cbn [bind].
    apply (recognised_opens _ _ _ _ _ _ p R C). exists (w_stdin w). auto.
  - set (rows_in := fun p => match create_source_from_path ds inflate bunzip w None sfs fmt p with
                             | Ok (Some (_, s)) => rows_before_failure s | _ => [] end).
    assert (Rb : forall rs, rows_before_failure (map Ok rs) = rs) by (clear; induction rs; cbn; congruence).
    assert (Op : forall p, In p files -> create_source_from_path ds inflate bunzip w None sfs fmt p = Ok (Some (h, map Ok (rows_in p)))).
    { intros p Hp. assert (X : exists rs, file_gives lower f64_ok ds inflate bunzip w a z h fmt p rs).
      { clear - F2 Hp. induction F2; [destruct Hp|]. destruct Hp as [->|Hp]; eauto. }
      destruct X as [rs X]. destruct (file_gives_opens _ _ _ X) as [_ E]. unfold rows_in. rewrite E, Rb. reflexivity. }
    destruct Fo as [Pf Sf].
    destruct (C76_same_columns ds inflate bunzip w None sfs fmt path entries h rows_in Hd Hr Wf) as (files' & [Pf' Sf'] & E).
    + intros p Hp Dp. apply Op. eapply Permutation_in; [exact Pf|]. apply filter_In. rewrite Dp. auto.
    + destruct files as [|p0 ps]; [congruence|]. exists p0.
      assert (X : In p0 (filter (fun e => negb (w_is_dir w e)) entries)) by (eapply Permutation_in; [apply Permutation_sym; exact Pf|now left]).
      apply filter_In in X as [X1 X2]. split; [exact X1|]. now destruct (w_is_dir w p0).
    + assert (files = files') as <-.
      { apply sorted_unique; auto. eapply Permutation_trans; [apply Permutation_sym; exact Pf|exact Pf']. }
      rewrite E. do 4 f_equal. clear - F2 Rb Hcfg. induction F2 as [|p rs ps rss X F2 IH]; [reflexivity|]. cbn [map]. f_equal; [|exact IH].
      destruct (file_gives_opens _ _ _ X) as [_ Ep]. unfold rows_in. rewrite Ep, Rb. reflexivity.
Qed.
End Open.

(** ** What is asked for is opened *)
Lemma asked_inputs w a opts l : args_of w a = Ok opts -> inputs_for a l ->
  op_inputs ch opts = map (fun tf => {| in_type := fst tf; in_format := snd tf |}) l /\ l <> [].
Proof.
  intros Ea (Hf & Hn). unfold parse_args in Ea. destruct (resolve_timezone _ _ _ _); try discriminate. cbn [bind] in Ea.
  destruct (timestamp_range _ _ _ _ _); try discriminate. cbn [bind] in Ea.
  destruct (cli_inputs _ _) as [ins| | | |] eqn:Eins; try discriminate. cbn [bind] in Ea.
  destruct (csv_input_options a _); try discriminate. cbn [bind] in Ea.
  destruct (csv_output_options a _); try discriminate. injection Ea as <-. cbn [op_inputs].
  assert (Det : forall s f g, fmt_of s f -> fmt_of s g -> f = g).
  { unfold fmt_of. intros s f g [[A ->]|[A ->]] [[B ->]|[B ->]]; congruence. }
  assert (Len : length l = match a_inputs a with Some ps => length ps | None => 1 end).
  { rewrite <- (map_length fst l), Hf. destruct (a_inputs a); [apply map_length|reflexivity]. }
  unfold format_for in Hn. destruct (a_formats a) as [fs|].
  - destruct fs as [|f0 fs]; [cbn in Eins; discriminate|]. destruct (a_inputs a) as [paths|].
    + destruct paths as [|p0 ps].
      { exfalso. unfold cli_inputs in Eins. destruct (rev (input_formats (Some (f0 :: fs)))); discriminate. }
      destruct (C55_formats (f0 :: fs) (p0 :: ps) ltac:(discriminate) ltac:(discriminate)) as (ins' & E & Li & Hi).
      rewrite E in Eins. injection Eins as <-. split; [|intros ->; discriminate Hf].
      apply nth_error_ext. intro i. rewrite nth_error_map.
      assert (Ht : nth_error (map fst l) i = nth_error (map Path (p0 :: ps)) i) by now rewrite Hf.
      rewrite !nth_error_map in Ht. destruct (nth_error (p0 :: ps) i) as [p|] eqn:Ep.
      * destruct (nth_error l i) as [[t fmt]|] eqn:El; [|discriminate]. injection Ht as ->.
        destruct (Hi i p Ep) as (s & f & En & Hs & Hc). rewrite En. cbn [option_map fst snd]. do 2 f_equal.
        destruct (Hn i _ _ El) as (s' & Hc' & Hs').
        assert (s = s'); [|subst; eapply Det; eauto].
        destruct Hc as [Hc|[Hl [l0 Hc]]], Hc' as [Hc'|[Hl' [l0' Hc']]].
        -- congruence.
        -- apply nth_error_None in Hl'. congruence.
        -- apply nth_error_None in Hl. congruence.
        -- rewrite Hc' in Hc. apply app_inj_tail in Hc as [_ ->]. reflexivity.
      * destruct (nth_error l i); [discriminate|]. apply nth_error_None. rewrite Li. now apply nth_error_None.
    + assert (C := proj2 (proj2 (C55_defaults [[]] ltac:(discriminate)))). rewrite C in Eins. injection Eins as <-.
      destruct l as [|[t fmt] [|]]; try discriminate. injection Hf as ->. split; [|discriminate]. cbn [map fst snd].
      do 2 f_equal. destruct (Hn 0 StdIn fmt eq_refl) as (s & [Hs|[Hl _]] & Hs'); [|cbn in Hl; lia]. injection Hs as <-.
      eapply Det; [apply parse_format_spec|exact Hs'].
  - assert (Fa : forall t f, In (t, f) l -> f = InputModel.Auto).
    { intros t f Hin. apply In_nth_error in Hin as [i Hi]. eapply Hn; eauto. }
    assert (Em : map (fun tf => {| in_type := fst tf; in_format := snd tf |}) l = map (fun t => {| in_type := t; in_format := InputModel.Auto |}) (map fst l)).
    { rewrite map_map. apply map_ext_in. intros [t f] Hin. cbn. rewrite (Fa t f Hin). reflexivity. }
    rewrite Em, Hf. destruct (a_inputs a) as [paths|].
    + destruct paths as [|p0 ps]; [cbn in Eins; discriminate|]. rewrite (proj1 (C55_defaults (p0 :: ps) ltac:(discriminate))) in Eins.
      injection Eins as <-. split; [|intros ->; discriminate Hf]. rewrite map_map. reflexivity.
    + injection Eins as <-. split; [reflexivity|]. intros ->. discriminate Hf.
Qed.
Lemma gives_open w a opts z l h rowss : args_of w a = Ok opts -> zone_meant (a_timezone a) (w_env_tz w) zones parse_zone z ->
  inputs_for a l ->
  Forall2 (fun tf rows => input_gives lower f64_ok ds inflate bunzip w a z h (snd tf) (fst tf) rows /\
             selected (op_range ch opts) (map Ok rows) <> []) l rowss ->
  op_inputs ch opts <> [] /\
  Forall2 (fun i rows => create_source_from_input ds inflate bunzip w None (all_factories prof ch lower f64_ok csv_records None (op_csv_in ch opts))
      i = Ok (h, map Ok rows) /\ selected (op_range ch opts) (map Ok rows) <> []) (op_inputs ch opts) rowss.
Proof.
  intros Ea Hz Hi H2. destruct (parsed _ _ _ _ _ _ _ Ea) as (z' & ci & co & Hz' & Hci & _ & Eci & _).
  assert (z' = z) by (eapply zone_det; eauto). subst z'.
  destruct (asked_inputs w a opts l Ea Hi) as [E Ne]. rewrite E. split; [intro X; apply map_eq_nil in X; congruence|].
  rewrite Eci. clear - H2 Hci. induction H2 as [|[t f] rs ls rss (A & B) H2 IH]; [constructor|].
  constructor; [|exact IH]. split; [|exact B]. apply (input_gives_opens w a z ci h Hci). exact A.
Qed.
Lemma gives_text w a (z : option (zone ch)) h fmt t rows : input_gives lower f64_ok ds inflate bunzip w a z h fmt t rows ->
  forall r, In r rows -> exists texts, Forall2 (value_text f64 f32) (vals r) texts.
Proof.
  assert (C : forall k data rows, content lower f64_ok a z h k data rows -> forall r, In r rows -> exists texts, Forall2 (value_text f64 f32) (vals r) texts).
  { intros [|] data rs X r Hr; [eapply csv_content_text; eauto|]. destruct X as (evs & _ & _ & _ & Fr). rewrite Forall_forall in Fr.
    apply (fits_text f64 f32 h), Fr, Hr. }
  intros [path rs (n & c & d & k & _ & _ & X)|c data k rs D R X|path entries files rowss Hd Hr Fo Ne An Wf F2] r Hin; [eapply C; eauto..|].
  apply in_concat in Hin as (rs & Hrs & Hin). destruct (Forall2_in_r _ _ _ _ F2 Hrs) as (p & _ & (n & c & d & k & _ & _ & X)). eapply C; eauto.
Qed.

(** ** C107 *)
(** Into CSV. *)
Theorem C107_to_csv : forall F w a opts z u l h rowss,
  3 <= F -> csv_name (a_output a) ->
  args_of w a = Ok opts -> zone_meant (a_timezone a) (w_env_tz w) zones parse_zone z -> granularity a u ->
  (forall p, a_output a = Some p -> create p = Ok tt) ->
  (* dates and times need a zone *)
  (a_out_print_time a = b "yes" -> a_out_epoch a = false -> z <> None) ->
  h_names h <> [] ->
  inputs_for a l ->
  Forall2 (fun tf rows => input_gives lower f64_ok ds inflate bunzip w a z h (snd tf) (fst tf) rows /\
             selected (op_range ch opts) (map Ok rows) <> []) l rowss ->
  exists header rows lines,
    run_ok (cli F w a) (header ++ [byte_of 10] ++ concat (map (fun l => l ++ [byte_of 10]) lines)) /\
    output_header_line a u h header /\ Forall2 (output_line f64 f32 a z u) rows lines /\
    Permutation rows (concat (map (fun rs => selected (op_range ch opts) (map Ok rs)) rowss)) /\
    (Forall time_ordered rowss ->
       time_ordered rows /\
       forall t, filter (fun r => (ts r =? t)%N) rows =
         concat (map (fun rs => filter (fun r => (ts r =? t)%N) (selected (op_range ch opts) (map Ok rs))) (rev rowss))) /\
    (forall rs, rowss = [rs] -> rows = selected (op_range ch opts) (map Ok rs)).
Proof.
  intros F w a opts z u l h rowss HF Hcsv Ea Hz Hu Ec Hzone Hnm Hi H2.
  destruct (gives_open w a opts z l h rowss Ea Hz Hi H2) as [Ne Op].
  apply (csv_any prof ch lower f64_ok ds inflate bunzip f64 f32 zones parse_zone create F w a opts z u h rowss); auto.
  intros rs r Hrs Hr. destruct (Forall2_in_r _ _ _ _ H2 Hrs) as (tf & _ & G & _). eapply gives_text; eauto.
Qed.
(** Into a DC file. *)
Theorem C107_to_dc : forall F w a opts z l out h rowss,
  3 <= F -> a_output a = Some (out ++ b "dc") ->
  args_of w a = Ok opts -> zone_meant (a_timezone a) (w_env_tz w) zones parse_zone z -> create (out ++ b "dc") = Ok tt ->
  dc_header_ok h ->
  inputs_for a l ->
  Forall2 (fun tf rows => input_gives lower f64_ok ds inflate bunzip w a z h (snd tf) (fst tf) rows /\ Forall (row_fits h) rows /\
             selected (op_range ch opts) (map Ok rows) <> []) l rowss ->
  exists written rows,
    run_ok (cli F w a) written /\
    dc_read (DcSpec.file written) = Ok (h, (rows, Ok tt)) /\
    Permutation rows (concat (map (fun rs => selected (op_range ch opts) (map Ok rs)) rowss)) /\
    (Forall time_ordered rowss ->
       time_ordered rows /\
       forall t, filter (fun r => (ts r =? t)%N) rows =
         concat (map (fun rs => filter (fun r => (ts r =? t)%N) (selected (op_range ch opts) (map Ok rs))) (rev rowss))) /\
    (forall rs, rowss = [rs] -> rows = selected (op_range ch opts) (map Ok rs)).
Proof.
  intros F w a opts z l out h rowss HF Ao Ea Hz Ec Hok Hi H2.
  destruct (gives_open w a opts z l h rowss Ea Hz Hi) as [Ne Op].
  { clear - H2. induction H2 as [|p rs ps rss (A & _ & B) H2 IH]; constructor; auto. }
  apply (dc_any prof ch lower f64_ok ds inflate bunzip f64 f32 zones parse_zone create F w a opts out h rowss); auto.
  intros rs r Hrs Hr. destruct (Forall2_in_r _ _ _ _ H2 Hrs) as (p & _ & _ & B & _). rewrite Forall_forall in B. auto.
Qed.
End Any.
Print Assumptions C107_to_csv.
Print Assumptions C107_to_dc.

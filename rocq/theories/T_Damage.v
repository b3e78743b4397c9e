(** C103: a damaged input is noticed. *)
From Verif Require Export DamageSpec.
From Verif Require Import WholeCsvSpec T_Whole T_Whole2 T_WholeCsv T_CliCsv T_Csv T_CsvQuote CsvProofs CsvProofs2 T_DcLayout DcLayoutProofs T_Zip T_Reader T_Pack.
Local Open Scope nat_scope.

(** A row that is not before the end of the range: reading stops there. *)
Definition past_end (rng : ts_range) (rows : list row) : Prop := exists r, In r rows /\ before_end rng (ts r) = false.

Lemma readable_cases rng s : readable rng s -> (exists r, In (Ok r) s /\ before_end rng (ts r) = false) \/ (forall x, In x s -> is_ok x = true).
Proof.
  induction s as [|x s IH]; intro H; [right; intros y []|]. cbn [readable] in H. destruct x as [r| | | |]; try contradiction.
  destruct H as [H|H]; [left; exists r; split; [now left|exact H]|].
  destruct (IH H) as [(r' & A & B)|A]; [left; exists r'; split; [now right|exact B]|right]. intros y [<-|Hy]; [reflexivity|auto].
Qed.

(** The rows a DC reader gives before a failure are in the file. *)
Lemma rows_prefix types n h : get_bitset_bytes (length types) = Ok n -> h_types h = types ->
  forall f s rows e, small s ->
  dc_read_rows f {| dc_header := h; dc_bitset := n; dc_rest := s |} = (rows, e) ->
  exists core rest, s_data s = core ++ rest /\ rows_layout types rows core.
Proof.
  intros Hn Ht. induction f as [|f IH]; intros s rows e Hs E; cbn [dc_read_rows] in E.
  { injection E as <- <-. exists [], (s_data s). split; [reflexivity|constructor]. }
  unfold dc_next_row in E. cbn [dc_rest dc_bitset dc_header] in E.
  destruct (read_be_cases 8 s) as [[(t & s1 & E1) _]|[E1 L]].
  - rewrite E1 in E. destruct (proj2 (exact_be 8 8 eq_refl) _ _ _ Hs E1) as (time & H1 & D1 & T1).
    pose proof (small_after _ _ _ Hs D1) as Hs1.
    destruct (read_row n (h_types h) t s1) as [[r s2]| | | |] eqn:E2; cbn [bind] in E;
      try (injection E as <- <-; exists [], (s_data s); split; [reflexivity|constructor]).
    rewrite Ht in E2. destruct (proj2 (exact_row n types t Hn) _ _ _ Hs1 E2) as (bs & (bm & body & Hts & Hl & Hv & ->) & D2 & T2).
    destruct (dc_read_rows f _) as [rs o] eqn:E3. injection E as <- <-.
    destruct (IH s2 rs o (small_after _ _ _ Hs1 D2) E3) as (core & junk & D3 & R).
    exists ((time ++ bm ++ body) ++ core), junk. split; [rewrite D1, D2, D3, <- !app_assoc; reflexivity|].
    constructor; [|exact R]. exists time, bm, body. subst t. auto.
  - rewrite E1 in E. injection E as <- <-. exists [], (s_data s). split; [reflexivity|constructor].
Qed.
(** The rows a CSV reader gives without failing leave no bad record. *)
Lemma no_bad_record prof ch s raws : forall next, (forall x, In x (rows_from prof ch s next raws) -> is_ok x = true) ->
  Forall (fun raw => ~ bad_record prof ch s (length (vals next)) raw) raws.
Proof.
  induction raws as [|o rest IH]; intros next H; [constructor|].
  constructor.
  - intro B. destruct (rows_bad prof ch s next o rest B) as (e & Ee & R). rewrite R in H. rewrite (H e (or_introl eq_refl)) in Ee. discriminate.
  - cbn [rows_from] in H. destruct (let* raw := o in string_record raw) as [r| | | |]; try (specialize (H _ (or_introl eq_refl)); discriminate).
    destruct (update_row prof ch (cs_col s) (cs_fmt s) (cs_tz s) next r) as [next' [u| | | |]] eqn:Eu; try (specialize (H _ (or_introl eq_refl)); discriminate).
    assert (L : length (vals next') = length (vals next)).
    { unfold update_row in Eu. rewrite overwrite_spec in Eu. destruct (Nat.leb_spec (length r) (length (vals next))); [|discriminate].
      destruct (get_timestamp _ _ _ _ _ _) in Eu; try discriminate. injection Eu as <- _. cbn [vals].
      rewrite app_length, map_length, skipn_length. lia. }
    rewrite <- L. apply IH. intros x Hx. apply H. now right.
Qed.

(** Every row comes from a record. *)
Lemma row_record prof ch s raws : forall next r, In (Ok r) (rows_from prof ch s next raws) ->
  r = next \/ exists raw rec, In raw raws /\ decodes raw rec /\ get_timestamp prof ch rec (cs_col s) (cs_fmt s) (cs_tz s) = Ok (ts r).
Proof.
  induction raws as [|o rest IH]; intros next r H; cbn [rows_from] in H.
  { destruct H as [[= ->]|[]]. now left. }
  destruct (let* raw := o in string_record raw) as [rc| | | |] eqn:E; try (destruct H as [H|[]]; discriminate).
  destruct (update_row prof ch (cs_col s) (cs_fmt s) (cs_tz s) next rc) as [next' [u| | | |]] eqn:Eu; try (destruct H as [H|[]]; discriminate).
  destruct H as [[= ->]|H]; [now left|]. right. destruct (IH next' r H) as [->|(raw & rec & A & B)].
  - exists o, rc. split; [now left|]. split; [now apply string_record_decodes|].
    unfold update_row in Eu. destruct (CsvModel.overwrite (vals next) rc); try discriminate.
    destruct (get_timestamp prof ch rc _ _ _); try discriminate. injection Eu as <- _. reflexivity.
  - exists raw, rec. split; [now right|exact B].
Qed.

Section Damage.
Context (prof : profile) (ch : chrono) (lower : bytes -> bytes) (f64_ok : text -> bool).
Variables (ds : decoders) (inflate bunzip : inner -> inner) (f64 f32 : N -> bytes).
Variables (zones : option (bytes -> option (zone ch))) (parse_zone : bytes -> option (zone ch)).
Variable create : bytes -> res unit.
Local Notation cli := (chopper_cli prof ch lower f64_ok csv_records ds inflate bunzip f64 f32 None None zones parse_zone create).
Local Notation args_of := (parse_args prof ch zones parse_zone).

(** Exit code 0: every file named was opened as its name says, and read to its end or the end
    of the range. *)
Lemma exit_0_read F w a opts paths path : exit_code (cli F w a) = 0%N -> args_of w a = Ok opts ->
  a_inputs a = Some paths -> a_formats a = None -> In path paths ->
  exists h src, create_source_from_input ds inflate bunzip w None (all_factories prof ch lower f64_ok csv_records None (op_csv_in ch opts))
    {| in_type := Path path; in_format := InputModel.Auto |} = Ok (h, src) /\ readable (op_range ch opts) src.
Proof.
  intros H Ea Ain Af Hin.
  destruct (C78_exit_0_complete prof ch lower f64_ok csv_records ds inflate bunzip f64 f32 None None zones parse_zone create F w a H)
    as (opts' & inputs & kind & h & calls & E1 & E2 & _ & _ & _ & _ & _ & _ & E9).
  rewrite Ea in E1. injection E1 as <-.
  assert (Ei : op_inputs ch opts = map (fun p => {| in_type := Path p; in_format := InputModel.Auto |}) paths).
  { unfold parse_args in Ea. destruct (resolve_timezone _ _ _ _); try discriminate. cbn [bind] in Ea.
    destruct (timestamp_range _ _ _ _ _); try discriminate. cbn [bind] in Ea. rewrite Ain, Af in Ea.
    destruct (cli_inputs _ _) as [ins| | | |] eqn:Eins; try discriminate. cbn [bind] in Ea.
    destruct (csv_input_options a _); try discriminate. cbn [bind] in Ea.
    destruct (csv_output_options a _); try discriminate. injection Ea as <-. cbn [op_inputs].
    destruct paths as [|p0 ps]; [destruct Hin|].
    destruct (C55_defaults (p0 :: ps) ltac:(discriminate)) as [X _]. rewrite X in Eins. injection Eins as <-. reflexivity. }
  rewrite Ei in E2. clear - E2 E9 Hin.
  assert (X : exists s, In s inputs /\ opens prof ch lower f64_ok csv_records ds inflate bunzip None None w opts {| in_type := Path path; in_format := InputModel.Auto |} s).
  { clear E9. revert inputs E2. induction paths as [|p ps IH]; intros inputs E2; [destruct Hin|]. inversion E2 as [|? s ? ss A B]; subst.
    destruct Hin as [->|Hin]; [exists s; split; [now left|exact A]|]. destruct (IH Hin ss B) as (s' & C & D). exists s'. split; [now right|exact D]. }
  destruct X as ([h src] & I & O). exists h, src. split; [exact O|]. exact (E9 _ I).
Qed.
Lemma member_opens {S} w (sfs : list (factory S)) path ext data tail : ending_member inflate bunzip w path ext data tail ->
  exists i core, gives i data tail /\ w_is_dir w path = false /\ forall fmt,
    create_source_from_path ds inflate bunzip w None sfs fmt path =
    (let* p := previewer_new i in let* s := create_source_from_previewer ds sfs p (Some (core ++ ext)) fmt in Ok (Some s)).
Proof.
  intros [f a core L Sk D Zb F U T Sp Hn Hu8 Hm].
  assert (En : zip_name (z_flags a) (z_name a) = core ++ ext).
  { pose proof (name_shown (z_flags a) (z_name a)) as X. unfold shown_name in X, Hn.
    destruct (N.testbit (z_flags a) 11); [rewrite (X (Hu8 eq_refl)), (Hn (Hu8 eq_refl)); reflexivity|congruence]. }
  destruct D as (D & Tl & Sm).
  set (taken := {| i_data := z_payload a; i_tail := None; i_plan := i_plan (f_reads f) |}).
  assert (Tk : delivers taken (z_payload a)) by (split; [reflexivity|split; [reflexivity|exact Sm]]).
  assert (M : forall d t, unpacks inflate bunzip a d t ->
            exists m, gives m d t /\ member_reader inflate bunzip (i_plan (f_reads f)) a = Ok (crc_new m (z_crc a), core ++ ext)).
  { intros d t Hu. unfold member_reader. fold taken. rewrite En. destruct Hu as [(-> & <- & ->)|[[-> H]|[-> H]]]; cbn [N.eqb Pos.eqb]; eauto. }
  assert (K : exists m, gives (crc_as_inner (crc_new m (z_crc a))) data tail /\
            member_reader inflate bunzip (i_plan (f_reads f)) a = Ok (crc_new m (z_crc a), core ++ ext)).
  { unfold crc_as_inner, crc_new, gives. cbn [c_inner c_crc32 i_data i_tail i_plan].
    inversion Hm as [Hu Cr Et|Hu Cr Et|e Hu Et]; subst; destruct (M _ _ Hu) as (m & (A & B & C) & Em); exists m; rewrite A, B;
      (split; [|exact Em]); (split; [reflexivity|]); (split; [|exact C]).
    - rewrite Cr, N.eqb_refl. reflexivity.
    - destruct (N.eqb_spec (crc32 data) (z_crc a)); [congruence|reflexivity].
    - reflexivity. }
  destruct K as (m & Dm & Em). exists (crc_as_inner (crc_new m (z_crc a))), core. split; [exact Dm|].
  destruct L as (Hex & Hdir & _ & Ho). split; [exact Hdir|]. intro fmt.
  unfold create_source_from_path, open_zip. rewrite Hex, Ho. cbn [bind]. rewrite Sk, C65_is_zip. cbn [bind].
  assert (Ez : starts_with (b "PK" ++ [byte_of 3; byte_of 4]) (i_data (f_reads f)) = true).
  { apply starts_with_spec. rewrite D. unfold archive_bytes, until_central, local_header. rewrite Zb. cbn [app].
    rewrite <- !app_assoc. eexists. reflexivity. }
  rewrite Ez, D. rewrite (open_main inflate bunzip (i_plan (f_reads f)) a F U T), Em. unfold eocdr_result, central_result.
  destruct Sp as (S1 & S2 & S3 & S4 & S5 & S6). rewrite S1, S2, S3, S4, S5. cbn [negb N.eqb orb Pos.eqb bind].
  destruct S6 as [-> | ->]; reflexivity.
Qed.
Lemma ending_opens {S} w (sfs : list (factory S)) path ext data tail : ending_input inflate bunzip w path ext data tail ->
  exists i core, gives i data tail /\ w_is_dir w path = false /\ forall fmt,
    create_source_from_path ds inflate bunzip w None sfs fmt path =
    (let* p := previewer_new i in let* s := create_source_from_previewer ds sfs p (Some (core ++ ext)) fmt in Ok (Some s)).
Proof.
  intros [((f & core & L & Sk & Nm & U & D & T & Sm) & Nz)|H]; [|exact (member_opens w sfs path ext data tail H)].
  exists (f_reads f), core. split; [split; [exact D|split; [exact T|exact Sm]]|]. split; [apply L|]. intros fmt.
  rewrite <- D in Nz. exact (open_plain ds inflate bunzip w sfs fmt path f _ L Sk Nz Nm U).
Qed.
Lemma opened_by_name w cfg path ext data tail : ext = b ".csv" \/ ext = b ".dc" ->
  ending_input inflate bunzip w path ext data tail ->
  exists i, i_data i = data /\ i_tail i = tail /\ smooth (i_plan i) /\
  create_source_from_input ds inflate bunzip w None (all_factories prof ch lower f64_ok csv_records None cfg)
    {| in_type := Path path; in_format := InputModel.Auto |} =
  (let* p := previewer_new i in if bytes_eqb ext (b ".csv") then csv_create prof ch lower f64_ok csv_records cfg p else dc_create p).
Proof.
  intros He H. destruct (ending_opens w (all_factories prof ch lower f64_ok csv_records None cfg) path ext data tail H) as (i & core & (D & T & Sm) & Hd & Eo).
  exists i. split; [exact D|]. split; [exact T|]. split; [exact Sm|].
  unfold create_source_from_input. cbn [in_type in_format dir_file_transport dt_can_handle]. rewrite Hd, Eo. clear Eo.
  destruct (previewer_new i) as [p| | | |]; try reflexivity. cbn [bind].
  cbn [create_source_from_previewer]. unfold decompress_using_format.
  pose proof (name_layer_spec (core ++ ext)) as Hl. destruct (is_compressed_using_format _) as [[g c]|].
  { exfalso. inversion Hl as [g' c' En|]; subst. apply (f_equal (@rev ascii)) in En. rewrite !rev_app_distr in En.
    destruct He as [-> | ->]; destruct g; cbn in En; discriminate En. }
  cbn [bind]. unfold all_factories, all_source_factories, default_source_factories.
  cbn [app first_by_format csv_factory dc_factory sf_format].
  destruct He as [-> | ->].
  - assert (E1 : ends_with (b ".csv") (core ++ b ".csv") = true) by (apply ends_with_spec; eauto).
    rewrite E1. cbn [sf_create csv_factory]. change (bytes_eqb (b ".csv") (b ".csv")) with true. cbv iota.
    destruct (csv_create _ _ _ _ _ _ p); reflexivity.
  - assert (E1 : ends_with (b ".csv") (core ++ b ".dc") = false).
    { destruct (ends_with _ _) eqn:E; [|reflexivity]. apply ends_with_spec in E as [t E].
      apply (f_equal (@rev ascii)) in E. rewrite !rev_app_distr in E. cbn in E. discriminate E. }
    assert (E2 : ends_with (b ".dc") (core ++ b ".dc") = true) by (apply ends_with_spec; eauto).
    rewrite E1, E2. cbn [sf_create dc_factory]. change (bytes_eqb (b ".dc") (b ".csv")) with false. cbv iota.
    destruct (dc_create p); reflexivity.
Qed.
(** The same for compressed inputs; the only other outcome is an error. *)
Lemma opened_packed w cfg path ext f c t data tail : ext = b ".csv" \/ ext = b ".dc" ->
  ending_input inflate bunzip w path (ext ++ ext_of f) c t -> decodes_to ds f c t data tail ->
  exists i, gives i data tail /\ exists j, gives j c t /\
  create_source_from_input ds inflate bunzip w None (all_factories prof ch lower f64_ok csv_records None cfg)
    {| in_type := Path path; in_format := InputModel.Auto |} =
  (let* _ := previewer_new j in let* p := previewer_new i in
   if bytes_eqb ext (b ".csv") then csv_create prof ch lower f64_ok csv_records cfg p else dc_create p).
Proof.
  intros He H Dec.
  destruct (ending_opens w (all_factories prof ch lower f64_ok csv_records None cfg) path (ext ++ ext_of f) c t H) as (j & core & Gj & Hd & Eo).
  unfold create_source_from_input. cbn [in_type in_format dir_file_transport dt_can_handle]. rewrite Hd, Eo. clear Eo.
  destruct (previewer_new j) as [p| | | |] eqn:Ep.
  2-5: exists {| i_data := data; i_tail := tail; i_plan := [] |}; (split; [split; [reflexivity|split; [reflexivity|intros ? []]]|]);
       exists j; (split; [exact Gj|]); rewrite Ep; reflexivity.
  destruct (decoded_exists ds f p) as (out & Do & Eout).
  destruct (Dec p out (ex_intro _ j (conj Gj Ep)) Do) as (i & -> & Gi).
  exists i. split; [exact Gi|]. exists j. split; [exact Gj|]. rewrite Ep. cbn [bind].
  cbn [create_source_from_previewer]. unfold decompress_using_format. rewrite app_assoc.
  pose proof (name_layer_spec ((core ++ ext) ++ ext_of f)) as Hl. destruct (is_compressed_using_format ((core ++ ext) ++ ext_of f)) as [[g c']|].
  2:{ inversion Hl as [|n' Hx]; subst. destruct (Hx f (core ++ ext)). reflexivity. }
  assert (g = f /\ c' = core ++ ext) as [-> ->].
  { inversion Hl as [g' core' En|]; subst. clear - En.
    assert (X : g = f).
    { apply (f_equal (@rev ascii)) in En. rewrite !rev_app_distr in En. destruct g, f; cbn in En; try reflexivity; discriminate En. }
    subst. split; [reflexivity|]. symmetry. now apply app_inv_tail in En. }
  unfold decompress_preview. rewrite Eout. cbn [bind]. destruct (previewer_new i) as [q| | | |]; try reflexivity. cbn [bind].
  unfold all_factories, all_source_factories, default_source_factories.
  cbn [app first_by_format csv_factory dc_factory sf_format].
  destruct He as [-> | ->].
  - assert (E1 : ends_with (b ".csv") (core ++ b ".csv") = true) by (apply ends_with_spec; eauto).
    rewrite E1. cbn [sf_create csv_factory]. change (bytes_eqb (b ".csv") (b ".csv")) with true. cbv iota.
    destruct (csv_create _ _ _ _ _ _ q); reflexivity.
  - assert (E1 : ends_with (b ".csv") (core ++ b ".dc") = false).
    { destruct (ends_with _ _) eqn:E; [|reflexivity]. apply ends_with_spec in E as [x E].
      apply (f_equal (@rev ascii)) in E. rewrite !rev_app_distr in E. cbn in E. discriminate E. }
    assert (E2 : ends_with (b ".dc") (core ++ b ".dc") = true) by (apply ends_with_spec; eauto).
    rewrite E1, E2. cbn [sf_create dc_factory]. change (bytes_eqb (b ".dc") (b ".csv")) with false. cbv iota.
    destruct (dc_create q); reflexivity.
Qed.
(** An input that is opened: its decompressed contents are previewed and given to the reader its name says. *)
Lemma read_opened w cfg path ext data tail x : ext = b ".csv" \/ ext = b ".dc" ->
  read_input ds inflate bunzip w path ext data tail ->
  create_source_from_input ds inflate bunzip w None (all_factories prof ch lower f64_ok csv_records None cfg)
    {| in_type := Path path; in_format := InputModel.Auto |} = Ok x ->
  exists i, i_data i = data /\ i_tail i = tail /\ smooth (i_plan i) /\
  (let* p := previewer_new i in if bytes_eqb ext (b ".csv") then csv_create prof ch lower f64_ok csv_records cfg p else dc_create p) = Ok x.
Proof.
  intros He [H|f c t H Dec] O.
  - destruct (opened_by_name w cfg path ext data tail He H) as (i & D & T & Sm & E). exists i. rewrite <- E. auto.
  - destruct (opened_packed w cfg path ext f c t data tail He H Dec) as (i & (D & T & Sm) & j & _ & E). rewrite O in E. symmetry in E.
    exists i. destruct (previewer_new j); try discriminate. cbn [bind] in E. auto.
Qed.
(** Inputs whose own bytes are read without error. *)
Lemma opened_well w cfg path ext data tail : ext = b ".csv" \/ ext = b ".dc" ->
  ending_input inflate bunzip w path ext data tail \/
  (exists f c, ending_input inflate bunzip w path (ext ++ ext_of f) c None /\ decodes_to ds f c None data tail) ->
  exists i, i_data i = data /\ i_tail i = tail /\ smooth (i_plan i) /\
  create_source_from_input ds inflate bunzip w None (all_factories prof ch lower f64_ok csv_records None cfg)
    {| in_type := Path path; in_format := InputModel.Auto |} =
  (let* p := previewer_new i in if bytes_eqb ext (b ".csv") then csv_create prof ch lower f64_ok csv_records cfg p else dc_create p).
Proof.
  intros He [H|(f & c & H & Dec)]; [exact (opened_by_name w cfg path ext data tail He H)|].
  destruct (opened_packed w cfg path ext f c None data tail He H Dec) as (i & (D & T & Sm) & j & (Dj & Tj & Sj) & E).
  exists i. split; [exact D|]. split; [exact T|]. split; [exact Sm|]. rewrite E.
  destruct (C27_opens j Sj (or_introl Tj)) as [p Ep]. rewrite Ep. reflexivity.
Qed.

(** ** DC files *)
Theorem C103_dc_damage_partial : forall F w a opts paths path data tail,
  exit_code (cli F w a) = 0%N -> args_of w a = Ok opts -> a_inputs a = Some paths -> a_formats a = None ->
  In path paths -> read_input ds inflate bunzip w path (b ".dc") data tail ->
  (N.of_nat (length data) < 2 ^ 32 - 2 ^ 15)%N ->
  exists names types rows core rest,
    data = core ++ rest /\ dc_layout names types rows core /\
    (* everything was read but less than a timestamp, or reading stopped at the end of the range *)
    (length rest < 8 \/ past_end (op_range ch opts) rows).
Proof.
  intros F w a opts paths path data tail H Ea Ain Af Hin Hf Hs.
  destruct (exit_0_read F w a opts paths path H Ea Ain Af Hin) as (h & src & O & R).
  destruct (read_opened w (op_csv_in ch opts) path (b ".dc") data tail _ (or_intror eq_refl) Hf O) as (i & Di & Ti & Sm & E). clear O. rename E into O.
  destruct (previewer_new i) as [p| | | |] eqn:Ep; try discriminate. cbn [bind] in O.
  change (bytes_eqb (b ".dc") (b ".csv")) with false in O. cbv iota in O. unfold dc_create in O.
  rewrite (preview_stream _ _ Ep), Di, Ti in O.
  destruct (dc_read _) as [[h' [rows e]]| | | |] eqn:Er; try discriminate. cbn [bind] in O. injection O as <- <-.
  destruct (readable_cases _ _ R) as [(r & I & B)|A].
  - apply in_app_iff in I as [I|I].
    2:{ destruct e; [destruct I|destruct I as [I|[]]; discriminate I..]. }
    apply in_map_iff in I as (r' & [= ->] & I).
    unfold dc_read in Er. destruct (dc_open _) as [st| | | |] eqn:Eo; try discriminate. cbn [bind] in Er. injection Er as <- Er.
    destruct (open_sound {| s_data := data; s_tail := tail |} st Hs Eo) as (names & hb & Hl & Hn & Hb & D & _). destruct st as [hd n rs]. cbn [dc_header dc_bitset dc_rest s_data] in *.
    assert (Hsm : small rs) by (exact (small_after {| s_data := data; s_tail := tail |} _ _ Hs D)).
    destruct (rows_prefix _ _ hd Hb eq_refl _ _ _ _ Hsm Er) as (core & rest & D2 & Rl).
    exists names, (h_types hd), rows, (hb ++ core), rest. split; [rewrite D, D2, app_assoc; reflexivity|].
    split; [exists hb, core; auto|]. right. exists r. auto.
  - assert (e = Ok tt) as ->.
    { destruct e as [[]| | | |]; [reflexivity|..].
      all: match type of A with forall x, In x (_ ++ [?y]) -> _ => specialize (A y); assert (X : is_ok y = true) by (apply A, in_or_app; right; now left); discriminate X end. }
    destruct (read_sound {| s_data := data; s_tail := tail |} _ _ Hs Er) as (names & core & junk & D & Lj & Ly & _).
    exists names, (h_types h'), rows, core, junk. auto.
Qed.

(** ** CSV files *)
Theorem C103_csv_damage : forall F w a opts z paths path data tail lines d yes raws pre,
  exit_code (cli F w a) = 0%N -> args_of w a = Ok opts -> zone_meant (a_timezone a) (w_env_tz w) zones parse_zone z ->
  a_inputs a = Some paths -> a_formats a = None ->
  In path paths -> read_input ds inflate bunzip w path (b ".csv") data tail ->
  first_lines data lines -> input_delimiter a lines d -> input_has_header f64_ok a lines d yes ->
  (* the records the csv crate finds, the header first if there is one *)
  csv_records d {| s_data := data; s_tail := tail |} = pre ++ raws -> length pre = (if yes then 1 else 0) ->
  exists first col hint fmt h,
    (exists more raw0, raws = raw0 :: more /\ decodes raw0 first) /\
    input_column lower a h col hint /\ (forall x, row_text first col x -> input_format_used ch a col hint x fmt) /\
    ((* reading stopped at a row that is not before the end of the range *)
     (exists raw r t, In raw raws /\ decodes raw r /\ get_timestamp prof ch r col fmt (zone_in z) = Ok t /\
        before_end (op_range ch opts) t = false) \/
     (* no read error, and no record that cannot be a row *)
     (tail = None /\
      forall raw, In raw raws -> exists r t, decodes raw r /\ length r <= length first /\
        get_timestamp prof ch r col fmt (zone_in z) = Ok t)).
Proof.
  intros F w a opts z paths path data tail lines d yes raws pre H Ea Hz Ain Af Hin Hf Fl Hd Hy Rec Lp.
  destruct (exit_0_read F w a opts paths path H Ea Ain Af Hin) as (h & src & O & R).
  destruct (parsed _ _ _ _ _ _ _ Ea) as (z' & ci & co & Hz' & Hi & _ & Ei & _).
  assert (z' = z) by (eapply zone_det; eauto). subst z'. rewrite Ei in O.
  destruct (read_opened w ci path (b ".csv") data tail _ (or_introl eq_refl) Hf O) as (i & Di & Ti & Sm & E). clear O. rename E into O.
  destruct (previewer_new i) as [p| | | |] eqn:Ep; try discriminate. cbn [bind] in O.
  change (bytes_eqb (b ".csv") (b ".csv")) with true in O. cbv iota in O. unfold csv_create in O.
  rewrite (preview_stream _ _ Ep), Di, Ti in O.
  assert (El : get_lines p = lines).
  { destruct Fl as (raw & Pv & L). rewrite <- Di in Pv. rewrite <- (C28_preview_is_prefix _ _ Ep) in Pv.
    destruct (C29_lines_proof _ _ _ Ep Pv) as [L1 L2]. destruct lines; [now apply L1|now apply L2]. }
  rewrite El in O. destruct (csv_new _ _ _ _ _ ci lines _) as [s| | | |] eqn:Es; try discriminate. cbn [bind] in O. injection O as <- <-.
  pose proof (records_asked ch f64_ok csv_records a z ci lines _ d yes pre raws Hi Hd Hy Rec Lp) as Dr.
  destruct (opened prof ch lower f64_ok csv_records ci lines _ s raws Es Dr) as (raw0 & more & first & -> & D0 & Hn & Tm0 & R1 & R2 & R3).
  destruct (csv_new_spec _ _ _ _ _ _ _ _ _ Es) as (d' & pre' & f' & rest' & _ & Hs' & Hp' & (r & Hr & Hn' & _ & _ & Hc & Ht) & S1 & S2 & S3).
  assert (r = first) as ->.
  { rewrite Hn in Hn'. apply (f_equal vals) in Hn'. cbn [row_of vals] in Hn'. clear - Hn'. revert r Hn'.
    induction first as [|x l IH]; intros [|y r] E; try discriminate; [reflexivity|]. cbn in E. injection E as -> E. f_equal. now apply IH. }
  pose proof Hc as Hc'. unfold get_col_and_fmt in Hc'.
  destruct (get_timestamp_col lower (cs_header s) (ci_col ci)) as [[col hint]| | | |] eqn:Ec; try discriminate. cbn [bind] in Hc'.
  match type of Hc' with (let* _ := ?x in _) = _ => destruct x as [fmt| | | |]; try discriminate end. cbn [bind] in Hc'. injection Hc' as -> ->.
  destruct (input_options_spec _ _ _ _ Hi) as (Ez & _ & Ef & Eco & _).
  exists first, (cs_col s), hint, (cs_fmt s), (cs_header s).
  split; [eauto|]. split; [eapply column_asked; eauto|]. split.
  { intros x Hx. eapply format_asked; eauto. }
  destruct (readable_cases _ _ R) as [(r & I & B)|A]; [left|right].
  { rewrite csv_rows_from in I by exact S3. rewrite R1 in I.
    destruct (row_record prof ch s more (cs_next s) r I) as [->|(raw & rec & X & Y & Z)].
    - exists raw0, first, (ts (cs_next s)). split; [now left|]. split; [exact D0|]. split; [rewrite <- Ez; exact Ht|exact B].
    - exists raw, rec, (ts r). split; [now right|]. split; [exact Y|]. split; [rewrite <- Ez, <- S2; exact Z|exact B]. }
  split.
  { destruct tail as [e|]; [|reflexivity]. exfalso.
    destruct (C49_csv_partial _ _ _ _ _ _ _ _ _ Es) as (rows & o & Eo & Bo). rewrite Eo in A.
    assert (X : is_ok o = true) by (apply A, in_or_app; right; now left). congruence. }
  assert (Lv : length (vals (cs_next s)) = length first) by (rewrite Hn; cbn; apply map_length).
  rewrite csv_rows_from in A by exact S3. apply no_bad_record in A. rewrite Lv, R1 in A. rewrite Forall_forall in A.
  intros raw [<-|Hraw].
  - exists first, (ts (cs_next s)). split; [exact D0|]. split; [lia|]. rewrite <- Ez. exact Ht.
  - specialize (A raw Hraw). unfold bad_record in A.
    destruct (let* fs := raw in string_record fs) as [r| | | |] eqn:Er.
    2-5: exfalso; apply A; left; intros r Hr'; apply string_record_decodes in Hr'; congruence.
    apply string_record_decodes in Er. exists r.
    destruct (get_timestamp prof ch r (cs_col s) (cs_fmt s) (cs_tz s)) as [t| | | |] eqn:Eg.
    2-5: exfalso; apply A; right; exists r; split; [exact Er|]; right; intros t Ht'; unfold timed in Ht'; congruence.
    exists t. split; [exact Er|]. split; [|rewrite <- Ez, <- S2; exact Eg].
    destruct (Nat.le_gt_cases (length r) (length first)) as [L|L]; [exact L|]. exfalso. apply A. right. exists r. auto.
Qed.

(** What is missing from C103 for DC files: a file cut inside the timestamp of a row, or a read
    error at the end of a row, goes unnoticed, and the rows before it are all the output has. *)
Theorem C103_dc_damage_refuted : forall F w a opts path out h rows evs junk tail,
  3 <= F -> a_inputs a = Some [path] -> a_formats a = None -> a_output a = Some (out ++ b "dc") ->
  a_begin a = None -> a_end a = None -> args_of w a = Ok opts -> create (out ++ b "dc") = Ok tt ->
  dc_header_ok h -> Forall (row_fits h) rows -> rows <> [] -> ev_rows evs = rows ->
  length junk < 8 ->
  (* as a file, in a zip archive, or compressed *)
  ending_file w path (b ".dc") (dc_file h evs ++ junk) tail \/ ending_member inflate bunzip w path (b ".dc") (dc_file h evs ++ junk) tail \/
  (exists f c, ending_input inflate bunzip w path (b ".dc" ++ ext_of f) c None /\ decodes_to ds f c None (dc_file h evs ++ junk) tail) ->
  (* opening the file must not meet the error: it reads ahead that far *)
  tail = None \/ 8 * 1024 <= length (dc_file h evs ++ junk) ->
  exists written, run_ok (cli F w a) written /\ dc_read (DcSpec.file written) = Ok (h, (rows, Ok tt)).
Proof.
  intros F w a opts path out h rows evs junk tail HF Ain Af Ao Ab Ae Ea Ec Hok Hr Hne Ev Hj Hf Hl.
  pose proof Hok as (Hfit & L2 & L8 & _).
  assert (Nz : ~ looks_like_zip (dc_file h evs ++ junk)).
  { intros [t E]. destruct (dc_starts h evs Hfit) as [t' E']. rewrite E', <- app_assoc in E. vm_compute in E. discriminate E. }
  assert (Hf' : ending_input inflate bunzip w path (b ".dc") (dc_file h evs ++ junk) tail \/
    (exists f c, ending_input inflate bunzip w path (b ".dc" ++ ext_of f) c None /\ decodes_to ds f c None (dc_file h evs ++ junk) tail))
    by (destruct Hf as [Hf|[Hf|Hf]]; [left; left|left; right|right]; auto).
  assert (Lay : dc_layout (h_names h) (h_types h) rows (dc_file h evs)).
  { subst rows. now apply C84_writes_the_format_partial. }
  assert (Rng : op_range ch opts = range_all).
  { unfold parse_args in Ea. destruct (resolve_timezone _ _ _ _); try discriminate. cbn [bind] in Ea.
    rewrite Ab, Ae in Ea. cbn [timestamp_range bind] in Ea.
    destruct (cli_inputs _ _) as [ins| | | |] eqn:Eins; try discriminate. cbn [bind] in Ea.
    destruct (csv_input_options a _); try discriminate. cbn [bind] in Ea.
    destruct (csv_output_options a _); try discriminate. injection Ea as <-. reflexivity. }
  assert (Sel : selected (op_range ch opts) (map Ok rows) = rows).
  { rewrite Rng. unfold selected.
    replace (rows_before_failure (map Ok rows)) with rows by (clear; induction rows; cbn; congruence).
    clear. induction rows as [|r rows IH]; [reflexivity|]. cbn in *. congruence. }
  destruct (opened_well w (op_csv_in ch opts) path (b ".dc") _ tail (or_intror eq_refl) Hf') as (i & Di & Ti & Sm & E).
  assert (Op : create_source_from_input ds inflate bunzip w None (all_factories prof ch lower f64_ok csv_records None (op_csv_in ch opts))
    {| in_type := Path path; in_format := InputModel.Auto |} = Ok (h, map Ok rows)).
  { rewrite E. change (bytes_eqb (b ".dc") (b ".csv")) with false. cbv iota.
    assert (P : exists p, previewer_new i = Ok p).
    { apply (C27_opens i Sm). rewrite Di, Ti. exact Hl. }
    destruct P as [p Ep]. rewrite Ep. cbn [bind]. unfold dc_create. rewrite (preview_stream _ _ Ep), Di, Ti.
    rewrite (read_layout _ _ _ _ junk tail Lay Hj). cbn [bind]. rewrite app_nil_r.
    change {| h_names := default_names 0 (h_names h); h_types := h_types h |} with (with_default_names h).
    rewrite (with_names_kept h Hok). reflexivity. }
  destruct (proj2 (bitset_agree _) (conj L2 L8)) as (n & Ew & Er).
  assert (Ho : dc_header_sink h = Ok (h, dc_sink n)).
  { unfold dc_header_sink. rewrite (header_bytes h Hfit). cbn [snd]. rewrite Ew. reflexivity. }
  rewrite Forall_forall in Hr.
  destruct (whole_run_opened prof ch lower f64_ok ds inflate bunzip f64 f32 zones parse_zone create F w a opts [path] (OutDc (out ++ b "dc")) h h (dc_sink n) [rows])
    as (calls & R & _ & _ & Si & _); auto.
  { discriminate. }
  { rewrite Ao. apply C63_output_kind. eauto. }
  { intros p Ep. rewrite Ao in Ep. injection Ep as <-. exact Ec. }
  { constructor; [|constructor]. split; [exact Op|]. rewrite Sel. exact Hne. }
  { intros rs past r [<-|[]] Hin. cbn [dc_sink sk_write]. rewrite (row_bytes n h r) by auto. cbn. eauto. }
  specialize (Si rows eq_refl). rewrite Sel in Si.
  exists (dc_file h calls). split; [exact R|].
  pose proof (dc_roundtrip h calls None Hfit L2 L8) as X. rewrite (with_names_kept h Hok), Si in X. apply X.
  apply Forall_forall. exact Hr.
Qed.
End Damage.
Print Assumptions C103_dc_damage_refuted.
Print Assumptions C103_dc_damage_partial.
Print Assumptions C103_csv_damage.

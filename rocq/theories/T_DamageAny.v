(** C140: a damaged input of any kind - named or not, packed or not, from a file, an archive or the standard input - is noticed. *)
From Verif Require Export DamageAnySpec.
From Verif Require Import WholeCsvSpec T_Whole T_Whole2 T_WholeCsv T_CliCsv T_Csv T_CsvQuote CsvProofs CsvProofs2 T_DcLayout DcLayoutProofs.
From Verif Require Import T_Zip T_Reader T_Pack T_Damage T_DamageZip T_DamageDir T_WholeAny InputProofs ReaderProofs.
Local Open Scope nat_scope.

Section Any.
Context (prof : profile) (ch : chrono) (lower : bytes -> bytes) (f64_ok : text -> bool).
Variables (ds : decoders) (inflate bunzip : inner -> inner) (f64 f32 : N -> bytes).
Variables (zones : option (bytes -> option (zone ch))) (parse_zone : bytes -> option (zone ch)).
Variable create : bytes -> res unit.
Local Notation cli := (chopper_cli prof ch lower f64_ok csv_records ds inflate bunzip f64 f32 None None zones parse_zone create).
Local Notation args_of := (parse_args prof ch zones parse_zone).
Local Notation sfs cfg := (all_factories prof ch lower f64_ok csv_records None cfg).
Local Notation fac cfg k := (match k with KCsv => csv_factory (csv_create prof ch lower f64_ok csv_records cfg) | KDc => dc_factory dc_create end).

(** ** Opening *)
Lemma held_opens {S} w (fs : list (factory S)) path name c t : held inflate bunzip w path name c t ->
  exists i, gives i c t /\ w_is_dir w path = false /\ forall fmt,
    create_source_from_path ds inflate bunzip w None fs fmt path =
    (let* p := previewer_new i in let* s := create_source_from_previewer ds fs p (Some name) fmt in Ok (Some s)).
Proof.
  intros [f L Sk Nm U G Nz|f a L Sk D Zb F U T Sp Hn Hu8 Hm].
  { exists (f_reads f). split; [exact G|]. split; [apply L|]. intros fmt. destruct G as (D & _). rewrite <- D in Nz.
    exact (open_plain ds inflate bunzip w fs fmt path f _ L Sk Nz Nm U). }
  assert (En : zip_name (z_flags a) (z_name a) = name).
  { pose proof (name_shown (z_flags a) (z_name a)) as X. unfold shown_name in X, Hn.
    destruct (N.testbit (z_flags a) 11); [rewrite (X (Hu8 eq_refl)), (Hn (Hu8 eq_refl)); reflexivity|congruence]. }
  destruct D as (D & Tl & Sm).
  set (taken := {| i_data := z_payload a; i_tail := None; i_plan := i_plan (f_reads f) |}).
  assert (Tk : delivers taken (z_payload a)) by (split; [reflexivity|split; [reflexivity|exact Sm]]).
  assert (M : forall d x, unpacks inflate bunzip a d x ->
            exists m, gives m d x /\ member_reader inflate bunzip (i_plan (f_reads f)) a = Ok (crc_new m (z_crc a), name)).
  { intros d x Hu. unfold member_reader. fold taken. rewrite En. destruct Hu as [(-> & <- & ->)|[[-> H]|[-> H]]]; cbn [N.eqb Pos.eqb]; eauto. }
  assert (K : exists m, gives (crc_as_inner (crc_new m (z_crc a))) c t /\
            member_reader inflate bunzip (i_plan (f_reads f)) a = Ok (crc_new m (z_crc a), name)).
  { unfold crc_as_inner, crc_new, gives. cbn [c_inner c_crc32 i_data i_tail i_plan].
    inversion Hm as [Hu Cr Et|Hu Cr Et|e Hu Et]; subst; destruct (M _ _ Hu) as (m & (A & B & C) & Em); exists m; rewrite A, B;
      (split; [|exact Em]); (split; [reflexivity|]); (split; [|exact C]).
    - rewrite Cr, N.eqb_refl. reflexivity.
    - destruct (N.eqb_spec (crc32 c) (z_crc a)); [congruence|reflexivity].
    - reflexivity. }
  destruct K as (m & Dm & Em). exists (crc_as_inner (crc_new m (z_crc a))). split; [exact Dm|].
  destruct L as (Hex & Hdir & _ & Ho). split; [exact Hdir|]. intro fmt.
  unfold create_source_from_path, open_zip. rewrite Hex, Ho. cbn [bind]. rewrite Sk, C65_is_zip. cbn [bind].
  assert (Ez : starts_with (b "PK" ++ [byte_of 3; byte_of 4]) (i_data (f_reads f)) = true).
  { apply starts_with_spec. rewrite D. unfold archive_bytes, until_central, local_header. rewrite Zb. cbn [app].
    rewrite <- !app_assoc. eexists. reflexivity. }
  rewrite Ez, D. rewrite (open_main inflate bunzip (i_plan (f_reads f)) a F U T), Em. unfold eocdr_result, central_result.
  destruct Sp as (S1 & S2 & S3 & S4 & S5 & S6). rewrite S1, S2, S3, S4, S5. cbn [negb N.eqb orb Pos.eqb bind].
  destruct S6 as [-> | ->]; reflexivity.
Qed.

(** The stream [data], ending with [tail], is given to the reader of the kind. *)
Definition handed cfg (k : file_kind) data tail (x : header * source) : Prop :=
  exists i p, gives i data tail /\ previewer_new i = Ok p /\ sf_create (fac cfg k) p = Ok x.
Lemma unpack_ending f c t data tail j p q : decodes_to ds f c t data tail -> gives j c t -> previewer_new j = Ok p ->
  decompress_preview ds f p = Ok q -> exists i, gives i data tail /\ previewer_new i = Ok q.
Proof.
  intros Dec Gj Ep H. destruct (decoded_exists ds f p) as (out & Do & Eo). destruct (Dec p out (ex_intro _ j (conj Gj Ep)) Do) as (i & -> & Gi).
  unfold decompress_preview in H. rewrite Eo in H. cbn [bind] in H. eauto.
Qed.
Lemma content_ending cfg k data tail i p x : by_content data k -> gives i data tail -> previewer_new i = Ok p ->
  create_source_by_autodetecting_format (sfs cfg) p = Ok x -> handed cfg k data tail x.
Proof.
  intros B G Ep. assert (L : forall ls, first_lines data ls -> get_lines p = ls).
  { intros ls (raw & Pv & L). destruct G as (D & _). rewrite <- D in Pv. rewrite <- (C28_preview_is_prefix _ _ Ep) in Pv.
    destruct (C29_lines_proof _ _ _ Ep Pv) as [L1 L2]. destruct ls; [now apply L1|now apply L2]. }
  unfold create_source_by_autodetecting_format, all_factories, all_source_factories, default_source_factories.
  cbn [app first_by_preview]. destruct B as [ls Fl|Fl]; cbn [csv_factory sf_preview]; rewrite (L _ Fl).
  - intro H. exists i, p. auto.
  - destruct (sf_preview (dc_factory dc_create) p); [|discriminate]. intro H. exists i, p. auto.
Qed.
Lemma told_opened cfg c t n data tail k j p d q core x : told_ending ds c t n data tail k -> gives j c t -> previewer_new j = Ok p ->
  decompress_using_format ds p n = Ok (d, q, core) ->
  first_by_format (sfs cfg) core = Some (fac cfg k) /\ (sf_create (fac cfg k) q = Ok x -> handed cfg k data tail x).
Proof.
  intros [n' k' B|n' f data' tail' k' B Dec] G Ep; unfold decompress_using_format.
  - rewrite (by_name_unpacked _ _ B). intros H. injection H as <- <- <-. split; [apply by_name_first; exact B|]. exists j, p. auto.
  - rewrite packed_name. destruct (decompress_preview ds f p) as [q'| | | |] eqn:Eq; try discriminate. cbn [bind]. intros H. injection H as <- <- <-.
    split; [apply by_name_first; exact B|]. destruct (unpack_ending _ _ _ _ _ _ _ _ Dec G Ep Eq) as (i & Gi & Ei). exists i, q'. auto.
Qed.
Lemma recognised_opened cfg fmt name c t data tail k j p x : recognised_ending ds fmt name c t data tail k -> gives j c t -> previewer_new j = Ok p ->
  create_source_from_previewer ds (sfs cfg) p name fmt = Ok x -> handed cfg k data tail x.
Proof.
  intros R G Ep H. destruct fmt as [ext|]; cbn [recognised_ending create_source_from_previewer] in *.
  - destruct R as (d & Dt & Tl).
    assert (E : (if starts_with (b ".") ext then ext else b "." ++ ext) = d).
    { destruct Dt as [[-> [s ->]]|[-> Nt]]; [reflexivity|]. destruct (starts_with (b ".") ext) eqn:E; [|reflexivity].
      apply starts_with_spec in E as [s E]. destruct (Nt s E). }
    rewrite E in H. destruct (decompress_using_format ds p d) as [[[d' q] core]| | | |] eqn:Ed; try discriminate. cbn [bind] in H.
    destruct (told_opened cfg c t d data tail k j p d' q core x Tl G Ep Ed) as [Fi K]. unfold create_source_from_format in H. rewrite Fi in H. auto.
  - destruct R as [(n & -> & Tl)|Sh].
    + destruct (decompress_using_format ds p n) as [[[d q] core]| | | |] eqn:Ed; try discriminate. cbn [bind] in H.
      destruct (told_opened cfg c t n data tail k j p d q core x Tl G Ep Ed) as [Fi K]. rewrite Fi in H. auto.
    + destruct Sh as [nm k' Sn Nm B|nm f data' tail' k' Sn Mg Dec B|nm f data' tail' k' Un Dec B].
      * assert (N : decompress_by_autodetecting_format ds p = Ok (false, p)).
        { unfold decompress_by_autodetecting_format. destruct (is_compressed_using_previewer p) as [g|] eqn:Eg; [|reflexivity].
          apply (C30_magic _ _ _ Ep) in Eg. destruct G as (D & _). rewrite D in Eg. destruct (Nm _ Eg). }
        apply (content_ending cfg k' c t j p x B G Ep). destruct nm as [n|]; cbn [says_nothing] in Sn.
        -- destruct Sn as [Un Np]. unfold decompress_using_format in H. rewrite (unpacked_name _ Np) in H. cbn [bind] in H.
           rewrite (unnamed_first _ _ _ _ _ _ Un), N in H. exact H.
        -- rewrite N in H. exact H.
      * assert (N : decompress_by_autodetecting_format ds p = (let* q := decompress_preview ds f p in Ok (true, q))).
        { unfold decompress_by_autodetecting_format. destruct G as (D & _). rewrite <- D in Mg.
          apply (C30_magic _ _ _ Ep) in Mg. rewrite Mg. reflexivity. }
        assert (K : exists q, decompress_preview ds f p = Ok q /\ create_source_by_autodetecting_format (sfs cfg) q = Ok x).
        { destruct nm as [n|]; cbn [says_nothing] in Sn.
          - destruct Sn as [Un Np]. unfold decompress_using_format in H. rewrite (unpacked_name _ Np) in H. cbn [bind] in H.
            rewrite (unnamed_first _ _ _ _ _ _ Un), N in H. destruct (decompress_preview ds f p); try discriminate. cbn [bind] in H. eauto.
          - rewrite N in H. destruct (decompress_preview ds f p); try discriminate. cbn [bind] in H. eauto. }
        destruct K as (q & Eq & K). destruct (unpack_ending _ _ _ _ _ _ _ _ Dec G Ep Eq) as (i & Gi & Ei).
        exact (content_ending cfg k' data' tail' i q x B Gi Ei K).
      * unfold decompress_using_format in H. rewrite packed_name in H.
        destruct (decompress_preview ds f p) as [q| | | |] eqn:Eq; try discriminate. cbn [bind] in H.
        rewrite (unnamed_first _ _ _ _ _ _ Un) in H. cbn [bind] in H.
        destruct (unpack_ending _ _ _ _ _ _ _ _ Dec G Ep Eq) as (i & Gi & Ei).
        exact (content_ending cfg k' data' tail' i q x B Gi Ei H).
Qed.
Lemma input_opened w cfg fmt t k data tail x : input_ends ds inflate bunzip w fmt t k data tail ->
  create_source_from_input ds inflate bunzip w None (sfs cfg) {| in_type := t; in_format := fmt |} = Ok x -> handed cfg k data tail x.
Proof.
  intros [path name c t' data' tail' k' Hh R|c t' data' tail' k' G R] H; unfold create_source_from_input in H; cbn [in_type in_format] in H.
  - destruct (held_opens w (sfs cfg) path name c t' Hh) as (i & Gi & Nd & E). cbn [dir_file_transport dt_can_handle] in H. rewrite Nd, E in H.
    destruct (previewer_new i) as [p| | | |] eqn:Ep; try discriminate. cbn [bind] in H.
    destruct (create_source_from_previewer ds (sfs cfg) p (Some name) fmt) as [s| | | |] eqn:Es; try discriminate. cbn [bind] in H. injection H as ->.
    exact (recognised_opened _ _ _ _ _ _ _ _ _ _ _ R Gi Ep Es).
  - destruct (previewer_new (w_stdin w)) as [p| | | |] eqn:Ep; try discriminate. cbn [bind] in H.
    exact (recognised_opened _ _ _ _ _ _ _ _ _ _ _ R G Ep H).
Qed.
Lemma any_read F w a opts l t fmt : exit_code (cli F w a) = 0%N -> args_of w a = Ok opts -> inputs_for a l -> In (t, fmt) l ->
  exists x, create_source_from_input ds inflate bunzip w None (sfs (op_csv_in ch opts)) {| in_type := t; in_format := fmt |} = Ok x /\
    readable (op_range ch opts) (snd x).
Proof.
  intros H Ea Hi Hin.
  destruct (C78_exit_0_complete prof ch lower f64_ok csv_records ds inflate bunzip f64 f32 None None zones parse_zone create F w a H)
    as (opts' & inputs & kind & h & calls & E1 & E2 & _ & _ & _ & _ & _ & _ & E9).
  rewrite Ea in E1. injection E1 as <-. destruct (asked_inputs prof ch lower zones parse_zone create w a opts l Ea Hi) as [Ei _]. rewrite Ei in E2.
  clear - E2 E9 Hin. 
  assert (X : exists s, In s inputs /\ opens prof ch lower f64_ok csv_records ds inflate bunzip None None w opts {| in_type := t; in_format := fmt |} s).
  { clear E9. revert inputs E2. induction l as [|[t1 f1] ps IH]; intros inputs E2; [destruct Hin|]. inversion E2 as [|? s ? ss A B]; subst.
    destruct Hin as [E|Hin]; [injection E as -> ->; exists s; split; [now left|exact A]|].
    destruct (IH Hin ss B) as (s' & C & D). exists s'. split; [now right|exact D]. }
  destruct X as (s & I1 & O). exists s. split; [exact O|]. destruct s as [h' src]. exact (E9 _ I1).
Qed.

(** ** C140 *)
(** A CSV input that cannot be read to its end: without --end, the program does not report success. *)
Theorem C140_csv : forall F w a opts l t fmt data e,
  args_of w a = Ok opts -> inputs_for a l -> In (t, fmt) l -> a_end a = None ->
  input_ends ds inflate bunzip w fmt t KCsv data (Some e) ->
  exit_code (cli F w a) <> 0%N.
Proof.
  intros F w a opts l t fmt data e Ea Hi Hin Ae Hm H.
  destruct (any_read F w a opts l t fmt H Ea Hi Hin) as ([h src] & O & R).
  destruct (input_opened w _ fmt t KCsv data (Some e) _ Hm O) as (i & p & (Di & Ti & Sm) & Ep & C).
  cbn [sf_create csv_factory] in C. unfold csv_create in C. rewrite (preview_stream _ _ Ep), Di, Ti in C.
  destruct (csv_new _ _ _ _ _ _ (get_lines p) _) as [s| | | |] eqn:Es; try discriminate. cbn [bind] in C. injection C as <- <-. cbn [snd] in R.
  destruct (readable_cases _ _ R) as [(r & _ & B)|A]; [rewrite (no_end prof ch zones parse_zone w a opts Ea Ae) in B; discriminate|].
  destruct (C49_csv_partial _ _ _ _ _ _ _ _ _ Es) as (rows & o & Eo & Bo). rewrite Eo in A.
  assert (X : is_ok o = true) by (apply A, in_or_app; right; now left). congruence.
Qed.
(** An input below 8 KiB, CSV or DC: with --end too. *)
Theorem C140_small : forall F w a opts l t fmt k data e,
  args_of w a = Ok opts -> inputs_for a l -> In (t, fmt) l ->
  input_ends ds inflate bunzip w fmt t k data (Some e) -> length data < 8 * 1024 ->
  exit_code (cli F w a) <> 0%N.
Proof.
  intros F w a opts l t fmt k data e Ea Hi Hin Hm L H.
  destruct (any_read F w a opts l t fmt H Ea Hi Hin) as (x & O & _).
  destruct (input_opened w _ fmt t k data (Some e) _ Hm O) as (i & p & (Di & Ti & Sm) & Ep & _).
  rewrite <- Di in L. exact (early_error i e Ti L p Ep).
Qed.
(** DC: what can go unnoticed is less than a timestamp, or what comes after the end of the range. *)
Theorem C140_dc_partial : forall F w a opts l t fmt data tail,
  exit_code (cli F w a) = 0%N -> args_of w a = Ok opts -> inputs_for a l -> In (t, fmt) l ->
  input_ends ds inflate bunzip w fmt t KDc data tail -> (N.of_nat (length data) < 2 ^ 32 - 2 ^ 15)%N ->
  exists names types rows core rest,
    data = core ++ rest /\ dc_layout names types rows core /\
    (length rest < 8 \/ past_end (op_range ch opts) rows).
Proof.
  intros F w a opts l t fmt data tail H Ea Hi Hin Hf Hs.
  destruct (any_read F w a opts l t fmt H Ea Hi Hin) as ([h src] & O & R).
  destruct (input_opened w _ fmt t KDc data tail _ Hf O) as (i & p & (Di & Ti & Sm) & Ep & C).
  cbn [sf_create dc_factory] in C. unfold dc_create in C. rewrite (preview_stream _ _ Ep), Di, Ti in C.
  destruct (dc_read _) as [[h' [rows e]]| | | |] eqn:Er; try discriminate. cbn [bind] in C. injection C as <- <-. cbn [snd] in R.
  destruct (readable_cases _ _ R) as [(r & I & B)|A].
  - apply in_app_iff in I as [I|I].
    2:{ destruct e; [destruct I|destruct I as [I|[]]; discriminate I..]. }
    apply in_map_iff in I as (r' & [= ->] & I).
    unfold dc_read in Er. destruct (dc_open _) as [st| | | |] eqn:Eo; try discriminate. cbn [bind] in Er. injection Er as <- Er.
    destruct (open_sound {| s_data := data; s_tail := tail |} st Hs Eo) as (names & hb & Hl & Hn & Hb & D & _). destruct st as [hd n rs]. cbn [dc_header dc_bitset dc_rest s_data] in *.
    assert (Hsm : small rs) by (exact (small_after {| s_data := data; s_tail := tail |} _ _ Hs D)).
    destruct (rows_prefix _ _ hd Hb eq_refl _ _ _ _ Hsm Er) as (core & rest & D2 & Rl).
    exists names, (h_types hd), rows, (hb ++ core), rest. split; [rewrite D, D2, app_assoc; reflexivity|].
    split; [exists hb, core; auto|]. right. exists r. auto.
  - assert (e = Ok tt) as ->.
    { destruct e as [[]| | | |]; [reflexivity|..].
      all: match type of A with forall x, In x (_ ++ [?y]) -> _ => specialize (A y); assert (X : is_ok y = true) by (apply A, in_or_app; right; now left); discriminate X end. }
    destruct (read_sound {| s_data := data; s_tail := tail |} _ _ Hs Er) as (names & core & junk & D & Lj & Ly & _).
    exists names, (h_types h'), rows, core, junk. auto.
Qed.
End Any.
Print Assumptions C140_csv.
Print Assumptions C140_small.
Print Assumptions C140_dc_partial.

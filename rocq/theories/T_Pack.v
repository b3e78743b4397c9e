(** C106: how the inputs are packed does not matter. *)
From Verif Require Export PackSpec.
From Verif Require Import T_Whole T_Whole2.
Local Open Scope nat_scope.

Lemma delivers_same i j c : delivers i c -> delivers j c -> same_stream i j.
Proof. intros (A & B & C) (D & E & F). unfold same_stream. rewrite A, B, D, E. auto. Qed.
Lemma delivers_opens i c : delivers i c -> exists p, previewer_new i = Ok p.
Proof. intros (_ & T & Sm). apply C27_opens; auto. Qed.
Lemma plain_delivers c : delivers {| i_data := c; i_tail := None; i_plan := [] |} c.
Proof. split; [reflexivity|]. split; [reflexivity|]. intros e []. Qed.
Lemma decoded_exists ds f p : exists out, decoded ds f p out /\ decompress ds f p = out.
Proof.
  destruct f; cbn [decompress]; try (eexists; split; [constructor|reflexivity]).
  destruct ((8 <=? length (get_buf p)) && bytes_eqb (firstn 8 (get_buf p)) (b "LZ4Block")) eqn:E; eexists; (split; [|reflexivity]).
  - apply andb_prop in E as [_ E]. apply bytes_eqb_eq in E. constructor. exists (skipn 8 (get_buf p)). rewrite <- E. symmetry. apply firstn_skipn.
  - constructor. intros [t Et]. rewrite Et in E. rewrite app_length in E. cbn in E. discriminate.
Qed.

Section Packing.
Context {S : Type} (ds : decoders) (inflate bunzip : inner -> inner) (sfs : list (factory S)).
Hypothesis Hsf : Forall steady_factory sfs.

(** Opening a container is opening the file it holds. *)
Lemma holds_opens w path name c : holds inflate bunzip w path name c ->
  exists i, delivers i c /\ w_is_dir w path = false /\ forall fmt,
    create_source_from_path ds inflate bunzip w None sfs fmt path =
    (let* p := previewer_new i in let* s := create_source_from_previewer ds sfs p (Some name) fmt in Ok (Some s)).
Proof.
  intros [nm c' f L Sk Nm U D Nz|nm c' f a L Sk D Zb F U T Sp Hn Hu8 Hm].
  - exists (f_reads f). split; [exact D|]. split; [apply L|]. intro fmt.
    apply (open_plain ds inflate bunzip w sfs fmt path f nm L Sk); auto. destruct D as (-> & _). exact Nz.
  - assert (En : zip_name (z_flags a) (z_name a) = nm).
    { pose proof (name_shown (z_flags a) (z_name a)) as X. unfold shown_name in X, Hn.
      destruct (N.testbit (z_flags a) 11); [rewrite (X (Hu8 eq_refl)), (Hn (Hu8 eq_refl)); reflexivity|congruence]. }
    destruct D as (D & Tl & Sm).
    set (taken := {| i_data := z_payload a; i_tail := None; i_plan := i_plan (f_reads f) |}).
    assert (Tk : delivers taken (z_payload a)) by (split; [reflexivity|split; [reflexivity|exact Sm]]).
    assert (M : exists m, delivers m c' /\ member_reader inflate bunzip (i_plan (f_reads f)) a = Ok (crc_new m (z_crc a), nm)).
    { unfold member_reader. fold taken. rewrite En. destruct Hm as (_ & [[-> <-]|[[-> H]|[-> H]]]); cbn [N.eqb Pos.eqb]; eauto. }
    destruct M as (m & Dm & Em). destruct Hm as (Cr & _). exists (crc_as_inner (crc_new m (z_crc a))). split.
    { destruct Dm as (A & B & C). unfold crc_as_inner, crc_new, delivers. cbn [c_inner c_crc32 i_data i_tail i_plan].
      rewrite A, B, Cr, N.eqb_refl. auto. }
    destruct L as (Hex & Hdir & _ & Ho). split; [exact Hdir|]. intro fmt.
    unfold create_source_from_path, open_zip. rewrite Hex, Ho. cbn [bind]. rewrite Sk, C65_is_zip. cbn [bind].
    assert (Ez : starts_with (b "PK" ++ [byte_of 3; byte_of 4]) (i_data (f_reads f)) = true).
    { apply starts_with_spec. rewrite D. unfold archive_bytes, until_central, local_header. rewrite Zb. cbn [app].
      rewrite <- !app_assoc. eexists. reflexivity. }
    rewrite Ez, D. rewrite (open_main inflate bunzip (i_plan (f_reads f)) a F U T), Em. unfold eocdr_result, central_result.
    destruct Sp as (S1 & S2 & S3 & S4 & S5 & S6). rewrite S1, S2, S3, S4, S5. cbn [negb N.eqb orb Pos.eqb bind].
    destruct S6 as [-> | ->]; reflexivity.
Qed.

(** What any packing of a file opens as. *)
Definition bare (name data : bytes) : res S :=
  let* p := previewer_new {| i_data := data; i_tail := None; i_plan := [] |} in
  match first_by_format sfs name with Some sf => sf_create sf p | None => create_source_by_autodetecting_format sfs p end.

Lemma bare_any name data p : previews p data ->
  match first_by_format sfs name with Some sf => sf_create sf p | None => create_source_by_autodetecting_format sfs p end = bare name data.
Proof.
  intros (i & D & E). unfold bare. destruct (delivers_opens _ _ (plain_delivers data)) as [q Eq]. rewrite Eq. cbn [bind].
  assert (X : same_preview p q) by (eexists i, _; split; [eapply delivers_same; [exact D|apply plain_delivers]|auto]).
  destruct (first_by_format sfs name) as [sf|] eqn:Ef; [|now apply auto_same].
  apply (create_same sfs Hsf); [exact (proj1 (first_in sfs) _ _ Ef)|exact X].
Qed.

Lemma packs_open w path name data : packs ds inflate bunzip w path name data -> not_compressed name data ->
  w_is_dir w path = false /\
  create_source_from_path ds inflate bunzip w None sfs InputModel.Auto path = (let* s := bare name data in Ok (Some s)).
Proof.
  intros [H|f c H Hc] (Hn & Hm); destruct (holds_opens _ _ _ _ H) as (i & D & Hd & E); (split; [exact Hd|]); rewrite E; clear E;
    destruct (delivers_opens _ _ D) as [p Ep]; rewrite Ep; cbn [bind create_source_from_previewer]; unfold decompress_using_format.
  - pose proof (name_layer_spec name) as Hl. destruct (is_compressed_using_format name) as [[g core]|].
    { inversion Hl as [g' core' En|]; subst. destruct (Hn g core). reflexivity. }
    cbn [bind].
    assert (N : is_compressed_using_previewer p = None).
    { destruct (is_compressed_using_previewer p) as [g|] eqn:Eg; [|reflexivity].
      apply (C30_magic _ _ _ Ep) in Eg. destruct D as (D & _). rewrite D in Eg. destruct (Hm _ Eg). }
    unfold decompress_by_autodetecting_format. rewrite N. cbn [bind].
    rewrite <- (bare_any name data p) by (exists i; auto). destruct (first_by_format sfs name); reflexivity.
  - pose proof (name_layer_spec (name ++ ext_of f)) as Hl. destruct (is_compressed_using_format (name ++ ext_of f)) as [[g core]|].
    2:{ inversion Hl as [|n' Hx]; subst. destruct (Hx f name). reflexivity. }
    assert (g = f /\ core = name) as [-> ->].
    { inversion Hl as [g' core' En|]; subst. clear - En.
      assert (X : g = f).
      { apply (f_equal (@rev ascii)) in En. rewrite !rev_app_distr in En. destruct g, f; cbn in En; try reflexivity; discriminate En. }
      subst. split; [reflexivity|]. now apply app_inv_tail in En. }
    destruct (decoded_exists ds f p) as (out & Do & Eo).
    destruct (Hc p out (ex_intro _ i (conj D Ep)) Do) as (j & -> & Dj).
    unfold decompress_preview. rewrite Eo. cbn [bind].
    destruct (delivers_opens _ _ Dj) as [q Eq]. rewrite Eq. cbn [bind].
    rewrite <- (bare_any name data q) by (exists j; auto). destruct (first_by_format sfs name); reflexivity.
Qed.
End Packing.

Section Whole.
Context (prof : profile) (ch : chrono) (lower : bytes -> bytes) (f64_ok : text -> bool).
Variable split : byte -> stream -> list (res (list bytes)).
Variables (ds : decoders) (inflate bunzip : inner -> inner) (f64 f32 : N -> bytes).
Variables (factories : option (list (factory (header * source))))
          (zones : option (bytes -> option (zone ch))) (parse_zone : bytes -> option (zone ch)).
Variable create : bytes -> res unit.
Local Notation cli := (chopper_cli prof ch lower f64_ok split ds inflate bunzip f64 f32 None factories zones parse_zone create).

(** Two invocations, with the same options, naming files that hold the same data under the same
    name, however packed: the same output and the same exit. *)
Theorem C106_packing : forall F w v a paths paths',
  match factories with Some l => Forall steady_factory l | None => True end ->
  a_formats a = None -> paths <> [] -> w_env_tz w = w_env_tz v ->
  Forall2 (fun path path' => exists name data, not_compressed name data /\
             packs ds inflate bunzip w path name data /\ packs ds inflate bunzip v path' name data) paths paths' ->
  cli F w (with_inputs a paths) = cli F v (with_inputs a paths').
Proof.
  intros F w v a paths paths' Hf Af Hp Hz H2.
  assert (Hp' : paths' <> []) by (destruct H2; [congruence|discriminate]).
  unfold chopper_cli, parse_args. cbn [with_inputs a_timezone a_begin a_end a_formats a_inputs]. rewrite Af, Hz.
  destruct (resolve_timezone _ _ _ _) as [z| | | |]; try reflexivity. cbn [bind].
  destruct (timestamp_range _ _ _ _ _) as [rng| | | |]; try reflexivity. cbn [bind].
  rewrite (proj1 (C55_defaults paths Hp)), (proj1 (C55_defaults paths' Hp')). cbn [bind].
  change (csv_input_options (with_inputs a paths) z) with (csv_input_options (with_inputs a paths') z).
  change (csv_output_options (with_inputs a paths) z) with (csv_output_options (with_inputs a paths') z).
  destruct (csv_input_options _ z) as [ci| | | |]; try reflexivity. cbn [bind].
  destruct (csv_output_options _ z) as [co| | | |]; try reflexivity. cbn [bind].
  unfold run_chop. cbn [op_inputs op_csv_in op_csv_out op_range].
  set (sfs := all_factories prof ch lower f64_ok split factories ci).
  assert (Hs : Forall steady_factory sfs) by (apply all_factories_steady, Hf).
  match goal with |- match ?x with _ => _ end = match ?y with _ => _ end => assert (E : x = y) end.
  { clear Hp Hp'. induction H2 as [|p p' l l' (name & data & Nc & Pk & Pk') H2 IH]; [reflexivity|].
    cbn [map open_inputs]. rewrite IH. f_equal. unfold create_source_from_input. cbn [in_type in_format dir_file_transport dt_can_handle].
    destruct (packs_open ds inflate bunzip sfs Hs w p name data Pk Nc) as [-> ->].
    destruct (packs_open ds inflate bunzip sfs Hs v p' name data Pk' Nc) as [-> ->]. reflexivity. }
  rewrite E. reflexivity.
Qed.
End Whole.
Print Assumptions C106_packing.

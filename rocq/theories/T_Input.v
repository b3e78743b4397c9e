(** Property theorems: choosing how to read an input (C31, C54, C55, C56).

    [create_source_from_previewer ds sfs p name fmt] opens the previewed stream [p] whose
    file is called [name] (if known) with the format option [fmt], using the source
    factories [sfs]; [S] is the type of sources. *)
From Verif Require Import InputProofs DcProofs.

(** C54. [resolve] (InputSpec.v) says which factory must create the source from what. *)
Theorem C54_resolution : forall S ds (sfs : list (factory S)) p name fmt,
  resolve ds sfs name fmt p (create_source_from_previewer ds sfs p name fmt).
Proof. exact (fun S => @resolve_spec S). Qed.
Print Assumptions C54_resolution.

(** With a user-given format neither the name nor the contents matter. *)
Theorem C54_user_format_no_sniffing : forall S ds (sfs sfs' : list (factory S)) p n n' ext,
  Forall2 same_but_preview sfs sfs' ->
  create_source_from_previewer ds sfs p n (Extension ext) =
  create_source_from_previewer ds sfs' p n' (Extension ext).
Proof. exact (fun S => @user_no_sniff S). Qed.
Print Assumptions C54_user_format_no_sniffing.

Lemma user_first {A} (P : A -> bool) us ds x : is_first P us x -> is_first P (us ++ ds) x.
Proof.
  intros (pre & post & -> & H1 & H2). exists pre, (post ++ ds).
  rewrite <- app_assoc. auto.
Qed.
(** User factories come before the built-in ones. *)
Lemma C54_user_factories_first_proof S (user : list (factory S)) csv dc (P : factory S -> bool) sf sf' :
  is_first P user sf ->
  is_first P (all_source_factories (Some user) csv dc) sf' -> sf' = sf.
Proof. intros H H'. eapply is_first_det; [exact H'|]. apply user_first, H. Qed.
Theorem C54_user_factories_first : forall S (user : list (factory S)) csv dc (P : factory S -> bool) sf sf',
  is_first P user sf ->
  is_first P (all_source_factories (Some user) csv dc) sf' -> sf' = sf.
Proof. exact C54_user_factories_first_proof. Qed.
Print Assumptions C54_user_factories_first.

(** C31: with automatic format and no file name, a DC stream goes to the CSV source
    whenever its preview parses into lines of text. *)
Lemma C31_which_source_proof S ds csv (dc : previewer -> res S) i p t :
  previewer_new i = Ok p -> i_data i = dc_magic ++ t ->
  create_source_from_previewer ds (all_source_factories None (Some csv) dc) p None Auto =
  match get_lines p with Some _ => csv p | None => dc p end.
Proof.
  intros H E.
  assert (HB : DEFAULT_BUF_SIZE <> 0) by (unfold DEFAULT_BUF_SIZE; lia).
  pose proof (previewer_spec _ i HB) as Sp.
  change (previewer_with DEFAULT_BUF_SIZE i) with (previewer_new i) in Sp. rewrite H in Sp.
  destruct Sp as (_ & B & _). rewrite E in B.
  assert (B' : get_buf p = dc_magic ++ firstn (DEFAULT_BUF_SIZE - length dc_magic) t).
  { rewrite B, firstn_app. reflexivity. }
  unfold create_source_from_previewer, decompress_by_autodetecting_format.
  rewrite (dc_no_layer p _ B'). cbn [bind].
  unfold create_source_by_autodetecting_format, all_source_factories, default_source_factories.
  cbn [app first_by_preview]. rewrite dc_accepts.
  cbn [sf_preview csv_factory]. destruct (get_lines p); [reflexivity|].
  rewrite B'. assert (starts_with dc_magic (dc_magic ++ firstn (DEFAULT_BUF_SIZE - length dc_magic) t) = true) as ->
    by (apply starts_with_spec; eauto). reflexivity.
Qed.
Theorem C31_which_source : forall S ds csv (dc : previewer -> res S) i p t,
  previewer_new i = Ok p -> i_data i = dc_magic ++ t ->
  create_source_from_previewer ds (all_source_factories None (Some csv) dc) p None Auto =
  match get_lines p with Some _ => csv p | None => dc p end.
Proof. exact C31_which_source_proof. Qed.
Print Assumptions C31_which_source.

(** So C31 is refuted by every DC stream whose first 8192 bytes contain no newline byte, *)
Lemma C31_no_newline_proof S ds csv (dc : previewer -> res S) i p t :
  previewer_new i = Ok p -> i_data i = dc_magic ++ t ->
  8 * 1024 <= length (i_data i) -> ~ In LF (firstn (8 * 1024) (i_data i)) ->
  create_source_from_previewer ds (all_source_factories None (Some csv) dc) p None Auto = csv p.
Proof.
  intros H E L N. rewrite (C31_which_source_proof S ds csv dc i p t H E).
  assert (HB : DEFAULT_BUF_SIZE <> 0) by (unfold DEFAULT_BUF_SIZE; lia).
  pose proof (previewer_spec _ i HB) as Sp.
  change (previewer_with DEFAULT_BUF_SIZE i) with (previewer_new i) in Sp. rewrite H in Sp.
  destruct Sp as (R & B & _ & P & C & Fb & G).
  unfold get_lines_from_reader in G.
  pose proof (rep_len _ _ _ _ _ R) as RL. pose proof (rep_cap _ _ _ _ _ R) as RC.
  change (8 * 1024) with DEFAULT_BUF_SIZE in *.
  rewrite (get_lines_parse [] _ (r_buf (get_reader p)) 0 (r_cap (get_reader p)) [] (get_buf p)) in G;
    try lia.
  - assert (length (r_buf (get_reader p)) <=? r_cap (get_reader p) = true) as Q.
    { apply Nat.leb_le. rewrite RL, C, B, firstn_length. lia. }
    rewrite Q in G. injection G as <-. reflexivity.
  - rewrite Nat.sub_0_r. cbn [skipn map concat app]. symmetry. exact Fb.
  - cbn [app]. constructor; [|constructor]. rewrite B. exact N.
Qed.
Theorem C31_no_newline_refuted : forall S ds csv (dc : previewer -> res S) i p t,
  previewer_new i = Ok p -> i_data i = dc_magic ++ t ->
  8 * 1024 <= length (i_data i) -> ~ In LF (firstn (8 * 1024) (i_data i)) ->
  create_source_from_previewer ds (all_source_factories None (Some csv) dc) p None Auto = csv p.
Proof. exact C31_no_newline_proof. Qed.
Print Assumptions C31_no_newline_refuted.

(** for instance by this file, which the DC sink writes and the DC source reads back. *)
Definition h31 : header := {| h_names := [b "s"; b "n"]; h_types := [TString; TByte] |}.
Definition r31 : row :=
  {| ts := 5%N; vals := [VString (repeat "x"%char (9 * 1000)); VByte 1%N] |}.
Definition f31 : bytes := dc_file h31 [EvRow r31].
Theorem C31_counterexample_refuted : forall S ds csv (dc : previewer -> res S),
  exists i p, i_data i = f31 /\ previewer_new i = Ok p /\
    dc_read (file f31) = Ok (h31, ([r31], Ok tt)) /\
    create_source_from_previewer ds (all_source_factories None (Some csv) dc) p None Auto = csv p.
Proof.
  intros S ds csv dc. exists {| i_data := f31; i_tail := None; i_plan := [] |}.
  destruct (previewer_new {| i_data := f31; i_tail := None; i_plan := [] |}) as [p| | | |] eqn:E;
    try (vm_compute in E; discriminate).
  exists p. split; [reflexivity|]. split; [reflexivity|]. split.
  - vm_compute. reflexivity.
  - eapply C31_no_newline_proof; [exact E|reflexivity|..].
    + apply Nat.leb_le. vm_compute. reflexivity.
    + intro H. assert (K : existsb (Ascii.eqb LF) (firstn (8 * 1024) f31) = true).
      { apply existsb_exists. exists LF. split; [exact H|reflexivity]. }
      vm_compute in K. discriminate.
Qed.
Print Assumptions C31_counterexample_refuted.

(** What holds: every DC file that DCSink writes and that is shorter than the preview
    buffer is opened as DC, *)
Lemma C31_small_file_proof S ds csv (dc : previewer -> res S) h evs i p :
  header_fits h -> h_types h <> [] -> i_data i = dc_file h evs ->
  length (i_data i) < 8 * 1024 -> previewer_new i = Ok p ->
  create_source_from_previewer ds (all_source_factories None (Some csv) dc) p None Auto = dc p.
Proof.
  intros Hh Hne E L H.
  assert (Ed : exists t, i_data i = dc_magic ++ t /\ In (byte_of 255) (i_data i)).
  { rewrite E. unfold dc_file. rewrite (header_bytes h Hh). cbn [fst snd].
    destruct Hh as (Hl & _). destruct (h_types h) as [|ty tys]; [congruence|].
    destruct (h_names h) as [|nm nms]; [discriminate|].
    eexists. split.
    - unfold dc_magic. rewrite <- !app_assoc. reflexivity.
    - apply in_or_app. left. do 4 (apply in_or_app; right). cbn [fields_bytes].
      apply in_or_app; right. apply in_or_app; right. apply in_or_app; left.
      left. reflexivity. }
  destruct Ed as (t & Ed & F).
  rewrite (C31_which_source_proof S ds csv dc i p t H Ed).
  rewrite (ff_no_lines i p H L F). reflexivity.
Qed.
Theorem C31_small_file_partial : forall S ds csv (dc : previewer -> res S) h evs i p,
  header_fits h -> h_types h <> [] -> i_data i = dc_file h evs ->
  length (i_data i) < 8 * 1024 -> previewer_new i = Ok p ->
  create_source_from_previewer ds (all_source_factories None (Some csv) dc) p None Auto = dc p.
Proof. exact C31_small_file_proof. Qed.
Print Assumptions C31_small_file_partial.
(** and every DC stream is, if CSV support is left out (InputFactory::new_without_csv). *)
Lemma C31_without_csv_proof S ds (dc : previewer -> res S) i p t :
  previewer_new i = Ok p -> i_data i = dc_magic ++ t ->
  create_source_from_previewer ds (all_source_factories None None dc) p None Auto = dc p.
Proof.
  intros H E.
  assert (HB : DEFAULT_BUF_SIZE <> 0) by (unfold DEFAULT_BUF_SIZE; lia).
  pose proof (previewer_spec _ i HB) as Sp.
  change (previewer_with DEFAULT_BUF_SIZE i) with (previewer_new i) in Sp. rewrite H in Sp.
  destruct Sp as (_ & B & _). rewrite E in B.
  assert (B' : get_buf p = dc_magic ++ firstn (DEFAULT_BUF_SIZE - length dc_magic) t).
  { rewrite B, firstn_app. reflexivity. }
  unfold create_source_from_previewer, decompress_by_autodetecting_format.
  rewrite (dc_no_layer p _ B'). cbn [bind].
  unfold create_source_by_autodetecting_format, all_source_factories, default_source_factories.
  cbn [app first_by_preview]. rewrite dc_accepts, B'.
  assert (starts_with dc_magic (dc_magic ++ firstn (DEFAULT_BUF_SIZE - length dc_magic) t) = true) as ->
    by (apply starts_with_spec; eauto). reflexivity.
Qed.
Theorem C31_without_csv_partial : forall S ds (dc : previewer -> res S) i p t,
  previewer_new i = Ok p -> i_data i = dc_magic ++ t ->
  create_source_from_previewer ds (all_source_factories None None dc) p None Auto = dc p.
Proof. exact C31_without_csv_proof. Qed.
Print Assumptions C31_without_csv_partial.

(** C55. [fmt_of] is the meaning of one entry of the list. *)
Definition fmt_of (s : bytes) (f : input_format) : Prop :=
  (s = b "auto" /\ f = Auto) \/ (s <> b "auto" /\ f = Extension s).
Lemma parse_format_spec s : fmt_of s (parse_format s).
Proof.
  unfold fmt_of, parse_format. destruct (bytes_eqb s (b "auto")) eqn:E.
  - apply bytes_eqb_eq in E. auto.
  - apply bytes_eqb_neq in E. auto.
Qed.
Lemma rev_last {A} (l : list A) x t : rev l = x :: t -> l = rev t ++ [x].
Proof. intro H. rewrite <- (rev_involutive l), H. reflexivity. Qed.
Lemma cli_inputs_paths fs paths l0 last :
  fs = l0 ++ [last] -> paths <> [] ->
  cli_inputs (Some fs) (Some paths) = Ok (map (fun '(i, s) =>
    {| in_type := Path s; in_format := parse_format (nth i fs last) |}) (enum_from 0 paths)).
Proof.
  intros E Hp. unfold cli_inputs, input_formats.
  assert (R : rev (map parse_format fs) = parse_format last :: rev (map parse_format l0)).
  { rewrite E, map_app, rev_app_distr. reflexivity. }
  rewrite R.
  assert (M : map (fun '(i, s) => {| in_type := Path s; in_format :=
                if i <? length (map parse_format fs)
                then nth i (map parse_format fs) (parse_format last) else parse_format last |})
               (enum_from 0 paths) =
              map (fun '(i, s) => {| in_type := Path s; in_format := parse_format (nth i fs last) |})
               (enum_from 0 paths)).
  { apply map_ext. intros [i s]. f_equal. rewrite map_length.
    destruct (Nat.ltb_spec i (length fs)).
    - apply map_nth.
    - rewrite nth_overflow by lia. reflexivity. }
  rewrite M. destruct paths; [congruence|]. reflexivity.
Qed.
Lemma C55_formats_proof fs paths : fs <> [] -> paths <> [] ->
  exists ins, cli_inputs (Some fs) (Some paths) = Ok ins /\ length ins = length paths /\
  forall i path, nth_error paths i = Some path ->
    exists s f, nth_error ins i = Some {| in_type := Path path; in_format := f |} /\ fmt_of s f /\
      (nth_error fs i = Some s \/ (length fs <= i /\ exists l0, fs = l0 ++ [s])).
Proof.
  intros Hf Hp. destruct (exists_last Hf) as (l0 & last & E).
  rewrite (cli_inputs_paths fs paths l0 last E Hp).
  eexists. split; [reflexivity|]. split; [rewrite map_length; apply enum_from_length|].
  intros i path Hi. exists (nth i fs last), (parse_format (nth i fs last)).
  split; [|split; [apply parse_format_spec|]].
  - erewrite map_nth_error; [|rewrite enum_from_nth, Hi; reflexivity]. reflexivity.
  - destruct (Nat.lt_ge_cases i (length fs)) as [L|L].
    + left. apply nth_error_nth'. exact L.
    + right. rewrite nth_overflow by exact L. eauto.
Qed.
Theorem C55_formats : forall fs paths, fs <> [] -> paths <> [] ->
  exists ins, cli_inputs (Some fs) (Some paths) = Ok ins /\ length ins = length paths /\
  forall i path, nth_error paths i = Some path ->
    exists s f, nth_error ins i = Some {| in_type := Path path; in_format := f |} /\ fmt_of s f /\
      (nth_error fs i = Some s \/ (length fs <= i /\ exists l0, fs = l0 ++ [s])).
Proof. exact C55_formats_proof. Qed.
Print Assumptions C55_formats.
(** No list at all: autodetection; no input at all: standard input, first format. *)
Lemma C55_defaults_proof paths : paths <> [] ->
  cli_inputs None (Some paths) = Ok (map (fun s => {| in_type := Path s; in_format := Auto |}) paths) /\
  cli_inputs None None = Ok [ {| in_type := StdIn; in_format := Auto |} ] /\
  forall s fs, cli_inputs (Some (s :: fs)) None = Ok [ {| in_type := StdIn; in_format := parse_format s |} ].
Proof.
  intro Hp. split; [|split; [reflexivity|]].
  - unfold cli_inputs, input_formats. cbn [rev app].
    assert (M : forall k, map (fun '(i, s) => {| in_type := Path s;
                  in_format := if i <? length [Auto] then nth i [Auto] Auto else Auto |})
                 (enum_from k paths) = map (fun s => {| in_type := Path s; in_format := Auto |}) paths).
    { clear Hp. induction paths as [|s paths IH]; intro k; [reflexivity|]. cbn [enum_from map].
      rewrite IH. f_equal. f_equal. destruct (k <? length [Auto]) eqn:E; [|reflexivity].
      destruct k; [reflexivity|discriminate]. }
    rewrite M. destruct paths; [congruence|reflexivity].
  - intros s fs. unfold cli_inputs, input_formats.
    destruct (rev (map parse_format (s :: fs))) as [|x l] eqn:E.
    + apply (f_equal (@length _)) in E. rewrite rev_length in E. discriminate.
    + reflexivity.
Qed.
Theorem C55_defaults : forall paths, paths <> [] ->
  cli_inputs None (Some paths) = Ok (map (fun s => {| in_type := Path s; in_format := Auto |}) paths) /\
  cli_inputs None None = Ok [ {| in_type := StdIn; in_format := Auto |} ] /\
  forall s fs, cli_inputs (Some (s :: fs)) None = Ok [ {| in_type := StdIn; in_format := parse_format s |} ].
Proof. exact C55_defaults_proof. Qed.
Print Assumptions C55_defaults.

(** C56 is refuted: whatever the user's transports, an existing file is read by the
    built-in file transport, *)
Lemma open_matching_ok ts path : forall acc,
  (forall t, In t ts -> t_can_open t path = true -> exists r, t_open t path = Ok r) ->
  forall tail, open_matching (ts ++ tail) path acc =
    open_matching tail path
      (match find (fun t => t_can_open t path) (rev ts) with
       | Some t => match t_open t path with Ok r => Some r | _ => None end
       | None => acc
       end).
Proof.
  induction ts as [|t ts IH]; intros acc H tail; [reflexivity|].
  cbn [app open_matching].
  assert (Fs : forall l (x : transport), find (fun t => t_can_open t path) (l ++ [x]) =
            match find (fun t => t_can_open t path) l with
            | Some y => Some y | None => if t_can_open x path then Some x else None end).
  { induction l as [|y l IHl]; intro x; [reflexivity|]. cbn. destruct (t_can_open y path); auto. }
  cbn [rev]. rewrite Fs.
  destruct (t_can_open t path) eqn:E.
  - destruct (H t (or_introl eq_refl) E) as [r Hr]. rewrite Hr. cbn [bind].
    rewrite IH by (intros; apply H; [right|]; assumption).
    destruct (find _ (rev ts)); [reflexivity|]. rewrite Hr. reflexivity.
  - rewrite IH by (intros; apply H; [right|]; assumption).
    destruct (find _ (rev ts)); reflexivity.
Qed.
Lemma C56_builtin_wins_proof us file http path rf :
  (forall t, In t us -> t_can_open t path = true -> exists r, t_open t path = Ok r) ->
  t_can_open file path = true -> t_open file path = Ok rf -> t_can_open http path = false ->
  create_previewer (streaming_transports (Some us) file http) path =
  (let* p := previewer_new rf in Ok (Some p)).
Proof.
  intros H F1 F2 F3. unfold create_previewer, streaming_transports.
  rewrite open_matching_ok by exact H. cbn [open_matching]. rewrite F1, F2, F3. reflexivity.
Qed.
Theorem C56_builtin_wins_refuted : forall us file http path rf,
  (forall t, In t us -> t_can_open t path = true -> exists r, t_open t path = Ok r) ->
  t_can_open file path = true -> t_open file path = Ok rf -> t_can_open http path = false ->
  create_previewer (streaming_transports (Some us) file http) path =
  (let* p := previewer_new rf in Ok (Some p)).
Proof. exact C56_builtin_wins_proof. Qed.
Print Assumptions C56_builtin_wins_refuted.
(** even if the user's transport cannot open it, in which case nothing is read at all. *)
Lemma C56_open_error_proof u us file http path e :
  t_can_open u path = true -> t_open u path = Err e ->
  create_previewer (streaming_transports (Some (u :: us)) file http) path = Err e.
Proof.
  intros H1 H2. unfold create_previewer, streaming_transports. cbn [app open_matching].
  rewrite H1, H2. reflexivity.
Qed.
Theorem C56_user_open_error_aborts_refuted : forall u us file http path e,
  t_can_open u path = true -> t_open u path = Err e ->
  create_previewer (streaming_transports (Some (u :: us)) file http) path = Err e.
Proof. exact C56_open_error_proof. Qed.
Print Assumptions C56_user_open_error_aborts_refuted.
(** What holds: where no built-in transport applies, the user's last matching one is used. *)
Lemma C56_user_only_proof us file http path pre u post r :
  us = pre ++ u :: post ->
  (forall t, In t us -> t_can_open t path = true -> exists r, t_open t path = Ok r) ->
  t_can_open u path = true -> t_open u path = Ok r ->
  Forall (fun t => t_can_open t path = false) post ->
  t_can_open file path = false -> t_can_open http path = false ->
  create_previewer (streaming_transports (Some us) file http) path =
  (let* p := previewer_new r in Ok (Some p)).
Proof.
  intros E H U1 U2 Hp F1 F2. unfold create_previewer, streaming_transports.
  rewrite open_matching_ok by exact H. cbn [open_matching]. rewrite F1, F2. cbn [bind].
  assert (find (fun t => t_can_open t path) (rev us) = Some u) as ->.
  { subst us. rewrite rev_app_distr. cbn [rev]. rewrite <- app_assoc. cbn [app].
    assert (Hr : Forall (fun t => t_can_open t path = false) (rev post)).
    { apply Forall_rev, Hp. }
    induction Hr as [|x l Hx Hr IH]; cbn; [rewrite U1; reflexivity|]. rewrite Hx. exact IH. }
  rewrite U2. reflexivity.
Qed.
Theorem C56_user_transport_partial : forall us file http path pre u post r,
  us = pre ++ u :: post ->
  (forall t, In t us -> t_can_open t path = true -> exists r, t_open t path = Ok r) ->
  t_can_open u path = true -> t_open u path = Ok r ->
  Forall (fun t => t_can_open t path = false) post ->
  t_can_open file path = false -> t_can_open http path = false ->
  create_previewer (streaming_transports (Some us) file http) path =
  (let* p := previewer_new r in Ok (Some p)).
Proof. exact C56_user_only_proof. Qed.
Print Assumptions C56_user_transport_partial.

(** ** Non-vacuity *)

Definition no_decoders : decoders :=
  {| d_gz := fun _ => Ok {| i_data := b "1,2"; i_tail := None; i_plan := [] |};
     d_lz4_frame := fun _ => Err ETime; d_lz4_jblock := fun _ => Err ETime;
     d_lzf := fun _ => Err ETime; d_zst := fun _ => Err ETime |}.
(** Sources are just labelled by the factory that made them. *)
Definition demo := all_source_factories None (Some (fun p => Ok (b "csv", get_buf p)))
                     (fun p => Ok (b "dc", get_buf p)).
Definition open_demo (d : bytes) (name : option bytes) (fmt : input_format) :=
  let* p := previewer_new {| i_data := d; i_tail := None; i_plan := [Chunk 1] |} in
  create_source_from_previewer no_decoders demo p name fmt.
Example open_csv : open_demo (b "1,2") (Some (b "x.csv")) Auto = Ok (b "csv", b "1,2").
Proof. vm_compute. reflexivity. Qed.
Example open_named_dc : open_demo (b "1,2") (Some (b "x.dc")) Auto = Ok (b "dc", b "1,2").
Proof. vm_compute. reflexivity. Qed.
Example open_gz : open_demo (map byte_of [0x1F; 0x8B; 8; 0]%N) (Some (b "x")) Auto = Ok (b "csv", b "1,2").
Proof. vm_compute. reflexivity. Qed.
Example open_user : open_demo (b "1,2") (Some (b "x.csv")) (Extension (b "dc")) = Ok (b "dc", b "1,2").
Proof. vm_compute. reflexivity. Qed.
Example open_small_dc :
  open_demo (dc_file h31 [EvRow {| ts := 1%N; vals := [VString (b "a"); VByte 2%N] |}]) None Auto =
  Ok (b "dc", dc_file h31 [EvRow {| ts := 1%N; vals := [VString (b "a"); VByte 2%N] |}]).
Proof. vm_compute. reflexivity. Qed.
Example h31_fits : header_fits h31.
Proof. split; [reflexivity|]. split; [repeat constructor; discriminate|]. split; [repeat constructor|reflexivity]. Qed.
Definition always (r : inner) : transport := {| t_can_open := fun _ => true; t_open := fun _ => Ok r |}.
Definition never : transport := {| t_can_open := fun _ => false; t_open := fun _ => Err ETime |}.
Definition in_a := {| i_data := b "user"; i_tail := None; i_plan := [] |}.
Definition in_b := {| i_data := b "builtin"; i_tail := None; i_plan := [] |}.
Example transports_demo :
  match create_previewer (streaming_transports (Some [always in_a]) (always in_b) never) (b "f"),
        create_previewer (streaming_transports (Some [always in_a]) never never) (b "f") with
  | Ok (Some p), Ok (Some q) => get_buf p = b "builtin" /\ get_buf q = b "user"
  | _, _ => False
  end.
Proof. vm_compute. auto. Qed.
Example formats_demo :
  cli_inputs (Some [b "csv"; b "auto"]) (Some [b "x"; b "y"; b "z"]) =
  Ok [ {| in_type := Path (b "x"); in_format := Extension (b "csv") |};
       {| in_type := Path (b "y"); in_format := Auto |};
       {| in_type := Path (b "z"); in_format := Auto |} ].
Proof. reflexivity. Qed.

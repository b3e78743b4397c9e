(** Property theorems about whole invocations on DC files: C75, C79. *)
From Verif Require Export T_Whole DcProofs.

(** An ordinary local file named *.dc that a DC sink has written: header [h] and [rows]. *)
Definition dc_input (w : world) (path : bytes) (h : header) (rows : list row) : Prop :=
  exists f core evs, local_file w path f /\ f_seekable f = true /\ named path (core ++ b ".dc") /\ utf8 (core ++ b ".dc") = true /\
    i_data (f_reads f) = dc_file h evs /\ i_tail (f_reads f) = None /\ smooth (i_plan (f_reads f)) /\ ev_rows evs = rows.
(** Headers and rows that a DC file can hold (C20): names are not empty. *)
Definition dc_header_ok (h : header) : Prop :=
  header_fits h /\ 2 <= length (h_types h) /\ length (h_types h) mod 8 <> 1 /\ Forall (fun n => n <> []) (h_names h).

Lemma names_kept i names : Forall (fun n => n <> []) names -> default_names i names = names.
Proof.
  intro H. revert i. induction H as [|n names Hn H IH]; intro i; [reflexivity|]. cbn [default_names].
  rewrite IH. destruct n; [congruence|reflexivity].
Qed.
Lemma with_names_kept h : dc_header_ok h -> with_default_names h = h.
Proof. intros (_ & _ & _ & H). unfold with_default_names. rewrite names_kept by exact H. destruct h; reflexivity. Qed.
Lemma dc_starts h evs : header_fits h -> exists t, dc_file h evs = be 8 MAGIC_NUM ++ t.
Proof. intro H. unfold dc_file. rewrite (header_bytes h H). cbn [fst]. rewrite <- app_assoc. eauto. Qed.
Lemma dc_no_zip h evs : header_fits h -> ~ looks_like_zip (dc_file h evs).
Proof. intros H [t E]. destruct (dc_starts h evs H) as [t' E']. rewrite E' in E. vm_compute in E. discriminate E. Qed.

Section Dc.
Context (prof : profile) (ch : chrono) (lower : bytes -> bytes) (f64_ok : text -> bool).
Variable split : byte -> stream -> list (res (list bytes)).
Variables (ds : decoders) (inflate bunzip : inner -> inner) (f64 f32 : N -> bytes).
Variables (zones : option (bytes -> option (zone ch))) (parse_zone : bytes -> option (zone ch)).
Variable create : bytes -> res unit.
Local Notation cli := (chopper_cli prof ch lower f64_ok split ds inflate bunzip f64 f32 None None zones parse_zone create).
Local Notation args_of := (parse_args prof ch zones parse_zone).

(** Such a file is opened as what was written. *)
Lemma dc_opens w cfg path h rows : dc_input w path h rows -> dc_header_ok h -> Forall (row_fits h) rows ->
  create_source_from_input ds inflate bunzip w None (all_factories prof ch lower f64_ok split None cfg)
    {| in_type := Path path; in_format := InputModel.Auto |} = Ok (h, map Ok rows).
Proof.
  intros (f & core & evs & L & Sk & Nm & U & D & T & Sm & <-) Ok' Hr. pose proof Ok' as (Hf & H2 & H8 & _).
  assert (Nz : ~ looks_like_zip (i_data (f_reads f))) by (rewrite D; apply dc_no_zip, Hf).
  unfold create_source_from_input. cbn [in_type in_format dir_file_transport dt_can_handle].
  rewrite (open_plain ds inflate bunzip w _ _ path f _ L Sk Nz Nm U). destruct L as (_ & -> & _).
  destruct (C27_opens (f_reads f) Sm (or_introl T)) as [p Ep]. rewrite Ep. cbn [bind].
  cbn [create_source_from_previewer]. unfold decompress_using_format.
  pose proof (name_layer_spec (core ++ b ".dc")) as Hl. destruct (is_compressed_using_format _) as [[g c]|].
  { exfalso. inversion Hl as [g' c' En|]; subst. apply (f_equal (@rev ascii)) in En. rewrite !rev_app_distr in En.
    destruct g; cbn in En; discriminate En. }
  cbn [bind]. unfold all_factories, all_source_factories, default_source_factories.
  cbn [app first_by_format csv_factory dc_factory sf_format].
  assert (E1 : ends_with (b ".csv") (core ++ b ".dc") = false).
  { destruct (ends_with _ _) eqn:E; [|reflexivity]. apply ends_with_spec in E as [t E].
    apply (f_equal (@rev ascii)) in E. rewrite !rev_app_distr in E. cbn in E. discriminate E. }
  assert (E2 : ends_with (b ".dc") (core ++ b ".dc") = true) by (apply ends_with_spec; eauto).
  rewrite E1, E2. cbn [sf_create dc_factory]. unfold dc_create. rewrite (preview_stream _ _ Ep), D, T.
  rewrite (dc_roundtrip h evs None Hf H2 H8 Hr). cbn [bind]. rewrite (with_names_kept h Ok'), app_nil_r. reflexivity.
Qed.

(** ** C75: chop on DC files, into a DC file *)
Theorem C75_dc_files : forall F w a opts paths out h rowss,
  3 <= F ->
  a_inputs a = Some paths -> paths <> [] -> a_formats a = None -> a_output a = Some (out ++ b "dc") ->
  args_of w a = Ok opts -> create (out ++ b "dc") = Ok tt ->
  dc_header_ok h ->
  Forall2 (fun path rows => dc_input w path h rows /\ Forall (row_fits h) rows /\
             selected (op_range ch opts) (map Ok rows) <> []) paths rowss ->
  exists written rows,
    run_ok (cli F w a) written /\
    (* the file written reads as *)
    dc_read (file written) = Ok (h, (rows, Ok tt)) /\
    Permutation rows (concat (map (fun rs => selected (op_range ch opts) (map Ok rs)) rowss)) /\
    (Forall time_ordered rowss ->
       time_ordered rows /\
       forall t, filter (fun r => (ts r =? t)%N) rows =
         concat (map (fun rs => filter (fun r => (ts r =? t)%N) (selected (op_range ch opts) (map Ok rs))) (rev rowss))) /\
    (forall rs, rowss = [rs] -> rows = selected (op_range ch opts) (map Ok rs)).
Proof.
  intros F w a opts paths out h rowss HF Ain Hp Af Ao Ea Ec Hok H2.
  pose proof Hok as (Hf & L2 & L8 & _).
  set (inputs := map (fun rs => (h, map Ok rs : source)) rowss).
  assert (Ei : op_inputs ch opts = map (fun p => {| in_type := Path p; in_format := InputModel.Auto |}) paths).
  { unfold parse_args in Ea. destruct (resolve_timezone _ _ _ _); try discriminate. cbn [bind] in Ea.
    destruct (timestamp_range _ _ _ _ _); try discriminate. cbn [bind] in Ea. rewrite Ain, Af in Ea.
    destruct (cli_inputs _ _) as [ins| | | |] eqn:Eins; try discriminate. cbn [bind] in Ea.
    destruct (csv_input_options a _); try discriminate. cbn [bind] in Ea.
    destruct (csv_output_options a _); try discriminate. injection Ea as <-. cbn [op_inputs].
    destruct (C55_defaults paths Hp) as [X _]. rewrite X in Eins. injection Eins as <-. reflexivity. }
  assert (Op : Forall2 (opens prof ch lower f64_ok split ds inflate bunzip None None w opts) (op_inputs ch opts) inputs).
  { rewrite Ei. unfold inputs. clear - H2 Hok. induction H2 as [|p rs ps rss (A & B & _) H2 IH]; [constructor|].
    constructor; [|exact IH]. unfold opens. apply dc_opens; assumption. }
  destruct (proj2 (bitset_agree _) (conj L2 L8)) as (n & Ew & Er).
  assert (Ho : dc_header_sink h = Ok (h, dc_sink n)).
  { unfold dc_header_sink. rewrite (header_bytes h Hf). cbn [snd]. rewrite Ew. reflexivity. }
  assert (Ek : new_header_sink (a_output a) (Some (op_csv_out ch opts)) = Ok (OutDc (out ++ b "dc"))).
  { rewrite Ao. apply C63_output_kind. eauto. }
  assert (Hne : inputs <> []).
  { unfold inputs. intro E. apply map_eq_nil in E. subst. inversion H2; subst. congruence. }
  assert (Hh : forall i, In i inputs -> fst i = h).
  { intros i Hi. unfold inputs in Hi. apply in_map_iff in Hi as (rs & <- & _). reflexivity. }
  assert (Hin : forall i, In i inputs -> exists rs, i = (h, map Ok rs) /\ Forall (row_fits h) rs /\ selected (op_range ch opts) (map Ok rs) <> []).
  { intros i Hi. unfold inputs in Hi. apply in_map_iff in Hi as (rs & <- & Hi).
    destruct (Forall2_in_r _ _ _ _ H2 Hi) as (p & _ & _ & B & C). eauto. }
  assert (Sel : forall rs r, In r (selected (op_range ch opts) (map Ok rs)) -> In r rs).
  { intros rs r Hr. unfold selected in Hr. apply filter_In in Hr as [Hr _].
    replace (rows_before_failure (map Ok rs)) with rs in Hr by (clear; induction rs; cbn; congruence).
    clear - Hr. induction rs as [|x rs IH]; [destruct Hr|]. cbn [until_end] in Hr.
    destruct (before_end _ _); [|destruct Hr]. destruct Hr as [->|Hr]; [now left|right; auto]. }
  assert (Fits : forall i r, In i inputs -> In r (selected (op_range ch opts) (snd i)) -> row_fits h r).
  { intros i r Hi Hr. destruct (Hin i Hi) as (rs & -> & B & _). cbn [snd] in Hr. rewrite Forall_forall in B. apply B, Sel, Hr. }
  assert (E0 : exit_code (cli F w a) = 0%N).
  { eapply (C73_success prof ch lower f64_ok split ds inflate bunzip f64 f32 None None zones parse_zone create F w a opts inputs _ h h (dc_sink n));
      eauto.
    - intros p E. rewrite Ao in E. injection E as <-. exact Ec.
    - intros i past r Hi Hr. cbn [dc_sink sk_write]. rewrite (row_bytes n h r) by (eapply Fits; eauto). cbn. eauto.
    - intros i Hi. destruct (Hin i Hi) as (rs & -> & _ & C). cbn [snd]. split; [|exact C].
      clear. induction rs as [|r rs IH]; cbn; auto. }
  unfold exit_code in E0. revert E0. unfold chopper_cli. rewrite Ea. unfold run_chop.
  apply open_inputs_ok in Op. rewrite Op, Ek. cbn [kind_path]. rewrite Ec. cbn [kind_sink].
  destruct (chop F inputs dc_header_sink (op_range ch opts)) as [st r] eqn:Ech. cbn [o_result].
  intro E0. assert (r = Ok tt) as ->.
  { destruct r as [[]| | | |]; try discriminate. reflexivity. }
  rewrite (output_header_same _ _ Hne Hh). cbn [kind_bytes].
  destruct (chop_ok _ _ _ _ _ _ _ _ Hne Hh Ho Ech) as (_ & P & So & _).
  destruct (chop_order _ _ _ _ _ _ _ _ Hne Hh Ho Ech) as (Ti & Si).
  set (evs := events_at (r_log st) (out_chain (length inputs)) (out_node (length inputs))) in *.
  assert (Ms : map (selected (op_range ch opts)) (map snd inputs) = map (fun rs => selected (op_range ch opts) (map Ok rs)) rowss).
  { unfold inputs. rewrite !map_map. reflexivity. }
  exists (dc_file h evs), (ev_rows evs). split; [reflexivity|]. split.
  { pose proof (dc_roundtrip h evs None Hf L2 L8) as R. rewrite (with_names_kept h Hok) in R. apply R.
    eapply Forall_perm; [exact P|]. apply Forall_concat, Forall_map, Forall_map, Forall_forall.
    intros i Hi. apply Forall_forall. intros x Hx. eapply Fits; eauto. }
  split; [rewrite <- Ms; exact P|]. split.
  - intro Or. assert (Or' : forall i, In i inputs -> time_ordered (rows_before_failure (snd i))).
    { intros i Hi. unfold inputs in Hi. apply in_map_iff in Hi as (rs & <- & Hi). cbn [snd].
      replace (rows_before_failure (map Ok rs)) with rs by (clear; induction rs; cbn; congruence).
      rewrite Forall_forall in Or. auto. }
    split; [exact (So Or')|]. intro t. rewrite (Ti Or' t). unfold inputs. rewrite <- map_rev, map_map. reflexivity.
  - intros rs ->. exact (Si (h, map Ok rs) eq_refl).
Qed.

(** ** C79: copying a DC file reproduces it byte for byte *)
Theorem C79_dc_copy : forall F w a opts path out h rows evs,
  3 <= F ->
  a_inputs a = Some [path] -> a_formats a = None -> a_output a = Some (out ++ b "dc") ->
  a_begin a = None -> a_end a = None -> args_of w a = Ok opts -> create (out ++ b "dc") = Ok tt ->
  dc_header_ok h -> dc_input w path h rows -> Forall (row_fits h) rows -> rows <> [] ->
  (forall f, w_open w path = Ok f -> i_data (f_reads f) = dc_file h evs) ->
  run_ok (cli F w a) (dc_file h evs).
Proof.
  intros F w a opts path out h rows evs HF Ain Af Ao Ab Ae Ea Ec Hok Hi Hr Hne Hb.
  assert (Rng : op_range ch opts = range_all).
  { unfold parse_args in Ea. destruct (resolve_timezone _ _ _ _); try discriminate. cbn [bind] in Ea.
    rewrite Ab, Ae in Ea. cbn [timestamp_range bind] in Ea.
    destruct (cli_inputs _ _) as [ins| | | |] eqn:Eins; try discriminate. cbn [bind] in Ea.
    destruct (csv_input_options a _); try discriminate. cbn [bind] in Ea.
    destruct (csv_output_options a _); try discriminate. injection Ea as <-. reflexivity. }
  assert (Sel : selected (op_range ch opts) (map Ok rows) = rows).
  { rewrite Rng. unfold selected.
    replace (rows_before_failure (map Ok rows)) with rows by (clear; induction rows; cbn; congruence).
    clear. induction rows as [|r rows IH]; [reflexivity|]. cbn in *. congruence. }
  destruct (C75_dc_files F w a opts [path] out h [rows]) as (written & rows' & R & D & _ & _ & S1); auto.
  - discriminate.
  - constructor; [|constructor]. rewrite Sel. auto.
  - specialize (S1 rows eq_refl). rewrite Sel in S1. subst rows'. clear Sel.
    assert (W : exists evs', written = dc_file h evs' /\ ev_rows evs' = rows).
    { destruct (C78_exit_0_complete prof ch lower f64_ok split ds inflate bunzip f64 f32 None None zones parse_zone create F w a)
        as (opts' & inputs & kind & h' & calls & E1 & E2 & E3 & E4 & E5 & E6 & _).
      { rewrite R. reflexivity. }
      rewrite Ao in E3. rewrite Ea in E1. injection E1 as <-.
      assert (kind = OutDc (out ++ b "dc")) as ->.
      { destruct (C63_output_kind (Some (op_csv_out ch opts)) (out ++ b "dc")) as (_ & B & _).
        rewrite (proj1 B (ex_intro _ out eq_refl)) in E3. injection E3 as <-. reflexivity. }
      cbn [kind_bytes] in E5. unfold run_ok in *. rewrite E5 in R. injection R as R. rewrite <- R in *.
      assert (inputs = [(h, map Ok rows)]) as ->.
      { assert (Ei : op_inputs ch opts = [{| in_type := Path path; in_format := InputModel.Auto |}]).
        { unfold parse_args in Ea. destruct (resolve_timezone _ _ _ _); try discriminate. cbn [bind] in Ea.
          destruct (timestamp_range _ _ _ _ _); try discriminate. cbn [bind] in Ea. rewrite Ain, Af in Ea.
          destruct (csv_input_options a _); try discriminate. cbn [bind] in Ea.
          destruct (csv_output_options a _); try discriminate. cbn in Ea. injection Ea as <-. reflexivity. }
        rewrite Ei in E2. inversion E2 as [|x s l ss A B]; subst. inversion B; subst. f_equal.
        unfold opens in A. rewrite (dc_opens w _ path h rows Hi Hok Hr) in A. injection A as <-. reflexivity. }
      rewrite <- (E4 _ (or_introl eq_refl)) in *. cbn [fst] in *.
      exists calls. split; [reflexivity|].
      pose proof Hok as (Hf & L2 & L8 & _).
      assert (Fc : Forall (row_fits h) (ev_rows calls)).
      { eapply Forall_perm; [exact E6|]. rewrite Rng. cbn [map snd concat]. rewrite app_nil_r.
        unfold selected. replace (rows_before_failure (map Ok rows)) with rows by (clear; induction rows; cbn; congruence).
        apply Forall_forall. intros x Hx. apply filter_In in Hx as [Hx _].
        rewrite Forall_forall in Hr. apply Hr. clear - Hx. induction rows as [|y rows IH]; [destruct Hx|].
        cbn in Hx. destruct Hx as [->|Hx]; [now left|right; auto]. }
      pose proof (dc_roundtrip h calls None Hf L2 L8 Fc) as X. unfold file in D. rewrite X in D. injection D as _ D. exact D. }
    destruct W as (evs' & -> & Er). destruct Hi as (f & core & evs0 & L & _ & _ & _ & Ed & _ & _ & Er0).
    destruct L as (_ & _ & _ & Lo). specialize (Hb f Lo). unfold run_ok in *. rewrite R. f_equal. f_equal. rewrite <- Hb, Ed.
    unfold dc_file. f_equal. destruct (snd (dc_process_header h)); [|reflexivity..].
    rewrite !dc_rows_bytes_rows, Er, Er0. reflexivity.
Qed.
End Dc.
Print Assumptions C75_dc_files.
Print Assumptions C79_dc_copy.

(** Property theorems about whole invocations: C68, C69, C73-C75, C78. *)
From Verif Require Export T_Options2 DriveMore T_EndToEnd T_CsvOut.

Definition run_ok (o : outcome) (bytes : bytes) : Prop := o = {| o_written := Some bytes; o_result := Ok tt |}.

Section Whole.
Context (prof : profile) (ch : chrono) (lower : bytes -> bytes) (f64_ok : text -> bool).
Variable split : byte -> stream -> list (res (list bytes)).
Variables (ds : decoders) (inflate bunzip : inner -> inner) (f64 f32 : N -> bytes).
Variables (transports : option (list transport)) (factories : option (list (factory (header * source))))
          (zones : option (bytes -> option (zone ch))) (parse_zone : bytes -> option (zone ch)).
Variable create : bytes -> res unit.
Local Notation cli := (chopper_cli prof ch lower f64_ok split ds inflate bunzip f64 f32 transports factories zones parse_zone create).
Local Notation args_of := (parse_args prof ch zones parse_zone).
(** Opening one input, under the options. *)
Definition opens (w : world) (o : options ch) (i : input) (s : header * source) : Prop :=
  create_source_from_input ds inflate bunzip w transports
    (all_factories prof ch lower f64_ok split factories (op_csv_in ch o)) i = Ok s.
Local Notation sink := (kind_sink f64 f32).
Local Notation bytes_of := (kind_bytes f64 f32).

Lemma open_inputs_ok w sfs l ss : open_inputs ds inflate bunzip w transports sfs l = Ok ss <->
  Forall2 (fun i s => create_source_from_input ds inflate bunzip w transports sfs i = Ok s) l ss.
Proof.
  revert ss. induction l as [|i l IH]; intro ss; cbn [open_inputs].
  - split; [intros [= <-]; constructor|intro H; inversion H; reflexivity].
  - split.
    + destruct (create_source_from_input _ _ _ _ _ _ i) as [s| | | |] eqn:E; try discriminate. cbn [bind].
      destruct (open_inputs _ _ _ _ _ _ l) as [r| | | |] eqn:E2; try discriminate. cbn [bind]. intros [= <-].
      constructor; [exact E|]. apply IH. reflexivity.
    + intro H. inversion H as [|i' s l' r A B]; subst. rewrite A. cbn [bind]. apply IH in B. rewrite B. reflexivity.
Qed.

(** ** C68: the output is not touched before every input is open *)
Theorem C68_output_untouched : forall F w a,
  let o := cli F w a in
  (o_written o <> None -> exists opts inputs, args_of w a = Ok opts /\ Forall2 (opens w opts) (op_inputs ch opts) inputs /\
     (forall p, a_output a = Some p -> create p = Ok tt)) /\
  (o_written o = None -> exit_code o <> 0%N).
Proof.
  intros F w a. unfold chopper_cli. destruct (parse_args _ _ _ _ w a) as [o| | | |] eqn:Ea.
  2-5: split; [intro H; destruct (H eq_refl)|intros _; discriminate].
  unfold run_chop. destruct (open_inputs _ _ _ w _ _ _) as [inputs| | | |] eqn:Ei.
  2-5: split; [intro H; destruct (H eq_refl)|intros _; discriminate].
  destruct (new_header_sink (a_output a) _) as [k| | | |] eqn:Ek.
  2-5: split; [intro H; destruct (H eq_refl)|intros _; discriminate].
  assert (Kp : kind_path k = a_output a).
  { unfold new_header_sink in Ek. destruct (a_output a) as [p|]; [|injection Ek as <-; reflexivity].
    destruct (ends_with _ p); [injection Ek as <-; reflexivity|]. destruct (ends_with _ p); [injection Ek as <-; reflexivity|discriminate]. }
  rewrite Kp. destruct (match a_output a with Some p => create p | None => Ok tt end) as [u| | | |] eqn:Ec.
  2-5: split; [intro H; destruct (H eq_refl)|intros _; discriminate].
  destruct (chop F inputs _ _) as [st r]. cbn [o_written]. split; [|discriminate].
  intros _. exists o, inputs. split; [reflexivity|]. split; [now apply open_inputs_ok|].
  intros p Hp. rewrite Hp in Ec. destruct u. exact Ec.
Qed.

(** A missing input in particular. *)
Theorem C68_missing_input : forall F w a opts path fmt,
  args_of w a = Ok opts -> In {| in_type := Path path; in_format := fmt |} (op_inputs ch opts) ->
  w_exists w path = false -> w_is_dir w path = false -> http_can_open path = false ->
  (forall us u, transports = Some us -> In u us -> t_can_open u path = false) ->
  o_written (cli F w a) = None /\ exit_code (cli F w a) <> 0%N.
Proof.
  intros F w a opts path fmt Ea Hin Hex Hd Hh Hu.
  assert (E : forall s, ~ opens w opts {| in_type := Path path; in_format := fmt |} s).
  { intros s H. unfold opens, create_source_from_input in H. cbn [in_type in_format dir_file_transport dt_can_handle] in H.
    rewrite Hd in H. unfold create_source_from_path, open_zip in H. rewrite Hex in H. cbn [bind] in H.
    unfold create_previewer in H.
    assert (X : open_matching (streaming_transports transports (file_transport w) (http_transport w)) path None = Ok None).
    { assert (Y : open_matching [file_transport w; http_transport w] path None = Ok None).
      { cbn [open_matching file_transport http_transport t_can_open]. rewrite Hex, Hh. reflexivity. }
      unfold streaming_transports. destruct transports as [us|]; [|exact Y].
      specialize (Hu us). clear - Hu Y. induction us as [|u us IH]; [exact Y|]. cbn [app open_matching].
      rewrite (Hu u eq_refl (or_introl eq_refl)). apply IH. intros u' _ I. apply Hu; [reflexivity|now right]. }
    rewrite X in H. discriminate. }
  destruct (C68_output_untouched F w a) as [A B].
  assert (N : o_written (cli F w a) = None).
  { destruct (o_written (cli F w a)) eqn:Ew; [|reflexivity]. exfalso.
    destruct A as (opts' & inputs & E1 & E2 & _); [discriminate|]. rewrite Ea in E1. injection E1 as <-.
    clear - E E2 Hin. induction E2 as [|i s l ss H E2 IH]; [destruct Hin|].
    destruct Hin as [->|Hin]; [exact (E _ H)|exact (IH Hin)]. }
  split; [exact N|exact (B N)].
Qed.

(** ** C69: but it is truncated before the headers are compared *)
Theorem C69_truncated_refuted : forall F w a opts inputs i j,
  args_of w a = Ok opts -> Forall2 (opens w opts) (op_inputs ch opts) inputs ->
  In i inputs -> In j inputs -> fst i <> fst j ->
  (a_output a = None \/ exists p, a_output a = Some p /\ create p = Ok tt /\ ((exists q, p = q ++ b "csv") \/ exists q, p = q ++ b "dc")) ->
  o_written (cli F w a) = Some [] /\ exit_code (cli F w a) = 1%N.
Proof.
  intros F w a opts inputs i j Ea Ei Hi Hj Hd Ho. unfold chopper_cli. rewrite Ea. unfold run_chop.
  apply open_inputs_ok in Ei. rewrite Ei.
  assert (K : exists k, new_header_sink (a_output a) (Some (op_csv_out ch opts)) = Ok k /\
              match kind_path k with Some p => create p | None => Ok tt end = Ok tt).
  { destruct Ho as [->|(p & -> & Hc & Hk)]; [eexists; split; reflexivity|].
    destruct (C63_output_kind (Some (op_csv_out ch opts)) p) as (A & B & _). destruct Hk as [Hk|Hk].
    - rewrite (proj1 A Hk). eexists. split; [reflexivity|exact Hc].
    - rewrite (proj1 B Hk). eexists. split; [reflexivity|exact Hc]. }
  destruct K as (k & -> & Hc). rewrite Hc. rewrite (chop_mismatch _ _ _ _ i j Hi Hj Hd).
  assert (O : output_header inputs = None).
  { unfold output_header. destruct inputs as [|i0 t]; [destruct Hi|]. cbn [map]. destruct (forallb _ _) eqn:E; [|reflexivity].
    exfalso. rewrite forallb_forall in E. apply Hd.
    assert (X : forall q, In q (i0 :: t) -> fst q = fst i0).
    { intros q [<-|Hq]; [reflexivity|]. apply header_eqb_eq, E. now apply in_map. }
    rewrite (X i Hi), (X j Hj). reflexivity. }
  rewrite O. split; reflexivity.
Qed.

(** Exactly: it is left alone only if there is a name that is of no known kind or at which nothing can be created. *)
Theorem C69_left_alone_partial : forall F w a opts inputs i j,
  args_of w a = Ok opts -> Forall2 (opens w opts) (op_inputs ch opts) inputs ->
  In i inputs -> In j inputs -> fst i <> fst j ->
  (o_written (cli F w a) = None <->
   exists p, a_output a = Some p /\ (create p <> Ok tt \/ (forall q, p <> q ++ b "csv") /\ forall q, p <> q ++ b "dc")).
Proof.
  intros F w a opts inputs i j Ea Ei Hi Hj Hd. split.
  - intro N. destruct (a_output a) as [p|] eqn:Eo.
    + exists p. split; [reflexivity|]. destruct (create p) as [[]| | | |] eqn:Ec; try (left; discriminate). right.
      assert (X : forall k q, (k = b "csv" \/ k = b "dc") -> p <> q ++ k).
      { intros k q Hk E. assert (Y : o_written (cli F w a) = Some []).
        { eapply (C69_truncated_refuted F w a opts inputs i j Ea Ei Hi Hj Hd). right. exists p. rewrite Eo. split; [reflexivity|]. split; [exact Ec|].
          destruct Hk as [E0 | E0]; rewrite E0 in E; eauto. }
        rewrite N in Y. discriminate. }
      split; intro q; apply X; auto.
    + destruct (C69_truncated_refuted F w a opts inputs i j Ea Ei Hi Hj Hd (or_introl Eo)) as [X _]. rewrite N in X. discriminate.
  - intros (p & Eo & H). destruct (o_written (cli F w a)) eqn:Ew; [exfalso|reflexivity].
    assert (Hc : create p = Ok tt).
    { destruct (C68_output_untouched F w a) as [A _]. cbn zeta in A. rewrite Ew in A. destruct A as (o & ins & _ & _ & A); [discriminate|]. now apply A. }
    destruct H as [H|[H1 H2]]; [now apply H|].
    apply open_inputs_ok in Ei. unfold chopper_cli in Ew. rewrite Ea in Ew. unfold run_chop in Ew. rewrite Ei, Eo in Ew.
    destruct (C63_output_kind (Some (op_csv_out ch opts)) p) as (_ & _ & C).
    destruct (new_header_sink (Some p) (Some (op_csv_out ch opts))) as [k| | | |] eqn:Ek; try discriminate Ew.
    unfold new_header_sink in Ek. destruct (ends_with (b "csv") p) eqn:E1.
    + apply ends_with_spec in E1 as [q ->]. now apply (H1 q).
    + destruct (ends_with (b "dc") p) eqn:E2; [apply ends_with_spec in E2 as [q ->]; now apply (H2 q)|discriminate].
Qed.

(** ** C74: how the data arrives in pieces does not matter *)
Theorem C74_chunking : forall F w v a,
  steady_decoders ds -> steady_inflater inflate -> steady_inflater bunzip ->
  match transports with Some l => Forall steady_transport l | None => True end ->
  match factories with Some l => Forall steady_factory l | None => True end ->
  same_world w v -> cli F w a = cli F v a.
Proof.
  intros F w v a Hd Hi Hb Ht Hf Hw. unfold chopper_cli.
  assert (E : parse_args prof ch zones parse_zone w a = parse_args prof ch zones parse_zone v a).
  { unfold parse_args. destruct Hw as (_ & _ & _ & _ & _ & _ & ->). reflexivity. }
  rewrite E. destruct (parse_args _ _ _ _ v a) as [o| | | |]; try reflexivity.
  unfold run_chop. rewrite (inputs_same ds inflate bunzip w v transports _ Hd Hi Hb (all_factories_steady _ _ _ _ _ _ _ Hf) Ht Hw).
  reflexivity.
Qed.

(** ** C78: exit code 0 means the output is complete *)
Lemma chop_ok_headers F inputs out rng st : inputs <> [] -> chop F inputs out rng = (st, Ok tt) ->
  exists h h' k, (forall i, In i inputs -> fst i = h) /\ out h = Ok (h', k).
Proof.
  intros Hne H. destruct inputs as [|i0 t]; [congruence|].
  assert (X : forall i, In i (i0 :: t) -> fst i = fst i0).
  { intros i Hi. destruct (header_eqb (fst i) (fst i0)) eqn:E; [now apply header_eqb_eq|]. exfalso.
    assert (D : fst i <> fst i0) by (intro Q; apply header_eqb_eq in Q; congruence).
    rewrite (chop_mismatch F _ out rng i i0 Hi (or_introl eq_refl) D) in H. discriminate. }
  exists (fst i0). destruct (out (fst i0)) as [[h' k]|e| | |] eqn:Eo; [exists h', k; auto|exfalso..].
  all: pose proof (cli_new (length (i0 :: t)) out (fst i0) (map fst t)) as N;
    replace (forallb (fun x => header_eqb x (fst i0)) (map fst t)) with true in N
      by (symmetry; apply forallb_forall; intros x Hx; apply in_map_iff in Hx as (q & <- & Hq); apply header_eqb_eq, X; now right);
    rewrite Eo in N; cbn [bind] in N; specialize (N ltac:(cbn [length]; now rewrite map_length));
    unfold chop in H; destruct (cli_graph _ out) as [hg|e'| | |] eqn:Eg; cbn [bind] in N, H; try discriminate;
    unfold run_driver in H; cbn [map length] in *; rewrite map_length in *; rewrite N in H; discriminate.
Qed.
Lemma output_header_same inputs h : inputs <> [] -> (forall i, In i inputs -> fst i = h) -> output_header inputs = Some h.
Proof.
  intros Hne X. destruct inputs as [|i0 t]; [congruence|]. unfold output_header. cbn [map].
  rewrite (X i0 (or_introl eq_refl)). replace (forallb (fun x => header_eqb x h) (map fst t)) with true; [reflexivity|].
  symmetry. apply forallb_forall. intros x Hx. apply in_map_iff in Hx as (q & <- & Hq). apply header_eqb_eq, X. now right.
Qed.

Theorem C78_exit_0_complete : forall F w a,
  exit_code (cli F w a) = 0%N ->
  exists opts inputs kind h calls,
    args_of w a = Ok opts /\ Forall2 (opens w opts) (op_inputs ch opts) inputs /\
    new_header_sink (a_output a) (Some (op_csv_out ch opts)) = Ok kind /\
    (forall i, In i inputs -> fst i = h) /\
    (* the output holds the header and all rows in range, in time order, and was flushed *)
    run_ok (cli F w a) (bytes_of kind h calls) /\
    Permutation (ev_rows calls) (concat (map (selected (op_range ch opts)) (map snd inputs))) /\
    ((forall i, In i inputs -> time_ordered (rows_before_failure (snd i))) -> time_ordered (ev_rows calls)) /\
    (exists pre, calls = pre ++ [EvFlush]) /\
    (* and nothing went unread *)
    (forall i, In i inputs -> readable (op_range ch opts) (snd i)).
Proof.
  intros F w a H. unfold exit_code, chopper_cli in *.
  destruct (parse_args _ _ _ _ w a) as [o| | | |] eqn:Ea; try discriminate.
  unfold run_chop in *. destruct (open_inputs _ _ _ w _ _ _) as [inputs| | | |] eqn:Ei; try discriminate.
  destruct (new_header_sink (a_output a) _) as [k| | | |] eqn:Ek; try discriminate.
  destruct (match kind_path k with Some p => create p | None => Ok tt end) as [u| | | |] eqn:Ec; try discriminate.
  destruct (chop F inputs _ _) as [st r] eqn:Ech. cbn [o_result] in H. destruct r as [[]| | | |]; try discriminate. clear H.
  assert (Hne : inputs <> []).
  { apply open_inputs_ok in Ei. intros ->. apply Forall2_len in Ei. cbn in Ei.
    unfold parse_args in Ea. destruct (resolve_timezone _ _ _ _); try discriminate. cbn [bind] in Ea.
    destruct (timestamp_range _ _ _ _ _); try discriminate. cbn [bind] in Ea.
    destruct (cli_inputs _ _) as [ins| | | |] eqn:Eins; try discriminate. cbn [bind] in Ea.
    destruct (csv_input_options a _); try discriminate. cbn [bind] in Ea.
    destruct (csv_output_options a _); try discriminate. injection Ea as <-. cbn [op_inputs] in Ei.
    unfold cli_inputs in Eins. destruct (rev _); [discriminate|].
    destruct (match a_inputs a with Some _ => _ | None => _ end); [discriminate|]. injection Eins as <-. discriminate. }
  destruct (chop_ok_headers _ _ _ _ _ Hne Ech) as (h & h' & sk & Hh & Ho).
  destruct (chop_ok _ _ _ _ _ _ _ _ Hne Hh Ho Ech) as (_ & P & So & Fl).
  exists o, inputs, k, h, (events_at (r_log st) (out_chain (length inputs)) (out_node (length inputs))).
  split; [reflexivity|]. split; [now apply open_inputs_ok|]. split; [exact Ek|]. split; [exact Hh|].
  rewrite (output_header_same _ _ Hne Hh). split; [reflexivity|]. split; [exact P|]. split; [exact So|]. split; [exact Fl|].
  intros i Hi. rewrite (chop_drive _ _ _ _ _ _ _ Hne Hh Ho) in Ech.
  apply (drive_ok_readable _ _ _ _ _ Ech). now apply in_map.
Qed.

(** ** C73: when it succeeds *)
Theorem C73_success : forall F w a opts inputs kind h h' k,
  3 <= F -> args_of w a = Ok opts -> Forall2 (opens w opts) (op_inputs ch opts) inputs ->
  new_header_sink (a_output a) (Some (op_csv_out ch opts)) = Ok kind ->
  (forall p, a_output a = Some p -> create p = Ok tt) ->
  inputs <> [] -> (forall i, In i inputs -> fst i = h) -> sink kind h = Ok (h', k) ->
  (* the output can represent the rows in range *)
  (forall i past r, In i inputs -> In r (selected (op_range ch opts) (snd i)) -> exists rows, sk_write k past r = Ok rows) ->
  (* and every input is readable and has one (C06) *)
  (forall i, In i inputs -> readable (op_range ch opts) (snd i) /\ selected (op_range ch opts) (snd i) <> []) ->
  exit_code (cli F w a) = 0%N.
Proof.
  intros F w a opts inputs kind h h' k HF Ea Ei Ek Hc Hne Hh Ho Hw Hr.
  unfold exit_code, chopper_cli. rewrite Ea. unfold run_chop.
  apply open_inputs_ok in Ei. rewrite Ei, Ek.
  assert (Kp : match kind_path kind with Some p => create p | None => Ok tt end = Ok tt).
  { unfold new_header_sink in Ek. destruct (a_output a) as [p|]; [|injection Ek as <-; reflexivity].
    destruct (ends_with _ p); [injection Ek as <-; apply Hc; reflexivity|].
    destruct (ends_with _ p); [injection Ek as <-; apply Hc; reflexivity|discriminate]. }
  rewrite Kp.
  assert (S : snd (chop F inputs (kind_sink f64 f32 kind) (op_range ch opts)) = Ok tt).
  { eapply chop_success; eauto. intro past. destruct kind; cbn [kind_sink] in Ho.
    - injection Ho as <- <-. reflexivity.
    - unfold kind_sink, dc_header_sink in Ho. destruct (snd (dc_process_header h)); try discriminate.
      cbn [bind] in Ho. injection Ho as <- <-. reflexivity. }
  destruct (chop F inputs _ _) as [st r]. cbn [snd] in S. subst r. reflexivity.
Qed.
End Whole.
Print Assumptions C68_output_untouched.
Print Assumptions C68_missing_input.
Print Assumptions C69_truncated_refuted.
Print Assumptions C69_left_alone_partial.
Print Assumptions C73_success.
Print Assumptions C74_chunking.
Print Assumptions C78_exit_0_complete.

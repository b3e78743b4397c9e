(** Property theorems about inputs from the web (C130). *)
From Verif Require Export HttpModel T_Whole T_Builtin PackSpec.
From Verif Require Import T_Options T_Whole2 T_Input T_WholeAny.
Local Open Scope nat_scope.

(** A URL, not a local file, that is answered with success and these bytes. *)
Definition served (w : world) (get : bytes -> response) (u : bytes) (body : inner) : Prop :=
  url u /\ utf8 u = true /\ w_exists w u = false /\ w_is_dir w u = false /\
  (200 <= rs_status (get u) <= 299)%N /\ rs_body (get u) = body.
(** A URL that is not: any other status. *)
Definition not_served (w : world) (get : bytes -> response) (u : bytes) : Prop :=
  url u /\ utf8 u = true /\ w_exists w u = false /\ w_is_dir w u = false /\ ~ (200 <= rs_status (get u) <= 299)%N.
(** The URL [u] gives the bytes of the local file [p], under the same name; it is no zip archive. *)
Definition downloaded (w : world) (get : bytes -> response) (u p : bytes) : Prop :=
  exists f name, served w get u (f_reads f) /\ local_file w p f /\ f_seekable f = true /\
    ~ looks_like_zip (i_data (f_reads f)) /\ named u name /\ named p name /\ utf8 name = true.

Lemma ok_status r : response_ok r = true <-> (200 <= rs_status r <= 299)%N.
Proof. unfold response_ok. rewrite Bool.andb_true_iff, !N.leb_le. tauto. Qed.

Lemma url_opens {S} ds inflate bunzip w get (sfs : list (factory S)) fmt u body name : served w get u body -> named u name -> utf8 name = true ->
  create_source_from_path ds inflate bunzip (online w get) None sfs fmt u =
  (let* p := previewer_new body in let* s := create_source_from_previewer ds sfs p (Some name) fmt in Ok (Some s)).
Proof.
  intros (U & U8 & Nx & Nd & St & Eb) Hn Hu. unfold create_source_from_path, open_zip. cbn [w_exists online]. rewrite Nx. cbn [bind].
  destruct (C56_builtin_transports (online w get) u) as (_ & H & _). cbn zeta in H. rewrite (H Nx U). cbn [w_http online].
  unfold http_open. rewrite U8. apply ok_status in St. cbn zeta. rewrite St, Eb. cbn [bind].
  destruct (previewer_new body) as [p| | | |]; cbn [bind]; try reflexivity.
  unfold get_file_name. rewrite (named_file_name _ _ Hn), Hu. reflexivity.
Qed.

Section Http.
Context (prof : profile) (ch : chrono) (lower : bytes -> bytes) (f64_ok : text -> bool).
Variables (ds : decoders) (inflate bunzip : inner -> inner) (f64 f32 : N -> bytes).
Variables (zones : option (bytes -> option (zone ch))) (parse_zone : bytes -> option (zone ch)).
Variable create : bytes -> res unit.
Local Notation cli := (chopper_cli prof ch lower f64_ok csv_records ds inflate bunzip f64 f32 None None zones parse_zone create).

(** ** C130: a URL is the file behind it *)
Theorem C130_like_the_file_partial : forall F w get a ins ins',
  Forall2 (fun x y => x = y \/ downloaded w get x y) ins ins' ->
  cli F (online w get) (with_inputs a ins) = cli F (online w get) (with_inputs a ins').
Proof.
  intros F w get a ins ins' H.
  assert (One : forall sfs fmt x y, x = y \/ downloaded w get x y ->
    create_source_from_input ds inflate bunzip (online w get) None sfs {| in_type := Path x; in_format := fmt |} =
    create_source_from_input ds inflate bunzip (online w get) None sfs {| in_type := Path y; in_format := fmt |}).
  { intros sfs fmt x y [->|(f & name & Sv & Lf & Sk & Nz & Nu & Np & U8)]; [reflexivity|].
    unfold create_source_from_input. cbn [in_type in_format dt_can_handle dir_file_transport online w_is_dir].
    pose proof Sv as (_ & _ & _ & Nd & _). pose proof Lf as (_ & Nd' & _). rewrite Nd, Nd'.
    rewrite (url_opens ds inflate bunzip w get sfs fmt x (f_reads f) name Sv Nu U8).
    rewrite (open_plain ds inflate bunzip (online w get) sfs fmt y f name Lf Sk Nz Np U8). reflexivity. }
  assert (Many : forall sfs fs ls k ps ps', Forall2 (fun x y => x = y \/ downloaded w get x y) ps ps' ->
    let mk := map (fun '(i, s) => {| in_type := Path s; in_format := if i <? length fs then nth i fs ls else ls |}) in
    open_inputs ds inflate bunzip (online w get) None sfs (mk (enum_from k ps)) =
    open_inputs ds inflate bunzip (online w get) None sfs (mk (enum_from k ps'))).
  { intros sfs fs ls k ps ps' P mk. revert k. induction P as [|x y ps ps' A P IH]; intro k; [reflexivity|].
    cbn [enum_from mk map open_inputs]. rewrite (One sfs _ x y A). unfold mk in IH. rewrite IH. reflexivity. }
  unfold chopper_cli, parse_args. cbn [with_inputs a_timezone a_begin a_end a_formats a_inputs w_env_tz online].
  destruct (resolve_timezone _ _ _ _) as [z| | | |]; cbn [bind]; try reflexivity.
  destruct (timestamp_range _ _ _ _ _) as [rng| | | |]; cbn [bind]; try reflexivity.
  change (csv_input_options (with_inputs a ins) z) with (csv_input_options (with_inputs a ins') z).
  change (csv_output_options (with_inputs a ins) z) with (csv_output_options (with_inputs a ins') z).
  unfold cli_inputs. cbn zeta. set (fs := input_formats (a_formats a)).
  destruct (rev fs) as [|lf rf]; [reflexivity|].
  destruct H as [|x y ins ins' A H]; [reflexivity|]. cbn [enum_from map bind].
  destruct (csv_input_options _ z) as [ci| | | |]; cbn [bind]; try reflexivity.
  destruct (csv_output_options _ z) as [co| | | |]; cbn [bind]; try reflexivity.
  unfold run_chop. cbn [op_inputs op_csv_in op_csv_out op_range with_inputs a_output].
  pose proof (Many (all_factories prof ch lower f64_ok csv_records None ci) fs lf 0 (x :: ins) (y :: ins') (Forall2_cons _ _ A H)) as M.
  cbn [enum_from map] in M. cbn zeta in M. rewrite M. reflexivity.
Qed.

(** An answer that is not a success is an error, and nothing is written. *)
Theorem C130_error : forall F w get a opts u fmt,
  parse_args prof ch zones parse_zone (online w get) a = Ok opts ->
  In {| in_type := Path u; in_format := fmt |} (op_inputs ch opts) -> not_served w get u ->
  o_written (cli F (online w get) a) = None /\ exit_code (cli F (online w get) a) <> 0%N.
Proof.
  intros F w get a opts u fmt Ea Hin (U & U8 & Nx & Nd & St).
  assert (E : forall sfs, exists x, create_source_from_input ds inflate bunzip (online w get) None sfs {| in_type := Path u; in_format := fmt |} = x /\ is_ok x = false).
  { intro sfs. unfold create_source_from_input. cbn [in_type in_format dt_can_handle dir_file_transport online w_is_dir]. rewrite Nd.
    unfold create_source_from_path, open_zip. cbn [w_exists online]. rewrite Nx. cbn [bind].
    destruct (C56_builtin_transports (online w get) u) as (_ & H & _). cbn zeta in H. rewrite (H Nx U). cbn [w_http online].
    unfold http_open. rewrite U8. cbn zeta.
    destruct (response_ok (get u)) eqn:Eo; [apply ok_status in Eo; contradiction|]. destruct (rs_text (get u)); eexists; split; reflexivity. }
  destruct (C68_output_untouched prof ch lower f64_ok csv_records ds inflate bunzip f64 f32 None None zones parse_zone create F (online w get) a) as [A B].
  cbn zeta in A, B.
  assert (N : o_written (cli F (online w get) a) = None).
  { destruct (o_written (cli F (online w get) a)) eqn:Ew; [|reflexivity]. exfalso.
    destruct A as (opts' & inputs & E1 & E2 & _); [discriminate|]. rewrite Ea in E1. injection E1 as <-.
    clear - E E2 Hin. induction E2 as [|i s l ss H E2 IH]; [destruct Hin|]. destruct Hin as [->|Hin]; [|auto].
    destruct (E (all_factories prof ch lower f64_ok csv_records None (op_csv_in ch opts))) as (x & Ex & Nx). 
    unfold opens in H. rewrite H in Ex. subst x. discriminate. }
  split; [exact N|]. apply B, N.
Qed.

(** A zip archive is accepted as a file, but never from the web if its name says what it is. *)
Theorem C130_zip_refuted : forall F w get a opts u body core,
  parse_args prof ch zones parse_zone (online w get) a = Ok opts ->
  In {| in_type := Path u; in_format := InputModel.Auto |} (op_inputs ch opts) ->
  served w get u body -> named u (core ++ b ".zip") -> utf8 (core ++ b ".zip") = true ->
  o_written (cli F (online w get) a) = None /\ exit_code (cli F (online w get) a) <> 0%N.
Proof.
  intros F w get a opts u body core Ea Hin Sv Nm U8.
  assert (E : forall sfs s, create_source_from_input ds inflate bunzip (online w get) None sfs {| in_type := Path u; in_format := InputModel.Auto |} <> Ok s).
  { intros sfs s. unfold create_source_from_input. cbn [in_type in_format dt_can_handle dir_file_transport online w_is_dir].
    pose proof Sv as (_ & _ & _ & Nd & _). rewrite Nd.
    rewrite (url_opens ds inflate bunzip w get sfs InputModel.Auto u body _ Sv Nm U8).
    destruct (previewer_new body) as [p| | | |]; cbn [bind]; try discriminate.
    unfold create_source_from_previewer, decompress_using_format.
    pose proof (T_WholeAny.packed_name core ZIP) as Pn. change (ext_of ZIP) with (b ".zip") in Pn. rewrite Pn. cbn [bind decompress_preview]. discriminate. }
  destruct (C68_output_untouched prof ch lower f64_ok csv_records ds inflate bunzip f64 f32 None None zones parse_zone create F (online w get) a) as [A B].
  cbn zeta in A, B.
  assert (N : o_written (cli F (online w get) a) = None).
  { destruct (o_written (cli F (online w get) a)) eqn:Ew; [|reflexivity]. exfalso.
    destruct A as (opts' & inputs & E1 & E2 & _); [discriminate|]. rewrite Ea in E1. injection E1 as <-.
    clear - E E2 Hin. induction E2 as [|i s l ss H E2 IH]; [destruct Hin|]. destruct Hin as [->|Hin]; [|auto]. now apply E in H. }
  split; [exact N|]. apply B, N.
Qed.
End Http.
Print Assumptions C130_like_the_file_partial.
Print Assumptions C130_error.
Print Assumptions C130_zip_refuted.

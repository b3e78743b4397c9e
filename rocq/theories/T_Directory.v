(** Property theorems about directories given as inputs: C76. *)
From Verif Require Export MultiProofs2 T_Multi T_WholeEx.

Definition size_of (f : res (option (header * source))) : nat := match f with Ok (Some (_, s)) => length s | _ => 0 end.
Lemma serial_size common files out : serial common files out -> length out <= list_sum (map size_of files) + length files.
Proof.
  induction 1 as [|h rows rows' pick files out _ F _ IH|h rows rows' e rest pick files _ F _|h s e files _|e files|r files _];
    cbn [map list_sum size_of length]; rewrite ?app_length, ?map_length; cbn [length]; try lia.
  - change (list_sum (length rows :: map size_of files)) with (length rows + list_sum (map size_of files)).
    apply Forall2_len in F. lia.
  - change (list_sum ((length rows + S (length rest)) :: map size_of files)) with ((length rows + S (length rest)) + list_sum (map size_of files)).
    apply Forall2_len in F. lia.
Qed.

(** A directory's files: its entries that are not directories, in ascending path order. *)
Definition files_of (w : world) (entries files : list bytes) : Prop :=
  Permutation (filter (fun e => negb (w_is_dir w e)) entries) files /\ StronglySorted path_le files.

Section Dir.
Context (ds : decoders) (inflate bunzip : inner -> inner).
Variables (w : world) (user : option (list transport)) (sfs : list (factory (header * source))).
Variable fmt : input_format.
Local Notation open := (create_source_from_path ds inflate bunzip w user sfs fmt).
Local Notation source_of p := (create_source_from_input ds inflate bunzip w user sfs {| in_type := Path p; in_format := fmt |}).

(** A directory is read as its files one after the other, under the first one's header.  If
    it has none, it is an input without columns and rows. *)
Lemma C76_proof dir entries :
  w_is_dir w dir = true -> w_read_dir w dir = Ok entries ->
  Forall (fun p => source_wf (open p)) entries ->
  exists files, files_of w entries files /\
    match files with
    | [] => source_of dir = Ok ({| h_names := []; h_types := [] |}, [])
    | p :: _ =>
        match open p with
        | Ok (Some (h, _)) => exists out, source_of dir = Ok (h, out) /\ serial h (map open files) out
        | Ok None => exists e, source_of dir = Err e
        | e => source_of dir = fail_as e
        end
    end.
Proof.
  intros Hd Hr Wf.
  destruct (C34_directory open (dir_file_transport w) dir entries Hd Hr Wf) as (files & P & So & E & St).
  exists files. split; [split; assumption|].
  unfold create_source_from_input. cbn [in_type in_format]. 
  change (dt_can_handle (dir_file_transport w) dir) with (w_is_dir w dir). rewrite Hd.
  destruct files as [|p ps].
  - rewrite E. reflexivity.
  - destruct (open p) as [[[h s]|]| | | |] eqn:Ep.
    2-6: rewrite E; unfold multi_new, create_source; rewrite Ep; cbn [bind fail_as]; eauto.
    assert (Es : dir_source open (dir_file_transport w) dir =
                 Ok {| m_paths := ps; m_common := h; m_map := []; m_cur := Some s |}).
    { rewrite E. unfold multi_new, create_source. rewrite Ep. reflexivity. }
    destruct (St _ Es) as (_ & out & Sr & Dr). cbn [m_common] in Sr. exists out. rewrite Es. cbn [bind]. split; [|exact Sr].
    unfold multi_source. cbn [m_common]. rewrite Dr. do 2 f_equal. apply firstn_all2.
    pose proof (serial_size _ _ _ Sr) as L. cbn [map length] in L. rewrite Ep in L. unfold multi_bound. cbn [m_cur m_paths].
    change (list_sum (size_of (Ok (Some (h, s))) :: map size_of (map open ps))) with (length s + list_sum (map size_of (map open ps))) in L.
    rewrite map_map in L. rewrite map_length in L. unfold size_of in L. lia.
Qed.
Theorem C76_directory : forall dir entries,
  w_is_dir w dir = true -> w_read_dir w dir = Ok entries ->
  Forall (fun p => source_wf (open p)) entries ->
  exists files, files_of w entries files /\
    match files with
    | [] => source_of dir = Ok ({| h_names := []; h_types := [] |}, [])
    | p :: _ =>
        match open p with
        | Ok (Some (h, _)) => exists out, source_of dir = Ok (h, out) /\ serial h (map open files) out
        | Ok None => exists e, source_of dir = Err e
        | e => source_of dir = fail_as e
        end
    end.
Proof. exact C76_proof. Qed.

(** Files with the same columns: all their rows, file by file. *)
Lemma concat_len {A} (ls : list (list A)) : length (concat ls) = list_sum (map (@length A) ls).
Proof. induction ls as [|l ls IH]; [reflexivity|]. cbn. now rewrite app_length, IH. Qed.
Lemma file_out_rows rows rest : file_out [] (map Ok rows) rest = map Ok rows ++ rest.
Proof. induction rows as [|r rows IH]; [reflexivity|]. cbn [map file_out realign app]. now rewrite IH. Qed.
Lemma files_out_rows h ps rowss : header_wf h -> Forall2 (fun p rs => open p = Ok (Some (h, map Ok rs))) ps rowss ->
  files_out open h ps = map Ok (concat rowss).
Proof.
  intros W. induction 1 as [|p rs ps rowss E H IH]; [reflexivity|]. cbn [files_out create_source]. unfold create_source. rewrite E. cbn [bind].
  rewrite check_headers_extends by first [exact W|split; [apply firstn_all|rewrite <- W; apply firstn_all]].
  rewrite IH, file_out_rows. cbn [concat]. now rewrite map_app.
Qed.
Theorem C76_same_columns : forall dir entries h (rows_in : bytes -> list row),
  w_is_dir w dir = true -> w_read_dir w dir = Ok entries -> header_wf h ->
  (forall p, In p entries -> w_is_dir w p = false ->
     open p = Ok (Some (h, map Ok (rows_in p)))) ->
  (exists p, In p entries /\ w_is_dir w p = false) ->
  exists files, files_of w entries files /\ source_of dir = Ok (h, map Ok (concat (map rows_in files))).
Proof.
  intros dir entries h rows_in Hd Hr W Ho (p0 & I0 & D0).
  assert (Op : forall files, Permutation (filter (fun e => negb (w_is_dir w e)) entries) files ->
             Forall (fun p => open p = Ok (Some (h, map Ok (rows_in p)))) files).
  { intros files P. apply Forall_forall. intros p Hp. apply Permutation_sym in P.
    apply (Permutation_in _ P), filter_In in Hp as [I D]. apply Ho; [exact I|]. now destruct (w_is_dir w p). }
  unfold create_source_from_input. cbn [in_type in_format].
  change (dt_can_handle (dir_file_transport w) dir) with (w_is_dir w dir). rewrite Hd.
  destruct (files_in_dir_spec (dir_file_transport w) dir entries Hd Hr) as (fr & E & P & So).
  exists (provider_paths fr). split; [split; assumption|].
  pose proof (Op _ P) as F. unfold dir_source. rewrite E. cbn [bind].
  destruct (provider_paths fr) as [|p ps] eqn:Ef.
  { exfalso. apply Permutation_sym, Permutation_nil in P.
    assert (X : In p0 (filter (fun e => negb (w_is_dir w e)) entries)) by (apply filter_In; rewrite D0; auto).
    unfold dir_file_transport in P. cbn [dt_is_dir] in P. rewrite P in X. destruct X. }
  inversion F as [|? ? Fp Fs]; subst. unfold multi_new, create_source. rewrite Fp. cbn [bind].
  unfold multi_source. cbn [m_common]. rewrite (drain_out open h) by reflexivity.
  unfold state_out. cbn [m_cur m_map m_paths].
  rewrite (files_out_rows h ps (map rows_in ps) W) by (clear - Fs; induction Fs; constructor; auto).
  rewrite file_out_rows, <- map_app. cbn [map concat]. do 2 f_equal. apply firstn_all2.
  unfold multi_bound. cbn [m_cur m_paths]. rewrite !map_length, app_length, concat_len, map_map.
  replace (map (fun p1 => match open p1 with Ok (Some (_, s)) => length s | _ => 0 end) ps)
    with (map (fun x => length (rows_in x)) ps); [lia|].
  clear - Fs. induction Fs as [|q qs Eq _ IH]; [reflexivity|]. cbn [map]. rewrite Eq, map_length, IH. reflexivity.
Qed.
End Dir.
Print Assumptions C76_directory.
Print Assumptions C76_same_columns.

(** A directory with two DC files and a directory in it, listed in no particular order. *)
Definition dir_world : world :=
  let open p := if bytes_eqb p (b "d/a.dc") then demo_open [] (b "a.dc") else demo_open [] p in
  {| w_exists := fun p => is_ok (open p) || bytes_eqb p (b "d") || bytes_eqb p (b "d/aa");
     w_is_dir := fun p => bytes_eqb p (b "d") || bytes_eqb p (b "d/aa");
     w_read_dir := fun p => Ok [b "d/b.dc"; b "d/aa"; b "d/a.dc"];
     w_open := open; w_http := fun _ => Err (EIo (OtherIo 2)); w_stdin := reads_as [] []; w_env_tz := None |}.
Example C76_demo :
  let open := create_source_from_path no_decoders (fun i => i) (fun i => i) dir_world None
    (all_factories Debug counting (fun s => s) (fun _ => false) csv_records None
      {| ci_delimiter := None; ci_has_header := CsvModel.Auto; ci_col := CfgAuto; ci_fmt := FmtAuto; ci_tz := None |})
    InputModel.Auto in
  w_is_dir dir_world (b "d") = true /\ files_of dir_world [b "d/b.dc"; b "d/aa"; b "d/a.dc"] [b "d/a.dc"; b "d/b.dc"] /\
  open (b "d/a.dc") = Ok (Some (demo_header, map Ok demo_a)) /\ open (b "d/b.dc") = Ok (Some (demo_header, map Ok demo_b)).
Proof.
  cbv zeta. split; [reflexivity|]. split.
  - split; [apply perm_swap|]. constructor; [constructor; [constructor|constructor]|constructor; [discriminate|constructor]].
  - split; vm_compute; reflexivity.
Qed.

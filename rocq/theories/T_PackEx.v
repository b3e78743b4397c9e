(** A concrete case of C106: x.csv as it is, and compressed inside a zip archive, with a toy decoder
    that drops the first byte. *)
From Verif Require Export T_Pack T_WholeEx.
Local Open Scope nat_scope.

Definition packed_csv : bytes := b "G" ++ demo_csv.
Definition packed_zip : archive := {|
  z_before := []; z_fixed := z_fixed sample; z_local_name := b "x"; z_local_extra := b "??";
  z_payload := packed_csv; z_between := [];
  z_made := 798; z_needed := 20; z_flags := 0; z_method := 0; z_time := 1; z_date := 2;
  z_crc := crc32 packed_csv; z_uncompressed := len packed_csv; z_fields := (len packed_csv, len packed_csv, 0);
  z_name := b "x.csv.gz"; z_extra := []; z_comment := [];
  z_disk_start := 0; z_internal := 0; z_external := 3; z_disk := 0; z_cd_disk := 0; z_here := 1; z_total := 1;
  z_end_comment := b "bye"; z_end64 := None |}%N.
Definition toy : decoders :=
  let d (r : breader) := Ok {| i_data := tl (s_data (as_stream r)); i_tail := s_tail (as_stream r); i_plan := [Chunk 5] |} in
  {| d_gz := d; d_lz4_frame := d; d_lz4_jblock := d; d_lzf := d; d_zst := d |}.
Definition pack_open (p : bytes) : res handle :=
  let f bs := {| f_reads := reads_as [Chunk 2; Chunk 7] bs; f_seekable := true |} in
  if bytes_eqb p (b "x.csv") then Ok (f demo_csv)
  else if bytes_eqb p (b "in/y.zip") then Ok (f (archive_bytes packed_zip))
  else Err (EIo (OtherIo 2)).
Definition pack_world : world :=
  {| w_exists := fun p => is_ok (pack_open p); w_is_dir := fun _ => false; w_read_dir := fun _ => Err (EIo (OtherIo 2));
     w_open := pack_open; w_http := fun _ => Err (EIo (OtherIo 2)); w_stdin := reads_as [] []; w_env_tz := None |}.
Definition pack_args : args :=
  {| a_inputs := None; a_formats := None; a_output := None; a_timezone := None; a_begin := None; a_end := None;
     a_in_delimiter := None; a_in_has_header := b "auto"; a_in_col := None; a_in_col_date := None; a_in_col_time := None;
     a_in_fmt := None; a_in_fmt_date := None; a_in_fmt_time := None; a_in_epoch := Some (b "ns"); a_out_delimiter := b ",";
     a_out_print_time := b "yes"; a_out_time_name := None; a_out_epoch := true; a_out_units := Some (b "ns") |}.
Definition pack_run (inputs : list bytes) : outcome :=
  chopper_cli Debug counting (fun s => s) (fun _ => false) csv_records toy (fun i => i) (fun i => i)
    (fun _ => []) (fun _ => []) None None None demo_known demo_create 9 pack_world (with_inputs pack_args inputs).

Lemma packed_zip_fits : archive_fits packed_zip.
Proof.
  split; [reflexivity|]. split; [repeat constructor|]. split; [repeat constructor|]. split; [repeat constructor|]. split; [repeat constructor|].
  split; [exact I|]. split; [reflexivity|]. reflexivity.
Qed.
Lemma packed_zip_unambiguous : end_unambiguous packed_zip.
Proof.
  split.
  - apply (nowhere (fun k => 0 < k -> firstn 4 (skipn k (end_record packed_zip)) <> le 4 0x06054b50)
             (fun k => (k =? 0) || negb (bytes_eqb (firstn 4 (skipn k (end_record packed_zip))) (le 4 0x06054b50))) 25).
    + intros k H L E. rewrite E, bytes_eqb_refl in H. destruct k; [lia|discriminate].
    + vm_compute. reflexivity.
    + intros k L _ E. rewrite skipn_all2 in E by exact L. vm_compute in E. discriminate.
  - intros _ pre loc E L H. assert (X : loc = skipn (length (until_central packed_zip ++ central_header packed_zip) - 20) (until_central packed_zip ++ central_header packed_zip)).
    { rewrite E, app_length, L, Nat.add_sub, skipn_app, skipn_all, Nat.sub_diag. reflexivity. }
    rewrite X in H. vm_compute in H. discriminate.
Qed.
Lemma toy_compressed : compressed toy GZ packed_csv demo_csv.
Proof.
  intros p out (i & (D & T & Sm) & E) Do. inversion Do; subst; clear Do. eexists. split; [reflexivity|].
  rewrite (preview_stream _ _ E), D, T. split; [reflexivity|]. split; [reflexivity|]. intros e [H|[]]. discriminate H.
Qed.
Lemma pack_smooth : smooth [Chunk 2; Chunk 7].
Proof. intros e [H|[H|[]]]; discriminate H. Qed.
Example C106_demo : pack_run [b "x.csv"; b "in/y.zip"] = pack_run [b "in/y.zip"; b "x.csv"].
Proof.
  assert (X : packs toy (fun i => i) (fun i => i) pack_world (b "x.csv") (b "x.csv") demo_csv).
  { apply packs_bare. eapply holds_itself.
    - split; [reflexivity|split; [reflexivity|split; reflexivity]].
    - reflexivity.
    - split; [left; reflexivity|]. split; [cbn; intuition discriminate|]. split; [discriminate|]. split; discriminate.
    - reflexivity.
    - split; [reflexivity|]. split; [reflexivity|exact pack_smooth].
    - intros [t E]. discriminate E. }
  assert (Y : packs toy (fun i => i) (fun i => i) pack_world (b "in/y.zip") (b "x.csv") demo_csv).
  { apply (packs_compressed _ _ _ _ _ _ _ GZ packed_csv); [|exact toy_compressed].
    eapply holds_member with (a := packed_zip).
    - split; [reflexivity|split; [reflexivity|split; reflexivity]].
    - reflexivity.
    - split; [reflexivity|]. split; [reflexivity|exact pack_smooth].
    - reflexivity.
    - exact packed_zip_fits.
    - exact packed_zip_unambiguous.
    - left. reflexivity.
    - repeat split; auto.
    - reflexivity.
    - discriminate.
    - split; [reflexivity|]. left. split; reflexivity. }
  assert (N : not_compressed (b "x.csv") demo_csv).
  { split.
    - intros f core E. apply (f_equal (@rev ascii)) in E. rewrite rev_app_distr in E. destruct f; cbn in E; discriminate E.
    - intros f (_ & m & rest & I & E). destruct f; cbn [magic In] in I; repeat destruct I as [<-|I]; try destruct I; vm_compute in E; discriminate E. }
  apply C106_packing; auto; [discriminate|].
  constructor; [|constructor; [|constructor]]; exists (b "x.csv"), demo_csv; auto.
Qed.
(** The run succeeds, so the equation is not one between failures. *)
Example C106_demo_output : pack_run [b "in/y.zip"] =
  {| o_written := Some (b "timestampNanos,time,sym" ++ nl ++ b "10,10,A" ++ nl ++ b "20,20,B" ++ nl); o_result := Ok tt |}.
Proof. vm_compute. reflexivity. Qed.

(** Concrete cases of C136: a stored CSV member with a wrong checksum, and a compressed DC member. *)
From Verif Require Import WholeCsvSpec T_WholeCsv T_Damage T_DamageZip T_Zip T_Pack T_PackEx T_WholeCsvEx.
Local Open Scope nat_scope.

Definition hurt (method crc : N) (payload name : bytes) : archive := {|
  z_before := []; z_fixed := z_fixed sample; z_local_name := b "x"; z_local_extra := b "??";
  z_payload := payload; z_between := [];
  z_made := 798; z_needed := 20; z_flags := 0; z_method := method; z_time := 1; z_date := 2;
  z_crc := crc; z_uncompressed := len payload; z_fields := (len payload, len payload, 0);
  z_name := name; z_extra := []; z_comment := [];
  z_disk_start := 0; z_internal := 0; z_external := 3; z_disk := 0; z_cd_disk := 0; z_here := 1; z_total := 1;
  z_end_comment := b "bye"; z_end64 := None |}%N.
Definition hurt_csv : archive := hurt 0 12345 mix_text (b "m.csv").
Definition hurt_dc (c : N) : archive := hurt 8 c (b "z") (b "m.dc").
Definition hurt_open (c : N) (p : bytes) : res handle :=
  let f bs := {| f_reads := reads_as [Chunk 2; Chunk 7] bs; f_seekable := true |} in
  if bytes_eqb p (b "csv.zip") then Ok (f (archive_bytes hurt_csv))
  else if bytes_eqb p (b "dc.zip") then Ok (f (archive_bytes (hurt_dc c)))
  else Err (EIo (OtherIo 2)).
Definition hurt_world (c : N) : world :=
  {| w_exists := fun p => is_ok (hurt_open c p); w_is_dir := fun _ => false; w_read_dir := fun _ => Err (EIo (OtherIo 2));
     w_open := hurt_open c; w_http := fun _ => Err (EIo (OtherIo 2)); w_stdin := reads_as [] []; w_env_tz := None |}.
Definition many : list row := repeat (mix_row 15 (b "x") (b "D")) 1100.
Definition many_dc : bytes := dc_file mix_header (map EvRow many).
Definition hurt_inflate (i : inner) : inner := reads_as [] many_dc.
Definition hurt_run (c : N) (a : args) : outcome :=
  chopper_cli Debug counting (fun s => s) (fun _ => false) csv_records no_decoders hurt_inflate (fun i => i)
    (fun _ => []) (fun _ => []) None None None demo_known demo_create 9 (hurt_world c) a.

Lemma hurt_csv_fits : archive_fits hurt_csv.
Proof.
  split; [reflexivity|]. do 4 (split; [repeat constructor|]). split; [exact I|]. split; [reflexivity|]. reflexivity.
Qed.
Lemma hurt_dc_fits c : (c < 4294967296)%N -> archive_fits (hurt_dc c).
Proof.
  intro C. split; [reflexivity|]. do 3 (split; [repeat constructor|]). split; [constructor; [exact C|repeat constructor]|].
  split; [exact I|]. split; [reflexivity|]. reflexivity.
Qed.
Lemma hurt_csv_unambiguous : end_unambiguous hurt_csv.
Proof.
  split.
  - apply (nowhere (fun k => 0 < k -> firstn 4 (skipn k (end_record hurt_csv)) <> le 4 0x06054b50)
             (fun k => (k =? 0) || negb (bytes_eqb (firstn 4 (skipn k (end_record hurt_csv))) (le 4 0x06054b50))) 25).
    + intros k H L E. rewrite E, bytes_eqb_refl in H. destruct k; [lia|discriminate].
    + vm_compute. reflexivity.
    + intros k L _ E. rewrite skipn_all2 in E by exact L. vm_compute in E. discriminate.
  - intros _ pre loc E L H. assert (X : loc = skipn (length (until_central hurt_csv ++ central_header hurt_csv) - 20) (until_central hurt_csv ++ central_header hurt_csv)).
    { rewrite E, app_length, L, Nat.add_sub, skipn_app, skipn_all, Nat.sub_diag. reflexivity. }
    rewrite X in H. vm_compute in H. discriminate.
Qed.
Lemma hurt_dc_unambiguous c : end_unambiguous (hurt_dc c).
Proof.
  split.
  - apply (nowhere (fun k => 0 < k -> firstn 4 (skipn k (end_record (hurt_dc c))) <> le 4 0x06054b50)
             (fun k => (k =? 0) || negb (bytes_eqb (firstn 4 (skipn k (end_record (hurt_dc c)))) (le 4 0x06054b50))) 25).
    + intros k H L E. rewrite E, bytes_eqb_refl in H. destruct k; [lia|discriminate].
    + vm_compute. reflexivity.
    + intros k L _ E. rewrite skipn_all2 in E by exact L. vm_compute in E. discriminate.
  - intros _ pre loc E L H. assert (X : loc = skipn (length (until_central (hurt_dc c) ++ central_header (hurt_dc c)) - 20) (until_central (hurt_dc c) ++ central_header (hurt_dc c))).
    { rewrite E, app_length, L, Nat.add_sub, skipn_app, skipn_all, Nat.sub_diag. reflexivity. }
    rewrite X in H. vm_compute in H. discriminate.
Qed.
Lemma hurt_csv_member c : ending_member hurt_inflate (fun i => i) (hurt_world c) (b "csv.zip") (b ".csv") mix_text (Some InvalidData).
Proof.
  eapply an_archive with (a := hurt_csv) (core := b "m").
  - split; [reflexivity|split; [reflexivity|split; reflexivity]].
  - reflexivity.
  - split; [reflexivity|]. split; [reflexivity|exact pack_smooth].
  - reflexivity.
  - exact hurt_csv_fits.
  - exact hurt_csv_unambiguous.
  - left. reflexivity.
  - repeat split; auto.
  - reflexivity.
  - discriminate.
  - apply member_changed; [left; split; [reflexivity|split; reflexivity]|]. vm_compute. discriminate.
Qed.
Lemma hurt_dc_member c : (c < 4294967296)%N -> c <> crc32 many_dc ->
  ending_member hurt_inflate (fun i => i) (hurt_world c) (b "dc.zip") (b ".dc") many_dc (Some InvalidData).
Proof.
  intros C X. eapply an_archive with (a := hurt_dc c) (core := b "m").
  - split; [reflexivity|split; [reflexivity|split; reflexivity]].
  - reflexivity.
  - split; [reflexivity|]. split; [reflexivity|exact pack_smooth].
  - reflexivity.
  - exact (hurt_dc_fits c C).
  - exact (hurt_dc_unambiguous c).
  - left. reflexivity.
  - repeat split; auto.
  - reflexivity.
  - discriminate.
  - apply member_changed; [|exact X]. right. left. split; [reflexivity|]. intros i _. split; [reflexivity|]. split; [reflexivity|]. intros e [].
Qed.
Lemma hurt_args_ok c p out : exists o, parse_args Debug counting None demo_known (hurt_world c) (mix_args [p] out) = Ok o.
Proof. destruct (mix_args_ok None p [] out) as (o & E & _). exists o. exact E. Qed.
(** The CSV member with the wrong checksum: the exit code is not 0. *)
Example C136_csv_demo c out : exit_code (hurt_run c (mix_args [b "csv.zip"] out)) <> 0%N.
Proof.
  destruct (hurt_args_ok c (b "csv.zip") out) as (o & Ea).
  eapply C136_csv with (paths := [b "csv.zip"]); [exact Ea|reflexivity|reflexivity|reflexivity|now left|apply hurt_csv_member].
Qed.
Example C136_small_demo c out : exit_code (hurt_run c (mix_args [b "csv.zip"] out)) <> 0%N.
Proof.
  destruct (hurt_args_ok c (b "csv.zip") out) as (o & Ea).
  eapply C136_small with (paths := [b "csv.zip"]) (ext := b ".csv");
    [exact Ea|reflexivity|reflexivity|now left|now left|apply hurt_csv_member|]. apply Nat.ltb_lt. vm_compute. reflexivity.
Qed.
(** The DC member, whatever wrong checksum the archive has: success, and all rows copied. *)
Lemma many_fits : Forall (row_fits mix_header) many.
Proof. apply Forall_forall. intros r H. apply repeat_spec in H. subst r. pose proof (proj2 mix_fits) as F. unfold mix_b in F. inversion F; assumption. Qed.
Example C136_dc_demo : forall c, (c < 4294967296)%N -> c <> crc32 many_dc -> exists written,
  run_ok (hurt_run c (mix_args [b "dc.zip"] (Some (b "o.dc")))) written /\ dc_read (DcSpec.file written) = Ok (mix_header, (many, Ok tt)).
Proof.
  intros c C X. destruct (hurt_args_ok c (b "dc.zip") (Some (b "o.dc"))) as (o & Ea).
  eapply C136_dc_refuted with (path := b "dc.zip") (out := b "o.") (rows := many) (evs := map EvRow many);
    [lia|reflexivity|reflexivity|reflexivity|reflexivity|reflexivity|exact Ea|reflexivity|exact mix_header_ok|exact many_fits|discriminate
    | |exact (hurt_dc_member c C X)|].
  - generalize many. induction l as [|r l IH]; [reflexivity|]. cbn. now rewrite IH.
  - apply Nat.leb_le. vm_compute. reflexivity.
Qed.
Print Assumptions C136_dc_demo.

(** ** Compressed files: a gzip file cut short after CSV text, a zstd file that breaks off between two rows *)
Definition cut_decoders : decoders :=
  let d (r : breader) := Ok {| i_data := tl (s_data (as_stream r)); i_tail := Some UnexpectedEof; i_plan := [Chunk 5] |} in
  let e (r : breader) := Ok {| i_data := many_dc; i_tail := Some (OtherIo 7); i_plan := [Chunk 100] |} in
  {| d_gz := d; d_lz4_frame := d; d_lz4_jblock := d; d_lzf := d; d_zst := e |}.
Definition cut_open (p : bytes) : res handle :=
  let f bs := {| f_reads := reads_as [Chunk 2; Chunk 7] bs; f_seekable := true |} in
  if bytes_eqb p (b "d/m.csv.gz") then Ok (f (b "G" ++ mix_text))
  else if bytes_eqb p (b "d/m.dc.zst") then Ok (f (b "ZZZ"))
  else Err (EIo (OtherIo 2)).
Definition cut_world : world :=
  {| w_exists := fun p => is_ok (cut_open p); w_is_dir := fun _ => false; w_read_dir := fun _ => Err (EIo (OtherIo 2));
     w_open := cut_open; w_http := fun _ => Err (EIo (OtherIo 2)); w_stdin := reads_as [] []; w_env_tz := None |}.
Definition cut_run (a : args) : outcome :=
  chopper_cli Debug counting (fun s => s) (fun _ => false) csv_records cut_decoders (fun i => i) (fun i => i)
    (fun _ => []) (fun _ => []) None None None demo_known demo_create 9 cut_world a.
Lemma cut_args_ok p out : exists o, parse_args Debug counting None demo_known cut_world (mix_args [p] out) = Ok o.
Proof. destruct (mix_args_ok None p [] out) as (o & E & _). exists o. exact E. Qed.
Lemma cut_named p d n : p = d ++ b "/" ++ n -> (d = b "d") -> n = b "m.csv.gz" \/ n = b "m.dc.zst" -> named p n.
Proof.
  intros -> -> [-> | ->]; (split; [right; exists (b "d"); reflexivity|]); (split; [cbn; intuition discriminate|]); (split; [discriminate|]); split; discriminate.
Qed.
Lemma cut_csv : read_input cut_decoders (fun i => i) (fun i => i) cut_world (b "d/m.csv.gz") (b ".csv") mix_text (Some UnexpectedEof).
Proof.
  apply (read_packed _ _ _ _ _ _ _ _ GZ (b "G" ++ mix_text) None).
  - left. split; [|intros [t E]; discriminate E].
    exists {| f_reads := reads_as [Chunk 2; Chunk 7] (b "G" ++ mix_text); f_seekable := true |}, (b "m").
    split; [split; [reflexivity|split; [reflexivity|split; reflexivity]]|]. split; [reflexivity|].
    split; [apply (cut_named _ (b "d")); [reflexivity|reflexivity|left; reflexivity]|].
    split; [reflexivity|]. split; [reflexivity|]. split; [reflexivity|exact pack_smooth].
  - intros p out (i & (D & T & Sm) & E) Do. inversion Do; subst; clear Do. eexists. split; [reflexivity|].
    unfold gives. cbn [i_data i_tail i_plan]. rewrite (preview_stream _ _ E), D, T. split; [reflexivity|]. split; [reflexivity|]. intros e [H|[]]. discriminate H.
Qed.
Example C137_csv_demo out : exit_code (cut_run (mix_args [b "d/m.csv.gz"] out)) <> 0%N.
Proof.
  destruct (cut_args_ok (b "d/m.csv.gz") out) as (o & Ea).
  eapply C137_csv with (paths := [b "d/m.csv.gz"]); [exact Ea|reflexivity|reflexivity|reflexivity|now left|exact cut_csv].
Qed.
Example C137_small_demo out : exit_code (cut_run (mix_args [b "d/m.csv.gz"] out)) <> 0%N.
Proof.
  destruct (cut_args_ok (b "d/m.csv.gz") out) as (o & Ea).
  eapply C137_small with (paths := [b "d/m.csv.gz"]) (ext := b ".csv");
    [exact Ea|reflexivity|reflexivity|now left|now left|exact cut_csv|]. apply Nat.ltb_lt. vm_compute. reflexivity.
Qed.
Example C137_dc_demo : exists written,
  run_ok (cut_run (mix_args [b "d/m.dc.zst"] (Some (b "o.dc")))) written /\ dc_read (DcSpec.file written) = Ok (mix_header, (many, Ok tt)).
Proof.
  destruct (cut_args_ok (b "d/m.dc.zst") (Some (b "o.dc"))) as (o & Ea).
  eapply C137_dc_refuted with (path := b "d/m.dc.zst") (out := b "o.") (rows := many) (evs := map EvRow many) (junk := []) (f := ZST) (c := b "ZZZ");
    [lia|reflexivity|reflexivity|reflexivity|reflexivity|reflexivity|exact Ea|reflexivity|exact mix_header_ok|exact many_fits|discriminate
    | |cbn; lia| |intros [t E]; discriminate E| |].
  - generalize many. induction l as [|r l IH]; [reflexivity|]. cbn. now rewrite IH.
  - exists {| f_reads := reads_as [Chunk 2; Chunk 7] (b "ZZZ"); f_seekable := true |}, (b "m").
    split; [split; [reflexivity|split; [reflexivity|split; reflexivity]]|]. split; [reflexivity|].
    split; [apply (cut_named _ (b "d")); [reflexivity|reflexivity|right; reflexivity]|].
    split; [reflexivity|]. split; [reflexivity|]. split; [reflexivity|exact pack_smooth].
  - intros p out _ Do. inversion Do; subst; clear Do. eexists. split; [reflexivity|]. rewrite app_nil_r.
    split; [reflexivity|]. split; [reflexivity|]. intros e [H|[]]. discriminate H.
  - rewrite app_nil_r. apply Nat.leb_le. vm_compute. reflexivity.
Qed.
Print Assumptions C137_dc_demo.

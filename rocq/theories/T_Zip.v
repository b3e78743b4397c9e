(** Property theorems: archives and checked readers (C47-C51, C65). *)
From Verif Require Import ZipModel ZipSpec ZipProofs ZipAny CrcProofs CsvModel CsvSpec DcModel DcSpec DcProofs DriverSpec.
Local Open Scope nat_scope.

(** C48: a checked reader is, for every sequence of reads, a plain reader of the same data that
    fails at the end instead of ending cleanly when the CRC-32 differs. *)
Theorem C48_crc : forall i expected,
  behaves_like (crc_new i expected)
    {| i_data := i_data i;
       i_tail := match i_tail i with
                 | Some e => Some e
                 | None => if (crc32 (i_data i) =? expected)%N then None else Some InvalidData
                 end;
       i_plan := i_plan i |}.
Proof. exact crc_behaves. Qed.
Print Assumptions C48_crc.

(** What that means for the caller: a read that answers 0 bytes for a non-empty buffer
    comes only when everything was delivered and the CRC is right. *)
Lemma plain_reads_clean : forall ns n i, last (inner_reads (ns ++ [S n]) i) Panic = Ok [] ->
  i_tail i = None /\ flat_map (fun o => match o with Ok bs => bs | _ => [] end) (inner_reads ns i) = i_data i.
Proof.
  assert (G : forall m d tl plan, (m <> 0 -> fst (give m d tl plan) = Ok [] -> d = [] /\ tl = None) /\
    (i_tail (snd (give m d tl plan)) = tl /\
     match fst (give m d tl plan) with Ok bs => bs | _ => [] end ++ i_data (snd (give m d tl plan)) = d)).
  { intros m d tl plan. unfold give. destruct (Nat.eqb_spec m 0) as [->|Nm]; [cbn; split; [congruence|auto]|].
    destruct d as [|c d]; [destruct tl; cbn; [split; [congruence|auto]|rewrite ?firstn_nil, ?skipn_nil; auto]|].
    cbn [fst snd i_tail i_data]. split.
    - destruct m; [congruence|]. discriminate.
    - rewrite firstn_skipn. auto. }
  induction ns as [|n0 ns IH]; intros n i H.
  - cbn [app inner_reads flat_map] in *. destruct (inner_read (S n) i) as [o i'] eqn:E. cbn [last] in H. subst o.
    unfold inner_read in E. destruct i as [d tl [|[k|er] plan]]; cbn [i_plan i_data i_tail] in *; [| |discriminate].
    + destruct (G (S n) d tl []) as [G1 _]. rewrite E in G1. destruct (G1 ltac:(discriminate) eq_refl) as [-> ->]. auto.
    + destruct (G (Nat.min (S n) (S k)) d tl plan) as [G1 _]. rewrite E in G1. destruct (G1 ltac:(lia) eq_refl) as [-> ->]. auto.
  - cbn [app inner_reads] in H |- *.
    assert (I : i_tail (snd (inner_read n0 i)) = i_tail i /\
                match fst (inner_read n0 i) with Ok bs => bs | _ => [] end ++ i_data (snd (inner_read n0 i)) = i_data i).
    { unfold inner_read. destruct i as [d tl [|[k|er] plan]]; cbn [i_plan i_data i_tail]; [apply G..|]. cbn. auto. }
    destruct (inner_read n0 i) as [o i'] eqn:E. cbn [fst snd] in I. destruct I as [I1 I2].
    assert (L : last (inner_reads (ns ++ [S n]) i') Panic = Ok []).
    { destruct (inner_reads (ns ++ [S n]) i') eqn:E2; [|exact H].
      exfalso. destruct ns; cbn in E2; destruct (inner_read _ i'); discriminate. }
    destruct (IH n i' L) as [J1 J2]. split; [congruence|]. cbn [flat_map]. rewrite J2. exact I2.
Qed.
Theorem C48_clean_end : forall i expected ns n,
  last (crc_reads (ns ++ [S n]) (crc_new i expected)) Panic = Ok [] ->
  flat_map (fun o => match o with Ok bs => bs | _ => [] end) (crc_reads ns (crc_new i expected)) = i_data i /\
  crc32 (i_data i) = expected.
Proof.
  intros i e ns n H. rewrite (C48_crc i e) in H |- *. apply plain_reads_clean in H. cbn [i_tail i_data] in H.
  destruct H as [H1 H2]. split; [exact H2|].
  destruct (i_tail i); [discriminate|]. destruct (N.eqb_spec (crc32 (i_data i)) e); [assumption|discriminate].
Qed.
Print Assumptions C48_clean_end.

(** Any damage within four consecutive bytes of the contents is noticed, whatever the reads. *)
Theorem C48_damage_noticed : forall before good bad after plan ns n,
  length good = length bad -> length good <= 4 -> good <> bad ->
  last (crc_reads (ns ++ [S n])
         (crc_new {| i_data := before ++ bad ++ after; i_tail := None; i_plan := plan |}
                  (crc32 (before ++ good ++ after)))) Panic <> Ok [].
Proof.
  intros p x y q plan ns n L L4 Ne H. apply C48_clean_end in H. destruct H as [_ H]. cbn [i_data] in H.
  eapply crc32_window; eauto.
Qed.
Print Assumptions C48_damage_noticed.

(** The checksum is the standard one: its check value for the digits 1 to 9. *)
Example C48_check_value : crc32 (b "123456789") = 0xCBF43926%N.
Proof. vm_compute. reflexivity. Qed.
Example C48_met :
  crc_reads [3; 0; 10; 10] (crc_new {| i_data := b "123456789"; i_tail := None; i_plan := [Chunk 9; Chunk 0] |} 0xCBF43926%N)
  = [Ok (b "123"); Ok []; Ok (b "456789"); Ok []] /\
  crc_reads [3; 0; 10; 10] (crc_new {| i_data := b "123446789"; i_tail := None; i_plan := [] |} 0xCBF43926%N)
  = [Ok (b "123"); Ok []; Ok (b "446789"); Err (EIo InvalidData)].
Proof. split; vm_compute; reflexivity. Qed.

(** ** C47 *)
Theorem C47_stored_partial : forall inflate bunzip plan a,
  archive_fits a -> end_unambiguous a -> extra_tolerated a -> ZipSpec.supported a ->
  z_method a = 0%N -> z_crc a = crc32 (z_payload a) ->
  exists c name,
    zip_open (archive_bytes a) inflate bunzip plan = Ok (c, name) /\
    shown_name (z_flags a) (z_name a) name /\
    behaves_like c {| i_data := z_payload a; i_tail := None; i_plan := plan |}.
Proof.
  intros inflate bunzip plan a F U T (S1 & S2 & S3 & S4 & S5 & S6) M Cr.
  exists (crc_new {| i_data := z_payload a; i_tail := None; i_plan := plan |} (z_crc a)), (zip_name (z_flags a) (z_name a)).
  split; [|split; [apply name_shown|]].
  - rewrite (open_main inflate bunzip plan a F U T). unfold eocdr_result, central_result, member_reader.
    rewrite S1, S2, S3, S4, S5, M. cbn [negb N.eqb orb Pos.eqb bind]. destruct S6 as [-> | ->]; reflexivity.
  - intro ns. rewrite crc_behaves. cbn [i_data i_tail i_plan]. unfold crc_tail. rewrite Cr, N.eqb_refl. reflexivity.
Qed.
Print Assumptions C47_stored_partial.
(** The same for compressed members: the decoder's reader, checked. *)
Theorem C47_compressed_partial : forall inflate bunzip plan a dec,
  archive_fits a -> end_unambiguous a -> extra_tolerated a -> ZipSpec.supported a ->
  (z_method a = 8%N /\ dec = inflate \/ z_method a = 12%N /\ dec = bunzip) ->
  exists c name,
    zip_open (archive_bytes a) inflate bunzip plan = Ok (c, name) /\
    shown_name (z_flags a) (z_name a) name /\
    let i := dec {| i_data := z_payload a; i_tail := None; i_plan := plan |} in
    (crc32 (i_data i) = z_crc a -> behaves_like c i).
Proof.
  intros inflate bunzip plan a dec F U T (S1 & S2 & S3 & S4 & S5 & S6) M.
  exists (crc_new (dec {| i_data := z_payload a; i_tail := None; i_plan := plan |}) (z_crc a)), (zip_name (z_flags a) (z_name a)).
  split; [|split; [apply name_shown|]].
  - rewrite (open_main inflate bunzip plan a F U T). unfold eocdr_result, central_result, member_reader.
    rewrite S1, S2, S3, S4, S5. cbn [negb N.eqb orb Pos.eqb bind].
    destruct S6 as [-> | ->], M as [[-> ->] | [-> ->]]; reflexivity.
  - cbv zeta. intros Cr ns. rewrite crc_behaves. unfold crc_tail. rewrite Cr, N.eqb_refl.
    destruct (dec _) as [d [e|] p]; reflexivity.
Qed.
Print Assumptions C47_compressed_partial.

(** An archive with many (well-formed) extra records is refused. *)
Theorem C47_many_extras_refuted : forall inflate bunzip plan a,
  archive_fits a -> end_unambiguous a -> ZipSpec.supported a ->
  z_end64 a = None -> z_comment a = [] -> 385 < length (z_extra a) -> (len (z_end_comment a) < 1525)%N ->
  zip_open (archive_bytes a) inflate bunzip plan = Err (EIo UnexpectedEof).
Proof.
  intros inflate bunzip plan a F U (S1 & S2 & S3 & S4 & S5 & S6) N64 C L E.
  apply (open_too_many inflate bunzip plan a F U); auto.
  unfold eocdr_result. rewrite S1, S2, S3, S4. reflexivity.
Qed.
Print Assumptions C47_many_extras_refuted.

(** A concrete archive: member café.csv, two extra records, an end comment. *)
Definition sample : archive := {|
  z_before := b "junk"; z_fixed := map byte_of (map N.of_nat (seq 0 22)); z_local_name := b "cafe.csv"; z_local_extra := b "??";
  z_payload := b "a,time" ++ [byte_of 10] ++ b "1,2000"; z_between := [];
  z_made := 798; z_needed := 20; z_flags := 2048; z_method := 0; z_time := 1; z_date := 2;
  z_crc := crc32 (b "a,time" ++ [byte_of 10] ++ b "1,2000"); z_uncompressed := 13; z_fields := (13, 13, 4);
  z_name := b "caf" ++ encode 0xE9 ++ b ".csv"; z_extra := [(0x5455, b "12345"); (0x7875, b "abc")]%N; z_comment := [];
  z_disk_start := 0; z_internal := 0; z_external := 3; z_disk := 0; z_cd_disk := 0; z_here := 1; z_total := 1;
  z_end_comment := b "bye"; z_end64 := None |}%N.
Lemma sample_fits : archive_fits sample.
Proof.
  split; [reflexivity|]. split; [repeat constructor|]. split; [repeat constructor|]. split; [repeat constructor|]. split; [repeat constructor|].
  split; [cbn; repeat split; discriminate|]. split; reflexivity.
Qed.
(** Finitely many positions to look at. *)
Lemma nowhere (P : nat -> Prop) (p : nat -> bool) n : (forall k, p k = true -> P k) -> forallb p (seq 0 n) = true ->
  (forall k, n <= k -> P k) -> forall k, P k.
Proof.
  intros H F Big k. destruct (Nat.lt_ge_cases k n) as [L|G]; [|auto]. apply H.
  rewrite forallb_forall in F. apply F. apply in_seq. lia.
Qed.
Lemma sample_unambiguous : end_unambiguous sample.
Proof.
  split.
  - apply (nowhere (fun k => 0 < k -> firstn 4 (skipn k (end_record sample)) <> le 4 0x06054b50)
             (fun k => (k =? 0) || negb (bytes_eqb (firstn 4 (skipn k (end_record sample))) (le 4 0x06054b50))) 25).
    + intros k H L E. rewrite E, bytes_eqb_refl in H. destruct k; [lia|discriminate].
    + vm_compute. reflexivity.
    + intros k L _ E. rewrite skipn_all2 in E by exact L. vm_compute in E. discriminate.
  - intros _ pre loc E L H. assert (X : loc = skipn (length (until_central sample ++ central_header sample) - 20) (until_central sample ++ central_header sample)).
    { rewrite E, app_length, L, Nat.add_sub, skipn_app, skipn_all, Nat.sub_diag. reflexivity. }
    rewrite X in H. vm_compute in H. discriminate.
Qed.
Example C47_met : archive_fits sample /\ end_unambiguous sample /\ extra_tolerated sample /\ ZipSpec.supported sample /\
  z_method sample = 0%N /\ z_crc sample = crc32 (z_payload sample) /\
  (let* (c, name) := zip_open (archive_bytes sample) id id [Chunk 4] in Ok (name, crc_reads [100; 100; 100] c)) =
  Ok (b "caf" ++ encode 0xE9 ++ b ".csv", [Ok (b "a,tim"); Ok (b "e" ++ [byte_of 10] ++ b "1,2000"); Ok []]).
Proof.
  split; [apply sample_fits|]. split; [apply sample_unambiguous|]. split; [right; split; [reflexivity|cbn; lia]|].
  split; [repeat split; auto|]. split; [reflexivity|]. split; [reflexivity|]. vm_compute. reflexivity.
Qed.
(** Many extra records: the hypotheses can be met. *)
Definition many : archive := {|
  z_before := []; z_fixed := z_fixed sample; z_local_name := b "x"; z_local_extra := [];
  z_payload := b "abc"; z_between := [];
  z_made := 798; z_needed := 20; z_flags := 0; z_method := 0; z_time := 1; z_date := 2;
  z_crc := crc32 (b "abc"); z_uncompressed := 3; z_fields := (3, 3, 0);
  z_name := b "x"; z_extra := repeat (7%N, []) 386; z_comment := [];
  z_disk_start := 0; z_internal := 0; z_external := 0; z_disk := 0; z_cd_disk := 0; z_here := 1; z_total := 1;
  z_end_comment := []; z_end64 := None |}%N.
Example C47_many_met : archive_fits many /\ end_unambiguous many /\ ZipSpec.supported many /\
  zip_open (archive_bytes many) id id [] = Err (EIo UnexpectedEof).
Proof.
  split.
  { split; [reflexivity|]. split; [repeat constructor|]. split; [apply Forall_forall; intros r H; apply repeat_spec in H; subst r; split; reflexivity|].
    split; [repeat constructor|]. split; [repeat constructor|].
    assert (R : forall n v, records_complete v (repeat (7%N, []) n) /\ fold_left record_values (repeat (7%N, []) n) v = v).
    { induction n as [|n IH]; intros [[x y] z]; [split; [exact I|reflexivity]|]. split; [split; [discriminate|apply IH]|]. cbn. apply IH. }
    split; [apply R|]. split; [exact (proj2 (R 386 _))|]. vm_compute. reflexivity. }
  split.
  { split.
    - apply (nowhere (fun k => 0 < k -> firstn 4 (skipn k (end_record many)) <> le 4 0x06054b50)
             (fun k => (k =? 0) || negb (bytes_eqb (firstn 4 (skipn k (end_record many))) (le 4 0x06054b50))) 22).
      + intros k H L E. rewrite E, bytes_eqb_refl in H. destruct k; [lia|discriminate].
      + vm_compute. reflexivity.
      + intros k L _ E. rewrite skipn_all2 in E by exact L. vm_compute in E. discriminate.
    - intros _ pre loc E L H. assert (X : loc = skipn (length (until_central many ++ central_header many) - 20) (until_central many ++ central_header many)).
      { rewrite E, app_length, L, Nat.add_sub, skipn_app, skipn_all, Nat.sub_diag. reflexivity. }
      rewrite X in H. vm_compute in H. discriminate. }
  split; [repeat split; auto|]. vm_compute. reflexivity.
Qed.
(** A comment that contains the end record's signature makes a good archive unreadable. *)
Definition with_end_comment (a : archive) (s : bytes) : archive := {|
  z_before := z_before a; z_fixed := z_fixed a; z_local_name := z_local_name a; z_local_extra := z_local_extra a;
  z_payload := z_payload a; z_between := z_between a; z_made := z_made a; z_needed := z_needed a; z_flags := z_flags a;
  z_method := z_method a; z_time := z_time a; z_date := z_date a; z_crc := z_crc a; z_uncompressed := z_uncompressed a; z_fields := z_fields a;
  z_name := z_name a; z_extra := z_extra a; z_comment := z_comment a; z_disk_start := z_disk_start a;
  z_internal := z_internal a; z_external := z_external a; z_disk := z_disk a; z_cd_disk := z_cd_disk a;
  z_here := z_here a; z_total := z_total a; z_end_comment := s; z_end64 := z_end64 a |}.
Lemma sample_fits_with : archive_fits (with_end_comment sample (b "see PK" ++ [byte_of 5; byte_of 6] ++ b "!")).
Proof.
  split; [reflexivity|]. split; [repeat constructor|]. split; [repeat constructor|]. split; [repeat constructor|]. split; [repeat constructor|].
  split; [cbn; repeat split; discriminate|]. split; reflexivity.
Qed.
Theorem C47_signature_in_comment_refuted :
  let a := with_end_comment sample (b "see PK" ++ [byte_of 5; byte_of 6] ++ b "!") in
  archive_fits a /\ ZipSpec.supported a /\ extra_tolerated a /\ z_method a = 0%N /\ z_crc a = crc32 (z_payload a) /\
  forall inflate bunzip plan, zip_open (archive_bytes a) inflate bunzip plan = Err (EIo UnexpectedEof).
Proof.
  cbv zeta. split; [exact sample_fits_with|]. split; [repeat split; auto|].
  split; [right; split; [reflexivity|cbn; lia]|]. split; [reflexivity|]. split; [reflexivity|].
  intros. vm_compute. reflexivity.
Qed.
Print Assumptions C47_signature_in_comment_refuted.

(** ** C49: the error behind a DC source is lost: a whole DC file followed by an I/O error (a wrong CRC,
    a failing disk) reads like one that ends. *)
Theorem C49_error_lost_refuted : forall h evs e,
  header_fits h -> 2 <= length (h_types h) -> length (h_types h) mod 8 <> 1 ->
  Forall (row_fits h) (ev_rows evs) ->
  dc_read {| s_data := dc_file h evs; s_tail := Some e |} = Ok (with_default_names h, (ev_rows evs, Ok tt)).
Proof. exact (fun h evs e => dc_roundtrip h evs (Some e)). Qed.
Print Assumptions C49_error_lost_refuted.
(** A CSV source does report it: it cannot be opened, or the rows end with an error. *)
Lemma csv_parse_err d tail : forall s st fs cur e, tail = Some e ->
  exists l, csv_parse d st fs cur tail s = l ++ [Err (EIo e)] .
Proof.
  induction s as [|c s IH]; intros st fs cur e E; cbn [csv_parse].
  - rewrite E. exists []. reflexivity.
  - destruct (csv_trans d st c); try (apply IH; exact E). destruct (IH StartRecord [] [] e E) as [l ->]. exists (Ok (fs ++ [cur]) :: l). reflexivity.
Qed.
Lemma csv_drain_err prof ch : forall l s fuel e, cs_reader s = l ++ [Err (EIo e)] -> cs_has_next s = true ->
  2 + length l <= fuel -> exists rows o, csv_drain prof ch fuel s = rows ++ [o] /\ is_ok o = false.
Proof.
  induction l as [|x l IH]; intros s fuel e E H F; (destruct fuel as [|fuel]; [cbn in F; lia|]); cbn [csv_drain]; unfold csv_next; rewrite H, E; cbn [negb app].
  - cbn [bind fail_as]. exists [], (Err (EIo e)). split; reflexivity.
  - destruct (let* raw := x in string_record raw) as [r| | | |] eqn:Er; cbn [fail_as].
    2-5: (eexists [], _; split; reflexivity).
    destruct (update_row prof ch (cs_col s) (cs_fmt s) (cs_tz s) (cs_next s) r) as [next o] eqn:Eu.
    destruct o as [[]| | | |]; cbn [bind fail_as].
    2-5: (eexists [], _; split; reflexivity).
    match goal with |- context [csv_drain _ _ fuel ?s'] => destruct (IH s' fuel e eq_refl eq_refl ltac:(cbn in F |- *; lia)) as (rows & o & E1 & E2) end.
    rewrite E1. exists (Ok (cs_next s) :: rows), o. auto.
Qed.
Theorem C49_csv_partial : forall prof ch lower parse_f64_ok cfg lines data e s,
  csv_new prof ch lower parse_f64_ok csv_records cfg lines {| s_data := data; s_tail := Some e |} = Ok s ->
  exists rows o, csv_rows prof ch s = rows ++ [o] /\ is_ok o = false.
Proof.
  intros prof ch lower pf cfg lines data e s H. unfold csv_new in H.
  match type of H with (let* d := ?m in _) = _ => destruct m as [d| | | |]; cbn [bind] in H; try discriminate end.
  unfold csv_records in H. cbn [s_tail s_data] in H.
  destruct (csv_parse_err d (Some e) (strip_bom data) StartRecord [] [] e eq_refl) as [l El]. rewrite El in H.
  match type of H with context [if ?c then match l ++ _ with _ => _ end else _] => destruct c end.
  - destruct l as [|o l]; cbn [app bind] in H; [discriminate|]. destruct o as [hd| | | |]; cbn [bind fail_as] in H; try discriminate.
    destruct l as [|o l]; cbn [app bind fail_as] in H; [discriminate|]. destruct o as [r| | | |]; cbn [bind fail_as] in H; try discriminate.
    destruct (string_record r) as [first| | | |]; cbn [bind] in H; try discriminate.
    destruct (string_record hd) as [names| | | |]; cbn [bind] in H; try discriminate.
    destruct (get_col_and_fmt _ _ _ _ _ _ _) as [[col fmt]| | | |]; cbn [bind] in H; try discriminate.
    destruct (update_row _ _ _ _ _ _ _) as [next [[]| | | |]]; cbn [bind] in H; try discriminate.
    injection H as <-. unfold csv_rows. eapply csv_drain_err; [reflexivity..|]. cbn [cs_reader]. rewrite app_length. cbn. lia.
  - cbn [bind] in H. destruct l as [|o l]; cbn [app bind fail_as] in H; [discriminate|]. destruct o as [r| | | |]; cbn [bind fail_as] in H; try discriminate.
    destruct (string_record r) as [first| | | |]; cbn [bind] in H; try discriminate.
    destruct (get_col_and_fmt _ _ _ _ _ _ _) as [[col fmt]| | | |]; cbn [bind] in H; try discriminate.
    destruct (update_row _ _ _ _ _ _ _) as [next [[]| | | |]]; cbn [bind] in H; try discriminate.
    injection H as <-. unfold csv_rows. eapply csv_drain_err; [reflexivity..|]. cbn [cs_reader]. rewrite app_length. cbn. lia.
Qed.
Print Assumptions C49_csv_partial.

(** A complete DC file with a damaged byte, in an archive with the right CRC: read to its end without complaint. *)
Definition dc_sample : bytes := dc_file {| h_names := [b "x"; b "y"]; h_types := [TInt; TInt] |} [EvRow {| ts := 5%N; vals := [VInt 1; VInt 2] |}].
Definition dc_damaged : bytes := removelast dc_sample ++ [byte_of 3].
Example C49_damaged :
  last (crc_reads [1000; 1000] (crc_new {| i_data := dc_damaged; i_tail := None; i_plan := [] |} (crc32 dc_sample))) Panic = Err (EIo InvalidData) /\
  dc_read {| s_data := dc_damaged; s_tail := Some InvalidData |} =
  Ok ({| h_names := [b "x"; b "y"]; h_types := [TInt; TInt] |}, ([{| ts := 5%N; vals := [VInt 1; VInt 3] |}], Ok tt)).
Proof. split; vm_compute; reflexivity. Qed.

(** ** C50, for arbitrary bytes: what is opened has, at the last end record of the file, one entry on one disk, and
    its central header says: not encrypted, a known method, disk 0. *)
Theorem C50_accepted : forall data inflate bunzip plan c name,
  zip_open data inflate bunzip plan = Ok (c, name) ->
  exists q start : N,
    (0 < q /\ q + 22 <= size data /\ field data q 4 = 0x06054b50 /\
     (forall q', q < q' -> q' + 4 <= size data -> field data q' 4 <> 0x06054b50) /\
     field data (q + 4) 2 = 0 /\ field data (q + 6) 2 = 0 /\ field data (q + 8) 2 = 1 /\ field data (q + 10) 2 = 1 /\
     (start = field data (q + 16) 4 \/ zip64_says data start) /\
     field data start 4 = 0x02014b50 /\ N.testbit (field data (start + 8) 2) 0 = false /\
     In (field data (start + 10) 2) [0; 8; 12] /\ In (field data (start + 34) 2) [0; 65535] /\
     c_crc32 c = field data (start + 16) 4)%N.
Proof.
  intros data inflate bunzip plan c name H. unfold zip_open in H.
  destruct (zip_open_at data inflate bunzip plan 0%N) as [[x p]| | | |] eqn:E; cbn [bind] in H; try discriminate. injection H as ->.
  unfold zip_open_at in E.
  apply zbind_inv in E. destruct E as ([] & q4 & E1 & E). unfold find_eocdr_and_prepare_to_read in E1. apply find_inv in E1; [|lia|lia].
  destruct E1 as (A1 & A2 & A3 & A4 & A5).
  apply zbind_inv in E. destruct E as ([o cl] & p1 & E1 & E). apply eocdr_inv in E1. destruct E1 as (B0 & B1 & B2 & B3 & B4 & B5 & _).
  apply zbind_inv in E. destruct E as (start & p2 & E1 & E). apply offset_inv in E1.
  rewrite step_start in E.
  apply zbind_inv in E. destruct E as (cd & p3 & E2 & E). apply central_inv in E2. destruct E2 as (C0 & C1 & C2 & C3 & C4 & C5).
  rewrite step_start in E.
  apply zbind_inv in E. destruct E as (sig & p4 & _ & E). destruct (negb _); [discriminate|]. rewrite step_by in E.
  apply zbind_inv in E. destruct E as (nl & p5 & _ & E). apply zbind_inv in E. destruct E as (xl & p6 & _ & E). rewrite !step_by in E.
  exists (q4 - 4)%N, start.
  replace (q4 - 4 + 4)%N with q4 by lia. replace (q4 - 4 + 6)%N with (q4 + 2)%N by lia. replace (q4 - 4 + 8)%N with (q4 + 4)%N by lia.
  replace (q4 - 4 + 10)%N with (q4 + 6)%N by lia. replace (q4 - 4 + 16)%N with (q4 + 12)%N by lia.
  do 2 (split; [lia|]). split; [exact A4|]. split; [exact A5|]. do 4 (split; [assumption|]).
  split; [destruct E1 as [-> | E1]; [left; exact B5|right; exact E1]|]. do 2 (split; [assumption|]).
  rewrite <- C3, <- C4. cbn [In].
  destruct (N.eqb_spec (cd_method cd) 0) as [M|_]; [injection E as <- <- <-; cbn [c_crc32 crc_new]; intuition auto|].
  destruct (N.eqb_spec (cd_method cd) 8) as [M|_]; [injection E as <- <- <-; cbn [c_crc32 crc_new]; intuition auto|].
  destruct (N.eqb_spec (cd_method cd) 12) as [M|_]; [injection E as <- <- <-; cbn [c_crc32 crc_new]; intuition auto|]. discriminate.
Qed.
Print Assumptions C50_accepted.
(** And the rejections, for files of the announced layout. *)
Theorem C50_entries_or_disks : forall pre er d cd h t sz off cl comment inflate bunzip plan,
  pre <> [] -> er = le 4 0x06054b50 ++ le 2 d ++ le 2 cd ++ le 2 h ++ le 2 t ++ le 4 sz ++ le 4 off ++ le 2 cl ++ comment ->
  Forall (fun x => x < 65536)%N [d; cd; h; t; cl] -> (sz < 4294967296)%N -> (off < 4294967296)%N -> (len comment < 65536)%N ->
  (forall k, 0 < k -> firstn 4 (skipn k er) <> le 4 0x06054b50) ->
  ~ (t = 1 /\ h = 1 /\ d = 0 /\ cd = 0)%N ->
  zip_open (pre ++ er) inflate bunzip plan = Err (EIo InvalidData).
Proof. intros. eapply rejected_end; eauto. Qed.
Print Assumptions C50_entries_or_disks.
Theorem C50_member : forall inflate bunzip plan a,
  archive_fits a -> end_unambiguous a -> extra_tolerated a ->
  (N.testbit (z_flags a) 0 = true \/ ~ In (z_disk_start a) [0; 65535]%N \/ ~ In (z_method a) [0; 8; 12]%N) ->
  zip_open (archive_bytes a) inflate bunzip plan = Err (EIo InvalidData).
Proof.
  intros inflate bunzip plan a F U T H. rewrite (open_main inflate bunzip plan a F U T). unfold eocdr_result, central_result, member_reader.
  destruct (_ || _); [reflexivity|]. destruct (_ || _); [reflexivity|]. cbn [bind].
  destruct (N.testbit (z_flags a) 0) eqn:Fl; [reflexivity|].
  destruct (N.eqb_spec (z_disk_start a) 0), (N.eqb_spec (z_disk_start a) 65535); cbn [negb andb bind]; try reflexivity;
  destruct H as [H|[H|H]]; try discriminate; try (exfalso; apply H; cbn; intuition congruence);
  (destruct (N.eqb_spec (z_method a) 0); [exfalso; apply H; cbn; intuition congruence|]);
  (destruct (N.eqb_spec (z_method a) 8); [exfalso; apply H; cbn; intuition congruence|]);
  (destruct (N.eqb_spec (z_method a) 12); [exfalso; apply H; cbn; intuition congruence|]); reflexivity.
Qed.
Print Assumptions C50_member.
(** Rejected: two entries; encrypted; method 14 (LZMA). *)
Definition with_header (a : archive) (flags method total : N) : archive := {|
  z_before := z_before a; z_fixed := z_fixed a; z_local_name := z_local_name a; z_local_extra := z_local_extra a;
  z_payload := z_payload a; z_between := z_between a; z_made := z_made a; z_needed := z_needed a; z_flags := flags;
  z_method := method; z_time := z_time a; z_date := z_date a; z_crc := z_crc a; z_uncompressed := z_uncompressed a; z_fields := z_fields a;
  z_name := z_name a; z_extra := z_extra a; z_comment := z_comment a; z_disk_start := z_disk_start a;
  z_internal := z_internal a; z_external := z_external a; z_disk := z_disk a; z_cd_disk := z_cd_disk a;
  z_here := z_here a; z_total := total; z_end_comment := z_end_comment a; z_end64 := z_end64 a |}.
Example C50_met :
  is_ok (zip_open (archive_bytes (with_header sample 2048 8 1)) id id []) = true /\
  zip_open (archive_bytes (with_header sample 2049 8 1)) id id [] = Err (EIo InvalidData) /\
  zip_open (archive_bytes (with_header sample 2048 14 1)) id id [] = Err (EIo InvalidData) /\
  zip_open (archive_bytes (with_header sample 2048 8 2)) id id [] = Err (EIo InvalidData).
Proof. repeat split; vm_compute; reflexivity. Qed.

(** ** C51: a complete, well-formed extra field is not read within its bounds: with nothing behind it
    reading fails, *)
Theorem C51_beyond_refuted : forall before l v,
  l <> [] -> Forall (fun r => fst r < 65536 /\ len (snd r) < 65536)%N l -> records_complete v l ->
  let data := before ++ extra_field l in
  read_extra data (S (length data)) 0 (len (extra_field l)) v (len before) = Err (EIo UnexpectedEof).
Proof.
  intros before l v Nl F Hv data.
  assert (Ll : length l <= length data) by (unfold data; rewrite app_length; pose proof (extra_length l); unfold len in *; lia).
  replace (S (length data)) with (length l + S (length data - length l)) by lia.
  apply (extra_alone l v _ 0%N _ data Hv Nl F). apply cursor_app. reflexivity.
Qed.
Print Assumptions C51_beyond_refuted.
(** and a zip64 record behind the field (here: in the file comment) is taken for a part of it. *)
Theorem C51_comment_refuted :
  let l := [(0x5455, b "12345")]%N in
  let comment := le 2 1 ++ le 2 8 ++ le 8 77 in
  records_complete (13, 0xffffffff, 4)%N l /\
  fold_left record_values l (13, 0xffffffff, 4)%N = (13, 0xffffffff, 4)%N /\
  (let* (v, _) := read_extra (extra_field l ++ comment) 100 0%N (len (extra_field l)) (13, 0xffffffff, 4)%N 0%N in Ok v)
  = Ok (13, 77, 4)%N.
Proof. cbv zeta. split; [cbn; split; [discriminate|exact I]|]. split; vm_compute; reflexivity. Qed.
Print Assumptions C51_comment_refuted.
(** What holds: if what looks like a large record comes next (as an end record does), the values are those
    of the zip64 records, and without such records they stay. *)
Theorem C51_values_partial : forall before l v id sz after,
  Forall (fun r => fst r < 65536 /\ len (snd r) < 65536)%N l -> records_complete v l ->
  (id <> 1 -> id < 65536 -> sz < 65536 -> 4 * N.of_nat (length l) <= sz ->
  let data := before ++ extra_field l ++ le 2 id ++ le 2 sz ++ after in
  (exists p, read_extra data (S (length data)) 0 (len (extra_field l)) v (len before) = Ok (fold_left record_values l v, p)) /\
  (Forall (fun r => fst r <> 1) l -> fold_left record_values l v = v))%N.
Proof.
  intros before l v id sz after F Hv Ni B1 B2 Bs data. split; [|apply no_zip64_values].
  assert (Ll : length l + 2 <= length data) by (unfold data; rewrite !app_length, !le_length; pose proof (extra_length l); unfold len in *; lia).
  replace (S (length data)) with (length l + S (S (length data - length l - 1))) by lia.
  eapply extra_stops; eauto. apply cursor_app. reflexivity.
Qed.
Print Assumptions C51_values_partial.
(** A zip64 record with fewer bytes than the values it stands for need is an error: nothing is taken from
    what follows it. *)
Lemma zip64_value_moves data v p x p' : zip64_value data v p = Ok (x, p') -> snd x = N.of_nat (missing v).
Proof.
  unfold zip64_value, missing, zle, zbind, zget, zret. destruct (v =? 4294967295)%N; [|now intros [= <- _]].
  destruct (p + 8 <=? _)%N; cbn [bind]; [|discriminate]. now intros [= <- _].
Qed.
Lemma zip64_value_fails data v p : is_ok (zip64_value data v p) = true \/ exists e, zip64_value data v p = Err (EIo e).
Proof.
  unfold zip64_value, zle, zbind, zget, zret. destruct (v =? 4294967295)%N; [|now left].
  destruct (p + 8 <=? _)%N; cbn [bind]; [now left|eauto].
Qed.
Lemma extra_step_short data f total len0 v p d rest : ~ record_complete v (1%N, d) -> (total < len0)%N -> (len d < 256 ^ 2)%N ->
  cursor data p (extra_record (1%N, d) ++ rest) -> exists e, read_extra data (S f) total len0 v p = Err (EIo e).
Proof.
  intros Hv L B C. cbn [read_extra]. destruct (N.ltb_spec total len0); [|lia].
  unfold extra_record in C. cbn [fst snd] in C. rewrite <- !app_assoc in C. do 2 zstep C.
  destruct v as [[un co] lo]. unfold record_complete in Hv. cbn [fst snd] in Hv. change (1 =? 1)%N with true. cbv iota.
  unfold zbind. 
  destruct (zip64_value_fails data un (p + 2 + 2)%N) as [O1|[e E1]]; [|rewrite E1; cbn [bind]; eauto].
  destruct (zip64_value data un (p + 2 + 2)%N) as [[[un' d1] p1]| | | |] eqn:E1; try discriminate. apply zip64_value_moves in E1. cbn [snd bind] in *.
  destruct (zip64_value_fails data co p1) as [O2|[e E2]]; [|rewrite E2; cbn [bind]; eauto].
  destruct (zip64_value data co p1) as [[[co' d2] p2]| | | |] eqn:E2; try discriminate. apply zip64_value_moves in E2. cbn [snd bind] in *.
  destruct (zip64_value_fails data lo p2) as [O3|[e E3]]; [|rewrite E3; cbn [bind]; eauto].
  destruct (zip64_value data lo p2) as [[[lo' d3] p3]| | | |] eqn:E3; try discriminate. apply zip64_value_moves in E3. cbn [snd bind] in *.
  unfold zret. cbn [bind]. subst d1 d2 d3.
  destruct (N.ltb_spec (len d) (N.of_nat (missing un) + N.of_nat (missing co) + N.of_nat (missing lo))) as [S|S].
  - exists InvalidData. reflexivity.
  - exfalso. apply Hv. intros _. unfold len in S. lia.
Qed.
Theorem C51_too_short : forall before l d more v after,
  Forall (fun r => fst r < 65536 /\ len (snd r) < 65536)%N (l ++ [(1%N, d)]) -> records_complete v l ->
  ~ record_complete (fold_left record_values l v) (1%N, d) ->
  let data := before ++ extra_field (l ++ [(1%N, d)]) ++ more ++ after in
  exists e, read_extra data (S (length data)) 0 (len (extra_field (l ++ [(1%N, d)]) ++ more)) v (len before) = Err (EIo e).
Proof.
  intros before l d more v after F Hv Ns data. apply Forall_app in F as [F1 F2]. pose proof (Forall_inv F2) as [_ B].
  assert (X : extra_field (l ++ [(1%N, d)]) = extra_field l ++ extra_record (1%N, d)).
  { unfold extra_field. rewrite flat_map_app. cbn [flat_map]. rewrite app_nil_r. reflexivity. }
  assert (Ll : length l + 1 <= length data).
  { unfold data. rewrite !app_length, X, app_length. pose proof (extra_length l).
    assert (Lr : len (extra_record (1%N, d)) = (4 + len d)%N) by (unfold extra_record, len; rewrite !app_length, !le_length; cbn [snd]; lia).
    unfold len in *. lia. }
  replace (S (length data)) with (length l + S (S (length data - length l - 1))) by lia.
  assert (C : cursor data (len before) (extra_field l ++ extra_record (1%N, d) ++ more ++ after)).
  { unfold data. rewrite X, <- app_assoc. apply cursor_app. reflexivity. }
  assert (Lt : (len (extra_field (l ++ [(1%N, d)]) ++ more) >= len (extra_field l) + 4)%N).
  { rewrite X. unfold extra_record, len. rewrite !app_length, !le_length. lia. }
  rewrite (extra_records64 data _ l v _ 0%N (len before) _ F1 Hv C) by lia. apply cursor_move in C.
  pose proof (extra_length l) as Xl.
  eapply extra_step_short; [exact Ns| |exact B|exact C]. lia.
Qed.
Print Assumptions C51_too_short.
(** The compressed size is missing and the record has 4 bytes for it. *)
Example C51_too_short_case :
  let l := [(0x5455, b "12345")]%N in
  records_complete (13, 0xffffffff, 4)%N l /\ ~ record_complete (fold_left record_values l (13, 0xffffffff, 4)%N) (1%N, b "1234").
Proof. cbv zeta. split; [cbn; split; [discriminate|exact I]|]. vm_compute. intro H. specialize (H eq_refl). lia. Qed.

(** A zip64 archive: all three values and the directory's offset are in zip64 records. *)
Definition sample64 : archive := {|
  z_before := b "junk"; z_fixed := z_fixed sample; z_local_name := b "x"; z_local_extra := [];
  z_payload := b "abc"; z_between := b "...";
  z_made := 798; z_needed := 45; z_flags := 0; z_method := 0; z_time := 1; z_date := 2;
  z_crc := crc32 (b "abc"); z_uncompressed := 3; z_fields := (0xffffffff, 0xffffffff, 0xffffffff);
  z_name := b "x" ++ [byte_of 200]; z_extra := [(0x5455, b "12345"); (1, le 8 3 ++ le 8 3 ++ le 8 4)]; z_comment := [];
  z_disk_start := 65535; z_internal := 0; z_external := 0; z_disk := 0; z_cd_disk := 0; z_here := 1; z_total := 1;
  z_end_comment := b "bye"; z_end64 := Some {| e_made := 45; e_needed := 45; e_more := []; e_offset := 0xffffffff |} |}%N.
Example C47_zip64_met : archive_fits sample64 /\ end_unambiguous sample64 /\ extra_tolerated sample64 /\ ZipSpec.supported sample64 /\
  z_crc sample64 = crc32 (z_payload sample64) /\
  (let* (c, name) := zip_open (archive_bytes sample64) id id [] in Ok (name, crc_reads [100; 100] c)) =
  Ok (b "x" ++ encode 0xFFFD, [Ok (b "abc"); Ok []]).
Proof.
  split.
  { split; [reflexivity|]. split; [repeat constructor|]. split; [repeat constructor|]. split; [repeat constructor|]. split; [repeat constructor|].
    split; [cbn; repeat split; try discriminate; intros; lia|]. split; [vm_compute; reflexivity|]. cbn [z_end64 sample64]. repeat split. }
  split.
  { split.
    - apply (nowhere (fun k => 0 < k -> firstn 4 (skipn k (end_record sample64)) <> le 4 0x06054b50)
             (fun k => (k =? 0) || negb (bytes_eqb (firstn 4 (skipn k (end_record sample64))) (le 4 0x06054b50))) 25).
      + intros k H L E. rewrite E, bytes_eqb_refl in H. destruct k; [lia|discriminate].
      + vm_compute. reflexivity.
      + intros k L _ E. rewrite skipn_all2 in E by exact L. vm_compute in E. discriminate.
    - discriminate. }
  split; [right; split; [reflexivity|cbn; lia]|]. split; [repeat split; auto|]. split; [reflexivity|]. vm_compute. reflexivity.
Qed.

(** ** C65: whatever the bytes are, opening ends with a reader or an error; it does not panic or loop. *)
Theorem C65_total : forall data inflate bunzip plan,
  (exists x, zip_open data inflate bunzip plan = Ok x) \/ (exists e, zip_open data inflate bunzip plan = Err e).
Proof.
  intros data inflate bunzip plan. pose proof (open_calm data inflate bunzip plan) as H.
  destruct (zip_open data inflate bunzip plan); try contradiction; eauto.
Qed.
Print Assumptions C65_total.
(** A file is taken for an archive exactly if it starts with the local header's signature, and a file
    too short for that is not one (no error). *)
Theorem C65_is_zip : forall data, is_zip data = Ok (starts_with (b "PK" ++ [byte_of 3; byte_of 4]) data).
Proof.
  intro data. unfold is_zip. destruct data as [|c0 [|c1 [|c2 [|c3 d]]]]; try (vm_compute; reflexivity).
  all: unfold size; cbn [length].
  - change (N.of_nat 1 <? 4)%N with true. cbv iota. f_equal. symmetry. apply not_true_iff_false. intro H. apply starts_with_spec in H. destruct H as [t H]. discriminate.
  - change (N.of_nat 2 <? 4)%N with true. cbv iota. f_equal. symmetry. apply not_true_iff_false. intro H. apply starts_with_spec in H. destruct H as [t H]. discriminate.
  - change (N.of_nat 3 <? 4)%N with true. cbv iota. f_equal. symmetry. apply not_true_iff_false. intro H. apply starts_with_spec in H. destruct H as [t H]. discriminate.
  - destruct (N.ltb_spec (N.of_nat (S (S (S (S (length d)))))) 4); [lia|].
    assert (C : cursor (c0 :: c1 :: c2 :: c3 :: d) 0 ([c0; c1; c2; c3] ++ d)) by (split; [lia|reflexivity]).
    rewrite (zle_4 _ _ _ _ C eq_refl). cbn [bind]. f_equal.
    apply eq_true_iff_eq. rewrite N.eqb_eq, starts_with_spec. unfold LOCAL_FILE_HEADER_SIGNATURE. split.
    + intro E. pose proof (BytesProofs.le_of_le [c0; c1; c2; c3]) as X. rewrite E in X. exists d.
      change (c0 :: c1 :: c2 :: c3 :: d) with ([c0; c1; c2; c3] ++ d). rewrite <- X. reflexivity.
    + intros [t E]. cbn [app] in E. injection E as -> -> -> -> ->. reflexivity.
Qed.
Print Assumptions C65_is_zip.

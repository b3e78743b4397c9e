(** Property theorems: DC files against a specification of the format (DcLayout.v) that knows
    neither the reader nor the writer (C82, C83; C20, C21, C26 in general). *)
From Verif Require Import DcLayoutProofs DriverSpec T_Dc.

(** C82: the reader reads every file of the format: any number of columns, any user data,
    any display hints, short and long strings.  Up to seven stray bytes at the end are
    ignored (C23), and so is an I/O error there ([tl]). *)
Theorem C82_reads_every_file : forall names types rows bs junk tl,
  dc_layout names types rows bs -> length junk < 8 ->
  dc_read {| s_data := bs ++ junk; s_tail := tl |} =
    Ok ({| h_names := default_names 0 names; h_types := types |}, (rows, Ok tt)).
Proof. exact read_layout. Qed.
Print Assumptions C82_reads_every_file.

(** C83: and it reads to the end nothing else, in files below 4 GiB - 32 KiB. *)
Theorem C83_reads_only_files : forall s h rows,
  (N.of_nat (length (s_data s)) < 2 ^ 32 - 2 ^ 15)%N ->
  (dc_read s = Ok (h, (rows, Ok tt)) <->
   exists names core junk, s_data s = core ++ junk /\ length junk < 8 /\
     dc_layout names (h_types h) rows core /\ h_names h = default_names 0 names).
Proof.
  intros s h rows Hs. split; [now apply read_sound|].
  intros (names & core & junk & E & Hj & L & Hn). destruct s as [d tl], h as [hn ht]. cbn [s_data h_names h_types] in *. subst.
  now apply read_layout.
Qed.
Print Assumptions C83_reads_only_files.

(** the header alone: opening succeeds exactly on a header of the format *)
Theorem C83_opens_only_headers : forall s h,
  (N.of_nat (length (s_data s)) < 2 ^ 32 - 2 ^ 15)%N ->
  ((exists st, dc_open s = Ok st /\ dc_header st = h) <->
   exists names hb rest, s_data s = hb ++ rest /\ header_layout names (h_types h) hb /\ h_names h = default_names 0 names).
Proof.
  intros s h Hs. split.
  - intros (st & E & <-). destruct (open_sound _ _ Hs E) as (names & hb & Hl & Hn & _ & D & _). eauto 6.
  - intros (names & hb & rest & D & Hl & Hn). destruct s as [d tl], h as [hn ht]. cbn [s_data h_names h_types] in *. subst.
    pose proof Hl as (m & v & ul & u & c & cs & _ & _ & _ & _ & Hne & _).
    assert (Hb : exists n, get_bitset_bytes (length ht) = Ok n).
    { eexists. apply bitset_size. split; [now destruct ht|reflexivity]. }
    destruct Hb as [n Hb]. rewrite dc_open_eq.
    rewrite (proj1 exact_open ({| h_names := default_names 0 names; h_types := ht |}, n) hb); [|exists names; auto].
    cbn [bind]. eexists. split; reflexivity.
Qed.
Print Assumptions C83_opens_only_headers.

(** C84: what the writer writes is a file of the format, when the number of columns is at
    least 2 and not 1 modulo 8. *)
Theorem C84_writes_the_format_partial : forall h evs,
  header_fits h -> 2 <= length (h_types h) -> length (h_types h) mod 8 <> 1 ->
  Forall (row_fits h) (ev_rows evs) ->
  dc_layout (h_names h) (h_types h) (ev_rows evs) (dc_file h evs).
Proof. exact write_layout. Qed.
Print Assumptions C84_writes_the_format_partial.

(** For 1 modulo 8 columns it is not: no file with a row in it, whatever the rows, is a file
    of the format with these rows, and none reads back. *)
Lemma wrong_counts h evs : header_fits h -> 9 <= length (h_types h) -> length (h_types h) mod 8 = 1 ->
  Forall (row_fits h) (ev_rows evs) -> ev_rows evs <> [] ->
  (N.of_nat (length (dc_file h evs)) < 2 ^ 32 - 2 ^ 15)%N ->
  forall h', dc_read (file (dc_file h evs)) <> Ok (h', (ev_rows evs, Ok tt)).
Proof.
  intros Hh H9 Hm Hr Hne Hs h' E.
  assert (Hw : exists n, writer_bitset (length (h_types h)) = Ok n).
  { destruct (length (h_types h)) as [|[|k]]; try lia. cbn. eauto. }
  assert (Hb : exists w, get_bitset_bytes (length (h_types h)) = Ok w).
  { eexists. apply bitset_size. split; [lia|reflexivity]. }
  destruct Hw as [n Hw], Hb as [w Hb].
  assert (D : dc_file h evs = fst (dc_process_header h) ++ rows_bytes n (ev_rows evs)).
  { unfold dc_file. rewrite (header_bytes h Hh). cbn [fst snd]. now rewrite Hw, dc_rows_bytes_rows. }
  unfold dc_read in E. rewrite D in E, Hs. unfold file in E. rewrite (dc_open_ok h w) in E by assumption. cbn [bind dc_header] in E.
  assert (E' := f_equal (fun x => match x with Ok (_, p) => p | _ => ([], Ok tt) end) E). cbn beta iota in E'. clear E. rename E' into E. unfold dc_rows in E.
  assert (Hs' : small {| s_data := rows_bytes n (ev_rows evs); s_tail := None |}) by (unfold small; cbn [s_data]; rewrite app_length in Hs; lia).
  destruct (rows_sound (h_types h) w (with_default_names h) Hb eq_refl _ _ _ Hs' E) as (core & junk & Dc & Lj & L).
  pose proof (rows_min h n (h_types h) (ev_rows evs) eq_refl Hm H9 Hw Hr _ L) as B. cbn [dc_rest s_data] in Dc.
  apply (f_equal (@length _)) in Dc. rewrite app_length in Dc. destruct (ev_rows evs); [congruence|]. cbn [length] in B. lia.
Qed.
Theorem C84_wrong_column_counts_refuted : forall h evs,
  header_fits h -> 9 <= length (h_types h) -> length (h_types h) mod 8 = 1 ->
  Forall (row_fits h) (ev_rows evs) -> ev_rows evs <> [] ->
  (N.of_nat (length (dc_file h evs)) < 2 ^ 32 - 2 ^ 15)%N ->
  (forall names, ~ dc_layout names (h_types h) (ev_rows evs) (dc_file h evs)) /\
  (forall h', dc_read (file (dc_file h evs)) <> Ok (h', (ev_rows evs, Ok tt))).
Proof.
  intros h evs Hh H9 Hm Hr Hne Hs. pose proof (wrong_counts h evs Hh H9 Hm Hr Hne Hs) as W. split; [|exact W].
  intros names L. eapply W. pose proof (read_layout _ _ _ _ [] None L ltac:(cbn; lia)) as R. rewrite app_nil_r in R. exact R.
Qed.
Print Assumptions C84_wrong_column_counts_refuted.

(** C26 for rows: writing a row fails exactly when it has a boolean or byte buffer value, and
    then with an error. *)
Definition unsupported_value (v : fvalue) : Prop := (exists x, v = VBoolean x) \/ (exists x, v = VByteBuf x).
Theorem C26_values : forall n r,
  (Exists unsupported_value (vals r) -> exists e, snd (dc_write_row n r) = Err e) /\
  (~ Exists unsupported_value (vals r) -> snd (dc_write_row n r) = Ok tt).
Proof.
  intros n [t vs]. unfold dc_write_row. cbn [ts vals].
  assert (A : (Exists unsupported_value vs -> exists e, snd (write_values vs) = Err e) /\ (~ Exists unsupported_value vs -> snd (write_values vs) = Ok tt)).
  { induction vs as [|v vs [IH1 IH2]]; [split; [intro H; inversion H|reflexivity]|]. cbn [write_values].
    assert (D : (unsupported_value v /\ exists e, snd (write_value v) = Err e) \/ (~ unsupported_value v /\ snd (write_value v) = Ok tt)).
    { unfold unsupported_value. destruct v; cbn [write_value snd]; try (right; split; [intros [[y Y]|[y Y]]; discriminate|reflexivity]); left; split; eauto. }
    destruct (write_value v) as [w o]. cbn [snd] in D. destruct D as [[U [e ->]]|[U ->]].
    - split; [cbn; eauto|]. intro N. destruct N. now left.
    - destruct (write_values vs) as [w' o']. cbn [snd] in *. split.
      + intro X. inversion X; [contradiction|]. auto.
      + intro N. apply IH2. intro X. apply N. now right. }
  destruct (write_values vs) as [w o]. exact A.
Qed.
Print Assumptions C26_values.

(** ** Examples *)
(** a file of the format that the writer never produces: user data, a display hint, one
    column (the writer panics), a long string of three bytes *)
Definition foreign : bytes :=
  be 8 0x44434154 ++ be 2 2 ++ be 4 3 ++ b "usr" ++ be 4 1 ++
  be 4 0 ++ (be 4 18 ++ b "Ljava.lang.String;") ++ be 4 6 ++
  (be 8 7 ++ be 1 0 ++ (be 2 65535 ++ be 4 3 ++ b "abc")) ++
  (be 8 9 ++ be 1 1).
Definition foreign_rows : list row := [{| ts := 7%N; vals := [VString (b "abc")] |}; {| ts := 9%N; vals := [VNone] |}].
Example foreign_reads : dc_read (file foreign) = Ok ({| h_names := [b "col_0"]; h_types := [TString] |}, (foreign_rows, Ok tt)).
Proof. vm_compute. reflexivity. Qed.
(** its first row written out by hand *)
Example foreign_row : row_layout [TString] {| ts := 7%N; vals := [VString (b "abc")] |} (be 8 7 ++ be 1 0 ++ (be 2 65535 ++ be 4 3 ++ b "abc")).
Proof.
  exists (be 8 7), (be 1 0), (be 2 65535 ++ be 4 3 ++ b "abc"). split; [split; reflexivity|]. split; [reflexivity|]. split; [|reflexivity].
  rewrite <- (app_nil_r (be 2 65535 ++ be 4 3 ++ b "abc")). apply vs_value; [reflexivity| |constructor].
  split; [reflexivity|]. right. exists (be 2 65535), (be 4 3). split; [|split; [split; reflexivity|reflexivity]].
  split; [reflexivity|]. right. split; [cbn; lia|reflexivity].
Qed.
Example foreign_layout : dc_layout [[]] [TString] foreign_rows foreign.
Proof.
  exists (firstn 51 foreign), (skipn 51 foreign). split; [|split; [|symmetry; apply firstn_skipn]].
  - exists (be 8 0x44434154), (be 2 2), (be 4 3), (b "usr"), (be 4 1), (be 4 0 ++ (be 4 18 ++ b "Ljava.lang.String;") ++ be 4 6).
    split; [split; reflexivity|]. split; [split; reflexivity|]. split; [split; reflexivity|]. split; [split; reflexivity|].
    split; [discriminate|]. split; [|vm_compute; reflexivity].
    rewrite <- (app_nil_r (be 4 0 ++ _)). constructor; [|constructor].
    exists (be 4 0), (b "Ljava.lang.String;"), (be 4 18 ++ b "Ljava.lang.String;"), (be 4 6), 6%Z.
    split; [split; [reflexivity|]; exists (be 4 0); split; [split; reflexivity|reflexivity]|].
    split; [unfold descriptor_of; tauto|].
    split; [split; [reflexivity|]; exists (be 4 18); split; [split; reflexivity|reflexivity]|].
    split; [split; [reflexivity|]; left; split; [cbn; lia|reflexivity]|]. split; [lia|reflexivity].
  - replace (skipn 51 foreign) with ((be 8 7 ++ be 1 0 ++ (be 2 65535 ++ be 4 3 ++ b "abc")) ++ (be 8 9 ++ be 1 1) ++ []) by (vm_compute; reflexivity).
    constructor; [exact foreign_row|]. constructor; [|constructor].
    exists (be 8 9), (be 1 1), []. split; [split; reflexivity|]. split; [reflexivity|]. split; [|reflexivity].
    apply vs_null; [reflexivity|constructor].
Qed.
Example nine_columns : header_fits h9 /\ 9 <= length (h_types h9) /\ length (h_types h9) mod 8 = 1 /\
  Forall (row_fits h9) (ev_rows [EvRow row9]) /\ (N.of_nat (length (dc_file h9 [EvRow row9])) < 2 ^ 32 - 2 ^ 15)%N.
Proof.
  split; [exact (proj1 C20_nine_columns_refuted)|]. split; [cbn; lia|]. split; [reflexivity|].
  split; [constructor; [exact (proj1 (proj2 C20_nine_columns_refuted))|constructor]|]. vm_compute. reflexivity.
Qed.
Example bool_row : exists e, snd (dc_write_row 1 {| ts := 0%N; vals := [VInt 1; VBoolean true] |}) = Err e.
Proof. apply C26_values. right. left. left. eauto. Qed.

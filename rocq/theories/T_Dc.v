(** Property theorems: DC files (C20-C26).

    [dc_file h evs] are the bytes DCSink writes for header [h] and the calls [evs];
    [dc_read s] opens stream [s] with DCSource and reads it: the header, the rows, and how
    reading ended. *)
From Verif Require Import DcProofs DriverSpec.

(** C20 holds when the column count is at least 2 and not 1 modulo 8. *)
Theorem C20_roundtrip_partial : forall h evs,
  header_fits h -> 2 <= length (h_types h) -> length (h_types h) mod 8 <> 1 ->
  Forall (row_fits h) (ev_rows evs) ->
  dc_read (file (dc_file h evs)) = Ok (with_default_names h, (ev_rows evs, Ok tt)).
Proof. exact (fun h evs => dc_roundtrip h evs None). Qed.
Print Assumptions C20_roundtrip_partial.

(** It fails otherwise: with a single column nothing can be written at all, *)
Theorem C20_one_column_refuted : forall h,
  header_fits h -> length (h_types h) = 1 -> snd (dc_process_header h) = Panic.
Proof.
  exact (fun h Hh L => eq_trans (f_equal snd (header_bytes h Hh))
           (f_equal writer_bitset L : writer_bitset (length (h_types h)) = writer_bitset 1)).
Qed.
Print Assumptions C20_one_column_refuted.
(** and a file of nine columns reads back wrong. *)
Definition h9 : header :=
  {| h_names := map (fun s => b s) ["a"; "b"; "c"; "d"; "e"; "f"; "g"; "h"; "i"]%string;
     h_types := repeat TByte 9 |}.
Definition row9 : row := {| ts := 5%N; vals := map VByte [1; 2; 3; 4; 5; 6; 7; 8; 9]%N |}.
Theorem C20_nine_columns_refuted :
  header_fits h9 /\ row_fits h9 row9 /\
  dc_read (file (dc_file h9 [EvRow row9])) <> Ok (h9, ([row9], Ok tt)).
Proof.
  split; [|split].
  - split; [reflexivity|]. split; [repeat constructor; discriminate|]. split; [repeat constructor|reflexivity].
  - split; [reflexivity|]. repeat constructor.
  - vm_compute. discriminate.
Qed.
Print Assumptions C20_nine_columns_refuted.

(** C21: the two sizes agree exactly for those column counts. *)
Theorem C21_bitmap_sizes_refuted : forall n,
  (exists w, writer_bitset n = Ok w /\ get_bitset_bytes n = Ok w) <-> 2 <= n /\ n mod 8 <> 1.
Proof. exact bitset_agree. Qed.
Print Assumptions C21_bitmap_sizes_refuted.

(** C22: [s] is the truncated file ([s_tail s] says whether it ends or fails there),
    [continued s d tl] the full one. *)
Theorem C22_truncated_prefix : forall s d tl,
  (forall h rows o, dc_read s = Ok (h, (rows, o)) ->
     exists rows' o', dc_read (continued s d tl) = Ok (h, (rows', o')) /\ prefix rows rows') /\
  (forall st, dc_open (continued s d tl) = Ok st ->
     (exists st1, dc_open s = Ok st1 /\ st = dc_continued st1 d tl) \/ dc_open s = Err (end_err s)).
Proof.
  exact (fun s d tl => conj (dc_read_prefix s d tl) (fun st => dc_open_cut s st d tl)).
Qed.
Print Assumptions C22_truncated_prefix.

(** C23 fails: up to seven bytes of a row are taken for the end of the data, *)
Theorem C23_partial_timestamp_refuted : forall st,
  length (s_data (dc_rest st)) < 8 -> exists st', dc_next_row st = Ok (None, st').
Proof.
  exact (fun st H =>
    match read_be_cases 8 (dc_rest st) with
    | or_introl (conj _ L) => False_ind _ (Nat.lt_irrefl _ (Nat.lt_le_trans _ _ _ H L))
    | or_intror (conj E _) => ltac:(unfold dc_next_row; rewrite E; eauto)
    end).
Qed.
Print Assumptions C23_partial_timestamp_refuted.
(** but a row cut off after its timestamp is an error: if the row was readable from the full
    file and is not from the truncated one, which still has the timestamp, then reading
    the truncated one reports the end of file (or the I/O error that cut it off). *)
Lemma C23_proof : forall st r st' d tl,
  dc_next_row (dc_continued st d tl) = Ok (Some r, st') ->
  8 <= length (s_data (dc_rest st)) ->
  length (s_data (dc_rest st')) < length d ->
  dc_next_row st = Err (end_err (dc_rest st)).
Proof.
  intros st r st' d tl H L8 Lr.
  destruct (dc_next_row_cut _ _ _ _ _ H) as [(st1 & _ & ->)|[[_ E]|[L _]]]; [|exact E|lia].
  cbn in Lr. rewrite app_length in Lr. lia.
Qed.
Theorem C23_cut_row_partial : forall st r st' d tl,
  dc_next_row (dc_continued st d tl) = Ok (Some r, st') ->
  8 <= length (s_data (dc_rest st)) ->
  length (s_data (dc_rest st')) < length d ->
  dc_next_row st = Err (end_err (dc_rest st)).
Proof. exact C23_proof. Qed.
Print Assumptions C23_cut_row_partial.

(** C24: a string value, followed by anything. *)
Theorem C24_string_roundtrip : forall s rest tl,
  dc_string s ->
  read_string {| s_data := write_string_value s ++ rest; s_tail := tl |} =
    Ok (s, {| s_data := rest; s_tail := tl |}) /\
  length (write_string_value s) = (if (N.of_nat (length s) <=? 32767)%N then 2 else 6) + length s.
Proof.
  exact (fun s rest tl Hs => conj (reads_string s Hs rest tl)
    (string_value_length s)).
Qed.
Print Assumptions C24_string_roundtrip.

(** C25: every row takes at least nine bytes; reading ends, with at most one row per nine
    bytes of input, whatever the bytes are. *)
Lemma C25_proof : forall s st,
  dc_open s = Ok st ->
  (forall r st', dc_next_row st = Ok (Some r, st') ->
     length (s_data (dc_rest st')) + 9 <= length (s_data (dc_rest st))) /\
  snd (dc_rows st) <> NoFuel /\
  9 * length (fst (dc_rows st)) <= length (s_data (dc_rest st)) /\
  (forall f, dc_fuel (dc_rest st) <= f -> dc_read_rows f st = dc_rows st).
Proof.
  intros s st H. apply dc_open_bitset in H.
  destruct (dc_read_rows_ends (dc_fuel (dc_rest st)) st H) as [A B0]; [unfold dc_fuel; lia|].
  split; [intros r st' E; now apply (dc_next_row_progress _ _ _ H E)|]. split; [exact A|]. split; [exact B0|].
  intros f Hf. apply dc_read_rows_mono; auto.
Qed.
Theorem C25_terminates : forall s st,
  dc_open s = Ok st ->
  (forall r st', dc_next_row st = Ok (Some r, st') ->
     length (s_data (dc_rest st')) + 9 <= length (s_data (dc_rest st))) /\
  snd (dc_rows st) <> NoFuel /\
  9 * length (fst (dc_rows st)) <= length (s_data (dc_rest st)) /\
  (forall f, dc_fuel (dc_rest st) <= f -> dc_read_rows f st = dc_rows st).
Proof. exact C25_proof. Qed.
Print Assumptions C25_terminates.

(** C26: process_header fails with an error exactly for an unsupported type (a header with
    fewer than two columns is accepted by this test, but panics later: C20). *)
Lemma C26_proof : forall h,
  length (h_names h) = length (h_types h) -> 2 <= length (h_types h) ->
  (Forall supported (h_types h) -> exists n, snd (dc_process_header h) = Ok n) /\
  (~ Forall supported (h_types h) -> exists e, snd (dc_process_header h) = Err e).
Proof.
  intros h L H2. unfold dc_process_header, write_header, write_field_descriptors.
  rewrite L, Nat.eqb_refl. destruct (write_fields_reject _ _ L) as [A B0].
  destruct (write_fields (h_names h) (h_types h)) as [w o]. cbn [snd] in *. split.
  - intro S. rewrite (A S). cbn [bind]. destruct (length (h_types h)) as [|[|k]]; try lia. cbn. eauto.
  - intro S. destruct (B0 S) as [e ->]. cbn. eauto.
Qed.
Theorem C26_unsupported_rejected : forall h,
  length (h_names h) = length (h_types h) -> 2 <= length (h_types h) ->
  (Forall supported (h_types h) -> exists n, snd (dc_process_header h) = Ok n) /\
  (~ Forall supported (h_types h) -> exists e, snd (dc_process_header h) = Err e).
Proof. exact C26_proof. Qed.
Print Assumptions C26_unsupported_rejected.

(** ** The hypotheses are met *)
Definition h3 : header := {| h_names := [b "x"; []; b "s"]; h_types := [TInt; TDouble; TString] |}.
Definition rows3 : list row :=
  [{| ts := 1%N; vals := [VInt (-7); VNone; VString (b "hello")] |};
   {| ts := 18446744073709551615%N; vals := [VNone; VDouble 0x7ff8000000000000%N; VNone] |}].
Example ex_fits : header_fits h3 /\ Forall (row_fits h3) rows3.
Proof.
  split.
  - split; [reflexivity|]. split; [repeat constructor; discriminate|]. split; [repeat constructor|reflexivity].
  - constructor; [|constructor; [|constructor]].
    + split; [reflexivity|]. repeat constructor; cbn; lia.
    + split; [reflexivity|]. repeat constructor.
Qed.
Example ex_roundtrip : dc_read (file (dc_file h3 (map EvRow rows3 ++ [EvFlush]))) =
  Ok ({| h_names := [b "x"; b "col_1"; b "s"]; h_types := [TInt; TDouble; TString] |}, (rows3, Ok tt)).
Proof. vm_compute. reflexivity. Qed.
(* cut in the second row's values: one row, then an error; cut in its timestamp: a clean end *)
Example ex_cut : forall h rows o,
  dc_read (file (firstn 106 (dc_file h3 (map EvRow rows3)))) = Ok (h, (rows, o)) ->
  length rows = 1 /\ o = Err (EIo UnexpectedEof).
Proof. vm_compute. intros h rows o [= <- <- <-]. auto. Qed.
Example ex_cut_ts : forall h rows o,
  dc_read (file (firstn 100 (dc_file h3 (map EvRow rows3)))) = Ok (h, (rows, o)) ->
  length rows = 1 /\ o = Ok tt.
Proof. vm_compute. intros h rows o [= <- <- <-]. auto. Qed.
Example ex_unsupported : exists e, snd (dc_process_header
  {| h_names := [b "x"; b "y"]; h_types := [TInt; TBoolean] |}) = Err e.
Proof. eexists. reflexivity. Qed.

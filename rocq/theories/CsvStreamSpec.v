(** CSV input of which only a beginning has been received (C108, C112). *)
From Verif Require Export WholeCsvSpec.
From Verif Require Import T_CsvTime.
Local Open Scope nat_scope.

(** [csv_content], with the delimiter and the presence of a header taken from the given lines. *)
Definition csv_content_by {ch} (lower : bytes -> bytes) (f64_ok : text -> bool) (a : args) (z : option (zone ch))
  (lines : option (list bytes)) (data : bytes) (h : header) (rows : list row) : Prop :=
  exists d yes text all clean names first recs texts times col hint fmt,
    input_delimiter a lines d /\ d <> quote /\ d <> byte_of 10 /\ d <> byte_of 13 /\
    input_has_header f64_ok a lines d yes /\
    (data = text \/ data = bom ++ text) /\ (forall x, text <> bom ++ x) /\ csv_text d all text /\
    Forall2 (Forall2 trimmed) all clean /\ clean = (if yes : bool then [names] else []) ++ first :: recs /\
    Forall (fun r => length r = length first) recs /\
    h_names h = (if yes then names else map (fun i => b "col_" ++ dec (N.of_nat i)) (seq 0 (length first))) /\
    h_types h = repeat TString (length first) /\
    input_column lower a h col hint /\
    (forall x, row_text first col x -> input_format_used ch a col hint x fmt) /\
    Forall2 (fun r x => row_text r col x) (first :: recs) texts /\
    Forall2 (row_time (zone_in z) fmt) texts times /\
    rows = map (fun p => row_of (fst p) (snd p)) (combine (first :: recs) times).
Lemma content_by_lines {ch} lower f64_ok a (z : option (zone ch)) data h rows :
  csv_content lower f64_ok a z data h rows <->
  exists lines, first_lines data lines /\ csv_content_by lower f64_ok a z lines data h rows.
Proof.
  unfold csv_content, csv_content_by. split.
  - intros (lines & d & yes & text & all & clean & names & first & recs & texts & times & col & hint & fmt & F & H).
    exists lines. split; [exact F|]. exists d, yes, text, all, clean, names, first, recs, texts, times, col, hint, fmt. exact H.
  - intros (lines & F & d & yes & text & all & clean & names & first & recs & texts & times & col & hint & fmt & H).
    exists lines, d, yes, text, all, clean, names, first, recs, texts, times, col, hint, fmt. auto.
Qed.

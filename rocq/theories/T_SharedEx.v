(** C111: what happens to lines, and concrete cases. *)
From Verif Require Import SharedModel SharedSpec RouteSpec T_Shared T_Route DcgenModel DcgenSpec.

Fixpoint lines (t : bytes) : list bytes :=
  match t with
  | [] => [[]]
  | c :: t => if Ascii.eqb c (byte_of 10) then [] :: lines t
              else match lines t with l :: ls => (c :: l) :: ls | [] => [[c]] end
  end.
Lemma lines_ne t : lines t <> [].
Proof. destruct t as [|c t]; cbn [lines]; [discriminate|]. destruct (Ascii.eqb c (byte_of 10)); [discriminate|]. destruct (lines t); discriminate. Qed.
Lemma lines_app x y : lines (x ++ byte_of 10 :: y) = lines x ++ lines y.
Proof.
  induction x as [|c x IH]; [reflexivity|]. cbn [app lines]. rewrite IH. destruct (Ascii.eqb c (byte_of 10)); [reflexivity|].
  pose proof (lines_ne x). destruct (lines x); [congruence|reflexivity].
Qed.
Lemma lines_one l : ~ In (byte_of 10) l -> lines l = [l].
Proof.
  induction l as [|c l IH]; intro H; [reflexivity|]. cbn [lines]. destruct (Ascii.eqb_spec c (byte_of 10)) as [->|]; [exfalso; apply H; now left|].
  rewrite IH; [reflexivity|]. intro I. apply H. now right.
Qed.
Lemma is_line_in l text : is_line l text -> In l (lines text).
Proof.
  intros (x & y & -> & N & X & Y).
  assert (L : In l (lines (l ++ y))).
  { destruct Y as [->|(y' & ->)]; [rewrite app_nil_r, lines_one by exact N; now left|]. rewrite lines_app, lines_one by exact N. now left. }
  destruct X as [->|(x' & ->)]; [exact L|]. rewrite <- app_assoc. cbn [app]. rewrite lines_app. apply in_or_app. now right.
Qed.

(** An input of two rows with a text of 5000 bytes each, split to two outputs; the BufWriters hold
    8 KiB. *)
Definition big : header := {| h_names := [b "v"]; h_types := [TString] |}.
Definition big_row (t : N) : row := {| ts := t; vals := [VString (repeat (byte_of 120) (5 * 1000))] |}.
Definition big_src : source := [Ok (big_row 1); Ok (big_row 2)].
Definition two_outs : list (list header_sink * csv_output) := [([], csv_output_default); ([], csv_output_default)].
Definition no_f (_ : N) : bytes := b "?".
Definition split_run (h : header) (src : source) : run * res unit :=
  run_driver (10 + length src) [src] (fan_out [] (map (fun o => (fst o, csv_header_sink no_f no_f (snd o))) two_outs)) range_all [h].
Definition split_prints (h : header) (src : source) : bytes :=
  shared_stdout (8 * 1024) 2 (split_ops no_f no_f two_outs [h; h] (r_log (fst (split_run h src)))).
Definition split_text (h : header) (src : source) : bytes :=
  csv_file no_f no_f csv_output_default h (map EvRow (selected range_all src) ++ [EvFlush]).

(** C111 fails: the run succeeds and prints a line that is a line of neither output. *)
Theorem C111_torn_lines_refuted :
  snd (split_run big big_src) = Ok tt /\
  is_line (b "2,timestampNanos,v") (split_prints big big_src) /\
  ~ is_line (b "2,timestampNanos,v") (split_text big big_src).
Proof.
  split; [vm_compute; reflexivity|]. split.
  - exists (b "timestampNanos,v" ++ [byte_of 10] ++ b "1," ++ repeat (byte_of 120) (5 * 1000) ++ [byte_of 10]),
      (skipn (17 + 2 + 5 * 1000 + 1 + 18) (split_prints big big_src)).
    split; [vm_compute; reflexivity|]. split; [vm_compute; intuition discriminate|]. split.
    + right. eexists (b "timestampNanos,v" ++ [byte_of 10] ++ b "1," ++ repeat (byte_of 120) (5 * 1000)). now rewrite <- !app_assoc.
    + right. eexists (skipn (17 + 2 + 5 * 1000 + 1 + 18 + 1) (split_prints big big_src)). vm_compute. reflexivity.
  - intro L. apply is_line_in in L.
    assert (D : existsb (bytes_eqb (b "2,timestampNanos,v")) (lines (split_text big big_src)) = false) by (vm_compute; reflexivity).
    assert (D' : existsb (bytes_eqb (b "2,timestampNanos,v")) (lines (split_text big big_src)) = true); [|congruence].
    apply existsb_exists. eexists. split; [exact L|]. apply bytes_eqb_refl.
Qed.
Print Assumptions C111_torn_lines_refuted.

(** The hypotheses of C111_each_output_in_order are met by this run. *)
Example C111_case : steps big [] big [] [] /\
  Forall2 (fun o x => exists ks, steps big (fst o) (snd x) ks (fst x)) two_outs (combine [[]; []] [big; big]).
Proof. split; [constructor|]. repeat constructor; exists []; constructor. Qed.

(** examples/split.rs on examples/files/hundred.dc (which is what dcgen writes): the texts fit in the
    buffers and are printed one after the other. *)
Definition hundred_rows : source :=
  match dc_read (file (o_got (snd (dcgen 100 (reliable []))))) with
  | Ok (_, (rows, _)) => map Ok rows
  | _ => []
  end.
Example C111_hundred : length hundred_rows = 100 /\ snd (split_run example_header hundred_rows) = Ok tt /\
  split_prints example_header hundred_rows = split_text example_header hundred_rows ++ split_text example_header hundred_rows.
Proof. split; [vm_compute; reflexivity|]. split; vm_compute; reflexivity. Qed.

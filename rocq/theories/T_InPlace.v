(** Property theorems: a file that is input and output of the same run (C127). *)
From Verif Require Export InPlaceSpec.
From Verif Require Import T_WholeAny T_WholeCsv T_Whole2 T_Pack AnySpec DcProofs DriveTop ReaderProofs T_Whole T_Laws T_Options T_Program T_Writer WriterProofs CliProofs RouteProofs T_CliCsv.
Local Open Scope nat_scope.
Definition cut_reader (n : nat) (r : breader) : breader :=
  {| r_inner := cut_to n (r_inner r); r_buf := r_buf r; r_pos := r_pos r; r_cap := r_cap r |}.
Lemma give_cut n m d plan o i : m <= n -> 0 < m -> give m d None plan = (o, i) ->
  exists bs, o = Ok bs /\ i_tail i = None /\ (bs = [] -> i_data i = []) /\ length bs <= n /\
  give m (firstn n d) None plan = (Ok bs, cut_to (n - length bs) i).
Proof.
  intros Hm H0 H. unfold give in *. destruct (m =? 0) eqn:E; [apply Nat.eqb_eq in E; lia|].
  assert (G : forall x : bytes, match x, @None ioerr with
    | [], Some e => (Err (EIo e), {| i_data := []; i_tail := None; i_plan := plan |})
    | _, _ => (Ok (firstn m x), {| i_data := skipn m x; i_tail := None; i_plan := plan |}) end
    = (Ok (firstn m x), {| i_data := skipn m x; i_tail := None; i_plan := plan |})) by (intros [|]; reflexivity).
  rewrite G in H. rewrite G. injection H as <- <-. exists (firstn m d). split; [reflexivity|]. split; [reflexivity|].
  rewrite firstn_firstn, (Nat.min_l m n Hm). unfold cut_to. cbn [i_data i_tail i_plan]. split; [|split].
  - intro Q. apply firstn_nil_inv in Q; [|lia]. subst d. now destruct m.
  - rewrite firstn_length. lia.
  - do 2 f_equal. rewrite skipn_firstn_comm. destruct (Nat.le_gt_cases m (length d)) as [L|L].
    + rewrite firstn_length, (Nat.min_l m _ L). reflexivity.
    + rewrite (skipn_all2 d) by lia. now rewrite !firstn_nil.
Qed.
Lemma inner_read_cut n c i o i' : n <= c -> 0 < n -> i_tail i = None -> inner_read n i = (Ok o, i') ->
  i_tail i' = None /\ (o = [] -> i_data i' = []) /\ length o <= c /\ inner_read n (cut_to c i) = (Ok o, cut_to (c - length o) i').
Proof.
  intros Hn H0 Ht H. unfold inner_read in *. cbn [cut_to i_plan i_data i_tail]. rewrite Ht in *.
  destruct (i_plan i) as [|[k|e] plan].
  - destruct (give_cut c n _ _ _ _ Hn H0 H) as (bs & E & A & B & L & C). injection E as ->. auto.
  - destruct (give_cut c (Nat.min n (S k)) _ _ _ _ ltac:(lia) ltac:(lia) H) as (bs & E & A & B & L & C). injection E as ->. auto.
  - discriminate.
Qed.
Lemma fill_cut fuel : forall r r', i_tail (r_inner r) = None -> r_cap r <= length (r_buf r) ->
  fill_buffer_loop fuel r = (Ok tt, r') ->
  fill_buffer_loop fuel (cut_reader (length (r_buf r) - r_cap r) r) = (Ok tt, cut_reader 0 r').
Proof.
  induction fuel as [|fuel IH]; intros r r' Ht Hc H; [discriminate|]. cbn [fill_buffer_loop] in *.
  unfold fill_buffer_one_shot in *. cbn [cut_reader r_cap r_buf r_inner r_pos] in *.
  destruct (r_cap r =? length (r_buf r)) eqn:E; [discriminate|]. apply Nat.eqb_neq in E.
  destruct (inner_read (length (r_buf r) - r_cap r) (r_inner r)) as [o i] eqn:Er.
  destruct o as [bs| | | |]; try discriminate.
  destruct (inner_read_cut (length (r_buf r) - r_cap r) (length (r_buf r) - r_cap r) _ _ _ (le_n _) ltac:(lia) Ht Er) as (T & Z & L & ->). cbn [r_cap r_buf].
  set (r1 := {| r_inner := i; r_buf := ReaderModel.overwrite (r_buf r) (r_cap r) bs; r_pos := r_pos r; r_cap := r_cap r + length bs |}) in *.
  assert (Lb : length (r_buf r1) = length (r_buf r)) by (subst r1; cbn [r_buf]; apply overwrite_length; lia).
  change (ReaderModel.overwrite (r_buf r) (r_cap r) bs) with (r_buf r1). change (r_cap r + length bs) with (r_cap r1).
  assert (Lc : r_cap r1 = r_cap r + length bs) by reflexivity.
  assert (Li : r_inner r1 = i) by reflexivity. assert (Lp : r_pos r1 = r_pos r) by reflexivity. clearbody r1. rewrite Lb.
  assert (C1 : {| r_inner := cut_to (length (r_buf r) - r_cap r - length bs) i; r_buf := r_buf r1; r_pos := r_pos r; r_cap := r_cap r1 |}
    = cut_reader (length (r_buf r1) - r_cap r1) r1).
  { unfold cut_reader. rewrite Lb, Li, Lp. do 2 f_equal. lia. }
  rewrite C1. destruct (length bs =? 0) eqn:E0; cbn [orb] in *.
  - injection H as <-. f_equal. unfold cut_reader. rewrite Li. f_equal. unfold cut_to.
    rewrite (Z (proj1 (length_zero_iff_nil bs) (proj1 (Nat.eqb_eq _ _) E0))), !firstn_nil. reflexivity.
  - rewrite Lb in H. destruct (r_cap r1 =? length (r_buf r)) eqn:E1.
    + injection H as <-. f_equal. f_equal. apply Nat.eqb_eq in E1. rewrite Lb. lia.
    + apply IH; [rewrite Li; exact T| |exact H]. rewrite Lb. lia.
Qed.
Lemma previewer_cut i p : i_tail i = None -> previewer_new i = Ok p -> previewer_new (cut_to DEFAULT_BUF_SIZE i) = Ok (emptied p).
Proof.
  intros Ht H. unfold previewer_new, previewer_with in *. set (c := DEFAULT_BUF_SIZE) in *. clearbody c. unfold fill_buffer in *.
  destruct (fill_buffer_loop (S (length (r_buf (with_capacity c i)))) (with_capacity c i)) as [o r] eqn:E.
  destruct o as [[]| | | |]; try discriminate. cbn [bind] in H.
  pose proof (fill_cut _ (with_capacity c i) r Ht (Nat.le_0_l _) E) as X. cbn [with_capacity r_buf r_cap] in X.
  rewrite Nat.sub_0_r in X.
  assert (W : with_capacity c (cut_to c i) = cut_reader (length (repeat zero c)) (with_capacity c i)) by (rewrite repeat_length; reflexivity).
  change (r_buf (with_capacity c (cut_to c i))) with (repeat zero c). rewrite W, X. cbn [bind].
  change (get_lines_from_reader (cut_reader 0 r)) with (get_lines_from_reader r).
  destruct (get_lines_from_reader r) as [ls|]; [|discriminate]. injection H as <-. reflexivity.
Qed.

(** ** A file that ends early is read as what is left of an emptied one *)
Section Open.
Context {S : Type} (ds : decoders) (inflate bunzip : inner -> inner) (sfs : list (factory S)).
Lemma zip_cut data : ~ looks_like_zip data -> ~ looks_like_zip (firstn DEFAULT_BUF_SIZE data).
Proof. intros H [t E]. apply H. exists (t ++ skipn DEFAULT_BUF_SIZE data). rewrite app_assoc, <- E. symmetry. apply firstn_skipn. Qed.
Lemma cut_opens w path f name fmt : local_file w path f -> f_seekable f = true -> ~ looks_like_zip (i_data (f_reads f)) ->
  named path name -> utf8 name = true ->
  create_source_from_path ds inflate bunzip (ends_after DEFAULT_BUF_SIZE path w) None sfs fmt path =
  (let* p := previewer_new (cut_to DEFAULT_BUF_SIZE (f_reads f)) in
   let* s := create_source_from_previewer ds sfs p (Some name) fmt in Ok (Some s)).
Proof.
  intros (A & B & C & D) Sk Nz Nm U.
  apply (open_plain ds inflate bunzip _ sfs fmt path {| f_reads := cut_to DEFAULT_BUF_SIZE (f_reads f); f_seekable := f_seekable f |}); auto.
  - unfold local_file, ends_after. cbn [w_exists w_is_dir w_open]. rewrite bytes_eqb_refl, D. auto.
  - apply zip_cut, Nz.
Qed.
End Open.

(** ** The buffer holds everything back *)
Section Held.
Variables (cap : nat) (o : outer).
Lemma held_all bs w : length (bw_buf w) + length bs < cap ->
  bw_write_all cap bs w = (Ok tt, {| bw_buf := bw_buf w ++ bs; bw_out := bw_out w |}).
Proof.
  intro H. unfold bw_write_all. destruct bs as [|c t]; [destruct w; cbn; now rewrite app_nil_r|]. cbn [length write_loop].
  unfold bw_write. cbn [length] in *.
  destruct (Nat.ltb_spec cap (length (bw_buf w) + S (length t))); [lia|]. destruct (Nat.leb_spec cap (S (length t))); [lia|].
  cbn [Nat.eqb]. rewrite skipn_all2 by (cbn [length]; lia). now destruct (length t).
Qed.
Lemma held_pieces ps : forall w, length (bw_buf w) + length (concat ps) < cap ->
  write_pieces cap ps w = (Ok tt, {| bw_buf := bw_buf w ++ concat ps; bw_out := bw_out w |}).
Proof.
  induction ps as [|p ps IH]; intros w H; cbn [write_pieces concat] in *; [destruct w; cbn; now rewrite app_nil_r|].
  rewrite app_length in H. rewrite held_all by lia. rewrite IH; cbn [bw_buf bw_out]; rewrite ?app_length; [|lia]. now rewrite app_assoc.
Qed.
Variables (cut : option row -> bytes -> list bytes) (p : printer).
Hypothesis Hcut : cuts cut.
Lemma held_events rows : forall w, length (bw_buf w) + length (concat (map (fun r => fst (p_row p r)) rows)) < cap ->
  bw_out (after_events cap cut p (map EvRow rows) w) = bw_out w.
Proof.
  induction rows as [|r rows IH]; intros w H; [reflexivity|]. cbn [map concat after_events put_event] in *. rewrite app_length in H.
  unfold put. rewrite held_pieces by (rewrite Hcut; lia). cbn [snd fst]. destruct (snd (p_row p r)) as [[]| | | |]; cbn [snd];
  rewrite IH; cbn [bw_buf bw_out]; auto; rewrite Hcut, app_length; lia.
Qed.
Lemma held rows : length (fst (p_header p)) + length (concat (map (fun r => fst (p_row p r)) rows)) < cap ->
  o_got (bw_out (after_events cap cut p (map EvRow rows) (snd (after_header cap o cut p)))) = o_got o.
Proof.
  intro H. unfold after_header, put. rewrite held_pieces by (rewrite Hcut; cbn [bw_new bw_buf length]; lia). cbn [snd].
  rewrite held_events; [reflexivity|]. cbn [bw_buf bw_new app]. rewrite Hcut. lia.
Qed.
End Held.

Section InPlace.
Context (prof : profile) (ch : chrono) (lower : bytes -> bytes) (f64_ok : text -> bool).
Variable split : byte -> stream -> list (res (list bytes)).
Variables (ds : decoders) (inflate bunzip : inner -> inner) (f64 f32 : N -> bytes).
Variables (zones : option (bytes -> option (zone ch))) (parse_zone : bytes -> option (zone ch)).
Variables (create : bytes -> res unit) (cut : option row -> bytes -> list bytes).
Local Notation cli := (chopper_cli prof ch lower f64_ok split ds inflate bunzip f64 f32 None None zones parse_zone create).
Local Notation in_place := (chop_in_place prof ch lower f64_ok split ds f64 f32 zones parse_zone create cut).
Local Notation left_to_read := (open_then_empty prof ch lower f64_ok split ds).
Local Notation args_of := (parse_args prof ch zones parse_zone).
Local Notation factories op := (all_factories prof ch lower f64_ok split None (op_csv_in ch op)).
Local Notation columns w op path := (match create_source_from_path ds inflate bunzip w None (factories op) InputModel.Auto path with
                                     | Ok (Some (h, _)) => Some h | _ => None end).

Lemma one_path op w a path out s e : args_of w (asked a [path] out s e) = Ok op ->
  op_inputs ch op = [{| in_type := Path path; in_format := InputModel.Auto |}].
Proof.
  unfold parse_args. destruct (resolve_timezone _ _ _ _); try discriminate. cbn [bind].
  destruct (timestamp_range _ _ _ _ _); try discriminate. cbn [bind]. change (a_formats (asked a [path] out s e)) with (@None (list bytes)).
  change (a_inputs (asked a [path] out s e)) with (Some [path]).
  rewrite (proj1 (C55_defaults [path] ltac:(discriminate))). cbn [bind].
  destruct (csv_input_options _ _); try discriminate. cbn [bind]. destruct (csv_output_options _ _); try discriminate.
  intros [= <-]. reflexivity.
Qed.
Lemma concat_perm {A B} (f : A -> list B) l l' : Permutation l l' -> length (concat (map f l)) = length (concat (map f l')).
Proof. induction 1; cbn; rewrite ?app_length in *; lia. Qed.
Lemma concat_firstn {A B} (f : A -> list B) n : forall l, length (concat (map f (firstn n l))) <= length (concat (map f l)).
Proof. induction n as [|n IH]; intros [|x l]; cbn; rewrite ?app_length; try lia. specialize (IH l). lia. Qed.

(** The run sees the file as if it ended after the first 8 KiB, ... *)
Theorem C127_only_the_beginning : forall F w a k path other s e data out,
  cuts cut -> choppable w path data -> output_is k (Some path) -> output_is k (Some other) -> create path = Ok tt ->
  (* the header is in that part *)
  (forall op, args_of w (asked a [path] (Some path) s e) = Ok op -> columns w op path = columns (ends_after DEFAULT_BUF_SIZE path w) op path) ->
  run_ok (cli F (ends_after DEFAULT_BUF_SIZE path w) (asked a [path] (Some other) s e)) out -> length out < BUF_WRITER ->
  run_ok (in_place F w (asked a [path] (Some path) s e) InputModel.Auto path) out /\
  (* ... and nothing is written to it before its last row has been read *)
  forall op h rows kind n,
    args_of w (asked a [path] (Some path) s e) = Ok op -> left_to_read (op_csv_in ch op) w InputModel.Auto path = Ok (h, rows) ->
    new_header_sink (Some path) (Some (op_csv_out ch op)) = Ok kind ->
    reached f64 f32 cut kind h (map EvRow (firstn n (selected (op_range ch op) rows))) = [].
Proof.
  intros F w a k path other s e data out Hcut (_ & f & name & L & Sk & Nm & U & Hd & Ht & Nz) Op Oo Hcr Hcol R Hlen.
  rewrite <- Hd in Nz. set (v := ends_after DEFAULT_BUF_SIZE path w) in *.
  unfold run_ok, chopper_cli in R.
  change (args_of v (asked a [path] (Some other) s e)) with (args_of w (asked a [path] (Some path) s e)) in R.
  destruct (args_of w (asked a [path] (Some path) s e)) as [op| | | |] eqn:Ea; try discriminate R.
  specialize (Hcol op eq_refl). pose proof (one_path op w a path (Some path) s e Ea) as Hin.
  unfold run_chop in R. rewrite Hin in R. cbn [open_inputs] in R. unfold create_source_from_input in R. cbn [in_type in_format dir_file_transport dt_can_handle] in R.
  assert (Dv : w_is_dir v path = false) by apply L. rewrite Dv in R.
  pose proof (cut_opens ds inflate bunzip (factories op) w path f name InputModel.Auto L Sk Nz Nm U) as Ev.
  pose proof (open_plain ds inflate bunzip w (factories op) InputModel.Auto path f name L Sk Nz Nm U) as Ew.
  fold v in Ev. rewrite Ev in Hcol, R. rewrite Ew in Hcol.
  destruct (previewer_new (cut_to DEFAULT_BUF_SIZE (f_reads f))) as [q| | | |] eqn:Eq; try discriminate R. cbn [bind] in R, Hcol.
  destruct (create_source_from_previewer ds (factories op) q (Some name) InputModel.Auto) as [[h rows]| | | |] eqn:Er; try discriminate R.
  cbn [bind] in R, Hcol.
  destruct (previewer_new (f_reads f)) as [p| | | |] eqn:Ep; try discriminate Hcol. cbn [bind] in Hcol.
  destruct (create_source_from_previewer ds (factories op) p (Some name) InputModel.Auto) as [[h0 rows0]| | | |] eqn:Es; try discriminate Hcol.
  cbn [bind] in Hcol. injection Hcol as ->.
  pose proof (previewer_cut (f_reads f) p Ht Ep) as Eq'. rewrite Eq in Eq'. injection Eq' as ->.
  assert (Left : left_to_read (op_csv_in ch op) w InputModel.Auto path = Ok (h, rows)).
  { unfold open_then_empty. destruct L as (_ & _ & _ & Ho). rewrite Ho. cbn [bind]. rewrite Ep. cbn [bind].
    unfold get_file_name. rewrite (named_file_name _ _ Nm), U. cbn [bind]. rewrite Es. cbn [bind]. rewrite Er. reflexivity. }
  cbn [asked a_output] in R. rewrite (T_Laws.kind_of k (op_csv_out ch op) _ Oo) in R.
  set (ko := out_of k (op_csv_out ch op) (Some other)) in *. set (kp := out_of k (op_csv_out ch op) (Some path)).
  destruct (match kind_path ko with Some p => create p | None => Ok tt end) as [u| | | |]; try discriminate R.
  destruct (chop F [(h, rows)] (kind_sink f64 f32 ko) (op_range ch op)) as [st r] eqn:Ec. cbn [length] in R.
  assert (Oh : output_header [(h, rows)] = Some h) by reflexivity. rewrite Oh in R. injection R as R ->.
  assert (Kk : kind_sink f64 f32 kp = kind_sink f64 f32 ko) by (destruct k; reflexivity).
  assert (Kb : forall evs, kind_bytes f64 f32 kp h evs = kind_bytes f64 f32 ko h evs) by (destruct k; reflexivity).
  assert (Kp : kind_path kp = Some path) by (destruct k; reflexivity).
  rewrite <- Kk in Ec. rewrite <- Kb in R.
  destruct (chop F [(h, rows)] (io_header_sink f64 f32 BUF_WRITER (reliable []) cut kp) (op_range ch op)) as [st' r'] eqn:Ec'.
  assert (Hh : forall i, In i [(h, rows)] -> fst i = h) by (intros i [<-|[]]; reflexivity).
  assert (Hne : [(h, rows)] <> []) by discriminate.
  destruct (io_core f64 f32 BUF_WRITER (reliable []) cut Hcut eq_refl F _ _ kp h _ _ _ _ Hne Hh Ec Ec') as (_ & _ & C).
  assert (Wl : willing (reliable [])) by (split; [reflexivity|constructor]).
  destruct (C Wl) as [C1 C2]. cbn [length] in C1. rewrite R in C1. specialize (C2 eq_refl). subst r'.
  split.
  - unfold run_ok, chop_in_place. rewrite Ea, Left. cbn [asked a_output]. rewrite (T_Laws.kind_of k (op_csv_out ch op) _ Op). fold kp.
    rewrite Kp, Hcr, Ec'. f_equal. f_equal. exact C1.
  - intros op0 h0 rows0' kind n E0 El Ek. injection E0 as <-. rewrite Left in El. injection El as <- <-.
    rewrite (T_Laws.kind_of k (op_csv_out ch op) _ Op) in Ek. injection Ek as <-. fold kp. unfold reached.
    rewrite (held BUF_WRITER (reliable []) cut _ Hcut); [reflexivity|].
    destruct (chop_ok_headers F _ _ _ st Hne Ec) as (h1 & h' & sk & Hh1 & Eks). pose proof (Hh1 _ (or_introl eq_refl)) as X. cbn [fst] in X. subst h1.
    destruct (chop_ok F _ _ _ h h' sk st Hne Hh Eks Ec) as (_ & Pm & _). cbn [length] in Pm.
      rewrite kind_bytes_calls in R. apply (f_equal (@length _)) in R. rewrite app_length in R.
      unfold calls_bytes in R. set (calls := events_at (r_log st) (out_chain 1) (out_node 1)) in *.
      assert (Eb : concat (map (ev_bytes (kind_printer f64 f32 kp h)) calls) = concat (map (fun r => fst (p_row (kind_printer f64 f32 kp h) r)) (ev_rows calls))).
      { clear. induction calls as [|[r|] calls IH]; cbn; congruence. }
      rewrite Eb in R. cbn [map concat snd] in Pm. rewrite app_nil_r in Pm. rewrite (concat_perm _ _ _ Pm) in R.
      pose proof (concat_firstn (fun r => fst (p_row (kind_printer f64 f32 kp h) r)) n (selected (op_range ch op) rows)). lia.
Qed.

(** A small file can be chopped in place: the file ends up as any other output would. *)
Theorem C127_small_partial : forall F w a k path other s e data out,
  cuts cut -> choppable w path data -> output_is k (Some path) -> output_is k (Some other) -> create path = Ok tt ->
  length data <= 8 * 1024 ->
  run_ok (cli F w (asked a [path] (Some other) s e)) out -> length out < 8 * 1024 ->
  run_ok (in_place F w (asked a [path] (Some path) s e) InputModel.Auto path) out.
Proof.
  intros F w a k path other s e data out Hcut Ch Op Oo Hcr Hs R Hlen.
  pose proof Ch as (_ & f & name & L & Sk & Nm & U & Hd & Ht & Nz). rewrite <- Hd in Nz.
  assert (Same : cut_to DEFAULT_BUF_SIZE (f_reads f) = f_reads f).
  { unfold cut_to. rewrite firstn_all2 by (rewrite Hd; exact Hs). now destruct (f_reads f). }
  assert (Eo : forall op, create_source_from_path ds inflate bunzip (ends_after DEFAULT_BUF_SIZE path w) None (factories op) InputModel.Auto path =
                          create_source_from_path ds inflate bunzip w None (factories op) InputModel.Auto path).
  { intro op. rewrite (cut_opens ds inflate bunzip (factories op) w path f name InputModel.Auto L Sk Nz Nm U), Same.
    symmetry. exact (open_plain ds inflate bunzip w (factories op) InputModel.Auto path f name L Sk Nz Nm U). }
  refine (proj1 (C127_only_the_beginning F w a k path other s e data out Hcut Ch Op Oo Hcr _ _ Hlen)).
  - intros op _. now rewrite Eo.
  - unfold run_ok in *. rewrite <- R. unfold chopper_cli.
    change (args_of (ends_after DEFAULT_BUF_SIZE path w) (asked a [path] (Some other) s e)) with (args_of w (asked a [path] (Some other) s e)).
    destruct (args_of w (asked a [path] (Some other) s e)) as [op| | | |] eqn:Ea; try reflexivity.
    unfold run_chop. rewrite (one_path op w a path (Some other) s e Ea). cbn [open_inputs]. unfold create_source_from_input.
    cbn [in_type in_format dir_file_transport dt_can_handle]. rewrite Eo.
    change (w_is_dir (ends_after DEFAULT_BUF_SIZE path w)) with (w_is_dir w).
    assert (Dw : w_is_dir w path = false) by apply L. rewrite Dw. reflexivity.
Qed.
End InPlace.

(** What a DC file of more than 8 KiB comes to: the rows of the first 8 KiB, as if nothing were wrong. *)
Section Dc.
Local Notation in_range := StreamSpec.in_range.
Context (prof : profile) (ch : chrono) (lower : bytes -> bytes) (f64_ok : text -> bool).
Variables (ds : decoders) (inflate bunzip : inner -> inner) (f64 f32 : N -> bytes).
Variables (zones : option (bytes -> option (zone ch))) (parse_zone : bytes -> option (zone ch)).
Variables (create : bytes -> res unit) (cut : option row -> bytes -> list bytes).
Local Notation cli := (chopper_cli prof ch lower f64_ok csv_records ds inflate bunzip f64 f32 None None zones parse_zone create).
Local Notation in_place := (chop_in_place prof ch lower f64_ok csv_records ds f64 f32 zones parse_zone create cut).
Local Notation args_of := (parse_args prof ch zones parse_zone).
Local Notation meant a w z := (zone_meant (a_timezone a) (w_env_tz w) zones parse_zone z).
Local Notation rows_of_file h rows := (dc_file h (map EvRow rows)).

Lemma dc_run F w a z u h rows path out s e op : 3 <= F -> meant a w z -> granularity a u ->
  args_of w (asked a [path] (Some out) s e) = Ok op -> output_is KDc (Some out) -> create out = Ok tt ->
  dc_header_ok h -> Forall (row_fits h) rows -> time_ordered rows -> has_rows (op_range ch op) rows ->
  plain_file w path (b ".dc") (rows_of_file h rows) ->
  run_ok (cli F w (asked a [path] (Some out) s e)) (rows_of_file h (filter (in_range (op_range ch op)) rows)).
Proof.
  intros HF Hz Hu Ea Ho Hc Hh Hr Hs Hhas Hf.
  assert (Eb : forall rs, rows_of_file h rs = head_of KDc (op_csv_out ch op) h ++ concat (map (line_of f64 f32 KDc (op_csv_out ch op) h) rs)).
  { intro rs. pose proof (bytes_of f64 f32 KDc (op_csv_out ch op) None h (map EvRow rs)) as Y.
    replace (ev_rows (map EvRow rs)) with rs in Y by (clear; induction rs; cbn; congruence). exact Y. }
  destruct (law_run prof ch lower f64_ok ds inflate bunzip f64 f32 zones parse_zone create KDc F w a op z u h [path] (Some out) s e [rows])
    as (out_rows & R & Pm & So & Te); auto.
  - intros p [= <-]. exact Hc.
  - split; [exact Hh|]. constructor; [exact Hr|constructor].
  - constructor; [|constructor]. split; [|split; assumption].
    apply (dc_given ch lower f64_ok ds inflate bunzip f64 f32 w a z (op_csv_out ch op)); auto. rewrite <- Eb. exact Hf.
  - assert (E : out_rows = filter (in_range (op_range ch op)) rows).
    { apply by_times_unique; [exact So|now apply filter_sorted|]. intro t. rewrite Te. cbn [rev app map concat]. now rewrite app_nil_r. }
    rewrite Eb, <- E. exact R.
Qed.
Lemma dc_not_zip h rows : dc_header_ok h -> ~ looks_like_zip (rows_of_file h rows).
Proof. intro H. apply dc_no_zip, H. Qed.

Theorem C127_rows_lost : forall F w a z u h kept lost path other s e op,
  3 <= F -> cuts cut -> meant a w z -> granularity a u -> args_of w (asked a [path] (Some path) s e) = Ok op ->
  output_is KDc (Some path) -> output_is KDc (Some other) -> create path = Ok tt -> create other = Ok tt ->
  dc_header_ok h -> Forall (row_fits h) (kept ++ lost) -> time_ordered (kept ++ lost) -> has_rows (op_range ch op) kept ->
  plain_file w path (b ".dc") (rows_of_file h (kept ++ lost)) -> length (rows_of_file h kept) = 8 * 1024 ->
  length (rows_of_file h (filter (in_range (op_range ch op)) kept)) < 8 * 1024 ->
  run_ok (cli F w (asked a [path] (Some other) s e)) (rows_of_file h (filter (in_range (op_range ch op)) (kept ++ lost))) /\
  run_ok (in_place F w (asked a [path] (Some path) s e) InputModel.Auto path) (rows_of_file h (filter (in_range (op_range ch op)) kept)).
Proof.
  intros F w a z u h kept lost path other s e op HF Hcut Hz Hu Ea Op Oo Hcp Hco Hh Hr Hs Hhas Hf Hk Hlen.
  assert (Hrk : Forall (row_fits h) kept) by (apply Forall_app in Hr; apply Hr).
  assert (Hsk : time_ordered kept).
  { clear - Hs. apply Sorted_StronglySorted in Hs; [|exact ts_le_trans]. apply StronglySorted_Sorted.
    induction kept as [|r kept IH]; [constructor|]. cbn in Hs. apply StronglySorted_inv in Hs as [A B]. constructor; [auto|].
    apply Forall_app in B. apply B. }
  assert (Hhas' : has_rows (op_range ch op) (kept ++ lost)).
  { destruct Hhas as (r & A & B). exists r. split; [apply in_or_app; now left|exact B]. }
  assert (App : exists t, rows_of_file h (kept ++ lost) = rows_of_file h kept ++ t).
  { unfold dc_file. rewrite map_app. destruct (snd (dc_process_header h)) as [n| | | |].
    - exists (dc_rows_bytes n (map EvRow lost)). rewrite <- app_assoc. f_equal. clear.
      induction kept as [|r kept IH]; [reflexivity|]. cbn [map app dc_rows_bytes]. rewrite IH. now rewrite <- ?app_assoc.
    - exists []. now rewrite ?app_nil_r.
    - exists []. now rewrite ?app_nil_r.
    - exists []. now rewrite ?app_nil_r.
    - exists []. now rewrite ?app_nil_r. }
  destruct App as [t App].
  assert (Cut : plain_file (ends_after DEFAULT_BUF_SIZE path w) path (b ".dc") (rows_of_file h kept)).
  { destruct Hf as (f & core & (L1 & L2 & L3 & L4) & Sk & Nm & U & D & T & Sm).
    exists {| f_reads := cut_to DEFAULT_BUF_SIZE (f_reads f); f_seekable := f_seekable f |}, core.
    split; [|split; [exact Sk|split; [exact Nm|split; [exact U|]]]].
    - unfold local_file, ends_after. cbn [w_exists w_is_dir w_open]. rewrite bytes_eqb_refl, L4. auto.
    - cbn [f_reads cut_to i_data i_tail i_plan]. split; [|auto]. rewrite D, App, firstn_app.
      replace (DEFAULT_BUF_SIZE - length (rows_of_file h kept)) with 0 by (unfold DEFAULT_BUF_SIZE; lia). cbn [firstn]. rewrite app_nil_r.
      apply firstn_all2. unfold DEFAULT_BUF_SIZE. lia. }
  assert (Ch : choppable w path (rows_of_file h (kept ++ lost))).
  { split; [exists KDc; exact Op|]. destruct Hf as (f & core & L & Sk & Nm & U & D & T & Sm). exists f, (core ++ b ".dc").
    do 6 (split; [assumption|]). now apply dc_not_zip. }
  split; [eapply dc_run; eauto|].
  assert (Opens : forall v rows op', args_of v (asked a [path] (Some path) s e) = Ok op' -> w_env_tz v = w_env_tz w ->
     Forall (row_fits h) rows -> plain_file v path (b ".dc") (rows_of_file h rows) ->
     create_source_from_path ds inflate bunzip v None (all_factories prof ch lower f64_ok csv_records None (op_csv_in ch op')) InputModel.Auto path
       = Ok (Some (h, map Ok rows))).
  { intros v rows op' Ev Tz Hrv Hfv.
    assert (Hzv : meant (asked a [path] (Some path) s e) v z) by (rewrite Tz; exact Hz).
    assert (G : input_gives lower f64_ok ds inflate bunzip v a z h InputModel.Auto (Path path) rows).
    { apply (dc_given ch lower f64_ok ds inflate bunzip f64 f32 v a z (op_csv_out ch op)); auto.
      pose proof (bytes_of f64 f32 KDc (op_csv_out ch op) None h (map EvRow rows)) as Y.
      replace (ev_rows (map EvRow rows)) with rows in Y by (clear; induction rows; cbn; congruence). rewrite <- Y. exact Hfv. }
    apply (gives_asked ch lower f64_ok ds inflate bunzip v a [path] (Some path) s e) in G.
    destruct (T_CliCsv.parsed prof ch zones parse_zone _ _ _ Ev) as (z' & ci & co & Hz' & Hci & _ & Eci & _).
    assert (z' = z) by (eapply zone_det; eauto). subst z'. rewrite <- Eci in Hci. clear Eci ci.
    inversion G as [path' rs Fg| |path' entries files rowss Hd]; subst.
    - exact (proj2 (file_gives_opens prof ch lower f64_ok ds inflate bunzip v _ z _ h Hci InputModel.Auto path rows Fg)).
    - destruct Hfv as (f & core & (_ & L2 & _) & _). congruence. }
  refine (proj1 (C127_only_the_beginning prof ch lower f64_ok csv_records ds inflate bunzip f64 f32 zones parse_zone create cut
    F w a KDc path other s e _ _ Hcut Ch Op Oo Hcp _ _ Hlen)).
  - intros op' Ea'. rewrite (Opens w (kept ++ lost) op' Ea' eq_refl Hr Hf).
    rewrite (Opens (ends_after DEFAULT_BUF_SIZE path w) kept op' Ea' eq_refl Hrk Cut). reflexivity.
  - eapply dc_run; eauto.
Qed.
End Dc.

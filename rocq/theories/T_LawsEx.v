(** Concrete runs for C123-C126: three DC files, merged at once, in stages, in pieces and in another order. *)
From Verif Require Export T_Laws T_WholeEx.
Local Open Scope nat_scope.

Definition law_time : N := 1600000000000000000.
Definition law_row (t : N) (s : bytes) (n : Z) : row := demo_row (law_time + t - 100) s n.
Definition law_p : list row := [law_row 90 (b "P") 1; law_row 105 (b "P") 2].
Definition law_q : list row := [law_row 93 (b "Q") 3; law_row 101 (b "Q") 4; law_row 120 (b "Q") 5].
Definition law_r : list row := [law_row 92 (b "R") 6; law_row 110 (b "R") 7].
Definition law_files : list (bytes * list row) := [(b "p.dc", law_p); (b "q.dc", law_q); (b "r.dc", law_r)].
Fixpoint law_open (extra : list (bytes * bytes)) (p : bytes) : res handle :=
  let f bs := {| f_reads := reads_as [Chunk 3] bs; f_seekable := true |} in
  match extra with
  | (q, bs) :: t => if bytes_eqb p q then Ok (f bs) else law_open t p
  | [] => match find (fun e => bytes_eqb p (fst e)) law_files with
          | Some (_, rows) => Ok (f (dc_file demo_header (map EvRow rows)))
          | None => Err (EIo (OtherIo 2))
          end
  end.
Definition law_world (extra : list (bytes * bytes)) : world :=
  {| w_exists := fun p => is_ok (law_open extra p); w_is_dir := fun _ => false; w_read_dir := fun _ => Err (EIo (OtherIo 2));
     w_open := law_open extra; w_http := fun _ => Err (EIo (OtherIo 2)); w_stdin := reads_as [] []; w_env_tz := None |}.
Definition law_args : args := demo_args [] None.
Definition law_run_of (extra : list (bytes * bytes)) (a : args) : outcome :=
  chopper_cli Debug counting (fun s => s) (fun _ => false) csv_records no_decoders (fun i => i) (fun i => i)
    (fun _ => []) (fun _ => []) None None None demo_known demo_create 9 (law_world extra) a.
Definition law_mid (extra : list (bytes * bytes)) (a : args) : bytes :=
  match o_written (law_run_of extra a) with Some bs => bs | None => [] end.
Definition begin_text : bytes := b "1599999999".
Definition mid_text : bytes := b "1600000000".
Definition end_text : bytes := b "1600000001".

(** What the runs give: at once; in stages; in two pieces; in another order. *)
Example C123_output :
  let parts := asked law_args [b "q.dc"; b "r.dc"] (Some (b "mid.dc")) None None in
  law_run_of [] (asked law_args [b "p.dc"; b "q.dc"; b "r.dc"] None None (Some end_text)) =
  law_run_of [(b "mid.dc", law_mid [] parts)] (asked law_args [b "p.dc"; b "mid.dc"] None None (Some end_text)).
Proof. vm_compute. reflexivity. Qed.
Example C124_output :
  let ins := [b "p.dc"; b "q.dc"; b "r.dc"] in
  let line n s v := b "1" ++ dec n ++ b "," ++ s ++ b "," ++ dec v ++ nl in
  let hd := b "timestampNanos,sym,px" ++ nl in
  let l1 := line 599999999999999990%N (b "P") 1%N ++ line 599999999999999992%N (b "R") 6%N ++ line 599999999999999993%N (b "Q") 3%N in
  let l2 := line 600000000000000001%N (b "Q") 4%N ++ line 600000000000000005%N (b "P") 2%N ++ line 600000000000000010%N (b "R") 7%N ++ line 600000000000000020%N (b "Q") 5%N in
  law_mid [] (asked law_args ins None None (Some mid_text)) = hd ++ l1 /\
  law_mid [] (asked law_args ins None (Some mid_text) (Some end_text)) = hd ++ l2 /\
  law_mid [] (asked law_args ins None None (Some end_text)) = hd ++ l1 ++ l2.
Proof. vm_compute. repeat split. Qed.

(** ** The hypotheses *)
Local Notation gives w a path rows := (input_gives (ch := counting) (fun s => s) (fun _ => false) no_decoders (fun i => i) (fun i => i) w a None demo_header InputModel.Auto (Path path) rows).
Lemma law_smooth : smooth [Chunk 3].
Proof. intros e He. cbn in He. intuition discriminate. Qed.
Lemma law_fits rows : In rows (map snd law_files) -> Forall (row_fits demo_header) rows.
Proof.
  cbn [law_files map snd]. intros [<-|[<-|[<-|[]]]]; repeat (apply Forall_cons; [apply demo_row_fits; [reflexivity|split; reflexivity|lia]|]); constructor.
Qed.
Lemma law_gives extra a path rows : In (path, rows) law_files -> (forall e, In e extra -> fst e <> path) -> gives (law_world extra) a path rows.
Proof.
  intros H Hx. constructor. exists path, (dc_file demo_header (map EvRow rows)), (dc_file demo_header (map EvRow rows)), KDc.
  assert (Hr : Forall (row_fits demo_header) rows) by (apply law_fits, in_map_iff; exists (path, rows); auto).
  assert (Ho : law_open extra path = Ok {| f_reads := reads_as [Chunk 3] (dc_file demo_header (map EvRow rows)); f_seekable := true |}).
  { clear Hr. induction extra as [|[q bs] extra IH].
    - cbn [law_open]. cbn [law_files] in H. destruct H as [E|[E|[E|[]]]]; injection E as <- <-; reflexivity.
    - cbn [law_open]. destruct (bytes_eqb path q) eqn:E.
      + apply bytes_eqb_eq in E. destruct (Hx (q, bs) (or_introl eq_refl)). now symmetry.
      + apply IH. intros e He. apply Hx. now right. }
  assert (Nm : named path path /\ utf8 path = true /\ exists core, path = core ++ b ".dc").
  { cbn [law_files] in H. destruct H as [E|[E|[E|[]]]]; injection E as <- <-; (split; [split; [left; reflexivity|];
      split; [cbn; intuition discriminate|]; split; [discriminate|]; split; discriminate|]); (split; [reflexivity|]).
    - now exists (b "p"). - now exists (b "q"). - now exists (b "r"). }
  destruct Nm as (Nm & U & core & Ec). split; [|split].
  - apply (holds_itself _ _ _ path path _ {| f_reads := reads_as [Chunk 3] (dc_file demo_header (map EvRow rows)); f_seekable := true |}); [|reflexivity|exact Nm|exact U| |].
    + split; [cbn; now rewrite Ho|]. split; [reflexivity|]. split; [|exact Ho].
      clear - H. cbn [law_files] in H. destruct H as [E|[E|[E|[]]]]; injection E as <- _; reflexivity.
    + split; [reflexivity|]. split; [reflexivity|exact law_smooth].
    + apply dc_no_zip, demo_header_ok.
  - left. exists path. split; [reflexivity|]. constructor. rewrite Ec. constructor.
  - exists (map EvRow rows). split; [reflexivity|]. split; [clear; induction rows; cbn; congruence|]. split; [exact demo_header_ok|exact Hr].
Qed.
Definition law_opts (rng : ts_range) (ins : list bytes) : options counting :=
  match parse_args Debug counting None demo_known (law_world []) (asked law_args ins None None None) with
  | Ok o => {| op_range := rng; op_inputs := op_inputs _ o; op_csv_in := op_csv_in _ o; op_csv_out := op_csv_out _ o |}
  | _ => {| op_range := rng; op_inputs := []; op_csv_in := {| ci_delimiter := None; ci_has_header := No; ci_col := CfgAuto; ci_fmt := FmtAuto; ci_tz := None |};
            op_csv_out := csv_output_default |}
  end.
Lemma law_args_ok extra ins out s e rng : In ins [[b "p.dc"; b "q.dc"; b "r.dc"]; [b "r.dc"; b "p.dc"; b "q.dc"]; [b "q.dc"; b "r.dc"]; [b "mid.dc"]; [b "p.dc"; b "mid.dc"]] ->
  timestamp_range Debug counting s e None = Ok rng ->
  parse_args Debug counting None demo_known (law_world extra) (asked law_args ins out s e) = Ok (law_opts rng ins).
Proof.
  intros Hi Hr. unfold parse_args. change (resolve_timezone _ _ _ _) with (@Ok (option (zone counting)) None). cbn [bind].
  change (a_begin (asked law_args ins out s e)) with s. change (a_end (asked law_args ins out s e)) with e.
  unfold zone_in, option_map. rewrite Hr. cbn [bind].
  cbn in Hi. destruct Hi as [<-|[<-|[<-|[<-|[<-|[]]]]]]; reflexivity.
Qed.
Lemma law_range_all : timestamp_range Debug counting None None None = Ok {| tr_begin := None; tr_end := None |}.
Proof. reflexivity. Qed.
Lemma law_range_first : timestamp_range Debug counting None (Some mid_text) None = Ok {| tr_begin := None; tr_end := Some law_time |}.
Proof. vm_compute. reflexivity. Qed.
Lemma law_range_second : timestamp_range Debug counting (Some mid_text) (Some end_text) None = Ok {| tr_begin := Some law_time; tr_end := Some (law_time + 1000000000)%N |}.
Proof. vm_compute. reflexivity. Qed.
Lemma law_range_whole : timestamp_range Debug counting None (Some end_text) None = Ok {| tr_begin := None; tr_end := Some (law_time + 1000000000)%N |}.
Proof. vm_compute. reflexivity. Qed.
Lemma law_range_from : timestamp_range Debug counting (Some mid_text) None None = Ok {| tr_begin := Some law_time; tr_end := None |}.
Proof. vm_compute. reflexivity. Qed.
Lemma law_ordered rows : In rows (map snd law_files) -> time_ordered rows.
Proof.
  cbn [law_files map snd]. intros [<-|[<-|[<-|[]]]]; repeat (constructor; try (unfold ts_le; cbn; lia)).
Qed.
Lemma law_first rows e : In rows (map snd law_files) -> (law_time <= e)%N -> has_rows {| tr_begin := None; tr_end := Some e |} rows.
Proof.
  intros H He. destruct rows as [|r rows]; [exfalso; cbn [law_files map snd] in H; destruct H as [H|[H|[H|[]]]]; discriminate H|]. exists r. split; [now left|].
  unfold StreamSpec.in_range, from_begin, before_end. cbn [tr_begin tr_end andb]. apply N.ltb_lt.
  cbn [law_files map snd] in H. assert (X : (ts r < law_time)%N); [|lia].
  destruct H as [E|[E|[E|[]]]]; unfold law_p, law_q, law_r in E; injection E as <- _; reflexivity.
Qed.
Lemma law_last rows s e : In rows (map snd law_files) -> (s <= law_time)%N -> match e with Some e => (law_time + 100 < e)%N | None => True end ->
  has_rows {| tr_begin := Some s; tr_end := e |} rows.
Proof.
  intros H Hs He. assert (X : exists r, In r rows /\ (law_time < ts r < law_time + 100)%N).
  { cbn [law_files map snd] in H. destruct H as [E|[E|[E|[]]]]; subst rows;
      [exists (law_row 105 (b "P") 2)|exists (law_row 101 (b "Q") 4)|exists (law_row 110 (b "R") 7)]; (split; [cbn; auto|split; reflexivity]). }
  destruct X as (r & Hr & T). exists r. split; [exact Hr|]. unfold StreamSpec.in_range, from_begin, before_end. cbn [tr_begin tr_end].
  apply andb_true_intro. split; [apply N.leb_le; lia|]. destruct e as [e|]; [apply N.ltb_lt; lia|reflexivity].
Qed.
Lemma law_can k rss : (forall rs, In rs rss -> In rs (map snd law_files)) -> can_hold (ch := counting) k law_args None demo_header rss.
Proof.
  intro H. destruct k; cbn [can_hold].
  - split; discriminate.
  - split; [exact demo_header_ok|]. apply Forall_forall. intros rs Hrs. apply law_fits, H, Hrs.
Qed.
Lemma law_file bs : plain_file (law_world [(b "mid.dc", bs)]) (b "mid.dc") (b ".dc") bs.
Proof.
  exists {| f_reads := reads_as [Chunk 3] bs; f_seekable := true |}, (b "mid").
  split; [split; [reflexivity|split; [reflexivity|split; reflexivity]]|]. split; [reflexivity|]. split.
  { split; [left; reflexivity|]. split; [cbn; intuition discriminate|]. split; [discriminate|]. split; discriminate. }
  split; [reflexivity|]. split; [reflexivity|]. split; [reflexivity|exact law_smooth].
Qed.
Ltac law_in := cbn [law_files map snd In]; auto 10.

Example C123_demo : exists written result,
  run_ok (law_run_of [] (asked law_args [b "q.dc"; b "r.dc"] (Some (b "mid.dc")) None None)) written /\
  run_ok (law_run_of [] (asked law_args ([b "p.dc"] ++ [b "q.dc"; b "r.dc"] ++ []) None (Some mid_text) None)) result /\
  run_ok (law_run_of [(b "mid.dc", written)] (asked law_args ([b "p.dc"] ++ [b "mid.dc"] ++ []) (Some (b "o.csv")) (Some mid_text) None)) result.
Proof.
  destruct (C123_stages Debug counting (fun s => s) (fun _ => false) no_decoders (fun i => i) (fun i => i) (fun _ => []) (fun _ => []) None demo_known demo_create
    KCsv 9 (law_world []) law_args None Nanos demo_header [b "p.dc"] [b "q.dc"; b "r.dc"] [] (b "mid.dc") None (Some (b "o.csv")) None None (Some mid_text) None
    (law_opts {| tr_begin := None; tr_end := None |} [b "q.dc"; b "r.dc"]) (law_opts {| tr_begin := Some law_time; tr_end := None |} [b "p.dc"; b "q.dc"; b "r.dc"])
    [law_p] [law_q; law_r] []) as (written & R1 & Go).
  - lia.
  - left. auto.
  - constructor.
  - apply law_args_ok; [cbn; auto|reflexivity].
  - apply law_args_ok; [cbn; auto|exact law_range_from].
  - now exists (b "mid.").
  - reflexivity.
  - now left.
  - discriminate.
  - right. now exists (b "o.").
  - reflexivity.
  - apply law_can. intros rs [<-|[<-|[]]]; law_in.
  - apply law_can. intros rs [<-|[<-|[<-|[]]]]; law_in.
  - repeat (apply Forall2_cons; [apply law_gives; [law_in|intros e []]|]). constructor.
  - reflexivity.
  - reflexivity.
  - repeat (apply Forall_cons; [split; [apply law_ordered; law_in|apply law_last; [law_in|apply N.le_refl|exact I]]|]). constructor.
  - reflexivity.
  - destruct (Go (law_world [(b "mid.dc", written)]) eq_refl (law_file written)) as (result & A & B).
    + apply Forall2_cons; [|constructor]. apply law_gives; [law_in|]. intros e [<-|[]]. discriminate.
    + exists written, result. auto.
Qed.

Example C124_demo : exists head line rows1 rows2, written_as (fun _ => []) (fun _ => []) KCsv law_args (@None (zone counting)) Nanos demo_header head line /\
  run_ok (law_run_of [] (asked law_args [b "p.dc"; b "q.dc"; b "r.dc"] (Some (b "1.csv")) None (Some mid_text))) (head ++ concat (map line rows1)) /\
  run_ok (law_run_of [] (asked law_args [b "p.dc"; b "q.dc"; b "r.dc"] (Some (b "2.csv")) (Some mid_text) (Some end_text))) (head ++ concat (map line rows2)) /\
  run_ok (law_run_of [] (asked law_args [b "p.dc"; b "q.dc"; b "r.dc"] None None (Some end_text))) (head ++ concat (map line rows1) ++ concat (map line rows2)) /\
  length rows1 = 3 /\ length rows2 = 4.
Proof.
  destruct (C124_pieces Debug counting (fun s => s) (fun _ => false) no_decoders (fun i => i) (fun i => i) (fun _ => []) (fun _ => []) None demo_known demo_create
    KCsv 9 (law_world []) law_args None Nanos demo_header [b "p.dc"; b "q.dc"; b "r.dc"] (Some (b "1.csv")) (Some (b "2.csv")) None None mid_text (Some end_text)
    (law_opts {| tr_begin := None; tr_end := Some law_time |} [b "p.dc"; b "q.dc"; b "r.dc"])
    (law_opts {| tr_begin := Some law_time; tr_end := Some (law_time + 1000000000)%N |} [b "p.dc"; b "q.dc"; b "r.dc"])
    [law_p; law_q; law_r]) as (head & line & rows1 & rows2 & W & R1 & R2 & R & P1 & P2).
  - lia.
  - left. auto.
  - constructor.
  - apply law_args_ok; [cbn; auto|exact law_range_first].
  - apply law_args_ok; [cbn; auto|exact law_range_second].
  - apply Forall_cons; [split; [right; now exists (b "1.")|reflexivity]|]. apply Forall_cons; [split; [right; now exists (b "2.")|reflexivity]|].
    apply Forall_cons; [split; [now left|discriminate]|constructor].
  - apply law_can. intros rs [<-|[<-|[<-|[]]]]; law_in.
  - repeat (apply Forall2_cons; [split; [apply law_gives; [law_in|intros e []]|split; [apply law_ordered; law_in|split;
      [apply law_first; [law_in|apply N.le_refl]|apply law_last; [law_in|apply N.le_refl|reflexivity]]]]|]). constructor.
  - exists head, line, rows1, rows2. rewrite (Permutation_length P1), (Permutation_length P2). auto 10.
Qed.

Lemma law_apart x y : forallb (fun r => forallb (fun q => negb (ts r =? ts q)%N) y) x = true -> forall r q, In r x -> In q y -> ts r <> ts q.
Proof.
  intros H r q Hr Hq E. rewrite forallb_forall in H. specialize (H r Hr). rewrite forallb_forall in H. specialize (H q Hq).
  rewrite E, N.eqb_refl in H. discriminate H.
Qed.
Example C125_demo : exists result,
  run_ok (law_run_of [] (asked law_args [b "p.dc"; b "q.dc"; b "r.dc"] None None None)) result /\
  run_ok (law_run_of [] (asked law_args [b "r.dc"; b "p.dc"; b "q.dc"] None None None)) result.
Proof.
  destruct (C125_input_order Debug counting (fun s => s) (fun _ => false) no_decoders (fun i => i) (fun i => i) (fun _ => []) (fun _ => []) None demo_known demo_create
    KCsv 9 (law_world []) law_args None Nanos demo_header [b "p.dc"; b "q.dc"; b "r.dc"] [b "r.dc"; b "p.dc"; b "q.dc"] None None None None
    (law_opts {| tr_begin := None; tr_end := None |} [b "p.dc"; b "q.dc"; b "r.dc"])
    [law_p; law_q; law_r] [law_r; law_p; law_q]) as (head & line & rows & rows' & W & R & R' & _ & _ & _ & E).
  - lia.
  - left. auto.
  - constructor.
  - apply law_args_ok; [cbn; auto|reflexivity].
  - repeat (apply Forall_cons; [split; [now left|discriminate]|]). constructor.
  - apply law_can. intros rs [<-|[<-|[<-|[]]]]; law_in.
  - repeat (apply Forall2_cons; [split; [apply law_gives; [law_in|intros e []]|split; [apply law_ordered; law_in|eexists; split; [left; reflexivity|reflexivity]]]|]). constructor.
  - reflexivity.
  - cbn [combine]. apply Permutation_sym. eapply Permutation_trans; [apply perm_swap|]. apply perm_skip. apply perm_swap.
  - rewrite <- E in R'; [eexists; split; [exact R|exact R']|]. intros i j x y r q Hx Hy Hr Hq T.
    destruct i as [|[|[|i]]], j as [|[|[|j]]]; try reflexivity; try (destruct i; discriminate Hx); try (destruct j; discriminate Hy); exfalso;
      cbn [nth_error] in Hx, Hy; injection Hx as <-; injection Hy as <-; refine (law_apart _ _ _ r q Hr Hq T); vm_compute; reflexivity.
Qed.

Example C126_demo : exists written result,
  run_ok (law_run_of [] (asked law_args [b "q.dc"; b "r.dc"] (Some (b "mid.dc")) (Some mid_text) None)) written /\
  run_ok (law_run_of [] (asked law_args [b "q.dc"; b "r.dc"] None (Some mid_text) (Some end_text))) result /\
  run_ok (law_run_of [(b "mid.dc", written)] (asked law_args [b "mid.dc"] None None (Some end_text))) result.
Proof.
  destruct (C126_ranges Debug counting (fun s => s) (fun _ => false) no_decoders (fun i => i) (fun i => i) (fun _ => []) (fun _ => []) None demo_known demo_create
    KCsv 9 (law_world []) law_args None Nanos demo_header [b "q.dc"; b "r.dc"] (b "mid.dc") None None (Some mid_text) None None (Some end_text) (Some mid_text) (Some end_text)
    (law_opts {| tr_begin := Some law_time; tr_end := None |} [b "q.dc"; b "r.dc"])
    (law_opts {| tr_begin := None; tr_end := Some (law_time + 1000000000)%N |} [b "mid.dc"])
    (law_opts {| tr_begin := Some law_time; tr_end := Some (law_time + 1000000000)%N |} [b "q.dc"; b "r.dc"])
    [law_q; law_r]) as (written & R1 & Go).
  - lia.
  - left. auto.
  - constructor.
  - apply law_args_ok; [cbn; auto|exact law_range_from].
  - apply law_args_ok; [cbn; auto 10|exact law_range_whole].
  - apply law_args_ok; [cbn; auto|exact law_range_second].
  - intro r. unfold StreamSpec.in_range, from_begin, before_end. cbn. now rewrite andb_true_r.
  - now exists (b "mid.").
  - reflexivity.
  - now left.
  - discriminate.
  - now left.
  - discriminate.
  - apply law_can. intros rs [<-|[<-|[]]]; law_in.
  - apply law_can. intros rs [<-|[<-|[]]]; law_in.
  - repeat (apply Forall2_cons; [split; [apply law_gives; [law_in|intros e []]|split; [apply law_ordered; law_in|apply law_last; [law_in|apply N.le_refl|reflexivity]]]|]). constructor.
  - destruct (Go (law_world [(b "mid.dc", written)]) eq_refl (law_file written)) as (result & A & B). exists written, result. auto.
Qed.

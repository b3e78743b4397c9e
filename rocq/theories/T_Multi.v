(** Multi-file and directory input: C32-C35. *)
From Verif Require Import MultiProofs2 SortProofs.

(** C32: whatever files are opened one after the other, with the header of the first file or an
    external one as common header, each row delivered from a file carries under each common
    column the value of that file's column of the same name and type ([serial]). *)
Theorem C32_columns_realigned : forall P (open : P -> res (option (header * source))) paths st,
  Forall (fun p => source_wf (open p)) paths ->
  multi_new open paths None = Ok st ->
  match paths with
  | [] => m_common st = {| h_names := []; h_types := [] |}
  | p :: _ => exists s, open p = Ok (Some (m_common st, s))
  end /\
  exists out, serial (m_common st) (map open paths) out /\ forall n, drain open n st = firstn n out.
Proof. exact @multi_serial. Qed.
Print Assumptions C32_columns_realigned.
Theorem C32_external_header : forall P (open : P -> res (option (header * source))) p ps c st,
  header_wf c -> Forall (fun p => source_wf (open p)) (p :: ps) ->
  multi_new open (p :: ps) (Some c) = Ok st ->
  m_common st = c /\
  exists out, serial c (map open (p :: ps)) out /\ forall n, drain open n st = firstn n out.
Proof. exact @multi_serial_ext. Qed.
Print Assumptions C32_external_header.

(** If no file fails, that is every row of every file, files in the order given. *)
Definition opens_ok (f : res (option (header * source))) (h : header) (rows : list row) : Prop :=
  f = Ok (Some (h, map Ok rows)).
Lemma map_ok_app_neq rows (rows' : list row) (e : res row) t :
  is_ok e = false -> map Ok rows = map Ok rows' ++ e :: t -> False.
Proof.
  intros He H. assert (I : In e (map Ok rows)) by (rewrite H; apply in_or_app; right; left; reflexivity).
  apply in_map_iff in I as (r & <- & _). discriminate.
Qed.
Lemma map_ok_inj (x y : list row) : map Ok x = map Ok y -> x = y.
Proof.
  revert y. induction x as [|r x IH]; intros [|s y] H; try discriminate; [reflexivity|].
  cbn in H. injection H as -> H. f_equal. auto.
Qed.
Lemma serial_all common files hs rowss : forall out,
  header_wf common ->
  Forall2 (fun f hr => opens_ok f (fst hr) (snd hr)) files (combine hs rowss) ->
  length hs = length files -> length rowss = length files ->
  Forall (fun h => header_wf h /\ has_columns common h /\ types_agree common h) hs ->
  serial common files out ->
  exists outs, out = map Ok (concat outs) /\
    Forall2 (fun hr rows' => exists pick, picks_columns common (fst hr) pick /\
                Forall2 (realigned pick) (snd hr) rows') (combine hs rowss) outs.
Proof.
  revert hs rowss. induction files as [|f files IH]; intros hs rowss out Wc F L1 L2 Hs S.
  - inversion S; subst. exists []. destruct hs; [|discriminate]. split; [reflexivity|constructor].
  - destruct hs as [|h hs]; [discriminate|]. destruct rowss as [|rows rowss]; [discriminate|].
    cbn [combine] in *. inversion F as [|? ? ? ? Ho F']; subst. cbn [fst snd] in Ho.
    unfold opens_ok in Ho. subst f. inversion Hs as [|? ? Hh Hs']; subst.
    inversion S; subst.
    + match goal with E : map Ok _ = map Ok _ |- _ => apply map_ok_inj in E; subst end.
      match goal with Sx : serial common files ?o |- _ =>
        destruct (IH hs rowss o Wc F' ltac:(cbn in *; lia) ltac:(cbn in *; lia) Hs' Sx) as (outs & -> & F2) end.
      exists (rows' :: outs). cbn [concat]. rewrite map_app. split; [reflexivity|].
      constructor; [|exact F2]. cbn. eauto.
    + exfalso. match goal with E : map Ok _ ++ _ = map Ok _ |- _ => symmetry in E; eapply map_ok_app_neq in E; eauto end.
    + exfalso. tauto.
    + discriminate.
Qed.
Lemma C32_every_row_proof P (open : P -> res (option (header * source))) p ps (hs : list header) (rowss : list (list row)) :
  Forall (fun p => source_wf (open p)) (p :: ps) ->
  Forall2 (fun p hr => opens_ok (open p) (fst hr) (snd hr)) (p :: ps) (combine hs rowss) ->
  length hs = length (p :: ps) -> length rowss = length (p :: ps) ->
  Forall (fun h => has_columns (hd h hs) h /\ types_agree (hd h hs) h) hs ->
  exists st common outs, multi_new open (p :: ps) None = Ok st /\
    hd_error hs = Some common /\ m_common st = common /\
    (forall n, drain open n st = firstn n (map Ok (concat outs))) /\
    Forall2 (fun hr rows' => exists pick, picks_columns common (fst hr) pick /\
                Forall2 (realigned pick) (snd hr) rows') (combine hs rowss) outs.
Proof.
  intros W F L1 L2 Hs. destruct hs as [|h hs]; [discriminate|]. destruct rowss as [|rows rowss]; [discriminate|].
  cbn [combine] in *. inversion F as [|? ? ? ? Ho F']; subst. cbn [fst snd] in Ho. unfold opens_ok in Ho.
  assert (E : exists st, multi_new open (p :: ps) None = Ok st).
  { unfold multi_new, create_source. rewrite Ho. cbn [bind]. eauto. }
  destruct E as [st E]. pose proof (multi_serial open (p :: ps) st W E) as ((s & Es) & out & S & D).
  rewrite Ho in Es. injection Es as Eh _.
  exists st, h. rewrite <- Eh in S.
  assert (Wh : header_wf h).
  { inversion W as [|? ? W1 W2]; subst. rewrite Ho in W1. destruct W1. assumption. }
  destruct (serial_all h (map open (p :: ps)) (h :: hs) (rows :: rowss) out) as (outs & -> & F2); auto.
  - cbn [map combine]. constructor; [exact Ho|].
    clear - F'. remember (combine hs rowss) as l. clear Heql.
    induction F'; cbn; constructor; auto.
  - rewrite map_length. exact L1.
  - rewrite map_length. exact L2.
  - cbn [hd] in Hs.
    assert (Wall : Forall header_wf (h :: hs)).
    { constructor; [exact Wh|]. clear - F' W L1 L2. inversion W as [|? ? _ W2]; subst. clear W.
      cbn in L1, L2. revert hs rowss L1 L2 F'. induction W2 as [|q qs Hq W2 IH]; intros hs rowss L1 L2 F'.
      - destruct hs; [constructor|discriminate].
      - destruct hs as [|h' hs]; [discriminate|]. destruct rowss as [|r' rowss]; [discriminate|].
        cbn in *. inversion F' as [|? ? ? ? Ho F2]; subst. cbn in Ho. unfold opens_ok in Ho. rewrite Ho in Hq.
        destruct Hq as [Hq _]. constructor; [exact Hq|]. eapply IH; [..|eassumption]; lia. }
    rewrite Forall_forall in *. intros x Hx. specialize (Hs x Hx). specialize (Wall x Hx). tauto.
  - exists outs. cbn [hd_error]. auto.
Qed.
Theorem C32_every_row : forall P (open : P -> res (option (header * source))) p ps (hs : list header) (rowss : list (list row)),
  Forall (fun p => source_wf (open p)) (p :: ps) ->
  Forall2 (fun p hr => opens_ok (open p) (fst hr) (snd hr)) (p :: ps) (combine hs rowss) ->
  length hs = length (p :: ps) -> length rowss = length (p :: ps) ->
  Forall (fun h => has_columns (hd h hs) h /\ types_agree (hd h hs) h) hs ->
  exists st common outs, multi_new open (p :: ps) None = Ok st /\
    hd_error hs = Some common /\ m_common st = common /\
    (forall n, drain open n st = firstn n (map Ok (concat outs))) /\
    Forall2 (fun hr rows' => exists pick, picks_columns common (fst hr) pick /\
                Forall2 (realigned pick) (snd hr) rows') (combine hs rowss) outs.
Proof. exact C32_every_row_proof. Qed.
Print Assumptions C32_every_row.

(** C33 is refuted by every file whose columns start with the common header's and go on:
    its rows are delivered at their own width. *)
Lemma C33_proof P (open : P -> res (option (header * source))) p1 p2 h1 h2 r1 r2 :
  open p1 = Ok (Some (h1, [Ok r1])) -> open p2 = Ok (Some (h2, [Ok r2])) ->
  header_wf h1 -> header_wf h2 -> extends h1 h2 ->
  exists st, multi_new open [p1; p2] None = Ok st /\ m_common st = h1 /\
    forall n, 2 < n -> drain open n st = [Ok r1; Ok r2].
Proof.
  intros E1 E2 W1 W2 X. unfold multi_new, create_source. rewrite E1. cbn [bind].
  eexists. split; [reflexivity|]. split; [reflexivity|]. intros n Hn.
  rewrite (drain_out open h1) by reflexivity. unfold state_out. cbn [m_cur m_map m_paths files_out].
  unfold create_source. rewrite E2. cbn [bind]. rewrite (check_headers_extends h1 h2 W1 W2 X). cbn.
  apply firstn_all2. cbn. lia.
Qed.
Theorem C33_wider_file_refuted : forall P (open : P -> res (option (header * source))) p1 p2 h1 h2 r1 r2,
  open p1 = Ok (Some (h1, [Ok r1])) -> open p2 = Ok (Some (h2, [Ok r2])) ->
  header_wf h1 -> header_wf h2 -> extends h1 h2 ->
  exists st, multi_new open [p1; p2] None = Ok st /\ m_common st = h1 /\
    forall n, 2 < n -> drain open n st = [Ok r1; Ok r2].
Proof. exact C33_proof. Qed.
Print Assumptions C33_wider_file_refuted.

(** What holds: if no file properly extends the common header, every row delivered is as wide
    as the common header. *)
Definition fits_common (common : header) (f : res (option (header * source))) : Prop :=
  match f with
  | Ok (Some (h, _)) => extends common h -> length (h_names h) = length (h_names common)
  | _ => True
  end.
Definition as_wide (common : header) (x : res row) : Prop :=
  match x with Ok r => length (vals r) = length (h_names common) | _ => True end.
Lemma file_out_wide common h m s rest :
  (forall r, length (vals r) = length (h_names h) -> exists r', realign m r = Ok r' /\ length (vals r') = length (h_names common)) ->
  Forall (fun x => match x with Ok r => length (vals r) = length (h_names h) | _ => True end) s ->
  Forall (as_wide common) rest -> Forall (as_wide common) (file_out m s rest).
Proof.
  intros Hm Fs Fr. induction Fs as [|x s Hx Fs IH]; [exact Fr|].
  destruct x as [r|e| | |]; cbn [file_out]; try (repeat constructor).
  destruct (Hm r Hx) as (r' & -> & L). constructor; [exact L|exact IH].
Qed.
Lemma check_wide common h m : header_wf common -> header_wf h ->
  (extends common h -> length (h_names h) = length (h_names common)) ->
  check_headers common h = Ok m ->
  forall r, length (vals r) = length (h_names h) -> exists r', realign m r = Ok r' /\ length (vals r') = length (h_names common).
Proof.
  intros Wc Wh X E r Hr. destruct (realign_spec common h m Wc Wh E) as (pick & Pk & H).
  destruct (H r Hr) as (r' & A & B & L). exists r'. split; [exact A|]. rewrite L.
  destruct m; [|reflexivity].
  destruct (check_headers_spec common h [] Wc Wh E) as (_ & [(_ & _ & X')|(Mv & Ne)]).
  - apply X, X'.
  - exfalso. destruct Mv as (P & _ & _ & Lm & _). cbn in Lm. rewrite <- Lm in Ne. cbn in Ne. congruence.
Qed.
Lemma files_out_wide {P} (open : P -> res (option (header * source))) common paths :
  header_wf common -> Forall (fun p => source_wf (open p)) paths ->
  Forall (fun p => fits_common common (open p)) paths ->
  Forall (as_wide common) (files_out open common paths).
Proof.
  intros Wc F G. induction F as [|p ps Hp F IH]; [constructor|].
  inversion G as [|? ? Hg G']; subst. cbn [files_out]. unfold create_source.
  destruct (open p) as [[[h s]|]|e| | |]; cbn [bind]; try (repeat constructor).
  destruct Hp as [Wh Hs].
  destruct (check_headers common h) as [m|e| | |] eqn:E; try (repeat constructor).
  apply (file_out_wide common h); auto. apply check_wide; auto.
Qed.
Lemma C33_partial_proof P (open : P -> res (option (header * source))) paths ext st :
  Forall (fun p => source_wf (open p)) paths ->
  (forall h, ext = Some h -> header_wf h) ->
  multi_new open paths ext = Ok st ->
  Forall (fun p => fits_common (m_common st) (open p)) paths ->
  forall n r, In (Ok r) (drain open n st) -> length (vals r) = length (h_names (m_common st)).
Proof.
  intros F We E G n r I. rewrite (drain_out open (m_common st)) in I by reflexivity.
  assert (A : Forall (as_wide (m_common st)) (state_out open (m_common st) st)).
  { unfold multi_new in E. destruct paths as [|p ps].
    - injection E as <-. constructor.
    - inversion F as [|? ? Hp F']; subst. unfold create_source in E.
      destruct (open p) as [[[h s]|]|e| | |] eqn:Ep; cbn [bind] in E; try discriminate.
      destruct Hp as [Wh Hs]. destruct ext as [c|].
      + destruct (check_headers c h) as [m|e| | |] eqn:Em; cbn [bind] in E; try discriminate.
        injection E as <-. cbn [m_common] in *. unfold state_out. cbn [m_cur m_map m_paths].
        inversion G as [|? ? Hg G']; subst. rewrite Ep in Hg.
        apply (file_out_wide c h); auto.
        * apply check_wide; auto.
        * apply files_out_wide; auto.
      + injection E as <-. cbn [m_common] in *. unfold state_out. cbn [m_cur m_map m_paths].
        inversion G as [|? ? Hg G']; subst.
        apply (file_out_wide h h); auto.
        * intros r0 Hr0. exists r0. split; [reflexivity|exact Hr0].
        * apply files_out_wide; auto. }
  rewrite Forall_forall in A.
  assert (In (Ok r) (state_out open (m_common st) st)) as I'.
  { clear - I. revert I. generalize (state_out open (m_common st) st). induction n; intros l H; [destruct H|].
    destruct l; [destruct H|]. destruct H as [->|H]; [left; reflexivity|right; auto]. }
  exact (A _ I').
Qed.
Theorem C33_width_partial : forall P (open : P -> res (option (header * source))) paths ext st,
  Forall (fun p => source_wf (open p)) paths ->
  (forall h, ext = Some h -> header_wf h) ->
  multi_new open paths ext = Ok st ->
  Forall (fun p => fits_common (m_common st) (open p)) paths ->
  forall n r, In (Ok r) (drain open n st) -> length (vals r) = length (h_names (m_common st)).
Proof. exact C33_partial_proof. Qed.
Print Assumptions C33_width_partial.

(** C34: a directory's regular entries, each once, in ascending path order, concatenated. *)
Lemma C34_proof open t path entries :
  dt_is_dir t path = true -> dt_read_dir t path = Ok entries ->
  Forall (fun p => source_wf (open p)) entries ->
  exists files,
    Permutation (filter (fun e => negb (dt_is_dir t e)) entries) files /\
    StronglySorted path_le files /\
    dir_source open t path = multi_new open files None /\
    forall st, dir_source open t path = Ok st ->
      match files with
      | [] => m_common st = {| h_names := []; h_types := [] |}
      | p :: _ => exists s, open p = Ok (Some (m_common st, s))
      end /\
      exists out, serial (m_common st) (map open files) out /\ forall n, drain open n st = firstn n out.
Proof.
  intros H1 H2 W. destruct (files_in_dir_spec t path entries H1 H2) as (fr & E & Pm & S).
  exists (provider_paths fr). split; [exact Pm|]. split; [exact S|].
  unfold dir_source. rewrite E. cbn [bind]. split; [reflexivity|].
  intros st Hst. apply multi_serial; [|exact Hst].
  apply (Permutation_Forall Pm). rewrite Forall_forall in *. intros x Hx. apply W. apply filter_In in Hx. tauto.
Qed.
Theorem C34_directory : forall open t path entries,
  dt_is_dir t path = true -> dt_read_dir t path = Ok entries ->
  Forall (fun p => source_wf (open p)) entries ->
  exists files,
    Permutation (filter (fun e => negb (dt_is_dir t e)) entries) files /\
    StronglySorted path_le files /\
    dir_source open t path = multi_new open files None /\
    forall st, dir_source open t path = Ok st ->
      match files with
      | [] => m_common st = {| h_names := []; h_types := [] |}
      | p :: _ => exists s, open p = Ok (Some (m_common st, s))
      end /\
      exists out, serial (m_common st) (map open files) out /\ forall n, drain open n st = firstn n out.
Proof. exact C34_proof. Qed.
Print Assumptions C34_directory.
(** Entries of one directory compare by their names, byte by byte. *)
Theorem C34_order_of_names : forall d x y, d <> [] -> plain_name x -> plain_name y ->
  path_cmp (d ++ "/"%char :: x) (d ++ "/"%char :: y) = bytes_cmp x y.
Proof. exact path_cmp_join. Qed.
Print Assumptions C34_order_of_names.

(** C35: a file with all common columns, those of the same name having the same type, is
    accepted; one where some common column has no counterpart of its name and type is not. *)
Lemma C35_proof common file : header_wf common -> header_wf file ->
  (has_columns common file -> types_agree common file -> exists m, check_headers common file = Ok m) /\
  ((exists j name, nth_error (h_names common) j = Some name /\
      forall k, nth_error (h_names file) k = Some name ->
        nth_error (h_types file) k <> nth_error (h_types common) j) ->
   exists e, check_headers common file = Err e).
Proof.
  intros Wc Wf. split; [intros; apply check_headers_accepts; assumption|].
  intros (j & name & Hj & H). destruct (check_headers_total common file Wc Wf) as [[m E]|]; [|assumption].
  exfalso. destruct (realign_spec common file m Wc Wf E) as (pick & [L _ Ok_] & _).
  assert (Lj : j < length pick) by (rewrite L; apply nth_error_Some; congruence).
  destruct (nth_error pick j) as [k|] eqn:Ek; [|apply nth_error_None in Ek; lia].
  destruct (Ok_ j k Ek) as (_ & A & B). rewrite Hj in A. exact (H k A B).
Qed.
Theorem C35_accepts_and_rejects : forall common file, header_wf common -> header_wf file ->
  (has_columns common file -> types_agree common file -> exists m, check_headers common file = Ok m) /\
  ((exists j name, nth_error (h_names common) j = Some name /\
      forall k, nth_error (h_names file) k = Some name ->
        nth_error (h_types file) k <> nth_error (h_types common) j) ->
   exists e, check_headers common file = Err e).
Proof. exact C35_proof. Qed.
Print Assumptions C35_accepts_and_rejects.
(** For a common header without repeated names, having every column means just that. *)
Lemma C35_distinct_proof common file :
  NoDup (h_names common) -> incl (h_names common) (h_names file) -> has_columns common file.
Proof.
  intros N I x. destruct (in_dec bytes_eq_dec x (h_names common)) as [H|H].
  - rewrite (proj1 (NoDup_count_occ' bytes_eq_dec (h_names common)) N x H).
    apply (count_occ_In bytes_eq_dec), I, H.
  - apply (count_occ_not_In bytes_eq_dec) in H. lia.
Qed.
Theorem C35_distinct_names : forall common file,
  NoDup (h_names common) -> incl (h_names common) (h_names file) -> has_columns common file.
Proof. exact C35_distinct_proof. Qed.
Print Assumptions C35_distinct_names.
(** The rejection is what the reader of the source sees, after the rows of the files before. *)
Lemma C35_error_proof P (open : P -> res (option (header * source))) p1 p2 ps h1 h2 rows s2 :
  open p1 = Ok (Some (h1, map Ok rows)) -> open p2 = Ok (Some (h2, s2)) ->
  header_wf h1 -> header_wf h2 ->
  (exists j name, nth_error (h_names h1) j = Some name /\
      forall k, nth_error (h_names h2) k = Some name ->
        nth_error (h_types h2) k <> nth_error (h_types h1) j) ->
  exists st e, multi_new open (p1 :: p2 :: ps) None = Ok st /\
    forall n, drain open n st = firstn n (map Ok rows ++ [Err e]).
Proof.
  intros E1 E2 W1 W2 X. destruct (proj2 (C35_proof h1 h2 W1 W2) X) as [e Ee].
  unfold multi_new, create_source. rewrite E1. cbn [bind]. eexists. exists e. split; [reflexivity|].
  intro n. rewrite (drain_out open h1) by reflexivity. f_equal.
  unfold state_out. cbn [m_cur m_map m_paths files_out]. unfold create_source. rewrite E2. cbn [bind]. rewrite Ee.
  cbn [fail_as]. clear. induction rows as [|r rows IH]; [reflexivity|]. cbn. rewrite IH. reflexivity.
Qed.
Theorem C35_error_reported : forall P (open : P -> res (option (header * source))) p1 p2 ps h1 h2 rows s2,
  open p1 = Ok (Some (h1, map Ok rows)) -> open p2 = Ok (Some (h2, s2)) ->
  header_wf h1 -> header_wf h2 ->
  (exists j name, nth_error (h_names h1) j = Some name /\
      forall k, nth_error (h_names h2) k = Some name ->
        nth_error (h_types h2) k <> nth_error (h_types h1) j) ->
  exists st e, multi_new open (p1 :: p2 :: ps) None = Ok st /\
    forall n, drain open n st = firstn n (map Ok rows ++ [Err e]).
Proof. exact C35_error_proof. Qed.
Print Assumptions C35_error_reported.

(** ** Non-vacuity *)
Definition hm1 : header := {| h_names := [b "x"; b "y"]; h_types := [TInt; TString] |}.
Definition hm2 : header := {| h_names := [b "q"; b "y"; b "x"]; h_types := [TLong; TString; TInt] |}.
Definition hm3 : header := {| h_names := [b "x"; b "y"; b "z"]; h_types := [TInt; TString; TLong] |}.
Definition hm4 : header := {| h_names := [b "x"; b "y"]; h_types := [TLong; TString] |}.
Definition fopen (p : bytes) : res (option (header * source)) :=
  if bytes_eqb p (b "d/1") then Ok (Some (hm1, [Ok {| ts := 1%N; vals := [VInt 1; VString (b "a")] |}]))
  else if bytes_eqb p (b "d/2") then Ok (Some (hm2, [Ok {| ts := 2%N; vals := [VLong 7; VString (b "c"); VInt 2] |}]))
  else if bytes_eqb p (b "d/3") then Ok (Some (hm3, [Ok {| ts := 3%N; vals := [VInt 3; VString (b "e"); VLong 9] |}]))
  else Ok (Some (hm4, [])).
Definition demo_dir (entries : list bytes) : dir_transport :=
  {| dt_can_handle := fun p => bytes_eqb p (b "d");
     dt_is_dir := fun p => bytes_eqb p (b "d") || bytes_eqb p (b "d/sub");
     dt_read_dir := fun _ => Ok entries |}.
Example dir_demo :
  (let* st := dir_source fopen (demo_dir [b "d/2"; b "d/sub"; b "d/1"]) (b "d") in Ok (m_common st, drain fopen 9 st)) =
  Ok (hm1, [Ok {| ts := 1%N; vals := [VInt 1; VString (b "a")] |}; Ok {| ts := 2%N; vals := [VInt 2; VString (b "c")] |}]).
Proof. vm_compute. reflexivity. Qed.
Example wide_demo :
  (let* st := dir_source fopen (demo_dir [b "d/3"; b "d/1"]) (b "d") in Ok (drain fopen 9 st)) =
  Ok [Ok {| ts := 1%N; vals := [VInt 1; VString (b "a")] |};
      Ok {| ts := 3%N; vals := [VInt 3; VString (b "e"); VLong 9] |}].
Proof. vm_compute. reflexivity. Qed.
Example reject_demo :
  exists e, (let* st := dir_source fopen (demo_dir [b "d/4"; b "d/1"]) (b "d") in Ok (drain fopen 9 st)) =
  Ok [Ok {| ts := 1%N; vals := [VInt 1; VString (b "a")] |}; Err e].
Proof. eexists. vm_compute. reflexivity. Qed.
Example wf_demo : Forall (fun p => source_wf (fopen p)) [b "d/1"; b "d/2"; b "d/3"; b "d/4"].
Proof. repeat constructor. Qed.
Example accept_demo : has_columns hm1 hm2 /\ types_agree hm1 hm2 /\ extends hm1 hm3.
Proof.
  split; [|split].
  - apply C35_distinct_names; [repeat constructor; cbn; intuition discriminate|].
    intros x [<-|[<-|[]]]; cbn; auto.
  - intros j k name Hj Hk.
    destruct j as [|[|j]]; cbn in Hj; [injection Hj as <-|injection Hj as <-|destruct j; discriminate];
    destruct k as [|[|[|k]]]; cbn in Hk; try discriminate; try reflexivity; destruct k; discriminate.
  - split; reflexivity.
Qed.

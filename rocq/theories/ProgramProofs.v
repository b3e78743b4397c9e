From Verif Require Export ZipSpec ProgramSpec InputProofs ZipProofs T_Reader T_Zip T_Input T_Multi CliProofs.

(** ** File names *)
Lemma split_no_slash s : ~ In "/"%char s -> split_slash s = [s].
Proof.
  induction s as [|c s IH]; intro H; [reflexivity|]. cbn [split_slash].
  destruct (Ascii.eqb_spec c "/") as [->|]; [exfalso; apply H; now left|].
  rewrite IH; [reflexivity|]. intro X; apply H; now right.
Qed.
Lemma split_slash_nonempty s : split_slash s <> [].
Proof. destruct s as [|c s]; [discriminate|]. cbn. destruct (Ascii.eqb c "/"); [discriminate|]. destruct (split_slash s); discriminate. Qed.
Lemma split_slash_app d n : split_slash (d ++ b "/" ++ n) = split_slash d ++ split_slash n.
Proof.
  induction d as [|c d IH].
  - reflexivity.
  - cbn [app split_slash]. destruct (Ascii.eqb c "/"); rewrite IH; [reflexivity|].
    pose proof (split_slash_nonempty d). destruct (split_slash d); [congruence|reflexivity].
Qed.
Lemma inner_normal n : n <> [] -> n <> b "." -> n <> b ".." -> inner_component n = [Normal n].
Proof.
  intros H1 H2 H3. unfold inner_component.
  destruct (bytes_eqb n []) eqn:E1; [apply bytes_eqb_eq in E1; congruence|].
  destruct (bytes_eqb n (b ".")) eqn:E2; [apply bytes_eqb_eq in E2; congruence|].
  destruct (bytes_eqb n (b "..")) eqn:E3; [apply bytes_eqb_eq in E3; congruence|]. reflexivity.
Qed.
Lemma named_file_name path name : named path name -> file_name path = Some name.
Proof.
  intros ([->|[dir ->]] & Hs & H1 & H2 & H3); unfold file_name.
  - unfold components. rewrite (split_no_slash _ Hs). cbn [map concat].
    assert (E : match name with
                | "/"%char :: _ => [RootDir]
                | _ => if bytes_eqb name (b ".") then [CurDir] else inner_component name
                end = [Normal name]).
    { destruct name as [|c name]; [congruence|].
      rewrite (inner_normal _ H1 H2 H3).
      destruct (bytes_eqb (c :: name) (b ".")) eqn:E2; [apply bytes_eqb_eq in E2; congruence|].
      assert (c <> "/"%char) by (intro; apply Hs; now left).
      destruct c as [[] [] [] [] [] [] [] []]; try reflexivity; exfalso; apply H; reflexivity. }
    rewrite E. reflexivity.
  - assert (E : exists x, components (dir ++ b "/" ++ name) = x ++ [Normal name]).
    { unfold components. rewrite split_slash_app, (split_no_slash _ Hs).
      pose proof (split_slash_nonempty dir) as N. destruct (split_slash dir) as [|s r]; [congruence|].
      cbn [app]. rewrite map_app, concat_app. cbn [map concat]. rewrite (inner_normal _ H1 H2 H3), app_nil_r.
      rewrite app_assoc. eexists; reflexivity. }
    destruct E as [x ->]. rewrite rev_app_distr. reflexivity.
Qed.

(** ** Previews of equal streams *)
Lemma smooth_sub p q : sub_plan p q -> smooth q -> smooth p.
Proof. intros H S e X. exact (S e (H e X)). Qed.

Lemma preview_alike i j : same_stream i j -> alike same_preview (previewer_new i) (previewer_new j).
Proof.
  intros S. pose proof S as (Hd & Ht & Si & Sj).
  pose proof (previewer_spec _ i buf_nonzero) as Pi. pose proof (previewer_spec _ j buf_nonzero) as Pj.
  fold previewer_new in Pi, Pj.
  change (previewer_with DEFAULT_BUF_SIZE i) with (previewer_new i) in Pi.
  change (previewer_with DEFAULT_BUF_SIZE j) with (previewer_new j) in Pj.
  destruct (previewer_new i) as [p|e| | |] eqn:Ei; try contradiction;
    destruct (previewer_new j) as [q|e'| | |] eqn:Ej; try contradiction.
  - constructor. exists i, j. auto.
  - exfalso. destruct Pj as (k & _ & [X|[L T]]); [exact (Sj k X)|].
    destruct Pi as (_ & _ & Pi & _). rewrite Hd, Ht in Pi. rewrite (Pi L) in T. discriminate.
  - exfalso. destruct Pi as (k & _ & [X|[L T]]); [exact (Si k X)|].
    destruct Pj as (_ & _ & Pj & _). rewrite <- Hd, <- Ht in Pj. rewrite (Pj L) in T. discriminate.
  - destruct Pi as (k & -> & [X|[L T]]); [destruct (Si k X)|].
    destruct Pj as (k' & -> & [X|[L' T']]); [destruct (Sj k' X)|].
    assert (k = k') as -> by congruence. constructor.
Qed.

Lemma preview_same p q : same_preview p q ->
  get_buf p = get_buf q /\ get_lines p = get_lines q /\ as_stream (get_reader p) = as_stream (get_reader q).
Proof.
  intros (i & j & (Hd & Ht & Si & Sj) & Ei & Ej).
  assert (B : get_buf p = get_buf q).
  { rewrite (C28_preview_is_prefix _ _ Ei), (C28_preview_is_prefix _ _ Ej), Hd. reflexivity. }
  split; [exact B|]. split.
  - destruct (C29_lines_exist (get_buf p) (length (get_buf p) =? 8 * 1024)) as [raw Hr].
    pose proof (C29_lines _ _ raw Ei Hr) as [A _]. rewrite B in Hr. pose proof (C29_lines _ _ raw Ej Hr) as [A' _].
    destruct (get_lines p) as [l|] eqn:El.
    + symmetry. apply A', A. reflexivity.
    + destruct (get_lines q) as [l|] eqn:El'; [|reflexivity].
      pose proof (proj2 (A l) (proj1 (A' l) eq_refl)). discriminate.
  - destruct (new_spec _ _ Ei) as [R _]. destruct (new_spec _ _ Ej) as [R' _].
    unfold as_stream. rewrite (rep_data _ _ _ _ _ R), (rep_data _ _ _ _ _ R'), (rep_tail _ _ _ _ _ R), (rep_tail _ _ _ _ _ R').
    congruence.
Qed.
Lemma preview_stream i p : previewer_new i = Ok p ->
  as_stream (get_reader p) = {| s_data := i_data i; s_tail := i_tail i |}.
Proof.
  intro E. destruct (new_spec _ _ E) as [R _]. unfold as_stream.
  rewrite (rep_data _ _ _ _ _ R), (rep_tail _ _ _ _ _ R). reflexivity.
Qed.

Lemma detect_same p q : same_preview p q -> is_compressed_using_previewer p = is_compressed_using_previewer q.
Proof. intro H. destruct (preview_same _ _ H) as (B & _ & _). unfold is_compressed_using_previewer. rewrite B. reflexivity. Qed.

Section Steady.
Context {S : Type} (ds : decoders) (inflate bunzip : inner -> inner) (sfs : list (factory S)).
Hypothesis Hds : steady_decoders ds.
Hypothesis Hin : steady_inflater inflate.
Hypothesis Hbu : steady_inflater bunzip.
Hypothesis Hsf : Forall steady_factory sfs.

Lemma layer_same f p q : same_preview p q -> alike same_preview (decompress_preview ds f p) (decompress_preview ds f q).
Proof.
  intro H. unfold decompress_preview. destruct (Hds f _ _ H) as [i j X|e| | |]; cbn [bind]; try constructor.
  apply preview_alike, X.
Qed.
Lemma first_by_preview_same l p q : Forall steady_factory l -> same_preview p q ->
  first_by_preview (S := S) l p = first_by_preview l q.
Proof.
  intros F H. induction F as [|sf l X F IH]; [reflexivity|]. cbn [first_by_preview].
  destruct (X _ _ H) as [-> _]. rewrite IH. reflexivity.
Qed.
Lemma first_in (l : list (factory S)) :
  (forall f sf, first_by_format l f = Some sf -> In sf l) /\ (forall p sf, first_by_preview l p = Some sf -> In sf l).
Proof.
  induction l as [|x l [I1 I2]]; split; intros f sf H; cbn in H; try discriminate.
  - destruct (sf_format x f); [injection H as ->; now left|right; eauto].
  - destruct (sf_preview x f); [injection H as ->; now left|right; eauto].
Qed.
Lemma create_same sf p q : In sf sfs -> same_preview p q -> sf_create sf p = sf_create sf q.
Proof. intros I H. rewrite Forall_forall in Hsf. apply (Hsf sf I). exact H. Qed.

Lemma auto_same p q : same_preview p q ->
  create_source_by_autodetecting_format sfs p = create_source_by_autodetecting_format sfs q.
Proof.
  intro H. unfold create_source_by_autodetecting_format. rewrite (first_by_preview_same sfs p q Hsf H).
  destruct (first_by_preview sfs q) as [sf|] eqn:E; [|reflexivity].
  apply create_same; [|exact H]. exact (proj2 (first_in sfs) _ _ E).
Qed.
Lemma using_format_same p q f : same_preview p q ->
  alike (fun x y => fst (fst x) = fst (fst y) /\ same_preview (snd (fst x)) (snd (fst y)) /\ snd x = snd y)
    (decompress_using_format ds p f) (decompress_using_format ds q f).
Proof.
  intro H. unfold decompress_using_format. destruct (is_compressed_using_format f) as [[d n]|].
  - destruct (layer_same d _ _ H); cbn [bind]; constructor. cbn. auto.
  - constructor. cbn. auto.
Qed.
Lemma by_content_same p q : same_preview p q ->
  alike (fun x y => fst x = fst y /\ same_preview (snd x) (snd y))
    (decompress_by_autodetecting_format ds p) (decompress_by_autodetecting_format ds q).
Proof.
  intro H. unfold decompress_by_autodetecting_format. rewrite (detect_same _ _ H).
  destruct (is_compressed_using_previewer q) as [f|].
  - destruct (layer_same f _ _ H); cbn [bind]; constructor. cbn. auto.
  - constructor. cbn. auto.
Qed.
Lemma from_previewer_same p q name fmt : same_preview p q ->
  create_source_from_previewer ds sfs p name fmt = create_source_from_previewer ds sfs q name fmt.
Proof.
  intro H. unfold create_source_from_previewer. destruct fmt as [ext|]; [|destruct name as [name|]].
  - destruct (using_format_same p q (if starts_with (b ".") ext then ext else b "." ++ ext) H)
      as [[[d1 p1] f1] [[d2 p2] f2] (E1 & X & E2)| | | |]; cbn [bind]; try reflexivity.
    cbn in E1, X, E2. subst d2 f2. unfold create_source_from_format.
    destruct (first_by_format sfs f1) as [sf|] eqn:E; [|reflexivity].
    apply create_same; [exact (proj1 (first_in sfs) _ _ E)|exact X].
  - destruct (using_format_same p q name H) as [[[d1 p1] f1] [[d2 p2] f2] (E1 & X & E2)| | | |]; cbn [bind]; try reflexivity.
    cbn in E1, X, E2. subst d2 f2. destruct (first_by_format sfs f1) as [sf|] eqn:E.
    + apply create_same; [exact (proj1 (first_in sfs) _ _ E)|exact X].
    + destruct d1; cbn [bind]; [apply auto_same, X|].
      destruct (by_content_same _ _ X) as [[a1 b1] [a2 b2] [_ Y]| | | |]; cbn [bind]; try reflexivity.
      apply auto_same, Y.
  - destruct (by_content_same _ _ H) as [[a1 b1] [a2 b2] [_ Y]| | | |]; cbn [bind]; try reflexivity.
    apply auto_same, Y.
Qed.
End Steady.

Lemma alike_bind {A B C D} (R : A -> B -> Prop) (Q : C -> D -> Prop) m n (f : A -> res C) (g : B -> res D) :
  alike R m n -> (forall x y, R x y -> alike Q (f x) (g y)) -> alike Q (bind m f) (bind n g).
Proof. intros [x y H|e| | |] K; cbn [bind]; auto; constructor. Qed.
Lemma alike_eq {A} (m n : res A) : alike eq m n -> m = n.
Proof. intros [x y ->|e| | |]; reflexivity. Qed.
Lemma alike_refl {A} (R : A -> A -> Prop) m : (forall x, R x x) -> alike R m m.
Proof. intro H. destruct m; constructor; auto. Qed.
Lemma alike_mono {A B} (R Q : A -> B -> Prop) m n : (forall x y, R x y -> Q x y) -> alike R m n -> alike Q m n.
Proof. intros H [x y X|e| | |]; constructor; auto. Qed.

Definition same_member (x y : crc_reader * bytes) : Prop :=
  snd x = snd y /\ exists i j v, fst x = crc_new i v /\ fst y = crc_new j v /\ same_stream i j.

Lemma zip_alike data inflate bunzip p1 p2 :
  steady_inflater inflate -> steady_inflater bunzip -> smooth p1 -> smooth p2 ->
  alike same_member (zip_open data inflate bunzip p1) (zip_open data inflate bunzip p2).
Proof.
  intros Hi Hb S1 S2. unfold zip_open.
  apply alike_bind with (R := fun x y => same_member (fst x) (fst y)).
  2:{ intros [x p] [y q] H. constructor. exact H. }
  assert (K : forall A (m : at_pos A) (f g : A -> at_pos (crc_reader * bytes)) p,
    (forall x p, alike (fun x y => same_member (fst x) (fst y)) (f x p) (g x p)) ->
    alike (fun x y => same_member (fst x) (fst y)) (zbind m f p) (zbind m g p)).
  { intros A m f g p H. unfold zbind. destruct (m p) as [[x q]| | | |]; cbn [bind]; try constructor. apply H. }
  unfold zip_open_at.
  apply K; intros [] ?. apply K; intros [? ?] ?. apply K; intros ? ?. apply K; intros [] ?. apply K; intros cd ?.
  apply K; intros [] ?. apply K; intros sig ?. destruct (negb _); [constructor|].
  apply K; intros [] ?. apply K; intros nl ?. apply K; intros xl ?. apply K; intros [] ?. apply K; intros [] q.
  cbv zeta.
  set (d := firstn _ _).
  assert (T : same_stream {| i_data := d; i_tail := None; i_plan := p1 |} {| i_data := d; i_tail := None; i_plan := p2 |})
    by (repeat split; assumption).
  destruct (_ =? 0)%N; [|destruct (_ =? 8)%N; [|destruct (_ =? 12)%N]]; constructor; cbn [fst];
    (split; [reflexivity|]); do 3 eexists; (split; [reflexivity|]; split; [reflexivity|]); auto.
Qed.

Lemma crc_as_same i j v : same_stream i j -> same_stream (crc_as_inner (crc_new i v)) (crc_as_inner (crc_new j v)).
Proof.
  intros (H1 & H2 & H3 & H4). unfold same_stream, crc_as_inner, crc_new. cbn [c_inner c_crc32 i_data i_tail i_plan].
  rewrite H1, H2. auto.
Qed.

Section SteadyOpen.
Context {S : Type} (ds : decoders) (inflate bunzip : inner -> inner).
Variable (w v : world) (user : option (list transport)) (sfs : list (factory S)).
Hypothesis Hds : steady_decoders ds.
Hypothesis Hin : steady_inflater inflate.
Hypothesis Hbu : steady_inflater bunzip.
Hypothesis Hsf : Forall steady_factory sfs.
Hypothesis Hus : match user with Some l => Forall steady_transport l | None => True end.
Hypothesis Hw : same_world w v.

Lemma matching_alike path : forall ts ts',
  Forall2 (fun t t' => t_can_open t path = t_can_open t' path /\ alike same_stream (t_open t path) (t_open t' path)) ts ts' ->
  forall a c, match a, c with None, None => True | Some i, Some j => same_stream i j | _, _ => False end ->
  alike (fun a c => match a, c with None, None => True | Some i, Some j => same_stream i j | _, _ => False end)
    (open_matching ts path a) (open_matching ts' path c).
Proof.
  induction 1 as [|t t' ts ts' [E O] F IH]; intros a c H; cbn [open_matching].
  - constructor. exact H.
  - rewrite E. destruct (t_can_open t' path); [|apply IH; exact H].
    apply alike_bind with (R := same_stream); [exact O|]. intros x y X. apply IH. exact X.
Qed.

Lemma path_same fmt path :
  create_source_from_path ds inflate bunzip w user sfs fmt path =
  create_source_from_path ds inflate bunzip v user sfs fmt path.
Proof.
  destruct Hw as (W1 & W2 & W3 & W4 & W5 & W6 & W7).
  apply alike_eq. unfold create_source_from_path.
  apply alike_bind with (R := fun x y => match x, y with None, None => True | Some x, Some y => same_member x y | _, _ => False end).
  - unfold open_zip. rewrite W1. destruct (w_exists v path); [|constructor; exact I].
    eapply alike_bind; [apply W4|]. intros f g [(D & T & Sf & Sg) K]. rewrite K, D.
    destruct (f_seekable g); [|constructor].
    apply alike_bind with (R := eq); [apply alike_refl; reflexivity|]. intros z ? <-.
    destruct z; [|constructor; exact I].
    eapply alike_bind; [apply zip_alike; eauto|]. intros x y X. constructor. exact X.
  - intros [[c n]|] [[c' n']|] H; try contradiction.
    + destruct H as (E & i & j & k & E1 & E2 & X). cbn [fst snd] in *. subst.
      eapply alike_bind; [apply preview_alike, crc_as_same, X|]. intros p q P.
      rewrite (from_previewer_same ds sfs Hds Hsf p q _ fmt P). apply alike_refl; reflexivity.
    + eapply alike_bind with (R := fun x y => match x, y with None, None => True | Some x, Some y => same_preview x y | _, _ => False end).
      * unfold create_previewer. eapply alike_bind.
        -- apply matching_alike; [|exact I].
           assert (B : Forall2 (fun t t' => t_can_open t path = t_can_open t' path /\ alike same_stream (t_open t path) (t_open t' path))
                         [file_transport w; http_transport w] [file_transport v; http_transport v]).
           { constructor; [|constructor; [|constructor]]; cbn [file_transport http_transport t_can_open t_open].
             - split; [apply W1|]. eapply alike_bind; [apply W4|]. intros f g [X _]. constructor. exact X.
             - split; [reflexivity|apply W5]. }
           unfold streaming_transports. destruct user as [us|]; [|exact B].
           apply Forall2_app; [|exact B].
           induction Hus as [|t us X F IH]; constructor; auto. split; [reflexivity|].
           destruct (t_open t path) as [i| | | |] eqn:E; constructor. apply X in E. repeat split; assumption.
        -- intros [i|] [j|] X; try contradiction; [|constructor; exact I].
           eapply alike_bind; [apply preview_alike, X|]. intros p q P. constructor. exact P.
      * intros [p|] [q|] P; try contradiction; [|constructor; reflexivity].
        destruct (get_file_name path) as [name| | | |]; cbn [bind]; try constructor.
        rewrite (from_previewer_same ds sfs Hds Hsf p q name fmt P). apply alike_refl; reflexivity.
Qed.
End SteadyOpen.

(** ** Multi-file sources only depend on what opening gives *)
Section Ext.
Context {P : Type} (o1 o2 : P -> res (option (header * source))).
Hypothesis Ho : forall p, o1 p = o2 p.
Lemma create_source_ext p : create_source o1 p = create_source o2 p.
Proof. unfold create_source. rewrite Ho. reflexivity. Qed.
Lemma multi_new_ext ps e : multi_new o1 ps e = multi_new o2 ps e.
Proof. destruct ps; [reflexivity|]. cbn [multi_new]. rewrite create_source_ext. reflexivity. Qed.
Lemma multi_loop_ext h ps : forall m c, multi_loop o1 h ps m c = multi_loop o2 h ps m c.
Proof.
  induction ps as [|p ps IH]; intros m c; (destruct c as [[|[r| | | |] s]|]; [|reflexivity..]); cbn [multi_loop]; [reflexivity|].
  rewrite create_source_ext. destruct (create_source o2 p) as [[h' s]| | | |]; cbn [bind]; try reflexivity.
  destruct (check_headers h h'); cbn [bind]; try reflexivity. apply IH.
Qed.
Lemma drain_ext n : forall st, drain o1 n st = drain o2 n st.
Proof.
  induction n as [|n IH]; intro st; [reflexivity|]. cbn [drain]. unfold multi_next. rewrite multi_loop_ext.
  destruct (multi_loop o2 _ _ _ _) as [[[r|] st']| | | |]; try reflexivity. rewrite IH. reflexivity.
Qed.
Lemma multi_source_ext st : multi_source o1 st = multi_source o2 st.
Proof.
  unfold multi_source, multi_bound. rewrite drain_ext.
  assert (E : map (fun p => match o1 p with Ok (Some (_, s)) => length s | _ => 0 end) (m_paths st) =
              map (fun p => match o2 p with Ok (Some (_, s)) => length s | _ => 0 end) (m_paths st)).
  { apply map_ext. intro p. rewrite Ho. reflexivity. }
  rewrite E. reflexivity.
Qed.
End Ext.

Lemma filter_ext' {A} (f g : A -> bool) l : (forall x, f x = g x) -> filter f l = filter g l.
Proof. intro H. induction l as [|x l IH]; [reflexivity|]. cbn. rewrite H, IH. reflexivity. Qed.

Section SteadyInputs.
Variables (ds : decoders) (inflate bunzip : inner -> inner).
Variable (w v : world) (user : option (list transport)) (sfs : list (factory (header * source))).
Hypothesis Hds : steady_decoders ds.
Hypothesis Hin : steady_inflater inflate.
Hypothesis Hbu : steady_inflater bunzip.
Hypothesis Hsf : Forall steady_factory sfs.
Hypothesis Hus : match user with Some l => Forall steady_transport l | None => True end.
Hypothesis Hw : same_world w v.

Lemma input_same i : create_source_from_input ds inflate bunzip w user sfs i = create_source_from_input ds inflate bunzip v user sfs i.
Proof.
  unfold create_source_from_input.
  pose proof (fun f => path_same ds inflate bunzip w v user sfs Hds Hin Hbu Hsf Hus Hw f) as P.
  pose proof Hw as (W1 & W2 & W3 & W4 & W5 & W6 & W7).
  destruct (in_type i) as [path|].
  - cbn [dir_file_transport dt_can_handle]. rewrite W2. destruct (w_is_dir v path).
    + unfold dir_source, files_in_dir. cbn [dir_file_transport dt_is_dir dt_read_dir]. rewrite W2, W3.
      destruct (negb (w_is_dir v path)); cbn [bind]; [reflexivity|].
      destruct (w_read_dir v path) as [es| | | |]; cbn [bind]; try reflexivity.
      rewrite (filter_ext' (fun e => negb (w_is_dir w e)) (fun e => negb (w_is_dir v e))) by (intro; now rewrite W2).
      rewrite (multi_new_ext _ _ (P (in_format i))).
      destruct (multi_new _ _ _); cbn [bind]; try reflexivity.
      rewrite (multi_source_ext _ _ (P (in_format i))). reflexivity.
    + rewrite P. reflexivity.
  - apply alike_eq. eapply alike_bind; [apply preview_alike, W6|].
    intros p q X. rewrite (from_previewer_same ds sfs Hds Hsf p q None (in_format i) X). apply alike_refl; reflexivity.
Qed.
Lemma inputs_same l : open_inputs ds inflate bunzip w user sfs l = open_inputs ds inflate bunzip v user sfs l.
Proof.
  induction l as [|i l IH]; [reflexivity|]. cbn [open_inputs]. rewrite input_same, IH. reflexivity.
Qed.
End SteadyInputs.

(** The built-in factories. *)
Lemma csv_factory_steady prof ch lower pf split cfg :
  steady_factory (csv_factory (csv_create prof ch lower pf split cfg)).
Proof.
  intros p q H. destruct (preview_same _ _ H) as (B & L & R). cbn [csv_factory sf_preview sf_create].
  unfold csv_create. rewrite L, R. split; reflexivity.
Qed.
Lemma dc_factory_steady : steady_factory (dc_factory dc_create).
Proof.
  intros p q H. destruct (preview_same _ _ H) as (B & L & R). cbn [dc_factory sf_preview sf_create].
  unfold dc_create. rewrite B, R. split; reflexivity.
Qed.
Lemma all_factories_steady prof ch lower pf split user cfg :
  match user with Some l => Forall steady_factory l | None => True end ->
  Forall steady_factory (all_factories prof ch lower pf split user cfg).
Proof.
  intro H. unfold all_factories, all_source_factories, default_source_factories.
  assert (B : Forall steady_factory ([csv_factory (csv_create prof ch lower pf split cfg)] ++ [dc_factory dc_create])).
  { constructor; [apply csv_factory_steady|]. constructor; [apply dc_factory_steady|constructor]. }
  destruct user as [l|]; [apply Forall_app; auto|exact B].
Qed.

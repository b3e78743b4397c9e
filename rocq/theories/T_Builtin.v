(** C81: what the built-in formats and transports accept. *)
From Verif Require Export T_Program.

(** A name that announces no compression. *)
Lemma no_layer_name core e : (e = b ".csv" \/ e = b ".dc") -> is_compressed_using_format (core ++ e) = None.
Proof.
  intro He. pose proof (name_layer_spec (core ++ e)) as N. destruct (is_compressed_using_format (core ++ e)) as [[f c]|]; [|reflexivity].
  exfalso. inversion N as [f' c' E1 E2 E3|]; subst. clear N.
  assert (L : forall x y : bytes, x <> [] -> y <> [] -> core ++ x = c ++ y -> last x " "%char = last y " "%char).
  { intros x y Hx Hy E. destruct (exists_last Hx) as (x0 & a & ->), (exists_last Hy) as (y0 & d & ->).
    rewrite !app_assoc in E. apply app_inj_tail in E as [_ ->]. now rewrite !last_last. }
  destruct He as [-> | ->]; destruct f; cbn [ext_of] in E1; symmetry in E1;
    (apply L in E1; [cbn in E1; discriminate E1|discriminate..]).
Qed.
Lemma not_both core core' : core ++ b ".csv" <> core' ++ b ".dc".
Proof.
  intro E. assert (E2 : (core ++ b ".cs") ++ ["v"%char] = (core' ++ b ".d") ++ ["c"%char]) by (rewrite <- !app_assoc; exact E).
  apply app_inj_tail in E2 as [_ X]. discriminate.
Qed.

(** With the built-in formats only and no format given: *)
Theorem C81_names : forall S ds (csv dc : previewer -> res S) p core,
  let open name p := create_source_from_previewer ds (all_source_factories None (Some csv) dc) p (Some name) Auto in
  (* a name that ends in .csv is read as CSV, one that ends in .dc as DC, whatever the contents, *)
  open (core ++ b ".csv") p = csv p /\
  open (core ++ b ".dc") p = dc p /\
  (* also under a compression suffix, once decompressed; *)
  (forall f e, e = b ".csv" \/ e = b ".dc" -> exists r, removed ds (Some f) p r /\
     open ((core ++ e) ++ ext_of f) p = (let* q := r in if bytes_eqb e (b ".csv") then csv q else dc q)) /\
  (* any other name says nothing: the contents decide. *)
  ((forall f c, core <> c ++ ext_of f) -> (forall c, core <> c ++ b ".csv") -> (forall c, core <> c ++ b ".dc") ->
   open core p = create_source_from_previewer ds (all_source_factories None (Some csv) dc) p None Auto).
Proof.
  intros S ds csv dc p core open. subst open. unfold create_source_from_previewer, decompress_using_format.
  assert (A : forall e, e = b ".csv" \/ e = b ".dc" ->
    first_by_format (all_source_factories None (Some csv) dc) (core ++ e) =
    Some (if bytes_eqb e (b ".csv") then csv_factory csv else dc_factory dc)).
  { intros e He. cbn [all_source_factories default_source_factories app first_by_format sf_format csv_factory dc_factory].
    destruct He as [-> | ->].
    - replace (ends_with (b ".csv") (core ++ b ".csv")) with true; [reflexivity|]. symmetry. apply ends_with_spec. eauto.
    - destruct (ends_with (b ".csv") (core ++ b ".dc")) eqn:E.
      { apply ends_with_spec in E as [c E]. symmetry in E. now apply not_both in E. }
      replace (ends_with (b ".dc") (core ++ b ".dc")) with true; [reflexivity|]. symmetry. apply ends_with_spec. eauto. }
  split; [|split; [|split]].
  - rewrite no_layer_name by auto. cbn [bind]. rewrite A by auto. reflexivity.
  - rewrite no_layer_name by auto. cbn [bind]. rewrite A by auto. reflexivity.
  - intros f e He. exists (let* i := decompress ds f p in previewer_new i). split; [apply removed_spec|].
    pose proof (name_layer_spec ((core ++ e) ++ ext_of f)) as N.
    destruct (is_compressed_using_format ((core ++ e) ++ ext_of f)) as [[f' c]|].
    + assert (f' = f /\ c = core ++ e) as [-> ->].
      { inversion N as [f0 c0 E1 E2 E3|]; subst. clear - E1.
        assert (L : forall x y : bytes, x <> [] -> y <> [] -> c ++ x = (core ++ e) ++ y -> last x " "%char = last y " "%char).
        { intros x y Hx Hy E. destruct (exists_last Hx) as (x0 & a & ->), (exists_last Hy) as (y0 & d & ->).
          rewrite !app_assoc in E. apply app_inj_tail in E as [_ ->]. now rewrite !last_last. }
        assert (Lf : f' = f).
        { destruct f', f; try reflexivity; cbn [ext_of] in E1; (apply L in E1; [discriminate E1|discriminate..]). }
        subst f'. split; [reflexivity|]. now apply app_inv_tail in E1. }
      unfold decompress_preview. destruct (let* i := decompress ds f p in previewer_new i) as [q| | | |]; try reflexivity.
      cbn [bind]. rewrite A by exact He. destruct (bytes_eqb e (b ".csv")); reflexivity.
    + exfalso. inversion N as [|n H]; subst. eapply H. reflexivity.
  - intros Hf Hc Hd. pose proof (name_layer_spec core) as N. destruct (is_compressed_using_format core) as [[f c]|].
    { inversion N; subst. exfalso. eapply Hf. reflexivity. }
    cbn [bind all_source_factories default_source_factories app first_by_format sf_format csv_factory dc_factory].
    destruct (ends_with (b ".csv") core) eqn:E; [apply ends_with_spec in E as [c ->]; exfalso; eapply Hc; reflexivity|].
    destruct (ends_with (b ".dc") core) eqn:E2; [apply ends_with_spec in E2 as [c ->]; exfalso; eapply Hd; reflexivity|].
    destruct (decompress_by_autodetecting_format ds p) as [[d q]| | | |]; reflexivity.
Qed.
Print Assumptions C81_names.
Example C81_names_example : forall S ds (csv dc : previewer -> res S) p,
  create_source_from_previewer ds (all_source_factories None (Some csv) dc) p (Some (b "ticks.csv")) Auto = csv p /\
  create_source_from_previewer ds (all_source_factories None (Some csv) dc) p (Some (b "ticks.dc")) Auto = dc p.
Proof. intros. destruct (C81_names S ds csv dc p (b "ticks")) as (A & B & _). split; [exact A|exact B]. Qed.

(** Contents: the DC magic number and version announce DC, text lines CSV, CSV first (C31). *)
Theorem C81_contents : forall S ds (csv dc : previewer -> res S) p,
  (forall f, ~ has_magic f (get_buf p)) ->
  let open := create_source_from_previewer ds (all_source_factories None (Some csv) dc) p None Auto in
  (get_lines p <> None -> open = csv p) /\
  (get_lines p = None -> (exists t, get_buf p = dc_magic ++ t) -> open = dc p) /\
  (get_lines p = None -> (forall t, get_buf p <> dc_magic ++ t) -> exists m, open = Err (ECustom m)).
Proof.
  intros S ds csv dc p Hm open. subst open. unfold create_source_from_previewer, decompress_by_autodetecting_format.
  pose proof (content_layer_spec p) as C. destruct (is_compressed_using_previewer p) as [f|]; [exfalso; exact (Hm f C)|].
  cbn [bind]. unfold create_source_by_autodetecting_format. cbn [all_source_factories default_source_factories app first_by_preview].
  rewrite dc_accepts. cbn [sf_preview csv_factory]. destruct (get_lines p) as [l|].
  - split; [reflexivity|]. split; discriminate.
  - split; [congruence|]. split; intros _ H.
    + replace (starts_with dc_magic (get_buf p)) with true; [reflexivity|]. symmetry. apply starts_with_spec. exact H.
    + destruct (starts_with dc_magic (get_buf p)) eqn:E; [apply starts_with_spec in E as [t E]; destruct (H t E)|].
      eauto.
Qed.
Print Assumptions C81_contents.

(** ** Transports *)
(** A URL of one of the two schemes. *)
Definition url (path : bytes) : Prop :=
  exists s, (s = b "http:" \/ s = b "https:") /\ (path = s \/ exists t, path = s ++ b "/" ++ t).
Lemma first_component_spec path :
  (path = first_component path \/ exists t, path = first_component path ++ b "/" ++ t) /\ ~ In "/"%char (first_component path).
Proof.
  induction path as [|c path [IH N]]; cbn [first_component]; [split; [now left|auto]|].
  destruct (Ascii.eqb_spec c "/"%char) as [->|Hc].
  - split; [right; exists path; reflexivity|auto].
  - split; [|intros [X|X]; [congruence|auto]]. destruct IH as [IH|[t IH]].
    + left. now rewrite <- IH.
    + right. exists t. now rewrite IH at 1.
Qed.
Lemma first_component_of s t : ~ In "/"%char s -> first_component (s ++ b "/" ++ t) = s /\ first_component s = s.
Proof.
  intro N. induction s as [|c s IH]; [split; reflexivity|]. cbn [app first_component].
  destruct (Ascii.eqb_spec c "/"%char) as [->|Hc]; [destruct N; now left|].
  destruct IH as [A B]; [intro X; apply N; now right|]. now rewrite A, B.
Qed.
Lemma http_url path : http_can_open path = true <-> url path.
Proof.
  unfold http_can_open. rewrite orb_true_iff, !bytes_eqb_eq. split.
  - intro H. exists (first_component path). split; [exact H|]. apply first_component_spec.
  - intros (s & Hs & H). assert (N : ~ In "/"%char s) by (destruct Hs; subst; cbn; intuition discriminate).
    assert (E : first_component path = s) by (destruct H as [->|[t ->]]; now apply first_component_of). now rewrite E.
Qed.
Theorem C56_builtin_transports : forall w path,
  let open := create_previewer (streaming_transports None (file_transport w) (http_transport w)) path in
  (* an existing file is opened from the file system, a URL over the network, anything else not at all *)
  (w_exists w path = true -> ~ url path -> open = (let* f := w_open w path in let* p := previewer_new (f_reads f) in Ok (Some p))) /\
  (w_exists w path = false -> url path -> open = (let* r := w_http w path in let* p := previewer_new r in Ok (Some p))) /\
  (w_exists w path = false -> ~ url path -> open = Ok None).
Proof.
  intros w path open. subst open. unfold create_previewer, streaming_transports.
  cbn [open_matching file_transport http_transport t_can_open t_open].
  assert (U : forall x : bool, (if x then url path else ~ url path) -> http_can_open path = x).
  { intros [|] H; [now apply http_url|]. destruct (http_can_open path) eqn:E; [destruct H; now apply http_url|reflexivity]. }
  split; [|split]; intros -> H.
  - rewrite (U false H). destruct (w_open w path); reflexivity.
  - rewrite (U true H). cbn [bind]. destruct (w_http w path); reflexivity.
  - rewrite (U false H). reflexivity.
Qed.
Print Assumptions C56_builtin_transports.
Example url_example : url (b "https://example.org/t.csv") /\ ~ url (b "/data/http:/t.csv") /\ ~ url (b "httpd.csv").
Proof.
  split; [exists (b "https:"); split; [now right|right; exists (b "/example.org/t.csv"); reflexivity]|].
  split; intros (s & Hs & [E|[t E]]); destruct Hs as [-> | ->]; discriminate E.
Qed.

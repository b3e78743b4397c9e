(** Proofs about opening inputs. *)
From Verif Require Export InputSpec Utf8Spec.

Lemma cut_end_app core ext : cut_end ext (core ++ ext) = core.
Proof.
  unfold cut_end. rewrite app_length. replace (length core + length ext - length ext) with (length core) by lia.
  rewrite firstn_app, Nat.sub_diag, firstn_all. apply app_nil_r.
Qed.

Lemma name_layer_spec name :
  match is_compressed_using_format name with
  | Some (f, core) => name_layer name (Some f) core
  | None => name_layer name None name
  end.
Proof.
  unfold is_compressed_using_format.
  destruct (ends_with GZ_ext name) eqn:E1.
  { apply ends_with_spec in E1 as [t ->]. rewrite cut_end_app. apply (nl_some GZ). }
  destruct (ends_with LZ4_ext name) eqn:E2.
  { apply ends_with_spec in E2 as [t ->]. rewrite cut_end_app. apply (nl_some LZ4). }
  destruct (ends_with LZF_ext name) eqn:E3.
  { apply ends_with_spec in E3 as [t ->]. rewrite cut_end_app. apply (nl_some LZF). }
  destruct (ends_with ZIP_ext name) eqn:E4.
  { apply ends_with_spec in E4 as [t ->]. rewrite cut_end_app. apply (nl_some ZIP). }
  destruct (ends_with ZST_ext name) eqn:E5.
  { apply ends_with_spec in E5 as [t ->]. rewrite cut_end_app. apply (nl_some ZST). }
  apply nl_none. intros f core H.
  assert (forall e, name = core ++ e -> ends_with e name = true) as K
    by (intros e He; apply ends_with_spec; eauto).
  destruct f; cbn [ext_of] in H; apply K in H; unfold GZ_ext, LZ4_ext, LZF_ext, ZIP_ext, ZST_ext in *; congruence.
Qed.

Lemma content_layer_spec p : content_layer p (is_compressed_using_previewer p).
Proof.
  assert (K : forall f, is_compressed_using_previewer p = Some f <-> has_magic f (get_buf p)).
  { intro f. rewrite detect_table. unfold has_magic.
    destruct (Nat.ltb_spec (length (get_buf p)) 4); [split; [discriminate|lia]|].
    rewrite table_spec. split.
    + intros (m & H1 & H2). split; [lia|]. apply starts_with_spec in H2 as [t ->]. eauto.
    + intros [_ (m & rest & H1 & ->)]. exists m. split; [exact H1|]. apply starts_with_spec. eauto. }
  destruct (is_compressed_using_previewer p) as [f|]; cbn.
  - apply K. reflexivity.
  - intros f H. apply K in H. discriminate.
Qed.

Lemma is_first_cons {A} (P : A -> bool) l x y : P y = false -> is_first P l x -> is_first P (y :: l) x.
Proof.
  intros Hy (pre & post & -> & H1 & H2). exists (y :: pre), post. repeat split; auto.
Qed.
Lemma is_first_here {A} (P : A -> bool) l x : P x = true -> is_first P (x :: l) x.
Proof. intro H. exists [], l. repeat split; auto. Qed.

Lemma is_first_det {A} (P : A -> bool) l x y : is_first P l x -> is_first P l y -> x = y.
Proof.
  revert x y; induction l as [|a l IH]; intros x y (pre & post & E & Hx & Hp) (pre' & post' & E' & Hy & Hp').
  - destruct pre; discriminate.
  - destruct pre as [|c pre], pre' as [|c' pre']; cbn in E, E'; injection E as -> ->; injection E' as; subst.
    + reflexivity.
    + inversion Hp'; congruence.
    + inversion Hp; congruence.
    + inversion Hp; inversion Hp'; subst. apply IH; [exists pre, post; auto|exists pre', post'; auto].
Qed.

Lemma is_first_none {A} (P : A -> bool) l x : is_first P l x -> none_of P l -> False.
Proof.
  intros (pre & post & -> & H1 & H2) H. apply Forall_app in H as [_ H]. inversion H; congruence.
Qed.

Section Proofs.
Context {S : Type} (ds : decoders) (sfs : list (factory S)).

Lemma first_by_format_spec l core :
  match first_by_format l core with
  | Some sf => is_first (fun sf : factory S => sf_format sf core) l sf
  | None => none_of (fun sf : factory S => sf_format sf core) l
  end.
Proof.
  induction l as [|sf l IH]; cbn; [constructor|].
  destruct (sf_format sf core) eqn:E; [apply is_first_here, E|].
  destruct (first_by_format l core); [apply is_first_cons; auto|constructor; auto].
Qed.
Lemma first_by_preview_spec l p :
  match first_by_preview l p with
  | Some sf => is_first (fun sf : factory S => sf_preview sf p) l sf
  | None => none_of (fun sf : factory S => sf_preview sf p) l
  end.
Proof.
  induction l as [|sf l IH]; cbn; [constructor|].
  destruct (sf_preview sf p) eqn:E; [apply is_first_here, E|].
  destruct (first_by_preview l p); [apply is_first_cons; auto|constructor; auto].
Qed.

Lemma auto_spec p : open_by_content sfs p (create_source_by_autodetecting_format sfs p).
Proof.
  unfold open_by_content, create_source_by_autodetecting_format.
  pose proof (first_by_preview_spec sfs p) as H.
  destruct (first_by_preview sfs p); [left|right]; eauto.
Qed.
Lemma from_format_spec p core : open_by_name sfs core p (create_source_from_format sfs p core).
Proof.
  unfold open_by_name, create_source_from_format.
  pose proof (first_by_format_spec sfs core) as H.
  destruct (first_by_format sfs core); [left|right]; eauto.
Qed.

Lemma decoded_spec f p : decoded ds f p (decompress ds f p).
Proof.
  destruct f; cbn [decompress]; try constructor.
  destruct ((8 <=? length (get_buf p)) && bytes_eqb (firstn 8 (get_buf p)) (b "LZ4Block")) eqn:E.
  - apply andb_true_iff in E as [_ E]. apply bytes_eqb_eq in E. constructor.
    exists (skipn 8 (get_buf p)). now rewrite <- E, firstn_skipn.
  - constructor. intros [t Ht]. rewrite Ht in E. cbn in E. discriminate.
Qed.
Lemma removed_spec f p : removed ds (Some f) p (let* i := decompress ds f p in previewer_new i).
Proof. constructor. apply decoded_spec. Qed.

Lemma content_spec p :
  resolve_by_content ds sfs p
    (let* (_, p') := decompress_by_autodetecting_format ds p in
     create_source_by_autodetecting_format sfs p').
Proof.
  exists (is_compressed_using_previewer p). split; [apply content_layer_spec|].
  unfold decompress_by_autodetecting_format, decompress_preview.
  destruct (is_compressed_using_previewer p) as [f|].
  - exists (let* i := decompress ds f p in previewer_new i). split; [apply removed_spec|].
    destruct (let* i := decompress ds f p in previewer_new i) as [q|e| | |]; cbn [bind after];
      try reflexivity. apply auto_spec.
  - exists (Ok p). split; [constructor|]. apply auto_spec.
Qed.

Lemma resolve_spec p name fmt :
  resolve ds sfs name fmt p (create_source_from_previewer ds sfs p name fmt).
Proof.
  unfold resolve, create_source_from_previewer. destruct fmt as [ext|]; [|destruct name as [name|]].
  - set (dotted := if starts_with (b ".") ext then ext else b "." ++ ext).
    pose proof (name_layer_spec dotted) as N. unfold decompress_using_format.
    unfold resolve_user. exists dotted.
    destruct (is_compressed_using_format dotted) as [[f core]|].
    + exists (Some f), core. split; [|split; [exact N|]].
      * unfold dotted. destruct (starts_with (b ".") ext) eqn:E.
        -- left. split; [reflexivity|]. apply starts_with_spec, E.
        -- right. split; [reflexivity|]. intros t Ht.
           assert (starts_with (b ".") ext = true) by (apply starts_with_spec; eauto). congruence.
      * unfold decompress_preview. exists (let* i := decompress ds f p in previewer_new i). split; [apply removed_spec|].
        destruct (let* i := decompress ds f p in previewer_new i) as [q|e| | |]; cbn [bind after];
          try reflexivity. apply from_format_spec.
    + exists None, dotted. split; [|split; [exact N|]].
      * unfold dotted. destruct (starts_with (b ".") ext) eqn:E.
        -- left. split; [reflexivity|]. apply starts_with_spec, E.
        -- right. split; [reflexivity|]. intros t Ht.
           assert (starts_with (b ".") ext = true) by (apply starts_with_spec; eauto). congruence.
      * exists (Ok p). split; [constructor|]. cbn [bind after]. apply from_format_spec.
  - pose proof (name_layer_spec name) as N. unfold decompress_using_format, resolve_by_name.
    destruct (is_compressed_using_format name) as [[f core]|].
    + exists (Some f), core. split; [exact N|]. unfold decompress_preview.
      exists (let* i := decompress ds f p in previewer_new i). split; [apply removed_spec|].
      destruct (let* i := decompress ds f p in previewer_new i) as [q|e| | |]; cbn [bind after];
        try reflexivity.
      pose proof (first_by_format_spec sfs core) as F.
      destruct (first_by_format sfs core) as [sf|]; [left; eauto|right].
      split; [exact F|]. cbn [bind]. apply auto_spec.
    + exists None, name. split; [exact N|]. exists (Ok p). split; [constructor|]. cbn [bind after].
      pose proof (first_by_format_spec sfs name) as F.
      destruct (first_by_format sfs name) as [sf|]; [left; eauto|right].
      split; [exact F|].
      pose proof (content_spec p) as C.
      destruct (decompress_by_autodetecting_format ds p) as [[d q]|e| | |]; exact C.
  - apply content_spec.
Qed.

End Proofs.

(** ** No sniffing when the user gave the format *)
Lemma user_no_sniff {S} ds (sfs sfs' : list (factory S)) p n n' ext :
  Forall2 same_but_preview sfs sfs' ->
  create_source_from_previewer ds sfs p n (Extension ext) =
  create_source_from_previewer ds sfs' p n' (Extension ext).
Proof.
  intro H. unfold create_source_from_previewer.
  destruct (decompress_using_format ds p _) as [[[d q] core]|e| | |]; cbn [bind]; try reflexivity.
  unfold create_source_from_format.
  assert (K : match first_by_format sfs core, first_by_format sfs' core with
              | Some x, Some y => same_but_preview x y
              | None, None => True
              | _, _ => False
              end).
  { induction H as [|x y l l' Hxy H IH]; cbn; [exact I|].
    rewrite <- (proj1 Hxy). destruct (sf_format x core); [exact Hxy|exact IH]. }
  destruct (first_by_format sfs core), (first_by_format sfs' core); try contradiction; auto.
  apply (proj2 K).
Qed.

(** ** DC detection *)

Lemma read_be_firstn n s :
  read_be (N.of_nat n) (buf_stream s) =
  if length s <? n then Err (EIo UnexpectedEof)
  else Ok (of_be (firstn n s), buf_stream (skipn n s)).
Proof.
  unfold read_be, rbind, take_exact, buf_stream; cbn [s_data s_tail].
  rewrite Nat2N.id.
  destruct (Nat.ltb_spec (length s) n), (N.ltb_spec (N.of_nat (length s)) (N.of_nat n)); try lia;
    reflexivity.
Qed.

Lemma dc_accepts {S} (create : previewer -> res S) p :
  sf_preview (dc_factory create) p = starts_with dc_magic (get_buf p).
Proof.
  cbn [sf_preview dc_factory]. set (s := get_buf p). clearbody s.
  change 8%N with (N.of_nat 8). rewrite read_be_firstn.
  assert (Sp : forall k m s', starts_with m s' = (k =? length m) && false ||
             (if length s' <? length m then false else bytes_eqb (firstn (length m) s') m)).
  { intros k m s'. rewrite andb_false_r. cbn [orb].
    destruct (Nat.ltb_spec (length s') (length m)).
    - destruct (starts_with m s') eqn:E; [|reflexivity].
      apply starts_with_spec in E as [t ->]. rewrite app_length in *. lia.
    - rewrite <- (firstn_skipn (length m) s') at 1. symmetry. apply bytes_eqb_starts.
      rewrite firstn_length. lia. }
  assert (Sw : forall m m' s', starts_with (m ++ m') s' =
             starts_with m s' && starts_with m' (skipn (length m) s')).
  { induction m as [|a m IH]; intros m' s'; [reflexivity|].
    destruct s' as [|c s']; [reflexivity|]. cbn [app starts_with length skipn].
    rewrite IH. apply andb_assoc. }
  unfold dc_magic. rewrite Sw, (Sp 0 (be 8 _)).
  rewrite be_length. cbn [Nat.eqb andb orb].
  destruct (Nat.ltb_spec (length s) 8); [reflexivity|].
  rewrite (of_be_eqb (firstn 8 s) (be 8 0x44434154) MAGIC_NUM).
  2:{ rewrite firstn_length, be_length. lia. }
  2:{ reflexivity. }
  f_equal. change 2%N with (N.of_nat 2) at 1. rewrite read_be_firstn.
  rewrite (Sp 0 (be 2 _)), be_length. cbn [Nat.eqb andb orb].
  destruct (Nat.ltb_spec (length (skipn 8 s)) 2); [reflexivity|].
  apply of_be_eqb; [rewrite firstn_length, be_length; lia|reflexivity].
Qed.

Lemma dc_no_layer p t : get_buf p = dc_magic ++ t -> is_compressed_using_previewer p = None.
Proof.
  intro H. rewrite detect_table, H.
  destruct (length (dc_magic ++ t) <? 4); [reflexivity|]. reflexivity.
Qed.

(** A byte 0xFF is never part of well-formed UTF-8. *)
Lemma utf8_no_ff s : In (byte_of 255) s -> utf8 s = false.
Proof.
  intro H. destruct (utf8 s) eqn:E; [|reflexivity].
  apply utf8_well_formed in E as (cs & Hc & ->).
  apply in_flat_map in H as (c & H1 & H2). rewrite Forall_forall in Hc. destruct (Hc _ H1) as [Hb Hs].
  exfalso. unfold encode in H2. apply in_map_iff in H2 as (n & H3 & H4).
  assert (n = 255%N).
  { apply (f_equal of_byte) in H3.
    assert (n < 256)%N.
    { destruct (N.ltb_spec c 0x80); [|destruct (N.ltb_spec c 0x800); [|destruct (N.ltb_spec c 0x10000)]];
        cbn [In] in H4; lia. }
    rewrite !of_byte_of in H3 by lia. exact H3. }
  subst n.
  destruct (N.ltb_spec c 0x80); [|destruct (N.ltb_spec c 0x800); [|destruct (N.ltb_spec c 0x10000)]];
    cbn [In] in H4; lia.
Qed.

Lemma ff_no_lines i p :
  previewer_new i = Ok p -> length (i_data i) < DEFAULT_BUF_SIZE -> In (byte_of 255) (i_data i) ->
  get_lines p = None.
Proof.
  intros H L F.
  assert (HB : DEFAULT_BUF_SIZE <> 0) by (unfold DEFAULT_BUF_SIZE; lia).
  pose proof (previewer_spec _ i HB) as S.
  change (previewer_with DEFAULT_BUF_SIZE i) with (previewer_new i) in S. rewrite H in S.
  destruct S as (R & B & _ & P & C & Fb & G).
  rewrite firstn_all2 in B by lia.
  destruct (preview_lines_exist (i_data i) false) as (raw & ls & last & E1 & E2 & E3).
  unfold get_lines_from_reader in G.
  pose proof (rep_len _ _ _ _ _ R) as RL. pose proof (rep_cap _ _ _ _ _ R) as RC.
  rewrite (get_lines_parse ls _ (r_buf (get_reader p)) 0 (r_cap (get_reader p)) [] last) in G; try lia; auto.
  - injection G as G.
    assert (length (r_buf (get_reader p)) <=? r_cap (get_reader p) = false) as Q.
    { apply Nat.leb_gt. rewrite RL, C, B. exact L. }
    rewrite Q in G. unfold tail_line in G.
    rewrite <- E3 in G.
    assert (get_lines p = parse raw) as -> by (rewrite <- G; destruct (parse raw); reflexivity).
    apply parse_spec.
    assert (exists l, In l raw /\ In (byte_of 255) l) as (l & Hl & Hff).
    { rewrite E1 in F. apply in_app_or in F as [F|F].
      - apply in_concat in F as (x & Hx & Hx2). apply in_map_iff in Hx as (l & <- & Hl).
        exists l. split; [rewrite E3; apply in_or_app; auto|].
        apply in_app_or in Hx2 as [?|[Hx2|[]]]; [assumption|]. discriminate.
      - exists last. split; [|exact F]. rewrite E3. apply in_or_app. right.
        destruct last; [destruct F|left; reflexivity]. }
    destruct (strip_cr_exists l) as [l' Hl']. exists l, l'. split; [exact Hl|]. split; [exact Hl'|].
    apply utf8_no_ff. destruct Hl' as [->|[-> _]]; [|exact Hff].
    apply in_app_or in Hff as [?|[Hff|[]]]; [assumption|]. discriminate.
  - rewrite Nat.sub_0_r. cbn [skipn]. rewrite <- Fb, B. exact E1.
Qed.

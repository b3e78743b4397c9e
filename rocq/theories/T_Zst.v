(** Theorems about reading zstd streams (C101, C102). *)
From Verif Require Import ZstSpec.

Definition rest_of (d : decoder) (cs : list bytes) : bytes := z_out d ++ concat cs.

Lemma decode_sound before n w cs : forall out d,
  decode_from before n w (map Some cs) out = Ok d ->
  exists cs', z_todo d = map Some cs' /\ z_window d = w /\ z_out d ++ concat cs' = out ++ concat cs /\
    (cs <> [] -> length cs' < length cs).
Proof.
  induction cs as [|c cs IH]; intros out d H; cbn [map decode_from] in H.
  - injection H as <-. exists []. repeat split; auto. congruence.
  - destruct cs as [|c2 cs]; cbn [map] in H.
    + injection H as <-. exists []. cbn. rewrite !app_nil_r. repeat split; auto.
    + destruct (n <=? length (out ++ c) - before).
      * injection H as <-. exists (c2 :: cs). cbn. repeat split; auto. now rewrite <- app_assoc.
      * destruct (IH _ _ H) as (cs' & A & B & C & D). exists cs'. repeat split; auto.
        -- rewrite C. cbn. now rewrite <- app_assoc.
        -- intros _. cbn in *. specialize (D ltac:(discriminate)). lia.
Qed.
Lemma decode_total before n w cs out : exists d, decode_from before n w (map Some cs) out = Ok d.
Proof.
  revert out; induction cs as [|c cs IH]; intro out; cbn; [eauto|].
  destruct (map Some cs) eqn:E; [eauto|]. destruct (n <=? _); [eauto|]. apply IH.
Qed.

Lemma fill_sound fuel : forall d cs len, z_todo d = map Some cs -> length cs <= fuel ->
  exists d' cs', zst_fill fuel d len = Ok d' /\ z_todo d' = map Some cs' /\
    z_out d' ++ concat cs' = z_out d ++ concat cs /\ (is_finished d' = true \/ len <= can_collect d').
Proof.
  induction fuel as [|f IH]; intros d cs len Ht Hl.
  - destruct cs; [|cbn in Hl; lia]. exists d, []. unfold zst_fill, is_finished. rewrite Ht. cbn. auto.
  - cbn [zst_fill]. destruct (is_finished d) eqn:Ef; [exists d, cs; auto|].
    destruct (Nat.leb_spec len (can_collect d)) as [L|L]; [exists d, cs; auto|].
    unfold decode_blocks. rewrite Ht.
    destruct (decode_total (length (z_out d)) (len - can_collect d) (z_window d) cs (z_out d)) as (d1 & E).
    rewrite E. cbn [bind]. destruct (decode_sound _ _ _ _ _ _ E) as (cs1 & A & _ & C & D).
    assert (Hne : cs <> []) by (intros ->; unfold is_finished in Ef; rewrite Ht in Ef; discriminate).
    specialize (D Hne). destruct (IH d1 cs1 len A ltac:(lia)) as (d2 & cs2 & E2 & A2 & C2 & F2).
    exists d2, cs2. rewrite C2. auto.
Qed.

Lemma read_sound d cs len : z_todo d = map Some cs ->
  exists d' cs', zst_read d len = Ok (firstn len (rest_of d cs), d') /\ z_todo d' = map Some cs' /\
    rest_of d' cs' = skipn len (rest_of d cs).
Proof.
  intro Ht. unfold zst_read.
  destruct (fill_sound (length (z_todo d)) d cs len Ht) as (d1 & cs1 & E & A & C & F).
  { rewrite Ht, map_length. lia. }
  rewrite E. cbn [bind]. unfold rest_of. rewrite <- C. unfold collect.
  set (k := Nat.min len (can_collect d1)).
  assert (Hc : can_collect d1 <= length (z_out d1)) by (unfold can_collect; destruct (is_finished d1); lia).
  exists {| z_todo := z_todo d1; z_out := skipn k (z_out d1); z_window := z_window d1 |}, cs1.
  cbn [z_todo z_out]. split; [|split; [exact A|]].
  - f_equal. f_equal. destruct F as [F|F].
    + assert (cs1 = []) as -> by (unfold is_finished in F; rewrite A in F; destruct cs1; [auto|discriminate]).
      cbn. rewrite app_nil_r. unfold k, can_collect. rewrite F.
      destruct (Nat.le_ge_cases len (length (z_out d1))) as [L|L].
      * now rewrite Nat.min_l.
      * rewrite Nat.min_r by exact L. rewrite firstn_all, (firstn_all2 _ L). reflexivity.
    + unfold k. rewrite Nat.min_l by exact F. rewrite firstn_app.
      replace (len - length (z_out d1)) with 0 by lia. cbn. now rewrite app_nil_r.
  - destruct F as [F|F].
    + assert (cs1 = []) as -> by (unfold is_finished in F; rewrite A in F; destruct cs1; [auto|discriminate]).
      cbn. rewrite !app_nil_r. unfold k, can_collect. rewrite F.
      destruct (Nat.le_ge_cases len (length (z_out d1))) as [L|L].
      * now rewrite Nat.min_l.
      * rewrite Nat.min_r by exact L. rewrite (skipn_all2 _ (le_n _)), (skipn_all2 _ L). reflexivity.
    + unfold k. rewrite Nat.min_l by exact F. rewrite skipn_app.
      replace (len - length (z_out d1)) with 0 by lia. reflexivity.
Qed.

Lemma reads_sound lens : forall d cs, z_todo d = map Some cs ->
  zst_reads d lens = (pieces (rest_of d cs) lens, Ok tt).
Proof.
  induction lens as [|n lens IH]; intros d cs Ht; [reflexivity|]. cbn [zst_reads pieces].
  destruct (read_sound d cs n Ht) as (d' & cs' & E & A & R). rewrite E, (IH d' cs' A), R. reflexivity.
Qed.

(** C101: whatever the blocks of the frame, its window and the buffers of the reads, what is read
    is the content of the frame, every buffer being filled as far as there is content … *)
Theorem C101_whole_content : forall blocks w text more d lens,
  sound blocks text -> zst_new ((blocks, w) :: more) = Ok d ->
  zst_reads d lens = (pieces text lens, Ok tt).
Proof.
  intros blocks w text more d lens (cs & -> & ->) H. injection H as <-.
  rewrite (reads_sound lens _ cs) by reflexivity. reflexivity.
Qed.
Print Assumptions C101_whole_content.

(** (the pieces put together are the text as far as it was asked for) *)
Theorem C101_pieces : forall text lens, concat (pieces text lens) = firstn (list_sum lens) text.
Proof.
  intros text lens. revert text; induction lens as [|n lens IH]; intro text; [reflexivity|].
  cbn [pieces concat list_sum fold_right]. rewrite IH. change (fold_right Nat.add 0 lens) with (list_sum lens).
  generalize (list_sum lens) as m. intro m. clear.
  revert text; induction n as [|n IH]; intros text; [reflexivity|].
  destruct text as [|x t]; [cbn; now rewrite firstn_nil|]. cbn. now rewrite IH.
Qed.
Print Assumptions C101_pieces.

(** … and a block that cannot be decoded is an error, never an end: the reads before it give the
    right bytes, and no read with room in its buffer comes back empty. *)
Lemma decode_bad before n w cs more : forall out d,
  decode_from before n w (map Some cs ++ None :: more) out = Ok d ->
  exists cs', z_todo d = map Some cs' ++ None :: more /\ z_out d ++ concat cs' = out ++ concat cs /\
    length cs' < length cs.
Proof.
  induction cs as [|c cs IH]; intros out d H; cbn [map app decode_from] in H; [discriminate|].
  assert (Hne : exists a t, map Some cs ++ None :: more = a :: t) by (destruct cs; cbn; eauto).
  destruct Hne as (a & t & Ea). rewrite Ea in H.
  destruct (n <=? length (out ++ c) - before).
  - injection H as <-. exists cs. cbn [z_todo z_out concat length]. rewrite <- Ea. repeat split; auto. now rewrite <- app_assoc.
  - rewrite <- Ea in H. destruct (IH _ _ H) as (cs' & A & C & D). exists cs'. cbn [concat length]. repeat split; auto.
    rewrite C. now rewrite <- app_assoc.
Qed.
Lemma decode_bad_total before n w cs more out :
  (exists d, decode_from before n w (map Some cs ++ None :: more) out = Ok d) \/
  decode_from before n w (map Some cs ++ None :: more) out = Err zst_error.
Proof.
  revert out; induction cs as [|c cs IH]; intro out; cbn; [auto|].
  destruct (map Some cs ++ None :: more) eqn:E; [destruct cs; discriminate|].
  destruct (n <=? _); [eauto|]. rewrite <- E in *. apply IH.
Qed.
Lemma fill_bad fuel more : forall d cs len, z_todo d = map Some cs ++ None :: more -> length cs < fuel ->
  zst_fill fuel d len = Err zst_error \/
  exists d' cs', zst_fill fuel d len = Ok d' /\ z_todo d' = map Some cs' ++ None :: more /\
    z_out d' ++ concat cs' = z_out d ++ concat cs /\ len <= can_collect d'.
Proof.
  induction fuel as [|f IH]; intros d cs len Ht Hl; [lia|].
  cbn [zst_fill]. assert (Ef : is_finished d = false) by (unfold is_finished; rewrite Ht; destruct cs; reflexivity).
  rewrite Ef. destruct (Nat.leb_spec len (can_collect d)) as [L|L]; [right; exists d, cs; auto|].
  unfold decode_blocks. rewrite Ht.
  destruct (decode_bad_total (length (z_out d)) (len - can_collect d) (z_window d) cs more (z_out d)) as [(d1 & E)|E];
    rewrite E; cbn [bind]; [|auto].
  destruct (decode_bad _ _ _ _ _ _ _ E) as (cs1 & A & C & D).
  destruct (IH d1 cs1 len A ltac:(lia)) as [E2|(d2 & cs2 & E2 & A2 & C2 & F2)]; [auto|].
  right. exists d2, cs2. rewrite C2. auto.
Qed.
Lemma reads_bad lens more : forall d cs xs o, z_todo d = map Some cs ++ None :: more ->
  zst_reads d lens = (xs, o) ->
  (exists z, concat xs ++ z = rest_of d cs) /\
  Forall2 (fun n x => length x = n) (firstn (length xs) lens) xs /\
  (o = Ok tt -> length xs = length lens) /\ (o = Ok tt \/ o = Err zst_error).
Proof.
  induction lens as [|n lens IH]; intros d cs xs o Ht H; cbn [zst_reads] in H.
  - injection H as <- <-. split; [exists (rest_of d cs); reflexivity|]. split; [constructor|]. auto.
  - unfold zst_read in H.
    destruct (fill_bad (length (z_todo d)) more d cs n Ht) as [E|(d1 & cs1 & E & A & C & F)].
    { rewrite Ht, app_length, map_length. cbn. lia. }
    + rewrite E in H. cbn [bind] in H. injection H as <- <-. cbn.
      split; [exists (rest_of d cs); reflexivity|]. split; [constructor|]. split; [discriminate|auto].
    + rewrite E in H. cbn [bind] in H. unfold collect in H. rewrite Nat.min_l in H by exact F.
      set (d2 := {| z_todo := z_todo d1; z_out := skipn n (z_out d1); z_window := z_window d1 |}) in *.
      destruct (zst_reads d2 lens) as [ys o'] eqn:E2. injection H as <- <-.
      destruct (IH d2 cs1 ys o' A E2) as ((z & Z) & B & G & K).
      assert (Hc : can_collect d1 <= length (z_out d1)) by (unfold can_collect; destruct (is_finished d1); lia).
      cbn [concat length firstn]. split; [|split; [|split; [|exact K]]].
      * exists z. unfold rest_of in *. rewrite <- C, <- app_assoc, Z. unfold d2. cbn [z_out].
        rewrite app_assoc, firstn_skipn. reflexivity.
      * constructor; [rewrite firstn_length; lia|exact B].
      * intro Ho. rewrite (G Ho). reflexivity.
Qed.

Theorem C101_damage_is_reported : forall cs more w frames d lens xs o,
  zst_new ((map Some cs ++ None :: more, w) :: frames) = Ok d -> zst_reads d lens = (xs, o) ->
  (o = Ok tt \/ o = Err zst_error) /\
  (exists z, concat xs ++ z = concat cs) /\
  Forall2 (fun n x => length x = n) (firstn (length xs) lens) xs /\
  (length (concat cs) < list_sum lens -> o = Err zst_error).
Proof.
  intros cs more w frames d lens xs o H R. injection H as <-.
  destruct (reads_bad lens more {| z_todo := map Some cs ++ None :: more; z_out := []; z_window := w |} cs xs o eq_refl R) as ((z & Z) & B & G & K). unfold rest_of in Z. cbn [z_out app] in Z.
  split; [exact K|]. split; [exists z; exact Z|]. split; [exact B|].
  intro L. destruct K as [Ho|Ho]; [|exact Ho]. exfalso. specialize (G Ho). rewrite G, firstn_all in B.
  assert (X : length (concat xs) = list_sum lens).
  { clear - B. induction B as [|n x ns xs Hx B IH]; [reflexivity|]. cbn. rewrite app_length, Hx, IH. reflexivity. }
  apply (f_equal (@length byte)) in Z. rewrite app_length in Z. lia.
Qed.
Print Assumptions C101_damage_is_reported.

(** C102 fails: of a file of several frames only the first is read; then the data ends without
    an error, however much is asked for. *)
Lemma first_frame : forall blocks w text more d lens,
  sound blocks text -> zst_new ((blocks, w) :: more) = Ok d ->
  concat (fst (zst_reads d lens)) = firstn (list_sum lens) text /\ snd (zst_reads d lens) = Ok tt.
Proof.
  intros blocks w text more d lens Hs Hn. rewrite (C101_whole_content blocks w text more d lens Hs Hn).
  cbn [fst snd]. split; [apply C101_pieces|reflexivity].
Qed.
Theorem C102_further_frames_refuted : forall blocks w text blocks2 w2 text2 more d lens,
  sound blocks text -> sound blocks2 text2 -> text2 <> [] ->
  zst_new ((blocks, w) :: (blocks2, w2) :: more) = Ok d ->
  snd (zst_reads d lens) = Ok tt /\ concat (fst (zst_reads d lens)) <> text ++ text2 /\
  (length text <= list_sum lens -> concat (fst (zst_reads d lens)) = text).
Proof.
  intros blocks w text blocks2 w2 text2 more d lens Hs _ Hne Hn.
  destruct (first_frame blocks w text _ d lens Hs Hn) as [A B].
  split; [exact B|]. split.
  - rewrite A. intro E. apply (f_equal (@length byte)) in E. rewrite firstn_length, app_length in E.
    destruct text2; [congruence|]. cbn in E. lia.
  - intro L. rewrite A. now apply firstn_all2.
Qed.
Print Assumptions C102_further_frames_refuted.
Theorem C102_one_frame_partial : forall blocks w text d lens,
  sound blocks text -> zst_new [(blocks, w)] = Ok d -> length text <= list_sum lens ->
  concat (fst (zst_reads d lens)) = text /\ snd (zst_reads d lens) = Ok tt.
Proof.
  intros blocks w text d lens Hs Hn L.
  destruct (first_frame blocks w text [] d lens Hs Hn) as [A B].
  rewrite firstn_all2 in A by exact L. auto.
Qed.
Print Assumptions C102_one_frame_partial.

(** A stream without a frame is an error, not an empty content; with one, it opens. *)
Theorem C101_no_frame : forall frames, match zst_new frames with Ok _ => frames <> [] | Err _ => frames = [] | _ => False end.
Proof. intros [|[bs w] fs]; [reflexivity|discriminate]. Qed.
Print Assumptions C101_no_frame.

Example ex_zst : forall d, zst_new [([Some (b "hello "); Some (b "wor"); Some (b "ld")], 4)] = Ok d ->
  zst_reads d [3; 0; 4; 100; 5] = ([b "hel"; []; b "lo w"; b "orld"; []], Ok tt).
Proof. intros d [= <-]. vm_compute. reflexivity. Qed.
Example ex_zst_bad : forall d, zst_new [([Some (b "hello "); None], 2)] = Ok d ->
  zst_reads d [3; 1; 4; 100] = ([b "hel"; b "l"], Err zst_error).
Proof. intros d [= <-]. vm_compute. reflexivity. Qed.
Example ex_zst_two : forall d, zst_new [([Some (b "one")], 2); ([Some (b "two")], 2)] = Ok d ->
  zst_reads d [10; 10] = ([b "one"; []], Ok tt).
Proof. intros d [= <-]. vm_compute. reflexivity. Qed.

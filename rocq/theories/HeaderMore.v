(** Further facts about header processing: more recursion depth changes nothing, mirrors. *)
From Verif Require Export CliProofs.

Definition le_res {A} (x y : res A) : Prop := x <> NoFuel -> y = x.
Lemma bind_le {A B} (x y : res A) (k k' : A -> res B) :
  le_res x y -> (forall a, x = Ok a -> le_res (k a) (k' a)) -> le_res (bind x k) (bind y k').
Proof.
  intros H1 H2 Hn. destruct x as [a|e| | |]; cbn in *;
    try (rewrite H1 by discriminate; cbn; auto; fail).
  - rewrite H1 by discriminate. cbn. apply H2; auto.
  - congruence.
Qed.
Lemma le_refl {A} (x : res A) : le_res x x.
Proof. intro; reflexivity. Qed.

Section Mono.
  Variables rec rec' : hstate -> nat -> header -> res hstate.
  Hypothesis Hrec : forall s c h, le_res (rec s c h) (rec' s c h).

  Lemma check_merge_header_mono s c h : le_res (check_merge_header rec s c h) (check_merge_header rec' s c h).
  Proof.
    destruct s as [hg dg]. unfold check_merge_header.
    destruct (nth_error hg c) as [[|[g|st count|ids n|k] rest]|]; try apply le_refl.
    destruct count as [|count]; [apply le_refl|]. apply bind_le; [apply le_refl|]. intros st' _.
    destruct count; [|apply le_refl]. apply bind_le; [apply le_refl|]. intros h0 _.
    apply bind_le; [apply le_refl|]. intros hg' _. apply Hrec.
  Qed.
  Lemma split_targets_mono ids s h n : le_res (split_targets rec s ids h n) (split_targets rec' s ids h n).
  Proof.
    revert s n; induction ids as [|i t IH]; intros s n; cbn [split_targets]; [apply le_refl|].
    apply bind_le; [apply Hrec|]. intros s' _. destruct n; [apply le_refl|apply IH].
  Qed.
  Lemma walk_header_mono ns s c h : le_res (walk_header rec s c h ns) (walk_header rec' s c h ns).
  Proof.
    revert s h; induction ns as [|nd ns IH]; intros s h; cbn [walk_header]; [apply le_refl|].
    destruct nd as [g|st n|ids n|d].
    - apply bind_le; [apply le_refl|]. intros [h' k] _. apply bind_le; [apply le_refl|]. intros dg' _. apply IH.
    - apply bind_le; [apply le_refl|]. intros k _. apply bind_le; [apply le_refl|]. intros dg' _. apply IH.
    - destruct (n =? 0); [apply le_refl|]. apply bind_le; [apply split_targets_mono|]. intros s1 _.
      apply bind_le; [apply le_refl|]. intros dg' _. apply IH.
    - apply bind_le; [apply le_refl|]. intros dg' _. apply bind_le; [apply check_merge_header_mono|].
      intros s1 _. apply IH.
  Qed.
End Mono.

Lemma match_remove_chain_mono f f' s c h :
  f <= f' -> le_res (match_remove_chain f s c h) (match_remove_chain f' s c h).
Proof.
  revert f' s c h; induction f as [|f IH]; intros f' s c h Hf; [intros N; cbn in N; congruence|].
  destruct f' as [|f']; [lia|]. cbn [match_remove_chain]. apply bind_le; [apply le_refl|].
  intros [nodes hg'] _. apply walk_header_mono. intros. apply IH. lia.
Qed.
Lemma process_headers_mono f f' s i hs :
  f <= f' -> le_res (process_headers f s i hs) (process_headers f' s i hs).
Proof.
  intro Hf. revert s i; induction hs as [|h t IH]; intros s i; cbn [process_headers]; [apply le_refl|].
  apply bind_le; [|intros; apply IH]. unfold process_header_re.
  destruct (nth_error (fst s) i) as [[|[g|st n|ids n|d] rest]|]; try apply le_refl;
    try (now apply match_remove_chain_mono).
  apply check_merge_header_mono. intros. now apply match_remove_chain_mono.
Qed.

Lemma process_header_depth hg hs f :
  header_sinks_return hg -> hfuel hg <= f ->
  process_headers f (hg, repeat [] (length hg)) 0 hs <> NoFuel /\
  (let* s := process_headers f (hg, repeat [] (length hg)) 0 hs in Ok (snd s)) = process_header hg hs.
Proof.
  intros Hr Hf. unfold process_header.
  assert (N : process_headers (hfuel hg) (hg, repeat [] (length hg)) 0 hs <> NoFuel).
  { pose proof (process_header_terminates hg hs Hr) as T. unfold process_header in T.
    intro E. rewrite E in T. now apply T. }
  rewrite (process_headers_mono _ f _ _ _ Hf N). auto.
Qed.

Lemma built_mirrors h ns ds sends : built h ns ds sends -> Forall2 mirrors ns ds.
Proof. induction 1; constructor; auto; cbn; auto. Qed.

(** The error on a differing header. *)
Lemma merge_mismatch rec hg dg d h h0 n rest :
  nth_error hg d = Some (HMerge (Some h0) (S n) :: rest) -> h <> h0 ->
  check_merge_header rec (hg, dg) d h = Err (ECustom "MuxHeaderSink -- wrong header").
Proof.
  intros Hd Hn. unfold check_merge_header. rewrite Hd. cbn [check_header].
  destruct (header_eqb h h0) eqn:E; [apply header_eqb_eq in E; contradiction|reflexivity].
Qed.

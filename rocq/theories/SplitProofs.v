(** Splitting (C100). *)
From Verif Require Export FanProofs.

Definition out_ok (h : header) (o : list header_sink * header_sink) (ks : list sink) (k : sink)
    (acts : list (row -> option row)) : Prop :=
  exists h2 ho, steps h (fst o) h2 ks acts /\ snd o h2 = Ok (ho, k).

Definition hout (o : list header_sink * header_sink) : hchain := map HSink (fst o) ++ [HSink (snd o)].
Definition dout (q : list sink * sink * list (row -> option row)) : dchain :=
  map DSink (fst (fst q)) ++ [DSink (snd (fst q))].

Lemma split_outs f h outs qs :
  Forall2 (fun o q => out_ok h o (fst (fst q)) (snd (fst q)) (snd q)) outs qs ->
  forall i e1 d1 count, length e1 = i -> length d1 = i -> length outs <= count ->
    split_targets (match_remove_chain (S f)) (e1 ++ map hout outs, d1 ++ repeat [] (length outs))
      (seq i (length outs)) h count
    = Ok (e1 ++ repeat [] (length outs), d1 ++ map dout qs).
Proof.
  induction 1 as [|o [[ks k] acts] outs qs (h2 & ho & Hs & Ho) HF IH]; intros i e1 d1 count Le Ld Hc.
  - cbn. reflexivity.
  - cbn [length seq split_targets map repeat]. destruct count as [|count]; [cbn in Hc; lia|].
    cbn [match_remove_chain fst snd]. rewrite swap_mid by auto. cbn [bind].
    change (hout o) with (map HSink (fst o) ++ [HSink (snd o)]). erewrite walk_steps by eauto. cbn [walk_header]. rewrite Ho. cbn [bind fst snd].
    rewrite add_mid by auto. cbn [unwrap_res bind]. cbn [app fst snd] in *.
    specialize (IH (S i) (e1 ++ [[]]) (d1 ++ [map DSink ks ++ [DSink k]]) count).
    rewrite !app_length in IH. cbn [length] in *.
    rewrite <- !app_assoc in IH. cbn [app] in IH. unfold dout at 1. cbn [fst snd]. apply IH; lia.
Qed.

Definition split_data (kp : list sink) (qs : list (list sink * sink * list (row -> option row))) : dgraph :=
  (map DSink kp ++ [DSplit (seq 1 (length qs))]) :: map dout qs.

Lemma split_new pre outs h h1 kp ap qs :
  outs <> [] -> steps h pre h1 kp ap ->
  Forall2 (fun o q => out_ok h1 o (fst (fst q)) (snd (fst q)) (snd q)) outs qs ->
  driver_new 1 (fan_out pre outs) [h] = Ok (split_data kp qs).
Proof.
  intros Hne Hp HF. pose proof (GraphProps.Forall2_len _ _ _ HF) as Lq.
  unfold driver_new, fan_out. cbn [length]. destruct (Nat.ltb_spec (S (length (map (fun o : list header_sink * header_sink => map HSink (fst o) ++ [HSink (snd o)]) outs))) 1); [lia|].
  unfold process_header, hfuel. cbn [process_headers].
  match goal with |- context [2 + ?x] => set (f := x) end. change (2 + f) with (S (S f)).
  unfold process_header_re. cbn [fst nth_error].
  assert (Ex : exists a t, map HSink pre ++ [split_node (seq 1 (length outs))] = a :: t /\ forall st n, a <> HMerge st n).
  { destruct pre; cbn; eexists _, _; split; try reflexivity; discriminate. }
  destruct Ex as (a & t & Ea & Na). rewrite Ea.
  assert (Em : forall X Y : res hstate, match a with HMerge _ _ => X | _ => Y end = Y).
  { intros. destruct a; auto. exfalso. eapply Na; eauto. }
  rewrite Em. rewrite <- Ea. clear Em Ea Na a t.
  remember (S f) as f1. cbn [match_remove_chain fst snd].
  pose proof (swap_mid [] (map HSink pre ++ [split_node (seq 1 (length outs))])
                (map hout outs) 0 eq_refl) as Sw. cbn [app] in Sw. fold hout. rewrite Sw. clear Sw.
  cbn [bind length]. rewrite map_length. cbn [repeat].
  pose proof (walk_steps (match_remove_chain f1) ([] :: map hout outs) [] [] (repeat [] (length outs)) 0 h pre h1 kp ap
    [split_node (seq 1 (length outs))] Hp eq_refl) as W. cbn [app] in W. rewrite W. clear W.
  cbn [walk_header split_node]. rewrite seq_length.
  destruct (Nat.eqb_spec (length outs) 0) as [E0|N0]; [destruct outs; [congruence|discriminate]|].
  pose proof (split_outs f h1 outs qs HF 1 [[]] [map DSink kp] (length outs) eq_refl eq_refl (le_n _)) as Sp.
  cbn [app] in Sp. subst f1. rewrite Sp. cbn [bind fst snd].
  pose proof (add_mid [] (map DSink kp) (map dout qs) (DSplit (seq 1 (length outs))) 0 eq_refl) as Ad.
  cbn [app] in Ad. rewrite Ad. cbn [bind snd process_headers]. unfold split_data. now rewrite Lq.
Qed.

Section SplitRows.
  Variables (kp : list sink) (ap : list (row -> option row)).
  Variable qs : list (list sink * sink * list (row -> option row)).
  Hypothesis Lp : Forall2 acts_as kp ap.
  Hypothesis Lq : Forall (fun q => Forall2 acts_as (fst (fst q)) (snd q)) qs.
  Local Notation g := (split_data kp qs).

  Definition split_acts (c i : nat) (r : row) : list row :=
    match nth_error (ap :: map snd qs) c with
    | Some fs => match nth_error fs i with Some f => opt_list (f r) | None => [] end
    | None => []
    end.

  Lemma split_by_row : row_by_row g split_acts.
  Proof.
    intros c i q past r rows Hq Hnx Hw. unfold node_at in Hq, Hnx. unfold split_acts.
    assert (G : forall ks fs tl, Forall2 acts_as ks fs -> length tl = 1 ->
       nth_error (map DSink ks ++ tl) i = Some (DSink q) -> nth_error (map DSink ks ++ tl) (S i) <> None ->
       rows = match nth_error fs i with Some f => opt_list (f r) | None => [] end).
    { intros ks fs tl F Lt H1 H2. apply nth_error_Some in H2. rewrite app_length, map_length in H2.
      assert (Hi : i < length ks) by lia. rewrite nth_error_app1 in H1 by now rewrite map_length.
      destruct (nth_error ks i) as [k0|] eqn:Ei; [|apply nth_error_None in Ei; lia].
      erewrite map_nth_error in H1 by eauto. injection H1 as ->.
      destruct (F2_nth _ _ _ _ _ F Ei) as (f & -> & Y). apply Y in Hw. exact Hw. }
    destruct c as [|c]; cbn [nth_error split_data] in *.
    - apply (G kp ap [DSplit (seq 1 (length qs))]); auto.
    - rewrite nth_error_map in Hq, Hnx |- *. destruct (nth_error qs c) as [qq|] eqn:Eq; [|discriminate].
      cbn [option_map] in *. unfold dout in *.
      apply nth_error_In in Eq. rewrite Forall_forall in Lq. specialize (Lq _ Eq). apply (G _ _ [DSink (snd (fst qq))] Lq); auto.
  Qed.

  Lemma split_chain j q : nth_error qs j = Some q -> nth_error g (S j) = Some (dout q).
  Proof. intro H. cbn. now apply map_nth_error. Qed.

  Lemma split_acyclic : acyclic g.
  Proof.
    exists (fun c => if c =? 0 then 1 else 0). intros c d (chain & nd & Hc & Hin & Hd).
    destruct c as [|c].
    - cbn in Hc. injection Hc as <-. apply in_app_or in Hin as [Hin|[<-|[]]].
      + apply in_map_iff in Hin as (q & <- & _). destruct Hd.
      + cbn [targets] in Hd. apply in_seq in Hd. destruct (Nat.eqb_spec d 0); cbn; lia.
    - exfalso. cbn in Hc. rewrite nth_error_map in Hc. destruct (nth_error qs c); [|discriminate].
      injection Hc as <-. unfold dout in Hin. apply in_app_or in Hin as [Hin|[<-|[]]]; [|destruct Hd].
      apply in_map_iff in Hin as (q & <- & _). destruct Hd.
  Qed.

  Lemma split_leaf j q d m i e o :
    nth_error qs j = Some q -> nth_error qs i <> None ->
    d = S j -> m = length (fst (fst q)) ->
    route g split_acts d m (S i) 0 e o ->
    o = if i =? j then kept_ev (through (snd q)) e else [].
  Proof.
    intros Hq Hi -> -> R. destruct (nth_error qs i) as [qi|] eqn:Ei; [|congruence].
    assert (Fi : Forall2 acts_as (fst (fst qi)) (snd qi)).
    { rewrite Forall_forall in Lq. apply Lq. eapply nth_error_In; eauto. }
    pose proof (chain_route g split_acts (S j) (length (fst (fst q))) (S i) [] (fst (fst qi)) (snd qi) [DSink (snd (fst qi))] e o) as C.
    cbn [app length Nat.add] in C.
    assert (Hd : ~ (S i = S j /\ 0 <= length (fst (fst q)) < length (fst (fst qi)))).
    { intros [E L]. assert (i = j) as -> by lia. assert (qi = q) by congruence. subst. lia. }
    specialize (C (split_chain _ _ Ei) ltac:(discriminate) Hd (GraphProps.Forall2_len _ _ _ Fi)).
    assert (HA : forall x f r, nth_error (snd qi) x = Some f -> split_acts (S i) x r = opt_list (f r)).
    { intros x f r Hx. unfold split_acts. cbn [nth_error]. rewrite nth_error_map, Ei. cbn [option_map]. now rewrite Hx. }
    specialize (C HA R). clear HA R.
    destruct (kept_ev_cases (through (snd qi)) e) as [Ee|[e' Ee]]; rewrite Ee in C.
    - subst o. destruct (Nat.eqb_spec i j) as [->|]; [|reflexivity]. assert (qi = q) as <- by congruence. now rewrite Ee.
    - assert (Hs : node_at g (S i) (length (fst (fst qi))) = Some (DSink (snd (fst qi)))).
      { unfold node_at. rewrite (split_chain _ _ Ei). unfold dout. apply nth_mid'. now rewrite map_length. }
      assert (Hx : node_at g (S i) (S (length (fst (fst qi)))) = None).
      { unfold node_at. rewrite (split_chain _ _ Ei). unfold dout. apply nth_error_None.
        rewrite app_length, map_length. cbn. lia. }
      destruct (Nat.eqb_spec i j) as [->|N].
      + assert (qi = q) as -> by congruence. rewrite Ee. inversion C; subst; auto; exfalso; auto.
      + inversion C as [|c1 n1 r1 N1 F1|c1 n1 r1 k1 N1 F1 F2|c1 n1 r1 k1 outs1 N1 F1 F2 HF1|c1 n1 r1 nd1 outs1 rest1 N1 F1 F2 HF1 HR1]; subst; auto;
          try congruence; try contradiction.
  Qed.

  Lemma split_tee j q e : nth_error qs j = Some q ->
    forall k outs, k <= S j -> Forall2 (fun t o => o = if t =? S j then kept_ev (through (snd q)) e else [])
      (seq k (S j - k)) outs -> concat outs = [].
  Proof.
    intros Hq k outs Hk F. apply concat_nils.
    assert (X : Forall (fun t => t <> S j) (seq k (S j - k))).
    { apply Forall_forall. intros t Ht. apply in_seq in Ht. lia. }
    induction F as [|t o ts outs Ho F IH]; constructor; inversion X; subst; auto.
    destruct (Nat.eqb_spec t (S j)); [congruence|reflexivity].
  Qed.

  Lemma one_of n j (x : list event) : j < n -> forall outs k,
    Forall2 (fun t o => o = if t =? k + j then x else []) (seq k n) outs -> concat outs = x.
  Proof.
    revert j; induction n as [|n IH]; intros j Hj outs k F; [lia|].
    cbn [seq] in F. inversion F as [|? o ? os Ho F']; subst. cbn [concat].
    destruct j as [|j].
    - rewrite Nat.add_0_r in *. rewrite Nat.eqb_refl. rewrite concat_nils; [now rewrite app_nil_r|].
      assert (X : Forall (fun t => t <> k) (seq (S k) n)).
      { apply Forall_forall. intros t Ht. apply in_seq in Ht. lia. }
      clear - F' X. induction F' as [|t o ts outs Ho F IH]; constructor; inversion X; subst; auto.
      destruct (Nat.eqb_spec t k); [congruence|reflexivity].
    - destruct (Nat.eqb_spec k (k + S j)); [lia|]. cbn [app]. apply (IH j ltac:(lia) _ (S k)).
      replace (S k + j) with (k + S j) by lia. exact F'.
  Qed.

  Lemma split_route j q e o :
    nth_error qs j = Some q ->
    route g split_acts (S j) (length (fst (fst q))) 0 0 e o -> o = kept_ev (through (ap ++ snd q)) e.
  Proof.
    intros Hq R. rewrite kept_ev_app.
    pose proof (chain_route g split_acts (S j) (length (fst (fst q))) 0 [] kp ap [DSplit (seq 1 (length qs))] e o) as C.
    cbn [app length Nat.add] in C.
    specialize (C eq_refl ltac:(discriminate) ltac:(lia) (GraphProps.Forall2_len _ _ _ Lp)).
    assert (HA : forall x f r, nth_error ap x = Some f -> split_acts 0 x r = opt_list (f r)).
    { intros x f r Hx. unfold split_acts. cbn [nth_error]. now rewrite Hx. }
    specialize (C HA R). clear R HA.
    destruct (kept_ev_cases (through ap) e) as [Ee|[e' Ee]]; rewrite Ee in *; [exact C|].
    cbn [flat_map]. rewrite app_nil_r.
    assert (Hm : node_at g 0 (length kp) = Some (DSplit (seq 1 (length qs)))).
    { unfold node_at. cbn. apply nth_mid'. now rewrite map_length. }
    assert (Hx : node_at g 0 (S (length kp)) = None).
    { change (nth_error (map DSink kp ++ [DSplit (seq 1 (length qs))]) (S (length kp)) = None).
      apply nth_error_None. rewrite app_length, map_length. cbn. lia. }
    inversion C as [|c1 n1 r1 N1 F1|c1 n1 r1 k1 N1 F1 F2|c1 n1 r1 k1 outs1 N1 F1 F2 HF1|c1 n1 r1 nd1 outs1 rest1 N1 F1 F2 HF1 HR1]; subst;
      try (exfalso; lia); try congruence.
    assert (nd1 = DSplit (seq 1 (length qs))) as -> by congruence. cbn [targets] in HF1.
    assert (rest1 = []) as ->.
    { inversion HR1; subst; auto; try congruence. }
    rewrite app_nil_r.
    assert (Hj : j < length qs) by (apply nth_error_Some; congruence).
    apply (one_of (length qs) j _ Hj outs1 1).
    assert (X : Forall (fun t => exists i, t = S i /\ nth_error qs i <> None) (seq 1 (length qs))).
    { apply Forall_forall. intros t Ht. apply in_seq in Ht. exists (t - 1). split; [lia|]. apply nth_error_Some. lia. }
    clear - HF1 X Hq Lq.
    induction HF1 as [|t o ts outs Ho F IH]; constructor; inversion X as [|? ? (i & -> & Hi) X']; subst; auto.
    rewrite (split_leaf j q _ _ i e' o Hq Hi eq_refl eq_refl Ho). reflexivity.
  Qed.

  Lemma split_rows F srcs rng s j q :
    drive F g srcs rng = (s, Ok tt) -> length srcs = 1 -> nth_error qs j = Some q ->
    events_at (r_log s) (S j) (length (fst (fst q))) =
    flat_map (kept_ev (through (ap ++ snd q))) (map snd (by_source 1 (r_devs s))).
  Proof.
    intros H Ln Hq.
    destruct (drive_routes F g srcs rng s split_acts (S j) (length (fst (fst q))) H split_acyclic split_by_row) as (outs & HF & ->).
    { unfold node_at. rewrite (split_chain _ _ Hq). unfold dout. apply nth_error_Some.
      rewrite app_length, map_length. cbn. lia. }
    assert (Hch : forall dv, In dv (r_devs s) -> fst (handing dv) < 1).
    { rewrite <- Ln. intros dv Hd. apply (drive_chains _ _ _ _ _ _ H) in Hd. now destruct dv. }
    unfold by_source. rewrite map_map. cbn [snd].
    revert outs HF. induction (r_devs s) as [|dv ds IH]; intros outs HF; inversion HF as [|? o ? outs' Ho HF']; subst; [reflexivity|].
    cbn [concat flat_map map fst snd].
    rewrite (IH ltac:(intros; apply Hch; now right) _ HF'). f_equal.
    pose proof (Hch _ (or_introl eq_refl)) as Hc. assert (E0 : fst (handing dv) = 0) by lia. rewrite E0 in Ho.
    exact (split_route j q _ _ Hq Ho).
  Qed.
End SplitRows.

(** Proofs about the preview lines, read_exact and are_contents_same. *)
From Verif Require Export ReaderProofs.

(** ** Lines of the preview *)

Lemma position_here l t : ~ In LF l -> position (Ascii.eqb LF) (l ++ LF :: t) = Some (length l).
Proof.
  intro H. apply position_Some. split.
  - exists LF. rewrite nth_error_app2, Nat.sub_diag by lia. split; [reflexivity|].
    apply Ascii.eqb_refl.
  - intros k y Hk Hy. rewrite nth_error_app1 in Hy by lia. apply nth_error_In in Hy.
    destruct (Ascii.eqb_spec LF y); [subst; contradiction|reflexivity].
Qed.

Lemma position_nowhere l : ~ In LF l -> position (Ascii.eqb LF) l = None.
Proof.
  intro H. apply position_None. intros x Hx.
  destruct (Ascii.eqb_spec LF x); [subst; contradiction|reflexivity].
Qed.

Fixpoint parse (raw : list bytes) : option (list bytes) :=
  match raw with
  | [] => Some []
  | l :: t => match make_string_no_cr l with
              | None => None
              | Some s => option_map (cons s) (parse t)
              end
  end.

Definition tail_line (full : bool) (last : bytes) : list bytes :=
  if full then [] else match last with [] => [] | _ => [last] end.

Lemma get_lines_parse (ls : list bytes) : forall fuel (buf : bytes) start cap acc (last : bytes),
  cap <= length buf -> cap - start <= fuel -> start <= cap ->
  firstn (cap - start) (skipn start buf) = concat (map (fun l => l ++ [LF]) ls) ++ last ->
  Forall (fun l => ~ In LF l) (ls ++ [last]) ->
  get_lines_loop fuel buf start cap acc =
  Some (option_map (app acc) (parse (ls ++ tail_line (length buf <=? cap) last))).
Proof.
  induction ls as [|l ls IH]; intros fuel buf start cap acc last Hc Hf Hs E Hno.
  - cbn [map concat app] in E. cbn [app].
    apply Forall_inv in Hno.
    assert (Hlen : length last = cap - start).
    { rewrite <- E, firstn_length, skipn_length. lia. }
    destruct last as [|a last].
    + cbn in Hlen. assert (parse (tail_line (length buf <=? cap) []) = Some []) as HP.
      { unfold tail_line. destruct (_ <=? _); reflexivity. }
      rewrite HP. cbn. rewrite app_nil_r. destruct fuel; cbn [get_lines_loop];
        destruct (Nat.leb_spec cap start); try lia; reflexivity.
    + destruct fuel as [|f]; [cbn in Hlen; lia|]. cbn [get_lines_loop].
      destruct (Nat.leb_spec cap start); [cbn in Hlen; lia|].
      unfold get_line. rewrite E, (position_nowhere _ Hno).
      unfold tail_line. destruct (Nat.leb_spec (length buf) cap).
      * cbn. rewrite app_nil_r. reflexivity.
      * cbn [parse]. destruct (make_string_no_cr (a :: last)); [|reflexivity].
        cbn [option_map]. destruct f; cbn [get_lines_loop];
          destruct (Nat.leb_spec cap (cap + 1)); try lia; reflexivity.
  - cbn [map concat] in E. cbn [app]. rewrite <- app_assoc in E.
    set (t := concat (map (fun l => l ++ [LF]) ls) ++ last) in *.
    rewrite <- app_assoc in E. cbn [app] in E.
    assert (Hlen : length l + S (length t) = cap - start).
    { apply (f_equal (@length byte)) in E. rewrite firstn_length, skipn_length in E.
      rewrite app_length in E. cbn [length] in E. lia. }
    destruct fuel as [|f]; [lia|]. cbn [get_lines_loop].
    destruct (Nat.leb_spec cap start); [lia|].
    inversion Hno as [|? ? Hl Hno']; subst.
    unfold get_line. rewrite E, (position_here _ _ Hl).
    assert (El : firstn (start + length l - start) (skipn start buf) = l).
    { replace (start + length l - start) with (length l) by lia.
      assert (Hm : Nat.min (length l) (cap - start) = length l) by lia.
      rewrite <- Hm at 1. rewrite <- firstn_firstn, E, firstn_app.
      rewrite Nat.sub_diag, firstn_all. cbn. apply app_nil_r. }
    rewrite El. cbn [parse]. destruct (make_string_no_cr l) as [s|]; [|reflexivity].
    rewrite (IH f buf (start + length l + 1) cap (acc ++ [s]) last); try lia; auto.
    + destruct (parse _); cbn; [|reflexivity]. rewrite <- app_assoc. reflexivity.
    + replace (start + length l + 1) with (start + (length l + 1)) by lia.
      rewrite <- skipn_skipn.
      replace (cap - (start + (length l + 1))) with (cap - start - (length l + 1)) by lia.
      rewrite <- skipn_firstn_comm, E.
      rewrite skipn_app, skipn_all2 by lia.
      replace (length l + 1 - length l) with 1 by lia. reflexivity.
Qed.

Lemma make_string_spec l s :
  make_string_no_cr l = Some s <-> strip_cr l s /\ utf8 s = true.
Proof.
  unfold make_string_no_cr, strip_cr. destruct (rev l) as [|c t] eqn:E.
  - assert (l = []) as -> by (rewrite <- (rev_involutive l), E; reflexivity). split.
    + intros [= <-]. split; [|reflexivity]. right. split; [reflexivity|].
      intros x Hx. destruct x; discriminate.
    + intros [[H|[H _]] _]; [destruct s; discriminate|congruence].
  - assert (El : l = rev t ++ [c]) by (rewrite <- (rev_involutive l), E; reflexivity).
    destruct (Ascii.eqb_spec c CR) as [->|Hc].
    + destruct (utf8 (rev t)) eqn:U; split.
      * intros [= <-]. split; [left; exact El|exact U].
      * intros [[H|[H H2]] H1].
        -- rewrite El in H. apply app_inj_tail in H as [<- _]. reflexivity.
        -- exfalso. eapply H2, El.
      * discriminate.
      * intros [[H|[H H2]] H1].
        -- rewrite El in H. apply app_inj_tail in H as [<- _]. congruence.
        -- exfalso. eapply H2, El.
    + destruct (utf8 l) eqn:U; split.
      * intros [= <-]. split; [right; split; [reflexivity|]|exact U].
        intros x Hx. rewrite El in Hx. apply app_inj_tail in Hx as [_ ->]. congruence.
      * intros [[H|[H H2]] H1]; [|congruence].
        rewrite El in H. apply app_inj_tail in H as [_ ->]. congruence.
      * discriminate.
      * intros [[H|[H H2]] H1]; [|congruence].
        rewrite El in H. apply app_inj_tail in H as [_ ->]. congruence.
Qed.

Lemma strip_cr_exists l : exists l', strip_cr l l'.
Proof.
  unfold strip_cr. destruct (rev l) as [|c t] eqn:E.
  - assert (l = []) as -> by (rewrite <- (rev_involutive l), E; reflexivity).
    exists []. right. split; [reflexivity|]. intros x Hx. destruct x; discriminate.
  - assert (El : l = rev t ++ [c]) by (rewrite <- (rev_involutive l), E; reflexivity).
    destruct (Ascii.eqb_spec c CR) as [->|Hc].
    + exists (rev t); auto.
    + exists l. right. split; [reflexivity|]. intros x Hx. rewrite El in Hx.
      apply app_inj_tail in Hx as [_ ->]. congruence.
Qed.

Lemma strip_cr_det l x y : strip_cr l x -> strip_cr l y -> x = y.
Proof.
  intros [H|[H H1]] [K|[K K1]].
  - rewrite H in K. apply app_inj_tail in K as [-> _]. reflexivity.
  - exfalso. eapply K1, H.
  - exfalso. eapply H1, K.
  - congruence.
Qed.

Lemma parse_spec raw :
  (forall out, parse raw = Some out <->
     Forall2 (fun l l' => strip_cr l l' /\ utf8 l' = true) raw out) /\
  (parse raw = None <-> exists l l', In l raw /\ strip_cr l l' /\ utf8 l' = false).
Proof.
  assert (A : forall raw out, parse raw = Some out <->
     Forall2 (fun l l' => strip_cr l l' /\ utf8 l' = true) raw out).
  { clear raw. induction raw as [|l raw IH]; intro out; cbn [parse].
    - split; [intros [= <-]; constructor|inversion 1; reflexivity].
    - split.
      + destruct (make_string_no_cr l) as [s|] eqn:E; [|discriminate].
        destruct (parse raw) as [o|] eqn:Ep; [|discriminate]. intros [= <-].
        constructor; [apply make_string_spec, E|]. apply IH. reflexivity.
      + inversion 1 as [|? s ? o H1 H2]; subst. apply make_string_spec in H1. rewrite H1.
        apply IH in H2. rewrite H2. reflexivity. }
  split; [apply A|]. split.
  - induction raw as [|l raw IH]; cbn [parse]; [discriminate|].
    destruct (make_string_no_cr l) as [s|] eqn:E.
    + destruct (parse raw); [discriminate|]. intros _.
      destruct (IH eq_refl) as (x & y & H1 & H2). exists x, y. split; [right; exact H1|exact H2].
    + intros _. destruct (strip_cr_exists l) as [l' Hl']. exists l, l'.
      split; [left; reflexivity|]. split; [exact Hl'|].
      destruct (utf8 l') eqn:U; [|reflexivity].
      assert (make_string_no_cr l = Some l') by (apply make_string_spec; auto). congruence.
  - intros (l & l' & H1 & H2 & H3). destruct (parse raw) as [o|] eqn:E; [|reflexivity].
    apply A in E. exfalso. clear A. induction E as [|x y raw o [E1 E2] E IH]; [destruct H1|].
    destruct H1 as [->|H1]; [|auto]. rewrite (strip_cr_det _ _ _ H2 E1) in H3. congruence.
Qed.

Lemma preview_lines_exist buf full : exists raw, preview_lines buf full raw.
Proof.
  enough (exists ls last, buf = concat (map (fun l => l ++ [LF]) ls) ++ last /\
            Forall (fun l => ~ In LF l) (ls ++ [last])) as (ls & last & H1 & H2).
  { eexists. exists ls, last. split; [exact H1|]. split; [exact H2|]. reflexivity. }
  induction buf as [|a buf (ls & last & H1 & H2)].
  - exists [], []. split; [reflexivity|]. constructor; [intros []|constructor].
  - destruct (Ascii.eqb_spec a LF) as [->|Ha].
    + exists ([] :: ls), last. split; [cbn; congruence|]. cbn. constructor; [intros []|exact H2].
    + destruct ls as [|l ls].
      * exists [], (a :: last). split; [cbn in *; congruence|]. cbn in *.
        constructor; [|constructor]. apply Forall_inv in H2. intros [H|H]; [congruence|auto].
      * exists ((a :: l) :: ls), last. split; [cbn in *; congruence|]. cbn in *.
        inversion H2; subst. constructor; [|assumption]. intros [H|H]; [congruence|auto].
Qed.

(** ** read_exact *)

Lemma read_exact_loop_spec c tl plan : c <> 0 -> smooth plan ->
  forall fuel n acc r d, rep c r d tl plan -> n <= fuel ->
  exists r', read_exact_loop fuel n acc r =
    (if length d <? n then Err (end_err {| s_data := d; s_tail := tl |})
     else Ok (acc ++ firstn n d), r') /\
    (n <= length d -> rep c r' (skipn n d) tl plan).
Proof.
  intros Hc Hs. induction fuel as [|f IH]; intros n acc r d H Hn.
  - assert (n = 0) as -> by lia. cbn. exists r. rewrite app_nil_r. split; auto.
  - destruct n as [|n].
    + cbn. exists r. rewrite app_nil_r. split; auto.
    + cbn [read_exact_loop]. destruct (read (S n) r) as [x r1] eqn:E.
      apply (read_spec _ _ _ _ _ _ _ _ H Hc) in E.
      destruct x as [bs|e| | |]; try contradiction.
      * destruct E as (rest' & E1 & E2 & E3 & E4).
        destruct bs as [|a bs].
        -- destruct (E3 ltac:(lia) eq_refl) as [-> ->]. exists r1. split; [reflexivity|].
           cbn. lia.
        -- assert (Hle : S n - length (a :: bs) <= f) by (cbn [length] in *; lia).
           destruct (IH (S n - length (a :: bs)) (acc ++ a :: bs) r1 rest' E4 Hle)
             as (r' & R1 & R2).
           exists r'. rewrite R1. split.
           ++ subst d. rewrite app_length.
              destruct (Nat.ltb_spec (length rest') (S n - length (a :: bs)));
                destruct (Nat.ltb_spec (length (a :: bs) + length rest') (S n)); try lia.
              ** unfold end_err. reflexivity.
              ** rewrite firstn_app, (firstn_all2 (a :: bs)) by lia.
                 rewrite <- app_assoc. reflexivity.
           ++ intro Hl. subst d. rewrite app_length in Hl.
              rewrite skipn_app, skipn_all2 by lia. cbn [app]. apply R2. lia.
      * destruct E as [(k & -> & [E|[-> E]]) E1].
        -- exfalso. eapply Hs, E.
        -- exists r1. split; [|cbn; lia]. cbn [length Nat.ltb Nat.leb]. subst tl. reflexivity.
Qed.

Lemma read_exacts_spec c tl plan : c <> 0 -> smooth plan ->
  forall ns r d, rep c r d tl plan ->
  read_exacts ns r = take_exacts ns {| s_data := d; s_tail := tl |}.
Proof.
  intros Hc Hs. induction ns as [|n ns IH]; intros r d H; [reflexivity|].
  cbn [read_exacts take_exacts].
  destruct (read_exact_loop_spec c tl plan Hc Hs n n [] r d H (le_n n)) as (r' & R1 & R2).
  unfold read_exact. rewrite R1. unfold take_exact. cbn [s_data s_tail].
  rewrite !Nnat.Nat2N.id. destruct (Nat.ltb_spec (length d) n) as [Hl|Hl].
  - destruct (N.ltb_spec (N.of_nat (length d)) (N.of_nat n)); [|lia]. reflexivity.
  - destruct (N.ltb_spec (N.of_nat (length d)) (N.of_nat n)); [lia|]. cbn [is_ok].
    cbn [app]. f_equal. apply IH, R2. lia.
Qed.

(** ** Everything arrives *)

Lemma faithful_obtained tl plan tr : forall d,
  faithful d tl plan tr -> exists rest, d = obtained tr ++ rest.
Proof.
  induction tr as [|[o x] tr IH]; intros d H; [exists d; reflexivity|].
  destruct x as [bs|e| | |]; cbn [faithful obtained] in *; try (destruct o; contradiction).
  - destruct H as (rest' & -> & H).
    destruct o; [destruct H as (_ & _ & H)|destruct H as (_ & H)|destruct H as (_ & _ & H)];
      destruct (IH _ H) as [rest E]; exists rest; [..| |];
      try (rewrite <- app_assoc; congruence); exact E.
  - destruct H as [_ H]. destruct (IH _ H) as [rest E]. exists rest. destruct o; exact E.
Qed.

Lemma drain_all ns : forall r c d plan,
  rep c r d None plan -> c <> 0 -> smooth plan -> Forall (fun n => n <> 0) ns ->
  length d <= length ns ->
  obtained (run (map Read ns) r) = d.
Proof.
  induction ns as [|n ns IH]; intros r c d plan H Hc Hs Hns Hl.
  - cbn in *. destruct d; [reflexivity|cbn in Hl; lia].
  - cbn [map run]. destruct (do_op (Read n) r) as [x r1] eqn:E. cbn [do_op] in E.
    apply (read_spec _ _ _ _ _ _ _ _ H Hc) in E. inversion Hns; subst.
    destruct x as [bs|e| | |]; try contradiction.
    + destruct E as (rest' & -> & E2 & E3 & E4). cbn [obtained]. f_equal.
      eapply IH; eauto. destruct bs as [|a bs].
      * destruct (E3 H2 eq_refl) as [K _]. cbn in K. subst rest'. cbn; lia.
      * rewrite app_length in Hl. cbn in Hl. lia.
    + destruct E as [(k & -> & [E|[_ E]]) _]; [exfalso; eapply Hs, E|discriminate].
Qed.

Lemma app_same_len {A} (x y u v : list A) : x ++ u = y ++ v -> length x = length y -> x = y.
Proof.
  revert y; induction x as [|a x IH]; intros [|c y]; cbn; intros H L; try lia; [reflexivity|].
  injection H as -> H. f_equal. apply IH; [exact H|lia].
Qed.

(** ** are_contents_same *)

Definition honest_plan (plan : list step) : Prop := ~ In (Fail UnexpectedEof) plan.

Lemma inner_read_exact_spec fuel : forall n acc r,
  n <= fuel -> i_tail r = None -> honest_plan (i_plan r) ->
  forall o r', inner_read_exact_loop fuel n acc r = (o, r') ->
  i_tail r' = None /\ sub_plan (i_plan r') (i_plan r) /\
  match o with
  | Ok x => exists bs, x = acc ++ bs /\ length bs = n /\ i_data r = bs ++ i_data r'
  | Err e => e = EIo UnexpectedEof /\ length (i_data r) < n \/
             (exists k, e = EIo k /\ In (Fail k) (i_plan r))
  | _ => False
  end.
Proof.
  induction fuel as [|f IH]; intros n acc r Hn Ht Hp o r'.
  - assert (n = 0) as -> by lia. cbn. intros [= <- <-]. split; [exact Ht|].
    split; [intros e H; exact H|]. exists []. rewrite app_nil_r. auto.
  - destruct n as [|n].
    + cbn. intros [= <- <-]. split; [exact Ht|]. split; [intros e H; exact H|].
      exists []. rewrite app_nil_r. auto.
    + cbn [inner_read_exact_loop]. destruct (inner_read (S n) r) as [x r1] eqn:E.
      apply inner_read_spec in E as (Et & Ep & E).
      destruct x as [bs|e| | |]; try contradiction.
      * destruct E as (E1 & E2 & E3). destruct bs as [|a bs].
        -- intros [= <- <-]. split; [congruence|]. split; [exact Ep|]. left.
           split; [reflexivity|]. destruct (E3 ltac:(lia) eq_refl) as [-> _]. cbn; lia.
        -- intro H.
           assert (Hle : S n - length (a :: bs) <= f) by (cbn [length] in *; lia).
           assert (Ht1 : i_tail r1 = None) by congruence.
           assert (Hp1 : honest_plan (i_plan r1)) by (intro K; apply Hp, Ep, K).
           destruct (IH _ _ _ Hle Ht1 Hp1 _ _ H) as (R1 & R2 & R3).
           split; [exact R1|]. split; [intros k K; auto|].
           destruct o as [y|e| | |]; try contradiction.
           ++ destruct R3 as (bs' & -> & Hl & R3). exists ((a :: bs) ++ bs').
              rewrite app_assoc. split; [reflexivity|]. rewrite app_length. split; [lia|].
              rewrite E1, R3, app_assoc. reflexivity.
           ++ destruct R3 as [[-> R3]|(k & -> & R3)]; [left|right; eauto].
              split; [reflexivity|]. rewrite E1, app_length. lia.
      * intros [= <- <-]. destruct E as (E1 & k & -> & [E|[_ E]]); [|congruence].
        split; [congruence|]. split; [exact Ep|]. right. eauto.
Qed.

Lemma same_loop_spec fuel : forall f1 f2,
  length (i_data f1) < fuel -> i_tail f1 = None -> i_tail f2 = None ->
  honest_plan (i_plan f1) -> honest_plan (i_plan f2) ->
  match same_loop fuel f1 f2 with
  | Ok v => v = true <-> i_data f1 = i_data f2
  | Err e => exists k, e = EIo k /\ (In (Fail k) (i_plan f1) \/ In (Fail k) (i_plan f2))
  | _ => False
  end.
Proof.
  induction fuel as [|f IH]; intros f1 f2 Hf T1 T2 P1 P2; [lia|].
  cbn [same_loop].
  assert (HB : DEFAULT_BUF_SIZE <> 0) by (unfold DEFAULT_BUF_SIZE; lia).
  destruct (inner_read DEFAULT_BUF_SIZE f1) as [x f1'] eqn:E.
  apply inner_read_spec in E as (Et & Ep & E).
  destruct x as [bs|e| | |]; try contradiction; cbn [bind].
  - destruct E as (E1 & E2 & E3). destruct bs as [|a bs].
    + destruct (E3 HB eq_refl) as [D1 _].
      destruct (inner_read DEFAULT_BUF_SIZE f2) as [y f2'] eqn:F.
      apply inner_read_spec in F as (Ft & Fp & F).
      destruct y as [bs2|e| | |]; try contradiction; cbn [bind].
      * destruct F as (F1 & F2 & F3). rewrite Nat.eqb_eq, D1, F1. destruct bs2 as [|c bs2].
        -- destruct (F3 HB eq_refl) as [D2 _]. rewrite D2 in F1. cbn in *. rewrite <- F1.
           split; auto.
        -- cbn. split; discriminate.
      * destruct F as (F1 & k & -> & [F|[_ F]]); [|congruence]. exists k. auto.
    + destruct (inner_read_exact (length (a :: bs)) f2) as [y f2'] eqn:F.
      unfold inner_read_exact in F.
      destruct (inner_read_exact_spec _ _ _ _ (le_n _) T2 P2 _ _ F) as (Ft & Fp & G).
      destruct y as [bs2|e| | |]; try contradiction.
      * destruct G as (bs' & -> & Gl & G). cbn [app].
        destruct (bytes_eqb (a :: bs) bs') eqn:B.
        -- apply bytes_eqb_eq in B. subst bs'.
           assert (Q1 : length (i_data f1') < f).
           { apply (f_equal (@length byte)) in E1. rewrite app_length in E1. cbn in E1. lia. }
           specialize (IH f1' f2' Q1 ltac:(congruence) Ft
                          ltac:(intro K; apply P1, Ep, K) ltac:(intro K; apply P2, Fp, K)).
           destruct (same_loop f f1' f2') as [v|e| | |]; try contradiction.
           ++ rewrite IH, E1, G. split; [congruence|]. apply app_inv_head.
           ++ destruct IH as (k & -> & [K|K]); exists k; auto.
        -- apply bytes_eqb_neq in B. split; [discriminate|]. rewrite E1, G. intro K.
           exfalso. apply B. eapply app_same_len; [exact K|]. lia.
      * destruct G as [[-> G]|(k & -> & G)].
        -- split; [discriminate|]. intro K. rewrite <- K, E1, app_length in G. lia.
        -- destruct k; [contradiction|..]; cbn [fail_as]; eexists; split; eauto.
  - destruct E as (E1 & k & -> & [E|[_ E]]); [|congruence]. exists k; auto.
Qed.

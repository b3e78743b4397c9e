(** Every sink call of a run but the last one succeeded: nothing is called after a failure (C10). *)
From Verif Require Export DriveFail.

(** All sink calls of the log succeeded. *)
Definition all_succeeded (g : dgraph) (lg : log) : Prop :=
  forall pre c n e post k, lg = pre ++ V c n e :: post -> node_at g c n = Some (DSink k) ->
    sink_call k (events_at pre c n) e = Ok tt.
Definition all_but_last_succeeded (g : dgraph) (lg : log) : Prop :=
  all_succeeded g lg \/ exists lg0 v, lg = lg0 ++ [v] /\ all_succeeded g lg0.

Section Clean.
  Variable g : dgraph.
  Definition fine (x : log * res unit) : Prop :=
    (snd x = Ok tt -> all_succeeded g (fst x)) /\ all_but_last_succeeded g (fst x).
  Lemma fine_ok lg o : all_succeeded g lg -> fine (lg, o).
  Proof. intro H. split; [intros _; exact H|left; exact H]. Qed.
  Lemma last_case {A} (l : list A) : l = [] \/ exists t x, l = t ++ [x].
  Proof. induction l as [|x l IH] using rev_ind; [now left|right; eauto]. Qed.
  Lemma clean_snoc lg c n e : all_succeeded g lg ->
    (forall k, node_at g c n = Some (DSink k) -> sink_call k (events_at lg c n) e = Ok tt) ->
    all_succeeded g (lg ++ [V c n e]).
  Proof.
    intros H Hl pre c' n' e' post k E Hn. destruct (last_case post) as [->|(t & x & ->)].
    - apply app_inj_tail in E as [<- E]. injection E as <- <- <-. auto.
    - rewrite app_comm_cons, app_assoc in E. apply app_inj_tail in E as [-> _]. eapply H; eauto.
  Qed.
  Lemma fine_fail lg v o : all_succeeded g lg -> o <> Ok tt -> fine (lg ++ [v], o).
  Proof. intros H Ho. split; [intro; cbn in *; congruence|right; exists lg, v; auto]. Qed.

  Lemma each_fine {A} (f : log -> A -> log * res unit) xs :
    (forall lg x, In x xs -> all_succeeded g lg -> fine (f lg x)) ->
    forall lg, all_succeeded g lg -> fine (each f xs lg).
  Proof.
    induction xs as [|x xs IH]; intros H lg Hl; cbn [each]; [now apply fine_ok|].
    pose proof (H lg x (or_introl eq_refl) Hl) as Hx. destruct (f lg x) as [lg1 o1].
    destruct o1 as [[]|e| | |]; try exact Hx.
    apply IH; [intros; apply H; [now right|assumption]|]. apply Hx. reflexivity.
  Qed.
  Lemma then_fine x (k : log -> log * res unit) : fine x -> (forall lg, all_succeeded g lg -> fine (k lg)) ->
    fine (match x with (lg, Ok _) => k lg | (lg, e) => (lg, e) end).
  Proof. intros Hx Hk. destruct x as [lg [[]|e| | |]]; try exact Hx. apply Hk, Hx. reflexivity. Qed.

  Lemma row_walk_fine rec c chain :
    nth_error g c = Some chain ->
    (forall lg d n r, all_succeeded g lg -> fine (rec lg d n r)) ->
    forall nodes n r lg, nodes = skipn n chain -> all_succeeded g lg -> fine (row_walk rec c nodes n r lg).
  Proof.
    intros Hc Hrec. induction nodes as [|nd rest IH]; intros n r lg Hsk Hl; cbn [row_walk]; [now apply fine_ok|].
    symmetry in Hsk. destruct (skipn_cons_nth _ _ _ _ Hsk) as [Hnd Hsk']. symmetry in Hsk'.
    assert (Hat : node_at g c n = Some nd) by (unfold node_at; now rewrite Hc).
    destruct nd as [k|d|ds].
    - destruct (sk_write k (events_at lg c n) r) as [rows|e| | |] eqn:Ew;
        try (apply fine_fail; [exact Hl|discriminate]).
      assert (Hl1 : all_succeeded g (lg ++ [V c n (EvRow r)])).
      { apply clean_snoc; [exact Hl|]. intros k' Hk. rewrite Hat in Hk. injection Hk as <-. cbn [sink_call]. now rewrite Ew. }
      destruct rows as [|r0 t]; [now apply fine_ok|].
      apply then_fine; [|intros; now apply IH]. apply each_fine; auto.
    - assert (Hl1 : all_succeeded g (lg ++ [V c n (EvRow r)])).
      { apply clean_snoc; [exact Hl|]. intros k' Hk. rewrite Hat in Hk. discriminate. }
      apply then_fine; [|intros; now apply IH]. now apply Hrec.
    - assert (Hl1 : all_succeeded g (lg ++ [V c n (EvRow r)])).
      { apply clean_snoc; [exact Hl|]. intros k' Hk. rewrite Hat in Hk. discriminate. }
      apply then_fine; [|intros; now apply IH]. apply each_fine; auto.
  Qed.
  Lemma process_row_fine F lg c n r : all_succeeded g lg -> fine (process_row F g lg c n r).
  Proof.
    revert lg c n r. induction F as [|F IH]; intros lg c n r Hl; cbn [process_row]; [now apply fine_ok|].
    destruct (nth_error g c) as [chain|] eqn:Hc; [|now apply fine_ok].
    eapply row_walk_fine; eauto.
  Qed.
  Lemma flush_walk_fine rec c chain :
    nth_error g c = Some chain ->
    (forall lg d, all_succeeded g lg -> fine (rec lg d)) ->
    forall nodes n lg, nodes = skipn n chain -> all_succeeded g lg -> fine (flush_walk rec c nodes n lg).
  Proof.
    intros Hc Hrec. induction nodes as [|nd rest IH]; intros n lg Hsk Hl; cbn [flush_walk]; [now apply fine_ok|].
    symmetry in Hsk. destruct (skipn_cons_nth _ _ _ _ Hsk) as [Hnd Hsk']. symmetry in Hsk'.
    assert (Hat : node_at g c n = Some nd) by (unfold node_at; now rewrite Hc).
    destruct nd as [k|d|ds].
    - destruct (sk_flush k (events_at lg c n)) as [[]|e| | |] eqn:Ew;
        try (apply fine_fail; [exact Hl|discriminate]).
      apply IH; [exact Hsk'|]. apply clean_snoc; [exact Hl|]. intros k' Hk. rewrite Hat in Hk. injection Hk as <-. exact Ew.
    - assert (Hl1 : all_succeeded g (lg ++ [V c n EvFlush])).
      { apply clean_snoc; [exact Hl|]. intros k' Hk. rewrite Hat in Hk. discriminate. }
      apply then_fine; [|intros; now apply IH]. now apply Hrec.
    - assert (Hl1 : all_succeeded g (lg ++ [V c n EvFlush])).
      { apply clean_snoc; [exact Hl|]. intros k' Hk. rewrite Hat in Hk. discriminate. }
      apply then_fine; [|intros; now apply IH]. apply each_fine; auto.
  Qed.
  Lemma flush_fine F lg c : all_succeeded g lg -> fine (flush F g lg c).
  Proof.
    revert lg c. induction F as [|F IH]; intros lg c Hl; cbn [flush]; [now apply fine_ok|].
    destruct (nth_error g c) as [chain|] eqn:Hc; [|now apply fine_ok].
    eapply flush_walk_fine with (n := 0); eauto.
  Qed.
  Lemma apply_ev_fine F lg e : all_succeeded g lg -> fine (apply_ev F g lg e).
  Proof. destruct e; cbn [apply_ev]; [apply process_row_fine|apply flush_fine]. Qed.
End Clean.

Lemma drive_clean F g srcs rng s o : drive F g srcs rng = (s, o) ->
  (o = Ok tt -> all_succeeded g (r_log s)) /\ all_but_last_succeeded g (r_log s).
Proof.
  intro H. destruct (drive_exec _ _ _ _ _ _ H) as (o1 & E & O).
  assert (Z : all_succeeded g []) by (intros pre c n e post k X _; destruct pre; discriminate).
  pose proof (each_fine g (apply_ev F g) (r_devs s) (fun lg e _ => apply_ev_fine g F lg e) [] Z) as [A B].
  rewrite E in A, B. cbn [fst snd] in *. split; [|exact B]. intros ->. apply A. tauto.
Qed.

(** Per node: the calls a sink has received all succeeded, the last one perhaps not. *)
Definition calls_succeeded (k : sink) (evs : list event) : Prop :=
  forall pre e post, evs = pre ++ e :: post -> sink_call k pre e = Ok tt.
Lemma events_at_split lg c n pre e post : events_at lg c n = pre ++ e :: post ->
  exists l1 l2, lg = l1 ++ V c n e :: l2 /\ events_at l1 c n = pre /\ events_at l2 c n = post.
Proof.
  revert pre. induction lg as [|v lg IH]; intros pre E; [destruct pre; discriminate|].
  unfold events_at in E. cbn [filter] in E. destruct (at_node c n v) eqn:Ea.
  - destruct pre as [|p pre]; cbn [map app] in E; injection E as E1 E2.
    + apply at_node_spec in Ea as [<- <-]. exists [], lg. destruct v. cbn in *. subst. auto.
    + destruct (IH pre E2) as (l1 & l2 & -> & A & B). exists (v :: l1), l2. split; [reflexivity|].
      unfold events_at. cbn [filter]. rewrite Ea. cbn [map]. fold (events_at l1 c n). rewrite A, E1. auto.
  - destruct (IH pre E) as (l1 & l2 & -> & A & B). exists (v :: l1), l2. split; [reflexivity|].
    unfold events_at. cbn [filter]. rewrite Ea. auto.
Qed.
Lemma drive_calls F g srcs rng s o c n k : drive F g srcs rng = (s, o) -> node_at g c n = Some (DSink k) ->
  (o = Ok tt -> calls_succeeded k (events_at (r_log s) c n)) /\
  (calls_succeeded k (events_at (r_log s) c n) \/
   exists pre e, events_at (r_log s) c n = pre ++ [e] /\ calls_succeeded k pre).
Proof.
  intros H Hn.
  assert (G : forall lg, all_succeeded g lg -> calls_succeeded k (events_at lg c n)).
  { intros lg A pre e post E. destruct (events_at_split _ _ _ _ _ _ E) as (l1 & l2 & -> & <- & _). eapply A; eauto. }
  destruct (drive_clean _ _ _ _ _ _ H) as [A B]. split; [auto|].
  destruct B as [B|(lg0 & v & E & B)]; [left; auto|]. rewrite E, events_at_app.
  destruct (at_node c n v) eqn:Ea.
  - right. exists (events_at lg0 c n), (v_ev v). split; [|auto]. unfold events_at at 2. cbn [filter]. now rewrite Ea.
  - left. unfold events_at at 2. cbn [filter]. rewrite Ea. cbn [map]. rewrite app_nil_r. auto.
Qed.

(** Proofs about process_row and flush over the data graph. *)
From Verif Require Export DriveProps.

(** ** Logs *)
Lemma events_at_app a d c n : events_at (a ++ d) c n = events_at a c n ++ events_at d c n.
Proof. unfold events_at. rewrite filter_app, map_app. reflexivity. Qed.
Lemma ev_rows_app a d : ev_rows (a ++ d) = ev_rows a ++ ev_rows d.
Proof. induction a as [|[r|] a IH]; cbn; auto. now rewrite IH. Qed.
Lemma rows_at_app a d c n : rows_at (a ++ d) c n = rows_at a c n ++ rows_at d c n.
Proof. unfold rows_at. rewrite events_at_app. apply ev_rows_app. Qed.
Lemma emitted_app k p a d : emitted k p (a ++ d) = emitted k p a ++ emitted k (p ++ a) d.
Proof.
  revert p; induction a as [|[r|] a IH]; intro p; cbn.
  - now rewrite app_nil_r.
  - rewrite IH, <- !app_assoc. reflexivity.
  - rewrite IH, <- !app_assoc. reflexivity.
Qed.
Lemma events_at_none seg c n :
  (forall v, In v seg -> at_node c n v = false) -> events_at seg c n = [].
Proof.
  unfold events_at. intro H.
  assert (filter (at_node c n) seg = []) as ->; [|reflexivity].
  induction seg as [|v seg IH]; cbn; [reflexivity|].
  rewrite (H v) by now left. apply IH. intros; apply H; now right.
Qed.
Lemma at_node_spec c n v : at_node c n v = true <-> v_chain v = c /\ v_node v = n.
Proof. unfold at_node. rewrite andb_true_iff, !Nat.eqb_eq. tauto. Qed.
Lemma at_node_false c n v : at_node c n v = false <-> ~ (v_chain v = c /\ v_node v = n).
Proof. rewrite <- at_node_spec. destruct (at_node c n v); split; congruence. Qed.

Lemma events_at_one c n e : events_at [V c n e] c n = [e].
Proof. unfold events_at, at_node. cbn. rewrite !Nat.eqb_refl. reflexivity. Qed.
Lemma events_at_other c n e c' n' : ~ (c = c' /\ n = n') -> events_at [V c n e] c' n' = [].
Proof.
  intro H. apply events_at_none. intros v [<-|[]]. apply at_node_false. exact H.
Qed.

(** ** Successful traversals as a relation

    [tr g lg calls segs]: starting with log [lg], the traversals [calls] (chain, first
    node, event) succeed one after the other, the i-th appending [segs_i]. *)
Definition call := (nat * nat * event)%type.

Inductive tr (g : dgraph) : log -> list call -> list log -> Prop :=
| tr_nil lg : tr g lg [] []
| tr_stop lg c n e chain calls segs :
    nth_error g c = Some chain -> nth_error chain n = None ->
    tr g lg calls segs -> tr g lg ((c, n, e) :: calls) ([] :: segs)
| tr_row lg c n r k rows sub calls segs :
    node_at g c n = Some (DSink k) -> sk_write k (events_at lg c n) r = Ok rows ->
    tr g (lg ++ [V c n (EvRow r)]) (map (fun x => (c, S n, EvRow x)) rows) sub ->
    tr g (lg ++ V c n (EvRow r) :: concat sub) calls segs ->
    tr g lg ((c, n, EvRow r) :: calls) ((V c n (EvRow r) :: concat sub) :: segs)
| tr_flush lg c n k sub calls segs :
    node_at g c n = Some (DSink k) -> sk_flush k (events_at lg c n) = Ok tt ->
    tr g (lg ++ [V c n EvFlush]) [(c, S n, EvFlush)] sub ->
    tr g (lg ++ V c n EvFlush :: concat sub) calls segs ->
    tr g lg ((c, n, EvFlush) :: calls) ((V c n EvFlush :: concat sub) :: segs)
| tr_tee lg c n e nd sub calls segs :
    node_at g c n = Some nd -> (forall k, nd <> DSink k) ->
    tr g (lg ++ [V c n e]) (map (fun d => (d, 0, e)) (targets nd) ++ [(c, S n, e)]) sub ->
    tr g (lg ++ V c n e :: concat sub) calls segs ->
    tr g lg ((c, n, e) :: calls) ((V c n e :: concat sub) :: segs).

Lemma tr_app g lg xs ss ys tt :
  tr g lg xs ss -> tr g (lg ++ concat ss) ys tt -> tr g lg (xs ++ ys) (ss ++ tt).
Proof.
  intros H. induction H as [lg|lg c n e chain calls segs Hc Hn HT IH
    |lg c n r k rows sub calls segs Hc Hw HS IHS HT IH
    |lg c n k sub calls segs Hc Hw HS IHS HT IH
    |lg c n e nd sub calls segs Hc Hk HS IHS HT IH]; cbn [concat app]; intro HY.
  - now rewrite app_nil_r in HY.
  - eapply tr_stop; eauto.
  - eapply tr_row; eauto. apply IH. rewrite <- app_assoc. cbn [app].
    cbn [concat app] in HY. exact HY.
  - eapply tr_flush; eauto. apply IH. rewrite <- app_assoc. exact HY.
  - eapply tr_tee; eauto. apply IH. rewrite <- app_assoc. exact HY.
Qed.

Lemma tr_length g lg calls segs : tr g lg calls segs -> length calls = length segs.
Proof. induction 1; cbn; auto. Qed.

(** Prepend one single call. *)
Lemma tr_cons g lg c n e seg ys tt :
  tr g lg [(c, n, e)] [seg] -> tr g (lg ++ seg) ys tt -> tr g lg ((c, n, e) :: ys) (seg :: tt).
Proof.
  intros H HY. change ((c, n, e) :: ys) with ([(c, n, e)] ++ ys).
  change (seg :: tt) with ([seg] ++ tt). eapply tr_app; eauto. cbn. now rewrite app_nil_r.
Qed.

Lemma Forall2_len {A B} (P : A -> B -> Prop) x y : Forall2 P x y -> length x = length y.
Proof. induction 1; cbn; auto. Qed.

Lemma app_inj_len {A} (a c x y : list A) : a ++ x = c ++ y -> length a = length c -> a = c /\ x = y.
Proof.
  revert c; induction a as [|h a IH]; intros [|k c] E L; cbn in *; try lia; auto.
  injection E as -> E. destruct (IH c E) as [-> ->]; auto.
Qed.

Lemma skipn_cons_nth {A} n (l : list A) x t :
  skipn n l = x :: t -> nth_error l n = Some x /\ skipn (S n) l = t.
Proof.
  revert l; induction n as [|n IH]; intros [|y l] H; cbn in *; try discriminate.
  - injection H as -> ->. auto.
  - apply IH in H. exact H.
Qed.

Lemma removelast_last {A} (r0 : A) t : removelast (r0 :: t) ++ [last (r0 :: t) r0] = r0 :: t.
Proof. symmetry. apply app_removelast_last. congruence. Qed.

Section OkTr.
  Variable g : dgraph.

  (* a recursive call that is right on success *)
  Definition rec_row_ok (rec : log -> nat -> nat -> row -> log * res unit) : Prop :=
    forall lg c n r lg', rec lg c n r = (lg', Ok tt) ->
      exists seg, lg' = lg ++ seg /\ tr g lg [(c, n, EvRow r)] [seg].

  Lemma each_tr {A} (f : log -> A -> log * res unit) (mk : A -> call) xs :
    (forall lg x lg', In x xs -> f lg x = (lg', Ok tt) ->
        exists seg, lg' = lg ++ seg /\ tr g lg [mk x] [seg]) ->
    forall lg lg', each f xs lg = (lg', Ok tt) ->
    exists segs, lg' = lg ++ concat segs /\ tr g lg (map mk xs) segs.
  Proof.
    induction xs as [|x xs IH]; intros Hf lg lg' H; cbn in H.
    - injection H as <-. exists []. rewrite app_nil_r. split; [reflexivity|constructor].
    - destruct (f lg x) as [lg1 [[]|e| | |]] eqn:E; try discriminate.
      destruct (Hf _ _ _ (or_introl eq_refl) E) as (seg & -> & T).
      destruct (IH (fun l y l' Hy => Hf l y l' (or_intror Hy)) _ _ H) as (segs & -> & T2).
      exists (seg :: segs). cbn. rewrite <- app_assoc. split; [reflexivity|].
      destruct (mk x) as [[c n] ev]. eapply tr_cons; eauto.
  Qed.

  Lemma row_walk_tr rec c chain :
    rec_row_ok rec -> nth_error g c = Some chain ->
    forall nodes n r lg lg', nodes = skipn n chain ->
    row_walk rec c nodes n r lg = (lg', Ok tt) ->
    exists seg, lg' = lg ++ seg /\ tr g lg [(c, n, EvRow r)] [seg].
  Proof.
    intros Hrec Hc. induction nodes as [|nd rest IH]; intros n r lg lg' Hsk H.
    - cbn in H. injection H as <-. exists []. rewrite app_nil_r. split; [reflexivity|].
      eapply tr_stop; eauto; [|constructor].
      apply nth_error_None. pose proof (skipn_length n chain) as L. rewrite <- Hsk in L.
      cbn in L. lia.
    - symmetry in Hsk. destruct (skipn_cons_nth _ _ _ _ Hsk) as [Hnd Hsk'].
      symmetry in Hsk'.
      assert (node_at g c n = Some nd) as Hat by (unfold node_at; rewrite Hc; exact Hnd).
      cbn [row_walk] in H. destruct nd as [k|d|ds].
      + destruct (sk_write k (events_at lg c n) r) as [rows|e| | |] eqn:Ew; cbn in H; try discriminate.
        destruct rows as [|r0 t].
        * injection H as <-. exists [V c n (EvRow r)]. split; [reflexivity|].
          change [V c n (EvRow r)] with (V c n (EvRow r) :: concat ([] : list log)).
          eapply tr_row; eauto; constructor.
        * set (rows := r0 :: t) in *.
          destruct (each _ (removelast rows) _) as [lg2 [[]|e| | |]] eqn:E; try discriminate.
          apply (each_tr _ (fun x => (c, S n, EvRow x))) in E as (segs & -> & T).
          2:{ intros l x l' _ E'. now apply Hrec in E'. }
          apply IH in H as (seg & -> & T2); [|exact Hsk'].
          exists (V c n (EvRow r) :: concat (segs ++ [seg])).
          split; [rewrite concat_app; cbn; rewrite app_nil_r, <- !app_assoc; reflexivity|].
          eapply tr_row; eauto; [|constructor].
          assert (rows = removelast rows ++ [last rows r0]) as Er
            by (symmetry; apply removelast_last).
          rewrite Er, map_app. eapply tr_app; eauto.
      + destruct (rec _ d 0 r) as [lg2 [[]|e| | |]] eqn:E; try discriminate.
        apply Hrec in E as (seg1 & -> & T1).
        apply IH in H as (seg2 & -> & T2); [|exact Hsk'].
        exists (V c n (EvRow r) :: concat [seg1; seg2]).
        split; [cbn; rewrite app_nil_r, <- !app_assoc; reflexivity|].
        eapply tr_tee; eauto; [discriminate| |constructor]. cbn [targets map app].
        eapply tr_cons; eauto.
      + destruct (each _ ds _) as [lg2 [[]|e| | |]] eqn:E; try discriminate.
        apply (each_tr _ (fun d => (d, 0, EvRow r))) in E as (segs & -> & T).
        2:{ intros l x l' _ E'. now apply Hrec in E'. }
        apply IH in H as (seg & -> & T2); [|exact Hsk'].
        exists (V c n (EvRow r) :: concat (segs ++ [seg])).
        split; [rewrite concat_app; cbn; rewrite app_nil_r, <- !app_assoc; reflexivity|].
        eapply tr_tee; eauto; [discriminate| |constructor]. cbn [targets].
        eapply tr_app; eauto.
  Qed.

  Lemma process_row_tr F : rec_row_ok (process_row F g).
  Proof.
    induction F as [|F IH]; intros lg c n r lg' H; cbn in H; [discriminate|].
    destruct (nth_error g c) as [chain|] eqn:Hc; [|discriminate].
    eapply row_walk_tr; eauto.
  Qed.

  Lemma flush_walk_tr rec c chain :
    (forall lg d lg', rec lg d = (lg', Ok tt) ->
      exists seg, lg' = lg ++ seg /\ tr g lg [(d, 0, EvFlush)] [seg]) ->
    nth_error g c = Some chain ->
    forall nodes n lg lg', nodes = skipn n chain ->
    flush_walk rec c nodes n lg = (lg', Ok tt) ->
    exists seg, lg' = lg ++ seg /\ tr g lg [(c, n, EvFlush)] [seg].
  Proof.
    intros Hrec Hc. induction nodes as [|nd rest IH]; intros n lg lg' Hsk H.
    - cbn in H. injection H as <-. exists []. rewrite app_nil_r. split; [reflexivity|].
      eapply tr_stop; eauto; [|constructor].
      apply nth_error_None. pose proof (skipn_length n chain) as L. rewrite <- Hsk in L.
      cbn in L. lia.
    - symmetry in Hsk. destruct (skipn_cons_nth _ _ _ _ Hsk) as [Hnd Hsk'].
      symmetry in Hsk'.
      assert (node_at g c n = Some nd) as Hat by (unfold node_at; rewrite Hc; exact Hnd).
      cbn [flush_walk] in H. destruct nd as [k|d|ds].
      + destruct (sk_flush k (events_at lg c n)) as [[]|e| | |] eqn:Ew; cbn in H; try discriminate.
        apply IH in H as (seg & -> & T); [|exact Hsk'].
        exists (V c n EvFlush :: concat [seg]).
        split; [cbn; rewrite app_nil_r, <- !app_assoc; reflexivity|].
        eapply tr_flush; eauto. constructor.
      + destruct (rec _ d) as [lg2 [[]|e| | |]] eqn:E; try discriminate.
        apply Hrec in E as (seg1 & -> & T1).
        apply IH in H as (seg2 & -> & T2); [|exact Hsk'].
        exists (V c n EvFlush :: concat [seg1; seg2]).
        split; [cbn; rewrite app_nil_r, <- !app_assoc; reflexivity|].
        eapply tr_tee; eauto; [discriminate| |constructor]. cbn [targets map app].
        eapply tr_cons; eauto.
      + destruct (each _ ds _) as [lg2 [[]|e| | |]] eqn:E; try discriminate.
        apply (each_tr _ (fun d => (d, 0, EvFlush))) in E as (segs & -> & T).
        2:{ intros l x l' _ E'. now apply Hrec in E'. }
        apply IH in H as (seg & -> & T2); [|exact Hsk'].
        exists (V c n EvFlush :: concat (segs ++ [seg])).
        split; [rewrite concat_app; cbn; rewrite app_nil_r, <- !app_assoc; reflexivity|].
        eapply tr_tee; eauto; [discriminate| |constructor]. cbn [targets].
        eapply tr_app; eauto.
  Qed.

  Lemma flush_tr F lg c lg' :
    flush F g lg c = (lg', Ok tt) ->
    exists seg, lg' = lg ++ seg /\ tr g lg [(c, 0, EvFlush)] [seg].
  Proof.
    revert lg c lg'; induction F as [|F IH]; intros lg c lg' H; cbn in H; [discriminate|].
    destruct (nth_error g c) as [chain|] eqn:Hc; [|discriminate].
    eapply flush_walk_tr; eauto.
  Qed.

  Definition call_of (e : devent) : call :=
    match e with DRow c r => (c, 0, EvRow r) | DFlush c => (c, 0, EvFlush) end.

  Lemma exec_tr F devs lg lg' :
    each (apply_ev F g) devs lg = (lg', Ok tt) ->
    exists segs, lg' = lg ++ concat segs /\ tr g lg (map call_of devs) segs.
  Proof.
    apply each_tr. intros l [c r|c] l' _ H; cbn in *.
    - now apply process_row_tr in H.
    - now apply flush_tr in H.
  Qed.
End OkTr.

(** ** Where a traversal goes *)
Definition local (rank : nat -> nat) (cl : call) (seg : log) : Prop :=
  let '(c, n, e) := cl in
  forall v, In v seg -> v_ev v = v_ev v /\
     ((v_chain v = c /\ n <= v_node v) \/ rank (v_chain v) < rank c).

Definition first_visit (g : dgraph) (cl : call) (seg : log) : Prop :=
  let '(c, n, e) := cl in
  (node_at g c n = None -> seg = []) /\
  (node_at g c n <> None -> exists t, seg = V c n e :: t) /\
  (node_at g c n <> None -> events_at seg c n = [e]).

Definition node_emit (nd : dnode) (past evs : list event) : list row :=
  match nd with DSink k => emitted k past evs | _ => ev_rows evs end.

Lemma node_emit_app nd p a d : node_emit nd p (a ++ d) = node_emit nd p a ++ node_emit nd (p ++ a) d.
Proof. destruct nd; cbn; [apply emitted_app|apply ev_rows_app|apply ev_rows_app]. Qed.
Lemma node_emit_nil nd p : node_emit nd p [] = [].
Proof. destruct nd; reflexivity. Qed.

Definition allowed (c' m : nat) (cl : call) : Prop :=
  let '(c, n, e) := cl in c' <> c \/ n <= m.

Lemma edge_node g c n nd d : node_at g c n = Some nd -> In d (targets nd) -> edge g c d.
Proof.
  unfold node_at. intros H Hd. destruct (nth_error g c) as [chain|] eqn:Hc; [|discriminate].
  exists chain, nd. split; [exact Hc|]. split; [now apply nth_error_In in H|exact Hd].
Qed.

Section Acyclic.
  Variables (g : dgraph) (rank : nat -> nat).
  Hypothesis Hrank : forall c d, edge g c d -> rank d < rank c.

  Lemma Forall2_concat_in {A B} (P : A -> list B -> Prop) xs ss v :
    Forall2 P xs ss -> In v (concat ss) -> exists x s, In x xs /\ In s ss /\ P x s /\ In v s.
  Proof.
    induction 1 as [|x s xs ss Hx HF IH]; cbn; [tauto|].
    intro H. apply in_app_or in H as [H|H].
    - exists x, s. auto.
    - destruct (IH H) as (x' & s' & A1 & A2 & A3 & A4). exists x', s'. auto.
  Qed.

  (* traversals starting at (c, S n) or at targets of (c, n) avoid (c, n) *)
  Lemma sub_avoid c n calls sub :
    Forall2 (local rank) calls sub ->
    (forall x, In x calls -> let '(c', n', _) := x in
        (c' = c /\ n' = S n) \/ rank c' < rank c) ->
    forall v, In v (concat sub) ->
      ((v_chain v = c /\ S n <= v_node v) \/ rank (v_chain v) < rank c).
  Proof.
    intros HF Hx v Hv. destruct (Forall2_concat_in _ _ _ _ HF Hv) as ([[c' n'] e'] & s & Hin & _ & L & Hs).
    specialize (Hx _ Hin). cbn in Hx. destruct (L v Hs) as [_ [[-> L2]|L2]].
    - destruct Hx as [[-> ->]|Hx]; [left; auto|right; lia].
    - right. destruct Hx as [[-> ->]|Hx]; lia.
  Qed.

  Lemma row_calls_ok c n (rows : list row) x :
    In x (map (fun y => (c, S n, EvRow y)) rows) ->
    let '(c', n', _) := x in (c' = c /\ n' = S n) \/ rank c' < rank c.
  Proof. intro H. apply in_map_iff in H as (y & <- & _). auto. Qed.

  Lemma tee_calls_ok c n nd (e : event) x :
    node_at g c n = Some nd ->
    In x (map (fun d => (d, 0, e)) (targets nd) ++ [(c, S n, e)]) ->
    let '(c', n', _) := x in (c' = c /\ n' = S n) \/ rank c' < rank c.
  Proof.
    intros Hat H. apply in_app_or in H as [H|[<-|[]]]; [|auto].
    apply in_map_iff in H as (d & <- & Hd). right. apply Hrank. eapply edge_node; eauto.
  Qed.

  Lemma tr_shape lg calls segs :
    tr g lg calls segs ->
    Forall2 (local rank) calls segs /\ Forall2 (first_visit g) calls segs.
  Proof.
    assert (Hgen : forall c n e nd calls' sub,
      node_at g c n = Some nd -> Forall2 (local rank) calls' sub ->
      (forall x, In x calls' -> let '(c', n', _) := x in
        (c' = c /\ n' = S n) \/ rank c' < rank c) ->
      local rank (c, n, e) (V c n e :: concat sub) /\
      first_visit g (c, n, e) (V c n e :: concat sub)).
    { intros c n e nd calls' sub Hat HF Hx.
      pose proof (sub_avoid _ _ _ _ HF Hx) as Hav. split.
      - cbn. intros v [<-|Hv]; (split; [reflexivity|]); cbn; [left; auto|].
        destruct (Hav v Hv) as [[-> ?]|?]; [left; split; [reflexivity|lia]|right; assumption].
      - unfold first_visit. split; [congruence|]. split; [eexists; reflexivity|]. intros _.
        change (V c n e :: concat sub) with ([V c n e] ++ concat sub).
        rewrite events_at_app, events_at_one, events_at_none; [reflexivity|].
        intros v Hv. apply at_node_false. intros [E1 E2].
        destruct (Hav v Hv) as [[? ?]|L]; [lia|]. rewrite E1 in L. lia. }
    induction 1 as [lg|lg c n e chain calls segs Hc Hn HT IH
    |lg c n r k rows sub calls segs Hc Hw HS IHS HT IH
    |lg c n k sub calls segs Hc Hw HS IHS HT IH
    |lg c n e nd sub calls segs Hc Hk HS IHS HT IH].
    - split; constructor.
    - destruct IH. split; constructor; auto.
      + intros v [].
      + cbn. unfold node_at. rewrite Hc, Hn. repeat split; congruence.
    - destruct IH, IHS.
      destruct (Hgen c n (EvRow r) _ _ sub Hc H1 (row_calls_ok c n rows)).
      split; constructor; auto.
    - destruct IH, IHS.
      destruct (Hgen c n EvFlush _ _ sub Hc H1) as [? ?].
      { intros x [<-|[]]. auto. }
      split; constructor; auto.
    - destruct IH, IHS.
      destruct (Hgen c n e _ _ sub Hc H1) as [? ?].
      { intros x Hx. eapply tee_calls_ok; eauto. }
      split; constructor; auto.
  Qed.

  Lemma events_first_calls c n ms sub (f : event -> call) :
    (forall e, f e = (c, n, e)) -> node_at g c n <> None ->
    Forall2 (first_visit g) (map f ms) sub -> events_at (concat sub) c n = ms.
  Proof.
    intros Hf Hat. revert sub. induction ms as [|e ms IH]; intros sub HF; inversion HF as [|? ? ? ? H1 H2]; subst; cbn [concat].
    - reflexivity.
    - rewrite events_at_app. rewrite Hf in H1. destruct H1 as (_ & _ & ->); [|exact Hat].
      cbn [app]. f_equal. now apply IH.
  Qed.

  (** Pipeline: what reaches the next node is what the node emitted. *)
  Lemma tr_pipe lg calls segs :
    tr g lg calls segs ->
    forall c' m nd, node_at g c' m = Some nd -> node_at g c' (S m) <> None ->
    (forall cl, In cl calls -> allowed c' m cl) ->
    rows_at (concat segs) c' (S m) =
      node_emit nd (events_at lg c' m) (events_at (concat segs) c' m).
  Proof.
    induction 1 as [lg|lg c n e chain calls segs Hc Hn HT IH
    |lg c n r k rows sub calls segs Hc Hw HS IHS HT IH
    |lg c n k sub calls segs Hc Hw HS IHS HT IH
    |lg c n e nd0 sub calls segs Hc Hk HS IHS HT IH]; intros c' m nd Hat Hnext Hall.
    - cbn. unfold rows_at. cbn. now rewrite node_emit_nil.
    - cbn [concat app]. apply IH; auto. intros cl Hcl. apply Hall. now right.
    - (* row at a sink *)
      cbn [concat]. rewrite rows_at_app, events_at_app, node_emit_app.
      rewrite (IH c' m nd Hat Hnext) by (intros cl Hcl; apply Hall; now right).
      rewrite <- events_at_app. f_equal.
      change (V c n (EvRow r) :: concat sub) with ([V c n (EvRow r)] ++ concat sub).
      rewrite rows_at_app, events_at_app, node_emit_app.
      destruct (tr_shape _ _ _ HS) as [HL HFst].
      pose proof (sub_avoid c n _ _ HL (row_calls_ok c n rows)) as Hav.
      destruct (Nat.eq_dec c' c) as [->|Hne]; [destruct (Nat.eq_dec m n) as [->|Hne]|].
      + (* the node itself *)
        assert (nd = DSink k) as -> by congruence. cbn [node_emit].
        rewrite events_at_one.
        rewrite (events_at_none (concat sub) c n).
        2:{ intros v Hv. apply at_node_false. intros [E1 E2].
            destruct (Hav v Hv) as [[? ?]|L]; [lia|]. rewrite E1 in L. lia. }
        cbn [emitted]. rewrite Hw, !app_nil_r.
        unfold rows_at at 1. rewrite events_at_other by lia. cbn [ev_rows app].
        unfold rows_at.
        rewrite (events_first_calls c (S n) (map EvRow rows) sub (fun e => (c, S n, e)));
          [|reflexivity|exact Hnext|rewrite map_map; exact HFst].
        clear. induction rows as [|x t IHt]; cbn; [reflexivity|]. now rewrite IHt.
      + (* later node of the chain *)
        assert (allowed c m (c, n, EvRow r)) as HA by (apply Hall; now left).
        cbn in HA. assert (S n <= m) by (destruct HA; [congruence|lia]).
        unfold rows_at at 1. rewrite !events_at_other by lia.
        rewrite node_emit_nil. cbn [ev_rows app]. rewrite app_nil_r.
        rewrite (IHS c m nd Hat Hnext).
        2:{ intros cl Hcl. apply in_map_iff in Hcl as (y & <- & _). cbn. right. lia. }
        rewrite events_at_app, events_at_other, app_nil_r by lia. reflexivity.
      + unfold rows_at at 1. rewrite !events_at_other by (intros [? ?]; congruence).
        rewrite node_emit_nil. cbn [ev_rows app]. rewrite app_nil_r.
        rewrite (IHS c' m nd Hat Hnext).
        2:{ intros cl Hcl. apply in_map_iff in Hcl as (y & <- & _). cbn. left. exact Hne. }
        rewrite events_at_app, events_at_other, app_nil_r by (intros [? ?]; congruence).
        reflexivity.
    - (* flush at a sink *)
      cbn [concat]. rewrite rows_at_app, events_at_app, node_emit_app.
      rewrite (IH c' m nd Hat Hnext) by (intros cl Hcl; apply Hall; now right).
      rewrite <- events_at_app. f_equal.
      change (V c n EvFlush :: concat sub) with ([V c n EvFlush] ++ concat sub).
      rewrite rows_at_app, events_at_app, node_emit_app.
      destruct (tr_shape _ _ _ HS) as [HL HFst].
      assert (Hsub : forall x, In x [(c, S n, EvFlush)] -> let '(c', n', _) := x in
        (c' = c /\ n' = S n) \/ rank c' < rank c) by (intros x [<-|[]]; auto).
      pose proof (sub_avoid c n _ _ HL Hsub) as Hav.
      destruct (Nat.eq_dec c' c) as [->|Hne]; [destruct (Nat.eq_dec m n) as [->|Hne]|].
      + assert (nd = DSink k) as -> by congruence. cbn [node_emit].
        rewrite events_at_one.
        rewrite (events_at_none (concat sub) c n).
        2:{ intros v Hv. apply at_node_false. intros [E1 E2].
            destruct (Hav v Hv) as [[? ?]|L]; [lia|]. rewrite E1 in L. lia. }
        cbn [emitted]. unfold rows_at at 1. rewrite events_at_other by lia. cbn [ev_rows app].
        unfold rows_at.
        rewrite (events_first_calls c (S n) [EvFlush] sub (fun e => (c, S n, e)));
          [reflexivity|reflexivity|exact Hnext|exact HFst].
      + assert (allowed c m (c, n, EvFlush)) as HA by (apply Hall; now left).
        cbn in HA. assert (S n <= m) by (destruct HA; [congruence|lia]).
        unfold rows_at at 1. rewrite !events_at_other by lia.
        rewrite node_emit_nil. cbn [ev_rows app]. rewrite app_nil_r.
        rewrite (IHS c m nd Hat Hnext).
        2:{ intros cl [<-|[]]. cbn. right. lia. }
        rewrite events_at_app, events_at_other, app_nil_r by lia. reflexivity.
      + unfold rows_at at 1. rewrite !events_at_other by (intros [? ?]; congruence).
        rewrite node_emit_nil. cbn [ev_rows app]. rewrite app_nil_r.
        rewrite (IHS c' m nd Hat Hnext).
        2:{ intros cl [<-|[]]. cbn. left. exact Hne. }
        rewrite events_at_app, events_at_other, app_nil_r by (intros [? ?]; congruence).
        reflexivity.
    - (* merge or split *)
      cbn [concat]. rewrite rows_at_app, events_at_app, node_emit_app.
      rewrite (IH c' m nd Hat Hnext) by (intros cl Hcl; apply Hall; now right).
      rewrite <- events_at_app. f_equal.
      change (V c n e :: concat sub) with ([V c n e] ++ concat sub).
      rewrite rows_at_app, events_at_app, node_emit_app.
      destruct (tr_shape _ _ _ HS) as [HL HFst].
      pose proof (sub_avoid c n _ _ HL (fun x => tee_calls_ok c n nd0 e x Hc)) as Hav.
      destruct (Nat.eq_dec c' c) as [->|Hne]; [destruct (Nat.eq_dec m n) as [->|Hne]|].
      + assert (nd = nd0) as -> by congruence.
        rewrite events_at_one.
        rewrite (events_at_none (concat sub) c n).
        2:{ intros v Hv. apply at_node_false. intros [E1 E2].
            destruct (Hav v Hv) as [[? ?]|L]; [lia|]. rewrite E1 in L. lia. }
        rewrite node_emit_nil, app_nil_r.
        unfold rows_at at 1. rewrite events_at_other by lia. cbn [ev_rows app].
        assert (events_at (concat sub) c (S n) = [e]) as Hev.
        { apply Forall2_app_inv_l in HFst as (s1 & s2 & F1 & F2 & ->).
          rewrite concat_app, events_at_app.
          inversion F2 as [|? seg ? ? Hfv Fn]; subst. inversion Fn; subst.
          cbn [concat]. rewrite app_nil_r. destruct Hfv as (_ & _ & ->); [|exact Hnext].
          rewrite events_at_none; [reflexivity|].
          apply Forall2_app_inv_l in HL as (t1 & t2 & G1 & G2 & E).
          assert (length s1 = length t1).
          { rewrite <- (Forall2_len _ _ _ F1), <- (Forall2_len _ _ _ G1). reflexivity. }
          apply app_inj_len in E as [-> _]; [|assumption].
          intros v Hv. apply at_node_false. intros [E1 E2].
          destruct (Forall2_concat_in _ _ _ _ G1 Hv) as ([[c2 n2] e2] & s & Hin & _ & L & Hs).
          apply in_map_iff in Hin as (d & [= <- <- <-] & Hd).
          assert (rank d < rank c) by (apply Hrank; eapply edge_node; eauto).
          destruct (L v Hs) as [_ [[E3 _]|L3]]; rewrite E1 in *; [rewrite <- E3 in *|]; lia. }
        unfold rows_at. rewrite Hev.
        destruct nd0 as [k| |]; [destruct (Hk k); reflexivity|reflexivity|reflexivity].
      + assert (allowed c m (c, n, e)) as HA by (apply Hall; now left).
        cbn in HA. assert (S n <= m) by (destruct HA; [congruence|lia]).
        unfold rows_at at 1. rewrite !events_at_other by lia.
        rewrite node_emit_nil. cbn [ev_rows app]. rewrite app_nil_r.
        rewrite (IHS c m nd Hat Hnext).
        2:{ intros cl Hcl. apply in_app_or in Hcl as [Hcl|[<-|[]]]; [|cbn; right; lia].
            apply in_map_iff in Hcl as (y & <- & _). cbn. right. lia. }
        rewrite events_at_app, events_at_other, app_nil_r by lia. reflexivity.
      + unfold rows_at at 1. rewrite !events_at_other by (intros [? ?]; congruence).
        rewrite node_emit_nil. cbn [ev_rows app]. rewrite app_nil_r.
        rewrite (IHS c' m nd Hat Hnext).
        2:{ intros cl Hcl. apply in_app_or in Hcl as [Hcl|[<-|[]]]; [|cbn; left; exact Hne].
            apply in_map_iff in Hcl as (y & <- & _). cbn. right. lia. }
        rewrite events_at_app, events_at_other, app_nil_r by (intros [? ?]; congruence).
        reflexivity.
  Qed.
End Acyclic.

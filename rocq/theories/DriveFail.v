(** Why a run fails (C10), and that it ends (C15). *)
From Verif Require Export DriveTop.

Section Cause.
  Variable g : dgraph.

  Definition missing (c : nat) : Prop :=
    exists d, nth_error g d = None /\ (d = c \/ exists c', edge g c' d).
  Definition cause (c : nat) (lg : log) (o : res unit) : Prop :=
    o = NoFuel \/ (o = Panic /\ missing c) \/ last_call_was g lg o.

  Lemma missing_edge c d : edge g c d -> missing d -> missing c.
  Proof. intros E (x & Hx & [->|H]); [exists d|exists x]; split; eauto. Qed.
  Lemma cause_edge c d lg o : edge g c d -> cause d lg o -> cause c lg o.
  Proof. intros E [H|[[H M]|H]]; [left|right; left|right; right]; auto. split; auto. eapply missing_edge; eauto. Qed.

  Lemma each_cause {A} (f : log -> A -> log * res unit) xs (P : log -> res unit -> Prop) :
    (forall lg x lg' o, In x xs -> f lg x = (lg', o) -> o <> Ok tt -> P lg' o) ->
    forall lg lg' o, each f xs lg = (lg', o) -> o <> Ok tt -> P lg' o.
  Proof.
    induction xs as [|x xs IH]; intros H lg lg' o E Ho; cbn [each] in E.
    - injection E as <- <-. congruence.
    - destruct (f lg x) as [s1 o1] eqn:Ef.
      destruct o1 as [[]|e| | |]; try (injection E as <- <-; eapply H; [left; reflexivity|exact Ef|exact Ho]).
      eapply IH; eauto. intros; eapply H; [right; eassumption| |]; eauto.
  Qed.

  Lemma last_call lg c n k e :
    node_at g c n = Some (DSink k) -> last_call_was g (lg ++ [V c n e]) (sink_call k (events_at lg c n) e).
  Proof. intro H. exists lg, c, n, e, k. auto. Qed.

  Lemma row_walk_cause rec c chain :
    nth_error g c = Some chain ->
    (forall lg d n r lg' o, rec lg d n r = (lg', o) -> o <> Ok tt -> cause d lg' o) ->
    forall nodes n r lg lg' o, nodes = skipn n chain ->
      row_walk rec c nodes n r lg = (lg', o) -> o <> Ok tt -> cause c lg' o.
  Proof.
    intros Hc Hrec. induction nodes as [|nd rest IH]; intros n r lg lg' o Hsk E Ho; cbn [row_walk] in E.
    - injection E as <- <-. congruence.
    - symmetry in Hsk. destruct (skipn_cons_nth _ _ _ _ Hsk) as [Hnd Hsk']. symmetry in Hsk'.
      assert (Hat : node_at g c n = Some nd) by (unfold node_at; now rewrite Hc).
      destruct nd as [k|d|ds].
      + pose proof (last_call lg c n k (EvRow r) Hat) as LC. unfold sink_call in LC.
        destruct (sk_write k (events_at lg c n) r) as [[|r0 t]|e| | |] eqn:Ew;
          try (injection E as <- <-; right; right; exact LC).
        destruct (each _ _ _) as [lg2 o2] eqn:Ee.
        destruct o2 as [[]|e| | |]; try (injection E as <- <-;
            refine (each_cause _ _ (cause c) _ _ _ _ Ee Ho); intros; eapply Hrec; eauto).
          eapply IH; eauto.
      + assert (Ed : edge g c d) by (eapply edge_node; [exact Hat|now left]).
        destruct (rec _ d 0 r) as [lg2 o2] eqn:Ee.
        destruct o2 as [[]|e| | |]; try (injection E as <- <-; eapply cause_edge; [exact Ed|eapply Hrec; eauto]).
        eapply IH; eauto.
      + destruct (each _ _ _) as [lg2 o2] eqn:Ee.
        destruct o2 as [[]|e| | |]; try (injection E as <- <-;
          refine (each_cause _ _ (cause c) _ _ _ _ Ee Ho); intros l x l' o' Hin Hf Hn;
          eapply cause_edge; [eapply edge_node; [exact Hat|exact Hin]|eapply Hrec; eauto]).
        eapply IH; eauto.
  Qed.

  Lemma process_row_cause F lg c n r lg' o :
    process_row F g lg c n r = (lg', o) -> o <> Ok tt -> cause c lg' o.
  Proof.
    revert lg c n r lg' o; induction F as [|F IH]; intros lg c n r lg' o E Ho; cbn [process_row] in E.
    - injection E as <- <-. now left.
    - destruct (nth_error g c) as [chain|] eqn:Hc.
      + eapply row_walk_cause; eauto.
      + injection E as <- <-. right. left. split; [reflexivity|]. exists c. auto.
  Qed.

  Lemma flush_walk_cause rec c chain :
    nth_error g c = Some chain ->
    (forall lg d lg' o, rec lg d = (lg', o) -> o <> Ok tt -> cause d lg' o) ->
    forall nodes n lg lg' o, nodes = skipn n chain ->
      flush_walk rec c nodes n lg = (lg', o) -> o <> Ok tt -> cause c lg' o.
  Proof.
    intros Hc Hrec. induction nodes as [|nd rest IH]; intros n lg lg' o Hsk E Ho; cbn [flush_walk] in E.
    - injection E as <- <-. congruence.
    - symmetry in Hsk. destruct (skipn_cons_nth _ _ _ _ Hsk) as [Hnd Hsk']. symmetry in Hsk'.
      assert (Hat : node_at g c n = Some nd) by (unfold node_at; now rewrite Hc).
      destruct nd as [k|d|ds].
      + pose proof (last_call lg c n k EvFlush Hat) as LC. unfold sink_call in LC.
        destruct (sk_flush k (events_at lg c n)) as [[]|e| | |] eqn:Ew;
          try (injection E as <- <-; right; right; exact LC).
        eapply IH; eauto.
      + assert (Ed : edge g c d) by (eapply edge_node; [exact Hat|now left]).
        destruct (rec _ d) as [lg2 o2] eqn:Ee.
        destruct o2 as [[]|e| | |]; try (injection E as <- <-; eapply cause_edge; [exact Ed|eapply Hrec; eauto]).
        eapply IH; eauto.
      + destruct (each _ _ _) as [lg2 o2] eqn:Ee.
        destruct o2 as [[]|e| | |]; try (injection E as <- <-;
          refine (each_cause _ _ (cause c) _ _ _ _ Ee Ho); intros l x l' o' Hin Hf Hn;
          eapply cause_edge; [eapply edge_node; [exact Hat|exact Hin]|eapply Hrec; eauto]).
        eapply IH; eauto.
  Qed.

  Lemma flush_cause F lg c lg' o : flush F g lg c = (lg', o) -> o <> Ok tt -> cause c lg' o.
  Proof.
    revert lg c lg' o; induction F as [|F IH]; intros lg c lg' o E Ho; cbn [flush] in E.
    - injection E as <- <-. now left.
    - destruct (nth_error g c) as [chain|] eqn:Hc.
      + eapply (flush_walk_cause _ _ _ Hc IH chain 0); eauto.
      + injection E as <- <-. right. left. split; [reflexivity|]. exists c. auto.
  Qed.
End Cause.

(** The failure a source runs into, within the range. *)
Lemma match_next_row_failure rng s e :
  match_next_row rng s = e -> is_ok e = false ->
  exists x, first_failure s = Some x /\ fail_as e = fail_as (B := unit) x /\ is_ok x = false.
Proof.
  induction s as [|x s IH]; cbn [match_next_row]; intros E He; [subst; discriminate|].
  destruct x as [r|x| | |]; cbn [bind] in E;
    try (subst e; eexists; cbn; split; [reflexivity|split; reflexivity]).
  destruct (filter_data_range rng (ts r)); try (subst; discriminate).
  destruct (IH E He) as (x & A & B). exists x. cbn. auto.
Qed.

Lemma match_next_row_first rng s o t :
  match_next_row rng s = Ok (o, t) -> first_failure t = first_failure s.
Proof.
  induction s as [|x s IH]; cbn [match_next_row]; intros E; [now injection E as <- <-|].
  destruct x as [r|x| | |]; cbn [bind] in E; try discriminate.
  destruct (filter_data_range rng (ts r)); try (injection E as <- <-; reflexivity).
  cbn. auto.
Qed.

Section LoopCause.
  Variables (F : nat) (g : dgraph) (rng : ts_range).

  Definition src_cause (bs : list buf) (o : res unit) : Prop :=
    exists bf x, In bf bs /\ first_failure (b_src bf) = Some x /\ is_ok x = false /\ o = fail_as x.

  Lemma Loop_cause bs s s' o :
    Loop F g rng bs s s' o -> o <> Ok tt ->
    src_cause bs o \/ (o = Panic /\ exists bf, In bf bs /\ b_row bf = None) \/
    (exists lg e, In (match e with DRow c _ => c | DFlush c => c end) (map b_chain bs) /\
        apply_ev F g lg e = (r_log s', o)).
  Proof.
    induction 1 as [s|bs s l1 bf l2 P Hn
      |bs s s1 o l1 bf l2 r P Hr Hh Ho
      |bs s s1 e l1 bf l2 r P Hr Hh Hm He
      |bs s s1 s' o l1 bf bf' l2 r r' P Hr Hh Hm Hc Hr' Ht HL IH
      |bs s s1 s2 o l1 bf l2 r src P Hr Hh Hm Hh2 Ho
      |bs s s1 s2 s' o l1 bf l2 r src P Hr Hh Hm Hh2 HL IH]; intro No.
    - congruence.
    - right. left. split; [reflexivity|]. destruct P as (-> & _). exists bf. split; [apply in_elt|exact Hn].
    - right. right. apply hand_inv in Hh as [_ A]. exists (r_log s), (DRow (b_chain bf) r).
      split; [|exact A]. destruct P as (-> & _). rewrite map_app. apply in_elt.
    - left. destruct (match_next_row_failure _ _ _ Hm He) as (x & A & B & C).
      exists bf, x. destruct P as (-> & _). split; [apply in_elt|]. auto.
    - destruct P as (-> & _). destruct (IH No) as [(b0 & x & Hin & A)|[(-> & b0 & Hin & A)|(lg & e & Hin & A)]].
      + left. apply in_app_or in Hin as [Hin|[<-|Hin]].
        * exists b0, x. rewrite in_app_iff. auto.
        * exists bf, x. split; [apply in_elt|]. rewrite (match_next_row_first _ _ _ _ Hm) in A. exact A.
        * exists b0, x. rewrite in_app_iff. cbn. auto.
      + right. left. split; [reflexivity|]. apply in_app_or in Hin as [Hin|[<-|Hin]].
        * exists b0. rewrite in_app_iff. auto.
        * congruence.
        * exists b0. rewrite in_app_iff. cbn. auto.
      + right. right. exists lg, e. split; [|exact A].
        rewrite map_app in *. cbn [map] in *. now rewrite <- Hc.
    - right. right. apply hand_inv in Hh2 as [_ A]. exists (r_log s1), (DFlush (b_chain bf)).
      split; [|exact A]. destruct P as (-> & _). rewrite map_app. apply in_elt.
    - destruct P as (-> & _). destruct (IH No) as [(b0 & x & Hin & A)|[(-> & b0 & Hin & A)|(lg & e & Hin & A)]].
      + left. exists b0, x. split; [|exact A]. rewrite in_app_iff in *. cbn. tauto.
      + right. left. split; [reflexivity|]. exists b0. split; [|exact A].
        rewrite in_app_iff in *. cbn. tauto.
      + right. right. exists lg, e. split; [|exact A]. rewrite map_app, in_app_iff in *. cbn. tauto.
  Qed.
End LoopCause.

Lemma make_bufs_first rng p i bs bf :
  make_bufs rng p i = Ok bs -> In bf bs ->
  exists s, In s p /\ first_failure (b_src bf) = first_failure s.
Proof.
  revert i bs; induction p as [|s p IH]; intros i bs E Hin; cbn [make_bufs] in E.
  - injection E as <-. destruct Hin.
  - unfold new_buf in E.
    destruct (match_next_row rng s) as [[o t]|e| | |] eqn:Em; cbn [bind] in E; try discriminate.
    destruct (make_bufs rng p (S i)) as [bs0|e| | |] eqn:E2; cbn [bind] in E; try discriminate.
    injection E as <-. destruct Hin as [<-|Hin].
    + exists s. split; [now left|]. cbn. eapply match_next_row_first; eauto.
    + destruct (IH _ _ E2 Hin) as (s' & A & B). exists s'. split; [now right|exact B].
Qed.

Lemma make_bufs_failure rng p i e :
  make_bufs rng p i = e -> is_ok e = false ->
  exists s x, In s p /\ first_failure s = Some x /\ is_ok x = false /\ fail_as e = fail_as (B := unit) x.
Proof.
  revert i e; induction p as [|s p IH]; intros i e E He; cbn [make_bufs] in E; [subst; discriminate|].
  unfold new_buf in E.
  destruct (match_next_row rng s) as [[o t]|x| | |] eqn:Em; cbn [bind] in E;
    try (destruct (match_next_row_failure _ _ _ Em eq_refl) as (y & A & B & C);
         exists s, y; split; [now left|]; split; [exact A|]; split; [exact C|];
         subst e; exact B).
  destruct (make_bufs rng p (S i)) as [bs0|x| | |] eqn:E2; cbn [bind] in E; try (subst; discriminate);
  (destruct (IH _ _ E2 eq_refl) as (s' & y & A & B & C & D); exists s', y; split; [now right|];
   subst e; auto).
Qed.

Lemma missing_dangling g n c : c < n -> missing g c -> dangling g n.
Proof.
  intros Hc (d & Hd & [->|(c' & E)]); apply nth_error_None in Hd; [left; lia|right; eauto].
Qed.

Lemma drive_cause F g srcs rng s o :
  drive F g srcs rng = (s, o) -> o <> Ok tt ->
  (exists src x, In src srcs /\ first_failure src = Some x /\ is_ok x = false /\ o = fail_as x) \/
  last_call_was g (r_log s) o \/
  (o = Panic /\ ((exists src, In src srcs /\ selected rng src = []) \/ dangling g (length srcs))) \/
  (o = NoFuel /\ exists lg e, snd (apply_ev F g lg e) = NoFuel).
Proof.
  intros H Ho. destruct (drive_cases _ _ _ _ _ _ H) as [(bs & E & L)|(-> & E & ->)].
  - destruct (bufs_facts _ _ _ E) as (P & C & SS & Ok & F2).
    destruct (Loop_cause _ _ _ _ _ _ _ L Ho) as [(bf & x & Hin & A & B & D)|[(-> & bf & Hin & A)|(lg & e & Hin & A)]].
    + left. destruct (make_bufs_first _ _ _ _ _ E Hin) as (src & Hs & Es).
      exists src, x. apply in_rev in Hs. rewrite <- Es. auto.
    + right. right. left. split; [reflexivity|]. left.
      destruct (Forall2_in_r _ _ _ _ F2 Hin) as (src & Hs & Hp & _).
      exists src. split; [now apply in_rev in Hs|]. rewrite <- Hp. unfold pending. now rewrite A.
    + rewrite C in Hin. apply in_seq in Hin.
      assert (K : cause g (match e with DRow c _ => c | DFlush c => c end) (r_log s) o).
      { destruct e; cbn in A; [eapply process_row_cause|eapply flush_cause]; eauto. }
      destruct K as [->|[[-> M]|K]].
      * right. right. right. split; [reflexivity|]. exists lg, e. now rewrite A.
      * right. right. left. split; [reflexivity|]. right. eapply missing_dangling; [|exact M]. lia.
      * right. left. exact K.
  - left. destruct (make_bufs_failure _ _ _ _ eq_refl E) as (src & x & A & B & C & D).
    exists src, x. apply in_rev in A. auto.
Qed.

(** ** Termination *)
Lemma apply_ev_fuel g :
  acyclic g -> sinks_return g ->
  exists F0, forall n, exists F1, F0 <= F1 /\ forall F lg e,
    F1 <= F -> (match e with DRow c _ => c < n | DFlush c => c < n end) ->
    snd (apply_ev F g lg e) <> NoFuel.
Proof.
  intros (rank & Hrank) Hret. exists 0. intro n.
  assert (exists M, forall c, c < n -> need g rank c 0 <= M) as (M & HM).
  { induction n as [|n (M & IH)]; [exists 0; lia|].
    exists (Nat.max M (need g rank n 0)). intros c Hc.
    destruct (Nat.eq_dec c n) as [->|]; [lia|]. specialize (IH c). lia. }
  exists M. split; [lia|]. intros F lg e HF He.
  destruct e as [c r|c]; cbn [apply_ev];
    [apply (process_row_fuel g rank Hrank Hret)|apply (flush_fuel g rank Hrank Hret)];
    specialize (HM c He); lia.
Qed.

Lemma drive_terminates g srcs :
  acyclic g -> sinks_return g ->
  (forall src, In src srcs -> ~ In NoFuel src) ->
  exists F0, forall F rng, F0 <= F -> snd (drive F g srcs rng) <> NoFuel.
Proof.
  intros Ha Hr Hs. destruct (apply_ev_fuel g Ha Hr) as (F00 & K).
  destruct (K (length srcs)) as (F1 & _ & HF). exists F1. intros F rng Hle.
  destruct (drive F g srcs rng) as [s o] eqn:H. cbn. intros ->.
  destruct (drive_cases _ _ _ _ _ _ H) as [(bs & E & L)|(-> & E & Eo)].
  - destruct (bufs_facts _ _ _ E) as (P & C & _).
    destruct (Loop_cause _ _ _ _ _ _ _ L ltac:(discriminate)) as [(bf & x & Hin & A & B & D)|[(X & _)|(lg & e & Hin & A)]].
    + destruct (make_bufs_first _ _ _ _ _ E Hin) as (src & Hsrc & Es). apply in_rev in Hsrc.
      rewrite A in Es. destruct x; try discriminate. apply (Hs _ Hsrc).
      clear - Es. induction src as [|[r|e| | |] src IH]; cbn in *; try discriminate; auto.
    + discriminate.
    + rewrite C in Hin. apply in_seq in Hin. apply (HF F lg e Hle); [|now rewrite A].
      destruct Hin as [_ Hin]. destruct e; exact Hin.
  - destruct (make_bufs_failure _ _ _ _ eq_refl E) as (src & x & A & B & C & D).
    unfold get_row_buffers in Eo. rewrite D in Eo. apply in_rev in A.
    destruct x; try discriminate. apply (Hs _ A).
    clear - B. induction src as [|[r|e| | |] src IH]; cbn in *; try discriminate; auto.
Qed.

Lemma apply_ev_mono g F F' lg e :
  F <= F' -> snd (apply_ev F g lg e) <> NoFuel -> apply_ev F' g lg e = apply_ev F g lg e.
Proof. destruct e; cbn; intros; [now apply process_row_mono|now apply flush_mono]. Qed.

Lemma hand_mono g F F' s e :
  F <= F' -> snd (hand F g s e) <> NoFuel -> hand F' g s e = hand F g s e.
Proof.
  intros H Hn. unfold hand in *. pose proof (apply_ev_mono g F F' (r_log s) e H) as A.
  destruct (apply_ev F g (r_log s) e) as [lg o]. cbn in *. now rewrite A.
Qed.

Lemma drive_loop_mono g rng F F' fuel bs s :
  F <= F' -> snd (drive_loop F g rng fuel bs s) <> NoFuel ->
  drive_loop F' g rng fuel bs s = drive_loop F g rng fuel bs s.
Proof.
  intro Hle. revert bs s; induction fuel as [|f IH]; intros [|b0 bs] s Hn; try reflexivity.
  cbn [drive_loop] in *.
  destruct (get_next_buffer_index (b0 :: bs)) as [i|e| | |]; try reflexivity.
  destruct (nth_error (b0 :: bs) i) as [bf|]; [|reflexivity].
  destruct (b_row bf) as [r|]; [|reflexivity].
  pose proof (hand_mono g F F' s (DRow (b_chain bf) r) Hle) as A.
  destruct (hand F g s (DRow (b_chain bf) r)) as [s1 o1]. cbn [snd] in A.
  destruct o1 as [[]|e| | |]; try (rewrite A by discriminate; reflexivity).
  2:{ cbn in Hn. congruence. }
  rewrite A by discriminate.
  destruct (has_next rng bf) as [[[|] bf']|e| | |]; try reflexivity.
  - destruct (list_set i bf' (b0 :: bs)); try reflexivity. now apply IH.
  - pose proof (hand_mono g F F' s1 (DFlush (b_chain bf)) Hle) as A2.
    destruct (hand F g s1 (DFlush (b_chain bf))) as [s2 o2]. cbn [snd] in A2.
    destruct o2 as [[]|e| | |]; try (rewrite A2 by discriminate; reflexivity).
    2:{ cbn in Hn. congruence. }
    rewrite A2 by discriminate.
    destruct (list_remove i (b0 :: bs)); try reflexivity. now apply IH.
Qed.

Lemma drive_mono g srcs rng F F' :
  F <= F' -> snd (drive F g srcs rng) <> NoFuel -> drive F' g srcs rng = drive F g srcs rng.
Proof.
  unfold drive. intros. destruct (get_row_buffers rng srcs); auto. now apply drive_loop_mono.
Qed.

(** A merge chain that refers to itself: no amount of fuel is enough. *)
Lemma cyclic_diverges F lg r :
  snd (process_row F [[DMerge 0]] lg 0 0 r) = NoFuel /\ snd (flush F [[DMerge 0]] lg 0) = NoFuel.
Proof.
  revert lg; induction F as [|F IH]; intro lg; [split; reflexivity|].
  destruct (IH (lg ++ [V 0 0 (EvRow r)])) as [A _].
  destruct (IH (lg ++ [V 0 0 EvFlush])) as [_ B].
  cbn [process_row flush nth_error skipn row_walk flush_walk].
  destruct (process_row F _ _ 0 0 r) as [l1 o1]. destruct (flush F _ _ 0) as [l2 o2].
  cbn in *. subst. auto.
Qed.

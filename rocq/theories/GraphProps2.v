(** More about process_row and flush: tees, flush coverage, repairs, fuel. *)
From Verif Require Export GraphProps.

(** ** Tees *)
Section Tees.
  Variables (g : dgraph) (rank : nat -> nat).
  Hypothesis Hrank : forall c d, edge g c d -> rank d < rank c.

  Definition all_tees (seg : log) : Prop :=
    forall pre c n r post nd, seg = pre ++ V c n (EvRow r) :: post ->
      node_at g c n = Some nd -> (forall k, nd <> DSink k) -> tees g c n r (targets nd) post.

  Lemma first_visit_once c n r seg :
    first_visit g (c, n, EvRow r) seg -> delivered_once g c n r seg.
  Proof.
    intros (A & B & C). split; [exact A|]. intro Hn. destruct (B Hn) as (t & ->).
    exists t. split; [reflexivity|]. specialize (C Hn). intros v Hv Hat.
    change (V c n (EvRow r) :: t) with ([V c n (EvRow r)] ++ t) in C.
    rewrite events_at_app, events_at_one in C. injection C as C.
    unfold events_at in C. apply map_eq_nil in C.
    assert (In v (filter (at_node c n) t)) as H.
    { apply filter_In. split; [exact Hv|]. now apply at_node_spec. }
    rewrite C in H. destruct H.
  Qed.

  Lemma starts_at_ext c n r a d : starts_at g c n r a -> starts_at g c n r (a ++ d).
  Proof. intros H Hn. destruct (H Hn) as (t & ->). exists (t ++ d). reflexivity. Qed.

  Lemma tees_ext c n r ds a d : tees g c n r ds a -> tees g c n r ds (a ++ d).
  Proof.
    intros (segs & tl & -> & A & B & C). exists segs, (tl ++ d).
    rewrite <- app_assoc. repeat split; auto. now apply starts_at_ext.
  Qed.

  Lemma all_tees_nil : all_tees [].
  Proof. intros pre c n r post nd E. destruct pre; discriminate. Qed.

  Lemma split_app {A} (a d pre post : list A) v :
    a ++ d = pre ++ v :: post ->
    (exists p, a = pre ++ v :: p /\ post = p ++ d) \/
    (exists q, pre = a ++ q /\ d = q ++ v :: post).
  Proof.
    revert pre; induction a as [|x a IH]; intros pre E; cbn in E.
    - right. exists pre. auto.
    - destruct pre as [|y pre]; cbn in E; injection E as -> E.
      + left. exists a. auto.
      + destruct (IH _ E) as [(p & -> & ->)|(q & -> & ->)]; [left; exists p|right; exists q]; auto.
  Qed.

  Lemma all_tees_app a d : all_tees a -> all_tees d -> all_tees (a ++ d).
  Proof.
    intros Ha Hd pre c n r post nd E Hat Hk.
    destruct (split_app _ _ _ _ _ E) as [(p & E1 & ->)|(q & -> & E2)].
    - apply tees_ext. eapply Ha; eauto.
    - eapply Hd; eauto.
  Qed.

  Lemma tr_tees lg calls segs : tr g lg calls segs -> all_tees (concat segs).
  Proof.
    induction 1 as [lg|lg c n e chain calls segs Hc Hn HT IH
    |lg c n r k rows sub calls segs Hc Hw HS IHS HT IH
    |lg c n k sub calls segs Hc Hw HS IHS HT IH
    |lg c n e nd0 sub calls segs Hc Hk HS IHS HT IH]; cbn [concat].
    - apply all_tees_nil.
    - exact IH.
    - apply all_tees_app; [|exact IH].
      change (V c n (EvRow r) :: concat sub) with ([V c n (EvRow r)] ++ concat sub).
      apply all_tees_app; [|exact IHS].
      intros pre c1 n1 r1 post nd1 E Hat Hk.
      destruct pre as [|v pre]; [|destruct pre; discriminate].
      injection E as <- <- <- <-. rewrite Hc in Hat. injection Hat as <-.
      destruct (Hk k). reflexivity.
    - apply all_tees_app; [|exact IH].
      change (V c n EvFlush :: concat sub) with ([V c n EvFlush] ++ concat sub).
      apply all_tees_app; [|exact IHS].
      intros pre c1 n1 r1 post nd1 E Hat Hk.
      destruct pre as [|v pre]; [discriminate|destruct pre; discriminate].
    - apply all_tees_app; [|exact IH].
      destruct (tr_shape g rank Hrank _ _ _ HS) as [HL HF].
      apply Forall2_app_inv_l in HF as (s1 & s2 & F1 & F2 & ->).
      inversion F2 as [|? seg ? ? Hfv Fn]; subst. inversion Fn; subst. clear F2 Fn.
      intros pre c1 n1 r1 post nd1 E Hat Hk1.
      destruct pre as [|v pre].
      2:{ cbn [app] in E. injection E as _ E. eapply IHS; eauto. }
      injection E as <- <- -> <-. rewrite Hc in Hat. injection Hat as <-.
      exists s1, seg. rewrite concat_app. cbn [concat]. rewrite app_nil_r.
      split; [reflexivity|]. split; [|split].
      + clear - F1. revert s1 F1. induction (targets nd0) as [|d ds IHd]; intros s1 F1;
          inversion F1 as [|? ? ? ? Hd F1']; subst; constructor.
        * now apply first_visit_once.
        * now apply IHd.
      + apply Forall2_app_inv_l in HL as (t1 & t2 & G1 & G2 & E).
        assert (length s1 = length t1).
        { rewrite <- (Forall2_len _ _ _ F1), <- (Forall2_len _ _ _ G1). reflexivity. }
        apply app_inj_len in E as [-> _]; [|assumption].
        intros sg v Hsg Hv Ec.
        assert (In v (concat t1)) as Hv' by (apply in_concat; eauto).
        destruct (Forall2_concat_in _ _ _ _ G1 Hv') as ([[c2 n2] e2] & s & Hin & _ & L & Hs).
        apply in_map_iff in Hin as (d & [= <- <- <-] & Hd).
        assert (rank d < rank c) by (apply Hrank; eapply edge_node; eauto).
        destruct (L v Hs) as [_ [[E3 _]|L3]]; rewrite Ec in *; [rewrite <- E3 in *|]; lia.
      + intro Hn. now apply Hfv.
  Qed.

  (** The effect of one delivery to a tee node. *)
  Lemma process_row_tee F lg c n r lg' nd :
    node_at g c n = Some nd -> (forall k, nd <> DSink k) ->
    process_row F g lg c n r = (lg', Ok tt) ->
    exists segs tl,
      lg' = lg ++ V c n (EvRow r) :: concat segs ++ tl /\
      Forall2 (fun d seg => delivered_once g d 0 r seg) (targets nd) segs /\
      (forall seg v, In seg segs -> In v seg -> v_chain v <> c) /\
      delivered_once g c (S n) r tl.
  Proof.
    intros Hat Hk H. apply process_row_tr in H as (seg & -> & T).
    inversion T as [|? ? ? ? ? ? ? Hc Hn|? ? ? ? ? ? ? ? ? Hc|
      |? ? ? ? nd0 sub ? ? Hc Hk0 HS HT]; subst.
    - unfold node_at in Hat. rewrite Hc in Hat. congruence.
    - rewrite Hc in Hat. injection Hat as <-. destruct (Hk k). reflexivity.
    - rewrite Hc in Hat. injection Hat as ->.
      destruct (tr_shape g rank Hrank _ _ _ HS) as [HL HF].
      apply Forall2_app_inv_l in HF as (s1 & s2 & F1 & F2 & ->).
      inversion F2 as [|? sg ? ? Hfv Fn]; subst. inversion Fn; subst. clear F2 Fn.
      exists s1, sg. rewrite concat_app. cbn [concat]. rewrite app_nil_r.
      split; [reflexivity|]. split; [|split].
      + clear - F1. revert s1 F1. induction (targets nd) as [|d ds IHd]; intros s1 F1;
          inversion F1 as [|? ? ? ? Hd F1']; subst; constructor.
        * now apply first_visit_once.
        * now apply IHd.
      + apply Forall2_app_inv_l in HL as (t1 & t2 & G1 & G2 & E).
        assert (length s1 = length t1).
        { rewrite <- (Forall2_len _ _ _ F1), <- (Forall2_len _ _ _ G1). reflexivity. }
        apply app_inj_len in E as [-> _]; [|assumption].
        intros s0 v Hsg Hv Ec.
        assert (In v (concat t1)) as Hv' by (apply in_concat; eauto).
        destruct (Forall2_concat_in _ _ _ _ G1 Hv') as ([[c2 n2] e2] & s & Hin & _ & L & Hs).
        apply in_map_iff in Hin as (d & [= <- <- <-] & Hd).
        assert (rank d < rank c) by (apply Hrank; eapply edge_node; eauto).
        destruct (L v Hs) as [_ [[E3 _]|L3]]; rewrite Ec in *; [rewrite <- E3 in *|]; lia.
      + now apply first_visit_once.
  Qed.
End Tees.

(** ** Kinds and reach of visits; flush coverage *)
Lemma node_at_edge g c n nd d : node_at g c n = Some nd -> In d (targets nd) -> edge g c d.
Proof. apply edge_node. Qed.

Definition same_kind (e e' : event) : Prop :=
  match e, e' with EvRow _, EvRow _ | EvFlush, EvFlush => True | _, _ => False end.

Lemma same_kind_trans a c d : same_kind a c -> same_kind c d -> same_kind a d.
Proof. destruct a, c, d; cbn; tauto. Qed.

Lemma tr_reach g lg calls segs :
  tr g lg calls segs ->
  Forall2 (fun cl seg => let '(c, n, e) := cl in
    forall v, In v seg -> reach g c (v_chain v) /\ same_kind e (v_ev v)) calls segs.
Proof.
  induction 1 as [lg|lg c n e chain calls segs Hc Hn HT IH
    |lg c n r k rows sub calls segs Hc Hw HS IHS HT IH
    |lg c n k sub calls segs Hc Hw HS IHS HT IH
    |lg c n e nd0 sub calls segs Hc Hk HS IHS HT IH]; constructor; auto.
  - intros v [].
  - intros v [<-|Hv]; [split; [apply reach_refl|exact I]|].
    destruct (Forall2_concat_in _ _ _ _ IHS Hv) as ([[c2 n2] e2] & s & Hin & _ & L & Hs).
    apply in_map_iff in Hin as (y & [= <- <- <-] & _). now apply L.
  - intros v [<-|Hv]; [split; [apply reach_refl|exact I]|].
    destruct (Forall2_concat_in _ _ _ _ IHS Hv) as ([[c2 n2] e2] & s & Hin & _ & L & Hs).
    destruct Hin as [[= <- <- <-]|[]]. now apply L.
  - intros v [<-|Hv]; [split; [apply reach_refl|destruct e; exact I]|].
    destruct (Forall2_concat_in _ _ _ _ IHS Hv) as ([[c2 n2] e2] & s & Hin & _ & L & Hs).
    apply in_app_or in Hin as [Hin|[[= <- <- <-]|[]]].
    + apply in_map_iff in Hin as (d & [= <- <- <-] & Hd).
      destruct (L v Hs) as [R K]. split; [|exact K].
      eapply reach_step; [|exact R]. eapply edge_node; eauto.
    + now apply L.
Qed.

(** A flush from node [n] of chain [c] reaches the later nodes and everything below. *)
Definition covers (g : dgraph) (c n : nat) (seg : log) : Prop :=
  (forall m, n <= m -> node_at g c m <> None -> In (V c m EvFlush) seg) /\
  (forall m nd d c' m', n <= m -> node_at g c m = Some nd -> In d (targets nd) ->
     reach g d c' -> node_at g c' m' <> None -> In (V c' m' EvFlush) seg).

Lemma covers_reach g c seg c' m :
  covers g c 0 seg -> reach g c c' -> node_at g c' m <> None -> In (V c' m EvFlush) seg.
Proof.
  intros [A B] R Hn. inversion R as [|? d ? E R']; subst.
  - apply A; [lia|exact Hn].
  - destruct E as (chain & nd & Hc & Hin & Hd).
    apply In_nth_error in Hin as (j & Hj).
    apply (B j nd d c' m); auto; [lia|]. unfold node_at. now rewrite Hc.
Qed.

Lemma tr_covers g lg calls segs :
  tr g lg calls segs ->
  Forall2 (fun cl seg => let '(c, n, e) := cl in e = EvFlush -> covers g c n seg) calls segs.
Proof.
  induction 1 as [lg|lg c n e chain calls segs Hc Hn HT IH
    |lg c n r k rows sub calls segs Hc Hw HS IHS HT IH
    |lg c n k sub calls segs Hc Hw HS IHS HT IH
    |lg c n e nd0 sub calls segs Hc Hk HS IHS HT IH]; constructor; auto.
  - intros _. assert (Hno : forall m, n <= m -> node_at g c m = None).
    { intros m Hm. unfold node_at. rewrite Hc. apply nth_error_None.
      apply nth_error_None in Hn. lia. }
    split.
    + intros m Hm C. destruct C. now apply Hno.
    + intros m nd d c' m' Hm E. rewrite Hno in E by exact Hm. discriminate.
  - discriminate.
  - intros _. inversion IHS as [|? seg ? sub' Hcov Hnil]; subst. inversion Hnil; subst.
    destruct (Hcov eq_refl) as [A B]. cbn [concat]. rewrite app_nil_r. split.
    + intros m Hm C. destruct (Nat.eq_dec m n) as [->|]; [now left|]. right. apply A; [lia|exact C].
    + intros m nd d c' m' Hm E Hd R C. destruct (Nat.eq_dec m n) as [->|].
      * rewrite Hc in E. injection E as <-. destruct Hd.
      * right. eapply (B m); eauto. lia.
  - intros ->. apply Forall2_app_inv_l in IHS as (s1 & s2 & F1 & F2 & ->).
    inversion F2 as [|? seg ? ? Hcov Fn]; subst. inversion Fn; subst.
    destruct (Hcov eq_refl) as [A B]. rewrite concat_app. cbn [concat]. rewrite app_nil_r.
    split.
    + intros m Hm C. destruct (Nat.eq_dec m n) as [->|]; [now left|].
      right. apply in_or_app. right. apply A; [lia|exact C].
    + intros m nd d c' m' Hm E Hd R C. right. apply in_or_app.
      destruct (Nat.eq_dec m n) as [->|].
      * left. rewrite Hc in E. injection E as <-.
        clear - F1 Hd R C. revert s1 F1. induction (targets nd0) as [|d0 ds IHd]; intros s1 F1; [destruct Hd|].
        inversion F1 as [|? ? ? ? Hf F1']; subst. cbn [concat]. apply in_or_app.
        destruct Hd as [->|Hd]; [left|right; now apply IHd].
        eapply covers_reach; eauto.
      * right. eapply (B m); eauto. lia.
Qed.

(** ** Extension: a call only appends to the log *)
Lemma prefix_refl {A} (x : list A) : prefix x x.
Proof. exists []. now rewrite app_nil_r. Qed.
Lemma prefix_trans {A} (x y z : list A) : prefix x y -> prefix y z -> prefix x z.
Proof. intros [a ->] [c ->]. exists (a ++ c). now rewrite app_assoc. Qed.
Lemma prefix_app {A} (x y : list A) : prefix x (x ++ y).
Proof. now exists y. Qed.

Lemma each_ext {A B} (f : list B -> A -> list B * res unit) xs s :
  (forall s x, prefix s (fst (f s x))) -> prefix s (fst (each f xs s)).
Proof.
  intro H. revert s; induction xs as [|x xs IH]; intro s; cbn; [apply prefix_refl|].
  pose proof (H s x) as Hx. destruct (f s x) as [s' [[]|e| | |]]; cbn in *; auto.
  eapply prefix_trans; [exact Hx|apply IH].
Qed.

Lemma row_walk_ext rec c nodes n r lg :
  (forall lg c n r, prefix lg (fst (rec lg c n r))) ->
  prefix lg (fst (row_walk rec c nodes n r lg)).
Proof.
  intro H. revert n r lg; induction nodes as [|nd rest IH]; intros n r lg; cbn [row_walk];
    [apply prefix_refl|].
  pose proof (prefix_app lg [V c n (EvRow r)]) as P0.
  destruct nd as [k|d|ds].
  - destruct (sk_write k (events_at lg c n) r) as [[|r0 t]|e| | |]; try exact P0.
    assert (Q := each_ext (fun l x => rec l c (S n) x) (removelast (r0 :: t))
             (lg ++ [V c n (EvRow r)]) (fun s x => H s c (S n) x)).
    destruct (each _ _ _) as [lg2 [[]|e| | |]]; cbn [fst] in *;
      try (eapply prefix_trans; eassumption).
    eapply prefix_trans; [exact P0|]. eapply prefix_trans; [exact Q|apply IH].
  - assert (Q := H (lg ++ [V c n (EvRow r)]) d 0 r).
    destruct (rec _ d 0 r) as [lg2 [[]|e| | |]]; cbn [fst] in *;
      try (eapply prefix_trans; eassumption).
    eapply prefix_trans; [exact P0|]. eapply prefix_trans; [exact Q|apply IH].
  - assert (Q := each_ext (fun l d => rec l d 0 r) ds (lg ++ [V c n (EvRow r)])
             (fun s d => H s d 0 r)).
    destruct (each _ _ _) as [lg2 [[]|e| | |]]; cbn [fst] in *;
      try (eapply prefix_trans; eassumption).
    eapply prefix_trans; [exact P0|]. eapply prefix_trans; [exact Q|apply IH].
Qed.

Lemma process_row_ext F g lg c n r : prefix lg (fst (process_row F g lg c n r)).
Proof.
  revert lg c n r; induction F as [|F IH]; intros; cbn; [apply prefix_refl|].
  destruct (nth_error g c); [|apply prefix_refl]. now apply row_walk_ext.
Qed.

Lemma flush_walk_ext rec c nodes n lg :
  (forall lg d, prefix lg (fst (rec lg d))) ->
  prefix lg (fst (flush_walk rec c nodes n lg)).
Proof.
  intro H. revert n lg; induction nodes as [|nd rest IH]; intros n lg; cbn [flush_walk];
    [apply prefix_refl|].
  pose proof (prefix_app lg [V c n EvFlush]) as P0.
  destruct nd as [k|d|ds].
  - destruct (sk_flush k (events_at lg c n)); try exact P0.
    eapply prefix_trans; [exact P0|apply IH].
  - assert (Q := H (lg ++ [V c n EvFlush]) d).
    destruct (rec _ d) as [lg2 [[]|e| | |]]; cbn [fst] in *;
      try (eapply prefix_trans; eassumption).
    eapply prefix_trans; [exact P0|]. eapply prefix_trans; [exact Q|apply IH].
  - assert (Q := each_ext rec ds (lg ++ [V c n EvFlush]) H).
    destruct (each _ _ _) as [lg2 [[]|e| | |]]; cbn [fst] in *;
      try (eapply prefix_trans; eassumption).
    eapply prefix_trans; [exact P0|]. eapply prefix_trans; [exact Q|apply IH].
Qed.

Lemma flush_ext F g lg c : prefix lg (fst (flush F g lg c)).
Proof.
  revert lg c; induction F as [|F IH]; intros; cbn; [apply prefix_refl|].
  destruct (nth_error g c); [|apply prefix_refl]. now apply flush_walk_ext.
Qed.

Lemma apply_ev_ext F g lg e : prefix lg (fst (apply_ev F g lg e)).
Proof. destruct e; cbn; [apply process_row_ext|apply flush_ext]. Qed.

(** ** Repairs *)

(** [x] succeeded and [y] is the same, or [x] failed and [y] got at least as far. *)
Definition agrees (x y : log * res unit) : Prop :=
  match snd x with
  | Ok _ => y = x
  | _ => prefix (fst x) (fst y)
  end.

Lemma agrees_refl x : agrees x x.
Proof. unfold agrees. destruct (snd x); auto using prefix_refl. Qed.

Lemma each_agrees {A} (f f' : log -> A -> log * res unit) xs :
  (forall s x, agrees (f s x) (f' s x)) -> (forall s x, prefix s (fst (f' s x))) ->
  forall s, agrees (each f xs s) (each f' xs s).
Proof.
  intros H Hext. induction xs as [|x xs IH]; intro s; cbn [each]; [apply agrees_refl|].
  pose proof (H s x) as Hx. destruct (f s x) as [s' o] eqn:E. unfold agrees in Hx. cbn in Hx.
  destruct o as [[]|e| | |].
  - rewrite Hx. apply IH.
  - destruct (f' s x) as [s2 [[]|e'| | |]]; unfold agrees; cbn in *; auto.
    eapply prefix_trans; [exact Hx|]. apply each_ext, Hext.
  - destruct (f' s x) as [s2 [[]|e'| | |]]; unfold agrees; cbn in *; auto.
    eapply prefix_trans; [exact Hx|]. apply each_ext, Hext.
  - destruct (f' s x) as [s2 [[]|e'| | |]]; unfold agrees; cbn in *; auto.
    eapply prefix_trans; [exact Hx|]. apply each_ext, Hext.
  - destruct (f' s x) as [s2 [[]|e'| | |]]; unfold agrees; cbn in *; auto.
    eapply prefix_trans; [exact Hx|]. apply each_ext, Hext.
Qed.

(* continue after a step, in both runs *)
Lemma agrees_then (x y : log * res unit) (k k' : log -> log * res unit) :
  agrees x y -> (forall l, agrees (k l) (k' l)) -> (forall l, prefix l (fst (k' l))) ->
  agrees (match x with (l, Ok _) => k l | (l, e) => (l, e) end)
         (match y with (l, Ok _) => k' l | (l, e) => (l, e) end).
Proof.
  intros H Hk Hext. destruct x as [l [[]|e| | |]]; unfold agrees in H; cbn in H; subst.
  - apply Hk.
  - destruct y as [l' [[]|e'| | |]]; unfold agrees; cbn in *; auto.
    eapply prefix_trans; [exact H|apply Hext].
  - destruct y as [l' [[]|e'| | |]]; unfold agrees; cbn in *; auto.
    eapply prefix_trans; [exact H|apply Hext].
  - destruct y as [l' [[]|e'| | |]]; unfold agrees; cbn in *; auto.
    eapply prefix_trans; [exact H|apply Hext].
  - destruct y as [l' [[]|e'| | |]]; unfold agrees; cbn in *; auto.
    eapply prefix_trans; [exact H|apply Hext].
Qed.

Lemma row_walk_agrees rec rec' c nodes nodes' :
  Forall2 node_repair nodes nodes' ->
  (forall s c n r, agrees (rec s c n r) (rec' s c n r)) ->
  (forall s c n r, prefix s (fst (rec' s c n r))) ->
  forall n r lg, agrees (row_walk rec c nodes n r lg) (row_walk rec' c nodes' n r lg).
Proof.
  intros HF H Hext. induction HF as [|nd nd' rest rest' Hnd HF IH]; intros n r lg;
    cbn [row_walk]; [apply agrees_refl|].
  destruct Hnd as [k k' [Hw _]|d|ds].
  - destruct (sk_write k (events_at lg c n) r) as [rows|e| | |] eqn:E.
    + rewrite (Hw _ _ _ E). destruct rows as [|r0 t]; [apply agrees_refl|].
      apply (agrees_then _ _ (row_walk rec c rest (S n) (last (r0 :: t) r0))
                             (row_walk rec' c rest' (S n) (last (r0 :: t) r0))).
      * apply each_agrees; auto.
      * intro l. apply IH.
      * intro l. apply row_walk_ext, Hext.
    + unfold agrees. cbn [fail_as fst snd].
      destruct (sk_write k' (events_at lg c n) r) as [[|r0 t]|e'| | |]; cbn [fst]; try apply prefix_refl.
      assert (Q := each_ext (fun l x => rec' l c (S n) x) (removelast (r0 :: t))
             (lg ++ [V c n (EvRow r)]) (fun s x => Hext s c (S n) x)).
      destruct (each _ _ _) as [lg2 [[]|e'| | |]]; cbn [fst] in *; auto.
      eapply prefix_trans; [exact Q|apply row_walk_ext, Hext].
    + unfold agrees. cbn [fail_as fst snd].
      destruct (sk_write k' (events_at lg c n) r) as [[|r0 t]|e'| | |]; cbn [fst]; try apply prefix_refl.
      assert (Q := each_ext (fun l x => rec' l c (S n) x) (removelast (r0 :: t))
             (lg ++ [V c n (EvRow r)]) (fun s x => Hext s c (S n) x)).
      destruct (each _ _ _) as [lg2 [[]|e'| | |]]; cbn [fst] in *; auto.
      eapply prefix_trans; [exact Q|apply row_walk_ext, Hext].
    + unfold agrees. cbn [fail_as fst snd].
      destruct (sk_write k' (events_at lg c n) r) as [[|r0 t]|e'| | |]; cbn [fst]; try apply prefix_refl.
      assert (Q := each_ext (fun l x => rec' l c (S n) x) (removelast (r0 :: t))
             (lg ++ [V c n (EvRow r)]) (fun s x => Hext s c (S n) x)).
      destruct (each _ _ _) as [lg2 [[]|e'| | |]]; cbn [fst] in *; auto.
      eapply prefix_trans; [exact Q|apply row_walk_ext, Hext].
    + unfold agrees. cbn [fail_as fst snd].
      destruct (sk_write k' (events_at lg c n) r) as [[|r0 t]|e'| | |]; cbn [fst]; try apply prefix_refl.
      assert (Q := each_ext (fun l x => rec' l c (S n) x) (removelast (r0 :: t))
             (lg ++ [V c n (EvRow r)]) (fun s x => Hext s c (S n) x)).
      destruct (each _ _ _) as [lg2 [[]|e'| | |]]; cbn [fst] in *; auto.
      eapply prefix_trans; [exact Q|apply row_walk_ext, Hext].
  - apply (agrees_then _ _ (row_walk rec c rest (S n) r) (row_walk rec' c rest' (S n) r)); auto.
    intro l. apply row_walk_ext, Hext.
  - apply (agrees_then _ _ (row_walk rec c rest (S n) r) (row_walk rec' c rest' (S n) r)); auto.
    + apply each_agrees; auto.
    + intro l. apply row_walk_ext, Hext.
Qed.

Lemma flush_walk_agrees rec rec' c nodes nodes' :
  Forall2 node_repair nodes nodes' ->
  (forall s d, agrees (rec s d) (rec' s d)) ->
  (forall s d, prefix s (fst (rec' s d))) ->
  forall n lg, agrees (flush_walk rec c nodes n lg) (flush_walk rec' c nodes' n lg).
Proof.
  intros HF H Hext. induction HF as [|nd nd' rest rest' Hnd HF IH]; intros n lg;
    cbn [flush_walk]; [apply agrees_refl|].
  destruct Hnd as [k k' [_ Hw]|d|ds].
  - destruct (sk_flush k (events_at lg c n)) as [[]|e| | |] eqn:E;
      [rewrite (Hw _ E); apply IH| | | |];
      unfold agrees; cbn [fail_as fst snd];
      (destruct (sk_flush k' (events_at lg c n)); cbn [fst]; try apply prefix_refl;
       apply flush_walk_ext, Hext).
  - apply (agrees_then _ _ (flush_walk rec c rest (S n)) (flush_walk rec' c rest' (S n))); auto.
    intro l. apply flush_walk_ext, Hext.
  - apply (agrees_then _ _ (flush_walk rec c rest (S n)) (flush_walk rec' c rest' (S n))); auto.
    + apply each_agrees; auto.
    + intro l. apply flush_walk_ext, Hext.
Qed.

Lemma Forall2_nth {A B} (P : A -> B -> Prop) x y i :
  Forall2 P x y ->
  match nth_error x i, nth_error y i with
  | Some a, Some c => P a c
  | None, None => True
  | _, _ => False
  end.
Proof.
  intro H. revert i; induction H as [|a c x y Hac H IH]; intros [|i]; cbn; auto. apply IH.
Qed.

Lemma Forall2_skipn {A B} (P : A -> B -> Prop) n x y :
  Forall2 P x y -> Forall2 P (skipn n x) (skipn n y).
Proof. intro H. revert n; induction H; intros [|n]; cbn; auto. Qed.

Lemma process_row_agrees F g g' :
  graph_repair g g' ->
  forall lg c n r, agrees (process_row F g lg c n r) (process_row F g' lg c n r).
Proof.
  intro HG. induction F as [|F IH]; intros lg c n r; cbn [process_row]; [apply agrees_refl|].
  pose proof (Forall2_nth (A:=dchain) (B:=dchain) (Forall2 node_repair) g g' c HG) as Hc. revert Hc.
  destruct (nth_error g c) as [chain|], (nth_error g' c) as [chain'|]; intro Hc; try contradiction;
    [|apply agrees_refl].
  apply row_walk_agrees; [now apply Forall2_skipn|exact IH|].
  intros. apply process_row_ext.
Qed.

Lemma flush_agrees F g g' :
  graph_repair g g' -> forall lg c, agrees (flush F g lg c) (flush F g' lg c).
Proof.
  intro HG. induction F as [|F IH]; intros lg c; cbn [flush]; [apply agrees_refl|].
  pose proof (Forall2_nth (A:=dchain) (B:=dchain) (Forall2 node_repair) g g' c HG) as Hc. revert Hc.
  destruct (nth_error g c) as [chain|], (nth_error g' c) as [chain'|]; intro Hc; try contradiction;
    [|apply agrees_refl].
  apply flush_walk_agrees; [exact Hc|exact IH|]. intros. apply flush_ext.
Qed.

Lemma apply_ev_agrees F g g' lg e :
  graph_repair g g' -> agrees (apply_ev F g lg e) (apply_ev F g' lg e).
Proof. intro H. destruct e; cbn; [now apply process_row_agrees|now apply flush_agrees]. Qed.

(** ** Fuel *)

(** No sink call runs forever. *)
Definition sinks_return (g : dgraph) : Prop :=
  forall chain k, In chain g -> In (DSink k) chain ->
    (forall h r, sk_write k h r <> NoFuel) /\ (forall h, sk_flush k h <> NoFuel).

Lemma each_nofuel {A St} (f : St -> A -> St * res unit) xs :
  (forall s x, In x xs -> snd (f s x) <> NoFuel) -> forall s, snd (each f xs s) <> NoFuel.
Proof.
  induction xs as [|x xs IH]; intros H s; cbn; [discriminate|].
  pose proof (H s x (or_introl eq_refl)) as Hx.
  destruct (f s x) as [s' [[]|e| | |]]; cbn in *; try congruence.
  apply IH. intros; apply H; now right.
Qed.

Definition max_len (g : dgraph) : nat := fold_right (fun c m => max (length c) m) 0 g.
Lemma max_len_ge g c chain : nth_error g c = Some chain -> length chain <= max_len g.
Proof.
  revert c; induction g as [|x g IH]; intros [|c] H; cbn [nth_error] in H; try discriminate;
    change (max_len (x :: g)) with (Nat.max (length x) (max_len g)).
  - injection H as ->. lia.
  - specialize (IH _ H). lia.
Qed.

Section Fuel.
  Variables (g : dgraph) (rank : nat -> nat).
  Hypothesis Hrank : forall c d, edge g c d -> rank d < rank c.
  Hypothesis Hret : sinks_return g.

  Definition need (c n : nat) : nat := S (rank c * S (S (max_len g)) + (S (max_len g) - n)).

  Lemma row_walk_fuel f c chain :
    nth_error g c = Some chain ->
    (forall lg d n r, need d n <= f -> snd (process_row f g lg d n r) <> NoFuel) ->
    forall nodes n r lg, nodes = skipn n chain -> need c n <= S f ->
      snd (row_walk (process_row f g) c nodes n r lg) <> NoFuel.
  Proof.
    intros Hc Hrec. induction nodes as [|nd rest IH]; intros n r lg Hsk Hn; cbn [row_walk];
      [discriminate|].
    symmetry in Hsk. destruct (skipn_cons_nth _ _ _ _ Hsk) as [Hnd Hsk']. symmetry in Hsk'.
    pose proof (max_len_ge _ _ _ Hc) as HL.
    assert (n < length chain) by (apply nth_error_Some; congruence).
    assert (Hat : node_at g c n = Some nd) by (unfold node_at; now rewrite Hc).
    assert (HnS : need c (S n) <= f) by (unfold need in *; lia).
    assert (Htgt : forall d, In d (targets nd) -> need d 0 <= f).
    { intros d Hd. assert (rank d < rank c) by (apply Hrank; eapply edge_node; eauto).
      unfold need in *. nia. }
    assert (HnS' : need c (S n) <= S f) by lia.
    destruct nd as [k|d|ds].
    - destruct (Hret chain k) as [Hw _]; [now apply nth_error_In in Hc|now apply nth_error_In in Hnd|].
      specialize (Hw (events_at lg c n) r).
      destruct (sk_write k (events_at lg c n) r) as [[|r0 t]|e| | |]; cbn; try congruence.
      pose proof (each_nofuel (fun l x => process_row f g l c (S n) x) (removelast (r0 :: t))
        (fun s x _ => Hrec s c (S n) x HnS) (lg ++ [V c n (EvRow r)])) as Q.
      destruct (each _ _ _) as [lg2 [[]|e| | |]]; cbn [snd] in *; try congruence.
      now apply IH.
    - pose proof (Hrec (lg ++ [V c n (EvRow r)]) d 0 r (Htgt d (or_introl eq_refl))) as Q.
      destruct (process_row f g _ d 0 r) as [lg2 [[]|e| | |]]; cbn [snd] in *; try congruence.
      now apply IH.
    - pose proof (each_nofuel (fun l d => process_row f g l d 0 r) ds
        (fun s d Hd => Hrec s d 0 r (Htgt d Hd)) (lg ++ [V c n (EvRow r)])) as Q.
      destruct (each _ _ _) as [lg2 [[]|e| | |]]; cbn [snd] in *; try congruence.
      now apply IH.
  Qed.

  Lemma process_row_fuel f lg c n r : need c n <= f -> snd (process_row f g lg c n r) <> NoFuel.
  Proof.
    revert lg c n r; induction f as [|f IH]; intros lg c n r H; [unfold need in H; lia|].
    cbn [process_row]. destruct (nth_error g c) as [chain|] eqn:Hc; [|discriminate].
    eapply row_walk_fuel; eauto.
  Qed.

  Lemma flush_walk_fuel f c chain :
    nth_error g c = Some chain ->
    (forall lg d, need d 0 <= f -> snd (flush f g lg d) <> NoFuel) ->
    need c 0 <= S f ->
    forall nodes n lg, nodes = skipn n chain ->
      snd (flush_walk (flush f g) c nodes n lg) <> NoFuel.
  Proof.
    intros Hc Hrec Hn. induction nodes as [|nd rest IH]; intros n lg Hsk; cbn [flush_walk];
      [discriminate|].
    symmetry in Hsk. destruct (skipn_cons_nth _ _ _ _ Hsk) as [Hnd Hsk']. symmetry in Hsk'.
    assert (Hat : node_at g c n = Some nd) by (unfold node_at; now rewrite Hc).
    assert (Htgt : forall d, In d (targets nd) -> need d 0 <= f).
    { intros d Hd. assert (rank d < rank c) by (apply Hrank; eapply edge_node; eauto).
      unfold need in *. nia. }
    destruct nd as [k|d|ds].
    - destruct (Hret chain k) as [_ Hw]; [now apply nth_error_In in Hc|now apply nth_error_In in Hnd|].
      specialize (Hw (events_at lg c n)).
      destruct (sk_flush k (events_at lg c n)) as [[]|e| | |]; cbn; try congruence.
      now apply IH.
    - pose proof (Hrec (lg ++ [V c n EvFlush]) d (Htgt d (or_introl eq_refl))) as Q.
      destruct (flush f g _ d) as [lg2 [[]|e| | |]]; cbn [snd] in *; try congruence.
      now apply IH.
    - pose proof (each_nofuel (flush f g) ds
        (fun s d Hd => Hrec s d (Htgt d Hd)) (lg ++ [V c n EvFlush])) as Q.
      destruct (each _ _ _) as [lg2 [[]|e| | |]]; cbn [snd] in *; try congruence.
      now apply IH.
  Qed.

  Lemma flush_fuel f lg c : need c 0 <= f -> snd (flush f g lg c) <> NoFuel.
  Proof.
    revert lg c; induction f as [|f IH]; intros lg c H; [unfold need in H; lia|].
    cbn [flush]. destruct (nth_error g c) as [chain|] eqn:Hc; [|discriminate].
    eapply flush_walk_fuel; eauto.
  Qed.
End Fuel.

(** ** More fuel does not change a finished traversal *)
Lemma each_fuel_mono {A} (f f' : log -> A -> log * res unit) xs :
  (forall s x, snd (f s x) <> NoFuel -> f' s x = f s x) ->
  forall s, snd (each f xs s) <> NoFuel -> each f' xs s = each f xs s.
Proof.
  intro H. induction xs as [|x xs IH]; intros s Hn; cbn in *; [reflexivity|].
  specialize (H s x). destruct (f s x) as [s' [[]|e| | |]]; cbn in *;
    rewrite H by (try discriminate; exact Hn); auto.
Qed.

Lemma row_walk_mono rec rec' c nodes :
  (forall s c n r, snd (rec s c n r) <> NoFuel -> rec' s c n r = rec s c n r) ->
  forall n r lg, snd (row_walk rec c nodes n r lg) <> NoFuel ->
    row_walk rec' c nodes n r lg = row_walk rec c nodes n r lg.
Proof.
  intro H. induction nodes as [|nd rest IH]; intros n r lg Hn; cbn [row_walk] in *; [reflexivity|].
  destruct nd as [k|d|ds].
  - destruct (sk_write k (events_at lg c n) r) as [[|r0 t]|e| | |]; try reflexivity.
    pose proof (each_fuel_mono (fun l x => rec l c (S n) x) (fun l x => rec' l c (S n) x)
      (removelast (r0 :: t)) (fun s x => H s c (S n) x) (lg ++ [V c n (EvRow r)])) as Q.
    destruct (each (fun l x => rec l c (S n) x) _ _) as [lg2 [[]|e| | |]]; cbn [snd] in *;
      rewrite Q by (try discriminate; exact Hn); auto.
  - pose proof (H (lg ++ [V c n (EvRow r)]) d 0 r) as Q.
    destruct (rec _ d 0 r) as [lg2 [[]|e| | |]]; cbn [snd] in *;
      rewrite Q by (try discriminate; exact Hn); auto.
  - pose proof (each_fuel_mono (fun l d => rec l d 0 r) (fun l d => rec' l d 0 r)
      ds (fun s d => H s d 0 r) (lg ++ [V c n (EvRow r)])) as Q.
    destruct (each (fun l d => rec l d 0 r) _ _) as [lg2 [[]|e| | |]]; cbn [snd] in *;
      rewrite Q by (try discriminate; exact Hn); auto.
Qed.

Lemma process_row_mono g f f' lg c n r :
  f <= f' -> snd (process_row f g lg c n r) <> NoFuel ->
  process_row f' g lg c n r = process_row f g lg c n r.
Proof.
  revert f' lg c n r; induction f as [|f IH]; intros f' lg c n r Hle Hn; [cbn in Hn; congruence|].
  destruct f' as [|f']; [lia|]. cbn [process_row] in *.
  destruct (nth_error g c) as [chain|]; [|reflexivity].
  apply row_walk_mono; [|exact Hn]. intros. apply IH; [lia|assumption].
Qed.

Lemma flush_walk_mono rec rec' c nodes :
  (forall s d, snd (rec s d) <> NoFuel -> rec' s d = rec s d) ->
  forall n lg, snd (flush_walk rec c nodes n lg) <> NoFuel ->
    flush_walk rec' c nodes n lg = flush_walk rec c nodes n lg.
Proof.
  intro H. induction nodes as [|nd rest IH]; intros n lg Hn; cbn [flush_walk] in *; [reflexivity|].
  destruct nd as [k|d|ds].
  - destruct (sk_flush k (events_at lg c n)) as [[]|e| | |]; try reflexivity. now apply IH.
  - pose proof (H (lg ++ [V c n EvFlush]) d) as Q.
    destruct (rec _ d) as [lg2 [[]|e| | |]]; cbn [snd] in *;
      rewrite Q by (try discriminate; exact Hn); auto.
  - pose proof (each_fuel_mono rec rec' ds H (lg ++ [V c n EvFlush])) as Q.
    destruct (each rec _ _) as [lg2 [[]|e| | |]]; cbn [snd] in *;
      rewrite Q by (try discriminate; exact Hn); auto.
Qed.

Lemma flush_mono g f f' lg c :
  f <= f' -> snd (flush f g lg c) <> NoFuel -> flush f' g lg c = flush f g lg c.
Proof.
  revert f' lg c; induction f as [|f IH]; intros f' lg c Hle Hn; [cbn in Hn; congruence|].
  destruct f' as [|f']; [lia|]. cbn [flush] in *.
  destruct (nth_error g c) as [chain|]; [|reflexivity].
  apply flush_walk_mono; [|exact Hn]. intros. apply IH; [lia|assumption].
Qed.

(** C108: rows are handed on as they arrive: what has been read so far decides what has been
    delivered so far, whatever follows. *)
From Verif Require Export StreamSpec.
From Verif Require Import DriveTop.

Definition ltT (T : nanos) (r : row) : bool := (ts r <? T)%N.

Lemma filter_none {A} (f : A -> bool) l : Forall (fun x => f x = false) l -> filter f l = [].
Proof. induction 1 as [|x l Hx _ IH]; cbn; [reflexivity|]. now rewrite Hx. Qed.

(* a sorted list whose first row is not before T has none before T *)
Lemma sorted_late T x l : time_ordered (x :: l) -> (T <= ts x)%N -> filter (ltT T) (x :: l) = [].
Proof.
  intros Hs Hx. apply filter_none. apply Sorted_StronglySorted in Hs; [|exact ts_le_trans].
  inversion Hs as [|? ? _ Hf]; subst. constructor.
  - apply N.ltb_ge. exact Hx.
  - eapply Forall_impl; [|exact Hf]. intros y Hy. apply N.ltb_ge. unfold ts_le in Hy. lia.
Qed.

Definition reaches (T : nanos) (rng : ts_range) (bf : buf) : Prop :=
  buf_ok bf /\ time_ordered (pending rng bf) /\ exists r, In r (pending rng bf) /\ (T <= ts r)%N.

(* what was handed over between two points of a run *)
Definition since (s s' : run) (d : list devent) : Prop := r_devs s' = r_devs s ++ d.
Definition covered F g (T : nanos) (rng : ts_range) (bs : list buf) (s s' : run) : Prop :=
  exists d, (since s s' d /\ each (apply_ev F g) d (r_log s) = (r_log s', Ok tt)) /\
    forall bf, In bf bs -> prefix (filter (ltT T) (pending rng bf)) (rows_to (b_chain bf) d).

Lemma rows_to_app c x y : rows_to c (x ++ y) = rows_to c x ++ rows_to c y.
Proof. induction x as [|[d r|d] x IH]; cbn; auto. destruct (d =? c); cbn; now rewrite IH. Qed.

Lemma hand_since F g s e s1 o : hand F g s e = (s1, o) -> since s s1 [e].
Proof. intro H. apply hand_inv in H as [D _]. exact D. Qed.
Lemma hand_did F g s e s1 : hand F g s e = (s1, Ok tt) -> since s s1 [e] /\ each (apply_ev F g) [e] (r_log s) = (r_log s1, Ok tt).
Proof. intro H. split; [exact (hand_since _ _ _ _ _ _ H)|]. apply hand_inv in H as [_ A]. cbn [each]. now rewrite A. Qed.
Lemma hand_then F g s e s1 s2 d : hand F g s e = (s1, Ok tt) ->
  since s1 s2 d /\ each (apply_ev F g) d (r_log s1) = (r_log s2, Ok tt) ->
  since s s2 (e :: d) /\ each (apply_ev F g) (e :: d) (r_log s) = (r_log s2, Ok tt).
Proof.
  intros H [A B]. split.
  - unfold since in *. rewrite A, (hand_since _ _ _ _ _ _ H), <- app_assoc. reflexivity.
  - apply hand_inv in H as [_ X]. cbn [each]. now rewrite X.
Qed.

Lemma picked_in bs l1 bf l2 : picked bs l1 bf l2 -> In bf bs.
Proof. intros (-> & _). apply in_elt. Qed.

(* when the picked buffer's row is not before T, nothing is *)
Lemma picked_late T rng bs l1 bf l2 r :
  Forall (reaches T rng) bs -> picked bs l1 bf l2 -> b_row bf = Some r -> (T <= ts r)%N ->
  forall x, In x bs -> filter (ltT T) (pending rng x) = [].
Proof.
  intros HR P Hr Ht x Hx. rewrite Forall_forall in HR. destruct (HR _ Hx) as (Ox & Sx & y & Hy & _).
  destruct (HR _ (picked_in _ _ _ _ P)) as (Ob & _).
  unfold pending, buf_ok in *. rewrite Hr in Ob. destruct (b_row x) as [r'|]; [|destruct Hy].
  apply sorted_late; [exact Sx|]. destruct P as (-> & A & B). rewrite Forall_forall in A, B.
  apply in_app_or in Hx as [Hx|[->|Hx]].
  - specialize (A _ Hx). cbn in A. lia.
  - lia.
  - specialize (B _ Hx). cbn in B. lia.
Qed.

Lemma pick_repair bs bs' l1 bf l2 : Forall2 buf_repair bs bs' -> picked bs l1 bf l2 ->
  exists m1 bf' m2, picked bs' m1 bf' m2 /\ Forall2 buf_repair l1 m1 /\
    buf_repair bf bf' /\ Forall2 buf_repair l2 m2.
Proof.
  intros HF (-> & A & B).
  apply Forall2_app_inv_l in HF as (m1 & m2' & F1 & F2 & ->).
  inversion F2 as [|? bf' ? m2 Hb F3]; subst. exists m1, bf', m2.
  split; [|auto]. destruct Hb as (_ & Et & _). split; [reflexivity|]. rewrite <- Et.
  split; [clear - A F1|clear - B F3].
  - induction F1 as [|x y ? ? (_ & E & _) ? IH]; constructor; inversion A; subst; auto. lia.
  - induction F3 as [|x y ? ? (_ & E & _) ? IH]; constructor; inversion B; subst; auto. lia.
Qed.

(** Either both runs end alike, in a failure, or the second gets at least as far as the first,
    which has handed over everything before [T]. *)
Lemma Loop_stream F g rng T bs s s1 o :
  Loop F g rng bs s s1 o -> Forall (reaches T rng) bs -> NoDup (map b_chain bs) ->
  (o <> Ok tt /\ forall bs' s2 o2, Forall2 buf_repair bs bs' -> Loop F g rng bs' s s2 o2 -> s2 = s1 /\ o2 = o) \/
  covered F g T rng bs s s1.
Proof.
  intro HL.
  induction HL as [s|bs s l1 bf l2 P Hn
      |bs s s1 o l1 bf l2 r P Hr Hh Ho
      |bs s s1 e l1 bf l2 r P Hr Hh Hm He
      |bs s s1 s' o l1 bf bf' l2 r r' P Hr Hh Hm Hc Hr' Ht HL IH
      |bs s s1 s2 o l1 bf l2 r src P Hr Hh Hm Hh2 Ho
      |bs s s1 s2 s' o l1 bf l2 r src P Hr Hh Hm Hh2 HL IH]; intros HR ND.
  - right. exists []. split; [split; [unfold since; now rewrite app_nil_r|reflexivity]|]. intros ? [].
  - rewrite Forall_forall in HR. destruct (HR _ (picked_in _ _ _ _ P)) as (_ & _ & x & Hx & _).
    unfold pending in Hx. rewrite Hn in Hx. destruct Hx.
  - left. split; [exact Ho|]. intros bs' t2 o2 HF L2.
    destruct (pick_repair _ _ _ _ _ HF P) as (m1 & b2 & m2 & P2 & _ & (Ec & _ & Er & _) & _).
    rewrite Hr in Er. symmetry in Er.
    destruct (Loop_step _ _ _ _ _ _ _ _ _ _ _ L2 P2 Er) as (u1 & p1 & Hh' & C).
    rewrite Ec in Hh. rewrite Hh in Hh'. injection Hh' as <- <-.
    destruct C as [(_ & -> & ->)|(C & _)]; [auto|congruence].
  - right. exists [DRow (b_chain bf) r]. split; [exact (hand_did _ _ _ _ _ Hh)|].
    assert (HT : (T <= ts r)%N).
    { rewrite Forall_forall in HR. destruct (HR _ (picked_in _ _ _ _ P)) as (_ & _ & x & Hx & Tx).
      unfold pending in Hx. rewrite Hr in Hx.
      pose proof (match_next_row_spec rng (b_src bf)) as M. rewrite Hm in M.
      destruct e as [[]|?| | |]; try discriminate; destruct M as [M _]; rewrite M in Hx; destruct Hx as [->|[]]; exact Tx. }
    intros x Hx. rewrite (picked_late _ _ _ _ _ _ _ HR P Hr HT x Hx). eexists; reflexivity.
  - pose proof (match_next_row_spec rng (b_src bf)) as M. rewrite Hm in M. destruct M as (M & _).
    assert (Ep : pending rng bf = r :: pending rng bf').
    { unfold pending. rewrite Hr, Hr', M. reflexivity. }
    assert (HRb : reaches T rng bf).
    { rewrite Forall_forall in HR. apply HR. exact (picked_in _ _ _ _ P). }
    pose proof P as (Ebs & _ & _).
    assert (HR' : Forall (reaches T rng) (l1 ++ bf' :: l2)).
    { rewrite Ebs in HR. apply Forall_app in HR as [H1 H2]. inversion H2 as [|? ? _ H3]; subst.
      apply Forall_app. split; [exact H1|]. constructor; [|exact H3].
      destruct HRb as (O & S & x & Hx & Tx). rewrite Ep in S, Hx.
      split; [unfold buf_ok; now rewrite Hr'|].
      split; [now inversion S|].
      destruct Hx as [->|Hx]; [|now exists x].
      exists r'. split; [unfold pending; rewrite Hr'; now left|].
      inversion S as [|? ? _ Hd]; subst. unfold pending in Hd. rewrite Hr' in Hd. inversion Hd as [|? ? Hle]; subst.
      unfold ts_le in Hle. lia. }
    assert (Ech : map b_chain (l1 ++ bf' :: l2) = map b_chain bs).
    { rewrite Ebs, !map_app. cbn. now rewrite Hc. }
    destruct (IH HR' ltac:(now rewrite Ech)) as [(Ho & Same)|(d & Ed & Hd)].
    + left. split; [exact Ho|]. intros bs' t2 o2 HF L2.
      destruct (pick_repair _ _ _ _ _ HF P) as (m1 & b2 & m2 & P2 & F1 & (Ec & _ & Er & Es) & F2).
      rewrite Hr in Er. symmetry in Er.
      destruct (Loop_step _ _ _ _ _ _ _ _ _ _ _ L2 P2 Er) as (u1 & p1 & Hh' & C).
      rewrite Ec in Hh. rewrite Hh in Hh'. injection Hh' as <- <-.
      destruct C as [(C & _)|(_ & C)]; [congruence|].
      destruct (match_next_row_repair _ _ _ _ _ Es Hm) as (src' & Hm' & Es').
      rewrite Hm' in C. eapply Same; [|exact C].
      apply Forall2_app; [exact F1|]. constructor; [|exact F2].
      unfold buf_repair. cbn. rewrite Hc, Ht, Hr', Ec. auto.
    + right. destruct (N.le_gt_cases T (ts r)) as [Hle|Hlt].
      * exists (DRow (b_chain bf) r :: d). split.
        { exact (hand_then _ _ _ _ _ _ _ Hh Ed). }
        intros x Hx. rewrite (picked_late _ _ _ _ _ _ _ HR P Hr Hle x Hx). eexists; reflexivity.
      * exists (DRow (b_chain bf) r :: d). split.
        { exact (hand_then _ _ _ _ _ _ _ Hh Ed). }
        intros x Hx. rewrite Ebs in Hx, ND. rewrite map_app in ND. cbn [map] in ND.
        apply NoDup_remove in ND as [_ ND].
        cbn [rows_to]. apply in_app_or in Hx as [Hx|[<-|Hx]].
        -- destruct (Nat.eqb_spec (b_chain bf) (b_chain x)) as [E|_].
           { exfalso. apply ND. apply in_or_app. left. rewrite E. now apply in_map. }
           apply Hd. apply in_or_app. now left.
        -- rewrite Nat.eqb_refl, Ep. cbn [filter]. unfold ltT at 1. apply N.ltb_lt in Hlt. rewrite Hlt.
           destruct (Hd bf' (in_elt _ _ _)) as [z Hz]. rewrite Hc in Hz. rewrite Hz. exists z. reflexivity.
        -- destruct (Nat.eqb_spec (b_chain bf) (b_chain x)) as [E|_].
           { exfalso. apply ND. apply in_or_app. right. rewrite E. now apply in_map. }
           apply Hd. apply in_or_app. right. now right.
  - left. split; [exact Ho|]. intros bs' t2 o2 HF L2.
    destruct (pick_repair _ _ _ _ _ HF P) as (m1 & b2 & m2 & P2 & _ & (Ec & _ & Er & Es) & _).
    rewrite Hr in Er. symmetry in Er.
    destruct (Loop_step _ _ _ _ _ _ _ _ _ _ _ L2 P2 Er) as (u1 & p1 & Hh' & C).
    rewrite Ec in Hh. rewrite Hh in Hh'. injection Hh' as <- <-.
    destruct C as [(C & _)|(_ & C)]; [congruence|].
    destruct (match_next_row_repair _ _ _ _ _ Es Hm) as (src' & Hm' & _).
    rewrite Hm' in C. destruct C as (w2 & q2 & Hw & C). rewrite Ec in Hh2. rewrite Hh2 in Hw. injection Hw as <- <-.
    destruct C as [(_ & -> & ->)|(C & _)]; [auto|congruence].
  - pose proof (match_next_row_spec rng (b_src bf)) as M. rewrite Hm in M. destruct M as (M & _).
    assert (Ep : pending rng bf = [r]) by (unfold pending; now rewrite Hr, M).
    pose proof P as (Ebs & _ & _).
    assert (HT : (T <= ts r)%N).
    { rewrite Forall_forall in HR. destruct (HR _ (picked_in _ _ _ _ P)) as (_ & _ & x & Hx & Tx).
      rewrite Ep in Hx. destruct Hx as [->|[]]. exact Tx. }
    assert (HR' : Forall (reaches T rng) (l1 ++ l2)).
    { rewrite Ebs in HR. apply Forall_app in HR as [H1 H2]. inversion H2; subst. now apply Forall_app. }
    assert (ND' : NoDup (map b_chain (l1 ++ l2))).
    { rewrite Ebs, map_app in ND. cbn [map] in ND. apply NoDup_remove in ND as [ND _]. now rewrite map_app. }
    destruct (IH HR' ND') as [(Ho & Same)|(d & Ed & Hd)].
    + left. split; [exact Ho|]. intros bs' t2 o2 HF L2.
      destruct (pick_repair _ _ _ _ _ HF P) as (m1 & b2 & m2 & P2 & F1 & (Ec & _ & Er & Es) & F2).
      rewrite Hr in Er. symmetry in Er.
      destruct (Loop_step _ _ _ _ _ _ _ _ _ _ _ L2 P2 Er) as (u1 & p1 & Hh' & C).
      rewrite Ec in Hh. rewrite Hh in Hh'. injection Hh' as <- <-.
      destruct C as [(C & _)|(_ & C)]; [congruence|].
      destruct (match_next_row_repair _ _ _ _ _ Es Hm) as (src' & Hm' & _).
      rewrite Hm' in C. destruct C as (w2 & q2 & Hw & C). rewrite Ec in Hh2. rewrite Hh2 in Hw. injection Hw as <- <-.
      destruct C as [(C & _)|(_ & C)]; [congruence|].
      eapply Same; [|exact C]. now apply Forall2_app.
    + right. exists (DRow (b_chain bf) r :: DFlush (b_chain bf) :: d). split.
      { exact (hand_then _ _ _ _ _ _ _ Hh (hand_then _ _ _ _ _ _ _ Hh2 Ed)). }
      intros x Hx. rewrite (picked_late _ _ _ _ _ _ _ HR P Hr HT x Hx). eexists; reflexivity.
Qed.

Lemma selected_prefix rng p x t :
  time_ordered p -> selected rng (map Ok p ++ x :: t) = filter (in_range rng) p ++
    (if forallb (fun r => before_end rng (ts r)) p then selected rng (x :: t) else []).
Proof.
  intro Hs. apply Sorted_StronglySorted in Hs; [|exact ts_le_trans].
  induction Hs as [|r p Hs IH Hf]; [reflexivity|]. cbn [map app forallb].
  unfold selected at 1. cbn [rows_before_failure until_end].
  destruct (before_end rng (ts r)) eqn:E; cbn [andb].
  - cbn [filter]. unfold in_range at 1. rewrite E, Bool.andb_true_r.
    unfold selected in IH. destruct (from_begin rng (ts r)); cbn [app]; now rewrite IH.
  - cbn [filter app]. rewrite app_nil_r. symmetry. apply (filter_none (in_range rng) (r :: p)). constructor.
    + unfold in_range. rewrite E. apply Bool.andb_false_r.
    + eapply Forall_impl; [|exact Hf]. intros y Hy. unfold in_range.
      destruct (before_end rng (ts y)) eqn:Ey; [|apply Bool.andb_false_r].
      rewrite (before_end_mono rng r y Hy Ey) in E. discriminate.
Qed.

Lemma Forall2_combine_map {A B C} (f : A -> C) (g : A * B -> C) (R : C -> C -> Prop) l m :
  length l = length m -> (forall a c, In a l -> R (f a) (g (a, c))) ->
  Forall2 R (map f l) (map g (combine l m)).
Proof.
  revert m; induction l as [|a l IH]; intros [|c m] L H; try discriminate; cbn; constructor.
  - apply H. now left.
  - apply IH; [now injection L|]. intros; apply H; now right.
Qed.

Theorem C108_streaming : forall F g ps rng T,
  Forall time_ordered ps ->
  Forall (fun p => exists r, In r p /\ in_range rng r = true /\ (T <= ts r)%N) ps ->
  (exists s o, o <> Ok tt /\ forall rests, length rests = length ps ->
     drive F g (going_on ps rests) rng = (s, o)) \/
  (exists ds lg, each (apply_ev F g) ds [] = (lg, Ok tt) /\
     (forall i p, nth_error ps i = Some p ->
        prefix (earlier rng T p) (rows_to (length ps - 1 - i) ds) /\
        prefix (rows_to (length ps - 1 - i) ds) (filter (in_range rng) p)) /\
     (forall e, In e ds -> match e with DRow c _ => c < length ps | DFlush c => c < length ps end) /\
     time_ordered (rows_handed ds) /\
     forall rests, length rests = length ps ->
       let s := fst (drive F g (going_on ps rests) rng) in
       prefix ds (r_devs s) /\ prefix lg (r_log s)).
Proof.
  intros F g ps rng T Hs HT.
  set (stubs := map (fun p => map Ok p ++ [@Err row (ECustom "")] : source) ps : list source).
  assert (Hrep : forall rests, length rests = length ps -> Forall2 source_repair stubs (going_on ps rests)).
  { intros rests L. apply Forall2_combine_map; [now symmetry|]. intros p c _. cbn [fst snd]. right.
    exists (map Ok p), (Err (ECustom "")), [], c. repeat split; auto.
    intros y Hy. apply in_map_iff in Hy as (z & <- & _). reflexivity. }
  destruct (drive F g stubs rng) as [s0 o0] eqn:E0.
  assert (Hsel : forall p, In p ps -> selected rng (map Ok p ++ [Err (ECustom "")]) = filter (in_range rng) p).
  { intros p Hp. rewrite selected_prefix by (rewrite Forall_forall in Hs; auto).
    destruct forallb; cbn; now rewrite app_nil_r. }
  destruct (drive_cases _ _ _ _ _ _ E0) as [(bs & Eb & L)|(-> & Eb & ->)].
  2:{ exfalso. assert (X : is_ok (make_bufs rng (rev stubs) 0) = false).
      { unfold get_row_buffers in Eb. exact Eb. }
      clear - X Hsel HT. 
      assert (Y : forall l i, (forall s, In s l -> selected rng s <> []) -> is_ok (make_bufs rng l i) = true).
      { induction l as [|a l IH]; intros i H; [reflexivity|]. cbn [make_bufs]. unfold new_buf.
        pose proof (match_next_row_spec rng a) as M. specialize (H a (or_introl eq_refl)) as Ha.
        destruct (match_next_row rng a) as [[o s']|e| | |]; try (destruct M; contradiction).
        cbn [bind]. specialize (IH (S i) (fun s Hs => H s (or_intror Hs))).
        destruct (make_bufs rng l (S i)); cbn in *; congruence. }
      rewrite Y in X; [discriminate|]. intros s Hin. apply in_rev in Hin. unfold stubs in Hin.
      apply in_map_iff in Hin as (p & <- & Hp). rewrite (Hsel p Hp).
      rewrite Forall_forall in HT. destruct (HT p Hp) as (r & Hr & Ri & _).
      assert (Z : In r (filter (in_range rng) p)) by (now apply filter_In). intro C. rewrite C in Z. destruct Z. }
  destruct (bufs_facts _ _ _ Eb) as (_ & Ec & SS & _ & FP).
  assert (Lst : length stubs = length ps) by (unfold stubs; now rewrite map_length).
  assert (Ec' : map b_chain bs = seq 0 (length ps)) by (rewrite <- Lst; exact Ec).
  assert (Hbf : forall bf, In bf bs -> exists p, In p ps /\ pending rng bf = filter (in_range rng) p /\ buf_ok bf).
  { intros bf Hin. destruct (Forall2_in_r _ _ _ _ FP Hin) as (st & Hst & Ep & Ok' & _).
    apply in_rev in Hst. unfold stubs in Hst. apply in_map_iff in Hst as (p & <- & Hp).
    exists p. rewrite Ep, (Hsel p Hp). auto. }
  assert (HR : Forall (reaches T rng) bs).
  { apply Forall_forall. intros bf Hin. destruct (Hbf bf Hin) as (p & Hp & Ep & Ob).
    rewrite Forall_forall in Hs, HT. split; [exact Ob|]. rewrite Ep. split.
    - apply StronglySorted_Sorted. apply SS_filter. apply Sorted_StronglySorted; [exact ts_le_trans|]. apply Hs. exact Hp.
    - destruct (HT p Hp) as (r & Hr & Ri & Ht). exists r. split; [now apply filter_In|exact Ht]. }
  destruct (Loop_stream _ _ _ T _ _ _ _ L HR (SS_NoDup _ SS)) as [(Ho & Same)|(d & Ed & Hd)].
  - left. exists s0, o0. split; [exact Ho|]. intros rests Lr.
    destruct (make_bufs_repair _ _ _ _ _ (Forall2_rev _ _ _ (Hrep rests Lr)) Eb) as (bs' & Eb' & F2).
    destruct (drive F g (going_on ps rests) rng) as [s2 o2] eqn:E2.
    destruct (drive_cases _ _ _ _ _ _ E2) as [(bs2 & Eb2 & L2)|(_ & Eb2 & _)].
    + unfold get_row_buffers in Eb2. rewrite Eb' in Eb2. injection Eb2 as <-.
      destruct (Same _ _ _ F2 L2) as [-> ->]. reflexivity.
    + unfold get_row_buffers in Eb2. rewrite Eb' in Eb2. discriminate.
  - right. destruct Ed as [Ed El]. unfold since in Ed. cbn [r_devs r_log run0 app] in Ed, El. subst d.
    exists (r_devs s0), (r_log s0). split; [exact El|]. split; [|split; [|split]].
    + intros i p Hi. split.
      2:{ assert (Hst : nth_error stubs i = Some (map Ok p ++ [Err (ECustom "")])).
          { unfold stubs. rewrite nth_error_map, Hi. reflexivity. }
          destruct (drive_rows _ _ _ _ _ _ E0 i _ Hst) as (Q & _). rewrite Lst in Q.
          rewrite (Hsel p (nth_error_In _ _ Hi)) in Q. exact Q. }
      assert (Hst : nth_error stubs i = Some (map Ok p ++ [Err (ECustom "")])).
      { unfold stubs. rewrite nth_error_map, Hi. reflexivity. }
      apply nth_rev in Hst. rewrite Lst in Hst.
      pose proof (GraphProps2.Forall2_nth _ _ _ (length ps - 1 - i) FP) as Q0. unfold source in Q0, Hst. rewrite Hst in Q0.
      destruct (nth_error bs (length ps - 1 - i)) as [bf|] eqn:Hn; [|contradiction]. destruct Q0 as (Ep & _).
      assert (Echain : b_chain bf = length ps - 1 - i).
      { assert (X : nth_error (map b_chain bs) (length ps - 1 - i) = Some (b_chain bf)) by now rewrite nth_error_map, Hn.
        rewrite Ec' in X. assert (i < length ps) by (apply nth_error_Some; congruence).
        assert (Y : nth_error (seq 0 (length ps)) (length ps - 1 - i) = Some (0 + (length ps - 1 - i))).
        { rewrite nth_error_nth' with (d := 0) by (rewrite seq_length; lia). f_equal. rewrite seq_nth by lia. reflexivity. }
        rewrite Y in X. injection X as X. lia. }
      rewrite <- Echain. pose proof (Hd bf (nth_error_In _ _ Hn)) as Q.
      rewrite Ep, (Hsel p (nth_error_In _ _ Hi)) in Q.
      unfold earlier. replace (filter (fun r => in_range rng r && (ts r <? T)%N) p) with (filter (ltT T) (filter (in_range rng) p)); [exact Q|].
      rewrite filter_filter. apply filter_ext. intro r. unfold ltT. apply Bool.andb_comm.
    + rewrite <- Lst. exact (drive_chains _ _ _ _ _ _ E0).
    + eapply drive_sorted; [exact E0|]. intros src Hin. unfold stubs in Hin. apply in_map_iff in Hin as (p & <- & Hp).
      rewrite Forall_forall in Hs. specialize (Hs p Hp). clear - Hs.
      replace (rows_before_failure (map Ok p ++ [Err (ECustom "")])) with p; [exact Hs|].
      clear. induction p as [|r p IH]; cbn; congruence.
    + intros rests Lr. cbn zeta. destruct (drive F g (going_on ps rests) rng) as [s2 o2] eqn:E2. cbn [fst].
      assert (GR : graph_repair g g).
      { clear. induction g as [|c g IH]; constructor; auto. induction c as [|nd c IHc]; constructor; auto.
        destruct nd; constructor. split; auto. }
      destruct (drive_repair _ _ _ _ _ _ _ _ _ _ GR (Hrep rests Lr) E0 E2) as (_ & A & B).
      auto.
Qed.
Print Assumptions C108_streaming.

(** What drive hands to the graph. *)
From Verif Require Export DriveLoop.

Lemma hand_inv F g s e s1 o :
  hand F g s e = (s1, o) ->
  r_devs s1 = r_devs s ++ [e] /\ apply_ev F g (r_log s) e = (r_log s1, o).
Proof.
  unfold hand. destruct (apply_ev F g (r_log s) e) as [lg o'] eqn:E.
  intros [= <- <-]. auto.
Qed.

Lemma each_app {A St} (f : St -> A -> St * res unit) xs ys s s1 :
  each f xs s = (s1, Ok tt) -> each f (xs ++ ys) s = each f ys s1.
Proof.
  revert s; induction xs as [|x xs IH]; intros s H; cbn in *; [congruence|].
  destruct (f s x) as [s' [[]|e| | |]]; try discriminate. now apply IH.
Qed.

Lemma rows_to_app c a d : rows_to c (a ++ d) = rows_to c a ++ rows_to c d.
Proof.
  induction a as [|[x r|x] a IH]; cbn; auto. rewrite IH. destruct (x =? c); reflexivity.
Qed.
Lemma rows_handed_app a d : rows_handed (a ++ d) = rows_handed a ++ rows_handed d.
Proof. induction a as [|[x r|x] a IH]; cbn; auto. rewrite IH. reflexivity. Qed.

Section Props.
  Variables (F : nat) (g : dgraph) (rng : ts_range).
  Notation LoopR := (Loop F g rng).

  (** The log is the effect of the events handed over, one after the other. *)
  Lemma Loop_exec bs s s' o :
    LoopR bs s s' o ->
    exists new o1, r_devs s' = r_devs s ++ new /\
      each (apply_ev F g) new (r_log s) = (r_log s', o1) /\ (o1 = Ok tt \/ o1 = o).
  Proof.
    induction 1 as [s|bs s l1 bf l2 P Hn
      |bs s s1 o l1 bf l2 r P Hr Hh Ho
      |bs s s1 e l1 bf l2 r P Hr Hh Hm He
      |bs s s1 s' o l1 bf bf' l2 r r' P Hr Hh Hm Hc Hr' Ht HL IH
      |bs s s1 s2 o l1 bf l2 r src P Hr Hh Hm Hh2 Ho
      |bs s s1 s2 s' o l1 bf l2 r src P Hr Hh Hm Hh2 HL IH].
    - exists [], (Ok tt). rewrite app_nil_r. auto.
    - exists [], (Ok tt). rewrite app_nil_r. auto.
    - apply hand_inv in Hh as [D A]. exists [DRow (b_chain bf) r], o. cbn [each]. rewrite D, A.
      split; [reflexivity|]. split; [|auto]. destruct o as [[]|? | | |]; congruence.
    - apply hand_inv in Hh as [D A]. exists [DRow (b_chain bf) r], (Ok tt). cbn [each].
      rewrite D, A. auto.
    - apply hand_inv in Hh as [D A]. destruct IH as (new & o1 & D2 & E & O).
      exists (DRow (b_chain bf) r :: new), o1. cbn [each]. rewrite A, D2, D, <- app_assoc. auto.
    - apply hand_inv in Hh as [D A]. apply hand_inv in Hh2 as [D2 A2].
      exists [DRow (b_chain bf) r; DFlush (b_chain bf)], o. cbn [each].
      rewrite A, A2, D2, D, <- app_assoc.
      split; [reflexivity|]. split; [|auto]. destruct o as [[]|? | | |]; congruence.
    - apply hand_inv in Hh as [D A]. apply hand_inv in Hh2 as [D2 A2].
      destruct IH as (new & o1 & D3 & E & O).
      exists (DRow (b_chain bf) r :: DFlush (b_chain bf) :: new), o1. cbn [each].
      rewrite A, A2, D3, D2, D, <- !app_assoc. auto.
  Qed.

  Definition parts (c : nat) (bs : list buf) : list row :=
    concat (map (fun bf => if b_chain bf =? c then pending rng bf else []) bs).

  Lemma parts_app c a d : parts c (a ++ d) = parts c a ++ parts c d.
  Proof. unfold parts. rewrite map_app, concat_app. reflexivity. Qed.
  Lemma parts_cons c x l :
    parts c (x :: l) = (if b_chain x =? c then pending rng x else []) ++ parts c l.
  Proof. reflexivity. Qed.

  Lemma parts_absent c bs : ~ In c (map b_chain bs) -> parts c bs = [].
  Proof.
    induction bs as [|x bs IH]; intro H; [reflexivity|]. rewrite parts_cons.
    cbn in H. destruct (Nat.eqb_spec (b_chain x) c); [tauto|]. apply IH. tauto.
  Qed.

  Lemma nodup_mid (l1 : list buf) bf l2 :
    NoDup (map b_chain (l1 ++ bf :: l2)) ->
    ~ In (b_chain bf) (map b_chain l1) /\ ~ In (b_chain bf) (map b_chain l2) /\
    NoDup (map b_chain (l1 ++ l2)).
  Proof.
    rewrite !map_app. cbn. intro H. pose proof (NoDup_remove_2 _ _ _ H) as N.
    rewrite in_app_iff in N. apply NoDup_remove_1 in H. tauto.
  Qed.

  Lemma pending_step bf bf' r' r :
    b_row bf = Some r -> match_next_row rng (b_src bf) = Ok (Some r', b_src bf') ->
    b_row bf' = Some r' -> pending rng bf = r :: pending rng bf'.
  Proof.
    intros Hr Hm Hr'. unfold pending. rewrite Hr, Hr'.
    pose proof (match_next_row_spec rng (b_src bf)) as M. rewrite Hm in M.
    destruct M as (-> & _). reflexivity.
  Qed.
  Lemma pending_last bf r src :
    b_row bf = Some r -> match_next_row rng (b_src bf) = Ok (None, src) ->
    pending rng bf = [r].
  Proof.
    intros Hr Hm. unfold pending. rewrite Hr.
    pose proof (match_next_row_spec rng (b_src bf)) as M. rewrite Hm in M.
    destruct M as (-> & _). reflexivity.
  Qed.
  Lemma pending_fail bf r e :
    b_row bf = Some r -> match_next_row rng (b_src bf) = e -> is_ok e = false ->
    pending rng bf = [r].
  Proof.
    intros Hr Hm He. unfold pending. rewrite Hr.
    pose proof (match_next_row_spec rng (b_src bf)) as M. rewrite Hm in M.
    destruct e; try discriminate He; destruct M as (-> & _); reflexivity.
  Qed.

  (* parts of the picked chain and of the others *)
  Lemma parts_pick c l1 bf l2 :
    NoDup (map b_chain (l1 ++ bf :: l2)) ->
    parts c (l1 ++ bf :: l2) =
      if b_chain bf =? c then pending rng bf else parts c (l1 ++ l2).
  Proof.
    intro H. apply nodup_mid in H as (N1 & N2 & _).
    rewrite !parts_app, parts_cons. destruct (Nat.eqb_spec (b_chain bf) c) as [<-|]; [|reflexivity].
    rewrite !parts_absent by assumption. now rewrite app_nil_r.
  Qed.
  Lemma parts_gone l1 bf l2 :
    NoDup (map b_chain (l1 ++ bf :: l2)) -> parts (b_chain bf) (l1 ++ l2) = [].
  Proof.
    intro H. apply nodup_mid in H as (N1 & N2 & _).
    rewrite parts_app, !parts_absent by assumption. reflexivity.
  Qed.

  (** Rows handed to a chain: a prefix of its buffer's rows; all of them on success. *)
  Lemma Loop_rows bs s s' o :
    LoopR bs s s' o -> NoDup (map b_chain bs) ->
    forall new, r_devs s' = r_devs s ++ new ->
    forall c, prefix (rows_to c new) (parts c bs) /\
              (o = Ok tt -> rows_to c new = parts c bs).
  Proof.
    assert (nilnew : forall (l new : list devent), l = l ++ new -> new = []).
    { intros l new H. rewrite <- (app_nil_r l) in H at 1. now apply app_inv_head in H. }
    induction 1 as [s|bs s l1 bf l2 P Hn
      |bs s s1 o l1 bf l2 r P Hr Hh Ho
      |bs s s1 e l1 bf l2 r P Hr Hh Hm He
      |bs s s1 s' o l1 bf bf' l2 r r' P Hr Hh Hm Hc Hr' Ht HL IH
      |bs s s1 s2 o l1 bf l2 r src P Hr Hh Hm Hh2 Ho
      |bs s s1 s2 s' o l1 bf l2 r src P Hr Hh Hm Hh2 HL IH]; intros ND new Hnew c.
    - apply nilnew in Hnew as ->. cbn. split; [exists []; reflexivity|reflexivity].
    - apply nilnew in Hnew as ->. cbn. split; [eexists; reflexivity|discriminate].
    - apply hand_inv in Hh as [D _]. rewrite D in Hnew. apply app_inv_head in Hnew as <-.
      destruct P as (-> & _). rewrite parts_pick by exact ND. cbn.
      split; [|congruence]. destruct (b_chain bf =? c); [|eexists; reflexivity].
      unfold pending. rewrite Hr. eexists; reflexivity.
    - apply hand_inv in Hh as [D _]. rewrite D in Hnew. apply app_inv_head in Hnew as <-.
      destruct P as (-> & _). rewrite parts_pick by exact ND. cbn.
      rewrite (pending_fail _ _ _ Hr Hm He).
      split; [|destruct e; discriminate].
      destruct (b_chain bf =? c); eexists; reflexivity.
    - apply hand_inv in Hh as [D _].
      destruct (Loop_exec _ _ _ _ HL) as (new2 & _ & D2 & _).
      rewrite D2, D, <- app_assoc in Hnew. apply app_inv_head in Hnew as <-.
      destruct P as (-> & _).
      assert (ND' : NoDup (map b_chain (l1 ++ bf' :: l2))).
      { rewrite map_app in *. cbn in *. now rewrite Hc. }
      destruct (IH ND' new2 D2 c) as [[z Pz] Eq].
      rewrite parts_pick in * by assumption. rewrite Hc in *. cbn.
      destruct (b_chain bf =? c); [|split; [exists z; exact Pz|exact Eq]].
      rewrite (pending_step bf bf' r' r Hr Hm Hr').
      split; [exists z; cbn; now rewrite Pz|]. intro Ho. now rewrite Eq.
    - apply hand_inv in Hh as [D _]. apply hand_inv in Hh2 as [D2 _].
      rewrite D2, D, <- app_assoc in Hnew. apply app_inv_head in Hnew as <-.
      destruct P as (-> & _). rewrite parts_pick by exact ND. cbn.
      rewrite (pending_last _ _ _ Hr Hm). split; [|congruence].
      destruct (b_chain bf =? c); eexists; reflexivity.
    - apply hand_inv in Hh as [D _]. apply hand_inv in Hh2 as [D2 _].
      destruct (Loop_exec _ _ _ _ HL) as (new2 & _ & D3 & _).
      rewrite D3, D2, D, <- !app_assoc in Hnew. apply app_inv_head in Hnew as <-.
      destruct P as (-> & _).
      destruct (nodup_mid _ _ _ ND) as (N1 & N2 & ND').
      destruct (IH ND' new2 D3 c) as [[z Pz] Eq].
      rewrite parts_pick by assumption. cbn.
      destruct (Nat.eqb_spec (b_chain bf) c) as [<-|Hne].
      + rewrite parts_gone in Pz by exact ND. symmetry in Pz. apply app_eq_nil in Pz as [-> _].
        rewrite (pending_last _ _ _ Hr Hm). split; [exists []; reflexivity|reflexivity].
      + split; [exists z; exact Pz|exact Eq].
  Qed.

  (** The pick rule, in terms of what was handed over before. *)
  Definition pick_rule (bs : list buf) (new : list devent) : Prop :=
    forall pre c r post, new = pre ++ DRow c r :: post ->
    forall c' r', nth_error (parts c' bs) (length (rows_to c' pre)) = Some r' ->
    (ts r < ts r')%N \/ (ts r = ts r' /\ c <= c').

  Lemma pick_now bs l1 bf l2 r c' r' :
    picked bs l1 bf l2 -> Forall buf_ok bs -> b_row bf = Some r ->
    StronglySorted lt (map b_chain bs) -> NoDup (map b_chain bs) ->
    nth_error (parts c' bs) 0 = Some r' ->
    (ts r < ts r')%N \/ (ts r = ts r' /\ b_chain bf <= c').
  Proof.
    intros (-> & Hlt & Hle) Hok Hr Hs ND Hn.
    assert (Hbf : b_ts bf = ts r).
    { apply Forall_app in Hok as [_ Hok]. inversion Hok as [|? ? O _]; subst.
      unfold buf_ok in O. now rewrite Hr in O. }
    (* r' is the pending row of some buffer x with chain c' *)
    assert (exists x, In x (l1 ++ bf :: l2) /\ b_chain x = c' /\ b_row x = Some r') as (x & Hin & Hc & Hx).
    { clear - Hn. induction (l1 ++ bf :: l2) as [|y l IH]; [discriminate|].
      rewrite parts_cons in Hn. destruct (Nat.eqb_spec (b_chain y) c') as [E|E].
      - unfold pending in Hn. destruct (b_row y) as [ry|] eqn:Ey.
        + cbn in Hn. injection Hn as ->. exists y. split; [now left|auto].
        + destruct (IH Hn) as (x & A & C). exists x. split; [now right|auto].
      - destruct (IH Hn) as (x & A & C). exists x. split; [now right|auto]. }
    assert (Hxt : b_ts x = ts r').
    { rewrite Forall_forall in Hok. specialize (Hok x Hin). unfold buf_ok in Hok.
      now rewrite Hx in Hok. }
    apply in_app_or in Hin as [Hin|[<-|Hin]].
    - rewrite Forall_forall in Hlt. specialize (Hlt x Hin). lia.
    - right. split; [congruence|lia].
    - rewrite Forall_forall in Hle. specialize (Hle x Hin).
      rewrite map_app in Hs. cbn in Hs.
      assert (StronglySorted lt (b_chain bf :: map b_chain l2)) as Hs2.
      { clear - Hs. induction (map b_chain l1) as [|y l IH]; [exact Hs|].
        inversion Hs; auto. }
      inversion Hs2 as [|? ? _ Hf]; subst. rewrite Forall_forall in Hf.
      specialize (Hf (b_chain x) (in_map _ _ _ Hin)). lia.
  Qed.

  Lemma SS_remove l1 (x : nat) l2 : StronglySorted lt (l1 ++ x :: l2) -> StronglySorted lt (l1 ++ l2).
  Proof.
    induction l1 as [|y l1 IH]; cbn; intro H; inversion H as [|? ? S Fl]; subst; auto.
    constructor; auto. rewrite Forall_app in *. destruct Fl as [A C].
    inversion C; auto.
  Qed.
  Lemma SS_NoDup l : StronglySorted lt l -> NoDup l.
  Proof.
    induction 1 as [|x l S IH Fl]; constructor; auto.
    rewrite Forall_forall in Fl. intro C. specialize (Fl x C). lia.
  Qed.

  Lemma Loop_pick bs s s' o :
    LoopR bs s s' o -> StronglySorted lt (map b_chain bs) -> Forall buf_ok bs ->
    forall new, r_devs s' = r_devs s ++ new -> pick_rule bs new.
  Proof.
    assert (nilnew : forall (l new : list devent), l = l ++ new -> new = []).
    { intros l new H. rewrite <- (app_nil_r l) in H at 1. now apply app_inv_head in H. }
    induction 1 as [s|bs s l1 bf l2 P Hn
      |bs s s1 o l1 bf l2 r P Hr Hh Ho
      |bs s s1 e l1 bf l2 r P Hr Hh Hm He
      |bs s s1 s' o l1 bf bf' l2 r r' P Hr Hh Hm Hc Hr' Ht HL IH
      |bs s s1 s2 o l1 bf l2 r src P Hr Hh Hm Hh2 Ho
      |bs s s1 s2 s' o l1 bf l2 r src P Hr Hh Hm Hh2 HL IH]; intros SS Hok new Hnew
        pre c ro post Epre c' rq Hq; pose proof (SS_NoDup _ SS) as ND.
    - apply nilnew in Hnew as ->. destruct pre; discriminate.
    - apply nilnew in Hnew as ->. destruct pre; discriminate.
    - apply hand_inv in Hh as [D _]. rewrite D in Hnew. apply app_inv_head in Hnew as <-.
      destruct pre as [|d pre]; [|destruct pre; discriminate].
      injection Epre as <- <- <-. eapply pick_now; eauto.
    - apply hand_inv in Hh as [D _]. rewrite D in Hnew. apply app_inv_head in Hnew as <-.
      destruct pre as [|d pre]; [|destruct pre; discriminate].
      injection Epre as <- <- <-. eapply pick_now; eauto.
    - apply hand_inv in Hh as [D _].
      destruct (Loop_exec _ _ _ _ HL) as (new2 & _ & D2 & _).
      rewrite D2, D, <- app_assoc in Hnew. apply app_inv_head in Hnew as <-.
      destruct pre as [|d pre].
      { injection Epre as <- <- <-. eapply pick_now; eauto. }
      cbn in Epre. injection Epre as <- Epre.
      destruct P as (-> & _).
      assert (Em : map b_chain (l1 ++ bf' :: l2) = map b_chain (l1 ++ bf :: l2)).
      { rewrite !map_app. cbn. now rewrite Hc. }
      eapply IH; try exact D2; try exact Epre; try (rewrite Em; assumption).
      + apply Forall_app in Hok as [O1 O2]. inversion O2; subst.
        apply Forall_app. split; [assumption|]. constructor; [|assumption].
        unfold buf_ok. now rewrite Hr'.
      + cbn [rows_to] in Hq. rewrite parts_pick in * by (rewrite ?Em; assumption).
        rewrite Hc. destruct (b_chain bf =? c'); [|exact Hq].
        rewrite (pending_step bf bf' r' r Hr Hm Hr') in Hq. exact Hq.
    - apply hand_inv in Hh as [D _]. apply hand_inv in Hh2 as [D2 _].
      rewrite D2, D, <- app_assoc in Hnew. apply app_inv_head in Hnew as <-.
      destruct pre as [|d [|d2 [|d3 pre]]]; try discriminate.
      injection Epre as <- <- <-. eapply pick_now; eauto.
    - apply hand_inv in Hh as [D _]. apply hand_inv in Hh2 as [D2 _].
      destruct (Loop_exec _ _ _ _ HL) as (new2 & _ & D3 & _).
      rewrite D3, D2, D, <- !app_assoc in Hnew. apply app_inv_head in Hnew as <-.
      destruct pre as [|d [|d2 pre]]; try discriminate.
      { injection Epre as <- <- <-. eapply pick_now; eauto. }
      cbn in Epre. injection Epre as <- <- Epre.
      destruct P as (-> & _).
      eapply IH; try exact D3; try exact Epre.
      + rewrite map_app in *. cbn in SS. now apply SS_remove in SS.
      + apply Forall_app in Hok as [O1 O2]. inversion O2; subst. apply Forall_app. auto.
      + cbn [rows_to] in Hq. rewrite parts_pick in Hq by assumption.
        destruct (Nat.eqb_spec (b_chain bf) c') as [<-|]; [|exact Hq].
        cbn [length] in Hq. rewrite (pending_last _ _ _ Hr Hm) in Hq.
        destruct (length (rows_to (b_chain bf) pre)); discriminate Hq.
  Qed.

  (** Every flush comes after the chain's last row, and every chain is flushed. *)
  Lemma Loop_flush bs s s' :
    LoopR bs s s' (Ok tt) -> NoDup (map b_chain bs) ->
    forall new, r_devs s' = r_devs s ++ new ->
    (forall bf, In bf bs -> In (DFlush (b_chain bf)) new) /\
    (forall pre c r post, new = pre ++ DRow c r :: post -> In (DFlush c) post) /\
    (forall e, In e new -> exists bf, In bf bs /\
        match e with DRow c _ => c = b_chain bf | DFlush c => c = b_chain bf end).
  Proof.
    assert (nilnew : forall (l new : list devent), l = l ++ new -> new = []).
    { intros l new H. rewrite <- (app_nil_r l) in H at 1. now apply app_inv_head in H. }
    intro H. remember (Ok tt) as o eqn:Eo. revert Eo.
    induction H as [s|bs s l1 bf l2 P Hn
      |bs s s1 o l1 bf l2 r P Hr Hh Ho
      |bs s s1 e l1 bf l2 r P Hr Hh Hm He
      |bs s s1 s' o l1 bf bf' l2 r r' P Hr Hh Hm Hc Hr' Ht HL IH
      |bs s s1 s2 o l1 bf l2 r src P Hr Hh Hm Hh2 Ho
      |bs s s1 s2 s' o l1 bf l2 r src P Hr Hh Hm Hh2 HL IH]; intros Eo ND new Hnew.
    - apply nilnew in Hnew as ->. repeat split.
      + intros ? [].
      + intros pre c r post E. destruct pre; discriminate.
      + intros ? [].
    - discriminate.
    - congruence.
    - destruct e; discriminate.
    - apply hand_inv in Hh as [D _].
      destruct (Loop_exec _ _ _ _ HL) as (new2 & _ & D2 & _).
      rewrite D2, D, <- app_assoc in Hnew. apply app_inv_head in Hnew as <-.
      destruct P as (-> & _).
      assert (ND' : NoDup (map b_chain (l1 ++ bf' :: l2))).
      { rewrite map_app in *. cbn in *. now rewrite Hc. }
      destruct (IH Eo ND' new2 D2) as (A & B & C).
      assert (Hbf' : In (DFlush (b_chain bf)) new2).
      { rewrite <- Hc. apply A. apply in_or_app. right. now left. }
      repeat split.
      + intros x Hx. cbn. right. apply in_app_or in Hx as [Hx|[<-|Hx]].
        * apply A. apply in_or_app. now left.
        * exact Hbf'.
        * apply A. apply in_or_app. right. now right.
      + intros pre c ro post E. destruct pre as [|d pre]; cbn in E.
        * injection E as <- <- <-. exact Hbf'.
        * injection E as <- E. eapply B; eauto.
      + intros e [<-|He].
        * exists bf. split; [|reflexivity]. apply in_or_app. right. now left.
        * destruct (C e He) as (x & Hx & Ex).
          apply in_app_or in Hx as [Hx|[<-|Hx]].
          -- exists x. split; [apply in_or_app; now left|exact Ex].
          -- exists bf. rewrite Hc in Ex. split; [apply in_or_app; right; now left|exact Ex].
          -- exists x. split; [apply in_or_app; right; now right|exact Ex].
    - congruence.
    - apply hand_inv in Hh as [D _]. apply hand_inv in Hh2 as [D2 _].
      destruct (Loop_exec _ _ _ _ HL) as (new2 & _ & D3 & _).
      rewrite D3, D2, D, <- !app_assoc in Hnew. apply app_inv_head in Hnew as <-.
      destruct P as (-> & _).
      destruct (nodup_mid _ _ _ ND) as (N1 & N2 & ND').
      destruct (IH Eo ND' new2 D3) as (A & B & C).
      repeat split.
      + intros x Hx. cbn. apply in_app_or in Hx as [Hx|[<-|Hx]]; [|auto|];
          right; right; apply A; apply in_or_app; auto.
      + intros pre c ro post E. destruct pre as [|d [|d2 pre]]; cbn in E; try discriminate.
        * injection E as <- <- <-. now left.
        * injection E as <- <- E. eapply B; eauto.
      + intros e [<-|[<-|He]].
        * exists bf. split; [|reflexivity]. apply in_or_app. right. now left.
        * exists bf. split; [|reflexivity]. apply in_or_app. right. now left.
        * destruct (C e He) as (x & Hx & Ex).
          apply in_app_or in Hx as [Hx|Hx];
            (exists x; split; [apply in_or_app; cbn; auto|exact Ex]).
  Qed.

  (** Success needs a row in every buffer. *)
  Lemma Loop_ok_rows bs s s' :
    LoopR bs s s' (Ok tt) -> Forall (fun bf => b_row bf <> None) bs.
  Proof.
    intro H. remember (Ok tt) as o eqn:Eo. revert Eo.
    induction H as [s|bs s l1 bf l2 P Hn
      |bs s s1 o l1 bf l2 r P Hr Hh Ho
      |bs s s1 e l1 bf l2 r P Hr Hh Hm He
      |bs s s1 s' o l1 bf bf' l2 r r' P Hr Hh Hm Hc Hr' Ht HL IH
      |bs s s1 s2 o l1 bf l2 r src P Hr Hh Hm Hh2 Ho
      |bs s s1 s2 s' o l1 bf l2 r src P Hr Hh Hm Hh2 HL IH]; intros Eo; try congruence.
    - constructor.
    - destruct e; discriminate.
    - specialize (IH Eo). destruct P as (-> & _). apply Forall_app in IH as [A B].
      inversion B; subst. apply Forall_app. split; auto. constructor; auto. congruence.
    - specialize (IH Eo). destruct P as (-> & _). apply Forall_app in IH as [A B].
      apply Forall_app. split; auto. constructor; auto. congruence.
  Qed.

  (** Conversely the loop only fails where a source or a sink fails. *)
  Lemma Loop_outcome bs s s' o :
    LoopR bs s s' o ->
    Forall (fun bf => b_row bf <> None /\ readable rng (b_src bf)) bs ->
    (forall lg e, (exists bf r, e = DRow (b_chain bf) r /\ In bf bs /\ In r (pending rng bf)) \/
                  (exists c, e = DFlush c /\ In c (map b_chain bs)) ->
        exists lg', apply_ev F g lg e = (lg', Ok tt)) ->
    o = Ok tt.
  Proof.
    induction 1 as [s|bs s l1 bf l2 P Hn
      |bs s s1 o l1 bf l2 r P Hr Hh Ho
      |bs s s1 e l1 bf l2 r P Hr Hh Hm He
      |bs s s1 s' o l1 bf bf' l2 r r' P Hr Hh Hm Hc Hr' Ht HL IH
      |bs s s1 s2 o l1 bf l2 r src P Hr Hh Hm Hh2 Ho
      |bs s s1 s2 s' o l1 bf l2 r src P Hr Hh Hm Hh2 HL IH]; intros HF HA.
    - reflexivity.
    - destruct P as (-> & _). apply Forall_app in HF as [_ HF]. inversion HF; subst. tauto.
    - apply hand_inv in Hh as [_ A].
      assert (In bf bs) as Hin by (destruct P as (-> & _); apply in_elt).
      assert (In r (pending rng bf)) as Hp by (unfold pending; rewrite Hr; now left).
      destruct (HA (r_log s) (DRow (b_chain bf) r)) as (lg' & E); [left; exists bf, r; auto|]. congruence.
    - destruct P as (-> & _). apply Forall_app in HF as [_ HF].
      inversion HF as [|? ? [_ R] _]; subst.
      pose proof (match_next_row_spec rng (b_src bf)) as M.
      destruct (match_next_row rng (b_src bf)); try discriminate He; tauto.
    - destruct P as (-> & _). apply IH.
      + apply Forall_app in HF as [F1 F2]. inversion F2 as [|? ? [_ R] F3]; subst.
        apply Forall_app. split; auto. constructor; auto. split; [congruence|].
        pose proof (match_next_row_spec rng (b_src bf)) as M. rewrite Hm in M.
        apply M. exact R.
      + intros lg e He. apply HA. destruct He as [(x & ro & -> & Hx & Hp)|He].
        * left. apply in_app_or in Hx as [Hx|[<-|Hx]].
          -- exists x, ro. rewrite in_app_iff. auto.
          -- exists bf, ro. rewrite Hc. split; [reflexivity|]. split; [apply in_elt|].
             rewrite (pending_step _ _ _ _ Hr Hm Hr'). now right.
          -- exists x, ro. rewrite in_app_iff. cbn. auto.
        * right. replace (map b_chain (l1 ++ bf :: l2)) with (map b_chain (l1 ++ bf' :: l2)); [exact He|].
          rewrite !map_app. cbn. now rewrite Hc.
    - apply hand_inv in Hh2 as [_ A].
      assert (In (b_chain bf) (map b_chain bs)) as Hin.
      { destruct P as (-> & _). rewrite map_app. apply in_or_app. right. now left. }
      destruct (HA (r_log s1) (DFlush (b_chain bf))) as (lg' & E); [right; eauto|]. congruence.
    - destruct P as (-> & _). apply IH.
      + apply Forall_app in HF as [F1 F2]. inversion F2; subst. apply Forall_app. auto.
      + intros lg e He. apply HA. rewrite map_app in *. cbn.
        destruct He as [(x & ro & -> & Hin & Hp)|(c & -> & Hin)]; [left|right];
          [exists x, ro|exists c]; (split; [reflexivity|]);
          [split; [|exact Hp]|]; apply in_app_or in Hin; apply in_or_app; cbn; tauto.
  Qed.
End Props.
